(** Correctness of HuffTableBuilder::build. *)
From Coq Require Import List ZArith Lia Bool Permutation.
From Coq Require Import ZifyBool ZifyNat.
From Verif Require Import Base BaseLemmas LjpegEnc HuffTree HuffCanon.
Import ListNotations.
Open Scope Z_scope.

Lemma NoDup_app_intro {A} (a b : list A) :
  NoDup a -> NoDup b -> (forall x, In x a -> ~ In x b) -> NoDup (a ++ b).
Proof.
  induction 1; simpl; intros Hb Hd; auto. constructor.
  - intros X. apply in_app_or in X. destruct X; [contradiction|]. apply (Hd x); simpl; auto.
  - apply IHNoDup; auto.
Qed.

Lemma sort_input_in cs s : In s (sort_input cs) <-> (s < 17)%nat /\ (1 <= nth s cs 0 <= 32)%nat.
Proof.
  unfold sort_input. rewrite in_flat_map. split.
  - intros (i & Hi & Hs). apply filter_In in Hs. rewrite in_seq in *. lia.
  - intros [H1 H2]. exists (nth s cs 0%nat). rewrite filter_In, !in_seq. split; lia.
Qed.

Lemma sort_input_nodup cs : NoDup (sort_input cs).
Proof.
  unfold sort_input.
  enough (forall n a, NoDup (flat_map (fun i => filter (fun j => (nth j cs 0 =? i)%nat) (seq 0 17)) (seq a n))) by auto.
  induction n; intros a; [constructor|].
  change (seq a (S n)) with (a :: seq (S a) n). cbn [flat_map].
  apply NoDup_app_intro; auto.
  - apply NoDup_filter, seq_NoDup.
  - intros x Hx Hy. apply filter_In in Hx. apply in_flat_map in Hy. destruct Hy as (j & Hj & Hy).
    apply filter_In in Hy. apply in_seq in Hj. lia.
Qed.

(** A canonical code: [sz] the code lengths in table order, [hv] the symbols. *)
Record canon (sz hv : list nat) : Prop := {
  cn_len : length sz = length hv;
  cn_bound : (1 <= length sz <= 17)%nat;
  cn_nodup : NoDup hv;
  cn_hv : forall s, In s hv -> (s < 17)%nat;
  cn_sz : forall i, (i < length sz)%nat -> (1 <= nth i sz 0 <= 16)%nat;
  cn_mono : mono sz;
  cn_kraft : start sz (length sz) < 65536
}.

Theorem build_table_spec hist :
  length hist = 17%nat -> Forall (fun f => 0 <= f) hist -> zsum hist + 1 < 2 ^ 64 ->
  (exists s, 0 < nth s hist 0) ->
  exists sz hv, build_table hist = Ok (map (canon_entry sz hv) (seq 0 17)) /\ canon sz hv /\
    forall s, In s hv <-> (s < 17)%nat /\ 0 < nth s hist 0.
Proof.
  intros HL HN HS (s0 & Hs0). unfold build_table.
  assert (Hs17 : (s0 < 17)%nat).
  { destruct (Nat.lt_ge_cases s0 17); auto. rewrite nth_overflow in Hs0 by lia. lia. }
  destruct (codesizes_spec hist HL HN HS) as (h & E & L & Z0 & LT & K).
  rewrite E. cbn [bind]. set (cs := hb_codesize h) in *. cbn zeta in *.
  set (U := used (hist ++ [1])) in *.
  set (U' := filter (fun i => 0 <? nth i hist 0) (seq 0 17)).
  assert (EU : U = U' ++ [17%nat]).
  { unfold U, used, U'. rewrite (seq_S 17 0), filter_app. f_equal.
    - apply filter_ext_in. intros i Hi. apply in_seq in Hi. rewrite app_nth1 by lia. auto.
    - cbn [filter plus]. rewrite app_nth2 by lia. rewrite HL. reflexivity. }
  assert (InU' : forall s, In s U' <-> (s < 17)%nat /\ 0 < nth s hist 0).
  { intros s. unfold U'. rewrite filter_In, in_seq. lia. }
  assert (NDU : NoDup U) by (apply NoDup_filter, seq_NoDup).
  assert (HU : (2 <= length U <= 18)%nat).
  { split.
    - rewrite EU, app_length. simpl. assert (In s0 U') by (apply InU'; auto). destruct U'; simpl in *; [tauto|lia].
    - transitivity (length (seq 0 18)); [|rewrite seq_length; lia]. apply NoDup_incl_length; auto.
      intros i Hi. unfold U, used in Hi. apply filter_In in Hi. tauto. }
  assert (LT18 : forall i, (nth i cs 0 < 18)%nat).
  { intros i. destruct (in_dec Nat.eq_dec i U); [specialize (LT i i0)|rewrite Z0 by auto]; lia. }
  assert (POS : forall i, In i U -> (1 <= nth i cs 0)%nat).
  { intros i Hi. destruct (Nat.eq_dec (nth i cs 0%nat) 0) as [H0|]; [|lia]. exfalso.
    destruct (in_split _ _ Hi) as (a & b & EQ).
    assert (exists j, In j (a ++ b)) as (j & Hj).
    { rewrite EQ, app_length in HU. simpl in HU. destruct a as [|x a]; [destruct b as [|x b]|].
      - simpl in HU. lia. - exists x; simpl; auto. - exists x; simpl; auto. }
    assert (HP : forall l, (forall x, In x l -> In x U) ->
       0 <= zsum (map (fun i => 2 ^ (18 - Z.of_nat (nth i cs 0%nat))) l) /\
       (In j l -> 0 < zsum (map (fun i => 2 ^ (18 - Z.of_nat (nth i cs 0%nat))) l))).
    { induction l as [|x l IH]; intros Hl; [split; [reflexivity|intros []]|].
      cbn [map]. unfold zsum in *. cbn [fold_right].
      specialize (IH (fun x h => Hl x (or_intror h))). specialize (LT18 x).
      assert (0 < 2 ^ (18 - Z.of_nat (nth x cs 0%nat))) by (apply Z.pow_pos_nonneg; lia).
      split; [lia|]. intros [->|]; [lia|]. destruct IH as [_ IH]. specialize (IH H1). lia. }
    rewrite EQ in K. rewrite map_app, zsum_app in K. cbn [map] in K. unfold zsum at 2 in K. cbn [fold_right] in K.
    fold (zsum (map (fun i => 2 ^ (18 - Z.of_nat (nth i cs 0%nat))) b)) in K. rewrite H0 in K.
    change (2 ^ (18 - Z.of_nat 0)) with (2 ^ 18) in K.
    destruct (HP a) as [Pa Pa']. { intros; rewrite EQ; apply in_or_app; auto. }
    destruct (HP b) as [Pb Pb']. { intros; rewrite EQ; apply in_or_app; right; simpl; auto. }
    apply in_app_or in Hj. destruct Hj as [Hj|Hj]; [specialize (Pa' Hj)|specialize (Pb' Hj)]; lia. }
  destruct (count_codes_spec cs L) as (bits & EC & LB & B0 & BN).
  { intros i. specialize (LT18 i). lia. }
  rewrite EC. cbn [bind].
  assert (CU : forall c, (1 <= c)%nat -> cnt cs (seq 0 18) c = cnt cs U c).
  { intros c Hc. unfold U, used. symmetry. apply cnt_filter. intros i Hi Hp. rewrite Z0; [lia|].
    intros X. unfold U, used in X. apply filter_In in X. destruct X. congruence. }
  assert (C0 : cnt cs U 0 = 0%nat).
  { unfold cnt. assert (FE : filter (fun j => (nth j cs 0 =? 0)%nat) U = []).
    { assert (forall l, (forall x, In x l -> In x U) -> filter (fun j => (nth j cs 0 =? 0)%nat) l = []).
      { induction l as [|x l IH]; intros Hl; auto. cbn [filter].
        specialize (POS x (Hl x (or_introl eq_refl))).
        destruct (Nat.eqb_spec (nth x cs 0%nat) 0); [lia|]. apply IH. intros; apply Hl; simpl; auto. }
      apply H; auto. }
    now rewrite FE. }
  assert (BC : forall c, (c < 18)%nat -> nth c bits 0%nat = cnt cs U c).
  { intros c Hc. destruct c; [rewrite B0; auto|]. rewrite BN by lia. apply CU. lia. }
  destruct (adjust_bits_spec bits (length U)) as (bits' & m & EA & LB' & Hm & KR & TT); auto.
  { intros c Hc. rewrite BN by lia. unfold cnt.
    assert (FE : forall l, filter (fun j => (nth j cs 0 =? c)%nat) l = []).
    { induction l as [|x l IH]; auto. cbn [filter]. specialize (LT18 x).
      destruct (Nat.eqb_spec (nth x cs 0%nat) c); [lia|auto]. }
    now rewrite FE. }
  { rewrite (sum_by_count cs U 18 (fun c => 2 ^ (18 - Z.of_nat c))) in K by auto. rewrite <- K.
    apply zsum_map_ext. intros c Hc. apply in_seq in Hc. rewrite BC by lia. reflexivity. }
  { assert (X : Z.of_nat (fold_right Nat.add 0%nat (map (fun i => nth i bits 0%nat) (seq 0 18))) = Z.of_nat (length U)).
    { transitivity (zsum (map (fun c => Z.of_nat (cnt cs U c) * 1) (seq 0 18))).
      - transitivity (zsum (map (fun c => Z.of_nat (nth c bits 0%nat)) (seq 0 18))).
        + generalize (seq 0 18). induction l; [reflexivity|]. cbn [map fold_right]. unfold zsum in *. cbn [fold_right]. lia.
        + apply zsum_map_ext. intros c Hc. apply in_seq in Hc. rewrite BC by lia. lia.
      - rewrite <- (sum_by_count cs U 18 (fun _ => 1)) by auto.
        generalize U. induction U0; [reflexivity|]. cbn [map length]. unfold zsum in *. cbn [fold_right]. lia. }
    lia. }
  rewrite EA. cbn [bind].
  set (hv := sort_input cs). set (sz := sizes_of bits' 1 16).
  assert (Lsz : length sz = (length U - 1)%nat).
  { unfold sz. rewrite sizes_of_length. fold (total16 bits'). lia. }
  assert (HVin : forall s, In s hv <-> (s < 17)%nat /\ 0 < nth s hist 0).
  { intros s. unfold hv. rewrite sort_input_in. rewrite <- InU'. split.
    - intros [A B]. destruct (in_dec Nat.eq_dec s U) as [HI|HI]; [|rewrite Z0 in B by auto; lia].
      rewrite EU in HI. apply in_app_or in HI. destruct HI as [HI|[HI|[]]]; auto. lia.
    - intros HI. assert (In s U) by (rewrite EU; apply in_or_app; auto).
      specialize (POS s H). specialize (LT18 s). apply InU' in HI. lia. }
  assert (Lhv : length hv = (length U - 1)%nat).
  { rewrite EU, app_length. simpl. rewrite Nat.add_sub. apply Permutation_length.
    apply NoDup_Permutation; [apply sort_input_nodup|apply NoDup_filter, seq_NoDup|].
    intros s. rewrite HVin, InU'. tauto. }
  assert (CN : canon sz hv).
  { constructor.
    - lia.
    - lia.
    - apply sort_input_nodup.
    - intros s Hs. apply HVin in Hs. tauto.
    - intros i Hi. pose proof (sizes_of_range bits' 1 16 (nth i sz 0%nat)). 
      assert (In (nth i sz 0%nat) sz) by (apply nth_In; auto). specialize (H H0). lia.
    - apply sizes_of_mono.
    - unfold start. rewrite firstn_all. unfold sz. rewrite sizes_of_sum.
      assert (0 < 2 ^ (16 - Z.of_nat m)) by (apply Z.pow_pos_nonneg; lia).
      unfold kraft16 in KR. change (2 ^ 16) with 65536 in KR. unfold weight. lia. }
  exists sz, hv. split; [|auto].
  unfold gen_size_table. fold (sizes_of bits' 1 16). fold sz.
  destruct (Nat.ltb_spec 17 (length sz)); [lia|]. cbn [bind].
  destruct CN.
  destruct (gen_code_table_spec sz) as (enc & EE & CO); auto.
  rewrite EE. cbn [bind].
  destruct (order_codes_spec hv 0 (repeat None 17)) as (sym & ES & LS & SA & SB); auto.
  rewrite ES. cbn [bind]. rewrite repeat_length in LS.
  apply fill_table_spec; auto; try lia.
  intros s Hs. rewrite SB by auto. apply nth_repeat.
Qed.
