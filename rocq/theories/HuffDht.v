(** The DHT segment written by the encoder rebuilds the encoder's code in the
    decoder. *)
From Coq Require Import List ZArith Lia Bool Permutation Sorting.Sorted.
From Coq Require Import ZifyBool ZifyNat.
From Verif Require Import Base BaseLemmas Pumps PumpProofs LjpegEnc LjpegDec HuffTree HuffCanon HuffBuild HuffDec.
Import ListNotations.
Open Scope Z_scope.

(** ** Grouping a sorted list by key *)
Section Group.
  Context {A : Type} (key : A -> nat).
  Definition ksorted := StronglySorted (fun x y => (key x <= key y)%nat).

  Lemma filter_all {B} (f : B -> bool) l : (forall x, In x l -> f x = true) -> filter f l = l.
  Proof. induction l; simpl; intros H; auto. rewrite H by auto. f_equal. auto. Qed.
  Lemma filter_none {B} (f : B -> bool) l : (forall x, In x l -> f x = false) -> filter f l = [].
  Proof. induction l; simpl; intros H; auto. rewrite H by auto. auto. Qed.

  Lemma sorted_split l a : ksorted l -> (forall x, In x l -> (a <= key x)%nat) ->
    filter (fun x => (key x =? a)%nat) l ++ filter (fun x => negb (key x =? a)%nat) l = l.
  Proof.
    induction 1 as [|x l HS IH HF]; intros HB; auto. cbn [filter].
    destruct (Nat.eqb_spec (key x) a); cbn [negb app].
    - f_equal. apply IH. intros; apply HB; simpl; auto.
    - rewrite Forall_forall in HF. pose proof (HB x (or_introl eq_refl)).
      rewrite filter_none, filter_all; auto; intros y Hy; specialize (HF y Hy); lia.
  Qed.

  Lemma ksorted_filter f l : ksorted l -> ksorted (filter f l).
  Proof.
    induction 1; cbn [filter]; [constructor|]. destruct (f a); auto. constructor; auto.
    rewrite Forall_forall in *. intros y Hy. apply filter_In in Hy. apply H0. tauto.
  Qed.

  Lemma group_sorted n : forall a l, ksorted l -> (forall x, In x l -> (a <= key x < a + n)%nat) ->
    flat_map (fun c => filter (fun x => (key x =? c)%nat) l) (seq a n) = l.
  Proof.
    induction n; intros a l HS HB.
    - destruct l as [|x l]; auto. specialize (HB x (or_introl eq_refl)). lia.
    - cbn [seq flat_map].
      transitivity (filter (fun x => (key x =? a)%nat) l ++ filter (fun x => negb (key x =? a)%nat) l);
        [|apply sorted_split; auto; intros x Hx; specialize (HB x Hx); lia].
      f_equal. rewrite <- (IHn (S a) (filter (fun x => negb (key x =? a)%nat) l)).
      + rewrite !flat_map_concat_map. f_equal. apply map_ext_in. intros c Hc. apply in_seq in Hc.
        clear HS HB. induction l as [|x l IHl]; auto. cbn [filter].
        destruct (Nat.eqb_spec (key x) c); destruct (Nat.eqb_spec (key x) a); try lia; cbn [negb filter].
        * destruct (Nat.eqb_spec (key x) c); [|lia]. f_equal. auto.
        * auto.
        * destruct (Nat.eqb_spec (key x) c); [lia|]. auto.
      + now apply ksorted_filter.
      + intros x Hx. apply filter_In in Hx. destruct Hx as [Hx Hn]. specialize (HB x Hx). lia.
  Qed.
End Group.

Lemma filter_length_le {A} (f : A -> bool) l : (length (filter f l) <= length l)%nat.
Proof. induction l; simpl; auto. destruct (f a); simpl; lia. Qed.

Definition count (sz : list nat) (c : nat) : nat := length (filter (fun s => (s =? c)%nat) sz).

Lemma filter_eq_repeat c l : filter (fun s => (s =? c)%nat) l = repeat c (count l c).
Proof.
  unfold count. induction l; auto. cbn [filter]. destruct (Nat.eqb_spec a c); auto. subst. cbn [length repeat]. f_equal. auto.
Qed.

Lemma mono_ksorted l : mono l -> ksorted (fun x => x) l.
Proof.
  induction l as [|x l IH]; intros HM; constructor.
  - apply IH. intros i j H. apply (HM (S i) (S j)). simpl. lia.
  - rewrite Forall_forall. intros y Hy. apply In_nth with (d := 0%nat) in Hy. destruct Hy as (j & Hj & <-).
    apply (HM 0%nat (S j)). simpl. lia.
Qed.

Lemma seq_ksorted sz : mono sz -> ksorted (fun k => nth k sz 0%nat) (seq 0 (length sz)).
Proof.
  intros HM. unfold ksorted.
  assert (forall n a, (a + n <= length sz)%nat -> StronglySorted (fun x y => (nth x sz 0 <= nth y sz 0)%nat) (seq a n)).
  { induction n; intros a Ha; cbn [seq]; constructor.
    - apply IHn. lia.
    - rewrite Forall_forall. intros y Hy. apply in_seq in Hy. apply HM. lia. }
  apply H. lia.
Qed.

(** ** The decoder rebuilds the table *)
Definition dht_bits (sz : list nat) : list nat := 0%nat :: map (count sz) (seq 1 16).

Lemma dht_bits_nth sz c : (1 <= c <= 16)%nat -> nth c (dht_bits sz) 0%nat = count sz c.
Proof.
  intros H. unfold dht_bits. destruct c; [lia|]. cbn [nth].
  rewrite (nth_indep _ 0%nat (count sz 0)) by (rewrite map_length, seq_length; lia).
  rewrite map_nth, seq_nth by lia. f_equal.
Qed.

Lemma count_pos sz k : (k < length sz)%nat -> (0 < count sz (nth k sz 0%nat))%nat.
Proof.
  intros H. unfold count.
  assert (In (nth k sz 0%nat) (filter (fun s => (s =? nth k sz 0)%nat) sz)).
  { apply filter_In. split; [now apply nth_In|apply Nat.eqb_refl]. }
  destruct (filter _ sz); simpl in *; [tauto|lia].
Qed.

Lemma count_zero sz c : (forall k, (k < length sz)%nat -> nth k sz 0%nat <> c) -> count sz c = 0%nat.
Proof.
  intros H. unfold count. rewrite filter_none; auto. intros x Hx.
  apply In_nth with (d := 0%nat) in Hx. destruct Hx as (k & Hk & <-). apply Nat.eqb_neq. auto.
Qed.

Lemma max_len_dht sz : (1 <= length sz)%nat -> mono sz ->
  (forall k, (k < length sz)%nat -> (1 <= nth k sz 0 <= 16)%nat) ->
  max_len (dht_bits sz) 16 = nth (length sz - 1) sz 0%nat.
Proof.
  intros HL HM HR. set (m := nth (length sz - 1) sz 0%nat).
  pose proof (HR (length sz - 1)%nat ltac:(lia)) as RM. fold m in RM.
  assert (forall n, (m <= n <= 16)%nat -> max_len (dht_bits sz) n = m).
  { induction n; intros Hn; [lia|]. cbn [max_len]. rewrite dht_bits_nth by lia.
    destruct (Nat.eq_dec (S n) m).
    - rewrite e. pose proof (count_pos sz (length sz - 1) ltac:(lia)). fold m in H.
      destruct (Nat.eqb_spec (count sz m) 0); [lia|auto].
    - rewrite count_zero; [apply IHn; lia|]. intros k Hk. pose proof (HM k (length sz - 1)%nat ltac:(lia)). fold m in H. lia. }
  apply H. lia.
Qed.

Lemma code_sizes_dht sz nb : mono sz -> (nb <= 16)%nat ->
  (forall k, (k < length sz)%nat -> (1 <= nth k sz 0 <= nb)%nat) ->
  code_sizes (dht_bits sz) nb = sz.
Proof.
  intros HM Hnb HR. unfold code_sizes.
  transitivity (flat_map (fun c => filter (fun x => (x =? c)%nat) sz) (seq 1 nb)).
  2:{ apply (group_sorted (fun x => x) nb 1 sz (mono_ksorted _ HM)). intros x Hx. apply In_nth with (d := 0%nat) in Hx. destruct Hx as (k & Hk & <-). specialize (HR k Hk). lia. }
  rewrite <- seq_shift. rewrite !flat_map_concat_map, map_map. f_equal. apply map_ext_in. intros c Hc. apply in_seq in Hc.
  rewrite dht_bits_nth by lia. now rewrite filter_eq_repeat.
Qed.

Theorem ht_new_dht sz hv hv256 :
  (1 <= length sz)%nat -> mono sz ->
  (forall k, (k < length sz)%nat -> (1 <= nth k sz 0 <= 16)%nat) ->
  (forall k, (k < length sz)%nat -> (nth k hv 0 <= 16)%nat) ->
  start sz (length sz) <= 65536 ->
  length hv256 = 256%nat -> (length sz <= 256)%nat ->
  (forall k, (k < length sz)%nat -> nth k hv256 0%nat = nth k hv 0%nat) ->
  exists t, ht_new (dht_bits sz) hv256 false = Ok t /\ dtable t sz hv.
Proof.
  intros HL HM HR HS HK H256 HLe HV. unfold ht_new. rewrite max_len_dht by auto.
  set (nb := nth (length sz - 1) sz 0%nat).
  assert (Rnb : (1 <= nb <= 16)%nat) by (apply HR; lia).
  assert (HRn : forall k, (k < length sz)%nat -> (1 <= nth k sz 0 <= nb)%nat).
  { intros k Hk. pose proof (HR k Hk). pose proof (HM k (length sz - 1)%nat ltac:(lia)). unfold nb. lia. }
  rewrite code_sizes_dht by (auto; lia).
  rewrite fill_hufftable_spec by (intros k Hk; rewrite repeat_length; cbn [plus]; lia).
  cbn [bind].
  assert (EQ : map (fun k => ((2 ^ (nb - nth k sz 0))%nat,
      (nth k sz 0%nat, (nth (0 + k) hv256 0 mod 256)%nat, (nth (0 + k) (repeat 0 256) 0 mod 256)%nat))) (seq 0 (length sz))
    = map (fun k => ((2 ^ (nb - nth k sz 0))%nat, (nth k sz 0, nth k hv 0, 0)%nat)) (seq 0 (length sz))).
  { apply map_ext_in. intros k Hk. apply in_seq in Hk. cbn [plus]. rewrite nth_repeat. rewrite HV by lia.
    rewrite (Nat.mod_small (nth k hv 0%nat)) by (pose proof (HS k ltac:(lia)); lia). reflexivity. }
  rewrite EQ. clear EQ.
  pose proof (blocks_le sz hv nb Rnb HRn HK) as BL.
  pose proof (make_dtable sz hv nb Rnb HRn HM HK HS) as D.
  cbv zeta in BL, D.
  set (l := map (fun k => ((2 ^ (nb - nth k sz 0))%nat, (nth k sz 0, nth k hv 0, 0)%nat)) (seq 0 (length sz))) in *.
  rewrite (proj2 (Nat.leb_le _ _) (BL HS)). cbn [assert_ bind].
  set (t := mk_ht false nb _) in *.
  assert (EC : for_each (seq 0 (Z.to_nat 8192)) (fun i _ => do _ <- cache_entry t (Z.of_nat i); Ok tt) tt = Ok tt).
  { destruct (for_each_seq_inv (fun i (_ : unit) => do _ <- cache_entry t (Z.of_nat i); Ok tt) (fun _ _ => True) 0 (Z.to_nat 8192) tt)
      as (u & E & _); auto.
    - intros i s Hi _. destruct (cache_entry_spec t sz hv (Z.of_nat i) D) as (len & sym & _ & E); [lia|].
      rewrite E. cbn [bind]. eauto.
    - rewrite E. now destruct u. }
  rewrite EC. cbn [bind]. eauto.
Qed.

(** ** The values written into the DHT segment *)
Definition klt (x y : nat * bitarray16) := ba_storage (snd x) < ba_storage (snd y).
Definition kle (x y : nat * bitarray16) := ba_storage (snd x) <= ba_storage (snd y).

Lemma insert_code_perm x l : Permutation (insert_code x l) (x :: l).
Proof.
  induction l; cbn [insert_code]; auto. destruct (_ <=? _); auto.
  rewrite IHl. constructor.
Qed.
Lemma sort_codes_perm l : Permutation (sort_codes l) l.
Proof. induction l; cbn [sort_codes]; auto. rewrite insert_code_perm. now constructor. Qed.

Lemma insert_code_sorted x l : StronglySorted kle l -> StronglySorted kle (insert_code x l).
Proof.
  induction 1 as [|y l HS IH HF]; cbn [insert_code].
  - repeat constructor.
  - destruct (Z.leb_spec (ba_storage (snd x)) (ba_storage (snd y))).
    + constructor; [constructor; auto|]. constructor; [exact H|].
      rewrite Forall_forall in *. intros z Hz. specialize (HF z Hz). unfold kle in *. lia.
    + constructor; auto. rewrite Forall_forall in *. intros z Hz.
      apply (Permutation_in _ (insert_code_perm x l)) in Hz. destruct Hz as [<-|Hz]; [unfold kle; lia|auto].
Qed.
Lemma sort_codes_sorted l : StronglySorted kle (sort_codes l).
Proof. induction l; cbn [sort_codes]; [constructor|]. now apply insert_code_sorted. Qed.

Lemma sorted_unique l : forall m, StronglySorted kle l -> StronglySorted klt m -> Permutation l m -> l = m.
Proof.
  induction l as [|x l IH]; intros m HL HM HP.
  - apply Permutation_nil in HP. auto.
  - destruct m as [|y m]; [symmetry in HP; apply Permutation_nil in HP; discriminate|].
    inversion HL as [|? ? HL1 HL2]; inversion HM as [|? ? HM1 HM2]; subst.
    rewrite Forall_forall in HL2, HM2.
    assert (x = y).
    { assert (In x (y :: m)) by (eapply Permutation_in; eauto; simpl; auto).
      assert (In y (x :: l)) by (eapply Permutation_in; [symmetry; eauto|simpl; auto]).
      destruct H as [|H]; auto. destruct H0 as [|H0]; auto. exfalso.
      specialize (HL2 y H0). specialize (HM2 x H). unfold kle, klt in *. lia. }
    subst. f_equal. apply IH; auto. eapply Permutation_cons_inv; eauto.
Qed.

Section DhtValues.
  Variables sz hv : list nat.
  Hypothesis C : canon sz hv.
  Let tbl := map (canon_entry sz hv) (seq 0 17).
  Let n := length sz.

  Lemma entry_hv k : (k < n)%nat -> canon_entry sz hv (nth k hv 0%nat) = mk_ba (start sz k) (nth k sz 0%nat).
  Proof.
    intros Hk. unfold canon_entry. destruct C as [cn_len0 cn_bound0 cn_nodup0 cn_hv0 cn_sz0 cn_mono0 cn_kraft0]. rewrite index_of_nth; auto. unfold n in Hk. lia.
  Qed.

  Lemma codes_of_len_eq len : codes_of_len tbl len =
    map (fun s => (s, canon_entry sz hv s)) (filter (fun s => (ba_nbits (canon_entry sz hv s) =? len)%nat) (seq 0 17)).
  Proof.
    unfold codes_of_len, tbl. rewrite map_length, seq_length.
    generalize (seq 0 17). induction l as [|x l IH]; auto. cbn [map combine filter snd].
    rewrite IH. destruct (_ =? len)%nat; auto.
  Qed.

  Lemma sort_codes_len len : (1 <= len)%nat -> sort_codes (codes_of_len tbl len) =
    map (fun k => (nth k hv 0%nat, mk_ba (start sz k) (nth k sz 0%nat))) (filter (fun k => (nth k sz 0 =? len)%nat) (seq 0 n)).
  Proof.
    intros Hlen. apply sorted_unique.
    - apply sort_codes_sorted.
    - destruct C as [cn_len0 cn_bound0 cn_nodup0 cn_hv0 cn_sz0 cn_mono0 cn_kraft0]. assert (forall a m, (a + m <= n)%nat -> StronglySorted klt
        (map (fun k => (nth k hv 0%nat, mk_ba (start sz k) (nth k sz 0%nat))) (filter (fun k => (nth k sz 0 =? len)%nat) (seq a m)))).
      { intros a m; revert a; induction m; intros a Ha; cbn [seq filter map]; [constructor|].
        destruct (Nat.eqb_spec (nth a sz 0%nat) len); [|apply IHm; lia].
        cbn [map]. constructor; [apply IHm; lia|].
        rewrite Forall_forall. intros y Hy. apply in_map_iff in Hy. destruct Hy as (k & <- & Hk).
        apply filter_In in Hk. destruct Hk as [Hk _]. apply in_seq in Hk. unfold klt. cbn [snd ba_storage].
        unfold n in *. pose proof (start_mono sz (S a) k ltac:(lia)). rewrite start_S in H by lia.
        pose proof (weight_pos (nth a sz 0%nat)). pose proof (cn_sz0 a ltac:(lia)). lia. }
      apply H. lia.
    - rewrite sort_codes_perm, codes_of_len_eq. destruct C as [cn_len0 cn_bound0 cn_nodup0 cn_hv0 cn_sz0 cn_mono0 cn_kraft0].
      assert (INV : forall s, canon_entry sz hv s = ba_default \/ exists k, (k < n)%nat /\ nth k hv 0%nat = s /\ canon_entry sz hv s = mk_ba (start sz k) (nth k sz 0%nat)).
      { intros s. unfold canon_entry. destruct (index_of s hv) as [k|] eqn:E; auto. right.
        apply index_of_some in E. exists k. unfold n. rewrite cn_len0. tauto. }
      apply NoDup_Permutation.
      + apply FinFun.Injective_map_NoDup; [|apply NoDup_filter, seq_NoDup]. intros a b E. inversion E; auto.
      + assert (forall l, NoDup l -> (forall k, In k l -> (k < n)%nat) ->
          NoDup (map (fun k => (nth k hv 0%nat, mk_ba (start sz k) (nth k sz 0%nat))) l)).
        { induction 1 as [|k l Hk ND IH]; intros Hb; cbn [map]; constructor.
          - intros X. apply in_map_iff in X. destruct X as (j & E & Hj). inversion E.
            apply Hk. replace k with j; auto. eapply (NoDup_nth hv 0%nat); eauto.
            + specialize (Hb j (or_intror Hj)). unfold n in Hb. lia.
            + specialize (Hb k (or_introl eq_refl)). unfold n in Hb. lia.
          - apply IH. intros; apply Hb; simpl; auto. }
        apply H; [apply NoDup_filter, seq_NoDup|]. intros k Hk. apply filter_In in Hk. destruct Hk as [Hk _]. apply in_seq in Hk. lia.
      + intros [s b]. rewrite !in_map_iff. split.
        * intros (s' & E & Hs'). inversion E; subst s' b. apply filter_In in Hs'. destruct Hs' as [Hs' Hl].
          destruct (INV s) as [X|(k & Hk & Es & X)].
          { rewrite X in Hl. apply Nat.eqb_eq in Hl. cbn [ba_nbits ba_default] in Hl. lia. }
          exists k. rewrite X in *. cbn [ba_nbits] in Hl. rewrite Es. split; auto.
          apply filter_In. split; auto. apply in_seq. lia.
        * intros (k & E & Hk). inversion E; subst s b. apply filter_In in Hk. destruct Hk as [Hk Hl]. apply in_seq in Hk.
          exists (nth k hv 0%nat). rewrite entry_hv by lia. split; auto. apply filter_In.
          rewrite entry_hv by lia. cbn [ba_nbits]. split; auto. apply in_seq.
          assert (In (nth k hv 0%nat) hv) by (apply nth_In; unfold n in *; lia). specialize (cn_hv0 _ H). lia.
  Qed.

  Lemma tbl_count len : (1 <= len)%nat ->
    length (filter (fun b => (ba_nbits b =? len)%nat) tbl) = count sz len.
  Proof.
    intros Hlen.
    assert (length (filter (fun b => (ba_nbits b =? len)%nat) tbl) = length (codes_of_len tbl len)).
    { rewrite codes_of_len_eq, map_length. unfold tbl. generalize (seq 0 17). induction l; auto.
      cbn [map filter]. destruct (_ =? len)%nat; cbn [length]; auto. }
    rewrite H. rewrite <- (Permutation_length (sort_codes_perm (codes_of_len tbl len))).
    rewrite sort_codes_len by auto. rewrite map_length. unfold count, n.
    transitivity (length (filter (fun s => (s =? len)%nat) (map (fun i => nth i sz 0%nat) (seq 0 (length sz)))));
      [|now rewrite <- (list_as_map_seq sz 0%nat)].
    generalize (seq 0 (length sz)). induction l; auto.
    cbn [map filter]. destruct (_ =? len)%nat; cbn [length]; auto.
  Qed.

  Lemma dht_values : flat_map (fun len => map (fun e => Z.of_nat (fst e)) (sort_codes (codes_of_len tbl len))) (seq 1 16)
    = map Z.of_nat hv.
  Proof.
    transitivity (flat_map (fun len => map (fun k => Z.of_nat (nth k hv 0%nat)) (filter (fun k => (nth k sz 0 =? len)%nat) (seq 0 n))) (seq 1 16)).
    { rewrite !flat_map_concat_map. f_equal. apply map_ext_in. intros len Hl. apply in_seq in Hl.
      rewrite sort_codes_len by lia. rewrite map_map. reflexivity. }
    transitivity (map (fun k => Z.of_nat (nth k hv 0%nat)) (flat_map (fun len => filter (fun k => (nth k sz 0 =? len)%nat) (seq 0 n)) (seq 1 16))).
    { rewrite !flat_map_concat_map, concat_map, map_map. reflexivity. }
    destruct C as [cn_len0 cn_bound0 cn_nodup0 cn_hv0 cn_sz0 cn_mono0 cn_kraft0]. rewrite (group_sorted (fun k => nth k sz 0%nat) 16 1 (seq 0 n)).
    - unfold n. rewrite cn_len0. rewrite <- map_map with (f := fun k => nth k hv 0%nat) (g := Z.of_nat).
      now rewrite <- (list_as_map_seq hv 0%nat).
    - apply seq_ksorted; auto.
    - intros k Hk. apply in_seq in Hk. pose proof (cn_sz0 k ltac:(unfold n in *; lia)). lia.
  Qed.

  Lemma dht_counts : map (fun len => wrap_u8 (Z.of_nat (length (filter (fun b => (ba_nbits b =? len)%nat) tbl)))) (seq 1 16)
    = map (fun c => Z.of_nat (count sz c)) (seq 1 16).
  Proof.
    apply map_ext_in. intros c Hc. apply in_seq in Hc. rewrite tbl_count by lia.
    unfold wrap_u8. apply Z.mod_small. split; [lia|]. destruct C as [cn_len0 cn_bound0 cn_nodup0 cn_hv0 cn_sz0 cn_mono0 cn_kraft0].
    assert (count sz c <= length sz)%nat by apply filter_length_le. lia.
  Qed.

  Lemma dht_bitsum : length (filter (fun b => negb (ba_nbits b =? 0)%nat) tbl) = n.
  Proof.
    transitivity (length (filter (fun s => negb (ba_nbits (canon_entry sz hv s) =? 0)%nat) (seq 0 17))).
    { unfold tbl. generalize (seq 0 17). induction l; auto. cbn [map filter]. destruct (negb _); cbn [length]; auto. }
    unfold n. destruct C as [cn_len0 cn_bound0 cn_nodup0 cn_hv0 cn_sz0 cn_mono0 cn_kraft0]. rewrite cn_len0. apply Permutation_length. apply NoDup_Permutation; auto.
    { apply NoDup_filter, seq_NoDup. }
    intros s. rewrite filter_In, in_seq. split.
    - intros [Hs Hb]. unfold canon_entry in Hb. destruct (index_of s hv) eqn:E; [|discriminate].
      apply index_of_some in E. destruct E as [E1 <-]. now apply nth_In.
    - intros Hs. split; [specialize (cn_hv0 s Hs); lia|].
      apply In_nth with (d := 0%nat) in Hs. destruct Hs as (k & Hk & <-). rewrite entry_hv by (unfold n; lia).
      cbn [ba_nbits]. pose proof (cn_sz0 k ltac:(lia)). lia.
  Qed.

  Lemma dht_segment_eq comp : (comp < 256)%nat -> dht_segment comp tbl =
    [255; 196] ++ u16be (19 + Z.of_nat (length hv)) ++ [Z.of_nat comp]
    ++ map (fun c => Z.of_nat (count sz c)) (seq 1 16) ++ map Z.of_nat hv.
  Proof.
    intros Hc. unfold dht_segment. rewrite dht_values, dht_counts, dht_bitsum.
    replace (wrap_u8 (Z.of_nat comp)) with (Z.of_nat comp) by (unfold wrap_u8; rewrite Z.mod_small by lia; auto).
    destruct C as [cn_len0 cn_bound0 cn_nodup0 cn_hv0 cn_sz0 cn_mono0 cn_kraft0]. unfold n. rewrite cn_len0.
    replace (2 + (1 + 16) + Z.of_nat (length hv)) with (19 + Z.of_nat (length hv)) by lia. reflexivity.
  Qed.

  Lemma count_total : fold_left Z.add (map (fun c => Z.of_nat (count sz c)) (seq 1 16)) 0 = Z.of_nat (length hv).
  Proof.
    destruct C as [cn_len0 cn_bound0 cn_nodup0 cn_hv0 cn_sz0 cn_mono0 cn_kraft0].
    assert (E : code_sizes (dht_bits sz) 16 = sz) by (apply code_sizes_dht; auto).
    apply (f_equal (@length nat)) in E. rewrite <- cn_len0, <- E. unfold code_sizes.
    assert (forall l acc, fold_left Z.add (map (fun c => Z.of_nat (count sz c)) l) acc = acc + Z.of_nat (length (flat_map (fun c => repeat c (count sz c)) l))).
    { induction l; intros acc; cbn [map fold_left flat_map]; [simpl; lia|]. rewrite IHl, app_length, repeat_length. lia. }
    rewrite H. rewrite Z.add_0_l. change (seq 1 16) with (map S (seq 0 16)). rewrite !flat_map_concat_map, map_map. reflexivity.
  Qed.
End DhtValues.
