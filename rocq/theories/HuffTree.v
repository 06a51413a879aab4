(** Code size generation (gen_codesizes): the merge loop builds a full binary
    tree over the symbols with non-zero frequency. *)
From Coq Require Import List ZArith Lia Bool Permutation.
From Coq Require Import ZifyBool ZifyNat.
From Verif Require Import Base BaseLemmas LjpegEnc.
Import ListNotations.
Open Scope Z_scope.

Definition zsum (l : list Z) : Z := fold_right Z.add 0 l.

Lemma zsum_app a b : zsum (a ++ b) = zsum a + zsum b.
Proof. unfold zsum. induction a; simpl; lia. Qed.

Lemma zsum_perm a b : Permutation a b -> zsum a = zsum b.
Proof. unfold zsum. induction 1; simpl; lia. Qed.

Lemma zsum_nonneg l : Forall (fun x => 0 <= x) l -> 0 <= zsum l.
Proof. unfold zsum; induction 1; simpl; lia. Qed.

Lemma zsum_nth_le l i : Forall (fun x => 0 <= x) l -> nth i l 0 <= zsum l.
Proof.
  intros H. revert i. induction H; intros; simpl.
  - destruct i; unfold zsum; simpl; lia.
  - pose proof (zsum_nonneg _ H0). unfold zsum in *. destruct i; simpl; [lia|].
    specialize (IHForall i). lia.
Qed.

Lemma zsum_upd l i v : (i < length l)%nat -> zsum (upd_list l i v) = zsum l - nth i l 0 + v.
Proof.
  revert i; induction l; destruct i; simpl; intros; unfold zsum in *; simpl; try lia.
  rewrite IHl by lia. lia.
Qed.

(** ** find_min *)
Lemma find_min_spec freq : forall i skip best v,
  (forall k, In k freq -> k <= best) ->
  match find_min i freq skip best v with
  | Some m => (Some m = v) \/
      (i <= m < i + length freq)%nat /\ 0 < nth (m - i) freq 0 /\ skip <> Some m
  | None => v = None /\ forall k, (k < length freq)%nat -> 0 < nth k freq 0 -> skip = Some (i + k)%nat
  end.
Proof.
  induction freq as [|f t IH]; intros i skip best v Hb.
  - simpl. destruct v; auto. split; auto. intros; lia.
  - cbn [find_min].
    assert (Hf : f <= best) by (apply Hb; simpl; auto).
    assert (Ht : forall k, In k t -> k <= best) by (intros; apply Hb; simpl; auto).
    destruct (0 <? f) eqn:E0; cbn [andb].
    + destruct (opt_nat_eqb skip i) eqn:Es; cbn [negb andb].
      * specialize (IH (S i) skip best v Ht).
        destruct (find_min (S i) t skip best v) as [m|].
        -- destruct IH as [IH|(A & B & C)]; auto. right.
           replace (m - i)%nat with (S (m - S i)) by lia. cbn [nth length]. split; [lia|auto].
        -- destruct IH as [-> IH]. split; auto. intros [|k] Hk Hp.
           ++ rewrite Nat.add_0_r. destruct skip; simpl in Es; try discriminate.
              apply Nat.eqb_eq in Es. congruence.
           ++ cbn [nth] in Hp. replace (i + S k)%nat with (S i + k)%nat by lia.
              apply IH; auto. simpl in Hk. lia.
      * assert (Hl : (f <=? best) = true) by lia. rewrite Hl.
        assert (Hsk : skip <> Some i).
        { intros ->. simpl in Es. rewrite Nat.eqb_refl in Es. discriminate. }
        (* the new bound is f, which may be smaller than later entries *)
        assert (G : forall t' j b u, (exists q, u = Some q) ->
           match find_min j t' skip b u with
           | Some m => (Some m = u) \/ (j <= m < j + length t')%nat /\ 0 < nth (m - j) t' 0 /\ skip <> Some m
           | None => False
           end).
        { clear. induction t' as [|g t' IHt]; intros j b u [q ->]; [cbn; auto|]; cbn [find_min].
          destruct (0 <? g) eqn:E0; cbn [andb].
          2:{ specialize (IHt (S j) b (Some q) ltac:(eauto)).
              destruct (find_min (S j) t' skip b (Some q)) as [m|]; auto.
              destruct IHt as [H|(A & B & C)]; auto. right.
              replace (m - j)%nat with (S (m - S j)) by lia. cbn [nth length]. split; [lia|auto]. }
          destruct (opt_nat_eqb skip j) eqn:Es; cbn [negb andb].
          { specialize (IHt (S j) b (Some q) ltac:(eauto)).
              destruct (find_min (S j) t' skip b (Some q)) as [m|]; auto.
              destruct IHt as [H|(A & B & C)]; auto. right.
              replace (m - j)%nat with (S (m - S j)) by lia. cbn [nth length]. split; [lia|auto]. }
          destruct (g <=? b) eqn:El.
          - specialize (IHt (S j) g (Some j) ltac:(eauto)).
            destruct (find_min (S j) t' skip g (Some j)) as [m|]; auto.
            right. destruct IHt as [H|(A & B & C)].
            + inversion H; subst. rewrite Nat.sub_diag. cbn [nth length]. repeat split; try lia.
              intros ->. simpl in Es. rewrite Nat.eqb_refl in Es. discriminate.
            + replace (m - j)%nat with (S (m - S j)) by lia. cbn [nth length]. split; [lia|auto].
          - specialize (IHt (S j) b (Some q) ltac:(eauto)).
              destruct (find_min (S j) t' skip b (Some q)) as [m|]; auto.
              destruct IHt as [H|(A & B & C)]; auto. right.
              replace (m - j)%nat with (S (m - S j)) by lia. cbn [nth length]. split; [lia|auto]. }
        specialize (G t (S i) f (Some i) ltac:(eauto)).
        destruct (find_min (S i) t skip f (Some i)) as [m|]; [|tauto].
        right. destruct G as [H|(A & B & C)].
        -- inversion H; subst. rewrite Nat.sub_diag. cbn [nth length]. repeat split; try lia; auto.
        -- replace (m - i)%nat with (S (m - S i)) by lia. cbn [nth length]. split; [lia|auto].
    + specialize (IH (S i) skip best v Ht).
      destruct (find_min (S i) t skip best v) as [m|].
      * destruct IH as [IH|(A & B & C)]; auto. right.
        replace (m - i)%nat with (S (m - S i)) by lia. cbn [nth length]. split; [lia|auto].
      * destruct IH as [-> IH]. split; auto. intros [|k] Hk Hp.
        -- cbn [nth] in Hp. lia.
        -- cbn [nth] in Hp. replace (i + S k)%nat with (S i + k)%nat by lia.
           apply IH; auto. simpl in Hk. lia.
Qed.

Lemma find_min_none freq skip :
  (forall k, In k freq -> k <= u64_max) ->
  find_min 0 freq skip u64_max None = None ->
  forall k, (k < length freq)%nat -> 0 < nth k freq 0 -> skip = Some k.
Proof.
  intros Hb E k Hk Hp. pose proof (find_min_spec freq 0 skip u64_max None Hb) as H.
  rewrite E in H. destruct H as [_ H]. apply (H k); auto.
Qed.

Lemma find_min_some freq skip m :
  (forall k, In k freq -> k <= u64_max) ->
  find_min 0 freq skip u64_max None = Some m ->
  (m < length freq)%nat /\ 0 < nth m freq 0 /\ skip <> Some m.
Proof.
  intros Hb E. pose proof (find_min_spec freq 0 skip u64_max None Hb) as H.
  rewrite E in H. destruct H as [H|(A & B & C)]; [discriminate|].
  rewrite Nat.sub_0_r in B. repeat split; auto; lia.
Qed.

(** ** Chains *)
Inductive is_chain (o : list (option nat)) : nat -> list nat -> Prop :=
| chain_one v : nth v o None = None -> is_chain o v [v]
| chain_cons v w l : nth v o None = Some w -> is_chain o w l -> is_chain o v (v :: l).

Lemma is_chain_hd o v l : is_chain o v l -> exists t, l = v :: t.
Proof. intros H. inversion H; subst; eauto. Qed.

Lemma is_chain_upd_out o v l t w :
  is_chain o v l -> ~ In t l -> (t < length o)%nat -> is_chain (upd_list o t w) v l.
Proof.
  induction 1; intros Hn Ht.
  - constructor. rewrite nth_upd_neq; auto. intros ->. apply Hn; simpl; auto.
  - econstructor. + rewrite nth_upd_neq; eauto. intros ->. apply Hn; simpl; auto.
    + apply IHis_chain; auto. intros X; apply Hn; simpl; auto.
Qed.

Lemma is_chain_join o v l w m d :
  is_chain o v l -> NoDup l -> (last l d < length o)%nat -> is_chain o w m -> ~ In (last l d) m ->
  is_chain (upd_list o (last l d) (Some w)) v (l ++ m).
Proof.
  induction 1 as [v Hv|v u l Hv Hc IH]; intros ND Hlen Hm Hnin.
  - simpl in *. econstructor. + rewrite nth_upd_eq; auto. + apply is_chain_upd_out; auto.
  - destruct (is_chain_hd _ _ _ Hc) as (t & ->). inversion ND; subst.
    change (last (v :: u :: t) d) with (last (u :: t) d) in *.
    simpl app. econstructor.
    + rewrite nth_upd_neq; eauto. intros E. apply H1. rewrite <- E.
      destruct (exists_last (l := u :: t)) as (l' & x & E'); try discriminate.
      rewrite E' at 1. rewrite last_last. rewrite E'. apply in_or_app; right; simpl; auto.
    + apply IH; auto.
Qed.

Definition bump (cs : list nat) (g : list nat) (i : nat) : nat :=
  if in_dec Nat.eq_dec i g then S (nth i cs 0%nat) else nth i cs 0%nat.

Lemma inc_chain_spec o v l : is_chain o v l ->
  forall fuel cs, NoDup l -> (length l <= fuel)%nat -> length o = length cs ->
  (forall i, In i l -> (i < length cs)%nat) ->
  exists cs', inc_chain fuel cs o v = Ok (cs', last l 0%nat) /\ length cs' = length cs /\
    forall i, nth i cs' 0%nat = bump cs l i.
Proof.
  induction 1 as [v Hv|v w l Hv Hc IH]; intros fuel cs ND Hf HL Hin.
  - destruct fuel; simpl in Hf; [lia|]. cbn [inc_chain].
    assert (v < length cs)%nat by (apply Hin; simpl; auto).
    rewrite (get_ok _ _ 0%nat) by auto. cbn [bind]. rewrite put_ok by auto. cbn [bind].
    rewrite (get_ok _ _ None) by lia. cbn [bind]. rewrite Hv.
    eexists; split; [reflexivity|]. rewrite upd_list_length. split; auto.
    intros i. unfold bump. rewrite nth_upd by auto.
    destruct (Nat.eqb_spec v i); destruct (in_dec Nat.eq_dec i [v]) as [Hi|Hi]; subst; auto.
    + exfalso; apply Hi; simpl; auto. + destruct Hi as [->|[]]; congruence.
  - destruct fuel; simpl in Hf; [lia|]. cbn [inc_chain].
    assert (v < length cs)%nat by (apply Hin; simpl; auto).
    rewrite (get_ok _ _ 0%nat) by auto. cbn [bind]. rewrite put_ok by auto. cbn [bind].
    rewrite (get_ok _ _ None) by lia. cbn [bind]. rewrite Hv.
    inversion ND; subst.
    destruct (IH fuel (upd_list cs v (S (nth v cs 0%nat)))) as (cs' & E & L & N); auto.
    { lia. } { now rewrite upd_list_length. }
    { intros. rewrite upd_list_length. apply Hin; simpl; auto. }
    exists cs'. rewrite E. split.
    { destruct (is_chain_hd _ _ _ Hc) as (t & ->). auto. }
    rewrite upd_list_length in L. split; auto.
    intros i. rewrite N. unfold bump. rewrite nth_upd by auto.
    destruct (in_dec Nat.eq_dec i l) as [Hi|Hi].
    + destruct (Nat.eqb_spec v i); [subst; contradiction|].
      destruct (in_dec Nat.eq_dec i (v :: l)) as [_|Hj]; auto. exfalso; apply Hj; simpl; auto.
    + destruct (Nat.eqb_spec v i).
      * subst. destruct (in_dec Nat.eq_dec i (i :: l)) as [_|Hj]; auto. exfalso; apply Hj; simpl; auto.
      * destruct (in_dec Nat.eq_dec i (v :: l)) as [[->|Hj]|_]; auto; contradiction.
Qed.

(** ** The invariant of the merge loop *)
Definition kraft (cs : list nat) (g : list nat) : Z :=
  zsum (map (fun i => 2 ^ (18 - Z.of_nat (nth i cs 0%nat))) g).

Definition group_ok (h : hbuilder) (g : list nat) : Prop :=
  (exists v, is_chain (hb_others h) v g /\ 0 < nth v (hb_freq h) 0) /\
  kraft (hb_codesize h) g = 2 ^ 18 /\
  (forall i, In i g -> (nth i (hb_codesize h) 0 < length g)%nat).

Record tree_inv (S0 : list nat) (h : hbuilder) (groups : list (list nat)) : Prop := {
  ti_len : length (hb_freq h) = 18%nat /\ length (hb_codesize h) = 18%nat /\ length (hb_others h) = 18%nat;
  ti_nodup : NoDup S0;
  ti_bound : forall i, In i S0 -> (i < 18)%nat;
  ti_perm : Permutation (concat groups) S0;
  ti_groups : Forall (group_ok h) groups;
  ti_heads : forall i, 0 < nth i (hb_freq h) 0 -> exists g, In g groups /\ hd_error g = Some i;
  ti_nonneg : Forall (fun f => 0 <= f) (hb_freq h);
  ti_total : zsum (hb_freq h) < 2 ^ 64;
  ti_zero : forall i, ~ In i S0 -> nth i (hb_codesize h) 0%nat = 0%nat
}.

Lemma tree_inv_freq_max S0 h gs : tree_inv S0 h gs -> forall k, In k (hb_freq h) -> k <= u64_max.
Proof.
  intros [] k Hk. apply In_nth with (d := 0) in Hk. destruct Hk as (i & Hi & <-).
  pose proof (zsum_nth_le (hb_freq h) i ti_nonneg0). unfold u64_max. lia.
Qed.

Lemma group_of_head S0 h gs i : tree_inv S0 h gs -> 0 < nth i (hb_freq h) 0 ->
  exists g, In g gs /\ is_chain (hb_others h) i g.
Proof.
  intros I Hp. destruct (ti_heads _ _ _ I i Hp) as (g & Hg & Hh). exists g; split; auto.
  pose proof (ti_groups _ _ _ I) as HG. rewrite Forall_forall in HG.
  destruct (HG g Hg) as ((v & Hc & _) & _). destruct (is_chain_hd _ _ _ Hc) as (t & ->).
  simpl in Hh. inversion Hh; subst; auto.
Qed.

Lemma in_concat_split {A} (gs : list (list A)) g : In g gs ->
  exists a b, gs = a ++ g :: b.
Proof. apply in_split. Qed.

Lemma kraft_bump cs cs' g l :
  (forall i, nth i cs' 0%nat = bump cs l i) -> (forall i, In i g -> In i l) ->
  (forall i, In i g -> (nth i cs 0 < 18)%nat) ->
  2 * kraft cs' g = kraft cs g.
Proof.
  intros HN Hin Hlt. unfold kraft. induction g as [|i g IH]; [reflexivity|].
  cbn [map]. unfold zsum in *. cbn [fold_right].
  assert (Hi : In i l) by (apply Hin; simpl; auto).
  specialize (Hlt i (or_introl eq_refl)) as Hl.
  rewrite HN. unfold bump. destruct (in_dec Nat.eq_dec i l); [|contradiction].
  replace (18 - Z.of_nat (nth i cs 0%nat)) with (Z.succ (18 - Z.of_nat (S (nth i cs 0%nat)))) by lia.
  rewrite Z.pow_succ_r by lia.
  rewrite Z.mul_add_distr_l. f_equal.
  apply IH; intros; [apply Hin|apply Hlt]; simpl; auto.
Qed.

Lemma kraft_same cs cs' g :
  (forall i, In i g -> nth i cs' 0%nat = nth i cs 0%nat) -> kraft cs' g = kraft cs g.
Proof.
  intros. unfold kraft. f_equal. apply map_ext_in. intros. now rewrite H.
Qed.

Lemma kraft_app cs a b : kraft cs (a ++ b) = kraft cs a + kraft cs b.
Proof. unfold kraft. now rewrite map_app, zsum_app. Qed.

Lemma NoDup_app_inv {A} (a b : list A) : NoDup (a ++ b) -> NoDup a /\ NoDup b /\ forall x, In x a -> ~ In x b.
Proof.
  induction a; simpl; intros H.
  - repeat split; auto. constructor.
  - inversion H; subst. destruct (IHa H3) as (A1 & A2 & A3). repeat split; auto.
    + constructor; auto. intros X; apply H2, in_or_app; auto.
    + intros x [->|Hx]; auto. intros X; apply H2, in_or_app; auto.
Qed.

Lemma merge_step S0 h gs v1 v2 :
  tree_inv S0 h gs -> (v1 < 18)%nat -> (v2 < 18)%nat -> v1 <> v2 ->
  0 < nth v1 (hb_freq h) 0 -> 0 < nth v2 (hb_freq h) 0 ->
  exists h' gs', hb_merge h v1 v2 = Ok h' /\ tree_inv S0 h' gs' /\ S (length gs') = length gs.
Proof.
  intros I B1 B2 Hne P1 P2. pose proof I as I0.
  destruct (group_of_head _ _ _ _ I P1) as (g1 & In1 & C1).
  destruct (group_of_head _ _ _ _ I P2) as (g2 & In2 & C2).
  destruct (is_chain_hd _ _ _ C1) as (t1 & Eg1). destruct (is_chain_hd _ _ _ C2) as (t2 & Eg2).
  assert (g1 <> g2) by (intros ->; rewrite Eg1 in Eg2; inversion Eg2; congruence).
  (* split the group list *)
  assert (exists rest, Permutation gs (g1 :: g2 :: rest)) as (rest & PG).
  { destruct (in_split _ _ In1) as (a & b & ->).
    assert (In g2 (a ++ b)).
    { apply in_app_or in In2. destruct In2 as [X|[X|X]]; [apply in_or_app; auto|congruence|apply in_or_app; auto]. }
    destruct (in_split _ _ H0) as (c & d & E). exists (c ++ d).
    rewrite <- Permutation_middle. constructor. rewrite E. symmetry. apply Permutation_middle. }
  destruct I as [(L1 & L2 & L3) ND BD PM GR HD NN TT ZZ].
  assert (PC : Permutation (g1 ++ g2 ++ concat rest) S0).
  { rewrite <- PM. change (g1 ++ g2 ++ concat rest) with (concat (g1 :: g2 :: rest)).
    symmetry. now apply Permutation_concat || (clear -PG; induction PG; simpl; auto; [apply Permutation_app_head; auto|rewrite !app_assoc; apply Permutation_app_tail, Permutation_app_comm|etransitivity; eauto]). }
  assert (NDC : NoDup (g1 ++ g2 ++ concat rest)) by (eapply Permutation_NoDup; [symmetry; eauto|auto]).
  destruct (NoDup_app_inv _ _ NDC) as (ND1 & NDC2 & D1).
  destruct (NoDup_app_inv _ _ NDC2) as (ND2 & NDr & D2).
  assert (GRP : Forall (group_ok h) (g1 :: g2 :: rest)).
  { rewrite Forall_forall in *. intros g Hg. apply GR. eapply Permutation_in; [symmetry; eauto|auto]. }
  inversion GRP as [|? ? G1 GRP2]; subst x l. inversion GRP2 as [|? ? G2 GRr]; subst x l.
  assert (BI : forall i, In i (g1 ++ g2 ++ concat rest) -> (i < 18)%nat).
  { intros; apply BD. eapply Permutation_in; eauto. }
  assert (BI1 : forall i, In i g1 -> (i < 18)%nat) by (intros; apply BI; apply in_or_app; auto).
  assert (BI2 : forall i, In i g2 -> (i < 18)%nat) by (intros; apply BI; apply in_or_app; right; apply in_or_app; auto).
  assert (LEN : (length g1 + length g2 <= 18)%nat).
  { assert (NoDup (g1 ++ g2)).
    { rewrite app_assoc in NDC. apply NoDup_app_inv in NDC. tauto. }
    rewrite <- app_length. rewrite <- (seq_length 18 0). apply NoDup_incl_length; auto.
    intros i Hi. apply in_seq. apply in_app_or in Hi. destruct Hi; [apply BI1 in H1|apply BI2 in H1]; lia. }
  unfold hb_merge.
  rewrite (get_ok _ _ 0) by lia. cbn [bind]. rewrite (get_ok _ _ 0) by lia. cbn [bind].
  set (f1 := nth v1 (hb_freq h) 0) in *. set (f2 := nth v2 (hb_freq h) 0) in *.
  assert (SUM : f1 + f2 <= zsum (hb_freq h)).
  { pose proof (zsum_upd (hb_freq h) v1 0 ltac:(lia)) as X.
    assert (Forall (fun f => 0 <= f) (upd_list (hb_freq h) v1 0)).
    { rewrite Forall_forall in *. intros y Hy. apply In_nth with (d := 0) in Hy. destruct Hy as (i & Hi & <-).
      rewrite upd_list_length in Hi. rewrite nth_upd by lia. destruct (Nat.eqb_spec v1 i); [lia|].
      apply NN. apply nth_In; lia. }
    pose proof (zsum_nth_le _ v2 H0) as Y. rewrite nth_upd_neq in Y by auto. fold f1 f2 in X, Y. lia. }
  replace (f1 + f2 <? 2 ^ 64) with true by (symmetry; apply Z.ltb_lt; lia). cbn [assert_ bind].
  rewrite put_ok by lia. cbn [bind]. rewrite put_ok by (rewrite upd_list_length; lia). cbn [bind].
  destruct (inc_chain_spec _ _ _ C1 18%nat (hb_codesize h)) as (cs1 & E1 & LC1 & N1); auto; try lia.
  { intros; rewrite L2; auto. }
  rewrite E1. cbn [bind].
  assert (HL1 : In (last g1 0%nat) g1).
  { rewrite Eg1. destruct (exists_last (l := v1 :: t1)) as (l' & x & E'); try discriminate.
    rewrite E'. rewrite last_last. apply in_or_app; simpl; auto. }
  rewrite put_ok by (rewrite L3; apply BI1; auto). cbn [bind].
  set (ot := upd_list (hb_others h) (last g1 0%nat) (Some v2)).
  assert (C2' : is_chain ot v2 g2).
  { apply is_chain_upd_out; auto. intros X. apply (D1 _ HL1). apply in_or_app; auto. rewrite L3; apply BI1; auto. }
  destruct (inc_chain_spec _ _ _ C2' 18%nat cs1) as (cs2 & E2 & LC2 & N2); auto; try lia.
  { unfold ot. rewrite upd_list_length. lia. }
  { intros. rewrite LC1, L2. auto. }
  rewrite E2. cbn [bind].
  eexists; exists ((g1 ++ g2) :: rest). split; [reflexivity|].
  assert (CSN : forall i, nth i cs2 0%nat = bump (hb_codesize h) (g1 ++ g2) i).
  { intros i. rewrite N2. unfold bump at 1. rewrite N1. unfold bump.
    destruct (in_dec Nat.eq_dec i g2), (in_dec Nat.eq_dec i g1), (in_dec Nat.eq_dec i (g1 ++ g2)) as [Y|Y]; auto.
    - exfalso. apply (D1 i); auto. apply in_or_app; auto.
    - exfalso. apply Y. apply in_or_app; auto.
    - exfalso. apply Y. apply in_or_app; auto.
    - exfalso. apply Y. apply in_or_app; auto.
    - exfalso. apply in_app_or in Y. tauto. }
  split.
  2:{ apply Permutation_length in PG. simpl in *. lia. }
  constructor; cbn [hb_freq hb_codesize hb_others].
  - rewrite !upd_list_length. unfold ot. rewrite upd_list_length. lia.
  - auto.
  - auto.
  - simpl. rewrite <- app_assoc. auto.
  - constructor.
    + destruct G1 as (_ & K1 & LT1), G2 as (_ & K2 & LT2).
      split; [|split].
      * exists v1. cbn [hb_others hb_freq]. split.
        { apply is_chain_join; auto.
          - rewrite L3; apply BI1; auto.
          - intros X. apply (D1 _ HL1). apply in_or_app; auto. }
        rewrite nth_upd_neq by auto. rewrite nth_upd_eq by lia. lia.
      * cbn [hb_codesize].
        assert (2 * kraft cs2 (g1 ++ g2) = kraft (hb_codesize h) (g1 ++ g2)).
        { apply kraft_bump with (l := g1 ++ g2); auto.
          intros i Hi. apply in_app_or in Hi.
          destruct Hi as [Hi|Hi]; [apply LT1 in Hi|apply LT2 in Hi]; lia. }
        rewrite (kraft_app (hb_codesize h)), K1, K2 in H0. lia.
      * cbn [hb_codesize]. intros i Hi. rewrite CSN. unfold bump.
        destruct (in_dec Nat.eq_dec i (g1 ++ g2)); [|contradiction]. rewrite app_length.
        pose proof (is_chain_hd _ _ _ C1) as (? & E3). pose proof (is_chain_hd _ _ _ C2) as (? & E4).
        apply in_app_or in Hi. destruct Hi as [Hi|Hi].
        -- apply LT1 in Hi. rewrite E4 at 1. simpl. lia.
        -- apply LT2 in Hi. rewrite E3 at 1. simpl. lia.
    + rewrite Forall_forall in *. intros g Hg. destruct (GRr g Hg) as ((v & Cv & Pv) & Kv & LTv).
      assert (DJ : forall i, In i g -> ~ In i g1 /\ ~ In i g2).
      { intros i Hi. assert (In i (concat rest)) by (apply in_concat; eauto).
        split; intros X. - apply (D1 i X). apply in_or_app; auto. - apply (D2 i X); auto. }
      assert (CSg : forall i, In i g -> nth i cs2 0%nat = nth i (hb_codesize h) 0%nat).
      { intros i Hi. rewrite CSN. unfold bump. destruct (in_dec Nat.eq_dec i (g1 ++ g2)) as [X|]; auto.
        apply in_app_or in X. destruct (DJ i Hi); tauto. }
      pose proof (is_chain_hd _ _ _ Cv) as (tv & Ev).
      split; [|split]; cbn [hb_others hb_freq hb_codesize].
      * exists v. split.
        { apply is_chain_upd_out; auto. intros X. apply DJ in X. tauto. rewrite L3; apply BI1; auto. }
        assert (In v g) by (rewrite Ev; simpl; auto).
        assert (v <> v1). { intros ->. destruct (DJ v1); auto. apply H1. rewrite Eg1; simpl; auto. }
        assert (v <> v2). { intros ->. destruct (DJ v2); auto. apply H3. rewrite Eg2; simpl; auto. }
        rewrite !nth_upd_neq by auto. auto.
      * rewrite kraft_same with (cs := hb_codesize h); auto.
      * intros i Hi. rewrite CSg by auto. auto.
  - intros i Hp.
    destruct (Nat.eq_dec i v2).
    { subst. rewrite nth_upd_eq in Hp by (rewrite upd_list_length; lia). lia. }
    rewrite nth_upd_neq in Hp by auto.
    destruct (Nat.eq_dec i v1).
    { subst i. exists (g1 ++ g2). split; [simpl; auto|]. rewrite Eg1. auto. }
    rewrite nth_upd_neq in Hp by auto.
    destruct (HD i Hp) as (g & Hg & Hh). exists g. split; auto.
    eapply Permutation_in in Hg; [|exact PG]. destruct Hg as [<-|[<-|Hg]]; [| |simpl; auto].
    + rewrite Eg1 in Hh. simpl in Hh. congruence.
    + rewrite Eg2 in Hh. simpl in Hh. congruence.
  - rewrite Forall_forall in *. intros y Hy. apply In_nth with (d := 0) in Hy. destruct Hy as (i & Hi & <-).
    rewrite !upd_list_length in Hi. rewrite nth_upd by (rewrite upd_list_length; lia).
    destruct (Nat.eqb_spec v2 i); [lia|]. rewrite nth_upd by lia. destruct (Nat.eqb_spec v1 i); [lia|].
    apply NN. apply nth_In; lia.
  - rewrite zsum_upd by (rewrite upd_list_length; lia). rewrite nth_upd_neq by auto.
    rewrite zsum_upd by lia. fold f1 f2. lia.
  - intros i Hi. rewrite CSN. unfold bump. destruct (in_dec Nat.eq_dec i (g1 ++ g2)) as [X|]; auto.
    exfalso. apply Hi. eapply Permutation_in; [exact PC|]. rewrite app_assoc. apply in_or_app; auto.
Qed.

Lemma gen_codesizes_spec S0 fuel : forall h gs,
  tree_inv S0 h gs -> (length gs < fuel)%nat -> (1 <= length gs)%nat ->
  exists h' g, gen_codesizes fuel h = Ok h' /\ tree_inv S0 h' [g].
Proof.
  induction fuel; intros h gs I Hf H1; [lia|].
  cbn [gen_codesizes].
  pose proof (tree_inv_freq_max _ _ _ I) as HM.
  pose proof (ti_len _ _ _ I) as (L1 & L2 & L3).
  assert (TERM : forall sk, find_min 0 (hb_freq h) sk u64_max None = None ->
     (sk = None \/ exists m, sk = Some m /\ 0 < nth m (hb_freq h) 0) ->
     exists h' g, Ok h = Ok h' /\ tree_inv S0 h' [g]).
  { intros sk Es Hsk.
    destruct gs as [|ga [|gb gs]]; [simpl in H1; lia|exists h, ga; auto|]. exfalso.
    pose proof (ti_groups _ _ _ I) as GR. inversion GR as [|? ? Ga GR2]; inversion GR2 as [|? ? Gb _]; subst.
    destruct Ga as ((va & Ca & Pa) & _), Gb as ((vb & Cb & Pb) & _).
    pose proof (is_chain_hd _ _ _ Ca) as (ta & ->). pose proof (is_chain_hd _ _ _ Cb) as (tb & ->).
    assert (va <> vb).
    { intros ->. pose proof (ti_perm _ _ _ I) as PM. pose proof (ti_nodup _ _ _ I) as ND.
      apply Permutation_sym in PM. eapply Permutation_NoDup in ND; eauto. simpl in ND.
      inversion ND; subst. apply H2. apply in_or_app; right; simpl; auto. }
    assert (Xa : sk = Some va).
    { apply (find_min_none _ _ HM Es); auto. destruct (Nat.lt_ge_cases va (length (hb_freq h))); auto.
      rewrite nth_overflow in Pa; lia. }
    assert (Xb : sk = Some vb).
    { apply (find_min_none _ _ HM Es); auto. destruct (Nat.lt_ge_cases vb (length (hb_freq h))); auto.
      rewrite nth_overflow in Pb; lia. }
    congruence. }
  destruct (find_min 0 (hb_freq h) None u64_max None) as [a|] eqn:E1.
  - destruct (find_min_some _ _ _ HM E1) as (Ba & Pa & _).
    destruct (find_min 0 (hb_freq h) (Some a) u64_max None) as [b|] eqn:E2.
    + destruct (find_min_some _ _ _ HM E2) as (Bb & Pb & Nb).
      destruct (merge_step _ _ _ a b I) as (h' & gs' & Em & I' & Lg); auto; try lia.
      rewrite Em. cbn [bind]. apply IHfuel with (gs := gs'); auto; try lia.
      destruct gs'; simpl; [|lia].
      pose proof (ti_perm _ _ _ I') as PM'. pose proof (ti_perm _ _ _ I) as PM.
      simpl in PM'. apply Permutation_nil in PM'. subst S0.
      destruct (ti_heads _ _ _ I a Pa) as (g & Hg & Hh). symmetry in PM. apply Permutation_nil in PM.
      destruct g; simpl in Hh; [discriminate|].
      assert (In n (concat gs)) by (apply in_concat; exists (n :: g); split; simpl; auto).
      rewrite PM in H. destruct H.
    + apply (TERM (Some a)); eauto.
  - destruct (find_min 0 (hb_freq h) None u64_max None) eqn:E2; try discriminate.
    apply (TERM None); auto.
Qed.

(** Symbols with non-zero frequency. *)
Definition used (freq : list Z) : list nat :=
  filter (fun i => 0 <? nth i freq 0) (seq 0 18).

Lemma tree_inv_init hist :
  length hist = 17%nat -> Forall (fun f => 0 <= f) hist -> zsum hist + 1 < 2 ^ 64 ->
  tree_inv (used (hist ++ [1])) (hb_new hist) (map (fun i => [i]) (used (hist ++ [1]))).
Proof.
  intros HL HN HS.
  assert (HLN : length (hist ++ [1]) = 18%nat) by (rewrite app_length, HL; auto).
  constructor; unfold hb_new; cbn [hb_freq hb_codesize hb_others].
  - rewrite HLN, !repeat_length. auto.
  - apply NoDup_filter, seq_NoDup.
  - intros i Hi. unfold used in Hi. apply filter_In in Hi. destruct Hi as [Hi _]. apply in_seq in Hi. lia.
  - generalize (used (hist ++ [1])). induction l; simpl; auto.
  - rewrite Forall_forall. intros g Hg. apply in_map_iff in Hg. destruct Hg as (i & <- & Hi).
    unfold used in Hi. apply filter_In in Hi. destruct Hi as [Hi Hp]. apply in_seq in Hi.
    split; [|split]; cbn [hb_freq hb_codesize hb_others].
    + exists i. split; [|lia]. constructor. apply nth_repeat.
    + unfold kraft. cbn [map]. rewrite nth_repeat. reflexivity.
    + intros j _. rewrite nth_repeat. simpl; lia.
  - intros i Hp. exists [i]. split; auto. apply in_map_iff. exists i; split; auto.
    apply filter_In. split; [|lia]. apply in_seq.
    destruct (Nat.lt_ge_cases i 18); [lia|]. rewrite nth_overflow in Hp; lia.
  - apply Forall_app; split; auto. constructor; auto; lia.
  - rewrite zsum_app. unfold zsum at 2. simpl fold_right. lia.
  - intros. apply nth_repeat.
Qed.

(** Result of gen_codesizes in plain terms. *)
Theorem codesizes_spec hist :
  length hist = 17%nat -> Forall (fun f => 0 <= f) hist -> zsum hist + 1 < 2 ^ 64 ->
  exists h, gen_codesizes 19 (hb_new hist) = Ok h /\
    let cs := hb_codesize h in let U := used (hist ++ [1]%Z) in
    length cs = 18%nat /\
    (forall i, ~ In i U -> nth i cs 0%nat = 0%nat) /\
    (forall i, In i U -> (nth i cs 0 < length U)%nat) /\
    zsum (map (fun i => 2 ^ (18 - Z.of_nat (nth i cs 0%nat))) U) = 2 ^ 18.
Proof.
  intros HL HN HS. pose proof (tree_inv_init hist HL HN HS) as I.
  assert (LU : (length (used (hist ++ [1]%Z)) <= 18)%nat).
  { transitivity (length (seq 0 18)); [|rewrite seq_length; lia]. apply NoDup_incl_length; [apply (ti_nodup _ _ _ I)|].
    intros i Hi. apply in_seq. pose proof (ti_bound _ _ _ I i Hi). lia. }
  assert (L17 : In 17%nat (used (hist ++ [1]%Z))).
  { apply filter_In. split; [apply in_seq; lia|]. rewrite app_nth2 by lia. rewrite HL. auto. }
  destruct (gen_codesizes_spec _ 19 _ _ I) as (h & g & E & I').
  { rewrite map_length. lia. }
  { rewrite map_length. destruct (used (hist ++ [1]%Z)); simpl in *; [tauto|lia]. }
  exists h. split; auto. pose proof (ti_len _ _ _ I') as (L1 & L2 & L3).
  pose proof (ti_perm _ _ _ I') as PM. simpl in PM. rewrite app_nil_r in PM.
  pose proof (ti_groups _ _ _ I') as GR. inversion GR as [|? ? (_ & K & LT) _]; subst.
  cbn zeta. split; auto. split; [apply (ti_zero _ _ _ I')|]. split.
  - intros i Hi. rewrite <- (Permutation_length PM). apply LT. eapply Permutation_in; [symmetry; eauto|auto].
  - rewrite <- K. unfold kraft. symmetry. apply zsum_perm. now apply Permutation_map.
Qed.
