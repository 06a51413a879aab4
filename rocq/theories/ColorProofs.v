(** Colour conversion: matrices. *)
From Coq Require Import List ZArith Lia Bool QArith Qcanon Field.
From Coq Require Import ZifyBool ZifyNat.
From Verif Require Import Base BaseLemmas Demosaic DemosaicSpec Color ColorSpec LevelsProofs.
Import ListNotations.
Open Scope nat_scope.

Lemma q_nat0 : f_nat qops 0 = 0%Qc. Proof. now apply Qc_is_canon. Qed.
Lemma q_nat1 : f_nat qops 1 = 1%Qc. Proof. now apply Qc_is_canon. Qed.

Section Gen.
Context {F : Type}.
Variable o : fops F.

Lemma mij_mat n m f i j : i < n -> j < m -> mij o (mat n m f) i j = f i j.
Proof.
  intros Hi Hj. unfold mij, mat.
  rewrite nth_indep with (d' := map (f 0) (seq 0 m)) by (rewrite map_length, seq_length; lia).
  rewrite (map_nth (fun i => map (f i) (seq 0 m)) (seq 0 n) 0), seq_nth by lia. cbn [Nat.add].
  rewrite nth_indep with (d' := f i 0) by (rewrite map_length, seq_length; lia).
  now rewrite (map_nth (f i) (seq 0 m) 0), seq_nth by lia.
Qed.

(** a work matrix *)
Definition shaped (w : list (list F)) : Prop := exists r0 r1 r2, w = [r0; r1; r2] /\ length r0 = 6 /\ length r1 = 6 /\ length r2 = 6.

Lemma shaped_mat f : shaped (mat 3 6 f).
Proof. unfold shaped, mat. cbn. do 3 eexists. split; [reflexivity|]. auto. Qed.

Lemma six (r : list F) : length r = 6 -> exists a b c d e f, r = [a; b; c; d; e; f].
Proof.
  intros H. destruct r as [|a [|b [|c [|d [|e [|f [|]]]]]]]; try discriminate. now exists a, b, c, d, e, f.
Qed.

Lemma round_ok w i : shaped w -> i < 3 ->
  shaped (pinv_round o w i) /\
  forall k j, k < 3 -> j < 6 ->
    mij o (pinv_round o w i) k j =
    if k =? i then f_div o (mij o w i j) (mij o w i i)
    else f_sub o (mij o w k j) (f_mul o (f_div o (mij o w i j) (mij o w i i)) (mij o w k i)).
Proof.
  intros (r0 & r1 & r2 & -> & L0 & L1 & L2) Hi.
  destruct (six r0 L0) as (a0 & b0 & c0 & d0 & e0 & f0 & ->).
  destruct (six r1 L1) as (a1 & b1 & c1 & d1 & e1 & f1 & ->).
  destruct (six r2 L2) as (a2 & b2 & c2 & d2 & e2 & f2 & ->).
  destruct i as [|[|[|]]]; try lia; (split; [cbn; do 3 eexists; split; [reflexivity|]; auto|]);
    intros k j Hk Hj; destruct k as [|[|[|]]]; try lia; destruct j as [|[|[|[|[|[|]]]]]]; try lia; reflexivity.
Qed.
End Gen.

Open Scope Qc_scope.
Notation qm := (mij qops).
Notation q0 := (f_nat qops 0).

(** ** Sums *)

Lemma fold_plus l : forall a, fold_left Qcplus l a = a + fold_left Qcplus l 0.
Proof. induction l as [|x l IH]; intros a; cbn; [ring|]. rewrite IH, (IH (0 + x)). ring. Qed.

Lemma qsum_S n f : qsum (S n) f = qsum n f + f n.
Proof. unfold qsum. rewrite seq_S, map_app, fold_left_app. cbn. ring. Qed.

Lemma qsum_add n f g : qsum n (fun k => f k + g k) = qsum n f + qsum n g.
Proof. induction n as [|n IH]; [unfold qsum; cbn; ring|]. rewrite !qsum_S, IH. ring. Qed.

Lemma qsum_mul n c f : qsum n (fun k => c * f k) = c * qsum n f.
Proof. induction n as [|n IH]; [unfold qsum; cbn; ring|]. rewrite !qsum_S, IH. ring. Qed.

Lemma qsum_ext n f g : (forall k, (k < n)%nat -> f k = g k) -> qsum n f = qsum n g.
Proof.
  intros H. unfold qsum. f_equal. apply map_ext_in. intros k Hk. apply in_seq in Hk. apply H. lia.
Qed.

Lemma sq_nonneg (x : Qc) : 0 <= x * x.
Proof.
  destruct (Qclt_le_dec x 0) as [L|L].
  - replace (x * x) with ((0 - x) * (0 - x)) by ring.
    assert (0 <= 0 - x) by (apply qsub_nonneg; now apply Qclt_le_weak).
    replace 0 with (0 * (0 - x)) at 1 by ring. now apply Qcmult_le_compat_r.
  - replace 0 with (0 * x) at 1 by ring. now apply Qcmult_le_compat_r.
Qed.

Lemma qsum_sq_zero n f : qsum n (fun k => f k * f k) = 0 -> forall k, (k < n)%nat -> f k = 0.
Proof.
  assert (NN : forall m, 0 <= qsum m (fun k => f k * f k)).
  { induction m as [|m IH]; [unfold qsum; cbn; apply Qcle_refl|]. rewrite qsum_S. replace 0 with (0 + 0) by ring.
    apply Qcplus_le_compat; [exact IH|apply sq_nonneg]. }
  induction n as [|n IH]; intros E k Hk; [lia|]. rewrite qsum_S in E.
  assert (Z1 : f n * f n = 0).
  { apply Qcle_antisym; [|apply sq_nonneg]. rewrite <- E. replace (f n * f n) with (0 + f n * f n) at 1 by ring.
    apply Qcplus_le_compat; [apply NN|apply Qcle_refl]. }
  assert (Z2 : qsum n (fun k => f k * f k) = 0) by (rewrite Z1 in E; rewrite <- E; ring).
  destruct (Nat.eq_dec k n) as [->|]; [|apply IH; [exact Z2|lia]].
  destruct (Qcmult_integral _ _ Z1); assumption.
Qed.

(** ** The elimination *)
Section Elim.
Variable g : nat -> nat -> Qc.
(** the products of the columns are positive definite *)
Hypothesis gpos : forall x : nat -> Qc, (x 0%nat <> 0 \/ x 1%nat <> 0 \/ x 2%nat <> 0) ->
  x 0%nat * (x 0%nat * g 0 0 + x 1%nat * g 1 0 + x 2%nat * g 2 0) + x 1%nat * (x 0%nat * g 0 1 + x 1%nat * g 1 1 + x 2%nat * g 2 1)
  + x 2%nat * (x 0%nat * g 0 2 + x 1%nat * g 1 2 + x 2%nat * g 2 2) <> 0.

(** left half = right half * g *)
Definition linked (w : list (list Qc)) : Prop := forall k j, (k < 3)%nat -> (j < 3)%nat ->
  qm w k j = qm w k 3 * g 0 j + qm w k 4 * g 1 j + qm w k 5 * g 2 j.

Lemma round_linked w i : shaped w -> (i < 3)%nat -> qm w i i <> 0 -> linked w -> linked (pinv_round qops w i).
Proof.
  intros HS Hi HP HL k j Hk Hj. destruct (round_ok qops w i HS Hi) as (_ & R).
  rewrite !R by lia. pose proof (HL i j Hi Hj) as E1. pose proof (HL k j Hk Hj) as E2.
  cbn [f_div f_sub f_mul qops]. destruct (Nat.eqb_spec k i) as [->|N].
  - rewrite E1. now field.
  - rewrite E1, E2. now field.
Qed.

(** before round [i]: the columns before [i] are unit vectors, and the rows from
    [i] on have combined only earlier rows *)
Definition reduced (i : nat) (w : list (list Qc)) : Prop :=
  (forall k j, (k < 3)%nat -> (j < i)%nat -> qm w k j = unit_entry k j) /\
  (forall k j, (i <= k < 3)%nat -> (i <= j < 3)%nat -> qm w k (j + 3) = unit_entry k j).

Lemma pivot_ok w i : (i < 3)%nat -> linked w -> reduced i w -> qm w i i <> 0.
Proof.
  intros Hi HL (R1 & R2) E.
  apply (gpos (fun j => qm w i (j + 3))).
  - pose proof (R2 i i ltac:(lia) ltac:(lia)) as U. unfold unit_entry in U. rewrite Nat.eqb_refl in U.
    destruct i as [|[|[|]]]; try lia; [left|right; left|right; right]; rewrite U; discriminate.
  - cbn [Nat.add]. rewrite <- (HL i 0%nat), <- (HL i 1%nat), <- (HL i 2%nat) by lia.
    assert (U : forall j, (j < 3)%nat -> qm w i (j + 3) * qm w i j = 0).
    { intros j Hj. destruct (Nat.lt_trichotomy j i) as [L|[->|L]].
      - rewrite (R1 i j) by lia. unfold unit_entry. replace (i =? j)%nat with false by lia. ring.
      - rewrite E. ring.
      - rewrite (R2 i j) by lia. unfold unit_entry. replace (i =? j)%nat with false by lia. ring. }
    pose proof (U 0%nat ltac:(lia)) as Ua. pose proof (U 1%nat ltac:(lia)) as Ub. pose proof (U 2%nat ltac:(lia)) as Uc.
    cbn [Nat.add] in Ua, Ub, Uc. rewrite Ua, Ub, Uc. ring.
Qed.

Lemma round_reduced w i : shaped w -> (i < 3)%nat -> linked w -> reduced i w -> reduced (S i) (pinv_round qops w i).
Proof.
  intros HS Hi HL HR. pose proof (pivot_ok w i Hi HL HR) as HP. destruct HR as (R1 & R2).
  destruct (round_ok qops w i HS Hi) as (_ & R). cbn [f_div f_sub f_mul qops] in R. split.
  - intros k j Hk Hj. rewrite R by lia. unfold unit_entry. destruct (Nat.eqb_spec k i) as [->|N].
    + destruct (Nat.eq_dec j i) as [->|NJ].
      * rewrite Nat.eqb_refl. now field.
      * rewrite R1 by lia. unfold unit_entry. replace (i =? j)%nat with false by lia. now field.
    + destruct (Nat.eq_dec j i) as [->|NJ].
      * replace (k =? i)%nat with false by lia. now field.
      * rewrite !R1 by lia. unfold unit_entry. replace (i =? j)%nat with false by lia.
        destruct (k =? j)%nat; now field.
  - intros k j Hk Hj. rewrite R by lia. replace (k =? i)%nat with false by lia.
    rewrite !R2 by lia. unfold unit_entry. replace (i =? j)%nat with false by lia. now field.
Qed.

Lemma inverse_ok w0 : shaped w0 -> linked w0 ->
  (forall i j, (i < 3)%nat -> (j < 3)%nat -> qm w0 i (j + 3) = unit_entry i j) ->
  let w := fold_left (pinv_round qops) (seq 0 3) w0 in
  linked w /\ forall i j, (i < 3)%nat -> (j < 3)%nat -> qm w i j = unit_entry i j.
Proof.
  intros S0 L0 U0.
  assert (H : forall n, (n <= 3)%nat -> let w := fold_left (pinv_round qops) (seq 0 n) w0 in shaped w /\ linked w /\ reduced n w).
  { induction n as [|n IH]; intros Hn.
    - cbn. split; [exact S0|]. split; [exact L0|]. split; [intros; lia|]. intros. apply U0; lia.
    - destruct (IH ltac:(lia)) as (HS & HL & HR). rewrite seq_S, fold_left_app. cbn [fold_left Nat.add].
      split; [now apply round_ok|]. split; [|apply round_reduced; auto].
      apply round_linked; auto. apply pivot_ok; auto. }
  destruct (H 3%nat ltac:(lia)) as (_ & HL & HR & _). split; [exact HL|]. intros; now apply HR.
Qed.
End Elim.

(** ** pseudo_inverse *)

Lemma fsum_q l : fsum qops l = fold_left Qcplus l 0.
Proof. unfold fsum. now rewrite q_nat0. Qed.

Lemma fsum3 f : fsum qops (map f (seq 0 3)) = f 0%nat + f 1%nat + f 2%nat.
Proof. rewrite fsum_q. cbn. ring. Qed.

Section Pinv.
Variables (n : nat) (m : list (list Qc)).
Hypothesis ind : independent qops n m.
Let g i j := qsum n (fun k => qm m k i * qm m k j).

Lemma g_pos (x : nat -> Qc) : (x 0%nat <> 0 \/ x 1%nat <> 0 \/ x 2%nat <> 0) ->
  x 0%nat * (x 0%nat * g 0 0 + x 1%nat * g 1 0 + x 2%nat * g 2 0) + x 1%nat * (x 0%nat * g 0 1 + x 1%nat * g 1 1 + x 2%nat * g 2 1)
  + x 2%nat * (x 0%nat * g 0 2 + x 1%nat * g 1 2 + x 2%nat * g 2 2) <> 0.
Proof.
  intros HX E.
  assert (ES : qsum n (fun k => response qops m k x * response qops m k x) = 0).
  { rewrite <- E. unfold g. rewrite <- !qsum_mul, <- !qsum_add, <- !qsum_mul, <- !qsum_add.
    apply qsum_ext. intros k _. unfold response. cbn [f_add f_mul qops]. ring. }
  destruct (ind x) as (Z0 & Z1 & Z2).
  - intros k Hk. rewrite q_nat0. exact (qsum_sq_zero n _ ES k Hk).
  - rewrite q_nat0 in *. tauto.
Qed.

Lemma start_ok : linked g (pinv_start qops n m) /\
  forall i j, (i < 3)%nat -> (j < 3)%nat -> qm (pinv_start qops n m) i (j + 3) = unit_entry i j.
Proof.
  assert (U : forall i j, (i < 3)%nat -> (j < 3)%nat -> qm (pinv_start qops n m) i (j + 3) = unit_entry i j).
  { intros i j Hi Hj. unfold pinv_start. rewrite mij_mat by lia. cbv zeta.
    replace (j + 3 <? 3)%nat with false by lia. unfold unit_entry.
    replace (j + 3 =? i + 3)%nat with (i =? j)%nat by lia. destruct (i =? j)%nat; [apply q_nat1|apply q_nat0]. }
  split; [|exact U]. intros k j Hk Hj.
  pose proof (U k 0%nat Hk ltac:(lia)) as Ua. pose proof (U k 1%nat Hk ltac:(lia)) as Ub. pose proof (U k 2%nat Hk ltac:(lia)) as Uc.
  cbn [Nat.add] in Ua, Ub, Uc. rewrite Ua, Ub, Uc. unfold pinv_start. rewrite mij_mat by lia. cbv zeta.
  replace (j <? 3)%nat with true by lia. replace (j =? k + 3)%nat with false by lia. rewrite q_nat0.
  change (fold_left _ _ 0) with (g k j). unfold unit_entry.
  destruct k as [|[|[|]]]; try lia; cbn [Nat.eqb]; ring.
Qed.

Lemma pinv_left i l : (i < 3)%nat -> (l < 3)%nat ->
  qsum n (fun j => qm (pseudo_inverse qops n m) i j * qm m j l) = unit_entry i l.
Proof.
  intros Hi Hl. destruct start_ok as (HL0 & HU0).
  pose proof (inverse_ok g g_pos (pinv_start qops n m) (shaped_mat _) HL0 HU0) as HW. unfold pseudo_inverse, pinv_work. cbv zeta.
  revert HW. generalize (fold_left (pinv_round qops) (seq 0 3) (pinv_start qops n m)). intros W (HL & HU).
  rewrite <- HU, HL by auto. unfold g.
  rewrite <- !qsum_mul, <- !qsum_add. apply qsum_ext. intros j Hj.
  rewrite mij_mat by auto. rewrite fsum3. cbn [f_mul qops Nat.add]. ring.
Qed.
End Pinv.
