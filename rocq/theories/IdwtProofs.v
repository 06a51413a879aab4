(** The line by line inverse transform over several levels. *)
From Coq Require Import List ZArith Lia Bool.
From Verif Require Import Base BaseLemmas Crx CrxLL Idwt IdwtSpec IdwtRow.
Import ListNotations.
Open Scope Z_scope.

(** ** Column loops *)
Definition wf (w : nat) (ring : list (list Z)) : Prop :=
  length ring = 5%nat /\ forall h, (h < 5)%nat -> length (nth h ring []) = w.

Lemma put2_ok w ring h i v : wf w ring -> (h < 5)%nat -> (i < w)%nat ->
  put2 h i v ring = Ok (upd_list ring h (upd_list (nth h ring []) i v)) /\ wf w (upd_list ring h (upd_list (nth h ring []) i v)).
Proof.
  intros [L E] Hh Hi. unfold put2. rewrite get_ok with (d := []) by lia. cbn [bind].
  rewrite put_ok by (rewrite E; auto). cbn [bind]. rewrite put_ok by lia. split; [reflexivity|].
  split; [now rewrite upd_list_length|]. intros k Hk. rewrite nth_upd by lia.
  destruct (Nat.eqb_spec h k); [|auto]. rewrite upd_list_length. auto.
Qed.

Lemma put2_nth w ring h i v k : wf w ring -> (h < 5)%nat -> (i < w)%nat ->
  nth k (upd_list ring h (upd_list (nth h ring []) i v)) [] = if (h =? k)%nat then upd_list (nth h ring []) i v else nth k ring [].
Proof. intros [L E] Hh Hi. now rewrite nth_upd by lia. Qed.

Definition partly (w i : nat) (g : nat -> Z) (l : list Z) : Prop :=
  length l = w /\ forall j, (j < i)%nat -> nth j l 0 = g j.
Lemma partly_S w i g l : (i < w)%nat -> partly w i g l -> partly w (S i) g (upd_list l i (g i)).
Proof.
  intros Hi [L E]. split; [now rewrite upd_list_length|]. intros j Hj. rewrite nth_upd by lia.
  destruct (Nat.eqb_spec i j); [congruence|]. apply E. lia.
Qed.
Lemma partly_all w g l : partly w w g l -> l = map g (seq 0 w).
Proof.
  intros [L E]. apply nth_ext_len with (d := 0); [now rewrite map_length, seq_length|].
  intros j Hj. rewrite nth_map_seq by lia. apply E. lia.
Qed.

Lemma cols2 f w h0 h1 h2 ring y d : wf w ring -> (h1 < 5)%nat -> (h2 < 5)%nat ->
  h0 <> h1 -> h0 <> h2 -> h1 <> h2 ->
  (forall i r, (i < w)%nat -> wf w r -> nth h0 r [] = nth h0 ring [] ->
     f i r = do r <- put2 h1 i (y i) r; put2 h2 i (d i) r) ->
  exists r, for_each (seq 0 w) f ring = Ok r /\ wf w r /\ nth h1 r [] = map y (seq 0 w) /\ nth h2 r [] = map d (seq 0 w)
    /\ forall h, h <> h1 -> h <> h2 -> nth h r [] = nth h ring [].
Proof.
  intros W H1 H2 N1 N2 N3 Hf.
  destruct (for_each_seq_inv f (fun i r => wf w r /\ partly w i y (nth h1 r []) /\ partly w i d (nth h2 r [])
              /\ forall h, h <> h1 -> h <> h2 -> nth h r [] = nth h ring []) 0 w ring) as (r & E & W' & P1 & P2 & R).
  - split; [auto|]. split; [split; [apply W; auto|intros; lia]|]. split; [split; [apply W; auto|intros; lia]|auto].
  - intros i s Hi (Ws & P1 & P2 & R). rewrite Hf by (auto; lia).
    destruct (put2_ok w s h1 i (y i) Ws H1 ltac:(lia)) as [-> W1]. cbn [bind].
    set (s1 := upd_list s h1 _) in *.
    destruct (put2_ok w s1 h2 i (d i) W1 H2 ltac:(lia)) as [-> W2]. eexists. split; [reflexivity|].
    split; [exact W2|].
    assert (E1 : forall k, nth k s1 [] = if (h1 =? k)%nat then upd_list (nth h1 s []) i (y i) else nth k s []).
    { intros k. unfold s1. apply put2_nth with (w := w); auto. lia. }
    assert (E2 := fun k => put2_nth w s1 h2 i (d i) k W1 H2 ltac:(lia)).
    split; [|split].
    + rewrite E2. destruct (Nat.eqb_spec h2 h1); [congruence|]. rewrite E1, Nat.eqb_refl. apply partly_S; auto. lia.
    + rewrite E2, Nat.eqb_refl, E1. destruct (Nat.eqb_spec h1 h2); [congruence|]. apply partly_S; auto. lia.
    + intros h K1 K2. rewrite E2. destruct (Nat.eqb_spec h2 h); [congruence|]. rewrite E1.
      destruct (Nat.eqb_spec h1 h); [congruence|]. auto.
  - exists r. split; [exact E|]. split; [exact W'|]. split; [now apply partly_all|]. split; [now apply partly_all|exact R].
Qed.

Lemma cols1 f w h0 h1 ring y : wf w ring -> (h1 < 5)%nat ->
  (forall i r, (i < w)%nat -> wf w r -> (h0 <> h1 -> nth h0 r [] = nth h0 ring []) -> f i r = put2 h1 i (y i) r) ->
  exists r, for_each (seq 0 w) f ring = Ok r /\ wf w r /\ nth h1 r [] = map y (seq 0 w)
    /\ forall h, h <> h1 -> nth h r [] = nth h ring [].
Proof.
  intros W H1 Hf.
  destruct (for_each_seq_inv f (fun i r => wf w r /\ partly w i y (nth h1 r [])
              /\ forall h, h <> h1 -> nth h r [] = nth h ring []) 0 w ring) as (r & E & W' & P1 & R).
  - split; [auto|]. split; [split; [apply W; auto|intros; lia]|auto].
  - intros i s Hi (Ws & P1 & R). rewrite Hf by (auto; lia).
    destruct (put2_ok w s h1 i (y i) Ws H1 ltac:(lia)) as [-> W1]. eexists. split; [reflexivity|].
    split; [exact W1|].
    assert (E1 := fun k => put2_nth w s h1 i (y i) k Ws H1 ltac:(lia)).
    split.
    + rewrite E1, Nat.eqb_refl. apply partly_S; auto. lia.
    + intros h K1. rewrite E1. destruct (Nat.eqb_spec h1 h); [congruence|]. auto.
  - exists r. split; [exact E|]. split; [exact W'|]. split; [now apply partly_all|exact R].
Qed.

(** ** Vertical reconstruction *)
Lemma rowL_bound h P n C j : (forall r c, Z.abs (P r c) <= C) -> Z.abs (rowL h P n j) <= 2 * C + 1.
Proof. intros. unfold rowL. apply low_bound. auto. Qed.
Lemma rowH_bound h P n C j : (forall r c, Z.abs (P r c) <= C) -> Z.abs (rowH h P n j) <= 2 * C.
Proof. intros. unfold rowH. apply high_bound. auto. Qed.
Lemma coarser_bound l r w h P C i j : (forall r c, Z.abs (P r c) <= C) -> Z.abs (coarser l r w h P i j) <= 4 * C + 3.
Proof.
  intros. unfold coarser, colL.
  pose proof (low_bound (fun j => rowL h P i (mirror l r w j)) (2 * C + 1) j (fun k => rowL_bound h P i C _ H)). lia.
Qed.

Section Vert.
Variables (h : nat) (P : plane) (C : Z).
Hypothesis Hh : (3 <= h)%nat.
Hypothesis HC : 0 <= C <= 2 ^ 28.
Hypothesis HP : forall r c, Z.abs (P r c) <= C.
Let X j := fun i => P (mirror false false h i) j.

Lemma X_in j i : 0 <= i < Z.of_nat h -> X j i = P i j.
Proof using. clear Hh HC HP. intros. unfold X. now rewrite mirror_in. Qed.

Lemma vfirst j : lift1 (rowL h P 0 j) (rowH h P 0 j) = Ok (P 0 j).
Proof using Hh HC HP.
  rewrite lift1_ok with (C := C) by (auto using rowL_bound, rowH_bound). f_equal.
  pose proof (low_even (X j) 0) as E. change (0 - 1) with (-1) in E.
  assert (EH : high (X j) (-1) = high (X j) 0) by (exact (high_first false false h (fun i => P i j) Hh eq_refl)).
  rewrite EH, half_twice in E. change (2 * 0) with 0 in E. rewrite X_in in E by lia. exact E.
Qed.

Lemma vmid k j : (2 * k + 3 < h)%nat ->
  lift4 (rowL h P (Z.of_nat (k + 1)) j) (rowH h P (Z.of_nat (k + 1)) j) (rowH h P (Z.of_nat k) j) = Ok (P (Z.of_nat (2 * k + 2)) j)
  /\ avg (rowH h P (Z.of_nat k) j) (P (Z.of_nat (2 * k + 2)) j) (P (Z.of_nat (2 * k)) j) = Ok (P (Z.of_nat (2 * k + 1)) j).
Proof using Hh HC HP.
  intros. split.
  - rewrite lift4_ok with (C := C) by (auto using rowL_bound, rowH_bound). f_equal.
    pose proof (low_even (X j) (Z.of_nat (k + 1))) as E.
    rewrite X_in in E by lia. replace (Z.of_nat (2 * k + 2)) with (2 * Z.of_nat (k + 1)) by lia. rewrite <- E.
    unfold rowL, rowH. fold (X j). replace (Z.of_nat (k + 1) - 1) with (Z.of_nat k) by lia. f_equal. f_equal. lia.
  - rewrite avg_ok with (C := C) by (auto using rowL_bound, rowH_bound). f_equal.
    pose proof (high_odd (X j) (Z.of_nat k)) as E. rewrite !X_in in E by lia.
    replace (Z.of_nat (2 * k + 1)) with (2 * Z.of_nat k + 1) by lia. rewrite <- E.
    unfold rowH. fold (X j). do 3 f_equal; f_equal; lia.
Qed.

Lemma vlast_odd k j : h = (2 * k + 3)%nat ->
  lift1 (rowL h P (Z.of_nat (k + 1)) j) (rowH h P (Z.of_nat k) j) = Ok (P (Z.of_nat (2 * k + 2)) j)
  /\ avg (rowH h P (Z.of_nat k) j) (P (Z.of_nat (2 * k + 2)) j) (P (Z.of_nat (2 * k)) j) = Ok (P (Z.of_nat (2 * k + 1)) j).
Proof using Hh HC HP.
  intros. split.
  - rewrite lift1_ok with (C := C) by (auto using rowL_bound, rowH_bound). f_equal.
    pose proof (low_even (X j) (Z.of_nat (k + 1))) as E.
    rewrite X_in in E by lia. replace (Z.of_nat (2 * k + 2)) with (2 * Z.of_nat (k + 1)) by lia.
    assert (EH : high (X j) (Z.of_nat (k + 1)) = high (X j) (Z.of_nat (k + 1) - 1)) by (apply (high_last_odd false false h (fun i => P i j) Hh (k + 1)); [reflexivity|lia]).
    rewrite EH, half_twice in E. replace (Z.of_nat (k + 1) - 1) with (Z.of_nat k) in E by lia. exact E.
  - rewrite avg_ok with (C := C) by (auto using rowL_bound, rowH_bound). f_equal.
    pose proof (high_odd (X j) (Z.of_nat k)) as E. rewrite !X_in in E by lia.
    replace (Z.of_nat (2 * k + 1)) with (2 * Z.of_nat k + 1) by lia. rewrite <- E.
    unfold rowH. fold (X j). do 3 f_equal; f_equal; lia.
Qed.

Lemma vlast_even k j : h = (2 * k + 2)%nat ->
  i32 (P (Z.of_nat (2 * k)) j + rowH h P (Z.of_nat k) j) = Ok (P (Z.of_nat (2 * k + 1)) j).
Proof using Hh HC HP.
  intros. rewrite i32_ok.
  2:{ pose proof (rowH_bound h P (Z.of_nat k) C j HP). pose proof (HP (Z.of_nat (2 * k)) j). lia. }
  f_equal. pose proof (high_last_even false false h (fun i => P i j) Hh k eq_refl H) as E.
  cbv beta in E. fold (X j) in E. rewrite !mirror_in in E by lia.
  replace (Z.of_nat (2 * k + 1)) with (2 * Z.of_nat k + 1) by lia. rewrite <- E.
  unfold rowH. f_equal. f_equal. lia.
Qed.
End Vert.
