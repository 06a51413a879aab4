(** Samsung: examples. *)
From Coq Require Import List ZArith Lia Bool.
From Verif Require Import Base CrxImageSpec PefSpec Srw SrwSpec.
Import ListNotations.
Open Scope Z_scope.

(** 32 by 2: the second row from the first, lengths kept, changed and given *)
Definition srw_form : srw1_form :=
  {| f_dir := fun r g => (r =? 1)%nat;
     f_op := fun r g i => match g, i with O, 0 => (1, 0) | O, 1 => (2, 0) | O, 2 => (3, 9) | S _, 3 => (3, 5) | _, _ => (0, 0) end%nat |}.
Definition srw_picture (r c : nat) : Z := 128 + Z.of_nat (3 * r + c mod 7).
(** boolean version of form_ok *)
Definition fits_b (l : nat) (a : Z) : bool := if (l =? 0)%nat then a =? 0 else (- 2 ^ Z.of_nat (l - 1) <=? a) && (a <? 2 ^ Z.of_nat (l - 1)).
Definition form_b (f : srw1_form) (a : nat -> nat -> Z) (w h : nat) : bool :=
  forallb (fun r => forallb (fun g =>
    forallb (fun i => (fst (f_op f r g i) <? 4)%nat && (snd (f_op f r g i) <? 16)%nat && (len_of f r g i <=? 30)%nat && (negb (fst (f_op f r g i) =? 2)%nat || (0 <? len_before f r g i)%nat)) (seq 0 4) &&
    forallb (fun c => fits_b (len_of f r g (which_len c)) (a r (16 * g + c)%nat)) (seq 0 16)) (seq 0 (groups w))) (seq 0 h).
Lemma form_b_ok f a w h : form_b f a w h = true -> form_ok f a w h.
Proof.
  unfold form_b. intros H r g Hr Hg. rewrite forallb_forall in H. specialize (H r). rewrite in_seq in H. specialize (H ltac:(lia)). rewrite forallb_forall in H. specialize (H g). rewrite in_seq in H.
  specialize (H ltac:(lia)). apply andb_true_iff in H as [H1 H2]. rewrite forallb_forall in H1, H2. split.
  - intros i Hi. specialize (H1 i). rewrite in_seq in H1. specialize (H1 ltac:(lia)). apply andb_true_iff in H1 as [H1 H4]. apply andb_true_iff in H1 as [H1 H3]. apply andb_true_iff in H1 as [H0 H1].
    apply Nat.ltb_lt in H0, H1. apply Nat.leb_le in H3. repeat split; auto. intros E. rewrite E in H4. cbn [Nat.eqb negb orb] in H4. now apply Nat.ltb_lt.
  - intros c Hc. specialize (H2 c). rewrite in_seq in H2. specialize (H2 ltac:(lia)). unfold fits_b in H2. unfold fits_signed. destruct (_ =? 0)%nat; [now apply Z.eqb_eq|].
    apply andb_true_iff in H2 as [A B]. apply Z.leb_le in A. apply Z.ltb_lt in B. auto.
Qed.
Lemma srw_picture_small w h : (h <= 100)%nat -> picture_within srw_picture w h 8192.
Proof. intros Hh r c Hr Hc. unfold srw_picture. pose proof (Nat.mod_upper_bound c 7 ltac:(lia)). lia. Qed.
Lemma srw_picture_small' w h : (h <= 100)%nat -> picture_within srw_picture w h 65536.
Proof. intros Hh r c Hr Hc. pose proof (srw_picture_small w h Hh r c Hr Hc). lia. Qed.
