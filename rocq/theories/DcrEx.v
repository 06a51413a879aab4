(** Kodak DCR: an example. *)
From Coq Require Import List ZArith Lia Bool.
From Verif Require Import Base CrxImageSpec PefSpec NefTop.
Import ListNotations.
Open Scope Z_scope.

Definition dcr_picture (r c : nat) : Z := 5 + Z.of_nat ((3 * r + 7 * c) mod 31).
Definition dcr_curve : list Z := ramp 40.
Lemma dcr_picture_range r c : 5 <= dcr_picture r c < 40.
Proof. unfold dcr_picture. pose proof (Nat.mod_upper_bound (3 * r + 7 * c) 31 ltac:(lia)). lia. Qed.
Lemma dcr_picture_within w h : picture_within dcr_picture w h 32768.
Proof. intros r c _ _. pose proof (dcr_picture_range r c). lia. Qed.
