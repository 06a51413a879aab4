(** C55: Kodak DCR image data. *)
From Coq Require Import List ZArith Lia.
From Verif Require Import Base Bits BitsSpec BitsProofs PefSpec NefTop Dcr DcrSpec DcrProofs DcrTop DcrEx.
Import ListNotations.
Open Scope Z_scope.

(** whatever the data: samples from the differences of each segment, then the curve *)
Theorem C55_any_data : forall curve lut buf w h, lut_ok curve -> lut_new curve = Ok lut -> Forall is_byte buf -> (seg_start buf w (h * segs w) <= length buf)%nat ->
  (forall r c, (r < h)%nat -> (c < w)%nat -> dcr_sample buf w r c < Z.of_nat (length curve)) ->
  dcr_decode buf lut w h = Ok (through_curve curve (dcr_sample buf w) w h).
Proof. exact dcr_any. Qed.
Print Assumptions C55_any_data.

Theorem C55_roundtrip : forall s w h tail, picture_within s w h 32768 -> Forall is_byte tail -> forall curve lut, lut_ok curve -> lut_new curve = Ok lut ->
  (forall r c, (r < h)%nat -> (c < w)%nat -> s r c < Z.of_nat (length curve)) ->
  dcr_decode (dcr_encode s w h ++ tail) lut w h = Ok (through_curve curve s w h).
Proof. exact dcr_roundtrip. Qed.
Print Assumptions C55_roundtrip.

(** a segment uses exactly its bytes *)
Theorem C55_segment : forall buf p size, Forall is_byte buf -> (size <= 256)%nat -> (seg_end buf p size <= length buf)%nat ->
  dcr_segment buf p size = Ok (map (seg_diff buf p size) (seq 0 size), seg_end buf p size).
Proof. exact seg_ok. Qed.
Print Assumptions C55_segment.

(** sums below zero become zero; the bits after the last difference are dropped *)
Example C55_example_any : let buf := [50; 2; 0; 245; 0; 0; 7] in
  map (dcr_sample buf 3 0) [0; 1; 2]%nat = [0; 5; 3] /\ map (seg_diff buf 0 3) [0; 1; 2]%nat = [-2; 5; 3] /\ seg_start buf 3 1 = 6%nat.
Proof. repeat split; reflexivity. Qed.

Example C55_example : exists lut, lut_new dcr_curve = Ok lut /\
  dcr_encode dcr_picture 4 1 = [67; 68; 119; 101] /\
  dcr_decode (dcr_encode dcr_picture 268 3 ++ [9]) lut 268 3 = Ok (through_curve dcr_curve dcr_picture 268 3).
Proof.
  assert (L : lut_ok dcr_curve) by (apply ramp_ok; lia). destruct (lut_new_ok dcr_curve L) as (lut & E & _). exists lut. split; [exact E|]. split; [reflexivity|].
  apply C55_roundtrip; auto; [apply dcr_picture_within|repeat constructor; unfold is_byte; lia|]. intros r c _ _. exact (proj2 (dcr_picture_range r c)).
Qed.
