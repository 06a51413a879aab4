(** C56: Olympus ORF compressed image data. *)
From Coq Require Import List ZArith Lia.
From Verif Require Import Base CrxImageSpec PefSpec Orf OrfSpec OrfRows OrfTop OrfEx.
Import ListNotations.
Open Scope Z_scope.

(** whatever the data: the samples are the predictions plus the coded values; a
    last column without a partner is black *)
Theorem C56_any_data : forall w h bps header src s, length header = orf_header bps -> Forall is_byte src -> Z.of_nat w < 2 ^ 31 - 2 ->
  orf_data (paired w) (byte_bits src) (paired w * h) -> orf_picture (orf_value_at (paired w) (byte_bits src)) (paired w) h s ->
  picture_within s (paired w) h 32768 ->
  orf_decode (header ++ src) w h bps = Ok (samples (orf_out s w) w h).
Proof. exact orf_any. Qed.
Print Assumptions C56_any_data.

Theorem C56_roundtrip : forall w h bps header s tail, length header = orf_header bps -> Z.of_nat w < 2 ^ 31 - 2 -> (w mod 2 = 0)%nat -> picture_within s w h 32768 ->
  Forall is_byte tail -> (4 <= length tail)%nat ->
  orf_decode (header ++ stored (orf_encode s w h) tail) w h bps = Ok (samples s w h).
Proof. exact orf_roundtrip_even. Qed.
Print Assumptions C56_roundtrip.

(** odd widths: all columns but the last *)
Theorem C56_roundtrip_odd : forall w h bps header s tail, length header = orf_header bps -> Z.of_nat w < 2 ^ 31 - 2 -> picture_within s (paired w) h 32768 ->
  Forall is_byte tail -> (4 <= length tail)%nat ->
  orf_decode (header ++ stored (orf_encode s w h) tail) w h bps = Ok (samples (orf_out s w) w h).
Proof. exact orf_roundtrip. Qed.
Print Assumptions C56_roundtrip_odd.

(** full 16 bit samples are beyond the decoder *)
Theorem C56_sixteen_bits_refuted : exists s w h, picture_within s w h 65536 /\ (w mod 2 = 0)%nat /\
  orf_decode (repeat 0 7 ++ stored (orf_encode s w h) [0; 0; 0; 0]) w h 12 = Panic.
Proof. exact orf_bright. Qed.
Print Assumptions C56_sixteen_bits_refuted.

Example C56_example : orf_decode ([1; 2; 3; 4; 5; 6; 7; 8] ++ stored (orf_encode olympus_small 5 3) [9; 9; 9; 9]) 5 3 14 =
  Ok [100; 2000; 130; 1900; 0; 101; 3000; 90; 32767; 0; 0; 1500; 140; 2100; 0].
Proof. vm_compute. reflexivity. Qed.
Example C56_example_even : picture_within olympus_small 4 3 32768.
Proof. unfold picture_within. intros r c Hr Hc. destruct r as [|[|[|]]], c as [|[|[|[|]]]]; cbn; lia. Qed.
