(** C47: CRX band coding. *)
From Coq Require Import List ZArith Lia Bool.
From Verif Require Import Base Crx CrxSpec CrxTop.
Import ListNotations.
Open Scope Z_scope.

(** Whatever follows the coded lines, the decoder hands out the lines of the
    band and stops at the end of the code; [ll] is the band with prediction. *)
Theorem C47_band_roundtrip : forall w h mask ll q rows bytes rest,
  (1 <= w)%nat -> length rows = h -> Forall (fun r => length r = w /\ Forall sample_ok r) rows ->
  (ll = true -> mask <= 0) -> byte_bits bytes = band_code ll None [] 0 0 rows ++ rest ->
  exists p, decode_lines h (band_new w h mask ll q bytes) = Ok (rows, p) /\ b_bits p = rest.
Proof. exact band_roundtrip. Qed.
Print Assumptions C47_band_roundtrip.

Example C47_example_ll : exists p,
  decode_lines 4 (band_new 5 4 0 true 4
    [224; 3; 58; 32; 64; 0; 0; 0; 0; 16; 2; 191; 0; 0; 0; 0; 0; 32; 5; 105; 132; 72; 64; 192]) =
  Ok ([[0; 0; 0; 5; 5]; [0; 0; 0; 5; 6]; [-3; 700; 7; 7; 7]; [-3; 700; 7; 7; 7]], p) /\ b_bits p = repeat false 6.
Proof.
  apply C47_band_roundtrip; [lia|reflexivity|repeat constructor; unfold sample_ok; lia|lia|reflexivity].
Qed.

Example C47_example_other : exists p,
  decode_lines 4 (band_new 5 4 0 false 4
    [224; 4; 220; 81; 24; 0; 0; 0; 0; 0; 128; 21; 226; 239; 122; 160; 0; 0; 0; 0; 8; 1; 94; 39; 93; 224]) =
  Ok ([[0; 0; 0; 5; 5]; [0; 0; 0; 5; 6]; [-3; 700; 7; 7; 7]; [-3; 700; 7; 7; 7]], p) /\ b_bits p = repeat false 4.
Proof.
  apply C47_band_roundtrip; [lia|reflexivity|repeat constructor; unfold sample_ok; lia|lia|reflexivity].
Qed.
