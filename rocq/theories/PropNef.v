(** C51: Nikon NEF image data. *)
From Coq Require Import List ZArith.
From Verif Require Import Base BitsSpec Bits LjpegAnySpec CrxImageSpec PefSpec Pef NefSpec NefTop NefNeg NefEx.
Import ListNotations.
Open Scope Z_scope.

(** whatever the data: the samples are the running sums of the differences the
    code of each row finds in it, cut, put through the curve and dithered *)
Theorem C51_any_data : forall big meta bps src w h, head_ok big meta bps -> curve_for (head_bits meta bps) (head_curve big meta bps) ->
  Forall is_byte src -> (4 <= length src)%nat -> (w mod 2 = 0)%nat -> (0 < w)%nat -> Z.of_nat (w + h) <= 65000 ->
  data_for (nef_next big meta bps w) (byte_bits src) (w * h) ->
  exists s, lane_picture (head_init big meta) (diff_at (nef_next big meta bps w) (byte_bits src)) w h s /\
    nef_decode src meta big w h bps = Ok (developed (head_curve big meta bps) (head_bits meta bps) (byte_bits src) s w h).
Proof. exact nef_any. Qed.
Print Assumptions C51_any_data.

(** dithering moves a value by at most a quarter of the distance of the
    neighbouring entries of the curve *)
Theorem C51_close_to_curve : forall curve v rand, lut_ok curve -> (v < length curve)%nat -> is_u32 rand ->
  let c := nth v curve 0 in let d := step_of curve v in is_u16 (dithered curve v rand) /\
  (c <> 0 -> Z.abs (dithered curve v rand - c) <= (d + 2) / 4) /\ (c = 0 -> 2 * dithered curve v rand <= d).
Proof. exact dithered_close. Qed.
Print Assumptions C51_close_to_curve.

(** pictures stored as symbols, with or without a split row *)
Theorem C51_symbols : forall big meta bps syms tail w h s, head_ok big meta bps -> curve_for (head_bits meta bps) (head_curve big meta bps) ->
  Forall is_byte tail -> (4 <= length tail)%nat -> (w mod 2 = 0)%nat -> (0 < w)%nat -> Z.of_nat (w + h) <= 65000 ->
  length syms = (w * h)%nat -> (forall i, (i < w * h)%nat -> valid_symbol (row_code big meta bps (i / w)) (nth i syms (0%nat, 0))) ->
  lane_picture (head_init big meta) (fun i => symbol_diff (row_code big meta bps (i / w)) (nth i syms (0%nat, 0))) w h s ->
  let data := stored (symbols_bits (row_code big meta bps) w syms) tail in
  nef_decode data meta big w h bps = Ok (developed (head_curve big meta bps) (head_bits meta bps) (byte_bits data) s w h).
Proof. exact nef_symbols. Qed.
Print Assumptions C51_symbols.

(** encoded pictures without a split row *)
Theorem C51_roundtrip : forall big meta bps w h s tail n, head_ok big meta bps -> curve_for (head_bits meta bps) (head_curve big meta bps) ->
  head_split big meta bps = 0%nat -> n = (if (bps =? 14)%nat then 14%nat else 12%nat) ->
  Forall is_byte tail -> (4 <= length tail)%nat -> (w mod 2 = 0)%nat -> (0 < w)%nat -> Z.of_nat (w + h) <= 65000 ->
  diffs_within (head_init big meta) s w h n ->
  let data := stored (encode_picture (head_code meta bps) (head_init big meta) s w h) tail in
  nef_decode data meta big w h bps = Ok (developed (head_curve big meta bps) (head_bits meta bps) (byte_bits data) s w h).
Proof. exact nef_roundtrip. Qed.
Print Assumptions C51_roundtrip.

(** lossless files: each sample comes out as it is or one too small *)
Theorem C51_lossless : forall big meta bps w h s tail, head_ok big meta bps -> version0 meta = 70 -> bps = 12%nat \/ bps = 14%nat ->
  Forall is_byte tail -> (4 <= length tail)%nat -> (w mod 2 = 0)%nat -> (0 < w)%nat -> Z.of_nat (w + h) <= 65000 ->
  picture_within s w h (2 ^ Z.of_nat bps) -> diffs_within (head_init big meta) s w h bps ->
  let data := stored (encode_picture (head_code meta bps) (head_init big meta) s w h) tail in
  nef_decode data meta big w h bps =
    Ok (map (fun i => lossless_out bps (s (i / w)%nat (i mod w)%nat) (noise (peekv 24 (byte_bits data)) i)) (seq 0 (w * h))).
Proof. exact nef_lossless. Qed.
Print Assumptions C51_lossless.

(** so a lossless file is not decoded to the stored picture *)
Theorem C51_lossless_exact_refuted : exists big meta bps w h s tail, head_ok big meta bps /\ version0 meta = 70 /\ bps = 12%nat /\
  Forall is_byte tail /\ (4 <= length tail)%nat /\ (w mod 2 = 0)%nat /\ (0 < w)%nat /\ Z.of_nat (w + h) <= 65000 /\
  picture_within s w h (2 ^ Z.of_nat bps) /\ diffs_within (head_init big meta) s w h bps /\
  exists out, nef_decode (stored (encode_picture (head_code meta bps) (head_init big meta) s w h) tail) meta big w h bps = Ok out /\ out <> samples s w h.
Proof. exact ll_refuted. Qed.
Print Assumptions C51_lossless_exact_refuted.

(** never decoded: odd widths, and curves without points *)
Theorem C51_odd_width : forall src meta big w h bps out, (w mod 2 = 1)%nat -> (0 < h)%nat -> nef_decode src meta big w h bps <> Ok out.
Proof. exact nef_odd_width. Qed.
Print Assumptions C51_odd_width.
Theorem C51_no_curve : forall src meta big w h bps out, (0 < w)%nat -> (0 < h)%nat -> head_ok big meta bps -> tabulated big meta bps = true ->
  head_csize big meta = 0%nat -> nef_decode src meta big w h bps <> Ok out.
Proof. exact nef_no_curve. Qed.
Print Assumptions C51_no_curve.

(** a lossless file, and a lossy one with an interpolated curve and a split row *)
Example C51_example_lossless : firstn 10 ll_data = [247; 9; 127; 249; 199; 180; 216; 135; 101; 128] /\
  samples ll_picture 4 2 = [100; 199; 90; 4095; 101; 0; 117; 300] /\
  nef_decode ll_data ll_meta true 4 2 12 = Ok [99; 198; 89; 4095; 100; 0; 116; 299].
Proof. exact ll_example. Qed.
Example C51_example_lossy : head_ok false lossy_meta 6 /\ curve_for (head_bits lossy_meta 6) lossy_points /\ head_split false lossy_meta 6 = 1%nat /\
  (nth 23 lossy_points 0, nth 27 lossy_points 0, nth 41 lossy_points 0, nth 0 lossy_points 0) = (43, 50, 99, 0) /\
  nef_decode lossy_data lossy_meta false 2 2 6 = Ok [43; 49; 98; 0].
Proof. exact lossy_example. Qed.
