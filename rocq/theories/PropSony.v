(** C52: Sony ARW image data. *)
From Coq Require Import List ZArith.
From Verif Require Import Base BitsSpec Bits CrxImageSpec PefSpec NefSpec NefTop Sony SonySpec SonyArw1 SonyArw2 SonyTop SonyEx.
Import ListNotations.
Open Scope Z_scope.

(** first codec, whatever the data: running sums of the differences, from the
    last column to the first, even rows before odd rows *)
Theorem C52_arw1_any_data : forall src w h, Forall is_byte src -> (h mod 2 = 0)%nat -> (0 < h)%nat -> data_for (fun _ => sony_next) (byte_bits src) (w * h) ->
  (forall k, (k <= w * h)%nat -> Z.abs (total (diff_at (fun _ => sony_next) (byte_bits src)) k) < 2 ^ 30) ->
  exists out, arw1_decode src w h = Ok out /\ length out = (w * h)%nat /\
    forall k, (k < w * h)%nat -> nth (scan_row h k * w + scan_col w h k) out 0 = total (diff_at (fun _ => sony_next) (byte_bits src)) (S k) mod 65536.
Proof. exact arw1_any. Qed.
Print Assumptions C52_arw1_any_data.

Theorem C52_arw1_roundtrip : forall w h s tail, (h mod 2 = 0)%nat -> (0 < h)%nat -> picture_within s w h 65536 ->
  Forall is_byte tail -> (4 <= length tail)%nat -> arw1_decode (stored (arw1_encode s w h) tail) w h = Ok (samples s w h).
Proof. exact arw1_roundtrip. Qed.
Print Assumptions C52_arw1_roundtrip.

(** images with an odd number of rows lose their odd rows *)
Theorem C52_arw1_odd_height : forall src w h out r c, (h mod 2 = 1)%nat -> arw1_decode src w h = Ok out -> (r mod 2 = 1)%nat -> (r < h)%nat -> (c < w)%nat ->
  nth (r * w + c) out 0 = 0.
Proof. exact arw1_odd_height. Qed.
Print Assumptions C52_arw1_odd_height.

(** the curve of a file has slopes 1, 2, 4, 8 and 16 between its knots *)
Theorem C52_curve : forall t1 t2 t3 t4, 0 <= t1 -> 0 <= t2 -> 0 <= t3 -> 0 <= t4 ->
  knot_of t1 <= knot_of t2 -> knot_of t2 <= knot_of t3 -> knot_of t3 <= knot_of t4 ->
  sony_points (sony_knots [t1; t2; t3; t4]) = Ok (sony_table t1 t2 t3 t4).
Proof. exact curve_points. Qed.
Print Assumptions C52_curve.

Theorem C52_curve_steep : forall t1 t2 t3 t4, 0 <= t1 -> 0 <= t2 -> 0 <= t3 -> 0 <= t4 ->
  knot_of t1 = 1 -> knot_of t2 = 1 -> knot_of t3 = 1 -> knot_of t4 = 1 -> sony_curve [t1; t2; t3; t4] = Panic.
Proof. exact curve_steep. Qed.
Print Assumptions C52_curve_steep.

(** second codec, whatever the data *)
Theorem C52_arw2_any_data : forall buf w h t1 t2 t3 t4, 0 <= t1 -> 0 <= t2 -> 0 <= t3 -> 0 <= t4 ->
  4 <= knot_of t1 -> knot_of t1 <= knot_of t2 -> knot_of t2 <= knot_of t3 -> knot_of t3 <= knot_of t4 -> Forall is_byte buf -> (0 < w)%nat ->
  (forall r, (r < h)%nat -> row_fits (row_data buf w r) w) ->
  exists lut, sony_curve [t1; t2; t3; t4] = Ok lut /\
  arw2_decode lut buf w h = Ok (flat_map (fun r => arw2_line (sony_table t1 t2 t3 t4) (le_value (row_data buf w r)) w) (seq 0 h)).
Proof. exact arw2_file_any. Qed.
Print Assumptions C52_arw2_any_data.

Theorem C52_arw2_roundtrip : forall s w h tail t1 t2 t3 t4, 0 <= t1 -> 0 <= t2 -> 0 <= t3 -> 0 <= t4 ->
  4 <= knot_of t1 -> knot_of t1 <= knot_of t2 -> knot_of t2 <= knot_of t3 -> knot_of t3 <= knot_of t4 -> Forall is_byte tail ->
  (0 < w)%nat -> (w mod 32 = 0)%nat -> (forall r c, (r < h)%nat -> (c < w)%nat -> 0 <= s r c < 2048) ->
  exists lut, sony_curve [t1; t2; t3; t4] = Ok lut /\
  arw2_decode lut (arw2_encode s w h ++ tail) w h =
    Ok (flat_map (fun r => map (fun c => dithered (sony_table t1 t2 t3 t4) (Z.to_nat (2 * quantized (block_of s r (block_no c)) (block_ix c)))
      (noise (row_seed s r) (16 * block_no c + block_ix c))) (seq 0 w)) (seq 0 h)).
Proof. exact arw2_file. Qed.
Print Assumptions C52_arw2_roundtrip.

(** which sample of the picture that is, and how far quantization moves it:
    by less than a 64th of the range of its block *)
Theorem C52_block_sample : forall s r c, block_of s r (block_no c) (block_ix c) = s r c.
Proof. exact block_of_sample. Qed.
Print Assumptions C52_block_sample.
Theorem C52_quantized : forall v i lo hi, (i < 16)%nat -> (forall k, (k < 16)%nat -> lo <= v k <= hi) ->
  0 <= v i - quantized v i /\ (quantized v i = v i \/ 64 * (v i - quantized v i) < hi - lo).
Proof. exact quantized_close. Qed.
Print Assumptions C52_quantized.

(** columns after the last whole stretch of 32 are not decoded *)
Theorem C52_arw2_leftover : forall curve V w c, (32 * (w / 32) <= c)%nat -> (c < w)%nat -> nth c (arw2_line curve V w) 0 = 0.
Proof. exact arw2_leftover. Qed.
Print Assumptions C52_arw2_leftover.

(** a block whose greatest sample is below its least stops the program *)
Theorem C52_arw2_crossed : forall lut buf w h, Forall is_byte buf -> (3 <= length buf)%nat -> (32 <= w)%nat -> (0 < h)%nat ->
  block_max (le_value buf) < block_min (le_value buf) -> arw2_decode lut buf w h = Panic.
Proof. exact arw2_crossed. Qed.
Print Assumptions C52_arw2_crossed.

Example C52_example :
  (firstn 8 a1_data = [0; 3; 255; 254; 0; 4; 0; 167] /\ arw1_decode a1_data 3 4 = Ok [100; 7; 65535; 101; 0; 42; 90; 300; 41; 0; 4095; 9]) /\
  (nth 1 (a2_values 0) 0 = 700 /\
   nth 14 (a2_values 0) 0 = 37 /\ a2_picture 0 14 = 40) /\
  (exists lut, sony_curve [8000; 10400; 12900; 14100] = Ok lut /\
   arw2_decode lut a2_data 32 2 =
    Ok (flat_map (fun r => map (fun c => dithered (sony_table 8000 10400 12900 14100) (Z.to_nat (2 * quantized (block_of a2_picture r (block_no c)) (block_ix c)))
      (noise (row_seed a2_picture r) (16 * block_no c + block_ix c))) (seq 0 32)) (seq 0 2))) /\
  (forall lut, arw2_decode lut ([0; 8; 0; 0] ++ repeat 0 28) 32 1 = Panic) /\
  (exists out, arw1_decode (repeat 0 40) 1 3 = Ok out /\ out <> [] /\ nth 1 out 1 = 0).
Proof. exact (conj a1_example (conj a2_example (conj a2_decoded (conj crossed_example odd_example)))). Qed.
