(** C58: Canon CR2 images from the decoded frame. *)
From Coq Require Import List ZArith Lia Bool.
From Verif Require Import Base BitsSpec PefSpec Cr2 Cr2Spec Cr2Proofs Cr2Colour Cr2Top.
Import ListNotations.
Open Scope Z_scope.

(** sensor data cut into fields come back whole; frames with two lines in one are
    twice as wide and half as high as the image *)
Theorem C58_fields : forall s n w1 w2 w h (double : bool) tag i,
  (0 < n)%nat -> (0 < w1)%nat -> (0 < w2)%nat -> w = (n * w1 + w2)%nat ->
  let k := if double then 2%nat else 1%nat in
  forall ljw ljh, ljw = (k * w)%nat -> (k * ljh)%nat = h ->
  cr2_image (store_fields s (repeat w1 n ++ [w2]) h 0) ljw ljh 1 1 None tag double (Some (n, w1, w2)) i = Ok (1%nat, w, h, samples s w h).
Proof. exact plain_fields. Qed.
Print Assumptions C58_fields.

Theorem C58_one_field : forall lj ljw ljh tag i, cr2_image lj ljw ljh 1 1 None tag false None i = Ok (1%nat, ljw, ljh, lj).
Proof. exact plain_whole. Qed.
Print Assumptions C58_one_field.

(** fields of any widths that fill the image, whatever the frame *)
Theorem C58_fields_any : forall fws sh cpp w h lj, sh <> 0%nat -> list_sum (map (fun f => (f / sh * cpp)%nat) fws) = w -> (w * h <= length lj)%nat ->
  cr2_fields1 fws sh cpp w h lj (repeat 0 (w * h)) = Ok (samples (fun r c => nth (field_pos (map (fun f => (f / sh * cpp)%nat) fws) h r c) lj 0) w h).
Proof. exact fields1_any. Qed.
Print Assumptions C58_fields_any.

Theorem C58_fields_too_wide : forall fws w h lj, (0 < h)%nat -> (w < list_sum fws)%nat -> cr2_fields1 fws 1 1 w h lj (repeat 0 (w * h)) = Panic.
Proof. exact fields_wide. Qed.
Print Assumptions C58_fields_too_wide.

(** sRAW with one line per block *)
Theorem C58_sraw : forall i r g1 g2 b, sr_wb i = Some (r, g1, g2, b) -> (sr_invert i = true -> r <> 0 /\ b <> 0) -> small_factors (white_balance (sr_invert i) r g1 g2 b) ->
  forall s n w1 w2 w h ljw ljh double, (0 < n)%nat -> (0 < w1)%nat -> (0 < w2)%nat -> (0 < w)%nat ->
  list_sum (map (fun f => (f / 2 * 3)%nat) (repeat w1 n ++ [w2])) = (3 * w)%nat -> fifteen_bits (as_pixels s) w h ->
  cr2_image (store_fields s (map (fun f => (f / 2 * 3)%nat) (repeat w1 n ++ [w2])) h 0) ljw ljh 2 1 None (Some (w, h)) double (Some (n, w1, w2)) i =
  Ok (3%nat, (3 * w)%nat, h, sraw_picture (generation (sr_40d i) (sr_new i)) (white_balance (sr_invert i) r g1 g2 b) (hue_of (sr_model i) (sr_fw i) 2) (sr_interpolate i) 1 w h (as_pixels s)).
Proof. exact sraw_fields. Qed.
Print Assumptions C58_sraw.

(** sRAW with two lines per block, whatever the frame *)
Theorem C58_sraw_pairs : forall i r g1 g2 b, sr_wb i = Some (r, g1, g2, b) -> (sr_invert i = true -> r <> 0 /\ b <> 0) -> small_factors (white_balance (sr_invert i) r g1 g2 b) ->
  forall lj n w1 w2 w h ljw ljh double, (0 < n)%nat -> (0 < w1)%nat -> (0 < w2)%nat -> (0 < w)%nat ->
  ((n + 1) * w1 = 3 * w)%nat -> (w1 mod 3 = 0)%nat -> (h mod 2 = 0)%nat -> (ljw mod 3 = 0)%nat -> (ljh mod 2 = 0)%nat ->
  length lj = (ljw * ljh)%nat -> (3 * w * h <= ljw * ljh)%nat ->
  let p := as_pixels (fun r c => nth (pair_pos ljw w1 h r c) lj 0) in fifteen_bits p w h ->
  cr2_image lj ljw ljh 2 2 None (Some (w, h)) double (Some (n, w1, w2)) i =
  Ok (3%nat, (3 * w)%nat, h, sraw_picture (generation (sr_40d i) (sr_new i)) (white_balance (sr_invert i) r g1 g2 b) (hue_of (sr_model i) (sr_fw i) 4) (sr_interpolate i) 2 w h p).
Proof. exact sraw_pairs. Qed.
Print Assumptions C58_sraw_pairs.

Theorem C58_pairs_odd_height : forall lj n w1 ljw w h, (0 < w1)%nat -> (h mod 2 = 1)%nat -> (0 < n)%nat -> cr2_fields2 n w1 ljw w h lj (repeat 0 (w * h)) = Panic.
Proof. exact pairs_odd. Qed.
Print Assumptions C58_pairs_odd_height.

(** chroma, for all 16 bit pictures *)
Theorem C58_chroma : forall sh sv w h p, (0 < w)%nat -> (forall r x ch, (r < h)%nat -> (x < w)%nat -> (ch < 3)%nat -> 0 <= p r x ch < 65536) ->
  interpolate_yuv sh sv (3 * w) (pixel_samples p w h) = Ok (pixel_samples (completed sh sv w h p) w h).
Proof. exact interpolate_px. Qed.
Print Assumptions C58_chroma.

(** it is not the rows without chroma of their own that are completed; chroma that was
    in the file is replaced *)
Theorem C58_chroma_rows_refuted : exists p, fifteen_bits p 2 6 /\ interpolate_yuv 2 2 6 (pixel_samples p 2 6) <> Ok (pixel_samples (down lower 6 (across 2 p)) 2 6) /\
  interpolate_yuv 2 2 6 (pixel_samples p 2 6) <> Ok (pixel_samples p 2 6) /\
  completed 2 2 2 6 p 4%nat 0%nat 1%nat <> p 4%nat 0%nat 1%nat.
Proof. exact lower_lost. Qed.
Print Assumptions C58_chroma_rows_refuted.

(** without white balance values the image is black *)
Theorem C58_no_white_balance : forall i sv w h p, sr_wb i = None -> (1 <= sv <= 2)%nat -> (0 < w)%nat -> fifteen_bits p w h ->
  convert_to_rgb i 2 sv (3 * w) (pixel_samples p w h) = Ok (repeat 0 (3 * w * h)).
Proof. exact black. Qed.
Print Assumptions C58_no_white_balance.

Theorem C58_linearize : forall t l, lut_ok t -> l <> [] -> Forall is_u16 l -> Forall (fun p => 0 <= p < Z.of_nat (length t)) l ->
  exists out, linearize t l = Ok out /\ Forall2 (fun v p => is_u16 p /\
      let c := nth (Z.to_nat v) t 0 in let d := step_of t (Z.to_nat v) in
      (c <> 0 -> Z.abs (p - c) <= (d + 2) / 4) /\ (c = 0 -> 2 * p <= d)) l out.
Proof. exact linearize_ok. Qed.
Print Assumptions C58_linearize.

Definition no_sraw : sraw_info := mk_sraw None false false false None None true.
Definition sraw7d : sraw_info := mk_sraw (Some (2000, 1024, 1024, 1700)) false false false (Some 0x80000250) (Some 2000005) true.
(* two fields of two columns and one of one *)
Example C58_example_fields : cr2_image [1; 2; 6; 7;  3; 4; 8; 9;  5; 10] 5 2 1 1 None None false (Some (2, 2, 1)%nat) no_sraw = Ok (1%nat, 5%nat, 2%nat, [1; 2; 3; 4; 5;  6; 7; 8; 9; 10]).
Proof. vm_compute. reflexivity. Qed.
(* a field of two pixels and one of one; the middle pixels get the mean of the chroma
   of their neighbours *)
Example C58_example_sraw : cr2_image [1000; 16383; 16383; 1200; 0; 0;  500; 16383; 16383; 600; 1; 1;  2000; 16483; 16283;  700; 16383; 16383] 9 2 2 1 None
    (Some (3, 2)%nat) false (Some (1, 4, 2)%nat) sraw7d =
  Ok (3%nat, 9%nat, 2%nat, [7828; 3988; 6660; 7210; 5088; 10352; 11281; 8588; 18022; 3921; 1988; 3340; 4703; 2388; 4004; 5484; 2788; 4668]).
Proof. vm_compute. reflexivity. Qed.
Example C58_example_pairs : cr2_image [100; 16383; 16383; 200; 16383; 16383;  110; 16383; 16383; 210; 16383; 16383;  300; 16483; 16383; 400; 16483; 16383;  310; 16483; 16383; 410; 16483; 16383] 6 4 2 2
    None (Some (4, 2)%nat) false (Some (1, 6, 6)%nat) sraw7d =
  Ok (3%nat, 12%nat, 2%nat, [820; 380; 710; 1609; 504; 3725; 2390; 632; 6746; 3171; 1032; 7410; 898; 420; 776; 1687; 544; 3791; 2468; 672; 6813; 3250; 1072; 7477]).
Proof. vm_compute. reflexivity. Qed.
Example C58_example_factors : small_factors (white_balance false 2000 1024 1024 1700) /\ small_factors (white_balance true 500 1024 1026 700).
Proof. cbn. lia. Qed.
Example C58_example_linearize : linearize [0; 100; 200; 300] [2; 1; 3] = Ok [150; 83; 319].
Proof. vm_compute. reflexivity. Qed.
