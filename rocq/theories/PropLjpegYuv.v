(** C57: chroma-subsampled LJPEG pictures, Hasselblad and Leaf data. *)
From Coq Require Import List ZArith Bool.
From Verif Require Import Base Pumps LjpegDec LjpegAnySpec LjpegYuv LjpegLeaf LjpegYuvSpec PefSpec LjpegAnyTop LjpegYuvEnd LjpegYuvFin LjpegYuvEx.
Import ListNotations.
Open Scope Z_scope.

(** 4:2:2 data of any content: the differences of the data make the picture, for both entry points. *)
Theorem C57_422 : forall bug d tabs bw bh q out x sw,
  usable bug d tabs -> length tabs = 3%nat -> sampled d 2 1 -> (1 <= bw)%nat -> (1 <= bh)%nat -> fits16 1 bw bh q ->
  (ld_pt d < sof_precision (ld_sof d))%nat -> sof_width (ld_sof d) = (2 * bw)%nat -> sof_height (ld_sof d) = bh ->
  Forall is_byte (ld_buffer d) -> no_lone_ff (ld_buffer d) ->
  diffs_422 (half_range d) bw bh (diff_no bug (block_tabs 1 tabs) (byte_bits (unstuff (ld_buffer d)))) q -> length out = (6 * bw * bh)%nat ->
  ljdec_decode_full d out x sw (6 * bw) bh = Ok (samples (interleaved 1 q) (6 * bw) bh) /\ ljdec_decode_sony d out x sw (6 * bw) bh = Ok (samples (interleaved 1 q) (6 * bw) bh).
Proof. exact top_422. Qed.
Print Assumptions C57_422.
Example C57_example_422 : exists t, ht_new demo_bits demo_hv false = Ok t /\ usable false (yuv_dec 1 1 10 0 t [170; 64]) demo_tabs /\
  ljdec_decode_full (yuv_dec 1 1 10 0 t [170; 64]) [7; 7; 7; 7; 7; 7] 0 6 6 1 = Ok [517; 507; 512; 517; 507; 512].
Proof. exact demo_422. Qed.

(** A stored 4:2:2 picture comes back. *)
Theorem C57_422_stored : forall d tabs bw bh q out x sw rest,
  usable false d tabs -> length tabs = 3%nat -> Forall (fun t => covers (fst t) (snd t) 15) tabs -> sampled d 2 1 -> (1 <= bw)%nat -> (1 <= bh)%nat -> fits16 1 bw bh q ->
  (ld_pt d < sof_precision (ld_sof d))%nat -> sof_width (ld_sof d) = (2 * bw)%nat -> sof_height (ld_sof d) = bh ->
  ld_buffer d = scan_data (encode_turns (block_tabs 1 tabs) (delta_422 (half_range d) bw q) (4 * (bw * bh))) rest -> Forall is_byte rest -> no_lone_ff rest ->
  small_diffs (delta_422 (half_range d) bw q) (4 * (bw * bh)) -> length out = (6 * bw * bh)%nat ->
  ljdec_decode_full d out x sw (6 * bw) bh = Ok (samples (interleaved 1 q) (6 * bw) bh) /\ ljdec_decode_sony d out x sw (6 * bw) bh = Ok (samples (interleaved 1 q) (6 * bw) bh).
Proof. exact stored_422. Qed.
Print Assumptions C57_422_stored.
Example C57_example_table : (exists t, ht_new wide_bits wide_hv false = Ok t) /\ covers (sizes_of wide_bits) wide_hv 15.
Proof. exact (conj (wide_table false) wide_covers). Qed.

(** 4:2:0 data as Canon stores it. *)
Theorem C57_420 : forall bug d tabs bw bh q out x sw,
  usable bug d tabs -> length tabs = 3%nat -> sampled d 2 2 -> (1 <= bw)%nat -> (1 <= bh)%nat -> fits16 2 bw bh q ->
  (ld_pt d < sof_precision (ld_sof d))%nat -> sof_width (ld_sof d) = (2 * bw)%nat -> sof_height (ld_sof d) = (2 * bh)%nat ->
  Forall is_byte (ld_buffer d) -> no_lone_ff (ld_buffer d) ->
  diffs_420 (half_range d) bw bh (diff_no bug (block_tabs 2 tabs) (byte_bits (unstuff (ld_buffer d)))) q -> length out = (6 * bw * (2 * bh))%nat ->
  ljdec_decode_full d out x sw (6 * bw) (2 * bh) = Ok (samples (interleaved 2 q) (6 * bw) (2 * bh)).
Proof. exact top_420. Qed.
Print Assumptions C57_420.

(** A stored 4:2:0 picture comes back. *)
Theorem C57_420_stored : forall d tabs bw bh q out x sw rest,
  usable false d tabs -> length tabs = 3%nat -> Forall (fun t => covers (fst t) (snd t) 15) tabs -> sampled d 2 2 -> (1 <= bw)%nat -> (1 <= bh)%nat -> fits16 2 bw bh q ->
  (ld_pt d < sof_precision (ld_sof d))%nat -> sof_width (ld_sof d) = (2 * bw)%nat -> sof_height (ld_sof d) = (2 * bh)%nat ->
  ld_buffer d = scan_data (encode_turns (block_tabs 2 tabs) (delta_420 (half_range d) bw q) (6 * (bw * bh))) rest -> Forall is_byte rest -> no_lone_ff rest ->
  small_diffs (delta_420 (half_range d) bw q) (6 * (bw * bh)) -> length out = (6 * bw * (2 * bh))%nat ->
  ljdec_decode_full d out x sw (6 * bw) (2 * bh) = Ok (samples (interleaved 2 q) (6 * bw) (2 * bh)).
Proof. exact stored_420. Qed.
Print Assumptions C57_420_stored.

(** 4:2:0 data as Sony stores it. *)
Theorem C57_sony : forall bug d tabs bw bh q out x sw,
  usable bug d tabs -> length tabs = 3%nat -> sampled d 2 2 -> (1 <= bw)%nat -> (1 <= bh)%nat -> fits16 2 bw bh q ->
  (ld_pt d < sof_precision (ld_sof d))%nat -> sof_width (ld_sof d) = (2 * bw)%nat -> sof_height (ld_sof d) = (2 * bh)%nat ->
  Forall is_byte (ld_buffer d) -> no_lone_ff (ld_buffer d) ->
  diffs_sony (half_range d) bw bh (diff_no bug (block_tabs 2 tabs) (byte_bits (unstuff (ld_buffer d)))) q -> length out = (6 * bw * (2 * bh))%nat ->
  ljdec_decode_sony d out x sw (6 * bw) (2 * bh) = Ok (samples (interleaved 2 q) (6 * bw) (2 * bh)).
Proof. exact top_sony. Qed.
Print Assumptions C57_sony.
Example C57_example_420 : exists t, ht_new demo_bits demo_hv false = Ok t /\ usable false (yuv_dec 2 2 10 0 t [169; 32]) demo_tabs /\
  ljdec_decode_full (yuv_dec 2 2 10 0 t [169; 32]) (repeat 7 12) 0 6 6 2 = Ok [517; 512; 512; 517; 512; 512; 517; 512; 512; 512; 512; 512] /\
  ljdec_decode_sony (yuv_dec 2 2 10 0 t [169; 32]) (repeat 7 12) 0 6 6 2 = Ok [517; 512; 512; 517; 512; 512; 517; 512; 512; 512; 512; 512].
Proof. exact demo_420. Qed.

(** A stored 4:2:0 picture of the Sony kind comes back. *)
Theorem C57_sony_stored : forall d tabs bw bh q out x sw rest,
  usable false d tabs -> length tabs = 3%nat -> Forall (fun t => covers (fst t) (snd t) 15) tabs -> sampled d 2 2 -> (1 <= bw)%nat -> (1 <= bh)%nat -> fits16 2 bw bh q ->
  (ld_pt d < sof_precision (ld_sof d))%nat -> sof_width (ld_sof d) = (2 * bw)%nat -> sof_height (ld_sof d) = (2 * bh)%nat ->
  ld_buffer d = scan_data (encode_turns (block_tabs 2 tabs) (delta_sony (half_range d) bw q) (6 * (bw * bh))) rest -> Forall is_byte rest -> no_lone_ff rest ->
  small_diffs (delta_sony (half_range d) bw q) (6 * (bw * bh)) -> length out = (6 * bw * (2 * bh))%nat ->
  ljdec_decode_sony d out x sw (6 * bw) (2 * bh) = Ok (samples (interleaved 2 q) (6 * bw) (2 * bh)).
Proof. exact stored_sony. Qed.
Print Assumptions C57_sony_stored.

(** Data whose first luma sample is below zero stop a debug build. *)
Theorem C57_negative : forall bug d tabs bw bh out x sw,
  usable bug d tabs -> length tabs = 3%nat -> sampled d 2 1 ->
  (ld_pt d < sof_precision (ld_sof d) <= 16)%nat -> sof_width (ld_sof d) = (2 * bw)%nat -> sof_height (ld_sof d) = bh ->
  Forall is_byte (ld_buffer d) -> no_lone_ff (ld_buffer d) ->
  half_range d + diff_no bug (block_tabs 1 tabs) (byte_bits (unstuff (ld_buffer d))) 0 < 0 ->
  ljdec_decode_full d out x sw (6 * bw) bh = Panic.
Proof. exact negative_422. Qed.
Print Assumptions C57_negative.
Example C57_example_negative : exists t, ht_new demo_bits demo_hv false = Ok t /\ usable false (yuv_dec 1 1 10 7 t [144; 0]) demo_tabs /\
  ljdec_decode_full (yuv_dec 1 1 10 7 t [144; 0]) [7; 7; 7; 7; 7; 7] 0 6 6 1 = Panic.
Proof. exact demo_negative. Qed.

(** Data without subsampling: the decoder of property C27. *)
Theorem C57_plain : forall d out x sw w h,
  sampled d 1 1 -> (ld_pred d <> 8)%nat -> ljdec_decode_full d out x sw w h = ljdec_decode d out x sw w h /\ ljdec_decode_sony d out x sw w h = ljdec_decode d out x sw w h.
Proof. exact full_11. Qed.
Print Assumptions C57_plain.

(** Hasselblad data. *)
Theorem C57_hasselblad : forall bug d tb half h out x sw,
  usable bug d [tb] -> sampled d 1 1 -> ld_pred d = 8%nat -> (1 <= half)%nat -> Z.of_nat half <= 65534 ->
  Forall is_byte (ld_buffer d) -> (length (ld_buffer d) mod 4 = 0)%nat ->
  (forall i, (i < half * h)%nat -> (64 <= length (after_pairs bug tb (byte_bits (words_reversed (ld_buffer d))) i))%nat) -> length out = (2 * half * h)%nat ->
  ljdec_decode_full d out x sw (2 * half) h = Ok (samples (hass_sample (hass_diff bug tb (byte_bits (words_reversed (ld_buffer d)))) (2 * half)) (2 * half) h).
Proof. exact top_hass. Qed.
Print Assumptions C57_hasselblad.
Example C57_example_hasselblad : exists t, ht_new demo_bits demo_hv false = Ok t /\ usable false (hass_dec t [0; 0; 128; 170; 0; 0; 0; 0]) [demo_tab] /\
  ljdec_decode_full (hass_dec t [0; 0; 128; 170; 0; 0; 0; 0]) [7; 7] 0 2 2 1 = Ok [32773; 32763].
Proof. exact demo_hass. Qed.

(** Leaf data, in order and interlaced. *)
Theorem C57_leaf : forall src d tabs half h s first others rest,
  ljdec_new_full src true true = Ok d -> usable true d tabs -> (2 <= length tabs)%nat -> (1 <= half)%nat -> (1 <= h)%nat ->
  (ld_pt d < sof_precision (ld_sof d) <= 16)%nat ->
  ld_buffer d = leaf_data first others rest -> Forall is_byte (ld_buffer d) -> Forall (fun p => separator (fst p)) others -> S (length others) = ((h - 1) / 8 + 1)%nat ->
  leaf_picture (half_range d) (fun k i => diff_no true [tab tabs 0; tab tabs 1] (byte_bits (leaf_strip first others k)) i) (2 * half) h s ->
  mos_do_decode src false (2 * half) h = Ok (samples s (2 * half) h) /\
  mos_do_decode src true (2 * half) h = Ok (samples (fun r c => s (interlaced_row h r) c) (2 * half) h).
Proof. exact top_leaf. Qed.
Print Assumptions C57_leaf.
Example C57_example_leaf : 
  mos_do_decode leaf_file false 2 9 = Ok [517; 512; 517; 512; 517; 512; 517; 512; 517; 512; 517; 512; 517; 512; 517; 512; 512; 507] /\
  mos_do_decode leaf_file true 2 9 = Ok [517; 512; 517; 512; 517; 512; 517; 512; 512; 507; 517; 512; 517; 512; 517; 512; 517; 512].
Proof. exact demo_leaf. Qed.

(** A wrong number of strips is refused. *)
Theorem C57_leaf_count : forall d w h first others rest,
  ld_buffer d = leaf_data first others rest -> Forall (fun p => separator (fst p)) others -> (1 <= h)%nat -> S (length others) <> ((h - 1) / 8 + 1)%nat ->
  decode_leaf d w h = Err.
Proof. exact leaf_wrong. Qed.
Print Assumptions C57_leaf_count.
