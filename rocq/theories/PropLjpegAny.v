(** Property C27: the LJPEG decoder on corrupt input. *)
From Coq Require Import List ZArith Lia Bool.
From Verif Require Import Base Pumps LjpegDec LjpegAnySpec LjpegAny LjpegAnyScan LjpegAnyHead LjpegAnyTop.
Import ListNotations.
Open Scope Z_scope.

(** ** The header *)
Theorem C27_header_in_range : forall src bug csfix d, Forall is_byte src -> ljdec_new_full src bug csfix = Ok d ->
  in_range d /\ Forall (fun t => t = ht_empty \/ exists bits hv, dht_table bug t bits hv) (ld_dhts d) /\ exists n, ld_buffer d = skipn n src.
Proof. exact header_range. Qed.
Print Assumptions C27_header_in_range.

(** the loops of the parser end before the modelled number of rounds: more
    rounds never change the outcome *)
Theorem C27_header_terminates : forall src csfix s n, Forall is_byte src -> b_buf s = src -> (length src < n)%nat ->
  header_loop n (sof_empty csfix) (repeat dht_empty 4) s = header_loop (S (length src)) (sof_empty csfix) (repeat dht_empty 4) s /\
  skip_to_marker_loop n s = skip_to_marker_loop (S (length src)) s.
Proof. exact any_terminates. Qed.
Print Assumptions C27_header_terminates.
Theorem C27_dht_terminates : forall len slots s n, Forall is_byte (b_buf s) -> 0 <= len -> (Z.to_nat len < n)%nat ->
  parse_dht_loop n len slots s = parse_dht_loop (S (Z.to_nat len)) len slots s.
Proof. exact any_dht_terminates. Qed.
Print Assumptions C27_dht_terminates.

(** every table with code lengths that fit and categories up to 16 is accepted *)
Theorem C27_table_accepted : forall bits hv bug, (length (sizes_of bits) <= length hv)%nat -> (length (sizes_of bits) <= 256)%nat ->
  kraft (sizes_of bits) <= 65536 -> (forall k, (k < length (sizes_of bits))%nat -> (nth k hv 0 <= 16)%nat) -> exists t, ht_new bits hv bug = Ok t.
Proof. exact ht_new_total. Qed.
Print Assumptions C27_table_accepted.

(** ** The scan *)
(** whatever the header and the data: a decoder that returns keeps the size of
    the buffer and every sample outside the frame *)
Theorem C27_frame : forall d out0 x sw w h out, ljdec_decode d out0 x sw w h = Ok out ->
  length out = length out0 /\ (forall j, ~ in_frame (length (sof_comps (ld_sof d))) sw x w h j -> nth j out 0 = nth j out0 0) /\
  (Forall is_u16 out0 -> Forall is_u16 out).
Proof. exact any_frame. Qed.
Print Assumptions C27_frame.

(** with usable tables it returns for every data without a lone 0xFF at the
    end; the samples follow the recurrence over the symbols of the data, in
    order, and zero bits once the data is used up *)
Theorem C27_scan : forall bug d tabs out0 x sw wp h,
  usable bug d tabs -> (1 <= length tabs)%nat -> (1 <= ld_pred d <= 7)%nat -> (ld_pt d < sof_precision (ld_sof d))%nat ->
  (exists c0, nth_error (sof_comps (ld_sof d)) 0 = Some c0 /\ jc_super_h c0 = 1 /\ jc_super_v c0 = 1) ->
  Forall is_byte (ld_buffer d) -> no_lone_ff (ld_buffer d) ->
  (1 <= wp <= sof_width (ld_sof d))%nat -> (1 <= h <= sof_height (ld_sof d))%nat -> (wp * length tabs <= sw)%nat ->
  ((h - 1) * sw + x + wp * length tabs <= length out0)%nat ->
  exists out, ljdec_decode d out0 x sw (wp * length tabs) h = Ok out /\ length out = length out0 /\
    (forall r c, (r < h)%nat -> (c < wp * length tabs)%nat ->
       nth (r * sw + x + c) out 0
       = (predicted (ld_pred d) (length tabs) (2 ^ Z.of_nat (sof_precision (ld_sof d) - ld_pt d - 1)) (fun r c => nth (r * sw + x + c) out 0) r c
          + diff_no bug tabs (byte_bits (unstuff (ld_buffer d))) (r * (sof_width (ld_sof d) * length tabs) + c)) mod 65536) /\
    (forall j, (forall r c, (r < h)%nat -> (c < wp * length tabs)%nat -> j <> (r * sw + x + c)%nat) -> nth j out 0 = nth j out0 0).
Proof. exact any_scan. Qed.
Print Assumptions C27_scan.

(** A 2 x 2 file of one component, decoded into a buffer of stride 3. *)
Example C27_example : exists d out, ljdec_new any_file = Ok d /\ in_range d /\ ljdec_decode d [7; 7; 7; 7; 7; 7] 0 3 2 2 = Ok out /\ out = [512; 517; 7; 512; 507; 7].
Proof. exact any_demo. Qed.

(** ** Where an error is expected the program panics *)
Theorem C27_truncated_header_refuted : ljdec_new [255; 216; 255] = Panic /\ ljdec_new [255; 216] = Panic /\ ljdec_new [255; 216; 255; 195; 0] = Panic.
Proof. exact trunc_panics. Qed.
Print Assumptions C27_truncated_header_refuted.
Theorem C27_missing_table_refuted : exists d, ljdec_new no_dht = Ok d /\ ljdec_decode d [0] 0 1 1 1 = Panic.
Proof. exact no_dht_panics. Qed.
Print Assumptions C27_missing_table_refuted.
Theorem C27_large_category_refuted : ljdec_new (one_code 40) = Panic.
Proof. exact category_panics. Qed.
Print Assumptions C27_large_category_refuted.
Theorem C27_code_overflow_refuted : ljdec_new three_codes = Panic.
Proof. exact kraft_panics. Qed.
Print Assumptions C27_code_overflow_refuted.
Theorem C27_point_transform_refuted : forall d out x sw w h, (sof_precision (ld_sof d) <= ld_pt d)%nat ->
  (w <= sof_width (ld_sof d) * length (sof_comps (ld_sof d)))%nat -> (h <= sof_height (ld_sof d))%nat -> decode_ljpeg d out x sw w h = Panic.
Proof. exact pt_panics. Qed.
Print Assumptions C27_point_transform_refuted.
Theorem C27_lone_ff_refuted : forall d t out x sw w h, ld_buffer d = [255] -> htable d 0 = Ok t -> (ld_pt d < sof_precision (ld_sof d))%nat ->
  (w <= sof_width (ld_sof d) * length (sof_comps (ld_sof d)))%nat -> (h <= sof_height (ld_sof d))%nat -> decode_ljpeg d out x sw w h = Panic.
Proof. exact lone_panics. Qed.
Print Assumptions C27_lone_ff_refuted.
(** a second SOF segment appends its components but resets their number, so the
    caller's buffer is too small *)
Theorem C27_two_frames_refuted : ljpeg_decompress two_sofs 0 1 1 1 = Panic.
Proof. exact two_sofs_panics. Qed.
Print Assumptions C27_two_frames_refuted.
