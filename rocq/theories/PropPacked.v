(** Property C06: packed sample formats.

    [delivers r w h pix] says that the parallel decoder [r] starts, and that
    every schedule that ends gives the [w] x [h] image with value [pix row col].
    [field_msb] / [field_lsb] read an unsigned number at a bit offset of the
    byte stream. *)
From Coq Require Import List ZArith Lia Bool.
From Verif Require Import Base Par Decomp Packed PackedProofs.
Import ListNotations.
Open Scope Z_scope.

(** PackedDecompressor: every depth from 1 to 16, both byte orders, every start
    row and number of lines. *)
Theorem C06_packed : forall bps e src skip nl w,
  Forall is_byte src -> (1 <= bps <= 16)%nat -> ((w * bps) mod 8 = 0)%nat ->
  ((skip + nl) * w * bps <= 8 * length src)%nat ->
  run_ops (packed_decompress bps e src skip nl w) (repeat 0 (nl * w)) =
    Some (rows (fun r c => packed_sample bps e src (r * w + c)) w skip nl).
Proof. exact packed_ok. Qed.
Print Assumptions C06_packed.

(** Skipping rows is dropping rows of the full decode. *)
Theorem C06_skip : forall bps e src skip nl w,
  Forall is_byte src -> (1 <= bps <= 16)%nat -> ((w * bps) mod 8 = 0)%nat ->
  ((skip + nl) * w * bps <= 8 * length src)%nat ->
  exists full,
    run_ops (packed_decompress bps e src 0 (skip + nl) w) (repeat 0 ((skip + nl) * w)) = Some full /\
    run_ops (packed_decompress bps e src skip nl w) (repeat 0 (nl * w)) = Some (skipn (skip * w) full).
Proof. exact packed_skip. Qed.
Print Assumptions C06_skip.

(** A buffer that is too short is refused. *)
Theorem C06_packed_short : forall bps e src skip nl w v,
  (8 * length src < (skip + nl) * w * bps)%nat -> run_ops (packed_decompress bps e src skip nl w) v = None.
Proof. exact packed_short. Qed.
Print Assumptions C06_packed_short.

Theorem C06_lines : forall bps e src w h,
  Forall is_byte src -> (1 <= bps <= 16)%nat -> (0 < w)%nat ->
  ((w * bps) mod 8 = 0)%nat -> (h * w * bps <= 8 * length src)%nat ->
  delivers (packed_lines bps e src w h) w h (fun r c => packed_sample bps e src (r * w + c)).
Proof. exact packed_lines_ok. Qed.
Print Assumptions C06_lines.

Theorem C06_8bit : forall buf w h, Forall is_byte buf -> (0 < w)%nat -> (h * w <= length buf)%nat ->
  delivers (decompress_8bit buf w h) w h (fun r c => stream buf (r * w + c)).
Proof. exact d8_ok. Qed.
Print Assumptions C06_8bit.

Theorem C06_10be : forall buf w h,
  Forall is_byte buf -> (0 < w)%nat -> (w mod 4 = 0)%nat -> (h * w * 10 <= 8 * length buf)%nat ->
  delivers (decompress_10be buf w h) w h (fun r c => field_msb (stream buf) (10 * (r * w + c)) 10).
Proof. exact d10be_ok. Qed.
Print Assumptions C06_10be.

Theorem C06_10le_lsb16 : forall buf w h,
  Forall is_byte buf -> (0 < w)%nat -> (w mod 8 = 0)%nat -> (h * w * 10 <= 8 * length buf)%nat ->
  delivers (decompress_10le_lsb16 buf w h) w h (fun r c => field_msb (swapped16 (stream buf)) (10 * (r * w + c)) 10).
Proof. exact d10le_ok. Qed.
Print Assumptions C06_10le_lsb16.

Theorem C06_12be : forall buf w h,
  Forall is_byte buf -> (0 < w)%nat -> (w mod 2 = 0)%nat -> (h * w * 12 <= 8 * length buf)%nat ->
  delivers (decompress_12be buf w h) w h (fun r c => field_msb (stream buf) (12 * (r * w + c)) 12).
Proof. exact d12be_ok. Qed.
Print Assumptions C06_12be.

Theorem C06_12le : forall buf w h,
  Forall is_byte buf -> (0 < w)%nat -> (w mod 2 = 0)%nat -> (h * w * 12 <= 8 * length buf)%nat ->
  delivers (decompress_12le buf w h) w h (fun r c => field_lsb (stream buf) (12 * (r * w + c)) 12).
Proof. exact d12le_ok. Qed.
Print Assumptions C06_12le.

Theorem C06_16be : forall buf w h, Forall is_byte buf -> (0 < w)%nat -> (w * h * 2 <= length buf)%nat ->
  delivers (decompress_16be buf w h) w h (fun r c => field_msb (stream buf) (16 * (r * w + c)) 16).
Proof. exact d16be_ok. Qed.
Print Assumptions C06_16be.

Theorem C06_16le : forall buf w h, Forall is_byte buf -> (0 < w)%nat -> (w * h * 2 <= length buf)%nat ->
  delivers (decompress_16le buf w h) w h (fun r c => field_lsb (stream buf) (16 * (r * w + c)) 16).
Proof. exact d16le_ok. Qed.
Print Assumptions C06_16le.

Theorem C06_16le_skiplines : forall buf w h, Forall is_byte buf -> (0 < w)%nat -> (w * h * 4 <= length buf)%nat ->
  delivers (decompress_16le_skiplines buf w h) w h (fun r c => field_lsb (stream buf) (16 * (2 * r * w + c)) 16).
Proof. exact dskip_ok. Qed.
Print Assumptions C06_16le_skiplines.

(** Formats with a row stride: every width; the samples after the last whole
    group of a row are left at zero. *)
Theorem C06_12le_padded : forall buf w h s,
  Forall is_byte buf -> (0 < w)%nat -> (3 * (w / 2) <= s)%nat -> (h * s <= length buf)%nat ->
  delivers (decompress_12le_padded buf w h s) w h
    (fun r c => if (c <? 2 * (w / 2))%nat then field_lsb (stream buf) (8 * (r * s) + 12 * c) 12 else 0).
Proof. exact d12le_padded_ok. Qed.
Print Assumptions C06_12le_padded.

Theorem C06_14le_padded : forall buf w h s,
  Forall is_byte buf -> (0 < w)%nat -> (7 * (w / 4) <= s)%nat -> (h * s <= length buf)%nat ->
  delivers (decompress_14le_padded buf w h s) w h
    (fun r c => if (c <? 4 * (w / 4))%nat then field_lsb (stream buf) (8 * (r * s) + 14 * c) 14 else 0).
Proof. exact d14le_padded_ok. Qed.
Print Assumptions C06_14le_padded.

Theorem C06_12_16bitaligned : forall buf w h,
  Forall is_byte buf -> (0 < w)%nat -> (h * ((w * 12 / 8 + 1) / 2 * 2) <= length buf)%nat ->
  delivers (decompress_12le_16bitaligned buf w h) w h
    (fun r c => if (c <? 2 * (w / 2))%nat then field_msb (stream buf) (8 * (r * ((w * 12 / 8 + 1) / 2 * 2)) + 12 * c) 12 else 0).
Proof. exact d12aligned_ok. Qed.
Print Assumptions C06_12_16bitaligned.

(** Ten samples in 15 bytes, then one control byte. *)
Theorem C06_12le_wcontrol : forall buf w h,
  Forall is_byte buf -> (0 < w)%nat -> (h * (w * 12 / 8 + (w + 2) / 10) <= length buf)%nat ->
  delivers (decompress_12le_wcontrol buf w h) w h
    (fun r c => if (c <? 10 * (w / 10))%nat
                then field_lsb (stream buf) (8 * (r * (w * 12 / 8 + (w + 2) / 10) + 16 * (c / 10)) + 12 * (c mod 10)) 12 else 0).
Proof. exact d12le_ctl_ok. Qed.
Print Assumptions C06_12le_wcontrol.

Theorem C06_12be_wcontrol : forall buf w h,
  Forall is_byte buf -> (0 < w)%nat -> (h * (w * 12 / 8 + (w + 2) / 10) <= length buf)%nat ->
  delivers (decompress_12be_wcontrol buf w h) w h
    (fun r c => if (c <? 10 * (w / 10))%nat
                then field_msb (stream buf) (8 * (r * (w * 12 / 8 + (w + 2) / 10) + 16 * (c / 10)) + 12 * (c mod 10)) 12 else 0).
Proof. exact d12be_ctl_ok. Qed.
Print Assumptions C06_12be_wcontrol.

(** Interlaced: even rows from the first field, odd rows from the second. *)
Theorem C06_12be_interlaced : forall buf w h, Forall is_byte buf -> (0 < w)%nat -> (w mod 2 = 0)%nat ->
  ((((h + 1) / 2 * w * 3 / 2 / 2048 + 1) * 2048) + ((h - (h + 1) / 2) * w * 12 + 7) / 8 <= length buf)%nat ->
  delivers (decompress_12be_interlaced buf w h) w h
    (fun r c => field_msb (stream buf) (8 * field_start ((((h + 1) / 2 * w * 3 / 2 / 2048 + 1) * 2048)) r + 12 * (r / 2 * w + c)) 12).
Proof. exact dinter_ok. Qed.
Print Assumptions C06_12be_interlaced.

Theorem C06_12be_interlaced_unaligned : forall buf w h,
  Forall is_byte buf -> (0 < w)%nat -> (w mod 2 = 0)%nat -> (h * w * 12 <= 8 * length buf)%nat ->
  delivers (decompress_12be_interlaced_unaligned buf w h) w h
    (fun r c => field_msb (stream buf) (8 * field_start ((h + 1) / 2 * w * 12 / 8) r + 12 * (r / 2 * w + c)) 12).
Proof. exact dinter_un_ok. Qed.
Print Assumptions C06_12be_interlaced_unaligned.

(** One sample per 16 bit word. *)
Theorem C06_12le_unpacked : forall buf w h, (0 < w)%nat -> Forall is_byte buf -> (h * w * 2 <= length buf)%nat ->
  delivers (decompress_12le_unpacked buf w h) w h (fun r c => field_lsb (stream buf) (16 * (r * w + c) + 0) 12).
Proof. intros buf w h. exact (unpacked_lsb_ok (masked g16le 4095) 0 12 buf w h w12le_ok (glen_m16le 4095)). Qed.
Print Assumptions C06_12le_unpacked.

Theorem C06_12be_unpacked : forall buf w h, (0 < w)%nat -> Forall is_byte buf -> (h * w * 2 <= length buf)%nat ->
  delivers (decompress_12be_unpacked buf w h) w h (fun r c => field_msb (stream buf) (16 * (r * w + c) + 4) 12).
Proof. intros buf w h. exact (unpacked_msb_ok (masked g16be 4095) 4 12 buf w h w12be_ok (glen_m16be 4095)). Qed.
Print Assumptions C06_12be_unpacked.

Theorem C06_12be_left_aligned : forall buf w h, (0 < w)%nat -> Forall is_byte buf -> (h * w * 2 <= length buf)%nat ->
  delivers (decompress_12be_unpacked_left_aligned buf w h) w h (fun r c => field_msb (stream buf) (16 * (r * w + c) + 0) 12).
Proof. intros buf w h. exact (unpacked_msb_ok (shifted g16be 4) 0 12 buf w h l12be_ok (glen_s16be 4)). Qed.
Print Assumptions C06_12be_left_aligned.

Theorem C06_12le_left_aligned : forall buf w h, (0 < w)%nat -> Forall is_byte buf -> (h * w * 2 <= length buf)%nat ->
  delivers (decompress_12le_unpacked_left_aligned buf w h) w h (fun r c => field_lsb (stream buf) (16 * (r * w + c) + 4) 12).
Proof. intros buf w h. exact (unpacked_lsb_ok (shifted g16le 4) 4 12 buf w h l12le_ok (glen_s16le 4)). Qed.
Print Assumptions C06_12le_left_aligned.

Theorem C06_14le_unpacked : forall buf w h, (0 < w)%nat -> Forall is_byte buf -> (h * w * 2 <= length buf)%nat ->
  delivers (decompress_14le_unpacked buf w h) w h (fun r c => field_lsb (stream buf) (16 * (r * w + c) + 0) 14).
Proof. intros buf w h. exact (unpacked_lsb_ok (masked g16le 16383) 0 14 buf w h w14le_ok (glen_m16le 16383)). Qed.
Print Assumptions C06_14le_unpacked.

Theorem C06_14be_unpacked : forall buf w h, (0 < w)%nat -> Forall is_byte buf -> (h * w * 2 <= length buf)%nat ->
  delivers (decompress_14be_unpacked buf w h) w h (fun r c => field_msb (stream buf) (16 * (r * w + c) + 2) 14).
Proof. intros buf w h. exact (unpacked_msb_ok (masked g16be 16383) 2 14 buf w h w14be_ok (glen_m16be 16383)). Qed.
Print Assumptions C06_14be_unpacked.

Theorem C06_14_unpacked_padded : forall buf w h s,
  Forall is_byte buf -> (0 < w)%nat -> (2 * w <= s)%nat -> (h * s <= length buf)%nat ->
  delivers (decompress_14le_unpacked_padded buf w h s) w h (fun r c => field_msb (stream buf) (8 * (r * s) + 16 * c + 2) 14).
Proof. exact d14padded_ok. Qed.
Print Assumptions C06_14_unpacked_padded.

(** Formats read across row ends. *)
Theorem C06_12be_msb16 : forall buf w h, Forall is_byte buf -> (h * w * 12 <= 8 * length buf)%nat ->
  decompress_12be_msb16 buf w h = Ok (map (fun k => if (k <? 4 * (w * h / 4))%nat
    then field_msb (swapped16 (stream buf)) (12 * k) 12 else 0) (seq 0 (w * h))).
Proof. exact d12msb16_ok. Qed.
Print Assumptions C06_12be_msb16.

Theorem C06_12be_msb32 : forall buf w h, Forall is_byte buf -> (h * w * 12 <= 8 * length buf)%nat ->
  decompress_12be_msb32 buf w h = Ok (map (fun k => if (k <? 8 * (w * h / 8))%nat
    then field_msb (swapped32 (stream buf)) (12 * k) 12 else 0) (seq 0 (w * h))).
Proof. exact d12msb32_ok. Qed.
Print Assumptions C06_12be_msb32.

Theorem C06_14be_msb32 : forall buf w h, Forall is_byte buf -> (h * w * 14 <= 8 * length buf)%nat ->
  decompress_14be_msb32 buf w h = Ok (map (fun k => if (k <? 16 * (w * h / 16))%nat
    then field_msb (swapped32 (stream buf)) (14 * k) 14 else 0) (seq 0 (w * h))).
Proof. exact d14msb32_ok. Qed.
Print Assumptions C06_14be_msb32.

Theorem C06_generic_msb : forall buf w h bits, Forall is_byte buf -> (bits <= 16)%nat -> (w * h * bits <= 8 * length buf)%nat ->
  decompress_generic_msb buf w h bits = Ok (map (fun k => field_msb (stream buf) (bits * k) bits) (seq 0 (w * h))).
Proof. exact generic_msb_ok. Qed.
Print Assumptions C06_generic_msb.

Theorem C06_generic_lsb : forall buf w h bits, Forall is_byte buf -> (bits <= 16)%nat -> (w * h * bits <= 8 * length buf)%nat ->
  decompress_generic_lsb buf w h bits = Ok (map (fun k => field_lsb (stream buf) (bits * k) bits) (seq 0 (w * h))).
Proof. exact generic_lsb_ok. Qed.
Print Assumptions C06_generic_lsb.

(** Outside the width conditions the property is false. *)

(** 12 bit samples, odd width: the last sample of the row is not decoded
    although the buffer holds it. *)
Theorem C06_12be_odd_width_refuted : exists src w h, Forall is_byte src /\ (h * w * 12 <= 8 * length src)%nat /\
  run_ops (packed_decompress 12 BigE src 0 h w) (repeat 0 (h * w)) <>
    Some (rows (fun r c => field_msb (stream src) (12 * (r * w + c)) 12) w 0 h).
Proof.
  exists [255; 255; 255; 255; 255], 3%nat, 1%nat. split; [repeat constructor; unfold is_byte; lia|].
  split; [cbn; lia|]. vm_compute. discriminate.
Qed.
Print Assumptions C06_12be_odd_width_refuted.

(** Other depths, start row not on a byte boundary: the bit pump is asked to
    drop bits it has not read yet, which underflows. *)
Theorem C06_generic_unaligned_refuted : exists src w, Forall is_byte src /\ (2 * w * 14 <= 8 * length src)%nat /\
  run_ops (packed_decompress 14 BigE src 1 1 w) (repeat 0 w) = None.
Proof.
  exists (repeat 85 42), 6%nat. split; [apply Forall_forall; intros x Hx; apply repeat_spec in Hx; subst; unfold is_byte; lia|].
  split; [cbn; lia|]. vm_compute. reflexivity.
Qed.
Print Assumptions C06_generic_unaligned_refuted.

(** Sample instances: two rows of four 10 bit samples, the second row decoded
    by skipping; a two row 12 bit interlaced image. *)
Example C06_example :
  let src := [18; 52; 86; 120; 154; 188; 222; 240; 17; 34] in
  Forall is_byte src /\ ((4 * 10) mod 8 = 0)%nat /\ ((1 + 1) * 4 * 10 <= 8 * length src)%nat /\
  run_ops (packed_decompress 10 LittleE src 0 2 4) (repeat 0 8) = Some [72; 837; 414; 154; 755; 495; 4; 290] /\
  run_ops (packed_decompress 10 LittleE src 1 1 4) (repeat 0 4) = Some [755; 495; 4; 290] /\
  (exists s0, decompress_12be_interlaced_unaligned src 2 3 = Ok s0 /\
    result (prun 0 [2; 0; 1]%nat s0) = POk [291; 1110; 3567; 17; 1929; 2748]).
Proof.
  cbn zeta. split; [repeat constructor; unfold is_byte; lia|]. split; [reflexivity|]. split; [cbn; lia|].
  split; [vm_compute; reflexivity|]. split; [vm_compute; reflexivity|].
  eexists. split; [reflexivity|]. vm_compute. reflexivity.
Qed.
