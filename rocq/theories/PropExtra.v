(** Additional theorems of C01, C05, C06, C08, C27, C28 and C32. *)
From Coq Require Import List ZArith Lia Bool.
From Verif Require Import Base Pumps Packed Tiles Bits BitsSpec LjpegEnc LjpegDec ExtraSpec ExtraProofs.
Import ListNotations.
Open Scope Z_scope.

(** The decompressor that a strip or tile goes through hands out the rows of
    the encoded image, from row [skip] on, as many as asked for. *)
Theorem C01_ljpeg_rows : forall dbg image w h comps depth pr pad skip nl,
  Forall is_u16 image ->
  (1 <= w)%nat -> Z.of_nat w <= 65535 -> (1 <= h)%nat -> Z.of_nat h <= 65535 ->
  (1 <= comps <= 4)%nat -> (10 <= depth <= 16)%nat -> (1 <= pr <= 7)%nat ->
  (h * ((w + pad) * comps) <= length image)%nat ->
  (dbg = true -> Forall (fun s => s < 2 ^ Z.of_nat depth) image) ->
  exists bytes, ljpeg_compress dbg image w h comps depth pr 0 pad = Ok bytes /\
    ljpeg_decompress bytes skip nl (w * comps) (w * comps)
      = Ok (firstn nl (skipn skip (rows_of image h (w * comps) ((w + pad) * comps)))).
Proof. exact ljpeg_rows. Qed.
Print Assumptions C01_ljpeg_rows.

Example C01_rows_example : exists bytes,
  ljpeg_compress true [0; 1023; 512; 7;  5; 900; 33; 33;  1000; 1; 2; 3] 2 3 2 10 6 0 0 = Ok bytes /\
  ljpeg_decompress bytes 1 2 4 4 = Ok [[5; 900; 33; 33]; [1000; 1; 2; 3]].
Proof.
  exact (C01_ljpeg_rows true [0; 1023; 512; 7;  5; 900; 33; 33;  1000; 1; 2; 3] 2 3 2 10 6 0 1 2
    ltac:(repeat constructor; unfold is_u16; lia) ltac:(lia) ltac:(lia) ltac:(lia) ltac:(lia) ltac:(lia) ltac:(lia) ltac:(lia) ltac:(cbn; lia)
    ltac:(intros _; repeat constructor; cbn; lia)).
Qed.

(** After reads of [list_sum ns] bits the byte position of the MSB32 pump is
    the number of bytes that are used at least partly. *)
Theorem C05_msb32_position : forall src q ns,
  Forall is_byte src -> length src = (4 * q)%nat -> Forall (fun n => n <= 32)%nat ns ->
  (list_sum ns <= 8 * length src)%nat ->
  exists p, after_reads msb32_ops ns (wpump_new src) = Ok p /\ msb32_get_pos p = Ok ((list_sum ns + 7) / 8)%nat.
Proof. exact msb32_position. Qed.
Print Assumptions C05_msb32_position.

Example C05_position_example :
  (do p <- after_reads msb32_ops [7; 12; 32]%nat (wpump_new [1; 2; 3; 4; 5; 6; 7; 8]); msb32_get_pos p) = Ok 7%nat.
Proof. reflexivity. Qed.

(** Buffers that are too short for the image are refused with an error. *)
Theorem C06_short_buffers :
  refuses decompress_8bit (fun w h => (h * w)%nat) /\
  refuses decompress_10be (fun w h => ((h * w * 10 + 7) / 8)%nat) /\
  refuses decompress_10le_lsb16 (fun w h => ((h * w * 10 + 7) / 8)%nat) /\
  refuses decompress_12le (fun w h => ((h * w * 12 + 7) / 8)%nat) /\
  refuses decompress_12be_msb16 (fun w h => ((h * w * 12 + 7) / 8)%nat) /\
  refuses decompress_12be_msb32 (fun w h => ((h * w * 12 + 7) / 8)%nat) /\
  refuses decompress_14be_msb32 (fun w h => ((h * w * 14 + 7) / 8)%nat) /\
  refuses decompress_12le_16bitaligned (fun w h => (h * ((w * 12 / 8 + 1) / 2 * 2))%nat) /\
  refuses decompress_12le_wcontrol (fun w h => (h * (w * 12 / 8 + (w + 2) / 10))%nat) /\
  refuses decompress_12be_wcontrol (fun w h => (h * (w * 12 / 8 + (w + 2) / 10))%nat) /\
  refuses decompress_16le (fun w h => (w * h * 2)%nat) /\
  refuses decompress_16be (fun w h => (w * h * 2)%nat) /\
  refuses decompress_16le_skiplines (fun w h => (w * h * 4)%nat).
Proof. exact refuse_all. Qed.
Print Assumptions C06_short_buffers.

Theorem C06_short_unpacked :
  refuses decompress_12le_unpacked (fun w h => (h * w * 2)%nat) /\
  refuses decompress_12be_unpacked (fun w h => (h * w * 2)%nat) /\
  refuses decompress_12be_unpacked_left_aligned (fun w h => (h * w * 2)%nat) /\
  refuses decompress_12le_unpacked_left_aligned (fun w h => (h * w * 2)%nat) /\
  refuses decompress_14le_unpacked (fun w h => (h * w * 2)%nat) /\
  refuses decompress_14be_unpacked (fun w h => (h * w * 2)%nat).
Proof. exact refuse_un. Qed.
Print Assumptions C06_short_unpacked.

Theorem C06_short_padded : forall s,
  refuses (fun b w h => decompress_12le_padded b w h s) (fun w h => (h * s)%nat) /\
  refuses (fun b w h => decompress_14le_padded b w h s) (fun w h => (h * s)%nat) /\
  refuses (fun b w h => decompress_14le_unpacked_padded b w h s) (fun w h => (h * s)%nat).
Proof. exact refuse_pad. Qed.
Print Assumptions C06_short_padded.

Theorem C06_short_generic : forall n, (n <= 16)%nat ->
  refuses (fun b w h => decompress_generic_msb b w h n) (fun w h => ((w * h * n + 7) / 8)%nat) /\
  refuses (fun b w h => decompress_generic_lsb b w h n) (fun w h => ((w * h * n + 7) / 8)%nat).
Proof. exact refuse_gen. Qed.
Print Assumptions C06_short_generic.

Theorem C06_short_interlaced :
  refuses decompress_12be_interlaced_unaligned (fun w h => ((h * w * 12 + 7) / 8)%nat) /\
  refuses decompress_12be_interlaced (fun w h => (((h + 1) / 2 * w * 3 / 2 / 2048 + 1) * 2048 + ((h / 2) * w * 12 + 7) / 8)%nat).
Proof. exact refuse_int. Qed.
Print Assumptions C06_short_interlaced.

(** 3 x 1 samples of 12 bits need 5 bytes. *)
Example C06_short_example : decompress_12le [1; 2; 3; 4] 3 1 = Err /\ decompress_12le [1; 2; 3; 4; 5] 3 1 <> Err.
Proof. split; [reflexivity|discriminate]. Qed.

(** Mutable tiles exist exactly for buffers of whole tiles. *)
Theorem C08_partial_tile_rejected : forall len width cpp tw th, (0 < width -> 0 < tw -> 0 < th -> 0 < cpp ->
  (len mod (tw * cpp * th) <> 0 <-> into_tiles len width cpp tw th = Err))%nat.
Proof. exact tiles_reject. Qed.
Print Assumptions C08_partial_tile_rejected.
Example C08_rejected_example : into_tiles 14 4 1 2 2 = Err.
Proof. reflexivity. Qed.

(** End of image or a quantisation table before the scan, and streams that do
    not start with a start of image marker, are refused. *)
Theorem C27_header_refused : forall gap m tail bug csfix, Forall (fun b => b <> 255) gap -> m = 217 \/ m = 219 ->
  ljdec_new_full (255 :: 216 :: gap ++ 255 :: m :: tail) bug csfix = Err.
Proof. exact header_reject. Qed.
Print Assumptions C27_header_refused.
Theorem C27_start_refused : forall a b tail bug csfix, a <> 255 \/ b <> 216 -> ljdec_new_full (a :: b :: tail) bug csfix = Err.
Proof. exact start_reject. Qed.
Print Assumptions C27_start_refused.
Example C27_refused_example : Forall (fun b => b <> 255) [1; 2; 3] /\ ljdec_new_full [255; 216; 1; 2; 3; 255; 219; 0; 67] false false = Err.
Proof. split; [repeat constructor; lia|reflexivity]. Qed.

(** The predictor of the image selects the distance of the differences. *)
Theorem C32_predictors : forall bps cpp predictor k rows w, (bps = 16 \/ bps = 24 \/ bps = 32)%nat -> (0 < cpp)%nat ->
  predictor = 3 /\ k = 1%nat \/ predictor = 34894 /\ k = 2%nat \/ predictor = 34895 /\ k = 4%nat ->
  Forall (fun row => length row = w) rows ->
  Forall (Forall (fun v => 0 <= v < 2 ^ Z.of_nat bps /\ (bps = 32%nat -> ~ subnormal 23 8 v))) rows ->
  exists out, (do f <- pred_factor cpp predictor;
      deflate_decode bps f (flat_map (fun row => delta_enc (cpp * k) (planes (bps / 8) row)) rows) (length rows) w) = Ok out /\
    Forall2 (Forall2 (fun v p => extend (fst (fmt bps)) (snd (fmt bps)) v = Ok p)) rows out.
Proof. exact float_predictors. Qed.
Print Assumptions C32_predictors.
Theorem C32_other_predictors_panic : forall cpp predictor, predictor <> 3 -> predictor <> 34894 -> predictor <> 34895 ->
  pred_factor cpp predictor = Panic.
Proof. exact other_predictors. Qed.
Print Assumptions C32_other_predictors_panic.
Example C32_predictors_example : delta_enc (1 * 2) (planes 2 [15360; 16384]) = [60; 64; 196; 192] /\
  (do f <- pred_factor 1 34894; deflate_decode 16 f [60; 64; 196; 192] 1 2) = Ok [[1065353216; 1073741824]].
Proof. split; vm_compute; reflexivity. Qed.

(** Numbers of states below two. *)
Theorem C28_log2ceil_small : log2ceil 0 = Ok 0%nat /\ log2ceil 1 = Ok 1%nat.
Proof. exact log2ceil_small. Qed.
Print Assumptions C28_log2ceil_small.
