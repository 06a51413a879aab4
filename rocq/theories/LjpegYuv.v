(** Lossless JPEG with chroma subsampling (Canon sRAW, Sony) and the Hasselblad
    variant (rawler/src/decompressors/ljpeg/decompressors.rs:97-333,
    mod.rs:313-358).  [out] is the flat output buffer. *)
From Coq Require Import List ZArith Bool.
From Verif Require Import Base Pumps LjpegDec Crx.
Import ListNotations.
Open Scope Z_scope.

(** set_yuv_420 decompressors.rs:97-122 *)
Definition set_yuv_420 (out : list Z) (row col width : nat) (y1 y2 y3 y4 cb cr : Z) : res (list Z) :=
  let pix1 := (row * width + col)%nat in
  let pix2 := (pix1 + 3)%nat in
  let pix3 := ((row + 1) * width + col)%nat in
  let pix4 := (pix3 + 3)%nat in
  do _ <- assert_ (0 <=? y1);
  do _ <- assert_ (0 <=? y2);
  do _ <- assert_ (0 <=? y3);
  do _ <- assert_ (0 <=? y4);
  do _ <- assert_ (0 <=? cb);
  do _ <- assert_ (0 <=? cr);
  do out <- put out (pix1 + 0) (wrap_u16 y1);
  do out <- put out (pix1 + 1) (wrap_u16 cb);
  do out <- put out (pix1 + 2) (wrap_u16 cr);
  do out <- put out (pix2 + 0) (wrap_u16 y2);
  do out <- put out (pix2 + 1) (wrap_u16 cb);
  do out <- put out (pix2 + 2) (wrap_u16 cr);
  do out <- put out (pix3 + 0) (wrap_u16 y3);
  do out <- put out (pix3 + 1) (wrap_u16 cb);
  do out <- put out (pix3 + 2) (wrap_u16 cr);
  do out <- put out (pix4 + 0) (wrap_u16 y4);
  do out <- put out (pix4 + 1) (wrap_u16 cb);
  put out (pix4 + 2) (wrap_u16 cr).

(** set_yuv_422 decompressors.rs:250-265 *)
Definition set_yuv_422 (out : list Z) (row col width : nat) (y1 y2 cb cr : Z) : res (list Z) :=
  let pix1 := (row * width + col)%nat in
  let pix2 := (pix1 + 3)%nat in
  do _ <- assert_ (0 <=? y1);
  do _ <- assert_ (0 <=? y2);
  do _ <- assert_ (0 <=? cb);
  do _ <- assert_ (0 <=? cr);
  do out <- put out (pix1 + 0) (wrap_u16 y1);
  do out <- put out (pix1 + 1) (wrap_u16 cb);
  do out <- put out (pix1 + 2) (wrap_u16 cr);
  do out <- put out (pix2 + 0) (wrap_u16 y2);
  do out <- put out (pix2 + 1) (wrap_u16 cb);
  put out (pix2 + 2) (wrap_u16 cr).

(** [prev + huff_decode(..)] *)
Definition add_diff (t : hufft) (prev : Z) (p : jpump) : res (Z * jpump) :=
  do (diff, p) <- huff_decode jpeg_ops t p;
  do v <- i32 (prev + diff);
  Ok (v, p).

(** the tables of the three components, and the base prediction; common to the
    three decoders (for instance decompressors.rs:211-216) *)
Definition yuv_check (d : ljdec) (width height : nat) : res unit :=
  check ((sof_width (ld_sof d) * 3 =? width)%nat && (sof_height (ld_sof d) =? height)%nat).
Definition base_prediction (d : ljdec) : res Z :=
  do pr <- usub (sof_precision (ld_sof d)) (ld_pt d);
  do pr1 <- usub pr 1;
  Ok (2 ^ Z.of_nat pr1).

(** the six values of a block: decompressors.rs:217-223 and 237-243 *)
Definition block_420 (t1 t2 t3 : hufft) (width row col : nat) (py pcb pcr : Z) (out : list Z) (p : jpump) : res (list Z * jpump) :=
  do (y1, p) <- add_diff t1 py p;
  do (y2, p) <- add_diff t1 y1 p;
  do (y3, p) <- add_diff t1 y2 p;
  do (y4, p) <- add_diff t1 y3 p;
  do (cb, p) <- add_diff t2 pcb p;
  do (cr, p) <- add_diff t3 pcr p;
  do out <- set_yuv_420 out row col width y1 y2 y3 y4 cb cr;
  Ok (out, p).
(** decode_ljpeg_420 decompressors.rs:196-248 *)
Definition decode_ljpeg_420 (d : ljdec) (out : list Z) (width height : nat) : res (list Z) :=
  do _ <- yuv_check d width height;
  do _ <- assert_ (width mod 2 =? 0)%nat;
  do _ <- assert_ (width mod 6 =? 0)%nat;
  do _ <- assert_ (height mod 2 =? 0)%nat;
  do t1 <- htable d 0;
  do t2 <- htable d 1;
  do t3 <- htable d 2;
  do base <- base_prediction d;
  do st <- block_420 t1 t2 t3 width 0 0 base base base out (jpump_new (ld_buffer d));
  do (out, _) <- for_each (step_range 0 height 2) (fun row st =>
    for_each (step_range (if (row =? 0)%nat then 6 else 0) width 6) (fun col '(out, p) =>
      do pos <- (if (col =? 0)%nat then do r <- usub row 2; Ok (r * width)%nat else usub ((row + 1) * width + col) 3);
      do py <- get out pos;
      do pcb <- get out (pos + 1);
      do pcr <- get out (pos + 2);
      block_420 t1 t2 t3 width row col py pcb pcr out p) st) st;
  Ok out.

(** decompressors.rs:144-153 and 173-189: [py3] is none at the start of a row *)
Definition block_sony (t1 t2 t3 : hufft) (width row col : nat) (py1 : Z) (py3 : option Z) (pcb pcr : Z) (out : list Z) (p : jpump) : res (list Z * jpump) :=
  do (y1, p) <- add_diff t1 py1 p;
  do (y2, p) <- add_diff t1 y1 p;
  do (y3, p) <- add_diff t1 (match py3 with None => y1 | Some v => v end) p;
  do (y4, p) <- add_diff t1 y3 p;
  do (cb, p) <- add_diff t2 pcb p;
  do (cr, p) <- add_diff t3 pcr p;
  do out <- set_yuv_420 out row col width y1 y2 y3 y4 cb cr;
  Ok (out, p).
(** decode_sony_ljpeg_420 decompressors.rs:124-194 *)
Definition decode_sony_ljpeg_420 (d : ljdec) (out : list Z) (width height : nat) : res (list Z) :=
  do _ <- yuv_check d width height;
  do _ <- assert_ (width mod 2 =? 0)%nat;
  do _ <- assert_ (width mod 6 =? 0)%nat;
  do _ <- assert_ (height mod 2 =? 0)%nat;
  do t1 <- htable d 0;
  do t2 <- htable d 1;
  do t3 <- htable d 2;
  do base <- base_prediction d;
  do st <- block_sony t1 t2 t3 width 0 0 base None base base out (jpump_new (ld_buffer d));
  do (out, _) <- for_each (step_range 0 height 2) (fun row st =>
    for_each (step_range (if (row =? 0)%nat then 6 else 0) width 6) (fun col '(out, p) =>
      do (py1, py3, pcb, pcr) <- (if (col =? 0)%nat then
          do r <- usub row 2;
          let pos := (r * width)%nat in
          do a <- get out pos;
          do b <- get out (pos + 1);
          do c <- get out (pos + 2);
          Ok (a, None, b, c)
        else
          do pos1 <- usub (row * width + col) 3;
          do pos3 <- usub ((row + 1) * width + col) 3;
          do a <- get out pos1;
          do a3 <- get out pos3;
          do b <- get out (pos1 + 1);
          do c <- get out (pos1 + 2);
          Ok (a, Some a3, b, c));
      block_sony t1 t2 t3 width row col py1 py3 pcb pcr out p) st) st;
  Ok out.

(** the four values of a block: decompressors.rs:283-287 and 300-305 *)
Definition block_422 (t1 t2 t3 : hufft) (width row col : nat) (py pcb pcr : Z) (out : list Z) (p : jpump) : res (list Z * jpump) :=
  do (y1, p) <- add_diff t1 py p;
  do (y2, p) <- add_diff t1 y1 p;
  do (cb, p) <- add_diff t2 pcb p;
  do (cr, p) <- add_diff t3 pcr p;
  do out <- set_yuv_422 out row col width y1 y2 cb cr;
  Ok (out, p).
(** decode_ljpeg_422 decompressors.rs:267-311 *)
Definition decode_ljpeg_422 (d : ljdec) (out : list Z) (width height : nat) : res (list Z) :=
  do _ <- yuv_check d width height;
  do t1 <- htable d 0;
  do t2 <- htable d 1;
  do t3 <- htable d 2;
  do base <- base_prediction d;
  do st <- block_422 t1 t2 t3 width 0 0 base base base out (jpump_new (ld_buffer d));
  do (out, _) <- for_each (seq 0 height) (fun row st =>
    for_each (step_range (if (row =? 0)%nat then 6 else 0) width 6) (fun col '(out, p) =>
      do pos <- (if (col =? 0)%nat then do r <- usub row 1; Ok (r * width)%nat else usub (row * width + col) 3);
      do py <- get out pos;
      do pcb <- get out (pos + 1);
      do pcr <- get out (pos + 2);
      block_422 t1 t2 t3 width row col py pcb pcr out p) st) st;
  Ok out.

(** decode_hasselblad decompressors.rs:313-333.  The lines of [out] are decoded in
    turn; what does not fill a line stays. *)
Definition hasselblad_line (t : hufft) (width start : nat) (st : list Z * wpump) : res (list Z * wpump) :=
  do (_, _, out, p) <- for_each (seq 0 (width / 2)) (fun i '(p1, p2, out, p) =>
    do (len1, p) <- huff_len msb32_ops t p;
    do (len2, p) <- huff_len msb32_ops t p;
    do (d1, p) <- huff_diff msb32_ops t len1 p;
    do p1 <- i32 (p1 + d1);
    do (d2, p) <- huff_diff msb32_ops t len2 p;
    do p2 <- i32 (p2 + d2);
    do out <- put out (start + 2 * i) (wrap_u16 p1);
    do out <- put out (start + 2 * i + 1) (wrap_u16 p2);
    Ok (p1, p2, out, p)) (32768, 32768, fst st, snd st);
  Ok (out, p).
Definition decode_hasselblad (d : ljdec) (out : list Z) (width : nat) : res (list Z) :=
  do t <- htable d 0;
  do _ <- assert_ (negb (width =? 0)%nat);
  do (out, _) <- for_each (seq 0 (length out / width)) (fun k st => hasselblad_line t width (k * width) st) (out, wpump_new (ld_buffer d));
  Ok out.

(** LjpegDecompressor::decode mod.rs:337-358 without dummy mode *)
Definition ljdec_decode_full (d : ljdec) (out : list Z) (x stripwidth width height : nat) : res (list Z) :=
  do c0 <- get (sof_comps (ld_sof d)) 0;
  if (jc_super_h c0 =? 2) && (jc_super_v c0 =? 2) then decode_ljpeg_420 d out width height
  else if (jc_super_h c0 =? 2) && (jc_super_v c0 =? 1) then decode_ljpeg_422 d out width height
  else if (jc_super_h c0 =? 1) && (jc_super_v c0 =? 1) then
    if ((1 <=? ld_pred d) && (ld_pred d <=? 7))%nat then decode_ljpeg d out x stripwidth width height
    else if (ld_pred d =? 8)%nat then decode_hasselblad d out width
    else Err
  else Err.
(** LjpegDecompressor::decode_sony mod.rs:313-335 without dummy mode *)
Definition ljdec_decode_sony (d : ljdec) (out : list Z) (x stripwidth width height : nat) : res (list Z) :=
  do c0 <- get (sof_comps (ld_sof d)) 0;
  if (jc_super_h c0 =? 2) && (jc_super_v c0 =? 2) then decode_sony_ljpeg_420 d out width height
  else if (jc_super_h c0 =? 2) && (jc_super_v c0 =? 1) then decode_ljpeg_422 d out width height
  else if (jc_super_h c0 =? 1) && (jc_super_v c0 =? 1) then
    if ((1 <=? ld_pred d) && (ld_pred d <=? 7))%nat then decode_ljpeg d out x stripwidth width height
    else if (ld_pred d =? 8)%nat then decode_hasselblad d out width
    else Err
  else Err.
