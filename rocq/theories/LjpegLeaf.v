(** Leaf MOS image data: restart-separated LJPEG strips of eight rows, and the
    interlaced row order (rawler/src/decompressors/ljpeg/decompressors.rs:335-363,
    ljpeg/mod.rs:360-390, rawler/src/decoders/mos.rs:124-145).  The strips are
    decoded by parallel tasks that write to disjoint parts of the image
    (decompress_strips_fn, decompressors/mod.rs:212-225, property C12); here
    they run one after the other. *)
From Coq Require Import List ZArith Bool.
From Verif Require Import Base Pumps LjpegDec Crx LjpegYuv.
Import ListNotations.
Open Scope Z_scope.

(** decode_leaf_strip decompressors.rs:335-363; the strip starts at [start] of the
    image [out] *)
Definition decode_leaf_strip (src : list Z) (start width height : nat) (t1 t2 : hufft) (bpred : Z) (out : list Z) : res (list Z) :=
  do (a, p) <- add_diff t1 bpred (jpump_new src);
  do out <- put out (start + 0) (wrap_u16 a);
  do (b, p) <- add_diff t2 bpred p;
  do out <- put out (start + 1) (wrap_u16 b);
  do (out, _) <- for_each (seq 0 height) (fun row st =>
    for_each (step_range (if (row =? 0)%nat then 2 else 0) width 2) (fun col '(out, p) =>
      do pos <- (if (col =? 0)%nat then do r <- usub row 1; Ok (r * width)%nat else usub (row * width + col) 2);
      do p1 <- get out (start + pos);
      do p2 <- get out (start + (pos + 1));
      do (a, p) <- add_diff t1 p1 p;
      do (b, p) <- add_diff t2 p2 p;
      do out <- put out (start + (row * width + col)) (wrap_u16 a);
      do out <- put out (start + (row * width + col + 1)) (wrap_u16 b);
      Ok (out, p)) st) (out, p);
  Ok out.

(** mod.rs:361-369: where the strips start.  Each round consumes at least two
    bytes. *)
Fixpoint leaf_offsets (fuel : nat) (s : bstream) : res (list nat) :=
  match fuel with
  | O => Panic
  | S f =>
    match get_next_marker s true with
    | Ok (m, s1) => if m =? 217 then Ok [] else do r <- leaf_offsets f s1; Ok (b_pos s1 :: r)
    | Err => Ok []
    | Panic => Panic
    end
  end.
(** decode_leaf mod.rs:360-390; [par_chunks_mut(0)] panics *)
Definition decode_leaf (d : ljdec) (width height : nat) : res (list Z) :=
  do offs <- leaf_offsets (S (length (ld_buffer d))) (mk_bstream (ld_buffer d) 0);
  let offsets := 0%nat :: offs in
  do h1 <- usub height 1;
  let nstrips := (h1 / 8 + 1)%nat in
  do _ <- check (length offsets =? nstrips)%nat;
  do t1 <- htable d 0;
  do t2 <- htable d 1;
  do bpred <- base_prediction d;
  do _ <- assert_ (negb (width * 8 =? 0)%nat);
  for_each (seq 0 nstrips) (fun strip out =>
    do offset <- get offsets strip;
    do src <- slice (ld_buffer d) offset (length (ld_buffer d));
    decode_leaf_strip src (strip * (width * 8)) width (Nat.min 8 (height - strip * 8)) t1 t2 bpred out) (repeat 0 (width * height)).

(** MosDecoder::do_decode mos.rs:124-145 without dummy mode *)
Definition leaf_rows (pix : list Z) (width height : nat) : res (list Z) :=
  for_each (seq 0 (length pix / width)) (fun row out =>
    do orow <- (if (row mod 2 =? 1)%nat then do a <- usub height 1; usub a (row / 2) else Ok (row / 2)%nat);
    do line <- slice pix (row * width) ((row + 1) * width);
    for_each (seq 0 width) (fun i out => do v <- get line i; put out (orow * width + i) v) out) (repeat 0 (width * height)).
Definition mos_do_decode (src : list Z) (interlaced : bool) (width height : nat) : res (list Z) :=
  do d <- ljdec_new_full src true true;
  do pix <- decode_leaf d width height;
  if interlaced then
    do _ <- assert_ (negb (width =? 0)%nat);
    leaf_rows pix width height
  else Ok pix.
