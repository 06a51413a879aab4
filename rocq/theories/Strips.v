(** Uncompressed strips: rawler/src/dng/writer.rs:650-691 (integer samples),
    rawler/src/formats/tiff/ifd.rs:507-551 (strip_data) and
    rawler/src/decoders/mod.rs:719-745 (decode_strips) with the packed sample
    decompressor.  Floating point samples, the [dummy] flag and the tag
    look-ups (StripOffsets, StripByteCounts, RowsPerStrip, ImageWidth,
    ImageLength, SamplesPerPixel) are not modelled: their values are arguments. *)
From Coq Require Import List ZArith Bool.
From Verif Require Import Base Par Decomp Packed Tiff RawSource.
Import ListNotations.
Open Scope Z_scope.

(** slice::chunks(c): all but the last of length [c]; panics on zero *)
Definition slice_chunks {A} (c : nat) (l : list A) : res (list (list A)) :=
  if (c =? 0)%nat then Panic
  else Ok (map (fun i => firstn c (skipn (i * c) l)) (seq 0 ((length l + c - 1) / c))).

(** rows_per_strip, writer.rs:657-661; [threshold] and [rps] are the
    environment settings (default 100 and 256) *)
Definition rows_per_strip (threshold rps h : nat) : nat := if (threshold <? h)%nat then rps else h.

(** the strip loop, writer.rs:665-670: offsets, byte counts, row counts, output *)
Definition put_strip (lw : nat) (strip : list Z) (st : list Z * list Z * list Z * list Z)
  : res (list Z * list Z * list Z * list Z) :=
  let '(offsets, sizes, rows, buf) := st in
  let '(off, buf) := write_data_u16 buf strip in
  if (lw =? 0)%nat then Panic else
  Ok (offsets ++ [off], sizes ++ [wrap_u32 (2 * Z.of_nat (length strip))],
      rows ++ [wrap_u32 (Z.of_nat (length strip / lw))], buf).

(** dng_put_raw_uncompressed for RawImageData::Integer *)
Definition put_raw_uncompressed (threshold rps : nat) (buf : list Z) (w h cpp : nat) (data : list Z)
  : res (list Z * list Z * list Z * list Z) :=
  do strips <- slice_chunks (rows_per_strip threshold rps h * w * cpp) data;
  for_each strips (put_strip (w * cpp)) ([], [], [], buf).

Definition add_u32 (a b : Z) : res Z := if a + b <? 2 ^ 32 then Ok (a + b) else Panic.

(** contiguity fold, ifd.rs:532-537 *)
Fixpoint contiguous (offsets sizes : list Z) (acc : bool * Z) : res (bool * Z) :=
  match offsets, sizes with
  | o :: offsets, s :: sizes =>
    if fst acc && (snd acc =? o) then do e <- add_u32 (snd acc) s; contiguous offsets sizes (true, e)
    else contiguous offsets sizes (false, 0)
  | _, _ => Ok acc
  end.

(** the sub views, ifd.rs:539-542 *)
Fixpoint strip_views (file : list Z) (base : Z) (offsets sizes : list Z) : res (list (list Z)) :=
  match offsets, sizes with
  | o :: offsets, s :: sizes =>
    do p <- add_u32 base o; do v <- subview file p s; do vs <- strip_views file base offsets sizes; Ok (v :: vs)
  | _, _ => Ok []
  end.

(** strip_data, ifd.rs:507-551 *)
Definition strip_data (file : list Z) (base : Z) (offsets sizes : list Z) : res (list (list Z) * option (list Z)) :=
  if negb (length offsets =? length sizes)%nat then Err else
  do o0 <- get offsets 0;
  do (cont, end_) <- contiguous offsets sizes (true, o0);
  do views <- strip_views file base offsets sizes;
  if cont then do p <- add_u32 base o0; do v <- subview file p (end_ - o0); Ok (views, Some v)
  else Ok (views, None).

(** decode_strips with a PackedDecompressor (can_skip_rows is true), decoders/mod.rs:719-745 *)
Definition decode_strips (file : list Z) (base : Z) (offsets sizes : list Z) (w h cpp rps bps : nat) (e : endian)
  : res (pstate Z) :=
  do (views, cont) <- strip_data file base offsets sizes;
  let lw := (w * cpp)%nat in
  match cont with
  | Some src => lines_fn 0 lw h (fun row => packed_decompress bps e src row 1 lw)
  | None => strips_fn 0 lw h rps (fun strip _ =>
      match nth_error views strip with
      | Some src => packed_decompress bps e src 0 (Nat.min rps (h - strip * rps)) lw
      | None => [fun _ => None]
      end)
  end.
