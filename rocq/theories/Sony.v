(** Sony ARW image data (decoders/arw.rs): the two lossy and lossless codecs of
    compression 32767 and the curve of the second. *)
From Coq Require Import List ZArith Bool.
From Verif Require Import Base Pumps Bits Crx.
Import ListNotations.
Open Scope Z_scope.

(** ** ARW1 *)

(** The bit length of a difference, arw.rs:422-429.  [leading_zeros() - 19] is
    a u32 subtraction, and 13 bits have at least 19 leading zeros. *)
Definition arw1_len (p : wpump) : res (nat * wpump) :=
  do (a, p) <- get_bits msb_ops 2 p;
  let len := (4 - Z.to_nat a)%nat in
  if (len =? 3)%nat then
    do (b, p) <- get_bits msb_ops 1 p;
    Ok (if negb (b =? 0) then 0%nat else len, p)
  else if (len =? 4)%nat then
    do (v, p) <- peek_bits msb_ops 13 p;
    do zeros <- usub (leading_zeros32 v) 19;
    do (_, p) <- get_bits msb_ops (Nat.min 13 (zeros + 1)) p;
    Ok ((len + zeros)%nat, p)
  else Ok (len, p).
(** arw.rs:430-434: the sum after one more difference *)
Definition arw1_add (len : nat) (sum : Z) (p : wpump) : res (Z * wpump) :=
  do (diff, p) <- get_bits msb_ops len p;
  do sum <- i32 (sum + diff);
  do sum <- (if (0 <? len)%nat && (Z.land diff (2 ^ Z.of_nat (len - 1)) =? 0)
    then i32 (sum - (2 ^ Z.of_nat len - 1)) else Ok sum);
  Ok (sum, p).
(** One column, arw.rs:416-437: rows 0, 2, .., and from the row [height] on
    rows 1, 3, ..  The loop ends because the row grows and is set back once;
    [fuel] bounds it. *)
Fixpoint arw1_col (fuel : nat) (width height col row : nat) (sum : Z) (p : wpump) (out : list Z) : res (Z * wpump * list Z) :=
  match fuel with
  | O => Err
  | S fuel =>
    if (height <? row)%nat then Ok (sum, p, out)
    else
      let row := if (row =? height)%nat then 1%nat else row in
      do (len, p) <- arw1_len p;
      do (sum, p) <- arw1_add len sum p;
      do out <- put out (row * width + col) (wrap_u16 sum);
      arw1_col fuel width height col (row + 2) sum p out
  end.
(** decode_arw1 arw.rs:408-439 without the dummy mode *)
Definition arw1_decode (buf : list Z) (width height : nat) : res (list Z) :=
  do (_, _, out) <- for_each (seq 0 width) (fun x '(sum, p, out) =>
    arw1_col (height + 2) width height (width - 1 - x) 0 sum p out) (0, wpump_new buf, repeat 0 (width * height));
  Ok out.

(** ** ARW2 *)

(** arw.rs:461-463: how far the seven bit values of a block are shifted *)
Definition arw2_shift (delta : Z) : Z := Z.max 0 (32 - Z.of_nat (leading_zeros32 delta) - 7).
(** One block of 16 samples, arw.rs:456-478; [j] is 0 for the even and 1 for
    the odd columns *)
Definition arw2_block (lut : list (Z * Z * Z)) (base j : nat) (random : Z) (p : wpump) (line : list Z) : res (Z * wpump * list Z) :=
  do (mx, p) <- get_bits lsb_ops 11 p;
  do (mn, p) <- get_bits lsb_ops 11 p;
  do delta <- u32 (mx - mn);
  let sh := arw2_shift delta in
  do (imax, p) <- get_bits lsb_ops 4 p;
  do (imin, p) <- get_bits lsb_ops 4 p;
  for_each (seq 0 16) (fun i '(random, p, line) =>
    do (val, p) <- (if Z.of_nat i =? imax then Ok (mx, p)
      else if Z.of_nat i =? imin then Ok (mn, p)
      else do (v, p) <- get_bits lsb_ops 7 p; Ok (Z.min 2047 (Z.shiftl v sh + mn), p));
    do (v, random) <- dither lut (wrap_u16 (2 * val)) random;
    do line <- put line (base + (j + i * 2)) v;
    Ok (random, p, line)) (random, p, line).
(** One row, arw.rs:450-481.  [chunks_exact_mut(32)] leaves the columns after
    the last whole chunk alone. *)
Definition arw2_row (lut : list (Z * Z * Z)) (buf : list Z) (width row : nat) : res (list Z) :=
  do src <- slice buf (row * width) (length buf);
  do (random, p) <- peek_bits lsb_ops 16 (wpump_new src);
  do (_, _, line) <- for_each (seq 0 (width / 32)) (fun k '(random, p, line) =>
    for_each (seq 0 2) (fun j '(random, p, line) => arw2_block lut (32 * k) j random p line) (random, p, line))
    (random, p, repeat 0 width);
  Ok line.
(** decode_arw2 arw.rs:445-484 without the dummy mode.  The rows are written by
    parallel tasks to disjoint parts of the image (decompress_lines_fn,
    decompressors/mod.rs:143-155); here one after the other. *)
Definition arw2_decode (lut : list (Z * Z * Z)) (buf : list Z) (width height : nat) : res (list Z) :=
  do _ <- assert_ (0 <? width)%nat;
  for_each (seq 0 height) (fun row out => do line <- arw2_row lut buf width row; Ok (out ++ line)) [].

(** get_curve arw.rs:675-684: the knots from the four values of the tag *)
Definition sony_knots (tag : list Z) : list nat :=
  [0%nat] ++ map (fun v => Z.to_nat (Z.land (Z.shiftr v 2) 4095)) tag ++ [Z.to_nat 4095].
(** calculate_curve arw.rs:686-695 *)
Definition sony_points (knots : list nat) : res (list Z) :=
  do last <- get knots 5;
  for_each (seq 0 5) (fun i out =>
    do a <- get knots i;
    do b <- get knots (i + 1);
    for_each (seq (a + 1) (b - a)) (fun j out =>
      do v <- get out (j - 1);
      do v <- add16 v (2 ^ Z.of_nat i);
      put out j v) out) (repeat 0 (last + 1)).
Definition sony_curve (tag : list Z) : res (list (Z * Z * Z)) :=
  do points <- sony_points (sony_knots tag);
  lut_new points.
