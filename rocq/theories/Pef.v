(** Pentax PEF and Nikon NEF image data (decoders/pef.rs, decoders/nef.rs):
    Huffman coded differences with two interleaved predictors per row. *)
From Coq Require Import List ZArith Bool.
From Verif Require Import Base Pumps LjpegDec Bits Crx.
Import ListNotations.
Open Scope Z_scope.

(** Endian::read_u16 bits.rs:94-99 / ByteStream::get_u16 pumps.rs:366-374: two
    bytes at [pos] in either order; past the end panics *)
Definition rd16 (big : bool) (buf : list Z) (pos : nat) : res Z :=
  do a <- get buf pos;
  do b <- get buf (pos + 1);
  Ok (if big then a * 256 + b else b * 256 + a).

(** ** PEF *)

(** One candidate of the search for the smallest code, pef.rs:292-299; [None]
    stands for the 0xffffffff written over a code already taken, which is
    larger than every value [sm_val] can have *)
Definition smaller (v2 : list (option Z)) (j : nat) (sm : Z * nat) : res (Z * nat) :=
  do v <- get v2 j;
  match v with
  | Some v => if v <=? fst sm then Ok (v, j) else Ok sm
  | None => Ok sm
  end.
(** pef.rs:289-303: the symbols in ascending order of their codes *)
Definition order_symbols (depth : nat) (v2 : list (option Z)) : res (list nat) :=
  do (_, hv) <- for_each (seq 0 depth) (fun i '(v2, hv) =>
    do sm <- for_each (seq 0 depth) (smaller v2) (268435455, 255%nat);
    do hv <- put hv i (snd sm);
    do v2 <- put v2 (snd sm) None;
    Ok (v2, hv)) (v2, repeat 0%nat 256);
  Ok hv.

(** The table of the maker note, pef.rs:268-304: counts per code length and
    symbols.  The code of symbol c is stored in the upper bits of a 12 bit
    field. *)
Definition pef_table (big : bool) (huff : list Z) : res (list nat * list nat) :=
  do d <- rd16 big huff 0;
  let depth := Z.to_nat (Z.land (d + 12) 15) in
  do v0 <- for_each (seq 0 depth) (fun i v0 => do x <- rd16 big huff (14 + 2 * i); put v0 i x) (repeat 0 16);
  do v1 <- for_each (seq 0 depth) (fun i v1 => do x <- get huff (14 + 2 * depth + i); put v1 i x) (repeat 0 16);
  do (v2, bits) <- for_each (seq 0 depth) (fun c '(v2, bits) =>
    do x <- get v0 c;
    do n <- get v1 c;
    do s <- u32 (12 - n);
    do v2 <- put v2 c (Some (Z.shiftr x s));
    do k <- get bits (Z.to_nat n);
    do bits <- put bits (Z.to_nat n) (S k);
    Ok (v2, bits)) (repeat (Some 0) 16, repeat 0%nat 17);
  do hv <- order_symbols depth v2;
  Ok (bits, hv).

(** The table of files without one, pef.rs:305-316: [pentax_tree] *)
Definition pentax_tree : list nat :=
  [0; 2; 3; 1; 1; 1; 1; 1; 1; 2; 0; 0; 0; 0; 0; 0; 3; 4; 2; 5; 1; 6; 0; 7; 8; 9; 10; 11; 12]%nat.
Definition pef_default_table : list nat * list nat :=
  (0%nat :: firstn 16 pentax_tree, skipn 16 pentax_tree ++ repeat 0%nat 243).

(** The decoding loop, pef.rs:320-341 *)
Definition pef_rows (t : hufft) (src : list Z) (width height : nat) : res (list Z) :=
  do (_, _, _, out) <- for_each (seq 0 height) (fun row '(up1, up2, pump, out) =>
    do (d1, pump) <- huff_decode msb_ops t pump;
    do u1 <- get up1 (row mod 2);
    do l1 <- i32 (u1 + d1);
    do up1 <- put up1 (row mod 2) l1;
    do (d2, pump) <- huff_decode msb_ops t pump;
    do u2 <- get up2 (row mod 2);
    do l2 <- i32 (u2 + d2);
    do up2 <- put up2 (row mod 2) l2;
    do out <- put out (row * width + 0) (wrap_u16 l1);
    do out <- put out (row * width + 1) (wrap_u16 l2);
    do (_, _, pump, out) <- for_each (step_range 2 width 2) (fun col '(l1, l2, pump, out) =>
      do (d1, pump) <- huff_decode msb_ops t pump;
      do l1 <- i32 (l1 + d1);
      do (d2, pump) <- huff_decode msb_ops t pump;
      do l2 <- i32 (l2 + d2);
      do out <- put out (row * width + col + 0) (wrap_u16 l1);
      do out <- put out (row * width + col + 1) (wrap_u16 l2);
      Ok (l1, l2, pump, out)) (l1, l2, pump, out);
    Ok (up1, up2, pump, out)) ([0; 0], [0; 0], wpump_new src, repeat 0 (width * height));
  Ok out.

(** do_decode pef.rs:263-343 without the dummy mode (which returns an
    uninitialised image) *)
Definition pef_decode (src : list Z) (huff : option (list Z * bool)) (width height : nat) : res (list Z) :=
  do (bits, hv) <- (match huff with
    | Some (data, big) => pef_table big data
    | None => Ok pef_default_table
    end);
  do t <- ht_new bits hv false;
  pef_rows t src width height.

(** ** NEF *)

(** nef.rs:64-101: counts per code length, symbols and shifts *)
Definition nikon_tree : list (list nat * list nat * list nat) :=
  [([0; 0; 1; 5; 1; 1; 1; 1; 1; 1; 2; 0; 0; 0; 0; 0], [5; 4; 3; 6; 2; 7; 1; 0; 8; 9; 11; 10; 12; 0; 0; 0],
    [0; 0; 0; 0; 0; 0; 0; 0; 0; 0; 0; 0; 0; 0; 0; 0]);
   ([0; 0; 1; 5; 1; 1; 1; 1; 1; 1; 2; 0; 0; 0; 0; 0], [6; 5; 5; 5; 5; 5; 4; 3; 2; 1; 0; 11; 12; 12; 0; 0],
    [3; 5; 3; 2; 1; 0; 0; 0; 0; 0; 0; 0; 0; 0; 0; 0]);
   ([0; 0; 1; 4; 2; 3; 1; 2; 0; 0; 0; 0; 0; 0; 0; 0], [5; 4; 6; 3; 7; 2; 8; 1; 9; 0; 10; 11; 12; 0; 0; 0],
    [0; 0; 0; 0; 0; 0; 0; 0; 0; 0; 0; 0; 0; 0; 0; 0]);
   ([0; 0; 1; 4; 3; 1; 1; 1; 1; 1; 2; 0; 0; 0; 0; 0], [5; 6; 4; 7; 8; 3; 9; 2; 1; 0; 10; 11; 12; 13; 14; 0],
    [0; 0; 0; 0; 0; 0; 0; 0; 0; 0; 0; 0; 0; 0; 0; 0]);
   ([0; 0; 1; 5; 1; 1; 1; 1; 1; 1; 1; 2; 0; 0; 0; 0], [8; 7; 7; 7; 7; 7; 6; 5; 4; 3; 2; 1; 0; 13; 14; 0],
    [0; 5; 4; 3; 2; 0; 0; 0; 0; 0; 0; 0; 0; 0; 0; 0]);
   ([0; 0; 1; 4; 2; 2; 3; 1; 2; 0; 0; 0; 0; 0; 0; 0], [7; 6; 8; 5; 9; 4; 10; 3; 11; 12; 2; 0; 1; 13; 14; 0],
    [0; 0; 0; 0; 0; 0; 0; 0; 0; 0; 0; 0; 0; 0; 0; 0])]%nat.

(** HuffTable::initialize huffman.rs:118-164 with shifts (the table of
    [HuffTable::empty] with its fields filled in); [ht_new] is the case of no
    shifts *)
Definition ht_new_shift (bits huffval shiftval : list nat) : res hufft :=
  let nbits := max_len bits 16 in
  do filled <- fill_hufftable nbits 0 (code_sizes bits nbits) huffval shiftval;
  do _ <- assert_ (length filled <=? 2 ^ nbits)%nat;
  let t := mk_ht false nbits (filled ++ repeat (0, 0, 0)%nat (2 ^ nbits - length filled)) in
  do _ <- for_each (seq 0 (Z.to_nat 8192)) (fun i _ => do _ <- cache_entry t (Z.of_nat i); Ok tt) tt;
  Ok t.
(** create_hufftable nef.rs:528-539: the first 15 entries of each row *)
Definition create_hufftable (num : nat) : res hufft :=
  do tree <- get nikon_tree num;
  let '(bits, hv, sh) := tree in
  ht_new_shift (firstn 15 bits ++ repeat 0%nat 2) (firstn 15 hv ++ repeat 0%nat 241) (firstn 15 sh ++ repeat 0%nat 241).

(** clampbits bits.rs:16-26; [1 << bits] and the subtraction are i32
    operations, which overflow from 31 bits on *)
Definition clampbits (val : Z) (bits : nat) : res Z :=
  do _ <- assert_ (bits <? 31)%nat;
  let max := 2 ^ Z.of_nat bits - 1 in
  Ok (wrap_u16 (if val <? 0 then 0 else if max <? val then max else val)).

(** The curve of the maker note, nef.rs:611-668.  [pos] is the position after
    the predictors.  Returns the curve (points[0..max]) and the split row. *)
Definition nef_curve (big : bool) (meta : list Z) (v0 v1 : Z) (pos : nat) (bps : nat) : res (list Z * nat * nat) :=
  let points := map Z.of_nat (seq 0 (Z.to_nat 65536)) in
  do real_bps <- (if (v0 =? 68) && (v1 =? 64) then usub bps 2 else Ok bps);
  do _ <- assert_ (real_bps <? 64)%nat;
  let max := (2 ^ real_bps)%nat in
  do cs <- rd16 big meta pos;
  let csize := Z.to_nat cs in
  let step := if (1 <? csize)%nat then (max / (csize - 1))%nat else 0%nat in
  do (points, max, split) <-
    (if (v0 =? 68) && ((v1 =? 32) || (v1 =? 64)) && (0 <? step)%nat then
       do points <- for_each (seq 0 csize) (fun i points =>
         do x <- rd16 big meta (pos + 2 + 2 * i); put points (i * step) x) points;
       do points <- for_each (seq 0 max) (fun i points =>
         let b_scale := (i mod step)%nat in
         let a_pos := (i - b_scale)%nat in
         let b_pos := (a_pos + step)%nat in
         let a_scale := (step - b_scale)%nat in
         do a <- get points a_pos;
         do b <- get points b_pos;
         put points i (wrap_u16 ((Z.of_nat a_scale * a + Z.of_nat b_scale * b) / Z.of_nat step))) points;
       do s <- rd16 big meta 562;
       Ok (points, max, Z.to_nat s)
     else if negb (v0 =? 70) && (cs <=? 16385) then
       do points <- for_each (seq 0 csize) (fun i points =>
         do x <- rd16 big meta (pos + 2 + 2 * i); put points i x) points;
       Ok (points, csize, 0%nat)
     else Ok (points, max, 0%nat));
  do curve <- slice points 0 max;
  Ok (curve, split, real_bps).

(** The decoding loop, nef.rs:670-691 *)
Definition nef_rows (sel : nat) (up1 up2 : list Z) (lut : list (Z * Z * Z)) (split bits : nat)
  (src : list Z) (width height : nat) : res (list Z) :=
  do t <- create_hufftable sel;
  do (random, pump) <- peek_bits msb_ops 24 (wpump_new src);
  do (_, _, _, _, _, out) <- for_each (seq 0 height) (fun row '(t, up1, up2, random, pump, out) =>
    do t <- (if (0 <? split)%nat && (row =? split)%nat then create_hufftable (sel + 1) else Ok t);
    do (d1, pump) <- huff_decode msb_ops t pump;
    do u1 <- get up1 (row mod 2);
    do l1 <- i32 (u1 + d1);
    do up1 <- put up1 (row mod 2) l1;
    do (d2, pump) <- huff_decode msb_ops t pump;
    do u2 <- get up2 (row mod 2);
    do l2 <- i32 (u2 + d2);
    do up2 <- put up2 (row mod 2) l2;
    do (_, _, random, pump, out) <- for_each (step_range 0 width 2) (fun col '(l1, l2, random, pump, out) =>
      do (l1, l2, pump) <- (if (0 <? col)%nat then
          do (d1, pump) <- huff_decode msb_ops t pump;
          do l1 <- i32 (l1 + d1);
          do (d2, pump) <- huff_decode msb_ops t pump;
          do l2 <- i32 (l2 + d2);
          Ok (l1, l2, pump)
        else Ok (l1, l2, pump));
      do c1 <- clampbits l1 bits;
      do (v1, random) <- dither lut c1 random;
      do out <- put out (row * width + col + 0) v1;
      do c2 <- clampbits l2 bits;
      do (v2, random) <- dither lut c2 random;
      do out <- put out (row * width + col + 1) v2;
      Ok (l1, l2, random, pump, out)) (l1, l2, random, pump, out);
    Ok (t, up1, up2, random, pump, out)) (t, up1, up2, random, pump, repeat 0 (width * height));
  Ok out.

(** do_decode nef.rs:579-694 without the dummy mode.  The first table is built
    before the curve is read; both either succeed or fail without effect on
    each other. *)
Definition nef_decode (src meta : list Z) (big : bool) (width height bps : nat) : res (list Z) :=
  do v0 <- get meta 0;
  do v1 <- get meta 1;
  do pos <- (if (v0 =? 73) || (v1 =? 88) then
      do _ <- check (2110 <=? length meta - 2)%nat; Ok 2112%nat
    else Ok 2%nat);
  let sel := ((if (v0 =? 70)%Z then 2 else 0) + (if (bps =? 14)%nat then 3 else 0))%nat in
  do a <- rd16 big meta pos;
  do b <- rd16 big meta (pos + 2);
  do c <- rd16 big meta (pos + 4);
  do d <- rd16 big meta (pos + 6);
  do (curve, split, bits) <- nef_curve big meta v0 v1 (pos + 8) bps;
  do lut <- lut_new curve;
  nef_rows sel [a; b] [c; d] lut split bits src width height.
