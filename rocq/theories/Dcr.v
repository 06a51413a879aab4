(** Model of the Kodak DCR image data, rawler/src/decoders/dcr.rs.  A byte stream
    is its buffer and a position.  Dummy mode is left out; the pixels are
    written in order, so the image is the list of them. *)
From Coq Require Import List ZArith Bool.
From Verif Require Import Base Bits Crx.
Import ListNotations.
Open Scope Z_scope.

(** ByteStream::get_u8 pumps.rs *)
Definition stream_u8 (buf : list Z) (pos : nat) : res (Z * nat) := do b <- get buf pos; Ok (b, (pos + 1)%nat).
(** the lengths, dcr.rs:137-141 *)
Definition dcr_lens (buf : list Z) (pos size : nat) : res (nat * list nat) :=
  for_each (seq 0 ((size + 1) / 2)) (fun k st =>
    let '(pos, lens) := st in
    do b <- get buf pos;
    do lens <- put lens (2 * k) (Z.to_nat (Z.land b 15));
    do (b, pos) <- stream_u8 buf pos;
    do lens <- put lens (2 * k + 1) (Z.to_nat (Z.shiftr b 4));
    Ok (pos, lens)) (pos, repeat 0%nat 256).
Definition u64 (z : Z) : res Z := if (0 <=? z) && (z <? 2 ^ 64) then Ok z else Panic.
(** more bits, dcr.rs:153-158 *)
Definition dcr_refill (buf : list Z) (pos : nat) (bitbuf : Z) (bits : nat) : res (nat * Z * nat) :=
  do (pos, bitbuf) <- for_each [8; 0; 24; 16]%nat (fun sh st =>
    let '(pos, bitbuf) := st in
    do (b, pos) <- stream_u8 buf pos;
    do bitbuf <- u64 (bitbuf + wrap_u64 (Z.shiftl b (Z.of_nat (bits + sh))));
    Ok (pos, bitbuf)) (pos, bitbuf);
  Ok (pos, bitbuf, (bits + 32)%nat).
(** one difference, dcr.rs:151-165 *)
Definition dcr_diff (buf : list Z) (lens : list nat) (i : nat) (st : nat * Z * nat * list Z) : res (nat * Z * nat * list Z) :=
  let '(pos, bitbuf, bits, out) := st in
  do len <- get lens i;
  do (pos, bitbuf, bits) <- (if (bits <? len)%nat then dcr_refill buf pos bitbuf bits else Ok (pos, bitbuf, bits));
  do sh <- usub 16 len;
  let v := Z.land bitbuf (Z.shiftr 65535 (Z.of_nat sh)) in
  let bitbuf := Z.shiftr bitbuf (Z.of_nat len) in
  do bits <- usub bits len;
  let v := if negb (len =? 0)%nat && (Z.land v (Z.shiftl 1 (Z.of_nat (len - 1))) =? 0) then v - (Z.shiftl 1 (Z.of_nat len) - 1) else v in
  Ok (pos, bitbuf, bits, out ++ [v]).
(** decode_segment dcr.rs:134-168 *)
Definition dcr_segment (buf : list Z) (pos size : nat) : res (list Z * nat) :=
  do (pos, lens) <- dcr_lens buf pos size;
  do (pos, bitbuf, bits) <- (if (size mod 8 =? 4)%nat then
      do (b1, pos) <- stream_u8 buf pos;
      do (b2, pos) <- stream_u8 buf pos;
      Ok (pos, Z.lor (Z.shiftl b1 8) b2, 16%nat)
    else Ok (pos, 0, 0%nat));
  do (pos, _, _, out) <- for_each (seq 0 size) (dcr_diff buf lens) (pos, bitbuf, bits, []);
  Ok (out, pos).
(** the pixels of a segment, dcr.rs:118-127; i32 arithmetic panicking on overflow *)
Definition dcr_pixels (lut : list (Z * Z * Z)) (diffs : list Z) (random : Z) : res (Z * list Z) :=
  do (_, random, out) <- for_each (seq 0 (length diffs)) (fun i st =>
    let '(pred, random, out) := st in
    do val <- get diffs i;
    do p <- get pred (i mod 2);
    do p <- i32 (p + val);
    let p := if p <? 0 then 0 else p in
    do pred <- put pred (i mod 2) p;
    do (v, random) <- dither lut (wrap_u16 p) random;
    Ok (pred, random, out ++ [v])) ([0; 0], random, []);
  Ok (random, out).
(** decode_kodak65000 dcr.rs:111-132 *)
Definition dcr_decode (buf : list Z) (lut : list (Z * Z * Z)) (w h : nat) : res (list Z) :=
  do (_, _, out) <- for_each (seq 0 h) (fun row st =>
    for_each (seq 0 ((w + 255) / 256)) (fun k st =>
      let '(pos, random, out) := st in
      do (diffs, pos) <- dcr_segment buf pos (Nat.min 256 (w - 256 * k));
      do (random, px) <- dcr_pixels lut diffs random;
      Ok (pos, random, out ++ px)) st) (0%nat, 0, []);
  Ok out.
