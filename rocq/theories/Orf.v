(** Olympus ORF compressed image data (rawler/src/decoders/orf.rs:267-360).
    Samples are lists in reading order.  [dummy] mode, and the selection between
    this and the packed formats (orf.rs:184-224), are not modelled.  The padded
    buffer is a list of bytes that includes the padding. *)
From Coq Require Import List ZArith Bool.
From Verif Require Import Base Pumps Crx.
Import ListNotations.
Open Scope Z_scope.

(** orf.rs:270-281: entry [i] of the look-up table (i < 4096), the number of
    leading zeros in 12 bits.  The code fills a table with it first. *)
Definition orf_high (i : Z) : Z :=
  match find (fun high => negb (Z.land (Z.shiftr i (11 - Z.of_nat high)) 1 =? 0)) (seq 0 12) with
  | Some high => Z.of_nat high
  | None => 12
  end.

(** orf.rs:296-298: the [while] loop; the magnitude is below 2^20, so the fuel of 32
    the caller gives is enough *)
Fixpoint orf_grow (fuel : nat) (a : Z) (nbits i : nat) : res nat :=
  match fuel with
  | O => Panic
  | S f => if 0 <? Z.land (Z.shiftr a (Z.of_nat (nbits + i))) 65535 then orf_grow f a (nbits + 1) i else Ok nbits
  end.

(** orf.rs:293-318: one coded value: the new carry, the difference and the two
    low bits.  A carry is the three numbers of [acarry[s]]. *)
Definition orf_value (carry : Z * Z * Z) (p : wpump) : res (Z * Z * (Z * Z * Z) * wpump) :=
  let '(a0, a1, a2) := carry in
  let i := if a2 <? 3 then 2%nat else 0%nat in
  do nbits <- orf_grow 32 a0 (2 + i) i;
  let nbits := Nat.min nbits 16 in
  do (b, p) <- peek_bits msb_ops 15 p;
  let sign := - Z.shiftr b 14 in
  let low := Z.land (Z.shiftr b 12) 3 in
  let high := orf_high (Z.land b 4095) in
  do (high, p) <- (if high =? 12 then
      do p <- consume_bits msb_ops 15 p;
      do n <- usub 16 nbits;
      do (x, p) <- get_bits msb_ops n p;
      Ok (Z.shiftr x 1, p)
    else
      do p <- consume_bits msb_ops (Z.to_nat (high + 4)) p;
      Ok (high, p));
  do (x, p) <- get_bits msb_ops nbits p;
  let a0 := Z.lor (wrap_i32 (Z.shiftl high (Z.of_nat nbits))) x in
  do diff <- i32 (Z.lxor a0 sign + a1);
  do d3 <- i32 (diff * 3);
  do d4 <- i32 (d3 + a1);
  let a1 := Z.shiftr d4 5 in
  do a2 <- (if 16 <? a0 then Ok 0 else i32 (a2 + 1));
  Ok (diff, low, (a0, a1, a2), p).

(** orf.rs:340-350: the prediction away from the borders *)
Definition orf_predict (lf up nw : Z) : res Z :=
  do lmn <- i32 (lf - nw);
  do umn <- i32 (up - nw);
  do prod <- i32 (lmn * umn);
  if prod <? 0 then
    if (32 <? Z.abs lmn) || (32 <? Z.abs umn) then i32 (lf + umn)
    else do sum <- i32 (lf + up); Ok (Z.shiftr sum 1)
  else if Z.abs umn <? Z.abs lmn then Ok lf
  else Ok up.

(** [(diff << 2) | low] *)
Definition orf_join (diff low : Z) : Z := Z.lor (wrap_i32 (Z.shiftl diff 2)) low.

Definition orf_state : Type := list (Z * Z * Z) * list Z * list Z * wpump * list Z.
(** orf.rs:291-356: one sample, column [col + s] *)
Definition orf_sample (width row col s : nat) (st : orf_state) : res orf_state :=
  let '(acarry, lf, nw, p, out) := st in
  do carry <- get acarry s;
  do (diff, low, carry, p) <- orf_value carry p;
  do acarry <- put acarry s carry;
  if (row <? 2)%nat || (col <? 2)%nat then
    do (pred, nw) <- (if (row <? 2)%nat && (col <? 2)%nat then Ok (0, nw)
      else if (row <? 2)%nat then do l <- get lf s; Ok (l, nw)
      else
        do r <- usub row 2;
        do v <- get out (r * width + (col + s));
        do nw <- put nw s v;
        Ok (v, nw));
    do v <- i32 (pred + orf_join diff low);
    do lf <- put lf s v;
    do out <- put out (row * width + (col + s)) (wrap_u16 v);
    Ok (acarry, lf, nw, p, out)
  else
    do r <- usub row 2;
    do up <- get out (r * width + (col + s));
    do l <- get lf s;
    do n <- get nw s;
    do pred <- orf_predict l up n;
    do v <- i32 (pred + orf_join diff low);
    do lf <- put lf s v;
    do nw <- put nw s up;
    do out <- put out (row * width + (col + s)) (wrap_u16 v);
    Ok (acarry, lf, nw, p, out).

(** orf.rs:286-358: a row starts with fresh carries *)
Definition orf_row (width row : nat) (st : list Z * list Z * wpump * list Z) : res (list Z * list Z * wpump * list Z) :=
  let '(lf, nw, p, out) := st in
  do (_, lf, nw, p, out) <- for_each (seq 0 (width / 2)) (fun c st =>
    for_each (seq 0 2) (fun s st => orf_sample width row (c * 2) s st) st)
    (repeat (0, 0, 0) 2, lf, nw, p, out);
  Ok (lf, nw, p, out).

(** decode_compressed orf.rs:267-360 *)
Definition orf_decode (buf : list Z) (width height bps : nat) : res (list Z) :=
  do src <- slice buf (if (bps =? 14)%nat then 8 else 7) (length buf);
  do (_, _, _, out) <- for_each (seq 0 height) (orf_row width)
    ([0; 0], [0; 0], wpump_new src, repeat 0 (width * height));
  Ok out.
