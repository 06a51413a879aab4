(** Low level numeric helpers (rawler/src/bits.rs), TIFF rationals
    (rawler/src/formats/tiff/value.rs) and the deflate predictor
    (rawler/src/decompressors/deflate.rs).  An f32 is its 32 bit pattern. *)
From Coq Require Import List ZArith Lia Bool.
From Verif Require Import Base.
Import ListNotations.
Open Scope Z_scope.

(** ** Clamping *)

(** clampbits, bits.rs:17-26.  [1 << bits] is an i32, so [bits <= 30]; the
    result is cast to u16 *)
Definition clampbits (val bits : Z) : Z :=
  let max := 2 ^ bits - 1 in
  if val <? 0 then 0 else if max <? val then wrap_u16 max else wrap_u16 val.

(** clamp, bits.rs:28-37 *)
Definition clamp (val lo hi : Z) : Z :=
  let r := if val <? lo then lo else val in
  if hi <? r then hi else r.

(** log2ceil, bits.rs:40-53: the loop shifts until nothing is left *)
Fixpoint log2_loop (fuel : nat) (s : Z) (bits : nat) : res nat :=
  match fuel with
  | O => Err
  | S fuel => let s := s / 2 in if s =? 0 then Ok (S bits) else log2_loop fuel s (S bits)
  end.
Definition log2ceil (states : Z) : res nat :=
  if 0 <? states then log2_loop 64 (states - 1) 0 else Ok 0%nat.

(** ** Widening floats *)

(** the loop of bits.rs:345-348; [wide_exponent -= 1] underflows at zero *)
Fixpoint norm_loop (fuel : nat) (e f : Z) : res (Z * Z) :=
  if Z.land f (2 ^ 23) =? 0 then
    match fuel with
    | O => Err
    | S fuel => if e =? 0 then Panic else norm_loop fuel (e - 1) (wrap_u32 (2 * f))
    end
  else Ok (e, f).

(** extend_binary_floating_point with WIDE = Binary32, bits.rs:319-354.
    NARROW has [fw] fraction and [ew] exponent bits; STORAGE_WIDTH is
    1 + ew + fw for the three formats in use. *)
Definition extend (fw ew value : Z) : res Z :=
  let sign := (value / 2 ^ (fw + ew)) mod 2 in
  let ne := Z.land (value / 2 ^ fw) (2 ^ ew - 1) in
  let nf := Z.land value (2 ^ fw - 1) in
  let bias := 2 ^ (ew - 1) - 1 in
  let we := ne - bias + 127 in
  let wf := nf * 2 ^ (23 - fw) in
  do ef <- (if ne =? 2 ^ ew - 1 then Ok (255, wf)
    else if ne =? 0 then
      if nf =? 0 then Ok (0, 0)
      else do ef <- norm_loop 32 (1 - bias + 127) wf;
           Ok (fst ef, Z.land (snd ef) (2 ^ 23 - 1))
    else Ok (we, wf));
  Ok (Z.lor (Z.lor (sign * 2 ^ 31) (fst ef * 2 ^ 23)) (snd ef)).

(** ** Lookup tables *)

(** u16 arithmetic panicking on overflow (debug profile) *)
Definition sub16 (a b : Z) : res Z := if b <=? a then Ok (a - b) else Panic.
Definition add16 (a b : Z) : res Z := if a + b <? 2 ^ 16 then Ok (a + b) else Panic.

(** one entry of LookupTable::new, bits.rs:214-227 *)
Definition lut_entry (table : list Z) (i : nat) : res (Z * Z * Z) :=
  do center <- get table i;
  do lower <- (if (0 <? i)%nat then get table (i - 1) else Ok center);
  do upper <- (if (i <? length table - 1)%nat then get table (i + 1) else Ok center);
  do base <- (if center =? 0 then Ok 0
    else do d <- sub16 upper lower; do d2 <- add16 d 2; sub16 center (d2 / 4));
  do delta <- sub16 upper lower;
  Ok (center, base, delta).
Definition lut_new (table : list Z) : res (list (Z * Z * Z)) :=
  for_each (seq 0 (length table)) (fun i t => do e <- lut_entry table i; put t i e)
    (repeat (0, 0, 0) (length table)).

(** new_with_bits, bits.rs:229-239 *)
Definition lut_new_bits (table : list Z) (bits : nat) : res (list (Z * Z * Z)) :=
  do _ <- assert_ (negb (length table =? 0)%nat);
  if (2 ^ bits <=? length table)%nat then lut_new table
  else lut_new (table ++ repeat (last table 0) (2 ^ bits - length table)).

(** dither, bits.rs:247-254; u32 arithmetic panicking on overflow *)
Definition dither (t : list (Z * Z * Z)) (value rand : Z) : res (Z * Z) :=
  do e <- get t (Z.to_nat value);
  let '(_, base, delta) := e in
  let m := delta * (rand mod 2048) + 1024 in
  do _ <- assert_ (m <? 2 ^ 32);
  let r := 15700 * (rand mod 65536) + rand / 65536 in
  do _ <- assert_ (r <? 2 ^ 32);
  Ok (wrap_u16 (base + m / 4096), r).

(** apply_linearization over one row, decoders/mod.rs:812-816 *)
Fixpoint dither_row (t : list (Z * Z * Z)) (row : list Z) (rand : Z) : res (list Z) :=
  match row with
  | [] => Ok []
  | p :: row => do pr <- dither t p rand; do rest <- dither_row t row (snd pr); Ok (fst pr :: rest)
  end.

(** ** Rationals *)

Record rational := mk_rat { r_n : Z; r_d : Z }.
Definition is_u32 (x : Z) : Prop := 0 <= x < 2 ^ 32.
Definition is_i32 (x : Z) : Prop := - 2 ^ 31 <= x < 2 ^ 31.
(** eq and cmp of Rational, value.rs:17-42: products as u64 *)
Definition rat_eq (a b : rational) : bool := wrap_u64 (r_n a * r_d b) =? wrap_u64 (r_d a * r_n b).
Definition rat_cmp (a b : rational) : comparison := wrap_u64 (r_n a * r_d b) ?= wrap_u64 (r_d a * r_n b).
(** eq and cmp of SRational, value.rs:309-333: products as i64 *)
Definition wrap_i64 (z : Z) : Z := (z + 2 ^ 63) mod 2 ^ 64 - 2 ^ 63.
Definition srat_eq (a b : rational) : bool := wrap_i64 (r_n a * r_d b) =? wrap_i64 (r_d a * r_n b).
Definition srat_cmp (a b : rational) : comparison := wrap_i64 (r_n a * r_d b) ?= wrap_i64 (r_d a * r_n b).

(** ** Deflate predictor *)

(** decode_delta_bytes, deflate.rs:121-125 *)
Definition delta_bytes (factor : nat) (src : list Z) : res (list Z) :=
  for_each (seq factor (length src - factor)) (fun col s =>
    do a <- get s col;
    do b <- get s (col - factor);
    put s col (wrap_u8 (a + b))) src.

(** u32::from_be_bytes *)
Definition be32 (t : list Z) : Z :=
  ((nth 0 t 0 * 256 + nth 1 t 0) * 256 + nth 2 t 0) * 256 + nth 3 t 0.

(** decode_fp_delta_row, deflate.rs:127-139, [sb] storage bytes *)
Definition fp_row (fw ew : Z) (sb : nat) (row : list Z) (width : nat) : res (list Z) :=
  for_each (seq 0 width) (fun col out =>
    do tmp <- for_each (seq 0 sb) (fun c t => do b <- get row (col + c * width); put t c b) [0; 0; 0; 0];
    let value := be32 tmp / 2 ^ (32 - 8 * Z.of_nat sb) in
    do p <- extend fw ew value;
    Ok (out ++ [p])) [].

(** DeflateDecompressor::decompress after inflation, deflate.rs:93-111;
    [data] are the inflated bytes (zlib is not modelled), [nl] the number of lines *)
Definition deflate_row (bps factor : nat) (row : list Z) (width : nat) : res (list Z) :=
  do row <- delta_bytes factor row;
  match bps with
  | 16%nat => fp_row 10 5 2 row width
  | 24%nat => fp_row 16 7 3 row width
  | 32%nat => fp_row 23 8 4 row width
  | _ => Panic
  end.
Definition deflate_decode (bps factor : nat) (data : list Z) (nl width : nat) : res (list (list Z)) :=
  let sb := (bps / 8)%nat in
  do _ <- assert_ ((2 <=? sb) && (sb <=? 4))%nat;
  do _ <- check (length data =? sb * width * nl)%nat;
  for_each (seq 0 nl) (fun r out =>
    do line <- deflate_row bps factor (firstn (sb * width) (skipn (r * (sb * width)) data)) width;
    Ok (out ++ [line])) [].

(** pred_factor, deflate.rs:61-70 *)
Definition pred_factor (cpp : nat) (predictor : Z) : res nat :=
  (if predictor =? 3 then Ok cpp else if predictor =? 34894 then Ok (cpp * 2)%nat
   else if predictor =? 34895 then Ok (cpp * 4)%nat else Panic).
