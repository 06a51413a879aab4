(** Panasonic RW2 image data, formats 4 to 7 (decoders/rw2). *)
From Coq Require Import List ZArith Bool.
From Verif Require Import Base Pumps Crx.
Import ListNotations.
Open Scope Z_scope.

(** rows, strips or blocks one after the other; the code hands them to parallel
    tasks that write to disjoint parts of the image (decompress_lines_fn,
    decompress_strips_fn and decompress_chunked_fn, decompressors/mod.rs:143-171,
    210-243, 284-306) *)
Definition in_turn (n : nat) (f : nat -> res (list Z)) : res (list Z) :=
  for_each (seq 0 n) (fun i out => do l <- f i; Ok (out ++ l)) [].

(** ** Formats 5 and 7: packets of 16 bytes, least significant bits first *)

(** [n] fields of [bps] bits, v5decompressor.rs:46-47, v7decompressor.rs:32-33 *)
Definition pana_fields (bps n : nat) (bytes : list Z) : res (list Z) :=
  do (_, out) <- for_each (seq 0 n) (fun _ '(p, out) => do (v, p) <- get_bits lsb_ops bps p; Ok (p, out ++ [wrap_u16 v])) (wpump_new bytes, []);
  Ok out.
(** v5decompressor.rs:11-24; [None] is unreachable!() *)
Definition v5_size : nat := Z.to_nat 16384.
Definition v5_split : nat := Z.to_nat 8184.
Definition v5_per_packet (bps : nat) : option nat := if (bps =? 12)%nat then Some 10%nat else if (bps =? 14)%nat then Some 9%nat else None.
(** the closure v5decompressor.rs:36-49; [len] is the length of the chunk, of
    which the pixels after the last whole packet are left alone *)
Definition v5_chunk (buf : list Z) (bps per len id : nat) : res (list Z) :=
  do src <- slice buf (id * v5_size) (id * v5_size + v5_size);
  do a <- slice src v5_split (length src);
  do b <- slice src 0 v5_split;
  let swapped := a ++ b in
  let n := Nat.min (len / per) (length swapped / 16) in
  do pixels <- in_turn n (fun k => do bytes <- slice swapped (16 * k) (16 * k + 16); pana_fields bps per bytes);
  Ok (pixels ++ repeat 0 (len - n * per)).
(** decode_panasonic_v5 v5decompressor.rs:9-51 *)
Definition v5_decode (buf : list Z) (width height bps : nat) : res (list Z) :=
  match v5_per_packet bps with
  | None => Panic
  | Some per =>
    let block := (v5_size / 16 * per)%nat in
    let total := (width * height)%nat in
    in_turn ((total + block - 1) / block) (fun id => v5_chunk buf bps per (Nat.min block (total - id * block)) id)
  end.

(** the closure v7decompressor.rs:27-36: always 14 bits *)
Definition v7_row (buf : list Z) (per blocks row : nat) : res (list Z) :=
  do src <- slice buf (row * (16 * blocks)) (row * (16 * blocks) + 16 * blocks);
  in_turn blocks (fun k => do bytes <- slice src (16 * k) (16 * k + 16); pana_fields 14 per bytes).
(** decode_panasonic_v7 v7decompressor.rs:9-38 *)
Definition v7_decode (buf : list Z) (width height bps : nat) : res (list Z) :=
  match v5_per_packet bps with
  | None => Panic
  | Some per =>
    do _ <- assert_ (width mod per =? 0)%nat;
    do _ <- assert_ (0 <? width)%nat;
    in_turn height (v7_row buf per (width / per))
  end.

(** ** Format 6 *)
Definition u16 (z : Z) : res Z := if (0 <=? z) && (z <? 65536) then Ok z else Panic.
(** the constants v6decompressor.rs:14-39 *)
Record v6_const := { k_per : nat; k_base0 : Z; k_base_cmp : Z; k_spix_cmp : Z; k_mask : Z }.
Definition v6_const_of (bps : nat) : option v6_const :=
  if (bps =? 12)%nat then Some {| k_per := 14; k_base0 := 128; k_base_cmp := 2048; k_spix_cmp := 16383; k_mask := 4095 |}
  else if (bps =? 14)%nat then Some {| k_per := 11; k_base0 := 512; k_base_cmp := 8192; k_spix_cmp := 65535; k_mask := 16383 |}
  else None.
(** places and lengths in the order they are read, v6decompressor.rs:62-102;
    the four padding bits have no place *)
Definition v6_reads (bps : nat) : list (option nat * nat) :=
  if (bps =? 14)%nat then
    [(None, 4); (Some 13, 10); (Some 12, 10); (Some 11, 10); (Some 10, 2); (Some 9, 10); (Some 8, 10); (Some 7, 10); (Some 6, 2);
     (Some 5, 10); (Some 4, 10); (Some 3, 10); (Some 2, 2); (Some 1, 14); (Some 0, 14)]%nat
  else
    [(Some 17, 8); (Some 16, 8); (Some 15, 8); (Some 14, 2); (Some 13, 8); (Some 12, 8); (Some 11, 8); (Some 10, 2);
     (Some 9, 8); (Some 8, 8); (Some 7, 8); (Some 6, 2); (Some 5, 8); (Some 4, 8); (Some 3, 8); (Some 2, 2); (Some 1, 12); (Some 0, 12)]%nat.
(** [next_pixel]'s buffer, v6decompressor.rs:58-60 *)
Definition v6_buffer (bps : nat) (block : list Z) : res (list Z) :=
  do (_, out) <- for_each (v6_reads bps) (fun '(o, n) '(p, out) =>
    do (v, p) <- get_bits lsb_ops n p;
    do out <- (match o with Some i => put out i (wrap_u16 v) | None => Ok out end);
    Ok (p, out)) (wpump_new block, repeat 0 18);
  Ok out.
(** what is written, v6decompressor.rs:140-150 (signed comparison) *)
Definition v6_emit (k : v6_const) (epixel : Z) : Z :=
  let spix := wrap_i32 (epixel - 15) in
  if spix <=? k_spix_cmp k then wrap_u16 (Z.land spix (k_spix_cmp k))
  else Z.land (wrap_u16 (Z.shiftr (wrap_i32 (epixel + 2147483633)) 31)) (k_mask k).
(** one pixel, v6decompressor.rs:117-139 *)
Definition v6_pixel (k : v6_const) (buffer : list Z) (pix : nat) (st : nat * list Z * list Z * Z * Z * list Z) : res (nat * list Z * list Z * Z * Z * list Z) :=
  let '(curr, oddeven, nonzero, pmul, pixel_base, out) := st in
  do (curr, pmul, pixel_base) <- (if (pix mod 3 =? 2)%nat then
      do base <- get buffer curr;
      let base := if base =? 3 then 4 else base in
      Ok ((curr + 1)%nat, wrap_u16 (Z.shiftl 1 base), wrap_u16 (Z.shiftl (k_base0 k) base))
    else Ok (curr, pmul, pixel_base));
  do epixel <- get buffer curr;
  let curr := (curr + 1)%nat in
  do oe <- get oddeven (pix mod 2);
  do nz <- get nonzero (pix mod 2);
  if negb (oe =? 0) then
    do e <- u16 (epixel * pmul);
    do e <- (if (pixel_base <? k_base_cmp k) && (pixel_base <? nz) then do d <- u16 (nz - pixel_base); u16 (e + d) else Ok e);
    do nonzero <- put nonzero (pix mod 2) e;
    Ok (curr, oddeven, nonzero, pmul, pixel_base, out ++ [v6_emit k e])
  else
    do oddeven <- put oddeven (pix mod 2) epixel;
    if negb (epixel =? 0) then
      do nonzero <- put nonzero (pix mod 2) epixel;
      Ok (curr, oddeven, nonzero, pmul, pixel_base, out ++ [v6_emit k epixel])
    else Ok (curr, oddeven, nonzero, pmul, pixel_base, out ++ [v6_emit k nz]).
(** a block of 16 bytes; the values written to consecutive places, v6decompressor.rs:56-151 *)
Definition v6_block (bps : nat) (k : v6_const) (block : list Z) : res (list Z) :=
  do buffer <- v6_buffer bps block;
  do (_, _, _, _, _, out) <- for_each (seq 0 (k_per k)) (v6_pixel k buffer) (0%nat, [0; 0], [0; 0], 0, 0, []);
  Ok out.
(** decode_panasonic_v6 v6decompressor.rs:9-191 *)
Definition v6_decode (buf : list Z) (width height bps : nat) : res (list Z) :=
  match v6_const_of bps with
  | None => Panic
  | Some k =>
    let blocks := (width / k_per k)%nat in
    do _ <- assert_ (width mod k_per k =? 0)%nat;
    do _ <- assert_ (0 <? width)%nat;
    in_turn height (fun row =>
      do src <- slice buf (row * (16 * blocks)) (row * (16 * blocks) + 16 * blocks);
      in_turn blocks (fun b => do bytes <- slice src (16 * b) (16 * b + 16); v6_block bps k bytes))
  end.

(** ** Format 4 *)

(** BitPumpPanasonic v4decompressor.rs:51-86.  The numbers are u32 and usize. *)
Record ppump := mk_ppump { pp_buf : list Z; pp_pos : Z; pp_nbits : Z; pp_split : bool }.
Definition ppump_new (src : list Z) (split : bool) : ppump := mk_ppump src 0 0 split.
(** LEu16, bits.rs:206-208 *)
Definition le16_at (buf : list Z) (i : Z) : res Z :=
  do _ <- assert_ (0 <=? i);
  do a <- get buf (Z.to_nat i);
  do b <- get buf (Z.to_nat (i + 1));
  Ok (a + 256 * b).
Definition pana_peek (num : nat) (p : ppump) : res (Z * ppump) :=
  let p := if pp_nbits p <? Z.of_nat num then mk_ppump (pp_buf p) (pp_pos p + 16384) (pp_nbits p + 131072) (pp_split p) else p in
  do n <- u32 (pp_nbits p - Z.of_nat num);
  let byte := Z.lxor (Z.shiftr n 3) 16368 in
  let byte := if pp_split p then (byte + 16384 - 8200) mod 16384 else byte in
  do bits <- le16_at (pp_buf p) (byte + pp_pos p - 16384);
  do m <- u32 (32 - Z.of_nat num);
  do _ <- assert_ (m <? 32);
  Ok (Z.land (Z.shiftr bits (Z.land n 7)) (Z.shiftr 4294967295 m), p).
Definition pana_consume (num : nat) (p : ppump) : res ppump :=
  do n <- u32 (pp_nbits p - Z.of_nat num);
  Ok (mk_ppump (pp_buf p) (pp_pos p) n (pp_split p)).
Definition pana_ops : pump_ops ppump := {| peek_bits := pana_peek; consume_bits := pana_consume |}.
(** one pixel, v4decompressor.rs:23-43 *)
Definition v4_pixel (i : nat) (st : ppump * Z * list Z * list Z * list Z) : res (ppump * Z * list Z * list Z * list Z) :=
  let '(p, sh, pred, nonz, out) := st in
  do (sh, p) <- (if (i mod 3 =? 2)%nat then do (v, p) <- get_bits pana_ops 2 p; Ok (Z.shiftr 4 (3 - v), p) else Ok (sh, p));
  do nz <- get nonz (i mod 2);
  do pr <- get pred (i mod 2);
  do (pr, nz, p) <- (if negb (nz =? 0) then
      do (j, p) <- get_bits pana_ops 8 p;
      if negb (j =? 0) then
        do pr <- i32 (pr - Z.shiftl 128 sh);
        let pr := if (pr <? 0) || (sh =? 4) then Z.land pr (Z.lnot (Z.shiftl (-1) sh)) else pr in
        do pr <- i32 (pr + Z.shiftl j sh);
        Ok (pr, nz, p)
      else Ok (pr, nz, p)
    else
      do (nz, p) <- get_bits pana_ops 8 p;
      if negb (nz =? 0) || (11 <? i)%nat then
        do (v, p) <- get_bits pana_ops 4 p;
        Ok (Z.lor (Z.shiftl nz 4) v, nz, p)
      else Ok (pr, nz, p));
  do nonz <- put nonz (i mod 2) nz;
  do pred <- put pred (i mod 2) pr;
  Ok (p, sh, pred, nonz, out ++ [wrap_u16 pr]).
(** a packet of 14 pixels, v4decompressor.rs:19-44 *)
Definition v4_packet (st : ppump * Z * list Z) : res (ppump * Z * list Z) :=
  let '(p, sh, out) := st in
  do (p, sh, _, _, out) <- for_each (seq 0 14) v4_pixel (p, sh, [0; 0], [0; 0], out);
  Ok (p, sh, out).
(** the closure v4decompressor.rs:9-46; [len] is the length of the strip, of
    which the pixels after the last whole packet are left alone *)
Definition v4_strip (buf : list Z) (split : bool) (width row len : nat) : res (list Z) :=
  let skip := Z.of_nat ((width * row * 9 + width / 14 * 2 * row) / 8) in
  let blocks := skip / 16384 in
  do src <- slice buf (Z.to_nat (blocks * 16384)) (length buf);
  do p <- for_each (seq 0 (Z.to_nat (skip mod 16384))) (fun _ p => do (_, p) <- get_bits pana_ops 8 p; Ok p) (ppump_new src split);
  do (_, _, out) <- for_each (seq 0 (len / 14)) (fun _ st => v4_packet st) (p, 0, []);
  Ok (out ++ repeat 0 (len mod 14)).
(** decode_panasonic_v4 v4decompressor.rs:3-49 *)
Definition v4_decode (buf : list Z) (width height : nat) (split : bool) : res (list Z) :=
  do _ <- assert_ (0 <? width)%nat;
  let strip := (width * 5)%nat in
  let total := (width * height)%nat in
  in_turn ((total + strip - 1) / strip) (fun k => v4_strip buf split width (k * 5) (Nat.min strip (total - k * strip))).
