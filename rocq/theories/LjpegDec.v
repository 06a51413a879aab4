(** Model of the lossless JPEG decoder: rawler/src/decompressors/ljpeg/mod.rs,
    huffman.rs and decode_ljpeg of decompressors.rs. *)
From Coq Require Import List ZArith Bool.
From Verif Require Import Base Pumps.
Import ListNotations.
Open Scope Z_scope.

(** ** HuffTable (huffman.rs) *)

(** huffman.rs:6-52.  [ht_table] is the field hufftable.  The decodecache
    array is not stored: its entry is the pure function [cache_entry] below. *)
Record hufft := mk_ht {
  ht_dng_bug : bool; ht_nbits : nat; ht_table : list (nat * nat * nat) }.

(** huffman.rs:86-99 (HuffTable::empty: nbits 0, empty table) *)
Definition ht_empty : hufft := mk_ht false 0 [].

(** huffman.rs:120-126: longest code length with a non-zero count. *)
Fixpoint max_len (bits : list nat) (n : nat) : nat :=
  match n with
  | O => O
  | S n' => if (nth n bits 0 =? 0)%nat then max_len bits n' else n
  end.

(** code lengths in table order, huffman.rs:132-134 *)
Definition code_sizes (bits : list nat) (nbits : nat) : list nat :=
  flat_map (fun len => repeat (S len) (nth (S len) bits 0%nat)) (seq 0 nbits).

(** huffman.rs:130-142: [pos] indexes huffval/shiftval. *)
Fixpoint fill_hufftable (nbits pos : nat) (sizes : list nat) (huffval shiftval : list nat)
  : res (list (nat * nat * nat)) :=
  match sizes with
  | [] => Ok []
  | s :: t =>
    do v <- get huffval pos;
    do sh <- get shiftval pos;
    do r <- fill_hufftable nbits (S pos) t huffval shiftval;
    Ok (repeat (s, v mod 256, sh mod 256)%nat (2 ^ (nbits - s)) ++ r)
  end.

(** huff_len huffman.rs:194-199 *)
Definition huff_len {P} (o : pump_ops P) (t : hufft) (p : P) : res ((nat * nat * nat) * P) :=
  do (code, p1) <- peek_bits o (ht_nbits t) p;
  do e <- get (ht_table t) (Z.to_nat code);
  do p2 <- consume_bits o (fst (fst e)) p1;
  Ok (e, p2).

(** huff_diff huffman.rs:210-233 *)
Definition huff_diff {P} (o : pump_ops P) (t : hufft) (e : nat * nat * nat) (p : P) : res (Z * P) :=
  let '(_, len, shift) := e in
  if (len =? 0)%nat then Ok (0, p)
  else if (len =? 16)%nat then
    (if ht_dng_bug t then do (_, p1) <- get_bits o 16 p; Ok (-32768, p1)
     else Ok (-32768, p))
  else
    let fulllen := (len + shift)%nat in
    do (bits, p1) <- get_bits o len p;
    do _ <- assert_ (fulllen <=? 32)%nat;
    do _ <- assert_ (shift <? 32)%nat;
    let d0 := Z.shiftr (wrap_i32 (Z.shiftl (wrap_i32 (wrap_i32 (Z.shiftl bits 1) + 1)) (Z.of_nat shift))) 1 in
    if Z.land d0 (Z.shiftl 1 (Z.of_nat (fulllen - 1))) =? 0 then
      do _ <- assert_ (fulllen <? 31)%nat;
      Ok (d0 - (2 ^ Z.of_nat fulllen - (if (shift =? 0)%nat then 1 else 0)), p1)
    else Ok (d0, p1).

(** huff_decode_slow huffman.rs:188-191; the sum is a u8 *)
Definition huff_decode_slow {P} (o : pump_ops P) (t : hufft) (p : P) : res ((nat * Z) * P) :=
  do (e, p1) <- huff_len o t p;
  let bits := (fst (fst e) + snd (fst e))%nat in
  do _ <- assert_ (bits <? 256)%nat;
  do (d, p2) <- huff_diff o t e p1;
  Ok ((bits, d), p2).

Definition CACHE_BITS : nat := 13.

(** One entry of the decode cache, huffman.rs:147-160 *)
Definition cache_entry (t : hufft) (i : Z) : res (option (nat * Z)) :=
  do p <- mock_set i CACHE_BITS;
  do ((bits, decode), p') <- huff_decode_slow mock_ops t p;
  Ok (if 0 <=? mock_validbits p' then Some (bits, wrap_i16 decode) else None).

(** HuffTable::new and initialize huffman.rs:101-164 *)
Definition ht_new (bits huffval : list nat) (dng_bug : bool) : res hufft :=
  let nbits := max_len bits 16 in
  do filled <- fill_hufftable nbits 0 (code_sizes bits nbits) huffval (repeat 0%nat 256);
  do _ <- assert_ (length filled <=? 2 ^ nbits)%nat;
  let t := mk_ht dng_bug nbits (filled ++ repeat (0, 0, 0)%nat (2 ^ nbits - length filled)) in
  do _ <- for_each (seq 0 (Z.to_nat 8192)) (fun i _ => do _ <- cache_entry t (Z.of_nat i); Ok tt) tt;
  Ok t.

(** huff_decode huffman.rs:167-185.  An uninitialised table (HuffTable::empty)
    has an all-None cache and an empty table. *)
Definition huff_decode {P} (o : pump_ops P) (t : hufft) (p : P) : res (Z * P) :=
  do (code, p1) <- peek_bits o CACHE_BITS p;
  do ce <- (match ht_table t with [] => Ok None | _ => cache_entry t code end);
  match ce with
  | Some (bits, decode) =>
    if (decode =? -32768) && negb (ht_dng_bug t) then
      do n <- usub bits 16;
      do p2 <- consume_bits o n p1;
      Ok (decode, p2)
    else
      do p2 <- consume_bits o bits p1;
      Ok (decode, p2)
  | None =>
    do ((_, d), p2) <- huff_decode_slow o t p1;
    Ok (d, p2)
  end.

(** ** Header parsing (mod.rs) *)

(** JpegComponentInfo mod.rs:67-79 *)
Record jcomp := mk_jc { jc_id : Z; jc_tbl : nat; jc_super_h : Z; jc_super_v : Z }.

(** SOFInfo mod.rs:81-101 *)
Record sofinfo := mk_sof {
  sof_width : nat; sof_height : nat; sof_cps : nat; sof_precision : nat;
  sof_comps : list jcomp; sof_csfix : bool }.
Definition sof_empty (csfix : bool) : sofinfo := mk_sof 0 0 0 0 [] csfix.

(** component loop of parse_sof mod.rs:120-132 *)
Fixpoint parse_sof_comps (n : nat) (s : bstream) : res (list jcomp * bstream) :=
  match n with
  | O => Ok ([], s)
  | S n' =>
    do (id, s1) <- bs_get_u8 s;
    do (subs, s2) <- bs_get_u8 s1;
    do (_, s3) <- bs_get_u8 s2;
    do (r, s4) <- parse_sof_comps n' s3;
    Ok (mk_jc id 0 (Z.shiftr subs 4) (Z.land subs 15) :: r, s4)
  end.

(** parse_sof mod.rs:103-134.  [self.components.push] appends (a second SOF
    keeps the components of the first). *)
Definition parse_sof (sof : sofinfo) (s : bstream) : res (sofinfo * bstream) :=
  do (hl, s1) <- bs_get_u16 s;
  do (prec, s2) <- bs_get_u8 s1;
  do (h, s3) <- bs_get_u16 s2;
  do (w, s4) <- bs_get_u16 s3;
  do (cps, s5) <- bs_get_u8 s4;
  do _ <- check (prec <=? 16);
  do _ <- check ((1 <=? cps) && (cps <=? 4));
  do _ <- check (hl =? 8 + cps * 3);
  do (comps, s6) <- parse_sof_comps (Z.to_nat cps) s5;
  Ok (mk_sof (Z.to_nat w) (Z.to_nat h) (Z.to_nat cps) (Z.to_nat prec)
        (sof_comps sof ++ comps) (sof_csfix sof), s6).

(** [components.iter_mut().find(|c| c.id == cs)] + assignment, mod.rs:149-157 *)
Fixpoint set_dc_tbl (comps : list jcomp) (cs : Z) (td : nat) : option (list jcomp) :=
  match comps with
  | [] => None
  | c :: t =>
    if jc_id c =? cs then Some (mk_jc (jc_id c) td (jc_super_h c) (jc_super_v c) :: t)
    else match set_dc_tbl t cs td with Some t' => Some (c :: t') | None => None end
  end.

(** component loop of parse_sos mod.rs:145-158; [find] fails before the table
    byte is read, which only matters for the (dropped) error text. *)
Fixpoint parse_sos_comps (n : nat) (i : nat) (csfix : bool) (comps : list jcomp) (s : bstream)
  : res (list jcomp * bstream) :=
  match n with
  | O => Ok (comps, s)
  | S n' =>
    do (readcs, s1) <- bs_get_u8 s;
    let cs := if csfix then Z.of_nat i else readcs in
    do _ <- check (existsb (fun c => jc_id c =? cs) comps);
    do (b, s2) <- bs_get_u8 s1;
    let td := Z.shiftr b 4 in
    do _ <- check (td <=? 3);
    match set_dc_tbl comps cs (Z.to_nat td) with
    | None => Err
    | Some comps' => parse_sos_comps n' (S i) csfix comps' s2
    end
  end.

(** parse_sos mod.rs:136-163 *)
Definition parse_sos (sof : sofinfo) (s : bstream) : res (sofinfo * nat * nat * bstream) :=
  do _ <- check (negb (sof_width sof =? 0)%nat);
  do (_, s1) <- bs_get_u16 s;
  do (n, s2) <- bs_get_u8 s1;
  do _ <- check (Z.of_nat (sof_cps sof) =? n);
  do (comps, s3) <- parse_sos_comps (sof_cps sof) 0 (sof_csfix sof) (sof_comps sof) s2;
  do (pred, s4) <- bs_get_u8 s3;
  do (_, s5) <- bs_get_u8 s4;
  do (pt, s6) <- bs_get_u8 s5;
  Ok (mk_sof (sof_width sof) (sof_height sof) (sof_cps sof) (sof_precision sof) comps (sof_csfix sof),
      Z.to_nat pred, Z.to_nat (Z.land pt 15), s6).

(** get_next_marker mod.rs:252-270 *)
Definition get_next_marker (s : bstream) (allowskip : bool) : res (Z * bstream) :=
  if negb allowskip then
    do (fill, s1) <- bs_get_u8 s;
    do _ <- check (fill =? 255);
    do (mark, s2) <- bs_get_u8 s1;
    do _ <- check (negb ((mark =? 0) || (mark =? 255)));
    Ok (mark, s2)
  else
    do s1 <- skip_to_marker s;
    bs_get_u8 s1.

(** Read [n] bytes. *)
Fixpoint read_bytes (n : nat) (s : bstream) : res (list Z * bstream) :=
  match n with
  | O => Ok ([], s)
  | S n' => do (b, s1) <- bs_get_u8 s; do (r, s2) <- read_bytes n' s1; Ok (b :: r, s2)
  end.

(** One Huffman table slot: init flag, bits[17], huffval[256] (mod.rs:187-189). *)
Record dhtslot := mk_dht { dh_init : bool; dh_bits : list nat; dh_huffval : list nat }.
Definition dht_empty : dhtslot := mk_dht false (repeat 0%nat 17) (repeat 0%nat 256).

(** parse_dht mod.rs:272-311; [length] decreases by at least 17 per round. *)
Fixpoint parse_dht_loop (fuel : nat) (length_ : Z) (slots : list dhtslot) (s : bstream)
  : res (list dhtslot * bstream) :=
  match fuel with
  | O => Panic
  | S fuel' =>
    if length_ <=? 0 then Ok (slots, s) else
    do (b, s1) <- bs_get_u8 s;
    do _ <- check (Z.shiftr b 4 =? 0);
    let th := Z.to_nat (Z.land b 15) in
    do _ <- check (th <=? 3)%nat;
    do (counts, s2) <- read_bytes 16 s1;
    let acc := fold_left Z.add counts 0 in
    do _ <- check (acc <=? 256);
    do _ <- check (negb (length_ <? 1 + 16 + acc));
    do (vals, s3) <- read_bytes (Z.to_nat acc) s2;
    do old <- get slots th;
    let hv := map Z.to_nat vals ++ skipn (length vals) (dh_huffval old) in
    do slots' <- put slots th (mk_dht true (0%nat :: map Z.to_nat counts) hv);
    parse_dht_loop fuel' (length_ - (1 + 16 + acc)) slots' s3
  end.

Definition parse_dht (slots : list dhtslot) (s : bstream) : res (list dhtslot * bstream) :=
  do (l, s1) <- bs_get_u16 s;
  do _ <- assert_ (2 <=? l);
  parse_dht_loop (S (Z.to_nat l)) (l - 2) slots s1.

(** LjpegDecompressor mod.rs:166-173 *)
Record ljdec := mk_ld {
  ld_buffer : list Z; ld_sof : sofinfo; ld_pred : nat; ld_pt : nat; ld_dhts : list hufft }.

(** marker loop of new_full mod.rs:192-215 *)
Fixpoint header_loop (fuel : nat) (sof : sofinfo) (slots : list dhtslot) (s : bstream)
  : res (sofinfo * nat * nat * list dhtslot * bstream) :=
  match fuel with
  | O => Panic
  | S fuel' =>
    do (m, s1) <- get_next_marker s true;
    if m =? 195 then
      do (sof', s2) <- parse_sof sof s1;
      do _ <- check ((10 <=? sof_precision sof') && (sof_precision sof' <=? 16))%nat;
      header_loop fuel' sof' slots s2
    else if m =? 196 then
      do (slots', s2) <- parse_dht slots s1;
      header_loop fuel' sof slots' s2
    else if m =? 218 then
      do (sof', pred, pt, s2) <- parse_sos sof s1;
      Ok (sof', pred, pt, slots, s2)
    else if (m =? 217) || (m =? 219) then Err
    else header_loop fuel' sof slots s1
  end.

(** mod.rs:217-224 *)
Fixpoint build_dhts (slots : list dhtslot) (dng_bug : bool) : res (list hufft) :=
  match slots with
  | [] => Ok []
  | d :: t =>
    do h <- (if dh_init d then ht_new (dh_bits d) (dh_huffval d) dng_bug else Ok ht_empty);
    do r <- build_dhts t dng_bug;
    Ok (h :: r)
  end.

(** LjpegDecompressor::new_full mod.rs:180-250.  Each marker round consumes at
    least two bytes, so [length src] rounds suffice.  [sof.components[0]] is
    accessed for logging (line 228), [&src[offset..]] at the end. *)
Definition ljdec_new_full (src : list Z) (dng_bug csfix : bool) : res ljdec :=
  do (m, s1) <- get_next_marker (mk_bstream src 0) false;
  do _ <- check (m =? 216);
  do (sof, pred, pt, slots, s2) <-
    header_loop (S (length src)) (sof_empty csfix) (repeat dht_empty 4) s1;
  do dhts <- build_dhts slots dng_bug;
  do _ <- get (sof_comps sof) 0;
  do buf <- slice src (b_pos s2) (length src);
  Ok (mk_ld buf sof pred pt dhts).

Definition ljdec_new (src : list Z) : res ljdec := ljdec_new_full src false false.

(** LjpegDecompressor::width/height mod.rs:392-397 *)
Definition ljdec_width (d : ljdec) : nat := (sof_width (ld_sof d) * sof_cps (ld_sof d))%nat.
Definition ljdec_height (d : ljdec) : nat := sof_height (ld_sof d).

(** LjpegDecompressor::components mod.rs:404-406 *)
Definition ljdec_ncomp (d : ljdec) : nat := length (sof_comps (ld_sof d)).

(** ** Scan decoding: decode_ljpeg decompressors.rs:11-95 *)

Definition htable (d : ljdec) (c : nat) : res hufft :=
  do jc <- get (sof_comps (ld_sof d)) c;
  get (ld_dhts d) (jc_tbl jc).

(** prediction decompressors.rs:35-80 *)
Definition decode_pred (pred ncomp stripwidth x row col c : nat) (out : list Z) : res Z :=
  if (col =? x)%nat then
    do r1 <- usub row 1; get out (r1 * stripwidth + x + c)
  else
    let A := do j <- usub col ncomp; get out (row * stripwidth + j + c) in
    let B := do r1 <- usub row 1; get out (r1 * stripwidth + col + c) in
    let C := do r1 <- usub row 1; do j <- usub col ncomp; get out (r1 * stripwidth + j + c) in
    if (row =? 0)%nat then A else
    match pred with
    | 1%nat => A
    | 2%nat => B
    | 3%nat => C
    | 4%nat => do a <- A; do b <- B; do c_ <- C; Ok (a + b - c_)
    | 5%nat => do a <- A; do b <- B; do c_ <- C; Ok (a + Z.shiftr (b - c_) 1)
    | 6%nat => do a <- A; do b <- B; do c_ <- C; Ok (b + Z.shiftr (a - c_) 1)
    | 7%nat => do a <- A; do b <- B; Ok (Z.shiftr (a + b) 1)
    | _ => Panic
    end.

(** [(start..stop).step_by(step)] *)
Definition step_range (start stop step : nat) : list nat :=
  map (fun i => (start + i * step)%nat) (seq 0 ((stop - start + (step - 1)) / step)).

(** one component of one pixel, decompressors.rs:34-84 *)
Definition decode_sample (d : ljdec) (stripwidth x row col c : nat) (st : list Z * jpump)
  : res (list Z * jpump) :=
  let '(out, pump) := st in
  do p <- decode_pred (ld_pred d) (ljdec_ncomp d) stripwidth x row col c out;
  do t <- htable d c;
  do (diff, pump') <- huff_decode jpeg_ops t pump;
  do out' <- put out (row * stripwidth + col + c) (wrap_u16 (p + diff));
  Ok (out', pump').

(** one skipped pixel, decompressors.rs:86-91 *)
Definition skip_pixel (d : ljdec) (pump : jpump) : res jpump :=
  for_each (seq 0 (ljdec_ncomp d))
    (fun c p => do t <- htable d c; do (_, p') <- huff_decode jpeg_ops t p; Ok p') pump.

Definition decode_row (d : ljdec) (stripwidth x width skip_x row : nat) (st : list Z * jpump)
  : res (list Z * jpump) :=
  let ncomp := ljdec_ncomp d in
  let startcol := if (row =? 0)%nat then (x + ncomp)%nat else x in
  do (out, pump) <- for_each (step_range startcol (width + x) ncomp)
     (fun col st => for_each (seq 0 ncomp) (fun c st => decode_sample d stripwidth x row col c st) st) st;
  do pump' <- for_each (seq 0 skip_x) (fun _ p => skip_pixel d p) pump;
  Ok (out, pump').

Definition decode_ljpeg (d : ljdec) (out : list Z) (x stripwidth width height : nat) : res (list Z) :=
  let ncomp := ljdec_ncomp d in
  do _ <- check (negb ((sof_width (ld_sof d) * ncomp <? width)%nat || (sof_height (ld_sof d) <? height)%nat));
  do pr <- usub (sof_precision (ld_sof d)) (ld_pt d);
  do pr1 <- usub pr 1;
  let base := 2 ^ Z.of_nat pr1 in
  do st <- for_each (seq 0 ncomp)
     (fun c '(out, pump) =>
        do t <- htable d c;
        do (diff, pump') <- huff_decode jpeg_ops t pump;
        do out' <- put out (x + c)%nat (wrap_u16 (base + diff));
        Ok (out', pump')) (out, jpump_new (ld_buffer d));
  do skip_x <- usub (sof_width (ld_sof d)) (width / ncomp);
  do (out', _) <- for_each (seq 0 height) (fun row st => decode_row d stripwidth x width skip_x row st) st;
  Ok out'.

(** LjpegDecompressor::decode mod.rs:337-358 for dummy = false.  The 4:2:0,
    4:2:2 and Hasselblad (predictor 8) branches are outside the model and
    are mapped to [Err]. *)
Definition ljdec_decode (d : ljdec) (out : list Z) (x stripwidth width height : nat) : res (list Z) :=
  do c0 <- get (sof_comps (ld_sof d)) 0;
  if (jc_super_h c0 =? 1) && (jc_super_v c0 =? 1) then
    if ((1 <=? ld_pred d) && (ld_pred d <=? 7))%nat then decode_ljpeg d out x stripwidth width height
    else Err
  else Err.

(** [chunks_exact(n)] *)
Fixpoint chunks_exact_fuel {A} (fuel n : nat) (l : list A) : list (list A) :=
  match fuel with
  | O => []
  | S f => if (n <=? length l)%nat then firstn n l :: chunks_exact_fuel f n (skipn n l) else []
  end.
Definition chunks_exact {A} (n : nat) (l : list A) : list (list A) := chunks_exact_fuel (length l) n l.

(** LJpegDecompressor::decompress mod.rs:34-45.  The destination iterator yields
    [nlines] lines of [line_len] samples; the result lists the rows copied
    into the first destination lines.  PixU16::new zero-fills.
    [chunks_exact(0)] panics. *)
Definition ljpeg_decompress (src : list Z) (skip_rows nlines line_len line_width : nat)
  : res (list (list Z)) :=
  do d <- ljdec_new src;
  let w := ljdec_width d in let h := ljdec_height d in
  do pix <- ljdec_decode d (repeat 0 (w * h)) 0 w w h;
  do _ <- assert_ (negb (line_width =? 0)%nat);
  let rows := firstn nlines (skipn skip_rows (chunks_exact line_width pix)) in
  do _ <- assert_ ((length rows =? 0)%nat || (line_len =? line_width)%nat);
  Ok rows.
