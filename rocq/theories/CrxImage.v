(** Model of a whole CRX (Canon CR3) image: rawler/src/decompressors/crx
    mod.rs (CodecParams), mdat.rs, iquant.rs, the top half of decoder.rs.
    Sizes and offsets read from the header are [Z]; image sizes are [nat]. *)
From Coq Require Import List ZArith Bool.
From Verif Require Import Base Crx Idwt.
Import ListNotations.
Open Scope Z_scope.

(** [iter_mut().enumerate()] with a body that may fail *)
Fixpoint mapi {A B} (f : nat -> A -> res B) (i : nat) (l : list A) : res (list B) :=
  match l with
  | [] => Ok []
  | x :: t => do y <- f i x; do r <- mapi f (S i) t; Ok (y :: r)
  end.

(** ** Parameters *)

(** Cmp1Box, formats/bmff/ext_cr3/cmp1.rs:14-36, the fields used *)
Record cmp1 := mk_cmp1 {
  c_version : Z; c_fw : Z; c_fh : Z; c_tw : Z; c_th : Z; c_bits : Z; c_planes : Z;
  c_enc : Z; c_levels : Z; c_hdr : Z; c_median : Z }.

(** CodecParams, mod.rs:85-112 *)
Record codec := mk_codec {
  k_w : nat; k_h : nat; k_levels : nat; k_median : Z; k_enc : Z; k_cols : nat; k_rows : nat;
  k_tw : nat; k_th : nat; k_hdr : Z; k_version : Z }.

(** INCR_BIT_TABLE, mod.rs:140 *)
Definition INCR_BIT : list Z := [0; 0; 0; 0; 0; 0; 0; 0; 0; 1; 1; 0; 0; 0; 1; 0].

Definition u8 (z : Z) : res Z := if (0 <=? z) && (z <? 256) then Ok z else Panic.

(** CodecParams::new, mod.rs:139-187 *)
Definition codec_new (c : cmp1) : res codec :=
  if negb (c_planes c =? 4) then Err else
  do _ <- assert_ (negb (c_tw c =? 0)); do _ <- assert_ (negb (c_th c =? 0));
  let cols := (c_fw c + c_tw c - 1) / c_tw c in
  let rows := (c_fh c + c_th c - 1) / c_th c in
  do _ <- assert_ (0 <? cols); do _ <- assert_ (0 <? rows);
  do incr <- get INCR_BIT (Z.to_nat (4 * c_enc c + 2));
  do p <- u8 (c_bits c + incr); do _ <- u8 (p + 1);
  do s <- u8 (3 * c_levels c); do _ <- u8 (s + 1);
  if 255 <? cols then Err else if 255 <? rows then Err else
  Ok (mk_codec (Z.to_nat (c_fw c)) (Z.to_nat (c_fh c)) (Z.to_nat (c_levels c)) (c_median c) (c_enc c)
        (Z.to_nat cols) (Z.to_nat rows) (Z.to_nat (c_tw c)) (Z.to_nat (c_th c)) (c_hdr c) (c_version c)).

(** ** Header of the image data *)

(** Subband, mdat.rs:193-245 *)
Record subband := mk_sub {
  sb_size : Z; sb_partial : bool; sb_q : Z; sb_base : Z; sb_mult : Z; sb_off : Z; sb_data : Z;
  sb_w : nat; sb_h : nat; sb_r0 : nat; sb_r1 : nat; sb_c0 : nat; sb_c1 : nat; sb_shift : Z }.
(** Plane, mdat.rs:131-152 *)
Record planeh := mk_pl { pl_size : Z; pl_partial : bool; pl_mask : Z; pl_off : Z; pl_bands : list subband }.
(** QStep, iquant.rs:22-30 *)
Record qstep := mk_qs { qs_w : nat; qs_tbl : list Z }.
(** Tile, mdat.rs:13-39; [ti_qp]: mdat_qp_data_size and mdat_extra_size *)
Record tileh := mk_ti {
  ti_size : Z; ti_qp : option (Z * Z); ti_off : Z; ti_pw : nat; ti_ph : nat; ti_nb : nbrs;
  ti_planes : list planeh; ti_steps : option (list qstep) }.

Definition set_bands (bs : list subband) (p : planeh) : planeh := mk_pl (pl_size p) (pl_partial p) (pl_mask p) (pl_off p) bs.
Definition set_planes (ps : list planeh) (t : tileh) : tileh :=
  mk_ti (ti_size t) (ti_qp t) (ti_off t) (ti_pw t) (ti_ph t) (ti_nb t) ps (ti_steps t).
Definition set_geom (pw ph : nat) (nb : nbrs) (t : tileh) : tileh :=
  mk_ti (ti_size t) (ti_qp t) (ti_off t) pw ph nb (ti_planes t) (ti_steps t).
Definition set_steps (s : option (list qstep)) (t : tileh) : tileh :=
  mk_ti (ti_size t) (ti_qp t) (ti_off t) (ti_pw t) (ti_ph t) (ti_nb t) (ti_planes t) s.

(** read_u16/u32::<BigEndian> on a cursor: the value and the bytes after it *)
Definition rd16 (l : list Z) : res (Z * list Z) :=
  match l with a :: b :: r => Ok (a * 256 + b, r) | _ => Err end.
Definition rd32 (l : list Z) : res (Z * list Z) :=
  do (a, l) <- rd16 l; do (b, l) <- rd16 l; Ok (a * 65536 + b, l).

(** Tile::new, mdat.rs:42-86 *)
Definition tile_new (l : list Z) (off : Z) : res (tileh * list Z) :=
  do (size, l) <- rd16 l;
  do (tsize, l) <- rd32 l;
  do (flags, l) <- rd32 l;
  let tail := Z.land flags 0xFFFF in
  do (qp, l) <-
    (if size =? 16 then
       do (q, l) <- rd32 l; do (x, l) <- rd16 l; do (term, l) <- rd16 l;
       do _ <- assert_ (term =? 0); Ok (Some (q, x), l)
     else Ok (None, l));
  do _ <- assert_ (((size =? 8) && (tail =? 0)) || ((size =? 16) && (tail =? 0x4000)));
  Ok (mk_ti tsize qp off 0 0 (mk_nbrs false false false false) [] None, l).

(** Plane::new, mdat.rs:155-184 *)
Definition plane_new (l : list Z) (off : Z) : res (planeh * list Z) :=
  do (size, l) <- rd16 l;
  do (psize, l) <- rd32 l;
  do (flags, l) <- rd32 l;
  let rb := Z.land (Z.shiftr flags 25) 3 in
  do _ <- assert_ (Z.land flags 0xFFFFFF =? 0);
  Ok (mk_pl psize (negb (Z.land flags 0x8000000 =? 0)) (if rb =? 0 then 0 else Z.shiftl 1 (rb - 1)) off [], l).

(** read_i32 *)
Definition as_i32 (v : Z) : Z := if v <? 2 ^ 31 then v else v - 2 ^ 32.

(** Subband::new, mdat.rs:248-317; the counter is not used *)
Definition subband_new (l : list Z) (ind off : Z) : res (subband * list Z) :=
  do (size, l) <- rd16 l;
  do _ <- assert_ (((size =? 8) && (ind =? 0xFF03)) || ((size =? 16) && (ind =? 0xFF13)));
  do (bsize, l) <- rd32 l;
  if ind =? 0xFF03 then
    do (flags, l) <- rd32 l;
    do data <- u32 (bsize - Z.land flags 0x7FFFF);
    Ok (mk_sub bsize (negb (Z.land flags 0x8000000 =? 0)) (Z.land (Z.shiftr flags 19) 0xFF) 0 0 off data 0 0 0 0 0 0 0, l)
  else if ind =? 0xFF13 then
    do (_, l) <- rd16 l;
    do (mult, l) <- rd16 l;
    do (base, l) <- rd32 l;
    do (unused, l) <- rd16 l;
    do (term, l) <- rd16 l;
    do _ <- assert_ (term =? 0);
    do data <- u32 (bsize - unused);
    Ok (mk_sub bsize false 0 (as_i32 base) mult off data 0 0 0 0 0 0 0, l)
  else Err.

(** The innermost loop of parse_header, mdat.rs:387-401: the bands, the
    indicator after them and the bytes after it *)
Fixpoint parse_bands (fuel : nat) (ind : Z) (l : list Z) (off : Z) : res (list subband * Z * list Z) :=
  if (ind =? 0xFF03) || (ind =? 0xFF13) then
    match fuel with
    | O => Err
    | S fuel =>
      do (b, l) <- subband_new l ind off;
      let '(ind, l) := match rd16 l with Ok (ind, l) => (ind, l) | _ => (0, []) end in
      do (r, ind, l) <- parse_bands fuel ind l (off + sb_size b);
      Ok (b :: r, ind, l)
    end
  else Ok ([], ind, l).

(** The loop over planes, mdat.rs:382-410 *)
Fixpoint parse_planes (fuel : nat) (ind : Z) (l : list Z) (off : Z) : res (list planeh * Z * list Z) :=
  if (ind =? 0xFF02) || (ind =? 0xFF12) then
    match fuel with
    | O => Err
    | S fuel =>
      do (p, l) <- plane_new l off;
      do (ind, l) <- rd16 l;
      do (bs, ind, l) <- parse_bands (S (length l)) ind l 0;
      do (r, ind, l) <- parse_planes fuel ind l (off + pl_size p);
      Ok (set_bands bs p :: r, ind, l)
    end
  else Ok ([], ind, l).

(** The loop over tiles, mdat.rs:376-427 *)
Fixpoint parse_tiles (fuel : nat) (ind : Z) (l : list Z) (off : Z) : res (list tileh) :=
  if (ind =? 0xFF01) || (ind =? 0xFF11) then
    match fuel with
    | O => Err
    | S fuel =>
      do (t, l) <- tile_new l off;
      do (ind, l) <- rd16 l;
      do (ps, ind, l) <- parse_planes (S (length l)) ind l 0;
      do r <- parse_tiles fuel ind l (off + ti_size t);
      Ok (set_planes ps t :: r)
    end
  else if ind =? 0 then Ok []
  else Err.

(** parse_header, mdat.rs:366-429 *)
Definition parse_header (l : list Z) : res (list tileh) :=
  do (ind, l) <- rd16 l; parse_tiles (S (length l)) ind l 0.

(** ** Geometry *)

(** EX_COEF_NUM_TBL, mod.rs:46-56 *)
Definition EX_COEF : list nat := [
  1; 1; 0; 0; 0; 0; 1; 0; 0; 0; 0; 0; 1; 1; 0; 0; 0; 0; 1; 0; 0; 0; 0; 0;
  1; 1; 0; 0; 0; 0; 1; 0; 0; 0; 0; 0; 1; 1; 0; 0; 0; 0; 1; 0; 0; 0; 0; 0;
  1; 1; 1; 1; 0; 0; 1; 0; 1; 0; 0; 0; 1; 2; 2; 1; 0; 0; 1; 1; 1; 1; 0; 0;
  1; 1; 1; 1; 0; 0; 1; 0; 1; 0; 0; 0; 1; 2; 2; 1; 0; 0; 1; 1; 1; 1; 0; 0;
  1; 1; 1; 1; 1; 1; 1; 0; 1; 0; 1; 0; 1; 2; 2; 2; 2; 1; 1; 1; 1; 2; 2; 1;
  1; 1; 1; 2; 2; 1; 1; 0; 1; 1; 1; 1; 1; 2; 2; 1; 1; 1; 1; 1; 1; 1; 1; 1]%nat.

(** setup_idx, mdat.rs:335-360, together with the new width and height *)
Definition setup_idx (version : Z) (w h level c0 c1 r0 r1 : nat) (b : subband) : subband :=
  let v2 := version =? 0x200 in
  let sel (n : nat) := if v2 then n else O in
  mk_sub (sb_size b) (sb_partial b) (sb_q b) (sb_base b) (sb_mult b) (sb_off b) (sb_data b)
    w h (sel r0) (sel r1) (sel c0) (sel c1) (if v2 then 3 - Z.of_nat level else 0).
Definition set_dims (w h : nat) (b : subband) : subband :=
  mk_sub (sb_size b) (sb_partial b) (sb_q b) (sb_base b) (sb_mult b) (sb_off b) (sb_data b)
    w h (sb_r0 b) (sb_r1 b) (sb_c0 b) (sb_c1 b) (sb_shift b).

Definition upd_band (i : nat) (f : subband -> subband) (bs : list subband) : res (list subband) :=
  do b <- get bs i; put bs i (f b).

(** row_ex_coef[i] and col_ex_coef[i] where there is a neighbour *)
Definition ex_coef (nb : bool) (levels size i : nat) : res nat :=
  if nb then get EX_COEF (48 * (levels - 1) + 6 * (size mod 8) + i) else Ok O.

(** One level of process_subbands, mod.rs:258-316 *)
Definition level_bands (c : codec) (t : tileh) (lev : nat) (s : list subband * nat * nat) : res (list subband * nat * nat) :=
  let '(bs, bw, bh) := s in
  let L := k_levels c in
  let wo := (bw mod 2)%nat in let ho := (bh mod 2)%nat in
  let bw := ((wo + bw) / 2)%nat in let bh := ((ho + bh) / 2)%nat in
  do w0 <- ex_coef (n_right (ti_nb t)) L (ti_pw t) (2 * lev);
  do w1 <- ex_coef (n_right (ti_nb t)) L (ti_pw t) (2 * lev + 1);
  let c0 := if n_left (ti_nb t) then 1%nat else O in
  do h0 <- ex_coef (n_bottom (ti_nb t)) L (ti_ph t) (2 * lev);
  do h1 <- ex_coef (n_bottom (ti_nb t)) L (ti_ph t) (2 * lev + 1);
  let r0 := if n_top (ti_nb t) then 1%nat else O in
  let hw := (bw + (w0 + c0) - wo)%nat in let hh := (bh + (h0 + r0) - ho)%nat in
  let i := ((L - lev) * 3)%nat in
  do bs <- upd_band i (setup_idx (k_version c) hw hh (lev + 1) c0 w0 r0 h0) bs;
  do bs <- upd_band (i - 1) (setup_idx (k_version c) (bw + w1) hh (lev + 1) 0 w1 r0 h0) bs;
  do bs <- upd_band (i - 2) (setup_idx (k_version c) hw (bh + h1) (lev + 1) c0 w0 0 h1) bs;
  Ok (bs, bw, bh).

(** process_subbands for one plane, mod.rs:244-335 *)
Definition process_bands (c : codec) (t : tileh) (bs : list subband) : res (list subband) :=
  let L := k_levels c in
  if (L =? 0)%nat then upd_band 0 (set_dims (ti_pw t) (ti_ph t)) bs
  else
    do _ <- assert_ (48 * (L - 1) + 6 * (ti_pw t mod 8) <=? length EX_COEF)%nat;
    do _ <- assert_ (48 * (L - 1) + 6 * (ti_ph t mod 8) <=? length EX_COEF)%nat;
    do (bs, bw, bh) <- for_each (seq 0 L) (level_bands c t) (bs, ti_pw t, ti_ph t);
    do w1 <- ex_coef (n_right (ti_nb t)) L (ti_pw t) (2 * L - 1);
    do h1 <- ex_coef (n_bottom (ti_nb t)) L (ti_ph t) (2 * L - 1);
    upd_band 0 (setup_idx (k_version c) (w1 + bw) (h1 + bh) L 0 w1 0 h1) bs.

(** Size and neighbours of tile [id], mod.rs:194-229 *)
Definition tile_geom (c : codec) (count id : nat) (t : tileh) : res tileh :=
  let last_col := ((id + 1) mod k_cols c =? 0)%nat in
  do tw <- (if last_col then usub (k_w c) (k_tw c * (k_cols c - 1)) else Ok (k_tw c));
  let many := (1 <? k_cols c)%nat in
  let right := negb last_col && many in
  let left := if last_col then many else many && negb (id mod k_cols c =? 0)%nat in
  do lim <- usub count (k_cols c);
  let upper := (id <? lim)%nat in
  do th <- (if upper then Ok (k_th c) else usub (k_h c) (k_th c * (k_rows c - 1)));
  let many := (1 <? k_rows c)%nat in
  let bottom := upper && many in
  let top := if upper then many && (k_cols c <=? id)%nat else many in
  Ok (set_geom (tw / 2) (th / 2) (mk_nbrs top bottom left right) t).

Definition zsum (l : list Z) : Z := fold_right Z.add 0 l.

Definition extra_size (t : tileh) : Z := match ti_qp t with Some (q, x) => q + x | None => 0 end.

(** The second loop of process_tiles, mod.rs:231-240 *)
Definition tile_bands (c : codec) (t : tileh) : res tileh :=
  do ps <- mapi (fun _ p => do bs <- process_bands c t (pl_bands p); Ok (set_bands bs p)) 0 (ti_planes t);
  do _ <- mapi (fun _ p =>
    do _ <- mapi (fun _ b => do _ <- assert_ (negb (sb_size b =? 0)); assert_ (sb_size b mod 8 =? 0)) 0 (pl_bands p);
    assert_ (pl_size p =? zsum (map sb_size (pl_bands p)))) 0 ps;
  do _ <- assert_ (extra_size t <=? ti_size t);
  do _ <- assert_ (ti_size t - extra_size t =? zsum (map pl_size ps));
  Ok (set_planes ps t).

(** process_tiles, mod.rs:190-241 *)
Definition process_tiles (c : codec) (ts : list tileh) : res (list tileh) :=
  do ts <- mapi (tile_geom c (length ts)) 0 ts;
  mapi (fun _ t => tile_bands c t) 0 ts.

(** ** Quantization *)

(** Q_STEP_TBL, iquant.rs:20 *)
Definition Q_STEP : list Z := [0x28; 0x2D; 0x33; 0x39; 0x40; 0x48].

(** predict_qp_symbol, iquant.rs:121-130 *)
Definition predict_qp (left top dh dv : Z) : res Z :=
  if xorb (dv <? 0) (dh <? 0) then Ok (if xorb (left <? top) (dh <? 0) then top else left)
  else i32 (left + dh).

(** adaptive_rice_decode(…, 23, 8, k_max) *)
Definition qp_symbol (k : nat) (bits : list bool) : res (Z * list bool) := rice_decode 23 8 k bits.

(** The first row of QPs, iquant.rs:262-270: the values, most recent first *)
Fixpoint qp_top (n : nat) (a : Z) (k : nat) (bits : list bool) : res (list Z * nat * list bool) :=
  match n with
  | O => Ok ([], k, bits)
  | S n =>
    do (q, bits) <- qp_symbol k bits;
    do k <- predict_k k q 7;
    do x <- i32 (a + error_code_signed q);
    do (r, k, bits) <- qp_top n x k bits;
    Ok (x :: r, k, bits)
  end.

(** The other rows, iquant.rs:277-294; [up] holds line_buf[0] from c on *)
Fixpoint qp_next (n : nat) (up : list Z) (a dh : Z) (k : nat) (bits : list bool) : res (list Z * nat * list bool) :=
  match n with
  | O => Ok ([], k, bits)
  | S n =>
    do c <- get up 0; do b <- get up 1; do d <- get up 2;
    do dv <- i32 (c - a);
    do x <- predict_qp a b dh dv;
    do (q, bits) <- qp_symbol k bits;
    do x <- i32 (x + error_code_signed q);
    do (dh, k) <-
      (if (0 <? n)%nat then
         do dh <- i32 (d - b); do m <- u32 (2 * Z.abs dh); do s <- u32 (q + m);
         do k <- predict_k k (Z.shiftr s 1) 7; Ok (dh, k)
       else do k <- predict_k k q 7; Ok (dh, k));
    do (r, k, bits) <- qp_next n (skipn 1 up) x dh k bits;
    Ok (x :: r, k, bits)
  end.

(** The QP rows, iquant.rs:256-304; a line keeps its samples between the
    coefficient before them and the one after them *)
Fixpoint qp_rows (n w : nat) (prev : option (list Z)) (k : nat) (bits : list bool) : res (list (list Z)) :=
  match n with
  | O => Ok []
  | S n =>
    do (a, row, k, bits) <-
      match prev with
      | None => do (r, k, bits) <- qp_top w 0 k bits; Ok (0, r, k, bits)
      | Some up =>
        do a <- get up 1; do c <- get up 0; do dh <- i32 (a - c);
        do (r, k, bits) <- qp_next w up a dh k bits; Ok (a, r, k, bits)
      end;
    do e <- i32 (last row a + 1);
    do q <- mapi (fun _ v => i32 (v + 4)) 0 row;
    do r <- qp_rows n w (Some (a :: row ++ [e])) k bits;
    Ok (q :: r)
  end.

(** q_lookup, iquant.rs:141-160 ([quant_val as usize % 6] of a negative value
    is a huge index); Rust division truncates *)
Definition q_lookup (v : Z) : res Z :=
  let i := if v <? 0 then v + 2 ^ 64 else v in
  do t <- get Q_STEP (Z.to_nat (i mod 6));
  let e := Z.quot v 6 in
  if 6 <=? e then Ok (wrap_u32 (Z.shiftl t ((e + 26) mod 32)))
  else do s <- i32 (6 - e); if s <? 32 then Ok (Z.shiftr t s) else Panic.

(** The table of one level, iquant.rs:163-222: rows [step * r + j] averaged,
    the last row repeated *)
Definition qstep_level (w h qh step : nat) (qp : list (list Z)) : res qstep :=
  do rows <- mapi (fun _ r =>
    mapi (fun _ col =>
      do vs <- mapi (fun _ j => do row <- get qp (Nat.min (step * r + j) (qh - 1)); get row col) 0 (seq 0 step);
      do s <- for_each vs (fun v s => i32 (s + v)) 0;
      do s <- (if (step =? 4)%nat && (s <? 0) then i32 (s + 3) else Ok s);
      q_lookup (Z.quot s (Z.of_nat step))) 0 (seq 0 w)) 0 (seq 0 h);
  Ok (mk_qs w (concat rows)).

(** make_qstep, iquant.rs:133-226 *)
Definition make_qstep (levels pw ph : nat) (qp : list (list Z)) : res (list qstep) :=
  do _ <- assert_ ((levels <=? 3) && (0 <? levels))%nat;
  let w := ((pw + 7) / 8)%nat in
  let qh := ((ph + 1) / 2)%nat in
  do l3 <- (if (3 <=? levels)%nat then do q <- qstep_level w ((ph + 7) / 8) qh 4 qp; Ok [q] else Ok []);
  do l2 <- (if (2 <=? levels)%nat then do q <- qstep_level w ((ph + 3) / 4) qh 2 qp; Ok [q] else Ok []);
  do l1 <- qstep_level w qh qh 1 qp;
  Ok (l3 ++ l2 ++ [l1]).

(** generate_qstep_table, iquant.rs:228-316 *)
Definition generate_qstep (c : codec) (data : list Z) (t : tileh) : res tileh :=
  match ti_qp t with
  | None => Ok t
  | Some (q, _) =>
    do buf <- slice data (Z.to_nat (ti_off t)) (Z.to_nat (ti_off t + q));
    do qp <- qp_rows ((ti_ph t + 1) / 2) ((ti_pw t + 7) / 8) None 0 (byte_bits buf);
    do s <- make_qstep (k_levels c) (ti_pw t) (ti_ph t) qp;
    Ok (set_steps (Some s) t)
  end.

(** ** Bands *)

(** A band while it is decoded: its header, its decoder state, its steps. *)
Record src := mk_src { s_hdr : subband; s_band : band; s_step : option qstep }.

Definition set_cur_line (l : list Z) (p : band) : band :=
  mk_band (b_w p) (b_h p) (b_mask p) (b_rbits p) (b_line p) (b_prev p) l (b_lk p) (b_s p) (b_k p) (b_partial p) (b_q p) (b_bits p).

(** get_subband_row, mdat.rs:325-333 *)
Definition subband_row (b : subband) (row : nat) : res nat :=
  if (row <? sb_r0 b)%nat then Ok O else
  do e <- usub (sb_h b) (sb_r1 b);
  if (row <? e)%nat then usub row (sb_r1 b)
  else do e <- usub e (sb_r0 b); usub e 1.

(** The factor of column [i] with a table, iquant.rs:78-98; [tbl] starts at
    the row *)
Definition step_factor (b : subband) (tbl : list Z) (i : nat) : res Z :=
  do e <- usub (sb_w b) (sb_c1 b);
  do m <- usub e (sb_c0 b); do m <- usub m 1;
  do _ <- assert_ (0 <=? sb_shift b);
  let sh := Z.to_nat (sb_shift b) in
  let idx := if (i <? sb_c0 b)%nat then O else if (i <? e)%nat then ((i - sb_c0 b) / 2 ^ sh)%nat else (m / 2 ^ sh)%nat in
  do v <- get tbl idx;
  do p <- u32 (v * sb_mult b);
  do f <- i32 (sb_base b + Z.shiftr p 3);
  Ok (Z.min (Z.max f 1) 0x168000).

(** q_scale, iquant.rs:103-107 *)
Definition q_scale (q : Z) : res Z :=
  do t <- get Q_STEP (Z.to_nat (q mod 6));
  if 6 <=? q / 6 then Panic else Ok (Z.shiftr t (6 - q / 6)).

(** param.decoded_buf_mut()[i] *= f *)
Definition scale_at (fac : nat -> res Z) (i : nat) (cur : list Z) : res (list Z) :=
  do f <- fac i; do x <- get cur (1 + i); do y <- i32 (x * f); put cur (1 + i) y.

(** decode_line_with_iquantization, iquant.rs:60-117 *)
Definition next_line (s : src) : res (list Z * src) :=
  let b := s_hdr s in
  if sb_data b =? 0 then Ok ([], s) else
  do _ <- assert_ (negb (sb_partial b && match s_step s with None => true | _ => false end));
  do p <- decode_line (s_band s);
  do cur <-
    match s_step s with
    | Some q =>
      do row <- usub (b_line p) 1;
      do r <- subband_row b row;
      do _ <- assert_ (qs_w q * r <=? length (qs_tbl q))%nat;
      for_each (seq 0 (sb_w b)) (scale_at (step_factor b (skipn (qs_w q * r) (qs_tbl q)))) (b_cur p)
    | None =>
      do f <- q_scale (b_q p);
      if f =? 1 then Ok (b_cur p) else for_each (seq 0 (sb_w b)) (scale_at (fun _ => Ok f)) (b_cur p)
    end;
  let p := set_cur_line cur p in
  do l <- decoded_buf p;
  Ok (l, mk_src b p (s_step s)).

(** ** Planes *)

(** The bands of a plane, decoder.rs:43-76; [base]: plane_mdat_offset *)
Definition band_src (p : planeh) (data : list Z) (base : Z) (i : nat) (b : subband) : res band :=
  let o := base + sb_off b in
  do buf <- slice data (Z.to_nat o) (Z.to_nat (o + sb_data b));
  let ll := pl_partial p && (i =? 0)%nat in
  Ok (band_new (sb_w b) (sb_h b) (if ll then pl_mask p else 0) ll (sb_q b) buf).

(** The transforms of decoder.rs:78-92 above the band LL, [n] of [L] levels *)
Fixpoint plane_stack (t : tileh) (bs : list subband) (srcs : list band) (L n : nat) : res (stk src) :=
  let step l := match ti_steps t with None => Ok None | Some q => do q <- get q l; Ok (Some q) end in
  match n with
  | O =>
    do b <- get bs 0; do s <- get srcs 0; do q <- step O;
    Ok (LL (mk_src b s q))
  | S l =>
    let i := (3 * l)%nat in
    do (h, w) <-
      (if (L - 1 <=? l)%nat then Ok (ti_ph t, ti_pw t)
       else do b <- get bs (i + 4); do c <- get bs (i + 5); Ok (sb_h b, sb_w c));
    do q <- step l;
    do b1 <- get bs (i + 1); do s1 <- get srcs (i + 1);
    do b2 <- get bs (i + 2); do s2 <- get srcs (i + 2);
    do b3 <- get bs (i + 3); do s3 <- get srcs (i + 3);
    do below <- plane_stack t bs srcs L l;
    Ok (Lev (wt_new h w) (mk_src b1 s1 q) (mk_src b2 s2 q) (mk_src b3 s3 q) below)
  end.

(** decode_full_plane, decoder.rs:36-164.  The checks that a line is as wide
    as the plane are left out: it is by construction. *)
Definition decode_plane (c : codec) (t : tileh) (p : planeh) (data : list Z) : res (list (list Z)) :=
  do _ <- assert_ (0 <? ti_ph t)%nat; do _ <- assert_ (0 <? ti_pw t)%nat;
  let base := ti_off t + extra_size t + pl_off p in
  do srcs <- mapi (band_src p data base) 0 (pl_bands p);
  if (k_levels c =? 0)%nat then
    do _ <- assert_ (length (pl_bands p) =? 1)%nat;
    do s <- get srcs 0;
    do (rows, _) <- decode_lines (ti_ph t) s; Ok rows
  else
    do s <- plane_stack t (pl_bands p) srcs (k_levels c) (k_levels c);
    plane_decode src next_line (ti_nb t) (ti_ph t) s.

(** ** The image *)

(** constrain(v, 0, max) as u16 *)
Definition constrain16 (v max : Z) : Z := wrap_u16 (Z.min (Z.max v 0) max).

(** 1 << n as i32, [n] a u8 *)
Definition shl1 (n : Z) : res Z := if (0 <=? n) && (n <? 32) then Ok (wrap_i32 (2 ^ n)) else Panic.

(** The samples of the four planes at one position, decoder.rs:678-703 *)
Definition convert0 (median max : Z) (v : Z * Z * Z * Z) : res (Z * Z * Z * Z) :=
  let '(v0, v1, v2, v3) := v in
  do a <- i32 (median + v0); do b <- i32 (median + v1); do c <- i32 (median + v2); do d <- i32 (median + v3);
  Ok (constrain16 a max, constrain16 b max, constrain16 c max, constrain16 d max).
Definition convert3 (median max : Z) (v : Z * Z * Z * Z) : res (Z * Z * Z * Z) :=
  let '(v0, v1, v2, v3) := v in
  let s0 := wrap_i32 (v0 * 1024) in
  do m <- i32 (median + s0);
  do a <- i32 (168 * v1); do a <- i32 (m - a); do b <- i32 (585 * v3); do gr <- i32 (a - b);
  do ab <- i32 (Z.abs gr); do ab <- i32 (ab + 512);
  let g := Z.land (Z.shiftr ab 9) (-2) in
  let gr := if gr <? 0 then - g else g in
  do a <- i32 (1510 * v3); do a <- i32 (m + a); do p0 <- i32 (a + 512);
  do a <- i32 (v2 + gr); do p1 <- i32 (a + 1);
  do a <- i32 (gr - v2); do p2 <- i32 (a + 1);
  do a <- i32 (1927 * v1); do a <- i32 (m + a); do p3 <- i32 (a + 512);
  Ok (constrain16 (Z.shiftr p0 10) max, constrain16 (Z.shiftr p1 1) max,
      constrain16 (Z.shiftr p2 1) max, constrain16 (Z.shiftr p3 10) max).

(** izip! *)
Fixpoint zip4 {A} (a b c d : list A) : list (A * A * A * A) :=
  match a, b, c, d with
  | x :: a, y :: b, z :: c, u :: d => (x, y, z, u) :: zip4 a b c d
  | _, _, _, _ => []
  end.

(** convert_plane_line, decoder.rs:663-711.  The four lines of a row have the
    same length. *)
Definition convert_line (c : codec) (l0 l1 l2 l3 : list Z) : res (list (Z * Z * Z * Z)) :=
  if k_enc c =? 0 then
    do m <- u8 (k_median c - 1); do med <- shl1 m;
    do t <- shl1 (k_median c); do max <- i32 (t - 1);
    mapi (fun _ => convert0 med max) 0 (zip4 l0 l1 l2 l3)
  else if k_enc c =? 3 then
    do m <- u8 (k_median c - 1); do med <- shl1 m;
    do t <- shl1 (k_median c); do max <- i32 (t - 1);
    mapi (fun _ => convert3 (wrap_i32 (med * 1024)) max) 0 (zip4 l0 l1 l2 l3)
  else Err.

(** integrate_cfa, decoder.rs:713-757 *)
Definition integrate_cfa (c : codec) (pw id plane row : nat) (buf : list Z) (cfa : list Z) : res (list Z) :=
  do _ <- assert_ (negb (length buf =? 0)%nat); do _ <- assert_ (negb (length cfa =? 0)%nat);
  let ro := (id / k_cols c * k_tw c)%nat in
  let co := (id mod k_cols c * k_tw c)%nat in
  let y := (ro + row * 2 + plane / 2)%nat in
  for_each (seq 0 pw) (fun i cfa =>
    let x := (co + i * 2 + plane mod 2)%nat in
    do v <- get buf i; put cfa (y * k_w c + x) v) cfa.

(** One row of the four planes, decoder.rs:203-209 *)
Definition put_row (c : codec) (pw id : nat) (cfa : list Z) (row : nat) (l : list Z * list Z * list Z * list Z) : res (list Z) :=
  let '(l0, l1, l2, l3) := l in
  do r <- convert_line c l0 l1 l2 l3;
  do cfa <- integrate_cfa c pw id 0 row (map (fun '(a, _, _, _) => a) r) cfa;
  do cfa <- integrate_cfa c pw id 1 row (map (fun '(_, a, _, _) => a) r) cfa;
  do cfa <- integrate_cfa c pw id 2 row (map (fun '(_, _, a, _) => a) r) cfa;
  integrate_cfa c pw id 3 row (map (fun '(_, _, _, a) => a) r) cfa.

Fixpoint put_rows (c : codec) (pw id row : nat) (ls : list (list Z * list Z * list Z * list Z)) (cfa : list Z) : res (list Z) :=
  match ls with
  | [] => Ok cfa
  | l :: t => do cfa <- put_row c pw id cfa row l; put_rows c pw id (S row) t cfa
  end.

Definition put_tile (c : codec) (pw id : nat) (planes : list (list (list Z))) (cfa : list Z) : res (list Z) :=
  match planes with
  | [p0; p1; p2; p3] => put_rows c pw id 0 (zip4 p0 p1 p2 p3) cfa
  | _ => Panic
  end.

Fixpoint put_tiles (c : codec) (id : nat) (ts : list (nat * list (list (list Z)))) (cfa : list Z) : res (list Z) :=
  match ts with
  | [] => Ok cfa
  | (pw, ps) :: t => do cfa <- put_tile c pw id ps cfa; put_tiles c (S id) t cfa
  end.

(** decode, decoder.rs:166-215.  The planes are decoded in parallel there; they
    share nothing that is written.  With several failing planes the reported
    one may differ. *)
Definition crx_decode (c : codec) (mdat : list Z) : res (list Z) :=
  do hdr <- slice mdat 0 (Z.to_nat (k_hdr c));
  do ts <- parse_header hdr;
  do ts <- process_tiles c ts;
  do data <- slice mdat (Z.to_nat (k_hdr c)) (length mdat);
  do ts <- mapi (fun _ => generate_qstep c data) 0 ts;
  do bufs <- mapi (fun _ t => do ps <- mapi (fun _ p => decode_plane c t p data) 0 (ti_planes t); Ok (ti_pw t, ps)) 0 ts;
  put_tiles c 0 bufs (repeat 0 (k_w c * k_h c)).

(** decompress_crx_image, mod.rs:421-426 *)
Definition decompress_crx (mdat : list Z) (c : cmp1) : res (list Z) :=
  do k <- codec_new c; crx_decode k mdat.
