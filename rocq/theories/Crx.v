(** Model of the CRX (Canon CR3) entropy decoder: rawler/src/decompressors/crx
    rice.rs, runlength.rs, the line decoders of decoder.rs and BandParam of
    mod.rs.  The bit reader (crate bitstream_io, big endian) is a list of
    bits; reading past the end is an error. *)
From Coq Require Import List ZArith Bool.
From Verif Require Import Base.
Import ListNotations.
Open Scope Z_scope.

(** i32 and u32 arithmetic of a debug build: overflow panics. *)
Definition i32 (z : Z) : res Z := if (- 2 ^ 31 <=? z) && (z <? 2 ^ 31) then Ok z else Panic.
Definition u32 (z : Z) : res Z := if (0 <=? z) && (z <? 2 ^ 32) then Ok z else Panic.

(** ** Bit reader *)

(** BitRead::read_var *)
Definition read_var (n : nat) (bits : list bool) : res (Z * list bool) :=
  if (n <=? length bits)%nat then Ok (peekv n bits, skipn n bits) else Err.

(** BitRead::read_unary::<1>: the number of zero bits before the next one bit,
    which is consumed too *)
Fixpoint read_unary (bits : list bool) : res (Z * list bool) :=
  match bits with
  | [] => Err
  | true :: t => Ok (0, t)
  | false :: t => do (n, r) <- read_unary t; Ok (n + 1, r)
  end.

(** ** Adaptive Golomb-Rice codes, rice.rs *)

(** predict_k_param_max, rice.rs:90-107; [k_max = 0] is no limit *)
Definition predict_k (prev : nat) (value : Z) (k_max : nat) : res nat :=
  do _ <- assert_ (prev <? 32)%nat;
  let new := (prev + (if (2 <? Z.shiftr value (Z.of_nat prev))%Z then 1 else 0)
                   + (if (5 <? Z.shiftr value (Z.of_nat prev))%Z then 1 else 0))%nat in
  do new <- (if value <? Z.shiftr (wrap_u32 (Z.shiftl 1 (Z.of_nat prev))) 1 then usub new 1 else Ok new);
  Ok (if (0 <? k_max)%nat then Nat.min new k_max else new).

(** rice_decode, rice.rs:53-71 *)
Definition rice_decode (escape : Z) (esc_bits k : nat) (bits : list bool) : res (Z * list bool) :=
  do (prefix, r) <- read_unary bits;
  if escape <=? prefix then read_var esc_bits r
  else if (0 <? k)%nat then
    do _ <- assert_ (k <? 32)%nat;
    do (v, r') <- read_var k r;
    Ok (Z.lor (wrap_u32 (Z.shiftl prefix (Z.of_nat k))) v, r')
  else Ok (prefix, r).

(** ** Lines *)

(** The part of BandParam (mod.rs:339-374) that changes while a line is
    decoded: position, line_buf[1], line_k, s_param, K parameter and bits.
    line_buf[0] is the separate argument [prev]. *)
Record lst := mk_lst { l_pos : nat; l_cur : list Z; l_lk : list nat; l_s : nat; l_k : nat; l_bits : list bool }.

Definition set_k (k : nat) (t : lst) : lst := mk_lst (l_pos t) (l_cur t) (l_lk t) (l_s t) k (l_bits t).
Definition set_bits (b : list bool) (t : lst) : lst := mk_lst (l_pos t) (l_cur t) (l_lk t) (l_s t) (l_k t) b.
Definition set_s (s : nat) (t : lst) : lst := mk_lst (l_pos t) (l_cur t) (l_lk t) s (l_k t) (l_bits t).
Definition advance (t : lst) : lst := mk_lst (S (l_pos t)) (l_cur t) (l_lk t) (l_s t) (l_k t) (l_bits t).

(** adaptive_rice_decode with the escape parameters of decoder.rs:20-22 *)
Definition PREDICT_K_MAX : nat := 15.
Definition PREDICT_K_ESCAPE : Z := 41.
Definition PREDICT_K_ESCBITS : nat := 21.
Definition adaptive (adapt : bool) (k_max : nat) (t : lst) : res (Z * lst) :=
  do (v, r) <- rice_decode PREDICT_K_ESCAPE PREDICT_K_ESCBITS (l_k t) (l_bits t);
  do k <- (if adapt then predict_k (l_k t) v k_max else Ok (l_k t));
  Ok (v, set_k k (set_bits r t)).

(** update_k_param, rice.rs:85-88 *)
Definition update_k (v : Z) (k_max : nat) (t : lst) : res lst :=
  do k <- predict_k (l_k t) v k_max; Ok (set_k k t).

(** bitstream_get_bits(1)? == 1 *)
Definition flag (t : lst) : res (bool * lst) :=
  do (v, r) <- read_var 1 (l_bits t); Ok (v =? 1, set_bits r t).

(** coeff_a/b/c/d, mod.rs:376-403 *)
Definition coeff_a (t : lst) : res Z := do i <- usub (l_pos t) 1; get (l_cur t) i.
Definition coeff_b (prev : list Z) (t : lst) : res Z := get prev (l_pos t).
Definition coeff_c (prev : list Z) (t : lst) : res Z := do i <- usub (l_pos t) 1; get prev i.
Definition coeff_d (prev : list Z) (t : lst) : res Z := get prev (l_pos t + 1).

(** p.line_buf[1][p.line_pos] = v *)
Definition store (v : Z) (t : lst) : res lst :=
  do c <- put (l_cur t) (l_pos t) v; Ok (mk_lst (l_pos t) c (l_lk t) (l_s t) (l_k t) (l_bits t)).
(** p.line_k[p.line_pos - 1] = v *)
Definition store_k (v : nat) (t : lst) : res lst :=
  do i <- usub (l_pos t) 1; do c <- put (l_lk t) i v; Ok (mk_lst (l_pos t) (l_cur t) c (l_s t) (l_k t) (l_bits t)).
(** p.line_buf[1][p.line_pos - 1] = v *)
Definition store_a (v : Z) (t : lst) : res lst :=
  do i <- usub (l_pos t) 1; do c <- put (l_cur t) i v; Ok (mk_lst (l_pos t) c (l_lk t) (l_s t) (l_k t) (l_bits t)).

(** error_code_signed, decoder.rs:640-648 *)
Definition error_code_signed (c : Z) : Z := Z.lxor (- Z.land c 1) (Z.shiftr c 1).

(** med, decoder.rs:650-661 *)
Definition med (a b c : Z) : res Z :=
  if Z.max a b <=? c then Ok (Z.min a b)
  else if c <=? Z.min a b then Ok (Z.max a b)
  else do s <- i32 (a + b); i32 (s - c).

(** ** Run lengths, runlength.rs *)

(** J, runlength.rs:10-27 *)
Definition Jtab : list nat :=
  [0; 0; 0; 0; 1; 1; 1; 1; 2; 2; 2; 2; 3; 3; 3; 3; 4; 4; 5; 5; 6; 6; 7; 7; 8; 9; 10; 11; 12; 13; 14; 15]%nat.

(** the loop of symbol_run_count, runlength.rs:35-45 *)
Fixpoint run_loop (fuel : nat) (cnt remaining : nat) (t : lst) : res (nat * lst) :=
  if (cnt =? remaining)%nat then Ok (cnt, t) else
  match fuel with
  | O => Err
  | S fuel =>
    do (one, t) <- flag t;
    if one then
      do j <- get Jtab (l_s t);
      let cnt := (cnt + 2 ^ j)%nat in
      if (remaining <? cnt)%nat then Ok (remaining, t)
      else run_loop fuel cnt remaining (set_s (Nat.min (l_s t + 1) 31) t)
    else Ok (cnt, t)
  end.

(** symbol_run_count, runlength.rs:30-58 *)
Definition run_count (remaining : nat) (t : lst) : res (nat * lst) :=
  do _ <- assert_ (1 <? remaining)%nat;
  do (cnt, t) <- run_loop remaining 1 remaining t;
  if (cnt <? remaining)%nat then
    do j <- get Jtab (l_s t);
    do (add, t) <- (if (0 <? j)%nat then do (v, r) <- read_var j (l_bits t); Ok (Z.to_nat v, set_bits r t) else Ok (0%nat, t));
    let cnt := (cnt + add)%nat in
    let t := set_s (l_s t - 1) t in
    if (remaining <? cnt)%nat then Err else Ok (cnt, t)
  else Ok (cnt, t).

(** ** Bands other than LL: no prediction *)

(** the copy loop of decoder.rs:238-244 and 295-301 *)
Definition zero_run (n : nat) (t : lst) : res lst :=
  for_each (seq 0 n) (fun _ t => do t <- store 0 t; do t <- store_k 0 t; Ok (advance t)) t.

(** decode_top_line_no_ref_prev_line, the loop decoder.rs:224-258 *)
Fixpoint top_nr_loop (fuel remaining : nat) (t : lst) : res (nat * lst) :=
  if (remaining <=? 1)%nat then Ok (remaining, t) else
  match fuel with
  | O => Err
  | S fuel =>
    do a <- coeff_a t;
    if negb (a =? 0) then
      do (c, t) <- adaptive true PREDICT_K_MAX t;
      do t <- store (error_code_signed c) t;
      do t <- store_k (l_k t) t;
      top_nr_loop fuel (remaining - 1) (advance t)
    else
      do (one, t) <- flag t;
      do (remaining, t) <- (if one : bool then do (n, t) <- run_count remaining t; do t <- zero_run n t; Ok ((remaining - n)%nat, t)
                            else Ok (remaining, t));
      if (remaining =? 0)%nat then Ok (0%nat, t) else
      do (c, t) <- adaptive true PREDICT_K_MAX t;
      do c1 <- u32 (c + 1);
      do t <- store (error_code_signed c1) t;
      do t <- store_k (l_k t) t;
      top_nr_loop fuel (remaining - 1) (advance t)
  end.
(** decoder.rs:217-269 *)
Definition decode_top_nr (w : nat) (prev : list Z) (t : lst) : res (list Z * lst) :=
  do i <- usub (l_pos t) 1;
  do prev <- put prev i 0;
  do t <- store_a 0 t;
  do (remaining, t) <- top_nr_loop (S w) w t;
  do t <- (if (remaining =? 1)%nat then
             do (c, t) <- adaptive true PREDICT_K_MAX t;
             do t <- store (error_code_signed c) t;
             do t <- store_k (l_k t) t;
             Ok (advance t)
           else Ok t);
  do _ <- assert_ (l_pos t <? length (l_cur t))%nat;
  do t <- store 0 t;
  Ok (prev, t).

(** the K adjustment of decoder.rs:281-287 and 316-323 *)
Definition adjust_k (t : lst) : res lst :=
  do lk <- get (l_lk t) (l_pos t);
  Ok (if (lk - l_k t <=? 1)%nat then (if (15 <=? l_k t)%nat then set_k 15 t else t) else set_k (l_k t + 1) t).

(** decode_nontop_line_no_ref_prev_line, the loop decoder.rs:276-328; the
    result tells how many samples are left for the code after the loop *)
Fixpoint nontop_nr_loop (fuel remaining : nat) (prev : list Z) (t : lst) : res (nat * lst) :=
  if (remaining <=? 1)%nat then Ok (remaining, t) else
  match fuel with
  | O => Err
  | S fuel =>
    do d <- coeff_d prev t; do b <- coeff_b prev t; do a <- coeff_a t;
    if negb (Z.lor (Z.lor d b) a =? 0) then
      do (c, t) <- adaptive true 0 t;
      do t <- store (error_code_signed c) t;
      do t <- adjust_k t;
      do t <- store_k (l_k t) t;
      nontop_nr_loop fuel (remaining - 1) prev (advance t)
    else
      do (one, t) <- flag t;
      do (remaining, t) <- (if one : bool then do (n, t) <- run_count remaining t; do t <- zero_run n t; Ok ((remaining - n)%nat, t)
                            else Ok (remaining, t));
      if (remaining <=? 1)%nat then
        if (remaining =? 1)%nat then
          do (c, t) <- adaptive true PREDICT_K_MAX t;
          do c1 <- u32 (c + 1);
          do t <- store (error_code_signed c1) t;
          do t <- store_k (l_k t) t;
          Ok (0%nat, advance t)
        else Ok (0%nat, t)
      else
        do (c, t) <- adaptive true 0 t;
        do c1 <- u32 (c + 1);
        do t <- store (error_code_signed c1) t;
        do t <- adjust_k t;
        do t <- store_k (l_k t) t;
        nontop_nr_loop fuel (remaining - 1) prev (advance t)
  end.
(** decoder.rs:271-338 *)
Definition decode_nontop_nr (w : nat) (prev : list Z) (t : lst) : res (list Z * lst) :=
  do (remaining, t) <- nontop_nr_loop (S w) w prev t;
  do t <- (if (remaining =? 1)%nat then
             do (c, t) <- adaptive true PREDICT_K_MAX t;
             do t <- store (error_code_signed c) t;
             do t <- store_k (l_k t) t;
             Ok (advance t)
           else Ok t);
  do _ <- assert_ (l_pos t <? length (l_cur t))%nat;
  Ok (prev, t).

(** ** LL band: prediction *)

(** the copy loop of decoder.rs:358-361, 408-411, 486-489 and 540-543 *)
Definition copy_run (n : nat) (t : lst) : res lst :=
  for_each (seq 0 n) (fun _ t => do a <- coeff_a t; do t <- store a t; Ok (advance t)) t.

(** the end of every LL line: p.line_buf[1][p.line_pos] = p.coeff_a() + 1 *)
Definition finish (t : lst) : res lst :=
  do _ <- assert_ (l_pos t <? length (l_cur t))%nat;
  do a <- coeff_a t; do v <- i32 (a + 1); store v t.

(** decode_top_line, the loop decoder.rs:349-372 *)
Fixpoint top_loop (fuel remaining : nat) (t : lst) : res (nat * lst) :=
  if (remaining <=? 1)%nat then Ok (remaining, t) else
  match fuel with
  | O => Err
  | S fuel =>
    do a <- coeff_a t;
    do (x, remaining, t) <-
      (if negb (a =? 0) then Ok (a, remaining, t)
       else
         do (one, t) <- flag t;
         do (remaining, t) <- (if one : bool then do (n, t) <- run_count remaining t; do t <- copy_run n t; Ok ((remaining - n)%nat, t)
                               else Ok (remaining, t));
         Ok (0, remaining, t));
    if (remaining =? 0)%nat then Ok (0%nat, t) else
    do (c, t) <- adaptive true PREDICT_K_MAX t;
    do v <- i32 (x + error_code_signed c);
    do t <- store v t;
    top_loop fuel (remaining - 1) (advance t)
  end.
(** decoder.rs:340-383 *)
Definition decode_top (w : nat) (prev : list Z) (t : lst) : res (list Z * lst) :=
  do t <- store_a 0 t;
  do (remaining, t) <- top_loop (S w) w t;
  do t <- (if (remaining =? 1)%nat then
             do x <- coeff_a t;
             do (c, t) <- adaptive true PREDICT_K_MAX t;
             do v <- i32 (x + error_code_signed c);
             do t <- store v t;
             Ok (advance t)
           else Ok t);
  do t <- finish t;
  Ok (prev, t).

(** (p.coeff_d() - p.coeff_b()) << 1 as i32, then unsigned_abs, decoder.rs:426-427 *)
Definition delta2 (d b : Z) : res Z := do v <- i32 (d - b); Ok (Z.abs (wrap_i32 (2 * v))).

(** decode_nontop_line, the loop decoder.rs:397-433 *)
Fixpoint nontop_loop (fuel remaining : nat) (prev : list Z) (t : lst) : res (nat * lst) :=
  if (remaining <=? 1)%nat then Ok (remaining, t) else
  match fuel with
  | O => Err
  | S fuel =>
    do a <- coeff_a t; do b <- coeff_b prev t; do d <- coeff_d prev t;
    do (x, remaining, t) <-
      (if (a =? b) && (a =? d) then
         do (one, t) <- flag t;
         do (remaining, t) <- (if one : bool then do (n, t) <- run_count remaining t; do t <- copy_run n t; Ok ((remaining - n)%nat, t)
                               else Ok (remaining, t));
         do x <- (if (0 <? remaining)%nat then coeff_b prev t else Ok 0);
         Ok (x, remaining, t)
       else do c <- coeff_c prev t; do x <- med a b c; Ok (x, remaining, t));
    do t <-
      (if (0 <? remaining)%nat then
         do (c, t) <- adaptive false PREDICT_K_MAX t;
         do v <- i32 (x + error_code_signed c);
         do t <- store v t;
         do c <- (if (1 <? remaining)%nat then
                    do d <- coeff_d prev t; do b <- coeff_b prev t;
                    do e <- delta2 d b; do s <- u32 (c + e); Ok (Z.shiftr s 1)
                  else Ok c);
         do t <- update_k c PREDICT_K_MAX t;
         Ok (advance t)
       else Ok t);
    nontop_loop fuel (remaining - 1) prev t
  end.
(** decoder.rs:385-445 *)
Definition decode_nontop (w : nat) (prev : list Z) (t : lst) : res (list Z * lst) :=
  do b <- coeff_b prev t;
  do t <- store_a b t;
  do (remaining, t) <- nontop_loop (S w) w prev t;
  do t <- (if (remaining =? 1)%nat then
             do a <- coeff_a t; do b <- coeff_b prev t; do c <- coeff_c prev t;
             do x <- med a b c;
             do (c, t) <- adaptive true PREDICT_K_MAX t;
             do v <- i32 (x + error_code_signed c);
             do t <- store v t;
             Ok (advance t)
           else Ok t);
  do t <- finish t;
  Ok (prev, t).

(** ** Rounded lines *)

(** mask * 2 * code + (code >> 31), decoder.rs:453, 498, 506 *)
Definition rounded (mask code : Z) : res Z :=
  do a <- i32 (mask * 2); do b <- i32 (a * code); i32 (b + Z.shiftr code 31).

(** decode_symbol_rounded, decoder.rs:447-469 *)
Definition symbol_rounded (mask : Z) (rbits : nat) (use_med not_eol : bool) (prev : list Z) (t : lst) : res lst :=
  do b <- coeff_b prev t;
  do sym <- (if use_med then do a <- coeff_a t; do c <- coeff_c prev t; med a b c else Ok b);
  do (c, t) <- adaptive false PREDICT_K_MAX t;
  do x <- rounded mask (error_code_signed c);
  do v <- i32 (x + sym);
  do t <- store v t;
  do t <-
    (if not_eol then
       do d <- coeff_d prev t;
       do code <-
         (if b <? d then do e <- i32 (d - b); do e <- i32 (e + mask); do e <- i32 (e - 1); Ok (Z.shiftr e (Z.of_nat rbits))
          else do e <- i32 (b - d); do e <- i32 (e + mask); i32 (- Z.shiftr e (Z.of_nat rbits)));
       do m <- u32 (2 * Z.abs code); do s <- u32 (c + m);
       update_k (Z.shiftr s 1) PREDICT_K_MAX t
     else update_k c PREDICT_K_MAX t);
  Ok (advance t).

(** decode_top_line_rounded, the loop decoder.rs:477-501 *)
Fixpoint top_rounded_loop (fuel remaining : nat) (mask : Z) (t : lst) : res (nat * lst) :=
  if (remaining <=? 1)%nat then Ok (remaining, t) else
  match fuel with
  | O => Err
  | S fuel =>
    do a <- coeff_a t;
    do aa <- i32 (Z.abs a);
    do (x, remaining, t) <-
      (if mask <? aa then Ok (a, remaining, t)
       else
         do (one, t) <- flag t;
         do (remaining, t) <- (if one : bool then do (n, t) <- run_count remaining t; do t <- copy_run n t; Ok ((remaining - n)%nat, t)
                               else Ok (remaining, t));
         Ok (0, remaining, t));
    if (remaining =? 0)%nat then Ok (0%nat, t) else
    do (c, t) <- adaptive true PREDICT_K_MAX t;
    do e <- rounded mask (error_code_signed c);
    do v <- i32 (x + e);
    do t <- store v t;
    top_rounded_loop fuel (remaining - 1) mask (advance t)
  end.
(** decoder.rs:471-512; the last sample is added to what the buffer holds *)
Definition decode_top_rounded (w : nat) (mask : Z) (prev : list Z) (t : lst) : res (list Z * lst) :=
  do t <- store_a 0 t;
  do (remaining, t) <- top_rounded_loop (S w) w mask t;
  do t <- (if (remaining =? 1)%nat then
             do (c, t) <- adaptive true PREDICT_K_MAX t;
             do e <- rounded mask (error_code_signed c);
             do x <- get (l_cur t) (l_pos t);
             do v <- i32 (x + e);
             do t <- store v t;
             Ok (advance t)
           else Ok t);
  do t <- finish t;
  Ok (prev, t).

(** decode_nontop_line_rounded, the loop decoder.rs:528-553 *)
Fixpoint nontop_rounded_loop (fuel remaining : nat) (mask : Z) (rbits : nat) (reached : bool) (prev : list Z) (t : lst)
  : res (nat * lst) :=
  if (remaining <=? 1)%nat then Ok (remaining, t) else
  match fuel with
  | O => Err
  | S fuel =>
    do d <- coeff_d prev t; do b <- coeff_b prev t;
    do e <- i32 (d - b);
    if mask <? Z.abs e then
      do t <- symbol_rounded mask rbits true true prev t;
      nontop_rounded_loop fuel (remaining - 1) mask rbits true prev t
    else
      do c <- coeff_c prev t; do a <- coeff_a t;
      do e <- i32 (c - a);
      if reached || (mask <? Z.abs e) then
        do t <- symbol_rounded mask rbits true true prev t;
        nontop_rounded_loop fuel (remaining - 1) mask rbits false prev t
      else
        do (one, t) <- flag t;
        do (remaining, t) <- (if one : bool then do (n, t) <- run_count remaining t; do t <- copy_run n t; Ok ((remaining - n)%nat, t)
                              else Ok (remaining, t));
        if (1 <? remaining)%nat then
          do t <- symbol_rounded mask rbits false true prev t;
          do b <- coeff_b prev t; do c <- coeff_c prev t; do e <- i32 (b - c);
          nontop_rounded_loop fuel (remaining - 1) mask rbits (mask <? Z.abs e) prev t
        else if (remaining =? 1)%nat then
          do t <- symbol_rounded mask rbits false false prev t;
          nontop_rounded_loop fuel (remaining - 1) mask rbits reached prev t
        else nontop_rounded_loop fuel (remaining - 1) mask rbits reached prev t
  end.
(** decoder.rs:514-561 *)
Definition decode_nontop_rounded (w : nat) (mask : Z) (rbits : nat) (prev : list Z) (t : lst) : res (list Z * lst) :=
  do b <- coeff_b prev t;
  do i <- usub (l_pos t) 1;
  do prev <- put prev i b;
  do t <- store_a b t;
  do (remaining, t) <- nontop_rounded_loop (S w) w mask rbits false prev t;
  do t <- (if (remaining =? 1)%nat then symbol_rounded mask rbits true false prev t else Ok t);
  do t <- finish t;
  Ok (prev, t).

(** ** Bands *)

(** BandParam, mod.rs:339-374 *)
Record band := mk_band {
  b_w : nat; b_h : nat; b_mask : Z; b_rbits : nat; b_line : nat;
  b_prev : list Z; b_cur : list Z; b_lk : list nat; b_s : nat; b_k : nat;
  b_partial : bool; b_q : Z; b_bits : list bool }.

(** PlaneLineIter::new, decoder.rs:48-73 *)
Definition band_new (w h : nat) (mask : Z) (partial : bool) (q : Z) (bytes : list Z) : band :=
  mk_band w h mask 0 0 (repeat 0 (w + 2)) (repeat 0 (w + 2)) (repeat 0%nat (w + 2)) 0 0 partial q (byte_bits bytes).

(** rounded_bits, decoder.rs:595-600 *)
Fixpoint rounded_bits_loop (fuel : nat) (mask : Z) (r : nat) : nat :=
  match fuel with
  | O => r
  | S f => if Z.shiftr mask (Z.of_nat r) =? 0 then r else rounded_bits_loop f mask (S r)
  end.
Definition rounded_bits (mask : Z) : nat := if Z.land mask (-2) =? 0 then 1%nat else rounded_bits_loop 32 mask 1.

(** decode_line, decoder.rs:563-621 *)
Definition decode_line (p : band) : res band :=
  do _ <- assert_ (b_line p <? b_h p)%nat;
  let first := (b_line p =? 0)%nat in
  let prev := if first then b_prev p else b_cur p in
  let cur := if first then b_cur p else b_prev p in
  let t := mk_lst 1 cur (b_lk p) (if first then 0%nat else b_s p) (if first then 0%nat else b_k p) (b_bits p) in
  let rb := if first && b_partial p && (0 <? b_mask p) then rounded_bits (b_mask p) else b_rbits p in
  do (prev, t) <-
    (if first then
       if b_partial p then
         if b_mask p <=? 0 then decode_top (b_w p) prev t else decode_top_rounded (b_w p) (b_mask p) prev t
       else decode_top_nr (b_w p) prev t
     else if negb (b_partial p) then decode_nontop_nr (b_w p) prev t
     else if b_mask p <=? 0 then decode_nontop (b_w p) prev t
     else decode_nontop_rounded (b_w p) (b_mask p) rb prev t);
  Ok (mk_band (b_w p) (b_h p) (b_mask p) rb (S (b_line p)) prev (l_cur t) (l_lk t) (l_s t) (l_k t) (b_partial p) (b_q p) (l_bits t)).

(** decoded_buf, mod.rs:405-409 *)
Definition decoded_buf (p : band) : res (list Z) := slice (b_cur p) 1 (1 + b_w p).

(** The lines of a band, as an iterator collects them (decoder.rs:101-148). *)
Fixpoint decode_lines (n : nat) (p : band) : res (list (list Z) * band) :=
  match n with
  | O => Ok ([], p)
  | S n => do p <- decode_line p; do l <- decoded_buf p; do (r, p) <- decode_lines n p; Ok (l :: r, p)
  end.
