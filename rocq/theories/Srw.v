(** Samsung SRW image data (decoders/srw.rs). *)
From Coq Require Import List ZArith Bool.
From Verif Require Import Base Pumps LjpegDec Bits Crx Crypt.
Import ListNotations.
Open Scope Z_scope.

(** ** SRW1 *)

(** srw.rs:154-161: one bit length is kept, moved or given *)
Definition srw1_lens (ops : list Z) (len : list nat) (p : wpump) : res (list nat * wpump) :=
  for_each (seq 0 4) (fun i '(len, p) =>
    do op <- get ops i;
    do l <- get len i;
    if op =? 3 then do (v, p) <- get_bits msb32_ops 4 p; do len <- put len i (Z.to_nat v); Ok (len, p)
    else if op =? 2 then do l <- usub l 1; do len <- put len i l; Ok (len, p)
    else if op =? 1 then do len <- put len i (l + 1)%nat; Ok (len, p)
    else Ok (len, p)) (len, p).
(** one pixel, srw.rs:165-177 and 181-193; [up] is the row used when [dir] and
    [back] the distance of the pixel used when not *)
Definition srw1_pixel (width img up back col c l : nat) (dir : bool) (p : wpump) (out : list Z) : res (wpump * list Z) :=
  do (adj, p) <- get_ibits_sext msb32_ops l p;
  do predictor <- (if dir then get out (up + col + c)
    else if (col =? 0)%nat then Ok 128 else do i <- usub (img + col) back; get out i);
  if (col + c <? width)%nat then
    do v <- i32 (predictor + adj);
    do out <- put out (img + col + c) (wrap_u16 v);
    Ok (p, out)
  else Ok (p, out).
(** four times two bits, srw.rs:153 *)
Definition get_ops (p : wpump) : res (list Z * wpump) :=
  do (a, p) <- get_bits msb32_ops 2 p;
  do (b, p) <- get_bits msb32_ops 2 p;
  do (c, p) <- get_bits msb32_ops 2 p;
  do (d, p) <- get_bits msb32_ops 2 p;
  Ok ([a; b; c; d], p).
(** srw.rs:151-194: a group of 16 pixels *)
Definition srw1_group (width row col : nat) (st : list nat * wpump * list Z) : res (list nat * wpump * list Z) :=
  let '(len, p, out) := st in
  let img := (width * row)%nat in
  let img_up := (width * (Nat.max 1 row - 1))%nat in
  let img_up2 := (width * (Nat.max 2 row - 2))%nat in
  do (d, p) <- get_bits msb32_ops 1 p;
  let dir := d =? 1 in
  do (ops, p) <- get_ops p;
  do (len, p) <- srw1_lens ops len p;
  do (p, out) <- for_each (step_range 0 16 2) (fun c '(p, out) =>
    do l <- get len (c / 8);
    srw1_pixel width img img_up 2 col c l dir p out) (p, out);
  do (p, out) <- for_each (step_range 1 16 2) (fun c '(p, out) =>
    do l <- get len (2 + c / 8);
    srw1_pixel width img img_up2 1 col c l dir p out) (p, out);
  Ok (len, p, out).
(** srw.rs:141-195: a row, from the offset the table gives *)
Definition srw1_row (buf loffsets : list Z) (width row : nat) (out : list Z) : res (list Z) :=
  do loffset <- LEu32 loffsets (row * 4);
  do src <- slice buf (Z.to_nat loffset) (length buf);
  do (_, _, out) <- for_each (step_range 0 width 16) (srw1_group width row)
    (repeat (if (row <? 2)%nat then 7%nat else 4%nat) 4, wpump_new src, out);
  Ok out.
(** srw.rs:201-205: red and blue change places *)
Definition swap_px (out : list Z) (i j : nat) : res (list Z) :=
  do a <- get out i;
  do b <- get out j;
  do out <- put out i b;
  put out j a.
Definition srw1_swap (width height : nat) (out : list Z) : res (list Z) :=
  for_each (step_range 0 height 2) (fun row out =>
    for_each (step_range 0 width 2) (fun col out => swap_px out (row * width + col + 1) ((row + 1) * width + col)) out) out.
(** decode_srw1 srw.rs:137-208 without the dummy mode *)
Definition srw1_decode (buf loffsets : list Z) (width height : nat) : res (list Z) :=
  do out <- for_each (seq 0 height) (srw1_row buf loffsets width) (repeat 0 (width * height));
  srw1_swap width height out.

(** ** SRW2 *)

(** srw.rs:219-234: code lengths and difference lengths *)
Definition srw2_tab : list (nat * nat) :=
  [(3, 4); (3, 7); (2, 6); (2, 5); (4, 3); (6, 0); (7, 9); (8, 10); (9, 11); (10, 12); (10, 13); (5, 1); (4, 8); (4, 2)]%nat.
(** srw.rs:243-253 *)
Definition srw2_table : res (list (nat * nat)) :=
  do (_, tbl) <- for_each srw2_tab (fun e '(n, tbl) =>
    for_each (seq 0 (2 ^ (10 - fst e))) (fun _ '(n, tbl) => do tbl <- put tbl n e; Ok ((n + 1)%nat, tbl)) (n, tbl))
    (0%nat, repeat (0, 0)%nat 1024);
  Ok tbl.
(** srw2_diff srw.rs:274-287 *)
Definition srw2_diff (tbl : list (nat * nat)) (p : wpump) : res (Z * wpump) :=
  do (c, p) <- peek_bits msb_ops 10 p;
  do e <- get tbl (Z.to_nat c);
  do p <- consume_bits msb_ops (fst e) p;
  do (diff, p) <- get_bits msb_ops (snd e) p;
  if negb (snd e =? 0)%nat && negb (Z.testbit diff (Z.of_nat (snd e - 1)))
  then Ok (diff - (2 ^ Z.of_nat (snd e) - 1), p)
  else Ok (diff, p).
(** decode_srw2 srw.rs:210-272 without the dummy mode; [vpred] by row parity *)
Definition srw2_decode (buf : list Z) (width height : nat) : res (list Z) :=
  do tbl <- srw2_table;
  do (_, _, _, out) <- for_each (seq 0 height) (fun row st =>
    for_each (seq 0 width) (fun col '(vpred, hpred, p, out) =>
      do (diff, p) <- srw2_diff tbl p;
      do (vpred, hpred) <- (if (col <? 2)%nat then
          do v <- get vpred (row mod 2);
          do x <- get v col;
          do x <- i32 (x + diff);
          do v <- put v col x;
          do vpred <- put vpred (row mod 2) v;
          do hpred <- put hpred col x;
          Ok (vpred, hpred)
        else
          do x <- get hpred (col mod 2);
          do x <- i32 (x + diff);
          do hpred <- put hpred (col mod 2) x;
          Ok (vpred, hpred));
      do x <- get hpred (col mod 2);
      do out <- put out (row * width + col) (wrap_u16 x);
      Ok (vpred, hpred, p, out)) st) ([[0; 0]; [0; 0]], [0; 0], wpump_new buf, repeat 0 (width * height));
  Ok out.
