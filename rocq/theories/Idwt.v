(** Model of the inverse wavelet transform of CRX images,
    rawler/src/decompressors/crx/idwt.rs.  The coefficient lines come from an
    abstract source [next] (decode_line_with_iquantization on one subband).

    [iwt_transforms] and [params] are only used at [level], [level - 1] and the
    bands 3 level .. 3 level + 3; here they are one nested value with the
    current level outermost.  line_buf[0..3) are [t_l0], [t_l1], [t_l2];
    line_buf[3..8) is [t_ring].  The two rows the code works on in one loop
    are computed one after the other. *)
From Coq Require Import List ZArith Bool.
From Verif Require Import Base Crx.
Import ListNotations.
Open Scope Z_scope.

(** ** One row *)

(** l - ((a + b + 2) >> 2) *)
Definition lift4 (l a b : Z) : res Z := do s <- i32 (a + b); do s <- i32 (s + 2); i32 (l - Z.shiftr s 2).
(** l - ((a + 1) >> 1) *)
Definition lift1 (l a : Z) : res Z := do s <- i32 (a + 1); i32 (l - Z.shiftr s 1).
(** h + ((a + b) >> 1) *)
Definition avg (h a b : Z) : res Z := do s <- i32 (a + b); i32 (h + Z.shiftr s 1).

(** The middle of a row: iteration [i] of the step_by(2) loops, idwt.rs:188-203,
    337-344, 411-418, 506-516; [q] is the position in the high band where the
    loop starts, the low band starts at 1. *)
Definition synth_step (lo hi : list Z) (q i : nat) (dst : list Z) : res (list Z) :=
  do l <- get lo (1 + i); do a <- get hi (q + i); do b <- get hi (q + i + 1);
  do d <- lift4 l a b;
  do x <- get dst (2 * i);
  do y <- avg a d x;
  do dst <- put dst (2 * i + 1) y;
  put dst (2 * i + 2) d.

(** The first sample and the position in the high band after it,
    idwt.rs:174-185, 329-335, 403-410, 495-505. *)
Definition synth_first (left : bool) (lo hi : list Z) : res (Z * nat) :=
  do l <- get lo 0; do a <- get hi 0;
  if left then do b <- get hi 1; do v <- lift4 l a b; Ok (v, 1%nat) else do v <- lift1 l a; Ok (v, 0%nat).

(** The end of a row from position [2 * n] on, idwt.rs:204-225, 346-357,
    419-432, 517-540.  [wide]: with a right neighbour the last sample is
    written for even widths too (only idwt.rs:350). *)
Definition synth_last (right odd wide : bool) (lo hi : list Z) (q n : nat) (dst : list Z) : res (list Z) :=
  do x <- get dst (2 * n); do a <- get hi (q + n);
  if right then
    do l <- get lo (1 + n); do b <- get hi (q + n + 1);
    do d <- lift4 l a b; do y <- avg a d x;
    do dst <- put dst (2 * n + 1) y;
    if odd || wide then put dst (2 * n + 2) d else Ok dst
  else if odd then
    do l <- get lo (1 + n);
    do d <- lift1 l a; do y <- avg a d x;
    do dst <- put dst (2 * n + 1) y; put dst (2 * n + 2) d
  else do y <- i32 (x + a); put dst (2 * n + 1) y.

(** One row from a low band line and a high band line. *)
Definition synth (left right wide : bool) (w : nat) (lo hi dst : list Z) : res (list Z) :=
  if (w <=? 1)%nat then do v <- get lo 0; put dst 0 v
  else
    do (v, q) <- synth_first left lo hi;
    do dst <- put dst 0 v;
    do m <- usub w 3;
    let n := ((m + 1) / 2)%nat in
    do dst <- for_each (seq 0 n) (synth_step lo hi q) dst;
    synth_last right (Nat.odd w) wide lo hi q n dst.

(** ** One level *)

(** WaveletTransform, idwt.rs:16-44, without the band positions *)
Record wt := mk_wt {
  t_b0 : list Z; t_b1 : list Z; t_b2 : list Z; t_b3 : list Z;
  t_l0 : list Z; t_l1 : list Z; t_l2 : list Z; t_ring : list (list Z);
  t_line : nat; t_cur : nat; t_tap : nat; t_h : nat; t_w : nat }.

(** idwt.rs:47-77 *)
Definition wt_new (height width : nat) : wt :=
  let z := repeat 0 width in mk_wt [] [] [] [] z z z (repeat z 5) 0 0 0 height width.

Definition set_b0 (l : list Z) (t : wt) : wt :=
  mk_wt l (t_b1 t) (t_b2 t) (t_b3 t) (t_l0 t) (t_l1 t) (t_l2 t) (t_ring t) (t_line t) (t_cur t) (t_tap t) (t_h t) (t_w t).
Definition set_b1 (l : list Z) (t : wt) : wt :=
  mk_wt (t_b0 t) l (t_b2 t) (t_b3 t) (t_l0 t) (t_l1 t) (t_l2 t) (t_ring t) (t_line t) (t_cur t) (t_tap t) (t_h t) (t_w t).
Definition set_b2 (l : list Z) (t : wt) : wt :=
  mk_wt (t_b0 t) (t_b1 t) l (t_b3 t) (t_l0 t) (t_l1 t) (t_l2 t) (t_ring t) (t_line t) (t_cur t) (t_tap t) (t_h t) (t_w t).
Definition set_b3 (l : list Z) (t : wt) : wt :=
  mk_wt (t_b0 t) (t_b1 t) (t_b2 t) l (t_l0 t) (t_l1 t) (t_l2 t) (t_ring t) (t_line t) (t_cur t) (t_tap t) (t_h t) (t_w t).
Definition set_lines (l0 l1 l2 : list Z) (t : wt) : wt :=
  mk_wt (t_b0 t) (t_b1 t) (t_b2 t) (t_b3 t) l0 l1 l2 (t_ring t) (t_line t) (t_cur t) (t_tap t) (t_h t) (t_w t).
Definition set_ring (r : list (list Z)) (t : wt) : wt :=
  mk_wt (t_b0 t) (t_b1 t) (t_b2 t) (t_b3 t) (t_l0 t) (t_l1 t) (t_l2 t) r (t_line t) (t_cur t) (t_tap t) (t_h t) (t_w t).
(** cur_h += n; cur_line += n; flt_tap_h = (flt_tap_h + n) % 5 *)
Definition produce (n : nat) (t : wt) : wt :=
  mk_wt (t_b0 t) (t_b1 t) (t_b2 t) (t_b3 t) (t_l0 t) (t_l1 t) (t_l2 t) (t_ring t)
    (t_line t + n) (t_cur t + n) ((t_tap t + n) mod 5) (t_h t) (t_w t).
Definition set_cur (n : nat) (t : wt) : wt :=
  mk_wt (t_b0 t) (t_b1 t) (t_b2 t) (t_b3 t) (t_l0 t) (t_l1 t) (t_l2 t) (t_ring t) (t_line t) n (t_tap t) (t_h t) (t_w t).

(** getline, idwt.rs:79-84 *)
Definition getline (t : wt) : res (list Z * wt) :=
  do i <- usub (t_tap t + 5) (t_cur t);
  do l <- get (t_ring t) (i mod 5);
  do c <- usub (t_cur t) 1;
  Ok (l, set_cur c t).

(** Ring lines written sample by sample: [f i] gives the new values of the
    lines [h1] and [h2] at column [i]. *)
Definition put2 (h : nat) (i : nat) (v : Z) (ring : list (list Z)) : res (list (list Z)) :=
  do l <- get ring h; do l <- put l i v; put ring h l.

(** Neighbours of the tile, mdat.rs:31-34 *)
Record nbrs := mk_nbrs { n_top : bool; n_bottom : bool; n_left : bool; n_right : bool }.

Section Levels.
Variable B : Type.
(** decode_line_with_iquantization, iquant.rs:60-117 *)
Variable next : B -> res (list Z * B).
Variable tile : nbrs.

(** The LL band, or a level with its HL, LH and HH bands above a coarser one. *)
Inductive stk := LL (b : B) | Lev (t : wt) (b1 b2 b3 : B) (below : stk).

(** idwt_53_filter_decode, idwt.rs:118-159 *)
Fixpoint filter_decode (s : stk) : res stk :=
  match s with
  | LL b => Ok s
  | Lev t b1 b2 b3 below =>
    if (0 <? t_cur t)%nat then Ok s else
    do h3 <- usub (t_h t) 3;
    let load0 := match below with
                 | LL b => do (l, b) <- next b; Ok (set_b0 l t, LL b)
                 | Lev _ _ _ _ _ => do below <- filter_decode below; Ok (t, below)
                 end in
    if (h3 <=? t_line t)%nat && negb (n_bottom tile) then
      if Nat.odd (t_h t) then
        do (t, below) <- load0;
        do (l, b1) <- next b1;
        Ok (Lev (set_b1 l t) b1 b2 b3 below)
      else Ok s
    else
      do (t, below) <- load0;
      do (x1, b1) <- next b1; do (x2, b2) <- next b2; do (x3, b3) <- next b3;
      Ok (Lev (set_b3 x3 (set_b2 x2 (set_b1 x1 t))) b1 b2 b3 below)
  end.

(** idwt_53_filter_transform at the end of an odd height, the vertical part,
    idwt.rs:440-444 *)
Definition last_odd_col (h0 h1 h2 : nat) (l0 l1 : list Z) (i : nat) (ring : list (list Z)) : res (list (list Z)) :=
  do a <- get l0 i; do b <- get l1 i; do d <- lift1 a b;
  do r0 <- get ring h0; do x <- get r0 i;
  do y <- avg b d x;
  do ring <- put2 h1 i y ring;
  put2 h2 i d ring.
(** … of an even height, idwt.rs:454-456 *)
Definition last_even_col (h0 h1 : nat) (l2 : list Z) (i : nat) (ring : list (list Z)) : res (list (list Z)) :=
  do r0 <- get ring h0; do x <- get r0 i; do b <- get l2 i;
  do y <- i32 (x + b); put2 h1 i y ring.
(** … elsewhere, idwt.rs:551-555 *)
Definition mid_col (h0 h1 h2 : nat) (l0 l1 l2 : list Z) (i : nat) (ring : list (list Z)) : res (list (list Z)) :=
  do a <- get l0 i; do c <- get l2 i; do b <- get l1 i; do d <- lift4 a c b;
  do r0 <- get ring h0; do x <- get r0 i;
  do y <- avg b d x;
  do ring <- put2 h1 i y ring;
  put2 h2 i d ring.

(** idwt_53_filter_transform, idwt.rs:369-569 *)
Fixpoint filter_transform (s : stk) : res stk :=
  match s with
  | LL b => Ok s
  | Lev t b1 b2 b3 below =>
    if (0 <? t_cur t)%nat then Ok s else
    do h3 <- usub (t_h t) 3;
    let load0 := match below with
                 | LL b => Ok (t, below)
                 | Lev t' c1 c2 c3 below' =>
                   do s' <- (if (t_cur t' =? 0)%nat then filter_transform below else Ok below);
                   match s' with
                   | Lev t' c1 c2 c3 below' => do (l, t') <- getline t'; Ok (set_b0 l t, Lev t' c1 c2 c3 below')
                   | LL _ => Panic
                   end
                 end in
    let h0 := t_tap t in
    let h1 := ((t_tap t + 1) mod 5)%nat in
    let h2 := ((t_tap t + 2) mod 5)%nat in
    if (h3 <=? t_line t)%nat then
      if n_bottom tile then Ok s
      else if Nat.odd (t_h t) then
        do (t, below) <- load0;
        do l0 <- synth (n_left tile) (n_right tile) false (t_w t) (t_b0 t) (t_b1 t) (t_l0 t);
        let t := set_lines l0 (t_l2 t) (t_l1 t) t in
        do ring <- for_each (seq 0 (t_w t)) (last_odd_col h0 h1 h2 (t_l0 t) (t_l1 t)) (t_ring t);
        Ok (Lev (produce 3 (set_ring ring t)) b1 b2 b3 below)
      else
        do ring <- for_each (seq 0 (t_w t)) (last_even_col h0 h1 (t_l2 t)) (t_ring t);
        let t := set_lines (t_l0 t) (t_l2 t) (t_l1 t) t in
        Ok (Lev (produce 2 (set_ring ring t)) b1 b2 b3 below)
    else
      do (t, below) <- load0;
      do l0 <- synth (n_left tile) (n_right tile) false (t_w t) (t_b0 t) (t_b1 t) (t_l0 t);
      do l1 <- synth (n_left tile) (n_right tile) false (t_w t) (t_b2 t) (t_b3 t) (t_l1 t);
      let t := set_lines l0 (t_l2 t) l1 t in
      do ring <- for_each (seq 0 (t_w t)) (mid_col h0 h1 h2 (t_l0 t) (t_l1 t) (t_l2 t)) (t_ring t);
      Ok (Lev (produce (if (h3 <=? t_line t)%nat && Nat.odd (t_h t) then 3 else 2) (set_ring ring t)) b1 b2 b3 below)
  end.

(** The row read after the first one when there is a tile above,
    idwt.rs:266-305: the positions in both bands are where the first row left
    them, the loop writes columns 1 and 2 only, and the sample after an odd
    width overwrites the one before it. *)
Definition synth_top (lo hi dst : list Z) (w : nat) : res (list Z) :=
  if (w <=? 1)%nat then do v <- get lo 0; put dst 0 v
  else
    let left := n_left tile in
    let n := ((w - 3 + 1) / 2)%nat in
    let p := (1 + n)%nat in
    let q := (n + if left then 1 else 0)%nat in
    do (v, q) <- synth_first left (skipn p lo) (skipn q hi);
    let lo := skipn (p + 1) lo in let hi := skipn (n + (if left then 1 else 0) + q) hi in
    do dst <- put dst 0 v;
    do dst <- for_each (seq 0 n) (fun i dst =>
      do l <- get lo i; do a <- get hi i; do b <- get hi (i + 1);
      do d <- lift4 l a b;
      do x <- get dst (2 * i);
      do y <- avg a x d;
      do dst <- put dst 1 y; put dst 2 d) dst;
    do x <- get dst (2 * n); do a <- get hi n;
    if n_right tile then
      do l <- get lo n; do b <- get hi (n + 1);
      do d <- lift4 l a b; do y <- avg a x d;
      do dst <- put dst (2 * n + 1) y;
      if Nat.odd w then put dst (2 * n + 1) d else Ok dst
    else if Nat.odd w then
      do l <- get lo n; do d <- lift1 l a; do y <- avg a x d;
      do dst <- put dst (2 * n + 1) y; put dst (2 * n + 2) d
    else do y <- i32 (a + x); put dst (2 * n + 1) y.

(** idwt.rs:308-310 and 313-315 *)
Definition top_col (h0 : nat) (l0 l1 l2 : list Z) (i : nat) (ring : list (list Z)) : res (list (list Z)) :=
  do a <- get l0 i; do b <- get l1 i; do c <- get l2 i; do d <- lift4 a b c; put2 h0 i d ring.
Definition first_col (h0 : nat) (l0 l2 : list Z) (i : nat) (ring : list (list Z)) : res (list (list Z)) :=
  do a <- get l0 i; do c <- get l2 i; do d <- lift1 a c; put2 h0 i d ring.

(** idwt_53_filter_init, idwt.rs:229-367; the loop runs from the coarsest
    level up *)
Fixpoint filter_init (s : stk) : res stk :=
  match s with
  | LL b => Ok s
  | Lev t b1 b2 b3 below =>
    do (t, below) <-
      match below with
      | LL b => do (l, b) <- next b; Ok (set_b0 l t, LL b)
      | Lev _ _ _ _ _ =>
        do s' <- filter_init below;
        match s' with
        | Lev t' c1 c2 c3 below' => do (l, t') <- getline t'; Ok (set_b0 l t, Lev t' c1 c2 c3 below')
        | LL _ => Panic
        end
      end;
    let h0 := t_tap t in
    if (1 <? t_h t)%nat then
      do (x1, b1) <- next b1; do (x2, b2) <- next b2; do (x3, b3) <- next b3;
      let t := set_b3 x3 (set_b2 x2 (set_b1 x1 t)) in
      if n_top tile then
        do l0 <- synth (n_left tile) (n_right tile) false (t_w t) (t_b0 t) (t_b1 t) (t_l0 t);
        do l1 <- synth (n_left tile) (n_right tile) false (t_w t) (t_b2 t) (t_b3 t) (t_l1 t);
        do (x3, b3) <- next b3; do (x2, b2) <- next b2;
        let t := set_b3 x3 (set_b2 x2 t) in
        do l2 <- synth_top (t_b2 t) (t_b3 t) (t_l2 t) (t_w t);
        let t := set_lines l0 l1 l2 t in
        do ring <- for_each (seq 0 (t_w t)) (top_col h0 (t_l0 t) (t_l1 t) (t_l2 t)) (t_ring t);
        Ok (Lev (set_ring ring t) b1 b2 b3 below)
      else
        do l0 <- synth (n_left tile) (n_right tile) false (t_w t) (t_b0 t) (t_b1 t) (t_l0 t);
        do l2 <- synth (n_left tile) (n_right tile) false (t_w t) (t_b2 t) (t_b3 t) (t_l2 t);
        let t := set_lines l0 (t_l1 t) l2 t in
        do ring <- for_each (seq 0 (t_w t)) (first_col h0 (t_l0 t) (t_l2 t)) (t_ring t);
        do s <- filter_decode (Lev (set_ring ring t) b1 b2 b3 below);
        filter_transform s
    else
      do (x1, b1) <- next b1;
      let t := set_b1 x1 t in
      do r <- get (t_ring t) h0;
      do r <- synth (n_left tile) (n_right tile) true (t_w t) (t_b0 t) (t_b1 t) r;
      do ring <- put (t_ring t) h0 r;
      Ok (Lev (produce 1 (set_ring ring t)) b1 b2 b3 below)
  end.

(** decode_plane_line for levels > 0, decoder.rs:105-114 *)
Definition plane_line (s : stk) : res (list Z * stk) :=
  do s <- filter_decode s;
  do s <- filter_transform s;
  match s with
  | Lev t b1 b2 b3 below => do (l, t) <- getline t; Ok (l, Lev t b1 b2 b3 below)
  | LL _ => Panic
  end.

(** The lines of a plane, decoder.rs:131-159 *)
Fixpoint plane_lines (n : nat) (s : stk) : res (list (list Z)) :=
  match n with
  | O => Ok []
  | S n => do (l, s) <- plane_line s; do r <- plane_lines n s; Ok (l :: r)
  end.
Definition plane_decode (n : nat) (s : stk) : res (list (list Z)) := do s <- filter_init s; plane_lines n s.

End Levels.
Arguments LL {B} b.
Arguments Lev {B} t b1 b2 b3 below.
