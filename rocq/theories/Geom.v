(** Rectangles (rawler/src/imgop/mod.rs), pixel array cropping, rotation and
    deinterleaving (rawler/src/pixarray.rs, rawler/src/imgop/raw.rs). *)
From Coq Require Import List ZArith Lia Bool.
From Verif Require Import Base Par Tiles Decomp.
Import ListNotations.
Open Scope nat_scope.

(** ** Rectangles.  usize additions are taken without overflow. *)

(** Rect with Point and Dim2 flattened, imgop/mod.rs:49-99 *)
Record rect := mk_rect { r_x : nat; r_y : nat; r_w : nat; r_h : nat }.

(** new_with_points, imgop/mod.rs:123-134 *)
Definition rect_points (x1 y1 x2 y2 : nat) : res rect :=
  do _ <- assert_ (x1 <=? x2);
  do _ <- assert_ (y1 <=? y2);
  do w <- usub x2 x1;
  do h <- usub y2 y1;
  Ok (mk_rect x1 y1 w h).

(** new_with_borders, imgop/mod.rs:136-138 *)
Definition rect_borders (dw dh b0 b1 b2 b3 : nat) : res rect :=
  do x2 <- usub dw b2;
  do y2 <- usub dh b3;
  rect_points b0 b1 x2 y2.

(** new_with_dng, imgop/mod.rs:141-143: top, left, bottom, right *)
Definition rect_dng (t l b r : nat) : res rect := rect_points l t r b.

(** is_empty, imgop/mod.rs:59-61, 145-147 *)
Definition rect_is_empty (r : rect) : bool := (r_w r =? 0) && (r_h r =? 0).

(** as_ltrb, as_tlbr, imgop/mod.rs:150-157 *)
Definition as_ltrb (r : rect) : nat * nat * nat * nat := (r_x r, r_y r, r_x r + r_w r, r_y r + r_h r).
Definition as_tlbr (r : rect) : nat * nat * nat * nat := (r_y r, r_x r, r_y r + r_h r, r_x r + r_w r).

(** as_ltrb_offsets, as_tlbr_offsets, imgop/mod.rs:160-167 *)
Definition as_ltrb_offsets (r : rect) (width height : nat) : res (nat * nat * nat * nat) :=
  do a <- usub width (r_x r + r_w r);
  do b <- usub height (r_y r + r_h r);
  Ok (r_x r, r_y r, a, b).
Definition as_tlbr_offsets (r : rect) (width height : nat) : res (nat * nat * nat * nat) :=
  do b <- usub height (r_y r + r_h r);
  do a <- usub width (r_x r + r_w r);
  Ok (r_y r, r_x r, b, a).

(** adapt, imgop/mod.rs:197-206 *)
Definition rect_adapt (r m : rect) : res rect :=
  do _ <- assert_ (r_x m <=? r_x r);
  do _ <- assert_ (r_y m <=? r_y r);
  do _ <- assert_ (r_w r <=? r_w m);
  do _ <- assert_ (r_h r <=? r_h m);
  do x <- usub (r_x r) (r_x m);
  do y <- usub (r_y r) (r_y m);
  Ok (mk_rect x y (r_w r) (r_h r)).

(** Specification: the pixels of a rectangle. *)
Definition in_rect (r : rect) (x y : nat) : Prop :=
  r_x r <= x < r_x r + r_w r /\ r_y r <= y < r_y r + r_h r.

Section Pix.
Context {A : Type}.
Variable d : A.

(** slice::chunks_exact; a zero size panics. *)
Definition chunks_exact (c : nat) (l : list A) : res (list (list A)) :=
  if c =? 0 then Panic
  else Ok (map (fun i => firstn c (skipn (i * c) l)) (seq 0 (length l / c))).

(** imgop::crop, imgop/mod.rs:217-228 *)
Definition imgop_crop (input : list A) (dimw : nat) (a : rect) : res (list A) :=
  do rows <- chunks_exact dimw input;
  for_each (firstn (r_h a) (skipn (r_y a) rows)) (fun row acc =>
    do s <- slice row (r_x a) (r_x a + r_w a); Ok (acc ++ s)) [].

(** Color2D::crop, pixarray.rs:476-490.  A Color2D is a [pix2d] whose cells are
    whole pixels. *)
Definition color_crop (p : pix2d A) (a : rect) : res (pix2d A) :=
  do _ <- assert_ (r_y a + r_h a <=? px_h p);
  do _ <- assert_ (r_x a + r_w a <=? px_w p);
  do out <- imgop_crop (px_data p) (px_w p) a;
  Ok (mk_pix (r_w a) (r_h a) out).

(** Pix2D::at, Color2D::at (index check of the debug build; the release build
    is unchecked), pixarray.rs:155-165, 424-433 *)
Definition pix_at (p : pix2d A) (row col : nat) : res A := get (px_data p) (row * px_w p + col).

(** A freshly allocated [rows] x [cols] buffer filled line by line. *)
Definition fill_rows (rows cols : nat) (f : nat -> nat -> res A) : res (list A) :=
  for_each (seq 0 rows) (fun r acc =>
    for_each (seq 0 cols) (fun c acc => do v <- f r c; Ok (acc ++ [v])) acc) [].

(** rotate_90cw, pixarray.rs:492-501; chunks_exact_mut(0) panics. *)
Definition rotate_90cw (p : pix2d A) : res (pix2d A) :=
  if px_h p =? 0 then Panic
  else
    do out <- fill_rows (px_h p * px_w p / px_h p) (px_h p) (fun row col =>
      do a <- usub (px_h p) 1;
      do r <- usub a col;
      pix_at p r row);
    Ok (mk_pix (px_h p) (px_w p) out).

(** rotate_90ccw, pixarray.rs:503-512 *)
Definition rotate_90ccw (p : pix2d A) : res (pix2d A) :=
  if px_h p =? 0 then Panic
  else
    do out <- fill_rows (px_h p * px_w p / px_h p) (px_h p) (fun row col =>
      do a <- usub (px_w p) 1;
      do c <- usub a row;
      pix_at p col c);
    Ok (mk_pix (px_h p) (px_w p) out).

(** rotate_180, pixarray.rs:514-517 (debug_assert of new_with) *)
Definition rotate_180 (p : pix2d A) : res (pix2d A) :=
  do _ <- assert_ (length (px_data p) =? px_h p * px_w p);
  Ok (mk_pix (px_w p) (px_h p) (rev (px_data p))).

(** imgop::raw::rotate_90 on u16 slices, imgop/raw.rs:268-279.  The tail of
    [dst] beyond [src.len()] is not touched. *)
Definition rotate_90 (src dst : list A) (width height : nat) : res (list A) :=
  do dst0 <- slice dst 0 (length src);
  do rows <- chunks_exact width src;
  do out <- for_each (combine (seq 0 (length rows)) rows) (fun '(row, line) dst =>
    for_each (combine (seq 0 (length line)) line) (fun '(col, pix) dst =>
      do o1 <- usub height 1;
      do ocol <- usub o1 row;
      put dst (col * height + ocol) pix) dst) dst0;
  Ok (out ++ skipn (length src) dst).

(** ** deinterleave2x2, pixarray.rs:235-277 *)

(** [line.chunks_exact_mut(2).zip(a.zip(b))] *)
Fixpoint write_pairs (line a b : list A) : list A :=
  match line, a, b with
  | _ :: _ :: line', x :: a', y :: b' => x :: y :: write_pairs line' a' b'
  | _, _, _ => line
  end.

Definition deint_line (dbg : bool) (p : pix2d A) (row : nat) : op A := fun line =>
  let w := px_w p in
  let half := w / 2 in
  let n := length (px_data p) in
  let offset := row / 2 * w in
  let sa := if Nat.even row then offset else n / 2 + offset in
  let sb := if Nat.even row then half + offset else n / 2 + half + offset in
  match slice (px_data p) sa (sa + half), slice (px_data p) sb (sb + half) with
  | Ok a, Ok b =>
    if dbg && negb (length a + length b =? length line) then None
    else Some (write_pairs line a b)
  | _, _ => None
  end.

Definition deinterleave2x2 (dbg : bool) (p : pix2d A) : res (pstate A) :=
  let n := length (px_data p) in
  let half := px_w p / 2 in
  do _ <- assert_ (half <=? n);
  do _ <- assert_ (n / 2 + half <=? n);
  lines_fn d (px_w p) (px_h p) (fun row => [deint_line dbg p row]).
End Pix.
