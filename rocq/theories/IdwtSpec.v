(** Specification of the reversible 5/3 wavelet transform (ISO 15444-1 F.3.8,
    F.4.8) on signals over all integers, and of the bands of a tile. *)
From Coq Require Import List ZArith Bool.
From Verif Require Import Base Idwt.
Import ListNotations.
Open Scope Z_scope.

(** High and low coefficients of a signal. *)
Definition high (x : Z -> Z) (n : Z) : Z := x (2 * n + 1) - (x (2 * n) + x (2 * n + 2)) / 2.
Definition low (x : Z -> Z) (n : Z) : Z := x (2 * n) + (high x (n - 1) + high x n + 2) / 4.

(** Where the signal ends (no neighbour on that side) it is mirrored at its
    first and last sample. *)
Definition mirror (before after : bool) (n : nat) (i : Z) : Z :=
  if negb before && (i <? 0) then - i
  else if negb after && (Z.of_nat n <=? i) then 2 * (Z.of_nat n - 1) - i
  else i.

(** A plane gives a value for every row and column; the tile holds the rows
    0 .. h-1 and columns 0 .. w-1, the other columns belong to the neighbours
    on the left and on the right. *)
Definition plane := Z -> Z -> Z.

Definition line (f : Z -> Z) (from : Z) (n : nat) : list Z := map (fun j => f (from + Z.of_nat j)) (seq 0 n).
Definition image (P : plane) (w h : nat) : list (list Z) := map (fun r => line (P (Z.of_nat r)) 0 w) (seq 0 h).

(** Rows of low and of high coefficients, columns of either. *)
Definition rowL (h : nat) (P : plane) (n : Z) : Z -> Z := fun j => low (fun i => P (mirror false false h i) j) n.
Definition rowH (h : nat) (P : plane) (n : Z) : Z -> Z := fun j => high (fun i => P (mirror false false h i) j) n.
Definition colL (left right : bool) (w : nat) (f : Z -> Z) : Z -> Z := low (fun j => f (mirror left right w j)).
Definition colH (left right : bool) (w : nat) (f : Z -> Z) : Z -> Z := high (fun j => f (mirror left right w j)).

(** The plane of the next coarser level. *)
Definition coarser (left right : bool) (w h : nat) (P : plane) : plane := fun n => colL left right w (rowL h P n).

(** Lines of a band: [rows] of them, [cols] coefficients each from column [from]. *)
Definition band_lines (f : Z -> Z -> Z) (from : Z) (cols rows : nat) : list (list Z) :=
  map (fun n => line (f (Z.of_nat n)) from cols) (seq 0 rows).

(** Band HL and HH start with one coefficient of the left neighbour. *)
Definition from_left (left : bool) : Z := if left then -1 else 0.

(** The columns a level of width [w] needs. *)
Definition need_low (right : bool) (w : nat) : nat := if right then (w / 2 + 1)%nat else ((w + 1) / 2)%nat.
Definition need_high (left right : bool) (w : nat) : nat :=
  ((if left then 1 else 0) + (if right then w / 2 + 1 else w / 2))%nat.

Section Source.
Variable B : Type.
Variable next : B -> res (list Z * B).

(** The source hands out these lines next. *)
Fixpoint emits (b : B) (rows : list (list Z)) : Prop :=
  match rows with
  | [] => True
  | r :: t => exists b', next b = Ok (r, b') /\ emits b' t
  end.

(** A fresh decoder for [P] over the levels [lvs], finest first; for every
    level the number of low and of high columns. *)
Fixpoint coded (left right : bool) (lvs : list (nat * nat)) (w h : nat) (P : plane) (s : stk B) : Prop :=
  match lvs, s with
  | [], LL b => emits b (image P w h)
  | (nl, nh) :: lvs, Lev t b1 b2 b3 below =>
    t = wt_new h w
    /\ emits b1 (band_lines (fun n => colH left right w (rowL h P n)) (from_left left) nh ((h + 1) / 2))
    /\ emits b2 (band_lines (fun n => colL left right w (rowH h P n)) 0 nl (h / 2))
    /\ emits b3 (band_lines (fun n => colH left right w (rowH h P n)) (from_left left) nh (h / 2))
    /\ coded left right lvs nl ((h + 1) / 2) (coarser left right w h P) below
  | _, _ => False
  end.
End Source.
Arguments emits {B} next b rows.
Arguments coded {B} next left right lvs w h P s.

(** Every level has at least three rows and columns and bands wide enough. *)
Fixpoint fits (left right : bool) (lvs : list (nat * nat)) (w h : nat) : Prop :=
  match lvs with
  | [] => True
  | (nl, nh) :: lvs =>
    (3 <= w)%nat /\ (3 <= h)%nat /\ (need_low right w <= nl)%nat /\ (need_high left right w <= nh)%nat
    /\ fits left right lvs nl ((h + 1) / 2)
  end.
