(** What demosaicing computes, in terms of the samples of the region of
    interest.  [smp r c] is the sample at row [r] and column [c] of the region
    and [col r c] its colour (0 red, 1 green, 2 blue); the arithmetic [o] is
    arbitrary. *)
From Coq Require Import List ZArith Lia Bool QArith Qcanon.
From Verif Require Import Base Demosaic.
Import ListNotations.
Open Scope nat_scope.

(** The four Bayer patterns RGGB, BGGR, GRBG, GBRG, as character codes. *)
Definition bayer_names : list (list Z) :=
  [[82; 71; 71; 66]; [66; 71; 71; 82]; [71; 82; 66; 71]; [71; 66; 82; 71]]%Z.

(** The colour of the sensor position at row [y], column [x]. *)
Definition sensor_color (name : list Z) (y x : nat) : nat :=
  let ch := nth (2 * (y mod 2) + x mod 2) name 0%Z in
  if (ch =? 82)%Z then 0 else if (ch =? 71)%Z then 1 else 2.

(** The colour numbers of the letters R G B E M Y C. *)
Definition letter_color (ch : Z) : nat :=
  if Z.eqb ch 82 then 0 else if Z.eqb ch 71 then 1 else if Z.eqb ch 66 then 2
  else if Z.eqb ch 77 then 4 else if Z.eqb ch 89 then 5 else 3.
Definition letters : list Z := [82; 71; 66; 69; 77; 89; 67]%Z.

(** The colour at row [y], column [x] of a sensor with a pattern of [pw] columns
    and [ph] rows. *)
Definition pattern_color (name : list Z) (pw ph y x : nat) : nat :=
  letter_color (nth ((y mod ph) * pw + x mod pw) name 0%Z).

Section Spec.
Context {F : Type}.
Variable o : fops F.
Variables (w h : nat) (smp : nat -> nat -> F) (col : nat -> nat -> nat).

Notation "a +' b" := (f_add o a b) (at level 50, left associativity).
Notation "a -' b" := (f_sub o a b) (at level 50, left associativity).
Notation "a *' b" := (f_mul o a b) (at level 40, left associativity).
Notation "a /' b" := (f_div o a b) (at level 40, left associativity).
Notation "# n" := (f_nat o n) (at level 5).
Notation "a <' b" := (f_lt o a b) (at level 70).
Notation dist a b := (f_abs o (a -' b)).

(** Mean of a list, summed from the left; 0 for the empty list. *)
Definition mean (l : list F) : F :=
  match l with [] => #0 | _ => fold_left (f_add o) l #0 /' #(length l) end.

(** The positions of colour [ch] in the square of radius [k] around (r, c),
    inside the region, in reading order. *)
Definition square (k r c ch : nat) : list (nat * nat) :=
  filter (fun yx => let '(y, x) := yx in
            (r <=? y + k) && (y <=? r + k) && (c <=? x + k) && (x <=? c + k) && (col y x =? ch))
    (list_prod (seq 0 h) (seq 0 w)).
Definition square_mean (k r c ch : nat) : F := mean (map (fun yx => smp (fst yx) (snd yx)) (square k r c ch)).

(** ** PPG: patterned pixel grouping *)

(** at least three pixels away from every border *)
Definition inner (r c : nat) : bool := (3 <=? r) && (r + 3 <? h) && (3 <=? c) && (c + 3 <? w).

(** Green at a red or blue pixel [x]: the direction with the least gradient, in
    the order north, east, west, south; [a1] is the next pixel in the
    direction, [a2] the one after it, [b1] the next one in the opposite
    direction. *)
Definition extend (x a1 a2 b1 : F) : F := (a1 *' #3 +' b1 +' x -' a2) /' #4.
Definition pick_green (x n1 n2 e1 e2 s1 s2 w1 w2 : F) : F :=
  let gn := dist x n2 *' #2 +' dist n1 s1 in
  let ge := dist x e2 *' #2 +' dist w1 e1 in
  let gw := dist x w2 *' #2 +' dist w1 e1 in
  let gs := dist x s2 *' #2 +' dist n1 s1 in
  let least := fold_left (fun m g => if g <' m then g else m) [ge; gw; gs] gn in
  if f_eq o least gn then extend x n1 n2 s1
  else if f_eq o least ge then extend x e1 e2 w1
  else if f_eq o least gw then extend x w1 w2 e1
  else extend x s1 s2 n1.

(** the green value everywhere *)
Definition ppg_green (r c : nat) : F :=
  if col r c =? 1 then smp r c
  else if inner r c then
    pick_green (smp r c) (smp (r - 1) c) (smp (r - 2) c) (smp r (c + 1)) (smp r (c + 2))
               (smp (r + 1) c) (smp (r + 2) c) (smp r (c - 1)) (smp r (c - 2))
  else square_mean 1 r c 1.

(** Colour between two samples [v1], [v3] of that colour, following the green
    values [l1], [l2], [l3] when they are monotone. *)
Definition between (l1 l2 l3 v1 v3 : F) : F :=
  if ((l1 <' l2) && (l2 <' l3)) || ((l2 <' l1) && (l3 <' l2))
  then v1 +' (v3 -' v1) *' (l2 -' l1) /' (l3 -' l1)
  else (v1 +' v3) /' #2 +' (l2 *' #2 -' l1 -' l3) /' #4.

(** red at blue or blue at red: along the diagonal with the smaller gradient *)
Definition ppg_diag (r c : nat) : F :=
  let g := ppg_green in
  let ne := dist (smp (r - 1) (c + 1)) (smp (r + 1) (c - 1)) +' dist (smp (r - 2) (c + 2)) (smp r c)
            +' dist (smp r c) (smp (r + 2) (c - 2)) +' dist (g (r - 1) (c + 1)) (g r c) +' dist (g r c) (g (r + 1) (c - 1)) in
  let nw := dist (smp (r - 1) (c - 1)) (smp (r + 1) (c + 1)) +' dist (smp (r - 2) (c - 2)) (smp r c)
            +' dist (smp r c) (smp (r + 2) (c + 2)) +' dist (g (r - 1) (c - 1)) (g r c) +' dist (g r c) (g (r + 1) (c + 1)) in
  if ne <' nw
  then between (g (r - 1) (c + 1)) (g r c) (g (r + 1) (c - 1)) (smp (r - 1) (c + 1)) (smp (r + 1) (c - 1))
  else between (g (r - 1) (c - 1)) (g r c) (g (r + 1) (c + 1)) (smp (r - 1) (c - 1)) (smp (r + 1) (c + 1)).

(** channel [ch] of pixel (r, c) *)
Definition ppg_at (r c ch : nat) : F :=
  if ch =? col r c then smp r c
  else if negb (inner r c) then square_mean 1 r c ch
  else if ch =? 1 then ppg_green r c
  else if col r c =? 1 then
    if ch =? col r (c + 1)
    then between (ppg_green r (c - 1)) (smp r c) (ppg_green r (c + 1)) (smp r (c - 1)) (smp r (c + 1))
    else between (ppg_green (r - 1) c) (smp r c) (ppg_green (r + 1) c) (smp (r - 1) c) (smp (r + 1) c)
  else ppg_diag r c.

(** ** Four channel bilinear *)

(** The nearest coordinates with the other ([true]) or the same parity. *)
Definition nearest (n x : nat) (other : bool) : list nat :=
  if negb other then [x] else if x =? 0 then [1] else if x =? n - 1 then [n - 2] else [x - 1; x + 1].

(** Mean of one, two or four samples. *)
Definition small_mean (l : list F) : F :=
  match l with
  | [] => #0
  | [a] => a
  | a :: l' => fold_left (f_add o) l' a /' #(length l)
  end.

(** The colour found [drow] rows and [dcol] columns (0 or 1) away from pixel
    (r, c). *)
Definition bilinear_at (r c : nat) (drow dcol : bool) : F :=
  small_mean (map (fun yx => smp (fst yx) (snd yx)) (list_prod (nearest h r drow) (nearest w c dcol))).

(** ** Superpixel: one pixel from a block of four *)

Definition block (i j : nat) : list (nat * nat) :=
  [(2 * i, 2 * j); (2 * i, 2 * j + 1); (2 * i + 1, 2 * j); (2 * i + 1, 2 * j + 1)].
Definition block_samples (i j ch : nat) : list F :=
  map (fun yx => smp (fst yx) (snd yx)) (filter (fun yx => col (fst yx) (snd yx) =? ch) (block i j)).

End Spec.

(** Exact rational arithmetic, for statements about the values. *)
Definition qops : fops Qc := {|
  f_nat n := Q2Qc (inject_Z (Z.of_nat n));
  f_add := Qcplus; f_sub := Qcminus; f_mul := Qcmult; f_div := Qcdiv;
  f_abs x := if Qclt_le_dec x 0 then Qcopp x else x;
  f_lt x y := if Qclt_le_dec x y then true else false;
  f_eq x y := if Qc_eq_dec x y then true else false
|}.
