(** What level scaling and black level estimation should do. *)
From Coq Require Import List ZArith Lia Bool.
From Verif Require Import Geom Demosaic.
Import ListNotations.
Open Scope nat_scope.

Section Spec.
Context {F : Type}.
Variable o : fops F.
Variable neg : F -> bool.

(** The sample relative to the usable range, not below zero. *)
Definition scaled (s black white : F) : F :=
  f_div o (if neg (f_sub o s black) then f_nat o 0 else f_sub o s black) (f_sub o white black).

(** The level that applies at a sensor position: four levels are a 2 x 2 tile,
    otherwise the first level is used everywhere. *)
Definition tile_level {A} (levels : list A) (d : A) (y x : nat) : A :=
  if length levels =? 4 then nth (2 * (y mod 2) + x mod 2) levels d else nth 0 levels d.

(** Positions of the masked areas, and the mean of the samples at those that
    fall on place [k] of a repeating [cw] x [ch] tile. *)
Definition masked (areas : list rect) : list (nat * nat) :=
  flat_map (fun a => list_prod (seq (r_y a) (r_h a)) (seq (r_x a) (r_w a))) areas.
Definition masked_samples (areas : list rect) (cw ch k : nat) (smp : nat -> nat -> F) : list F :=
  map (fun p => smp (fst p) (snd p)) (filter (fun p => fst p mod ch * cw + snd p mod cw =? k) (masked areas)).
Definition masked_mean (areas : list rect) (cw ch k : nat) (smp : nat -> nat -> F) : F :=
  let l := masked_samples areas cw ch k smp in
  f_div o (fold_left (f_add o) l (f_nat o 0)) (f_nat o (length l)).
End Spec.
