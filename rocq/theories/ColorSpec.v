(** What colour conversion should do, in exact arithmetic. *)
From Coq Require Import List ZArith Lia Bool QArith Qcanon.
From Verif Require Import Base Demosaic Color.
Import ListNotations.
Open Scope nat_scope.

Section Spec.
Context {F : Type}.
Variable o : fops F.

(** the response of row [k] of a matrix with three columns *)
Definition response (m : list (list F)) (k : nat) (x : nat -> F) : F :=
  f_add o (f_add o (f_mul o (mij o m k 0) (x 0)) (f_mul o (mij o m k 1) (x 1))) (f_mul o (mij o m k 2) (x 2)).

(** only the zero vector has zero response in all [n] rows *)
Definition independent (n : nat) (m : list (list F)) : Prop :=
  forall x, (forall k, k < n -> response m k x = f_nat o 0) -> x 0 = f_nat o 0 /\ x 1 = f_nat o 0 /\ x 2 = f_nat o 0.
End Spec.

Definition unit_entry (i j : nat) : Qc := if i =? j then 1%Qc else 0%Qc.

(** decimals with seven digits *)
Definition dec7 (n : Z) : Qc := Q2Qc (n # 10000000).
Definition dec5 (n : Z) : Qc := Q2Qc (n # 100000).

(** The constants of xyz.rs:100-104, 142-154 and chromatic_adaption.rs:9-22. *)
Definition srgb_to_xyz : list (list Qc) :=
  map (map dec7) [[4124564; 3575761; 1804375]; [2126729; 7151522; 721750]; [193339; 1191920; 9503041]]%Z.
Definition bradford : list (list Qc) :=
  map (map dec7) [[8951000; 2664000; -1614000]; [-7502000; 17135000; 367000]; [389000; -685000; 10296000]]%Z.
Definition bradford_inv : list (list Qc) :=
  map (map dec7) [[9869929; -1470543; 1599627]; [4323053; 5183603; 492912]; [-85287; 400428; 9684867]]%Z.
Definition white (i : illuminant) : list Qc :=
  map dec5 match i with
  | IllA => [109850; 100000; 35585]
  | IllB => [99072; 100000; 85223]
  | IllC => [98074; 100000; 118232]
  | D50 => [96422; 100000; 82521]
  | D55 | Flash => [95682; 100000; 92149]
  | D75 => [94972; 100000; 122638]
  | _ => [95047; 100000; 108883]
  end%Z.

(** the larger number *)
Definition qmax (a b : Qc) : Qc := if Qclt_le_dec a b then b else a.

(** equal up to [e] *)
Definition close (e a b : Qc) : Prop := (- e <= a - b <= e)%Qc.

(** a row of xyz2cam times the sRGB primaries *)
Definition primary (x2c srgb : list (list Qc)) (i j : nat) : Qc :=
  (nth 0 (nth i x2c []) 0 * nth j (nth 0 srgb []) 0 + nth 1 (nth i x2c []) 0 * nth j (nth 1 srgb []) 0
   + nth 2 (nth i x2c []) 0 * nth j (nth 2 srgb []) 0)%Qc.

Definition qsum (n : nat) (f : nat -> Qc) : Qc := fold_left Qcplus (map f (seq 0 n)) 0%Qc.
