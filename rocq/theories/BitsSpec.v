(** Specifications for [PropBits].

    Binary floating point patterns: [fw] fraction bits, [ew]
    exponent bits, one sign bit on top (IEEE 754 interchange layout). *)
From Coq Require Import List ZArith.
From Verif Require Import Base Bits.
Import ListNotations.
Open Scope Z_scope.

Definition fsign (fw ew v : Z) : Z := (v / 2 ^ (fw + ew)) mod 2.
Definition fexp (fw ew v : Z) : Z := (v / 2 ^ fw) mod 2 ^ ew.
Definition ffrac (fw v : Z) : Z := v mod 2 ^ fw.
Definition fbias (ew : Z) : Z := 2 ^ (ew - 1) - 1.

Inductive fclass := Finite | Infinite | NotANumber.
Definition classify (fw ew v : Z) : fclass :=
  if fexp fw ew v =? 2 ^ ew - 1 then if ffrac fw v =? 0 then Infinite else NotANumber else Finite.

(** Magnitude times 2^149, an integer for every format with
    [fbias ew + fw <= 150]: the exponent of the last fraction bit is
    [max e 1 - bias - fw]. *)
Definition magnitude (fw ew v : Z) : Z :=
  let e := fexp fw ew v in let f := ffrac fw v in
  (if e =? 0 then f else 2 ^ fw + f) * 2 ^ (Z.max e 1 - fbias ew - fw + 149).

(** the real value times 2^149 *)
Definition scaled (fw ew v : Z) : Z :=
  if fsign fw ew v =? 0 then magnitude fw ew v else - magnitude fw ew v.

(** subnormal: zero exponent and a fraction *)
Definition subnormal (fw ew v : Z) : Prop := fexp fw ew v = 0 /\ ffrac fw v <> 0.

(** Lookup tables *)
(** what the table must satisfy: no entry overflows *)
Definition lower_of (t : list Z) (i : nat) : Z := if (0 <? i)%nat then nth (i - 1) t 0 else nth i t 0.
Definition upper_of (t : list Z) (i : nat) : Z := if (i <? length t - 1)%nat then nth (i + 1) t 0 else nth i t 0.
Definition step_of (t : list Z) (i : nat) : Z := upper_of t i - lower_of t i.
Definition lut_ok (t : list Z) : Prop :=
  Forall is_u16 t /\
  forall i, (i < length t)%nat ->
    0 <= step_of t i < 65534 /\ (nth i t 0 <> 0 -> (step_of t i + 2) / 4 <= nth i t 0) /\
    nth i t 0 - (step_of t i + 2) / 4 + (step_of t i * 2047 + 1024) / 4096 < 65536.

(** Rationals *)
Definition rat_u32 (a : rational) : Prop := is_u32 (r_n a) /\ is_u32 (r_d a).
Definition rat_i32 (a : rational) : Prop := is_i32 (r_n a) /\ is_i32 (r_d a).

(** rationals that denote a number, or infinity when the denominator is zero *)
Definition rat_valid (a : rational) : Prop := rat_u32 a /\ (r_n a <> 0 \/ r_d a <> 0).

(** Encoder of the floating point predictor *)
(** specification of the encoder *)
Definition delta_enc (factor : nat) (row : list Z) : list Z :=
  map (fun i => if (i <? factor)%nat then nth i row 0 else wrap_u8 (nth i row 0 - nth (i - factor) row 0)) (seq 0 (length row)).
(** byte [c] (most significant first) of a sample of [sb] bytes *)
Definition byte_of (sb c : nat) (v : Z) : Z := (v / 2 ^ (8 * Z.of_nat (sb - 1 - c))) mod 256.
Definition planes (sb : nat) (samples : list Z) : list Z :=
  flat_map (fun c => map (byte_of sb c) samples) (seq 0 sb).

Definition fmt (bps : nat) : Z * Z := match bps with 16%nat => (10, 5) | 24%nat => (16, 7) | _ => (23, 8) end.

