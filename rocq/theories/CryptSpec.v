(** Specification vocabulary for the maker note ciphers, independent of the
    loops in Crypt.v. *)
From Coq Require Import List ZArith Bool.
From Verif Require Import Base Tiff.
Import ListNotations.
Open Scope Z_scope.

(** Nikon key stream in closed form: byte [i] after the start is masked with
    the low byte of  K + S * (96 * (i+1) + i*(i+1)/2),
    K and S being the table entries chosen by key and serial number. *)
Definition nikon_mask (s k : Z) (i : nat) : Z :=
  (k + s * (96 * Z.of_nat (S i) + Z.of_nat i * Z.of_nat (S i) / 2)) mod 256.

(** Sony key stream: a seed sequence [s] of 127 words from a linear congruential
    generator, byte-swapped, continued by a two-tap feedback recurrence. *)
Definition lcg (v : Z) : Z := (v * 48828125 + 1) mod 2 ^ 32.
Definition mix (a b c d : Z) : Z := Z.lor ((Z.lxor a c * 2) mod 2 ^ 32) (Z.lxor b d / 2 ^ 31).

Definition sony_seed (key : Z) (s : nat -> Z) : Prop :=
  let k1 := lcg key in let k2 := lcg k1 in let k3 := lcg k2 in let k4 := lcg k3 in
  s 0%nat = k1 /\ s 1%nat = k2 /\ s 2%nat = k3 /\
  s 3%nat = Z.lor ((k4 * 2) mod 2 ^ 32) (Z.lxor k1 k3 / 2 ^ 31) /\
  (forall p, (4 <= p < 127)%nat -> s p = mix (s (p - 4)%nat) (s (p - 3)%nat) (s (p - 2)%nat) (s (p - 1)%nat)).

Definition sony_stream (key : Z) (w : nat -> Z) : Prop :=
  exists s, sony_seed key s /\
  (forall p, (p < 127)%nat -> w p = dec BE (enc LE 4 (s p))) /\
  (forall p, w (p + 127)%nat = Z.lxor (w p) (w (p + 64)%nat)).

(** the [i]th little endian word of a byte string *)
Definition word_at (buf : list Z) (pos : nat) : Z := dec LE (firstn 4 (skipn pos buf)).
