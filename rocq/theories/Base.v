(** Shared vocabulary of the model: result type with panics, checked list
    access, bit lists.  No repository code is modelled here except the Rust
    primitive operations named in the comments. *)
From Coq Require Import List ZArith Lia Bool.
From Coq Require Import ZifyBool ZifyNat.
Import ListNotations.
Open Scope Z_scope.

(** Outcome of a Rust function: [Ok], [Err] (a [Result::Err], message dropped)
    or [Panic] (index out of bounds, overflow, failed assertion, unwrap). *)
Inductive res (A : Type) : Type :=
| Ok (a : A)
| Err
| Panic.
Arguments Ok {A} a.
Arguments Err {A}.
Arguments Panic {A}.

Definition bind {A B} (r : res A) (f : A -> res B) : res B :=
  match r with Ok a => f a | Err => Err | Panic => Panic end.

Notation "'do' x <- e ; f" := (bind e (fun x => f))
  (at level 200, x pattern, e at level 100, f at level 200, right associativity).

Definition check (b : bool) : res unit := if b then Ok tt else Err.
Definition assert_ (b : bool) : res unit := if b then Ok tt else Panic.

(** [v[i]] on a slice: panics when out of bounds. *)
Definition get {A} (l : list A) (i : nat) : res A :=
  match nth_error l i with Some a => Ok a | None => Panic end.

(** [v[i] = a] on a slice: panics when out of bounds. *)
Fixpoint upd_list {A} (l : list A) (i : nat) (a : A) : list A :=
  match l, i with
  | [], _ => []
  | _ :: t, O => a :: t
  | h :: t, S i' => h :: upd_list t i' a
  end.

Definition put {A} (l : list A) (i : nat) (a : A) : res (list A) :=
  if (i <? length l)%nat then Ok (upd_list l i a) else Panic.

(** [&v[a..b]]: panics when [a > b] or [b > len]. *)
Definition slice {A} (l : list A) (a b : nat) : res (list A) :=
  if ((a <=? b)%nat && (b <=? length l)%nat)%bool
  then Ok (firstn (b - a) (skipn a l)) else Panic.

(** [a - b] on an unsigned type (debug semantics: underflow panics). *)
Definition usub (a b : nat) : res nat :=
  if (b <=? a)%nat then Ok (a - b)%nat else Panic.

(** [for i in l { st = f(i, st)? }] *)
Fixpoint for_each {A S} (l : list A) (f : A -> S -> res S) (s : S) : res S :=
  match l with
  | [] => Ok s
  | a :: t => do s' <- f a s; for_each t f s'
  end.

(** Casts. *)
Definition wrap_u8 (z : Z) : Z := z mod 2 ^ 8.
Definition wrap_u16 (z : Z) : Z := z mod 2 ^ 16.
Definition wrap_u32 (z : Z) : Z := z mod 2 ^ 32.
Definition wrap_u64 (z : Z) : Z := z mod 2 ^ 64.
Definition wrap_i16 (z : Z) : Z := (z + 2 ^ 15) mod 2 ^ 16 - 2 ^ 15.
Definition wrap_i32 (z : Z) : Z := (z + 2 ^ 31) mod 2 ^ 32 - 2 ^ 31.

Definition is_byte (b : Z) : Prop := 0 <= b < 256.
Definition is_u16 (b : Z) : Prop := 0 <= b < 65536.

(** ** Bit lists, most significant bit first *)
Fixpoint bits_of (n : nat) (v : Z) : list bool :=
  match n with
  | O => []
  | S n' => Z.testbit v (Z.of_nat n') :: bits_of n' v
  end.

Fixpoint bval (l : list bool) : Z :=
  match l with
  | [] => 0
  | b :: t => Z.b2z b * 2 ^ Z.of_nat (length t) + bval t
  end.

Definition byte_bits (bs : list Z) : list bool := flat_map (bits_of 8) bs.

(** First [n] bits of [l] extended with zero bits. *)
Fixpoint take0 (n : nat) (l : list bool) : list bool :=
  match n with
  | O => []
  | S n' => match l with
            | [] => false :: take0 n' []
            | b :: t => b :: take0 n' t
            end
  end.

(** Value of the next [n] bits (zero bits after the end). *)
Definition peekv (n : nat) (l : list bool) : Z := bval (take0 n l).
