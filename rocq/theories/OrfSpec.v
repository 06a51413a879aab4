(** Specification of Olympus compressed image data: how a value is written, the
    adaptive state, the prediction, the encoder. *)
From Coq Require Import List ZArith Bool.
From Verif Require Import Base PefSpec SonySpec.
Import ListNotations.
Open Scope Z_scope.

(** ** The adaptive state of a column parity
    magnitude of the last value, running correction, number of small values since
    the last large one *)
Definition orf_carry : Type := Z * Z * Z.
Definition orf_fresh : orf_carry := (0, 0, 0).
(** number of binary digits *)
Definition digits (a : Z) : nat := if a =? 0 then 0%nat else Z.to_nat (Z.log2 a + 1).
(** number of low bits of the next magnitude *)
Definition orf_width (k : orf_carry) : nat :=
  let '(a, _, n) := k in
  let i := if n <? 3 then 2%nat else 0%nat in
  Nat.min 16 (Nat.max (2 + i) (digits a - i)).
(** the state after the magnitude [a] and difference [d] *)
Definition orf_after (k : orf_carry) (a d : Z) : orf_carry :=
  let '(_, c, n) := k in (a, (3 * d + c) / 32, if 16 <? a then 0 else n + 1).
(** the signed number of a sign and a magnitude *)
Definition signed (neg : bool) (a : Z) : Z := if neg then - a - 1 else a.

(** ** Reading a value
    sign, two low bits, the high part of the magnitude in unary (or 12 zeros and
    the number itself with one bit more), the low part of the magnitude *)
Definition orf_read (k : orf_carry) (l : list bool) : Z * orf_carry * list bool :=
  let nb := orf_width k in
  let neg := nth 0 l false in
  let low := peekv 2 (skipn 1 l) in
  let z := zero_run 12 (skipn 3 l) in
  let '(high, l) := if (z =? 12)%nat then (peekv (16 - nb) (skipn 15 l) / 2, skipn (31 - nb) l) else (Z.of_nat z, skipn (4 + z) l) in
  let a := high * 2 ^ Z.of_nat nb + peekv nb l in
  let d := signed neg a + snd (fst k) in
  (4 * d + low, orf_after k a d, skipn nb l).

(** ** The sequence of values
    [e] values per row; the two column parities alternate; each row starts
    afresh.  The state is that of the next column, that of the column after it,
    and the bits left. *)
Definition orf_at_row (e i : nat) (st : orf_carry * orf_carry * list bool) : orf_carry * orf_carry * list bool :=
  if (i mod e =? 0)%nat then (orf_fresh, orf_fresh, snd st) else st.
Definition orf_next (e i : nat) (st : orf_carry * orf_carry * list bool) : Z * (orf_carry * orf_carry * list bool) :=
  let '(k1, k2, l) := orf_at_row e i st in
  let '(v, k, l) := orf_read k1 l in
  (v, (k2, k, l)).
Fixpoint orf_upto (e : nat) (l : list bool) (n : nat) : orf_carry * orf_carry * list bool :=
  match n with
  | O => (orf_fresh, orf_fresh, l)
  | S m => snd (orf_next e m (orf_upto e l m))
  end.
Definition orf_value_at (e : nat) (l : list bool) (i : nat) : Z := fst (orf_next e i (orf_upto e l i)).
(** 32 bits left before each of the first [n] values *)
Definition orf_data (e : nat) (l : list bool) (n : nat) : Prop :=
  forall i, (i < n)%nat -> (32 <= length (snd (orf_upto e l i)))%nat.

(** ** Prediction *)
Definition orf_gradient (left up nw : Z) : Z :=
  if (left <? nw) && (nw <? up) || (up <? nw) && (nw <? left) then
    if (Z.abs (left - nw) <=? 32) && (Z.abs (up - nw) <=? 32) then (left + up) / 2 else left + up - nw
  else if Z.abs (left - nw) <=? Z.abs (up - nw) then up
  else left.
Definition orf_pred (s : nat -> nat -> Z) (r c : nat) : Z :=
  match (r <? 2)%nat, (c <? 2)%nat with
  | true, true => 0
  | true, false => s r (c - 2)%nat
  | false, true => s (r - 2)%nat c
  | false, false => orf_gradient (s r (c - 2)%nat) (s (r - 2)%nat c) (s (r - 2)%nat (c - 2)%nat)
  end.
(** [s] is the picture of the values [v], [e] columns wide *)
Definition orf_picture (v : nat -> Z) (e h : nat) (s : nat -> nat -> Z) : Prop :=
  forall r c, (r < h)%nat -> (c < e)%nat -> s r c = orf_pred s r c + v (r * e + c)%nat.
(** columns come in pairs *)
Definition paired (w : nat) : nat := (w / 2 * 2)%nat.
Definition orf_out (s : nat -> nat -> Z) (w : nat) (r c : nat) : Z := if (c <? paired w)%nat then s r c else 0.

(** ** Encoder *)
Definition unsigned (x : Z) : bool * Z := if x <? 0 then (true, - x - 1) else (false, x).
Definition orf_code (nb : nat) (low : Z) (neg : bool) (a : Z) : list bool :=
  let high := a / 2 ^ Z.of_nat nb in
  neg :: bits_of 2 low ++
  (if high <? 12 then repeat false (Z.to_nat high) ++ [true] else repeat false 12 ++ bits_of (15 - nb) high ++ [false]) ++
  bits_of nb (a mod 2 ^ Z.of_nat nb).
Definition orf_write (k : orf_carry) (v : Z) : list bool * orf_carry :=
  let d := v / 4 in
  let '(neg, a) := unsigned (d - snd (fst k)) in
  (orf_code (orf_width k) (v mod 4) neg a, orf_after k a d).
(** [n] values from the [i]-th on *)
Fixpoint orf_encode_from (e : nat) (v : nat -> Z) (i n : nat) (k1 k2 : orf_carry) : list bool :=
  match n with
  | O => []
  | S m =>
    let '(k1, k2) := if (i mod e =? 0)%nat then (orf_fresh, orf_fresh) else (k1, k2) in
    let '(b, k) := orf_write k1 (v i) in
    b ++ orf_encode_from e v (S i) m k2 k
  end.
(** the values of a picture *)
Definition orf_values (s : nat -> nat -> Z) (e : nat) (i : nat) : Z := s (i / e)%nat (i mod e)%nat - orf_pred s (i / e) (i mod e).
Definition orf_encode (s : nat -> nat -> Z) (w h : nat) : list bool :=
  orf_encode_from (paired w) (orf_values s (paired w)) 0 (paired w * h) orf_fresh orf_fresh.
(** size of the header before the data *)
Definition orf_header (bps : nat) : nat := if (bps =? 14)%nat then 8%nat else 7%nat.
