(** The CRW code: blocks of 64 differences to the pixel two to the left. *)
From Coq Require Import List ZArith Bool.
From Verif Require Import Base.
Import ListNotations.
Open Scope Z_scope.

(** a symbol of the first or second table, or a number of raw bits *)
Inductive tok := TLeaf (second : bool) (v : Z) | TBits (len v : Z).

(** the reader delivers these *)
Inductive feed {S} (leaf : bool -> S -> res (Z * S)) (bits : Z -> S -> res (Z * S)) : S -> list tok -> S -> Prop :=
| feed_nil s : feed leaf bits s [] s
| feed_leaf s s1 s2 b v l : leaf b s = Ok (v, s1) -> feed leaf bits s1 l s2 -> feed leaf bits s (TLeaf b v :: l) s2
| feed_bits s s1 s2 n v l : bits n s = Ok (v, s1) -> feed leaf bits s1 l s2 -> feed leaf bits s (TBits n v :: l) s2.

(** the code of the differences of a block from index [i] on: end of block, one
    zero, a run of zeros, or zeros and a value of [len] bits *)
Definition later (i : nat) : bool := negb (Nat.eqb i 0).
Inductive codes : nat -> list Z -> list tok -> Prop :=
| co_end : codes 64 [] []
| co_eob i : (0 < i < 64)%nat -> codes i (repeat 0 (64 - i)) [TLeaf true 0]
| co_zero i d l : codes (i + 1) d l -> (i < 64)%nat -> codes i (0 :: d) (TLeaf (later i) 255 :: l)
| co_run i r d l : codes (i + r + 1) d l -> (i + r < 64)%nat -> (r <= 15)%nat -> (i = 0 \/ 0 < r)%nat ->
    codes i (repeat 0 (r + 1) ++ d) (TLeaf (later i) (16 * Z.of_nat r) :: l)
| co_val i r len v d l : codes (i + r + 1) d l -> (i + r < 64)%nat -> (r <= 15)%nat -> 1 <= len <= 15 -> ~ (r = 15%nat /\ len = 15) ->
    2 ^ (len - 1) <= Z.abs v < 2 ^ len ->
    codes i (repeat 0 r ++ v :: d) (TLeaf (later i) (16 * Z.of_nat r + len) :: TBits len (if 0 <? v then v else v + 2 ^ len - 1) :: l).

(** the prediction of pixel [n], its difference, and what is coded for block [b]:
    the first difference as the change against the block before *)
Definition pred (w : nat) (px : nat -> Z) (n : nat) : Z := if (n mod w <? 2)%nat then 512 else px (n - 2)%nat.
Definition diff (w : nat) (px : nat -> Z) (n : nat) : Z := px n - pred w px n.
Definition coded (w : nat) (px : nat -> Z) (b : nat) : list Z :=
  (diff w px (64 * b) - match b with O => 0 | S b => diff w px (64 * b) end) :: map (diff w px) (seq (64 * b + 1) 63).

(** the byte with the low bits of four pixels, and what a picture of the width
    2672 is changed to *)
Definition low_byte (pic : nat -> Z) (j : nat) : Z :=
  pic (4 * j)%nat mod 4 + 4 * (pic (4 * j + 1)%nat mod 4) + 16 * (pic (4 * j + 2)%nat mod 4) + 64 * (pic (4 * j + 3)%nat mod 4).
Definition shown (w : nat) (v : Z) : Z := if (w =? 2672)%nat && (v <? 512) then v + 2 else v.
