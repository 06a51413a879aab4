(** Specification of Sony ARW image data: the variable length code and scan
    order of the first codec, the blocks of the second and its curve. *)
From Coq Require Import List ZArith Bool.
From Verif Require Import Base CrxImageSpec PefSpec NefSpec.
Import ListNotations.
Open Scope Z_scope.

(** ** First codec: sums of differences, column by column from the right *)

(** zero bits at the start of [l], at most [n] *)
Fixpoint zero_run (n : nat) (l : list bool) : nat :=
  match n, l with S n, false :: t => S (zero_run n t) | _, _ => 0%nat end.
(** length of the code word [l] starts with, and number of bits after it *)
Definition sony_prefix (l : list bool) : nat * nat :=
  match l with
  | true :: true :: _ => (2, 1)
  | true :: false :: _ => (2, 2)
  | false :: true :: true :: _ => (3, 0)
  | false :: true :: false :: _ => (3, 3)
  | _ => let z := zero_run 13 (skipn 2 l) in (2 + Nat.min 13 (z + 1), 4 + z)
  end%nat.
(** bits to difference, as in T.81 but for any number of bits *)
Definition sony_diff (len : nat) (v : Z) : Z :=
  if (len =? 0)%nat then 0 else if v <? 2 ^ Z.of_nat (len - 1) then v - (2 ^ Z.of_nat len - 1) else v.
Definition sony_next (l : list bool) : Z * list bool :=
  let '(k, len) := sony_prefix l in (sony_diff len (peekv len (skipn k l)), skipn (k + len) l).
(** sum of the first [n] differences *)
Fixpoint total (d : nat -> Z) (n : nat) : Z := match n with O => 0 | S m => total d m + d m end.
(** row and column of the k-th sample of an image of even height *)
Definition scan_row (h k : nat) : nat :=
  let j := (k mod h)%nat in (if j <? h / 2 then 2 * j else 2 * (j - h / 2) + 1)%nat.
Definition scan_col (w h k : nat) : nat := (w - 1 - k / h)%nat.

(** encoder *)
Definition sony_word (len : nat) : list bool :=
  match len with
  | O => [false; true; true]
  | 1%nat => [true; true]
  | 2%nat => [true; false]
  | 3%nat => [false; true; false]
  | S (S (S (S z))) => false :: false :: repeat false z ++ [true]
  end.
Definition sony_bits (d : Z) : list bool := sony_word (category d) ++ magnitude d.
Definition scan_value (s : nat -> nat -> Z) (w h k : nat) : Z := s (scan_row h k) (scan_col w h k).
Definition scan_diffs (s : nat -> nat -> Z) (w h : nat) : list Z :=
  map (fun k => scan_value s w h k - (if (k =? 0)%nat then 0 else scan_value s w h (k - 1))) (seq 0 (w * h)).
Definition arw1_encode (s : nat -> nat -> Z) (w h : nat) : list bool := concat (map sony_bits (scan_diffs s w h)).

(** ** Second codec: blocks of 16 samples as little endian bit fields *)

Fixpoint le_value (bs : list Z) : Z := match bs with [] => 0 | b :: t => b + 256 * le_value t end.
(** [n] bits from bit [o] on *)
Definition bits_at (o n : nat) (V : Z) : Z := V / 2 ^ Z.of_nat o mod 2 ^ Z.of_nat n.
Definition block_max (V : Z) : Z := bits_at 0 11 V.
Definition block_min (V : Z) : Z := bits_at 11 11 V.
Definition block_imax (V : Z) : nat := Z.to_nat (bits_at 22 4 V).
Definition block_imin (V : Z) : nat := Z.to_nat (bits_at 26 4 V).
(** number of samples before the i-th that have seven bits of their own *)
Definition others (imax imin i : nat) : list nat :=
  filter (fun k => negb (k =? imax)%nat && negb (k =? imin)%nat) (seq 0 i).
(** bits a block's range exceeds seven bits by *)
Definition excess (delta : Z) : Z := if delta =? 0 then 0 else Z.max 0 (Z.log2 delta + 1 - 7).
Definition block_value (V : Z) (i : nat) : Z :=
  if (i =? block_imax V)%nat then block_max V
  else if (i =? block_imin V)%nat then block_min V
  else Z.min 2047 (block_min V +
    bits_at (30 + 7 * length (others (block_imax V) (block_imin V) i)) 7 V * 2 ^ excess (block_max V - block_min V)).
Definition block_bits (V : Z) : nat := (30 + 7 * length (others (block_imax V) (block_imin V) 16))%nat.
(** the row from its n-th block on, and where that starts *)
Fixpoint from_block (V : Z) (n : nat) : Z :=
  match n with O => V | S m => from_block V m / 2 ^ Z.of_nat (block_bits (from_block V m)) end.
Fixpoint block_start (V : Z) (n : nat) : nat :=
  match n with O => 0%nat | S m => (block_start V m + block_bits (from_block V m))%nat end.
(** the even columns of a stretch of 32 are one block, the odd ones the next *)
Definition block_no (c : nat) : nat := (2 * (c / 32) + c mod 2)%nat.
Definition block_ix (c : nat) : nat := (c mod 32 / 2)%nat.
Definition row_value (V : Z) (c : nat) : Z := block_value (from_block V (block_no c)) (block_ix c).
(** the samples of the last columns that do not fill a stretch stay 0; the noise
    of each row starts with its first 16 bits *)
Definition arw2_line (curve : list Z) (V : Z) (w : nat) : list Z :=
  map (fun c => if (c <? 32 * (w / 32))%nat
    then dithered curve (Z.to_nat (2 * row_value V c)) (noise (V mod 65536) (16 * block_no c + block_ix c)) else 0) (seq 0 w).
Definition row_data (buf : list Z) (w r : nat) : list Z := skipn (r * w) buf.
(** the blocks of a row are inside the data and have their extremes in order *)
Definition row_fits (src : list Z) (w : nat) : Prop :=
  let V := le_value src in let n := (2 * (w / 32))%nat in
  (2 <= length src)%nat /\ (block_start V n <= 8 * length src)%nat /\
  forall k, (k < n)%nat -> block_min (from_block V k) <= block_max (from_block V k).

(** encoder: the first greatest sample, and the first least among the others *)
Definition first_index (P : nat -> bool) : nat := match find P (seq 0 16) with Some i => i | None => 0%nat end.
Definition maxi (v : nat -> Z) : nat := first_index (fun i => forallb (fun k => v k <=? v i) (seq 0 16)).
Definition mini (v : nat -> Z) : nat :=
  first_index (fun i => negb (i =? maxi v)%nat && forallb (fun k => (k =? maxi v)%nat || (v i <=? v k)) (seq 0 16)).
Definition range (v : nat -> Z) : Z := v (maxi v) - v (mini v).
Definition quotient (v : nat -> Z) (i : nat) : Z := (v i - v (mini v)) / 2 ^ excess (range v).
(** what is left of a sample *)
Definition quantized (v : nat -> Z) (i : nat) : Z :=
  if (i =? maxi v)%nat || (i =? mini v)%nat then v i else v (mini v) + quotient v i * 2 ^ excess (range v).
Definition le_fields (fs : list (nat * Z)) : Z := fold_right (fun '(n, x) r => x + 2 ^ Z.of_nat n * r) 0 fs.
Definition block_int (v : nat -> Z) : Z :=
  le_fields ([(11%nat, v (maxi v)); (11%nat, v (mini v)); (4%nat, Z.of_nat (maxi v)); (4%nat, Z.of_nat (mini v))] ++
    map (fun i => (7%nat, quotient v i)) (others (maxi v) (mini v) 16)).
Definition le_bytes (n : nat) (V : Z) : list Z := map (fun i => bits_at (8 * i) 8 V) (seq 0 n).
(** block [n] of row [r] of a picture *)
Definition block_of (s : nat -> nat -> Z) (r n i : nat) : Z := s r (32 * (n / 2) + n mod 2 + 2 * i)%nat.
Definition arw2_encode (s : nat -> nat -> Z) (w h : nat) : list Z :=
  flat_map (fun r => flat_map (fun n => le_bytes 16 (block_int (block_of s r n))) (seq 0 (w / 16))) (seq 0 h).
(** the 16 bits at the start of a row *)
Definition row_seed (s : nat -> nat -> Z) (r : nat) : Z := block_int (block_of s r 0) mod 65536.

(** ** Curve: slopes 1, 2, 4, 8 and 16 between the knots *)
Definition sony_value (c1 c2 c3 c4 j : Z) : Z :=
  Z.min j c1 + 2 * (Z.min j c2 - Z.min j c1) + 4 * (Z.min j c3 - Z.min j c2) + 8 * (Z.min j c4 - Z.min j c3) + 16 * (j - Z.min j c4).
Definition knot_of (v : Z) : Z := v / 4 mod 4096.
Definition sony_table (t1 t2 t3 t4 : Z) : list Z :=
  map (fun j => sony_value (knot_of t1) (knot_of t2) (knot_of t3) (knot_of t4) (Z.of_nat j)) (seq 0 (Z.to_nat 4096)).
