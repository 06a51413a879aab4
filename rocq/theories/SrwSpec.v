(** Specification of Samsung image data. *)
From Coq Require Import List ZArith Bool.
From Verif Require Import Base Tiff Pumps PumpProofs LjpegAnySpec CrxImageSpec PefSpec.
Import ListNotations.
Open Scope Z_scope.

(** ** Second format: the code, as length and value of each code word and the
    number of magnitude bits after it *)
Definition srw2_code : list (nat * Z * nat) :=
  [(3%nat, 0, 4%nat); (3%nat, 1, 7%nat); (2%nat, 1, 6%nat); (2%nat, 2, 5%nat); (4%nat, 12, 3%nat); (6%nat, 52, 0%nat); (7%nat, 106, 9%nat); (8%nat, 214, 10%nat);
   (9%nat, 430, 11%nat); (10%nat, 862, 12%nat); (10%nat, 863, 13%nat); (5%nat, 27, 1%nat); (4%nat, 14, 8%nat); (4%nat, 15, 2%nat)].
Definition srw2_next (l : list bool) : Z * list bool :=
  match find (fun '(n, v, _) => peekv n l =? v) srw2_code with
  | Some (n, _, cat) => (difference cat (peekv cat (skipn n l)), skipn (n + cat) l)
  | None => (0, l)
  end.
Definition srw2_bits (d : Z) : list bool :=
  match find (fun '(_, _, cat) => (cat =? category d)%nat) srw2_code with
  | Some (n, v, _) => bits_of n v ++ magnitude d
  | None => []
  end.
Definition srw2_encode (s : nat -> nat -> Z) (w h : nat) : list bool := concat (map srw2_bits (lane_diffs zero_init s w h)).

(** ** First format: rows of groups of 16 columns.  A row may be stored in many
    ways: each group says whether it is predicted from the rows above, and how the
    four bit lengths change: 0 kept, 1 one more, 2 one less, 3 given. *)
Record srw1_form := {
  f_dir : nat -> nat -> bool;                    (* row, group *)
  f_op : nat -> nat -> nat -> nat * nat          (* row, group, which length: change and given value *)
}.
Definition first_len (r : nat) : nat := if (r <? 2)%nat then 7%nat else 4%nat.
Definition change (op : nat * nat) (l : nat) : nat :=
  match fst op with 1 => S l | 2 => l - 1 | 3 => snd op | _ => l end%nat.
(** length [i] in group [g] of row [r] *)
Fixpoint len_before (f : srw1_form) (r g i : nat) : nat :=
  match g with O => first_len r | S m => change (f_op f r m i) (len_before f r m i) end.
Definition len_of (f : srw1_form) (r g i : nat) : nat := change (f_op f r g i) (len_before f r g i).
(** which length the c-th column of a group uses: even and odd columns, halves *)
Definition which_len (c : nat) : nat := (2 * (c mod 2) + c / 8)%nat.
(** the predictor: even columns from the row above or the last even column of
    the group before, odd columns from two rows above or the last odd column *)
Definition srw1_pred (f : srw1_form) (s : nat -> nat -> Z) (r c : nat) : Z :=
  let g := (c / 16)%nat in
  if f_dir f r g then
    if (r =? 0)%nat then 0
    else if (c mod 2 =? 0)%nat then s (r - 1)%nat c else s (if (r =? 1)%nat then 0 else r - 2)%nat c
  else if (g =? 0)%nat then 128 else s r (16 * g - 2 + c mod 2)%nat.
(** [s] is the picture with the corrections [a] *)
Definition srw1_picture (f : srw1_form) (a : nat -> nat -> Z) (w h : nat) (s : nat -> nat -> Z) : Prop :=
  forall r c, (r < h)%nat -> (c < w)%nat -> s r c = (srw1_pred f s r c + a r c) mod 65536.
(** two's complement numbers of [l] bits *)
Definition fits_signed (l : nat) (a : Z) : Prop :=
  if (l =? 0)%nat then a = 0 else - 2 ^ Z.of_nat (l - 1) <= a < 2 ^ Z.of_nat (l - 1).
Definition groups (w : nat) : nat := ((w + 15) / 16)%nat.
Definition form_ok (f : srw1_form) (a : nat -> nat -> Z) (w h : nat) : Prop :=
  forall r g, (r < h)%nat -> (g < groups w)%nat ->
    (forall i, (i < 4)%nat -> (fst (f_op f r g i) < 4)%nat /\ (snd (f_op f r g i) < 16)%nat /\ (len_of f r g i <= 30)%nat /\
      (fst (f_op f r g i) = 2%nat -> (0 < len_before f r g i)%nat)) /\
    (forall c, (c < 16)%nat -> fits_signed (len_of f r g (which_len c)) (a r (16 * g + c)%nat)).
(** the bits of a group: direction, changes, given lengths, even columns, odd columns *)
Definition group_bits (f : srw1_form) (a : nat -> nat -> Z) (r g : nat) : list bool :=
  bits_of 1 (if f_dir f r g then 1 else 0) ++
  flat_map (fun i => bits_of 2 (Z.of_nat (fst (f_op f r g i)))) (seq 0 4) ++
  flat_map (fun i => if (fst (f_op f r g i) =? 3)%nat then bits_of 4 (Z.of_nat (snd (f_op f r g i))) else []) (seq 0 4) ++
  flat_map (fun k => bits_of (len_of f r g (which_len (2 * k))) (a r (16 * g + 2 * k)%nat)) (seq 0 8) ++
  flat_map (fun k => bits_of (len_of f r g (which_len (2 * k + 1))) (a r (16 * g + (2 * k + 1))%nat)) (seq 0 8).
Definition row_bits (f : srw1_form) (a : nat -> nat -> Z) (w r : nat) : list bool :=
  flat_map (group_bits f a r) (seq 0 (groups w)).
(** red and blue change places *)
Definition swapped (s : nat -> nat -> Z) (r c : nat) : Z :=
  if (r mod 2 =? 0)%nat && (c mod 2 =? 1)%nat then s (r + 1)%nat (c - 1)%nat
  else if (r mod 2 =? 1)%nat && (c mod 2 =? 0)%nat then s (r - 1)%nat (c + 1)%nat
  else s r c.
(** rows of 32 bit words, most significant bit first, stored little endian *)
Definition words (bits : list bool) : list Z := swap32 (pack bits).
(** the data of a row begins at byte [off] *)
Definition row_stored (buf : list Z) (off : nat) (bits : list bool) : Prop :=
  (off <= length buf)%nat /\ (exists q, length buf - off = 4 * q)%nat /\ exists rest, byte_bits (swap32 (skipn off buf)) = bits ++ rest.
(** the corrections a picture needs; none after the last column *)
Definition corrections (f : srw1_form) (s : nat -> nat -> Z) (w r c : nat) : Z :=
  if (c <? w)%nat then s r c - srw1_pred f s r c else 0.
Definition srw1_rows (f : srw1_form) (a : nat -> nat -> Z) (w h : nat) : list Z := flat_map (fun r => words (row_bits f a w r)) (seq 0 h).
Definition srw1_offset (f : srw1_form) (a : nat -> nat -> Z) (w r : nat) : nat := length (srw1_rows f a w r).
Definition srw1_offsets (f : srw1_form) (a : nat -> nat -> Z) (w h : nat) : list Z :=
  flat_map (fun r => le_bytes 4 (Z.of_nat (srw1_offset f a w r))) (seq 0 h).
(** every group gives its lengths: 15 bits *)
Definition plain_form (dir : nat -> nat -> bool) : srw1_form := {| f_dir := dir; f_op := fun _ _ _ => (3, 15)%nat |}.
