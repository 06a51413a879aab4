(** Specification of the chroma-subsampled LJPEG pictures and of the Hasselblad
    variant: which differences of the data make which sample. *)
From Coq Require Import List ZArith Bool.
From Verif Require Import Base LjpegDec LjpegAnySpec CrxImageSpec PefSpec.
Import ListNotations.
Open Scope Z_scope.

(** a luma plane and two chroma planes *)
Record planes := mk_planes { pl_y : nat -> nat -> Z; pl_cb : nat -> nat -> Z; pl_cr : nat -> nat -> Z }.
(** the decoded picture: Y, Cb, Cr per pixel; two columns and [v] rows share a
    chroma sample *)
Definition interleaved (v : nat) (q : planes) (r x : nat) : Z :=
  match (x mod 3)%nat with
  | 0%nat => pl_y q r (x / 3)%nat
  | 1%nat => pl_cb q (r / v)%nat (x / 6)%nat
  | _ => pl_cr q (r / v)%nat (x / 6)%nat
  end.
(** all samples of a picture of [bh] x [bw] blocks fit into 16 bits *)
Definition fits16 (v bw bh : nat) (q : planes) : Prop :=
  (forall r c, (r < v * bh)%nat -> (c < 2 * bw)%nat -> 0 <= pl_y q r c < 65536) /\
  (forall r c, (r < bh)%nat -> (c < bw)%nat -> 0 <= pl_cb q r c < 65536 /\ 0 <= pl_cr q r c < 65536).

(** tables of the symbols of a block, given those of the three components *)
Definition tab (tabs : list (list nat * list nat)) (c : nat) : list nat * list nat := nth c tabs ([], []).
Definition block_tabs (v : nat) (tabs : list (list nat * list nat)) : list (list nat * list nat) :=
  repeat (tab tabs 0) (2 * v) ++ [tab tabs 1; tab tabs 2].

(** Chroma: predicted from the left neighbour, in the first column from above *)
Definition chroma_from (base : Z) (p : nat -> nat -> Z) (r c : nat) : Z :=
  if (c =? 0)%nat then (if (r =? 0)%nat then base else p (r - 1)%nat 0%nat) else p r (c - 1)%nat.

(** 4:2:2, four differences per block *)
Definition diffs_422 (base : Z) (bw bh : nat) (d : nat -> Z) (q : planes) : Prop :=
  forall r c, (r < bh)%nat -> (c < bw)%nat ->
  let k := (4 * (r * bw + c))%nat in
  pl_y q r (2 * c) = (if (c =? 0)%nat then (if (r =? 0)%nat then base else pl_y q (r - 1) 0) else pl_y q r (2 * c - 1)) + d k /\
  pl_y q r (2 * c + 1) = pl_y q r (2 * c) + d (k + 1)%nat /\
  pl_cb q r c = chroma_from base (pl_cb q) r c + d (k + 2)%nat /\
  pl_cr q r c = chroma_from base (pl_cr q) r c + d (k + 3)%nat.
(** 4:2:0 as Canon stores it: the four luma samples of a block form one chain, and
    the next block continues from the last one *)
Definition diffs_420 (base : Z) (bw bh : nat) (d : nat -> Z) (q : planes) : Prop :=
  forall r c, (r < bh)%nat -> (c < bw)%nat ->
  let k := (6 * (r * bw + c))%nat in
  pl_y q (2 * r) (2 * c) = (if (c =? 0)%nat then (if (r =? 0)%nat then base else pl_y q (2 * r - 2) 0) else pl_y q (2 * r + 1) (2 * c - 1)) + d k /\
  pl_y q (2 * r) (2 * c + 1) = pl_y q (2 * r) (2 * c) + d (k + 1)%nat /\
  pl_y q (2 * r + 1) (2 * c) = pl_y q (2 * r) (2 * c + 1) + d (k + 2)%nat /\
  pl_y q (2 * r + 1) (2 * c + 1) = pl_y q (2 * r + 1) (2 * c) + d (k + 3)%nat /\
  pl_cb q r c = chroma_from base (pl_cb q) r c + d (k + 4)%nat /\
  pl_cr q r c = chroma_from base (pl_cr q) r c + d (k + 5)%nat.
(** 4:2:0 as Sony stores it: each line is predicted from its own left neighbour *)
Definition diffs_sony (base : Z) (bw bh : nat) (d : nat -> Z) (q : planes) : Prop :=
  forall r c, (r < bh)%nat -> (c < bw)%nat ->
  let k := (6 * (r * bw + c))%nat in
  pl_y q (2 * r) (2 * c) = (if (c =? 0)%nat then (if (r =? 0)%nat then base else pl_y q (2 * r - 2) 0) else pl_y q (2 * r) (2 * c - 1)) + d k /\
  pl_y q (2 * r) (2 * c + 1) = pl_y q (2 * r) (2 * c) + d (k + 1)%nat /\
  pl_y q (2 * r + 1) (2 * c) = (if (c =? 0)%nat then pl_y q (2 * r) 0 else pl_y q (2 * r + 1) (2 * c - 1)) + d (k + 2)%nat /\
  pl_y q (2 * r + 1) (2 * c + 1) = pl_y q (2 * r + 1) (2 * c) + d (k + 3)%nat /\
  pl_cb q r c = chroma_from base (pl_cb q) r c + d (k + 4)%nat /\
  pl_cr q r c = chroma_from base (pl_cr q) r c + d (k + 5)%nat.

(** first component sampled [h] x [v] *)
Definition sampled (d : ljdec) (h v : Z) : Prop :=
  exists c0, nth_error (sof_comps (ld_sof d)) 0 = Some c0 /\ jc_super_h c0 = h /\ jc_super_v c0 = v.
(** the middle of the value range *)
Definition half_range (d : ljdec) : Z := 2 ^ Z.of_nat (sof_precision (ld_sof d) - ld_pt d - 1).

(** ** Encoding *)
(** the differences of a picture in the order of the data *)
Definition delta_422 (base : Z) (bw : nat) (q : planes) (k : nat) : Z :=
  let b := (k / 4)%nat in let r := (b / bw)%nat in let c := (b mod bw)%nat in
  match (k mod 4)%nat with
  | 0%nat => pl_y q r (2 * c) - (if (c =? 0)%nat then (if (r =? 0)%nat then base else pl_y q (r - 1) 0) else pl_y q r (2 * c - 1))
  | 1%nat => pl_y q r (2 * c + 1) - pl_y q r (2 * c)
  | 2%nat => pl_cb q r c - chroma_from base (pl_cb q) r c
  | _ => pl_cr q r c - chroma_from base (pl_cr q) r c
  end.
Definition delta_420 (base : Z) (bw : nat) (q : planes) (k : nat) : Z :=
  let b := (k / 6)%nat in let r := (b / bw)%nat in let c := (b mod bw)%nat in
  match (k mod 6)%nat with
  | 0%nat => pl_y q (2 * r) (2 * c) - (if (c =? 0)%nat then (if (r =? 0)%nat then base else pl_y q (2 * r - 2) 0) else pl_y q (2 * r + 1) (2 * c - 1))
  | 1%nat => pl_y q (2 * r) (2 * c + 1) - pl_y q (2 * r) (2 * c)
  | 2%nat => pl_y q (2 * r + 1) (2 * c) - pl_y q (2 * r) (2 * c + 1)
  | 3%nat => pl_y q (2 * r + 1) (2 * c + 1) - pl_y q (2 * r + 1) (2 * c)
  | 4%nat => pl_cb q r c - chroma_from base (pl_cb q) r c
  | _ => pl_cr q r c - chroma_from base (pl_cr q) r c
  end.
Definition delta_sony (base : Z) (bw : nat) (q : planes) (k : nat) : Z :=
  let b := (k / 6)%nat in let r := (b / bw)%nat in let c := (b mod bw)%nat in
  match (k mod 6)%nat with
  | 0%nat => pl_y q (2 * r) (2 * c) - (if (c =? 0)%nat then (if (r =? 0)%nat then base else pl_y q (2 * r - 2) 0) else pl_y q (2 * r) (2 * c - 1))
  | 1%nat => pl_y q (2 * r) (2 * c + 1) - pl_y q (2 * r) (2 * c)
  | 2%nat => pl_y q (2 * r + 1) (2 * c) - (if (c =? 0)%nat then pl_y q (2 * r) 0 else pl_y q (2 * r + 1) (2 * c - 1))
  | 3%nat => pl_y q (2 * r + 1) (2 * c + 1) - pl_y q (2 * r + 1) (2 * c)
  | 4%nat => pl_cb q r c - chroma_from base (pl_cb q) r c
  | _ => pl_cr q r c - chroma_from base (pl_cr q) r c
  end.
(** [n] differences, coded with the tables in turn *)
Definition encode_turns (tabs : list (list nat * list nat)) (d : nat -> Z) (n : nat) : list bool :=
  flat_map (fun k => encode_diff (fst (turn tabs k)) (snd (turn tabs k)) (d k)) (seq 0 n).
(** a zero byte after each 0xFF (T.81 B.1.1.5) *)
Definition escaped (l : list Z) : list Z := flat_map (fun b => if b =? 255 then [255; 0] else [b]) l.
(** the data of a scan, and what follows it *)
Definition scan_data (bits : list bool) (rest : list Z) : list Z := escaped (pack bits) ++ rest.
Definition small_diffs (d : nat -> Z) (n : nat) : Prop := forall k, (k < n)%nat -> Z.abs (d k) < 32768.

(** ** Hasselblad *)
(** two differences: both code words come before both magnitudes *)
Definition pair_diff (bug : bool) (t : list nat * list nat) (l : list bool) : Z * Z * list bool :=
  let '(len1, cat1) := symbol t l in
  let l1 := skipn len1 l in
  let '(len2, cat2) := symbol t l1 in
  let l2 := skipn len2 l1 in
  let l3 := skipn (magnitude_bits bug cat1) l2 in
  (difference cat1 (peekv cat1 l2), difference cat2 (peekv cat2 l3), skipn (magnitude_bits bug cat2) l3).
Fixpoint after_pairs (bug : bool) (t : list nat * list nat) (l : list bool) (n : nat) : list bool :=
  match n with O => l | S m => snd (pair_diff bug t (after_pairs bug t l m)) end.
(** the difference of the sample [i] of the data *)
Definition hass_diff (bug : bool) (t : list nat * list nat) (l : list bool) (i : nat) : Z :=
  let '(a, b, _) := pair_diff bug t (after_pairs bug t l (i / 2)) in if (i mod 2 =? 0)%nat then a else b.
(** each row starts at 32768; the even and the odd samples are two sequences *)
Definition hass_sample (d : nat -> Z) (w r c : nat) : Z :=
  (32768 + fold_right Z.add 0 (map (fun j => d (r * w + 2 * j + c mod 2)%nat) (seq 0 (S (c / 2))))) mod 65536.
(** a word of four bytes is stored with its last byte first *)
Fixpoint words_reversed (l : list Z) : list Z :=
  match l with a :: b :: c :: d :: t => d :: c :: b :: a :: words_reversed t | _ => l end.

(** ** Leaf *)
(** strips of eight rows separated by restart markers, then the end marker *)
Definition leaf_data (first : list Z) (others : list (Z * list Z)) (rest : list Z) : list Z :=
  escaped first ++ flat_map (fun p => 255 :: fst p :: escaped (snd p)) others ++ 255 :: 217 :: rest.
Definition leaf_strip (first : list Z) (others : list (Z * list Z)) (k : nat) : list Z := nth k (first :: map snd others) [].
Definition separator (m : Z) : Prop := is_byte m /\ m <> 0 /\ m <> 255 /\ m <> 217.
(** each sample is predicted from the one two columns to the left, in the first
    two columns from the row above, in the first row of a strip from [base] *)
Definition leaf_pred (base : Z) (s : nat -> nat -> Z) (r c : nat) : Z :=
  if (2 <=? c)%nat then s r (c - 2)%nat else if (r mod 8 =? 0)%nat then base else s (r - 1)%nat c.
Definition leaf_picture (base : Z) (d : nat -> nat -> Z) (w h : nat) (s : nat -> nat -> Z) : Prop :=
  forall r c, (r < h)%nat -> (c < w)%nat -> s r c = (leaf_pred base s r c + d (r / 8)%nat (r mod 8 * w + c)%nat) mod 65536.
(** even rows from the top, odd rows from the bottom *)
Definition interlaced_row (h r : nat) : nat := if (r <? (h + 1) / 2)%nat then (2 * r)%nat else (2 * (h - 1 - r) + 1)%nat.
