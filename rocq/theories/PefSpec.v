(** Specification of Pentax and Nikon image data: sequences of Huffman coded
    differences, the two-lane predictor, the encoder, and what the header tables
    must be. *)
From Coq Require Import List ZArith Bool.
From Verif Require Import Base LjpegAnySpec CrxImageSpec.
Import ListNotations.
Open Scope Z_scope.

(** ** A sequence of coded differences
    [next i l] is the i-th difference, coded at the start of [l], and the bits
    after it. *)
Fixpoint bits_after (next : nat -> list bool -> Z * list bool) (l : list bool) (n : nat) : list bool :=
  match n with
  | O => l
  | S m => snd (next m (bits_after next l m))
  end.
Definition diff_at (next : nat -> list bool -> Z * list bool) (l : list bool) (i : nat) : Z :=
  fst (next i (bits_after next l i)).
(** there are 32 bits left (the decoder looks ahead) before each of the first
    [n] differences *)
Definition data_for (next : nat -> list bool -> Z * list bool) (l : list bool) (n : nat) : Prop :=
  forall i, (i < n)%nat -> (32 <= length (bits_after next l i))%nat.

(** ** The predictor: the sample two columns to the left, in the first two columns
    the sample two rows above, in the first four samples [init] *)
Definition lane_pred (init : nat -> nat -> Z) (s : nat -> nat -> Z) (r c : nat) : Z :=
  if (2 <=? c)%nat then s r (c - 2)%nat else if (2 <=? r)%nat then s (r - 2)%nat c else init r c.
(** [s] is the picture the differences [d] (in reading order) describe *)
Definition lane_picture (init : nat -> nat -> Z) (d : nat -> Z) (w h : nat) (s : nat -> nat -> Z) : Prop :=
  forall r c, (r < h)%nat -> (c < w)%nat -> s r c = lane_pred init s r c + d (r * w + c)%nat.

(** ** Huffman tables with shifts (lossy NEF after the split row)
    A table is lengths, categories and shifts.  A category [cat] with shift
    [sh] stores the upper [cat] bits of a difference of [cat + sh] bits; the
    middle of the interval is decoded. *)
Definition shift_diff (cat sh : nat) (v : Z) : Z :=
  if (cat =? 0)%nat then 0
  else if (sh =? 0)%nat then difference cat v
  else (if v <? 2 ^ Z.of_nat (cat - 1) then v - 2 ^ Z.of_nat cat else v) * 2 ^ Z.of_nat sh + 2 ^ Z.of_nat (sh - 1).
Definition next_shift (tab : list nat * list nat * list nat) (l : list bool) : Z * list bool :=
  let '(sz, hv, sh) := tab in
  match find (fun k => peekv (nth k sz 0%nat) l =? codeword sz k) (seq 0 (length sz)) with
  | Some k =>
    let len := nth k sz 0%nat in let cat := nth k hv 0%nat in
    (shift_diff cat (nth k sh 0%nat) (peekv cat (skipn len l)), skipn (len + cat) l)
  | None => (0, l)
  end.

(** ** Encoder *)
(** number of magnitude bits of a difference (T.81 table F.1) *)
Definition category (d : Z) : nat := if d =? 0 then 0%nat else Z.to_nat (Z.log2 (Z.abs d) + 1).
Definition magnitude (d : Z) : list bool :=
  bits_of (category d) (if d <? 0 then d + 2 ^ Z.of_nat (category d) - 1 else d).
Definition code_of (sz hv : list nat) (cat : nat) : option nat :=
  find (fun k => (nth k hv 0 =? cat)%nat) (seq 0 (length sz)).
(** nothing for differences without a code *)
Definition encode_diff (sz hv : list nat) (d : Z) : list bool :=
  match code_of sz hv (category d) with
  | Some k => bits_of (nth k sz 0%nat) (codeword sz k) ++ magnitude d
  | None => []
  end.
(** the differences of a picture in reading order *)
Definition lane_diffs (init : nat -> nat -> Z) (s : nat -> nat -> Z) (w h : nat) : list Z :=
  map (fun i => s (i / w)%nat (i mod w)%nat - lane_pred init s (i / w)%nat (i mod w)%nat) (seq 0 (w * h)).
Definition encode_lanes (sz hv : list nat) (init : nat -> nat -> Z) (s : nat -> nat -> Z) (w h : nat) : list bool :=
  concat (map (encode_diff sz hv) (lane_diffs init s w h)).
(** bytes of a bit string followed by four bytes of whatever comes next *)
Definition stored (bits : list bool) (tail : list Z) : list Z := pack bits ++ tail.
(** samples in reading order *)
Definition samples (s : nat -> nat -> Z) (w h : nat) : list Z :=
  map (fun i => s (i / w)%nat (i mod w)%nat) (seq 0 (w * h)).

(** a table with a code for each category up to [n] *)
Definition covers (sz hv : list nat) (n : nat) : Prop :=
  forall cat, (cat <= n)%nat -> code_of sz hv cat <> None.

(** ** The Huffman table of a PEF maker note
    [codes] is the code (left aligned in 12 bits) and length of each symbol:
    the canonical code whose symbols in code order are [hv] and lengths [sz]. *)
Definition canonical_table (codes : list (Z * nat)) (sz hv : list nat) : Prop :=
  length sz = length codes /\ length hv = length codes /\ NoDup hv /\
  (forall k, (k < length codes)%nat -> (nth k hv 0 < length codes)%nat) /\
  (forall i j, (i <= j < length sz)%nat -> (nth i sz 0 <= nth j sz 0)%nat) /\
  (forall k, (k < length sz)%nat -> (1 <= nth k sz 0 <= 12)%nat) /\
  kraft sz <= 65536 /\
  (forall k, (k < length codes)%nat ->
    nth (nth k hv 0%nat) codes (0, 0%nat) = (codeword sz k * 2 ^ Z.of_nat (12 - nth k sz 0%nat), nth k sz 0%nat)).
Definition put16 (big : bool) (v : Z) : list Z := if big then [v / 256; v mod 256] else [v mod 256; v / 256].
(** the maker note entry: number of symbols (plus 4, modulo 16), 12 bytes of
    other data, the codes, the lengths *)
Definition pef_entry (big : bool) (skipped : list Z) (codes : list (Z * nat)) : list Z :=
  put16 big (Z.of_nat ((length codes + 4) mod 16)) ++ skipped ++
  flat_map (fun c => put16 big (fst c)) codes ++ map (fun c => Z.of_nat (snd c)) codes.
(** the table of cameras that store none *)
Definition pentax_sizes : list nat := [2; 2; 3; 3; 3; 4; 5; 6; 7; 8; 9; 10; 10]%nat.
Definition pentax_cats : list nat := [3; 4; 2; 5; 1; 6; 0; 7; 8; 9; 10; 11; 12]%nat.
(** where the table of an image comes from, and its lengths and categories *)
Definition pef_source (huff : option (list Z * bool)) (sz hv : list nat) : Prop :=
  match huff with
  | Some (data, big) => exists skipped codes, data = pef_entry big skipped codes /\ length skipped = 12%nat /\
      (1 <= length codes <= 15)%nat /\ canonical_table codes sz hv
  | None => sz = pentax_sizes /\ hv = pentax_cats
  end.
Definition pef_next (sz hv : list nat) : nat -> list bool -> Z * list bool := fun _ => next_diff false (sz, hv).
Definition zero_init : nat -> nat -> Z := fun _ _ => 0.
(** a picture whose differences have at most [n] magnitude bits *)
Definition diffs_within (init : nat -> nat -> Z) (s : nat -> nat -> Z) (w h n : nat) : Prop :=
  forall r c, (r < h)%nat -> (c < w)%nat -> Z.abs (s r c - lane_pred init s r c) < 2 ^ Z.of_nat n.
Definition picture_within (s : nat -> nat -> Z) (w h : nat) (m : Z) : Prop :=
  forall r c, (r < h)%nat -> (c < w)%nat -> 0 <= s r c < m.
