(** Specification of LJPEG decoding of arbitrary (corrupt) input: canonical
    Huffman decoding of a bit string, the predictor recurrence and the ranges of
    header values. *)
From Coq Require Import List ZArith Bool.
From Verif Require Import Base Pumps LjpegDec.
Import ListNotations.
Open Scope Z_scope.

(** ** Canonical Huffman codes (ITU T.81 annex C) *)
(** code lengths in table order from the 16 counts of a DHT segment *)
Definition sizes_of (bits : list nat) : list nat := flat_map (fun n => repeat n (nth n bits 0%nat)) (seq 1 16).
(** share of the code space taken by codes of these lengths, in units of 2^-16 *)
Definition kraft (sz : list nat) : Z := fold_right Z.add 0 (map (fun s => 2 ^ (16 - Z.of_nat s)) sz).
(** the k-th code word: what the codes before it take, cut to its length *)
Definition codeword (sz : list nat) (k : nat) : Z := kraft (firstn k sz) / 2 ^ (16 - Z.of_nat (nth k sz 0%nat)).

(** A table is a list of code lengths and a list of categories.  Length and
    category of the code word a bit string starts with; (0, 0) if it starts
    with none. *)
Definition symbol (tab : list nat * list nat) (l : list bool) : nat * nat :=
  match find (fun k => peekv (nth k (fst tab) 0%nat) l =? codeword (fst tab) k) (seq 0 (length (fst tab))) with
  | Some k => (nth k (fst tab) 0%nat, nth k (snd tab) 0%nat)
  | None => (0, 0)%nat
  end.
(** bits after the code word; none for category 16 unless the file has the DNG
    1.0 bug *)
Definition magnitude_bits (bug : bool) (cat : nat) : nat := if (cat =? 16)%nat then (if bug then 16%nat else 0%nat) else cat.
(** T.81 table H.2 and figure F.12 *)
Definition difference (cat : nat) (v : Z) : Z :=
  if (cat =? 0)%nat then 0 else if (cat =? 16)%nat then -32768
  else if v <? 2 ^ Z.of_nat (cat - 1) then v - (2 ^ Z.of_nat cat - 1) else v.
Definition next_diff (bug : bool) (tab : list nat * list nat) (l : list bool) : Z * list bool :=
  let '(len, cat) := symbol tab l in
  (difference cat (peekv cat (skipn len l)), skipn (len + magnitude_bits bug cat) l).

(** ** A scan: the components take turns *)
Definition turn (tabs : list (list nat * list nat)) (i : nat) : list nat * list nat := nth (i mod length tabs) tabs ([], []).
(** bits left after the first [n] symbols *)
Fixpoint after (bug : bool) (tabs : list (list nat * list nat)) (l : list bool) (n : nat) : list bool :=
  match n with
  | O => l
  | S m => snd (next_diff bug (turn tabs m) (after bug tabs l m))
  end.
(** the i-th difference *)
Definition diff_no (bug : bool) (tabs : list (list nat * list nat)) (l : list bool) (i : nat) : Z :=
  fst (next_diff bug (turn tabs i) (after bug tabs l i)).

(** ** Prediction (T.81 H.1.2.1) from samples [s], [comps] interleaved *)
Definition predicted (px comps : nat) (base : Z) (s : nat -> nat -> Z) (r c : nat) : Z :=
  if (r =? 0)%nat then (if (c <? comps)%nat then base else s 0%nat (c - comps)%nat)
  else if (c <? comps)%nat then s (r - 1)%nat c
  else
    let ra := s r (c - comps)%nat in let rb := s (r - 1)%nat c in let rc := s (r - 1)%nat (c - comps)%nat in
    match px with
    | 1%nat => ra | 2%nat => rb | 3%nat => rc
    | 4%nat => ra + rb - rc
    | 5%nat => ra + Z.shiftr (rb - rc) 1
    | 6%nat => rb + Z.shiftr (ra - rc) 1
    | _ => Z.shiftr (ra + rb) 1
    end.

(** ** Headers *)
Definition in_range (d : ljdec) : Prop :=
  let s := ld_sof d in
  1 <= Z.of_nat (sof_width s) <= 65535 /\ Z.of_nat (sof_height s) <= 65535 /\ (10 <= sof_precision s <= 16)%nat /\
  (1 <= sof_cps s <= 4)%nat /\ (sof_cps s <= length (sof_comps s))%nat /\ (ld_pred d <= 255)%nat /\ (ld_pt d <= 15)%nat /\
  length (ld_dhts d) = 4%nat /\ Forall (fun c => jc_tbl c <= 3)%nat (sof_comps s).

(** a table built from a DHT segment whose codes fit into the code space *)
Definition dht_table (bug : bool) (t : hufft) (bits hv : list nat) : Prop :=
  ht_new bits hv bug = Ok t /\ length bits = 17%nat /\ length hv = 256%nat /\ Forall (fun v => v <= 255)%nat bits /\
  Forall (fun v => v <= 255)%nat hv /\ kraft (sizes_of bits) <= 65536.

(** every component has a table of categories up to 16; [tabs] are these tables *)
Definition usable (bug : bool) (d : ljdec) (tabs : list (list nat * list nat)) : Prop :=
  length tabs = length (sof_comps (ld_sof d)) /\
  forall c, (c < length tabs)%nat -> exists jc t bits hv,
    nth_error (sof_comps (ld_sof d)) c = Some jc /\ nth_error (ld_dhts d) (jc_tbl jc) = Some t /\
    ht_new bits hv bug = Ok t /\ nth c tabs ([], []) = (sizes_of bits, hv) /\
    forall k, (k < length (sizes_of bits))%nat -> (nth k hv 0 <= 16)%nat.

(** positions of an output buffer a decoder of [h] rows of [w] samples at column
    [x] may write: whole pixels, and the first pixel even if there are no rows *)
Definition in_frame (ncomp sw x w h j : nat) : Prop :=
  exists r c, j = (r * sw + x + c)%nat /\
    ((r < h)%nat /\ (c < (w + (ncomp - 1)) / ncomp * ncomp)%nat \/ r = 0%nat /\ (c < ncomp)%nat).

(** ** Sample files *)
(** one 10 bit component, 2 x 2, DHT with a 1-bit code of category 0 and a 2-bit
    code of category 3, predictor 1; scan 0 | 10 101 | 0 | 10 010 | fill *)
Definition any_file : list Z :=
  [255; 216; 255; 195; 0; 11; 10; 0; 2; 0; 2; 1; 0; 17; 0;
   255; 196; 0; 21; 0; 1; 1; 0; 0; 0; 0; 0; 0; 0; 0; 0; 0; 0; 0; 0; 0; 0; 3;
   255; 218; 0; 8; 1; 0; 0; 1; 0; 0;  85; 39; 255; 217].
(** two SOF segments of one component each, 1 x 1 *)
Definition two_sofs : list Z :=
  [255; 216; 255; 195; 0; 11; 10; 0; 1; 0; 1; 1; 0; 17; 0; 255; 195; 0; 11; 10; 0; 1; 0; 1; 1; 1; 17; 0;
   255; 196; 0; 21; 0; 1; 1; 0; 0; 0; 0; 0; 0; 0; 0; 0; 0; 0; 0; 0; 0; 0; 3;
   255; 218; 0; 8; 1; 1; 0; 1; 0; 0;  85; 39; 255; 217].
(** no DHT segment *)
Definition no_dht : list Z :=
  [255; 216; 255; 195; 0; 11; 10; 0; 1; 0; 1; 1; 0; 17; 0; 255; 218; 0; 8; 1; 0; 0; 1; 0; 0; 0; 0].
(** a DHT segment of one 1-bit code with category [cat] *)
Definition one_code (cat : Z) : list Z :=
  [255; 216; 255; 195; 0; 11; 10; 0; 1; 0; 1; 1; 0; 17; 0;
   255; 196; 0; 20; 0; 1; 0; 0; 0; 0; 0; 0; 0; 0; 0; 0; 0; 0; 0; 0; 0; cat;
   255; 218; 0; 8; 1; 0; 0; 1; 0; 0; 0; 0].
(** a DHT segment of three 1-bit codes *)
Definition three_codes : list Z :=
  [255; 216; 255; 195; 0; 11; 10; 0; 1; 0; 1; 1; 0; 17; 0;
   255; 196; 0; 22; 0; 3; 0; 0; 0; 0; 0; 0; 0; 0; 0; 0; 0; 0; 0; 0; 0; 0; 1; 2;
   255; 218; 0; 8; 1; 0; 0; 1; 0; 0; 0; 0].
