(** Specification of Kodak DCR image data: rows in segments of up to 256
    samples; a segment gives the bit lengths of its differences, four bits each, and
    then the differences in 16 bit words, from the lowest bit on. *)
From Coq Require Import List ZArith Bool.
From Verif Require Import Base SonySpec NefSpec.
Import ListNotations.
Open Scope Z_scope.

(** the number made of words *)
Fixpoint words_value (f : nat -> Z) (n : nat) : Z :=
  match n with O => 0 | S n => words_value f n + 2 ^ Z.of_nat (16 * n) * f n end.
Definition be_word (buf : list Z) (p k : nat) : Z := 256 * nth (p + 2 * k) buf 0 + nth (p + 2 * k + 1) buf 0.

(** ** A segment at [p] *)
Section Segment.
  Variables (buf : list Z) (p size : nat).
  Definition seg_len (i : nat) : nat :=
    let b := nth (p + i / 2) buf 0 in Z.to_nat (if (i mod 2 =? 0)%nat then b mod 16 else b / 16).
  Definition seg_bit (i : nat) : nat := list_sum (map seg_len (seq 0 i)).
  (** words: an extra one for some sizes, then two at a time *)
  Definition words_for (size bits : nat) : nat :=
    let extra := if (size mod 8 =? 4)%nat then 1%nat else 0%nat in (extra + 2 * ((bits + 31 - 16 * extra) / 32))%nat.
  Definition seg_words : nat := words_for size (seg_bit size).
  Definition seg_code (i : nat) : Z := bits_at (seg_bit i) (seg_len i) (words_value (be_word buf (p + (size + 1) / 2)) seg_words).
  Definition seg_end : nat := (p + (size + 1) / 2 + 2 * seg_words)%nat.
End Segment.
(** the difference of a code of [len] bits *)
Definition code_diff (len : nat) (v : Z) : Z :=
  if (len =? 0)%nat then 0 else if v <? 2 ^ Z.of_nat (len - 1) then v - (2 ^ Z.of_nat len - 1) else v.
Definition seg_diff (buf : list Z) (p size i : nat) : Z := code_diff (seg_len buf p i) (seg_code buf p size i).
(** samples: sums of the differences of the same parity, never below zero *)
Fixpoint lane (d : nat -> Z) (par k : nat) : Z :=
  match k with O => 0 | S k => Z.max 0 (lane d par k + d (2 * k + par)%nat) end.
Definition seg_sample (d : nat -> Z) (i : nat) : Z := lane d (i mod 2) (S (i / 2)) mod 65536.

(** ** The image: segments row by row *)
Definition segs (w : nat) : nat := ((w + 255) / 256)%nat.
Definition seg_size (w g : nat) : nat := Nat.min 256 (w - 256 * (g mod segs w)).
Fixpoint seg_start (buf : list Z) (w g : nat) : nat :=
  match g with O => 0%nat | S g => seg_end buf (seg_start buf w g) (seg_size w g) end.
Definition dcr_sample (buf : list Z) (w r c : nat) : Z :=
  let g := (r * segs w + c / 256)%nat in seg_sample (seg_diff buf (seg_start buf w g) (seg_size w g)) (c mod 256).
(** what comes out for samples [s]: the curve with dithering *)
Definition through_curve (curve : list Z) (s : nat -> nat -> Z) (w h : nat) : list Z :=
  map (fun i => dithered curve (Z.to_nat (s (i / w) (i mod w))%nat) (noise 0 i)) (seq 0 (w * h)).

(** ** Encoder *)
Fixpoint len_upto (m : nat) (d : Z) : nat :=
  match m with O => 0%nat | S m => if Z.abs d <? 2 ^ Z.of_nat m then len_upto m d else S m end.
Definition diff_len (d : Z) : nat := len_upto 15 d.
Definition diff_code (d : Z) : Z := if d <? 0 then d + (2 ^ Z.of_nat (diff_len d) - 1) else d.
Section Store.
  (** differences of a segment *)
  Variables (d : nat -> Z) (size : nat).
  Definition len_byte (k : nat) : Z :=
    Z.of_nat (diff_len (d (2 * k)%nat)) + 16 * (if (2 * k + 1 <? size)%nat then Z.of_nat (diff_len (d (2 * k + 1)%nat)) else 0).
  Definition diff_bits : nat := list_sum (map (fun i => diff_len (d i)) (seq 0 size)).
  Definition diff_value : Z := le_fields (map (fun i => (diff_len (d i), diff_code (d i))) (seq 0 size)).
  Definition store_segment : list Z :=
    map len_byte (seq 0 ((size + 1) / 2)) ++
    flat_map (fun k => [bits_at (16 * k + 8) 8 diff_value; bits_at (16 * k) 8 diff_value]) (seq 0 (words_for size diff_bits)).
End Store.
Definition sample_diff (s : nat -> nat -> Z) (r col i : nat) : Z := s r (col + i)%nat - (if (i <? 2)%nat then 0 else s r (col + i - 2)%nat).
Definition dcr_encode (s : nat -> nat -> Z) (w h : nat) : list Z :=
  flat_map (fun g => store_segment (sample_diff s (g / segs w) (256 * (g mod segs w))) (seg_size w g)) (seq 0 (h * segs w)).
