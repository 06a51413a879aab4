(** Specification of Canon CR2 images: where the samples of the frame belong, how
    subsampled chroma is completed, and the colour conversion of sRAW data. *)
From Coq Require Import List ZArith Bool.
From Verif Require Import Base PefSpec.
Import ListNotations.
Open Scope Z_scope.

(** ** Fields
    The frame holds the image cut into vertical fields of widths [fws], one after the
    other, each row by row: place of the sample of row [r] and column [c]. *)
Fixpoint field_pos (fws : list nat) (h r c : nat) : nat :=
  match fws with
  | [] => 0%nat
  | f :: t => if (c <? f)%nat then (r * f + c)%nat else (f * h + field_pos t h r (c - f))%nat
  end.
(** a picture cut into fields *)
Fixpoint store_fields (s : nat -> nat -> Z) (fws : list nat) (h start : nat) : list Z :=
  match fws with
  | [] => []
  | f :: t => samples (fun r c => s r (start + c)%nat) f h ++ store_fields s t h (start + f)
  end.

(** Frames with two lines per block: pairs of rows.  The upper rows of all pairs, put
    one after the other, form one line; it is cut into the upper rows of the fields.
    [ljw] is the width of the frame, [fw] of a field, [h] the height of the image. *)
Definition pair_pos (ljw fw h r c : nat) : nat :=
  let n := (c / fw * (h / 2 * fw) + r / 2 * fw + c mod fw)%nat in   (* place in that line *)
  (n / ljw * (2 * ljw) + n mod ljw + r mod 2 * ljw)%nat.

(** ** Chroma
    Pictures of pixels with three channels: row, column, channel (0 is luma). *)
Definition pixels : Type := nat -> nat -> nat -> Z.
Definition mean (a b : Z) : Z := (a + b + 1) / 2.
(** columns in pairs: the second of a pair gets the mean of its neighbours, the last
    one keeps what it has; [w] pixels per row *)
Definition across (w : nat) (p : pixels) : pixels := fun r x ch =>
  if (ch =? 0)%nat then p r x ch
  else if (x mod 2 =? 1)%nat && (x + 1 <? w)%nat then mean (p r (x - 1)%nat ch) (p r (x + 1)%nat ch)
  else p r x ch.
(** rows [which]: mean of the rows above and below *)
Definition down (which : nat -> bool) (h : nat) (p : pixels) : pixels := fun r x ch =>
  if (ch =? 0)%nat then p r x ch
  else if which r && (r + 1 <? h)%nat then mean (p (r - 1)%nat x ch) (p (r + 1)%nat x ch)
  else p r x ch.
(** the middle row of every three *)
Definition middle (r : nat) : bool := (r mod 3 =? 1)%nat.
(** the rows without chroma of their own *)
Definition lower (r : nat) : bool := (r mod 2 =? 1)%nat.
Definition completed (sh sv w h : nat) (p : pixels) : pixels :=
  let p := if (sh =? 2)%nat then across w p else p in
  if (sv =? 2)%nat then down middle h p else p.
(** samples in reading order *)
Definition pixel_samples (p : pixels) (w h : nat) : list Z :=
  map (fun j => p (j / 3 / w)%nat ((j / 3) mod w)%nat (j mod 3)%nat) (seq 0 (w * 3 * h)).
(** a picture of samples seen as pixels *)
Definition as_pixels (s : nat -> nat -> Z) : pixels := fun r x ch => s r (x * 3 + ch)%nat.

(** ** Colour *)
Definition clamp16 (x : Z) : Z := Z.max 0 (Z.min 65535 x).
(** luma and chroma differences of a pixel to R, G, B before the factors *)
Definition rgb_first (y cb cr : Z) : Z * Z * Z := (y + cr, y + (-778 * cb - 2048 * cr) / 4096, y + cb).
Definition rgb_second (hue y cb cr : Z) : Z * Z * Z :=
  let cb := 4 * cb + hue in
  let cr := 4 * cr + hue in
  (y + (50 * cb + 22929 * cr) / 16384, y + (-5640 * cb - 11751 * cr) / 16384, y + (29040 * cb - 101 * cr) / 16384).
(** generation 0: chroma differences added, luma 512 too high; 1: matrix; 2: as 0
    without the excess *)
Definition rgb_of (generation : nat) (hue : Z) (y cb cr : Z) : Z * Z * Z :=
  match generation with
  | O => rgb_first (y - 512) cb cr
  | 1%nat => rgb_second hue y cb cr
  | _ => rgb_first y cb cr
  end.
(** factors are in units of 1/256 *)
Definition developed (generation : nat) (f : Z * Z * Z) (hue : Z) (p : pixels) : pixels := fun r x ch =>
  let '(c1, c2, c3) := f in
  let '(R, G, B) := rgb_of generation hue (p r x 0%nat) (p r x 1%nat - 16383) (p r x 2%nat - 16383) in
  clamp16 (match ch with O => c1 * R | 1%nat => c2 * G | _ => c3 * B end / 256).
(** fifteen bit samples, as sRAW files have them *)
Definition fifteen_bits (p : pixels) (w h : nat) : Prop :=
  forall r x ch, (r < h)%nat -> (x < w)%nat -> (ch < 3)%nat -> 0 <= p r x ch < 32768.
Definition small_factors (f : Z * Z * Z) : Prop :=
  let '(a, b, c) := f in 0 <= a <= 8192 /\ 0 <= b <= 8192 /\ 0 <= c <= 8192.
(** factors from the four values in the maker note: red, two greens, blue; some models
    store the reciprocals of red and blue *)
Definition white_balance (reciprocal : bool) (r g1 g2 b : Z) : Z * Z * Z :=
  let inv x := if reciprocal then 2 ^ 20 / x else x in (inv r, (g1 + g2) / 2, inv b).
(** generations of cameras *)
Definition generation (hint_40d hint_new : bool) : nat := match hint_40d, hint_new with true, _ => 0 | false, true => 2 | false, false => 1 end.
(** what is added to chroma differences: [n] pixels share them; [model] and [firmware]
    tell cameras from the EOS 5D Mark III's generation on, or with a later firmware, apart *)
Definition hue_of (model firmware : option Z) (n : nat) : Z :=
  match model with
  | None => 0
  | Some m =>
    let later := (0x80000281 <=? m) || ((m =? 0x80000218) && match firmware with Some f => 1000006 <? f | None => false end) in
    if later then (Z.of_nat n - 1) / 2 else Z.of_nat n
  end.
Definition sraw_picture (gen : nat) (f : Z * Z * Z) (hue : Z) (complete : bool) (sv w h : nat) (p : pixels) : list Z :=
  pixel_samples (developed gen f hue (if complete then completed 2 sv w h p else p)) w h.
