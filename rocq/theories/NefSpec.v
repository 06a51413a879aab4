(** Specification of Nikon NEF image data: the six codes, the header in the maker
    note, the linearization curve and the dithering of the decoded samples. *)
From Coq Require Import List ZArith Bool.
From Verif Require Import Base BitsSpec LjpegAnySpec CrxImageSpec PefSpec.
Import ListNotations.
Open Scope Z_scope.

(** ** Codes: lengths, categories (bits stored after the code word) and shifts
    of 12 bit lossy data, the same after the split row, 12 bit lossless, and the
    three for 14 bit *)
Definition nikon_code (num : nat) : list nat * list nat * list nat :=
  nth num
  [([2; 3; 3; 3; 3; 3; 4; 5; 6; 7; 8; 9; 10; 10], [5; 4; 3; 6; 2; 7; 1; 0; 8; 9; 11; 10; 12; 0], []);
   ([2; 3; 3; 3; 3; 3; 4; 5; 6; 7; 8; 9; 10; 10], [6; 5; 5; 5; 5; 5; 4; 3; 2; 1; 0; 11; 12; 12], [3; 5; 3; 2; 1]);
   ([2; 3; 3; 3; 3; 4; 4; 5; 5; 5; 6; 7; 7], [5; 4; 6; 3; 7; 2; 8; 1; 9; 0; 10; 11; 12], []);
   ([2; 3; 3; 3; 3; 4; 4; 4; 5; 6; 7; 8; 9; 10; 10], [5; 6; 4; 7; 8; 3; 9; 2; 1; 0; 10; 11; 12; 13; 14], []);
   ([2; 3; 3; 3; 3; 3; 4; 5; 6; 7; 8; 9; 10; 11; 11], [8; 7; 7; 7; 7; 7; 6; 5; 4; 3; 2; 1; 0; 13; 14], [0; 5; 4; 3; 2]);
   ([2; 3; 3; 3; 3; 4; 4; 5; 5; 6; 6; 6; 7; 8; 8], [7; 6; 8; 5; 9; 4; 10; 3; 11; 12; 2; 0; 1; 13; 14], [])]%nat
  ([], [], []).

(** ** Header *)
Definition u16_at (big : bool) (l : list Z) (p : nat) : Z :=
  if big then nth p l 0 * 256 + nth (p + 1) l 0 else nth (p + 1) l 0 * 256 + nth p l 0.

Section Header.
  Variable big : bool.
  Variable meta : list Z.
  Variable bps : nat.
  Definition version0 : Z := nth 0 meta 0.
  Definition version1 : Z := nth 1 meta 0.
  (** where the four initial predictors are stored *)
  Definition head_pos : nat := if (version0 =? 73) || (version1 =? 88) then 2112 else 2.
  (** initial predictor of row and column 0 or 1 *)
  Definition head_init (r c : nat) : Z := u16_at big meta (head_pos + (if (r + 2 * c <? 4)%nat then 2 * (r + 2 * c) else 0))%nat.
  (** bits of the stored samples: some cameras say 14 and store 12 *)
  Definition head_bits : nat := if (version0 =? 68) && (version1 =? 64) then (bps - 2)%nat else bps.
  (** number of curve points, and the points *)
  Definition head_csize : nat := Z.to_nat (u16_at big meta (head_pos + 8)).
  Definition head_point (k : nat) : Z := u16_at big meta (head_pos + 10 + 2 * k).
  Definition head_step : nat := if (1 <? head_csize)%nat then (2 ^ head_bits / (head_csize - 1))%nat else 0%nat.
  Definition interpolated : bool := (version0 =? 68) && ((version1 =? 32) || (version1 =? 64)) && (0 <? head_step)%nat.
  Definition tabulated : bool := negb interpolated && negb (version0 =? 70) && (head_csize <=? Z.to_nat 16385)%nat.
  (** a knot of the interpolated curve; the identity after the last one *)
  Definition head_knot (k : nat) : Z := if (k <? head_csize)%nat then head_point k else Z.of_nat (k * head_step).
  Definition head_curve : list Z :=
    if interpolated then
      map (fun i => let b := (i mod head_step)%nat in
        (Z.of_nat (head_step - b) * head_knot (i / head_step) + Z.of_nat b * head_knot (i / head_step + 1)) / Z.of_nat head_step)
        (seq 0 (2 ^ head_bits))
    else if tabulated then map head_point (seq 0 head_csize)
    else map Z.of_nat (seq 0 (2 ^ head_bits)).
  (** row from which on the second code is used, if any *)
  Definition head_split : nat := if interpolated then Z.to_nat (u16_at big meta 562) else 0%nat.
  Definition head_code : nat := ((if (version0 =? 70)%Z then 2 else 0) + (if bps =? 14 then 3 else 0))%nat.
  Definition row_code (r : nat) : nat := if ((0 <? head_split) && (head_split <=? r))%nat then S head_code else head_code.
  (** the code of each sample in reading order *)
  Definition nef_next (w : nat) : nat -> list bool -> Z * list bool := fun i => next_shift (nikon_code (row_code (i / w))).
  (** the maker note entry is complete and its sample size possible *)
  Definition head_ok : Prop :=
    Forall is_byte meta /\ (head_pos + 10 <= length meta)%nat /\ (head_bits <= 15)%nat /\ (version0 = 68 -> version1 = 64 -> (2 <= bps)%nat) /\
    (interpolated = true -> (564 <= length meta)%nat) /\
    (interpolated = true \/ tabulated = true -> (head_pos + 10 + 2 * head_csize <= length meta)%nat).
End Header.

(** ** From stored samples to output *)
(** a stored sample is cut to [bits] bits and put through the curve; the result
    is moved by a pseudo random part of the distance of the neighbouring entries *)
Definition cut (bits : nat) (v : Z) : Z := Z.max 0 (Z.min v (2 ^ Z.of_nat bits - 1)).
Definition dithered (curve : list Z) (v : nat) (rand : Z) : Z :=
  (if nth v curve 0 =? 0 then 0 else nth v curve 0 - (step_of curve v + 2) / 4) + (step_of curve v * (rand mod 2048) + 1024) / 4096.
Fixpoint noise (seed : Z) (n : nat) : Z :=
  match n with
  | O => seed
  | S m => 15700 * (noise seed m mod 65536) + noise seed m / 65536
  end.
(** the seed is the first 24 bits of the data *)
Definition developed (curve : list Z) (bits : nat) (l : list bool) (s : nat -> nat -> Z) (w h : nat) : list Z :=
  map (fun i => dithered curve (Z.to_nat (cut bits (s (i / w)%nat (i mod w)%nat))) (noise (peekv 24 l) i)) (seq 0 (w * h)).
(** a curve with an entry for every sample, none of whose entries overflows *)
Definition curve_for (bits : nat) (curve : list Z) : Prop := (2 ^ bits <= length curve)%nat /\ lut_ok curve.

(** ** Encoders *)
(** a symbol: number of the code word and the value of the bits after it *)
Definition valid_symbol (num : nat) (kv : nat * Z) : Prop :=
  let '(sz, hv, _) := nikon_code num in (fst kv < length sz)%nat /\ 0 <= snd kv < 2 ^ Z.of_nat (nth (fst kv) hv 0%nat).
Definition symbol_bits (num : nat) (kv : nat * Z) : list bool :=
  let '(sz, hv, _) := nikon_code num in
  bits_of (nth (fst kv) sz 0%nat) (codeword sz (fst kv)) ++ bits_of (nth (fst kv) hv 0%nat) (snd kv).
Definition symbol_diff (num : nat) (kv : nat * Z) : Z :=
  let '(_, hv, sh) := nikon_code num in shift_diff (nth (fst kv) hv 0%nat) (nth (fst kv) sh 0%nat) (snd kv).
(** symbols of a picture in reading order *)
Definition symbols_bits (code : nat -> nat) (w : nat) (syms : list (nat * Z)) : list bool :=
  concat (map (fun i => symbol_bits (code (i / w)%nat) (nth i syms (0%nat, 0))) (seq 0 (length syms))).
(** the bits of a picture whose rows all use code [num], one without shifts *)
Definition encode_picture (num : nat) (init s : nat -> nat -> Z) (w h : nat) : list bool :=
  let '(sz, hv, _) := nikon_code num in encode_lanes sz hv init s w h.
(** what becomes of a lossless sample *)
Definition lossless_out (bits : nat) (v rand : Z) : Z :=
  if (0 <? v) && (v <? 2 ^ Z.of_nat bits - 1) && (rand mod 2048 <? 1536) then v - 1 else v.
