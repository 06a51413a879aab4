(** Specification of a CRX image: layout of the image data, sizes of the bands,
    quantization steps and the picture. *)
From Coq Require Import List ZArith Bool.
From Verif Require Import Base CrxSpec IdwtSpec CrxImage.
Import ListNotations.
Open Scope Z_scope.

(** ** Layout *)

Definition be16 (v : Z) : list Z := [v / 256; v mod 256].
Definition be32 (v : Z) : list Z := be16 (v / 65536) ++ be16 (v mod 65536).

(** A band: its bytes, how many of them at the end are unused, and the
    quantization (one parameter in old records, base and multiplier in new ones). *)
Record cband := mk_cband { cb_bytes : list Z; cb_unused : Z; cb_q : Z; cb_base : Z; cb_mult : Z }.
(** A plane; with [cp_pred] its first band is coded with prediction. *)
Record cplane := mk_cplane { cp_pred : bool; cp_bands : list cband }.
(** A tile; it may start with a coded QP table and padding. *)
Record ctile := mk_ctile { ct_qp : list Z; ct_pad : list Z; ct_planes : list cplane }.

Definition zlen {A} (l : list A) : Z := Z.of_nat (length l).

Definition plane_bytes (p : cplane) : list Z := concat (map cb_bytes (cp_bands p)).
Definition tile_bytes (t : ctile) : list Z := ct_qp t ++ ct_pad t ++ concat (map plane_bytes (ct_planes t)).

Definition numbered {A B} (f : Z -> A -> list B) (l : list A) : list B :=
  concat (map (fun '(i, x) => f (Z.of_nat i) x) (combine (seq 0 (length l)) l)).

(** Records of the header, in the old or the new form; [qp]: with QP tables. *)
Definition band_record (new : bool) (i : Z) (b : cband) : list Z :=
  if new then
    be16 0xFF13 ++ be16 16 ++ be32 (zlen (cb_bytes b)) ++ be16 (i mod 16 * 2 ^ 12) ++ be16 (cb_mult b)
    ++ be32 (cb_base b mod 2 ^ 32) ++ be16 (cb_unused b) ++ be16 0
  else
    be16 0xFF03 ++ be16 8 ++ be32 (zlen (cb_bytes b)) ++ be32 (i mod 16 * 2 ^ 28 + cb_q b * 2 ^ 19 + cb_unused b).
Definition plane_record (new : bool) (i : Z) (p : cplane) : list Z :=
  be16 (if new then 0xFF12 else 0xFF02) ++ be16 8 ++ be32 (zlen (plane_bytes p))
  ++ be32 (i mod 16 * 2 ^ 28 + (if cp_pred p then 2 ^ 27 else 0)) ++ numbered (band_record new) (cp_bands p).
Definition tile_record (new qp : bool) (i : Z) (t : ctile) : list Z :=
  be16 (if new then 0xFF11 else 0xFF01) ++ be16 (if qp then 16 else 8) ++ be32 (zlen (tile_bytes t))
  ++ be32 (i mod 16 * 2 ^ 16 + (if qp then 0x4000 else 0))
  ++ (if qp then be32 (zlen (ct_qp t)) ++ be16 (zlen (ct_pad t)) ++ be16 0 else [])
  ++ numbered (plane_record new) (ct_planes t).
Definition header (new qp : bool) (ts : list ctile) : list Z := numbered (tile_record new qp) ts.

(** The header ends with the last record or with a zero word. *)
Definition header_end (l : list Z) : Prop := (length l <= 1)%nat \/ exists r, l = 0 :: 0 :: r.

(** ** Sizes *)

(** Extra columns in tiles with a right neighbour, per number of levels, plane
    width modulo 8 and level: high bands, low bands. *)
Definition extra_columns : list (list (list (nat * nat))) := [
  [ [(1, 1)]; [(1, 0)]; [(1, 1)]; [(1, 0)]; [(1, 1)]; [(1, 0)]; [(1, 1)]; [(1, 0)] ];
  [ [(1, 1); (1, 1)]; [(1, 0); (1, 0)]; [(1, 2); (2, 1)]; [(1, 1); (1, 1)];
    [(1, 1); (1, 1)]; [(1, 0); (1, 0)]; [(1, 2); (2, 1)]; [(1, 1); (1, 1)] ];
  [ [(1, 1); (1, 1); (1, 1)]; [(1, 0); (1, 0); (1, 0)]; [(1, 2); (2, 2); (2, 1)]; [(1, 1); (1, 2); (2, 1)];
    [(1, 1); (1, 2); (2, 1)]; [(1, 0); (1, 1); (1, 1)]; [(1, 2); (2, 1); (1, 1)]; [(1, 1); (1, 1); (1, 1)] ] ]%nat.
Definition extra (right : bool) (L w l : nat) : nat * nat :=
  if right then nth l (nth (w mod 8) (nth (L - 1) extra_columns []) []) (0, 0)%nat else (0, 0)%nat.

(** A width halved [l] times, rounding up. *)
Fixpoint halved (w l : nat) : nat := match l with O => w | S l => ((halved w l + 1) / 2)%nat end.

(** Columns of the low and of the high bands at level [l] (0 is the finest). *)
Definition low_cols (right : bool) (L w l : nat) : nat := (halved w (S l) + snd (extra right L w l))%nat.
Definition high_cols (left right : bool) (L w l : nat) : nat :=
  ((if left then 1 else 0) + halved w l / 2 + fst (extra right L w l))%nat.
Definition level_cols (left right : bool) (L w : nat) : list (nat * nat) :=
  map (fun l => (low_cols right L w l, high_cols left right L w l)) (seq 0 L).

(** The lines of all bands: LL, then HL, LH and HH of every level, the
    coarsest first. *)
Fixpoint bands_of (left right : bool) (lvs : list (nat * nat)) (w h : nat) (P : plane) : list (list (list Z)) :=
  match lvs with
  | [] => [image P w h]
  | (nl, nh) :: lvs =>
    bands_of left right lvs nl ((h + 1) / 2) (coarser left right w h P)
    ++ [band_lines (fun n => colH left right w (rowL h P n)) (from_left left) nh ((h + 1) / 2);
        band_lines (fun n => colL left right w (rowH h P n)) 0 nl (h / 2);
        band_lines (fun n => colH left right w (rowH h P n)) (from_left left) nh (h / 2)]
  end.

(** ** Quantization *)

(** The step for a quantization parameter: 6 more double it, 4 is one. *)
Definition qp_step (q : Z) : Z := nth (Z.to_nat (q mod 6)) [40; 45; 51; 57; 64; 72] 0 * 2 ^ (q / 6) / 64.

(** Coding of the QP table, values less 4: as the samples of the band LL
    without runs, with a shorter escape and parameter. *)
Definition qp_rice (k : nat) (v : Z) : list bool :=
  if v / 2 ^ Z.of_nat k <? 23
  then repeat false (Z.to_nat (v / 2 ^ Z.of_nat k)) ++ true :: bits_of k v
  else repeat false 23 ++ true :: bits_of 8 v.
Definition qp_pred (up : option (list Z)) (row : list Z) (i : nat) : Z :=
  match up, i with
  | None, O => 0
  | None, S j => nth j row 0
  | Some u, O => nth 0 u 0
  | Some u, S j => med3 (nth j row 0) (nth i u 0) (nth j u 0)
  end.
Definition qp_mag (up : option (list Z)) (w i : nat) (v : Z) : Z :=
  match up with
  | Some u => if (S i <? w)%nat then (v + 2 * Z.abs (nth (S i) u 0 - nth i u 0)) / 2 else v
  | None => v
  end.
Fixpoint qp_line (up : option (list Z)) (row : list Z) (n i k : nat) : list bool * nat :=
  match n with
  | O => ([], k)
  | S n =>
    let v := fold_sign (nth i row 0 - qp_pred up row i) in
    let '(b, k') := qp_line up row n (S i) (Nat.min 7 (next_k k (qp_mag up (length row) i v))) in
    (qp_rice k v ++ b, k')
  end.
Fixpoint qp_code (up : option (list Z)) (k : nat) (rows : list (list Z)) : list bool :=
  match rows with
  | [] => []
  | row :: t => let '(b, k) := qp_line up row (length row) 0 k in b ++ qp_code (Some row) k t
  end.

(** QP tables: a value for every 8 columns and 2 rows of the plane. *)
Definition qp_table_ok (w h : nat) (Q : list (list Z)) : Prop :=
  length Q = ((h + 1) / 2)%nat /\ Forall (fun r => length r = ((w + 7) / 8)%nat /\ Forall (fun q => 0 <= q <= 72) r) Q.

(** The QP of row [r] and table column [c] of a band at level [l]: the mean of
    the rows it covers, beyond the end the last row. *)
Definition level_qp (h : nat) (Q : list (list Z)) (l r c : nat) : Z :=
  fold_right Z.add 0 (map (fun j => nth c (nth (Nat.min (2 ^ l * r + j) ((h + 1) / 2 - 1)) Q []) 0) (seq 0 (2 ^ l))) / 2 ^ Z.of_nat l.

(** The table column of column [c] of a band at level [l]: [w] columns, [c0] of
    them of the left neighbour, [c1] of the right one. *)
Definition table_col (l w c0 c1 c : nat) : nat :=
  let own := (w - c0 - c1)%nat in
  (Nat.min (c - c0) (own - 1) / 2 ^ (2 - l))%nat.

(** ** Tiles *)

Record image_desc := mk_desc {
  i_new : bool; i_qp : bool; i_levels : nat; i_w : nat; i_h : nat; i_tw : nat; i_depth : Z; i_mix : bool }.

Definition tiles_across (d : image_desc) : nat := ((i_w d + i_tw d - 1) / i_tw d)%nat.
Definition plane_w (d : image_desc) (t : nat) : nat := (Nat.min (i_tw d) (i_w d - t * i_tw d) / 2)%nat.
Definition plane_h (d : image_desc) : nat := (i_h d / 2)%nat.
Definition has_left (t : nat) : bool := (0 <? t)%nat.
Definition has_right (d : image_desc) (t : nat) : bool := (S t <? tiles_across d)%nat.

(** Band [i] of a plane belongs to level [L - 1 - (i - 1) / 3], LL to the coarsest. *)
Definition band_level (L i : nat) : nat := (L - 1 - (i - 1) / 3)%nat.
(** HL and HH have the columns of high bands. *)
Definition band_high (i : nat) : bool := negb (i =? 0)%nat && negb (i mod 3 =? 2)%nat.

(** The factor of column [c] and row [r] in band [i] of tile [t]; [Q] is the
    QP table of the tile. *)
Definition factor (d : image_desc) (t : nat) (Q : list (list Z)) (b : cband) (i r c : nat) : Z :=
  if i_qp d then
    let l := band_level (i_levels d) i in
    let ex := extra (has_right d t) (i_levels d) (plane_w d t) l in
    let hi := band_high i in
    let c0 := if hi && has_left t then 1%nat else 0%nat in
    let c1 := if hi then fst ex else snd ex in
    let w := if hi then high_cols (has_left t) (has_right d t) (i_levels d) (plane_w d t) l
             else low_cols (has_right d t) (i_levels d) (plane_w d t) l in
    Z.max 1 (Z.min 1474560 
      (if i_new d then cb_base b + qp_step (level_qp (plane_h d) Q l r (table_col l w c0 c1 c)) * cb_mult b / 8 else 0))
  else if i_new d then 0 else qp_step (cb_q b).

(** [coeffs] times their factors are [lines]. *)
Definition dequantized (f : nat -> nat -> Z) (coeffs lines : list (list Z)) : Prop :=
  length coeffs = length lines /\
  forall r, (r < length lines)%nat ->
    length (nth r coeffs []) = length (nth r lines []) /\
    forall c, (c < length (nth r lines []))%nat ->
      nth c (nth r lines []) 0 = nth c (nth r coeffs []) 0 * f r c.

(** The band holds the code of these coefficients. *)
Definition holds (pred : bool) (b : cband) (coeffs : list (list Z)) : Prop :=
  Forall (Forall sample_ok) coeffs /\
  exists rest, byte_bits (firstn (length (cb_bytes b) - Z.to_nat (cb_unused b)) (cb_bytes b)) = band_code pred None [] 0 0 coeffs ++ rest.

(** What is stored for plane [P] of tile [t]: without levels its samples, with
    levels the quantized coefficients of its bands; a band coded with
    prediction is not quantized. *)
Definition plane_coded (d : image_desc) (t : nat) (Q : list (list Z)) (p : cplane) (P : plane) : Prop :=
  let w := plane_w d t in let h := plane_h d in
  if (i_levels d =? 0)%nat then
    exists b, cp_bands p = [b] /\ holds (cp_pred p) b (image P w h)
  else
    let lines := bands_of (has_left t) (has_right d t) (level_cols (has_left t) (has_right d t) (i_levels d) w) w h P in
    length (cp_bands p) = (3 * i_levels d + 1)%nat /\
    forall i b, nth_error (cp_bands p) i = Some b ->
      exists coeffs,
        holds (cp_pred p && (i =? 0)%nat) b coeffs /\
        dequantized (factor d t Q b i) coeffs (nth i lines []) /\
        (forall r c, 1 <= factor d t Q b i r c) /\
        (i = 0%nat -> cp_pred p = true -> forall r c, factor d t Q b i r c = 1).

Definition band_ok (b : cband) : Prop :=
  (0 < length (cb_bytes b))%nat /\ zlen (cb_bytes b) mod 8 = 0 /\ zlen (cb_bytes b) < 2 ^ 32 /\
  0 <= cb_unused b < zlen (cb_bytes b) /\ cb_unused b < 2 ^ 16 /\ 0 <= cb_q b < 36 /\
  0 <= cb_mult b < 2 ^ 16 /\ - 2 ^ 30 <= cb_base b < 2 ^ 30.

Definition tile_ok (d : image_desc) (t : ctile) : Prop :=
  length (ct_planes t) = 4%nat /\ zlen (tile_bytes t) < 2 ^ 32 /\ zlen (ct_pad t) < 2 ^ 16 /\
  Forall (fun p => Forall band_ok (cp_bands p)) (ct_planes t) /\
  (i_qp d = false -> ct_qp t = [] /\ ct_pad t = []).

(** The QP table stored in the tile. *)
Definition qp_coded (d : image_desc) (t : nat) (Q : list (list Z)) (T : ctile) : Prop :=
  i_qp d = true ->
  qp_table_ok (plane_w d t) (plane_h d) Q /\
  exists rest, byte_bits (ct_qp T) = qp_code None 0 (map (map (fun q => q - 4)) Q) ++ rest.

(** Planes are large enough for the levels. *)
Definition size_ok (L n : nat) : Prop := if (L =? 0)%nat then (1 <= n)%nat else (2 ^ L < n)%nat.

(** The parameter box of such an image; [hdr] is the size of its header.  There
    is one row of tiles; QP tables belong to version 0x200. *)
Definition describes (d : image_desc) (hdr : Z) (c : cmp1) : Prop :=
  c_planes c = 4 /\ c_fw c = Z.of_nat (i_w d) /\ c_fh c = Z.of_nat (i_h d) /\ c_tw c = Z.of_nat (i_tw d) /\
  c_fh c <= c_th c /\ c_enc c = (if i_mix d then 3 else 0) /\ c_levels c = Z.of_nat (i_levels d) /\
  c_median c = i_depth d /\ 0 <= c_bits c <= 250 /\ c_hdr c = hdr /\
  (i_qp d = true -> c_version c = 0x200 /\ (1 <= i_levels d)%nat).

Definition desc_ok (d : image_desc) : Prop :=
  (1 <= i_w d)%nat /\ (1 <= i_tw d)%nat /\ (tiles_across d <= 255)%nat /\ (i_levels d <= 3)%nat /\ 1 <= i_depth d <= 16 /\
  size_ok (i_levels d) (plane_h d) /\ forall t, (t < tiles_across d)%nat -> size_ok (i_levels d) (plane_w d t).

(** ** The picture *)

Definition clamp (d : image_desc) (v : Z) : Z := Z.max 0 (Z.min (2 ^ i_depth d - 1) v).

(** Nearest integer to [v / 1024], halves away from zero. *)
Definition round1024 (v : Z) : Z := if v <? 0 then - ((- v + 512) / 1024) else (v + 512) / 1024.

(** The four samples of a 2x2 block: the planes moved to the middle of the
    range, or colour transformed. *)
Definition block (d : image_desc) (v : nat -> Z) (k : nat) : Z :=
  let m := 2 ^ (i_depth d - 1) in
  clamp d
    (if i_mix d then
       let g := round1024 ((m + v 0%nat) * 1024 - 168 * v 1%nat - 585 * v 3%nat) in
       match k with
       | 0%nat => ((m + v 0%nat) * 1024 + 1510 * v 3%nat + 512) / 1024
       | 1%nat => g + (v 2%nat + 1) / 2
       | 2%nat => g + (1 - v 2%nat) / 2
       | _ => ((m + v 0%nat) * 1024 + 1927 * v 1%nat + 512) / 1024
       end
     else m + v k).

(** The sample at row [y] and column [x]; [P t k] is plane [k] of tile [t].
    A last odd row or column of a tile stays black. *)
Definition picture_at (d : image_desc) (P : nat -> nat -> plane) (y x : nat) : Z :=
  let t := (x / i_tw d)%nat in
  let c := (x mod i_tw d)%nat in
  if (c / 2 <? plane_w d t)%nat && (y / 2 <? plane_h d)%nat
  then block d (fun k => P t k (Z.of_nat (y / 2)) (Z.of_nat (c / 2))) (y mod 2 * 2 + c mod 2)
  else 0.
Definition picture (d : image_desc) (P : nat -> nat -> plane) : list Z :=
  map (fun i => picture_at d P (i / i_w d) (i mod i_w d)) (seq 0 (i_w d * i_h d)).

(** The tiles hold the planes [P], with the QP tables [Q]. *)
Definition image_coded (d : image_desc) (Q : nat -> list (list Z)) (P : nat -> nat -> plane) (ts : list ctile) : Prop :=
  length ts = tiles_across d /\
  forall t T, nth_error ts t = Some T ->
    tile_ok d T /\ qp_coded d t (Q t) T /\
    forall k p, nth_error (ct_planes T) k = Some p -> plane_coded d t (Q t) p (P t k).

(** ** An encoder without loss *)

(** Bits in bytes, at least one and a multiple of eight of them. *)
Definition pack (bits : list bool) : list Z :=
  map (fun i => peekv 8 (skipn (8 * i) bits)) (seq 0 (8 * (length bits / 64 + 1))).
Definition lossless_band (pred : bool) (lines : list (list Z)) : cband := mk_cband (pack (band_code pred None [] 0 0 lines)) 0 4 0 0.

Definition stored_lines (d : image_desc) (t : nat) (P : plane) : list (list (list Z)) :=
  let w := plane_w d t in
  bands_of (has_left t) (has_right d t) (level_cols (has_left t) (has_right d t) (i_levels d) w) w (plane_h d) P.
Definition lossless_plane (d : image_desc) (t : nat) (P : plane) : cplane :=
  mk_cplane true (map (fun '(i, l) => lossless_band (i =? 0)%nat l)
    (combine (seq 0 (length (stored_lines d t P))) (stored_lines d t P))).
Definition lossless_tiles (d : image_desc) (P : nat -> nat -> plane) : list ctile :=
  map (fun t => mk_ctile [] [] (map (fun k => lossless_plane d t (P t k)) (seq 0 4))) (seq 0 (tiles_across d)).

(** The image data of a picture. *)
Definition lossless_data (d : image_desc) (P : nat -> nat -> plane) : list Z :=
  header false false (lossless_tiles d P) ++ concat (map tile_bytes (lossless_tiles d P)).
Definition lossless_box (d : image_desc) (P : nat -> nat -> plane) : cmp1 :=
  mk_cmp1 0x100 (Z.of_nat (i_w d)) (Z.of_nat (i_h d)) (Z.of_nat (i_tw d)) (Z.of_nat (i_h d)) (i_depth d) 4
    (if i_mix d then 3 else 0) (Z.of_nat (i_levels d)) (zlen (header false false (lossless_tiles d P))) (i_depth d).

(** Coefficients are small enough to be coded, sizes for their header fields. *)
Definition storable (d : image_desc) (P : nat -> nat -> plane) : Prop :=
  forall t k, (t < tiles_across d)%nat -> (k < 4)%nat ->
    Forall (Forall (Forall sample_ok)) (stored_lines d t (P t k)) /\
    4 * zlen (plane_bytes (lossless_plane d t (P t k))) < 2 ^ 32.
