(** C50: Pentax PEF image data. *)
From Coq Require Import List ZArith.
From Verif Require Import Base LjpegAnySpec CrxImageSpec PefSpec Pef PefTop PefNeg PefEx.
Import ListNotations.
Open Scope Z_scope.

(** whatever the data: the samples are the running sums, per column parity, of
    the differences the canonical Huffman code finds in it *)
Theorem C50_any_data : forall huff sz hv src w h, pef_source huff sz hv -> Forall is_byte src ->
  (w mod 2 = 0)%nat -> (0 < w)%nat -> Z.of_nat (w + h) <= 65000 -> data_for (pef_next sz hv) (byte_bits src) (w * h) ->
  exists s, lane_picture zero_init (diff_at (pef_next sz hv) (byte_bits src)) w h s /\
    pef_decode src huff w h = Ok (samples (fun r c => s r c mod 65536) w h).
Proof. exact pef_any. Qed.
Print Assumptions C50_any_data.

(** encoded pictures are decoded *)
Theorem C50_roundtrip : forall huff sz hv w h s tail n, pef_source huff sz hv -> (n <= 15)%nat -> covers sz hv n ->
  (w mod 2 = 0)%nat -> (0 < w)%nat -> Z.of_nat (w + h) <= 65000 ->
  picture_within s w h 65536 -> diffs_within zero_init s w h n -> Forall is_byte tail -> (4 <= length tail)%nat ->
  pef_decode (stored (encode_lanes sz hv zero_init s w h) tail) huff w h = Ok (samples s w h).
Proof. exact pef_roundtrip. Qed.
Print Assumptions C50_roundtrip.

(** every 12 bit picture of even width, with the table of cameras that store none *)
Theorem C50_default_table : forall w h s tail, (w mod 2 = 0)%nat -> (0 < w)%nat -> Z.of_nat (w + h) <= 65000 -> picture_within s w h 4096 ->
  Forall is_byte tail -> (4 <= length tail)%nat ->
  pef_decode (stored (encode_lanes pentax_sizes pentax_cats zero_init s w h) tail) None w h = Ok (samples s w h).
Proof. exact pef_12bit. Qed.
Print Assumptions C50_default_table.

(** pictures of odd width are never decoded *)
Theorem C50_odd_width : forall src huff w h out, (w mod 2 = 1)%nat -> (0 < h)%nat -> pef_decode src huff w h <> Ok out.
Proof. exact pef_odd_width. Qed.
Print Assumptions C50_odd_width.

(** a table of three codes in a maker note and a picture stored with it *)
Example C50_example : canonical_table ex_codes [1; 2; 2]%nat [2; 0; 1]%nat /\
  ex_entry = [7; 0; 7; 7; 7; 7; 7; 7; 7; 7; 7; 7; 7; 7; 0; 8; 0; 12; 0; 0; 2; 2; 1] /\
  firstn 5 ex_data = [242; 75; 149; 237; 192] /\
  pef_decode ex_data (Some (ex_entry, false)) 4 3 = Ok [1; 0; 3; 2; 2; 1; 0; 3; 2; 0; 1; 1].
Proof. exact (conj ex_canonical ex_decoded). Qed.
