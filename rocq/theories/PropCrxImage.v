(** C49: whole CRX images. *)
From Coq Require Import List ZArith Bool Lia.
From Verif Require Import Base Crx CrxSpec Idwt IdwtSpec CrxImage CrxImageSpec CrxAll CrxEnc CrxNeg CrxImageEx.
Import ListNotations.
Open Scope Z_scope.

(** Image data that holds the planes of the tiles decodes to the picture,
    whatever follows the header and the data. *)
Theorem C49_image_decoded : forall d c ts Q P tail after,
  desc_ok d -> describes d (zlen (header (i_new d) (i_qp d) ts ++ tail)) c -> header_end tail ->
  image_coded d Q P ts -> (forall t k i j, Z.abs (P t k i j) <= 2 ^ 18) ->
  decompress_crx ((header (i_new d) (i_qp d) ts ++ tail) ++ concat (map tile_bytes ts) ++ after) c = Ok (picture d P).
Proof. exact decompress_ok. Qed.
Print Assumptions C49_image_decoded.

(** Every picture with codable coefficients has such image data. *)
Theorem C49_lossless_roundtrip : forall d P after,
  i_new d = false -> i_qp d = false -> desc_ok d -> storable d P ->
  (forall t k i j, Z.abs (P t k i j) <= 2 ^ 18) ->
  decompress_crx (lossless_data d P ++ after) (lossless_box d P) = Ok (picture d P).
Proof. exact lossless_roundtrip. Qed.
Print Assumptions C49_lossless_roundtrip.

(** Data shorter than its header is not reported as an error. *)
Theorem C49_short_data_panics : forall mdat c k,
  codec_new c = Ok k -> zlen mdat < c_hdr c -> decompress_crx mdat c = Panic.
Proof. exact short_data_panics. Qed.
Print Assumptions C49_short_data_panics.

(** A tile with a QP table is never accepted without levels. *)
Theorem C49_qp_without_levels : forall c data t q,
  k_levels c = 0%nat -> ti_qp t = Some q -> forall r, generate_qstep c data t <> Ok r.
Proof. exact qp_without_levels. Qed.
Print Assumptions C49_qp_without_levels.

(** Lower rows of tiles start at a multiple of the tile width, not height. *)
Theorem C49_lower_tile_row : forall c pw id k row buf cfa cfa',
  (0 < pw)%nat -> (id mod k_cols c * k_tw c + 2 * pw <= k_w c)%nat ->
  integrate_cfa c pw id k row buf cfa = Ok cfa' ->
  forall i, (i < pw)%nat ->
    nth ((id / k_cols c * k_tw c + 2 * row + k / 2) * k_w c + (id mod k_cols c * k_tw c + 2 * i + k mod 2)) cfa' 0 = nth i buf 0.
Proof. exact lower_tile_row. Qed.
Print Assumptions C49_lower_tile_row.

Example C49_example_lossless :
  decompress_crx (lossless_data ex_desc ex_planes ++ [1; 2; 3]) (lossless_box ex_desc ex_planes) = Ok (picture ex_desc ex_planes).
Proof. apply C49_lossless_roundtrip; [reflexivity|reflexivity|exact ex_desc_ok|exact ex_storable|exact ex_bound]. Qed.

Example C49_example_picture : firstn 8 (picture ex_desc ex_planes) = [125; 125; 127; 130; 132; 127; 127; 126].
Proof. reflexivity. Qed.

Example C49_example_qp :
  decompress_crx ((header true true [qp_tile] ++ [0; 0; 1]) ++ concat (map tile_bytes [qp_tile]) ++ []) qp_box = Ok (picture qp_desc qp_planes).
Proof.
  apply (C49_image_decoded qp_desc qp_box [qp_tile] (fun _ => qp_values) qp_planes [0; 0; 1] []);
    [exact qp_desc_ok|exact qp_describes|right; eexists; reflexivity|exact qp_image_coded|exact qp_bound].
Qed.

(** Tiles of 2 columns and 4 rows: the second one is written from row 2 on. *)
Example C49_example_lower_tile_row :
  integrate_cfa (mk_codec 2 8 0 8 0 1 2 2 4 0 0x100) 1 1 0 0 [7] (repeat 0 16) = Ok [0; 0; 0; 0; 7; 0; 0; 0; 0; 0; 0; 0; 0; 0; 0; 0].
Proof. reflexivity. Qed.
