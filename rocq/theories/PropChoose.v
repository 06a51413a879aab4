(** C62: which decoder a file is given to. *)
From Coq Require Import String Ascii List ZArith Bool Lia.
From Verif Require Import Base Tiff TiffSpec TiffBytes TiffTop DngFile DngFileSpec Bmff BmffSpec BmffRead PropBmff Jfif JfifSpec PropDngFile Choose ChooseSpec ChooseProofs ChooseTop.
Import ListNotations.
Open Scope Z_scope.

(** Every file that the converter writes is read by the DNG decoder again. *)
Theorem C62_converted : forall cmt naked p m img, image_ok img -> params_ok p img -> cfa_aligned p img -> meta_ok m ->
  exists file, convert p m img = Ok file /\ (Z.of_nat (length file) < 2 ^ 30 -> forall lost fuel, (3 <= fuel)%nat ->
    get_decoder cmt naked fuel lost file = Some (Ok DDng)).
Proof. exact converted_dng. Qed.
Print Assumptions C62_converted.

(** Files with a signature of their own *)
Theorem C62_signatures : forall cmt naked fuel lost file sig d, In (sig, d) magics -> at_ file 0 sig ->
  get_decoder cmt naked fuel lost file = Some (Ok d).
Proof. exact magic_ok. Qed.
Print Assumptions C62_signatures.
Theorem C62_ciff : forall cmt naked fuel lost file, (at_ file 0 (text "II") \/ at_ file 0 (text "MM")) -> at_ file 6 (text "HEAPCCDR") ->
  get_decoder cmt naked fuel lost file = Some (Ok DCrw).
Proof. exact ciff_ok. Qed.
Print Assumptions C62_ciff.
Theorem C62_x3f : forall cmt naked fuel lost file, at_ file 0 (text "FOVb") -> ~ at_ file 6 (text "HEAPCCDR") ->
  get_decoder cmt naked fuel lost file = Some (Ok DX3f).
Proof. exact x3f_ok. Qed.
Print Assumptions C62_x3f.

(** TIFF files: the tags of the directories decide *)
Theorem C62_tiff : forall cmt naked fuel lost e file chain d, tiff_file e file -> (3 <= fuel)%nat ->
  parse_file fuel lost file 0 0 0 None [] = Some (Ok chain) -> tiff_kind chain d -> get_decoder cmt naked fuel lost file = Some (Ok d).
Proof. intros cmt naked fuel lost e file chain d H1 H2 H3 H4. now rewrite (tiff_start cmt naked fuel lost e file H1 H2), H3, (kind_ok _ _ H4). Qed.
Print Assumptions C62_tiff.
(** a maker without decoder is an error, whatever the size of the file *)
Theorem C62_unknown_make : forall cmt naked fuel lost e file chain, tiff_file e file -> (3 <= fuel)%nat ->
  parse_file fuel lost file 0 0 0 None [] = Some (Ok chain) -> unknown_make chain -> get_decoder cmt naked fuel lost file = Some Err.
Proof. intros cmt naked fuel lost e file chain H1 H2 H3 H4. now rewrite (tiff_start cmt naked fuel lost e file H1 H2), H3, (unknown_err _ H4). Qed.
Print Assumptions C62_unknown_make.
(** without hints, or when the directories cannot be read, the size decides *)
Theorem C62_size : forall cmt naked fuel lost e file, tiff_file e file -> (3 <= fuel)%nat ->
  (parse_file fuel lost file 0 0 0 None [] = Some Err \/ exists chain, parse_file fuel lost file 0 0 0 None [] = Some (Ok chain) /\ silent chain) ->
  get_decoder cmt naked fuel lost file = Some (if naked (Z.of_nat (length file)) then Ok DNkd else Err).
Proof.
  intros cmt naked fuel lost e file H1 H2 [H3|(chain & H3 & H4)]; rewrite (tiff_start cmt naked fuel lost e file H1 H2), H3; [reflexivity|].
  now rewrite (silent_none _ H4).
Qed.
Print Assumptions C62_size.

(** CR3 files: the brand in the ftyp box at the start *)
Theorem C62_cr3 : forall cmt naked fuel lost ft rest major minor brands,
  file_ok cmt (ft :: rest) -> (length (flat_map senc (ft :: rest)) < fuel)%nat ->
  s_typ ft = 0x66747970 -> Forall (fun b => s_typ b <> 0x66747970) rest ->
  s_fields ft = be 4 major ++ be 4 minor ++ flat_map (be 4) brands -> Forall (urange 32) brands -> In 0x63727820 brands -> ssize ft < 2 ^ 16 ->
  get_decoder cmt naked fuel lost (flat_map senc (ft :: rest)) = Some (Ok DCr3).
Proof. exact cr3_ok. Qed.
Print Assumptions C62_cr3.

(** JPEG files with the Exif data of a Konica Minolta camera *)
Theorem C62_jpeg : forall cmt naked fuel lost t segs after out i ss plain s,
  Forall jseg_ok (JExif t :: segs) -> Z.of_nat (length (jfile (JExif t :: segs) after)) < 2 ^ 32 ->
  shown (exif_root lost (jfile (JExif t :: segs) after)) 2 (JExif t :: segs) out -> (length (JExif t :: segs) + 2 <= fuel)%nat ->
  exif_root lost (jfile (JExif t :: segs) after) 12 = Some (Ok i) -> tag (i_entries i) 271 = Some (VAscii (s :: ss) plain) ->
  named s (text "Konica Minolta Photo Imaging, Inc.") ->
  get_decoder cmt naked fuel lost (jfile (JExif t :: segs) after) = Some (Ok DMrwJpeg).
Proof. exact konica_ok. Qed.
Print Assumptions C62_jpeg.

(** The choice does not end for every file. *)
Theorem C62_ends_refuted : forall cmt naked fuel lost,
  get_decoder cmt naked fuel lost endless = None /\ get_decoder cmt naked (3 + fuel) lost cyclic_file = None.
Proof.
  intros cmt naked fuel lost. split.
  - unfold get_decoder. replace (is_mrw endless) with false by reflexivity. replace (is_raf endless) with false by reflexivity.
    replace (is_ari endless) with false by reflexivity. replace (is_qtk endless) with false by reflexivity. replace (is_ciff endless) with false by reflexivity.
    replace (jpeg_decoder fuel lost endless) with (Some (@Ok (option decoder) None)) by reflexivity. cbn [obind]. replace (is_x3f endless) with false by reflexivity.
    unfold bmff_decoder. rewrite endless_parse. reflexivity.
  - rewrite (tiff_start cmt naked (3 + fuel) lost LE cyclic_file).
    + now rewrite c12_cyclic.
    + assert (A : at_ cyclic_file 0 (tiff_header LE 42 8)) by (exists [], (skipn 8 cyclic_file); split; reflexivity).
      exists 42, 8. split; [exact A|]. split; [now left|]. split; [lia|]. split; [vm_compute; reflexivity|]. eapply le_no_heap; [exact A|lia].
    + lia.
Qed.
Print Assumptions C62_ends_refuted.

(** A big-endian DNG file whose root directory is at an address that ends in
    0x4845 can be taken for a CIFF file. *)
Definition heap_dng : list Z :=
  tiff_header BE 42 0x4845 ++ text "APCCDR" ++ repeat 0 (Z.to_nat (0x4845 - 14)) ++
  enc BE 2 1 ++ (enc BE 2 50706 ++ enc BE 2 1 ++ enc BE 4 4 ++ [1; 4; 0; 0]) ++ enc BE 4 0.
Theorem C62_big_endian_refuted : exists file chain,
  at_ file 0 (tiff_header BE 42 0x4845) /\ (forall lost, parse_file 2 lost file 0 0 0 None [] = Some (Ok chain)) /\ tiff_kind chain DDng /\
  forall cmt naked fuel lost, get_decoder cmt naked fuel lost file = Some (Ok DCrw).
Proof.
  exists heap_dng. eexists. split; [exists [], (skipn 8 heap_dng); split; vm_compute; reflexivity|]. split; [intros lost; vm_compute; reflexivity|].
  split; [eapply kind_dng; exists [], (mk_ifd 18501 0 [(50706, mk_entry (VByte [1; 4; 0; 0]) 18511)] [] []), []; split; [reflexivity|]; split; [constructor|reflexivity]|].
  intros cmt naked fuel lost. apply ciff_ok; [right; exists [], (skipn 2 heap_dng); split; vm_compute; reflexivity|].
  exists (firstn 6 heap_dng), (skipn 14 heap_dng). split; vm_compute; reflexivity.
Qed.
Print Assumptions C62_big_endian_refuted.

(** A small NEF file, with spaces after the name of the maker; the example
    picture of C59; the CR3 file of C60 *)
Definition ex_nef : list Z :=
  tiff_header BE 42 8 ++ enc BE 2 1 ++ (enc BE 2 271 ++ enc BE 2 2 ++ enc BE 4 19 ++ enc BE 4 26) ++ enc BE 4 0 ++ text "NIKON CORPORATION " ++ [0].
Example C62_example : forall naked lost, exists chain,
  tiff_file BE ex_nef /\ parse_file 3 lost ex_nef 0 0 0 None [] = Some (Ok chain) /\ tiff_kind chain DNef /\
  get_decoder (fun _ => Ok tt) naked 3 lost ex_nef = Some (Ok DNef) /\
  get_decoder (fun _ => Ok tt) naked 3 lost (text "FUJIFILM" ++ [1; 2; 3]) = Some (Ok DRaf) /\
  get_decoder (fun _ => Ok tt) naked 2000 lost (flat_map senc ex_boxes) = Some (Ok DCr3).
Proof.
  intros naked lost. eexists. split.
  { exists 42, 8. split; [exists [], (skipn 8 ex_nef); split; reflexivity|]. split; [now left|]. split; [lia|]. split; [vm_compute; reflexivity|].
    intros A. apply (bytes_at_spec ex_nef 6 _) in A; [vm_compute in A; discriminate|lia]. }
  split; [vm_compute; reflexivity|]. split.
  { eapply (kind_make _ (text "NIKON CORPORATION ") "NIKON CORPORATION").
    - apply chain_none. reflexivity.
    - intros H. apply says_spec in H. discriminate.
    - apply says_spec. reflexivity.
    - unfold makers. cbn [In]. tauto.
    - exists [32]. split; [reflexivity|]. constructor; [unfold white; lia|constructor]. }
  split; [vm_compute; reflexivity|]. split; vm_compute; reflexivity.
Qed.
