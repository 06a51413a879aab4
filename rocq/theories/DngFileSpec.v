(** Specification for [PropDngFile]: which pictures, settings and metadata are
    allowed, and what has to come back from the file. *)
From Coq Require Import List ZArith Bool.
From Verif Require Import Base Geom DngMeta Cfa CfaProofs Tiff TiffSpec DngFile.
Import ListNotations.
Open Scope Z_scope.

(** tags that describe the layout of a picture or point to other directories;
    metadata copied from the source must not bring its own *)
Definition layout_tags : list Z :=
  [254; 256; 257; 258; 259; 262; 273; 277; 278; 279; 322; 323; 324; 325; 330; 339; 33422; 34665; 34675; 34853;
   50712; 50713; 50714; 50717; 50719; 50720; 50829; 50975; 52547].

Definition u32_pair (r : Z * Z) : Prop := urange 32 (fst r) /\ urange 32 (snd r).

(** the part of the sensor that the file describes, given the crop mode *)
Definition kept_area (mode : cropmode) (active : option rect) (w h : nat) : rect :=
  match mode, active with
  | CropNone, _ | _, None => mk_rect 0 0 w h
  | _, Some a => a
  end.

Record image_ok (img : dimg) : Prop := mk_image_ok {
  io_w : 0 < Z.of_nat (d_w img) < 65536;
  io_h : 0 < Z.of_nat (d_h img) < 65536;
  io_len : length (d_data img) = (d_h img * d_w img * d_cpp img)%nat;
  io_data : Forall is_u16 (d_data img);
  io_photo : match d_photo img with
    | PBlack => d_cpp img = 1%nat
    | PCfa c colors => d_cpp img = 1%nat /\ wf c /\ In (unique_colors c) [1; 3; 4]%nat /\ writable (VByte colors)
    | PLinear => d_cpp img = 1%nat \/ d_cpp img = 3%nat
    end;
  io_white : length (d_white img) = d_cpp img /\ Forall (urange 32) (d_white img);
  io_black : black_wf (d_black img) /\ b_cpp (d_black img) = d_cpp img /\ Z.of_nat (b_w (d_black img)) < 65536 /\
    Z.of_nat (b_h (d_black img)) < 65536 /\ Forall u32_pair (b_levels (d_black img)) /\ Z.of_nat (length (b_levels (d_black img))) < 2 ^ 32;
  io_active : forall a, d_active img = Some a -> inside a (d_w img) (d_h img);
  io_crop : forall c, d_crop img = Some c -> inside c (d_w img) (d_h img) /\
    (r_x (or_full (d_active img) (d_w img) (d_h img)) <= r_x c)%nat /\ (r_y (or_full (d_active img) (d_w img) (d_h img)) <= r_y c)%nat;
  io_areas : Forall (fun r => inside r (d_w img) (d_h img)) (d_areas img) /\ Z.of_nat (length (d_areas img)) < 2 ^ 30;
  io_scale : writable (VRational (d_scale img)) /\ u32_pair (d_quality img) }.

(** the colour filter array lines up with the area after it is shifted twice;
    true for every Bayer pattern (see C14 for the cases that fail) *)
Definition cfa_aligned (p : params) (img : dimg) : Prop :=
  let a := kept_area (p_mode p) (d_active img) (d_w img) (d_h img) in
  match d_photo img with
  | PCfa c _ => ((2 * r_x a) mod c_w c = 0 /\ (2 * r_y a) mod c_h c = 0)%nat
  | _ => True
  end.

Definition params_ok (p : params) (img : dimg) : Prop :=
  if p_lossless p then
    (1 <= p_predictor p <= 7)%nat /\ (10 <= d_bps img <= 16)%nat /\
    (p_dbg p = true -> Forall (fun s => s < 2 ^ Z.of_nat (d_bps img)) (d_data img))
  else (0 < p_rps p)%nat.

Definition tag_ok (e : Z * value) : Prop := urange 16 (fst e) /\ writable (snd e) /\ ~ In (fst e) layout_tags.
Definition opt_ok {A} (P : A -> Prop) (o : option A) : Prop := match o with Some a => P a | None => True end.

Record meta_ok (m : meta) : Prop := mk_meta_ok {
  mo_neutral : m_neutral m <> [] -> writable (VRational (m_neutral m));
  mo_matrices : Forall (fun x => urange 16 (fst x) /\ writable (VSRational (snd x))) (m_matrices m);
  mo_tags : Forall tag_ok (m_raw_tags m ++ m_root_tags m ++ m_cinema m) /\
    Z.of_nat (length (m_raw_tags m ++ m_root_tags m ++ m_cinema m)) <= 3900;
  mo_pictures : opt_ok (fun x => urange 32 (fst (fst (fst x))) /\ urange 32 (snd (fst (fst x))) /\
                                 urange 32 (fst (fst (snd x))) /\ urange 32 (snd (fst (snd x)))) (m_pictures m);
  mo_names : writable (ascii (m_make m)) /\ writable (ascii (m_model m)) /\ writable (ascii (m_make m ++ [32] ++ m_model m)) /\
    writable (ascii (m_software m)) /\ writable (ascii (m_now m));
  mo_orientation : urange 16 (m_orientation m);
  mo_exif : forall t v, m_exif m t = Some v -> writable v;
  mo_gps : opt_ok (fun g => forall t v, g t = Some v -> writable v) (m_gps m);
  mo_unique : opt_ok (fun x => writable (VByte x)) (m_unique m);
  mo_xmp : opt_ok (fun x => writable (VByte x)) (m_xmp m);
  mo_original : opt_ok (fun x => writable (VUndef (fst (fst x))) /\ writable (ascii (snd (fst x))) /\
                                 opt_ok (fun g => writable (VByte g)) (snd x)) (m_original m);
  mo_artist : opt_ok (fun x => writable (ascii x)) (m_artist m) }.

(** the picture [out] that was read is the picture [img] that was converted *)
Record same_image (p : params) (bad_black : bool) (img : dimg) (out : oimg) : Prop := mk_same_image {
  si_size : o_w out = d_w img /\ o_h out = d_h img /\ o_cpp out = d_cpp img;
  si_data : o_data out = d_data img;
  si_bps : o_bps out = if p_lossless p then d_bps img else 16%nat;
  si_photo : match d_photo img with
    | PBlack => False
    | PCfa c _ => exists c', o_photo out = OCfa c' /\ c_w c' = c_w c /\ c_h c' = c_h c /\ forall r q, color_at c' r q = color_at c r q
    | PLinear => o_photo out = OLinear
    end;
  si_white : o_white out = d_white img;
  si_black : let a := kept_area (p_mode p) (d_active img) (d_w img) (d_h img) in
    b_cpp (o_black out) = d_cpp img /\
    forall row col ch d, (ch < d_cpp img)%nat ->
      black_at (o_black out) row col ch d =
        if bad_black then (0, 1) else black_at (d_black img) (row + r_y a) (col + r_x a) ch d;
  si_areas : (o_active out, o_crop out) =
    let a := kept_area (p_mode p) (d_active img) (d_w img) (d_h img) in
    match p_mode p with
    | CropNone => (Some a, None)
    | CropActive => (Some a, Some a)
    | CropBest => (Some a, Some (match d_crop img with Some c => c | None => a end))
    end }.
