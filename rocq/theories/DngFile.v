(** A whole DNG file: what the converter writes
    (rawler/src/dng/convert.rs, rawler/src/dng/writer.rs) and how the DNG
    decoder (rawler/src/decoders/dng.rs, rawler/src/decoders/mod.rs) gets the
    raw image back from the bytes.

    Integer samples only.  Values that come from floating point calculations
    (white balance, colour matrices) and from other parts of the program
    (metadata, preview pictures, the embedded original) are arguments. *)
From Coq Require Import List ZArith Bool.
From Verif Require Import Base Par Packed Tiff RawSource Strips Geom Tiles DngImage DngMeta Cfa.
Import ListNotations.
Open Scope Z_scope.

Definition dir := list (Z * value).

(** RawPhotometricInterpretation, rawimage.rs; the second argument of a CFA is
    the list of plane colours (CFAConfig::colors) *)
Inductive dphoto := PBlack | PCfa (c : cfa) (colors : list Z) | PLinear.

(** the fields of RawImage and Camera the writer uses; black levels are
    (numerator, denominator) *)
Record dimg := mk_dimg {
  d_w : nat; d_h : nat; d_cpp : nat; d_bps : nat; d_data : list Z; d_photo : dphoto;
  d_white : list Z; d_black : black (Z * Z); d_active : option rect; d_crop : option rect;
  d_areas : list rect; d_scale : list (Z * Z); d_quality : Z * Z }.

(** ConvertParams, convert.rs:31-44, with the environment settings of the strip
    writer and the debug_assertions switch *)
Record params := mk_params {
  p_lossless : bool; p_mode : cropmode; p_predictor : nat; p_preview : bool; p_thumb : bool;
  p_threshold : nat; p_rps : nat; p_dbg : bool }.

(** what the rest of the program hands to the writer.  [m_exif] holds the
    fields of Exif by tag; strings are byte lists.  A preview is the JPEG
    stream with its width and height, a thumbnail the RGB samples. *)
Record meta := mk_meta {
  m_neutral : list (Z * Z);
  m_matrices : list (Z * list (Z * Z));
  m_raw_tags : dir; m_root_tags : dir; m_cinema : dir; m_safety : bool;
  m_pictures : option ((Z * Z * list Z) * (Z * Z * list Z));
  m_make : list Z; m_model : list Z; m_orientation : Z;
  m_exif : Z -> option value; m_gps : option (Z -> option value);
  m_unique : option (list Z); m_xmp : option (list Z);
  m_original : option (list Z * list Z * option (list Z));
  m_artist : option (list Z); m_software : list Z; m_now : list Z }.

Definition ascii (s : list Z) : value := VAscii [s] [].
Definition add_all (d : dir) (l : dir) : dir := fold_left (fun d e => add_tag d (fst e) (snd e)) l d.

(** ** Writer *)

(** the number of different colours in the 48 x 48 pattern, cfa.rs:191-193 *)
Definition unique_colors (c : cfa) : nat := length (nodup Z.eq_dec (c_pat c)).

(** the panics of wbcoeff_to_tiff_value, writer.rs:504-548 *)
Definition wb_check (img : dimg) : res unit :=
  match d_photo img with
  | PBlack => Ok tt
  | PCfa c _ => assert_ (existsb (Nat.eqb (unique_colors c)) [1; 3; 4]%nat)
  | PLinear => assert_ (existsb (Nat.eqb (d_cpp img)) [1; 3]%nat)
  end.

(** AsShotNeutral and the colour matrices in the root directory,
    writer.rs:153-177, 393-412: at most two matrices *)
Definition colour_tags (m : meta) : dir :=
  match m_neutral m with
  | (n, _) :: _ => if n =? 0 then [] else [(50728, VRational (m_neutral m))]
  | [] => []
  end
  ++ match m_matrices m with
     | [] => []
     | [(i1, x1)] => [(50778, VShort [i1]); (50721, VSRational x1)]
     | (i1, x1) :: (i2, x2) :: _ =>
       [(50778, VShort [i1]); (50721, VSRational x1); (50779, VShort [i2]); (50722, VSRational x2)]
     end.
Definition has_colour (img : dimg) : bool :=
  (1 <? d_cpp img)%nat || match d_photo img with PCfa _ _ => true | _ => false end.

(** the active area the other tags are relative to, writer.rs:179-185 *)
Definition write_area (mode : cropmode) (img : dimg) : rect :=
  match mode with
  | CropNone => mk_rect 0 0 (d_w img) (d_h img)
  | _ => or_full (d_active img) (d_w img) (d_h img)
  end.

(** writer.rs:190-220: the values of [write_geom] as tags *)
Definition geom_dir (g : geom_tags) : dir :=
  [(256, VLong [wrap_u32 (Z.of_nat (g_width g))]); (257, VLong [wrap_u32 (Z.of_nat (g_height g))])]
  ++ match g_active g with Some (t, l, b, r) => [(50829, VShort [t; l; b; r])] | None => [] end
  ++ match g_origin g with Some (x, y) => [(50719, VShort [x; y])] | None => [] end
  ++ match g_size g with Some (w, h) => [(50720, VShort [w; h])] | None => [] end.

(** WhiteLevel, writer.rs:235-246 *)
Definition white_value (l : list Z) : value :=
  if forallb (fun x => x <=? 65535) l then VShort l else VLong l.
(** BlackLevel, writer.rs:255-272 *)
Definition black_value (l : list (Z * Z)) : value :=
  if forallb (fun x => snd x =? 1) l then white_value (map fst l) else VRational l.

(** MaskedAreas, writer.rs:274-277 *)
Definition masked_dir (areas : list rect) : res dir :=
  match areas with
  | [] => Ok []
  | _ => do l <- for_each areas (fun r acc =>
           do (t, l, b, rt) <- rect_to_dng_area r; Ok (acc ++ [t; l; b; rt])) [];
         Ok [(50830, VShort l)]
  end.

(** the photometric tags, writer.rs:281-307 *)
Definition photo_dir (img : dimg) (ax ay : nat) : res dir :=
  match d_photo img with
  | PBlack => do _ <- assert_ (d_cpp img =? 1)%nat; Ok [(262, VShort [1])]
  | PCfa c colors =>
    do _ <- assert_ (cfa_valid c);
    do _ <- assert_ (d_cpp img =? 1)%nat;
    do pat <- cfa_write c ax ay;
    Ok [(33421, VShort [Z.of_nat (c_w c) mod 65536; Z.of_nat (c_h c) mod 65536]); (33422, VByte pat);
        (262, VShort [32803]); (50710, VByte colors); (50711, VShort [1])]
  | PLinear => Ok [(262, VShort [34892])]
  end.

Definition photo_kind (p : dphoto) : photometric :=
  match p with PBlack => BlackIsZero | PCfa c _ => Cfa (c_w c) (c_h c) | PLinear => LinearRaw end.

(** the tile loop of dng_put_raw_ljpeg, writer.rs:624-631 *)
Definition put_tile (tile : list Z) (st : list Z * list Z * list Z) : list Z * list Z * list Z :=
  let '(offs, sizes, buf) := st in
  let '(off, buf) := write_data buf tile in
  (offs ++ [off], sizes ++ [wrap_u32 (Z.of_nat (length tile))], buf).

(** Compression and the sample data, writer.rs:309-318, 569-691 *)
Definition data_dir (p : params) (img : dimg) (buf : list Z) : res (dir * list Z) :=
  if p_lossless p then
    do tiles <- put_raw_ljpeg (p_dbg p) 256 256 (d_data img) (d_w img) (d_h img) (d_cpp img) (d_bps img)
                  (photo_kind (d_photo img)) (p_predictor p);
    let '(offs, sizes, buf) := fold_left (fun st t => put_tile t st) tiles ([], [], buf) in
    Ok ([(259, VShort [7]); (258, VShort (repeat (Z.of_nat (d_bps img) mod 65536) (d_cpp img)));
         (339, VShort (repeat 1 (d_cpp img))); (324, VLong offs); (325, VLong sizes);
         (322, VShort [256]); (323, VShort [256])], buf)
  else
    do (offs, sizes, rows, buf) <- put_raw_uncompressed (p_threshold p) (p_rps p) buf (d_w img) (d_h img) (d_cpp img) (d_data img);
    Ok ([(259, VShort [1]); (339, VShort (repeat 1 (d_cpp img))); (258, VShort (repeat 16 (d_cpp img)));
         (273, VLong offs); (279, VLong sizes); (278, VLong rows)], buf).

(** write_rawimage, writer.rs:143-322: the tags for the directory of the raw
    image in the order they are added, and the output *)
Definition raw_dir (p : params) (img : dimg) (buf : list Z) : res (dir * list Z) :=
  do g <- write_geom (p_mode p) (d_w img) (d_h img) (d_active img) (d_crop img);
  let area := write_area (p_mode p) img in
  do _ <- assert_ (length (d_white img) =? d_cpp img)%nat;
  do (levels, (bh, bw)) <- black_write (d_black img) (r_x area) (r_y area);
  do masked <- masked_dir (d_areas img);
  do photo <- photo_dir img (r_x area) (r_y area);
  do (data, buf) <- data_dir p img buf;
  Ok (geom_dir g
      ++ [(284, VShort [1]); (50718, VRational (d_scale img)); (50780, VRational [d_quality img]);
          (50717, white_value (d_white img));
          (50713, VShort [Z.of_nat bh mod 65536; Z.of_nat bw mod 65536]); (50714, black_value levels)]
      ++ masked
      ++ [(277, VShort [Z.of_nat (d_cpp img) mod 65536])]
      ++ photo ++ data, buf).

(** the state of DngWriter: output, root directory, Exif directory, SubIFDs *)
Record session := mk_session { s_buf : list Z; s_root : dir; s_exif : dir; s_subs : list Z }.

(** DngWriter::new, writer.rs:373-391 *)
Definition session_new : session :=
  mk_session tiff_new (add_all [] [(50707, VByte [1; 4; 0; 0]); (50706, VByte [1; 6; 0; 0])])
    (add_all [] [(36864, VUndef [48; 50; 50; 48])]) [].

(** convert.rs:163-172: the raw image, in the root directory when there is no
    thumbnail and in its own directory otherwise *)
Definition put_raw (p : params) (m : meta) (img : dimg) (s : session) : res session :=
  do _ <- (if has_colour img then wb_check img else Ok tt);
  let root := if p_thumb p then s_root s else add_tag (s_root s) 254 (VLong [0]) in
  let root := if has_colour img then add_all root (colour_tags m) else root in
  do (tags, buf) <- raw_dir p img (s_buf s);
  if p_thumb p then
    let d := copy_tags (add_all (add_tag [] 254 (VLong [0])) tags) (m_raw_tags m) in
    do (off, buf) <- dir_build d 0 buf;
    Ok (mk_session buf root (s_exif s) (s_subs s ++ [off]))
  else Ok (mk_session buf (copy_tags (add_all root tags) (m_raw_tags m)) (s_exif s) (s_subs s)).

(** SubFrameWriter::preview, writer.rs:324-362 and finalize; the JPEG stream
    starts where the output ends, without padding *)
Definition put_preview (w h : Z) (jpeg : list Z) (s : session) : res session :=
  let off := tpos (s_buf s) in
  let buf := s_buf s ++ jpeg in
  let d := add_all [] [(254, VLong [1]); (256, VLong [w]); (257, VLong [h]); (259, VShort [7]); (258, VShort [8; 8; 8]);
    (339, VShort [1; 1; 1]); (262, VShort [6]); (278, VLong [h]); (277, VShort [3]); (50970, VLong [2]);
    (273, VLong [off]); (279, VLong [wrap_u32 (tpos buf - off)])] in
  do (off, buf) <- dir_build d 0 buf;
  Ok (mk_session buf (s_root s) (s_exif s) (s_subs s ++ [off])).

(** DngWriter::thumbnail, writer.rs:487-511 *)
Definition put_thumb (w h : Z) (rgb : list Z) (s : session) : session :=
  let '(off, buf) := write_data (s_buf s) rgb in
  mk_session buf (add_all (s_root s)
    [(254, VLong [1]); (256, VLong [w]); (257, VLong [h]); (259, VShort [1]); (258, VShort [8; 8; 8]);
     (339, VShort [1; 1; 1]); (262, VShort [2]); (277, VShort [3]); (273, VLong [off]);
     (279, VLong [wrap_u32 (Z.of_nat (length rgb))]); (278, VLong [h])]) (s_exif s) (s_subs s).

(** convert.rs:174-189 *)
Definition put_pictures (p : params) (m : meta) (s : session) : res session :=
  match m_pictures m with
  | Some ((pw, ph, jpeg), (tw, th, rgb)) =>
    do s <- (if p_preview p then put_preview pw ph jpeg s else Ok s);
    Ok (if p_thumb p then put_thumb tw th rgb s else s)
  | None => Ok s
  end.

(** transfer_entry for a list of tags, formats/tiff/writer.rs:393-412 *)
Definition transfer (get_ : Z -> option value) (tags : list Z) (d : dir) : dir :=
  fold_left (fun d t => match get_ t with Some v => add_tag d t v | None => d end) tags d.

(** fill_exif_ifd, formats/tiff/writer.rs:292-336 *)
Definition exif_tags : list Z :=
  [33437; 37378; 37379; 37380; 34866; 33434; 34855; 34867; 34864; 34850; 34858; 36867; 36868; 36880; 36881; 36882;
   37520; 37521; 37522; 37377; 37381; 37382; 37383; 37384; 37385; 37386; 37393; 40961; 37387; 41986; 41987; 41990;
   41996; 42032; 42033; 42037; 42034; 42035; 42036; 37510].
(** the GPS tags, formats/tiff/writer.rs:351-383 *)
Definition gps_tags : list Z := map Z.of_nat (seq 0 32).

(** load_metadata, dng/writer.rs:414-426 with write_exif_tags,
    formats/tiff/writer.rs:281-392 *)
Definition put_metadata (m : meta) (s : session) : res session :=
  let root := transfer (m_exif m) [274; 306; 33432; 315] (s_root s) in
  do (buf, root) <- match m_gps m with
    | Some g =>
      let d := transfer g gps_tags [] in
      match d with
      | [] => Ok (s_buf s, root)
      | _ => do (off, buf) <- dir_build d 0 (s_buf s); Ok (buf, add_tag root 34853 (VLong [off]))
      end
    | None => Ok (s_buf s, root)
    end;
  let exif := transfer (m_exif m) exif_tags (s_exif s) in
  let root := match m_exif m 42034 with Some v => add_tag root 50736 v | None => root end in
  let root := match m_unique m with Some id => add_tag root 50781 (VByte id) | None => root end in
  Ok (mk_session buf root exif (s_subs s)).

(** the tags convert.rs:190-246 adds to the root directory, around the copies *)
Definition put_tags (m : meta) (s : session) : res session :=
  let root := add_all (s_root s) [(271, ascii (m_make m)); (272, ascii (m_model m));
                                  (50708, ascii (m_make m ++ [32] ++ m_model m))] in
  do s <- put_metadata m (mk_session (s_buf s) root (s_exif s) (s_subs s));
  let root := match bt_get 274 (s_root s) with Some _ => s_root s | None => add_tag (s_root s) 274 (VShort [m_orientation m]) end in
  let root := copy_tags root (m_root_tags m) in
  let root := copy_tags root (filter (fun e => existsb (Z.eqb (fst e)) [51043; 51044; 51058]) (m_cinema m)) in
  let exif := if m_safety m then filter (fun e => negb (fst e =? 37500)) (s_exif s) else s_exif s in
  let root := match m_xmp m with Some x => add_tag root 700 (VByte x) | None => root end in
  let root := match m_original m with
    | Some (data, name, digest) =>
      let root := add_tag (add_tag root 50828 (VUndef data)) 50827 (ascii name) in
      match digest with Some g => add_tag root 50973 (VByte g) | None => root end
    | None => root
    end in
  let root := match m_artist m with Some a => add_tag root 315 (ascii a) | None => root end in
  let root := add_tag (add_tag root 305 (ascii (m_software m))) 306 (ascii (m_now m)) in
  Ok (mk_session (s_buf s) root exif (s_subs s)).

(** DngWriter::close, dng/writer.rs:443-456 *)
Definition session_close (s : session) : res (list Z) :=
  do (root, buf) <- match s_exif s with
    | [] => Ok (s_root s, s_buf s)
    | _ => do (off, buf) <- dir_build (s_exif s) 0 (s_buf s); Ok (add_tag (s_root s) 34665 (VLong [off]), buf)
    end;
  let root := match s_subs s with [] => root | l => add_tag root 330 (VLong l) end in
  tiff_build buf root.

(** internal_convert from the creation of the writer on, convert.rs:161-248 *)
Definition convert (p : params) (m : meta) (img : dimg) : res (list Z) :=
  do s <- put_raw p m img session_new;
  do s <- put_pictures p m s;
  do s <- put_tags m s;
  session_close s.

(** ** Reader *)

(** force_u16, force_u32, force_usize, formats/tiff/value.rs:443-505, 603-673:
    values outside the type become 0; rationals and floats are taken as 0 here *)
Definition force (max : Z) (v : value) (i : nat) : Z :=
  match v with
  | VByte l | VShort l | VLong l | VSByte l | VSShort l | VSLong l =>
    let x := nth i l 0 in if (0 <=? x) && (x <? max) then x else 0
  | _ => 0
  end.
Definition f16 : value -> nat -> Z := force (2 ^ 16).
Definition f32 : value -> nat -> Z := force (2 ^ 32).
Definition fsize (v : value) (i : nat) : nat := Z.to_nat (force (2 ^ 64) v i).

Definition entries := list (Z * entry).
(** get_entry, ifd.rs; fetch_tiff_tag! is an error without the tag *)
Definition tag (es : entries) (t : Z) : option value := option_map e_value (bt_get t es).
Definition fetch (es : entries) (t : Z) : res value := match tag es t with Some v => Ok v | None => Err end.
Definition has (es : entries) (t : Z) : bool := match tag es t with Some _ => true | None => false end.

(** find_ifds_with_tag, formats/tiff/reader.rs:64-80.  Each directory of the
    chain comes with its sub directories in the order in which its hash map is
    iterated. *)
Definition find_ifds (t : Z) (chain : list (ifd * list (Z * list ifd))) : list ifd :=
  flat_map (fun '(i, subs) =>
    filter (fun j => has (i_entries j) t) [i]
    ++ flat_map (fun s => filter (fun j => has (i_entries j) t) (snd s)) subs) chain.

(** get_raw_ifd, decoders/dng.rs:205-227 *)
Definition get_raw_ifd (chain : list (ifd * list (Z * list ifd))) : res ifd :=
  match filter (fun i =>
    let es := i_entries i in
    let c := match tag es 259 with Some v => f32 v 0 | None => 0 end in
    let subsampled := match tag es 254 with Some v => Z.odd (f32 v 0) | None => false end in
    negb subsampled && existsb (Z.eqb c) [7; 8; 1; 34892; 52546]) (find_ifds 259 chain) with
  | i :: _ => Ok i
  | [] => Err
  end.

(** the geometry tags as [read_geom] takes them: get_active_area_borders and
    get_crop, decoders/dng.rs:364-391 *)
Definition geom_of (es : entries) (w h : nat) : geom_tags :=
  mk_geom w h
    (match tag es 50829 with
     | Some v => Some (Z.of_nat (fsize v 0), Z.of_nat (fsize v 1), Z.of_nat (fsize v 2), Z.of_nat (fsize v 3))
     | None => None end)
    (match tag es 50719 with Some v => Some (Z.of_nat (fsize v 0), Z.of_nat (fsize v 1)) | None => None end)
    (match tag es 50720 with Some v => Some (Z.of_nat (fsize v 0), Z.of_nat (fsize v 1)) | None => None end).

(** get_cfa, decoders/dng.rs:349-362 with CFA::new_from_tag, cfa.rs:93-107 *)
Definition get_cfa (es : entries) : res cfa :=
  do v <- fetch es 33422;
  cfa_read (map (f32 v) (seq 0 (vcount v)))
    (match tag es 50829 with Some a => Some (fsize a 1, fsize a 0) | None => None end).

(** get_blacklevels, decoders/dng.rs:309-334; Rational::from gives denominator 1 *)
Definition get_black (es : entries) : res (option (black (Z * Z))) :=
  let cpp := match tag es 277 with Some v => fsize v 0 | None => 1%nat end in
  match tag es 50714 with
  | None => Ok None
  | Some v =>
    do levels <- match v with
      | VShort l | VLong l => Ok (map (fun x => (x, 1)) l)
      | VRational l => Ok l
      | _ => Err
      end;
    let '(r0, r1) := match tag es 50713 with Some (VShort [a; b]) => (Z.to_nat a, Z.to_nat b) | _ => (1, 1)%nat end in
    do b <- black_new levels r1 r0 cpp;
    Ok (Some b)
  end.

(** get_whitelevels, decoders/dng.rs:336-347; WhiteLevel::new_bits when absent *)
Definition get_white (es : entries) (bits : Z) (cpp : nat) : res (list Z) :=
  do c <- fetch es 277;
  match tag es 50717 with
  | Some v =>
    let l := map (f32 v) (seq 0 (vcount v)) in
    Ok (match l with [x] => if (1 <? fsize c 0)%nat then repeat x (fsize c 0) else l | _ => l end)
  | None => Ok (repeat (2 ^ bits - 1) cpp)
  end.

(** tile_data, formats/tiff/ifd.rs:553-572 *)
Fixpoint tile_views (file : list Z) (offs sizes : list Z) : res (list (list Z)) :=
  match offs, sizes with
  | o :: offs, s :: sizes =>
    do v <- subview file o s; do vs <- tile_views file offs sizes; Ok (v :: vs)
  | _, _ => Ok []
  end.
Definition long_list (es : entries) (t : Z) : res (list Z) :=
  match tag es t with Some (VLong l) => Ok l | _ => Err end.

(** a picture being decoded: size of the buffer in samples, the part that is
    kept, and the state of the parallel loop *)
Record loop := mk_loop { l_dw : nat; l_dh : nat; l_w : nat; l_h : nat; l_state : pstate Z }.

(** plain_image_from_ifd, decoders/mod.rs:599-658, for a little endian file, up
    to the parallel loop.  [None] for what this model does not cover: sample
    formats other than unsigned integers, compressions other than none in strips
    and lossless JPEG in tiles, linearization tables and interleaved pictures. *)
Definition plain_start (file : list Z) (es : entries) : option (res loop) :=
  let covered :=
    match tag es 339 with Some v => f16 v 0 =? 1 | None => true end
    && negb (has es 50712) && negb (has es 50975) && negb (has es 52547) in
  let comp := match tag es 259 with Some v => f16 v 0 | None => 1 end in
  let pi := match tag es 262 with Some v => f16 v 0 | None => 1 end in
  match tag es 256, tag es 257, tag es 277, tag es 258 with
  | Some vw, Some vh, Some vc, Some vb =>
    let w := fsize vw 0 in let h := fsize vh 0 in let cpp := fsize vc 0 in let bits := f32 vb 0 in
    if negb covered then None
    else if has es 273 then
      if negb (comp =? 1) then None else Some (
        do offs <- long_list es 273;
        do sizes <- long_list es 279;
        let rps := match tag es 278 with Some v => fsize v 0 | None => h end in
        do s0 <- decode_strips file 0 offs sizes w h cpp rps (Z.to_nat bits) LittleE;
        Ok (mk_loop (w * cpp) h (w * cpp) h s0))
    else if has es 324 then
      if negb (comp =? 7) || ((bits =? 8) && ((pi =? 6) || (pi =? 1))) then None else Some (
        do offs <- long_list es 324;
        do sizes <- long_list es 325;
        do tiles <- tile_views file offs sizes;
        do tw <- fetch es 322;
        do th <- fetch es 323;
        do (dw, dh, s0) <- read_ljpeg_init tiles w h cpp (fsize tw 0) (fsize th 0);
        Ok (mk_loop dw dh (w * cpp) h s0))
    else Some Err
  | _, _, _, _ => Some Err
  end.
(** the loop under the schedule [sched], then the crop *)
Definition plain_finish (sched : list nat) (l : loop) : res (list Z) :=
  match result (prun 0 sched (l_state l)) with
  | Par.PFail => Err
  | Par.POk buf => do p <- into_crop (mk_pix (l_dw l) (l_dh l) buf) 0 0 (l_w l) (l_h l); Ok (px_data p)
  end.

(** the decoded picture: the fields of RawImage the theorems speak about *)
Inductive ophoto := OBlack | OCfa (c : cfa) | OLinear.
Record oimg := mk_oimg {
  o_w : nat; o_h : nat; o_cpp : nat; o_bps : nat; o_data : list Z; o_photo : ophoto;
  o_white : list Z; o_black : black (Z * Z); o_active : option rect; o_crop : option rect }.

(** raw_image, decoders/dng.rs:33-76, with make_camera (229-286) and
    RawImage::new_with_data (rawimage.rs:405-493), up to the parallel loop: the
    picture is a function of the samples.  [bad_black]: the camera is known and
    has the hint "invalid_blacklevel"; without masked areas the black level is
    then zero.  [None] as in [plain_start]. *)
Definition raw_start (bad_black : bool) (file : list Z) (chain : list (ifd * list (Z * list ifd)))
  : option (res (loop * (list Z -> oimg))) :=
  let head := (
    do i <- get_raw_ifd chain;
    let es := i_entries i in
    do vw <- fetch es 256; do vh <- fetch es 257; do vc <- fetch es 277; do vb <- fetch es 258;
    let w := fsize vw 0 in let h := fsize vh 0 in let cpp := fsize vc 0 in
    do geom <- read_geom (geom_of es w h);
    do ph <- fetch es 262;
    do c <- (if f32 ph 0 =? 34892 then Ok (mk_cfa [] 0 0 (repeat 0 (48 * 48))) else get_cfa es);
    do bl <- get_black es;
    do wl <- get_white es (f32 vb 0) cpp;
    do photo <- (if f32 ph 0 =? 1 then Ok OBlack else if f32 ph 0 =? 32803 then Ok (OCfa c)
                 else if f32 ph 0 =? 34892 then Ok OLinear else Panic);
    let zero := mk_black (repeat (0, 1) cpp) 1 1 cpp in
    let bl := if bad_black then zero else match bl with Some b => b | None => zero end in
    let bps := if has es 50712 then 16%nat else fsize vb 0 in
    Ok (es, fun data => mk_oimg w h cpp bps data photo wl bl (fst geom) (snd geom))) in
  match head with
  | Ok (es, mk) =>
    match plain_start file es with
    | Some (Ok l) => Some (Ok (l, mk))
    | Some Err => Some Err
    | Some Panic => Some Panic
    | None => None
    end
  | Err => Some Err
  | Panic => Some Panic
  end.

(** the picture under the schedule [sched] *)
Definition raw_finish (sched : list nat) (x : loop * (list Z -> oimg)) : res oimg :=
  do data <- plain_finish sched (fst x); Ok (snd x data).
