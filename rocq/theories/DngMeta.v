(** Image geometry in a DNG: the active area and crop tags as written by
    rawler/src/dng/writer.rs and read by rawler/src/decoders/dng.rs.  Tags are
    a record here; their encoding in the file is the subject of the TIFF files. *)
From Coq Require Import List ZArith Lia Bool.
From Verif Require Import Base Geom.
Import ListNotations.
Open Scope nat_scope.

(** [x as u16] *)
Definition as_u16 (x : nat) : Z := (Z.of_nat x mod 2 ^ 16)%Z.
(** u16 addition, panicking on overflow (debug profile) *)
Definition u16_add (a b : Z) : res Z := if (a + b <? 2 ^ 16)%Z then Ok (a + b)%Z else Panic.

(** rect_to_dng_area, dng/mod.rs:22-28: top, left, bottom, right *)
Definition rect_to_dng_area (r : rect) : res (Z * Z * Z * Z) :=
  do b <- u16_add (as_u16 (r_y r)) (as_u16 (r_h r));
  do rt <- u16_add (as_u16 (r_x r)) (as_u16 (r_w r));
  Ok (as_u16 (r_y r), as_u16 (r_x r), b, rt).

Inductive cropmode := CropBest | CropActive | CropNone.

(** ImageWidth, ImageLength, ActiveArea, DefaultCropOrigin, DefaultCropSize *)
Record geom_tags := mk_geom {
  g_width : nat; g_height : nat; g_active : option (Z * Z * Z * Z);
  g_origin : option (Z * Z); g_size : option (Z * Z) }.

(** the geometry part of write_rawimage, dng/writer.rs:179-219 *)
Definition write_geom (mode : cropmode) (width height : nat) (active crop : option rect) : res geom_tags :=
  let full := mk_rect 0 0 width height in
  let area := match mode with
    | CropActive | CropBest => match active with Some a => a | None => full end
    | CropNone => full
    end in
  do _ <- assert_ (r_x area + r_w area <=? width);
  do _ <- assert_ (r_y area + r_h area <=? height);
  do aa <- rect_to_dng_area area;
  let put_crop (c : rect) :=
    do _ <- assert_ (r_x area <=? r_x c);
    do _ <- assert_ (r_y area <=? r_y c);
    do ox <- usub (r_x c) (r_x area);
    do oy <- usub (r_y c) (r_y area);
    Ok (mk_geom width height (Some aa) (Some (as_u16 ox, as_u16 oy)) (Some (as_u16 (r_w c), as_u16 (r_h c)))) in
  match mode with
  | CropActive => put_crop area
  | CropBest => put_crop (match crop with Some c => c | None => area end)
  | CropNone => Ok (mk_geom width height (Some aa) None None)
  end.

Definition opt_bind {A B} (o : option A) (f : A -> res B) : res (option B) :=
  match o with Some a => do b <- f a; Ok (Some b) | None => Ok None end.

(** get_active_area, decoders/dng.rs:364-380: borders left, top, right, bottom *)
Definition get_active (t : geom_tags) : res (option (nat * nat * nat * nat)) :=
  opt_bind (g_active t) (fun '(tp, l, b, r) =>
    do a <- rect_dng (Z.to_nat tp) (Z.to_nat l) (Z.to_nat b) (Z.to_nat r);
    as_ltrb_offsets a (g_width t) (g_height t)).

(** get_crop, decoders/dng.rs:382-391 *)
Definition get_crop (t : geom_tags) : option rect :=
  match g_origin t, g_size t with
  | Some (x, y), Some (w, h) => Some (mk_rect (Z.to_nat x) (Z.to_nat y) (Z.to_nat w) (Z.to_nat h))
  | _, _ => None
  end.

(** make_camera, decoders/dng.rs:247-259, then RawImage::new_with_data,
    rawimage.rs:425, 468 *)
Definition read_geom (t : geom_tags) : res (option rect * option rect) :=
  do active <- get_active t;
  do crop <- opt_bind (get_crop t) (fun c =>
    match active with
    | Some (l, tp, _, _) =>
        as_ltrb_offsets (mk_rect (r_x c + l) (r_y c + tp) (r_w c) (r_h c)) (g_width t) (g_height t)
    | None => as_ltrb_offsets c (g_width t) (g_height t)
    end);
  let rect_of '(b0, b1, b2, b3) := rect_borders (g_width t) (g_height t) b0 b1 b2 b3 in
  do a <- opt_bind active rect_of;
  do c <- opt_bind crop rect_of;
  Ok (a, c).

(** specification: what a reader should get back *)
Definition inside (r : rect) (width height : nat) : Prop := r_x r + r_w r <= width /\ r_y r + r_h r <= height.
Definition or_full (o : option rect) (width height : nat) : rect :=
  match o with Some r => r | None => mk_rect 0 0 width height end.
