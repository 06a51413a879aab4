(** Development of a raw image: RawDevelop::develop_intermediate,
    rawler/src/imgop/develop.rs:166-341.

    Parameters: the arithmetic [o]; [neg], [flt], [lvl] as in [Levels.v]; [nan],
    [fsqrt], [fmax] of f32; the colour constants; [gamma] is srgb_apply_gamma;
    [fuji] is fuji_normalize_rotation, which works in f64. *)
From Coq Require Import List ZArith Lia Bool.
From Verif Require Import Base Tiles Geom Cfa Demosaic Levels Color.
Import ListNotations.
Open Scope nat_scope.

(** ProcessingStep, develop.rs:70-80 *)
Inductive pstep := Rescale | Demosaic | FujiRotate | CropActiveArea | WhiteBalance | Calibrate | CropDefault | SRgb.
Definition pstep_eqb (a b : pstep) : bool :=
  match a, b with
  | Rescale, Rescale | Demosaic, Demosaic | FujiRotate, FujiRotate | CropActiveArea, CropActiveArea
  | WhiteBalance, WhiteBalance | Calibrate, Calibrate | CropDefault, CropDefault | SRgb, SRgb => true
  | _, _ => false
  end.
Definition has (s : pstep) (steps : list pstep) : bool := existsb (pstep_eqb s) steps.
Definition default_steps : list pstep :=
  [Rescale; Demosaic; FujiRotate; CropActiveArea; WhiteBalance; Calibrate; CropDefault; SRgb].

Inductive sensor := Bayer | Xtrans.

(** unique_colors, cfa.rs:191-193 *)
Definition unique_colors (c : cfa) : nat := length (nodup Z.eq_dec (c_pat c)).

Section Develop.
Context {F : Type}.
Variable o : fops F.
Variable neg nan : F -> bool.
Variable flt : Z -> F.
Variable lvl : Z * Z -> F.
Variable fsqrt : F -> F.
Variable fmax : F -> F -> F.
Variable tri : illuminant -> list F.
Variables brad bradi srgb : list (list F).
Variable gamma : F -> F.
Variable fuji : pix2d (list F) -> nat -> bool -> res (pix2d (list F)).
Notation z := (f_nat o 0).
Notation one := (f_nat o 1).

(** Intermediate, develop.rs:85-89 *)
Inductive inter := IMono (p : pix2d F) | IThree (p : pix2d (list F)) | IFour (p : pix2d (list F)).
Definition inter_dim (i : inter) : nat * nat :=
  match i with IMono p => (px_w p, px_h p) | IThree p | IFour p => (px_w p, px_h p) end.

(** the fields of RawImage used here *)
Record rawdev := mk_rawdev {
  rd_img : rawimg F;
  rd_cfa : cfa;
  rd_colors : list nat;
  rd_sensor : sensor;
  rd_active : option rect;
  rd_crop : option rect;
  rd_fuji : option nat;
  rd_rot90 : bool;
  rd_wb : list F;
  rd_matrix : illuminant -> option (list F)
}.

(** pixels of [n] channels from a flat list *)
Definition pixels_of (n cnt : nat) (l : list F) : list (list F) :=
  map (fun i => map (fun ch => nth (n * i + ch) l z) (seq 0 n)) (seq 0 cnt).

(** new_with asserts the number of pixels, pixarray.rs:57, 370 *)
Definition new_with {A} (data : list A) (w h : nat) : res (pix2d A) :=
  do _ <- assert_ (length data =? h * w); Ok (mk_pix w h data).

(** develop.rs:172-185 *)
Definition start_inter (r : rawimg F) (data : list F) : res inter :=
  let n := ri_cpp r in
  if n =? 1 then do p <- new_with data (ri_w r) (ri_h r); Ok (IMono p)
  else if n =? 3 then do p <- new_with (pixels_of 3 (length data / 3) data) (ri_w r) (ri_h r); Ok (IThree p)
  else if n =? 4 then do p <- new_with (pixels_of 4 (length data / 4) data) (ri_w r) (ri_h r); Ok (IFour p)
  else Panic.

Variable steps : list pstep.

(** the region to demosaic, develop.rs:191-199 *)
Definition dev_roi (r : rawdev) (p : pix2d F) : res rect :=
  let full := mk_rect 0 0 (px_w p) (px_h p) in
  if has CropActiveArea steps then
    match rd_active r, rd_fuji r with
    | Some _, Some _ => Panic
    | Some a, None => Ok a
    | None, _ => Ok full
    end
  else Ok full.

(** develop.rs:187-233.  [None]: does not end; [sch] are the schedules. *)
Definition dev_demosaic (fuel : nat) (sch : nat -> list nat) (r : rawdev) (i : inter) : option (res inter) :=
  match ri_photo (rd_img r), i with
  | PCfa, IMono p =>
    match dev_roi r p with
    | Ok roi =>
      let three flat := IThree (mk_pix (r_w roi) (r_h roi) (pixels_of 3 (r_w roi * r_h roi) flat)) in
      match is_rgb (rd_cfa r), rd_sensor r with
      | true, Bayer =>
        match ppg o fuel (sch 1) (sch 2) (sch 3) (sch 4) (px_data p) (px_w p) (rd_cfa r) roi with
        | None => None
        | Some m => Some (
            do flat <- m;
            let img := mk_pix (r_w roi) (r_h roi) (pixels_of 3 (r_w roi * r_h roi) flat) in
            match has FujiRotate steps, rd_fuji r with
            | true, Some fw => do q <- fuji img fw (rd_rot90 r); Ok (IThree q)
            | _, _ => Ok (IThree img)
            end)
        end
      | rgb, s =>
        if (unique_colors (rd_cfa r) =? 4) && (match s with Bayer => true | Xtrans => false end) then
          Some (do flat <- bilinear4 o (sch 5) p (rd_cfa r) (rd_colors r) roi;
                Ok (IFour (mk_pix (r_w roi) (r_h roi) (pixels_of 4 (r_w roi * r_h roi) flat))))
        else if rgb && (match s with Bayer => false | Xtrans => true end) then
          Some (do flat <- xtrans_bilinear o p (rd_cfa r) roi; Ok (three flat))
        else Some Panic
      end
    | _ => Some Panic
    end
  | _, _ => Some (Ok i)
  end.

(** develop.rs:235-295 *)
Definition dev_calibrate (r : rawdev) (i : inter) : res inter :=
  do x2c <- xyz2cam_of o tri brad bradi (rd_matrix r);
  let wb := if nan (nth 0 (rd_wb r) z) then repeat one 4 else rd_wb r in
  let wb := if has WhiteBalance steps then wb else repeat one 4 in
  match i with
  | IMono _ => Ok i
  | IThree p => Ok (IThree (mk_pix (px_w p) (px_h p) (map_to_rgb o fsqrt fmax srgb 3 wb x2c (px_data p))))
  | IFour p => Ok (IThree (mk_pix (px_w p) (px_h p) (map_to_rgb o fsqrt fmax srgb 4 wb x2c (px_data p))))
  end.

(** develop.rs:297-327.  Rect::scale(0.5) halves (exact below 2^24).  Pix2D::crop
    and Color2D::crop. *)
Definition dev_crop (r : rawdev) (i : inter) : res inter :=
  match (match rd_crop r with Some c => Some c | None => rd_active r end) with
  | None => Ok i
  | Some c =>
    do c <- (if has Demosaic steps && has CropActiveArea steps
             then match rd_active r with Some a => rect_adapt c a | None => Ok c end
             else Ok c);
    let base := match rd_active r with Some a => r_w a | None => ri_w (rd_img r) end in
    let c := if fst (inter_dim i) =? base / 2 then mk_rect (r_x c / 2) (r_y c / 2) (r_w c / 2) (r_h c / 2) else c in
    if (r_w c =? fst (inter_dim i)) && (r_h c =? snd (inter_dim i)) then Ok i
    else
      match i with
      | IMono p => do q <- crop p (r_x c) (r_y c) (r_w c) (r_h c); Ok (IMono q)
      | IThree p => do q <- color_crop p c; Ok (IThree q)
      | IFour p => do q <- color_crop p c; Ok (IFour q)
      end
  end.

(** develop.rs:329-335: for_each over the pixels in parallel *)
Definition dev_gamma (i : inter) : inter :=
  match i with
  | IMono p => IMono (mk_pix (px_w p) (px_h p) (map gamma (px_data p)))
  | IThree p => IThree (mk_pix (px_w p) (px_h p) (map (map gamma) (px_data p)))
  | IFour p => IFour (mk_pix (px_w p) (px_h p) (map (map gamma) (px_data p)))
  end.

Definition develop (fuel : nat) (sch : nat -> list nat) (r : rawdev) : option (res inter) :=
  match (if has Rescale steps then apply_scaling o neg flt lvl (sch 0) (rd_img r) else Ok (rd_img r)) with
  | Ok img =>
    match start_inter img (as_f32 flt (ri_data img)) with
    | Ok i =>
      match (if has Demosaic steps then dev_demosaic fuel sch r i else Some (Ok i)) with
      | None => None
      | Some d => Some (
          do i <- d;
          do i <- (if has Calibrate steps then dev_calibrate r i else Ok i);
          do i <- (if has CropDefault steps then dev_crop r i else Ok i);
          Ok (if has SRgb steps then dev_gamma i else i))
      end
    | Err => Some Err
    | Panic => Some Panic
    end
  | Err => Some Err
  | Panic => Some Panic
  end.

(** convert_from_f32_scaled_u16(.., 0, 65535) of the flattened pixels,
    imgop/mod.rs:291-299, develop.rs:104-117, 368-403; [quant p] is
    (p * 65535.0) as u16 *)
Definition samples_u16 (quant : F -> Z) (i : inter) : list Z :=
  match i with
  | IMono p => map quant (px_data p)
  | IThree p | IFour p => map quant (concat (px_data p))
  end.

End Develop.
