(** Black and white level scaling (rawler/src/imgop/raw.rs, apply_scaling of
    rawler/src/rawimage.rs), black levels from masked areas and the choice of
    levels in RawImage::new.

    As in [Demosaic.v] the sample arithmetic [o] is a parameter about which
    nothing is assumed.  [neg] is f32::is_sign_negative, [flt] the cast of an
    integer and [lvl] Rational::as_f32. *)
From Coq Require Import List ZArith Lia Bool.
From Verif Require Import Base Par ParRun Decomp Geom Cfa Demosaic.
Import ListNotations.
Open Scope nat_scope.

(** RawPhotometricInterpretation without its payload, rawimage.rs:165-172 *)
Inductive photo := PBlackIsZero | PCfa | PLinear.

(** [if l.len() == 4 { l } else { [l[0]; 4] }], rawimage.rs:54-60, 123-139 *)
Definition bayer_array {A B} (conv : A -> B) (l : list A) : res (list B) :=
  if length l =? 4 then Ok (map conv l)
  else do x <- get l 0; Ok (repeat (conv x) 4).

Section Levels.
Context {F : Type}.
Variable o : fops F.
Variable neg : F -> bool.
Notation z := (f_nat o 0).

(** the closure [clip], raw.rs:96-98, 137-139, 173-175 *)
Definition clip0 (v : F) : F := if neg v then z else v.

(** [clip(p - black) / max] with max = white - black *)
Definition scale1 (p black max : F) : F := f_div o (clip0 (f_sub o p black)) max.

(** [v[i] = clip(v[i] - black[j]) / max[j]] *)
Definition scale_at (black max : list F) (i j : nat) (v : list F) : option (list F) :=
  match nth_error v i, nth_error black j, nth_error max j with
  | Some p, Some b, Some m => Some (upd_list v i (scale1 p b m))
  | _, _, _ => None
  end.
Definition obind {A B} (a : option A) (f : A -> option B) : option B := match a with Some a => f a | None => None end.

(** one 2 x 2 block of a pair of lines, raw.rs:181-186 *)
Definition cfa_block (w : nat) (black max : list F) (k : nat) : op F := fun v =>
  obind (scale_at black max (2 * k) 0 v) (fun v =>
  obind (scale_at black max (2 * k + 1) 1 v) (fun v =>
  obind (scale_at black max (w + 2 * k) 2 v) (fun v =>
  scale_at black max (w + 2 * k + 1) 3 v))).

(** white - black for each level *)
Definition level_max (black white : list F) : list F := map (fun bw => f_sub o (snd bw) (fst bw)) (combine black white).

(** correct_blacklevel_cfa, raw.rs:163-188: par_chunks_exact_mut(2 * width)
    panics for zero width; lines are split into blocks of two by chunks_exact. *)
Definition correct_blacklevel_cfa (sched : list nat) (raw : list F) (w : nat) (black white : list F) : res (list F) :=
  if w * 2 =? 0 then Panic
  else
    let n := length raw in
    par_run z sched (mk_pstate raw
      (map (fun i => mk_worker (chunk_cells (w * 2) n i)
                       (map (cfa_block w black (level_max black white)) (seq 0 (w / 2)))) (seq 0 (n / (w * 2)))) false).

(** correct_blacklevel, raw.rs:90-111, 119-154.  The variant for three channels
    is the general loop.  Different counts skip the correction. *)
Definition correct_blacklevel (raw black white : list F) : res (list F) :=
  let ch := length black in
  let max := level_max black white in
  if ch =? length white then
    if ch =? 1 then
      do b <- get black 0; do m <- get max 0;
      Ok (map (fun p => scale1 p b m) raw)
    else if ch =? 0 then Panic
    else
      for_each (list_prod (seq 0 (length raw / ch)) (seq 0 ch)) (fun ki raw =>
        let '(k, i) := ki in
        do p <- get raw (k * ch + i);
        do b <- get black i;
        do m <- get max i;
        put raw (k * ch + i) (scale1 p b m)) raw
  else Ok raw.

(** ** RawImage, the fields used here, rawimage.rs:202-252, 256-263 *)

Inductive rawdata := DInt (l : list Z) | DFloat (l : list F).
Record rawimg := mk_rawimg {
  ri_w : nat; ri_h : nat; ri_cpp : nat;
  ri_photo : photo;
  ri_black : black (Z * Z);
  ri_white : list Z;
  ri_data : rawdata
}.

Variable flt : Z -> F.
Variable lvl : Z * Z -> F.

(** as_f32, rawimage.rs:265-270 *)
Definition as_f32 (d : rawdata) : list F := match d with DInt l => map flt l | DFloat l => l end.

(** apply_scaling, rawimage.rs:519-541; [todo!()] for BlackIsZero *)
Definition apply_scaling (sched : list nat) (r : rawimg) : res rawimg :=
  let pixels := as_f32 (ri_data r) in
  do out <- match ri_photo r with
    | PBlackIsZero => Panic
    | PCfa =>
      do b <- bayer_array lvl (b_levels (ri_black r));
      do w <- bayer_array flt (ri_white r);
      correct_blacklevel_cfa sched pixels (ri_w r) b w
    | PLinear => correct_blacklevel pixels (map lvl (b_levels (ri_black r))) (map flt (ri_white r))
    end;
  let b := ri_black r in
  Ok (mk_rawimg (ri_w r) (ri_h r) (ri_cpp r) (ri_photo r)
        (mk_black (map (fun _ => (0, 1)%Z) (b_levels b)) (b_w b) (b_h b) (b_cpp b))
        (map (fun _ => 1%Z) (ri_white r)) (DFloat out)).

(** ** Black levels from masked areas *)

(** [rat] is From<f32> for Rational, which panics when the value is negative, not
    finite or not a quotient of two u32 (tiff/value.rs:234-246). *)
Context {R : Type}.
Variable rat : F -> res R.

Definition area_cells (a : rect) : list (nat * nat) := list_prod (seq (r_y a) (r_h a)) (seq (r_x a) (r_w a)).

(** calc_black_levels, rawimage.rs:280-320.  [image] holds the samples as f32. *)
Definition calc_black_levels (cw ch : nat) (areas : list rect) (width : nat) (image : list F) : res (option (black R)) :=
  let x := cw * ch in
  if x =? 0 then Ok None
  else
    do _ <- assert_ (0 <? length image);
    match areas with
    | [] => Ok None
    | _ =>
      do samples <- for_each areas (fun area samples =>
        for_each (area_cells area) (fun rc samples =>
          let '(row, col) := rc in
          let color := row mod ch * cw + col mod cw in
          do s <- get samples color;
          do v <- get image (row * width + col);
          put samples color (f_add o (fst s) v, S (snd s))) samples) (repeat (z, 0) x);
      do _ <- assert_ (x =? 4);
      do levels <- for_each samples (fun s acc =>
        do r <- rat (f_div o (fst s) (f_nat o (snd s))); Ok (acc ++ [r])) [];
      do b <- black_new levels 2 2 1;
      Ok (Some b)
    end.

(** Camera::make_blacklevel, decoders/camera.rs:84-94 *)
Definition make_blacklevel (conf : option (list R)) (cw ch cpp : nat) : res (option (black R)) :=
  match conf with
  | None => Ok None
  | Some x =>
    if length x =? 1 then do v <- get x 0; do b <- black_new (repeat v cpp) 1 1 cpp; Ok (Some b)
    else if length x =? cw * ch * cpp then do b <- black_new x cw ch cpp; Ok (Some b)
    else Panic
  end.

(** Camera::make_whitelevel, decoders/camera.rs:96-106 *)
Definition make_whitelevel (conf : option (list Z)) (cpp : nat) : res (option (list Z)) :=
  match conf with
  | None => Ok None
  | Some x =>
    if length x =? 1 then do v <- get x 0; Ok (Some (repeat v cpp))
    else if length x =? cpp then Ok (Some x)
    else Panic
  end.

(** BlackLevel::zero, rawimage.rs:104-117 *)
Definition black_zero (zero : R) (w h cpp : nat) : res (black R) :=
  if (w =? 0) || (h =? 0) || (cpp =? 0) then Panic else Ok (mk_black (repeat zero (cpp * w * h)) w h cpp).

(** masked areas, rawimage.rs:340-361, 419-440; [act] is the active area of the
    camera, [ah] and [av] are (start, length) *)
Definition black_areas (act : option rect) (width height cpp : nat) (ah av : option (nat * nat)) : res (list rect) :=
  let base := match act with Some a => a | None => mk_rect 0 0 width height end in
  if cpp =? 1 then
    do l1 <- match ah with
      | Some (s, n) => do r <- rect_points (r_x base) s (r_x base + r_w base) (s + n); Ok [r]
      | None => Ok []
      end;
    do l2 <- match av with
      | Some (s, n) => do r <- rect_points s (r_y base) (s + n) (r_y base + r_h base); Ok [r]
      | None => Ok []
      end;
    Ok (l1 ++ l2)
  else Ok [].

(** The choice of the black level, rawimage.rs:363-373, 442-455: camera
    configuration, then the decoder unless the camera has the hint
    [invalid_blacklevel], then the masked areas (nothing for a dummy image), then
    zero. *)
Definition choose_black (zero : R) (conf : option (list R)) (cw ch cpp : nat) (invalid : bool)
    (given : option (black R)) (dummy : bool) (areas : list rect) (width : nat) (image : list F) : res (black R) :=
  do c <- make_blacklevel conf cw ch cpp;
  match c with
  | Some b => Ok b
  | None =>
    match (if invalid then None else given) with
    | Some b => Ok b
    | None =>
      do m <- (if dummy then Ok (Some (mk_black [zero] 1 1 1)) else calc_black_levels cw ch areas width image);
      match m with
      | Some b => Ok b
      | None => black_zero zero 1 1 cpp
      end
    end
  end.

(** The choice of the white level, rawimage.rs:375-378, 457-460 *)
Definition choose_white (conf : option (list Z)) (cpp : nat) (given : option (list Z)) : res (list Z) :=
  do c <- make_whitelevel conf cpp;
  match c with
  | Some w => Ok w
  | None => match given with Some w => Ok w | None => Panic end
  end.

End Levels.
Arguments rawdata : clear implicits.
Arguments rawimg : clear implicits.
