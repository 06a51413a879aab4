(** Canon CR2: how the lossless JPEG frame becomes the image
    (rawler/src/decoders/cr2.rs:110-251 and 624-797): linearization, the vertical
    fields ("slices"), interpolation of subsampled chroma and conversion of sRAW
    data to RGB.  The frame itself is C01, C27 and C57.  Tags, camera hints and white
    balance values are arguments.  [dummy] mode is not modelled; the environment
    variable that switches interpolation off is an argument. *)
From Coq Require Import List ZArith Bool.
From Verif Require Import Base LjpegDec Bits Crx Pef.
Import ListNotations.
Open Scope Z_scope.

(** [dst[dpos..dpos+n].copy_from_slice(&src[spos..spos+n])] *)
Definition copy_in (dst : list Z) (dpos : nat) (src : list Z) (spos n : nat) : res (list Z) :=
  do s <- slice src spos (spos + n);
  if (dpos + n <=? length dst)%nat then Ok (firstn dpos dst ++ s ++ skipn (dpos + n) dst) else Panic.

(** cr2.rs:126-141: linearization, only for cameras with that hint *)
Fixpoint dither_all (t : list (Z * Z * Z)) (l : list Z) (rand : Z) : res (list Z) :=
  match l with
  | [] => Ok []
  | p :: l => do (v, rand) <- dither t p rand; do rest <- dither_all t l rand; Ok (v :: rest)
  end.
(** cr2.rs:128-141 *)
Definition linearize (table : list Z) (l : list Z) : res (list Z) :=
  do t <- lut_new table;
  do rand <- get l 0;
  dither_all t l rand.

(** cr2.rs:143-155: size of the image; width counts samples.  [tag] is ImageWidth
    and ImageLength. *)
Definition cr2_size (cpp ljw ljh : nat) (tag : option (nat * nat)) (double_line : bool) : nat * nat :=
  if (cpp =? 3)%nat then
    match tag with
    | Some (w, h) => (w * cpp, h)%nat
    | None => if (ljw / cpp <? ljh)%nat then (ljh * cpp, ljw / cpp)%nat else (ljw, ljh)
    end
  else if double_line then (ljw / 2, ljh * 2)%nat
  else (ljw, ljh).

(** cr2.rs:190-213: fields of frames with two lines per block; [fw] is the first
    width for all of them *)
Definition cr2_fields2 (nfields fw ljw width height : nat) (lj : list Z) (out : list Z) : res (list Z) :=
  do (_, _, out) <- for_each (seq 0 nfields) (fun _ '(fieldstart, inpos, out) =>
    do (inpos, out) <- for_each (step_range 0 height 2) (fun row '(inpos, out) =>
      for_each (step_range 0 fw 3) (fun col '(inpos, out) =>
        do out <- copy_in out (row * width + fieldstart + col) lj inpos 3;
        do out <- copy_in out ((row + 1) * width + fieldstart + col) lj (inpos + ljw) 3;
        let inpos := (inpos + 3)%nat in
        do _ <- assert_ (negb (ljw =? 0)%nat);
        Ok (if (inpos mod ljw =? 0)%nat then (inpos + ljw)%nat else inpos, out)) (inpos, out)) (inpos, out);
    Ok ((fieldstart + fw)%nat, inpos, out)) (0%nat, 0%nat, out);
  Ok out.
(** cr2.rs:214-237: fields of other frames *)
Definition cr2_fields1 (fieldwidths : list nat) (sh cpp width height : nat) (lj : list Z) (out : list Z) : res (list Z) :=
  do (_, _, out) <- for_each fieldwidths (fun fieldwidth '(fieldstart, fieldpos, out) =>
    do _ <- assert_ (negb (sh =? 0)%nat);
    let fieldwidth := (fieldwidth / sh * cpp)%nat in
    do out <- for_each (seq 0 height) (fun row out =>
      copy_in out (row * width + fieldstart) lj (fieldpos + row * fieldwidth) fieldwidth) out;
    Ok ((fieldstart + fieldwidth)%nat, (fieldpos + fieldwidth * height)%nat, out)) (0%nat, 0%nat, out);
  Ok out.

(** ** Chroma interpolation, cr2.rs:624-662
    A chunk is three rows (the last one may have fewer) starting at [base]; the
    chunks are processed in parallel and are taken in order here. *)
Definition cget (img : list Z) (base len i : nat) : res Z := do _ <- assert_ (i <? len)%nat; get img (base + i).
Definition cput (img : list Z) (base len i : nat) (v : Z) : res (list Z) := do _ <- assert_ (i <? len)%nat; put img (base + i) v.
(** sample [b] becomes the mean of [a] and [c] *)
Definition mean_at (base len a b c : nat) (img : list Z) : res (list Z) :=
  do x <- cget img base len a;
  do y <- cget img base len c;
  cput img base len b (wrap_u16 (Z.quot (x + y + 1) 2)).
Definition interpolate_chunk (sh sv width base len : nat) (img : list Z) : res (list Z) :=
  do img <- (if (sh =? 2)%nat then
      do _ <- assert_ (len mod width =? 0)%nat;
      for_each (seq 0 (len / width)) (fun row img =>
        for_each (step_range 6 width 6) (fun col img =>
          let pix1 := (row * width + col - 6)%nat in
          let pix2 := (pix1 + 3)%nat in
          let pix3 := (row * width + col)%nat in
          do img <- mean_at base len (pix1 + 1) (pix2 + 1) (pix3 + 1) img;
          mean_at base len (pix1 + 2) (pix2 + 2) (pix3 + 2) img) img) img
    else Ok img);
  if (sv =? 2)%nat && (len =? width * 3)%nat then
    for_each (step_range 0 width 3) (fun col img =>
      let pix1 := col in
      let pix2 := (width + col)%nat in
      let pix3 := (2 * width + col)%nat in
      do img <- mean_at base len (pix1 + 1) (pix2 + 1) (pix3 + 1) img;
      mean_at base len (pix1 + 2) (pix2 + 2) (pix3 + 2) img) img
  else Ok img.
Definition interpolate_yuv (sh sv width : nat) (img : list Z) : res (list Z) :=
  if (sh =? 1)%nat && (sv =? 1)%nat then Ok img
  else
    do _ <- assert_ (negb (width * 3 =? 0)%nat);
    let n := length img in
    for_each (seq 0 ((n + width * 3 - 1) / (width * 3))) (fun k img =>
      interpolate_chunk sh sv width (k * (width * 3)) (Nat.min (width * 3) (n - k * (width * 3))) img) img.

(** ** Conversion to RGB *)

(** cr2.rs:529-544, 716-724: the factors from the four values of the maker note.
    Without the maker note they are NaN, which casts to 0.  The f32 operations are
    exact here: the sum of two u16 and its half are, and a quotient 2^20 / c rounded to
    24 bits stays on its side of the next integer, which is at least 1 / c away.
    Division by zero is infinity, which casts to the largest i32. *)
Definition sraw_factors (wb : option (Z * Z * Z * Z)) (invert : bool) : Z * Z * Z :=
  match wb with
  | None => (0, 0, 0)
  | Some (a, b, c, d) =>
    let inv x := if invert then if x =? 0 then 2147483647 else 1048576 / x else x in
    (inv a, (b + c) / 2, inv d)
  end.
(** cr2.rs:730-736; [version] 0 for hint sraw_40d, 2 for sraw_new, 1 otherwise *)
Definition sraw_version (h40d hnew : bool) : nat := if h40d then 0%nat else if hnew then 2%nat else 1%nat.
(** cr2.rs:744-753 *)
Definition sraw_hue (model fw : option Z) (sh sv : nat) : res Z :=
  match model with
  | None => Ok 0
  | Some m =>
    if (2147484289 <=? m) || ((m =? 2147484184) && (1000006 <? match fw with Some f => f | None => 0 end)) then
      do n <- usub (sh * sv) 1; Ok (Z.shiftr (Z.of_nat n) 1)
    else Ok (Z.of_nat (sh * sv))
  end.
(** factor times sum, scaled down and clamped (cr2.rs:764-770) *)
Definition scaled (c s : Z) : res Z :=
  do p <- i32 (c * s);
  clampbits (Z.shiftr p 8) 16.
(** cr2.rs:757-795: one pixel *)
Definition sraw_pixel (version : nat) (f : Z * Z * Z) (hue : Z) (p0 p1 p2 : Z) : res (Z * Z * Z) :=
  let '(c1, c2, c3) := f in
  let cb := p1 - 16383 in
  let cr := p2 - 16383 in
  if (version =? 1)%nat then
    let y := p0 in
    do cb <- i32 (wrap_i32 (Z.shiftl cb 2) + hue);
    do cr <- i32 (wrap_i32 (Z.shiftl cr 2) + hue);
    do a <- i32 (50 * cb); do b <- i32 (22929 * cr); do rr <- i32 (a + b);
    do r <- scaled c1 (y + Z.shiftr rr 14);
    do a <- i32 (-5640 * cb); do b <- i32 (11751 * cr); do gg <- i32 (a - b);
    do g <- scaled c2 (y + Z.shiftr gg 14);
    do a <- i32 (29040 * cb); do b <- i32 (101 * cr); do bb <- i32 (a - b);
    do b <- scaled c3 (y + Z.shiftr bb 14);
    Ok (r, g, b)
  else
    let y := if (version =? 0)%nat then p0 - 512 else p0 in
    do r <- scaled c1 (y + cr);
    do gg <- i32 (-778 * cb - wrap_i32 (Z.shiftl cr 11));
    do g <- scaled c2 (y + Z.shiftr gg 12);
    do b <- scaled c3 (y + cb);
    Ok (r, g, b).
(** par_chunks_exact_mut(3), cr2.rs:757 *)
Fixpoint sraw_pixels (version : nat) (f : Z * Z * Z) (hue : Z) (img : list Z) : res (list Z) :=
  match img with
  | a :: b :: c :: t =>
    do (x, y, z) <- sraw_pixel version f hue a b c;
    do r <- sraw_pixels version f hue t;
    Ok (x :: y :: z :: r)
  | l => Ok l
  end.
(** Everything the conversion takes from tags and camera: factors, version, model,
    firmware, whether to interpolate *)
Record sraw_info := mk_sraw {
  sr_wb : option (Z * Z * Z * Z); sr_invert : bool; sr_40d : bool; sr_new : bool;
  sr_model : option Z; sr_fw : option Z; sr_interpolate : bool }.
(** convert_to_rgb cr2.rs:691-797 *)
Definition convert_to_rgb (i : sraw_info) (sh sv width : nat) (img : list Z) : res (list Z) :=
  do img <- (if sr_interpolate i then interpolate_yuv sh sv width img else Ok img);
  do hue <- sraw_hue (sr_model i) (sr_fw i) sh sv;
  sraw_pixels (sraw_version (sr_40d i) (sr_new i)) (sraw_factors (sr_wb i) (sr_invert i)) hue img.

(** ** raw_image, cr2.rs:110-251, from the decoded frame [lj] of [ljw] x [ljh] samples on:
    components per pixel, width, height and samples.  [stripes] is the tag with the number of fields
    before the last, their width, and the width of the last. *)
Definition cr2_image (lj : list Z) (ljw ljh sh sv : nat) (lin : option (list Z)) (tag : option (nat * nat)) (double_line : bool)
    (stripes : option (nat * nat * nat)) (i : sraw_info) : res (nat * nat * nat * list Z) :=
  let cpp := if (sh =? 2)%nat then 3%nat else 1%nat in
  do lj <- (match lin with Some t => linearize t lj | None => Ok lj end);
  let '(width, height) := cr2_size cpp ljw ljh tag double_line in
  match stripes with
  | None => do _ <- assert_ (ljw * ljh =? width * height)%nat; Ok (cpp, width, height, lj)
  | Some (n, w1, w2) =>
    if (n =? 0)%nat then
      do lj <- (if (cpp =? 3)%nat then convert_to_rgb i sh sv width lj else Ok lj);
      do _ <- assert_ (ljw * ljh =? width * height)%nat;
      Ok (cpp, width, height, lj)
    else
      do _ <- assert_ (0 <? w1)%nat;
      do _ <- assert_ (0 <? w2)%nat;
      let out := repeat 0 (width * height) in
      do out <- (if (sv =? 2)%nat then cr2_fields2 (n + 1) w1 ljw width height lj out
                 else cr2_fields1 (repeat w1 n ++ [w2]) sh cpp width height lj out);
      do out <- (if (cpp =? 3)%nat then convert_to_rgb i sh sv width out else Ok out);
      Ok (cpp, width, height, out)
  end.
