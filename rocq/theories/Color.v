(** Colour conversion: rawler/src/imgop/{matrix,chromatic_adaption,raw}.rs.

    The arithmetic [o] is a parameter, as in [Demosaic.v].  An array of rows is a
    list of lists; indices are in range by the types of the Rust arrays, so a
    read outside gives the default.  f32::sqrt, f32::max are parameters.  A sum
    of floats starts with 0. *)
From Coq Require Import List ZArith Lia Bool.
From Verif Require Import Base Demosaic.
Import ListNotations.
Open Scope nat_scope.

(** Illuminant, xyz.rs:8-28 *)
Inductive illuminant :=
  Unknown | Daylight | Fluorescent | Tungsten | Flash | FineWeather | CloudyWeather | Shade
| DaylightFluorescent | DaylightWhiteFluorescent | CoolWhiteFluorescent | WhiteFluorescent
| IllA | IllB | IllC | D55 | D65 | D75 | D50 | IsoStudioTungsten.

Definition illuminant_eqb (a b : illuminant) : bool :=
  match a, b with
  | Unknown, Unknown | Daylight, Daylight | Fluorescent, Fluorescent | Tungsten, Tungsten | Flash, Flash
  | FineWeather, FineWeather | CloudyWeather, CloudyWeather | Shade, Shade
  | DaylightFluorescent, DaylightFluorescent | DaylightWhiteFluorescent, DaylightWhiteFluorescent
  | CoolWhiteFluorescent, CoolWhiteFluorescent | WhiteFluorescent, WhiteFluorescent
  | IllA, IllA | IllB, IllB | IllC, IllC | D55, D55 | D65, D65 | D75, D75 | D50, D50
  | IsoStudioTungsten, IsoStudioTungsten => true
  | _, _ => false
  end.

Section Color.
Context {F : Type}.
Variable o : fops F.
Notation z := (f_nat o 0).
Notation one := (f_nat o 1).

Definition mij (m : list (list F)) (i j : nat) : F := nth j (nth i m []) z.
Definition mat (n m : nat) (f : nat -> nat -> F) : list (list F) := map (fun i => map (f i) (seq 0 m)) (seq 0 n).
Definition fsum (l : list F) : F := fold_left (f_add o) l z.

(** multiply, matrix.rs:7-17: [a] is A x X, [b] is X x B *)
Definition multiply (na nx nb : nat) (a b : list (list F)) : list (list F) :=
  mat na nb (fun i j => fsum (map (fun x => f_mul o (mij a i x) (mij b x j)) (seq 0 nx))).

(** multiply_row1, matrix.rs:20-26 *)
Definition multiply_row1 (a : list (list F)) (b : list F) : list F :=
  map (fun i => f_add o (f_add o (f_mul o (mij a i 0) (nth 0 b z)) (f_mul o (mij a i 1) (nth 1 b z))) (f_mul o (mij a i 2) (nth 2 b z)))
    (seq 0 3).

(** normalize, matrix.rs:29-40 *)
Definition normalize (nn mm : nat) (a : list (list F)) : list (list F) :=
  map (fun m =>
    let row := map (mij a m) (seq 0 nn) in
    let sum := fsum row in
    if f_eq o (f_abs o sum) z then repeat z nn else map (fun v => f_div o v sum) row) (seq 0 mm).

(** pseudo_inverse, matrix.rs:43-86.  The work matrix is 3 x 6: the products of
    the columns, beside the unit matrix. *)
Definition pinv_start (n : nat) (m : list (list F)) : list (list F) :=
  mat 3 6 (fun i j =>
    let init := if j =? i + 3 then one else z in
    if j <? 3 then fold_left (f_add o) (map (fun k => f_mul o (mij m k i) (mij m k j)) (seq 0 n)) init else init).

(** one round of the elimination, matrix.rs:57-71 *)
Definition pinv_round (work : list (list F)) (i : nat) : list (list F) :=
  let num := mij work i i in
  let work := upd_list work i (map (fun v => f_div o v num) (nth i work [])) in
  fold_left (fun work k =>
    if k =? i then work
    else
      let num := mij work k i in
      upd_list work k (map (fun j => f_sub o (mij work k j) (f_mul o (mij work i j) num)) (seq 0 6))) (seq 0 3) work.

Definition pinv_work (n : nat) (m : list (list F)) : list (list F) := fold_left pinv_round (seq 0 3) (pinv_start n m).

Definition pseudo_inverse (n : nat) (m : list (list F)) : list (list F) :=
  let work := pinv_work n m in
  mat 3 n (fun i j => fsum (map (fun k => f_mul o (mij work i (k + 3)) (mij m j k)) (seq 0 3))).

(** transform_1d, matrix.rs:106-115 *)
Definition transform_1d (n m : nat) (l : list F) : option (list (list F)) :=
  if length l =? n * m then Some (mat n m (fun i j => nth (i * m + j) l z)) else None.

(** ** Chromatic adaption, chromatic_adaption.rs:29-82; [tri] are the tristimulus
    constants and [brad], [bradi] the two Bradford matrices. *)
Variable tri : illuminant -> list F.
Variables brad bradi : list (list F).

(** illuminants without a white point reach [todo!()] *)
Definition has_white (i : illuminant) : bool :=
  match i with Daylight | Flash | IllA | IllB | IllC | D50 | D55 | D65 | D75 => true | _ => false end.

Definition adaption_matrix (src dst : illuminant) : res (list (list F)) :=
  if has_white src && has_white dst then
    let s := multiply_row1 brad (tri src) in
    let d := multiply_row1 brad (tri dst) in
    let diag := mat 3 3 (fun i j => if i =? j then f_div o (nth i d z) (nth i s z) else z) in
    Ok (multiply 3 3 3 (multiply 3 3 3 bradi diag) brad)
  else Panic.

Definition adapt_bradford (src dst : illuminant) (m : list (list F)) : res (list (list F)) :=
  do a <- adaption_matrix src dst; Ok (multiply 3 3 3 m a).

(** ** Pixels *)
Variable fsqrt : F -> F.
Variable fmax : F -> F -> F.

(** clip_negative, raw.rs:40-42 *)
Definition clip_negative (p : list F) : list F := map (fun v => if f_lt o v z then z else v) p.

(** clip_euclidean_norm_avg, raw.rs:72-86; the array has at least one element *)
Definition clip_norm_avg (p : list F) : list F :=
  let p := clip_negative p in
  match p with
  | [] => p
  | a :: rest =>
    let max_val := fold_left fmax rest a in
    if f_lt o one max_val then
      let color := map (fun v => f_div o v max_val) p in
      let eucl := f_div o (fsqrt (fsum (map (fun v => f_mul o v v) p))) (fsqrt (f_nat o (length p))) in
      map (fun v => f_div o (f_add o v eucl) (f_nat o 2)) color
    else p
  end.

(** the matrix of map_3ch_to_rgb and map_4ch_to_rgb, raw.rs:193-195, 220-222;
    [srgb] is SRGB_TO_XYZ_D65 and [xyz2cam] has four rows *)
Variable srgb : list (list F).
Definition cam_matrix (xyz2cam : list (list F)) : list (list F) := normalize 3 4 (multiply 4 3 3 xyz2cam srgb).

(** the products of the first [nch] columns, added from the left *)
Definition apply_row (row : list F) (nch : nat) (v : list F) : F :=
  match seq 0 nch with
  | [] => z
  | _ :: rest => fold_left (fun s c => f_add o s (f_mul o (nth c row z) (nth c v z))) rest (f_mul o (nth 0 row z) (nth 0 v z))
  end.

(** one pixel of map_3ch_to_rgb (nch = 3) and map_4ch_to_rgb (nch = 4),
    raw.rs:201-216, 228-244 *)
Definition map_pixel (nch : nat) (cam2rgb : list (list F)) (wb pix : list F) : list F :=
  let v := map (fun c => f_mul o (nth c pix z) (nth c wb z)) (seq 0 nch) in
  clip_norm_avg (map (fun i => apply_row (nth i cam2rgb []) nch v) (seq 0 3)).

(** the whole image: rayon's map over the pixels, collected in order *)
Definition map_to_rgb (nch : nat) (wb : list F) (xyz2cam : list (list F)) (src : list (list F)) : list (list F) :=
  let cam2rgb := pseudo_inverse 4 (cam_matrix xyz2cam) in
  map (map_pixel nch cam2rgb wb) src.

(** ** The matrix used for development, develop.rs:238-277 *)

(** color_matrix_find_first over the order of develop.rs:242-252, else identity;
    [find] is HashMap::get *)
Definition preferred : list illuminant := [D65; IllA; IllB; IllC; D50; D55; D75; Daylight; Flash].
Fixpoint find_first (find : illuminant -> option (list F)) (l : list illuminant) : option (illuminant * list F) :=
  match l with
  | [] => None
  | i :: l => match find i with Some m => Some (i, m) | None => find_first find l end
  end.
Definition identity3 : list F := concat (mat 3 3 (fun i j => if i =? j then one else z)).

Definition xyz2cam_of (find : illuminant -> option (list F)) : res (list (list F)) :=
  let '(illu, m) := match find_first find preferred with Some im => im | None => (D65, identity3) end in
  do d65 <- (if illuminant_eqb illu D65 then Ok m
             else if length m =? 9 then
               match transform_1d 3 3 m with
               | Some mm => do a <- adapt_bradford illu D65 mm; Ok (concat a)
               | None => Panic
               end
             else Panic);
  do _ <- assert_ (length d65 mod 3 =? 0);
  (* xyz2cam[i] for i below len / 3 *)
  if length d65 / 3 <=? 4
  then Ok (mat 4 3 (fun i j => if i <? length d65 / 3 then nth (i * 3 + j) d65 z else z))
  else Panic.

End Color.
