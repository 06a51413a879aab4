(** What development of a Bayer image should compute. *)
From Coq Require Import List ZArith Lia Bool QArith Qcanon.
From Verif Require Import Base Tiles Geom Cfa Demosaic DemosaicSpec Levels LevelsSpec Color Develop.
Import ListNotations.
Open Scope nat_scope.

(** the parts of the sensor that are developed and kept *)
Definition area_of (w h : nat) (active : option rect) : rect :=
  match active with Some a => a | None => mk_rect 0 0 w h end.
Definition kept_of (w h : nat) (active crop : option rect) : rect :=
  match crop with Some c => c | None => area_of w h active end.
Definition inside (a b : rect) : Prop :=
  r_x b <= r_x a /\ r_y b <= r_y a /\ r_x a + r_w a <= r_x b + r_w b /\ r_y a + r_h a <= r_y b + r_h b.

Section Spec.
Context {F : Type}.
Variable o : fops F.
Variable neg : F -> bool.
Variable flt : Z -> F.
Variable lvl : Z * Z -> F.

(** the sample at (y, x) between its black and white level; the last row and
    column of odd sizes stay as they are *)
Definition level_at (r : rawimg F) (y x : nat) : F :=
  let s := nth (y * ri_w r + x) (as_f32 flt (ri_data r)) (f_nat o 0) in
  if (y <? 2 * (ri_h r / 2)) && (x <? 2 * (ri_w r / 2))
  then scaled o neg s (lvl (tile_level (b_levels (ri_black r)) (0, 1)%Z y x)) (flt (tile_level (ri_white r) 1%Z y x))
  else s.

(** the three camera channels at (y, x) of the area [a] *)
Definition camera_at (r : rawimg F) (name : list Z) (a : rect) (y x : nat) : list F :=
  map (ppg_at o (r_w a) (r_h a) (fun y x => level_at r (r_y a + y) (r_x a + x))
         (fun y x => sensor_color name (r_y a + y) (r_x a + x)) y x) [0; 1; 2].

(** pixel (y, x) of an image with three samples per pixel, scaled per channel *)
Definition linear_at (r : rawimg F) (y x : nat) : list F :=
  map (fun ch => scaled o neg (nth (3 * (y * ri_w r + x) + ch) (as_f32 flt (ri_data r)) (f_nat o 0))
                   (lvl (nth ch (b_levels (ri_black r)) (0, 1)%Z)) (flt (nth ch (ri_white r) 1%Z))) [0; 1; 2].
End Spec.

(** Two linear pixels, black and white; only the white one is active. *)
Definition half_white : rawdev (F := Qc) :=
  mk_rawdev (mk_rawimg 2 1 3 PLinear (mk_black [(0, 1); (0, 1); (0, 1)]%Z 1 1 3) [100; 100; 100]%Z (DInt [0; 0; 0; 100; 100; 100]%Z))
    (mk_cfa [] 0 0 []) [] Bayer (Some (mk_rect 1 0 1 1)) None None false [1; 1; 1; 1]%Qc (fun _ => None).
