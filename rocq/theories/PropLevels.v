(** Properties C43 (level scaling) and C44 (black levels).  [o] is any
    arithmetic, [neg] any sign test, [flt] and [lvl] any conversion of integers
    and rationals: the statements hold for 32 bit floats with their rounding.
    Statements about ranges use exact arithmetic. *)
From Coq Require Import List ZArith Lia Bool QArith Qcanon.
From Verif Require Import Base Geom Cfa Demosaic DemosaicSpec DemosaicBil Levels LevelsSpec LevelsProofs.
Import ListNotations.
Open Scope nat_scope.

(** ** C43 *)

(** Every sample inside the even part of the image is scaled with the black and
    white level of its place in the 2 x 2 tile, for every interleaving of the
    line pair tasks; levels become 0 and 1. *)
Theorem C43_cfa : forall F (o : fops F) neg flt lvl sched r,
  ri_photo r = PCfa -> 0 < ri_w r -> length (as_f32 flt (ri_data r)) = ri_w r * ri_h r ->
  b_levels (ri_black r) <> [] -> ri_white r <> [] ->
  exists r' out, apply_scaling o neg flt lvl sched r = Ok r' /\
    (ri_w r' = ri_w r /\ ri_h r' = ri_h r /\ ri_cpp r' = ri_cpp r /\ ri_photo r' = ri_photo r) /\
    (ri_black r' = mk_black (repeat (0, 1)%Z (length (b_levels (ri_black r)))) (b_w (ri_black r)) (b_h (ri_black r)) (b_cpp (ri_black r)) /\
     ri_white r' = repeat 1%Z (length (ri_white r))) /\
    ri_data r' = DFloat out /\ length out = ri_w r * ri_h r /\
    forall y x, y < ri_h r -> x < ri_w r ->
      nth (y * ri_w r + x) out (f_nat o 0) =
      if (y <? 2 * (ri_h r / 2)) && (x <? 2 * (ri_w r / 2))
      then scaled o neg (nth (y * ri_w r + x) (as_f32 flt (ri_data r)) (f_nat o 0))
             (lvl (tile_level (b_levels (ri_black r)) (0, 1)%Z y x)) (flt (tile_level (ri_white r) 1%Z y x))
      else nth (y * ri_w r + x) (as_f32 flt (ri_data r)) (f_nat o 0).
Proof. intros F. exact (@scaling_cfa F). Qed.
Print Assumptions C43_cfa.

(** Images with several samples per pixel: sample i uses level i mod n. *)
Theorem C43_linear : forall F (o : fops F) neg flt lvl sched r,
  ri_photo r = PLinear -> length (b_levels (ri_black r)) = length (ri_white r) -> ri_white r <> [] ->
  exists r' out, apply_scaling o neg flt lvl sched r = Ok r' /\
    (ri_w r' = ri_w r /\ ri_h r' = ri_h r /\ ri_cpp r' = ri_cpp r /\ ri_photo r' = ri_photo r) /\
    (ri_black r' = mk_black (repeat (0, 1)%Z (length (b_levels (ri_black r)))) (b_w (ri_black r)) (b_h (ri_black r)) (b_cpp (ri_black r)) /\
     ri_white r' = repeat 1%Z (length (ri_white r))) /\
    ri_data r' = DFloat out /\ length out = length (as_f32 flt (ri_data r)) /\
    forall i, i < length out ->
      nth i out (f_nat o 0) =
      if i <? length (ri_white r) * (length out / length (ri_white r))
      then scaled o neg (nth i (as_f32 flt (ri_data r)) (f_nat o 0))
             (lvl (nth (i mod length (ri_white r)) (b_levels (ri_black r)) (0, 1)%Z)) (flt (nth (i mod length (ri_white r)) (ri_white r) 1%Z))
      else nth i (as_f32 flt (ri_data r)) (f_nat o 0).
Proof. intros F. exact (@scaling_linear F). Qed.
Print Assumptions C43_linear.

(** In exact arithmetic scaled samples are not negative, at most one unless above
    the white level, zero at or below the black level, and the scaling can be
    undone above it. *)
Theorem C43_range : forall flt lvl sched r,
  ri_photo r = PCfa -> 0 < ri_w r -> length (as_f32 flt (ri_data r)) = ri_w r * ri_h r ->
  b_levels (ri_black r) <> [] -> ri_white r <> [] ->
  (forall y x, (lvl (tile_level (b_levels (ri_black r)) (0, 1)%Z y x) < flt (tile_level (ri_white r) 1%Z y x))%Qc) ->
  ri_w r mod 2 = 0 -> ri_h r mod 2 = 0 ->
  exists r' out, apply_scaling qops qneg flt lvl sched r = Ok r' /\ ri_data r' = DFloat out /\
    forall y x, y < ri_h r -> x < ri_w r ->
      let s := nth (y * ri_w r + x) (as_f32 flt (ri_data r)) (f_nat qops 0) in
      let b := lvl (tile_level (b_levels (ri_black r)) (0, 1)%Z y x) in
      let w := flt (tile_level (ri_white r) 1%Z y x) in
      let v := nth (y * ri_w r + x) out (f_nat qops 0) in
      ((0 <= v /\ (s <= w -> v <= 1) /\ (b <= s -> v * (w - b) = s - b) /\ (s <= b -> v = 0))%Qc).
Proof. exact scaling_cfa_range. Qed.
Print Assumptions C43_range.

(** Scaling a scaled image changes nothing. *)
Theorem C43_twice : forall flt lvl, flt 1%Z = 1%Qc -> lvl (0, 1)%Z = 0%Qc ->
  forall sched sched' r r1, ri_photo r = PCfa -> 0 < ri_w r ->
  length (as_f32 flt (ri_data r)) = ri_w r * ri_h r ->
  b_levels (ri_black r) <> [] -> ri_white r <> [] ->
  (forall y x, (lvl (tile_level (b_levels (ri_black r)) (0, 1)%Z y x) < flt (tile_level (ri_white r) 1%Z y x))%Qc) ->
  apply_scaling qops qneg flt lvl sched r = Ok r1 -> apply_scaling qops qneg flt lvl sched' r1 = Ok r1.
Proof. exact scaling_twice. Qed.
Print Assumptions C43_twice.

(** The last row and column of odd sizes keep their raw values although the
    levels say 0 and 1. *)
Theorem C43_odd_refuted : ~ (forall sched (r : rawimg Z),
  ri_photo r = PCfa -> length (as_f32 (fun z => z) (ri_data r)) = ri_w r * ri_h r -> b_levels (ri_black r) = [(100, 1)%Z] -> ri_white r = [200%Z] ->
  exists r' out, apply_scaling zops (fun z => (z <? 0)%Z) (fun z => z) fst sched r = Ok r' /\ ri_data r' = DFloat out /\
    forall i, i < length out -> nth i out 0%Z = scaled zops (fun z => (z <? 0)%Z) (nth i (as_f32 (fun z => z) (ri_data r)) 0%Z) 100%Z 200%Z).
Proof. exact scaling_odd_refuted. Qed.
Print Assumptions C43_odd_refuted.

(** With different numbers of black and white levels nothing is scaled, but the
    levels still become 0 and 1. *)
Theorem C43_mismatch : forall F (o : fops F) neg flt lvl sched r,
  ri_photo r = PLinear -> length (b_levels (ri_black r)) <> length (ri_white r) ->
  exists r', apply_scaling o neg flt lvl sched r = Ok r' /\
    (ri_w r' = ri_w r /\ ri_h r' = ri_h r /\ ri_cpp r' = ri_cpp r /\ ri_photo r' = ri_photo r) /\
    (ri_black r' = mk_black (repeat (0, 1)%Z (length (b_levels (ri_black r)))) (b_w (ri_black r)) (b_h (ri_black r)) (b_cpp (ri_black r)) /\
     ri_white r' = repeat 1%Z (length (ri_white r))) /\
    ri_data r' = DFloat (as_f32 flt (ri_data r)).
Proof. intros F. exact (@scaling_mismatch F). Qed.
Print Assumptions C43_mismatch.

(** Monochrome images cannot be scaled. *)
Theorem C43_mono : forall F (o : fops F) neg flt lvl sched r,
  ri_photo r = PBlackIsZero -> apply_scaling o neg flt lvl sched r = Panic.
Proof. intros F. exact (@scaling_mono F). Qed.
Print Assumptions C43_mono.

(** Two tasks, run second first: 4 x 4 samples, four black levels. *)
Example C43_example :
  apply_scaling zops (fun z => (z <? 0)%Z) (fun z => z) fst [1; 0; 0; 1]
    (mk_rawimg 4 4 1 PCfa (mk_black [(10, 1); (20, 1); (30, 1); (40, 1)]%Z 2 2 1) [12%Z]
       (DInt [14; 4; 16; 4; 54; 20; 54; 20; 10; 12; 0; 12; 30; 40; 12; 12]%Z)) =
  Ok (mk_rawimg 4 4 1 PCfa (mk_black [(0, 1); (0, 1); (0, 1); (0, 1)]%Z 2 2 1) [1%Z]
       (DFloat [2; 0; 3; 0; -2; 0; -2; 0; 0; 0; 0; 0; 0; 0; 0; 0]%Z)).
Proof. reflexivity. Qed.

(** ** C44 *)

(** Levels taken from the masked areas: each is the mean of the masked samples at
    its place of the 2 x 2 tile. *)
Theorem C44_masked : forall F R (o : fops F) (rat : F -> res R) areas width image, areas <> [] ->
  (forall p, In p (masked areas) -> fst p * width + snd p < length image) -> image <> [] ->
  let m k := masked_mean o areas 2 2 k (fun r c => nth (r * width + c) image (f_nat o 0)) in
  (forall k, k < 4 -> exists r, rat (m k) = Ok r) ->
  exists levels, calc_black_levels o rat 2 2 areas width image = Ok (Some (mk_black levels 2 2 1)) /\
    length levels = 4 /\ forall k, k < 4 -> rat (m k) = match nth_error levels k with Some r => Ok r | None => Panic end.
Proof. intros F R. exact (@calc_black_ok F R). Qed.
Print Assumptions C44_masked.

(** Masked areas are a band of rows over the active columns and a band of columns
    over the active rows. *)
Theorem C44_areas : forall act width height ah av,
  exists l, black_areas act width height 1 ah av = Ok l /\
    let base := match act with Some a => a | None => mk_rect 0 0 width height end in
    forall r c, In (r, c) (masked l) <->
      ((exists s n, ah = Some (s, n) /\ s <= r < s + n /\ r_x base <= c < r_x base + r_w base) \/
       (exists s n, av = Some (s, n) /\ s <= c < s + n /\ r_y base <= r < r_y base + r_h base)).
Proof. exact black_areas_ok. Qed.
Print Assumptions C44_areas.

(** A camera configuration with levels wins over everything. *)
Theorem C44_configured : forall F R (o : fops F) (rat : F -> res R) zero v rest cw ch cpp invalid given dummy areas width image,
  let b := choose_black o rat zero (Some (v :: rest)) cw ch cpp invalid given dummy areas width image in
  (rest = [] -> b = Ok (mk_black (repeat v cpp) 1 1 cpp)) /\
  (rest <> [] -> S (length rest) = cw * ch * cpp -> b = Ok (mk_black (v :: rest) cw ch cpp)) /\
  (rest <> [] -> S (length rest) <> cw * ch * cpp -> b = Panic).
Proof. intros F R. exact (@choose_configured F R). Qed.
Print Assumptions C44_configured.

(** Then the levels of the decoder, unless they are marked invalid. *)
Theorem C44_decoder : forall F R (o : fops F) (rat : F -> res R) zero cw ch cpp b dummy areas width image,
  choose_black o rat zero None cw ch cpp false (Some b) dummy areas width image = Ok b.
Proof. intros F R. exact (@choose_given F R). Qed.
Print Assumptions C44_decoder.

(** Then the masked areas, and zero without any. *)
Theorem C44_estimated : forall F R (o : fops F) (rat : F -> res R) zero cw ch cpp invalid given areas width image,
  invalid = true \/ given = None ->
  choose_black o rat zero None cw ch cpp invalid given false areas width image =
  match calc_black_levels o rat cw ch areas width image with
  | Ok (Some b) => Ok b
  | Ok None => if cpp =? 0 then Panic else Ok (mk_black (repeat zero cpp) 1 1 cpp)
  | Err => Err
  | Panic => Panic
  end.
Proof. intros F R. exact (@choose_masked F R). Qed.
Print Assumptions C44_estimated.

Theorem C44_none : forall F R (o : fops F) (rat : F -> res R) cw ch width image,
  image <> [] \/ cw * ch = 0 -> calc_black_levels o rat cw ch [] width image = Ok None.
Proof. intros F R. exact (@calc_none F R). Qed.
Print Assumptions C44_none.

(** Masked areas that miss a place of the tile, such as a single masked column,
    make the decoder panic. *)
Theorem C44_empty_place : forall F R (o : fops F) (rat : F -> res R) areas width image k, areas <> [] ->
  (forall p, In p (masked areas) -> fst p * width + snd p < length image) -> image <> [] -> k < 4 ->
  (forall p, In p (masked areas) -> fst p mod 2 * 2 + snd p mod 2 <> k) ->
  rat (f_div o (f_nat o 0) (f_nat o 0)) = Panic -> (forall x, rat x <> Err) ->
  calc_black_levels o rat 2 2 areas width image = Panic.
Proof. intros F R. exact (@calc_black_empty F R). Qed.
Print Assumptions C44_empty_place.

(** Masked areas of an X-Trans sensor always make it panic. *)
Theorem C44_xtrans : forall F R (o : fops F) (rat : F -> res R) cw ch a areas width image,
  cw * ch <> 0 -> cw * ch <> 4 ->
  (forall p, In p (masked (a :: areas)) -> fst p * width + snd p < length image) ->
  calc_black_levels o rat cw ch (a :: areas) width image = Panic.
Proof. intros F R. exact (@calc_black_other F R). Qed.
Print Assumptions C44_xtrans.

(** 4 columns, the first two rows masked: means 2, 4, 6, 8. *)
Example C44_example :
  black_areas (Some (mk_rect 0 2 4 2)) 4 4 1 (Some (0, 2)) None = Ok [mk_rect 0 0 4 2] /\
  choose_black zops (fun x => Ok x) 0%Z None 2 2 1 false None false [mk_rect 0 0 4 2] 4
    [1; 3; 3; 5; 5; 7; 7; 9; 100; 100; 100; 100; 100; 100; 100; 100]%Z = Ok (mk_black [2; 4; 6; 8]%Z 2 2 1).
Proof. split; reflexivity. Qed.
