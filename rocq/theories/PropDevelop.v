(** Property C46: development of an image.  [o] is any arithmetic, the tone curve
    [gamma] any function, [sch] the schedules of the parallel loops. *)
From Coq Require Import List ZArith Lia Bool QArith Qcanon.
From Verif Require Import Base Tiles Geom GeomProofs Cfa CfaProofs Demosaic DemosaicSpec Levels LevelsSpec LevelsProofs
  Color ColorSpec Develop DevelopSpec DevelopProofs.
Import ListNotations.
Open Scope nat_scope.

(** A Bayer image: the output has the size of the crop (or active) area and each
    pixel is tone curve of colour conversion of demosaicing of scaled samples at
    its own place, for every schedule. *)
Theorem C46_bayer : forall F (o : fops F) neg nan flt lvl fsqrt fmax tri brad bradi srgb gamma fuji fuel sch r name x2c,
  let img := rd_img r in
  let a := area_of (ri_w img) (ri_h img) (rd_active r) in
  let k := kept_of (ri_w img) (ri_h img) (rd_active r) (rd_crop r) in
  ri_photo img = PCfa -> ri_cpp img = 1 -> length (as_f32 flt (ri_data img)) = ri_w img * ri_h img ->
  b_levels (ri_black img) <> [] -> ri_white img <> [] ->
  In name bayer_names -> cfa_new name = Ok (rd_cfa r) -> rd_sensor r = Bayer -> rd_fuji r = None ->
  inside a (mk_rect 0 0 (ri_w img) (ri_h img)) -> inside k a ->
  0 < r_w a -> r_h a = 6 \/ (6 < r_h a /\ 6 <= r_w a) -> r_w a < fuel ->
  xyz2cam_of o tri brad bradi (rd_matrix r) = Ok x2c ->
  exists p, develop o neg nan flt lvl fsqrt fmax tri brad bradi srgb gamma fuji default_steps fuel sch r = Some (Ok (IThree p)) /\
    px_w p = r_w k /\ px_h p = r_h k /\ pix_ok p /\
    forall y x, y < r_h k -> x < r_w k ->
      px [] p y x =
      map gamma (map_pixel o fsqrt fmax 3 (pseudo_inverse o 4 (cam_matrix o srgb x2c))
        (if nan (nth 0 (rd_wb r) (f_nat o 0)) then repeat (f_nat o 1) 4 else rd_wb r)
        (camera_at o neg flt lvl img name a (r_y k - r_y a + y) (r_x k - r_x a + x))).
Proof. intros F. exact (@develop_bayer F). Qed.
Print Assumptions C46_bayer.

(** A crop of 4 x 4 at (3, 2) in an active area of 8 x 7 at (1, 1) of 10 x 9. *)
Example C46_example :
  inside (mk_rect 1 1 8 7) (mk_rect 0 0 10 9) /\ inside (mk_rect 3 2 4 4) (mk_rect 1 1 8 7) /\
  (exists c0, cfa_new [82; 71; 71; 66]%Z = Ok c0) /\
  kept_of 10 9 (Some (mk_rect 1 1 8 7)) (Some (mk_rect 3 2 4 4)) = mk_rect 3 2 4 4 /\
  (exists m, xyz2cam_of qops white bradford bradford_inv (fun _ => None) = Ok m).
Proof.
  split; [unfold inside; cbn; lia|]. split; [unfold inside; cbn; lia|]. split.
  { destruct (cfa_new_ok [82; 71; 71; 66]%Z 2 2) as (c & E & _); [reflexivity|lia| |eauto].
    intros ch H. cbn in H. repeat (destruct H as [<-|H]; [eexists; reflexivity|]). destruct H. }
  split; [reflexivity|]. eexists. reflexivity.
Qed.

(** With exact arithmetic a field of three constant colours is demosaiced to
    exactly these colours everywhere, borders included. *)
Theorem C46_flat_field : forall fuel s0 s1 s2 s3 raw dw dh name c0 roi v,
  In name bayer_names -> cfa_new name = Ok c0 ->
  length raw = dw * dh -> r_x roi + r_w roi <= dw -> r_y roi + r_h roi <= dh -> 2 <= r_w roi ->
  r_h roi = 6 \/ (6 < r_h roi /\ 6 <= r_w roi) -> r_w roi < fuel ->
  (forall r q, r < r_h roi -> q < r_w roi ->
     nth ((r_y roi + r) * dw + (r_x roi + q)) raw (f_nat qops 0) = v (sensor_color name (r_y roi + r) (r_x roi + q))) ->
  ppg qops fuel s0 s1 s2 s3 raw dw c0 roi = Some (Ok (concat (repeat [v 0; v 1; v 2] (r_w roi * r_h roi)))).
Proof. exact ppg_flat_color. Qed.
Print Assumptions C46_flat_field.

(** A grey card: if every sample between its levels times the white balance of
    its colour is [g], the developed image is the grey [gamma g] everywhere. *)
Theorem C46_grey : forall neg nan flt lvl fsqrt tri brad bradi srgb gamma fuji fuel sch r name x2c g,
  let img := rd_img r in
  let a := area_of (ri_w img) (ri_h img) (rd_active r) in
  let k := kept_of (ri_w img) (ri_h img) (rd_active r) (rd_crop r) in
  ri_photo img = PCfa -> ri_cpp img = 1 -> length (as_f32 flt (ri_data img)) = ri_w img * ri_h img ->
  b_levels (ri_black img) <> [] -> ri_white img <> [] ->
  In name bayer_names -> cfa_new name = Ok (rd_cfa r) -> rd_sensor r = Bayer -> rd_fuji r = None ->
  inside a (mk_rect 0 0 (ri_w img) (ri_h img)) -> inside k a ->
  2 <= r_w a -> r_h a = 6 \/ (6 < r_h a /\ 6 <= r_w a) -> r_w a < fuel ->
  xyz2cam_of qops tri brad bradi (rd_matrix r) = Ok x2c ->
  independent qops 4 (cam_matrix qops srgb x2c) ->
  (forall i, i < 3 -> (primary x2c srgb i 0 + primary x2c srgb i 1 + primary x2c srgb i 2)%Qc <> 0%Qc) ->
  (primary x2c srgb 3 0 + primary x2c srgb 3 1 + primary x2c srgb 3 2 = 0)%Qc ->
  nan (nth 0 (rd_wb r) (f_nat qops 0)) = false ->
  (forall c, c < 3 -> nth c (rd_wb r) 0%Qc <> 0%Qc) -> (0 <= g <= 1)%Qc ->
  (forall y x, y < r_h a -> x < r_w a ->
     (level_at qops neg flt lvl img (r_y a + y)%nat (r_x a + x)%nat
      * nth (sensor_color name (r_y a + y)%nat (r_x a + x)%nat) (rd_wb r) 0)%Qc = g) ->
  exists p, develop qops neg nan flt lvl fsqrt qmax tri brad bradi srgb gamma fuji default_steps fuel sch r = Some (Ok (IThree p)) /\
    px_w p = r_w k /\ px_h p = r_h k /\ pix_ok p /\
    forall y x, y < r_h k -> x < r_w k -> px [] p y x = [gamma g; gamma g; gamma g].
Proof. exact develop_grey. Qed.
Print Assumptions C46_grey.

(** Images with three samples per pixel.  The place in the image is the one of
    the crop minus the origin of the active area ... *)
Theorem C46_linear : forall F (o : fops F) neg nan flt lvl fsqrt fmax tri brad bradi srgb gamma fuji fuel sch r x2c,
  let img := rd_img r in
  let a := area_of (ri_w img) (ri_h img) (rd_active r) in
  let k := kept_of (ri_w img) (ri_h img) (rd_active r) (rd_crop r) in
  ri_photo img = PLinear -> ri_cpp img = 3 -> length (as_f32 flt (ri_data img)) = 3 * (ri_w img * ri_h img) ->
  length (b_levels (ri_black img)) = 3 -> length (ri_white img) = 3 ->
  inside a (mk_rect 0 0 (ri_w img) (ri_h img)) -> inside k a -> 0 < r_w a ->
  xyz2cam_of o tri brad bradi (rd_matrix r) = Ok x2c ->
  exists p, develop o neg nan flt lvl fsqrt fmax tri brad bradi srgb gamma fuji default_steps fuel sch r = Some (Ok (IThree p)) /\
    px_w p = r_w k /\ px_h p = r_h k /\ pix_ok p /\
    forall y x, y < r_h k -> x < r_w k ->
      px [] p y x =
      map gamma (map_pixel o fsqrt fmax 3 (pseudo_inverse o 4 (cam_matrix o srgb x2c))
        (if nan (nth 0 (rd_wb r) (f_nat o 0)) then repeat (f_nat o 1) 4 else rd_wb r)
        (linear_at o neg flt lvl img (r_y k - r_y a + y) (r_x k - r_x a + x))).
Proof. intros F. exact (@develop_linear F). Qed.
Print Assumptions C46_linear.

(** ... although the image was never cut to the active area: an image whose
    active pixels are all white is developed to black. *)
Theorem C46_linear_active_refuted : forall fsqrt tri brad bradi srgb gamma fuji fuel sch,
  (forall y x, y < 1 -> x < 1 ->
     linear_at qops qneg (fun v => Q2Qc (inject_Z v)) (fun _ => 0%Qc) (rd_img half_white) (0 + y) (1 + x) = [1; 1; 1]%Qc) /\
  exists p, develop qops qneg (fun _ => false) (fun v => Q2Qc (inject_Z v)) (fun _ => 0%Qc) fsqrt qmax tri brad bradi srgb gamma fuji
      default_steps fuel sch half_white = Some (Ok (IThree p)) /\
    px_w p = 1 /\ px_h p = 1 /\ px [] p 0 0 = [gamma 0; gamma 0; gamma 0]%Qc.
Proof. exact half_white_black. Qed.
Print Assumptions C46_linear_active_refuted.

(** Monochrome images cannot be developed, nor rotated Fuji sensors with an
    active area. *)
Theorem C46_mono : forall F (o : fops F) neg nan flt lvl fsqrt fmax tri brad bradi srgb gamma fuji fuel sch r,
  ri_photo (rd_img r) = PBlackIsZero ->
  develop o neg nan flt lvl fsqrt fmax tri brad bradi srgb gamma fuji default_steps fuel sch r = Some Panic.
Proof. intros F. exact (@develop_mono F). Qed.
Print Assumptions C46_mono.

Theorem C46_fuji_active : forall F (o : fops F) neg nan flt lvl fsqrt fmax tri brad bradi srgb gamma fuji fuel sch r a fw,
  ri_photo (rd_img r) = PCfa -> ri_cpp (rd_img r) = 1 -> rd_active r = Some a -> rd_fuji r = Some fw ->
  forall i, develop o neg nan flt lvl fsqrt fmax tri brad bradi srgb gamma fuji default_steps fuel sch r <> Some (Ok i).
Proof. intros F. exact (@develop_fuji_active F). Qed.
Print Assumptions C46_fuji_active.

(** Output samples are the pixels in reading order, channels interleaved. *)
Theorem C46_samples : forall F (quant : F -> Z) (d : F) p, pix_ok p -> (forall q, In q (px_data p) -> length q = 3) ->
  length (samples_u16 quant (IThree p)) = 3 * (px_w p * px_h p) /\
  forall y x ch, y < px_h p -> x < px_w p -> ch < 3 ->
    nth (3 * (y * px_w p + x) + ch) (samples_u16 quant (IThree p)) (quant d) = quant (nth ch (px [] p y x) d).
Proof. intros F. exact (@samples_ok F). Qed.
Print Assumptions C46_samples.
