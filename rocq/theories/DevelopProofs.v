(** Development composed from level scaling, demosaicing, colour conversion,
    cropping and the tone curve. *)
From Coq Require Import List ZArith Lia Bool QArith Qcanon.
From Coq Require Import ZifyBool ZifyNat.
From Verif Require Import Base BaseLemmas Tiles Geom GeomProofs Cfa CfaProofs Demosaic DemosaicSpec DemosaicProofs DemosaicPpg DemosaicTop
  Levels LevelsSpec LevelsProofs Color ColorSpec ColorTop Develop DevelopSpec.
Import ListNotations.
Open Scope nat_scope.

Section Dev.
Context {F : Type}.
Variable o : fops F.
Variable neg nan : F -> bool.
Variable flt : Z -> F.
Variable lvl : Z * Z -> F.
Variable fsqrt : F -> F.
Variable fmax : F -> F -> F.
Variable tri : illuminant -> list F.
Variables brad bradi srgb : list (list F).
Variable gamma : F -> F.
Variable fuji : pix2d (list F) -> nat -> bool -> res (pix2d (list F)).
Notation z := (f_nat o 0).

Lemma pixels_of_nth n cnt l i : i < cnt -> nth i (pixels_of o n cnt l) [] = map (fun ch => nth (n * i + ch) l z) (seq 0 n).
Proof. intros H. unfold pixels_of. now rewrite nth_map_seq' by auto. Qed.

Lemma ppg_at_ext_smp w h col s s' r q ch : (forall r q, r < h -> q < w -> s r q = s' r q) -> r < h -> q < w ->
  ppg_at o w h s col r q ch = ppg_at o w h s' col r q ch.
Proof.
  intros SE Hr Hq.
  assert (SM : forall k r q ch, square_mean o w h s col k r q ch = square_mean o w h s' col k r q ch).
  { intros k y x c. unfold square_mean. f_equal. apply map_ext_in. intros [y' x'] Hin.
    unfold square in Hin. apply filter_In in Hin as [Hin _]. apply in_prod_iff in Hin as [H1 H2].
    apply in_seq in H1, H2. apply SE; cbn; lia. }
  assert (GE : forall r q, r < h -> q < w -> ppg_green o w h s col r q = ppg_green o w h s' col r q).
  { intros y x Hy Hx. unfold ppg_green. destruct (col y x =? 1); [auto|].
    destruct (inner w h y x) eqn:EI; [|apply SM]. apply inner_lt in EI. now rewrite !SE by lia. }
  unfold ppg_at, ppg_diag. destruct (ch =? col r q); [auto|]. destruct (inner w h r q) eqn:EI; cbn [negb]; [|apply SM].
  apply inner_lt in EI. now rewrite !GE, !SE by lia.
Qed.

(** *** after demosaicing *)
Definition dev_tail (r : rawdev) (i : inter) : res inter :=
  do i <- dev_calibrate o nan fsqrt fmax tri brad bradi srgb default_steps r i;
  do i <- dev_crop default_steps r i;
  Ok (dev_gamma gamma i).

Lemma dev_crop_ok r p0 :
  let img := rd_img r in
  let a := area_of (ri_w img) (ri_h img) (rd_active r) in
  let k := kept_of (ri_w img) (ri_h img) (rd_active r) (rd_crop r) in
  pix_ok p0 -> inside k a -> r_w a <= px_w p0 -> r_h a <= px_h p0 -> 0 < r_w a ->
  (rd_active r = None -> px_w p0 = ri_w img /\ px_h p0 = ri_h img) ->
  exists p1, dev_crop default_steps r (IThree p0) = Ok (IThree (F := F) p1) /\ pix_ok p1 /\ px_w p1 = r_w k /\ px_h p1 = r_h k /\
     forall y x, y < r_h k -> x < r_w k -> px [] p1 y x = px [] p0 (r_y k - r_y a + y) (r_x k - r_x a + x).
Proof.
  intros img a k HP0 HIk HWa HHa Hwa HFull.
  unfold dev_crop. cbn [has existsb pstep_eqb default_steps orb andb inter_dim fst snd]. fold img.
  assert (EA : px_w p0 =? (match rd_active r with Some a => r_w a | None => ri_w img end) / 2 = false).
  { unfold a, area_of in *. destruct (rd_active r) as [b|]; cbn [r_w] in *; apply Nat.eqb_neq;
      [pose proof (Nat.div_lt (r_w b) 2)|pose proof (Nat.div_lt (ri_w img) 2)]; lia. }
  rewrite EA. clear EA.
  assert (EK : (match rd_crop r with Some c => Some c | None => rd_active r end = None /\ k = a /\ rd_active r = None) \/
    exists c, match rd_crop r with Some c => Some c | None => rd_active r end = Some c /\ k = c /\
      match rd_active r with Some a => rect_adapt c a | None => Ok c end = Ok (mk_rect (r_x k - r_x a) (r_y k - r_y a) (r_w k) (r_h k))).
  { unfold inside in HIk. unfold k, kept_of in *. destruct (rd_crop r) as [c|].
    - right. exists c. split; [reflexivity|]. split; [reflexivity|]. unfold a, area_of in *. destruct (rd_active r) as [b|].
      + unfold rect_adapt. replace (r_x b <=? r_x c) with true by lia. replace (r_y b <=? r_y c) with true by lia.
        replace (r_w c <=? r_w b) with true by lia. replace (r_h c <=? r_h b) with true by lia. cbn [assert_ bind].
        rewrite !usub_ok by lia. reflexivity.
      + cbn [r_x r_y r_w r_h]. rewrite !Nat.sub_0_r. now destruct c.
    - unfold a, area_of in *. destruct (rd_active r) as [b|]; [right|left; auto]. exists b.
      split; [reflexivity|]. split; [reflexivity|].
      unfold rect_adapt. rewrite !Nat.leb_refl. cbn [assert_ bind]. rewrite !usub_ok by lia. reflexivity. }
  destruct EK as [(-> & EK & EN)|(c & -> & -> & ->)].
  - destruct (HFull EN) as (W & H). exists p0. rewrite EK. split; [reflexivity|]. split; [exact HP0|].
    unfold a, area_of. rewrite EN. cbn [r_x r_y r_w r_h]. split; [exact W|]. split; [exact H|]. reflexivity.
  - cbn [bind r_x r_y r_w r_h]. unfold inside in HIk.
    destruct ((r_w c =? px_w p0) && (r_h c =? px_h p0)) eqn:EQ.
    + exists p0. split; [reflexivity|]. split; [exact HP0|]. split; [lia|]. split; [lia|].
      intros. replace (r_y c - r_y a) with 0 by lia. now replace (r_x c - r_x a) with 0 by lia.
    + destruct (color_crop_ok [] p0 (mk_rect (r_x c - r_x a) (r_y c - r_y a) (r_w c) (r_h c)) HP0 ltac:(lia)) as [_ EX].
      destruct EX as (q & EQ'); [cbn; lia|]. rewrite EQ'. cbn [bind]. exists q.
      split; [reflexivity|]. apply (color_crop_spec [] p0) in EQ'; [|exact HP0|lia].
      cbn [r_x r_y r_w r_h] in EQ'. exact EQ'.
Qed.

Lemma dev_tail_ok r nch W H cam x2c :
  let img := rd_img r in
  let a := area_of (ri_w img) (ri_h img) (rd_active r) in
  let k := kept_of (ri_w img) (ri_h img) (rd_active r) (rd_crop r) in
  nch = 3 \/ nch = 4 -> length cam = W * H -> inside k a -> r_w a <= W -> r_h a <= H -> 0 < r_w a ->
  (rd_active r = None -> W = ri_w img /\ H = ri_h img) ->
  xyz2cam_of o tri brad bradi (rd_matrix r) = Ok x2c ->
  exists p, dev_tail r (if nch =? 3 then IThree (mk_pix W H cam) else IFour (mk_pix W H cam)) = Ok (IThree p) /\
    px_w p = r_w k /\ px_h p = r_h k /\ pix_ok p /\
    forall y x, y < r_h k -> x < r_w k ->
      px [] p y x =
      map gamma (map_pixel o fsqrt fmax nch (pseudo_inverse o 4 (cam_matrix o srgb x2c))
        (if nan (nth 0 (rd_wb r) z) then repeat (f_nat o 1) 4 else rd_wb r)
        (nth ((r_y k - r_y a + y) * W + (r_x k - r_x a + x)) cam [])).
Proof.
  intros img a k HN LC HIk HWa HHa Hwa HFull HX. unfold dev_tail, dev_calibrate. rewrite HX. cbn [bind has existsb pstep_eqb default_steps orb].
  set (wb := if nan _ then _ else _). set (conv := map_to_rgb o fsqrt fmax srgb nch wb x2c cam).
  assert (EC : match (if nch =? 3 then IThree (mk_pix W H cam) else IFour (mk_pix W H cam)) with
               | IMono p => Ok (IMono p)
               | IThree p => Ok (IThree (mk_pix (px_w p) (px_h p) (map_to_rgb o fsqrt fmax srgb 3 wb x2c (px_data p))))
               | IFour p => Ok (IThree (mk_pix (px_w p) (px_h p) (map_to_rgb o fsqrt fmax srgb 4 wb x2c (px_data p))))
               end = Ok (IThree (mk_pix W H conv))) by (unfold conv; destruct HN as [-> | ->]; reflexivity).
  set (p0 := mk_pix W H conv) in *.
  replace (match (if nch =? 3 then IThree (mk_pix W H cam) else IFour (mk_pix W H cam)) with
               | IMono p => _ | IThree p => _ | IFour p => _ end) with (Ok (IThree p0)) by (rewrite <- EC; destruct HN as [-> | ->]; reflexivity).
  cbn [bind].
  assert (HP0 : pix_ok p0).
  { unfold pix_ok, p0, conv, map_to_rgb. cbn [px_data px_w px_h]. rewrite map_length. lia. }
  destruct (dev_crop_ok r p0 HP0 HIk HWa HHa Hwa HFull) as (p1 & E1 & HP1 & W1 & H1 & N1). rewrite E1. cbn [bind dev_gamma].
  eexists. split; [reflexivity|]. cbn [px_w px_h]. split; [exact W1|]. split; [exact H1|].
  split; [unfold pix_ok in *; cbn; rewrite map_length; exact HP1|].
  fold img a k in N1.
  intros y x Hy Hx. unfold inside in HIk. unfold px at 1. cbn [px_w px_data].
  change (nth _ (map (map gamma) (px_data p1)) []) with (nth (y * px_w p1 + x) (map (map gamma) (px_data p1)) (map gamma [])).
  rewrite map_nth. f_equal. specialize (N1 y x Hy Hx). unfold px at 1 in N1. rewrite N1.
  unfold px, p0, conv, map_to_rgb. cbn [px_w px_data].
  rewrite nth_indep with (d' := map_pixel o fsqrt fmax nch (pseudo_inverse o 4 (cam_matrix o srgb x2c)) wb []); [now rewrite map_nth|].
  rewrite map_length, LC. clear - HIk HWa HHa Hy Hx. pose proof (Nat.mul_le_mono_r (S (r_y k - r_y a + y)) H W). lia.
Qed.

Notation dev := (develop o neg nan flt lvl fsqrt fmax tri brad bradi srgb gamma fuji default_steps).
Notation wbs r := (if nan (nth 0 (rd_wb r) z) then repeat (f_nat o 1) 4 else rd_wb r).

Lemma develop_bayer fuel sch r name x2c :
  let img := rd_img r in
  let a := area_of (ri_w img) (ri_h img) (rd_active r) in
  let k := kept_of (ri_w img) (ri_h img) (rd_active r) (rd_crop r) in
  ri_photo img = PCfa -> ri_cpp img = 1 -> length (as_f32 flt (ri_data img)) = ri_w img * ri_h img ->
  b_levels (ri_black img) <> [] -> ri_white img <> [] ->
  In name bayer_names -> cfa_new name = Ok (rd_cfa r) -> rd_sensor r = Bayer -> rd_fuji r = None ->
  inside a (mk_rect 0 0 (ri_w img) (ri_h img)) -> inside k a ->
  0 < r_w a -> ppg_size (r_w a) (r_h a) -> r_w a < fuel ->
  xyz2cam_of o tri brad bradi (rd_matrix r) = Ok x2c ->
  exists p, dev fuel sch r = Some (Ok (IThree p)) /\
    px_w p = r_w k /\ px_h p = r_h k /\ pix_ok p /\
    forall y x, y < r_h k -> x < r_w k ->
      px [] p y x =
      map gamma (map_pixel o fsqrt fmax 3 (pseudo_inverse o 4 (cam_matrix o srgb x2c)) (wbs r)
        (camera_at o neg flt lvl img name a (r_y k - r_y a + y) (r_x k - r_x a + x))).
Proof.
  intros img a k HP HC HL HB HW HN EN HSn HFu HIa HIk Hwa HS HF HX.
  unfold inside in HIa. cbn [r_x r_y r_w r_h] in HIa.
  destruct (scaling_cfa o neg flt lvl (sch 0) img HP ltac:(lia) HL HB HW) as (r' & out & E & SF & UL & ED & LO & N).
  unfold develop. cbn [has existsb pstep_eqb default_steps orb]. fold img. rewrite E.
  destruct SF as (SW & SH & SC & SP).
  unfold start_inter. rewrite SC, HC, SW, SH, ED. cbn [Nat.eqb as_f32]. unfold new_with.
  replace (length out =? ri_h img * ri_w img) with true by lia. cbn [assert_ bind].
  unfold dev_demosaic. fold img. rewrite HP. unfold dev_roi. cbn [has existsb pstep_eqb default_steps orb px_w px_h].
  assert (ER : match rd_active r, rd_fuji r with
               | Some _, Some _ => Panic | Some a, None => Ok a
               | None, _ => Ok (mk_rect 0 0 (ri_w img) (ri_h img)) end = Ok a).
  { unfold a, area_of. rewrite HFu. now destruct (rd_active r). }
  rewrite ER. cbn [px_data].
  destruct (ppg_spec o fuel (sch 1) (sch 2) (sch 3) (sch 4) out (ri_w img) (ri_h img) name (rd_cfa r) a) as (rgb & EP & LP & NP); auto; try lia.
  assert (EI : is_rgb (rd_cfa r) = true).
  { destruct (is_rgb (rd_cfa r)) eqn:EI; [reflexivity|]. exfalso. unfold ppg in EP. rewrite EI in EP. discriminate. }
  rewrite EI, HSn, HFu, EP. cbn [bind].
  set (cam := pixels_of o 3 (r_w a * r_h a) rgb).
  destruct (dev_tail_ok r 3 (r_w a) (r_h a) cam x2c) as (p & ET & W1 & H1 & P1 & N1); auto.
  { unfold cam, pixels_of. now rewrite map_length, seq_length. }
  { unfold a, area_of. intros ->. cbn. auto. }
  exists p. split; [f_equal; exact ET|]. split; [exact W1|]. split; [exact H1|]. split; [exact P1|].
  intros y x Hy Hx. rewrite (N1 y x Hy Hx). do 2 f_equal. fold img a k. unfold inside in HIk.
  set (y' := r_y k - r_y a + y). set (x' := r_x k - r_x a + x).
  assert (Hy' : y' < r_h a) by lia. assert (Hx' : x' < r_w a) by lia. clearbody y' x'.
  unfold cam. rewrite pixels_of_nth.
  2: { pose proof (Nat.mul_le_mono_r (S y') (r_h a) (r_w a)). lia. }
  unfold camera_at. apply map_ext_in. intros ch Hch. rewrite NP by (auto; cbn in Hch; lia).
  apply ppg_at_ext_smp; auto. intros y0 x0 Hy0 Hx0. unfold level_at. apply N; lia.
Qed.

(** Images with three samples per pixel.  The image is not cut to the active area
    but the crop is moved as if it were. *)
Lemma develop_linear fuel sch r x2c :
  let img := rd_img r in
  let a := area_of (ri_w img) (ri_h img) (rd_active r) in
  let k := kept_of (ri_w img) (ri_h img) (rd_active r) (rd_crop r) in
  ri_photo img = PLinear -> ri_cpp img = 3 -> length (as_f32 flt (ri_data img)) = 3 * (ri_w img * ri_h img) ->
  length (b_levels (ri_black img)) = 3 -> length (ri_white img) = 3 ->
  inside a (mk_rect 0 0 (ri_w img) (ri_h img)) -> inside k a -> 0 < r_w a ->
  xyz2cam_of o tri brad bradi (rd_matrix r) = Ok x2c ->
  exists p, dev fuel sch r = Some (Ok (IThree p)) /\
    px_w p = r_w k /\ px_h p = r_h k /\ pix_ok p /\
    forall y x, y < r_h k -> x < r_w k ->
      px [] p y x =
      map gamma (map_pixel o fsqrt fmax 3 (pseudo_inverse o 4 (cam_matrix o srgb x2c)) (wbs r)
        (linear_at o neg flt lvl img (r_y k - r_y a + y) (r_x k - r_x a + x))).
Proof.
  intros img a k HP HC HL HB HW HIa HIk Hwa HX.
  unfold inside in HIa. cbn [r_x r_y r_w r_h] in HIa.
  destruct (scaling_linear o neg flt lvl (sch 0) img HP ltac:(lia)) as (r' & out & E & SF & UL & ED & LO & N).
  { intros E. rewrite E in HW. discriminate. }
  unfold develop. cbn [has existsb pstep_eqb default_steps orb]. fold img. rewrite E.
  destruct SF as (SW & SH & SC & SP).
  unfold start_inter. rewrite SC, HC, SW, SH, ED. cbn [Nat.eqb as_f32]. unfold new_with.
  assert (L3 : length out / 3 = ri_w img * ri_h img) by (rewrite LO, HL, Nat.mul_comm; now apply Nat.div_mul).
  rewrite L3.
  set (cam := pixels_of o 3 _ out).
  assert (LC : length cam = ri_w img * ri_h img) by (unfold cam, pixels_of; now rewrite map_length, seq_length).
  replace (length cam =? ri_h img * ri_w img) with true by lia. cbn [assert_ bind].
  unfold dev_demosaic. fold img. rewrite HP.
  destruct (dev_tail_ok r 3 (ri_w img) (ri_h img) cam x2c) as (p & ET & W1 & H1 & P1 & N1); auto; try (fold img a; lia).
  exists p. split; [f_equal; exact ET|]. split; [exact W1|]. split; [exact H1|]. split; [exact P1|].
  intros y x Hy Hx. rewrite (N1 y x Hy Hx). do 2 f_equal. fold img a k. unfold inside in HIk.
  set (y' := r_y k - r_y a + y). set (x' := r_x k - r_x a + x).
  assert (Hy' : y' < ri_h img) by lia. assert (Hx' : x' < ri_w img) by lia. clearbody y' x'.
  assert (HI : y' * ri_w img + x' < ri_w img * ri_h img).
  { pose proof (Nat.mul_le_mono_r (S y') (ri_h img) (ri_w img)). lia. }
  unfold cam. rewrite pixels_of_nth by exact HI.
  unfold linear_at. apply map_ext_in. intros ch Hch. assert (ch < 3) by (cbn in Hch; lia).
  rewrite N by lia. rewrite HW, L3. replace (_ <? _) with true by lia.
  replace ((3 * (y' * ri_w img + x') + ch) mod 3) with ch; [reflexivity|].
  rewrite Nat.add_comm, Nat.mul_comm, Nat.mod_add, Nat.mod_small by lia. reflexivity.
Qed.

Lemma develop_mono fuel sch r : ri_photo (rd_img r) = PBlackIsZero -> dev fuel sch r = Some Panic.
Proof. intros E. unfold develop. cbn [has existsb pstep_eqb default_steps orb]. now rewrite scaling_mono. Qed.

Lemma develop_fuji_active fuel sch r a fw :
  ri_photo (rd_img r) = PCfa -> ri_cpp (rd_img r) = 1 -> rd_active r = Some a -> rd_fuji r = Some fw ->
  forall i, dev fuel sch r <> Some (Ok i).
Proof.
  intros HP HC HA HFu i. unfold develop. cbn [has existsb pstep_eqb default_steps orb].
  destruct (apply_scaling o neg flt lvl (sch 0) (rd_img r)) as [img| |] eqn:E; try discriminate.
  destruct (start_inter o img (as_f32 flt (ri_data img))) as [i0| |] eqn:E2; try discriminate.
  assert (EC : ri_cpp img = 1).
  { unfold apply_scaling in E. rewrite HP in E.
    destruct (bayer_array lvl _) as [tb| |]; try discriminate E. destruct (bayer_array flt _) as [tw| |]; try discriminate E.
    cbn [bind] in E. destruct (correct_blacklevel_cfa _ _ _ _ _ _ _) as [out| |]; try discriminate E. injection E as <-. exact HC. }
  unfold start_inter in E2. rewrite EC in E2. cbn [Nat.eqb] in E2. destruct (new_with _ _ _) as [p| |]; try discriminate E2.
  injection E2 as <-. unfold dev_demosaic. rewrite HP. unfold dev_roi. cbn [has existsb pstep_eqb default_steps orb].
  rewrite HA, HFu. cbn [bind]. discriminate.
Qed.
End Dev.

(** ** A field of constant colours *)
Section Flat.
Variables (w h : nat) (t : bool -> bool -> nat) (v : nat -> Qc).
Hypothesis HT : quad_ok t.
Let col r q := t (Nat.odd r) (Nat.odd q).
Variable smp : nat -> nat -> Qc.
Hypothesis HV : forall r q, r < h -> q < w -> smp r q = v (col r q).
Hypothesis HSQ : forall r q ch, r < h -> q < w -> ch < 3 -> square w h col 1 r q ch <> [].

Lemma square_mean_color k r q ch : square w h col k r q ch <> [] -> square_mean qops w h smp col k r q ch = v ch.
Proof.
  intros NE. unfold square_mean. apply (mean_const 0 0 (fun _ _ => v ch) (fun _ _ => 0) (v ch)); [reflexivity| |].
  - intros E. apply map_eq_nil in E. congruence.
  - intros x Hx. apply in_map_iff in Hx as ([y' x'] & <- & Hin). cbn.
    unfold square in Hin. apply filter_In in Hin as [Hin HB]. apply in_prod_iff in Hin as [H1 H2].
    apply in_seq in H1, H2. rewrite HV by lia. f_equal. lia.
Qed.

Lemma pick_green_color a g : pick_green qops a g a g a g a g a = g.
Proof.
  unfold pick_green. cbn [fold_left]. rewrite !f_lt_irrefl, f_eq_refl.
  unfold extend. rewrite !f_nat_S, f_nat_0. cbn [f_add f_sub f_mul f_div qops]. field. discriminate.
Qed.

Lemma between_color g a : between qops g g g a a = a.
Proof.
  unfold between. rewrite f_lt_irrefl. cbn [orb andb]. rewrite !f_nat_S, f_nat_0.
  cbn [f_add f_sub f_mul f_div qops]. field. split; discriminate.
Qed.

Lemma ppg_green_color r q : r < h -> q < w -> ppg_green qops w h smp col r q = v 1.
Proof.
  intros Hr Hq. unfold ppg_green. destruct (Nat.eqb_spec (col r q) 1) as [E|E]; [now rewrite HV, E|].
  destruct (inner w h r q) eqn:EI; [|apply square_mean_color; auto].
  apply inner_lt in EI. rewrite !HV by lia. destruct HT as (_ & T1 & _). specialize (T1 (Nat.odd r) (Nat.odd q) E).
  unfold col. rewrite !odd_succ1, !odd_succ2, !odd_pred, !odd_pred2 by lia.
  destruct T1 as (-> & -> & _). apply pick_green_color.
Qed.

Lemma ppg_at_color r q ch : r < h -> q < w -> ch < 3 -> ppg_at qops w h smp col r q ch = v ch.
Proof.
  intros Hr Hq Hch. unfold ppg_at. destruct (Nat.eqb_spec ch (col r q)) as [->|NE]; [now apply HV|].
  destruct (inner w h r q) eqn:EI; cbn [negb]; [|apply square_mean_color; auto].
  apply inner_lt in EI. destruct (Nat.eqb_spec ch 1) as [->|N1]; [apply ppg_green_color; lia|].
  destruct HT as (T0 & T1 & T2). destruct (Nat.eqb_spec (col r q) 1) as [E|E].
  - rewrite !ppg_green_color, !HV by lia. rewrite E. specialize (T2 (Nat.odd r) (Nat.odd q) E).
    unfold col in *. rewrite !odd_succ1, !odd_pred by lia. rewrite !between_color.
    pose proof (T0 (negb (Nat.odd r)) (Nat.odd q)). pose proof (T0 (Nat.odd r) (negb (Nat.odd q))).
    destruct (Nat.eqb_spec ch (t (Nat.odd r) (negb (Nat.odd q)))) as [->|N2]; [reflexivity|]. f_equal. lia.
  - unfold ppg_diag. rewrite !ppg_green_color, !HV by lia. specialize (T1 (Nat.odd r) (Nat.odd q) E).
    unfold col in *. rewrite !odd_succ1, !odd_pred by lia. rewrite !between_color.
    assert (EC : t (negb (Nat.odd r)) (negb (Nat.odd q)) = ch).
    { pose proof (T0 (Nat.odd r) (Nat.odd q)). lia. }
    rewrite EC. match goal with |- (if ?b then _ else _) = _ => now destruct b end.
Qed.
End Flat.

Lemma ppg_at_bayer_color w h name ox oy v smp r q ch : In name bayer_names -> 2 <= w -> 2 <= h ->
  (forall r q, r < h -> q < w -> smp r q = v (sensor_color name (oy + r) (ox + q))) ->
  r < h -> q < w -> ch < 3 ->
  ppg_at qops w h smp (fun r q => sensor_color name (oy + r) (ox + q)) r q ch = v ch.
Proof.
  intros HN Hw Hh HV Hr Hq Hch. destruct (bayer_quad name ox oy HN) as (t & HT & HTC).
  rewrite (ppg_at_ext qops w h smp _ (fun r q => t (Nat.odd r) (Nat.odd q)) HTC).
  apply ppg_at_color; auto.
  - intros y x Hy Hx. rewrite HV by auto. now rewrite HTC.
  - intros y x c Hy Hx Hc E. apply (bayer_square w h name ox oy y x c); auto. rewrite <- E. unfold square.
    apply filter_ext. intros [y' x']. now rewrite HTC.
Qed.

(** demosaicing alone *)
Lemma ppg_flat_color fuel s0 s1 s2 s3 raw dw dh name c0 roi v :
  In name bayer_names -> cfa_new name = Ok c0 ->
  length raw = dw * dh -> r_x roi + r_w roi <= dw -> r_y roi + r_h roi <= dh -> 2 <= r_w roi ->
  ppg_size (r_w roi) (r_h roi) -> r_w roi < fuel ->
  (forall r q, r < r_h roi -> q < r_w roi ->
     nth ((r_y roi + r) * dw + (r_x roi + q)) raw (f_nat qops 0) = v (sensor_color name (r_y roi + r) (r_x roi + q))) ->
  ppg qops fuel s0 s1 s2 s3 raw dw c0 roi = Some (Ok (concat (repeat [v 0; v 1; v 2] (r_w roi * r_h roi)))).
Proof.
  intros HN EN HL HX HY HW HS HF HV.
  destruct (ppg_spec qops fuel s0 s1 s2 s3 raw dw dh name c0 roi) as (out & E & L & N); auto; [lia|].
  rewrite E. do 2 f_equal.
  assert (LR : forall n, length (concat (repeat [v 0; v 1; v 2] n)) = 3 * n) by (induction n; cbn [repeat concat app length]; lia).
  apply (cells_ext qops 3 (r_w roi) (r_h roi)); auto.
  intros r q ch Hr Hq Hch. unfold cell. rewrite N by auto.
  rewrite (ppg_at_bayer_color _ _ name _ _ v) by (auto; unfold ppg_size in HS; lia).
  assert (HI : r * r_w roi + q < r_w roi * r_h roi).
  { pose proof (Nat.mul_le_mono_r (S r) (r_h roi) (r_w roi)). lia. }
  generalize dependent (r * r_w roi + q). generalize (r_w roi * r_h roi). clear - Hch. intros n i Hi. revert n Hi.
  induction i as [|i IH]; intros [|n] Hi; try lia; cbn [repeat concat].
  - rewrite app_nth1 by (cbn; lia). destruct ch as [|[|[|]]]; try lia; reflexivity.
  - rewrite app_nth2 by (cbn; lia). cbn [length]. replace (3 * S i + ch - 3) with (3 * i + ch) by lia. apply IH. lia.
Qed.

(** A grey card. *)
Lemma develop_grey neg nan flt lvl fsqrt tri brad bradi srgb gamma fuji fuel sch r name x2c g :
  let img := rd_img r in
  let a := area_of (ri_w img) (ri_h img) (rd_active r) in
  let k := kept_of (ri_w img) (ri_h img) (rd_active r) (rd_crop r) in
  ri_photo img = PCfa -> ri_cpp img = 1 -> length (as_f32 flt (ri_data img)) = ri_w img * ri_h img ->
  b_levels (ri_black img) <> [] -> ri_white img <> [] ->
  In name bayer_names -> cfa_new name = Ok (rd_cfa r) -> rd_sensor r = Bayer -> rd_fuji r = None ->
  inside a (mk_rect 0 0 (ri_w img) (ri_h img)) -> inside k a ->
  2 <= r_w a -> ppg_size (r_w a) (r_h a) -> r_w a < fuel ->
  xyz2cam_of qops tri brad bradi (rd_matrix r) = Ok x2c ->
  independent qops 4 (cam_matrix qops srgb x2c) ->
  (forall i, i < 3 -> (primary x2c srgb i 0 + primary x2c srgb i 1 + primary x2c srgb i 2)%Qc <> 0%Qc) ->
  (primary x2c srgb 3 0 + primary x2c srgb 3 1 + primary x2c srgb 3 2 = 0)%Qc ->
  nan (nth 0 (rd_wb r) (f_nat qops 0)) = false ->
  (forall c, c < 3 -> nth c (rd_wb r) 0%Qc <> 0%Qc) -> (0 <= g <= 1)%Qc ->
  (forall y x, y < r_h a -> x < r_w a ->
     (level_at qops neg flt lvl img (r_y a + y)%nat (r_x a + x)%nat * nth (sensor_color name (r_y a + y)%nat (r_x a + x)%nat) (rd_wb r) 0)%Qc = g) ->
  exists p, develop qops neg nan flt lvl fsqrt qmax tri brad bradi srgb gamma fuji default_steps fuel sch r = Some (Ok (IThree p)) /\
    px_w p = r_w k /\ px_h p = r_h k /\ pix_ok p /\
    forall y x, y < r_h k -> x < r_w k -> px [] p y x = [gamma g; gamma g; gamma g].
Proof.
  intros img a k HP HC HL HB HW HN EN HSn HFu HIa HIk Hwa HS HF HX HI HR HZ HNan HWB HG HSmp.
  destruct (develop_bayer qops neg nan flt lvl fsqrt qmax tri brad bradi srgb gamma fuji fuel sch r name x2c) as (p & E & W1 & H1 & P1 & N1); auto; [fold img a; lia|].
  fold img a k in W1, H1, N1.
  exists p. split; [exact E|]. split; [exact W1|]. split; [exact H1|]. split; [exact P1|].
  intros y x Hy Hx. rewrite N1 by auto. rewrite HNan. unfold inside in HIk.
  set (v c := (g / nth c (rd_wb r) 0)%Qc).
  assert (EC : camera_at qops neg flt lvl img name a (r_y k - r_y a + y) (r_x k - r_x a + x) = [v 0; v 1; v 2]).
  { unfold camera_at. cbn [map]. rewrite !(ppg_at_bayer_color _ _ name _ _ v); auto; try (unfold ppg_size in HS; lia).
    all: intros y' x' Hy' Hx'; unfold v; rewrite <- (HSmp y' x') by auto;
      assert (sensor_color name (r_y a + y') (r_x a + x') < 3) by
        (destruct (bayer_quad name (r_x a) (r_y a) HN) as (t & HT & HTC); rewrite HTC; apply HT);
      field; apply HWB; auto. }
  rewrite EC.
  rewrite (pixel_neutral_px fsqrt 3 srgb x2c (rd_wb r) [v 0; v 1; v 2] g HI (or_introl eq_refl) HR); [reflexivity| | |exact HG].
  - intros i Hi. replace i with 3 by lia. exact HZ.
  - intros c Hc. assert (EV : nth c [v 0; v 1; v 2] 0%Qc = v c) by (destruct c as [|[|[|]]]; try lia; reflexivity).
    rewrite EV. unfold v. field. apply HWB. lia.
Qed.

(** ** The samples of the result *)
Lemma concat_nth3 {A} (d : A) l : (forall p, In p l -> length p = 3) -> forall i ch, i < length l -> ch < 3 ->
  nth (3 * i + ch) (concat l) d = nth ch (nth i l []) d.
Proof.
  induction l as [|p l IH]; intros HL i ch Hi Hch; cbn [length] in Hi; [lia|].
  pose proof (HL p (or_introl eq_refl)) as Lp. cbn [concat]. destruct i as [|i].
  - rewrite app_nth1 by lia. now replace (3 * 0 + ch) with ch by lia.
  - rewrite app_nth2 by lia. rewrite Lp. replace (3 * S i + ch - 3) with (3 * i + ch) by lia. cbn [nth].
    apply IH; [intros q Hq; apply HL; now right|lia|exact Hch].
Qed.

Lemma samples_ok {F} (quant : F -> Z) (d : F) p : pix_ok p -> (forall q, In q (px_data p) -> length q = 3) ->
  length (samples_u16 quant (IThree p)) = 3 * (px_w p * px_h p) /\
  forall y x ch, y < px_h p -> x < px_w p -> ch < 3 ->
    nth (3 * (y * px_w p + x) + ch) (samples_u16 quant (IThree p)) (quant d) = quant (nth ch (px [] p y x) d).
Proof.
  intros HP H3. unfold pix_ok in HP. cbn [samples_u16]. split.
  - rewrite map_length. clear - HP H3. rewrite Nat.mul_comm in HP. rewrite <- HP. clear HP. revert H3.
    generalize (px_data p). intros l. induction l as [|q l IH]; intros H; [reflexivity|]. cbn [concat length].
    rewrite app_length, (H q) by now left. rewrite IH by (intros; apply H; now right). lia.
  - intros y x ch Hy Hx Hch. rewrite map_nth. f_equal. unfold px. apply concat_nth3; auto.
    rewrite HP. pose proof (Nat.mul_le_mono_r (S y) (px_h p) (px_w p)). lia.
Qed.

(** ** A linear image with an active area *)
Lemma half_white_black fsqrt tri brad bradi srgb gamma fuji fuel sch :
  (forall y x, y < 1 -> x < 1 ->
     linear_at qops qneg (fun v => Q2Qc (inject_Z v)) (fun _ => 0%Qc) (rd_img half_white) (0 + y) (1 + x) = [1; 1; 1]%Qc) /\
  exists p, develop qops qneg (fun _ => false) (fun v => Q2Qc (inject_Z v)) (fun _ => 0%Qc) fsqrt qmax tri brad bradi srgb gamma fuji
      default_steps fuel sch half_white = Some (Ok (IThree p)) /\
    px_w p = 1 /\ px_h p = 1 /\ px [] p 0 0 = [gamma 0; gamma 0; gamma 0]%Qc.
Proof.
  split.
  { intros y x Hy Hx. replace y with 0 by lia. replace x with 0 by lia.
    unfold linear_at. cbn [map Nat.add Nat.mul half_white rd_img ri_w ri_h ri_data as_f32 ri_black ri_white b_levels nth].
    assert (E : scaled qops qneg (Q2Qc (inject_Z 100)) 0%Qc (Q2Qc (inject_Z 100)) = 1%Qc) by (apply Qc_is_canon; reflexivity).
    now rewrite E. }
  destruct (develop_linear qops qneg (fun _ => false) (fun v => Q2Qc (inject_Z v)) (fun _ => 0%Qc) fsqrt qmax tri brad bradi srgb gamma fuji
    fuel sch half_white (mat 4 3 (fun i j => if i =? j then f_nat qops 1 else f_nat qops 0))) as (p & E & W & H & P & N).
  1-5: reflexivity.
  1,2: cbn; unfold inside; cbn; lia.
  1: cbn; lia.
  1: apply xyz2cam_none; reflexivity.
  exists p. split; [exact E|]. split; [exact W|]. split; [exact H|].
  rewrite (N 0 0) by (cbn; lia).
  set (M := pseudo_inverse _ _ _). clearbody M.
  assert (EZ : linear_at qops qneg (fun v => Q2Qc (inject_Z v)) (fun _ => 0%Qc) (rd_img half_white) 0 0 = [0; 0; 0]%Qc).
  { unfold linear_at. cbn [map Nat.add Nat.mul half_white rd_img ri_w ri_h ri_data as_f32 ri_black ri_white b_levels nth].
    assert (E0 : scaled qops qneg (Q2Qc (inject_Z 0)) 0%Qc (Q2Qc (inject_Z 100)) = 0%Qc) by (apply Qc_is_canon; reflexivity).
    now rewrite E0. }
  replace (linear_at _ _ _ _ _ _ _) with [0; 0; 0]%Qc by (symmetry; exact EZ).
  assert (EP : forall wb, map_pixel qops fsqrt qmax 3 M wb [0; 0; 0]%Qc = [0; 0; 0]%Qc).
  { intros wb. unfold map_pixel. replace (map _ (seq 0 3)) with [0; 0; 0]%Qc.
    - apply clip_id. intros v Hv. cbn in Hv. destruct Hv as [<-|[<-|[<-|[]]]]; split; discriminate.
    - symmetry. cbn [map seq nth apply_row fold_left f_mul f_add qops]. rewrite !Qcmult_0_l, !Qcmult_0_r, !Qcplus_0_r. reflexivity. }
  rewrite EP. reflexivity.
Qed.
