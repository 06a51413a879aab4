(** Proofs about the geometry tags. *)
From Coq Require Import List ZArith Lia Bool.
From Verif Require Import Base BaseLemmas Geom DngMeta.
Import ListNotations.
Open Scope nat_scope.

Definition small (n : nat) : Prop := (Z.of_nat n < 65536)%Z.

Lemma as_u16_small n : small n -> as_u16 n = Z.of_nat n.
Proof. intros. unfold as_u16. apply Z.mod_small. unfold small in H. lia. Qed.

Lemma dng_area_ok r w h : small w -> small h -> inside r w h ->
  rect_to_dng_area r = Ok (Z.of_nat (r_y r), Z.of_nat (r_x r), Z.of_nat (r_y r + r_h r), Z.of_nat (r_x r + r_w r)).
Proof.
  unfold small. intros Hw Hh [Hx Hy]. unfold rect_to_dng_area. rewrite !as_u16_small by (unfold small; lia).
  unfold u16_add. destruct (Z.ltb_spec (Z.of_nat (r_y r) + Z.of_nat (r_h r)) (2 ^ 16)); [|lia]. cbn [bind].
  destruct (Z.ltb_spec (Z.of_nat (r_x r) + Z.of_nat (r_w r)) (2 ^ 16)); [|lia]. cbn [bind]. repeat f_equal; lia.
Qed.

Lemma rect_eta r : mk_rect (r_x r) (r_y r) (r_w r) (r_h r) = r.
Proof. now destruct r. Qed.

Lemma borders_ok r w h : inside r w h ->
  rect_borders w h (r_x r) (r_y r) (w - (r_x r + r_w r)) (h - (r_y r + r_h r)) = Ok r.
Proof.
  intros [Hx Hy]. unfold rect_borders. rewrite !usub_ok by lia. cbn [bind].
  unfold rect_points.
  destruct (Nat.leb_spec (r_x r) (w - (w - (r_x r + r_w r)))); [|lia]. cbn [assert_ bind].
  destruct (Nat.leb_spec (r_y r) (h - (h - (r_y r + r_h r)))); [|lia]. cbn [assert_ bind].
  rewrite !usub_ok by lia. cbn [bind].
  destruct r as [x y a b]. cbn [r_x r_y r_w r_h] in *. f_equal. f_equal; lia.
Qed.

Lemma offsets_ok r w h : inside r w h ->
  as_ltrb_offsets r w h = Ok (r_x r, r_y r, w - (r_x r + r_w r), h - (r_y r + r_h r)).
Proof. intros [Hx Hy]. unfold as_ltrb_offsets. rewrite !usub_ok by lia. reflexivity. Qed.

Lemma get_active_ok a w h o s : inside a w h ->
  get_active (mk_geom w h (Some (Z.of_nat (r_y a), Z.of_nat (r_x a), Z.of_nat (r_y a + r_h a), Z.of_nat (r_x a + r_w a))) o s)
  = Ok (Some (r_x a, r_y a, w - (r_x a + r_w a), h - (r_y a + r_h a))).
Proof.
  intros HI. unfold get_active. cbn [g_active opt_bind g_width g_height]. rewrite !Nat2Z.id.
  unfold rect_dng, rect_points.
  destruct (Nat.leb_spec (r_x a) (r_x a + r_w a)); [|lia]. cbn [assert_ bind].
  destruct (Nat.leb_spec (r_y a) (r_y a + r_h a)); [|lia]. cbn [assert_ bind].
  rewrite !usub_ok by lia. cbn [bind].
  replace (r_x a + r_w a - r_x a) with (r_w a) by lia. replace (r_y a + r_h a - r_y a) with (r_h a) by lia.
  rewrite rect_eta, offsets_ok by auto. reflexivity.
Qed.

Lemma crop_step a c w h : small w -> small h -> inside a w h -> inside c w h -> r_x a <= r_x c -> r_y a <= r_y c ->
  exists t,
  (do _ <- assert_ (r_x a <=? r_x c);
   do _ <- assert_ (r_y a <=? r_y c);
   do ox <- usub (r_x c) (r_x a);
   do oy <- usub (r_y c) (r_y a);
   Ok (mk_geom w h (Some (Z.of_nat (r_y a), Z.of_nat (r_x a), Z.of_nat (r_y a + r_h a), Z.of_nat (r_x a + r_w a)))
         (Some (as_u16 ox, as_u16 oy)) (Some (as_u16 (r_w c), as_u16 (r_h c))))) = Ok t
  /\ read_geom t = Ok (Some a, Some c).
Proof.
  intros Hw Hh Ha Hc Hx Hy. destruct (Nat.leb_spec (r_x a) (r_x c)); [|lia]. cbn [assert_ bind].
  destruct (Nat.leb_spec (r_y a) (r_y c)); [|lia]. cbn [assert_ bind]. rewrite !usub_ok by lia. cbn [bind].
  eexists. split; [reflexivity|].
  unfold small in *. destruct Hc as [Hc1 Hc2]. rewrite !as_u16_small by (unfold small; lia).
  unfold read_geom. rewrite get_active_ok by auto. cbn [bind]. unfold get_crop. cbn [g_origin g_size g_width g_height opt_bind].
  cbn [r_x r_y r_w r_h]. rewrite !Nat2Z.id.
  replace (r_x c - r_x a + r_x a) with (r_x c) by lia. replace (r_y c - r_y a + r_y a) with (r_y c) by lia.
  rewrite rect_eta, offsets_ok by (split; auto). cbn [bind opt_bind]. rewrite borders_ok by auto. cbn [bind].
  rewrite borders_ok by (split; auto). reflexivity.
Qed.

Lemma geom_roundtrip mode w h active crop : small w -> small h ->
  (forall a, active = Some a -> inside a w h) ->
  (forall c, crop = Some c -> inside c w h /\ r_x (or_full active w h) <= r_x c /\ r_y (or_full active w h) <= r_y c) ->
  exists t, write_geom mode w h active crop = Ok t /\
    read_geom t = Ok (match mode with
      | CropNone => (Some (mk_rect 0 0 w h), None)
      | CropActive => (Some (or_full active w h), Some (or_full active w h))
      | CropBest => (Some (or_full active w h), Some (match crop with Some c => c | None => or_full active w h end))
      end).
Proof.
  intros Hw Hh HA HC. assert (HF : inside (mk_rect 0 0 w h) w h) by (split; cbn; lia).
  assert (HO : inside (or_full active w h) w h) by (destruct active; cbn [or_full]; auto).
  assert (HA' : forall a, inside a w h -> (r_x a + r_w a <=? w) = true /\ (r_y a + r_h a <=? h) = true)
    by (intros a [? ?]; split; apply Nat.leb_le; auto).
  destruct mode; unfold write_geom; cbv zeta.
  - change (match active with Some a => a | None => mk_rect 0 0 w h end) with (or_full active w h).
    destruct (HA' _ HO) as [-> ->]. cbn [assert_ bind]. rewrite (dng_area_ok _ w h) by auto. cbn [bind].
    destruct crop as [c|].
    + destruct (HC c eq_refl) as (Hc & Hx & Hy). apply crop_step; auto.
    + apply crop_step; auto.
  - change (match active with Some a => a | None => mk_rect 0 0 w h end) with (or_full active w h).
    destruct (HA' _ HO) as [-> ->]. cbn [assert_ bind]. rewrite (dng_area_ok _ w h) by auto. cbn [bind].
    apply crop_step; auto.
  - destruct (HA' _ HF) as [-> ->]. cbn [assert_ bind]. rewrite (dng_area_ok _ w h) by auto. cbn [bind].
    eexists. split; [reflexivity|]. unfold read_geom. rewrite get_active_ok by auto. cbn [bind].
    unfold get_crop. cbn [g_origin g_size opt_bind bind]. cbn [g_width g_height]. rewrite borders_ok by auto. reflexivity.
Qed.
