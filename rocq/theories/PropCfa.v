(** Properties C14 (colour filter arrays), C31 (black levels) and C33 (DNG
    geometry tags). *)
From Coq Require Import List ZArith Lia Bool.
From Verif Require Import Base Geom Cfa CfaProofs DngMeta DngMetaProofs.
Import ListNotations.
Open Scope nat_scope.

(** A pattern string repeats over the sensor: the colour at (r, q) is the
    colour of character (r mod h, q mod w). *)
Theorem C14_new : forall pat w h, cfa_dims (length pat) = Ok (w, h) -> 0 < w ->
  (forall ch, In ch pat -> exists v, color_of ch = Ok v) ->
  exists c, cfa_new pat = Ok c /\ c_name c = pat /\ c_w c = w /\ c_h c = h /\ wf c /\
    forall r q, Ok (color_at c r q) = color_of (nth ((r mod h) * w + q mod w) pat 0%Z).
Proof. exact cfa_new_ok. Qed.
Print Assumptions C14_new.

Theorem C14_shift : forall pat c x y, cfa_new pat = Ok c -> pat <> [] ->
  exists c', cfa_shift c x y = Ok c' /\ wf c' /\ c_w c' = c_w c /\ c_h c' = c_h c /\ c_name c' = canon c' /\
    forall r q, color_at c' r q = color_at c (r + y) (q + x).
Proof. intros pat c x y E HN. exact (cfa_shift_ok c x y (cfa_new_wf pat c E HN)). Qed.
Print Assumptions C14_shift.

Theorem C14_compose : forall c x1 y1 x2 y2, wf c ->
  (do s <- cfa_shift c x1 y1; cfa_shift s x2 y2) = cfa_shift c (x1 + x2) (y1 + y2).
Proof. exact shift_shift. Qed.
Print Assumptions C14_compose.

Theorem C14_periodic : forall c x y i j, wf c ->
  cfa_shift c (x + j * c_w c) (y + i * c_h c) = cfa_shift c x y.
Proof. exact shift_period. Qed.
Print Assumptions C14_periodic.

Theorem C14_zero : forall pat c, cfa_new pat = Ok c -> pat <> [] -> ~ In 69%Z pat -> cfa_shift c 0 0 = Ok c.
Proof. intros pat c E HN HE. exact (shift_zero c (cfa_new_wf pat c E HN) (canon_new pat c E HN HE)). Qed.
Print Assumptions C14_zero.

(** The pattern written to a DNG and read back, for offsets that are a multiple
    of half the pattern size (every offset of a 2 x 2 pattern). *)
Theorem C14_dng : forall c ax ay, wf c -> (2 * ax) mod c_w c = 0 -> (2 * ay) mod c_h c = 0 ->
  exists tag c', cfa_write c ax ay = Ok tag /\ cfa_read tag (Some (ax, ay)) = Ok c' /\
    c_w c' = c_w c /\ c_h c' = c_h c /\ forall r q, color_at c' r q = color_at c r q.
Proof. exact write_read. Qed.
Print Assumptions C14_dng.

Theorem C14_map_colors : forall f c, wf c -> (forall r q v, f r q (f r q v) = f r q v) ->
  exists c', map_colors f c = Ok c' /\ forall r q, color_at c' r q = f (r mod c_h c) (q mod c_w c) (color_at c r q).
Proof. exact map_colors_ok. Qed.
Print Assumptions C14_map_colors.

(** cfa_index is the first position of a colour; the plane table maps each
    colour to its plane. *)
Theorem C14_index : forall c v i, cfa_index c v = Ok i ->
  (0 <= i < 0 + c_h c * c_w c)%nat /\ color_at c (i / c_w c) (i mod c_w c) = v /\
  forall j, 0 <= j < i -> color_at c (j / c_w c) (j mod c_w c) <> v.
Proof. intros c v i. exact (find_index_first c v (c_h c * c_w c) 0 i). Qed.
Print Assumptions C14_index.

Theorem C14_planes : forall colors, Forall (fun c => c < 256) colors -> NoDup colors ->
  exists t, plane_table colors = Ok t /\ length t = 256 /\
    (forall p, p < length colors -> nth (nth p colors 0) t 0%Z = Z.of_nat p) /\
    (forall c, c < 256 -> ~ In c colors -> nth c t 0%Z = 255%Z).
Proof. exact plane_table_ok. Qed.
Print Assumptions C14_planes.

(** Larger patterns do not survive the DNG tags: the reader shifts the pattern
    in the same direction as the writer.  The X-Trans pattern with an active
    area starting at column 1 is read back with different colours. *)
Theorem C14_dng_xtrans_refuted :
  let pat := [71;71;82;71;71;66; 71;71;66;71;71;82; 66;82;71;82;66;71;
              71;71;66;71;71;82; 71;71;82;71;71;66; 82;66;71;66;82;71]%Z in
  exists c tag c', cfa_new pat = Ok c /\ cfa_write c 1 0 = Ok tag /\ cfa_read tag (Some (1, 0)) = Ok c' /\
    color_at c' 0 0 <> color_at c 0 0.
Proof. cbv zeta. do 3 eexists. split; [vm_compute; reflexivity|]. split; [vm_compute; reflexivity|]. split; [vm_compute; reflexivity|]. vm_compute. discriminate. Qed.
Print Assumptions C14_dng_xtrans_refuted.

(** map_colors applies a function twice outside the top left tile. *)
Theorem C14_map_colors_refuted : exists c c', cfa_new [82; 71; 71; 66]%Z = Ok c /\
  map_colors (fun _ _ v => (v + 1)%Z) c = Ok c' /\ color_at c' 0 0 = 1%Z /\ color_at c' 0 2 = 2%Z.
Proof. do 2 eexists. split; [vm_compute; reflexivity|]. split; [vm_compute; reflexivity|]. split; vm_compute; reflexivity. Qed.
Print Assumptions C14_map_colors_refuted.

(** Shifting by zero renames the colour 'E', so an RGBE sensor is no longer
    recognised as one. *)
Theorem C14_rgbe_refuted : exists c c', cfa_new [82; 71; 69; 66]%Z = Ok c /\ cfa_shift c 0 0 = Ok c' /\
  is_rgbe c = true /\ is_rgbe c' = false.
Proof. do 2 eexists. split; [vm_compute; reflexivity|]. split; [vm_compute; reflexivity|]. split; vm_compute; reflexivity. Qed.
Print Assumptions C14_rgbe_refuted.

Example C14_example : exists c, cfa_new [82; 71; 71; 66]%Z = Ok c /\ wf c /\ c_w c = 2 /\
  cfa_write c 1 1 = Ok [2; 1; 1; 0]%Z /\ (2 * 1) mod c_w c = 0.
Proof.
  destruct (cfa_new [82; 71; 71; 66]%Z) as [c| |] eqn:E; try (vm_compute in E; discriminate).
  exists c. split; auto. split; [apply (cfa_new_wf _ _ E); discriminate|].
  vm_compute in E. injection E as <-. split; [reflexivity|]. split; [vm_compute|]; reflexivity.
Qed.

(** Black levels *)
Theorem C31_shift : forall (A : Type) (b : black A) x y, black_wf b ->
  exists b', black_shift b x y = Ok b' /\ black_wf b' /\ b_w b' = b_w b /\ b_h b' = b_h b /\ b_cpp b' = b_cpp b /\
    forall row col ch d, ch < b_cpp b -> black_at b' row col ch d = black_at b (row + y) (col + x) ch d.
Proof. exact @black_shift_ok. Qed.
Print Assumptions C31_shift.

Theorem C31_compose : forall (A : Type) (b : black A) x1 y1 x2 y2, black_wf b ->
  (do s <- black_shift b x1 y1; black_shift s x2 y2) = black_shift b (x1 + x2) (y1 + y2).
Proof. exact @black_shift_shift. Qed.
Print Assumptions C31_compose.

(** What the DNG reader returns is the level pattern relative to the active
    area; it equals the original when the active area starts on a multiple of
    the pattern. *)
Theorem C31_dng : forall (A : Type) (b : black A) ax ay, black_wf b ->
  exists tag b', black_write b ax ay = Ok tag /\ black_read tag (b_cpp b) = Ok b' /\ black_shift b ax ay = Ok b'.
Proof. exact @black_write_read. Qed.
Print Assumptions C31_dng.

Theorem C31_aligned : forall (A : Type) (b : black A) x y, black_wf b ->
  x mod b_w b = 0 -> y mod b_h b = 0 -> black_shift b x y = Ok b.
Proof. exact @black_shift_aligned. Qed.
Print Assumptions C31_aligned.

(** With an odd active area the level read for sensor position (0, 0) is that
    of another colour. *)
Theorem C31_dng_refuted : exists (b b' : black nat) tag, black_wf b /\ black_write b 1 0 = Ok tag /\
  black_read tag (b_cpp b) = Ok b' /\ black_at b' 0 0 0 0 <> black_at b 0 0 0 0.
Proof.
  exists (mk_black [10; 20; 30; 40] 2 2 1). do 2 eexists. split; [unfold black_wf; cbn; lia|].
  split; [vm_compute; reflexivity|]. split; [vm_compute; reflexivity|]. vm_compute. discriminate.
Qed.
Print Assumptions C31_dng_refuted.

Example C31_example : black_wf (mk_black [1; 1; 1; 2; 2; 2; 3; 3; 3; 4; 4; 4] 2 2 3) /\
  black_shift (mk_black [1; 1; 1; 2; 2; 2; 3; 3; 3; 4; 4; 4] 2 2 3) 3 3 =
    Ok (mk_black [4; 4; 4; 3; 3; 3; 2; 2; 2; 1; 1; 1] 2 2 3).
Proof. split; [unfold black_wf; cbn; lia|vm_compute; reflexivity]. Qed.

(** Geometry tags: image sides below 65536 *)
Theorem C33_geometry : forall mode w h active crop, small w -> small h ->
  (forall a, active = Some a -> inside a w h) ->
  (forall c, crop = Some c -> inside c w h /\ r_x (or_full active w h) <= r_x c /\ r_y (or_full active w h) <= r_y c) ->
  exists t, write_geom mode w h active crop = Ok t /\
    read_geom t = Ok (match mode with
      | CropNone => (Some (mk_rect 0 0 w h), None)
      | CropActive => (Some (or_full active w h), Some (or_full active w h))
      | CropBest => (Some (or_full active w h), Some (match crop with Some c => c | None => or_full active w h end))
      end).
Proof. exact geom_roundtrip. Qed.
Print Assumptions C33_geometry.

Example C33_example :
  let a := mk_rect 4 6 90 80 in let c := mk_rect 10 8 70 70 in
  inside a 100 90 /\ inside c 100 90 /\ small 100 /\
  (do t <- write_geom CropBest 100 90 (Some a) (Some c); Ok (g_origin t)) = Ok (Some (6, 2)%Z) /\
  (do t <- write_geom CropBest 100 90 (Some a) (Some c); read_geom t) = Ok (Some a, Some c).
Proof. cbv zeta. unfold inside, small. cbn [r_x r_y r_w r_h]. repeat split; try lia; vm_compute; reflexivity. Qed.
