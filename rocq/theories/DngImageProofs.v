From Coq Require Import List ZArith Lia Bool.
From Coq Require Import ZifyBool ZifyNat.
From Verif Require Import Base BaseLemmas Par ParProofs Tiles TilesProofs LjpegEnc LjpegDec LjpegRoundtrip LjpegSpec LjpegTop DngImage.
Import ListNotations.
Open Scope nat_scope.

Lemma combine_seq_map {A} (f : nat -> A) n a :
  combine (seq a n) (map f (seq a n)) = map (fun k => (k, f k)) (seq a n).
Proof. revert a. induction n; intros; cbn; auto. f_equal. auto. Qed.

(** ** Cropping *)
Section CropP.
Context {A : Type}.
Variable d : A.

Lemma crop_spec (p : pix2d A) x y w h :
  length (px_data p) = px_h p * px_w p -> 0 < w -> x + w <= px_w p -> y + h <= px_h p ->
  exists out, crop p x y w h = Ok (mk_pix w h out) /\ length out = h * w /\
    forall r c, r < h -> c < w -> nth (r * w + c) out d = nth ((y + r) * px_w p + (x + c)) (px_data p) d.
Proof.
  intros HL Hw Hx Hy. unfold crop. replace (w =? 0) with false by lia. cbn [negb assert_ bind].
  set (line := fun r => firstn w (skipn ((y + r) * px_w p + x) (px_data p))).
  assert (HRB : forall r, r < h -> (y + r) * px_w p + px_w p <= length (px_data p)).
  { intros r Hr. pose proof (Nat.mul_le_mono_r (S (y + r)) (px_h p) (px_w p)). lia. }
  assert (HLL : forall r, r < h -> length (line r) = w).
  { intros r Hr. unfold line. rewrite firstn_length, skipn_length. specialize (HRB r Hr). lia. }
  edestruct (for_each_seq_inv (fun row acc =>
              do src <- pix_row p (y + row); do line <- slice src x (x + w); Ok (acc ++ line))
    (fun n acc => acc = flat_map line (seq 0 n)) 0 h []) as (out & E & HI); auto.
  - intros i s Hi ->. unfold pix_row. specialize (HRB i ltac:(lia)).
    rewrite slice_ok by lia. cbn [bind].
    replace ((y + i) * px_w p + px_w p - (y + i) * px_w p) with (px_w p) by lia.
    rewrite slice_ok by (rewrite firstn_length, skipn_length; lia). cbn [bind].
    eexists. split; [reflexivity|]. rewrite flat_map_seq_S. f_equal. unfold line.
    replace (x + w - x) with w by lia. rewrite skipn_firstn_comm, firstn_firstn, skipn_skipn.
    f_equal. lia.
  - rewrite E. cbn [bind]. cbn in HI. exists out. split; auto. subst out. split.
    + apply flat_map_seq_length. auto.
    + intros r c Hr Hc. rewrite flat_map_seq_nth with (k := w); auto.
      unfold line. rewrite nth_firstn, nth_skipn by auto. f_equal. lia.
Qed.

(** Cropping to the top left corner. *)
Lemma into_crop_spec (p : pix2d A) w h :
  length (px_data p) = px_h p * px_w p -> 0 < w -> w <= px_w p -> h <= px_h p ->
  exists out, into_crop p 0 0 w h = Ok (mk_pix w h out) /\ length out = h * w /\
    forall r c, r < h -> c < w -> nth (r * w + c) out d = nth (r * px_w p + c) (px_data p) d.
Proof.
  intros HL Hw Hx Hy. unfold into_crop.
  destruct (Nat.eqb_spec (px_w p) w), (Nat.eqb_spec (px_h p) h); cbn [andb Nat.eqb];
    try (destruct (crop_spec p 0 0 w h) as (out & E & L & N); auto; exists out; auto; fail).
  destruct p as [pw ph dat]. cbn in *. subst. exists dat. auto.
Qed.
End CropP.

(** ** The tile decoding loop *)
Section DecodeTiles.
Context {A : Type}.
Variable d : A.
Variables (w h cpp tw th : nat).
Hypothesis (Hw : 0 < w) (Hh : 0 < h) (Hc : 0 < cpp) (Htw : 0 < tw) (Hth : 0 < th).
Let tcols := (w + tw - 1) / tw.
Let trows := (h + th - 1) / th.
Let T := tw * cpp.
Let W := tcols * T.
Let H := trows * th.
Variable dec : nat -> option (list A).
Variable pix : nat -> list A.
Hypothesis Hdec : forall k, k < trows * tcols -> dec k = Some (pix k).
Hypothesis Hpix : forall k, k < trows * tcols -> length (pix k) = th * T.

Let ms := map (mtile_of tcols cpp tw th) (seq 0 (trows * tcols)).
Let s0 := mk_pstate (repeat d (H * W)) (tile_workers dec T ms) false.

Lemma tcols_pos : 0 < tcols. Proof. apply ceil_ge; lia. Qed.
Lemma trows_pos : 0 < trows. Proof. apply ceil_ge; lia. Qed.

Lemma decode_tiles_init_ok : decode_tiles_init d (trows * tcols) w h cpp tw th dec = Ok (W, H, s0).
Proof.
  unfold decode_tiles_init. rewrite !usub_ok by lia. cbn [bind]. unfold udiv.
  replace (tw =? 0) with false by lia. replace (th =? 0) with false by lia. cbn [bind].
  rewrite <- !ceil_pred by auto. fold tcols trows.
  replace (tcols * trows =? trows * tcols) with true by lia. cbn [negb].
  replace (cpp =? 0) with false by lia. cbn [bind]. rewrite Nat.div_mul by lia.
  replace (tcols * tw * cpp) with W by (unfold W, T; lia).
  replace (W * (trows * th)) with (H * W) by (unfold H; lia).
  pose proof tcols_pos. pose proof trows_pos.
  unfold H, W, T. rewrite into_tiles_ok by auto. cbn [bind].
  rewrite tiles_list_ok by auto. cbn [bind]. reflexivity.
Qed.

Lemma worker_nth k : k < trows * tcols ->
  nth k (tile_workers dec T ms) dw = tile_worker dec T k (mtile_of tcols cpp tw th k).
Proof.
  intros Hk. unfold tile_workers, ms. rewrite map_length, seq_length, combine_seq_map, map_map.
  now rewrite nth_map_seq by auto.
Qed.

Lemma workers_length : length (tile_workers dec T ms) = trows * tcols.
Proof.
  unfold tile_workers, ms. now rewrite map_length, combine_length, map_length, !seq_length, Nat.min_id.
Qed.

Lemma workers_cells : map wk_cells (tile_workers dec T ms) = map mtile_cells ms.
Proof.
  unfold tile_workers, ms. rewrite map_length, seq_length, combine_seq_map, !map_map. reflexivity.
Qed.

Lemma T_pos' : 0 < T. Proof. apply Nat.mul_pos_pos; auto. Qed.

Lemma copy_full k v : k < trows * tcols -> length v = th * T -> copy_lines T th (pix k) v = Some (pix k).
Proof.
  intros Hk HL. unfold copy_lines. rewrite Hpix by auto. pose proof T_pos'.
  rewrite Nat.div_mul by lia. rewrite Nat.min_id. f_equal.
  rewrite firstn_all2 by (rewrite Hpix; auto). rewrite skipn_all2 by lia. apply app_nil_r.
Qed.

Lemma cells_length k : length (mtile_cells (mtile_of tcols cpp tw th k)) = th * T.
Proof. rewrite mtile_cells_ok with (trows := trows); auto using tcols_pos, trows_pos. now rewrite map_length, seq_length. Qed.

Lemma workers_ok : Forall (fun x => Forall (op_ok (length (wk_cells x))) (wk_ops x)) (tile_workers dec T ms).
Proof.
  apply Forall_forall. intros x Hx. apply In_nth with (d := dw) in Hx. destruct Hx as (k & Hk & <-).
  rewrite workers_length in Hk. rewrite worker_nth by auto. cbn [wk_ops wk_cells tile_worker].
  rewrite cells_length. constructor; auto. rewrite Hdec by auto. intros v v' HL E.
  cbn [mt_height mtile_of] in E. rewrite copy_full in E by auto. injection E as <-. auto.
Qed.

Lemma workers_fp : footprints_ok (map wk_cells (tile_workers dec T ms)) (length (repeat d (H * W))).
Proof.
  rewrite workers_cells, repeat_length. apply tiles_footprints; auto using tcols_pos, trows_pos.
Qed.

Lemma worker_alone k : k < trows * tcols ->
  alone d (repeat d (H * W)) (nth k (tile_workers dec T ms) dw) = Some (pix k).
Proof.
  intros Hk. rewrite worker_nth by auto. unfold alone. cbn [wk_ops wk_cells tile_worker run_ops].
  rewrite Hdec by auto. cbn [mt_height mtile_of]. rewrite copy_full; auto.
  unfold gather. now rewrite map_length, cells_length.
Qed.

Lemma decode_tiles_result sched : ended (prun d sched s0) ->
  exists b, result (prun d sched s0) = POk b /\ length b = H * W /\
    forall k p, k < trows * tcols -> p < th * T -> nth (cell tcols cpp tw th k p) b d = nth p (pix k) d.
Proof.
  intros HE. unfold result. destruct (ps_failed (prun d sched s0)) eqn:EF.
  - destruct (prun_failed d _ _ workers_fp workers_ok sched EF) as (i & Hi & EA).
    rewrite workers_length in Hi. rewrite worker_alone in EA by auto. discriminate.
  - destruct (prun_ok d _ _ workers_fp workers_ok sched HE EF) as (L & HA & _).
    rewrite repeat_length in L. exists (ps_buf (prun d sched s0)). split; auto. split; auto.
    intros k p Hk Hp. specialize (HA k). rewrite workers_length in HA. specialize (HA Hk).
    rewrite worker_alone in HA by auto. injection HA as HA. rewrite worker_nth in HA by auto.
    cbn [wk_cells tile_worker] in HA. rewrite mtile_cells_ok with (trows := trows) in HA; auto using tcols_pos, trows_pos.
    rewrite HA. unfold gather. rewrite map_map. rewrite nth_map_seq by auto. reflexivity.
Qed.
End DecodeTiles.

Open Scope Z_scope.

(** ** One tile through the codec *)
Lemma area_full (image : list Z) h n : length image = (h * n)%nat -> (0 < n)%nat -> area image h n n = image.
Proof.
  intros HL Hn. apply nth_ext_len with (d := 0). { rewrite area_length by lia. lia. }
  intros i Hi. rewrite area_length in Hi by lia.
  pose proof (Nat.div_mod i n ltac:(lia)). pose proof (Nat.mod_upper_bound i n ltac:(lia)).
  assert (i / n < h)%nat by (apply Nat.div_lt_upper_bound; lia).
  replace i with (i / n * n + i mod n)%nat at 1 by lia. rewrite area_nth by lia. f_equal. lia.
Qed.

Lemma ljpeg_tile dbg tile jw jh comps bps px :
  Forall is_u16 tile -> length tile = (jh * (jw * comps))%nat ->
  (1 <= jw)%nat -> Z.of_nat jw <= 65535 -> (1 <= jh)%nat -> Z.of_nat jh <= 65535 ->
  (1 <= comps <= 4)%nat -> (10 <= bps <= 16)%nat -> (1 <= px <= 7)%nat ->
  (dbg = true -> Forall (fun s => s < 2 ^ Z.of_nat bps) tile) ->
  exists bytes, ljpeg_compress dbg tile jw jh comps bps px 0 0 = Ok bytes /\ Forall is_byte bytes /\
    ljpeg_frame bytes = Some tile.
Proof.
  intros HU HL HW1 HW2 HH1 HH2 HC HD HP HF.
  destruct (c01_ljpeg_roundtrip dbg tile jw jh comps bps px 0) as (bytes & dec & E1 & FB & E2 & EW & EH & E3); auto.
  { rewrite Nat.add_0_r. lia. }
  exists bytes. split; auto. split; auto. unfold ljpeg_frame. rewrite E2, EW, EH, E3.
  rewrite Nat.add_0_r, area_full; auto. apply Nat.mul_pos_pos; lia.
Qed.

(** ** Whole image *)
Section Whole.
Variables (dbg : bool) (data : list Z) (w h cpp bps tw th : nat) (ph : photometric) (px : nat).
Variables (jw jh comps realign : nat).
Hypothesis (Hw : (0 < w)%nat) (Hh : (0 < h)%nat) (Hc : (0 < cpp)%nat) (Htw : (0 < tw)%nat) (Hth : (0 < th)%nat).
Hypothesis HL : length data = (h * w * cpp)%nat.
Hypothesis HU : Forall is_u16 data.
Hypothesis HG : ljpeg_geometry tw th cpp ph px = Ok (jw, jh, comps, realign).
Hypothesis HGS : (jh / realign * (jw * realign * comps) = th * (tw * cpp))%nat.
Hypothesis (HJ1 : (1 <= jw * realign)%nat) (HJ2 : Z.of_nat (jw * realign) <= 65535)
  (HJ3 : (1 <= jh / realign)%nat) (HJ4 : Z.of_nat (jh / realign) <= 65535) (HJ5 : (1 <= comps <= 4)%nat).
Hypothesis (HB : (10 <= bps <= 16)%nat) (HPX : (1 <= px <= 7)%nat).
Hypothesis HF : dbg = true -> Forall (fun s => s < 2 ^ Z.of_nat bps) data.
Let tcols := ((w + tw - 1) / tw)%nat.
Let trows := ((h + th - 1) / th)%nat.

Definition tile_of (idx : nat) : list Z :=
  flat_map (fun r => srow 0 data w h cpp tw (idx mod tcols) (idx / tcols * th + r)) (seq 0 th).

Lemma tile_of_Forall (P : Z -> Prop) idx : Forall P data -> (idx < trows * tcols)%nat -> Forall P (tile_of idx).
Proof.
  intros HP Hidx. apply Forall_forall. intros v Hv. apply In_nth with (d := 0) in Hv.
  destruct Hv as (i & Hi & <-). unfold tile_of in Hi. rewrite build_tile_length in Hi.
  set (T := (tw * cpp)%nat) in *. assert (HT : (0 < T)%nat) by (apply Nat.mul_pos_pos; auto).
  pose proof (Nat.div_mod i T ltac:(lia)). pose proof (Nat.mod_upper_bound i T ltac:(lia)).
  assert (i / T < th)%nat by (apply Nat.div_lt_upper_bound; lia).
  replace i with (i / T * T + i mod T)%nat by lia. unfold tile_of, tcols, T.
  rewrite build_tile_nth; auto. rewrite Forall_forall in HP. apply HP. apply nth_In. rewrite HL.
  set (R := Nat.min _ (h - 1)). set (C := Nat.min _ (w * cpp - 1)).
  assert (HR : (R < h)%nat) by (apply Nat.le_lt_trans with (h - 1)%nat; [apply Nat.le_min_r | clear - Hh; lia]).
  assert (HWC : (0 < w * cpp)%nat) by (apply Nat.mul_pos_pos; auto).
  assert (HCC : (C < w * cpp)%nat) by (apply Nat.le_lt_trans with (w * cpp - 1)%nat; [apply Nat.le_min_r | clear - HWC; lia]). clearbody R C.
  clear - HR HCC.
  pose proof (Nat.mul_le_mono_r (S R) h (w * cpp)). lia.
Qed.

Lemma put_raw_ok : exists tiles, put_raw_ljpeg dbg tw th data w h cpp bps ph px = Ok tiles /\
  length tiles = (trows * tcols)%nat /\
  forall k, (k < trows * tcols)%nat -> Forall is_byte (nth k tiles []) /\ ljpeg_frame (nth k tiles []) = Some (tile_of k).
Proof.
  unfold put_raw_ljpeg. rewrite HG. cbn [bind]. rewrite tiler_new_ok by auto. cbn [bind].
  unfold tile_count. cbn [tl_trows tl_tcols]. fold tcols trows.
  edestruct (for_each_seq_inv (fun idx acc =>
    do tile <- build_tile 0 (mk_tiler data w h cpp tw th tcols trows) idx;
    do bytes <- ljpeg_compress dbg tile (jw * realign) (jh / realign) comps bps px 0 0;
    Ok (acc ++ [bytes]))
    (fun n acc => length acc = n /\ forall k, (k < n)%nat ->
       Forall is_byte (nth k acc []) /\ ljpeg_frame (nth k acc []) = Some (tile_of k)) 0 (trows * tcols)%nat [])
    as (tiles & E & HI1 & HI2).
  - split; auto. intros; lia.
  - intros i acc Hi (L & HI). unfold tcols, trows. rewrite build_tile_spec by (auto; unfold tcols, trows in Hi; lia).
    cbn [bind]. fold tcols. fold (tile_of i).
    destruct (ljpeg_tile dbg (tile_of i) (jw * realign) (jh / realign) comps bps px) as (bytes & E & FB & EF); auto.
    + apply tile_of_Forall; auto; lia.
    + unfold tile_of. rewrite build_tile_length. lia.
    + intros Hd. apply tile_of_Forall; auto; lia.
    + rewrite E. cbn [bind]. eexists. split; [reflexivity|]. rewrite app_length, L. cbn [length]. split; [lia|].
      intros k Hk. destruct (Nat.eq_dec k i) as [->|].
      * rewrite app_nth2 by lia. rewrite L, Nat.sub_diag. cbn. auto.
      * rewrite app_nth1 by lia. apply HI. lia.
  - exists tiles. rewrite E. auto.
Qed.

Lemma read_put sched tiles : put_raw_ljpeg dbg tw th data w h cpp bps ph px = Ok tiles ->
  read_ljpeg_ends sched tiles w h cpp tw th ->
  read_ljpeg sched tiles w h cpp tw th = Ok data.
Proof.
  intros EP HE. destruct put_raw_ok as (tiles' & EP' & HLt & HT). rewrite EP in EP'. injection EP' as <-.
  unfold read_ljpeg_ends, read_ljpeg, read_ljpeg_init in *. rewrite HLt in HE. rewrite HLt.
  assert (HD : forall k, (k < trows * tcols)%nat -> ljpeg_frame (nth k tiles []) = Some (tile_of k)) by apply HT.
  assert (HPL : forall k, (k < trows * tcols)%nat -> length (tile_of k) = (th * (tw * cpp))%nat)
    by (intros; unfold tile_of; apply build_tile_length).
  pose proof (decode_tiles_init_ok 0 w h cpp tw th Hw Hh Hc Htw Hth (fun k => ljpeg_frame (nth k tiles [])) tile_of HD HPL) as EI.
  fold tcols trows in EI. rewrite EI in HE. rewrite EI. cbn [bind].
  destruct (decode_tiles_result 0 w h cpp tw th Hw Hh Hc Htw Hth _ tile_of HD HPL sched HE) as (b & ER & LB & NB).
  fold tcols trows in ER. rewrite ER. fold tcols trows in LB, NB.
  set (T := (tw * cpp)%nat) in *. set (W := (tcols * T)%nat) in *. set (H := (trows * th)%nat) in *.
  assert (HTp : (0 < T)%nat) by (apply Nat.mul_pos_pos; auto).
  assert (HWC : (0 < w * cpp)%nat) by (apply Nat.mul_pos_pos; auto).
  assert (HwT : (w <= tcols * tw)%nat).
  { unfold tcols. pose proof (Nat.div_mod (w + tw - 1) tw ltac:(lia)).
    pose proof (Nat.mod_upper_bound (w + tw - 1) tw ltac:(lia)). lia. }
  assert (HhT : (h <= trows * th)%nat).
  { unfold trows. pose proof (Nat.div_mod (h + th - 1) th ltac:(lia)).
    pose proof (Nat.mod_upper_bound (h + th - 1) th ltac:(lia)). lia. }
  assert (HWW : (w * cpp <= W)%nat).
  { unfold W, T. rewrite Nat.mul_assoc. apply Nat.mul_le_mono_r. auto. }
  destruct (into_crop_spec 0 (mk_pix W H b) (w * cpp) h) as (out & EO & LO & NO); auto.
  rewrite EO. cbn [bind px_data]. f_equal. apply nth_ext_len with (d := 0). { lia. }
  intros i Hi. rewrite LO in Hi.
  pose proof (Nat.div_mod i (w * cpp) ltac:(lia)). pose proof (Nat.mod_upper_bound i (w * cpp) ltac:(lia)).
  assert (Hr : (i / (w * cpp) < h)%nat) by (apply Nat.div_lt_upper_bound; lia).
  set (r := (i / (w * cpp))%nat) in *. set (c := (i mod (w * cpp))%nat) in *.
  replace i with (r * (w * cpp) + c)%nat by lia. rewrite NO by auto. cbn [px_w px_data].
  assert (Hcell : (r * W + c < H * W)%nat).
  { pose proof (Nat.mul_le_mono_r (S r) H W). unfold H in *. lia. }
  assert (HP1 : (0 < tcols)%nat) by (apply ceil_ge; auto). assert (HP2 : (0 < trows)%nat) by (apply ceil_ge; auto).
  destruct (cell_cover tcols trows cpp tw th HP1 HP2 Hc Htw Hth (r * W + c) Hcell) as (HK & HP & HCE).
  fold T W in HK, HP, HCE. cbv zeta in *.
  assert (E1 : ((r * W + c) / W = r)%nat) by (symmetry; apply Nat.div_unique with (r := c); lia).
  assert (E2 : ((r * W + c) mod W = c)%nat) by (symmetry; apply Nat.mod_unique with (q := r); lia).
  rewrite E1, E2 in *. rewrite <- HCE. rewrite NB by auto. unfold tile_of, tcols, T.
  rewrite build_tile_nth; auto.
  2: { apply Nat.mod_upper_bound. lia. }
  2: { apply Nat.mod_upper_bound. fold T. lia. }
  fold T tcols.
  assert (HX : (c / T < tcols)%nat) by (apply Nat.div_lt_upper_bound; unfold W in *; lia).
  rewrite Nat.div_add_l by lia. rewrite (Nat.div_small (c / T)) by auto. rewrite Nat.add_0_r.
  rewrite (Nat.add_comm (r / th * tcols)), Nat.mod_add by lia. rewrite (Nat.mod_small (c / T)) by auto.
  replace (r / th * th + r mod th)%nat with r by (pose proof (Nat.div_mod r th ltac:(lia)); lia).
  replace (c / T * T + c mod T)%nat with c by (pose proof (Nat.div_mod c T ltac:(lia)); lia).
  rewrite !Nat.min_l by lia. f_equal.
Qed.
End Whole.
