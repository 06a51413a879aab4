(** CR2: pictures of pixels and their colours. *)
From Coq Require Import List ZArith Lia Bool.
From Coq Require Import ZifyBool ZifyNat.
From Verif Require Import Base BaseLemmas LjpegDec Crx Pef PefSpec LjpegYuvProofs Cr2 Cr2Spec Cr2Proofs Cr2Chroma Cr2Whole.
Import ListNotations.
Open Scope nat_scope.

Lemma px_length p w h : length (pixel_samples p w h) = 3 * w * h.
Proof. unfold pixel_samples. rewrite map_length, seq_length. lia. Qed.
Lemma px_nth p w h r x ch : r < h -> x < w -> ch < 3 -> nth (r * (3 * w) + (3 * x + ch)) (pixel_samples p w h) 0%Z = p r x ch.
Proof.
  intros Hr Hx Hc. unfold pixel_samples. pose proof (cell_lt (3 * w) h r (3 * x + ch) Hr ltac:(lia)) as B. rewrite nth_map_seq by lia.
  replace (r * (3 * w) + (3 * x + ch)) with ((r * w + x) * 3 + ch) by lia. rewrite (cell_div 3), (cell_mod 3) by auto. now rewrite cell_div, cell_mod by auto.
Qed.
Lemma px_cases w h j : j < 3 * w * h -> exists r x ch, r < h /\ x < w /\ ch < 3 /\ j = r * (3 * w) + (3 * x + ch).
Proof.
  intros Hj. assert (Hw : w <> 0) by (intros ->; lia). exists (j / 3 / w), ((j / 3) mod w), (j mod 3).
  pose proof (Nat.div_mod j 3 ltac:(lia)). pose proof (Nat.mod_upper_bound j 3 ltac:(lia)). pose proof (Nat.div_mod (j / 3) w Hw). pose proof (Nat.mod_upper_bound (j / 3) w Hw).
  split; [|split; [auto|split; [auto|]]]; [|lia]. apply Nat.div_lt_upper_bound; [auto|]. apply Nat.div_lt_upper_bound; [auto|]. lia.
Qed.
Lemma px_ext l p w h : length l = 3 * w * h -> (forall r x ch, r < h -> x < w -> ch < 3 -> nth (r * (3 * w) + (3 * x + ch)) l 0%Z = p r x ch) -> l = pixel_samples p w h.
Proof.
  intros L H. apply (nth_ext_len _ _ 0%Z); [now rewrite px_length|]. intros j Hj. rewrite L in Hj. destruct (px_cases w h j Hj) as (r & x & ch & Hr & Hx & Hc & ->). now rewrite H, px_nth by auto.
Qed.
Lemma px_samples s w h : samples s (3 * w) h = pixel_samples (as_pixels s) w h.
Proof.
  apply px_ext; [apply samples_length|]. intros r x ch Hr Hx Hc. rewrite samples_nth by lia. unfold as_pixels. f_equal. lia.
Qed.

(** ** Chroma *)
Lemma px_mod w r x ch : x < w -> ch < 3 -> (r * (3 * w) + (3 * x + ch)) mod (3 * w) = 3 * x + ch /\ (r * (3 * w) + (3 * x + ch)) / (3 * w) = r /\ (r * (3 * w) + (3 * x + ch)) mod 3 = ch.
Proof.
  intros Hx Hc. split; [apply cell_mod; lia|]. split; [apply row_of; lia|]. replace (r * (3 * w) + (3 * x + ch)) with ((r * w + x) * 3 + ch) by lia. now apply cell_mod.
Qed.
Lemma hor_px sh w h p r x ch : r < h -> x < w -> ch < 3 -> hor sh w (pixel_samples p w h) (r * (3 * w) + (3 * x + ch)) = (if sh =? 2 then across w p else p) r x ch.
Proof.
  intros Hr Hx Hc. unfold hor. destruct (sh =? 2); [|now apply px_nth]. unfold haf, hcell, across. destruct (px_mod w r x ch Hx Hc) as (-> & _ & ->).
  replace ((3 * x + ch) / 3) with x by (rewrite (Nat.mul_comm 3 x); symmetry; apply cell_div; lia).
  destruct (ch =? 0) eqn:C0; cbn [negb andb]; [now apply px_nth|]. destruct ((x mod 2 =? 1) && (x + 1 <? w)) eqn:X; [|now apply px_nth].
  assert (x <> 0) by (intros ->; discriminate). replace (r * (3 * w) + (3 * x + ch) - 3) with (r * (3 * w) + (3 * (x - 1) + ch)) by lia.
  replace (r * (3 * w) + (3 * x + ch) + 3) with (r * (3 * w) + (3 * (x + 1) + ch)) by lia. rewrite !px_nth by lia. reflexivity.
Qed.
Lemma ver_px sh sv w h p r x ch : r < h -> x < w -> ch < 3 -> ver sh sv w h (pixel_samples p w h) (r * (3 * w) + (3 * x + ch)) = completed sh sv w h p r x ch.
Proof.
  intros Hr Hx Hc. unfold ver, vcell, completed. destruct (px_mod w r x ch Hx Hc) as (_ & -> & ->). destruct (sv =? 2); cbn [andb]; [|now apply hor_px].
  unfold down, middle. destruct (ch =? 0) eqn:C0; cbn [negb andb]; [now rewrite hor_px|]. destruct ((r mod 3 =? 1) && (r + 1 <? h)) eqn:R; [|now rewrite hor_px].
  assert (r <> 0) by (intros ->; discriminate). replace (r * (3 * w) + (3 * x + ch) - 3 * w) with ((r - 1) * (3 * w) + (3 * x + ch)) by (rewrite Nat.mul_sub_distr_r; assert (1 * (3 * w) <= r * (3 * w)) by (apply Nat.mul_le_mono_r; lia); lia).
  replace (r * (3 * w) + (3 * x + ch) + 3 * w) with ((r + 1) * (3 * w) + (3 * x + ch)) by lia. rewrite !hor_px by lia. reflexivity.
Qed.
Definition sixteen_bits (p : pixels) (w h : nat) : Prop := forall r x ch, r < h -> x < w -> ch < 3 -> (0 <= p r x ch < 65536)%Z.
Lemma px_u16 p w h : sixteen_bits p w h -> u16s (pixel_samples p w h).
Proof.
  intros H i. destruct (Nat.lt_ge_cases i (3 * w * h)) as [L|G].
  - destruct (px_cases w h i L) as (r & x & ch & Hr & Hx & Hc & ->). rewrite px_nth by auto. auto.
  - rewrite nth_overflow; [lia|]. now rewrite px_length.
Qed.
Lemma interpolate_px sh sv w h p : 0 < w -> sixteen_bits p w h ->
  interpolate_yuv sh sv (3 * w) (pixel_samples p w h) = Ok (pixel_samples (completed sh sv w h p) w h).
Proof.
  intros Hw H. destruct (interpolate_any sh sv w h (pixel_samples p w h) Hw (px_length p w h) (px_u16 p w h H)) as (o & E & L & HV). rewrite E. f_equal.
  rewrite px_length in L. apply px_ext; [auto|]. intros r x ch Hr Hx Hc. rewrite HV by (apply (cell_lt (3 * w)); lia). now apply ver_px.
Qed.
Lemma mean_below b x y : (0 <= x < b)%Z -> (0 <= y < b)%Z -> (0 <= mean x y < b)%Z.
Proof. intros. unfold mean. split; [apply Z.div_pos; lia|apply Z.div_lt_upper_bound; lia]. Qed.
Lemma completed_below b sh sv w h p : (forall r x ch, r < h -> x < w -> ch < 3 -> (0 <= p r x ch < b)%Z) ->
  forall r x ch, r < h -> x < w -> ch < 3 -> (0 <= completed sh sv w h p r x ch < b)%Z.
Proof.
  intros H. unfold completed.
  assert (A : forall r x ch, r < h -> x < w -> ch < 3 -> (0 <= (if (sh =? 2)%nat then across w p else p) r x ch < b)%Z).
  { intros r x ch Hr Hx Hc. destruct (sh =? 2); [|auto]. unfold across. destruct (ch =? 0); [auto|]. destruct (_ && _) eqn:E; [|auto]. apply mean_below; apply H; lia. }
  intros r x ch Hr Hx Hc. destruct (sv =? 2); [|auto]. unfold down. destruct (ch =? 0); [auto|]. destruct (_ && _) eqn:E; [|auto]. apply mean_below; apply A; lia.
Qed.

(** ** Colours *)
Open Scope Z_scope.
Lemma i32_in z : -2147483648 <= z <= 2147483647 -> i32 z = Ok z.
Proof. intros. unfold i32. replace ((- 2 ^ 31 <=? z) && (z <? 2 ^ 31)) with true by lia. reflexivity. Qed.
Lemma clamp_16 z : clampbits z 16 = Ok (clamp16 z).
Proof.
  unfold clampbits, clamp16. cbn [assert_ Nat.ltb Nat.leb bind]. change (2 ^ Z.of_nat 16 - 1) with 65535. cbv zeta. f_equal. unfold wrap_u16.
  destruct (Z.ltb_spec z 0); [rewrite Z.mod_small by lia; lia|]. destruct (Z.ltb_spec 65535 z); rewrite Z.mod_small by lia; lia.
Qed.
Lemma scaled_ok c s : 0 <= c <= 8192 -> -262143 <= s <= 262143 -> scaled c s = Ok (clamp16 (c * s / 256)).
Proof.
  intros Hc Hs. unfold scaled. rewrite i32_in by nia. cbn [bind]. rewrite clamp_16, Z.shiftr_div_pow2 by lia. reflexivity.
Qed.
Lemma wrap_shl z n k : 0 <= n -> 2 ^ n = k -> -2147483648 <= k * z <= 2147483647 -> wrap_i32 (Z.shiftl z n) = k * z.
Proof. intros Hn <- H. rewrite Z.shiftl_mul_pow2 by lia. rewrite (Z.mul_comm z). unfold wrap_i32. rewrite Z.mod_small by lia. lia. Qed.
Lemma div_range a n lo hi : 0 < n -> lo * n <= a -> a < hi * n -> lo <= a / n < hi.
Proof. intros. split; [apply Z.div_le_lower_bound; lia|apply Z.div_lt_upper_bound; lia]. Qed.
Lemma sraw_pixel_ok g f hue y b r : 0 <= y < 32768 -> 0 <= b < 32768 -> 0 <= r < 32768 -> 0 <= hue <= 4 -> small_factors f ->
  sraw_pixel g f hue y b r = Ok (let '(c1, c2, c3) := f in let '(R, G, B) := rgb_of g hue y (b - 16383) (r - 16383) in
    (clamp16 (c1 * R / 256), clamp16 (c2 * G / 256), clamp16 (c3 * B / 256))).
Proof.
  destruct f as [[c1 c2] c3]. intros Hy Hb Hr Hh (F1 & F2 & F3). unfold sraw_pixel, rgb_of, rgb_first, rgb_second.
  set (cb := b - 16383) in *. set (cr := r - 16383) in *. assert (Cb : -16383 <= cb <= 16384) by lia. assert (Cr : -16383 <= cr <= 16384) by lia. clearbody cb cr.
  assert (K : forall y, -512 <= y < 32768 -> (do r0 <- scaled c1 (y + cr); do gg <- i32 (-778 * cb - wrap_i32 (Z.shiftl cr 11)); do g0 <- scaled c2 (y + Z.shiftr gg 12); do b0 <- scaled c3 (y + cb); Ok (r0, g0, b0)) =
    Ok (clamp16 (c1 * (y + cr) / 256), clamp16 (c2 * (y + (-778 * cb - 2048 * cr) / 4096) / 256), clamp16 (c3 * (y + cb) / 256))).
  { clear Hy. intros z Hy. rewrite scaled_ok by lia. cbn [bind]. rewrite (wrap_shl cr 11 2048) by lia. rewrite i32_in by lia. cbn [bind]. rewrite Z.shiftr_div_pow2 by lia. change (2 ^ 12) with 4096.
    pose proof (div_range (-778 * cb - 2048 * cr) 4096 (-20000) 20000 ltac:(lia) ltac:(lia) ltac:(lia)). rewrite scaled_ok by lia. cbn [bind]. rewrite scaled_ok by lia. reflexivity. }
  destruct g as [|[|g]]; cbn [Nat.eqb].
  - apply K. lia.
  - rewrite (wrap_shl cb 2 4), (wrap_shl cr 2 4) by lia. rewrite !(i32_in (4 * _ + hue)) by lia. cbn [bind].
    set (u := 4 * cb + hue) in *. set (v := 4 * cr + hue) in *. assert (Hu : -65532 <= u <= 65540) by lia. assert (Hv : -65532 <= v <= 65540) by lia. clearbody u v.
    rewrite !i32_in by lia. cbn [bind]. rewrite (i32_in (50 * u + 22929 * v)) by lia. cbn [bind]. rewrite !Z.shiftr_div_pow2 by lia. change (2 ^ 14) with 16384.
    pose proof (div_range (50 * u + 22929 * v) 16384 (-120000) 120000 ltac:(lia) ltac:(lia) ltac:(lia)). rewrite scaled_ok by lia. cbn [bind].
    cbn [bind]. rewrite ?i32_in by lia. cbn [bind]. rewrite ?Z.shiftr_div_pow2 by lia. change (2 ^ 14) with 16384.
    pose proof (div_range (-5640 * u - 11751 * v) 16384 (-120000) 120000 ltac:(lia) ltac:(lia) ltac:(lia)). rewrite scaled_ok by lia. cbn [bind].
    cbn [bind]. rewrite ?i32_in by lia. cbn [bind]. rewrite ?Z.shiftr_div_pow2 by lia. change (2 ^ 14) with 16384.
    pose proof (div_range (29040 * u - 101 * v) 16384 (-120000) 120000 ltac:(lia) ltac:(lia) ltac:(lia)). rewrite scaled_ok by lia. reflexivity.
  - apply K. lia.
Qed.
Lemma px_flat p w h : pixel_samples p w h = flat_map (fun i => [p (i / w)%nat (i mod w)%nat 0%nat; p (i / w)%nat (i mod w)%nat 1%nat; p (i / w)%nat (i mod w)%nat 2%nat]) (seq 0 (w * h)).
Proof.
  unfold pixel_samples. replace (w * 3 * h)%nat with (w * h * 3)%nat by lia. generalize (w * h)%nat as n.
  induction n as [|n IH]; [reflexivity|]. replace (S n * 3)%nat with (n * 3 + 3)%nat by lia. rewrite seq_app, map_app, IH. rewrite (seq_S n 0), flat_map_app. f_equal.
  cbn [plus seq map flat_map app]. replace (S (S (n * 3))) with (n * 3 + 2)%nat by lia. replace (S (n * 3)) with (n * 3 + 1)%nat by lia.
  rewrite <- (Nat.add_0_r (n * 3)) at 1 2 3. now rewrite !(cell_div 3), !(cell_mod 3) by lia.
Qed.
Lemma sraw_flat g f hue (a b c x y z : nat -> Z) l : (forall i, In i l -> sraw_pixel g f hue (a i) (b i) (c i) = Ok (x i, y i, z i)) ->
  sraw_pixels g f hue (flat_map (fun i => [a i; b i; c i]) l) = Ok (flat_map (fun i => [x i; y i; z i]) l).
Proof.
  induction l as [|i l IH]; intros H; [reflexivity|]. cbn [flat_map app sraw_pixels]. rewrite H by (left; reflexivity). cbn [bind]. rewrite IH by (intros; apply H; now right). reflexivity.
Qed.
Lemma sraw_px g f hue p w h : fifteen_bits p w h -> 0 <= hue <= 4 -> small_factors f ->
  sraw_pixels g f hue (pixel_samples p w h) = Ok (pixel_samples (developed g f hue p) w h).
Proof.
  intros H Hh Hf. rewrite !px_flat. apply sraw_flat. intros i Hi. apply in_seq in Hi. assert (Hw : w <> 0%nat) by (intros ->; lia).
  assert (Hr : (i / w < h)%nat) by (apply Nat.div_lt_upper_bound; lia). pose proof (Nat.mod_upper_bound i w Hw) as Hx.
  rewrite sraw_pixel_ok; auto; try (apply H; lia). unfold developed. destruct f as [[c1 c2] c3]. destruct (rgb_of _ _ _ _ _) as [[R G] B]. reflexivity.
Qed.
Lemma hue_range model fw sh sv : (1 <= sh <= 2)%nat -> (1 <= sv <= 2)%nat -> exists hue, sraw_hue model fw sh sv = Ok hue /\ 0 <= hue <= 4.
Proof.
  intros Hs Hv. unfold sraw_hue. destruct model as [m|]; [|exists 0; split; [reflexivity|lia]].
  assert (sh = 1 \/ sh = 2)%nat as [-> | ->] by lia; assert (sv = 1 \/ sv = 2)%nat as [-> | ->] by lia; destruct (_ || _); cbn; eexists; (split; [reflexivity|lia]).
Qed.
Lemma convert_px i sh sv w h p hue : (0 < w)%nat -> fifteen_bits p w h -> sraw_hue (sr_model i) (sr_fw i) sh sv = Ok hue -> 0 <= hue <= 4 -> small_factors (sraw_factors (sr_wb i) (sr_invert i)) ->
  convert_to_rgb i sh sv (3 * w) (pixel_samples p w h) = Ok (pixel_samples (developed (sraw_version (sr_40d i) (sr_new i)) (sraw_factors (sr_wb i) (sr_invert i)) hue
    (if sr_interpolate i then completed sh sv w h p else p)) w h).
Proof.
  intros Hw H Eh Hh Hf. unfold convert_to_rgb. destruct (sr_interpolate i).
  - rewrite interpolate_px; [|auto|intros r x ch A B C; specialize (H r x ch A B C); lia]. cbn [bind]. rewrite Eh. cbn [bind]. apply sraw_px; auto.
    intros r x ch A B C. now apply (completed_below 32768).
  - cbn [bind]. rewrite Eh. cbn [bind]. now apply sraw_px.
Qed.
