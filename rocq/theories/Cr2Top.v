(** CR2: whole images. *)
From Coq Require Import List ZArith Lia Bool.
From Coq Require Import ZifyBool ZifyNat.
From Verif Require Import Base BaseLemmas LjpegDec Bits BitsSpec BitsProofs Crx Pef PefSpec LjpegYuvProofs Cr2 Cr2Spec Cr2Proofs Cr2Chroma Cr2Whole Cr2Colour.
Import ListNotations.
Open Scope nat_scope.

Lemma hue_spec model fw sh sv : (1 <= sh <= 2) -> (1 <= sv <= 2) -> sraw_hue model fw sh sv = Ok (hue_of model fw (sh * sv)) /\ (0 <= hue_of model fw (sh * sv) <= 4)%Z.
Proof.
  intros Hs Hv. unfold sraw_hue, hue_of. destruct model as [m|]; [|split; [reflexivity|lia]].
  replace (1000006 <? match fw with Some f => f | None => 0 end)%Z with (match fw with Some f => 1000006 <? f | None => false end)%Z by (destruct fw; reflexivity).
  change 2147484289%Z with 0x80000281%Z. change 2147484184%Z with 0x80000218%Z.
  assert (sh = 1 \/ sh = 2) as [-> | ->] by lia; assert (sv = 1 \/ sv = 2) as [-> | ->] by lia; destruct (_ || _); cbn; (split; [reflexivity|lia]).
Qed.
Lemma factors_spec inv r g1 g2 b : (inv = true -> r <> 0 /\ b <> 0)%Z -> sraw_factors (Some (r, g1, g2, b)) inv = white_balance inv r g1 g2 b.
Proof.
  intros H. unfold sraw_factors, white_balance. destruct inv; [|reflexivity]. destruct (H eq_refl). replace (r =? 0)%Z with false by lia. replace (b =? 0)%Z with false by lia. reflexivity.
Qed.
Lemma version_spec a b : sraw_version a b = generation a b.
Proof. destruct a, b; reflexivity. Qed.
Lemma sum_repeat w1 w2 n : list_sum (repeat w1 n ++ [w2]) = n * w1 + w2.
Proof. rewrite list_sum_app. cbn [list_sum fold_right]. assert (list_sum (repeat w1 n) = n * w1) by (induction n as [|n IH]; [reflexivity|]; cbn [repeat list_sum fold_right]; change (fold_right Nat.add 0 (repeat w1 n)) with (list_sum (repeat w1 n)); lia). lia. Qed.
Lemma map_id_one fws : map (fun f => f / 1 * 1) fws = fws.
Proof. rewrite <- (map_id fws) at 2. apply map_ext. intros f. rewrite Nat.div_1_r. lia. Qed.

(** ** Sensor data *)
Lemma plain_fields s n w1 w2 w h (double : bool) tag i :
  0 < n -> 0 < w1 -> 0 < w2 -> w = n * w1 + w2 ->
  let k := if double then 2 else 1 in
  forall ljw ljh, ljw = k * w -> k * ljh = h ->
  cr2_image (store_fields s (repeat w1 n ++ [w2]) h 0) ljw ljh 1 1 None tag double (Some (n, w1, w2)) i = Ok (1, w, h, samples s w h).
Proof.
  intros Hn H1 H2 Hw k ljw ljh Ew Eh. unfold cr2_image. cbn [Nat.eqb bind].
  replace (cr2_size 1 ljw ljh tag double) with (w, h).
  2: { unfold cr2_size. cbn [Nat.eqb]. unfold k in *. destruct double; subst ljw h; f_equal; [rewrite Nat.mul_comm; symmetry; apply Nat.div_mul; lia|lia|lia|lia]. }
  destruct (Nat.eqb_spec n 0); [lia|]. replace (0 <? w1) with true by lia. replace (0 <? w2) with true by lia. cbn [assert_ bind].
  pose proof (fields1_stored s (repeat w1 n ++ [w2]) 1 1 w h [] ltac:(lia)) as F. rewrite map_id_one, app_nil_r, sum_repeat in F. rewrite F by lia. reflexivity.
Qed.
Lemma plain_whole lj ljw ljh tag i : cr2_image lj ljw ljh 1 1 None tag false None i = Ok (1, ljw, ljh, lj).
Proof. unfold cr2_image, cr2_size. cbn [Nat.eqb bind]. rewrite Nat.eqb_refl. reflexivity. Qed.

(** ** Half size images *)
Section Sraw.
  Variable i : sraw_info.
  Variables r g1 g2 b : Z.
  Hypothesis Hwb : sr_wb i = Some (r, g1, g2, b).
  Hypothesis Hinv : (sr_invert i = true -> r <> 0 /\ b <> 0)%Z.
  Let f := white_balance (sr_invert i) r g1 g2 b.
  Hypothesis Hf : small_factors f.
  Let gen := generation (sr_40d i) (sr_new i).
  Definition final (p : pixels) (sv w h : nat) : list Z :=
    pixel_samples (developed gen f (hue_of (sr_model i) (sr_fw i) (2 * sv)) (if sr_interpolate i then completed 2 sv w h p else p)) w h.
  Lemma convert_final sv w h p : 1 <= sv <= 2 -> 0 < w -> fifteen_bits p w h -> convert_to_rgb i 2 sv (3 * w) (pixel_samples p w h) = Ok (final p sv w h).
  Proof.
    intros Hv Hw H. destruct (hue_spec (sr_model i) (sr_fw i) 2 sv) as [E R]; [lia|auto|].
    rewrite (convert_px i 2 sv w h p (hue_of (sr_model i) (sr_fw i) (2 * sv))); auto; rewrite ?Hwb, ?factors_spec by auto; auto.
  Qed.
  Lemma sraw_fields s n w1 w2 w h ljw ljh double :
    0 < n -> 0 < w1 -> 0 < w2 -> 0 < w -> list_sum (map (fun f => f / 2 * 3) (repeat w1 n ++ [w2])) = 3 * w -> fifteen_bits (as_pixels s) w h ->
    cr2_image (store_fields s (map (fun f => f / 2 * 3) (repeat w1 n ++ [w2])) h 0) ljw ljh 2 1 None (Some (w, h)) double (Some (n, w1, w2)) i = Ok (3, 3 * w, h, final (as_pixels s) 1 w h).
  Proof.
    intros Hn H1 H2 Hw Hs Hp. unfold cr2_image, cr2_size. cbn [Nat.eqb bind]. destruct (Nat.eqb_spec n 0); [lia|].
    replace (0 <? w1) with true by lia. replace (0 <? w2) with true by lia. cbn [assert_ bind]. replace (w * 3) with (3 * w) by lia.
    pose proof (fields1_stored s (repeat w1 n ++ [w2]) 2 3 (3 * w) h [] ltac:(lia) Hs) as F. rewrite app_nil_r in F. rewrite F. cbn [bind].
    rewrite px_samples, convert_final by (auto; lia). reflexivity.
  Qed.
  Lemma sraw_pairs lj n w1 w2 w h ljw ljh double :
    0 < n -> 0 < w1 -> 0 < w2 -> 0 < w -> (n + 1) * w1 = 3 * w -> w1 mod 3 = 0 -> h mod 2 = 0 -> ljw mod 3 = 0 -> ljh mod 2 = 0 ->
    length lj = ljw * ljh -> 3 * w * h <= ljw * ljh ->
    let p := as_pixels (fun r c => nth (pair_pos ljw w1 h r c) lj 0%Z) in fifteen_bits p w h ->
    cr2_image lj ljw ljh 2 2 None (Some (w, h)) double (Some (n, w1, w2)) i = Ok (3, 3 * w, h, final p 2 w h).
  Proof.
    intros Hn H1 H2 Hw Hs M1 M2 M3 M4 HL HB p Hp. unfold cr2_image, cr2_size. cbn [Nat.eqb bind]. destruct (Nat.eqb_spec n 0); [lia|].
    replace (0 <? w1) with true by lia. replace (0 <? w2) with true by lia. cbn [assert_ bind]. replace (w * 3) with (3 * w) by lia.
    pose proof (Nat.div_mod w1 3 ltac:(lia)) as D1. pose proof (Nat.div_mod h 2 ltac:(lia)) as D2. pose proof (Nat.div_mod ljw 3 ltac:(lia)) as D3. pose proof (Nat.div_mod ljh 2 ltac:(lia)) as D4.
    rewrite M1, Nat.add_0_r in D1. rewrite M2, Nat.add_0_r in D2. rewrite M3, Nat.add_0_r in D3. rewrite M4, Nat.add_0_r in D4.
    set (G := w1 / 3) in *. set (H := h / 2) in *. set (m := ljw / 3) in *. set (l := ljh / 2) in *. clearbody G H m l. subst w1 h ljw ljh.
    destruct (Nat.eq_dec H 0) as [->|HH].
    { replace (2 * 0) with 0 by lia. unfold cr2_fields2. rewrite !Nat.mul_0_r.
      assert (Z0 : forall k st, for_each (seq 0 k) (fun _ '(fieldstart, inpos, out) => do (inpos, out) <- for_each (step_range 0 0 2) (fun row '(inpos, out) =>
         for_each (step_range 0 (3 * G) 3) (fun col '(inpos, out) =>
        do out <- copy_in out (row * (3 * w) + fieldstart + col) lj inpos 3;
        do out <- copy_in out ((row + 1) * (3 * w) + fieldstart + col) lj (inpos + 3 * m) 3;
        let inpos := (inpos + 3)%nat in
        do _ <- assert_ (negb (3 * m =? 0)%nat);
        Ok (if (inpos mod (3 * m) =? 0)%nat then (inpos + 3 * m)%nat else inpos, out)) (inpos, out)) (inpos, out); Ok ((fieldstart + 3 * G)%nat, inpos, out)) st = Ok (fst (fst st) + k * (3 * G), snd (fst st), snd st)).
      { intros k. generalize 0 at 1 as a. induction k as [|k IH]; intros a [[x y] z]; cbn [seq for_each fst snd]; [now rewrite Nat.add_0_r|]. cbn [bind step_range seq map for_each Nat.sub Nat.add Nat.div Nat.divmod fst snd].
        rewrite IH. cbn [fst snd]. do 3 f_equal. lia. }
      match goal with |- context [for_each (seq 0 (n + 1)) ?F ?S0] => replace (for_each (seq 0 (n + 1)) F S0) with (Ok (0 + (n + 1) * (3 * G), 0, @nil Z)) by (symmetry; exact (Z0 (n + 1) S0)) end.
      cbn [bind]. pose proof (convert_final 2 w 0 p ltac:(lia) Hw Hp) as C. unfold pixel_samples in C at 1. rewrite Nat.mul_0_r in C. cbn [seq map] in C. rewrite C. reflexivity. }
    destruct (fields2_ok G m (n + 1) H (3 * w) l lj) as (o & E & L & HO); [lia|nia|lia| |lia|].
    { assert ((n + 1) * G = w) by lia. replace ((n + 1) * H * G) with (w * H) by nia. nia. }
    rewrite E. cbn [bind]. assert (o = pixel_samples p w (2 * H)) as ->.
    { unfold p. rewrite <- px_samples. apply cells_samples; auto. intros r0 c Hr Hc. rewrite HO by auto. replace (c <? (n + 1) * (3 * G)) with true by lia. reflexivity. }
    rewrite convert_final by (auto; lia). reflexivity.
  Qed.
End Sraw.
Lemma black i sv w h p : sr_wb i = None -> 1 <= sv <= 2 -> 0 < w -> fifteen_bits p w h -> convert_to_rgb i 2 sv (3 * w) (pixel_samples p w h) = Ok (repeat 0%Z (3 * w * h)).
Proof.
  intros E Hv Hw Hp. destruct (hue_spec (sr_model i) (sr_fw i) 2 sv) as [Eh R]; [lia|auto|].
  rewrite (convert_px i 2 sv w h p _ Hw Hp Eh R); rewrite E; [|cbn; lia]. f_equal. symmetry. apply px_ext; [now rewrite repeat_length|]. intros. rewrite nth_repeat.
  unfold developed. cbn [sraw_factors]. destruct (rgb_of _ _ _ _ _) as [[? ?] ?]. destruct ch as [|[|]]; rewrite Z.mul_0_l; reflexivity.
Qed.

(** ** What goes wrong *)
Lemma for_each_panics {A S} (P : S -> Prop) (f : A -> S -> res S) x l : (forall a s, P s -> f a s = Panic \/ exists s', f a s = Ok s' /\ P s') -> In x l -> (forall s, P s -> f x s = Panic) ->
  forall s, P s -> for_each l f s = Panic.
Proof.
  intros HP. induction l as [|a l IH]; intros Hi Hx s Hs; [destruct Hi|]. cbn [for_each]. destruct Hi as [->|Hi]; [now rewrite Hx|].
  destruct (HP a s Hs) as [->|(s' & -> & Hs')]; [reflexivity|]. cbn [bind]. now apply IH.
Qed.
Lemma for_each_either {A S} (P : S -> Prop) (f : A -> S -> res S) l : (forall a s, P s -> f a s = Panic \/ exists s', f a s = Ok s' /\ P s') ->
  forall s, P s -> for_each l f s = Panic \/ exists s', for_each l f s = Ok s' /\ P s'.
Proof.
  intros HP. induction l as [|a l IH]; intros s Hs; [right; exists s; auto|]. cbn [for_each]. destruct (HP a s Hs) as [->|(s' & -> & Hs')]; [now left|]. cbn [bind]. now apply IH.
Qed.
Lemma copy_in_either d dp s sp n : copy_in d dp s sp n = Panic \/ exists d', copy_in d dp s sp n = Ok d' /\ length d' = length d /\ dp + n <= length d.
Proof.
  unfold copy_in, slice. destruct (_ && _) eqn:B; [|now left]. cbn [bind]. destruct (Nat.leb_spec (dp + n) (length d)); [|now left]. right. eexists. split; [reflexivity|]. split; [|auto].
  rewrite !app_length, firstn_length, !skipn_length, firstn_length, skipn_length. lia.
Qed.
Lemma pairs_odd lj n w1 ljw w h : 0 < w1 -> h mod 2 = 1 -> 0 < n -> cr2_fields2 n w1 ljw w h lj (repeat 0%Z (w * h)) = Panic.
Proof.
  intros Hw Hh Hn. unfold cr2_fields2.
  match goal with |- context [for_each (seq 0 n) ?F ?S0] => assert (X : for_each (seq 0 n) F S0 = Panic); [|rewrite X; reflexivity] end.
  set (P2 := fun st : nat * list Z => length (snd st) = w * h). pose proof (Nat.div_mod h 2 ltac:(lia)) as D. rewrite Hh in D.
  assert (B : forall row fs col st, P2 st -> (let '(inpos, out) := st in
        do out <- copy_in out (row * w + fs + col) lj inpos 3;
        do out <- copy_in out ((row + 1) * w + fs + col) lj (inpos + ljw) 3;
        let inpos := (inpos + 3)%nat in
        do _ <- assert_ (negb (ljw =? 0)%nat);
        Ok (if (inpos mod ljw =? 0)%nat then (inpos + ljw)%nat else inpos, out)) = Panic \/ exists st', (let '(inpos, out) := st in
        do out <- copy_in out (row * w + fs + col) lj inpos 3;
        do out <- copy_in out ((row + 1) * w + fs + col) lj (inpos + ljw) 3;
        let inpos := (inpos + 3)%nat in
        do _ <- assert_ (negb (ljw =? 0)%nat);
        Ok (if (inpos mod ljw =? 0)%nat then (inpos + ljw)%nat else inpos, out)) = Ok st' /\ P2 st' /\ row + 1 < h).
  { intros row fs col [ip o] Ho. unfold P2 in *. cbn [snd] in Ho. destruct (copy_in_either o (row * w + fs + col) lj ip 3) as [->|(o1 & -> & L1 & _)]; [now left|]. cbn [bind].
    destruct (copy_in_either o1 ((row + 1) * w + fs + col) lj (ip + ljw) 3) as [->|(o2 & -> & L2 & G2)]; [now left|]. cbn [bind].
    destruct (negb (ljw =? 0)); [|now left]. cbn [assert_ bind]. right. eexists. split; [reflexivity|]. cbn [snd]. split; [lia|].
    destruct (Nat.lt_ge_cases (row + 1) h); [auto|]. assert (w * h <= (row + 1) * w) by (rewrite Nat.mul_comm; apply Nat.mul_le_mono_r; lia). lia. }
  assert (RowP : forall fs st, P2 st -> for_each (step_range 0 h 2) (fun row '(inpos, out) =>
      for_each (step_range 0 w1 3) (fun col '(inpos, out) =>
        do out <- copy_in out (row * w + fs + col) lj inpos 3;
        do out <- copy_in out ((row + 1) * w + fs + col) lj (inpos + ljw) 3;
        let inpos := (inpos + 3)%nat in
        do _ <- assert_ (negb (ljw =? 0)%nat);
        Ok (if (inpos mod ljw =? 0)%nat then (inpos + ljw)%nat else inpos, out)) (inpos, out)) st = Panic).
  { intros fs st Hst. apply (for_each_panics P2 _ (h - 1)); auto.
    - intros row [ip o] Ho. apply (for_each_either P2); auto. intros col s Hs. destruct (B row fs col s Hs) as [->|(s' & -> & K & _)]; [now left|right; eauto].
    - apply step_in; [lia|]. split; [lia|]. replace (h - 1 - 0) with (h / 2 * 2) by lia. apply Nat.mod_mul. lia.
    - intros [ip o] Ho. apply (for_each_panics P2 _ 0); auto.
      + intros col s Hs. destruct (B (h - 1) fs col s Hs) as [->|(s' & -> & K & _)]; [now left|right; eauto].
      + apply step_in; [lia|]. split; [lia|]. rewrite Nat.sub_0_r. apply Nat.mod_0_l. lia.
      + intros s Hs. destruct (B (h - 1) fs 0 s Hs) as [->|(s' & _ & _ & K)]; [reflexivity|lia]. }
  destruct n as [|n]; [lia|]. cbn [seq for_each]. rewrite RowP; [reflexivity|]. unfold P2. cbn [snd]. apply repeat_length.
Qed.
Lemma fields_wide fws w h lj : 0 < h -> w < list_sum fws -> cr2_fields1 fws 1 1 w h lj (repeat 0%Z (w * h)) = Panic.
Proof.
  intros Hh. unfold cr2_fields1. 
  match goal with |- context [for_each fws ?F ?S0] => assert (X : forall fws st ps out, length out = w * h -> st <= w -> w < st + list_sum fws -> for_each fws F (st, ps, out) = Panic) end.
  { clear fws. induction fws as [|f fws IH]; intros st ps out L Hs Hw; cbn [list_sum fold_right] in Hw; [lia|]. change (fold_right Nat.add 0 fws) with (list_sum fws) in Hw.
    cbn [for_each Nat.eqb negb assert_ bind]. rewrite Nat.div_1_r, Nat.mul_1_r.
    assert (B : forall row o, length o = w * h -> copy_in o (row * w + st) lj (ps + row * f) f = Panic \/ exists o', copy_in o (row * w + st) lj (ps + row * f) f = Ok o' /\ length o' = w * h).
    { intros row o Lo. destruct (copy_in_either o (row * w + st) lj (ps + row * f) f) as [->|(o' & -> & L' & _)]; [now left|right; exists o'; split; [auto|lia]]. }
    destruct (Nat.lt_ge_cases w (st + f)) as [A|A].
    - rewrite (for_each_panics (fun o => length o = w * h) _ (h - 1)); [reflexivity|exact B|apply in_seq; lia| |auto].
      intros o Lo. destruct (copy_in_either o ((h - 1) * w + st) lj (ps + (h - 1) * f) f) as [->|(o' & _ & _ & K)]; [reflexivity|].
      assert ((h - 1) * w + w = w * h) by (rewrite Nat.mul_sub_distr_r; assert (1 * w <= h * w) by (apply Nat.mul_le_mono_r; lia); lia). lia.
    - destruct (for_each_either (fun o => length o = w * h) (fun row o => copy_in o (row * w + st) lj (ps + row * f) f) (seq 0 h) B out L) as [E|(o' & E & L')]; rewrite E; [reflexivity|].
      cbn [bind]. apply IH; auto; lia. }
  intros Hw. rewrite X; [reflexivity|apply repeat_length|lia|lia].
Qed.

(** ** Linearization *)
Lemma dither_all_row t l rand : dither_all t l rand = dither_row t l rand.
Proof. revert rand. induction l as [|p l IH]; intros rand; [reflexivity|]. cbn [dither_all dither_row]. destruct (dither t p rand) as [[v r]| |]; cbn [bind fst snd]; auto. now rewrite IH. Qed.
Lemma linearize_ok t l : lut_ok t -> l <> [] -> Forall is_u16 l -> Forall (fun p => 0 <= p < Z.of_nat (length t))%Z l ->
  exists out, linearize t l = Ok out /\ Forall2 (fun v p => is_u16 p /\
      let c := nth (Z.to_nat v) t 0%Z in let d := step_of t (Z.to_nat v) in
      (c <> 0 -> Z.abs (p - c) <= (d + 2) / 4)%Z /\ (c = 0 -> 2 * p <= d)%Z) l out.
Proof.
  intros HT Hne H16 HR. unfold linearize. destruct l as [|a l]; [congruence|].
  destruct (dither_row_top t (a :: l) a HT HR) as (lt & out & E & Eo & HO); [inversion H16; subst; unfold is_u16, is_u32 in *; lia|].
  rewrite E. cbn [bind get nth_error]. rewrite dither_all_row, Eo. eauto.
Qed.
Lemma linearize_empty t : linearize t [] <> Err -> linearize t [] = Panic.
Proof. unfold linearize. destruct (lut_new t); cbn; congruence. Qed.

(** ** Lower rows *)
Definition steps : pixels := fun r x ch => if (ch =? 0)%nat then 1000%Z else (16000 + Z.of_nat (100 * (r / 2)))%Z.
Lemma lower_lost : exists p, fifteen_bits p 2 6 /\ interpolate_yuv 2 2 6 (pixel_samples p 2 6) <> Ok (pixel_samples (down lower 6 (across 2 p)) 2 6) /\
  interpolate_yuv 2 2 6 (pixel_samples p 2 6) <> Ok (pixel_samples p 2 6) /\
  completed 2 2 2 6 p 4 0 1 <> p 4 0 1.
Proof.
  exists steps. split; [|split; [|split]].
  - intros r x ch Hr Hx Hc. unfold steps. destruct r as [|[|[|[|[|[|]]]]]], ch as [|[|[|]]]; cbn; lia.
  - vm_compute. congruence.
  - vm_compute. congruence.
  - vm_compute. congruence.
Qed.
