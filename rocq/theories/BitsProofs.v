(** Proofs about float widening, lookup tables, rationals and the deflate
    predictor. *)
From Coq Require Import List ZArith Lia Bool.
From Verif Require Import Base BaseLemmas Bits BitsSpec.
Import ListNotations.
Open Scope Z_scope.

(** ** Floats *)

Lemma land_mask a n : 0 <= n -> Z.land a (2 ^ n - 1) = a mod 2 ^ n.
Proof. intros. rewrite <- Z.land_ones by lia. rewrite Z.ones_equiv. f_equal. Qed.

Lemma land_bit f n : 0 <= n -> 0 <= f < 2 ^ (n + 1) -> (Z.land f (2 ^ n) =? 0) = (f <? 2 ^ n).
Proof.
  intros Hn Hf. assert (Ht : Z.testbit f n = negb (f <? 2 ^ n)).
  { destruct (Z.ltb_spec f (2 ^ n)) as [H|H]; cbn [negb].
    - destruct (Z.eq_dec f 0) as [->|]; [apply Z.bits_0|]. apply Z.bits_above_log2; [lia|]. apply Z.log2_lt_pow2; lia.
    - rewrite Z.testbit_true by lia. replace (f / 2 ^ n) with 1; [reflexivity|].
      assert (0 < 2 ^ n) by (apply Z.pow_pos_nonneg; lia).
      apply Z.div_unique with (r := f - 2 ^ n); [|lia]. left. rewrite Z.pow_add_r in Hf by lia. lia. }
  destruct (f <? 2 ^ n); cbn [negb] in Ht.
  - apply Z.eqb_eq. apply Z.bits_inj'. intros k Hk. rewrite Z.land_spec, Z.pow2_bits_eqb, Z.bits_0 by lia.
    destruct (Z.eqb_spec n k) as [<-|]; [rewrite Ht|]; auto using andb_false_r.
  - apply Z.eqb_neq. intros E. assert (X : Z.testbit (Z.land f (2 ^ n)) n = false) by now rewrite E, Z.bits_0.
    rewrite Z.land_spec, Z.pow2_bits_eqb, Z.eqb_refl, Ht in X by lia. discriminate.
Qed.

(** shifting up to the implicit bit *)
Lemma norm_ok fuel : forall e f, 0 < f < 2 ^ 24 -> 2 ^ 23 <= f * 2 ^ Z.of_nat fuel -> Z.of_nat fuel <= e ->
  exists j, norm_loop fuel e f = Ok (e - j, f * 2 ^ j) /\ 0 <= j <= Z.of_nat fuel /\ 2 ^ 23 <= f * 2 ^ j < 2 ^ 24.
Proof.
  induction fuel as [|fuel IH]; intros e f Hf HF He.
  - exists 0. cbn [norm_loop]. rewrite (land_bit f 23) by lia. cbn in HF. destruct (Z.ltb_spec f (2 ^ 23)); [lia|].
    rewrite Z.sub_0_r, Z.mul_1_r. split; auto. lia.
  - cbn [norm_loop]. rewrite (land_bit f 23) by lia. destruct (Z.ltb_spec f (2 ^ 23)) as [Hlt|Hge].
    + destruct (Z.eqb_spec e 0); [lia|]. unfold wrap_u32. rewrite Z.mod_small by lia.
      destruct (IH (e - 1) (2 * f)) as (j & E & Hj & HJ); [lia| |lia|].
      { rewrite pow2_S in HF. lia. }
      exists (j + 1). rewrite E. assert (2 ^ (j + 1) = 2 * 2 ^ j) by (rewrite Z.pow_add_r by lia; lia).
      split; [f_equal; f_equal; [lia|rewrite H; ring]|]. split; [lia|]. rewrite H. lia.
    + exists 0. rewrite Z.sub_0_r, Z.mul_1_r. split; auto. lia.
Qed.

(** fewer steps than fuel *)
Lemma norm_mono fuel : forall e f r, norm_loop fuel e f = Ok r -> norm_loop (S fuel) e f = Ok r.
Proof.
  induction fuel as [|fuel IH]; intros e f r; cbn [norm_loop].
  - destruct (Z.land f (2 ^ 23) =? 0); [discriminate|auto].
  - destruct (Z.land f (2 ^ 23) =? 0); [|auto]. destruct (e =? 0); [discriminate|]. intros H. now apply IH in H.
Qed.
Lemma norm_more n fuel e f r : norm_loop fuel e f = Ok r -> norm_loop (n + fuel) e f = Ok r.
Proof. induction n; auto. intros H. apply (norm_mono (n + fuel)). auto. Qed.

(** fields of a pattern put together from its parts *)
Lemma fields s e f : 0 <= s < 2 -> 0 <= e < 256 -> 0 <= f < 2 ^ 23 ->
  let r := s * 2 ^ 31 + e * 2 ^ 23 + f in
  0 <= r < 2 ^ 32 /\ fsign 23 8 r = s /\ fexp 23 8 r = e /\ ffrac 23 r = f.
Proof.
  intros Hs He Hf r. unfold fsign, fexp, ffrac. split; [unfold r; lia|]. change (2 ^ (23 + 8)) with (2 ^ 31).
  assert (r / 2 ^ 31 = s) by (symmetry; apply Z.div_unique with (r := e * 2 ^ 23 + f); [left|unfold r]; lia).
  assert (r / 2 ^ 23 = s * 256 + e) by (symmetry; apply Z.div_unique with (r := f); [left|unfold r]; lia).
  split; [rewrite H; apply Z.mod_small; auto|]. split.
  - rewrite H0. change (2 ^ 8) with 256. rewrite Z.add_comm, Z.mod_add by lia. now apply Z.mod_small.
  - symmetry. apply Z.mod_unique with (q := s * 256 + e); [left|unfold r]; lia.
Qed.

Lemma lor3 s e f : 0 <= s < 2 -> 0 <= e < 256 -> 0 <= f < 2 ^ 23 ->
  Z.lor (Z.lor (s * 2 ^ 31) (e * 2 ^ 23)) f = s * 2 ^ 31 + e * 2 ^ 23 + f.
Proof.
  intros Hs He Hf. change (2 ^ 31) with (2 ^ Z.of_nat 31).
  rewrite (lor_add_disjoint s (e * 2 ^ 23) 31) by (change (2 ^ Z.of_nat 31) with (2 ^ 31); lia).
  change (2 ^ Z.of_nat 31) with (2 ^ 31). replace (s * 2 ^ 31 + e * 2 ^ 23) with ((s * 256 + e) * 2 ^ Z.of_nat 23)
    by (change (2 ^ Z.of_nat 23) with (2 ^ 23); lia).
  rewrite lor_add_disjoint by auto. change (2 ^ Z.of_nat 23) with (2 ^ 23). lia.
Qed.

(** formats that fit: every subnormal of the narrow format is normal in f32 *)
Definition fits32 (fw ew : Z) : Prop := 0 < fw <= 23 /\ 2 <= ew <= 8 /\ fbias ew + fw <= 127.

Lemma extend_ok fw ew v : fits32 fw ew -> 0 <= v < 2 ^ (1 + fw + ew) ->
  exists r, extend fw ew v = Ok r /\ 0 <= r < 2 ^ 32 /\ fsign 23 8 r = fsign fw ew v /\
    classify 23 8 r = classify fw ew v /\
    (classify fw ew v = Finite -> scaled 23 8 r = scaled fw ew v) /\
    (classify fw ew v = NotANumber -> ffrac 23 r = ffrac fw v * 2 ^ (23 - fw)).
Proof.
  intros (Hfw & Hew & Hb) Hv. unfold extend. rewrite !land_mask by lia.
  set (s := fsign fw ew v). set (e := fexp fw ew v). set (f := ffrac fw v).
  change ((v / 2 ^ (fw + ew)) mod 2) with s. change ((v / 2 ^ fw) mod 2 ^ ew) with e. change (v mod 2 ^ fw) with f.
  change (2 ^ (ew - 1) - 1) with (fbias ew).
  assert (P1 : 0 < 2 ^ fw) by (apply Z.pow_pos_nonneg; lia).
  assert (P2 : 0 < 2 ^ (23 - fw)) by (apply Z.pow_pos_nonneg; lia).
  assert (P3 : 2 ^ fw * 2 ^ (23 - fw) = 2 ^ 23) by (rewrite <- Z.pow_add_r by lia; f_equal; lia).
  assert (P4 : 2 ^ ew = 2 * fbias ew + 2) by (unfold fbias; replace ew with (ew - 1 + 1) at 1 by lia; rewrite Z.pow_add_r by lia; lia).
  assert (Hs : 0 <= s < 2) by (apply Z.mod_pos_bound; lia).
  assert (He : 0 <= e < 2 ^ ew) by (apply Z.mod_pos_bound; lia).
  assert (Hf : 0 <= f < 2 ^ fw) by (apply Z.mod_pos_bound; lia).
  assert (B1 : 1 <= fbias ew).
  { unfold fbias. assert (2 ^ 1 <= 2 ^ (ew - 1)) by (apply Z.pow_le_mono_r; lia). lia. }
  set (wf := f * 2 ^ (23 - fw)). assert (Hwf : 0 <= wf < 2 ^ 23) by (unfold wf; nia).
  (* closing each case *)
  assert (Done : forall E F, 0 <= E < 256 -> 0 <= F < 2 ^ 23 ->
    classify 23 8 (s * 2 ^ 31 + E * 2 ^ 23 + F) = classify fw ew v ->
    (classify fw ew v = Finite ->
      (if E =? 0 then F else 2 ^ 23 + F) * 2 ^ (Z.max E 1 - 127 - 23 + 149) =
      (if e =? 0 then f else 2 ^ fw + f) * 2 ^ (Z.max e 1 - fbias ew - fw + 149)) ->
    (classify fw ew v = NotANumber -> F = f * 2 ^ (23 - fw)) ->
    exists r, Ok (Z.lor (Z.lor (s * 2 ^ 31) (E * 2 ^ 23)) F) = Ok r /\ 0 <= r < 2 ^ 32 /\ fsign 23 8 r = s /\
      classify 23 8 r = classify fw ew v /\ (classify fw ew v = Finite -> scaled 23 8 r = scaled fw ew v) /\
      (classify fw ew v = NotANumber -> ffrac 23 r = f * 2 ^ (23 - fw))).
  { intros E F HE HF HC HV HN. rewrite lor3 by auto. destruct (fields s E F Hs HE HF) as (HR & F1 & F2 & F3).
    eexists. split; [reflexivity|]. split; [auto|]. split; [auto|]. split; [auto|]. split.
    - intros HFin. unfold scaled, magnitude. rewrite F1, F2, F3. fold s e f. cbv zeta. change (fbias 8) with 127.
      now rewrite (HV HFin).
    - rewrite F3. auto. }
  destruct (Z.eqb_spec e (2 ^ ew - 1)) as [Ei|Ei].
  - (* infinity or NaN *)
    cbn [bind fst snd]. apply Done; auto; try lia.
    + unfold classify. destruct (fields s 255 wf Hs ltac:(lia) Hwf) as (_ & _ & F2 & F3). rewrite F2, F3.
      change (255 =? 2 ^ 8 - 1) with true. fold e f. rewrite Ei, Z.eqb_refl.
      destruct (Z.eqb_spec f 0) as [E0|E0].
      * unfold wf. rewrite E0. reflexivity.
      * destruct (Z.eqb_spec wf 0); auto. unfold wf in *. nia.
    + unfold classify. fold e. rewrite Ei, Z.eqb_refl. destruct (ffrac fw v =? 0); discriminate.
  - assert (HC : classify fw ew v = Finite).
    { unfold classify. fold e. destruct (Z.eqb_spec e (2 ^ ew - 1)); [easy|auto]. }
    assert (HC' : forall E F, 0 <= E < 255 -> 0 <= F < 2 ^ 23 -> classify 23 8 (s * 2 ^ 31 + E * 2 ^ 23 + F) = classify fw ew v).
    { intros E F HE HF. rewrite HC. unfold classify. destruct (fields s E F Hs ltac:(lia) HF) as (_ & _ & F2 & _). rewrite F2.
      destruct (Z.eqb_spec E (2 ^ 8 - 1)); auto. lia. }
    destruct (Z.eqb_spec e 0) as [E0|E0].
    + destruct (Z.eqb_spec f 0) as [F0|F0].
      * cbn [bind fst snd]. apply Done; try lia; [apply HC'; lia|].
        intros _. rewrite E0, F0. cbn [Z.eqb]. lia.
      * (* subnormal *)
        destruct (norm_ok (Z.to_nat fw) (1 - fbias ew + 127) wf) as (j & En & Hj & HJ).
        -- assert (0 < wf) by (unfold wf; nia). lia.
        -- rewrite Z2Nat.id by lia. unfold wf. rewrite <- Z.mul_assoc, (Z.mul_comm (2 ^ (23 - fw))), P3. nia.
        -- rewrite Z2Nat.id by lia. lia.
        -- rewrite Z2Nat.id in Hj by lia.
           assert (E32 : norm_loop 32 (1 - fbias ew + 127) wf = Ok (1 - fbias ew + 127 - j, wf * 2 ^ j)).
           { replace 32%nat with (32 - Z.to_nat fw + Z.to_nat fw)%nat by lia. now apply norm_more. }
           rewrite E32. cbn [bind fst snd]. rewrite land_mask by lia.
           assert (EM : (wf * 2 ^ j) mod 2 ^ 23 = wf * 2 ^ j - 2 ^ 23)
             by (symmetry; apply Z.mod_unique with (q := 1); [left|]; lia).
           rewrite EM. apply Done; try lia.
           ++ apply HC'; lia.
           ++ intros _. destruct (Z.eqb_spec (1 - fbias ew + 127 - j) 0); [lia|].
              destruct (Z.eqb_spec e 0); [|lia]. rewrite E0. rewrite (Z.max_l (1 - fbias ew + 127 - j) 1) by lia. change (Z.max 0 1) with 1.
              replace (2 ^ 23 + (wf * 2 ^ j - 2 ^ 23)) with (f * (2 ^ (23 - fw) * 2 ^ j)) by (unfold wf; ring).
              rewrite <- Z.pow_add_r by lia. rewrite <- Z.mul_assoc, <- Z.pow_add_r by lia. f_equal. f_equal. lia.
           ++ rewrite HC; discriminate.
    + (* normal *)
      cbn [bind fst snd]. apply Done; auto; try lia; [apply HC'; lia|].
      intros _. destruct (Z.eqb_spec (e - fbias ew + 127) 0); [lia|]. destruct (Z.eqb_spec e 0); [lia|].
      rewrite !Z.max_l by lia.
      replace (2 ^ 23 + wf) with ((2 ^ fw + f) * 2 ^ (23 - fw)) by (unfold wf; rewrite Z.mul_add_distr_r, P3; auto).
      rewrite <- Z.mul_assoc, <- Z.pow_add_r by lia. f_equal. f_equal. lia.
Qed.

Lemma extend_16 : fits32 10 5. Proof. unfold fits32, fbias. cbn. lia. Qed.
Lemma extend_24 : fits32 16 7. Proof. unfold fits32, fbias. cbn. lia. Qed.

(** f32 patterns that are not subnormal are kept *)
Lemma extend_32 v : 0 <= v < 2 ^ 32 -> ~ subnormal 23 8 v -> extend 23 8 v = Ok v.
Proof.
  intros Hv HS. unfold extend. rewrite !land_mask by lia.
  set (s := (v / 2 ^ (23 + 8)) mod 2). set (e := (v / 2 ^ 23) mod 2 ^ 8). set (f := v mod 2 ^ 23).
  assert (Hs : 0 <= s < 2) by (apply Z.mod_pos_bound; lia).
  assert (He : 0 <= e < 256) by (apply (Z.mod_pos_bound _ (2 ^ 8)); lia).
  assert (Hf : 0 <= f < 2 ^ 23) by (apply Z.mod_pos_bound; lia).
  assert (Ev : s * 2 ^ 31 + e * 2 ^ 23 + f = v).
  { unfold s, e, f. pose proof (Z.div_mod v (2 ^ 23) ltac:(lia)) as D1.
    pose proof (Z.div_mod (v / 2 ^ 23) (2 ^ 8) ltac:(lia)) as D2.
    rewrite Z.div_div in D2 by lia. change (2 ^ 23 * 2 ^ 8) with (2 ^ 31) in D2. change (2 ^ (23 + 8)) with (2 ^ 31).
    rewrite (Z.mod_small (v / 2 ^ 31) 2); [lia|]. split; [apply Z.div_pos; lia|]. apply Z.div_lt_upper_bound; lia. }
  change (2 ^ (8 - 1) - 1) with 127. change (2 ^ (23 - 23)) with 1. rewrite Z.mul_1_r. change (2 ^ 8 - 1) with 255.
  destruct (Z.eqb_spec e 255) as [E1|E1]; [cbn [bind fst snd]; rewrite <- E1, lor3 by auto; now rewrite Ev|].
  destruct (Z.eqb_spec e 0) as [E0|E0].
  - destruct (Z.eqb_spec f 0) as [F0|F0].
    + cbn [bind fst snd]. rewrite lor3 by lia. f_equal. lia.
    + exfalso. apply HS. split; auto.
  - cbn [bind fst snd]. replace (e - 127 + 127) with e by lia. rewrite lor3 by auto. now rewrite Ev.
Qed.

(** ** Lookup tables *)

Lemma lut_entry_ok t i : lut_ok t -> (i < length t)%nat ->
  lut_entry t i = Ok (nth i t 0, if nth i t 0 =? 0 then 0 else nth i t 0 - (step_of t i + 2) / 4, step_of t i).
Proof.
  intros [_ HT] Hi. destruct (HT i Hi) as (H1 & H2 & H3). unfold lut_entry. rewrite (get_ok t i 0) by auto. cbn [bind].
  assert (HL : (if (0 <? i)%nat then get t (i - 1) else Ok (nth i t 0)) = Ok (lower_of t i)).
  { unfold lower_of. destruct (0 <? i)%nat; auto. now rewrite (get_ok t _ 0) by lia. }
  assert (HU : (if (i <? length t - 1)%nat then get t (i + 1) else Ok (nth i t 0)) = Ok (upper_of t i)).
  { unfold upper_of. destruct (Nat.ltb_spec i (length t - 1)); auto. now rewrite (get_ok t _ 0) by lia. }
  rewrite HL. cbn [bind]. rewrite HU. cbn [bind]. unfold step_of in *.
  assert (HS : sub16 (upper_of t i) (lower_of t i) = Ok (upper_of t i - lower_of t i)).
  { unfold sub16. destruct (Z.leb_spec (lower_of t i) (upper_of t i)); auto; lia. }
  rewrite HS. destruct (Z.eqb_spec (nth i t 0) 0) as [E|E]; cbn [bind]; auto.
  assert (HA : add16 (upper_of t i - lower_of t i) 2 = Ok (upper_of t i - lower_of t i + 2)).
  { unfold add16. destruct (Z.ltb_spec (upper_of t i - lower_of t i + 2) (2 ^ 16)); auto; lia. }
  rewrite HA. cbn [bind]. unfold sub16.
  destruct (Z.leb_spec ((upper_of t i - lower_of t i + 2) / 4) (nth i t 0)); [reflexivity|].
  specialize (H2 E). lia.
Qed.

Lemma lut_new_ok t : lut_ok t -> exists l, lut_new t = Ok l /\ length l = length t /\
  forall i, (i < length t)%nat -> nth i l (0, 0, 0) =
    (nth i t 0, if nth i t 0 =? 0 then 0 else nth i t 0 - (step_of t i + 2) / 4, step_of t i).
Proof.
  intros HT. unfold lut_new.
  destruct (for_each_seq_inv (fun i l => do e <- lut_entry t i; put l i e)
    (fun i l => length l = length t /\ forall j, (j < i)%nat -> nth j l (0, 0, 0) =
      (nth j t 0, if nth j t 0 =? 0 then 0 else nth j t 0 - (step_of t j + 2) / 4, step_of t j))
    0 (length t) (repeat (0, 0, 0) (length t))) as (l & E & HL & HV).
  - split; [apply repeat_length|]. intros j Hj. inversion Hj.
  - intros i l Hi (HL & HV). rewrite lut_entry_ok by (auto; lia). cbn [bind]. rewrite put_ok by lia.
    eexists. split; [reflexivity|]. split; [now rewrite upd_list_length|]. intros j Hj. rewrite nth_upd by lia.
    destruct (Nat.eqb_spec i j) as [->|]; auto. apply HV. lia.
  - exists l. split; auto.
Qed.

Lemma dither_ok t l v rand : lut_ok t -> lut_new t = Ok l -> 0 <= v < Z.of_nat (length t) -> is_u32 rand ->
  exists p r, dither l v rand = Ok (p, r) /\ is_u16 p /\ is_u32 r /\
    let c := nth (Z.to_nat v) t 0 in let d := step_of t (Z.to_nat v) in
    (c <> 0 -> Z.abs (p - c) <= (d + 2) / 4) /\ (c = 0 -> 2 * p <= d).
Proof.
  intros HT EL Hv Hr. destruct (lut_new_ok t HT) as (l' & EL' & HL & HV). rewrite EL in EL'. injection EL' as <-.
  assert (Hi : (Z.to_nat v < length t)%nat) by lia. set (i := Z.to_nat v) in *.
  destruct HT as [HF HT]. destruct (HT i Hi) as (H1 & H2 & H3). specialize (HV i Hi).
  assert (HC : is_u16 (nth i t 0)) by (rewrite Forall_forall in HF; apply HF, nth_In; auto).
  unfold dither. fold i. rewrite (get_ok l i (0, 0, 0)) by lia. rewrite HV. cbn [bind]. cbv zeta.
  set (c := nth i t 0) in *. set (d := step_of t i) in *. unfold is_u32, is_u16 in *.
  pose proof (Z.mod_pos_bound rand 2048 ltac:(lia)) as HM. set (m := rand mod 2048) in *.
  pose proof (Z.mod_pos_bound rand 65536 ltac:(lia)) as HM2.
  assert (HD2 : 0 <= rand / 65536 < 65536) by (split; [apply Z.div_pos; lia|apply Z.div_lt_upper_bound; lia]).
  assert (Hm : 0 <= d * m <= d * 2047) by nia.
  destruct (Z.ltb_spec (d * m + 1024) (2 ^ 32)); [|lia]. cbn [assert_ bind].
  destruct (Z.ltb_spec (15700 * (rand mod 65536) + rand / 65536) (2 ^ 32)); [|lia]. cbn [assert_ bind].
  eexists _, _. split; [reflexivity|].
  assert (T1 : 0 <= (d * m + 1024) / 4096 <= (d * 2047 + 1024) / 4096).
  { split; [apply Z.div_pos; lia|]. apply Z.div_le_mono; lia. }
  assert (T2 : (d * 2047 + 1024) / 4096 <= 2 * ((d + 2) / 4)).
  { pose proof (Z.div_mod (d + 2) 4 ltac:(lia)). pose proof (Z.mod_pos_bound (d + 2) 4 ltac:(lia)).
    assert ((d * 2047 + 1024) / 4096 < 2 * ((d + 2) / 4) + 1); [|lia]. apply Z.div_lt_upper_bound; lia. }
  assert (T3 : 2 * ((d * 2047 + 1024) / 4096) <= d).
  { assert ((d * 2047 + 1024) / 4096 < d / 2 + 1); [|pose proof (Z.mul_div_le d 2 ltac:(lia)); lia].
    pose proof (Z.div_mod d 2 ltac:(lia)). pose proof (Z.mod_pos_bound d 2 ltac:(lia)). apply Z.div_lt_upper_bound; lia. }
  assert (T4 : 0 <= (d + 2) / 4) by (apply Z.div_pos; lia).
  destruct (Z.eqb_spec c 0) as [Ec|Ec].
  - unfold wrap_u16. rewrite Z.mod_small by lia. repeat split; try lia.
  - specialize (H2 Ec). unfold wrap_u16. rewrite Z.mod_small by lia. repeat split; try lia.
Qed.

(** a whole row stays within the table *)
Lemma dither_row_ok t l : lut_ok t -> lut_new t = Ok l -> forall row rand, Forall (fun p => 0 <= p < Z.of_nat (length t)) row ->
  is_u32 rand -> exists out, dither_row l row rand = Ok out /\ Forall2 (fun v p =>
    is_u16 p /\ let c := nth (Z.to_nat v) t 0 in let d := step_of t (Z.to_nat v) in
    (c <> 0 -> Z.abs (p - c) <= (d + 2) / 4) /\ (c = 0 -> 2 * p <= d)) row out.
Proof.
  intros HT EL. induction row as [|v row IH]; intros rand HF Hr; cbn [dither_row].
  - exists []. split; auto.
  - inversion HF; subst. destruct (dither_ok t l v rand HT EL H1 Hr) as (p & r & E & Hp & Hr' & HB). rewrite E. cbn [bind fst snd].
    destruct (IH r H2 Hr') as (out & Eo & HO). rewrite Eo. cbn [bind]. eexists. split; [reflexivity|]. constructor; auto.
Qed.

Lemma lut_bits_len t bits l : lut_new_bits t bits = Ok l -> (2 ^ bits <= length l)%nat.
Proof.
  unfold lut_new_bits. destruct (length t =? 0)%nat; [discriminate|]. cbn [negb assert_ bind].
  assert (HG : forall t l, lut_new t = Ok l -> length l = length t).
  { clear. intros t l H. unfold lut_new in H.
    assert (X : forall ks s l, for_each ks (fun i t0 => do e <- lut_entry t i; put t0 i e) s = Ok l -> length l = length s).
    { induction ks as [|k ks IH]; intros s l0 E; cbn [for_each] in E; [injection E as <-; auto|].
      destruct (lut_entry t k); try discriminate. cbn [bind] in E. destruct (put s k _) eqn:EP; try discriminate. cbn [bind] in E.
      apply put_inv in EP. destruct EP as [_ ->]. apply IH in E. now rewrite upd_list_length in E. }
    apply X in H. now rewrite repeat_length in H. }
  destruct (Nat.leb_spec (2 ^ bits) (length t)); intros E; apply HG in E; [lia|].
  rewrite app_length, repeat_length in E. lia.
Qed.

(** ** Clamping *)

Lemma clampbits_ok v b : 0 <= b <= 16 -> clampbits v b = Z.max 0 (Z.min v (2 ^ b - 1)).
Proof.
  intros Hb. unfold clampbits, wrap_u16. assert (1 <= 2 ^ b <= 2 ^ 16).
  { split; [|apply Z.pow_le_mono_r; lia]. assert (0 < 2 ^ b) by (apply Z.pow_pos_nonneg; lia). lia. }
  destruct (Z.ltb_spec v 0); [lia|]. destruct (Z.ltb_spec (2 ^ b - 1) v); rewrite Z.mod_small by lia; lia.
Qed.

Lemma log2_loop_ok fuel : forall s b, 0 <= s < 2 ^ Z.of_nat fuel -> (0 < fuel)%nat ->
  exists k, log2_loop fuel s b = Ok (b + k)%nat /\ (1 <= k)%nat /\ s < 2 ^ Z.of_nat k /\ ((1 < k)%nat -> 2 ^ (Z.of_nat k - 1) <= s).
Proof.
  induction fuel as [|fuel IH]; intros s b Hs Hf; [lia|]. cbn [log2_loop]. cbv zeta.
  rewrite pow2_S in Hs. pose proof (Z.div_mod s 2 ltac:(lia)) as DM. pose proof (Z.mod_pos_bound s 2 ltac:(lia)) as MB.
  destruct (Z.eqb_spec (s / 2) 0) as [E|E].
  - exists 1%nat. replace (b + 1)%nat with (S b) by lia. repeat split; auto; cbn; lia.
  - assert (Hf' : (0 < fuel)%nat) by (destruct fuel; [cbn in Hs; lia|lia]).
    destruct (IH (s / 2) (S b)) as (k & Ek & H1 & H2 & H3); [lia|auto|].
    exists (S k). rewrite Ek. split; [f_equal; lia|]. split; [lia|]. rewrite pow2_S. split; [lia|]. intros _.
    replace (Z.of_nat (S k) - 1) with (Z.of_nat k) by lia.
    destruct (Nat.eq_dec k 1) as [->|]; [cbn; lia|].
    specialize (H3 ltac:(lia)). replace (Z.of_nat k) with (Z.of_nat k - 1 + 1) by lia. rewrite Z.pow_add_r by lia. lia.
Qed.

(** for two or more states log2ceil is the least sufficient number of bits *)
Lemma log2ceil_ok n : 2 <= n < 2 ^ 64 -> exists k, log2ceil n = Ok k /\ n <= 2 ^ Z.of_nat k /\ 2 ^ (Z.of_nat k - 1) < n.
Proof.
  intros Hn. unfold log2ceil. destruct (Z.ltb_spec 0 n); [|lia].
  destruct (log2_loop_ok 64 (n - 1) 0) as (k & E & H1 & H2 & H3); [lia|lia|]. exists k. split; [exact E|]. split; [lia|].
  destruct (Nat.eq_dec k 1) as [->|]; [cbn; lia|]. specialize (H3 ltac:(lia)). lia.
Qed.

(** ** Rationals *)

Lemma u64_small a b : is_u32 a -> is_u32 b -> wrap_u64 (a * b) = a * b.
Proof. unfold is_u32, wrap_u64. intros. apply Z.mod_small. nia. Qed.
Lemma i64_small a b : is_i32 a -> is_i32 b -> wrap_i64 (a * b) = a * b.
Proof. unfold is_i32, wrap_i64. intros. rewrite Z.mod_small; nia. Qed.

Lemma rat_eq_cmp a b : rat_eq a b = match rat_cmp a b with Eq => true | _ => false end.
Proof.
  unfold rat_eq, rat_cmp. destruct (Z.compare_spec (wrap_u64 (r_n a * r_d b)) (wrap_u64 (r_d a * r_n b))); 
  [apply Z.eqb_eq|apply Z.eqb_neq|apply Z.eqb_neq]; lia.
Qed.

Lemma rat_le_trans a b c : rat_valid a -> rat_valid b -> rat_valid c ->
  rat_cmp a b <> Gt -> rat_cmp b c <> Gt -> rat_cmp a c <> Gt.
Proof.
  intros [[A1 A2] A] [[B1 B2] B] [[C1 C2] C]. unfold rat_cmp. rewrite !u64_small by auto. unfold is_u32 in *.
  rewrite <- !Z.leb_gt || idtac. intros H1 H2.
  change (r_n a * r_d b <= r_d a * r_n b) in H1. change (r_n b * r_d c <= r_d b * r_n c) in H2.
  change (r_n a * r_d c <= r_d a * r_n c).
  destruct (Z.eq_dec (r_d b) 0) as [E|E].
  - rewrite E in *. assert (r_d c = 0) by nia. nia.
  - assert (r_n a * r_d c * r_d b <= r_d a * r_n c * r_d b); [|nia].
    assert (r_n a * r_d b * r_d c <= r_d a * r_n b * r_d c) by nia.
    assert (r_d a * (r_n b * r_d c) <= r_d a * (r_d b * r_n c)) by nia. nia.
Qed.

Lemma rat_cmp_sym a b : rat_u32 a -> rat_u32 b -> rat_cmp b a = CompOpp (rat_cmp a b).
Proof.
  intros [A1 A2] [B1 B2]. unfold rat_cmp. rewrite !u64_small by auto. rewrite Z.compare_antisym. f_equal.
  f_equal; ring.
Qed.

(** positive denominators: the order of the fractions *)
Lemma rat_cmp_frac a b : rat_u32 a -> rat_u32 b -> 0 < r_d a -> 0 < r_d b ->
  rat_cmp a b = (r_n a * r_d b ?= r_n b * r_d a).
Proof. intros [A1 A2] [B1 B2] _ _. unfold rat_cmp. rewrite !u64_small by auto. f_equal. ring. Qed.
Lemma srat_cmp_frac a b : rat_i32 a -> rat_i32 b -> 0 < r_d a -> 0 < r_d b ->
  srat_cmp a b = (r_n a * r_d b ?= r_n b * r_d a).
Proof. intros [A1 A2] [B1 B2] _ _. unfold srat_cmp. rewrite !i64_small by auto. f_equal. ring. Qed.

(** ** Deflate predictor *)

(** running sum: byte [i] of the decoded row *)
Lemma delta_ok factor src : (0 < factor)%nat -> exists l, delta_bytes factor src = Ok l /\ length l = length src /\
  (forall i, (i < factor)%nat -> nth i l 0 = nth i src 0) /\
  (forall i, (factor <= i < length src)%nat -> nth i l 0 = wrap_u8 (nth i src 0 + nth (i - factor) l 0)).
Proof.
  intros Hf. unfold delta_bytes.
  destruct (for_each_seq_inv (fun col s => do a <- get s col; do b <- get s (col - factor); put s col (wrap_u8 (a + b)))
    (fun k s => length s = length src /\ (forall i, (i < factor)%nat -> nth i s 0 = nth i src 0) /\
       (forall i, (factor <= i < k)%nat -> nth i s 0 = wrap_u8 (nth i src 0 + nth (i - factor) s 0)) /\
       (forall i, (k <= i)%nat -> nth i s 0 = nth i src 0))
    factor (length src - factor) src) as (l & E & HL & H1 & H2 & H3).
  - repeat split; auto. intros i Hi. lia.
  - intros k s Hk (HL & H1 & H2 & H3). rewrite (get_ok s k 0) by lia. cbn [bind].
    rewrite (get_ok s (k - factor) 0) by lia. cbn [bind]. rewrite put_ok by lia. eexists. split; [reflexivity|].
    split; [now rewrite upd_list_length|]. split; [|split].
    + intros i Hi. rewrite nth_upd_neq by lia. auto.
    + intros i Hi. rewrite (nth_upd_neq s k (i - factor)) by lia. rewrite nth_upd by lia.
      destruct (Nat.eqb_spec k i) as [->|]; [rewrite H3 by lia; auto|]. apply H2. lia.
    + intros i Hi. rewrite nth_upd_neq by lia. apply H3. lia.
  - exists l. split; auto. split; auto. split; auto. intros i Hi. apply H2. lia.
Qed.

Lemma delta_inv factor row : (0 < factor)%nat -> Forall is_byte row -> delta_bytes factor (delta_enc factor row) = Ok row.
Proof.
  intros Hf HB. destruct (delta_ok factor (delta_enc factor row) Hf) as (l & E & HL & H1 & H2). rewrite E. f_equal.
  assert (HLE : length (delta_enc factor row) = length row) by (unfold delta_enc; now rewrite map_length, seq_length).
  assert (HN : forall i, (i < length row)%nat -> nth i (delta_enc factor row) 0 =
    if (i <? factor)%nat then nth i row 0 else wrap_u8 (nth i row 0 - nth (i - factor) row 0)).
  { intros i Hi. unfold delta_enc. now rewrite nth_map_seq. }
  apply nth_ext_len with (d := 0); [lia|]. rewrite HL, HLE. intros i.
  induction i as [i IH] using lt_wf_ind. intros Hi. destruct (Nat.lt_ge_cases i factor).
  - rewrite H1 by auto. rewrite HN by auto. destruct (Nat.ltb_spec i factor); auto; lia.
  - rewrite H2 by lia. rewrite HN by auto. destruct (Nat.ltb_spec i factor); [lia|]. rewrite IH by lia.
    rewrite Forall_forall in HB. assert (HBi : is_byte (nth i row 0)) by (apply HB, nth_In; auto).
    unfold wrap_u8. rewrite Z.add_mod_idemp_l by lia. unfold is_byte in HBi.
    replace (nth i row 0 - nth (i - factor) row 0 + nth (i - factor) row 0) with (nth i row 0) by lia.
    apply Z.mod_small. lia.
Qed.

Lemma planes_length sb samples : length (planes sb samples) = (sb * length samples)%nat.
Proof. unfold planes. now rewrite (flat_map_seq_length _ _ (length samples)) by (intros; now rewrite map_length). Qed.
Lemma planes_nth sb samples c col : (c < sb)%nat -> (col < length samples)%nat ->
  nth (col + c * length samples) (planes sb samples) 0 = byte_of sb c (nth col samples 0).
Proof.
  intros Hc Hl. unfold planes. rewrite Nat.add_comm.
  rewrite (flat_map_seq_nth (fun c => map (byte_of sb c) samples) sb (length samples)) by (auto; intros; now rewrite map_length).
  rewrite nth_indep with (d' := byte_of sb c 0) by now rewrite map_length. now rewrite map_nth.
Qed.
Lemma planes_bytes sb samples : Forall is_byte (planes sb samples).
Proof.
  apply Forall_forall. intros x Hx. unfold planes in Hx. apply in_flat_map in Hx. destruct Hx as (c & _ & Hx).
  apply in_map_iff in Hx. destruct Hx as (v & <- & _). apply Z.mod_pos_bound. lia.
Qed.

Lemma split_byte v k : 0 <= k -> (v / 2 ^ k) mod 256 + 256 * (v / 2 ^ (k + 8)) = v / 2 ^ k.
Proof.
  intros Hk. rewrite Z.pow_add_r by lia. change (2 ^ 8) with 256. rewrite <- Z.div_div by (try lia; apply Z.pow_pos_nonneg; lia).
  pose proof (Z.div_mod (v / 2 ^ k) 256 ltac:(lia)). lia.
Qed.

Definition tmp_of (sb : nat) (v : Z) : list Z := map (fun c => if (c <? sb)%nat then byte_of sb c v else 0) (seq 0 4).

Lemma be32_tmp sb v : (2 <= sb <= 4)%nat -> 0 <= v < 2 ^ (8 * Z.of_nat sb) ->
  be32 (tmp_of sb v) / 2 ^ (32 - 8 * Z.of_nat sb) = v.
Proof.
  intros Hsb Hv. pose proof (split_byte v 0 ltac:(lia)) as S0. pose proof (split_byte v 8 ltac:(lia)) as S1.
  pose proof (split_byte v 16 ltac:(lia)) as S2. pose proof (split_byte v 24 ltac:(lia)) as S3.
  change (2 ^ 0) with 1 in S0. rewrite Z.div_1_r in S0. change (0 + 8) with 8 in S0. change (8 + 8) with 16 in S1.
  change (16 + 8) with 24 in S2. change (24 + 8) with 32 in S3.
  assert (sb = 2 \/ sb = 3 \/ sb = 4)%nat as [->|[->| ->]] by lia.
  - change (32 - 8 * Z.of_nat 2) with 16. change (8 * Z.of_nat 2) with 16 in Hv.
    rewrite (Z.div_small v (2 ^ 16)) in S1 by lia.
    unfold be32, tmp_of, byte_of. cbn [seq map nth Nat.ltb Nat.leb Nat.sub].
    change (8 * Z.of_nat 1) with 8. change (8 * Z.of_nat 0) with 0. change (2 ^ 0) with 1. rewrite Z.div_1_r.
    match goal with |- ?a / _ = _ => replace a with (v * 2 ^ 16) by lia end. apply Z.div_mul. lia.
  - change (32 - 8 * Z.of_nat 3) with 8. change (8 * Z.of_nat 3) with 24 in Hv.
    rewrite (Z.div_small v (2 ^ 24)) in S2 by lia.
    unfold be32, tmp_of, byte_of. cbn [seq map nth Nat.ltb Nat.leb Nat.sub].
    change (8 * Z.of_nat 2) with 16. change (8 * Z.of_nat 1) with 8. change (8 * Z.of_nat 0) with 0. change (2 ^ 0) with 1. rewrite Z.div_1_r.
    match goal with |- ?a / _ = _ => replace a with (v * 2 ^ 8) by lia end. apply Z.div_mul. lia.
  - change (32 - 8 * Z.of_nat 4) with 0. change (8 * Z.of_nat 4) with 32 in Hv.
    rewrite (Z.div_small v (2 ^ 32)) in S3 by lia.
    unfold be32, tmp_of, byte_of. cbn [seq map nth Nat.ltb Nat.leb Nat.sub].
    change (8 * Z.of_nat 3) with 24. change (8 * Z.of_nat 2) with 16. change (8 * Z.of_nat 1) with 8. change (8 * Z.of_nat 0) with 0.
    change (2 ^ 0) with 1. rewrite !Z.div_1_r. lia.
Qed.

Lemma tmp_loop sb samples col : (sb <= 4)%nat -> (col < length samples)%nat ->
  for_each (seq 0 sb) (fun c t => do b <- get (planes sb samples) (col + c * length samples); put t c b) [0; 0; 0; 0]
  = Ok (tmp_of sb (nth col samples 0)).
Proof.
  intros Hsb Hc.
  destruct (for_each_seq_inv (fun c t => do b <- get (planes sb samples) (col + c * length samples); put t c b)
    (fun k t => length t = 4%nat /\ forall c, nth c t 0 = if (c <? k)%nat then byte_of sb c (nth col samples 0) else 0)
    0 sb [0; 0; 0; 0]) as (t & E & HL & HV).
  - split; auto. intros c. do 4 (destruct c as [|c]; auto). destruct c; auto.
  - intros k t Hk (HL & HV). assert (col + k * length samples < length (planes sb samples))%nat.
    { rewrite planes_length. nia. }
    rewrite (get_ok _ _ 0) by auto. cbn [bind]. rewrite planes_nth by lia. rewrite put_ok by lia.
    eexists. split; [reflexivity|]. split; [now rewrite upd_list_length|]. intros c. rewrite nth_upd by lia.
    destruct (Nat.eqb_spec k c) as [->|]; [destruct (Nat.ltb_spec c (S c)); auto; lia|]. rewrite HV.
    destruct (Nat.ltb_spec c k), (Nat.ltb_spec c (S k)); auto; lia.
  - rewrite E. f_equal. apply nth_ext_len with (d := 0); [unfold tmp_of; rewrite map_length, seq_length; auto|].
    intros i Hi. rewrite HV. unfold tmp_of. rewrite nth_map_seq by lia. reflexivity.
Qed.

Lemma fp_row_ok fw ew sb samples : (2 <= sb <= 4)%nat ->
  Forall (fun v => 0 <= v < 2 ^ (8 * Z.of_nat sb) /\ exists r, extend fw ew v = Ok r) samples ->
  exists out, fp_row fw ew sb (planes sb samples) (length samples) = Ok out /\
    Forall2 (fun v p => extend fw ew v = Ok p) samples out.
Proof.
  intros Hsb HF. unfold fp_row. rewrite Forall_forall in HF.
  match goal with |- context [for_each _ ?f _] => set (body := f) end.
  destruct (for_each_seq_inv body (fun k out => Forall2 (fun v p => extend fw ew v = Ok p) (firstn k samples) out)
    0 (length samples) []) as (out & E & HO).
  - constructor.
  - intros k out Hk HO. unfold body. rewrite tmp_loop by lia. cbn [bind].
    assert (Hin : In (nth k samples 0) samples) by (apply nth_In; lia).
    destruct (HF _ Hin) as (Hv & r & Er). rewrite be32_tmp by auto. rewrite Er. cbn [bind]. eexists. split; [reflexivity|].
    assert (HFN : firstn (S k) samples = firstn k samples ++ [nth k samples 0]).
    { clear -Hk. destruct Hk as [_ Hk]. cbn in Hk. revert k Hk. induction samples as [|x l IH]; intros k Hk; [cbn in Hk; lia|].
      destruct k; auto. cbn [firstn nth app]. f_equal. apply IH. cbn in Hk. lia. }
    rewrite HFN. apply Forall2_app; auto.
  - exists out. split; auto. cbn in HO. now rewrite firstn_all in HO.
Qed.

Lemma deflate_row_ok bps factor samples : (bps = 16 \/ bps = 24 \/ bps = 32)%nat -> (0 < factor)%nat ->
  Forall (fun v => 0 <= v < 2 ^ Z.of_nat bps /\ (bps = 32%nat -> ~ subnormal 23 8 v)) samples ->
  exists out, deflate_row bps factor (delta_enc factor (planes (bps / 8) samples)) (length samples) = Ok out /\
    Forall2 (fun v p => extend (fst (fmt bps)) (snd (fmt bps)) v = Ok p) samples out.
Proof.
  intros Hb Hf HS. unfold deflate_row. rewrite delta_inv by auto using planes_bytes. cbn [bind].
  destruct Hb as [->|[->| ->]].
  - apply (fp_row_ok 10 5 2); [lia|]. eapply Forall_impl; [|exact HS]. intros v [Hv _]. split; [exact Hv|].
    destruct (extend_ok 10 5 v extend_16 Hv) as (r & Er & _). eauto.
  - apply (fp_row_ok 16 7 3); [lia|]. eapply Forall_impl; [|exact HS]. intros v [Hv _]. split; [exact Hv|].
    destruct (extend_ok 16 7 v extend_24 Hv) as (r & Er & _). eauto.
  - apply (fp_row_ok 23 8 4); [lia|]. eapply Forall_impl; [|exact HS]. intros v [Hv Hn]. split; [exact Hv|].
    exists v. apply extend_32; auto.
Qed.

Lemma deflate_ok bps factor rows w : (bps = 16 \/ bps = 24 \/ bps = 32)%nat -> (0 < factor)%nat ->
  Forall (fun row => length row = w) rows ->
  Forall (Forall (fun v => 0 <= v < 2 ^ Z.of_nat bps /\ (bps = 32%nat -> ~ subnormal 23 8 v))) rows ->
  exists out, deflate_decode bps factor (flat_map (fun row => delta_enc factor (planes (bps / 8) row)) rows) (length rows) w = Ok out /\
    Forall2 (Forall2 (fun v p => extend (fst (fmt bps)) (snd (fmt bps)) v = Ok p)) rows out.
Proof.
  intros Hb Hf HW HS. unfold deflate_decode. cbv zeta. set (sb := (bps / 8)%nat).
  assert (Hsb : (2 <= sb <= 4)%nat) by (unfold sb; destruct Hb as [->|[->| ->]]; cbn; lia).
  destruct (Nat.leb_spec 2 sb), (Nat.leb_spec sb 4); cbn [andb assert_ bind]; try lia.
  set (enc := fun row => delta_enc factor (planes sb row)).
  assert (HE : forall row, In row rows -> length (enc row) = (sb * w)%nat).
  { intros row Hin. rewrite Forall_forall in HW. unfold enc, delta_enc. rewrite map_length, seq_length, planes_length.
    now rewrite (HW row Hin). }
  assert (HL : forall l, (forall row, In row l -> length (enc row) = (sb * w)%nat) -> length (flat_map enc l) = (sb * w * length l)%nat).
  { clear. induction l as [|x l IH]; intros H; cbn [flat_map length]; [lia|]. rewrite app_length, IH, H by (intros; apply H || idtac; firstorder). lia. }
  rewrite HL by auto. rewrite Nat.eqb_refl. cbn [check bind].
  match goal with |- context [for_each _ ?f _] => set (body := f) end.
  destruct (for_each_seq_inv body (fun k out => Forall2 (Forall2 (fun v p => extend (fst (fmt bps)) (snd (fmt bps)) v = Ok p)) (firstn k rows) out)
    0 (length rows) []) as (out & E & HO).
  - constructor.
  - intros k out Hk HO. unfold body.
    assert (HIn : In (nth k rows []) rows) by (apply nth_In; lia).
    assert (HSplit : firstn (sb * w) (skipn (k * (sb * w)) (flat_map enc rows)) = enc (nth k rows [])).
    { rewrite <- (firstn_skipn k rows), flat_map_app. rewrite skipn_app.
      assert (HLk : length (flat_map enc (firstn k rows)) = (k * (sb * w))%nat).
      { rewrite HL; [rewrite firstn_length; lia|]. intros row Hr. apply HE. rewrite <- (firstn_skipn k rows). apply in_or_app; auto. }
      rewrite HLk, Nat.sub_diag. rewrite (skipn_all2 (n := k * (sb * w))) by lia. cbn [app skipn].
      destruct (skipn k rows) as [|x xs] eqn:EK.
      { exfalso. assert (length (skipn k rows) = 0%nat) by now rewrite EK. rewrite skipn_length in *. lia. }
      assert (Ex : nth k (firstn k rows ++ x :: xs) [] = x).
      { rewrite app_nth2 by (rewrite firstn_length; lia). rewrite firstn_length. replace (k - Nat.min k (length rows))%nat with 0%nat by lia. reflexivity. }
      rewrite Ex. cbn [flat_map]. assert (HEx : length (enc x) = (sb * w)%nat).
      { apply HE. rewrite <- (firstn_skipn k rows), EK. apply in_or_app. right. now left. }
      rewrite firstn_app, HEx, Nat.sub_diag, firstn_O, app_nil_r. apply firstn_all2. lia. }
    rewrite HSplit. unfold enc. rewrite Forall_forall in HW, HS.
    destruct (deflate_row_ok bps factor (nth k rows []) Hb Hf (HS _ HIn)) as (line & El & HLn).
    rewrite (HW _ HIn) in El. fold sb in El. rewrite El. cbn [bind]. eexists. split; [reflexivity|].
    assert (HFN : firstn (S k) rows = firstn k rows ++ [nth k rows []]).
    { clear -Hk. destruct Hk as [_ Hk]. cbn in Hk. revert k Hk. induction rows as [|x l IH]; intros k Hk; [cbn in Hk; lia|].
      destruct k; auto. cbn [firstn nth app]. f_equal. apply IH. cbn in Hk. lia. }
    rewrite HFN. apply Forall2_app; auto.
  - exists out. split; auto. cbn in HO. now rewrite firstn_all in HO.
Qed.

Lemma dither_row_top t row rand : lut_ok t ->
  Forall (fun p => 0 <= p < Z.of_nat (length t)) row -> is_u32 rand ->
  exists l out, lut_new t = Ok l /\ dither_row l row rand = Ok out /\
    Forall2 (fun v p => is_u16 p /\
      let c := nth (Z.to_nat v) t 0 in let d := step_of t (Z.to_nat v) in
      (c <> 0 -> Z.abs (p - c) <= (d + 2) / 4) /\ (c = 0 -> 2 * p <= d)) row out.
Proof.
  intros HT HR Hr. destruct (lut_new_ok t HT) as (l & E & _). destruct (dither_row_ok t l HT E row rand HR Hr) as (out & Eo & HO).
  eauto.
Qed.

(** centers of a table that was accepted *)
Lemma lut_new_centers t l : lut_new t = Ok l -> length l = length t /\
  forall i, (i < length t)%nat -> fst (fst (nth i l (0, 0, 0))) = nth i t 0.
Proof.
  unfold lut_new. intros H.
  assert (HC : forall i e, lut_entry t i = Ok e -> fst (fst e) = nth i t 0).
  { intros i e. unfold lut_entry. destruct (get t i) eqn:EG; try discriminate. cbn [bind]. apply get_inv with (d := 0) in EG.
    intros HE. repeat (match type of HE with context [bind ?x _] => destruct x; try discriminate; cbn [bind] in HE end).
    injection HE as <-. cbn [fst]. destruct EG as [_ ->]. reflexivity. }
  assert (X : forall n k s l, (k + n = length t)%nat -> length s = length t ->
    (forall i, (i < k)%nat -> fst (fst (nth i s (0, 0, 0))) = nth i t 0) ->
    for_each (seq k n) (fun i t0 => do e <- lut_entry t i; put t0 i e) s = Ok l ->
    length l = length t /\ forall i, (i < length t)%nat -> fst (fst (nth i l (0, 0, 0))) = nth i t 0).
  { induction n as [|n IH]; intros k s l0 Hk HS HV HE; cbn [seq for_each] in HE.
    - injection HE as <-. split; auto. intros i Hi. apply HV. lia.
    - destruct (lut_entry t k) as [e| |] eqn:EE; try discriminate. cbn [bind] in HE.
      rewrite put_ok in HE by lia. cbn [bind] in HE. apply (IH (S k) _ _ ltac:(lia)) in HE; auto.
      + now rewrite upd_list_length.
      + intros i Hi. rewrite nth_upd by lia. destruct (Nat.eqb_spec k i) as [<-|]; auto. apply HV. lia. }
  apply (X (length t) 0%nat _ _ ltac:(lia)) in H; auto; [apply repeat_length|]. intros; lia.
Qed.

Lemma lut_bits_top t bits l : t <> [] -> lut_new_bits t bits = Ok l ->
  (2 ^ bits <= length l)%nat /\
  forall v, (v < length l)%nat -> fst (fst (nth v l (0, 0, 0))) = nth (Nat.min v (length t - 1)) t 0.
Proof.
  intros HN H. split; [now apply lut_bits_len in H|]. unfold lut_new_bits in H.
  assert (HL : (0 < length t)%nat) by (destruct t; [easy|cbn; lia]).
  destruct (Nat.eqb_spec (length t) 0); [lia|]. cbn [negb assert_ bind] in H.
  destruct (Nat.leb_spec (2 ^ bits) (length t)); apply lut_new_centers in H; destruct H as [H1 H2]; intros v Hv.
  - rewrite H2 by lia. f_equal. lia.
  - rewrite H1 in Hv. rewrite H2 by auto. rewrite app_length, repeat_length in Hv.
    destruct (Nat.lt_ge_cases v (length t)).
    + rewrite app_nth1 by auto. f_equal. lia.
    + rewrite app_nth2 by auto. rewrite nth_repeat_lt by lia. rewrite Nat.min_r by lia.
      clear -HN. induction t as [|a t IH]; [easy|]. destruct t as [|b t]; [reflexivity|].
      change (last (a :: b :: t) 0) with (last (b :: t) 0). rewrite IH by easy. cbn [length]. 
      replace (S (S (length t)) - 1)%nat with (S (S (length t) - 1)) by lia. reflexivity.
Qed.
