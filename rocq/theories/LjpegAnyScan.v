(** Scan decoding of arbitrary data. *)
From Coq Require Import List ZArith Lia Bool.
From Coq Require Import ZifyBool ZifyNat.
From Verif Require Import Base BaseLemmas Pumps PumpProofs LjpegEnc LjpegDec HuffTree HuffCanon HuffBuild HuffDec LjpegScan LjpegDecode LjpegAnySpec LjpegAny.
Import ListNotations.
Open Scope Z_scope.

Lemma predicted_pred px comps base s r c : predicted px comps base s r c = pred_at px comps base s r c.
Proof. unfold predicted, pred_at, pred_val. reflexivity. Qed.
Lemma pred_at_ext px comps base s1 s2 r c : (1 <= comps)%nat ->
  (forall r' c', (r' < r)%nat /\ (c' <= c)%nat \/ r' = r /\ (c' < c)%nat -> s1 r' c' = s2 r' c') -> pred_at px comps base s1 r c = pred_at px comps base s2 r c.
Proof.
  intros HC E. unfold pred_at. destruct (Nat.eqb_spec r 0).
  - subst r. destruct (Nat.ltb_spec c comps); auto. apply E. lia.
  - destruct (Nat.ltb_spec c comps); [apply E; lia|]. rewrite !(E r), !(E (r - 1)%nat) by lia. reflexivity.
Qed.

Section Any.
Context (bug : bool) (d : ljdec) (tabs : list (list nat * list nat)).
Let comps := length tabs.
Let w := sof_width (ld_sof d).
Let rs := (w * comps)%nat.
Let px := ld_pred d.
Let base := 2 ^ Z.of_nat (sof_precision (ld_sof d) - ld_pt d - 1).
Let bits := byte_bits (unstuff (ld_buffer d)).
Let rem := after bug tabs bits.
Let dif := diff_no bug tabs bits.
Context (HC : (1 <= comps)%nat) (HP : (1 <= px <= 7)%nat).
Context (HPT : (ld_pt d < sof_precision (ld_sof d))%nat).
Context (HT : forall c, (c < comps)%nat -> exists t, htable d c = Ok t /\ ht_dng_bug t = bug /\
   atable t (fst (nth c tabs ([], []))) (snd (nth c tabs ([], [])))).
Context (HNC : length (sof_comps (ld_sof d)) = comps).
Context (HBY : Forall is_byte (ld_buffer d)) (HFF : no_lone_ff (ld_buffer d)).

Lemma next_any n c p : (c < comps)%nat -> jpeg_rep 32 p (rem (n * comps + c)) ->
  exists t p', htable d c = Ok t /\ huff_decode jpeg_ops t p = Ok (dif (n * comps + c), p') /\ jpeg_rep 32 p' (rem (n * comps + S c)).
Proof.
  intros Hc R. destruct (HT c Hc) as (t & E & Eb & A). exists t.
  destruct (huff_decode_any jpeg_ops jpeg_rep jpeg_refines t _ _ 32 p _ A (Nat.le_refl _) R) as (p' & E1 & R1).
  exists p'. split; auto.
  assert (M : turn tabs (n * comps + c) = nth c tabs ([], [])).
  { unfold turn. fold comps. f_equal. rewrite Nat.add_comm, Nat.mod_add by lia. now apply Nat.mod_small. }
  rewrite <- surjective_pairing, Eb in E1, R1. unfold dif, diff_no, rem. rewrite M. split; [exact E1|].
  replace (n * comps + S c)%nat with (S (n * comps + c)) by lia. cbn [after]. rewrite M. destruct R1 as [I S]. split; auto.
Qed.

Context (out0 : list Z) (x sw wp height : nat).
Let width := (wp * comps)%nat.
Context (HWP : (1 <= wp <= w)%nat) (HH : (1 <= height <= sof_height (ld_sof d))%nat) (HWS : (width <= sw)%nat).
Context (HOUT : ((height - 1) * sw + x + width <= length out0)%nat).

Definition acell (j : nat) : Prop := exists r c, (r < height)%nat /\ (c < wp * comps)%nat /\ j = (r * sw + x + c)%nat.
Definition at_ (out : list Z) (r c : nat) : Z := nth (r * sw + x + c) out 0.
Definition acells (r0 c0 : nat) (out : list Z) : Prop :=
  length out = length out0 /\
  (forall r c, (r < height)%nat -> (c < width)%nat -> (r < r0 \/ r = r0 /\ c < c0)%nat ->
     at_ out r c = wrap_u16 (pred_at px comps base (at_ out) r c + dif (r * rs + c))) /\
  (forall j, ~ acell j -> nth j out 0 = nth j out0 0).
Definition ainv (r0 c0 : nat) (st : list Z * jpump) : Prop :=
  acells r0 c0 (fst st) /\ jpeg_rep 32 (snd st) (rem (r0 * rs + c0)).

Lemma acells_put r c out v : (r < height)%nat -> (c < width)%nat -> acells r c out ->
  v = wrap_u16 (pred_at px comps base (at_ out) r c + dif (r * rs + c)) ->
  exists out', put out (r * sw + x + c) v = Ok out' /\ acells r (S c) out'.
Proof.
  intros Hr Hc (L & A & B) Ev. assert (HI : (r * sw + x + c < length out0)%nat) by nia.
  rewrite put_ok by lia. eexists. split; [reflexivity|]. split; [now rewrite upd_list_length|].
  assert (E : forall r1 c1, (r1 < height)%nat -> (c1 < width)%nat -> at_ (upd_list out (r * sw + x + c) v) r1 c1 = if ((r =? r1) && (c =? c1))%nat then v else at_ out r1 c1).
  { intros r1 c1 Hr1 Hc1. unfold at_. rewrite nth_upd by lia.
    destruct (Nat.eqb_spec (r * sw + x + c) (r1 * sw + x + c1)) as [E|N].
    - assert (r = r1) by nia. subst r1. assert (c = c1) by lia. subst. now rewrite !Nat.eqb_refl.
    - destruct (Nat.eqb_spec r r1); auto. destruct (Nat.eqb_spec c c1); auto. subst. lia. }
  split.
  - intros r1 c1 Hr1 Hc1 HD. rewrite E by auto.
    assert (PE : pred_at px comps base (at_ (upd_list out (r * sw + x + c) v)) r1 c1 = pred_at px comps base (at_ out) r1 c1).
    { apply pred_at_ext; auto. intros r' c' H'. rewrite E by lia. destruct (Nat.eqb_spec r r'); auto. destruct (Nat.eqb_spec c c'); auto. lia. }
    rewrite PE. destruct (Nat.eqb_spec r r1), (Nat.eqb_spec c c1); cbn [andb]; try (apply A; auto; lia). subst r1 c1. exact Ev.
  - intros j Hj. rewrite nth_upd by lia.
    destruct (Nat.eqb_spec (r * sw + x + c) j) as [E'|N]; auto.
    exfalso. apply Hj. exists r, c. auto.
Qed.

Lemma apred r q c out : (r < height)%nat -> (q < wp)%nat -> (c < comps)%nat -> (r = 0 -> 1 <= q)%nat ->
  acells r (q * comps + c) out ->
  decode_pred px comps sw x r (x + q * comps) c out = Ok (pred_at px comps base (at_ out) r (q * comps + c)).
Proof.
  intros Hr Hq Hc H0 (L & A & _). unfold decode_pred, pred_at.
  assert (G : forall r1 c1, (r1 < height)%nat -> (c1 < width)%nat ->
     forall k, k = (r1 * sw + x + c1)%nat -> get out k = Ok (at_ out r1 c1)).
  { intros r1 c1 H1 H2 k ->. rewrite (get_ok _ _ 0) by nia. reflexivity. }
  assert (W : (q * comps + c < width)%nat) by (apply lin_lt; auto).
  destruct (Nat.eqb_spec (x + q * comps) x).
  - assert (q = 0)%nat by nia. subst q. rewrite usub_ok by lia. cbn [bind].
    replace (r =? 0)%nat with false by lia. replace (0 * comps + c <? comps)%nat with true by lia.
    apply G; lia.
  - assert (1 <= q)%nat by (destruct q; lia).
    replace (q * comps + c <? comps)%nat with false by nia.
    assert (EA : (do j <- usub (x + q * comps) comps; get out (r * sw + j + c)) = Ok (at_ out r (q * comps + c - comps))).
    { rewrite usub_ok by nia. cbn [bind]. apply G; nia. }
    rewrite EA. destruct (Nat.eqb_spec r 0); [subst; auto|].
    assert (EB : (do r1 <- usub r 1; get out (r1 * sw + (x + q * comps) + c)) = Ok (at_ out (r - 1) (q * comps + c))).
    { rewrite usub_ok by lia. cbn [bind]. apply G; nia. }
    assert (EC : (do r1 <- usub r 1; do j <- usub (x + q * comps) comps; get out (r1 * sw + j + c))
        = Ok (at_ out (r - 1) (q * comps + c - comps))).
    { rewrite usub_ok by lia. cbn [bind]. rewrite usub_ok by nia. cbn [bind]. apply G; nia. }
    now apply pred_cases.
Qed.

Lemma pos_eq r q c : (r * rs + (q * comps + c) = (r * w + q) * comps + c)%nat.
Proof. unfold rs. lia. Qed.
Lemma next_at r q c p : (c < comps)%nat -> jpeg_rep 32 p (rem (r * rs + (q * comps + c))) ->
  exists t p', htable d c = Ok t /\ huff_decode jpeg_ops t p = Ok (dif (r * rs + (q * comps + c)), p') /\ jpeg_rep 32 p' (rem (r * rs + (q * comps + S c))).
Proof. intros Hc R. rewrite !pos_eq in *. now apply next_any. Qed.

Lemma sample_any r q c st : (r < height)%nat -> (q < wp)%nat -> (c < comps)%nat -> (r = 0 -> 1 <= q)%nat ->
  ainv r (q * comps + c) st ->
  exists st', decode_sample d sw x r (x + q * comps) c st = Ok st' /\ ainv r (q * comps + S c) st'.
Proof.
  intros Hr Hq Hc H0 [HCE HR]. destruct st as [out pump]. cbn [fst snd] in *.
  unfold decode_sample, ljdec_ncomp. fold px. rewrite HNC, apred by auto. cbn [bind].
  destruct (next_at r q c pump) as (t & p' & ET & ED & R'); auto.
  rewrite ET. cbn [bind]. rewrite ED. cbn [bind].
  destruct (acells_put r (q * comps + c) out _ Hr ltac:(apply lin_lt; auto) HCE eq_refl) as (out' & EP & CE).
  replace (r * sw + (x + q * comps) + c)%nat with (r * sw + x + (q * comps + c))%nat by lia.
  rewrite EP. cbn [bind]. eexists. split; [reflexivity|]. split; cbn [fst snd]; auto.
  now replace (q * comps + S c)%nat with (S (q * comps + c)) by lia.
Qed.

Lemma pixel_any r q st : (r < height)%nat -> (q < wp)%nat -> (r = 0 -> 1 <= q)%nat ->
  ainv r (q * comps) st ->
  exists st', for_each (seq 0 comps) (fun c st => decode_sample d sw x r (x + q * comps) c st) st = Ok st' /\
   ainv r (S q * comps) st'.
Proof.
  intros Hr Hq H0 I.
  destruct (for_each_seq_inv (fun c st => decode_sample d sw x r (x + q * comps) c st)
     (fun c st => ainv r (q * comps + c) st) 0 comps st) as (st' & E & I').
  - now rewrite Nat.add_0_r.
  - intros. apply sample_any; auto. lia.
  - exists st'. split; auto. now replace (S q * comps)%nat with (q * comps + (0 + comps))%nat by lia.
Qed.

Lemma skip_any r q p : jpeg_rep 32 p (rem (r * rs + q * comps)) ->
  exists p', skip_pixel d p = Ok p' /\ jpeg_rep 32 p' (rem (r * rs + S q * comps)).
Proof.
  intros R. unfold skip_pixel, ljdec_ncomp. rewrite HNC.
  match goal with |- context [for_each (seq 0 comps) ?G p] =>
  destruct (for_each_seq_inv G (fun c p => jpeg_rep 32 p (rem (r * rs + (q * comps + c)))) 0 comps p) as (p' & E & I') end.
  - now rewrite Nat.add_0_r.
  - intros c p1 Hc R1. destruct (next_at r q c p1) as (t & p' & ET & ED & R'); auto; [lia|].
    rewrite ET. cbn [bind]. rewrite ED. cbn [bind]. eauto.
  - exists p'. split; auto. now replace (S q * comps)%nat with (q * comps + (0 + comps))%nat by lia.
Qed.

Lemma row_any r st : (r < height)%nat -> ainv r (startq r * comps) st ->
  exists st', decode_row d sw x width (w - wp) r st = Ok st' /\ ainv (S r) (startq (S r) * comps) st'.
Proof.
  intros Hr I. unfold decode_row, ljdec_ncomp. rewrite HNC.
  assert (SQ : (startq r <= 1)%nat) by (unfold startq; destruct (r =? 0)%nat; lia).
  assert (ES : (if (r =? 0)%nat then (x + comps)%nat else x) = (x + startq r * comps)%nat).
  { unfold startq. destruct (r =? 0)%nat; lia. }
  rewrite ES. unfold step_range. rewrite for_each_map.
  assert (EN : ((width + x - (x + startq r * comps) + (comps - 1)) / comps = wp - startq r)%nat).
  { replace (width + x - (x + startq r * comps) + (comps - 1))%nat with ((comps - 1) + (wp - startq r) * comps)%nat.
    2:{ unfold width. rewrite Nat.mul_sub_distr_r. pose proof (Nat.mul_le_mono_r (startq r) wp comps). lia. }
    rewrite Nat.div_add by lia. rewrite Nat.div_small by lia. auto. }
  rewrite EN.
  match goal with |- context [for_each (seq 0 (wp - startq r)) ?G st] =>
  destruct (for_each_seq_inv G (fun i st => ainv r ((startq r + i) * comps) st) 0 (wp - startq r) st) as (st1 & E1 & I1) end.
  - now rewrite Nat.add_0_r.
  - intros i s Hi HI. replace (x + startq r * comps + i * comps)%nat with (x + (startq r + i) * comps)%nat by lia.
    destruct (pixel_any r (startq r + i) s) as (s' & E & I'); auto; [lia| |].
    { intros ->. unfold startq. cbn. lia. }
    exists s'. split; auto. now replace (startq r + S i)%nat with (S (startq r + i)) by lia.
  - rewrite E1. cbn [bind]. destruct st1 as [out pump].
    replace (startq r + (0 + (wp - startq r)))%nat with wp in I1 by lia. destruct I1 as [C1 R1]. cbn [fst snd] in *.
    destruct (for_each_seq_inv (fun _ p => skip_pixel d p) (fun i p => jpeg_rep 32 p (rem (r * rs + (wp + i) * comps)))
       0 (w - wp) pump) as (p' & E2 & R2).
    + now rewrite Nat.add_0_r.
    + intros i p Hi HR. destruct (skip_any r (wp + i) p) as (p' & E & R'); auto.
      exists p'. split; auto. now replace (wp + S i)%nat with (S (wp + i)) by lia.
    + rewrite E2. cbn [bind]. eexists. split; [reflexivity|]. split; cbn [fst snd].
      * destruct C1 as (L & A & B). split; auto. split; auto. intros r1 c1 H1 H2 H3. apply A; auto.
        unfold startq in H3. cbn in H3. fold width. lia.
      * replace (S r * rs + startq (S r) * comps)%nat with (r * rs + (wp + (0 + (w - wp))) * comps)%nat; auto.
        unfold startq. cbn [Nat.eqb]. replace (wp + (0 + (w - wp)))%nat with w by lia. unfold rs. lia.
Qed.

Theorem decode_any :
  exists out, decode_ljpeg d out0 x sw width height = Ok out /\ length out = length out0 /\
    (forall r c, (r < height)%nat -> (c < width)%nat -> at_ out r c = wrap_u16 (predicted px comps base (at_ out) r c + dif (r * rs + c))) /\
    (forall j, ~ acell j -> nth j out 0 = nth j out0 0).
Proof.
  unfold decode_ljpeg, ljdec_ncomp. rewrite HNC. fold w.
  assert (WW : (width <= w * comps)%nat) by (unfold width; apply Nat.mul_le_mono_r; lia).
  replace (w * comps <? width)%nat with false by lia. replace (sof_height (ld_sof d) <? height)%nat with false by lia.
  cbn [orb negb check bind]. rewrite usub_ok by lia. cbn [bind]. rewrite usub_ok by lia. cbn [bind].
  fold base.
  match goal with |- context [for_each (seq 0 comps) ?G ?S0] =>
  destruct (for_each_seq_inv G (fun c st => ainv 0 c st) 0 comps S0) as (st & E & I) end.
  - split; cbn [fst snd].
    + split; auto. split; auto. intros. lia.
    + replace (0 * rs + 0)%nat with 0%nat by lia. unfold rem. cbn [after]. now apply jpeg_new_rep.
  - intros c [out pump] Hc [C R]. cbn [fst snd] in *.
    destruct (next_at 0 0 c pump) as (t & p' & ET & ED & R'); auto; [lia|].
    rewrite ET. cbn [bind]. rewrite ED. cbn [bind].
    assert (EB : pred_at px comps base (at_ out) 0 (0 * comps + c) = base).
    { unfold pred_at. replace (0 =? 0)%nat with true by auto. now replace (0 * comps + c <? comps)%nat with true by lia. }
    assert (CW : (c < width)%nat) by (unfold width; pose proof (Nat.mul_le_mono_r 1 wp comps); lia).
    cbn [Nat.mul Nat.add] in EB, R'.
    destruct (acells_put 0 c out (wrap_u16 (base + dif (0 * rs + (0 * comps + c)))) ltac:(lia) CW C) as (out' & EP & CE); [now rewrite EB|].
    cbn [Nat.mul Nat.add] in EP. cbn [Nat.mul Nat.add]. rewrite EP. cbn [bind].
    eexists. split; [reflexivity|]. split; cbn [fst snd]; auto.
  - rewrite E. cbn [bind]. unfold width at 1. rewrite Nat.div_mul by lia. rewrite usub_ok by lia. cbn [bind].
    destruct (for_each_seq_inv (fun row st => decode_row d sw x width (w - wp) row st)
      (fun r st => ainv r (startq r * comps) st) 0 height st) as (st2 & E2 & I2).
    + unfold startq. cbn [Nat.eqb]. now replace (1 * comps)%nat with (0 + comps)%nat by lia.
    + intros. apply row_any; auto. lia.
    + rewrite E2. cbn [bind]. destruct st2 as [out pump]. destruct I2 as [(L & A & B) _]. cbn [fst snd] in *.
      exists out. split; [auto|]. split; [auto|]. split; [|auto]. intros. rewrite predicted_pred. apply A; auto; lia.
Qed.
End Any.
