(** Proofs of the additional theorems in PropExtra.v. *)
From Coq Require Import List ZArith Lia Bool.
From Coq Require Import ZifyBool ZifyNat.
From Verif Require Import Base BaseLemmas Pumps PumpProofs PumpSeq Packed Tiles Bits BitsSpec BitsProofs LjpegEnc LjpegDec LjpegSpec
  LjpegTop LjpegAnyHead LjpegHeader ExtraSpec.
Import ListNotations.
Open Scope Z_scope.

(** ** MSB32 position *)
Lemma msb32_get_pos_inv n p v p' : get_bits msb32_ops n p = Ok (v, p') -> (exists q, length (w_rest p) = 4 * q)%nat ->
  (8 * w_pos p' + w_nbits p = 8 * w_pos p + n + w_nbits p')%nat.
Proof.
  intros E [q Hq]. unfold get_bits in E. destruct (Nat.eqb_spec n 0).
  { injection E as <- <-. lia. }
  apply bind_ok in E as ([v1 p1] & E1 & E). apply bind_ok in E as (p2 & E2 & E). injection E as <- <-.
  cbn [peek_bits consume_bits msb32_ops] in *. unfold msb32_peek in E1. apply bind_ok in E1 as (p3 & E3 & E1).
  apply bind_ok in E1 as (s & _ & E1). apply bind_ok in E1 as (v2 & _ & E1). injection E1 as <- <-.
  assert (8 * w_pos p3 + w_nbits p = 8 * w_pos p + w_nbits p3)%nat.
  { destruct (w_nbits p <? n)%nat; [|injection E3 as <-; lia].
    destruct (w_rest p) as [|a [|b [|c [|d t]]]]; try (cbn in Hq; lia); [discriminate|].
    cbn [refill_le bind] in E3. apply bind_ok in E3 as (hi & _ & E3). injection E3 as <-.
    cbn [w_nbits w_pos]. change (32 / 8)%nat with 4%nat. lia. }
  unfold msb_consume in E2. apply bind_ok in E2 as (k & Ek & E2). apply bind_ok in E2 as (m & _ & E2).
  injection E2 as <-. cbn [w_nbits w_pos]. unfold usub in Ek. destruct (n <=? w_nbits p3)%nat eqn:L; [|discriminate].
  injection Ek as <-. apply Nat.leb_le in L. revert L H. generalize (w_nbits p3) (w_nbits p) (w_pos p3) (w_pos p). clear. intros. lia.
Qed.

Lemma msb32_after ns : forall k p l, msb32_rep k p l -> (list_sum ns <= k)%nat -> Forall (fun n => n <= 32)%nat ns ->
  exists p' l', after_reads msb32_ops ns p = Ok p' /\ msb32_rep (k - list_sum ns) p' l' /\
    (8 * w_pos p' + w_nbits p = 8 * w_pos p + list_sum ns + w_nbits p')%nat.
Proof.
  induction ns as [|n t IH]; intros k p l R HK HF; cbn [after_reads].
  - exists p, l. cbn [list_sum fold_right]. rewrite Nat.sub_0_r. split; [reflexivity|]. split; [exact R|lia].
  - change (list_sum (n :: t)) with (n + list_sum t)%nat in *. inversion HF; subst.
    destruct (pr_get _ _ msb32_refines k p l n R) as (p1 & E1 & R1); [lia|auto|].
    rewrite E1. cbn [bind].
    destruct (IH _ _ _ R1) as (p2 & l2 & E2 & R2 & I2); [lia|auto|].
    exists p2, l2. rewrite E2. replace (k - (n + list_sum t))%nat with (k - n - list_sum t)%nat by lia.
    split; [reflexivity|]. split; [exact R2|].
    assert (I1 : (8 * w_pos p1 + w_nbits p = 8 * w_pos p + n + w_nbits p1)%nat).
    { apply (msb32_get_pos_inv _ _ _ _ E1). apply R. }
    lia.
Qed.

Lemma msb32_position src q ns : Forall is_byte src -> length src = (4 * q)%nat -> Forall (fun n => n <= 32)%nat ns ->
  (list_sum ns <= 8 * length src)%nat ->
  exists p, after_reads msb32_ops ns (wpump_new src) = Ok p /\ msb32_get_pos p = Ok ((list_sum ns + 7) / 8)%nat.
Proof.
  intros HF HL HN HS.
  destruct (msb32_after ns (8 * length src) (wpump_new src) (byte_bits (swap32 src))) as (p & l & E & _ & I); auto.
  { eapply msb32_new_rep; eauto. }
  exists p. split; auto. cbn [wpump_new w_pos w_nbits] in I. unfold msb32_get_pos.
  rewrite usub_ok by lia. f_equal. lia.
Qed.

(** ** Short buffers *)
Lemma ltb_short {A} (a b : nat) (x : res A) : (a < b)%nat -> (if (a <? b)%nat then Err else x) = Err.
Proof. intros H. apply Nat.ltb_lt in H. now rewrite H. Qed.
Lemma ceil8_spec n : ceil8 n = ((n + 7) / 8)%nat.
Proof. reflexivity. Qed.

Ltac short := intros buf w h L; unfold by_lines, whole, unpacked16, decompress_8bit, decompress_10be, decompress_16le, decompress_16be;
  apply ltb_short; exact L.

Lemma refuse_8bit : refuses decompress_8bit (fun w h => (h * w)%nat). Proof. short. Qed.
Lemma refuse_10be : refuses decompress_10be (fun w h => ((h * w * 10 + 7) / 8)%nat). Proof. short. Qed.
Lemma refuse_10le : refuses decompress_10le_lsb16 (fun w h => ((h * w * 10 + 7) / 8)%nat). Proof. short. Qed.
Lemma refuse_12le : refuses decompress_12le (fun w h => ((h * w * 12 + 7) / 8)%nat). Proof. short. Qed.
Lemma refuse_12m16 : refuses decompress_12be_msb16 (fun w h => ((h * w * 12 + 7) / 8)%nat). Proof. short. Qed.
Lemma refuse_12m32 : refuses decompress_12be_msb32 (fun w h => ((h * w * 12 + 7) / 8)%nat). Proof. short. Qed.
Lemma refuse_14m32 : refuses decompress_14be_msb32 (fun w h => ((h * w * 14 + 7) / 8)%nat). Proof. short. Qed.
Lemma refuse_12al : refuses decompress_12le_16bitaligned (fun w h => (h * ((w * 12 / 8 + 1) / 2 * 2))%nat). Proof. short. Qed.
Lemma refuse_12lc : refuses decompress_12le_wcontrol (fun w h => (h * (w * 12 / 8 + (w + 2) / 10))%nat). Proof. short. Qed.
Lemma refuse_12bc : refuses decompress_12be_wcontrol (fun w h => (h * (w * 12 / 8 + (w + 2) / 10))%nat). Proof. short. Qed.
Lemma refuse_16le : refuses decompress_16le (fun w h => (w * h * 2)%nat). Proof. short. Qed.
Lemma refuse_16be : refuses decompress_16be (fun w h => (w * h * 2)%nat). Proof. short. Qed.
Lemma refuse_16sk : refuses decompress_16le_skiplines (fun w h => (w * h * 4)%nat). Proof. short. Qed.
Lemma refuse_un : refuses decompress_12le_unpacked (fun w h => (h * w * 2)%nat) /\ refuses decompress_12be_unpacked (fun w h => (h * w * 2)%nat) /\
  refuses decompress_12be_unpacked_left_aligned (fun w h => (h * w * 2)%nat) /\ refuses decompress_12le_unpacked_left_aligned (fun w h => (h * w * 2)%nat) /\
  refuses decompress_14le_unpacked (fun w h => (h * w * 2)%nat) /\ refuses decompress_14be_unpacked (fun w h => (h * w * 2)%nat).
Proof. repeat split; short. Qed.
Lemma refuse_pad s : refuses (fun b w h => decompress_12le_padded b w h s) (fun w h => (h * s)%nat) /\
  refuses (fun b w h => decompress_14le_padded b w h s) (fun w h => (h * s)%nat) /\
  refuses (fun b w h => decompress_14le_unpacked_padded b w h s) (fun w h => (h * s)%nat).
Proof. repeat split; short. Qed.
Lemma refuse_gen n : (n <= 16)%nat -> refuses (fun b w h => decompress_generic_msb b w h n) (fun w h => ((w * h * n + 7) / 8)%nat) /\
  refuses (fun b w h => decompress_generic_lsb b w h n) (fun w h => ((w * h * n + 7) / 8)%nat).
Proof.
  intros Hn. apply Nat.leb_le in Hn.
  split; intros buf w h L; unfold decompress_generic_msb, decompress_generic_lsb, generic; rewrite Hn; cbn [assert_ bind]; now apply ltb_short.
Qed.
Lemma refuse_int : refuses decompress_12be_interlaced_unaligned (fun w h => ((h * w * 12 + 7) / 8)%nat) /\
  refuses decompress_12be_interlaced (fun w h => (((h + 1) / 2 * w * 3 / 2 / 2048 + 1) * 2048 + ((h / 2) * w * 12 + 7) / 8)%nat).
Proof.
  split; intros buf w h L. { unfold decompress_12be_interlaced_unaligned. now apply ltb_short. }
  unfold decompress_12be_interlaced. rewrite usub_ok by lia. cbn [bind]. apply ltb_short.
  replace (h - (h + 1) / 2)%nat with (h / 2)%nat by lia. exact L.
Qed.
Lemma refuse_all :
  refuses decompress_8bit (fun w h => (h * w)%nat) /\
  refuses decompress_10be (fun w h => ((h * w * 10 + 7) / 8)%nat) /\
  refuses decompress_10le_lsb16 (fun w h => ((h * w * 10 + 7) / 8)%nat) /\
  refuses decompress_12le (fun w h => ((h * w * 12 + 7) / 8)%nat) /\
  refuses decompress_12be_msb16 (fun w h => ((h * w * 12 + 7) / 8)%nat) /\
  refuses decompress_12be_msb32 (fun w h => ((h * w * 12 + 7) / 8)%nat) /\
  refuses decompress_14be_msb32 (fun w h => ((h * w * 14 + 7) / 8)%nat) /\
  refuses decompress_12le_16bitaligned (fun w h => (h * ((w * 12 / 8 + 1) / 2 * 2))%nat) /\
  refuses decompress_12le_wcontrol (fun w h => (h * (w * 12 / 8 + (w + 2) / 10))%nat) /\
  refuses decompress_12be_wcontrol (fun w h => (h * (w * 12 / 8 + (w + 2) / 10))%nat) /\
  refuses decompress_16le (fun w h => (w * h * 2)%nat) /\
  refuses decompress_16be (fun w h => (w * h * 2)%nat) /\
  refuses decompress_16le_skiplines (fun w h => (w * h * 4)%nat).
Proof.
  exact (conj refuse_8bit (conj refuse_10be (conj refuse_10le (conj refuse_12le (conj refuse_12m16 (conj refuse_12m32 (conj refuse_14m32
    (conj refuse_12al (conj refuse_12lc (conj refuse_12bc (conj refuse_16le (conj refuse_16be refuse_16sk)))))))))))).
Qed.

(** ** Tiles *)
Lemma tiles_reject len width cpp tw th : (0 < width -> 0 < tw -> 0 < th -> 0 < cpp ->
  (len mod (tw * cpp * th) <> 0 <-> into_tiles len width cpp tw th = Err))%nat.
Proof.
  intros Hw Ht Hh Hc. unfold into_tiles. destruct (Nat.ltb_spec 0 width); [|lia]. destruct (Nat.ltb_spec 0 (tw * th)); [|nia].
  destruct (Nat.ltb_spec 0 cpp); [|lia]. cbn [assert_ bind].
  destruct (Nat.eqb_spec (len mod (tw * cpp * th)) 0); cbn [negb]; split; intros; auto; try lia; discriminate.
Qed.

(** ** Predictors of floating point rows *)
Lemma float_predictors bps cpp predictor k rows w : (bps = 16 \/ bps = 24 \/ bps = 32)%nat -> (0 < cpp)%nat ->
  predictor = 3 /\ k = 1%nat \/ predictor = 34894 /\ k = 2%nat \/ predictor = 34895 /\ k = 4%nat ->
  Forall (fun row => length row = w) rows ->
  Forall (Forall (fun v => 0 <= v < 2 ^ Z.of_nat bps /\ (bps = 32%nat -> ~ subnormal 23 8 v))) rows ->
  exists out, (do f <- pred_factor cpp predictor;
      deflate_decode bps f (flat_map (fun row => delta_enc (cpp * k) (planes (bps / 8) row)) rows) (length rows) w) = Ok out /\
    Forall2 (Forall2 (fun v p => extend (fst (fmt bps)) (snd (fmt bps)) v = Ok p)) rows out.
Proof.
  intros Hb Hc HP HL HF.
  assert (E : pred_factor cpp predictor = Ok (cpp * k)%nat).
  { destruct HP as [[-> ->]|[[-> ->]|[-> ->]]]; unfold pred_factor; cbn [Z.eqb]; [|reflexivity..]. cbn. f_equal. lia. }
  rewrite E. cbn [bind]. apply deflate_ok; auto. lia.
Qed.
Lemma other_predictors cpp predictor : predictor <> 3 -> predictor <> 34894 -> predictor <> 34895 -> pred_factor cpp predictor = Panic.
Proof.
  intros H1 H2 H3. unfold pred_factor. apply Z.eqb_neq in H1, H2, H3. now rewrite H1, H2, H3.
Qed.

(** ** Rows of a lossless JPEG *)
Lemma chunks_concat n (rows : list (list Z)) : (0 < n)%nat -> Forall (fun r => length r = n) rows ->
  forall fuel, (length rows <= fuel)%nat -> chunks_exact_fuel fuel n (concat rows) = rows.
Proof.
  intros Hn HF. induction HF as [|r rows HR HF IH]; intros fuel L; destruct fuel as [|f]; cbn [length] in L; try lia; auto.
  - cbn. destruct (Nat.leb_spec n 0); [lia|]. reflexivity.
  - cbn [chunks_exact_fuel concat]. rewrite app_length. destruct (Nat.leb_spec n (length r + length (concat rows))); [|lia].
    rewrite <- HR at 1. rewrite firstn_app, Nat.sub_diag, firstn_all, firstn_O, app_nil_r.
    f_equal. rewrite <- HR, skipn_app, Nat.sub_diag, skipn_all, skipn_O, HR. cbn [app]. apply IH. lia.
Qed.

Lemma area_rows image h n stride : area image h n stride = concat (rows_of image h n stride).
Proof. unfold area, rows_of. apply flat_map_concat_map. Qed.

Lemma concat_len (rows : list (list Z)) n : Forall (fun r => length r = n) rows -> length (concat rows) = (length rows * n)%nat.
Proof. induction 1; cbn; auto. rewrite app_length. lia. Qed.

Lemma rows_of_len image h n stride : (n <= stride)%nat -> (h * stride <= length image)%nat ->
  Forall (fun r => length r = n) (rows_of image h n stride).
Proof.
  intros H1 H2. unfold rows_of. apply Forall_forall. intros x H. apply in_map_iff in H as (r & <- & Hr). apply in_seq in Hr.
  rewrite firstn_length, skipn_length. apply Nat.min_l.
  assert (S r * stride <= h * stride)%nat by (apply Nat.mul_le_mono_r; lia). cbn in H. lia.
Qed.

Lemma ljpeg_rows dbg image w h comps depth pr pad skip nl :
  Forall is_u16 image ->
  (1 <= w)%nat -> Z.of_nat w <= 65535 -> (1 <= h)%nat -> Z.of_nat h <= 65535 ->
  (1 <= comps <= 4)%nat -> (10 <= depth <= 16)%nat -> (1 <= pr <= 7)%nat ->
  (h * ((w + pad) * comps) <= length image)%nat ->
  (dbg = true -> Forall (fun s => s < 2 ^ Z.of_nat depth) image) ->
  exists bytes, ljpeg_compress dbg image w h comps depth pr 0 pad = Ok bytes /\
    ljpeg_decompress bytes skip nl (w * comps) (w * comps)
      = Ok (firstn nl (skipn skip (rows_of image h (w * comps) ((w + pad) * comps)))).
Proof.
  intros HU Hw Hw' Hh Hh' Hc Hd Hp HL HB.
  destruct (c01_ljpeg_roundtrip dbg image w h comps depth pr pad HU Hw Hw' Hh Hh' Hc Hd Hp HL HB) as (bytes & dec & E & _ & EN & EW & EH & ED).
  exists bytes. split; auto. unfold ljpeg_decompress. rewrite EN. cbn [bind]. rewrite EW, EH, ED. cbn [bind].
  assert (H0 : (0 < w * comps)%nat) by nia.
  destruct (Nat.eqb_spec (w * comps) 0); [lia|]. cbn [negb assert_ bind].
  unfold chunks_exact. rewrite area_rows.
  assert (HR : Forall (fun r => length r = (w * comps)%nat) (rows_of image h (w * comps) ((w + pad) * comps))).
  { apply rows_of_len; auto. apply Nat.mul_le_mono_r. lia. }
  rewrite chunks_concat; auto.
  - rewrite Nat.eqb_refl, orb_true_r. reflexivity.
  - rewrite (concat_len _ _ HR). nia.
Qed.

(** ** Header markers *)
Lemma skip_gap gap m tail : Forall (fun b => b <> 255) gap -> m <> 0 -> m <> 255 -> forall pre fuel, (length gap < fuel)%nat ->
  skip_to_marker_loop fuel (mk_bstream (pre ++ gap ++ 255 :: m :: tail) (length pre))
  = Ok (mk_bstream (pre ++ gap ++ 255 :: m :: tail) (length pre + length gap + 1)).
Proof.
  intros HG H0 H1. induction HG as [|g gap Hg HG IH]; intros pre fuel L; destruct fuel as [|fuel]; cbn [length] in L; try lia;
    cbn [skip_to_marker_loop b_buf b_pos].
  - assert (G1 : get (pre ++ [] ++ 255 :: m :: tail) (length pre) = Ok 255).
    { rewrite (get_ok _ _ 0) by (rewrite !app_length; cbn; lia). rewrite app_nth2 by lia. now rewrite Nat.sub_diag. }
    assert (G2 : get (pre ++ [] ++ 255 :: m :: tail) (length pre + 1) = Ok m).
    { rewrite (get_ok _ _ 0) by (rewrite !app_length; cbn; lia). rewrite app_nth2 by lia.
      now replace (length pre + 1 - length pre)%nat with 1%nat by lia. }
    rewrite G1, G2. cbn [bind]. apply Z.eqb_neq in H0, H1. change (255 =? 255) with true. cbn [bind]. rewrite H0, H1. cbn [negb andb length].
    now rewrite Nat.add_0_r.
  - assert (G1 : get (pre ++ (g :: gap) ++ 255 :: m :: tail) (length pre) = Ok g).
    { rewrite (get_ok _ _ 0) by (rewrite !app_length; cbn; lia). rewrite app_nth2 by lia. now rewrite Nat.sub_diag. }
    rewrite G1. cbn [bind]. apply Z.eqb_neq in Hg. rewrite Hg. cbn [bind].
    destruct (Nat.leb_spec (length (pre ++ (g :: gap) ++ 255 :: m :: tail)) (length pre + 1)) as [HC|_].
    { exfalso. rewrite !app_length in HC. cbn [length app] in HC. lia. }
    specialize (IH (pre ++ [g]) fuel ltac:(lia)). rewrite app_length in IH. cbn [length] in IH.
    replace ((pre ++ [g]) ++ gap ++ 255 :: m :: tail) with (pre ++ (g :: gap) ++ 255 :: m :: tail) in IH by now rewrite <- app_assoc.
    rewrite IH. cbn [length]. do 2 f_equal. lia.
Qed.

Lemma header_reject gap m tail bug csfix : Forall (fun b => b <> 255) gap -> m = 217 \/ m = 219 ->
  ljdec_new_full (255 :: 216 :: gap ++ 255 :: m :: tail) bug csfix = Err.
Proof.
  intros HG HM. unfold ljdec_new_full. unfold get_next_marker at 1. cbn [negb]. unfold bs_get_u8. cbn [b_buf b_pos].
  rewrite !(get_ok _ 0 0) by (cbn; lia). cbn [bind nth b_buf b_pos]. change (255 =? 255) with true. cbn [check bind].
  change (0 + 1)%nat with 1%nat. rewrite !(get_ok _ 1 0) by (cbn; lia). cbn [bind nth].
  change ((216 =? 0) || (216 =? 255)) with false. cbn [negb check bind]. change (216 =? 216) with true. cbn [check bind].
  change (1 + 1)%nat with 2%nat. cbn [header_loop]. unfold get_next_marker. cbn [negb]. unfold skip_to_marker. cbn [b_buf].
  pose proof (skip_gap gap m tail HG ltac:(lia) ltac:(lia) [255; 216] (S (length (255 :: 216 :: gap ++ 255 :: m :: tail)))) as SK.
  cbn [app length] in SK. cbn [length]. rewrite SK by (rewrite app_length; cbn; lia). cbn [bind].
  unfold bs_get_u8. cbn [b_buf b_pos].
  assert (G : get (255 :: 216 :: gap ++ 255 :: m :: tail) (2 + length gap + 1) = Ok m).
  { rewrite (get_ok _ _ 0) by (cbn; rewrite app_length; cbn; lia).
    replace (2 + length gap + 1)%nat with (S (S (length gap + 1))) by lia. cbn [nth]. rewrite app_nth2 by lia.
    now replace (length gap + 1 - length gap)%nat with 1%nat by lia. }
  rewrite G. cbn [bind]. destruct HM as [-> | ->]; reflexivity.
Qed.

Lemma start_reject a b tail bug csfix : a <> 255 \/ b <> 216 -> ljdec_new_full (a :: b :: tail) bug csfix = Err.
Proof.
  intros H. unfold ljdec_new_full. unfold get_next_marker at 1. cbn [negb]. unfold bs_get_u8. cbn [b_buf b_pos].
  rewrite !(get_ok _ 0 0) by (cbn; lia). cbn [bind nth b_buf b_pos]. destruct (Z.eqb_spec a 255) as [->|]; [|reflexivity].
  cbn [check bind]. change (0 + 1)%nat with 1%nat. rewrite (get_ok _ 1 0) by (cbn; lia). cbn [bind nth].
  destruct H as [H|H]; [lia|]. destruct ((b =? 0) || (b =? 255)); [reflexivity|]. cbn [negb check bind].
  apply Z.eqb_neq in H. rewrite H. reflexivity.
Qed.

Lemma log2ceil_small : log2ceil 0 = Ok 0%nat /\ log2ceil 1 = Ok 1%nat.
Proof. split; reflexivity. Qed.
