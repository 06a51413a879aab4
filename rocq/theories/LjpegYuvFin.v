(** The subsampled pictures through the public entry points. *)
From Coq Require Import List ZArith Lia Bool.
From Coq Require Import ZifyBool ZifyNat.
From Verif Require Import Base BaseLemmas Pumps PumpProofs LjpegDec LjpegAnySpec LjpegAny LjpegAnyTop LjpegBits Crx CrxLL CrxImageSpec LjpegYuv LjpegLeaf LjpegYuvSpec PefSpec Lanes LjpegYuvProofs LjpegYuvTop LjpegYuvEnd LjpegLeafProofs.
Import ListNotations.
Open Scope Z_scope.

Lemma top_422 bug d tabs bw bh q out x sw : usable bug d tabs -> length tabs = 3%nat -> sampled d 2 1 -> (1 <= bw)%nat -> (1 <= bh)%nat -> fits16 1 bw bh q ->
  (ld_pt d < sof_precision (ld_sof d))%nat -> sof_width (ld_sof d) = (2 * bw)%nat -> sof_height (ld_sof d) = bh ->
  Forall is_byte (ld_buffer d) -> no_lone_ff (ld_buffer d) ->
  diffs_422 (half_range d) bw bh (diff_no bug (block_tabs 1 tabs) (byte_bits (unstuff (ld_buffer d)))) q -> length out = (6 * bw * bh)%nat ->
  ljdec_decode_full d out x sw (6 * bw) bh = Ok (samples (interleaved 1 q) (6 * bw) bh) /\ ljdec_decode_sony d out x sw (6 * bw) bh = Ok (samples (interleaved 1 q) (6 * bw) bh).
Proof. intros HU H3 HS Hw Hh HF HP EW EH HB HN HD L. destruct (full_422 d out x sw (6 * bw) bh HS) as [-> ->]. rewrite (dec_422 bug d tabs bw bh q out); auto. Qed.
Lemma top_420 bug d tabs bw bh q out x sw : usable bug d tabs -> length tabs = 3%nat -> sampled d 2 2 -> (1 <= bw)%nat -> (1 <= bh)%nat -> fits16 2 bw bh q ->
  (ld_pt d < sof_precision (ld_sof d))%nat -> sof_width (ld_sof d) = (2 * bw)%nat -> sof_height (ld_sof d) = (2 * bh)%nat ->
  Forall is_byte (ld_buffer d) -> no_lone_ff (ld_buffer d) ->
  diffs_420 (half_range d) bw bh (diff_no bug (block_tabs 2 tabs) (byte_bits (unstuff (ld_buffer d)))) q -> length out = (6 * bw * (2 * bh))%nat ->
  ljdec_decode_full d out x sw (6 * bw) (2 * bh) = Ok (samples (interleaved 2 q) (6 * bw) (2 * bh)).
Proof. intros HU H3 HS Hw Hh HF HP EW EH HB HN HD L. destruct (full_420 d out x sw (6 * bw) (2 * bh) HS) as [-> _]. now apply (dec_420 bug d tabs bw bh q out). Qed.
Lemma top_sony bug d tabs bw bh q out x sw : usable bug d tabs -> length tabs = 3%nat -> sampled d 2 2 -> (1 <= bw)%nat -> (1 <= bh)%nat -> fits16 2 bw bh q ->
  (ld_pt d < sof_precision (ld_sof d))%nat -> sof_width (ld_sof d) = (2 * bw)%nat -> sof_height (ld_sof d) = (2 * bh)%nat ->
  Forall is_byte (ld_buffer d) -> no_lone_ff (ld_buffer d) ->
  diffs_sony (half_range d) bw bh (diff_no bug (block_tabs 2 tabs) (byte_bits (unstuff (ld_buffer d)))) q -> length out = (6 * bw * (2 * bh))%nat ->
  ljdec_decode_sony d out x sw (6 * bw) (2 * bh) = Ok (samples (interleaved 2 q) (6 * bw) (2 * bh)).
Proof. intros HU H3 HS Hw Hh HF HP EW EH HB HN HD L. destruct (full_420 d out x sw (6 * bw) (2 * bh) HS) as [_ ->]. now apply (dec_sony bug d tabs bw bh q out). Qed.

(** ** Stored pictures *)
Lemma stored_diffs d tabs v dl n rest : (1 <= v <= 2)%nat -> usable false d tabs -> length tabs = 3%nat -> Forall (fun t => covers (fst t) (snd t) 15) tabs -> small_diffs dl n ->
  forall k, (k < n)%nat -> diff_no false (block_tabs v tabs) (byte_bits (unstuff (scan_data (encode_turns (block_tabs v tabs) dl n) rest))) k = dl k.
Proof.
  intros Hv HU H3 HC HS k Hk. destruct (scan_bits (encode_turns (block_tabs v tabs) dl n) rest) as (r & ->).
  apply turns_diff; auto. intros j _. now apply (block_codes d).
Qed.
Lemma stored_422 d tabs bw bh q out x sw rest : usable false d tabs -> length tabs = 3%nat -> Forall (fun t => covers (fst t) (snd t) 15) tabs -> sampled d 2 1 -> (1 <= bw)%nat -> (1 <= bh)%nat -> fits16 1 bw bh q ->
  (ld_pt d < sof_precision (ld_sof d))%nat -> sof_width (ld_sof d) = (2 * bw)%nat -> sof_height (ld_sof d) = bh ->
  ld_buffer d = scan_data (encode_turns (block_tabs 1 tabs) (delta_422 (half_range d) bw q) (4 * (bw * bh))) rest -> Forall is_byte rest -> no_lone_ff rest ->
  small_diffs (delta_422 (half_range d) bw q) (4 * (bw * bh)) -> length out = (6 * bw * bh)%nat ->
  ljdec_decode_full d out x sw (6 * bw) bh = Ok (samples (interleaved 1 q) (6 * bw) bh) /\ ljdec_decode_sony d out x sw (6 * bw) bh = Ok (samples (interleaved 1 q) (6 * bw) bh).
Proof.
  intros HU H3 HC HS Hw Hh HF HP EW EH EB HB HN HD L. apply (top_422 false d tabs bw bh q); auto; try rewrite EB; [now apply scan_bytes|now apply scan_lone|].
  apply delta_422_ok. apply (stored_diffs d); auto.
Qed.
Lemma stored_420 d tabs bw bh q out x sw rest : usable false d tabs -> length tabs = 3%nat -> Forall (fun t => covers (fst t) (snd t) 15) tabs -> sampled d 2 2 -> (1 <= bw)%nat -> (1 <= bh)%nat -> fits16 2 bw bh q ->
  (ld_pt d < sof_precision (ld_sof d))%nat -> sof_width (ld_sof d) = (2 * bw)%nat -> sof_height (ld_sof d) = (2 * bh)%nat ->
  ld_buffer d = scan_data (encode_turns (block_tabs 2 tabs) (delta_420 (half_range d) bw q) (6 * (bw * bh))) rest -> Forall is_byte rest -> no_lone_ff rest ->
  small_diffs (delta_420 (half_range d) bw q) (6 * (bw * bh)) -> length out = (6 * bw * (2 * bh))%nat ->
  ljdec_decode_full d out x sw (6 * bw) (2 * bh) = Ok (samples (interleaved 2 q) (6 * bw) (2 * bh)).
Proof.
  intros HU H3 HC HS Hw Hh HF HP EW EH EB HB HN HD L. apply (top_420 false d tabs bw bh q); auto; try rewrite EB; [now apply scan_bytes|now apply scan_lone|].
  apply delta_420_ok. apply (stored_diffs d); auto.
Qed.
Lemma stored_sony d tabs bw bh q out x sw rest : usable false d tabs -> length tabs = 3%nat -> Forall (fun t => covers (fst t) (snd t) 15) tabs -> sampled d 2 2 -> (1 <= bw)%nat -> (1 <= bh)%nat -> fits16 2 bw bh q ->
  (ld_pt d < sof_precision (ld_sof d))%nat -> sof_width (ld_sof d) = (2 * bw)%nat -> sof_height (ld_sof d) = (2 * bh)%nat ->
  ld_buffer d = scan_data (encode_turns (block_tabs 2 tabs) (delta_sony (half_range d) bw q) (6 * (bw * bh))) rest -> Forall is_byte rest -> no_lone_ff rest ->
  small_diffs (delta_sony (half_range d) bw q) (6 * (bw * bh)) -> length out = (6 * bw * (2 * bh))%nat ->
  ljdec_decode_sony d out x sw (6 * bw) (2 * bh) = Ok (samples (interleaved 2 q) (6 * bw) (2 * bh)).
Proof.
  intros HU H3 HC HS Hw Hh HF HP EW EH EB HB HN HD L. apply (top_sony false d tabs bw bh q); auto; try rewrite EB; [now apply scan_bytes|now apply scan_lone|].
  apply delta_sony_ok. apply (stored_diffs d); auto.
Qed.

(** ** A negative luma sample *)
Lemma add_wide bug t sz hv prev p l : ht_dng_bug t = bug -> atable t sz hv -> jpeg_rep 32 p l -> -1000000 <= prev <= 1000000 ->
  exists p', add_diff t prev p = Ok (prev + fst (next_diff bug (sz, hv) l), p') /\ jpeg_rep 32 p' (snd (next_diff bug (sz, hv) l)) /\ -32768 <= fst (next_diff bug (sz, hv) l) <= 32767.
Proof.
  intros Eb A R HP. unfold add_diff. destruct (huff_decode_any jpeg_ops jpeg_rep jpeg_refines t _ _ 32 p _ A (Nat.le_refl _) R) as (p' & E1 & R1).
  rewrite Eb in E1, R1. rewrite E1. cbn [bind].
  assert (D : -32768 <= fst (next_diff bug (sz, hv) l) <= 32767).
  { unfold next_diff. destruct (symbol_bounds t sz hv l A) as [_ B]. destruct (symbol (sz, hv) l) as [len cat]. cbn [fst snd] in *. apply difference_range; auto. apply peekv_range. }
  rewrite i32_ok by lia. exists p'. split; [reflexivity|]. split; [|exact D]. destruct R1 as [I S]. split; auto.
Qed.
Lemma negative_422 bug d tabs bw bh out x sw : usable bug d tabs -> length tabs = 3%nat -> sampled d 2 1 ->
  (ld_pt d < sof_precision (ld_sof d) <= 16)%nat -> sof_width (ld_sof d) = (2 * bw)%nat -> sof_height (ld_sof d) = bh ->
  Forall is_byte (ld_buffer d) -> no_lone_ff (ld_buffer d) ->
  half_range d + diff_no bug (block_tabs 1 tabs) (byte_bits (unstuff (ld_buffer d))) 0 < 0 ->
  ljdec_decode_full d out x sw (6 * bw) bh = Panic.
Proof.
  intros HU H3 HS HPT EW EH HBY HFF HD. destruct (full_422 d out x sw (6 * bw) bh HS) as [-> _].
  destruct (usable_tables bug d tabs HU 0 ltac:(lia)) as (t1 & E1 & B1 & A1). destruct (usable_tables bug d tabs HU 1 ltac:(lia)) as (t2 & E2 & B2 & A2).
  destruct (usable_tables bug d tabs HU 2 ltac:(lia)) as (t3 & E3 & B3 & A3).
  unfold decode_ljpeg_422. rewrite yuv_checks by lia. cbn [bind]. rewrite E1, E2, E3. cbn [bind]. rewrite base_ok by lia. cbn [bind]. unfold block_422.
  assert (HB : 0 <= half_range d < 65536).
  { unfold half_range. assert (2 ^ Z.of_nat (sof_precision (ld_sof d) - ld_pt d - 1) <= 2 ^ 15) by (apply Z.pow_le_mono_r; lia). change (2 ^ 15) with 32768 in H. split; [apply Z.pow_nonneg; lia|lia]. }
  pose proof (jpeg_new_rep 32 (ld_buffer d) HBY HFF) as R0.
  destruct (add_wide bug t1 _ _ (half_range d) _ _ B1 A1 R0 ltac:(lia)) as (p1 & D1 & R1 & L1). rewrite D1. cbn [bind].
  destruct (add_wide bug t1 _ _ (half_range d + fst (next_diff bug (fst (nth 0 tabs ([], [])), snd (nth 0 tabs ([], []))) (byte_bits (unstuff (ld_buffer d))))) _ _ B1 A1 R1 ltac:(lia)) as (p2 & D2 & R2 & _). rewrite D2. cbn [bind].
  destruct (add_wide bug t2 _ _ (half_range d) _ _ B2 A2 R2 ltac:(lia)) as (p3 & D3 & R3 & _). rewrite D3. cbn [bind].
  destruct (add_wide bug t3 _ _ (half_range d) _ _ B3 A3 R3 ltac:(lia)) as (p4 & D4 & R4 & _). rewrite D4. cbn [bind].
  unfold diff_no in HD. cbn [after] in HD. replace (turn (block_tabs 1 tabs) 0) with (nth 0 tabs ([], [])) in HD by reflexivity.
  unfold set_yuv_422. rewrite <- surjective_pairing. rewrite <- surjective_pairing in D1.
  replace (0 <=? half_range d + fst (next_diff bug (nth 0 tabs ([], [])) (byte_bits (unstuff (ld_buffer d))))) with false by lia. reflexivity.
Qed.

(** ** Hasselblad, Leaf, plain pictures *)
Lemma top_hass bug d tb half h out x sw : usable bug d [tb] -> sampled d 1 1 -> ld_pred d = 8%nat -> (1 <= half)%nat -> Z.of_nat half <= 65534 ->
  Forall is_byte (ld_buffer d) -> (length (ld_buffer d) mod 4 = 0)%nat ->
  (forall i, (i < half * h)%nat -> (64 <= length (after_pairs bug tb (byte_bits (words_reversed (ld_buffer d))) i))%nat) -> length out = (2 * half * h)%nat ->
  ljdec_decode_full d out x sw (2 * half) h = Ok (samples (hass_sample (hass_diff bug tb (byte_bits (words_reversed (ld_buffer d)))) (2 * half)) (2 * half) h).
Proof. intros HU HS HP Hh HW HB H4 HD L. destruct (full_hass d out x sw (2 * half) h HS HP) as [-> _]. now apply dec_hass. Qed.
Lemma top_leaf src d tabs half h s first others rest : ljdec_new_full src true true = Ok d -> usable true d tabs -> (2 <= length tabs)%nat -> (1 <= half)%nat -> (1 <= h)%nat ->
  (ld_pt d < sof_precision (ld_sof d) <= 16)%nat ->
  ld_buffer d = leaf_data first others rest -> Forall is_byte (ld_buffer d) -> Forall (fun p => separator (fst p)) others -> S (length others) = ((h - 1) / 8 + 1)%nat ->
  leaf_picture (half_range d) (fun k i => diff_no true [tab tabs 0; tab tabs 1] (byte_bits (leaf_strip first others k)) i) (2 * half) h s ->
  mos_do_decode src false (2 * half) h = Ok (samples s (2 * half) h) /\
  mos_do_decode src true (2 * half) h = Ok (samples (fun r c => s (interlaced_row h r) c) (2 * half) h).
Proof.
  intros EN HU HL Hw Hh HPT EB HBY HS HN HP. unfold mos_do_decode. rewrite EN. cbn [bind].
  rewrite (leaf_ok true d tabs half h s first others rest HU HL Hw Hh ltac:(lia) ltac:(lia) EB HBY HS HN HP). cbn [bind]. split; [reflexivity|].
  replace (2 * half =? 0)%nat with false by lia. cbn [negb assert_ bind]. apply leaf_rows_ok. lia.
Qed.
Lemma leaf_count d w h offs : leaf_offsets (S (length (ld_buffer d))) (mk_bstream (ld_buffer d) 0) = Ok offs -> (1 <= h)%nat -> S (length offs) <> ((h - 1) / 8 + 1)%nat ->
  decode_leaf d w h = Err.
Proof.
  intros E Hh N. unfold decode_leaf. rewrite E. cbn [bind]. rewrite usub_ok by lia. cbn [bind]. cbn zeta. cbn [length].
  replace (S (length offs) =? (h - 1) / 8 + 1)%nat with false by lia. reflexivity.
Qed.
Lemma leaf_wrong d w h first others rest : ld_buffer d = leaf_data first others rest -> Forall (fun p => separator (fst p)) others -> (1 <= h)%nat -> S (length others) <> ((h - 1) / 8 + 1)%nat ->
  decode_leaf d w h = Err.
Proof.
  intros EB HS Hh N. apply (leaf_count d w h (strip_starts 0 first others)); auto; [|now rewrite starts_length].
  rewrite EB. apply (offsets_ok rest others [] first); auto.
  unfold leaf_data. rewrite !app_length. assert (le (length others) (length (flat_map (fun p : Z * list Z => 255 :: fst p :: escaped (snd p)) others))); [|lia].
  clear. induction others; cbn [length flat_map]; [lia|]. rewrite app_length. cbn [length]. lia.
Qed.
