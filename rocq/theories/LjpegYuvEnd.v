(** Round trips of subsampled pictures, the Hasselblad decoder, the dispatch. *)
From Coq Require Import List ZArith Lia Bool.
From Coq Require Import ZifyBool ZifyNat.
From Verif Require Import Base BaseLemmas Pumps PumpProofs PumpSeq LjpegDec LjpegEnc HuffTree HuffCanon HuffBuild HuffDec LjpegAnySpec LjpegAny LjpegAnyTop LjpegBits Crx CrxLL CrxImageSpec CrxEnc LjpegYuv LjpegYuvSpec PefSpec Lanes LjpegYuvProofs LjpegYuvTop.
Import ListNotations.
Open Scope Z_scope.

(** ** Coded differences *)
Definition codes (t : list nat * list nat) : Prop := forall z rest, Z.abs z < 32768 ->
  next_diff false t (encode_diff (fst t) (snd t) z ++ rest) = (z, rest).
Lemma usable_codes d tabs c : usable false d tabs -> (c < length tabs)%nat -> covers (fst (nth c tabs ([], []))) (snd (nth c tabs ([], []))) 15 -> codes (nth c tabs ([], [])).
Proof.
  intros [_ HU] Hc HC z rest Hz. destruct (HU c Hc) as (jc & t & bits & hv & _ & _ & EN & ET & HS). rewrite ET in *. cbn [fst snd] in *.
  destruct (ht_new_inv bits hv false t EN HS) as [A _].
  assert (C15 : (category z <= 15)%nat) by (apply category_bound; change (2 ^ Z.of_nat 15) with 32768; auto).
  apply (next_encoded t); auto.
  - intros i j Hij. apply (sizes_mono bits). lia.
  - intros i Hi. pose proof (sizes_in bits i Hi). pose proof (max_len_le bits 16). lia.
  - apply (ht_new_kraft bits hv false t EN).
Qed.
Lemma turns_split xt dl a b : encode_turns xt dl (a + b) = encode_turns xt dl a ++ flat_map (fun k => encode_diff (fst (turn xt k)) (snd (turn xt k)) (dl k)) (seq a b).
Proof. unfold encode_turns. rewrite seq_app, flat_map_app. reflexivity. Qed.
Lemma turns_after xt dl n rest : (forall k, (k < n)%nat -> codes (turn xt k)) -> small_diffs dl n ->
  forall i, (i <= n)%nat -> after false xt (encode_turns xt dl n ++ rest) i = flat_map (fun k => encode_diff (fst (turn xt k)) (snd (turn xt k)) (dl k)) (seq i (n - i)) ++ rest.
Proof.
  intros HC HS. induction i as [|i IH]; intros Hi; cbn [after]; [now rewrite Nat.sub_0_r|].
  rewrite IH by lia. replace (n - i)%nat with (S (n - S i)) by lia. cbn [seq flat_map]. rewrite <- app_assoc. rewrite (HC i ltac:(lia)) by (apply HS; lia). reflexivity.
Qed.
Lemma turns_diff xt dl n rest i : (forall k, (k < n)%nat -> codes (turn xt k)) -> small_diffs dl n -> (i < n)%nat ->
  diff_no false xt (encode_turns xt dl n ++ rest) i = dl i.
Proof.
  intros HC HS Hi. unfold diff_no. rewrite (turns_after xt dl n rest HC HS i) by lia. replace (n - i)%nat with (S (n - S i)) by lia.
  cbn [seq flat_map]. rewrite <- app_assoc. rewrite (HC i Hi) by (apply HS; lia). reflexivity.
Qed.
Lemma escaped_stuff l : escaped l = stuff l.
Proof. reflexivity. Qed.
Lemma scan_bits bits rest : exists r, byte_bits (unstuff (scan_data bits rest)) = bits ++ r.
Proof.
  unfold scan_data. rewrite escaped_stuff, unstuff_stuff, byte_bits_app. destruct (pack_bits bits) as (r & E). rewrite E, <- app_assoc. eauto.
Qed.
Lemma scan_bytes bits rest : Forall is_byte rest -> Forall is_byte (scan_data bits rest).
Proof. intros H. unfold scan_data. rewrite escaped_stuff. apply Forall_app. split; auto. apply stuff_bytes, pack_bytes. Qed.
Lemma scan_lone bits rest : no_lone_ff rest -> no_lone_ff (scan_data bits rest).
Proof. intros H. unfold scan_data. rewrite escaped_stuff. now apply no_lone_stuff. Qed.
Lemma block_codes d tabs v k : (1 <= v <= 2)%nat -> usable false d tabs -> length tabs = 3%nat -> Forall (fun t => covers (fst t) (snd t) 15) tabs -> codes (turn (block_tabs v tabs) k).
Proof.
  intros Hv HU H3 HC.
  assert (T : forall c, (c < 3)%nat -> codes (tab tabs c)).
  { intros c Hc. apply (usable_codes d); auto; [lia|]. rewrite Forall_forall in HC. apply HC, nth_In. lia. }
  pose proof (xt_len tabs v Hv) as L. unfold turn. rewrite L. set (j := (k mod (2 * v + 2))%nat).
  assert (J : (j < 2 * v + 2)%nat) by (apply Nat.mod_upper_bound; lia). clearbody j.
  destruct (Nat.lt_ge_cases j (2 * v)); [rewrite xt_y by auto; apply T; lia|].
  destruct (Nat.eq_dec j (2 * v)); [subst; rewrite xt_cb; apply T; lia|].
  replace j with (2 * v + 1)%nat by lia. rewrite xt_cr. apply T; lia.
Qed.

Lemma block_pos n bw r c m : (c < bw)%nat -> (m < n)%nat -> ((n * (r * bw + c) + m) / n = r * bw + c /\ (n * (r * bw + c) + m) mod n = m)%nat.
Proof.
  intros Hc Hm. rewrite (Nat.mul_comm n). apply div_mod_at. auto.
Qed.
Lemma delta_422_ok base bw bh q dl : (forall k, (k < 4 * (bw * bh))%nat -> dl k = delta_422 base bw q k) -> diffs_422 base bw bh dl q.
Proof.
  intros H r c Hr Hc. cbv zeta. assert (B : (r * bw + c < bw * bh)%nat) by nia.
  destruct (div_mod_at bw r c Hc) as [D M].
  assert (E : forall m, (m < 4)%nat -> dl (4 * (r * bw + c) + m)%nat = delta_422 base bw q (4 * (r * bw + c) + m)) by (intros; apply H; lia).
  pose proof (E 0%nat ltac:(lia)) as E0. pose proof (E 1%nat ltac:(lia)) as E1. pose proof (E 2%nat ltac:(lia)) as E2. pose proof (E 3%nat ltac:(lia)) as E3.
  unfold delta_422 in E0, E1, E2, E3.
  destruct (block_pos 4 bw r c 0 Hc ltac:(lia)) as [X0 Y0]. destruct (block_pos 4 bw r c 1 Hc ltac:(lia)) as [X1 Y1]. destruct (block_pos 4 bw r c 2 Hc ltac:(lia)) as [X2 Y2]. destruct (block_pos 4 bw r c 3 Hc ltac:(lia)) as [X3 Y3].
  rewrite X0, Y0, D, M in E0. rewrite X1, Y1, D, M in E1. rewrite X2, Y2, D, M in E2. rewrite X3, Y3, D, M in E3. rewrite Nat.add_0_r in E0.
  rewrite E0, E1, E2, E3. repeat split; lia.
Qed.
Ltac six r c bw Hc D M E :=
  pose proof (E 0%nat ltac:(lia)) as E0; pose proof (E 1%nat ltac:(lia)) as E1; pose proof (E 2%nat ltac:(lia)) as E2; pose proof (E 3%nat ltac:(lia)) as E3;
  pose proof (E 4%nat ltac:(lia)) as E4; pose proof (E 5%nat ltac:(lia)) as E5; unfold delta_420, delta_sony in E0, E1, E2, E3, E4, E5;
  destruct (block_pos 6 bw r c 0 Hc ltac:(lia)) as [X0 Y0]; destruct (block_pos 6 bw r c 1 Hc ltac:(lia)) as [X1 Y1]; destruct (block_pos 6 bw r c 2 Hc ltac:(lia)) as [X2 Y2];
  destruct (block_pos 6 bw r c 3 Hc ltac:(lia)) as [X3 Y3]; destruct (block_pos 6 bw r c 4 Hc ltac:(lia)) as [X4 Y4]; destruct (block_pos 6 bw r c 5 Hc ltac:(lia)) as [X5 Y5];
  rewrite X0, Y0, D, M in E0; rewrite X1, Y1, D, M in E1; rewrite X2, Y2, D, M in E2; rewrite X3, Y3, D, M in E3; rewrite X4, Y4, D, M in E4; rewrite X5, Y5, D, M in E5;
  rewrite Nat.add_0_r in E0; rewrite E0, E1, E2, E3, E4, E5; repeat split; lia.
Lemma delta_420_ok base bw bh q dl : (forall k, (k < 6 * (bw * bh))%nat -> dl k = delta_420 base bw q k) -> diffs_420 base bw bh dl q.
Proof.
  intros H r c Hr Hc. cbv zeta. assert (B : (r * bw + c < bw * bh)%nat) by nia.
  destruct (div_mod_at bw r c Hc) as [D M].
  assert (E : forall m, (m < 6)%nat -> dl (6 * (r * bw + c) + m)%nat = delta_420 base bw q (6 * (r * bw + c) + m)) by (intros; apply H; lia).
  six r c bw Hc D M E.
Qed.
Lemma delta_sony_ok base bw bh q dl : (forall k, (k < 6 * (bw * bh))%nat -> dl k = delta_sony base bw q k) -> diffs_sony base bw bh dl q.
Proof.
  intros H r c Hr Hc. cbv zeta. assert (B : (r * bw + c < bw * bh)%nat) by nia.
  destruct (div_mod_at bw r c Hc) as [D M].
  assert (E : forall m, (m < 6)%nat -> dl (6 * (r * bw + c) + m)%nat = delta_sony base bw q (6 * (r * bw + c) + m)) by (intros; apply H; lia).
  six r c bw Hc D M E.
Qed.

(** ** Dispatch *)
Lemma full_422 d out x sw w h : sampled d 2 1 -> ljdec_decode_full d out x sw w h = decode_ljpeg_422 d out w h /\ ljdec_decode_sony d out x sw w h = decode_ljpeg_422 d out w h.
Proof. intros (c0 & E & H & V). unfold ljdec_decode_full, ljdec_decode_sony. rewrite (get_nth_error _ _ _ E). cbn [bind]. rewrite H, V. auto. Qed.
Lemma full_420 d out x sw w h : sampled d 2 2 -> ljdec_decode_full d out x sw w h = decode_ljpeg_420 d out w h /\ ljdec_decode_sony d out x sw w h = decode_sony_ljpeg_420 d out w h.
Proof. intros (c0 & E & H & V). unfold ljdec_decode_full, ljdec_decode_sony. rewrite (get_nth_error _ _ _ E). cbn [bind]. rewrite H, V. auto. Qed.
Lemma full_11 d out x sw w h : sampled d 1 1 -> (ld_pred d <> 8)%nat -> ljdec_decode_full d out x sw w h = ljdec_decode d out x sw w h /\ ljdec_decode_sony d out x sw w h = ljdec_decode d out x sw w h.
Proof.
  intros (c0 & E & H & V) N. unfold ljdec_decode_full, ljdec_decode_sony, ljdec_decode. rewrite (get_nth_error _ _ _ E). cbn [bind]. rewrite H, V.
  cbn [Z.eqb Pos.eqb andb]. replace (ld_pred d =? 8)%nat with false by lia. destruct (_ && _)%bool; auto.
Qed.
Lemma full_hass d out x sw w h : sampled d 1 1 -> ld_pred d = 8%nat -> ljdec_decode_full d out x sw w h = decode_hasselblad d out w /\ ljdec_decode_sony d out x sw w h = decode_hasselblad d out w.
Proof. intros (c0 & E & H & V) N. unfold ljdec_decode_full, ljdec_decode_sony. rewrite (get_nth_error _ _ _ E). cbn [bind]. rewrite H, V, N. auto. Qed.

(** ** Hasselblad *)
Lemma words_swap : forall n l, length l = (4 * n)%nat -> words_reversed l = swap32 l.
Proof.
  induction n; intros l H; [destruct l; [reflexivity|discriminate]|].
  do 4 (destruct l as [|? l]; [cbn [length] in H; lia|]). cbn [words_reversed swap32]. rewrite IHn; auto. cbn [length] in H. lia.
Qed.
Lemma msb32_again k k' p l : msb32_rep k p l -> (k' <= length l)%nat -> msb32_rep k' p l.
Proof. intros (A & B & C & D & E & F) H. repeat split; try apply A; auto. now rewrite <- F. Qed.
Lemma huff_len_any {P} (o : pump_ops P) rep (R : pump_refines o rep) t sz hv k p l : atable t sz hv -> (16 <= k)%nat -> rep k p l ->
  exists p', huff_len o t p = Ok ((fst (symbol (sz, hv) l), snd (symbol (sz, hv) l), 0%nat), p') /\ rep (k - fst (symbol (sz, hv) l))%nat p' (skipn (fst (symbol (sz, hv) l)) l).
Proof.
  intros D Hk HR. unfold huff_len. pose proof (at_nbits _ _ _ D) as NB. destruct (symbol_bounds t sz hv l D) as [B1 B2].
  destruct (pr_peek R k p l (ht_nbits t) HR) as (p1 & E1 & R1 & C1); [lia|lia|]. rewrite E1. cbn [bind].
  pose proof (peekv_range (ht_nbits t) l) as PR. rewrite (get_ok _ _ (0, 0, 0)%nat).
  2:{ rewrite (at_len _ _ _ D). apply Nat2Z.inj_lt. rewrite pow2_nat. lia. }
  cbn [bind]. fold (lookup t (peekv (ht_nbits t) l)). rewrite (lookup_symbol t sz hv l D). cbn [fst snd].
  destruct (C1 _ B1) as (p2 & E2 & R2). rewrite E2. cbn [bind]. eauto.
Qed.
Lemma mag_le bug c : (c <= 16)%nat -> (magnitude_bits bug c <= c)%nat.
Proof. intros H. unfold magnitude_bits. destruct (Nat.eqb_spec c 16); [subst; destruct bug; lia|lia]. Qed.
Lemma difference_range c v : (c <= 16)%nat -> 0 <= v < 2 ^ Z.of_nat c -> -32768 <= difference c v <= 32767.
Proof.
  intros Hc Hv. unfold difference. destruct (Nat.eqb_spec c 0); [lia|]. destruct (Nat.eqb_spec c 16); [lia|].
  assert (2 ^ Z.of_nat c <= 32768) by (apply (pow2_le c 15); lia). destruct (Z.ltb_spec v (2 ^ Z.of_nat (c - 1))); lia.
Qed.

Section Hass.
Context (t : hufft) (sz hv : list nat) (A : atable t sz hv).
Let bug := ht_dng_bug t.
Let tb := (sz, hv).
Lemma pair_any p l : (64 <= length l)%nat -> msb32_rep 64 p l ->
  exists e1 e2 p1 p2 p3 p4 k, huff_len msb32_ops t p = Ok (e1, p1) /\ huff_len msb32_ops t p1 = Ok (e2, p2) /\
    huff_diff msb32_ops t e1 p2 = Ok (fst (fst (pair_diff bug tb l)), p3) /\ huff_diff msb32_ops t e2 p3 = Ok (snd (fst (pair_diff bug tb l)), p4) /\
    msb32_rep k p4 (snd (pair_diff bug tb l)) /\
    -32768 <= fst (fst (pair_diff bug tb l)) <= 32767 /\ -32768 <= snd (fst (pair_diff bug tb l)) <= 32767.
Proof.
  intros HL R. destruct (huff_len_any msb32_ops msb32_rep msb32_refines t sz hv 64 p l A ltac:(lia) R) as (p1 & E1 & R1).
  unfold pair_diff, tb. destruct (symbol_bounds t sz hv l A) as [B1 B2]. pose proof (at_nbits _ _ _ A) as NB.
  destruct (symbol (sz, hv) l) as [len1 cat1] eqn:S1. cbn [fst snd] in *.
  destruct (huff_len_any msb32_ops msb32_rep msb32_refines t sz hv (64 - len1)%nat p1 _ A ltac:(lia) R1) as (p2 & E2 & R2).
  destruct (symbol_bounds t sz hv (skipn len1 l) A) as [B3 B4].
  destruct (symbol (sz, hv) (skipn len1 l)) as [len2 cat2] eqn:S2. cbn [fst snd] in *.
  destruct (huff_diff_any msb32_ops msb32_rep msb32_refines t len1 cat1 (64 - len1 - len2)%nat p2 _ B2 ltac:(lia) R2) as (p3 & E3 & R3).
  pose proof (mag_le (ht_dng_bug t) cat1 B2) as M1.
  destruct (huff_diff_any msb32_ops msb32_rep msb32_refines t len2 cat2 (64 - len1 - len2 - magnitude_bits (ht_dng_bug t) cat1)%nat p3 _ B4 ltac:(lia) R3) as (p4 & E4 & R4).
  exists (len1, cat1, 0%nat), (len2, cat2, 0%nat), p1, p2, p3, p4. eexists. fold bug in E3, E4, R3, R4.
  split; [exact E1|]. split; [exact E2|]. split; [exact E3|]. split; [exact E4|]. split; [exact R4|].
  split; apply difference_range; auto; apply peekv_range.
Qed.

Context (bits : list bool) (half h : nat) (HH : (1 <= half)%nat).
Context (HD : forall i, (i < half * h)%nat -> (64 <= length (after_pairs bug tb bits i))%nat).
Context (HW : Z.of_nat half <= 65534).
Let w := (2 * half)%nat.
Let dif := hass_diff bug tb bits.
Lemma dif_even i : dif (2 * i) = fst (fst (pair_diff bug tb (after_pairs bug tb bits i))).
Proof.
  unfold dif, hass_diff. rewrite Nat.mul_comm, Nat.div_mul, Nat.mod_mul by lia. cbn [Nat.eqb]. destruct (pair_diff _ _ _) as [[a b] c]. reflexivity.
Qed.
Lemma dif_odd i : dif (2 * i + 1) = snd (fst (pair_diff bug tb (after_pairs bug tb bits i))).
Proof.
  unfold dif, hass_diff. rewrite Nat.mul_comm. rewrite Nat.div_add_l by lia. change (1 / 2)%nat with 0%nat. rewrite Nat.add_0_r, (Nat.add_comm (i * 2)), Nat.mod_add by lia.
  cbn [Nat.modulo Nat.divmod fst snd Nat.sub Nat.eqb]. destruct (pair_diff _ _ _) as [[a b] c]. reflexivity.
Qed.
Definition run (r m n : nat) : Z := 32768 + fold_right Z.add 0 (map (fun j => dif (r * w + 2 * j + m)) (seq 0 n)).
Lemma fold_add l a : fold_right Z.add a l = fold_right Z.add 0 l + a.
Proof. induction l; cbn [fold_right]; lia. Qed.
Lemma run_S r m n : run r m (S n) = run r m n + dif (r * w + 2 * n + m).
Proof. unfold run. rewrite seq_S, map_app, fold_right_app. cbn [map fold_right plus]. rewrite fold_add. lia. Qed.
Lemma sample_even r i : hass_sample dif w r (2 * i) = run r 0 (S i) mod 65536.
Proof. unfold hass_sample, run. rewrite (Nat.mul_comm 2 i), Nat.div_mul, Nat.mod_mul by lia. reflexivity. Qed.
Lemma sample_odd r i : hass_sample dif w r (2 * i + 1) = run r 1 (S i) mod 65536.
Proof.
  unfold hass_sample, run. rewrite (Nat.mul_comm 2 i). rewrite Nat.div_add_l by lia. change (1 / 2)%nat with 0%nat. rewrite Nat.add_0_r, (Nat.add_comm (i * 2)), Nat.mod_add by lia. reflexivity.
Qed.
Definition hinv (r n : nat) (out : list Z) (p : wpump) : Prop :=
  length out = (w * h)%nat /\ (forall j, (j < r * w + 2 * n)%nat -> nth j out 0 = hass_sample dif w (j / w) (j mod w)) /\
  exists k, msb32_rep k p (after_pairs bug tb bits (r * half + n)).
Definition hrow (r n : nat) (s : Z * Z * list Z * wpump) : Prop :=
  let '(p1, p2, out, p) := s in
  p1 = run r 0 n /\ p2 = run r 1 n /\ Z.abs p1 <= 32768 * (Z.of_nat n + 1) /\ Z.abs p2 <= 32768 * (Z.of_nat n + 1) /\ hinv r n out p.
Lemma line_ok r out p : (r < h)%nat -> hinv r 0 out p -> exists st, hasselblad_line t w (r * w) (out, p) = Ok st /\ hinv r half (fst st) (snd st).
Proof.
  intros Hr I. unfold hasselblad_line. replace (w / 2)%nat with half by (unfold w; rewrite Nat.mul_comm, Nat.div_mul; lia). cbn [fst snd].
  match goal with |- context [for_each _ ?f _] => set (body := f) end.
  destruct (for_each_seq_inv body (hrow r) 0 half (32768, 32768, out, p)) as (s' & E & X).
  - unfold hrow, run. cbn [seq map fold_right]. repeat split; try lia; try apply I.
  - intros i [[[q1 q2] o] pp] Hi (V1 & V2 & B1 & B2 & L & F & k & R). unfold body.
    assert (HI : (r * half + i < half * h)%nat) by (clear - Hi Hr; nia).
    pose proof (HD _ HI) as LB. apply (msb32_again _ 64) in R; auto.
    destruct (pair_any pp _ LB R) as (e1 & e2 & p1 & p2 & p3 & p4 & k' & E1 & E2 & E3 & E4 & R4 & D1 & D2).
    rewrite E1. cbn [bind]. rewrite E2. cbn [bind]. rewrite E3. cbn [bind]. rewrite i32_ok by (clear - B1 D1 HW Hi; lia). cbn [bind]. rewrite E4. cbn [bind].
    rewrite i32_ok by (clear - B2 D2 HW Hi; lia). cbn [bind].
    rewrite <- dif_even, <- dif_odd in *.
    assert (P1 : (2 * (r * half + i) = r * w + 2 * i)%nat) by (unfold w; lia). rewrite P1 in *.
    assert (HX : (r * w + 2 * i + 1 < w * h)%nat) by (clear - P1 HI; unfold w in *; lia).
    rewrite put_ok by lia. cbn [bind]. rewrite put_ok by (rewrite upd_list_length; lia). cbn [bind]. eexists. split; [reflexivity|].
    unfold hrow. rewrite !run_S, Nat.add_0_r, <- V1, <- V2. split; [reflexivity|]. split; [reflexivity|]. split; [clear - B1 D1; lia|]. split; [clear - B2 D2; lia|].
    split; [now rewrite !upd_list_length|]. split; [|exists k'; replace (r * half + S i)%nat with (S (r * half + i)) by lia; exact R4].
    intros j Hj. assert (WR : (2 * i + 1 < w)%nat) by (clear - Hi; unfold w; lia).
    destruct (Nat.eq_dec j (r * w + 2 * i + 1)) as [->|N1].
    + rewrite nth_upd_eq by (rewrite upd_list_length; lia). rewrite <- Nat.add_assoc. destruct (div_mod_at w r (2 * i + 1) WR) as [-> ->].
      rewrite sample_odd, run_S, <- V2. unfold wrap_u16. rewrite Nat.add_assoc. reflexivity.
    + rewrite nth_upd_neq by auto. destruct (Nat.eq_dec j (r * w + 2 * i)) as [->|N2].
      * rewrite nth_upd_eq by lia. destruct (div_mod_at w r (2 * i) ltac:(lia)) as [-> ->]. rewrite sample_even, run_S, Nat.add_0_r, <- V1. reflexivity.
      * rewrite nth_upd_neq by auto. apply F. lia.
  - rewrite E. destruct s' as [[[q1 q2] o] pp]. cbn [bind]. eexists. split; [reflexivity|]. destruct X as (_ & _ & _ & _ & X). exact X.
Qed.
End Hass.

Lemma dec_hass bug d tb half h out : usable bug d [tb] -> (1 <= half)%nat -> Z.of_nat half <= 65534 ->
  Forall is_byte (ld_buffer d) -> (length (ld_buffer d) mod 4 = 0)%nat ->
  (forall i, (i < half * h)%nat -> (64 <= length (after_pairs bug tb (byte_bits (words_reversed (ld_buffer d))) i))%nat) -> length out = (2 * half * h)%nat ->
  decode_hasselblad d out (2 * half) = Ok (samples (hass_sample (hass_diff bug tb (byte_bits (words_reversed (ld_buffer d)))) (2 * half)) (2 * half) h).
Proof.
  intros HU HH HW HB H4 HD L. destruct (usable_tables bug d [tb] HU 0 ltac:(cbn; lia)) as (t & ET & EB & A). cbn [nth] in A. destruct tb as [sz hv]. cbn [fst snd] in A. subst bug.
  unfold decode_hasselblad. rewrite ET. cbn [bind]. replace (2 * half =? 0)%nat with false by lia. cbn [negb assert_ bind].
  replace (length out / (2 * half))%nat with h by (rewrite L, Nat.mul_comm, Nat.div_mul; lia).
  assert (Q : length (ld_buffer d) = (4 * (length (ld_buffer d) / 4))%nat) by (pose proof (Nat.div_mod (length (ld_buffer d)) 4 ltac:(lia)); lia).
  set (bits := byte_bits (words_reversed (ld_buffer d))) in *.
  destruct (for_each_seq_inv (fun k st => hasselblad_line t (2 * half) (k * (2 * half)) st) (fun k st => hinv t sz hv bits half h k 0 (fst st) (snd st)) 0 h (out, wpump_new (ld_buffer d))) as (st & E & X).
  - split; [exact L|]. split; [intros j Hj; lia|]. exists 0%nat. cbn [Nat.mul Nat.add after_pairs snd]. unfold bits. rewrite (words_swap _ _ Q). apply (msb32_new_rep _ _ _ HB Q). lia.
  - intros i [o p] Hi I. destruct (line_ok t sz hv A bits half h HH HD HW i o p ltac:(lia) I) as (st & E & Y). exists st. split; [exact E|].
    destruct Y as (Y1 & Y2 & k & Y3). split; [exact Y1|]. split; [intros j Hj; apply Y2; lia|]. exists k. replace (S i * half + 0)%nat with (i * half + half)%nat by lia. exact Y3.
  - rewrite E. destruct st as [o p]. cbn [bind fst snd] in *. destruct X as (Y1 & Y2 & _). f_equal.
    apply (nth_ext_len _ _ 0); [unfold samples; now rewrite map_length, seq_length|]. intros i Hi. rewrite samples_nth by lia. apply Y2. lia.
Qed.
