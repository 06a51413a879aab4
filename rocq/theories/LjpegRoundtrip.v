(** Lossless JPEG: encoding followed by decoding returns the samples. *)
From Coq Require Import List ZArith Lia Bool.
From Coq Require Import ZifyBool ZifyNat.
From Verif Require Import Base BaseLemmas Pumps PumpProofs LjpegEnc LjpegDec HuffTree HuffCanon HuffBuild HuffDec HuffDht
  LjpegBits LjpegScan LjpegDecode LjpegHeader.
Import ListNotations.
Open Scope Z_scope.

Lemma u16be_bytes v : Forall is_byte (u16be v).
Proof.
  unfold u16be, wrap_u8. repeat constructor; unfold is_byte; change (2 ^ 8) with 256;
  apply Z.mod_pos_bound; lia.
Qed.

Lemma filter_len {A} (f : A -> bool) l : (length (filter f l) <= length l)%nat.
Proof. induction l; simpl; auto. destruct (f a); simpl; lia. Qed.

Lemma dht_segments_bytes codes : forall i, (i + length codes <= 4)%nat ->
  (forall c, In c codes -> canon (fst c) (snd c)) -> Forall is_byte (dht_segments i (map tbl_of codes)).
Proof.
  induction codes as [|[sz hv] codes IH]; intros i Hi HC; cbn [map dht_segments]; [constructor|].
  assert (C : canon sz hv) by (apply (HC (sz, hv)); now left). cbn [length] in Hi.
  apply Forall_app. split; [|apply IH; [lia|intros; apply HC; now right]].
  unfold tbl_of. cbn [fst snd]. rewrite (dht_segment_eq sz hv C i) by lia.
  pose proof (cn_bound _ _ C). pose proof (cn_len _ _ C).
  apply Forall_app; split; [repeat constructor; unfold is_byte; lia|].
  apply Forall_app; split; [apply u16be_bytes|].
  apply Forall_app; split; [repeat constructor; unfold is_byte; lia|].
  apply Forall_app; split.
  - apply Forall_forall. intros y Hy. apply in_map_iff in Hy. destruct Hy as (c & <- & _).
    unfold is_byte. unfold count. pose proof (filter_len (Nat.eqb c) sz). 
    match goal with |- context [length (filter ?f sz)] => pose proof (filter_len f sz) end. lia.
  - apply Forall_forall. intros y Hy. apply in_map_iff in Hy. destruct Hy as (c & <- & Hc).
    apply (cn_hv _ _ C) in Hc. unfold is_byte. lia.
Qed.

Lemma sample_u16 image w comps pt pad r c : Forall is_u16 image -> 0 <= sample image w comps pt pad r c < 65536.
Proof.
  intros H. unfold sample. rewrite Z.shiftr_div_pow2 by lia.
  assert (0 <= nth (r * ((w + pad) * comps) + c) image 0 < 65536).
  { destruct (nth_in_or_default (r * ((w + pad) * comps) + c) image 0) as [I|E]; [|rewrite E; lia].
    rewrite Forall_forall in H. apply (H _ I). }
  pose proof (pow2_pos pt). split; [apply Z.div_pos; lia|].
  apply Z.le_lt_trans with (nth (r * ((w + pad) * comps) + c) image 0); [|lia].
  apply Z.div_le_upper_bound; nia.
Qed.

(** The bytes up to the entropy coded segment. *)
Definition header_bytes (w h comps depth px pt : nat) (codes : list (list nat * list nat)) : list Z :=
  [255; 216] ++ [255; 195]
    ++ u16be (2 + 6 + Z.of_nat comps * 3) ++ [Z.of_nat depth]
    ++ u16be (wrap_u16 (Z.of_nat h)) ++ u16be (wrap_u16 (Z.of_nat w))
    ++ [wrap_u8 (Z.of_nat comps)] ++ flat_map (fun c => [wrap_u8 (Z.of_nat c); 17; 0]) (seq 0 comps)
    ++ dht_segments 0 (map tbl_of codes)
    ++ [255; 218] ++ u16be (6 + Z.of_nat comps * 2) ++ [wrap_u8 (Z.of_nat comps)]
    ++ flat_map (fun c => [wrap_u8 (Z.of_nat c); wrap_u8 (Z.shiftl (Z.of_nat c) 4)]) (seq 0 comps)
    ++ [Z.of_nat px; 0; Z.land (Z.of_nat pt) 15].

Lemma ljpeg_shape dbg image w h comps depth px pt pad :
  (1 <= w)%nat -> Z.of_nat w <= 65535 -> (1 <= h)%nat -> Z.of_nat h <= 65535 ->
  (1 <= comps <= 4)%nat -> (2 <= depth <= 16)%nat -> (1 <= px <= 7)%nat -> (pt < depth)%nat ->
  (h * ((w + pad) * comps) <= length image)%nat ->
  (dbg = true -> forall i, (i < h * ((w + pad) * comps))%nat ->
     Z.shiftr (nth i image 0) (Z.of_nat pt) <= 2 ^ Z.of_nat (depth - pt) - 1) ->
  let cache := diff_cache image w h comps depth px pt pad in
  exists codes data,
    ljpeg_compress dbg image w h comps depth px pt pad =
      Ok (header_bytes w h comps depth px pt codes ++ stuff data ++ [255; 217]) /\
    length codes = comps /\ (forall c, In c codes -> canon (fst c) (snd c)) /\
    length cache = (h * (w * comps))%nat /\
    (forall j, (j < length cache)%nat ->
       In (lookup_ssss (nth j cache 0)) (snd (nth (j mod comps) codes ([], [])))) /\
    Forall is_byte data /\ same_bits (byte_bits data) (scan_bits codes comps 0 cache).
Proof.
  intros HW1 HW2 HH1 HH2 HC HD HP HT HL HF cache0.
  assert (SR : scan_rows dbg (mk_lj image w h comps depth px pt pad) = Ok (diff_cache image w h comps depth px pt pad)).
  { apply scan_rows_spec; auto; try lia. }
  fold cache0 in SR. rename cache0 into cache.
  assert (CL : length cache = (h * (w * comps))%nat) by apply diff_cache_length.
  assert (CLZ : Z.of_nat (length cache) + 1 < 2 ^ 64).
  { rewrite CL. rewrite !Nat2Z.inj_mul. assert (Z.of_nat w * Z.of_nat comps <= 65535 * 4) by nia.
    assert (Z.of_nat h * (Z.of_nat w * Z.of_nat comps) <= 65535 * (65535 * 4)) by nia. lia. }
  assert (CR : forall d, In d cache -> -32768 <= d <= 32767) by apply diff_cache_range.
  assert (CC : (comps <= length cache)%nat).
  { rewrite CL. pose proof (Nat.mul_le_mono_r 1 w comps). pose proof (Nat.mul_le_mono_r 1 h (w * comps)). lia. }
  destruct (count_hist_new comps cache ltac:(lia) CC CR CLZ) as (hs & EH & LH & HH & HJ).
  destruct (build_tables_spec hs) as (codes & EB & LC & CN & IC).
  { intros x Hx. apply In_nth with (d := []) in Hx. destruct Hx as (k & Hk & <-). apply HH. lia. }
  assert (HIN : forall j, (j < length cache)%nat ->
     In (lookup_ssss (nth j cache 0)) (snd (nth (j mod comps) codes ([], [])))).
  { intros j Hj. apply IC.
    - rewrite LH. apply Nat.mod_upper_bound. lia.
    - split; [|apply HJ; auto]. pose proof (ssss_le (nth j cache 0) (CR _ (nth_In _ _ Hj))). lia. }
  destruct (write_body_spec dbg comps codes cache) as (data & EW & FB & SB); auto; [lia|lia| |].
  { intros j Hj. split; auto. apply CR, nth_In; auto. }
  exists codes, data. split; [|split; [lia|split; [auto|split; [auto|split; [auto|split; auto]]]]].
  unfold ljpeg_compress, ljpeg_new.
    replace ((1 <=? px) && (px <=? 7))%nat with true by lia. cbn [check bind].
    replace (negb (length image <? h * ((w + pad) * comps))%nat) with true by lia. cbn [check bind].
    replace ((2 <=? depth) && (depth <=? 16))%nat with true by lia. cbn [check bind].
    replace (Z.of_nat h <=? 65535) with true by lia. replace (Z.of_nat w <=? 65535) with true by lia. cbn [check bind].
    unfold ljpeg_encode. rewrite SR. cbn [bind lj_comps]. rewrite EH. cbn [bind]. rewrite EB. cbn [bind].
    unfold write_header. cbn [lj_comps lj_depth lj_height lj_width lj_pred lj_pt].
    assert (A : (if dbg then assert_ (pt <=? 15)%nat else Ok tt) = Ok tt).
    { destruct dbg; auto. now replace (pt <=? 15)%nat with true by lia. }
    rewrite A. cbn [bind]. rewrite EW. cbn [bind]. reflexivity.
Qed.

Theorem ljpeg_roundtrip dbg image w h comps depth px pt pad :
  Forall is_u16 image ->
  (1 <= w)%nat -> Z.of_nat w <= 65535 -> (1 <= h)%nat -> Z.of_nat h <= 65535 ->
  (1 <= comps <= 4)%nat -> (10 <= depth <= 16)%nat -> (1 <= px <= 7)%nat -> (pt < depth)%nat ->
  (h * ((w + pad) * comps) <= length image)%nat ->
  (dbg = true -> forall i, (i < h * ((w + pad) * comps))%nat ->
     Z.shiftr (nth i image 0) (Z.of_nat pt) <= 2 ^ Z.of_nat (depth - pt) - 1) ->
  exists bytes dec,
    ljpeg_compress dbg image w h comps depth px pt pad = Ok bytes /\ Forall is_byte bytes /\
    ljdec_new bytes = Ok dec /\ ljdec_width dec = (w * comps)%nat /\ ljdec_height dec = h /\ ljdec_ncomp dec = comps /\
    forall out0 x sw wp height,
      (1 <= wp <= w)%nat -> (1 <= height <= h)%nat -> (x + wp * comps <= sw)%nat ->
      ((height - 1) * sw + x + wp * comps <= length out0)%nat ->
      exists out, ljdec_decode dec out0 x sw (wp * comps) height = Ok out /\ length out = length out0 /\
        (forall r c, (r < height)%nat -> (c < wp * comps)%nat ->
           nth (r * sw + x + c) out 0 = Z.shiftr (nth (r * ((w + pad) * comps) + c) image 0) (Z.of_nat pt)) /\
        (forall j, ~ (exists r c, (r < height)%nat /\ (c < wp * comps)%nat /\ j = (r * sw + x + c)%nat) ->
           nth j out 0 = nth j out0 0).
Proof.
  intros HU HW1 HW2 HH1 HH2 HC HD HP HT HL HF.
  set (smp := sample image w comps pt pad).
  set (base := 2 ^ Z.of_nat (depth - pt - 1)).
  destruct (ljpeg_shape dbg image w h comps depth px pt pad) as (codes & data & EC & LC & CN & CL & HIN & FB & SB); auto; [lia|].
  cbv zeta in CL, HIN, SB. set (cache := diff_cache image w h comps depth px pt pad) in *.
  set (hdr := header_bytes w h comps depth px pt codes) in *.
  set (bytes := hdr ++ stuff data ++ [255; 217]) in *.
  (* parse *)
  assert (LL : (20 <= length bytes)%nat).
  { unfold bytes, hdr, header_bytes. rewrite !app_length. cbn [length u16be]. lia. }
  assert (EN : exists dec, ljdec_new bytes = Ok dec /\ ld_buffer dec = stuff data ++ [255; 217] /\
     ld_sof dec = mk_sof w h comps depth (map (fun c => mk_jc (Z.of_nat c) c 1 1) (seq 0 comps)) false /\
     ld_pred dec = px /\ ld_pt dec = pt /\ length (ld_dhts dec) = 4%nat /\
     forall c, (c < comps)%nat -> dtable (nth c (ld_dhts dec) ht_empty) (fst (nth c codes ([], []))) (snd (nth c codes ([], [])))).
  { unfold ljdec_new, ljdec_new_full.
    assert (A0 : at_ bytes (mk_bstream bytes 0) bytes) by (split; [reflexivity|split; [cbn; lia|reflexivity]]).
    assert (H0 : at_ bytes (mk_bstream bytes 0) (hdr ++ stuff data ++ [255; 217])) by exact A0.
    unfold hdr, header_bytes in H0. rewrite <- !app_assoc in H0. cbn [app] in H0.
    unfold get_next_marker at 1. cbn [negb].
    destruct (u8_at _ _ _ _ H0) as (s1 & E1 & H1). rewrite E1. cbn [bind]. change (255 =? 255) with true. cbn [check bind].
    destruct (u8_at _ _ _ _ H1) as (s2 & E2 & H2). rewrite E2. cbn [bind].
    change (negb ((216 =? 0) || (216 =? 255))) with true. cbn [check bind]. change (216 =? 216) with true. cbn [check bind].
    assert (FU : exists f, S (length bytes) = S (length codes + S f)).
    { exists (length bytes - S (length codes))%nat. lia. }
    destruct FU as (f & FU). rewrite FU. cbn [header_loop].
    destruct (marker_at _ _ 195 _ ltac:(lia) ltac:(lia) H2) as (s3 & E3 & H3). rewrite E3. cbn [bind].
    change (195 =? 195) with true. cbn iota.
    destruct (parse_sof_at bytes s3 (dht_segments 0 (map tbl_of codes)
    ++ [255; 218] ++ u16be (6 + Z.of_nat comps * 2) ++ [wrap_u8 (Z.of_nat comps)]
    ++ flat_map (fun c => [wrap_u8 (Z.of_nat c); wrap_u8 (Z.shiftl (Z.of_nat c) 4)]) (seq 0 comps)
    ++ [Z.of_nat px; 0; Z.land (Z.of_nat pt) 15] ++ stuff data ++ [255; 217]) w h comps depth false) as (s4 & E4 & H4); auto; try lia; try exact H3.
    rewrite E4. cbn [bind sof_precision]. replace ((10 <=? depth) && (depth <=? 16))%nat with true by lia. cbn [check bind].
    edestruct (fun A B => header_dhts bytes codes 0 (S f) (mk_sof w h comps depth (map (fun c => mk_jc (Z.of_nat c) 0 1 1) (seq 0 comps)) false)
       (repeat dht_empty 4) s4 _ A eq_refl B CN H4) as (slots & s5 & E5 & H5 & L5 & _ & N5 & S5).
    { lia. }
    { intros sl Hsl. apply repeat_spec in Hsl. subst. reflexivity. }
    rewrite E5. cbn [header_loop]. cbn [app] in H5.
    destruct (marker_at _ _ 218 _ ltac:(lia) ltac:(lia) H5) as (s6 & E6 & H6). rewrite E6. cbn [bind].
    change (218 =? 195) with false. change (218 =? 196) with false. change (218 =? 218) with true. cbn iota.
    destruct (parse_sos_at bytes s6 (stuff data ++ [255; 217]) w h comps depth px pt) as (s7 & E7 & H7); auto; try lia; try exact H6.
    rewrite E7. cbn [bind].
    destruct (build_dhts_ok slots L5 codes) as (ts & E8 & L8 & D8); auto; [lia| |].
    { intros c Hc. rewrite N5 by lia. do 4 (destruct c; [reflexivity|]). destruct c; reflexivity. }
    rewrite E8. cbn [bind sof_comps].
    rewrite (get_ok _ _ (mk_jc 0 0 0 0)) by (rewrite map_length, seq_length; lia). cbn [bind].
    destruct H7 as (B7 & P7 & K7). rewrite slice_ok by lia. cbn [bind].
    eexists. split; [reflexivity|]. cbn [ld_buffer ld_sof ld_pred ld_pt ld_dhts].
    split; [|split; [reflexivity|]; split; [reflexivity|]; split; [reflexivity|]; split; [auto|]].
    - rewrite K7. apply firstn_all2. rewrite <- K7, skipn_length. lia.
    - intros c Hc. apply D8. lia. }
  destruct EN as (dec & EN & EBUF & ESOF & EPR & EPT & LD & DT).
  exists bytes, dec. split; auto. split; [|split; [auto|split; [|split; [|split]]]].
  - unfold bytes, hdr, header_bytes. repeat (apply Forall_app; split); try apply u16be_bytes;
      try (repeat constructor; unfold is_byte; lia).
    + repeat constructor; unfold wrap_u8; apply Z.mod_pos_bound; lia.
    + apply Forall_forall. intros y Hy. apply in_flat_map in Hy. destruct Hy as (c & _ & Hy).
      cbn in Hy. unfold wrap_u8 in Hy. pose proof (Z.mod_pos_bound (Z.of_nat c) (2 ^ 8) ltac:(lia)). unfold is_byte. lia.
    + apply dht_segments_bytes; auto. lia.
    + repeat constructor; unfold wrap_u8; apply Z.mod_pos_bound; lia.
    + apply Forall_forall. intros y Hy. apply in_flat_map in Hy. destruct Hy as (c & _ & Hy).
      cbn [In] in Hy. unfold wrap_u8 in Hy. pose proof (Z.mod_pos_bound (Z.of_nat c) (2 ^ 8) ltac:(lia)).
      pose proof (Z.mod_pos_bound (Z.shiftl (Z.of_nat c) 4) (2 ^ 8) ltac:(lia)). unfold is_byte. lia.
    + assert (Z.land (Z.of_nat pt) 15 = Z.of_nat pt mod 16) by (change 15 with (2 ^ Z.of_nat 4 - 1); rewrite land_ones'; reflexivity).
      repeat constructor; unfold is_byte; lia.
    + apply stuff_bytes; auto.
  - unfold ljdec_width. now rewrite ESOF.
  - unfold ljdec_height. now rewrite ESOF.
  - unfold ljdec_ncomp. rewrite ESOF. cbn [sof_comps]. now rewrite map_length, seq_length.
  - intros out0 x sw wp height HWP HHT HX HO. unfold ljdec_decode.
    rewrite ESOF. cbn [sof_comps]. rewrite (get_ok _ _ (mk_jc 0 0 0 0)) by (rewrite map_length, seq_length; lia).
    cbn [bind]. rewrite (nth_indep _ _ (mk_jc (Z.of_nat 0) 0 1 1)) by (rewrite map_length, seq_length; lia).
    rewrite (map_nth (fun c => mk_jc (Z.of_nat c) c 1 1)). cbn [jc_super_h jc_super_v].
    change ((1 =? 1) && (1 =? 1)) with true. cbn iota. rewrite EPR.
    replace ((1 <=? px) && (px <=? 7))%nat with true by lia.
    apply (decode_ljpeg_spec dec comps w h px codes base smp) with (cache := cache); auto; try lia.
    + unfold ljdec_ncomp. rewrite ESOF. cbn [sof_comps]. now rewrite map_length, seq_length.
    + now rewrite ESOF.
    + now rewrite ESOF.
    + rewrite ESOF, EPT. exact HT.
    + rewrite ESOF, EPT. reflexivity.
    + intros c Hc. exists (nth c (ld_dhts dec) ht_empty). split; [|split; [now apply DT|apply CN, nth_In; lia]].
      unfold htable. rewrite ESOF. cbn [sof_comps].
      rewrite (get_ok _ _ (mk_jc (Z.of_nat 0) 0 1 1)) by (rewrite map_length, seq_length; lia). cbn [bind].
      rewrite (map_nth (fun c => mk_jc (Z.of_nat c) c 1 1)). rewrite seq_nth by lia. cbn [jc_tbl Nat.add].
      rewrite (get_ok _ _ ht_empty) by lia. reflexivity.
    + intros. apply sample_u16. auto.
    + intros r c Hr Hc. apply diff_cache_nth; auto.
    + apply (jpeg_rep_same _ _ (byte_bits (unstuff (ld_buffer dec)))).
      * apply jpeg_new_rep; rewrite EBUF.
        -- apply Forall_app. split; [now apply stuff_bytes|repeat constructor; unfold is_byte; lia].
        -- apply no_lone_stuff. cbn. auto.
      * rewrite EBUF, unstuff_stuff. cbn [unstuff]. change (255 =? 255) with true. cbn iota. rewrite app_nil_r. auto.
Qed.
