(** Proofs of C01 - C04. *)
From Coq Require Import List ZArith Lia Bool.
From Coq Require Import ZifyBool ZifyNat.
From Verif Require Import Base BaseLemmas Pumps PumpProofs LjpegEnc LjpegDec HuffTree HuffCanon HuffBuild HuffDec HuffDht
  LjpegBits LjpegScan LjpegDecode LjpegHeader LjpegRoundtrip LjpegSpec.
Import ListNotations.
Open Scope Z_scope.

(** ** C01: round trip, full frame *)


Lemma area_length image h n stride : (h * stride <= length image)%nat -> (n <= stride)%nat ->
  length (area image h n stride) = (h * n)%nat.
Proof.
  intros. unfold area. apply flat_map_seq_length. intros i Hi. rewrite firstn_length, skipn_length.
  pose proof (Nat.mul_le_mono_r (S i) h stride). lia.
Qed.

Lemma area_nth image h n stride r c : (h * stride <= length image)%nat -> (n <= stride)%nat ->
  (r < h)%nat -> (c < n)%nat -> nth (r * n + c) (area image h n stride) 0 = nth (r * stride + c) image 0.
Proof.
  intros. unfold area. rewrite flat_map_seq_nth with (k := n); auto.
  - now rewrite nth_firstn, nth_skipn.
  - intros i Hi. rewrite firstn_length, skipn_length. pose proof (Nat.mul_le_mono_r (S i) h stride). lia.
Qed.

(** [dbg] is the debug_assertions switch.  In release builds (dbg = false) no
    condition on the sample values is needed. *)
Lemma c01_ljpeg_roundtrip : forall dbg image w h comps depth px pad,
  Forall is_u16 image ->
  (1 <= w)%nat -> Z.of_nat w <= 65535 -> (1 <= h)%nat -> Z.of_nat h <= 65535 ->
  (1 <= comps <= 4)%nat -> (10 <= depth <= 16)%nat -> (1 <= px <= 7)%nat ->
  (h * ((w + pad) * comps) <= length image)%nat ->
  (dbg = true -> Forall (fun s => s < 2 ^ Z.of_nat depth) image) ->
  exists bytes dec,
    ljpeg_compress dbg image w h comps depth px 0 pad = Ok bytes /\ Forall is_byte bytes /\
    ljdec_new bytes = Ok dec /\ ljdec_width dec = (w * comps)%nat /\ ljdec_height dec = h /\
    ljdec_decode dec (repeat 0 (w * comps * h)) 0 (w * comps) (w * comps) h
      = Ok (area image h (w * comps) ((w + pad) * comps)).
Proof.
  intros dbg image w h comps depth px pad HU HW1 HW2 HH1 HH2 HC HD HP HL HF.
  destruct (ljpeg_roundtrip dbg image w h comps depth px 0 pad) as (bytes & dec & E & FB & EN & DW & DH & _ & DD); auto.
  - lia.
  - intros Hd i Hi. rewrite Z.shiftr_0_r, Nat.sub_0_r. specialize (HF Hd). rewrite Forall_forall in HF.
    specialize (HF _ (nth_In image 0 (n := i) ltac:(lia))). cbn beta in HF. lia.
  - exists bytes, dec. split; [auto|split; [auto|split; [auto|split; [auto|split; [auto|]]]]].
    destruct (DD (repeat 0 (w * comps * h)) 0%nat (w * comps)%nat w h) as (out & EO & LO & NO & _); try lia.
    { rewrite repeat_length. pose proof (Nat.mul_le_mono_r 1 h (w * comps)).
      assert ((h - 1) * (w * comps) + w * comps = h * (w * comps))%nat by nia. lia. }
    rewrite EO. f_equal. rewrite repeat_length in LO.
    assert (NS : (w * comps <= (w + pad) * comps)%nat) by (apply Nat.mul_le_mono_r; lia).
    apply nth_ext_len with (d := 0).
    + rewrite area_length by auto. lia.
    + intros i Hi. rewrite LO in Hi. set (n := (w * comps)%nat) in *.
      assert (n <> 0)%nat by (intros X; rewrite X in Hi; lia).
      pose proof (Nat.div_mod i n ltac:(auto)) as DM.
      assert (i mod n < n)%nat by (apply Nat.mod_upper_bound; auto).
      assert (i / n < h)%nat by (apply Nat.div_lt_upper_bound; auto).
      specialize (NO (i / n)%nat (i mod n)%nat H1 H0). rewrite Z.shiftr_0_r in NO.
      replace i with (i / n * n + i mod n)%nat by lia.
      rewrite area_nth by auto. rewrite <- NO. f_equal. lia.
Qed.


(** ** C02: point transform, cropped decoding, offset and stride *)
Lemma c02_ljpeg_point_transform_and_crop : forall dbg image w h comps depth px pt pad,
  Forall is_u16 image ->
  (1 <= w)%nat -> Z.of_nat w <= 65535 -> (1 <= h)%nat -> Z.of_nat h <= 65535 ->
  (1 <= comps <= 4)%nat -> (10 <= depth <= 16)%nat -> (1 <= px <= 7)%nat -> (pt < depth)%nat ->
  (h * ((w + pad) * comps) <= length image)%nat ->
  (dbg = true -> Forall (fun s => s < 2 ^ Z.of_nat depth) image) ->
  exists bytes dec,
    ljpeg_compress dbg image w h comps depth px pt pad = Ok bytes /\
    ljdec_new bytes = Ok dec /\
    forall out0 x stride wp height,
      (1 <= wp <= w)%nat -> (1 <= height <= h)%nat -> (x + wp * comps <= stride)%nat ->
      ((height - 1) * stride + x + wp * comps <= length out0)%nat ->
      exists out, ljdec_decode dec out0 x stride (wp * comps) height = Ok out /\ length out = length out0 /\
        (forall r c, (r < height)%nat -> (c < wp * comps)%nat ->
           nth (r * stride + x + c) out 0 = nth (r * ((w + pad) * comps) + c) image 0 / 2 ^ Z.of_nat pt) /\
        (forall j, (forall r c, (r < height)%nat -> (c < wp * comps)%nat -> j <> (r * stride + x + c)%nat) ->
           nth j out 0 = nth j out0 0).
Proof.
  intros dbg image w h comps depth px pt pad HU HW1 HW2 HH1 HH2 HC HD HP HT HL HF.
  destruct (ljpeg_roundtrip dbg image w h comps depth px pt pad) as (bytes & dec & E & FB & EN & DW & DH & _ & DD); auto.
  - intros Hd i Hi. specialize (HF Hd). rewrite Forall_forall in HF.
    specialize (HF _ (nth_In image 0 (n := i) ltac:(lia))). cbn beta in HF.
    rewrite Z.shiftr_div_pow2 by lia.
    assert (nth i image 0 / 2 ^ Z.of_nat pt < 2 ^ Z.of_nat (depth - pt)); [|lia].
    apply Z.div_lt_upper_bound; [apply pow2_pos|]. rewrite <- pow2_add. now replace (pt + (depth - pt))%nat with depth by lia.
  - exists bytes, dec. split; [auto|split; [auto|]]. intros out0 x stride wp height H1 H2 H3 H4.
    destruct (DD out0 x stride wp height H1 H2 H3 H4) as (out & EO & LO & NO & FO). exists out. split; auto. split; auto. split.
    + intros r c Hr Hc. rewrite NO by auto. now rewrite Z.shiftr_div_pow2 by lia.
    + intros j Hj. apply FO. intros (r & c & Hr & Hc & Ej). now apply (Hj r c Hr Hc).
Qed.


(** ** C03: Huffman tables *)


Lemma code_word_bits sz hv k : canon sz hv -> (k < length sz)%nat ->
  code_word (mk_ba (start sz k) (nth k sz 0%nat)) = bits_of (nth k sz 0%nat) (code sz k).
Proof.
  intros C Hk. pose proof (cn_sz _ _ C k Hk). unfold code_word. cbn [ba_nbits ba_storage].
  set (n := nth k sz 0%nat) in *. transitivity (firstn n (bits_of (n + (16 - n)) (start sz k))).
  { replace (n + (16 - n))%nat with 16%nat by lia. reflexivity. }
  rewrite bits_of_app, firstn_app, bits_of_length, Nat.sub_diag. cbn [firstn]. rewrite app_nil_r.
  rewrite firstn_all2 by (rewrite bits_of_length; lia). unfold code. now rewrite weight_nat by lia.
Qed.

Lemma c03_huffman_table : forall hist,
  length hist = 17%nat -> Forall (fun x => 0 <= x) hist -> zsum hist + 1 < 2 ^ 64 ->
  (exists s, 0 < nth s hist 0) ->
  exists tbl, build_table hist = Ok tbl /\ length tbl = 17%nat /\
    (forall s, (s < 17)%nat ->
       let e := nth s tbl ba_default in
       (nth s hist 0 = 0 -> ba_nbits e = 0%nat) /\
       (0 < nth s hist 0 -> (1 <= ba_nbits e <= 16)%nat /\ length (code_word e) = ba_nbits e /\ In false (code_word e))) /\
    (forall s s', (s < 17)%nat -> (s' < 17)%nat -> s <> s' -> 0 < nth s hist 0 -> 0 < nth s' hist 0 ->
       ~ is_prefix (code_word (nth s tbl ba_default)) (code_word (nth s' tbl ba_default))) /\
    zsum (map (fun s => if 0 <? nth s hist 0 then 2 ^ (16 - Z.of_nat (ba_nbits (nth s tbl ba_default))) else 0) (seq 0 17))
      < 2 ^ 16.
Proof.
  intros hist HL HF HZ HP. destruct (build_table_spec hist HL HF HZ HP) as (sz & hv & E & C & IN).
  exists (map (canon_entry sz hv) (seq 0 17)). split; auto. split; [now rewrite map_length, seq_length|].
  assert (NT : forall s, (s < 17)%nat -> nth s (map (canon_entry sz hv) (seq 0 17)) ba_default = canon_entry sz hv s).
  { intros. now rewrite nth_map_seq. }
  assert (US : forall s, (s < 17)%nat -> 0 < nth s hist 0 -> exists k, (k < length sz)%nat /\ nth k hv 0%nat = s /\
     canon_entry sz hv s = mk_ba (start sz k) (nth k sz 0%nat)).
  { intros s Hs Hp. unfold canon_entry. destruct (index_of s hv) as [k|] eqn:EI.
    - apply index_of_some in EI. exists k. rewrite (cn_len _ _ C). tauto.
    - exfalso. apply (index_of_none _ _ EI). apply IN. auto. }
  pose proof (canon_aligned _ _ C) as CA. pose proof (cn_mono _ _ C) as CM. pose proof (cn_kraft _ _ C) as CK.
  assert (VAL : forall k, (k < length sz)%nat -> 0 <= code sz k < 2 ^ Z.of_nat (nth k sz 0%nat) - 1).
  { intros k Hk. destruct (canon_get_lsb sz hv k C Hk) as [_ R]. split; [lia|].
    pose proof (code_start sz k CM CA Hk) as CS. pose proof (start_S sz k Hk) as SS.
    pose proof (start_mono sz (S k) (length sz) ltac:(lia)) as SM.
    pose proof (cn_sz _ _ C k Hk) as SZ. pose proof (weight_pos (nth k sz 0%nat) ltac:(lia)) as WP.
    assert (WE : weight (nth k sz 0%nat) * 2 ^ Z.of_nat (nth k sz 0%nat) = 65536).
    { rewrite weight_nat by lia. rewrite <- pow2_add. replace (16 - nth k sz 0 + nth k sz 0)%nat with 16%nat by lia. reflexivity. }
    nia. }
  split; [|split].
  - intros s Hs e. subst e. rewrite NT by auto. split.
    + intros Z0. unfold canon_entry. destruct (index_of s hv) as [k|] eqn:EI; auto.
      apply index_of_some in EI. exfalso. destruct EI as [Hk <-].
      destruct (IN (nth k hv 0%nat)) as [I1 _]. destruct I1 as [_ P]; [now apply nth_In|]. lia.
    + intros P. destruct (US s Hs P) as (k & Hk & _ & ->). pose proof (cn_sz _ _ C k Hk).
      rewrite (code_word_bits sz hv) by auto. cbn [ba_nbits]. split; auto. split; [apply bits_of_length|].
      destruct (in_dec bool_dec false (bits_of (nth k sz 0%nat) (code sz k))) as [I|N]; auto. exfalso.
      specialize (VAL k Hk).
      assert (BV : bval (bits_of (nth k sz 0%nat) (code sz k)) = 2 ^ Z.of_nat (nth k sz 0%nat) - 1).
      { assert (AT : forall l, ~ In false l -> bval l = 2 ^ Z.of_nat (length l) - 1).
        { induction l as [|b l IH]; intros NF; [reflexivity|]. destruct b; [|exfalso; apply NF; now left].
          cbn [bval length]. rewrite IH by (intros X; apply NF; now right). rewrite pow2_S. cbn [Z.b2z]. lia. }
        rewrite AT by auto. now rewrite bits_of_length. }
      rewrite bval_bits_of, Z.mod_small in BV by lia. lia.
  - intros s s' Hs Hs' NE P P' [c PC]. rewrite !NT in PC by auto.
    destruct (US s Hs P) as (k & Hk & Ek & E1). destruct (US s' Hs' P') as (k' & Hk' & Ek' & E2).
    rewrite E1, E2, !(code_word_bits sz hv) in PC by auto.
    assert (KN : k <> k') by (intros ->; congruence).
    set (n := nth k sz 0%nat) in *. set (n' := nth k' sz 0%nat) in *.
    assert (LN : (n' = n + length c)%nat).
    { apply (f_equal (@length bool)) in PC. rewrite app_length, !bits_of_length in PC. auto. }
    pose proof (cn_sz _ _ C k Hk) as SZ. pose proof (cn_sz _ _ C k' Hk') as SZ'. fold n in SZ. fold n' in SZ'.
    assert (VQ : code sz k' = code sz k * 2 ^ Z.of_nat (length c) + bval c).
    { apply (f_equal bval) in PC. rewrite bval_app, !bval_bits_of in PC.
      pose proof (VAL k Hk) as V1. pose proof (VAL k' Hk') as V2. fold n in V1. fold n' in V2. rewrite !Z.mod_small in PC by lia. auto. }
    pose proof (bval_range c) as BR. pose proof (pow2_pos (length c)).
    pose proof (code_start sz k CM CA Hk) as CS. pose proof (code_start sz k' CM CA Hk') as CS'. fold n n' in CS, CS'.
    assert (WW : weight n = weight n' * 2 ^ Z.of_nat (length c)).
    { rewrite !weight_nat by lia. rewrite <- pow2_add. f_equal. lia. }
    assert (INT : start sz k <= start sz k' < start sz k + weight n).
    { pose proof (weight_pos n' ltac:(lia)). nia. }
    destruct (Nat.lt_ge_cases k k') as [LT|GE].
    + pose proof (start_mono sz (S k) k' ltac:(lia)) as M1. rewrite start_S in M1 by auto. fold n in M1. lia.
    + assert (k' < k)%nat by lia. pose proof (start_mono sz (S k') k ltac:(lia)) as M1. rewrite (start_S sz k') in M1 by auto.
      fold n' in M1. pose proof (weight_pos n' ltac:(lia)). lia.
  - (* Kraft *)
    assert (KS : zsum (map (fun s => if 0 <? nth s hist 0 then 2 ^ (16 - Z.of_nat (ba_nbits (nth s (map (canon_entry sz hv) (seq 0 17)) ba_default))) else 0) (seq 0 17))
      = start sz (length sz)).
    { transitivity (zsum (map (fun s => match index_of s hv with Some k => weight (nth k sz 0%nat) | None => 0 end) (seq 0 17))).
      - f_equal. apply map_ext_in. intros s Hs. apply in_seq in Hs. rewrite NT by lia. unfold canon_entry.
        destruct (index_of s hv) as [k|] eqn:EI.
        + apply index_of_some in EI. destruct EI as [Hk <-]. destruct (IN (nth k hv 0%nat)) as [I1 _].
          destruct I1 as [_ P]; [now apply nth_In|]. replace (0 <? nth (nth k hv 0%nat) hist 0) with true by lia. reflexivity.
        + destruct (Z.ltb_spec 0 (nth s hist 0)); auto. exfalso. apply (index_of_none _ _ EI). apply IN. split; [lia|auto].
      - pose proof (cn_nodup _ _ C) as ND. pose proof (cn_len _ _ C) as LE. pose proof (cn_hv _ _ C) as HV.
        unfold start. rewrite firstn_all. clear - ND LE HV.
        revert sz LE. induction hv as [|s0 hv IH]; intros sz LE.
        + destruct sz; [|discriminate]. reflexivity.
        + destruct sz as [|z0 sz]; [discriminate|]. inversion ND; subst.
          transitivity (weight z0 + zsum (map (fun s => match index_of s hv with Some k => weight (nth k sz 0%nat) | None => 0 end) (seq 0 17))).
          * assert (S0 : (s0 < 17)%nat) by (apply HV; now left).
            rewrite (map_ext_in _ (fun s => (if (s0 =? s)%nat then weight z0 else 0) + match index_of s hv with Some k => weight (nth k sz 0%nat) | None => 0 end)).
            { assert (ADD : forall (f g : nat -> Z) l, zsum (map (fun s => f s + g s) l) = zsum (map f l) + zsum (map g l)).
              { intros f g l. induction l as [|a l IHl]; [reflexivity|]. unfold zsum in *. cbn [map fold_right]. rewrite IHl. lia. }
              rewrite ADD. f_equal. clear - S0. generalize (weight z0). intros W.
              do 17 (destruct s0 as [|s0]; [cbn; lia|]). lia. }
            intros s Hs. cbn [index_of]. destruct (Nat.eqb_spec s0 s).
            -- subst s. cbn [nth]. destruct (index_of s0 hv) as [k|] eqn:EI; [|lia].
               exfalso. apply index_of_some in EI. destruct EI as [Hk Ek]. apply H1. rewrite <- Ek. now apply nth_In.
            -- destruct (index_of s hv); rewrite Z.add_0_l; reflexivity.
          * rewrite IH; auto. intros; apply HV; now right. }
    rewrite KS. change (2 ^ 16) with 65536. exact CK.
Qed.


(** ** C04: well formed marker stream *)




Lemma ff_stuffed_stuff data : ff_stuffed (stuff data).
Proof.
  unfold stuff. induction data as [|b data IH]; intros i Hi H; [simpl in Hi; lia|].
  cbn [flat_map] in *. destruct (Z.eqb_spec b 255).
  - destruct i as [|[|i]].
    + cbn. split; [lia|auto].
    + cbn in H. lia.
    + cbn [app length nth] in *. destruct (IH i) as [A B]; [lia|auto|]. split; [cbn in *; lia|].
      replace (S (S i) + 1)%nat with (S (S (i + 1))) by lia. cbn [nth]. auto.
  - destruct i as [|i].
    + cbn in H. lia.
    + cbn [app length nth] in *. destruct (IH i) as [A B]; [lia|auto|]. split; [cbn in *; lia|].
      replace (S i + 1)%nat with (S (i + 1)) by lia. cbn [nth]. auto.
Qed.

Lemma u16be_divmod v : 0 <= v < 65536 -> u16be v = [v / 256; v mod 256].
Proof.
  intros. unfold u16be, wrap_u8. rewrite Z.shiftr_div_pow2 by lia. change (2 ^ 8) with 256.
  rewrite Z.mod_small; auto. lia.
Qed.

Lemma seg_bytes_u16be m p v : v = 2 + Z.of_nat (length p) -> v < 65536 -> [255; m] ++ u16be v ++ p = seg_bytes (m, p).
Proof. intros -> H. unfold seg_bytes. cbn [fst snd]. now rewrite u16be_divmod by lia. Qed.

Definition dht_payload (i : nat) (c : list nat * list nat) : list Z :=
  [Z.of_nat i] ++ map (fun k => Z.of_nat (count (fst c) k)) (seq 1 16) ++ map Z.of_nat (snd c).

Lemma dht_segments_seg codes : forall i, (i + length codes <= 4)%nat -> (forall c, In c codes -> canon (fst c) (snd c)) ->
  exists dhts, dht_segments i (map tbl_of codes) = flat_map seg_bytes (map (fun d => (196, d)) dhts) /\
    length dhts = length codes /\ Forall (fun p => 2 + Z.of_nat (length p) < 65536) dhts.
Proof.
  induction codes as [|[sz hv] codes IH]; intros i Hi HC.
  - exists []. cbn. auto.
  - cbn [length] in Hi. destruct (IH (S i)) as (dhts & E & L & F); [lia|intros; apply HC; now right|].
    assert (C : canon sz hv) by (apply (HC (sz, hv)); now left). pose proof (cn_bound _ _ C). pose proof (cn_len _ _ C).
    assert (PL : length (dht_payload i (sz, hv)) = (17 + length hv)%nat).
    { unfold dht_payload. rewrite !app_length, !map_length, seq_length. reflexivity. }
    exists (dht_payload i (sz, hv) :: dhts). cbn [map dht_segments flat_map length]. split; [|split].
    + rewrite E. f_equal. unfold tbl_of. cbn [fst snd]. rewrite (dht_segment_eq sz hv C i) by lia.
      rewrite <- seg_bytes_u16be with (v := 19 + Z.of_nat (length hv)); [reflexivity|rewrite PL; lia|lia].
    + lia.
    + constructor; auto. rewrite PL. lia.
Qed.

Lemma c04_ljpeg_stream_wellformed : forall dbg image w h comps depth px pt pad,
  (1 <= w)%nat -> Z.of_nat w <= 65535 -> (1 <= h)%nat -> Z.of_nat h <= 65535 ->
  (1 <= comps <= 4)%nat -> (2 <= depth <= 16)%nat -> (1 <= px <= 7)%nat -> (pt < depth)%nat ->
  (h * ((w + pad) * comps) <= length image)%nat ->
  (dbg = true -> Forall (fun s => 0 <= s < 2 ^ Z.of_nat depth) image) ->
  exists bytes, ljpeg_compress dbg image w h comps depth px pt pad = Ok bytes /\ wf_stream bytes comps.
Proof.
  intros dbg image w h comps depth px pt pad HW1 HW2 HH1 HH2 HC HD HP HT HL HF.
  destruct (ljpeg_shape dbg image w h comps depth px pt pad) as (codes & data & EC & LC & CN & _ & _ & FB & _); auto.
  { intros Hd i Hi. specialize (HF Hd). rewrite Forall_forall in HF.
    specialize (HF _ (nth_In image 0 (n := i) ltac:(lia))). cbn beta in HF.
    rewrite Z.shiftr_div_pow2 by lia.
    assert (nth i image 0 / 2 ^ Z.of_nat pt < 2 ^ Z.of_nat (depth - pt)); [|lia].
    apply Z.div_lt_upper_bound; [apply pow2_pos|]. rewrite <- pow2_add. now replace (pt + (depth - pt))%nat with depth by lia. }
  eexists. split; [exact EC|].
  destruct (dht_segments_seg codes 0) as (dhts & ED & LD & FD); [lia|auto|].
  set (sof := [Z.of_nat depth] ++ u16be (wrap_u16 (Z.of_nat h)) ++ u16be (wrap_u16 (Z.of_nat w))
    ++ [wrap_u8 (Z.of_nat comps)] ++ flat_map (fun c => [wrap_u8 (Z.of_nat c); 17; 0]) (seq 0 comps)).
  set (sos := [wrap_u8 (Z.of_nat comps)]
    ++ flat_map (fun c => [wrap_u8 (Z.of_nat c); wrap_u8 (Z.shiftl (Z.of_nat c) 4)]) (seq 0 comps)
    ++ [Z.of_nat px; 0; Z.land (Z.of_nat pt) 15]).
  assert (LSOF : length sof = (6 + 3 * comps)%nat).
  { unfold sof. rewrite !app_length. rewrite (flat_map_seq_length _ comps 3) by reflexivity. cbn [length u16be]. lia. }
  assert (LSOS : length sos = (4 + 2 * comps)%nat).
  { unfold sos. rewrite !app_length. rewrite (flat_map_seq_length _ comps 2) by reflexivity. cbn [length u16be]. lia. }
  exists sof, dhts, sos, (stuff data). split; [|split; [lia|split; [|split]]].
  - unfold header_bytes. rewrite ED. rewrite !flat_map_app. cbn [flat_map]. rewrite !app_nil_r.
    rewrite <- (seg_bytes_u16be 195 sof (2 + 6 + Z.of_nat comps * 3)) by lia.
    rewrite <- (seg_bytes_u16be 218 sos (6 + Z.of_nat comps * 2)) by lia.
    unfold sof, sos. rewrite <- !app_assoc. reflexivity.
  - constructor; [lia|]. constructor; [lia|]. exact FD.
  - unfold header_bytes. repeat (apply Forall_app; split); try apply u16be_bytes;
      try (repeat constructor; unfold is_byte; lia).
    + repeat constructor; unfold wrap_u8; apply Z.mod_pos_bound; lia.
    + apply Forall_forall. intros y Hy. apply in_flat_map in Hy. destruct Hy as (c & _ & Hy).
      cbn in Hy. unfold wrap_u8 in Hy. pose proof (Z.mod_pos_bound (Z.of_nat c) (2 ^ 8) ltac:(lia)). unfold is_byte. lia.
    + apply dht_segments_bytes; auto. lia.
    + repeat constructor; unfold wrap_u8; apply Z.mod_pos_bound; lia.
    + apply Forall_forall. intros y Hy. apply in_flat_map in Hy. destruct Hy as (c & _ & Hy).
      cbn [In] in Hy. unfold wrap_u8 in Hy. pose proof (Z.mod_pos_bound (Z.of_nat c) (2 ^ 8) ltac:(lia)).
      pose proof (Z.mod_pos_bound (Z.shiftl (Z.of_nat c) 4) (2 ^ 8) ltac:(lia)). unfold is_byte. lia.
    + assert (Z.land (Z.of_nat pt) 15 = Z.of_nat pt mod 16) by (change 15 with (2 ^ Z.of_nat 4 - 1); rewrite land_ones'; reflexivity).
      repeat constructor; unfold is_byte; lia.
    + apply stuff_bytes; auto.
  - apply ff_stuffed_stuff.
Qed.

