(** The header parser recovers what the encoder wrote. *)
From Coq Require Import List ZArith Lia Bool.
From Coq Require Import ZifyBool ZifyNat.
From Verif Require Import Base BaseLemmas Pumps PumpProofs LjpegEnc LjpegDec HuffTree HuffCanon HuffBuild HuffDec HuffDht LjpegBits.
Import ListNotations.
Open Scope Z_scope.

Definition at_ (buf : list Z) (s : bstream) (rest : list Z) : Prop :=
  b_buf s = buf /\ (b_pos s <= length buf)%nat /\ skipn (b_pos s) buf = rest.

Lemma skipn_cons_inv {A} i (l : list A) x r d : skipn i l = x :: r ->
  (i < length l)%nat /\ nth i l d = x /\ skipn (i + 1) l = r.
Proof.
  revert i. induction l; intros i H; destruct i; simpl in H; try discriminate.
  - inversion H; subst. simpl. repeat split; auto; lia.
  - apply IHl in H. simpl. intuition lia.
Qed.

Lemma u8_at buf s b rest : at_ buf s (b :: rest) -> exists s', bs_get_u8 s = Ok (b, s') /\ at_ buf s' rest.
Proof.
  intros (E & L & H). destruct (skipn_cons_inv _ _ _ _ 0 H) as (A & B & C).
  unfold bs_get_u8. rewrite E, (get_ok _ _ 0) by auto. cbn [bind]. rewrite B.
  eexists. split; [reflexivity|]. split; auto. cbn. split; auto. lia.
Qed.

Lemma u16_at buf s a b rest : at_ buf s (a :: b :: rest) ->
  exists s', bs_get_u16 s = Ok (a * 256 + b, s') /\ at_ buf s' rest.
Proof.
  intros (E & L & H). destruct (skipn_cons_inv _ _ _ _ 0 H) as (A & B & C).
  destruct (skipn_cons_inv _ _ _ _ 0 C) as (A' & B' & C').
  unfold bs_get_u16. rewrite E, !(get_ok _ _ 0) by auto. cbn [bind]. rewrite B, B'.
  eexists. split; [reflexivity|]. split; auto. cbn. split; [lia|]. now replace (b_pos s + 2)%nat with (b_pos s + 1 + 1)%nat by lia.
Qed.

Lemma u16be_val v : 0 <= v < 65536 -> exists a b, u16be v = [a; b] /\ a * 256 + b = v.
Proof.
  intros. unfold u16be, wrap_u8. rewrite Z.shiftr_div_pow2 by lia. change (2 ^ 8) with 256.
  exists (v / 256 mod 256), (v mod 256). split; auto. lia.
Qed.

Lemma u16be_at buf s v rest : at_ buf s (u16be v ++ rest) -> 0 <= v < 65536 ->
  exists s', bs_get_u16 s = Ok (v, s') /\ at_ buf s' rest.
Proof.
  intros H Hv. destruct (u16be_val v Hv) as (a & b & E & V). rewrite E in H. cbn [app] in H.
  rewrite <- V. now apply u16_at.
Qed.

Lemma read_bytes_at buf l : forall s rest, at_ buf s (l ++ rest) ->
  exists s', read_bytes (length l) s = Ok (l, s') /\ at_ buf s' rest.
Proof.
  induction l as [|b l IH]; intros s rest H; cbn [length read_bytes]; [eauto|].
  destruct (u8_at _ _ _ _ H) as (s1 & E1 & H1). destruct (IH _ _ H1) as (s2 & E2 & H2).
  rewrite E1. cbn [bind]. rewrite E2. cbn [bind]. eauto.
Qed.

Lemma marker_at buf s m rest : m <> 0 -> m <> 255 -> at_ buf s (255 :: m :: rest) ->
  exists s', get_next_marker s true = Ok (m, s') /\ at_ buf s' rest.
Proof.
  intros H0 H1 (E & L & H). destruct (skipn_cons_inv _ _ _ _ 0 H) as (A & B & C).
  destruct (skipn_cons_inv _ _ _ _ 0 C) as (A' & B' & C').
  unfold get_next_marker. cbn [negb]. unfold skip_to_marker. cbn [skip_to_marker_loop].
  rewrite E, !(get_ok _ _ 0) by auto. cbn [bind]. rewrite B, B'. change (255 =? 255) with true. cbn [bind].
  replace (negb (m =? 0) && negb (m =? 255)) with true by lia. cbn [bind].
  apply u8_at. split; auto. cbn. split; [lia|]. auto.
Qed.

(** ** SOF *)
Lemma sof_comps_at buf n : forall a s rest, (a + n <= 256)%nat ->
  at_ buf s (flat_map (fun c => [wrap_u8 (Z.of_nat c); 17; 0]) (seq a n) ++ rest) ->
  exists s', parse_sof_comps n s = Ok (map (fun c => mk_jc (Z.of_nat c) 0 1 1) (seq a n), s') /\ at_ buf s' rest.
Proof.
  induction n; intros a s rest Hn H; cbn [seq flat_map parse_sof_comps map]; [eauto|].
  cbn [seq flat_map] in H. rewrite <- app_assoc in H. cbn [app] in H.
  destruct (u8_at _ _ _ _ H) as (s1 & E1 & H1). destruct (u8_at _ _ _ _ H1) as (s2 & E2 & H2).
  destruct (u8_at _ _ _ _ H2) as (s3 & E3 & H3). destruct (IHn (S a) _ _ ltac:(lia) H3) as (s4 & E4 & H4).
  rewrite E1. cbn [bind]. rewrite E2. cbn [bind]. rewrite E3. cbn [bind]. rewrite E4. cbn [bind].
  exists s4. split; auto. unfold wrap_u8. rewrite Z.mod_small by lia. reflexivity.
Qed.

Lemma parse_sof_at buf s rest w h comps depth csfix :
  Z.of_nat w <= 65535 -> Z.of_nat h <= 65535 -> (1 <= comps <= 4)%nat -> (depth <= 16)%nat ->
  at_ buf s (u16be (2 + 6 + Z.of_nat comps * 3) ++ [Z.of_nat depth]
    ++ u16be (wrap_u16 (Z.of_nat h)) ++ u16be (wrap_u16 (Z.of_nat w))
    ++ [wrap_u8 (Z.of_nat comps)] ++ flat_map (fun c => [wrap_u8 (Z.of_nat c); 17; 0]) (seq 0 comps) ++ rest) ->
  exists s', parse_sof (sof_empty csfix) s =
     Ok (mk_sof w h comps depth (map (fun c => mk_jc (Z.of_nat c) 0 1 1) (seq 0 comps)) csfix, s') /\ at_ buf s' rest.
Proof.
  intros Hw Hh Hc Hd H. unfold parse_sof.
  replace (wrap_u16 (Z.of_nat h)) with (Z.of_nat h) in H by (symmetry; apply Z.mod_small; lia).
  replace (wrap_u16 (Z.of_nat w)) with (Z.of_nat w) in H by (symmetry; apply Z.mod_small; lia).
  replace (wrap_u8 (Z.of_nat comps)) with (Z.of_nat comps) in H by (symmetry; apply Z.mod_small; lia).
  destruct (u16be_at _ _ _ _ H) as (s1 & E1 & H1); [lia|]. rewrite E1. cbn [bind]. cbn [app] in H1.
  destruct (u8_at _ _ _ _ H1) as (s2 & E2 & H2). rewrite E2. cbn [bind].
  destruct (u16be_at _ _ _ _ H2) as (s3 & E3 & H3); [lia|]. rewrite E3. cbn [bind].
  destruct (u16be_at _ _ _ _ H3) as (s4 & E4 & H4); [lia|]. rewrite E4. cbn [bind].
  destruct (u8_at _ _ _ _ H4) as (s5 & E5 & H5). rewrite E5. cbn [bind].
  replace (Z.of_nat depth <=? 16) with true by lia. cbn [check bind].
  replace ((1 <=? Z.of_nat comps) && (Z.of_nat comps <=? 4)) with true by lia. cbn [check bind].
  replace (2 + 6 + Z.of_nat comps * 3 =? 8 + Z.of_nat comps * 3) with true by lia. cbn [check bind].
  rewrite !Nat2Z.id. destruct (sof_comps_at buf comps 0 s5 rest ltac:(lia)) as (s6 & E6 & H6).
  { exact H5. }
  rewrite E6. cbn [bind]. exists s6. split; auto.
Qed.

(** ** DHT *)
Definition slot_ok (sl : dhtslot) (sz hv : list nat) : Prop :=
  dh_init sl = true /\ dh_bits sl = dht_bits sz /\ length (dh_huffval sl) = 256%nat /\
  forall k, (k < length sz)%nat -> nth k (dh_huffval sl) 0%nat = nth k hv 0%nat.

Lemma parse_dht_at buf s rest sz hv comp slots :
  canon sz hv -> (comp < 4)%nat -> length slots = 4%nat ->
  (forall sl, In sl slots -> length (dh_huffval sl) = 256%nat) ->
  at_ buf s (u16be (19 + Z.of_nat (length hv)) ++ [Z.of_nat comp] ++
     map (fun c => Z.of_nat (count sz c)) (seq 1 16) ++ map Z.of_nat hv ++ rest) ->
  exists s' sl, parse_dht slots s = Ok (upd_list slots comp sl, s') /\ at_ buf s' rest /\ slot_ok sl sz hv.
Proof.
  intros C Hc HL HV H. pose proof (cn_bound _ _ C) as BD. pose proof (cn_len _ _ C) as LE.
  unfold parse_dht.
  destruct (u16be_at _ _ _ _ H) as (s1 & E1 & H1); [lia|]. rewrite E1. cbn [bind].
  replace (2 <=? 19 + Z.of_nat (length hv)) with true by lia. cbn [assert_ bind].
  replace (Z.to_nat (19 + Z.of_nat (length hv))) with (S (18 + length hv)) by lia.
  cbn [parse_dht_loop].
  replace (19 + Z.of_nat (length hv) - 2 <=? 0) with false by lia.
  cbn [app] in H1. destruct (u8_at _ _ _ _ H1) as (s2 & E2 & H2). rewrite E2. cbn [bind].
  assert (SH : Z.shiftr (Z.of_nat comp) 4 = 0).
  { rewrite Z.shiftr_div_pow2 by lia. apply Z.div_small. simpl; lia. }
  assert (LA : Z.land (Z.of_nat comp) 15 = Z.of_nat comp).
  { change 15 with (2 ^ Z.of_nat 4 - 1). rewrite land_ones'. apply Z.mod_small. change (2 ^ Z.of_nat 4) with 16. lia. }
  rewrite SH, LA, Nat2Z.id. cbn [Z.eqb check bind]. replace (comp <=? 3)%nat with true by lia. cbn [check bind].
  set (counts := map (fun c => Z.of_nat (count sz c)) (seq 1 16)) in *.
  destruct (read_bytes_at _ counts _ _ H2) as (s3 & E3 & H3).
  replace (length counts) with 16%nat in E3 by (unfold counts; now rewrite map_length, seq_length).
  rewrite E3. cbn [bind].
  assert (CT : fold_left Z.add counts 0 = Z.of_nat (length hv)) by (unfold counts; now apply count_total).
  rewrite CT. replace (Z.of_nat (length hv) <=? 256) with true by lia. cbn [check bind].
  replace (negb (19 + Z.of_nat (length hv) - 2 <? 1 + 16 + Z.of_nat (length hv))) with true by lia. cbn [check bind].
  rewrite Nat2Z.id. destruct (read_bytes_at _ (map Z.of_nat hv) _ _ H3) as (s4 & E4 & H4).
  rewrite map_length in E4. rewrite E4. cbn [bind].
  rewrite (get_ok _ _ dht_empty) by lia. cbn [bind]. rewrite put_ok by lia. cbn [bind].
  replace (19 + Z.of_nat (length hv) - 2 - (1 + 16 + Z.of_nat (length hv)) <=? 0) with true by lia.
  eexists; eexists. split; [reflexivity|]. split; auto.
  split; [reflexivity|]. split; [|split]; cbn [dh_bits dh_huffval].
  - unfold dht_bits, counts. f_equal. rewrite map_map. apply map_ext. intros. now rewrite Nat2Z.id.
  - rewrite app_length, skipn_length, !map_length. rewrite HV by (apply nth_In; lia). lia.
  - intros k Hk. rewrite app_nth1 by (rewrite !map_length; lia). rewrite map_map.
    rewrite map_ext with (g := fun x => x) by (intros; apply Nat2Z.id). now rewrite map_id.
Qed.

(** Running the marker loop over all DHT segments. *)
Lemma header_dhts buf codes : forall i fuel sof slots s rest,
  (i + length codes <= 4)%nat -> length slots = 4%nat ->
  (forall sl, In sl slots -> length (dh_huffval sl) = 256%nat) ->
  (forall c, In c codes -> canon (fst c) (snd c)) ->
  at_ buf s (dht_segments i (map tbl_of codes) ++ rest) ->
  exists slots' s', header_loop (length codes + fuel) sof slots s = header_loop fuel sof slots' s' /\
    at_ buf s' rest /\ length slots' = 4%nat /\
    (forall c, (c < i)%nat -> nth c slots' dht_empty = nth c slots dht_empty) /\
    (forall c, (i + length codes <= c)%nat -> nth c slots' dht_empty = nth c slots dht_empty) /\
    (forall c, (c < length codes)%nat -> slot_ok (nth (i + c) slots' dht_empty)
        (fst (nth c codes ([], []))) (snd (nth c codes ([], [])))).
Proof.
  induction codes as [|[sz hv] codes IH]; intros i fuel sof slots s rest Hi HL HV HC H.
  - exists slots, s. cbn [length]. split; auto. split; auto. split; auto. split; auto. split; auto. intros; lia.
  - cbn [map dht_segments] in H. unfold tbl_of at 1 in H. cbn [fst snd] in H.
    assert (C : canon sz hv) by (apply (HC (sz, hv)); now left).
    cbn [length] in Hi. rewrite (dht_segment_eq sz hv C i) in H by lia.
    rewrite <- !app_assoc in H. cbn [length Nat.add header_loop]. cbn [app] in H.
    destruct (marker_at _ _ 196 _ ltac:(lia) ltac:(lia) H) as (s1 & E1 & H1). rewrite E1. cbn [bind].
    change (196 =? 195) with false. change (196 =? 196) with true. cbn iota.
    destruct (parse_dht_at buf s1 _ sz hv i slots C ltac:(lia) HL HV H1) as (s2 & sl & E2 & H2 & SO).
    rewrite E2. cbn [bind].
    destruct (IH (S i) fuel sof (upd_list slots i sl) s2 rest) as (slots' & s' & E3 & H3 & L3 & A & B & D); auto.
    + lia.
    + now rewrite upd_list_length.
    + intros x Hx. assert (IN : x = sl \/ In x slots).
      { clear - Hx. revert i Hx. induction slots; simpl; intros; [tauto|]. destruct i; simpl in *; [intuition|].
        destruct Hx; auto. apply IHslots in H. tauto. }
      destruct IN as [->|IN]; auto. apply SO.
    + intros; apply HC; now right.
    + exists slots', s'. split; auto. split; auto. split; auto. split; [|split].
      * intros c Hc. rewrite A by lia. apply nth_upd_neq. lia.
      * intros c Hc. rewrite B by lia. apply nth_upd_neq. lia.
      * intros c Hc. destruct c.
        -- rewrite Nat.add_0_r, A by lia. rewrite nth_upd_eq by lia. exact SO.
        -- replace (i + S c)%nat with (S i + c)%nat by lia. cbn [nth]. apply D. cbn in Hc. lia.
Qed.

(** ** SOS *)
Lemma parse_sos_at buf s rest w h comps depth px pt :
  (1 <= w)%nat -> (1 <= comps <= 4)%nat -> (1 <= px <= 7)%nat -> (pt <= 15)%nat ->
  at_ buf s (u16be (6 + Z.of_nat comps * 2) ++ [wrap_u8 (Z.of_nat comps)]
  ++ flat_map (fun c => [wrap_u8 (Z.of_nat c); wrap_u8 (Z.shiftl (Z.of_nat c) 4)]) (seq 0 comps)
  ++ [Z.of_nat px; 0; Z.land (Z.of_nat pt) 15] ++ rest) ->
  exists s', parse_sos (mk_sof w h comps depth (map (fun c => mk_jc (Z.of_nat c) 0 1 1) (seq 0 comps)) false) s =
   Ok (mk_sof w h comps depth (map (fun c => mk_jc (Z.of_nat c) c 1 1) (seq 0 comps)) false, px, pt, s') /\ at_ buf s' rest.
Proof.
  intros Hw Hc Hp Ht H. unfold parse_sos. cbn [sof_width sof_cps sof_height sof_precision sof_comps sof_csfix].
  replace (negb (w =? 0)%nat) with true by lia. cbn [check bind].
  destruct (u16be_at _ _ _ _ H) as (s1 & E1 & H1); [lia|]. rewrite E1. cbn [bind]. cbn [app] in H1.
  destruct (u8_at _ _ _ _ H1) as (s2 & E2 & H2). rewrite E2. cbn [bind].
  unfold wrap_u8 at 1. rewrite Z.mod_small by lia. rewrite Z.eqb_refl. cbn [check bind].
  assert (PC : exists s3, parse_sos_comps comps 0 false (map (fun c => mk_jc (Z.of_nat c) 0 1 1) (seq 0 comps)) s2
     = Ok (map (fun c => mk_jc (Z.of_nat c) c 1 1) (seq 0 comps), s3) /\
     at_ buf s3 (Z.of_nat px :: 0 :: Z.land (Z.of_nat pt) 15 :: rest)).
  { clear H H1 E1 E2. revert H2. clear - Hc.
    destruct comps as [|[|[|[|[|]]]]]; try (exfalso; lia); intros H;
    cbn [seq flat_map app] in H; rewrite <- ?app_assoc in H; cbn [app] in H; cbn [map seq parse_sos_comps];
    repeat (match goal with
    | H : at_ buf ?s2 (_ :: _ :: ?t) |- context [bs_get_u8 ?s2] =>
      let s3 := fresh "s" in let s4 := fresh "s" in let E := fresh in let E' := fresh in let H3 := fresh in
      destruct (u8_at _ _ _ _ H) as (s3 & E & H3); clear H; rewrite E; cbn [bind];
      destruct (u8_at _ _ _ _ H3) as (s4 & E' & H); clear H3;
      cbn [existsb jc_id]; match goal with |- context [check ?b] => let r := eval vm_compute in b in replace (check b) with (check r) by reflexivity end;
      cbn [check bind]; rewrite E'; cbn [bind];
      match goal with |- context [check ?b] => let r := eval vm_compute in b in replace (check b) with (check r) by reflexivity end;
      cbn [check bind];
      match goal with |- context [set_dc_tbl ?a ?b ?c] => let r := eval vm_compute in (set_dc_tbl a b c) in
        replace (set_dc_tbl a b c) with r by reflexivity end;
      cbn iota
    end);
    (eexists; split; [reflexivity|]; exact H). }
  destruct PC as (s3 & E3 & H3). rewrite E3. cbn [bind].
  destruct (u8_at _ _ _ _ H3) as (s4 & E4 & H4). rewrite E4. cbn [bind].
  destruct (u8_at _ _ _ _ H4) as (s5 & E5 & H5). rewrite E5. cbn [bind].
  destruct (u8_at _ _ _ _ H5) as (s6 & E6 & H6). rewrite E6. cbn [bind].
  exists s6. split; auto.
  assert (LA : Z.land (Z.land (Z.of_nat pt) 15) 15 = Z.of_nat pt).
  { change 15 with (2 ^ Z.of_nat 4 - 1). rewrite !land_ones'. change (2 ^ Z.of_nat 4) with 16. lia. }
  now rewrite LA, !Nat2Z.id.
Qed.

(** ** Tables *)
Lemma build_dhts_ok slots : length slots = 4%nat ->
  forall codes, (length codes <= 4)%nat -> (forall c, In c codes -> canon (fst c) (snd c)) ->
  (forall c, (c < length codes)%nat -> slot_ok (nth c slots dht_empty) (fst (nth c codes ([], []))) (snd (nth c codes ([], [])))) ->
  (forall c, (length codes <= c)%nat -> dh_init (nth c slots dht_empty) = false) ->
  exists ts, build_dhts slots false = Ok ts /\ length ts = 4%nat /\
    forall c, (c < length codes)%nat -> dtable (nth c ts ht_empty) (fst (nth c codes ([], []))) (snd (nth c codes ([], []))).
Proof.
  intros HL. rewrite <- HL. clear HL.
  induction slots as [|sl slots IH]; intros codes HLC HC HS HN.
  - destruct codes; [|simpl in HLC; lia]. exists []. split; auto. split; auto. intros; simpl in *; lia.
  - cbn [build_dhts]. destruct codes as [|[sz hv] codes].
    + pose proof (HN 0%nat ltac:(simpl; lia)) as N0. cbn [nth] in N0. rewrite N0. cbn [bind].
      destruct (IH []) as (ts & E & L & _); [simpl; lia|intros ? []|intros; simpl in *; lia| |].
      { intros c Hc. apply (HN (S c)). simpl; lia. }
      rewrite E. cbn [bind]. exists (ht_empty :: ts). split; auto. split; [simpl; lia|]. intros; simpl in *; lia.
    + destruct (HS 0%nat ltac:(simpl; lia)) as (S1 & S2 & S3 & S4). cbn [nth fst snd] in *. rewrite S1, S2.
      assert (C : canon sz hv) by (apply (HC (sz, hv)); now left).
      pose proof (cn_len _ _ C) as LE. pose proof (cn_bound _ _ C) as BD.
      destruct (ht_new_dht sz hv (dh_huffval sl)) as (t & ET & DT).
      { lia. } { apply C. } { apply C. }
      { intros k Hk. assert (nth k hv 0 < 17)%nat; [|lia]. apply (cn_hv _ _ C). apply nth_In. lia. }
      { pose proof (cn_kraft _ _ C). lia. } { auto. } { lia. } { auto. }
      rewrite ET. cbn [bind].
      destruct (IH codes) as (ts & E & L & D).
      { simpl in HLC. lia. } { intros; apply HC; now right. }
      { intros c Hc. apply (HS (S c)). simpl; lia. } { intros c Hc. apply (HN (S c)). simpl; lia. }
      rewrite E. cbn [bind]. exists (t :: ts). split; auto. split; [simpl; lia|].
      intros c Hc. destruct c; cbn [nth fst snd]; auto. apply D. simpl in Hc. lia.
Qed.
