(** Predictors: the difference cache of the encoder and the statistics. *)
From Coq Require Import List ZArith Lia Bool.
From Coq Require Import ZifyBool ZifyNat.
From Verif Require Import Base BaseLemmas Pumps PumpProofs LjpegEnc LjpegDec HuffTree HuffCanon HuffBuild HuffDec LjpegBits.
Import ListNotations.
Open Scope Z_scope.

(** ITU-T81 table H.1. *)
Definition pred_val (px : nat) (a b c : Z) : Z :=
  match px with
  | 1%nat => a | 2%nat => b | 3%nat => c
  | 4%nat => a + b - c
  | 5%nat => a + Z.shiftr (b - c) 1
  | 6%nat => b + Z.shiftr (a - c) 1
  | _ => Z.shiftr (a + b) 1
  end.

(** Prediction of sample [c] of row [r] from a sample function, as in H.1.2.1:
    default value for the first pixel, left neighbour on the first line, upper
    neighbour in the first column. *)
Definition pred_at (px comps : nat) (base : Z) (S : nat -> nat -> Z) (r c : nat) : Z :=
  if (r =? 0)%nat then (if (c <? comps)%nat then base else S 0%nat (c - comps)%nat)
  else if (c <? comps)%nat then S (r - 1)%nat c
  else pred_val px (S r (c - comps)%nat) (S (r - 1)%nat c) (S (r - 1)%nat (c - comps)%nat).

Definition diff_at (px comps : nat) (base : Z) (S : nat -> nat -> Z) (r c : nat) : Z :=
  wrap_i16 (S r c - pred_at px comps base S r c).

Lemma wrap_i16_range z : -32768 <= wrap_i16 z <= 32767.
Proof. unfold wrap_i16. pose proof (Z.mod_pos_bound (z + 2 ^ 15) (2 ^ 16) ltac:(lia)). lia. Qed.

(** Adding the wrapped difference back modulo 2^16 recovers the sample. *)
Lemma wrap_recover s p : 0 <= s < 65536 -> wrap_u16 (p + wrap_i16 (s - p)) = s.
Proof.
  intros. unfold wrap_u16, wrap_i16. change (2 ^ 16) with 65536. change (2 ^ 15) with 32768. lia.
Qed.

Lemma for_each_put {A} (f : nat -> A) (g : nat -> list A -> res (list A)) a n (ds : list A) d :
  (a + n <= length ds)%nat ->
  (forall i ds', (a <= i < a + n)%nat -> length ds' = length ds -> g i ds' = put ds' i (f i)) ->
  exists ds', for_each (seq a n) g ds = Ok ds' /\ length ds' = length ds /\
    forall i, nth i ds' d = if ((a <=? i) && (i <? a + n))%nat then f i else nth i ds d.
Proof.
  intros HL HG.
  destruct (for_each_seq_inv g (fun k ds' => length ds' = length ds /\
     forall i, nth i ds' d = if ((a <=? i) && (i <? k))%nat then f i else nth i ds d) a n ds) as (ds' & E & I).
  - split; auto. intros i. destruct ((a <=? i) && (i <? a))%nat eqn:E; auto. lia.
  - intros i s Hi [L N]. exists (upd_list s i (f i)). rewrite HG by (auto; lia). rewrite put_ok by lia.
    split; auto. split; [now rewrite upd_list_length|]. intros j. rewrite nth_upd by lia.
    destruct (Nat.eq_dec i j).
    + subst. replace (j =? j)%nat with true by lia. now replace ((a <=? j) && (j <? S j))%nat with true by lia.
    + replace (i =? j)%nat with false by lia. rewrite N.
      replace ((a <=? j) && (j <? S i))%nat with ((a <=? j) && (j <? i))%nat by lia. auto.
  - exists ds'. intuition.
Qed.

Lemma for_each_unit_ok {A} (l : list A) (f : A -> unit -> res unit) :
  (forall a, In a l -> f a tt = Ok tt) -> for_each l f tt = Ok tt.
Proof. induction l; simpl; auto. intros H. rewrite H by auto. simpl. auto. Qed.

Lemma predict_ok px ncomp pt prev curr idx a b c : (1 <= px <= 7)%nat ->
  samp_a curr pt ncomp idx = Ok a -> samp prev pt idx = Ok b -> samp_a prev pt ncomp idx = Ok c ->
  predict px ncomp pt prev curr idx = Ok (pred_val px a b c).
Proof.
  intros HP E1 E2 E3. unfold predict, pred_val.
  do 8 (destruct px as [|px]; [try lia; rewrite ?E1, ?E2, ?E3; cbn [bind]; reflexivity|]). lia.
Qed.

Section Scan.
Context (image : list Z) (w h comps depth px pt pad : nat) (dbg : bool).
Context (HW : (1 <= w)%nat) (HC : (1 <= comps <= 4)%nat) (HP : (1 <= px <= 7)%nat) (HT : (pt < depth)%nat) (HD : (depth <= 16)%nat).
Let ls := ((w + pad) * comps)%nat.
Let rs := (w * comps)%nat.
Context (HL : (h * ls <= length image)%nat).
Definition sample (r c : nat) : Z := Z.shiftr (nth (r * ((w + pad) * comps) + c) image 0) (Z.of_nat pt).
Let base := 2 ^ Z.of_nat (depth - pt - 1).
(** In debug builds every sample (including the padding samples) has to fit. *)
Context (HF : dbg = true -> forall i, (i < h * ls)%nat ->
   Z.shiftr (nth i image 0) (Z.of_nat pt) <= 2 ^ Z.of_nat (depth - pt) - 1).

Lemma ls_pos : (comps <= ls)%nat. Proof. unfold ls. nia. Qed.

Lemma samp_spec o idx : (idx < ls)%nat -> (o + ls <= length image)%nat ->
  samp (firstn ls (skipn o image)) pt idx = Ok (Z.shiftr (nth (o + idx) image 0) (Z.of_nat pt)).
Proof.
  intros. unfold samp. rewrite (get_ok _ _ 0) by (rewrite firstn_length, skipn_length; lia).
  cbn [bind]. now rewrite nth_firstn, nth_skipn by lia.
Qed.

Lemma diff_row r : (r < h)%nat ->
  let oprev := ((r - 1) * ls)%nat in let ocurr := (r * ls)%nat in
  exists ds, ljpeg92_diff dbg comps px (r =? 0)%nat (skipn oprev image) (skipn ocurr image) ls pt depth = Ok ds /\
   length ds = ls /\ forall c, (c < ls)%nat -> nth c ds 0 = diff_at px comps base sample r c.
Proof.
  intros Hr oprev ocurr. unfold ljpeg92_diff.
  assert (EL : (ls / comps * comps)%nat = ls).
  { unfold ls. rewrite Nat.div_mul by lia. auto. }
  rewrite EL. pose proof ls_pos as LP.
  assert (LC : (ocurr + ls <= length image)%nat) by (unfold ocurr; nia).
  assert (LPv : (oprev + ls <= length image)%nat) by (unfold oprev; nia).
  rewrite (slice_ok (skipn oprev image)) by (rewrite ?skipn_length; lia).
  rewrite (slice_ok (skipn ocurr image)) by (rewrite ?skipn_length; lia).
  cbn [bind skipn]. rewrite Nat.sub_0_r.
  set (prev := firstn ls (skipn oprev image)). set (curr := firstn ls (skipn ocurr image)).
  assert (AS : (if dbg then
      for_each curr (fun s _ =>
        do d <- usub depth pt;
        assert_ (Z.shiftr s (Z.of_nat pt) <=? wrap_u16 (2 ^ Z.of_nat d - 1))) tt
    else Ok tt) = Ok tt).
  { destruct dbg; auto. apply for_each_unit_ok. intros a Ha. rewrite usub_ok by lia. cbn [bind].
    apply In_nth with (d := 0) in Ha. destruct Ha as (j & Hj & <-). unfold curr in Hj. rewrite firstn_length in Hj.
    unfold curr. rewrite nth_firstn, nth_skipn by lia.
    specialize (HF eq_refl (ocurr + j)%nat). unfold wrap_u16. rewrite Z.mod_small.
    - unfold assert_. assert (ocurr + j < h * ls)%nat by (unfold ocurr; nia).
      destruct (Z.leb_spec (Z.shiftr (nth (ocurr + j) image 0) (Z.of_nat pt)) (2 ^ Z.of_nat (depth - pt) - 1)); auto. lia.
    - pose proof (pow2_pos (depth - pt)). pose proof (pow2_le (depth - pt) 16 ltac:(lia)).
      change (2 ^ Z.of_nat 16) with (2 ^ 16) in *. lia. }
  rewrite AS. cbn [bind].
  assert (SC : forall c, (c < ls)%nat -> samp curr pt c = Ok (sample r c)).
  { intros. unfold curr. rewrite samp_spec by auto. reflexivity. }
  assert (SP : forall c, (c < ls)%nat -> samp prev pt c = Ok (sample (r - 1) c)).
  { intros. unfold prev. rewrite samp_spec by auto. reflexivity. }
  assert (SCA : forall c, (comps <= c < ls)%nat -> samp_a curr pt comps c = Ok (sample r (c - comps))).
  { intros. unfold samp_a. rewrite usub_ok by lia. cbn [bind]. apply SC. lia. }
  assert (SPA : forall c, (comps <= c < ls)%nat -> samp_a prev pt comps c = Ok (sample (r - 1) (c - comps))).
  { intros. unfold samp_a. rewrite usub_ok by lia. cbn [bind]. apply SP. lia. }
  match goal with |- context [for_each (seq 0 comps) ?G ?DS] =>
    destruct (for_each_put (diff_at px comps base sample r) G 0 comps DS 0) as (ds1 & E1 & L1 & N1) end.
  { rewrite repeat_length. lia. }
  { intros c ds Hc _. destruct (Nat.eqb_spec r 0).
    - rewrite usub_ok by lia. cbn [bind]. rewrite usub_ok by lia. cbn [bind].
      rewrite SC by lia. cbn [bind]. unfold diff_at, pred_at. subst r.
      replace (0 =? 0)%nat with true by auto. replace (c <? comps)%nat with true by lia. reflexivity.
    - rewrite SP by lia. cbn [bind]. rewrite SC by lia. cbn [bind]. unfold diff_at, pred_at.
      replace (r =? 0)%nat with false by lia. replace (c <? comps)%nat with true by lia. reflexivity. }
  rewrite E1. cbn [bind]. rewrite repeat_length in L1.
  match goal with |- context [for_each (seq comps ?N) ?G ?DS] =>
    destruct (for_each_put (diff_at px comps base sample r) G comps N DS 0) as (ds2 & E2 & L2 & N2) end.
  { lia. }
  { intros c ds Hc _. destruct (Nat.eqb_spec r 0).
    - rewrite SCA by lia. cbn [bind]. rewrite SC by lia. cbn [bind]. unfold diff_at, pred_at. subst r.
      replace (0 =? 0)%nat with true by auto. replace (c <? comps)%nat with false by lia. reflexivity.
    - assert (PE : predict px comps pt prev curr c =
         Ok (pred_val px (sample r (c - comps)) (sample (r - 1) c) (sample (r - 1) (c - comps)))).
      { apply predict_ok; auto. apply SCA; lia. apply SP; lia. apply SPA; lia. }
      rewrite PE. cbn [bind]. rewrite SC by lia. cbn [bind]. unfold diff_at, pred_at.
      replace (r =? 0)%nat with false by lia. replace (c <? comps)%nat with false by lia. reflexivity. }
  exists ds2. split; auto. split; [lia|]. intros c Hc. rewrite N2, N1.
  destruct (Nat.leb_spec comps c).
  - replace (c <? comps + (ls - comps))%nat with true by lia. reflexivity.
  - cbn [andb]. replace ((0 <=? c) && (c <? 0 + comps))%nat with true by lia. reflexivity.
Qed.

(** The difference cache. *)
Definition diff_cache : list Z :=
  flat_map (fun r => map (diff_at px comps base sample r) (seq 0 rs)) (seq 0 h).

Lemma scan_rows_spec :
  scan_rows dbg (mk_lj image w h comps depth px pt pad) = Ok diff_cache.
Proof.
  unfold scan_rows. cbn [lj_image lj_width lj_height lj_comps lj_depth lj_pred lj_pt lj_padding].
  fold ls rs. pose proof ls_pos as LP.
  match goal with |- context [for_each (seq 0 h) ?G ?S0] =>
    destruct (for_each_seq_inv G (fun r st => st = ((r - 1) * ls, r * ls,
        flat_map (fun r => map (diff_at px comps base sample r) (seq 0 rs)) (seq 0 r))%nat) 0 h S0) as (st & E & I) end.
  - reflexivity.
  - intros r st [_ Hr] ->. replace ((1 <=? comps) && (comps <=? 4))%nat with true by lia. cbn [assert_ bind].
    replace ((r - 1) * ls =? r * ls)%nat with (r =? 0)%nat by (destruct r; nia).
    destruct (diff_row r Hr) as (ds & E & L & N). cbv zeta in E. rewrite E. cbn [bind].
    assert (rs <= ls)%nat by (unfold rs, ls; nia).
    rewrite slice_ok by lia. cbn [bind skipn]. rewrite Nat.sub_0_r.
    replace (r * ls + ls <=? length image)%nat with true by nia. cbn [assert_ bind].
    eexists. split; [reflexivity|]. rewrite flat_map_seq_S.
    replace ((S r - 1) * ls)%nat with (r * ls)%nat by (f_equal; lia).
    replace (S r * ls)%nat with (r * ls + ls)%nat by lia. f_equal.
    f_equal. rewrite (firstn_map_seq rs ds 0) by lia. apply map_ext_in. intros c Hc. apply in_seq in Hc. apply N. lia.
  - rewrite E. rewrite I. reflexivity.
Qed.

Lemma diff_cache_length : length diff_cache = (h * rs)%nat.
Proof. apply flat_map_seq_length. intros. now rewrite map_length, seq_length. Qed.

Lemma diff_cache_nth r c : (r < h)%nat -> (c < rs)%nat ->
  nth (r * rs + c) diff_cache 0 = diff_at px comps base sample r c.
Proof.
  intros. unfold diff_cache. rewrite (flat_map_seq_nth _ h rs); auto.
  - now rewrite nth_map_seq.
  - intros. now rewrite map_length, seq_length.
Qed.

Lemma diff_cache_range d : In d diff_cache -> -32768 <= d <= 32767.
Proof.
  unfold diff_cache. rewrite in_flat_map. intros (r & _ & H). apply in_map_iff in H.
  destruct H as (c & <- & _). apply wrap_i16_range.
Qed.
End Scan.

(** ** Statistics *)
Definition hist_ok (comps n : nat) (hs : list (list Z)) : Prop :=
  length hs = comps /\
  forall h, In h hs -> length h = 17%nat /\ Forall (fun x => 0 <= x) h /\ zsum h <= Z.of_nat n.

Lemma in_upd_list {A} (l : list A) i a x : In x (upd_list l i a) -> x = a \/ In x l.
Proof.
  revert i; induction l; simpl; intros; [tauto|]. destruct i; simpl in *; [intuition|].
  destruct H; auto. apply IHl in H. tauto.
Qed.

Lemma count_hist_spec comps cache : forall i hs n, (1 <= comps)%nat ->
  (forall d, In d cache -> -32768 <= d <= 32767) -> hist_ok comps n hs ->
  exists hs', count_hist comps i cache hs = Ok hs' /\ hist_ok comps (n + length cache) hs' /\
    forall c s, (c < comps)%nat -> nth s (nth c hs []) 0 <= nth s (nth c hs' []) 0 /\
      (nth s (nth c hs []) 0 < nth s (nth c hs' []) 0 <->
       exists j, (j < length cache)%nat /\ ((i + j) mod comps)%nat = c /\ lookup_ssss (nth j cache 0) = s).
Proof.
  induction cache as [|d cache IH]; intros i hs n HC HR HO.
  - exists hs. cbn. rewrite Nat.add_0_r. split; auto. split; auto. intros. split; [lia|]. split; [lia|].
    intros (j & Hj & _). lia.
  - cbn [count_hist]. destruct HO as [HL HH].
    assert (HM : (i mod comps < comps)%nat) by (apply Nat.mod_upper_bound; lia).
    set (m := (i mod comps)%nat) in *.
    rewrite (get_ok _ _ []) by lia. cbn [bind]. set (h := nth m hs []) in *.
    assert (Hh : In h hs) by (apply nth_In; lia). destruct (HH _ Hh) as (L17 & FN & ZS).
    pose proof (ssss_le d (HR d (or_introl eq_refl))) as SL. set (s0 := lookup_ssss d) in *.
    rewrite (get_ok _ _ 0) by lia. cbn [bind]. rewrite put_ok by lia. cbn [bind]. rewrite put_ok by lia. cbn [bind].
    set (h' := upd_list h s0 (nth s0 h 0 + 1)).
    destruct (IH (S i) (upd_list hs m h') (n + 1)%nat HC) as (hs' & E & HO' & HS).
    { intros; apply HR; now right. }
    { split; [now rewrite upd_list_length|]. intros x Hx. apply in_upd_list in Hx. destruct Hx as [->|Hx].
      - split; [unfold h'; now rewrite upd_list_length|]. split.
        + apply Forall_forall. intros y Hy. apply in_upd_list in Hy. destruct Hy as [->|Hy].
          * assert (0 <= nth s0 h 0); [|lia]. rewrite Forall_forall in FN. apply FN, nth_In. lia.
          * rewrite Forall_forall in FN. auto.
        + unfold h'. rewrite zsum_upd by lia. lia.
      - destruct (HH _ Hx) as (A & B & C). repeat split; auto. lia. }
    exists hs'. split; auto. split; [cbn [length]; now replace (n + S (length cache))%nat with (n + 1 + length cache)%nat by lia|].
    intros c s Hc. destruct (HS c s Hc) as [MO EQ].
    assert (NU : nth s (nth c (upd_list hs m h') []) 0 = nth s (nth c hs []) 0 + (if ((c =? m) && (s =? s0))%nat then 1 else 0)).
    { rewrite nth_upd by lia. destruct (Nat.eqb_spec m c).
      - subst c. replace (m =? m)%nat with true by lia. cbn [andb]. unfold h'. rewrite nth_upd by lia. fold h.
        destruct (Nat.eqb_spec s0 s); [subst; replace (s0 =? s0)%nat with true by lia; auto|replace (s =? s0)%nat with false by lia; lia].
      - replace (c =? m)%nat with false by lia. cbn [andb]. lia. }
    rewrite NU in *. split; [destruct ((c =? m) && (s =? s0))%nat; lia|].
    cbn [length]. split.
    + intros LT. destruct ((c =? m) && (s =? s0))%nat eqn:B.
      * exists 0%nat. split; [lia|]. split; [rewrite Nat.add_0_r; unfold m in B; lia|cbn; fold s0; lia].
      * destruct EQ as [EQ _]. destruct EQ as (j & A1 & A2 & A3); [lia|]. exists (S j). split; [lia|].
        replace (i + S j)%nat with (S i + j)%nat by lia. auto.
    + intros (j & A1 & A2 & A3). destruct j.
      * rewrite Nat.add_0_r in A2. fold m in A2. cbn in A3. fold s0 in A3. subst.
        replace ((m =? m) && (s0 =? s0))%nat with true in * by lia. lia.
      * destruct EQ as [_ EQ]. assert (X : nth s (nth c hs []) 0 + (if ((c =? m) && (s =? s0))%nat then 1 else 0) < nth s (nth c hs' []) 0).
        { apply EQ. exists j. split; [lia|]. replace (S i + j)%nat with (i + S j)%nat by lia. auto. }
        destruct ((c =? m) && (s =? s0))%nat; lia.
Qed.

(** Histogram of all difference classes of component [c]. *)
Lemma count_hist_new comps cache : (1 <= comps)%nat -> (comps <= length cache)%nat ->
  (forall d, In d cache -> -32768 <= d <= 32767) -> Z.of_nat (length cache) + 1 < 2 ^ 64 ->
  exists hs, count_hist comps 0 cache (repeat (repeat 0 17) comps) = Ok hs /\ length hs = comps /\
   (forall c, (c < comps)%nat -> let h := nth c hs [] in
     length h = 17%nat /\ Forall (fun x => 0 <= x) h /\ zsum h + 1 < 2 ^ 64 /\ exists s, 0 < nth s h 0) /\
   (forall j, (j < length cache)%nat -> 0 < nth (lookup_ssss (nth j cache 0)) (nth (j mod comps) hs []) 0).
Proof.
  intros HC HL HR HS.
  destruct (count_hist_spec comps cache 0 (repeat (repeat 0 17) comps) 0 HC HR) as (hs & E & [L HO] & N).
  { split; [now rewrite repeat_length|]. intros h Hh. apply repeat_spec in Hh. subst. cbn. repeat split; auto.
    - repeat constructor; lia.
    - lia. }
  assert (Z0 : forall c s, nth s (nth c (repeat (repeat 0 17) comps) []) 0 = 0).
  { intros c s. destruct (Nat.lt_ge_cases c comps).
    - rewrite nth_repeat_lt by auto. do 17 (destruct s as [|s]; [reflexivity|]). destruct s; reflexivity.
    - rewrite nth_overflow with (n := c) by (rewrite repeat_length; auto). destruct s; reflexivity. }
  exists hs. split; auto. split; auto. split.
  - intros c Hc h. destruct (HO h) as (A & B & C); [apply nth_In; lia|]. repeat split; auto; [lia|].
    exists (lookup_ssss (nth c cache 0)). destruct (N c (lookup_ssss (nth c cache 0)) Hc) as [_ [_ X]].
    rewrite Z0 in X. apply X. exists c. split; [lia|]. split; auto. apply Nat.mod_small. lia.
  - intros j Hj. assert (HM : (j mod comps < comps)%nat) by (apply Nat.mod_upper_bound; lia).
    destruct (N (j mod comps)%nat (lookup_ssss (nth j cache 0)) HM) as [_ [_ X]]. rewrite Z0 in X.
    apply X. exists j. auto.
Qed.

Lemma build_tables_spec hs :
  (forall h, In h hs -> length h = 17%nat /\ Forall (fun x => 0 <= x) h /\ zsum h + 1 < 2 ^ 64 /\ exists s, 0 < nth s h 0) ->
  exists codes, build_tables hs = Ok (map tbl_of codes) /\ length codes = length hs /\
    (forall c, In c codes -> canon (fst c) (snd c)) /\
    forall c s, (c < length hs)%nat -> In s (snd (nth c codes ([], []))) <-> (s < 17)%nat /\ 0 < nth s (nth c hs []) 0.
Proof.
  induction hs as [|h hs IH]; intros H.
  - exists []. cbn. repeat split; auto; try lia; try tauto; intros; lia.
  - destruct (H h) as (A & B & C & D); [now left|]. destruct (build_table_spec h A B C D) as (sz & hv & E & CN & IN).
    destruct IH as (codes & E2 & L & CC & IC); [intros; apply H; now right|].
    exists ((sz, hv) :: codes). cbn [build_tables]. rewrite E. cbn [bind]. rewrite E2. cbn [bind].
    split; [reflexivity|]. split; [cbn; lia|]. split.
    + intros c [<-|Hc]; auto.
    + intros c s Hc. destruct c; cbn [nth]; [apply IN|]. apply IC. cbn in Hc. lia.
Qed.
