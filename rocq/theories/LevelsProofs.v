(** Level scaling. *)
From Coq Require Import List ZArith Lia Bool QArith Qcanon FinFun.
From Coq Require Import ZifyBool ZifyNat.
From Verif Require Import Base BaseLemmas Par ParProofs ParRun Decomp DecompProofs Geom Cfa Demosaic DemosaicSpec DemosaicBil Levels LevelsSpec.
Import ListNotations.
Open Scope nat_scope.

Lemma run_ops_app {A} (a b : list (op A)) : forall v, run_ops (a ++ b) v = match run_ops a v with Some v' => run_ops b v' | None => None end.
Proof. induction a as [|f a IH]; intros v; cbn; [reflexivity|]. destruct (f v); auto. Qed.

Lemma bayer_array_ok {A B} (conv : A -> B) l d y x : l <> [] ->
  exists t, bayer_array conv l = Ok t /\ length t = 4 /\
    nth (2 * (y mod 2) + x mod 2) t (conv d) = conv (tile_level l d y x).
Proof.
  intros HN. unfold bayer_array, tile_level. destruct (Nat.eqb_spec (length l) 4) as [E|E].
  - eexists. split; [reflexivity|]. rewrite map_length. split; [exact E|]. apply map_nth.
  - destruct l as [|a l]; [congruence|]. cbn [get nth_error bind]. eexists. split; [reflexivity|].
    split; [reflexivity|]. pose proof (Nat.mod_upper_bound y 2). pose proof (Nat.mod_upper_bound x 2).
    assert (H1 : 2 * (y mod 2) + x mod 2 < 4) by lia.
    destruct (2 * (y mod 2) + x mod 2) as [|[|[|[|]]]]; try lia; reflexivity.
Qed.

Section P.
Context {F : Type}.
Variable o : fops F.
Variable neg : F -> bool.
Notation z := (f_nat o 0).
Notation scale1 := (scale1 o neg).

Lemma scale_at_ok black max i j v : i < length v -> j < length black -> j < length max ->
  exists v', scale_at o neg black max i j v = Some v' /\ length v' = length v /\
    forall q, nth q v' z = if q =? i then scale1 (nth q v z) (nth j black z) (nth j max z) else nth q v z.
Proof.
  intros Hi Hb Hm. unfold scale_at.
  rewrite (nth_error_nth' v z Hi), (nth_error_nth' black z Hb), (nth_error_nth' max z Hm).
  eexists. split; [reflexivity|]. split; [apply upd_list_length|].
  intros q. destruct (Nat.eqb_spec q i) as [->|N]; [now rewrite nth_upd_eq|now rewrite nth_upd_neq by lia].
Qed.

Lemma cfa_block_ok w black max k v : length black = 4 -> length max = 4 -> length v = w * 2 -> 2 * k + 1 < w ->
  exists v', cfa_block o neg w black max k v = Some v' /\ length v' = w * 2 /\
    forall y x, y < 2 -> x < w ->
      nth (y * w + x) v' z = if x / 2 =? k then scale1 (nth (y * w + x) v z) (nth (2 * y + x mod 2) black z) (nth (2 * y + x mod 2) max z)
                   else nth (y * w + x) v z.
Proof.
  intros HB HM HL HK. unfold cfa_block.
  destruct (scale_at_ok black max (2 * k) 0 v) as (v1 & -> & L1 & N1); try lia. cbn [obind].
  destruct (scale_at_ok black max (2 * k + 1) 1 v1) as (v2 & -> & L2 & N2); try lia. cbn [obind].
  destruct (scale_at_ok black max (w + 2 * k) 2 v2) as (v3 & -> & L3 & N3); try lia. cbn [obind].
  destruct (scale_at_ok black max (w + 2 * k + 1) 3 v3) as (v4 & -> & L4 & N4); try lia.
  exists v4. split; [reflexivity|]. split; [lia|]. intros y x Hy Hx.
  rewrite N4, N3, N2, N1.
  pose proof (Nat.div_mod x 2). pose proof (Nat.mod_upper_bound x 2).
  destruct y as [|[|]]; [| |lia];
    destruct (x mod 2) as [|[|]] eqn:EM; try lia;
    repeat match goal with |- context [Nat.eqb ?a ?b] => destruct (Nat.eqb_spec a b); try lia end;
    cbn [Nat.mul Nat.add]; try reflexivity.
Qed.

Lemma cfa_blocks_ok w black max n v : length black = 4 -> length max = 4 -> length v = w * 2 -> 2 * n <= w ->
  exists v', run_ops (map (cfa_block o neg w black max) (seq 0 n)) v = Some v' /\ length v' = w * 2 /\
    forall y x, y < 2 -> x < w ->
      nth (y * w + x) v' z = if x <? 2 * n then scale1 (nth (y * w + x) v z) (nth (2 * y + x mod 2) black z) (nth (2 * y + x mod 2) max z)
                   else nth (y * w + x) v z.
Proof.
  intros HB HM HL HN. induction n as [|n IH].
  - exists v. split; [reflexivity|]. split; [exact HL|]. intros. now replace (x <? 2 * 0) with false by lia.
  - destruct IH as (v1 & E1 & L1 & N1); [lia|]. rewrite seq_S, map_app, run_ops_app, E1. cbn [map run_ops Nat.add].
    destruct (cfa_block_ok w black max n v1) as (v2 & E2 & L2 & N2); try lia. rewrite E2.
    exists v2. split; [reflexivity|]. split; [exact L2|]. intros y x Hy Hx. rewrite N2, N1 by auto.
    pose proof (Nat.div_mod x 2). pose proof (Nat.mod_upper_bound x 2).
    destruct (Nat.eqb_spec (x / 2) n).
    + replace (x <? 2 * n) with false by lia. now replace (x <? 2 * S n) with true by lia.
    + destruct (Nat.ltb_spec x (2 * n)).
      * now replace (x <? 2 * S n) with true by lia.
      * now replace (x <? 2 * S n) with false by lia.
Qed.

Lemma nth_gather cells (b : list F) i : i < length cells -> nth i (gather z cells b) z = nth (nth i cells 0) b z.
Proof.
  intros H. unfold gather. rewrite nth_indep with (d' := nth 0 b z) by (now rewrite map_length).
  apply (map_nth (fun i => nth i b z)).
Qed.

Lemma scale_at_len black max i j v v' : scale_at o neg black max i j v = Some v' -> length v' = length v.
Proof.
  unfold scale_at. destruct (nth_error v i), (nth_error black j), (nth_error max j); try discriminate.
  intros [= <-]. apply upd_list_length.
Qed.

Lemma cfa_block_op w black max k n : op_ok n (cfa_block o neg w black max k).
Proof.
  intros v v' HL. unfold cfa_block, obind.
  destruct (scale_at o neg black max (2 * k) 0 v) as [v1|] eqn:E1; [|discriminate].
  destruct (scale_at o neg black max (2 * k + 1) 1 v1) as [v2|] eqn:E2; [|discriminate].
  destruct (scale_at o neg black max (w + 2 * k) 2 v2) as [v3|] eqn:E3; [|discriminate].
  intros E4. apply scale_at_len in E1, E2, E3, E4. congruence.
Qed.

Lemma correct_cfa_ok sched raw w h black white : 0 < w -> length raw = w * h -> length black = 4 -> length white = 4 ->
  exists out, correct_blacklevel_cfa o neg sched raw w black white = Ok out /\ length out = length raw /\
    forall y x, y < h -> x < w ->
      nth (y * w + x) out z =
      if (y <? 2 * (h / 2)) && (x <? 2 * (w / 2))
      then scaled o neg (nth (y * w + x) raw z) (nth (2 * (y mod 2) + x mod 2) black z) (nth (2 * (y mod 2) + x mod 2) white z)
      else nth (y * w + x) raw z.
Proof.
  intros Hw HL HB HWh. unfold correct_blacklevel_cfa. replace (w * 2 =? 0) with false by lia.
  set (max := level_max o black white).
  assert (HM : length max = 4) by (unfold max, level_max; rewrite map_length, combine_length; lia).
  assert (NM : forall j, j < 4 -> nth j max z = f_sub o (nth j white z) (nth j black z)).
  { intros j Hj. unfold max, level_max. rewrite nth_indep with (d' := f_sub o z z) by (rewrite map_length, combine_length; lia).
    rewrite (map_nth (fun bw => f_sub o (snd bw) (fst bw)) _ (z, z)), combine_nth by lia. reflexivity. }
  set (ws := map _ (seq 0 _)). set (nc := length raw / (w * 2)) in *.
  assert (HNC : nc = h / 2) by (unfold nc; rewrite HL, Nat.div_mul_cancel_l by lia; reflexivity).
  assert (HK : forall k, k < nc -> k * (w * 2) + w * 2 <= length raw).
  { intros k Hk. pose proof (Nat.mul_div_le (length raw) (w * 2)). fold nc in H. nia. }
  destruct (par_run_ok z sched raw ws) as (out & E & L & HA & HO).
  - unfold ws. rewrite map_map. cbn. apply chunk_fp. lia.
  - apply Forall_forall. intros wk Hwk. apply in_map_iff in Hwk as (i & <- & Hi). cbn [wk_cells wk_ops].
    apply Forall_forall. intros f Hf. apply in_map_iff in Hf as (k & <- & _). apply cfa_block_op.
  - intros wk Hwk. apply in_map_iff in Hwk as (i & <- & Hi). apply in_seq in Hi. cbn [wk_cells wk_ops].
    destruct (cfa_blocks_ok w black max (w / 2) (gather z (chunk_cells (w * 2) (length raw) i) raw)) as (v' & Ev & _); auto.
    + unfold gather. rewrite map_length, chunk_len. specialize (HK i). lia.
    + pose proof (Nat.mul_div_le w 2). lia.
    + rewrite Ev. discriminate.
  - exists out. split; [exact E|]. split; [exact L|]. intros y x Hy Hx.
    assert (HI : y * w + x < length raw) by nia.
    pose proof (Nat.div_mod y 2). pose proof (Nat.mod_upper_bound y 2).
    destruct (Nat.ltb_spec y (2 * (h / 2))) as [Hyy|Hyy]; cbn [andb].
    + assert (Hk : y / 2 < nc) by lia. specialize (HK _ Hk).
      set (wk := mk_worker (chunk_cells (w * 2) (length raw) (y / 2)) (map (cfa_block o neg w black max) (seq 0 (w / 2)))).
      assert (Hin : In wk ws). { unfold ws. apply in_map_iff. exists (y / 2). split; [reflexivity|]. apply in_seq. lia. }
      specialize (HA wk Hin). subst wk. cbn [wk_cells wk_ops] in HA.
      destruct (cfa_blocks_ok w black max (w / 2) (gather z (chunk_cells (w * 2) (length raw) (y / 2)) raw)) as (v' & Ev & Lv & Nv); auto.
      { unfold gather. rewrite map_length, chunk_len. lia. }
      { pose proof (Nat.mul_div_le w 2). lia. }
      rewrite Ev in HA. apply (f_equal (fun a => match a with Some a => a | None => v' end)) in HA.
      assert (HC : forall b, nth (y * w + x) b z = nth (y mod 2 * w + x) (gather z (chunk_cells (w * 2) (length raw) (y / 2)) b) z).
      { intros b. rewrite nth_gather by (rewrite chunk_len; nia). unfold chunk_cells. rewrite seq_nth by nia.
        f_equal. nia. }
      rewrite (HC out), <- HA, Nv by lia. rewrite <- HC.
      destruct (x <? 2 * (w / 2)); [|reflexivity]. unfold Levels.scale1, clip0, scaled.
      rewrite NM; [reflexivity|]. pose proof (Nat.mod_upper_bound x 2). lia.
    + apply HO. intros wk Hwk. apply in_map_iff in Hwk as (i & <- & Hi). apply in_seq in Hi. cbn [wk_cells].
      unfold chunk_cells. rewrite in_seq. specialize (HK i). nia.
Qed.

(** in place updates of distinct positions *)
Lemma for_each_inplace {A} (pos : A -> nat) (g : A -> F -> F) (f : A -> list F -> res (list F)) l : forall v,
  (forall a v', In a l -> length v' = length v -> f a v' = Ok (upd_list v' (pos a) (g a (nth (pos a) v' z)))) ->
  NoDup (map pos l) -> (forall a, In a l -> pos a < length v) ->
  exists v', for_each l f v = Ok v' /\ length v' = length v /\
    (forall a, In a l -> nth (pos a) v' z = g a (nth (pos a) v z)) /\
    (forall q, ~ In q (map pos l) -> nth q v' z = nth q v z).
Proof.
  induction l as [|a l IH]; intros v HF ND HB.
  - exists v. split; [reflexivity|]. split; [reflexivity|]. split; [intros a []|reflexivity].
  - cbn [for_each]. rewrite HF by (auto; now left). cbn [bind]. cbn [map] in ND. inversion ND as [|? ? NI ND']; subst.
    destruct (IH (upd_list v (pos a) (g a (nth (pos a) v z)))) as (v' & E & L & HA & HO); auto.
    + intros b v' Hb Hv. apply HF; [now right|]. now rewrite upd_list_length in Hv.
    + intros b Hb. rewrite upd_list_length. apply HB. now right.
    + rewrite upd_list_length in L. exists v'. split; [exact E|]. split; [exact L|]. split.
      * intros b [<-|Hb].
        -- rewrite HO by exact NI. apply nth_upd_eq. apply HB. now left.
        -- rewrite HA by exact Hb. rewrite nth_upd_neq; [reflexivity|]. intros E'. apply NI, in_map_iff. exists b. split; [congruence|exact Hb].
      * intros q Hq. rewrite HO by (intros H; apply Hq; now right). apply nth_upd_neq. intros E'. apply Hq. now left.
Qed.

Lemma NoDup_prod_pos ch n : NoDup (map (fun ki => fst ki * ch + snd ki) (list_prod (seq 0 n) (seq 0 ch))).
Proof.
  induction n as [|n IH]; [constructor|].
  assert (EP : list_prod (seq 0 (S n)) (seq 0 ch) = list_prod (seq 0 n) (seq 0 ch) ++ map (fun i => (n, i)) (seq 0 ch)).
  { rewrite seq_S. cbn [Nat.add]. generalize (seq 0 n), (seq 0 ch). clear. intros l m.
    induction l as [|a l IHl]; cbn [list_prod app]; [now rewrite app_nil_r|].
    rewrite IHl. apply app_assoc. }
  rewrite EP, map_app, map_map. cbn [fst snd].
  assert (ND2 : NoDup (map (fun i => n * ch + i) (seq 0 ch))).
  { apply Injective_map_NoDup; [intros a b; lia|apply seq_NoDup]. }
  clear EP. revert IH ND2.
  assert (DJ : forall q, In q (map (fun ki => fst ki * ch + snd ki) (list_prod (seq 0 n) (seq 0 ch))) -> ~ In q (map (fun i => n * ch + i) (seq 0 ch))).
  { intros q H1 H2. apply in_map_iff in H1 as ([k i] & <- & H1). apply in_prod_iff in H1 as [H1 H1'].
    apply in_map_iff in H2 as (j & E & H2). cbn [fst snd] in E. apply in_seq in H1, H1', H2. nia. }
  revert DJ. generalize (map (fun ki : nat * nat => fst ki * ch + snd ki) (list_prod (seq 0 n) (seq 0 ch))).
  generalize (map (fun i => n * ch + i) (seq 0 ch)). intros b a DJ Na Nb.
  induction a as [|x a IHa]; [exact Nb|]. cbn. inversion Na; subst. constructor.
  - rewrite in_app_iff. intros [H|H]; [auto|]. apply (DJ x); [now left|exact H].
  - apply IHa; auto. intros q Hq. apply DJ. now right.
Qed.

Lemma level_max_nth black white j : length black = length white -> j < length black ->
  nth j (level_max o black white) z = f_sub o (nth j white z) (nth j black z).
Proof.
  intros HE Hj. unfold level_max. rewrite nth_indep with (d' := f_sub o z z) by (rewrite map_length, combine_length; lia).
  rewrite (map_nth (fun bw => f_sub o (snd bw) (fst bw)) _ (z, z)), combine_nth by lia. reflexivity.
Qed.

Lemma correct_ok raw black white : length black = length white -> black <> [] ->
  exists out, correct_blacklevel o neg raw black white = Ok out /\ length out = length raw /\
    forall i, i < length raw ->
      nth i out z =
      if i <? length black * (length raw / length black)
      then scaled o neg (nth i raw z) (nth (i mod length black) black z) (nth (i mod length black) white z)
      else nth i raw z.
Proof.
  intros HE HN. unfold correct_blacklevel. rewrite HE, Nat.eqb_refl. rewrite <- HE.
  set (ch := length black) in *. assert (Hch : 0 < ch) by (destruct black; [congruence|cbn; lia]).
  assert (LM : length (level_max o black white) = ch) by (unfold level_max; rewrite map_length, combine_length; lia).
  destruct (Nat.eqb_spec ch 1) as [E1|E1].
  - rewrite get_ok with (d := z) by lia. cbn [bind]. rewrite get_ok with (d := z) by lia. cbn [bind].
    eexists. split; [reflexivity|]. rewrite map_length. split; [reflexivity|]. intros i Hi.
    rewrite E1, Nat.div_1_r, Nat.mul_1_l, Nat.mod_1_r. replace (i <? length raw) with true by lia.
    rewrite nth_indep with (d' := scale1 z (nth 0 black z) (nth 0 (level_max o black white) z)) by (now rewrite map_length).
    rewrite (map_nth (fun p => scale1 p (nth 0 black z) (nth 0 (level_max o black white) z))).
    unfold Levels.scale1, clip0, scaled. now rewrite level_max_nth by lia.
  - replace (ch =? 0) with false by lia.
    assert (HB : length raw / ch * ch <= length raw) by (pose proof (Nat.mul_div_le (length raw) ch); lia).
    destruct (for_each_inplace (fun ki => fst ki * ch + snd ki)
      (fun ki p => scale1 p (nth (snd ki) black z) (nth (snd ki) (level_max o black white) z))
      (fun ki raw => let '(k, i) := ki in do p <- get raw (k * ch + i); do b <- get black i; do m <- get (level_max o black white) i;
        put raw (k * ch + i) (scale1 p b m))
      (list_prod (seq 0 (length raw / ch)) (seq 0 ch)) raw) as (out & E & L & HA & HO).
    + intros [k i] v' HI HL. apply in_prod_iff in HI as [H1 H2]. apply in_seq in H1, H2. cbn [fst snd].
      rewrite get_ok with (d := z) by nia. cbn [bind]. rewrite get_ok with (d := z) by (unfold ch in *; lia). cbn [bind].
      rewrite get_ok with (d := z) by lia. cbn [bind]. rewrite put_ok by nia. reflexivity.
    + apply NoDup_prod_pos.
    + intros [k i] HI. apply in_prod_iff in HI as [H1 H2]. apply in_seq in H1, H2. cbn [fst snd]. nia.
    + exists out. split; [exact E|]. split; [exact L|]. intros i Hi.
      pose proof (Nat.div_mod i ch). pose proof (Nat.mod_upper_bound i ch).
      destruct (Nat.ltb_spec i (ch * (length raw / ch))) as [H1|H1].
      * specialize (HA (i / ch, i mod ch)). cbn [fst snd] in HA.
        replace (i / ch * ch + i mod ch) with i in HA by lia. rewrite HA.
        -- unfold Levels.scale1, clip0, scaled. now rewrite level_max_nth by (unfold ch in *; lia).
        -- apply in_prod_iff. rewrite !in_seq. split; (split; [apply Nat.le_0_l|rewrite Nat.add_0_l]); [apply Nat.div_lt_upper_bound; [lia|exact H1]|lia].
      * apply HO. intros HI. apply in_map_iff in HI as ([k j] & EI & HI). apply in_prod_iff in HI as [H2 H3].
        apply in_seq in H2, H3. cbn [fst snd] in EI. nia.
Qed.

Variable flt : Z -> F.
Variable lvl : Z * Z -> F.
Notation apply_scaling := (apply_scaling o neg flt lvl).
Notation as_f32 := (as_f32 flt).

(** levels after scaling *)
Definition unit_levels (r r' : rawimg F) : Prop :=
  ri_black r' = mk_black (repeat (0, 1)%Z (length (b_levels (ri_black r)))) (b_w (ri_black r)) (b_h (ri_black r)) (b_cpp (ri_black r)) /\
  ri_white r' = repeat 1%Z (length (ri_white r)).
Definition same_frame (r r' : rawimg F) : Prop :=
  ri_w r' = ri_w r /\ ri_h r' = ri_h r /\ ri_cpp r' = ri_cpp r /\ ri_photo r' = ri_photo r.

Lemma map_const {A B} (b : B) (l : list A) : map (fun _ => b) l = repeat b (length l).
Proof. induction l; cbn; congruence. Qed.

Lemma scaling_cfa sched r : ri_photo r = PCfa -> 0 < ri_w r -> length (as_f32 (ri_data r)) = ri_w r * ri_h r ->
  b_levels (ri_black r) <> [] -> ri_white r <> [] ->
  exists r' out, apply_scaling sched r = Ok r' /\ same_frame r r' /\ unit_levels r r' /\
    ri_data r' = DFloat out /\ length out = ri_w r * ri_h r /\
    forall y x, y < ri_h r -> x < ri_w r ->
      nth (y * ri_w r + x) out z =
      if (y <? 2 * (ri_h r / 2)) && (x <? 2 * (ri_w r / 2))
      then scaled o neg (nth (y * ri_w r + x) (as_f32 (ri_data r)) z)
             (lvl (tile_level (b_levels (ri_black r)) (0, 1)%Z y x)) (flt (tile_level (ri_white r) 1%Z y x))
      else nth (y * ri_w r + x) (as_f32 (ri_data r)) z.
Proof.
  intros HP HW HL HB HWh. unfold Levels.apply_scaling. rewrite HP.
  destruct (bayer_array_ok lvl (b_levels (ri_black r)) (0, 1)%Z 0 0 HB) as (tb & EB & LB & _).
  destruct (bayer_array_ok flt (ri_white r) 1%Z 0 0 HWh) as (tw & EW & LW & _).
  rewrite EB, EW. cbn [bind].
  destruct (correct_cfa_ok sched (as_f32 (ri_data r)) (ri_w r) (ri_h r) tb tw) as (out & E & L & N); auto.
  rewrite E. cbn [bind]. eexists. exists out. split; [reflexivity|].
  split; [unfold same_frame; auto|]. split; [unfold unit_levels; cbn [ri_black ri_white]; now rewrite !map_const|].
  split; [reflexivity|]. split; [lia|]. intros y x Hy Hx. rewrite N by auto.
  destruct ((y <? 2 * (ri_h r / 2)) && (x <? 2 * (ri_w r / 2))); [|reflexivity].
  destruct (bayer_array_ok lvl (b_levels (ri_black r)) (0, 1)%Z y x HB) as (tb' & EB' & _ & NB).
  destruct (bayer_array_ok flt (ri_white r) 1%Z y x HWh) as (tw' & EW' & _ & NW).
  rewrite EB in EB'. injection EB' as <-. rewrite EW in EW'. injection EW' as <-. rewrite <- NB, <- NW.
  assert (2 * (y mod 2) + x mod 2 < 4) by (pose proof (Nat.mod_upper_bound y 2); pose proof (Nat.mod_upper_bound x 2); lia).
  f_equal; apply nth_indep; lia.
Qed.

Lemma scaling_linear sched r : ri_photo r = PLinear -> length (b_levels (ri_black r)) = length (ri_white r) -> ri_white r <> [] ->
  exists r' out, apply_scaling sched r = Ok r' /\ same_frame r r' /\ unit_levels r r' /\
    ri_data r' = DFloat out /\ length out = length (as_f32 (ri_data r)) /\
    forall i, i < length out ->
      nth i out z =
      if i <? length (ri_white r) * (length out / length (ri_white r))
      then scaled o neg (nth i (as_f32 (ri_data r)) z)
             (lvl (nth (i mod length (ri_white r)) (b_levels (ri_black r)) (0, 1)%Z)) (flt (nth (i mod length (ri_white r)) (ri_white r) 1%Z))
      else nth i (as_f32 (ri_data r)) z.
Proof.
  intros HP HE HN. unfold Levels.apply_scaling. rewrite HP.
  destruct (correct_ok (as_f32 (ri_data r)) (map lvl (b_levels (ri_black r))) (map flt (ri_white r))) as (out & E & L & N).
  { now rewrite !map_length. }
  { destruct (b_levels (ri_black r)); [|discriminate]. destruct (ri_white r); [congruence|discriminate]. }
  rewrite E. cbn [bind]. eexists. exists out. split; [reflexivity|].
  split; [unfold same_frame; auto|]. split; [unfold unit_levels; cbn [ri_black ri_white]; now rewrite !map_const|].
  split; [reflexivity|]. split; [exact L|]. intros i Hi. rewrite N by lia. rewrite map_length, HE, L.
  destruct (i <? _) eqn:EI; [|reflexivity].
  assert (0 < length (ri_white r)) by (destruct (ri_white r); [congruence|cbn; lia]).
  pose proof (Nat.mod_upper_bound i (length (ri_white r))).
  f_equal.
  - rewrite nth_indep with (d' := lvl (0, 1)%Z) by (rewrite map_length; lia). apply map_nth.
  - rewrite nth_indep with (d' := flt 1%Z) by (rewrite map_length; lia). apply map_nth.
Qed.

(** With different counts nothing is scaled, but the levels are reset. *)
Lemma scaling_mismatch sched r : ri_photo r = PLinear -> length (b_levels (ri_black r)) <> length (ri_white r) ->
  exists r', apply_scaling sched r = Ok r' /\ same_frame r r' /\ unit_levels r r' /\ ri_data r' = DFloat (as_f32 (ri_data r)).
Proof.
  intros HP HE. unfold Levels.apply_scaling. rewrite HP. unfold correct_blacklevel.
  rewrite !map_length. replace (_ =? _) with false by lia. cbn [bind]. eexists. split; [reflexivity|].
  split; [unfold same_frame; auto|]. split; [unfold unit_levels; cbn [ri_black ri_white]; now rewrite !map_const|]. reflexivity.
Qed.

Lemma scaling_mono sched r : ri_photo r = PBlackIsZero -> apply_scaling sched r = Panic.
Proof. intros HP. unfold Levels.apply_scaling. now rewrite HP. Qed.
End P.

(** ** Exact arithmetic *)

Open Scope Qc_scope.
Definition qneg (x : Qc) : bool := if Qclt_le_dec x 0 then true else false.

Lemma qsub_nonneg (a b : Qc) : b <= a -> 0 <= a - b.
Proof. intros H. rewrite <- (Qcplus_opp_r b). unfold Qcminus. apply Qcplus_le_compat; [exact H|apply Qcle_refl]. Qed.
Lemma qsub_pos (a b : Qc) : b < a -> 0 < a - b.
Proof.
  intros H. destruct (Qcle_lt_or_eq 0 (a - b)) as [L|E]; [apply qsub_nonneg; now apply Qclt_le_weak|exact L|].
  exfalso. assert (a = b). { rewrite <- (Qcplus_0_l b), E. ring. } subst. now apply Qlt_irrefl in H.
Qed.
Lemma qdiv_nonneg (a b : Qc) : 0 <= a -> 0 < b -> 0 <= a / b.
Proof.
  intros Ha Hb. apply Qcnot_lt_le. intros H.
  assert (a / b * b < 0 * b) by (now apply Qcmult_lt_compat_r).
  rewrite Qcmult_0_l in H0. replace (a / b * b) with a in H0.
  - now apply (Qcle_not_lt 0 a).
  - field. intros ->. now apply Qlt_irrefl in Hb.
Qed.
Lemma qdiv_le1 (a b : Qc) : a <= b -> 0 < b -> a / b <= 1.
Proof.
  intros Ha Hb. apply Qcnot_lt_le. intros H.
  assert (1 * b < a / b * b) by (now apply Qcmult_lt_compat_r).
  rewrite Qcmult_1_l in H0. replace (a / b * b) with a in H0.
  - now apply (Qcle_not_lt a b).
  - field. intros ->. now apply Qlt_irrefl in Hb.
Qed.

Lemma scaled_range (s b w : Qc) : b < w ->
  0 <= scaled qops qneg s b w /\ (s <= w -> scaled qops qneg s b w <= 1) /\
  (b <= s -> scaled qops qneg s b w * (w - b) = s - b).
Proof.
  intros Hbw. unfold scaled. cbn [f_div f_sub f_nat qops]. pose proof (qsub_pos _ _ Hbw) as Hp.
  assert (Hn : w - b <> 0) by (intros E; rewrite E in Hp; now apply Qlt_irrefl in Hp).
  unfold qneg. destruct (Qclt_le_dec (s - b) 0) as [L|L].
  - replace (Q2Qc (inject_Z (Z.of_nat 0))) with 0 by (now apply Qc_is_canon).
    split; [apply qdiv_nonneg; [apply Qcle_refl|exact Hp]|]. split.
    + intros _. apply qdiv_le1; [now apply Qclt_le_weak|exact Hp].
    + intros H. apply qsub_nonneg in H. exfalso. now apply (Qcle_not_lt 0 (s - b)).
  - split; [now apply qdiv_nonneg|]. split.
    + intros H. apply qdiv_le1; [|exact Hp]. unfold Qcminus. apply Qcplus_le_compat; [exact H|apply Qcle_refl].
    + intros _. now field.
Qed.

Lemma scaled_unit (s : Qc) : 0 <= s -> scaled qops qneg s 0 1 = s.
Proof.
  intros H. unfold scaled. cbn [f_div f_sub f_nat qops]. unfold qneg.
  destruct (Qclt_le_dec (s - 0) 0) as [L|L].
  - exfalso. apply (Qcle_not_lt 0 s H). replace s with (s - 0) by ring. exact L.
  - field. intros E. apply (f_equal this) in E. discriminate E.
Qed.
Close Scope Qc_scope.

Section Exact.
Variable flt : Z -> Qc.
Variable lvl : Z * Z -> Qc.
Hypothesis flt1 : flt 1%Z = 1%Qc.
Hypothesis lvl0 : lvl (0, 1)%Z = 0%Qc.
Notation z := (f_nat qops 0).
Notation scaling := (apply_scaling qops qneg flt lvl).

(** usable levels: black below white at every place of the tile *)
Definition levels_ok (r : rawimg Qc) : Prop :=
  forall y x, (lvl (tile_level (b_levels (ri_black r)) (0, 1)%Z y x) < flt (tile_level (ri_white r) 1%Z y x))%Qc.

Lemma tile_repeat {A} (a : A) l y x : (forall b, In b l -> b = a) -> tile_level l a y x = a.
Proof.
  intros H. unfold tile_level. destruct (length l =? 4).
  - destruct (Nat.ltb_spec (2 * (y mod 2) + x mod 2) (length l)); [apply H; now apply nth_In|now apply nth_overflow].
  - destruct l; [reflexivity|]. apply H. now left.
Qed.

Lemma scaling_cfa_range sched r : ri_photo r = PCfa -> 0 < ri_w r -> length (as_f32 flt (ri_data r)) = ri_w r * ri_h r ->
  b_levels (ri_black r) <> [] -> ri_white r <> [] -> levels_ok r ->
  ri_w r mod 2 = 0 -> ri_h r mod 2 = 0 ->
  exists r' out, scaling sched r = Ok r' /\ ri_data r' = DFloat out /\
    forall y x, y < ri_h r -> x < ri_w r ->
      let s := nth (y * ri_w r + x) (as_f32 flt (ri_data r)) z in
      let b := lvl (tile_level (b_levels (ri_black r)) (0, 1)%Z y x) in
      let w := flt (tile_level (ri_white r) 1%Z y x) in
      let v := nth (y * ri_w r + x) out z in
      ((0 <= v /\ (s <= w -> v <= 1) /\ (b <= s -> v * (w - b) = s - b) /\ (s <= b -> v = 0))%Qc).
Proof.
  intros HP HW HL HB HWh HLv E1 E2.
  destruct (scaling_cfa qops qneg flt lvl sched r HP HW HL HB HWh) as (r' & out & E & _ & _ & ED & _ & N).
  exists r', out. split; [exact E|]. split; [exact ED|]. intros y x Hy Hx s b w v.
  pose proof (Nat.div_mod (ri_h r) 2). pose proof (Nat.div_mod (ri_w r) 2).
  assert (EV : v = scaled qops qneg s b w).
  { unfold v. rewrite N by auto. replace (y <? 2 * (ri_h r / 2)) with true by lia.
    now replace (x <? 2 * (ri_w r / 2)) with true by lia. }
  rewrite EV. clearbody s v. destruct (scaled_range s b w (HLv y x)) as (R1 & R2 & R3).
  split; [exact R1|]. split; [exact R2|]. split; [exact R3|].
  intros Hs. unfold scaled. cbn [f_div f_sub f_nat qops]. unfold qneg.
  pose proof (qsub_pos _ _ (HLv y x)) as Hp. fold b w in Hp.
  assert (Hn : (w - b <> 0)%Qc) by (intros E'; rewrite E' in Hp; now apply Qlt_irrefl in Hp).
  destruct (Qclt_le_dec (s - b) 0) as [L|L].
  - replace (Q2Qc (inject_Z (Z.of_nat 0))) with 0%Qc by (now apply Qc_is_canon). now field.
  - assert (s = b). { apply Qcle_antisym; [exact Hs|]. rewrite <- (Qcplus_0_l b). replace s with (s - b + b)%Qc by ring.
      apply Qcplus_le_compat; [exact L|apply Qcle_refl]. }
    subst s. replace (b - b)%Qc with 0%Qc by ring. now field.
Qed.

(** Scaling a scaled image changes nothing. *)
Lemma scaling_twice sched sched' r r1 : ri_photo r = PCfa -> 0 < ri_w r ->
  length (as_f32 flt (ri_data r)) = ri_w r * ri_h r ->
  b_levels (ri_black r) <> [] -> ri_white r <> [] -> levels_ok r ->
  scaling sched r = Ok r1 -> scaling sched' r1 = Ok r1.
Proof.
  intros HP HW HL HB HWh HLv ES.
  destruct (scaling_cfa qops qneg flt lvl sched r HP HW HL HB HWh) as (r1' & out & E & SF & UL & ED & LO & N).
  rewrite ES in E. injection E as <-.
  destruct SF as (SW & SH & SC & SP). destruct UL as (UB & UW).
  assert (L1 : length (as_f32 flt (ri_data r1)) = ri_w r1 * ri_h r1) by (rewrite ED, SW, SH; exact LO).
  destruct (scaling_cfa qops qneg flt lvl sched' r1) as (r2 & out2 & E2 & SF2 & UL2 & ED2 & LO2 & N2); try congruence.
  { rewrite UB. cbn. destruct (b_levels (ri_black r)); [congruence|discriminate]. }
  { rewrite UW. destruct (ri_white r); [congruence|discriminate]. }
  rewrite E2. f_equal. destruct SF2 as (SW2 & SH2 & SC2 & SP2). destruct UL2 as (UB2 & UW2).
  assert (EO : out2 = out).
  { apply nth_ext_len with (d := z); [rewrite LO2, LO, SW, SH; reflexivity|]. intros i Hi.
    rewrite LO2, SW, SH in Hi.
    assert (Hi' : i = i / ri_w r * ri_w r + i mod ri_w r) by (pose proof (Nat.div_mod i (ri_w r)); lia).
    assert (Hy : i / ri_w r < ri_h r) by (apply Nat.div_lt_upper_bound; lia).
    assert (Hx : i mod ri_w r < ri_w r) by (apply Nat.mod_upper_bound; lia).
    specialize (N2 (i / ri_w r) (i mod ri_w r)). specialize (N (i / ri_w r) (i mod ri_w r) Hy Hx).
    rewrite SW, SH in N2. specialize (N2 Hy Hx). rewrite <- Hi' in N, N2. rewrite N2, ED. cbn [as_f32].
    rewrite UB, UW. cbn [b_levels].
    rewrite tile_repeat by (intros b Hb; now apply repeat_spec in Hb).
    rewrite tile_repeat by (intros b Hb; now apply repeat_spec in Hb). rewrite lvl0, flt1.
    destruct (_ && _); [|reflexivity]. apply scaled_unit. rewrite N.
    apply scaled_range. apply HLv. }
  clear N N2 HLv E2 ES L1.
  rewrite UB, UW in *. cbn [b_levels b_w b_h b_cpp] in UB2. rewrite !repeat_length in *.
  destruct r1 as [w1 h1 c1 p1 b1 wh1 d1], r2 as [w2 h2 c2 p2 b2 wh2 d2].
  cbn [ri_w ri_h ri_cpp ri_photo ri_black ri_white ri_data] in *. subst. reflexivity.
Qed.
End Exact.

(** ** Black levels from masked areas *)

Section Masked.
Context {F R : Type}.
Variable o : fops F.
Variable rat : F -> res R.
Notation z := (f_nat o 0).

Lemma for_each_concat {A S} (f : A -> S -> res S) ls : forall s,
  for_each ls (fun l s => for_each l f s) s = for_each (concat ls) f s.
Proof.
  assert (AP : forall l l' s, for_each (l ++ l') f s = do s1 <- for_each l f s; for_each l' f s1).
  { induction l as [|a l IH]; intros l' s; cbn; [reflexivity|]. destruct (f a s); cbn; auto. }
  induction ls as [|l ls IH]; intros s; cbn; [reflexivity|]. rewrite AP.
  destruct (for_each l f s); cbn; auto.
Qed.

Lemma for_each_map {A B S} (g : A -> B) (f : B -> S -> res S) l : forall s, for_each (map g l) f s = for_each l (fun a => f (g a)) s.
Proof. induction l as [|a l IH]; intros s; cbn; [reflexivity|]. destruct (f (g a) s); cbn; auto. Qed.

(** the sums of all places *)
Lemma masked_sums cw ch width image l : 0 < cw -> 0 < ch -> (forall p, In p l -> fst p * width + snd p < length image) ->
  let smp r c := nth (r * width + c) image z in
  let sel k l := map (fun p => smp (fst p) (snd p)) (filter (fun p => fst p mod ch * cw + snd p mod cw =? k) l) in
  forall sums, length sums = cw * ch ->
  exists out, for_each l (fun rc samples =>
      let '(row, col) := rc in
      let color := row mod ch * cw + col mod cw in
      do s <- get samples color;
      do v <- get image (row * width + col);
      put samples color (f_add o (fst s) v, S (snd s))) sums = Ok out /\ length out = cw * ch /\
    forall k, k < cw * ch -> nth k out (z, 0) =
      (fold_left (f_add o) (sel k l) (fst (nth k sums (z, 0))), snd (nth k sums (z, 0)) + length (sel k l)).
Proof.
  intros Hcw Hch HB smp sel. induction l as [|[r c] l IH]; intros sums HL.
  - exists sums. split; [reflexivity|]. split; [exact HL|]. intros k Hk. cbn. rewrite Nat.add_0_r. apply surjective_pairing.
  - cbn [for_each].
    assert (HK : r mod ch * cw + c mod cw < cw * ch).
    { pose proof (Nat.mod_upper_bound r ch). pose proof (Nat.mod_upper_bound c cw). nia. }
    rewrite get_ok with (d := (z, 0)) by lia. cbn [bind].
    rewrite get_ok with (d := z) by (apply (HB (r, c)); now left). cbn [bind].
    rewrite put_ok by lia. cbn [bind].
    destruct (IH ltac:(intros; apply HB; now right) (upd_list sums (r mod ch * cw + c mod cw)
       (f_add o (fst (nth (r mod ch * cw + c mod cw) sums (z, 0))) (nth (r * width + c) image z), S (snd (nth (r mod ch * cw + c mod cw) sums (z, 0))))))
      as (out & E & L & N); [now rewrite upd_list_length|].
    exists out. split; [exact E|]. split; [exact L|]. intros k Hk. rewrite N by auto.
    unfold sel at 3 4. cbn [filter fst snd]. fold (sel k l).
    destruct (Nat.eqb_spec (r mod ch * cw + c mod cw) k) as [<-|Nk].
    + rewrite nth_upd_eq by lia. cbn [map fst snd length fold_left]. fold (sel (r mod ch * cw + c mod cw) l).
      f_equal. lia.
    + rewrite nth_upd_neq by lia. reflexivity.
Qed.

Lemma for_each_rat (l : list (F * nat)) : forall acc,
  (forall s, In s l -> exists r, rat (f_div o (fst s) (f_nat o (snd s))) = Ok r) ->
  exists out, for_each l (fun s acc => do r <- rat (f_div o (fst s) (f_nat o (snd s))); Ok (acc ++ [r])) acc = Ok (acc ++ out) /\
    length out = length l /\
    forall k, k < length l -> rat (f_div o (fst (nth k l (z, 0))) (f_nat o (snd (nth k l (z, 0))))) = match nth_error out k with Some r => Ok r | None => Panic end.
Proof.
  induction l as [|s l IH]; intros acc HR.
  - exists []. cbn. rewrite app_nil_r. split; [reflexivity|]. split; [reflexivity|]. intros; lia.
  - destruct (HR s) as (r & Er); [now left|]. cbn [for_each]. rewrite Er. cbn [bind].
    destruct (IH (acc ++ [r])) as (out & E & L & N); [intros; apply HR; now right|].
    exists (r :: out). rewrite E, <- app_assoc. split; [reflexivity|]. split; [cbn; now rewrite L|].
    intros [|k] Hk; cbn [nth nth_error]; [exact Er|]. apply N. cbn in Hk. lia.
Qed.

(** A 2 x 2 pattern: each of the four levels is the mean of the masked samples at
    its place. *)
Lemma calc_black_ok areas width image : areas <> [] ->
  (forall p, In p (masked areas) -> fst p * width + snd p < length image) -> image <> [] ->
  let m k := masked_mean o areas 2 2 k (fun r c => nth (r * width + c) image z) in
  (forall k, k < 4 -> exists r, rat (m k) = Ok r) ->
  exists levels, calc_black_levels o rat 2 2 areas width image = Ok (Some (mk_black levels 2 2 1)) /\
    length levels = 4 /\ forall k, k < 4 -> rat (m k) = match nth_error levels k with Some r => Ok r | None => Panic end.
Proof.
  intros HA HB HI m HR. unfold calc_black_levels. cbn [Nat.mul Nat.add Nat.eqb].
  destruct image as [|i0 image0]; [congruence|]. set (image := i0 :: image0) in *.
  replace (0 <? length image) with true by (cbn; lia). cbn [assert_ bind].
  assert (EC : forall g (s : list (F * nat)), for_each areas (fun area samples => for_each (area_cells area) g samples) s = for_each (masked areas) g s).
  { intros g s. rewrite <- (for_each_map area_cells (fun l s => for_each l g s)).
    rewrite for_each_concat. unfold masked. now rewrite flat_map_concat_map. }
  destruct areas as [|a areas']; [congruence|]. set (areas := a :: areas') in *.
  rewrite EC.
  destruct (masked_sums 2 2 width image (masked areas) ltac:(lia) ltac:(lia) HB (repeat (z, 0) 4) eq_refl) as (out & E & L & N).
  change (repeat (z, 0) (2 * 2)) with (repeat (z, 0) 4). cbn [Nat.mul Nat.add] in E |- *. rewrite E. cbn [bind].
  change (2 * 2) with 4 in L, N.
  assert (NN : forall k, k < 4 -> f_div o (fst (nth k out (z, 0))) (f_nat o (snd (nth k out (z, 0)))) = m k).
  { intros k Hk. rewrite N by lia. cbn [fst snd]. unfold m, masked_mean, masked_samples.
    replace (nth k (repeat (z, 0) 4) (z, 0)) with (z, 0); [reflexivity|]. destruct k as [|[|[|[|]]]]; try lia; reflexivity. }
  destruct (for_each_rat out []) as (levels & EL & LL & NL).
  { intros s Hs. apply In_nth with (d := (z, 0)) in Hs as (k & Hk & <-). rewrite NN by lia. apply HR. lia. }
  rewrite EL. cbn [bind app]. unfold black_new. rewrite LL, L. cbn [Nat.eqb Nat.mul Nat.add assert_ bind].
  exists levels. split; [reflexivity|]. split; [lia|]. intros k Hk. rewrite <- NN by lia. apply NL. lia.
Qed.

Lemma calc_black_other cw ch a areas width image :
  cw * ch <> 0 -> cw * ch <> 4 ->
  (forall p, In p (masked (a :: areas)) -> fst p * width + snd p < length image) ->
  calc_black_levels o rat cw ch (a :: areas) width image = Panic.
Proof.
  intros H0 H4 HB. unfold calc_black_levels. replace (cw * ch =? 0) with false by (symmetry; now apply Nat.eqb_neq).
  destruct (0 <? length image); [|reflexivity]. cbn [assert_ bind].
  assert (EC : forall g (s : list (F * nat)), for_each (a :: areas) (fun area samples => for_each (area_cells area) g samples) s = for_each (masked (a :: areas)) g s).
  { intros g s. rewrite <- (for_each_map area_cells (fun l s => for_each l g s)).
    rewrite for_each_concat. unfold masked. now rewrite flat_map_concat_map. }
  rewrite EC.
  destruct (masked_sums cw ch width image (masked (a :: areas))) with (sums := repeat (z, 0) (cw * ch)) as (out & E & L & N);
    [destruct cw; lia|destruct ch; lia|exact HB|apply repeat_length|].
  cbv zeta in E.
  rewrite E. cbn [bind]. apply Nat.eqb_neq in H4. now rewrite H4.
Qed.

(** A place without a masked sample makes 0 / 0, which no Rational holds. *)
Lemma calc_black_empty areas width image k : areas <> [] ->
  (forall p, In p (masked areas) -> fst p * width + snd p < length image) -> image <> [] -> k < 4 ->
  (forall p, In p (masked areas) -> fst p mod 2 * 2 + snd p mod 2 <> k) ->
  rat (f_div o z z) = Panic -> (forall x, rat x <> Err) ->
  calc_black_levels o rat 2 2 areas width image = Panic.
Proof.
  intros HA HB HI Hk HE HZ HN. unfold calc_black_levels. cbn [Nat.mul Nat.add Nat.eqb].
  destruct image as [|i0 image0]; [congruence|]. set (image := i0 :: image0) in *.
  replace (0 <? length image) with true by (cbn; lia). cbn [assert_ bind].
  assert (EC : forall g (s : list (F * nat)), for_each areas (fun area samples => for_each (area_cells area) g samples) s = for_each (masked areas) g s).
  { intros g s. rewrite <- (for_each_map area_cells (fun l s => for_each l g s)).
    rewrite for_each_concat. unfold masked. now rewrite flat_map_concat_map. }
  destruct areas as [|a areas']; [congruence|]. set (areas := a :: areas') in *.
  rewrite EC.
  destruct (masked_sums 2 2 width image (masked areas) ltac:(lia) ltac:(lia) HB (repeat (z, 0) 4) eq_refl) as (out & E & L & N).
  change (repeat (z, 0) (2 * 2)) with (repeat (z, 0) 4). cbn [Nat.mul Nat.add] in E |- *. rewrite E. cbn [bind].
  change (2 * 2) with 4 in L, N.
  assert (NK : nth k out (z, 0) = (z, 0)).
  { rewrite N by lia. replace (nth k (repeat (z, 0) 4) (z, 0)) with (z, 0) by (destruct k as [|[|[|[|]]]]; try lia; reflexivity).
    replace (filter _ (masked areas)) with (@nil (nat * nat)); [reflexivity|].
    symmetry. clear - HE. induction (masked areas) as [|p l IH]; [reflexivity|]. cbn [filter].
    destruct (Nat.eqb_spec (fst p mod 2 * 2 + snd p mod 2) k) as [E|]; [exfalso; apply (HE p); [now left|exact E]|].
    apply IH. intros q Hq. apply HE. now right. }
  assert (HF : forall l acc, In (z, 0) l -> for_each l (fun s acc => do r <- rat (f_div o (fst s) (f_nat o (snd s))); Ok (acc ++ [r])) acc = Panic).
  { induction l as [|s l IH]; intros acc Hs; [destruct Hs|]. cbn [for_each].
    destruct (rat (f_div o (fst s) (f_nat o (snd s)))) as [r| |] eqn:Er; cbn [bind].
    - apply IH. destruct Hs as [->|Hs]; [cbn in Er; congruence|exact Hs].
    - exfalso. eapply HN, Er.
    - reflexivity. }
  rewrite HF; [reflexivity|]. rewrite <- NK. apply nth_In. lia.
Qed.

(** The choice *)
Lemma choose_conf zero conf cw ch cpp invalid given dummy areas width image b :
  make_blacklevel conf cw ch cpp = Ok (Some b) ->
  choose_black o rat zero conf cw ch cpp invalid given dummy areas width image = Ok b.
Proof. intros E. unfold choose_black. now rewrite E. Qed.

Lemma make_black_shape (conf : list R) cw ch cpp v rest : conf = v :: rest ->
  (rest = [] -> make_blacklevel (Some conf) cw ch cpp = Ok (Some (mk_black (repeat v cpp) 1 1 cpp))) /\
  (rest <> [] -> length conf = cw * ch * cpp -> make_blacklevel (Some conf) cw ch cpp = Ok (Some (mk_black conf cw ch cpp))) /\
  (rest <> [] -> length conf <> cw * ch * cpp -> make_blacklevel (Some conf) cw ch cpp = Panic).
Proof.
  intros ->. unfold make_blacklevel. split; [|split].
  - intros ->. cbn. unfold black_new. rewrite repeat_length. now replace (cpp =? 1 * 1 * cpp) with true by lia.
  - intros HR HL. replace (length (v :: rest) =? 1) with false by (destruct rest; [congruence|reflexivity]).
    rewrite HL, Nat.eqb_refl. unfold black_new. rewrite HL, Nat.eqb_refl. reflexivity.
  - intros HR HL. replace (length (v :: rest) =? 1) with false by (destruct rest; [congruence|reflexivity]).
    apply Nat.eqb_neq in HL. now rewrite HL.
Qed.

Lemma choose_configured zero v rest cw ch cpp invalid given dummy areas width image :
  let b := choose_black o rat zero (Some (v :: rest)) cw ch cpp invalid given dummy areas width image in
  (rest = [] -> b = Ok (mk_black (repeat v cpp) 1 1 cpp)) /\
  (rest <> [] -> S (length rest) = cw * ch * cpp -> b = Ok (mk_black (v :: rest) cw ch cpp)) /\
  (rest <> [] -> S (length rest) <> cw * ch * cpp -> b = Panic).
Proof.
  destruct (make_black_shape (v :: rest) cw ch cpp v rest eq_refl) as (H1 & H2 & H3). cbv zeta. split; [|split].
  - intros E. apply choose_conf. auto.
  - intros E L. apply choose_conf. auto.
  - intros E L. unfold choose_black. now rewrite H3 by auto.
Qed.

Lemma choose_given zero cw ch cpp b dummy areas width image :
  choose_black o rat zero None cw ch cpp false (Some b) dummy areas width image = Ok b.
Proof. reflexivity. Qed.

Lemma choose_masked zero cw ch cpp invalid given areas width image : invalid = true \/ given = None ->
  choose_black o rat zero None cw ch cpp invalid given false areas width image =
  match calc_black_levels o rat cw ch areas width image with
  | Ok (Some b) => Ok b
  | Ok None => if cpp =? 0 then Panic else Ok (mk_black (repeat zero cpp) 1 1 cpp)
  | Err => Err
  | Panic => Panic
  end.
Proof.
  intros H. unfold choose_black. cbn [make_blacklevel bind].
  replace (if invalid then None else given) with (@None (black R)) by (destruct H as [->| ->]; [reflexivity|now destruct invalid]).
  destruct (calc_black_levels o rat cw ch areas width image) as [[b|]| |]; cbn [bind]; try reflexivity.
  unfold black_zero. cbn [Nat.eqb orb]. now rewrite !Nat.mul_1_r.
Qed.

Lemma calc_none cw ch width image : image <> [] \/ cw * ch = 0 -> calc_black_levels o rat cw ch [] width image = Ok None.
Proof.
  intros H. unfold calc_black_levels. destruct (Nat.eqb_spec (cw * ch) 0); [reflexivity|].
  destruct H as [H|H]; [|lia]. destruct image; [congruence|reflexivity].
Qed.

(** Masked areas: a band over the active columns, and one over the active rows. *)
Lemma black_areas_ok act width height ah av :
  exists l, black_areas act width height 1 ah av = Ok l /\
    let base := match act with Some a => a | None => mk_rect 0 0 width height end in
    forall r c, In (r, c) (masked l) <->
      ((exists s n, ah = Some (s, n) /\ s <= r < s + n /\ r_x base <= c < r_x base + r_w base) \/
       (exists s n, av = Some (s, n) /\ s <= c < s + n /\ r_y base <= r < r_y base + r_h base)).
Proof.
  unfold black_areas. cbn [Nat.eqb]. set (base := match act with Some a => a | None => _ end). cbv zeta.
  assert (RP : forall x1 y1 x2 y2, x1 <= x2 -> y1 <= y2 -> rect_points x1 y1 x2 y2 = Ok (mk_rect x1 y1 (x2 - x1) (y2 - y1))).
  { intros. unfold rect_points. replace (x1 <=? x2) with true by lia. replace (y1 <=? y2) with true by lia. cbn [assert_ bind].
    rewrite !usub_ok by lia. reflexivity. }
  destruct ah as [[s n]|], av as [[s' n']|]; rewrite ?RP by lia; cbn [bind app]; eexists; (split; [reflexivity|]);
    intros r c; unfold masked; cbn [flat_map r_x r_y r_w r_h app]; rewrite ?app_nil_r, ?in_app_iff, ?in_prod_iff, ?in_seq.
  - split.
    + intros [H|H]; [left; exists s, n|right; exists s', n']; (split; [reflexivity|lia]).
    + intros [(a & b & [= <- <-] & H)|(a & b & [= <- <-] & H)]; lia.
  - split.
    + intros H. left. exists s, n. split; [reflexivity|lia].
    + intros [(a & b & [= <- <-] & H)|(a & b & H & _)]; [lia|discriminate].
  - split.
    + intros H. right. exists s', n'. split; [reflexivity|lia].
    + intros [(a & b & H & _)|(a & b & [= <- <-] & H)]; [discriminate|lia].
  - split; [intros []|]. intros [(a & b & H & _)|(a & b & H & _)]; discriminate.
Qed.
End Masked.

Lemma scaling_odd_refuted : ~ (forall sched (r : rawimg Z),
  ri_photo r = PCfa -> length (as_f32 (fun z => z) (ri_data r)) = ri_w r * ri_h r -> b_levels (ri_black r) = [(100, 1)%Z] -> ri_white r = [200%Z] ->
  exists r' out, apply_scaling zops (fun z => (z <? 0)%Z) (fun z => z) fst sched r = Ok r' /\ ri_data r' = DFloat out /\
    forall i, i < length out -> nth i out 0%Z = scaled zops (fun z => (z <? 0)%Z) (nth i (as_f32 (fun z => z) (ri_data r)) 0%Z) 100%Z 200%Z).
Proof.
  intros H.
  specialize (H [] (mk_rawimg 3 2 1 PCfa (mk_black [(100, 1)%Z] 1 1 1) [200%Z] (DInt [200; 200; 200; 200; 200; 200]%Z)) eq_refl eq_refl eq_refl eq_refl).
  destruct H as (r' & out & E & ED & N). vm_compute in E. injection E as <-. injection ED as <-.
  specialize (N 2 ltac:(cbn; lia)). vm_compute in N. discriminate.
Qed.
