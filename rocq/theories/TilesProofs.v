From Coq Require Import List ZArith Lia Bool.
From Coq Require Import ZifyBool ZifyNat.
From Verif Require Import Base BaseLemmas Par ParProofs Tiles.
Import ListNotations.
Open Scope nat_scope.

Lemma ceil_lt n b a : 0 < b -> a < (n + b - 1) / b -> a * b < n.
Proof.
  intros Hb H. pose proof (Nat.mul_div_le (n + b - 1) b ltac:(lia)).
  assert (b * (a + 1) <= b * ((n + b - 1) / b)) by (apply Nat.mul_le_mono_l; lia). lia.
Qed.

Lemma ceil_ge n b a : 0 < b -> a * b < n -> a < (n + b - 1) / b.
Proof. intros Hb H. pose proof (Nat.div_le_lower_bound (n + b - 1) b (a + 1)). lia. Qed.

Lemma ceil_pred n b : 0 < b -> 0 < n -> (n + b - 1) / b = (n - 1) / b + 1.
Proof. intros. replace (n + b - 1) with (n - 1 + 1 * b) by lia. apply Nat.div_add. lia. Qed.

Lemma list_split_at {A} n (l : list A) : l = firstn n l ++ skipn n l.
Proof. symmetry. apply firstn_skipn. Qed.

Section TilerP.
Context {A : Type}.
Variable d : A.

Section One.
Variables (data : list A) (w h cpp tw th : nat).
Hypothesis (Hw : 0 < w) (Hh : 0 < h) (Hc : 0 < cpp) (Htw : 0 < tw) (Hth : 0 < th).
Hypothesis HL : length data = h * w * cpp.
Let tcols := (w + tw - 1) / tw.
Let trows := (h + th - 1) / th.
Let W := w * cpp.
Let T := tw * cpp.
Let t := mk_tiler data w h cpp tw th tcols trows.

Lemma tiler_new_ok : tiler_new data w h cpp tw th = Ok t.
Proof.
  unfold tiler_new, div_ceil. replace (h * w * cpp <=? length data) with true by lia. cbn [assert_ bind].
  replace (tw =? 0) with false by lia. replace (th =? 0) with false by lia. reflexivity.
Qed.

(** Specification of one tile row. *)
Definition srow (tc R : nat) : list A :=
  map (fun c => nth (Nat.min R (h - 1) * W + Nat.min (tc * T + c) (W - 1)) data d) (seq 0 T).

Lemma srow_length tc R : length (srow tc R) = T.
Proof. unfold srow. now rewrite map_length, seq_length. Qed.

Lemma build_row_spec tr tc row : tr < trows -> tc < tcols -> row < th ->
  build_row d t tr tc row (flat_map (fun r => srow tc (tr * th + r)) (seq 0 row)) =
  Ok (flat_map (fun r => srow tc (tr * th + r)) (seq 0 (S row))).
Proof.
  intros Htr Htc Hrow. unfold build_row, t. cbn [tl_th tl_width tl_cpp tl_tw tl_data tl_tcols].
  set (buf := flat_map _ (seq 0 row)). set (R := tr * th + row).
  pose proof (ceil_lt h th tr Hth Htr) as HR0.
  pose proof (ceil_lt w tw tc Htw Htc) as HC0.
  replace (R * w * cpp) with (R * W) by (unfold W; lia).
  replace (tc * tw * cpp) with (tc * T) by (unfold T; lia).
  assert (HTW : tc * T < W).
  { unfold T, W. replace (tc * (tw * cpp)) with (tc * tw * cpp) by lia. apply Nat.mul_lt_mono_pos_r; auto. }
  assert (HLW : length data = h * W) by (unfold W; lia).
  rewrite flat_map_seq_S. fold buf. fold R.
  assert (HBL : length buf = row * T).
  { unfold buf. apply flat_map_seq_length. intros. apply srow_length. }
  destruct (Nat.lt_ge_cases R h) as [HRh|HRh].
  - assert (HRW : R * W + W <= h * W) by (pose proof (Nat.mul_le_mono_r (S R) h W); lia).
    replace (R * W + tc * T <? length data) with true by lia.
    rewrite usub_ok by lia. cbn [bind]. unfold umod. replace (tw =? 0) with false by lia. cbn [bind].
    destruct ((tc <? tcols - 1) || (w mod tw =? 0)) eqn:EC.
    + assert (HF : tc * T + T <= W).
      { assert (tc * tw + tw <= w); [|unfold T, W; nia].
        apply orb_true_iff in EC. destruct EC as [EC|EC].
        - assert (E1 : tcols = (w - 1) / tw + 1) by (apply ceil_pred; auto).
          pose proof (Nat.mul_div_le (w - 1) tw ltac:(lia)).
          assert ((tc + 1) * tw <= (w - 1) / tw * tw) by (apply Nat.mul_le_mono_r; lia). lia.
        - pose proof (Nat.div_mod w tw ltac:(lia)). assert (w = tw * (w / tw)) by lia.
          assert (tc < w / tw); [|nia].
          nia. }
      fold T. rewrite slice_ok by lia. cbn [bind]. f_equal. f_equal.
      replace (R * W + tc * T + T - (R * W + tc * T)) with T by lia.
      rewrite firstn_map_seq with (d := d) by (rewrite skipn_length; lia).
      unfold srow. apply map_ext_in. intros c Hcin. apply in_seq in Hcin.
      rewrite nth_skipn. rewrite (Nat.min_l R) by lia. f_equal. lia.
    + apply orb_false_iff in EC. destruct EC as [EC1 EC2].
      assert (ETC : tc * tw + w mod tw = w).
      { pose proof (Nat.div_mod w tw ltac:(lia)). 
        assert (tc = w / tw); [|nia].
        assert (E1 : tcols = (w - 1) / tw + 1) by (apply ceil_pred; auto).
        assert ((w - 1) / tw = w / tw); [|lia].
        symmetry. apply Nat.div_unique with (r := w mod tw - 1); [|lia].
        pose proof (Nat.mod_upper_bound w tw). lia. }
      assert (ETT : tc * T + w mod tw * cpp = W).
      { unfold T, W. rewrite <- ETC at 2. lia. }
      assert (HRM : 0 < w mod tw * cpp) by (apply Nat.mul_pos_pos; lia).
      pose proof (Nat.mod_upper_bound w tw ltac:(lia)) as HMU.
      assert (ETR : w mod tw * cpp + (tw - w mod tw) * cpp = T) by (unfold T; nia).
      rewrite slice_ok by lia. cbn [bind]. cbv zeta. f_equal.
      replace (R * W + tc * T + w mod tw * cpp - (R * W + tc * T)) with (w mod tw * cpp) by lia.
      assert (ELAST : last (buf ++ firstn (w mod tw * cpp) (skipn (R * W + tc * T) data)) d = nth (R * W + (W - 1)) data d).
      { rewrite firstn_map_seq with (d := d) by (rewrite skipn_length; lia).
        destruct (w mod tw * cpp) as [|m] eqn:EM; [lia|].
        rewrite seq_S, map_app. cbn [map]. rewrite app_assoc, last_last.
        rewrite nth_skipn. f_equal. lia. }
      rewrite ELAST. rewrite <- app_assoc. f_equal.
      apply nth_ext_len with (d := d).
      { rewrite app_length, firstn_length, skipn_length, repeat_length, srow_length. lia. }
      intros c Hcl. rewrite app_length, firstn_length, skipn_length, repeat_length in Hcl.
      unfold srow. rewrite nth_map_seq by lia. rewrite (Nat.min_l R) by lia.
      destruct (Nat.lt_ge_cases c (w mod tw * cpp)) as [HX|HX].
      * rewrite app_nth1 by (rewrite firstn_length, skipn_length; lia).
        rewrite nth_firstn, nth_skipn by lia. f_equal. lia.
      * rewrite app_nth2 by (rewrite firstn_length, skipn_length; lia).
        rewrite firstn_length, skipn_length. rewrite nth_repeat_lt by lia. f_equal. lia.
  - assert (HRW : h * W <= R * W) by (apply Nat.mul_le_mono_r; auto).
    replace (R * W + tc * T <? length data) with false by lia.
    rewrite usub_ok by (unfold R in HRh; lia). cbn [bind].
    assert (Hr1 : 1 <= row) by (unfold R in HRh; lia).
    replace ((row - 1) * tw * cpp) with ((row - 1) * T) by (unfold T; lia). fold T.
    assert (HRT : (row - 1) * T + T = row * T).
    { destruct row; [lia|]. replace (S row - 1) with row by lia. lia. }
    rewrite slice_ok by lia. cbn [bind]. f_equal. f_equal.
    replace ((row - 1) * T + T - (row - 1) * T) with T by lia.
    apply nth_ext_len with (d := d).
    { rewrite firstn_length, skipn_length, srow_length. lia. }
    intros c Hcl. rewrite firstn_length, skipn_length in Hcl.
    rewrite nth_firstn, nth_skipn by lia. unfold buf.
    rewrite flat_map_seq_nth with (k := T); [|intros; apply srow_length|lia|lia].
    unfold srow. rewrite !nth_map_seq by lia.
    replace (Nat.min R (h - 1)) with (Nat.min (tr * th + (row - 1)) (h - 1)) by (unfold R in *; lia). reflexivity.
Qed.

Lemma build_tile_spec idx : idx < trows * tcols ->
  build_tile d t idx = Ok (flat_map (fun r => srow (idx mod tcols) (idx / tcols * th + r)) (seq 0 th)).
Proof.
  intros Hidx. unfold build_tile. unfold t at 1 2 3. cbn [tl_tcols tl_th].
  assert (Htc : tcols <> 0) by (intros E; rewrite E in Hidx; lia).
  unfold udiv, umod. replace (tcols =? 0) with false by lia. cbn [bind].
  assert (H1 : idx / tcols < trows) by (apply Nat.div_lt_upper_bound; lia).
  assert (H2 : idx mod tcols < tcols) by (apply Nat.mod_upper_bound; lia).
  destruct (for_each_seq_inv (build_row d t (idx / tcols) (idx mod tcols))
    (fun row buf => buf = flat_map (fun r => srow (idx mod tcols) (idx / tcols * th + r)) (seq 0 row)) 0 th [])
    as (s' & E & HI); auto.
  - intros i s Hi ->. eexists. split; [apply build_row_spec; auto; lia|reflexivity].
  - rewrite E. cbn in HI. now subst.
Qed.

Lemma build_tile_nth idx r c : idx < trows * tcols -> r < th -> c < T ->
  nth (r * T + c) (flat_map (fun r => srow (idx mod tcols) (idx / tcols * th + r)) (seq 0 th)) d =
  nth (Nat.min (idx / tcols * th + r) (h - 1) * W + Nat.min (idx mod tcols * T + c) (W - 1)) data d.
Proof.
  intros Hidx Hr Hcc. rewrite flat_map_seq_nth with (k := T); auto; [|intros; apply srow_length].
  unfold srow. now rewrite nth_map_seq by auto.
Qed.

Lemma build_tile_length idx : length (flat_map (fun r => srow (idx mod tcols) (idx / tcols * th + r)) (seq 0 th)) = th * T.
Proof. apply flat_map_seq_length. intros; apply srow_length. Qed.

Lemma all_tiles_spec : all_tiles d t =
  Ok (map (fun idx => flat_map (fun r => srow (idx mod tcols) (idx / tcols * th + r)) (seq 0 th)) (seq 0 (trows * tcols))).
Proof.
  unfold all_tiles. change (tile_count t) with (trows * tcols).
  destruct (for_each_seq_inv (fun i acc => do b <- build_tile d t i; Ok (acc ++ [b]))
    (fun n acc => acc = map (fun idx => flat_map (fun r => srow (idx mod tcols) (idx / tcols * th + r)) (seq 0 th)) (seq 0 n))
    0 (trows * tcols) []) as (s' & E & HI); auto.
  - intros i s Hi ->. rewrite build_tile_spec by lia. cbn [bind]. eexists. split; [reflexivity|].
    rewrite seq_S, map_app. reflexivity.
  - rewrite E. cbn in HI. now subst.
Qed.
End One.
End TilerP.

(** ** Mutable tiles *)
Section Mut.
Variables (tcols trows cpp tw th : nat).
Hypothesis (Hcols : 0 < tcols) (Hrows : 0 < trows) (Hc : 0 < cpp) (Htw : 0 < tw) (Hth : 0 < th).
Let T := tw * cpp.
Let W := tcols * T.
Let H := trows * th.

(** Tile number [k]. *)
Definition mtile_of (k : nat) : mtile := mk_mtile (k mod tcols * T + k / tcols * W * th) T th W.

Lemma T_pos : 0 < T. Proof. apply Nat.mul_pos_pos; auto. Qed.
Lemma W_pos : 0 < W. Proof. apply Nat.mul_pos_pos; auto. apply T_pos. Qed.

Let it (n : nat) := mk_tilesit n (tcols * tw) cpp tw th (H * W).

Lemma into_tiles_ok : into_tiles (H * W) (tcols * tw) cpp tw th = Ok (it 0).
Proof.
  unfold into_tiles. pose proof T_pos.
  replace (0 <? tcols * tw) with true by (symmetry; apply Nat.ltb_lt; apply Nat.mul_pos_pos; auto).
  replace (0 <? tw * th) with true by (symmetry; apply Nat.ltb_lt; apply Nat.mul_pos_pos; auto).
  replace (0 <? cpp) with true by lia. cbn [assert_ bind].
  replace (H * W) with ((trows * tcols) * (tw * cpp * th)) by (unfold H, W, T; lia).
  rewrite Nat.mod_mul. 2: { fold T. pose proof (Nat.mul_pos_pos T th). lia. }
  cbn [Nat.eqb negb]. unfold it. do 2 f_equal. unfold H, W, T. lia.
Qed.

Lemma ti_count_ok n : ti_tile_count (it n) = Ok (trows * tcols).
Proof.
  unfold ti_tile_count, udiv, it. cbn [ti_len ti_cpp ti_th ti_tw].
  replace (cpp =? 0) with false by lia. cbn [bind].
  pose proof (Nat.mul_pos_pos th tw Hth Htw). replace (th * tw =? 0) with false by lia. f_equal.
  replace (H * W) with ((trows * tcols) * (th * tw) * cpp) by (unfold H, W, T; lia).
  rewrite Nat.div_mul by lia. apply Nat.div_mul. lia.
Qed.

Lemma tiles_next_ok k : k <= trows * tcols ->
  tiles_next (it k) = Ok (if k <? trows * tcols then Some (mtile_of k) else None, it (S k)).
Proof.
  intros Hk. unfold tiles_next. pose proof T_pos. pose proof W_pos.
  pose proof (Nat.mul_pos_pos tcols tw Hcols Htw).
  pose proof (Nat.mul_pos_pos th (tcols * tw) Hth ltac:(auto)).
  rewrite ti_count_ok. unfold udiv, umod, it. cbn [ti_len ti_cpp ti_th ti_tw ti_width ti_count].
  replace (tw =? 0) with false by lia. cbn [bind]. rewrite Nat.div_mul by lia.
  replace (cpp =? 0) with false by lia. cbn [bind].
  replace (th * (tcols * tw) =? 0) with false by lia. cbn [bind].
  replace (tcols =? 0) with false by lia. cbn [bind].
  replace (k <=? trows * tcols) with true by lia. cbn [assert_ bind]. cbv zeta.
  replace (tcols * tw * cpp) with W by (unfold W, T; lia). fold T.
  replace (k + 1) with (S k) by lia.
  pose proof (Nat.div_mod k tcols ltac:(lia)) as DM.
  pose proof (Nat.mod_upper_bound k tcols ltac:(lia)) as MU.
  destruct (Nat.ltb_spec k (trows * tcols)) as [HK|HK].
  - assert (HY : k / tcols < trows) by (apply Nat.div_lt_upper_bound; lia).
    set (x := k mod tcols) in *. set (y := k / tcols) in *.
    assert (HX : x * T + T <= W) by (pose proof (Nat.mul_le_mono_r (S x) tcols T); unfold W; lia).
    assert (HYY : y * W * th + W * th <= H * W).
    { unfold H. pose proof (Nat.mul_le_mono_r (S y) trows (W * th)). lia. }
    assert (HWT : W <= W * th) by (rewrite <- (Nat.mul_1_r W) at 1; apply Nat.mul_le_mono_l; lia).
    replace (H * W <=? x * T + y * W * th) with false by lia.
    replace (x * tw * cpp) with (x * T) by (unfold T; lia).
    rewrite usub_ok by lia. cbn [bind].
    replace (H * W - (x * T + y * W * th) <? th * W - x * T) with false by lia.
    replace (T <=? H * W - (x * T + y * W * th)) with true by lia.
    cbn [assert_ bind]. reflexivity.
  - assert (EK : k = trows * tcols) by lia.
    assert (EX : k mod tcols = 0) by (rewrite EK; apply Nat.mod_mul; lia).
    assert (EY : k / tcols = trows) by (rewrite EK; apply Nat.div_mul; lia).
    rewrite EX, EY. replace (H * W <=? 0 * T + trows * W * th) with true by (unfold H; lia). reflexivity.
Qed.

Lemma tiles_collect_ok m : forall fuel k, k + m = trows * tcols -> m < fuel ->
  tiles_collect fuel (it k) = Ok (map mtile_of (seq k m)).
Proof.
  induction m as [|m IH]; intros [|fuel] k Hk Hf; try lia; cbn [tiles_collect].
  - rewrite tiles_next_ok by lia. cbn [bind]. replace (k <? trows * tcols) with false by lia. reflexivity.
  - rewrite tiles_next_ok by lia. cbn [bind]. replace (k <? trows * tcols) with true by lia.
    rewrite (IH fuel (S k)) by lia. reflexivity.
Qed.

Lemma tiles_list_ok : tiles_list (it 0) = Ok (map mtile_of (seq 0 (trows * tcols))).
Proof.
  unfold tiles_list. apply tiles_collect_ok; auto. cbn [ti_len it].
  enough (trows * tcols <= H * W) by lia.
  replace (H * W) with (trows * tcols * (th * T)) by (unfold H, W; lia).
  pose proof (Nat.mul_pos_pos th T Hth T_pos). pose proof (Nat.mul_le_mono_l 1 (th * T) (trows * tcols)). lia.
Qed.

(** The next call after the last tile returns None, the one after that panics
    (tiles.rs:205). *)
Lemma tiles_next_exhausted : tiles_next (it (S (trows * tcols))) = Panic.
Proof.
  unfold tiles_next. pose proof T_pos. pose proof (Nat.mul_pos_pos tcols tw Hcols Htw).
  pose proof (Nat.mul_pos_pos th (tcols * tw) Hth ltac:(auto)).
  rewrite ti_count_ok. unfold udiv, umod, it. cbn [ti_len ti_cpp ti_th ti_tw ti_width ti_count].
  replace (tw =? 0) with false by lia. cbn [bind]. rewrite Nat.div_mul by lia.
  replace (cpp =? 0) with false by lia. cbn [bind].
  replace (th * (tcols * tw) =? 0) with false by lia. cbn [bind].
  replace (tcols =? 0) with false by lia. cbn [bind].
  replace (S (trows * tcols) <=? trows * tcols) with false by lia. reflexivity.
Qed.

(** Cell number [p] of tile [k]. *)
Definition cell (k p : nat) : nat := (k / tcols * th + p / T) * W + (k mod tcols * T + p mod T).

Lemma mtile_cells_ok k : mtile_cells (mtile_of k) = map (cell k) (seq 0 (th * T)).
Proof.
  pose proof T_pos. apply nth_ext_len with (d := 0).
  - unfold mtile_cells. cbn [mt_height mtile_of]. rewrite map_length, seq_length.
    apply flat_map_seq_length. intros. unfold mtile_line. now rewrite seq_length.
  - unfold mtile_cells. cbn [mt_height mtile_of]. intros p Hp.
    rewrite (flat_map_seq_length _ th T) in Hp by (intros; unfold mtile_line; now rewrite seq_length).
    rewrite nth_map_seq by auto.
    pose proof (Nat.div_mod p T ltac:(lia)) as DM. pose proof (Nat.mod_upper_bound p T ltac:(lia)).
    assert (p / T < th) by (apply Nat.div_lt_upper_bound; lia).
    replace p with (p / T * T + p mod T) at 1 by lia.
    rewrite flat_map_seq_nth with (k := T); [|intros; unfold mtile_line; now rewrite seq_length|auto|auto].
    unfold mtile_line. cbn [mt_start mt_dist mt_line mtile_of]. rewrite seq_nth by auto. unfold cell. lia.
Qed.

Lemma cell_split k p : p < th * T ->
  cell k p / W = k / tcols * th + p / T /\ cell k p mod W = k mod tcols * T + p mod T.
Proof.
  intros Hp. pose proof T_pos. pose proof W_pos.
  pose proof (Nat.mod_upper_bound p T ltac:(lia)). pose proof (Nat.mod_upper_bound k tcols ltac:(lia)).
  assert (k mod tcols * T + p mod T < W).
  { pose proof (Nat.mul_le_mono_r (S (k mod tcols)) tcols T). unfold W. lia. }
  unfold cell. split.
  - symmetry. eapply Nat.div_unique; [|rewrite (Nat.mul_comm W); reflexivity]. auto.
  - symmetry. eapply Nat.mod_unique; [|rewrite (Nat.mul_comm W); reflexivity]. auto.
Qed.

Lemma cell_tile k p : p < th * T -> cell k p / W / th = k / tcols /\ cell k p mod W / T = k mod tcols /\
  cell k p / W mod th = p / T /\ cell k p mod W mod T = p mod T.
Proof.
  intros Hp. pose proof T_pos. destruct (cell_split k p Hp) as [-> ->].
  assert (p / T < th) by (apply Nat.div_lt_upper_bound; lia).
  pose proof (Nat.mod_upper_bound p T ltac:(lia)).
  repeat split.
  - rewrite (Nat.div_add_l (k / tcols) th) by lia. rewrite (Nat.div_small (p / T)) by auto. lia.
  - rewrite (Nat.div_add_l (k mod tcols) T) by lia. rewrite (Nat.div_small (p mod T)) by auto. lia.
  - rewrite Nat.add_comm, (Nat.mod_add (p / T)) by lia. apply Nat.mod_small; auto.
  - rewrite Nat.add_comm, (Nat.mod_add (p mod T)) by lia. apply Nat.mod_small; auto.
Qed.

Lemma cell_inj k p k' p' : p < th * T -> p' < th * T -> cell k p = cell k' p' -> k = k' /\ p = p'.
Proof.
  intros Hp Hp' E. pose proof T_pos.
  destruct (cell_tile k p Hp) as (A1 & A2 & A3 & A4). destruct (cell_tile k' p' Hp') as (B1 & B2 & B3 & B4).
  rewrite E in *. split.
  - rewrite (Nat.div_mod k tcols), (Nat.div_mod k' tcols) by lia. congruence.
  - rewrite (Nat.div_mod p T), (Nat.div_mod p' T) by lia. congruence.
Qed.

Lemma cell_bound k p : k < trows * tcols -> p < th * T -> cell k p < H * W.
Proof.
  intros Hk Hp. pose proof T_pos. pose proof W_pos. destruct (cell_split k p Hp) as [E1 E2].
  assert (k / tcols < trows) by (apply Nat.div_lt_upper_bound; lia).
  assert (p / T < th) by (apply Nat.div_lt_upper_bound; lia).
  rewrite (Nat.div_mod (cell k p) W) by lia. pose proof (Nat.mod_upper_bound (cell k p) W ltac:(lia)).
  assert (cell k p / W < H).
  { rewrite E1. unfold H. pose proof (Nat.mul_le_mono_r (S (k / tcols)) trows th). lia. }
  pose proof (Nat.mul_le_mono_r (S (cell k p / W)) H W). lia.
Qed.

(** Tile number and position of a cell. *)
Lemma cell_cover i : i < H * W ->
  let k := i / W / th * tcols + i mod W / T in
  let p := i / W mod th * T + i mod W mod T in
  k < trows * tcols /\ p < th * T /\ cell k p = i.
Proof.
  intros Hi. pose proof T_pos. pose proof W_pos. cbv zeta.
  pose proof (Nat.mod_upper_bound i W ltac:(lia)) as M1.
  assert (HX : i mod W / T < tcols) by (apply Nat.div_lt_upper_bound; unfold W in *; lia).
  assert (HR : i / W < H) by (apply Nat.div_lt_upper_bound; lia).
  assert (HY : i / W / th < trows) by (apply Nat.div_lt_upper_bound; unfold H in *; lia).
  pose proof (Nat.mod_upper_bound (i / W) th ltac:(lia)) as M2.
  pose proof (Nat.mod_upper_bound (i mod W) T ltac:(lia)) as M3.
  set (x := i mod W / T) in *. set (y := i / W / th) in *.
  set (l := (i / W) mod th) in *. set (c := (i mod W) mod T) in *.
  assert (HP : l * T + c < th * T) by (pose proof (Nat.mul_le_mono_r (S l) th T); lia).
  assert (HK : y * tcols + x < trows * tcols) by (pose proof (Nat.mul_le_mono_r (S y) trows tcols); lia).
  split; auto. split; auto. unfold cell.
  rewrite !Nat.div_add_l by lia. rewrite (Nat.div_small x), (Nat.div_small c) by auto.
  rewrite (Nat.add_comm (y * tcols)), (Nat.add_comm (l * T)). rewrite !Nat.mod_add by lia.
  rewrite (Nat.mod_small x), (Nat.mod_small c) by auto. rewrite !Nat.add_0_r.
  replace (y * th + l) with (i / W). 2: { unfold y, l. rewrite (Nat.div_mod (i / W) th) at 1 by lia. lia. }
  replace (x * T + c) with (i mod W). 2: { unfold x, c. rewrite (Nat.div_mod (i mod W) T) at 1 by lia. lia. }
  rewrite (Nat.div_mod i W) at 3 by lia. lia.
Qed.

Lemma tiles_footprints : footprints_ok (map mtile_cells (map mtile_of (seq 0 (trows * tcols)))) (H * W).
Proof.
  rewrite map_map. unfold footprints_ok. rewrite map_length, seq_length.
  assert (EN : forall i, i < trows * tcols ->
     nth i (map (fun k => mtile_cells (mtile_of k)) (seq 0 (trows * tcols))) [] = map (cell i) (seq 0 (th * T))).
  { intros i Hi. rewrite nth_map_seq by auto. apply mtile_cells_ok. }
  split; [|split].
  - intros i Hi. rewrite EN by auto. apply NoDup_nth with (d := cell i 0). intros a b Ha Hb E.
    rewrite map_length, seq_length in Ha, Hb. rewrite !map_nth, !seq_nth in E by auto.
    eapply cell_inj in E; try lia.
  - intros i Hi. rewrite EN by auto. apply Forall_forall. intros j Hj. apply in_map_iff in Hj.
    destruct Hj as (p & <- & Hp). apply in_seq in Hp. apply cell_bound; lia.
  - intros i j k Hi Hj Hij. rewrite !EN by auto. intros HA HB.
    apply in_map_iff in HA. apply in_map_iff in HB. destruct HA as (p & E1 & Hp). destruct HB as (q & E2 & Hq).
    apply in_seq in Hp. apply in_seq in Hq. rewrite <- E2 in E1. apply cell_inj in E1; lia.
Qed.
End Mut.
