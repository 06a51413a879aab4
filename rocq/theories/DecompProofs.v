From Coq Require Import List ZArith Lia Bool.
From Coq Require Import ZifyBool ZifyNat.
From Verif Require Import Base BaseLemmas Par ParProofs Decomp.
Import ListNotations.
Open Scope nat_scope.

Section P.
Context {A : Type}.
Variable d : A.

Lemma seq_as_map a n : seq a n = map (fun j => a + j) (seq 0 n).
Proof.
  revert a. induction n as [|n IH]; intros a; auto. cbn [seq map]. rewrite Nat.add_0_r. f_equal.
  rewrite (IH (S a)), (IH 1), map_map. apply map_ext. intros; lia.
Qed.

Lemma all_some_map_some (f : nat -> option (list A)) (g : nat -> list A) (l : list nat) :
  (forall i, In i l -> f i = Some (g i)) -> all_some (map f l) = Some (map g l).
Proof.
  induction l as [|i l IH]; intros H; auto. cbn [map all_some]. rewrite H by (left; auto).
  rewrite IH; auto. intros; apply H; right; auto.
Qed.

Lemma all_some_none (l : list (option (list A))) : In None l -> all_some l = None.
Proof.
  induction l as [|[x|] l IH]; cbn; intros H; auto; [contradiction|].
  destruct H as [H|H]; [discriminate|]. now rewrite IH.
Qed.

Lemma all_some_inv (l : list (option (list A))) xs : all_some l = Some xs -> l = map Some xs.
Proof.
  revert xs. induction l as [|[x|] l IH]; cbn; intros xs H; try discriminate.
  - now injection H as <-.
  - destruct (all_some l); [|discriminate]. injection H as <-. cbn. f_equal. auto.
Qed.

Lemma all_some_none_inv (f : nat -> option (list A)) : forall n a, all_some (map f (seq a n)) = None ->
  exists r, a <= r < a + n /\ f r = None.
Proof.
  induction n as [|n IH]; intros a E; cbn in E; [discriminate|].
  destruct (f a) eqn:EF. 2: { exists a. split; auto. lia. }
  destruct (all_some (map _ (seq (S a) n))) eqn:EA; [discriminate|].
  destruct (IH _ EA) as (r & Hr & Er). exists r. split; auto. lia.
Qed.

Lemma gather_repeat (F : list nat) n : gather d F (repeat d n) = repeat d (length F).
Proof.
  unfold gather. induction F as [|i F IH]; auto. cbn. f_equal; auto.
  apply nth_repeat.
Qed.

Lemma chunk_len c n i : length (chunk_cells c n i) = Nat.min c (n - i * c).
Proof. unfold chunk_cells. now rewrite seq_length. Qed.

Lemma chunk_fp c n k : 0 < c -> footprints_ok (map (chunk_cells c n) (seq 0 k)) n.
Proof.
  intros Hc. unfold footprints_ok. rewrite map_length, seq_length.
  split; [|split].
  - intros i Hi. rewrite nth_map_seq by auto. apply seq_NoDup.
  - intros i Hi. rewrite nth_map_seq by auto. apply Forall_forall. intros j Hj. apply in_seq in Hj. lia.
  - intros i j m Hi Hj Hij. rewrite !nth_map_seq by auto. unfold chunk_cells. rewrite !in_seq. intros H1 H2.
    assert (i < j \/ j < i) as [HX|HX] by lia.
    + pose proof (Nat.mul_le_mono_r (S i) j c). lia.
    + pose proof (Nat.mul_le_mono_r (S j) i c). lia.
Qed.

(** Main lemma: any schedule over chunks that together cover the buffer. *)
Lemma chunks_result c n k prog sched : 0 < c -> n <= k * c ->
  (forall i, i < k -> Forall (op_ok (Nat.min c (n - i * c))) (prog i)) ->
  let s0 := mk_pstate (repeat d n) (map (fun i => mk_worker (chunk_cells c n i) (prog i)) (seq 0 k)) false in
  ended (prun d sched s0) ->
  result (prun d sched s0) =
    match all_some (map (fun i => run_ops (prog i) (repeat d (Nat.min c (n - i * c)))) (seq 0 k)) with
    | Some vs => POk (concat vs)
    | None => PFail
    end.
Proof.
  intros Hc Hk HO s0 HE. set (ws := map (fun i => mk_worker (chunk_cells c n i) (prog i)) (seq 0 k)) in *.
  assert (HWL : length ws = k) by (unfold ws; now rewrite map_length, seq_length).
  assert (HWN : forall i, i < k -> nth i ws dw = mk_worker (chunk_cells c n i) (prog i)).
  { intros i Hi. unfold ws. now rewrite nth_map_seq by auto. }
  assert (HFP : footprints_ok (map wk_cells ws) (length (repeat d n))).
  { unfold ws. rewrite map_map, repeat_length. cbn. now apply chunk_fp. }
  assert (HOK : Forall (fun w => Forall (op_ok (length (wk_cells w))) (wk_ops w)) ws).
  { apply Forall_forall. intros x Hx. apply In_nth with (d := dw) in Hx. destruct Hx as (i & Hi & <-).
    rewrite HWL in Hi. rewrite HWN by auto. cbn [wk_cells wk_ops]. rewrite chunk_len. auto. }
  assert (HAL : forall i, i < k -> alone d (repeat d n) (nth i ws dw) = run_ops (prog i) (repeat d (Nat.min c (n - i * c)))).
  { intros i Hi. rewrite HWN by auto. unfold alone. cbn [wk_cells wk_ops]. now rewrite gather_repeat, chunk_len. }
  unfold result. destruct (ps_failed (prun d sched s0)) eqn:EF.
  - destruct (prun_failed d _ _ HFP HOK sched EF) as (i & Hi & EA). rewrite HWL in Hi. rewrite HAL in EA by auto.
    rewrite all_some_none; auto. apply in_map_iff. exists i. split; auto. apply in_seq. lia.
  - destruct (prun_ok d _ _ HFP HOK sched HE EF) as (L & HA & _). rewrite HWL in HA.
    rewrite repeat_length in L. change (mk_pstate (repeat d n) ws false) with s0 in L, HA. set (b := ps_buf (prun d sched s0)) in *.
    rewrite (all_some_map_some _ (fun i => gather d (chunk_cells c n i) b)).
    2: { intros i Hi. apply in_seq in Hi. rewrite <- HAL by lia. rewrite HA by lia. rewrite HWN by lia. reflexivity. }
    f_equal. clear - L Hk Hc.
    (* a buffer is the concatenation of its chunks *)
    assert (HG : forall m, m <= k -> concat (map (fun i => gather d (chunk_cells c n i) b) (seq 0 m)) = firstn (m * c) b).
    { induction m as [|m IH]; intros Hm; auto. rewrite seq_S, map_app, concat_app, IH by lia. cbn [map concat].
      rewrite app_nil_r. cbn [plus].
      replace (S m * c) with (m * c + c) by lia.
      assert (HS : gather d (chunk_cells c n m) b = firstn c (skipn (m * c) b)).
      { apply nth_ext_len with (d := d).
        - unfold gather. rewrite map_length, chunk_len, firstn_length, skipn_length, L. auto.
        - unfold gather. rewrite map_length, chunk_len. intros j Hj. rewrite nth_firstn, nth_skipn by lia.
          rewrite nth_indep with (d' := nth 0 b d) by (rewrite map_length, chunk_len; auto).
          rewrite (map_nth (fun i => nth i b d)). unfold chunk_cells. now rewrite seq_nth by auto. }
      rewrite HS. clear. clearbody b. clear. generalize (m * c). intros x. revert b. induction x; intros [|a b]; cbn; auto.
      - now rewrite firstn_nil.
      - f_equal. apply IHx. }
    rewrite HG by lia. now rewrite firstn_all2 by lia.
Qed.

Lemma concat_chunks_rows (g : nat -> list A) ss : forall height k, 0 < ss -> height <= k * ss ->
  concat (map (fun s => concat (map g (seq (s * ss) (Nat.min ss (height - s * ss))))) (seq 0 k)) = concat (map g (seq 0 height)).
Proof.
  intros height k Hss Hk.
  assert (HX : forall m, m <= k ->
    concat (map (fun s => concat (map g (seq (s * ss) (Nat.min ss (height - s * ss))))) (seq 0 m)) =
    concat (map g (seq 0 (Nat.min (m * ss) height)))).
  { induction m as [|m IH]; intros Hm. { reflexivity. }
    rewrite seq_S, map_app, concat_app, IH by lia. cbn [map concat plus]. rewrite app_nil_r.
    rewrite <- concat_app, <- map_app. do 2 f_equal.
    destruct (Nat.le_gt_cases (m * ss) height).
    - rewrite Nat.min_l by lia. replace (m * ss) with (0 + m * ss) at 2 by lia. rewrite <- seq_app. f_equal. lia.
    - replace (Nat.min ss (height - m * ss)) with 0 by lia. cbn [seq]. rewrite app_nil_r. f_equal. lia. }
  rewrite HX by lia. now rewrite Nat.min_r by lia.
Qed.

(** Decoding the lines of one slice in order. *)
Lemma run_lines (f : nat -> op A) width : forall n skip pre post,
  length pre = 0 \/ True ->
  (forall r, op_ok width (f r)) ->
  forall j0, length pre = j0 * width -> length post = n * width -> post = repeat d (n * width) ->
  run_ops (map (fun j => on_line width j (f (skip + j))) (seq j0 n)) (pre ++ post) =
  match all_some (map (fun j => f (skip + j) (repeat d width)) (seq j0 n)) with
  | Some rows => Some (pre ++ concat rows)
  | None => None
  end.
Proof.
  induction n as [|n IH]; intros skip pre post _ HO j0 HL HP EP.
  - cbn. subst post. cbn. now rewrite !app_nil_r.
  - cbn [seq map run_ops all_some]. unfold on_line at 1.
    assert (EPP : post = repeat d width ++ repeat d (n * width)).
    { rewrite EP. cbn [Nat.mul]. apply repeat_app. }
    assert (EF : firstn width (skipn (j0 * width) (pre ++ post)) = repeat d width).
    { rewrite skipn_app, skipn_all2 by lia. rewrite HL, Nat.sub_diag. cbn [skipn app].
      rewrite EPP. rewrite firstn_app, repeat_length, Nat.sub_diag. cbn [firstn].
      rewrite app_nil_r. rewrite firstn_all2; auto. rewrite repeat_length. auto. }
    rewrite EF. destruct (f (skip + j0) (repeat d width)) as [l|] eqn:EL; auto.
    assert (HLl : length l = width) by (apply (HO (skip + j0) (repeat d width)); auto; apply repeat_length).
    assert (E1 : firstn (j0 * width) (pre ++ post) = pre).
    { rewrite firstn_app, HL, Nat.sub_diag. cbn [firstn]. rewrite app_nil_r. apply firstn_all2. lia. }
    assert (E2 : skipn (j0 * width + width) (pre ++ post) = repeat d (n * width)).
    { rewrite skipn_app, skipn_all2 by lia. rewrite HL. replace (j0 * width + width - j0 * width) with width by lia.
      rewrite EPP. rewrite skipn_app, repeat_length, Nat.sub_diag. rewrite skipn_all2 by (rewrite repeat_length; auto). reflexivity. }
    rewrite E1, E2. rewrite app_assoc.
    rewrite (IH skip (pre ++ l) (repeat d (n * width))) with (j0 := S j0); auto.
    + destruct (all_some _); auto. cbn [concat]. now rewrite app_assoc.
    + rewrite app_length. lia.
    + apply repeat_length.
Qed.

Lemma run_lines0 (f : nat -> op A) width n skip : (forall r, op_ok width (f r)) ->
  run_ops (fn_line_decompress f skip n width) (repeat d (n * width)) =
  match all_some (map (fun j => f (skip + j) (repeat d width)) (seq 0 n)) with
  | Some rows => Some (concat rows)
  | None => None
  end.
Proof.
  intros HO. unfold fn_line_decompress.
  exact (run_lines f width n skip [] (repeat d (n * width)) (or_intror I) HO 0 eq_refl (repeat_length _ _) eq_refl).
Qed.

Lemma on_line_ok (f : op A) width j n : (j + 1) * width <= n -> op_ok width f -> op_ok n (on_line width j f).
Proof.
  intros Hj HO v v' HL E. unfold on_line in E.
  destruct (f (firstn width (skipn (j * width) v))) as [l|] eqn:EF; [|discriminate]. injection E as <-.
  assert (length l = width). { eapply HO; [|exact EF]. rewrite firstn_length, skipn_length. lia. }
  rewrite !app_length, firstn_length, skipn_length. lia.
Qed.

Lemma fn_line_ok (f : nat -> op A) skip width nl n : nl * width <= n -> (forall r, op_ok width (f r)) ->
  Forall (op_ok n) (fn_line_decompress f skip nl width).
Proof.
  intros Hn HO. apply Forall_forall. intros o Ho. apply in_map_iff in Ho. destruct Ho as (j & <- & Hj).
  apply in_seq in Hj. apply on_line_ok; auto. pose proof (Nat.mul_le_mono_r (j + 1) nl width). lia.
Qed.

(** *** The helpers *)
Lemma ceil_cover n c : 0 < c -> n <= (n + c - 1) / c * c.
Proof.
  intros. pose proof (Nat.div_mod (n + c - 1) c ltac:(lia)). pose proof (Nat.mod_upper_bound (n + c - 1) c ltac:(lia)). lia.
Qed.

Lemma ceil_mul w h : 0 < w -> (w * h + w - 1) / w = h.
Proof. intros. symmetry. apply Nat.div_unique with (r := w - 1); lia. Qed.

Lemma lines_fn_ok width height closure s0 sched :
  lines_fn d width height closure = Ok s0 ->
  (forall r, r < height -> Forall (op_ok width) (closure r)) ->
  ended (prun d sched s0) ->
  result (prun d sched s0) = image_spec d width height (fun r v => run_ops (closure r) v).
Proof.
  unfold lines_fn, par_chunks. destruct (Nat.eqb_spec width 0) as [|Hw]; [discriminate|]. intros E HO HE. injection E as <-.
  rewrite ceil_mul in * by lia.
  assert (HM : forall i, i < height -> Nat.min width (width * height - i * width) = width).
  { intros i Hi. pose proof (Nat.mul_le_mono_r (S i) height width). lia. }
  rewrite chunks_result; auto; try lia.
  - unfold image_spec. f_equal. erewrite map_ext_in; [reflexivity|]. intros i Hi. apply in_seq in Hi. cbn beta. now rewrite HM by lia.
  - intros i Hi. rewrite HM by auto. auto.
Qed.

Lemma chunked_fn_ok width height cs closure s0 sched :
  chunked_fn d width height cs closure = Ok s0 ->
  (forall i, i < (width * height + cs - 1) / cs -> Forall (op_ok (Nat.min cs (width * height - i * cs))) (closure i)) ->
  ended (prun d sched s0) ->
  result (prun d sched s0) =
    match all_some (map (fun i => run_ops (closure i) (repeat d (Nat.min cs (width * height - i * cs))))
            (seq 0 ((width * height + cs - 1) / cs))) with
    | Some vs => POk (concat vs)
    | None => PFail
    end.
Proof.
  unfold chunked_fn, par_chunks. destruct (Nat.eqb_spec cs 0) as [|Hw]; [discriminate|]. intros E HO HE. injection E as <-.
  apply chunks_result; auto; [lia|]. apply ceil_cover. lia.
Qed.

Lemma lines_ok width height f s0 sched :
  lines d width height f = Ok s0 -> (forall r, op_ok width (f r)) -> ended (prun d sched s0) ->
  result (prun d sched s0) = image_spec d width height f.
Proof.
  unfold lines, par_chunks_exact. destruct (Nat.eqb_spec width 0) as [|Hw]; [discriminate|]. intros E HO HE. injection E as <-.
  replace (width * height / width) with height in * by (rewrite Nat.mul_comm; symmetry; apply Nat.div_mul; auto).
  assert (HM : forall i, i < height -> Nat.min width (width * height - i * width) = width).
  { intros i Hi. pose proof (Nat.mul_le_mono_r (S i) height width). lia. }
  rewrite chunks_result; auto; try lia.
  - unfold image_spec. erewrite map_ext_in; [reflexivity|]. intros i Hi. apply in_seq in Hi. cbn beta. rewrite HM by lia.
    replace width with (1 * width) at 2 by lia. rewrite run_lines0 by auto. cbn [seq map all_some].
    rewrite Nat.add_0_r. destruct (f i (repeat d width)); auto. cbn. now rewrite app_nil_r.
  - intros i Hi. rewrite HM by auto. apply fn_line_ok; auto. lia.
Qed.

Lemma strips_fn_ok width height ss closure s0 sched :
  strips_fn d width height ss closure = Ok s0 ->
  (forall i r, Forall (op_ok (Nat.min (width * ss) (width * height - i * (width * ss)))) (closure i r)) ->
  ended (prun d sched s0) ->
  result (prun d sched s0) =
    match all_some (map (fun i => run_ops (closure i (i * ss)) (repeat d (width * Nat.min ss (height - i * ss))))
            (seq 0 ((width * height + width * ss - 1) / (width * ss)))) with
    | Some vs => POk (concat vs)
    | None => PFail
    end.
Proof.
  unfold strips_fn, par_chunks. destruct (Nat.eqb_spec (width * ss) 0) as [|Hw]; [discriminate|]. intros E HO HE. injection E as <-.
  rewrite chunks_result; auto; [| lia |].
  - erewrite map_ext; [reflexivity|]. intros i. cbn beta. do 2 f_equal.
    replace (i * (width * ss)) with (width * (i * ss)) by lia. rewrite <- Nat.mul_sub_distr_l.
    now rewrite <- Nat.mul_min_distr_l.
  - apply ceil_cover. lia.
Qed.

Lemma strips_ok width height ss f s0 sched :
  strips d width height ss f = Ok s0 -> (forall r, op_ok width (f r)) -> ended (prun d sched s0) ->
  result (prun d sched s0) = image_spec d width height f.
Proof.
  unfold strips, par_chunks. destruct (Nat.eqb_spec (width * ss) 0) as [|Hw]; [discriminate|]. intros E HO HE. injection E as <-.
  assert (Hwp : 0 < width) by (destruct width; lia). assert (Hsp : 0 < ss) by (destruct ss; lia).
  assert (HM : forall i, Nat.min (width * ss) (width * height - i * (width * ss)) = Nat.min ss (height - i * ss) * width).
  { intros i. replace (i * (width * ss)) with (width * (i * ss)) by lia. rewrite <- Nat.mul_sub_distr_l.
    rewrite Nat.mul_min_distr_l. lia. }
  rewrite chunks_result; auto; [| lia | |].
  - set (k := (width * height + width * ss - 1) / (width * ss)).
    assert (HK : height <= k * ss).
    { pose proof (ceil_cover (width * height) (width * ss) ltac:(lia)) as HC. fold k in HC. nia. }
    unfold image_spec.
    destruct (all_some (map (fun r => f r (repeat d width)) (seq 0 height))) as [rows|] eqn:ER.
    + apply all_some_inv in ER.
      assert (HLR : length rows = height).
      { apply (f_equal (@length _)) in ER. rewrite !map_length, seq_length in ER. auto. }
      assert (HROW : forall r, r < height -> f r (repeat d width) = Some (nth r rows [])).
      { intros r Hr. apply (f_equal (fun l => nth r l None)) in ER. rewrite nth_map_seq in ER by auto.
        rewrite ER. rewrite nth_indep with (d' := Some []) by (rewrite map_length; lia). apply (map_nth Some). }
      rewrite (all_some_map_some _ (fun s => concat (map (fun r => nth r rows []) (seq (s * ss) (Nat.min ss (height - s * ss)))))).
      * f_equal. rewrite concat_chunks_rows by auto. f_equal. symmetry. rewrite <- HLR. apply list_as_map_seq.
      * intros i Hi. rewrite !HM. rewrite Nat.div_mul by lia. rewrite run_lines0 by auto.
        rewrite (all_some_map_some _ (fun j => nth (i * ss + j) rows [])).
        2: { intros j Hj. apply in_seq in Hj. apply HROW. lia. }
        f_equal. f_equal. rewrite (seq_as_map (i * ss)), map_map. reflexivity.
    + rewrite all_some_none; auto.
      destruct (all_some_none_inv _ _ _ ER) as (r & Hr & Er). cbn beta in Er.
      apply in_map_iff. exists (r / ss). pose proof (Nat.div_mod r ss ltac:(lia)) as HD.
      pose proof (Nat.mod_upper_bound r ss ltac:(lia)) as HMB.
      split.
      * rewrite !HM. rewrite Nat.div_mul by lia. rewrite run_lines0 by auto. rewrite all_some_none; auto.
        apply in_map_iff. exists (r mod ss). split. { rewrite <- Er. f_equal. lia. }
        apply in_seq. rewrite (Nat.mul_comm (r / ss)). lia.
      * apply in_seq. split; [apply Nat.le_0_l|]. apply Nat.div_lt_upper_bound; lia.
  - apply ceil_cover. lia.
  - intros i Hi. apply fn_line_ok; auto. rewrite HM. rewrite Nat.div_mul by lia. lia.
Qed.
End P.
