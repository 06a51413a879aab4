(** Statements about whole images assembled from the tile lemmas. *)
From Coq Require Import List ZArith Lia Bool Permutation.
From Coq Require Import ZifyBool ZifyNat.
From Verif Require Import Base BaseLemmas Par ParProofs Tiles TilesProofs LjpegEnc LjpegDec DngImage DngImageProofs.
Import ListNotations.
Open Scope nat_scope.

(** ** Ended schedules exist *)
Lemma NoDup_app_intro {B} (l1 l2 : list B) : NoDup l1 -> NoDup l2 -> (forall x, In x l1 -> In x l2 -> False) -> NoDup (l1 ++ l2).
Proof.
  induction l1 as [|a l1 IH]; cbn; auto. intros H1 H2 H. inversion H1; subst. constructor.
  - rewrite in_app_iff. intros [?|?]; eauto.
  - apply IH; eauto.
Qed.

Lemma NoDup_map_inj_in {B C} (f : B -> C) l : (forall x y, In x l -> In y l -> f x = f y -> x = y) -> NoDup l -> NoDup (map f l).
Proof.
  induction l as [|a l IH]; cbn; intros H ND; [constructor|]. inversion ND; subst. constructor.
  - intros Hin. apply in_map_iff in Hin. destruct Hin as (y & E & Hy). apply H in E; auto. subst. contradiction.
  - apply IH; auto.
Qed.

Section Ends.
Context {A : Type}.
Variable d : A.

Definition todo (s : pstate A) : nat := list_sum (map (fun w => length (wk_ops w)) (ps_ws s)).

Lemma sum_upd (ws : list (worker A)) i w w' : nth_error ws i = Some w ->
  length (wk_ops w') < length (wk_ops w) ->
  list_sum (map (fun x => length (wk_ops x)) (upd_list ws i w')) < list_sum (map (fun x => length (wk_ops x)) ws).
Proof.
  unfold list_sum. revert i. induction ws as [|x ws IH]; intros [|i] H L; cbn in *; try discriminate.
  - injection H as ->. apply Nat.add_lt_mono_r. exact L.
  - apply Nat.add_lt_mono_l. apply IH; auto.
Qed.

Lemma ops_dec (w : worker A) : {wk_ops w = []} + {wk_ops w <> []}.
Proof. destruct (wk_ops w); [left|right]; congruence. Qed.

Lemma ended_exists : forall n s, todo s <= n -> exists sched, ended (prun d sched s).
Proof.
  induction n as [|n IH]; intros s Hn.
  - exists []. left. cbn. unfold finished. apply Forall_forall. intros w Hw.
    destruct (in_split _ _ Hw) as (l1 & l2 & E). unfold todo in Hn. rewrite E, map_app in Hn. cbn [map] in Hn.
    rewrite list_sum_app in Hn. cbn in Hn. destruct (wk_ops w); auto. cbn in Hn. lia.
  - destruct (Forall_dec (fun w : worker A => wk_ops w = []) ops_dec (ps_ws s)) as [HF|HF].
    + exists []. left. exact HF.
    + assert (HX : exists i w, nth_error (ps_ws s) i = Some w /\ wk_ops w <> []).
      { clear - HF. induction (ps_ws s) as [|w ws IHw]. { exfalso. apply HF. constructor. }
        destruct (wk_ops w) eqn:E.
        - destruct IHw as (i & w' & H1 & H2). { intros H. apply HF. constructor; auto. }
          exists (S i), w'. auto.
        - exists 0, w. split; auto. congruence. }
      destruct HX as (i & [F os] & Hi & Ho). destruct os as [|o os]; [now elim Ho|].
      destruct (IH (pstep d i s)) as (sched & HS).
      { unfold pstep. rewrite Hi. destruct (o _); unfold todo; cbn [ps_ws];
          (enough (list_sum (map (fun x => length (wk_ops x)) (upd_list (ps_ws s) i (mk_worker F os))) < todo s /\
                   list_sum (map (fun x => length (wk_ops x)) (upd_list (ps_ws s) i (mk_worker F []))) < todo s) by lia);
          split; (eapply sum_upd; [exact Hi| cbn; lia]). }
      exists (i :: sched). exact HS.
Qed.
End Ends.

(** ** C07 *)
Section C07.
Context {A : Type}.
Variables (d : A) (data : list A) (w h cpp tw th : nat).
Hypothesis (Hw : 0 < w) (Hh : 0 < h) (Hc : 0 < cpp) (Htw : 0 < tw) (Hth : 0 < th).
Hypothesis HL : length data = h * w * cpp.
Let tcols := (w + tw - 1) / tw.
Let trows := (h + th - 1) / th.

Lemma tiler_top : exists t tiles,
  tiler_new data w h cpp tw th = Ok t /\ all_tiles d t = Ok tiles /\ length tiles = trows * tcols /\
  (forall k, k < trows * tcols -> length (nth k tiles []) = th * (tw * cpp)) /\
  forall ty tx r c, ty < trows -> tx < tcols -> r < th -> c < tw * cpp ->
    nth (r * (tw * cpp) + c) (nth (ty * tcols + tx) tiles []) d =
    nth (Nat.min (ty * th + r) (h - 1) * (w * cpp) + Nat.min (tx * (tw * cpp) + c) (w * cpp - 1)) data d.
Proof.
  eexists. eexists. split; [apply tiler_new_ok; auto|]. split; [apply all_tiles_spec; auto|].
  fold tcols trows. split; [now rewrite map_length, seq_length|]. split.
  - intros k Hk. rewrite nth_map_seq by auto. apply build_tile_length.
  - intros ty tx r c Hty Htx Hr Hcc.
    assert (Hi : ty * tcols + tx < trows * tcols).
    { pose proof (Nat.mul_le_mono_r (S ty) trows tcols). lia. }
    rewrite nth_map_seq by auto.
    assert (E1 : (ty * tcols + tx) mod tcols = tx) by (symmetry; apply Nat.mod_unique with (q := ty); lia).
    assert (E2 : (ty * tcols + tx) / tcols = ty) by (symmetry; apply Nat.div_unique with (r := tx); lia).
    unfold tcols. rewrite build_tile_nth; auto. fold tcols. now rewrite E1, E2.
Qed.

Lemma tiler_reassemble t tiles : tiler_new data w h cpp tw th = Ok t -> all_tiles d t = Ok tiles ->
  map (fun i => let y := i / (w * cpp) in let c := i mod (w * cpp) in
         nth (y mod th * (tw * cpp) + c mod (tw * cpp)) (nth (y / th * tcols + c / (tw * cpp)) tiles []) d)
      (seq 0 (h * (w * cpp))) = data.
Proof.
  intros E1 E2. destruct tiler_top as (t' & tiles' & E1' & E2' & _ & _ & HN).
  rewrite E1 in E1'. injection E1' as <-. rewrite E2 in E2'. injection E2' as <-.
  assert (HWC : 0 < w * cpp) by (apply Nat.mul_pos_pos; auto).
  assert (HTC : 0 < tw * cpp) by (apply Nat.mul_pos_pos; auto).
  apply nth_ext_len with (d := d). { rewrite map_length, seq_length. lia. }
  intros i Hi. rewrite map_length, seq_length in Hi. rewrite nth_map_seq by auto. cbv zeta.
  assert (Hy : i / (w * cpp) < h) by (apply Nat.div_lt_upper_bound; lia).
  pose proof (Nat.mod_upper_bound i (w * cpp) ltac:(lia)) as Hcc.
  pose proof (Nat.div_mod i (w * cpp) ltac:(lia)) as HD.
  set (y := i / (w * cpp)) in *. set (c := i mod (w * cpp)) in *. clearbody y c.
  pose proof (Nat.div_mod y th ltac:(lia)) as HDy. pose proof (Nat.mod_upper_bound y th ltac:(lia)).
  pose proof (Nat.div_mod c (tw * cpp) ltac:(lia)) as HDc. pose proof (Nat.mod_upper_bound c (tw * cpp) ltac:(lia)).
  set (ty := y / th) in *. set (r := y mod th) in *. set (tx := c / (tw * cpp)) in *. set (q := c mod (tw * cpp)) in *.
  clearbody ty r tx q.
  rewrite HN; auto.
  - replace (ty * th + r) with y by lia. replace (tx * (tw * cpp) + q) with c by lia.
    rewrite !Nat.min_l by lia. f_equal. lia.
  - apply ceil_ge; lia.
  - apply ceil_ge; auto. assert (tx * tw * cpp < w * cpp) by lia.
    apply Nat.mul_lt_mono_pos_r with cpp; auto.
Qed.
End C07.

(** ** C08 *)
Section C08.
Variables (tcols trows cpp tw th : nat).
Hypothesis (Hcols : 0 < tcols) (Hrows : 0 < trows) (Hcpp : 0 < cpp) (Htw : 0 < tw) (Hth : 0 < th).
Let len := trows * th * (tcols * (tw * cpp)).

Lemma mtiles_top : exists it ms, into_tiles len (tcols * tw) cpp tw th = Ok it /\ tiles_list it = Ok ms /\
  length ms = trows * tcols /\
  (forall ty tx l p, ty < trows -> tx < tcols -> l < th -> p < tw * cpp ->
     nth p (mtile_line (nth (ty * tcols + tx) ms (mk_mtile 0 0 0 0)) l) 0 =
     (ty * th + l) * (tcols * tw * cpp) + tx * (tw * cpp) + p) /\
  Forall (fun m => mt_height m = th /\ mt_line m = tw * cpp) ms /\
  Permutation (flat_map mtile_cells ms) (seq 0 len).
Proof.
  eexists. eexists. split; [apply into_tiles_ok; auto|]. split; [apply tiles_list_ok; auto|].
  split; [now rewrite map_length, seq_length|]. split; [|split].
  - intros ty tx l p Hty Htx Hl Hp.
    assert (Hi : ty * tcols + tx < trows * tcols).
    { pose proof (Nat.mul_le_mono_r (S ty) trows tcols). lia. }
    rewrite nth_map_seq by auto. unfold mtile_line, mtile_of. cbn [mt_start mt_dist mt_line].
    rewrite seq_nth by auto.
    assert (E1 : (ty * tcols + tx) mod tcols = tx) by (symmetry; apply Nat.mod_unique with (q := ty); lia).
    assert (E2 : (ty * tcols + tx) / tcols = ty) by (symmetry; apply Nat.div_unique with (r := tx); lia).
    rewrite E1, E2. lia.
  - apply Forall_forall. intros m Hm. apply in_map_iff in Hm. destruct Hm as (k & <- & _). auto.
  - assert (HT : 0 < tw * cpp) by (apply Nat.mul_pos_pos; auto).
    apply NoDup_Permutation; [| apply seq_NoDup |].
    + rewrite flat_map_concat_map, map_map.
      assert (E : map (fun k => mtile_cells (mtile_of tcols cpp tw th k)) (seq 0 (trows * tcols)) =
                  map (fun k => map (cell tcols cpp tw th k) (seq 0 (th * (tw * cpp)))) (seq 0 (trows * tcols))).
      { apply map_ext. intros k. now apply mtile_cells_ok with (trows := trows). }
      rewrite E. clear E.
      assert (G : forall ks, NoDup ks -> NoDup (concat (map (fun k => map (cell tcols cpp tw th k) (seq 0 (th * (tw * cpp)))) ks))).
      { induction ks as [|k ks IH]; intros ND; cbn; [constructor|]. inversion ND as [|? ? HNI ND']; subst.
        apply NoDup_app_intro; auto.
        - apply NoDup_map_inj_in; [|apply seq_NoDup]. intros x y Hx Hy E. apply in_seq in Hx, Hy.
          eapply (cell_inj tcols trows cpp tw th); eauto; lia.
        - intros x Hx Hy. apply in_map_iff in Hx. destruct Hx as (p & <- & Hp). apply in_seq in Hp.
          apply in_concat in Hy. destruct Hy as (l & Hl & Hx). apply in_map_iff in Hl. destruct Hl as (k' & <- & Hk').
          apply in_map_iff in Hx. destruct Hx as (p' & E & Hp'). apply in_seq in Hp'.
          apply (cell_inj tcols trows cpp tw th) in E; auto; try lia. destruct E as [-> _]. contradiction. }
      apply G, seq_NoDup.
    + intros i. rewrite in_flat_map, in_seq. split.
      * intros (m & Hm & Hi). apply in_map_iff in Hm. destruct Hm as (k & <- & Hk). apply in_seq in Hk.
        rewrite mtile_cells_ok with (trows := trows) in Hi; auto.
        apply in_map_iff in Hi. destruct Hi as (p & <- & Hp). apply in_seq in Hp. split; [lia|].
        apply cell_bound; auto; lia.
      * intros [_ Hi]. destruct (cell_cover tcols trows cpp tw th Hcols Hrows Hcpp Htw Hth i Hi) as (HK & HP & HC).
        eexists. split. { apply in_map. apply in_seq. split; [apply Nat.le_0_l|]. exact HK. }
        rewrite mtile_cells_ok with (trows := trows); auto. apply in_map_iff. eexists. split; [exact HC|].
        apply in_seq. split; [apply Nat.le_0_l|]. exact HP.
Qed.

Lemma mtiles_par {A} (d : A) it ms (prog : nat -> list (op A)) buf sched :
  into_tiles len (tcols * tw) cpp tw th = Ok it -> tiles_list it = Ok ms -> length buf = len ->
  (forall k, Forall (op_ok (th * (tw * cpp))) (prog k)) ->
  let ws := map (fun '(k, m) => mk_worker (mtile_cells m) (prog k)) (combine (seq 0 (length ms)) ms) in
  ended (prun d sched (mk_pstate buf ws false)) ->
  result (prun d sched (mk_pstate buf ws false)) = run_seq d ws buf.
Proof.
  intros E1 E2 HL HO ws HE. 
  unfold len in *. rewrite into_tiles_ok in E1 by auto. injection E1 as <-.
  rewrite tiles_list_ok in E2 by auto. injection E2 as <-.
  assert (EW : ws = map (fun k => mk_worker (mtile_cells (mtile_of tcols cpp tw th k)) (prog k)) (seq 0 (trows * tcols))).
  { unfold ws. rewrite map_length, seq_length, combine_seq_map, map_map. reflexivity. }
  apply par_seq; auto.
  - rewrite EW, map_map, HL. cbn [wk_cells].
    rewrite <- (map_map (mtile_of tcols cpp tw th) mtile_cells). apply tiles_footprints; auto.
  - rewrite EW. apply Forall_forall. intros x Hx. apply in_map_iff in Hx. destruct Hx as (k & <- & _).
    cbn [wk_cells wk_ops]. rewrite mtile_cells_ok with (trows := trows); auto. rewrite map_length, seq_length. apply HO.
Qed.
End C08.

(** ** C09 *)
Lemma image_roundtrip dbg data w h cpp bps ph px :
  0 < w -> 0 < h -> length data = h * w * cpp -> Forall is_u16 data ->
  (10 <= bps <= 16) -> (1 <= px <= 7) ->
  (dbg = true -> Forall (fun s => (s < 2 ^ Z.of_nat bps)%Z) data) ->
  match ph with LinearRaw => 1 <= cpp <= 4 | _ => cpp = 1 end ->
  exists tiles, put_raw_ljpeg dbg 256 256 data w h cpp bps ph px = Ok tiles /\
    length tiles = ((h + 255) / 256) * ((w + 255) / 256) /\
    (exists sched, read_ljpeg_ends sched tiles w h cpp 256 256) /\
    forall sched, read_ljpeg_ends sched tiles w h cpp 256 256 ->
      read_ljpeg sched tiles w h cpp 256 256 = Ok data.
Proof.
  intros Hw Hh HL HU HB HP HD HPH.
  assert (HG : exists jw jh comps realign, ljpeg_geometry 256 256 cpp ph px = Ok (jw, jh, comps, realign) /\
    (jh / realign * (jw * realign * comps) = 256 * (256 * cpp)) /\
    1 <= jw * realign /\ (Z.of_nat (jw * realign) <= 65535)%Z /\ 1 <= jh / realign /\ (Z.of_nat (jh / realign) <= 65535)%Z /\
    1 <= comps <= 4).
  { change (256 * (256 * cpp)) with (256 * (256 * cpp)). unfold ljpeg_geometry.
    destruct ph as [|cw ch|].
    - subst cpp. do 4 eexists. split; [reflexivity|]. vm_compute (256 / 1). repeat split; lia.
    - subst cpp. destruct ((4 <=? px) && (px <=? 7) && (cw =? 2) && (ch =? 2)); do 4 eexists; (split; [reflexivity|]);
      [vm_compute (256 / 2) | vm_compute (256 / 1); vm_compute (256 / 2)]; repeat split; lia.
    - do 4 eexists. split; [reflexivity|]. vm_compute (256 / 1). repeat split; lia. }
  destruct HG as (jw & jh & comps & realign & EG & HGS & H1 & H2 & H3 & H4 & H5).
  assert (Hc : 0 < cpp) by (destruct ph; lia).
  destruct (put_raw_ok dbg data w h cpp bps 256 256 ph px jw jh comps realign) as (tiles & EP & HLt & _); auto; try lia.
  exists tiles. split; auto. split.
  { rewrite HLt. f_equal; f_equal; lia. }
  split.
  - unfold read_ljpeg_ends. destruct (read_ljpeg_init tiles w h cpp 256 256) as [[[? ?] s0]| |]; try (exists []; exact I).
    eapply ended_exists. apply Nat.le_refl.
  - intros sched HE. apply (read_put dbg data w h cpp bps 256 256 ph px jw jh comps realign); auto; lia.
Qed.
