(** PPG: sizes that fail, schedules, region of interest, flat images. *)
From Coq Require Import List ZArith Lia Bool QArith Qcanon.
From Coq Require Import ZifyBool ZifyNat.
From Verif Require Import Base BaseLemmas Share ShareProofs Tiles Geom Cfa CfaProofs Demosaic DemosaicSpec DemosaicProofs DemosaicPpg.
Import ListNotations.
Open Scope nat_scope.

Lemma srun_crash {V} sched n (m : list V) : srun sched (mk_sstate m (repeat Crash n)) = mk_sstate m (repeat Crash n).
Proof.
  unfold srun. induction sched as [|t sched IH]; [reflexivity|]. cbn [fold_left].
  replace (sstep t (mk_sstate m (repeat Crash n))) with (mk_sstate m (repeat (@Crash V) n)); [exact IH|].
  unfold sstep. cbn [ss_thr ss_mem]. destruct (nth_error (repeat Crash n) t) as [p|] eqn:E; [|reflexivity].
  apply nth_error_In, repeat_spec in E. now subst.
Qed.

Lemma map_const_repeat {A B} (b : B) (l : list A) : map (fun _ => b) l = repeat b (length l).
Proof. induction l; cbn; congruence. Qed.

Lemma pass_narrow {V} (px : nat -> nat -> prog V -> prog V) w h sched m : 6 < h -> w < 6 -> pass px w h sched m = Panic.
Proof.
  intros Hh Hw. unfold pass. rewrite usub_ok by lia. cbn [bind]. replace (6 <=? w) with false by lia.
  rewrite map_const_repeat, seq_length. unfold par_loop. rewrite srun_crash. cbn [ss_thr ss_mem].
  destruct (h - 6) eqn:E; [lia|]. reflexivity.
Qed.

Section Top.
Context {F : Type}.
Variable o : fops F.
Notation z := (f_nat o 0).

Definition ppg_hangs (w h : nat) : Prop := 6 < h /\ (w = 4 \/ w = 5).

Lemma plan_small fuel w h rows : (h <= 6 \/ w <= 3) -> w < fuel -> (forall r, In r rows -> r < h) ->
  exists plan, border_plan fuel w h rows = Some plan /\ forall r q, In (r, q) plan -> r < h /\ q < w.
Proof.
  intros HS HF. induction rows as [|row rows IH]; intros HR.
  - exists []. split; [reflexivity|]. intros ? ? [].
  - destruct IH as (plan & EP & IP); [intros; apply HR; now right|].
    assert (EC : border_cols fuel w h row 0 = Some (seq 0 w)).
    { destruct (Nat.ltb_spec row 3) as [H1|H1]; [|destruct (Nat.ltb_spec row (h - 3)) as [H2|H2]].
      - rewrite border_cols_line by lia. now rewrite Nat.sub_0_r.
      - assert (w <= 3) by lia. clear - HF H.
        destruct w as [|[|[|[|]]]]; try lia; destruct fuel as [|[|[|[|]]]]; try lia; reflexivity.
      - rewrite border_cols_line by lia. now rewrite Nat.sub_0_r. }
    cbn [border_plan]. rewrite EC, EP. eexists. split; [reflexivity|].
    intros r q. rewrite in_app_iff, in_map_iff. intros [(x & [= <- <-] & Hx)|H]; [|now apply IP].
    apply in_seq in Hx. split; [apply HR; now left|lia].
Qed.

(** What happens for every size of a region inside the image. *)
Lemma ppg_sizes fuel s0 s1 s2 s3 raw dw dh name c0 roi :
  In name bayer_names -> cfa_new name = Ok c0 ->
  length raw = dw * dh -> r_x roi + r_w roi <= dw -> r_y roi + r_h roi <= dh -> 0 < r_w roi ->
  (ppg_hangs (r_w roi) (r_h roi) -> ppg o fuel s0 s1 s2 s3 raw dw c0 roi = None) /\
  (r_w roi < fuel -> ~ ppg_hangs (r_w roi) (r_h roi) -> ~ ppg_size (r_w roi) (r_h roi) ->
   ppg o fuel s0 s1 s2 s3 raw dw c0 roi = Some Panic).
Proof.
  intros HN EN HL HX HY HW0.
  destruct (chan_shift name c0 (r_x roi) (r_y roi) HN EN) as (RGB & c & ES & HC).
  destruct (bayer_quad name (r_x roi) (r_y roi) HN) as (t & HT & HTC).
  assert (HC' : forall r q, chan c r q = t (Nat.odd r) (Nat.odd q)) by (intros; now rewrite HC, HTC).
  assert (HC3 : forall r q, chan c r q < 3) by (intros; rewrite HC'; apply HT).
  unfold ppg. rewrite RGB. cbn [negb]. rewrite ES.
  destruct (expand_ok o s0 raw dw dh c0 c roi ES HC3 HL HX HY HW0) as (m0 & E0 & L0 & N0). rewrite E0.
  set (w := r_w roi) in *. set (h := r_h roi) in *. unfold ppg_hangs, ppg_size. split.
  - intros [Hh Hw]. rewrite (border_plan_hang fuel w h (seq 0 h) 3); auto; [apply in_seq; lia|lia].
  - intros HF NH NS.
    destruct (plan_small fuel w h (seq 0 h)) as (plan & EP & IP); [lia|auto|intros r Hr; apply in_seq in Hr; lia|].
    rewrite EP. f_equal.
    destruct (borders_ok o w h (fun r q => nth ((r_y roi + r) * dw + (r_x roi + q)) raw z) c HC3 plan [] m0) as (m1 & E1 & I1).
    { split; [exact L0|]. intros r q ch Hr Hq Hch. rewrite N0 by auto. split.
      - intros ->. now rewrite Nat.eqb_refl.
      - intros NE. destruct (Nat.eqb_spec ch (chan c r q)); [lia|]. cbn. tauto. }
    { exact IP. }
    rewrite E1. cbn [bind]. destruct (Nat.ltb_spec 6 h).
    + rewrite pass_narrow by lia. reflexivity.
    + unfold pass, usub. replace (6 <=? h) with false by lia. reflexivity.
Qed.

Lemma cells_ext n w h (l l' : list F) : length l = n * (w * h) -> length l' = n * (w * h) ->
  (forall r q ch, r < h -> q < w -> ch < n -> nth (cell n w r q ch) l z = nth (cell n w r q ch) l' z) -> l = l'.
Proof.
  intros L L' H. apply (nth_ext_len _ _ z); [congruence|]. intros i Hi. rewrite L in Hi.
  destruct (cell_surj n w h i Hi) as (r & q & ch & -> & Hr & Hq & Hc). now apply H.
Qed.

(** The result depends neither on the schedules nor on samples outside the
    region, nor on where the region lies as long as the colours agree. *)
Lemma ppg_same fuel s0 s1 s2 s3 raw dw dh roi fuel' s0' s1' s2' s3' raw' dw' dh' roi' name c0 :
  In name bayer_names -> cfa_new name = Ok c0 ->
  length raw = dw * dh -> r_x roi + r_w roi <= dw -> r_y roi + r_h roi <= dh ->
  length raw' = dw' * dh' -> r_x roi' + r_w roi' <= dw' -> r_y roi' + r_h roi' <= dh' ->
  r_w roi' = r_w roi -> r_h roi' = r_h roi ->
  r_x roi' mod 2 = r_x roi mod 2 -> r_y roi' mod 2 = r_y roi mod 2 ->
  0 < r_w roi -> ppg_size (r_w roi) (r_h roi) -> r_w roi < fuel -> r_w roi < fuel' ->
  (forall r q, r < r_h roi -> q < r_w roi ->
     nth ((r_y roi + r) * dw + (r_x roi + q)) raw z = nth ((r_y roi' + r) * dw' + (r_x roi' + q)) raw' z) ->
  ppg o fuel s0 s1 s2 s3 raw dw c0 roi = ppg o fuel' s0' s1' s2' s3' raw' dw' c0 roi'.
Proof.
  intros HN EN HL HX HY HL' HX' HY' EW EH MX MY HW0 HS HF HF' HEQ.
  destruct (ppg_spec o fuel s0 s1 s2 s3 raw dw dh name c0 roi) as (out & E & L & N); auto.
  destruct (ppg_spec o fuel' s0' s1' s2' s3' raw' dw' dh' name c0 roi') as (out' & E' & L' & N'); rewrite ?EW, ?EH; auto; try (rewrite ?EW, ?EH in *; lia).
  rewrite E, E'. do 2 f_equal. rewrite ?EW, ?EH in *.
  apply (cells_ext 3 (r_w roi) (r_h roi)); auto. intros r q ch Hr Hq Hch.
  unfold cell. rewrite N, N' by auto.
  assert (CE : forall r q, sensor_color name (r_y roi + r) (r_x roi + q) = sensor_color name (r_y roi' + r) (r_x roi' + q)).
  { intros y x. unfold sensor_color.
    replace ((r_y roi' + y) mod 2) with ((r_y roi + y) mod 2).
    2:{ rewrite (Nat.add_mod (r_y roi')), (Nat.add_mod (r_y roi)) by lia. now rewrite MY. }
    replace ((r_x roi' + x) mod 2) with ((r_x roi + x) mod 2); [reflexivity|].
    rewrite (Nat.add_mod (r_x roi')), (Nat.add_mod (r_x roi)) by lia. now rewrite MX. }
  rewrite (ppg_at_ext o _ _ _ _ _ CE).
  set (w := r_w roi) in *. set (h := r_h roi) in *.
  set (col := fun r q => sensor_color name (r_y roi' + r) (r_x roi' + q)) in *.
  set (s := fun r q => nth ((r_y roi + r) * dw + (r_x roi + q)) raw z) in *.
  set (s' := fun r q => nth ((r_y roi' + r) * dw' + (r_x roi' + q)) raw' z) in *.
  assert (SE : forall r q, r < h -> q < w -> s r q = s' r q) by exact HEQ.
  clearbody col s s'.
  assert (SM : forall k r q ch, square_mean o w h s col k r q ch = square_mean o w h s' col k r q ch).
  { intros k y x c. unfold square_mean. f_equal. apply map_ext_in. intros [y' x'] Hin.
    unfold square in Hin. apply filter_In in Hin as [Hin _]. apply in_prod_iff in Hin as [H1 H2].
    apply in_seq in H1, H2. apply SE; cbn; lia. }
  assert (GE : forall r q, r < h -> q < w -> ppg_green o w h s col r q = ppg_green o w h s' col r q).
  { intros y x Hy Hx. unfold ppg_green. destruct (col y x =? 1); [auto|].
    destruct (inner w h y x) eqn:EI; [|apply SM]. apply inner_lt in EI. now rewrite !SE by lia. }
  unfold ppg_at, ppg_diag. destruct (ch =? col r q); [auto|]. destruct (inner w h r q) eqn:EI; cbn [negb]; [|apply SM].
  apply inner_lt in EI. now rewrite !GE, !SE by lia.
Qed.

End Top.

(** ** Exact arithmetic: a flat image stays flat *)

Lemma square_in w h col k r q ch y x : square w h col k r q ch <> [] \/ ~ (y < h /\ x < w /\ r <= y + k /\ y <= r + k /\ q <= x + k /\ x <= q + k /\ col y x = ch).
Proof.
  destruct (square w h col k r q ch) eqn:E; [right|left; discriminate].
  intros (H1 & H2 & H3 & H4 & H5 & H6 & H7).
  assert (HI : In (y, x) (square w h col k r q ch)).
  { unfold square. apply filter_In. split; [apply in_prod; apply in_seq; lia|]. lia. }
  rewrite E in HI. destruct HI.
Qed.

Section Flat.
Variables (w h : nat) (smp : nat -> nat -> Qc) (col : nat -> nat -> nat) (v : Qc).
Hypothesis HV : forall r q, r < h -> q < w -> smp r q = v.

Lemma f_nat_S n : f_nat qops (S n) = (1 + f_nat qops n)%Qc.
Proof.
  cbn [f_nat qops]. apply Qc_is_canon. rewrite Nat2Z.inj_succ. unfold Z.succ.
  unfold Qcplus, Q2Qc. cbn [this]. rewrite !Qred_correct. rewrite inject_Z_plus. ring.
Qed.
Lemma f_nat_0 : f_nat qops 0 = 0%Qc. Proof. apply Qc_is_canon. reflexivity. Qed.
Lemma f_nat_ge n : (0 <= f_nat qops n)%Qc.
Proof.
  induction n as [|n IH]; [rewrite f_nat_0; apply Qcle_refl|]. rewrite f_nat_S.
  setoid_replace 0%Qc with (0 + 0)%Qc by ring. apply Qcplus_le_compat; [|exact IH]. discriminate.
Qed.
Lemma f_nat_pos n : 0 < n -> f_nat qops n <> 0%Qc.
Proof.
  destruct n as [|n]; [lia|]. intros _ H. rewrite f_nat_S in H.
  pose proof (f_nat_ge n) as G. apply (Qcle_not_lt _ _ G).
  assert (E : f_nat qops n = (- (1))%Qc). { rewrite <- (Qcplus_0_r (- (1))), <- H. ring. }
  rewrite E. reflexivity.
Qed.

Lemma sum_const l a : (forall x, In x l -> x = v) -> fold_left (f_add qops) l a = (a + f_nat qops (length l) * v)%Qc.
Proof.
  revert a. induction l as [|x l IH]; intros a H.
  - cbn [fold_left length]. rewrite f_nat_0. ring.
  - cbn [fold_left length]. rewrite IH by (intros; apply H; now right). rewrite (H x) by now left.
    rewrite f_nat_S. change (f_add qops a v) with (a + v)%Qc. ring.
Qed.

Lemma mean_const l : l <> [] -> (forall x, In x l -> x = v) -> mean qops l = v.
Proof.
  intros NE H. unfold mean. destruct l as [|x l]; [congruence|]. rewrite sum_const by exact H.
  rewrite f_nat_0. change (f_div qops) with Qcdiv. field. apply f_nat_pos. cbn. lia.
Qed.

Lemma square_mean_const k r q ch : square w h col k r q ch <> [] -> square_mean qops w h smp col k r q ch = v.
Proof.
  intros NE. unfold square_mean. apply mean_const.
  - intros E. apply map_eq_nil in E. congruence.
  - intros x Hx. apply in_map_iff in Hx as ([y' x'] & <- & Hin). cbn.
    unfold square in Hin. apply filter_In in Hin as [Hin _]. apply in_prod_iff in Hin as [H1 H2].
    apply in_seq in H1, H2. apply HV; lia.
Qed.

Lemma f_lt_irrefl x : f_lt qops x x = false.
Proof. cbn. destruct (Qclt_le_dec x x) as [H|]; [now apply Qclt_not_eq in H|reflexivity]. Qed.
Lemma f_eq_refl x : f_eq qops x x = true.
Proof. cbn. now destruct (Qc_eq_dec x x). Qed.

Lemma pick_green_const : pick_green qops v v v v v v v v v = v.
Proof.
  unfold pick_green. cbn [fold_left]. rewrite !f_lt_irrefl, f_eq_refl.
  unfold extend. rewrite !f_nat_S, f_nat_0.
  cbn [f_add f_sub f_mul f_div qops]. field. discriminate.
Qed.

Lemma between_const : between qops v v v v v = v.
Proof.
  unfold between. rewrite f_lt_irrefl.
  cbn [orb andb]. rewrite !f_nat_S, f_nat_0.
  cbn [f_add f_sub f_mul f_div qops]. field. split; discriminate.
Qed.

Hypothesis HSQ : forall r q ch, r < h -> q < w -> ch < 3 -> square w h col 1 r q ch <> [].

Lemma ppg_green_const r q : r < h -> q < w -> ppg_green qops w h smp col r q = v.
Proof.
  intros Hr Hq. unfold ppg_green. destruct (col r q =? 1); [auto|].
  destruct (inner w h r q) eqn:EI; [|apply square_mean_const; auto].
  apply inner_lt in EI. rewrite !HV by lia. apply pick_green_const.
Qed.

Lemma ppg_at_const r q ch : r < h -> q < w -> ch < 3 -> ppg_at qops w h smp col r q ch = v.
Proof.
  intros Hr Hq Hch. unfold ppg_at, ppg_diag. destruct (ch =? col r q); [auto|].
  destruct (inner w h r q) eqn:EI; cbn [negb]; [|apply square_mean_const; auto].
  apply inner_lt in EI. rewrite !ppg_green_const, !HV by lia.
  destruct (ch =? 1); [reflexivity|]. rewrite between_const.
  destruct (col r q =? 1); [destruct (ch =? _); reflexivity|].
  match goal with |- (if ?b then _ else _) = _ => destruct b; reflexivity end.
Qed.

End Flat.

(** in a Bayer pattern every 3 x 3 window has every colour *)
Lemma bayer_square w h name ox oy r q ch : In name bayer_names -> 2 <= w -> 2 <= h -> r < h -> q < w -> ch < 3 ->
  square w h (fun r q => sensor_color name (oy + r) (ox + q)) 1 r q ch <> [].
Proof.
  intros HN Hw Hh Hr Hq Hch.
  destruct (bayer_quad name ox oy HN) as (t & HT & HTC).
  set (col := fun r q => sensor_color name (oy + r) (ox + q)).
  set (r' := if r =? 0 then 1 else r - 1). set (q' := if q =? 0 then 1 else q - 1).
  assert (OR : Nat.odd r' = negb (Nat.odd r)).
  { unfold r'. destruct (Nat.eqb_spec r 0) as [->|]; [reflexivity|]. apply odd_pred. lia. }
  assert (OQ : Nat.odd q' = negb (Nat.odd q)).
  { unfold q'. destruct (Nat.eqb_spec q 0) as [->|]; [reflexivity|]. apply odd_pred. lia. }
  assert (BR : r' < h /\ r <= r' + 1 /\ r' <= r + 1) by (unfold r'; destruct (Nat.eqb_spec r 0); lia).
  assert (BQ : q' < w /\ q <= q' + 1 /\ q' <= q + 1) by (unfold q'; destruct (Nat.eqb_spec q 0); lia).
  clearbody r' q'.
  assert (EX : col r q = ch \/ col r' q = ch \/ col r q' = ch \/ col r' q' = ch).
  { unfold col. rewrite !HTC, OR, OQ. destruct HT as (T0 & T1 & T2).
    pose proof (T0 (Nat.odd r) (Nat.odd q)). pose proof (T0 (negb (Nat.odd r)) (Nat.odd q)).
    pose proof (T0 (Nat.odd r) (negb (Nat.odd q))). pose proof (T0 (negb (Nat.odd r)) (negb (Nat.odd q))).
    specialize (T1 (Nat.odd r) (Nat.odd q)). specialize (T2 (Nat.odd r) (Nat.odd q)). lia. }
  destruct EX as [E|[E|[E|E]]].
  - destruct (square_in w h col 1 r q ch r q) as [|N]; [auto|]. exfalso. apply N. lia.
  - destruct (square_in w h col 1 r q ch r' q) as [|N]; [auto|]. exfalso. apply N. lia.
  - destruct (square_in w h col 1 r q ch r q') as [|N]; [auto|]. exfalso. apply N. lia.
  - destruct (square_in w h col 1 r q ch r' q') as [|N]; [auto|]. exfalso. apply N. lia.
Qed.

Lemma ppg_flat fuel s0 s1 s2 s3 raw dw dh name c0 roi v :
  In name bayer_names -> cfa_new name = Ok c0 ->
  length raw = dw * dh -> r_x roi + r_w roi <= dw -> r_y roi + r_h roi <= dh -> 2 <= r_w roi ->
  ppg_size (r_w roi) (r_h roi) -> r_w roi < fuel ->
  (forall r q, r < r_h roi -> q < r_w roi -> nth ((r_y roi + r) * dw + (r_x roi + q)) raw (f_nat qops 0) = v) ->
  ppg qops fuel s0 s1 s2 s3 raw dw c0 roi = Some (Ok (repeat v (3 * (r_w roi * r_h roi)))).
Proof.
  intros HN EN HL HX HY HW HS HF HV.
  destruct (ppg_spec qops fuel s0 s1 s2 s3 raw dw dh name c0 roi) as (out & E & L & N); auto; [lia|].
  rewrite E. do 2 f_equal.
  apply (cells_ext qops 3 (r_w roi) (r_h roi)); auto; [apply repeat_length|].
  intros r q ch Hr Hq Hch. rewrite nth_repeat_lt by (apply cell_lt; auto). unfold cell. rewrite N by auto.
  apply ppg_at_const; auto. intros. apply bayer_square; auto. unfold ppg_size in HS. lia.
Qed.
