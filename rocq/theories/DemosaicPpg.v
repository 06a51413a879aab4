(** PPG demosaicing: the whole function. *)
From Coq Require Import List ZArith Lia Bool.
From Coq Require Import ZifyBool ZifyNat.
From Verif Require Import Base BaseLemmas Share ShareProofs Tiles Geom Cfa CfaProofs Demosaic DemosaicSpec DemosaicProofs.
Import ListNotations.
Open Scope nat_scope.

(** ** The columns of the border loop *)

Lemma border_cols_line w h row fuel : forall col, row < 3 \/ h <= row + 3 \/ 4 <= col -> w - col < fuel ->
  border_cols fuel w h row col = Some (seq col (w - col)).
Proof.
  induction fuel as [|fuel IH]; intros col HR HF; cbn [border_cols].
  - lia.
  - destruct (Nat.ltb_spec col w).
    + replace ((col =? 3) && (3 <=? row) && (row <? h - 3)) with false by lia.
      rewrite IH by lia. cbn [option_map]. replace (w - col) with (S (w - S col)) by lia. reflexivity.
    + replace (w - col) with 0 by lia. reflexivity.
Qed.

Lemma border_cols_jump w h row fuel : 3 <= row -> row < h - 3 -> 6 <= w -> w < fuel ->
  border_cols fuel w h row 0 = Some ([0; 1; 2] ++ seq (w - 3) 3).
Proof.
  intros H1 H2 H3 HF.
  destruct fuel as [|[|[|[|fuel]]]]; try lia.
  cbn [border_cols].
  do 3 (match goal with |- context [?a <? w] => replace (a <? w) with true by lia end; cbn [Nat.eqb andb]).
  replace (3 <? w) with true by lia. cbn [Nat.eqb andb].
  replace (3 <=? row) with true by lia. replace (row <? h - 3) with true by lia. cbn [andb].
  rewrite border_cols_line by lia. cbn [option_map app]. do 3 f_equal.
  replace (w - S (w - 3)) with 2 by lia. reflexivity.
Qed.

(** width 4 or 5: the jump to the right border goes back *)
Lemma border_cols_hang w h row fuel : forall col, 3 <= row -> row < h - 3 -> w = 4 \/ w = 5 -> col <= 3 ->
  border_cols fuel w h row col = None.
Proof.
  induction fuel as [|fuel IH]; intros col H1 H2 H3 Hc; [reflexivity|]. cbn [border_cols].
  replace (col <? w) with true by lia.
  rewrite IH; auto.
  destruct (Nat.eqb_spec col 3); cbn [andb]; [|lia].
  replace (3 <=? row) with true by lia. replace (row <? h - 3) with true by lia. cbn [andb]. lia.
Qed.

Definition ppg_size (w h : nat) : Prop := h = 6 \/ (6 < h /\ 6 <= w).

Lemma border_plan_ok fuel w h rows : ppg_size w h -> w < fuel -> (forall r, In r rows -> r < h) ->
  exists plan, border_plan fuel w h rows = Some plan /\
    forall r q, In (r, q) plan <-> In r rows /\ q < w /\ inner w h r q = false.
Proof.
  intros HS HF. induction rows as [|row rows IH]; intros HR.
  - exists []. split; [reflexivity|]. cbn. tauto.
  - destruct IH as (plan & EP & IP); [intros; apply HR; now right|].
    assert (Hrow : row < h) by (apply HR; now left).
    assert (EC : exists cols, border_cols fuel w h row 0 = Some cols /\
                 forall q, In q cols <-> q < w /\ inner w h row q = false).
    { unfold ppg_size in HS.
      destruct (Nat.ltb_spec row 3) as [H1|H1]; [|destruct (Nat.ltb_spec row (h - 3)) as [H2|H2]].
      - rewrite border_cols_line by lia. eexists. split; [reflexivity|].
        intros q. rewrite in_seq. unfold inner. lia.
      - rewrite border_cols_jump by lia. eexists. split; [reflexivity|].
        intros q. rewrite in_app_iff, in_seq. unfold inner. cbn [In]. lia.
      - rewrite border_cols_line by lia. eexists. split; [reflexivity|].
        intros q. rewrite in_seq. unfold inner. lia. }
    destruct EC as (cols & EC & IC). cbn [border_plan]. rewrite EC, EP.
    eexists. split; [reflexivity|]. intros r q. rewrite in_app_iff, in_map_iff, IP. cbn [In].
    split.
    + intros [(x & [= <- <-] & Hx)|H]; [apply IC in Hx; tauto|tauto].
    + intros [[<-|Hr] H]; [left; exists q; split; [reflexivity|now apply IC]|tauto].
Qed.

Lemma border_plan_hang fuel w h rows row : In row rows -> 3 <= row -> row < h - 3 -> w = 4 \/ w = 5 ->
  border_plan fuel w h rows = None.
Proof.
  intros HI H1 H2 H3. induction rows as [|r rows IH]; [destruct HI|]. cbn [border_plan].
  destruct HI as [->|HI].
  - rewrite border_cols_hang by lia. reflexivity.
  - rewrite (IH HI). now destruct (border_cols fuel w h r 0).
Qed.

Section PPG.
Context {F : Type}.
Variable o : fops F.
Variables (w h : nat) (smp : nat -> nat -> F) (c : cfa).
Hypothesis HC3 : forall r q, chan c r q < 3.
Notation col := (chan c).
Notation z := (f_nat o 0).
Notation pat m r q ch := (nth (cell 3 w r q ch) m z).

(** ** The borders *)

Definition owns (m : list F) : Prop := forall r q, r < h -> q < w -> pat m r q (col r q) = smp r q.
Definition sel (ch : nat) (yx : nat * nat) : bool := (fst yx <? h) && (snd yx <? w) && (col (fst yx) (snd yx) =? ch).
Definition smps (l : list (nat * nat)) : list F := map (fun yx => smp (fst yx) (snd yx)) l.

Lemma sums_fold m l : length m = 3 * (w * h) -> owns m -> forall s, length s = 3 ->
  exists s', for_each l (fun yx sum =>
    let '(y, x) := yx in
    if (y <? h) && (x <? w) then
      let ch := col y x in
      do s <- get sum ch;
      do v <- get m (cell 3 w y x ch);
      put sum ch (f_add o (fst s) v, S (snd s))
    else Ok sum) s = Ok s' /\ length s' = 3 /\
    forall ch, ch < 3 -> nth ch s' (z, 0) =
      (fold_left (f_add o) (smps (filter (sel ch) l)) (fst (nth ch s (z, 0))), snd (nth ch s (z, 0)) + length (filter (sel ch) l)).
Proof.
  intros HL HO. induction l as [|[y x] l IH]; intros s Ls.
  - exists s. split; [reflexivity|]. split; [auto|]. intros ch Hch. cbn. rewrite Nat.add_0_r. now destruct (nth ch s (z, 0)).
  - cbn [for_each]. destruct ((y <? h) && (x <? w)) eqn:EB.
    + rewrite (get_ok s _ (z, 0)) by (rewrite Ls; apply HC3). cbn [bind].
      rewrite (get_ok m _ z) by (rewrite HL; apply cell_lt; [lia|lia|apply HC3]). cbn [bind].
      rewrite HO by lia. rewrite put_ok by (rewrite Ls; apply HC3). cbn [bind].
      destruct (IH (upd_list s (col y x) (f_add o (fst (nth (col y x) s (z, 0))) (smp y x), S (snd (nth (col y x) s (z, 0))))))
        as (s' & E & L' & N); [now rewrite upd_list_length|].
      exists s'. split; [exact E|]. split; [exact L'|]. intros ch Hch. rewrite N by auto.
      cbn [filter].
      replace (sel ch (y, x)) with (col y x =? ch) by (unfold sel; cbn [fst snd]; now rewrite EB).
      destruct (Nat.eqb_spec (col y x) ch) as [<-|NE].
      * rewrite nth_upd_eq by (rewrite Ls; apply HC3). cbn [fst snd smps map fold_left length]. apply f_equal. lia.
      * rewrite nth_upd_neq by auto. reflexivity.
    + cbn [bind]. destruct (IH s Ls) as (s' & E & L' & N). exists s'. split; [exact E|]. split; [exact L'|].
      intros ch Hch. rewrite N by auto. cbn [filter].
      replace (sel ch (y, x)) with false by (unfold sel; cbn [fst snd]; now rewrite EB). reflexivity.
Qed.

Lemma sel_square r q ch : filter (sel ch) (list_prod (around r) (around q)) = square w h col 1 r q ch.
Proof.
  rewrite square_window.
  transitivity (filter (fun yx => col (fst yx) (snd yx) =? ch)
    (filter (fun yx => ((0 <=? fst yx) && (fst yx <? h)) && ((0 <=? snd yx) && (snd yx <? w))) (list_prod (around r) (around q)))).
  - rewrite filter_filter. apply filter_ext. intros [y x]. reflexivity.
  - f_equal. rewrite (filter_prod (fun y => (0 <=? y) && (y <? h)) (fun x => (0 <=? x) && (x <? w))).
    unfold around. rewrite !filter_seq. rewrite !Nat.max_0_r. f_equal; f_equal; lia.
Qed.

Notation sm r q ch := (square_mean o w h smp col 1 r q ch).

(** the image after the pixels [V] were visited *)
Definition inv (V : list (nat * nat)) (m : list F) : Prop :=
  length m = 3 * (w * h) /\
  forall r q ch, r < h -> q < w -> ch < 3 ->
    (ch = col r q -> pat m r q ch = smp r q) /\
    (ch <> col r q -> (In (r, q) V -> pat m r q ch = sm r q ch) /\ (~ In (r, q) V -> pat m r q ch = z)).

Lemma in_dec_pos (p : nat * nat) V : {In p V} + {~ In p V}.
Proof. apply in_dec. decide equality; apply Nat.eq_dec. Qed.

Lemma border_px_ok V m r q : inv V m -> r < h -> q < w ->
  exists m', border_px o c w h (r, q) m = Ok m' /\ inv ((r, q) :: V) m'.
Proof.
  intros [HL HI] Hr Hq. unfold border_px, border_sums.
  assert (HO : owns m). { intros y x Hy Hx. apply (HI y x (col y x)); auto. }
  destruct (sums_fold m (list_prod (around r) (around q)) HL HO (repeat (z, 0) 3)) as (s & ES & Ls & NS); [reflexivity|].
  match goal with |- context [for_each ?l ?f (repeat (z, 0) 3)] => replace (for_each l f (repeat (z, 0) 3)) with (Ok s) by (symmetry; exact ES) end.
  cbn [bind].
  assert (NS' : forall ch, ch < 3 -> nth ch s (z, 0) = (fold_left (f_add o) (smps (square w h col 1 r q ch)) z, length (square w h col 1 r q ch))).
  { intros ch Hch. rewrite NS by auto. rewrite sel_square. rewrite nth_repeat_lt by auto. reflexivity. }
  assert (MEAN : forall ch, ch < 3 -> sm r q ch = if 0 <? snd (nth ch s (z, 0)) then f_div o (fst (nth ch s (z, 0))) (f_nat o (snd (nth ch s (z, 0)))) else z).
  { intros ch Hch. rewrite NS' by auto. cbn [fst snd]. unfold square_mean, mean. fold (smps (square w h col 1 r q ch)).
    replace (length (square w h col 1 r q ch)) with (length (smps (square w h col 1 r q ch))) by apply map_length.
    destruct (smps (square w h col 1 r q ch)); reflexivity. }
  destruct (for_each_seq_inv (fun color m =>
    do s <- get s color;
    if negb (color =? col r q) && (0 <? snd s)
    then put m (cell 3 w r q color) (f_div o (fst s) (f_nat o (snd s)))
    else Ok m)
    (fun n m' => length m' = 3 * (w * h) /\ forall r' q' ch, r' < h -> q' < w -> ch < 3 ->
       pat m' r' q' ch = if (r' =? r) && (q' =? q) && (ch <? n) && negb (ch =? col r q) && (0 <? snd (nth ch s (z, 0)))
                         then sm r q ch else pat m r' q' ch) 0 3 m) as (m' & E & L' & N).
  { split; [exact HL|]. intros r' q' ch _ _ _. replace (ch <? 0) with false by lia. now rewrite andb_false_r. }
  { intros n m1 Hn [L1 N1]. rewrite (get_ok s _ (z, 0)) by lia. cbn [bind].
    destruct (negb (n =? col r q) && (0 <? snd (nth n s (z, 0)))) eqn:EB.
    - rewrite put_ok by (rewrite L1; apply cell_lt; lia). eexists. split; [reflexivity|].
      split; [now rewrite upd_list_length|]. intros r' q' ch Hr' Hq' Hch.
      destruct (Nat.eq_dec (cell 3 w r q n) (cell 3 w r' q' ch)) as [EC|NC].
      + rewrite <- EC. rewrite nth_upd_eq by (rewrite L1; apply cell_lt; lia).
        apply cell_inj in EC as (<- & <- & <-); try lia. rewrite MEAN by lia.
        destruct (0 <? snd (nth n s (z, 0))); [|now rewrite andb_false_r in EB].
        replace ((r =? r) && (q =? q) && (n <? S n) && negb (n =? col r q) && true) with true; [reflexivity|].
        rewrite !Nat.eqb_refl. rewrite andb_true_r in EB. rewrite EB. lia.
      + rewrite nth_upd_neq by auto. rewrite N1 by auto.
        destruct (Nat.eqb_spec r' r), (Nat.eqb_spec q' q); cbn [andb]; try reflexivity. subst.
        assert (ch <> n) by congruence. replace (ch <? S n) with (ch <? n) by lia. reflexivity.
    - eexists. split; [reflexivity|]. split; [exact L1|]. intros r' q' ch Hr' Hq' Hch. rewrite N1 by auto.
      destruct (Nat.eqb_spec r' r), (Nat.eqb_spec q' q); cbn [andb]; try reflexivity. subst.
      destruct (Nat.eq_dec ch n) as [->|].
      + replace (n <? n) with false by lia. replace (n <? S n) with true by lia. cbn [andb]. now rewrite EB.
      + replace (ch <? S n) with (ch <? n) by lia. reflexivity. }
  exists m'. split; [exact E|]. split; [exact L'|]. intros r' q' ch Hr' Hq' Hch.
  rewrite N by auto. cbn [Nat.add]. replace (ch <? 3) with true by lia. rewrite andb_true_r.
  destruct (HI r' q' ch) as [I1 I2]; auto.
  destruct (Nat.eqb_spec r' r) as [->|]; cbn [andb].
  2:{ split; [exact I1|]. intros NE. split; [intros [[= -> ->]|Hin]; [lia|now apply I2]|].
      intros NI. apply I2; auto. intros ?. apply NI. now right. }
  destruct (Nat.eqb_spec q' q) as [->|]; cbn [andb].
  2:{ split; [exact I1|]. intros NE. split; [intros [[= ->]|Hin]; [lia|now apply I2]|].
      intros NI. apply I2; auto. intros ?. apply NI. now right. }
  destruct (Nat.eqb_spec ch (col r q)) as [->|NC]; cbn [negb andb].
  { split; [exact I1|]. congruence. }
  split; [congruence|]. intros _. split; [intros _|intros NI; exfalso; apply NI; now left].
  destruct (0 <? snd (nth ch s (z, 0))) eqn:EC; [reflexivity|].
  destruct (in_dec_pos (r, q) V); [now apply I2|].
  rewrite MEAN by auto. rewrite EC. now apply I2.
Qed.

Lemma borders_ok plan V m : inv V m -> (forall r q, In (r, q) plan -> r < h /\ q < w) ->
  exists m', for_each plan (border_px o c w h) m = Ok m' /\ inv (rev plan ++ V) m'.
Proof.
  revert V m. induction plan as [|[r q] plan IH]; intros V m HI HP; [exists m; split; [reflexivity|exact HI]|].
  destruct (HP r q) as [Hr Hq]; [now left|].
  destruct (border_px_ok V m r q HI Hr Hq) as (m1 & E1 & I1). cbn [for_each]. rewrite E1. cbn [bind].
  destruct (IH ((r, q) :: V) m1 I1) as (m' & E' & I'); [intros; apply HP; now right|].
  exists m'. split; [exact E'|]. cbn [rev]. now rewrite <- app_assoc.
Qed.

End PPG.

(** ** expand_bayer_rgb *)

Section Expand.
Context {F : Type}.
Variable o : fops F.
Notation z := (f_nat o 0).

Lemma expand_ok sched raw dw dh c0 c roi : cfa_shift c0 (r_x roi) (r_y roi) = Ok c -> (forall r q, chan c r q < 3) ->
  length raw = dw * dh -> r_x roi + r_w roi <= dw -> r_y roi + r_h roi <= dh -> 0 < r_w roi ->
  exists m, expand_bayer_rgb o sched raw dw c0 roi = Ok m /\ length m = 3 * (r_w roi * r_h roi) /\
    forall r q ch, r < r_h roi -> q < r_w roi -> ch < 3 ->
      nth (cell 3 (r_w roi) r q ch) m z =
      if ch =? chan c r q then nth ((r_y roi + r) * dw + (r_x roi + q)) raw z else z.
Proof.
  intros ES HC3 HL HX HY HW0. unfold expand_bayer_rgb. rewrite ES. cbn [bind].
  replace (0 <? r_w roi) with true by lia. cbn [assert_ bind].
  set (w := r_w roi) in *. set (h := r_h roi) in *.
  set (smp r q := nth ((r_y roi + r) * dw + (r_x roi + q)) raw z).
  set (ts := map _ _). set (m0 := repeat z _).
  assert (L0 : length m0 = 3 * (w * h)) by apply repeat_length.
  set (f := gval w (fun r q _ => smp r q)).
  assert (P : forall row cols, row < h -> (forall q, In q cols -> q < w) ->
     good z m0 (fun _ => True) f (fold_right (expand_px raw c w ((r_y roi + row) * dw + r_x roi) row) Done cols) /\
     puts z m0 (fold_right (expand_px raw c w ((r_y roi + row) * dw + r_x roi) row) Done cols)
       = map (fun q => cell 3 w row q (chan c row q)) cols).
  { intros row cols Hr. induction cols as [|q cols IH]; intros HQ; [split; [exact I|reflexivity]|].
    destruct IH as [IG IP]; [intros; apply HQ; now right|].
    assert (Hq : q < w) by (apply HQ; now left).
    cbn [fold_right]. set (k := fold_right _ _ cols) in *. unfold expand_px.
    assert (LT : (r_y roi + row) * dw + r_x roi + q < length raw) by (rewrite HL; nia).
    rewrite (nth_error_nth' raw _ z LT). replace (chan c row q <? 3) with true by (specialize (HC3 row q); lia).
    cbn [good puts map]. split; [|now rewrite IP].
    split; [rewrite L0; apply cell_lt; auto|]. split; [exact I|]. split; [|exact IG].
    unfold f. rewrite gval_cell by auto. unfold smp. f_equal. lia. }
  assert (TG : forall row, row < h -> good z m0 (fun _ => True) f (expand_row raw dw c roi row) /\
     puts z m0 (expand_row raw dw c roi row) = map (fun q => cell 3 w row q (chan c row q)) (seq 0 w)).
  { intros row Hr. unfold expand_row. fold w.
    replace ((r_y roi + row) * dw + r_x roi + w <=? length raw) with true.
    - apply P; [exact Hr|]. intros q. rewrite in_seq. lia.
    - symmetry. apply Nat.leb_le. rewrite HL. nia. }
  destruct (par_loop_ok z m0 (fun _ => True) f ts sched) as (m & E & L & IW & OW).
  { apply Forall_forall. intros p Hp. apply in_map_iff in Hp as (row & <- & Hr). apply in_seq in Hr. apply TG. lia. }
  exists m. split; [exact E|]. split; [congruence|]. intros r q ch Hr Hq Hch.
  destruct (Nat.eqb_spec ch (chan c r q)) as [->|NE].
  - rewrite IW; [unfold f; now rewrite gval_cell by auto|].
    exists (expand_row raw dw c roi r). split; [apply in_map; apply in_seq; lia|].
    destruct (TG r Hr) as [_ ->]. apply in_map_iff. exists q. split; [reflexivity|apply in_seq; lia].
  - rewrite OW.
    + unfold m0. apply nth_repeat_lt. apply cell_lt; auto.
    + intros (p & Hp & Hi). apply in_map_iff in Hp as (row & <- & Hrow). apply in_seq in Hrow.
      destruct (TG row) as [_ EP]; [lia|]. rewrite EP in Hi. apply in_map_iff in Hi as (x & EC & Hx). apply in_seq in Hx.
      apply cell_inj in EC as (E1 & E2 & E3); auto; [subst; now apply NE|lia].
Qed.

(** ** The spec only looks at the colour function pointwise *)

Variables (w h : nat) (smp : nat -> nat -> F) (col col' : nat -> nat -> nat).
Hypothesis HE : forall r q, col r q = col' r q.

Lemma square_mean_ext k r c ch : square_mean o w h smp col k r c ch = square_mean o w h smp col' k r c ch.
Proof.
  unfold square_mean, square. f_equal. f_equal. apply filter_ext. intros [y x]. now rewrite HE.
Qed.
Lemma ppg_green_ext r c : ppg_green o w h smp col r c = ppg_green o w h smp col' r c.
Proof. unfold ppg_green. now rewrite HE, square_mean_ext. Qed.
Lemma ppg_at_ext r c ch : ppg_at o w h smp col r c ch = ppg_at o w h smp col' r c ch.
Proof. unfold ppg_at, ppg_diag. now rewrite !HE, !ppg_green_ext, square_mean_ext. Qed.

End Expand.

(** ** PPG *)

Section Top.
Context {F : Type}.
Variable o : fops F.
Notation z := (f_nat o 0).

Lemma ppg_spec fuel s0 s1 s2 s3 raw dw dh name c0 roi :
  In name bayer_names -> cfa_new name = Ok c0 ->
  length raw = dw * dh -> r_x roi + r_w roi <= dw -> r_y roi + r_h roi <= dh -> 0 < r_w roi ->
  ppg_size (r_w roi) (r_h roi) -> r_w roi < fuel ->
  exists out, ppg o fuel s0 s1 s2 s3 raw dw c0 roi = Some (Ok out) /\ length out = 3 * (r_w roi * r_h roi) /\
    forall r q ch, r < r_h roi -> q < r_w roi -> ch < 3 ->
      nth (3 * (r * r_w roi + q) + ch) out z =
      ppg_at o (r_w roi) (r_h roi)
        (fun r q => nth ((r_y roi + r) * dw + (r_x roi + q)) raw z)
        (fun r q => sensor_color name (r_y roi + r) (r_x roi + q)) r q ch.
Proof.
  intros HN EN HL HX HY HW0 HS HF.
  destruct (chan_shift name c0 (r_x roi) (r_y roi) HN EN) as (RGB & c & ES & HC).
  destruct (bayer_quad name (r_x roi) (r_y roi) HN) as (t & HT & HTC).
  assert (HC' : forall r q, chan c r q = t (Nat.odd r) (Nat.odd q)) by (intros; now rewrite HC, HTC).
  assert (HC3 : forall r q, chan c r q < 3) by (intros; rewrite HC'; apply HT).
  unfold ppg. rewrite RGB. cbn [negb]. rewrite ES.
  destruct (expand_ok o s0 raw dw dh c0 c roi ES HC3 HL HX HY HW0) as (m0 & E0 & L0 & N0). rewrite E0.
  set (w := r_w roi) in *. set (h := r_h roi) in *.
  set (smp := fun r q => nth ((r_y roi + r) * dw + (r_x roi + q)) raw z) in *.
  destruct (border_plan_ok fuel w h (seq 0 h) HS HF) as (plan & EP & IP); [intros r Hr; apply in_seq in Hr; lia|].
  rewrite EP.
  destruct (borders_ok o w h smp c HC3 plan [] m0) as (m1 & E1 & I1).
  { split; [exact L0|]. intros r q ch Hr Hq Hch. rewrite N0 by auto. split.
    - intros ->. now rewrite Nat.eqb_refl.
    - intros NE. destruct (Nat.eqb_spec ch (chan c r q)); [lia|]. cbn. tauto. }
  { intros r q Hrq. apply IP in Hrq as (Hr & Hq & _). apply in_seq in Hr. lia. }
  rewrite app_nil_r in I1. destruct I1 as [L1 I1]. rewrite E1. cbn [bind].
  assert (N1 : forall r q ch, r < h -> q < w -> ch < 3 -> nth (cell 3 w r q ch) m1 z =
     if ch =? chan c r q then smp r q else if inner w h r q then z else square_mean o w h smp (chan c) 1 r q ch).
  { intros r q ch Hr Hq Hch. destruct (I1 r q ch Hr Hq Hch) as [A B].
    destruct (Nat.eqb_spec ch (chan c r q)); [auto|]. specialize (B n) as [B1 B2].
    destruct (inner w h r q) eqn:EI.
    - apply B2. rewrite <- in_rev. rewrite IP. intros (_ & _ & ?). congruence.
    - apply B1. rewrite <- in_rev. rewrite IP. split; [apply in_seq; lia|auto]. }
  destruct (green_pass o w h c t HT HC' m1 L1 HS s1) as (m2 & E2 & L2 & N2). rewrite E2. cbn [bind].
  rewrite L1 in L2.
  destruct (rbg_pass o w h c t HT HC' m2 L2 HS s2) as (m3 & E3 & L3 & N3). rewrite E3. cbn [bind].
  rewrite L2 in L3.
  destruct (rbx_pass o w h c t HT HC' m3 L3 HS s3) as (m4 & E4 & L4 & N4). rewrite E4.
  exists m4. split; [reflexivity|]. split; [congruence|].
  intros r q ch Hr Hq Hch. change (3 * (r * w + q) + ch) with (cell 3 w r q ch).
  rewrite <- (ppg_at_ext o w h smp (chan c) _ HC).
  (* own samples in every pass *)
  assert (O1 : forall r q, r < h -> q < w -> nth (cell 3 w r q (chan c r q)) m1 z = smp r q).
  { intros y x Hy Hx. rewrite N1 by auto. now rewrite Nat.eqb_refl. }
  assert (O2 : forall r q, r < h -> q < w -> nth (cell 3 w r q (chan c r q)) m2 z = smp r q).
  { intros y x Hy Hx. rewrite N2 by auto.
    replace (negb (chan c y x =? 1) && (chan c y x =? 1)) with false by lia. rewrite andb_false_r. auto. }
  assert (O3 : forall r q, r < h -> q < w -> nth (cell 3 w r q (chan c r q)) m3 z = smp r q).
  { intros y x Hy Hx. rewrite N3 by auto.
    replace ((chan c y x =? 1) && negb (chan c y x =? 1)) with false by lia. rewrite andb_false_r. auto. }
  assert (GG1 : forall y x, inner w h y x = true -> chan c y x <> 1 ->
     G1 o w c m1 y x 1 = ppg_green o w h smp (chan c) y x).
  { intros y x HI HN1. pose proof HI as HI'. apply inner_lt in HI'.
    assert (N : t (Nat.odd y) (Nat.odd x) <> 1) by (now rewrite <- HC').
    pose proof HT as (_ & HQ & _). specialize (HQ _ _ N). destruct HQ as (X1 & X2 & X3 & X4).
    unfold ppg_green. destruct (Nat.eqb_spec (chan c y x) 1); [lia|]. rewrite HI. unfold G1.
    assert (A : forall y' x', y' < h -> x' < w -> chan c y' x' = 1 -> nth (cell 3 w y' x' 1) m1 z = smp y' x').
    { intros y' x' Hy Hx E. rewrite <- (O1 y' x') by auto. now rewrite E. }
    assert (B : forall y' x', y' < h -> x' < w -> chan c y' x' = chan c y x -> nth (cell 3 w y' x' (chan c y x)) m1 z = smp y' x').
    { intros y' x' Hy Hx E. rewrite <- (O1 y' x') by auto. now rewrite E. }
    rewrite !A, !B; try lia;
      try (rewrite !HC', ?odd_succ1, ?odd_succ2, ?odd_pred, ?odd_pred2 by lia; auto).
    reflexivity. }
  assert (GR2 : forall y x, y < h -> x < w -> nth (cell 3 w y x 1) m2 z = ppg_green o w h smp (chan c) y x).
  { intros y x Hy Hx. destruct (Nat.eq_dec (chan c y x) 1) as [E|NE].
    - transitivity (nth (cell 3 w y x (chan c y x)) m2 z); [now rewrite E|]. rewrite O2 by auto. unfold ppg_green. now rewrite E.
    - rewrite N2 by lia. replace (negb (chan c y x =? 1) && (1 =? 1)) with true by lia. rewrite andb_true_r.
      destruct (inner w h y x) eqn:EI; [now apply GG1|].
      rewrite N1 by lia. replace (1 =? chan c y x) with false by lia. rewrite EI. unfold ppg_green.
      replace (chan c y x =? 1) with false by lia. now rewrite EI. }
  assert (GR3 : forall y x, y < h -> x < w -> nth (cell 3 w y x 1) m3 z = ppg_green o w h smp (chan c) y x).
  { intros y x Hy Hx. rewrite N3 by lia. replace (negb (1 =? 1)) with false by reflexivity.
    rewrite !andb_false_r. now apply GR2. }
  rewrite N4 by auto. unfold ppg_at.
  destruct (Nat.eqb_spec ch (chan c r q)) as [->|NCH].
  { replace (negb (chan c r q =? 1) && (negb (chan c r q =? 1) && negb true)) with false by lia.
    rewrite andb_false_r. auto. }
  destruct (inner w h r q) eqn:EI; cbn [negb andb].
  2:{ rewrite N3 by auto. rewrite EI. cbn [andb]. rewrite N2 by auto. rewrite EI. cbn [andb]. rewrite N1 by auto.
      destruct (Nat.eqb_spec ch (chan c r q)); [lia|]. now rewrite EI. }
  pose proof EI as HI'. apply inner_lt in HI'.
  destruct (Nat.eqb_spec ch 1) as [->|NC1].
  { cbn [negb andb]. rewrite andb_false_r. now apply GR3. }
  cbn [negb andb]. rewrite andb_true_r.
  destruct (Nat.eqb_spec (chan c r q) 1) as [E1c|NE1]; cbn [negb].
  - (* green pixel *)
    rewrite N3 by auto. rewrite EI, E1c. replace ((1 =? 1) && negb (ch =? 1)) with true by lia. cbn [andb].
    assert (N : t (Nat.odd r) (Nat.odd q) = 1) by (now rewrite <- HC').
    pose proof HT as (_ & _ & HQ). specialize (HQ _ _ N). destruct HQ as (X1 & X2 & X3 & X4).
    assert (SX : nth (cell 3 w r q 1) m2 z = smp r q) by (rewrite <- (O2 r q) by auto; now rewrite E1c).
    unfold G2. destruct (Nat.eqb_spec ch (chan c r (q + 1))) as [EH|NH].
    + rewrite SX, !GR2 by lia.
      assert (B : forall y' x', y' < h -> x' < w -> chan c y' x' = ch -> nth (cell 3 w y' x' ch) m2 z = smp y' x').
      { intros y' x' Hy Hx E. rewrite <- (O2 y' x') by auto. now rewrite E. }
      rewrite !B; try lia; [reflexivity|]. rewrite EH, !HC', ?odd_succ1, ?odd_pred by lia. reflexivity.
    + rewrite SX, !GR2 by lia.
      assert (EV : ch = chan c (r + 1) q).
      { revert NH X1 X2 X3. pose proof (HC3 (r + 1) q) as K1. pose proof (HC3 r (q + 1)) as K2. revert K1 K2.
        rewrite !HC', ?odd_succ1 by lia. lia. }
      assert (B : forall y' x', y' < h -> x' < w -> chan c y' x' = ch -> nth (cell 3 w y' x' ch) m2 z = smp y' x').
      { intros y' x' Hy Hx E. rewrite <- (O2 y' x') by auto. now rewrite E. }
      rewrite !B; try lia; [reflexivity|]. rewrite EV, !HC', ?odd_succ1, ?odd_pred by lia. reflexivity.
  - (* red or blue pixel *)
    assert (N : t (Nat.odd r) (Nat.odd q) <> 1) by (now rewrite <- HC').
    pose proof HT as (_ & HQ & _). specialize (HQ _ _ N). destruct HQ as (X1 & X2 & X3 & X4).
    assert (ED : ch = t (negb (Nat.odd r)) (negb (Nat.odd q))).
    { clear - NCH NC1 NE1 X3 X4 Hch HC' HC3. pose proof (HC3 r q). rewrite HC' in *. lia. }
    assert (B : forall y' x', y' < h -> x' < w -> chan c y' x' = ch -> nth (cell 3 w y' x' ch) m3 z = smp y' x').
    { intros y' x' Hy Hx E. rewrite <- (O3 y' x') by auto. now rewrite E. }
    assert (A : forall y' x', y' < h -> x' < w -> chan c y' x' = chan c r q -> nth (cell 3 w y' x' (chan c r q)) m3 z = smp y' x').
    { intros y' x' Hy Hx E. rewrite <- (O3 y' x') by auto. now rewrite E. }
    unfold G3, ppg_diag. rewrite !GR3 by lia. rewrite !B, !A; try lia;
      try (rewrite ?ED, !HC', ?odd_succ1, ?odd_succ2, ?odd_pred, ?odd_pred2 by lia; auto).
    reflexivity.
Qed.

End Top.
