(** PPG demosaicing. *)
From Coq Require Import List ZArith Lia Bool.
From Coq Require Import ZifyBool ZifyNat.
From Verif Require Import Base BaseLemmas Share ShareProofs Tiles Geom Cfa CfaProofs Demosaic DemosaicSpec.
Import ListNotations.
Open Scope nat_scope.

(** ** Cells *)

Lemma cell_dec n w r c ch : c < w -> ch < n ->
  cell n w r c ch / n / w = r /\ (cell n w r c ch / n) mod w = c /\ cell n w r c ch mod n = ch.
Proof.
  intros Hc Hch. unfold cell.
  assert (E : (n * (r * w + c) + ch) / n = r * w + c).
  { rewrite (Nat.mul_comm n), Nat.div_add_l by lia. rewrite Nat.div_small by lia. lia. }
  rewrite E. rewrite Nat.div_add_l by lia. rewrite (Nat.div_small c w) by lia.
  replace ((r * w + c) mod w) with c.
  2:{ rewrite Nat.add_comm, Nat.mod_add by lia. now rewrite Nat.mod_small. }
  replace ((n * (r * w + c) + ch) mod n) with ch.
  2:{ rewrite Nat.add_comm, Nat.mul_comm, Nat.mod_add by lia. now rewrite Nat.mod_small. }
  lia.
Qed.

Lemma cell_inj n w r c ch r' c' ch' : c < w -> ch < n -> c' < w -> ch' < n ->
  cell n w r c ch = cell n w r' c' ch' -> r = r' /\ c = c' /\ ch = ch'.
Proof.
  intros. destruct (cell_dec n w r c ch) as (A & B & C); auto.
  destruct (cell_dec n w r' c' ch') as (A' & B' & C'); auto. rewrite H3 in *. lia.
Qed.

Lemma cell_lt n w h r c ch : r < h -> c < w -> ch < n -> cell n w r c ch < n * (w * h).
Proof. intros. unfold cell. assert (r * w + c < w * h) by nia. nia. Qed.

Lemma cell_surj n w h i : i < n * (w * h) -> exists r c ch, i = cell n w r c ch /\ r < h /\ c < w /\ ch < n.
Proof.
  intros Hi. assert (n <> 0) by lia. assert (w <> 0) by (intros ->; lia).
  exists (i / n / w), ((i / n) mod w), (i mod n). unfold cell.
  pose proof (Nat.div_mod i n H). pose proof (Nat.div_mod (i / n) w H0).
  pose proof (Nat.mod_upper_bound i n H). pose proof (Nat.mod_upper_bound (i / n) w H0).
  repeat split; auto.
  - rewrite (Nat.mul_comm (i / n / w)). rewrite <- H2. exact H1.
  - apply Nat.div_lt_upper_bound; [auto|]. apply Nat.div_lt_upper_bound; [auto|]. lia.
Qed.

(** ** Colours *)

(** a Bayer pattern as a function of the two parities *)
Definition quad_ok (t : bool -> bool -> nat) : Prop :=
  (forall a b, t a b < 3) /\
  (forall a b, t a b <> 1 -> t (negb a) b = 1 /\ t a (negb b) = 1 /\ t (negb a) (negb b) + t a b = 2 /\ t (negb a) (negb b) <> 1) /\
  (forall a b, t a b = 1 -> t (negb a) b <> 1 /\ t a (negb b) <> 1 /\ t (negb a) b + t a (negb b) = 2 /\ t (negb a) (negb b) = 1).

Lemma sensor_color_odd name y x : sensor_color name y x =
  (fun a b : bool => let ch := nth ((if a then 2 else 0) + if b then 1 else 0) name 0%Z in
     if (ch =? 82)%Z then 0 else if (ch =? 71)%Z then 1 else 2) (Nat.odd y) (Nat.odd x).
Proof.
  unfold sensor_color. rewrite <- !Nat.bit0_mod, !Nat.bit0_odd.
  destruct (Nat.odd y), (Nat.odd x); reflexivity.
Qed.

Lemma bayer_quad name ox oy : In name bayer_names ->
  exists t, quad_ok t /\ forall r c, sensor_color name (oy + r) (ox + c) = t (Nat.odd r) (Nat.odd c).
Proof.
  intros H.
  exists (fun a b => (fun a b : bool => let ch := nth ((if a then 2 else 0) + if b then 1 else 0) name 0%Z in
     if (ch =? 82)%Z then 0 else if (ch =? 71)%Z then 1 else 2) (xorb (Nat.odd oy) a) (xorb (Nat.odd ox) b)).
  split.
  - cbn in H. destruct H as [<-|[<-|[<-|[<-|[]]]]]; unfold quad_ok;
      (split; [|split]); intros a b; destruct a, b, (Nat.odd oy), (Nat.odd ox); cbn; lia.
  - intros r c. rewrite sensor_color_odd. now rewrite !Nat.odd_add.
Qed.

Lemma chan_shift name c0 x y : In name bayer_names -> cfa_new name = Ok c0 ->
  is_rgb c0 = true /\ exists c, cfa_shift c0 x y = Ok c /\ forall r q, chan c r q = sensor_color name (y + r) (x + q).
Proof.
  intros HN E.
  assert (D : cfa_dims (length name) = Ok (2, 2)) by (cbn in HN; destruct HN as [<-|[<-|[<-|[<-|[]]]]]; reflexivity).
  destruct (cfa_new_ok name 2 2 D) as (c1 & E1 & NM & W & H & WF & CA); [lia| |].
  { intros ch Hch. cbn in HN. destruct HN as [<-|[<-|[<-|[<-|[]]]]]; cbn in Hch;
      repeat (destruct Hch as [<-|Hch]; [eexists; reflexivity|]); destruct Hch. }
  rewrite E in E1. injection E1 as <-. split.
  - unfold is_rgb. rewrite NM. cbn in HN. destruct HN as [<-|[<-|[<-|[<-|[]]]]]; reflexivity.
  - destruct (cfa_shift_ok c0 x y WF) as (c & Es & _ & _ & _ & _ & CS). exists c. split; [exact Es|].
    intros r q. unfold chan, sensor_color. rewrite CS. specialize (CA (r + y) (q + x)).
    rewrite (Nat.add_comm y r), (Nat.add_comm x q), (Nat.mul_comm 2).
    set (k := (r + y) mod 2 * 2 + (q + x) mod 2) in *.
    assert (k < 4). { pose proof (Nat.mod_upper_bound (r + y) 2). pose proof (Nat.mod_upper_bound (q + x) 2). lia. }
    clearbody k.
    cbn in HN. destruct HN as [<-|[<-|[<-|[<-|[]]]]]; destruct k as [|[|[|[|]]]]; try lia;
      cbn in CA |- *; injection CA as ->; reflexivity.
Qed.

(** ** Windows *)

Lemma filter_seq lo hi a n : filter (fun y => (lo <=? y) && (y <? hi)) (seq a n)
  = seq (Nat.max a lo) (Nat.min (a + n) hi - Nat.max a lo).
Proof.
  induction n as [|n IH].
  - replace (Nat.min (a + 0) hi - Nat.max a lo) with 0 by lia. reflexivity.
  - rewrite seq_S, filter_app, IH. cbn [filter].
    destruct ((lo <=? a + n) && (a + n <? hi)) eqn:E.
    + replace (Nat.min (a + S n) hi - Nat.max a lo) with (S (Nat.min (a + n) hi - Nat.max a lo)) by lia.
      rewrite seq_S. f_equal. f_equal. lia.
    + rewrite app_nil_r. f_equal. lia.
Qed.

Lemma filter_prod {A B} (p : A -> bool) (q : B -> bool) l l' :
  filter (fun ab => p (fst ab) && q (snd ab)) (list_prod l l') = list_prod (filter p l) (filter q l').
Proof.
  induction l as [|a l IH]; cbn; [reflexivity|]. rewrite filter_app, IH.
  destruct (p a) eqn:E; cbn.
  - f_equal. clear IH. induction l' as [|b l' IH']; cbn; [reflexivity|]. rewrite E. cbn. destruct (q b); cbn; now rewrite IH'.
  - replace (filter _ (map _ l')) with (@nil (A * B)); [reflexivity|].
    clear IH.
    induction l' as [|b l' IH']; cbn; [reflexivity|]. rewrite E. exact IH'.
Qed.

Lemma filter_filter {A} (p q : A -> bool) l : filter p (filter q l) = filter (fun a => q a && p a) l.
Proof.
  induction l as [|a l IH]; cbn; [reflexivity|]. destruct (q a); cbn; [destruct (p a); cbn; now rewrite IH|exact IH].
Qed.

(** the visited part of a window of radius [k] *)
Lemma square_window w h col k r c ch :
  square w h col k r c ch =
  filter (fun yx => col (fst yx) (snd yx) =? ch)
    (list_prod (seq (r - k) (Nat.min h (S (r + k)) - (r - k))) (seq (c - k) (Nat.min w (S (c + k)) - (c - k)))).
Proof.
  unfold square.
  transitivity (filter (fun yx => col (fst yx) (snd yx) =? ch)
    (filter (fun yx => ((r - k <=? fst yx) && (fst yx <? S (r + k))) && ((c - k <=? snd yx) && (snd yx <? S (c + k))))
      (list_prod (seq 0 h) (seq 0 w)))).
  - rewrite filter_filter. apply filter_ext. intros [y x]. cbn [fst snd].
    destruct (col y x =? ch); rewrite ?andb_true_r, ?andb_false_r; [|reflexivity]. lia.
  - f_equal. rewrite (filter_prod (fun y => (r - k <=? y) && (y <? S (r + k))) (fun x => (c - k <=? x) && (x <? S (c + k)))).
    rewrite !filter_seq. cbn [Nat.add]. rewrite !Nat.max_0_l. reflexivity.
Qed.

Section PPG.
Context {F : Type}.
Variable o : fops F.
Variables (w h : nat).
Notation z := (f_nat o 0).
Notation pat m r q ch := (nth (cell 3 w r q ch) m z).

Lemma odd_pred n : 1 <= n -> Nat.odd (n - 1) = negb (Nat.odd n).
Proof. intros. destruct n; [lia|]. cbn. rewrite Nat.sub_0_r. rewrite Nat.odd_succ, <- Nat.negb_odd. now rewrite negb_involutive. Qed.
Lemma odd_pred2 n : 2 <= n -> Nat.odd (n - 2) = Nat.odd n.
Proof. intros. replace n with (S (S (n - 2))) at 2 by lia. reflexivity. Qed.
Lemma odd_succ1 n : Nat.odd (n + 1) = negb (Nat.odd n).
Proof. rewrite Nat.add_1_r, Nat.odd_succ, <- Nat.negb_odd. reflexivity. Qed.
Lemma odd_succ2 n : Nat.odd (n + 2) = Nat.odd n.
Proof. rewrite Nat.add_comm. reflexivity. Qed.

Lemma inner_lt r q : inner w h r q = true <-> 3 <= r /\ r + 3 < h /\ 3 <= q /\ q + 3 < w.
Proof. unfold inner. lia. Qed.

Lemma puts_rd m r q ch k : r < h -> q < w -> ch < 3 -> puts z m (rd w h r q ch k) = puts z m (k (pat m r q ch)).
Proof. intros. unfold rd. replace ((r <? h) && (q <? w) && (ch <? 3)) with true by lia. reflexivity. Qed.
Lemma puts_wr m r q ch v k : r < h -> q < w -> ch < 3 -> puts z m (wr w h r q ch v k) = cell 3 w r q ch :: puts z m k.
Proof. intros. unfold wr. replace ((r <? h) && (q <? w) && (ch <? 3)) with true by lia. reflexivity. Qed.

(** *** The parallel passes *)

(** the channels a pass writes at a pixel, with their values *)
Variable ws : nat -> nat -> list nat.
Variable G : nat -> nat -> nat -> F.

Definition wset (i : nat) : Prop := exists r q ch, inner w h r q = true /\ In ch (ws r q) /\ i = cell 3 w r q ch.
Definition gval (i : nat) : F := G (i / 3 / w) ((i / 3) mod w) (i mod 3).

Lemma gval_cell r q ch : q < w -> ch < 3 -> gval (cell 3 w r q ch) = G r q ch.
Proof. intros. unfold gval. destruct (cell_dec 3 w r q ch) as (-> & -> & ->); auto. Qed.

Lemma pass_ok (px : nat -> nat -> prog F -> prog F) m sched : length m = 3 * (w * h) -> h = 6 \/ (6 < h /\ 6 <= w) ->
  (forall r q, inner w h r q = true ->
    (forall ch, In ch (ws r q) -> ch < 3) /\
    forall k, (good z m wset gval k -> good z m wset gval (px r q k)) /\
              puts z m (px r q k) = map (cell 3 w r q) (ws r q) ++ puts z m k) ->
  exists m', pass px w h sched m = Ok m' /\ length m' = length m /\
    forall r q ch, r < h -> q < w -> ch < 3 ->
      pat m' r q ch = if inner w h r q && existsb (Nat.eqb ch) (ws r q) then G r q ch else pat m r q ch.
Proof.
  intros HL HD HP. unfold pass. rewrite usub_ok by lia. cbn [bind].
  set (ts := map _ _).
  assert (P : forall row cols k, (forall q, In q cols -> inner w h row q = true) -> good z m wset gval k ->
     good z m wset gval (fold_right (px row) k cols) /\
     puts z m (fold_right (px row) k cols) = flat_map (fun q => map (cell 3 w row q) (ws row q)) cols ++ puts z m k).
  { intros row cols k. induction cols as [|q cols IH]; intros HI Hk; [split; [exact Hk|reflexivity]|].
    cbn. destruct IH as [IG IP]; [intros; apply HI; now right|exact Hk|].
    destruct (HP row q) as [_ Hk']; [apply HI; now left|]. destruct (Hk' (fold_right (px row) k cols)) as [A B].
    split; [auto|]. rewrite B, IP. now rewrite app_assoc. }
  assert (IN : forall row q, In row (seq 3 (h - 6)) -> In q (seq 3 (w - 6)) -> inner w h row q = true).
  { intros row q. rewrite !in_seq, inner_lt. lia. }
  assert (TG : forall p, In p ts -> good z m wset gval p /\
     exists row, In row (seq 3 (h - 6)) /\ puts z m p = flat_map (fun q => map (cell 3 w row q) (ws row q)) (seq 3 (w - 6))).
  { intros p Hp. apply in_map_iff in Hp as (row & <- & Hr).
    assert (6 <= w) by (apply in_seq in Hr; lia).
    replace (6 <=? w) with true by lia.
    destruct (P row (seq 3 (w - 6)) Done) as [A B]; [intros; now apply IN|exact I|].
    split; [exact A|]. exists row. split; [exact Hr|]. rewrite B. now rewrite app_nil_r. }
  destruct (par_loop_ok z m wset gval ts sched) as (m' & E & L & IW & OW).
  { apply Forall_forall. intros p Hp. now apply TG. }
  exists m'. split; [exact E|]. split; [exact L|].
  assert (PW : forall i, (exists p, In p ts /\ In i (puts z m p)) <-> wset i).
  { intros i. split.
    - intros (p & Hp & Hi). destruct (TG p Hp) as (_ & row & Hr & EP). rewrite EP in Hi.
      apply in_flat_map in Hi as (q & Hq & Hi). apply in_map_iff in Hi as (ch & <- & Hch).
      exists row, q, ch. auto.
    - intros (r & q & ch & HI & Hch & ->).
      pose proof HI as HI'. apply inner_lt in HI'.
      exists (if 6 <=? w then fold_right (px r) Done (seq 3 (w - 6)) else Crash). split.
      + unfold ts. apply in_map_iff. exists r. split; [reflexivity|]. apply in_seq. lia.
      + replace (6 <=? w) with true by lia.
        destruct (P r (seq 3 (w - 6)) Done) as [A B]; [|exact I|].
        { intros x Hx. apply IN; [apply in_seq; lia|exact Hx]. }
        rewrite B, app_nil_r. apply in_flat_map. exists q. split; [apply in_seq; lia|]. now apply in_map. }
  intros r q ch Hr Hq Hch.
  destruct (inner w h r q && existsb (Nat.eqb ch) (ws r q)) eqn:EB.
  - apply andb_prop in EB as [EI EX]. apply existsb_exists in EX as (x & Hx & ->%Nat.eqb_eq).
    rewrite IW; [now apply gval_cell|]. apply PW. exists r, q, x. auto.
  - apply OW. rewrite PW. intros (r' & q' & ch' & HI & Hc' & EC).
    assert (q' < w) by (apply inner_lt in HI; lia).
    destruct (HP r' q' HI) as [LT _]. specialize (LT ch' Hc').
    apply cell_inj in EC as (-> & -> & ->); auto. rewrite HI in EB. cbn in EB.
    assert (existsb (Nat.eqb ch') (ws r' q') = true) by (apply existsb_exists; exists ch'; split; [auto|apply Nat.eqb_refl]).
    congruence.
Qed.

Lemma not_w r q ch : q < w -> ch < 3 -> (forall r q ch, inner w h r q = true -> In ch (ws r q) -> ch < 3) ->
  (inner w h r q = true -> ~ In ch (ws r q)) -> ~ wset (cell 3 w r q ch).
Proof.
  intros Hq Hch HW H (r' & q' & ch' & HI & Hc & E). pose proof HI as HI'. apply inner_lt in HI'.
  apply cell_inj in E as (-> & -> & ->); try lia; [now apply H|]. eapply HW; eauto.
Qed.

Variable m : list F.
Hypothesis HL : length m = 3 * (w * h).
Hypothesis HW : forall r q ch, inner w h r q = true -> In ch (ws r q) -> ch < 3.

Lemma good_rd r q ch k : r < h -> q < w -> ch < 3 -> (inner w h r q = true -> ~ In ch (ws r q)) ->
  good z m wset gval (k (pat m r q ch)) -> good z m wset gval (rd w h r q ch k).
Proof.
  intros Hr Hq Hch HN Hk. unfold rd. replace ((r <? h) && (q <? w) && (ch <? 3)) with true by lia.
  cbn [good]. split; [rewrite HL; now apply cell_lt|]. split; [now apply not_w|exact Hk].
Qed.
Lemma good_wr r q ch v k : inner w h r q = true -> In ch (ws r q) -> v = G r q ch ->
  good z m wset gval k -> good z m wset gval (wr w h r q ch v k).
Proof.
  intros HI Hc -> Hk. pose proof HI as HI'. apply inner_lt in HI'. pose proof (HW _ _ _ HI Hc).
  unfold wr. replace ((r <? h) && (q <? w) && (ch <? 3)) with true by lia. cbn [good].
  split; [rewrite HL; apply cell_lt; lia|]. split; [now exists r, q, ch|]. split; [|exact Hk].
  now rewrite gval_cell by lia.
Qed.

End PPG.

Section Passes.
Context {F : Type}.
Variable o : fops F.
Variables (w h : nat) (c : cfa) (t : bool -> bool -> nat).
Hypothesis HT : quad_ok t.
Hypothesis HC : forall r q, chan c r q = t (Nat.odd r) (Nat.odd q).
Notation col := (chan c).
Notation z := (f_nat o 0).
Notation pat m r q ch := (nth (cell 3 w r q ch) m z).

Lemma col_lt r q : col r q < 3. Proof. rewrite HC. apply HT. Qed.

Ltac par := rewrite ?HC, ?odd_succ1, ?odd_succ2, ?odd_pred, ?odd_pred2 by lia.
Variable m : list F.
Hypothesis HL : length m = 3 * (w * h).
Hypothesis HD : h = 6 \/ (6 < h /\ 6 <= w).

(** *** green at red and blue *)

Definition ws1 (r q : nat) : list nat := if col r q =? 1 then [] else [1].
Definition G1 (r q ch : nat) : F :=
  let x := col r q in
  green_value o (pat m r q x) (pat m (r - 1) q 1) (pat m (r - 2) q x) (pat m r (q + 1) 1) (pat m r (q + 2) x)
    (pat m (r + 1) q 1) (pat m (r + 2) q x) (pat m r (q - 1) 1) (pat m r (q - 2) x).

Lemma ws1_lt r q ch : In ch (ws1 r q) -> ch < 3.
Proof. unfold ws1. destruct (col r q =? 1); [intros []|intros [<-|[]]; lia]. Qed.

(** a channel not written at a pixel *)
Lemma ws1_no r q ch : ch <> 1 \/ col r q = 1 -> ~ In ch (ws1 r q).
Proof. unfold ws1. destruct (Nat.eqb_spec (col r q) 1); [intros _ []|intros H [<-|[]]; lia]. Qed.

Lemma green_pass sched : exists m', pass (green_px o c w h) w h sched m = Ok m' /\ length m' = length m /\
  forall r q ch, r < h -> q < w -> ch < 3 ->
    pat m' r q ch = if inner w h r q && (negb (col r q =? 1) && (ch =? 1)) then G1 r q ch else pat m r q ch.
Proof.
  destruct (pass_ok o w h ws1 G1 (green_px o c w h) m sched HL HD) as (m' & E & L & P).
  { intros r q HI. split; [intros ch; apply ws1_lt|]. intros k. pose proof HI as HI'. apply inner_lt in HI'.
    assert (W1 : forall r q ch, inner w h r q = true -> In ch (ws1 r q) -> ch < 3) by (intros ? ? ? _; apply ws1_lt).
    pose proof (col_lt r q) as LT.
    unfold green_px. destruct (Nat.eqb_spec (col r q) 1) as [EC|NC].
    - split; [auto|]. unfold ws1. rewrite EC. reflexivity.
    - assert (N : t (Nat.odd r) (Nat.odd q) <> 1) by (now rewrite <- HC).
      destruct HT as (_ & HX & _). specialize (HX _ _ N). destruct HX as (X1 & X2 & X3 & X4).
      split.
      + intros Hk.
        do 9 (apply good_rd; [exact HL|exact W1|lia|lia|try lia|intros _; apply ws1_no; par; tauto|]).
        apply good_wr; auto. unfold ws1. destruct (Nat.eqb_spec (col r q) 1); [lia|now left].
      + rewrite !puts_rd by lia. rewrite puts_wr by lia. unfold ws1.
        destruct (Nat.eqb_spec (col r q) 1); [lia|reflexivity]. }
  exists m'. split; [exact E|]. split; [exact L|]. intros r q ch Hr Hq Hch. rewrite P by auto.
  unfold ws1. destruct (col r q =? 1); cbn; rewrite ?orb_false_r; reflexivity.
Qed.

(** *** red and blue at green *)

Definition ws2 (r q : nat) : list nat := if col r q =? 1 then [col r (q + 1); col (r + 1) q] else [].
Definition G2 (r q ch : nat) : F :=
  if ch =? col r (q + 1)
  then hue_transit o (pat m r (q - 1) 1) (pat m r q 1) (pat m r (q + 1) 1) (pat m r (q - 1) ch) (pat m r (q + 1) ch)
  else hue_transit o (pat m (r - 1) q 1) (pat m r q 1) (pat m (r + 1) q 1) (pat m (r - 1) q ch) (pat m (r + 1) q ch).

Lemma ws2_lt r q ch : In ch (ws2 r q) -> ch < 3.
Proof.
  unfold ws2. destruct (col r q =? 1); [intros [<-|[<-|[]]]; apply col_lt|intros []].
Qed.
Lemma ws2_no r q ch : ch = 1 \/ col r q <> 1 -> ~ In ch (ws2 r q).
Proof.
  unfold ws2. destruct (Nat.eqb_spec (col r q) 1) as [E|]; [|intros _ []].
  rewrite HC in E. destruct HT as (_ & _ & HX). specialize (HX _ _ E) as (X1 & X2 & X3 & X4).
  par. intros [->|Hn] [Hi|[Hi|[]]]; try congruence; rewrite HC in Hn; congruence.
Qed.

Lemma rbg_pass sched : exists m', pass (rbg_px o c w h) w h sched m = Ok m' /\ length m' = length m /\
  forall r q ch, r < h -> q < w -> ch < 3 ->
    pat m' r q ch = if inner w h r q && ((col r q =? 1) && negb (ch =? 1)) then G2 r q ch else pat m r q ch.
Proof.
  destruct (pass_ok o w h ws2 G2 (rbg_px o c w h) m sched HL HD) as (m' & E & L & P).
  { intros r q HI. split; [intros ch; apply ws2_lt|]. intros k. pose proof HI as HI'. apply inner_lt in HI'.
    assert (W1 : forall r q ch, inner w h r q = true -> In ch (ws2 r q) -> ch < 3) by (intros ? ? ? _; apply ws2_lt).
    unfold rbg_px. destruct (Nat.eqb_spec (col r q) 1) as [EC|NC].
    2:{ split; [auto|]. unfold ws2. destruct (Nat.eqb_spec (col r q) 1); [lia|reflexivity]. }
    assert (N : t (Nat.odd r) (Nat.odd q) = 1) by (now rewrite <- HC).
    pose proof (col_lt r (q + 1)) as LT1. pose proof (col_lt (r + 1) q) as LT2.
    pose proof HT as (_ & _ & HX). specialize (HX _ _ N). destruct HX as (X1 & X2 & X3 & X4).
    split.
    - intros Hk.
      apply good_rd; [exact HL|exact W1|lia|lia|lia|intros _; apply ws2_no; now left|].
      do 4 (apply good_rd; [exact HL|exact W1|lia|lia|lia|intros _; apply ws2_no; par; tauto|]).
      do 4 (apply good_rd; [exact HL|exact W1|lia|lia|lia|intros _; apply ws2_no; right; par; tauto|]).
      apply good_wr; auto.
      { unfold ws2. rewrite EC. now left. }
      { unfold G2. rewrite Nat.eqb_refl. reflexivity. }
      apply good_wr; auto.
      { unfold ws2. rewrite EC. right. now left. }
      { unfold G2. replace (col (r + 1) q =? col r (q + 1)) with false; [reflexivity|].
        symmetry. apply Nat.eqb_neq. revert X1 X2 X3. par. lia. }
    - rewrite !puts_rd by lia. rewrite !puts_wr by lia. unfold ws2. rewrite EC. reflexivity. }
  exists m'. split; [exact E|]. split; [exact L|]. intros r q ch Hr Hq Hch. rewrite P by auto.
  unfold ws2. destruct (Nat.eqb_spec (col r q) 1) as [EC|]; cbn [existsb andb].
  2:{ reflexivity. }
  assert (N : t (Nat.odd r) (Nat.odd q) = 1) by (now rewrite <- HC).
  pose proof (col_lt r (q + 1)) as LT1. pose proof (col_lt (r + 1) q) as LT2.
  destruct HT as (_ & _ & HX). specialize (HX _ _ N). destruct HX as (X1 & X2 & X3 & X4).
  replace ((ch =? col r (q + 1)) || ((ch =? col (r + 1) q) || false)) with (negb (ch =? 1)); [reflexivity|].
  revert X1 X2 X3 LT1 LT2. par. lia.
Qed.

(** *** red at blue and blue at red *)

Definition other (ch : nat) : nat := if ch =? 0 then 2 else 0.
Definition ws3 (r q : nat) : list nat := if col r q =? 1 then [] else [other (col r q)].
Definition G3 (r q ch : nat) : F :=
  let x := col r q in
  diag_value o (pat m (r - 1) (q + 1) ch) (pat m (r + 1) (q - 1) ch) (pat m (r - 2) (q + 2) x) (pat m r q x)
    (pat m (r + 2) (q - 2) x) (pat m (r - 1) (q + 1) 1) (pat m r q 1) (pat m (r + 1) (q - 1) 1)
    (pat m (r - 1) (q - 1) ch) (pat m (r + 1) (q + 1) ch) (pat m (r - 2) (q - 2) x) (pat m (r + 2) (q + 2) x)
    (pat m (r - 1) (q - 1) 1) (pat m (r + 1) (q + 1) 1).

Lemma ws3_lt r q ch : In ch (ws3 r q) -> ch < 3.
Proof. unfold ws3, other. destruct (col r q =? 1); [intros []|intros [<-|[]]]. destruct (col r q =? 0); lia. Qed.
Lemma ws3_no r q ch : ch = 1 \/ ch = col r q -> ~ In ch (ws3 r q).
Proof.
  unfold ws3, other. destruct (Nat.eqb_spec (col r q) 1); [intros _ []|].
  pose proof (col_lt r q). intros H1 [H2|[]]. destruct (Nat.eqb_spec (col r q) 0); lia.
Qed.

Lemma rbx_pass sched : exists m', pass (rbx_px o c w h) w h sched m = Ok m' /\ length m' = length m /\
  forall r q ch, r < h -> q < w -> ch < 3 ->
    pat m' r q ch = if inner w h r q && (negb (col r q =? 1) && (negb (ch =? 1) && negb (ch =? col r q)))
                    then G3 r q ch else pat m r q ch.
Proof.
  destruct (pass_ok o w h ws3 G3 (rbx_px o c w h) m sched HL HD) as (m' & E & L & P).
  { intros r q HI. split; [intros ch; apply ws3_lt|]. intros k. pose proof HI as HI'. apply inner_lt in HI'.
    assert (W1 : forall r q ch, inner w h r q = true -> In ch (ws3 r q) -> ch < 3) by (intros ? ? ? _; apply ws3_lt).
    pose proof (col_lt r q) as LT.
    unfold rbx_px. destruct (Nat.eqb_spec (col r q) 1) as [EC|NC].
    - split; [auto|]. unfold ws3. rewrite EC. reflexivity.
    - change (if col r q =? 0 then 2 else 0) with (other (col r q)).
      assert (N : t (Nat.odd r) (Nat.odd q) <> 1) by (now rewrite <- HC).
      pose proof HT as (_ & HX & _). specialize (HX _ _ N). destruct HX as (X1 & X2 & X3 & X4).
      assert (OT : other (col r q) < 3 /\ other (col r q) = t (negb (Nat.odd r)) (negb (Nat.odd q))).
      { revert X3 X4. unfold other. rewrite HC in *. destruct (Nat.eqb_spec (t (Nat.odd r) (Nat.odd q)) 0); lia. }
      destruct OT as [OT1 OT2]. rewrite HC in OT2.
      split.
      + intros Hk.
        do 14 (apply good_rd; [exact HL|exact W1|lia|lia|try lia|intros _; apply ws3_no; par; tauto|]).
        apply good_wr; auto. unfold ws3. destruct (Nat.eqb_spec (col r q) 1); [lia|now left].
      + rewrite !puts_rd by lia. rewrite puts_wr by lia. unfold ws3.
        destruct (Nat.eqb_spec (col r q) 1); [lia|reflexivity]. }
  exists m'. split; [exact E|]. split; [exact L|]. intros r q ch Hr Hq Hch. rewrite P by auto.
  unfold ws3, other. pose proof (col_lt r q).
  destruct (Nat.eqb_spec (col r q) 1); cbn [existsb negb andb]; [reflexivity|].
  replace ((ch =? (if col r q =? 0 then 2 else 0)) || false) with (negb (ch =? 1) && negb (ch =? col r q)); [reflexivity|].
  destruct (Nat.eqb_spec (col r q) 0); lia.
Qed.

End Passes.
