(** Four channel bilinear demosaicing. *)
From Coq Require Import List ZArith Lia Bool.
From Coq Require Import ZifyBool ZifyNat.
From Verif Require Import Base BaseLemmas Share ShareProofs Tiles Geom GeomProofs Cfa CfaProofs Demosaic DemosaicSpec DemosaicProofs DemosaicPpg DemosaicOther.
Import ListNotations.
Open Scope nat_scope.

Definition flip (b x : bool) : bool := if b then negb x else x.

Section Bil.
Context {F : Type}.
Variable o : fops F.
Variables (w h : nat) (pm : list Z) (c : cfa) (p : pix2d F) (P : bool -> bool -> nat).
Hypothesis Hw : 2 <= w.
Hypothesis Hh : 2 <= h.
Hypothesis HPl : forall r q, plane pm c r q = Ok (P (Nat.odd r) (Nat.odd q)).
Hypothesis HP4 : forall a b, P a b < 4.
Hypothesis HPi : forall a b a' b', P a b = P a' b' -> a = a' /\ b = b'.
Hypothesis Hpix : pix_ok p.
Hypothesis HpW : px_w p = w.
Hypothesis HpH : px_h p = h.
Notation z := (f_nat o 0).
Notation pat m r q ch := (nth (cell 4 w r q ch) m z).
Notation smp := (px z p).
Notation B := (bilinear_at o w h smp).

Definition T (r q ch : nat) : F :=
  if P (Nat.odd r) (Nat.odd q) =? ch then B r q false false
  else if P (Nat.odd r) (negb (Nat.odd q)) =? ch then B r q false true
  else if P (negb (Nat.odd r)) (Nat.odd q) =? ch then B r q true false
  else B r q true true.

Lemma T_eq r q dr dc : T r q (P (flip dr (Nat.odd r)) (flip dc (Nat.odd q))) = B r q dr dc.
Proof.
  assert (PE : forall a b a' b', (P a b =? P a' b') = eqb a a' && eqb b b').
  { intros a b a' b'. destruct (Nat.eqb_spec (P a b) (P a' b')) as [e|e].
    - apply HPi in e as [-> ->]. now rewrite !eqb_reflx.
    - symmetry. apply andb_false_iff. rewrite !eqb_false_iff. destruct (bool_dec a a') as [->|]; [|auto].
      destruct (bool_dec b b') as [->|]; [congruence|auto]. }
  unfold T. rewrite !PE. destruct dr, dc, (Nat.odd r), (Nat.odd q); reflexivity.
Qed.

Lemma P_surj a b ch : ch < 4 -> ch = P a b \/ ch = P a (negb b) \/ ch = P (negb a) b \/ ch = P (negb a) (negb b).
Proof.
  intros Hch. pose proof (HP4 a b). pose proof (HP4 a (negb b)). pose proof (HP4 (negb a) b). pose proof (HP4 (negb a) (negb b)).
  assert (P a b <> P a (negb b)) by (intros e; apply HPi in e as [_ e]; destruct b; discriminate).
  assert (P a b <> P (negb a) b) by (intros e; apply HPi in e as [e _]; destruct a; discriminate).
  assert (P a b <> P (negb a) (negb b)) by (intros e; apply HPi in e as [e _]; destruct a; discriminate).
  assert (P a (negb b) <> P (negb a) b) by (intros e; apply HPi in e as [e _]; destruct a; discriminate).
  assert (P a (negb b) <> P (negb a) (negb b)) by (intros e; apply HPi in e as [e _]; destruct a; discriminate).
  assert (P (negb a) b <> P (negb a) (negb b)) by (intros e; apply HPi in e as [_ e]; destruct b; discriminate).
  lia.
Qed.

(** the channels in [S] hold their final values *)
Definition Inv (S : nat -> nat -> nat -> Prop) (m : list F) : Prop :=
  length m = 4 * (w * h) /\
  forall r q ch, r < h -> q < w -> ch < 4 -> S r q ch -> pat m r q ch = T r q ch.
Definition add (S : nat -> nat -> nat -> Prop) (row col : nat) (dr dc : bool) : nat -> nat -> nat -> Prop :=
  fun r q ch => S r q ch \/ (r = row /\ q = col /\ ch = P (flip dr (Nat.odd row)) (flip dc (Nat.odd col))).
Definition addp (S : nat -> nat -> nat -> Prop) (row col : nat) : nat -> nat -> nat -> Prop :=
  fun r q ch => S r q ch \/ (r = row /\ q = col).

Lemma weaken (S S' : nat -> nat -> nat -> Prop) m : Inv S m -> (forall r q ch, r < h -> q < w -> ch < 4 -> S' r q ch -> S r q ch) -> Inv S' m.
Proof. intros [L N] H. split; [exact L|]. intros. apply N; auto. Qed.

Lemma put_step S m row col r2 c2 v dr dc : Inv S m -> row < h -> col < w ->
  Nat.odd r2 = flip dr (Nat.odd row) -> Nat.odd c2 = flip dc (Nat.odd col) -> v = Ok (B row col dr dc) ->
  exists m', put4 pm c w h row col r2 c2 v m = Ok m' /\ Inv (add S row col dr dc) m'.
Proof.
  intros [L N] Hr Hc E1 E2 ->. unfold put4. cbn [bind]. rewrite HPl. cbn [bind]. rewrite E1, E2.
  set (k := P (flip dr (Nat.odd row)) (flip dc (Nat.odd col))).
  assert (k < 4) by apply HP4. assert (row * w + col < w * h) by nia.
  replace ((row * w + col <? w * h) && (k <? 4)) with true by lia. cbn [assert_ bind].
  rewrite put_ok by (rewrite L; apply cell_lt; lia). eexists. split; [reflexivity|].
  split; [now rewrite upd_list_length|]. intros r q ch Hr' Hq' Hch HS.
  destruct (Nat.eq_dec (cell 4 w row col k) (cell 4 w r q ch)) as [EC|NC].
  - rewrite <- EC. rewrite nth_upd_eq by (rewrite L; apply cell_lt; lia).
    apply cell_inj in EC as (<- & <- & <-); auto. symmetry. apply T_eq.
  - rewrite nth_upd_neq by auto. apply N; auto. destruct HS as [HS|(-> & -> & ->)]; [exact HS|]. exfalso. now apply NC.
Qed.

(** the four assignments of one pixel *)
Lemma quad_h S m row col rv cv vo vh vv vb : Inv S m -> row < h -> col < w ->
  Nat.odd rv = negb (Nat.odd row) -> Nat.odd cv = negb (Nat.odd col) ->
  vo = Ok (B row col false false) -> vh = Ok (B row col false true) ->
  vv = Ok (B row col true false) -> vb = Ok (B row col true true) ->
  exists m1 m2 m3 m4, put4 pm c w h row col row col vo m = Ok m1 /\
    put4 pm c w h row col row cv vh m1 = Ok m2 /\ put4 pm c w h row col rv col vv m2 = Ok m3 /\
    put4 pm c w h row col rv cv vb m3 = Ok m4 /\ Inv (addp S row col) m4.
Proof.
  intros I0 Hr Hc Ov Oc Eo Eh Ev Eb.
  destruct (put_step S m row col row col vo false false I0) as (m1 & E1 & I1); try assumption; try reflexivity.
  destruct (put_step _ m1 row col row cv vh false true I1) as (m2 & E2 & I2); try assumption; try reflexivity.
  destruct (put_step _ m2 row col rv col vv true false I2) as (m3 & E3 & I3); try assumption; try reflexivity.
  destruct (put_step _ m3 row col rv cv vb true true I3) as (m4 & E4 & I4); try assumption; try reflexivity.
  exists m1, m2, m3, m4. repeat (split; [assumption|]).
  eapply weaken; [exact I4|]. intros r q ch _ _ Hch [HS|[-> ->]]; unfold add; [tauto|].
  cbn [flip]. pose proof (P_surj (Nat.odd row) (Nat.odd col) ch Hch).
  intuition.
Qed.

Lemma quad_v S m row col rv cv vo vh vv vb : Inv S m -> row < h -> col < w ->
  Nat.odd rv = negb (Nat.odd row) -> Nat.odd cv = negb (Nat.odd col) ->
  vo = Ok (B row col false false) -> vh = Ok (B row col false true) ->
  vv = Ok (B row col true false) -> vb = Ok (B row col true true) ->
  exists m1 m2 m3 m4, put4 pm c w h row col row col vo m = Ok m1 /\
    put4 pm c w h row col rv col vv m1 = Ok m2 /\ put4 pm c w h row col row cv vh m2 = Ok m3 /\
    put4 pm c w h row col rv cv vb m3 = Ok m4 /\ Inv (addp S row col) m4.
Proof.
  intros I0 Hr Hc Ov Oc Eo Eh Ev Eb.
  destruct (put_step S m row col row col vo false false I0) as (m1 & E1 & I1); try assumption; try reflexivity.
  destruct (put_step _ m1 row col rv col vv true false I1) as (m2 & E2 & I2); try assumption; try reflexivity.
  destruct (put_step _ m2 row col row cv vh false true I2) as (m3 & E3 & I3); try assumption; try reflexivity.
  destruct (put_step _ m3 row col rv cv vb true true I3) as (m4 & E4 & I4); try assumption; try reflexivity.
  exists m1, m2, m3, m4. repeat (split; [assumption|]).
  eapply weaken; [exact I4|]. intros r q ch _ _ Hch [HS|[-> ->]]; unfold add; [tauto|].
  cbn [flip]. pose proof (P_surj (Nat.odd row) (Nat.odd col) ch Hch).
  intuition.
Qed.

Lemma at_ok r q : r < h -> q < w -> pix_at p r q = Ok (smp r q).
Proof.
  intros. unfold pix_at. rewrite (get_ok _ _ z); [reflexivity|]. rewrite Hpix, HpW, HpH. nia.
Qed.

Lemma near_same n x : nearest n x false = [x]. Proof. reflexivity. Qed.
Lemma near_first n : nearest n 0 true = [1]. Proof. reflexivity. Qed.
Lemma near_last n : 2 <= n -> nearest n (n - 1) true = [n - 2].
Proof. intros. unfold nearest. cbn [negb]. replace (n - 1 =? 0) with false by lia. now rewrite Nat.eqb_refl. Qed.
Lemma near_mid n x : 1 <= x -> x < n - 1 -> nearest n x true = [x - 1; x + 1].
Proof.
  intros. unfold nearest. cbn [negb]. replace (x =? 0) with false by lia. now replace (x =? n - 1) with false by lia.
Qed.

Ltac val := unfold bilinear_at; rewrite ?near_same, ?near_first, ?near_last, ?near_mid by lia;
  unfold mean2, mean4; rewrite !at_ok by lia; reflexivity.
Ltac par := rewrite ?odd_succ1, ?odd_pred, ?odd_pred2 by lia; rewrite ?negb_involutive; try reflexivity.
Ltac quad Q row col rv cv vo vh vv vb :=
  match goal with H : Inv ?S ?m |- context [put4 pm c w h row col row col vo ?m] =>
    let m1 := fresh "m" in let m2 := fresh "m" in let m3 := fresh "m" in let m4 := fresh "m" in
    let E1 := fresh in let E2 := fresh in let E3 := fresh in let E4 := fresh in let I := fresh "I" in
    destruct (Q S m row col rv cv vo vh vv vb) as (m1 & m2 & m3 & m4 & E1 & E2 & E3 & E4 & I);
    [exact H|lia|lia|par|par|val|val|val|val|
     rewrite E1; cbn [bind]; rewrite E2; cbn [bind]; rewrite E3; cbn [bind]; rewrite E4; cbn [bind]; clear H E1 E2 E3 E4]
  end.

(** interior pixels *)
Definition mid (r q : nat) : Prop := 1 <= r /\ r < h - 1 /\ 1 <= q /\ q < w - 1.
Definition wset (i : nat) : Prop := exists r q ch, mid r q /\ ch < 4 /\ i = cell 4 w r q ch.
Definition gval (i : nat) : F := T (i / 4 / w) ((i / 4) mod w) (i mod 4).

Section Mid.
Variable m : list F.
Hypothesis HL : length m = 4 * (w * h).
Notation ok := (good z m wset gval).

Lemma wr4_ok row col r2 c2 v k dr dc : mid row col ->
  Nat.odd r2 = flip dr (Nat.odd row) -> Nat.odd c2 = flip dc (Nat.odd col) -> v = Ok (B row col dr dc) -> ok k ->
  ok (wr4 pm c w row col r2 c2 v k) /\
  puts z m (wr4 pm c w row col r2 c2 v k) = cell 4 w row col (P (flip dr (Nat.odd row)) (flip dc (Nat.odd col))) :: puts z m k.
Proof.
  intros M E1 E2 -> Hk. unfold wr4. rewrite HPl, E1, E2.
  set (n := P _ _). assert (n < 4) by apply HP4. unfold mid in M.
  replace ((col <? w) && (n <? 4)) with true by lia. split; [|reflexivity].
  cbn [good]. split; [rewrite HL; apply cell_lt; lia|]. split; [now exists row, col, n|]. split; [|exact Hk].
  unfold gval. destruct (cell_dec 4 w row col n) as (-> & -> & ->); [lia|lia|]. symmetry. apply T_eq.
Qed.

Lemma bil_px_ok row col k : mid row col -> ok k ->
  ok (bil_px o pm c p row col k) /\
  forall i, In i (puts z m (bil_px o pm c p row col k)) <-> (exists ch, ch < 4 /\ i = cell 4 w row col ch) \/ In i (puts z m k).
Proof.
  intros M Hk. pose proof M as M'. unfold mid in M'. unfold bil_px. rewrite HpW.
  set (k3 := wr4 pm c w row col (row + 1) (col + 1) _ k).
  destruct (wr4_ok row col (row + 1) (col + 1) (mean4 o (pix_at p (row - 1) (col - 1)) (pix_at p (row - 1) (col + 1)) (pix_at p (row + 1) (col - 1)) (pix_at p (row + 1) (col + 1))) k true true M) as [G3 P3];
    [par|par|val|exact Hk|]. fold k3 in G3, P3.
  set (k2 := wr4 pm c w row col row (col + 1) _ k3).
  destruct (wr4_ok row col row (col + 1) (mean2 o (pix_at p row (col - 1)) (pix_at p row (col + 1))) k3 false true M) as [G2 P2];
    [par|par|val|exact G3|]. fold k2 in G2, P2.
  set (k1 := wr4 pm c w row col (row + 1) col _ k2).
  destruct (wr4_ok row col (row + 1) col (mean2 o (pix_at p (row - 1) col) (pix_at p (row + 1) col)) k2 true false M) as [G1 P1];
    [par|par|val|exact G2|]. fold k1 in G1, P1.
  destruct (wr4_ok row col row col (pix_at p row col) k1 false false M) as [G0 P0];
    [par|par|val|exact G1|].
  split; [exact G0|]. intros i. rewrite P0, P1, P2, P3. cbn [In flip].
  split.
  - intros [<-|[<-|[<-|[<-|H]]]]; [left|left|left|left|now right]; eexists; (split; [apply HP4|reflexivity]).
  - intros [(ch & Hch & ->)|H]; [|tauto].
    pose proof (P_surj (Nat.odd row) (Nat.odd col) ch Hch) as PS.
    destruct PS as [ -> | [ -> | [ -> | -> ]]]; destruct (Nat.odd row), (Nat.odd col); cbn; tauto.
Qed.

Lemma mid_loop sched : exists m', par_loop sched (map (bil_row o pm c p) (seq 0 h)) m = Ok m' /\ length m' = length m /\
  forall r q ch, r < h -> q < w -> ch < 4 ->
    (mid r q -> pat m' r q ch = T r q ch) /\ (~ mid r q -> pat m' r q ch = pat m r q ch).
Proof.
  set (ts := map _ _).
  assert (R : forall row cols k, (forall q, In q cols -> mid row q) -> ok k ->
     ok (fold_right (bil_px o pm c p row) k cols) /\
     forall i, In i (puts z m (fold_right (bil_px o pm c p row) k cols)) <->
       (exists q ch, In q cols /\ ch < 4 /\ i = cell 4 w row q ch) \/ In i (puts z m k)).
  { intros row cols k. induction cols as [|q cols IH]; intros HI Hk.
    - split; [exact Hk|]. intros i. cbn. split; [auto|]. intros [(q & ch & [] & _)|H]; auto.
    - destruct IH as [IG IP]; [intros; apply HI; now right|exact Hk|]. cbn [fold_right].
      destruct (bil_px_ok row q (fold_right (bil_px o pm c p row) k cols)) as [A C]; [apply HI; now left|exact IG|].
      split; [exact A|]. intros i. rewrite C, IP. clear. split.
      + intros [(ch & H & ->)|[(q' & ch & H)|H]]; [left; exists q, ch; cbn; auto|left; exists q', ch; cbn; tauto|auto].
      + intros [(q' & ch & H1 & H2)|H]; [|auto]. destruct H1 as [<-|H1]; [left; now exists ch|right; left; now exists q', ch]. }
  assert (TG : forall row, row < h -> ok (bil_row o pm c p row) /\
     forall i, In i (puts z m (bil_row o pm c p row)) <-> exists q ch, mid row q /\ ch < 4 /\ i = cell 4 w row q ch).
  { intros row Hr. unfold bil_row. rewrite HpH, HpW. destruct ((row =? 0) || (row =? h - 1)) eqn:EB.
    - split; [exact I|]. intros i. cbn. split; [tauto|]. intros (q & ch & M & _). unfold mid in M. lia.
    - destruct (R row (seq 1 (w - 2)) Done) as [A C]; [|exact I|].
      { intros q Hq. apply in_seq in Hq. unfold mid. lia. }
      split; [exact A|]. intros i. rewrite C. cbn [puts In]. split.
      + intros [(q & ch & Hq & H)|[]]. exists q, ch. split; [apply in_seq in Hq; unfold mid; lia|exact H].
      + intros (q & ch & M & H). left. exists q, ch. split; [|exact H]. apply in_seq. unfold mid in M. lia. }
  destruct (par_loop_ok z m wset gval ts sched) as (m' & E & L & IW & OW).
  { apply Forall_forall. intros t Ht. apply in_map_iff in Ht as (row & <- & Hr). apply in_seq in Hr. apply TG. lia. }
  exists m'. split; [exact E|]. split; [exact L|].
  intros r q ch Hr Hq Hch. split.
  - intros M. rewrite IW.
    + unfold gval. destruct (cell_dec 4 w r q ch) as (-> & -> & ->); auto.
    + exists (bil_row o pm c p r). split; [unfold ts; apply in_map, in_seq; lia|]. apply TG; [exact Hr|]. now exists q, ch.
  - intros NM. apply OW. intros (t & Ht & Hi). apply in_map_iff in Ht as (row & <- & Hrow). apply in_seq in Hrow.
    apply TG in Hi as (q' & ch' & M & Hch' & EC); [|lia]. apply cell_inj in EC as (-> & -> & ->); auto; unfold mid in M; lia.
Qed.
End Mid.

Definition none : nat -> nat -> nat -> Prop := fun _ _ _ => False.

(** everything after the crop *)
Definition bil_body (sched : list nat) : res (list F) :=
  let at_ := pix_at p in
  let pt := put4 pm c w h in
  let m := repeat (f_nat o 0) (4 * (w * h)) in
  do m <- pt 0 0 0 0 (at_ 0 0) m;
  do m <- pt 0 0 0 1 (at_ 0 1) m;
  do m <- pt 0 0 1 0 (at_ 1 0) m;
  do m <- pt 0 0 1 1 (at_ 1 1) m;
  do w1 <- usub w 1;
  do w2 <- usub w 2;
  do m <- pt 0 w1 0 w1 (at_ 0 w1) m;
  do m <- pt 0 w1 0 w2 (at_ 0 w2) m;
  do m <- pt 0 w1 1 w1 (at_ 1 w1) m;
  do m <- pt 0 w1 1 w2 (at_ 1 w2) m;
  do h1 <- usub h 1;
  do h2 <- usub h 2;
  do m <- pt h1 0 h1 0 (at_ h1 0) m;
  do m <- pt h1 0 h1 1 (at_ h1 1) m;
  do m <- pt h1 0 h2 0 (at_ h2 0) m;
  do m <- pt h1 0 h2 1 (at_ h2 1) m;
  do m <- pt h1 w1 h1 w1 (at_ h1 w1) m;
  do m <- pt h1 w1 h1 w2 (at_ h1 w2) m;
  do m <- pt h1 w1 h2 w1 (at_ h2 w1) m;
  do m <- pt h1 w1 h2 w2 (at_ h2 w2) m;
  do m <- for_each (seq 1 (w - 2)) (fun i m =>
    do m <- pt 0 i 0 i (at_ 0 i) m;
    do m <- pt 0 i 0 (i + 1) (mean2 o (at_ 0 (i - 1)) (at_ 0 (i + 1))) m;
    do m <- pt 0 i 1 i (at_ 1 i) m;
    do m <- pt 0 i 1 (i + 1) (mean2 o (at_ 1 (i - 1)) (at_ 1 (i + 1))) m;
    do m <- pt h1 i h1 i (at_ h1 i) m;
    do m <- pt h1 i h1 (i + 1) (mean2 o (at_ h1 (i - 1)) (at_ h1 (i + 1))) m;
    do m <- pt h1 i h2 i (at_ h2 i) m;
    pt h1 i h2 (i + 1) (mean2 o (at_ h2 (i - 1)) (at_ h2 (i + 1))) m) m;
  do m <- for_each (seq 1 (h - 2)) (fun i m =>
    do m <- pt i 0 i 0 (at_ i 0) m;
    do m <- pt i 0 (i + 1) 0 (mean2 o (at_ (i - 1) 0) (at_ (i + 1) 0)) m;
    do m <- pt i 0 i 1 (at_ i 1) m;
    do m <- pt i 0 (i + 1) 1 (mean2 o (at_ (i - 1) 1) (at_ (i + 1) 1)) m;
    do m <- pt i w1 i w1 (at_ i w1) m;
    do m <- pt i w1 (i + 1) w1 (mean2 o (at_ (i - 1) w1) (at_ (i + 1) w1)) m;
    do m <- pt i w1 i w2 (at_ i w2) m;
    pt i w1 (i + 1) w2 (mean2 o (at_ (i - 1) w2) (at_ (i + 1) w2)) m) m;
  par_loop sched (map (bil_row o pm c p) (seq 0 h)) m.

Lemma bil_body_ok sched : exists out, bil_body sched = Ok out /\ length out = 4 * (w * h) /\
  forall r q ch, r < h -> q < w -> ch < 4 -> pat out r q ch = T r q ch.
Proof.
  unfold bil_body. cbv zeta.
  assert (I0 : Inv none (repeat z (4 * (w * h)))) by (split; [apply repeat_length|intros ? ? ? _ _ _ []]).
  revert I0. generalize (repeat z (4 * (w * h))). intros m0 I0.
  quad quad_h 0 0 1 1 (pix_at p 0 0) (pix_at p 0 1) (pix_at p 1 0) (pix_at p 1 1).
  rewrite !usub_ok by lia. cbn [bind].
  quad quad_h 0 (w - 1) 1 (w - 2) (pix_at p 0 (w - 1)) (pix_at p 0 (w - 2)) (pix_at p 1 (w - 1)) (pix_at p 1 (w - 2)).
  cbn [bind].
  quad quad_h (h - 1) 0 (h - 2) 1 (pix_at p (h - 1) 0) (pix_at p (h - 1) 1) (pix_at p (h - 2) 0) (pix_at p (h - 2) 1).
  quad quad_h (h - 1) (w - 1) (h - 2) (w - 2) (pix_at p (h - 1) (w - 1)) (pix_at p (h - 1) (w - 2)) (pix_at p (h - 2) (w - 1)) (pix_at p (h - 2) (w - 2)).
  match goal with H : Inv ?S ?m |- _ => apply (weaken _ (fun r q _ => (r = 0 \/ r = h - 1) /\ (q = 0 \/ q = w - 1))) in H;
    [rename H into J0|intros r q ch _ _ _ ?; unfold addp; lia] end.
  match goal with |- context [for_each (seq 1 (w - 2)) ?f ?m] =>
    destruct (for_each_seq_inv f (fun i => Inv (fun r q _ => (r = 0 \/ r = h - 1) /\ (q = 0 \/ q = w - 1 \/ q < i))) 1 (w - 2) m)
      as (mA & EA & JA) end.
  { eapply weaken; [exact J0|]. cbn. intros. lia. }
  { intros i mm Hi J.
    quad quad_h 0 i 1 (i + 1) (pix_at p 0 i) (mean2 o (pix_at p 0 (i - 1)) (pix_at p 0 (i + 1))) (pix_at p 1 i) (mean2 o (pix_at p 1 (i - 1)) (pix_at p 1 (i + 1))).
    quad quad_h (h - 1) i (h - 2) (i + 1) (pix_at p (h - 1) i) (mean2 o (pix_at p (h - 1) (i - 1)) (pix_at p (h - 1) (i + 1))) (pix_at p (h - 2) i) (mean2 o (pix_at p (h - 2) (i - 1)) (pix_at p (h - 2) (i + 1))).
    eexists. split; [reflexivity|]. eapply weaken; [eassumption|]. unfold addp. intros. lia. }
  rewrite EA. cbn [bind].
  match goal with |- context [for_each (seq 1 (h - 2)) ?f ?m] =>
    destruct (for_each_seq_inv f (fun i => Inv (fun r q _ => r = 0 \/ r = h - 1 \/ ((q = 0 \/ q = w - 1) /\ r < i))) 1 (h - 2) m)
      as (mB & EB & JB) end.
  { eapply weaken; [exact JA|]. cbn. intros. lia. }
  { intros i mm Hi J.
    quad quad_v i 0 (i + 1) 1 (pix_at p i 0) (pix_at p i 1) (mean2 o (pix_at p (i - 1) 0) (pix_at p (i + 1) 0)) (mean2 o (pix_at p (i - 1) 1) (pix_at p (i + 1) 1)).
    quad quad_v i (w - 1) (i + 1) (w - 2) (pix_at p i (w - 1)) (pix_at p i (w - 2)) (mean2 o (pix_at p (i - 1) (w - 1)) (pix_at p (i + 1) (w - 1))) (mean2 o (pix_at p (i - 1) (w - 2)) (pix_at p (i + 1) (w - 2))).
    eexists. split; [reflexivity|]. eapply weaken; [eassumption|]. unfold addp. intros. lia. }
  rewrite EB. cbn [bind]. destruct JB as [LB NB].
  destruct (mid_loop mB LB sched) as (out & E & L & N). exists out. split; [exact E|]. split; [congruence|].
  intros r q ch Hr Hq Hch. destruct (N r q ch Hr Hq Hch) as [N1 N2].
  assert (D : mid r q \/ ~ mid r q) by (unfold mid; lia). destruct D as [D|D]; [auto|].
  rewrite N2 by auto. apply NB; auto. unfold mid in D. lia.
Qed.

End Bil.

Lemma letter_color_lt ch : letter_color ch < 6.
Proof. unfold letter_color. repeat match goal with |- context [if ?b then _ else _] => destruct b end; lia. Qed.

Lemma bilinear4_ok {F} (o : fops F) sched p0 name c0 colors roi :
  length name = 4 -> cfa_new name = Ok c0 -> NoDup (map letter_color name) ->
  length colors = 4 -> incl (map letter_color name) colors ->
  pix_ok p0 -> 2 <= r_w roi -> 2 <= r_h roi -> r_x roi + r_w roi <= px_w p0 -> r_y roi + r_h roi <= px_h p0 ->
  exists out, bilinear4 o sched p0 c0 colors roi = Ok out /\ length out = 4 * (r_w roi * r_h roi) /\
    forall r q k (drow dcol : bool), r < r_h roi -> q < r_w roi -> k < 4 ->
      pattern_color name 2 2 (r_y roi + (r + Nat.b2n drow)) (r_x roi + (q + Nat.b2n dcol)) = nth k colors 0 ->
      nth (4 * (r * r_w roi + q) + k) out (f_nat o 0) =
      bilinear_at o (r_w roi) (r_h roi) (fun r q => px (f_nat o 0) p0 (r_y roi + r) (r_x roi + q)) r q drow dcol.
Proof.
  intros LN EN ND LC IC HP HW HH HX HY. unfold bilinear4. rewrite LC. cbn [Nat.eqb assert_ bind].
  assert (D : cfa_dims (length name) = Ok (2, 2)) by (rewrite LN; reflexivity).
  assert (NE : name <> []) by (intros ->; discriminate LN).
  destruct (pattern_shift name 2 2 c0 (r_x roi) (r_y roi) EN D NE) as (_ & _ & _ & c & Es & _ & _ & _ & _ & HC).
  rewrite Es. cbn [bind].
  assert (NC : NoDup colors).
  { apply (NoDup_incl_NoDup (l := map letter_color name)); [exact ND|rewrite map_length; lia|exact IC]. }
  assert (IC' : incl colors (map letter_color name)).
  { apply NoDup_length_incl; [exact ND|rewrite map_length; lia|exact IC]. }
  assert (C6 : forall ch, In ch colors -> ch < 6).
  { intros ch Hch. apply IC' in Hch. apply in_map_iff in Hch as (l & <- & _). apply letter_color_lt. }
  destruct (plane_table_ok colors) as (pm & Epm & Lpm & Npm & _).
  { apply Forall_forall. intros ch Hch. apply C6 in Hch. lia. }
  { exact NC. }
  rewrite Epm. cbn [bind].
  destruct (pix_crop_spec (f_nat o 0) p0 (r_x roi) (r_y roi) (r_w roi) (r_h roi) HP) as (p & Ec & HPp & Wp & Hp & Np); [lia|exact HX|exact HY|].
  rewrite Ec. cbn [bind].
  set (tc := fun a b : bool => letter_color (nth (Nat.b2n (xorb (Nat.odd (r_y roi)) a) * 2 + Nat.b2n (xorb (Nat.odd (r_x roi)) b)) name 0%Z)).
  assert (TC : forall r q, pattern_color name 2 2 (r_y roi + r) (r_x roi + q) = tc (Nat.odd r) (Nat.odd q)).
  { intros r q. unfold pattern_color, tc. rewrite <- !Nat.bit0_mod, !Nat.bit0_odd. now rewrite !Nat.odd_add. }
  assert (TN : forall a b, exists i, i < 4 /\ tc a b = nth i (map letter_color name) 0 /\
     i = Nat.b2n (xorb (Nat.odd (r_y roi)) a) * 2 + Nat.b2n (xorb (Nat.odd (r_x roi)) b)).
  { intros a b. eexists. split; [|split; [|reflexivity]].
    - destruct (xorb _ a), (xorb _ b); cbn; lia.
    - unfold tc. set (i := _ * 2 + _). assert (i < 4) by (unfold i; destruct (xorb _ a), (xorb _ b); cbn; lia).
      rewrite (nth_indep _ 0 (letter_color 0%Z)) by (rewrite map_length; lia). now rewrite map_nth. }
  assert (TI : forall a b a' b', tc a b = tc a' b' -> a = a' /\ b = b').
  { intros a b a' b' E. destruct (TN a b) as (i & Hi & Ei & Vi). destruct (TN a' b') as (i' & Hi' & Ei' & Vi').
    rewrite Ei, Ei' in E. apply (proj1 (NoDup_nth _ 0) ND) in E; [|rewrite map_length; lia|rewrite map_length; lia].
    rewrite Vi, Vi' in E. clear - E. destruct (Nat.odd (r_y roi)), (Nat.odd (r_x roi)), a, b, a', b'; cbn in *; try lia; auto. }
  assert (TP : forall a b, exists k, k < 4 /\ tc a b = nth k colors 0 /\ nth (tc a b) pm 0%Z = Z.of_nat k).
  { intros a b. assert (In (tc a b) colors).
    { apply IC. destruct (TN a b) as (i & Hi & -> & _). apply nth_In. rewrite map_length. lia. }
    destruct (In_nth _ _ 0 H) as (k & Hk & Ek). exists k. split; [lia|]. split; [now rewrite Ek|].
    rewrite <- Ek. apply Npm. exact Hk. }
  set (P := fun a b => Z.to_nat (nth (tc a b) pm 0%Z)).
  destruct (bil_body_ok o (r_w roi) (r_h roi) pm c p P HW HH) with (sched := sched) as (out & E & L & N); auto.
  { intros r q. unfold plane. rewrite (proj1 (HC r q)), TC. unfold P.
    rewrite (get_ok pm _ 0%Z); [reflexivity|]. rewrite Lpm.
    destruct (TP (Nat.odd r) (Nat.odd q)) as (k & Hk & E & _).
    assert (tc (Nat.odd r) (Nat.odd q) < 6); [|lia]. rewrite E. apply C6, nth_In. lia. }
  { intros a b. unfold P. destruct (TP a b) as (k & Hk & _ & ->). lia. }
  { intros a b a' b' EP. apply TI. unfold P in EP.
    destruct (TP a b) as (k & Hk & E1 & E2). destruct (TP a' b') as (k' & Hk' & E1' & E2'). rewrite E2, E2' in EP.
    assert (k = k') by lia. congruence. }
  exists out. split.
  { rewrite <- E. unfold bil_body. cbv zeta. rewrite !Wp, !Hp. reflexivity. }
  split; [exact L|]. intros r q k dr dc Hr Hq Hk EK.
  change (4 * (r * r_w roi + q) + k) with (cell 4 (r_w roi) r q k). rewrite N by auto.
  rewrite TC in EK.
  assert (OB : forall n b, Nat.odd (n + Nat.b2n b) = flip b (Nat.odd n)).
  { intros n []; cbn [Nat.b2n flip]; [apply odd_succ1|now rewrite Nat.add_0_r]. }
  rewrite !OB in EK.
  assert (EP : k = P (flip dr (Nat.odd r)) (flip dc (Nat.odd q))).
  { unfold P. destruct (TP (flip dr (Nat.odd r)) (flip dc (Nat.odd q))) as (k' & Hk' & E1 & E2). rewrite E2, Nat2Z.id.
    apply (proj1 (NoDup_nth colors 0) NC); [lia|lia|congruence]. }
  rewrite EP. rewrite T_eq.
  2:{ intros a b a' b' EPP. apply TI. unfold P in EPP.
    destruct (TP a b) as (k1 & Hk1 & E1 & E2). destruct (TP a' b') as (k' & Hk' & E1' & E2'). rewrite E2, E2' in EPP.
    assert (k1 = k') by lia. congruence. }
  unfold bilinear_at. f_equal. apply map_ext_in. intros [y x] Hyx. apply in_prod_iff in Hyx as [A B]. cbn [fst snd].
  apply Np.
  - revert A. unfold nearest. destruct (negb dr); [intros [<-|[]]; lia|]. destruct (Nat.eqb_spec r 0); [intros [<-|[]]; lia|].
    destruct (Nat.eqb_spec r (r_h roi - 1)); [intros [<-|[]]; lia|intros [<-|[<-|[]]]; lia].
  - revert B. unfold nearest. destruct (negb dc); [intros [<-|[]]; lia|]. destruct (Nat.eqb_spec q 0); [intros [<-|[]]; lia|].
    destruct (Nat.eqb_spec q (r_w roi - 1)); [intros [<-|[]]; lia|intros [<-|[<-|[]]]; lia].
Qed.

(** images of one row or one column are refused *)
Lemma bilinear4_small {F} (o : fops F) sched p0 c0 colors roi out :
  r_w roi < 2 \/ r_h roi < 2 -> pix_ok p0 -> r_x roi + r_w roi <= px_w p0 -> r_y roi + r_h roi <= px_h p0 ->
  bilinear4 o sched p0 c0 colors roi <> Ok out.
Proof.
  intros HS HP HX HY E. unfold bilinear4 in E.
  apply bind_ok in E as (? & _ & E). apply bind_ok in E as (c & _ & E). apply bind_ok in E as (pm & _ & E).
  apply bind_ok in E as (p & Ec & E).
  assert (W0 : 0 < r_w roi). { unfold crop in Ec. destruct (Nat.eqb_spec (r_w roi) 0); [discriminate Ec|lia]. }
  destruct (pix_crop_spec (f_nat o 0) p0 (r_x roi) (r_y roi) (r_w roi) (r_h roi) HP) as (p' & Ec' & HPp & Wp & Hp & _); auto.
  rewrite Ec in Ec'. injection Ec' as <-. cbv zeta in E. rewrite Wp, Hp in E.
  apply bind_ok in E as (m1 & _ & E). apply bind_ok in E as (m2 & _ & E). apply bind_ok in E as (m3 & E3 & E).
  assert (2 <= r_h roi).
  { unfold put4 in E3. apply bind_ok in E3 as (v & Ev & _). unfold pix_at, get in Ev.
    destruct (nth_error _ _) eqn:En; [|discriminate Ev].
    assert (X : 1 * px_w p + 0 < length (px_data p)) by (apply nth_error_Some; congruence).
    rewrite HPp, Wp, Hp in X. nia. }
  apply bind_ok in E as (m4 & _ & E). apply bind_ok in E as (w1 & _ & E). apply bind_ok in E as (w2 & E2 & _).
  unfold usub in E2. destruct (Nat.leb_spec 2 (r_w roi)); [lia|discriminate E2].
Qed.

(** the three channel superpixel only accepts the four Bayer patterns *)
Lemma superpixel3_other {F} (o : fops F) p name c0 n roi out :
  cfa_new name = Ok c0 -> length name <> 4 -> superpixel3 o p c0 n roi <> Ok out.
Proof.
  intros EN LN E. unfold superpixel3 in E. apply bind_ok in E as (? & _ & E). apply bind_ok in E as (? & ER & E).
  apply bind_ok in E as (c & Es & E). apply bind_ok in E as (? & EQ & _).
  assert (NE : name <> []).
  { intros ->. cbn in EN. injection EN as <-. discriminate ER. }
  assert (Q : is_quad (c_name c) = true) by (destruct (is_quad (c_name c)); [reflexivity|discriminate EQ]).
  apply is_quad_in in Q.
  assert (L4 : length (c_name c) = 4) by (destruct Q as [<-|[<-|[<-|[<-|[]]]]]; reflexivity).
  destruct (cfa_new_inv _ _ EN NE) as (pw & ph & D & Hw & _).
  destruct (pattern_shift name pw ph c0 (r_x (roi_even roi)) (r_y (roi_even roi)) EN D NE) as (_ & _ & _ & c' & Es' & _ & W & H & NC & _).
  rewrite Es in Es'. injection Es' as <-. rewrite NC in L4. unfold canon in L4. rewrite map_length, seq_length, W, H in L4.
  destruct (dims_cases _ _ _ D Hw) as (L & _). lia.
Qed.

(** Integer arithmetic, for the examples. *)
Definition zops : fops Z := {|
  f_nat := Z.of_nat; f_add := Z.add; f_sub := Z.sub; f_mul := Z.mul; f_div := Z.div; f_abs := Z.abs;
  f_lt := Z.ltb; f_eq := Z.eqb |}.

(** The X-Trans layout. *)
Definition xtrans_name : list Z :=
  [71; 66; 71; 71; 82; 71;  82; 71; 82; 66; 71; 66;  71; 66; 71; 71; 82; 71;
   71; 82; 71; 71; 66; 71;  66; 71; 66; 82; 71; 82;  71; 82; 71; 71; 66; 71]%Z.

Lemma ppg_keeps {F} (o : fops F) fuel s0 s1 s2 s3 raw dw dh name c0 roi :
  In name bayer_names -> cfa_new name = Ok c0 ->
  length raw = dw * dh -> r_x roi + r_w roi <= dw -> r_y roi + r_h roi <= dh -> 0 < r_w roi ->
  r_h roi = 6 \/ (6 < r_h roi /\ 6 <= r_w roi) -> r_w roi < fuel ->
  exists out, ppg o fuel s0 s1 s2 s3 raw dw c0 roi = Some (Ok out) /\
    forall r q, r < r_h roi -> q < r_w roi ->
      nth (3 * (r * r_w roi + q) + sensor_color name (r_y roi + r) (r_x roi + q)) out (f_nat o 0) =
      nth ((r_y roi + r) * dw + (r_x roi + q)) raw (f_nat o 0).
Proof.
  intros HN EN HL HX HY HW HS HF.
  destruct (ppg_spec o fuel s0 s1 s2 s3 raw dw dh name c0 roi) as (out & E & _ & N); auto.
  exists out. split; [exact E|]. intros r q Hr Hq. rewrite N; auto.
  - unfold ppg_at. now rewrite Nat.eqb_refl.
  - unfold sensor_color. destruct (_ =? 82)%Z; [lia|]. destruct (_ =? 71)%Z; lia.
Qed.
