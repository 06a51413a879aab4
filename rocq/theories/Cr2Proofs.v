(** CR2: fields of the frame put in place. *)
From Coq Require Import List ZArith Lia Bool.
From Coq Require Import ZifyBool ZifyNat.
From Verif Require Import Base BaseLemmas LjpegDec Bits Crx Pef PefSpec LjpegYuvProofs Cr2 Cr2Spec.
Import ListNotations.
Open Scope nat_scope.

(** ** Copying *)
Lemma copy_in_ok dst dpos src spos n : dpos + n <= length dst -> spos + n <= length src ->
  exists out, copy_in dst dpos src spos n = Ok out /\ length out = length dst /\
    forall j, nth j out 0%Z = if (dpos <=? j) && (j <? dpos + n) then nth (spos + (j - dpos)) src 0%Z else nth j dst 0%Z.
Proof.
  intros Hd Hs. unfold copy_in. rewrite slice_ok by lia. cbn [bind]. replace (dpos + n <=? length dst) with true by lia.
  eexists. split; [reflexivity|]. assert (L : length (firstn (spos + n - spos) (skipn spos src)) = n) by (rewrite firstn_length, skipn_length; lia).
  split; [rewrite !app_length, L, firstn_length, skipn_length; lia|]. intros j.
  assert (Lf : length (firstn dpos dst) = dpos) by (rewrite firstn_length; lia).
  destruct (Nat.leb_spec dpos j) as [A|A]; cbn [andb].
  - rewrite app_nth2 by lia. rewrite Lf. destruct (Nat.ltb_spec j (dpos + n)) as [B|B].
    + rewrite app_nth1 by lia. rewrite nth_firstn by lia. apply nth_skipn.
    + rewrite app_nth2 by lia. rewrite L, nth_skipn. f_equal. lia.
  - rewrite app_nth1 by lia. apply nth_firstn. lia.
Qed.
Lemma cell_div w r c : c < w -> (r * w + c) / w = r.
Proof. intros. rewrite Nat.add_comm, Nat.div_add by lia. rewrite Nat.div_small by lia. lia. Qed.
Lemma cell_mod w r c : c < w -> (r * w + c) mod w = c.
Proof. intros. rewrite Nat.add_comm, Nat.mod_add by lia. now apply Nat.mod_small. Qed.
Lemma cell_eq w r r' c c' : c < w -> c' < w -> r * w + c = r' * w + c' -> r = r' /\ c = c'.
Proof.
  intros H H' E. split; [rewrite <- (cell_div w r c H), E; now apply cell_div|rewrite <- (cell_mod w r c H), E; now apply cell_mod].
Qed.
(** a run of cells within a row *)
Lemma run_cells w r r' c s n : c < w -> s + n <= w ->
  ((r' * w + s <=? r * w + c) && (r * w + c <? r' * w + s + n)) = (r =? r') && (s <=? c) && (c <? s + n).
Proof.
  intros Hc Hs. destruct (Nat.eqb_spec r r') as [->|N]; cbn [andb].
  - replace (r' * w + s <=? r' * w + c) with (s <=? c) by lia. replace (r' * w + c <? r' * w + s + n) with (c <? s + n) by lia. reflexivity.
  - destruct (Nat.lt_ge_cases r r') as [L|L].
    + assert (r * w + w <= r' * w) by nia. replace (r' * w + s <=? r * w + c) with false by lia. reflexivity.
    + assert (r' * w + w <= r * w) by nia. replace (r * w + c <? r' * w + s + n) with false by lia. apply andb_false_r.
Qed.
Lemma cell_lt w h r c : r < h -> c < w -> r * w + c < w * h.
Proof. intros. assert (S r * w <= h * w) by (apply Nat.mul_le_mono_r; lia). nia. Qed.
(** a buffer known cell by cell *)
Lemma samples_nth s w h r c d : r < h -> c < w -> nth (r * w + c) (samples s w h) d = s r c.
Proof.
  intros. unfold samples. rewrite nth_map_seq by now apply cell_lt. now rewrite cell_div, cell_mod by auto.
Qed.
Lemma samples_length s w h : length (samples s w h) = w * h.
Proof. unfold samples. now rewrite map_length, seq_length. Qed.
Lemma cells_samples out s w h : length out = w * h -> (forall r c, r < h -> c < w -> nth (r * w + c) out 0%Z = s r c) -> out = samples s w h.
Proof.
  intros L H. apply (nth_ext_len _ _ 0%Z); [now rewrite samples_length|]. intros i Hi. rewrite L in Hi. destruct (Nat.eq_dec w 0) as [->|Hw]; [lia|].
  pose proof (Nat.div_mod i w Hw) as E. pose proof (Nat.mod_upper_bound i w Hw). assert (i / w < h) by (apply Nat.div_lt_upper_bound; lia).
  rewrite E, (Nat.mul_comm w). rewrite H, samples_nth by lia. reflexivity.
Qed.

(** ** Fields row by row *)
Lemma field_rows w h f start pos lj out : length out = w * h -> start + f <= w -> pos + f * h <= length lj ->
  exists out', for_each (seq 0 h) (fun row out => copy_in out (row * w + start) lj (pos + row * f) f) out = Ok out' /\ length out' = w * h /\
    forall r c, r < h -> c < w -> nth (r * w + c) out' 0%Z =
      if (start <=? c) && (c <? start + f) then nth (pos + (r * f + (c - start))) lj 0%Z else nth (r * w + c) out 0%Z.
Proof.
  intros L Hw Hl.
  destruct (for_each_seq_inv (fun row out => copy_in out (row * w + start) lj (pos + row * f) f)
    (fun k o => length o = w * h /\ forall r c, r < h -> c < w -> nth (r * w + c) o 0%Z =
      if (r <? k) && ((start <=? c) && (c <? start + f)) then nth (pos + (r * f + (c - start))) lj 0%Z else nth (r * w + c) out 0%Z) 0 h out) as (o & E & I).
  - split; [auto|]. intros r c Hr Hc. replace (r <? 0) with false by lia. reflexivity.
  - intros i o Hi [Lo Ho]. assert (S i * w <= h * w) by (apply Nat.mul_le_mono_r; lia). assert (S i * f <= h * f) by (apply Nat.mul_le_mono_r; lia).
    destruct (copy_in_ok o (i * w + start) lj (pos + i * f) f) as (o' & E & L' & H'); [lia|lia|]. exists o'. split; [auto|]. split; [lia|].
    intros r c Hr Hc. rewrite H', run_cells by lia. rewrite Ho by auto. destruct (Nat.eqb_spec r i) as [->|N]; cbn [andb].
    + replace (i <? S i) with true by lia. replace (i <? i) with false by lia. cbn [andb]. destruct (_ && _) eqn:B; [|reflexivity]. f_equal. lia.
    + replace (r <? S i) with (r <? i) by lia. reflexivity.
  - exists o. split; [auto|]. destruct I as [Lo Ho]. split; [auto|]. intros r c Hr Hc. rewrite Ho by auto. replace (r <? 0 + h) with true by lia. reflexivity.
Qed.

Lemma fields1_from fws sh cpp w h lj : sh <> 0 -> forall start pos out, length out = w * h ->
  start + list_sum (map (fun f => f / sh * cpp) fws) <= w -> pos + list_sum (map (fun f => f / sh * cpp) fws) * h <= length lj ->
  exists s p out', for_each fws (fun fieldwidth '(fieldstart, fieldpos, out) =>
    do _ <- assert_ (negb (sh =? 0)%nat);
    let fieldwidth := (fieldwidth / sh * cpp)%nat in
    do out <- for_each (seq 0 h) (fun row out =>
      copy_in out (row * w + fieldstart) lj (fieldpos + row * fieldwidth) fieldwidth) out;
    Ok ((fieldstart + fieldwidth)%nat, (fieldpos + fieldwidth * h)%nat, out)) (start, pos, out) = Ok (s, p, out') /\ length out' = w * h /\
    forall r c, r < h -> c < w -> nth (r * w + c) out' 0%Z =
      if (start <=? c) && (c <? start + list_sum (map (fun f => f / sh * cpp) fws))
      then nth (pos + field_pos (map (fun f => f / sh * cpp) fws) h r (c - start)) lj 0%Z else nth (r * w + c) out 0%Z.
Proof.
  intros Hsh. replace (sh =? 0) with false by lia. induction fws as [|f fws IH]; intros start pos out L Hw Hl.
  - exists start, pos, out. split; [reflexivity|]. split; [auto|]. intros r c Hr Hc. cbn [map list_sum fold_right]. replace ((start <=? c) && (c <? start + 0)) with false by lia. reflexivity.
  - cbn [map list_sum fold_right for_each] in *. set (g := f / sh * cpp) in *. set (fs := map (fun f => f / sh * cpp) fws) in *.
    change (fold_right Nat.add 0 fs) with (list_sum fs) in *.
    change (assert_ (negb false)) with (Ok tt) in *. cbn [bind] in *.
    destruct (field_rows w h g start pos lj out L) as (o1 & E1 & L1 & H1); [lia|nia|]. rewrite E1. cbn [bind].
    destruct (IH (start + g) (pos + g * h) o1 L1) as (s & p & o2 & E2 & L2 & H2); [lia|nia|].
    exists s, p, o2. split; [exact E2|]. split; [auto|]. intros r c Hr Hc. rewrite H2, H1 by auto. cbn [field_pos]. clear H1 H2 IH.
    destruct (Nat.leb_spec start c) as [A|A]; cbn [andb].
    + destruct (Nat.ltb_spec (c - start) g) as [B|B].
      * replace (start + g <=? c) with false by lia. replace (c <? start + g) with true by lia. replace (c <? start + (g + list_sum fs)) with true by lia. cbn [andb]. reflexivity.
      * replace (start + g <=? c) with true by lia. replace (c <? start + g) with false by lia. cbn [andb].
        replace (c <? start + (g + list_sum fs)) with (c <? start + g + list_sum fs) by lia.
        destruct (c <? start + g + list_sum fs); [|reflexivity]. f_equal. replace (c - start - g) with (c - (start + g)) by lia. lia.
    + replace (start + g <=? c) with false by lia. cbn [andb]. reflexivity.
Qed.
Lemma fields1_any fws sh cpp w h lj : sh <> 0 -> list_sum (map (fun f => f / sh * cpp) fws) = w -> w * h <= length lj ->
  cr2_fields1 fws sh cpp w h lj (repeat 0%Z (w * h)) = Ok (samples (fun r c => nth (field_pos (map (fun f => f / sh * cpp) fws) h r c) lj 0%Z) w h).
Proof.
  intros Hsh Hw Hl. unfold cr2_fields1. destruct (fields1_from fws sh cpp w h lj Hsh 0 0 (repeat 0%Z (w * h))) as (s & p & o & E & L & H); [apply repeat_length|lia|lia|].
  match goal with |- context [for_each fws ?F ?S0] => replace (for_each fws F S0) with (Ok (s, p, o)) by (symmetry; exact E) end.
  cbn [bind]. f_equal. apply cells_samples; auto. intros r c Hr Hc. rewrite H by auto. replace ((0 <=? c) && _) with true by lia. cbn [plus]. now rewrite Nat.sub_0_r.
Qed.
Lemma store_length s fws h : forall start, length (store_fields s fws h start) = list_sum fws * h.
Proof. induction fws as [|f fws IH]; intros start; [reflexivity|]. cbn [store_fields list_sum fold_right]. rewrite app_length, samples_length, IH. change (fold_right Nat.add 0 fws) with (list_sum fws). lia. Qed.
Lemma store_pos s fws h r c : forall start x, r < h -> x < list_sum fws -> c = start + x -> nth (field_pos fws h r x) (store_fields s fws h start) 0%Z = s r c.
Proof.
  induction fws as [|f fws IH]; intros start x Hr Hx Hc; cbn [list_sum fold_right] in Hx; [lia|]. change (fold_right Nat.add 0 fws) with (list_sum fws) in Hx.
  cbn [field_pos store_fields]. destruct (Nat.ltb_spec x f).
  - rewrite app_nth1 by (rewrite samples_length; now apply cell_lt). rewrite samples_nth by auto. now rewrite Hc.
  - rewrite app_nth2 by (rewrite samples_length; lia). rewrite samples_length. replace (f * h + field_pos fws h r (x - f) - f * h) with (field_pos fws h r (x - f)) by lia.
    apply IH; lia.
Qed.
Lemma samples_ext s s' w h : (forall r c, r < h -> c < w -> s r c = s' r c) -> samples s w h = samples s' w h.
Proof.
  intros H. symmetry. apply cells_samples; [apply samples_length|]. intros. rewrite samples_nth by auto. symmetry. auto.
Qed.
Lemma fields1_stored s fws sh cpp w h tail : sh <> 0 -> list_sum (map (fun f => f / sh * cpp) fws) = w ->
  cr2_fields1 fws sh cpp w h (store_fields s (map (fun f => f / sh * cpp) fws) h 0 ++ tail) (repeat 0%Z (w * h)) = Ok (samples s w h).
Proof.
  intros Hsh Hw. rewrite fields1_any; auto; [|rewrite app_length, store_length; lia]. f_equal. apply samples_ext. intros r c Hr Hc.
  set (g := map _ fws) in *. rewrite app_nth1; [apply store_pos; lia|]. rewrite store_length.
  assert (X : forall fs x, x < list_sum fs -> field_pos fs h r x < list_sum fs * h).
  { clear - Hr. induction fs as [|f fs IH]; intros x Hx; cbn [list_sum fold_right] in *; [lia|]. change (fold_right Nat.add 0 fs) with (list_sum fs) in *.
    cbn [field_pos]. destruct (Nat.ltb_spec x f); [pose proof (cell_lt f h r x Hr ltac:(lia)); nia|]. specialize (IH (x - f) ltac:(lia)). nia. }
  apply X. lia.
Qed.

(** ** Fields in pairs of rows *)
Section Pairs.
  Variables G m nf H w ljh : nat.    (* triples per field row, per frame row; fields; pairs of rows; width *)
  Variable lj : list Z.
  Let fw := 3 * G.
  Let ljw := 3 * m.
  Let h := 2 * H.
  Hypothesis HG : 0 < G.
  Hypothesis Hm : 0 < m.
  Hypothesis Hw : nf * fw <= w.
  Hypothesis Hin : nf * H * G <= ljh * m.
  Hypothesis Hlj : length lj = ljw * (2 * ljh).
  Let E (n : nat) : nat := n / m * (6 * m) + 3 * (n mod m).
  Let group (r c : nat) : nat := (c / fw * H + r / 2) * G + c mod fw / 3.
  Let I (n : nat) (st : nat * list Z) : Prop := fst st = E n /\ length (snd st) = w * h /\
    forall r c, r < h -> c < w -> nth (r * w + c) (snd st) 0%Z =
      if (c <? nf * fw) && (group r c <? n) then nth (pair_pos ljw fw h r c) lj 0%Z else 0%Z.

  Lemma E_next n : (if ((E n + 3) mod ljw =? 0) then E n + 3 + ljw else E n + 3) = E (S n).
  Proof.
    unfold E, ljw. pose proof (Nat.div_mod n m ltac:(lia)) as D. pose proof (Nat.mod_upper_bound n m ltac:(lia)) as U. set (q := n / m) in *. set (t := n mod m) in *.
    replace (q * (6 * m) + 3 * t + 3) with (3 * (t + 1) + 2 * q * (3 * m)) by lia. rewrite Nat.mod_add by lia.
    destruct (Nat.eq_dec (t + 1) m) as [e|ne].
    - rewrite e, Nat.mod_same by lia. cbn [Nat.eqb]. assert (S n / m = q + 1) as -> by (symmetry; apply Nat.div_unique with 0; lia).
      assert (S n mod m = 0) as -> by (symmetry; apply Nat.mod_unique with (q + 1); lia). lia.
    - rewrite (Nat.mod_small (3 * (t + 1))) by lia. replace (3 * (t + 1) =? 0) with false by lia.
      assert (S n / m = q) as -> by (symmetry; apply Nat.div_unique with (t + 1); lia). assert (S n mod m = t + 1) as -> by (symmetry; apply Nat.mod_unique with q; lia). lia.
  Qed.
  Lemma group_unique k p g r c : k < nf -> p < H -> g < G -> r < h -> c < nf * fw ->
    (group r c = (k * H + p) * G + g <-> r / 2 = p /\ c / fw = k /\ c mod fw / 3 = g).
  Proof.
    intros Hk Hp Hg Hr Hc. unfold group. assert (F : fw <> 0) by (unfold fw; lia). pose proof (Nat.mod_upper_bound c fw F) as U.
    assert (Hg' : c mod fw / 3 < G) by (apply Nat.div_lt_upper_bound; unfold fw in *; lia).
    assert (Hp' : r / 2 < H) by (apply Nat.div_lt_upper_bound; unfold h in *; lia).
    split; [|intros (<- & <- & <-); reflexivity]. intros X. apply cell_eq in X as [X ->]; auto. apply cell_eq in X as [-> ->]; auto.
  Qed.
  Lemma place_of k p g r c : k < nf -> p < H -> g < G -> r / 2 = p -> c / fw = k -> c mod fw / 3 = g ->
    pair_pos ljw fw h r c = E ((k * H + p) * G + g) + r mod 2 * ljw + c mod fw mod 3.
  Proof.
    intros Hk Hp Hg Er Ec Eg. unfold pair_pos. rewrite Er, Ec. unfold h. replace (2 * H / 2) with H by (rewrite Nat.mul_comm, Nat.div_mul; lia).
    pose proof (Nat.div_mod (c mod fw) 3 ltac:(lia)) as D3. pose proof (Nat.mod_upper_bound (c mod fw) 3 ltac:(lia)) as U3. rewrite Eg in D3. set (j := c mod fw mod 3) in *.
    set (n := (k * H + p) * G + g). assert (EN : k * (H * fw) + p * fw + c mod fw = 3 * n + j) by (unfold n, fw in *; nia). rewrite EN. unfold E, ljw.
    pose proof (Nat.div_mod n m ltac:(lia)) as D. pose proof (Nat.mod_upper_bound n m ltac:(lia)) as U.
    assert ((3 * n + j) / (3 * m) = n / m) as -> by (symmetry; apply Nat.div_unique with (3 * (n mod m) + j); lia).
    assert ((3 * n + j) mod (3 * m) = 3 * (n mod m) + j) as -> by (symmetry; apply Nat.mod_unique with (n / m); lia). lia.
  Qed.
  Lemma E_bound n : n < nf * H * G -> E n + ljw + 3 <= length lj.
  Proof.
    intros Hn. rewrite Hlj. unfold E, ljw. pose proof (Nat.div_mod n m ltac:(lia)) as D. pose proof (Nat.mod_upper_bound n m ltac:(lia)) as U.
    assert (n / m < ljh) by (apply Nat.div_lt_upper_bound; lia). nia.
  Qed.

  Definition step2 (row fieldstart col : nat) (st : nat * list Z) : res (nat * list Z) :=
    let '(inpos, out) := st in
    do out <- copy_in out (row * w + fieldstart + col) lj inpos 3;
    do out <- copy_in out ((row + 1) * w + fieldstart + col) lj (inpos + ljw) 3;
    let inpos := (inpos + 3)%nat in
    do _ <- assert_ (negb (ljw =? 0)%nat);
    Ok (if (inpos mod ljw =? 0)%nat then (inpos + ljw)%nat else inpos, out).
  Lemma step2_ok k p g st : k < nf -> p < H -> g < G -> I ((k * H + p) * G + g) st ->
    exists st', step2 (2 * p) (k * fw) (3 * g) st = Ok st' /\ I ((k * H + p) * G + S g) st'.
  Proof.
    intros Hk Hp Hg (Ei & L & HI). destruct st as [inpos out]. cbn [fst snd] in *. subst inpos. unfold step2. set (n := (k * H + p) * G + g) in *.
    assert (Hn : n < nf * H * G) by (unfold n; apply Nat.lt_le_trans with ((k * H + p) * G + G); [lia|]; replace ((k * H + p) * G + G) with ((k * H + p + 1) * G) by lia; apply Nat.mul_le_mono_r; nia).
    pose proof (E_bound n Hn) as B. assert (C : k * fw + 3 * g + 3 <= w) by (assert ((k + 1) * fw <= nf * fw) by (apply Nat.mul_le_mono_r; lia); unfold fw in *; lia).
    assert (R1 : (2 * p + 1) * w + w <= w * h) by (unfold h; replace ((2 * p + 1) * w + w) with (w * (2 * (p + 1))) by lia; apply Nat.mul_le_mono_l; lia).
    destruct (copy_in_ok out (2 * p * w + k * fw + 3 * g) lj (E n) 3) as (o1 & E1 & L1 & H1); [lia|lia|]. rewrite E1. cbn [bind].
    destruct (copy_in_ok o1 ((2 * p + 1) * w + k * fw + 3 * g) lj (E n + ljw) 3) as (o2 & E2 & L2 & H2); [lia|lia|]. rewrite E2. cbn [bind].
    replace (ljw =? 0) with false by (unfold ljw; lia). cbn [negb assert_ bind]. eexists. split; [reflexivity|].
    replace ((k * H + p) * G + S g) with (S n) by (unfold n; lia). split; [cbn [fst]; apply E_next|]. split; [cbn [snd]; lia|]. cbn [snd].
    intros r c Hr Hc. rewrite H2, H1, HI by auto. rewrite <- !(Nat.add_assoc _ (k * fw)). rewrite !run_cells by lia.
    assert (F : fw <> 0) by (unfold fw; lia).
    destruct (Nat.ltb_spec c (nf * fw)) as [Hcw|Hcw]; cbn [andb].
    2: { assert ((k + 1) * fw <= nf * fw) by (apply Nat.mul_le_mono_r; lia). replace (c <? k * fw + 3 * g + 3) with false by (unfold fw in *; lia). rewrite !andb_false_r. reflexivity. }
    pose proof (group_unique k p g r c Hk Hp Hg Hr Hcw) as GU. fold n in GU.
    destruct (Nat.eq_dec (group r c) n) as [EG|NG].
    - replace (group r c <? S n) with true by lia. apply GU in EG as (Er & Ec & Eg).
      rewrite (place_of k p g r c Hk Hp Hg Er Ec Eg). fold n. pose proof (Nat.div_mod r 2 ltac:(lia)) as Dr. pose proof (Nat.mod_upper_bound r 2 ltac:(lia)) as Ur.
      pose proof (Nat.div_mod c fw F) as Dc. pose proof (Nat.div_mod (c mod fw) 3 ltac:(lia)) as D3. pose proof (Nat.mod_upper_bound (c mod fw) 3 ltac:(lia)) as U3.
      rewrite Ec in Dc. rewrite Eg in D3. rewrite Er in Dr. replace (k * fw + 3 * g <=? c) with true by lia. replace (c <? k * fw + 3 * g + 3) with true by lia. rewrite !andb_true_r.
      destruct (Nat.eqb_spec r (2 * p + 1)) as [->|N1].
      + f_equal. replace (2 * p + 1) with (p * 2 + 1) by lia. rewrite (cell_mod 2 p 1) by lia. lia.
      + replace (r =? 2 * p) with true by lia. f_equal. replace r with (2 * p) in * by lia. rewrite (Nat.mul_comm 2 p), Nat.mod_mul by lia. lia.
    - replace (group r c <? S n) with (group r c <? n) by lia.
      assert (X : forall b, b = 0 \/ b = 1 -> ((r =? 2 * p + b) && (k * fw + 3 * g <=? c) && (c <? k * fw + 3 * g + 3)) = false).
      { intros b Hb. destruct (_ && _ && _) eqn:X; [|reflexivity]. exfalso. apply NG, GU. apply andb_true_iff in X as [X X3]. apply andb_true_iff in X as [X1 X2].
        apply Nat.eqb_eq in X1. apply Nat.leb_le in X2. apply Nat.ltb_lt in X3.
        assert (EC : c / fw = k) by (symmetry; apply Nat.div_unique with (c - k * fw); unfold fw in *; lia).
        split; [symmetry; apply Nat.div_unique with b; lia|]. split; [auto|]. pose proof (Nat.div_mod c fw F) as Dc. rewrite EC in Dc.
        symmetry. apply Nat.div_unique with (c mod fw - 3 * g); lia. }
      rewrite (X 1) by auto. rewrite <- (Nat.add_0_r (2 * p)). rewrite (X 0) by auto. reflexivity.
  Qed.
  Lemma triples_ok k p st : k < nf -> p < H -> I ((k * H + p) * G) st ->
    exists st', for_each (step_range 0 fw 3) (fun col st => step2 (2 * p) (k * fw) col st) st = Ok st' /\ I ((k * H + p + 1) * G) st'.
  Proof.
    intros Hk Hp HI. unfold fw. rewrite step_mul by lia. fold fw.
    assert (MAP : forall l st, for_each (map (fun i => 3 * i) l) (fun col st => step2 (2 * p) (k * fw) col st) st = for_each l (fun g st => step2 (2 * p) (k * fw) (3 * g) st) st).
    { clear. induction l as [|a l IH]; intros st; [reflexivity|]. cbn [map for_each]. destruct (step2 _ _ _ st); cbn [bind]; auto. }
    rewrite MAP. destruct (for_each_seq_inv (fun g st => step2 (2 * p) (k * fw) (3 * g) st) (fun g st => I ((k * H + p) * G + g) st) 0 G st) as (st' & E1 & I1).
    - now rewrite Nat.add_0_r.
    - intros g s Hg HS. apply step2_ok; auto; lia.
    - exists st'. split; [exact E1|]. replace ((k * H + p + 1) * G) with ((k * H + p) * G + (0 + G)) by lia. exact I1.
  Qed.
  Lemma rows2_ok k st : k < nf -> I (k * H * G) st ->
    exists st', for_each (step_range 0 h 2) (fun row st => for_each (step_range 0 fw 3) (fun col st => step2 row (k * fw) col st) st) st = Ok st' /\ I ((k + 1) * H * G) st'.
  Proof.
    intros Hk HI. unfold h. rewrite step_mul by lia.
    assert (MAP : forall l st, for_each (map (fun i => 2 * i) l) (fun row st => for_each (step_range 0 fw 3) (fun col st => step2 row (k * fw) col st) st) st =
      for_each l (fun p st => for_each (step_range 0 fw 3) (fun col st => step2 (2 * p) (k * fw) col st) st) st).
    { clear. induction l as [|a l IH]; intros st; [reflexivity|]. cbn [map for_each]. destruct (for_each _ _ st); cbn [bind]; auto. }
    rewrite MAP. destruct (for_each_seq_inv (fun p st => for_each (step_range 0 fw 3) (fun col st => step2 (2 * p) (k * fw) col st) st) (fun p st => I ((k * H + p) * G) st) 0 H st) as (st' & E1 & I1).
    - now rewrite Nat.add_0_r.
    - intros p s Hp HS. destruct (triples_ok k p s Hk ltac:(lia) HS) as (s' & A & B). exists s'. split; [exact A|]. now rewrite Nat.add_succ_r, <- Nat.add_1_r.
    - exists st'. split; [exact E1|]. replace ((k + 1) * H * G) with ((k * H + (0 + H)) * G) by lia. exact I1.
  Qed.
  Lemma fields2_ok : exists out, cr2_fields2 nf fw ljw w h lj (repeat 0%Z (w * h)) = Ok out /\ length out = w * h /\
    forall r c, r < h -> c < w -> nth (r * w + c) out 0%Z = if c <? nf * fw then nth (pair_pos ljw fw h r c) lj 0%Z else 0%Z.
  Proof.
    unfold cr2_fields2.
    match goal with |- context [for_each (seq 0 nf) ?F ?S0] =>
      destruct (for_each_seq_inv F (fun k st => fst (fst st) = k * fw /\ I (k * H * G) (snd (fst st), snd st)) 0 nf S0) as ([[s p] o] & E1 & I1) end.
    - split; [reflexivity|]. split; [cbn [fst snd mult]; unfold E; rewrite Nat.div_0_l, Nat.mod_0_l by lia; reflexivity|]. split; [apply repeat_length|].
      intros r c Hr Hc. cbn [mult]. replace (group r c <? 0) with false by lia. rewrite andb_false_r. cbn [snd]. apply nth_repeat.
    - intros k [[s p] o] Hk [Es HI]. cbn [fst snd] in *. subst s. destruct (rows2_ok k (p, o) ltac:(lia) HI) as ([p' o'] & A & B).
      unfold step2 in A. rewrite (for_each_ext _ _ (fun row st => for_each (step_range 0 fw 3) (fun col st => step2 row (k * fw) col st) st)) by (intros ? [? ?] ?; reflexivity).
      unfold step2. rewrite A. cbn [bind]. eexists. split; [reflexivity|]. cbn [fst snd]. split; [lia|]. replace (S k * H * G) with ((k + 1) * H * G) by lia. exact B.
    - rewrite E1. cbn [bind]. destruct I1 as (_ & _ & L & HI). cbn [fst snd] in *. exists o. split; [reflexivity|]. split; [auto|]. intros r c Hr Hc. rewrite HI by auto.
      destruct (Nat.ltb_spec c (nf * fw)) as [Hcw|]; [|reflexivity]. cbn [andb plus]. replace (group r c <? nf * H * G) with true; [reflexivity|]. symmetry. apply Nat.ltb_lt. unfold group.
      assert (F : fw <> 0) by (unfold fw; lia). pose proof (Nat.mod_upper_bound c fw F) as U.
      assert (c mod fw / 3 < G) by (apply Nat.div_lt_upper_bound; unfold fw in *; lia). assert (r / 2 < H) by (apply Nat.div_lt_upper_bound; unfold h in *; lia).
      assert (c / fw < nf) by (apply Nat.div_lt_upper_bound; lia).
      apply Nat.lt_le_trans with ((c / fw * H + r / 2 + 1) * G); [lia|]. apply Nat.mul_le_mono_r.
      apply Nat.le_trans with ((c / fw + 1) * H); [lia|]. apply Nat.mul_le_mono_r. lia.
  Qed.
End Pairs.
