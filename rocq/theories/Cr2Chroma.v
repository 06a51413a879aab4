(** CR2: interpolation of subsampled chroma. *)
From Coq Require Import List ZArith Lia Bool.
From Coq Require Import ZifyBool ZifyNat.
From Verif Require Import Base BaseLemmas LjpegDec Crx Pef PefSpec LjpegYuvProofs Cr2 Cr2Spec Cr2Proofs.
Import ListNotations.
Open Scope nat_scope.

(** ** Steps that each write their own cells *)
Section Scatter.
  Context {A : Type}.
  Variable f : A -> list Z -> res (list Z).
  Variable img0 : list Z.
  Variable val : nat -> Z.
  Variable cells : A -> nat -> bool.      (* what a step writes *)
  Variable avoid : nat -> bool.           (* what no step may read *)
  Lemma scatter l : (forall a j, In a l -> cells a j = true -> avoid j = true) ->
    (forall a img, In a l -> length img = length img0 -> (forall j, avoid j = false -> nth j img 0%Z = nth j img0 0%Z) ->
      exists img', f a img = Ok img' /\ length img' = length img /\ forall j, nth j img' 0%Z = if cells a j then val j else nth j img 0%Z) ->
    exists img, for_each l f img0 = Ok img /\ length img = length img0 /\
      forall j, nth j img 0%Z = if existsb (fun a => cells a j) l then val j else nth j img0 0%Z.
  Proof.
    intros Hc Hs.
    assert (G : forall done l img, (forall a, In a (done ++ l) -> (forall j, cells a j = true -> avoid j = true) /\ forall img, length img = length img0 -> (forall j, avoid j = false -> nth j img 0%Z = nth j img0 0%Z) ->
        exists img', f a img = Ok img' /\ length img' = length img /\ forall j, nth j img' 0%Z = if cells a j then val j else nth j img 0%Z) ->
      length img = length img0 -> (forall j, nth j img 0%Z = if existsb (fun a => cells a j) done then val j else nth j img0 0%Z) ->
      exists img', for_each l f img = Ok img' /\ length img' = length img0 /\ forall j, nth j img' 0%Z = if existsb (fun a => cells a j) (done ++ l) then val j else nth j img0 0%Z).
    { clear. intros done l. revert done. induction l as [|a l IH]; intros done img H L HI.
      - exists img. rewrite app_nil_r. auto.
      - assert (AV : forall j, avoid j = false -> nth j img 0%Z = nth j img0 0%Z).
        { intros j Hj. rewrite HI. destruct (existsb _ done) eqn:X; [|reflexivity]. apply existsb_exists in X as (b & Hb & X).
          destruct (H b) as [Hx _]; [apply in_or_app; auto|]. rewrite (Hx j X) in Hj. discriminate. }
        destruct (H a) as [_ Hx]; [apply in_or_app; right; left; reflexivity|]. destruct (Hx img L AV) as (i1 & E1 & L1 & H1).
        cbn [for_each]. rewrite E1. cbn [bind]. destruct (IH (done ++ [a]) i1) as (i2 & E2 & L2 & H2).
        + intros b. rewrite <- app_assoc. apply H.
        + lia.
        + intros j. rewrite H1, HI, existsb_app. cbn [existsb]. rewrite orb_false_r. destruct (cells a j); [now rewrite orb_true_r|now rewrite orb_false_r].
        + exists i2. split; [exact E2|]. split; [auto|]. intros j. rewrite H2, <- app_assoc. reflexivity. }
    apply (G [] l img0); [intros a Ha; split; [intros j Hj; exact (Hc a j Ha Hj)|intros img; exact (Hs a img Ha)]|auto|auto].
  Qed.
End Scatter.

Lemma mean_at_ok base len a b c img : a < len -> b < len -> c < len -> base + len <= length img ->
  (0 <= nth (base + a) img 0 < 65536)%Z -> (0 <= nth (base + c) img 0 < 65536)%Z ->
  exists img', mean_at base len a b c img = Ok img' /\ length img' = length img /\
    forall j, nth j img' 0%Z = if j =? base + b then mean (nth (base + a) img 0%Z) (nth (base + c) img 0%Z) else nth j img 0%Z.
Proof.
  intros Ha Hb Hc L R1 R2. unfold mean_at, cget, cput. replace (a <? len) with true by lia. replace (b <? len) with true by lia. replace (c <? len) with true by lia. cbn [assert_ bind].
  rewrite (get_ok _ _ 0%Z) by lia. cbn [bind]. rewrite (get_ok _ _ 0%Z) by lia. cbn [bind]. rewrite put_ok by lia. eexists. split; [reflexivity|].
  split; [apply upd_list_length|]. intros j. rewrite nth_upd by lia. rewrite (Nat.eqb_sym j).
  destruct (Nat.eqb_spec (base + b) j) as [<-|N].
  - unfold mean, wrap_u16. rewrite Z.quot_div_nonneg by lia. rewrite Z.mod_small; [reflexivity|]. split; [apply Z.div_pos; lia|apply Z.div_lt_upper_bound; lia].
  - reflexivity.
Qed.

Lemma step_in a b step c : 0 < step -> (In c (step_range a b step) <-> a <= c < b /\ (c - a) mod step = 0).
Proof.
  intros Hs. unfold step_range. rewrite in_map_iff. split.
  - intros (i & <- & Hi). apply in_seq in Hi. replace (a + i * step - a) with (i * step) by lia. rewrite Nat.mod_mul by lia. split; [|reflexivity]. split; [lia|].
    assert (X : i < (b - a + (step - 1)) / step) by lia. assert (step * (i + 1) <= b - a + (step - 1)).
    { apply Nat.le_trans with (step * ((b - a + (step - 1)) / step)); [apply Nat.mul_le_mono_l; lia|apply Nat.mul_div_le; lia]. } nia.
  - intros [H M]. pose proof (Nat.div_mod (c - a) step ltac:(lia)) as D. rewrite M in D. exists ((c - a) / step). split; [lia|]. apply in_seq. split; [lia|]. cbn [plus].
    apply Nat.lt_le_trans with ((c - a) / step + 1); [lia|]. apply Nat.div_le_lower_bound; [lia|]. nia.
Qed.

(** ** Within a row *)
Definition hcell (w j : nat) : bool := negb (j mod 3 =? 0) && ((j mod (3 * w)) / 3 mod 2 =? 1) && ((j mod (3 * w)) / 3 + 1 <? w).
Lemma row_cells w s j : 0 < w -> s mod (3 * w) = 0 ->
  existsb (fun col => (j =? s + col - 2) || (j =? s + col - 1)) (step_range 6 (3 * w) 6) = (s <=? j) && (j <? s + 3 * w) && hcell w j.
Proof.
  intros Hw Hs. pose proof (Nat.div_mod s (3 * w) ltac:(lia)) as Ds. rewrite Hs in Ds. set (q := s / (3 * w)) in *.
  apply eq_true_iff_eq. rewrite existsb_exists, !andb_true_iff. unfold hcell. rewrite !andb_true_iff, negb_true_iff.
  assert (MJ : forall y, y < 3 * w -> (s + y) mod (3 * w) = y /\ (s + y) mod 3 = y mod 3).
  { intros y Hy. split; [rewrite Nat.add_mod, Hs by lia; rewrite Nat.add_0_l, Nat.mod_mod by lia; now apply Nat.mod_small|].
    rewrite Ds. replace (3 * w * q + 0 + y) with (y + w * q * 3) by lia. apply Nat.mod_add. lia. }
  split.
  - intros (col & Hi & Hj). apply step_in in Hi as [Hi M]; [|lia]. pose proof (Nat.div_mod (col - 6) 6 ltac:(lia)) as D. rewrite M in D. set (i := (col - 6) / 6) in *.
    assert (exists ch, (ch = 1 \/ ch = 2) /\ j = s + (3 * (2 * i + 1) + ch)) as (ch & Hch & ->) by (apply orb_true_iff in Hj as [Hj|Hj]; apply Nat.eqb_eq in Hj; [exists 1|exists 2]; lia).
    destruct (MJ (3 * (2 * i + 1) + ch)) as [-> ->]; [lia|]. replace (3 * (2 * i + 1) + ch) with (ch + (2 * i + 1) * 3) by lia.
    rewrite Nat.mod_add, Nat.div_add by lia. rewrite (Nat.mod_small ch), (Nat.div_small ch) by lia. replace (0 + (2 * i + 1)) with (1 + i * 2) by lia. rewrite Nat.mod_add by lia. cbn [Nat.modulo Nat.divmod fst snd]. lia.
  - intros ((A & B) & ((C & D) & F)). set (y := j - s). assert (Ej : j = s + y) by lia. clearbody y. subst j. assert (Hy : y < 3 * w) by lia. destruct (MJ y Hy) as [E1 E2]. rewrite E1 in *. rewrite E2 in *.
    pose proof (Nat.div_mod y 3 ltac:(lia)) as D1. pose proof (Nat.mod_upper_bound y 3 ltac:(lia)). pose proof (Nat.div_mod (y / 3) 2 ltac:(lia)) as D2.
    apply Nat.eqb_eq in D. rewrite D in D2. exists (6 * (y / 3 / 2) + 6). split; [|lia]. apply step_in; [lia|]. split; [lia|].
    replace (6 * (y / 3 / 2) + 6 - 6) with (y / 3 / 2 * 6) by lia. apply Nat.mod_mul. lia.
Qed.
Lemma hcell_near w s j : 0 < w -> s mod (3 * w) = 0 -> s <= j -> j < s + 3 * w -> hcell w j = true ->
  hcell w (j - 3) = false /\ hcell w (j + 3) = false /\ s <= j - 3 /\ 3 <= j /\ j + 3 < s + 3 * w.
Proof.
  intros Hw Hs A B. unfold hcell. rewrite !andb_true_iff, negb_true_iff. intros ((C & D) & F). pose proof (Nat.div_mod s (3 * w) ltac:(lia)) as Ds. rewrite Hs in Ds. set (q := s / (3 * w)) in *.
  assert (MJ : forall y, y < 3 * w -> (s + y) mod (3 * w) = y).
  { intros y Hy. rewrite Nat.add_mod, Hs by lia. rewrite Nat.add_0_l, Nat.mod_mod by lia. now apply Nat.mod_small. }
  set (y := j - s). assert (Ej : j = s + y) by lia. clearbody y. subst j. assert (Hy : y < 3 * w) by lia. rewrite MJ in D, F by lia.
  pose proof (Nat.div_mod y 3 ltac:(lia)) as D1. pose proof (Nat.mod_upper_bound y 3 ltac:(lia)). pose proof (Nat.div_mod (y / 3) 2 ltac:(lia)) as D2. apply Nat.eqb_eq in D. rewrite D in D2.
  set (i := y / 3 / 2) in *. set (ch := y mod 3) in *. set (t := y / 3) in *.
  replace (s + y - 3) with (s + (y - 3)) by lia. replace (s + y + 3) with (s + (y + 3)) by lia. rewrite !MJ by lia.
  replace (y - 3) with (ch + (2 * i) * 3) by lia. replace (y + 3) with (ch + (2 * i + 2) * 3) by lia. rewrite !Nat.div_add, !(Nat.div_small ch) by lia.
  replace (0 + 2 * i) with (i * 2) by lia. replace (0 + (2 * i + 2)) with ((i + 1) * 2) by lia. rewrite !Nat.mod_mul by lia. cbn [Nat.eqb]. rewrite !andb_false_r. cbn [andb].
  repeat split; lia.
Qed.
Definition u16s (img : list Z) : Prop := forall i, (0 <= nth i img 0 < 65536)%Z.
Lemma mean_range a b : (0 <= a < 65536)%Z -> (0 <= b < 65536)%Z -> (0 <= mean a b < 65536)%Z.
Proof. intros. unfold mean. split; [apply Z.div_pos; lia|apply Z.div_lt_upper_bound; lia]. Qed.

(** a buffer changed at some cells of a range *)
Definition haf (w : nat) (img : list Z) (j : nat) : Z := if hcell w j then mean (nth (j - 3) img 0%Z) (nth (j + 3) img 0%Z) else nth j img 0%Z.
Lemma row_ok w base len row img : 0 < w -> base mod (3 * w) = 0 -> (row + 1) * (3 * w) <= len -> base + len <= length img -> u16s img ->
  exists img', for_each (step_range 6 (3 * w) 6) (fun col img =>
          let pix1 := (row * (3 * w) + col - 6)%nat in
          let pix2 := (pix1 + 3)%nat in
          let pix3 := (row * (3 * w) + col)%nat in
          do img <- mean_at base len (pix1 + 1) (pix2 + 1) (pix3 + 1) img;
          mean_at base len (pix1 + 2) (pix2 + 2) (pix3 + 2) img) img = Ok img' /\ length img' = length img /\
    forall j, nth j img' 0%Z = if (base + row * (3 * w) <=? j) && (j <? base + row * (3 * w) + 3 * w) then haf w img j else nth j img 0%Z.
Proof.
  intros Hw Hb Hl HL HU. assert (Hs : (base + row * (3 * w)) mod (3 * w) = 0) by (rewrite Nat.mod_add by lia; exact Hb).
  assert (Hl' : row * (3 * w) + 3 * w <= len) by lia. clear Hl. set (R := row * (3 * w)) in *. clearbody R. remember (base + R) as s eqn:Es.
  destruct (scatter (fun col img =>
          let pix1 := (R + col - 6)%nat in
          let pix2 := (pix1 + 3)%nat in
          let pix3 := (R + col)%nat in
          do img <- mean_at base len (pix1 + 1) (pix2 + 1) (pix3 + 1) img;
          mean_at base len (pix1 + 2) (pix2 + 2) (pix3 + 2) img) img (fun j => mean (nth (j - 3) img 0%Z) (nth (j + 3) img 0%Z))
    (fun col j => (j =? s + col - 2) || (j =? s + col - 1)) (fun j => (s <=? j) && (j <? s + 3 * w) && hcell w j) (step_range 6 (3 * w) 6)) as (i1 & E1 & L1 & H1).
  - intros col j Hi Hj. rewrite <- row_cells by auto. apply existsb_exists. eauto.
  - intros col im Hi Lm Ha. cbv zeta.
    assert (AV : forall d, d = 1 \/ d = 2 -> nth (base + (R + col - 6 + d)) im 0%Z = nth (s + col - 6 + d) img 0%Z /\ nth (base + (R + col + d)) im 0%Z = nth (s + col + d) img 0%Z).
    { intros d Hd. assert (X : (s <=? s + col - 3 + d) && (s + col - 3 + d <? s + 3 * w) && hcell w (s + col - 3 + d) = true).
      { rewrite <- row_cells by auto. apply existsb_exists. exists col. split; [auto|]. apply step_in in Hi; [|lia]. lia. }
      apply step_in in Hi as [Hi _]; [|lia]. apply andb_true_iff in X as [X XH]. apply andb_true_iff in X as [X1 X2]. 
      destruct (hcell_near w s (s + col - 3 + d) Hw Hs ltac:(lia) ltac:(lia) XH) as (N1 & N2 & N3 & N4 & N5).
      replace (base + (R + col - 6 + d)) with (s + col - 3 + d - 3) by lia. replace (base + (R + col + d)) with (s + col - 3 + d + 3) by lia.
      rewrite !Ha by (rewrite ?N1, ?N2, !andb_false_r; reflexivity). split; f_equal; lia. }
    apply step_in in Hi as [Hi Hm]; [|lia]. assert (Hc3 : col + 3 <= 3 * w) by (pose proof (Nat.div_mod (col - 6) 6 ltac:(lia)) as D6; rewrite Hm in D6; lia). clear Hm. destruct (AV 1) as [A1 A2]; [auto|]. destruct (AV 2) as [A3 A4]; [auto|].
    destruct (mean_at_ok base len (R + col - 6 + 1) (R + col - 6 + 3 + 1) (R + col + 1) im) as (o1 & F1 & G1 & K1); [lia|lia|lia|lia|rewrite A1; apply HU|rewrite A2; apply HU|].
    rewrite F1. cbn [bind].
    assert (A3' : nth (base + (R + col - 6 + 2)) o1 0%Z = nth (s + col - 6 + 2) img 0%Z) by (rewrite K1; replace (_ =? _) with false by lia; exact A3).
    assert (A4' : nth (base + (R + col + 2)) o1 0%Z = nth (s + col + 2) img 0%Z) by (rewrite K1; replace (_ =? _) with false by lia; exact A4).
    destruct (mean_at_ok base len (R + col - 6 + 2) (R + col - 6 + 3 + 2) (R + col + 2) o1) as (o2 & F2 & G2 & K2); [lia|lia|lia|lia|rewrite A3'; apply HU|rewrite A4'; apply HU|].
    exists o2. split; [exact F2|]. split; [lia|]. intros j. rewrite K2, A3', A4', K1, A1, A2.
    destruct (Nat.eqb_spec j (base + (R + col - 6 + 3 + 2))) as [->|N2].
    { replace (base + (R + col - 6 + 3 + 2) =? s + col - 1) with true by lia. rewrite orb_true_r. f_equal; f_equal; lia. }
    destruct (Nat.eqb_spec j (base + (R + col - 6 + 3 + 1))) as [->|N1].
    { replace (base + (R + col - 6 + 3 + 1) =? s + col - 2) with true by lia. cbn [orb]. f_equal; f_equal; lia. }
    replace (j =? s + col - 2) with false by lia. replace (j =? s + col - 1) with false by lia. reflexivity.
  - exists i1. split; [exact E1|]. split; [auto|]. intros j. rewrite H1, row_cells by auto. unfold haf. destruct ((s <=? j) && (j <? s + 3 * w)); cbn [andb]; [|reflexivity]. destruct (hcell w j); reflexivity.
Qed.

Lemma haf_same w s img im j : 0 < w -> s mod (3 * w) = 0 -> s <= j -> j < s + 3 * w -> (forall i, s <= i < s + 3 * w -> nth i im 0%Z = nth i img 0%Z) -> haf w im j = haf w img j.
Proof.
  intros Hw Hs A B H. unfold haf. destruct (hcell w j) eqn:X; [|apply H; lia]. destruct (hcell_near w s j Hw Hs A B X) as (_ & _ & N). rewrite !H by lia. reflexivity.
Qed.
Lemma haf_u16 w img j : u16s img -> (0 <= haf w img j < 65536)%Z.
Proof. intros H. unfold haf. destruct (hcell w j); [apply mean_range; apply H|apply H]. Qed.

(** ** The rows of a chunk *)
Definition rows_of (w base len rows : nat) (img : list Z) : res (list Z) :=
  for_each (seq 0 rows) (fun row img =>
        for_each (step_range 6 (3 * w) 6) (fun col img =>
          let pix1 := (row * (3 * w) + col - 6)%nat in
          let pix2 := (pix1 + 3)%nat in
          let pix3 := (row * (3 * w) + col)%nat in
          do img <- mean_at base len (pix1 + 1) (pix2 + 1) (pix3 + 1) img;
          mean_at base len (pix1 + 2) (pix2 + 2) (pix3 + 2) img) img) img.
Lemma rows_ok w base rows img : 0 < w -> base mod (3 * w) = 0 -> base + rows * (3 * w) <= length img -> u16s img ->
  exists img', rows_of w base (rows * (3 * w)) rows img = Ok img' /\ length img' = length img /\
    forall j, nth j img' 0%Z = if (base <=? j) && (j <? base + rows * (3 * w)) then haf w img j else nth j img 0%Z.
Proof.
  intros Hw Hb HL HU. unfold rows_of.
  match goal with |- context [for_each (seq 0 rows) ?F img] => destruct (for_each_seq_inv F (fun k im => length im = length img /\
    forall j, nth j im 0%Z = if (base <=? j) && (j <? base + k * (3 * w)) then haf w img j else nth j img 0%Z) 0 rows img) as (o & E & L & H) end.
  - split; [auto|]. intros j. replace ((base <=? j) && (j <? base + 0 * (3 * w))) with false by lia. reflexivity.
  - intros k im Hk [L H]. assert (K : (k + 1) * (3 * w) <= rows * (3 * w)) by (apply Nat.mul_le_mono_r; lia).
    destruct (row_ok w base (rows * (3 * w)) k im Hw Hb K ltac:(lia)) as (o & E & L' & H').
    + intros i. rewrite H. destruct (_ && _); [now apply haf_u16|apply HU].
    + exists o. split; [exact E|]. split; [lia|]. intros j. rewrite H'. replace (S k * (3 * w)) with (k * (3 * w) + 3 * w) by lia. set (R := k * (3 * w)) in *.
      assert (Hs : (base + R) mod (3 * w) = 0) by (unfold R; rewrite Nat.mod_add by lia; exact Hb). clearbody R.
      destruct ((base + R <=? j) && (j <? base + R + 3 * w)) eqn:X.
      * replace ((base <=? j) && (j <? base + (R + 3 * w))) with true by lia. apply (haf_same w (base + R)); auto; try lia.
        intros i Hi. rewrite H. replace ((base <=? i) && (i <? base + R)) with false by lia. reflexivity.
      * rewrite H. replace (j <? base + (R + 3 * w)) with (j <? base + R) by lia. reflexivity.
  - exists o. auto.
Qed.
(** ** The middle row *)
Definition middle_of (w base : nat) (img : list Z) : res (list Z) :=
  for_each (step_range 0 (3 * w) 3) (fun col img =>
      let pix1 := col in
      let pix2 := (3 * w + col)%nat in
      let pix3 := (2 * (3 * w) + col)%nat in
      do img <- mean_at base (3 * w * 3) (pix1 + 1) (pix2 + 1) (pix3 + 1) img;
      mean_at base (3 * w * 3) (pix1 + 2) (pix2 + 2) (pix3 + 2) img) img.
Lemma mid_cells w base j : base mod 3 = 0 ->
  existsb (fun col => (j =? base + 3 * w + col + 1) || (j =? base + 3 * w + col + 2)) (step_range 0 (3 * w) 3) =
  (base + 3 * w <=? j) && (j <? base + 3 * w + 3 * w) && negb (j mod 3 =? 0).
Proof.
  intros Hb. pose proof (Nat.div_mod base 3 ltac:(lia)) as Db. rewrite Hb in Db. apply eq_true_iff_eq. rewrite existsb_exists, !andb_true_iff, negb_true_iff. split.
  - intros (col & Hi & Hj). apply step_in in Hi as [Hi M]; [|lia]. rewrite Nat.sub_0_r in M. pose proof (Nat.div_mod col 3 ltac:(lia)) as D. rewrite M in D.
    assert (exists ch, (ch = 1 \/ ch = 2) /\ j = ch + (base / 3 + w + col / 3) * 3) as (ch & Hch & Ej) by (apply orb_true_iff in Hj as [Hj|Hj]; apply Nat.eqb_eq in Hj; [exists 1|exists 2]; lia).
    assert (j mod 3 = ch) as -> by (rewrite Ej, Nat.mod_add by lia; apply Nat.mod_small; lia). lia.
  - intros ((A & B) & C). pose proof (Nat.div_mod j 3 ltac:(lia)) as Dj. pose proof (Nat.mod_upper_bound j 3 ltac:(lia)).
    exists ((j / 3 - base / 3 - w) * 3). split; [|lia]. apply step_in; [lia|]. rewrite Nat.sub_0_r, Nat.mod_mul by lia. lia.
Qed.
Lemma middle_ok w base img : base mod 3 = 0 -> base + 3 * w * 3 <= length img -> u16s img ->
  exists img', middle_of w base img = Ok img' /\ length img' = length img /\
    forall j, nth j img' 0%Z = if (base + 3 * w <=? j) && (j <? base + 3 * w + 3 * w) && negb (j mod 3 =? 0)
      then mean (nth (j - 3 * w) img 0%Z) (nth (j + 3 * w) img 0%Z) else nth j img 0%Z.
Proof.
  intros Hb HL HU. unfold middle_of.
  match goal with |- context [for_each (step_range 0 (3 * w) 3) ?F img] =>
    destruct (scatter F img (fun j => mean (nth (j - 3 * w) img 0%Z) (nth (j + 3 * w) img 0%Z))
      (fun col j => (j =? base + 3 * w + col + 1) || (j =? base + 3 * w + col + 2)) (fun j => (base + 3 * w <=? j) && (j <? base + 3 * w + 3 * w)) (step_range 0 (3 * w) 3)) as (i1 & E1 & L1 & H1) end.
  - intros col j Hi Hj. apply step_in in Hi as [Hi M]; [|lia]. rewrite Nat.sub_0_r in M. pose proof (Nat.div_mod col 3 ltac:(lia)) as D. rewrite M in D. lia.
  - intros col im Hi Lm Ha. cbv zeta. apply step_in in Hi as [Hi M]; [|lia]. rewrite Nat.sub_0_r in M. pose proof (Nat.div_mod col 3 ltac:(lia)) as D. rewrite M in D.
    assert (Hc3 : col + 3 <= 3 * w) by lia. clear D M. set (W := 3 * w) in *. clearbody W.
    assert (AV : forall d, d = 1 \/ d = 2 -> nth (base + (col + d)) im 0%Z = nth (base + (col + d)) img 0%Z /\ nth (base + (2 * W + col + d)) im 0%Z = nth (base + (2 * W + col + d)) img 0%Z).
    { intros d Hd. split; apply Ha; lia. }
    destruct (AV 1) as [A1 A2]; [auto|]. destruct (AV 2) as [A3 A4]; [auto|].
    destruct (mean_at_ok base (W * 3) (col + 1) (W + col + 1) (2 * W + col + 1) im) as (o1 & F1 & G1 & K1); [lia|lia|lia|lia|rewrite A1; apply HU|rewrite A2; apply HU|].
    rewrite F1. cbn [bind].
    assert (A3' : nth (base + (col + 2)) o1 0%Z = nth (base + (col + 2)) img 0%Z) by (rewrite K1; replace (_ =? _) with false by lia; exact A3).
    assert (A4' : nth (base + (2 * W + col + 2)) o1 0%Z = nth (base + (2 * W + col + 2)) img 0%Z) by (rewrite K1; replace (_ =? _) with false by lia; exact A4).
    destruct (mean_at_ok base (W * 3) (col + 2) (W + col + 2) (2 * W + col + 2) o1) as (o2 & F2 & G2 & K2); [lia|lia|lia|lia|rewrite A3'; apply HU|rewrite A4'; apply HU|].
    exists o2. split; [exact F2|]. split; [lia|]. intros j. rewrite K2, A3', A4', K1, A1, A2.
    destruct (Nat.eqb_spec j (base + (W + col + 2))) as [->|N2].
    { replace (base + (W + col + 2) =? base + W + col + 2) with true by lia. rewrite orb_true_r. f_equal; f_equal; lia. }
    destruct (Nat.eqb_spec j (base + (W + col + 1))) as [->|N1].
    { replace (base + (W + col + 1) =? base + W + col + 1) with true by lia. cbn [orb]. f_equal; f_equal; lia. }
    replace (j =? base + W + col + 1) with false by lia. replace (j =? base + W + col + 2) with false by lia. reflexivity.
  - exists i1. split; [exact E1|]. split; [auto|]. intros j. rewrite H1, mid_cells by auto. reflexivity.
Qed.
