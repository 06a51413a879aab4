(** Sony ARW1: the decoder follows the code and the scan order; round trip. *)
From Coq Require Import List ZArith Lia Bool.
From Coq Require Import ZifyBool ZifyNat.
From Verif Require Import Base BaseLemmas Pumps PumpProofs PumpSeq LjpegEnc LjpegDec HuffTree HuffCanon HuffBuild HuffDec LjpegAnySpec Crx CrxLL CrxImageSpec PefSpec Lanes Sony SonySpec.
Import ListNotations.
Open Scope Z_scope.

Lemma lead0_zeros n l : lead0 (repeat false n ++ l) = (n + lead0 l)%nat.
Proof. induction n; cbn; auto. Qed.
Lemma lead0_run n : forall l, (n <= length l)%nat -> lead0 (take0 n l) = zero_run n l.
Proof. induction n; intros [|[] l] H; cbn in *; auto; try lia. f_equal. apply IHn. lia. Qed.
Lemma zero_run_le n : forall l, (zero_run n l <= n)%nat.
Proof. induction n; intros [|[] l]; cbn; try lia. specialize (IHn l). lia. Qed.
Lemma leading_zeros_13 l : (13 <= length l)%nat -> leading_zeros32 (peekv 13 l) = (19 + zero_run 13 l)%nat.
Proof.
  intros H. unfold leading_zeros32. change 32%nat with (19 + 13)%nat. rewrite bits_of_app.
  pose proof (peekv_range 13 l) as R. rewrite Z.div_small by exact R. rewrite bits_of_0, lead0_zeros. f_equal.
  rewrite <- lead0_run by auto. f_equal. unfold peekv. rewrite <- (take0_length 13 l) at 1. apply bits_of_bval.
Qed.

Lemma len_ok p l : msb_rep (length l) p l -> (15 <= length l)%nat ->
  exists p', arw1_len p = Ok (snd (sony_prefix l), p') /\ msb_rep (length (skipn (fst (sony_prefix l)) l)) p' (skipn (fst (sony_prefix l)) l).
Proof.
  intros R L. unfold arw1_len.
  destruct (pr_get msb_ops msb_rep msb_refines _ _ _ 2 R ltac:(lia) ltac:(lia)) as (p1 & E1 & R1). rewrite E1. cbn [bind].
  destruct l as [|a [|b t]]; cbn [length] in L; try lia.
  assert (EV : peekv 2 (a :: b :: t) = Z.b2z a * 2 + Z.b2z b) by (destruct a, b; reflexivity). rewrite EV. cbn [skipn] in R1.
  assert (RL : forall n q, (n <= length t)%nat -> msb_rep (length (a :: b :: t) - 2 - n) q (skipn n t) -> msb_rep (length (skipn n t)) q (skipn n t)).
  { intros n q Hn H. rewrite skipn_length. replace (length t - n)%nat with (length (a :: b :: t) - 2 - n)%nat by (cbn [length]; lia). exact H. }
  destruct a, b; cbn [Z.b2z]; cbv zeta.
  - change (4 - Z.to_nat (1 * 2 + 1))%nat with 1%nat. cbn [Nat.eqb]. exists p1. split; [reflexivity|]. apply (RL 0%nat); [lia|]. cbn [skipn]. now rewrite Nat.sub_0_r.
  - change (4 - Z.to_nat (1 * 2 + 0))%nat with 2%nat. cbn [Nat.eqb]. exists p1. split; [reflexivity|]. apply (RL 0%nat); [lia|]. cbn [skipn]. now rewrite Nat.sub_0_r.
  - change (4 - Z.to_nat (0 * 2 + 1))%nat with 3%nat. cbn [Nat.eqb].
    destruct (pr_get msb_ops msb_rep msb_refines _ _ _ 1 R1 ltac:(cbn [length]; lia) ltac:(lia)) as (p2 & E2 & R2). rewrite E2. cbn [bind].
    destruct t as [|c t]; cbn [length] in L; try lia. exists p2. destruct c; (split; [reflexivity|]); apply (RL 1%nat); auto; cbn [length]; lia.
  - change (4 - Z.to_nat (0 * 2 + 0))%nat with 4%nat. cbn [Nat.eqb].
    destruct (pr_peek msb_refines _ _ _ 13 R1 ltac:(cbn [length]; lia) ltac:(lia)) as (p2 & E2 & R2 & _). rewrite E2. cbn [bind].
    rewrite leading_zeros_13 by lia. rewrite usub_ok by lia. cbn [bind]. replace (19 + zero_run 13 t - 19)%nat with (zero_run 13 t) by lia.
    pose proof (zero_run_le 13 t) as Z1.
    destruct (pr_get msb_ops msb_rep msb_refines _ _ _ (Nat.min 13 (zero_run 13 t + 1)) R2 ltac:(cbn [length]; lia) ltac:(lia)) as (p3 & E3 & R3). rewrite E3. cbn [bind].
    exists p3. split; [reflexivity|]. cbn [sony_prefix fst skipn]. apply (RL (Nat.min 13 (zero_run 13 t + 1))); auto. lia.
Qed.

Lemma land_top len v : (0 < len)%nat -> 0 <= v < 2 ^ Z.of_nat len -> (Z.land v (2 ^ Z.of_nat (len - 1)) =? 0) = (v <? 2 ^ Z.of_nat (len - 1)).
Proof.
  intros Hl Hv. assert (E : 2 ^ Z.of_nat len = 2 * 2 ^ Z.of_nat (len - 1)).
  { replace (Z.of_nat len) with (Z.of_nat (len - 1) + 1) by lia. rewrite Z.pow_add_r by lia. lia. }
  set (m := 2 ^ Z.of_nat (len - 1)) in *. assert (Hm : 0 < m) by (apply Z.pow_pos_nonneg; lia).
  assert (T : Z.testbit v (Z.of_nat (len - 1)) = negb (v <? m)).
  { rewrite Z.testbit_eqb by lia. fold m. destruct (Z.ltb_spec v m); cbn [negb].
    - now rewrite Z.div_small by lia.
    - replace (v / m) with 1; [reflexivity|]. apply (Z.div_unique v m 1 (v - m)); lia. }
  destruct (Z.ltb_spec v m) as [H|H]; cbn [negb] in T.
  - apply Z.eqb_eq. apply Z.bits_inj'. intros i Hi. rewrite Z.land_spec, Z.bits_0. unfold m. destruct (Z.eq_dec i (Z.of_nat (len - 1))) as [->|N].
    + now rewrite T.
    + rewrite Z.pow2_bits_false by lia. apply andb_false_r.
  - apply Z.eqb_neq. intros C. assert (B : Z.testbit (Z.land v m) (Z.of_nat (len - 1)) = true).
    { rewrite Z.land_spec, T. unfold m. now rewrite Z.pow2_bits_true by lia. }
    rewrite C, Z.bits_0 in B. discriminate.
Qed.

Lemma prefix_bounds l : (fst (sony_prefix l) <= 15)%nat /\ (snd (sony_prefix l) <= 17)%nat.
Proof.
  assert (G : forall l', (2 + Nat.min 13 (zero_run 13 l' + 1) <= 15)%nat /\ (4 + zero_run 13 l' <= 17)%nat) by (intros l'; pose proof (zero_run_le 13 l'); lia).
  destruct l as [|[] [|[] [|[] t]]]; try (cbn; lia); try (cbn [sony_prefix fst snd]; apply G).
Qed.

Lemma add_ok p l sum len : (len <= 17)%nat -> (len <= length l)%nat -> msb_rep (length l) p l -> Z.abs sum < 2 ^ 30 ->
  exists p', arw1_add len sum p = Ok (sum + sony_diff len (peekv len l), p') /\ msb_rep (length (skipn len l)) p' (skipn len l).
Proof.
  intros Hl HL R Hs. unfold arw1_add.
  destruct (pr_get msb_ops msb_rep msb_refines _ _ _ len R HL ltac:(lia)) as (p1 & E1 & R1). rewrite E1. cbn [bind].
  pose proof (peekv_range len l) as V. set (v := peekv len l) in *.
  assert (P : 2 ^ Z.of_nat len <= 2 ^ 17) by (apply Z.pow_le_mono_r; lia). change (2 ^ 17) with 131072 in P. change (2 ^ 30) with 1073741824 in Hs.
  rewrite i32_ok by lia. cbn [bind]. unfold sony_diff.
  exists p1. rewrite skipn_length. split; [|exact R1].
  destruct (Nat.eqb_spec len 0) as [->|N].
  - cbn [Nat.ltb Nat.leb andb bind]. assert (Hv : v = 0) by (change (2 ^ Z.of_nat 0) with 1 in V; lia). rewrite Hv. reflexivity.
  - replace (0 <? len)%nat with true by lia. cbn [andb]. rewrite land_top by (auto; lia).
    destruct (v <? _); cbn [bind]; [rewrite i32_ok by lia; cbn [bind]|]; do 2 f_equal; lia.
Qed.

(** the row variable of the loop before the [j]-th sample of a column *)
Definition loop_row (h j : nat) : nat := (if j <=? h / 2 then 2 * j else 2 * (j - h / 2) + 1)%nat.

Lemma half h : (h mod 2 = 0)%nat -> (h = 2 * (h / 2))%nat.
Proof. intros. pose proof (Nat.div_mod h 2 ltac:(lia)). lia. Qed.
Section Arw1.
  Variables (w h : nat) (l0 : list bool).
  Hypothesis Hev : (h mod 2 = 0)%nat.
  Hypothesis Hh : (0 < h)%nat.
  Local Notation nx := (fun _ : nat => sony_next).
  Hypothesis HD : data_for nx l0 (w * h).
  Local Notation S_ := (total (diff_at nx l0)).
  Hypothesis HS : forall k, (k <= w * h)%nat -> Z.abs (S_ k) < 2 ^ 30.

  Definition at_ (i : nat) (p : wpump) : Prop := msb_rep (length (bits_after nx l0 i)) p (bits_after nx l0 i).
  Definition row_of (j : nat) : nat := (if j <? h / 2 then 2 * j else 2 * (j - h / 2) + 1)%nat.
  (** what is written before sample [j] of column [x] from the right *)
  Definition done (x j : nat) (out : list Z) : Prop :=
    length out = (w * h)%nat /\ forall x' j', (x' < w)%nat -> (j' < h)%nat -> (x' < x \/ x' = x /\ j' < j)%nat ->
      nth (row_of j' * w + (w - 1 - x')) out 0 = S_ (S (x' * h + j')) mod 65536.

  Lemma row_lt j : (j < h)%nat -> (row_of j < h)%nat.
  Proof. pose proof (half h Hev). unfold row_of. intros. destruct (Nat.ltb_spec j (h / 2)); lia. Qed.
  Lemma row_inj j j' : (j < h)%nat -> (j' < h)%nat -> row_of j = row_of j' -> j = j'.
  Proof. pose proof (half h Hev). unfold row_of. intros. destruct (Nat.ltb_spec j (h / 2)), (Nat.ltb_spec j' (h / 2)); lia. Qed.
  Lemma cell_inj r c r' c' : (c < w)%nat -> (c' < w)%nat -> (r * w + c = r' * w + c')%nat -> r = r' /\ c = c'.
  Proof. intros. assert (r = r') by nia. subst. lia. Qed.

  Lemma col_ok x m : forall fuel j p out, (x < w)%nat -> (j + m = h)%nat -> (m < fuel)%nat -> done x j out -> at_ (x * h + j) p ->
    exists p' out', arw1_col fuel w h (w - 1 - x) (loop_row h j) (S_ (x * h + j)) p out = Ok (S_ (S x * h), p', out') /\ done (S x) 0 out' /\ at_ (S x * h) p'.
  Proof.
    pose proof (half h Hev) as Hf. induction m as [|m IH]; intros fuel j p out Hx Hj Hfu HO HA; (destruct fuel as [|fuel]; [lia|]); cbn [arw1_col].
    - assert (EL : (h <? loop_row h j)%nat = true).
      { apply Nat.ltb_lt. unfold loop_row. destruct (Nat.leb_spec j (h / 2)); lia. }
      rewrite EL. replace (S x * h)%nat with (x * h + j)%nat by lia. exists p, out. split; [reflexivity|]. split; [|exact HA].
      destruct HO as [HL HO]. split; [exact HL|]. intros x' j' Hx' Hj' [C|C]; [|lia]. apply HO; auto. lia.
    - assert (Hjh : (j < h)%nat) by lia. assert (EL : (h <? loop_row h j)%nat = false).
      { apply Nat.ltb_ge. unfold loop_row. destruct (Nat.leb_spec j (h / 2)); lia. }
      rewrite EL. cbv zeta. assert (ER : (if (loop_row h j =? h)%nat then 1%nat else loop_row h j) = row_of j).
      { unfold loop_row, row_of. destruct (Nat.leb_spec j (h / 2)), (Nat.ltb_spec j (h / 2)), (Nat.eqb_spec (2 * j) h); try lia.
        all: destruct (Nat.eqb_spec (2 * (j - h / 2) + 1) h); lia. }
      rewrite ER. assert (HI : (x * h + j < w * h)%nat) by nia.
      pose proof (HD _ HI) as L32. unfold at_ in HA. set (B := bits_after nx l0 (x * h + j)) in *.
      destruct (prefix_bounds B) as [PB1 PB2].
      destruct (len_ok p B HA ltac:(lia)) as (p1 & E1 & R1). rewrite E1. cbn [bind].
      assert (PL : (snd (sony_prefix B) <= length (skipn (fst (sony_prefix B)) B))%nat) by (rewrite skipn_length; lia).
      destruct (add_ok p1 _ (S_ (x * h + j)) _ PB2 PL R1 (HS (x * h + j)%nat ltac:(lia))) as (p2 & E2 & R2).
      rewrite E2. cbn [bind].
      assert (ED : sony_diff (snd (sony_prefix B)) (peekv (snd (sony_prefix B)) (skipn (fst (sony_prefix B)) B)) = diff_at nx l0 (x * h + j)).
      { unfold diff_at. fold B. unfold sony_next. now destruct (sony_prefix B). }
      rewrite ED. change (S_ (x * h + j)%nat + diff_at nx l0 (x * h + j)) with (S_ (S (x * h + j))).
      destruct HO as [HL HO]. pose proof (row_lt j Hjh) as RL.
      rewrite put_ok by (rewrite HL; nia). cbn [bind].
      assert (EN : (row_of j + 2)%nat = loop_row h (S j)).
      { unfold loop_row, row_of. destruct (Nat.leb_spec (S j) (h / 2)), (Nat.ltb_spec j (h / 2)); lia. }
      rewrite EN. replace (S (x * h + j)) with (x * h + S j)%nat by lia. apply IH; auto; try lia.
      + split; [now rewrite upd_list_length|]. intros x' j' Hx' Hj' C. destruct (Nat.eq_dec (row_of j' * w + (w - 1 - x')) (row_of j * w + (w - 1 - x))) as [E|N].
        * apply cell_inj in E as [A1 A2]; [|lia|lia]. assert (x' = x) by lia. assert (j' = j) by (apply row_inj; auto). subst.
          rewrite nth_upd_eq by (rewrite HL; nia). unfold wrap_u16. do 2 f_equal. lia.
        * rewrite nth_upd_neq by auto. apply HO; auto. destruct (Nat.eq_dec x' x), (Nat.eq_dec j' j); subst; try lia. 
      + unfold at_. replace (x * h + S j)%nat with (S (x * h + j)) by lia. cbn [bits_after]. fold B.
        assert (EB : snd (sony_next B) = skipn (snd (sony_prefix B)) (skipn (fst (sony_prefix B)) B)).
        { unfold sony_next. destruct (sony_prefix B). cbn [fst snd]. rewrite skipn_skipn. reflexivity. }
        rewrite EB. exact R2.
  Qed.

  Lemma arw1_ok src : Forall is_byte src -> l0 = byte_bits src -> exists out, arw1_decode src w h = Ok out /\ length out = (w * h)%nat /\
    forall k, (k < w * h)%nat -> nth (scan_row h k * w + scan_col w h k) out 0 = S_ (S k) mod 65536.
  Proof.
    intros HB El. unfold arw1_decode.
    destruct (for_each_seq_inv (fun x '(sum, p, out) => arw1_col (h + 2) w h (w - 1 - x) 0 sum p out)
      (fun x '(sum, p, out) => sum = S_ (x * h)%nat /\ done x 0 out /\ at_ (x * h) p) 0 w (0, wpump_new src, repeat 0 (w * h))) as ([[sum p] out] & E & _ & HO & _).
    - cbn [Nat.mul]. split; [reflexivity|]. split.
      + split; [apply repeat_length|]. intros x' j' _ _ C. lia.
      + unfold at_. cbn [bits_after]. subst l0. apply msb_new_rep; auto. rewrite byte_bits_length. lia.
    - intros x [[sum p] out] Hx (Es & HO & HA). subst sum.
      destruct (col_ok x h (h + 2) 0 p out ltac:(lia) ltac:(lia) ltac:(lia) HO) as (p' & out' & E & HO' & HA').
      { now rewrite Nat.add_0_r. }
      rewrite Nat.add_0_r in E. change (loop_row h 0) with 0%nat in E. rewrite E. eexists. split; [reflexivity|]. exact (conj eq_refl (conj HO' HA')).
    - rewrite E. cbn [bind]. exists out. split; [reflexivity|]. destruct HO as [HL HO]. split; [exact HL|]. intros k Hk.
      assert (Hq : (k / h < w)%nat) by (apply Nat.div_lt_upper_bound; lia). assert (Hm : (k mod h < h)%nat) by (apply Nat.mod_upper_bound; lia).
      specialize (HO (k / h)%nat (k mod h)%nat Hq Hm (or_introl Hq)). unfold scan_row, scan_col. cbv zeta. unfold row_of in HO. rewrite HO.
      do 3 f_equal. rewrite (Nat.div_mod k h) at 3 by lia. lia.
  Qed.
End Arw1.

Theorem arw1_any src w h : Forall is_byte src -> (h mod 2 = 0)%nat -> (0 < h)%nat -> data_for (fun _ => sony_next) (byte_bits src) (w * h) ->
  (forall k, (k <= w * h)%nat -> Z.abs (total (diff_at (fun _ => sony_next) (byte_bits src)) k) < 2 ^ 30) ->
  exists out, arw1_decode src w h = Ok out /\ length out = (w * h)%nat /\
    forall k, (k < w * h)%nat -> nth (scan_row h k * w + scan_col w h k) out 0 = total (diff_at (fun _ => sony_next) (byte_bits src)) (S k) mod 65536.
Proof. intros HB Hev Hh HD HS. apply (arw1_ok w h (byte_bits src)); auto. Qed.

(** ** Round trip *)
Lemma zero_run_word z t n : (z < n)%nat -> zero_run n (repeat false z ++ true :: t) = z.
Proof. revert n. induction z; intros [|n] H; cbn; try lia. f_equal. apply IHz. lia. Qed.
Lemma prefix_word len rest : (len <= 16)%nat -> sony_prefix (sony_word len ++ rest) = (length (sony_word len), len).
Proof.
  intros H. do 4 (destruct len as [|len]; [reflexivity|]). cbn [sony_word]. rewrite <- !app_comm_cons. rewrite <- app_assoc. cbn [app].
  assert (E : forall t, sony_prefix (false :: false :: t) = (2 + Nat.min 13 (zero_run 13 t + 1), 4 + zero_run 13 t)%nat) by reflexivity.
  rewrite E, zero_run_word by lia. cbn [length]. rewrite app_length, repeat_length. cbn [length]. f_equal; lia.
Qed.
Lemma sony_magnitude d rest : sony_diff (category d) (peekv (category d) (magnitude d ++ rest)) = d.
Proof.
  unfold sony_diff. destruct (Z.eq_dec d 0) as [->|N]; [reflexivity|].
  destruct (category_range d N) as [R C]. replace (category d =? 0)%nat with false by lia.
  unfold magnitude. set (v := if d <? 0 then _ else d).
  assert (E : 2 ^ Z.of_nat (category d) = 2 * 2 ^ Z.of_nat (category d - 1)).
  { replace (Z.of_nat (category d)) with (Z.of_nat (category d - 1) + 1) by lia. rewrite Z.pow_add_r by lia. lia. }
  assert (V : 0 <= v < 2 ^ Z.of_nat (category d)) by (unfold v; destruct (Z.ltb_spec d 0); lia).
  rewrite peekv_bits_of by exact V. unfold v in *. destruct (Z.ltb_spec d 0).
  - replace (d + 2 ^ Z.of_nat (category d) - 1 <? 2 ^ Z.of_nat (category d - 1)) with true by lia. lia.
  - replace (d <? 2 ^ Z.of_nat (category d - 1)) with false by lia. reflexivity.
Qed.
Lemma sony_encoded d r : Z.abs d < 65536 -> sony_next (sony_bits d ++ r) = (d, r).
Proof.
  intros H. assert (C : (category d <= 16)%nat) by (apply category_bound; exact H).
  unfold sony_next, sony_bits. rewrite <- app_assoc. rewrite prefix_word by auto.
  assert (E1 : skipn (length (sony_word (category d))) (sony_word (category d) ++ magnitude d ++ r) = magnitude d ++ r).
  { rewrite skipn_app, skipn_all, Nat.sub_diag. reflexivity. }
  rewrite E1, sony_magnitude. f_equal.
  rewrite <- skipn_skipn, E1. rewrite <- (magnitude_length d) at 1. rewrite skipn_app, skipn_all, Nat.sub_diag. reflexivity.
Qed.

Lemma scan_total s w h d : (forall k, (k < w * h)%nat -> d k = nth k (scan_diffs s w h) 0) ->
  forall k, (k < w * h)%nat -> total d (S k) = scan_value s w h k.
Proof.
  intros H. induction k; intros Hk.
  - cbn [total]. rewrite H by auto. unfold scan_diffs. rewrite nth_map_seq by auto. cbn [plus Nat.eqb]. lia.
  - change (total d (S (S k))) with (total d (S k) + d (S k)). rewrite IHk by lia. rewrite H by auto. unfold scan_diffs. rewrite nth_map_seq by auto.
    cbn [plus Nat.eqb Nat.sub]. rewrite Nat.sub_0_r. lia.
Qed.
Lemma scan_inside w h k : (h mod 2 = 0)%nat -> (k < w * h)%nat -> (scan_row h k < h)%nat /\ (scan_col w h k < w)%nat.
Proof.
  intros Hev Hk. assert (Hh : (0 < h)%nat) by nia. pose proof (half h Hev) as Hf. split.
  - unfold scan_row. cbv zeta. pose proof (Nat.mod_upper_bound k h ltac:(lia)). destruct (Nat.ltb_spec (k mod h) (h / 2)); lia.
  - unfold scan_col. assert (0 < w)%nat by nia. generalize (k / h)%nat. intros q. lia.
Qed.
(** every sample is scanned *)
Lemma scan_onto w h r c : (h mod 2 = 0)%nat -> (r < h)%nat -> (c < w)%nat -> exists k, (k < w * h)%nat /\ scan_row h k = r /\ scan_col w h k = c.
Proof.
  intros Hev Hr Hc. pose proof (half h Hev) as Hf. set (j := if (r mod 2 =? 0)%nat then (r / 2)%nat else (h / 2 + r / 2)%nat).
  pose proof (Nat.div_mod r 2 ltac:(lia)) as D. pose proof (Nat.mod_upper_bound r 2 ltac:(lia)) as M.
  assert (Hj : (j < h)%nat) by (unfold j; destruct (Nat.eqb_spec (r mod 2) 0); lia).
  exists ((w - 1 - c) * h + j)%nat. split; [nia|]. unfold scan_row, scan_col. cbv zeta.
  replace ((w - 1 - c) * h + j)%nat with (j + (w - 1 - c) * h)%nat by lia. rewrite Nat.mod_add, Nat.div_add by lia.
  rewrite (Nat.mod_small j h), (Nat.div_small j h) by auto. split; [|lia].
  unfold j. destruct (Nat.eqb_spec (r mod 2) 0).
  - replace (r / 2 <? h / 2)%nat with true by lia. lia.
  - replace (h / 2 + r / 2 <? h / 2)%nat with false by lia. lia.
Qed.

Theorem arw1_roundtrip w h s tail : (h mod 2 = 0)%nat -> (0 < h)%nat -> picture_within s w h 65536 ->
  Forall is_byte tail -> (4 <= length tail)%nat ->
  arw1_decode (stored (arw1_encode s w h) tail) w h = Ok (samples s w h).
Proof.
  intros Hev Hh HP Ht Lt. destruct (stored_bits (arw1_encode s w h) tail Lt Ht) as (rest & EB & LR).
  set (ds := scan_diffs s w h) in *. assert (LD : length ds = (w * h)%nat) by (unfold ds, scan_diffs; now rewrite map_length, seq_length).
  assert (VB : forall k, (k < w * h)%nat -> 0 <= scan_value s w h k < 65536).
  { intros k Hk. destruct (scan_inside w h k Hev Hk). apply HP; auto. }
  assert (Enc : forall d r, In d ds -> sony_next (sony_bits d ++ r) = (d, r)).
  { intros d r Hd. apply sony_encoded. apply In_nth with (d := 0) in Hd as (i & Hi & <-). rewrite LD in Hi. unfold ds, scan_diffs. rewrite nth_map_seq by auto. cbn [plus].
    pose proof (VB i Hi). destruct (Nat.eqb_spec i 0); [lia|]. pose proof (VB (i - 1)%nat ltac:(lia)). lia. }
  change (arw1_encode s w h) with (concat (map sony_bits ds)) in *.
  assert (BY : Forall is_byte (stored (concat (map sony_bits ds)) tail)).
  { unfold stored. apply Forall_app. split; auto. apply pack_bytes. }
  assert (DI : forall i, (i < w * h)%nat -> diff_at (fun _ => sony_next) (byte_bits (stored (concat (map sony_bits ds)) tail)) i = nth i ds 0).
  { intros i Hi. rewrite EB. apply (seq_diff sony_next sony_bits rest ds Enc). lia. }
  pose proof (scan_total s w h _ DI) as ST.
  destruct (arw1_any (stored (concat (map sony_bits ds)) tail) w h BY Hev Hh) as (out & E & LO & HO).
  - rewrite EB. rewrite <- LD. apply (seq_data sony_next sony_bits rest ds Enc LR).
  - intros [|k] Hk; [cbn; lia|]. rewrite ST by lia. specialize (VB k ltac:(lia)). change (2 ^ 30) with 1073741824. lia.
  - rewrite E. f_equal. apply (nth_ext_len _ _ 0); [now rewrite LO; unfold samples; rewrite map_length, seq_length|].
    intros i Hi. rewrite LO in Hi. rewrite samples_nth by auto. assert (Hw : (0 < w)%nat) by nia.
    assert (B1 : (i / w < h)%nat) by (apply Nat.div_lt_upper_bound; lia). assert (B2 : (i mod w < w)%nat) by (apply Nat.mod_upper_bound; lia).
    destruct (scan_onto w h (i / w) (i mod w) Hev B1 B2) as (k & Hk & K1 & K2).
    specialize (HO k Hk). rewrite K1, K2 in HO. rewrite (Nat.div_mod i w) at 1 by lia. rewrite (Nat.mul_comm w). rewrite HO, ST by auto.
    unfold scan_value. rewrite K1, K2. apply Z.mod_small. apply HP; auto.
Qed.

(** ** Images of odd height: the odd rows are never written *)
Lemma col_odd w h col : forall fuel row sum p out r, (h mod 2 = 1)%nat -> (row mod 2 = 0)%nat -> arw1_col fuel w h col row sum p out = Ok r -> (col < w)%nat ->
  length out = (w * h)%nat -> (forall i, (i < w * h)%nat -> ((i / w) mod 2 = 1)%nat -> nth i out 0 = 0) ->
  length (snd r) = (w * h)%nat /\ (forall i, (i < w * h)%nat -> ((i / w) mod 2 = 1)%nat -> nth i (snd r) 0 = 0).
Proof.
  induction fuel; intros row sum p out r Hh Hr E Hc HL HO; cbn [arw1_col] in E; [discriminate|].
  destruct (h <? row)%nat; [injection E as <-; auto|]. cbv zeta in E.
  assert (N : (row =? h)%nat = false) by (apply Nat.eqb_neq; intros ->; lia). rewrite N in E.
  destruct (arw1_len p) as [[len p1]| |]; try discriminate. cbn [bind] in E.
  destruct (arw1_add len sum p1) as [[sum' p2]| |]; try discriminate. cbn [bind] in E.
  destruct (put out (row * w + col) (wrap_u16 sum')) as [out'| |] eqn:EP; try discriminate. cbn [bind] in E.
  pose proof (put_inv _ _ _ _ EP) as [PL ->].
  apply IHfuel in E; auto.
  - replace (row + 2)%nat with (row + 1 * 2)%nat by lia. rewrite Nat.mod_add by lia. exact Hr.
  - now rewrite upd_list_length.
  - intros i Hi Ho. destruct (Nat.eq_dec i (row * w + col)) as [->|Ne]; [|now rewrite nth_upd_neq by auto; apply HO].
    exfalso. replace (row * w + col)%nat with (col + row * w)%nat in Ho by lia. rewrite Nat.div_add, Nat.div_small in Ho by lia. lia.
Qed.
Theorem arw1_odd_height src w h out r c : (h mod 2 = 1)%nat -> arw1_decode src w h = Ok out -> (r mod 2 = 1)%nat -> (r < h)%nat -> (c < w)%nat ->
  nth (r * w + c) out 0 = 0.
Proof.
  intros Hh E Hr Hrh Hc. unfold arw1_decode in E.
  destruct (for_each _ _ _) as [[[sum p] out']| |] eqn:EF in E; try discriminate. cbn [bind] in E. injection E as <-.
  assert (G : forall n st, for_each (seq 0 n) (fun x '(sum, p, out) => arw1_col (h + 2) w h (w - 1 - x) 0 sum p out) (0, wpump_new src, repeat 0 (w * h)) = Ok st -> (n <= w)%nat ->
    length (snd st) = (w * h)%nat /\ forall i, (i < w * h)%nat -> ((i / w) mod 2 = 1)%nat -> nth i (snd st) 0 = 0).
  { induction n; intros st Hn Hle.
    - cbn [seq for_each] in Hn. injection Hn as <-. split; [apply repeat_length|]. intros i Hi _. apply nth_repeat_lt. auto.
    - rewrite seq_S, for_each_app in Hn. destruct (for_each (seq 0 n) _ _) as [[[s1 p1] o1]| |] eqn:E1 in Hn; try discriminate. cbn [bind for_each] in Hn.
      destruct (IHn _ E1 ltac:(lia)) as [L1 O1]. cbn [snd] in L1, O1.
      destruct (arw1_col (h + 2) w h (w - 1 - (0 + n)) 0 s1 p1 o1) as [st'| |] eqn:E2; try discriminate. cbn [bind] in Hn. injection Hn as <-.
      apply (col_odd w h _ _ _ _ _ _ _ Hh) in E2; auto. lia. }
  destruct (G w _ EF ltac:(lia)) as [_ HO]. cbn [snd] in HO. apply HO; [nia|].
  replace (r * w + c)%nat with (c + r * w)%nat by lia. rewrite Nat.div_add, Nat.div_small by lia. exact Hr.
Qed.
