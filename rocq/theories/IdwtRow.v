(** One row of the inverse transform. *)
From Coq Require Import List ZArith Lia Bool.
From Verif Require Import Base BaseLemmas Crx CrxLL Idwt IdwtSpec.
Import ListNotations.
Open Scope Z_scope.

Lemma lift4_ok l a b C : Z.abs l <= 2 * C + 1 -> Z.abs a <= 2 * C -> Z.abs b <= 2 * C -> 0 <= C <= 2 ^ 28 ->
  lift4 l a b = Ok (l - (a + b + 2) / 4).
Proof.
  intros. unfold lift4. rewrite i32_ok by lia. cbn [bind]. rewrite i32_ok by lia. cbn [bind].
  rewrite Z.shiftr_div_pow2 by lia. change (2 ^ 2) with 4. apply i32_ok.
  pose proof (Z.div_mod (a + b + 2) 4) as D. pose proof (Z.mod_pos_bound (a + b + 2) 4). lia.
Qed.
Lemma lift1_ok l a C : Z.abs l <= 2 * C + 1 -> Z.abs a <= 2 * C -> 0 <= C <= 2 ^ 28 ->
  lift1 l a = Ok (l - (a + 1) / 2).
Proof.
  intros. unfold lift1. rewrite i32_ok by lia. cbn [bind].
  rewrite Z.shiftr_div_pow2 by lia. change (2 ^ 1) with 2. apply i32_ok.
  pose proof (Z.div_mod (a + 1) 2) as D. pose proof (Z.mod_pos_bound (a + 1) 2). lia.
Qed.
Lemma avg_ok h a b C : Z.abs h <= 2 * C -> Z.abs a <= C -> Z.abs b <= C -> 0 <= C <= 2 ^ 28 ->
  avg h a b = Ok (h + (a + b) / 2).
Proof.
  intros. unfold avg. rewrite i32_ok by lia. cbn [bind].
  rewrite Z.shiftr_div_pow2 by lia. change (2 ^ 1) with 2. apply i32_ok.
  pose proof (Z.div_mod (a + b) 2) as D. pose proof (Z.mod_pos_bound (a + b) 2). lia.
Qed.

(** ** Reconstruction *)
Lemma low_even x n : low x n - (high x (n - 1) + high x n + 2) / 4 = x (2 * n).
Proof. unfold low. lia. Qed.
Lemma high_odd x n : high x n + (x (2 * n + 2) + x (2 * n)) / 2 = x (2 * n + 1).
Proof. unfold high. rewrite (Z.add_comm (x (2 * n + 2))). lia. Qed.

Lemma half_twice a : (a + a + 2) / 4 = (a + 1) / 2.
Proof. replace (a + a + 2) with ((a + 1) * 2) by lia. change 4 with (2 * 2). rewrite Z.div_mul_cancel_r; lia. Qed.

Section Mirrored.
Variables (before after : bool) (n : nat) (f : Z -> Z).
Let x := fun j => f (mirror before after n j).
Hypothesis Hn : (3 <= n)%nat.

Lemma mirror_in i : 0 <= i < Z.of_nat n -> mirror before after n i = i.
Proof using.
  clear x f Hn. intros. unfold mirror. destruct (Z.ltb_spec i 0), (Z.leb_spec (Z.of_nat n) i); try lia.
  now rewrite !andb_false_r.
Qed.

Lemma high_first : before = false -> high x (-1) = high x 0.
Proof using Hn.
  intros E.
  assert (E1 : x (-1) = x 1).
  { unfold x, mirror. rewrite E. cbn [negb andb Z.ltb Z.compare Z.opp].
    destruct (Z.leb_spec (Z.of_nat n) 1); [lia|]. now rewrite andb_false_r. }
  assert (E2 : x (-2) = x 2).
  { unfold x, mirror. rewrite E. cbn [negb andb Z.ltb Z.compare Z.opp].
    destruct (Z.leb_spec (Z.of_nat n) 2); [lia|]. now rewrite andb_false_r. }
  unfold high. change (2 * -1 + 1) with (-1). change (2 * -1) with (-2). change (-2 + 2) with 0.
  change (2 * 0 + 1) with 1. change (2 * 0) with 0. change (0 + 2) with 2. rewrite E1, E2. f_equal. f_equal. lia.
Qed.

Lemma high_last_odd m : after = false -> n = (2 * m + 1)%nat -> high x (Z.of_nat m) = high x (Z.of_nat m - 1).
Proof using Hn.
  intros E En. unfold high, x, mirror. rewrite E. cbn [negb andb].
  repeat match goal with |- context [?a <? 0] => destruct (Z.ltb_spec a 0); try lia end.
  rewrite !andb_false_r.
  repeat match goal with |- context [?a <=? ?b] => destruct (Z.leb_spec a b); try lia end.
  replace (2 * (Z.of_nat n - 1) - (2 * Z.of_nat m + 1)) with (2 * (Z.of_nat m - 1) + 1) by lia.
  replace (2 * (Z.of_nat n - 1) - (2 * Z.of_nat m + 2)) with (2 * (Z.of_nat m - 1)) by lia.
  replace (2 * (Z.of_nat m - 1) + 2) with (2 * Z.of_nat m) by lia.
  f_equal. f_equal. lia.
Qed.

Lemma high_last_even m : after = false -> n = (2 * m + 2)%nat ->
  x (2 * Z.of_nat m) + high x (Z.of_nat m) = x (2 * Z.of_nat m + 1).
Proof using Hn.
  intros E En. unfold high.
  assert (Ex : x (2 * Z.of_nat m + 2) = x (2 * Z.of_nat m)).
  { unfold x, mirror. rewrite E. cbn [negb andb].
    repeat match goal with |- context [?a <? 0] => destruct (Z.ltb_spec a 0); try lia end.
    rewrite !andb_false_r.
    repeat match goal with |- context [?a <=? ?b] => destruct (Z.leb_spec a b); try lia end.
    f_equal. lia. }
  rewrite Ex. replace (x (2 * Z.of_nat m) + x (2 * Z.of_nat m)) with (x (2 * Z.of_nat m) * 2) by lia.
  rewrite Z.div_mul by lia. lia.
Qed.
End Mirrored.

Lemma high_bound x C n : (forall i, Z.abs (x i) <= C) -> Z.abs (high x n) <= 2 * C.
Proof.
  intros H. unfold high.
  pose proof (H (2 * n + 1)). pose proof (H (2 * n)). pose proof (H (2 * n + 2)).
  pose proof (Z.div_mod (x (2 * n) + x (2 * n + 2)) 2). pose proof (Z.mod_pos_bound (x (2 * n) + x (2 * n + 2)) 2). lia.
Qed.
Lemma low_bound x C n : (forall i, Z.abs (x i) <= C) -> Z.abs (low x n) <= 2 * C + 1.
Proof.
  intros H. unfold low. pose proof (high_bound x C n H). pose proof (high_bound x C (n - 1) H). pose proof (H (2 * n)).
  pose proof (Z.div_mod (high x (n - 1) + high x n + 2) 4). pose proof (Z.mod_pos_bound (high x (n - 1) + high x n + 2) 4). lia.
Qed.

Lemma line_length f o n : length (line f o n) = n.
Proof. unfold line. now rewrite map_length, seq_length. Qed.
Lemma nth_line f o n i : (i < n)%nat -> nth i (line f o n) 0 = f (o + Z.of_nat i).
Proof. intros. unfold line. now rewrite nth_map_seq by auto. Qed.
Lemma get_line f o n i : (i < n)%nat -> get (line f o n) i = Ok (f (o + Z.of_nat i)).
Proof. intros. rewrite get_ok with (d := 0) by (rewrite line_length; auto). now rewrite nth_line. Qed.

(** ** synth *)
Ltac bcase b E := destruct (bool_dec b true) as [E|E]; [|apply not_true_is_false in E]; rewrite ?E in *.
Section Synth.
Variables (left right : bool) (w nl nh : nat) (f : Z -> Z) (C : Z).
Let x := fun j => f (mirror left right w j).
Hypothesis Hw : (3 <= w)%nat.
Hypothesis Hnl : (need_low right w <= nl)%nat.
Hypothesis Hnh : (need_high left right w <= nh)%nat.
Hypothesis HC : 0 <= C <= 2 ^ 28.
Hypothesis Hf : forall j, Z.abs (f j) <= C.
Let lo := line (low x) 0 nl.
Let hi := line (high x) (from_left left) nh.
Let q := if left then 1%nat else 0%nat.

Lemma x_bound j : Z.abs (x j) <= C. Proof using Hf. apply Hf. Qed.
Lemma lo_ok i : (i < nl)%nat -> get lo i = Ok (low x (Z.of_nat i)).
Proof using. clear Hw Hnl Hnh HC Hf. intros. unfold lo. rewrite get_line by auto. do 2 f_equal. Qed.
Lemma hi_ok i k : (i < nh)%nat -> k = from_left left + Z.of_nat i -> get hi i = Ok (high x k).
Proof using. clear Hw Hnl Hnh HC Hf. intros ? ->. unfold hi. now rewrite get_line by auto. Qed.

Lemma first_ok : synth_first left lo hi = Ok (x 0, q).
Proof using Hw Hnl Hnh HC Hf.
  unfold synth_first. rewrite lo_ok by (unfold need_low in Hnl; destruct right; lia). cbn [bind].
  assert (L := low_bound x C 0 x_bound). assert (H0 := high_bound x C 0 x_bound).
  assert (Hm := high_bound x C (-1) x_bound). assert (E0 := low_even x 0).
  assert (P1 := Nat.div_le_mono 3 w 2). assert (H32 : (3 / 2 = 1)%nat) by reflexivity.
  unfold need_high, need_low in *. change (Z.of_nat 0) with 0. change (2 * 0) with 0 in E0. change (0 - 1) with (-1) in E0.
  unfold q. bcase left EL.
  - rewrite hi_ok with (k := -1) by (unfold from_left; rewrite ?EL; destruct right; lia). cbn [bind].
    rewrite hi_ok with (k := 0) by (unfold from_left; rewrite ?EL; destruct right; lia). cbn [bind].
    rewrite lift4_ok with (C := C) by auto. cbn [bind]. now rewrite E0.
  - rewrite hi_ok with (k := 0) by (unfold from_left; rewrite ?EL; destruct right; lia). cbn [bind].
    rewrite lift1_ok with (C := C) by auto. cbn [bind]. rewrite <- half_twice.
    assert (Hh : high x (-1) = high x 0) by (unfold x; apply high_first; auto).
    rewrite Hh in E0. now rewrite E0.
Qed.

(** what is in place after [i] steps *)
Definition upto (i : nat) (dst : list Z) : Prop := length dst = w /\ forall j, (j <= 2 * i)%nat -> nth j dst 0 = x (Z.of_nat j).

Lemma step_ok i dst : (2 * i + 3 < w)%nat -> upto i dst ->
  exists d, synth_step lo hi q i dst = Ok d /\ upto (S i) d.
Proof using Hw Hnl Hnh HC Hf.
  intros Hi [Hl Hd]. unfold synth_step.
  assert (P1 := Nat.div_le_mono (2 * i + 4) w 2 ltac:(lia) ltac:(lia)).
  assert (P2 := Nat.div_le_mono (2 * i + 4) (w + 1) 2 ltac:(lia) ltac:(lia)).
  replace ((2 * i + 4) / 2)%nat with (i + 2)%nat in * by (replace (2 * i + 4)%nat with ((i + 2) * 2)%nat by lia; rewrite Nat.div_mul; lia).
  unfold need_high, need_low in *.
  rewrite lo_ok by (destruct right; lia). cbn [bind].
  rewrite hi_ok with (k := Z.of_nat i) by (unfold q, from_left; destruct left, right; lia). cbn [bind].
  rewrite hi_ok with (k := Z.of_nat i + 1) by (unfold q, from_left; destruct left, right; lia). cbn [bind].
  rewrite lift4_ok with (C := C) by (auto; try apply low_bound; try apply high_bound; intros; apply x_bound). cbn [bind].
  replace (low x (Z.of_nat (1 + i)) - (high x (Z.of_nat i) + high x (Z.of_nat i + 1) + 2) / 4) with (x (2 * Z.of_nat i + 2)).
  2:{ pose proof (low_even x (Z.of_nat (1 + i))) as E.
      replace (Z.of_nat (1 + i) - 1) with (Z.of_nat i) in E by lia. 
      replace (Z.of_nat i + 1) with (Z.of_nat (1 + i)) by lia. rewrite E. f_equal. lia. }
  rewrite get_ok with (d := 0) by lia. cbn [bind]. rewrite Hd by lia.
  rewrite avg_ok with (C := C) by (auto; try apply high_bound; intros; apply x_bound). cbn [bind].
  replace (Z.of_nat (2 * i)) with (2 * Z.of_nat i) by lia. rewrite high_odd.
  rewrite put_ok by lia. cbn [bind]. rewrite put_ok by (rewrite upd_list_length; lia).
  eexists. split; [reflexivity|]. split; [now rewrite !upd_list_length|].
  intros j Hj. rewrite nth_upd by (rewrite upd_list_length; lia). destruct (Nat.eqb_spec (2 * i + 2) j).
  - f_equal. lia.
  - rewrite nth_upd by lia. destruct (Nat.eqb_spec (2 * i + 1) j); [f_equal; lia|]. apply Hd. lia.
Qed.

Lemma last_ok n dst wd : w = (2 * n + 3)%nat \/ w = (2 * n + 2)%nat /\ (wd = true -> right = false) -> upto n dst ->
  synth_last right (Nat.odd w) wd lo hi q n dst = Ok (line x 0 w).
Proof using Hw Hnl Hnh HC Hf.
  intros Hc [Hl Hd]. unfold synth_last.
  assert (P1 := Nat.div_le_mono (2 * n + 2) w 2 ltac:(lia) ltac:(lia)).
  assert (P2 := Nat.div_le_mono (2 * n + 2) (w + 1) 2 ltac:(lia) ltac:(lia)).
  replace ((2 * n + 2) / 2)%nat with (n + 1)%nat in * by (replace (2 * n + 2)%nat with ((n + 1) * 2)%nat by lia; rewrite Nat.div_mul; lia).
  unfold need_high, need_low in *.
  rewrite get_ok with (d := 0) by lia. cbn [bind]. rewrite Hd by lia.
  rewrite hi_ok with (k := Z.of_nat n) by (unfold q, from_left; destruct left, right; lia). cbn [bind].
  replace (Z.of_nat (2 * n)) with (2 * Z.of_nat n) by lia.
  assert (El : low x (Z.of_nat (1 + n)) - (high x (Z.of_nat n) + high x (Z.of_nat n + 1) + 2) / 4 = x (2 * Z.of_nat n + 2)).
  { pose proof (low_even x (Z.of_nat (1 + n))) as E.
    replace (Z.of_nat (1 + n) - 1) with (Z.of_nat n) in E by lia. 
    replace (Z.of_nat n + 1) with (Z.of_nat (1 + n)) by lia. rewrite E. f_equal. lia. }
  assert (Fin : forall d, length d = w -> (forall j, (j < w)%nat -> nth j d 0 = x (Z.of_nat j)) -> d = line x 0 w).
  { intros d Ld Hj. apply nth_ext_len with (d := 0); [now rewrite line_length|].
    intros j ?. rewrite nth_line by lia. rewrite Hj by lia. f_equal. }
  bcase right ER.
  - rewrite lo_ok by lia. cbn [bind].
    rewrite hi_ok with (k := Z.of_nat n + 1) by (unfold q, from_left; destruct left; lia). cbn [bind].
    rewrite lift4_ok with (C := C) by (auto; try apply low_bound; try apply high_bound; intros; apply x_bound). cbn [bind].
    rewrite El.
    rewrite avg_ok with (C := C) by (auto; try apply high_bound; intros; apply x_bound). cbn [bind].
    rewrite high_odd. rewrite put_ok by lia. cbn [bind].
    destruct Hc as [Hc|[Hc Hwd]].
    + replace (Nat.odd w) with true by (rewrite Hc; symmetry; apply Nat.odd_spec; exists (n + 1)%nat; lia).
      cbn [orb]. rewrite put_ok by (rewrite upd_list_length; lia). f_equal. apply Fin; [now rewrite !upd_list_length|].
      intros j Hj. rewrite nth_upd by (rewrite upd_list_length; lia). destruct (Nat.eqb_spec (2 * n + 2) j); [f_equal; lia|].
      rewrite nth_upd by lia. destruct (Nat.eqb_spec (2 * n + 1) j); [f_equal; lia|]. apply Hd. lia.
    + replace (Nat.odd w) with false.
      2:{ rewrite Hc. symmetry. rewrite <- Nat.negb_even. apply negb_false_iff, Nat.even_spec. exists (n + 1)%nat. lia. }
      destruct wd; [discriminate Hwd; auto|]. cbn [orb]. f_equal. apply Fin; [now rewrite !upd_list_length|].
      intros j Hj. rewrite nth_upd by lia. destruct (Nat.eqb_spec (2 * n + 1) j); [f_equal; lia|]. apply Hd. lia.
  - destruct Hc as [Hc|[Hc Hwd]].
    + replace (Nat.odd w) with true by (rewrite Hc; symmetry; apply Nat.odd_spec; exists (n + 1)%nat; lia).
      assert (P3 : ((w + 1) / 2 = n + 2)%nat) by (rewrite Hc; replace (2 * n + 3 + 1)%nat with ((n + 2) * 2)%nat by lia; rewrite Nat.div_mul; lia).
      rewrite lo_ok by lia. cbn [bind].
      rewrite lift1_ok with (C := C) by (auto; try apply low_bound; try apply high_bound; intros; apply x_bound). cbn [bind].
      assert (Eh : high x (Z.of_nat n + 1) = high x (Z.of_nat n)).
      { replace (Z.of_nat n + 1) with (Z.of_nat (n + 1)) by lia.
        replace (Z.of_nat n) with (Z.of_nat (n + 1) - 1) by lia. unfold x.
        apply high_last_odd; auto. lia. }
      rewrite Eh in El. rewrite half_twice in El. rewrite El.
      rewrite avg_ok with (C := C) by (auto; try apply high_bound; intros; apply x_bound). cbn [bind].
      rewrite high_odd. rewrite put_ok by lia. cbn [bind].
      rewrite put_ok by (rewrite upd_list_length; lia). f_equal. apply Fin; [now rewrite !upd_list_length|].
      intros j Hj. rewrite nth_upd by (rewrite upd_list_length; lia). destruct (Nat.eqb_spec (2 * n + 2) j); [f_equal; lia|].
      rewrite nth_upd by lia. destruct (Nat.eqb_spec (2 * n + 1) j); [f_equal; lia|]. apply Hd. lia.
    + replace (Nat.odd w) with false.
      2:{ rewrite Hc. symmetry. rewrite <- Nat.negb_even. apply negb_false_iff, Nat.even_spec. exists (n + 1)%nat. lia. }
      assert (Ev : x (2 * Z.of_nat n) + high x (Z.of_nat n) = x (2 * Z.of_nat n + 1)).
      { unfold x. apply high_last_even; auto. }
      rewrite i32_ok.
      2:{ pose proof (x_bound (2 * Z.of_nat n)). pose proof (high_bound x C (Z.of_nat n) x_bound). lia. }
      cbn [bind]. rewrite Ev. rewrite put_ok by lia. f_equal. apply Fin; [now rewrite !upd_list_length|].
      intros j Hj. rewrite nth_upd by lia. destruct (Nat.eqb_spec (2 * n + 1) j); [f_equal; lia|]. apply Hd. lia.
Qed.

Lemma synth_mirrored wd dst : length dst = w -> (wd = true -> right = false) ->
  synth left right wd w lo hi dst = Ok (line x 0 w).
Proof using Hw Hnl Hnh HC Hf.
  intros Hl Hwd. unfold synth. destruct (Nat.leb_spec w 1); [lia|].
  rewrite first_ok. cbn [bind]. rewrite put_ok by lia. cbn [bind]. rewrite usub_ok by lia. cbn [bind].
  assert (Hn : (w = 2 * ((w - 3 + 1) / 2) + 3 \/ w = 2 * ((w - 3 + 1) / 2) + 2)%nat).
  { pose proof (Nat.div_mod (w - 3 + 1) 2 ltac:(lia)). pose proof (Nat.mod_upper_bound (w - 3 + 1) 2). lia. }
  set (n := ((w - 3 + 1) / 2)%nat) in *.
  destruct (for_each_seq_inv (synth_step lo hi q) upto 0 n (upd_list dst 0 (x 0))) as (d & -> & Hd).
  - split; [now rewrite upd_list_length|]. intros j Hj. replace j with 0%nat by lia. rewrite nth_upd_eq by lia. reflexivity.
  - intros i s Hi Hs. apply step_ok; auto. lia.
  - cbn [bind]. apply last_ok; auto. destruct Hn; auto.
Qed.

(** Rows of the tile come back. *)
Lemma synth_ok wd dst : length dst = w -> (wd = true -> right = false) ->
  synth left right wd w (line (colL left right w f) 0 nl) (line (colH left right w f) (from_left left) nh) dst = Ok (line f 0 w).
Proof using Hw Hnl Hnh HC Hf.
  intros. pose proof (synth_mirrored wd dst) as H1. unfold lo, hi in H1. unfold colL, colH. fold x. rewrite H1 by auto.
  f_equal. unfold line. apply map_ext_in. intros j Hj. apply in_seq in Hj. unfold x. rewrite mirror_in by lia. reflexivity.
Qed.
End Synth.
