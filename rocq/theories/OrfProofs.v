(** Olympus compressed data: one value. *)
From Coq Require Import List ZArith Lia Bool.
From Coq Require Import ZifyBool ZifyNat.
From Verif Require Import Base BaseLemmas Pumps PumpProofs Crx CrxLL CrxPicture PefSpec SonySpec Orf OrfSpec.
Import ListNotations.
Open Scope Z_scope.

(** ** Digits and the width of the low part *)
Lemma digits_spec a k : 0 <= a -> (digits a <= k)%nat <-> a < 2 ^ Z.of_nat k.
Proof.
  intros H. unfold digits. destruct (Z.eqb_spec a 0) as [E|E].
  - subst. pose proof (pow2_pos k). split; intros; lia.
  - pose proof (Z.log2_spec a ltac:(lia)) as [L1 L2]. pose proof (Z.log2_nonneg a) as L0. split; intros X.
    + eapply Z.lt_le_trans; [exact L2|]. apply Z.pow_le_mono_r; lia.
    + assert (Z.log2 a < Z.of_nat k); [|lia]. apply Z.log2_lt_pow2; lia.
Qed.
Lemma orf_grow_ok : forall fuel a nb i, 0 <= a < 65536 -> (16 < fuel + nb)%nat -> (1 <= fuel)%nat ->
  orf_grow fuel a nb i = Ok (Nat.max nb (digits a - i)).
Proof.
  induction fuel; intros a nb i Ha Hf H1; cbn [orf_grow]; [lia|].
  pose proof (digits_spec a 16 ltac:(lia)) as D16. change (2 ^ Z.of_nat 16) with 65536 in D16.
  pose proof (digits_spec a (nb + i) ltac:(lia)) as D. pose proof (pow2_pos (nb + i)) as PP.
  rewrite Z.shiftr_div_pow2 by lia. change 65535 with (Z.ones 16). rewrite Z.land_ones by lia. change (2 ^ 16) with 65536.
  assert (DL : 0 <= a / 2 ^ Z.of_nat (nb + i) <= a) by (split; [apply Z.div_pos; lia|apply Z.div_le_upper_bound; nia]).
  rewrite Z.mod_small by lia.
  destruct (Z.ltb_spec 0 (a / 2 ^ Z.of_nat (nb + i))) as [L|L].
  - assert (2 ^ Z.of_nat (nb + i) <= a) by (destruct (Z_lt_le_dec a (2 ^ Z.of_nat (nb + i))); [rewrite Z.div_small in L by lia; lia|auto]).
    rewrite IHfuel by lia. f_equal. lia.
  - assert (a < 2 ^ Z.of_nat (nb + i)).
    { destruct (Z_lt_le_dec a (2 ^ Z.of_nat (nb + i))) as [X|X]; auto. assert (1 <= a / 2 ^ Z.of_nat (nb + i)) by (apply Z.div_le_lower_bound; lia). lia. }
    f_equal. lia.
Qed.

(** ** Fields of the first 15 bits *)
Lemma peekv_1 l : peekv 1 l = Z.b2z (nth 0 l false).
Proof. unfold peekv. destruct l as [|b t]; cbn; [reflexivity|]. destruct b; reflexivity. Qed.
Lemma high_bit t j : (j < 12)%nat -> Z.land (Z.shiftr (peekv 12 t) (11 - Z.of_nat j)) 1 = Z.b2z (nth j t false).
Proof.
  intros H. change 1 with (Z.ones 1). rewrite Z.land_ones by lia. change (2 ^ 1) with 2. rewrite Z.shiftr_div_pow2 by lia.
  replace 12%nat with ((j + 1) + (11 - j))%nat by lia. rewrite peekv_plus. replace (11 - Z.of_nat j) with (Z.of_nat (11 - j)) by lia.
  pose proof (peekv_range (11 - j) (skipn (j + 1) t)) as R. rewrite Z.div_add_l by lia. rewrite (Z.div_small (peekv _ _)) by lia. rewrite Z.add_0_r, peekv_plus.
  change (2 ^ Z.of_nat 1) with 2. rewrite Z.add_comm, Z.mod_add, peekv_1 by lia. rewrite nth_skipn, Nat.add_0_r. destruct (nth j t false); reflexivity.
Qed.
Lemma zero_run_find n : forall a t, (a + n <= length t)%nat ->
  match find (fun j => nth j t false) (seq a n) with Some j => j | None => (a + n)%nat end = (a + zero_run n (skipn a t))%nat.
Proof.
  induction n; intros a t L; cbn [seq find]; [cbn; lia|].
  destruct (skipn a t) as [|b r] eqn:E; [pose proof (f_equal (@length bool) E) as X; rewrite skipn_length in X; cbn in X; lia|].
  assert (N : nth a t false = b) by (rewrite <- (Nat.add_0_r a), <- nth_skipn, E; reflexivity). rewrite N.
  destruct b; cbn [zero_run]; [lia|]. specialize (IHn (S a) t ltac:(lia)).
  replace (skipn (S a) t) with r in IHn.
  - rewrite Nat.add_succ_r. replace (a + S (zero_run n r))%nat with (S a + zero_run n r)%nat by lia. exact IHn.
  - replace (S a) with (a + 1)%nat by lia. rewrite <- (skipn_skipn 1 a t), E. reflexivity.
Qed.
Lemma find_ext_in {A} (f g : A -> bool) l : (forall x, In x l -> f x = g x) -> find f l = find g l.
Proof. induction l as [|x l IH]; intros H; cbn; auto. rewrite (H x) by (now left). rewrite IH; auto. intros; apply H; now right. Qed.
Lemma orf_high_ok t : (12 <= length t)%nat -> orf_high (peekv 12 t) = Z.of_nat (zero_run 12 t).
Proof.
  intros L. pose proof (zero_run_find 12 0 t L) as X. cbn [plus skipn] in X. rewrite <- X. unfold orf_high.
  rewrite (find_ext_in _ (fun j => nth j t false)).
  - destruct (find _ _); reflexivity.
  - intros j Hj. apply in_seq in Hj. rewrite high_bit by lia. destruct (nth j t false); reflexivity.
Qed.
Lemma zero_run_le n : forall t, (zero_run n t <= n)%nat.
Proof. induction n; intros [|[] t]; cbn; try lia. specialize (IHn t). lia. Qed.
Lemma fields l : - Z.shiftr (peekv 15 l) 14 = (if nth 0 l false then -1 else 0) /\
  Z.land (Z.shiftr (peekv 15 l) 12) 3 = peekv 2 (skipn 1 l) /\ Z.land (peekv 15 l) 4095 = peekv 12 (skipn 3 l).
Proof.
  rewrite !Z.shiftr_div_pow2 by lia. change 3 with (Z.ones 2). change 4095 with (Z.ones 12). rewrite !Z.land_ones by lia.
  pose proof (peekv_plus 1 14 l) as E1. pose proof (peekv_plus 2 12 (skipn 1 l)) as E2. rewrite skipn_skipn in E2. change (1 + 14)%nat with 15%nat in E1. change (2 + 12)%nat with 14%nat in E2. change (1 + 2)%nat with 3%nat in E2.
  rewrite E2 in E1. rewrite peekv_1 in E1. rewrite E1.
  pose proof (peekv_range 12 (skipn 3 l)) as R1. pose proof (peekv_range 2 (skipn 1 l)) as R2.
  set (x := peekv 12 _) in *. set (y := peekv 2 _) in *. set (z := Z.b2z _). assert (B : 0 <= z <= 1) by (unfold z; destruct (nth 0 l false); cbn; lia).
  change (2 ^ Z.of_nat 14) with 16384. change (2 ^ Z.of_nat 12) with 4096 in *. change (2 ^ Z.of_nat 2) with 4 in *. change (2 ^ 14) with 16384. change (2 ^ 12) with 4096. change (2 ^ 2) with 4.
  split; [|split].
  - replace ((z * 16384 + (y * 4096 + x)) / 16384) with z by (apply (Z.div_unique _ _ _ (y * 4096 + x)); lia). unfold z. destruct (nth 0 l false); reflexivity.
  - replace ((z * 16384 + (y * 4096 + x)) / 4096) with (z * 4 + y) by (apply (Z.div_unique _ _ _ x); lia). rewrite Z.add_comm, Z.mod_add by lia. apply Z.mod_small. lia.
  - replace (z * 16384 + (y * 4096 + x)) with (x + (z * 4 + y) * 4096) by lia. rewrite Z.mod_add by lia. apply Z.mod_small. lia.
Qed.

(** ** One value *)
Definition carry_ok (k : orf_carry) (m : Z) : Prop := let '(a, c, n) := k in 0 <= a < 32768 /\ Z.abs c <= 1600 /\ 0 <= n <= m.
Lemma lxor_sign a (neg : bool) : Z.lxor a (if neg then -1 else 0) = signed neg a.
Proof. destruct neg; cbn [signed]; [rewrite Z.lxor_m1_r; unfold Z.lnot; lia|apply Z.lxor_0_r]. Qed.
Lemma width_range k : (2 <= orf_width k <= 16)%nat.
Proof. destruct k as [[a c] n]. unfold orf_width. destruct (n <? 3); lia. Qed.
Lemma orf_value_ok p l k m : msb_rep (length l) p l -> (32 <= length l)%nat -> carry_ok k m -> m < 2 ^ 31 - 1 ->
  - 65536 <= fst (fst (orf_read k l)) < 65536 ->
  exists p', orf_value k p = Ok (fst (fst (orf_read k l)) / 4, fst (fst (orf_read k l)) mod 4, snd (fst (orf_read k l)), p') /\
    msb_rep (length (snd (orf_read k l))) p' (snd (orf_read k l)) /\ carry_ok (snd (fst (orf_read k l))) (m + 1).
Proof.
  destruct k as [[a c] n]. intros R L (Ba & Bc & Bn) Hm HV.
  pose proof (width_range (a, c, n)) as W. unfold orf_value.
  rewrite orf_grow_ok by (destruct (n <? 3); lia). cbn [bind].
  replace (Nat.min (Nat.max (2 + (if (n <? 3)%Z then 2 else 0)) (digits a - (if (n <? 3)%Z then 2 else 0))) 16)%nat with (orf_width (a, c, n)) by (unfold orf_width; destruct (n <? 3); lia).
  unfold orf_read in *. set (nb := orf_width (a, c, n)) in *.
  destruct (pr_peek msb_refines _ p l 15 R ltac:(lia) ltac:(lia)) as (p1 & E1 & R1 & C1). rewrite E1. cbn [bind].
  destruct (fields l) as (F1 & F2 & F3). rewrite F1, F2, F3. rewrite orf_high_ok by (rewrite skipn_length; lia).
  pose proof (zero_run_le 12 (skipn 3 l)) as ZL. set (z := zero_run 12 (skipn 3 l)) in *. set (neg := nth 0 l false) in *.
  pose proof (peekv_range 2 (skipn 1 l)) as LR. change (2 ^ Z.of_nat 2) with 4 in LR. set (low := peekv 2 (skipn 1 l)) in *.
  cbn [snd fst] in *.
  set (hl := if (z =? 12)%nat then (peekv (16 - nb) (skipn 15 l) / 2, skipn (31 - nb) l) else (Z.of_nat z, skipn (4 + z) l)) in *.
  assert (HH : exists p2, (if Z.of_nat z =? 12 then do p <- consume_bits msb_ops 15 p1; do n <- usub 16 nb; do (x, p) <- get_bits msb_ops n p; Ok (Z.shiftr x 1, p)
      else do p <- consume_bits msb_ops (Z.to_nat (Z.of_nat z + 4)) p1; Ok (Z.of_nat z, p)) = Ok (fst hl, p2) /\
      msb_rep (length (snd hl)) p2 (snd hl) /\ 0 <= fst hl /\ fst hl < 2 ^ (Z.max 4 (Z.of_nat (16 - nb))) /\ (nb <= length (snd hl))%nat).
  { unfold hl. destruct (Nat.eqb_spec z 12) as [Z12|Z12].
    - replace (Z.of_nat z =? 12) with true by lia. destruct (C1 15%nat ltac:(lia)) as (p2 & E2 & R2). rewrite E2. cbn [bind]. rewrite usub_ok by lia. cbn [bind].
      destruct (pr_get _ _ msb_refines _ p2 (skipn 15 l) (16 - nb) R2 ltac:(lia) ltac:(lia)) as (p3 & E3 & R3). rewrite E3. cbn [bind].
      exists p3. rewrite skipn_skipn in R3. cbn [fst snd]. rewrite skipn_length. replace (15 + (16 - nb))%nat with (31 - nb)%nat in R3 by lia. replace (length l - 15 - (16 - nb))%nat with (length l - (31 - nb))%nat in R3 by lia.
      split; [rewrite Z.shiftr_div_pow2 by lia; reflexivity|]. split; [exact R3|]. pose proof (peekv_range (16 - nb) (skipn 15 l)) as X. split; [apply Z.div_pos; lia|]. split; [|lia].
      apply Z.div_lt_upper_bound; [lia|]. eapply Z.lt_le_trans; [apply X|]. transitivity (2 ^ Z.max 4 (Z.of_nat (16 - nb))); [apply Z.pow_le_mono_r; lia|]. assert (0 < 2 ^ Z.max 4 (Z.of_nat (16 - nb))) by (apply Z.pow_pos_nonneg; lia). lia.
    - replace (Z.of_nat z =? 12) with false by lia. destruct (C1 (4 + z)%nat ltac:(lia)) as (p2 & E2 & R2). replace (Z.to_nat (Z.of_nat z + 4)) with (4 + z)%nat by lia. rewrite E2. cbn [bind].
      exists p2. cbn [fst snd]. rewrite skipn_length. split; [reflexivity|]. split; [exact R2|]. split; [lia|]. split; [|lia].
      assert (2 ^ 4 <= 2 ^ Z.max 4 (Z.of_nat (16 - nb))) by (apply Z.pow_le_mono_r; lia). change (2 ^ 4) with 16 in *. lia. }
  clearbody hl. destruct hl as [high l2]. cbn [fst snd] in *. destruct HH as (p2 & EH & R2 & HP & HM & L2). rewrite EH. cbn [bind].
  destruct (pr_get _ _ msb_refines _ p2 l2 nb R2 ltac:(lia) ltac:(lia)) as (p3 & E3 & R3). rewrite E3. cbn [bind].
  pose proof (peekv_range nb l2) as XR. set (x := peekv nb l2) in *. pose proof (pow2_pos nb) as PN.
  assert (HB : high * 2 ^ Z.of_nat nb < 2 ^ 20).
  { apply Z.lt_le_trans with (2 ^ Z.max 4 (Z.of_nat (16 - nb)) * 2 ^ Z.of_nat nb); [apply Z.mul_lt_mono_pos_r; auto|]. rewrite <- Z.pow_add_r by lia. apply Z.pow_le_mono_r; lia. }
  assert (EA : Z.lor (wrap_i32 (Z.shiftl high (Z.of_nat nb))) x = high * 2 ^ Z.of_nat nb + x).
  { rewrite Z.shiftl_mul_pow2 by lia. replace (wrap_i32 (high * 2 ^ Z.of_nat nb)) with (high * 2 ^ Z.of_nat nb).
    - apply lor_add_disjoint; lia.
    - symmetry. apply wrap_i32_small. change (2 ^ 31) with 2147483648. change (2 ^ 20) with 1048576 in HB. pose proof (Z.mul_nonneg_nonneg high (2 ^ Z.of_nat nb)). lia. }
  rewrite EA. assert (A0 : 0 <= high * 2 ^ Z.of_nat nb + x) by nia. set (a' := high * 2 ^ Z.of_nat nb + x) in *. clearbody a'. rewrite lxor_sign.
  set (d := signed neg a' + c) in *. assert (DB : - 16384 <= d < 16384) by lia.
  assert (AB : a' < 32768) by (unfold d, signed in DB; destruct neg; lia).
  rewrite (i32_ok d) by lia. cbn [bind]. rewrite (i32_ok (d * 3)) by lia. cbn [bind]. rewrite (i32_ok (d * 3 + c)) by lia. cbn [bind].
  rewrite Z.shiftr_div_pow2 by lia. change (2 ^ 5) with 32.
  assert (EN : (if 16 <? a' then Ok 0 else i32 (n + 1)) = Ok (if 16 <? a' then 0 else n + 1)) by (destruct (16 <? a'); [reflexivity|apply i32_ok; change (2 ^ 31 - 1) with 2147483647 in Hm; lia]).
  rewrite EN. cbn [bind]. exists p3. split.
  - replace ((4 * d + low) / 4) with d by (apply (Z.div_unique _ _ _ low); lia). replace ((4 * d + low) mod 4) with low by (apply (Z.mod_unique _ _ d); lia).
    cbn [orf_after]. now replace (d * 3 + c) with (3 * d + c) by lia.
  - rewrite skipn_length. split; [exact R3|]. cbn [orf_after carry_ok]. split; [lia|]. split.
    + assert (-1600 <= (3 * d + c) / 32) by (apply Z.div_le_lower_bound; lia). assert ((3 * d + c) / 32 <= 1600) by (apply Z.div_le_upper_bound; lia). lia.
    + destruct (16 <? a'); lia.
Qed.
