(** Proofs: CRX band lines decode to what the specification encoded. *)
From Coq Require Import List ZArith Bool Lia.
From Verif Require Import Base BaseLemmas Crx CrxSpec.
Import ListNotations.
Open Scope Z_scope.

(** ** Codes *)

Lemma read_unary_zeros n r : read_unary (repeat false n ++ true :: r) = Ok (Z.of_nat n, r).
Proof.
  induction n as [|n IH]; [reflexivity|]. cbn [repeat app read_unary]. rewrite IH. cbn [bind].
  f_equal. f_equal. lia.
Qed.

Lemma read_var_bits n v r : 0 <= v < 2 ^ Z.of_nat n -> read_var n (bits_of n v ++ r) = Ok (v, r).
Proof.
  intros. unfold read_var. rewrite app_length, bits_of_length.
  destruct (Nat.leb_spec n (n + length r)); [|lia].
  rewrite peekv_bits_of by auto. rewrite skipn_app, bits_of_length, skipn_all2 by (rewrite bits_of_length; lia).
  now rewrite Nat.sub_diag.
Qed.

Lemma bits_of_mod n v : bits_of n (v mod 2 ^ Z.of_nat n) = bits_of n v.
Proof.
  assert (forall m, (m <= n)%nat -> bits_of m (v mod 2 ^ Z.of_nat n) = bits_of m v) as E; [|apply E; lia].
  induction m as [|m IH]; intros; [reflexivity|]. cbn [bits_of].
  rewrite IH by lia. f_equal. rewrite Z.mod_pow2_bits_low by lia. reflexivity.
Qed.

Lemma rice_roundtrip k v r :
  (k <= 15)%nat -> 0 <= v < 2 ^ 21 -> rice_decode 41 21 k (rice_code k v ++ r) = Ok (v, r).
Proof.
  intros Hk Hv. unfold rice_decode, rice_code.
  assert (0 < 2 ^ Z.of_nat k) as Hp by (apply Z.pow_pos_nonneg; lia).
  assert (0 <= v / 2 ^ Z.of_nat k) by (apply Z.div_pos; lia).
  destruct (Z.ltb_spec (v / 2 ^ Z.of_nat k) 41).
  - rewrite <- app_assoc. cbn [app]. rewrite read_unary_zeros. cbn [bind].
    rewrite Z2Nat.id by lia. destruct (Z.leb_spec 41 (v / 2 ^ Z.of_nat k)); [lia|].
    destruct (Nat.ltb_spec 0 k).
    + destruct (Nat.ltb_spec k 32); [|lia]. cbn [assert_ bind].
      rewrite <- bits_of_mod, read_var_bits by (apply Z.mod_pos_bound; lia). cbn [bind].
      f_equal. f_equal. rewrite Z.shiftl_mul_pow2 by lia.
      assert (v / 2 ^ Z.of_nat k * 2 ^ Z.of_nat k <= v) by (rewrite Z.mul_comm; apply Z.mul_div_le; lia).
      unfold wrap_u32. rewrite Z.mod_small by lia.
      rewrite <- Z.shiftl_mul_pow2, <- Z.shiftr_div_pow2, <- Z.land_ones by lia.
      apply Z.bits_inj'. intros i Hi. rewrite Z.lor_spec, Z.land_spec.
      destruct (Z.ltb_spec i (Z.of_nat k)).
      * rewrite Z.shiftl_spec_low, Z.ones_spec_low by lia. now rewrite andb_true_r.
      * rewrite Z.shiftl_spec, Z.shiftr_spec, Z.ones_spec_high by lia.
        rewrite andb_false_r, orb_false_r. f_equal. lia.
    + assert (k = O) by lia. subst. cbn [bits_of app]. rewrite Z.div_1_r. reflexivity.
  - rewrite <- app_assoc. cbn [app]. rewrite read_unary_zeros. cbn [bind].
    destruct (Z.leb_spec 41 (Z.of_nat 41)); [|lia]. apply read_var_bits. exact Hv.
Qed.

Lemma predict_k_ok k v m :
  (k <= 15)%nat -> 0 <= v ->
  predict_k k v m = Ok (if (0 <? m)%nat then Nat.min (next_k k v) m else next_k k v).
Proof.
  intros Hk Hv. unfold predict_k, next_k.
  destruct (Nat.ltb_spec k 32); [|lia]. cbn [assert_ bind].
  rewrite Z.shiftr_div_pow2, Z.shiftl_mul_pow2, Z.mul_1_l by lia.
  assert (0 < 2 ^ Z.of_nat k) as Hp by (apply Z.pow_pos_nonneg; lia).
  assert (2 ^ Z.of_nat k <= 2 ^ 15) by (apply Z.pow_le_mono_r; lia).
  rewrite Z.shiftr_div_pow2, Z.pow_1_r by lia. unfold wrap_u32. rewrite (Z.mod_small (2 ^ Z.of_nat k)) by lia.
  assert (2 ^ Z.of_nat k * (v / 2 ^ Z.of_nat k) <= v) by (apply Z.mul_div_le; lia).
  assert (2 ^ Z.of_nat k / 2 <= 2 ^ Z.of_nat k) by (apply Z.div_le_upper_bound; lia).
  destruct (Z.ltb_spec 5 (v / 2 ^ Z.of_nat k)).
  - destruct (Z.ltb_spec 2 (v / 2 ^ Z.of_nat k)); [|lia].
    destruct (Z.ltb_spec v (2 ^ Z.of_nat k / 2)); [nia|]. cbn [bind].
    now replace (k + 1 + 1)%nat with (S (S k)) by lia.
  - destruct (Z.ltb_spec 2 (v / 2 ^ Z.of_nat k)).
    + destruct (Z.ltb_spec v (2 ^ Z.of_nat k / 2)); [nia|]. cbn [bind].
      now replace (k + 1 + 0)%nat with (S k) by lia.
    + rewrite !Nat.add_0_r. destruct (Z.ltb_spec v (2 ^ Z.of_nat k / 2)); [|reflexivity].
      destruct k as [|k]; [change (2 ^ Z.of_nat 0 / 2) with 0 in *; lia|].
      rewrite usub_ok by lia. cbn [bind Nat.pred]. now replace (S k - 1)%nat with k by lia.
Qed.

Lemma next_k_bound k v : (next_k k v <= k + 2)%nat.
Proof. unfold next_k. repeat (destruct (_ <? _)); lia. Qed.

Lemma adaptive_ok adapt m v r t :
  (l_k t <= 15)%nat -> 0 <= v < 2 ^ 21 -> l_bits t = rice_code (l_k t) v ++ r ->
  adaptive adapt m t =
  Ok (v, set_k (if adapt then (if (0 <? m)%nat then Nat.min (next_k (l_k t) v) m else next_k (l_k t) v) else l_k t) (set_bits r t)).
Proof.
  intros Hk Hv E. unfold adaptive. change PREDICT_K_ESCAPE with 41. change PREDICT_K_ESCBITS with 21%nat.
  rewrite E, rice_roundtrip by auto. cbn [bind]. destruct adapt; [|reflexivity].
  rewrite predict_k_ok by (auto; lia). reflexivity.
Qed.

Lemma error_code_fold x : error_code_signed (fold_sign x) = x.
Proof.
  assert (forall c, Z.land c 1 = c mod 2) as L by (intros c; exact (Z.land_ones c 1 ltac:(lia))).
  unfold error_code_signed, fold_sign. rewrite L.
  rewrite Z.shiftr_div_pow2, Z.pow_1_r by lia.
  destruct (Z.leb_spec 0 x).
  - rewrite Z.mul_comm, Z.mod_mul, Z.div_mul by lia. now rewrite Z.lxor_0_l.
  - replace (-2 * x - 1) with (1 + (- x - 1) * 2) by lia.
    rewrite Z.mod_add, Z.div_add by lia. change (1 mod 2) with 1. change (1 / 2) with 0.
    rewrite Z.lxor_m1_l. unfold Z.lnot. lia.
Qed.

Lemma fold_sign_range x B : 0 <= B -> - B <= x < B -> 0 <= fold_sign x < 2 * B.
Proof. intros. unfold fold_sign. destruct (Z.leb_spec 0 x); lia. Qed.

Lemma fold_sign_pos x : x <> 0 -> 1 <= fold_sign x.
Proof. intros. unfold fold_sign. destruct (Z.leb_spec 0 x); lia. Qed.

(** ** Runs *)

Lemma flag_ok t b r : l_bits t = b :: r -> flag t = Ok (b, set_bits r t).
Proof.
  intros E. unfold flag, read_var. rewrite E. cbn [length]. cbn [Nat.leb bind].
  unfold peekv. cbn [take0 bval length skipn]. destruct b; reflexivity.
Qed.

Lemma J_ok s : (s <= 31)%nat -> get Jtab s = Ok (nth s T87_J 0%nat).
Proof. intros. change T87_J with Jtab. apply get_ok. cbn. lia. Qed.

Lemma pow2_pos j : (1 <= 2 ^ j)%nat.
Proof. induction j; cbn; lia. Qed.

Lemma run_code_S fuel s rem eol :
  run_code (S fuel) s rem eol =
  let j := nth s T87_J 0%nat in
  if eol && (rem =? 0)%nat then ([], s)
  else if (2 ^ j <=? rem)%nat then
    let '(b, s') := run_code fuel (Nat.min (s + 1) 31) (rem - 2 ^ j) eol in (true :: b, s')
  else if eol then ([true], s)
  else (false :: bits_of j (Z.of_nat rem), (s - 1)%nat).
Proof. reflexivity. Qed.

Lemma run_loop_ok n : forall fuel dfuel s rem cnt r t b s',
  (rem <= fuel)%nat -> (n - cnt <= dfuel)%nat -> (s <= 31)%nat ->
  (cnt + rem <= n)%nat ->
  run_code (S fuel) s rem (cnt + rem =? n)%nat = (b, s') ->
  l_s t = s -> l_bits t = b ++ r ->
  exists t',
    (do (c, t) <- run_loop dfuel cnt n t;
     if (c <? n)%nat then
       do j <- get Jtab (l_s t);
       do (add, t) <- (if (0 <? j)%nat then do (v, r) <- read_var j (l_bits t); Ok (Z.to_nat v, set_bits r t) else Ok (0%nat, t));
       let c := (c + add)%nat in
       let t := set_s (l_s t - 1) t in
       if (n <? c)%nat then Err else Ok (c, t)
     else Ok (c, t)) = Ok ((cnt + rem)%nat, t') /\
    t' = set_s s' (set_bits r t) /\ (s' <= 31)%nat.
Proof.
  induction fuel as [|fuel IH]; intros dfuel s rem cnt r t b s' Hf Hd Hs Hc E Es Eb.
  all: rewrite run_code_S in E; cbv zeta in E.
  all: remember (nth s T87_J 0%nat) as j eqn:Ej.
  all: pose proof (pow2_pos j) as Hp.
  all: destruct (Nat.eqb_spec (cnt + rem) n) as [Hn|Hn]; cbn [andb] in E.
  all: destruct (Nat.eqb_spec rem 0) as [Hr|Hr]; cbn [andb] in E.
  all: try (injection E as <- <-).
  all: try lia.
  - subst rem. destruct dfuel; cbn [run_loop];
      (destruct (Nat.eqb_spec cnt n); [|lia]; cbn [bind]; destruct (Nat.ltb_spec cnt n); [lia|];
       rewrite Nat.add_0_r; eexists; split; [reflexivity|]; split; [|lia]; cbn in Eb; subst r;
       destruct t; cbn in *; now subst).
  - destruct (Nat.leb_spec (2 ^ j) rem); [lia|]. injection E as <- <-.
    destruct dfuel as [|dfuel]; [lia|]. cbn [run_loop].
    destruct (Nat.eqb_spec cnt n); [lia|]. cbn [app] in Eb. rewrite (flag_ok _ _ _ Eb). cbn [bind].
    destruct (Nat.ltb_spec cnt n); [|lia].
    cbn [l_s l_bits set_bits]. rewrite Es, J_ok by lia. rewrite <- Ej. cbn [bind].
    assert (0 <= Z.of_nat rem < 2 ^ Z.of_nat j) as Hrem.
    { split; [lia|]. apply Nat2Z.inj_lt in H. now rewrite Nat2Z.inj_pow in H. }
    destruct (Nat.ltb_spec 0 j).
    + rewrite read_var_bits by auto. cbn [bind]. rewrite Nat2Z.id.
      destruct (Nat.ltb_spec n (cnt + rem)); [lia|]. eexists; split; [reflexivity|].
      split; [|lia]. destruct t; cbn in *; now subst.
    + assert (j = O) by lia. rewrite H2 in *. cbn in H. assert (rem = O) by lia.
      cbn [bits_of app]. cbn [bind]. rewrite H3, Nat.add_0_r.
      destruct (Nat.ltb_spec n cnt); [lia|]. eexists; split; [reflexivity|].
      split; [|lia]. destruct t; cbn in *; now subst.
  - subst rem. destruct dfuel; cbn [run_loop];
      (destruct (Nat.eqb_spec cnt n); [|lia]; cbn [bind]; destruct (Nat.ltb_spec cnt n); [lia|];
       rewrite Nat.add_0_r; eexists; split; [reflexivity|]; split; [|lia]; cbn in Eb; subst r;
       destruct t; cbn in *; now subst).
  - destruct (Nat.leb_spec (2 ^ j) rem).
    + destruct (run_code _ (Nat.min (s + 1) 31) _ _) as [b1 s1] eqn:E1. injection E as <- <-.
      destruct dfuel as [|dfuel]; [lia|]. cbn [run_loop].
      destruct (Nat.eqb_spec cnt n); [lia|]. cbn [app] in Eb. rewrite (flag_ok _ _ _ Eb). cbn [bind].
      cbn [l_s l_bits set_bits]. rewrite Es, J_ok by lia. rewrite <- Ej. cbn [bind].
      destruct (Nat.ltb_spec n (cnt + 2 ^ j)); [lia|].
      destruct (IH dfuel (Nat.min (s + 1) 31) (rem - 2 ^ j)%nat (cnt + 2 ^ j)%nat r
                  (set_s (Nat.min (s + 1) 31) (set_bits (b1 ++ r) t)) b1 s1) as (t' & A & B & C).
      all: try lia. all: try reflexivity.
      { rewrite <- E1. f_equal. destruct (Nat.eqb_spec (cnt + 2 ^ j + (rem - 2 ^ j)) n); [reflexivity|lia]. }
      exists t'. split; [|split; [subst t'; destruct t; reflexivity|lia]].
      etransitivity; [exact A|do 2 f_equal; lia].
    + injection E as <- <-. destruct dfuel as [|dfuel]; [lia|]. cbn [run_loop].
      destruct (Nat.eqb_spec cnt n); [lia|]. cbn [app] in Eb. rewrite (flag_ok _ _ _ Eb). cbn [bind].
      cbn [l_s l_bits set_bits]. rewrite Es, J_ok by lia. rewrite <- Ej. cbn [bind].
      destruct (Nat.ltb_spec n (cnt + 2 ^ j)); [|lia]. cbn [bind].
      destruct (Nat.ltb_spec n n); [lia|]. rewrite Hn. eexists; split; [reflexivity|].
      split; [|lia]. destruct t; cbn in *; now subst.
  - destruct (Nat.leb_spec (2 ^ j) rem); [lia|]. injection E as <- <-.
    destruct dfuel as [|dfuel]; [lia|]. cbn [run_loop].
    destruct (Nat.eqb_spec cnt n); [lia|]. cbn [app] in Eb. rewrite (flag_ok _ _ _ Eb). cbn [bind].
    destruct (Nat.ltb_spec cnt n); [|lia].
    cbn [l_s l_bits set_bits]. rewrite Es, J_ok by lia. rewrite <- Ej. cbn [bind].
    subst rem. rewrite Nat.add_0_r.
    destruct (Nat.ltb_spec 0 j).
    + rewrite read_var_bits by (split; [lia|]; apply Z.pow_pos_nonneg; lia). cbn [bind].
      change (Z.to_nat (Z.of_nat 0)) with 0%nat. rewrite Nat.add_0_r.
      destruct (Nat.ltb_spec n cnt); [lia|]. eexists; split; [reflexivity|].
      split; [|lia]. destruct t; cbn in *; now subst.
    + assert (j = O) by lia. rewrite H2 in *.
      cbn [bits_of app bind]. rewrite Nat.add_0_r.
      destruct (Nat.ltb_spec n cnt); [lia|]. eexists; split; [reflexivity|].
      split; [|lia]. destruct t; cbn in *; now subst.
  - destruct (Nat.leb_spec (2 ^ j) rem).
    + destruct (run_code _ (Nat.min (s + 1) 31) _ _) as [b1 s1] eqn:E1. injection E as <- <-.
      destruct dfuel as [|dfuel]; [lia|]. cbn [run_loop].
      destruct (Nat.eqb_spec cnt n); [lia|]. cbn [app] in Eb. rewrite (flag_ok _ _ _ Eb). cbn [bind].
      cbn [l_s l_bits set_bits]. rewrite Es, J_ok by lia. rewrite <- Ej. cbn [bind].
      destruct (Nat.ltb_spec n (cnt + 2 ^ j)); [lia|].
      destruct (IH dfuel (Nat.min (s + 1) 31) (rem - 2 ^ j)%nat (cnt + 2 ^ j)%nat r
                  (set_s (Nat.min (s + 1) 31) (set_bits (b1 ++ r) t)) b1 s1) as (t' & A & B & C).
      all: try lia. all: try reflexivity.
      { rewrite <- E1. f_equal. destruct (Nat.eqb_spec (cnt + 2 ^ j + (rem - 2 ^ j)) n); [lia|reflexivity]. }
      exists t'. split; [|split; [subst t'; destruct t; reflexivity|lia]].
      etransitivity; [exact A|do 2 f_equal; lia].
    + injection E as <- <-. destruct dfuel as [|dfuel]; [lia|]. cbn [run_loop].
      destruct (Nat.eqb_spec cnt n); [lia|]. cbn [app] in Eb. rewrite (flag_ok _ _ _ Eb). cbn [bind].
      destruct (Nat.ltb_spec cnt n); [|lia].
      cbn [l_s l_bits set_bits]. rewrite Es, J_ok by lia. rewrite <- Ej. cbn [bind].
      assert (0 <= Z.of_nat rem < 2 ^ Z.of_nat j) as Hrem.
      { split; [lia|]. apply Nat2Z.inj_lt in H. now rewrite Nat2Z.inj_pow in H. }
      destruct (Nat.ltb_spec 0 j).
      * rewrite read_var_bits by auto. cbn [bind]. rewrite Nat2Z.id.
        destruct (Nat.ltb_spec n (cnt + rem)); [lia|]. eexists; split; [reflexivity|].
        split; [|lia]. destruct t; cbn in *; now subst.
      * assert (j = O) by lia. rewrite H2 in *. cbn in H. assert (rem = O) by lia. lia.
Qed.

Lemma run_count_ok n r rest t b s1 :
  (1 <= r <= n)%nat -> (1 < n)%nat -> (l_s t <= 31)%nat ->
  run_code r (l_s t) (r - 1) (r =? n)%nat = (b, s1) -> l_bits t = b ++ rest ->
  run_count n t = Ok (r, set_s s1 (set_bits rest t)) /\ (s1 <= 31)%nat.
Proof.
  intros Hr Hn Hs E Eb. unfold run_count. destruct (Nat.ltb_spec 1 n); [|lia]. cbn [assert_ bind].
  destruct r as [|r]; [lia|]. replace (S r - 1)%nat with r in E by lia.
  destruct (run_loop_ok n r n (l_s t) r 1 rest t b s1) as (t' & A & B & C); auto; try lia.
  split; [|exact C]. etransitivity; [exact A|now subst].
Qed.

(** ** Lines *)

Lemma run_length_spec a l j : (j < run_length a l)%nat -> nth j l 0 = a.
Proof.
  revert j; induction l as [|x l IH]; cbn [run_length]; intros j H; [lia|].
  destruct (Z.eqb_spec x a); [|lia]. destruct j; [now subst|]. apply IH. lia.
Qed.
Lemma run_length_le a l : (run_length a l <= length l)%nat.
Proof. induction l as [|x l IH]; cbn [run_length length]; [lia|]. destruct (x =? a); lia. Qed.
Lemma run_length_max a l : (run_length a l < length l)%nat -> nth (run_length a l) l 0 <> a.
Proof.
  induction l as [|x l IH]; cbn [run_length length]; intros H; [lia|].
  destruct (Z.eqb_spec x a); [|assumption]. apply IH. lia.
Qed.
Lemma nth_skipn {A} i j (l : list A) d : nth j (skipn i l) d = nth (i + j) l d.
Proof. revert l; induction i; intros; [reflexivity|]. destruct l; cbn; [now destruct j|apply IHi]. Qed.

Section Line.
  Variable row : list Z.
  Let w := length row.
  Variable a0 : Z.

  (** The decoder's state with the first [i] columns done. *)
  Definition St (i : nat) (t : lst) : Prop :=
    l_pos t = S i /\ length (l_cur t) = (w + 2)%nat /\ length (l_lk t) = (w + 2)%nat /\
    nth 0 (l_cur t) 0 = a0 /\ (forall j, (j < i)%nat -> nth (S j) (l_cur t) 0 = nth j row 0) /\
    (l_k t <= 15)%nat /\ (l_s t <= 31)%nat.

  Definition left_of (i : nat) : Z := match i with O => a0 | S i' => nth i' row 0 end.

  Lemma St_a i t : St i t -> (i <= w)%nat -> coeff_a t = Ok (left_of i).
  Proof.
    intros (P & L & _ & A0 & C & _) Hi. unfold coeff_a. rewrite P, usub_ok by lia. cbn [bind].
    rewrite (get_ok _ _ 0) by lia. f_equal. replace (S i - 1)%nat with i by lia.
    destruct i; [exact A0|]. apply C. lia.
  Qed.

  Lemma St_store i t : St i t -> (i < w)%nat ->
    exists t', store (nth i row 0) t = Ok t' /\ St (S i) (advance t') /\ l_lk t' = l_lk t /\ l_bits t' = l_bits t /\
      l_k t' = l_k t /\ l_s t' = l_s t /\ l_pos t' = l_pos t.
  Proof.
    intros (P & L & LK & A0 & C & K & Hs) Hi. unfold store. rewrite P, put_ok by lia. cbn [bind].
    eexists; split; [reflexivity|]. split; [|repeat split; auto]. unfold St, advance; cbn.
    split; [lia|]. rewrite upd_list_length. split; [lia|]. split; [lia|].
    split; [rewrite nth_upd_neq by lia; exact A0|]. split; [|split; lia].
    intros j Hj. rewrite nth_upd by lia. destruct (Nat.eqb_spec (S i) (S j)); [now replace j with i by lia|].
    apply C. lia.
  Qed.

  Lemma St_set i t k s b : St i t -> (k <= 15)%nat -> (s <= 31)%nat -> St i (set_s s (set_k k (set_bits b t))).
  Proof. intros (P & L & LK & A0 & C & K & Hs) ? ?. unfold St; cbn; auto 10. Qed.
  Lemma St_bits i t b : St i t -> St i (set_bits b t).
  Proof. intros (P & L & LK & A0 & C & K & Hs). unfold St; cbn; auto 10. Qed.
  Lemma St_k i t k : St i t -> (k <= 15)%nat -> St i (set_k k t).
  Proof. intros (P & L & LK & A0 & C & K & Hs) ?. unfold St; cbn; auto 10. Qed.
  Lemma St_s i t s : St i t -> (s <= 31)%nat -> St i (set_s s t).
  Proof. intros (P & L & LK & A0 & C & K & Hs) ?. unfold St; cbn; auto 10. Qed.

  Lemma St_store_k i t k : St (S i) (advance t) -> (i < w)%nat ->
    exists t', store_k k t = Ok t' /\ St (S i) (advance t') /\ l_lk t' = upd_list (l_lk t) i k /\ l_bits t' = l_bits t /\
      l_k t' = l_k t /\ l_s t' = l_s t /\ l_pos t' = l_pos t.
  Proof.
    intros (P & L & LK & A0 & C & K & Hs) Hi. cbn in *. unfold store_k. rewrite usub_ok by lia. cbn [bind].
    replace (l_pos t - 1)%nat with i by lia. rewrite put_ok by lia. cbn [bind].
    eexists; split; [reflexivity|]. split; [|repeat split; auto]. unfold St, advance; cbn.
    rewrite upd_list_length. auto 10.
  Qed.

  (** A run of zeros and a run of copies. *)
  Lemma zero_run_ok n i t : St i t -> (i + n <= w)%nat -> (forall j, (i <= j < i + n)%nat -> nth j row 0 = 0) ->
    exists t', zero_run n t = Ok t' /\ St (i + n) t' /\ l_bits t' = l_bits t /\ l_k t' = l_k t /\ l_s t' = l_s t /\
      (forall j, nth j (l_lk t') 0%nat = if (i <=? j)%nat && (j <? i + n)%nat then 0%nat else nth j (l_lk t) 0%nat).
  Proof.
    intros H Hn Hz. unfold zero_run.
    destruct (for_each_seq_inv (fun _ t => do t <- store 0 t; do t <- store_k 0 t; Ok (advance t))
      (fun m t' => St (i + m) t' /\ l_bits t' = l_bits t /\ l_k t' = l_k t /\ l_s t' = l_s t /\
        (forall j, nth j (l_lk t') 0%nat = if (i <=? j)%nat && (j <? i + m)%nat then 0%nat else nth j (l_lk t) 0%nat)) 0 n t)
      as (t' & A & B).
    - rewrite Nat.add_0_r. split; [exact H|]. repeat split; auto. intros j.
      destruct (Nat.leb_spec i j), (Nat.ltb_spec j i); try lia; reflexivity.
    - intros m s Hm (HS & Eb & Ek & Es & El).
      destruct (St_store _ _ HS) as (t1 & A1 & S1 & L1 & B1 & K1 & Q1 & P1); [lia|].
      rewrite (Hz (i + m)%nat) in A1 by lia. rewrite A1. cbn [bind].
      destruct (St_store_k _ _ 0%nat S1) as (t2 & A2 & S2 & L2 & B2 & K2 & Q2 & P2); [lia|].
      rewrite A2. cbn [bind]. eexists; split; [reflexivity|].
      replace (i + S m)%nat with (S (i + m)) by lia. split; [exact S2|].
      cbn [advance l_bits l_k l_s l_lk]. split; [congruence|]. split; [congruence|]. split; [congruence|].
      intros j. rewrite L2, L1. destruct HS as (_ & _ & LK & _).
      rewrite nth_upd by lia. rewrite El.
      destruct (Nat.eqb_spec (i + m) j).
      + subst j. destruct (Nat.leb_spec i (i + m)), (Nat.ltb_spec (i + m) (S (i + m))); try lia; reflexivity.
      + destruct (Nat.leb_spec i j), (Nat.ltb_spec j (i + m)), (Nat.ltb_spec j (S (i + m))); try lia; reflexivity.
    - exists t'. split; [exact A|]. exact B.
  Qed.

  Lemma copy_run_ok n i t : St i t -> (i + n <= w)%nat -> (forall j, (i <= j < i + n)%nat -> nth j row 0 = left_of i) ->
    exists t', copy_run n t = Ok t' /\ St (i + n) t' /\ l_bits t' = l_bits t /\ l_k t' = l_k t /\ l_s t' = l_s t.
  Proof.
    intros H Hn Hz. unfold copy_run.
    destruct (for_each_seq_inv (fun _ t => do a <- coeff_a t; do t <- store a t; Ok (advance t))
      (fun m t' => St (i + m) t' /\ l_bits t' = l_bits t /\ l_k t' = l_k t /\ l_s t' = l_s t) 0 n t)
      as (t' & A & B).
    - rewrite Nat.add_0_r. auto.
    - intros m s Hm (HS & Eb & Ek & Es).
      rewrite (St_a _ _ HS) by lia. cbn [bind].
      destruct (St_store _ _ HS) as (t1 & A1 & S1 & L1 & B1 & K1 & Q1 & P1); [lia|].
      assert (left_of (i + m) = nth (i + m) row 0) as ->.
      { rewrite (Hz (i + m)%nat) by lia. destruct m; [now rewrite Nat.add_0_r|].
        replace (i + S m)%nat with (S (i + m)) by lia. cbn [left_of]. apply Hz. lia. }
      rewrite A1. cbn [bind]. eexists; split; [reflexivity|].
      replace (i + S m)%nat with (S (i + m)) by lia. split; [exact S1|]. cbn. repeat split; congruence.
    - exists t'. split; [exact A|]. exact B.
  Qed.

  (** The coded length of a run, its decoding and the filling. *)
  Definition run_bits (n r s : nat) : list bool * nat :=
    match r with
    | O => ([false], s)
    | S r' => let '(b, s1) := run_code (S r') s r' (r =? n)%nat in (true :: b, s1)
    end.

  Lemma run_part (F : nat -> lst -> res lst) i n r t rb s1 rest (P : lst -> lst -> Prop) :
    St i t -> n = (w - i)%nat -> (1 < n)%nat -> (r <= n)%nat ->
    (forall m t, St i t -> (1 <= m <= r)%nat -> exists t', F m t = Ok t' /\ St (i + m) t' /\ l_bits t' = l_bits t /\
       l_k t' = l_k t /\ l_s t' = l_s t /\ (m = r -> P t t')) ->
    (r = O -> forall b, P t (set_bits b t)) ->
    (forall s b t', P (set_s s (set_bits b t)) t' -> P t t') ->
    run_bits n r (l_s t) = (rb, s1) -> l_bits t = rb ++ rest ->
    exists one t0 t', flag t = Ok (one, t0) /\
      (if one : bool then do (m, t) <- run_count n t0; do t <- F m t; Ok ((n - m)%nat, t) else Ok (n, t0)) = Ok ((n - r)%nat, t') /\
      St (i + r) t' /\ l_bits t' = rest /\ l_k t' = l_k t /\ l_s t' = s1 /\ P t t'.
  Proof.
    intros H En Hn Hr HF HP0 HPs E Eb. pose proof H as (_ & _ & _ & _ & _ & Hk & Hs).
    destruct r as [|r]; cbn [run_bits] in E.
    - injection E as <- <-. exists false, (set_bits rest t), (set_bits rest t).
      split; [apply flag_ok; exact Eb|]. rewrite Nat.sub_0_r, Nat.add_0_r. split; [reflexivity|].
      split; [now apply St_bits|]. auto.
    - destruct (run_code _ _ _ _) as [b s2] eqn:Er. injection E as <- <-.
      exists true, (set_bits (b ++ rest) t).
      destruct (run_count_ok n (S r) rest (set_bits (b ++ rest) t) b s2) as (A & B); auto; try lia.
      { replace (S r - 1)%nat with r by lia. exact Er. }
      destruct (HF (S r) (set_s s2 (set_bits rest (set_bits (b ++ rest) t)))) as (t' & A' & S' & Eb' & Ek' & Es' & Pp).
      { apply St_s; [now apply St_bits, St_bits|exact B]. }
      { lia. }
      exists t'. split; [apply flag_ok; exact Eb|]. rewrite A. cbn [bind]. rewrite A'. cbn [bind].
      split; [reflexivity|]. split; [exact S'|]. rewrite Eb', Ek', Es'. cbn. split; [reflexivity|]. split; [reflexivity|].
      split; [reflexivity|]. apply (HPs s2 rest). apply Pp. reflexivity.
  Qed.

  Lemma line_code_S K f i k s :
    line_code K row (S f) i k s =
    let n := (w - i)%nat in
    if (n =? 0)%nat then ([], [], k, s)
    else if (1 <? n)%nat && kd_run K i then
      let r := run_length (kd_left K i) (skipn i row) in
      let '(rb, s1) := run_bits n r s in
      let j := (i + r)%nat in
      if (j =? w)%nat then (rb, repeat 0%nat r, k, s1)
      else
        let v := fold_sign (nth j row 0 - kd_rpred K j) - kd_low K in
        let k1 := kd_next K j v k in
        let '(b, ks, k2, s2) := line_code K row f (S j) k1 s1 in
        (rb ++ rice_code k v ++ b, repeat 0%nat r ++ k1 :: ks, k2, s2)
    else
      let v := fold_sign (nth i row 0 - kd_pred K i) in
      let k1 := kd_next K i v k in
      let '(b, ks, k2, s2) := line_code K row f (S i) k1 s in
      (rice_code k v ++ b, k1 :: ks, k2, s2).
  Proof. reflexivity. Qed.

  Lemma line_code_end K f i k s : (w <= i)%nat -> line_code K row f i k s = ([], [], k, s).
  Proof.
    intros. destruct f; [reflexivity|]. rewrite line_code_S. cbv zeta.
    replace (w - i)%nat with 0%nat by lia. reflexivity.
  Qed.

  Lemma line_code_bounds K : (forall i v k, (k <= 15)%nat -> (kd_next K i v k <= 15)%nat) ->
    forall f i k s b ks k' s', (w - i <= f)%nat -> (k <= 15)%nat -> line_code K row f i k s = (b, ks, k', s') ->
    length ks = (w - i)%nat /\ (k' <= 15)%nat /\ Forall (fun k => (k <= 15)%nat) ks.
  Proof.
    intros HK. induction f as [|f IH]; intros i k s b ks k' s' Hf Hk E.
    { injection E as <- <- <- <-. cbn. split; [lia|]. auto. }
    rewrite line_code_S in E. cbv zeta in E. destruct (Nat.eqb_spec (w - i) 0).
    { injection E as <- <- <- <-. cbn. split; [lia|]. auto. }
    destruct (_ && _).
    - pose proof (run_length_le (kd_left K i) (skipn i row)) as Hl. rewrite skipn_length in Hl. fold w in Hl.
      set (r := run_length _ _) in *. destruct (run_bits _ r s) as [rb s1].
      destruct (Nat.eqb_spec (i + r) w).
      + injection E as <- <- <- <-. rewrite repeat_length. split; [lia|]. split; [lia|].
        apply Forall_forall. intros x Hx. apply repeat_spec in Hx. lia.
      + destruct (line_code K row f (S (i + r)) _ s1) as [[[b1 ks1] k2] s2] eqn:E1. injection E as <- <- <- <-.
        apply IH in E1; [|lia|apply HK; lia]. destruct E1 as (L & Hk2 & Fa).
        rewrite app_length, repeat_length. cbn [length]. split; [lia|]. split; [lia|].
        apply Forall_app. split; [|constructor; auto].
        apply Forall_forall. intros x Hx. apply repeat_spec in Hx. lia.
    - destruct (line_code K row f (S i) _ s) as [[[b1 ks1] k2] s2] eqn:E1. injection E as <- <- <- <-.
      apply IH in E1; [|lia|apply HK; lia]. destruct E1 as (L & Hk2 & Fa).
      cbn [length]. split; [lia|]. split; [lia|]. constructor; auto.
  Qed.
End Line.
