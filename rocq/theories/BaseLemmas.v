From Coq Require Import List ZArith Lia Bool.
From Coq Require Import ZifyBool ZifyNat.
From Verif Require Import Base.
Import ListNotations.
Open Scope Z_scope.

Lemma bind_ok {A B} (r : res A) (f : A -> res B) b :
  bind r f = Ok b -> exists a, r = Ok a /\ f a = Ok b.
Proof. destruct r; simpl; intros; try discriminate; eauto. Qed.

Lemma get_ok {A} (l : list A) i d : (i < length l)%nat -> get l i = Ok (nth i l d).
Proof.
  intros. unfold get. destruct (nth_error l i) eqn:E.
  - erewrite nth_error_nth; eauto.
  - apply nth_error_None in E. lia.
Qed.

Lemma get_inv {A} (l : list A) i a d : get l i = Ok a -> (i < length l)%nat /\ nth i l d = a.
Proof.
  unfold get. destruct (nth_error l i) eqn:E; intros H; inversion H; subst.
  split. - apply nth_error_Some. congruence. - erewrite nth_error_nth; eauto.
Qed.

Lemma upd_list_length {A} (l : list A) i a : length (upd_list l i a) = length l.
Proof. revert i; induction l; destruct i; simpl; auto. Qed.

Lemma nth_upd_eq {A} (l : list A) i a d : (i < length l)%nat -> nth i (upd_list l i a) d = a.
Proof. revert i; induction l; destruct i; simpl; intros; try lia; auto. apply IHl; lia. Qed.

Lemma nth_upd_neq {A} (l : list A) i j a d : i <> j -> nth j (upd_list l i a) d = nth j l d.
Proof. revert i j; induction l; destruct i, j; simpl; intros; try congruence; auto. Qed.

Lemma nth_upd {A} (l : list A) i j a d :
  (i < length l)%nat -> nth j (upd_list l i a) d = if (i =? j)%nat then a else nth j l d.
Proof.
  intros. destruct (Nat.eqb_spec i j).
  - subst. now apply nth_upd_eq. - now apply nth_upd_neq.
Qed.

Lemma put_ok {A} (l : list A) i a : (i < length l)%nat -> put l i a = Ok (upd_list l i a).
Proof. intros. unfold put. destruct (Nat.ltb_spec i (length l)); auto; lia. Qed.

Lemma put_inv {A} (l : list A) i a l' :
  put l i a = Ok l' -> (i < length l)%nat /\ l' = upd_list l i a.
Proof. unfold put. destruct (Nat.ltb_spec i (length l)); intros E; inversion E; auto. Qed.

Lemma slice_ok {A} (l : list A) a b :
  (a <= b <= length l)%nat -> slice l a b = Ok (firstn (b - a) (skipn a l)).
Proof.
  intros. unfold slice.
  destruct (Nat.leb_spec a b), (Nat.leb_spec b (length l)); simpl; auto; lia.
Qed.

Lemma slice_inv {A} (l : list A) a b s :
  slice l a b = Ok s -> (a <= b <= length l)%nat /\ s = firstn (b - a) (skipn a l).
Proof.
  unfold slice.
  destruct (Nat.leb_spec a b), (Nat.leb_spec b (length l)); simpl; intros E; inversion E; auto.
Qed.

Lemma usub_ok a b : (b <= a)%nat -> usub a b = Ok (a - b)%nat.
Proof. intros. unfold usub. destruct (Nat.leb_spec b a); auto; lia. Qed.

Lemma for_each_app {A S} (l1 l2 : list A) (f : A -> S -> res S) s :
  for_each (l1 ++ l2) f s = do s' <- for_each l1 f s; for_each l2 f s'.
Proof.
  revert s. induction l1; simpl; auto. intros. destruct (f a s); simpl; auto.
Qed.

Lemma for_each_ext {A S} (l : list A) (f g : A -> S -> res S) s :
  (forall a s, In a l -> f a s = g a s) -> for_each l f s = for_each l g s.
Proof.
  revert s. induction l; simpl; auto. intros s H. rewrite H by auto.
  destruct (g a s); simpl; auto.
Qed.

(** Invariant rule for loops over [seq]. *)
Lemma for_each_seq_inv {S} (f : nat -> S -> res S) (I : nat -> S -> Prop) a n s :
  I a s ->
  (forall i s, (a <= i < a + n)%nat -> I i s -> exists s', f i s = Ok s' /\ I (Datatypes.S i) s') ->
  exists s', for_each (seq a n) f s = Ok s' /\ I (a + n)%nat s'.
Proof.
  revert a s. induction n; simpl; intros.
  - exists s. rewrite Nat.add_0_r. auto.
  - destruct (H0 a s) as (s1 & E & HI); [lia|auto|].
    rewrite E. simpl. destruct (IHn (Datatypes.S a) s1) as (s2 & E2 & H2); auto.
    { intros. apply H0; auto. lia. }
    exists s2. split; auto. replace (a + Datatypes.S n)%nat with (Datatypes.S a + n)%nat by lia. auto.
Qed.

(** ** nth/firstn/skipn *)
Lemma nth_skipn {A} n i (l : list A) d : nth i (skipn n l) d = nth (n + i) l d.
Proof. revert l; induction n; destruct l; simpl; auto. destruct i; auto. Qed.

Lemma nth_firstn {A} n i (l : list A) d : (i < n)%nat -> nth i (firstn n l) d = nth i l d.
Proof. revert i l; induction n; destruct i, l; simpl; intros; auto; try lia. apply IHn; lia. Qed.

Lemma nth_ext_len {A} (l l' : list A) d :
  length l = length l' -> (forall i, (i < length l)%nat -> nth i l d = nth i l' d) -> l = l'.
Proof. intros. apply nth_ext with (d := d) (d' := d); auto. Qed.

Lemma skipn_skipn {A} a b (l : list A) : skipn a (skipn b l) = skipn (b + a) l.
Proof.
  revert l. induction b; simpl; auto.
  destruct l; simpl; auto. now rewrite skipn_nil.
Qed.

Lemma nth_map_seq {A} (f : nat -> A) n i d : (i < n)%nat -> nth i (map f (seq 0 n)) d = f i.
Proof.
  intros. rewrite nth_indep with (d' := f 0%nat) by (rewrite map_length, seq_length; auto).
  rewrite map_nth. now rewrite seq_nth by auto.
Qed.

Lemma list_as_map_seq {A} (l : list A) d : l = map (fun i => nth i l d) (seq 0 (length l)).
Proof.
  apply nth_ext_len with (d := d).
  - now rewrite map_length, seq_length.
  - intros. now rewrite nth_map_seq by auto.
Qed.

Lemma firstn_map_seq {A} n (l : list A) d :
  (n <= length l)%nat -> firstn n l = map (fun i => nth i l d) (seq 0 n).
Proof.
  intros. apply nth_ext_len with (d := d).
  - rewrite firstn_length, map_length, seq_length; lia.
  - intros i Hi. rewrite firstn_length in Hi. rewrite nth_firstn by lia.
    rewrite nth_map_seq by lia; auto.
Qed.

(** ** powers *)
Lemma pow2_pos n : 0 < 2 ^ Z.of_nat n.
Proof. apply Z.pow_pos_nonneg; lia. Qed.

Lemma pow2_S n : 2 ^ Z.of_nat (S n) = 2 * 2 ^ Z.of_nat n.
Proof. rewrite Nat2Z.inj_succ, Z.pow_succ_r; lia. Qed.

Lemma pow2_add n m : 2 ^ Z.of_nat (n + m) = 2 ^ Z.of_nat n * 2 ^ Z.of_nat m.
Proof. rewrite Nat2Z.inj_add, Z.pow_add_r; lia. Qed.

Lemma pow2_le n m : (n <= m)%nat -> 2 ^ Z.of_nat n <= 2 ^ Z.of_nat m.
Proof. intros. apply Z.pow_le_mono_r; lia. Qed.

Lemma land_ones' a n : Z.land a (2 ^ Z.of_nat n - 1) = a mod 2 ^ Z.of_nat n.
Proof. rewrite <- Z.land_ones by lia. rewrite Z.ones_equiv. f_equal. Qed.

Lemma lor_add_disjoint a b n : 0 <= b < 2 ^ Z.of_nat n ->
  Z.lor (a * 2 ^ Z.of_nat n) b = a * 2 ^ Z.of_nat n + b.
Proof.
  intros. rewrite <- Z.shiftl_mul_pow2 by lia.
  assert (HL : Z.land (Z.shiftl a (Z.of_nat n)) b = 0).
  { apply Z.bits_inj'. intros k Hk. rewrite Z.land_spec, Z.bits_0.
    destruct (Z.lt_ge_cases k (Z.of_nat n)).
    + rewrite Z.shiftl_spec_low; auto.
    + replace (Z.testbit b k) with false. { now rewrite andb_false_r. }
      symmetry. destruct (Z.eq_dec b 0). { subst; apply Z.bits_0. }
      apply Z.bits_above_log2; try lia. apply Z.log2_lt_pow2; try lia.
      eapply Z.lt_le_trans; [apply H|]. apply Z.pow_le_mono_r; lia. }
  rewrite <- Z.lxor_lor by auto. now rewrite Z.add_nocarry_lxor.
Qed.

(** ** bit lists *)
Lemma bits_of_length n v : length (bits_of n v) = n.
Proof. induction n; simpl; auto. Qed.

Lemma nth_bits_of n v i d : (i < n)%nat -> nth i (bits_of n v) d = Z.testbit v (Z.of_nat (n - 1 - i)).
Proof.
  revert i; induction n; simpl; intros; try lia.
  destruct i. - f_equal. lia. - rewrite IHn by lia. f_equal. lia.
Qed.

Lemma bits_of_ext n v w :
  (forall i, (i < n)%nat -> Z.testbit v (Z.of_nat i) = Z.testbit w (Z.of_nat i)) ->
  bits_of n v = bits_of n w.
Proof. induction n; simpl; auto; intros. rewrite H by lia. f_equal. auto. Qed.

Lemma bits_of_mod n v : bits_of n (v mod 2 ^ Z.of_nat n) = bits_of n v.
Proof. apply bits_of_ext; intros. apply Z.mod_pow2_bits_low. lia. Qed.

Lemma bits_of_mod_ge n m v : (n <= m)%nat -> bits_of n (v mod 2 ^ Z.of_nat m) = bits_of n v.
Proof. intros; apply bits_of_ext; intros. apply Z.mod_pow2_bits_low. lia. Qed.

Lemma bits_of_app n m v : bits_of (n + m) v = bits_of n (v / 2 ^ Z.of_nat m) ++ bits_of m v.
Proof.
  induction n; simpl; auto. rewrite IHn. f_equal.
  rewrite Z.div_pow2_bits by lia. f_equal. lia.
Qed.

Lemma bits_of_0 n : bits_of n 0 = repeat false n.
Proof. induction n; simpl; auto. rewrite Z.bits_0, IHn; auto. Qed.

Lemma bval_range l : 0 <= bval l < 2 ^ Z.of_nat (length l).
Proof.
  induction l as [|b l IH]; [simpl; lia|].
  cbn [length bval]. rewrite pow2_S. pose proof (pow2_pos (length l)).
  destruct b; cbn [Z.b2z]; lia.
Qed.

Lemma bval_app a b : bval (a ++ b) = bval a * 2 ^ Z.of_nat (length b) + bval b.
Proof.
  induction a as [|x a IH]; [simpl; lia|].
  simpl app. cbn [bval]. rewrite IH, app_length, pow2_add. ring.
Qed.

Lemma bval_bits_of n v : bval (bits_of n v) = v mod 2 ^ Z.of_nat n.
Proof.
  induction n. { simpl. rewrite Z.mod_1_r. auto. }
  cbn [bits_of bval]. rewrite bits_of_length, IHn.
  rewrite pow2_S.
  pose proof (pow2_pos n).
  rewrite (Z.mul_comm 2).
  rewrite Z.rem_mul_r by lia.
  rewrite Z.testbit_spec' by lia. ring.
Qed.

Lemma bits_of_bval l : bits_of (length l) (bval l) = l.
Proof.
  induction l as [|b l IH]; auto.
  cbn [length bits_of bval].
  pose proof (bval_range l). pose proof (pow2_pos (length l)).
  f_equal.
  - rewrite Z.testbit_eqb by lia.
    rewrite Z.div_add_l by lia. rewrite Z.div_small by lia.
    destruct b; auto.
  - transitivity (bits_of (length l) (bval l)); auto. apply bits_of_ext. intros i Hi.
    rewrite <- (Z.mod_pow2_bits_low _ (Z.of_nat (length l))) by lia.
    rewrite Z.add_comm, Z_mod_plus_full.
    rewrite Z.mod_small by lia. auto.
Qed.

Lemma bval_inj a b : length a = length b -> bval a = bval b -> a = b.
Proof. intros. rewrite <- (bits_of_bval a), <- (bits_of_bval b). congruence. Qed.

Lemma take0_length n l : length (take0 n l) = n.
Proof. revert l; induction n; destruct l; simpl; auto. Qed.

Lemma take0_nth n l i : (i < n)%nat -> nth i (take0 n l) false = nth i l false.
Proof.
  revert l i; induction n; destruct l, i; simpl; intros; try lia; auto.
  - rewrite IHn by lia. destruct i; auto.
  - apply IHn. lia.
Qed.

Lemma take0_ext n l l' :
  (forall i, nth i l false = nth i l' false) -> take0 n l = take0 n l'.
Proof.
  intros. apply nth_ext_len with (d := false). { now rewrite !take0_length. }
  intros i Hi. rewrite take0_length in Hi. rewrite !take0_nth by auto. auto.
Qed.

Lemma take0_app n a b : length a = n -> take0 n (a ++ b) = a.
Proof. intros; subst. induction a; simpl; auto. f_equal; auto. Qed.

Lemma take0_app_ge a n b : take0 (length a + n) (a ++ b) = a ++ take0 n b.
Proof. induction a; simpl; auto. f_equal; auto. Qed.

Lemma take0_plus n m l : take0 (n + m) l = take0 n l ++ take0 m (skipn n l).
Proof.
  revert l; induction n; destruct l; simpl; auto.
  - rewrite IHn. rewrite skipn_nil. auto.
  - f_equal; auto.
Qed.

Lemma take0_short n l : (n <= length l)%nat -> take0 n l = firstn n l.
Proof. revert l; induction n; destruct l; simpl; intros; auto; try lia. f_equal. apply IHn; lia. Qed.

Lemma peekv_range n l : 0 <= peekv n l < 2 ^ Z.of_nat n.
Proof. unfold peekv. pose proof (bval_range (take0 n l)). now rewrite take0_length in H. Qed.

Lemma peekv_ext n l l' : (forall i, nth i l false = nth i l' false) -> peekv n l = peekv n l'.
Proof. intros. unfold peekv. f_equal. now apply take0_ext. Qed.

Lemma peekv_app n a b : length a = n -> peekv n (a ++ b) = bval a.
Proof. intros. unfold peekv. now rewrite take0_app. Qed.

Lemma peekv_bits_of n v b : 0 <= v < 2 ^ Z.of_nat n -> peekv n (bits_of n v ++ b) = v.
Proof.
  intros. rewrite peekv_app by apply bits_of_length.
  rewrite bval_bits_of. apply Z.mod_small; auto.
Qed.

Lemma peekv_plus n m l : peekv (n + m) l = peekv n l * 2 ^ Z.of_nat m + peekv m (skipn n l).
Proof. unfold peekv. rewrite take0_plus, bval_app, take0_length. auto. Qed.

Lemma byte_bits_length bs : length (byte_bits bs) = (8 * length bs)%nat.
Proof.
  unfold byte_bits. induction bs; auto. cbn [flat_map length].
  rewrite app_length, bits_of_length, IHbs. lia.
Qed.

Lemma byte_bits_app a b : byte_bits (a ++ b) = byte_bits a ++ byte_bits b.
Proof. unfold byte_bits. now rewrite flat_map_app. Qed.

Lemma byte_bits_cons a b : byte_bits (a :: b) = bits_of 8 a ++ byte_bits b.
Proof. reflexivity. Qed.

Lemma nth_repeat_lt {A} (x : A) n i d : (i < n)%nat -> nth i (repeat x n) d = x.
Proof. revert i; induction n; destruct i; simpl; intros; try lia; auto. apply IHn; lia. Qed.

Lemma flat_map_seq_S {A} (f : nat -> list A) n : flat_map f (seq 0 (S n)) = flat_map f (seq 0 n) ++ f n.
Proof. rewrite seq_S, flat_map_app. cbn. now rewrite app_nil_r. Qed.

Lemma flat_map_seq_length {A} (f : nat -> list A) n k : (forall i, (i < n)%nat -> length (f i) = k) ->
  length (flat_map f (seq 0 n)) = (n * k)%nat.
Proof.
  induction n; intros H; auto. rewrite flat_map_seq_S, app_length, IHn, H by (intros; try apply H; lia). lia.
Qed.

Lemma flat_map_seq_nth {A} (f : nat -> list A) n k i j d : (forall i, (i < n)%nat -> length (f i) = k) ->
  (i < n)%nat -> (j < k)%nat -> nth (i * k + j) (flat_map f (seq 0 n)) d = nth j (f i) d.
Proof.
  induction n; intros H Hi Hj; [lia|]. rewrite flat_map_seq_S.
  assert (HL1 : length (flat_map f (seq 0 n)) = (n * k)%nat) by (apply flat_map_seq_length; intros; apply H; lia).
  destruct (Nat.eq_dec i n).
  - subst. rewrite app_nth2 by lia. rewrite HL1. f_equal. lia.
  - rewrite app_nth1 by nia. apply IHn; auto. lia.
Qed.
