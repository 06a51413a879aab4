(** Canonical codes: count_codes, adjust_bits, sort_input, gen_size_table,
    gen_code_table, order_codes and fill_table. *)
From Coq Require Import List ZArith Lia Bool Permutation.
From Coq Require Import ZifyBool ZifyNat.
From Verif Require Import Base BaseLemmas LjpegEnc HuffTree.
Import ListNotations.
Open Scope Z_scope.

(** ** Counting *)
Definition cnt (cs : list nat) (l : list nat) (c : nat) : nat :=
  length (filter (fun j => (nth j cs 0 =? c)%nat) l).

Lemma cnt_app cs a b c : cnt cs (a ++ b) c = (cnt cs a c + cnt cs b c)%nat.
Proof. unfold cnt. now rewrite filter_app, app_length. Qed.

Lemma cnt_cons cs i l c : cnt cs (i :: l) c = ((if (nth i cs 0 =? c)%nat then 1 else 0) + cnt cs l c)%nat.
Proof. unfold cnt. cbn [filter]. destruct (_ =? c)%nat; auto. Qed.

Lemma zsum_map_add {A} (f g : A -> Z) l : zsum (map (fun x => f x + g x) l) = zsum (map f l) + zsum (map g l).
Proof. unfold zsum. induction l; simpl; lia. Qed.

Lemma zsum_map_0 {A} (l : list A) (f : A -> Z) : (forall x, In x l -> f x = 0) -> zsum (map f l) = 0.
Proof.
  unfold zsum. induction l; simpl; intros; auto. rewrite IHl by auto. rewrite H; auto.
Qed.

Lemma zsum_map_ext {A} (l : list A) (f g : A -> Z) : (forall x, In x l -> f x = g x) -> zsum (map f l) = zsum (map g l).
Proof. intros. f_equal. now apply map_ext_in. Qed.

Lemma zsum_single (f : nat -> Z) v n a : (a <= v < a + n)%nat ->
  zsum (map (fun c => (if (v =? c)%nat then 1 else 0) * f c) (seq a n)) = f v.
Proof.
  revert a. induction n; intros a H; [lia|].
  cbn [seq map]. unfold zsum; cbn [fold_right]; fold (zsum (map (fun c => (if (v =? c)%nat then 1 else 0) * f c) (seq (S a) n))).
  destruct (Nat.eqb_spec v a).
  - subst. rewrite zsum_map_0; [lia|]. intros x Hx. apply in_seq in Hx.
    destruct (Nat.eqb_spec a x); lia.
  - rewrite IHn by lia. lia.
Qed.

(** Sum over symbols = sum over code sizes. *)
Lemma sum_by_count cs l n (f : nat -> Z) :
  (forall i, In i l -> (nth i cs 0 < n)%nat) ->
  zsum (map (fun i => f (nth i cs 0%nat)) l) = zsum (map (fun c => Z.of_nat (cnt cs l c) * f c) (seq 0 n)).
Proof.
  induction l as [|i l IH]; intros H.
  - symmetry. cbn [map]. change (zsum []) with 0. apply zsum_map_0. reflexivity.
  - cbn [map]. unfold zsum at 1; cbn [fold_right]; fold (zsum (map (fun i => f (nth i cs 0%nat)) l)).
    rewrite IH by (intros; apply H; simpl; auto).
    rewrite <- (zsum_single f (nth i cs 0%nat) n 0) by (specialize (H i (or_introl eq_refl)); lia).
    rewrite <- zsum_map_add. apply zsum_map_ext. intros c _. rewrite cnt_cons.
    destruct (_ =? c)%nat; lia.
Qed.

Lemma cnt_filter cs l p c :
  (forall i, In i l -> p i = false -> nth i cs 0%nat <> c) -> cnt cs (filter p l) c = cnt cs l c.
Proof.
  induction l as [|i l IH]; intros H; auto.
  cbn [filter]. destruct (p i) eqn:E.
  - rewrite !cnt_cons. rewrite IH; auto. intros; apply H; simpl; auto.
  - rewrite cnt_cons. rewrite IH by (intros; apply H; simpl; auto).
    specialize (H i (or_introl eq_refl) E). destruct (Nat.eqb_spec (nth i cs 0%nat) c); auto. contradiction.
Qed.

(** count_codes counts. *)
Lemma count_codes_spec cs :
  length cs = 18%nat -> (forall i, (nth i cs 0 < 33)%nat) ->
  exists bits, count_codes cs = Ok bits /\ length bits = 33%nat /\ nth 0 bits 0%nat = 0%nat /\
    forall c, (1 <= c < 33)%nat -> nth c bits 0%nat = cnt cs (seq 0 18) c.
Proof.
  intros HL HB. unfold count_codes.
  destruct (for_each_seq_inv
    (fun (i : nat) (bits : list nat) =>
     do c <- get cs i;
     (if (0 <? c)%nat then do b <- get bits c; put bits c (S b) else Ok bits))
    (fun i bits => length bits = 33%nat /\ nth 0 bits 0%nat = 0%nat /\
       forall c, (1 <= c < 33)%nat -> nth c bits 0%nat = cnt cs (seq 0 i) c) 0 18 (repeat 0%nat 33))
    as (bits & E & I).
  - split; [apply repeat_length|]. split; auto. intros. rewrite nth_repeat. reflexivity.
  - intros i s Hi (L & Z0 & N).
    rewrite (get_ok _ _ 0%nat) by lia. cbn [bind].
    rewrite seq_S. cbn [plus].
    destruct (Nat.ltb_spec 0 (nth i cs 0%nat)).
    + rewrite (get_ok _ _ 0%nat) by (rewrite L; apply HB). cbn [bind].
      rewrite put_ok by (rewrite L; apply HB). eexists; split; [reflexivity|].
      rewrite upd_list_length. split; auto. split.
      { rewrite nth_upd_neq; auto. lia. }
      intros c Hc. rewrite cnt_app, cnt_cons. rewrite nth_upd by (rewrite L; apply HB).
      destruct (Nat.eqb_spec (nth i cs 0%nat) c); rewrite N by (try lia; subst; auto); unfold cnt; simpl; subst; lia.
    + eexists; split; [reflexivity|]. split; auto. split; auto. intros c Hc. rewrite cnt_app, cnt_cons.
      destruct (Nat.eqb_spec (nth i cs 0%nat) c); [lia|]. rewrite N by auto. unfold cnt; simpl; lia.
  - exists bits. split; auto.
Qed.

(** ** adjust_bits *)
Lemma down_to_nonzero_spec bits j :
  (j < length bits)%nat -> (exists k, (k <= j)%nat /\ nth k bits 0%nat <> 0%nat) ->
  exists m, down_to_nonzero bits j = Ok m /\ (m <= j)%nat /\ nth m bits 0%nat <> 0%nat /\
    forall k, (m < k <= j)%nat -> nth k bits 0%nat = 0%nat.
Proof.
  induction j; intros HL (k & Hk & Hn); cbn [down_to_nonzero];
    rewrite (get_ok _ _ 0%nat) by auto; cbn [bind].
  - assert (k = 0)%nat by lia. subst. destruct (Nat.eqb_spec (nth 0 bits 0%nat) 0); [lia|].
    exists 0%nat. repeat split; auto. intros; lia.
  - destruct (Nat.eqb_spec (nth (S j) bits 0%nat) 0).
    + destruct IHj as (m & E & A & B & C); [lia| |].
      { exists k. split; auto. destruct (Nat.eq_dec k (S j)); [congruence|lia]. }
      exists m. split; auto. split; [lia|]. split; auto. intros k' Hk'.
      destruct (Nat.eq_dec k' (S j)); [congruence|]. apply C; lia.
    + exists (S j). repeat split; auto. intros; lia.
Qed.

Definition kraft16 (bits : list nat) : Z :=
  zsum (map (fun i => Z.of_nat (nth i bits 0%nat) * 2 ^ (16 - Z.of_nat i)) (seq 1 16)).
Definition total16 (bits : list nat) : nat :=
  fold_right plus 0%nat (map (fun i => nth i bits 0%nat) (seq 1 16)).

Ltac list33 bits H :=
  do 33 (destruct bits as [|? bits]; [discriminate H|]); destruct bits; [|discriminate H].

Lemma adjust_bits_spec bits u :
  length bits = 33%nat -> nth 0 bits 0%nat = 0%nat ->
  (2 <= u <= 18)%nat ->
  (forall c, (18 <= c < 33)%nat -> nth c bits 0%nat = 0%nat) ->
  zsum (map (fun c => Z.of_nat (nth c bits 0%nat) * 2 ^ (18 - Z.of_nat c)) (seq 0 18)) = 2 ^ 18 ->
  fold_right plus 0%nat (map (fun i => nth i bits 0%nat) (seq 0 18)) = u ->
  exists bits' m, adjust_bits bits = Ok bits' /\ length bits' = 33%nat /\
    (1 <= m <= 16)%nat /\ kraft16 bits' + 2 ^ (16 - Z.of_nat m) = 2 ^ 16 /\
    S (total16 bits') = u.
Proof.
  intros HL H0 Hu HZ HK HT.
  list33 bits HL.
  assert (Hz : forall c, (18 <= c < 33)%nat -> nth c
     [n; n0; n1; n2; n3; n4; n5; n6; n7; n8; n9; n10; n11; n12; n13; n14; n15; n16; n17; n18; n19;
      n20; n21; n22; n23; n24; n25; n26; n27; n28; n29; n30; n31] 0%nat = 0%nat) by exact HZ.
  pose proof (HZ 18%nat ltac:(lia)). pose proof (HZ 19%nat ltac:(lia)). pose proof (HZ 20%nat ltac:(lia)).
  pose proof (HZ 21%nat ltac:(lia)). pose proof (HZ 22%nat ltac:(lia)). pose proof (HZ 23%nat ltac:(lia)).
  pose proof (HZ 24%nat ltac:(lia)). pose proof (HZ 25%nat ltac:(lia)). pose proof (HZ 26%nat ltac:(lia)).
  pose proof (HZ 27%nat ltac:(lia)). pose proof (HZ 28%nat ltac:(lia)). pose proof (HZ 29%nat ltac:(lia)).
  pose proof (HZ 30%nat ltac:(lia)). pose proof (HZ 31%nat ltac:(lia)). pose proof (HZ 32%nat ltac:(lia)).
  cbn [nth] in *. subst. clear HZ Hz HL.
  unfold zsum in HK. cbn [seq map nth fold_right] in HK, Hu.
  (* name the powers *)
  change (2 ^ (18 - Z.of_nat 0)) with 262144 in HK.
  change (2 ^ (18 - Z.of_nat 1)) with 131072 in HK. change (2 ^ (18 - Z.of_nat 2)) with 65536 in HK.
  change (2 ^ (18 - Z.of_nat 3)) with 32768 in HK. change (2 ^ (18 - Z.of_nat 4)) with 16384 in HK.
  change (2 ^ (18 - Z.of_nat 5)) with 8192 in HK. change (2 ^ (18 - Z.of_nat 6)) with 4096 in HK.
  change (2 ^ (18 - Z.of_nat 7)) with 2048 in HK. change (2 ^ (18 - Z.of_nat 8)) with 1024 in HK.
  change (2 ^ (18 - Z.of_nat 9)) with 512 in HK. change (2 ^ (18 - Z.of_nat 10)) with 256 in HK.
  change (2 ^ (18 - Z.of_nat 11)) with 128 in HK. change (2 ^ (18 - Z.of_nat 12)) with 64 in HK.
  change (2 ^ (18 - Z.of_nat 13)) with 32 in HK. change (2 ^ (18 - Z.of_nat 14)) with 16 in HK.
  change (2 ^ (18 - Z.of_nat 15)) with 8 in HK. change (2 ^ (18 - Z.of_nat 16)) with 4 in HK.
  change (2 ^ (18 - Z.of_nat 17)) with 2 in HK. change (2 ^ 18) with 262144 in HK.
  destruct (Nat.eq_dec n16 0) as [->|H17].
  - (* no code longer than 16 bits *)
    unfold adjust_bits.
    match goal with |- context [limit_loop 64 ?b 32] =>
      assert (EL : limit_loop 64 b 32 = Ok (b, 16%nat)) by reflexivity end.
    rewrite EL. cbn [bind]. clear EL.
    match goal with |- context [down_to_nonzero ?b 16] => set (B := b) end.
    destruct (down_to_nonzero_spec B 16) as (m & E & A1 & A2 & A3).
    { unfold B; simpl; lia. }
    { destruct (Nat.eq_dec n15 0); [|exists 16%nat; split; auto].
      destruct (Nat.eq_dec n14 0); [|exists 15%nat; split; auto; lia].
      destruct (Nat.eq_dec n13 0); [|exists 14%nat; split; auto; lia].
      destruct (Nat.eq_dec n12 0); [|exists 13%nat; split; auto; lia].
      destruct (Nat.eq_dec n11 0); [|exists 12%nat; split; auto; lia].
      destruct (Nat.eq_dec n10 0); [|exists 11%nat; split; auto; lia].
      destruct (Nat.eq_dec n9 0); [|exists 10%nat; split; auto; lia].
      destruct (Nat.eq_dec n8 0); [|exists 9%nat; split; auto; lia].
      destruct (Nat.eq_dec n7 0); [|exists 8%nat; split; auto; lia].
      destruct (Nat.eq_dec n6 0); [|exists 7%nat; split; auto; lia].
      destruct (Nat.eq_dec n5 0); [|exists 6%nat; split; auto; lia].
      destruct (Nat.eq_dec n4 0); [|exists 5%nat; split; auto; lia].
      destruct (Nat.eq_dec n3 0); [|exists 4%nat; split; auto; lia].
      destruct (Nat.eq_dec n2 0); [|exists 3%nat; split; auto; lia].
      destruct (Nat.eq_dec n1 0); [|exists 2%nat; split; auto; lia].
      destruct (Nat.eq_dec n0 0); [|exists 1%nat; split; auto; lia].
      exfalso. lia. }
    rewrite E. cbn [bind]. unfold bsub.
    assert (LB : length B = 33%nat) by reflexivity.
    rewrite (get_ok _ _ 0%nat) by lia. cbn [bind].
    rewrite usub_ok by lia. cbn [bind]. rewrite put_ok by lia.
    assert (Hm0 : m <> 0%nat) by (intros ->; apply A2; reflexivity).
    eexists; exists m. split; [reflexivity|]. rewrite upd_list_length. split; auto. split; [lia|].
    clear E A3.
    unfold kraft16, total16, zsum. cbn [seq map fold_right].
    do 17 (destruct m as [|m];
      [try congruence; cbn [B nth upd_list] in *;
       repeat match goal with |- context [2 ^ (16 - Z.of_nat ?k)] =>
         let v := eval vm_compute in (2 ^ (16 - Z.of_nat k)) in change (2 ^ (16 - Z.of_nat k)) with v end;
       change (2 ^ 16) with 65536; split; lia|]).
    lia.
  - (* 17-bit codes: all sizes are forced *)
    set (k1 := 2 - Z.of_nat n0) in *.
    set (k2 := 2 * k1 - Z.of_nat n1) in *.
    set (k3 := 2 * k2 - Z.of_nat n2) in *.
    set (k4 := 2 * k3 - Z.of_nat n3) in *.
    set (k5 := 2 * k4 - Z.of_nat n4) in *.
    set (k6 := 2 * k5 - Z.of_nat n5) in *.
    set (k7 := 2 * k6 - Z.of_nat n6) in *.
    set (k8 := 2 * k7 - Z.of_nat n7) in *.
    set (k9 := 2 * k8 - Z.of_nat n8) in *.
    set (k10 := 2 * k9 - Z.of_nat n9) in *.
    set (k11 := 2 * k10 - Z.of_nat n10) in *.
    set (k12 := 2 * k11 - Z.of_nat n11) in *.
    set (k13 := 2 * k12 - Z.of_nat n12) in *.
    set (k14 := 2 * k13 - Z.of_nat n13) in *.
    set (k15 := 2 * k14 - Z.of_nat n14) in *.
    set (k16 := 2 * k15 - Z.of_nat n15) in *.
    assert (E17 : Z.of_nat n16 = 2 * k16).
    { subst k16 k15 k14 k13 k12 k11 k10 k9 k8 k7 k6 k5 k4 k3 k2 k1. lia. }
    assert (P16 : 1 <= k16) by lia.
    assert (P15 : 1 <= k15) by (clearbody k15; subst k16; lia).
    assert (P14 : 1 <= k14) by (clearbody k14; subst k15; lia).
    assert (P13 : 1 <= k13) by (clearbody k13; subst k14; lia).
    assert (P12 : 1 <= k12) by (clearbody k12; subst k13; lia).
    assert (P11 : 1 <= k11) by (clearbody k11; subst k12; lia).
    assert (P10 : 1 <= k10) by (clearbody k10; subst k11; lia).
    assert (P9 : 1 <= k9) by (clearbody k9; subst k10; lia).
    assert (P8 : 1 <= k8) by (clearbody k8; subst k9; lia).
    assert (P7 : 1 <= k7) by (clearbody k7; subst k8; lia).
    assert (P6 : 1 <= k6) by (clearbody k6; subst k7; lia).
    assert (P5 : 1 <= k5) by (clearbody k5; subst k6; lia).
    assert (P4 : 1 <= k4) by (clearbody k4; subst k5; lia).
    assert (P3 : 1 <= k3) by (clearbody k3; subst k4; lia).
    assert (P2 : 1 <= k2) by (clearbody k2; subst k3; lia).
    assert (P1 : 1 <= k1) by (clearbody k1; subst k2; lia).
    assert (F1 : Z.of_nat n0 = 2 - k1) by (subst k1; lia).
    assert (F2 : Z.of_nat n1 = 2 * k1 - k2) by (clearbody k1; subst k2; lia).
    assert (F3 : Z.of_nat n2 = 2 * k2 - k3) by (clearbody k2; subst k3; lia).
    assert (F4 : Z.of_nat n3 = 2 * k3 - k4) by (clearbody k3; subst k4; lia).
    assert (F5 : Z.of_nat n4 = 2 * k4 - k5) by (clearbody k4; subst k5; lia).
    assert (F6 : Z.of_nat n5 = 2 * k5 - k6) by (clearbody k5; subst k6; lia).
    assert (F7 : Z.of_nat n6 = 2 * k6 - k7) by (clearbody k6; subst k7; lia).
    assert (F8 : Z.of_nat n7 = 2 * k7 - k8) by (clearbody k7; subst k8; lia).
    assert (F9 : Z.of_nat n8 = 2 * k8 - k9) by (clearbody k8; subst k9; lia).
    assert (F10 : Z.of_nat n9 = 2 * k9 - k10) by (clearbody k9; subst k10; lia).
    assert (F11 : Z.of_nat n10 = 2 * k10 - k11) by (clearbody k10; subst k11; lia).
    assert (F12 : Z.of_nat n11 = 2 * k11 - k12) by (clearbody k11; subst k12; lia).
    assert (F13 : Z.of_nat n12 = 2 * k12 - k13) by (clearbody k12; subst k13; lia).
    assert (F14 : Z.of_nat n13 = 2 * k13 - k14) by (clearbody k13; subst k14; lia).
    assert (F15 : Z.of_nat n14 = 2 * k14 - k15) by (clearbody k14; subst k15; lia).
    assert (F16 : Z.of_nat n15 = 2 * k15 - k16) by (clearbody k15; subst k16; lia).
    clearbody k1 k2 k3 k4 k5 k6 k7 k8 k9 k10 k11 k12 k13 k14 k15 k16.
    clear HK.
    assert (U : k1 + k2 + k3 + k4 + k5 + k6 + k7 + k8 + k9 + k10 + k11 + k12 + k13 + k14 + k15 + k16 <= 16) by lia.
    assert (n0 = 1 /\ n1 = 1 /\ n2 = 1 /\ n3 = 1 /\ n4 = 1 /\ n5 = 1 /\ n6 = 1 /\ n7 = 1 /\ n8 = 1 /\
            n9 = 1 /\ n10 = 1 /\ n11 = 1 /\ n12 = 1 /\ n13 = 1 /\ n14 = 1 /\ n15 = 1 /\ n16 = 2)%nat as HH.
    { assert (k1 = 1 /\ k2 = 1 /\ k3 = 1 /\ k4 = 1 /\ k5 = 1 /\ k6 = 1 /\ k7 = 1 /\ k8 = 1) as
        (-> & -> & -> & -> & -> & -> & -> & ->) by (clear - U P1 P2 P3 P4 P5 P6 P7 P8 P9 P10 P11 P12 P13 P14 P15 P16; lia).
      assert (k9 = 1 /\ k10 = 1 /\ k11 = 1 /\ k12 = 1 /\ k13 = 1 /\ k14 = 1 /\ k15 = 1 /\ k16 = 1) as
        (-> & -> & -> & -> & -> & -> & -> & ->) by (clear - U P9 P10 P11 P12 P13 P14 P15 P16; lia).
      clear - E17 F1 F2 F3 F4 F5 F6 F7 F8 F9 F10 F11 F12 F13 F14 F15 F16.
      repeat split; lia. }
    decompose [and] HH. subst. clear.
    eexists; exists 16%nat. split; [vm_compute; reflexivity|].
    split; [reflexivity|]. split; [lia|]. split; reflexivity.
Qed.

(** ** Size list *)
Definition sizes_of (bits : list nat) (a n : nat) : list nat :=
  flat_map (fun i => repeat i (nth i bits 0%nat)) (seq a n).

Lemma sizes_of_range bits a n x : In x (sizes_of bits a n) -> (a <= x < a + n)%nat.
Proof.
  unfold sizes_of. rewrite in_flat_map. intros (i & Hi & Hx). apply in_seq in Hi.
  apply repeat_spec in Hx. lia.
Qed.

Definition mono (l : list nat) : Prop :=
  forall i j, (i <= j < length l)%nat -> (nth i l 0 <= nth j l 0)%nat.

Lemma mono_app a b :
  mono a -> mono b -> (forall x y, In x a -> In y b -> (x <= y)%nat) -> mono (a ++ b).
Proof.
  intros Ha Hb Hab i j Hij. rewrite app_length in Hij.
  destruct (Nat.lt_ge_cases j (length a)).
  - rewrite !app_nth1 by lia. apply Ha; lia.
  - rewrite (@app_nth2 _ a b 0%nat j) by lia. destruct (Nat.lt_ge_cases i (length a)).
    + rewrite app_nth1 by lia. apply Hab; apply nth_In; lia.
    + rewrite app_nth2 by lia. apply Hb; lia.
Qed.

Lemma mono_repeat x n : mono (repeat x n).
Proof. intros i j H. rewrite repeat_length in H. rewrite !nth_repeat_lt by lia. lia. Qed.

Lemma sizes_of_mono bits a n : mono (sizes_of bits a n).
Proof.
  revert a; induction n; intros a.
  - intros i j H. simpl in H. lia.
  - unfold sizes_of. cbn [seq flat_map]. apply mono_app.
    + apply mono_repeat.
    + apply IHn.
    + intros x y Hx Hy. apply repeat_spec in Hx. apply (sizes_of_range bits) in Hy. lia.
Qed.

Lemma zsum_map_repeat (f : nat -> Z) x n : zsum (map f (repeat x n)) = Z.of_nat n * f x.
Proof. unfold zsum. induction n; simpl repeat; cbn [map fold_right]; lia. Qed.

Lemma sizes_of_sum bits a n (f : nat -> Z) :
  zsum (map f (sizes_of bits a n)) = zsum (map (fun i => Z.of_nat (nth i bits 0%nat) * f i) (seq a n)).
Proof.
  revert a; induction n; intros a; [reflexivity|].
  unfold sizes_of. cbn [seq flat_map map]. rewrite map_app, zsum_app, zsum_map_repeat.
  fold (sizes_of bits (S a) n). rewrite IHn. unfold zsum. cbn [fold_right]. reflexivity.
Qed.

Lemma sizes_of_length bits a n :
  length (sizes_of bits a n) = fold_right plus 0%nat (map (fun i => nth i bits 0%nat) (seq a n)).
Proof.
  revert a; induction n; intros a; [reflexivity|].
  unfold sizes_of. cbn [seq flat_map map fold_right]. rewrite app_length, repeat_length.
  fold (sizes_of bits (S a) n). rewrite IHn. reflexivity.
Qed.

(** Start of the k-th code in the 16-bit code space. *)
Definition weight (s : nat) : Z := 2 ^ (16 - Z.of_nat s).
Definition start (sz : list nat) (k : nat) : Z := zsum (map weight (firstn k sz)).

Lemma weight_nonneg s : 0 <= weight s.
Proof. unfold weight. apply Z.pow_nonneg. lia. Qed.

Lemma weight_pos s : (s <= 16)%nat -> 0 < weight s.
Proof. intros. unfold weight. apply Z.pow_pos_nonneg; lia. Qed.

Lemma firstn_S {A} (l : list A) k d : (k < length l)%nat -> firstn (S k) l = firstn k l ++ [nth k l d].
Proof.
  revert k; induction l; intros k H; simpl in H; [lia|]. destruct k; [reflexivity|].
  cbn [firstn nth app]. now rewrite <- IHl by lia.
Qed.

Lemma start_S sz k : (k < length sz)%nat -> start sz (S k) = start sz k + weight (nth k sz 0%nat).
Proof.
  intros. unfold start. rewrite (firstn_S _ _ 0%nat) by auto. rewrite map_app, zsum_app.
  unfold zsum at 2. simpl. lia.
Qed.

Lemma start_mono sz i j : (i <= j)%nat -> start sz i <= start sz j.
Proof.
  intros H. unfold start. replace j with (i + (j - i))%nat by lia.
  replace (firstn (i + (j - i)) sz) with (firstn i sz ++ firstn (j - i) (skipn i sz)).
  - rewrite map_app, zsum_app. pose proof (zsum_nonneg (map weight (firstn (j - i) (skipn i sz)))).
    rewrite Forall_forall in H0. enough (0 <= zsum (map weight (firstn (j - i) (skipn i sz)))) by lia.
    apply H0. intros x Hx. apply in_map_iff in Hx. destruct Hx as (y & <- & _). apply weight_nonneg.
  - rewrite <- (firstn_skipn i (firstn (i + (j - i)) sz)). rewrite firstn_firstn, Nat.min_l by lia.
    f_equal. rewrite skipn_firstn_comm. f_equal. lia.
Qed.

Lemma start_0 sz : start sz 0 = 0. Proof. reflexivity. Qed.

(** ** gen_code_table *)
Definition codes_ok (sz : list nat) (enc : list Z) (k : nat) : Prop :=
  length enc = 18%nat /\ forall j, (j < k)%nat -> nth j enc 0 * weight (nth j sz 0%nat) = start sz j.

Section CodeTable.
  Variable sz : list nat.
  Hypothesis HLEN : (1 <= length sz <= 17)%nat.
  Hypothesis HR : forall i, (i < length sz)%nat -> (1 <= nth i sz 0 <= 16)%nat.
  Hypothesis HM : mono sz.
  Hypothesis HK : start sz (length sz) < 65536.
  Let hb := sz ++ repeat 0%nat (18 - length sz).

  Lemma hb_length : length hb = 18%nat.
  Proof. unfold hb. rewrite app_length, repeat_length. lia. Qed.

  Lemma hb_nth k : nth k hb 0%nat = nth k sz 0%nat.
  Proof.
    unfold hb. destruct (Nat.lt_ge_cases k (length sz)).
    - now rewrite app_nth1 by auto.
    - rewrite app_nth2 by auto. rewrite nth_repeat. now rewrite nth_overflow.
  Qed.

  Lemma assign_codes_spec fuel : forall enc k code si,
    (k < length sz)%nat -> (length sz - k < fuel)%nat -> si = nth k sz 0%nat ->
    code * weight si = start sz k -> codes_ok sz enc k ->
    exists enc' k' code', assign_codes fuel hb enc k code si = Ok (enc', k', code') /\ (k < k' <= length sz)%nat /\ codes_ok sz enc' k' /\ code' * weight si = start sz k' /\ nth (k' - 1) sz 0%nat = si /\ nth k' sz 0%nat <> si.
  Proof.
    induction fuel; intros enc k code si Hk Hf Hsi Hc (HL & HE); [lia|].
    cbn [assign_codes]. rewrite put_ok by lia. cbn [bind].
    pose proof (HR k Hk) as Rk.
    assert (Hc1 : (code + 1) * weight si = start sz (S k)).
    { rewrite start_S by auto. rewrite <- Hsi. lia. }
    assert (W : 1 <= weight si) by (pose proof (weight_pos si); lia).
    assert (code + 1 < 65536).
    { pose proof (start_mono sz (S k) (length sz) ltac:(lia)).
      pose proof (start_mono sz 0 (S k) ltac:(lia)). rewrite start_0 in *. nia. }
    replace (code + 1 <? 65536) with true by lia. cbn [assert_ bind].
    rewrite (get_ok _ _ 0%nat) by (rewrite hb_length; lia). cbn [bind]. rewrite hb_nth.
    assert (CO : codes_ok sz (upd_list enc k code) (k + 1)).
    { split; [now rewrite upd_list_length|]. intros j Hj. rewrite nth_upd by lia.
      destruct (Nat.eqb_spec k j); [subst; auto|]. apply HE. lia. }
    destruct (Nat.eqb_spec (nth (k + 1) sz 0%nat) si).
    - assert (k + 1 < length sz)%nat.
      { destruct (Nat.lt_ge_cases (k + 1) (length sz)); auto. rewrite nth_overflow in e by auto. lia. }
      destruct (IHfuel (upd_list enc k code) (k + 1)%nat (code + 1) si) as (e' & k' & c' & E & B & R); auto; try lia.
      { rewrite Nat.add_1_r. auto. }
      exists e', k', c'. rewrite E. split; auto. split; [lia|]. auto.
    - exists (upd_list enc k code), (k + 1)%nat, (code + 1). split; auto. split; [lia|]. split; auto.
      rewrite Nat.add_1_r in *. split; auto. split; auto. replace (S k - 1)%nat with k by lia. auto.
  Qed.

  Lemma widen_code_spec fuel : forall target code si v,
    (si < target <= 16)%nat -> (target - si <= fuel)%nat -> 0 <= code ->
    code * weight si = v -> v < 65536 ->
    exists code', widen_code fuel target code si = Ok (code', target) /\ code' * weight target = v.
  Proof.
    induction fuel; intros target code si v Ht Hf H0 Hc Hv; [lia|].
    cbn [widen_code].
    assert (W : weight si = 2 * weight (S si)).
    { unfold weight. replace (16 - Z.of_nat si) with (Z.succ (16 - Z.of_nat (S si))) by lia.
      rewrite Z.pow_succ_r by lia. lia. }
    pose proof (weight_pos (S si) ltac:(lia)).
    assert (E : wrap_u16 (Z.shiftl code 1) = 2 * code).
    { unfold wrap_u16. rewrite Z.shiftl_mul_pow2 by lia. change (2 ^ 1) with 2. rewrite Z.mod_small; [lia|].
      change (2 ^ 16) with 65536. nia. }
    rewrite E. destruct (Nat.eqb_spec target (S si)).
    - subst target. exists (2 * code). split; auto. rewrite <- Hc, W. lia.
    - destruct (IHfuel target (2 * code) (S si) v) as (c' & E' & R); auto; try lia.

      exists c'. split; auto.
  Qed.

  Lemma gen_code_loop_spec fuel : forall enc k code si,
    (k < length sz)%nat -> (length sz - k < fuel)%nat -> si = nth k sz 0%nat ->
    code * weight si = start sz k -> codes_ok sz enc k ->
    exists enc', gen_code_loop fuel hb enc k code si = Ok enc' /\ codes_ok sz enc' (length sz).
  Proof.
    induction fuel; intros enc k code si Hk Hf Hsi Hc HO; [lia|].
    cbn [gen_code_loop].
    destruct (assign_codes_spec 18%nat enc k code si) as (e1 & k1 & c1 & E & B & O1 & C1 & N1 & N2); auto; try lia.
    rewrite E. cbn [bind]. rewrite (get_ok _ _ 0%nat) by (rewrite hb_length; lia). cbn [bind]. rewrite hb_nth.
    destruct (Nat.eqb_spec (nth k1 sz 0%nat) 0).
    - exists e1. split; auto. assert (k1 = length sz).
      { destruct (Nat.lt_ge_cases k1 (length sz)); [|lia]. pose proof (HR _ H). lia. }
      subst. auto.
    - assert (k1 < length sz)%nat.
      { destruct (Nat.lt_ge_cases k1 (length sz)); auto. rewrite nth_overflow in n by auto. lia. }
      pose proof (HR _ H) as R1. pose proof (HM (k1 - 1)%nat k1 ltac:(lia)) as M1.
      pose proof (HR k Hk) as Rk.
      assert (W : 0 < weight si) by (apply weight_pos; lia).
      destruct (widen_code_spec 17%nat (nth k1 sz 0%nat) c1 si (start sz k1)) as (c2 & E2 & W2); auto; try lia.
      { pose proof (start_mono sz 0 k1 ltac:(lia)). rewrite start_0 in *. nia. }
      { pose proof (start_mono sz k1 (length sz) ltac:(lia)). lia. }
      rewrite E2. cbn [bind]. apply IHfuel; auto; lia.
  Qed.

  Lemma gen_code_table_spec : exists enc, gen_code_table hb = Ok enc /\ codes_ok sz enc (length sz).
  Proof.
    unfold gen_code_table. rewrite (get_ok _ _ 0%nat) by (rewrite hb_length; lia). cbn [bind]. rewrite hb_nth.
    apply gen_code_loop_spec; auto; try lia.
    split; [apply repeat_length|]. intros; lia.
  Qed.
End CodeTable.

(** ** order_codes and fill_table *)
Lemma order_codes_spec hv : forall i sym,
  NoDup hv -> (forall s, In s hv -> (s < length sym)%nat) ->
  exists sym', order_codes i hv sym = Ok sym' /\ length sym' = length sym /\ (forall k, (k < length hv)%nat -> nth (nth k hv 0%nat) sym' None = Some (i + k)%nat) /\ (forall s, ~ In s hv -> nth s sym' None = nth s sym None).
Proof.
  induction hv as [|s hv IH]; intros i sym ND HB.
  - exists sym. repeat split; auto. intros; simpl in *; lia.
  - cbn [order_codes]. rewrite put_ok by (apply HB; simpl; auto). cbn [bind]. inversion ND; subst.
    destruct (IH (S i) (upd_list sym s (Some i))) as (sym' & E & L & A & B); auto.
    { intros. rewrite upd_list_length. apply HB; simpl; auto. }
    exists sym'. rewrite upd_list_length in L. split; auto. split; auto. split.
    + intros [|k] Hk; cbn [nth].
      * rewrite B by auto. rewrite nth_upd_eq by (apply HB; simpl; auto). f_equal. lia.
      * rewrite A by (simpl in Hk; lia). f_equal. lia.
    + intros t Ht. rewrite B by (intros X; apply Ht; simpl; auto). apply nth_upd_neq.
      intros ->. apply Ht; simpl; auto.
Qed.

(** The table entry of symbol [s]. *)
Fixpoint index_of (s : nat) (hv : list nat) : option nat :=
  match hv with
  | [] => None
  | x :: t => if (x =? s)%nat then Some 0%nat else option_map S (index_of s t)
  end.

Lemma index_of_some s hv k : index_of s hv = Some k -> (k < length hv)%nat /\ nth k hv 0%nat = s.
Proof.
  revert k; induction hv; intros k H; simpl in H; [discriminate|].
  destruct (Nat.eqb_spec a s).
  - inversion H; subst. simpl. split; auto; lia.
  - destruct (index_of s hv); inversion H; subst. destruct (IHhv n0 eq_refl). simpl. split; auto; lia.
Qed.

Lemma index_of_none s hv : index_of s hv = None -> ~ In s hv.
Proof.
  induction hv; simpl; intros H; auto. destruct (Nat.eqb_spec a s); [discriminate|].
  destruct (index_of s hv); [discriminate|]. intros [X|X]; auto. apply IHhv; auto.
Qed.

Lemma index_of_nth hv k : NoDup hv -> (k < length hv)%nat -> index_of (nth k hv 0%nat) hv = Some k.
Proof.
  intros ND Hk. destruct (index_of (nth k hv 0%nat) hv) as [j|] eqn:E.
  - apply index_of_some in E. destruct E as [Hj Ej]. f_equal. eapply (NoDup_nth hv 0%nat); eauto.
  - exfalso. apply (index_of_none _ _ E). now apply nth_In.
Qed.

Definition canon_entry (sz hv : list nat) (s : nat) : bitarray16 :=
  match index_of s hv with
  | Some k => mk_ba (start sz k) (nth k sz 0%nat)
  | None => ba_default
  end.

Lemma fill_table_spec sz hv sym enc :
  length sz = length hv -> (length sz <= 17)%nat -> NoDup hv ->
  (forall i, (i < length sz)%nat -> (1 <= nth i sz 0 <= 16)%nat) ->
  start sz (length sz) < 65536 ->
  length sym = 17%nat ->
  (forall k, (k < length hv)%nat -> nth (nth k hv 0%nat) sym None = Some k) ->
  (forall s, ~ In s hv -> nth s sym None = None) ->
  codes_ok sz enc (length sz) ->
  fill_table sym (sz ++ repeat 0%nat (18 - length sz)) enc = Ok (map (canon_entry sz hv) (seq 0 17)).
Proof.
  intros HLS HL ND HR HK HLy HS HN (HE1 & HE2). unfold fill_table.
  match goal with |- for_each (seq 0 17) ?f ?s = _ => set (F := f) end.
  destruct (for_each_seq_inv F (fun i tbl => length tbl = 17%nat /\ (forall s, (s < i)%nat -> nth s tbl ba_default = canon_entry sz hv s) /\ (forall s, (i <= s)%nat -> nth s tbl ba_default = ba_default)) 0 17 (repeat ba_default 17))
    as (tbl & E & L & A & _).
  - split; [apply repeat_length|]. split; [intros; lia|]. intros. apply nth_repeat.
  - intros i tbl Hi (L & A & B). unfold F. rewrite (get_ok _ _ None) by lia. cbn [bind].
    destruct (index_of i hv) as [k|] eqn:EI.
    + pose proof (index_of_some _ _ _ EI) as (Hk & Ek). assert (ES : nth i sym None = Some k) by (rewrite <- Ek; apply HS; auto). rewrite ES.
      pose proof (HR k ltac:(lia)) as Rk.
      rewrite (get_ok _ _ 0%nat) by (rewrite app_length, repeat_length; lia). cbn [bind].
      rewrite app_nth1 by lia. rewrite (get_ok _ _ 0) by lia. cbn [bind].
      unfold ba_from_lsb. rewrite usub_ok by lia. cbn [bind].
      replace (16 - nth k sz 0 <? 16)%nat with true by lia. cbn [assert_ bind].
      rewrite put_ok by lia. eexists; split; [reflexivity|]. rewrite upd_list_length. split; auto.
      assert (EV : wrap_u16 (Z.shiftl (nth k enc 0) (Z.of_nat (16 - nth k sz 0%nat))) = start sz k).
      { rewrite Z.shiftl_mul_pow2 by lia. replace (Z.of_nat (16 - nth k sz 0%nat)) with (16 - Z.of_nat (nth k sz 0%nat)) by lia.
        change (2 ^ (16 - Z.of_nat (nth k sz 0%nat))) with (weight (nth k sz 0%nat)). rewrite HE2 by lia.
        unfold wrap_u16. apply Z.mod_small. change (2 ^ 16) with 65536.
        pose proof (start_mono sz 0 k ltac:(lia)). pose proof (start_mono sz k (length sz) ltac:(lia)).
        rewrite start_0 in *. lia. }
      rewrite EV. split.
      * intros s Hs. rewrite nth_upd by lia. destruct (Nat.eqb_spec i s).
        -- subst s. unfold canon_entry. now rewrite EI.
        -- apply A. lia.
      * intros s Hs. rewrite nth_upd_neq by lia. apply B. lia.
    + rewrite HN by (apply index_of_none; auto). eexists; split; [reflexivity|]. split; auto. split.
      * intros s Hs. destruct (Nat.eq_dec s i).
        -- subst s. rewrite B by lia. unfold canon_entry. now rewrite EI.
        -- apply A. lia.
      * intros s Hs. apply B. lia.
  - rewrite E. f_equal. apply nth_ext_len with (d := ba_default).
    + rewrite map_length, seq_length. auto.
    + intros i Hi. rewrite nth_map_seq by lia. apply A. lia.
Qed.
