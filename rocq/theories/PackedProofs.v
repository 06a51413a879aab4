From Coq Require Import List ZArith Lia Bool.
From Coq Require Import ZifyBool ZifyNat.
From Verif Require Import Base BaseLemmas Pumps PumpProofs PumpSeq Par ParProofs Decomp DecompProofs Packed.
Import ListNotations.
Open Scope Z_scope.

Definition is_bytes (B : nat -> Z) : Prop := forall i, is_byte (B i).

Lemma stream_bytes buf : Forall is_byte buf -> is_bytes (stream buf).
Proof.
  intros HF i. unfold stream. destruct (nth_in_or_default i buf 0) as [H| ->]; [|red; lia].
  rewrite Forall_forall in HF. auto.
Qed.

Lemma testbit_bval l i : (i < length l)%nat -> Z.testbit (bval l) (Z.of_nat i) = nth (length l - 1 - i) l false.
Proof.
  intros H. transitivity (nth (length l - 1 - i) (bits_of (length l) (bval l)) false); [|now rewrite bits_of_bval].
  rewrite nth_bits_of by lia. f_equal. lia.
Qed.

Lemma testbit_high v n i : 0 <= v < 2 ^ n -> n <= i -> 0 <= n -> Z.testbit v i = false.
Proof.
  intros Hv Hi Hn. destruct (Z.eq_dec v 0) as [->|]; [apply Z.testbit_0_l|].
  apply Z.bits_above_log2; [lia|]. apply Z.log2_lt_pow2; [lia|].
  apply Z.lt_le_trans with (2 ^ n); [lia|]. apply Z.pow_le_mono_r; lia.
Qed.

Lemma byte_testbit b i : is_byte b -> 8 <= i -> Z.testbit b i = false.
Proof. intros Hb Hi. apply testbit_high with (n := 8); unfold is_byte in *; lia. Qed.

(** Three bytes as a number, bit by bit. *)
Lemma testbit24 a b c i : is_byte a -> is_byte b -> is_byte c -> 0 <= i < 24 ->
  Z.testbit (65536 * a + 256 * b + c) i =
  if i <? 8 then Z.testbit c i else if i <? 16 then Z.testbit b (i - 8) else Z.testbit a (i - 16).
Proof.
  intros Ha Hb Hc Hi.
  assert (HL : forall x y j, is_byte y -> 0 <= j ->
    Z.testbit (x * 2 ^ Z.of_nat 8 + y) j = if j <? 8 then Z.testbit y j else Z.testbit x (j - 8)).
  { intros x y j Hy Hj. rewrite <- lor_add_disjoint by exact Hy. rewrite Z.lor_spec.
    destruct (Z.ltb_spec j 8).
    - rewrite Z.mul_pow2_bits_low by lia. reflexivity.
    - rewrite Z.mul_pow2_bits by lia. rewrite (byte_testbit y) by auto. now rewrite orb_false_r. }
  replace (65536 * a + 256 * b + c) with ((a * 2 ^ Z.of_nat 8 + b) * 2 ^ Z.of_nat 8 + c).
  2: { change (2 ^ Z.of_nat 8) with 256. lia. }
  rewrite HL by (auto; lia). destruct (Z.ltb_spec i 8); auto.
  rewrite HL by (auto; lia). destruct (Z.ltb_spec (i - 8) 8), (Z.ltb_spec i 16); try lia; auto.
  f_equal. lia.
Qed.

Lemma field_msb_range B off n : 0 <= field_msb B off n < 2 ^ Z.of_nat n.
Proof.
  unfold field_msb. pose proof (bval_range (map (fun i => bit_msb B (off + i)%nat) (seq 0 n))) as H.
  now rewrite map_length, seq_length in H.
Qed.
Lemma field_lsb_range B off n : 0 <= field_lsb B off n < 2 ^ Z.of_nat n.
Proof.
  unfold field_lsb. pose proof (bval_range (rev (map (fun i => bit_lsb B (off + i)%nat) (seq 0 n)))) as H.
  now rewrite rev_length, map_length, seq_length in H.
Qed.

Lemma testbit_field_msb B off n i : (i < n)%nat ->
  Z.testbit (field_msb B off n) (Z.of_nat i) = bit_msb B (off + (n - 1 - i))%nat.
Proof.
  intros Hi. unfold field_msb. rewrite testbit_bval by (rewrite map_length, seq_length; lia).
  rewrite map_length, seq_length. now rewrite nth_map_seq by lia.
Qed.
Lemma testbit_field_lsb B off n i : (i < n)%nat ->
  Z.testbit (field_lsb B off n) (Z.of_nat i) = bit_lsb B (off + i)%nat.
Proof.
  intros Hi. unfold field_lsb. rewrite testbit_bval by (rewrite rev_length, map_length, seq_length; lia).
  rewrite rev_length, map_length, seq_length.
  rewrite rev_nth by (rewrite map_length, seq_length; lia). rewrite map_length, seq_length.
  rewrite nth_map_seq by lia. f_equal. lia.
Qed.

Lemma bits_eq v w n : 0 <= v < 2 ^ Z.of_nat n -> 0 <= w < 2 ^ Z.of_nat n ->
  (forall i, (i < n)%nat -> Z.testbit v (Z.of_nat i) = Z.testbit w (Z.of_nat i)) -> v = w.
Proof.
  intros Hv Hw H. apply Z.bits_inj'. intros i Hi. destruct (Z.lt_ge_cases i (Z.of_nat n)) as [HL|HL].
  - replace i with (Z.of_nat (Z.to_nat i)) by lia. apply H. lia.
  - rewrite !testbit_high with (n := Z.of_nat n) by (auto; lia). reflexivity.
Qed.

(** A field read from the three bytes it touches. *)
Lemma field_msb_24 B q r n : is_bytes B -> (r + n <= 24)%nat ->
  field_msb B (8 * q + r) n =
  (65536 * B q + 256 * B (q + 1)%nat + B (q + 2)%nat) / 2 ^ Z.of_nat (24 - r - n) mod 2 ^ Z.of_nat n.
Proof.
  intros HB Hr. apply bits_eq with (n := n).
  - apply field_msb_range.
  - apply Z.mod_pos_bound. apply pow2_pos.
  - intros i Hi. rewrite testbit_field_msb by auto. rewrite Z.mod_pow2_bits_low by lia.
    rewrite Z.div_pow2_bits by lia. rewrite testbit24 by (auto; lia). unfold bit_msb.
    destruct (Z.ltb_spec (Z.of_nat i + Z.of_nat (24 - r - n)) 8) as [H1|H1];
      [|destruct (Z.ltb_spec (Z.of_nat i + Z.of_nat (24 - r - n)) 16) as [H2|H2]].
    + replace (8 * q + r + (n - 1 - i))%nat with ((r + (n - 1 - i) - 16) + (q + 2) * 8)%nat by lia.
      rewrite Nat.div_add, Nat.mod_add by lia. rewrite (Nat.div_small (r + (n - 1 - i) - 16)) by lia.
      rewrite (Nat.mod_small (r + (n - 1 - i) - 16)) by lia. f_equal; solve [f_equal; lia | lia].
    + replace (8 * q + r + (n - 1 - i))%nat with ((r + (n - 1 - i) - 8) + (q + 1) * 8)%nat by lia.
      rewrite Nat.div_add, Nat.mod_add by lia. rewrite (Nat.div_small (r + (n - 1 - i) - 8)) by lia.
      rewrite (Nat.mod_small (r + (n - 1 - i) - 8)) by lia. f_equal; solve [f_equal; lia | lia].
    + replace (8 * q + r + (n - 1 - i))%nat with ((r + (n - 1 - i)) + q * 8)%nat by lia.
      rewrite Nat.div_add, Nat.mod_add by lia. rewrite (Nat.div_small (r + (n - 1 - i))) by lia.
      rewrite (Nat.mod_small (r + (n - 1 - i))) by lia. f_equal; solve [f_equal; lia | lia].
Qed.

Lemma field_lsb_24 B q r n : is_bytes B -> (r + n <= 24)%nat ->
  field_lsb B (8 * q + r) n =
  (65536 * B (q + 2)%nat + 256 * B (q + 1)%nat + B q) / 2 ^ Z.of_nat r mod 2 ^ Z.of_nat n.
Proof.
  intros HB Hr. apply bits_eq with (n := n).
  - apply field_lsb_range.
  - apply Z.mod_pos_bound. apply pow2_pos.
  - intros i Hi. rewrite testbit_field_lsb by auto. rewrite Z.mod_pow2_bits_low by lia.
    rewrite Z.div_pow2_bits by lia. rewrite testbit24 by (auto; lia). unfold bit_lsb.
    destruct (Z.ltb_spec (Z.of_nat i + Z.of_nat r) 8) as [H1|H1];
      [|destruct (Z.ltb_spec (Z.of_nat i + Z.of_nat r) 16) as [H2|H2]].
    + replace (8 * q + r + i)%nat with ((r + i) + q * 8)%nat by lia.
      rewrite Nat.div_add, Nat.mod_add by lia. rewrite (Nat.div_small (r + i)) by lia.
      rewrite (Nat.mod_small (r + i)) by lia. f_equal; solve [f_equal; lia | lia].
    + replace (8 * q + r + i)%nat with ((r + i - 8) + (q + 1) * 8)%nat by lia.
      rewrite Nat.div_add, Nat.mod_add by lia. rewrite (Nat.div_small (r + i - 8)) by lia.
      rewrite (Nat.mod_small (r + i - 8)) by lia. f_equal; solve [f_equal; lia | lia].
    + replace (8 * q + r + i)%nat with ((r + i - 16) + (q + 2) * 8)%nat by lia.
      rewrite Nat.div_add, Nat.mod_add by lia. rewrite (Nat.div_small (r + i - 16)) by lia.
      rewrite (Nat.mod_small (r + i - 16)) by lia. f_equal; solve [f_equal; lia | lia].
Qed.

(** Moving the start of the stream. *)
Lemma field_msb_shift B base o n : field_msb B (8 * base + o) n = field_msb (fun i => B (base + i)%nat) o n.
Proof.
  unfold field_msb. f_equal. apply map_ext. intros i. unfold bit_msb.
  replace (8 * base + o + i)%nat with ((o + i) + base * 8)%nat by lia.
  rewrite Nat.div_add, Nat.mod_add by lia. f_equal. f_equal. lia.
Qed.
Lemma field_lsb_shift B base o n : field_lsb B (8 * base + o) n = field_lsb (fun i => B (base + i)%nat) o n.
Proof.
  unfold field_lsb. do 2 f_equal. apply map_ext. intros i. unfold bit_lsb.
  replace (8 * base + o + i)%nat with ((o + i) + base * 8)%nat by lia.
  rewrite Nat.div_add, Nat.mod_add by lia. f_equal. f_equal. lia.
Qed.
Lemma field_msb_ext B C o n : (forall i, B i = C i) -> field_msb B o n = field_msb C o n.
Proof. intros H. unfold field_msb. f_equal. apply map_ext. intros i. unfold bit_msb. now rewrite H. Qed.
Lemma field_lsb_ext B C o n : (forall i, B i = C i) -> field_lsb B o n = field_lsb C o n.
Proof. intros H. unfold field_lsb. do 2 f_equal. apply map_ext. intros i. unfold bit_lsb. now rewrite H. Qed.

(** ** Groups *)
Lemma lor_disj x y n : 0 <= n -> x mod 2 ^ n = 0 -> 0 <= y < 2 ^ n -> Z.lor x y = x + y.
Proof.
  intros Hn Hx Hy. rewrite (Z.div_mod x (2 ^ n)) by lia. rewrite Hx, Z.add_0_r, Z.mul_comm.
  rewrite <- (Z2Nat.id n) in * by lia. now apply lor_add_disjoint.
Qed.

Lemma shl16_small a n : 0 <= n -> 0 <= a -> a * 2 ^ n < 65536 -> shl16 a n = a * 2 ^ n.
Proof. intros. unfold shl16, wrap_u16. rewrite Z.shiftl_mul_pow2 by lia. apply Z.mod_small. change (2 ^ 16) with 65536. lia. Qed.

(** The group function [g] of [m] bytes to [n] samples agrees with the sample
    reader [F] on any byte stream. *)
Definition group_ok (g : list Z -> list Z) (F : (nat -> Z) -> nat -> Z) (n m : nat) : Prop :=
  forall B, is_bytes B -> g (map B (seq 0 m)) = map (F B) (seq 0 n).
(** [F] is periodic: [m] bytes hold [n] samples. *)
Definition reader_ok (F : (nat -> Z) -> nat -> Z) (n m : nat) : Prop :=
  (forall B k j, (j < n)%nat -> F (fun i => B (m * k + i)%nat) j = F B (n * k + j)%nat) /\
  (forall B C j, (forall i, B i = C i) -> F B j = F C j).

Definition msb_samples (bits : nat) (B : nat -> Z) (j : nat) : Z := field_msb B (bits * j) bits.
Definition lsb_samples (bits : nat) (B : nat -> Z) (j : nat) : Z := field_lsb B (bits * j) bits.

Ltac norm_ops :=
  repeat match goal with
  | |- context [Z.land ?a 3] => change 3 with (Z.ones 2); rewrite (Z.land_ones a 2) by lia
  | |- context [Z.land ?a 15] => change 15 with (Z.ones 4); rewrite (Z.land_ones a 4) by lia
  | |- context [Z.land ?a 63] => change 63 with (Z.ones 6); rewrite (Z.land_ones a 6) by lia
  | |- context [Z.land ?a 4095] => change 4095 with (Z.ones 12); rewrite (Z.land_ones a 12) by lia
  | |- context [Z.land ?a 16383] => change 16383 with (Z.ones 14); rewrite (Z.land_ones a 14) by lia
  end;
  rewrite ?Z.shiftr_div_pow2 by lia.

Ltac pows := 
  repeat match goal with
  | |- context [2 ^ ?k] => let v := eval compute in (2 ^ k) in change (2 ^ k) with v
  end.

Lemma g16be_ok : group_ok g16be (msb_samples 16) 1 2.
Proof.
  intros B HB. cbn [seq map g16be]. f_equal. unfold msb_samples.
  change (16 * 0)%nat with (8 * 0 + 0)%nat. rewrite field_msb_24 by (auto; lia).
  cbn [Nat.sub Nat.add]. pose proof (HB 0%nat). pose proof (HB 1%nat). pose proof (HB 2%nat). unfold is_byte in *. pows. lia.
Qed.

Lemma lor_shl a k y : 0 <= k -> 0 <= a -> a * 2 ^ k < 65536 -> 0 <= y < 2 ^ k -> Z.lor (shl16 a k) y = a * 2 ^ k + y.
Proof.
  intros. rewrite shl16_small by auto. apply lor_disj with (n := k); auto. apply Z.mod_mul. lia.
Qed.
Lemma lor_shl2 a k b j y : 0 <= j <= k -> 0 <= a -> a * 2 ^ k < 65536 -> 0 <= b -> b * 2 ^ j < 2 ^ k ->
  b * 2 ^ j < 65536 -> 0 <= y < 2 ^ j ->
  Z.lor (Z.lor (shl16 a k) (shl16 b j)) y = a * 2 ^ k + b * 2 ^ j + y.
Proof.
  intros. rewrite (shl16_small b) by (auto; lia). rewrite lor_shl by (auto; lia).
  apply lor_disj with (n := j); auto; [lia|].
  replace (2 ^ k) with (2 ^ (k - j) * 2 ^ j) by (rewrite <- Z.pow_add_r by lia; f_equal; lia).
  replace (a * (2 ^ (k - j) * 2 ^ j) + b * 2 ^ j) with ((a * 2 ^ (k - j) + b) * 2 ^ j) by ring. apply Z.mod_mul. lia.
Qed.

Lemma field_msb_at B o n : is_bytes B -> (o mod 8 + n <= 24)%nat ->
  field_msb B o n =
  (65536 * B (o / 8)%nat + 256 * B (o / 8 + 1)%nat + B (o / 8 + 2)%nat) / 2 ^ Z.of_nat (24 - o mod 8 - n) mod 2 ^ Z.of_nat n.
Proof. intros. rewrite <- field_msb_24 by auto. f_equal. apply Nat.div_mod. lia. Qed.
Lemma field_lsb_at B o n : is_bytes B -> (o mod 8 + n <= 24)%nat ->
  field_lsb B o n =
  (65536 * B (o / 8 + 2)%nat + 256 * B (o / 8 + 1)%nat + B (o / 8)%nat) / 2 ^ Z.of_nat (o mod 8) mod 2 ^ Z.of_nat n.
Proof. intros. rewrite <- field_lsb_24 by auto. f_equal. apply Nat.div_mod. lia. Qed.

Lemma swapped16_bytes B : is_bytes B -> is_bytes (swapped16 B).
Proof. intros H i. apply H. Qed.
Lemma swapped32_bytes B : is_bytes B -> is_bytes (swapped32 B).
Proof. intros H i. apply H. Qed.

Ltac nats :=
  repeat match goal with
  | |- context [Nat.div ?a ?b] => let v := eval compute in (Nat.div a b) in change (Nat.div a b) with v
  | |- context [Nat.modulo ?a ?b] => let v := eval compute in (Nat.modulo a b) in change (Nat.modulo a b) with v
  | |- context [Nat.mul ?a ?b] => let v := eval compute in (Nat.mul a b) in change (Nat.mul a b) with v
  | |- context [Nat.add ?a ?b] => let v := eval compute in (Nat.add a b) in change (Nat.add a b) with v
  | |- context [Nat.sub ?a ?b] => let v := eval compute in (Nat.sub a b) in change (Nat.sub a b) with v
  end.

Ltac absB HB B :=
  repeat match goal with
  | |- context [B ?i] => let H := fresh in pose proof (HB i) as H; unfold is_byte in H; generalize dependent (B i); intros
  end.

Ltac arith := 
  pows; 
  repeat first
  [ rewrite lor_shl2 by (pows; lia)
  | rewrite lor_shl by (pows; lia) ];
  pows; lia.

Ltac solve_group B HB :=
  cbn [seq map]; unfold msb_samples, lsb_samples, g10be, g12be, g12le, g14le, g10le_lsb16, g12be_msb16, g12be_msb32, g14be_msb32;
  repeat apply f_equal2; try reflexivity;
  (first [rewrite field_msb_at | rewrite field_lsb_at];
    [| auto using swapped16_bytes, swapped32_bytes | cbv; lia ]);
  unfold swapped16, swapped32; nats; absB HB B; norm_ops; arith.

Lemma g12be_ok : group_ok g12be (msb_samples 12) 2 3.
Proof. intros B HB. solve_group B HB. Qed.
Lemma g12le_ok : group_ok g12le (lsb_samples 12) 2 3.
Proof. intros B HB. solve_group B HB. Qed.
Lemma g10be_ok : group_ok g10be (msb_samples 10) 4 5.
Proof. intros B HB. solve_group B HB. Qed.
Lemma g14le_ok : group_ok g14le (lsb_samples 14) 4 7.
Proof. intros B HB. solve_group B HB. Qed.
Lemma g10le_lsb16_ok : group_ok g10le_lsb16 (fun B => msb_samples 10 (swapped16 B)) 8 10.
Proof. intros B HB. solve_group B HB. Qed.
Lemma g12be_msb16_ok : group_ok g12be_msb16 (fun B => msb_samples 12 (swapped16 B)) 4 6.
Proof. intros B HB. solve_group B HB. Qed.
Lemma g12be_msb32_ok : group_ok g12be_msb32 (fun B => msb_samples 12 (swapped32 B)) 8 12.
Proof. intros B HB. solve_group B HB. Qed.
Lemma g14be_msb32_ok : group_ok g14be_msb32 (fun B => msb_samples 14 (swapped32 B)) 16 28.
Proof. intros B HB. solve_group B HB. Qed.
Lemma g16le_ok : group_ok g16le (lsb_samples 16) 1 2.
Proof.
  intros B HB. cbn [seq map g16le]. f_equal. unfold lsb_samples. rewrite field_lsb_at by (auto; cbv; lia). nats. absB HB B. pows. lia.
Qed.
Lemma g8_ok : group_ok g8 (msb_samples 8) 1 1.
Proof.
  intros B HB. cbn [seq map g8]. f_equal. unfold msb_samples. rewrite field_msb_at by (auto; cbv; lia). nats. absB HB B. pows. lia.
Qed.

(** Samples inside 16 bit words. *)
Definition msb_word (skip bits : nat) (B : nat -> Z) (j : nat) : Z := field_msb B (16 * j + skip) bits.
Definition lsb_word (skip bits : nat) (B : nat -> Z) (j : nat) : Z := field_lsb B (16 * j + skip) bits.

Ltac solve_word B HB :=
  cbn [seq map]; unfold masked, shifted, msb_word, lsb_word, g16be, g16le; cbn [map]; f_equal;
  (first [rewrite field_msb_at | rewrite field_lsb_at]; [| auto | cbv; lia ]);
  nats; absB HB B; norm_ops; pows; lia.

Lemma w12be_ok : group_ok (masked g16be 4095) (msb_word 4 12) 1 2.
Proof. intros B HB. solve_word B HB. Qed.
Lemma w12le_ok : group_ok (masked g16le 4095) (lsb_word 0 12) 1 2.
Proof. intros B HB. solve_word B HB. Qed.
Lemma w14be_ok : group_ok (masked g16be 16383) (msb_word 2 14) 1 2.
Proof. intros B HB. solve_word B HB. Qed.
Lemma w14le_ok : group_ok (masked g16le 16383) (lsb_word 0 14) 1 2.
Proof. intros B HB. solve_word B HB. Qed.
Lemma l12be_ok : group_ok (shifted g16be 4) (msb_word 0 12) 1 2.
Proof. intros B HB. solve_word B HB. Qed.
Lemma l12le_ok : group_ok (shifted g16le 4) (lsb_word 4 12) 1 2.
Proof. intros B HB. solve_word B HB. Qed.

(** *** Readers *)
Lemma msb_reader bits n m : (bits * n = 8 * m)%nat -> reader_ok (msb_samples bits) n m.
Proof.
  intros H. split; intros; unfold msb_samples.
  - rewrite <- field_msb_shift. f_equal. nia.
  - now apply field_msb_ext.
Qed.
Lemma lsb_reader bits n m : (bits * n = 8 * m)%nat -> reader_ok (lsb_samples bits) n m.
Proof.
  intros H. split; intros; unfold lsb_samples.
  - rewrite <- field_lsb_shift. f_equal. nia.
  - now apply field_lsb_ext.
Qed.
Lemma msb_word_reader skip bits : reader_ok (msb_word skip bits) 1 2.
Proof.
  split; intros; unfold msb_word.
  - rewrite <- field_msb_shift. f_equal. lia.
  - now apply field_msb_ext.
Qed.
Lemma lsb_word_reader skip bits : reader_ok (lsb_word skip bits) 1 2.
Proof.
  split; intros; unfold lsb_word.
  - rewrite <- field_lsb_shift. f_equal. lia.
  - now apply field_lsb_ext.
Qed.
Lemma swap16_reader bits n m h : m = (2 * h)%nat -> (bits * n = 8 * m)%nat -> reader_ok (fun B => msb_samples bits (swapped16 B)) n m.
Proof.
  intros Hm H. split; intros; unfold msb_samples.
  - transitivity (field_msb (fun i => swapped16 B (m * k + i)%nat) (bits * j) bits).
    + apply field_msb_ext. intros i. unfold swapped16. f_equal. subst m.
      replace (2 * h * k + i)%nat with (i + (h * k) * 2)%nat by lia. rewrite Nat.div_add, Nat.mod_add by lia. lia.
    + rewrite <- field_msb_shift. f_equal. nia.
  - apply field_msb_ext. intros i. apply H0.
Qed.
Lemma swap32_reader bits n m h : m = (4 * h)%nat -> (bits * n = 8 * m)%nat -> reader_ok (fun B => msb_samples bits (swapped32 B)) n m.
Proof.
  intros Hm H. split; intros; unfold msb_samples.
  - transitivity (field_msb (fun i => swapped32 B (m * k + i)%nat) (bits * j) bits).
    + apply field_msb_ext. intros i. unfold swapped32. f_equal. subst m.
      replace (4 * h * k + i)%nat with (i + (h * k) * 4)%nat by lia. rewrite Nat.div_add, Nat.mod_add by lia. lia.
    + rewrite <- field_msb_shift. f_equal. nia.
  - apply field_msb_ext. intros i. apply H0.
Qed.

(** ** Lines *)
Lemma Forall_skipn {A} (P : A -> Prop) n l : Forall P l -> Forall P (skipn n l).
Proof. intros H. revert n. induction H; intros [|n]; cbn; auto. Qed.

Lemma zip_chunks_step fuel n m f out inb : (n <= length out)%nat -> (m <= length inb)%nat ->
  zip_chunks (S fuel) n m f out inb = f (firstn m inb) ++ zip_chunks fuel n m f (skipn n out) (skipn m inb).
Proof.
  intros H1 H2. cbn [zip_chunks]. destruct (Nat.leb_spec n (length out)); [|lia]. destruct (Nat.leb_spec m (length inb)); [|lia]. reflexivity.
Qed.

Lemma firstn_as_map (l : list Z) m : (m <= length l)%nat -> firstn m l = map (stream l) (seq 0 m).
Proof.
  intros H. apply nth_ext_len with (d := 0).
  - rewrite firstn_length, map_length, seq_length. lia.
  - intros i Hi. rewrite firstn_length in Hi. rewrite nth_firstn by lia. now rewrite nth_map_seq by lia.
Qed.

Lemma stream_skipn l m i : stream (skipn m l) i = stream l (m + i).
Proof. unfold stream. apply nth_skipn. Qed.

(** [k] whole groups and a tail shorter than a group. *)
Lemma zip_chunks_ok g F n m : group_ok g F n m -> reader_ok F n m -> (0 < n)%nat ->
  forall k tail fuel out inb, (tail < n)%nat -> length out = (n * k + tail)%nat -> (k < fuel)%nat ->
  Forall is_byte inb -> (m * k <= length inb)%nat ->
  zip_chunks fuel n m g out inb = map (F (stream inb)) (seq 0 (n * k)) ++ skipn (n * k) out.
Proof.
  intros HG [HR HE] Hn. induction k as [|k IH]; intros tail fuel out inb Ht HL HF HB HI.
  - destruct fuel; [lia|]. cbn [zip_chunks]. destruct (Nat.leb_spec n (length out)); [lia|].
    rewrite Nat.mul_0_r. reflexivity.
  - destruct fuel; [lia|]. rewrite zip_chunks_step by lia.
    rewrite (IH tail) by (rewrite ?skipn_length; auto using Forall_skipn; try lia).
    rewrite firstn_as_map by lia. rewrite HG by now apply stream_bytes.
    replace (n * S k)%nat with (n + n * k)%nat by lia. rewrite seq_app, map_app, <- app_assoc. f_equal.
    rewrite skipn_skipn. f_equal. cbn [Nat.add]. rewrite (seq_as_map n), map_map. apply map_ext_in. intros j _.
    transitivity (F (stream (skipn m inb)) (n * (j / n) + j mod n)%nat).
    { f_equal. apply Nat.div_mod. lia. }
    pose proof (Nat.mod_upper_bound j n ltac:(lia)).
    rewrite <- HR by auto. pose proof (Nat.div_mod j n ltac:(lia)) as HD.
    transitivity (F (fun i => stream inb (m * (1 + j / n) + i)%nat) (j mod n)%nat).
    { apply HE. intros i. rewrite stream_skipn. f_equal. lia. }
    rewrite HR by auto. f_equal. lia.
Qed.

(** The row decoded from byte [off]; samples after the last whole group stay
    zero. *)
Definition row_spec (F : (nat -> Z) -> nat -> Z) (n w : nat) (buf : list Z) (off c : nat) : Z :=
  if (c <? n * (w / n))%nat then F (fun i => stream buf (off + i)%nat) c else 0.

Lemma line_ok g F n m buf off w : group_ok g F n m -> reader_ok F n m -> (0 < n)%nat -> Forall is_byte buf ->
  (off + m * (w / n) <= length buf)%nat ->
  line_op buf off n m g (repeat 0 w) = Some (map (row_spec F n w buf off) (seq 0 w)).
Proof.
  intros HG HR Hn HB HL. unfold line_op.
  assert (HO : (off <= length buf)%nat) by (eapply Nat.le_trans; [apply Nat.le_add_r|exact HL]).
  destruct (Nat.leb_spec off (length buf)) as [_|HC]; [|clear -HO HC; lia]. f_equal.
  assert (Hn0 : n <> 0%nat) by lia.
  pose proof (Nat.div_mod w n Hn0) as HD. pose proof (Nat.mod_upper_bound w n Hn0) as HM.
  unfold row_spec. revert HL HD HM. generalize (w / n)%nat as k. generalize (w mod n)%nat as t. intros t k HL HD HM.
  assert (HSB : Forall is_byte (skipn off buf)) by now apply Forall_skipn.
  assert (HSL : (m * k <= length (skipn off buf))%nat) by (rewrite skipn_length; lia).
  rewrite repeat_length.
  assert (HZ : zip_chunks w n m g (repeat 0 w) (skipn off buf) =
    map (F (stream (skipn off buf))) (seq 0 (n * k)) ++ skipn (n * k) (repeat 0 w)).
  { destruct (Nat.eq_dec w 0) as [->|Hw]. { replace (n * k)%nat with 0%nat by lia. reflexivity. }
    destruct (Nat.eq_dec n 1) as [->|Hn1].
    - assert (k = w) as -> by lia.
      assert (HX : forall q out inb, length out = q -> (m * q <= length inb)%nat ->
        zip_chunks q 1 m g out inb = zip_chunks (S q) 1 m g out inb).
      { clear. induction q; intros out inb Ho HL.
        - destruct out; [|discriminate]. reflexivity.
        - rewrite zip_chunks_step by lia. rewrite zip_chunks_step by lia. f_equal. apply IHq; rewrite skipn_length; lia. }
      rewrite HX; [|apply repeat_length|auto].
      apply (zip_chunks_ok g F 1 m HG HR Hn w 0); auto; try lia. rewrite repeat_length. lia.
    - apply (zip_chunks_ok g F n m HG HR Hn k t); auto; try lia. rewrite repeat_length. lia. nia. }
  rewrite HZ. apply nth_ext_len with (d := 0).
  - rewrite app_length, !map_length, !seq_length, skipn_length, repeat_length. lia.
  - intros c Hc. rewrite app_length, map_length, seq_length, skipn_length, repeat_length in Hc.
    rewrite (nth_map_seq _ w) by lia. destruct (Nat.ltb_spec c (n * k)).
    + rewrite app_nth1 by (rewrite map_length, seq_length; auto). rewrite nth_map_seq by auto.
      destruct HR as [_ HE]. apply HE. intros i. apply stream_skipn.
    + rewrite app_nth2 by (rewrite map_length, seq_length; auto). rewrite nth_skipn.
      apply nth_repeat_lt. rewrite map_length, seq_length. lia.
Qed.

Lemma line_op_len buf off n m g w : (forall i, length i = m -> length (g i) = n) -> op_ok w (line_op buf off n m g).
Proof.
  intros HG v v' HL E. unfold line_op in E. destruct (Nat.leb_spec off (length buf)); [|discriminate]. injection E as <-.
  subst w. generalize (skipn off buf). generalize (length v) at 1. intros fuel. revert v.
  induction fuel; intros v inb; auto. cbn [zip_chunks].
  destruct (Nat.leb_spec n (length v)); auto. destruct (Nat.leb_spec m (length inb)); auto. cbn [andb].
  rewrite app_length, IHfuel, skipn_length, HG by (rewrite firstn_length; lia). lia.
Qed.

Lemma image_rows w h (f : nat -> op Z) pix : (forall r, (r < h)%nat -> f r (repeat 0 w) = Some (map (pix r) (seq 0 w))) ->
  image_spec 0 w h f = POk (rows pix w 0 h).
Proof.
  intros H. unfold image_spec. rewrite (all_some_map_some _ (fun r => map (pix r) (seq 0 w))).
  - f_equal. unfold rows. now rewrite flat_map_concat_map.
  - intros r Hr. apply in_seq in Hr. apply H. lia.
Qed.

Lemma lines_fn_delivers w h closure pix : (0 < w)%nat ->
  (forall r, (r < h)%nat -> Forall (op_ok w) (closure r)) ->
  (forall r, (r < h)%nat -> run_ops (closure r) (repeat 0 w) = Some (map (pix r) (seq 0 w))) ->
  delivers (lines_fn 0 w h closure) w h pix.
Proof.
  intros Hw HO HR.
  assert (exists s0, lines_fn 0 w h closure = Ok s0) as (s0 & E).
  { unfold lines_fn, par_chunks. destruct (Nat.eqb_spec w 0); [lia|]. eauto. }
  exists s0. split; auto. intros sched HE. rewrite (lines_fn_ok _ _ _ _ _ _ E HO HE). now apply image_rows.
Qed.

Lemma by_lines_ok g F n m need buf w h off : group_ok g F n m -> reader_ok F n m ->
  (forall i, length i = m -> length (g i) = n) -> (0 < n)%nat -> (0 < w)%nat -> Forall is_byte buf ->
  (need <= length buf)%nat -> (forall r, (r < h)%nat -> off r + m * (w / n) <= length buf)%nat ->
  delivers (by_lines need buf w h off n m g) w h (fun r c => row_spec F n w buf (off r) c).
Proof.
  intros HG HR HLn Hn Hw HB HN HO. unfold by_lines. destruct (Nat.ltb_spec (length buf) need); [lia|].
  apply lines_fn_delivers; auto.
  - intros r Hr. constructor; [|constructor]. now apply line_op_len.
  - intros r Hr. cbn [run_ops]. rewrite (line_ok g F) by auto. reflexivity.
Qed.

(** ** PackedDecompressor *)
Lemma on_lines_rows w nl skip (f : nat -> op Z) pix : (forall r, op_ok w (f r)) ->
  (forall r, (skip <= r < skip + nl)%nat -> f r (repeat 0 w) = Some (map (pix r) (seq 0 w))) ->
  run_ops (fn_line_decompress f skip nl w) (repeat 0 (nl * w)) = Some (rows pix w skip nl).
Proof.
  intros HO HF. rewrite run_lines0 by auto.
  rewrite (all_some_map_some _ (fun j => map (pix (skip + j)%nat) (seq 0 w))).
  - f_equal. unfold rows. rewrite flat_map_concat_map. f_equal. rewrite (seq_as_map skip), map_map. reflexivity.
  - intros j Hj. apply in_seq in Hj. apply HF. lia.
Qed.

Lemma unpack_ok bits off g F n m src skip nl w : group_ok g F n m -> reader_ok F n m ->
  (forall i, length i = m -> length (g i) = n) -> (0 < n)%nat -> Forall is_byte src ->
  (ceil8 ((skip + nl) * w * bits) <= length src)%nat ->
  (forall r, (skip <= r < skip + nl)%nat -> (off r + m * (w / n) <= length src)%nat) ->
  run_ops (unpack bits off n m g src skip nl w) (repeat 0 (nl * w)) =
    Some (rows (fun r c => row_spec F n w src (off r) c) w skip nl).
Proof.
  intros HG HR HLn Hn HB HN HO. unfold unpack. cbn [run_ops]. unfold need_op.
  destruct (Nat.ltb_spec (length src) (ceil8 ((skip + nl) * w * bits))) as [HC|_].
  { exfalso. revert HN HC. generalize (ceil8 ((skip + nl) * w * bits)). lia. }
  apply (on_lines_rows w nl skip (fun r => line_op src (off r) n m g)).
  - intros r. now apply line_op_len.
  - intros r Hr. apply line_ok; auto.
Qed.

(** *** Bit pumps *)
Lemma pump_fill_run {P} (o : pump_ops P) bits : forall k p vs,
  run_pump o (repeat (PGet bits) k) p = Ok vs -> exists p', pump_fill o bits k p = Ok (map wrap_u16 vs, p').
Proof.
  induction k as [|k IH]; intros p vs E; cbn [repeat run_pump pump_fill] in *.
  - injection E as <-. eauto.
  - apply bind_ok in E. destruct E as ([v p1] & E1 & E). rewrite E1. cbn [bind].
    apply bind_ok in E. destruct E as (vs' & E2 & E). injection E as <-.
    destruct (IH _ _ E2) as (p' & ->). cbn [bind map]. eauto.
Qed.

Lemma windows_repeat bits k : forall off,
  windows (repeat (PGet bits) k) off = map (fun i => (off + bits * i, bits)%nat) (seq 0 k).
Proof.
  induction k as [|k IH]; intros off; auto. cbn [repeat windows seq map]. rewrite IH. f_equal; [f_equal; lia|].
  rewrite <- seq_shift, map_map. apply map_ext. intros i. f_equal. lia.
Qed.

Lemma nth_byte_bits src k : nth k (byte_bits src) false = bit_msb (stream src) k.
Proof.
  unfold bit_msb, stream. revert k. induction src as [|b t IH]; intros k.
  - replace (nth (k / 8) [] 0) with 0 by now destruct (k / 8)%nat. rewrite Z.testbit_0_l. now destruct k.
  - rewrite byte_bits_cons. destruct (Nat.lt_ge_cases k 8) as [H|H].
    + rewrite app_nth1 by (rewrite bits_of_length; lia). rewrite nth_bits_of by auto.
      rewrite Nat.div_small, Nat.mod_small by auto. cbn [nth]. f_equal. lia.
    + rewrite app_nth2 by (rewrite bits_of_length; lia). rewrite bits_of_length, IH.
      replace k with (k - 8 + 1 * 8)%nat at 3 4 by lia. rewrite Nat.div_add, Nat.mod_add by lia.
      rewrite Nat.add_1_r. reflexivity.
Qed.

Lemma nth_take0_skipn bits o n i : (i < n)%nat -> nth i (take0 n (skipn o bits)) false = nth (o + i) bits false.
Proof. intros. rewrite take0_nth by auto. apply nth_skipn. Qed.

Lemma field_be_msb src o n : field_be (byte_bits src) (o, n) = field_msb (stream src) o n.
Proof.
  unfold field_be, field_msb, peekv. cbn [fst snd]. f_equal. apply nth_ext_len with (d := false).
  - now rewrite take0_length, map_length, seq_length.
  - intros i Hi. rewrite take0_length in Hi. rewrite nth_take0_skipn, nth_map_seq by auto. apply nth_byte_bits.
Qed.

Lemma testbit_le_val bs k : Forall is_byte bs -> Z.testbit (le_val bs) (Z.of_nat k) = bit_lsb (stream bs) k.
Proof.
  intros HF. unfold bit_lsb, stream. revert k. induction HF as [|b t Hb HF IH]; intros k.
  - replace (nth (k / 8) [] 0) with 0 by now destruct (k / 8)%nat. now rewrite !Z.testbit_0_l.
  - cbn [le_val]. replace (b + 256 * le_val t) with (le_val t * 2 ^ Z.of_nat 8 + b) by (change (2 ^ Z.of_nat 8) with 256; lia).
    rewrite <- lor_add_disjoint by exact Hb. rewrite Z.lor_spec. destruct (Nat.lt_ge_cases k 8) as [H|H].
    + rewrite Z.mul_pow2_bits_low by lia. rewrite Nat.div_small, Nat.mod_small by auto. reflexivity.
    + rewrite Z.mul_pow2_bits by lia. rewrite (byte_testbit b) by (auto; lia). rewrite orb_false_r.
      replace (Z.of_nat k - Z.of_nat 8) with (Z.of_nat (k - 8)) by lia. rewrite IH.
      replace k with (k - 8 + 1 * 8)%nat at 3 4 by lia. rewrite Nat.div_add, Nat.mod_add by lia.
      rewrite Nat.add_1_r. reflexivity.
Qed.

Lemma field_le_lsb bs o n : Forall is_byte bs -> field_le bs (o, n) = field_lsb (stream bs) o n.
Proof.
  intros HF. apply bits_eq with (n := n).
  - unfold field_le. cbn [fst snd]. apply Z.mod_pos_bound, pow2_pos.
  - apply field_lsb_range.
  - intros i Hi. rewrite testbit_field_lsb by auto. unfold field_le. cbn [fst snd].
    rewrite Z.mod_pow2_bits_low by lia. rewrite Z.div_pow2_bits by lia.
    replace (Z.of_nat i + Z.of_nat o) with (Z.of_nat (o + i)) by lia. now apply testbit_le_val.
Qed.

Lemma fill_msb bits k src : Forall is_byte src -> (bits <= 16)%nat -> (bits * k <= 8 * length src)%nat ->
  exists p, pump_fill msb_ops bits k (wpump_new src) = Ok (map (msb_samples bits (stream src)) (seq 0 k), p).
Proof.
  intros HF Hb HL.
  pose proof (run_pump_be msb_ops msb_rep msb_refines (repeat (PGet bits) k) 0 (8 * length src) (wpump_new src) (byte_bits src)
    (msb_new_rep src (8 * length src) HF (Nat.le_refl _))) as HR.
  rewrite windows_repeat in HR.
  destruct (pump_fill_run msb_ops bits k (wpump_new src) (map (field_be (byte_bits src)) (map (fun i => (0 + bits * i, bits)%nat) (seq 0 k))))
    as (p & E).
  - apply HR. apply Forall_forall. intros [o n] Hi. apply in_map_iff in Hi. destruct Hi as (i & X & Hi). injection X as <- <-.
    apply in_seq in Hi. split; [lia|]. nia.
  - exists p. rewrite E, !map_map. f_equal. f_equal. apply map_ext. intros i. cbn [Nat.add]. rewrite field_be_msb.
    unfold msb_samples, wrap_u16. apply Z.mod_small. pose proof (field_msb_range (stream src) (bits * i) bits).
    pose proof (pow2_le bits 16 Hb). change (2 ^ 16) with (2 ^ Z.of_nat 16). lia.
Qed.

Lemma fill_lsb bits k src : Forall is_byte src -> (bits <= 16)%nat -> (bits * k <= 8 * length src)%nat ->
  exists p, pump_fill lsb_ops bits k (wpump_new src) = Ok (map (lsb_samples bits (stream src)) (seq 0 k), p).
Proof.
  intros HF Hb HL.
  pose proof (run_pump_le (repeat (PGet bits) k) 0 (8 * length src) (wpump_new src) src) as HR.
  rewrite windows_repeat in HR.
  destruct (pump_fill_run lsb_ops bits k (wpump_new src) (map (field_le src) (map (fun i => (0 + bits * i, bits)%nat) (seq 0 k))))
    as (p & E).
  - apply HR.
    + unfold lsb_rep, lsb_den, wpump_new. cbn [w_bits w_nbits w_rest Z.of_nat Z.pow].
      rewrite Z.div_1_r. repeat split; auto; lia.
    + apply Forall_forall. intros [o n] Hi. apply in_map_iff in Hi. destruct Hi as (i & X & Hi). injection X as <- <-.
      apply in_seq in Hi. split; [lia|]. nia.
  - exists p. rewrite E, !map_map. f_equal. f_equal. apply map_ext. intros i. cbn [Nat.add]. rewrite field_le_lsb by auto.
    unfold lsb_samples, wrap_u16. apply Z.mod_small. pose proof (field_lsb_range (stream src) (bits * i) bits).
    pose proof (pow2_le bits 16 Hb). change (2 ^ 16) with (2 ^ Z.of_nat 16). lia.
Qed.

(** Sample [k] of a stream of [bps] bit samples, as PackedDecompressor orders
    them: 16 bit samples follow the byte order, others are big endian. *)
Definition packed_sample (bps : nat) (e : endian) (src : list Z) (k : nat) : Z :=
  match e, bps with
  | LittleE, 16%nat => field_lsb (stream src) (16 * k) 16
  | _, _ => field_msb (stream src) (bps * k) bps
  end.

Lemma rows_ext p q w r0 n : (forall r c, (r0 <= r < r0 + n)%nat -> (c < w)%nat -> p r c = q r c) -> rows p w r0 n = rows q w r0 n.
Proof.
  intros H. unfold rows. rewrite !flat_map_concat_map. f_equal. apply map_ext_in. intros r Hr. apply in_seq in Hr.
  apply map_ext_in. intros c Hc. apply in_seq in Hc. apply H; lia.
Qed.

Lemma msb_unit_row bits n m q src w r c off : (bits * n = 8 * m)%nat -> w = (n * q)%nat -> (0 < n)%nat -> (c < w)%nat ->
  (8 * off = bits * (r * w))%nat ->
  row_spec (msb_samples bits) n w src off c = field_msb (stream src) (bits * (r * w + c)) bits.
Proof.
  intros H Hw Hn Hc Ho. unfold row_spec. subst w. rewrite (Nat.mul_comm n q), Nat.div_mul by lia.
  destruct (Nat.ltb_spec c (n * q)); [|lia].
  unfold msb_samples. rewrite <- field_msb_shift. f_equal. lia.
Qed.
Lemma lsb_unit_row bits n m q src w r c off : (bits * n = 8 * m)%nat -> w = (n * q)%nat -> (0 < n)%nat -> (c < w)%nat ->
  (8 * off = bits * (r * w))%nat ->
  row_spec (lsb_samples bits) n w src off c = field_lsb (stream src) (bits * (r * w + c)) bits.
Proof.
  intros H Hw Hn Hc Ho. unfold row_spec. subst w. rewrite (Nat.mul_comm n q), Nat.div_mul by lia.
  destruct (Nat.ltb_spec c (n * q)); [|lia].
  unfold lsb_samples. rewrite <- field_lsb_shift. f_equal. lia.
Qed.

Lemma ceil8_le n k : (ceil8 n <= k)%nat <-> (n <= 8 * k)%nat.
Proof.
  unfold ceil8. pose proof (Nat.div_mod (n + 7) 8 ltac:(lia)). pose proof (Nat.mod_upper_bound (n + 7) 8 ltac:(lia)).
  revert H H0. generalize ((n + 7) / 8)%nat ((n + 7) mod 8)%nat. intros. lia.
Qed.

Lemma glen_16be i : length i = 2%nat -> length (g16be i) = 1%nat.
Proof. destruct i as [|? [|? [|? ?]]]; try discriminate. reflexivity. Qed.
Lemma glen_16le i : length i = 2%nat -> length (g16le i) = 1%nat.
Proof. destruct i as [|? [|? [|? ?]]]; try discriminate. reflexivity. Qed.
Lemma glen_8 i : length i = 1%nat -> length (g8 i) = 1%nat.
Proof. destruct i as [|? [|? ?]]; try discriminate. reflexivity. Qed.
Ltac glen i := intros H; do 30 (try (destruct i as [|? i]; [solve [discriminate H | reflexivity] | ])); discriminate H.
Lemma glen_12be i : length i = 3%nat -> length (g12be i) = 2%nat. Proof. glen i. Qed.
Lemma glen_12le i : length i = 3%nat -> length (g12le i) = 2%nat. Proof. glen i. Qed.
Lemma glen_10be i : length i = 5%nat -> length (g10be i) = 4%nat. Proof. glen i. Qed.
Lemma glen_14le i : length i = 7%nat -> length (g14le i) = 4%nat. Proof. glen i. Qed.
Lemma glen_10le_lsb16 i : length i = 10%nat -> length (g10le_lsb16 i) = 8%nat. Proof. glen i. Qed.
Lemma glen_masked g v i m n : (forall i, length i = m -> length (g i) = n) -> length i = m -> length (masked g v i) = n.
Proof. intros H HL. unfold masked. rewrite map_length. auto. Qed.
Lemma glen_shifted g v i m n : (forall i, length i = m -> length (g i) = n) -> length i = m -> length (shifted g v i) = n.
Proof. intros H HL. unfold shifted. rewrite map_length. auto. Qed.

Lemma mod0_mul a b : b <> 0%nat -> (a mod b = 0)%nat -> exists q, a = (b * q)%nat.
Proof. intros Hb H. exists (a / b)%nat. rewrite (Nat.div_mod a b) at 1 by auto. lia. Qed.

Lemma rows_flat (f : nat -> Z) w : forall nl skip,
  map f (seq (skip * w) (nl * w)) = rows (fun r c => f (r * w + c)%nat) w skip nl.
Proof.
  induction nl as [|nl IH]; intros skip; auto. unfold rows in *.
  cbn [Nat.mul seq flat_map]. rewrite seq_app, map_app. f_equal.
  - rewrite (seq_as_map (skip * w)), map_map. reflexivity.
  - rewrite <- IH. do 2 f_equal. lia.
Qed.

Lemma generic_ok bits src skip nl w v : Forall is_byte src -> (1 <= bits <= 16)%nat ->
  ((skip + nl) * w * bits <= 8 * length src)%nat -> ((skip * w * bits) mod 8 = 0)%nat -> length v = (nl * w)%nat ->
  generic_op src skip nl w bits v = Some (rows (fun r c => field_msb (stream src) (bits * (r * w + c)) bits) w skip nl).
Proof.
  intros HF Hb HL HM Hv. unfold generic_op. destruct (mod0_mul _ 8 ltac:(lia) HM) as (q & Hq).
  rewrite Hq in *. rewrite (Nat.mul_comm 8 q), Nat.div_mul, Nat.mod_mul by lia.
  destruct (Nat.leb_spec bits 16); [|lia]. destruct (Nat.leb_spec q (length src)); [|nia].
  cbn [consume_bits msb_ops]. unfold msb_consume. cbn [wpump_new w_nbits]. rewrite usub_ok by lia. cbn [bind].
  change (shl64 1 (0 - 0)) with (Ok (A:=Z) 1). cbn [bind w_rest wpump_new w_bits w_pos Nat.sub]. change (Z.land 0 (1 - 1)) with 0.
  change (mk_wpump (skipn q src) 0 0 0) with (wpump_new (skipn q src)).
  destruct (fill_msb bits (nl * w) (skipn q src)) as (p & ->); auto using Forall_skipn; try lia.
  { rewrite skipn_length. nia. }
  rewrite (@skipn_all2 _ (nl * w) v) by (rewrite Hv; apply Nat.le_refl). rewrite app_nil_r. f_equal.
  rewrite <- (rows_flat (fun k => field_msb (stream src) (bits * k) bits)). rewrite (seq_as_map (skip * w)), map_map.
  apply map_ext. intros k. unfold msb_samples.
  transitivity (field_msb (fun i => stream src (q + i)%nat) (bits * k) bits).
  - apply field_msb_ext. intros i. apply stream_skipn.
  - rewrite <- field_msb_shift. f_equal. clear -Hq. lia.
Qed.

Lemma need_ok src skip nl w bits v : ((skip + nl) * w * bits <= 8 * length src)%nat -> need_op src skip nl w bits v = Some v.
Proof.
  intros H. unfold need_op. destruct (Nat.ltb_spec (length src) (ceil8 ((skip + nl) * w * bits))) as [HC|_]; auto.
  exfalso. apply ceil8_le in H. revert H HC. generalize (ceil8 ((skip + nl) * w * bits)). lia.
Qed.

(** A format with [n] samples in [m] bytes, width a multiple of [n]. *)
Lemma unpack_msb bits off g n m q src skip nl w : group_ok g (msb_samples bits) n m ->
  (forall i, length i = m -> length (g i) = n) -> (0 < n)%nat -> (bits * n = 8 * m)%nat -> w = (n * q)%nat -> Forall is_byte src ->
  ((skip + nl) * w * bits <= 8 * length src)%nat ->
  (forall r, (8 * off r = bits * (r * w))%nat) ->
  run_ops (unpack bits off n m g src skip nl w) (repeat 0 (nl * w)) =
    Some (rows (fun r c => field_msb (stream src) (bits * (r * w + c)) bits) w skip nl).
Proof.
  intros HG HLn Hn HU Hw HB HN HO. rewrite (unpack_ok bits off g (msb_samples bits)); auto using msb_reader.
  - f_equal. apply rows_ext. intros r c Hr Hc. eapply msb_unit_row; eauto.
  - now apply ceil8_le.
  - intros r Hr. specialize (HO r). subst w. rewrite (Nat.mul_comm n q), Nat.div_mul by lia.
    assert (((r + 1) * (n * q) * bits <= 8 * length src)%nat).
    { eapply Nat.le_trans; [|exact HN]. apply Nat.mul_le_mono_r, Nat.mul_le_mono_r. lia. }
    nia.
Qed.
Lemma unpack_lsb bits off g n m q src skip nl w : group_ok g (lsb_samples bits) n m ->
  (forall i, length i = m -> length (g i) = n) -> (0 < n)%nat -> (bits * n = 8 * m)%nat -> w = (n * q)%nat -> Forall is_byte src ->
  ((skip + nl) * w * bits <= 8 * length src)%nat ->
  (forall r, (8 * off r = bits * (r * w))%nat) ->
  run_ops (unpack bits off n m g src skip nl w) (repeat 0 (nl * w)) =
    Some (rows (fun r c => field_lsb (stream src) (bits * (r * w + c)) bits) w skip nl).
Proof.
  intros HG HLn Hn HU Hw HB HN HO. rewrite (unpack_ok bits off g (lsb_samples bits)); auto using lsb_reader.
  - f_equal. apply rows_ext. intros r c Hr Hc. eapply lsb_unit_row; eauto.
  - now apply ceil8_le.
  - intros r Hr. specialize (HO r). subst w. rewrite (Nat.mul_comm n q), Nat.div_mul by lia.
    assert (((r + 1) * (n * q) * bits <= 8 * length src)%nat).
    { eapply Nat.le_trans; [|exact HN]. apply Nat.mul_le_mono_r, Nat.mul_le_mono_r. lia. }
    nia.
Qed.

(** Any depth, any start row. *)
Lemma packed_ok bps e src skip nl w : Forall is_byte src -> (1 <= bps <= 16)%nat -> ((w * bps) mod 8 = 0)%nat ->
  ((skip + nl) * w * bps <= 8 * length src)%nat ->
  run_ops (packed_decompress bps e src skip nl w) (repeat 0 (nl * w)) =
    Some (rows (fun r c => packed_sample bps e src (r * w + c)) w skip nl).
Proof.
  intros HF Hb HW HL.
  destruct (Nat.eq_dec bps 16) as [->|H16].
  { destruct e; cbn [packed_decompress packed_sample].
    - apply (unpack_msb 16 _ _ 1 2 w); auto using g16be_ok, glen_16be; lia.
    - apply (unpack_lsb 16 _ _ 1 2 w); auto using g16le_ok, glen_16le; lia. }
  assert (HS : forall k, packed_sample bps e src k = field_msb (stream src) (bps * k) bps).
  { intros k. unfold packed_sample. destruct e; auto. do 17 (destruct bps as [|bps]; auto). lia. }
  rewrite (rows_ext _ (fun r c => field_msb (stream src) (bps * (r * w + c)) bps)) by auto. clear HS.
  destruct (Nat.eq_dec bps 12) as [->|H12].
  { destruct (mod0_mul _ 8 ltac:(lia) HW) as (q & Hq).
    assert (Hw : w = (2 * (w / 2))%nat) by lia. clear HW Hq. destruct e; cbn [packed_decompress];
    apply (unpack_msb 12 _ _ 2 3 (w / 2)); auto using g12be_ok, glen_12be; try lia; intros r; revert Hw;
      generalize (w / 2)%nat; intros h ->; replace (r * (2 * h) * 12)%nat with ((r * h * 3) * 8)%nat by lia; rewrite Nat.div_mul by lia; lia. }
  destruct (Nat.eq_dec bps 10) as [->|H10].
  { destruct (mod0_mul _ 8 ltac:(lia) HW) as (q & Hq).
    assert (Hw : w = (4 * (w / 4))%nat) by lia. clear HW Hq. destruct e; cbn [packed_decompress];
    apply (unpack_msb 10 _ _ 4 5 (w / 4)); auto using g10be_ok, glen_10be; try lia; intros r; revert Hw;
      generalize (w / 4)%nat; intros h ->; replace (r * (4 * h) * 10)%nat with ((r * h * 5) * 8)%nat by lia; rewrite Nat.div_mul by lia; lia. }
  destruct (Nat.eq_dec bps 8) as [->|H8].
  { destruct e; cbn [packed_decompress]; apply (unpack_msb 8 _ _ 1 1 w); auto using g8_ok, glen_8; lia. }
  assert (packed_decompress bps e src skip nl w = unpack_generic_msb bps src skip nl w) as ->.
  { destruct e; do 17 (destruct bps as [|bps]; try reflexivity; try lia). }
  unfold unpack_generic_msb. cbn [run_ops]. rewrite need_ok by auto. rewrite generic_ok; auto.
  - destruct (mod0_mul _ 8 ltac:(lia) HW) as (q & Hq). rewrite <- Nat.mul_assoc, Hq.
    replace (skip * (8 * q))%nat with ((skip * q) * 8)%nat by lia. apply Nat.mod_mul. lia.
  - apply repeat_length.
Qed.

(** ** Parallel lines *)
Lemma pump_fill_len {P} (o : pump_ops P) bits k : forall p l p', pump_fill o bits k p = Ok (l, p') -> length l = k.
Proof.
  induction k as [|k IH]; intros p l p' E; cbn [pump_fill] in E.
  - injection E as <- <-. reflexivity.
  - apply bind_ok in E. destruct E as ([v p1] & E1 & E). apply bind_ok in E. destruct E as ([l' p2] & E2 & E).
    injection E as <- <-. cbn [length]. f_equal. eauto.
Qed.

Lemma unpack_len bits off g n m src skip nl w : (forall i, length i = m -> length (g i) = n) ->
  Forall (op_ok (nl * w)) (unpack bits off n m g src skip nl w).
Proof.
  intros HG. unfold unpack. constructor.
  - intros v v' HL E. unfold need_op in E. destruct (Nat.ltb _ _); [discriminate|]. now injection E as <-.
  - apply (fn_line_ok (fun r => line_op src (off r) n m g)); [apply Nat.le_refl|]. intros r. now apply line_op_len.
Qed.

Lemma packed_len bps e src skip nl w : Forall (op_ok (nl * w)) (packed_decompress bps e src skip nl w).
Proof.
  assert (HGn : Forall (op_ok (nl * w)) (if ((0 <? bps) && (bps <? 16))%nat%bool then unpack_generic_msb bps src skip nl w
     else [fun _ => None])).
  { destruct ((0 <? bps) && (bps <? 16))%nat%bool.
    - constructor; [|constructor; [|constructor]]; intros v v' HL E.
      + unfold need_op in E. destruct (Nat.ltb _ _); [discriminate|]. now injection E as <-.
      + unfold generic_op in E. destruct (Nat.leb bps 16); [|discriminate].
        destruct (Nat.leb _ _); [|discriminate]. destruct (consume_bits _ _ _) as [p| |]; try discriminate.
        destruct (pump_fill _ _ _ _) as [[l p']| |] eqn:EP; try discriminate. injection E as <-.
        apply pump_fill_len in EP. rewrite app_length, skipn_length, EP, HL. clear. lia.
    - constructor; [|constructor]. intros v v' HL E. discriminate. }
  destruct e.
  - do 17 (destruct bps as [|bps]; [cbn [packed_decompress]; auto using unpack_len, glen_16be, glen_16le, glen_12be, glen_10be, glen_8|]). exact HGn.
  - do 17 (destruct bps as [|bps]; [cbn [packed_decompress]; auto using unpack_len, glen_16be, glen_16le, glen_12be, glen_10be, glen_8|]). exact HGn.
Qed.

Lemma lines_exact_delivers w h prog pix : (0 < w)%nat ->
  (forall r, (r < h)%nat -> Forall (op_ok w) (prog r)) ->
  (forall r, (r < h)%nat -> run_ops (prog r) (repeat 0 w) = Some (map (pix r) (seq 0 w))) ->
  delivers (par_chunks_exact 0 w (w * h) prog) w h pix.
Proof.
  intros Hw HO HR. unfold delivers, par_chunks_exact. destruct (Nat.eqb_spec w 0); [lia|].
  eexists. split; [reflexivity|]. intros sched HE.
  replace (w * h / w)%nat with h in * by (rewrite Nat.mul_comm; symmetry; apply Nat.div_mul; auto).
  assert (HM : forall i, (i < h)%nat -> Nat.min w (w * h - i * w) = w).
  { intros i Hi. pose proof (Nat.mul_le_mono_r (S i) h w). lia. }
  rewrite chunks_result; auto; try lia.
  - rewrite (all_some_map_some _ (fun r => map (pix r) (seq 0 w))).
    + f_equal. unfold rows. now rewrite flat_map_concat_map.
    + intros r Hr. apply in_seq in Hr. rewrite HM by lia. apply HR. lia.
  - intros i Hi. rewrite HM by auto. auto.
Qed.

Lemma packed_lines_ok bps e src w h : Forall is_byte src -> (1 <= bps <= 16)%nat -> (0 < w)%nat ->
  ((w * bps) mod 8 = 0)%nat -> (h * w * bps <= 8 * length src)%nat ->
  delivers (packed_lines bps e src w h) w h (fun r c => packed_sample bps e src (r * w + c)).
Proof.
  intros HF Hb Hw HM HL. unfold packed_lines. apply lines_exact_delivers; auto.
  - intros r Hr. pose proof (packed_len bps e src r 1 w) as H. now rewrite Nat.mul_1_l in H.
  - intros r Hr. pose proof (packed_ok bps e src r 1 w HF Hb HM) as H. rewrite Nat.mul_1_l in H. rewrite H.
    + unfold rows. cbn [seq flat_map]. now rewrite app_nil_r.
    + eapply Nat.le_trans; [|exact HL]. apply Nat.mul_le_mono_r, Nat.mul_le_mono_r. lia.
Qed.

(** *** Control bytes *)
Definition ctl_msb (B : nat -> Z) (c : nat) : Z := field_msb B (128 * (c / 10) + 12 * (c mod 10)) 12.
Definition ctl_lsb (B : nat -> Z) (c : nat) : Z := field_lsb B (128 * (c / 10) + 12 * (c mod 10)) 12.

Lemma ctl_group g F (B : nat -> Z) : (forall B, is_bytes B -> g [B 0%nat; B 1%nat; B 2%nat] = [F B 0%nat; F B 1%nat]) ->
  reader_ok F 2 3 -> is_bytes B -> wcontrol g (map B (seq 0 16)) = map (F B) (seq 0 10).
Proof.
  intros HG [HR _] HB. unfold wcontrol.
  assert (HK : forall k, g [B (3 * k)%nat; B (3 * k + 1)%nat; B (3 * k + 2)%nat] = [F B (2 * k)%nat; F B (2 * k + 1)%nat]).
  { intros k. pose proof (HG (fun i => B (3 * k + i)%nat) (fun i => HB _)) as E. rewrite !HR in E by lia.
    rewrite !Nat.add_0_r in E. exact E. }
  pose proof (HK 0%nat) as K0. pose proof (HK 1%nat) as K1. pose proof (HK 2%nat) as K2.
  pose proof (HK 3%nat) as K3. pose proof (HK 4%nat) as K4. clear HK HG HR.
  cbn [Nat.mul Nat.add] in *. cbn [zip_chunks length repeat map seq Nat.leb andb firstn skipn].
  rewrite K0, K1, K2, K3, K4. reflexivity.
Qed.

Lemma ctl_be_ok : group_ok (wcontrol g12be) ctl_msb 10 16.
Proof.
  intros B HB. rewrite (ctl_group g12be (msb_samples 12) B (fun C HC => g12be_ok C HC) (msb_reader 12 2 3 eq_refl) HB).
  apply map_ext_in. intros c Hc. apply in_seq in Hc. unfold msb_samples, ctl_msb.
  rewrite Nat.div_small, Nat.mod_small by lia. f_equal; lia.
Qed.
Lemma ctl_le_ok : group_ok (wcontrol g12le) ctl_lsb 10 16.
Proof.
  intros B HB. rewrite (ctl_group g12le (lsb_samples 12) B (fun C HC => g12le_ok C HC) (lsb_reader 12 2 3 eq_refl) HB).
  apply map_ext_in. intros c Hc. apply in_seq in Hc. unfold lsb_samples, ctl_lsb.
  rewrite Nat.div_small, Nat.mod_small by lia. f_equal; lia.
Qed.
Lemma ctl_off k j : (j < 10)%nat -> (128 * ((10 * k + j) / 10) + 12 * ((10 * k + j) mod 10) = 8 * (16 * k) + (128 * (j / 10) + 12 * (j mod 10)))%nat.
Proof.
  intros H. replace (10 * k + j)%nat with (j + k * 10)%nat by lia. rewrite Nat.div_add, Nat.mod_add by lia. lia.
Qed.
Lemma ctl_msb_reader : reader_ok ctl_msb 10 16.
Proof.
  split; intros; unfold ctl_msb.
  - rewrite ctl_off by auto. now rewrite field_msb_shift.
  - now apply field_msb_ext.
Qed.
Lemma ctl_lsb_reader : reader_ok ctl_lsb 10 16.
Proof.
  split; intros; unfold ctl_lsb.
  - rewrite ctl_off by auto. now rewrite field_lsb_shift.
  - now apply field_lsb_ext.
Qed.
Lemma glen_ctl g i : (forall i, length i = 3%nat -> length (g i) = 2%nat) -> length i = 16%nat -> length (wcontrol g i) = 10%nat.
Proof.
  intros HG HL. do 16 (destruct i as [|? i]; [discriminate HL|]). destruct i; [|discriminate HL].
  unfold wcontrol. cbn [zip_chunks length repeat map seq Nat.leb andb firstn skipn].
  rewrite !app_length, !HG by reflexivity. reflexivity.
Qed.

(** ** The decompress functions *)
Lemma delivers_ext r w h p q : (forall a b, (a < h)%nat -> (b < w)%nat -> p a b = q a b) -> delivers r w h p -> delivers r w h q.
Proof.
  intros H (s0 & E & D). exists s0. split; auto. intros sched HE. rewrite D by auto. f_equal. apply rows_ext. intros; apply H; lia.
Qed.

Lemma need_le a b {A} (x y : A) : (b <= a)%nat -> (if (a <? b)%nat then x else y) = y.
Proof. intros. destruct (Nat.ltb_spec a b); auto. lia. Qed.

Lemma d8_ok buf w h : Forall is_byte buf -> (0 < w)%nat -> (h * w <= length buf)%nat ->
  delivers (decompress_8bit buf w h) w h (fun r c => stream buf (r * w + c)).
Proof.
  intros HF Hw HL. unfold decompress_8bit. rewrite need_le by auto.
  eapply delivers_ext; [|apply packed_lines_ok; auto; [lia | rewrite Nat.mod_mul; lia | lia]].
  - intros r c Hr Hc. cbv beta. change (packed_sample 8 LittleE buf (r * w + c)) with (field_msb (stream buf) (8 * (r * w + c)) 8).
    replace (8 * (r * w + c))%nat with (8 * (r * w + c) + 0)%nat by lia.
    rewrite field_msb_24 by (auto using stream_bytes; lia).
    pose proof (stream_bytes buf HF) as HB. pose proof (HB (r * w + c)%nat) as H0. pose proof (HB (r * w + c + 1)%nat) as H1.
    pose proof (HB (r * w + c + 2)%nat) as H2. clear -H0 H1 H2. revert H0 H1 H2.
    generalize (stream buf (r * w + c)) (stream buf (r * w + c + 1)) (stream buf (r * w + c + 2)).
    unfold is_byte. intros. change (24 - 0 - 8)%nat with 16%nat. pows. lia.
Qed.

Lemma d10be_ok buf w h : Forall is_byte buf -> (0 < w)%nat -> (w mod 4 = 0)%nat -> (h * w * 10 <= 8 * length buf)%nat ->
  delivers (decompress_10be buf w h) w h (fun r c => field_msb (stream buf) (10 * (r * w + c)) 10).
Proof.
  intros HF Hw HM HL. unfold decompress_10be. rewrite need_le by (now apply ceil8_le).
  apply (packed_lines_ok 10 BigE); auto; try lia.
Qed.
Lemma d12be_ok buf w h : Forall is_byte buf -> (0 < w)%nat -> (w mod 2 = 0)%nat -> (h * w * 12 <= 8 * length buf)%nat ->
  delivers (decompress_12be buf w h) w h (fun r c => field_msb (stream buf) (12 * (r * w + c)) 12).
Proof. intros HF Hw HM HL. apply (packed_lines_ok 12 BigE); auto; try lia. Qed.
Lemma d16be_ok buf w h : Forall is_byte buf -> (0 < w)%nat -> (w * h * 2 <= length buf)%nat ->
  delivers (decompress_16be buf w h) w h (fun r c => field_msb (stream buf) (16 * (r * w + c)) 16).
Proof.
  intros HF Hw HL. unfold decompress_16be. rewrite need_le by auto.
  apply (packed_lines_ok 16 BigE); auto; try lia.
Qed.
Lemma d16le_ok buf w h : Forall is_byte buf -> (0 < w)%nat -> (w * h * 2 <= length buf)%nat ->
  delivers (decompress_16le buf w h) w h (fun r c => field_lsb (stream buf) (16 * (r * w + c)) 16).
Proof.
  intros HF Hw HL. unfold decompress_16le. rewrite need_le by auto.
  apply (packed_lines_ok 16 LittleE); auto; try lia.
Qed.

(** Rows stored back to back: last row ends inside the buffer. *)
Lemma row_fits r h w k len : (r < h)%nat -> (h * w * k <= len)%nat -> (r * w * k + w * k <= len)%nat.
Proof.
  intros Hr HL. eapply Nat.le_trans; [|exact HL]. replace (r * w * k + w * k)%nat with (S r * w * k)%nat by lia.
  apply Nat.mul_le_mono_r, Nat.mul_le_mono_r. lia.
Qed.
Lemma stride_fits r h s len : (r < h)%nat -> (h * s <= len)%nat -> (r * s + s <= len)%nat.
Proof. intros Hr HL. pose proof (Nat.mul_le_mono_r (S r) h s). lia. Qed.

Lemma d12le_ok buf w h : Forall is_byte buf -> (0 < w)%nat -> (w mod 2 = 0)%nat -> (h * w * 12 <= 8 * length buf)%nat ->
  delivers (decompress_12le buf w h) w h (fun r c => field_lsb (stream buf) (12 * (r * w + c)) 12).
Proof.
  intros HF Hw HM HL. unfold decompress_12le. destruct (mod0_mul w 2 ltac:(lia) HM) as (q & Hq). clear HM.
  assert (HO : forall r, (r * w * 12 / 8 = 3 * (r * q))%nat).
  { intros r. subst w. replace (r * (2 * q) * 12)%nat with ((3 * (r * q)) * 8)%nat by lia. apply Nat.div_mul. lia. }
  eapply delivers_ext; [|apply (by_lines_ok g12le (lsb_samples 12)); auto using g12le_ok, glen_12le, lsb_reader; try lia].
  - intros r c Hr Hc. cbv beta. rewrite HO. apply (lsb_unit_row 12 2 3 q); [reflexivity|exact Hq|auto|exact Hc|]. clear -Hq. subst w. lia.
  - now apply ceil8_le.
  - intros r Hr. rewrite HO. pose proof (row_fits r h w 12 _ Hr HL) as HRF. subst w.
    rewrite (Nat.mul_comm 2 q), Nat.div_mul by discriminate. clear -HRF. lia.
Qed.

Lemma d10le_ok buf w h : Forall is_byte buf -> (0 < w)%nat -> (w mod 8 = 0)%nat -> (h * w * 10 <= 8 * length buf)%nat ->
  delivers (decompress_10le_lsb16 buf w h) w h (fun r c => field_msb (swapped16 (stream buf)) (10 * (r * w + c)) 10).
Proof.
  intros HF Hw HM HL. unfold decompress_10le_lsb16. destruct (mod0_mul w 8 ltac:(lia) HM) as (q & Hq). clear HM.
  assert (HO : forall r, (r * w * 10 / 8 = 2 * (5 * (r * q)))%nat).
  { intros r. subst w. replace (r * (8 * q) * 10)%nat with ((2 * (5 * (r * q))) * 8)%nat by lia. apply Nat.div_mul. lia. }
  assert (HRD : reader_ok (fun B => msb_samples 10 (swapped16 B)) 8 10) by (apply (swap16_reader 10 8 10 5); lia).
  eapply delivers_ext; [|apply (by_lines_ok g10le_lsb16 (fun B => msb_samples 10 (swapped16 B))); auto using g10le_lsb16_ok, glen_10le_lsb16; try lia].
  - intros r c Hr Hc. unfold row_spec. rewrite HO.
    replace (8 * (w / 8))%nat with w by (subst w; rewrite (Nat.mul_comm 8 q), Nat.div_mul by discriminate; apply Nat.mul_comm).
    destruct (Nat.ltb_spec c w) as [_|HC]; [|clear -Hc HC; lia]. unfold msb_samples.
    transitivity (field_msb (fun i => swapped16 (stream buf) (2 * (5 * (r * q)) + i)%nat) (10 * c) 10).
    + apply field_msb_ext. intros i. unfold swapped16.
      replace (2 * (5 * (r * q)) + i)%nat with (i + 5 * (r * q) * 2)%nat by lia. rewrite Nat.div_add, Nat.mod_add by discriminate. f_equal. clear. lia.
    + rewrite <- field_msb_shift. f_equal. clear -Hq. subst w. lia.
  - now apply ceil8_le.
  - intros r Hr. rewrite HO. pose proof (row_fits r h w 10 _ Hr HL) as HRF. subst w.
    rewrite (Nat.mul_comm 8 q), Nat.div_mul by discriminate. clear -HRF. lia.
Qed.

(** Strided formats: [c] below the last whole group. *)
Lemma strided_ok g F n m stride buf w h : group_ok g F n m -> reader_ok F n m ->
  (forall i, length i = m -> length (g i) = n) -> (0 < n)%nat -> (0 < w)%nat -> Forall is_byte buf ->
  (m * (w / n) <= stride)%nat -> (h * stride <= length buf)%nat ->
  delivers (by_lines (h * stride) buf w h (fun row => (row * stride)%nat) n m g) w h
    (fun r c => if (c <? n * (w / n))%nat then F (fun i => stream buf (r * stride + i)%nat) c else 0).
Proof.
  intros HG HR HLn Hn Hw HF HS HL. apply (by_lines_ok g F); auto.
  intros r Hr. pose proof (stride_fits r h stride _ Hr HL). eapply Nat.le_trans; [|exact H]. apply Nat.add_le_mono_l. exact HS.
Qed.

Lemma d12le_padded_ok buf w h s : Forall is_byte buf -> (0 < w)%nat -> (3 * (w / 2) <= s)%nat -> (h * s <= length buf)%nat ->
  delivers (decompress_12le_padded buf w h s) w h
    (fun r c => if (c <? 2 * (w / 2))%nat then field_lsb (stream buf) (8 * (r * s) + 12 * c) 12 else 0).
Proof.
  intros HF Hw HS HL. eapply delivers_ext; [|apply (strided_ok g12le (lsb_samples 12)); auto using g12le_ok, glen_12le, lsb_reader; lia].
  intros r c Hr Hc. cbn beta. destruct (Nat.ltb c _); auto. unfold lsb_samples. now rewrite <- field_lsb_shift.
Qed.
Lemma d14le_padded_ok buf w h s : Forall is_byte buf -> (0 < w)%nat -> (7 * (w / 4) <= s)%nat -> (h * s <= length buf)%nat ->
  delivers (decompress_14le_padded buf w h s) w h
    (fun r c => if (c <? 4 * (w / 4))%nat then field_lsb (stream buf) (8 * (r * s) + 14 * c) 14 else 0).
Proof.
  intros HF Hw HS HL. eapply delivers_ext; [|apply (strided_ok g14le (lsb_samples 14)); auto using g14le_ok, glen_14le, lsb_reader; lia].
  intros r c Hr Hc. cbn beta. destruct (Nat.ltb c _); auto. unfold lsb_samples. now rewrite <- field_lsb_shift.
Qed.
Lemma d12aligned_ok buf w h : Forall is_byte buf -> (0 < w)%nat -> (h * stride_16bit w <= length buf)%nat ->
  delivers (decompress_12le_16bitaligned buf w h) w h
    (fun r c => if (c <? 2 * (w / 2))%nat then field_msb (stream buf) (8 * (r * stride_16bit w) + 12 * c) 12 else 0).
Proof.
  intros HF Hw HL. eapply delivers_ext; [|apply (strided_ok g12be (msb_samples 12)); auto using g12be_ok, glen_12be, msb_reader; try lia].
  - intros r c Hr Hc. cbn beta. destruct (Nat.ltb c _); auto. unfold msb_samples. now rewrite <- field_msb_shift.
  - unfold stride_16bit. clear. lia.
Qed.
Lemma d12le_ctl_ok buf w h : Forall is_byte buf -> (0 < w)%nat -> (h * wcontrol_perline w <= length buf)%nat ->
  delivers (decompress_12le_wcontrol buf w h) w h
    (fun r c => if (c <? 10 * (w / 10))%nat
                then field_lsb (stream buf) (8 * (r * wcontrol_perline w + 16 * (c / 10)) + 12 * (c mod 10)) 12 else 0).
Proof.
  intros HF Hw HL. assert (HG : forall i, length i = 16%nat -> length (wcontrol g12le i) = 10%nat) by (intros; apply glen_ctl; auto using glen_12le).
  eapply delivers_ext; [|apply (strided_ok (wcontrol g12le) ctl_lsb); auto using ctl_le_ok, ctl_lsb_reader; try lia].
  - intros r c Hr Hc. cbn beta. destruct (Nat.ltb c _); auto. unfold ctl_lsb. rewrite <- field_lsb_shift. f_equal. lia.
  - unfold wcontrol_perline. clear. lia.
Qed.
Lemma d12be_ctl_ok buf w h : Forall is_byte buf -> (0 < w)%nat -> (h * wcontrol_perline w <= length buf)%nat ->
  delivers (decompress_12be_wcontrol buf w h) w h
    (fun r c => if (c <? 10 * (w / 10))%nat
                then field_msb (stream buf) (8 * (r * wcontrol_perline w + 16 * (c / 10)) + 12 * (c mod 10)) 12 else 0).
Proof.
  intros HF Hw HL. assert (HG : forall i, length i = 16%nat -> length (wcontrol g12be i) = 10%nat) by (intros; apply glen_ctl; auto using glen_12be).
  eapply delivers_ext; [|apply (strided_ok (wcontrol g12be) ctl_msb); auto using ctl_be_ok, ctl_msb_reader; try lia].
  - intros r c Hr Hc. cbn beta. destruct (Nat.ltb c _); auto. unfold ctl_msb. rewrite <- field_msb_shift. f_equal. lia.
  - unfold wcontrol_perline. clear. lia.
Qed.

(** 16 bit words. *)
Lemma word_row F buf w r s c : (c < w)%nat -> row_spec F 1 w buf (r * s) c = F (fun i => stream buf (r * s + i)%nat) c.
Proof.
  intros Hc. unfold row_spec. rewrite Nat.div_1_r, Nat.mul_1_l. destruct (Nat.ltb_spec c w) as [_|HC]; auto. clear -Hc HC. lia.
Qed.
Lemma words_ok g F stride need buf w h : group_ok g F 1 2 -> reader_ok F 1 2 ->
  (forall i, length i = 2%nat -> length (g i) = 1%nat) -> (0 < w)%nat -> Forall is_byte buf ->
  (2 * w <= stride)%nat -> need = (h * stride)%nat -> (need <= length buf)%nat ->
  delivers (by_lines need buf w h (fun row => (row * stride)%nat) 1 2 g) w h
    (fun r c => F (fun i => stream buf (r * stride + i)%nat) c).
Proof.
  intros HG HR HLn Hw HF HS -> HL. eapply delivers_ext; [|apply (by_lines_ok g F); auto].
  - intros r c Hr Hc. cbv beta. now apply word_row.
  - intros r Hr. pose proof (stride_fits r h stride _ Hr HL). rewrite Nat.div_1_r. lia.
Qed.


Lemma by_lines_off need buf w h f f' n m g : (forall r, f r = f' r) -> (forall pix, delivers (by_lines need buf w h f n m g) w h pix ->
  delivers (by_lines need buf w h f' n m g) w h pix).
Proof.
  intros H pix. assert (HE : forall r, [line_op buf (f r) n m g] = [line_op buf (f' r) n m g]) by (intros; now rewrite H).
  unfold by_lines. destruct (Nat.ltb _ _); auto. unfold delivers, lines_fn, par_chunks. destruct (w =? 0)%nat; auto.
  erewrite map_ext; [intros X; exact X|]. intros i. cbn beta. now rewrite HE.
Qed.

Lemma unpacked_msb_ok g skip bits buf w h : group_ok g (msb_word skip bits) 1 2 ->
  (forall i, length i = 2%nat -> length (g i) = 1%nat) -> (0 < w)%nat -> Forall is_byte buf -> (h * w * 2 <= length buf)%nat ->
  delivers (unpacked16 g buf w h) w h (fun r c => field_msb (stream buf) (16 * (r * w + c) + skip) bits).
Proof.
  intros HG HLn Hw HF HL. unfold unpacked16. apply by_lines_off with (f := fun r => (r * (2 * w))%nat); [intros; lia|].
  eapply delivers_ext; [|apply (words_ok g (msb_word skip bits)); auto using msb_word_reader; lia].
  intros r c Hr Hc. cbv beta. unfold msb_word. rewrite <- field_msb_shift. f_equal. lia.
Qed.
Lemma unpacked_lsb_ok g skip bits buf w h : group_ok g (lsb_word skip bits) 1 2 ->
  (forall i, length i = 2%nat -> length (g i) = 1%nat) -> (0 < w)%nat -> Forall is_byte buf -> (h * w * 2 <= length buf)%nat ->
  delivers (unpacked16 g buf w h) w h (fun r c => field_lsb (stream buf) (16 * (r * w + c) + skip) bits).
Proof.
  intros HG HLn Hw HF HL. unfold unpacked16. apply by_lines_off with (f := fun r => (r * (2 * w))%nat); [intros; lia|].
  eapply delivers_ext; [|apply (words_ok g (lsb_word skip bits)); auto using lsb_word_reader; lia].
  intros r c Hr Hc. cbv beta. unfold lsb_word. rewrite <- field_lsb_shift. f_equal. lia.
Qed.
Lemma glen_m16be v i : length i = 2%nat -> length (masked g16be v i) = 1%nat.
Proof. intros. unfold masked. rewrite map_length. now apply glen_16be. Qed.
Lemma glen_m16le v i : length i = 2%nat -> length (masked g16le v i) = 1%nat.
Proof. intros. unfold masked. rewrite map_length. now apply glen_16le. Qed.
Lemma glen_s16be v i : length i = 2%nat -> length (shifted g16be v i) = 1%nat.
Proof. intros. unfold shifted. rewrite map_length. now apply glen_16be. Qed.
Lemma glen_s16le v i : length i = 2%nat -> length (shifted g16le v i) = 1%nat.
Proof. intros. unfold shifted. rewrite map_length. now apply glen_16le. Qed.

Lemma d14padded_ok buf w h s : Forall is_byte buf -> (0 < w)%nat -> (2 * w <= s)%nat -> (h * s <= length buf)%nat ->
  delivers (decompress_14le_unpacked_padded buf w h s) w h (fun r c => field_msb (stream buf) (8 * (r * s) + 16 * c + 2) 14).
Proof.
  intros HF Hw HS HL. eapply delivers_ext; [|apply (words_ok (masked g16be 16383) (msb_word 2 14)); auto using msb_word_reader, w14be_ok, glen_m16be].
  intros r c Hr Hc. cbv beta. unfold msb_word. rewrite <- field_msb_shift. f_equal. lia.
Qed.
Lemma dskip_ok buf w h : Forall is_byte buf -> (0 < w)%nat -> (w * h * 4 <= length buf)%nat ->
  delivers (decompress_16le_skiplines buf w h) w h (fun r c => field_lsb (stream buf) (16 * (2 * r * w + c)) 16).
Proof.
  intros HF Hw HL. unfold decompress_16le_skiplines. apply by_lines_off with (f := fun r => (r * (4 * w))%nat); [intros; lia|].
  eapply delivers_ext; [|apply (words_ok g16le (lsb_samples 16)); auto using g16le_ok, glen_16le, lsb_reader; lia].
  intros r c Hr Hc. cbv beta. unfold lsb_samples. rewrite <- field_lsb_shift. f_equal. lia.
Qed.

(** Two fields. *)
Lemma interlaced_row buf second w q row : Forall is_byte buf -> w = (2 * q)%nat -> (second <= length buf)%nat ->
  ((if (row mod 2 =? 0)%nat then 0 else second) + 3 * (row / 2 * q) + 3 * q <= length buf)%nat ->
  interlaced_op buf second w row (repeat 0 w) =
  Some (map (fun c => field_msb (stream buf) (8 * (if (row mod 2 =? 0)%nat then 0 else second) + 12 * (row / 2 * w + c)) 12) (seq 0 w)).
Proof.
  intros HF Hq HS HL. unfold interlaced_op. destruct (Nat.leb_spec second (length buf)) as [_|HC]; [|clear -HS HC; lia].
  assert (HO : (row / 2 * w * 12 / 8 = 3 * (row / 2 * q))%nat).
  { subst w. replace (row / 2 * (2 * q) * 12)%nat with ((3 * (row / 2 * q)) * 8)%nat. apply Nat.div_mul. discriminate.
    generalize (row / 2)%nat. intros. lia. }
  rewrite HO. revert HL. generalize (row / 2)%nat. intros k HL. clear HO.
  destruct (row mod 2 =? 0)%nat.
  - rewrite (line_ok g12be (msb_samples 12)); auto using g12be_ok, msb_reader.
    + f_equal. apply map_ext_in. intros c Hc. apply in_seq in Hc.
      rewrite (msb_unit_row 12 2 3 q buf w k); auto; [ clear -Hc; lia | clear -Hq; subst w; lia].
    + subst w. rewrite (Nat.mul_comm 2 q), Nat.div_mul by discriminate. clear -HL. lia.
  - rewrite (line_ok g12be (msb_samples 12)); auto using g12be_ok, msb_reader, Forall_skipn.
    + f_equal. apply map_ext_in. intros c Hc. apply in_seq in Hc.
      rewrite (msb_unit_row 12 2 3 q (skipn second buf) w k); auto; [ | clear -Hc; lia | clear -Hq; subst w; lia].
      rewrite field_msb_shift. apply field_msb_ext. intros i. apply stream_skipn.
    + rewrite skipn_length. subst w. rewrite (Nat.mul_comm 2 q), Nat.div_mul by discriminate. clear -HL HS. lia.
Qed.
Lemma interlaced_len buf second w row n : op_ok n (interlaced_op buf second w row).
Proof.
  intros v v' HL E. unfold interlaced_op in E. destruct (Nat.leb second (length buf)); [|discriminate].
  revert HL E. apply line_op_len. apply glen_12be.
Qed.

Lemma interlaced_fits w h q second len row : w = (2 * q)%nat -> (row < h)%nat ->
  (3 * ((h + 1) / 2 * q) <= second)%nat -> (second + ((h - (h + 1) / 2) * w * 12 + 7) / 8 <= len)%nat ->
  ((if (row mod 2 =? 0)%nat then 0 else second) + 3 * (row / 2 * q) + 3 * q <= len)%nat.
Proof.
  intros -> Hr HS HL.
  assert (HE : (((h - (h + 1) / 2) * (2 * q) * 12 + 7) / 8 = 3 * ((h - (h + 1) / 2) * q))%nat).
  { symmetry. apply Nat.div_unique with (r := 7%nat); [lia|]. generalize (h - (h + 1) / 2)%nat. intros. lia. }
  rewrite HE in HL. clear HE. destruct (Nat.eqb_spec (row mod 2) 0) as [HM|HM].
  - assert (row / 2 + 1 <= (h + 1) / 2)%nat by (clear -HM Hr; lia). revert HS HL H. generalize (row / 2)%nat ((h + 1) / 2)%nat.
    intros a b HS HL H. pose proof (Nat.mul_le_mono_r (a + 1) b q H). lia.
  - assert (row / 2 + 1 <= h - (h + 1) / 2)%nat by (clear -HM Hr; lia). revert HS HL H. generalize (row / 2)%nat (h - (h + 1) / 2)%nat.
    intros a b HS HL H. pose proof (Nat.mul_le_mono_r (a + 1) b q H). lia.
Qed.

Definition field_start (second row : nat) : nat := (if (row mod 2 =? 0)%nat then 0 else second)%nat.

Lemma dinter_ok buf w h : Forall is_byte buf -> (0 < w)%nat -> (w mod 2 = 0)%nat ->
  (second_field_aligned w h + ceil8 ((h - (h + 1) / 2) * w * 12) <= length buf)%nat ->
  delivers (decompress_12be_interlaced buf w h) w h
    (fun r c => field_msb (stream buf) (8 * field_start (second_field_aligned w h) r + 12 * (r / 2 * w + c)) 12).
Proof.
  intros HF Hw HM HL. unfold decompress_12be_interlaced.
  rewrite usub_ok by (clear; lia). cbn [bind]. rewrite need_le by exact HL.
  destruct (mod0_mul w 2 ltac:(discriminate) HM) as (q & Hq).
  assert (HS : (3 * ((h + 1) / 2 * q) <= second_field_aligned w h)%nat).
  { unfold second_field_aligned. subst w. generalize ((h + 1) / 2)%nat. intros k. clear.
    replace (k * (2 * q) * 3 / 2)%nat with (3 * (k * q))%nat. 2: { apply Nat.div_unique with (r := 0%nat); lia. }
    generalize (3 * (k * q))%nat. intros x. pose proof (Nat.div_mod x 2048 ltac:(discriminate)).
    pose proof (Nat.mod_upper_bound x 2048 ltac:(discriminate)). revert H H0. generalize (x / 2048)%nat (x mod 2048)%nat. intros. lia. }
  apply lines_fn_delivers; auto.
  - intros r Hr. constructor; auto. apply interlaced_len.
  - intros r Hr. cbn [run_ops]. rewrite (interlaced_row buf _ w q); auto.
    + eapply Nat.le_trans; [|exact HL]. apply Nat.le_add_r.
    + apply (interlaced_fits w h q); auto.
Qed.

Lemma dinter_un_ok buf w h : Forall is_byte buf -> (0 < w)%nat -> (w mod 2 = 0)%nat -> (h * w * 12 <= 8 * length buf)%nat ->
  delivers (decompress_12be_interlaced_unaligned buf w h) w h
    (fun r c => field_msb (stream buf) (8 * field_start ((h + 1) / 2 * w * 12 / 8) r + 12 * (r / 2 * w + c)) 12).
Proof.
  intros HF Hw HM HL. unfold decompress_12be_interlaced_unaligned.
  rewrite need_le by now apply ceil8_le.
  destruct (mod0_mul w 2 ltac:(discriminate) HM) as (q & Hq).
  assert (HS : ((h + 1) / 2 * w * 12 / 8 = 3 * ((h + 1) / 2 * q))%nat).
  { subst w. symmetry. apply Nat.div_unique with (r := 0%nat); [lia|]. generalize ((h + 1) / 2)%nat. intros. lia. }
  rewrite HS.
  assert (HLE : (3 * (h * q) <= length buf)%nat) by (clear -HL Hq; subst w; lia).
  assert (HX : (3 * ((h + 1) / 2 * q) + ceil8 ((h - (h + 1) / 2) * w * 12) <= length buf)%nat).
  { apply Nat.le_trans with (3 * (h * q))%nat; auto. assert (ceil8 ((h - (h + 1) / 2) * w * 12) <= 3 * ((h - (h + 1) / 2) * q))%nat.
    { apply ceil8_le. subst w. clear. generalize (h - (h + 1) / 2)%nat. intros. lia. }
    assert (((h + 1) / 2 + (h - (h + 1) / 2) <= h)%nat) as H1 by (clear; lia).
    pose proof (Nat.mul_le_mono_r _ h q H1) as H2. rewrite Nat.mul_add_distr_r in H2. revert H H2.
    generalize (ceil8 ((h - (h + 1) / 2) * w * 12)) ((h - (h + 1) / 2) * q)%nat ((h + 1) / 2 * q)%nat (h * q)%nat. clear. lia. }
  assert (HSL : (3 * ((h + 1) / 2 * q) <= length buf)%nat) by (eapply Nat.le_trans; [|exact HX]; apply Nat.le_add_r).
  destruct (Nat.leb_spec (3 * ((h + 1) / 2 * q)) (length buf)) as [_|HC]; [|exfalso; revert HSL HC; generalize (3 * ((h + 1) / 2 * q))%nat; clear; lia].
  cbn [assert_ bind]. apply lines_fn_delivers; auto.
  - intros r Hr. constructor; auto. apply interlaced_len.
  - intros r Hr. cbn [run_ops]. rewrite (interlaced_row buf _ w q); auto.
    apply (interlaced_fits w h q); auto.
Qed.

(** Whole image. *)
Lemma whole_ok g F n m need buf w h : group_ok g F n m -> reader_ok F n m -> (0 < n)%nat -> Forall is_byte buf ->
  (need <= length buf)%nat -> (m * (w * h / n) <= length buf)%nat ->
  whole need buf w h n m g = Ok (map (fun k => if (k <? n * (w * h / n))%nat then F (stream buf) k else 0) (seq 0 (w * h))).
Proof.
  intros HG HR Hn HF HN HL. unfold whole. rewrite need_le by auto. f_equal.
  pose proof (line_ok g F n m buf 0 (w * h) HG HR Hn HF HL) as H. unfold line_op in H. cbn [Nat.leb skipn] in H. rewrite repeat_length in H.
  injection H as H. rewrite H. reflexivity.
Qed.

Lemma whole_fits n m bits w h len : (bits * n = 8 * m)%nat -> (0 < n)%nat -> (h * w * bits <= 8 * len)%nat -> (m * (w * h / n) <= len)%nat.
Proof.
  intros HU Hn HL. pose proof (Nat.div_mod (w * h) n ltac:(lia)) as HD. revert HD. generalize (w * h / n)%nat ((w * h) mod n)%nat.
  intros k t HD. rewrite (Nat.mul_comm h w), HD in HL. assert (8 * (m * k) <= 8 * len)%nat; [|lia].
  eapply Nat.le_trans; [|exact HL]. rewrite Nat.mul_assoc, <- HU. nia.
Qed.

Lemma generic_msb_ok buf w h bits : Forall is_byte buf -> (bits <= 16)%nat -> (w * h * bits <= 8 * length buf)%nat ->
  decompress_generic_msb buf w h bits = Ok (map (fun k => field_msb (stream buf) (bits * k) bits) (seq 0 (w * h))).
Proof.
  intros HF Hb HL. unfold decompress_generic_msb, generic. destruct (Nat.leb_spec bits 16) as [_|HC]; [|clear -HC Hb; lia]. cbn [assert_ bind].
  rewrite need_le by now apply ceil8_le. destruct (fill_msb bits (w * h) buf HF Hb) as (p & ->); [lia|]. reflexivity.
Qed.
Lemma generic_lsb_ok buf w h bits : Forall is_byte buf -> (bits <= 16)%nat -> (w * h * bits <= 8 * length buf)%nat ->
  decompress_generic_lsb buf w h bits = Ok (map (fun k => field_lsb (stream buf) (bits * k) bits) (seq 0 (w * h))).
Proof.
  intros HF Hb HL. unfold decompress_generic_lsb, generic. destruct (Nat.leb_spec bits 16) as [_|HC]; [|clear -HC Hb; lia]. cbn [assert_ bind].
  rewrite need_le by now apply ceil8_le. destruct (fill_lsb bits (w * h) buf HF Hb) as (p & ->); [lia|]. reflexivity.
Qed.

Lemma d12msb16_ok buf w h : Forall is_byte buf -> (h * w * 12 <= 8 * length buf)%nat ->
  decompress_12be_msb16 buf w h = Ok (map (fun k => if (k <? 4 * (w * h / 4))%nat
    then field_msb (swapped16 (stream buf)) (12 * k) 12 else 0) (seq 0 (w * h))).
Proof.
  intros HF HL. apply (whole_ok g12be_msb16 (fun B => msb_samples 12 (swapped16 B))); auto using g12be_msb16_ok.
  - now apply (swap16_reader 12 4 6 3).
  - now apply ceil8_le.
  - now apply (whole_fits 4 6 12); [|apply Nat.lt_0_succ|].
Qed.
Lemma d12msb32_ok buf w h : Forall is_byte buf -> (h * w * 12 <= 8 * length buf)%nat ->
  decompress_12be_msb32 buf w h = Ok (map (fun k => if (k <? 8 * (w * h / 8))%nat
    then field_msb (swapped32 (stream buf)) (12 * k) 12 else 0) (seq 0 (w * h))).
Proof.
  intros HF HL. apply (whole_ok g12be_msb32 (fun B => msb_samples 12 (swapped32 B))); auto using g12be_msb32_ok.
  - now apply (swap32_reader 12 8 12 3).
  - lia.
  - now apply ceil8_le.
  - now apply (whole_fits 8 12 12); [|apply Nat.lt_0_succ|].
Qed.
Lemma d14msb32_ok buf w h : Forall is_byte buf -> (h * w * 14 <= 8 * length buf)%nat ->
  decompress_14be_msb32 buf w h = Ok (map (fun k => if (k <? 16 * (w * h / 16))%nat
    then field_msb (swapped32 (stream buf)) (14 * k) 14 else 0) (seq 0 (w * h))).
Proof.
  intros HF HL. apply (whole_ok g14be_msb32 (fun B => msb_samples 14 (swapped32 B))); auto using g14be_msb32_ok.
  - now apply (swap32_reader 14 16 28 7).
  - lia.
  - now apply ceil8_le.
  - now apply (whole_fits 16 28 14); [|apply Nat.lt_0_succ|].
Qed.

Lemma rows_app pix w r0 a b : rows pix w r0 (a + b) = rows pix w r0 a ++ rows pix w (r0 + a) b.
Proof. unfold rows. now rewrite seq_app, flat_map_app. Qed.
Lemma rows_length pix w r0 n : length (rows pix w r0 n) = (n * w)%nat.
Proof.
  unfold rows. revert r0. induction n as [|n IH]; intros r0; auto.
  cbn [seq flat_map]. rewrite app_length, map_length, seq_length, IH. lia.
Qed.

Lemma packed_skip bps e src skip nl w : Forall is_byte src -> (1 <= bps <= 16)%nat -> ((w * bps) mod 8 = 0)%nat ->
  ((skip + nl) * w * bps <= 8 * length src)%nat ->
  exists full,
    run_ops (packed_decompress bps e src 0 (skip + nl) w) (repeat 0 ((skip + nl) * w)) = Some full /\
    run_ops (packed_decompress bps e src skip nl w) (repeat 0 (nl * w)) = Some (skipn (skip * w) full).
Proof.
  intros HF Hb HM HL. eexists. split; [apply packed_ok; auto|]. rewrite packed_ok by auto. f_equal.
  rewrite rows_app, skipn_app, rows_length, Nat.sub_diag. rewrite skipn_all2 by (rewrite rows_length; apply Nat.le_refl).
  reflexivity.
Qed.

Lemma packed_short bps e src skip nl w v :
  (8 * length src < (skip + nl) * w * bps)%nat -> run_ops (packed_decompress bps e src skip nl w) v = None.
Proof.
  intros H.
  assert (HN : forall os, run_ops (need_op src skip nl w bps :: os) v = None).
  { intros os. cbn [run_ops]. unfold need_op. destruct (Nat.ltb_spec (length src) (ceil8 ((skip + nl) * w * bps))) as [_|HC]; auto.
    apply ceil8_le in HC. lia. }
  assert (HG : run_ops (if ((0 <? bps) && (bps <? 16))%nat%bool then unpack_generic_msb bps src skip nl w
     else [fun _ => None]) v = None).
  { destruct ((0 <? bps) && (bps <? 16))%nat%bool; [apply HN|reflexivity]. }
  destruct e.
  - do 17 (destruct bps as [|bps]; [cbn [packed_decompress]; first [exact HG | apply HN]|]). exact HG.
  - do 17 (destruct bps as [|bps]; [cbn [packed_decompress]; first [exact HG | apply HN]|]). exact HG.
Qed.
