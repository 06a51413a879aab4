(** Stored packets are found again. *)
From Coq Require Import List ZArith Bool Lia Arith.
From Verif Require Import Base BaseLemmas Pumps PumpProofs PumpSeq PefNeg Pana SonySpec SonyArw2 SonyTop PanaSpec PanaProofs.
Import ListNotations.
Open Scope Z_scope.

Lemma value_of_bytes V : 0 <= V < 2 ^ 128 -> le_value (le_bytes 16 V) = V.
Proof. intros H. rewrite le_value_bytes. change (2 ^ Z.of_nat (8 * 16)) with (2 ^ 128). now apply Z.mod_small. Qed.
Lemma store_plain_length V n : length (store_plain V n) = (16 * n)%nat.
Proof. unfold store_plain. rewrite (flat_map_seq_length _ n 16) by (intros; apply le_bytes_length). lia. Qed.
Lemma store_plain_byte V n : Forall is_byte (store_plain V n).
Proof. unfold store_plain. apply Forall_flat_map, Forall_forall. intros p _. apply le_bytes_byte. Qed.
Lemma plain_value V n tail p : (p < n)%nat -> 0 <= V p < 2 ^ 128 -> packet_value false (store_plain V n ++ tail) p = V p.
Proof.
  intros Hp HV. unfold packet_value. rewrite <- packet_plain by (rewrite app_length, store_plain_length; lia).
  transitivity (le_value (le_bytes 16 (V p))); [f_equal|now apply value_of_bytes].
  apply nth_ext_len with 0.
  - rewrite firstn_length, skipn_length, app_length, store_plain_length, le_bytes_length. lia.
  - intros i Hi. rewrite firstn_length in Hi. rewrite nth_firstn, nth_skipn by lia. rewrite app_nth1 by (rewrite store_plain_length; lia).
    unfold store_plain. rewrite (Nat.mul_comm 16). apply (flat_map_seq_nth (fun p => le_bytes 16 (V p)) n 16); [intros; apply le_bytes_length|exact Hp|lia].
Qed.
Lemma store_split_length V n : length (store_split V n) = (stretches n * stretch_bytes)%nat.
Proof. unfold store_split. now rewrite map_length, seq_length. Qed.
Lemma split_byte_ok V i : is_byte (split_byte V i).
Proof. unfold split_byte, is_byte. pose proof bits_at_range as B. specialize (B (8 * Z.to_nat ((Z.of_nat i - 8184) mod 16384 mod 16))%nat 8%nat).
  match goal with |- context [bits_at _ _ ?v] => specialize (B v) end. change (2 ^ Z.of_nat 8) with 256 in B. exact B. Qed.
Lemma store_split_byte V n : Forall is_byte (store_split V n).
Proof. unfold store_split. apply Forall_map, Forall_forall. intros. apply split_byte_ok. Qed.

Local Ltac Zify.zify_post_hook ::= Z.div_mod_to_equations.
Lemma home_div p j : (j < 16)%nat -> Z.of_nat (packet_home true p j) / 16384 = Z.of_nat p / 1024.
Proof. intros. unfold packet_home. lia. Qed.
Lemma home_mod p j : (j < 16)%nat -> (Z.of_nat (packet_home true p j) - 8184) mod 16384 = 16 * (Z.of_nat p mod 1024) + Z.of_nat j.
Proof. intros. unfold packet_home. lia. Qed.
Lemma home_parts p j : (j < 16)%nat -> (16 * (Z.of_nat p mod 1024) + Z.of_nat j) mod 16 = Z.of_nat j /\
  1024 * (Z.of_nat p / 1024) + (16 * (Z.of_nat p mod 1024) + Z.of_nat j) / 16 = Z.of_nat p.
Proof. lia. Qed.
Lemma home_inside p j n : (j < 16)%nat -> (p < n)%nat -> Z.of_nat (packet_home true p j) < Z.of_nat (stretches n) * 16384.
Proof. intros. unfold packet_home, stretches. lia. Qed.
Local Ltac Zify.zify_post_hook ::= idtac.
Lemma split_value V n tail p : (p < n)%nat -> 0 <= V p < 2 ^ 128 -> packet_value true (store_split V n ++ tail) p = V p.
Proof.
  intros Hp HV. unfold packet_value. transitivity (le_value (le_bytes 16 (V p))); [f_equal|now apply value_of_bytes].
  unfold packet, le_bytes. apply map_ext_seq. intros j Hj. pose proof (home_inside p j n Hj Hp) as HI. pose proof stretch_z.
  assert (L : (packet_home true p j < stretches n * stretch_bytes)%nat) by nia.
  rewrite app_nth1 by (now rewrite store_split_length). unfold store_split. rewrite nth_map_seq by exact L. cbn [plus].
  unfold split_byte. rewrite home_div, home_mod by exact Hj. destruct (home_parts p j Hj) as [-> ->]. now rewrite !Nat2Z.id.
Qed.

Lemma widths_const {A} n (f : A -> Z) l : widths (map (fun i => (n, f i)) l) = (n * length l)%nat.
Proof. unfold widths. induction l; cbn in *; lia. Qed.
Lemma packed_value_ok bps s p : (forall j, (j < per_packet bps)%nat -> 0 <= s (p * per_packet bps + j)%nat < 2 ^ Z.of_nat bps) ->
  (bps * per_packet bps <= 128)%nat ->
  0 <= packed_value bps s p < 2 ^ 128 /\ forall j, (j < per_packet bps)%nat -> bits_at (bps * j) bps (packed_value bps s p) = s (p * per_packet bps + j)%nat.
Proof.
  intros H H128. unfold packed_value. set (per := per_packet bps) in *. set (f := fun j => s (p * per + j)%nat).
  change (map _ (seq 0 per)) with (map (fun j => (bps, f j)) (seq 0 per)).
  assert (F : forall a n, (a + n <= per)%nat -> fits (map (fun j => (bps, f j)) (seq a n))).
  { intros a n Ha. unfold fits. apply Forall_map, Forall_forall. intros j Hj. apply in_seq in Hj. cbn. apply H. lia. }
  split.
  - pose proof (lef_range _ (F 0%nat per ltac:(lia))) as R. rewrite widths_const, seq_length in R.
    assert (2 ^ Z.of_nat (bps * per) <= 2 ^ 128) by (apply Z.pow_le_mono_r; lia). lia.
  - intros j Hj. replace (seq 0 per) with (seq 0 (j + S (per - S j))) by (f_equal; lia). rewrite seq_app, map_app. cbn [plus seq map].
    pose proof (lef_field (map (fun j => (bps, f j)) (seq 0 j)) bps (f j) (map (fun j => (bps, f j)) (seq (S j) (per - S j))) 0 (F 0%nat j ltac:(lia)) (H j Hj)) as K.
    rewrite widths_const, seq_length in K. rewrite lef_split, Z.mul_0_r, Z.add_0_r in K. exact K.
Qed.
Lemma packed_sample_ok split bps s buf n i : (bps * per_packet bps <= 128)%nat -> (0 < per_packet bps)%nat ->
  (forall i, (i < n / per_packet bps * per_packet bps)%nat -> 0 <= s i < 2 ^ Z.of_nat bps) ->
  (forall p, (p < n / per_packet bps)%nat -> 0 <= packed_value bps s p < 2 ^ 128 -> packet_value split buf p = packed_value bps s p) ->
  (i < n / per_packet bps * per_packet bps)%nat -> packed_sample split bps buf i = s i.
Proof.
  intros H128 Hper HS HP Hi. unfold packed_sample. set (per := per_packet bps) in *.
  assert (Hd : (i / per < n / per)%nat) by (apply Nat.div_lt_upper_bound; lia).
  assert (Hs : forall j, (j < per)%nat -> 0 <= s (i / per * per + j)%nat < 2 ^ Z.of_nat bps) by (intros; apply HS; nia).
  destruct (packed_value_ok bps s (i / per) Hs H128) as [R K]. rewrite HP by assumption. fold per in K. rewrite K by (apply Nat.mod_upper_bound; lia).
  f_equal. rewrite Nat.mul_comm. symmetry. apply Nat.div_mod. lia.
Qed.

Theorem v5_roundtrip bps s w h tail : bps = 12%nat \/ bps = 14%nat -> Forall is_byte tail ->
  (forall i, (i < w * h / per_packet bps * per_packet bps)%nat -> 0 <= s i < 2 ^ Z.of_nat bps) ->
  v5_decode (store_split (packed_value bps s) (packets_of (w * h) (per_packet bps)) ++ tail) w h bps =
    Ok (map (fun i => if (i <? w * h / per_packet bps * per_packet bps)%nat then s i else 0) (seq 0 (w * h))).
Proof.
  intros Hb HT HS. pose proof (per_range bps) as Hr. pose proof (per_fits bps Hb) as Hf.
  rewrite (v5_any _ bps).
  - f_equal. unfold packed_picture. apply map_ext_seq. intros i Hi. destruct (Nat.ltb_spec i (w * h / per_packet bps * per_packet bps)); [|reflexivity].
    apply packed_sample_ok with (w * h)%nat; auto; try lia. intros p Hp HV. apply split_value; auto.
    unfold packets_of. apply Nat.lt_le_trans with (1 := Hp). apply Nat.div_le_mono; lia.
  - apply Forall_app. split; [apply store_split_byte|exact HT].
  - exact Hb.
  - rewrite app_length, store_split_length. lia.
Qed.
Theorem v7_roundtrip s w h tail : (0 < w)%nat -> (w mod 9 = 0)%nat -> Forall is_byte tail -> (forall i, (i < w * h)%nat -> 0 <= s i < 16384) ->
  v7_decode (store_plain (packed_value 14 s) (w * h / 9) ++ tail) w h 14 = Ok (map s (seq 0 (w * h))).
Proof.
  intros Hw Hm HT HS. destruct (full_width w 9 h ltac:(lia) Hm) as [E1 E2].
  rewrite v7_any; auto.
  - f_equal. unfold packed_picture. change (per_packet 14) with 9%nat. apply map_ext_seq. intros i Hi. rewrite E2.
    replace (i <? w * h)%nat with true by lia.
    apply packed_sample_ok with (w * h)%nat; change (per_packet 14) with 9%nat; try lia.
    + intros k Hk. change (2 ^ Z.of_nat 14) with 16384. apply HS. lia.
    + intros p Hp HV. now apply plain_value.
  - apply Forall_app. split; [apply store_plain_byte|exact HT].
  - rewrite app_length, store_plain_length. assert (w / 9 * h <= w * h / 9)%nat by (apply Nat.div_le_lower_bound; lia). lia.
Qed.
