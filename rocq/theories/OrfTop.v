(** Olympus compressed data: the encoder, and samples beyond the range. *)
From Coq Require Import List ZArith Lia Bool.
From Coq Require Import ZifyBool ZifyNat.
From Verif Require Import Base BaseLemmas Pumps PumpProofs Crx CrxLL CrxImageSpec PefSpec Lanes SonySpec Orf OrfSpec OrfProofs OrfRows OrfEx.
Import ListNotations.
Open Scope Z_scope.

Lemma zero_run_code n : forall z t, (z < n)%nat -> zero_run n (repeat false z ++ true :: t) = z.
Proof. induction n; intros [|z] t H; cbn; try lia. rewrite IHn; lia. Qed.
Lemma zero_run_full n : forall t, zero_run n (repeat false n ++ t) = n.
Proof. induction n; intros t; cbn; auto. Qed.
Lemma skipn_bits n v (t : list bool) : skipn n (bits_of n v ++ t) = t.
Proof. rewrite skipn_app, bits_of_length, Nat.sub_diag, skipn_all2 by (rewrite bits_of_length; lia). reflexivity. Qed.
Lemma skipn_zeros n (t : list bool) : skipn n (repeat false n ++ t) = t.
Proof. rewrite skipn_app, repeat_length, Nat.sub_diag, skipn_all2 by (rewrite repeat_length; lia). reflexivity. Qed.

Lemma orf_read_write k v rest m : carry_ok k m -> - 65536 <= v < 65536 ->
  orf_read k (fst (orf_write k v) ++ rest) = (v, snd (orf_write k v), rest) /\ carry_ok (snd (orf_write k v)) (m + 1).
Proof.
  destruct k as [[a0 c] n]. intros (Ba & Bc & Bn) HV. pose proof (width_range (a0, c, n)) as W. unfold orf_write, orf_read. set (nb := orf_width (a0, c, n)) in *. cbn [fst snd].
  set (d := v / 4). pose proof (Z.div_mod v 4 ltac:(lia)) as DM. fold d in DM. pose proof (Z.mod_pos_bound v 4 ltac:(lia)) as MB. set (low := v mod 4) in *.
  assert (U : exists neg a, unsigned (d - c) = (neg, a) /\ signed neg a = d - c /\ 0 <= a < 32768).
  { unfold unsigned. destruct (Z.ltb_spec (d - c) 0); eexists _, _; (split; [reflexivity|]); cbn [signed]; lia. }
  destruct U as (neg & a & EU & ES & AB). rewrite EU. cbn [fst snd]. pose proof (pow2_pos nb) as PN.
  pose proof (Z.div_mod a (2 ^ Z.of_nat nb) ltac:(lia)) as AD. pose proof (Z.mod_pos_bound a (2 ^ Z.of_nat nb) PN) as AM. unfold orf_code.
  set (high := a / 2 ^ Z.of_nat nb) in *. set (lo := a mod 2 ^ Z.of_nat nb) in *.
  assert (H0 : 0 <= high) by (apply Z.div_pos; lia).
  assert (ED : signed neg a + c = d) by lia.
  split.
  - rewrite <- app_comm_cons. set (mid := if high <? 12 then _ else _). rewrite <- !app_assoc.
    set (full := neg :: bits_of 2 low ++ mid ++ bits_of nb lo ++ rest).
    assert (S0 : nth 0 full false = neg) by reflexivity.
    assert (S1 : peekv 2 (skipn 1 full) = low).
    { change (skipn 1 full) with (bits_of 2 low ++ mid ++ bits_of nb lo ++ rest). apply peekv_bits_of. change (2 ^ Z.of_nat 2) with 4. lia. }
    assert (S3 : forall j, skipn (3 + j) full = skipn j (mid ++ bits_of nb lo ++ rest)).
    { intros j. rewrite <- (skipn_skipn j 3). change (skipn 3 full) with (skipn 2 (bits_of 2 low ++ mid ++ bits_of nb lo ++ rest)). now rewrite skipn_bits. }
    rewrite S0, S1. clearbody full. pose proof (S3 0%nat) as S30. change (skipn (3 + 0) full) with (skipn 3 full) in S30. rewrite S30. match goal with |- context [skipn 0 ?t] => change (skipn 0 t) with t end.
    unfold mid in *. destruct (Z.ltb_spec high 12) as [L|L].
    + rewrite <- !app_assoc. cbn [app]. rewrite zero_run_code by lia. replace (Z.to_nat high =? 12)%nat with false by lia.
      replace (4 + Z.to_nat high)%nat with (3 + (Z.to_nat high + 1))%nat by lia. rewrite S3. rewrite <- !app_assoc. rewrite <- (skipn_skipn 1 (Z.to_nat high)), skipn_zeros. cbn [app skipn].
      rewrite peekv_bits_of, skipn_bits by lia. rewrite Z2Nat.id by lia. replace (high * 2 ^ Z.of_nat nb + lo) with a by lia. rewrite ED. f_equal. f_equal. lia.
    + assert (NB : (nb < 15)%nat).
      { destruct (le_lt_dec 15 nb) as [X|X]; auto. assert (2 ^ 15 <= 2 ^ Z.of_nat nb) by (apply Z.pow_le_mono_r; lia). change (2 ^ 15) with 32768 in *. unfold high in L. rewrite Z.div_small in L by lia. lia. }
      assert (HL : high < 2 ^ Z.of_nat (15 - nb)).
      { apply Z.div_lt_upper_bound; [lia|]. rewrite <- Z.pow_add_r by lia. replace (Z.of_nat nb + Z.of_nat (15 - nb)) with 15 by lia. change (2 ^ 15) with 32768. lia. }
      rewrite <- !app_assoc. rewrite zero_run_full. cbn [Nat.eqb]. pose proof (S3 12%nat) as S15. change (skipn (3 + 12) full) with (skipn 15 full) in S15. rewrite S15. replace (31 - nb)%nat with (3 + (12 + (16 - nb)))%nat by lia. rewrite S3.
      rewrite <- !app_assoc. rewrite <- (skipn_skipn (16 - nb) 12). rewrite !skipn_zeros.
      replace (16 - nb)%nat with ((15 - nb) + 1)%nat by lia. rewrite peekv_plus. rewrite <- (skipn_skipn 1 (15 - nb)). rewrite peekv_bits_of by lia. rewrite !skipn_bits. rewrite peekv_1. cbn [app nth Z.b2z skipn].
      change (2 ^ Z.of_nat 1) with 2. rewrite Z.add_0_r, Z.div_mul by lia. rewrite peekv_bits_of, skipn_bits by lia. replace (high * 2 ^ Z.of_nat nb + lo) with a by lia. rewrite ED. f_equal. f_equal. lia.
  - cbn [orf_after carry_ok]. split; [lia|]. split.
    + assert (-1600 <= (3 * d + c) / 32) by (apply Z.div_le_lower_bound; lia). assert ((3 * d + c) / 32 <= 1600) by (apply Z.div_le_upper_bound; lia). lia.
    + destruct (16 <? a); lia.
Qed.

Section Enc.
  Variables (e N : nat) (v : nat -> Z) (rest : list bool).
  Hypothesis HV : forall i, (i < N)%nat -> - 65536 <= v i < 65536.
  Definition coded : list bool := orf_encode_from e v 0 N orf_fresh orf_fresh ++ rest.
  Lemma enc_next i m k1 k2 b : (i + S m = N)%nat -> carry_ok k1 b -> carry_ok k2 b -> 0 <= b ->
    exists k1' k2', orf_next e i (k1, k2, orf_encode_from e v i (S m) k1 k2 ++ rest) = (v i, (k1', k2', orf_encode_from e v (S i) m k1' k2' ++ rest)) /\ carry_ok k1' (b + 1) /\ carry_ok k2' (b + 1).
  Proof.
    intros Hi C1 C2 B0. assert (F : carry_ok orf_fresh b) by (unfold orf_fresh, carry_ok; lia). unfold orf_next, orf_at_row. cbn [orf_encode_from snd].
    set (p := if (i mod e =? 0)%nat then (orf_fresh, orf_fresh) else (k1, k2)).
    assert (P : exists q1 q2, p = (q1, q2) /\ carry_ok q1 b /\ carry_ok q2 b /\ forall l : list bool, (if (i mod e =? 0)%nat then (orf_fresh, orf_fresh, l) else (k1, k2, l)) = (q1, q2, l)).
    { unfold p. destruct (_ =? _)%nat; eauto 10. }
    destruct P as (q1 & q2 & EP & Q1 & Q2 & EL). rewrite EP, EL. destruct (orf_write q1 (v i)) as [bits k] eqn:EW. rewrite <- app_assoc.
    destruct (orf_read_write q1 (v i) (orf_encode_from e v (S i) m q2 k ++ rest) b Q1 (HV i ltac:(lia))) as [ER CK]. rewrite EW in ER, CK. cbn [fst snd] in ER, CK. rewrite ER.
    exists q2, k. split; [reflexivity|]. split; auto. clear - Q2. destruct q2 as [[x y] z]. unfold carry_ok in *. lia.
  Qed.
  Lemma enc_upto i : (i <= N)%nat -> exists k1 k2, orf_upto e coded i = (k1, k2, orf_encode_from e v i (N - i) k1 k2 ++ rest) /\ carry_ok k1 (Z.of_nat i) /\ carry_ok k2 (Z.of_nat i).
  Proof.
    induction i; intros Hi.
    - exists orf_fresh, orf_fresh. cbn [orf_upto]. rewrite Nat.sub_0_r. split; [reflexivity|]. unfold orf_fresh, carry_ok. lia.
    - destruct IHi as (k1 & k2 & E & C1 & C2); [lia|]. cbn [orf_upto]. rewrite E. replace (N - i)%nat with (S (N - S i)) by lia.
      destruct (enc_next i (N - S i) k1 k2 (Z.of_nat i)) as (k1' & k2' & EN & D1 & D2); auto; try lia. rewrite EN. exists k1', k2'. cbn [snd]. split; [reflexivity|].
      replace (Z.of_nat (S i)) with (Z.of_nat i + 1) by lia. auto.
  Qed.
  Lemma enc_value i : (i < N)%nat -> orf_value_at e coded i = v i.
  Proof.
    intros Hi. destruct (enc_upto i ltac:(lia)) as (k1 & k2 & E & C1 & C2). unfold orf_value_at. rewrite E. replace (N - i)%nat with (S (N - S i)) by lia.
    destruct (enc_next i (N - S i) k1 k2 (Z.of_nat i)) as (k1' & k2' & EN & _); auto; try lia. now rewrite EN.
  Qed.
  Lemma enc_data : (32 <= length rest)%nat -> orf_data e coded N.
  Proof. intros L i Hi. destruct (enc_upto i ltac:(lia)) as (k1 & k2 & E & _). rewrite E. cbn [snd]. rewrite app_length. lia. Qed.
End Enc.

Lemma values_range s e h i : picture_within s e h 32768 -> (i < e * h)%nat -> - 65536 <= orf_values s e i < 65536.
Proof.
  intros HP Hi. assert (E0 : e <> 0%nat) by (intros ->; lia). assert (D : (i / e < h)%nat) by (apply Nat.div_lt_upper_bound; lia). pose proof (Nat.mod_upper_bound i e E0) as M.
  unfold orf_values. set (r := (i / e)%nat) in *. set (c := (i mod e)%nat) in *. pose proof (HP r c D M). unfold orf_pred. destruct (Nat.ltb_spec r 2), (Nat.ltb_spec c 2); [lia| | |].
  - pose proof (HP r (c - 2)%nat D ltac:(lia)). lia.
  - pose proof (HP (r - 2)%nat c ltac:(lia) M). lia.
  - pose proof (gradient_range (s r (c - 2)%nat) (s (r - 2)%nat c) (s (r - 2)%nat (c - 2)%nat) ltac:(apply HP; lia) ltac:(apply HP; lia) ltac:(apply HP; lia)). lia.
Qed.
Lemma orf_roundtrip w h bps header s tail : length header = orf_header bps -> Z.of_nat w < 2 ^ 31 - 2 -> picture_within s (paired w) h 32768 ->
  Forall is_byte tail -> (4 <= length tail)%nat ->
  orf_decode (header ++ stored (orf_encode s w h) tail) w h bps = Ok (samples (orf_out s w) w h).
Proof.
  intros Lh HW HP Ht Lt. destruct (stored_bits (orf_encode s w h) tail Lt Ht) as (rest & EB & LR). set (e := paired w) in *.
  assert (HV : forall i, (i < e * h)%nat -> - 65536 <= orf_values s e i < 65536) by (intros; eapply values_range; eauto).
  assert (EC : orf_encode s w h ++ rest = coded e (e * h) (orf_values s e) rest) by reflexivity. rewrite EC in EB.
  apply orf_any; auto.
  - unfold stored. apply Forall_app. split; auto. apply pack_bytes.
  - fold e. rewrite EB. apply enc_data; auto.
  - fold e. rewrite EB. intros r c Hr Hc. rewrite enc_value by (auto; nia). unfold orf_values.
    replace ((r * e + c) / e)%nat with r by (rewrite Nat.add_comm, Nat.div_add by lia; rewrite Nat.div_small by auto; reflexivity).
    replace ((r * e + c) mod e)%nat with c by (rewrite Nat.add_comm, Nat.mod_add by lia; rewrite Nat.mod_small by auto; reflexivity). lia.
Qed.
(** even widths lose nothing *)
Lemma orf_roundtrip_even w h bps header s tail : length header = orf_header bps -> Z.of_nat w < 2 ^ 31 - 2 -> (w mod 2 = 0)%nat -> picture_within s w h 32768 ->
  Forall is_byte tail -> (4 <= length tail)%nat ->
  orf_decode (header ++ stored (orf_encode s w h) tail) w h bps = Ok (samples s w h).
Proof.
  intros Lh HW Hev HP Ht Lt. assert (EP : paired w = w) by (unfold paired; pose proof (Nat.div_mod w 2 ltac:(lia)); lia).
  rewrite orf_roundtrip by (auto; rewrite EP; auto). f_equal. unfold samples. apply map_ext_in. intros i Hi. apply in_seq in Hi. unfold orf_out. rewrite EP.
  assert (W0 : (w <> 0)%nat) by (intros ->; lia). pose proof (Nat.mod_upper_bound i w W0). now replace (i mod w <? w)%nat with true by lia.
Qed.
Lemma orf_bright : exists s w h, picture_within s w h 65536 /\ (w mod 2 = 0)%nat /\
  orf_decode (repeat 0 7 ++ stored (orf_encode s w h) [0; 0; 0; 0]) w h 12 = Panic.
Proof.
  exists olympus_bright, 4%nat, 3%nat. split; [|split; [reflexivity|vm_compute; reflexivity]].
  intros r c Hr Hc. unfold olympus_bright. destruct (_ || _); lia.
Qed.
