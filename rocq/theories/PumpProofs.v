From Coq Require Import List ZArith Lia Bool.
From Coq Require Import ZifyBool ZifyNat.
From Verif Require Import Base BaseLemmas Pumps.
Import ListNotations.
Open Scope Z_scope.

(** A pump in state [p] that can deliver (at least) [k] more bits, namely the
    first bits of [l] (zero extended). *)
Record pump_refines {P} (o : pump_ops P) (rep : nat -> P -> list bool -> Prop) : Prop := {
  pr_peek : forall k p l n, rep k p l -> (n <= k)%nat -> (n <= 32)%nat ->
    exists p', peek_bits o n p = Ok (peekv n l, p') /\ rep k p' l /\
      forall m, (m <= n)%nat -> exists p'', consume_bits o m p' = Ok p'' /\ rep (k - m)%nat p'' (skipn m l)
}.
Arguments pr_peek {P o rep}.

Lemma pr_get {P} (o : pump_ops P) rep (R : pump_refines o rep) k p l n :
  rep k p l -> (n <= k)%nat -> (n <= 32)%nat ->
  exists p', get_bits o n p = Ok (peekv n l, p') /\ rep (k - n)%nat p' (skipn n l).
Proof.
  intros. unfold get_bits. destruct (Nat.eqb_spec n 0).
  - subst. exists p. rewrite Nat.sub_0_r. auto.
  - destruct (pr_peek R _ _ _ _ H H0 H1) as (p1 & E1 & R1 & C).
    rewrite E1. simpl. destruct (C n) as (p2 & E2 & R2); auto. rewrite E2. simpl. eauto.
Qed.

Lemma shl64_ok a n b : (n < 64)%nat -> wrap_u64 (a * 2 ^ Z.of_nat n) = b -> shl64 a n = Ok b.
Proof.
  intros. unfold shl64. destruct (Nat.ltb_spec n 64); try lia.
  rewrite Z.shiftl_mul_pow2 by lia. congruence.
Qed.

Lemma shl64_exact a n m : 0 <= a < 2 ^ Z.of_nat m -> (n + m <= 64)%nat -> (n < 64)%nat ->
  shl64 a n = Ok (a * 2 ^ Z.of_nat n).
Proof.
  intros. apply shl64_ok; auto. unfold wrap_u64. apply Z.mod_small.
  pose proof (pow2_pos n). split; [nia|].
  apply Z.lt_le_trans with (2 ^ Z.of_nat m * 2 ^ Z.of_nat n); [nia|].
  rewrite <- pow2_add. apply (pow2_le (m + n) 64). lia.
Qed.

Lemma shr64_ok a n : (n < 64)%nat -> shr64 a n = Ok (a / 2 ^ Z.of_nat n).
Proof.
  intros. unfold shr64. destruct (Nat.ltb_spec n 64); try lia.
  rewrite Z.shiftr_div_pow2 by lia. auto.
Qed.

Lemma wrap_u32_small v n : (n <= 32)%nat -> 0 <= v < 2 ^ Z.of_nat n -> wrap_u32 v = v.
Proof.
  intros. unfold wrap_u32. apply Z.mod_small. split; [lia|].
  apply Z.lt_le_trans with (2 ^ Z.of_nat n); [lia|]. apply (pow2_le n 32). lia.
Qed.

(** The common tail of the MSB style peeks. *)
Lemma msb_extract bits nbits num rest :
  0 <= bits < 2 ^ Z.of_nat nbits -> (num <= nbits)%nat -> (num <= 32)%nat -> (nbits < 64)%nat ->
  (do s <- usub nbits num; do v <- shr64 bits s; Ok (wrap_u32 v)) =
  Ok (peekv num (bits_of nbits bits ++ rest)).
Proof.
  intros Hb Hn H32 H64. rewrite usub_ok by auto. cbn [bind].
  rewrite shr64_ok by lia. cbn [bind]. f_equal.
  pose proof (pow2_pos num). pose proof (pow2_pos (nbits - num)).
  assert (bits / 2 ^ Z.of_nat (nbits - num) < 2 ^ Z.of_nat num).
  { apply Z.div_lt_upper_bound; try lia. rewrite <- pow2_add.
    replace (nbits - num + num)%nat with nbits by lia. lia. }
  assert (0 <= bits / 2 ^ Z.of_nat (nbits - num)) by (apply Z.div_pos; lia).
  rewrite wrap_u32_small with (n := num) by lia.
  replace (bits_of nbits bits) with
    (bits_of num (bits / 2 ^ Z.of_nat (nbits - num)) ++ bits_of (nbits - num) bits).
  2:{ rewrite <- bits_of_app. f_equal. lia. }
  rewrite <- app_assoc. rewrite peekv_bits_of; auto.
Qed.

Lemma msb_drop bits nbits num :
  0 <= bits < 2 ^ Z.of_nat nbits -> (num <= nbits)%nat -> (nbits < 64)%nat ->
  exists m, shl64 1 (nbits - num) = Ok m /\
    0 <= Z.land bits (m - 1) < 2 ^ Z.of_nat (nbits - num) /\
    bits_of (nbits - num) (Z.land bits (m - 1)) = skipn num (bits_of nbits bits).
Proof.
  intros Hb Hn H64. exists (2 ^ Z.of_nat (nbits - num)).
  split. { rewrite shl64_exact with (m := 1%nat); try lia. f_equal. lia. }
  rewrite land_ones'. split. { apply Z.mod_pos_bound, pow2_pos. }
  rewrite bits_of_mod.
  replace (bits_of nbits bits) with
    (bits_of num (bits / 2 ^ Z.of_nat (nbits - num)) ++ bits_of (nbits - num) bits).
  2:{ rewrite <- bits_of_app. f_equal. lia. }
  rewrite skipn_app, bits_of_length, skipn_all2, Nat.sub_diag by (rewrite bits_of_length; lia).
  auto.
Qed.

Lemma append_bits bits nbits cnt v :
  0 <= bits < 2 ^ Z.of_nat nbits -> 0 <= v < 2 ^ Z.of_nat cnt -> (nbits + cnt < 64)%nat ->
  exists w, shl64 bits cnt = Ok w /\
    0 <= Z.lor w v < 2 ^ Z.of_nat (nbits + cnt) /\
    bits_of (nbits + cnt) (Z.lor w v) = bits_of nbits bits ++ bits_of cnt v.
Proof.
  intros Hb Hv H. exists (bits * 2 ^ Z.of_nat cnt).
  split. { eapply shl64_exact; eauto; lia. }
  rewrite lor_add_disjoint by auto.
  pose proof (pow2_pos cnt).
  split. { rewrite pow2_add. nia. }
  rewrite bits_of_app. f_equal.
  - f_equal. rewrite Z.div_add_l by lia. rewrite Z.div_small by lia. lia.
  - rewrite <- (bits_of_mod cnt (_ + v)). rewrite Z.add_comm, Z_mod_plus_full, bits_of_mod. auto.
Qed.

Lemma be32_bits a b c d :
  is_byte a -> is_byte b -> is_byte c -> is_byte d ->
  0 <= be32 a b c d < 2 ^ 32 /\ bits_of 32 (be32 a b c d) = byte_bits [a; b; c; d].
Proof.
  unfold is_byte, be32. intros. split; [lia|].
  rewrite (bits_of_app 8 24), (bits_of_app 8 16), (bits_of_app 8 8).
  unfold byte_bits; cbn [flat_map]. rewrite app_nil_r.
  set (v := ((a * 256 + b) * 256 + c) * 256 + d).
  assert (E1 : v / 2 ^ Z.of_nat 24 = a) by (subst v; change (2 ^ Z.of_nat 24) with 16777216; symmetry; apply Z.div_unique with (r := b*65536+c*256+d); lia).
  assert (E2 : v / 2 ^ Z.of_nat 16 = a * 256 + b) by (subst v; change (2 ^ Z.of_nat 16) with 65536; symmetry; apply Z.div_unique with (r := c*256+d); lia).
  assert (E3 : v / 2 ^ Z.of_nat 8 = (a * 256 + b) * 256 + c) by (subst v; change (2 ^ Z.of_nat 8) with 256; symmetry; apply Z.div_unique with (r := d); lia).
  rewrite E1, E2, E3.
  rewrite <- (bits_of_mod 8 (a * 256 + b)), <- (bits_of_mod 8 (_ * 256 + c)), <- (bits_of_mod 8 v).
  change (2 ^ Z.of_nat 8) with 256.
  replace ((a * 256 + b) mod 256) with b by (apply Z.mod_unique with (q := a); lia).
  replace (((a * 256 + b) * 256 + c) mod 256) with c by (apply Z.mod_unique with (q := a * 256 + b); lia).
  subst v.
  replace ((((a * 256 + b) * 256 + c) * 256 + d) mod 256) with d
    by (apply Z.mod_unique with (q := (a * 256 + b) * 256 + c); lia).
  auto.
Qed.

Lemma byte_bits_1 a : byte_bits [a] = bits_of 8 a.
Proof. unfold byte_bits. cbn [flat_map]. now rewrite app_nil_r. Qed.

Lemma lor_shl8 v n x :
  0 <= v < 2 ^ Z.of_nat n -> (n + 8 <= 32)%nat -> is_byte x ->
  0 <= Z.lor (wrap_u32 (Z.shiftl v 8)) x < 2 ^ Z.of_nat (n + 8) /\
  bits_of (n + 8) (Z.lor (wrap_u32 (Z.shiftl v 8)) x) = bits_of n v ++ bits_of 8 x.
Proof.
  unfold is_byte. intros.
  destruct (append_bits v n 8 x) as (w & E & B & D); auto; try (simpl; lia).
  assert (HH : w = wrap_u32 (Z.shiftl v 8)).
  { assert (Ew : w = wrap_u64 (Z.shiftl v 8)).
    { unfold shl64 in E. change (8 <? 64)%nat with true in E. cbv iota in E.
      injection E as E. rewrite <- E. reflexivity. }
    rewrite Ew. rewrite Z.shiftl_mul_pow2 by lia.
    assert (v * 2 ^ 8 < 2 ^ 32).
    { apply Z.lt_le_trans with (2 ^ Z.of_nat (n + 8)); [|apply (pow2_le (n + 8) 32); lia].
      rewrite pow2_add. change (2 ^ Z.of_nat 8) with (2 ^ 8). nia. }
    unfold wrap_u64, wrap_u32. rewrite !Z.mod_small; lia. }
  subst w. auto.
Qed.

Lemma slow_fold_aux l : forall v n,
  Forall is_byte l -> 0 <= v < 2 ^ Z.of_nat n -> (n + 8 * length l <= 32)%nat ->
  exists w, fold_left (fun '(bits, cnt) x => (Z.lor (wrap_u32 (Z.shiftl bits 8)) x, (cnt + 8)%nat)) l (v, n)
      = (w, (n + 8 * length l)%nat) /\
    0 <= w < 2 ^ Z.of_nat (n + 8 * length l) /\
    bits_of (n + 8 * length l) w = bits_of n v ++ byte_bits l.
Proof.
  induction l as [|x l IH]; intros v n HF Hv Hn.
  - exists v. cbn [fold_left length byte_bits flat_map]. rewrite app_nil_r.
    rewrite Nat.mul_0_r, Nat.add_0_r. auto.
  - inversion HF; subst. cbn [fold_left]. cbn [length] in Hn.
    destruct (lor_shl8 v n x) as [B D]; auto; try lia.
    destruct (IH (Z.lor (wrap_u32 (Z.shiftl v 8)) x) (n + 8)%nat) as (w & E & B' & D'); auto; try lia.
    exists w. cbn [length]. replace (n + 8 * S (length l))%nat with (n + 8 + 8 * length l)%nat by lia.
    rewrite E. rewrite D', D, <- app_assoc. auto.
Qed.

Lemma slow_fold_spec l : Forall is_byte l -> (length l < 4)%nat ->
  exists w, slow_fold l = (w, (8 * length l)%nat) /\ 0 <= w < 2 ^ Z.of_nat (8 * length l) /\
    bits_of (8 * length l) w = byte_bits l.
Proof. intros. apply (slow_fold_aux l 0 0); auto; simpl; try lia. Qed.

Lemma refill_be_spec rest : Forall is_byte rest -> rest <> [] ->
  exists v cnt rest', refill_be rest = Ok (v, cnt, rest') /\
    0 <= v < 2 ^ Z.of_nat cnt /\ (cnt <= 32)%nat /\ (cnt = 32%nat \/ rest' = []) /\
    bits_of cnt v ++ byte_bits rest' = byte_bits rest /\ Forall is_byte rest'.
Proof.
  intros HF HN.
  assert (Hs : forall l, Forall is_byte l -> (0 < length l < 4)%nat ->
     exists v cnt rest', (let '(v, n) := slow_fold l in Ok (v, n, [])) = Ok (v, cnt, rest') /\
     0 <= v < 2 ^ Z.of_nat cnt /\ (cnt <= 32)%nat /\ (cnt = 32%nat \/ rest' = []) /\
     bits_of cnt v ++ byte_bits rest' = byte_bits l /\ Forall is_byte rest').
  { intros l Hl Hlen. destruct (slow_fold_spec l) as (w & E & B & D); auto; try lia.
    rewrite E. exists w, (8 * length l)%nat, []. rewrite D. cbn [byte_bits flat_map].
    rewrite app_nil_r. repeat split; auto; try lia. }
  destruct rest as [|a [|b [|c [|d t]]]]; try congruence; try (apply Hs; auto; simpl; lia).
  inversion HF as [|? ? Ha F1]; inversion F1 as [|? ? Hb F2]; inversion F2 as [|? ? Hc F3];
    inversion F3 as [|? ? Hd F4]; subst.
  destruct (be32_bits a b c d) as [B D]; auto.
  exists (be32 a b c d), 32%nat, t. cbn [refill_be]. rewrite D. repeat split; auto; try lia.
Qed.

(** BitPumpMSB *)
Definition msb_den (p : wpump) : list bool := bits_of (w_nbits p) (w_bits p) ++ byte_bits (w_rest p).

Definition msb_rep (k : nat) (p : wpump) (l : list bool) : Prop :=
  0 <= w_bits p < 2 ^ Z.of_nat (w_nbits p) /\ (w_nbits p < 64)%nat /\
  Forall is_byte (w_rest p) /\ (k <= length (msb_den p))%nat /\ l = msb_den p.

Lemma skipn_app_le {A} n (a b : list A) : (n <= length a)%nat -> skipn n (a ++ b) = skipn n a ++ b.
Proof. intros. rewrite skipn_app. replace (n - length a)%nat with 0%nat by lia. auto. Qed.

Lemma msb_refines : pump_refines msb_ops msb_rep.
Proof.
  constructor. intros k p l n (HB & H64 & HF & HK & ->) Hnk H32.
  assert (exists p1,
    (if (w_nbits p <? n)%nat then
       do (inb, cnt, rest) <- refill_be (w_rest p);
       do hi <- shl64 (w_bits p) cnt;
       Ok (mk_wpump rest (Z.lor hi inb) (w_nbits p + cnt) (w_pos p))
     else Ok p) = Ok p1 /\ (n <= w_nbits p1)%nat /\
    0 <= w_bits p1 < 2 ^ Z.of_nat (w_nbits p1) /\ (w_nbits p1 < 64)%nat /\
    Forall is_byte (w_rest p1) /\ msb_den p1 = msb_den p) as (p1 & E1 & HN & HB1 & H641 & HF1 & HD).
  { destruct (Nat.ltb_spec (w_nbits p) n).
    - assert (w_rest p <> []).
      { intros Er. unfold msb_den in HK. rewrite Er in HK. rewrite app_length, bits_of_length in HK.
        simpl in HK. lia. }
      destruct (refill_be_spec (w_rest p)) as (v & cnt & rest' & E & Bv & Hc & Hor & Hd & Fr); auto.
      rewrite E. cbn [bind].
      destruct (append_bits (w_bits p) (w_nbits p) cnt v) as (w & Ew & Bw & Dw); auto; try lia.
      rewrite Ew. cbn [bind]. eexists; split; [reflexivity|]. cbn [w_nbits w_bits w_rest].
      assert (HDD : msb_den (mk_wpump rest' (Z.lor w v) (w_nbits p + cnt) (w_pos p)) = msb_den p).
      { unfold msb_den. cbn [w_nbits w_bits w_rest]. rewrite Dw, <- app_assoc, Hd. auto. }
      split.
      { destruct Hor; [lia|]. subst rest'.
        rewrite <- HDD in HK. unfold msb_den in HK. cbn [w_nbits w_bits w_rest byte_bits flat_map] in HK.
        rewrite app_nil_r, bits_of_length in HK. lia. }
      repeat split; auto; try lia.
    - exists p. repeat split; auto; try lia. }
  assert (HEX : peek_bits msb_ops n p = Ok (peekv n (msb_den p), p1)).
  { cbn [peek_bits msb_ops]. unfold msb_peek. rewrite E1. cbn [bind].
    pose proof (msb_extract (w_bits p1) (w_nbits p1) n (byte_bits (w_rest p1))) as X.
    rewrite <- HD. unfold msb_den.
    specialize (X HB1 HN H32 H641).
    destruct (usub (w_nbits p1) n); simpl in *; try discriminate.
    destruct (shr64 (w_bits p1) a); simpl in *; try discriminate. congruence. }
  exists p1. split; auto. split.
  { red. rewrite HD. auto 6. }
  intros m Hm. cbn [consume_bits msb_ops]. unfold msb_consume.
  rewrite usub_ok by lia. cbn [bind].
  destruct (msb_drop (w_bits p1) (w_nbits p1) m) as (q & Eq & Bq & Dq); auto; try lia.
  rewrite Eq. cbn [bind]. eexists; split; [reflexivity|].
  assert (HDD : msb_den (mk_wpump (w_rest p1) (Z.land (w_bits p1) (q - 1)) (w_nbits p1 - m) (w_pos p1)) = skipn m (msb_den p)).
  { unfold msb_den at 1. cbn [w_rest w_bits w_nbits]. rewrite Dq. rewrite <- HD. unfold msb_den.
    rewrite skipn_app_le; auto. rewrite bits_of_length. lia. }
  red. rewrite HDD. cbn [w_rest w_bits w_nbits]. rewrite skipn_length.
  repeat split; auto; try lia.
Qed.

Lemma msb_new_rep src k : Forall is_byte src -> (k <= 8 * length src)%nat ->
  msb_rep k (wpump_new src) (byte_bits src).
Proof.
  intros. unfold msb_rep, msb_den, wpump_new. cbn [w_rest w_bits w_nbits bits_of app].
  rewrite byte_bits_length. simpl. repeat split; auto; lia.
Qed.

(** BitPumpMSB32: the bytes of each 4-byte group are taken in reverse. *)
Fixpoint swap32 (bs : list Z) : list Z :=
  match bs with
  | a :: b :: c :: d :: t => d :: c :: b :: a :: swap32 t
  | _ => []
  end.

Definition msb32_den (p : wpump) : list bool := bits_of (w_nbits p) (w_bits p) ++ byte_bits (swap32 (w_rest p)).

Definition msb32_rep (k : nat) (p : wpump) (l : list bool) : Prop :=
  0 <= w_bits p < 2 ^ Z.of_nat (w_nbits p) /\ (w_nbits p < 64)%nat /\
  Forall is_byte (w_rest p) /\ (exists q, length (w_rest p) = 4 * q)%nat /\
  (k <= length (msb32_den p))%nat /\ l = msb32_den p.

Lemma msb32_refines : pump_refines msb32_ops msb32_rep.
Proof.
  constructor. intros k p l n (HB & H64 & HF & (q4 & H4) & HK & ->) Hnk H32.
  assert (exists p1,
    (if (w_nbits p <? n)%nat then
       do (inb, cnt, rest) <- refill_le (w_rest p);
       do hi <- shl64 (w_bits p) 32;
       Ok (mk_wpump rest (Z.lor hi inb) (w_nbits p + cnt) (w_pos p + cnt / 8))
     else Ok p) = Ok p1 /\ (n <= w_nbits p1)%nat /\
    0 <= w_bits p1 < 2 ^ Z.of_nat (w_nbits p1) /\ (w_nbits p1 < 64)%nat /\
    Forall is_byte (w_rest p1) /\ (exists q, length (w_rest p1) = 4 * q)%nat /\ msb32_den p1 = msb32_den p)
    as (p1 & E1 & HN & HB1 & H641 & HF1 & H41 & HD).
  { destruct (Nat.ltb_spec (w_nbits p) n).
    - destruct (w_rest p) as [|a [|b [|c [|d t]]]] eqn:Er; try (simpl in H4; lia).
      { unfold msb32_den in HK. rewrite Er in HK. rewrite app_length, bits_of_length in HK.
        simpl in HK. lia. }
      inversion HF as [|? ? Ha F1]; inversion F1 as [|? ? Hb F2]; inversion F2 as [|? ? Hc F3];
        inversion F3 as [|? ? Hd F4]; subst.
      destruct (be32_bits d c b a) as [B D]; auto.
      cbn [refill_le]. cbn [bind].
      destruct (append_bits (w_bits p) (w_nbits p) 32 (be32 d c b a)) as (w & Ew & Bw & Dw); auto; try lia.
      rewrite Ew. cbn [bind]. eexists; split; [reflexivity|]. cbn [w_nbits w_bits w_rest].
      split; [lia|]. split; [auto|]. split; [lia|]. split; [auto|]. split.
      + exists (q4 - 1)%nat. simpl in H4. lia.
      + unfold msb32_den. cbn [w_nbits w_bits w_rest]. unfold le32. rewrite Dw, Er. cbn [swap32].
        rewrite D, <- app_assoc. f_equal.
    - exists p. repeat split; eauto; try lia. }
  assert (HEX : peek_bits msb32_ops n p = Ok (peekv n (msb32_den p), p1)).
  { cbn [peek_bits msb32_ops]. unfold msb32_peek. rewrite E1. cbn [bind].
    pose proof (msb_extract (w_bits p1) (w_nbits p1) n (byte_bits (swap32 (w_rest p1)))) as X.
    rewrite <- HD. unfold msb32_den.
    specialize (X HB1 HN H32 H641).
    destruct (usub (w_nbits p1) n); simpl in *; try discriminate.
    destruct (shr64 (w_bits p1) a); simpl in *; try discriminate. congruence. }
  exists p1. split; auto. split.
  { red. rewrite HD. auto 8. }
  intros m Hm. cbn [consume_bits msb32_ops]. unfold msb_consume.
  rewrite usub_ok by lia. cbn [bind].
  destruct (msb_drop (w_bits p1) (w_nbits p1) m) as (q & Eq & Bq & Dq); auto; try lia.
  rewrite Eq. cbn [bind]. eexists; split; [reflexivity|].
  assert (HDD : msb32_den (mk_wpump (w_rest p1) (Z.land (w_bits p1) (q - 1)) (w_nbits p1 - m) (w_pos p1)) = skipn m (msb32_den p)).
  { unfold msb32_den at 1. cbn [w_rest w_bits w_nbits]. rewrite Dq. rewrite <- HD. unfold msb32_den.
    rewrite skipn_app_le; auto. rewrite bits_of_length. lia. }
  red. rewrite HDD. cbn [w_rest w_bits w_nbits]. rewrite skipn_length.
  repeat split; auto; try lia.
Qed.

(** MockPump *)
Definition mock_rep (k : nat) (p : mpump) (l : list bool) : Prop :=
  0 <= m_bits p < 2 ^ Z.of_nat (m_nbits p) /\ (k <= m_nbits p < 64)%nat /\
  l = bits_of (m_nbits p) (m_bits p).

Lemma mock_refines : pump_refines mock_ops mock_rep.
Proof.
  constructor. intros k p l n (HB & H64 & ->) Hnk H32.
  assert (HEX : peek_bits mock_ops n p = Ok (peekv n (bits_of (m_nbits p) (m_bits p)), p)).
  { cbn [peek_bits mock_ops]. unfold mock_peek.
    pose proof (msb_extract (m_bits p) (m_nbits p) n []) as X.
    rewrite app_nil_r in X. specialize (X HB).
    destruct (usub (m_nbits p) n); simpl in *; [|discriminate X; lia..].
    destruct (shr64 (m_bits p) a); simpl in *; [|discriminate X; lia..].
    assert (Ok (wrap_u32 a0) = Ok (peekv n (bits_of (m_nbits p) (m_bits p)))) by (apply X; lia).
    congruence. }
  exists p. split; auto. split. { red; auto. }
  intros m Hm. cbn [consume_bits mock_ops]. unfold mock_consume.
  rewrite usub_ok by lia. cbn [bind].
  destruct (msb_drop (m_bits p) (m_nbits p) m) as (q & Eq & Bq & Dq); auto; try lia.
  rewrite Eq. cbn [bind]. eexists; split; [reflexivity|].
  red. cbn [m_bits m_nbits]. rewrite Dq. repeat split; auto; lia.
Qed.

(** BitPumpJPEG *)
Definition jpeg_den (p : jpump) : list bool :=
  bits_of (j_nbits p) (j_bits p) ++
  (if j_fin p then [] else byte_bits (unstuff (skipn (j_pos p) (j_buf p)))).

Definition jpeg_inv (p : jpump) : Prop :=
  0 <= j_bits p < 2 ^ Z.of_nat (j_nbits p) /\ (j_nbits p < 64)%nat /\
  Forall is_byte (j_buf p) /\ (j_fin p = false -> no_lone_ff (skipn (j_pos p) (j_buf p))).

Definition same_bits (l l' : list bool) : Prop := forall i, nth i l false = nth i l' false.

Definition jpeg_rep (k : nat) (p : jpump) (l : list bool) : Prop :=
  jpeg_inv p /\ same_bits (jpeg_den p) l.

Lemma same_bits_refl l : same_bits l l. Proof. red; auto. Qed.
Lemma same_bits_trans a b c : same_bits a b -> same_bits b c -> same_bits a c.
Proof. unfold same_bits; intros; congruence. Qed.
Lemma same_bits_sym a b : same_bits a b -> same_bits b a.
Proof. unfold same_bits; intros; congruence. Qed.
Lemma same_bits_skipn a b n : same_bits a b -> same_bits (skipn n a) (skipn n b).
Proof. unfold same_bits; intros. rewrite !nth_skipn. auto. Qed.
Lemma same_bits_zeros a n : same_bits (a ++ repeat false n) a.
Proof.
  intros i. destruct (Nat.lt_ge_cases i (length a)).
  - now rewrite app_nth1.
  - rewrite app_nth2 by auto. rewrite (nth_overflow a) by auto. apply nth_repeat.
Qed.

Lemma skipn_cons_get {A} (l : list A) i a :
  nth_error l i = Some a -> skipn i l = a :: skipn (S i) l.
Proof.
  revert i. induction l; destruct i; simpl; intros; try discriminate.
  - inversion H; auto. - apply IHl in H. rewrite H. auto.
Qed.

Lemma Forall_nth_error {A} (P : A -> Prop) l i a : Forall P l -> nth_error l i = Some a -> P a.
Proof. intros. rewrite Forall_forall in H. apply H. eapply nth_error_In; eauto. Qed.

Lemma jpeg_byte_step p : jpeg_inv p -> j_fin p = false -> (j_nbits p + 8 < 64)%nat ->
  exists p', jpeg_refill_byte p = Ok p' /\ jpeg_inv p' /\ same_bits (jpeg_den p') (jpeg_den p) /\
    j_nbits p' = (j_nbits p + 8)%nat.
Proof.
  intros (HB & H64 & HF & HL) Hfin Hlt. specialize (HL Hfin).
  unfold jpeg_refill_byte.
  assert (forall byte pos fin, is_byte byte ->
    (fin = false -> no_lone_ff (skipn (pos + 1) (j_buf p)) /\
       unstuff (skipn (j_pos p) (j_buf p)) = byte :: unstuff (skipn (pos + 1) (j_buf p))) ->
    (fin = true -> byte = 0 /\ unstuff (skipn (j_pos p) (j_buf p)) = []) ->
    exists p', (do sh <- shl64 (j_bits p) 8;
       Ok (mk_jpump (j_buf p) (pos + 1) (Z.lor sh byte) (j_nbits p + 8) fin)) = Ok p' /\
     jpeg_inv p' /\ same_bits (jpeg_den p') (jpeg_den p) /\ j_nbits p' = (j_nbits p + 8)%nat) as K.
  { intros byte pos fin Hb Hff Htt.
    destruct (append_bits (j_bits p) (j_nbits p) 8 byte) as (w & Ew & Bw & Dw); auto.
    rewrite Ew. cbn [bind]. eexists; split; [reflexivity|].
    unfold jpeg_inv, jpeg_den. cbn [j_bits j_nbits j_buf j_fin j_pos].
    rewrite Dw, Hfin. destruct fin.
    - destruct Htt as [-> Hu]; auto. rewrite Hu. cbn [byte_bits flat_map]. rewrite !app_nil_r.
      rewrite bits_of_0. split; [|split; auto using same_bits_zeros].
      repeat split; auto; try lia; try discriminate.
    - destruct Hff as [Hn Hu]; auto. rewrite Hu. rewrite <- app_assoc.
      split; [|split; auto using same_bits_refl]. repeat split; auto; lia. }
  destruct (Nat.leb_spec (length (j_buf p)) (j_pos p)).
  - cbn [bind]. apply K; [red; lia|intros X; discriminate X|]. intros _. split; [auto|].
    rewrite skipn_all2 by lia. auto.
  - unfold get. destruct (nth_error (j_buf p) (j_pos p)) as [b|] eqn:Eb.
    2:{ apply nth_error_None in Eb. lia. }
    cbn [bind]. pose proof (skipn_cons_get _ _ _ Eb) as ES.
    pose proof (Forall_nth_error _ _ _ _ HF Eb) as Bb.
    rewrite ES in HL. rewrite ES in K.
    cbn [no_lone_ff] in HL. destruct (Z.eqb_spec b 255); cbn [negb].
    + subst b. cbn [unstuff] in K. change (255 =? 255) with true in K. cbv iota in K.
      destruct (nth_error (j_buf p) (j_pos p + 1)) as [f|] eqn:Ef.
      2:{ rewrite Nat.add_1_r in Ef. apply nth_error_None in Ef.
          rewrite skipn_all2 in HL by lia. simpl in HL. destruct HL. }
      cbn [bind]. rewrite Nat.add_1_r in Ef. pose proof (skipn_cons_get _ _ _ Ef) as ES2.
      rewrite ES2 in *.
      destruct (Z.eqb_spec f 0).
      * subst f. apply K; auto; try discriminate. intros _.
        replace (j_pos p + 1 + 1)%nat with (S (S (j_pos p))) by lia. auto.
      * cbn [bind]. apply K; auto; [red; lia|discriminate|]. intros _. destruct f; auto; congruence.
    + cbn [bind]. apply K; auto; try discriminate. intros _.
      rewrite Nat.add_1_r. split; auto. simpl. destruct (Z.eqb_spec b 255); congruence.
Qed.

Lemma jpeg_slow_spec n : forall p, jpeg_inv p -> (j_nbits p + 8 * n < 64)%nat ->
  exists p', jpeg_refill_slow n p = Ok p' /\ jpeg_inv p' /\ same_bits (jpeg_den p') (jpeg_den p) /\
    (j_fin p' = true \/ j_nbits p' = (j_nbits p + 8 * n)%nat) /\ (j_nbits p' <= j_nbits p + 8 * n)%nat.
Proof.
  induction n; intros p HI Hn; cbn [jpeg_refill_slow].
  - exists p. split; auto. split; auto. split; [apply same_bits_refl|]. split; [right|]; lia.
  - destruct (j_fin p) eqn:Ef.
    + exists p. split; auto. split; auto. split; [apply same_bits_refl|]. split; [auto|lia].
    + destruct (jpeg_byte_step p) as (p1 & E1 & I1 & S1 & N1); auto; try lia.
      rewrite E1. cbn [bind]. destruct (IHn p1) as (p2 & E2 & I2 & S2 & F2 & L2); auto; try lia.
      exists p2. split; auto. split; auto. split; [eapply same_bits_trans; eauto|].
      split; [destruct F2; [auto|right; lia]|lia].
Qed.

Lemma unstuff_cons b t : b <> 255 -> unstuff (b :: t) = b :: unstuff t.
Proof. intros. simpl. destruct (Z.eqb_spec b 255); congruence. Qed.
Lemma no_lone_cons b t : b <> 255 -> no_lone_ff (b :: t) = no_lone_ff t.
Proof. intros. simpl. destruct (Z.eqb_spec b 255); congruence. Qed.

Lemma jpeg_refill_spec n p : jpeg_inv p -> (n <= 32)%nat ->
  exists p', jpeg_refill n p = Ok p' /\ jpeg_inv p' /\ same_bits (jpeg_den p') (jpeg_den p) /\
    (j_fin p' = true \/ n <= j_nbits p')%nat.
Proof.
  intros HI Hn. unfold jpeg_refill.
  destruct (Nat.ltb_spec (j_nbits p) n); cbn [andb].
  2:{ exists p. split; auto. split; auto. split; auto using same_bits_refl. }
  destruct (j_fin p) eqn:Ef; cbn [negb].
  { exists p. split; auto. split; auto. split; auto using same_bits_refl. }
  assert (SLOW : exists p', jpeg_refill_slow 4 p = Ok p' /\ jpeg_inv p' /\ same_bits (jpeg_den p') (jpeg_den p) /\
    (j_fin p' = true \/ n <= j_nbits p')%nat).
  { destruct (jpeg_slow_spec 4 p) as (p' & E & I & S & F & L); auto; try lia.
    exists p'. split; auto. split; auto. split; auto. destruct F; [auto|right; lia]. }
  unfold jpeg_fast.
  destruct (Nat.leb_spec 4 (length (j_buf p))); cbn [andb negb bind]; auto.
  destruct (Nat.ltb_spec (j_pos p) (length (j_buf p) - 4)); cbn [andb negb bind]; auto.
  unfold get. rewrite Nat.add_0_r.
  destruct (nth_error (j_buf p) (j_pos p)) as [a|] eqn:Ea; [|apply nth_error_None in Ea; lia].
  destruct (nth_error (j_buf p) (j_pos p + 1)) as [b|] eqn:Eb; [|apply nth_error_None in Eb; lia].
  destruct (nth_error (j_buf p) (j_pos p + 2)) as [c|] eqn:Ec; [|apply nth_error_None in Ec; lia].
  destruct (nth_error (j_buf p) (j_pos p + 3)) as [d|] eqn:Ed; [|apply nth_error_None in Ed; lia].
  cbn [bind].
  destruct (Z.eqb_spec a 255); cbn [negb andb]; auto.
  destruct (Z.eqb_spec b 255); cbn [negb andb]; auto.
  destruct (Z.eqb_spec c 255); cbn [negb andb]; auto.
  destruct (Z.eqb_spec d 255); cbn [negb andb]; auto.
  clear SLOW. destruct HI as (HB & H64 & HF & HL).
  pose proof (Forall_nth_error _ _ _ _ HF Ea). pose proof (Forall_nth_error _ _ _ _ HF Eb).
  pose proof (Forall_nth_error _ _ _ _ HF Ec). pose proof (Forall_nth_error _ _ _ _ HF Ed).
  destruct (be32_bits a b c d) as [Bv Dv]; auto.
  destruct (append_bits (j_bits p) (j_nbits p) 32 (be32 a b c d)) as (w & Ew & Bw & Dw); auto; try lia.
  rewrite Ew. cbn [bind].
  rewrite Nat.add_1_r in Eb. replace (j_pos p + 2)%nat with (S (S (j_pos p))) in Ec by lia.
  replace (j_pos p + 3)%nat with (S (S (S (j_pos p)))) in Ed by lia.
  apply skipn_cons_get in Ea, Eb, Ec, Ed.
  eexists; split; [reflexivity|]. unfold jpeg_inv, jpeg_den. cbn [j_bits j_nbits j_buf j_fin j_pos].
  replace (j_pos p + 4)%nat with (S (S (S (S (j_pos p))))) by lia.
  specialize (HL Ef). rewrite Ea, Eb, Ec, Ed in HL. rewrite !no_lone_cons in HL by auto.
  split; [repeat split; auto; try lia|]. split; [|right; lia].
  rewrite Ef, Ea, Eb, Ec, Ed. rewrite !unstuff_cons by auto.
  rewrite Dw, Dv, <- app_assoc, <- byte_bits_app. apply same_bits_refl.
Qed.

Lemma jpeg_refines : pump_refines jpeg_ops jpeg_rep.
Proof.
  constructor. intros k p l n (HI & HS) _ H32.
  cbn [peek_bits consume_bits jpeg_ops]. unfold jpeg_peek.
  destruct (jpeg_refill_spec n p) as (p1 & E1 & I1 & S1 & F1); auto.
  rewrite E1. cbn [bind].
  assert (exists p2,
   (if (j_nbits p1 <? n)%nat && j_fin p1 then
       do hi <- shl64 (j_bits p1) 32;
       Ok (mk_jpump (j_buf p1) (j_pos p1) hi (j_nbits p1 + 32) (j_fin p1))
     else Ok p1) = Ok p2 /\ jpeg_inv p2 /\ same_bits (jpeg_den p2) (jpeg_den p1) /\ (n <= j_nbits p2)%nat)
   as (p2 & E2 & I2 & S2 & N2).
  { destruct (Nat.ltb_spec (j_nbits p1) n); cbn [andb].
    2:{ exists p1. auto using same_bits_refl. }
    destruct F1 as [F1|F1]; [|lia]. rewrite F1.
    destruct I1 as (HB & H64 & HF & HL).
    destruct (append_bits (j_bits p1) (j_nbits p1) 32 0) as (w & Ew & Bw & Dw); auto; try (simpl; lia).
    rewrite Z.lor_0_r in *. rewrite Ew. cbn [bind]. eexists; split; [reflexivity|].
    unfold jpeg_inv, jpeg_den. cbn [j_bits j_nbits j_buf j_fin j_pos]. rewrite Dw, F1, !app_nil_r, bits_of_0.
    split; [repeat split; auto; try lia; discriminate|]. split; [apply same_bits_zeros|lia]. }
  rewrite E2. cbn [bind].
  exists p2. assert (HS2 : same_bits (jpeg_den p2) l) by (eauto using same_bits_trans).
  split; [|split].
  - destruct I2 as (HB & H64 & HF & HL).
    pose proof (msb_extract (j_bits p2) (j_nbits p2) n
      (if j_fin p2 then [] else byte_bits (unstuff (skipn (j_pos p2) (j_buf p2)))) HB N2 H32 H64) as X.
    destruct (usub (j_nbits p2) n); cbn [bind] in *; try discriminate.
    destruct (shr64 (j_bits p2) a); cbn [bind] in *; try discriminate.
    inversion X as [XX]. f_equal. f_equal. rewrite XX. apply peekv_ext. apply HS2.
  - red; auto.
  - intros m Hm. unfold jpeg_consume. rewrite usub_ok by lia. cbn [bind].
    destruct I2 as (HB & H64 & HF & HL).
    destruct (msb_drop (j_bits p2) (j_nbits p2) m) as (q & Eq & Bq & Dq); auto; try lia.
    rewrite Eq. cbn [bind]. eexists; split; [reflexivity|].
    split. { unfold jpeg_inv; cbn [j_bits j_nbits j_buf j_fin j_pos]. repeat split; auto; lia. }
    apply same_bits_trans with (skipn m (jpeg_den p2)); [|apply same_bits_skipn; auto].
    unfold jpeg_den. cbn [j_bits j_nbits j_buf j_fin j_pos]. rewrite Dq.
    rewrite skipn_app_le by (rewrite bits_of_length; lia). apply same_bits_refl.
Qed.

Lemma jpeg_new_rep k src : Forall is_byte src -> no_lone_ff src ->
  jpeg_rep k (jpump_new src) (byte_bits (unstuff src)).
Proof.
  intros. split.
  - unfold jpeg_inv, jpump_new; cbn [j_bits j_nbits j_buf j_fin j_pos skipn]. repeat split; auto; simpl; lia.
  - unfold jpeg_den, jpump_new; cbn [j_bits j_nbits j_buf j_fin j_pos skipn bits_of app]. apply same_bits_refl.
Qed.
