(** Huffman table construction and decoding on the decoder side. *)
From Coq Require Import List ZArith Lia Bool.
From Coq Require Import ZifyBool ZifyNat.
From Verif Require Import Base BaseLemmas Pumps PumpProofs LjpegEnc LjpegDec HuffTree HuffCanon HuffBuild.
Import ListNotations.
Open Scope Z_scope.

(** ** Runs *)
Section Blocks.
  Context {A : Type}.
  Definition blocks (l : list (nat * A)) : list A := flat_map (fun ce => repeat (snd ce) (fst ce)) l.
  Definition bstart (l : list (nat * A)) (k : nat) : nat :=
    fold_right plus 0%nat (map fst (firstn k l)).

  Lemma blocks_length l : length (blocks l) = bstart l (length l).
  Proof.
    unfold blocks, bstart. rewrite firstn_all. induction l as [|[c e] l IH]; auto.
    simpl. rewrite app_length, repeat_length, IH. auto.
  Qed.

  Lemma bstart_S l k d : (k < length l)%nat -> bstart l (S k) = (bstart l k + fst (nth k l d))%nat.
  Proof.
    unfold bstart. revert k. induction l as [|[c e] l IH]; intros k H; simpl in H; [lia|].
    destruct k; simpl; [lia|]. specialize (IH k ltac:(lia)). simpl in IH. rewrite IH. lia.
  Qed.

  Lemma bstart_le l i j : (i <= j)%nat -> (bstart l i <= bstart l j)%nat.
  Proof.
    unfold bstart. revert i j. induction l as [|[c e] l IH]; intros i j H.
    - rewrite !firstn_nil. auto.
    - destruct i; simpl; [lia|]. destruct j; [lia|]. simpl. specialize (IH i j ltac:(lia)). lia.
  Qed.

  Lemma blocks_nth l k r d e : (k < length l)%nat -> (r < fst (nth k l d))%nat ->
    nth (bstart l k + r) (blocks l) e = snd (nth k l d).
  Proof.
    revert k. induction l as [|[c x] l IH]; intros k Hk Hr; simpl in Hk; [lia|].
    unfold blocks, bstart. destruct k.
    - cbn in *. rewrite app_nth1 by (rewrite repeat_length; auto). now apply nth_repeat_lt.
    - cbn [firstn map fold_right fst snd flat_map nth] in *.
      rewrite app_nth2 by (rewrite repeat_length; lia). rewrite repeat_length.
      replace (c + fold_right Nat.add 0%nat (map fst (firstn k l)) + r - c)%nat with
        (bstart l k + r)%nat by (unfold bstart; lia). apply IH; auto; lia.
  Qed.

  Lemma blocks_cases l i : (i < bstart l (length l))%nat ->
    exists k, (k < length l)%nat /\ (bstart l k <= i < bstart l (S k))%nat.
  Proof.
    intros H. assert (forall n, (n <= length l)%nat -> (i < bstart l n)%nat ->
      exists k, (k < n)%nat /\ (bstart l k <= i < bstart l (S k))%nat).
    { induction n; intros Hn Hi; [unfold bstart in Hi; simpl in Hi; lia|].
      destruct (Nat.lt_ge_cases i (bstart l n)).
      - destruct (IHn ltac:(lia) H0) as (k & A1 & A2). exists k. split; auto; lia.
      - exists n. split; auto; lia. }
    destruct (H0 (length l)) as (k & A1 & A2); eauto.
  Qed.
End Blocks.

(** ** The decoding table *)
Lemma fill_hufftable_spec nb sz : forall pos hv sh,
  (forall k, (k < length sz)%nat -> (pos + k < length hv)%nat /\ (pos + k < length sh)%nat) ->
  fill_hufftable nb pos sz hv sh =
  Ok (blocks (map (fun k => ((2 ^ (nb - nth k sz 0))%nat,
        (nth k sz 0, nth (pos + k) hv 0 mod 256, nth (pos + k) sh 0 mod 256)%nat)) (seq 0 (length sz)))).
Proof.
  induction sz as [|s sz IH]; intros pos hv sh H; auto.
  cbn [fill_hufftable length]. destruct (H 0%nat) as [H1 H2]; [simpl; lia|]. rewrite Nat.add_0_r in *.
  rewrite (get_ok _ _ 0%nat) by auto. cbn [bind]. rewrite (get_ok _ _ 0%nat) by auto. cbn [bind].
  rewrite IH.
  2:{ intros k Hk. destruct (H (S k)); [simpl; lia|]. split; lia. }
  cbn [bind]. f_equal. cbn [seq map]. unfold blocks. cbn [flat_map fst snd nth]. rewrite Nat.add_0_r.
  f_equal. rewrite <- seq_shift, map_map. rewrite !flat_map_concat_map, !map_map. f_equal.
  apply map_ext. intros k. cbn [nth]. replace (pos + S k)%nat with (S pos + k)%nat by lia. auto.
Qed.

Definition lookup (t : hufft) (c : Z) : nat * nat * nat := nth (Z.to_nat c) (ht_table t) (0, 0, 0)%nat.

(** Code value of the k-th symbol: start aligned to its length. *)
Definition code (sz : list nat) (k : nat) : Z := start sz k / weight (nth k sz 0%nat).

(** What the decoder needs of a table; [nb] is the longest code. *)
Record dtable (t : hufft) (sz hv : list nat) : Prop := {
  dt_bug : ht_dng_bug t = false;
  dt_nbits : (1 <= ht_nbits t <= 16)%nat;
  dt_len : length (ht_table t) = (2 ^ ht_nbits t)%nat;
  dt_sz : forall k, (k < length sz)%nat -> (1 <= nth k sz 0 <= ht_nbits t)%nat;
  dt_sym : forall k, (k < length sz)%nat -> (nth k hv 0 <= 16)%nat;
  dt_block : forall k c, (k < length sz)%nat -> 0 <= c < 2 ^ Z.of_nat (ht_nbits t) ->
     c / 2 ^ Z.of_nat (ht_nbits t - nth k sz 0%nat) = code sz k ->
     lookup t c = (nth k sz 0, nth k hv 0, 0)%nat /\
     c < start sz (length sz) / 2 ^ Z.of_nat (16 - ht_nbits t);
  dt_cases : forall c, 0 <= c < 2 ^ Z.of_nat (ht_nbits t) ->
     (exists k, (k < length sz)%nat /\ c / 2 ^ Z.of_nat (ht_nbits t - nth k sz 0%nat) = code sz k) \/
     (start sz (length sz) / 2 ^ Z.of_nat (16 - ht_nbits t) <= c /\ lookup t c = (0, 0, 0)%nat)
}.

Lemma weight_nat s : (s <= 16)%nat -> weight s = 2 ^ Z.of_nat (16 - s).
Proof. intros. unfold weight. f_equal. lia. Qed.

(** All starts up to [k] are multiples of the weight of [k]. *)
Lemma start_aligned sz k : mono sz -> (forall i, (i < length sz)%nat -> (nth i sz 0 <= 16)%nat) ->
  (k < length sz)%nat -> forall j, (j <= S k)%nat -> (weight (nth k sz 0%nat) | start sz j).
Proof.
  intros HM HR Hk. induction j; intros Hj.
  - rewrite start_0. apply Z.divide_0_r.
  - rewrite start_S by lia. apply Z.divide_add_r; [apply IHj; lia|].
    pose proof (HM j k ltac:(lia)). pose proof (HR k Hk).
    rewrite !weight_nat by lia.
    replace (16 - nth j sz 0)%nat with ((16 - nth k sz 0) + (nth k sz 0 - nth j sz 0))%nat by lia.
    rewrite pow2_add. apply Z.divide_factor_l.
Qed.

Lemma code_start sz k : mono sz -> (forall i, (i < length sz)%nat -> (nth i sz 0 <= 16)%nat) ->
  (k < length sz)%nat -> code sz k * weight (nth k sz 0%nat) = start sz k.
Proof.
  intros HM HR Hk. unfold code. destruct (start_aligned sz k HM HR Hk k ltac:(lia)) as (q & E).
  rewrite E. rewrite Z.div_mul; auto. pose proof (weight_pos (nth k sz 0%nat) (HR k Hk)). lia.
Qed.

Section MakeTable.
  Variables sz hv : list nat.
  Variable nb : nat.
  Hypothesis Hnb : (1 <= nb <= 16)%nat.
  Hypothesis HR : forall k, (k < length sz)%nat -> (1 <= nth k sz 0 <= nb)%nat.
  Hypothesis HMn : mono sz.
  Hypothesis HK : start sz (length sz) <= 65536.
  Hypothesis Hsym : forall k, (k < length sz)%nat -> (nth k hv 0 <= 16)%nat.

  Let l := map (fun k => ((2 ^ (nb - nth k sz 0))%nat,
        (nth k sz 0, nth k hv 0, 0)%nat)) (seq 0 (length sz)).

  Lemma l_len : length l = length sz.
  Proof. unfold l. now rewrite map_length, seq_length. Qed.

  Lemma l_nth k d : (k < length sz)%nat -> nth k l d = ((2 ^ (nb - nth k sz 0))%nat, (nth k sz 0, nth k hv 0, 0)%nat).
  Proof. intros. unfold l. now rewrite nth_map_seq. Qed.

  Lemma pow2_nat n : Z.of_nat (2 ^ n) = 2 ^ Z.of_nat n.
  Proof. rewrite Nat2Z.inj_pow. reflexivity. Qed.

  Lemma bstart_start k : (k <= length sz)%nat -> Z.of_nat (bstart l k) * 2 ^ Z.of_nat (16 - nb) = start sz k.
  Proof.
    induction k; intros Hk.
    - reflexivity.
    - rewrite (bstart_S l k (0%nat, (0, 0, 0)%nat)) by (rewrite l_len; lia). rewrite l_nth by lia. cbn [fst].
      rewrite start_S by lia. rewrite Nat2Z.inj_add, Z.mul_add_distr_r, IHk by lia. f_equal.
      pose proof (HR k ltac:(lia)). rewrite weight_nat by lia. rewrite pow2_nat, <- pow2_add. f_equal. lia.
  Qed.

  Lemma bstart_code k : (k < length sz)%nat -> Z.of_nat (bstart l k) = code sz k * 2 ^ Z.of_nat (nb - nth k sz 0%nat).
  Proof.
    intros Hk. pose proof (HR k Hk) as R.
    assert (E : code sz k * weight (nth k sz 0%nat) = start sz k).
    { apply code_start; auto. intros i Hi. pose proof (HR i Hi). lia. }
    rewrite <- (bstart_start k) in E by lia. rewrite weight_nat in E by lia.
    replace (16 - nth k sz 0)%nat with ((nb - nth k sz 0) + (16 - nb))%nat in E by lia.
    rewrite pow2_add in E. pose proof (pow2_pos (16 - nb)). nia.
  Qed.

  Lemma total_div : start sz (length sz) / 2 ^ Z.of_nat (16 - nb) = Z.of_nat (length (blocks l)).
  Proof.
    rewrite <- (bstart_start (length sz)) by lia. rewrite Z.div_mul by (pose proof (pow2_pos (16 - nb)); lia).
    rewrite blocks_length, l_len. auto.
  Qed.

  Lemma blocks_le : (length (blocks l) <= 2 ^ nb)%nat.
  Proof.
    apply Nat2Z.inj_le. rewrite <- total_div, pow2_nat. apply Z.div_le_upper_bound; [apply pow2_pos|].
    rewrite <- pow2_add. replace (16 - nb + nb)%nat with 16%nat by lia. exact HK.
  Qed.

  Lemma make_dtable :
    dtable (mk_ht false nb (blocks l ++ repeat (0, 0, 0)%nat (2 ^ nb - length (blocks l)))) sz hv.
  Proof.
    pose proof blocks_le as BL.
    constructor; cbn [ht_dng_bug ht_nbits ht_table]; auto.
    - rewrite app_length, repeat_length. lia.
    - intros k c Hk Hc Hd. pose proof (bstart_code k Hk) as BC. rewrite <- Hd in BC.
      assert (EQ : Z.of_nat (bstart l k) + c mod 2 ^ Z.of_nat (nb - nth k sz 0%nat) = c).
      { rewrite BC. rewrite Z.mul_comm. symmetry. apply Z.div_mod. pose proof (pow2_pos (nb - nth k sz 0)%nat). lia. }
      assert (Hr : 0 <= c mod 2 ^ Z.of_nat (nb - nth k sz 0%nat) < 2 ^ Z.of_nat (nb - nth k sz 0%nat))
        by (apply Z.mod_pos_bound, pow2_pos).
      set (r := Z.to_nat (c mod 2 ^ Z.of_nat (nb - nth k sz 0%nat))).
      assert (Ec : Z.to_nat c = (bstart l k + r)%nat) by lia.
      assert (Rr : (r < 2 ^ (nb - nth k sz 0))%nat).
      { apply Nat2Z.inj_lt. rewrite pow2_nat. lia. }
      assert (IN : (Z.to_nat c < length (blocks l))%nat).
      { rewrite Ec, blocks_length.
        apply Nat.lt_le_trans with (bstart l (S k)); [|apply bstart_le; rewrite l_len; lia].
        rewrite (bstart_S l k (0%nat, (0, 0, 0)%nat)) by (rewrite l_len; auto). rewrite l_nth by auto. cbn [fst]. lia. }
      split.
      + unfold lookup. cbn [ht_table]. rewrite app_nth1 by auto. rewrite Ec.
        rewrite (blocks_nth l k r (0%nat, (0, 0, 0)%nat)).
        * now rewrite l_nth. * now rewrite l_len. * rewrite l_nth by auto. auto.
      + rewrite total_div. lia.
    - intros c Hc. destruct (Nat.lt_ge_cases (Z.to_nat c) (length (blocks l))) as [Hl|Hl].
      + left. rewrite blocks_length in Hl. apply blocks_cases in Hl. destruct Hl as (k & Hk & Hi).
        rewrite l_len in Hk. exists k. split; auto.
        rewrite (bstart_S l k (0%nat, (0, 0, 0)%nat)) in Hi by (rewrite l_len; auto). rewrite l_nth in Hi by auto. cbn [fst] in Hi.
        pose proof (bstart_code k Hk) as BC. symmetry.
        apply Z.div_unique with (c - Z.of_nat (bstart l k)).
        * left. pose proof (pow2_nat (nb - nth k sz 0)%nat). lia.
        * rewrite BC. lia.
      + right. rewrite total_div. split; [lia|]. unfold lookup. cbn [ht_table].
        rewrite app_nth2 by auto. apply nth_repeat.
  Qed.
End MakeTable.

(** ** Decoding one difference *)
Definition extend (sym : nat) (v : Z) : Z :=
  if (sym =? 0)%nat then 0 else if (sym =? 16)%nat then -32768
  else if v <? 2 ^ Z.of_nat (sym - 1) then v - (2 ^ Z.of_nat sym - 1) else v.

Definition extra (sym : nat) : nat := if (sym =? 16)%nat then 0%nat else sym.

Lemma peekv_skip0 n l : peekv n (skipn 0 l) = peekv n l. Proof. reflexivity. Qed.

Lemma huff_diff_spec {P} (o : pump_ops P) rep (R : pump_refines o rep) t e sym k p l :
  ht_dng_bug t = false -> (sym <= 16)%nat -> (sym <= k)%nat -> rep k p l ->
  exists p', huff_diff o t (e, sym, 0%nat) p = Ok (extend sym (peekv sym l), p') /\
    rep (k - extra sym)%nat p' (skipn (extra sym) l).
Proof.
  intros HB Hs Hk HR. unfold huff_diff, extend, extra.
  destruct (Nat.eqb_spec sym 0) as [->|N0].
  { exists p. split; auto. cbn. rewrite Nat.sub_0_r. auto. }
  destruct (Nat.eqb_spec sym 16) as [->|N16].
  { rewrite HB. exists p. split; auto. rewrite Nat.sub_0_r. auto. }
  destruct (pr_get o rep R k p l sym) as (p1 & E & R1); auto; try lia.
  rewrite E. cbn [bind]. rewrite Nat.add_0_r.
  replace (sym <=? 32)%nat with true by lia. cbn [assert_ bind].
  change (0 <? 32)%nat with true. cbn [assert_ bind].
  pose proof (peekv_range sym l) as PR. set (v := peekv sym l) in *.
  assert (PB : 2 ^ Z.of_nat sym <= 32768) by (apply (pow2_le sym 15); lia).
  assert (D : Z.shiftr (wrap_i32 (Z.shiftl (wrap_i32 (wrap_i32 (Z.shiftl v 1) + 1)) (Z.of_nat 0))) 1 = v).
  { change (Z.of_nat 0) with 0. rewrite Z.shiftl_0_r. rewrite Z.shiftl_mul_pow2 by lia. change (2 ^ 1) with 2.
    unfold wrap_i32. rewrite (Z.mod_small (v * 2 + 2 ^ 31)) by lia.
    rewrite (Z.mod_small (v * 2 + 2 ^ 31 - 2 ^ 31 + 1 + 2 ^ 31)) by lia.
    rewrite Z.mod_small by lia. rewrite Z.shiftr_div_pow2 by lia. change (2 ^ 1) with 2.
    symmetry. apply Z.div_unique with 1; lia. }
  rewrite D.
  assert (TB : (Z.land v (Z.shiftl 1 (Z.of_nat (sym - 1))) =? 0) = (v <? 2 ^ Z.of_nat (sym - 1))).
  { rewrite Z.shiftl_mul_pow2 by lia. rewrite Z.mul_1_l.
    assert (ES : 2 ^ Z.of_nat sym = 2 * 2 ^ Z.of_nat (sym - 1)).
    { rewrite <- pow2_S. f_equal. lia. }
    pose proof (pow2_pos (sym - 1)).
    destruct (Z.ltb_spec v (2 ^ Z.of_nat (sym - 1))).
    - apply Z.eqb_eq. apply Z.bits_inj'. intros n Hn. rewrite Z.land_spec, Z.bits_0.
      rewrite Z.pow2_bits_eqb by lia. destruct (Z.eqb_spec (Z.of_nat (sym - 1)) n); [|now rewrite andb_false_r].
      rewrite andb_true_r. rewrite <- e0. rewrite Z.testbit_false by lia.
      rewrite Z.div_small by lia. reflexivity.
    - apply Z.eqb_neq. intros X.
      assert (Y : Z.testbit (Z.land v (2 ^ Z.of_nat (sym - 1))) (Z.of_nat (sym - 1)) = false) by (rewrite X; apply Z.bits_0).
      rewrite Z.land_spec, Z.pow2_bits_true, andb_true_r in Y by lia.
      rewrite Z.testbit_false in Y by lia.
      replace (v / 2 ^ Z.of_nat (sym - 1)) with 1 in Y; [discriminate|].
      apply Z.div_unique with (v - 2 ^ Z.of_nat (sym - 1)); lia. }
  rewrite TB. change (0 =? 0)%nat with true.
  destruct (v <? 2 ^ Z.of_nat (sym - 1)).
  - replace (sym <? 31)%nat with true by lia. cbn [assert_ bind]. eauto.
  - eauto.
Qed.

Lemma huff_slow_spec {P} (o : pump_ops P) rep (R : pump_refines o rep) t sz hv len sym k p l :
  dtable t sz hv -> lookup t (peekv (ht_nbits t) l) = (len, sym, 0)%nat ->
  (len <= 16)%nat -> (len <= ht_nbits t)%nat -> (sym <= 16)%nat -> (32 <= k)%nat -> rep k p l ->
  exists p', huff_decode_slow o t p =
      Ok (((len + sym)%nat, extend sym (peekv sym (skipn len l))), p') /\
    rep (k - len - extra sym)%nat p' (skipn (len + extra sym) l).
Proof.
  intros D HL Hl Hln Hs Hk HR. unfold huff_decode_slow, huff_len.
  pose proof (dt_nbits _ _ _ D) as NB.
  destruct (pr_peek R k p l (ht_nbits t) HR) as (p1 & E1 & R1 & C1); [lia|lia|].
  rewrite E1. cbn [bind].
  pose proof (peekv_range (ht_nbits t) l) as PR.
  rewrite (get_ok _ _ (0, 0, 0)%nat).
  2:{ rewrite (dt_len _ _ _ D). apply Nat2Z.inj_lt. rewrite pow2_nat. lia. }
  cbn [bind]. fold (lookup t (peekv (ht_nbits t) l)). rewrite HL. cbn [fst snd].
  destruct (C1 len Hln) as (p2 & E2 & R2). rewrite E2. cbn [bind fst snd].
  replace (len + sym <? 256)%nat with true by lia. cbn [assert_ bind].
  destruct (huff_diff_spec o rep R t len sym (k - len)%nat p2 (skipn len l) (dt_bug _ _ _ D)) as (p3 & E3 & R3); auto; try lia.
  rewrite E3. cbn [bind]. exists p3. split; auto. rewrite skipn_skipn in R3. auto.
Qed.

Lemma peekv_div n m l : (m <= n)%nat -> peekv n l / 2 ^ Z.of_nat (n - m) = peekv m l.
Proof.
  intros H. replace n with (m + (n - m))%nat at 1 by lia. rewrite peekv_plus.
  pose proof (peekv_range (n - m) (skipn m l)).
  symmetry. apply Z.div_unique with (peekv (n - m) (skipn m l)); [left; lia|lia].
Qed.

Lemma lookup_total t sz hv c : dtable t sz hv -> 0 <= c < 2 ^ Z.of_nat (ht_nbits t) ->
  exists len sym, lookup t c = (len, sym, 0)%nat /\ (len <= ht_nbits t)%nat /\ (sym <= 16)%nat /\
   ((exists k, (k < length sz)%nat /\ c / 2 ^ Z.of_nat (ht_nbits t - len) = code sz k /\ len = nth k sz 0%nat /\ sym = nth k hv 0%nat) \/
    (len = 0%nat /\ sym = 0%nat /\ start sz (length sz) / 2 ^ Z.of_nat (16 - ht_nbits t) <= c)).
Proof.
  intros D Hc. destruct (dt_cases _ _ _ D c Hc) as [(k & Hk & Hd)|[Hs Hl]].
  - destruct (dt_block _ _ _ D k c Hk Hc Hd) as [HL _].
    exists (nth k sz 0%nat), (nth k hv 0%nat). split; auto. split; [apply (dt_sz _ _ _ D k Hk)|].
    split; [apply (dt_sym _ _ _ D k Hk)|]. left. exists k. auto.
  - exists 0%nat, 0%nat. split; auto. split; [lia|]. split; [lia|]. auto.
Qed.

(** The mock stream of cache index [i]: 13 bits of [i], then zeros. *)
Definition mock_stream (i : Z) : list bool := bits_of 45 (i * 2 ^ 32).

Lemma mock_stream_app i : mock_stream i = bits_of 13 i ++ repeat false 32.
Proof.
  unfold mock_stream. rewrite (bits_of_app 13 32). f_equal.
  - f_equal. apply Z.div_mul. lia.
  - rewrite <- bits_of_mod. rewrite Z.mod_mul by lia. apply bits_of_0.
Qed.

Lemma cache_entry_spec t sz hv i : dtable t sz hv -> 0 <= i < 8192 ->
  exists len sym, lookup t (peekv (ht_nbits t) (mock_stream i)) = (len, sym, 0)%nat /\
    cache_entry t i = Ok (if (len + extra sym <=? 13)%nat
       then Some ((len + sym)%nat, extend sym (peekv sym (skipn len (mock_stream i)))) else None).
Proof.
  intros D Hi. unfold cache_entry, mock_set.
  rewrite (shl64_exact i 32 13) by (change (2 ^ Z.of_nat 13) with 8192; lia). cbn [bind].
  set (m := mk_mpump (i * 2 ^ Z.of_nat 32) (CACHE_BITS + 32)).
  assert (RM : mock_rep 45 m (mock_stream i)).
  { unfold mock_rep, m, mock_stream; cbn [m_bits m_nbits]. change (CACHE_BITS + 32)%nat with 45%nat.
    change (Z.of_nat 32) with 32. split; [|split; [lia|auto]].
    change (2 ^ Z.of_nat 45) with (8192 * 2 ^ 32). nia. }
  destruct (lookup_total t sz hv (peekv (ht_nbits t) (mock_stream i)) D (peekv_range _ _)) as (len & sym & HL & H1 & H2 & _).
  pose proof (dt_nbits _ _ _ D).
  exists len, sym. split; auto.
  destruct (huff_slow_spec mock_ops mock_rep mock_refines t sz hv len sym 45 m (mock_stream i) D HL) as (p' & E & R'); auto; try lia.
  rewrite E. cbn [bind].
  assert (NB : m_nbits p' = (45 - (len + extra sym))%nat).
  { destruct R' as (_ & _ & EQ). apply (f_equal (@length bool)) in EQ.
    rewrite bits_of_length, skipn_length in EQ. unfold mock_stream in EQ. rewrite bits_of_length in EQ. auto. }
  unfold mock_validbits. rewrite NB.
  assert (EX : (extra sym <= 16)%nat) by (unfold extra; destruct (sym =? 16)%nat; lia).
  f_equal. replace (0 <=? Z.of_nat (45 - (len + extra sym)) - 32) with (len + extra sym <=? 13)%nat by lia.
  destruct (Nat.leb_spec (len + extra sym) 13); auto.
  do 2 f_equal. unfold wrap_i16.
  assert (-32768 <= extend sym (peekv sym (skipn len (mock_stream i))) <= 32767).
  { unfold extend. destruct (Nat.eqb_spec sym 0); [lia|]. destruct (Nat.eqb_spec sym 16); [lia|].
    pose proof (peekv_range sym (skipn len (mock_stream i))).
    assert (2 ^ Z.of_nat sym <= 32768) by (apply (pow2_le sym 15); lia).
    destruct (Z.ltb_spec (peekv sym (skipn len (mock_stream i))) (2 ^ Z.of_nat (sym - 1))); lia. }
  rewrite Z.mod_small by lia. lia.
Qed.

Lemma mock_stream_nth l j : (j < 13)%nat -> nth j (mock_stream (peekv 13 l)) false = nth j l false.
Proof.
  intros Hj. rewrite mock_stream_app. rewrite app_nth1 by (rewrite bits_of_length; auto).
  unfold peekv. rewrite <- (take0_length 13 l) at 1. rewrite bits_of_bval. now apply take0_nth.
Qed.

Lemma peekv_prefix n l l' : (forall j, (j < n)%nat -> nth j l false = nth j l' false) -> peekv n l = peekv n l'.
Proof.
  intros. unfold peekv. f_equal. apply nth_ext_len with (d := false).
  - now rewrite !take0_length.
  - intros i Hi. rewrite take0_length in Hi. rewrite !take0_nth by auto. auto.
Qed.

(** huff_decode agrees with the table lookup on every stream that starts with
    a code word. *)
Lemma huff_decode_spec {P} (o : pump_ops P) rep (R : pump_refines o rep) t sz hv i k p l :
  dtable t sz hv -> (i < length sz)%nat -> peekv (nth i sz 0%nat) l = code sz i ->
  (32 <= k)%nat -> rep k p l ->
  let len := nth i sz 0%nat in let sym := nth i hv 0%nat in
  exists p', huff_decode o t p = Ok (extend sym (peekv sym (skipn len l)), p') /\
    rep (k - len - extra sym)%nat p' (skipn (len + extra sym) l).
Proof.
  intros D Hi HC Hk HR len sym.
  pose proof (dt_nbits _ _ _ D) as NB. pose proof (dt_sz _ _ _ D i Hi) as SI. pose proof (dt_sym _ _ _ D i Hi) as SY.
  fold len in HC, SI. fold sym in SY.
  set (c := peekv (ht_nbits t) l).
  assert (Hc : 0 <= c < 2 ^ Z.of_nat (ht_nbits t)) by apply peekv_range.
  assert (HD : c / 2 ^ Z.of_nat (ht_nbits t - len) = code sz i) by (unfold c; rewrite peekv_div by lia; auto).
  destruct (dt_block _ _ _ D i c Hi Hc HD) as [HL HLT]. fold len sym in HL.
  assert (EX : (extra sym <= sym)%nat) by (unfold extra; destruct (sym =? 16)%nat; lia).
  unfold huff_decode.
  destruct (pr_peek R k p l CACHE_BITS HR) as (p1 & E1 & R1 & C1); [unfold CACHE_BITS; lia|unfold CACHE_BITS; lia|].
  rewrite E1. cbn [bind]. change CACHE_BITS with 13%nat in *.
  assert (NE : exists x y, ht_table t = x :: y).
  { pose proof (dt_len _ _ _ D). destruct (ht_table t); eauto. simpl in H.
    pose proof (Nat.pow_nonzero 2 (ht_nbits t) ltac:(lia)). lia. }
  destruct NE as (x0 & y0 & NE). rewrite NE.
  pose proof (peekv_range 13 l) as PR. change (2 ^ Z.of_nat 13) with 8192 in PR.
  destruct (cache_entry_spec t sz hv (peekv 13 l) D PR) as (lm & sm & HLm & HCE).
  rewrite HCE. cbn [bind].
  assert (SLOW : exists p', (do (_, d, p2) <- huff_decode_slow o t p1; Ok (d, p2)) = Ok (extend sym (peekv sym (skipn len l)), p') /\
    rep (k - len - extra sym)%nat p' (skipn (len + extra sym) l)).
  { destruct (huff_slow_spec o rep R t sz hv len sym k p1 l D HL) as (p' & E & R'); auto; try lia.
    rewrite E. cbn [bind]. eauto. }
  destruct (Nat.leb_spec (lm + extra sm) 13) as [Hle|Hgt]; [|exact SLOW].
  set (lms := mock_stream (peekv 13 l)) in *. set (cm := peekv (ht_nbits t) lms) in *.
  assert (Hcm : 0 <= cm < 2 ^ Z.of_nat (ht_nbits t)) by apply peekv_range.
  assert (SAME : forall s, (s <= 13)%nat -> peekv s lms = peekv s l).
  { intros s Hs. apply peekv_prefix. intros j Hj. apply mock_stream_nth. lia. }
  (* the mock entry is the entry of the stream *)
  assert (EQ : lm = len /\ sm = sym).
  { destruct (Nat.le_gt_cases len 13) as [L13|L13].
    - assert (X : cm / 2 ^ Z.of_nat (ht_nbits t - len) = code sz i).
      { unfold cm. rewrite peekv_div by lia. rewrite SAME by auto. auto. }
      destruct (dt_block _ _ _ D i cm Hi Hcm X) as [Y _]. fold len sym in Y. rewrite HLm in Y. split; [exact (f_equal (fun e => fst (fst e)) Y)|exact (f_equal (fun e => snd (fst e)) Y)].
    - exfalso. destruct (lookup_total t sz hv cm D Hcm) as (l2 & s2 & HL2 & B1 & B2 & CC).
      rewrite HLm in HL2. inversion HL2; subst l2 s2.
      destruct CC as [(k' & Hk' & Hd' & El & Es)|(El & Es & Hge)].
      + assert (X : c / 2 ^ Z.of_nat (ht_nbits t - nth k' sz 0%nat) = code sz k').
        { unfold c. rewrite peekv_div by lia. rewrite <- El. rewrite <- SAME by lia. rewrite <- Hd'.
          unfold cm. now rewrite peekv_div by lia. }
        destruct (dt_block _ _ _ D k' c Hk' Hc X) as [Y _]. rewrite HL in Y. apply (f_equal (fun e => fst (fst e))) in Y. cbn [fst] in Y. clear - Y El L13 Hle. clearbody len. lia.
      + assert (cm <= c).
        { unfold cm, c. replace (ht_nbits t) with (13 + (ht_nbits t - 13))%nat by lia. rewrite !peekv_plus.
          rewrite SAME by lia. enough (peekv (ht_nbits t - 13) (skipn 13 lms) = 0).
          { rewrite H. pose proof (peekv_range (ht_nbits t - 13) (skipn 13 l)). lia. }
          unfold lms. rewrite mock_stream_app. rewrite skipn_app, bits_of_length.
          rewrite skipn_all2 by (rewrite bits_of_length; auto). cbn [app Nat.sub skipn].
          replace 0 with (peekv (ht_nbits t - 13) []).
          - apply peekv_prefix. intros j Hj. rewrite nth_repeat. now destruct j.
          - generalize (ht_nbits t - 13)%nat. intros n. unfold peekv. clear. induction n as [|n IHn]; [reflexivity|]. cbn [take0 bval]. rewrite IHn. reflexivity. }
        lia. }
  destruct EQ as [-> ->].
  assert (EV : extend sym (peekv sym (skipn len lms)) = extend sym (peekv sym (skipn len l))).
  { unfold extra in Hle. destruct (Nat.eqb_spec sym 16) as [->|N16]; [reflexivity|].
    f_equal. apply peekv_prefix. intros j Hj. rewrite !nth_skipn. apply mock_stream_nth. lia. }
  rewrite EV. rewrite (dt_bug _ _ _ D). cbn [negb]. rewrite andb_true_r.
  assert (V : (extend sym (peekv sym (skipn len l)) =? -32768) = (sym =? 16)%nat).
  { unfold extend. destruct (Nat.eqb_spec sym 0); [subst sym; rewrite e; reflexivity|].
    destruct (Nat.eqb_spec sym 16); [reflexivity|].
    pose proof (peekv_range sym (skipn len l)).
    assert (2 ^ Z.of_nat sym <= 32768) by (apply (pow2_le sym 15); lia).
    destruct (Z.ltb_spec (peekv sym (skipn len l)) (2 ^ Z.of_nat (sym - 1))); apply Z.eqb_neq; lia. }
  rewrite V. destruct (C1 (len + extra sym)%nat Hle) as (p2 & E2 & R2).
  rewrite Nat.sub_add_distr in R2.
  unfold extra in *. destruct (Nat.eqb_spec sym 16) as [E16|N16].
  - rewrite usub_ok by lia. cbn [bind]. replace (len + sym - 16)%nat with (len + 0)%nat by lia.
    rewrite E2. cbn [bind]. eauto.
  - rewrite E2. cbn [bind]. eauto.
Qed.
