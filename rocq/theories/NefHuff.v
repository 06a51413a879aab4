(** Huffman decoding with shifts: complete codes of at most 13 bits. *)
From Coq Require Import List ZArith Lia Bool.
From Coq Require Import ZifyBool ZifyNat.
From Verif Require Import Base BaseLemmas Pumps PumpProofs LjpegEnc LjpegDec HuffTree HuffCanon HuffBuild HuffDec LjpegAnySpec LjpegAny PefSpec Pef.
Import ListNotations.
Open Scope Z_scope.

(** the code word a bit string starts with *)
Definition found (sz : list nat) (l : list bool) : option nat :=
  find (fun k => peekv (nth k sz 0%nat) l =? codeword sz k) (seq 0 (length sz)).
Record stable (t : hufft) (sz hv sh : list nat) : Prop := {
  st_bug : ht_dng_bug t = false;
  st_nbits : (ht_nbits t <= 13)%nat;
  st_len : length (ht_table t) = (2 ^ ht_nbits t)%nat;
  st_sz : forall k, (k < length sz)%nat -> (1 <= nth k sz 0 <= ht_nbits t)%nat;
  st_sym : forall k, (k < length sz)%nat -> (nth k hv 0 + nth k sh 0 <= 15)%nat;
  st_look : forall l, exists k, found sz l = Some k /\ (k < length sz)%nat /\
     lookup t (peekv (ht_nbits t) l) = (nth k sz 0, nth k hv 0, nth k sh 0)%nat
}.

Lemma shift_diff_range cat sh v : (cat + sh <= 15)%nat -> 0 <= v < 2 ^ Z.of_nat cat -> -32768 < shift_diff cat sh v < 32768.
Proof.
  intros H Hv. unfold shift_diff. destruct (Nat.eqb_spec cat 0); [lia|].
  assert (P : 2 ^ Z.of_nat cat * 2 ^ Z.of_nat sh <= 32768) by (rewrite <- pow2_add; apply (pow2_le (cat + sh) 15); lia).
  assert (PC : 2 ^ Z.of_nat cat = 2 * 2 ^ Z.of_nat (cat - 1)) by (rewrite <- pow2_S; f_equal; lia).
  pose proof (pow2_pos (cat - 1)). pose proof (pow2_pos sh).
  destruct (Nat.eqb_spec sh 0) as [->|N].
  - unfold difference. replace (cat =? 0)%nat with false by lia. replace (cat =? 16)%nat with false by lia. change (2 ^ Z.of_nat 0) with 1 in P.
    destruct (_ <? _); lia.
  - assert (PS : 2 ^ Z.of_nat sh = 2 * 2 ^ Z.of_nat (sh - 1)) by (rewrite <- pow2_S; f_equal; lia).
    pose proof (pow2_pos (sh - 1)). destruct (Z.ltb_spec v (2 ^ Z.of_nat (cat - 1))); nia.
Qed.

Lemma top_bit v n : (1 <= n)%nat -> 0 <= v < 2 ^ Z.of_nat n -> (Z.land v (Z.shiftl 1 (Z.of_nat (n - 1))) =? 0) = (v <? 2 ^ Z.of_nat (n - 1)).
Proof.
  intros Hn PR. rewrite Z.shiftl_mul_pow2 by lia. rewrite Z.mul_1_l.
  assert (ES : 2 ^ Z.of_nat n = 2 * 2 ^ Z.of_nat (n - 1)) by (rewrite <- pow2_S; f_equal; lia).
  pose proof (pow2_pos (n - 1)). destruct (Z.ltb_spec v (2 ^ Z.of_nat (n - 1))).
  - apply Z.eqb_eq. apply Z.bits_inj'. intros m Hm. rewrite Z.land_spec, Z.bits_0.
    rewrite Z.pow2_bits_eqb by lia. destruct (Z.eqb_spec (Z.of_nat (n - 1)) m); [|now rewrite andb_false_r].
    rewrite andb_true_r. subst m. rewrite Z.testbit_false by lia. rewrite Z.div_small by lia. reflexivity.
  - apply Z.eqb_neq. intros X.
    assert (Y : Z.testbit (Z.land v (2 ^ Z.of_nat (n - 1))) (Z.of_nat (n - 1)) = false) by (rewrite X; apply Z.bits_0).
    rewrite Z.land_spec, Z.pow2_bits_true, andb_true_r in Y by lia. rewrite Z.testbit_false in Y by lia.
    replace (v / 2 ^ Z.of_nat (n - 1)) with 1 in Y; [discriminate|]. apply Z.div_unique with (v - 2 ^ Z.of_nat (n - 1)); lia.
Qed.

Lemma huff_diff_shift {P} (o : pump_ops P) rep (R : pump_refines o rep) t e cat sh k p l :
  (cat + sh <= 15)%nat -> (cat <= k)%nat -> rep k p l ->
  exists p', huff_diff o t (e, cat, sh) p = Ok (shift_diff cat sh (peekv cat l), p') /\ rep (k - cat)%nat p' (skipn cat l).
Proof.
  intros Hs Hk HR. unfold huff_diff, shift_diff. destruct (Nat.eqb_spec cat 0) as [->|N0].
  { exists p. split; auto. cbn. rewrite Nat.sub_0_r. auto. }
  replace (cat =? 16)%nat with false by lia.
  destruct (pr_get o rep R k p l cat) as (p1 & E & R1); auto; try lia. rewrite E. cbn [bind].
  replace (cat + sh <=? 32)%nat with true by lia. cbn [assert_ bind]. replace (sh <? 32)%nat with true by lia. cbn [assert_ bind].
  pose proof (peekv_range cat l) as PR. set (v := peekv cat l) in *.
  assert (PB : 2 ^ Z.of_nat cat * 2 ^ Z.of_nat sh <= 32768) by (rewrite <- pow2_add; apply (pow2_le (cat + sh) 15); lia).
  assert (PC : 2 ^ Z.of_nat cat = 2 * 2 ^ Z.of_nat (cat - 1)) by (rewrite <- pow2_S; f_equal; lia).
  pose proof (pow2_pos (cat - 1)) as P1. pose proof (pow2_pos sh) as P2.
  assert (D : Z.shiftr (wrap_i32 (Z.shiftl (wrap_i32 (wrap_i32 (Z.shiftl v 1) + 1)) (Z.of_nat sh))) 1 = v * 2 ^ Z.of_nat sh + (if (sh =? 0)%nat then 0 else 2 ^ Z.of_nat (sh - 1))).
  { rewrite !Z.shiftl_mul_pow2 by lia. change (2 ^ 1) with 2. assert (2 ^ Z.of_nat cat <= 32768) by nia.
    unfold wrap_i32. rewrite (Z.mod_small (v * 2 + 2 ^ 31)) by lia.
    rewrite (Z.mod_small (v * 2 + 2 ^ 31 - 2 ^ 31 + 1 + 2 ^ 31)) by lia.
    replace (v * 2 + 2 ^ 31 - 2 ^ 31 + 1 + 2 ^ 31 - 2 ^ 31) with (2 * v + 1) by lia.
    assert ((2 * v + 1) * 2 ^ Z.of_nat sh <= 65536) by nia.
    rewrite Z.mod_small by nia. rewrite Z.shiftr_div_pow2 by lia. change (2 ^ 1) with 2.
    symmetry. destruct (Nat.eqb_spec sh 0) as [->|N].
    - apply Z.div_unique with 1; lia.
    - assert (PS : 2 ^ Z.of_nat sh = 2 * 2 ^ Z.of_nat (sh - 1)) by (rewrite <- pow2_S; f_equal; lia).
      apply Z.div_unique with 0; lia. }
  rewrite D.
  assert (PF : 2 ^ Z.of_nat (cat + sh) = 2 ^ Z.of_nat cat * 2 ^ Z.of_nat sh) by apply pow2_add.
  assert (PF1 : 2 ^ Z.of_nat (cat + sh - 1) = 2 ^ Z.of_nat (cat - 1) * 2 ^ Z.of_nat sh) by (rewrite <- pow2_add; f_equal; lia).
  assert (RD : 0 <= (if (sh =? 0)%nat then 0 else 2 ^ Z.of_nat (sh - 1)) < 2 ^ Z.of_nat sh).
  { destruct (Nat.eqb_spec sh 0) as [->|N]; [lia|]. assert (PS : 2 ^ Z.of_nat sh = 2 * 2 ^ Z.of_nat (sh - 1)) by (rewrite <- pow2_S; f_equal; lia).
    pose proof (pow2_pos (sh - 1)). lia. }
  set (x := if (sh =? 0)%nat then 0 else 2 ^ Z.of_nat (sh - 1)) in *.
  rewrite top_bit by (try lia; rewrite PF; nia). rewrite PF1, PF.
  assert (EB : (v * 2 ^ Z.of_nat sh + x <? 2 ^ Z.of_nat (cat - 1) * 2 ^ Z.of_nat sh) = (v <? 2 ^ Z.of_nat (cat - 1))).
  { destruct (Z.ltb_spec v (2 ^ Z.of_nat (cat - 1))); [apply Z.ltb_lt|apply Z.ltb_ge]; nia. }
  rewrite EB. unfold difference. replace (cat =? 0)%nat with false by lia. replace (cat =? 16)%nat with false by lia.
  destruct (v <? 2 ^ Z.of_nat (cat - 1)).
  - replace (cat + sh <? 31)%nat with true by lia. cbn [assert_ bind]. exists p1. split; [|exact R1]. do 2 f_equal.
    unfold x. destruct (Nat.eqb_spec sh 0) as [->|N]; [change (2 ^ Z.of_nat 0) with 1; lia|lia].
  - exists p1. split; [|exact R1]. do 2 f_equal. unfold x. destruct (Nat.eqb_spec sh 0) as [->|N]; [change (2 ^ Z.of_nat 0) with 1; lia|lia].
Qed.

Section Table.
  Variable t : hufft.
  Variables sz hv sh : list nat.
  Hypothesis D : stable t sz hv sh.

  Lemma slow_shift {P} (o : pump_ops P) rep (R : pump_refines o rep) n p l k :
    found sz l = Some k -> (28 <= n)%nat -> rep n p l ->
    exists p', huff_decode_slow o t p = Ok (((nth k sz 0 + nth k hv 0)%nat, shift_diff (nth k hv 0%nat) (nth k sh 0%nat) (peekv (nth k hv 0%nat) (skipn (nth k sz 0%nat) l))), p') /\
      rep (n - (nth k sz 0 + nth k hv 0))%nat p' (skipn (nth k sz 0 + nth k hv 0)%nat l).
  Proof.
    intros HF Hn HR. unfold huff_decode_slow, huff_len. destruct D as [Dbug Dnb Dlen Dsz Dsym Dlook].
    destruct (Dlook l) as (k' & Hk' & Lk & EL). rewrite HF in Hk'. injection Hk' as <-.
    pose proof (Dsz k Lk) as B1. pose proof (Dsym k Lk) as B2.
    destruct (pr_peek R n p l (ht_nbits t) HR) as (p1 & E1 & R1 & C1); [lia|lia|].
    rewrite E1. cbn [bind]. pose proof (peekv_range (ht_nbits t) l) as PR.
    rewrite (get_ok _ _ (0, 0, 0)%nat). 2:{ rewrite Dlen. apply Nat2Z.inj_lt. rewrite pow2_nat. lia. }
    cbn [bind]. fold (lookup t (peekv (ht_nbits t) l)). rewrite EL. cbn [fst snd].
    destruct (C1 (nth k sz 0%nat)) as (p2 & E2 & R2); [lia|]. rewrite E2. cbn [bind fst snd].
    replace (nth k sz 0 + nth k hv 0 <? 256)%nat with true by lia. cbn [assert_ bind].
    destruct (huff_diff_shift o rep R t (nth k sz 0%nat) (nth k hv 0%nat) (nth k sh 0%nat) (n - nth k sz 0)%nat p2 (skipn (nth k sz 0%nat) l)) as (p3 & E3 & R3); auto; try lia.
    rewrite E3. cbn [bind]. exists p3. split; auto. rewrite skipn_skipn in R3. now rewrite Nat.sub_add_distr.
  Qed.

  Lemma cache_shift i k : 0 <= i < 8192 -> found sz (mock_stream i) = Some k ->
    cache_entry t i = Ok (if (nth k sz 0 + nth k hv 0 <=? 13)%nat
       then Some ((nth k sz 0 + nth k hv 0)%nat, shift_diff (nth k hv 0%nat) (nth k sh 0%nat) (peekv (nth k hv 0%nat) (skipn (nth k sz 0%nat) (mock_stream i)))) else None).
  Proof.
    intros Hi HF. unfold cache_entry, mock_set.
    rewrite (shl64_exact i 32 13) by (change (2 ^ Z.of_nat 13) with 8192; lia). cbn [bind].
    set (m := mk_mpump (i * 2 ^ Z.of_nat 32) (CACHE_BITS + 32)).
    assert (RM : mock_rep 45 m (mock_stream i)).
    { unfold mock_rep, m, mock_stream; cbn [m_bits m_nbits]. change (CACHE_BITS + 32)%nat with 45%nat.
      change (Z.of_nat 32) with 32. split; [|split; [lia|auto]]. change (2 ^ Z.of_nat 45) with (8192 * 2 ^ 32). nia. }
    destruct (slow_shift mock_ops mock_rep mock_refines 45 m (mock_stream i) k HF) as (p' & E & R'); auto; try lia.
    rewrite E. cbn [bind]. destruct (st_look _ _ _ _ D (mock_stream i)) as (k' & Hk' & Lk & _). rewrite HF in Hk'. injection Hk' as <-.
    pose proof (st_sz _ _ _ _ D k Lk) as B1. pose proof (st_sym _ _ _ _ D k Lk) as B2. pose proof (st_nbits _ _ _ _ D) as B3.
    assert (NB : m_nbits p' = (45 - (nth k sz 0 + nth k hv 0))%nat).
    { destruct R' as (_ & _ & EQ). apply (f_equal (@length bool)) in EQ.
      rewrite bits_of_length, skipn_length in EQ. unfold mock_stream in EQ. rewrite bits_of_length in EQ. auto. }
    unfold mock_validbits. rewrite NB. f_equal.
    replace (0 <=? Z.of_nat (45 - (nth k sz 0 + nth k hv 0))%nat - 32) with (nth k sz 0 + nth k hv 0 <=? 13)%nat by lia.
    destruct (Nat.leb_spec (nth k sz 0 + nth k hv 0)%nat 13); auto. do 2 f_equal. unfold wrap_i16.
    pose proof (shift_diff_range (nth k hv 0%nat) (nth k sh 0%nat) (peekv (nth k hv 0%nat) (skipn (nth k sz 0%nat) (mock_stream i))) B2 (peekv_range _ _)).
    rewrite Z.mod_small by lia. lia.
  Qed.

  Lemma found_cached l : found sz (mock_stream (peekv 13 l)) = found sz l.
  Proof.
    unfold found. assert (G : forall ks, (forall k, In k ks -> (k < length sz)%nat) ->
      find (fun k => peekv (nth k sz 0%nat) (mock_stream (peekv 13 l)) =? codeword sz k) ks = find (fun k => peekv (nth k sz 0%nat) l =? codeword sz k) ks).
    { induction ks as [|k ks IH]; intros H; [reflexivity|]. cbn [find].
      assert (E : peekv (nth k sz 0%nat) (mock_stream (peekv 13 l)) = peekv (nth k sz 0%nat) l).
      { apply peekv_prefix. intros j Hj. apply mock_stream_nth. pose proof (st_sz _ _ _ _ D k (H k (or_introl eq_refl))). pose proof (st_nbits _ _ _ _ D). lia. }
      rewrite E. destruct (_ =? _); auto. apply IH. intros; apply H; now right. }
    apply G. intros k Hk. apply in_seq in Hk. lia.
  Qed.

  Lemma decode_shift {P} (o : pump_ops P) rep (R : pump_refines o rep) n p l :
    (28 <= n)%nat -> rep n p l ->
    exists p' c, huff_decode o t p = Ok (fst (next_shift (sz, hv, sh) l), p') /\ snd (next_shift (sz, hv, sh) l) = skipn c l /\
      rep (n - c)%nat p' (skipn c l) /\ -32768 < fst (next_shift (sz, hv, sh) l) < 32768.
  Proof.
    intros Hn HR. destruct (st_look _ _ _ _ D l) as (k & HF & Lk & _).
    unfold next_shift. fold (found sz l). rewrite HF. cbn [fst snd]. unfold huff_decode.
    destruct (pr_peek R n p l CACHE_BITS HR) as (p1 & E1 & R1 & C1); [unfold CACHE_BITS; lia|unfold CACHE_BITS; lia|].
    rewrite E1. cbn [bind]. change CACHE_BITS with 13%nat in *.
    assert (NE : exists x y, ht_table t = x :: y).
    { pose proof (st_len _ _ _ _ D) as H. destruct (ht_table t); eauto. simpl in H. pose proof (Nat.pow_nonzero 2 (ht_nbits t) ltac:(lia)). lia. }
    destruct NE as (x0 & y0 & NE). rewrite NE.
    pose proof (peekv_range 13 l) as PR. change (2 ^ Z.of_nat 13) with 8192 in PR.
    rewrite (cache_shift (peekv 13 l) k PR) by (rewrite found_cached; auto). cbn [bind].
    pose proof (st_sz _ _ _ _ D k Lk) as B1. pose proof (st_sym _ _ _ _ D k Lk) as B2. pose proof (st_nbits _ _ _ _ D) as B3.
    pose proof (shift_diff_range (nth k hv 0%nat) (nth k sh 0%nat) (peekv (nth k hv 0%nat) (skipn (nth k sz 0%nat) l)) B2 (peekv_range _ _)) as RG.
    destruct (Nat.leb_spec (nth k sz 0 + nth k hv 0)%nat 13) as [L13|G13].
    2:{ destruct (slow_shift o rep R n p1 l k HF ltac:(lia) R1) as (p' & E & R'). rewrite E. cbn [bind]. exists p', (nth k sz 0 + nth k hv 0)%nat. auto. }
    assert (EV : peekv (nth k hv 0%nat) (skipn (nth k sz 0%nat) (mock_stream (peekv 13 l))) = peekv (nth k hv 0%nat) (skipn (nth k sz 0%nat) l)).
    { apply peekv_prefix. intros j Hj. rewrite !nth_skipn. apply mock_stream_nth. lia. }
    rewrite EV. set (d := shift_diff _ _ _) in *. rewrite (proj2 (Z.eqb_neq d (-32768))) by lia. cbn [andb].
    destruct (C1 (nth k sz 0 + nth k hv 0)%nat L13) as (p2 & E2 & R2). rewrite E2. cbn [bind]. exists p2, (nth k sz 0 + nth k hv 0)%nat. auto.
  Qed.
End Table.

(** ** Tables built by [ht_new_shift] *)
Lemma map_blocks {A B} (g : A -> B) l : map g (blocks l) = blocks (map (fun ce => (fst ce, g (snd ce))) l).
Proof.
  induction l as [|[c e] l IH]; [reflexivity|]. unfold blocks in *. cbn [flat_map map fst snd]. rewrite map_app, IH. f_equal.
  clear. induction c; cbn; congruence.
Qed.
Lemma nth_map_in {A B} (g : A -> B) l i d e : (i < length l)%nat -> nth i (map g l) e = g (nth i l d).
Proof. revert i. induction l; intros i H; cbn in H; [lia|]. destruct i; cbn; auto. apply IHl. lia. Qed.

Lemma seq_nth_le n k : (nth k (seq 0 n) 0 <= n)%nat.
Proof. destruct (Nat.lt_ge_cases k n); [rewrite seq_nth by auto; lia|rewrite nth_overflow by (rewrite seq_length; auto); lia]. Qed.

Lemma shift_table bits hv sh : let sz := sizes_of bits in
  (1 <= max_len bits 16 <= 13)%nat -> (length sz <= 16)%nat -> kraft sz = 65536 ->
  (length sz <= length hv)%nat -> (length sz <= length sh)%nat ->
  (forall k, (k < length sz)%nat -> (nth k hv 0 + nth k sh 0 <= 15)%nat) ->
  exists t, ht_new_shift bits hv sh = Ok t /\ stable t sz hv sh.
Proof.
  intros sz Hnb Hl HK L1 L2 Hs. unfold ht_new_shift. rewrite sizes_code. fold sz. set (nb := max_len bits 16) in *.
  rewrite fill_hufftable_spec by (intros k Hk; cbn [plus]; lia). cbn [bind].
  set (idx := seq 0 (length sz)).
  set (g := fun e : nat * nat * nat => (fst (fst e), nth (snd (fst e)) hv 0, nth (snd (fst e)) sh 0)%nat).
  assert (HR : forall k, (k < length sz)%nat -> (1 <= nth k sz 0 <= nb)%nat) by (intros k Hk; apply sizes_in; exact Hk).
  assert (Hi : forall k, (k < length sz)%nat -> (nth k idx 0 <= 16)%nat) by (intros k Hk; pose proof (seq_nth_le (length sz) k); unfold idx; lia).
  assert (HK' : start sz (length sz) <= 65536) by (rewrite <- kraft_start, firstn_all; lia).
  pose proof (make_dtable sz idx nb ltac:(lia) HR (sizes_mono bits) HK' Hi) as DT. cbv zeta in DT.
  set (l0 := map (fun k => ((2 ^ (nb - nth k sz 0))%nat, (nth k sz 0, nth k idx 0, 0)%nat)) (seq 0 (length sz))) in *.
  assert (EB : blocks (map (fun k => ((2 ^ (nb - nth k sz 0))%nat, (nth k sz 0%nat, (nth (0 + k) hv 0 mod 256)%nat, (nth (0 + k) sh 0 mod 256)%nat))) idx) = map g (blocks l0)).
  { rewrite map_blocks. f_equal. unfold l0. rewrite map_map. apply map_ext_in. intros k Hk. apply in_seq in Hk. unfold g. cbn [fst snd].
    unfold idx. rewrite seq_nth by lia. cbn [plus]. specialize (Hs k ltac:(lia)). now rewrite !Nat.mod_small by lia. }
  rewrite EB. clear EB. apply (dtable_atable false) in DT. set (t0 := mk_ht false nb _) in DT.
  assert (Full : length (blocks l0) = (2 ^ nb)%nat).
  { apply Nat2Z.inj. rewrite pow2_nat. rewrite blocks_length. unfold l0 at 2. rewrite map_length, seq_length.
    pose proof (bstart_start sz idx nb ltac:(lia) HR Hi (length sz) ltac:(lia)) as X. fold l0 in X. cbv zeta in X.
    rewrite <- kraft_start, firstn_all, HK in X. change 65536 with (2 ^ Z.of_nat 16) in X. replace 16%nat with (nb + (16 - nb))%nat in X at 2 by lia.
    rewrite pow2_add in X. pose proof (pow2_pos (16 - nb)). nia. }
  rewrite map_length, Full, Nat.leb_refl, Nat.sub_diag. cbn [assert_ bind repeat]. rewrite app_nil_r.
  set (t := mk_ht false nb (map g (blocks l0))).
  assert (ST : stable t sz hv sh).
  { constructor; cbn [t ht_dng_bug ht_nbits ht_table]; auto; try lia.
    - now rewrite map_length.
    - intros l. pose proof (peekv_range nb l) as PR. pose proof (lookup_symbol t0 sz idx l DT) as LS.
      assert (LK : lookup t (peekv nb l) = g (lookup t0 (peekv nb l))).
      { unfold lookup, t, t0. cbn [ht_table]. rewrite Full, Nat.sub_diag. cbn [repeat]. rewrite app_nil_r.
        apply nth_map_in. rewrite Full. apply Nat2Z.inj_lt. rewrite pow2_nat. lia. }
      change (ht_nbits t0) with nb in LS. rewrite LS in LK. unfold symbol in LK. cbn [fst snd] in LK. unfold found.
      match type of LK with context [find ?F ?L] => destruct (find F L) as [k|] eqn:F1 end.
      + exists k. split; [reflexivity|]. apply find_some in F1 as [Hin _]. apply in_seq in Hin. split; [lia|].
        rewrite LK. unfold g. cbn [fst snd]. unfold idx. rewrite seq_nth by lia. reflexivity.
      + exfalso. destruct (at_cases _ _ _ DT (peekv nb l) PR) as [(k & Hk & E)|[E _]].
        * pose proof (find_none _ _ F1 k) as N. cbn beta in N. rewrite in_seq in N. specialize (N ltac:(lia)).
          pose proof (at_sz _ _ _ DT k Hk). change (ht_nbits t0) with nb in *. rewrite peekv_div in E by lia. rewrite codeword_code, E, Z.eqb_refl in N. discriminate.
        * rewrite <- kraft_start, firstn_all, HK in E. change (ht_nbits t0) with nb in E.
          replace (65536 / 2 ^ Z.of_nat (16 - nb)) with (2 ^ Z.of_nat nb) in E; [lia|].
          change 65536 with (2 ^ Z.of_nat 16). replace 16%nat with (nb + (16 - nb))%nat at 1 by lia. rewrite pow2_add. rewrite Z.div_mul; [reflexivity|]. pose proof (pow2_pos (16 - nb)). lia. }
  destruct (for_each_seq_inv (fun i (_ : unit) => do _ <- cache_entry t (Z.of_nat i); Ok tt) (fun _ _ => True) 0 (Z.to_nat 8192) tt) as (u & E & _); auto.
  - intros i s Hi' _. destruct (st_look _ _ _ _ ST (mock_stream (Z.of_nat i))) as (k & HF & _).
    rewrite (cache_shift t sz hv sh ST (Z.of_nat i) k) by (auto; lia). cbn [bind]. eauto.
  - rewrite E. cbn [bind]. eauto.
Qed.
