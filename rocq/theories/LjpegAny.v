(** Huffman decoding of arbitrary bit strings with arbitrary tables. *)
From Coq Require Import List ZArith Lia Bool.
From Coq Require Import ZifyBool ZifyNat.
From Verif Require Import Base BaseLemmas Pumps PumpProofs LjpegEnc LjpegDec HuffTree HuffCanon HuffBuild HuffDec LjpegAnySpec.
Import ListNotations.
Open Scope Z_scope.

Lemma kraft_start sz k : kraft (firstn k sz) = start sz k.
Proof. reflexivity. Qed.
Lemma codeword_code sz k : codeword sz k = code sz k.
Proof. unfold codeword, code. now rewrite kraft_start. Qed.

(** ** Tables *)
Record atable (t : hufft) (sz hv : list nat) : Prop := {
  at_nbits : (ht_nbits t <= 16)%nat;
  at_len : length (ht_table t) = (2 ^ ht_nbits t)%nat;
  at_sz : forall k, (k < length sz)%nat -> (1 <= nth k sz 0 <= ht_nbits t)%nat;
  at_sym : forall k, (k < length sz)%nat -> (nth k hv 0 <= 16)%nat;
  at_block : forall k c, (k < length sz)%nat -> 0 <= c < 2 ^ Z.of_nat (ht_nbits t) ->
     c / 2 ^ Z.of_nat (ht_nbits t - nth k sz 0%nat) = code sz k ->
     lookup t c = (nth k sz 0, nth k hv 0, 0)%nat /\
     c < start sz (length sz) / 2 ^ Z.of_nat (16 - ht_nbits t);
  at_cases : forall c, 0 <= c < 2 ^ Z.of_nat (ht_nbits t) ->
     (exists k, (k < length sz)%nat /\ c / 2 ^ Z.of_nat (ht_nbits t - nth k sz 0%nat) = code sz k) \/
     (start sz (length sz) / 2 ^ Z.of_nat (16 - ht_nbits t) <= c /\ lookup t c = (0, 0, 0)%nat)
}.
Lemma dtable_atable bug nb tb sz hv : dtable (mk_ht false nb tb) sz hv -> atable (mk_ht bug nb tb) sz hv.
Proof.
  intros D. destruct D as [_ A B C D E F]. cbn [ht_nbits ht_table] in *. unfold lookup in *. cbn [ht_table] in *.
  constructor; cbn [ht_nbits ht_table]; unfold lookup; cbn [ht_table]; auto. lia.
Qed.
(** the symbol found by the table is the one of the canonical code *)
Lemma lookup_symbol t sz hv l : atable t sz hv ->
  lookup t (peekv (ht_nbits t) l) = (fst (symbol (sz, hv) l), snd (symbol (sz, hv) l), 0)%nat.
Proof.
  intros D. pose proof (peekv_range (ht_nbits t) l) as R. unfold symbol. cbn [fst snd].
  assert (B : forall k, (k < length sz)%nat -> (peekv (nth k sz 0%nat) l =? codeword sz k) = true ->
     lookup t (peekv (ht_nbits t) l) = (nth k sz 0, nth k hv 0, 0)%nat).
  { intros k Hk E. apply Z.eqb_eq in E. rewrite codeword_code in E. destruct (at_block _ _ _ D k (peekv (ht_nbits t) l) Hk R) as [X _]; auto.
    pose proof (at_sz _ _ _ D k Hk). rewrite peekv_div by lia. auto. }
  match goal with |- context [find ?F ?L] => destruct (find F L) as [k|] eqn:F1 end.
  - apply find_some in F1 as [Hi E]. apply in_seq in Hi. cbn [fst snd]. apply B; auto. lia.
  - cbn [fst snd]. destruct (at_cases _ _ _ D _ R) as [(k & Hk & E)|[_ E]]; auto. exfalso.
    pose proof (find_none _ _ F1 k) as N. cbn beta in N. rewrite in_seq in N. specialize (N ltac:(lia)).
    pose proof (at_sz _ _ _ D k Hk). rewrite peekv_div in E by lia. rewrite codeword_code, E, Z.eqb_refl in N. discriminate.
Qed.

Definition extra' (bug : bool) (sym : nat) : nat := magnitude_bits bug sym.
Lemma huff_diff_any {P} (o : pump_ops P) rep (R : pump_refines o rep) t e sym k p l :
  (sym <= 16)%nat -> (sym <= k)%nat -> rep k p l ->
  exists p', huff_diff o t (e, sym, 0%nat) p = Ok (difference sym (peekv sym l), p') /\
    rep (k - magnitude_bits (ht_dng_bug t) sym)%nat p' (skipn (magnitude_bits (ht_dng_bug t) sym) l).
Proof.
  intros Hs Hk HR. destruct (ht_dng_bug t) eqn:B.
  - destruct (Nat.eq_dec sym 16) as [->|N].
    + unfold huff_diff. cbn [Nat.eqb]. rewrite B. destruct (pr_get o rep R k p l 16) as (p1 & E & R1); auto; try lia.
      rewrite E. cbn [bind]. eauto.
    + destruct (huff_diff_spec o rep R (mk_ht false (ht_nbits t) (ht_table t)) e sym k p l) as (p' & E & R'); auto.
      exists p'. unfold magnitude_bits. unfold extra in R'. replace (sym =? 16)%nat with false in * by lia. split; auto.
      unfold huff_diff in *. replace (sym =? 16)%nat with false in * by lia. exact E.
  - destruct (huff_diff_spec o rep R t e sym k p l) as (p' & E & R'); auto. exists p'. split; [exact E|exact R'].
Qed.

Lemma symbol_bounds t sz hv l : atable t sz hv -> (fst (symbol (sz, hv) l) <= ht_nbits t)%nat /\ (snd (symbol (sz, hv) l) <= 16)%nat.
Proof.
  intros D. unfold symbol. cbn [fst snd]. match goal with |- context [find ?F ?L] => destruct (find F L) as [k|] eqn:F1 end; cbn [fst snd]; [|lia].
  apply find_some in F1 as [Hi _]. apply in_seq in Hi. split; [apply (at_sz _ _ _ D k); lia|apply (at_sym _ _ _ D k); lia].
Qed.

Lemma huff_slow_any {P} (o : pump_ops P) rep (R : pump_refines o rep) t sz hv k p l :
  atable t sz hv -> (32 <= k)%nat -> rep k p l ->
  let len := fst (symbol (sz, hv) l) in let sym := snd (symbol (sz, hv) l) in let n := (len + magnitude_bits (ht_dng_bug t) sym)%nat in
  exists p', huff_decode_slow o t p = Ok (((len + sym)%nat, difference sym (peekv sym (skipn len l))), p') /\ rep (k - n)%nat p' (skipn n l).
Proof.
  intros D Hk HR len sym n. unfold huff_decode_slow, huff_len.
  pose proof (at_nbits _ _ _ D) as NB. destruct (symbol_bounds t sz hv l D) as [B1 B2]. fold len in B1. fold sym in B2.
  destruct (pr_peek R k p l (ht_nbits t) HR) as (p1 & E1 & R1 & C1); [lia|lia|].
  rewrite E1. cbn [bind].
  pose proof (peekv_range (ht_nbits t) l) as PR.
  rewrite (get_ok _ _ (0, 0, 0)%nat).
  2:{ rewrite (at_len _ _ _ D). apply Nat2Z.inj_lt. rewrite pow2_nat. lia. }
  cbn [bind]. fold (lookup t (peekv (ht_nbits t) l)). rewrite (lookup_symbol t sz hv l D). cbn [fst snd]. fold len sym.
  destruct (C1 len B1) as (p2 & E2 & R2). rewrite E2. cbn [bind fst snd].
  replace (len + sym <? 256)%nat with true by lia. cbn [assert_ bind].
  destruct (huff_diff_any o rep R t len sym (k - len)%nat p2 (skipn len l)) as (p3 & E3 & R3); auto; try lia.
  rewrite E3. cbn [bind]. exists p3. split; auto. rewrite skipn_skipn in R3. unfold n. now rewrite Nat.sub_add_distr.
Qed.

Lemma cache_any t sz hv i : atable t sz hv -> 0 <= i < 8192 ->
  let l := mock_stream i in let len := fst (symbol (sz, hv) l) in let sym := snd (symbol (sz, hv) l) in
  cache_entry t i = Ok (if (len + magnitude_bits (ht_dng_bug t) sym <=? 13)%nat
       then Some ((len + sym)%nat, difference sym (peekv sym (skipn len l))) else None).
Proof.
  intros D Hi l len sym. unfold cache_entry, mock_set.
  rewrite (shl64_exact i 32 13) by (change (2 ^ Z.of_nat 13) with 8192; lia). cbn [bind].
  set (m := mk_mpump (i * 2 ^ Z.of_nat 32) (CACHE_BITS + 32)).
  assert (RM : mock_rep 45 m l).
  { unfold mock_rep, m, l, mock_stream; cbn [m_bits m_nbits]. change (CACHE_BITS + 32)%nat with 45%nat.
    change (Z.of_nat 32) with 32. split; [|split; [lia|auto]].
    change (2 ^ Z.of_nat 45) with (8192 * 2 ^ 32). nia. }
  destruct (symbol_bounds t sz hv l D) as [B1 B2]. pose proof (at_nbits _ _ _ D) as NB0. fold len in B1. fold sym in B2.
  destruct (huff_slow_any mock_ops mock_rep mock_refines t sz hv 45 m l D) as (p' & E & R'); auto; try lia. fold len sym in E, R'.
  rewrite E. cbn [bind].
  assert (EX : (magnitude_bits (ht_dng_bug t) sym <= 16)%nat) by (unfold magnitude_bits; destruct (sym =? 16)%nat, (ht_dng_bug t); lia).
  assert (NB : m_nbits p' = (45 - (len + magnitude_bits (ht_dng_bug t) sym))%nat).
  { destruct R' as (_ & _ & EQ). apply (f_equal (@length bool)) in EQ.
    rewrite bits_of_length, skipn_length in EQ. unfold l, mock_stream in EQ. rewrite bits_of_length in EQ. auto. }
  unfold mock_validbits. rewrite NB.
  f_equal. replace (0 <=? Z.of_nat (45 - (len + magnitude_bits (ht_dng_bug t) sym)) - 32) with (len + magnitude_bits (ht_dng_bug t) sym <=? 13)%nat by lia.
  destruct (Nat.leb_spec (len + magnitude_bits (ht_dng_bug t) sym) 13); auto.
  do 2 f_equal. unfold wrap_i16.
  assert (-32768 <= difference sym (peekv sym (skipn len l)) <= 32767).
  { unfold difference. destruct (Nat.eqb_spec sym 0); [lia|]. destruct (Nat.eqb_spec sym 16); [lia|].
    pose proof (peekv_range sym (skipn len l)).
    assert (2 ^ Z.of_nat sym <= 32768) by (apply (pow2_le sym 15); lia).
    destruct (Z.ltb_spec (peekv sym (skipn len l)) (2 ^ Z.of_nat (sym - 1))); lia. }
  rewrite Z.mod_small by lia. lia.
Qed.

(** a cached entry is the entry of every bit string with this prefix *)
Lemma cache_agrees t sz hv l : atable t sz hv ->
  let m := mock_stream (peekv 13 l) in (fst (symbol (sz, hv) m) <= 13)%nat -> symbol (sz, hv) m = symbol (sz, hv) l.
Proof.
  intros D m Hle.
  assert (SAME : forall s, (s <= 13)%nat -> peekv s m = peekv s l).
  { intros s Hs. apply peekv_prefix. intros j Hj. apply mock_stream_nth. lia. }
  pose proof (peekv_range (ht_nbits t) l) as Rl. pose proof (peekv_range (ht_nbits t) m) as Rm.
  pose proof (lookup_symbol t sz hv l D) as Ll. pose proof (lookup_symbol t sz hv m D) as Lm.
  pose proof (at_nbits _ _ _ D) as NB.
  assert (X : lookup t (peekv (ht_nbits t) l) = lookup t (peekv (ht_nbits t) m)).
  { destruct (at_cases _ _ _ D _ Rm) as [(k & Hk & E)|[Hge E]].
    - destruct (at_block _ _ _ D k _ Hk Rm E) as [F _]. rewrite F. pose proof (at_sz _ _ _ D k Hk) as S.
      rewrite F in Lm. injection Lm as Hf Hsn. rewrite <- Hf in Hle. rewrite peekv_div in E by lia. rewrite SAME in E by auto.
      destruct (at_block _ _ _ D k _ Hk Rl) as [G _]; [rewrite peekv_div by lia; auto|]. auto.
    - rewrite E. destruct (at_cases _ _ _ D _ Rl) as [(k & Hk & F)|[_ F]]; [|auto].
      destruct (at_block _ _ _ D k _ Hk Rl F) as [_ HLT].
      assert (C : peekv (ht_nbits t) m <= peekv (ht_nbits t) l).
      { destruct (Nat.le_gt_cases (ht_nbits t) 13) as [L|G]; [rewrite SAME by auto; lia|].
        replace (ht_nbits t) with (13 + (ht_nbits t - 13))%nat by lia. rewrite !peekv_plus. rewrite (SAME 13%nat) by lia.
        enough (peekv (ht_nbits t - 13) (skipn 13 m) = 0) as ->.
        { pose proof (peekv_range (ht_nbits t - 13) (skipn 13 l)). lia. }
        unfold m. rewrite mock_stream_app. rewrite skipn_app, bits_of_length.
        rewrite skipn_all2 by (rewrite bits_of_length; auto). cbn [app Nat.sub skipn].
        replace 0 with (peekv (ht_nbits t - 13) []).
        - apply peekv_prefix. intros j Hj. rewrite nth_repeat. now destruct j.
        - generalize (ht_nbits t - 13)%nat. intros n. unfold peekv. clear. induction n as [|n IHn]; [reflexivity|]. cbn [take0 bval]. rewrite IHn. reflexivity. }
      lia. }
  rewrite Ll, Lm in X. injection X as X1 X2. rewrite (surjective_pairing (symbol (sz, hv) m)), (surjective_pairing (symbol (sz, hv) l)). congruence.
Qed.

Lemma huff_decode_any {P} (o : pump_ops P) rep (R : pump_refines o rep) t sz hv k p l :
  atable t sz hv -> (32 <= k)%nat -> rep k p l ->
  let len := fst (symbol (sz, hv) l) in let sym := snd (symbol (sz, hv) l) in
  exists p', huff_decode o t p = Ok (fst (next_diff (ht_dng_bug t) (sz, hv) l), p') /\
    rep (k - (len + magnitude_bits (ht_dng_bug t) sym))%nat p' (snd (next_diff (ht_dng_bug t) (sz, hv) l)).
Proof.
  intros D Hk HR len sym.
  assert (EN : next_diff (ht_dng_bug t) (sz, hv) l = (difference sym (peekv sym (skipn len l)), skipn (len + magnitude_bits (ht_dng_bug t) sym) l)).
  { unfold next_diff, len, sym. now destruct (symbol (sz, hv) l). }
  rewrite EN. cbn [fst snd].
  unfold huff_decode.
  destruct (pr_peek R k p l CACHE_BITS HR) as (p1 & E1 & R1 & C1); [unfold CACHE_BITS; lia|unfold CACHE_BITS; lia|].
  rewrite E1. cbn [bind]. change CACHE_BITS with 13%nat in *.
  assert (NE : exists x y, ht_table t = x :: y).
  { pose proof (at_len _ _ _ D) as H. destruct (ht_table t); eauto. simpl in H.
    pose proof (Nat.pow_nonzero 2 (ht_nbits t) ltac:(lia)). lia. }
  destruct NE as (x0 & y0 & NE). rewrite NE.
  pose proof (peekv_range 13 l) as PR. change (2 ^ Z.of_nat 13) with 8192 in PR.
  rewrite (cache_any t sz hv (peekv 13 l) D PR). cbn [bind].
  destruct (symbol_bounds t sz hv l D) as [B1 B2]. fold len in B1. fold sym in B2.
  match goal with |- context [if ?b then Some _ else None] => destruct b eqn:L13 end.
  2:{ destruct (huff_slow_any o rep R t sz hv k p1 l D Hk R1) as (p' & E & R'). rewrite E. cbn [bind]. eauto. }
  apply Nat.leb_le in L13. pose proof (cache_agrees t sz hv l D ltac:(lia)) as CA. rewrite CA in L13 |- *. fold len sym in L13. fold len sym.
  assert (EV : difference sym (peekv sym (skipn len (mock_stream (peekv 13 l)))) = difference sym (peekv sym (skipn len l))).
  { unfold magnitude_bits in L13. destruct (Nat.eqb_spec sym 16) as [E16|N16]; [unfold difference; rewrite E16; reflexivity|].
    f_equal. apply peekv_prefix. intros j Hj. rewrite !nth_skipn. apply mock_stream_nth. lia. }
  rewrite EV.
  assert (V : (difference sym (peekv sym (skipn len l)) =? -32768) = (sym =? 16)%nat).
  { unfold difference. destruct (Nat.eqb_spec sym 0) as [e|]; [clear -e; clearbody sym; subst; reflexivity|].
    destruct (Nat.eqb_spec sym 16); [reflexivity|].
    pose proof (peekv_range sym (skipn len l)).
    assert (2 ^ Z.of_nat sym <= 32768) by (apply (pow2_le sym 15); lia).
    destruct (Z.ltb_spec (peekv sym (skipn len l)) (2 ^ Z.of_nat (sym - 1))); apply Z.eqb_neq; lia. }
  rewrite V. destruct (C1 (len + magnitude_bits (ht_dng_bug t) sym)%nat L13) as (p2 & E2 & R2).
  unfold magnitude_bits in *. destruct (Nat.eqb_spec sym 16) as [E16|N16]; [destruct (ht_dng_bug t)|]; cbn [negb andb].
  - rewrite E16. rewrite E2. cbn [bind]. eauto.
  - rewrite usub_ok by lia. cbn [bind]. replace (len + sym - 16)%nat with (len + 0)%nat by lia.
    rewrite E2. cbn [bind]. eauto.
  - rewrite E2. cbn [bind]. eauto.
Qed.

(** ** Tables built by [ht_new] *)
Lemma max_len_le bits n : (max_len bits n <= n)%nat.
Proof. induction n; cbn [max_len]; [lia|]. destruct (_ =? _)%nat; lia. Qed.
Lemma max_len_zero bits n k : (max_len bits n < k <= n)%nat -> nth k bits 0%nat = 0%nat.
Proof.
  induction n; cbn [max_len]; [lia|]. destruct (Nat.eqb_spec (nth (S n) bits 0%nat) 0); [|lia].
  intros H. destruct (Nat.eq_dec k (S n)); [subst; auto|apply IHn; lia].
Qed.
Lemma sizes_code bits : code_sizes bits (max_len bits 16) = sizes_of bits.
Proof.
  unfold code_sizes, sizes_of. pose proof (max_len_le bits 16) as L. set (m := max_len bits 16) in *.
  replace 16%nat with (m + (16 - m))%nat at 1 by lia. rewrite seq_app, flat_map_app.
  assert (Z0 : flat_map (fun n => repeat n (nth n bits 0%nat)) (seq (1 + m) (16 - m)) = []).
  { assert (forall q a, (m < a)%nat -> (a + q <= 17)%nat -> flat_map (fun n => repeat n (nth n bits 0%nat)) (seq a q) = []) as G.
    { induction q; intros a Ha Hq; [reflexivity|]. cbn [seq flat_map]. rewrite (max_len_zero bits 16 a) by (unfold m in *; lia). apply IHq; lia. }
    apply G; lia. }
  rewrite Z0, app_nil_r. rewrite <- seq_shift, !flat_map_concat_map, map_map. reflexivity.
Qed.
Lemma sizes_in bits k : (k < length (sizes_of bits))%nat -> (1 <= nth k (sizes_of bits) 0 <= max_len bits 16)%nat.
Proof.
  intros H. pose proof (nth_In _ 0%nat H) as I. set (v := nth k (sizes_of bits) 0%nat) in *. clearbody v. rewrite <- sizes_code in I. unfold code_sizes in I.
  apply in_flat_map in I as (n & Hn & I). apply in_seq in Hn. apply repeat_spec in I. lia.
Qed.
Lemma sizes_mono bits : mono (sizes_of bits).
Proof.
  unfold sizes_of. generalize 16%nat as q. intros q. generalize 1%nat as a. induction q as [|q IH]; intros a; cbn [seq flat_map].
  - intros i j H. cbn in H. lia.
  - apply mono_app; [| apply IH |].
    + intros i j H. rewrite repeat_length in H. rewrite !nth_repeat_lt by lia. lia.
    + intros x y Hx Hy. apply repeat_spec in Hx. apply in_flat_map in Hy as (n & Hn & Hy). apply in_seq in Hn. apply repeat_spec in Hy. lia.
Qed.
Lemma fill_inv nb sz : forall pos hv sh f, fill_hufftable nb pos sz hv sh = Ok f -> (sz <> [] -> pos + length sz <= length hv /\ pos + length sz <= length sh)%nat.
Proof.
  induction sz as [|s sz IH]; intros pos hv sh f H; [congruence|]. intros _. cbn [fill_hufftable] in H.
  apply bind_ok in H as (v & H1 & H). apply bind_ok in H as (w & H2 & H). apply bind_ok in H as (r & H3 & H).
  apply (get_inv _ _ _ 0%nat) in H1. apply (get_inv _ _ _ 0%nat) in H2. destruct sz as [|s' sz]; cbn [length]; [lia|].
  specialize (IH _ _ _ _ H3 ltac:(discriminate)). cbn [length] in *. lia.
Qed.

Lemma ht_new_inv bits hv bug t : ht_new bits hv bug = Ok t ->
  (forall k, (k < length (sizes_of bits))%nat -> (nth k hv 0 <= 16)%nat) ->
  atable t (sizes_of bits) hv /\ ht_dng_bug t = bug.
Proof.
  unfold ht_new. rewrite sizes_code. pose proof (max_len_le bits 16) as NB. set (nb := max_len bits 16) in *. set (sz := sizes_of bits).
  intros H Hs. apply bind_ok in H as (f & Hf & H).
  assert (LS : (length sz <= length hv)%nat /\ (length sz <= 256)%nat).
  { destruct sz as [|s0 sz0] eqn:E; [cbn; lia|]. pose proof (fill_inv _ _ _ _ _ _ Hf ltac:(discriminate)) as X. rewrite repeat_length in X. lia. }
  rewrite fill_hufftable_spec in Hf by (intros k Hk; rewrite repeat_length; cbn [plus]; lia).
  assert (EQ : map (fun k => ((2 ^ (nb - nth k sz 0))%nat,
      (nth k sz 0%nat, (nth (0 + k) hv 0 mod 256)%nat, (nth (0 + k) (repeat 0 256) 0 mod 256)%nat))) (seq 0 (length sz))
    = map (fun k => ((2 ^ (nb - nth k sz 0))%nat, (nth k sz 0, nth k hv 0, 0)%nat)) (seq 0 (length sz))).
  { apply map_ext_in. intros k Hk. apply in_seq in Hk. cbn [plus]. rewrite nth_repeat.
    rewrite (Nat.mod_small (nth k hv 0%nat)) by (pose proof (Hs k ltac:(fold sz; lia)); lia). reflexivity. }
  rewrite EQ in Hf. clear EQ. injection Hf as Hf.
  apply bind_ok in H as (u & Hu & H). unfold assert_ in Hu. match type of Hu with (if ?b then _ else _) = _ => destruct b eqn:LB; [|discriminate] end.
  apply Nat.leb_le in LB. apply bind_ok in H as (u' & _ & H). injection H as <-. split; [|reflexivity].
  assert (HR : forall k, (k < length sz)%nat -> (1 <= nth k sz 0 <= nb)%nat) by (intros k Hk; apply sizes_in; exact Hk).
  destruct (Nat.eq_dec nb 0) as [E0|N0].
  { destruct sz as [|s0 sz0] eqn:Es; [|specialize (HR 0%nat ltac:(cbn; lia)); lia].
    cbn in Hf. subst f. rewrite E0. cbn. constructor; cbn [ht_nbits ht_table length]; try lia. intros c Hc. change (2 ^ Z.of_nat 0) with 1 in Hc.
    replace c with 0 by lia. right. split; [|reflexivity]. unfold start. cbn. lia. }
  assert (Rnb : (1 <= nb <= 16)%nat) by lia.
  assert (HK : start sz (length sz) <= 65536).
  { rewrite <- (bstart_start sz hv nb Rnb HR Hs (length sz)) by lia.
    set (l := map (fun k => ((2 ^ (nb - nth k sz 0))%nat, (nth k sz 0, nth k hv 0, 0)%nat)) (seq 0 (length sz))) in *.
    assert (LL : length l = length sz) by (unfold l; now rewrite map_length, seq_length).
    rewrite <- LL. rewrite <- blocks_length, Hf. apply Nat2Z.inj_le in LB. rewrite pow2_nat in LB.
    change 65536 with (2 ^ Z.of_nat 16). replace 16%nat with (nb + (16 - nb))%nat at 2 by lia. rewrite pow2_add. pose proof (pow2_pos (16 - nb)). nia. }
  pose proof (make_dtable sz hv nb Rnb HR (sizes_mono bits) HK Hs) as D. cbv zeta in D. rewrite Hf in D.
  eapply dtable_atable. exact D.
Qed.

Lemma Ok_inj {A} (a b : A) : Ok a = Ok b -> a = b.
Proof. now intros [= ->]. Qed.
Lemma blocks_len_fst {A B} (l : list (nat * A)) (m : list (nat * B)) : map fst l = map fst m -> length (blocks l) = length (blocks m).
Proof. intros E. rewrite !blocks_length. unfold bstart. rewrite !firstn_all. now rewrite E. Qed.

Lemma ht_new_kraft bits hv bug t : ht_new bits hv bug = Ok t -> kraft (sizes_of bits) <= 65536.
Proof.
  unfold ht_new. rewrite sizes_code. pose proof (max_len_le bits 16) as NB. set (nb := max_len bits 16) in *. set (sz := sizes_of bits).
  intros H. apply bind_ok in H as (f & Hf & H).
  assert (LS : (length sz <= length hv)%nat /\ (length sz <= 256)%nat).
  { destruct sz as [|s0 sz0] eqn:E; [cbn; lia|]. pose proof (fill_inv _ _ _ _ _ _ Hf ltac:(discriminate)) as X. rewrite repeat_length in X. lia. }
  rewrite fill_hufftable_spec in Hf by (intros k Hk; rewrite repeat_length; cbn [plus]; lia).
  apply bind_ok in H as (u & Hu & H). unfold assert_ in Hu. match type of Hu with (if ?b then _ else _) = _ => destruct b eqn:LB; [|discriminate] end.
  apply Nat.leb_le in LB.
  assert (HR : forall k, (k < length sz)%nat -> (1 <= nth k sz 0 <= nb)%nat) by (intros k Hk; apply sizes_in; exact Hk).
  destruct (Nat.eq_dec nb 0) as [E0|N0].
  { destruct sz as [|s0 sz0] eqn:Es; [cbn; lia|specialize (HR 0%nat ltac:(cbn; lia)); lia]. }
  assert (Rnb : (1 <= nb <= 16)%nat) by lia. set (hz := repeat 0%nat 256).
  assert (Hz : forall k, (k < length sz)%nat -> (nth k hz 0 <= 16)%nat) by (intros k Hk; unfold hz; rewrite nth_repeat; lia).
  rewrite <- (firstn_all sz), kraft_start. rewrite <- (bstart_start sz hz nb Rnb HR Hz (length sz)) by lia.
  set (l := map (fun k => ((2 ^ (nb - nth k sz 0))%nat, (nth k sz 0, nth k hz 0, 0)%nat)) (seq 0 (length sz))) in *.
  assert (LL : length l = length sz) by (unfold l; now rewrite map_length, seq_length).
  assert (LF : length (blocks l) = length f).
  { match type of Hf with Ok ?a = _ => transitivity (length a); [|now rewrite (Ok_inj _ _ Hf)] end.
    apply blocks_len_fst. unfold l. rewrite !map_map. reflexivity. }
  rewrite <- LL. rewrite <- blocks_length, LF. apply Nat2Z.inj_le in LB. rewrite pow2_nat in LB.
  change 65536 with (2 ^ Z.of_nat 16). replace 16%nat with (nb + (16 - nb))%nat at 2 by lia. rewrite pow2_add. pose proof (pow2_pos (16 - nb)). nia.
Qed.

Lemma ht_new_total bits hv bug : (length (sizes_of bits) <= length hv)%nat -> (length (sizes_of bits) <= 256)%nat -> kraft (sizes_of bits) <= 65536 ->
  (forall k, (k < length (sizes_of bits))%nat -> (nth k hv 0 <= 16)%nat) -> exists t, ht_new bits hv bug = Ok t.
Proof.
  intros L1 L2 HK Hs. unfold ht_new. rewrite sizes_code. pose proof (max_len_le bits 16) as NB. set (nb := max_len bits 16) in *. set (sz := sizes_of bits) in *.
  rewrite fill_hufftable_spec by (intros k Hk; rewrite repeat_length; cbn [plus]; lia). cbn [bind].
  assert (EQ : map (fun k => ((2 ^ (nb - nth k sz 0))%nat,
      (nth k sz 0%nat, (nth (0 + k) hv 0 mod 256)%nat, (nth (0 + k) (repeat 0 256) 0 mod 256)%nat))) (seq 0 (length sz))
    = map (fun k => ((2 ^ (nb - nth k sz 0))%nat, (nth k sz 0, nth k hv 0, 0)%nat)) (seq 0 (length sz))).
  { apply map_ext_in. intros k Hk. apply in_seq in Hk. cbn [plus]. rewrite nth_repeat.
    rewrite (Nat.mod_small (nth k hv 0%nat)) by (pose proof (Hs k ltac:(lia)); lia). reflexivity. }
  rewrite EQ. clear EQ.
  assert (HR : forall k, (k < length sz)%nat -> (1 <= nth k sz 0 <= nb)%nat) by (intros k Hk; apply sizes_in; exact Hk).
  set (l := map (fun k => ((2 ^ (nb - nth k sz 0))%nat, (nth k sz 0, nth k hv 0, 0)%nat)) (seq 0 (length sz))).
  assert (BL : (length (blocks l) <= 2 ^ nb)%nat).
  { destruct (Nat.eq_dec nb 0) as [E0|N0].
    - unfold l. destruct sz as [|s0 sz0] eqn:Es; [cbn; lia|specialize (HR 0%nat ltac:(cbn; lia)); lia].
    - apply (blocks_le sz hv nb); auto; [lia|]. rewrite <- kraft_start, firstn_all. exact HK. }
  rewrite (proj2 (Nat.leb_le _ _) BL). cbn [assert_ bind].
  set (t := mk_ht bug nb _).
  assert (D : atable t sz hv).
  { destruct (Nat.eq_dec nb 0) as [E0|N0].
    - unfold t, l. destruct sz as [|s0 sz0] eqn:Es; [|specialize (HR 0%nat ltac:(cbn; lia)); lia].
      rewrite E0. cbn. constructor; cbn [ht_nbits ht_table length]; try lia. intros c Hc. change (2 ^ Z.of_nat 0) with 1 in Hc.
      replace c with 0 by lia. right. split; [|reflexivity]. unfold start. cbn. lia.
    - apply dtable_atable. apply (make_dtable sz hv nb); auto; [lia|apply sizes_mono|]. rewrite <- kraft_start, firstn_all. exact HK. }
  destruct (for_each_seq_inv (fun i (_ : unit) => do _ <- cache_entry t (Z.of_nat i); Ok tt) (fun _ _ => True) 0 (Z.to_nat 8192) tt)
      as (u & E & _); auto.
  - intros i s Hi _. rewrite (cache_any t sz hv (Z.of_nat i) D) by lia. cbn [bind]. eauto.
  - rewrite E. cbn [bind]. eauto.
Qed.
