(** The Huffman table of a PEF maker note. *)
From Coq Require Import List ZArith Lia Bool Permutation.
From Coq Require Import ZifyBool ZifyNat.
From Verif Require Import Base BaseLemmas Pumps PumpProofs LjpegEnc LjpegDec HuffTree HuffCanon HuffBuild HuffDec HuffDht LjpegAnySpec LjpegAny Crx CrxLL CrxImageSpec PefSpec Lanes Pef PefRows.
Import ListNotations.
Open Scope Z_scope.

Lemma codeword_lt sz : (forall i j, (i <= j < length sz)%nat -> (nth i sz 0 <= nth j sz 0)%nat) ->
  (forall i, (i < length sz)%nat -> (1 <= nth i sz 0 <= 16)%nat) ->
  forall k n, (k + n < length sz)%nat -> (0 < n)%nat -> codeword sz k < codeword sz (k + n).
Proof.
  intros M R k n. rewrite !codeword_code.
  assert (S1 : forall k, (S k < length sz)%nat -> code sz k < code sz (S k)).
  { clear k n. intros k Hk. assert (E1 : code sz k * weight (nth k sz 0%nat) = start sz k) by (apply code_start; auto; [intros i Hi; apply R; auto|lia]).
    assert (E2 : code sz (S k) * weight (nth (S k) sz 0%nat) = start sz (S k)) by (apply code_start; auto; intros i Hi; apply R; auto).
    rewrite start_S, <- E1 in E2 by lia. pose proof (R k ltac:(lia)) as R1. pose proof (R (S k) Hk) as R2. pose proof (M k (S k) ltac:(lia)) as M1.
    rewrite !weight_nat in * by lia.
    replace (16 - nth k sz 0)%nat with ((16 - nth (S k) sz 0) + (nth (S k) sz 0 - nth k sz 0))%nat in E2 by lia.
    rewrite pow2_add in E2. pose proof (pow2_pos (16 - nth (S k) sz 0)%nat) as P1. pose proof (pow2_pos (nth (S k) sz 0 - nth k sz 0)%nat) as P2.
    pose proof (start_mono sz 0 k ltac:(lia)) as L0. rewrite start_0 in L0. pose proof (pow2_pos (16 - nth k sz 0)%nat).
    assert (0 <= code sz k) by nia.
    assert (code sz (S k) = (code sz k + 1) * 2 ^ Z.of_nat (nth (S k) sz 0 - nth k sz 0)%nat) by nia. nia. }
  induction n; intros H1 H2; [lia|]. replace (k + S n)%nat with (S (k + n)) in * by lia.
  destruct (Nat.eq_dec n 0) as [->|N]; [rewrite Nat.add_0_r in *; apply S1; auto|]. specialize (IHn ltac:(lia) ltac:(lia)).
  specialize (S1 (k + n)%nat H1). rewrite (codeword_code sz (k + n)) in IHn. rewrite (codeword_code sz (S (k + n))). lia.
Qed.

(** ** Filling an array in order *)
Lemma fill_ok {A} (f : nat -> res A) (g : nat -> A) n m d0 : (n <= m)%nat -> (forall i, (i < n)%nat -> f i = Ok (g i)) ->
  exists l, for_each (seq 0 n) (fun i l => do x <- f i; put l i x) (repeat d0 m) = Ok l /\ length l = m /\ forall i, (i < n)%nat -> nth i l d0 = g i.
Proof.
  intros Hm H. destruct (for_each_seq_inv (fun i l => do x <- f i; put l i x) (fun k l => length l = m /\ forall i, (i < k)%nat -> nth i l d0 = g i) 0 n (repeat d0 m)) as (l & E & I).
  - split; [apply repeat_length|lia].
  - intros i l Hi [L I]. rewrite H by lia. cbn [bind]. rewrite put_ok by lia. eexists. split; [reflexivity|]. split; [now rewrite upd_list_length|].
    intros j Hj. destruct (Nat.eq_dec j i) as [->|N]; [now rewrite nth_upd_eq by lia|rewrite nth_upd_neq by auto; apply I; lia].
  - exists l. split; auto.
Qed.

(** ** Reading the entry *)
Lemma put16_length big v : length (put16 big v) = 2%nat.
Proof. now destruct big. Qed.
Lemma rd16_put16 big v a b : rd16 big (a ++ put16 big v ++ b) (length a) = Ok v.
Proof.
  unfold rd16. assert (L : length (a ++ put16 big v ++ b) = (length a + (2 + length b))%nat) by (rewrite !app_length, put16_length; lia).
  rewrite (get_ok _ (length a) 0) by lia. cbn [bind]. rewrite (get_ok _ (length a + 1) 0) by lia. cbn [bind].
  rewrite (app_nth2 a _ 0 (n := length a)) by lia. rewrite (app_nth2 a _ 0 (n := (length a + 1)%nat)) by lia. rewrite Nat.sub_diag. replace (length a + 1 - length a)%nat with 1%nat by lia.
  pose proof (Z.div_mod v 256 ltac:(lia)). destruct big; cbn [put16 app nth]; f_equal; lia.
Qed.
Lemma flat16_length big (codes : list (Z * nat)) : length (flat_map (fun c => put16 big (fst c)) codes) = (2 * length codes)%nat.
Proof. induction codes; cbn [flat_map length]; auto. rewrite app_length, put16_length. lia. Qed.
Lemma flat16_split big (codes : list (Z * nat)) i : (i < length codes)%nat -> exists a b,
  flat_map (fun c => put16 big (fst c)) codes = a ++ put16 big (fst (nth i codes (0, 0%nat))) ++ b /\ length a = (2 * i)%nat.
Proof.
  revert i. induction codes as [|c codes IH]; intros i Hi; cbn [length] in Hi; [lia|]. destruct i.
  - exists [], (flat_map (fun c => put16 big (fst c)) codes). auto.
  - destruct (IH i ltac:(lia)) as (a & b & E & L). exists (put16 big (fst c) ++ a), b. cbn [flat_map nth]. rewrite E. rewrite <- !app_assoc.
    split; auto. rewrite app_length, put16_length. lia.
Qed.

Section Table.
  Variable big : bool.
  Variable skipped : list Z.
  Variable codes : list (Z * nat).
  Variables sz hv : list nat.
  Hypothesis Hskip : length skipped = 12%nat.
  Hypothesis Hn : (length codes <= 15)%nat.
  Hypothesis HC : canonical_table codes sz hv.
  Variable n : nat.
  Hypothesis En : n = length codes.
  Let data := pef_entry big skipped codes.

  Hypothesis Hsz : length sz = n.
  Hypothesis Hhv : length hv = n.
  Hypothesis Hnd : NoDup hv.
  Hypothesis Hin : forall k, (k < n)%nat -> (nth k hv 0 < n)%nat.
  Hypothesis Hmono : forall i j, (i <= j < length sz)%nat -> (nth i sz 0 <= nth j sz 0)%nat.
  Hypothesis Hrng : forall k, (k < length sz)%nat -> (1 <= nth k sz 0 <= 12)%nat.
  Hypothesis Hcode : forall k, (k < n)%nat -> nth (nth k hv 0%nat) codes (0, 0%nat) = (codeword sz k * 2 ^ Z.of_nat (12 - nth k sz 0%nat), nth k sz 0%nat).

  Lemma hv_perm : Permutation hv (seq 0 n).
  Proof.
    apply NoDup_Permutation_bis; auto; [rewrite seq_length; lia|]. intros x Hx. apply In_nth with (d := 0%nat) in Hx as (k & Hk & <-).
    apply in_seq. specialize (Hin k). lia.
  Qed.
  Lemma hv_onto c : (c < n)%nat -> exists k, (k < n)%nat /\ nth k hv 0%nat = c.
  Proof.
    intros Hc. assert (I : In c hv) by (apply (Permutation_in c (Permutation_sym hv_perm)); apply in_seq; lia).
    apply In_nth with (d := 0%nat) in I as (k & Hk & E). exists k. split; [lia|auto].
  Qed.
  Lemma code_shift c : (c < n)%nat -> exists k, (k < n)%nat /\ nth k hv 0%nat = c /\ snd (nth c codes (0, 0%nat)) = nth k sz 0%nat /\
    Z.shiftr (fst (nth c codes (0, 0%nat))) (12 - Z.of_nat (nth k sz 0%nat)) = codeword sz k.
  Proof.
    intros Hc. destruct (hv_onto c Hc) as (k & Hk & E). exists k. split; auto. split; auto. pose proof (Hcode k Hk) as X. rewrite E in X. rewrite X. cbn [fst snd].
    split; auto. pose proof (Hrng k ltac:(lia)). replace (12 - Z.of_nat (nth k sz 0%nat)) with (Z.of_nat (12 - nth k sz 0%nat)) by lia.
    rewrite Z.shiftr_div_pow2 by lia. apply Z.div_mul. pose proof (pow2_pos (12 - nth k sz 0)%nat). lia.
  Qed.

  (** *** Fields of the entry *)
  Lemma read_count : exists d, rd16 big data 0 = Ok d /\ Z.to_nat (Z.land (d + 12) 15) = n.
  Proof.
    exists (Z.of_nat ((n + 4) mod 16)). split; [rewrite En; apply (rd16_put16 big _ [])|].
    assert (E : forall m, (m <= 15)%nat -> Z.to_nat (Z.land (Z.of_nat ((m + 4) mod 16) + 12) 15) = m).
    { intros m Hm. do 16 (destruct m as [|m]; [reflexivity|]). lia. }
    apply E. lia.
  Qed.
  Lemma read_code i : (i < n)%nat -> rd16 big data (14 + 2 * i) = Ok (fst (nth i codes (0, 0%nat))).
  Proof.
    intros Hi. destruct (flat16_split big codes i ltac:(lia)) as (a & b & E & L). unfold data, pef_entry. rewrite E.
    set (p := put16 big (Z.of_nat _)). set (q := map _ codes).
    replace (p ++ skipped ++ (a ++ put16 big (fst (nth i codes (0, 0%nat))) ++ b) ++ q) with ((p ++ skipped ++ a) ++ put16 big (fst (nth i codes (0, 0%nat))) ++ (b ++ q)) by (now rewrite <- !app_assoc).
    replace (14 + 2 * i)%nat with (length (p ++ skipped ++ a)) by (rewrite !app_length; unfold p; rewrite put16_length; lia). apply rd16_put16.
  Qed.
  Lemma read_size i : (i < n)%nat -> get data (14 + 2 * n + i) = Ok (Z.of_nat (snd (nth i codes (0, 0%nat)))).
  Proof.
    intros Hi. unfold data, pef_entry. set (p := put16 big (Z.of_nat _)). set (q := map _ codes).
    set (f := flat_map _ codes). assert (L : length (p ++ skipped ++ f) = (14 + 2 * n)%nat).
    { rewrite !app_length. unfold p, f. rewrite put16_length, flat16_length. lia. }
    replace (p ++ skipped ++ f ++ q) with ((p ++ skipped ++ f) ++ q) by (now rewrite <- !app_assoc).
    assert (Lq : length q = n) by (unfold q; now rewrite map_length, En).
    rewrite (get_ok _ _ 0) by (rewrite app_length; lia). rewrite app_nth2 by lia. rewrite L. replace (14 + 2 * n + i - (14 + 2 * n))%nat with i by lia.
    unfold q. rewrite (nth_indep _ 0 (Z.of_nat (snd (0, 0%nat)))) by (rewrite map_length; lia). now rewrite (map_nth (fun c : Z * nat => Z.of_nat (snd c))).
  Qed.

  (** *** Sorting the symbols *)
  Definition keys (i : nat) (v2 : list (option Z)) : Prop :=
    length v2 = 16%nat /\ forall k, (k < n)%nat -> nth (nth k hv 0%nat) v2 None = if (k <? i)%nat then None else Some (codeword sz k).
  Lemma cw_bound k : (k < n)%nat -> 0 <= codeword sz k < 268435455.
  Proof.
    intros Hk. pose proof (Hrng k ltac:(lia)).
    assert (0 <= codeword sz k < 2 ^ Z.of_nat (nth k sz 0%nat)) by (apply codeword_range; auto; [intros i Hi; specialize (Hrng i Hi); lia|apply HC|lia]).
    assert (2 ^ Z.of_nat (nth k sz 0%nat) <= 2 ^ Z.of_nat 12) by (apply (pow2_le (nth k sz 0%nat) 12); lia). change (2 ^ Z.of_nat 12) with 4096 in *. lia.
  Qed.
  Lemma smallest i v2 : (i < n)%nat -> keys i v2 -> exists v, for_each (seq 0 n) (smaller v2) (268435455, 255%nat) = Ok (v, nth i hv 0%nat).
  Proof.
    intros Hi [L K].
    assert (M : forall k, (i < k < n)%nat -> codeword sz i < codeword sz k).
    { intros k Hk. replace k with (i + (k - i))%nat by lia. apply codeword_lt; auto; try lia. intros j Hj. specialize (Hrng j Hj). lia. }
    destruct (for_each_seq_inv (smaller v2) (fun j sm =>
        (forall k, (i <= k < n)%nat -> (nth k hv 0 < j)%nat -> fst sm <= codeword sz k) /\
        (codeword sz i <= fst sm) /\ ((nth i hv 0 < j)%nat -> sm = (codeword sz i, nth i hv 0%nat))) 0 n (268435455, 255%nat)) as ([v x] & E & I).
    - cbn [fst]. pose proof (cw_bound i Hi). repeat split; intros; lia.
    - intros j sm Hj (I1 & I2 & I3). unfold smaller. rewrite (get_ok _ _ None) by lia. cbn [bind].
      destruct (hv_onto j ltac:(lia)) as (k & Hk & Ek). pose proof (K k Hk) as Kk. rewrite Ek in Kk. rewrite Kk.
      assert (UNI : forall k', (k' < n)%nat -> nth k' hv 0%nat = j -> k' = k).
      { intros k' Hk' E'. apply (proj1 (NoDup_nth hv 0%nat) Hnd); lia. }
      destruct (Nat.ltb_spec k i) as [Lt|Ge].
      + exists sm. split; auto. split; [|split; auto].
        * intros k' Hk' Hb. apply I1; auto. destruct (Nat.eq_dec (nth k' hv 0%nat) j) as [e|]; [|lia]. specialize (UNI k' ltac:(lia) e). lia.
        * intros Hb. apply I3. destruct (Nat.eq_dec (nth i hv 0%nat) j) as [e|]; [|lia]. specialize (UNI i Hi e). lia.
      + destruct (Z.leb_spec (codeword sz k) (fst sm)) as [Le|Gt].
        * eexists. split; [reflexivity|]. cbn [fst]. split; [|split].
          -- intros k' Hk' Hb. destruct (Nat.eq_dec (nth k' hv 0%nat) j) as [e|Ne]; [rewrite (UNI k' ltac:(lia) e); lia|]. specialize (I1 k' Hk' ltac:(lia)). lia.
          -- destruct (Nat.eq_dec k i) as [->|]; [lia|]. specialize (M k ltac:(lia)). lia.
          -- intros Hb. destruct (Nat.eq_dec k i) as [->|Nk]; [now rewrite Ek|]. specialize (M k ltac:(lia)).
             destruct (Nat.eq_dec (nth i hv 0%nat) j) as [e|Ne]; [specialize (UNI i Hi e); lia|]. rewrite (I3 ltac:(lia)) in Le. cbn [fst] in Le. lia.
        * exists sm. split; auto. split; [|split; auto].
          -- intros k' Hk' Hb. destruct (Nat.eq_dec (nth k' hv 0%nat) j) as [e|Ne]; [rewrite (UNI k' ltac:(lia) e); lia|]. apply I1; auto. lia.
          -- intros Hb. destruct (Nat.eq_dec (nth i hv 0%nat) j) as [e|Ne]; [|apply I3; lia]. specialize (UNI i Hi e). subst k. lia.
    - exists (codeword sz i). rewrite E. f_equal. destruct I as (_ & _ & I3). apply I3. apply Hin. auto.
  Qed.
  Lemma order_ok v2 : keys 0 v2 -> exists hv', order_symbols n v2 = Ok hv' /\ length hv' = 256%nat /\ forall k, (k < n)%nat -> nth k hv' 0%nat = nth k hv 0%nat.
  Proof.
    intros K. unfold order_symbols.
    match goal with |- context [for_each (seq 0 n) ?G ?S0] =>
      destruct (for_each_seq_inv G (fun i '(v2, h) => keys i v2 /\ length h = 256%nat /\ forall k, (k < i)%nat -> nth k h 0%nat = nth k hv 0%nat) 0 n S0) as ([v2' h'] & E & I) end.
    - split; [auto|]. split; [apply repeat_length|lia].
    - intros i [v h] Hi (Kv & L & H). destruct (smallest i v ltac:(lia) Kv) as (x & E). rewrite E. cbn [bind snd].
      rewrite put_ok by lia. cbn [bind]. pose proof (Hin i ltac:(lia)) as Hb. destruct Kv as [Lv Kv]. rewrite put_ok by lia. cbn [bind].
      eexists. split; [reflexivity|]. split; [|split].
      + split; [now rewrite upd_list_length|]. intros k Hk. destruct (Nat.eq_dec k i) as [->|N].
        * rewrite nth_upd_eq by lia. replace (i <? S i)%nat with true by lia. reflexivity.
        * rewrite nth_upd_neq; [rewrite Kv by auto; replace (k <? S i)%nat with (k <? i)%nat by lia; reflexivity|].
          intros Eq. apply N. apply (proj1 (NoDup_nth hv 0%nat) Hnd); lia.
      + now rewrite upd_list_length.
      + intros k Hk. destruct (Nat.eq_dec k i) as [->|N]; [now rewrite nth_upd_eq by lia|rewrite nth_upd_neq by auto; apply H; lia].
    - rewrite E. cbn [bind]. destruct I as (_ & L & H). exists h'. split; [reflexivity|]. split; auto.
  Qed.

  (** *** Counting the code lengths *)
  Definition size_count (m : nat) (c : nat) : nat := length (filter (fun i => (snd (nth i codes (0%Z, 0)) =? c)%nat) (seq 0 m)).
  Lemma size_count_S m c : size_count (S m) c = (size_count m c + if (snd (nth m codes (0%Z, 0)) =? c)%nat then 1 else 0)%nat.
  Proof. unfold size_count. rewrite seq_S, filter_app, app_length. cbn [filter plus]. destruct (_ =? _)%nat; cbn [length]; lia. Qed.
  Lemma size_count_sz c : size_count n c = count sz c.
  Proof.
    unfold size_count, count.
    assert (P : Permutation (map (fun i => snd (nth i codes (0, 0%nat))) (seq 0 n)) sz).
    { rewrite <- hv_perm. replace (map (fun i => snd (nth i codes (0, 0%nat))) hv) with sz; auto.
      apply (nth_ext_len _ _ 0%nat); [rewrite map_length; lia|]. intros k Hk.
      rewrite (nth_indep (map _ hv) 0%nat (snd (nth 0 codes (0, 0%nat)))) by (rewrite map_length; lia).
      rewrite (map_nth (fun i => snd (nth i codes (0, 0%nat))) hv 0%nat). rewrite Hcode by lia. reflexivity. }
    transitivity (length (filter (fun s => (s =? c)%nat) (map (fun i => snd (nth i codes (0, 0%nat))) (seq 0 n)))).
    - clear. induction (seq 0 n); cbn [filter map]; auto. destruct (_ =? _)%nat; cbn [length]; auto.
    - clear - P. induction P; cbn [filter]; auto; repeat (destruct (_ =? _)%nat; cbn [length]; auto); congruence.
  Qed.

  Lemma table_ok : exists hv', pef_table big data = Ok (dht_bits sz, hv') /\ length hv' = 256%nat /\ forall k, (k < n)%nat -> nth k hv' 0%nat = nth k hv 0%nat.
  Proof.
    unfold pef_table. destruct read_count as (d & E0 & E1). rewrite E0. cbn [bind]. rewrite E1.
    destruct (fill_ok (fun i => rd16 big data (14 + 2 * i)) (fun i => fst (nth i codes (0, 0%nat))) n 16 0) as (v0 & F0 & L0 & H0); [lia|intros; now apply read_code|].
    rewrite F0. cbn [bind].
    destruct (fill_ok (fun i => get data (14 + 2 * n + i)) (fun i => Z.of_nat (snd (nth i codes (0, 0%nat)))) n 16 0) as (v1 & F1 & L1 & H1); [lia|intros; now apply read_size|].
    rewrite F1. cbn [bind].
    match goal with |- context [for_each (seq 0 n) ?G ?S0] =>
      destruct (for_each_seq_inv G (fun m '(v2, bits) => length v2 = 16%nat /\ length bits = 17%nat /\
        (forall k, (k < n)%nat -> (nth k hv 0 < m)%nat -> nth (nth k hv 0%nat) v2 None = Some (codeword sz k)) /\
        (forall c, (c < 17)%nat -> nth c bits 0%nat = size_count m c)) 0 n S0) as ([v2 bits] & E & I) end.
    - split; [reflexivity|]. split; [reflexivity|]. split; [intros; lia|]. intros c Hc. unfold size_count. cbn [seq filter length]. apply nth_repeat_lt. auto.
    - intros m [v2 bits] Hm (Lv & Lb & Hv & Hb). rewrite (get_ok _ _ 0) by lia. cbn [bind]. rewrite (get_ok _ _ 0) by lia. cbn [bind].
      rewrite H0, H1 by lia. destruct (code_shift m ltac:(lia)) as (k & Hk & Ek & Es & Ec). pose proof (Hrng k ltac:(lia)) as Rk. rewrite Es.
      unfold u32. replace ((0 <=? 12 - Z.of_nat (nth k sz 0%nat)) && (12 - Z.of_nat (nth k sz 0%nat) <? 2 ^ 32)) with true by lia. cbn [bind].
      rewrite Ec. rewrite put_ok by lia. cbn [bind]. rewrite Nat2Z.id. rewrite (get_ok _ _ 0%nat) by lia. cbn [bind]. rewrite put_ok by lia. cbn [bind].
      eexists. split; [reflexivity|]. split; [now rewrite upd_list_length|]. split; [now rewrite upd_list_length|]. split.
      + intros k' Hk' Hlt. destruct (Nat.eq_dec (nth k' hv 0%nat) m) as [e|Ne].
        * rewrite e, nth_upd_eq by lia. do 2 f_equal. apply (proj1 (NoDup_nth hv 0%nat) Hnd); lia.
        * rewrite nth_upd_neq by auto. apply Hv; lia.
      + intros c Hc. rewrite size_count_S, Es. destruct (Nat.eqb_spec (nth k sz 0%nat) c) as [<-|Ne].
        * rewrite nth_upd_eq by lia. rewrite Hb by lia. lia.
        * rewrite nth_upd_neq by auto. rewrite Hb by lia. lia.
    - rewrite E. cbn [bind]. destruct I as (Lv & Lb & Hv & Hb). destruct (order_ok v2) as (hv' & EO & LH & HH).
      { split; auto. intros k Hk. cbn [Nat.ltb Nat.leb]. apply Hv; auto. }
      rewrite EO. cbn [bind]. exists hv'. split; [|auto]. do 2 f_equal. apply (nth_ext_len _ _ 0%nat).
      + rewrite Lb. unfold dht_bits. cbn [length]. now rewrite map_length, seq_length.
      + intros c Hc. rewrite Hb by lia. cbn [plus]. rewrite size_count_sz. destruct c.
        * unfold dht_bits. cbn [nth]. apply count_zero. intros k Hk. specialize (Hrng k Hk). lia.
        * rewrite dht_bits_nth by lia. reflexivity.
  Qed.
  Lemma sizes_dht : (1 <= n)%nat -> sizes_of (dht_bits sz) = sz.
  Proof.
    intros H1. rewrite <- sizes_code. rewrite max_len_dht by (try lia; auto; intros k Hk; specialize (Hrng k Hk); lia).
    apply code_sizes_dht; auto.
    - specialize (Hrng (length sz - 1)%nat ltac:(lia)). lia.
    - intros k Hk. specialize (Hrng k Hk). pose proof (Hmono k (length sz - 1)%nat ltac:(lia)). lia.
  Qed.
End Table.
