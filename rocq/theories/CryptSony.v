(** Proofs about the Sony word cipher. *)
From Coq Require Import List ZArith Bool Lia.
From Verif Require Import Base BaseLemmas Bits Tiff TiffSpec TiffBytes Crypt CryptSpec CryptProofs.
Import ListNotations.
Open Scope Z_scope.

Local Opaque le_bytes.

Fixpoint lcgs (key : Z) (n : nat) : Z := match n with O => key | S n => lcg (lcgs key n) end.

Lemma lcg_step v : wrap_u32 (wrap_u32 (v * 48828125) + 1) = lcg v.
Proof. unfold wrap_u32, lcg. now rewrite Zplus_mod_idemp_l. Qed.

Lemma init4 key : exists m pad, sony_init4 key = Ok (m, pad) /\ length pad = 128%nat /\
  forall j, (j < 4)%nat -> nth j pad 0 = lcgs key (S j).
Proof.
  unfold sony_init4.
  destruct (for_each_seq_inv (fun p '(mkey, pad) =>
     let mkey := wrap_u32 (wrap_u32 (mkey * 48828125) + 1) in do pad <- put pad p mkey; Ok (mkey, pad))
     (fun p (st : Z * list Z) => fst st = lcgs key p /\ length (snd st) = 128%nat /\ forall j, (j < p)%nat -> nth j (snd st) 0 = lcgs key (S j))
     0 4 (key, repeat 0 128)) as ([m pad] & E & H1 & H2 & H3).
  - cbn [fst snd]. split; [reflexivity|]. split; [apply repeat_length|]. intros; lia.
  - intros i [m pad] Hi (H1 & H2 & H3). cbn [fst snd] in *. cbv zeta. rewrite lcg_step, put_ok by lia. cbn [bind].
    eexists. split; [reflexivity|]. cbn [fst snd]. split; [rewrite H1; reflexivity|]. split; [now rewrite upd_list_length|].
    intros j Hj. rewrite nth_upd by lia. destruct (Nat.eqb_spec i j) as [<-|N]; [rewrite H1; reflexivity|apply H3; lia].
  - cbn [fst snd] in *. exists m, pad. split; [exact E|]. split; [exact H2|]. exact H3.
Qed.

Lemma mix_model a b c d : Z.lor (shl32 (Z.lxor a c) 1) (Z.shiftr (Z.lxor b d) 31) = mix a b c d.
Proof. unfold mix, shl32, wrap_u32. rewrite Z.shiftr_div_pow2 by lia. reflexivity. Qed.

Lemma sony_pad_ok key s : sony_seed key s ->
  exists pad, sony_pad key = Ok pad /\ length pad = 128%nat /\ forall j, (j < 127)%nat -> nth j pad 0 = swap32 (s j).
Proof.
  intros (S0 & S1 & S2 & S3 & Sp). unfold sony_pad.
  destruct (init4 key) as (m & pad & -> & L & H). cbn [bind].
  rewrite (get_ok pad 3 0) by lia. cbn [bind]. rewrite (get_ok pad 0 0) by lia. cbn [bind].
  rewrite (get_ok pad 2 0) by lia. cbn [bind].
  rewrite put_ok by lia. cbn [bind]. set (pad1 := upd_list _ _ _).
  assert (L1 : length pad1 = 128%nat) by (unfold pad1; now rewrite upd_list_length).
  assert (H1 : forall j, (j < 4)%nat -> nth j pad1 0 = s j).
  { intros j Hj. unfold pad1. rewrite nth_upd by lia. destruct (Nat.eqb_spec 3 j) as [<-|N].
    - rewrite S3, !H by lia. unfold shl32, wrap_u32. rewrite Z.shiftr_div_pow2 by lia. reflexivity.
    - rewrite H by lia. destruct j as [|[|[|j]]]; [rewrite S0|rewrite S1|rewrite S2|lia]; reflexivity. }
  clearbody pad1. clear pad L H.
  edestruct (for_each_seq_inv (fun p pad =>
    do a <- get pad (p - 4); do b <- get pad (p - 2); do c <- get pad (p - 3); do d <- get pad (p - 1);
    put pad p (Z.lor (shl32 (Z.lxor a b) 1) (Z.shiftr (Z.lxor c d) 31)))
    (fun p pad => length pad = 128%nat /\ forall j, (j < p)%nat -> nth j pad 0 = s j) 4 123 pad1) as (pad2 & E2 & L2 & H2).
  - now split.
  - intros i pd Hi (Lp & Hp). cbv beta.
    rewrite (get_ok pd (i - 4) 0) by lia. cbn [bind]. rewrite (get_ok pd (i - 2) 0) by lia. cbn [bind].
    rewrite (get_ok pd (i - 3) 0) by lia. cbn [bind]. rewrite (get_ok pd (i - 1) 0) by lia. cbn [bind].
    rewrite put_ok by lia. eexists. split; [reflexivity|]. split; [now rewrite upd_list_length|].
    intros j Hj. rewrite nth_upd by lia. destruct (Nat.eqb_spec i j) as [<-|N]; [|apply Hp; lia].
    rewrite mix_model, !Hp by lia. symmetry. apply Sp. lia.
  - rewrite E2. cbn [bind]. clear E2 pad1 L1 H1.
    edestruct (for_each_seq_inv (fun p pad => do v <- get pad p; put pad p (swap32 v))
      (fun p pad => length pad = 128%nat /\ (forall j, (j < p)%nat -> nth j pad 0 = swap32 (s j)) /\
                    (forall j, (p <= j < 127)%nat -> nth j pad 0 = s j)) 0 127 pad2) as (pad3 & E3 & L3 & H3 & _).
    + split; [exact L2|]. split; [intros; lia|]. intros j Hj. apply H2. lia.
    + intros i pd Hi (Lp & Hp & Hq). cbv beta. rewrite (get_ok pd i 0) by lia. cbn [bind]. rewrite put_ok by lia.
      eexists. split; [reflexivity|]. split; [now rewrite upd_list_length|]. split.
      * intros j Hj. rewrite nth_upd by lia. destruct (Nat.eqb_spec i j) as [<-|N]; [|apply Hp; lia]. rewrite Hq by lia. reflexivity.
      * intros j Hj. rewrite nth_upd by lia. destruct (Nat.eqb_spec i j) as [<-|N]; [lia|]. apply Hq. lia.
    + exists pad3. split; [exact E3|]. split; [exact L3|]. intros j Hj. apply H3. lia.
Qed.

Lemma land127 n : Nat.land n 127 = (n mod 128)%nat.
Proof. change 127%nat with (Nat.ones 7). rewrite Nat.land_ones. reflexivity. Qed.

Definition masked (buf : list Z) (off : nat) (w : nat -> Z) (k : nat) : list Z :=
  le_bytes 4 (Z.lxor (word_at buf (off + k * 4)) (w (k + 127)%nat)).

Lemma word_LEu32 buf pos : (pos + 4 <= length buf)%nat -> LEu32 buf pos = Ok (word_at buf pos).
Proof.
  intros H. unfold LEu32, word_at. rewrite slice_ok by lia. cbn [bind]. now replace (pos + 4 - pos)%nat with 4%nat by lia.
Qed.

Lemma sony_loop buf off n w pad0 :
  (off + 4 * n <= length buf)%nat -> length pad0 = 128%nat ->
  (forall j, (j < 127)%nat -> nth j pad0 0 = w j) -> (forall p, w (p + 127)%nat = Z.lxor (w p) (w (p + 64)%nat)) ->
  exists pad, for_each (seq 0 n) (sony_step buf off) (pad0, []) = Ok (pad, flat_map (masked buf off w) (seq 0 n)).
Proof.
  intros Hb L0 H0 Hw.
  edestruct (for_each_seq_inv (sony_step buf off)
    (fun i (st : list Z * list Z) => length (fst st) = 128%nat /\
       (forall j, (i <= j < i + 127)%nat -> nth (j mod 128) (fst st) 0 = w j) /\
       snd st = flat_map (masked buf off w) (seq 0 i)) 0 n (pad0, [])) as ([pad out] & E & _ & _ & Ho).
  - cbn [fst snd]. split; [exact L0|]. split; [|reflexivity]. intros j Hj. rewrite Nat.mod_small by lia. apply H0. lia.
  - intros i [pad out] Hi (L & Hp & Ho). cbn [fst snd] in *. unfold sony_step. rewrite !land127.
    assert (M1 : ((i + 127 + 1) mod 128 = i mod 128)%nat).
    { replace (i + 127 + 1)%nat with (i + 1 * 128)%nat by lia. apply Nat.mod_add. lia. }
    assert (M2 : ((i + 127 + 1 + 64) mod 128 = (i + 64) mod 128)%nat).
    { replace (i + 127 + 1 + 64)%nat with (i + 64 + 1 * 128)%nat by lia. apply Nat.mod_add. lia. }
    rewrite M1, M2. pose proof (Nat.mod_upper_bound i 128). pose proof (Nat.mod_upper_bound (i + 64) 128).
    pose proof (Nat.mod_upper_bound (i + 127) 128) as M3.
    rewrite (get_ok pad _ 0) by lia. cbn [bind]. rewrite (get_ok pad _ 0) by lia. cbn [bind].
    rewrite put_ok by lia. cbn [bind]. rewrite word_LEu32 by lia. cbn [bind].
    rewrite (get_ok _ _ 0) by (rewrite upd_list_length; lia). cbn [bind].
    rewrite nth_upd_eq by lia. rewrite (Hp i), (Hp (i + 64)%nat) by lia. rewrite <- Hw.
    eexists. split; [reflexivity|]. cbn [fst snd]. split; [now rewrite upd_list_length|]. split.
    + intros j Hj. rewrite nth_upd by lia. destruct (Nat.eqb_spec ((i + 127) mod 128) (j mod 128)) as [Em|N].
      * assert (j = i + 127)%nat as ->; [|reflexivity].
        assert (Hj' : (i < j <= i + 127)%nat) by lia. clear - Em Hj'.
        pose proof (Nat.div_mod (i + 127) 128). pose proof (Nat.div_mod j 128). lia.
      * apply Hp. assert (j <> i + 127)%nat by (intros ->; now apply N). lia.
    + rewrite flat_map_seq_S, <- Ho. reflexivity.
  - exists pad. rewrite E. cbn [snd] in Ho. now rewrite Ho.
Qed.

Lemma sony_decrypt_ok buf off len key w : sony_stream key w -> (off + 4 * (len / 4) <= length buf)%nat ->
  sony_decrypt buf off len key = Ok (flat_map (masked buf off w) (seq 0 (len / 4))).
Proof.
  intros (s & Hs & Hw & Hr) Hb. unfold sony_decrypt.
  replace (length buf <? off + 4 * (len / 4))%nat with false by (symmetry; apply Nat.ltb_ge; lia).
  destruct (sony_pad_ok key s Hs) as (pad & -> & L & H). cbn [bind].
  destruct (sony_loop buf off (len / 4) w pad) as (pad' & ->); auto.
  intros j Hj. rewrite H, Hw by lia. reflexivity.
Qed.

(** ** existence of the key stream *)
Fixpoint seed4 (key : Z) (n : nat) : Z * Z * Z * Z :=
  match n with
  | O => let k1 := lcg key in let k2 := lcg k1 in let k3 := lcg k2 in let k4 := lcg k3 in
         (k1, k2, k3, Z.lor ((k4 * 2) mod 2 ^ 32) (Z.lxor k1 k3 / 2 ^ 31))
  | S n => let '(a, b, c, d) := seed4 key n in (b, c, d, mix a b c d)
  end.
Definition seed (key : Z) (n : nat) : Z := let '(a, _, _, _) := seed4 key n in a.

Lemma seed_ok key : sony_seed key (seed key).
Proof.
  unfold sony_seed. cbv zeta. do 4 (split; [reflexivity|]). intros p Hp.
  replace p with (S (S (S (S (p - 4))))) at 1 by lia.
  replace (p - 3)%nat with (S (p - 4)) by lia. replace (p - 2)%nat with (S (S (p - 4))) by lia.
  replace (p - 1)%nat with (S (S (S (p - 4)))) by lia. unfold seed. cbn [seed4].
  destruct (seed4 key (p - 4)) as [[[a b] c] d]. reflexivity.
Qed.

Fixpoint hist (key : Z) (n : nat) : list Z :=
  match n with
  | O => []
  | S n => (if (n <? 127)%nat then dec BE (enc LE 4 (seed key n)) else Z.lxor (nth 126 (hist key n) 0) (nth 62 (hist key n) 0)) :: hist key n
  end.
Definition stream (key : Z) (n : nat) : Z := nth 0 (hist key (S n)) 0.

Lemma hist_nth key n j : (j < n)%nat -> nth j (hist key n) 0 = stream key (n - 1 - j).
Proof.
  revert j. induction n; intros j Hj; [lia|]. destruct j as [|j].
  - unfold stream. now replace (S n - 1 - 0)%nat with n by lia.
  - cbn [hist nth]. rewrite IHn by lia. f_equal. lia.
Qed.

Lemma stream_ok key : sony_stream key (stream key).
Proof.
  exists (seed key). split; [apply seed_ok|]. split.
  - intros p Hp. unfold stream. cbn [hist nth]. now replace (p <? 127)%nat with true by (symmetry; apply Nat.ltb_lt; lia).
  - intros p. unfold stream at 1. cbn [hist nth].
    replace (p + 127 <? 127)%nat with false by (symmetry; apply Nat.ltb_ge; lia).
    rewrite !hist_nth by lia. f_equal; f_equal; lia.
Qed.

(** ** ranges *)
Lemma lxor_range a b : urange 32 a -> urange 32 b -> urange 32 (Z.lxor a b).
Proof.
  unfold urange. intros Ha Hb. split; [apply Z.lxor_nonneg; lia|].
  destruct (Z.eq_dec (Z.lxor a b) 0) as [->|N]; [lia|].
  assert (P : 0 <= Z.lxor a b) by (apply Z.lxor_nonneg; lia).
  apply Z.log2_lt_pow2; [lia|].
  eapply Z.le_lt_trans; [apply Z.log2_lxor; lia|].
  assert (G : forall x, 0 <= x < 2 ^ 32 -> Z.log2 x < 32).
  { intros x Hx. destruct (Z.eq_dec x 0) as [->|]; [cbn; lia|]. apply Z.log2_lt_pow2; lia. }
  pose proof (G a Ha). pose proof (G b Hb). lia.
Qed.

Lemma stream_range key w : sony_stream key w -> forall n, urange 32 (w n).
Proof.
  intros (s & _ & Hw & Hr) n. induction n as [n IH] using lt_wf_ind.
  destruct (Nat.lt_ge_cases n 127) as [L|L].
  - rewrite Hw by lia. unfold urange. change 32 with (8 * Z.of_nat 4).
    pose proof (dec_range BE (enc LE 4 (s n))) as D. rewrite enc_length in D. apply D. apply le_bytes_byte.
  - replace n with (n - 127 + 127)%nat by lia. rewrite Hr. apply lxor_range; apply IH; lia.
Qed.

Lemma word_range buf pos : Forall is_byte buf -> (pos + 4 <= length buf)%nat -> urange 32 (word_at buf pos).
Proof.
  intros Hb Hl. unfold word_at, urange. change 32 with (8 * Z.of_nat 4).
  assert (L : length (firstn 4 (skipn pos buf)) = 4%nat) by (rewrite firstn_length, skipn_length; lia).
  pose proof (dec_range LE (firstn 4 (skipn pos buf))) as D. rewrite L in D. apply D.
  apply Forall_forall. intros x Hx.
  unfold urange. change (2 ^ 8) with 256. rewrite Forall_forall in Hb. apply Hb.
  rewrite <- (firstn_skipn pos buf). apply in_or_app. right.
  rewrite <- (firstn_skipn 4 (skipn pos buf)). apply in_or_app. now left.
Qed.

Lemma masked_length buf off w k : length (masked buf off w k) = 4%nat.
Proof. apply le_bytes_length. Qed.

Lemma word_flat (f : nat -> list Z) n k : (forall i, length (f i) = 4%nat) -> (k < n)%nat ->
  firstn 4 (skipn (k * 4) (flat_map f (seq 0 n))) = f k.
Proof.
  intros Hf Hk. apply (nth_ext_len _ _ 0).
  - rewrite firstn_length, skipn_length, (flat_map_seq_length f n 4) by auto. rewrite Hf. lia.
  - intros j Hj. rewrite firstn_length, skipn_length, (flat_map_seq_length f n 4) in Hj by auto.
    rewrite nth_firstn by lia. rewrite nth_skipn. apply flat_map_seq_nth; auto. lia.
Qed.

Lemma words_back buf off n : Forall is_byte buf -> (off + 4 * n <= length buf)%nat ->
  flat_map (fun k => le_bytes 4 (word_at buf (off + k * 4))) (seq 0 n) = firstn (4 * n) (skipn off buf).
Proof.
  intros Hb Hl. apply (nth_ext_len _ _ 0).
  - rewrite (flat_map_seq_length _ n 4) by (intros; apply le_bytes_length). rewrite firstn_length, skipn_length. lia.
  - intros j Hj. rewrite (flat_map_seq_length _ n 4) in Hj by (intros; apply le_bytes_length).
    pose proof (Nat.div_mod j 4). pose proof (Nat.mod_upper_bound j 4).
    set (q := (j / 4)%nat) in *. set (r := (j mod 4)%nat) in *. clearbody q r.
    replace j with (q * 4 + r)%nat by lia.
    rewrite (flat_map_seq_nth _ n 4) by (try lia; intros; apply le_bytes_length).
    rewrite nth_firstn by lia. rewrite nth_skipn.
    unfold word_at. assert (L4 : length (firstn 4 (skipn (off + q * 4) buf)) = 4%nat) by (rewrite firstn_length, skipn_length; lia).
    pose proof (enc_dec LE (firstn 4 (skipn (off + q * 4) buf))) as E. rewrite L4 in E. cbn [enc] in E. rewrite E.
    + rewrite nth_firstn by lia. rewrite nth_skipn. f_equal. lia.
    + apply Forall_forall. intros x Hx. unfold urange. change (2 ^ 8) with 256. rewrite Forall_forall in Hb. apply Hb.
      rewrite <- (firstn_skipn (off + q * 4) buf). apply in_or_app. right.
      rewrite <- (firstn_skipn 4 (skipn (off + q * 4) buf)). apply in_or_app. now left.
Qed.

Lemma c29_sony_stream : forall key, exists w, sony_stream key w.
Proof. intros key. exists (stream key). apply stream_ok. Qed.

Lemma c29_sony_words : forall buf off len key w, sony_stream key w ->
  (length buf < off + 4 * (len / 4) -> sony_decrypt buf off len key = Err)%nat /\
  ((off + 4 * (len / 4) <= length buf)%nat -> exists out, sony_decrypt buf off len key = Ok out /\
     length out = (4 * (len / 4))%nat /\
     (Forall is_byte buf -> forall k, (k < len / 4)%nat -> word_at out (k * 4) = Z.lxor (word_at buf (off + k * 4)) (w (k + 127)%nat))).
Proof.
  intros buf off len key w Hw. split.
  - intros H. unfold sony_decrypt. now replace (length buf <? off + 4 * (len / 4))%nat with true by (symmetry; apply Nat.ltb_lt; lia).
  - intros H. rewrite (sony_decrypt_ok _ _ _ _ w) by assumption. eexists. split; [reflexivity|].
    split; [rewrite (flat_map_seq_length _ _ 4) by (intros; apply masked_length); lia|].
    intros Hb k Hk. unfold word_at at 1. rewrite word_flat; [|apply masked_length|exact Hk]. unfold masked.
    change (le_bytes 4) with (enc LE 4). apply dec_enc. change (8 * Z.of_nat 4) with 32.
    apply lxor_range; [apply word_range; auto; lia|apply (stream_range key); auto].
Qed.

Lemma c29_sony_involution : forall buf off len key out, Forall is_byte buf ->
  sony_decrypt buf off len key = Ok out ->
  length out = (4 * (len / 4))%nat /\
  sony_decrypt out 0 len key = Ok (firstn (4 * (len / 4)) (skipn off buf)).
Proof.
  intros buf off len key out Hb H.
  destruct (Nat.lt_ge_cases (length buf) (off + 4 * (len / 4))) as [L|L].
  { pose proof (proj1 (c29_sony_words buf off len key _ (stream_ok key)) L) as E. rewrite E in H. discriminate. }
  destruct (proj2 (c29_sony_words buf off len key _ (stream_ok key)) L) as (o & E & Lo & Hw).
  rewrite E in H. injection H as <-. split; [exact Lo|].
  rewrite (sony_decrypt_ok _ _ _ _ _ (stream_ok key)) by (rewrite Lo; lia). f_equal.
  rewrite <- words_back by assumption. rewrite !flat_map_concat_map. f_equal. apply map_ext_in.
  intros k Hk. apply in_seq in Hk. unfold masked. rewrite Nat.add_0_l, Hw by (auto; lia). now rewrite lxor_twice.
Qed.
