(** The two-lane predictor and the encoder of Huffman coded differences. *)
From Coq Require Import List ZArith Lia Bool.
From Coq Require Import ZifyBool ZifyNat.
From Verif Require Import Base BaseLemmas Pumps PumpProofs LjpegEnc LjpegDec HuffTree HuffCanon HuffBuild HuffDec LjpegAnySpec LjpegAny CrxImageSpec CrxQuant CrxEnc PefSpec.
Import ListNotations.
Open Scope Z_scope.

(** ** Existence and size of the picture *)
Section Picture.
  Variable init : nat -> nat -> Z.
  Variable d : nat -> Z.
  Variables w h : nat.

  Fixpoint lane_val (fuel r c : nat) : Z :=
    match fuel with
    | O => 0
    | S f => (if (2 <=? c)%nat then lane_val f r (c - 2) else if (2 <=? r)%nat then lane_val f (r - 2) c else init r c)
             + d (r * w + c)%nat
    end.
  Lemma lane_val_fuel f : forall g r c, (r + c < f)%nat -> (r + c < g)%nat -> lane_val f r c = lane_val g r c.
  Proof.
    induction f; intros g r c Hf Hg; [lia|]. destruct g; [lia|]. cbn [lane_val]. f_equal.
    destruct (Nat.leb_spec 2 c); [apply IHf; lia|]. destruct (Nat.leb_spec 2 r); [apply IHf; lia|]. auto.
  Qed.
  Definition picture (r c : nat) : Z := lane_val (S (r + c)) r c.
  Lemma picture_lanes r c : picture r c = lane_pred init picture r c + d (r * w + c)%nat.
  Proof.
    unfold picture at 1. cbn [lane_val]. f_equal. unfold lane_pred, picture.
    destruct (Nat.leb_spec 2 c); [apply lane_val_fuel; lia|]. destruct (Nat.leb_spec 2 r); [apply lane_val_fuel; lia|]. auto.
  Qed.
  Lemma picture_exists : lane_picture init d w h picture.
  Proof. intros r c _ _. apply picture_lanes. Qed.

  Variable s : nat -> nat -> Z.
  Hypothesis HS : lane_picture init d w h s.
  Hypothesis Hi : forall r c, 0 <= init r c <= 65535.
  Hypothesis Hd : forall i, (i < w * h)%nat -> -32768 <= d i <= 32768.
  Lemma picture_size n : forall r c, (r < h)%nat -> (c < w)%nat -> (r + c < n)%nat -> Z.abs (s r c) <= 65535 + 32768 * Z.of_nat (r + c + 1).
  Proof.
    induction n; intros r c Hr Hc Hn; [lia|]. rewrite HS by auto.
    assert (B : (r * w + c < w * h)%nat) by nia. specialize (Hd _ B). unfold lane_pred.
    destruct (Nat.leb_spec 2 c); [specialize (IHn r (c - 2)%nat Hr ltac:(lia) ltac:(lia)); lia|].
    destruct (Nat.leb_spec 2 r); [specialize (IHn (r - 2)%nat c ltac:(lia) Hc ltac:(lia)); lia|].
    specialize (Hi r c). lia.
  Qed.
  Hypothesis HB : Z.of_nat (w + h) <= 65000.
  Lemma picture_i32 r c : (r < h)%nat -> (c < w)%nat -> -2147483648 <= s r c < 2147483648.
  Proof. intros Hr Hc. pose proof (picture_size (S (r + c)) r c Hr Hc ltac:(lia)). lia. Qed.
End Picture.

Lemma lane_unique init d w h s s' : lane_picture init d w h s -> lane_picture init d w h s' ->
  forall n r c, (r < h)%nat -> (c < w)%nat -> (r + c < n)%nat -> s r c = s' r c.
Proof.
  intros A B. induction n; intros r c Hr Hc Hn; [lia|]. rewrite A, B by auto. f_equal. unfold lane_pred.
  destruct (Nat.leb_spec 2 c); [apply IHn; lia|]. destruct (Nat.leb_spec 2 r); [apply IHn; lia|]. auto.
Qed.

(** ** Encoding one difference *)
Lemma category_bound d n : Z.abs d < 2 ^ Z.of_nat n -> (category d <= n)%nat.
Proof.
  intros H. unfold category. destruct (Z.eqb_spec d 0); [lia|].
  assert (Z.log2 (Z.abs d) < Z.of_nat n) by (apply Z.log2_lt_pow2; lia). lia.
Qed.
Lemma category_range d : d <> 0 -> 2 ^ Z.of_nat (category d - 1) <= Z.abs d < 2 ^ Z.of_nat (category d) /\ (1 <= category d)%nat.
Proof.
  intros N. unfold category. rewrite (proj2 (Z.eqb_neq d 0) N). pose proof (Z.log2_spec (Z.abs d) ltac:(lia)) as [A B].
  pose proof (Z.log2_nonneg (Z.abs d)). rewrite Z2Nat.id by lia. replace (Z.of_nat (Z.to_nat (Z.log2 (Z.abs d) + 1) - 1)) with (Z.log2 (Z.abs d)) by lia.
  replace (Z.succ (Z.log2 (Z.abs d))) with (Z.log2 (Z.abs d) + 1) in B by lia. split; [lia|]. lia.
Qed.
Lemma magnitude_length d : length (magnitude d) = category d.
Proof. unfold magnitude. apply bits_of_length. Qed.
Lemma difference_magnitude d rest : (category d <= 15)%nat -> difference (category d) (peekv (category d) (magnitude d ++ rest)) = d.
Proof.
  intros H. unfold difference. destruct (Z.eq_dec d 0) as [->|N]; [reflexivity|].
  destruct (category_range d N) as [R C]. replace (category d =? 0)%nat with false by lia. replace (category d =? 16)%nat with false by lia.
  unfold magnitude. set (v := if d <? 0 then _ else d).
  assert (P : 2 ^ Z.of_nat (category d) = 2 * 2 ^ Z.of_nat (category d - 1)) by (rewrite <- pow2_S; f_equal; lia).
  assert (V : 0 <= v < 2 ^ Z.of_nat (category d)) by (unfold v; destruct (Z.ltb_spec d 0); lia).
  rewrite peekv_bits_of by auto.
  unfold v. destruct (Z.ltb_spec d 0).
  - destruct (Z.ltb_spec (d + 2 ^ Z.of_nat (category d) - 1) (2 ^ Z.of_nat (category d - 1))); lia.
  - destruct (Z.ltb_spec d (2 ^ Z.of_nat (category d - 1))); lia.
Qed.

(** ** The code word is found *)
Lemma code_of_some sz hv cat k : code_of sz hv cat = Some k -> (k < length sz)%nat /\ nth k hv 0%nat = cat.
Proof. intros H. apply find_some in H as [A B]. apply in_seq in A. apply Nat.eqb_eq in B. split; [lia|auto]. Qed.

Lemma symbol_code t sz hv k rest : atable t sz hv -> (k < length sz)%nat ->
  (forall i, (i < length sz)%nat -> 0 <= codeword sz i < 2 ^ Z.of_nat (nth i sz 0%nat)) ->
  symbol (sz, hv) (bits_of (nth k sz 0%nat) (codeword sz k) ++ rest) = (nth k sz 0%nat, nth k hv 0%nat).
Proof.
  intros D Hk HC. set (l := _ ++ rest).
  assert (E : peekv (nth k sz 0%nat) l = code sz k).
  { unfold l. rewrite peekv_bits_of by (apply HC; auto). apply codeword_code. }
  pose proof (peekv_range (ht_nbits t) l) as R. pose proof (at_sz _ _ _ D k Hk).
  destruct (at_block _ _ _ D k (peekv (ht_nbits t) l) Hk R) as [X _]; [rewrite peekv_div by lia; auto|].
  rewrite (lookup_symbol t sz hv l D) in X. injection X as X1 X2. rewrite (surjective_pairing (symbol (sz, hv) l)). congruence.
Qed.
Lemma codeword_range sz k : (forall i j, (i <= j < length sz)%nat -> (nth i sz 0 <= nth j sz 0)%nat) ->
  (forall i, (i < length sz)%nat -> (1 <= nth i sz 0 <= 16)%nat) -> kraft sz <= 65536 -> (k < length sz)%nat ->
  0 <= codeword sz k < 2 ^ Z.of_nat (nth k sz 0%nat).
Proof.
  intros M R K Hk. rewrite codeword_code.
  assert (E : code sz k * weight (nth k sz 0%nat) = start sz k) by (apply code_start; auto; intros i Hi; apply R; auto).
  pose proof (start_S sz k Hk) as ES. pose proof (start_mono sz (S k) (length sz) ltac:(lia)) as LE.
  rewrite <- (kraft_start sz (length sz)), firstn_all in LE. pose proof (R k Hk) as Rk.
  pose proof (weight_pos (nth k sz 0%nat) ltac:(lia)) as WP. pose proof (start_mono sz 0 k ltac:(lia)) as L0. rewrite start_0 in L0.
  assert (W : 65536 = 2 ^ Z.of_nat (nth k sz 0%nat) * weight (nth k sz 0%nat)).
  { rewrite weight_nat by lia. rewrite <- pow2_add. replace (nth k sz 0 + (16 - nth k sz 0))%nat with 16%nat by lia. reflexivity. }
  nia.
Qed.

(** an encoded difference is decoded and its bits consumed *)
Lemma next_encoded t sz hv d rest : atable t sz hv ->
  (forall i j, (i <= j < length sz)%nat -> (nth i sz 0 <= nth j sz 0)%nat) ->
  (forall i, (i < length sz)%nat -> (1 <= nth i sz 0 <= 16)%nat) -> kraft sz <= 65536 ->
  (category d <= 15)%nat -> code_of sz hv (category d) <> None ->
  next_diff false (sz, hv) (encode_diff sz hv d ++ rest) = (d, rest).
Proof.
  intros D M R K C15 HC. unfold encode_diff. destruct (code_of sz hv (category d)) as [k|] eqn:EK; [|congruence].
  apply code_of_some in EK as [Hk Ec]. unfold next_diff. rewrite <- app_assoc.
  rewrite (symbol_code t) by (auto; intros; apply codeword_range; auto). rewrite Ec.
  rewrite skipn_app, bits_of_length, Nat.sub_diag. rewrite (skipn_all2 (bits_of _ _)) by (rewrite bits_of_length; auto). cbn [app skipn].
  rewrite difference_magnitude by auto. f_equal. unfold magnitude_bits. replace (category d =? 16)%nat with false by lia.
  rewrite <- skipn_skipn. rewrite skipn_app, bits_of_length, Nat.sub_diag. rewrite (skipn_all2 (bits_of _ _)) by (rewrite bits_of_length; auto). cbn [app skipn].
  rewrite skipn_app, magnitude_length, Nat.sub_diag. rewrite (skipn_all2 (magnitude d)) by (rewrite magnitude_length; auto). reflexivity.
Qed.

(** ** Sequences *)
Lemma seq_encoded (nx : list bool -> Z * list bool) (enc : Z -> list bool) rest ds :
  (forall d r, In d ds -> nx (enc d ++ r) = (d, r)) ->
  forall i, (i <= length ds)%nat ->
  bits_after (fun _ => nx) (concat (map enc ds) ++ rest) i = concat (map enc (skipn i ds)) ++ rest.
Proof.
  intros H. induction i; intros Hi; [reflexivity|]. cbn [bits_after]. rewrite IHi by lia.
  rewrite (skipn_nth_cons ds i 0) by lia. cbn [map concat]. rewrite <- app_assoc. rewrite H by (apply nth_In; lia). reflexivity.
Qed.
Lemma seq_diff (nx : list bool -> Z * list bool) (enc : Z -> list bool) rest ds :
  (forall d r, In d ds -> nx (enc d ++ r) = (d, r)) ->
  forall i, (i < length ds)%nat -> diff_at (fun _ => nx) (concat (map enc ds) ++ rest) i = nth i ds 0.
Proof.
  intros H i Hi. unfold diff_at. rewrite seq_encoded by (auto; lia). rewrite (skipn_nth_cons ds i 0) by lia.
  cbn [map concat]. rewrite <- app_assoc. rewrite H by (apply nth_In; lia). reflexivity.
Qed.
Lemma seq_data (nx : list bool -> Z * list bool) (enc : Z -> list bool) rest ds :
  (forall d r, In d ds -> nx (enc d ++ r) = (d, r)) -> (32 <= length rest)%nat ->
  data_for (fun _ => nx) (concat (map enc ds) ++ rest) (length ds).
Proof. intros H L i Hi. rewrite seq_encoded by (auto; lia). rewrite app_length. lia. Qed.

Lemma lane_diffs_length init s w h : length (lane_diffs init s w h) = (w * h)%nat.
Proof. unfold lane_diffs. now rewrite map_length, seq_length. Qed.
Lemma lane_diffs_picture init s w h d : (forall i, (i < w * h)%nat -> d i = nth i (lane_diffs init s w h) 0) -> lane_picture init d w h s.
Proof.
  intros H r c Hr Hc. rewrite H by nia. unfold lane_diffs. rewrite nth_map_seq by nia. cbn [plus].
  replace (r * w + c)%nat with (c + r * w)%nat by lia. rewrite Nat.div_add, Nat.mod_add by lia.
  rewrite Nat.div_small, Nat.mod_small by auto. cbn [plus]. lia.
Qed.
Lemma stored_bits bits tail : (4 <= length tail)%nat -> Forall is_byte tail -> exists rest,
  byte_bits (stored bits tail) = bits ++ rest /\ (32 <= length rest)%nat.
Proof.
  intros H B. unfold stored. rewrite byte_bits_app. destruct (pack_bits bits) as (r & E). rewrite E, <- app_assoc.
  exists (r ++ byte_bits tail). split; auto. rewrite app_length, byte_bits_length. lia.
Qed.
Lemma samples_nth s w h i : (i < w * h)%nat -> nth i (samples s w h) 0 = s (i / w)%nat (i mod w)%nat.
Proof. intros. unfold samples. now rewrite nth_map_seq. Qed.
Lemma pack_bytes bits : Forall is_byte (pack bits).
Proof.
  unfold pack. apply Forall_forall. intros x Hx. apply in_map_iff in Hx as (i & <- & _). pose proof (peekv_range 8 (skipn (8 * i) bits)) as H.
  change (2 ^ Z.of_nat 8) with 256 in H. unfold is_byte. lia.
Qed.
