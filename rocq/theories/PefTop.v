(** PEF image data: theorems. *)
From Coq Require Import List ZArith Lia Bool.
From Coq Require Import ZifyBool ZifyNat.
From Verif Require Import Base BaseLemmas Pumps PumpProofs LjpegEnc LjpegDec HuffTree HuffCanon HuffBuild HuffDec HuffDht LjpegAnySpec LjpegAny Crx CrxLL CrxImageSpec PefSpec Lanes Pef PefRows PefTable.
Import ListNotations.
Open Scope Z_scope.

(** where the table comes from: the maker note or the decoder *)
Lemma default_table : sizes_of (fst pef_default_table) = pentax_sizes /\ firstn 13 (snd pef_default_table) = pentax_cats /\ length (snd pef_default_table) = 256%nat.
Proof. repeat split. Qed.

Lemma atable_ext t sz hv hv' : atable t sz hv -> (forall k, (k < length sz)%nat -> nth k hv 0%nat = nth k hv' 0%nat) -> atable t sz hv'.
Proof.
  intros [A B C D E F] H. constructor; auto.
  - intros k Hk. rewrite <- H by auto. auto.
  - intros k c Hk Hc Hd. rewrite <- H by auto. auto.
Qed.

Lemma table_of huff sz hv : pef_source huff sz hv -> exists bits hv' t,
  match huff with Some (data, big) => pef_table big data | None => Ok pef_default_table end = Ok (bits, hv') /\
  ht_new bits hv' false = Ok t /\ atable t sz hv /\ ht_dng_bug t = false.
Proof.
  intros H. unfold pef_source in H. destruct huff as [[data big]|].
  - destruct H as (skipped & codes & -> & Hs & Hn & HC). pose proof HC as HC2. destruct HC2 as (A & B & C & D & E & F & G & I).
    destruct (table_ok big skipped codes sz hv Hs ltac:(lia) HC (length codes) eq_refl A B C D E F I) as (hv' & ET & LH & HH).
    pose proof (sizes_dht skipped codes sz hv Hs ltac:(lia) (length codes) eq_refl A B D E F I ltac:(lia)) as SD.
    assert (S16 : forall k, (k < length sz)%nat -> (nth k hv' 0 <= 16)%nat) by (intros k Hk; rewrite HH by lia; specialize (D k ltac:(lia)); lia).
    destruct (ht_new_total (dht_bits sz) hv' false) as (t & Et); rewrite ?SD; auto; try lia.
    destruct (ht_new_inv _ _ _ _ Et) as [AT BT]; [rewrite SD; auto|]. rewrite SD in AT.
    exists (dht_bits sz), hv', t. split; [exact ET|]. split; [exact Et|]. split; [|exact BT].
    apply (atable_ext _ _ _ _ AT). intros k Hk. apply HH. lia.
  - destruct H as [-> ->]. destruct default_table as (DS & DH & DL). destruct pef_default_table as [bits hv'] eqn:ED. cbn [fst snd] in *.
    assert (HH : forall k, (k < 13)%nat -> nth k hv' 0%nat = nth k pentax_cats 0%nat).
    { intros k Hk. rewrite <- DH. now rewrite nth_firstn by auto. }
    assert (S16 : forall k, (k < length pentax_sizes)%nat -> (nth k hv' 0 <= 16)%nat).
    { intros k Hk. change (length pentax_sizes) with 13%nat in Hk. rewrite HH by auto. do 13 (destruct k; [cbn; lia|]). lia. }
    destruct (ht_new_total bits hv' false) as (t & Et); rewrite ?DS; auto.
    { rewrite DL. cbn. lia. } { cbn. lia. } { now apply Z.leb_le. }
    destruct (ht_new_inv _ _ _ _ Et) as [AT BT]; [rewrite DS; auto|]. rewrite DS in AT.
    exists bits, hv', t. split; [reflexivity|]. split; [exact Et|]. split; [|exact BT]. apply (atable_ext _ _ _ _ AT). exact HH.
Qed.

Lemma source_sizes huff sz hv : pef_source huff sz hv ->
  (forall i j, (i <= j < length sz)%nat -> (nth i sz 0 <= nth j sz 0)%nat) /\ (forall i, (i < length sz)%nat -> (1 <= nth i sz 0 <= 16)%nat) /\ kraft sz <= 65536.
Proof.
  intros H. destruct huff as [[data big]|].
  - destruct H as (skipped & codes & _ & _ & _ & HC). destruct HC as (A & B & C & D & E & F & G & I). split; auto. split; auto. intros i Hi. specialize (F i Hi). lia.
  - destruct H as [-> ->]. change (length pentax_sizes) with 13%nat. split; [|split; [|now apply Z.leb_le]].
    + intros i j Hij. assert (E : forallb (fun i => forallb (fun j => (nth i pentax_sizes 0 <=? nth j pentax_sizes 0)%nat || (j <? i)%nat) (seq 0 13)) (seq 0 13) = true) by reflexivity.
      rewrite forallb_forall in E. specialize (E i ltac:(apply in_seq; lia)). rewrite forallb_forall in E. specialize (E j ltac:(apply in_seq; lia)). lia.
    + intros i Hi. do 13 (destruct i; [cbn; lia|]). lia.
Qed.

Theorem pef_any huff sz hv src w h : pef_source huff sz hv -> Forall is_byte src ->
  (w mod 2 = 0)%nat -> (0 < w)%nat -> Z.of_nat (w + h) <= 65000 -> data_for (pef_next sz hv) (byte_bits src) (w * h) ->
  exists s, lane_picture zero_init (diff_at (pef_next sz hv) (byte_bits src)) w h s /\
    pef_decode src huff w h = Ok (samples (fun r c => s r c mod 65536) w h).
Proof.
  intros HS HBy Hev Hw HB HD. destruct (table_of huff sz hv HS) as (bits & hv' & t & ET & Et & AT & BT).
  exists (picture zero_init (diff_at (pef_next sz hv) (byte_bits src)) w). split; [apply picture_exists|].
  unfold pef_decode. rewrite ET. cbn [bind]. rewrite Et. cbn [bind].
  rewrite (rows_ok t sz hv AT BT w h (byte_bits src) HD zero_init (picture zero_init (diff_at (pef_next sz hv) (byte_bits src)) w)); auto.
  - apply picture_exists.
  - intros r c. unfold zero_init. lia.
Qed.

Lemma mono_pow a b : (a <= b)%nat -> 2 ^ Z.of_nat a <= 2 ^ Z.of_nat b.
Proof. intros. apply Z.pow_le_mono_r; lia. Qed.

Theorem pef_roundtrip huff sz hv w h s tail n : pef_source huff sz hv -> (n <= 15)%nat -> covers sz hv n ->
  (w mod 2 = 0)%nat -> (0 < w)%nat -> Z.of_nat (w + h) <= 65000 ->
  picture_within s w h 65536 -> diffs_within zero_init s w h n -> Forall is_byte tail -> (4 <= length tail)%nat ->
  pef_decode (stored (encode_lanes sz hv zero_init s w h) tail) huff w h = Ok (samples s w h).
Proof.
  intros HS Hn HC Hev Hw HB HP HDf Ht Lt.
  destruct (table_of huff sz hv HS) as (bits & hv' & t & _ & _ & AT & _). destruct (source_sizes huff sz hv HS) as (M & R & K).
  destruct (stored_bits (encode_lanes sz hv zero_init s w h) tail Lt Ht) as (rest & EB & LR).
  set (ds := lane_diffs zero_init s w h) in *.
  assert (Enc : forall d r, In d ds -> next_diff false (sz, hv) (encode_diff sz hv d ++ r) = (d, r)).
  { intros d r Hd. apply (next_encoded t); auto.
    - apply In_nth with (d := 0) in Hd as (i & Hi & <-). unfold ds in *. rewrite lane_diffs_length in Hi. unfold lane_diffs. rewrite nth_map_seq by auto. cbn [plus].
      assert (category (s (i / w)%nat (i mod w)%nat - lane_pred zero_init s (i / w) (i mod w)) <= n)%nat; [|lia].
      apply category_bound. apply HDf; [apply Nat.div_lt_upper_bound; lia|apply Nat.mod_upper_bound; lia].
    - apply HC. apply In_nth with (d := 0) in Hd as (i & Hi & <-). unfold ds in *. rewrite lane_diffs_length in Hi. unfold lane_diffs. rewrite nth_map_seq by auto. cbn [plus].
      apply category_bound. apply HDf; [apply Nat.div_lt_upper_bound; lia|apply Nat.mod_upper_bound; lia]. }
  assert (EE : encode_lanes sz hv zero_init s w h = concat (map (encode_diff sz hv) ds)) by reflexivity. rewrite EE in EB.
  assert (BY : Forall is_byte (stored (encode_lanes sz hv zero_init s w h) tail)).
  { unfold stored. apply Forall_app. split; auto. apply pack_bytes. }
  rewrite EE in *.
  destruct (pef_any huff sz hv (stored (concat (map (encode_diff sz hv) ds)) tail) w h HS BY Hev Hw HB) as (s' & LP & E).
  - rewrite EB. replace (w * h)%nat with (length ds) by (unfold ds; apply lane_diffs_length). apply (seq_data (next_diff false (sz, hv)) (encode_diff sz hv) rest ds Enc LR).
  - rewrite E. f_equal. unfold samples. apply map_ext_in. intros i Hi. apply in_seq in Hi.
    assert (B1 : (i / w < h)%nat) by (apply Nat.div_lt_upper_bound; lia). assert (B2 : (i mod w < w)%nat) by (apply Nat.mod_upper_bound; lia).
    rewrite (lane_unique zero_init (diff_at (pef_next sz hv) (byte_bits (stored (concat (map (encode_diff sz hv) ds)) tail))) w h s' s LP) with (n := S (i / w + i mod w)); auto.
    + apply Z.mod_small. apply HP; auto.
    + apply lane_diffs_picture. intros j Hj. rewrite EB. apply (seq_diff (next_diff false (sz, hv)) (encode_diff sz hv) rest ds Enc). unfold ds. now rewrite lane_diffs_length.
Qed.

Lemma diffs_of_picture s w h n : picture_within s w h (2 ^ Z.of_nat n) -> diffs_within zero_init s w h n.
Proof.
  intros H r c Hr Hc. pose proof (H r c Hr Hc) as A. unfold lane_pred.
  destruct (Nat.leb_spec 2 c); [pose proof (H r (c - 2)%nat Hr ltac:(lia)); lia|].
  destruct (Nat.leb_spec 2 r); [pose proof (H (r - 2)%nat c ltac:(lia) Hc); lia|]. unfold zero_init. lia.
Qed.
Theorem pef_12bit w h s tail : (w mod 2 = 0)%nat -> (0 < w)%nat -> Z.of_nat (w + h) <= 65000 -> picture_within s w h 4096 ->
  Forall is_byte tail -> (4 <= length tail)%nat ->
  pef_decode (stored (encode_lanes pentax_sizes pentax_cats zero_init s w h) tail) None w h = Ok (samples s w h).
Proof.
  intros Hev Hw HB HP Ht Lt. apply (pef_roundtrip None pentax_sizes pentax_cats w h s tail 12); auto.
  - split; auto.
  - intros cat Hc. do 13 (destruct cat; [discriminate|]). lia.
  - intros r c Hr Hc. specialize (HP r c Hr Hc). lia.
  - apply diffs_of_picture. exact HP.
Qed.
