(** Byte level lemmas for the TIFF model. *)
From Coq Require Import List ZArith Lia Bool.
From Verif Require Import Base BaseLemmas Bits Tiff TiffSpec.
Import ListNotations.
Open Scope Z_scope.

Lemma le_bytes_S k v : le_bytes (S k) v = v mod 256 :: le_bytes k (v / 256).
Proof.
  unfold le_bytes. rewrite <- cons_seq, map_cons, <- seq_shift, map_map. f_equal.
  - change (8 * Z.of_nat 0) with 0. change (2 ^ 0) with 1. now rewrite Z.div_1_r.
  - apply map_ext. intros i. rewrite Z.div_div; [|lia|apply Z.pow_pos_nonneg; lia].
    replace (8 * Z.of_nat (S i)) with (8 + 8 * Z.of_nat i) by lia. rewrite Z.pow_add_r by lia. reflexivity.
Qed.
Lemma le_bytes_length k v : length (le_bytes k v) = k.
Proof. unfold le_bytes. now rewrite map_length, seq_length. Qed.
Lemma enc_length e k v : length (enc e k v) = k.
Proof. destruct e; cbn [enc]; [|rewrite rev_length]; apply le_bytes_length. Qed.
Lemma le_bytes_byte k v : Forall (urange 8) (le_bytes k v).
Proof.
  unfold le_bytes. apply Forall_forall. intros b. rewrite in_map_iff. intros [i [<- _]].
  unfold urange. change (2 ^ 8) with 256. apply Z.mod_pos_bound. lia.
Qed.

Lemma pow8_S k : 2 ^ (8 * Z.of_nat (S k)) = 256 * 2 ^ (8 * Z.of_nat k).
Proof. replace (8 * Z.of_nat (S k)) with (8 + 8 * Z.of_nat k) by lia. rewrite Z.pow_add_r by lia. reflexivity. Qed.
Lemma pow8_pos k : 0 < 2 ^ (8 * Z.of_nat k).
Proof. apply Z.pow_pos_nonneg; lia. Qed.

Lemma from_le_le_bytes k : forall v, from_le (le_bytes k v) = v mod 2 ^ (8 * Z.of_nat k).
Proof.
  induction k; intros v; [cbn; now rewrite Z.mod_1_r|].
  rewrite le_bytes_S. cbn [from_le]. rewrite IHk, pow8_S.
  rewrite (Z.rem_mul_r v 256) by (pose proof (pow8_pos k); lia). reflexivity.
Qed.
Lemma dec_enc_mod e k v : dec e (enc e k v) = v mod 2 ^ (8 * Z.of_nat k).
Proof. unfold dec, enc. destruct e; [|rewrite rev_involutive]; apply from_le_le_bytes. Qed.
Lemma dec_enc e k v : 0 <= v < 2 ^ (8 * Z.of_nat k) -> dec e (enc e k v) = v.
Proof. intros H. rewrite dec_enc_mod. now apply Z.mod_small. Qed.

Lemma from_le_range l : Forall (urange 8) l -> 0 <= from_le l < 2 ^ (8 * Z.of_nat (length l)).
Proof.
  induction 1 as [|b l Hb Hl IH]; [cbn; lia|]. cbn [from_le length]. rewrite pow8_S.
  unfold urange in Hb. change (2 ^ 8) with 256 in Hb. nia.
Qed.
Lemma le_bytes_from_le l : Forall (urange 8) l -> le_bytes (length l) (from_le l) = l.
Proof.
  induction 1 as [|b l Hb Hl IH]; [reflexivity|]. cbn [length from_le]. rewrite le_bytes_S.
  unfold urange in Hb. change (2 ^ 8) with 256 in Hb.
  replace (b + 256 * from_le l) with (b + from_le l * 256) by lia.
  rewrite Z.mod_add, Z.mod_small, Z.div_add, Z.div_small, Z.add_0_l, IH by lia. reflexivity.
Qed.
Lemma enc_dec e l : Forall (urange 8) l -> enc e (length l) (dec e l) = l.
Proof.
  intros H. destruct e; cbn [enc dec].
  - now apply le_bytes_from_le.
  - rewrite <- (rev_length l), le_bytes_from_le by now apply Forall_rev. apply rev_involutive.
Qed.
Lemma dec_range e l : Forall (urange 8) l -> 0 <= dec e l < 2 ^ (8 * Z.of_nat (length l)).
Proof.
  intros H. destruct e; cbn [dec]; [now apply from_le_range|].
  rewrite <- (rev_length l). apply from_le_range. now apply Forall_rev.
Qed.

Lemma le_bytes_mod k v : le_bytes k (v mod 2 ^ (8 * Z.of_nat k)) = le_bytes k v.
Proof.
  revert v. induction k; intros v; [reflexivity|]. rewrite !le_bytes_S, pow8_S.
  pose proof (pow8_pos k).
  rewrite (Z.rem_mul_r v 256) by lia.
  replace (v mod 256 + 256 * ((v / 256) mod 2 ^ (8 * Z.of_nat k)))
    with (v mod 256 + (v / 256) mod 2 ^ (8 * Z.of_nat k) * 256) by lia.
  rewrite Z.mod_add, Z.mod_mod, Z.div_add by lia.
  rewrite (Z.div_small (v mod 256)) by (apply Z.mod_pos_bound; lia).
  now rewrite Z.add_0_l, IHk.
Qed.
Lemma enc_mod e k v : enc e k (v mod 2 ^ (8 * Z.of_nat k)) = enc e k v.
Proof. destruct e; cbn [enc]; now rewrite le_bytes_mod. Qed.

(** signed values *)
Lemma signed_mod k v : (0 < k)%nat -> srange (8 * Z.of_nat k) v -> signed k (v mod 2 ^ (8 * Z.of_nat k)) = v.
Proof.
  intros Hk H. unfold signed, srange in *. set (m := 2 ^ (8 * Z.of_nat k - 1)) in *.
  assert (E : 2 ^ (8 * Z.of_nat k) = 2 * m).
  { unfold m. replace (8 * Z.of_nat k) with (1 + (8 * Z.of_nat k - 1)) at 1 by lia. rewrite Z.pow_add_r by lia. reflexivity. }
  rewrite E. destruct (Z_lt_dec v 0).
  - replace (v mod (2 * m)) with (v + 2 * m) by (symmetry; rewrite <- (Z.mod_add v 1) by lia; rewrite Z.mul_1_l; apply Z.mod_small; lia).
    destruct (v + 2 * m <? m) eqn:C; [apply Z.ltb_lt in C|]; lia.
  - rewrite Z.mod_small by lia. destruct (v <? m) eqn:C; [reflexivity|apply Z.ltb_ge in C; lia].
Qed.
Lemma signed_dec_enc e k v : (0 < k)%nat -> srange (8 * Z.of_nat k) v -> signed k (dec e (enc e k v)) = v.
Proof. intros. rewrite dec_enc_mod. now apply signed_mod. Qed.
Lemma signed_range k v : (0 < k)%nat -> 0 <= v < 2 ^ (8 * Z.of_nat k) -> srange (8 * Z.of_nat k) (signed k v) /\ signed k v mod 2 ^ (8 * Z.of_nat k) = v.
Proof.
  intros Hk H. unfold signed, srange. set (m := 2 ^ (8 * Z.of_nat k - 1)) in *.
  assert (E : 2 ^ (8 * Z.of_nat k) = 2 * m).
  { unfold m. replace (8 * Z.of_nat k) with (1 + (8 * Z.of_nat k - 1)) at 1 by lia. rewrite Z.pow_add_r by lia. reflexivity. }
  rewrite E in *. destruct (v <? m) eqn:C; [apply Z.ltb_lt in C|apply Z.ltb_ge in C].
  - split; [lia|]. apply Z.mod_small. lia.
  - split; [lia|]. rewrite <- (Z.mod_add _ 1) by lia. rewrite Z.mul_1_l. rewrite Z.mod_small; lia.
Qed.

(** ** at_ *)
Lemma at_len file p b : at_ file p b -> 0 <= p /\ p + Z.of_nat (length b) <= Z.of_nat (length file).
Proof. intros (pre & post & -> & <-). rewrite !app_length. lia. Qed.
Lemma at_app file p a b : at_ file p (a ++ b) <-> at_ file p a /\ at_ file (p + Z.of_nat (length a)) b.
Proof.
  split.
  - intros (pre & post & -> & <-). split.
    + exists pre, (b ++ post). now rewrite !app_assoc.
    + exists (pre ++ a), post. rewrite app_length, <- !app_assoc. split; [reflexivity|lia].
  - intros [(pre & post & -> & Hp) (pre' & post' & E & Hp')].
    exists pre, post'. split; [|exact Hp].
    assert (pre' = pre ++ a /\ post = b ++ post') as [-> ->]; [|now rewrite <- !app_assoc].
    rewrite app_assoc in E.
    assert (HL : length (pre ++ a) = length pre') by (rewrite app_length; lia).
    clear Hp Hp'. revert E HL. generalize (pre ++ a). clear. intros l.
    revert pre'. induction l as [|x l IH]; intros [|y pre'] E HL; cbn in *; try lia; [now split|].
    injection E as -> E. destruct (IH pre' E) as [-> ->]; [lia|now split].
Qed.
Lemma at_nil file p : 0 <= p <= Z.of_nat (length file) -> at_ file p [].
Proof.
  intros H. exists (firstn (Z.to_nat p) file), (skipn (Z.to_nat p) file).
  cbn. rewrite firstn_skipn, firstn_length. split; [reflexivity|lia].
Qed.
Lemma at_more file p b tail : at_ file p b -> at_ (file ++ tail) p b.
Proof. intros (pre & post & -> & <-). exists pre, (post ++ tail). rewrite <- !app_assoc. split; reflexivity. Qed.
Lemma at_end buf b : at_ (buf ++ b) (Z.of_nat (length buf)) b.
Proof. exists buf, []. now rewrite app_nil_r. Qed.
Lemma at_mid buf b c : at_ (buf ++ b ++ c) (Z.of_nat (length buf)) b.
Proof. exists buf, c. split; reflexivity. Qed.

Lemma rd_at file p b : at_ file p b -> rd file p (Z.of_nat (length b)) = Ok b.
Proof.
  intros H. pose proof (at_len _ _ _ H) as [H0 H1]. unfold rd.
  replace (p + Z.of_nat (length b) <=? Z.of_nat (length file)) with true by (symmetry; apply Z.leb_le; lia).
  destruct H as (pre & post & -> & <-). rewrite !Nat2Z.id, skipn_app, skipn_all, Nat.sub_diag. cbn.
  rewrite firstn_app, Nat.sub_diag, firstn_all. cbn. now rewrite app_nil_r.
Qed.
Lemma rd_inv file p n b : 0 <= p -> 0 <= n -> rd file p n = Ok b -> at_ file p b /\ Z.of_nat (length b) = n.
Proof.
  intros Hp Hn. unfold rd. destruct (Z.leb_spec (p + n) (Z.of_nat (length file))) as [L|L]; [|discriminate].
  intros [= <-]. split; [|rewrite firstn_length, skipn_length; lia].
  exists (firstn (Z.to_nat p) file), (skipn (Z.to_nat n) (skipn (Z.to_nat p) file)).
  rewrite !firstn_skipn, firstn_length. split; [reflexivity|lia].
Qed.
Lemma rd_not_panic file p n : rd file p n <> Panic.
Proof. unfold rd. destruct (_ <=? _); discriminate. Qed.
Lemma rd_u16_at e file p v : urange 16 v -> at_ file p (enc e 2 v) -> rd_u16 e file p = Ok v.
Proof.
  intros Hv H. unfold rd_u16. pose proof (rd_at _ _ _ H) as R. rewrite enc_length in R.
  change (Z.of_nat 2) with 2 in R. rewrite R. cbn [bind]. now rewrite dec_enc.
Qed.
Lemma rd_u32_at e file p v : urange 32 v -> at_ file p (enc e 4 v) -> rd_u32 e file p = Ok v.
Proof.
  intros Hv H. unfold rd_u32. pose proof (rd_at _ _ _ H) as R. rewrite enc_length in R.
  change (Z.of_nat 4) with 4 in R. rewrite R. cbn [bind]. now rewrite dec_enc.
Qed.

(** chunks *)
Lemma chunks_flat {A} (f : A -> list Z) k l : (forall x, In x l -> length (f x) = k) -> chunks (length l) k (flat_map f l) = map f l.
Proof.
  induction l as [|a l IH]; intros H; [reflexivity|]. cbn [length chunks flat_map map].
  assert (La : length (f a) = k) by (apply H; now left).
  replace (k <=? length (f a ++ flat_map f l))%nat with true by (symmetry; apply Nat.leb_le; rewrite app_length; lia).
  rewrite firstn_app, firstn_all2 by lia. rewrite skipn_app, skipn_all2 by lia.
  replace (k - length (f a))%nat with 0%nat by lia. cbn [firstn skipn]. rewrite app_nil_r, app_nil_l. f_equal.
  apply IH. intros x Hx. apply H. now right.
Qed.
Lemma flat_map_length_const {A} (f : A -> list Z) k l : (forall x, In x l -> length (f x) = k) -> length (flat_map f l) = (length l * k)%nat.
Proof.
  induction l as [|a l IH]; intros H; [reflexivity|]. cbn [flat_map length]. rewrite app_length, IH; [|intros; apply H; now right].
  rewrite H by now left. lia.
Qed.
Lemma rd_many_at e file p k l :
  Forall (urange (8 * Z.of_nat k)) l -> at_ file p (flat_map (enc e k) l) -> rd_many e file p k (Z.of_nat (length l)) = Ok l.
Proof.
  intros Hl H. unfold rd_many.
  pose proof (rd_at _ _ _ H) as R. rewrite (flat_map_length_const _ k) in R by (intros; apply enc_length).
  rewrite Nat2Z.inj_mul in R. rewrite R. cbn [bind]. rewrite Nat2Z.id, chunks_flat by (intros; apply enc_length).
  rewrite map_map. f_equal. rewrite <- (map_id l) at 2. apply map_ext_in. intros a Ha.
  apply dec_enc. rewrite Forall_forall in Hl. now apply Hl.
Qed.
Lemma rd_many_signed e file p k l :
  (0 < k)%nat -> Forall (srange (8 * Z.of_nat k)) l -> at_ file p (flat_map (enc e k) l) ->
  exists r, rd_many e file p k (Z.of_nat (length l)) = Ok r /\ map (signed k) r = l.
Proof.
  intros Hk Hl H. exists (map (fun v => v mod 2 ^ (8 * Z.of_nat k)) l).
  assert (E : flat_map (enc e k) l = flat_map (enc e k) (map (fun v => v mod 2 ^ (8 * Z.of_nat k)) l)).
  { clear. induction l; [reflexivity|]. cbn [map flat_map]. now rewrite <- IHl, enc_mod. }
  rewrite E in H. split.
  - replace (length l) with (length (map (fun v => v mod 2 ^ (8 * Z.of_nat k)) l)) by apply map_length.
    apply rd_many_at; [|exact H]. apply Forall_forall. intros b. rewrite in_map_iff. intros [x [<- _]].
    unfold urange. apply Z.mod_pos_bound. apply pow8_pos.
  - rewrite map_map, <- (map_id l) at 1. rewrite map_id. rewrite <- (map_id l) at 2. apply map_ext_in. intros a Ha.
    apply signed_mod; [exact Hk|]. rewrite Forall_forall in Hl. now apply Hl.
Qed.
Lemma pairs_flat {A} (f g : A -> Z) l : pairs (flat_map (fun x => [f x; g x]) l) = map (fun x => (f x, g x)) l.
Proof. induction l; [reflexivity|]. cbn [flat_map app pairs map]. now rewrite IHl. Qed.
