(** Samsung, first format: stored pictures and bad data. *)
From Coq Require Import List ZArith Lia Bool.
From Coq Require Import ZifyBool ZifyNat.
From Verif Require Import Base BaseLemmas Tiff TiffBytes CryptSpec Crypt CryptSony Pumps PumpProofs PumpSeq LjpegEnc LjpegDec LjpegDecode LjpegAnySpec Crx CrxLL CrxImageSpec PefSpec Lanes PefNeg Srw SrwSpec SrwOne CrxEnc.
Import ListNotations.
Open Scope Z_scope.

Lemma swap32_app a b q : length a = (4 * q)%nat -> swap32 (a ++ b) = swap32 a ++ swap32 b.
Proof.
  revert a. induction q; intros a H; [destruct a; [reflexivity|cbn in H; lia]|].
  destruct a as [|x [|y [|z [|t a]]]]; cbn [length] in H; try lia. cbn [app swap32]. now rewrite IHq by lia.
Qed.
Lemma swap32_length a q : length a = (4 * q)%nat -> length (swap32 a) = length a.
Proof.
  revert a. induction q; intros a H; [destruct a; [reflexivity|cbn in H; lia]|].
  destruct a as [|x [|y [|z [|t a]]]]; cbn [length] in H; try lia. cbn [length swap32]. now rewrite IHq by lia.
Qed.
Lemma swap32_twice a q : length a = (4 * q)%nat -> swap32 (swap32 a) = a.
Proof.
  revert a. induction q; intros a H; [destruct a; [reflexivity|cbn in H; lia]|].
  destruct a as [|x [|y [|z [|t a]]]]; cbn [length] in H; try lia. cbn [swap32]. now rewrite IHq by lia.
Qed.
Lemma swap32_bytes a q : length a = (4 * q)%nat -> Forall is_byte a -> Forall is_byte (swap32 a).
Proof.
  revert a. induction q; intros a H F; [destruct a; [constructor|cbn in H; lia]|].
  destruct a as [|x [|y [|z [|t a]]]]; cbn [length] in H; try lia. cbn [swap32].
  inversion F as [|? ? F1 G1]; inversion G1 as [|? ? F2 G2]; inversion G2 as [|? ? F3 G3]; inversion G3 as [|? ? F4 G4]; subst.
  repeat (constructor; auto). apply IHq; auto. lia.
Qed.
Lemma pack_four bits : length (pack bits) = (4 * (2 * (length bits / 64 + 1)))%nat.
Proof. unfold pack. rewrite map_length, seq_length. lia. Qed.

Section Stored.
  Variable f : srw1_form.
  Variable a : nat -> nat -> Z.
  Variables w h : nat.
  Definition quarter (r : nat) : nat := (2 * (length (row_bits f a w r) / 64 + 1))%nat.
  Lemma words_four r : length (words (row_bits f a w r)) = (4 * quarter r)%nat.
  Proof. unfold words. rewrite (swap32_length _ (quarter r)); apply pack_four. Qed.
  Lemma rows_four (rs : list nat) : exists q, length (flat_map (fun r => words (row_bits f a w r)) rs) = (4 * q)%nat.
  Proof. induction rs as [|r rs (q & IH)]; [now exists 0%nat|]. cbn [flat_map]. rewrite app_length, words_four, IH. exists (quarter r + q)%nat. lia. Qed.
  Lemma rows_split r : (r < h)%nat -> srw1_rows f a w h = srw1_rows f a w r ++ words (row_bits f a w r) ++ flat_map (fun r => words (row_bits f a w r)) (seq (S r) (h - S r)).
  Proof.
    intros Hr. unfold srw1_rows. replace h with (r + S (h - S r))%nat at 1 by lia. rewrite seq_app, flat_map_app. reflexivity.
  Qed.
  Lemma row_at r : (r < h)%nat -> row_stored (srw1_rows f a w h) (srw1_offset f a w r) (row_bits f a w r).
  Proof.
    intros Hr. unfold row_stored, srw1_offset. rewrite (rows_split r Hr), !app_length. destruct (rows_four (seq (S r) (h - S r))) as (q & Eq).
    split; [lia|]. split; [exists (quarter r + q)%nat; rewrite words_four, Eq; lia|].
    rewrite skipn_app, Nat.sub_diag, skipn_all. cbn [skipn app]. rewrite (swap32_app _ _ (quarter r)) by apply words_four.
    unfold words at 1. rewrite (swap32_twice _ (quarter r)) by apply pack_four. rewrite byte_bits_app.
    destruct (pack_bits (row_bits f a w r)) as (t & Et). rewrite Et, <- app_assoc. eauto.
  Qed.
  Lemma rows_bytes : Forall is_byte (srw1_rows f a w h).
  Proof.
    unfold srw1_rows. apply Forall_flat_map. apply Forall_forall. intros r _. unfold words. apply (swap32_bytes _ (quarter r)); [apply pack_four|apply pack_bytes].
  Qed.
  Lemma rows_mono r : (r <= h)%nat -> (srw1_offset f a w r <= srw1_offset f a w h)%nat.
  Proof.
    intros Hr. unfold srw1_offset, srw1_rows. replace h with (r + (h - r))%nat by lia. rewrite seq_app, flat_map_app, app_length. lia.
  Qed.
  Lemma offset_at r : (r < h)%nat -> Z.of_nat (srw1_offset f a w h) < 2 ^ 32 -> word_at (srw1_offsets f a w h) (4 * r) = Z.of_nat (srw1_offset f a w r).
  Proof.
    intros Hr HB. unfold word_at, srw1_offsets. rewrite (Nat.mul_comm 4 r). rewrite word_flat; [|intros; apply le_bytes_length|exact Hr].
    change (le_bytes 4) with (enc LE 4). apply dec_enc. change (8 * Z.of_nat 4) with 32. pose proof (rows_mono r ltac:(lia)). lia.
  Qed.
End Stored.

Theorem srw1_any f a w h s buf loffsets : form_ok f a w h -> srw1_picture f a w h s -> (16 <= w)%nat -> (2 <= h)%nat -> (w mod 2 = 0)%nat -> (h mod 2 = 0)%nat ->
  Forall is_byte buf -> (4 * h <= length loffsets)%nat ->
  (forall r, (r < h)%nat -> row_stored buf (Z.to_nat (word_at loffsets (4 * r))) (row_bits f a w r)) ->
  srw1_decode buf loffsets w h = Ok (samples (swapped s) w h).
Proof. intros. apply (srw1_decoded f a); auto. Qed.

Theorem srw1_roundtrip f w h s : (16 <= w)%nat -> (2 <= h)%nat -> (w mod 2 = 0)%nat -> (h mod 2 = 0)%nat ->
  picture_within s w h 65536 -> form_ok f (corrections f s w) w h -> Z.of_nat (srw1_offset f (corrections f s w) w h) < 2 ^ 32 ->
  srw1_decode (srw1_rows f (corrections f s w) w h) (srw1_offsets f (corrections f s w) w h) w h = Ok (samples (swapped s) w h).
Proof.
  intros Hw Hh We He HP HF HB. apply (srw1_any f (corrections f s w)); auto.
  - intros r c Hr Hc. unfold corrections. replace (c <? w)%nat with true by lia. rewrite Z.add_sub_assoc, Z.add_simpl_l. symmetry. apply Z.mod_small. apply HP; auto.
  - apply rows_bytes.
  - unfold srw1_offsets. rewrite (flat_map_seq_length _ h 4) by (intros; apply le_bytes_length). lia.
  - intros r Hr. rewrite offset_at by auto. rewrite Nat2Z.id. now apply row_at.
Qed.

(** ** Every picture of 14 bit samples can be stored *)
Lemma pred_range f s w h r c : (16 <= w)%nat -> picture_within s w h 16384 -> (r < h)%nat -> (c < w)%nat -> 0 <= srw1_pred f s r c < 16384.
Proof.
  intros Hw HP Hr Hc. unfold srw1_pred. destruct (f_dir f r (c / 16)).
  - destruct (Nat.eqb_spec r 0); [lia|]. destruct (c mod 2 =? 0)%nat; apply HP; try lia. destruct (Nat.eqb_spec r 1); lia.
  - destruct (Nat.eqb_spec (c / 16) 0); [lia|]. apply HP; [lia|]. pose proof (Nat.div_mod c 16 ltac:(lia)). pose proof (Nat.mod_upper_bound c 2 ltac:(lia)). lia.
Qed.
Theorem plain_ok dir s w h : (16 <= w)%nat -> picture_within s w h 16384 -> form_ok (plain_form dir) (corrections (plain_form dir) s w) w h.
Proof.
  intros Hw HP r g Hr Hg. split.
  - intros i Hi. cbn [plain_form f_op fst snd len_of change]. unfold len_of, change. cbn [plain_form f_op fst snd]. repeat split; try lia.
  - intros c Hc. unfold len_of, change. cbn [plain_form f_op fst snd]. unfold fits_signed. cbn [Nat.eqb Nat.sub]. change (2 ^ Z.of_nat 14) with 16384. unfold corrections.
    destruct (Nat.ltb_spec (16 * g + c) w); [|lia]. pose proof (pred_range (plain_form dir) s w h r (16 * g + c) Hw HP Hr H). pose proof (HP r (16 * g + c)%nat Hr H). lia.
Qed.

(** ** Odd heights *)
Theorem srw1_odd_height buf lo w h out : (h mod 2 = 1)%nat -> (0 < w)%nat -> srw1_decode buf lo w h <> Ok out.
Proof.
  intros Ho Hw E. unfold srw1_decode in E. apply bind_ok in E as (o & E1 & E2).
  assert (L : length o = (w * h)%nat).
  { apply (for_each_ok_inv (fun o => length o = (w * h)%nat) _ _ _ _) with (3 := E1); [|apply repeat_length]. clear. intros r o o' _ L E. unfold srw1_row in E.
    apply bind_ok in E as (x & _ & E). apply bind_ok in E as (src & _ & E). apply bind_ok in E as (st & E & E'). destruct st as [[ls p'] o1]. injection E' as <-.
    refine (for_each_ok_inv (fun st => length (snd st) = (w * h)%nat) _ _ _ _ _ _ E); [|exact L]. clear. intros c [[len p] o] st' _ L E. cbn [snd] in L. revert st' E.
    change (oks (fun st => length (snd st) = (w * h)%nat) (srw1_group w r c (len, p, o))). unfold srw1_group.
    assert (PX : forall img up back c l dir p o, length o = (w * h)%nat -> forall col, oks (fun st => length (snd st) = (w * h)%nat) (srw1_pixel w img up back col c l dir p o)).
    { clear. intros img up back c l dir p o L col. unfold srw1_pixel. ostep. ostep. destruct (col + c <? w)%nat; [|now apply oks_ok]. ostep. ostep. apply oks_ok. cbn [snd].
      match goal with H : put _ _ _ = Ok _ |- _ => apply put_len in H as [-> _] end. exact L. }
    ostep. ostep. ostep. apply oks_bind. intros [p3 o3] E3.
    assert (L3 : length o3 = (w * h)%nat).
    { refine (for_each_ok_inv (fun st => length (snd st) = (w * h)%nat) _ _ _ (p3, o3) _ _ E3); [|exact L]. intros j [p4 o4] st' _ L4 E4. apply bind_ok in E4 as (l4 & _ & E4). revert E4. apply PX. exact L4. }
    apply oks_bind. intros [p5 o5] E5. apply oks_ok. cbn [snd].
    refine (for_each_ok_inv (fun st => length (snd st) = (w * h)%nat) _ _ _ (p5, o5) _ _ E5); [|exact L3]. intros j [p4 o4] st' _ L4 E4. apply bind_ok in E4 as (l4 & _ & E4). revert E4. apply PX. exact L4. }
  unfold srw1_swap in E2. pose proof (Nat.div_mod h 2 ltac:(lia)) as D.
  assert (SW : forall i j o o', length o = (w * h)%nat -> swap_px o i j = Ok o' -> length o' = (w * h)%nat /\ (j < w * h)%nat).
  { clear. intros i j o o' L E. unfold swap_px in E. apply bind_ok in E as (x & _ & E). apply bind_ok in E as (y & _ & E). apply bind_ok in E as (o1 & E1 & E). apply put_len in E1 as [L1 _]. apply put_len in E as [L2 X]. lia. }
  assert (INN : exists l, step_range 0 w 2 = 0%nat :: l).
  { unfold step_range. replace ((w - 0 + (2 - 1)) / 2)%nat with (S ((w - 1) / 2)); [cbn [seq map]; eauto|].
    replace (w - 0 + (2 - 1))%nat with (w - 1 + 1 * 2)%nat by lia. rewrite Nat.div_add by lia. lia. }
  edestruct (fun I1 I2 => for_each_ok_in (fun o : list Z => length o = (w * h)%nat) _ _ _ _ (h - 1)%nat I1 I2 E2) as (o1 & o2 & L1 & E3).
  - intros row o1 o2 _ L1 E3. refine (for_each_ok_inv (fun o => length o = (w * h)%nat) _ _ _ _ _ L1 E3). intros col o3 o4 _ L3 E4. apply SW in E4; tauto.
  - exact L.
  - unfold step_range. apply in_map_iff. exists (h / 2)%nat. split; [lia|]. apply in_seq. split; [lia|].
    replace (h - 0 + (2 - 1))%nat with (h / 2 * 2 + 2)%nat by lia. replace (h / 2 * 2 + 2)%nat with (0 + (h / 2 + 1) * 2)%nat by lia. rewrite Nat.div_add by lia. change (0 / 2)%nat with 0%nat. lia.
  - destruct INN as (l & El). rewrite El in E3. cbn [for_each] in E3. apply bind_ok in E3 as (o3 & E3 & _). apply SW in E3 as [_ X]; [|exact L1].
    replace (h - 1 + 1)%nat with h in X by lia. lia.
Qed.
