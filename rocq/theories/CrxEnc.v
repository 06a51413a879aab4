(** Proofs: the encoder without loss. *)
From Coq Require Import List ZArith Bool Lia.
From Verif Require Import Base BaseLemmas Crx CrxSpec CrxLL Idwt IdwtSpec CrxImage CrxImageSpec CrxHdr CrxGeom CrxTiles CrxBands CrxPlane CrxAll.
Import ListNotations.
Open Scope Z_scope.

Lemma pack_length bits : length (pack bits) = (8 * (length bits / 64 + 1))%nat.
Proof. unfold pack. now rewrite map_length, seq_length. Qed.

Lemma byte_bits_peek n : forall l, byte_bits (map (fun i => peekv 8 (skipn (8 * i) l)) (seq 0 n)) = take0 (8 * n) l.
Proof.
  induction n as [|n IH]; intros l; [reflexivity|].
  cbn [seq map]. rewrite byte_bits_cons. rewrite <- seq_shift, map_map.
  replace (map (fun x => peekv 8 (skipn (8 * S x) l)) (seq 0 n)) with (map (fun i => peekv 8 (skipn (8 * i) (skipn 8 l))) (seq 0 n)).
  2:{ apply map_ext. intros i. rewrite skipn_skipn. f_equal. f_equal. lia. }
  rewrite IH. replace (8 * S n)%nat with (8 + 8 * n)%nat by lia. rewrite take0_plus. f_equal.
  unfold peekv. rewrite Nat.mul_0_r. cbn [skipn].
  rewrite <- (take0_length 8 l) at 1. apply bits_of_bval.
Qed.

Lemma pack_bits bits : exists rest, byte_bits (pack bits) = bits ++ rest.
Proof.
  unfold pack. rewrite byte_bits_peek. pose proof (Nat.div_mod (length bits) 64 ltac:(lia)) as E.
  pose proof (Nat.mod_upper_bound (length bits) 64 ltac:(lia)).
  replace (8 * (8 * (length bits / 64 + 1)))%nat with (length bits + (64 - length bits mod 64))%nat by lia.
  pose proof (take0_app_ge bits (64 - length bits mod 64) []) as T. rewrite app_nil_r in T. rewrite T. eexists. reflexivity.
Qed.

Lemma bands_of_length left right lvs : forall w h P, length (bands_of left right lvs w h P) = (3 * length lvs + 1)%nat.
Proof. induction lvs as [|[nl nh] lvs IH]; intros; cbn [bands_of length]; [reflexivity|]. rewrite app_length, IH. cbn [length]. lia. Qed.

Lemma stored_length d t P : length (stored_lines d t P) = (3 * i_levels d + 1)%nat.
Proof. unfold stored_lines. rewrite bands_of_length. unfold level_cols. now rewrite map_length, seq_length. Qed.

Section Enc.
  Variables (d : image_desc) (P : nat -> nat -> plane).
  Hypothesis Hnew : i_new d = false.
  Hypothesis Hqp : i_qp d = false.
  Hypothesis Hs : storable d P.

  Lemma band_zlen t k i b : (t < tiles_across d)%nat -> (k < 4)%nat -> nth_error (cp_bands (lossless_plane d t (P t k))) i = Some b ->
    exists l, nth_error (stored_lines d t (P t k)) i = Some l /\ b = lossless_band (i =? 0)%nat l /\ zlen (cb_bytes b) < 2 ^ 30.
  Proof using Hnew Hqp Hs.
    intros Ht Hk Hb. unfold lossless_plane in Hb. cbn [cp_bands] in Hb.
    rewrite (nth_error_numbered (fun i l => lossless_band (i =? 0)%nat l)) in Hb. cbn [Nat.add] in Hb.
    destruct (nth_error (stored_lines d t (P t k)) i) as [l|] eqn:E; [|discriminate]. cbn [option_map] in Hb. injection Hb as <-.
    exists l. repeat split.
    destruct (Hs t k Ht Hk) as (_ & Hz).
    unfold plane_bytes in Hz. rewrite (concat_split _ i (cb_bytes (lossless_band (i =? 0)%nat l))) in Hz.
    - rewrite !zlen_app in Hz. unfold zlen in *. lia.
    - rewrite nth_error_map. unfold lossless_plane. cbn [cp_bands].
      rewrite (nth_error_numbered (fun i l => lossless_band (i =? 0)%nat l)). cbn [Nat.add]. rewrite E. reflexivity.
  Qed.

  Lemma lossless_coded : image_coded d (fun _ => []) P (lossless_tiles d P).
  Proof.
    split; [unfold lossless_tiles; now rewrite map_length, seq_length|].
    intros t T HT. unfold lossless_tiles in HT. rewrite nth_error_map in HT.
    destruct (nth_error (seq 0 (tiles_across d)) t) as [t'|] eqn:Et; [|discriminate].
    assert (t < tiles_across d)%nat as Ht by (rewrite <- (seq_length (tiles_across d) 0); apply nth_error_Some; congruence).
    apply (nth_error_nth _ _ 0%nat) in Et. rewrite seq_nth in Et by exact Ht. cbn [Nat.add] in Et. subst t'.
    cbn [option_map] in HT. injection HT as <-.
    assert (forall k p, nth_error (map (fun k => lossless_plane d t (P t k)) (seq 0 4)) k = Some p -> (k < 4)%nat /\ p = lossless_plane d t (P t k)) as HK.
    { intros k p Hp. assert (k < 4)%nat as Hk by (apply (nth_error_Some (map (fun k => lossless_plane d t (P t k)) (seq 0 4)) k); congruence).
      split; [exact Hk|]. apply (nth_error_nth _ _ (lossless_plane d t (P t 0%nat))) in Hp. rewrite nth_map_seq in Hp by exact Hk. now symmetry. }
    split; [|split].
    - split; [reflexivity|]. cbn [ct_planes ct_qp ct_pad]. unfold tile_bytes. cbn [ct_planes ct_qp ct_pad app].
      split; [|split; [unfold zlen; cbn [length]; lia|split; [|auto]]].
      + cbn [seq map concat]. rewrite !zlen_app. change (zlen (@nil Z)) with 0.
        pose proof (proj2 (Hs t 0%nat Ht ltac:(lia))). pose proof (proj2 (Hs t 1%nat Ht ltac:(lia))).
        pose proof (proj2 (Hs t 2%nat Ht ltac:(lia))). pose proof (proj2 (Hs t 3%nat Ht ltac:(lia))). lia.
      + rewrite Forall_forall. intros p Hp. apply In_nth_error in Hp. destruct Hp as (k & Hp). destruct (HK k p Hp) as (Hk & ->).
        rewrite Forall_forall. intros b Hb. apply In_nth_error in Hb. destruct Hb as (i & Hb).
        destruct (band_zlen t k i b Ht Hk Hb) as (l & _ & -> & Hz).
        unfold band_ok, lossless_band in *. cbn [cb_bytes cb_unused cb_q cb_mult cb_base] in *. unfold zlen in *. rewrite pack_length in *.
        repeat split; try lia.
    - intros E. congruence.
    - intros k p Hp. cbn [ct_planes] in Hp. destruct (HK k p Hp) as (Hk & ->).
      assert (forall i b, nth_error (cp_bands (lossless_plane d t (P t k))) i = Some b -> forall l, nth_error (stored_lines d t (P t k)) i = Some l ->
         holds (true && (i =? 0)%nat) b l) as HH.
      { intros i b Hb l Hl. destruct (band_zlen t k i b Ht Hk Hb) as (l' & El & -> & _). assert (l' = l) as -> by congruence. split.
        - destruct (Hs t k Ht Hk) as (HF & _). rewrite Forall_forall in HF. apply HF. eapply nth_error_In; eauto.
        - unfold lossless_band. cbn [cb_bytes cb_unused andb]. change (Z.to_nat 0) with 0%nat. rewrite Nat.sub_0_r, firstn_all. apply pack_bits. }
      pose proof (stored_length d t (P t k)) as SL.
      unfold plane_coded. cbv zeta. destruct (Nat.eqb_spec (i_levels d) 0) as [E0|N0].
      + assert (stored_lines d t (P t k) = [image (P t k) (plane_w d t) (plane_h d)]) as ES by (unfold stored_lines, level_cols; rewrite E0; reflexivity).
        exists (lossless_band true (image (P t k) (plane_w d t) (plane_h d))). split.
        * unfold lossless_plane. cbn [cp_bands]. rewrite ES. reflexivity.
        * apply (HH 0%nat); [|rewrite ES; reflexivity]. unfold lossless_plane. cbn [cp_bands]. rewrite ES. reflexivity.
      + split.
        * unfold lossless_plane. cbn [cp_bands]. rewrite map_length, combine_length, seq_length, SL. lia.
        * intros i b Hb. destruct (band_zlen t k i b Ht Hk Hb) as (l & El & Eb & _). exists l.
          assert (forall r c, factor d t [] b i r c = 1) as HF.
          { intros r c. unfold factor. rewrite Hqp, Hnew, Eb. reflexivity. }
          split; [|split; [|split]].
          -- cbn [lossless_plane cp_pred]. apply (HH i b Hb l El).
          -- apply (nth_error_nth _ _ []) in El. unfold stored_lines in El. rewrite El. split; [reflexivity|].
             intros r Hr. split; [reflexivity|]. intros c Hc. rewrite HF. lia.
          -- intros r c. rewrite HF. lia.
          -- intros _ _. exact HF.
  Qed.

  Lemma box_describes : desc_ok d -> describes d (zlen (header (i_new d) (i_qp d) (lossless_tiles d P) ++ [])) (lossless_box d P).
  Proof.
    intros (_ & _ & _ & _ & D & _). unfold describes, lossless_box. rewrite app_nil_r, Hnew, Hqp.
    cbn [c_planes c_fw c_fh c_tw c_th c_enc c_levels c_median c_bits c_hdr c_version]. repeat split; try lia; discriminate.
  Qed.
End Enc.

Theorem lossless_roundtrip d P after : i_new d = false -> i_qp d = false -> desc_ok d -> storable d P ->
  (forall t k i j, Z.abs (P t k i j) <= 2 ^ 18) ->
  decompress_crx (lossless_data d P ++ after) (lossless_box d P) = Ok (picture d P).
Proof.
  intros Hn Hq Hd Hs HB.
  pose proof (decompress_ok d (lossless_box d P) (lossless_tiles d P) (fun _ => []) P [] after Hd (box_describes d P Hn Hq Hd)
    (or_introl (Nat.le_0_l 1)) (lossless_coded d P Hn Hq Hs) HB) as E.
  rewrite app_nil_r, Hn, Hq in E. unfold lossless_data. rewrite <- app_assoc. exact E.
Qed.
