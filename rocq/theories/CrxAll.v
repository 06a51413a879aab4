(** Proofs: a whole CRX image. *)
From Coq Require Import List ZArith Bool Lia.
From Verif Require Import Base BaseLemmas Crx CrxSpec CrxLL Idwt IdwtSpec CrxImage CrxImageSpec CrxHdr CrxGeom CrxTiles CrxQuant CrxPlane CrxPicture.
Import ListNotations.
Open Scope Z_scope.

Lemma nth_error_numbered {A B} (g : nat -> A -> B) l : forall i s,
  nth_error (map (fun '(j, x) => g j x) (combine (seq s (length l)) l)) i = option_map (g (s + i)%nat) (nth_error l i).
Proof.
  induction l as [|x l IH]; intros i s; [destruct i; reflexivity|]. destruct i as [|i]; cbn [length seq combine map nth_error option_map].
  - now rewrite Nat.add_0_r.
  - rewrite IH. now replace (S s + i)%nat with (s + S i)%nat by lia.
Qed.

Lemma map_numbered {A B} (g : nat -> B) (l : list A) : forall s, map (fun '(j, _) => g j) (combine (seq s (length l)) l) = map g (seq s (length l)).
Proof. induction l as [|x l IH]; intros s; [reflexivity|]. cbn [length seq combine map]. now rewrite IH. Qed.

Lemma generate_qstep_ok d t Q c ts after T :
  desc_ok d -> (t < tiles_across d)%nat -> (i_qp d = true -> (1 <= i_levels d)%nat) ->
  nth_error ts t = Some T -> qp_coded d t Q T ->
  generate_qstep (codec_of d c) (concat (map tile_bytes ts) ++ after)
    (geo_tile d (c_version c) t (ti_of (i_new d) (i_qp d) (zlen (concat (map tile_bytes (firstn t ts)))) T))
  = Ok (done_tile d t (c_version c) Q (ti_of (i_new d) (i_qp d) (zlen (concat (map tile_bytes (firstn t ts)))) T)).
Proof.
  intros (W & TW & A & L3 & D & Sh & Sw) Ht HL HT HQ. unfold generate_qstep.
  cbn [geo_tile set_planes set_geom ti_of ti_qp ti_off ti_pw ti_ph].
  unfold done_tile, tile_steps. destruct (i_qp d) eqn:Eq; [|reflexivity].
  destruct (HQ Eq) as (TQ & rest & Hbits).
  pose proof (size_pos _ _ Sh) as H1. pose proof (size_pos _ _ (Sw t Ht)) as W1.
  rewrite (concat_split (map tile_bytes ts) t (tile_bytes T)) by (rewrite nth_error_map, HT; reflexivity).
  rewrite firstn_map. set (X := concat (map tile_bytes (firstn t ts))). change (tile_bytes T) with (ct_qp T ++ ct_pad T ++ concat (map plane_bytes (ct_planes T))) at 1. rewrite <- !app_assoc. unfold zlen.
  rewrite <- Nat2Z.inj_add, !Nat2Z.id. rewrite slice_part by lia. rewrite firstn_all. cbn [bind].
  rewrite Hbits, qp_table_decoded by auto. cbn [bind]. unfold codec_of. cbn [k_levels].
  rewrite make_qstep_ok by auto. reflexivity.
Qed.

Lemma slice_prefix {A} (x y : list A) : slice (x ++ y) 0 (length x) = Ok x.
Proof. rewrite slice_ok by (rewrite ?app_length; lia). cbn [skipn]. rewrite Nat.sub_0_r, firstn_app, firstn_all, Nat.sub_diag. cbn [firstn]. now rewrite app_nil_r. Qed.
Lemma slice_suffix {A} (x y : list A) : slice (x ++ y) (length x) (length (x ++ y)) = Ok y.
Proof.
  rewrite slice_ok by (rewrite ?app_length; lia). rewrite skipn_app, skipn_all, Nat.sub_diag. cbn [app skipn].
  rewrite app_length. replace (length x + length y - length x)%nat with (length y) by lia. now rewrite firstn_all.
Qed.

Lemma coded_full d Q P ts : image_coded d Q P ts -> Forall (tile_full d) ts.
Proof.
  intros (_ & H). rewrite Forall_forall. intros T HT. apply In_nth_error in HT. destruct HT as (t & HT).
  destruct (H t T HT) as (OK & _ & HP). split; [exact OK|]. rewrite Forall_forall. intros p Hp. apply In_nth_error in Hp. destruct Hp as (k & Hp).
  specialize (HP k p Hp). unfold plane_coded in HP. destruct (Nat.eqb_spec (i_levels d) 0) as [E|E].
  - destruct HP as (b & Eb & _). rewrite Eb, E. reflexivity.
  - exact (proj1 HP).
Qed.

Lemma full_wf d T : tile_full d T -> tile_wf T.
Proof.
  intros ((H4 & _ & _ & HB & _) & HL). split; [intros E; rewrite E in H4; discriminate|].
  rewrite Forall_forall in *. intros p Hp. split; [|apply HB; exact Hp].
  specialize (HL p Hp). intros E. rewrite E in HL. cbn [length] in HL. lia.
Qed.

Theorem decompress_ok d c ts Q P tail after :
  desc_ok d -> describes d (zlen (header (i_new d) (i_qp d) ts ++ tail)) c -> header_end tail ->
  image_coded d Q P ts -> (forall t k i j, Z.abs (P t k i j) <= 2 ^ 18) ->
  decompress_crx ((header (i_new d) (i_qp d) ts ++ tail) ++ concat (map tile_bytes ts) ++ after) c = Ok (picture d P).
Proof.
  intros Hd Hc Htail HI HB. unfold decompress_crx. rewrite (codec_new_ok d _ c Hc Hd). cbn [bind]. unfold crx_decode.
  pose proof Hd as (W & TW & A & L3 & D & Sh & Sw).
  pose proof Hc as (_ & _ & _ & _ & _ & _ & _ & _ & _ & Hh & Hv).
  pose proof (coded_full d Q P ts HI) as HF. destruct HI as (Hlen & HI).
  change (k_hdr (codec_of d c)) with (c_hdr c). rewrite Hh. unfold zlen. rewrite Nat2Z.id.
  rewrite slice_prefix. cbn [bind].
  assert (ts <> []) as Hne.
  { intros ->. pose proof (across_bounds d W TW) as (A1 & _). cbn [length] in Hlen. lia. }
  rewrite (header_ok (i_new d) (i_qp d) ts tail Hne).
  2:{ eapply Forall_impl; [|exact HF]. apply full_wf. }
  2:{ exact Htail. }
  cbn [bind]. rewrite process_tiles_ok by auto. cbn [bind]. rewrite slice_suffix. cbn [bind].
  assert (forall t T, nth_error (geo_tiles d (c_version c) ts) t = Some T -> exists T0, nth_error ts t = Some T0 /\
     T = geo_tile d (c_version c) t (ti_of (i_new d) (i_qp d) (zlen (concat (map tile_bytes (firstn t ts)))) T0)) as HG.
  { intros t T HT. unfold geo_tiles in HT. rewrite <- (tis_length (i_new d) (i_qp d) 0 ts) in HT.
    rewrite (nth_error_numbered (geo_tile d (c_version c))) in HT. cbn [Nat.add] in HT. rewrite tis_nth in HT.
    destruct (nth_error ts t) as [T0|]; [|discriminate]. cbn [option_map] in HT. injection HT as <-. exists T0. split; reflexivity. }
  assert (length (geo_tiles d (c_version c) ts) = length ts) as GL.
  { unfold geo_tiles. rewrite map_length, combine_length, seq_length, tis_length. lia. }
  rewrite (mapi_ok _ (fun t T => set_steps (tile_steps d t (Q t)) T)).
  2:{ intros t T HT. cbn [Nat.add]. destruct (HG t T HT) as (T0 & HT0 & ->).
      rewrite (generate_qstep_ok d t (Q t)); auto.
      - rewrite <- Hlen. apply nth_error_Some. congruence.
      - intros E. apply Hv. exact E.
      - apply HI. exact HT0. }
  cbn [bind]. set (done := map (fun '(j, x) => set_steps _ x) _).
  rewrite (mapi_ok _ (fun t _ => (plane_w d t, tile_planes d P t))).
  2:{ intros t T HT. cbn [Nat.add]. unfold done in HT.
      rewrite (nth_error_numbered (fun t T => set_steps (tile_steps d t (Q t)) T)) in HT. cbn [Nat.add] in HT.
      destruct (nth_error (geo_tiles d (c_version c) ts) t) as [T1|] eqn:E1; [|discriminate]. cbn [option_map] in HT. injection HT as <-.
      destruct (HG t T1 E1) as (T0 & HT0 & ->). destruct (HI t T0 HT0) as ((H4 & _ & _ & HBand & Hno) & HQ & HP).
      assert (t < tiles_across d)%nat as Ht by (rewrite <- Hlen; apply nth_error_Some; congruence).
      rewrite (mapi_ok _ (fun k _ => image (P t k) (plane_w d t) (plane_h d))).
      - cbn [bind]. f_equal. f_equal. rewrite map_numbered.
        cbn [set_steps geo_tile set_planes set_geom ti_planes ti_of]. rewrite map_length, pls_length, H4. reflexivity.
      - intros k p Hp. cbn [Nat.add]. cbn [set_steps geo_tile set_planes set_geom ti_planes ti_of] in Hp.
        rewrite nth_error_map, pls_nth in Hp. destruct (nth_error (ct_planes T0) k) as [p0|] eqn:Ep; [|discriminate].
        cbn [option_map] in Hp. injection Hp as <-.
        apply (decode_plane_ok d t (c_version c) (Q t) L3 (Sw t Ht) Sh) with (C := 2 ^ 18); auto.
        + intros E. destruct (Hv E) as (V1 & V2). destruct (HQ E) as (V3 & _). auto.
        + rewrite Forall_forall in HBand. apply HBand. eapply nth_error_In; eauto.
        + split; [lia|]. assert (4 ^ Z.of_nat (i_levels d) <= 4 ^ 3) by (apply Z.pow_le_mono_r; lia). lia. }
  cbn [bind]. rewrite (map_numbered (fun t => (plane_w d t, tile_planes d P t)) done).
  assert (length done = tiles_across d) as ->.
  { unfold done. rewrite map_length, combine_length, seq_length, GL, Hlen. lia. }
  change (k_w (codec_of d c)) with (i_w d). change (k_h (codec_of d c)) with (i_h d). apply put_tiles_ok; auto.
  intros t Ht. eapply size_pos. apply Sw. exact Ht.
Qed.
