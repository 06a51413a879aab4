(** Proofs: CRX images that are not decoded. *)
From Coq Require Import List ZArith Bool Lia.
From Verif Require Import Base BaseLemmas Crx CrxSpec CrxLL Idwt IdwtSpec CrxImage CrxImageSpec.
Import ListNotations.
Open Scope Z_scope.

Lemma short_data_panics mdat c k : codec_new c = Ok k -> zlen mdat < c_hdr c -> decompress_crx mdat c = Panic.
Proof.
  intros E H. unfold decompress_crx. rewrite E. cbn [bind]. unfold crx_decode.
  assert (k_hdr k = c_hdr c) as ->.
  { revert E. unfold codec_new. destruct (negb (c_planes c =? 4)); [discriminate|].
    repeat match goal with |- (do _ <- ?e; _) = _ -> _ => destruct e; cbn [bind]; [|discriminate|discriminate] end.
    cbv zeta. repeat match goal with |- (do _ <- ?e; _) = _ -> _ => destruct e; cbn [bind]; [|discriminate|discriminate] end.
    destruct (255 <? _); [discriminate|]. destruct (255 <? _); [discriminate|].
    intros E. injection E as <-. reflexivity. }
  unfold slice. replace ((0 <=? Z.to_nat (c_hdr c)) && (Z.to_nat (c_hdr c) <=? length mdat))%nat with false; [reflexivity|].
  symmetry. apply andb_false_iff. right. apply Nat.leb_gt. unfold zlen in H. lia.
Qed.

Lemma qp_without_levels c data t q : k_levels c = 0%nat -> ti_qp t = Some q -> forall r, generate_qstep c data t <> Ok r.
Proof.
  intros HL Hq r. unfold generate_qstep. rewrite Hq. destruct q as [q x].
  destruct (slice _ _ _); cbn [bind]; try discriminate. destruct (qp_rows _ _ _ _ _); cbn [bind]; try discriminate.
  unfold make_qstep. rewrite HL. discriminate.
Qed.

(** The first sample of a plane of a tile lands [tile_width], not
    [tile_height], rows below the tile above it. *)
Lemma lower_tile_row c pw id k row buf cfa cfa' :
  (0 < pw)%nat -> (id mod k_cols c * k_tw c + 2 * pw <= k_w c)%nat ->
  integrate_cfa c pw id k row buf cfa = Ok cfa' ->
  forall i, (i < pw)%nat ->
    nth ((id / k_cols c * k_tw c + 2 * row + k / 2) * k_w c + (id mod k_cols c * k_tw c + 2 * i + k mod 2)) cfa' 0 = nth i buf 0.
Proof.
  intros Hp Hw. unfold integrate_cfa.
  destruct (negb (length buf =? 0)%nat); cbn [assert_ bind]; try discriminate.
  destruct (negb (length cfa =? 0)%nat); cbn [assert_ bind]; try discriminate.
  set (Y := (id / k_cols c * k_tw c + row * 2 + k / 2)%nat). set (X := (id mod k_cols c * k_tw c)%nat).
  intros E. replace (id / k_cols c * k_tw c + 2 * row + k / 2)%nat with Y by (unfold Y; lia). fold X. fold X in Hw.
  clear Hw. assert (forall n cfa cfa', for_each (seq 0 n) (fun i cfa => do v <- get buf i; put cfa (Y * k_w c + (X + i * 2 + k mod 2)) v) cfa = Ok cfa' ->
    forall i, (i < n)%nat -> nth (Y * k_w c + (X + 2 * i + k mod 2)) cfa' 0 = nth i buf 0) as H.
  { clear. induction n as [|n IH]; intros cfa cfa' E i Hi; [lia|].
    rewrite seq_S, for_each_app in E. destruct (for_each (seq 0 n) _ cfa) as [c1| |] eqn:E1; cbn [bind] in E; try discriminate.
    cbn [Nat.add for_each] in E. destruct (get buf n) as [v| |] eqn:G; cbn [bind] in E; try discriminate.
    destruct (put c1 _ v) as [c2| |] eqn:Pt; cbn [bind] in E; try discriminate. injection E as <-.
    apply (get_inv _ _ _ 0) in G. destruct G as (G1 & G2). apply put_inv in Pt. destruct Pt as (P1 & ->).
    destruct (Nat.eq_dec i n) as [->|N].
    - replace (X + 2 * n + k mod 2)%nat with (X + n * 2 + k mod 2)%nat by lia. rewrite nth_upd_eq by lia. now symmetry.
    - rewrite nth_upd_neq by lia. apply (IH cfa c1 E1). lia. }
  apply (H pw cfa). exact E.
Qed.
