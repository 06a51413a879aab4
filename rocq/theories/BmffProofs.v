(** Boxes written as the format describes are read as they are. *)
From Coq Require Import List ZArith Lia Bool.
From Verif Require Import Base Tiff TiffSpec TiffBytes RawSource CrxImage Bmff BmffSpec.
Import ListNotations.
Open Scope Z_scope.

Lemma be_length n v : length (be n v) = n.
Proof. apply enc_length. Qed.
Lemma rd_be_at file p n v : 0 <= v < 2 ^ (8 * Z.of_nat n) -> at_ file p (be n v) -> rd_be file p (Z.of_nat n) = Ok v.
Proof.
  intros Hv H. unfold rd_be. pose proof (rd_at _ _ _ H) as R. rewrite be_length in R. rewrite R. cbn [bind].
  unfold be. now rewrite dec_enc.
Qed.
Lemma rd_be4 file p v : urange 32 v -> at_ file p (be 4 v) -> rd_be file p 4 = Ok v.
Proof. exact (rd_be_at file p 4 v). Qed.
Lemma rd_be8 file p v : urange 64 v -> at_ file p (be 8 v) -> rd_be file p 8 = Ok v.
Proof. exact (rd_be_at file p 8 v). Qed.
Lemma bytes_eqb_spec a : forall b, bytes_eqb a b = true <-> a = b.
Proof.
  induction a as [|x a IH]; intros [|y b]; cbn; try (split; easy).
  rewrite andb_true_iff, Z.eqb_eq, IH. split; [intros [-> ->]; reflexivity|intros [= -> ->]; now split].
Qed.

Section Ind.
Variable P : sbox -> Prop.
Hypothesis H : forall t u w f kids e, Forall P kids -> P (SBox t u w f kids e).
Fixpoint sbox_ind2 (b : sbox) : P b :=
  match b with
  | SBox t u w f kids e =>
      H t u w f kids e ((fix go l : Forall P l := match l with [] => Forall_nil _ | k :: l => Forall_cons _ (sbox_ind2 k) (go l) end) kids)
  end.
End Ind.

Lemma hdr_bytes_length t u w s : length (hdr_bytes t u w s) = (8 + (if w then 8 else 0) + length u)%nat.
Proof. unfold hdr_bytes. destruct w; rewrite !app_length, !be_length; lia. Qed.
Definition body (b : sbox) : list Z := s_fields b ++ flat_map senc (s_kids b) ++ s_extra b.
Lemma ssize_eq b : ssize b = hdr_len b + Z.of_nat (length (body b)).
Proof.
  destruct b as [t u w f kids e]. unfold ssize. cbn [senc]. rewrite app_length, hdr_bytes_length. unfold hdr_len, body. cbn [s_wide s_uuid s_fields s_kids s_extra].
  destruct w; lia.
Qed.
Lemma senc_eq b : senc b = hdr_bytes (s_typ b) (s_uuid b) (s_wide b) (ssize b) ++ body b.
Proof. rewrite ssize_eq. destruct b; reflexivity. Qed.
Lemma hdr_len_8 b : 8 <= hdr_len b.
Proof. unfold hdr_len. destruct (s_wide b); lia. Qed.
Lemma ssize_8 b : 8 <= ssize b.
Proof. rewrite ssize_eq. pose proof (hdr_len_8 b). lia. Qed.
Lemma hdr_bytes_len b : Z.of_nat (length (hdr_bytes (s_typ b) (s_uuid b) (s_wide b) (ssize b))) = hdr_len b.
Proof. rewrite hdr_bytes_length. unfold hdr_len. destruct (s_wide b); lia. Qed.

Definition s_header (off : Z) (b : sbox) : bhdr :=
  mk_bhdr (ssize b) (s_typ b) (if s_typ b =? 0x75756964 then Some (s_uuid b) else None) off (hdr_len b).

Lemma hdr_eq a b c d e e' (p p' : Z) : e = e' -> p = p' -> @Ok (bhdr * Z) (mk_bhdr a b c d e, p) = Ok (mk_bhdr a b c d e', p').
Proof. now intros -> ->. Qed.
Lemma header_parse_ok file off b : header_ok b -> ssize b < 2 ^ 64 -> at_ file off (senc b) ->
  header_parse file off = Ok (s_header off b, off + hdr_len b).
Proof.
  intros (Ht & Hu & Hw) Hs H. rewrite senc_eq in H. apply at_app in H. destruct H as [H _].
  pose proof (ssize_8 b) as S8. unfold hdr_bytes in H. apply at_app in H. destruct H as [H U].
  unfold header_parse, s_header, hdr_len. fold uuid_.
  change uuid_ with 0x75756964 in *.
  destruct (s_wide b) eqn:W.
  - apply at_app in H. destruct H as [H1 H]. apply at_app in H. destruct H as [H2 H3]. rewrite !app_length, !be_length in *.
    rewrite (rd_be4 file off 1) by (try exact H1; unfold urange; lia). cbn [bind].
    rewrite (rd_be4 file (off + 4) (s_typ b)) by (try exact Ht; exact H2). cbn [bind].
    change (1 =? 1) with true. cbv iota.
    replace (off + Z.of_nat 4 + Z.of_nat 4) with (off + 8) in H3 by lia.
    rewrite (rd_be8 file (off + 8) (ssize b)) by (try exact H3; unfold urange; lia). cbn [bind].
    destruct (s_typ b =? 0x75756964) eqn:E.
    + replace (off + Z.of_nat (4 + (4 + 8))) with (off + 16) in U by lia.
      apply rd_at in U. rewrite Hu in U. change (Z.of_nat 16) with 16 in U. rewrite U. cbn [bind]. rewrite Hu. apply hdr_eq; lia.
    + cbn [bind]. rewrite Hu. apply hdr_eq; lia.
  - specialize (Hw eq_refl). apply at_app in H. destruct H as [H1 H2]. rewrite !app_length, !be_length in *.
    rewrite (rd_be4 file off (ssize b)) by (try exact H1; unfold urange; lia). cbn [bind].
    rewrite (rd_be4 file (off + 4) (s_typ b)) by (try exact Ht; exact H2). cbn [bind].
    replace (ssize b =? 1) with false by (symmetry; apply Z.eqb_neq; lia). cbn [bind].
    destruct (s_typ b =? 0x75756964) eqn:E.
    + replace (off + Z.of_nat (4 + 4)) with (off + 8) in U by lia.
      apply rd_at in U. rewrite Hu in U. change (Z.of_nat 16) with 16 in U. rewrite U. cbn [bind]. rewrite Hu. apply hdr_eq; lia.
    + cbn [bind]. rewrite Hu. apply hdr_eq; lia.
Qed.

(** ** Fields *)
Lemma fld_at (f a b c : list Z) n : f = a ++ b ++ c -> length b = n -> fld f (length a) n = dec BE b.
Proof.
  intros -> <-. unfold fld. rewrite skipn_app, skipn_all, Nat.sub_diag. cbn [skipn app].
  rewrite firstn_app, Nat.sub_diag, firstn_all. cbn [firstn]. now rewrite app_nil_r.
Qed.
Lemma fld_be (f a c : list Z) n v p : f = a ++ be n v ++ c -> length a = p -> 0 <= v < 2 ^ (8 * Z.of_nat n) -> fld f p n = v.
Proof. intros E <- Hv. rewrite (fld_at f a (be n v) c n E (be_length n v)). unfold be. now rewrite dec_enc. Qed.
(** [rd] of a prefix *)
Lemma rd_prefix file pos f e n : at_ file pos (f ++ e) -> (n <= length f)%nat -> rd file pos (Z.of_nat n) = Ok (firstn n f).
Proof.
  intros H L. apply at_app in H. destruct H as [H _]. rewrite <- (firstn_skipn n f) in H. apply at_app in H. destruct H as [H _].
  apply rd_at in H. rewrite firstn_length in H. replace (Nat.min n (length f)) with n in H by lia. exact H.
Qed.
Lemma fld_firstn f p n m : (p + n <= m)%nat -> fld (firstn m f) p n = fld f p n.
Proof. intros H. unfold fld. rewrite skipn_firstn_comm, firstn_firstn. f_equal. f_equal. lia. Qed.
Lemma fld_1 f p : (p < length f)%nat -> fld f p 1 = nth p f 0.
Proof.
  intros H. unfold fld. destruct (skipn p f) as [|x r] eqn:E.
  - pose proof (skipn_length p f) as L. rewrite E in L. cbn in L. lia.
  - assert (nth p f 0 = x) as ->. { rewrite <- (firstn_skipn p f) at 1. rewrite app_nth2; rewrite firstn_length; [|lia]. replace (p - Nat.min p (length f))%nat with 0%nat by lia. now rewrite E. }
    cbn. lia.
Qed.
Lemma hd_nth (f : list Z) : hd 0 f = nth 0 f 0. Proof. now destruct f. Qed.
(** top bits of a four byte number *)
Lemma fld_4 f p : (p + 4 <= length f)%nat -> Forall (urange 8) f ->
  exists r, fld f p 4 = 2 ^ 24 * nth p f 0 + r /\ 0 <= r < 2 ^ 24 /\ 0 <= nth p f 0 < 256.
Proof.
  intros H B. unfold fld.
  assert (forall i, (i < length f)%nat -> 0 <= nth i f 0 < 256) as N.
  { intros i Hi. rewrite Forall_forall in B. apply (B (nth i f 0)). now apply nth_In. }
  assert (E : firstn 4 (skipn p f) = [nth p f 0; nth (p + 1) f 0; nth (p + 2) f 0; nth (p + 3) f 0]).
  { clear N B. revert f H. induction p as [|p IH]; intros [|x f] H; cbn in H; try lia; [|cbn [skipn]; rewrite IH by lia; reflexivity].
    destruct f as [|y [|z [|t f]]]; cbn in H; try lia. reflexivity. }
  rewrite E. pose proof (N p ltac:(lia)). pose proof (N (p + 1)%nat ltac:(lia)). pose proof (N (p + 2)%nat ltac:(lia)). pose proof (N (p + 3)%nat ltac:(lia)).
  exists (nth (p + 1) f 0 * 65536 + nth (p + 2) f 0 * 256 + nth (p + 3) f 0). cbn [dec rev app from_le]. change (2 ^ 24) with 16777216. lia.
Qed.

Definition kind_of (p : place) : kind :=
  match p with
  | AtFile => KFile | InMoov => KMoov | InTrak => KTrak | InMdia => KMdia | InMinf => KMinf | InStbl => KStbl | InStsd => KStsd
  | InCraw => KCraw | InCdi1 => KCdi1 | InCctp => KCctp | InCr3 => KCr3
  end.
Definition s_uuid_opt (b : sbox) : option (list Z) := if s_typ b =? 0x75756964 then Some (s_uuid b) else None.

Lemma table_len w f : table w f -> (8 <= length f)%nat /\ Z.of_nat (length f) = 8 + Z.of_nat w * fld f 4 4.
Proof.
  intros (v & rows & E & Lv & Hr & W). rewrite (fld_be f v (concat rows) 4 (Z.of_nat (length rows)) 4 E Lv) by (change (2 ^ (8 * Z.of_nat 4)) with (2 ^ 32); lia).
  subst f. rewrite !app_length, be_length, Lv.
  assert (length (concat rows) = (length rows * w)%nat) as ->.
  { clear -W. induction W as [|r rows Hr _ IH]; [reflexivity|]. cbn. rewrite app_length, IH, Hr. lia. }
  split; lia.
Qed.

(** the stsc table *)
Definition filled (rows : list (Z * Z * Z)) : list (Z * Z * Z) :=
  match rows with
  | (c, s, _) :: (c', s', _) :: _ => [(c, s, 1); (c', s', 1 + (c' - 1) * s)]
  | [(c, s, _)] => [(c, s, 1)]
  | [] => []
  end.
Lemma stsc_entries_ok v rows : length v = 4%nat -> stsc_rows_ok rows -> stsc_entries (stsc_fields v rows) = Ok (filled rows).
Proof.
  intros Lv [HR H]. unfold stsc_entries.
  destruct rows as [|[[c s] d] [|[[c' s'] d'] [|r rows]]]; [| | |destruct H].
  - rewrite (fld_be (stsc_fields v []) v [] 4 0 4) by (try exact Lv; try reflexivity; lia). reflexivity.
  - rewrite (fld_be _ v (be 4 c ++ be 4 s ++ be 4 d ++ []) 4 1 4) by (try exact Lv; try lia; unfold stsc_fields; cbn [flat_map length]; now rewrite <- ?app_assoc).
    pose proof (Forall_inv HR) as R. cbn [row_ok] in R. destruct R as (R1 & R2 & R3).
    change (seq 0 (Z.to_nat 1)) with [0%nat]. cbn [map]. change (8 + 12 * 0)%nat with 8%nat. change (12 + 12 * 0)%nat with 12%nat.
    rewrite (fld_be _ (v ++ be 4 1) (be 4 s ++ be 4 d ++ []) 4 c 8) by (try exact R1; try (rewrite app_length, be_length; lia); unfold stsc_fields; cbn [flat_map length]; now rewrite <- ?app_assoc).
    rewrite (fld_be _ (v ++ be 4 1 ++ be 4 c) (be 4 d ++ []) 4 s 12) by (try exact R2; try (rewrite !app_length, !be_length; lia); unfold stsc_fields; cbn [flat_map length]; now rewrite <- ?app_assoc).
    reflexivity.
  - rewrite (fld_be _ v (be 4 c ++ be 4 s ++ be 4 d ++ be 4 c' ++ be 4 s' ++ be 4 d' ++ []) 4 2 4) by (try exact Lv; try lia; unfold stsc_fields; cbn [flat_map length]; now rewrite <- ?app_assoc).
    pose proof (Forall_inv HR) as R. cbn [row_ok] in R. destruct R as (R1 & R2 & R3).
    pose proof (Forall_inv (Forall_inv_tail HR)) as R. cbn [row_ok] in R. destruct R as (R4 & R5 & R6).
    change (seq 0 (Z.to_nat 2)) with [0%nat; 1%nat]. cbn [map]. change (8 + 12 * 0)%nat with 8%nat. change (12 + 12 * 0)%nat with 12%nat. change (8 + 12 * 1)%nat with 20%nat. change (12 + 12 * 1)%nat with 24%nat.
    rewrite (fld_be _ (v ++ be 4 2) (be 4 s ++ be 4 d ++ be 4 c' ++ be 4 s' ++ be 4 d' ++ []) 4 c 8) by (try exact R1; try (rewrite app_length, be_length; lia); unfold stsc_fields; cbn [flat_map length]; now rewrite <- ?app_assoc).
    rewrite (fld_be _ (v ++ be 4 2 ++ be 4 c) (be 4 d ++ be 4 c' ++ be 4 s' ++ be 4 d' ++ []) 4 s 12) by (try exact R2; try (rewrite !app_length, !be_length; lia); unfold stsc_fields; cbn [flat_map length]; now rewrite <- ?app_assoc).
    rewrite (fld_be _ (v ++ be 4 2 ++ be 4 c ++ be 4 s ++ be 4 d) (be 4 s' ++ be 4 d' ++ []) 4 c' 20) by (try exact R4; try (rewrite !app_length, !be_length; lia); unfold stsc_fields; cbn [flat_map length]; now rewrite <- ?app_assoc).
    rewrite (fld_be _ (v ++ be 4 2 ++ be 4 c ++ be 4 s ++ be 4 d ++ be 4 c') (be 4 d' ++ []) 4 s' 24) by (try exact R5; try (rewrite !app_length, !be_length; lia); unfold stsc_fields; cbn [flat_map length]; now rewrite <- ?app_assoc).
    cbn [stsc_fill filled]. unfold urange in *.
    replace (c' - 1 <? 0) with false by (symmetry; apply Z.ltb_ge; lia).
    replace (2 ^ 32 <=? (c' - 1) * s) with false by (symmetry; apply Z.leb_gt; lia).
    replace (2 ^ 32 <=? 1 + (c' - 1) * s) with false by (symmetry; apply Z.leb_gt; lia).
    reflexivity.
Qed.
Lemma stsc_fields_len v rows : length v = 4%nat -> Z.of_nat (length (stsc_fields v rows)) = 8 + 12 * Z.of_nat (length rows).
Proof.
  intros Lv. unfold stsc_fields. rewrite !app_length, be_length, Lv.
  rewrite (flat_map_length_const _ 12) by (intros [[c s] d] _; rewrite !app_length, !be_length; reflexivity). lia.
Qed.
Lemma stsc_rows_few rows : stsc_rows_ok rows -> (length rows <= 2)%nat.
Proof. intros [_ H]. destruct rows as [|? [|? [|? rows]]]; cbn; try lia. destruct p as [[? ?] ?], p0 as [[? ?] ?]. destruct H. Qed.

Section Read.
Variable cmt : list Z -> res unit.
Variable file : list Z.

Lemma rd_len pos f e : at_ file pos (f ++ e) -> rd file pos (Z.of_nat (length f)) = Ok f.
Proof. intros H. apply at_app in H. now apply rd_at. Qed.
Lemma rd_pre pos f e (n : nat) m : at_ file pos (f ++ e) -> m = Z.of_nat n -> (n <= length f)%nat -> rd file pos m = Ok (firstn n f).
Proof. intros H -> L. now apply (rd_prefix _ _ f e). Qed.

Lemma cmp1_len pos f e h : at_ file pos (f ++ e) -> cmp1_shape f -> Z.of_nat (length f) < h_size h -> field_len file KCmp1 h pos = Ok (Z.of_nat (length f)).
Proof.
  intros H [B S] Hs.
  assert (36 <= length f)%nat as L by (destruct S as [[S _]|[[S _]|[S _]]]; lia).
  unfold field_len. rewrite (rd_pre pos f e 36 36 H eq_refl L). cbn [bind].
  rewrite !fld_firstn by lia. rewrite fld_1 by lia. destruct (fld_4 f 32 ltac:(lia) B) as (r & -> & R & N). unfold byte_at in S.
  destruct S as [[S H1]|[(S & H1 & H2 & H3)|(S & H1 & H2 & H3)]].
  - replace (2 ^ 24 * nth 32 f 0 + r >=? 2 ^ 31) with false by (symmetry; rewrite Z.geb_leb; apply Z.leb_gt; change (2 ^ 31) with 2147483648; change (2 ^ 24) with 16777216 in *; lia).
    cbn [andb]. now rewrite S.
  - replace (2 ^ 24 * nth 32 f 0 + r >=? 2 ^ 31) with true by (symmetry; rewrite Z.geb_leb; apply Z.leb_le; change (2 ^ 31) with 2147483648; change (2 ^ 24) with 16777216 in *; lia).
    replace (nth 25 f 0 / 16 =? 4) with true by (symmetry; apply Z.eqb_eq; Z.div_mod_to_equations; lia).
    replace (56 <=? h_size h) with true by (symmetry; apply Z.leb_le; lia). cbn [andb].
    rewrite (rd_pre pos f e 60 60 H eq_refl) by lia. cbn [bind]. rewrite fld_firstn by lia.
    destruct (fld_4 f 56 ltac:(lia) B) as (r' & -> & R' & N').
    replace (Z.testbit (2 ^ 24 * nth 56 f 0 + r') 30) with false; [cbn [andb]; now rewrite S|].
    symmetry. rewrite Z.testbit_false by lia. change (2 ^ 30) with 1073741824. change (2 ^ 24) with 16777216 in *. Z.div_mod_to_equations. lia.
  - replace (2 ^ 24 * nth 32 f 0 + r >=? 2 ^ 31) with true by (symmetry; rewrite Z.geb_leb; apply Z.leb_le; change (2 ^ 31) with 2147483648; change (2 ^ 24) with 16777216 in *; lia).
    replace (nth 25 f 0 / 16 =? 4) with true by (symmetry; apply Z.eqb_eq; Z.div_mod_to_equations; lia).
    replace (56 <=? h_size h) with true by (symmetry; apply Z.leb_le; lia). cbn [andb].
    rewrite (rd_pre pos f e 60 60 H eq_refl) by lia. cbn [bind]. rewrite fld_firstn by lia.
    destruct (fld_4 f 56 ltac:(lia) B) as (r' & -> & R' & N').
    replace (Z.testbit (2 ^ 24 * nth 56 f 0 + r') 30) with true.
    + replace (84 <? h_size h) with true by (symmetry; apply Z.ltb_lt; lia). cbn [andb]. now rewrite S.
    + symmetry. rewrite Z.testbit_true by lia. change (2 ^ 30) with 1073741824. change (2 ^ 24) with 16777216 in *. Z.div_mod_to_equations. lia.
Qed.

Lemma versioned_len k pos f e h l0 l1 : at_ file pos (f ++ e) -> versioned l0 l1 f ->
  (k = KMvhd /\ l0 = 20%nat /\ l1 = 32%nat) \/ (k = KMdhd /\ l0 = 22%nat /\ l1 = 34%nat) ->
  field_len file k h pos = Ok (Z.of_nat (length f)).
Proof.
  intros H V K. assert (4 <= length f)%nat as L by (destruct V as [[_ ?]|[_ ?]]; destruct K as [(_ & ? & ?)|(_ & ? & ?)]; lia).
  destruct K as [(-> & -> & ->)|(-> & -> & ->)]; unfold field_len; rewrite (rd_pre pos f e 4 4 H eq_refl L); cbn [bind];
    rewrite fld_firstn, fld_1, <- hd_nth by lia; destruct V as [[-> ->]|[-> ->]]; reflexivity.
Qed.
Lemma table_field_len k pos f e h : k = KStts \/ k = KCo64 -> at_ file pos (f ++ e) -> table 8 f -> field_len file k h pos = Ok (Z.of_nat (length f)).
Proof.
  intros K H T. destruct (table_len _ _ T) as [L ->]. destruct K as [-> | ->]; unfold field_len; rewrite (rd_pre pos f e 8 8 H eq_refl L); cbn [bind];
    rewrite fld_firstn by lia; reflexivity.
Qed.

Lemma leaf_read p b off : header_ok b -> inner p (s_typ b) (s_uuid b) = None -> s_kids b = [] ->
  leaf_shape cmt p (s_typ b) (s_wide b) (s_fields b) (s_extra b) ->
  at_ file (off + hdr_len b) (s_fields b ++ s_extra b) -> 0 <= off -> off + ssize b < 2 ^ 64 ->
  exists k, kid_kind (kind_of p) (s_typ b) (s_uuid_opt b) = Use k /\ container k = false /\
    field_len file k (s_header off b) (off + hdr_len b) = Ok (Z.of_nat (length (s_fields b))) /\
    field_check cmt k (s_header off b) (off + hdr_len b) (s_fields b) = Ok tt.
Proof.
  intros (HT & HU & HW) I K S A O E.
  assert (SZ : ssize b = hdr_len b + Z.of_nat (length (s_fields b)) + Z.of_nat (length (s_extra b))).
  { rewrite ssize_eq. unfold body. rewrite K. cbn [flat_map app]. rewrite app_length. lia. }
  pose proof (hdr_len_8 b) as H8.
  assert (skip : s_fields b = [] -> container KSkip = false /\
    field_len file KSkip (s_header off b) (off + hdr_len b) = Ok (Z.of_nat (length (s_fields b))) /\
    field_check cmt KSkip (s_header off b) (off + hdr_len b) (s_fields b) = Ok tt).
  { intros ->. repeat split. }
  assert (EO : end_offset (s_header off b) = Ok (off + ssize b)).
  { unfold end_offset, add_u64, s_header. cbn [h_off h_size]. replace (off + ssize b <? 2 ^ 64) with true by (symmetry; apply Z.ltb_lt; lia). reflexivity. }
  destruct p; cbn [leaf_shape kind_of kid_kind inner] in *.
  - (* file *) change 0x66747970 with ftyp in S. change 0x6D6F6F76 with moov in I. change (2 ^ 64) with 18446744073709551616 in E.
    destruct (s_typ b =? ftyp) eqn:T.
    + destruct S as (W & X & major & minor & br & F). exists KFtyp. split; [reflexivity|]. split; [reflexivity|]. split; [|reflexivity].
      assert (LF : length (s_fields b) = (8 + 4 * length br)%nat).
      { rewrite F, !app_length, !be_length, (flat_map_length_const _ 4) by (intros; apply be_length). lia. }
      assert (HL : hdr_len b = 8).
      { unfold hdr_len. rewrite W, HU. apply Z.eqb_eq in T. rewrite T. reflexivity. }
      unfold field_len. rewrite (rd_pre _ _ _ 8 8 A eq_refl) by lia. cbn [bind s_header h_size].
      rewrite SZ, HL, LF, X. cbn [length].
      replace ((8 + Z.of_nat (8 + 4 * length br) + Z.of_nat 0) mod 4) with 0 by (symmetry; apply Z.mod_divide; [lia|]; exists (4 + Z.of_nat (length br)); lia).
      cbn [Z.eqb negb].
      replace (8 + Z.of_nat (8 + 4 * length br) + Z.of_nat 0 <? 16) with false by (symmetry; apply Z.ltb_ge; lia).
      f_equal. replace (8 + Z.of_nat (8 + 4 * length br) + Z.of_nat 0 - 16) with (Z.of_nat (length br) * 4) by lia.
      rewrite Z.div_mul by lia. lia.
    + destruct (s_typ b =? moov) eqn:T2; [discriminate I|]. exists KSkip. split; [reflexivity|]. now apply skip.
  - (* moov *) change 0x6D766864 with mvhd in S. change 0x7472616B with trak in I. change 0x75756964 with uuid_ in *.
    destruct (s_typ b =? mvhd) eqn:T.
    + exists KMvhd. split; [reflexivity|]. split; [reflexivity|]. split; [|reflexivity]. apply (versioned_len _ _ _ _ _ 20 32 A S). left. now repeat split.
    + destruct S as [F NU]. destruct (s_typ b =? trak) eqn:T2; [discriminate I|]. unfold s_uuid_opt. change 0x75756964 with uuid_.
      apply Z.eqb_neq in NU. rewrite NU. exists KSkip. split; [reflexivity|]. now apply skip.
  - (* trak *) change 0x746B6864 with tkhd in S. change 0x6D646961 with mdia in I. destruct (s_typ b =? tkhd) eqn:T.
    + exists KFull. repeat split. cbn. now rewrite S.
    + destruct (s_typ b =? mdia) eqn:T2; [discriminate I|]. exists KSkip. split; [reflexivity|]. now apply skip.
  - (* mdia *) change 0x6D646864 with mdhd in S. change 0x68646C72 with hdlr in S. change 0x6D696E66 with minf in I. destruct (s_typ b =? mdhd) eqn:T.
    + exists KMdhd. split; [reflexivity|]. split; [reflexivity|]. split; [|reflexivity]. apply (versioned_len _ _ _ _ _ 22 34 A S). right. now repeat split.
    + destruct (s_typ b =? hdlr) eqn:T2.
      * exists KFull. repeat split. cbn. now rewrite S.
      * destruct (s_typ b =? minf) eqn:T3; [discriminate I|]. exists KSkip. split; [reflexivity|]. now apply skip.
  - (* minf *) change 0x766D6864 with vmhd in S. change 0x7374626C with stbl in I. destruct (s_typ b =? vmhd) eqn:T.
    + exists KVmhd. repeat split. cbn. now rewrite S.
    + destruct (s_typ b =? stbl) eqn:T2; [discriminate I|]. exists KSkip. split; [reflexivity|]. now apply skip.
  - (* stbl *) change 0x73747473 with stts in S. change 0x73747363 with stsc in S. change 0x7374737A with stsz in S. change 0x636F3634 with co64 in S.
    change 0x73747364 with stsd in I. destruct (s_typ b =? stsd) eqn:T0; [discriminate I|]. destruct (s_typ b =? stts) eqn:T.
    { exists KStts. split; [reflexivity|]. split; [reflexivity|]. split; [|reflexivity]. apply (table_field_len _ _ _ _ _ (or_introl eq_refl) A S). }
    destruct (s_typ b =? stsc) eqn:T1.
    { destruct S as (v & rows & Lv & R & F). exists KStsc. split; [reflexivity|]. split; [reflexivity|].
      pose proof (stsc_rows_few _ R) as RF. rewrite F in *. pose proof (stsc_fields_len v rows Lv) as LF.
      split; [|cbn [field_check]; rewrite stsc_entries_ok by assumption; reflexivity].
      unfold field_len. rewrite (rd_pre _ _ _ 8 8 A eq_refl) by lia. cbn [bind]. rewrite fld_firstn by lia.
      erewrite (fld_be (stsc_fields v rows) v _ 4 (Z.of_nat (length rows)) 4 eq_refl Lv) by (change (2 ^ (8 * Z.of_nat 4)) with 4294967296; lia). now rewrite LF. }
    destruct (s_typ b =? stsz) eqn:T2.
    { destruct S as (v & same & count & sizes & Lv & R1 & R2 & Q1 & Q2 & F). exists KStsz. split; [reflexivity|]. split; [reflexivity|]. split; [|reflexivity].
      assert (LF : length (s_fields b) = (12 + 4 * length sizes)%nat).
      { rewrite F. unfold stsz_fields. rewrite !app_length, !be_length, (flat_map_length_const _ 4) by (intros; apply be_length). lia. }
      unfold field_len. rewrite (rd_pre _ _ _ 12 12 A eq_refl) by lia. cbn [bind]. rewrite !fld_firstn by lia. unfold stsz_fields in F.
      rewrite (fld_be _ v (be 4 count ++ flat_map (be 4) sizes) 4 same 4 F Lv R1).
      rewrite (fld_be _ (v ++ be 4 same) (flat_map (be 4) sizes) 4 count 8) by (try exact R2; try (rewrite app_length, be_length; lia); rewrite F, <- ?app_assoc; reflexivity).
      rewrite LF. destruct (same =? 0) eqn:Z0.
      - apply Z.eqb_eq in Z0. rewrite <- (Q1 Z0). f_equal. lia.
      - apply Z.eqb_neq in Z0. rewrite (Q2 Z0). reflexivity. }
    destruct (s_typ b =? co64) eqn:T3.
    { exists KCo64. split; [reflexivity|]. split; [reflexivity|]. split; [|reflexivity]. apply (table_field_len _ _ _ _ _ (or_intror eq_refl) A S). }
    exists KSkip. split; [reflexivity|]. now apply skip.
  - (* stsd *) change 0x43544D44 with ctmd in S. change 0x43524157 with craw in I. destruct (s_typ b =? craw) eqn:T0; [discriminate I|]. destruct (s_typ b =? ctmd) eqn:T.
    + destruct S as (X & v & rows & F & Lv & R & W). exists KCtmd. split; [reflexivity|]. split; [reflexivity|].
      assert (LC : length (concat rows) = (length rows * 8)%nat).
      { clear -W. induction W as [|r rows Hr _ IH]; [reflexivity|]. cbn. rewrite app_length, IH, Hr. lia. }
      assert (LF : length (s_fields b) = (12 + 8 * length rows)%nat) by (rewrite F, !app_length, be_length; lia).
      split.
      * unfold field_len. rewrite (rd_pre _ _ _ 12 12 A eq_refl) by lia. cbn [bind]. rewrite fld_firstn by lia.
        rewrite (fld_be _ v (concat rows) 4 (Z.of_nat (length rows)) 8 F Lv) by (change (2 ^ (8 * Z.of_nat 4)) with (2 ^ 32); lia). f_equal. lia.
      * cbn [field_check]. rewrite EO. cbn [bind]. rewrite SZ, X. cbn [length].
        replace (off + hdr_len b + Z.of_nat (length (s_fields b)) =? _) with true; [reflexivity|]. symmetry. apply Z.eqb_eq. lia.
    + exists KSkip. split; [reflexivity|]. now apply skip.
  - (* craw *) change 0x4A504547 with jpeg in S. change 0x434D5031 with cmp1_ in S. change 0x43444931 with cdi1 in I. destruct (s_typ b =? jpeg) eqn:T.
    + exists KFull. repeat split. cbn. now rewrite S.
    + destruct (s_typ b =? cmp1_) eqn:T1.
      * apply Z.eqb_eq in T1. rewrite T1. exists KCmp1. repeat split. apply (cmp1_len _ _ _ _ A S). cbn [s_header h_size]. lia.
      * destruct (s_typ b =? cdi1) eqn:T2; [discriminate I|]. destruct S as [[H | H] F]; rewrite H; exists KSkip; (split; [reflexivity|now apply skip]).
  - (* cdi1 *) destruct S as [T S]. rewrite T. exists KIad1. repeat split. unfold field_len.
    assert (L : (16 <= length (s_fields b))%nat) by (destruct S as [[? _]|[? _]]; lia).
    rewrite (rd_pre _ _ _ 16 16 A eq_refl L). cbn [bind]. rewrite fld_firstn by lia. unfold fld.
    destruct S as [[-> ->]|[-> ->]]; reflexivity.
  - (* cctp *) destruct S as [T S]. rewrite T. exists KCcdt. repeat split. cbn. now rewrite S.
  - (* cr3 *) change 0x434E4356 with cncv in S. change 0x434E4F50 with cnop in S. change 0x43435450 with cctp in I.
    change [0x434D5431; 0x434D5432; 0x434D5433; 0x434D5434] with [cmt1; cmt2; cmt3; cmt4] in S.
    change [0x4354424F; 0x54484D42; 0x736B6970; 0x66726565] with [ctbo; thmb; skip_; free_] in S.
    destruct (s_typ b =? cncv) eqn:T.
    { exists KCncv. repeat split. cbn. now rewrite S. }
    destruct (s_typ b =? cctp) eqn:T1; [discriminate I|].
    assert (REST : s_extra b = [] -> forall k, k = KCmt \/ k = KCnop -> field_len file k (s_header off b) (off + hdr_len b) = Ok (Z.of_nat (length (s_fields b)))).
    { intros X k HK. assert (field_len file k (s_header off b) (off + hdr_len b) = do e <- end_offset (s_header off b); if e <? off + hdr_len b then Panic else Ok (e - (off + hdr_len b))) as -> by (destruct HK as [-> | ->]; reflexivity).
      rewrite EO. cbn [bind]. rewrite SZ, X. cbn [length]. replace (off + (hdr_len b + Z.of_nat (length (s_fields b)) + Z.of_nat 0) <? off + hdr_len b) with false by (symmetry; apply Z.ltb_ge; lia). f_equal. lia. }
    destruct (s_typ b =? cnop) eqn:T2.
    { apply Z.eqb_eq in T2. rewrite T2. exists KCnop. split; [reflexivity|]. split; [reflexivity|]. split; [apply (REST S); now right|reflexivity]. }
    destruct (existsb (Z.eqb (s_typ b)) [cmt1; cmt2; cmt3; cmt4]) eqn:T3.
    { destruct S as [X C]. exists KCmt. split; [reflexivity|]. split; [reflexivity|]. split; [apply (REST X); now left|exact C]. }
    destruct S as [HI F]. exists KSkip. split; [|now apply skip].
    destruct HI as [H | [H | [H | [H | []]]]]; rewrite <- H; reflexivity.
Qed.
End Read.
