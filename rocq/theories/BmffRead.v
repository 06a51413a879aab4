(** Whole files: trees of boxes are read back, and loops that do not end. *)
From Coq Require Import List ZArith Lia Bool.
From Verif Require Import Base Tiff TiffSpec TiffBytes TiffSafe RawSource CrxImage Bmff BmffSpec BmffProofs.
Import ListNotations.
Open Scope Z_scope.

Fixpoint wt (b : sbox) : nat :=
  let 'SBox _ _ _ _ kids _ := b in S (S (fold_right (fun k n => S (wt k + n)) 0%nat kids)).
Definition wts (l : list sbox) : nat := fold_right (fun k n => S (wt k + n)) 0%nat l.
Lemma wt_eq b : wt b = S (S (wts (s_kids b))). Proof. now destruct b. Qed.

Lemma flat_size l : Z.of_nat (length (flat_map senc l)) = fold_right (fun b n => ssize b + n) 0 l.
Proof. induction l as [|b l IH]; [reflexivity|]. cbn [flat_map fold_right]. rewrite app_length, Nat2Z.inj_add, IH. reflexivity. Qed.
Lemma wt_size b : Z.of_nat (wt b) + 1 <= ssize b.
Proof.
  induction b as [t u w f kids e IH] using sbox_ind2. rewrite ssize_eq, wt_eq. unfold body. cbn [s_kids].
  rewrite !app_length, !Nat2Z.inj_add, flat_size. pose proof (hdr_len_8 (SBox t u w f kids e)).
  assert (Z.of_nat (wts kids) <= fold_right (fun b n => ssize b + n) 0 kids).
  { clear H. induction IH as [|k l Hk _ IH]; cbn [wts fold_right]; [lia|]. fold (wts l). lia. }
  lia.
Qed.
Lemma wts_size l : Z.of_nat (wts l) <= Z.of_nat (length (flat_map senc l)).
Proof. rewrite flat_size. induction l as [|k l IH]; cbn [wts fold_right]; [lia|]. fold (wts l). pose proof (wt_size k). lia. Qed.

Lemma seen_eq off b : seen off b = Node (s_header off b) (s_fields b) (seen_all (off + hdr_len b + Z.of_nat (length (s_fields b))) (s_kids b)).
Proof.
  destruct b as [t u w f kids e]. cbn [seen]. unfold s_header. reflexivity.
Qed.
Lemma seen_typ off b : n_typ (seen off b) = s_typ b. Proof. rewrite seen_eq. reflexivity. Qed.
Lemma seen_all_types l : forall off, map n_typ (seen_all off l) = map s_typ l.
Proof. induction l as [|b l IH]; intros off; [reflexivity|]. cbn [seen_all map]. now rewrite seen_typ, IH. Qed.
Lemma has_kid_In t l : has_kid t l = true <-> In t (map n_typ l).
Proof.
  unfold has_kid. rewrite existsb_exists, in_map_iff. split; intros (x & A & B); exists x; [apply Z.eqb_eq in B|apply Z.eqb_eq in A]; now split.
Qed.
Lemma kid_all q kids : forall b, (fix all l := match l with [] => True | k :: l => box_ok b q k /\ all l end) kids <-> Forall (box_ok b q) kids.
Proof. intros b. induction kids as [|k l IH]; [split; constructor|]. rewrite IH. split; [intros [A B]; now constructor|intros H; split; [now apply Forall_inv in H|now apply Forall_inv_tail in H]]. Qed.

Lemma required_needed p : required (kind_of p) = needed p.
Proof. now destruct p. Qed.

Lemma read_box_S cmt file fuel k h pos : read_box cmt file (S fuel) k h pos =
      run n <- Some (field_len file k h pos);
      run f <- Some (rd file pos n);
      run _ <- Some (field_check cmt k h pos f);
      run e <- Some (end_offset h);
      if container k then
        run kids <- read_kids cmt file fuel k e (pos + n) [];
        run _ <- Some (check (forallb (fun t => has_kid t kids) (required k)));
        Some (Ok (Node h f kids, e))
      else Some (Ok (Node h f [], e)).
Proof. reflexivity. Qed.
Lemma read_kids_S cmt file fuel k e pos acc : read_kids cmt file (S fuel) k e pos acc =
      if pos <? e then
        run (h, p) <- Some (header_parse file pos);
        match kid_kind k (h_typ h) (h_uuid h) with
        | Reject => Some Err
        | Pass => read_kids cmt file fuel k e p acc
        | Use k' =>
            run _ <- Some (assert_ (negb (is_stsd k && existsb (Z.eqb (h_typ h)) [craw; ctmd] && has_kid (h_typ h) acc)));
            run (nd, p) <- read_box cmt file fuel k' h p;
            if is_file k && (p =? pos) then Some Err else read_kids cmt file fuel k e p (acc ++ [nd])
        end
      else Some (Ok acc).
Proof. reflexivity. Qed.

Section Read.
Variable cmt : list Z -> res unit.
Variable file : list Z.
Hypothesis short : Z.of_nat (length file) < 2 ^ 63.

Definition box_claim (p : place) (b : sbox) : Prop :=
  forall off fuel, box_ok cmt p b -> at_ file off (senc b) -> (wt b <= fuel)%nat ->
  exists k, kid_kind (kind_of p) (s_typ b) (s_uuid_opt b) = Use k /\
    read_box cmt file fuel k (s_header off b) (off + hdr_len b) = Some (Ok (seen off b, off + ssize b)).

Lemma size_short off b : at_ file off (senc b) -> 0 <= off /\ off + ssize b <= Z.of_nat (length file) /\ off + ssize b < 2 ^ 64.
Proof. intros H. apply at_len in H. fold (ssize b) in H. change (2 ^ 63) with 9223372036854775808 in short. change (2 ^ 64) with 18446744073709551616. lia. Qed.

Lemma kids_read q kids : Forall (box_claim q) kids -> forall fuel pos acc,
  Forall (box_ok cmt q) kids -> at_ file pos (flat_map senc kids) ->
  (q = InStsd -> forall t, In t [0x43524157; 0x43544D44] -> (count_occ Z.eq_dec (map n_typ acc ++ map s_typ kids) t <= 1)%nat) ->
  (S (wts kids) <= fuel)%nat ->
  read_kids cmt file fuel (kind_of q) (pos + Z.of_nat (length (flat_map senc kids))) pos acc = Some (Ok (acc ++ seen_all pos kids)).
Proof.
  induction 1 as [|b l Hb _ IH]; intros fuel pos acc HO HA HC HF; (destruct fuel as [|fuel]; [lia|]); rewrite read_kids_S.
  - cbn [flat_map length]. replace (pos <? pos + Z.of_nat 0) with false by (symmetry; apply Z.ltb_ge; lia). cbn [seen_all]. now rewrite app_nil_r.
  - cbn [flat_map] in HA. apply at_app in HA. destruct HA as [HA1 HA2]. fold (ssize b) in HA2.
    pose proof (Forall_inv HO) as OK. pose proof (Forall_inv_tail HO) as OKs. clear HO.
    destruct (size_short _ _ HA1) as (P0 & P1 & P2). pose proof (ssize_8 b) as S8.
    cbn [flat_map]. rewrite app_length, Nat2Z.inj_add. fold (ssize b).
    replace (pos <? pos + (ssize b + Z.of_nat (length (flat_map senc l)))) with true by (symmetry; apply Z.ltb_lt; lia).
    assert (HH : header_ok b) by (destruct b; exact (proj1 OK)).
    rewrite (header_parse_ok _ _ _ HH) by (try exact HA1; lia). cbn [obind].
    cbn [wts fold_right] in HF. fold (wts l) in HF.
    destruct (Hb pos fuel OK HA1 ltac:(lia)) as (k & K1 & K2).
    change (h_typ (s_header pos b)) with (s_typ b). change (h_uuid (s_header pos b)) with (s_uuid_opt b). rewrite K1.
    assert (D : is_stsd (kind_of q) && existsb (Z.eqb (s_typ b)) [craw; ctmd] && has_kid (s_typ b) acc = false).
    { destruct (is_stsd (kind_of q)) eqn:Q; [|reflexivity]. assert (Q' : q = InStsd) by (destruct q; easy).
      destruct (existsb (Z.eqb (s_typ b)) [craw; ctmd]) eqn:X; [|reflexivity]. cbn [andb].
      destruct (has_kid (s_typ b) acc) eqn:G; [|reflexivity]. exfalso.
      apply has_kid_In in G. apply existsb_exists in X. destruct X as (t & T1 & T2). apply Z.eqb_eq in T2. subst t.
      specialize (HC Q' (s_typ b) T1). rewrite count_occ_app in HC. cbn [map] in HC. rewrite count_occ_cons_eq in HC by reflexivity.
      apply (count_occ_In Z.eq_dec) in G. lia. }
    rewrite D. cbn [negb assert_ obind]. rewrite K2. cbn [obind].
    replace (pos + ssize b =? pos) with false by (symmetry; apply Z.eqb_neq; lia). rewrite andb_false_r.
    replace (pos + (ssize b + Z.of_nat (length (flat_map senc l)))) with (pos + ssize b + Z.of_nat (length (flat_map senc l))) by lia.
    rewrite (IH fuel (pos + ssize b) (acc ++ [seen pos b]) OKs HA2); [|
      intros Q t T; specialize (HC Q t T); rewrite map_app, <- app_assoc; cbn [map app]; rewrite seen_typ; exact HC|lia].
    cbn [seen_all]. now rewrite <- app_assoc.
Qed.

Lemma inner_use p typ uuid (u : option (list Z)) q n h pos f : inner p typ uuid = Some (q, n) -> u = (if typ =? 0x75756964 then Some uuid else None) ->
  length f = n ->
  kid_kind (kind_of p) typ u = Use (kind_of q) /\ container (kind_of q) = true /\
  field_len file (kind_of q) h pos = Ok (Z.of_nat (length f)) /\ field_check cmt (kind_of q) h pos f = Ok tt.
Proof.
  intros I -> L. destruct p; cbn [inner] in I; try discriminate I.
  all: try (match type of I with context [?x =? ?c] => destruct (x =? c) eqn:T; [|discriminate I] end;
    apply Z.eqb_eq in T; subst typ; injection I as <- <-; rewrite L; repeat split).
  destruct (typ =? 0x7472616B) eqn:T.
  - apply Z.eqb_eq in T; subst typ. injection I as <- <-. rewrite L; repeat split.
  - destruct (typ =? 0x75756964) eqn:T2; cbn [andb] in I; [|discriminate I]. apply Z.eqb_eq in T2. subst typ.
    destruct (list_eq_dec _ _ _) as [E|]; [|discriminate I]. subst uuid. injection I as <- <-. rewrite L; repeat split.
Qed.

Lemma box_read b : forall p, box_claim p b.
Proof.
  induction b as [t u w f kids ex IH] using sbox_ind2. intros p off fuel OK HA HF.
  set (b := SBox t u w f kids ex) in *.
  destruct (size_short _ _ HA) as (P0 & P1 & P2).
  assert (HB : at_ file (off + hdr_len b) (f ++ flat_map senc kids ++ ex)).
  { rewrite senc_eq in HA. apply at_app in HA. rewrite hdr_bytes_len in HA. exact (proj2 HA). }
  assert (EO : end_offset (s_header off b) = Ok (off + ssize b)).
  { unfold end_offset, add_u64, s_header. cbn [h_off h_size]. replace (off + ssize b <? 2 ^ 64) with true by (symmetry; apply Z.ltb_lt; lia). reflexivity. }
  destruct OK as [HH OK]. fold b in HH. rewrite wt_eq in HF. cbn [b s_kids] in HF. destruct fuel as [|fuel]; [lia|].
  destruct (inner p t u) as [[q n]|] eqn:I.
  - destruct OK as (Lf & -> & CH & HK). rewrite kid_all in HK.
    destruct (inner_use p t u (s_uuid_opt b) q n (s_header off b) (off + hdr_len b) f I eq_refl Lf) as (U1 & U2 & U3 & U4).
    exists (kind_of q). split; [exact U1|]. rewrite read_box_S. rewrite U3. cbn [obind]. rewrite (rd_len file (off + hdr_len b) f _ HB). cbn [obind].
    rewrite U4. cbn [obind]. rewrite EO. cbn [obind]. rewrite U2.
    apply at_app in HB. destruct HB as [_ HB]. rewrite app_nil_r in HB.
    assert (ES : off + ssize b = off + hdr_len b + Z.of_nat (length f) + Z.of_nat (length (flat_map senc kids))).
    { rewrite ssize_eq. unfold body. cbn [b s_fields s_kids s_extra]. rewrite !app_length, !Nat2Z.inj_add. cbn [length]. lia. }
    rewrite ES at 1. rewrite (kids_read q kids); [| |exact HK|exact HB| |lia].
    + cbn [obind app]. rewrite required_needed.
      assert (forallb (fun t0 => has_kid t0 (seen_all (off + hdr_len b + Z.of_nat (length f)) kids)) (needed q) = true) as ->.
      { apply forallb_forall. intros x Hx. apply has_kid_In. rewrite seen_all_types. now apply CH. }
      cbn [check obind]. rewrite seen_eq. reflexivity.
    + apply Forall_forall. intros x Hx. rewrite Forall_forall in IH. now apply IH.
    + intros Q x Hx. cbn [map app]. now apply CH.
  - destruct OK as [-> S]. cbn [flat_map app] in HB.
    destruct (leaf_read cmt file p b off HH I eq_refl S HB P0 P2) as (k & K1 & K2 & K3 & K4).
    exists k. split; [exact K1|]. rewrite read_box_S. change (s_fields b) with f in *. rewrite K3. cbn [obind]. rewrite (rd_len file _ f _ HB). cbn [obind].
    rewrite K4. cbn [obind]. rewrite EO. cbn [obind]. rewrite K2. rewrite seen_eq. reflexivity.
Qed.
End Read.

Lemma file_read cmt boxes fuel : file_ok cmt boxes -> (length (flat_map senc boxes) < fuel)%nat ->
  filebox_parse cmt (flat_map senc boxes) fuel = Some (Ok (seen_all 0 boxes)).
Proof.
  intros (HO & HC & HL) HF. set (file := flat_map senc boxes) in *. unfold filebox_parse.
  pose proof (kids_read cmt file HL AtFile boxes) as K. cbn [kind_of] in K.
  specialize (K ltac:(apply Forall_forall; intros; now apply box_read) fuel 0 [] HO).
  fold file in K. rewrite Z.add_0_l in K. rewrite K.
  - cbn [obind app]. change (required KFile) with (needed AtFile).
    assert (forallb (fun t0 => has_kid t0 (seen_all 0 boxes)) (needed AtFile) = true) as ->; [|reflexivity].
    apply forallb_forall. intros x Hx. apply has_kid_In. rewrite seen_all_types. now apply HC.
  - exists [], []. rewrite app_nil_r. split; reflexivity.
  - intros [=].
  - pose proof (wts_size boxes). fold file in H. lia.
Qed.

(** ** Loops that do not end *)
Definition rank (k : kind) : Z :=
  match k with
  | KFile => 10 | KMoov => 9 | KTrak => 8 | KMdia => 7 | KMinf => 6 | KStbl => 5 | KStsd => 4 | KCraw => 3 | KCr3 => 3 | KCdi1 => 2 | KCctp => 2
  | _ => 1
  end.
Lemma rank_kid k typ u k' : kid_kind k typ u = Use k' -> rank k' < rank k.
Proof.
  destruct k; cbn [kid_kind]; intros H; try discriminate H;
    repeat match type of H with context [if ?c then _ else _] => destruct c | context [match u with _ => _ end] => destruct u end;
    try discriminate H; injection H as <-; cbn; lia.
Qed.
Lemma rank_1 k : 1 <= rank k. Proof. destruct k; cbn; lia. Qed.

Lemma rd_bound file p n b : rd file p n = Ok b -> p + n <= Z.of_nat (length file).
Proof. unfold rd. destruct (p + n <=? Z.of_nat (length file)) eqn:E; [|discriminate]. intros _. now apply Z.leb_le in E. Qed.
Lemma rd_be_zero file p n : Forall (urange 8) file -> 0 <= p -> 0 <= n -> rd_be file p n = Ok 0 -> at_ file p (be (Z.to_nat n) 0).
Proof.
  intros B Hp Hn H. unfold rd_be in H. destruct (rd file p n) as [b| |] eqn:R; cbn [bind] in H; try discriminate H. injection H as H.
  destruct (rd_inv _ _ _ _ Hp Hn R) as [A L].
  assert (Forall (urange 8) b) as HB by (destruct A as (x & y & -> & _); apply Forall_app in B; destruct B as [_ B]; apply Forall_app in B; easy).
  rewrite <- (enc_dec BE b HB), H in A. rewrite <- L, Nat2Z.id. exact A.
Qed.
Lemma rd_be_val file p n v : Forall (urange 8) file -> 0 <= p -> 0 <= n -> rd_be file p n = Ok v -> at_ file p (be (Z.to_nat n) v) /\ 0 <= v.
Proof.
  intros B Hp Hn H. unfold rd_be in H. destruct (rd file p n) as [b| |] eqn:R; cbn [bind] in H; try discriminate H. injection H as H.
  destruct (rd_inv _ _ _ _ Hp Hn R) as [A L].
  assert (Forall (urange 8) b) as HB by (destruct A as (x & y & -> & _); apply Forall_app in B; destruct B as [_ B]; apply Forall_app in B; easy).
  split; [|rewrite <- H; apply (dec_range BE b HB)].
  rewrite <- (enc_dec BE b HB), H in A. rewrite <- L, Nat2Z.id. exact A.
Qed.

Lemma header_parse_inv file pos h p : Forall (urange 8) file -> 0 <= pos -> header_parse file pos = Ok (h, p) ->
  h_off h = pos /\ pos < p /\ pos + 8 <= Z.of_nat (length file) /\ 0 <= h_size h /\ (h_size h = 0 -> zero_size_at file pos).
Proof.
  intros B Hp H. unfold header_parse in H.
  destruct (rd_be file pos 4) as [s| |] eqn:R1; cbn [bind] in H; try discriminate H.
  destruct (rd_be file (pos + 4) 4) as [t| |] eqn:R2; cbn [bind] in H; try discriminate H.
  assert (L : pos + 8 <= Z.of_nat (length file)).
  { unfold rd_be in R2. destruct (rd file (pos + 4) 4) as [b| |] eqn:R; cbn [bind] in R2; try discriminate R2. apply rd_bound in R. lia. }
  destruct (rd_be_val file pos 4 s B Hp ltac:(lia) R1) as [A1 G1].
  destruct (s =? 1) eqn:E1.
  - destruct (rd_be file (pos + 8) 8) as [s8| |] eqn:R3; cbn [bind] in H; try discriminate H.
    destruct (rd_be_val file (pos + 8) 8 s8 B ltac:(lia) ltac:(lia) R3) as [A3 G3]. apply Z.eqb_eq in E1. subst s.
    destruct (t =? uuid_).
    + destruct (rd file (pos + 16) 16) as [b| |]; cbn [bind] in H; try discriminate H. injection H as <- <-. cbn. repeat split; try lia. intros ->. right. now split.
    + cbn [bind] in H. injection H as <- <-. cbn. repeat split; try lia. intros ->. right. now split.
  - cbn [bind] in H. destruct (t =? uuid_).
    + destruct (rd file (pos + 8) 16) as [b| |]; cbn [bind] in H; try discriminate H. injection H as <- <-. cbn. repeat split; try lia. intros ->. now left.
    + cbn [bind] in H. injection H as <- <-. cbn. repeat split; try lia. intros ->. now left.
Qed.

Section Hang.
Variable cmt : list Z -> res unit.
Variable file : list Z.
Hypothesis bytes : Forall (urange 8) file.
Let len := Z.of_nat (length file).

Definition zero_box : Prop := exists p, 0 <= p < len /\ zero_size_at file p.

Lemma read_box_pos fuel k h pos nd p : read_box cmt file fuel k h pos = Some (Ok (nd, p)) -> p = h_off h + h_size h.
Proof.
  destruct fuel as [|fuel]; [discriminate|]. rewrite read_box_S. intros H.
  destruct (field_len file k h pos) as [n| |]; cbn [obind] in H; try discriminate H.
  destruct (rd file pos n) as [f| |]; cbn [obind] in H; try discriminate H.
  destruct (field_check cmt k h pos f) as [[]| |]; cbn [obind] in H; try discriminate H.
  unfold end_offset, add_u64 in H. destruct (h_off h + h_size h <? 2 ^ 64); cbn [obind] in H; try discriminate H.
  destruct (container k).
  - destruct (read_kids _ _ _ _ _ _ _) as [[kids| |]|]; cbn [obind] in H; try discriminate H.
    destruct (check _); cbn [obind] in H; try discriminate H. now injection H.
  - now injection H.
Qed.
Lemma Forall_part n (b : list Z) : Forall (urange 8) b -> Forall (urange 8) (firstn n b) /\ Forall (urange 8) (skipn n b).
Proof. intros H. rewrite <- (firstn_skipn n b) in H. now apply Forall_app in H. Qed.
Lemma fld_nonneg b p m q r : rd file q r = Ok b -> 0 <= fld b p m.
Proof.
  intros R. unfold fld. apply dec_range. apply Forall_part, Forall_part.
  unfold rd in R. destruct (_ <=? _); [|discriminate R]. injection R as <-. now apply Forall_part, Forall_part.
Qed.
Lemma Ok_inj (a b : Z) : Ok a = Ok b -> a = b. Proof. congruence. Qed.
Lemma field_len_nonneg k h pos n : field_len file k h pos = Ok n -> 0 <= n.
Proof.
  intros H. destruct k; unfold field_len in H; cbv zeta iota in H; try (apply Ok_inj in H; subst n; lia).
  all: try (destruct (rd file pos _) as [b| |] eqn:R; cbn [bind] in H; try discriminate H).
  - destruct (negb _); [discriminate H|]. destruct (Z.ltb_spec (h_size h) 16); [discriminate H|]. apply Ok_inj in H; subst n.
    assert (0 <= (h_size h - 16) / 4) by (apply Z.div_pos; lia). lia.
  - destruct (_ =? 1); [apply Ok_inj in H; subst n; lia|]. destruct (assert_ _); cbn [bind] in H; try discriminate H. apply Ok_inj in H; subst n; lia.
  - destruct (_ =? 1); [apply Ok_inj in H; subst n; lia|]. destruct (assert_ _); cbn [bind] in H; try discriminate H. apply Ok_inj in H; subst n; lia.
  - apply Ok_inj in H; subst n. pose proof (fld_nonneg b 4 4 _ _ R). lia.
  - apply Ok_inj in H; subst n. pose proof (fld_nonneg b 4 4 _ _ R). lia.
  - apply Ok_inj in H; subst n. pose proof (fld_nonneg b 8 4 _ _ R). destruct (_ =? 0); lia.
  - apply Ok_inj in H; subst n. pose proof (fld_nonneg b 4 4 _ _ R). lia.
  - apply Ok_inj in H; subst n. pose proof (fld_nonneg b 8 4 _ _ R). lia.
  - destruct (_ && _ && _); [|apply Ok_inj in H; subst n; lia]. destruct (rd file pos 60) as [b'| |]; cbn [bind] in H; try discriminate H.
    destruct (_ && _); apply Ok_inj in H; subst n; lia.
  - destruct (_ =? 0); [apply Ok_inj in H; subst n; lia|]. destruct (_ =? 2); [apply Ok_inj in H; subst n; lia|discriminate H].
  - destruct (end_offset h) as [e| |]; cbn [bind] in H; try discriminate H. destruct (Z.ltb_spec e pos); [discriminate H|]. apply Ok_inj in H; subst n. lia.
  - destruct (end_offset h) as [e| |]; cbn [bind] in H; try discriminate H. destruct (Z.ltb_spec e pos); [discriminate H|]. apply Ok_inj in H; subst n. lia.
Qed.

(** Enough for every loop that ends *)
Lemma hang fuel :
  (forall k h pos, 0 <= pos -> rank k * (len + 4) + 2 <= Z.of_nat fuel -> read_box cmt file fuel k h pos = None -> zero_box) /\
  (forall k e pos acc, 0 <= pos -> (rank k - 1) * (len + 4) + 2 + Z.max 0 (len + 1 - pos) + 1 <= Z.of_nat fuel -> read_kids cmt file fuel k e pos acc = None -> zero_box).
Proof.
  assert (len0 : 0 <= len) by (unfold len; lia).
  induction fuel as [|fuel [IHb IHk]]; (split; [intros k h pos Hp HF H|intros k e pos acc Hp HF H]).
  - pose proof (rank_1 k). nia.
  - pose proof (rank_1 k). nia.
  - rewrite read_box_S in H.
    destruct (field_len file k h pos) as [n| |] eqn:N; cbn [obind] in H; try discriminate H. apply field_len_nonneg in N.
    destruct (rd file pos n) as [f| |]; cbn [obind] in H; try discriminate H.
    destruct (field_check cmt k h pos f) as [[]| |]; cbn [obind] in H; try discriminate H.
    destruct (end_offset h) as [e| |]; cbn [obind] in H; try discriminate H.
    destruct (container k); [|discriminate H].
    destruct (read_kids cmt file fuel k e (pos + n) []) as [[kids| |]|] eqn:R; cbn [obind] in H; try discriminate H.
    + destruct (check _); discriminate H.
    + apply IHk in R; [exact R|lia|nia].
  - rewrite read_kids_S in H. destruct (pos <? e); [|discriminate H].
    destruct (header_parse file pos) as [[h p]| |] eqn:HP; cbn [obind] in H; try discriminate H.
    destruct (header_parse_inv _ _ _ _ bytes Hp HP) as (O & P & L & S0 & SZ). fold len in L.
    destruct (kid_kind k (h_typ h) (h_uuid h)) as [k'| |] eqn:K; [| |discriminate H].
    + destruct (assert_ _); cbn [obind] in H; try discriminate H. pose proof (rank_kid _ _ _ _ K) as RK. pose proof (rank_1 k').
      destruct (read_box cmt file fuel k' h p) as [[[nd p']| |]|] eqn:R; cbn [obind] in H; try discriminate H.
      * apply read_box_pos in R. rewrite O in R. destruct (is_file k && (p' =? pos)); [discriminate H|].
        destruct (Z.eq_dec (h_size h) 0) as [Z0|NZ]; [exists pos; split; [lia|now apply SZ]|].
        apply IHk in H; [exact H|lia|nia].
      * apply (IHb k' h p ltac:(lia)); [nia|exact R].
    + apply IHk in H; [exact H|lia|nia].
Qed.
End Hang.

Lemma parse_ends cmt file fuel : Forall (urange 8) file -> (11 * (length file + 4) <= fuel)%nat ->
  filebox_parse cmt file fuel = None -> exists p, 0 <= p < Z.of_nat (length file) /\ zero_size_at file p.
Proof.
  intros B F H. unfold filebox_parse in H.
  destruct (read_kids cmt file fuel KFile _ 0 []) as [[kids| |]|] eqn:R; cbn [obind] in H; try discriminate H.
  - destruct (check _); discriminate H.
  - apply (proj2 (hang cmt file B fuel) KFile _ 0 [] ltac:(lia)) in R; [exact R|]. cbn [rank]. lia.
Qed.

(** a vendor box of size 0 in moov *)
Definition endless : list Z := [0; 0; 0; 16; 0x6D; 0x6F; 0x6F; 0x76; 0; 0; 0; 0; 0x66; 0x72; 0x65; 0x65].
Lemma endless_kids cmt fuel : forall acc, read_kids cmt endless fuel KMoov 16 8 acc = None.
Proof.
  induction fuel as [|fuel IH]; intros acc; [reflexivity|]. rewrite read_kids_S. change (8 <? 16) with true. cbv iota.
  change (header_parse endless 8) with (@Ok (bhdr * Z) (mk_bhdr 0 0x66726565 None 8 8, 16)). cbn [obind].
  change (kid_kind KMoov _ _) with (Use KSkip). cbv iota. change (is_stsd KMoov) with false. cbn [andb negb assert_ obind].
  destruct fuel as [|fuel]; [reflexivity|]. rewrite read_box_S. cbn [field_len obind]. change (rd endless 16 0) with (@Ok (list Z) []). cbn [obind field_check].
  change (end_offset _) with (@Ok Z 8). cbn [obind container is_file andb]. apply IH.
Qed.
Lemma endless_parse cmt fuel : filebox_parse cmt endless fuel = None.
Proof.
  unfold filebox_parse. destruct fuel as [|fuel]; [reflexivity|]. rewrite read_kids_S. change (Z.of_nat (length endless)) with 16. change (0 <? 16) with true. cbv iota.
  change (header_parse endless 0) with (@Ok (bhdr * Z) (mk_bhdr 16 0x6D6F6F76 None 0 8, 8)). cbn [obind].
  change (kid_kind KFile _ _) with (Use KMoov). cbv iota. change (is_stsd KFile) with false. cbn [andb negb assert_ obind].
  destruct fuel as [|fuel]; [reflexivity|]. rewrite read_box_S. cbn [field_len obind]. change (rd endless 8 0) with (@Ok (list Z) []). cbn [obind field_check].
  change (end_offset _) with (@Ok Z 16). cbn [obind container]. rewrite Z.add_0_r. rewrite endless_kids. reflexivity.
Qed.
