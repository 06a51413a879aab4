(** Samples of a track and the data of the raw picture. *)
From Coq Require Import List ZArith Lia Bool.
From Verif Require Import Base Tiff TiffSpec TiffBytes RawSource CrxImage Bmff BmffSpec BmffProofs BmffRead.
Import ListNotations.
Open Scope Z_scope.

Lemma fld_nth (f a : list Z) n l k p : f = a ++ flat_map (be n) l -> Forall (fun v => 0 <= v < 2 ^ (8 * Z.of_nat n)) l -> (k < length l)%nat ->
  p = (length a + n * k)%nat -> fld f p n = nth k l 0.
Proof.
  intros -> HL Hk ->. revert a l HL Hk. induction k as [|k IH]; intros a [|v l] HL Hk; cbn [length] in Hk; try lia.
  - cbn [nth flat_map]. apply (fld_be _ a (flat_map (be n) l)); [reflexivity|lia|]. now apply Forall_inv in HL.
  - cbn [nth flat_map]. rewrite app_assoc. replace (length a + n * S k)%nat with (length (a ++ be n v) + n * k)%nat by (rewrite app_length, be_length; lia).
    apply IH; [now apply Forall_inv_tail in HL|lia].
Qed.

Lemma nth_repeat_lt {A} (x d : A) n k : (k < n)%nat -> nth k (repeat x n) d = x.
Proof. revert k. induction n as [|n IH]; intros [|k] H; try lia; [reflexivity|]. cbn. apply IH. lia. Qed.

Lemma sample_size_ok f sizes k : sizes_written f sizes -> Forall (urange 32) sizes -> Z.of_nat (length sizes) < 2 ^ 32 -> (k < length sizes)%nat ->
  sample_size f (Z.of_nat k + 1) = Ok (nth k sizes 0).
Proof.
  intros (v & Lv & [F | (same & S & R & F)]) HS HL Hk; unfold sample_size.
  - rewrite (fld_be f v (be 4 (Z.of_nat (length sizes)) ++ flat_map (be 4) sizes) 4 0 4 F Lv) by lia.
    change (0 <? 0) with false. cbv iota.
    replace (Z.of_nat k + 1 <? 1) with false by (symmetry; apply Z.ltb_ge; lia).
    rewrite (fld_be f (v ++ be 4 0) (flat_map (be 4) sizes) 4 (Z.of_nat (length sizes)) 8) by
      (try (rewrite F; unfold stsz_fields; now rewrite <- app_assoc); try (rewrite app_length, be_length; lia); change (2 ^ (8 * Z.of_nat 4)) with (2 ^ 32); lia).
    replace (Z.of_nat k + 1 <=? Z.of_nat (length sizes)) with true by (symmetry; apply Z.leb_le; lia). f_equal.
    apply (fld_nth f (v ++ be 4 0 ++ be 4 (Z.of_nat (length sizes))) 4 sizes k).
    + rewrite F. unfold stsz_fields. now rewrite <- !app_assoc.
    + exact HS.
    + exact Hk.
    + rewrite !app_length, !be_length. lia.
  - rewrite (fld_be f v (be 4 (Z.of_nat (length sizes)) ++ []) 4 same 4 F Lv) by (change (2 ^ (8 * Z.of_nat 4)) with (2 ^ 32); lia).
    replace (0 <? same) with true by (symmetry; apply Z.ltb_lt; lia). f_equal. rewrite R. symmetry. apply nth_repeat_lt. exact Hk.
Qed.
Lemma sizes_count f sizes : sizes_written f sizes -> Z.of_nat (length sizes) < 2 ^ 32 -> fld f 8 4 = Z.of_nat (length sizes).
Proof.
  intros (v & Lv & [F | (same & S & R & F)]) HL.
  - apply (fld_be f (v ++ be 4 0) (flat_map (be 4) sizes) 4); [rewrite F; unfold stsz_fields; now rewrite <- app_assoc|rewrite app_length, be_length; lia|change (2 ^ (8 * Z.of_nat 4)) with (2 ^ 32); lia].
  - apply (fld_be f (v ++ be 4 same) [] 4); [rewrite F; unfold stsz_fields; rewrite <- app_assoc; reflexivity|rewrite app_length, be_length; lia|change (2 ^ (8 * Z.of_nat 4)) with (2 ^ 32); lia].
Qed.

Lemma nth_skipn_hd (l : list Z) n : (n < length l)%nat -> exists r, skipn n l = nth n l 0 :: r /\ r = skipn (S n) l.
Proof. revert l. induction n as [|n IH]; intros [|x l] H; cbn in H; try lia; [now exists l|]. destruct (IH l ltac:(lia)) as (r & A & B). exists r. now split. Qed.
Lemma total_nonneg l : Forall (urange 32) l -> 0 <= total l.
Proof. induction 1 as [|x l Hx _ IH]; cbn; [lia|]. unfold urange in Hx. unfold total in IH. lia. Qed.
Lemma Forall_sub {P : Z -> Prop} a b l : Forall P l -> Forall P (firstn a (skipn b l)).
Proof.
  intros H. rewrite <- (firstn_skipn b l) in H. apply Forall_app in H. destruct H as [_ H].
  rewrite <- (firstn_skipn a (skipn b l)) in H. now apply Forall_app in H.
Qed.

Lemma sum_ok f sizes : sizes_written f sizes -> Forall (urange 32) sizes -> Z.of_nat (length sizes) < 2 ^ 32 ->
  forall m a base acc, (base + a + m <= length sizes)%nat -> 0 <= acc -> acc + total (firstn m (skipn (base + a) sizes)) < 2 ^ 32 ->
  for_each (map Z.of_nat (seq a m)) (fun j acc => do s <- sample_size f (Z.of_nat base + 1 + j); add32 acc s) acc =
    Ok (acc + total (firstn m (skipn (base + a) sizes))).
Proof.
  intros W HS HL. induction m as [|m IH]; intros a base acc Hm A0 HT.
  - cbn. f_equal. lia.
  - cbn [seq map for_each].
    replace (Z.of_nat base + 1 + Z.of_nat a) with (Z.of_nat (base + a) + 1) by lia.
    rewrite (sample_size_ok f sizes (base + a) W HS HL) by lia. cbn [bind].
    destruct (nth_skipn_hd sizes (base + a) ltac:(lia)) as (r & E & R). rewrite E in *. cbn [firstn total fold_right] in *. fold (total (firstn m r)) in *.
    assert (0 <= nth (base + a) sizes 0). { rewrite Forall_forall in HS. apply HS. apply nth_In. lia. }
    assert (0 <= total (firstn m r)). { apply total_nonneg. rewrite R. now apply Forall_sub. }
    unfold add32. replace (acc + nth (base + a) sizes 0 <? 2 ^ 32) with true by (symmetry; apply Z.ltb_lt; lia). cbn [bind].
    replace (S (base + a)) with (base + S a)%nat in R by lia. rewrite R in *. rewrite IH by lia. f_equal. lia.
Qed.

Lemma sum_repeat s n c : (c <= n)%nat -> fold_right Nat.add 0%nat (firstn c (repeat s n)) = (c * s)%nat.
Proof. revert c. induction n as [|n IH]; intros [|c] H; cbn; try lia. rewrite IH; lia. Qed.
Lemma sum_app a b : fold_right Nat.add 0%nat (a ++ b) = (fold_right Nat.add 0%nat a + fold_right Nat.add 0%nat b)%nat.
Proof. induction a; cbn; lia. Qed.

(** the table and the row of a sample *)
Lemma row_found rows per k c i : rows_describe rows per -> in_chunk per k c i -> Z.of_nat (length per) < 2 ^ 32 - 1 ->
  Z.of_nat (fold_right Nat.add 0%nat per) < 2 ^ 32 - 1 -> Forall row_ok rows ->
  stsc_rows_ok rows /\
  exists s base c' cb, entry_for_sample (filled rows) (Z.of_nat k + 1) = Ok (1 + Z.of_nat cb, Z.of_nat s, 1 + Z.of_nat base) /\
    (i < s)%nat /\ k = (base + c' * s + i)%nat /\ c = (cb + c')%nat.
Proof.
  intros D (I1 & I2 & I3) LP LS RO. destruct D as [(s & d & n & -> & ->)|(s & d & n & s' & d' & n' & -> & Hn & Hs & ->)].
  - split; [split; [exact RO|exact I]|]. rewrite repeat_length in *. rewrite nth_repeat_lt in I2 by exact I1. rewrite sum_repeat in I3 by lia.
    exists s, 0%nat, c, 0%nat. split; [|lia]. unfold entry_for_sample. cbn [filled].
    replace (0 <? Z.of_nat k + 1) with true by (symmetry; apply Z.ltb_lt; lia). cbn [assert_ bind get nth_error length search_base Nat.leb].
    change (1 =? 1) with true. cbn [assert_ bind]. replace (1 <=? Z.of_nat k + 1) with true by (symmetry; apply Z.leb_le; lia). reflexivity.
  - rewrite sum_app in LS. rewrite <- (firstn_all (repeat s n)), <- (firstn_all (repeat s' n')), !repeat_length, !sum_repeat in LS by lia.
    rewrite app_length, !repeat_length in *.
    split. { split; [exact RO|]. nia. }
    unfold entry_for_sample. cbn [filled].
    replace (0 <? Z.of_nat k + 1) with true by (symmetry; apply Z.ltb_lt; lia). cbn [assert_ bind get nth_error length search_base Nat.leb].
    change (1 =? 1) with true. cbn [assert_ bind]. change (2 / 2)%nat with 1%nat. change (0 + 1)%nat with 1%nat. change (2 - 1)%nat with 1%nat. cbn [nth Nat.leb].
    destruct (Nat.lt_ge_cases c n) as [L|G].
    + rewrite app_nth1, nth_repeat_lt in I2 by (rewrite ?repeat_length; lia).
      rewrite firstn_app, repeat_length in I3. replace (c - n)%nat with 0%nat in I3 by lia. cbn [firstn] in I3. rewrite app_nil_r, sum_repeat in I3 by lia.
      exists s, 0%nat, c, 0%nat. split; [|lia].
      replace (Z.of_nat k + 1 <? 1 + (1 + Z.of_nat n - 1) * Z.of_nat s) with true by (symmetry; apply Z.ltb_lt; nia).
      cbn [get nth_error bind]. replace (1 <=? Z.of_nat k + 1) with true by (symmetry; apply Z.leb_le; lia). reflexivity.
    + rewrite app_nth2, repeat_length, nth_repeat_lt in I2 by (rewrite ?repeat_length; lia).
      rewrite firstn_app, repeat_length, sum_app, firstn_all2, sum_repeat in I3 by (rewrite ?repeat_length; lia).
      rewrite <- (firstn_all (repeat s n)), repeat_length, sum_repeat in I3 by lia.
      exists s', (n * s)%nat, (c - n)%nat, n. split; [|nia].
      replace (Z.of_nat k + 1 <? 1 + (1 + Z.of_nat n - 1) * Z.of_nat s) with false by (symmetry; apply Z.ltb_ge; nia).
      cbn [get nth_error bind]. replace (1 + (1 + Z.of_nat n - 1) * Z.of_nat s <=? Z.of_nat k + 1) with true by (symmetry; apply Z.leb_le; nia).
      repeat f_equal. nia.
Qed.

Lemma sample_ok st nc nz no per sizes offs k c i :
  kid stsc (n_kids st) = Some nc -> kid stsz (n_kids st) = Some nz -> kid co64 (n_kids st) = Some no ->
  sample_tables (n_fields nc) (n_fields nz) (n_fields no) per sizes offs -> in_chunk per k c i -> sample_fits offs sizes k c i ->
  get_sample_offset st (Z.of_nat k + 1) = Ok (Some (sample_range offs sizes k c i)).
Proof.
  intros KC KZ KO ((vc & rows & Lc & RO & RD & FC) & W & (vo & Lo & FO) & LO & RO64 & RS & SP & LP & LS) IC (FT & FE).
  destruct (row_found rows per k c i RD IC LP ltac:(rewrite SP; exact LS) RO) as (RK & s & base & c' & cb & EN & Is & Ek & Ec).
  unfold get_sample_offset. rewrite KO. replace (0 <? Z.of_nat k + 1) with true by (symmetry; apply Z.ltb_lt; lia). cbn [assert_ bind].
  unfold the. rewrite KC, KZ. cbn [bind]. rewrite FC, (stsc_entries_ok vc rows Lc RK). cbn [bind]. rewrite EN. cbn [bind].
  assert (kL : (k < length sizes)%nat).
  { destruct IC as (I1 & I2 & I3). rewrite <- SP, <- (firstn_skipn c per), sum_app. 
    assert (exists r, skipn c per = nth c per 0%nat :: r) as [r ->].
    { clear -I1. revert per I1. induction c as [|c IH]; intros [|x per] H; cbn in H; try lia; [now exists per|]. apply IH. lia. }
    cbn. lia. }
  destruct IC as (I1 & I2 & I3).
  unfold sub32, add32, add_u64.
  replace (1 <=? 1 + Z.of_nat base) with true by (symmetry; apply Z.leb_le; lia). cbn [bind].
  replace (1 + Z.of_nat base - 1 <=? Z.of_nat k + 1 - 1) with true by (symmetry; apply Z.leb_le; nia). cbn [bind].
  replace (Z.of_nat s =? 0) with false by (symmetry; apply Z.eqb_neq; lia). cbn [negb assert_ bind].
  assert (EQ : Z.of_nat k - Z.of_nat base = Z.of_nat i + Z.of_nat c' * Z.of_nat s) by nia.
  replace (Z.of_nat k + 1 - 1 - (1 + Z.of_nat base - 1)) with (Z.of_nat i + Z.of_nat c' * Z.of_nat s) by lia.
  rewrite Z.div_add, (Z.div_small (Z.of_nat i)) by lia.
  replace (1 + Z.of_nat cb + (0 + Z.of_nat c') <? 2 ^ 32) with true by (symmetry; apply Z.ltb_lt; lia). cbn [bind].
  replace (1 + Z.of_nat base <=? Z.of_nat k + 1) with true by (symmetry; apply Z.leb_le; nia). cbn [bind].
  replace (Z.of_nat k + 1 - (1 + Z.of_nat base)) with (Z.of_nat i + Z.of_nat c' * Z.of_nat s) by lia.
  rewrite Z.mod_add, (Z.mod_small (Z.of_nat i)) by lia.
  replace (1 <=? 1 + Z.of_nat cb + (0 + Z.of_nat c')) with true by (symmetry; apply Z.leb_le; lia). cbn [bind].
  replace (1 + Z.of_nat cb + (0 + Z.of_nat c') - 1) with (Z.of_nat c) by lia.
  rewrite (fld_be (n_fields no) vo (flat_map (be 8) offs) 4 (Z.of_nat (length offs)) 4 FO Lo) by (change (2 ^ (8 * Z.of_nat 4)) with (2 ^ 32); lia).
  replace (Z.of_nat c <? Z.of_nat (length offs)) with true by (symmetry; apply Z.ltb_lt; lia). cbn [assert_ bind].
  rewrite Nat2Z.id.
  rewrite (fld_nth (n_fields no) (vo ++ be 4 (Z.of_nat (length offs))) 8 offs c) by
    (try exact RO64; try lia; try (rewrite FO; unfold co64_fields; now rewrite <- app_assoc); rewrite app_length, be_length; lia).
  replace (Z.of_nat k + 1 - Z.of_nat i) with (Z.of_nat (k - i) + 1) by lia.
  pose proof (sum_ok (n_fields nz) sizes W RS ltac:(lia) i 0%nat (k - i)%nat 0) as Q. unfold add32 in Q.
  rewrite Q by (rewrite ?Nat.add_0_r; lia). clear Q.
  rewrite Nat.add_0_r, Z.add_0_l. cbn [bind]. rewrite (sample_size_ok _ sizes k W RS) by lia. cbn [bind].
  assert (0 <= nth k sizes 0). { rewrite Forall_forall in RS. apply RS. apply nth_In. lia. }
  unfold sample_range in *. cbn [fst] in FE.
  replace (nth c offs 0 + total (firstn i (skipn (k - i) sizes)) <? 2 ^ 64) with true by (symmetry; apply Z.ltb_lt; lia). reflexivity.
Qed.

(** ** From the tree to the data *)
Lemma seen_all_app a : forall off b, exists off', seen_all off (a ++ b) = seen_all off a ++ seen_all off' b.
Proof.
  induction a as [|x a IH]; intros off b; [now exists off|]. destruct (IH (off + ssize x) b) as (o & E). exists o. cbn [app seen_all]. now rewrite E.
Qed.
Lemma find_rev_none t l : Forall (fun n => n_typ n <> t) l -> find (fun n => n_typ n =? t) (rev l) = None.
Proof.
  intros H. destruct (find _ _) as [n|] eqn:F; [|reflexivity]. apply find_some in F. destruct F as [F1 F2]. apply in_rev in F1.
  rewrite Forall_forall in H. apply Z.eqb_eq in F2. now apply H in F1.
Qed.
Lemma seen_all_Forall t l : forall off, Forall (fun x => s_typ x <> t) l -> Forall (fun n => n_typ n <> t) (seen_all off l).
Proof. induction l as [|x l IH]; intros off H; [constructor|]. cbn [seen_all]. constructor; [rewrite seen_typ; now apply Forall_inv in H|apply IH; now apply Forall_inv_tail in H]. Qed.
Lemma find_app {A} (P : A -> bool) a b : find P a = None -> find P (a ++ b) = find P b.
Proof. induction a as [|x a IH]; [reflexivity|]. cbn. destruct (P x); [discriminate|]. exact IH. Qed.
Lemma kid_seen t kids c off : child t kids c -> exists o, kid t (seen_all off kids) = Some (seen o c).
Proof.
  intros (l & r & -> & T & N). apply Forall_app in N. destruct N as [_ N2].
  destruct (seen_all_app l off (c :: r)) as (o & E). exists o. rewrite E. cbn [seen_all]. unfold kid. rewrite rev_app_distr. cbn [rev]. rewrite <- app_assoc.
  rewrite find_app by (apply find_rev_none; now apply seen_all_Forall). cbn [app find]. rewrite seen_typ, T, Z.eqb_refl. reflexivity.
Qed.
Lemma seen_kids o b : exists o', n_kids (seen o b) = seen_all o' (s_kids b).
Proof. rewrite seen_eq. eexists. reflexivity. Qed.
Lemma seen_fields o b : n_fields (seen o b) = s_fields b.
Proof. now rewrite seen_eq. Qed.
Lemma the_seen t b c o : child t (s_kids b) c -> exists o', the t (seen o b) = Ok (seen o' c).
Proof. intros H. destruct (seen_kids o b) as (o1 & E). destruct (kid_seen t _ c o1 H) as (o' & K). exists o'. unfold the. now rewrite E, K. Qed.
Lemma filter_seen t l : forall off n b, nth_error (filter (fun b => s_typ b =? t) l) n = Some b ->
  exists o, nth_error (filter (fun m => n_typ m =? t) (seen_all off l)) n = Some (seen o b).
Proof.
  induction l as [|x l IH]; intros off n b H; [destruct n; discriminate H|]. cbn [filter seen_all] in *. rewrite seen_typ.
  destruct (s_typ x =? t); [|now apply IH]. destruct n as [|n]; [injection H as ->; now exists off|]. cbn [nth_error] in *. now apply IH.
Qed.
Lemma find_ccdt l r rest : forall off, Forall (fun b => exists ty tn, ccdt_written b ty tn /\ ty <> 0) l -> (exists tn, ccdt_written r 0 tn) ->
  exists o, find (fun m => fld (n_fields m) 0 8 =? 0) (seen_all off (l ++ r :: rest)) = Some (seen o r).
Proof.
  induction l as [|x l IH]; intros off HL HR; cbn [app seen_all find]; rewrite seen_fields.
  - destruct HR as (tn & d & F & _). exists off. rewrite (fld_be _ [] (be 4 d ++ be 4 tn) 8 0 0 F eq_refl) by lia. reflexivity.
  - apply Forall_inv in HL as HX. destruct HX as (ty & tn & (d & F & T & _) & NZ).
    rewrite (fld_be _ [] (be 4 d ++ be 4 tn) 8 ty 0 F eq_refl) by exact T.
    replace (ty =? 0) with false by (symmetry; now apply Z.eqb_neq). apply IH; [now apply Forall_inv_tail in HL|exact HR].
Qed.

Lemma cmp1_of_ok f c : cmp1_written f c -> cmp1_of f = c.
Proof.
  intros (u1 & hs & sub & cfa & t & ext & tail & F & HC & R1 & R2 & R3 & R4 & R5 & R6 & R7 & R8 & R9 & R10 & M). unfold urange in *.
  destruct c as [ver fw fh tw th bits planes en lev hdr med]. cbn [c_version c_fw c_fh c_tw c_th c_bits c_planes c_enc c_levels c_hdr c_median] in *.
  unfold cmp1_of.
  assert (LF : length f = (36 + length tail)%nat) by (rewrite F, !app_length, !be_length; lia).
  rewrite (fld_be f (be 2 u1 ++ be 2 hs) (be 2 sub ++ be 4 fw ++ be 4 fh ++ be 4 tw ++ be 4 th ++ be 1 bits ++ be 1 (16 * planes + cfa) ++ be 1 (16 * en + lev) ++ be 1 t ++ be 4 hdr ++ be 4 ext ++ tail) 2 ver 4)
    by (try exact R1; try (rewrite !app_length, !be_length; reflexivity); rewrite F, <- ?app_assoc; reflexivity).
  rewrite (fld_be f (be 2 u1 ++ be 2 hs ++ be 2 ver ++ be 2 sub) (be 4 fh ++ be 4 tw ++ be 4 th ++ be 1 bits ++ be 1 (16 * planes + cfa) ++ be 1 (16 * en + lev) ++ be 1 t ++ be 4 hdr ++ be 4 ext ++ tail) 4 fw 8)
    by (try exact R2; try (rewrite !app_length, !be_length; reflexivity); rewrite F, <- ?app_assoc; reflexivity).
  rewrite (fld_be f (be 2 u1 ++ be 2 hs ++ be 2 ver ++ be 2 sub ++ be 4 fw) (be 4 tw ++ be 4 th ++ be 1 bits ++ be 1 (16 * planes + cfa) ++ be 1 (16 * en + lev) ++ be 1 t ++ be 4 hdr ++ be 4 ext ++ tail) 4 fh 12)
    by (try exact R3; try (rewrite !app_length, !be_length; reflexivity); rewrite F, <- ?app_assoc; reflexivity).
  rewrite (fld_be f (be 2 u1 ++ be 2 hs ++ be 2 ver ++ be 2 sub ++ be 4 fw ++ be 4 fh) (be 4 th ++ be 1 bits ++ be 1 (16 * planes + cfa) ++ be 1 (16 * en + lev) ++ be 1 t ++ be 4 hdr ++ be 4 ext ++ tail) 4 tw 16)
    by (try exact R4; try (rewrite !app_length, !be_length; reflexivity); rewrite F, <- ?app_assoc; reflexivity).
  rewrite (fld_be f (be 2 u1 ++ be 2 hs ++ be 2 ver ++ be 2 sub ++ be 4 fw ++ be 4 fh ++ be 4 tw) (be 1 bits ++ be 1 (16 * planes + cfa) ++ be 1 (16 * en + lev) ++ be 1 t ++ be 4 hdr ++ be 4 ext ++ tail) 4 th 20)
    by (try exact R5; try (rewrite !app_length, !be_length; reflexivity); rewrite F, <- ?app_assoc; reflexivity).
  rewrite (fld_be f (be 2 u1 ++ be 2 hs ++ be 2 ver ++ be 2 sub ++ be 4 fw ++ be 4 fh ++ be 4 tw ++ be 4 th) (be 1 (16 * planes + cfa) ++ be 1 (16 * en + lev) ++ be 1 t ++ be 4 hdr ++ be 4 ext ++ tail) 1 bits 24)
    by (try exact R6; try (rewrite !app_length, !be_length; reflexivity); rewrite F, <- ?app_assoc; reflexivity).
  rewrite (fld_be f (be 2 u1 ++ be 2 hs ++ be 2 ver ++ be 2 sub ++ be 4 fw ++ be 4 fh ++ be 4 tw ++ be 4 th ++ be 1 bits) (be 1 (16 * en + lev) ++ be 1 t ++ be 4 hdr ++ be 4 ext ++ tail) 1 (16 * planes + cfa) 25)
    by (try (change (2 ^ (8 * Z.of_nat 1)) with 256; lia); try (rewrite !app_length, !be_length; reflexivity); rewrite F, <- ?app_assoc; reflexivity).
  rewrite (fld_be f (be 2 u1 ++ be 2 hs ++ be 2 ver ++ be 2 sub ++ be 4 fw ++ be 4 fh ++ be 4 tw ++ be 4 th ++ be 1 bits ++ be 1 (16 * planes + cfa)) (be 1 t ++ be 4 hdr ++ be 4 ext ++ tail) 1 (16 * en + lev) 26)
    by (try (change (2 ^ (8 * Z.of_nat 1)) with 256; lia); try (rewrite !app_length, !be_length; reflexivity); rewrite F, <- ?app_assoc; reflexivity).
  rewrite (fld_be f (be 2 u1 ++ be 2 hs ++ be 2 ver ++ be 2 sub ++ be 4 fw ++ be 4 fh ++ be 4 tw ++ be 4 th ++ be 1 bits ++ be 1 (16 * planes + cfa) ++ be 1 (16 * en + lev) ++ be 1 t) (be 4 ext ++ tail) 4 hdr 28)
    by (try exact R10; try (rewrite !app_length, !be_length; reflexivity); rewrite F, <- ?app_assoc; reflexivity).
  replace ((16 * planes + cfa) / 16) with planes by (Z.div_mod_to_equations; lia).
  replace ((16 * en + lev) / 16) with en by (Z.div_mod_to_equations; lia).
  replace ((16 * en + lev) mod 16) with lev by (Z.div_mod_to_equations; lia).
  f_equal. destruct M as [[L ->]|(x & Lx & -> & M)].
  - replace (84 <? length f)%nat with false by (symmetry; apply Nat.ltb_ge; lia). reflexivity.
  - rewrite app_length, be_length in LF. replace (84 <? length f)%nat with true by (symmetry; apply Nat.ltb_lt; lia).
    apply (fld_be f (be 2 u1 ++ be 2 hs ++ be 2 ver ++ be 2 sub ++ be 4 fw ++ be 4 fh ++ be 4 tw ++ be 4 th ++ be 1 bits ++ be 1 (16 * planes + cfa) ++ be 1 (16 * en + lev) ++ be 1 t ++ be 4 hdr ++ be 4 ext ++ x) [] 1 med 84);
      [rewrite F, app_nil_r, <- ?app_assoc; reflexivity|rewrite !app_length, !be_length; lia|exact M].
Qed.

Lemma raw_sample_ok file boxes off st cm nc nz no per sizes offs c k ch i data :
  raw_track boxes st cm -> child 0x73747363 (s_kids st) nc -> child 0x7374737A (s_kids st) nz -> child 0x636F3634 (s_kids st) no ->
  sample_tables (s_fields nc) (s_fields nz) (s_fields no) per sizes offs -> cmp1_written (s_fields cm) c ->
  in_chunk per k ch i -> sample_fits offs sizes k ch i ->
  at_ file (fst (sample_range offs sizes k ch i)) data -> Z.of_nat (length data) = nth k sizes 0 ->
  raw_sample file (seen_all off boxes) (Z.of_nat k) = Ok (data, c).
Proof.
  intros (mv & cr & ct & l & r & rest & n & tr & md & mi & sd & cw & C1 & C2 & C3 & C4 & C5 & C6 & C7 & C8 & C9 & C10 & C11 & C12 & C13) KC KZ KO ST CW IC SF AT LD.
  unfold raw_sample. destruct (kid_seen _ _ _ off C1) as (o1 & K1). change 0x6D6F6F76 with moov in K1. rewrite K1.
  destruct (seen_kids o1 mv) as (o2 & E2). unfold get_trak_index. rewrite E2.
  destruct (kid_seen _ _ _ o2 C2) as (o3 & K3). change 0x75756964 with uuid_ in K3. rewrite K3.
  destruct (the_seen _ cr ct o3 C3) as (o4 & K4). change 0x43435450 with cctp in K4. rewrite K4. cbn [bind].
  destruct (seen_kids o4 ct) as (o5 & E5). rewrite E5, C4.
  destruct (find_ccdt l r rest o5 C5 (ex_intro _ _ C6)) as (o6 & E6). rewrite E6, seen_fields.
  destruct C6 as (d & F6 & _ & T6).
  rewrite (fld_be (s_fields r) (be 8 0 ++ be 4 d) [] 4 (Z.of_nat n + 1) 12) by (try exact T6; try (rewrite app_length, !be_length; reflexivity); rewrite F6, app_nil_r, <- app_assoc; reflexivity).
  unfold sub32. replace (1 <=? Z.of_nat n + 1) with true by (symmetry; apply Z.leb_le; lia). cbn [bind].
  replace (Z.to_nat (Z.of_nat n + 1 - 1)) with n by lia.
  destruct (filter_seen _ _ o2 _ _ C7) as (o7 & E7). change 0x7472616B with trak in E7. rewrite E7.
  destruct (the_seen _ tr md o7 C8) as (o8 & K8). destruct (the_seen _ md mi o8 C9) as (o9 & K9). destruct (the_seen _ mi st o9 C10) as (o10 & K10).
  change 0x6D646961 with mdia in K8. change 0x6D696E66 with minf in K9. change 0x7374626C with stbl in K10.
  unfold trak_stbl. rewrite K8. cbn [bind]. rewrite K9. cbn [bind]. rewrite K10. cbn [bind].
  destruct (seen_kids o10 st) as (o11 & E11).
  destruct (kid_seen _ _ _ o11 KC) as (oc & EC). destruct (kid_seen _ _ _ o11 KZ) as (oz & EZ). destruct (kid_seen _ _ _ o11 KO) as (oo & EO).
  change 0x73747363 with stsc in EC. change 0x7374737A with stsz in EZ. change 0x636F3634 with co64 in EO. rewrite <- E11 in EC, EZ, EO.
  unfold the at 1. rewrite EZ. cbn [bind]. rewrite seen_fields.
  pose proof ST as (_ & W & _ & LO & RO64 & RS & SP & _ & LS).
  rewrite (sizes_count _ sizes W ltac:(lia)).
  assert (kL : (k < length sizes)%nat).
  { destruct IC as (I1 & I2 & I3). rewrite <- SP, <- (firstn_skipn ch per), sum_app.
    assert (exists r, skipn ch per = nth ch per 0%nat :: r) as [r' ->].
    { clear -I1. revert per I1. induction ch as [|c IH]; intros [|x per] H; cbn in H; try lia; [now exists per|]. apply IH. lia. }
    cbn. lia. }
  replace (Z.of_nat (length sizes) <=? Z.of_nat k) with false by (symmetry; apply Z.leb_gt; lia).
  rewrite (sample_ok (seen o10 st) _ _ _ per sizes offs k ch i EC EZ EO) by (rewrite ?seen_fields; assumption). cbn [bind].
  destruct (sample_range offs sizes k ch i) as [po sz] eqn:SR. cbn [fst] in AT.
  assert (sz = nth k sizes 0) as -> by (unfold sample_range in SR; congruence).
  destruct SF as (_ & SF). rewrite SR in SF. cbn [fst] in SF. pose proof (at_len _ _ _ AT) as [A0 A1].
  unfold subview, add_u64, get_range. replace (po + nth k sizes 0 <? 2 ^ 64) with true by (symmetry; apply Z.ltb_lt; lia). cbn [bind].
  replace (po <=? po + nth k sizes 0) with true by (symmetry; apply Z.leb_le; lia).
  replace (po + nth k sizes 0 <=? Z.of_nat (length file)) with true by (symmetry; apply Z.leb_le; lia). cbn [andb].
  pose proof (rd_at _ _ _ AT) as R. unfold rd in R. replace (po + Z.of_nat (length data) <=? Z.of_nat (length file)) with true in R by (symmetry; apply Z.leb_le; lia).
  replace (po + nth k sizes 0 - po) with (Z.of_nat (length data)) by lia. rewrite R. cbn [bind].
  destruct (the_seen _ st sd o10 C11) as (o12 & K12). change 0x73747364 with stsd in K12. rewrite K12. cbn [bind].
  destruct (seen_kids o12 sd) as (o13 & E13). rewrite E13. destruct (kid_seen _ _ _ o13 C12) as (o14 & K14). change 0x43524157 with craw in K14. rewrite K14.
  destruct (seen_kids o14 cw) as (o15 & E15). rewrite E15. destruct (kid_seen _ _ _ o15 C13) as (o16 & K16). change 0x434D5031 with cmp1_ in K16. rewrite K16.
  rewrite seen_fields, (cmp1_of_ok _ _ CW). reflexivity.
Qed.

Lemma zero_first cmt file typ fuel : at_ file 0 (be 4 0 ++ be 4 typ) -> urange 32 typ ->
  typ <> 0x66747970 -> typ <> 0x6D6F6F76 -> typ <> 0x75756964 -> (2 <= fuel)%nat -> filebox_parse cmt file fuel = Some Err.
Proof.
  intros H Ht N1 N2 N3 Hf. pose proof (at_len _ _ _ H) as L. rewrite app_length in L. unfold be in L. rewrite !enc_length in L.
  apply at_app in H. destruct H as [H1 H2]. unfold be in H2 at 1. rewrite enc_length in H2.
  destruct fuel as [|[|fuel]]; [lia|lia|]. unfold filebox_parse. rewrite read_kids_S.
  destruct (Z.ltb_spec 0 (Z.of_nat (length file))) as [_|C]; [|lia].
  unfold header_parse. rewrite (rd_be4 file 0 0) by (exact H1 || unfold urange; lia). cbn [bind]. rewrite (rd_be4 file (0 + 4) typ Ht) by exact H2. cbn [bind].
  change (0 =? 1) with false. cbn iota. cbn [bind]. change uuid_ with 0x75756964. destruct (Z.eqb_spec typ 0x75756964); [contradiction|]. cbn [bind obind h_typ h_uuid].
  unfold kid_kind. change ftyp with 0x66747970. change moov with 0x6D6F6F76. destruct (Z.eqb_spec typ 0x66747970); [contradiction|]. destruct (Z.eqb_spec typ 0x6D6F6F76); [contradiction|].
  cbn [is_stsd andb negb assert_ obind]. rewrite read_box_S. cbn [field_len obind].
  assert (R : rd file (0 + 8) 0 = Ok []). { unfold rd. destruct (Z.leb_spec (0 + 8 + 0) (Z.of_nat (length file))); [reflexivity|lia]. }
  rewrite R. cbn [obind field_check]. unfold end_offset, add_u64. cbn [h_off h_size]. change (0 + 0 <? 2 ^ 64) with true. cbn iota. cbn [obind container is_file andb].
  reflexivity.
Qed.
