(** Reading JPEG segments. *)
From Coq Require Import List ZArith Lia Bool.
From Verif Require Import Base Tiff TiffSpec TiffBytes Bmff BmffProofs Jfif JfifSpec.
Import ListNotations.
Open Scope Z_scope.

Lemma rd_at_n file p b n : at_ file p b -> n = Z.of_nat (length b) -> rd file p n = Ok b.
Proof. intros H ->. now apply rd_at. Qed.
Lemma u16_at file p v : urange 16 v -> at_ file p (enc BE 2 v) -> rd_u16 BE file p = Ok v.
Proof. intros Hv H. unfold rd_u16. rewrite (rd_at_n _ _ _ _ H) by reflexivity. cbn [bind]. f_equal. now apply dec_enc. Qed.
Lemma rd_fail file p n : Z.of_nat (length file) < p + n -> rd file p n = Err.
Proof. intros H. unfold rd. destruct (Z.leb_spec (p + n) (Z.of_nat (length file))); [lia|reflexivity]. Qed.
Lemma dec16 v : 0 <= v < 2 ^ 16 -> dec BE (enc BE 2 v) = v.
Proof. exact (dec_enc BE 2 v). Qed.
Lemma quad_eq {A B} a a' (b : A) (c : B) (d d' : Z) : (a : Z) = a' -> d = d' -> Ok (a, b, c, d) = Ok (a', b, c, d').
Proof. now intros -> ->. Qed.
Lemma marker_enc m : 0 <= m < 256 -> enc BE 2 (0xFF00 + m) = [0xFF; m].
Proof.
  intros H. unfold enc. rewrite !le_bytes_S.
  assert (E1 : (0xFF00 + m) mod 256 = m) by (change 0xFF00 with (0xFF * 256); rewrite Z.add_comm, Z.mod_add by lia; now apply Z.mod_small).
  assert (E2 : (0xFF00 + m) / 256 = 0xFF) by (change 0xFF00 with (0xFF * 256); rewrite Z.add_comm, Z.div_add by lia; rewrite Z.div_small by lia; reflexivity).
  rewrite E1, E2. reflexivity.
Qed.

Lemma scan_coded d m tail : Forall coded_ok d -> 0xC0 <= m < 0xFF -> ~ (0xD0 <= m < 0xD8) -> forall n prev, 0 <= prev < 255 ->
  sos_scan (flat_map coded_bytes d ++ 0xFF :: m :: tail) prev n = Ok (n + Z.of_nat (length (flat_map coded_bytes d))).
Proof.
  intros Hd Hm Hr. induction Hd as [|c d Hc _ IH]; intros n prev Hp; cbn [flat_map app length].
  - cbn [sos_scan]. replace (prev =? 255) with false by lia. cbn [andb]. cbn [sos_scan].
    replace (255 =? 255) with true by reflexivity. cbn [andb].
    replace (m =? 255) with false by lia. replace (m =? 0) with false by lia.
    replace (m - m mod 8 =? 208) with false by (assert (0 <= m mod 8 < 8) by (apply Z.mod_pos_bound; lia); assert (m = 8 * (m / 8) + m mod 8) by (apply Z.div_mod; lia); lia).
    cbn [orb]. f_equal. lia.
  - rewrite app_length. destruct c as [b| |k]; cbn [coded_bytes coded_ok app length sos_scan] in *.
    + replace (prev =? 255) with false by lia. cbn [andb]. rewrite IH by lia. f_equal. lia.
    + replace (prev =? 255) with false by lia. cbn [andb]. replace (255 =? 255) with true by reflexivity. replace (0 =? 0) with true by reflexivity. rewrite !orb_true_r. cbn [andb].
      rewrite IH by lia. f_equal. lia.
    + replace (prev =? 255) with false by lia. cbn [andb]. replace (255 =? 255) with true by reflexivity.
      replace (208 + k - (208 + k) mod 8 =? 208) with true by (replace ((208 + k) mod 8) with k; [lia|]; change 208 with (26 * 8); rewrite Z.add_comm, Z.mod_add, Z.mod_small by lia; reflexivity).
      rewrite orb_true_r. cbn [orb andb]. rewrite IH by lia. f_equal. lia.
Qed.

Section Loop.
Variable exif : list Z -> Z -> option (res ifd).
Variable file : list Z.
Hypothesis Hfile : Z.of_nat (length file) < 2 ^ 32.
Notation tiff_at := (fun p => exif file p).

Lemma loop_S fuel pos sym q segs : jfif_loop exif file (S fuel) pos sym q segs =
  (let next s q :=
        if (match segs with [] => true | _ => false end) && negb (sym =? 0xFFD8) then Some Err else
        let segs := segs ++ [s] in
        if sym =? 0xFFD9 then Some (Ok segs) else
        match rd_u16 BE file q with
        | Ok sym => jfif_loop exif file fuel q sym (q + 2) segs
        | _ => Some (Ok segs)
        end in
      if sym =? 0xFFD8 then next (SSoi pos) q else
      if sym =? 0xFFD9 then next SEoi q else
      if sym =? 0xFFE0 then run (l, f, t, q) <- Some (app0_read file q); next (SApp0 pos l f t) q else
      if sym =? 0xFFE1 then
        match app1_read exif file q with
        | A1Ok l p q => next (SApp1 pos l p) q
        | A1Err q => jfif_loop exif file fuel pos sym q segs
        | A1Panic => Some Panic
        | A1Loop => None
        end else
      if sym =? 0xFFDA then run n <- Some (sos_scan (skipn (Z.to_nat q) file) 0 0); next (SSos pos n) (q + n) else
      run l <- Some (rd_u16 BE file q); next (SUnknown pos sym) (q + l)).
Proof. reflexivity. Qed.

(** the bytes at a place and what is after them *)
Lemma at_skipn p b : at_ file p b -> exists tail, skipn (Z.to_nat p) file = b ++ tail.
Proof. intros (pre & suf & E & L). exists suf. rewrite E, <- L, Nat2Z.id, skipn_app, skipn_all, Nat.sub_diag. reflexivity. Qed.

Lemma seg_len m c : Z.of_nat (length (seg m c)) = 4 + Z.of_nat (length c).
Proof. unfold seg. rewrite !app_length, enc_length. cbn [length]. lia. Qed.
Lemma seg_at p m c : at_ file p (seg m c) -> at_ file p [0xFF; m] /\ at_ file (p + 2) (enc BE 2 (2 + Z.of_nat (length c))) /\ at_ file (p + 4) c.
Proof.
  unfold seg. intros H. apply at_app in H. destruct H as [A H]. apply at_app in H. destruct H as [B C]. rewrite enc_length in C. cbn [length] in *.
  split; [exact A|]. split; [exact B|]. now replace (p + 4) with (p + Z.of_nat 2 + Z.of_nat 2) by lia.
Qed.

Lemma app0_ok q f t : jseg_ok (JJfif f t) -> at_ file q (enc BE 2 (2 + Z.of_nat (length (JFIF_MARKER ++ f ++ t)))) -> at_ file (q + 2) (JFIF_MARKER ++ f ++ t) ->
  app0_read file q = Ok (16 + Z.of_nat (length t), f, match t with [] => None | _ => Some t end, q + 16 + Z.of_nat (length t)).
Proof.
  intros (Lf & Bf & Lt & T) H1 H2. rewrite !app_length in H1. rewrite Lf in H1. change (length JFIF_MARKER) with 5%nat in H1.
  apply at_app in H2. destruct H2 as [H2 H3]. apply at_app in H3. destruct H3 as [H3 H4]. rewrite Lf in H4. change (Z.of_nat (length JFIF_MARKER)) with 5 in *.
  unfold app0_read. rewrite (u16_at _ _ (2 + Z.of_nat (5 + (9 + length t)))) by (exact H1 || unfold urange; lia). cbn [bind].
  destruct (Z.ltb_spec (2 + Z.of_nat (5 + (9 + length t))) 5) as [C|_]; [lia|].
  rewrite (rd_at_n _ _ _ _ H2) by reflexivity. cbn [bind]. rewrite (proj2 (bytes_eqb_spec _ _) eq_refl). cbn [negb].
  replace (q + 7) with (q + 2 + 5) by lia. rewrite (rd_at_n _ _ _ _ H3) by (rewrite Lf; reflexivity). cbn [bind].
  assert (X : 0 <= nth 7 f 0 < 256). { rewrite Forall_forall in Bf. apply Bf. apply nth_In. lia. }
  assert (Y : 0 <= nth 8 f 0 < 256). { rewrite Forall_forall in Bf. apply Bf. apply nth_In. lia. }
  set (x := nth 7 f 0) in *. set (y := nth 8 f 0) in *.
  destruct (Z.leb_spec 256 (x * y)) as [C|_]; [nia|].
  destruct (Z.ltb_spec 0 (x * y)) as [P|P].
  - destruct (Z.leb_spec 256 (3 * x)) as [C|_]; [nia|]. destruct (Z.leb_spec 256 (3 * x * y)) as [C|_]; [nia|]. cbn [orb].
    replace (q + 16) with (q + 2 + 5 + Z.of_nat 9) by lia. rewrite (rd_at_n _ _ _ _ H4) by lia. cbn [bind].
    destruct t as [|t0 t]; [cbn [length] in Lt; nia|]. rewrite <- Lt. apply quad_eq; lia.
  - assert (t = []) as -> by (destruct t; [reflexivity|cbn [length] in Lt; nia]). cbn [length]. apply quad_eq; lia.
Qed.

Lemma app1_exif q t i : fits (EXIF_MARKER ++ t) -> at_ file q (enc BE 2 (2 + Z.of_nat (length (EXIF_MARKER ++ t)))) -> at_ file (q + 2) (EXIF_MARKER ++ t) ->
  exif file (q + 8) = Some (Ok i) -> app1_read exif file q = A1Ok (8 + Z.of_nat (length t)) (PExif i) (q + 8 + Z.of_nat (length t)).
Proof.
  unfold fits. intros F H1 H2 E. rewrite app_length in *. change (length EXIF_MARKER) with 6%nat in *. apply at_app in H2. destruct H2 as [H2 _].
  assert (Q := at_len _ _ _ H1). unfold app1_read, app1_need. rewrite (rd_at_n _ _ _ _ H1) by reflexivity. cbn zeta. rewrite dec16 by lia.
  destruct (Z.leb_spec 6 (2 + Z.of_nat (6 + length t))) as [_|C]; [|lia].
  rewrite (rd_at_n _ _ _ _ H2) by reflexivity. rewrite (proj2 (bytes_eqb_spec _ _) eq_refl).
  unfold wrap_u32. rewrite Z.mod_small by lia. rewrite E. f_equal; lia.
Qed.

Lemma not_marker mk c tail b : at_ file b (c ++ tail) -> (length c < length mk)%nat -> ~ In 255 mk -> (exists tl, tail = 255 :: tl) -> forall m, rd file b (Z.of_nat (length mk)) = Ok m -> bytes_eqb m mk = false.
Proof.
  intros H L N (tl & ->) m R. destruct (bytes_eqb m mk) eqn:E; [|reflexivity]. apply bytes_eqb_spec in E. subst m. exfalso. apply N.
  destruct H as (pre & suf & F & Lp). subst b. unfold rd in R. destruct (_ <=? _); [|discriminate]. injection R as R. rewrite <- R.
  rewrite F, !Nat2Z.id, skipn_app, skipn_all, Nat.sub_diag. cbn [app skipn]. rewrite <- app_assoc, firstn_app.
  apply in_or_app. right. destruct (length mk - length c)%nat eqn:D; [lia|]. now left.
Qed.
Lemma not_marker2 mk c b : at_ file b c -> (length mk <= length c)%nat -> ~ starts mk c -> forall m, rd file b (Z.of_nat (length mk)) = Ok m -> bytes_eqb m mk = false.
Proof.
  intros H L N m R. destruct (bytes_eqb m mk) eqn:E; [|reflexivity]. apply bytes_eqb_spec in E. subst m. exfalso. apply N. exists (skipn (length mk) c).
  destruct H as (pre & suf & F & Lp). subst b. unfold rd in R. destruct (_ <=? _); [|discriminate]. injection R as R.
  rewrite F, !Nat2Z.id, skipn_app, skipn_all, Nat.sub_diag in R. cbn [app skipn] in R. rewrite firstn_app in R.
  replace (length mk - length c)%nat with 0%nat in R by lia. cbn [firstn] in R. rewrite app_nil_r in R. rewrite <- R at 1. now rewrite firstn_skipn.
Qed.
Lemma not_mark mk c tail b : at_ file b (c ++ tail) -> ~ In 255 mk -> (exists tl, tail = 255 :: tl) -> ~ starts mk c -> forall m, rd file b (Z.of_nat (length mk)) = Ok m -> bytes_eqb m mk = false.
Proof.
  intros H N T S. destruct (Nat.lt_ge_cases (length c) (length mk)) as [L|L].
  - now apply (not_marker mk c tail).
  - apply (not_marker2 mk c); [|exact L|exact S]. apply at_app in H. apply H.
Qed.
Lemma rd_ok_len p n : 0 <= p -> p + n <= Z.of_nat (length file) -> exists m, rd file p n = Ok m.
Proof. intros H1 H2. unfold rd. destruct (Z.leb_spec (p + n) (Z.of_nat (length file))); [eexists; reflexivity|lia]. Qed.

Lemma xmp_mark_no255 : ~ In 255 XMP_MARKER.
Proof. intros H. vm_compute in H. repeat (destruct H as [H|H]; [discriminate|]). exact H. Qed.
Lemma exif_mark_no255 : ~ In 255 EXIF_MARKER.
Proof. intros H. vm_compute in H. repeat (destruct H as [H|H]; [discriminate|]). exact H. Qed.

(** APP1 with other content, when at least a marker follows *)
Lemma app1_other q c x : fits c -> ~ starts EXIF_MARKER c -> ~ starts XMP_MARKER c -> at_ file q (enc BE 2 (2 + Z.of_nat (length c))) -> at_ file (q + 2) (c ++ [255; x]) ->
  app1_read exif file q = A1Ok (2 + Z.of_nat (length c)) PUnknown (q + 2 + Z.of_nat (length c)).
Proof.
  unfold fits. intros F N1 N2 H1 H2. assert (Q := at_len _ _ _ H1). assert (Q2 := at_len _ _ _ H2). rewrite app_length in Q2. cbn [length] in Q2. rewrite enc_length in Q.
  assert (T : exists tl, [255; x] = 255 :: tl) by (eexists; reflexivity).
  assert (R : app1_xmp file q (2 + Z.of_nat (length c)) = A1Ok (2 + Z.of_nat (length c)) PUnknown (q + 2 + Z.of_nat (length c))).
  { unfold app1_xmp. replace (q + 2 + Z.of_nat (length c)) with (q + (2 + Z.of_nat (length c))) by lia. destruct (Z.leb_spec 29 (2 + Z.of_nat (length c))) as [G|G]; [|reflexivity].
    unfold app1_need. destruct (rd_ok_len (q + 2) 29) as [m E]; [lia|lia|]. rewrite E.
    now rewrite (not_mark XMP_MARKER c [255; x] (q + 2) H2 xmp_mark_no255 T N2 m E). }
  unfold app1_read, app1_need. rewrite (rd_at_n _ _ _ _ H1) by reflexivity. cbn zeta. rewrite dec16 by lia.
  destruct (Z.leb_spec 6 (2 + Z.of_nat (length c))) as [G|G]; [|exact R].
  destruct (rd_ok_len (q + 2) 6) as [m E]; [lia|lia|]. rewrite E.
  now rewrite (not_mark EXIF_MARKER c [255; x] (q + 2) H2 exif_mark_no255 T N1 m E).
Qed.
Lemma app1_packet q x y : fits (XMP_MARKER ++ x) -> at_ file q (enc BE 2 (2 + Z.of_nat (length (XMP_MARKER ++ x)))) -> at_ file (q + 2) ((XMP_MARKER ++ x) ++ [255; y]) ->
  app1_read exif file q = A1Ok (31 + Z.of_nat (length x)) (PXpacket x) (q + 31 + Z.of_nat (length x)).
Proof.
  unfold fits. intros F H1 H2. assert (Q := at_len _ _ _ H1). assert (Q2 := at_len _ _ _ H2). rewrite !app_length in *. change (length XMP_MARKER) with 29%nat in *. rewrite enc_length in Q.
  assert (N1 : ~ starts EXIF_MARKER (XMP_MARKER ++ x)) by (intros (r & E); discriminate E).
  assert (T : exists tl, [255; y] = 255 :: tl) by (eexists; reflexivity).
  unfold app1_read, app1_need. rewrite (rd_at_n _ _ _ _ H1) by reflexivity. cbn zeta. rewrite dec16 by lia.
  destruct (Z.leb_spec 6 (2 + Z.of_nat (29 + length x))) as [G|G]; [|lia].
  destruct (rd_ok_len (q + 2) 6) as [m E]; [lia|lia|]. rewrite E.
  rewrite (not_mark EXIF_MARKER _ [255; y] (q + 2) H2 exif_mark_no255 T N1 m E).
  apply at_app in H2. destruct H2 as [H2 _]. apply at_app in H2. destruct H2 as [H2 H3]. change (Z.of_nat (length XMP_MARKER)) with 29 in H3.
  unfold app1_xmp, app1_need. destruct (Z.leb_spec 29 (2 + Z.of_nat (29 + length x))) as [_|C]; [|lia].
  rewrite (rd_at_n _ _ _ _ H2) by reflexivity. rewrite (proj2 (bytes_eqb_spec _ _) eq_refl).
  destruct (Z.ltb_spec (2 + Z.of_nat (29 + length x)) 31) as [C|_]; [lia|].
  replace (q + 31) with (q + 2 + 29) by lia. rewrite (rd_at_n _ _ _ _ H3) by lia. f_equal; lia.
Qed.

(** One segment, followed by a marker *)
Lemma sym_eqb m k : 0 <= m < 256 -> (0xFF00 + m =? 0xFF00 + k) = (m =? k).
Proof. intros H. destruct (Z.eqb_spec m k); destruct (Z.eqb_spec (0xFF00 + m) (0xFF00 + k)); congruence || lia. Qed.

Definition is_marker (m : Z) : Prop := 0xC0 <= m < 0xFF /\ ~ (0xD0 <= m < 0xD8).

Lemma step_ok s pos fuel acc m out segs : jseg_ok s -> is_marker m -> acc <> [] ->
  at_ file pos (jenc s ++ [0xFF; m]) -> shown tiff_at pos (s :: segs) out ->
  exists o out', out = o :: out' /\ shown tiff_at (pos + Z.of_nat (length (jenc s))) segs out' /\
    exists sm, at_ file pos [0xFF; sm] /\ is_marker sm /\
    jfif_loop exif file (S fuel) pos (0xFF00 + sm) (pos + 2) acc =
    jfif_loop exif file fuel (pos + Z.of_nat (length (jenc s))) (0xFF00 + m) (pos + Z.of_nat (length (jenc s)) + 2) (acc ++ [o]).
Proof.
  intros Hs Hm Ha H Sh. assert (HA := H). apply at_app in H. destruct H as [H Hn].
  assert (N : rd_u16 BE file (pos + Z.of_nat (length (jenc s))) = Ok (0xFF00 + m)).
  { apply u16_at; [unfold urange; unfold is_marker in Hm; lia|]. rewrite marker_enc by (unfold is_marker in Hm; lia). exact Hn. }
  destruct acc as [|a0 acc]; [congruence|]. cbn [andb] in *.
  destruct s as [f t|t|x|c|d|k c]; inversion Sh; subst; clear Sh.
  - do 2 eexists. split; [reflexivity|]. split; [eassumption|]. exists 0xE0. cbn [jenc] in *. destruct (seg_at _ _ _ H) as (A & B & C).
    split; [exact A|]. split; [unfold is_marker; lia|]. rewrite loop_S. cbn zeta. change (0xFF00 + 0xE0) with 0xFFE0. cbn [andb]. change (0xFFE0 =? 0xFFD8) with false. change (0xFFE0 =? 0xFFD9) with false. change (0xFFE0 =? 0xFFE0) with true. cbn iota.
    rewrite (app0_ok (pos + 2) f t Hs B) by (now replace (pos + 2 + 2) with (pos + 4) by lia). cbn [obind].
    rewrite seg_len in N |- *. rewrite !app_length in N |- *. destruct Hs as (Lf & _). rewrite Lf in N |- *. change (length [74; 70; 73; 70; 0]) with 5%nat in N |- *.
    replace (pos + 2 + 16 + Z.of_nat (length t)) with (pos + (4 + Z.of_nat (5 + (9 + length t)))) by lia. rewrite N. reflexivity.
  - do 2 eexists. split; [reflexivity|]. split; [eassumption|]. exists 0xE1. cbn [jenc jseg_ok] in *. destruct (seg_at _ _ _ H) as (A & B & C).
    split; [exact A|]. split; [unfold is_marker; lia|]. rewrite loop_S. cbn zeta. change (0xFF00 + 0xE1) with 0xFFE1. change (0xFFE1 =? 0xFFD8) with false. change (0xFFE1 =? 0xFFD9) with false. change (0xFFE1 =? 0xFFE0) with false. change (0xFFE1 =? 0xFFE1) with true. cbn iota. cbn [andb].
    rewrite (app1_exif (pos + 2) t i Hs B) by (try (now replace (pos + 2 + 2) with (pos + 4) by lia); replace (pos + 2 + 8) with (pos + 10) by lia; assumption).
    rewrite seg_len in N |- *. rewrite !app_length in N |- *. change (length [69; 120; 105; 102; 0; 0]) with 6%nat in N |- *.
    replace (pos + 2 + 8 + Z.of_nat (length t)) with (pos + (4 + Z.of_nat (6 + length t))) by lia. rewrite N. reflexivity.
  - do 2 eexists. split; [reflexivity|]. split; [eassumption|]. exists 0xE1. cbn [jenc jseg_ok] in *. destruct (seg_at _ _ _ H) as (A & B & C).
    split; [exact A|]. split; [unfold is_marker; lia|]. rewrite loop_S. cbn zeta. change (0xFF00 + 0xE1) with 0xFFE1. change (0xFFE1 =? 0xFFD8) with false. change (0xFFE1 =? 0xFFD9) with false. change (0xFFE1 =? 0xFFE0) with false. change (0xFFE1 =? 0xFFE1) with true. cbn iota. cbn [andb].
    rewrite (app1_packet (pos + 2) x m Hs B).
    2:{ unfold seg in HA. rewrite <- app_assoc in HA. apply at_app in HA. destruct HA as [_ HA]. rewrite <- app_assoc in HA. apply at_app in HA. destruct HA as [_ HA]. rewrite enc_length in HA. exact HA. }
    rewrite seg_len in N |- *. rewrite !app_length in N |- *. change (length XMP_MARKER) with 29%nat in N |- *.
    replace (pos + 2 + 31 + Z.of_nat (length x)) with (pos + (4 + Z.of_nat (29 + length x))) by lia. rewrite N. reflexivity.
  - do 2 eexists. split; [reflexivity|]. split; [eassumption|]. exists 0xE1. cbn [jenc jseg_ok] in *. destruct (seg_at _ _ _ H) as (A & B & C). destruct Hs as (F & N1 & N2).
    split; [exact A|]. split; [unfold is_marker; lia|]. rewrite loop_S. cbn zeta. change (0xFF00 + 0xE1) with 0xFFE1. change (0xFFE1 =? 0xFFD8) with false. change (0xFFE1 =? 0xFFD9) with false. change (0xFFE1 =? 0xFFE0) with false. change (0xFFE1 =? 0xFFE1) with true. cbn iota. cbn [andb].
    rewrite (app1_other (pos + 2) c m F N1 N2 B).
    2:{ unfold seg in HA. rewrite <- app_assoc in HA. apply at_app in HA. destruct HA as [_ HA]. rewrite <- app_assoc in HA. apply at_app in HA. destruct HA as [_ HA]. rewrite enc_length in HA. exact HA. }
    rewrite seg_len in N |- *. replace (pos + 2 + 2 + Z.of_nat (length c)) with (pos + (4 + Z.of_nat (length c))) by lia. rewrite N. reflexivity.
  - do 2 eexists. split; [reflexivity|]. split; [eassumption|]. exists 0xDA. cbn [jenc jseg_ok] in *.
    split; [apply at_app in H; apply H|]. split; [unfold is_marker; lia|]. rewrite loop_S. cbn zeta. change (0xFF00 + 0xDA) with 0xFFDA. change (0xFFDA =? 0xFFD8) with false. change (0xFFDA =? 0xFFD9) with false. change (0xFFDA =? 0xFFE0) with false. change (0xFFDA =? 0xFFE1) with false. change (0xFFDA =? 0xFFDA) with true. cbn iota. cbn [andb].
    rewrite <- app_assoc in HA. apply at_app in HA. destruct HA as [_ HA]. change (Z.of_nat (length [0xFF; 0xDA])) with 2 in HA.
    destruct (at_skipn _ _ HA) as [tail E]. rewrite E. rewrite <- app_assoc. cbn [app]. rewrite scan_coded by (try assumption; unfold is_marker in Hm; lia). cbn [obind].
    cbn [app length] in N |- *. rewrite Z.add_0_l. replace (pos + 2 + Z.of_nat (length (flat_map coded_bytes d))) with (pos + Z.of_nat (S (S (length (flat_map coded_bytes d))))) by lia. rewrite N. reflexivity.
  - do 2 eexists. split; [reflexivity|]. split; [eassumption|]. exists k. cbn [jenc jseg_ok] in *. destruct (seg_at _ _ _ H) as (A & B & C). destruct Hs as (F & R & N1 & N2 & N3).
    split; [exact A|]. split; [unfold is_marker; lia|]. rewrite loop_S. cbn zeta.
    change 0xFFD8 with (0xFF00 + 0xD8). change 0xFFD9 with (0xFF00 + 0xD9). change 0xFFE0 with (0xFF00 + 0xE0). change 0xFFE1 with (0xFF00 + 0xE1). change 0xFFDA with (0xFF00 + 0xDA). rewrite !sym_eqb by lia.
    replace (k =? 216) with false by lia. replace (k =? 217) with false by lia. replace (k =? 224) with false by lia. replace (k =? 225) with false by lia. replace (k =? 218) with false by lia. cbn [andb].
    unfold fits in F. rewrite (u16_at _ _ (2 + Z.of_nat (length c))) by (exact B || unfold urange; lia). cbn [obind].
    rewrite seg_len in N |- *. replace (pos + 2 + (2 + Z.of_nat (length c))) with (pos + (4 + Z.of_nat (length c))) by lia. rewrite N. reflexivity.
Qed.

(** All segments, up to a marker that follows them *)
Lemma jenc_head s : jseg_ok s -> exists m tl, jenc s = 0xFF :: m :: tl /\ is_marker m.
Proof.
  destruct s as [f t|t|x|c|d|k c]; intros H; cbn [jenc seg app]; do 2 eexists; (split; [reflexivity|]); unfold is_marker; try lia.
  cbn in H. lia.
Qed.
Lemma segs_ok : forall segs pos fuel acc m out, Forall jseg_ok segs -> is_marker m -> acc <> [] ->
  at_ file pos (flat_map jenc segs ++ [0xFF; m]) -> shown tiff_at pos segs out ->
  exists sm, at_ file pos [0xFF; sm] /\ is_marker sm /\
  jfif_loop exif file (length segs + fuel) pos (0xFF00 + sm) (pos + 2) acc =
  jfif_loop exif file fuel (pos + Z.of_nat (length (flat_map jenc segs))) (0xFF00 + m) (pos + Z.of_nat (length (flat_map jenc segs)) + 2) (acc ++ out).
Proof.
  induction segs as [|s segs IH]; intros pos fuel acc m out Hs Hm Ha H Sh.
  - inversion Sh; subst. exists m. cbn [flat_map app length Nat.add] in *. split; [exact H|]. split; [exact Hm|]. now rewrite app_nil_r, Z.add_0_r.
  - cbn [flat_map] in *. pose proof (Forall_inv Hs) as H0. pose proof (Forall_inv_tail Hs) as H1.
    rewrite <- app_assoc in H. assert (exists m', is_marker m' /\ at_ file pos (jenc s ++ [0xFF; m'])) as (m' & Hm' & H').
    { destruct segs as [|s' segs]. { exists m. split; [exact Hm|]. exact H. }
      destruct (jenc_head s' (Forall_inv H1)) as (m' & tl & E & M). exists m'. split; [exact M|].
      cbn [flat_map] in H. rewrite E in H. cbn [app] in H. apply at_app in H. destruct H as [Ha1 Hb]. apply at_app. split; [exact Ha1|].
      change (255 :: m' :: (tl ++ flat_map jenc segs) ++ [255; m]) with ([255; m'] ++ ((tl ++ flat_map jenc segs) ++ [255; m])) in Hb. apply at_app in Hb. apply Hb. }
    destruct (step_ok s pos (length segs + fuel) acc m' out segs H0 Hm' Ha H' Sh) as (o & out' & -> & Sh' & sm & A & B & C).
    exists sm. split; [exact A|]. split; [exact B|]. cbn [length Nat.add]. rewrite C.
    apply at_app in H. destruct H as [_ H].
    destruct (IH (pos + Z.of_nat (length (jenc s))) fuel (acc ++ [o]) m out' H1 Hm) as (sm' & A' & B' & C'); [destruct acc; discriminate|exact H|exact Sh'|].
    assert (sm' = m') as ->.
    { apply at_app in H'. destruct H' as [_ H']. apply rd_at in A'. apply rd_at in H'. cbn [length] in *. congruence. }
    rewrite C'. rewrite app_length, Nat2Z.inj_add, Z.add_assoc, <- app_assoc. reflexivity.
Qed.
End Loop.

Lemma parse_ok exif segs after fuel out : Forall jseg_ok segs -> Z.of_nat (length (jfile segs after)) < 2 ^ 32 ->
  shown (exif (jfile segs after)) 2 segs out -> (length segs + 2 <= fuel)%nat ->
  jfif_parse exif (jfile segs after) fuel = Some (Ok (SSoi 0 :: out ++ [SEoi])).
Proof.
  intros Hs HL Sh Hf. set (file := jfile segs after) in *.
  assert (H0 : at_ file 0 [0xFF; 0xD8]) by (exists [], (flat_map jenc segs ++ [0xFF; 0xD9] ++ after); split; reflexivity).
  assert (H1 : at_ file 2 (flat_map jenc segs ++ [0xFF; 0xD9])) by (exists [0xFF; 0xD8], after; split; [unfold file, jfile; now rewrite <- !app_assoc|reflexivity]).
  unfold jfif_parse. rewrite (u16_at file 0 0xFFD8) by (unfold urange; lia || exact H0). cbn [obind].
  destruct fuel as [|fuel]; [lia|]. rewrite loop_S. cbn zeta. change (0xFFD8 =? 0xFFD8) with true. cbn iota. cbn [negb andb]. change (0xFFD8 =? 0xFFD9) with false. cbn iota. cbn [app].
  replace fuel with (length segs + (fuel - length segs))%nat by lia.
  destruct (segs_ok exif file HL segs 2 (fuel - length segs) [SSoi 0] 0xD9 out Hs) as (sm & A & B & C); [unfold is_marker; lia|discriminate|exact H1|exact Sh|].
  rewrite (u16_at file 2 (0xFF00 + sm)) by (unfold is_marker in B; unfold urange; try lia; rewrite marker_enc by lia; exact A).
  rewrite C. destruct (fuel - length segs)%nat eqn:D; [lia|]. rewrite loop_S. cbn zeta. change (0xFF00 + 0xD9) with 0xFFD9. change (0xFFD9 =? 0xFFD8) with false. change (0xFFD9 =? 0xFFD9) with true. cbn iota. cbn [app andb negb].
  reflexivity.
Qed.
