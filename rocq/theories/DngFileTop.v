(** The whole conversion and the way back. *)
From Coq Require Import List ZArith Lia Bool Permutation.
From Verif Require Import Base BaseLemmas Par Packed Bits Tiff TiffSpec TiffBytes TiffRead TiffWrite TiffSafe TiffTop
  Geom Tiles DngImage DngMeta Strips Cfa CfaProofs DngFile DngFileSpec DngFileTiff DngFileRaw DngFileRead.
Import ListNotations.
Open Scope Z_scope.

Lemma raw_reads_ext p bad img file L L' : (forall t, In t picture_tags -> L t = L' t) -> raw_reads p bad img file L -> raw_reads p bad img file L'.
Proof. intros H R chain i E HT. apply (R chain i E). intros t Ht. rewrite HT, H by exact Ht. reflexivity. Qed.

(** the file is a finished form of [buf] *)
Definition covers (buf file : list Z) : Prop := keeps 8 buf file /\ (length buf <= length file)%nat /\ Z.of_nat (length file) < 2 ^ 32.
Lemma covers_pre buf more file : covers (buf ++ more) file -> covers buf file.
Proof.
  intros (K & L & B). split; [|split; [rewrite app_length in L; lia|exact B]]. eapply keeps_trans; [apply Z.le_refl|apply keeps_app|exact K].
Qed.

Definition not_raw (d : dir) : Prop := bt_get 259 d = None \/ bt_get 254 d = Some (VLong [1]).
Definition raw_entry (p : params) (bad : bool) (img : dimg) (file : list Z) (d : dir) : Prop :=
  bt_get 254 d = Some (VLong [0]) /\ bt_get 259 d = Some (VShort [if p_lossless p then 7 else 1]) /\
  (forall t v, In t picture_tags -> bt_get t d = Some v -> as_read v = v) /\ raw_reads p bad img file (fun t => bt_get t d).

(** none of the tags of the raw image is text *)
Definition plain (e : Z * value) : Prop := as_read (snd e) = snd e.
Lemma last_value_in t l v : last_value t l = Some v -> In (t, v) l.
Proof.
  induction l as [|[k x] l IH]; cbn [last_value]; [discriminate|]. destruct (last_value t l) as [y|]; [intros [= <-]; right; now apply IH|].
  destruct (Z.eqb_spec t k) as [->|]; [intros [= <-]; now left|discriminate].
Qed.
Lemma raw_dir_plain p img buf tags buf' : raw_dir p img buf = Ok (tags, buf') -> Forall plain tags.
Proof.
  unfold raw_dir. intros H. destruct (write_geom _ _ _ _ _) as [g| |]; try discriminate. cbn [bind] in H.
  destruct (assert_ _) as [[]| |]; try discriminate. cbn [bind] in H. destruct (black_write _ _ _) as [[levels [bh bw]]| |]; try discriminate. cbn [bind] in H.
  assert (W : forall l, as_read (white_value l) = white_value l) by (intros l; unfold white_value; destruct (forallb _ _); reflexivity).
  assert (B : forall l, as_read (black_value l) = black_value l) by (intros l; unfold black_value; destruct (forallb _ _); [apply W|reflexivity]).
  destruct (masked_dir _) as [masked| |] eqn:EM; try discriminate. cbn [bind] in H.
  assert (PM : Forall plain masked).
  { unfold masked_dir in EM. destruct (d_areas img); [injection EM as <-; constructor|]. destruct (for_each _ _ _); try discriminate. injection EM as <-.
    constructor; [reflexivity|constructor]. }
  destruct (photo_dir _ _ _) as [photo| |] eqn:EP; try discriminate. cbn [bind] in H.
  assert (PP : Forall plain photo).
  { unfold photo_dir in EP. destruct (d_photo img) as [|c cs|].
    - destruct (assert_ _); try discriminate. injection EP as <-. constructor; [reflexivity|constructor].
    - destruct (assert_ (cfa_valid c)); try discriminate. destruct (assert_ (d_cpp img =? 1)%nat); try discriminate.
      destruct (cfa_write _ _ _); try discriminate. injection EP as <-. repeat (constructor; [reflexivity|]). constructor.
    - injection EP as <-. constructor; [reflexivity|constructor]. }
  destruct (data_dir _ _ _) as [[data b2]| |] eqn:ED; try discriminate. cbn [bind] in H.
  assert (PD : Forall plain data).
  { unfold data_dir in ED. destruct (p_lossless p).
    - destruct (put_raw_ljpeg _ _ _ _ _ _ _ _ _ _) as [tiles| |]; try discriminate. cbn [bind] in ED.
      destruct (fold_left _ _ _) as [[offs sizes] b3]. injection ED as <- _. repeat (constructor; [reflexivity|]). constructor.
    - destruct (put_raw_uncompressed _ _ _ _ _ _ _) as [[[[offs sizes] rows] b3]| |]; try discriminate. injection ED as <- _. repeat (constructor; [reflexivity|]). constructor. }
  assert (PG : Forall plain (geom_dir g)).
  { unfold geom_dir. rewrite !Forall_app. split; [repeat (constructor; [reflexivity|]); constructor|]. split; [|split].
    - destruct (g_active g) as [[[[? ?] ?] ?]|]; [constructor; [reflexivity|]|]; constructor.
    - destruct (g_origin g) as [[? ?]|]; [constructor; [reflexivity|]|]; constructor.
    - destruct (g_size g) as [[? ?]|]; [constructor; [reflexivity|]|]; constructor. }
  set (gd := geom_dir g) in *. clearbody gd. injection H as <- _. apply Forall_app. split; [exact PG|].
  constructor; [reflexivity|]. constructor; [reflexivity|]. constructor; [reflexivity|]. constructor; [apply W|]. constructor; [reflexivity|].
  constructor; [apply B|]. apply Forall_app. split; [exact PM|]. constructor; [reflexivity|]. apply Forall_app. now split.
Qed.
Definition stored (file : list Z) (off : Z) (d : dir) : Prop := dir_at LE file 0 0 off d 0 /\ ascending d.
Definition pointers : list Z := [330; 34665; 34675; 34853].
Lemma pointers_subs t : In t wellknown_subs -> In t pointers.
Proof. intros H. cbn in *. tauto. Qed.

Lemma tags_layout l t : Forall tag_ok l -> In t layout_tags -> ~ In t (map fst l).
Proof. intros H Ht Hin. apply in_map_iff in Hin. destruct Hin as (e & <- & He). rewrite Forall_forall in H. destruct (H e He) as (_ & _ & X). now apply X. Qed.
Lemma tags_wtag l : Forall tag_ok l -> Forall wtag l.
Proof. apply Forall_impl. intros e (A & B & _). now split. Qed.

Lemma colour_ok m : meta_ok m -> Forall wtag (colour_tags m) /\ (length (colour_tags m) <= 5)%nat /\
  forall k v, In (k, v) (colour_tags m) -> In k [50728; 50778; 50721; 50779; 50722].
Proof.
  intros H. pose proof (mo_neutral m H) as HN. pose proof (mo_matrices m H) as HM. unfold colour_tags.
  set (a := match m_neutral m with (n, _) :: _ => if n =? 0 then [] else [(50728, VRational (m_neutral m))] | [] => [] end).
  assert (A : Forall wtag a /\ (length a <= 1)%nat /\ forall k v, In (k, v) a -> k = 50728).
  { unfold a. destruct (m_neutral m) as [|[n q] l]; [repeat split; [constructor|cbn; lia|intros ? ? []]|].
    destruct (n =? 0); [repeat split; [constructor|cbn; lia|intros ? ? []]|]. split; [|split; [cbn; lia|intros ? ? [[= <- _]|[]]; reflexivity]].
    constructor; [|constructor]. apply wtag_mk; [apply u16_65536; lia|]. now apply HN. }
  destruct A as (A1 & A2 & A3).
  set (b := match m_matrices m with [] => [] | _ => _ end).
  assert (B : Forall wtag b /\ (length b <= 4)%nat /\ forall k v, In (k, v) b -> In k [50778; 50721; 50779; 50722]).
  { unfold b. destruct (m_matrices m) as [|[i1 x1] [|[i2 x2] l]]; [repeat split; [constructor|cbn; lia|intros ? ? []]|..];
      rewrite !Forall_cons_iff in HM; cbn [fst snd] in HM.
    - destruct HM as ((M1 & M2) & _). split; [|split; [cbn; lia|]].
      + constructor; [apply w_short1; [apply u16_65536; lia|assumption]|]. constructor; [apply wtag_mk; [apply u16_65536; lia|assumption]|constructor].
      + intros k v Hin. repeat (destruct Hin as [[= <- _]|Hin]; [apply inb; reflexivity|]). destruct Hin.
    - destruct HM as ((M1 & M2) & (M3 & M4) & _). split; [|split; [cbn; lia|]].
      + constructor; [apply w_short1; [apply u16_65536; lia|assumption]|]. constructor; [apply wtag_mk; [apply u16_65536; lia|assumption]|].
        constructor; [apply w_short1; [apply u16_65536; lia|assumption]|]. constructor; [apply wtag_mk; [apply u16_65536; lia|assumption]|constructor].
      + intros k v Hin. repeat (destruct Hin as [[= <- _]|Hin]; [apply inb; reflexivity|]). destruct Hin. }
  destruct B as (B1 & B2 & B3). split; [now apply Forall_app|]. split; [rewrite app_length; lia|].
  intros k v Hin. apply in_app_iff in Hin. destruct Hin as [Hin|Hin]; [apply A3 in Hin; subst; now left|]. right. eapply B3. exact Hin.
Qed.

Lemma layout_not (d : dir) keys t : (forall k v, In (k, v) d -> In k keys) -> forallb (fun k => negb (existsb (Z.eqb k) layout_tags)) keys = true ->
  In t layout_tags -> last_value t d = None.
Proof.
  intros H HK Ht. apply last_value_none. intros k v Hin ->. apply H in Hin. rewrite forallb_forall in HK. specialize (HK _ Hin).
  apply negb_true_iff in HK. assert (existsb (Z.eqb t) layout_tags = true) by (apply existsb_exists; exists t; split; [exact Ht|apply Z.eqb_refl]). congruence.
Qed.
Lemma picture_layout t : In t picture_tags -> In t layout_tags /\ t <> 254 /\ ~ In t pointers.
Proof. intros H. cbn [picture_tags In] in H. repeat (destruct H as [<-|H]; [split; [apply inb; reflexivity|split; [discriminate|cbn; lia]]|]). destruct H. Qed.

(** ** The raw image *)
Lemma put_raw_ok p m img : image_ok img -> params_ok p img -> cfa_aligned p img -> meta_ok m ->
  exists s more, put_raw p m img session_new = Ok s /\ s_buf s = tiff_new ++ more /\
    good (50 + length (m_raw_tags m)) (s_root s) /\ s_exif s = s_exif session_new /\
    (forall t, In t pointers -> bt_get t (s_root s) = None) /\
    (if p_thumb p then
       bt_get 259 (s_root s) = None /\
       exists off d, s_subs s = [off] /\ urange 32 off /\
         forall file, covers (s_buf s) file -> stored file off d /\ forall bad, raw_entry p bad img file d
     else s_subs s = [] /\ forall file, covers (s_buf s) file -> forall bad, raw_entry p bad img file (s_root s)).
Proof.
  intros HI HP HA HM. unfold put_raw.
  assert (WB : (if has_colour img then wb_check img else Ok tt) = Ok tt).
  { destruct (has_colour img) eqn:E; [|reflexivity]. unfold wb_check. pose proof (io_photo img HI) as X. unfold has_colour in E.
    destruct (d_photo img) as [|c cs|]; [reflexivity| |].
    - destruct X as (_ & _ & X & _). cbn [In] in X. destruct X as [<-|[<-|[<-|[]]]]; reflexivity.
    - destruct X as [X|X]; rewrite X; reflexivity. }
  rewrite WB. cbn [bind].
  destruct (colour_ok m HM) as (CW & CL & CI).
  destruct (mo_tags m HM) as (TG & TL). apply Forall_app in TG. destruct TG as [TR _].
  destruct (raw_dir_ok p img tiff_new HI HP HA) as (tags & more & E & TW & TLen & T259 & TNone & RR).
  change (s_buf session_new) with tiff_new. rewrite E. cbn [bind]. pose proof (raw_dir_plain _ _ _ _ _ E) as TP. rewrite Forall_forall in TP.
  assert (G0 : good 2 (s_root session_new)).
  { refine (good_add_all [(50707, VByte [1; 4; 0; 0]); (50706, VByte [1; 6; 0; 0])] 0 [] good_nil _).
    constructor; [|constructor; [|constructor]]; (apply wtag_mk; [apply u16_65536; lia|]; apply wv_byte; [discriminate|cbn [length]; lia|]; repeat constructor; unfold urange; lia). }
  assert (N0 : forall t, In t layout_tags -> bt_get t (s_root session_new) = None).
  { intros t Ht. cbn [layout_tags In] in Ht. repeat (destruct Ht as [<-|Ht]; [reflexivity|]). destruct Ht. }
  set (cols := if has_colour img then colour_tags m else []).
  assert (COLS : Forall wtag cols /\ (length cols <= 5)%nat /\ forall t, In t layout_tags -> last_value t cols = None).
  { unfold cols. destruct (has_colour img); [|repeat split; [constructor|cbn; lia]]. split; [exact CW|]. split; [exact CL|].
    intros t Ht. eapply layout_not; [exact CI|reflexivity|exact Ht]. }
  destruct COLS as (COLW & COLL & COLN).
  assert (EC : forall r, (if has_colour img then add_all r (colour_tags m) else r) = add_all r cols) by (intros; unfold cols; destruct (has_colour img); reflexivity).
  assert (W0 : writable (VLong [0])) by (apply wv_long; [discriminate|cbn [length]; lia|repeat constructor; unfold urange; lia]).
  assert (PL : forall t, In t pointers -> In t layout_tags) by (intros t Ht; cbn [pointers In] in Ht; repeat (destruct Ht as [<-|Ht]; [apply inb; reflexivity|]); destruct Ht).
  assert (RRF : forall file, covers (tiff_new ++ more) file -> forall bad, raw_reads p bad img file (fun t => last_value t tags)).
  { intros file (K & L & B) bad. apply (RR file 8); auto. cbn. lia. }
  rewrite EC. destruct (p_thumb p).
  - set (d := copy_tags (add_all (add_tag [] 254 (VLong [0])) tags) (m_raw_tags m)).
    assert (GD : good (1 + length tags + length (m_raw_tags m)) d).
    { apply good_copy; [|now apply tags_wtag]. apply good_add_all; [|exact TW]. apply (good_add 0); [apply good_nil|apply u16_65536; lia|exact W0]. }
    assert (LD : forall t, In t layout_tags -> bt_get t d = match last_value t tags with Some v => Some v | None => if t =? 254 then Some (VLong [0]) else None end).
    { intros t Ht. unfold d. rewrite get_copy by (now apply tags_layout). rewrite get_add_all, get_add. reflexivity. }
    destruct (dir_step _ d (tiff_new ++ more) GD) as (off & m2 & E2 & RO & F2).
    { rewrite !app_length in TL. lia. }
    { intros X. specialize (LD 254 ltac:(apply inb; reflexivity)). rewrite X, TNone in LD by (apply inb; reflexivity). discriminate. }
    rewrite E2. cbn [bind]. eexists _, (more ++ m2). split; [reflexivity|]. cbn [s_buf s_root s_exif s_subs]. rewrite <- app_assoc in *. split; [reflexivity|].
    split; [eapply good_more; [apply good_add_all; [exact G0|exact COLW]|lia]|]. split; [reflexivity|].
    assert (RN : forall t, In t layout_tags -> bt_get t (add_all (s_root session_new) cols) = None).
    { intros t Ht. rewrite get_add_all, COLN by exact Ht. now apply N0. }
    split; [intros t Ht; apply RN; now apply PL|]. split; [apply RN; apply inb; reflexivity|].
    exists off, d. split; [reflexivity|]. split; [exact RO|]. intros file C. split.
    + destruct C as (K & L & B). apply (F2 file 8 K); [cbn; lia|lia].
    + intros bad. split; [rewrite LD, TNone by (apply inb; reflexivity); reflexivity|]. split; [rewrite LD, T259 by (apply inb; reflexivity); reflexivity|]. split.
      { intros t v Ht. destruct (picture_layout t Ht) as (H1 & H2 & _). rewrite LD by exact H1. replace (t =? 254) with false by (symmetry; now apply Z.eqb_neq).
        destruct (last_value t tags) as [y|] eqn:EY; [|discriminate]. intros [= <-]. apply last_value_in in EY. exact (TP _ EY). }
      apply raw_reads_ext with (L := fun t => last_value t tags).
      * intros t Ht. destruct (picture_layout t Ht) as (H1 & H2 & _). rewrite LD by exact H1. replace (t =? 254) with false by (symmetry; now apply Z.eqb_neq).
        destruct (last_value t tags); reflexivity.
      * apply RRF. rewrite app_assoc in C. now apply covers_pre in C.
  - eexists _, more. split; [reflexivity|]. cbn [s_buf s_root s_exif s_subs]. split; [reflexivity|].
    set (d := copy_tags (add_all (add_all (add_tag (s_root session_new) 254 (VLong [0])) cols) tags) (m_raw_tags m)).
    assert (GD : good (3 + length cols + length tags + length (m_raw_tags m)) d).
    { apply good_copy; [|now apply tags_wtag]. apply good_add_all; [|exact TW]. apply good_add_all; [|exact COLW]. apply (good_add 2); [exact G0|apply u16_65536; lia|exact W0]. }
    assert (LD : forall t, In t layout_tags -> bt_get t d = match last_value t tags with Some v => Some v | None => if t =? 254 then Some (VLong [0]) else None end).
    { intros t Ht. unfold d. rewrite get_copy by (now apply tags_layout). rewrite get_add_all. destruct (last_value t tags); [reflexivity|].
      rewrite get_add_all, COLN by exact Ht. rewrite get_add, N0 by exact Ht. reflexivity. }
    split; [eapply good_more; [exact GD|lia]|]. split; [reflexivity|]. split.
    { intros t Ht. rewrite LD by (now apply PL). cbn [pointers In] in Ht. repeat (destruct Ht as [<-|Ht]; [rewrite TNone by (apply inb; reflexivity); reflexivity|]). destruct Ht. }
    split; [reflexivity|]. intros file C bad.
    split; [rewrite LD, TNone by (apply inb; reflexivity); reflexivity|]. split; [rewrite LD, T259 by (apply inb; reflexivity); reflexivity|]. split.
    { intros t v Ht. destruct (picture_layout t Ht) as (H1 & H2 & _). rewrite LD by exact H1. replace (t =? 254) with false by (symmetry; now apply Z.eqb_neq).
      destruct (last_value t tags) as [y|] eqn:EY; [|discriminate]. intros [= <-]. apply last_value_in in EY. exact (TP _ EY). }
    apply raw_reads_ext with (L := fun t => last_value t tags).
    + intros t Ht. destruct (picture_layout t Ht) as (H1 & H2 & _). rewrite LD by exact H1. replace (t =? 254) with false by (symmetry; now apply Z.eqb_neq).
      destruct (last_value t tags); reflexivity.
    + now apply RRF.
Qed.

(** ** Preview and thumbnail *)
Lemma good_lit l k d n : (length l <= k)%nat -> good n d -> Forall wtag l -> good (n + k) (add_all d l).
Proof. intros H G F. eapply good_more; [apply good_add_all; [exact G|exact F]|lia]. Qed.
Lemma w_long_wrap t x : urange 16 t -> wtag (t, VLong [wrap_u32 x]).
Proof. intros. apply w_long1; [assumption|]. unfold urange, wrap_u32. apply Z.mod_pos_bound. lia. Qed.
Lemma w_888 t a b c : urange 16 t -> urange 16 a -> urange 16 b -> urange 16 c -> wtag (t, VShort [a; b; c]).
Proof. intros. apply wtag_mk; [assumption|]. apply wv_short; [discriminate|cbn [length]; lia|]. constructor; [assumption|constructor; [assumption|constructor; [assumption|constructor]]]. Qed.
Ltac u16 := apply u16_65536; lia.
Ltac wt := first [apply w_short1; [u16|u16] | apply w_888; u16 | apply w_long_wrap; u16 | apply w_long1; [u16|first [assumption|unfold urange; lia]]].

Lemma put_pictures_ok p m n s : meta_ok m -> good n (s_root s) ->
  exists s' more, put_pictures p m s = Ok s' /\ s_buf s' = s_buf s ++ more /\ good (n + 11) (s_root s') /\ s_exif s' = s_exif s /\
    (forall t, In t pointers -> bt_get t (s_root s') = bt_get t (s_root s)) /\
    (if p_thumb p then bt_get 259 (s_root s) = None -> not_raw (s_root s') else s_root s' = s_root s) /\
    (s_subs s' = s_subs s \/ exists off d, s_subs s' = s_subs s ++ [off] /\ urange 32 off /\ not_raw d /\
       (8 <= length (s_buf s) -> forall file, covers (s_buf s') file -> stored file off d)%nat).
Proof.
  intros HM G. unfold put_pictures. pose proof (mo_pictures m HM) as HP.
  destruct (m_pictures m) as [[[[pw ph] jpeg] [[tw th] rgb]]|].
  2:{ exists s, []. rewrite app_nil_r. split; [reflexivity|]. split; [reflexivity|]. split; [eapply good_more; [exact G|lia]|].
      split; [reflexivity|]. split; [reflexivity|]. split; [destruct (p_thumb p); [now left|reflexivity]|now left]. }
  cbn [opt_ok fst snd] in HP. destruct HP as (R1 & R2 & R3 & R4).
  assert (PREV : exists s1 more, (if p_preview p then put_preview pw ph jpeg s else Ok s) = Ok s1 /\ s_buf s1 = s_buf s ++ more /\
    s_root s1 = s_root s /\ s_exif s1 = s_exif s /\
    (s_subs s1 = s_subs s \/ exists off d, s_subs s1 = s_subs s ++ [off] /\ urange 32 off /\ not_raw d /\
       (8 <= length (s_buf s) -> forall file, covers (s_buf s1) file -> stored file off d)%nat)).
  { destruct (p_preview p).
    2:{ exists s, []. rewrite app_nil_r. split; [reflexivity|]. split; [reflexivity|]. split; [reflexivity|]. split; [reflexivity|now left]. }
    unfold put_preview. set (buf := s_buf s ++ jpeg). set (d := add_all [] _).
    assert (GD : good (0 + 12) d).
    { unfold d. apply good_lit; [cbn [length]; lia|apply good_nil|]. repeat (apply Forall_cons; [wt|]). apply Forall_nil. }
    destruct (dir_step _ d buf GD) as (off & more & E & RO & F); [lia|discriminate|]. rewrite E. cbn [bind].
    eexists _, (jpeg ++ more). split; [reflexivity|]. cbn [s_buf s_root s_exif s_subs]. unfold buf. rewrite <- app_assoc.
    split; [reflexivity|]. split; [reflexivity|]. split; [reflexivity|]. right. exists off, d. split; [reflexivity|]. split; [exact RO|].
    split; [now right|]. intros H8 file (K & L & B). apply (F file 8).
    - unfold buf. rewrite <- app_assoc. exact K.
    - unfold buf. rewrite app_length. lia.
    - unfold buf. rewrite <- app_assoc. lia. }
  destruct PREV as (s1 & more & -> & EB & ER & EX & HS). cbn [bind]. destruct (p_thumb p).
  - unfold put_thumb. destruct (data_step (s_buf s1) rgb) as (m2 & E2 & RO & _). destruct (write_data (s_buf s1) rgb) as [off buf] eqn:EW.
    cbn [fst snd] in E2, RO. subst buf. eexists _, (more ++ m2). split; [reflexivity|]. cbn [s_buf s_root s_exif s_subs]. rewrite ER, EB, <- app_assoc.
    split; [reflexivity|]. split.
    { apply good_lit; [cbn [length]; lia|exact G|]. repeat (apply Forall_cons; [wt|]). apply Forall_nil. }
    split; [exact EX|]. split.
    { intros t Ht. rewrite get_add_all. cbn [pointers In] in Ht. repeat (destruct Ht as [<-|Ht]; [reflexivity|]). destruct Ht. }
    split; [intros _; right; rewrite get_add_all; reflexivity|].
    destruct HS as [HS|(o & d & HS & Ho & Hd & HF)]; [now left|]. right. exists o, d. split; [exact HS|]. split; [exact Ho|]. split; [exact Hd|].
    intros H8 file C. apply HF; [exact H8|]. rewrite EB. rewrite app_assoc in C. now apply covers_pre in C.
  - exists s1, more. split; [reflexivity|]. split; [exact EB|]. rewrite ER. split; [eapply good_more; [exact G|lia]|]. split; [exact EX|]. split; [reflexivity|].
    split; [reflexivity|]. exact HS.
Qed.

(** ** Metadata *)
Lemma transfer_root_not t : In t layout_tags -> ~ In t [274; 306; 33432; 315].
Proof. intros H X. cbn [In] in X. repeat (destruct X as [<-|X]; [cbn in H; lia|]). destruct X. Qed.
Lemma layout_neq t k : In t layout_tags -> existsb (Z.eqb k) layout_tags = false -> (t =? k) = false.
Proof.
  intros H E. apply Z.eqb_neq. intros ->. assert (existsb (Z.eqb k) layout_tags = true) by (apply existsb_exists; exists k; split; [exact H|apply Z.eqb_refl]). congruence.
Qed.
Lemma put_tags_ok m n s : meta_ok m -> good n (s_root s) -> s_exif s = s_exif session_new -> bt_get 34853 (s_root s) = None -> (8 <= length (s_buf s))%nat ->
  exists s' more, put_tags m s = Ok s' /\ s_buf s' = s_buf s ++ more /\
    good (n + 20 + length (m_root_tags m) + length (m_cinema m)) (s_root s') /\ s_subs s' = s_subs s /\
    good 41 (s_exif s') /\ s_exif s' <> [] /\ bt_get 259 (s_exif s') = None /\
    (forall t, In t layout_tags -> t <> 34853 -> bt_get t (s_root s') = bt_get t (s_root s)) /\
    (bt_get 34853 (s_root s') = None \/ exists off d, bt_get 34853 (s_root s') = Some (VLong [off]) /\ bt_get 259 d = None /\
       forall file, covers (s_buf s') file -> stored file off d).
Proof.
  intros HM G EX HG0 H8. unfold put_tags. destruct (mo_names m HM) as (N1 & N2 & N3 & N4 & N5).
  destruct (mo_tags m HM) as (TG & TL). rewrite !Forall_app in TG. destruct TG as (_ & TG2 & TG3).
  set (r0 := add_all (s_root s) _).
  assert (G1 : good (n + 3) r0).
  { apply good_lit; [cbn [length]; lia|exact G|]. constructor; [apply wtag_mk; [u16|exact N1]|]. constructor; [apply wtag_mk; [u16|exact N2]|]. constructor; [apply wtag_mk; [u16|exact N3]|constructor]. }
  assert (L1 : forall t, In t layout_tags -> bt_get t r0 = bt_get t (s_root s)).
  { intros t Ht. unfold r0. rewrite get_add_all. cbn [last_value]. rewrite !(layout_neq t) by (assumption || reflexivity). reflexivity. }
  set (r1 := transfer (m_exif m) [274; 306; 33432; 315] r0).
  assert (G2 : good (n + 3 + 4) r1).
  { apply good_transfer; [|intros t v _; apply (mo_exif m HM)|exact G1]. intros t Ht. cbn [In] in Ht. repeat (destruct Ht as [<-|Ht]; [u16|]). destruct Ht. }
  assert (L2 : forall t, In t layout_tags -> bt_get t r1 = bt_get t (s_root s)).
  { intros t Ht. unfold r1. rewrite get_transfer by (now apply transfer_root_not). now apply L1. }
  assert (GPS : exists buf r2 more, match m_gps m with
      | Some g => match transfer g gps_tags [] with
        | [] => Ok (s_buf s, r1)
        | _ => do (off, buf) <- dir_build (transfer g gps_tags []) 0 (s_buf s); Ok (buf, add_tag r1 34853 (VLong [off]))
        end
      | None => Ok (s_buf s, r1)
      end = Ok (buf, r2) /\ buf = s_buf s ++ more /\ good (n + 8) r2 /\
      (forall t, In t layout_tags -> t <> 34853 -> bt_get t r2 = bt_get t (s_root s)) /\
      (bt_get 34853 r2 = None \/ exists off d, bt_get 34853 r2 = Some (VLong [off]) /\ bt_get 259 d = None /\ forall file, covers buf file -> stored file off d)).
  { assert (NONE : exists buf r2 more, Ok (s_buf s, r1) = Ok (buf, r2) /\ buf = s_buf s ++ more /\ good (n + 8) r2 /\
      (forall t, In t layout_tags -> t <> 34853 -> bt_get t r2 = bt_get t (s_root s)) /\
      (bt_get 34853 r2 = None \/ exists off d, bt_get 34853 r2 = Some (VLong [off]) /\ bt_get 259 d = None /\ forall file, covers buf file -> stored file off d)).
    { exists (s_buf s), r1, []. rewrite app_nil_r. split; [reflexivity|]. split; [reflexivity|]. split; [eapply good_more; [exact G2|lia]|].
      split; [intros; now apply L2|left]. rewrite L2 by (apply inb; reflexivity). exact HG0. }
    pose proof (mo_gps m HM) as HGP. destruct (m_gps m) as [g|]; [|exact NONE]. cbn [opt_ok] in HGP.
    assert (GD : good (0 + length gps_tags) (transfer g gps_tags [])).
    { apply good_transfer; [|intros t v _; apply HGP|apply good_nil]. intros t Ht. unfold gps_tags in Ht. apply in_map_iff in Ht. destruct Ht as (k & <- & Hk).
      apply in_seq in Hk. u16. }
    assert (D259 : bt_get 259 (transfer g gps_tags []) = None).
    { rewrite get_transfer; [reflexivity|]. unfold gps_tags. intros X. apply in_map_iff in X. destruct X as (k & X & Hk). apply in_seq in Hk. lia. }
    destruct (transfer g gps_tags []) as [|e0 d0] eqn:ED; [exact NONE|]. rewrite <- ED in *.
    destruct (dir_step _ _ (s_buf s) GD) as (off & more & E & RO & F); [change (length gps_tags) with 32%nat; lia|rewrite ED; discriminate|].
    rewrite E. cbn [bind]. eexists _, _, more. split; [reflexivity|]. split; [reflexivity|]. split.
    { replace (n + 8)%nat with (S (n + 3 + 4)) by lia. apply good_add; [exact G2|u16|]. apply wv_long; [discriminate|cbn [length]; lia|]. constructor; [exact RO|constructor]. }
    split; [intros t Ht Hn; rewrite get_add; replace (t =? 34853) with false by (symmetry; now apply Z.eqb_neq); now apply L2|].
    right. exists off, (transfer g gps_tags []). split; [rewrite get_add; reflexivity|]. split; [exact D259|]. intros file (K & L & B). apply (F file 8 K); lia. }
  destruct GPS as (buf & r2 & more & EG & EB & G3 & L3 & P3).
  unfold put_metadata. cbn [s_buf s_root s_exif s_subs]. fold r1. rewrite EG. cbn [bind s_buf s_root s_exif s_subs]. rewrite EX.
  set (exif := transfer (m_exif m) exif_tags (s_exif session_new)).
  set (r3 := match m_exif m 42034 with Some v => add_tag r2 50736 v | None => r2 end).
  assert (R3 : good (n + 9) r3 /\ forall t, In t layout_tags -> bt_get t r3 = bt_get t r2).
  { unfold r3. destruct (m_exif m 42034) as [v|] eqn:E; [|split; [eapply good_more; [exact G3|lia]|reflexivity]]. split.
    - replace (n + 9)%nat with (S (n + 8)) by lia. apply good_add; [exact G3|u16|]. eapply (mo_exif m HM); exact E.
    - intros t Ht. rewrite get_add, (layout_neq t) by (assumption || reflexivity). reflexivity. }
  destruct R3 as [G4 L4].
  set (r4 := match m_unique m with Some id => add_tag r3 50781 (VByte id) | None => r3 end).
  assert (R4 : good (n + 10) r4 /\ forall t, In t layout_tags -> bt_get t r4 = bt_get t r2).
  { unfold r4. pose proof (mo_unique m HM) as X. destruct (m_unique m) as [v|]; [|split; [eapply good_more; [exact G4|lia]|exact L4]]. split.
    - replace (n + 10)%nat with (S (n + 9)) by lia. apply good_add; [exact G4|u16|exact X].
    - intros t Ht. rewrite get_add, (layout_neq t) by (assumption || reflexivity). now apply L4. }
  destruct R4 as [G5 L5].
  set (r5 := match bt_get 274 r4 with Some _ => r4 | None => add_tag r4 274 (VShort [m_orientation m]) end).
  assert (R5 : good (n + 11) r5 /\ forall t, In t layout_tags -> bt_get t r5 = bt_get t r2).
  { unfold r5. destruct (bt_get 274 r4); [split; [eapply good_more; [exact G5|lia]|exact L5]|]. split.
    - replace (n + 11)%nat with (S (n + 10)) by lia. apply good_add; [exact G5|u16|]. apply wv_short; [discriminate|cbn [length]; lia|]. constructor; [apply (mo_orientation m HM)|constructor].
    - intros t Ht. rewrite get_add, (layout_neq t) by (assumption || reflexivity). now apply L5. }
  destruct R5 as [G6 L6].
  set (r6 := copy_tags r5 (m_root_tags m)).
  assert (R6 : good (n + 11 + length (m_root_tags m)) r6 /\ forall t, In t layout_tags -> bt_get t r6 = bt_get t r2).
  { split; [apply good_copy; [exact G6|now apply tags_wtag]|]. intros t Ht. unfold r6. rewrite get_copy by (now apply tags_layout). now apply L6. }
  destruct R6 as [G7 L7].
  set (cin := filter _ (m_cinema m)).
  assert (CIN : Forall tag_ok cin /\ (length cin <= length (m_cinema m))%nat).
  { unfold cin. split.
    - rewrite Forall_forall in *. intros x Hx. apply filter_In in Hx. apply TG3, Hx.
    - set (f := fun e : Z * value => _). clear. induction (m_cinema m) as [|a l IH]; cbn [filter length]; [lia|]. destruct (f a); cbn [length]; lia. }
  destruct CIN as [CI CL].
  set (r7 := copy_tags r6 cin).
  assert (R7 : good (n + 11 + length (m_root_tags m) + length (m_cinema m)) r7 /\ forall t, In t layout_tags -> bt_get t r7 = bt_get t r2).
  { split; [eapply good_more; [apply good_copy; [exact G7|now apply tags_wtag]|lia]|]. intros t Ht. unfold r7. rewrite get_copy by (now apply tags_layout). now apply L7. }
  destruct R7 as [G8 L8].
  set (k := (n + 11 + length (m_root_tags m) + length (m_cinema m))%nat) in *.
  set (r8 := match m_xmp m with Some x => add_tag r7 700 (VByte x) | None => r7 end).
  assert (R8 : good (k + 1) r8 /\ forall t, In t layout_tags -> bt_get t r8 = bt_get t r2).
  { unfold r8. pose proof (mo_xmp m HM) as X. destruct (m_xmp m) as [v|]; [|split; [eapply good_more; [exact G8|lia]|exact L8]]. split.
    - rewrite Nat.add_1_r. apply good_add; [exact G8|u16|exact X].
    - intros t Ht. rewrite get_add, (layout_neq t) by (assumption || reflexivity). now apply L8. }
  destruct R8 as [G9 L9].
  set (r9 := match m_original m with
    | Some (data, name, digest) =>
      match digest with
      | Some g => add_tag (add_tag (add_tag r8 50828 (VUndef data)) 50827 (ascii name)) 50973 (VByte g)
      | None => add_tag (add_tag r8 50828 (VUndef data)) 50827 (ascii name)
      end
    | None => r8
    end).
  assert (R9 : good (k + 4) r9 /\ forall t, In t layout_tags -> bt_get t r9 = bt_get t r2).
  { unfold r9. pose proof (mo_original m HM) as X. destruct (m_original m) as [[[data name] digest]|]; [|split; [eapply good_more; [exact G9|lia]|exact L9]].
    cbn [opt_ok fst snd] in X. destruct X as (X1 & X2 & X3).
    assert (Y : good (k + 3) (add_tag (add_tag r8 50828 (VUndef data)) 50827 (ascii name)) /\
      forall t, In t layout_tags -> bt_get t (add_tag (add_tag r8 50828 (VUndef data)) 50827 (ascii name)) = bt_get t r2).
    { split.
      - replace (k + 3)%nat with (S (S (k + 1))) by lia. apply good_add; [|u16|exact X2]. apply good_add; [exact G9|u16|exact X1].
      - intros t Ht. rewrite !get_add, !(layout_neq t) by (assumption || reflexivity). now apply L9. }
    destruct Y as [Y1 Y2]. destruct digest as [gg|]; [|split; [eapply good_more; [exact Y1|lia]|exact Y2]]. split.
    - replace (k + 4)%nat with (S (k + 3)) by lia. apply good_add; [exact Y1|u16|exact X3].
    - intros t Ht. rewrite get_add, (layout_neq t) by (assumption || reflexivity). now apply Y2. }
  destruct R9 as [G10 L10].
  set (r10 := match m_artist m with Some a => add_tag r9 315 (ascii a) | None => r9 end).
  assert (R10 : good (k + 5) r10 /\ forall t, In t layout_tags -> bt_get t r10 = bt_get t r2).
  { unfold r10. pose proof (mo_artist m HM) as X. destruct (m_artist m) as [v|]; [|split; [eapply good_more; [exact G10|lia]|exact L10]]. split.
    - replace (k + 5)%nat with (S (k + 4)) by lia. apply good_add; [exact G10|u16|exact X].
    - intros t Ht. rewrite get_add, (layout_neq t) by (assumption || reflexivity). now apply L10. }
  destruct R10 as [G11 L11].
  set (r11 := add_tag (add_tag r10 305 (ascii (m_software m))) 306 (ascii (m_now m))).
  assert (R11 : good (k + 7) r11 /\ forall t, In t layout_tags -> bt_get t r11 = bt_get t r2).
  { split.
    - replace (k + 7)%nat with (S (S (k + 5))) by lia. apply good_add; [|u16|exact N5]. apply good_add; [exact G11|u16|exact N4].
    - intros t Ht. unfold r11. rewrite !get_add, !(layout_neq t) by (assumption || reflexivity). now apply L11. }
  destruct R11 as [G12 L12].
  eexists _, more. split; [reflexivity|]. cbn [s_buf s_root s_exif s_subs]. split; [exact EB|]. split; [eapply good_more; [exact G12|unfold k; lia]|].
  split; [reflexivity|].
  assert (GX : good 41 exif).
  { change 41%nat with (1 + length exif_tags)%nat. apply good_transfer; [|intros t v _; apply (mo_exif m HM)|].
    - intros t Ht. unfold exif_tags in Ht. cbn [In] in Ht. repeat (destruct Ht as [<-|Ht]; [u16|]). destruct Ht.
    - change (s_exif session_new) with (add_tag [] 36864 (VUndef [48; 50; 50; 48])). apply (good_add 0); [apply good_nil|u16|].
      split; [split; [repeat constructor; unfold urange; lia|cbn; lia]|]. split; [cbn; lia|exact I]. }
  assert (X1 : bt_get 36864 exif = Some (VUndef [48; 50; 50; 48])).
  { unfold exif. rewrite get_transfer; [reflexivity|]. unfold exif_tags. cbn [In]. lia. }
  assert (X2 : bt_get 259 exif = None).
  { unfold exif. rewrite get_transfer; [reflexivity|]. unfold exif_tags. cbn [In]. lia. }
  split; [destruct (m_safety m); [now apply good_filter|exact GX]|]. split.
  { destruct (m_safety m); [|intros X; rewrite X in X1; discriminate]. intros X.
    assert (Hin : In (36864, VUndef [48; 50; 50; 48]) (filter (fun e : Z * value => negb (fst e =? 37500)) exif)).
    { apply filter_In. split; [|reflexivity]. apply bt_get_in; [apply GX|exact X1]. }
    rewrite X in Hin. destruct Hin. }
  split; [destruct (m_safety m); [now apply get_filter|exact X2]|]. split.
  - intros t Ht Hn. rewrite L12 by exact Ht. now apply L3.
  - rewrite L12 by (apply inb; reflexivity). exact P3.
Qed.

(** ** The whole file *)
(** tags are never removed from the root directory *)
Lemma ok_root s s' : Ok s = Ok s' -> s_root s = s_root s'.
Proof. congruence. Qed.
Lemma has_add t d k v : bt_get t d <> None -> bt_get t (add_tag d k v) <> None.
Proof. intros H. rewrite get_add. destruct (t =? k); [discriminate|exact H]. Qed.
Lemma has_add_all t l : forall d, bt_get t d <> None -> bt_get t (add_all d l) <> None.
Proof. induction l as [|[k v] l IH]; intros d H; [exact H|]. apply IH, has_add, H. Qed.
Lemma has_copy t l : forall d, bt_get t d <> None -> bt_get t (copy_tags d l) <> None.
Proof. induction l as [|[k v] l IH]; intros d H; [exact H|]. apply IH. cbn [fst snd]. destruct (bt_get k d); [exact H|now apply has_add]. Qed.
Lemma has_transfer t g l : forall d, bt_get t d <> None -> bt_get t (transfer g l d) <> None.
Proof. induction l as [|k l IH]; intros d H; [exact H|]. cbn [transfer fold_left]. apply IH. destruct (g k); [now apply has_add|exact H]. Qed.
Lemma raw_has t p m img s s' : put_raw p m img s = Ok s' -> bt_get t (s_root s) <> None -> bt_get t (s_root s') <> None.
Proof.
  unfold put_raw. intros E H. destruct (if has_colour img then wb_check img else Ok tt); [cbn [bind] in E|discriminate|discriminate].
  destruct (raw_dir p img (s_buf s)) as [[tags buf]| |]; [cbn [bind] in E|discriminate|discriminate].
  assert (R : bt_get t (if has_colour img then add_all (if p_thumb p then s_root s else add_tag (s_root s) 254 (VLong [0])) (colour_tags m)
    else if p_thumb p then s_root s else add_tag (s_root s) 254 (VLong [0])) <> None).
  { destruct (has_colour img), (p_thumb p); try apply has_add_all; try apply has_add; exact H. }
  destruct (p_thumb p).
  - destruct (dir_build _ 0 buf) as [[o b]| |]; [|discriminate|discriminate]. injection E as <-. exact R.
  - injection E as <-. cbn [s_root]. apply has_copy, has_add_all, R.
Qed.
Lemma pictures_has t p m s s' : put_pictures p m s = Ok s' -> bt_get t (s_root s) <> None -> bt_get t (s_root s') <> None.
Proof.
  unfold put_pictures. intros E H. destruct (m_pictures m) as [[[[pw ph] jp] [[tw th] rgb]]|]; [|injection E as <-; exact H].
  assert (X : exists s1, (if p_preview p then put_preview pw ph jp s else Ok s) = Ok s1 /\ bt_get t (s_root s1) <> None).
  { destruct (p_preview p); [|exists s; now split]. unfold put_preview in E |- *. destruct (dir_build _ 0 _) as [[o b]| |]; [|discriminate|discriminate].
    eexists. split; [reflexivity|exact H]. }
  destruct X as (s1 & E1 & H1). rewrite E1 in E. cbn [bind] in E. injection E as <-. destruct (p_thumb p); [|exact H1].
  unfold put_thumb. destruct (write_data (s_buf s1) rgb). cbn [s_root]. now apply has_add_all.
Qed.
Lemma metadata_has t m s s' : put_metadata m s = Ok s' -> bt_get t (s_root s) <> None -> bt_get t (s_root s') <> None.
Proof.
  unfold put_metadata. intros E H. set (r0 := transfer (m_exif m) [274; 306; 33432; 315] (s_root s)) in E.
  assert (R0 : bt_get t r0 <> None) by (now apply has_transfer).
  match type of E with bind ?x _ = _ => assert (X : exists b r, x = Ok (b, r) /\ bt_get t r <> None) end.
  { destruct (m_gps m) as [g|]; [|do 2 eexists; split; [reflexivity|exact R0]]. destruct (transfer g gps_tags []); [do 2 eexists; split; [reflexivity|exact R0]|].
    destruct (dir_build _ 0 (s_buf s)) as [[o b]| |]; [|discriminate|discriminate]. do 2 eexists. split; [reflexivity|now apply has_add]. }
  destruct X as (b & r & EX & HR). rewrite EX in E. cbn [bind] in E. apply ok_root in E. rewrite <- E. cbn [s_root].
  destruct (m_exif m 42034), (m_unique m); repeat apply has_add; exact HR.
Qed.
Lemma tags_has t m s s' : put_tags m s = Ok s' -> bt_get t (s_root s) <> None -> bt_get t (s_root s') <> None.
Proof.
  unfold put_tags. intros E H. match type of E with bind (put_metadata m ?x) _ = _ => destruct (put_metadata m x) as [s1| |] eqn:E1 end; [|discriminate|discriminate].
  cbn [bind] in E. apply (metadata_has t) in E1; [|now apply has_add_all]. apply ok_root in E. rewrite <- E. cbn [s_root]. do 2 apply has_add.
  assert (X : bt_get t (copy_tags (copy_tags (match bt_get 274 (s_root s1) with Some _ => s_root s1 | None => add_tag (s_root s1) 274 (VShort [m_orientation m]) end)
    (m_root_tags m)) (filter (fun e => existsb (Z.eqb (fst e)) [51043; 51044; 51058]) (m_cinema m))) <> None).
  { do 2 apply has_copy. destruct (bt_get 274 (s_root s1)); [exact E1|now apply has_add]. }
  destruct (m_xmp m), (m_original m) as [[[? ?] [?|]]|], (m_artist m); repeat apply has_add; exact X.
Qed.

Lemma convert_ok p m img : image_ok img -> params_ok p img -> cfa_aligned p img -> meta_ok m ->
  exists file, convert p m img = Ok file /\ (Z.of_nat (length file) < 2 ^ 32 ->
    exists off root, at_ file 0 ([73; 73; 42; 0] ++ le_bytes 4 off) /\ bt_get 50706 root <> None /\ 8 <= off < 2 ^ 32 /\ parse_header file 0 = Ok (LE, 42, off) /\ root <> [] /\ stored file off root /\
      (forall t v, In t pointers -> bt_get t root = Some v -> exists l, v = VLong l /\ forall o, In o l ->
         exists d, stored file o d /\ (not_raw d \/ forall bad, raw_entry p bad img file d)) /\
      ((forall bad, raw_entry p bad img file root) \/
       not_raw root /\ exists l o d, bt_get 330 root = Some (VLong l) /\ In o l /\ stored file o d /\ forall bad, raw_entry p bad img file d)).
Proof.
  intros HI HP HA HM. unfold convert.
  destruct (put_raw_ok p m img HI HP HA HM) as (s1 & m1 & E1 & B1 & G1 & X1 & P1 & R1). rewrite E1. cbn [bind].
  destruct (put_pictures_ok p m _ s1 HM G1) as (s2 & m2 & E2 & B2 & G2 & X2 & P2 & R2 & S2). rewrite E2. cbn [bind].
  assert (L2 : (8 <= length (s_buf s2))%nat) by (rewrite B2, B1, !app_length; change (length tiff_new) with 8%nat; lia).
  destruct (put_tags_ok m _ s2 HM G2) as (s3 & m3 & E3 & B3 & G3 & S3 & GX & NX & X3 & L3 & P3);
    [congruence|rewrite P2, P1 by (apply inb; reflexivity); reflexivity|exact L2|]. rewrite E3. cbn [bind].
  destruct (mo_tags m HM) as (_ & TL). rewrite !app_length in TL.
  unfold session_close. destruct (s_exif s3) as [|x0 xs] eqn:EXX; [contradiction|]. rewrite <- EXX in *.
  destruct (dir_step _ _ (s_buf s3) GX ltac:(lia) NX) as (ox & m4 & EB & RX & FX). rewrite EB. cbn [bind].
  set (r1 := add_tag (s_root s3) 34665 (VLong [ox])).
  assert (GR1 : exists k, good k r1 /\ (k + 1 <= 4096)%nat).
  { eexists. split; [apply good_add; [exact G3|u16|apply wv_long; [discriminate|cbn [length]; lia|constructor; [exact RX|constructor]]]|]. lia. }
  destruct GR1 as (k & GR1 & Hk).
  assert (SL : Forall (urange 32) (s_subs s2) /\ (length (s_subs s2) <= 2)%nat).
  { assert (A1 : Forall (urange 32) (s_subs s1) /\ (length (s_subs s1) <= 1)%nat).
    { destruct (p_thumb p); [destruct R1 as (_ & o & d & -> & Ho & _); split; [constructor; [exact Ho|constructor]|cbn; lia]|].
      destruct R1 as (-> & _). split; [constructor|cbn; lia]. }
    destruct S2 as [->|(o & d & -> & Ho & _)]; [split; [apply A1|lia]|]. rewrite app_length. split; [|cbn [length]; lia].
    apply Forall_app. split; [apply A1|constructor; [exact Ho|constructor]]. }
  set (root := match s_subs s3 with [] => r1 | y :: ys => add_tag r1 330 (VLong (y :: ys)) end).
  assert (GR : good (S k) root /\ (bt_get 330 root = match s_subs s3 with [] => None | l => Some (VLong l) end) /\
    (bt_get 34665 root = Some (VLong [ox])) /\ (forall t, In t layout_tags -> t <> 330 -> t <> 34665 -> bt_get t root = bt_get t (s_root s3))).
  { unfold root. rewrite S3. destruct (s_subs s2) as [|y ys] eqn:ES.
    - split; [eapply good_more; [exact GR1|lia]|]. unfold r1. rewrite !get_add. change (330 =? 34665) with false. change (34665 =? 34665) with true. cbv iota.
      split; [rewrite L3, P2, P1 by (try discriminate; apply inb; reflexivity); reflexivity|]. split; [reflexivity|].
      intros t Ht H1 H2. rewrite get_add. apply Z.eqb_neq in H2. now rewrite H2.
    - split; [apply good_add; [exact GR1|u16|]; apply wv_long; [discriminate|lia|apply SL]|]. unfold r1. rewrite !get_add. split; [reflexivity|]. split; [reflexivity|].
      intros t Ht H1 H2. rewrite !get_add. apply Z.eqb_neq in H1, H2. now rewrite H1, H2. }
  destruct GR as (GR & T330 & T665 & TO).
  assert (NR : root <> []) by (intros X; rewrite X in T665; discriminate).
  assert (BUF : s_buf s3 ++ m4 = tiff_new ++ (m1 ++ m2 ++ m3 ++ m4)) by (rewrite B3, B2, B1, <- !app_assoc; reflexivity).
  rewrite BUF. destruct GR as (GA & GW & GL).
  destruct (build_parsed (m1 ++ m2 ++ m3 ++ m4) root NR ltac:(lia) GW) as (file & EF & LF & KF & D).
  exists file. split; [exact EF|]. intros BF. destruct (D BF) as (off & HO & DA & AT & PH).
  assert (C4 : covers (s_buf s3 ++ m4) file) by (rewrite BUF; split; [exact KF|]; split; [exact LF|exact BF]).
  assert (C3 : covers (s_buf s3) file) by (now apply covers_pre in C4).
  assert (C2 : covers (s_buf s2) file) by (rewrite B3 in C3; now apply covers_pre in C3).
  assert (C1 : covers (s_buf s1) file) by (rewrite B2 in C2; now apply covers_pre in C2).
  assert (L1 : (8 <= length (s_buf s1))%nat) by (rewrite B1, !app_length; change (length tiff_new) with 8%nat; lia).
  exists off, root. split; [exact AT|]. split.
  { assert (V : bt_get 50706 (s_root s3) <> None) by (eapply tags_has; [exact E3|]; eapply pictures_has; [exact E2|]; eapply raw_has; [exact E1|]; vm_compute; discriminate).
    unfold root, r1. destruct (s_subs s3); repeat apply has_add; exact V. }
  split; [exact HO|]. split; [exact PH|]. split; [exact NR|]. split; [split; assumption|].
  assert (SUBS : forall o, In o (s_subs s3) -> exists d, stored file o d /\ (not_raw d \/ forall bad, raw_entry p bad img file d)).
  { rewrite S3. assert (A1 : forall o, In o (s_subs s1) -> exists d, stored file o d /\ (not_raw d \/ forall bad, raw_entry p bad img file d)).
    { intros o Ho. destruct (p_thumb p); [|destruct R1 as (E & _); rewrite E in Ho; destruct Ho].
      destruct R1 as (_ & o' & d & E & _ & F). rewrite E in Ho. destruct Ho as [<-|[]]. destruct (F file C1) as (F1 & F2). exists d. split; [exact F1|now right]. }
    destruct S2 as [->|(o' & d & -> & Ho & Hd & F)]; [exact A1|]. intros o Hin. apply in_app_iff in Hin. destruct Hin as [Hin|[<-|[]]]; [now apply A1|].
    exists d. split; [now apply F|now left]. }
  split.
  - intros t v Ht Hv. cbn [pointers In] in Ht. destruct Ht as [<-|[<-|[<-|[<-|[]]]]].
    + rewrite T330 in Hv. destruct (s_subs s3) as [|y ys]; [discriminate|]. injection Hv as <-. eexists. split; [reflexivity|exact SUBS].
    + rewrite T665 in Hv. injection Hv as <-. eexists. split; [reflexivity|]. intros o [<-|[]]. exists (s_exif s3). split; [|left; now left].
      destruct C4 as (K & L & B). apply (FX file 8 K); [rewrite B3, app_length; lia|lia].
    + rewrite TO, L3, P2, P1 in Hv by (try discriminate; apply inb; reflexivity). discriminate.
    + rewrite TO in Hv by (try discriminate; apply inb; reflexivity). destruct P3 as [P3|(og & d & P3 & D9 & F)]; [rewrite P3 in Hv; discriminate|].
      rewrite P3 in Hv. injection Hv as <-. eexists. split; [reflexivity|]. intros o [<-|[]]. exists d. split; [now apply F|left; now left].
  - destruct (p_thumb p).
    + right. destruct R1 as (N9 & o & d & E & Ho & F). split.
      * destruct (R2 N9) as [X|X]; [left|right]; rewrite TO, L3 by (try discriminate; apply inb; reflexivity); exact X.
      * destruct (F file C1) as (F1 & F2).
        assert (Hin : In o (s_subs s3)) by (rewrite S3; destruct S2 as [->|(? & ? & -> & _)]; rewrite E; now left).
        destruct (s_subs s3) as [|y ys]; [destruct Hin|]. exists (y :: ys), o, d. auto.
    + left. destruct R1 as (_ & F). intros bad. destruct (F file C1 bad) as (F1 & F2 & F3 & F4). rewrite <- R2 in F1, F2, F3, F4.
      assert (EQ : forall t, In t picture_tags -> bt_get t root = bt_get t (s_root s2)).
      { intros t Ht. destruct (picture_layout t Ht) as (Q1 & Q2 & Q3). cbn [pointers In] in Q3. rewrite TO, L3 by (exact Q1 || lia). reflexivity. }
      split; [rewrite TO, L3 by (try discriminate; apply inb; reflexivity); exact F1|].
      split; [rewrite EQ by (apply inb; reflexivity); exact F2|]. split.
      * intros t v Ht. rewrite EQ by exact Ht. now apply F3.
      * eapply raw_reads_ext; [|exact F4]. intros t Ht. symmetry. now apply EQ.
Qed.

(** ** Reading it *)
Lemma tag_values es d t : values es = read_all d -> tag es t = option_map as_read (bt_get t d).
Proof. intros V. unfold tag. now rewrite <- values_get, V, read_all_get. Qed.

Definition wanted (i : ifd) : bool :=
  let es := i_entries i in
  let c := match tag es 259 with Some v => f32 v 0 | None => 0 end in
  let subsampled := match tag es 254 with Some v => Z.odd (f32 v 0) | None => false end in
  negb subsampled && existsb (Z.eqb c) [7; 8; 1; 34892; 52546].
Lemma not_raw_dropped i d : values (i_entries i) = read_all d -> not_raw d -> has (i_entries i) 259 && wanted i = false.
Proof.
  intros V [H|H]; unfold has, wanted; rewrite !(tag_values _ _ _ V), H; cbn [option_map as_read]; [reflexivity|].
  change (Z.odd (f32 (VLong [1]) 0)) with true. cbn [negb andb]. apply andb_false_r.
Qed.
Lemma raw_kept p bad img file i d : values (i_entries i) = read_all d -> raw_entry p bad img file d ->
  has (i_entries i) 259 && wanted i = true /\ forall t, In t picture_tags -> tag (i_entries i) t = bt_get t d.
Proof.
  intros V (E1 & E2 & E3 & _). split.
  - unfold has, wanted. rewrite !(tag_values _ _ _ V), E1, E2. cbn [option_map as_read]. destruct (p_lossless p); reflexivity.
  - intros t Ht. rewrite (tag_values _ _ _ V). destruct (bt_get t d) as [v|] eqn:E; [|reflexivity]. cbn [option_map]. f_equal. now apply (E3 t).
Qed.

Lemma find_in (t : Z) i order (j : ifd) : In j (find_ifds t [(i, order)]) <->
  has (i_entries j) t = true /\ (j = i \/ exists tg js, In (tg, js) order /\ In j js).
Proof.
  unfold find_ifds. cbn [flat_map]. rewrite app_nil_r, in_app_iff, filter_In, in_flat_map. split.
  - intros [[[<-|[]] H]|([tg js] & Hin & H)]; [now split; [|left]|]. apply filter_In in H. split; [apply H|]. right. exists tg, js. split; [exact Hin|apply H].
  - intros [H [->|(tg & js & Hin & Hj)]]; [left; now split; [left|]|]. right. exists (tg, js). split; [exact Hin|]. now apply filter_In.
Qed.

Lemma file_reads p m img : image_ok img -> params_ok p img -> cfa_aligned p img -> meta_ok m ->
  exists file, convert p m img = Ok file /\ (Z.of_nat (length file) < 2 ^ 32 -> forall lost fuel,
    exists i, parse_file (S fuel) lost file 0 0 0 None [] = Some (Ok [i]) /\
      (exists off, 0 < off < Z.of_nat (length file) /\ at_ file 0 ([73; 73; 42; 0] ++ le_bytes 4 off)) /\ tag (i_entries i) 50706 <> None /\
      forall order bad, Permutation order (i_sub i) ->
        exists L, raw_reads p bad img file L /\
          exists j, get_raw_ifd [(i, order)] = Ok j /\ forall t, In t picture_tags -> tag (i_entries j) t = L t).
Proof.
  intros HI HP HA HM. destruct (convert_ok p m img HI HP HA HM) as (file & E & H). exists file. split; [exact E|]. intros B lost fuel.
  destruct (H B) as (off & root & AT & VER & HO & PH & NR & (DR & AR) & PT & RAW).
  destruct (ifd_new_exact lost LE file off root 0 wellknown_subs DR AR) as (i & Ei & V & N & S1 & S2).
  { intros t v Hin Ht. apply bt_get_in in Hin; [|exact AR]. destruct (PT t v (pointers_subs t Ht) Hin) as (l & -> & F). exists l. split; [reflexivity|].
    intros o Ho. destruct (F o Ho) as (d & (D1 & D2) & _). exists d, 0. now split. }
  exists i. split; [eapply parse_one; eassumption|]. split; [exists off; split; [pose proof DR as (_ & _ & _ & _ & D5 & _); apply at_len in D5; rewrite enc_length in D5; lia|exact AT]|].
  split; [rewrite (tag_values _ _ _ V); destruct (bt_get 50706 root); [discriminate|contradiction]|]. intros order bad PERM.
  assert (LEAF : forall o d j, stored file o d -> ifd_leaf lost LE file o 0 0 = Ok j -> values (i_entries j) = read_all d).
  { intros o d j (D1 & D2) Ej. destruct (ifd_leaf_at lost LE file 0 0 o d 0 D1 D2) as (j' & Ej' & Vj & _). congruence. }
  assert (ALL : forall j, In j (find_ifds 259 [(i, order)]) -> wanted j = true ->
    exists d, raw_entry p bad img file d /\ values (i_entries j) = read_all d).
  { intros j Hj Wj. apply find_in in Hj. destruct Hj as [H9 [->|(tg & js & Hin & Hj)]].
    - destruct RAW as [RAW|(NRW & _)]; [exists root; now split|]. pose proof (not_raw_dropped _ _ V NRW) as X. rewrite H9, Wj in X. discriminate.
    - apply (Permutation_in _ PERM) in Hin. destruct (S1 tg js Hin) as (l & Hl & Hs & F). apply bt_get_in in Hl; [|exact AR].
      destruct (PT tg _ (pointers_subs tg Hs) Hl) as (l' & [= <-] & FF).
      assert (X : exists o, In o l /\ ifd_leaf lost LE file o 0 0 = Ok j).
      { clear - F Hj. induction F; [destruct Hj|]. destruct Hj as [->|Hj]; [exists x; split; [now left|assumption]|]. destruct (IHF Hj) as (o & ? & ?). exists o. split; [now right|assumption]. }
      destruct X as (o & Ho & Eo). destruct (FF o Ho) as (d & ST & [NW|RW]); pose proof (LEAF o d j ST Eo) as Vj.
      + pose proof (not_raw_dropped _ _ Vj NW) as X. rewrite H9, Wj in X. discriminate.
      + exists d. split; [apply RW|exact Vj]. }
  assert (ONE : exists j, In j (find_ifds 259 [(i, order)]) /\ wanted j = true).
  { destruct RAW as [RAW|(_ & l & o & d & G & Ho & ST & RW)].
    - exists i. destruct (raw_kept _ _ _ _ _ _ V (RAW bad)) as (K & _). apply andb_prop in K. split; [|apply K]. apply find_in. split; [apply K|now left].
    - assert (Hl : In (330, VLong l) root) by (apply bt_get_in; assumption).
      destruct (S2 330 l Hl ltac:(apply inb; reflexivity)) as (js & Hjs & F).
      assert (X : exists j, In j js /\ ifd_leaf lost LE file o 0 0 = Ok j).
      { clear - F Ho. induction F; [destruct Ho|]. destruct Ho as [->|Ho]; [exists y; split; [now left|assumption]|]. destruct (IHF Ho) as (j & ? & ?). exists j. split; [now right|assumption]. }
      destruct X as (j & Hj & Ej). pose proof (LEAF o d j ST Ej) as Vj. destruct (raw_kept _ _ _ _ _ _ Vj (RW bad)) as (K & _). apply andb_prop in K.
      exists j. split; [|apply K]. apply find_in. split; [apply K|]. right. exists 330, js. split; [|exact Hj]. eapply Permutation_in; [apply Permutation_sym; exact PERM|exact Hjs]. }
  change (get_raw_ifd [(i, order)]) with (match filter wanted (find_ifds 259 [(i, order)]) with j :: _ => Ok j | [] => Err end).
  destruct (filter wanted (find_ifds 259 [(i, order)])) as [|j js] eqn:EF.
  - exfalso. destruct ONE as (j & J1 & J2). assert (X : In j (filter wanted (find_ifds 259 [(i, order)]))) by (now apply filter_In). rewrite EF in X. destruct X.
  - assert (X : In j (filter wanted (find_ifds 259 [(i, order)]))) by (rewrite EF; now left). apply filter_In in X. destruct X as [J1 J2].
    destruct (ALL j J1 J2) as (d & RD & Vj). exists (fun t => bt_get t d). split; [apply RD|]. exists j. split; [reflexivity|].
    apply (raw_kept _ _ _ _ _ _ Vj RD).
Qed.

Lemma file_roundtrip p m img :
  image_ok img -> params_ok p img -> cfa_aligned p img -> meta_ok m -> d_photo img <> PBlack ->
  exists file, convert p m img = Ok file /\ (Z.of_nat (length file) < 2 ^ 32 -> forall lost fuel,
    exists i, parse_file (S fuel) lost file 0 0 0 None [] = Some (Ok [i]) /\
      forall order bad, Permutation order (i_sub i) ->
        exists x, raw_start bad file [(i, order)] = Some (Ok x) /\
          (exists sched, ended (prun 0 sched (l_state (fst x)))) /\
          forall sched, ended (prun 0 sched (l_state (fst x))) ->
            exists out, raw_finish sched x = Ok out /\ same_image p bad img out).
Proof.
  intros HI HP HA HM HN. destruct (file_reads p m img HI HP HA HM) as (file & E & H). exists file. split; [exact E|]. intros B lost fuel.
  destruct (H B lost fuel) as (i & Ei & _ & _ & R). exists i. split; [exact Ei|]. intros order bad PERM. destruct (R order bad PERM) as (L & RR & j & Ej & T).
  pose proof (RR _ _ Ej T) as X. destruct (d_photo img); [contradiction|exact X|exact X].
Qed.
Lemma file_monochrome p m img :
  image_ok img -> params_ok p img -> meta_ok m -> d_photo img = PBlack ->
  exists file, convert p m img = Ok file /\ (Z.of_nat (length file) < 2 ^ 32 -> forall lost fuel,
    exists i, parse_file (S fuel) lost file 0 0 0 None [] = Some (Ok [i]) /\
      forall order bad, Permutation order (i_sub i) -> raw_start bad file [(i, order)] = Some Err).
Proof.
  intros HI HP HM HN. assert (HA : cfa_aligned p img) by (unfold cfa_aligned; rewrite HN; exact I).
  destruct (file_reads p m img HI HP HA HM) as (file & E & H). exists file. split; [exact E|]. intros B lost fuel.
  destruct (H B lost fuel) as (i & Ei & _ & _ & R). exists i. split; [exact Ei|]. intros order bad PERM. destruct (R order bad PERM) as (L & RR & j & Ej & T).
  pose proof (RR _ _ Ej T) as X. rewrite HN in X. exact X.
Qed.
Lemma planes_panic p m img : d_photo img = PLinear -> (1 < d_cpp img)%nat -> d_cpp img <> 3%nat -> convert p m img = Panic.
Proof.
  intros HP H1 H3. unfold convert, put_raw, has_colour, wb_check. rewrite HP. replace (1 <? d_cpp img)%nat with true by (symmetry; now apply Nat.ltb_lt).
  cbn [orb existsb]. replace (d_cpp img =? 1)%nat with false by (symmetry; apply Nat.eqb_neq; lia). apply Nat.eqb_neq in H3. rewrite H3. reflexivity.
Qed.
