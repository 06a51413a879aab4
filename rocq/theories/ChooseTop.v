From Coq Require Import String Ascii List ZArith Bool Lia.
From Verif Require Import Base Tiff TiffSpec TiffBytes RawSource DngFile DngFileSpec DngFileTop Bmff BmffSpec BmffProofs BmffRead BmffTop Jfif JfifSpec JfifProofs Choose ChooseSpec ChooseProofs.
Import ListNotations.
Open Scope Z_scope.

(** ** Tags *)
Lemma chain_none t chain : chain_tag chain t = None <-> Forall (lacks t) chain.
Proof.
  induction chain as [|i c IH]; cbn [chain_tag]; [split; [constructor|reflexivity]|]. unfold lacks at 1.
  destruct (tag (i_entries i) t) eqn:E; split; intros H; try discriminate.
  - inversion H as [|? ? X _]; subst. unfold lacks in X. congruence.
  - constructor; [exact E|now apply IH].
  - inversion H; subst. now apply IH.
Qed.
Lemma chain_some t v chain : chain_tag chain t = Some v <-> found chain t v.
Proof.
  induction chain as [|i c IH]; cbn [chain_tag].
  - split; [discriminate|]. intros (l & j & r & E & _). destruct l; discriminate.
  - destruct (tag (i_entries i) t) as [w|] eqn:E; split.
    + intros [= ->]. exists [], i, c. repeat split; [constructor|exact E].
    + intros (l & j & r & EQ & F & V). destruct l as [|k l]; cbn in EQ; injection EQ as -> ->; [congruence|].
      inversion F as [|? ? X _]; subst. unfold lacks in X. congruence.
    + intros H. apply IH in H. destruct H as (l & j & r & -> & F & V). exists (i :: l), j, r. repeat split; [constructor; [exact E|exact F]|exact V].
    + intros (l & j & r & EQ & F & V). destruct l as [|k l]; cbn in EQ; injection EQ as -> ->; [congruence|].
      apply IH. exists l, j, r. inversion F; subst. repeat split; assumption.
Qed.
Lemma says_spec t s chain : str (chain_tag chain t) = Some s <-> says chain t s.
Proof.
  unfold says. split.
  - destruct (chain_tag chain t) as [v|] eqn:E; [|discriminate]. cbn [str]. destruct v; try discriminate. cbn [as_string]. destruct ss as [|x ss]; [discriminate|].
    intros [= ->]. exists ss, plain. now apply chain_some.
  - intros (ss & plain & F). apply chain_some in F. rewrite F. reflexivity.
Qed.
Lemma str_is_spec o s : str_is o s = true <-> o = Some s.
Proof. destruct o as [x|]; cbn [str_is]; [rewrite bytes_eqb_spec|]; split; congruence. Qed.
Lemma str_is_not o s : o <> Some s -> str_is o s = false.
Proof. intros H. destruct (str_is o s) eqn:E; [apply str_is_spec in E; contradiction|reflexivity]. Qed.

Lemma table_makers : make_table = map (fun x => (text (fst x), snd x)) makers.
Proof. vm_compute. reflexivity. Qed.
Lemma makers_text name d : In (name, d) makers -> Forall (fun c => 0 <= c < 128) (text name) /\ ~ white (last (text name) 0) /\ make_decoder (text name) = Some d.
Proof.
  intros H. assert (X : forallb (fun x => forallb (fun c => (0 <=? c) && (c <? 128)) (text (fst x)) && negb (whiteb (last (text (fst x)) 0))) makers = true) by (vm_compute; reflexivity).
  rewrite forallb_forall in X. specialize (X _ H). cbn [fst] in X. apply andb_prop in X. destruct X as [X1 X2]. split; [|split].
  - apply Forall_forall. intros c Hc. rewrite forallb_forall in X1. specialize (X1 _ Hc). lia.
  - intros W. apply whiteb_spec in W. rewrite W in X2. discriminate.
  - assert (F : Forall (fun x => make_decoder (text (fst x)) = Some (snd x)) makers) by (unfold makers; repeat (apply Forall_cons; [vm_compute; reflexivity|]); apply Forall_nil).
    rewrite Forall_forall in F. exact (F _ H).
Qed.
Lemma no_maker s : (forall name d, In (name, d) makers -> s <> text name) -> make_decoder s = None.
Proof.
  intros H. unfold make_decoder. rewrite table_makers.
  assert (G : forall l, (forall name d, In (name, d) l -> s <> text name) -> option_map snd (find (fun x => bytes_eqb (fst x) s) (map (fun x : string * decoder => (text (fst x), snd x)) l)) = None).
  { induction l as [|[n d] l IH]; intros HH; [reflexivity|]. cbn [map find fst snd]. destruct (bytes_eqb (text n) s) eqn:E.
    - apply bytes_eqb_spec in E. exfalso. apply (HH n d); [now left|now symmetry].
    - apply IH. intros n' d' Hin. apply (HH n' d'). now right. }
  now apply G.
Qed.

Lemma kind_ok chain d : tiff_kind chain d -> tiff_decoder chain = Ok (Some d).
Proof.
  change (text "DCS560C") with DCS560C. intros [v H|H1 H2|s name d' H1 H2 H3 H4 H5|H1 H2 H3 H4]; unfold tiff_decoder.
  - apply chain_some in H. now rewrite H.
  - apply chain_none in H1. rewrite H1. apply says_spec in H2. rewrite H2. reflexivity.
  - apply chain_none in H1. rewrite H1, str_is_not by (intros X; apply H2; now apply says_spec). apply says_spec in H3. rewrite H3.
    destruct (makers_text _ _ H4) as (T1 & T2 & T3). now rewrite (trim_named _ _ H5 T1 T2), T3.
  - apply chain_none in H1. rewrite H1, str_is_not by (intros X; apply H2; now apply says_spec).
    destruct (str (chain_tag chain 271)) as [s|] eqn:E; [apply says_spec in E; destruct (H3 _ E)|]. apply says_spec in H4. now rewrite H4.
Qed.
Lemma unknown_err chain : unknown_make chain -> tiff_decoder chain = Err.
Proof.
  change (text "DCS560C") with DCS560C. intros (H1 & H2 & cs & ws & H3 & H4 & H5 & H6 & H7). unfold tiff_decoder.
  apply chain_none in H1. rewrite H1, str_is_not by (intros X; apply H2; now apply says_spec). apply says_spec in H3. rewrite H3.
  rewrite trim_text by (assumption || now right). now rewrite (no_maker _ H7).
Qed.
Lemma silent_none chain : silent chain -> tiff_decoder chain = Ok None.
Proof.
  change (text "DCS560C") with DCS560C. change (text "Camera Library") with CAMERA_LIBRARY. intros (H1 & H2 & H3 & H4). unfold tiff_decoder.
  apply chain_none in H1. rewrite H1, str_is_not by (intros X; apply H2; now apply says_spec).
  destruct (str (chain_tag chain 271)) as [s|] eqn:E; [apply says_spec in E; destruct (H3 _ E)|].
  rewrite str_is_not by (intros X; apply H4; now apply says_spec). reflexivity.
Qed.

(** ** Signatures *)
Ltac differs i := apply (bytes_at_false _ _ _ i); [lia|cbn; lia|cbn [Z.to_nat Pos.to_nat Pos.iter_op Nat.add nth]].
Lemma first_byte file sig b rest : at_ file 0 (b :: rest) -> hd 0 sig <> b -> sig <> [] -> bytes_at file 0 sig = false.
Proof.
  intros A H N. destruct sig as [|c sig]; [contradiction|]. apply (bytes_at_false _ _ _ 0); [lia|cbn; lia|].
  rewrite (at_nth file 0 (b :: rest) 0 A) by (cbn; lia). cbn in *. congruence.
Qed.
Ltac bytes_in A := match type of A with at_ _ _ ?s => let s' := eval vm_compute in s in change s with s' in A end.
Ltac no_sig A := rewrite (first_byte _ _ _ _ A) by (vm_compute; discriminate).
Ltac yes_sig A := rewrite (proj2 (bytes_at_spec _ 0 _ (Z.le_refl 0)) A).
Lemma magic_ok cmt naked fuel lost file sig d : In (sig, d) magics -> at_ file 0 sig -> get_decoder cmt naked fuel lost file = Some (Ok d).
Proof.
  intros H A. unfold get_decoder, is_mrw, is_raf, is_ari, is_qtk. unfold magics in H. cbn [In] in H.
  destruct H as [E|[E|[E|[E|[E|[]]]]]]; injection E as <- <-; bytes_in A.
  - yes_sig A. reflexivity.
  - no_sig A. yes_sig A. reflexivity.
  - no_sig A. no_sig A. yes_sig A. reflexivity.
  - no_sig A. no_sig A. no_sig A. yes_sig A. reflexivity.
  - no_sig A. no_sig A. no_sig A. yes_sig A. rewrite orb_true_r. reflexivity.
Qed.

(** no signature of the first group is at the start *)
Lemma not_first file b rest : at_ file 0 (b :: rest) -> ~ In b [0; 70; 65; 113] ->
  is_mrw file = false /\ is_raf file = false /\ is_ari file = false /\ is_qtk file = false /\ is_x3f file = false.
Proof.
  intros A H. cbn [In] in H. unfold is_mrw, is_raf, is_ari, is_qtk, is_x3f.
  repeat match goal with |- context [bytes_at file 0 ?s] => rewrite (first_byte file s b rest A) by (cbn [hd]; lia || discriminate) end. repeat split.
Qed.
Lemma is_exif_eq file : is_exif file = bytes_at file 0 [0xFF; 0xD8; 0xFF; 0xE1].
Proof. reflexivity. Qed.
Lemma not_exif file b rest fuel lost : at_ file 0 (b :: rest) -> b <> 255 -> jpeg_decoder fuel lost file = Some (Ok None).
Proof. intros A H. unfold jpeg_decoder. rewrite is_exif_eq, (first_byte file _ b rest A) by (cbn [hd]; lia || discriminate). reflexivity. Qed.
Lemma ciff_ok cmt naked fuel lost file : (at_ file 0 (text "II") \/ at_ file 0 (text "MM")) -> at_ file 6 (text "HEAPCCDR") ->
  get_decoder cmt naked fuel lost file = Some (Ok DCrw).
Proof.
  intros H A. unfold get_decoder. assert (X : exists b rest, at_ file 0 (b :: rest) /\ ~ In b [0; 70; 65; 113]).
  { destruct H as [H|H]; do 2 eexists; (split; [exact H|vm_compute; lia]). }
  bytes_in A. destruct X as (b & rest & B & N). destruct (not_first _ _ _ B N) as (-> & -> & -> & -> & _).
  unfold is_ciff. rewrite (proj2 (bytes_at_spec file 6 _ ltac:(lia)) A). reflexivity.
Qed.
Lemma x3f_ok cmt naked fuel lost file : at_ file 0 (text "FOVb") -> ~ at_ file 6 (text "HEAPCCDR") -> get_decoder cmt naked fuel lost file = Some (Ok DX3f).
Proof.
  intros A N. unfold get_decoder, is_mrw, is_raf, is_ari, is_qtk. bytes_in A.
  no_sig A. rewrite (bytes_at_false file 0 _ 1); [|lia|cbn; lia|]; [|rewrite (at_nth file 0 _ 1 A) by (cbn; lia); vm_compute; discriminate].
  do 3 no_sig A. cbn [orb]. unfold is_ciff. destruct (bytes_at file 6 _) eqn:E; [apply bytes_at_spec in E; [contradiction|lia]|].
  rewrite (not_exif file _ _ fuel lost A) by (vm_compute; discriminate). cbn [obind]. unfold is_x3f. yes_sig A. reflexivity.
Qed.

(** ** TIFF files *)
Lemma skip_box cmt file size typ fuel : at_ file 0 (be 4 size ++ be 4 typ) -> urange 32 size -> urange 32 typ -> size <> 1 ->
  typ <> 0x66747970 -> typ <> 0x6D6F6F76 -> typ <> 0x75756964 -> Z.of_nat (length file) <= size -> (3 <= fuel)%nat ->
  filebox_parse cmt file fuel = Some Err.
Proof.
  intros H Hs Ht S1 N1 N2 N3 Big Hf. pose proof (at_len _ _ _ H) as L. rewrite app_length in L. unfold be in L. rewrite !enc_length in L.
  apply at_app in H. destruct H as [H1 H2]. unfold be in H2 at 1. rewrite enc_length in H2.
  destruct fuel as [|[|fuel]]; [lia|lia|]. unfold filebox_parse. rewrite read_kids_S.
  destruct (Z.ltb_spec 0 (Z.of_nat (length file))) as [_|C]; [|lia].
  unfold header_parse. rewrite (rd_be4 file 0 size Hs H1). cbn [bind]. rewrite (rd_be4 file (0 + 4) typ Ht) by exact H2. cbn [bind].
  destruct (Z.eqb_spec size 1); [contradiction|]. cbn [bind]. change uuid_ with 0x75756964. destruct (Z.eqb_spec typ 0x75756964); [contradiction|]. cbn [bind obind h_typ h_uuid].
  unfold kid_kind. change ftyp with 0x66747970. change moov with 0x6D6F6F76. destruct (Z.eqb_spec typ 0x66747970); [contradiction|]. destruct (Z.eqb_spec typ 0x6D6F6F76); [contradiction|].
  cbn [is_stsd andb negb assert_ obind]. rewrite read_box_S. cbn [field_len obind].
  assert (R : rd file (0 + 8) 0 = Ok []). { unfold rd. destruct (Z.leb_spec (0 + 8 + 0) (Z.of_nat (length file))); [reflexivity|lia]. }
  rewrite R. cbn [obind field_check]. unfold end_offset, add_u64. cbn [h_off h_size]. rewrite Z.add_0_l.
  destruct (Z.ltb_spec size (2 ^ 64)); [|unfold urange in Hs; lia]. cbn [obind container is_file andb].
  destruct (Z.eqb_spec size 0); [lia|]. destruct fuel as [|fuel]; [lia|]. rewrite read_kids_S. destruct (Z.ltb_spec size (Z.of_nat (length file))); [lia|].
  cbn [obind app required forallb has_kid existsb n_typ n_hdr h_typ]. unfold has_kid. cbn [existsb n_typ n_hdr h_typ]. change ftyp with 0x66747970.
  destruct (Z.eqb_spec typ 0x66747970); [contradiction|]. reflexivity.
Qed.
Lemma be_of_bytes a b c d : Forall (urange 8) [a; b; c; d] -> [a; b; c; d] = be 4 (((a * 256 + b) * 256 + c) * 256 + d) /\ urange 32 (((a * 256 + b) * 256 + c) * 256 + d).
Proof.
  intros H. pose proof (enc_dec BE [a; b; c; d] H) as E. assert (D : dec BE [a; b; c; d] = ((a * 256 + b) * 256 + c) * 256 + d) by (unfold dec; cbn [rev app from_le]; lia).
  rewrite D in E. split; [symmetry; exact E|]. pose proof (dec_range BE _ H) as R. rewrite D in R. exact R.
Qed.
Lemma enc4_bytes e v : 0 <= v -> exists a b c d, enc e 4 v = [a; b; c; d] /\ Forall (urange 8) [a; b; c; d] /\
  match e with LE => ((d * 256 + c) * 256 + b) * 256 + a | BE => ((a * 256 + b) * 256 + c) * 256 + d end = v mod 2 ^ 32.
Proof.
  intros Hv. assert (F : Forall (urange 8) (enc e 4 v)).
  { destruct e; [|apply Forall_rev]; apply le_bytes_byte. }
  pose proof (dec_enc_mod e 4 v) as D. pose proof (enc_length e 4 v) as L. destruct (enc e 4 v) as [|a [|b [|c [|d [|? ?]]]]]; try discriminate.
  exists a, b, c, d. split; [reflexivity|]. split; [exact F|]. change (2 ^ (8 * Z.of_nat 4)) with (2 ^ 32) in D. rewrite <- D. destruct e; unfold dec; cbn [rev app from_le]; lia.
Qed.
Lemma header_first e m off : exists rest, tiff_header e m off = (match e with LE => 73 | BE => 77 end) :: rest.
Proof. unfold tiff_header. destruct e; eexists; reflexivity. Qed.

Lemma tiff_bytes e m off : tiff_magic m -> 0 <= off < 2 ^ 30 -> exists size typ, tiff_header e m off = be 4 size ++ be 4 typ /\
  2 ^ 30 <= size /\ urange 32 size /\ urange 32 typ /\ typ <> 0x66747970 /\ typ <> 0x6D6F6F76 /\ typ <> 0x75756964.
Proof.
  intros Hm Ho. destruct (enc4_bytes e off ltac:(lia)) as (a & b & c & d & E & F & V). unfold tiff_header. rewrite E.
  rewrite Z.mod_small in V by lia.
  destruct (be_of_bytes a b c d F) as (EB & UB). rewrite EB.
  assert (X : exists size, (match e with LE => text "II" | BE => text "MM" end) ++ enc e 2 m = be 4 size /\ 2 ^ 30 <= size /\ urange 32 size).
  { unfold tiff_magic in Hm. cbn [In] in Hm.
    destruct e; destruct Hm as [<-|[<-|[<-|[<-|[]]]]];
      match goal with |- context [?l ++ enc ?o 2 ?v] => let s := eval vm_compute in (dec BE (l ++ enc o 2 v)) in exists s end; (split; [vm_compute; reflexivity|unfold urange; lia]). }
  destruct X as (size & ES & U). exists size, (((a * 256 + b) * 256 + c) * 256 + d). split; [rewrite app_assoc, ES; reflexivity|].
  repeat match goal with H : Forall _ (_ :: _) |- _ => inversion H; subst; clear H end. unfold urange in *. destruct e; lia.
Qed.

Lemma tiff_start cmt naked fuel lost e file : tiff_file e file -> (3 <= fuel)%nat ->
  get_decoder cmt naked fuel lost file =
  match parse_file fuel lost file 0 0 0 None [] with
  | Some (Ok chain) => match tiff_decoder chain with Ok (Some d) => Some (Ok d) | Ok None => Some (naked_decoder naked file) | Err => Some Err | Panic => Some Panic end
  | Some Err => Some (naked_decoder naked file) | Some Panic => Some Panic | None => None end.
Proof.
  intros (m & off & A & Hm & Ho & HL & N) Hf. destruct (header_first e m off) as (rest & HE). pose proof A as A1. rewrite HE in A1.
  unfold get_decoder. destruct (not_first _ _ _ A1) as (-> & -> & -> & -> & X3); [destruct e; cbn [In]; lia|].
  unfold is_ciff. destruct (bytes_at file 6 _) eqn:E; [apply bytes_at_spec in E; [contradiction|lia]|].
  rewrite (not_exif file _ _ fuel lost A1) by (destruct e; lia). cbn [obind]. rewrite X3. unfold bmff_decoder.
  destruct (tiff_bytes e m off Hm Ho) as (size & typ & EQ & S1 & S2 & S3 & S4 & S5 & S6). rewrite EQ in A.
  rewrite (skip_box cmt file size typ fuel A S2 S3) by (assumption || lia). cbn [obind]. reflexivity.
Qed.
Lemma le_no_heap file m off : at_ file 0 (tiff_header LE m off) -> 0 <= off < 2 ^ 30 -> ~ at_ file 6 (text "HEAPCCDR").
Proof.
  intros A Ho B. destruct (enc4_bytes LE off ltac:(lia)) as (a & b & c & d & E & F & V). rewrite Z.mod_small in V by lia.
  unfold tiff_header in A. rewrite E in A. assert (L : length (enc LE 2 m) = 2%nat) by apply enc_length.
  destruct (enc LE 2 m) as [|m1 [|m2 [|? ?]]]; try discriminate.
  pose proof (at_nth file 0 _ 7 A ltac:(cbn; lia)) as N7. pose proof (at_nth file 6 _ 1 B ltac:(cbn; lia)) as M7.
  change (Z.to_nat 0 + 7)%nat with 7%nat in N7. change (Z.to_nat 6 + 1)%nat with 7%nat in M7. rewrite M7 in N7. change (69 = d) in N7.
  repeat match goal with H : Forall _ (_ :: _) |- _ => inversion H; subst; clear H end. unfold urange in *. lia.
Qed.
Lemma converted_dng cmt naked p m img : image_ok img -> params_ok p img -> cfa_aligned p img -> meta_ok m ->
  exists file, convert p m img = Ok file /\ (Z.of_nat (length file) < 2 ^ 30 -> forall lost fuel, (3 <= fuel)%nat ->
    get_decoder cmt naked fuel lost file = Some (Ok DDng)).
Proof.
  intros HI HP HA HM. destruct (file_reads p m img HI HP HA HM) as (file & E & H). exists file. split; [exact E|]. intros B lost fuel Hf.
  destruct fuel as [|fuel]; [lia|]. destruct (H ltac:(lia) lost fuel) as (i & Ei & (off & Ho & AT) & V & _).
  assert (A : at_ file 0 (tiff_header LE 42 off)) by exact AT.
  assert (T : tiff_file LE file) by (exists 42, off; split; [exact A|]; split; [now left|]; split; [lia|]; split; [lia|]; eapply le_no_heap; [exact A|lia]).
  rewrite (tiff_start cmt naked (S fuel) lost LE file T Hf), Ei. unfold tiff_decoder. cbn [chain_tag]. destruct (tag (i_entries i) 50706); [reflexivity|contradiction].
Qed.

(** ** CR3 and JPEG *)
Lemma brand_listed f major minor brands b : f = be 4 major ++ be 4 minor ++ flat_map (be 4) brands -> Forall (urange 32) brands -> In b brands ->
  existsb (Z.eqb b) (Bmff.brands (Node (mk_bhdr 0 0 None 0 0) f [])) = true.
Proof.
  intros E U H. apply in_split in H. destruct H as (l1 & l2 & ->). apply existsb_exists. exists b. split; [|apply Z.eqb_refl].
  assert (L : forall l, length (flat_map (be 4) l) = (4 * length l)%nat) by (induction l as [|x l IH]; [reflexivity|]; cbn [flat_map]; rewrite app_length, IH, be_length; cbn [length]; lia).
  unfold Bmff.brands. cbn [n_fields]. apply in_map_iff. exists (length l1). split.
  - apply (fld_be f (be 4 major ++ be 4 minor ++ flat_map (be 4) l1) (flat_map (be 4) l2) 4 b).
    + rewrite E, flat_map_app. cbn [flat_map]. now rewrite <- !app_assoc.
    + rewrite !app_length, !be_length, L. lia.
    + apply Forall_app in U. destruct U as [_ U]. inversion U; subst. unfold urange in *. cbn. lia.
  - apply in_seq. rewrite E, !app_length, !be_length, L, app_length. cbn [length].
    replace ((4 + (4 + 4 * (length l1 + S (length l2))) - 8) / 4)%nat with (length l1 + S (length l2))%nat; [lia|].
    replace (4 + (4 + 4 * (length l1 + S (length l2))) - 8)%nat with ((length l1 + S (length l2)) * 4)%nat by lia. now rewrite Nat.div_mul.
Qed.
Lemma cr3_ok cmt naked fuel lost ft rest major minor brands : let boxes := ft :: rest in
  file_ok cmt boxes -> (length (flat_map senc boxes) < fuel)%nat ->
  s_typ ft = 0x66747970 -> Forall (fun b => s_typ b <> 0x66747970) rest ->
  s_fields ft = be 4 major ++ be 4 minor ++ flat_map (be 4) brands -> Forall (urange 32) brands -> In 0x63727820 brands -> ssize ft < 2 ^ 16 ->
  get_decoder cmt naked fuel lost (flat_map senc boxes) = Some (Ok DCr3).
Proof.
  intros boxes OK Hf T N F U I S. pose proof OK as (B & _ & _). apply Forall_inv in B.
  assert (W : s_wide ft = false).
  { clear - B T F. destruct ft as [t u w f k x]. cbn [s_typ] in T. subst t. destruct B as [_ B]. cbn in B. apply B. }
  pose proof (ssize_8 ft) as S8. set (file := flat_map senc boxes).
  assert (A : at_ file 0 (be 4 (ssize ft) ++ be 4 0x66747970)).
  { exists [], (s_uuid ft ++ body ft ++ flat_map senc rest). split; [|reflexivity]. unfold file, boxes. cbn [flat_map]. rewrite senc_eq. unfold hdr_bytes. rewrite W, T, <- !app_assoc. reflexivity. }
  destruct (enc4_bytes BE (ssize ft) ltac:(lia)) as (a & b & c & d & E & FB & V). rewrite Z.mod_small in V by lia. unfold be in A at 1. rewrite E in A.
  repeat match goal with H : Forall _ (_ :: _) |- _ => inversion H; subst; clear H end. unfold urange in *.
  assert (a = 0) by lia. assert (b = 0) by lia. subst a b. cbn [app] in A.
  assert (A1 : nth 1 file 0 = 0) by (exact (at_nth file 0 _ 1 A ltac:(cbn; lia))).
  assert (A6 : nth 6 file 0 = 121) by (exact (at_nth file 0 _ 6 A ltac:(cbn; lia))).
  unfold get_decoder, is_mrw, is_raf, is_ari, is_qtk, is_ciff.
  rewrite (bytes_at_false file 0 [0; 77; 82; 77] 1) by (lia || (cbn; lia) || (change (Z.to_nat 0 + 1)%nat with 1%nat; rewrite A1; discriminate)).
  do 4 no_sig A. cbn [orb]. rewrite (bytes_at_false file 6 _ 0) by (lia || (cbn; lia) || (change (Z.to_nat 6 + 0)%nat with 6%nat; rewrite A6; discriminate)).
  rewrite (not_exif file _ _ fuel lost A) by discriminate. cbn [obind]. unfold is_x3f. no_sig A.
  unfold bmff_decoder, file. rewrite file_read by assumption. unfold compatible_brand. change ftyp with 0x66747970.
  destruct (kid_seen 0x66747970 boxes ft 0) as (o & ->); [exists [], rest; repeat split; assumption|].
  pose proof (brand_listed (s_fields ft) major minor brands _ F U I) as X. unfold Bmff.brands in X |- *. rewrite seen_fields. cbn [n_fields] in X. rewrite X. reflexivity.
Qed.

Lemma konica_ok cmt naked fuel lost t segs after out i ss plain s :
  let segs0 := JExif t :: segs in Forall jseg_ok segs0 -> Z.of_nat (length (jfile segs0 after)) < 2 ^ 32 ->
  shown (exif_root lost (jfile segs0 after)) 2 segs0 out -> (length segs0 + 2 <= fuel)%nat ->
  exif_root lost (jfile segs0 after) 12 = Some (Ok i) -> tag (i_entries i) 271 = Some (VAscii (s :: ss) plain) ->
  named s (text "Konica Minolta Photo Imaging, Inc.") ->
  get_decoder cmt naked fuel lost (jfile segs0 after) = Some (Ok DMrwJpeg).
Proof.
  intros segs0 H1 H2 H3 H4 H5 H6 H7. set (file := jfile segs0 after).
  assert (L2 : length (enc BE 2 (2 + Z.of_nat (length (EXIF_MARKER ++ t)))) = 2%nat) by apply enc_length.
  destruct (enc BE 2 (2 + Z.of_nat (length (EXIF_MARKER ++ t)))) as [|x [|y [|? ?]]] eqn:EL; try discriminate.
  assert (A : at_ file 0 ([255; 216; 255; 225; x; y] ++ [69])).
  { exists [], ([120; 105; 102; 0; 0] ++ t ++ flat_map jenc segs ++ [255; 217] ++ after). split; [|reflexivity]. unfold file, jfile, segs0. cbn [flat_map jenc]. unfold seg. change [69; 120; 105; 102; 0; 0] with EXIF_MARKER. rewrite EL. cbn [app]. rewrite <- ?app_assoc. reflexivity. }
  unfold get_decoder. destruct (not_first file _ _ A) as (-> & -> & -> & -> & _); [cbn [In]; lia|]. unfold is_ciff.
  assert (A6 : nth 6 file 0 = 69) by (exact (at_nth file 0 _ 6 A ltac:(cbn; lia))).
  rewrite (bytes_at_false file 6 _ 0) by (lia || (cbn; lia) || (change (Z.to_nat 6 + 0)%nat with 6%nat; rewrite A6; discriminate)).
  unfold jpeg_decoder. rewrite is_exif_eq. apply (at_app _ _ [255; 216; 255; 225] [x; y; 69]) in A. destruct A as [A _]. yes_sig A.
  unfold file. rewrite (parse_ok (exif_root lost) segs0 after fuel out H1 H2 H3 H4). cbn [obind].
  inversion H3 as [| |? ? j ? out' EX SH| | | |]; subst; cbn [exif_ifd app]. change (2 + 10) with 12 in EX. assert (j = i) as -> by congruence.
  rewrite H6. cbn [str as_string].
  change (text "Konica Minolta Photo Imaging, Inc.") with KONICA in H7.
  rewrite (trim_named s KONICA H7); [rewrite (proj2 (bytes_eqb_spec KONICA KONICA) eq_refl); reflexivity| |intros W; apply whiteb_spec in W; discriminate W].
  apply Forall_forall. intros c Hc. assert (X : forallb (fun c => (0 <=? c) && (c <? 128)) KONICA = true) by reflexivity. rewrite forallb_forall in X. specialize (X _ Hc). lia.
Qed.
