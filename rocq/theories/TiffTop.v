(** Top level lemmas for [PropTiff]. *)
From Coq Require Import List ZArith Lia Bool.
From Verif Require Import Base BaseLemmas Bits Tiff TiffSpec TiffBytes TiffRead TiffWrite TiffSafe.
Import ListNotations.
Open Scope Z_scope.

(** ** Sorted maps *)
Lemma ascending_cons {A} k (a : A) m : ascending m -> (forall x, In x m -> k < fst x) -> ascending ((k, a) :: m).
Proof. intros H L. destruct m as [|[b y] m]; [exact I|]. split; [apply (L (b, y)); now left|exact H]. Qed.
Lemma bt_insert_ascending {A} k (a : A) m : ascending m -> ascending (bt_insert k a m).
Proof.
  induction m as [|[k' a'] m IH]; intros H; cbn [bt_insert]; [exact I|].
  destruct (Z.ltb_spec k k') as [C|C]; [split; assumption|].
  destruct (Z.eqb_spec k k') as [->|N].
  - destruct m as [|[b y] m]; [exact I|]. exact H.
  - apply ascending_cons; [apply IH; now apply ascending_tail in H|].
    intros x Hx. apply in_bt_insert in Hx. destruct Hx as [->|Hx]; [cbn; lia|]. eapply ascending_lt; eassumption.
Qed.
Lemma dir_of_snoc adds t v : dir_of (adds ++ [(t, v)]) = bt_insert t v (dir_of adds).
Proof. unfold dir_of, add_tag. now rewrite fold_left_app. Qed.
Lemma last_value_snoc adds t v k : last_value k (adds ++ [(t, v)]) = if k =? t then Some v else last_value k adds.
Proof.
  induction adds as [|[t' v'] adds IH]; cbn [app last_value]; [reflexivity|]. rewrite IH. now destruct (k =? t).
Qed.
Lemma dir_of_ascending adds : ascending (dir_of adds).
Proof. induction adds as [|[t v] adds IH] using rev_ind; [exact I|]. rewrite dir_of_snoc. now apply bt_insert_ascending. Qed.
Lemma dir_of_get adds k : bt_get k (dir_of adds) = last_value k adds.
Proof.
  induction adds as [|[t v] adds IH] using rev_ind; [reflexivity|]. rewrite dir_of_snoc, bt_get_insert, last_value_snoc.
  now rewrite IH.
Qed.
Lemma dir_of_forall (P : Z * value -> Prop) adds : Forall P adds -> Forall P (dir_of adds).
Proof.
  induction adds as [|[t v] adds IH] using rev_ind; intros H; [constructor|]. rewrite dir_of_snoc. rewrite Forall_app in H. destruct H as [H1 H2].
  apply Forall_forall. intros x Hx. apply in_bt_insert in Hx. destruct Hx as [->|Hx]; [now inversion H2|].
  specialize (IH H1). rewrite Forall_forall in IH. now apply IH.
Qed.
Lemma bt_insert_nonempty {A} k (a : A) m : bt_insert k a m <> [].
Proof. destruct m as [|[k' a'] m]; cbn; [discriminate|]. destruct (k <? k'), (k =? k'); discriminate. Qed.
Lemma dir_of_nonempty adds : adds <> [] -> dir_of adds <> [].
Proof.
  destruct adds as [|x adds] using rev_ind; [easy|]. intros _. destruct x. rewrite dir_of_snoc. apply bt_insert_nonempty.
Qed.
Lemma bt_get_in {A} k (a : A) m : ascending m -> (bt_get k m = Some a <-> In (k, a) m).
Proof.
  induction m as [|[k' a'] m IH]; intros H; cbn [bt_get]; [easy|]. pose proof (ascending_tail _ _ H) as H'.
  specialize (IH H'). destruct (Z.eqb_spec k k') as [->|N]; split.
  - intros [= ->]. now left.
  - intros [[= ->]|Hin]; [reflexivity|]. pose proof (ascending_lt _ _ _ H _ Hin). cbn in *. lia.
  - intros G. right. now apply IH.
  - intros [[= -> ->]|Hin]; [lia|]. now apply IH.
Qed.

Lemma values_get es t : bt_get t (values es) = option_map e_value (bt_get t es).
Proof. induction es as [|[k en] es IH]; cbn [values map bt_get fst snd]; [reflexivity|]. destruct (t =? k); [reflexivity|exact IH]. Qed.
Lemma read_all_get es t : bt_get t (read_all es) = option_map as_read (bt_get t es).
Proof. induction es as [|[k en] es IH]; cbn [read_all map bt_get fst snd]; [reflexivity|]. destruct (t =? k); [reflexivity|exact IH]. Qed.

Lemma writable_same v : writable v -> same_value v (as_read v).
Proof.
  intros (_ & _ & H). destruct v; try reflexivity. destruct H as [s [-> H]]. cbn [as_read same_value hd]. now rewrite H.
Qed.
Lemma reads_back_of adds es : Forall (fun a => urange 16 (fst a) /\ writable (snd a)) adds -> values es = read_all (dir_of adds) -> reads_back adds es.
Proof.
  intros H E t. pose proof (values_get es t) as V. rewrite E, read_all_get, dir_of_get in V.
  destruct (last_value t adds) as [v|] eqn:L, (bt_get t es) as [en|]; cbn [option_map] in V; try discriminate; [|exact I].
  injection V as <-. apply writable_same.
  rewrite <- dir_of_get in L. apply bt_get_in in L; [|apply dir_of_ascending].
  apply dir_of_forall in H. rewrite Forall_forall in H. now apply (H (t, v)).
Qed.

(** ** Bytes *)
Lemma flat_bytes {A} (f : A -> list Z) l : (forall x, In x l -> Forall (urange 8) (f x)) -> Forall (urange 8) (flat_map f l).
Proof.
  induction l as [|a l IH]; intros H; [constructor|]. cbn [flat_map]. apply Forall_app. split; [apply H; now left|]. apply IH. intros x Hx. apply H. now right.
Qed.
Lemma venc_bytes v : value_ok v -> Forall (urange 8) (venc LE v).
Proof.
  intros [H _]. destruct v; cbn [venc enc]; try exact H; try (apply flat_bytes; intros; apply le_bytes_byte).
  - apply flat_bytes. intros s Hs. rewrite Forall_forall in H. apply Forall_app. split; [now apply H|].
    repeat constructor; unfold urange; lia.
  - apply flat_bytes. intros. apply Forall_app. split; apply le_bytes_byte.
  - apply flat_bytes. intros. apply Forall_app. split; apply le_bytes_byte.
  - apply H.
Qed.
Lemma pad4_bytes buf : Forall (urange 8) buf -> Forall (urange 8) (pad4 buf).
Proof.
  intros H. unfold pad4. destruct (_ =? 0); [exact H|]. apply Forall_app. split; [exact H|].
  apply Forall_forall. intros x Hx. apply repeat_spec in Hx. subst. unfold urange. lia.
Qed.
Lemma build_values_bytes : forall es buf embs buf', Forall (fun x => writable (snd x)) es -> Forall (urange 8) buf ->
  build_values es buf = Ok (embs, buf') -> Forall (urange 8) buf'.
Proof.
  induction es as [|[t v] es IH]; intros buf embs buf' H HB; cbn [build_values]; [now intros [= _ <-]|].
  apply Forall_cons_iff in H. destruct H as [Hv H]. cbn [snd] in Hv.
  destruct (4 <? vsize v)%nat.
  - rewrite write_value_ok by apply Hv. cbn [bind].
    destruct (build_values es _) as [[e2 b2]| |] eqn:E; cbn [bind]; try discriminate. intros [= _ <-].
    eapply IH; [exact H| |exact E]. apply Forall_app. split; [now apply pad4_bytes|]. apply venc_bytes, Hv.
  - destruct (negb _); cbn [assert_ bind]; [|discriminate]. destruct (as_embedded v); cbn [bind]; try discriminate.
    destruct (build_values es _) as [[e2 b2]| |] eqn:E; cbn [bind]; try discriminate. intros [= _ <-]. eapply IH; eassumption.
Qed.
Local Opaque le_bytes.
Lemma dir_build_bytes entries next buf off buf' : Forall (fun x => writable (snd x)) entries -> Forall (urange 8) buf ->
  dir_build entries next buf = Ok (off, buf') -> Forall (urange 8) buf'.
Proof.
  intros H HB. unfold dir_build. destruct (negb _); cbn [check bind]; [|discriminate].
  destruct (build_values entries buf) as [[e2 b2]| |] eqn:E; cbn [bind]; try discriminate. intros [= _ <-].
  apply build_values_bytes in E; [|assumption..]. apply Forall_app. split; [now apply pad4_bytes|]. apply Forall_app. split; [apply le_bytes_byte|]. apply Forall_app. split; [|apply le_bytes_byte].
  apply flat_bytes. intros [[tag v] emb] _. unfold dir_record. rewrite !Forall_app. repeat split; apply le_bytes_byte.
Qed.

Local Transparent le_bytes.

(** ** Programs of the writer *)
Lemma keeps_refl lo f : keeps lo f f.
Proof. intros p b _ H. exact H. Qed.
Lemma keeps_app lo f t : keeps lo f (f ++ t).
Proof. intros p b _ H. now apply at_more. Qed.
Lemma keeps_trans lo lo' f g h : lo <= lo' -> keeps lo f g -> keeps lo g h -> keeps lo' f h.
Proof. intros L H1 H2 p b Hp A. apply H2; [lia|]. apply H1; [lia|exact A]. Qed.

Definition op_done (file : list Z) (op : wop) (off : Z) : Prop :=
  match op with
  | WData d => at_ file off d /\ off mod 4 = 0
  | WDir adds => dir_at LE file 0 0 off (dir_of adds) 0
  end.
Lemma wrun_ok : forall ops buf, Forall wop_ok ops -> Forall (urange 8) buf ->
  exists offs more, wrun ops buf = Ok (offs, buf ++ more) /\ length offs = length ops /\ Forall (urange 8) (buf ++ more) /\
   (Z.of_nat (length (buf ++ more)) < 2 ^ 32 -> forall file, keeps (Z.of_nat (length buf)) (buf ++ more) file ->
    forall k op, nth_error ops k = Some op -> op_done file op (nth k offs 0)).
Proof.
  induction ops as [|op ops IH]; intros buf H HB; cbn [wrun].
  - exists [], []. rewrite app_nil_r. split; [reflexivity|]. split; [reflexivity|]. split; [exact HB|]. intros _ file _ [|k] op E; discriminate.
  - apply Forall_cons_iff in H. destruct H as [Hop H].
    assert (STEP : exists off m1, (match op with WData d => Ok (write_data buf d) | WDir adds => dir_build (dir_of adds) 0 buf end) = Ok (off, buf ++ m1)
      /\ Forall (urange 8) (buf ++ m1)
      /\ (Z.of_nat (length (buf ++ m1)) < 2 ^ 32 -> forall file, keeps (Z.of_nat (length buf)) (buf ++ m1) file -> op_done file op off)).
    { destruct op as [d|adds].
      - unfold write_data. destruct (pad4_app buf) as [z P]. exists (tpos (pad4 buf)), (z ++ d). rewrite P, <- app_assoc.
        split; [reflexivity|]. split; [rewrite app_assoc, <- P; apply Forall_app; split; [now apply pad4_bytes|exact Hop]|].
        intros B file K. assert (T : tpos (buf ++ z) = Z.of_nat (length (buf ++ z))) by (apply tpos_small; rewrite !app_length in *; lia).
        split; [|rewrite T, <- P; apply pad4_aligned]. apply K; [rewrite T, app_length; lia|]. rewrite T, app_assoc. apply at_end.
      - destruct Hop as (Hne & Hlen & Hall).
        assert (Hw : Forall (fun x => urange 16 (fst x) /\ writable (snd x)) (dir_of adds)) by now apply dir_of_forall.
        assert (U : urange 32 0) by (unfold urange; lia).
        destruct (dir_build_ok (dir_of adds) 0 buf (dir_of_nonempty _ Hne) Hlen Hw U) as (off & m1 & E & F).
        exists off, m1. split; [exact E|]. split.
        + eapply dir_build_bytes; [|exact HB|exact E]. eapply Forall_impl; [|exact Hw]. now intros ? [].
        + intros B file K. now apply F. }
    destruct STEP as (off & m1 & -> & HB1 & S1). cbn [bind].
    destruct (IH (buf ++ m1) H HB1) as (offs & m2 & -> & L & HB2 & S2). cbn [bind].
    exists (off :: offs), (m1 ++ m2). rewrite <- app_assoc in *. split; [reflexivity|]. split; [cbn [length]; lia|]. split; [exact HB2|].
    intros B file K k o Hk. destruct k as [|k]; cbn [nth_error nth] in *.
    + injection Hk as <-. apply S1; [rewrite !app_length in *; lia|].
      eapply keeps_trans; [|apply keeps_app|]; [apply Z.le_refl|]. rewrite <- app_assoc. exact K.
    + apply S2; [exact B| |exact Hk]. intros p b Hp A. apply K; [rewrite app_length in Hp; lia|exact A].
Qed.

Lemma patch4_keeps buf v : (8 <= length buf)%nat -> keeps 8 buf (patch4 buf 4 v).
Proof.
  intros L p b Hp (pre & post & -> & Lp). unfold patch4.
  assert (Lpre : (8 <= length pre)%nat) by lia.
  exists (firstn 4 pre ++ le_bytes 4 v ++ skipn 8 pre), post. split.
  - rewrite firstn_app, skipn_app. replace (4 - length pre)%nat with 0%nat by lia. replace (4 + 4 - length pre)%nat with 0%nat by lia.
    cbn [firstn skipn]. now rewrite app_nil_r, <- !app_assoc.
  - rewrite !app_length, firstn_length, skipn_length, le_bytes_length. lia.
Qed.
Lemma patch4_length buf v : (8 <= length buf)%nat -> length (patch4 buf 4 v) = length buf.
Proof. intros L. unfold patch4. rewrite !app_length, firstn_length, skipn_length, le_bytes_length. lia. Qed.
Lemma patch4_bytes buf v : Forall (urange 8) buf -> Forall (urange 8) (patch4 buf 4 v).
Proof.
  intros H. unfold patch4. rewrite !Forall_app. split; [|split; [apply le_bytes_byte|]].
  - rewrite <- (firstn_skipn 4 buf) in H. rewrite Forall_app in H. apply H.
  - rewrite <- (firstn_skipn (4 + 4) buf) in H. rewrite Forall_app in H. apply H.
Qed.

(** reading a directory that has sub directories, in a file without offset base *)
Lemma ifd_new_at lost e file corr off ents next subs :
  Forall (urange 8) file -> Z.of_nat (length file) < 2 ^ 32 - 32 ->
  dir_at e file 0 corr off ents next -> ascending ents -> sub_ok subs ents ->
  exists i, ifd_new lost e file off 0 corr subs = Ok i /\ values (i_entries i) = read_all ents /\ i_next i = next_of next corr /\ i_off i = off /\
    (no_unknown subs ents -> forall tag l, In (tag, VLong l) ents -> In tag subs ->
      exists js, bt_get tag (i_sub i) = Some js /\ sub_ifds lost e file 0 corr l = Ok js).
Proof.
  intros HB HL D Hasc Hsub. unfold ifd_new.
  destruct (ifd_head_at lost e file 0 corr off ents next subs D Hasc Hsub) as (es & os & E & V & G & _). rewrite E. cbn [bind fst snd].
  assert (F : forall os acc, exists r, for_each os (fun '((tag, offs) : Z * list Z) (s : list (Z * list ifd)) => do l <- sub_ifds lost e file 0 corr offs; Ok (s ++ [(tag, l)])) acc = Ok (acc ++ r)
     /\ forall tag l, bt_get tag os = Some l -> exists js, bt_get tag r = Some js /\ sub_ifds lost e file 0 corr l = Ok js).
  { clear - HB HL. intros os. induction os as [|[t o] os IH]; intros acc; cbn [for_each].
    - exists []. rewrite app_nil_r. split; [reflexivity|discriminate].
    - destruct (sub_ifds_ok lost e file corr HB HL o) as [js Ej]. rewrite Ej. cbn [bind].
      destruct (IH (acc ++ [(t, js)])) as (r & -> & R). exists ((t, js) :: r). rewrite <- app_assoc. split; [reflexivity|].
      intros tag l. cbn [bt_get]. destruct (tag =? t); [intros [= <-]; eauto|apply R]. }
  destruct (F os []) as (r & -> & R). cbn [bind app].
  eexists. split; [reflexivity|]. cbn [i_entries i_next i_off i_sub]. split; [exact V|]. split; [reflexivity|]. split; [reflexivity|].
  intros Hu tag l Hin Hs. apply R. now apply G.
Qed.

Lemma sub_ifds_at lost e file corr : forall l,
  (forall o, In o l -> exists ents next, dir_at e file 0 corr (apply_corr o corr) ents next /\ ascending ents) ->
  exists js, sub_ifds lost e file 0 corr l = Ok js /\ Forall2 (fun o j => ifd_leaf lost e file (apply_corr o corr) 0 corr = Ok j) l js.
Proof.
  induction l as [|o l IH]; intros H; cbn [sub_ifds]; [eauto|].
  destruct (H o (or_introl eq_refl)) as (ents & next & D & A).
  destruct (ifd_leaf_at lost e file 0 corr _ ents next D A) as (j & Ej & _). rewrite Ej.
  destruct IH as (js & -> & F); [intros; apply H; now right|]. cbn [bind]. eexists. split; [reflexivity|]. now constructor.
Qed.

Lemma Forall2_weaken {A B} (P Q : A -> B -> Prop) l m : (forall a b, P a b -> Q a b) -> Forall2 P l m -> Forall2 Q l m.
Proof. intros H. induction 1; constructor; auto. Qed.

Lemma c10_file ops root : Forall wop_ok ops -> wop_ok (WDir root) ->
  exists offs buf file, wrun ops tiff_new = Ok (offs, buf) /\ tiff_build buf (dir_of root) = Ok file /\
  (Z.of_nat (length file) < 2 ^ 32 - 32 ->
   (forall k d, nth_error ops k = Some (WData d) -> at_ file (nth k offs 0) d /\ nth k offs 0 mod 4 = 0) /\
   (forall k adds lost, nth_error ops k = Some (WDir adds) ->
      exists i, ifd_leaf lost LE file (nth k offs 0) 0 0 = Ok i /\ reads_back adds (i_entries i) /\ i_next i = 0) /\
   (forall lost fuel max subs, exists i,
      parse_file (S fuel) lost file 0 0 0 max subs = Some (Ok [i]) /\ reads_back root (i_entries i) /\ i_next i = 0 /\
      (forall tag l,
         (forall tag t l, last_value tag root = Some (VUnknown t l) -> ~ In tag (wellknown_subs ++ subs)) ->
         last_value tag root = Some (VLong l) -> In tag (wellknown_subs ++ subs) ->
         (forall o, In o l -> exists k adds, nth_error ops k = Some (WDir adds) /\ nth k offs 0 = o) ->
         exists js, bt_get tag (i_sub i) = Some js /\
           Forall2 (fun o j => forall k adds, nth_error ops k = Some (WDir adds) -> nth k offs 0 = o -> reads_back adds (i_entries j)) l js))).
Proof.
  intros Hops Hroot.
  assert (HB0 : Forall (urange 8) tiff_new) by (unfold tiff_new; rewrite !Forall_app; repeat split; [repeat constructor; unfold urange; lia|apply le_bytes_byte..]).
  destruct (wrun_ok ops tiff_new Hops HB0) as (offs & more & E & L & HB & S). exists offs, (tiff_new ++ more).
  destruct Hroot as (Hne & Hlen & Hall).
  assert (Hw : Forall (fun x => urange 16 (fst x) /\ writable (snd x)) (dir_of root)) by now apply dir_of_forall.
  assert (U : urange 32 0) by (unfold urange; lia).
  destruct (dir_build_ok (dir_of root) 0 (tiff_new ++ more) (dir_of_nonempty _ Hne) Hlen Hw U) as (off & m2 & E2 & F).
  assert (HB2 : Forall (urange 8) ((tiff_new ++ more) ++ m2)).
  { eapply dir_build_bytes; [|exact HB|exact E2]. eapply Forall_impl; [|exact Hw]. now intros ? []. }
  unfold tiff_build. rewrite E2. cbn [bind].
  set (buf2 := (tiff_new ++ more) ++ m2) in *. exists (patch4 buf2 4 off). split; [exact E|]. split; [reflexivity|].
  assert (L8 : (8 <= length buf2)%nat) by (unfold buf2; rewrite !app_length; cbn; lia).
  rewrite patch4_length by exact L8. intros BND.
  set (file := patch4 buf2 4 off).
  assert (K8 : keeps 8 buf2 file) by now apply patch4_keeps.
  assert (HBF : Forall (urange 8) file) by now apply patch4_bytes.
  assert (LF : length file = length buf2) by now apply patch4_length.
  assert (K0 : keeps (Z.of_nat (length tiff_new)) (tiff_new ++ more) file).
  { change (Z.of_nat (length tiff_new)) with 8. eapply keeps_trans; [apply Z.le_refl|apply keeps_app|exact K8]. }
  assert (DONE : forall k op, nth_error ops k = Some op -> op_done file op (nth k offs 0)).
  { intros k op Hk. refine (S _ file K0 k op Hk). unfold buf2 in BND. rewrite !app_length in *. lia. }
  clear S.
  assert (K1 : keeps (Z.of_nat (length (tiff_new ++ more))) buf2 file).
  { intros p b Hp. apply K8. rewrite app_length in Hp. change (length tiff_new) with 8%nat in Hp. lia. }
  destruct F as (Foff & Fal & FD); [lia|]. specialize (FD file K1).
  split; [|split].
  - intros k d Hk. exact (DONE k _ Hk).
  - intros k adds lost Hk. pose proof (DONE k _ Hk) as D. cbn [op_done] in D.
    destruct (ifd_leaf_at lost LE file 0 0 _ _ _ D (dir_of_ascending adds)) as (i & Ei & V & N & _).
    exists i. split; [exact Ei|]. split; [|exact N].
    apply reads_back_of; [|exact V]. apply nth_error_In in Hk. rewrite Forall_forall in Hops. apply (Hops _ Hk).
  - intros lost fuel max subs.
    assert (HDR : parse_header file 0 = Ok (LE, 42, off)).
    { unfold parse_header, file, patch4, buf2, tiff_new. cbn [app firstn].
      set (rest := skipn _ _).
      assert (A : at_ ([73; 73; 42; 0] ++ le_bytes 4 off ++ rest) 0 [73; 73; 42; 0]) by (exists [], (le_bytes 4 off ++ rest); split; reflexivity).
      assert (A4 : at_ ([73; 73; 42; 0] ++ le_bytes 4 off ++ rest) 4 (le_bytes 4 off)) by (exists [73; 73; 42; 0], rest; split; reflexivity).
      change (73 :: 73 :: 42 :: 0 :: le_bytes 4 off ++ rest) with ([73; 73; 42; 0] ++ le_bytes 4 off ++ rest).
      apply (at_app _ _ [73; 73] [42; 0]) in A. destruct A as [A1 A2].
      rewrite (rd_u16_at LE _ 0 18761); [|unfold urange; lia|exact A1]. cbn [bind]. change (18761 =? 18761) with true. cbv iota. cbn [bind].
      rewrite (rd_u16_at LE _ (0 + 2) 42); [|unfold urange; lia|exact A2]. cbn [bind].
      rewrite (rd_u32_at LE _ (0 + 4) off); [reflexivity| |exact A4]. destruct FD as (_ & D1 & D2 & _). unfold urange. lia. }
    unfold parse_file. rewrite HDR. change (negb (existsb (Z.eqb 42) [42; 85; 21330; 20306])) with false. cbv iota.
    assert (P8 : 8 <= off) by (rewrite app_length in Foff; change (length tiff_new) with 8%nat in Foff; lia).
    assert (O32 : off < 2 ^ 32) by (destruct FD as (_ & D1 & D2 & _); lia).
    replace (off =? 0) with false by (symmetry; apply Z.eqb_neq; lia).
    assert (AC : apply_corr off 0 = off) by (unfold apply_corr, wrap_u32; rewrite Z.add_0_r; apply Z.mod_small; lia).
    rewrite AC. cbn [chain_loop]. replace (off =? 0) with false by (symmetry; apply Z.eqb_neq; lia).
    destruct (ifd_new_at lost LE file 0 off (dir_of root) 0 (wellknown_subs ++ subs)) as (i & Ei & V & N & _ & SUB);
      [exact HBF|lia|exact FD|apply dir_of_ascending| |].
    { intros tag t l Hin _ ->. rewrite Forall_forall in Hw. destruct (Hw _ Hin) as [_ (_ & C & _)]. cbn in C. lia. }
    exists i. rewrite Ei.
    assert (NE : (length (i_entries i) =? 0)%nat = false).
    { apply Nat.eqb_neq. assert (length (values (i_entries i)) = length (read_all (dir_of root))) as LL by now rewrite V.
      unfold values, read_all in LL. rewrite !map_length in LL. rewrite LL. pose proof (dir_of_nonempty _ Hne). destruct (dir_of root); [easy|cbn; lia]. }
    rewrite NE, N. cbn [next_of app length]. change (next_of 0 0) with 0.
    assert (PF : match max with Some m => if (m <? 1)%nat then Some (Ok [i]) else chain_loop fuel lost LE file 0 0 (wellknown_subs ++ subs) max 0 [i]
        | None => chain_loop fuel lost LE file 0 0 (wellknown_subs ++ subs) max 0 [i] end = Some (Ok [i])).
    { assert (C0 : forall m, chain_loop fuel lost LE file 0 0 (wellknown_subs ++ subs) m 0 [i] = Some (Ok [i])) by (intros m; destruct fuel; reflexivity).
      destruct max as [m|]; rewrite !C0; [destruct (m <? 1)%nat|]; reflexivity. }
    split; [destruct max; [destruct (n <? 1)%nat; try reflexivity|]; rewrite PF; reflexivity|].
    split; [now apply reads_back_of|]. split; [reflexivity|].
    intros tag l Hunk Hlast Hin Hptr.
    destruct (SUB) with (tag := tag) (l := l) as (js & Bj & Sj).
    + intros t1 t2 l1 Hi. apply bt_get_in in Hi; [|apply dir_of_ascending]. rewrite dir_of_get in Hi. eapply Hunk; exact Hi.
    + apply bt_get_in; [apply dir_of_ascending|]. now rewrite dir_of_get.
    + exact Hin.
    + exists js. split; [exact Bj|].
      assert (AO : forall k adds, nth_error ops k = Some (WDir adds) -> apply_corr (nth k offs 0) 0 = nth k offs 0).
      { intros k adds Hk. pose proof (DONE k _ Hk) as (_ & D1 & D2 & _). unfold apply_corr, wrap_u32. rewrite Z.add_0_r. apply Z.mod_small. lia. }
      destruct (sub_ifds_at lost LE file 0 l) as (js' & Sj' & F2).
      { intros o Ho. destruct (Hptr o Ho) as (k & adds & Hk & <-). rewrite (AO k adds Hk). exists (dir_of adds), 0.
        split; [exact (DONE k _ Hk)|apply dir_of_ascending]. }
      rewrite Sj' in Sj. injection Sj as <-. eapply Forall2_weaken; [|exact F2].
      intros o j Hj k adds Hk <-. rewrite (AO k adds Hk) in Hj.
      destruct (ifd_leaf_at lost LE file 0 0 _ _ _ (DONE k _ Hk) (dir_of_ascending adds)) as (i' & Ei' & V' & _).
      rewrite Ei' in Hj. injection Hj as <-. apply reads_back_of; [|exact V'].
      apply nth_error_In in Hk. rewrite Forall_forall in Hops. apply (Hops _ Hk).
Qed.

Lemma c10_conforming lost e file base corr off ents next :
  dir_at e file base corr off ents next -> ascending ents ->
  exists i, ifd_leaf lost e file off base corr = Ok i /\ i_off i = off /\
    i_next i = (if next =? 0 then 0 else (next + corr) mod 2 ^ 32) /\
    forall t, option_map e_value (bt_get t (i_entries i)) = option_map as_read (bt_get t ents).
Proof.
  intros D A. destruct (ifd_leaf_at lost e file base corr off ents next D A) as (i & E & V & N & O).
  exists i. split; [exact E|]. split; [exact O|]. split; [exact N|]. intros t. now rewrite <- values_get, V, read_all_get.
Qed.

(** ** Arbitrary files *)
Lemma parse_file_inv fuel lost file start base corr max subs r :
  parse_file fuel lost file start base corr max subs = r ->
  r = Some Err \/ exists e magic next, parse_header file start = Ok (e, magic, next) /\
    (r = chain_loop fuel lost e file base corr (wellknown_subs ++ subs) max (apply_corr next corr) [] /\ r <> Some (Ok [])).
Proof.
  unfold parse_file. unfold parse_header.
  pose proof (rd_u16_not_panic LE file start). destruct (rd_u16 LE file start) as [m| |]; cbn [bind]; [|intros <-; now left|congruence].
  destruct (if m =? 18761 then Ok LE else if m =? 19789 then Ok BE else Err) as [e| |] eqn:EM; cbn [bind];
    [|intros <-; now left|destruct (m =? 18761), (m =? 19789); discriminate].
  pose proof (rd_u16_not_panic e file (start + 2)). destruct (rd_u16 e file (start + 2)) as [magic| |]; cbn [bind]; [|intros <-; now left|congruence].
  pose proof (rd_u32_not_panic e file (start + 4)). destruct (rd_u32 e file (start + 4)) as [next| |]; cbn [bind]; [|intros <-; now left|congruence].
  destruct (negb _); [intros <-; now left|]. destruct (next =? 0); [intros <-; now left|].
  intros H'. destruct (chain_loop _ _ _ _ _ _ _ _ _ _) as [[[|i c]| |]|] eqn:C; subst r; [now left|..];
    (right; exists e, magic, next; split; [reflexivity|]; split; [now symmetry|discriminate]).
Qed.

Lemma c12_bounded fuel lost file start base corr m subs chain :
  parse_file fuel lost file start base corr (Some m) subs = Some (Ok chain) -> (1 <= length chain <= m + 1)%nat.
Proof.
  intros H. apply parse_file_inv in H. destruct H as [H|(e & mg & nx & _ & H & N)]; [discriminate|].
  symmetry in H. apply chain_loop_len in H; [|cbn; lia]. destruct chain; [congruence|cbn in *; lia].
Qed.
Lemma c12_terminates fuel lost file start base corr m subs :
  (m + 1 <= fuel)%nat -> parse_file fuel lost file start base corr (Some m) subs <> None.
Proof.
  intros F. destruct (parse_file _ _ _ _ _ _ _ _) eqn:H; [discriminate|]. apply parse_file_inv in H.
  destruct H as [H|(e & mg & nx & _ & H & N)]; [discriminate|]. exfalso. symmetry in H. revert H. apply chain_loop_fuel; cbn; lia.
Qed.
Lemma c12_from_file fuel lost file start base corr max subs chain :
  Forall (urange 8) file -> 0 <= base ->
  parse_file fuel lost file start base corr max subs = Some (Ok chain) ->
  exists e, Forall (fun i =>
    forall j, (j = i \/ exists tag l, In (tag, l) (i_sub i) /\ In j l) ->
    (length (i_entries j) <= 4096)%nat /\
    forall tag en, In (tag, en) (i_entries j) ->
      at_ file (base + e_off en) (match e_value en with VAscii _ plain => plain | v => venc e v end)) chain.
Proof.
  intros HB Hb H. apply parse_file_inv in H. destruct H as [H|(e & mg & nx & _ & H & N)]; [discriminate|].
  symmetry in H. exists e. apply chain_loop_sound in H; [|assumption|assumption|apply apply_corr_range|constructor].
  eapply Forall_impl; [|exact H]. intros i [[S1 S2] S3] j [->|(tag & l & Hin & Hj)].
  - split; [exact S2|]. intros tag en Hin. specialize (S1 tag en Hin). unfold stored in S1. destruct (e_value en); exact S1.
  - destruct (S3 tag l j Hin Hj) as [T1 T2]. split; [exact T2|]. intros tag' en Hin'. specialize (T1 tag' en Hin'). unfold stored in T1. destruct (e_value en); exact T1.
Qed.
Lemma c12_only_panic fuel lost file start corr max subs :
  Forall (urange 8) file -> Z.of_nat (length file) < 2 ^ 32 - 32 ->
  parse_file fuel lost file start 0 corr max subs = Some Panic ->
  exists e p tag typ, 0 <= p /\ rd_u16 e file p = Ok tag /\ In tag (wellknown_subs ++ subs) /\
    rd_u16 e file (p + 2) = Ok typ /\ (typ = 0 \/ 12 < typ) /\ rd_u32 e file (p + 4) = Ok 0.
Proof.
  intros HB HL H. apply parse_file_inv in H. destruct H as [H|(e & mg & nx & _ & H & N)]; [discriminate|].
  symmetry in H. apply chain_loop_panic in H; [|assumption|assumption|apply apply_corr_range].
  destruct H as (p & tag & typ & H). exists e, p, tag, typ. exact H.
Qed.

(** a file whose only directory points to itself *)
Definition cyclic_file : list Z :=
  [73; 73; 42; 0; 8; 0; 0; 0] ++ [1; 0] ++ [0; 1; 3; 0; 1; 0; 0; 0; 7; 0; 0; 0] ++ [8; 0; 0; 0].
Lemma c12_cyclic fuel lost : parse_file fuel lost cyclic_file 0 0 0 None [] = None.
Proof.
  unfold parse_file. change (parse_header cyclic_file 0) with (Ok (LE, 42, 8)). cbv iota.
  change (negb (existsb (Z.eqb 42) [42; 85; 21330; 20306])) with false. change (8 =? 0) with false. cbv iota.
  change (apply_corr 8 0) with 8.
  assert (G : forall fuel chain, chain_loop fuel lost LE cyclic_file 0 0 (wellknown_subs ++ []) None 8 chain = None).
  { clear. induction fuel as [|fuel IH]; intros chain; [reflexivity|]. cbn [chain_loop]. change (8 =? 0) with false. cbv iota.
    assert (E : ifd_new lost LE cyclic_file 8 0 0 (wellknown_subs ++ []) = Ok (mk_ifd 8 8 [(256, mk_entry (VShort [7]) 18)] [] [])) by (vm_compute; reflexivity).
    rewrite E. cbn [i_entries length Nat.eqb i_next]. apply IH. }
  now rewrite G.
Qed.
