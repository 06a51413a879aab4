(** Directories and finished files, for [DngFileProofs]. *)
From Coq Require Import List ZArith Lia Bool.
From Verif Require Import Base BaseLemmas Bits Tiff TiffSpec TiffBytes TiffRead TiffWrite TiffSafe TiffTop DngFile.
Import ListNotations.
Open Scope Z_scope.

Definition wtag (e : Z * value) : Prop := urange 16 (fst e) /\ writable (snd e).
Definition good (n : nat) (d : dir) : Prop := ascending d /\ Forall wtag d /\ (length d <= n)%nat.

Lemma good_nil : good 0 [].
Proof. repeat split; auto. Qed.
Lemma good_more n m d : good n d -> (n <= m)%nat -> good m d.
Proof. intros (A & B & C) H. repeat split; auto. lia. Qed.
Lemma bt_insert_length {A} k (a : A) m : (length (bt_insert k a m) <= S (length m))%nat.
Proof. induction m as [|[k' a'] m IH]; cbn [bt_insert length]; [lia|]. destruct (k <? k'); [cbn; lia|]. destruct (k =? k'); cbn [length]; lia. Qed.
Lemma good_add n d t v : good n d -> urange 16 t -> writable v -> good (S n) (add_tag d t v).
Proof.
  intros (A & B & C) Ht Hv. unfold add_tag. split; [now apply bt_insert_ascending|]. split.
  - apply Forall_forall. intros x Hx. apply in_bt_insert in Hx. destruct Hx as [->|Hx]; [now split|]. rewrite Forall_forall in B. now apply B.
  - pose proof (bt_insert_length t v d). lia.
Qed.
Lemma good_add_all l : forall n d, good n d -> Forall wtag l -> good (n + length l) (add_all d l).
Proof.
  induction l as [|[t v] l IH]; intros n d G H; cbn [add_all fold_left length]; [now rewrite Nat.add_0_r|].
  apply Forall_cons_iff in H. destruct H as [[H1 H2] H]. rewrite Nat.add_succ_r. apply (IH (S n)); [now apply good_add|exact H].
Qed.
Lemma good_copy l : forall n d, good n d -> Forall wtag l -> good (n + length l) (copy_tags d l).
Proof.
  induction l as [|[t v] l IH]; intros n d G H; cbn [copy_tags fold_left length]; [now rewrite Nat.add_0_r|].
  apply Forall_cons_iff in H. destruct H as [[H1 H2] H]. rewrite Nat.add_succ_r. cbn [fst snd] in *.
  apply (IH (S n)); [|exact H]. destruct (bt_get t d); [eapply good_more; [exact G|lia]|now apply good_add].
Qed.
Lemma good_transfer g tags : (forall t, In t tags -> urange 16 t) -> (forall t v, In t tags -> g t = Some v -> writable v) ->
  forall n d, good n d -> good (n + length tags) (transfer g tags d).
Proof.
  unfold transfer. induction tags as [|t tags IH]; intros Ht Hv n d G; cbn [fold_left length]; [now rewrite Nat.add_0_r|].
  rewrite Nat.add_succ_r. apply (IH (fun t' H => Ht t' (or_intror H)) (fun t' v H => Hv t' v (or_intror H)) (S n)).
  destruct (g t) as [v|] eqn:E; [|eapply good_more; [exact G|lia]]. apply good_add; [exact G|apply Ht; now left|].
  eapply Hv; [now left|exact E].
Qed.
Lemma good_filter n d f : good n d -> good n (filter f d).
Proof.
  intros (A & B & C). split; [|split].
  - clear B C. induction d as [|[k a] d IH]; [exact I|]. cbn [filter]. specialize (IH (ascending_tail _ _ A)).
    destruct (f (k, a)); [|exact IH]. apply ascending_cons; [exact IH|]. intros x Hx. apply filter_In in Hx. eapply ascending_lt; [exact A|apply Hx].
  - rewrite Forall_forall in *. intros x Hx. apply filter_In in Hx. apply B, Hx.
  - etransitivity; [|exact C]. clear. induction d as [|a d IH]; cbn [filter length]; [lia|]. destruct (f a); cbn [length]; lia.
Qed.

(** lookups *)
Lemma get_add t d k v : bt_get t (add_tag d k v) = if t =? k then Some v else bt_get t d.
Proof. unfold add_tag. apply bt_get_insert. Qed.
Lemma get_add_all t l : forall d, bt_get t (add_all d l) = match last_value t l with Some v => Some v | None => bt_get t d end.
Proof.
  induction l as [|[k v] l IH]; intros d; cbn [add_all fold_left last_value]; [reflexivity|].
  unfold add_all in IH. rewrite IH, get_add. cbn [fst snd]. destruct (last_value t l); [reflexivity|]. destruct (t =? k); reflexivity.
Qed.
Lemma get_copy t l : ~ In t (map fst l) -> forall d, bt_get t (copy_tags d l) = bt_get t d.
Proof.
  unfold copy_tags. induction l as [|[k v] l IH]; intros H d; cbn [fold_left map fst snd] in *; [reflexivity|].
  rewrite IH by (intros X; apply H; now right). destruct (bt_get k d); [reflexivity|]. rewrite get_add.
  destruct (Z.eqb_spec t k) as [->|]; [exfalso; apply H; now left|reflexivity].
Qed.
Lemma get_transfer t g tags : ~ In t tags -> forall d, bt_get t (transfer g tags d) = bt_get t d.
Proof.
  unfold transfer. induction tags as [|k tags IH]; intros H d; cbn [fold_left]; [reflexivity|].
  rewrite IH by (intros X; apply H; now right). destruct (g k); [|reflexivity]. rewrite get_add.
  destruct (Z.eqb_spec t k) as [->|]; [exfalso; apply H; now left|reflexivity].
Qed.
Lemma get_filter (t : Z) (d : dir) f : bt_get t d = None -> bt_get t (filter f d) = None.
Proof.
  induction d as [|[k a] d IH]; cbn [bt_get filter]; [auto|]. destruct (t =? k) eqn:E; [discriminate|]. intros H.
  destruct (f (k, a)); [cbn [bt_get]; now rewrite E, IH|now apply IH].
Qed.
Lemma get_wtag n d t v : good n d -> bt_get t d = Some v -> wtag (t, v).
Proof. intros (A & B & _) G. apply bt_get_in in G; [|exact A]. rewrite Forall_forall in B. now apply B. Qed.

(** reading a directory whose pointer tags all lead to directories *)
Lemma wrap_dir e file off ents next : dir_at e file 0 0 off ents next -> apply_corr off 0 = off.
Proof. intros (_ & D1 & D2 & _). unfold apply_corr, wrap_u32. rewrite Z.add_0_r. apply Z.mod_small. lia. Qed.

Lemma ifd_new_exact lost e file off ents next subs :
  dir_at e file 0 0 off ents next -> ascending ents ->
  (forall tag v, In (tag, v) ents -> In tag subs -> exists l, v = VLong l /\
     forall o, In o l -> exists en nx, dir_at e file 0 0 o en nx /\ ascending en) ->
  exists i, ifd_new lost e file off 0 0 subs = Ok i /\ values (i_entries i) = read_all ents /\ i_next i = next_of next 0 /\
    (forall tag js, In (tag, js) (i_sub i) -> exists l, In (tag, VLong l) ents /\ In tag subs /\
       Forall2 (fun o j => ifd_leaf lost e file o 0 0 = Ok j) l js) /\
    (forall tag l, In (tag, VLong l) ents -> In tag subs -> exists js, In (tag, js) (i_sub i) /\
       Forall2 (fun o j => ifd_leaf lost e file o 0 0 = Ok j) l js).
Proof.
  intros D Hasc HP.
  assert (HS : sub_ok subs ents). { intros tag t l Hin Hs ->. destruct (HP _ _ Hin Hs) as (l & E & _). discriminate. }
  assert (HU : no_unknown subs ents). { intros tag t l Hin Hs. destruct (HP _ _ Hin Hs) as (l' & E & _). discriminate. }
  unfold ifd_new. destruct (ifd_head_at lost e file 0 0 off ents next subs D Hasc HS) as (es & os & E & V & G1 & G2 & AO).
  rewrite E. cbn [bind fst snd]. specialize (G1 HU). specialize (G2 HU).
  assert (OK : forall tag l, In (tag, l) os -> In (tag, VLong l) ents /\ In tag subs /\
     exists js, sub_ifds lost e file 0 0 l = Ok js /\ Forall2 (fun o j => ifd_leaf lost e file o 0 0 = Ok j) l js).
  { intros tag l Hin. apply bt_get_in in Hin; [|exact AO]. destruct (G2 tag l Hin) as (Hs & v & Hv).
    destruct (HP _ _ Hv Hs) as (l' & -> & Hd). rewrite (G1 _ _ Hv Hs) in Hin. injection Hin as ->. split; [exact Hv|]. split; [exact Hs|].
    destruct (sub_ifds_at lost e file 0 l) as (js & Ej & F).
    { intros o Ho. destruct (Hd o Ho) as (en & nx & De & Ae). exists en, nx. rewrite (wrap_dir _ _ _ _ _ De). now split. }
    exists js. split; [exact Ej|]. clear - F Hd. induction F; constructor.
    - destruct (Hd x (or_introl eq_refl)) as (en & nx & De & _). now rewrite (wrap_dir _ _ _ _ _ De) in H.
    - apply IHF. intros o Ho. apply Hd. now right. }
  assert (F : forall os, (forall tag l, In (tag, l) os -> exists js, sub_ifds lost e file 0 0 l = Ok js /\ Forall2 (fun o j => ifd_leaf lost e file o 0 0 = Ok j) l js) ->
     forall acc, exists r, for_each os (fun '((tag, offs) : Z * list Z) (s : list (Z * list ifd)) => do l <- sub_ifds lost e file 0 0 offs; Ok (s ++ [(tag, l)])) acc = Ok (acc ++ r)
     /\ (forall tag l, In (tag, l) os -> exists js, In (tag, js) r /\ Forall2 (fun o j => ifd_leaf lost e file o 0 0 = Ok j) l js)
     /\ (forall tag js, In (tag, js) r -> exists l, In (tag, l) os /\ Forall2 (fun o j => ifd_leaf lost e file o 0 0 = Ok j) l js)).
  { clear. intros os. induction os as [|[t o] os IH]; intros H acc; cbn [for_each].
    - exists []. rewrite app_nil_r. split; [reflexivity|]. split; intros ? ? [].
    - destruct (H t o (or_introl eq_refl)) as (js & Ej & Fj). rewrite Ej. cbn [bind].
      destruct (IH (fun tag l Hi => H tag l (or_intror Hi)) (acc ++ [(t, js)])) as (r & -> & R1 & R2). exists ((t, js) :: r). rewrite <- app_assoc. split; [reflexivity|].
      split.
      + intros tag l [[= <- <-]|Hi]; [exists js; split; [now left|exact Fj]|]. destruct (R1 tag l Hi) as (js' & ? & ?). exists js'. split; [now right|assumption].
      + intros tag js' [[= <- <-]|Hi]; [exists o; split; [now left|exact Fj]|]. destruct (R2 tag js' Hi) as (l & ? & ?). exists l. split; [now right|assumption]. }
  destruct (F os (fun tag l Hi => proj2 (proj2 (OK tag l Hi))) []) as (r & -> & R1 & R2). cbn [bind app].
  eexists. split; [reflexivity|]. cbn [i_entries i_next i_sub]. split; [exact V|]. split; [reflexivity|]. split.
  - intros tag js Hi. destruct (R2 _ _ Hi) as (l & Hl & Fl). exists l. destruct (OK _ _ Hl) as (? & ? & _). auto.
  - intros tag l Hi Hs. apply R1. apply bt_get_in; [exact AO|]. now apply G1.
Qed.

(** a finished file *)
Lemma build_parsed more root : root <> [] -> (length root <= 4096)%nat -> Forall wtag root ->
  let buf := tiff_new ++ more in
  exists file, tiff_build buf root = Ok file /\ (length buf <= length file)%nat /\ keeps 8 buf file /\
    (Z.of_nat (length file) < 2 ^ 32 -> exists off, 8 <= off < 2 ^ 32 /\ dir_at LE file 0 0 off root 0 /\ at_ file 0 ([73; 73; 42; 0] ++ le_bytes 4 off) /\ parse_header file 0 = Ok (LE, 42, off)).
Proof.
  intros Hne Hlen Hw. cbv zeta.
  assert (U : urange 32 0) by (unfold urange; lia).
  destruct (dir_build_ok root 0 (tiff_new ++ more) Hne Hlen Hw U) as (off & m2 & E2 & F).
  unfold tiff_build. rewrite E2. cbn [bind].
  set (buf2 := (tiff_new ++ more) ++ m2) in *. exists (patch4 buf2 4 off). split; [reflexivity|].
  assert (L8 : (8 <= length buf2)%nat) by (unfold buf2; rewrite !app_length; cbn; lia).
  rewrite patch4_length by exact L8. split; [unfold buf2; rewrite !app_length; lia|].
  assert (K8 : keeps 8 buf2 (patch4 buf2 4 off)) by now apply patch4_keeps.
  split; [eapply keeps_trans; [apply Z.le_refl|apply keeps_app|exact K8]|].
  intros BND. set (file := patch4 buf2 4 off) in *.
  assert (K1 : keeps (Z.of_nat (length (tiff_new ++ more))) buf2 file).
  { intros p b Hp. apply K8. rewrite app_length in Hp. change (length tiff_new) with 8%nat in Hp. lia. }
  destruct (F BND) as (Foff & Fal & FD). specialize (FD file K1). exists off.
  assert (P8 : 8 <= off) by (rewrite app_length in Foff; change (length tiff_new) with 8%nat in Foff; lia).
  assert (O32 : off < 2 ^ 32) by (destruct FD as (_ & D1 & D2 & _); lia).
  split; [lia|]. split; [exact FD|].
  unfold parse_header, file, patch4, buf2, tiff_new. cbn [app firstn].
  set (rest := skipn _ _). split; [exists [], rest; split; reflexivity|].
  assert (A : at_ ([73; 73; 42; 0] ++ le_bytes 4 off ++ rest) 0 [73; 73; 42; 0]) by (exists [], (le_bytes 4 off ++ rest); split; reflexivity).
  assert (A4 : at_ ([73; 73; 42; 0] ++ le_bytes 4 off ++ rest) 4 (le_bytes 4 off)) by (exists [73; 73; 42; 0], rest; split; reflexivity).
  change (73 :: 73 :: 42 :: 0 :: le_bytes 4 off ++ rest) with ([73; 73; 42; 0] ++ le_bytes 4 off ++ rest).
  apply (at_app _ _ [73; 73] [42; 0]) in A. destruct A as [A1 A2].
  rewrite (rd_u16_at LE _ 0 18761); [|unfold urange; lia|exact A1]. cbn [bind]. change (18761 =? 18761) with true. cbv iota. cbn [bind].
  rewrite (rd_u16_at LE _ (0 + 2) 42); [|unfold urange; lia|exact A2]. cbn [bind].
  rewrite (rd_u32_at LE _ (0 + 4) off); [reflexivity|unfold urange; lia|exact A4].
Qed.

Lemma parse_one lost fuel file off root i : 8 <= off < 2 ^ 32 -> parse_header file 0 = Ok (LE, 42, off) -> root <> [] ->
  ifd_new lost LE file off 0 0 wellknown_subs = Ok i -> values (i_entries i) = read_all root -> i_next i = 0 ->
  parse_file (S fuel) lost file 0 0 0 None [] = Some (Ok [i]).
Proof.
  intros Ho HDR Hne Ei V N. unfold parse_file. rewrite HDR. change (negb (existsb (Z.eqb 42) [42; 85; 21330; 20306])) with false. cbv iota.
  replace (off =? 0) with false by (symmetry; apply Z.eqb_neq; lia).
  assert (AC : apply_corr off 0 = off) by (unfold apply_corr, wrap_u32; rewrite Z.add_0_r; apply Z.mod_small; lia).
  rewrite AC, app_nil_r. cbn [chain_loop]. replace (off =? 0) with false by (symmetry; apply Z.eqb_neq; lia). rewrite Ei.
  assert (NE : (length (i_entries i) =? 0)%nat = false).
  { apply Nat.eqb_neq. assert (length (values (i_entries i)) = length (read_all root)) as LL by now rewrite V.
    unfold values, read_all in LL. rewrite !map_length in LL. rewrite LL. destruct root; [easy|cbn; lia]. }
  rewrite NE, N. cbn [app]. destruct fuel; reflexivity.
Qed.

(** a step of the writer that stores a directory or data *)
Lemma dir_step n d buf : good n d -> (n <= 4096)%nat -> d <> [] ->
  exists off more, dir_build d 0 buf = Ok (off, buf ++ more) /\ urange 32 off /\
    forall file lo, keeps lo (buf ++ more) file -> lo <= Z.of_nat (length buf) -> Z.of_nat (length (buf ++ more)) < 2 ^ 32 ->
      dir_at LE file 0 0 off d 0 /\ ascending d.
Proof.
  intros (A & B & C) Hn Hne. assert (U : urange 32 0) by (unfold urange; lia).
  destruct (dir_build_ok d 0 buf Hne ltac:(lia) B U) as (off & more & E & F). exists off, more. split; [exact E|]. split.
  - unfold dir_build in E. destruct (negb _); cbn [check bind] in E; [|discriminate].
    destruct (build_values d buf) as [[? b]| |]; cbn [bind] in E; try discriminate. injection E as <- _.
    unfold urange, tpos, wrap_u32. apply Z.mod_pos_bound. lia.
  - intros file lo K Hlo BND. destruct (F BND) as (_ & _ & FD). split; [|exact A]. apply FD. intros p b Hp. apply K. lia.
Qed.
Lemma data_step buf d : exists more, snd (write_data buf d) = buf ++ more /\ urange 32 (fst (write_data buf d)) /\
  forall file lo, keeps lo (buf ++ more) file -> lo <= Z.of_nat (length buf) -> Z.of_nat (length (buf ++ more)) < 2 ^ 32 ->
    at_ file (fst (write_data buf d)) d.
Proof.
  unfold write_data. destruct (pad4_app buf) as [z P]. exists (z ++ d). cbn [fst snd]. rewrite P, <- app_assoc. split; [reflexivity|].
  split; [unfold urange, tpos, wrap_u32; apply Z.mod_pos_bound; lia|]. intros file lo K Hlo B.
  assert (T : tpos (buf ++ z) = Z.of_nat (length (buf ++ z))) by (apply tpos_small; rewrite !app_length in *; lia).
  apply K; [rewrite T, app_length; lia|]. rewrite T, app_assoc. apply at_end.
Qed.
