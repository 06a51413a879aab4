(** Reading arbitrary files: bounds, panics, provenance of the values. *)
From Coq Require Import List ZArith Lia Bool.
From Verif Require Import Base BaseLemmas Bits Tiff TiffSpec TiffBytes TiffRead.
Import ListNotations.
Open Scope Z_scope.

(** ** Provenance *)
(** the stored bytes of a value that was read *)
Definition stored (e : bord) (v : value) : list Z := match v with VAscii _ plain => plain | _ => venc e v end.

Lemma at_bytes file p b : Forall (urange 8) file -> at_ file p b -> Forall (urange 8) b.
Proof. intros H (pre & post & -> & _). rewrite !Forall_app in H. apply H. Qed.

Lemma chunks_enc e k : forall n b, length b = (n * k)%nat -> Forall (urange 8) b ->
  flat_map (enc e k) (map (dec e) (chunks n k b)) = b.
Proof.
  induction n as [|n IH]; intros b L H; [destruct b; [reflexivity|discriminate]|].
  cbn [chunks]. replace (k <=? length b)%nat with true by (symmetry; apply Nat.leb_le; lia). cbn [map flat_map].
  rewrite IH; [|rewrite skipn_length; lia|].
  - assert (LF : length (firstn k b) = k) by (rewrite firstn_length; lia).
    rewrite <- LF at 1. rewrite enc_dec; [apply firstn_skipn|].
    rewrite <- (firstn_skipn k b) in H. rewrite Forall_app in H. apply H.
  - rewrite <- (firstn_skipn k b) in H. rewrite Forall_app in H. apply H.
Qed.
Lemma chunks_range e k : forall n b, Forall (urange 8) b -> Forall (urange (8 * Z.of_nat k)) (map (dec e) (chunks n k b)).
Proof.
  induction n as [|n IH]; intros b H; [constructor|]. cbn [chunks]. destruct (Nat.leb_spec k (length b)); [|constructor]. cbn [map].
  rewrite <- (firstn_skipn k b) in H. rewrite Forall_app in H. destruct H as [H1 H2]. constructor; [|now apply IH].
  pose proof (dec_range e (firstn k b) H1) as D. rewrite firstn_length, Nat.min_l in D by lia. exact D.
Qed.
Lemma rd_many_inv e file p k n l : Forall (urange 8) file -> 0 <= p -> 0 <= n -> rd_many e file p k n = Ok l ->
  at_ file p (flat_map (enc e k) l) /\ Forall (urange (8 * Z.of_nat k)) l.
Proof.
  intros HB Hp Hn. unfold rd_many. destruct (rd _ _ _) as [b| |] eqn:R; cbn [bind]; try discriminate. intros [= <-].
  apply rd_inv in R; [|exact Hp|lia]. destruct R as [A L].
  pose proof (at_bytes _ _ _ HB A) as HB'.
  split; [|now apply chunks_range]. rewrite chunks_enc; [exact A|lia|exact HB'].
Qed.
Lemma flat_enc_signed e k l : (0 < k)%nat -> Forall (urange (8 * Z.of_nat k)) l -> flat_map (enc e k) (map (signed k) l) = flat_map (enc e k) l.
Proof.
  intros Hk. induction 1 as [|x l Hx _ IH]; [reflexivity|]. cbn [map flat_map]. rewrite IH. f_equal.
  rewrite <- (enc_mod e k (signed k x)). f_equal. now apply signed_range.
Qed.
Lemma pairs_enc e : forall n l, (length l = 2 * n)%nat -> flat_map (fun r => enc e 4 (fst r) ++ enc e 4 (snd r)) (pairs l) = flat_map (enc e 4) l.
Proof.
  induction n as [|n IH]; intros l L; [destruct l; [reflexivity|discriminate]|].
  destruct l as [|a [|b l]]; cbn [length] in L; try lia. cbn [pairs flat_map fst snd]. rewrite IH by lia. now rewrite <- app_assoc.
Qed.
Lemma rd_many_length e file p k n l : 0 <= p -> 0 <= n -> rd_many e file p k n = Ok l -> length l = Z.to_nat n.
Proof.
  intros Hp Hn. unfold rd_many. destruct (rd _ _ _) as [b| |] eqn:R; cbn [bind]; try discriminate. intros [= <-].
  apply rd_inv in R; [|exact Hp|lia]. destruct R as [_ L]. rewrite map_length.
  assert (L' : length b = (Z.to_nat n * k)%nat) by nia. clear L. revert b L'.
  induction (Z.to_nat n) as [|m IH]; intros b L'; [reflexivity|]. cbn [chunks].
  replace (k <=? length b)%nat with true by (symmetry; apply Nat.leb_le; lia). cbn [length]. f_equal. apply IH. rewrite skipn_length. lia.
Qed.

Lemma parse_value_inv e file p typ count v : Forall (urange 8) file -> 0 <= p -> 0 <= count ->
  parse_value e file p typ count = Ok v -> at_ file p (stored e v) /\ vtype v = typ.
Proof.
  intros HB Hp Hc. unfold parse_value.
  destruct (Z.eqb_spec typ 1) as [->|N1].
  { destruct (rd _ _ _) as [b| |] eqn:R; cbn [bind]; try discriminate. intros [= <-]. apply rd_inv in R; [|lia..]. now split. }
  destruct (Z.eqb_spec typ 2) as [->|N2].
  { destruct (rd _ _ _) as [b| |] eqn:R; cbn [bind]; try discriminate. intros [= <-]. apply rd_inv in R; [|lia..]. now split. }
  destruct (Z.eqb_spec typ 3) as [->|N3].
  { destruct (rd_many _ _ _ _ _) as [b| |] eqn:R; cbn [bind]; try discriminate. intros [= <-]. apply rd_many_inv in R; [|assumption..]. now split. }
  destruct (Z.eqb_spec typ 4) as [->|N4].
  { destruct (rd_many _ _ _ _ _) as [b| |] eqn:R; cbn [bind]; try discriminate. intros [= <-]. apply rd_many_inv in R; [|assumption..]. now split. }
  destruct (Z.eqb_spec typ 5) as [->|N5].
  { destruct (rd_many _ _ _ _ _) as [b| |] eqn:R; cbn [bind]; try discriminate. intros [= <-]. assert (Hc2 : 0 <= count * 2) by lia. pose proof (rd_many_length _ _ _ _ _ _ Hp Hc2 R) as L.
    apply rd_many_inv in R; [|assumption|lia|lia]. split; [|reflexivity]. cbn [stored venc]. rewrite (pairs_enc e (Z.to_nat count)) by lia. apply R. }
  destruct (Z.eqb_spec typ 6) as [->|N6].
  { destruct (rd _ _ _) as [b| |] eqn:R; cbn [bind]; try discriminate. intros [= <-]. apply rd_inv in R; [|lia..]. split; [|reflexivity].
    cbn [stored venc]. rewrite (flat_enc_signed e 1) by (try lia; exact (at_bytes _ _ _ HB (proj1 R))).
    destruct R as [R _]. pose proof (at_bytes _ _ _ HB R) as B. replace (flat_map (enc e 1) b) with b; [exact R|].
    clear - B. induction B as [|x b Hx _ IH]; [reflexivity|]. cbn [flat_map]. rewrite <- IH.
    assert (enc e 1 x = [x mod 256]) as -> by (destruct e; cbn; now rewrite Z.div_1_r). rewrite Z.mod_small by exact Hx. reflexivity. }
  destruct (Z.eqb_spec typ 7) as [->|N7].
  { destruct (rd _ _ _) as [b| |] eqn:R; cbn [bind]; try discriminate. intros [= <-]. apply rd_inv in R; [|lia..]. now split. }
  destruct (Z.eqb_spec typ 8) as [->|N8].
  { destruct (rd_many _ _ _ _ _) as [b| |] eqn:R; cbn [bind]; try discriminate. intros [= <-]. apply rd_many_inv in R; [|assumption..].
    split; [|reflexivity]. cbn [stored venc]. rewrite (flat_enc_signed e 2) by (try lia; apply R). apply R. }
  destruct (Z.eqb_spec typ 9) as [->|N9].
  { destruct (rd_many _ _ _ _ _) as [b| |] eqn:R; cbn [bind]; try discriminate. intros [= <-]. apply rd_many_inv in R; [|assumption..].
    split; [|reflexivity]. cbn [stored venc]. rewrite (flat_enc_signed e 4) by (try lia; apply R). apply R. }
  destruct (Z.eqb_spec typ 10) as [->|N10].
  { destruct (rd_many _ _ _ _ _) as [b| |] eqn:R; cbn [bind]; try discriminate. intros [= <-]. assert (Hc2 : 0 <= count * 2) by lia. pose proof (rd_many_length _ _ _ _ _ _ Hp Hc2 R) as L.
    apply rd_many_inv in R; [|assumption|lia|lia]. split; [|reflexivity]. cbn [stored venc].
    rewrite (pairs_enc e (Z.to_nat count)) by (rewrite map_length; lia). rewrite (flat_enc_signed e 4) by (try lia; apply R). apply R. }
  destruct (Z.eqb_spec typ 11) as [->|N11].
  { destruct (rd_many _ _ _ _ _) as [b| |] eqn:R; cbn [bind]; try discriminate. intros [= <-]. apply rd_many_inv in R; [|assumption..]. now split. }
  destruct (Z.eqb_spec typ 12) as [->|N12].
  { destruct (rd_many _ _ _ _ _) as [b| |] eqn:R; cbn [bind]; try discriminate. intros [= <-]. apply rd_many_inv in R; [|assumption..]. now split. }
  destruct (rd _ _ _) as [b| |] eqn:R; cbn [bind]; try discriminate. intros [= <-]. apply rd_inv in R; [|lia..]. now split.
Qed.
Lemma parse_value_not_panic e file p typ count : parse_value e file p typ count <> Panic.
Proof.
  assert (R1 : forall {B} n (f : list Z -> B), (do v <- rd file p n; Ok (f v)) <> Panic).
  { intros B n f. pose proof (rd_not_panic file p n). destruct (rd file p n); cbn; congruence. }
  assert (R2 : forall {B} k n (f : list Z -> B), (do v <- rd_many e file p k n; Ok (f v)) <> Panic).
  { intros B k n f. unfold rd_many. pose proof (rd_not_panic file p (n * Z.of_nat k)). destruct (rd file p (n * Z.of_nat k)); cbn; congruence. }
  unfold parse_value. repeat match goal with |- (if ?c then _ else _) <> _ => destruct c end; auto.
Qed.

Lemma rd_u16_range e file p v : Forall (urange 8) file -> 0 <= p -> rd_u16 e file p = Ok v -> 0 <= v < 65536.
Proof.
  intros HB Hp. unfold rd_u16. destruct (rd _ _ _) as [b| |] eqn:R; cbn [bind]; try discriminate. intros [= <-].
  apply rd_inv in R; [|lia..]. destruct R as [A L]. pose proof (dec_range e b (at_bytes _ _ _ HB A)) as D. rewrite L in D. exact D.
Qed.
Lemma rd_u32_range e file p v : Forall (urange 8) file -> 0 <= p -> rd_u32 e file p = Ok v -> 0 <= v < 2 ^ 32.
Proof.
  intros HB Hp. unfold rd_u32. destruct (rd _ _ _) as [b| |] eqn:R; cbn [bind]; try discriminate. intros [= <-].
  apply rd_inv in R; [|lia..]. destruct R as [A L]. pose proof (dec_range e b (at_bytes _ _ _ HB A)) as D. rewrite L in D. exact D.
Qed.
Lemma rd_u16_bound e file p v : rd_u16 e file p = Ok v -> p + 2 <= Z.of_nat (length file).
Proof.
  unfold rd_u16, rd. destruct (Z.leb_spec (p + 2) (Z.of_nat (length file))); [lia|discriminate].
Qed.
Lemma rd_u16_not_panic e file p : rd_u16 e file p <> Panic.
Proof. unfold rd_u16. pose proof (rd_not_panic file p 2). destruct (rd file p 2); cbn; congruence. Qed.
Lemma rd_u32_not_panic e file p : rd_u32 e file p <> Panic.
Proof. unfold rd_u32. pose proof (rd_not_panic file p 4). destruct (rd file p 4); cbn; congruence. Qed.

Lemma apply_corr_range o c : 0 <= apply_corr o c < 2 ^ 32.
Proof. unfold apply_corr, wrap_u32. apply Z.mod_pos_bound. lia. Qed.

Lemma entry_parse_inv lost e file base corr p en pos : Forall (urange 8) file -> 0 <= base -> 0 <= p ->
  entry_parse lost e file base corr p = POk en pos ->
  pos = p + 12 /\ at_ file (base + e_off en) (stored e (e_value en)) /\
  rd_u16 e file (p + 2) = Ok (vtype (e_value en)) /\ 0 <= e_off en < 2 ^ 32 /\
  exists count, rd_u32 e file (p + 4) = Ok count /\ parse_value e file (base + e_off en) (vtype (e_value en)) count = Ok (e_value en).
Proof.
  intros HB Hb Hp. unfold entry_parse.
  destruct (rd_u16 e file (p + 2)) as [typ| |] eqn:T; cbn [on_io]; try discriminate.
  destruct (rd_u32 e file (p + 4)) as [count| |] eqn:C; cbn [on_io]; try discriminate.
  assert (Hp4 : 0 <= p + 4) by lia. pose proof (rd_u32_range _ _ _ _ HB Hp4 C) as RC.
  assert (AFT : forall off pos', 0 <= base + off -> 0 <= off < 2 ^ 32 ->
    (if (off =? 2 ^ 32 - 1) || (2 ^ 32 <=? base + off) then PErr pos'
     else on_io lost (parse_value e file (base + off) typ count) (fun v =>
      if 2 ^ 32 <=? p + 12 then PPanic else POk (mk_entry v off) (p + 12))) = POk en pos ->
    pos = p + 12 /\ at_ file (base + e_off en) (stored e (e_value en)) /\ Ok typ = Ok (vtype (e_value en)) /\ 0 <= e_off en < 2 ^ 32 /\
    exists c', Ok count = Ok c' /\ parse_value e file (base + e_off en) (vtype (e_value en)) c' = Ok (e_value en)).
  { intros off pos' Ho Ho'. destruct (_ || _); [discriminate|].
    destruct (parse_value e file (base + off) typ count) as [v| |] eqn:P; cbn [on_io]; try discriminate.
    destruct (2 ^ 32 <=? p + 12); [discriminate|]. intros [= <- <-]. cbn [e_off e_value].
    pose proof P as P'. apply parse_value_inv in P; [|assumption|lia|lia]. destruct P as [P1 P2]. rewrite P2.
    repeat (split; [reflexivity || assumption || lia|]). exists count. now split. }
  destruct (_ <=? 4).
  - destruct (Z.ltb_spec (p + 8) base) as [|L]; [discriminate|].
    destruct (Z.leb_spec (2 ^ 32) (p + 8)) as [W|W].
    { replace (2 ^ 32 <=? base + (p + 8 - base)) with true by (symmetry; apply Z.leb_le; lia). rewrite orb_true_r. discriminate. }
    intros H. eapply AFT in H; [exact H|lia|lia].
  - destruct (rd_u32 e file (p + 8)) as [o| |] eqn:O; cbn [on_io]; try discriminate.
    intros H. eapply AFT in H; [exact H|pose proof (apply_corr_range o corr); lia|apply apply_corr_range].
Qed.

(** entries come from the file *)
Definition from_file (e : bord) (file : list Z) (base : Z) (es : list (Z * entry)) : Prop :=
  forall tag en, In (tag, en) es -> at_ file (base + e_off en) (stored e (e_value en)).
Lemma in_bt_insert {A} k (a : A) m x : In x (bt_insert k a m) -> x = (k, a) \/ In x m.
Proof.
  induction m as [|[k' a'] m IH]; cbn [bt_insert]; [intros [<-|[]]; now left|].
  destruct (k <? k'); [intros [<-|H]; [now left|now right]|].
  destruct (k =? k'); [intros [<-|H]; [now left|right; now right]|].
  intros [<-|H]; [right; now left|]. destruct (IH H); [now left|right; now right].
Qed.
Lemma bt_insert_length {A} k (a : A) m : (length (bt_insert k a m) <= S (length m))%nat.
Proof.
  induction m as [|[k' a'] m IH]; cbn [bt_insert]; [cbn; lia|].
  destruct (k <? k'); [cbn; lia|]. destruct (k =? k'); cbn [length]; lia.
Qed.

Lemma ifd_loop_from lost e file base corr subs : Forall (urange 8) file -> 0 <= base -> forall n i errs np es offs pos es' offs' pos',
  0 <= np -> from_file e file base es ->
  ifd_loop lost e file base corr subs n i errs np es offs pos = Ok (es', offs', pos') -> from_file e file base es'.
Proof.
  intros HB Hb. induction n as [|n IH]; intros i errs np es offs pos es' offs' pos' Hn F; cbn [ifd_loop]; [now intros [= <- _ _]|].
  destruct (_ <=? i)%nat; [now intros [= <- _ _]|]. destruct (_ <=? _); [discriminate|].
  destruct (rd_u16 e file np) as [tag| |]; [|now intros [= <- _ _]|discriminate].
  destruct (entry_parse lost e file base corr np) as [en p2|p2|] eqn:E; [| |discriminate].
  - destruct (sub_offsets subs tag en offs) as [o2| |]; cbn [bind]; try discriminate.
    apply entry_parse_inv in E; [|assumption|lia|lia]. destruct E as (_ & A & _).
    apply IH; [lia|]. intros t x Hx. apply in_bt_insert in Hx. destruct Hx as [[= -> ->]|Hx]; [exact A|eapply F; exact Hx].
  - destruct (5 <=? S errs)%nat; [now intros [= <- _ _]|]. apply IH; [lia|exact F].
Qed.
Lemma ifd_loop_count lost e file base corr subs : forall n i errs np es offs pos es' offs' pos',
  (length es <= i)%nat -> (i <= 4096)%nat ->
  ifd_loop lost e file base corr subs n i errs np es offs pos = Ok (es', offs', pos') -> (length es' <= 4096)%nat.
Proof.
  induction n as [|n IH]; intros i errs np es offs pos es' offs' pos' Hi Hm; cbn [ifd_loop]; [intros [= <- _ _]; lia|].
  destruct (Nat.leb_spec MAX_IFD_ENTRIES i) as [C|C]; [intros [= <- _ _]; lia|]. unfold MAX_IFD_ENTRIES in C. destruct (_ <=? _); [discriminate|].
  destruct (rd_u16 e file np) as [tag| |]; [|intros [= <- _ _]; lia|discriminate].
  destruct (entry_parse lost e file base corr np) as [en p2|p2|] eqn:E; [| |discriminate].
  - destruct (sub_offsets subs tag en offs) as [o2| |]; cbn [bind]; try discriminate. apply IH; [|lia].
    pose proof (bt_insert_length tag en es). lia.
  - destruct (5 <=? S errs)%nat; [intros [= <- _ _]; lia|]. apply IH; lia.
Qed.

Lemma ifd_head_sound lost e file off base corr subs es offs next : Forall (urange 8) file -> 0 <= base -> 0 <= off ->
  ifd_head lost e file off base corr subs = Ok (es, offs, next) -> from_file e file base es /\ (length es <= 4096)%nat /\ 0 <= next < 2 ^ 32.
Proof.
  intros HB Hb Ho. unfold ifd_head. destruct (_ <? _); cbn [assert_ bind]; [|discriminate].
  destruct (rd_u16 e file (base + off)) as [c| |]; cbn [bind]; try discriminate.
  destruct (ifd_loop _ _ _ _ _ _ _ _ _ _ _ _ _) as [[[es' offs'] pos']| |] eqn:L; cbn [bind]; try discriminate. intros [= <- <- <-].
  split; [|split].
  - eapply ifd_loop_from in L; [exact L|assumption|assumption|unfold wrap_u32; apply Z.mod_pos_bound; lia|intros ? ? []].
  - eapply ifd_loop_count in L; [exact L|cbn; lia|lia].
  - destruct (_ =? 0); [lia|apply apply_corr_range].
Qed.

(** a directory and its sub directories come from the file *)
Definition ifd_sound1 (e : bord) (file : list Z) (base : Z) (i : ifd) : Prop :=
  from_file e file base (i_entries i) /\ (length (i_entries i) <= 4096)%nat.
Definition ifd_sound (e : bord) (file : list Z) (base : Z) (i : ifd) : Prop :=
  ifd_sound1 e file base i /\ forall tag l j, In (tag, l) (i_sub i) -> In j l -> ifd_sound1 e file base j.

Lemma sub_ifds_sound lost e file base corr : Forall (urange 8) file -> 0 <= base -> forall offs l, sub_ifds lost e file base corr offs = Ok l -> Forall (ifd_sound1 e file base) l.
Proof.
  intros HB Hb. induction offs as [|o offs IH]; intros l; cbn [sub_ifds]; [intros [= <-]; constructor|].
  unfold ifd_leaf. destruct (ifd_head _ _ _ _ _ _ _) as [[[es os] nx]| |] eqn:H; cbn [bind]; [|apply IH|discriminate].
  destruct (sub_ifds _ _ _ _ _ offs) as [r| |] eqn:R; cbn [bind]; try discriminate. intros [= <-]. constructor; [|now apply IH].
  apply ifd_head_sound in H; [|assumption|assumption|apply apply_corr_range]. split; apply H.
Qed.
Lemma ifd_new_sound lost e file off base corr subs i : Forall (urange 8) file -> 0 <= base -> 0 <= off ->
  ifd_new lost e file off base corr subs = Ok i -> ifd_sound e file base i /\ 0 <= i_next i < 2 ^ 32 /\ i_off i = off.
Proof.
  intros HB Hb Ho. unfold ifd_new. destruct (ifd_head _ _ _ _ _ _ _) as [[[es os] nx]| |] eqn:H; cbn [bind fst snd]; try discriminate.
  destruct (for_each _ _ _) as [sub| |] eqn:F; cbn [bind]; try discriminate. intros [= <-]. cbn [i_next i_off].
  apply ifd_head_sound in H; [|assumption..]. destruct H as (H1 & H2 & H3).
  split; [|split; [exact H3|reflexivity]]. split; [now split|]. cbn [i_sub].
  assert (G : forall os acc, for_each os (fun '(tag, offs) s => do l <- sub_ifds lost e file base corr offs; Ok (s ++ [(tag, l)])) acc = Ok sub ->
     (forall tag l j, In (tag, l) acc -> In j l -> ifd_sound1 e file base j) ->
     forall tag l j, In (tag, l) sub -> In j l -> ifd_sound1 e file base j).
  { clear F. induction os0 as [|[t o] os0 IH]; intros acc; cbn [for_each].
    - intros [= <-]. auto.
    - destruct (sub_ifds lost e file base corr o) as [l0| |] eqn:S; cbn [bind]; try discriminate.
      intros F Hacc. eapply IH; [exact F|]. intros tag l j Hin Hj. rewrite in_app_iff in Hin.
      destruct Hin as [Hin|[[= <- <-]|[]]]; [eapply Hacc; eassumption|].
      apply sub_ifds_sound in S; [|assumption..]. rewrite Forall_forall in S. now apply S. }
  intros tag l j. apply (G os []); [exact F|intros ? ? ? []].
Qed.

(** ** The chain *)
Lemma chain_loop_len lost e file base corr subs m : forall fuel next chain r,
  (length chain <= m)%nat -> chain_loop fuel lost e file base corr subs (Some m) next chain = Some (Ok r) -> (length r <= S m)%nat.
Proof.
  induction fuel as [|fuel IH]; intros next chain r L; cbn [chain_loop]; destruct (next =? 0); try (intros [= <-]; lia); try discriminate.
  destruct (ifd_new _ _ _ _ _ _ _) as [i| |]; try discriminate.
  destruct (_ =? 0)%nat; [discriminate|].
  destruct (Nat.ltb_spec m (length (chain ++ [i]))) as [C|C]; rewrite app_length in C; cbn [length] in C.
  - intros [= <-]. rewrite app_length. cbn [length]. lia.
  - apply IH. rewrite app_length. cbn [length]. lia.
Qed.
Lemma chain_loop_fuel lost e file base corr subs m : forall fuel next chain,
  (length chain <= m)%nat -> (S m <= length chain + fuel)%nat -> chain_loop fuel lost e file base corr subs (Some m) next chain <> None.
Proof.
  induction fuel as [|fuel IH]; intros next chain L F; [lia|]. cbn [chain_loop]. destruct (next =? 0); [discriminate|].
  destruct (ifd_new _ _ _ _ _ _ _) as [i| |]; try discriminate.
  destruct (_ =? 0)%nat; [discriminate|].
  destruct (Nat.ltb_spec m (length (chain ++ [i]))) as [C|C]; [discriminate|]. rewrite app_length in C; cbn [length] in C.
  apply IH; rewrite app_length; cbn [length]; lia.
Qed.
Lemma chain_loop_sound lost e file base corr subs max : Forall (urange 8) file -> 0 <= base -> forall fuel next chain r,
  0 <= next -> Forall (ifd_sound e file base) chain ->
  chain_loop fuel lost e file base corr subs max next chain = Some (Ok r) -> Forall (ifd_sound e file base) r.
Proof.
  intros HB Hb. induction fuel as [|fuel IH]; intros next chain r Hn F; cbn [chain_loop]; destruct (next =? 0); try (now intros [= <-]); try discriminate.
  destruct (ifd_new _ _ _ _ _ _ _) as [i| |] eqn:N; try discriminate.
  destruct (_ =? 0)%nat; [discriminate|].
  apply ifd_new_sound in N; [|assumption..]. destruct N as (N1 & N2 & _).
  assert (F' : Forall (ifd_sound e file base) (chain ++ [i])) by (apply Forall_app; split; [exact F|now constructor]).
  destruct max as [m|]; [destruct (m <? _)%nat; [now intros [= <-]|]|]; apply IH; auto; lia.
Qed.

(** ** Panics *)
(** a directory record whose tag is a pointer tag, whose type is unknown and
    whose count is zero *)
Definition empty_pointer (e : bord) (file : list Z) (subs : list Z) : Prop :=
  exists p tag typ, 0 <= p /\ rd_u16 e file p = Ok tag /\ In tag subs /\
    rd_u16 e file (p + 2) = Ok typ /\ (typ = 0 \/ 12 < typ) /\ rd_u32 e file (p + 4) = Ok 0.

Lemma entry_parse_not_panic lost e file corr p : 0 <= p -> p + 12 < 2 ^ 32 -> entry_parse lost e file 0 corr p <> PPanic.
Proof.
  intros Hp Hm. unfold entry_parse.
  pose proof (rd_u16_not_panic e file (p + 2)). destruct (rd_u16 e file (p + 2)) as [typ| |]; cbn [on_io]; try congruence.
  pose proof (rd_u32_not_panic e file (p + 4)). destruct (rd_u32 e file (p + 4)) as [count| |]; cbn [on_io]; try congruence.
  assert (AFT : forall off pos',
    (if (off =? 2 ^ 32 - 1) || (2 ^ 32 <=? 0 + off) then PErr pos'
     else on_io lost (parse_value e file (0 + off) typ count) (fun v =>
      if 2 ^ 32 <=? p + 12 then PPanic else POk (mk_entry v off) (p + 12))) <> PPanic).
  { intros off pos'. destruct (_ || _); [discriminate|]. pose proof (parse_value_not_panic e file (0 + off) typ count).
    destruct (parse_value _ _ _ _ _); cbn [on_io]; try congruence.
    replace (2 ^ 32 <=? p + 12) with false by (symmetry; apply Z.leb_gt; lia). discriminate. }
  destruct (_ <=? 4).
  - replace (p + 8 <? 0) with false by (symmetry; apply Z.ltb_ge; lia). apply AFT.
  - pose proof (rd_u32_not_panic e file (p + 8)). destruct (rd_u32 e file (p + 8)); cbn [on_io]; try congruence. apply AFT.
Qed.

Lemma sub_offsets_panic subs tag en offs : sub_offsets subs tag en offs = Panic -> In tag subs /\ exists t, e_value en = VUnknown t [].
Proof.
  unfold sub_offsets. destruct (existsb _ _) eqn:X; [|discriminate].
  apply existsb_exists in X. destruct X as [t' [Hin E]]. apply Z.eqb_eq in E. subst t'.
  destruct (e_value en); try discriminate. destruct l; [|discriminate]. eauto.
Qed.
Lemma sub_offsets_not_err subs tag en offs : sub_offsets subs tag en offs <> Err.
Proof.
  unfold sub_offsets. destruct (existsb _ _); [|discriminate]. destruct (e_value en); try discriminate. destruct l; discriminate.
Qed.

Lemma parse_value_unknown e file p typ count t : Forall (urange 8) file -> 0 <= p -> 0 <= count -> 0 <= typ ->
  parse_value e file p typ count = Ok (VUnknown t []) -> (typ = 0 \/ 12 < typ) /\ count = 0.
Proof.
  intros HB Hp Hc Ht. unfold parse_value.
  destruct (Z.eqb_spec typ 1); [destruct (rd _ _ _); discriminate|].
  destruct (Z.eqb_spec typ 2); [destruct (rd _ _ _); discriminate|].
  destruct (Z.eqb_spec typ 3); [destruct (rd_many _ _ _ _ _); discriminate|].
  destruct (Z.eqb_spec typ 4); [destruct (rd_many _ _ _ _ _); discriminate|].
  destruct (Z.eqb_spec typ 5); [destruct (rd_many _ _ _ _ _); discriminate|].
  destruct (Z.eqb_spec typ 6); [destruct (rd _ _ _); discriminate|].
  destruct (Z.eqb_spec typ 7); [destruct (rd _ _ _); discriminate|].
  destruct (Z.eqb_spec typ 8); [destruct (rd_many _ _ _ _ _); discriminate|].
  destruct (Z.eqb_spec typ 9); [destruct (rd_many _ _ _ _ _); discriminate|].
  destruct (Z.eqb_spec typ 10); [destruct (rd_many _ _ _ _ _); discriminate|].
  destruct (Z.eqb_spec typ 11); [destruct (rd_many _ _ _ _ _); discriminate|].
  destruct (Z.eqb_spec typ 12); [destruct (rd_many _ _ _ _ _); discriminate|].
  destruct (rd _ _ _) as [b| |] eqn:R; cbn [bind]; try discriminate. intros [= <- ->].
  apply rd_inv in R; [|lia..]. destruct R as [_ L]. cbn in L. lia.
Qed.

Lemma ifd_loop_panic lost e file corr subs : Forall (urange 8) file -> Z.of_nat (length file) < 2 ^ 32 - 32 ->
  forall n i errs np es offs pos, 0 <= np <= Z.of_nat (length file) + 10 ->
  ifd_loop lost e file 0 corr subs n i errs np es offs pos = Panic -> empty_pointer e file subs.
Proof.
  intros HB HL. induction n as [|n IH]; intros i errs np es offs pos Hn; cbn [ifd_loop]; [discriminate|].
  destruct (_ <=? i)%nat; [discriminate|].
  replace (2 ^ 32 <=? np + 12) with false by (symmetry; apply Z.leb_gt; lia).
  pose proof (rd_u16_not_panic e file np). destruct (rd_u16 e file np) as [tag| |] eqn:T; [|discriminate|congruence].
  pose proof (rd_u16_bound _ _ _ _ T).
  destruct (entry_parse lost e file 0 corr np) as [en p2|p2|] eqn:E.
  - destruct (sub_offsets subs tag en offs) as [o2| |] eqn:S; cbn [bind].
    + apply IH. lia.
    + discriminate.
    + intros _. apply sub_offsets_panic in S. destruct S as [Hin [t Hv]].
      apply entry_parse_inv in E; [|assumption|lia|lia]. destruct E as (_ & _ & E1 & E2 & c & E3 & E4). rewrite Hv in *.
      assert (Hn2 : 0 <= np + 2) by lia. assert (Hn4 : 0 <= np + 4) by lia. pose proof (rd_u16_range _ _ _ _ HB Hn2 E1). pose proof (rd_u32_range _ _ _ _ HB Hn4 E3).
      apply parse_value_unknown in E4; [|assumption|lia|lia|lia]. destruct E4 as [E4 ->].
      exists np, tag, (vtype (VUnknown t [])). repeat (split; [assumption || lia|]). assumption.
  - destruct (5 <=? S errs)%nat; [discriminate|]. apply IH. lia.
  - exfalso. revert E. apply entry_parse_not_panic; lia.
Qed.

Lemma ifd_head_panic lost e file off corr subs : Forall (urange 8) file -> Z.of_nat (length file) < 2 ^ 32 - 32 -> 0 <= off < 2 ^ 32 ->
  ifd_head lost e file off 0 corr subs = Panic -> empty_pointer e file subs.
Proof.
  intros HB HL Ho. unfold ifd_head. replace (0 + off <? 2 ^ 32) with true by (symmetry; apply Z.ltb_lt; lia). cbn [assert_ bind].
  pose proof (rd_u16_not_panic e file (0 + off)). destruct (rd_u16 e file (0 + off)) as [c| |] eqn:C; cbn [bind]; try congruence.
  apply rd_u16_bound in C.
  destruct (ifd_loop _ _ _ _ _ _ _ _ _ _ _ _ _) as [[x pos]| |] eqn:L; cbn [bind]; try discriminate.
  intros _. eapply ifd_loop_panic; [exact HB|exact HL| |exact L]. unfold wrap_u32. rewrite Z.mod_small; lia.
Qed.
Lemma empty_pointer_nil e file : ~ empty_pointer e file [].
Proof. intros (p & tag & typ & _ & _ & [] & _). Qed.
Lemma ifd_leaf_not_panic lost e file off corr : Forall (urange 8) file -> Z.of_nat (length file) < 2 ^ 32 - 32 -> 0 <= off < 2 ^ 32 ->
  ifd_leaf lost e file off 0 corr <> Panic.
Proof.
  intros HB HL Ho. unfold ifd_leaf. destruct (ifd_head _ _ _ _ _ _ _) as [[x n]| |] eqn:H; cbn [bind]; try discriminate.
  apply ifd_head_panic in H; [|assumption..]. now apply empty_pointer_nil in H.
Qed.
Lemma sub_ifds_ok lost e file corr : Forall (urange 8) file -> Z.of_nat (length file) < 2 ^ 32 - 32 ->
  forall offs, exists l, sub_ifds lost e file 0 corr offs = Ok l.
Proof.
  intros HB HL. induction offs as [|o offs [l IH]]; cbn [sub_ifds]; [eauto|]. rewrite IH.
  pose proof (ifd_leaf_not_panic lost e file (apply_corr o corr) corr HB HL (apply_corr_range o corr)).
  destruct (ifd_leaf _ _ _ _ _ _); cbn [bind]; eauto. congruence.
Qed.
Lemma ifd_new_panic lost e file off corr subs : Forall (urange 8) file -> Z.of_nat (length file) < 2 ^ 32 - 32 -> 0 <= off < 2 ^ 32 ->
  ifd_new lost e file off 0 corr subs = Panic -> empty_pointer e file subs.
Proof.
  intros HB HL Ho. unfold ifd_new. destruct (ifd_head _ _ _ _ _ _ _) as [[[es os] n]| |] eqn:H; cbn [bind fst snd]; try discriminate.
  2:{ intros _. now apply ifd_head_panic in H. }
  assert (G : forall os acc, exists r, for_each os (fun '((tag, offs) : Z * list Z) (s : list (Z * list ifd)) => do l <- sub_ifds lost e file 0 corr offs; Ok (s ++ [(tag, l)])) acc = Ok r).
  { induction os0 as [|[t o] os0 IH]; intros acc; cbn [for_each]; [eauto|]. destruct (sub_ifds_ok lost e file corr HB HL o) as [l ->]. cbn [bind]. apply IH. }
  destruct (G os []) as [r ->]. discriminate.
Qed.
Lemma chain_loop_panic lost e file corr subs max : Forall (urange 8) file -> Z.of_nat (length file) < 2 ^ 32 - 32 -> forall fuel next chain,
  0 <= next < 2 ^ 32 -> chain_loop fuel lost e file 0 corr subs max next chain = Some Panic -> empty_pointer e file subs.
Proof.
  intros HB HL. induction fuel as [|fuel IH]; intros next chain Hn; cbn [chain_loop]; destruct (next =? 0); try discriminate.
  destruct (ifd_new _ _ _ _ _ _ _) as [i| |] eqn:N; try discriminate.
  2:{ intros _. now apply ifd_new_panic in N. }
  destruct (_ =? 0)%nat; [discriminate|].
  apply ifd_new_sound in N; [|assumption|lia|lia]. destruct N as (_ & N & _).
  destruct max as [m|]; [destruct (m <? _)%nat; [discriminate|]|]; apply IH; assumption.
Qed.
