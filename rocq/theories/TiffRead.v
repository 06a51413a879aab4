(** The reader returns exactly what a well formed directory holds. *)
From Coq Require Import List ZArith Lia Bool.
From Verif Require Import Base BaseLemmas Bits Tiff TiffSpec TiffBytes.
Import ListNotations.
Open Scope Z_scope.

Lemma ascii_count_length ss : length (flat_map (fun s => s ++ [0]) ss) = ascii_count ss.
Proof. induction ss as [|s ss IH]; [reflexivity|]. unfold ascii_count in *. cbn [flat_map fold_right]. rewrite !app_length, IH. cbn [length]. lia. Qed.

Lemma venc_length e v : length (venc e v) = vsize v.
Proof.
  destruct v; cbn [venc vsize]; try reflexivity; try apply ascii_count_length.
  all: try (apply flat_map_length_const; intros; apply enc_length).
  - apply flat_map_length_const. intros. rewrite app_length, !enc_length. reflexivity.
  - rewrite (flat_map_length_const _ 1) by (intros; apply enc_length). lia.
  - apply flat_map_length_const. intros. rewrite app_length, !enc_length. reflexivity.
Qed.

Lemma until_nul_app s r : ~ In 0 s -> until_nul (s ++ 0 :: r) = s.
Proof.
  induction s as [|b s IH]; intros H; [reflexivity|]. cbn [app until_nul].
  replace (b =? 0) with false; [|symmetry; apply Z.eqb_neq; intros ->; apply H; now left].
  f_equal. apply IH. intros C. apply H. now right.
Qed.

Lemma vtype_range v : value_ok v -> urange 16 (vtype v).
Proof. intros [H _]. unfold urange. change (2 ^ 16) with 65536. destruct v; cbn [vtype]; lia. Qed.

Definition compat (t : Z) : Z := if (t =? 0) || (12 <? t) then 7 else t.
Lemma bytesize v : value_ok v -> Z.of_nat (vcount v) * 2 ^ datashift (compat (vtype v)) = Z.of_nat (vsize v).
Proof.
  intros [H _]. unfold compat.
  destruct v as [| | | | | | | | | | | |t l]; cbn [vtype vcount vsize];
    try (match goal with |- _ * ?x = _ => let c := eval compute in x in change x with c end; lia).
  replace ((t =? 0) || (12 <? t)) with true; [change (2 ^ datashift 7) with 1; lia|].
  symmetry. destruct H as [[->|H] _]; [reflexivity|]. apply orb_true_iff. right. apply Z.ltb_lt. lia.
Qed.

Lemma rat_list_u e l : flat_map (fun r => enc e 4 (fst r) ++ enc e 4 (snd r)) l = flat_map (enc e 4) (flat_map (fun r : Z * Z => [fst r; snd r]) l).
Proof. induction l; [reflexivity|]. cbn [flat_map app]. rewrite IHl. now rewrite <- app_assoc. Qed.
Lemma rat_list_length (l : list (Z * Z)) : length (flat_map (fun r : Z * Z => [fst r; snd r]) l) = (length l * 2)%nat.
Proof. induction l; [reflexivity|]. cbn. lia. Qed.
Lemma rat_list_forall P (l : list (Z * Z)) : Forall (fun r => P (fst r) /\ P (snd r)) l -> Forall P (flat_map (fun r : Z * Z => [fst r; snd r]) l).
Proof. induction 1 as [|r l [H1 H2] _ IH]; cbn; auto. Qed.
Lemma rat_pairs (l : list (Z * Z)) : pairs (flat_map (fun r : Z * Z => [fst r; snd r]) l) = l.
Proof. rewrite pairs_flat. rewrite <- (map_id l) at 2. apply map_ext. now intros []. Qed.

Lemma parse_value_at e file p v :
  value_ok v -> at_ file p (venc e v) -> parse_value e file p (vtype v) (Z.of_nat (vcount v)) = Ok (as_read v).
Proof.
  intros [H _] A. unfold parse_value. pose proof (rd_at _ _ _ A) as R. pose proof (venc_length e v) as L.
  destruct v; cbn [vtype vcount as_read venc vsize value_ok] in *;
    repeat match goal with |- context [Z.eqb ?a ?b] => let c := eval compute in (Z.eqb a b) in
      match c with true => change (Z.eqb a b) with true | false => change (Z.eqb a b) with false end end; cbn [bind].
  - now rewrite R.
  - rewrite <- L, R. cbn [bind]. f_equal. unfold ascii_from_raw. destruct ss as [|s ss].
    + reflexivity.
    + cbn [flat_map hd]. rewrite <- app_assoc. cbn [app]. rewrite until_nul_app; [reflexivity|]. now inversion H.
  - rewrite (rd_many_at e file p 2) by assumption. reflexivity.
  - rewrite (rd_many_at e file p 4) by assumption. reflexivity.
  - rewrite rat_list_u in A.
    replace (Z.of_nat (length l) * 2) with (Z.of_nat (length (flat_map (fun r : Z * Z => [fst r; snd r]) l))) by (rewrite rat_list_length; lia).
    rewrite (rd_many_at e file p 4); [|now apply rat_list_forall|exact A]. cbn [bind]. now rewrite rat_pairs.
  - rewrite <- L, R. cbn [bind]. do 2 f_equal.
    clear - H. induction H as [|x l Hx Hl IH]; [reflexivity|]. cbn [flat_map]. rewrite map_app, IH.
    assert (enc e 1 x = [x mod 256]) as -> by (destruct e; cbn; now rewrite Z.div_1_r).
    cbn [map app]. f_equal. apply (signed_mod 1); [lia|exact Hx].
  - now rewrite R.
  - destruct (rd_many_signed e file p 2 l) as (r & -> & E); [lia|exact H|exact A|]. cbn [bind]. now rewrite E.
  - destruct (rd_many_signed e file p 4 l) as (r & -> & E); [lia|exact H|exact A|]. cbn [bind]. now rewrite E.
  - rewrite rat_list_u in A.
    replace (Z.of_nat (length l) * 2) with (Z.of_nat (length (flat_map (fun r : Z * Z => [fst r; snd r]) l))) by (rewrite rat_list_length; lia).
    destruct (rd_many_signed e file p 4 (flat_map (fun r : Z * Z => [fst r; snd r]) l)) as (r & -> & E);
      [lia|now apply rat_list_forall|exact A|]. cbn [bind]. now rewrite E, rat_pairs.
  - rewrite (rd_many_at e file p 4) by assumption. reflexivity.
  - rewrite (rd_many_at e file p 8) by assumption. reflexivity.
  - destruct H as [Ht H].
    repeat match goal with |- context [t =? ?k] => replace (t =? k) with false by (symmetry; apply Z.eqb_neq; lia) end.
    now rewrite R.
Qed.

Lemma entry_parse_at lost e file base corr p tag v :
  0 <= base -> base <= p -> p + 12 < 2 ^ 32 -> record_at e file base corr p tag v ->
  exists o, entry_parse lost e file base corr p = POk (mk_entry (as_read v) o) (p + 12).
Proof.
  intros Hb Hp Hm (Ht & Hv & A & D).
  apply at_app in A. destruct A as [A1 A]. apply at_app in A. destruct A as [A2 A3].
  rewrite !enc_length in *. change (Z.of_nat 2) with 2 in *. replace (p + 2 + 2) with (p + 4) in A3 by lia.
  unfold entry_parse. rewrite (rd_u16_at e file _ (vtype v)) by (assumption || now apply vtype_range).
  cbn [on_io]. rewrite (rd_u32_at e file _ (Z.of_nat (vcount v))); [|destruct Hv as [_ Hv]; unfold urange; lia|exact A3].
  cbn [on_io]. fold (compat (vtype v)). rewrite bytesize by assumption.
  destruct D as [[S (pad & Lp & Ap)]|[S (o & Ho & Ao & Hn & Hw & Av)]].
  - replace (Z.of_nat (vsize v) <=? 4) with true by (symmetry; apply Z.leb_le; lia).
    replace (p + 8 <? base) with false by (symmetry; apply Z.ltb_ge; lia).
    replace (p + 8 - base =? 2 ^ 32 - 1) with false by (symmetry; apply Z.eqb_neq; lia).
    replace (2 ^ 32 <=? base + (p + 8 - base)) with false by (symmetry; apply Z.leb_gt; lia). cbn [orb].
    replace (base + (p + 8 - base)) with (p + 8) by lia.
    apply at_app in Ap. destruct Ap as [Ap _]. rewrite parse_value_at by assumption. cbn [on_io].
    replace (2 ^ 32 <=? p + 12) with false by (symmetry; apply Z.leb_gt; lia). eauto.
  - replace (Z.of_nat (vsize v) <=? 4) with false by (symmetry; apply Z.leb_gt; lia).
    rewrite (rd_u32_at e file _ o) by assumption. cbn [on_io].
    unfold apply_corr, wrap_u32. cbv zeta in *.
    replace ((o + corr) mod 2 ^ 32 =? 2 ^ 32 - 1) with false by (symmetry; apply Z.eqb_neq; exact Hn).
    replace (2 ^ 32 <=? base + (o + corr) mod 2 ^ 32) with false by (symmetry; apply Z.leb_gt; exact Hw). cbn [orb].
    rewrite parse_value_at by assumption. cbn [on_io].
    replace (2 ^ 32 <=? p + 12) with false by (symmetry; apply Z.leb_gt; lia). eauto.
Qed.

Definition values (l : list (Z * entry)) : list (Z * value) := map (fun x => (fst x, e_value (snd x))) l.
Definition read_all (l : list (Z * value)) : list (Z * value) := map (fun x => (fst x, as_read (snd x))) l.

Lemma ascending_tail {A} (x : Z * A) l : ascending (x :: l) -> ascending l.
Proof. destruct x, l as [|[b ?] l]; [easy|]. now intros [_ H]. Qed.
Lemma ascending_lt {A} (l : list (Z * A)) : forall k a, ascending ((k, a) :: l) -> forall x, In x l -> k < fst x.
Proof.
  induction l as [|[b y] l IH]; intros k a H x Hx; [easy|]. destruct H as [H1 H2].
  destruct Hx as [<-|Hx]; [exact H1|]. specialize (IH b y H2 x Hx). lia.
Qed.
Lemma bt_insert_end {A} k (a : A) m : (forall x, In x m -> fst x < k) -> bt_insert k a m = m ++ [(k, a)].
Proof.
  induction m as [|[k' a'] m IH]; intros H; [reflexivity|]. cbn [bt_insert app].
  assert (k' < k) by (apply (H (k', a')); now left).
  replace (k <? k') with false by (symmetry; apply Z.ltb_ge; lia).
  replace (k =? k') with false by (symmetry; apply Z.eqb_neq; lia). f_equal. apply IH. intros x Hx. apply H. now right.
Qed.

(** which offsets a sub directory tag yields, given the entry *)
Definition sub_ok (subs : list Z) (ents : list (Z * value)) : Prop :=
  forall tag t l, In (tag, VUnknown t l) ents -> In tag subs -> l <> [].
(** no pointer tag has a value of an unknown type *)
Definition no_unknown (subs : list Z) (ents : list (Z * value)) : Prop :=
  forall tag t l, In (tag, VUnknown t l) ents -> ~ In tag subs.

Lemma bt_get_insert {A} k (a : A) m t : bt_get t (bt_insert k a m) = if t =? k then Some a else bt_get t m.
Proof.
  induction m as [|[k' a'] m IH]; cbn [bt_insert bt_get]; [reflexivity|].
  destruct (Z.ltb_spec k k') as [C|C].
  - cbn [bt_get]. reflexivity.
  - destruct (Z.eqb_spec k k') as [<-|N]; cbn [bt_get].
    + now destruct (t =? k).
    + rewrite IH. destruct (Z.eqb_spec t k'); [|reflexivity]. destruct (Z.eqb_spec t k); [lia|reflexivity].
Qed.

Lemma sub_offsets_ok subs tag v o offs : (forall t l, v = VUnknown t l -> In tag subs -> l <> []) ->
  exists offs', sub_offsets subs tag (mk_entry (as_read v) o) offs = Ok offs'.
Proof.
  intros H. unfold sub_offsets. destruct (existsb _ _) eqn:X; [|eauto]. cbn [e_value].
  apply existsb_exists in X. destruct X as [t' [Hin E]]. apply Z.eqb_eq in E. subst t'.
  destruct v; cbn [as_read]; eauto. destruct l as [|b l]; [exfalso; eapply H; eauto|]. cbn [get nth_error bind]. eauto.
Qed.

Lemma in_bt_insert_asc {A} k (a : A) m x : In x (bt_insert k a m) -> x = (k, a) \/ In x m.
Proof.
  induction m as [|[k' a'] m IH]; cbn [bt_insert]; [intros [<-|[]]; now left|].
  destruct (k <? k'); [intros [<-|H]; [now left|now right]|]. destruct (k =? k').
  - intros [<-|H]; [now left|right; now right].
  - intros [<-|H]; [right; now left|]. destruct (IH H) as [->|H']; [now left|right; now right].
Qed.
Lemma bt_insert_asc {A} k (a : A) m : ascending m -> ascending (bt_insert k a m).
Proof.
  induction m as [|[k' a'] m IH]; intros H; cbn [bt_insert]; [exact I|].
  destruct (Z.ltb_spec k k') as [C|C]; [split; assumption|].
  destruct (Z.eqb_spec k k') as [->|N].
  - destruct m as [|[b y] m]; [exact I|]. exact H.
  - specialize (IH (ascending_tail _ _ H)).
    assert (L : forall x, In x (bt_insert k a m) -> k' < fst x).
    { intros x Hx. apply in_bt_insert_asc in Hx. destruct Hx as [->|Hx]; [cbn; lia|]. eapply ascending_lt; eassumption. }
    destruct (bt_insert k a m) as [|[b y] l]; [exact I|]. split; [apply (L (b, y)); now left|exact IH].
Qed.

(** the entry loop over the last [length rest] records *)
Lemma ifd_loop_at lost e file base corr subs : forall rest i start entries offs pos done_,
  0 <= base -> base <= start -> start + 12 * Z.of_nat (length rest) < 2 ^ 32 ->
  (i + length rest <= 4096)%nat ->
  (forall j tag v, nth_error rest j = Some (tag, v) -> record_at e file base corr (start + 12 * Z.of_nat j) tag v) ->
  ascending rest -> (forall x y, In x done_ -> In y rest -> fst x < fst y) ->
  values entries = read_all done_ -> sub_ok subs rest ->
  pos = start ->
  exists entries' offs',
    ifd_loop lost e file base corr subs (length rest) i 0 start entries offs pos
      = Ok (entries', offs', start + 12 * Z.of_nat (length rest))
    /\ values entries' = read_all (done_ ++ rest)
    /\ (no_unknown subs rest ->
        (forall tag l, In (tag, VLong l) rest -> In tag subs -> bt_get tag offs' = Some l)
        /\ (forall k, (forall y, In y rest -> fst y <> k) -> bt_get k offs' = bt_get k offs))
    /\ (no_unknown subs rest -> forall k l, bt_get k offs' = Some l -> In k subs \/ bt_get k offs = Some l)
    /\ (ascending offs -> ascending offs').
Proof.
  induction rest as [|[tag v] rest IH]; intros i start entries offs pos done_ Hb Hs Hm Hi Hr Hasc Hlt Hval Hsub ->.
  - exists entries, offs. cbn [length ifd_loop Z.of_nat]. rewrite app_nil_r. split; [f_equal; f_equal; lia|]. split; [exact Hval|].
    split; [|split; [now right|auto]]. intros _. split; [intros ? ? []|reflexivity].
  - cbn [length] in *. cbn [ifd_loop].
    replace (MAX_IFD_ENTRIES <=? i)%nat with false by (symmetry; apply Nat.leb_gt; unfold MAX_IFD_ENTRIES; lia).
    replace (2 ^ 32 <=? start + 12) with false by (symmetry; apply Z.leb_gt; lia).
    pose proof (Hr 0%nat tag v eq_refl) as R. rewrite Z.mul_0_r, Z.add_0_r in R.
    assert (T : rd_u16 e file start = Ok tag).
    { destruct R as (Ht & _ & A & _). apply at_app in A. destruct A as [A _]. now apply rd_u16_at. }
    rewrite T. destruct (entry_parse_at lost e file base corr start tag v) as [o E]; [lia|lia|lia|exact R|]. rewrite E.
    destruct (sub_offsets_ok subs tag v o offs) as [offs' HS].
    { intros t l -> Hin. eapply Hsub; [now left|exact Hin]. }
    rewrite HS. cbn [bind].
    assert (INS : bt_insert tag (mk_entry (as_read v) o) entries = entries ++ [(tag, mk_entry (as_read v) o)]).
    { apply bt_insert_end. intros x Hx.
      assert (In (fst x, e_value (snd x)) (read_all done_)) as Hd.
      { rewrite <- Hval. unfold values. apply in_map_iff. exists x. now split. }
      unfold read_all in Hd. apply in_map_iff in Hd. destruct Hd as [[dt dv] [Ed Hd]]. cbn in Ed. injection Ed as <- _.
      apply (Hlt (dt, dv) (tag, v)); [exact Hd|now left]. }
    rewrite INS.
    destruct (IH (S i) (start + 12) (entries ++ [(tag, mk_entry (as_read v) o)]) offs' (start + 12) (done_ ++ [(tag, v)]))
      as (entries2 & offs2 & E2 & V2 & L2 & M2 & A2); clear IH.
    + lia.
    + lia.
    + lia.
    + lia.
    + intros j t w Hj. replace (start + 12 + 12 * Z.of_nat j) with (start + 12 * Z.of_nat (S j)) by lia. now apply Hr.
    + now apply ascending_tail in Hasc.
    + intros x y Hx Hy. rewrite in_app_iff in Hx. destruct Hx as [Hx|[<-|[]]].
      * apply Hlt; [exact Hx|now right].
      * eapply ascending_lt; eassumption.
    + unfold values, read_all in *. rewrite !map_app, Hval. reflexivity.
    + intros t1 t2 l Hin. apply (Hsub t1 t2 l). now right.
    + reflexivity.
    + exists entries2, offs2. rewrite E2. split; [do 2 f_equal; lia|]. split; [rewrite V2, <- app_assoc; reflexivity|].
      assert (GRP : forall P Q R : Prop, P -> Q -> R -> P /\ Q /\ R) by tauto. apply GRP.
      2:{ intros Hu k l G.
          destruct (M2 (fun t1 t2 l' Hin => Hu t1 t2 l' (or_intror Hin)) k l G) as [M|M]; [now left|]. unfold sub_offsets in HS.
          destruct (existsb (Z.eqb tag) subs) eqn:X; [|injection HS as <-; now right].
          apply existsb_exists in X. destruct X as [t' [Hin Et]]. apply Z.eqb_eq in Et. subst t'.
          destruct v; cbn [e_value as_read] in HS; try (injection HS as <-; now right);
            try (exfalso; eapply Hu; [now left|exact Hin]);
            injection HS as <-; rewrite bt_get_insert in M; destruct (Z.eqb_spec k tag) as [->|]; (now left) || now right. }
      2:{ intros Ao. apply A2. clear - HS Ao. unfold sub_offsets in HS.
          destruct (existsb (Z.eqb tag) subs); [|injection HS as <-; exact Ao].
          destruct v; cbn [e_value as_read] in HS; try (injection HS as <-; exact Ao); try (injection HS as <-; now apply bt_insert_asc).
          destruct (get l 0); cbn [bind] in HS; try discriminate. injection HS as <-. now apply bt_insert_asc. }
      intros Hu.
      destruct L2 as [G1 G2]; [intros t1 t2 l Hin; apply (Hu t1 t2 l); now right|].
      assert (OFF : (forall l, v = VLong l -> In tag subs -> bt_get tag offs' = Some l)
        /\ (forall k, k <> tag -> bt_get k offs' = bt_get k offs)).
      { unfold sub_offsets in HS. destruct (existsb (Z.eqb tag) subs) eqn:X.
        - assert (Hin : In tag subs). { apply existsb_exists in X. destruct X as [t' [Hin Et]]. apply Z.eqb_eq in Et. now subst. }
          destruct v; cbn [e_value as_read] in HS; try (injection HS as <-).
          all: try (split; [discriminate|]; intros; try reflexivity).
          + split; [|intros k Hk; rewrite bt_get_insert; now replace (k =? tag) with false by (symmetry; apply Z.eqb_neq; lia)].
            intros l' [= <-] _. now rewrite bt_get_insert, Z.eqb_refl.
          + rewrite bt_get_insert. now replace (k =? tag) with false by (symmetry; apply Z.eqb_neq; lia).
          + exfalso. eapply Hu; [now left|exact Hin].
        - injection HS as <-. split; [|reflexivity]. intros l _ Hin. exfalso.
          assert (existsb (Z.eqb tag) subs = true) by (apply existsb_exists; exists tag; split; [exact Hin|apply Z.eqb_refl]). congruence. }
      destruct OFF as [O1 O2]. split.
      * intros t l [[= -> ->]|Hin] Hs'.
        -- rewrite G2; [now apply O1|]. intros y Hy. pose proof (ascending_lt _ _ _ Hasc y Hy). lia.
        -- now apply G1.
      * intros k Hk. rewrite G2; [|intros y Hy; apply Hk; now right]. apply O2. intros ->. apply (Hk (tag, v)); [now left|reflexivity].
Qed.

Definition next_of (next corr : Z) : Z := if next =? 0 then 0 else (next + corr) mod 2 ^ 32.

Lemma ifd_head_at lost e file base corr off ents next subs :
  dir_at e file base corr off ents next -> ascending ents -> sub_ok subs ents ->
  exists entries offs, ifd_head lost e file off base corr subs = Ok (entries, offs, next_of next corr) /\
    values entries = read_all ents /\
    (no_unknown subs ents -> forall tag l, In (tag, VLong l) ents -> In tag subs -> bt_get tag offs = Some l) /\
    (no_unknown subs ents -> forall tag l, bt_get tag offs = Some l -> In tag subs /\ exists v, In (tag, v) ents) /\ ascending offs.
Proof.
  intros (Hb & Ho & Hm & Hn & A & R & Nx & B) Hasc Hsub. unfold ifd_head.
  replace (base + off <? 2 ^ 32) with true by (symmetry; apply Z.ltb_lt; lia). cbn [assert_ bind].
  rewrite (rd_u16_at e file _ (Z.of_nat (length ents))); [|unfold urange; change (2 ^ 16) with 65536; lia|exact A].
  cbn [bind]. rewrite Nat2Z.id. unfold wrap_u32. rewrite (Z.mod_small (base + off + 2)) by lia.
  destruct (ifd_loop_at lost e file base corr subs ents 0 (base + off + 2) [] [] (base + off + 2) []) as (es & os & E & V & L & M & A2);
    [lia|lia|lia|lia|exact R|exact Hasc|intros x y []|reflexivity|exact Hsub|reflexivity|].
  rewrite E. cbn [bind]. rewrite (rd_u32_at e file _ next) by assumption. exists es, os. split; [reflexivity|]. split; [exact V|].
  split; [intros Hl; now apply L|]. split; [|apply A2; exact I].
  intros Hu tag l G. split; [destruct (M Hu tag l G) as [?|?]; [assumption|discriminate]|].
  destruct (in_dec Z.eq_dec tag (map fst ents)) as [Hin|Hno].
  - apply in_map_iff in Hin. destruct Hin as [[t v] [<- Hin]]. eauto.
  - destruct (L Hu) as [_ L2]. rewrite L2 in G; [discriminate|]. intros y Hy <-. apply Hno. now apply in_map.
Qed.

Lemma ifd_leaf_at lost e file base corr off ents next :
  dir_at e file base corr off ents next -> ascending ents ->
  exists i, ifd_leaf lost e file off base corr = Ok i /\ values (i_entries i) = read_all ents /\ i_next i = next_of next corr /\ i_off i = off.
Proof.
  intros D Hasc. unfold ifd_leaf.
  destruct (ifd_head_at lost e file base corr off ents next [] D Hasc) as (es & os & E & V & _); [intros ? ? ? ? []|].
  rewrite E. cbn [bind]. eexists. split; [reflexivity|]. cbn. auto.
Qed.
