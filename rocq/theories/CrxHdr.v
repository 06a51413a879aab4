(** Proofs: the header of CRX image data. *)
From Coq Require Import List ZArith Bool Lia.
From Verif Require Import Base BaseLemmas Crx CrxLL Idwt CrxImage CrxSpec IdwtSpec CrxImageSpec.
Import ListNotations.
Open Scope Z_scope.

Lemma rd16_be v l : rd16 (be16 v ++ l) = Ok (v, l).
Proof. cbn. do 2 f_equal. pose proof (Z.div_mod v 256). lia. Qed.
Lemma rd32_be v l : rd32 (be32 v ++ l) = Ok (v, l).
Proof.
  unfold rd32, be32. rewrite <- app_assoc, rd16_be. cbn [bind]. rewrite rd16_be. cbn [bind]. do 2 f_equal.
  pose proof (Z.div_mod v 65536). lia.
Qed.

Lemma land_bit x n : 0 <= n -> (Z.land x (2 ^ n) =? 0) = negb (x / 2 ^ n mod 2 =? 1).
Proof.
  intros Hn. destruct (Z.eqb_spec (x / 2 ^ n mod 2) 1) as [E|E].
  - apply Z.eqb_neq. intro F. apply Z.testbit_true in E; [|exact Hn].
    assert (Z.testbit (Z.land x (2 ^ n)) n = true) as G by (rewrite Z.land_spec, E, Z.pow2_bits_true by lia; reflexivity).
    rewrite F, Z.bits_0 in G. discriminate.
  - apply Z.eqb_eq. apply Z.bits_inj'. intros k Hk. rewrite Z.land_spec, Z.bits_0.
    destruct (Z.eq_dec k n) as [->|N].
    + destruct (Z.testbit x n) eqn:T; [|reflexivity]. apply Z.testbit_true in T; [contradiction|lia].
    + rewrite Z.pow2_bits_false by lia. apply andb_false_r.
Qed.

(** ** What the records mean *)

Definition sub_of (new : bool) (off : Z) (b : cband) : subband :=
  mk_sub (zlen (cb_bytes b)) false (if new then 0 else cb_q b) (if new then cb_base b else 0) (if new then cb_mult b else 0)
    off (zlen (cb_bytes b) - cb_unused b) 0 0 0 0 0 0 0.
Fixpoint subs_of (new : bool) (off : Z) (bs : list cband) : list subband :=
  match bs with [] => [] | b :: t => sub_of new off b :: subs_of new (off + zlen (cb_bytes b)) t end.
Definition pl_of (new : bool) (off : Z) (p : cplane) : planeh :=
  mk_pl (zlen (plane_bytes p)) (cp_pred p) 0 off (subs_of new 0 (cp_bands p)).
Fixpoint pls_of (new : bool) (off : Z) (ps : list cplane) : list planeh :=
  match ps with [] => [] | p :: t => pl_of new off p :: pls_of new (off + zlen (plane_bytes p)) t end.
Definition ti_of (new qp : bool) (off : Z) (t : ctile) : tileh :=
  mk_ti (zlen (tile_bytes t)) (if qp then Some (zlen (ct_qp t), zlen (ct_pad t)) else None) off 0 0
    (mk_nbrs false false false false) (pls_of new 0 (ct_planes t)) None.
Fixpoint tis_of (new qp : bool) (off : Z) (ts : list ctile) : list tileh :=
  match ts with [] => [] | t :: r => ti_of new qp off t :: tis_of new qp (off + zlen (tile_bytes t)) r end.

(** ** One record *)

Definition body (l : list Z) : list Z := skipn 2 l.

Lemma zlen_nonneg {A} (l : list A) : 0 <= zlen l. Proof. unfold zlen. lia. Qed.

Lemma band_old i b off l : band_ok b -> subband_new (body (band_record false i b) ++ l) 0xFF03 off = Ok (sub_of false off b, l).
Proof.
  intros (H1 & H2 & H3 & H4 & H5 & H6 & H7 & H8). unfold band_record.
  change (body (be16 0xFF03 ++ ?x)) with x. rewrite <- !app_assoc. unfold subband_new. rewrite rd16_be. cbn [bind].
  cbn [Z.eqb Pos.eqb andb orb assert_ bind]. rewrite rd32_be. cbn [bind]. rewrite rd32_be. cbn [bind].
  set (f := i mod 16 * 2 ^ 28 + cb_q b * 2 ^ 19 + cb_unused b).
  pose proof (Z.mod_pos_bound i 16 ltac:(lia)) as Hi.
  change 0x7FFFF with (Z.ones 19). rewrite Z.land_ones by lia.
  assert (f mod 2 ^ 19 = cb_unused b) as E1.
  { unfold f. symmetry. apply Z.mod_unique with (i mod 16 * 2 ^ 9 + cb_q b); lia. }
  rewrite E1. rewrite u32_ok by lia. cbn [bind].
  change 0x8000000 with (2 ^ 27). rewrite land_bit by lia.
  assert (f / 2 ^ 27 = i mod 16 * 2) as E2.
  { symmetry. apply Z.div_unique with (cb_q b * 2 ^ 19 + cb_unused b); unfold f; lia. }
  rewrite E2. replace (i mod 16 * 2 mod 2) with 0 by (symmetry; apply Z.mod_mul; lia). cbn [Z.eqb negb].
  rewrite Z.shiftr_div_pow2 by lia. change 0xFF with (Z.ones 8). rewrite Z.land_ones by lia.
  assert (f / 2 ^ 19 = i mod 16 * 2 ^ 9 + cb_q b) as E3.
  { symmetry. apply Z.div_unique with (cb_unused b); unfold f; lia. }
  rewrite E3. replace ((i mod 16 * 2 ^ 9 + cb_q b) mod 2 ^ 8) with (cb_q b); [reflexivity|].
  apply Z.mod_unique with (i mod 16 * 2); lia.
Qed.

Lemma band_new_form i b off l : band_ok b -> subband_new (body (band_record true i b) ++ l) 0xFF13 off = Ok (sub_of true off b, l).
Proof.
  intros (H1 & H2 & H3 & H4 & H5 & H6 & H7 & H8). unfold band_record.
  change (body (be16 0xFF13 ++ ?x)) with x. rewrite <- !app_assoc. unfold subband_new. rewrite rd16_be. cbn [bind].
  cbn [Z.eqb Pos.eqb andb orb assert_ bind]. rewrite rd32_be. cbn [bind].
  rewrite !rd16_be. cbn [bind]. rewrite !rd16_be. cbn [bind]. rewrite rd32_be. cbn [bind]. rewrite !rd16_be. cbn [bind].
  rewrite !rd16_be. cbn [bind Z.eqb assert_].
  rewrite u32_ok by lia. cbn [bind]. unfold sub_of. do 3 f_equal.
  unfold as_i32. destruct (Z.leb_spec 0 (cb_base b)).
  - rewrite Z.mod_small by lia. destruct (Z.ltb_spec (cb_base b) (2 ^ 31)); lia.
  - replace (cb_base b mod 2 ^ 32) with (cb_base b + 2 ^ 32) by (apply Z.mod_unique with (-1); lia).
    destruct (Z.ltb_spec (cb_base b + 2 ^ 32) (2 ^ 31)); lia.
Qed.

(** ** Loops *)

Definition recs {A} (f : Z -> A -> list Z) (i : nat) (l : list A) : list Z :=
  concat (map (fun '(i, x) => f (Z.of_nat i) x) (combine (seq i (length l)) l)).
Lemma recs_cons {A} (f : Z -> A -> list Z) i x l : recs f i (x :: l) = f (Z.of_nat i) x ++ recs f (S i) l.
Proof. reflexivity. Qed.

(** The indicator that follows, 0 at the end. *)
Definition peek (l : list Z) : Z * list Z := match rd16 l with Ok (i, l) => (i, l) | _ => (0, []) end.

Lemma peek_be v l : peek (be16 v ++ l) = (v, l).
Proof. unfold peek. now rewrite rd16_be. Qed.

Section Form.
Variable new : bool.
Let bi : Z := if new then 0xFF13 else 0xFF03.

Lemma band_split i b l : band_record new i b ++ l = be16 bi ++ (body (band_record new i b) ++ l).
Proof. unfold band_record, bi. destruct new; reflexivity. Qed.
Lemma band_any i b off l : band_ok b -> subband_new (body (band_record new i b) ++ l) bi off = Ok (sub_of new off b, l).
Proof. intros H. unfold bi. destruct new; [apply band_new_form|apply band_old]; exact H. Qed.

Lemma bands_ok bs : forall i fuel off rest ind l ind0 l0,
  (length bs <= fuel)%nat -> Forall band_ok bs -> peek rest = (ind0, l0) ->
  (ind0 =? 0xFF03) || (ind0 =? 0xFF13) = false ->
  peek (recs (band_record new) i bs ++ rest) = (ind, l) ->
  parse_bands fuel ind l off = Ok (subs_of new off bs, ind0, l0).
Proof.
  induction bs as [|b bs IH]; intros i fuel off rest ind l ind0 l0 Hf HB Hr Hn Hp.
  - cbn in Hp. rewrite Hr in Hp. apply pair_equal_spec in Hp; destruct Hp as [<- <-]. destruct fuel; cbn [parse_bands]; rewrite Hn; reflexivity.
  - inversion HB as [|? ? Hb HB']; subst. destruct fuel as [|fuel]; [cbn in Hf; lia|]. cbn in Hf.
    rewrite recs_cons, <- app_assoc, band_split, peek_be in Hp. apply pair_equal_spec in Hp; destruct Hp as [<- <-].
    cbn [parse_bands]. replace ((bi =? 0xFF03) || (bi =? 0xFF13)) with true by (unfold bi; destruct new; reflexivity).
    rewrite band_any by exact Hb. cbn [bind].
    change (match rd16 (recs (band_record new) (S i) bs ++ rest) with Ok (ind, l) => (ind, l) | _ => (0, []) end)
      with (peek (recs (band_record new) (S i) bs ++ rest)).
    destruct (peek (recs (band_record new) (S i) bs ++ rest)) as [ind l] eqn:E.
    rewrite (IH (S i) fuel _ rest ind l ind0 l0); auto; try lia.
Qed.

Lemma recs_length {A} (f : Z -> A -> list Z) l : (forall i x, (2 <= length (f i x))%nat) -> forall i, (2 * length l <= length (recs f i l))%nat.
Proof.
  intros Hf. induction l as [|x l IH]; intros i; [cbn; lia|]. rewrite recs_cons, app_length. cbn [length].
  specialize (IH (S i)). specialize (Hf (Z.of_nat i) x). lia.
Qed.

Let pi : Z := if new then 0xFF12 else 0xFF02.

Lemma plane_split i p l : plane_record new i p ++ l =
  be16 pi ++ (be16 8 ++ be32 (zlen (plane_bytes p)) ++ be32 (i mod 16 * 2 ^ 28 + (if cp_pred p then 2 ^ 27 else 0))
              ++ recs (band_record new) 0 (cp_bands p) ++ l).
Proof. unfold plane_record, numbered, pi. rewrite <- !app_assoc. reflexivity. Qed.

Lemma plane_new_ok i p off l :
  plane_new (be16 8 ++ be32 (zlen (plane_bytes p)) ++ be32 (i mod 16 * 2 ^ 28 + (if cp_pred p then 2 ^ 27 else 0)) ++ l) off
  = Ok (mk_pl (zlen (plane_bytes p)) (cp_pred p) 0 off [], l).
Proof.
  unfold plane_new. rewrite rd16_be. cbn [bind]. rewrite rd32_be. cbn [bind]. rewrite rd32_be. cbn [bind].
  set (f := i mod 16 * 2 ^ 28 + _). pose proof (Z.mod_pos_bound i 16 ltac:(lia)) as Hi.
  change 0xFFFFFF with (Z.ones 24). rewrite Z.land_ones by lia.
  assert (f mod 2 ^ 24 = 0) as E1.
  { unfold f. symmetry. apply Z.mod_unique with (i mod 16 * 2 ^ 4 + (if cp_pred p then 2 ^ 3 else 0)); destruct (cp_pred p); lia. }
  rewrite E1. cbn [Z.eqb assert_ bind].
  rewrite Z.shiftr_div_pow2 by lia. change 3 with (Z.ones 2). rewrite Z.land_ones by lia.
  assert (f / 2 ^ 25 = i mod 16 * 2 ^ 3 + (if cp_pred p then 2 ^ 2 else 0)) as E2.
  { symmetry. apply Z.div_unique with 0; unfold f; destruct (cp_pred p); lia. }
  rewrite E2. replace ((i mod 16 * 2 ^ 3 + (if cp_pred p then 2 ^ 2 else 0)) mod 2 ^ 2) with 0
    by (apply Z.mod_unique with (i mod 16 * 2 + (if cp_pred p then 1 else 0)); destruct (cp_pred p); lia).
  cbn [Z.eqb]. change 0x8000000 with (2 ^ 27). rewrite land_bit by lia. rewrite negb_involutive.
  assert (f / 2 ^ 27 = i mod 16 * 2 + (if cp_pred p then 1 else 0)) as E3.
  { symmetry. apply Z.div_unique with 0; unfold f; destruct (cp_pred p); lia. }
  rewrite E3. replace ((i mod 16 * 2 + (if cp_pred p then 1 else 0)) mod 2) with (if cp_pred p then 1 else 0)
    by (apply Z.mod_unique with (i mod 16); destruct (cp_pred p); lia).
  destruct (cp_pred p); reflexivity.
Qed.

Lemma peek_rd16 l i r : peek l = (i, r) -> (2 <= length l)%nat -> rd16 l = Ok (i, r).
Proof. unfold peek. destruct l as [|a [|b l]]; cbn [length]; try lia. cbn. intros H _. injection H as <- <-. reflexivity. Qed.

Lemma band_rec_len i b : (2 <= length (band_record new i b))%nat.
Proof. rewrite <- (app_nil_r (band_record new i b)), band_split. cbn. lia. Qed.
Lemma plane_rec_len i p : (2 <= length (plane_record new i p))%nat.
Proof. rewrite <- (app_nil_r (plane_record new i p)), plane_split. cbn. lia. Qed.

Lemma planes_ok ps : forall i fuel off rest ind l ind0 l0,
  (length ps <= fuel)%nat -> Forall (fun p => cp_bands p <> [] /\ Forall band_ok (cp_bands p)) ps -> peek rest = (ind0, l0) ->
  (ind0 = 0 \/ ind0 = 0xFF01 \/ ind0 = 0xFF11) ->
  peek (recs (plane_record new) i ps ++ rest) = (ind, l) ->
  parse_planes fuel ind l off = Ok (pls_of new off ps, ind0, l0).
Proof.
  induction ps as [|p ps IH]; intros i fuel off rest ind l ind0 l0 Hf HB Hr Hn Hp.
  - cbn in Hp. rewrite Hr in Hp. apply pair_equal_spec in Hp; destruct Hp as [<- <-].
    destruct fuel; cbn [parse_planes]; destruct Hn as [->|[->| ->]]; reflexivity.
  - inversion HB as [|? ? [Hne Hb] HB']; subst. destruct fuel as [|fuel]; [cbn in Hf; lia|]. cbn in Hf.
    rewrite recs_cons, <- app_assoc, plane_split, peek_be in Hp. apply pair_equal_spec in Hp; destruct Hp as [<- <-].
    cbn [parse_planes]. replace ((pi =? 0xFF02) || (pi =? 0xFF12)) with true by (unfold pi; destruct new; reflexivity).
    rewrite plane_new_ok. cbn [bind].
    set (tl := recs (plane_record new) (S i) ps ++ rest).
    destruct (peek (recs (band_record new) 0 (cp_bands p) ++ tl)) as [ind1 l1] eqn:E1.
    rewrite (peek_rd16 _ _ _ E1).
    2:{ destruct (cp_bands p) as [|b bs]; [contradiction|]. rewrite recs_cons, !app_length.
        pose proof (band_rec_len (Z.of_nat 0) b). lia. }
    cbn [bind]. destruct (peek tl) as [ind2 l2] eqn:E2.
    rewrite (bands_ok (cp_bands p) 0 (S (length l1)) 0 tl ind1 l1 ind2 l2); auto.
    + cbn [bind]. rewrite (IH (S i) fuel _ rest ind2 l2 ind0 l0); auto; try lia.
    + assert (length (recs (band_record new) 0 (cp_bands p) ++ tl) <= 2 + length l1)%nat as H1.
      { unfold peek in E1. destruct (recs (band_record new) 0 (cp_bands p) ++ tl) as [|x [|y r]]; cbn in E1 |- *; [lia|lia|].
        injection E1 as _ <-. lia. }
      rewrite app_length in H1.
      assert (2 * length (cp_bands p) <= length (recs (band_record new) 0 (cp_bands p)))%nat as H2
      by apply recs_length, band_rec_len.
      destruct (cp_bands p); [contradiction|cbn [length] in *; lia].
    + unfold tl in E2. destruct ps as [|p' ps'].
      * cbn in E2. rewrite Hr in E2. injection E2 as <- <-. destruct Hn as [->|[->| ->]]; reflexivity.
      * rewrite recs_cons, <- app_assoc, plane_split, peek_be in E2. injection E2 as <- <-. unfold pi. destruct new; reflexivity.
Qed.

Variable qp : bool.
Let ti : Z := if new then 0xFF11 else 0xFF01.

Definition tile_head (i : Z) (t : ctile) : list Z :=
  be16 (if qp then 16 else 8) ++ be32 (zlen (tile_bytes t)) ++ be32 (i mod 16 * 2 ^ 16 + (if qp then 0x4000 else 0))
  ++ (if qp then be32 (zlen (ct_qp t)) ++ be16 (zlen (ct_pad t)) ++ be16 0 else []).

Lemma tile_split i t l : tile_record new qp i t ++ l = be16 ti ++ (tile_head i t ++ recs (plane_record new) 0 (ct_planes t) ++ l).
Proof. unfold tile_record, tile_head, numbered, ti. rewrite <- !app_assoc. reflexivity. Qed.

Lemma tile_new_ok i t off l :
  tile_new (tile_head i t ++ l) off = Ok (set_planes [] (ti_of new qp off t), l).
Proof.
  unfold tile_new, tile_head. rewrite <- !app_assoc. rewrite rd16_be. cbn [bind]. rewrite rd32_be. cbn [bind]. rewrite rd32_be. cbn [bind].
  pose proof (Z.mod_pos_bound i 16 ltac:(lia)) as Hi.
  set (f := i mod 16 * 2 ^ 16 + _).
  change 0xFFFF with (Z.ones 16). rewrite Z.land_ones by lia.
  assert (f mod 2 ^ 16 = if qp then 0x4000 else 0) as E1.
  { unfold f. symmetry. apply Z.mod_unique with (i mod 16); destruct qp; lia. }
  rewrite E1. unfold ti_of, set_planes. destruct qp.
  - change (16 =? 16) with true. cbv iota. rewrite <- !app_assoc. rewrite rd32_be. cbn [bind]. rewrite rd16_be. cbn [bind].
    rewrite rd16_be. reflexivity.
  - reflexivity.
Qed.

Lemma tile_rec_len i t : (2 <= length (tile_record new qp i t))%nat.
Proof. rewrite <- (app_nil_r (tile_record new qp i t)), tile_split. cbn. lia. Qed.

Lemma peek_len l i r : peek l = (i, r) -> (length l <= 2 + length r)%nat.
Proof. unfold peek. destruct l as [|x [|y l]]; cbn; intros E; [lia|lia|]. injection E as _ <-. lia. Qed.

Definition tile_wf (t : ctile) : Prop :=
  ct_planes t <> [] /\ Forall (fun p => cp_bands p <> [] /\ Forall band_ok (cp_bands p)) (ct_planes t).

Lemma tiles_ok ts : forall i fuel off rest ind l l0,
  (length ts <= fuel)%nat -> Forall tile_wf ts -> peek rest = (0, l0) ->
  peek (recs (tile_record new qp) i ts ++ rest) = (ind, l) ->
  parse_tiles fuel ind l off = Ok (tis_of new qp off ts).
Proof.
  induction ts as [|t ts IH]; intros i fuel off rest ind l l0 Hf HB Hr Hp.
  - cbn in Hp. rewrite Hr in Hp. apply pair_equal_spec in Hp; destruct Hp as [<- <-]. destruct fuel; reflexivity.
  - inversion HB as [|? ? [Hne Hb] HB']; subst. destruct fuel as [|fuel]; [cbn in Hf; lia|]. cbn in Hf.
    rewrite recs_cons, <- app_assoc, tile_split, peek_be in Hp. apply pair_equal_spec in Hp; destruct Hp as [<- <-].
    cbn [parse_tiles]. replace ((ti =? 0xFF01) || (ti =? 0xFF11)) with true by (unfold ti; destruct new; reflexivity).
    rewrite tile_new_ok. cbn [bind].
    set (tl := recs (tile_record new qp) (S i) ts ++ rest).
    destruct (peek (recs (plane_record new) 0 (ct_planes t) ++ tl)) as [ind1 l1] eqn:E1.
    rewrite (peek_rd16 _ _ _ E1).
    2:{ destruct (ct_planes t) as [|b bs]; [contradiction|]. rewrite recs_cons, !app_length.
        pose proof (plane_rec_len (Z.of_nat 0) b). lia. }
    cbn [bind]. destruct (peek tl) as [ind2 l2] eqn:E2.
    rewrite (planes_ok (ct_planes t) 0 (S (length l1)) 0 tl ind1 l1 ind2 l2); auto.
    + cbn [bind]. rewrite (IH (S i) fuel _ rest ind2 l2 l0); auto; try lia. 
    + pose proof (peek_len _ _ _ E1) as H1. rewrite app_length in H1.
      assert (2 * length (ct_planes t) <= length (recs (plane_record new) 0 (ct_planes t)))%nat as H2
      by apply recs_length, plane_rec_len.
      destruct (ct_planes t); [contradiction|cbn [length] in *; lia].
    + unfold tl in E2. destruct ts as [|p' ps'].
      * cbn in E2. rewrite Hr in E2. injection E2 as <- <-. auto.
      * rewrite recs_cons, <- app_assoc, tile_split, peek_be in E2. injection E2 as <- <-. unfold ti. destruct new; auto.
Qed.

Lemma header_ok ts rest : ts <> [] -> Forall tile_wf ts -> header_end rest -> parse_header (header new qp ts ++ rest) = Ok (tis_of new qp 0 ts).
Proof.
  intros Hne HB He. unfold parse_header, header, numbered. change (concat _) with (recs (tile_record new qp) 0 ts).
  destruct (peek (recs (tile_record new qp) 0 ts ++ rest)) as [ind l] eqn:E.
  rewrite (peek_rd16 _ _ _ E).
  2:{ destruct ts as [|t ts]; [contradiction|]. rewrite recs_cons, !app_length. pose proof (tile_rec_len (Z.of_nat 0) t). lia. }
  cbn [bind].
  assert (exists l0, peek rest = (0, l0)) as [l0 E0].
  { destruct He as [H|[r ->]]; [|cbn; eauto]. destruct rest as [|a [|b r]]; cbn in *; try lia; eauto. }
  apply (tiles_ok ts 0 (S (length l)) 0 rest ind l l0); auto.
  pose proof (peek_len _ _ _ E) as H1. rewrite app_length in H1.
  assert (2 * length ts <= length (recs (tile_record new qp) 0 ts))%nat as H2
  by apply recs_length, tile_rec_len.
  destruct ts; [contradiction|cbn [length] in *; lia].
Qed.
End Form.
