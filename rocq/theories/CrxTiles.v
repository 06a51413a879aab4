(** Proofs: parameters, tiles and their bands. *)
From Coq Require Import List ZArith Bool Lia.
From Verif Require Import Base BaseLemmas Crx CrxLL Idwt CrxImage CrxSpec IdwtSpec CrxImageSpec CrxHdr CrxGeom.
Import ListNotations.
Open Scope Z_scope.

(** ** Tiles across *)

Lemma across_bounds d : (1 <= i_w d)%nat -> (1 <= i_tw d)%nat ->
  (1 <= tiles_across d /\ (tiles_across d - 1) * i_tw d < i_w d <= tiles_across d * i_tw d)%nat.
Proof.
  intros Hw Ht. unfold tiles_across.
  pose proof (Nat.div_mod (i_w d + i_tw d - 1) (i_tw d) ltac:(lia)) as E.
  pose proof (Nat.mod_upper_bound (i_w d + i_tw d - 1) (i_tw d) ltac:(lia)) as B.
  set (q := ((i_w d + i_tw d - 1) / i_tw d)%nat) in *. set (r := ((i_w d + i_tw d - 1) mod i_tw d)%nat) in *.
  assert (1 <= q)%nat. { destruct q; [|lia]. rewrite Nat.mul_0_r in E. lia. }
  split; [assumption|]. rewrite Nat.mul_sub_distr_r. rewrite (Nat.mul_comm q). nia.
Qed.

Lemma not_last d t : (1 <= i_w d)%nat -> (1 <= i_tw d)%nat -> (S t < tiles_across d)%nat -> (S t * i_tw d < i_w d)%nat.
Proof.
  intros Hw Ht H. pose proof (across_bounds d Hw Ht) as (_ & A & _).
  apply Nat.le_lt_trans with ((tiles_across d - 1) * i_tw d)%nat; [|exact A]. apply Nat.mul_le_mono_r. lia.
Qed.

(** ** Parameters *)

Definition codec_of (d : image_desc) (c : cmp1) : codec :=
  mk_codec (i_w d) (i_h d) (i_levels d) (i_depth d) (if i_mix d then 3 else 0) (tiles_across d) 1 (i_tw d) (Z.to_nat (c_th c)) (c_hdr c) (c_version c).

Lemma size_pos L n : size_ok L n -> (1 <= n)%nat.
Proof. unfold size_ok. destruct (Nat.eqb_spec L 0); [auto|]. intros H. pose proof (Nat.pow_nonzero 2 L ltac:(lia)). lia. Qed.

Lemma codec_new_ok d hdr c : describes d hdr c -> desc_ok d -> codec_new c = Ok (codec_of d c).
Proof.
  intros (Hp & Hw & Hh & Ht & Hth & He & HL & Hm & Hb & Hd & Hv) (W & TW & A & L3 & D & Sh & _).
  unfold codec_new. rewrite Hp. cbn [Z.eqb Pos.eqb negb]. rewrite Hw, Ht.
  assert (1 <= i_h d)%nat as H1.
  { apply size_pos in Sh. unfold plane_h in Sh. pose proof (Nat.div_le_upper_bound (i_h d) 2 (i_h d)). destruct (i_h d); [cbn in Sh; lia|lia]. }
  destruct (Z.eqb_spec (Z.of_nat (i_tw d)) 0); [lia|]. destruct (Z.eqb_spec (c_th c) 0); [lia|]. cbn [negb assert_ bind].
  assert ((Z.of_nat (i_w d) + Z.of_nat (i_tw d) - 1) / Z.of_nat (i_tw d) = Z.of_nat (tiles_across d)) as E1.
  { unfold tiles_across. rewrite Nat2Z.inj_div. f_equal. lia. }
  rewrite E1.
  assert ((c_fh c + c_th c - 1) / c_th c = 1) as E2.
  { symmetry. apply Z.div_unique with (c_fh c - 1); lia. }
  rewrite E2. pose proof (across_bounds d W TW) as (A1 & _ & _).
  destruct (Z.ltb_spec 0 (Z.of_nat (tiles_across d))); [|lia]. cbn [Z.ltb Z.compare assert_ bind].
  assert (exists v, get INCR_BIT (Z.to_nat (4 * c_enc c + 2)) = Ok v /\ 0 <= v <= 1) as (v & Ev & Hv1).
  { rewrite He. destruct (i_mix d); cbn; eexists; split; try reflexivity; lia. }
  rewrite Ev. cbn [bind]. unfold u8.
  rewrite (proj2 (Z.leb_le 0 (c_bits c + v))), (proj2 (Z.ltb_lt (c_bits c + v) 256)) by lia. cbn [andb bind].
  rewrite (proj2 (Z.leb_le 0 (c_bits c + v + 1))), (proj2 (Z.ltb_lt (c_bits c + v + 1) 256)) by lia. cbn [andb bind].
  rewrite HL.
  rewrite (proj2 (Z.leb_le 0 (3 * Z.of_nat (i_levels d)))), (proj2 (Z.ltb_lt (3 * Z.of_nat (i_levels d)) 256)) by lia. cbn [andb bind].
  rewrite (proj2 (Z.leb_le 0 (3 * Z.of_nat (i_levels d) + 1))), (proj2 (Z.ltb_lt (3 * Z.of_nat (i_levels d) + 1) 256)) by lia. cbn [andb bind].
  destruct (Z.ltb_spec 255 (Z.of_nat (tiles_across d))); [lia|]. cbn [Z.ltb Z.compare Pos.compare Pos.compare_cont].
  unfold codec_of. rewrite Hh, He, Hm, !Nat2Z.id. reflexivity.
Qed.

(** ** Geometry of the tiles *)

Lemma tile_geom_ok d c id T : (1 <= i_w d)%nat -> (1 <= i_tw d)%nat -> (id < tiles_across d)%nat ->
  tile_geom (codec_of d c) (tiles_across d) id T = Ok (set_geom (plane_w d id) (plane_h d) (mk_nbrs false false (has_left id) (has_right d id)) T).
Proof.
  intros W TW Hid. pose proof (across_bounds d W TW) as (A1 & A2 & A3).
  unfold tile_geom, codec_of. cbn [k_cols k_rows k_w k_h k_tw k_th].
  unfold plane_w, has_left, has_right, plane_h.
  assert ((id + 1) mod tiles_across d =? 0 = (id + 1 =? tiles_across d))%nat as E1.
  { destruct (Nat.eqb_spec (id + 1) (tiles_across d)) as [E|E].
    - rewrite E, Nat.mod_same by lia. reflexivity.
    - rewrite Nat.mod_small by lia. apply Nat.eqb_neq. lia. }
  rewrite E1. rewrite (Nat.mod_small id) by exact Hid.
  rewrite (usub_ok (tiles_across d) (tiles_across d)) by lia. rewrite Nat.sub_diag. cbn [bind].
  change (id <? 0)%nat with false. cbv iota. cbn [Nat.sub]. rewrite Nat.mul_0_r.
  destruct (Nat.eqb_spec (id + 1) (tiles_across d)) as [E|E].
  - rewrite usub_ok by lia. cbn [bind]. rewrite usub_ok by lia. cbn [bind andb negb]. rewrite Nat.sub_0_r.
    change (1 <? 1)%nat with false.
    assert (id = tiles_across d - 1)%nat as -> by lia.
    rewrite (Nat.mul_comm (i_tw d)). rewrite Nat.min_r.
    2:{ assert (tiles_across d = (tiles_across d - 1) + 1)%nat as F by lia. rewrite F in A3 at 1. rewrite Nat.mul_add_distr_r in A3. lia. }
    unfold set_geom. do 3 f_equal.
    + destruct (Nat.ltb_spec 1 (tiles_across d)), (Nat.ltb_spec 0 (tiles_across d - 1)); try lia; reflexivity.
    + symmetry. apply Nat.ltb_ge. lia.
  - cbn [bind]. rewrite usub_ok by lia. cbn [bind andb negb]. rewrite Nat.sub_0_r. change (1 <? 1)%nat with false.
    pose proof (not_last d id W TW ltac:(lia)) as B. cbn [Nat.mul] in B.
    rewrite Nat.min_l by lia. unfold set_geom. do 3 f_equal.
    + destruct (Nat.ltb_spec 1 (tiles_across d)); [|lia]. cbn [andb].
      destruct (Nat.eqb_spec id 0), (Nat.ltb_spec 0 id); try lia; reflexivity.
    + transitivity true; [apply Nat.ltb_lt; lia|symmetry; apply Nat.ltb_lt; lia].
Qed.

Definition geo_band (d : image_desc) (version : Z) (t i : nat) (b : subband) : subband :=
  if (i_levels d =? 0)%nat then set_dims (plane_w d t) (plane_h d) b
  else place version (has_left t) (has_right d t) (i_levels d) (plane_w d t) (plane_h d) i b.
Definition geo_bands (d : image_desc) (version : Z) (t : nat) (bs : list subband) : list subband :=
  map (fun '(i, b) => geo_band d version t i b) (combine (seq 0 (length bs)) bs).

Lemma map_combine_seq_length {A B} (f : nat -> A -> B) l : length (map (fun '(i, x) => f i x) (combine (seq 0 (length l)) l)) = length l.
Proof. rewrite map_length, combine_length, seq_length. lia. Qed.
Lemma nth_map_combine {A B} (f : nat -> A -> B) l d0 d1 i : (i < length l)%nat ->
  nth i (map (fun '(i, x) => f i x) (combine (seq 0 (length l)) l)) d1 = f i (nth i l d0).
Proof.
  intros H. set (g := fun '(i, x) => f i x).
  rewrite (nth_indep _ d1 (g (0%nat, d0))) by (unfold g; rewrite map_combine_seq_length; exact H).
  rewrite map_nth. rewrite combine_nth by apply seq_length. rewrite seq_nth by exact H. reflexivity.
Qed.

Lemma geo_bands_ok d c t T bs : (i_levels d <= 3)%nat -> length bs = (3 * i_levels d + 1)%nat ->
  ti_pw T = plane_w d t -> ti_ph T = plane_h d -> ti_nb T = mk_nbrs false false (has_left t) (has_right d t) ->
  process_bands (codec_of d c) T bs = Ok (geo_bands d (c_version c) t bs).
Proof.
  intros HL Hlen Ew Eh En. destruct (Nat.eq_dec (i_levels d) 0) as [E|E].
  - unfold process_bands, codec_of. cbn [k_levels]. rewrite E. cbn [Nat.eqb].
    rewrite E in Hlen. destruct bs as [|b [|? ?]]; try (cbn in Hlen; lia).
    unfold geo_bands. cbn. unfold geo_band. rewrite E. cbn [Nat.eqb]. now rewrite Ew, Eh.
  - destruct (process_bands_ok (codec_of d c) T (has_left t) (has_right d t) HL En bs Hlen ltac:(cbn [codec_of k_levels]; lia)) as (bs' & E1 & L1 & N1).
    rewrite E1. f_equal. apply nth_ext_len with nosub.
    { unfold geo_bands. now rewrite map_combine_seq_length. }
    intros i Hi. rewrite L1 in Hi. rewrite N1 by exact Hi. unfold geo_bands. rewrite (nth_map_combine _ _ nosub) by exact Hi.
    unfold geo_band. destruct (Nat.eqb_spec (i_levels d) 0); [lia|]. cbn [codec_of k_levels k_version]. now rewrite Ew, Eh.
Qed.

Definition geo_plane (d : image_desc) (version : Z) (t : nat) (p : planeh) : planeh := set_bands (geo_bands d version t (pl_bands p)) p.
Definition geo_tile (d : image_desc) (version : Z) (t : nat) (T : tileh) : tileh :=
  set_planes (map (geo_plane d version t) (ti_planes T))
    (set_geom (plane_w d t) (plane_h d) (mk_nbrs false false (has_left t) (has_right d t)) T).

Lemma geo_size d v t i b : sb_size (geo_band d v t i b) = sb_size b.
Proof.
  unfold geo_band, place. destruct (_ =? 0)%nat; [reflexivity|]. destruct (i =? 0)%nat; [reflexivity|].
  destruct (i mod 3 =? 1)%nat; [reflexivity|]. destruct (i mod 3 =? 2)%nat; reflexivity.
Qed.
Lemma geo_sizes d v t bs : map sb_size (geo_bands d v t bs) = map sb_size bs.
Proof.
  apply nth_ext_len with 0; [unfold geo_bands; rewrite !map_length, combine_length, seq_length; lia|].
  intros i Hi. rewrite map_length in Hi. unfold geo_bands in *. rewrite map_combine_seq_length in Hi.
  rewrite (nth_indep _ 0 (sb_size nosub)) by (rewrite map_length, map_combine_seq_length; exact Hi).
  rewrite map_nth. rewrite (nth_map_combine _ _ nosub) by exact Hi. rewrite geo_size.
  rewrite (nth_indep _ 0 (sb_size nosub)) by (rewrite map_length; exact Hi). now rewrite map_nth.
Qed.

Lemma zlen_app {A} (a b : list A) : zlen (a ++ b) = zlen a + zlen b.
Proof. unfold zlen. rewrite app_length. lia. Qed.

Lemma subs_sum new bs : forall off, zsum (map sb_size (subs_of new off bs)) = zlen (concat (map cb_bytes bs)).
Proof. induction bs as [|b bs IH]; intros off; [reflexivity|]. cbn [subs_of map concat]. rewrite zlen_app. cbn. now rewrite IH. Qed.
Lemma pls_sum new ps : forall off, zsum (map pl_size (pls_of new off ps)) = zlen (concat (map plane_bytes ps)).
Proof. induction ps as [|p ps IH]; intros off; [reflexivity|]. cbn [pls_of map concat]. rewrite zlen_app. cbn. now rewrite IH. Qed.

Lemma subs_nth new bs : forall off i, nth_error (subs_of new off bs) i =
  option_map (fun b => sub_of new (off + zlen (concat (map cb_bytes (firstn i bs)))) b) (nth_error bs i).
Proof.
  induction bs as [|b bs IH]; intros off i; [destruct i; reflexivity|]. destruct i as [|i]; cbn [subs_of nth_error].
  - cbn. change (zlen []) with 0. now rewrite Z.add_0_r.
  - rewrite IH. cbn [firstn map concat]. rewrite zlen_app. destruct (nth_error bs i); cbn; [|reflexivity]. do 2 f_equal. lia.
Qed.
Lemma pls_nth new ps : forall off i, nth_error (pls_of new off ps) i =
  option_map (fun p => pl_of new (off + zlen (concat (map plane_bytes (firstn i ps)))) p) (nth_error ps i).
Proof.
  induction ps as [|b bs IH]; intros off i; [destruct i; reflexivity|]. destruct i as [|i]; cbn [pls_of nth_error].
  - cbn. change (zlen []) with 0. now rewrite Z.add_0_r.
  - rewrite IH. cbn [firstn map concat]. rewrite zlen_app. destruct (nth_error bs i); cbn; [|reflexivity]. do 2 f_equal. lia.
Qed.
Lemma tis_nth new qp ts : forall off i, nth_error (tis_of new qp off ts) i =
  option_map (fun t => ti_of new qp (off + zlen (concat (map tile_bytes (firstn i ts)))) t) (nth_error ts i).
Proof.
  induction ts as [|b bs IH]; intros off i; [destruct i; reflexivity|]. destruct i as [|i]; cbn [tis_of nth_error].
  - cbn. change (zlen []) with 0. now rewrite Z.add_0_r.
  - rewrite IH. cbn [firstn map concat]. rewrite zlen_app. destruct (nth_error bs i); cbn; [|reflexivity]. do 2 f_equal. lia.
Qed.
Lemma subs_length new off bs : length (subs_of new off bs) = length bs.
Proof. revert off. induction bs; intros; cbn; auto. Qed.
Lemma pls_length new off bs : length (pls_of new off bs) = length bs.
Proof. revert off. induction bs; intros; cbn; auto. Qed.
Lemma tis_length new qp off bs : length (tis_of new qp off bs) = length bs.
Proof. revert off. induction bs; intros; cbn; auto. Qed.

Definition tile_full (d : image_desc) (t : ctile) : Prop :=
  tile_ok d t /\ Forall (fun p => length (cp_bands p) = (3 * i_levels d + 1)%nat) (ct_planes t).

Lemma mapi_units {A} (f : nat -> A -> res unit) l : forall i, (forall j x, nth_error l j = Some x -> f (i + j)%nat x = Ok tt) ->
  exists u, mapi f i l = Ok u.
Proof. intros i H. rewrite (mapi_map f (fun _ => tt)) by exact H. eauto. Qed.

Lemma tile_bands_ok d c t T off : (i_levels d <= 3)%nat -> tile_full d T ->
  tile_bands (codec_of d c) (set_geom (plane_w d t) (plane_h d) (mk_nbrs false false (has_left t) (has_right d t)) (ti_of (i_new d) (i_qp d) off T))
  = Ok (geo_tile d (c_version c) t (ti_of (i_new d) (i_qp d) off T)).
Proof.
  intros HL ((H4 & Hlen & Hpad & HB & Hqp) & H3).
  unfold tile_bands. cbn [set_geom ti_planes ti_of].
  set (G := set_geom _ _ _ _).
  rewrite (mapi_map _ (geo_plane d (c_version c) t)).
  2:{ intros j p Hp. rewrite pls_nth in Hp. destruct (nth_error (ct_planes T) j) as [p0|] eqn:E; [|discriminate].
      cbn in Hp. injection Hp as <-. cbn [pl_of pl_bands].
      rewrite (geo_bands_ok d c t G); auto.
      rewrite subs_length. rewrite Forall_forall in H3. apply H3. eapply nth_error_In; eauto. }
  cbn [bind].
  destruct (mapi_units (fun _ p =>
    do _ <- mapi (fun _ b => do _ <- assert_ (negb (sb_size b =? 0)); assert_ (sb_size b mod 8 =? 0)) 0 (pl_bands p);
    assert_ (pl_size p =? zsum (map sb_size (pl_bands p)))) (map (geo_plane d (c_version c) t) (pls_of (i_new d) 0 (ct_planes T))) 0) as [u ->].
  { intros j p Hp. rewrite nth_error_map in Hp. rewrite pls_nth in Hp.
    destruct (nth_error (ct_planes T) j) as [p0|] eqn:E; [|discriminate]. cbn in Hp. injection Hp as <-.
    cbn [geo_plane set_bands pl_bands pl_of pl_size].
    destruct (mapi_units (fun _ b => do _ <- assert_ (negb (sb_size b =? 0)); assert_ (sb_size b mod 8 =? 0))
                (geo_bands d (c_version c) t (subs_of (i_new d) 0 (cp_bands p0))) 0) as [u ->].
    { intros i b Hb.
      assert (nth_error (map sb_size (geo_bands d (c_version c) t (subs_of (i_new d) 0 (cp_bands p0)))) i = Some (sb_size b)) as Es
        by (rewrite nth_error_map, Hb; reflexivity).
      rewrite geo_sizes, nth_error_map, subs_nth in Es. destruct (nth_error (cp_bands p0) i) as [b0|] eqn:Eb; [|discriminate].
      cbn in Es. injection Es as <-.
      rewrite Forall_forall in HB. pose proof (HB p0 (nth_error_In _ _ E)) as HB0. rewrite Forall_forall in HB0.
      destruct (HB0 b0 (nth_error_In _ _ Eb)) as (Z0 & Z8 & _). rewrite Z8. destruct (Z.eqb_spec (zlen (cb_bytes b0)) 0); [unfold zlen in *; lia|]. reflexivity. }
    cbn [bind]. rewrite geo_sizes, subs_sum. unfold plane_bytes. rewrite Z.eqb_refl. reflexivity. }
  cbn [bind].
  assert (zlen (tile_bytes T) = zlen (ct_qp T) + zlen (ct_pad T) + zlen (concat (map plane_bytes (ct_planes T)))) as ET.
  { unfold tile_bytes. rewrite !zlen_app. lia. }
  pose proof (zlen_nonneg (concat (map plane_bytes (ct_planes T)))).
  assert (extra_size G = zlen (ct_qp T) + zlen (ct_pad T)) as EX.
  { unfold G, extra_size, ti_of. cbn. destruct (i_qp d) eqn:Eq; [reflexivity|]. destruct (Hqp eq_refl) as [-> ->]. reflexivity. }
  rewrite EX. replace (ti_size G) with (zlen (tile_bytes T)) by reflexivity. rewrite ET.
  rewrite (proj2 (Z.leb_le _ _)) by lia. cbn [assert_ bind].
  rewrite map_map. change (fun x => pl_size (geo_plane d (c_version c) t x)) with pl_size. rewrite pls_sum.
  rewrite (proj2 (Z.eqb_eq _ _)) by lia. reflexivity.
Qed.

Definition geo_tiles (d : image_desc) (version : Z) (ts : list ctile) : list tileh :=
  map (fun '(i, T) => geo_tile d version i T) (combine (seq 0 (length ts)) (tis_of (i_new d) (i_qp d) 0 ts)).

Lemma process_tiles_ok d c ts : desc_ok d -> length ts = tiles_across d -> Forall (tile_full d) ts ->
  process_tiles (codec_of d c) (tis_of (i_new d) (i_qp d) 0 ts) = Ok (geo_tiles d (c_version c) ts).
Proof.
  intros (W & TW & A & L3 & D & Sh & _) Hlen HF. unfold process_tiles. rewrite tis_length, Hlen.
  rewrite (mapi_ok _ (fun id T => set_geom (plane_w d id) (plane_h d) (mk_nbrs false false (has_left id) (has_right d id)) T)).
  2:{ intros j T HT. cbn [Nat.add]. apply tile_geom_ok; auto. rewrite <- Hlen, <- (tis_length (i_new d) (i_qp d) 0).
      apply nth_error_Some. congruence. }
  cbn [bind]. rewrite tis_length.
  set (l := tis_of _ _ _ _). set (l1 := map _ _).
  assert (length l1 = length ts) as Hl1.
  { unfold l1. rewrite map_length, combine_length, seq_length. unfold l. rewrite tis_length. lia. }
  rewrite (mapi_ok _ (fun id _ => geo_tile d (c_version c) id (nth id l (ti_of (i_new d) (i_qp d) 0 (mk_ctile [] [] []))))).
  - f_equal. unfold geo_tiles. fold l.
    apply nth_ext_len with (geo_tile d (c_version c) 0 (ti_of (i_new d) (i_qp d) 0 (mk_ctile [] [] []))).
    { rewrite !map_length, !combine_length, !seq_length. unfold l. rewrite tis_length, Hl1. lia. }
    intros i Hi. rewrite map_length, combine_length, seq_length in Hi.
    rewrite (nth_map_combine (fun id _ => geo_tile d (c_version c) id (nth id l (ti_of (i_new d) (i_qp d) 0 (mk_ctile [] [] [])))) l1
               (ti_of (i_new d) (i_qp d) 0 (mk_ctile [] [] []))) by lia.
    assert (length ts = length l) as -> by (unfold l; now rewrite tis_length).
    rewrite (nth_map_combine (fun i T => geo_tile d (c_version c) i T) l (ti_of (i_new d) (i_qp d) 0 (mk_ctile [] [] [])))
      by (unfold l; rewrite tis_length; lia).
    reflexivity.
  - intros j T HT. cbn [Nat.add].
    assert (j < length ts)%nat as Hj by (rewrite <- Hl1; apply nth_error_Some; congruence).
    assert (length ts = length l) as El by (unfold l; now rewrite tis_length).
    assert (T = set_geom (plane_w d j) (plane_h d) (mk_nbrs false false (has_left j) (has_right d j)) (nth j l (ti_of (i_new d) (i_qp d) 0 (mk_ctile [] [] [])))) as ET.
    { apply nth_error_nth with (d := ti_of (i_new d) (i_qp d) 0 (mk_ctile [] [] [])) in HT. rewrite <- HT. unfold l1. rewrite El.
      rewrite (nth_map_combine (fun id T => set_geom (plane_w d id) (plane_h d) (mk_nbrs false false (has_left id) (has_right d id)) T) l (ti_of (i_new d) (i_qp d) 0 (mk_ctile [] [] [])))
        by lia. reflexivity. }
    destruct (nth_error ts j) as [T0|] eqn:E0; [|apply nth_error_None in E0; lia].
    assert (nth j l (ti_of (i_new d) (i_qp d) 0 (mk_ctile [] [] [])) = ti_of (i_new d) (i_qp d) (0 + zlen (concat (map tile_bytes (firstn j ts)))) T0) as En.
    { apply nth_error_nth. unfold l. rewrite tis_nth, E0. reflexivity. }
    rewrite ET, En. apply tile_bands_ok; [exact L3|].
    rewrite Forall_forall in HF. apply HF. eapply nth_error_In; eauto.
Qed.
