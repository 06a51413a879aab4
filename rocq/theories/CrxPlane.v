(** Proofs: a plane of a tile. *)
From Coq Require Import List ZArith Bool Lia.
From Verif Require Import Base BaseLemmas Crx CrxSpec CrxProofs CrxLL CrxTop Idwt IdwtSpec IdwtRow IdwtProofs IdwtTop CrxImage CrxImageSpec CrxHdr CrxGeom CrxTiles CrxQuant CrxSrc CrxBands.
Import ListNotations.
Open Scope Z_scope.

(** ** Parts of the data *)

Lemma concat_split {A} (l : list (list A)) i x : nth_error l i = Some x ->
  concat l = concat (firstn i l) ++ x ++ concat (skipn (S i) l).
Proof.
  revert i. induction l as [|y l IH]; intros [|i] H; try discriminate.
  - injection H as ->. reflexivity.
  - cbn [firstn concat]. rewrite skipn_cons. rewrite <- app_assoc, <- (IH i H). reflexivity.
Qed.

Lemma slice_part {A} (x y z : list A) n : (n <= length y)%nat -> slice (x ++ y ++ z) (length x) (length x + n) = Ok (firstn n y).
Proof.
  intros H. rewrite slice_ok by (rewrite ?app_length; lia). f_equal.
  rewrite skipn_app, skipn_all2, Nat.sub_diag by lia. cbn [app skipn].
  replace (length x + n - length x)%nat with n by lia. rewrite firstn_app.
  replace (n - length y)%nat with 0%nat by lia. cbn [firstn]. apply app_nil_r.
Qed.

Lemma concat_zlen {A B} (f : A -> list B) l i : zlen (concat (map f (firstn i l))) = zlen (concat (firstn i (map f l))).
Proof. now rewrite firstn_map. Qed.

(** Where band [i] of plane [k] of tile [t] is. *)
Lemma band_part ts after t T k p i b :
  nth_error ts t = Some T -> nth_error (ct_planes T) k = Some p -> nth_error (cp_bands p) i = Some b -> band_ok b ->
  let o := zlen (concat (map tile_bytes (firstn t ts))) + (zlen (ct_qp T) + zlen (ct_pad T))
           + zlen (concat (map plane_bytes (firstn k (ct_planes T)))) + zlen (concat (map cb_bytes (firstn i (cp_bands p)))) in
  slice (concat (map tile_bytes ts) ++ after) (Z.to_nat o) (Z.to_nat (o + (zlen (cb_bytes b) - cb_unused b))) =
  Ok (firstn (length (cb_bytes b) - Z.to_nat (cb_unused b)) (cb_bytes b)).
Proof.
  intros HT HP HB (Z0 & _ & _ & Hu & _) o.
  rewrite (concat_split (map tile_bytes ts) t (tile_bytes T)) by (rewrite nth_error_map, HT; reflexivity).
  unfold tile_bytes at 2.
  rewrite (concat_split (map plane_bytes (ct_planes T)) k (plane_bytes p)) by (rewrite nth_error_map, HP; reflexivity).
  unfold plane_bytes at 2.
  rewrite (concat_split (map cb_bytes (cp_bands p)) i (cb_bytes b)) by (rewrite nth_error_map, HB; reflexivity).
  set (A := concat (firstn t (map tile_bytes ts))). set (B := concat (firstn k (map plane_bytes (ct_planes T)))).
  set (C := concat (firstn i (map cb_bytes (cp_bands p)))).
  rewrite <- !app_assoc. rewrite !(app_assoc A). rewrite !(app_assoc (A ++ ct_qp T)). rewrite !(app_assoc ((A ++ ct_qp T) ++ ct_pad T)).
  rewrite !(app_assoc (((A ++ ct_qp T) ++ ct_pad T) ++ B)).
  set (X := (((A ++ ct_qp T) ++ ct_pad T) ++ B) ++ C).
  assert (o = zlen X) as Eo.
  { unfold o, X. rewrite !zlen_app. unfold A, B, C. rewrite !firstn_map. lia. }
  rewrite Eo. unfold zlen in *. rewrite Nat2Z.id.
  replace (Z.to_nat (Z.of_nat (length X) + (Z.of_nat (length (cb_bytes b)) - cb_unused b))) with (length X + (length (cb_bytes b) - Z.to_nat (cb_unused b)))%nat by lia.
  apply slice_part. lia.
Qed.

(** ** The stack of transforms *)

Lemma nth_error_some {A} (l : list A) i d : (i < length l)%nat -> nth_error l i = Some (nth i l d).
Proof. apply nth_error_nth'. Qed.

(** Room for the transform in 32 bits. *)
Definition room (C : Z) (L : nat) : Prop := 0 <= C /\ (C + 1) * 4 ^ Z.of_nat L <= 2 ^ 28.

Definition nob : cband := mk_cband [] 0 0 0 0.

Section Plane.
  Variables (d : image_desc) (t : nat) (version : Z) (Q : list (list Z)).
  Let L := i_levels d.
  Let w := plane_w d t.
  Let h := plane_h d.
  Let left := has_left t.
  Let right := has_right d t.
  Hypothesis HL : (i_levels d <= 3)%nat.
  Hypothesis Hw : size_ok (i_levels d) (plane_w d t).
  Hypothesis Hh : size_ok (i_levels d) (plane_h d).
  Hypothesis Hqp : i_qp d = true -> version = 0x200 /\ (1 <= i_levels d)%nat /\ qp_table_ok (plane_w d t) (plane_h d) Q.

  (** The tile as it is when its planes are decoded. *)
  Definition tile_steps : option (list qstep) :=
    if i_qp d then Some (map (fun k => steps_at (plane_w d t) (plane_h d) (i_levels d - 1 - k) Q) (seq 0 (i_levels d))) else None.
  Definition done_tile (T : tileh) : tileh := set_steps tile_steps (geo_tile d version t T).

  Definition band_step (i : nat) : option qstep :=
    if i_qp d then Some (steps_at (plane_w d t) (plane_h d) (band_level (i_levels d) i) Q) else None.

  Definition raw_band (b : subband) (pred : bool) (i : nat) (cb : cband) : band :=
    band_new (sb_w b) (sb_h b) 0 (pred && (i =? 0)%nat) (sb_q b)
      (firstn (length (cb_bytes cb) - Z.to_nat (cb_unused cb)) (cb_bytes cb)).

  Variables (p : cplane) (P : plane) (C : Z).
  Hypothesis HB : Forall band_ok (cp_bands p).
  Hypothesis HC : room C (i_levels d).
  Hypothesis HP : forall i j, Z.abs (P i j) <= C.
  Hypothesis Hcoded : plane_coded d t Q p P.

  Let bs := geo_bands d version t (subs_of (i_new d) 0 (cp_bands p)).

  Lemma bs_length : length bs = length (cp_bands p).
  Proof using. unfold bs, geo_bands. rewrite map_combine_seq_length. apply subs_length. Qed.

  Lemma bs_nth i b : nth_error (cp_bands p) i = Some b ->
    nth i bs nosub = geo_band d version t i (sub_of (i_new d) (zlen (concat (map cb_bytes (firstn i (cp_bands p))))) b).
  Proof using.
    intros E. assert (i < length (cp_bands p))%nat as Hi by (apply nth_error_Some; congruence).
    unfold bs, geo_bands. rewrite (nth_map_combine _ _ nosub) by (rewrite subs_length; exact Hi). f_equal.
    apply nth_error_nth. rewrite subs_nth, E. reflexivity.
  Qed.

  Definition srcs : list band := map (fun '(i, cb) => raw_band (nth i bs nosub) (cp_pred p) i cb) (combine (seq 0 (length (cp_bands p))) (cp_bands p)).

  Lemma srcs_nth i cb : nth_error (cp_bands p) i = Some cb -> get srcs i = Ok (raw_band (nth i bs nosub) (cp_pred p) i cb).
  Proof using.
    intros E. assert (i < length (cp_bands p))%nat as Hi by (apply nth_error_Some; congruence).
    rewrite (get_ok _ _ (raw_band nosub false 0 nob)) by (unfold srcs; rewrite map_combine_seq_length; exact Hi).
    f_equal. unfold srcs. rewrite (nth_map_combine (fun i cb => raw_band (nth i bs nosub) (cp_pred p) i cb) _ nob) by exact Hi.
    f_equal. apply nth_error_nth. exact E.
  Qed.

  (** ** With levels *)
  Section Levels.
  Hypothesis HL1 : (1 <= i_levels d)%nat.
  Let lines := bands_of left right (level_cols left right L w) w h P.

  Lemma levels_coded : length (cp_bands p) = (3 * L + 1)%nat /\
    forall i b, nth_error (cp_bands p) i = Some b -> exists coeffs,
        holds (cp_pred p && (i =? 0)%nat) b coeffs /\ dequantized (factor d t Q b i) coeffs (nth i lines []) /\
        (forall r c, 1 <= factor d t Q b i r c) /\ (i = 0%nat -> cp_pred p = true -> forall r c, factor d t Q b i r c = 1).
  Proof. unfold plane_coded in Hcoded. destruct (Nat.eqb_spec (i_levels d) 0); [lia|]. exact Hcoded. Qed.

  Lemma size_w : (2 ^ L < w)%nat.
  Proof. unfold size_ok in Hw. destruct (Nat.eqb_spec (i_levels d) 0); [lia|]. exact Hw. Qed.
  Lemma size_h : (2 ^ L < h)%nat.
  Proof. unfold size_ok in Hh. destruct (Nat.eqb_spec (i_levels d) 0); [lia|]. exact Hh. Qed.

  Lemma src_emits i cb : nth_error (cp_bands p) i = Some cb ->
    emits next_line (mk_src (nth i bs nosub) (raw_band (nth i bs nosub) (cp_pred p) i cb) (band_step i)) (nth i lines []).
  Proof.
    intros E. destruct levels_coded as (Hlen & Hall). destruct (Hall i cb E) as (coeffs & (Hs & rest & Hbits) & (Dl & Dr) & Hpos & Hone).
    assert (i < 3 * L + 1)%nat as Hi by (rewrite <- Hlen; apply nth_error_Some; congruence).
    assert (band_ok cb) as Hcb by (rewrite Forall_forall in HB; apply HB; eapply nth_error_In; eauto).
    rewrite (bs_nth i cb E). set (s0 := sub_of _ _ cb). unfold geo_band. destruct (Nat.eqb_spec (i_levels d) 0); [lia|].
    set (b := place _ _ _ _ _ _ i s0).
    pose proof (place_dims version left right L w h i s0 HL1) as PD. cbv zeta in PD. change (place version left right L w h i s0) with b in PD.
    destruct PD as (Dw & Dh & Dd & Dp & Dq & _).
    destruct (bands_ok left right L w h P C ltac:(unfold L; lia) HP (proj1 HC) (proj2 HC) i Hi) as (LL & LF). fold lines in LL, LF.
    destruct (own_cols left right L w i ltac:(unfold L; lia) size_w Hi) as (own & Ew & Hown).
    apply (band_emits b (sb_w b) (sb_h b) 0 (cp_pred p && (i =? 0)%nat) (sb_q b) (band_step i) (factor d t Q cb i)) with coeffs rest; auto.
    - rewrite Dw, Ew. lia.
    - rewrite Dd. cbn [s0 sub_of sb_data]. destruct Hcb as (_ & _ & _ & Hu & _). lia.
    - intros _. lia.
    - unfold band_step. destruct (i_qp d) eqn:Eq.
      + destruct (Hqp eq_refl) as (Ev & _ & HQ). unfold b. rewrite Ev. apply (step_factors d t Q cb i s0); auto; try lia.
        repeat split.
      + cbn [factors]. exists (qp_step (sb_q b)). rewrite Dq. cbn [s0 sub_of sb_q].
        assert (i_new d = false) as En.
        { destruct (i_new d) eqn:En; [|reflexivity]. specialize (Hpos 0%nat 0%nat). unfold factor in Hpos. rewrite Eq, En in Hpos. lia. }
        rewrite En. destruct Hcb as (_ & _ & _ & _ & _ & Hq & _). split; [apply q_scale_ok; lia|].
        intros r c. unfold factor. now rewrite Eq, En.
    - intros Hl. apply andb_true_iff in Hl. destruct Hl as [H1 H2]. apply Nat.eqb_eq in H2. apply Hone; auto.
    - rewrite Dh, <- LL. exact Dl.
    - intros r Hr. rewrite Dh, <- LL in Hr. destruct (Dr r Hr) as (D1 & D2).
      rewrite Forall_forall in LF. destruct (LF (nth r (nth i lines []) []) ltac:(apply nth_In; exact Hr)) as (F1 & F2).
      unfold row_scaled. rewrite Dw. repeat split.
      + now rewrite D1.
      + exact F1.
      + rewrite Forall_forall in Hs. apply Hs, nth_In. lia.
      + apply D2. lia.
      + rewrite Forall_forall in F2. specialize (F2 (nth c (nth r (nth i lines []) []) 0) ltac:(apply nth_In; lia)). lia.
      + rewrite Forall_forall in F2. specialize (F2 (nth c (nth r (nth i lines []) []) 0) ltac:(apply nth_In; lia)). lia.
  Qed.

  Variable T : tileh.
  Hypothesis HTs : ti_steps T = tile_steps.
  Hypothesis HTw : ti_pw T = plane_w d t.
  Hypothesis HTh : ti_ph T = plane_h d.

  Lemma step_get l : (l < L)%nat ->
    (match ti_steps T with None => Ok None | Some q => do q <- get q l; Ok (Some q) end) =
    Ok (if i_qp d then Some (steps_at w h (L - 1 - l) Q) else None).
  Proof.
    intros Hl. rewrite HTs. unfold tile_steps. destruct (i_qp d); [|reflexivity].
    rewrite (get_ok _ _ (mk_qs 0 [])) by (rewrite map_length, seq_length; exact Hl). cbn [bind].
    now rewrite (nth_map_seq _ _ _ (mk_qs 0 [])) by exact Hl.
  Qed.

  Lemma band_at i : (i < 3 * L + 1)%nat -> get bs i = Ok (nth i bs nosub) /\ exists s, get srcs i = Ok s /\
    emits next_line (mk_src (nth i bs nosub) s (band_step i)) (nth i lines []).
  Proof.
    intros Hi. destruct levels_coded as (Hlen & _). rewrite (get_ok _ _ nosub) by (rewrite bs_length; lia). split; [reflexivity|].
    destruct (nth_error (cp_bands p) i) as [cb|] eqn:E; [|apply nth_error_None in E; lia].
    eexists. split; [apply srcs_nth; exact E|]. now apply src_emits.
  Qed.

  Lemma bs_dims i : (i < 3 * L + 1)%nat -> sb_w (nth i bs nosub) = band_cols left right L w i /\ sb_h (nth i bs nosub) = band_rows L h i.
  Proof.
    intros Hi. destruct levels_coded as (Hlen & _). destruct (nth_error (cp_bands p) i) as [cb|] eqn:E; [|apply nth_error_None in E; lia].
    rewrite (bs_nth i cb E). unfold geo_band. destruct (Nat.eqb_spec (i_levels d) 0); [lia|].
    match goal with |- context [place ?v ?a ?b ?c ?e ?f ?g ?x] => destruct (place_dims v a b c e f g x HL1) as (A & B & _) end. auto.
  Qed.

  Lemma stack_ok : forall n P', (n <= L)%nat ->
    (forall i, (i < 3 * n + 1)%nat -> nth i (bands_of left right (lvs_from left right L w (L - n)) (width_at right L w (L - n)) (halved h (L - n)) P') [] = nth i lines []) ->
    exists s, plane_stack T bs srcs L n = Ok s /\
      coded next_line left right (lvs_from left right L w (L - n)) (width_at right L w (L - n)) (halved h (L - n)) P' s.
  Proof.
    induction n as [|n IH]; intros P' Hn HE.
    - rewrite Nat.sub_0_r in *. rewrite lvs_from_end in *. cbn [plane_stack].
      destruct (band_at 0) as (E1 & s & E2 & E3); [lia|]. rewrite E1. cbn [bind]. rewrite E2. cbn [bind].
      rewrite (step_get 0) by (unfold L; lia). cbn [bind]. eexists. split; [reflexivity|]. cbn [coded].
      specialize (HE 0%nat ltac:(lia)). cbn [bands_of nth] in HE. rewrite HE.
      unfold band_step, band_level in E3. cbn [Nat.sub Nat.div Nat.divmod fst] in E3. rewrite Nat.sub_0_r in *. exact E3.
    - set (k := (L - S n)%nat) in *. assert (L - n = S k)%nat as Ek by lia. assert (k < L)%nat as Hk by lia.
      rewrite Ek in IH.
      rewrite (lvs_from_S left right L w k Hk) in HE |- *. cbn [bands_of] in HE.
      change ((halved h k + 1) / 2)%nat with (halved h (S k)) in HE. change (low_cols right L w k) with (width_at right L w (S k)) in HE |- *.
      assert (length (lvs_from left right L w (S k)) = n) as EL by (unfold lvs_from; rewrite map_length, seq_length; lia).
      set (tail := bands_of left right (lvs_from left right L w (S k)) _ _ _) in HE.
      assert (length tail = 3 * n + 1)%nat as ET by (unfold tail; rewrite bands_of_length, EL; reflexivity).
      destruct (IH (coarser left right (width_at right L w k) (halved h k) P') ltac:(lia)) as (below & S1 & S2).
      { intros i Hi. rewrite <- HE by lia. rewrite app_nth1 by lia. reflexivity. }
      assert (exists b1, get bs (3 * n + 1) = Ok b1 /\ exists s1, get srcs (3 * n + 1) = Ok s1 /\ emits next_line (mk_src b1 s1 (if i_qp d then Some (steps_at w h (L - 1 - n) Q) else None))
         (band_lines (fun n => colH left right (width_at right L w k) (rowL (halved h k) P' n)) (from_left left) (high_cols left right L w k) (halved h (S k)))) as (b1 & G1 & s1 & G1' & M1).
      { destruct (band_at (3 * n + 1)) as (E1 & s & E2 & E3); [lia|]. eexists; split; [exact E1|]. eexists; split; [exact E2|].
        unfold band_step in E3. rewrite (index_level _ n 1) in E3 by (fold L; lia). rewrite <- HE in E3 by lia. rewrite app_nth2 in E3 by lia.
        replace (3 * n + 1 - length tail)%nat with 0%nat in E3 by lia. exact E3. }
      assert (exists b1, get bs (3 * n + 2) = Ok b1 /\ exists s1, get srcs (3 * n + 2) = Ok s1 /\ emits next_line (mk_src b1 s1 (if i_qp d then Some (steps_at w h (L - 1 - n) Q) else None))
         (band_lines (fun n => colL left right (width_at right L w k) (rowH (halved h k) P' n)) 0 (width_at right L w (S k)) (halved h k / 2))) as (b2 & G2 & s2 & G2' & M2).
      { destruct (band_at (3 * n + 2)) as (E1 & s & E2 & E3); [lia|]. eexists; split; [exact E1|]. eexists; split; [exact E2|].
        unfold band_step in E3. rewrite (index_level _ n 2) in E3 by (fold L; lia). rewrite <- HE in E3 by lia. rewrite app_nth2 in E3 by lia.
        replace (3 * n + 2 - length tail)%nat with 1%nat in E3 by lia. exact E3. }
      assert (exists b1, get bs (3 * n + 3) = Ok b1 /\ exists s1, get srcs (3 * n + 3) = Ok s1 /\ emits next_line (mk_src b1 s1 (if i_qp d then Some (steps_at w h (L - 1 - n) Q) else None))
         (band_lines (fun n => colH left right (width_at right L w k) (rowH (halved h k) P' n)) (from_left left) (high_cols left right L w k) (halved h k / 2))) as (b3 & G3 & s3 & G3' & M3).
      { destruct (band_at (3 * n + 3)) as (E1 & s & E2 & E3); [lia|]. eexists; split; [exact E1|]. eexists; split; [exact E2|].
        unfold band_step in E3. rewrite (index_level _ n 3) in E3 by (fold L; lia). rewrite <- HE in E3 by lia. rewrite app_nth2 in E3 by lia.
        replace (3 * n + 3 - length tail)%nat with 2%nat in E3 by lia. exact E3. }
      cbn [plane_stack].
      assert ((if (L - 1 <=? n)%nat then Ok (ti_ph T, ti_pw T) else do b <- get bs (3 * n + 4); do c <- get bs (3 * n + 5); Ok (sb_h b, sb_w c)) =
        Ok (halved h k, width_at right L w k)) as EW.
      { destruct (Nat.leb_spec (L - 1) n).
        - assert (k = 0)%nat as -> by lia. cbn [halved width_at]. now rewrite HTh, HTw.
        - destruct (band_at (3 * n + 4)) as (E1 & _); [lia|]. destruct (band_at (3 * n + 5)) as (E2 & _); [lia|]. rewrite E1. cbn [bind]. rewrite E2. cbn [bind].
          destruct (bs_dims (3 * n + 4)) as (_ & D1); [lia|]. destruct (bs_dims (3 * n + 5)) as (D2 & _); [lia|]. rewrite D1, D2.
          destruct (index_mod3 (S n)) as (M1' & M2' & _).
          replace (3 * n + 4)%nat with (3 * S n + 1)%nat by lia. replace (3 * n + 5)%nat with (3 * S n + 2)%nat by lia.
          unfold band_rows, band_cols, band_high. rewrite M1', M2', !(index_level L (S n)) by lia.
          replace (L - 1 - S n)%nat with (k - 1)%nat by lia.
          destruct (Nat.eqb_spec (3 * S n + 1) 0); [lia|]. destruct (Nat.eqb_spec (3 * S n + 2) 0); [lia|]. cbn [Nat.eqb negb andb].
          destruct k as [|k']; [lia|]. cbn [width_at]. now replace (S k' - 1)%nat with k' by lia. }
      rewrite EW. cbn [bind]. rewrite (step_get n) by lia. cbn [bind].
      rewrite G1. cbn [bind]. rewrite G1'. cbn [bind]. rewrite G2. cbn [bind]. rewrite G2'. cbn [bind]. rewrite G3. cbn [bind]. rewrite G3'. cbn [bind].
      rewrite S1. cbn [bind]. eexists. split; [reflexivity|]. cbn [coded].
      change ((halved h k + 1) / 2)%nat with (halved h (S k)).
      split; [reflexivity|]. split; [exact M1|]. split; [exact M2|]. split; [exact M3|]. exact S2.
  Qed.

  Lemma levels_decode : ti_nb T = mk_nbrs false false left right ->
    (do s <- plane_stack T bs srcs L L; plane_decode src next_line (ti_nb T) (ti_ph T) s) = Ok (image P w h).
  Proof.
    intros Hnb. destruct (stack_ok L P ltac:(lia)) as (s & E1 & E2).
    { intros i Hi. rewrite Nat.sub_diag, lvs_from_0. reflexivity. }
    rewrite E1. cbn [bind]. rewrite Hnb, HTh. rewrite Nat.sub_diag in E2. cbn [width_at halved] in E2.
    apply plane_roundtrip with (lvs := lvs_from left right L w 0) (C := C); auto.
    - rewrite lvs_from_S by (unfold L; lia). discriminate.
    - apply (fits_from left right L w h ltac:(unfold L; lia) size_w size_h L 0 eq_refl).
    - unfold lvs_from. rewrite map_length, seq_length, Nat.sub_0_r. apply HC.
  Qed.
  End Levels.

  (** ** Either way *)
  Lemma decode_plane_ok c T0 k ts after off :
    k_levels c = i_levels d ->
    nth_error ts t = Some T0 -> nth_error (ct_planes T0) k = Some p ->
    off = zlen (concat (map tile_bytes (firstn t ts))) -> (i_qp d = false -> ct_qp T0 = [] /\ ct_pad T0 = []) ->
    decode_plane c (done_tile (ti_of (i_new d) (i_qp d) off T0))
      (geo_plane d version t (pl_of (i_new d) (zlen (concat (map plane_bytes (firstn k (ct_planes T0))))) p)) (concat (map tile_bytes ts) ++ after)
    = Ok (image P w h).
  Proof.
    intros Hk HT Hp Eoff Hno. set (T := done_tile _). unfold decode_plane.
    assert (ti_ph T = h) as ETh by reflexivity. assert (ti_pw T = w) as ETw by reflexivity.
    pose proof (size_pos _ _ Hw) as Hw1. pose proof (size_pos _ _ Hh) as Hh1.
    rewrite ETh, ETw. fold w in Hw1. fold h in Hh1.
    rewrite (proj2 (Nat.ltb_lt 0 h)) by lia. rewrite (proj2 (Nat.ltb_lt 0 w)) by lia. cbn [assert_ bind].
    cbn [geo_plane set_bands pl_bands pl_off pl_of pl_partial pl_mask]. fold bs.
    assert (extra_size T = zlen (ct_qp T0) + zlen (ct_pad T0)) as EX.
    { unfold T, extra_size, done_tile, geo_tile, ti_of. cbn. destruct (i_qp d) eqn:Eq; [reflexivity|]. destruct (Hno eq_refl) as [-> ->]. reflexivity. }
    assert (ti_off T = off) as EO by reflexivity. rewrite EX, EO.
    assert (mapi (band_src (geo_plane d version t (pl_of (i_new d) (zlen (concat (map plane_bytes (firstn k (ct_planes T0))))) p)) (concat (map tile_bytes ts) ++ after)
       (off + (zlen (ct_qp T0) + zlen (ct_pad T0)) + zlen (concat (map plane_bytes (firstn k (ct_planes T0)))))) 0 bs = Ok srcs) as ES.
    { rewrite (mapi_ok _ (fun i b => raw_band b (cp_pred p) i (nth i (cp_bands p) nob))).
      - f_equal. unfold srcs.
        apply nth_ext_len with (raw_band nosub false 0 nob); [rewrite !map_combine_seq_length; apply bs_length|].
        intros i Hi. rewrite map_combine_seq_length in Hi.
        rewrite (nth_map_combine (fun i b => raw_band b (cp_pred p) i (nth i (cp_bands p) nob)) _ nosub) by exact Hi.
        rewrite (nth_map_combine (fun i cb => raw_band (nth i bs nosub) (cp_pred p) i cb) _ nob) by (rewrite <- bs_length; exact Hi). reflexivity.
      - intros i b Hb. cbn [Nat.add].
        assert (i < length (cp_bands p))%nat as Hi by (rewrite <- bs_length; apply nth_error_Some; congruence).
        destruct (nth_error (cp_bands p) i) as [cb|] eqn:E; [|apply nth_error_None in E; lia].
        assert (band_ok cb) as Hcb by (rewrite Forall_forall in HB; apply HB; eapply nth_error_In; eauto).
        rewrite (nth_error_nth _ _ nob E).
        assert (b = nth i bs nosub) as -> by (symmetry; apply nth_error_nth; exact Hb).
        rewrite (bs_nth i cb E). set (gb := geo_band _ _ _ _ _).
        assert (sb_off gb = zlen (concat (map cb_bytes (firstn i (cp_bands p)))) /\ sb_data gb = zlen (cb_bytes cb) - cb_unused cb) as [G1 G2].
        { unfold gb, geo_band. destruct (Nat.eqb_spec (i_levels d) 0); [split; reflexivity|].
          match goal with |- context [place ?v ?a ?b ?c ?e ?f ?g ?x] => destruct (place_dims v a b c e f g x ltac:(lia)) as (_ & _ & A & _ & _ & _ & _ & B) end.
          rewrite A, B. split; reflexivity. }
        unfold band_src. rewrite G1, G2, Eoff. rewrite (band_part ts after t T0 k p i cb HT Hp E Hcb). cbn [bind].
        cbn [geo_plane set_bands pl_partial pl_mask pl_of]. unfold raw_band. now destruct (cp_pred p && (i =? 0)%nat). }
    rewrite ES. cbn [bind]. rewrite Hk.
    destruct (Nat.eqb_spec (i_levels d) 0) as [E0|N0].
    - unfold plane_coded in Hcoded. rewrite E0 in Hcoded. cbn [Nat.eqb] in Hcoded. destruct Hcoded as (b & Eb & Hs & rest & Hbits).
      rewrite bs_length, Eb. cbn [length Nat.eqb assert_ bind].
      rewrite (srcs_nth 0 b) by (rewrite Eb; reflexivity). cbn [bind]. unfold raw_band.
      rewrite (bs_nth 0 b) by (rewrite Eb; reflexivity). unfold geo_band. rewrite E0. cbn [Nat.eqb set_dims sb_w sb_h sb_q].
      destruct (image_ok C P w h HP) as (IL & IF).
      destruct (band_roundtrip w h 0 (cp_pred p && true) (sb_q (sub_of (i_new d) (zlen (concat (map cb_bytes (firstn 0 (cp_bands p))))) b)) (image P w h)
         (firstn (length (cb_bytes b) - Z.to_nat (cb_unused b)) (cb_bytes b)) rest) as (p' & E1 & _); auto; try lia.
      { rewrite Forall_forall in *. intros r Hr. split; [apply IF; exact Hr|]. apply Hs. exact Hr. }
      { rewrite andb_true_r. exact Hbits. }
      fold w h. rewrite E1. reflexivity.
    - apply levels_decode; auto; lia.
  Qed.
End Plane.
