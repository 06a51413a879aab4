(** Proofs: lines of a band, scaled. *)
From Coq Require Import List ZArith Bool Lia.
From Verif Require Import Base BaseLemmas Crx CrxSpec CrxProofs CrxLL CrxTop Idwt CrxImage IdwtSpec CrxImageSpec.
Import ListNotations.
Open Scope Z_scope.

Lemma decode_line_q p p' : decode_line p = Ok p' -> b_q p' = b_q p.
Proof.
  unfold decode_line. destruct (assert_ _); cbn [bind]; try discriminate.
  match goal with |- bind ?e _ = _ -> _ => destruct e as [[? ?]| |] end; cbn [bind]; try discriminate.
  intros [= <-]. reflexivity.
Qed.

(** Scaled lines have the same zeros, which is all a band without prediction
    looks at. *)
Lemma line_code_run K K' row : kd_left K = kd_left K' -> (forall i, kd_run K i = kd_run K' i) -> kd_pred K = kd_pred K' ->
  kd_rpred K = kd_rpred K' -> kd_low K = kd_low K' -> kd_next K = kd_next K' ->
  forall fuel i k s, line_code K row fuel i k s = line_code K' row fuel i k s.
Proof.
  intros E1 E2 E3 E4 E5 E6. induction fuel as [|fuel IH]; intros; [reflexivity|].
  cbn [line_code]. rewrite E1, E2, E3, E4, E5, E6.
  destruct (_ =? 0)%nat; [reflexivity|]. destruct (_ && _).
  - destruct (match run_length _ _ with O => _ | _ => _ end) as [rb s1]. destruct (_ =? _)%nat; [reflexivity|]. now rewrite IH.
  - now rewrite IH.
Qed.

Lemma scaled_code above above' ks row k s : (forall i, (nth i above 0 =? 0) = (nth i above' 0 =? 0)) ->
  line_code (line_kind false (Some above) ks row) row (length row) 0 k s =
  line_code (line_kind false (Some above') ks row) row (length row) 0 k s.
Proof. intros H. apply line_code_run; try reflexivity. intros i. cbn [line_kind kind_nontop_nr kd_run]. now rewrite !H. Qed.

(** ** Scaling *)

Lemma scale_ok fac f w cur : length cur = (w + 2)%nat ->
  (forall c, (c < w)%nat -> fac c = Ok (f c) /\ - 2 ^ 31 <= nth (S c) cur 0 * f c < 2 ^ 31) ->
  exists cur', for_each (seq 0 w) (scale_at fac) cur = Ok cur' /\ length cur' = (w + 2)%nat /\ nth 0 cur' 0 = nth 0 cur 0 /\
    forall c, (c < w)%nat -> nth (S c) cur' 0 = nth (S c) cur 0 * f c.
Proof.
  intros HL HF.
  destruct (for_each_seq_inv (scale_at fac) (fun i cur' => length cur' = (w + 2)%nat /\ nth 0 cur' 0 = nth 0 cur 0 /\
    forall c, (c < w)%nat -> nth (S c) cur' 0 = if (c <? i)%nat then nth (S c) cur 0 * f c else nth (S c) cur 0) 0 w cur) as (cur' & E & A & B & C).
  - repeat split; auto.
  - intros i s Hi (A & B & C). destruct (HF i ltac:(lia)) as [E R]. unfold scale_at. rewrite E. cbn [bind].
    rewrite (get_ok _ _ 0) by lia. cbn [bind]. change (1 + i)%nat with (S i). rewrite (C i) by lia.
    destruct (Nat.ltb_spec i i); [lia|]. rewrite i32_ok by exact R. cbn [bind]. rewrite put_ok by lia.
    eexists; split; [reflexivity|]. rewrite upd_list_length. split; [exact A|]. split; [rewrite nth_upd_neq by lia; exact B|].
    intros c Hc. destruct (Nat.eq_dec c i) as [->|N].
    + rewrite nth_upd_eq by lia. destruct (Nat.ltb_spec i (S i)); [reflexivity|lia].
    + rewrite nth_upd_neq by lia. rewrite C by exact Hc.
      destruct (Nat.ltb_spec c i), (Nat.ltb_spec c (S i)); try lia; reflexivity.
  - exists cur'. repeat split; auto. intros c Hc. rewrite C by exact Hc. destruct (Nat.ltb_spec c (0 + w)); [reflexivity|lia].
Qed.

Lemma Inv_scaled w h mask ll n row row' ks k s bits p cur' : Inv w h mask ll n row ks k s bits p ->
  length cur' = (w + 2)%nat -> nth 0 cur' 0 = nth 0 (b_cur p) 0 -> (forall j, (j < w)%nat -> nth (S j) cur' 0 = nth j row' 0) ->
  Inv w h mask ll n row' ks k s bits (set_cur_line cur' p).
Proof.
  intros (A1 & A2 & A3 & A4 & A5 & A6 & A7 & A8 & A9 & A10 & A11 & A12 & A13 & A14 & A15) L E0 E.
  unfold Inv, set_cur_line. cbn [b_w b_h b_mask b_partial b_line b_prev b_cur b_lk b_k b_s b_bits].
  do 14 (split; [assumption|]). rewrite E0. exact A15.
Qed.

Section Source.
  Variables (b : subband) (w h : nat) (mask : Z) (ll : bool) (q : Z) (step : option qstep) (f : nat -> nat -> Z).
  Hypothesis Hw : sb_w b = w.
  Hypothesis Hw1 : (1 <= w)%nat.
  Hypothesis Hdata : 0 < sb_data b.
  Hypothesis Hpart : sb_partial b = false.
  Hypothesis Hmask : ll = true -> mask <= 0.

  (** How the factors come about. *)
  Definition factors : Prop :=
    match step with
    | Some t => forall r, (r < h)%nat -> exists r', subband_row b r = Ok r' /\ (qs_w t * r' <= length (qs_tbl t))%nat /\
        forall c, (c < w)%nat -> step_factor b (skipn (qs_w t * r') (qs_tbl t)) c = Ok (f r c)
    | None => exists v, q_scale q = Ok v /\ forall r c, f r c = v
    end.
  Hypothesis HF : factors.
  Hypothesis Hpos : forall r c, 1 <= f r c.
  Hypothesis Hone : ll = true -> forall r c, f r c = 1.

  Definition row_scaled (r : nat) (row line : list Z) : Prop :=
    length row = w /\ length line = w /\ Forall sample_ok row /\
    forall c, (c < w)%nat -> nth c line 0 = nth c row 0 * f r c /\ - 2 ^ 31 <= nth c line 0 < 2 ^ 31.

  (** One line once it is decoded. *)
  Lemma scale_line n row line ks k s bits p p1 :
    decode_line p = Ok p1 -> b_q p = q -> row_scaled n row line -> (n < h)%nat ->
    Inv w h mask ll (S n) row ks k s bits p1 ->
    exists p2, next_line (mk_src b p step) = Ok (line, mk_src b p2 step) /\ b_q p2 = q /\ Inv w h mask ll (S n) line ks k s bits p2.
  Proof.
    intros E Eq (Lr & Ll & Hs & HR) Hn HI. unfold next_line. cbn [s_hdr s_band s_step].
    destruct (Z.eqb_spec (sb_data b) 0); [lia|]. rewrite Hpart. cbn [andb negb assert_ bind]. rewrite E. cbn [bind].
    pose proof (decode_line_q _ _ E) as Eq1.
    pose proof HI as (_ & _ & _ & _ & Hl & _ & Lc & _ & C & _).
    assert (forall fac, (forall c, (c < w)%nat -> fac c = Ok (f n c)) ->
      exists cur', for_each (seq 0 w) (scale_at fac) (b_cur p1) = Ok cur' /\ length cur' = (w + 2)%nat /\ nth 0 cur' 0 = nth 0 (b_cur p1) 0 /\
        forall j, (j < w)%nat -> nth (S j) cur' 0 = nth j line 0) as SC.
    { intros fac Hfac. destruct (scale_ok fac (f n) w (b_cur p1) Lc) as (cur' & A & B & D & G).
      - intros c Hc. split; [auto|]. rewrite C by exact Hc. destruct (HR c Hc) as [<- ?]. assumption.
      - exists cur'. repeat split; auto. intros j Hj. rewrite G by exact Hj. rewrite C by exact Hj. now destruct (HR j Hj) as [<- ?]. }
    assert (exists cur', (match step with
      | Some q0 => do row0 <- usub (b_line p1) 1; do r <- subband_row b row0;
          do _ <- assert_ (qs_w q0 * r <=? length (qs_tbl q0))%nat;
          for_each (seq 0 (sb_w b)) (scale_at (step_factor b (skipn (qs_w q0 * r) (qs_tbl q0)))) (b_cur p1)
      | None => do f0 <- q_scale (b_q p1); if f0 =? 1 then Ok (b_cur p1) else for_each (seq 0 (sb_w b)) (scale_at (fun _ => Ok f0)) (b_cur p1)
      end) = Ok cur' /\ length cur' = (w + 2)%nat /\ nth 0 cur' 0 = nth 0 (b_cur p1) 0 /\
        forall j, (j < w)%nat -> nth (S j) cur' 0 = nth j line 0) as (cur' & A & B & D & G).
    { rewrite Hw, Hl. unfold factors in HF. destruct step as [t|].
      - rewrite usub_ok by lia. cbn [bind]. replace (S n - 1)%nat with n by lia.
        destruct (HF n Hn) as (r' & E1 & E2 & E3). rewrite E1. cbn [bind]. rewrite (proj2 (Nat.leb_le _ _) E2). cbn [assert_ bind].
        apply SC. exact E3.
      - destruct HF as (v & E1 & E2). rewrite Eq1, Eq, E1. cbn [bind].
        destruct (Z.eqb_spec v 1) as [->|N].
        + exists (b_cur p1). repeat split; auto. intros j Hj. rewrite C by exact Hj. destruct (HR j Hj) as [-> _]. rewrite E2. lia.
        + apply SC. intros. now rewrite E2. }
    rewrite A. cbn [bind].
    pose proof (Inv_scaled w h mask ll (S n) row line ks k s bits p1 cur' HI B D G) as I2.
    rewrite (decoded_ok w h mask ll Hmask _ _ _ _ _ _ _ Ll I2). cbn [bind].
    exists (set_cur_line cur' p1). split; [reflexivity|]. split; [|exact I2]. cbn. congruence.
  Qed.

  Lemma scaled_above row line n : row_scaled n row line -> ll = true -> line = row.
  Proof.
    intros (L1 & L2 & _ & H) Hl. apply nth_ext_len with 0; [congruence|]. intros i Hi. rewrite L2 in Hi.
    destruct (H i Hi) as [-> _]. rewrite (Hone Hl). lia.
  Qed.
  Lemma scaled_zeros row line n i : row_scaled n row line -> (nth i row 0 =? 0) = (nth i line 0 =? 0).
  Proof.
    intros (L1 & L2 & _ & H). destruct (Nat.ltb_spec i w).
    - destruct (H i ltac:(lia)) as [-> _]. specialize (Hpos n i).
      destruct (Z.eqb_spec (nth i row 0) 0) as [->|N]; [reflexivity|]. symmetry. apply Z.eqb_neq. nia.
    - now rewrite !nth_overflow by lia.
  Qed.

  Lemma rest_emits rest : forall rows lines n above aline aks k s p,
    length rows = length lines -> (forall r, (r < length rows)%nat -> row_scaled (S n + r) (nth r rows []) (nth r lines [])) ->
    row_scaled n above aline -> (S n + length rows <= h)%nat -> b_q p = q ->
    Inv w h mask ll (S n) aline aks k s (band_code ll (Some above) aks k s rows ++ rest) p ->
    emits next_line (mk_src b p step) lines.
  Proof.
    induction rows as [|row rows IH]; intros lines n above aline aks k s p EL HR HA Hn Hq HI.
    - destruct lines; [exact I|discriminate].
    - destruct lines as [|line lines]; [discriminate|]. cbn [length] in *. cbn [band_code] in HI.
      destruct (line_code _ row _ 0 k s) as [[[bb ks1] k1] s1] eqn:E. rewrite <- app_assoc in HI.
      pose proof (HR 0%nat ltac:(lia)) as HR0. cbn [nth] in HR0. rewrite Nat.add_0_r in HR0.
      pose proof HR0 as (L1 & _ & S1 & _). pose proof HA as (La & La' & Sa & _).
      assert (line_code (line_kind ll (Some aline) aks row) row (length row) 0 k s = (bb, ks1, k1, s1)) as E'.
      { destruct (Bool.bool_dec ll true) as [Hl|Hl].
        - rewrite (scaled_above _ _ _ HA Hl). exact E.
        - apply not_true_is_false in Hl. rewrite <- E, Hl. apply scaled_code. intros i. symmetry. now apply (scaled_zeros above aline n). }
      assert (ll = true -> Forall sample_ok aline) as Sl by (intros Hl; rewrite (scaled_above _ _ _ HA Hl); exact Sa).
      destruct (CrxTop.next_line w h mask ll Hmask (S n) aline aks k s row bb ks1 k1 s1 _ p L1 S1 La' Sl ltac:(lia) ltac:(lia) Hw1 E' HI) as (p1 & A1 & I1).
      destruct (scale_line (S n) row line ks1 k1 s1 _ p p1 A1 Hq HR0 ltac:(lia) I1) as (p2 & A2 & Q2 & I2).
      cbn [emits]. exists (mk_src b p2 step). split; [exact A2|].
      apply (IH lines (S n) row line ks1 k1 s1 p2); auto; try lia.
      intros r Hr. specialize (HR (S r) ltac:(lia)). cbn [nth] in HR. now replace (S (S n) + r)%nat with (S n + S r)%nat by lia.
  Qed.

  Lemma band_emits coeffs lines bytes rest :
    length coeffs = h -> length coeffs = length lines ->
    (forall r, (r < h)%nat -> row_scaled r (nth r coeffs []) (nth r lines [])) ->
    byte_bits bytes = band_code ll None [] 0 0 coeffs ++ rest ->
    emits next_line (mk_src b (band_new w h mask ll q bytes) step) lines.
  Proof.
    intros Hh EL HR Eb. destruct coeffs as [|row rows], lines as [|line lines]; try discriminate; [exact I|].
    cbn [length] in *. cbn [band_code] in Eb.
    destruct (line_code _ row _ 0 0 0) as [[[bb ks1] k1] s1] eqn:E. rewrite <- app_assoc in Eb.
    pose proof (HR 0%nat ltac:(lia)) as HR0. cbn [nth] in HR0. pose proof HR0 as (L1 & _ & S1 & _).
    destruct (first_line w h mask ll Hmask row bb ks1 k1 s1 (band_code ll (Some row) ks1 k1 s1 rows ++ rest) (band_new w h mask ll q bytes)) as (p1 & A1 & I1); auto; try lia.
    destruct (scale_line 0 row line ks1 k1 s1 _ (band_new w h mask ll q bytes) p1 A1 eq_refl HR0 ltac:(lia) I1) as (p2 & A2 & Q2 & I2).
    cbn [emits]. exists (mk_src b p2 step). split; [exact A2|].
    apply (rest_emits rest rows lines 0 row line ks1 k1 s1 p2); auto; try lia.
    intros r Hr. exact (HR (S r) ltac:(lia)).
  Qed.
End Source.
