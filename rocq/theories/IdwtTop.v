(** Decoding of a whole plane. *)
From Coq Require Import List ZArith Lia Bool.
From Verif Require Import Base BaseLemmas Crx CrxLL Idwt IdwtSpec IdwtRow IdwtProofs IdwtLevels.
Import ListNotations.
Open Scope Z_scope.

Section Top.
Variable B : Type.
Variable next : B -> res (list Z * B).
Variables left right : bool.
Let tile := mk_nbrs false false left right.
Local Notation Inv := (Inv B next left right).

Lemma wf_new w : wf w (repeat (repeat 0 w) 5).
Proof.
  split; [apply repeat_length|]. intros h Hh. do 5 (destruct h as [|h]; [apply repeat_length|]). lia.
Qed.

Lemma init_ok lvs : forall w h P C s, lvs <> [] -> fits left right lvs w h ->
  0 <= C -> (forall i j, Z.abs (P i j) <= C) -> (C + 1) * 4 ^ Z.of_nat (length lvs) <= 2 ^ 28 ->
  coded next left right lvs w h P s -> exists s', filter_init B next tile s = Ok s' /\ Inv lvs w h P 0 s' /\ pending B s'.
Proof.
  induction lvs as [|[nl nh] lvs IH]; intros w h P C s Hne F HC0 HP HC Cd; [congruence|].
  destruct s as [b|t b1 b2 b3 below]; [contradiction|].
  assert (F0 := F). assert (HC00 := HC).
  cbn [fits] in F. destruct F as (Fw & Fh & Fl & Fhh & F).
  cbn [length] in HC. rewrite Nat2Z.inj_succ, Z.pow_succ_r in HC by lia.
  assert (Hp4 : 0 < 4 ^ Z.of_nat (length lvs)) by (apply Z.pow_pos_nonneg; lia).
  assert (HC4 : (4 * C + 3 + 1) * 4 ^ Z.of_nat (length lvs) <= 2 ^ 28) by nia.
  assert (HC1 : 4 * C + 4 <= 2 ^ 28) by nia.
  cbn [coded] in Cd. destruct Cd as (-> & E1 & E2 & E3 & Cb).
  assert (H2 : (0 < h / 2)%nat) by (apply Nat.div_str_pos; lia).
  assert (H3 : (0 < (h + 1) / 2)%nat) by (apply Nat.div_str_pos; lia).
  cbn [filter_init].
  set (load0 := match below with LL b => _ | _ => _ end).
  assert (Load : exists below', load0 = Ok (set_b0 (line (coarser left right w h P (Z.of_nat 0)) 0 nl) (wt_new h w), below')
      /\ Inv lvs nl ((h + 1) / 2) (coarser left right w h P) 1 below').
  { unfold load0. destruct lvs as [|lv lvs].
    - destruct below as [b|]; [|contradiction]. cbn [coded] in Cb. change (image ?P ?w ?h) with (skipn 0 (image P w h)) in Cb.
      destruct (emits_step B next b (coarser left right w h P) 0 nl _ 0 H3 Cb) as (b' & -> & Eb). cbn [bind].
      eexists. split; [reflexivity|]. exact Eb.
    - destruct below as [b|t' c1 c2 c3 below']; [destruct lv; contradiction|].
      destruct (IH nl ((h + 1) / 2)%nat (coarser left right w h P) (4 * C + 3) _ ltac:(discriminate) F ltac:(lia)
                  ltac:(intros; apply coarser_bound; auto) HC4 Cb) as (s' & -> & Is & Ps).
      cbn [bind]. destruct s' as [b|t'' d1 d2 d3 below'']; [contradiction|].
      destruct (getline_ok B next left right _ _ _ _ _ _ _ _ _ _ Is Ps) as (t3 & -> & I3). cbn [bind].
      eexists. split; [reflexivity|]. exact I3. }
  clear IH. clearbody load0. destruct Load as (below' & -> & Ib). cbn [bind].
  cbn [wt_new set_b0 t_h t_w t_tap]. destruct (Nat.ltb_spec 1 h); [|lia].
  change (band_lines ?f ?o ?c ?n) with (skipn 0 (band_lines f o c n)) in E1, E2, E3.
  destruct (emits_step B next b1 _ _ _ _ 0 H3 E1) as (b1' & -> & E1'). cbn [bind].
  destruct (emits_step B next b2 _ _ _ _ 0 H2 E2) as (b2' & -> & E2'). cbn [bind].
  destruct (emits_step B next b3 _ _ _ _ 0 H2 E3) as (b3' & -> & E3'). cbn [bind].
  cbn [wt_new set_b0 set_b1 set_b2 set_b3 set_lines set_ring t_b0 t_b1 t_b2 t_b3 t_l0 t_l1 t_l2 t_h t_w t_tap t_ring t_line t_cur n_top n_left n_right tile].
  unfold coarser at 1.
  rewrite synth_ok with (C := 2 * C + 1); try lia; auto; try (intros; apply rowL_bound; auto); try apply repeat_length. cbn [bind].
  rewrite synth_ok with (C := 2 * C + 1); try lia; auto; try apply repeat_length.
  2:{ intros j. pose proof (rowH_bound h P (Z.of_nat 0) C j HP). lia. }
  cbn [bind].
  destruct (cols1 (first_col 0 (line (rowL h P (Z.of_nat 0)) 0 w) (line (rowH h P (Z.of_nat 0)) 0 w)) w 0 0 (repeat (repeat 0 w) 5)
              (fun i => P 0 (Z.of_nat i)) (wf_new w) ltac:(lia)) as (ring & -> & Wr & Rr & Ro).
  { intros i rg Hi Wg Hg. unfold first_col. rewrite !get_line0 by auto. cbn [bind].
    change (Z.of_nat 0) with 0. rewrite vfirst with (C := C) by (auto; lia). reflexivity. }
  cbn [bind].
  match goal with |- context [filter_decode B next tile ?x] => set (s0 := x) end.
  assert (I0 : Inv ((nl, nh) :: lvs) w h P 0 s0).
  { unfold s0. cbn [IdwtLevels.Inv wt_new set_b0 set_b1 set_b2 set_b3 set_lines set_ring t_line t_cur t_tap t_ring t_h t_w t_l0 t_l1 t_l2].
    change (0 / 2 + 1)%nat with 1%nat. rewrite Nat.min_l by lia.
    split; [repeat split; cbn; auto; try apply Wr; try apply line_length; try apply repeat_length; lia|].
    split; [lia|]. split; [lia|]. split; [intros; lia|]. split.
    { right. exists 0%nat. split; [reflexivity|]. split; [lia|]. split; [|reflexivity].
      change (t_tap _) with 0%nat. change (t_ring _) with ring. rewrite Rr. apply map_line. }
    do 3 (split; [assumption|]). exact Ib. }
  destruct (decode_ok B next left right ((nl, nh) :: lvs) w h P 0 s0 ltac:(discriminate) F0 ltac:(lia) I0) as (s1 & Ed & L1).
  change (filter_decode B next tile s0 = Ok s1) in Ed. rewrite Ed. cbn [bind].
  exact (transform_ok B next left right ((nl, nh) :: lvs) w h P C 0 s1 ltac:(discriminate) F0 ltac:(lia) HC0 HP HC00 L1).
Qed.

Lemma lines_ok lvs w h P C : lvs <> [] -> fits left right lvs w h ->
  0 <= C -> (forall i j, Z.abs (P i j) <= C) -> (C + 1) * 4 ^ Z.of_nat (length lvs) <= 2 ^ 28 ->
  forall n r s, (r + n = h)%nat -> Inv lvs w h P r s ->
  plane_lines B next tile n s = Ok (map (fun r => line (P (Z.of_nat r)) 0 w) (seq r n)).
Proof.
  intros Hne F HC0 HP HC. induction n; intros r s Hn I; [reflexivity|].
  cbn [plane_lines]. unfold plane_line.
  destruct (decode_ok B next left right _ w h P r s Hne F ltac:(lia) I) as (s1 & Ed & L1).
  change (filter_decode B next tile s = Ok s1) in Ed. rewrite Ed. cbn [bind].
  destruct (transform_ok B next left right _ w h P C r s1 Hne F ltac:(lia) HC0 HP HC L1) as (s2 & Et & I2 & P2).
  change (filter_transform B tile s1 = Ok s2) in Et. rewrite Et. cbn [bind].
  destruct s2 as [b|t b1 b2 b3 below]; [contradiction|].
  destruct (getline_ok B next left right _ _ _ _ _ _ _ _ _ _ I2 P2) as (t' & -> & I3). cbn [bind].
  rewrite (IHn (r + 1)%nat) by (auto; lia). cbn [bind seq map]. now rewrite Nat.add_1_r.
Qed.

Theorem plane_roundtrip lvs w h P C s : lvs <> [] -> fits left right lvs w h ->
  (forall i j, Z.abs (P i j) <= C) -> (C + 1) * 4 ^ Z.of_nat (length lvs) <= 2 ^ 28 ->
  coded next left right lvs w h P s ->
  plane_decode B next (mk_nbrs false false left right) h s = Ok (image P w h).
Proof.
  intros Hne F HP HC Cd. assert (HC0 : 0 <= C) by (pose proof (HP 0 0); lia).
  unfold plane_decode.
  destruct (init_ok lvs w h P C s Hne F HC0 HP HC Cd) as (s' & E & I & _).
  change (filter_init B next tile s = Ok s') in E. unfold tile in E. rewrite E. cbn [bind].
  rewrite lines_ok with (lvs := lvs) (w := w) (h := h) (P := P) (C := C) (r := 0%nat); auto.
Qed.
End Top.
