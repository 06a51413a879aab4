(** Proofs: sizes, factors and lines of the bands of a plane. *)
From Coq Require Import List ZArith Bool Lia.
From Verif Require Import Base BaseLemmas Crx CrxSpec CrxProofs CrxLL CrxTop Idwt IdwtSpec IdwtRow IdwtProofs CrxImage CrxImageSpec CrxHdr CrxGeom CrxTiles CrxQuant CrxSrc.
Import ListNotations.
Open Scope Z_scope.

(** ** Widths *)

Lemma up2 a : (2 * ((a + 1) / 2) = a \/ 2 * ((a + 1) / 2) = a + 1)%nat.
Proof. pose proof (Nat.div_mod (a + 1) 2 ltac:(lia)). pose proof (Nat.mod_upper_bound (a + 1) 2 ltac:(lia)). lia. Qed.
Lemma down2 a : (2 * (a / 2) = a \/ 2 * (a / 2) + 1 = a)%nat.
Proof. pose proof (Nat.div_mod a 2 ltac:(lia)). pose proof (Nat.mod_upper_bound a 2 ltac:(lia)). lia. Qed.

Lemma halved_pow l : forall L n, (l <= L)%nat -> (2 ^ L < n)%nat -> (2 ^ (L - l) < halved n l)%nat.
Proof.
  induction l as [|l IH]; intros L n Hl H; [now rewrite Nat.sub_0_r|]. specialize (IH L n ltac:(lia) H). cbn [halved].
  replace (L - l)%nat with (S (L - S l)) in IH by lia. cbn [Nat.pow] in IH. pose proof (up2 (halved n l)). lia.
Qed.

Lemma halved_ge L n l : (l < L)%nat -> (2 ^ L < n)%nat -> (3 <= halved n l)%nat.
Proof.
  intros Hl H. pose proof (halved_pow l L n ltac:(lia) H) as A. assert (2 ^ 1 <= 2 ^ (L - l))%nat by (apply Nat.pow_le_mono_r; lia).
  cbn in H0. lia.
Qed.
Lemma halved_pos L n l : (l <= L)%nat -> (2 ^ L < n)%nat -> (2 <= halved n l)%nat.
Proof. intros Hl H. pose proof (halved_pow l L n Hl H) as A. pose proof (Nat.pow_nonzero 2 (L - l) ltac:(lia)). lia. Qed.

(** Width of level [l]. *)
Definition width_at (right : bool) (L w l : nat) : nat := match l with O => w | S l => low_cols right L w l end.

Definition lvs_from (left right : bool) (L w k : nat) : list (nat * nat) :=
  map (fun l => (low_cols right L w l, high_cols left right L w l)) (seq k (L - k)).

Lemma mod8 w : exists a r, (w = 8 * a + r /\ r < 8 /\ w mod 8 = r)%nat.
Proof. exists (w / 8)%nat, (w mod 8)%nat. pose proof (Nat.div_mod w 8 ltac:(lia)). pose proof (Nat.mod_upper_bound w 8 ltac:(lia)). lia. Qed.

Lemma fits_level left right L w k : (1 <= L <= 3)%nat -> (k < L)%nat ->
  (need_low right (width_at right L w k) <= low_cols right L w k /\
   need_high left right (width_at right L w k) <= high_cols left right L w k /\ halved w k <= width_at right L w k)%nat.
Proof.
  intros HL Hk. unfold need_low, need_high, low_cols, high_cols, extra. destruct right.
  2:{ assert (width_at false L w k = halved w k) as ->.
      { destruct k; [reflexivity|]. cbn [width_at]. unfold low_cols, extra. cbn [snd]. lia. }
      cbn [fst snd halved]. lia. }
  destruct (mod8 w) as (a & r & E & Hr & Em).
  assert (forall l, extra true L w l = nth l (nth r (nth (L - 1) extra_columns []) []) (0, 0)%nat) as EX by (intros; unfold extra; now rewrite Em).
  rewrite ?EX, ?Em.
  pose proof (up2 w). pose proof (up2 (halved w 1)). pose proof (up2 (halved w 2)).
  pose proof (down2 w). pose proof (down2 (halved w 1)). pose proof (down2 (halved w 2)).
  destruct L as [|[|[|[|]]]]; try lia; (destruct k as [|[|[|]]]; try lia);
    (destruct r as [|[|[|[|[|[|[|[|]]]]]]]]; try lia);
    cbn [width_at]; unfold low_cols; rewrite ?EX; clear EX;
    cbn [extra_columns Nat.sub nth fst snd halved] in *;
    repeat match goal with |- context [(((?x + 1) / 2 + ?e) / 2)%nat] =>
      pose proof (down2 ((x + 1) / 2 + e)%nat); set (((x + 1) / 2 + e) / 2)%nat in * end;
    clear - E H H0 H1 H2 H3 H4; destruct left; try lia.
Qed.

Lemma lvs_from_S left right L w k : (k < L)%nat ->
  lvs_from left right L w k = (low_cols right L w k, high_cols left right L w k) :: lvs_from left right L w (S k).
Proof. intros H. unfold lvs_from. replace (L - k)%nat with (S (L - S k)) by lia. reflexivity. Qed.
Lemma lvs_from_end left right L w : lvs_from left right L w L = [].
Proof. unfold lvs_from. now rewrite Nat.sub_diag. Qed.
Lemma lvs_from_0 left right L w : lvs_from left right L w 0 = level_cols left right L w.
Proof. unfold lvs_from, level_cols. now rewrite Nat.sub_0_r. Qed.

Lemma fits_from left right L w h : (1 <= L <= 3)%nat -> (2 ^ L < w)%nat -> (2 ^ L < h)%nat ->
  forall n k, (k + n = L)%nat -> fits left right (lvs_from left right L w k) (width_at right L w k) (halved h k).
Proof.
  intros HL Hw Hh. induction n as [|n IH]; intros k Hk.
  - replace k with L by lia. now rewrite lvs_from_end.
  - rewrite lvs_from_S by lia. cbn [fits]. destruct (fits_level left right L w k HL ltac:(lia)) as (A & B & D).
    pose proof (halved_ge L w k ltac:(lia) Hw). pose proof (halved_ge L h k ltac:(lia) Hh).
    repeat split; try lia. exact (IH (S k) ltac:(lia)).
Qed.

(** ** Sizes and values of bands *)

Definition band_cols (left right : bool) (L w i : nat) : nat :=
  if band_high i then high_cols left right L w (band_level L i) else low_cols right L w (band_level L i).
Definition band_rows (L h i : nat) : nat :=
  if (i =? 0)%nat then halved h L else if (i mod 3 =? 1)%nat then halved h (S (band_level L i)) else (halved h (band_level L i) / 2)%nat.

Definition lines_ok (C : Z) (cols rows : nat) (ls : list (list Z)) : Prop :=
  length ls = rows /\ Forall (fun l => length l = cols /\ Forall (fun v => Z.abs v <= C) l) ls.

Lemma line_ok C f from n : (forall j, Z.abs (f j) <= C) -> length (line f from n) = n /\ Forall (fun v => Z.abs v <= C) (line f from n).
Proof. intros H. split; [apply line_length|]. unfold line. rewrite Forall_map, Forall_forall. auto. Qed.
Lemma band_lines_ok C f from cols rows : (forall i j, Z.abs (f i j) <= C) -> lines_ok C cols rows (band_lines f from cols rows).
Proof.
  intros H. unfold lines_ok, band_lines. split; [now rewrite map_length, seq_length|]. rewrite Forall_map, Forall_forall.
  intros n _. apply line_ok. auto.
Qed.
Lemma image_ok C P w h : (forall i j, Z.abs (P i j) <= C) -> lines_ok C w h (image P w h).
Proof.
  intros H. unfold lines_ok, image. split; [now rewrite map_length, seq_length|]. rewrite Forall_map, Forall_forall.
  intros n _. apply line_ok. auto.
Qed.
Lemma lines_ok_le C C' cols rows ls : C <= C' -> lines_ok C cols rows ls -> lines_ok C' cols rows ls.
Proof.
  intros H (A & B). split; [exact A|]. eapply Forall_impl; [|exact B]. cbn. intros l (D & E). split; [exact D|].
  eapply Forall_impl; [|exact E]. cbn. lia.
Qed.

Lemma bands_of_length left right lvs : forall w h P, length (bands_of left right lvs w h P) = (3 * length lvs + 1)%nat.
Proof. induction lvs as [|[nl nh] lvs IH]; intros; cbn [bands_of length]; [reflexivity|]. rewrite app_length, IH. cbn [length]. lia. Qed.

Lemma index_mod3 n : ((3 * n + 1) mod 3 = 1 /\ (3 * n + 2) mod 3 = 2 /\ (3 * n + 3) mod 3 = 0)%nat.
Proof.
  repeat split.
  - symmetry. apply Nat.mod_unique with n; lia.
  - symmetry. apply Nat.mod_unique with n; lia.
  - symmetry. apply Nat.mod_unique with (S n); lia.
Qed.
Lemma index_level L n j : (n < L)%nat -> (1 <= j <= 3)%nat -> band_level L (3 * n + j) = (L - 1 - n)%nat.
Proof. intros Hn Hj. unfold band_level. f_equal. symmetry. apply Nat.div_unique with (j - 1)%nat; lia. Qed.

Lemma bands_from left right L w h : (1 <= L <= 3)%nat -> forall n k P C, (k + n = L)%nat ->
  (forall i j, Z.abs (P i j) <= C) -> 0 <= C -> (C + 1) * 4 ^ Z.of_nat n <= 2 ^ 28 ->
  forall i, (i < 3 * n + 1)%nat ->
  lines_ok (2 ^ 28) (if (i =? 0)%nat then width_at right L w L else band_cols left right L w i) (band_rows L h i)
    (nth i (bands_of left right (lvs_from left right L w k) (width_at right L w k) (halved h k) P) []).
Proof.
  intros HL. induction n as [|n IH]; intros k P C Hk HP HC0 HC i Hi.
  - assert (i = 0)%nat by lia. subst i. replace k with L by lia. rewrite lvs_from_end. cbn [bands_of nth Nat.eqb].
    unfold band_rows. cbn [Nat.eqb]. apply lines_ok_le with C; [change (4 ^ Z.of_nat 0) with 1 in HC; lia|]. now apply image_ok.
  - rewrite lvs_from_S by lia. cbn [bands_of].
    change ((halved h k + 1) / 2)%nat with (halved h (S k)). change (low_cols right L w k) with (width_at right L w (S k)).
    assert (4 ^ Z.of_nat (S n) = 4 * 4 ^ Z.of_nat n) as E4 by (rewrite Nat2Z.inj_succ, Z.pow_succ_r by lia; lia).
    assert (0 < 4 ^ Z.of_nat n) as P4 by (apply Z.pow_pos_nonneg; lia).
    assert (length (lvs_from left right L w (S k)) = n) as EL by (unfold lvs_from; rewrite map_length, seq_length; lia).
    assert (4 * C + 3 <= 2 ^ 28) as HB by nia.
    destruct (Nat.lt_ge_cases i (3 * n + 1)) as [Hlt|Hge].
    + rewrite app_nth1 by (rewrite bands_of_length, EL; exact Hlt).
      apply IH with (4 * C + 3); [lia|intros a b; apply coarser_bound; exact HP|lia|nia|exact Hlt].
    + rewrite app_nth2 by (rewrite bands_of_length, EL; exact Hge). rewrite bands_of_length, EL.
      destruct (index_mod3 n) as (M1 & M2 & M3).
      assert (i = 3 * n + 1 \/ i = 3 * n + 2 \/ i = 3 * n + 3)%nat as [ -> | [ -> | -> ] ] by lia.
      * replace (3 * n + 1 - (3 * n + 1))%nat with 0%nat by lia. cbn [nth].
        destruct (Nat.eqb_spec (3 * n + 1) 0); [lia|]. unfold band_cols, band_rows, band_high. rewrite M1, (index_level L n 1) by lia.
        destruct (Nat.eqb_spec (3 * n + 1) 0); [lia|]. cbn [negb andb Nat.eqb]. replace (L - 1 - n)%nat with k by lia.
        apply lines_ok_le with (4 * C + 3); [lia|]. apply band_lines_ok. intros a b.
        pose proof (high_bound (fun j => rowL (halved h k) P a (mirror left right (width_at right L w k) j)) (2 * C + 1) b (fun j => rowL_bound _ P a C _ HP)).
        unfold colH. lia.
      * replace (3 * n + 2 - (3 * n + 1))%nat with 1%nat by lia. cbn [nth].
        destruct (Nat.eqb_spec (3 * n + 2) 0); [lia|]. unfold band_cols, band_rows, band_high. rewrite M2, (index_level L n 2) by lia.
        destruct (Nat.eqb_spec (3 * n + 2) 0); [lia|]. cbn [negb andb Nat.eqb]. replace (L - 1 - n)%nat with k by lia.
        apply lines_ok_le with (4 * C + 3); [lia|]. apply band_lines_ok. intros a b.
        pose proof (low_bound (fun j => rowH (halved h k) P a (mirror left right (width_at right L w k) j)) (2 * C) b (fun j => rowH_bound _ P a C _ HP)).
        unfold colL. lia.
      * replace (3 * n + 3 - (3 * n + 1))%nat with 2%nat by lia. cbn [nth].
        destruct (Nat.eqb_spec (3 * n + 3) 0); [lia|]. unfold band_cols, band_rows, band_high. rewrite M3, (index_level L n 3) by lia.
        destruct (Nat.eqb_spec (3 * n + 3) 0); [lia|]. cbn [negb andb Nat.eqb]. replace (L - 1 - n)%nat with k by lia.
        apply lines_ok_le with (4 * C + 3); [lia|]. apply band_lines_ok. intros a b.
        pose proof (high_bound (fun j => rowH (halved h k) P a (mirror left right (width_at right L w k) j)) (2 * C) b (fun j => rowH_bound _ P a C _ HP)).
        unfold colH. lia.
Qed.

Lemma cols_0 left right L w : (1 <= L)%nat -> width_at right L w L = band_cols left right L w 0.
Proof. intros H. unfold band_cols, band_high, band_level. cbn [Nat.eqb negb andb]. rewrite Nat.sub_0_r. destruct L; [lia|]. cbn [width_at]. f_equal. cbn. lia. Qed.

Lemma bands_ok left right L w h P C : (1 <= L <= 3)%nat -> (forall i j, Z.abs (P i j) <= C) -> 0 <= C -> (C + 1) * 4 ^ Z.of_nat L <= 2 ^ 28 ->
  forall i, (i < 3 * L + 1)%nat ->
  lines_ok (2 ^ 28) (band_cols left right L w i) (band_rows L h i) (nth i (bands_of left right (level_cols left right L w) w h P) []).
Proof.
  intros HL HP HC0 HC i Hi. pose proof (bands_from left right L w h HL L 0 P C eq_refl HP HC0 HC i Hi) as H.
  rewrite lvs_from_0 in H. cbn [width_at halved] in H.
  destruct (Nat.eqb_spec i 0) as [->|N]; [|exact H]. rewrite <- cols_0 by lia. exact H.
Qed.

(** ** Placed bands *)

Lemma mod3_cases i : (i mod 3 = 0 \/ i mod 3 = 1 \/ i mod 3 = 2)%nat.
Proof. pose proof (Nat.mod_upper_bound i 3 ltac:(lia)). lia. Qed.

Lemma place_dims v left right L w h i b : (1 <= L)%nat ->
  let p := place v left right L w h i b in
  sb_w p = band_cols left right L w i /\ sb_h p = band_rows L h i /\ sb_data p = sb_data b /\ sb_partial p = sb_partial b /\
  sb_q p = sb_q b /\ sb_base p = sb_base b /\ sb_mult p = sb_mult b /\ sb_off p = sb_off b.
Proof.
  intros HL p. unfold p, place, band_cols, band_rows, band_high.
  destruct (Nat.eqb_spec i 0) as [->|N]; cbn [negb andb Nat.eqb].
  - repeat split.
  - destruct (mod3_cases i) as [E|[E|E]]; rewrite E; cbn [Nat.eqb negb]; repeat split.
Qed.

Lemma place_edges left right L w h i b : (1 <= L)%nat ->
  let p := place 0x200 left right L w h i b in
  sb_r0 p = 0%nat /\ sb_r1 p = 0%nat /\ sb_c0 p = (if band_high i && left then 1 else 0)%nat /\
  sb_c1 p = (if band_high i then fst (extra right L w (band_level L i)) else snd (extra right L w (band_level L i))) /\
  sb_shift p = 2 - Z.of_nat (band_level L i).
Proof.
  intros HL p. unfold p, place, band_high.
  destruct (Nat.eqb_spec i 0) as [->|N]; cbn [negb andb Nat.eqb].
  - cbn [setup_idx Z.eqb Pos.eqb sb_r0 sb_r1 sb_c0 sb_c1 sb_shift]. repeat split; auto. unfold band_level. cbn [Nat.sub Nat.div Nat.divmod fst]. lia.
  - destruct (mod3_cases i) as [E|[E|E]]; rewrite E; cbn [Nat.eqb negb andb setup_idx Z.eqb Pos.eqb sb_r0 sb_r1 sb_c0 sb_c1 sb_shift];
      repeat split; auto; lia.
Qed.

(** ** Factors *)

Lemma own_cols left right L w i : (1 <= L <= 3)%nat -> (2 ^ L < w)%nat -> (i < 3 * L + 1)%nat ->
  let l := band_level L i in
  let ex := extra right L w l in
  let c0 := (if band_high i && left then 1 else 0)%nat in
  let c1 := if band_high i then fst ex else snd ex in
  exists own, (band_cols left right L w i = c0 + own + c1 /\ 1 <= own <= halved w (S l))%nat.
Proof.
  intros HL Hw Hi l ex c0 c1. unfold band_cols, c0, c1. destruct (band_high i) eqn:E; cbn [andb].
  - exists (halved w l / 2)%nat. unfold high_cols. fold l ex. split; [lia|].
    assert (l < L)%nat as Hl by (unfold l, band_level; lia).
    pose proof (halved_ge L w l Hl Hw). pose proof (down2 (halved w l)). cbn [halved]. pose proof (up2 (halved w l)). lia.
  - exists (halved w (S l)). unfold low_cols. fold l ex. split; [lia|].
    assert (l < L)%nat as Hl by (unfold l, band_level; lia). pose proof (halved_pos L w (S l) ltac:(lia) Hw). lia.
Qed.

Lemma halved_table w l c : (1 <= w)%nat -> (l <= 2)%nat -> (c < halved w (S l))%nat -> (c / 2 ^ (2 - l) < (w + 7) / 8)%nat.
Proof.
  intros Hw Hl Hc. pose proof (Nat.div_mod (w + 7) 8 ltac:(lia)) as E. pose proof (Nat.mod_upper_bound (w + 7) 8 ltac:(lia)) as B.
  set (a := ((w + 7) / 8)%nat) in *. cbn [halved] in Hc.
  apply Nat.div_lt_upper_bound; [apply Nat.pow_nonzero; lia|].
  pose proof (up2 w). pose proof (up2 ((w + 1) / 2)). pose proof (up2 (((w + 1) / 2 + 1) / 2)).
  destruct l as [|[|[|]]]; try lia; cbn [halved Nat.sub Nat.pow Nat.mul Nat.add] in *; lia.
Qed.

Lemma rows_level L h i r : (1 <= L)%nat -> (i < 3 * L + 1)%nat -> (r < band_rows L h i)%nat -> (r < halved h (S (band_level L i)))%nat.
Proof.
  intros HL Hi H. unfold band_rows in H. destruct (Nat.eqb_spec i 0) as [->|N].
  - replace (S (band_level L 0)) with L; [exact H|]. unfold band_level. cbn [Nat.sub Nat.div Nat.divmod fst]. lia.
  - destruct (i mod 3 =? 1)%nat; [exact H|]. pose proof (down2 (halved h (band_level L i))). pose proof (up2 (halved h (band_level L i))). cbn [halved]. lia.
Qed.

Definition stored (new : bool) (b : subband) (cb : cband) : Prop :=
  sb_base b = (if new then cb_base cb else 0) /\ sb_mult b = (if new then cb_mult cb else 0) /\ sb_q b = (if new then 0 else cb_q cb).

Lemma step_factors d t Q cb i b : (1 <= i_levels d <= 3)%nat -> size_ok (i_levels d) (plane_w d t) -> size_ok (i_levels d) (plane_h d) ->
  i_qp d = true -> qp_table_ok (plane_w d t) (plane_h d) Q -> band_ok cb -> stored (i_new d) b cb -> (i < 3 * i_levels d + 1)%nat ->
  let p := place 0x200 (has_left t) (has_right d t) (i_levels d) (plane_w d t) (plane_h d) i b in
  factors p (sb_w p) (sb_h p) (sb_q p) (Some (steps_at (plane_w d t) (plane_h d) (band_level (i_levels d) i) Q)) (factor d t Q cb i).
Proof.
  intros HL SW SH Hqp HQ (_ & _ & _ & _ & _ & _ & Hmu & Hba) (Eb & Em & _) Hi p.
  set (L := i_levels d) in *. set (w := plane_w d t) in *. set (h := plane_h d) in *.
  unfold size_ok in SW, SH. destruct (Nat.eqb_spec L 0); [lia|].
  destruct (place_dims 0x200 (has_left t) (has_right d t) L w h i b ltac:(lia)) as (Dw & Dh & _ & _ & _ & Db & Dm & _).
  destruct (place_edges (has_left t) (has_right d t) L w h i b ltac:(lia)) as (R0 & R1 & C0 & C1 & SHI). fold p in Dw, Dh, Db, Dm, R0, R1, C0, C1, SHI.
  destruct (own_cols (has_left t) (has_right d t) L w i HL SW Hi) as (own & Ew & Hown).
  pose proof (Nat.pow_nonzero 2 L ltac:(lia)) as HP2.
  set (l := band_level L i) in *. assert (l <= 2)%nat as Hl by (unfold l, band_level; lia).
  assert (l < L)%nat as HlL by (unfold l, band_level; lia).
  cbn [factors]. intros r Hr. exists r.
  assert (r < halved h (S l))%nat as Hr2 by (apply (rows_level L h i r); [lia|exact Hi|rewrite <- Dh; exact Hr]).
  split.
  { unfold subband_row. rewrite R0, R1. change (r <? 0)%nat with false. cbv iota. rewrite usub_ok by lia. cbn [bind]. rewrite Nat.sub_0_r.
    rewrite (proj2 (Nat.ltb_lt _ _) Hr). rewrite usub_ok by lia. now rewrite Nat.sub_0_r. }
  assert (1 <= (w + 7) / 8)%nat as HW by (apply Nat.div_le_lower_bound; lia).
  split; [apply (steps_get w h l Q r 0 Hr2); lia|].
  intros c Hc. rewrite Dw, Ew in Hc. unfold step_factor. rewrite Dw, Ew, C0, C1, SHI.
  set (c0 := (if band_high i && has_left t then 1 else 0)%nat) in *.
  set (c1 := if band_high i then fst (extra (has_right d t) L w l) else snd (extra (has_right d t) L w l)) in *.
  rewrite usub_ok by lia. cbn [bind]. rewrite usub_ok by lia. cbn [bind]. rewrite usub_ok by lia. cbn [bind].
  destruct (Z.leb_spec 0 (2 - Z.of_nat l)); [|lia]. cbn [assert_ bind].
  replace (Z.to_nat (2 - Z.of_nat l)) with (2 - l)%nat by lia.
  set (idx := if (c <? c0)%nat then _ else _).
  assert (idx = table_col l (c0 + own + c1) c0 c1 c) as EI.
  { unfold idx, table_col. replace (c0 + own + c1 - c0 - c1)%nat with own by lia.
    replace (c0 + own + c1 - c1 - c0 - 1)%nat with (own - 1)%nat by lia.
    destruct (Nat.ltb_spec c c0).
    - replace (c - c0)%nat with 0%nat by lia. rewrite Nat.min_0_l, Nat.div_0_l; [reflexivity|apply Nat.pow_nonzero; lia].
    - destruct (Nat.ltb_spec c (c0 + own + c1 - c1)); f_equal; lia. }
  assert (table_col l (c0 + own + c1) c0 c1 c < (w + 7) / 8)%nat as HT.
  { unfold table_col. apply halved_table; lia. }
  rewrite EI. destruct (steps_get w h l Q r _ Hr2 HT) as [_ EG]. rewrite EG. cbn [bind].
  assert (q72 (level_qp h Q l r (table_col l (c0 + own + c1) c0 c1 c))) as H72.
  { pose proof (level_qp_ok w h Q l r (table_col l (c0 + own + c1) c0 c1 c) ltac:(lia) ltac:(lia) HQ Hl HT) as LQ. cbv zeta in LQ. tauto. }
  pose proof (qp_step_bound _ H72) as HS.
  unfold factor. rewrite Hqp. fold L w h l. cbv zeta.
  rewrite Db, Dm, Eb, Em. fold c0 c1.
  change (if band_high i then high_cols (has_left t) (has_right d t) L w l else low_cols (has_right d t) L w l) with (band_cols (has_left t) (has_right d t) L w i).
  rewrite Ew. set (q := qp_step _) in *.
  destruct (i_new d).
  - assert (q * cb_mult cb < 2 ^ 13 * 2 ^ 16) by nia.
    rewrite u32_ok by nia. cbn [bind]. rewrite Z.shiftr_div_pow2 by lia. change (2 ^ 3) with 8.
    assert (0 <= q * cb_mult cb / 8 <= q * cb_mult cb) by (split; [apply Z.div_pos; nia|apply Z.div_le_upper_bound; nia]).
    rewrite i32_ok by lia. cbn [bind]. f_equal. lia.
  - rewrite Z.mul_0_r. cbn [u32 Z.leb Z.ltb Z.compare andb bind]. reflexivity.
Qed.
