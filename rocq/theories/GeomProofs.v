From Coq Require Import List ZArith Lia Bool Permutation.
From Coq Require Import ZifyBool ZifyNat.
From Verif Require Import Base BaseLemmas Par ParProofs Tiles TilesProofs TilesTop Decomp DecompProofs Geom DngImageProofs.
Import ListNotations.
Open Scope nat_scope.

Lemma usub_inv a b c : usub a b = Ok c -> b <= a /\ c = a - b.
Proof. unfold usub. destruct (Nat.leb_spec b a); intros E; [|discriminate]. injection E as <-. auto. Qed.

Lemma assert_inv b u : assert_ b = Ok u -> b = true.
Proof. now destruct b. Qed.

Ltac crush_rect :=
  repeat match goal with
  | H : bind ?e ?f = Ok _ |- _ => let E := fresh "E" in destruct e eqn:E; cbn [bind] in H; try discriminate H
  | H : usub _ _ = Ok _ |- _ => apply usub_inv in H; destruct H; subst
  | H : assert_ _ = Ok _ |- _ => apply assert_inv in H
  | H : Ok _ = Ok _ |- _ => injection H; clear H; intros; subst
  end.

Lemma rect_points_ok x1 y1 x2 y2 : x1 <= x2 -> y1 <= y2 -> rect_points x1 y1 x2 y2 = Ok (mk_rect x1 y1 (x2 - x1) (y2 - y1)).
Proof.
  intros. unfold rect_points. replace (x1 <=? x2) with true by lia. replace (y1 <=? y2) with true by lia.
  cbn [assert_ bind]. rewrite !usub_ok by lia. reflexivity.
Qed.

Lemma rect_points_iff x1 y1 x2 y2 : (exists r, rect_points x1 y1 x2 y2 = Ok r) <-> x1 <= x2 /\ y1 <= y2.
Proof.
  split.
  - intros (r & E). unfold rect_points in E. crush_rect. lia.
  - intros []. rewrite rect_points_ok by auto. eauto.
Qed.

Lemma rect_points_pixels x1 y1 x2 y2 r : rect_points x1 y1 x2 y2 = Ok r ->
  as_ltrb r = (x1, y1, x2, y2) /\ as_tlbr r = (y1, x1, y2, x2) /\
  forall x y, in_rect r x y <-> x1 <= x < x2 /\ y1 <= y < y2.
Proof.
  intros E. assert (H : x1 <= x2 /\ y1 <= y2) by (apply rect_points_iff; eauto).
  rewrite rect_points_ok in E by lia. injection E as <-. unfold as_ltrb, as_tlbr, in_rect. cbn [r_x r_y r_w r_h].
  split; [|split]; [repeat f_equal; lia .. |]. intros. lia.
Qed.

Lemma rect_dng_inv r : let '(t, l, b, rt) := as_tlbr r in rect_dng t l b rt = Ok r.
Proof.
  destruct r as [x y w h]. unfold as_tlbr, rect_dng. cbn [r_x r_y r_w r_h]. rewrite rect_points_ok by lia.
  repeat f_equal; lia.
Qed.

Lemma rect_borders_iff dw dh b0 b1 b2 b3 : (exists r, rect_borders dw dh b0 b1 b2 b3 = Ok r) <-> b0 + b2 <= dw /\ b1 + b3 <= dh.
Proof.
  unfold rect_borders. split.
  - intros (r & E). crush_rect. assert (b0 <= dw - b2 /\ b1 <= dh - b3) by (apply rect_points_iff; eauto). lia.
  - intros []. rewrite !usub_ok by lia. cbn [bind]. apply rect_points_iff. lia.
Qed.

Lemma rect_offsets dw dh b0 b1 b2 b3 r :
  rect_borders dw dh b0 b1 b2 b3 = Ok r <-> as_ltrb_offsets r dw dh = Ok (b0, b1, b2, b3).
Proof.
  split.
  - intros E. assert (H : b0 + b2 <= dw /\ b1 + b3 <= dh) by (apply rect_borders_iff; eauto).
    unfold rect_borders in E. rewrite !usub_ok in E by lia. cbn [bind] in E. rewrite rect_points_ok in E by lia.
    injection E as <-. unfold as_ltrb_offsets. cbn [r_x r_y r_w r_h]. rewrite !usub_ok by lia. cbn [bind].
    repeat f_equal; lia.
  - destruct r as [x y w h]. unfold as_ltrb_offsets. cbn [r_x r_y r_w r_h]. intros E.
    crush_rect. unfold rect_borders. rewrite !usub_ok by lia. cbn [bind]. rewrite rect_points_ok by lia.
    repeat f_equal; lia.
Qed.

Lemma rect_offsets_iff r dw dh : (exists o, as_ltrb_offsets r dw dh = Ok o) <-> r_x r + r_w r <= dw /\ r_y r + r_h r <= dh.
Proof.
  unfold as_ltrb_offsets. split.
  - intros (o & E). crush_rect. lia.
  - intros []. rewrite !usub_ok by lia. cbn [bind]. eauto.
Qed.

Lemma tlbr_offsets r dw dh a b c e : as_ltrb_offsets r dw dh = Ok (a, b, c, e) <-> as_tlbr_offsets r dw dh = Ok (b, a, e, c).
Proof.
  unfold as_ltrb_offsets, as_tlbr_offsets. split; intros E; crush_rect; reflexivity.
Qed.

Lemma rect_adapt_ok r m r' : rect_adapt r m = Ok r' ->
  forall x y, in_rect r' x y <-> in_rect r (x + r_x m) (y + r_y m).
Proof.
  unfold rect_adapt. intros E x y. crush_rect. unfold in_rect. cbn [r_x r_y r_w r_h]. lia.
Qed.

Lemma rect_adapt_total r m : (forall x y, in_rect r x y -> in_rect m x y) -> 0 < r_w r -> 0 < r_h r ->
  exists r', rect_adapt r m = Ok r'.
Proof.
  intros H Hw Hh. unfold in_rect in H.
  pose proof (H (r_x r) (r_y r) ltac:(lia)). pose proof (H (r_x r + r_w r - 1) (r_y r + r_h r - 1) ltac:(lia)).
  unfold rect_adapt. replace (r_x m <=? r_x r) with true by lia. replace (r_y m <=? r_y r) with true by lia.
  replace (r_w r <=? r_w m) with true by lia. replace (r_h r <=? r_h m) with true by lia.
  cbn [assert_ bind]. rewrite !usub_ok by lia. cbn [bind]. eauto.
Qed.

Section PixP.
Context {A : Type}.
Variable d : A.

Definition pix_ok (p : pix2d A) : Prop := length (px_data p) = px_h p * px_w p.
Definition px (p : pix2d A) (row col : nat) : A := nth (row * px_w p + col) (px_data p) d.

(** Arrays of the same size with the same pixels are equal. *)
Lemma pix_ext p q : pix_ok p -> pix_ok q -> px_w p = px_w q -> px_h p = px_h q ->
  (forall r c, r < px_h p -> c < px_w p -> px p r c = px q r c) -> p = q.
Proof.
  destruct p as [w h l], q as [w' h' l']. unfold pix_ok, px. cbn. intros H1 H2 -> -> H. f_equal.
  apply nth_ext_len with (d := d); [lia|]. intros i Hi. rewrite H1 in Hi.
  assert (w' <> 0) by (intros ->; lia).
  pose proof (Nat.div_mod i w' ltac:(auto)). pose proof (Nat.mod_upper_bound i w' ltac:(auto)).
  assert (i / w' < h') by (apply Nat.div_lt_upper_bound; lia).
  specialize (H (i / w') (i mod w') ltac:(auto) ltac:(auto)).
  replace (i / w' * w' + i mod w') with i in H by lia. exact H.
Qed.

Lemma fill_rows_ok rows cols f g : (forall r c, r < rows -> c < cols -> f r c = Ok (g r c)) ->
  fill_rows rows cols f = Ok (flat_map (fun r => map (g r) (seq 0 cols)) (seq 0 rows) : list A).
Proof.
  intros H. unfold fill_rows.
  destruct (for_each_seq_inv (fun r acc => for_each (seq 0 cols) (fun c acc => do v <- f r c; Ok (acc ++ [v])) acc)
    (fun n acc => acc = flat_map (fun r => map (g r) (seq 0 cols)) (seq 0 n)) 0 rows []) as (s & E & ->); auto.
  intros r acc Hr ->.
  destruct (for_each_seq_inv (fun c acc => do v <- f r c; Ok (acc ++ [v]))
    (fun n acc => acc = flat_map (fun r => map (g r) (seq 0 cols)) (seq 0 r) ++ map (g r) (seq 0 n)) 0 cols
    (flat_map (fun r => map (g r) (seq 0 cols)) (seq 0 r))) as (s & E & ->).
  - now rewrite app_nil_r.
  - intros c acc Hc ->. rewrite H by lia. cbn [bind]. eexists. split; [reflexivity|].
    rewrite Nat.add_1_r || idtac. rewrite seq_S, map_app, app_assoc. reflexivity.
  - eexists. split; [exact E|]. now rewrite flat_map_seq_S.
Qed.

Lemma fill_nth rows cols (g : nat -> nat -> A) r c : r < rows -> c < cols ->
  nth (r * cols + c) (flat_map (fun r => map (g r) (seq 0 cols)) (seq 0 rows)) d = g r c.
Proof.
  intros. rewrite flat_map_seq_nth with (k := cols); auto.
  - now rewrite nth_map_seq by auto.
  - intros. now rewrite map_length, seq_length.
Qed.

Lemma fill_length rows cols (g : nat -> nat -> A) : length (flat_map (fun r => map (g r) (seq 0 cols)) (seq 0 rows)) = rows * cols.
Proof. apply flat_map_seq_length. intros. now rewrite map_length, seq_length. Qed.

Lemma pix_at_ok p row col : pix_ok p -> row < px_h p -> col < px_w p -> pix_at p row col = Ok (px p row col).
Proof.
  intros HP Hr Hc. unfold pix_at. apply get_ok. rewrite HP. pose proof (Nat.mul_le_mono_r (S row) (px_h p) (px_w p)). lia.
Qed.

Lemma rotate_90cw_ok p : pix_ok p -> 0 < px_h p ->
  exists q, rotate_90cw p = Ok q /\ pix_ok q /\ px_w q = px_h p /\ px_h q = px_w p /\
    forall row col, row < px_w p -> col < px_h p -> px q row col = px p (px_h p - 1 - col) row.
Proof.
  intros HP Hh. unfold rotate_90cw. replace (px_h p =? 0) with false by lia.
  rewrite (Nat.mul_comm (px_h p)), Nat.div_mul by lia.
  rewrite fill_rows_ok with (g := fun row col => px p (px_h p - 1 - col) row).
  - cbn [bind]. eexists. split; [reflexivity|]. unfold pix_ok at 1, px at 1. cbn [px_w px_h px_data].
    rewrite fill_length. repeat split. intros. now apply fill_nth with (g := fun row col => px p (px_h p - 1 - col) row).
  - intros r c Hr Hc. rewrite usub_ok by lia. cbn [bind]. rewrite usub_ok by lia. cbn [bind]. apply pix_at_ok; auto. lia.
Qed.

Lemma rotate_90ccw_ok p : pix_ok p -> 0 < px_h p ->
  exists q, rotate_90ccw p = Ok q /\ pix_ok q /\ px_w q = px_h p /\ px_h q = px_w p /\
    forall row col, row < px_w p -> col < px_h p -> px q row col = px p col (px_w p - 1 - row).
Proof.
  intros HP Hh. unfold rotate_90ccw. replace (px_h p =? 0) with false by lia.
  rewrite (Nat.mul_comm (px_h p)), Nat.div_mul by lia.
  rewrite fill_rows_ok with (g := fun row col => px p col (px_w p - 1 - row)).
  - cbn [bind]. eexists. split; [reflexivity|]. unfold pix_ok at 1, px at 1. cbn [px_w px_h px_data].
    rewrite fill_length. repeat split. intros. now apply fill_nth with (g := fun row col => px p col (px_w p - 1 - row)).
  - intros r c Hr Hc. rewrite usub_ok by lia. cbn [bind]. rewrite usub_ok by lia. cbn [bind]. apply pix_at_ok; auto. lia.
Qed.

Lemma rotate_180_ok p : pix_ok p ->
  exists q, rotate_180 p = Ok q /\ pix_ok q /\ px_w q = px_w p /\ px_h q = px_h p /\
    forall row col, row < px_h p -> col < px_w p -> px q row col = px p (px_h p - 1 - row) (px_w p - 1 - col).
Proof.
  intros HP. unfold rotate_180. red in HP. rewrite HP, Nat.eqb_refl. cbn [assert_ bind].
  eexists. split; [reflexivity|]. unfold pix_ok, px. cbn [px_w px_h px_data]. rewrite rev_length. repeat split; auto.
  intros row col Hr Hc. pose proof (Nat.mul_le_mono_r (S row) (px_h p) (px_w p)).
  rewrite rev_nth by lia. f_equal. rewrite HP.
  rewrite Nat.mul_sub_distr_r, Nat.mul_sub_distr_r. lia.
Qed.

Lemma rot_cw_cw p q r : pix_ok p -> 0 < px_h p -> 0 < px_w p -> rotate_90cw p = Ok q -> rotate_90cw q = Ok r -> rotate_180 p = Ok r.
Proof.
  intros HP Hh Hw E1 E2. destruct (rotate_90cw_ok p HP Hh) as (q' & E1' & OK1 & W1 & H1 & N1). rewrite E1 in E1'. injection E1' as <-.
  destruct (rotate_90cw_ok q OK1 ltac:(lia)) as (r' & E2' & OK2 & W2 & H2 & N2). rewrite E2 in E2'. injection E2' as <-.
  destruct (rotate_180_ok p HP) as (s & ES & OKS & WS & HS & NS). rewrite ES. f_equal. apply pix_ext; auto; try lia.
  intros row col Hr Hc. rewrite NS by lia. rewrite N2 by lia. rewrite N1 by lia. f_equal; lia.
Qed.

Lemma rot_180_180 p q r : pix_ok p -> rotate_180 p = Ok q -> rotate_180 q = Ok r -> r = p.
Proof.
  intros HP E1 E2. destruct (rotate_180_ok p HP) as (q' & E1' & OK1 & W1 & H1 & N1). rewrite E1 in E1'. injection E1' as <-.
  destruct (rotate_180_ok q OK1) as (r' & E2' & OK2 & W2 & H2 & N2). rewrite E2 in E2'. injection E2' as <-.
  apply pix_ext; auto; try lia. intros row col Hr Hc. rewrite N2 by lia. rewrite N1 by lia. f_equal; lia.
Qed.

Lemma rot_cw_ccw p q r : pix_ok p -> 0 < px_h p -> 0 < px_w p -> rotate_90cw p = Ok q -> rotate_90ccw q = Ok r -> r = p.
Proof.
  intros HP Hh Hw E1 E2. destruct (rotate_90cw_ok p HP Hh) as (q' & E1' & OK1 & W1 & H1 & N1). rewrite E1 in E1'. injection E1' as <-.
  destruct (rotate_90ccw_ok q OK1 ltac:(lia)) as (r' & E2' & OK2 & W2 & H2 & N2). rewrite E2 in E2'. injection E2' as <-.
  apply pix_ext; auto; try lia. intros row col Hr Hc. rewrite N2 by lia. rewrite N1 by lia. f_equal; lia.
Qed.

Lemma rot_ccw_cw p q r : pix_ok p -> 0 < px_h p -> 0 < px_w p -> rotate_90ccw p = Ok q -> rotate_90cw q = Ok r -> r = p.
Proof.
  intros HP Hh Hw E1 E2. destruct (rotate_90ccw_ok p HP Hh) as (q' & E1' & OK1 & W1 & H1 & N1). rewrite E1 in E1'. injection E1' as <-.
  destruct (rotate_90cw_ok q OK1 ltac:(lia)) as (r' & E2' & OK2 & W2 & H2 & N2). rewrite E2 in E2'. injection E2' as <-.
  apply pix_ext; auto; try lia. intros row col Hr Hc. rewrite N2 by lia. rewrite N1 by lia. f_equal; lia.
Qed.

Lemma four_turns p : pix_ok p -> 0 < px_h p -> 0 < px_w p ->
  (do a <- rotate_90cw p; do b <- rotate_90cw a; do c <- rotate_90cw b; rotate_90cw c) = Ok p.
Proof.
  intros HP Hh Hw.
  destruct (rotate_90cw_ok p HP Hh) as (a & E1 & O1 & W1 & H1 & _). rewrite E1. cbn [bind].
  destruct (rotate_90cw_ok a O1 ltac:(lia)) as (b & E2 & O2 & W2 & H2 & _). rewrite E2. cbn [bind].
  destruct (rotate_90cw_ok b O2 ltac:(lia)) as (c & E3 & O3 & W3 & H3 & _). rewrite E3. cbn [bind].
  destruct (rotate_90cw_ok c O3 ltac:(lia)) as (e & E4 & O4 & W4 & H4 & _). rewrite E4. f_equal.
  assert (rotate_180 p = Ok b) by (eapply rot_cw_cw; [..|exact E1|exact E2]; auto).
  assert (rotate_180 b = Ok e) by (eapply rot_cw_cw; [..|exact E3|exact E4]; auto; lia).
  eapply rot_180_180; eauto.
Qed.

(** ** Cropping *)
Lemma chunks_exact_rows w h (l : list A) : 0 < w -> length l = h * w ->
  chunks_exact w l = Ok (map (fun i => firstn w (skipn (i * w) l)) (seq 0 h)).
Proof.
  intros Hw HL. unfold chunks_exact. replace (w =? 0) with false by lia. now rewrite HL, Nat.div_mul by lia.
Qed.

Lemma skipn_seq n : forall a m, skipn n (seq a m) = seq (a + n) (m - n).
Proof.
  induction n as [|n IH]; intros a m. { rewrite Nat.add_0_r, Nat.sub_0_r. auto. }
  destruct m as [|m]; auto. cbn [seq skipn]. rewrite IH. f_equal; lia.
Qed.

Lemma firstn_seq n : forall a m, firstn n (seq a m) = seq a (Nat.min n m).
Proof. induction n as [|n IH]; intros a [|m]; auto. cbn [seq firstn Nat.min]. now rewrite IH. Qed.

Lemma for_each_map {B C S} (g : B -> C) (f : C -> S -> res S) l s : for_each (map g l) f s = for_each l (fun b => f (g b)) s.
Proof. revert s. induction l as [|b l IH]; intros s; auto. cbn. destruct (f (g b) s); cbn; auto. Qed.

Lemma for_each_seq_shift {S} (f : nat -> S -> res S) n : forall a s, for_each (seq a n) f s = for_each (seq 0 n) (fun i => f (a + i)) s.
Proof. intros a s. rewrite (seq_as_map a), for_each_map. reflexivity. Qed.

Lemma imgop_crop_ok p a : pix_ok p -> 0 < px_w p -> r_x a + r_w a <= px_w p -> r_y a + r_h a <= px_h p ->
  exists out, imgop_crop (px_data p) (px_w p) a = Ok out /\ length out = r_h a * r_w a /\
    forall row col, row < r_h a -> col < r_w a -> nth (row * r_w a + col) out d = px p (r_y a + row) (r_x a + col).
Proof.
  intros HP Hw Hx Hy. unfold imgop_crop. rewrite chunks_exact_rows with (h := px_h p) by auto. cbn [bind].
  rewrite skipn_map, firstn_map, skipn_seq, firstn_seq, for_each_map, for_each_seq_shift.
  rewrite Nat.min_l by lia. cbn [plus].
  set (g := fun row => map (fun col => px p (r_y a + row) (r_x a + col)) (seq 0 (r_w a))).
  assert (HG : forall n, n < r_h a -> length (g n) = r_w a) by (intros; unfold g; now rewrite map_length, seq_length).
  destruct (for_each_seq_inv (fun i acc =>
      do s <- slice (firstn (px_w p) (skipn ((r_y a + i) * px_w p) (px_data p))) (r_x a) (r_x a + r_w a); Ok (acc ++ s))
    (fun n acc => acc = flat_map g (seq 0 n)) 0 (r_h a) []) as (s & E & ->); auto.
  - intros i acc Hi ->. pose proof (Nat.mul_le_mono_r (r_y a + S i) (px_h p) (px_w p)). red in HP.
    assert (HLN : length (firstn (px_w p) (skipn ((r_y a + i) * px_w p) (px_data p))) = px_w p).
    { rewrite firstn_length, skipn_length. lia. }
    rewrite slice_ok by lia. cbn [bind]. eexists. split; [reflexivity|]. rewrite flat_map_seq_S. f_equal.
    apply nth_ext_len with (d := d).
    + rewrite HG, firstn_length, skipn_length, HLN by lia. lia.
    + rewrite firstn_length, skipn_length, HLN. intros j Hj. rewrite nth_firstn, nth_skipn by lia.
      unfold g. rewrite nth_map_seq by lia. rewrite nth_firstn, nth_skipn by lia. unfold px. f_equal; lia.
  - exists (flat_map g (seq 0 (r_h a))). split; [exact E|]. split; [now apply flat_map_seq_length|].
    intros row col Hr Hc. rewrite flat_map_seq_nth with (k := r_w a) by auto. unfold g. now rewrite nth_map_seq by auto.
Qed.

Lemma color_crop_ok p a : pix_ok p -> 0 < px_w p ->
  (exists q, color_crop p a = Ok q) <-> (r_x a + r_w a <= px_w p /\ r_y a + r_h a <= px_h p).
Proof.
  intros HP Hw. unfold color_crop. split.
  - intros (q & E). crush_rect. lia.
  - intros []. replace (r_y a + r_h a <=? px_h p) with true by lia. replace (r_x a + r_w a <=? px_w p) with true by lia.
    cbn [assert_ bind]. destruct (imgop_crop_ok p a) as (out & -> & _); auto. cbn. eauto.
Qed.

Lemma color_crop_spec p a q : pix_ok p -> 0 < px_w p -> color_crop p a = Ok q ->
  pix_ok q /\ px_w q = r_w a /\ px_h q = r_h a /\
  forall row col, row < r_h a -> col < r_w a -> px q row col = px p (r_y a + row) (r_x a + col).
Proof.
  intros HP Hw E. assert (H : r_x a + r_w a <= px_w p /\ r_y a + r_h a <= px_h p) by (apply color_crop_ok; eauto).
  destruct (imgop_crop_ok p a) as (out & EO & LO & NO); try tauto.
  unfold color_crop in E. rewrite EO in E. crush_rect. unfold pix_ok, px at 1. cbn [px_w px_h px_data]. auto.
Qed.
(** Pix2D::crop: same for any offset. *)
Lemma pix_crop_spec p x y w h : pix_ok p -> 0 < w -> x + w <= px_w p -> y + h <= px_h p ->
  exists q, crop p x y w h = Ok q /\ pix_ok q /\ px_w q = w /\ px_h q = h /\
  forall row col, row < h -> col < w -> px q row col = px p (y + row) (x + col).
Proof.
  intros HP Hw Hx Hy. unfold crop. replace (w =? 0) with false by lia. cbn [negb assert_ bind].
  set (g := fun row => map (fun col => px p (y + row) (x + col)) (seq 0 w)).
  assert (HG : forall n, n < h -> length (g n) = w) by (intros; unfold g; now rewrite map_length, seq_length).
  match goal with |- context [for_each _ ?F []] => destruct (for_each_seq_inv F
    (fun n acc => acc = flat_map g (seq 0 n)) 0 h []) as (s & E & HS) end.
  - reflexivity.
  - intros i acc Hi ->. pose proof (Nat.mul_le_mono_r (y + S i) (px_h p) (px_w p)). red in HP. unfold pix_row.
    rewrite slice_ok by lia. cbn [bind].
    assert (HLN : length (firstn ((y + i) * px_w p + px_w p - (y + i) * px_w p) (skipn ((y + i) * px_w p) (px_data p))) = px_w p).
    { rewrite firstn_length, skipn_length. lia. }
    rewrite slice_ok by lia. cbn [bind]. eexists. split; [reflexivity|]. rewrite flat_map_seq_S. f_equal.
    apply nth_ext_len with (d := d).
    + rewrite HG, firstn_length, skipn_length, HLN by lia. lia.
    + rewrite firstn_length, skipn_length, HLN. intros j Hj. rewrite nth_firstn, nth_skipn by lia.
      unfold g. rewrite nth_map_seq by lia. rewrite nth_firstn, nth_skipn by lia. unfold px. f_equal; lia.
  - subst s. rewrite E. cbn [bind]. eexists. split; [reflexivity|]. unfold pix_ok, px at 1. cbn [px_w px_h px_data].
    split; [now apply flat_map_seq_length|]. split; auto. split; auto.
    intros row col Hr Hc. rewrite flat_map_seq_nth with (k := w) by auto. unfold g. now rewrite nth_map_seq by auto.
Qed.

Lemma pix_into_crop_spec p x y w h : pix_ok p -> 0 < w -> x + w <= px_w p -> y + h <= px_h p ->
  exists q, into_crop p x y w h = Ok q /\ pix_ok q /\ px_w q = w /\ px_h q = h /\
  forall row col, row < h -> col < w -> px q row col = px p (y + row) (x + col).
Proof.
  intros HP Hw Hx Hy. unfold into_crop.
  destruct ((px_w p =? w) && (px_h p =? h) && (x =? 0) && (y =? 0)) eqn:E.
  - exists p. split; auto. split; auto. split; [lia|]. split; [lia|]. intros. f_equal; lia.
  - now apply pix_crop_spec.
Qed.

(** ** rotate_90 on slices *)
Lemma combine_seq_as_map (l : list A) : combine (seq 0 (length l)) l = map (fun i => (i, nth i l d)) (seq 0 (length l)).
Proof. rewrite (list_as_map_seq l d) at 2. now rewrite combine_seq_map. Qed.

Lemma rotate_90_ok p dst q : pix_ok p -> 0 < px_h p -> 0 < px_w p -> length (px_data p) <= length dst ->
  rotate_90cw p = Ok q ->
  rotate_90 (px_data p) dst (px_w p) (px_h p) = Ok (px_data q ++ skipn (length (px_data p)) dst).
Proof.
  intros HP Hh Hw HL EQ. destruct (rotate_90cw_ok p HP Hh) as (q' & EQ' & OQ & WQ & HQ & NQ).
  rewrite EQ in EQ'. injection EQ' as <-.
  unfold rotate_90. rewrite slice_ok by lia. cbn [bind]. rewrite Nat.sub_0_r. cbn [skipn].
  rewrite chunks_exact_rows with (h := px_h p) by auto. cbn [bind]. rewrite map_length, seq_length, combine_seq_map.
  rewrite for_each_map. set (w := px_w p) in *. set (h := px_h p) in *. red in HP. fold w h in HP.
  set (pos := fun r c => c * h + (h - 1 - r)).
  assert (Hpos : forall r c, r < h -> c < w -> pos r c < h * w).
  { intros r c Hr Hc. unfold pos. pose proof (Nat.mul_le_mono_r (S c) w h). lia. }
  assert (Hinj : forall r c r' c', r < h -> r' < h -> pos r c = pos r' c' -> r = r' /\ c = c').
  { intros r c r' c' Hr Hr' E. unfold pos in E.
    assert (E1 : (c * h + (h - 1 - r)) / h = c) by (symmetry; apply Nat.div_unique with (r := h - 1 - r); lia).
    assert (E2 : (c' * h + (h - 1 - r')) / h = c') by (symmetry; apply Nat.div_unique with (r := h - 1 - r'); lia).
    rewrite E, E2 in E1. subst c'. lia. }
  match goal with |- context [for_each (seq 0 h) ?F _] =>
    destruct (for_each_seq_inv F (fun n (acc : list A) => length acc = h * w /\
      forall r c, r < n -> c < w -> nth (pos r c) acc d = px p r c) 0 h (firstn (length (px_data p)) dst)) as (s & E & LS & NS) end.
  - split; [rewrite firstn_length; lia|]. intros; lia.
  - intros r acc Hr (LA & NA). cbn beta.
    assert (HLN : length (firstn w (skipn (r * w) (px_data p))) = w).
    { rewrite firstn_length, skipn_length, HP. pose proof (Nat.mul_le_mono_r (S r) h w). lia. }
    rewrite combine_seq_as_map, HLN, for_each_map.
    match goal with |- context [for_each (seq 0 w) ?F _] =>
      destruct (for_each_seq_inv F (fun n (b : list A) => length b = h * w /\
        (forall r' c, r' < r -> c < w -> nth (pos r' c) b d = px p r' c) /\
        forall c, c < n -> nth (pos r c) b d = px p r c) 0 w acc) as (s & E & LS & NS1 & NS2) end.
    + repeat split; auto. intros; lia.
    + intros c b Hc (LB & NB1 & NB2). rewrite usub_ok by lia. cbn [bind]. rewrite usub_ok by lia. cbn [bind].
      fold (pos r c). rewrite put_ok by (rewrite LB; apply Hpos; lia). eexists. split; [reflexivity|].
      rewrite upd_list_length. split; auto. split.
      * intros r' c' Hr' Hc'. rewrite nth_upd_neq; auto. intros EP. apply Hinj in EP; lia.
      * intros c' Hc'. destruct (Nat.eq_dec c' c) as [->|].
        -- rewrite nth_upd_eq by (rewrite LB; apply Hpos; lia). rewrite nth_firstn, nth_skipn by lia. reflexivity.
        -- rewrite nth_upd_neq; [apply NB2; lia|]. intros EP. apply Hinj in EP; lia.
    + exists s. split; [exact E|]. split; auto. intros r' c Hr' Hc.
      destruct (Nat.eq_dec r' r) as [->|]; [apply NS2|apply NS1]; lia.
  - rewrite E. cbn [bind]. do 2 f_equal. red in OQ. rewrite WQ, HQ in OQ.
    apply nth_ext_len with (d := d). { fold w h in OQ. lia. }
    intros i Hi. rewrite LS in Hi.
    pose proof (Nat.div_mod i h ltac:(lia)). pose proof (Nat.mod_upper_bound i h ltac:(lia)).
    assert (i / h < w) by (apply Nat.div_lt_upper_bound; lia).
    set (c := i / h) in *. set (m := i mod h) in *. clearbody c m.
    replace i with (pos (h - 1 - m) c) at 1 by (unfold pos; lia). rewrite NS by lia.
    specialize (NQ c m ltac:(auto) ltac:(auto)). unfold px at 1 in NQ. rewrite WQ in NQ. fold h in NQ.
    replace i with (c * h + m) by lia. rewrite NQ. f_equal.
Qed.

(** ** Deinterleave *)
Lemma write_pairs_ok : forall a b line : list A, length a = length b -> length line = 2 * length a ->
  length (write_pairs line a b) = length line /\
  forall j, j < length a -> nth (2 * j) (write_pairs line a b) d = nth j a d /\ nth (2 * j + 1) (write_pairs line a b) d = nth j b d.
Proof.
  induction a as [|x a IH]; intros [|y b] line HL HN; cbn in HL, HN; try discriminate.
  - destruct line; [|discriminate]. split; [reflexivity|]. cbn. intros; lia.
  - destruct line as [|l0 [|l1 line]]; cbn in HN; try lia. destruct (IH b line) as [H1 H2]; try lia.
    cbn [write_pairs length]. split; [lia|]. intros [|j] Hj. { auto. }
    replace (2 * S j) with (S (S (2 * j))) by lia. replace (2 * S j + 1) with (S (S (2 * j + 1))) by lia.
    cbn [nth]. apply H2. lia.
Qed.

Lemma write_pairs_length : forall line a b : list A, length (write_pairs line a b) = length line.
Proof.
  intros line a. revert line. induction a as [|a0 a IH]; intros [|x [|y line]] [|b0 b]; auto.
  cbn [write_pairs length]. now rewrite IH.
Qed.

Definition deint_src (w h r c : nat) : nat := (r / 2 + r mod 2 * (h / 2)) * w + (c / 2 + c mod 2 * (w / 2)).

Lemma deint_line_ok dbg p r : pix_ok p -> 0 < px_w p -> px_w p mod 2 = 0 -> px_h p mod 2 = 0 -> r < px_h p ->
  exists line, run_ops [deint_line dbg p r] (repeat d (px_w p)) = Some line /\ length line = px_w p /\
    forall c, c < px_w p -> nth c line d = nth (deint_src (px_w p) (px_h p) r c) (px_data p) d.
Proof.
  intros HP Hw HW HH Hr. cbn [run_ops]. unfold deint_line. set (w := px_w p) in *. set (h := px_h p) in *.
  red in HP. fold w h in HP.
  pose proof (Nat.div_mod w 2 ltac:(lia)) as Ew. pose proof (Nat.div_mod h 2 ltac:(lia)) as Eh. pose proof (Nat.div_mod r 2 ltac:(lia)) as Er.
  pose proof (Nat.mod_upper_bound r 2 ltac:(lia)).
  set (hw := w / 2) in *. set (hh := h / 2) in *. set (rr := r / 2) in *.
  assert (En : length (px_data p) / 2 = hh * w).
  { rewrite HP. replace (h * w) with (hh * w * 2) by lia. apply Nat.div_mul. lia. }
  rewrite En.
  assert (Hrr : rr < hh) by lia.
  assert (HB : forall base, base <= hh -> (base + rr) * w + w <= h * w).
  { intros base Hb. replace ((base + rr) * w + w) with ((base + rr + 1) * w) by lia. apply Nat.mul_le_mono_r. lia. }
  set (base := if Nat.even r then 0 else hh).
  assert (HBB : base = r mod 2 * hh).
  { unfold base. destruct (Nat.even r) eqn:EE.
    - apply Nat.even_spec in EE. destruct EE as [m Em]. assert (HZ : r mod 2 = 0) by (symmetry; apply Nat.mod_unique with (q := m); lia). rewrite HZ. reflexivity.
    - assert (r mod 2 = 1). { rewrite <- Nat.negb_odd in EE. apply Bool.negb_false_iff in EE. apply Nat.odd_spec in EE. destruct EE as [m Em]. symmetry. apply Nat.mod_unique with (q := m); lia. } lia. }
  replace (if Nat.even r then rr * w else hh * w + rr * w) with ((base + rr) * w) by (unfold base; destruct (Nat.even r); lia).
  replace (if Nat.even r then hw + rr * w else hh * w + hw + rr * w) with ((base + rr) * w + hw) by (unfold base; destruct (Nat.even r); lia).
  assert (Hbl : base <= hh) by (unfold base; destruct (Nat.even r); lia).
  specialize (HB base Hbl). clearbody base.
  rewrite !slice_ok by lia. rewrite !Nat.add_sub_swap, !Nat.sub_diag by lia. cbn [plus].
  set (a := firstn hw (skipn ((base + rr) * w) (px_data p))). set (b := firstn hw (skipn ((base + rr) * w + hw) (px_data p))).
  assert (La : length a = hw) by (unfold a; rewrite firstn_length, skipn_length; lia).
  assert (Lb : length b = hw) by (unfold b; rewrite firstn_length, skipn_length; lia).
  rewrite La, Lb, repeat_length. replace (hw + hw =? w) with true by lia. rewrite andb_false_r.
  destruct (write_pairs_ok a b (repeat d w)) as [H1 H2]; [lia| rewrite repeat_length; lia |].
  eexists. split; [reflexivity|]. rewrite repeat_length in H1. split; auto.
  intros c Hc. pose proof (Nat.div_mod c 2 ltac:(lia)) as Ec. pose proof (Nat.mod_upper_bound c 2 ltac:(lia)).
  unfold deint_src. fold hw hh rr. rewrite <- HBB. set (cc := c / 2) in *.
  destruct (H2 cc ltac:(lia)) as [N1 N2].
  assert (HC : c mod 2 = 0 \/ c mod 2 = 1) by lia. destruct HC as [HC|HC]; rewrite HC in *.
  - rewrite Ec at 1. rewrite Nat.add_0_r, N1. unfold a. rewrite nth_firstn, nth_skipn by lia. f_equal. lia.
  - rewrite Ec at 1. rewrite N2. unfold b. rewrite nth_firstn, nth_skipn by lia. f_equal. lia.
Qed.

Lemma deint_op_ok dbg (p : pix2d A) r : op_ok (px_w p) (deint_line dbg p r).
Proof.
  intros v v' HL E. unfold deint_line in E.
  repeat match type of E with context [match ?x with _ => _ end] => destruct x; try discriminate E end.
  all: injection E as <-; now rewrite write_pairs_length.
Qed.

Lemma deinterleave_ok dbg p sched s0 : pix_ok p -> px_w p mod 2 = 0 -> px_h p mod 2 = 0 ->
  deinterleave2x2 d dbg p = Ok s0 -> ended (prun d sched s0) ->
  exists out, result (prun d sched s0) = POk out /\ length out = px_h p * px_w p /\
    forall r c, r < px_h p -> c < px_w p ->
      nth (r * px_w p + c) out d = nth (deint_src (px_w p) (px_h p) r c) (px_data p) d.
Proof.
  intros HP HW HH E HE. unfold deinterleave2x2 in E. crush_rect.
  assert (Hw : 0 < px_w p). { unfold lines_fn, par_chunks in E. destruct (px_w p =? 0) eqn:EZ; [discriminate|]. lia. }
  rewrite (lines_fn_ok d _ _ _ _ _ E) by (auto; intros; constructor; auto; apply deint_op_ok).
  unfold image_spec.
  set (g := fun r => map (fun c => nth (deint_src (px_w p) (px_h p) r c) (px_data p) d) (seq 0 (px_w p))).
  rewrite (all_some_map_some _ g).
  - eexists. split; [reflexivity|]. rewrite <- flat_map_concat_map.
    assert (HG : forall i, i < px_h p -> length (g i) = px_w p) by (intros; unfold g; now rewrite map_length, seq_length).
    split; [now apply flat_map_seq_length|]. intros r c Hr Hc.
    rewrite flat_map_seq_nth with (k := px_w p) by auto. unfold g. now rewrite nth_map_seq by auto.
  - intros r Hr. apply in_seq in Hr. destruct (deint_line_ok dbg p r) as (line & EL & LL & NL); auto; try lia.
    rewrite EL. f_equal. apply nth_ext_len with (d := d).
    + unfold g. now rewrite map_length, seq_length.
    + rewrite LL. intros c Hc. unfold g. rewrite nth_map_seq by auto. auto.
Qed.

(** The position map is a permutation, so no sample is lost or duplicated. *)
Lemma permutation_by_index (n : nat) (f : nat -> nat) (l out : list A) : length l = n -> length out = n ->
  (forall i, i < n -> f i < n) -> (forall i j, i < n -> j < n -> f i = f j -> i = j) ->
  (forall i, i < n -> nth i out d = nth (f i) l d) -> Permutation out l.
Proof.
  intros HL HO HB HI HN.
  assert (P : Permutation (map f (seq 0 n)) (seq 0 n)).
  { apply NoDup_Permutation_bis.
    - apply NoDup_map_inj_in; [|apply seq_NoDup]. intros x y Hx Hy. apply in_seq in Hx, Hy. apply HI; lia.
    - rewrite map_length. auto.
    - intros x Hx. apply in_map_iff in Hx. destruct Hx as (y & <- & Hy). apply in_seq in Hy. apply in_seq. split; [lia|]. apply HB. lia. }
  apply (Permutation_map (fun i => nth i l d)) in P. rewrite map_map in P.
  rewrite <- HL in P at 2. rewrite <- list_as_map_seq in P.
  replace out with (map (fun x => nth (f x) l d) (seq 0 n)); auto.
  rewrite (list_as_map_seq out d), HO. apply map_ext_in. intros i Hi. apply in_seq in Hi. symmetry. apply HN. lia.
Qed.

Lemma deint_perm w h (l out : list A) : w mod 2 = 0 -> h mod 2 = 0 -> length l = h * w -> length out = h * w ->
  (forall r c, r < h -> c < w -> nth (r * w + c) out d = nth (deint_src w h r c) l d) -> Permutation out l.
Proof.
  intros HW HH HL HO HN.
  assert (Hw : w = 0 \/ 0 < w) by lia. destruct Hw as [->|Hw].
  { rewrite Nat.mul_0_r in *. destruct l, out; try discriminate. constructor. }
  pose proof (Nat.div_mod w 2 ltac:(lia)) as Ew. pose proof (Nat.div_mod h 2 ltac:(lia)) as Eh.
  set (hw := w / 2) in *. set (hh := h / 2) in *.
  assert (HP : forall r, r < h -> r / 2 + r mod 2 * hh < h).
  { intros r Hr. pose proof (Nat.div_mod r 2 ltac:(lia)). pose proof (Nat.mod_upper_bound r 2 ltac:(lia)).
    assert (r mod 2 = 0 \/ r mod 2 = 1) as [E|E] by lia; rewrite E in *; lia. }
  assert (HPc : forall c, c < w -> c / 2 + c mod 2 * hw < w).
  { intros c Hr. pose proof (Nat.div_mod c 2 ltac:(lia)). pose proof (Nat.mod_upper_bound c 2 ltac:(lia)).
    assert (c mod 2 = 0 \/ c mod 2 = 1) as [E|E] by lia; rewrite E in *; lia. }
  assert (HIJ : forall m a b, a < 2 * m -> b < 2 * m -> a / 2 + a mod 2 * m = b / 2 + b mod 2 * m -> a = b).
  { intros m a b Ha Hb E. pose proof (Nat.div_mod a 2 ltac:(lia)). pose proof (Nat.mod_upper_bound a 2 ltac:(lia)).
    pose proof (Nat.div_mod b 2 ltac:(lia)). pose proof (Nat.mod_upper_bound b 2 ltac:(lia)).
    assert (a mod 2 = 0 \/ a mod 2 = 1) as [E1|E1] by lia; assert (b mod 2 = 0 \/ b mod 2 = 1) as [E2|E2] by lia; rewrite E1, E2 in *; lia. }
  apply permutation_by_index with (n := h * w) (f := fun i => deint_src w h (i / w) (i mod w)); auto.
  - intros i Hi. pose proof (Nat.mod_upper_bound i w ltac:(lia)).
    assert (i / w < h) by (apply Nat.div_lt_upper_bound; lia). unfold deint_src. fold hw hh.
    specialize (HP (i / w) ltac:(auto)). specialize (HPc (i mod w) ltac:(auto)).
    pose proof (Nat.mul_le_mono_r (S (i / w / 2 + (i / w) mod 2 * hh)) h w). lia.
  - intros i j Hi Hj E. pose proof (Nat.mod_upper_bound i w ltac:(lia)). pose proof (Nat.mod_upper_bound j w ltac:(lia)).
    pose proof (Nat.div_mod i w ltac:(lia)). pose proof (Nat.div_mod j w ltac:(lia)).
    assert (i / w < h) by (apply Nat.div_lt_upper_bound; lia). assert (j / w < h) by (apply Nat.div_lt_upper_bound; lia).
    set (ri := i / w) in *. set (rj := j / w) in *. set (ci := i mod w) in *. set (cj := j mod w) in *. clearbody ri rj ci cj.
    unfold deint_src in E. fold hw hh in E.
    pose proof (HPc ci ltac:(auto)) as B1. pose proof (HPc cj ltac:(auto)) as B2.
    set (xi := ri / 2 + ri mod 2 * hh) in *. set (xj := rj / 2 + rj mod 2 * hh) in *.
    set (yi := ci / 2 + ci mod 2 * hw) in *. set (yj := cj / 2 + cj mod 2 * hw) in *.
    assert (xi = xj). { apply (f_equal (fun z => z / w)) in E. rewrite !Nat.div_add_l, !Nat.div_small in E by lia. lia. }
    assert (yi = yj) by lia.
    assert (ri = rj) by (apply (HIJ hh); auto; lia). assert (ci = cj) by (apply (HIJ hw); auto; lia). subst. lia.
  - intros i Hi. pose proof (Nat.mod_upper_bound i w ltac:(lia)). pose proof (Nat.div_mod i w ltac:(lia)).
    assert (i / w < h) by (apply Nat.div_lt_upper_bound; lia). rewrite <- HN by auto. f_equal. lia.
Qed.
End PixP.
