(** Superpixel and X-Trans demosaicing. *)
From Coq Require Import List ZArith Lia Bool.
From Coq Require Import ZifyBool ZifyNat.
From Verif Require Import Base BaseLemmas Tiles Geom GeomProofs Cfa CfaProofs Demosaic DemosaicSpec DemosaicProofs.
Import ListNotations.
Open Scope nat_scope.

(** ** Colours of an arbitrary pattern *)

Lemma letter_color_of ch v : color_of ch = Ok v -> Z.to_nat v = letter_color ch /\ (0 <= v < 6)%Z.
Proof.
  unfold color_of, letter_color. intros E.
  repeat match type of E with context [(?a =? ?b)%Z] => destruct (Z.eqb_spec a b); try subst end;
    first [discriminate | injection E as <-; split; [reflexivity|lia]].
Qed.

Lemma pattern_shift name pw ph c0 x y : cfa_new name = Ok c0 -> cfa_dims (length name) = Ok (pw, ph) -> name <> [] ->
  c_name c0 = name /\ c_w c0 = pw /\ c_h c0 = ph /\
  exists c, cfa_shift c0 x y = Ok c /\ wf c /\ c_w c = pw /\ c_h c = ph /\ c_name c = canon c /\
    forall r q, chan c r q = pattern_color name pw ph (y + r) (x + q) /\
                color_at c r q = Z.of_nat (pattern_color name pw ph (y + r) (x + q)).
Proof.
  intros E D NE. destruct (cfa_new_inv _ _ E NE) as (w & h & D' & Hw & HC).
  rewrite D in D'. injection D' as <- <-.
  destruct (cfa_new_ok name pw ph D Hw HC) as (c1 & E1 & NM & W & H & WF & CA).
  rewrite E in E1. injection E1 as <-.
  destruct (cfa_shift_ok c0 x y WF) as (c & Es & WFc & Wc & Hc & Nc & CS).
  split; [exact NM|]. split; [exact W|]. split; [exact H|].
  exists c. rewrite W in Wc. rewrite H in Hc. repeat (split; [assumption|]).
  intros r q. unfold chan. rewrite CS. specialize (CA (r + y) (q + x)). symmetry in CA.
  apply letter_color_of in CA as [A B]. unfold pattern_color.
  rewrite (Nat.add_comm y r), (Nat.add_comm x q). rewrite A. split; [reflexivity|]. lia.
Qed.

(** ** Loops that only append *)

Lemma for_each_flat {A B} (l : list A) (g : A -> res (list B)) (g' : A -> list B) acc :
  (forall a, In a l -> g a = Ok (g' a)) ->
  for_each l (fun a out => do x <- g a; Ok (out ++ x)) acc = Ok (acc ++ flat_map g' l).
Proof.
  revert acc. induction l as [|a l IH]; intros acc H; cbn.
  - now rewrite app_nil_r.
  - rewrite H by now left. cbn. rewrite IH by (intros; apply H; now right). now rewrite app_assoc.
Qed.

Lemma nth_firstn_lt {A} (l : list A) n i d : i < n -> nth i (firstn n l) d = nth i l d.
Proof. revert l i; induction n; intros [|a l] [|i] H; cbn; try lia; auto. apply IHn. lia. Qed.
Lemma nth_skipn' {A} (l : list A) n i d : nth i (skipn n l) d = nth (n + i) l d.
Proof. revert l; induction n; intros [|a l]; cbn; auto. now destruct i. Qed.

Lemma list4 {A} (l : list A) a d : a + 1 < length l -> firstn 2 (skipn a l) = [nth a l d; nth (S a) l d].
Proof.
  revert a. induction l as [|x l IH]; intros a H; cbn [length] in H; [lia|].
  destruct a; [|cbn; apply IH; lia]. cbn. destruct l; cbn in *; [lia|]. reflexivity.
Qed.

Section Super.
Context {F : Type}.
Variable o : fops F.
Notation z := (f_nat o 0).

(** the window of the region, two rows at a time *)
Variables (n : nat) (f : list F -> res (list F)) (f' : F -> F -> F -> F -> list F).
Hypothesis Hf : forall a b c d, f [a; b; c; d] = Ok (f' a b c d).
Hypothesis Hn : forall a b c d, length (f' a b c d) = n.

Lemma combine_map_seq {A B} (g : nat -> A) (g' : nat -> B) a k :
  combine (map g (seq a k)) (map g' (seq a k)) = map (fun i => (g i, g' i)) (seq a k).
Proof. revert a. induction k; intros a; cbn; [reflexivity|]. now rewrite IHk. Qed.

Lemma flat_map_map {A B C} (g : A -> B) (k : B -> list C) l : flat_map k (map g l) = flat_map (fun a => k (g a)) l.
Proof. induction l; cbn; [reflexivity|]. now rewrite IHl. Qed.

Lemma flat_map_ext_in' {A B} (g k : A -> list B) l : (forall a, In a l -> g a = k a) -> flat_map g l = flat_map k l.
Proof.
  induction l as [|a l IH]; intros H; cbn; [reflexivity|]. rewrite H by now left.
  rewrite IH by (intros; apply H; now right). reflexivity.
Qed.

Lemma super_rows_ok w x k s : length s = 2 * w -> x + 2 * k <= w ->
  super_rows f w (mk_rect x 0 (2 * k) 0) s =
  Ok (flat_map (fun j => f' (nth (x + 2 * j) s z) (nth (x + 2 * j + 1) s z)
                            (nth (w + (x + 2 * j)) s z) (nth (w + (x + 2 * j + 1)) s z)) (seq 0 k)).
Proof.
  intros L H. unfold super_rows. cbn [r_x r_w].
  rewrite !slice_ok by (rewrite ?firstn_length, ?skipn_length; lia). cbn [bind].
  replace (x + 2 * k - x) with (2 * k) by lia.
  unfold chunks_exact. cbn [Nat.eqb bind].
  set (l1 := firstn (2 * k) (skipn x (firstn w s))). set (l2 := firstn (2 * k) (skipn x (skipn w s))).
  assert (L1 : length l1 = 2 * k) by (unfold l1; rewrite firstn_length, skipn_length, firstn_length; lia).
  assert (L2 : length l2 = 2 * k) by (unfold l2; rewrite firstn_length, !skipn_length; lia).
  rewrite L1, L2. rewrite (Nat.mul_comm 2 k), Nat.div_mul by lia.
  rewrite combine_map_seq.
  rewrite (for_each_flat _ (fun ab => f (fst ab ++ snd ab))
    (fun ab => match fst ab ++ snd ab with [a; b; c; d] => f' a b c d | _ => [] end)).
  - cbn [app]. f_equal. rewrite flat_map_map. apply flat_map_ext_in'. intros j Hj. apply in_seq in Hj.
    cbn [fst snd]. rewrite !(list4 _ _ z) by lia. cbn [app]. unfold l1, l2.
    rewrite !nth_firstn_lt by lia. rewrite !nth_skipn'. rewrite !nth_firstn_lt by lia.
    f_equal; f_equal; lia.
  - intros ab Hab. apply in_map_iff in Hab as (j & <- & Hj). apply in_seq in Hj. cbn [fst snd].
    rewrite !(list4 _ _ z) by lia. cbn [app]. apply Hf.
Qed.

Lemma super_rows_roi w roi s : super_rows f w roi s = super_rows f w (mk_rect (r_x roi) 0 (r_w roi) 0) s.
Proof. reflexivity. Qed.

Lemma superpixel_ok p x y kw kh : pix_ok p -> 0 < px_w p -> x + 2 * kw <= px_w p -> y + 2 * kh <= px_h p ->
  exists out, superpixel f p (mk_rect x y (2 * kw) (2 * kh)) = Ok out /\ length out = n * (kw * kh) /\
    forall i j ch, i < kh -> j < kw -> ch < n ->
      nth (n * (i * kw + j) + ch) out z =
      nth ch (f' (px z p (y + 2 * i) (x + 2 * j)) (px z p (y + 2 * i) (x + (2 * j + 1)))
                 (px z p (y + (2 * i + 1)) (x + 2 * j)) (px z p (y + (2 * i + 1)) (x + (2 * j + 1)))) z.
Proof.
  intros HP HW HX HY. unfold pix_ok in HP. set (w := px_w p) in *. set (h := px_h p) in *.
  unfold superpixel. cbn [r_x r_y r_w r_h].
  assert (B1 : y * w + 2 * kh * w <= h * w) by nia.
  fold w. rewrite slice_ok by lia. cbn [bind].
  replace (y * w + 2 * kh * w - y * w) with (2 * kh * w) by lia.
  set (win := firstn (2 * kh * w) (skipn (y * w) (px_data p))).
  assert (LW : length win = 2 * kh * w) by (unfold win; rewrite firstn_length, skipn_length; lia).
  unfold chunks_exact. replace (w * 2 =? 0) with false by lia. cbn [bind].
  rewrite LW. replace (2 * kh * w) with (kh * (w * 2)) by lia. rewrite Nat.div_mul by lia.
  set (row := fun i => flat_map (fun j =>
     f' (px z p (y + 2 * i) (x + 2 * j)) (px z p (y + 2 * i) (x + (2 * j + 1)))
        (px z p (y + (2 * i + 1)) (x + 2 * j)) (px z p (y + (2 * i + 1)) (x + (2 * j + 1)))) (seq 0 kw)).
  assert (R : forall i, In i (seq 0 kh) ->
     super_rows f w (mk_rect x y (2 * kw) (2 * kh)) (firstn (w * 2) (skipn (i * (w * 2)) win)) = Ok (row i)).
  { intros i Hi. apply in_seq in Hi. rewrite super_rows_roi. cbn [r_x r_w].
    assert (i * (w * 2) + w * 2 <= kh * (w * 2)) by nia.
    rewrite super_rows_ok; [|rewrite firstn_length, skipn_length; lia|exact HX].
    f_equal. unfold row. apply flat_map_ext_in'. intros j Hj. apply in_seq in Hj.
    rewrite !nth_firstn_lt by lia. rewrite !nth_skipn'. unfold win. rewrite !nth_firstn_lt by nia. rewrite !nth_skipn'.
    unfold px. fold w. f_equal; f_equal; lia. }
  assert (E : for_each (map (fun i => firstn (w * 2) (skipn (i * (w * 2)) win)) (seq 0 kh))
     (fun s out => do l <- super_rows f w (mk_rect x y (2 * kw) (2 * kh)) s; Ok (out ++ l)) [] = Ok (flat_map row (seq 0 kh))).
  { clear - R. change (flat_map row (seq 0 kh)) with ([] ++ flat_map row (seq 0 kh)). generalize (@nil F).
    revert R. generalize (seq 0 kh). induction l as [|i l IH]; intros R acc; cbn; [now rewrite app_nil_r|].
    rewrite R by now left. cbn. rewrite IH by (intros; apply R; now right). now rewrite app_assoc. }
  rewrite E. eexists. split; [reflexivity|].
  assert (LR : forall i, i < kh -> length (row i) = kw * n).
  { intros i _. unfold row. apply flat_map_seq_length. intros; apply Hn. }
  split; [rewrite (flat_map_seq_length row kh (kw * n)) by auto; lia|].
  intros i j ch Hi Hj Hch.
  assert (j * n + ch < kw * n) by nia.
  replace (n * (i * kw + j) + ch) with (i * (kw * n) + (j * n + ch)) by lia.
  rewrite (flat_map_seq_nth row kh (kw * n)) by auto.
  unfold row. rewrite (flat_map_seq_nth _ kw n) by (auto; intros; apply Hn). reflexivity.
Qed.

End Super.

(** ** Superpixel3Channel *)

Section Quad.
Context {F : Type}.
Variable o : fops F.
Notation z := (f_nat o 0).

Lemma is_quad_in name : is_quad name = true <-> In name bayer_names.
Proof.
  split.
  - intros H. unfold is_quad in H.
    assert (D : forall a b : list Z, {a = b} + {a <> b}) by (apply list_eq_dec, Z.eq_dec).
    repeat match type of H with
    | match ?x with _ => _ end = true => destruct x; try discriminate
    end; cbn; tauto.
  - cbn. intros [<-|[<-|[<-|[<-|[]]]]]; reflexivity.
Qed.

(** the shifted name is again a Bayer pattern, with the colours of its block *)
Lemma canon_bayer name c0 x y : In name bayer_names -> cfa_new name = Ok c0 ->
  exists c, cfa_shift c0 x y = Ok c /\ In (c_name c) bayer_names /\
    (forall r q, r < 2 -> q < 2 -> sensor_color name (y + r) (x + q) = sensor_color (c_name c) r q).
Proof.
  intros HN E.
  assert (D : cfa_dims (length name) = Ok (2, 2)) by (cbn in HN; destruct HN as [<-|[<-|[<-|[<-|[]]]]]; reflexivity).
  assert (NE : name <> []) by (intros ->; discriminate D).
  destruct (pattern_shift name 2 2 c0 x y E D NE) as (_ & _ & _ & c & Es & WF & W & H & NC & HC).
  exists c. split; [exact Es|].
  assert (PS : forall r q, sensor_color name r q = pattern_color name 2 2 r q).
  { intros r q. unfold sensor_color, pattern_color. rewrite (Nat.mul_comm 2).
    set (k := r mod 2 * 2 + q mod 2).
    assert (k < 4). { pose proof (Nat.mod_upper_bound r 2). pose proof (Nat.mod_upper_bound q 2). lia. }
    clearbody k. cbn in HN. destruct HN as [<-|[<-|[<-|[<-|[]]]]]; destruct k as [|[|[|[|]]]]; try lia; reflexivity. }
  destruct (bayer_quad name x y HN) as (t & HT & HTC).
  assert (CN : c_name c = [tag_char (Z.of_nat (t false false)); tag_char (Z.of_nat (t false true));
                           tag_char (Z.of_nat (t true false)); tag_char (Z.of_nat (t true true))]).
  { rewrite NC. unfold canon. rewrite W, H. cbn [Nat.mul Nat.add seq map].
    assert (X : forall i, i < 4 -> nth (pos 2 i) (c_pat c) 0%Z = Z.of_nat (t (Nat.odd (i / 2)) (Nat.odd (i mod 2)))).
    { intros i Hi. rewrite <- HTC, PS. rewrite <- (proj2 (HC (i / 2) (i mod 2))).
      rewrite color_at_wf by exact WF. rewrite W, H. f_equal. unfold pos.
      assert (i / 2 < 2) by (apply Nat.div_lt_upper_bound; lia).
      pose proof (Nat.mod_upper_bound i 2).
      rewrite (Nat.mod_small (i / 2)) by lia. rewrite (Nat.mod_small (i mod 2)) by lia. reflexivity. }
    rewrite !X by lia. reflexivity. }
  split.
  - rewrite CN. clear - HT. destruct HT as (H3 & HX & HY).
    pose proof (H3 false false). pose proof (H3 false true). pose proof (H3 true false). pose proof (H3 true true).
    destruct (Nat.eq_dec (t false false) 1) as [e|e].
    + destruct (HY _ _ e) as (A & B & C & D). cbn in *. rewrite e, D.
      assert (t false true = 0 /\ t true false = 2 \/ t false true = 2 /\ t true false = 0) as [[-> ->]|[-> ->]] by lia; cbn; tauto.
    + destruct (HX _ _ e) as (A & B & C & D). cbn in *. rewrite A, B.
      assert (t false false = 0 /\ t true true = 2 \/ t false false = 2 /\ t true true = 0) as [[-> ->]|[-> ->]] by lia; cbn; tauto.
  - intros r q Hr Hq. rewrite HTC, CN. destruct HT as (H3 & _).
    pose proof (H3 false false). pose proof (H3 false true). pose proof (H3 true false). pose proof (H3 true true).
    destruct r as [|[|]], q as [|[|]]; try lia; cbn;
      match goal with |- t ?a ?b = _ => destruct (t a b) as [|[|[|]]]; try lia; reflexivity end.
Qed.

Lemma superpixel3_ok p name c0 roi : In name bayer_names -> cfa_new name = Ok c0 ->
  pix_ok p -> 0 < px_w p -> r_x roi + r_w roi <= px_w p -> r_y roi + r_h roi <= px_h p ->
  exists out, superpixel3 o p c0 3 roi = Ok out /\ length out = 3 * ((r_w roi / 2) * (r_h roi / 2)) /\
    forall i j ch, i < r_h roi / 2 -> j < r_w roi / 2 -> ch < 3 ->
      nth (3 * (i * (r_w roi / 2) + j) + ch) out z =
      small_mean o (block_samples (fun r q => px z p (r_y roi + r) (r_x roi + q))
                                  (fun r q => sensor_color name (r_y roi + r) (r_x roi + q)) i j ch).
Proof.
  intros HN EN HP HW HX HY. unfold superpixel3. cbn [Nat.eqb assert_ bind].
  destruct (chan_shift name c0 0 0 HN EN) as (RGB & _). rewrite RGB. cbn [assert_ bind].
  unfold roi_even. cbn [r_x r_y].
  destruct (canon_bayer name c0 (r_x roi) (r_y roi) HN EN) as (c & Es & IN & SC). rewrite Es. cbn [bind].
  rewrite (proj2 (is_quad_in _) IN). cbn [assert_ bind].
  set (half a b := f_div o (f_add o a b) (f_nat o 2)).
  destruct (superpixel_ok o 3 (rgb_of o (c_name c))
    (fun a b cc d =>
       if list_eq_dec Z.eq_dec (c_name c) [82; 71; 71; 66]%Z then [a; half b cc; d]
       else if list_eq_dec Z.eq_dec (c_name c) [66; 71; 71; 82]%Z then [d; half b cc; a]
       else if list_eq_dec Z.eq_dec (c_name c) [71; 66; 82; 71]%Z then [cc; half a d; b]
       else [b; half a d; cc])
    ) with (p := p) (x := r_x roi) (y := r_y roi) (kw := r_w roi / 2) (kh := r_h roi / 2) as (out & E & L & N); auto.
  { intros a b cc d. cbn in IN. destruct IN as [<-|[<-|[<-|[<-|[]]]]]; reflexivity. }
  { intros a b cc d. repeat match goal with |- context [if ?x then _ else _] => destruct x end; reflexivity. }
  { pose proof (Nat.mul_div_le (r_w roi) 2). lia. }
  { pose proof (Nat.mul_div_le (r_h roi) 2). lia. }
  exists out. split; [exact E|]. split; [exact L|]. intros i j ch Hi Hj Hch. rewrite N by auto.
  unfold block_samples, block. cbn [filter fst snd].
  assert (EV : forall r q, r < 2 -> q < 2 ->
    sensor_color name (r_y roi + (2 * i + r)) (r_x roi + (2 * j + q)) = sensor_color (c_name c) r q).
  { intros r q Hr Hq. rewrite <- SC by auto. unfold sensor_color.
    replace (r_y roi + (2 * i + r)) with (r_y roi + r + i * 2) by lia.
    replace (r_x roi + (2 * j + q)) with (r_x roi + q + j * 2) by lia.
    now rewrite !Nat.mod_add by lia. }
  pose proof (EV 0 0) as E00. pose proof (EV 0 1) as E01. pose proof (EV 1 0) as E10. pose proof (EV 1 1) as E11.
  rewrite !Nat.add_0_r in *. rewrite E00, E01, E10, E11 by lia.
  cbn in IN. destruct IN as [<-|[<-|[<-|[<-|[]]]]]; destruct ch as [|[|[|]]]; try lia; reflexivity.
Qed.

(** ** Superpixel4Channel *)

Lemma find_index_first c color ks k : find (fun k => (color_at c (k / c_w c) (k mod c_w c) =? color)%Z) ks = Some k ->
  find_index c color ks = Ok k.
Proof.
  induction ks as [|a ks IH]; cbn; [discriminate|].
  destruct (_ =? _)%Z; [now intros [= ->]|auto].
Qed.

Lemma colormap_ok {A B} (l : list A) (g : A -> res B) (g' : A -> B) acc : (forall a, In a l -> g a = Ok (g' a)) ->
  for_each l (fun a out => do i <- g a; Ok (out ++ [i])) acc = Ok (acc ++ map g' l).
Proof.
  revert acc. induction l as [|a l IH]; intros acc H; cbn; [now rewrite app_nil_r|].
  rewrite H by now left. cbn. rewrite IH by (intros; apply H; now right). now rewrite <- app_assoc.
Qed.

Lemma superpixel4_ok p name c0 colors roi : length name = 4 -> cfa_new name = Ok c0 ->
  length colors = 4 -> (forall ch, In ch colors -> In ch (map letter_color name)) ->
  pix_ok p -> 0 < px_w p -> r_x roi + r_w roi <= px_w p -> r_y roi + r_h roi <= px_h p ->
  exists out, superpixel4 p c0 (map Z.of_nat colors) roi = Ok out /\ length out = 4 * ((r_w roi / 2) * (r_h roi / 2)) /\
    forall i j k, i < r_h roi / 2 -> j < r_w roi / 2 -> k < 4 ->
      nth (4 * (i * (r_w roi / 2) + j) + k) out z =
      hd z (block_samples (fun r q => px z p (r_y roi + r) (r_x roi + q))
                          (fun r q => pattern_color name 2 2 (r_y roi + r) (r_x roi + q)) i j (nth k colors 0)).
Proof.
  intros LN EN LC IC HP HW HX HY. unfold superpixel4. rewrite map_length, LC. cbn [Nat.eqb assert_ bind].
  unfold roi_even. cbn [r_x r_y].
  assert (D : cfa_dims (length name) = Ok (2, 2)) by (rewrite LN; reflexivity).
  assert (NE : name <> []) by (intros ->; discriminate LN).
  destruct (pattern_shift name 2 2 c0 (r_x roi) (r_y roi) EN D NE) as (_ & _ & _ & c & Es & WF & W & H & NC & HC).
  rewrite Es. cbn [bind].
  set (x := r_x roi) in *. set (y := r_y roi) in *.
  set (pc := fun r q => pattern_color name 2 2 (y + r) (x + q)) in *.
  assert (PE : forall i j r q, pc (2 * i + r) (2 * j + q) = pc r q).
  { intros i j r q. unfold pc, pattern_color.
    replace (y + (2 * i + r)) with (y + r + i * 2) by lia.
    replace (x + (2 * j + q)) with (x + q + j * 2) by lia.
    now rewrite !Nat.mod_add by lia. }
  (* each colour occurs in the shifted block *)
  assert (OCC : forall ch, In ch colors -> pc 0 0 = ch \/ pc 0 1 = ch \/ pc 1 0 = ch \/ pc 1 1 = ch).
  { intros ch Hch. apply IC in Hch. clear - Hch LN. unfold pc, pattern_color. rewrite !Nat.add_0_r.
    destruct name as [|a [|b [|cc [|d [|]]]]]; try discriminate. cbn [map In] in Hch.
    assert (Y : y mod 2 = 0 /\ (y + 1) mod 2 = 1 \/ y mod 2 = 1 /\ (y + 1) mod 2 = 0).
    { rewrite <- !Nat.bit0_mod, !Nat.bit0_odd, odd_succ1. destruct (Nat.odd y); cbn; tauto. }
    assert (X : x mod 2 = 0 /\ (x + 1) mod 2 = 1 \/ x mod 2 = 1 /\ (x + 1) mod 2 = 0).
    { rewrite <- !Nat.bit0_mod, !Nat.bit0_odd, odd_succ1. destruct (Nat.odd x); cbn; tauto. }
    destruct Y as [[-> ->]|[-> ->]], X as [[-> ->]|[-> ->]]; cbn; tauto. }
  set (idx := fun ch => if pc 0 0 =? ch then 0 else if pc 0 1 =? ch then 1 else if pc 1 0 =? ch then 2 else 3).
  rewrite (colormap_ok _ _ (fun col => idx (Z.to_nat col))).
  2:{ intros a Ha. apply in_map_iff in Ha as (ch & <- & Hch). unfold cfa_index. apply find_index_first.
      rewrite W, H. cbn [Nat.mul Nat.add seq find]. rewrite !(proj2 (HC _ _)).
      change (pattern_color name 2 2 (y + 0 / 2) (x + 0 mod 2)) with (pc 0 0).
      change (pattern_color name 2 2 (y + 1 / 2) (x + 1 mod 2)) with (pc 0 1).
      change (pattern_color name 2 2 (y + 2 / 2) (x + 2 mod 2)) with (pc 1 0).
      change (pattern_color name 2 2 (y + 3 / 2) (x + 3 mod 2)) with (pc 1 1).
      rewrite Nat2Z.id. unfold idx.
      replace (Z.eqb (Z.of_nat (pc 0 0)) (Z.of_nat ch)) with (pc 0 0 =? ch) by lia.
      replace (Z.eqb (Z.of_nat (pc 0 1)) (Z.of_nat ch)) with (pc 0 1 =? ch) by lia.
      replace (Z.eqb (Z.of_nat (pc 1 0)) (Z.of_nat ch)) with (pc 1 0 =? ch) by lia.
      replace (Z.eqb (Z.of_nat (pc 1 1)) (Z.of_nat ch)) with (pc 1 1 =? ch) by lia.
      specialize (OCC ch Hch).
      destruct (pc 0 0 =? ch) eqn:?; [reflexivity|]. destruct (pc 0 1 =? ch) eqn:?; [reflexivity|].
      destruct (pc 1 0 =? ch) eqn:?; [reflexivity|]. destruct (pc 1 1 =? ch) eqn:?; [reflexivity|]. lia. }
  cbn [app bind]. rewrite map_map.
  assert (IL : forall ch, idx ch < 4).
  { intros ch. unfold idx. repeat match goal with |- context [if ?b then _ else _] => destruct b end; lia. }
  destruct (superpixel_ok o 4 (pick4 (map (fun a => idx (Z.to_nat (Z.of_nat a))) colors))
    (fun a b cc d => map (fun ch => nth (idx ch) [a; b; cc; d] z) colors))
    with (p := p) (x := x) (y := y) (kw := r_w roi / 2) (kh := r_h roi / 2) as (out & E & L & N); auto.
  { intros a b cc d. unfold pick4.
    rewrite (colormap_ok _ _ (fun i => nth i [a; b; cc; d] z)).
    - cbn [app]. rewrite map_map. f_equal. apply map_ext. intros ch. now rewrite Nat2Z.id.
    - intros i Hi. apply in_map_iff in Hi as (ch & <- & _). apply get_ok. cbn. rewrite Nat2Z.id. apply IL. }
  { intros. now rewrite map_length. }
  { pose proof (Nat.mul_div_le (r_w roi) 2). lia. }
  { pose proof (Nat.mul_div_le (r_h roi) 2). lia. }
  exists out. split; [exact E|]. split; [exact L|]. intros i j k Hi Hj Hk. rewrite N by auto.
  set (g := fun ch => nth (idx ch) _ z). rewrite (nth_indep _ z (g 0)) by (rewrite map_length; lia).
  rewrite map_nth. unfold g. clear g. set (ch := nth k colors 0).
  assert (HO : In ch colors) by (apply nth_In; lia). apply OCC in HO.
  unfold block_samples, block. cbn [filter fst snd]. fold (pc (2 * i) (2 * j)) (pc (2 * i) (2 * j + 1)) (pc (2 * i + 1) (2 * j)) (pc (2 * i + 1) (2 * j + 1)).
  pose proof (PE i j 0 0) as P00. pose proof (PE i j 0 1) as P01. pose proof (PE i j 1 0) as P10. pose proof (PE i j 1 1) as P11.
  rewrite !Nat.add_0_r in *. rewrite P00, P01, P10, P11. unfold idx.
  destruct (pc 0 0 =? ch) eqn:?; [reflexivity|]. destruct (pc 0 1 =? ch) eqn:?; [reflexivity|].
  destruct (pc 1 0 =? ch) eqn:?; [reflexivity|]. destruct (pc 1 1 =? ch) eqn:?; [reflexivity|]. lia.
Qed.

(** ** X-Trans *)

Lemma prod_seq h w : list_prod (seq 0 h) (seq 0 w) = flat_map (fun y => map (fun x => (y, x)) (seq 0 w)) (seq 0 h).
Proof.
  generalize (seq 0 h). induction l as [|a l IH]; cbn; [reflexivity|]. now rewrite IH.
Qed.

Lemma xt_fold p c roi (col : nat -> nat -> nat) l : (forall r q, chan c r q = col r q) -> (forall r q, col r q < 3) ->
  pix_ok p -> r_x roi + r_w roi <= px_w p -> r_y roi + r_h roi <= px_h p ->
  (forall y x, In (y, x) l -> y < r_h roi /\ x < r_w roi) -> forall s, length s = 3 ->
  exists s', for_each l (fun rc sum =>
    let '(row, col) := rc in
    let ch := chan c row col in
    do s <- get sum ch;
    do v <- pix_at p (r_y roi + row) (r_x roi + col);
    put sum ch (f_add o (fst s) v, S (snd s))) s = Ok s' /\ length s' = 3 /\
    forall ch, ch < 3 -> nth ch s' (z, 0) =
      (fold_left (f_add o) (map (fun yx => px z p (r_y roi + fst yx) (r_x roi + snd yx)) (filter (fun yx => col (fst yx) (snd yx) =? ch) l)) (fst (nth ch s (z, 0))),
       snd (nth ch s (z, 0)) + length (filter (fun yx => col (fst yx) (snd yx) =? ch) l)).
Proof.
  intros HC H3 HP HX HY HI. induction l as [|[y x] l IH]; intros s Ls.
  - exists s. split; [reflexivity|]. split; [auto|]. intros ch Hch. cbn. rewrite Nat.add_0_r. now destruct (nth ch s (z, 0)).
  - cbn [for_each]. destruct (HI y x) as [Hy Hx]; [now left|]. rewrite HC.
    rewrite (get_ok s _ (z, 0)) by (rewrite Ls; apply H3). cbn [bind].
    unfold pix_at at 1. rewrite (get_ok _ _ z) by (rewrite HP; nia). cbn [bind].
    rewrite put_ok by (rewrite Ls; apply H3). cbn [bind].
    destruct (IH ltac:(intros; apply HI; now right) (upd_list s (col y x) (f_add o (fst (nth (col y x) s (z, 0))) (px z p (r_y roi + y) (r_x roi + x)), S (snd (nth (col y x) s (z, 0))))))
      as (s' & E & L' & N); [now rewrite upd_list_length|].
    exists s'. split; [exact E|]. split; [exact L'|]. intros ch Hch. rewrite N by auto.
    cbn [filter fst snd].
    destruct (Nat.eqb_spec (col y x) ch) as [<-|NE].
    + rewrite nth_upd_eq by (rewrite Ls; apply H3). cbn [fst snd map fold_left length]. apply f_equal. lia.
    + rewrite nth_upd_neq by auto. reflexivity.
Qed.

Lemma xtrans_ok p name c0 pw ph roi : cfa_dims (length name) = Ok (pw, ph) -> cfa_new name = Ok c0 ->
  is_rgb c0 = true -> pix_ok p -> 0 < r_w roi -> r_x roi + r_w roi <= px_w p -> r_y roi + r_h roi <= px_h p ->
  exists out, xtrans_bilinear o p c0 roi = Ok out /\ length out = 3 * (r_w roi * r_h roi) /\
    forall r q ch, r < r_h roi -> q < r_w roi -> ch < 3 ->
      nth (3 * (r * r_w roi + q) + ch) out z =
      square_mean o (r_w roi) (r_h roi) (fun r q => px z p (r_y roi + r) (r_x roi + q))
        (fun r q => pattern_color name pw ph (r_y roi + r) (r_x roi + q)) 2 r q ch.
Proof.
  intros D EN RGB HP HW HX HY. unfold xtrans_bilinear. rewrite RGB. cbn [assert_ bind].
  assert (NE : name <> []).
  { intros ->. cbn in EN. injection EN as <-. discriminate RGB. }
  destruct (pattern_shift name pw ph c0 (r_x roi) (r_y roi) EN D NE) as (NM & _ & _ & c & Es & WF & W & H & NC & HC).
  rewrite Es. cbn [bind]. replace (0 <? r_w roi) with true by lia. cbn [assert_ bind].
  set (w := r_w roi) in *. set (h := r_h roi) in *.
  set (col := fun r q => pattern_color name pw ph (r_y roi + r) (r_x roi + q)) in *.
  assert (H3 : forall r q, col r q < 3).
  { intros r q. unfold is_rgb in RGB. rewrite NM in RGB. rewrite !andb_true_iff in RGB. destruct RGB as [[[RGB _] _] _].
    rewrite forallb_forall in RGB. unfold col, pattern_color.
    assert (HIN : In (nth ((r_y roi + r) mod ph * pw + (r_x roi + q) mod pw) name 0%Z) name).
    { apply nth_In. destruct (dims_cases _ _ _ D) as (-> & [Hpw _] & [Hph _]).
      - revert D. unfold cfa_dims. destruct name; [congruence|]. cbn [length].
        destruct (Nat.eqb_spec (S (length name)) 0); [lia|].
        repeat match goal with |- context [if ?b then _ else _] => destruct b end; try discriminate; intros [= <- <-]; lia.
      - pose proof (Nat.mod_upper_bound (r_y roi + r) ph). pose proof (Nat.mod_upper_bound (r_x roi + q) pw). nia. }
    apply RGB in HIN. unfold has_char in HIN. cbn [existsb] in HIN. unfold letter_color.
    destruct (_ =? 82)%Z; [lia|]. destruct (_ =? 71)%Z; [lia|]. destruct (_ =? 66)%Z; [lia|discriminate HIN]. }
  set (T := fun y x => map (fun ch => square_mean o w h (fun r q => px z p (r_y roi + r) (r_x roi + q)) col 2 y x ch) [0; 1; 2]).
  assert (PX : forall y x, y < h -> x < w -> xt_px o p c roi y x = Ok (T y x)).
  { intros y x Hy Hx. unfold xt_px. fold w h.
    destruct (xt_fold p c roi col (list_prod (seq (y - 2) (S (Nat.min (y + 2) (h - 1)) - (y - 2))) (seq (x - 2) (S (Nat.min (x + 2) (w - 1)) - (x - 2)))) (fun r q => proj1 (HC r q)) H3 HP HX HY)
      with (s := repeat (z, 0) 3) as (s & E & L & N); [|reflexivity|].
    { intros y' x' Hin. apply in_prod_iff in Hin as [A B]. apply in_seq in A, B. fold w h. lia. }
    match goal with |- context [for_each ?l ?f (repeat (z, 0) 3)] => replace (for_each l f (repeat (z, 0) 3)) with (Ok s) by (symmetry; exact E) end.
    cbn [bind]. f_equal. unfold T.
    assert (M : forall ch, ch < 3 ->
      (if 0 <? snd (nth ch s (z, 0)) then f_div o (fst (nth ch s (z, 0))) (f_nat o (snd (nth ch s (z, 0)))) else z)
      = square_mean o w h (fun r q => px z p (r_y roi + r) (r_x roi + q)) col 2 y x ch).
    { intros ch Hch. rewrite N by auto. cbn [fst snd]. rewrite nth_repeat_lt by auto. cbn [fst snd].
      unfold square_mean. rewrite square_window.
      replace (Nat.min h (S (y + 2))) with (S (Nat.min (y + 2) (h - 1))) by lia.
      replace (Nat.min w (S (x + 2))) with (S (Nat.min (x + 2) (w - 1))) by lia.
      set (l := filter _ _). unfold mean.
      replace (0 + length l) with (length (map (fun yx => px z p (r_y roi + fst yx) (r_x roi + snd yx)) l)) by (rewrite map_length; lia).
      destruct (map _ l); reflexivity. }
    destruct s as [|a [|b [|cc [|]]]]; try discriminate. cbn [map].
    rewrite <- (M 0), <- (M 1), <- (M 2) by lia. reflexivity. }
  rewrite (for_each_flat _ (fun yx => xt_px o p c roi (fst yx) (snd yx)) (fun yx => T (fst yx) (snd yx))).
  2:{ intros [y x] Hin. apply in_prod_iff in Hin as [A B]. apply in_seq in A, B. apply PX; cbn; lia. }
  cbn [app]. eexists. split; [reflexivity|].
  assert (FM : forall (l : list nat), flat_map (fun yx => T (fst yx) (snd yx)) (list_prod l (seq 0 w))
     = flat_map (fun y => flat_map (fun x => T y x) (seq 0 w)) l).
  { induction l as [|a l IH]; cbn [list_prod flat_map]; [reflexivity|]. rewrite flat_map_app, IH. f_equal. now rewrite flat_map_map. }
  rewrite FM.
  assert (LR : forall i, i < h -> length (flat_map (fun x => T i x) (seq 0 w)) = w * 3).
  { intros i _. apply flat_map_seq_length. reflexivity. }
  split; [rewrite (flat_map_seq_length _ h (w * 3)) by auto; lia|].
  intros r q ch Hr Hq Hch.
  replace (3 * (r * w + q) + ch) with (r * (w * 3) + (q * 3 + ch)) by lia.
  rewrite (flat_map_seq_nth _ h (w * 3)) by (auto; nia).
  rewrite (flat_map_seq_nth _ w 3) by (auto; lia).
  unfold T. destruct ch as [|[|[|]]]; try lia; reflexivity.
Qed.

End Quad.
