(** Proofs about colour filter arrays and black levels. *)
From Coq Require Import List ZArith Lia Bool.
From Verif Require Import Base BaseLemmas Cfa.
Import ListNotations.
Open Scope nat_scope.

Local Opaque Nat.div Nat.modulo Nat.mul.

(** ** Index arithmetic *)

Lemma cell_row a b : b < 48 -> (48 * a + b) / 48 = a.
Proof. intros. rewrite (Nat.mul_comm 48 a), Nat.div_add_l by discriminate. rewrite Nat.div_small by auto. lia. Qed.
Lemma cell_col a b : b < 48 -> (48 * a + b) mod 48 = b.
Proof. intros. rewrite Nat.add_comm, (Nat.mul_comm 48 a), Nat.mod_add by discriminate. now apply Nat.mod_small. Qed.
Lemma cell_eq k : k = 48 * (k / 48) + k mod 48.
Proof. apply Nat.div_mod. discriminate. Qed.
Lemma row_lt k : k < 48 * 48 -> k / 48 < 48.
Proof. intros. apply Nat.div_lt_upper_bound; [discriminate|auto]. Qed.
Lemma col_lt k : k mod 48 < 48.
Proof. apply Nat.mod_upper_bound. discriminate. Qed.
Lemma cell_lt a b : a < 48 -> b < 48 -> 48 * a + b < 48 * 48.
Proof. intros. lia. Qed.

Definition src (w h k : nat) : nat := 48 * ((k / 48) mod h) + (k mod 48) mod w.

Definition fits (w : nat) : Prop := 0 < w /\ exists q, 48 = w * q.

Lemma fits_le w : fits w -> w <= 48.
Proof. intros [H [q Hq]]. destruct q; nia. Qed.
Lemma fits_mod w r : fits w -> (r mod 48) mod w = r mod w.
Proof.
  intros [H [q Hq]]. assert (q <> 0) by (intros ->; lia). rewrite Hq.
  rewrite Nat.mod_mul_r by lia. rewrite (Nat.mul_comm w (_ mod q)), Nat.mod_add by lia. apply Nat.mod_mod. lia.
Qed.
Lemma fits_add48 w r : fits w -> ((r + 48) mod 48) mod w = r mod w.
Proof.
  intros H. rewrite fits_mod by auto. destruct H as [H [q Hq]].
  rewrite Hq, (Nat.mul_comm w), Nat.mod_add by lia. auto.
Qed.
Lemma fits_lt w r : fits w -> r mod w < 48.
Proof. intros H. pose proof (fits_le w H). destruct H. pose proof (Nat.mod_upper_bound r w). lia. Qed.

Lemma src_le w h k : fits w -> fits h -> src w h k <= k.
Proof.
  intros [Hw _] [Hh _]. unfold src. pose proof (cell_eq k) as E.
  pose proof (Nat.mod_le (k / 48) h ltac:(lia)). pose proof (Nat.mod_le (k mod 48) w ltac:(lia)). lia.
Qed.
Lemma src_row w h k : fits w -> src w h k / 48 = (k / 48) mod h.
Proof. intros. apply cell_row, fits_lt; auto. Qed.
Lemma src_col w h k : fits w -> src w h k mod 48 = (k mod 48) mod w.
Proof. intros. apply cell_col, fits_lt; auto. Qed.
Lemma src_src w h k : fits w -> fits h -> src w h (src w h k) = src w h k.
Proof.
  intros Hw Hh. unfold src at 1. rewrite src_row, src_col by auto. destruct Hw, Hh. now rewrite !Nat.mod_mod by lia.
Qed.

(** ** The in place loop *)

Lemma inplace w h F (p1 : list Z) : fits w -> fits h -> length p1 = 48 * 48 ->
  exists p, for_each (seq 0 (48 * 48)) (fun k p => do v <- get p (src w h k); put p k (F k v)) p1 = Ok p /\
    length p = 48 * 48 /\
    forall k, k < 48 * 48 -> nth k p 0%Z =
      if src w h k =? k then F k (nth k p1 0%Z) else F k (F (src w h k) (nth (src w h k) p1 0%Z)).
Proof.
  intros Hw Hh HL.
  set (val := fun k => if src w h k =? k then F k (nth k p1 0%Z) else F k (F (src w h k) (nth (src w h k) p1 0%Z))).
  destruct (for_each_seq_inv (fun k p => do v <- get p (src w h k); put p k (F k v))
    (fun k p => length p = 48 * 48 /\ (forall j, j < k -> nth j p 0%Z = val j) /\ (forall j, k <= j -> nth j p 0%Z = nth j p1 0%Z))
    0 (48 * 48) p1) as (p & E & HP & HD & _).
  - repeat split; auto. intros j Hj. inversion Hj.
  - intros i p Hi (HP & HD & HR). pose proof (src_le w h i Hw Hh).
    rewrite (get_ok p _ 0%Z) by lia. cbn [bind]. rewrite put_ok by lia. eexists. split; [reflexivity|].
    repeat split.
    + now rewrite upd_list_length.
    + intros j Hj. rewrite nth_upd by lia. destruct (Nat.eqb_spec i j) as [->|Hne].
      * unfold val. destruct (Nat.eqb_spec (src w h j) j) as [Es|Es].
        -- rewrite Es. f_equal. apply HR. lia.
        -- rewrite HD by lia. unfold val. rewrite src_src, Nat.eqb_refl by auto. auto.
      * apply HD. lia.
    + intros j Hj. rewrite nth_upd_neq by lia. apply HR. lia.
  - exists p. split; [exact E|]. split; [exact HP|]. intros k Hk. now apply HD.
Qed.

(** ** Well formed arrays *)

Definition color_ok (v : Z) : Prop := (0 <= v <= 5)%Z.

Record wf (c : cfa) : Prop := mk_wf {
  wf_w : fits (c_w c);
  wf_h : fits (c_h c);
  wf_dims : cfa_dims (c_h c * c_w c) = Ok (c_w c, c_h c);
  wf_len : length (c_pat c) = 48 * 48;
  wf_per : forall k, k < 48 * 48 -> nth k (c_pat c) 0%Z = nth (src (c_w c) (c_h c) k) (c_pat c) 0%Z;
  wf_col : forall k, color_ok (nth k (c_pat c) 0%Z) }.

Lemma color_at_wf c r q : wf c -> color_at c r q = nth (48 * (r mod c_h c) + q mod c_w c) (c_pat c) 0%Z.
Proof.
  intros H. unfold color_at. rewrite (wf_per c H) by (apply cell_lt; apply col_lt).
  unfold src. rewrite cell_row, cell_col by apply col_lt. rewrite !fits_add48 by apply H. reflexivity.
Qed.

Lemma cell_color c k : wf c -> k < 48 * 48 -> nth k (c_pat c) 0%Z = color_at c (k / 48) (k mod 48).
Proof. intros H Hk. rewrite (wf_per c H) by auto. rewrite color_at_wf by auto. reflexivity. Qed.

Lemma wf_ext c c' : wf c -> wf c' -> c_name c = c_name c' -> c_w c = c_w c' -> c_h c = c_h c' ->
  (forall r q, color_at c r q = color_at c' r q) -> c = c'.
Proof.
  intros H H' En Ew Eh HC. assert (Ep : c_pat c = c_pat c').
  { apply nth_ext_len with (d := 0%Z); [now rewrite (wf_len c H), (wf_len c' H')|].
    intros k Hk. rewrite (wf_len c H) in Hk. rewrite !cell_color by auto. apply HC. }
  destruct c, c'; cbn in *; congruence.
Qed.

Lemma dims_cases n w h : cfa_dims n = Ok (w, h) -> 0 < w -> n = h * w /\ fits w /\ fits h.
Proof.
  unfold cfa_dims. intros E Hw.
  assert (F2 : fits 2) by (split; [lia|exists 24; reflexivity]).
  assert (F6 : fits 6) by (split; [lia|exists 8; reflexivity]).
  assert (F8 : fits 8) by (split; [lia|exists 6; reflexivity]).
  assert (F12 : fits 12) by (split; [lia|exists 4; reflexivity]).
  destruct (Nat.eqb_spec n 0); [injection E as <- <-; lia|].
  destruct (Nat.eqb_spec n 4); [injection E as <- <-; auto|].
  destruct (Nat.eqb_spec n 36); [injection E as <- <-; auto|].
  destruct (Nat.eqb_spec n 16); [injection E as <- <-; auto|].
  destruct (Nat.eqb_spec n 144); [injection E as <- <-; auto|]. discriminate.
Qed.

Lemma color_of_ok ch v : color_of ch = Ok v -> color_ok v.
Proof.
  unfold color_of, color_ok. intros E.
  repeat match type of E with context [if ?b then _ else _] => destruct b end; first [discriminate | injection E as <-; lia].
Qed.

(** position of the [i]-th character of the name *)
Definition pos (w i : nat) : nat := 48 * (i / w) + i mod w.

Lemma pos_inj w i j : fits w -> pos w i = pos w j -> i = j.
Proof.
  intros Hw E. assert (i / w = j / w /\ i mod w = j mod w) as [E1 E2].
  { pose proof (fits_lt w i Hw). pose proof (fits_lt w j Hw). unfold pos in E. lia. }
  destruct Hw. rewrite (Nat.div_mod i w), (Nat.div_mod j w) by lia. congruence.
Qed.
Lemma pos_lt w h i : fits w -> fits h -> i < h * w -> pos w i < 48 * 48.
Proof.
  intros Hw Hh Hi. unfold pos. apply cell_lt; [|now apply fits_lt]. pose proof (fits_le h Hh). destruct Hw.
  assert (i / w < h); [|lia]. apply Nat.div_lt_upper_bound; [lia|]. now rewrite Nat.mul_comm.
Qed.
Lemma pos_at w r q : 0 < w -> q < w -> pos w (r * w + q) = 48 * r + q.
Proof.
  intros. unfold pos. rewrite Nat.div_add_l by lia. rewrite Nat.div_small by auto.
  rewrite Nat.add_comm with (n := r * w), Nat.mod_add by lia. rewrite Nat.mod_small by auto. lia.
Qed.

Lemma cfa_new_ok pat w h : cfa_dims (length pat) = Ok (w, h) -> 0 < w ->
  (forall ch, In ch pat -> exists v, color_of ch = Ok v) ->
  exists c, cfa_new pat = Ok c /\ c_name c = pat /\ c_w c = w /\ c_h c = h /\ wf c /\
    forall r q, Ok (color_at c r q) = color_of (nth ((r mod h) * w + q mod w) pat 0%Z).
Proof.
  intros HD Hw HC. destruct (dims_cases _ _ _ HD Hw) as (HN & Fw & Fh).
  unfold cfa_new. rewrite HD. cbn [bind]. destruct (Nat.ltb_spec 0 w); [|lia].
  set (body1 := fun i p => do ch <- get pat i; do v <- color_of ch; put p (48 * (i / w) + i mod w) v).
  destruct (for_each_seq_inv body1
    (fun i p => length p = 48 * 48 /\ (forall k, color_ok (nth k p 0%Z)) /\
       forall j, j < i -> Ok (nth (pos w j) p 0%Z) = color_of (nth j pat 0%Z))
    0 (length pat) (repeat 0%Z (48 * 48))) as (p1 & E1 & L1 & C1 & V1).
  - split; [apply repeat_length|]. split; [|intros j Hj; inversion Hj]. intros k. unfold color_ok.
    destruct (Nat.ltb_spec k (48 * 48)); [rewrite nth_repeat_lt by auto; lia|].
    rewrite nth_overflow by (rewrite repeat_length; auto). lia.
  - intros i p Hi (HP & HK & HV). unfold body1. rewrite (get_ok pat i 0%Z) by lia. cbn [bind].
    destruct (HC (nth i pat 0%Z)) as [v Ev]; [apply nth_In; lia|]. rewrite Ev. cbn [bind].
    assert (48 * (i / w) + i mod w < 48 * 48) by (apply (pos_lt w h); auto; lia).
    rewrite put_ok by lia. eexists. split; [reflexivity|]. split; [now rewrite upd_list_length|]. split.
    + intros k. rewrite nth_upd by lia. destruct (48 * (i / w) + i mod w =? k); auto. eapply color_of_ok; eauto.
    + intros j Hj. destruct (Nat.eq_dec j i) as [->|Hne].
      * rewrite nth_upd_eq by lia. now rewrite Ev.
      * rewrite nth_upd_neq; [apply HV; lia|]. intros E. apply Hne. symmetry. now apply (pos_inj w).
  - rewrite E1. cbn [bind].
    destruct (inplace w h (fun _ v => v) p1 Fw Fh L1) as (p & E2 & L2 & V2).
    unfold src in E2 at 1. rewrite E2. cbn [bind]. eexists. split; [reflexivity|]. cbn [c_name c_w c_h].
    assert (V3 : forall k, k < 48 * 48 -> nth k p 0%Z = nth (src w h k) p1 0%Z).
    { intros k Hk. rewrite V2 by auto. destruct (Nat.eqb_spec (src w h k) k) as [->|]; auto. }
    assert (W : wf (mk_cfa pat w h p)).
    { constructor; cbn [c_w c_h c_pat c_name]; auto.
      - now rewrite <- HN.
      - intros k Hk. pose proof (src_le w h k Fw Fh). rewrite !V3 by lia. now rewrite src_src.
      - intros k. destruct (Nat.ltb_spec k (48 * 48)); [rewrite V3 by auto; apply C1|].
        rewrite nth_overflow by lia. unfold color_ok; lia. }
    do 3 (split; [reflexivity|]). split; [exact W|]. intros r q. rewrite color_at_wf by auto. cbn [c_w c_h c_pat].
    pose proof (Nat.mod_upper_bound r h ltac:(destruct Fh; lia)) as Hr.
    pose proof (Nat.mod_upper_bound q w ltac:(lia)) as Hq.
    pose proof (fits_le h Fh). pose proof (fits_le w Fw).
    rewrite V3 by (apply cell_lt; lia). unfold src. rewrite cell_row, cell_col by lia.
    destruct Fh as [Hh _]. rewrite !Nat.mod_mod by lia. rewrite <- V1; [now rewrite pos_at by lia|].
    rewrite HN. nia.
Qed.

Lemma cfa_new_inv pat c : cfa_new pat = Ok c -> pat <> [] ->
  exists w h, cfa_dims (length pat) = Ok (w, h) /\ 0 < w /\ (forall ch, In ch pat -> exists v, color_of ch = Ok v).
Proof.
  intros E HN. unfold cfa_new in E. destruct (cfa_dims (length pat)) as [[w h]| |] eqn:HD; try discriminate. cbn [bind] in E.
  exists w, h. split; auto. assert (Hw : 0 < w).
  { revert HD. unfold cfa_dims. destruct pat; [easy|]. cbn [length].
    destruct (Nat.eqb_spec (S (length pat)) 0); [lia|].
    repeat match goal with |- context [if ?b then _ else _] => destruct b end; try discriminate;
      intros [= <- <-]; lia. }
  split; auto. destruct (Nat.ltb_spec 0 w); [|lia].
  destruct (for_each (seq 0 (length pat)) _ _) as [p1| |] eqn:E1; try discriminate. clear E.
  intros ch Hin. destruct (In_nth _ _ 0%Z Hin) as (i & Hi & Ei).
  revert E1. generalize (repeat 0%Z (48 * 48)). intros p0 E1.
  replace (length pat) with (i + S (length pat - i - 1)) in E1 by lia. rewrite seq_app, for_each_app in E1.
  destruct (for_each (seq 0 i) _ p0); try discriminate. cbn [bind seq for_each] in E1.
  change (0 + i) with i in E1. rewrite (get_ok pat i 0%Z) in E1 by auto. cbn [bind] in E1. rewrite Ei in E1.
  destruct (color_of ch); try discriminate. eauto.
Qed.

Lemma cfa_new_wf pat c : cfa_new pat = Ok c -> pat <> [] -> wf c.
Proof.
  intros E HN. destruct (cfa_new_inv _ _ E HN) as (w & h & HD & Hw & HC).
  destruct (cfa_new_ok pat w h HD Hw HC) as (c' & E' & _ & _ & _ & W & _). congruence.
Qed.

(** ** Names *)

Definition canon (c : cfa) : list Z :=
  map (fun i => tag_char (nth (pos (c_w c) i) (c_pat c) 0%Z)) (seq 0 (c_h c * c_w c)).

Lemma char_of_tag v : color_ok v -> char_of v = Ok (tag_char v).
Proof.
  unfold color_ok, char_of, tag_char. intros.
  repeat match goal with |- context [(?a =? ?b)%Z] => destruct (Z.eqb_spec a b); auto end. lia.
Qed.
Lemma color_of_tag v : color_ok v -> color_of (tag_char v) = Ok v.
Proof.
  unfold color_ok, tag_char. intros.
  repeat match goal with |- context [(?a =? ?b)%Z] => destruct (Z.eqb_spec a b); [subst; reflexivity|] end. lia.
Qed.

Lemma map_seq_S {B} (f : nat -> B) n : map f (seq 0 (S n)) = map f (seq 0 n) ++ [f n].
Proof. now rewrite seq_S, map_app. Qed.

Lemma cfa_shift_ok c x y : wf c ->
  exists c', cfa_shift c x y = Ok c' /\ wf c' /\ c_w c' = c_w c /\ c_h c' = c_h c /\ c_name c' = canon c' /\
    forall r q, color_at c' r q = color_at c (r + y) (q + x).
Proof.
  intros H. unfold cfa_shift.
  set (p := map (fun k => color_at c (k / 48 + y) (k mod 48 + x)) (seq 0 (48 * 48))).
  assert (HP : length p = 48 * 48) by (unfold p; now rewrite map_length, seq_length).
  assert (HV : forall k, k < 48 * 48 -> nth k p 0%Z = color_at c (k / 48 + y) (k mod 48 + x)).
  { intros k Hk. unfold p. now rewrite nth_map_seq. }
  pose proof (wf_w c H) as Fw. pose proof (wf_h c H) as Fh.
  assert (Hadd : forall w a b, fits w -> (a mod w + b) mod w = (a + b) mod w).
  { intros w a b [Hw _]. rewrite Nat.add_mod_idemp_l by lia. auto. }
  assert (Hcol : forall a b, color_at c a b = color_at c (a mod c_h c) (b mod c_w c)).
  { intros a b. rewrite !color_at_wf by auto. destruct Fw, Fh. now rewrite !Nat.mod_mod by lia. }
  assert (HK : forall k, color_ok (nth k p 0%Z)).
  { intros k. destruct (Nat.ltb_spec k (48 * 48)); [rewrite HV by auto; unfold color_at; apply H|].
    rewrite nth_overflow by lia. unfold color_ok. lia. }
  set (c' := mk_cfa (canon (mk_cfa [] (c_w c) (c_h c) p)) (c_w c) (c_h c) p).
  assert (W : wf c').
  { constructor; unfold c'; cbn [c_w c_h c_pat c_name]; auto; try apply H.
    intros k Hk. pose proof (src_le (c_w c) (c_h c) k Fw Fh). rewrite !HV by lia.
    rewrite src_row, src_col by auto. rewrite Hcol, (Hcol ((k / 48) mod c_h c + y)). rewrite !Hadd by auto. reflexivity. }
  exists c'. split; [|split; [exact W|repeat split]].
  - destruct (for_each_seq_inv (fun i n => do v <- get p (48 * (i / c_w c) + i mod c_w c); do ch <- char_of v; Ok (n ++ [ch]))
      (fun i n => n = map (fun i => tag_char (nth (pos (c_w c) i) p 0%Z)) (seq 0 i)) 0 (c_h c * c_w c) []) as (n & E & En).
    + reflexivity.
    + intros i s Hi ->. assert (pos (c_w c) i < 48 * 48) by (apply (pos_lt _ (c_h c)); auto; lia).
      rewrite (get_ok p _ 0%Z) by (rewrite HP; auto). cbn [bind]. rewrite char_of_tag by apply HK. cbn [bind].
      eexists. split; [reflexivity|]. now rewrite map_seq_S.
    + rewrite E. cbn [bind]. rewrite En. reflexivity.
  - intros r q. unfold color_at at 1. unfold c'. cbn [c_pat]. rewrite HV by (apply cell_lt; apply col_lt).
    rewrite cell_row, cell_col by apply col_lt. rewrite Hcol, (Hcol (r + y)).
    rewrite <- (Hadd (c_h c) r) by auto. rewrite <- (Hadd (c_w c) q) by auto.
    rewrite <- (fits_add48 (c_h c) r), <- (fits_add48 (c_w c) q) by auto. rewrite !Hadd by auto. reflexivity.
Qed.

Lemma canon_ext c c' : wf c -> wf c' -> c_w c = c_w c' -> c_h c = c_h c' ->
  (forall r q, color_at c r q = color_at c' r q) -> canon c = canon c'.
Proof.
  intros H H' Ew Eh HC. unfold canon. rewrite <- Ew, <- Eh. apply map_ext_in. intros i Hi. apply in_seq in Hi.
  assert (pos (c_w c) i < 48 * 48) by (apply (pos_lt _ (c_h c)); [apply H|apply H|lia]).
  rewrite !cell_color by auto. now rewrite HC.
Qed.

Lemma shift_unique c x y c1 c2 d1 d2 : wf c1 -> wf c2 -> c_w c1 = c_w c2 -> c_h c1 = c_h c2 ->
  cfa_shift c1 (fst d1) (snd d1) = Ok c ->
  (forall r q, color_at c1 (r + snd d1) (q + fst d1) = color_at c2 (r + snd d2) (q + fst d2)) ->
  d2 = (x, y) -> cfa_shift c2 x y = Ok c.
Proof.
  intros W1 W2 Ew Eh E HC ->. destruct (cfa_shift_ok c1 (fst d1) (snd d1) W1) as (c' & E' & W' & Hw & Hh & Hn & HV).
  rewrite E in E'. injection E' as <-.
  destruct (cfa_shift_ok c2 x y W2) as (c2' & E2 & W2' & Hw2 & Hh2 & Hn2 & HV2). rewrite E2. f_equal.
  assert (HCC : forall r q, color_at c2' r q = color_at c r q) by (intros; rewrite HV2, HV; symmetry; apply HC).
  apply wf_ext; auto; try congruence. rewrite Hn, Hn2. apply canon_ext; auto; congruence.
Qed.

Lemma shift_shift c x1 y1 x2 y2 : wf c ->
  (do s <- cfa_shift c x1 y1; cfa_shift s x2 y2) = cfa_shift c (x1 + x2) (y1 + y2).
Proof.
  intros W. destruct (cfa_shift_ok c x1 y1 W) as (s & E & Ws & Hw & Hh & Hn & HV). rewrite E. cbn [bind].
  destruct (cfa_shift_ok s x2 y2 Ws) as (t & Et & Wt & Hwt & Hht & Hnt & HVt). rewrite Et. symmetry.
  apply (shift_unique t _ _ s c (x2, y2) (x1 + x2, y1 + y2)); auto. cbn [fst snd].
  intros r q. rewrite HV. f_equal; lia.
Qed.

Lemma color_at_period c r q i j : wf c -> color_at c (r + i * c_h c) (q + j * c_w c) = color_at c r q.
Proof.
  intros W. rewrite !color_at_wf by auto. destruct (wf_w c W), (wf_h c W). now rewrite !Nat.mod_add by lia.
Qed.

Lemma shift_period c x y i j : wf c -> cfa_shift c (x + j * c_w c) (y + i * c_h c) = cfa_shift c x y.
Proof.
  intros W. destruct (cfa_shift_ok c x y W) as (s & E & _). rewrite E.
  apply (shift_unique s _ _ c c (x, y) (x + j * c_w c, y + i * c_h c)); auto. cbn [fst snd]. intros r q.
  rewrite !Nat.add_assoc. now rewrite color_at_period.
Qed.

Lemma shift_zero c : wf c -> c_name c = canon c -> cfa_shift c 0 0 = Ok c.
Proof.
  intros W Hn. destruct (cfa_shift_ok c 0 0 W) as (s & E & Ws & Hw & Hh & Hns & HV). rewrite E. f_equal.
  assert (forall r q, color_at s r q = color_at c r q) by (intros; rewrite HV; f_equal; lia).
  apply wf_ext; auto. rewrite Hn, Hns. now apply canon_ext.
Qed.

(** name of an array made from a string without 'E' *)
Lemma canon_new pat c : cfa_new pat = Ok c -> pat <> [] -> ~ In 69%Z pat -> c_name c = canon c.
Proof.
  intros E HN HE. destruct (cfa_new_inv _ _ E HN) as (w & h & HD & Hw & HC).
  destruct (cfa_new_ok pat w h HD Hw HC) as (c' & E' & En & Ew & Eh & W & HV). rewrite E in E'. injection E' as <-.
  destruct (dims_cases _ _ _ HD Hw) as (HL & Fw & Fh).
  rewrite En. unfold canon. rewrite Ew, Eh, <- HL. rewrite (list_as_map_seq pat 0%Z) at 1. apply map_ext_in.
  intros i Hi. apply in_seq in Hi. assert (Hp : pos w i < 48 * 48) by (apply (pos_lt w h); auto; lia).
  rewrite cell_color by auto. unfold pos. rewrite cell_row, cell_col by (apply fits_lt; auto).
  specialize (HV (i / w) (i mod w)). rewrite Nat.mod_mod in HV by lia. rewrite (Nat.mod_small (i / w)) in HV.
  2:{ apply Nat.div_lt_upper_bound; [lia|]. rewrite Nat.mul_comm. lia. }
  rewrite Nat.mul_comm, <- Nat.div_mod in HV by lia.
  assert (HI : nth i pat 0%Z <> 69%Z) by (intros X; apply HE; rewrite <- X; apply nth_In; lia).
  revert HV HI. generalize (color_at c (i / w) (i mod w)) (nth i pat 0%Z). clear. intros v ch. unfold color_of.
  intros E HI. repeat match type of E with context [(?a =? ?b)%Z] => destruct (Z.eqb_spec a b); [subst; try easy; injection E as ->; reflexivity|] end. discriminate.
Qed.

(** ** Tag values *)

Lemma flat_pattern_map c : 0 < c_w c ->
  flat_pattern c = map (fun i => nth (pos (c_w c) i) (c_pat c) 0%Z) (seq 0 (c_h c * c_w c)).
Proof.
  intros Hw. unfold flat_pattern. set (f := fun r => map (fun q => nth (48 * r + q) (c_pat c) 0%Z) (seq 0 (c_w c))).
  assert (HF : forall i, i < c_h c -> length (f i) = c_w c) by (intros; unfold f; now rewrite map_length, seq_length).
  apply nth_ext_len with (d := 0%Z).
  - rewrite (flat_map_seq_length f _ (c_w c)) by auto. now rewrite map_length, seq_length.
  - rewrite (flat_map_seq_length f _ (c_w c)) by auto. intros k Hk. rewrite nth_map_seq by auto.
    rewrite (Nat.div_mod k (c_w c)) at 1 by lia. pose proof (Nat.mod_upper_bound k (c_w c) ltac:(lia)).
    assert (k / c_w c < c_h c) by (apply Nat.div_lt_upper_bound; [lia|rewrite Nat.mul_comm; auto]).
    rewrite (Nat.mul_comm (c_w c)). rewrite (flat_map_seq_nth f _ (c_w c)) by auto. unfold f. rewrite nth_map_seq by auto.
    reflexivity.
Qed.

Lemma from_tag_ok c : wf c -> exists c', cfa_from_tag (flat_pattern c) = Ok c' /\ wf c' /\ c_w c' = c_w c /\ c_h c' = c_h c /\
  c_name c' = canon c' /\ forall r q, color_at c' r q = color_at c r q.
Proof.
  intros W. destruct (wf_w c W) as [Hw _]. unfold cfa_from_tag.
  assert (EM : map tag_char (flat_pattern c) = canon c) by (rewrite flat_pattern_map, map_map by auto; reflexivity).
  rewrite EM. assert (HL : length (canon c) = c_h c * c_w c) by (unfold canon; now rewrite map_length, seq_length).
  assert (HC : forall ch, In ch (canon c) -> exists v, color_of ch = Ok v).
  { intros ch Hin. unfold canon in Hin. apply in_map_iff in Hin. destruct Hin as (i & <- & _). eexists. apply color_of_tag, W. }
  assert (HD : cfa_dims (length (canon c)) = Ok (c_w c, c_h c)) by (rewrite HL; apply W).
  destruct (cfa_new_ok (canon c) _ _ HD Hw HC) as (c' & E & En & Ew & Eh & W' & HV).
  exists c'. split; auto. split; auto. split; auto. split; auto.
  assert (HVV : forall r q, color_at c' r q = color_at c r q).
  { intros r q. assert (X : Ok (color_at c' r q) = Ok (color_at c r q)); [|now injection X].
    rewrite HV. pose proof (Nat.mod_upper_bound r (c_h c) ltac:(destruct (wf_h c W); lia)).
    pose proof (Nat.mod_upper_bound q (c_w c) ltac:(lia)).
    assert (r mod c_h c * c_w c + q mod c_w c < c_h c * c_w c) by nia.
    unfold canon. rewrite nth_map_seq by auto. rewrite pos_at by auto. rewrite color_of_tag by apply W.
    now rewrite color_at_wf. }
  split; auto. rewrite En. now apply canon_ext.
Qed.

Lemma write_read c ax ay : wf c -> (2 * ax) mod c_w c = 0 -> (2 * ay) mod c_h c = 0 ->
  exists tag c', cfa_write c ax ay = Ok tag /\ cfa_read tag (Some (ax, ay)) = Ok c' /\
    c_w c' = c_w c /\ c_h c' = c_h c /\ forall r q, color_at c' r q = color_at c r q.
Proof.
  intros W Hx Hy. unfold cfa_write.
  assert (HV : cfa_valid c = true).
  { unfold cfa_valid. destruct (wf_w c W), (wf_h c W). destruct (Nat.eqb_spec (c_w c) 0), (Nat.eqb_spec (c_h c) 0); auto; lia. }
  rewrite HV. cbn [assert_ bind].
  destruct (cfa_shift_ok c ax ay W) as (s & Es & Ws & Hws & Hhs & Hns & HCs). rewrite Es. cbn [bind].
  destruct (from_tag_ok s Ws) as (t & Et & Wt & Hwt & Hht & Hnt & HCt).
  exists (flat_pattern s). unfold cfa_read. rewrite Et. cbn [bind].
  assert (HVt : cfa_valid t = true).
  { unfold cfa_valid. destruct (wf_w t Wt), (wf_h t Wt). destruct (Nat.eqb_spec (c_w t) 0), (Nat.eqb_spec (c_h t) 0); auto; lia. }
  rewrite HVt. cbn [assert_ bind].
  destruct (cfa_shift_ok t (ax mod c_w t) (ay mod c_h t) Wt) as (u & Eu & Wu & Hwu & Hhu & Hnu & HCu).
  exists u. repeat split; auto; try congruence. intros r q. rewrite HCu, HCt, HCs.
  rewrite Hwt, Hht, Hws, Hhs. rewrite !color_at_wf by auto.
  destruct (wf_w c W) as [Hw _], (wf_h c W) as [Hh _].
  assert (M : forall a b n, 0 < n -> (2 * b) mod n = 0 -> (a + b mod n + b) mod n = a mod n).
  { clear. intros a b n Hn Hb. replace (a + b mod n + b) with (b mod n + (a + b)) by lia. rewrite Nat.add_mod_idemp_l by lia.
    replace (b + (a + b)) with (a + 2 * b) by lia. rewrite <- Nat.add_mod_idemp_r by lia. rewrite Hb. now rewrite Nat.add_0_r. }
  now rewrite !M by auto.
Qed.

(** ** map_colors *)

Lemma map_colors_ok f c : wf c -> (forall r q v, f r q (f r q v) = f r q v) ->
  exists c', map_colors f c = Ok c' /\ forall r q, color_at c' r q = f (r mod c_h c) (q mod c_w c) (color_at c r q).
Proof.
  intros W HI. pose proof (wf_w c W) as Fw. pose proof (wf_h c W) as Fh.
  destruct (inplace (c_w c) (c_h c) (fun k v => f ((k / 48) mod c_h c) ((k mod 48) mod c_w c) v) (c_pat c) Fw Fh (wf_len c W))
    as (p & E & L & V).
  unfold map_colors. unfold src in E at 1. rewrite E. cbn [bind]. eexists. split; [reflexivity|].
  intros r q. unfold color_at at 1. cbn [c_pat]. rewrite V by (apply cell_lt; apply col_lt).
  set (k := 48 * ((r + 48) mod 48) + (q + 48) mod 48).
  assert (Hr : (k / 48) mod c_h c = r mod c_h c) by (unfold k; rewrite cell_row by apply col_lt; now apply fits_add48).
  assert (Hq : (k mod 48) mod c_w c = q mod c_w c) by (unfold k; rewrite cell_col by apply col_lt; now apply fits_add48).
  rewrite src_row, src_col by auto. rewrite Hr, Hq. destruct Fw, Fh. rewrite !Nat.mod_mod by lia.
  destruct (src (c_w c) (c_h c) k =? k); [reflexivity|]. rewrite HI. f_equal.
  symmetry. rewrite color_at_wf by auto. unfold src. now rewrite Hr, Hq.
Qed.

(** ** First position of a colour, plane table *)

Lemma find_index_ok c v ks : (exists k, In k ks /\ color_at c (k / c_w c) (k mod c_w c) = v) ->
  exists i, find_index c v ks = Ok i /\ In i ks /\ color_at c (i / c_w c) (i mod c_w c) = v.
Proof.
  induction ks as [|k ks IH]; intros (j & Hj & Ej); [easy|]. cbn [find_index].
  destruct (Z.eqb_spec (color_at c (k / c_w c) (k mod c_w c)) v) as [E|E].
  - exists k. repeat split; auto. now left.
  - destruct Hj as [->|Hj]; [easy|]. destruct IH as (i & Hi & Hin & HE); eauto. exists i. repeat split; auto. now right.
Qed.
Lemma find_index_first c v n a i : find_index c v (seq a n) = Ok i ->
  (a <= i < a + n)%nat /\ color_at c (i / c_w c) (i mod c_w c) = v /\
  forall j, a <= j < i -> color_at c (j / c_w c) (j mod c_w c) <> v.
Proof.
  revert a. induction n as [|n IH]; intros a; [discriminate|]. cbn [seq find_index].
  destruct (Z.eqb_spec (color_at c (a / c_w c) (a mod c_w c)) v) as [E|E].
  - intros [= <-]. repeat split; auto; lia.
  - intros H. destruct (IH _ H) as (Hi & HE & HF). repeat split; auto; try lia.
    intros j Hj. destruct (Nat.eq_dec j a) as [->|]; auto. apply HF. lia.
Qed.

Lemma plane_table_ok colors : Forall (fun c => c < 256) colors -> NoDup colors ->
  exists t, plane_table colors = Ok t /\ length t = 256 /\
    (forall p, p < length colors -> nth (nth p colors 0) t 0%Z = Z.of_nat p) /\
    (forall c, c < 256 -> ~ In c colors -> nth c t 0%Z = 255%Z).
Proof.
  intros HF HN. unfold plane_table.
  destruct (for_each_seq_inv (fun p t => do c <- get colors p; put t c (Z.of_nat p))
    (fun i t => length t = 256 /\ (forall p, p < i -> nth (nth p colors 0) t 0%Z = Z.of_nat p) /\
      (forall c, c < 256 -> ~ In c colors -> nth c t 0%Z = 255%Z)) 0 (length colors) (repeat 255%Z 256)) as (t & E & H).
  - split; [apply repeat_length|]. split; [intros p Hp; inversion Hp|]. intros c Hc _. now apply nth_repeat_lt.
  - intros i t Hi (HL & HV & HO). rewrite (get_ok colors i 0) by lia. cbn [bind].
    assert (nth i colors 0 < 256) by (rewrite Forall_forall in HF; apply HF, nth_In; lia).
    rewrite put_ok by lia. eexists. split; [reflexivity|]. split; [now rewrite upd_list_length|]. split.
    + intros p Hp. destruct (Nat.eq_dec p i) as [->|Hne]; [rewrite nth_upd_eq by lia; auto|].
      rewrite nth_upd_neq; [apply HV; lia|]. intros X. apply Hne. symmetry. apply (proj1 (NoDup_nth colors 0) HN); auto; lia.
    + intros c Hc Hn. rewrite nth_upd_neq; auto. intros <-. apply Hn, nth_In. lia.
  - exists t. split; auto.
Qed.

(** ** Black levels *)

Lemma blit_ok {A} (l : list A) a v : a + length v <= length l -> exists l', blit l a v = Ok l' /\ length l' = length l /\
  forall i d, nth i l' d = if (a <=? i) && (i <? a + length v) then nth (i - a) v d else nth i l d.
Proof.
  intros H. unfold blit. destruct (Nat.leb_spec (a + length v) (length l)); [|lia]. eexists. split; [reflexivity|].
  assert (LF : length (firstn a l) = a) by (rewrite firstn_length; lia). split.
  - rewrite !app_length, LF, skipn_length. lia.
  - intros i d. destruct (Nat.leb_spec a i); cbn [andb].
    + rewrite app_nth2 by lia. rewrite LF. destruct (Nat.ltb_spec i (a + length v)).
      * now rewrite app_nth1 by lia.
      * rewrite app_nth2 by lia. rewrite nth_skipn. f_equal. lia.
    + rewrite app_nth1 by lia. now rewrite nth_firstn.
Qed.

Definition black_wf {A} (b : black A) : Prop :=
  0 < b_w b /\ 0 < b_h b /\ 0 < b_cpp b /\ length (b_levels b) = b_w b * b_h b * b_cpp b.

Lemma idx_split w cpp k ch : 0 < w -> (k / w) * w * cpp + (k mod w) * cpp + ch = k * cpp + ch.
Proof. intros. rewrite (Nat.div_mod k w) at 3 by lia. nia. Qed.

Lemma black_shift_ok {A} (b : black A) x y : black_wf b ->
  exists b', black_shift b x y = Ok b' /\ black_wf b' /\ b_w b' = b_w b /\ b_h b' = b_h b /\ b_cpp b' = b_cpp b /\
    forall row col ch d, ch < b_cpp b -> black_at b' row col ch d = black_at b (row + y) (col + x) ch d.
Proof.
  intros (Hw & Hh & Hc & HL). unfold black_shift.
  destruct (Nat.eqb_spec (b_cpp b * b_w b * b_h b) 1) as [E1|E1].
  - exists b. split; auto. split; [repeat split; auto|]. split; auto. split; auto. split; auto.
    intros row col ch d Hch. unfold black_at.
    assert (b_cpp b = 1 /\ b_w b = 1 /\ b_h b = 1) as (-> & -> & ->).
    { clear -E1. destruct (b_cpp b) as [|[|?]], (b_w b) as [|[|?]], (b_h b) as [|[|?]]; cbn in E1; nia. }
    now rewrite !Nat.mod_1_r.
  - set (w := b_w b) in *. set (h := b_h b) in *. set (cpp := b_cpp b) in *. cbv zeta.
    assert (HI : forall r q, r < h -> q < w -> r * w * cpp + q * cpp + cpp <= w * h * cpp).
    { intros r q Hr Hq. assert (r * w + q + 1 <= w * h) by nia. nia. }
    match goal with |- context [for_each _ ?f _] => set (body := f) end.
    destruct (for_each_seq_inv body
      (fun i t => length t = w * h * cpp /\ forall k ch d, k < i -> ch < cpp ->
         nth (k * cpp + ch) t d =
         nth (((k / w + y) mod h) * w * cpp + ((k mod w + x) mod w) * cpp + ch) (b_levels b) d)
      0 (h * w) (b_levels b)) as (t & E & LT & VT).
    + split; auto. intros k ch d Hk. inversion Hk.
    + intros i t Hi (LT & VT). unfold body. cbv zeta.
      pose proof (Nat.mod_upper_bound (i / w + y) h ltac:(lia)) as Hr.
      pose proof (Nat.mod_upper_bound (i mod w + x) w ltac:(lia)) as Hq.
      set (ys := (i / w + y) mod h) in *. set (xs := (i mod w + x) mod w) in *.
      pose proof (HI ys xs Hr Hq) as HB.
      rewrite slice_ok by lia. cbn [bind].
      replace (i / w * w * cpp + i mod w * cpp) with (i * cpp) by (pose proof (idx_split w cpp i 0 Hw) as X; rewrite !Nat.add_0_r in X; auto).
      match goal with |- context [blit t _ ?vv] => set (v := vv) end.
      assert (LV : length v = cpp) by (unfold v; rewrite firstn_length, skipn_length; lia).
      assert (HF : i * cpp + cpp <= w * h * cpp) by (clear -Hi; nia).
      destruct (blit_ok t (i * cpp) v) as (t' & Et & Lt' & Vt); [lia|].
      exists t'. split; [exact Et|]. split; [lia|]. intros k ch d Hk Hch. rewrite Vt, LV.
      destruct (Nat.eq_dec k i) as [->|Hne].
      * destruct (Nat.leb_spec (i * cpp) (i * cpp + ch)), (Nat.ltb_spec (i * cpp + ch) (i * cpp + cpp)); cbn [andb]; try lia.
        unfold v. rewrite nth_firstn by lia. rewrite nth_skipn. f_equal. unfold ys, xs. lia.
      * assert (k * cpp + ch < i * cpp) by (clear -Hk Hne Hch; nia).
        destruct (Nat.leb_spec (i * cpp) (k * cpp + ch)); [lia|]. cbn [andb]. apply VT; lia.
    + rewrite E. cbn [bind]. eexists. split; [reflexivity|]. cbn [b_levels b_w b_h b_cpp]. repeat split; auto.
      intros row col ch d Hch. unfold black_at. cbn [b_levels b_w b_h b_cpp]. fold w h cpp.
      pose proof (Nat.mod_upper_bound row h ltac:(lia)) as Hr. pose proof (Nat.mod_upper_bound col w ltac:(lia)) as Hq.
      replace (row mod h * w * cpp + col mod w * cpp + ch) with ((row mod h * w + col mod w) * cpp + ch) by (clear; nia).
      rewrite VT; [|clear -Hr Hq; nia|auto].
      rewrite Nat.div_add_l by lia. rewrite (Nat.div_small (col mod w)) by auto.
      rewrite (Nat.add_comm (row mod h * w)), Nat.mod_add by lia. rewrite Nat.mod_mod by lia.
      rewrite Nat.add_0_r. rewrite !Nat.add_mod_idemp_l by lia. reflexivity.
Qed.

Lemma black_ext {A} (b b' : black A) : black_wf b -> black_wf b' -> b_w b = b_w b' -> b_h b = b_h b' -> b_cpp b = b_cpp b' ->
  (forall row col ch d, ch < b_cpp b -> black_at b row col ch d = black_at b' row col ch d) -> b = b'.
Proof.
  intros (Hw & Hh & Hc & HL) (_ & _ & _ & HL') Ew Eh Ec HV.
  assert (b_levels b = b_levels b').
  { destruct (b_levels b) as [|d0 l0] eqn:El.
    - cbn in HL. destruct (b_levels b'); auto. cbn in HL'. rewrite <- Ew, <- Eh, <- Ec in HL'. lia.
    - rewrite <- El in *. apply nth_ext_len with (d := d0); [rewrite HL, HL', Ew, Eh, Ec; auto|]. intros i Hi.
      rewrite HL in Hi.
      set (k := i / b_cpp b). set (ch := i mod b_cpp b).
      assert (Hch : ch < b_cpp b) by (apply Nat.mod_upper_bound; lia).
      assert (Ei : i = k * b_cpp b + ch) by (unfold k, ch; rewrite Nat.mul_comm; apply Nat.div_mod; lia).
      assert (Hk : k < b_h b * b_w b).
      { apply Nat.div_lt_upper_bound; [lia|]. rewrite (Nat.mul_comm (b_cpp b)), (Nat.mul_comm (b_h b)). auto. }
      specialize (HV (k / b_w b) (k mod b_w b) ch d0 Hch). unfold black_at in HV.
      rewrite <- Ew, <- Eh, <- Ec in HV. rewrite Nat.mod_mod in HV by lia.
      rewrite (Nat.mod_small (k / b_w b)) in HV.
      2:{ apply Nat.div_lt_upper_bound; [lia|]. now rewrite Nat.mul_comm. }
      rewrite !idx_split in HV by auto. now rewrite <- Ei in HV. }
  destruct b, b'; cbn in *; congruence.
Qed.

Lemma black_shift_shift {A} (b : black A) x1 y1 x2 y2 : black_wf b ->
  (do s <- black_shift b x1 y1; black_shift s x2 y2) = black_shift b (x1 + x2) (y1 + y2).
Proof.
  intros W. destruct (black_shift_ok b x1 y1 W) as (s & E & Ws & Hw & Hh & Hc & HV). rewrite E. cbn [bind].
  destruct (black_shift_ok s x2 y2 Ws) as (t & Et & Wt & Hwt & Hht & Hct & HVt). rewrite Et.
  destruct (black_shift_ok b (x1 + x2) (y1 + y2) W) as (u & Eu & Wu & Hwu & Hhu & Hcu & HVu). rewrite Eu. f_equal.
  apply black_ext; auto; try congruence. intros row col ch d Hch. rewrite HVt by congruence.
  rewrite HV by congruence. rewrite HVu by congruence. f_equal; lia.
Qed.

Lemma black_shift_aligned {A} (b : black A) x y : black_wf b -> x mod b_w b = 0 -> y mod b_h b = 0 -> black_shift b x y = Ok b.
Proof.
  intros W Hx Hy. destruct (black_shift_ok b x y W) as (s & E & Ws & Hw & Hh & Hc & HV). rewrite E. f_equal.
  apply black_ext; auto. intros row col ch d Hch. rewrite HV by congruence. unfold black_at.
  destruct W as (W1 & W2 & _).
  rewrite <- (Nat.add_mod_idemp_r row y) by lia. rewrite <- (Nat.add_mod_idemp_r col x) by lia. rewrite Hx, Hy.
  now rewrite !Nat.add_0_r.
Qed.

Lemma black_write_read {A} (b : black A) ax ay : black_wf b ->
  exists tag b', black_write b ax ay = Ok tag /\ black_read tag (b_cpp b) = Ok b' /\ black_shift b ax ay = Ok b'.
Proof.
  intros W. unfold black_write. destruct (black_shift_ok b ax ay W) as (s & E & Ws & Hw & Hh & Hc & HV). rewrite E. cbn [bind].
  eexists _, s. split; [reflexivity|]. split; auto. unfold black_read, black_new. cbn [fst snd].
  destruct Ws as (_ & _ & _ & HL). rewrite <- Hc, HL, Nat.eqb_refl. cbn [assert_ bind].
  destruct s; reflexivity.
Qed.
