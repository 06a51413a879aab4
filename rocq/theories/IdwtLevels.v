(** Invariants over the levels. *)
From Coq Require Import List ZArith Lia Bool.
From Verif Require Import Base BaseLemmas Crx CrxLL Idwt IdwtSpec IdwtRow IdwtProofs.
Import ListNotations.
Open Scope Z_scope.

Section Lev.
Variable B : Type.
Variable next : B -> res (list Z * B).
Variables left right : bool.
Let tile := mk_nbrs false false left right.
Local Notation decode := (filter_decode B next tile).
Local Notation transform := (filter_transform B tile).

Definition stat (w h : nat) (t : wt) : Prop :=
  t_h t = h /\ t_w t = w /\ length (t_l0 t) = w /\ length (t_l1 t) = w /\ length (t_l2 t) = w
  /\ wf w (t_ring t) /\ (t_tap t < 5)%nat.

Definition base (w h k : nat) (P : plane) (t : wt) : Prop :=
  (2 * k + 2 <= h)%nat /\ nth (t_tap t) (t_ring t) [] = line (P (Z.of_nat (2 * k))) 0 w
  /\ t_l2 t = line (rowH h P (Z.of_nat k)) 0 w.

Definition hl w h P nh := band_lines (fun n => colH left right w (rowL h P n)) (from_left left) nh ((h + 1) / 2).
Definition lh w h P nl := band_lines (fun n => colL left right w (rowH h P n)) 0 nl (h / 2).
Definition hh w h P nh := band_lines (fun n => colH left right w (rowH h P n)) (from_left left) nh (h / 2).
Local Notation coarse w h P := (coarser left right w h P).

Fixpoint Inv (lvs : list (nat * nat)) (w h : nat) (P : plane) (r : nat) (s : stk B) : Prop :=
  match lvs, s with
  | [], LL b => emits next b (skipn r (image P w h))
  | (nl, nh) :: lvs, Lev t b1 b2 b3 below =>
    stat w h t /\ (t_line t = r + t_cur t)%nat /\ (t_cur t <= 3)%nat
    /\ (forall j, (j < t_cur t)%nat -> nth ((t_tap t + 5 - t_cur t + j) mod 5) (t_ring t) [] = line (P (Z.of_nat (r + j))) 0 w)
    /\ (t_line t = h \/ exists k, t_line t = (2 * k)%nat /\ base w h k P t)
    /\ emits next b1 (skipn (t_line t / 2 + 1) (hl w h P nh))
    /\ emits next b2 (skipn (t_line t / 2 + 1) (lh w h P nl))
    /\ emits next b3 (skipn (t_line t / 2 + 1) (hh w h P nh))
    /\ Inv lvs nl ((h + 1) / 2) (coarse w h P) (Nat.min (t_line t / 2 + 1) ((h + 1) / 2)) below
  | _, _ => False
  end.

Fixpoint Loaded (lvs : list (nat * nat)) (w h : nat) (P : plane) (r : nat) (s : stk B) : Prop :=
  match lvs, s with
  | (nl, nh) :: lvs', Lev t b1 b2 b3 below =>
    (Inv lvs w h P r s /\ (0 < t_cur t \/ t_line t + 2 = h /\ t_cur t = 0)%nat)
    \/ (stat w h t /\ t_cur t = 0%nat /\ t_line t = r /\
        exists k, r = (2 * k)%nat /\ (2 * k + 2 < h)%nat /\ base w h k P t
        /\ t_b1 t = line (colH left right w (rowL h P (Z.of_nat (k + 1)))) (from_left left) nh
        /\ ((2 * k + 3 < h)%nat -> t_b2 t = line (colL left right w (rowH h P (Z.of_nat (k + 1)))) 0 nl
                                /\ t_b3 t = line (colH left right w (rowH h P (Z.of_nat (k + 1)))) (from_left left) nh)
        /\ emits next b1 (skipn (k + 2) (hl w h P nh))
        /\ emits next b2 (skipn (k + 2) (lh w h P nl))
        /\ emits next b3 (skipn (k + 2) (hh w h P nh))
        /\ match lvs' with
           | [] => t_b0 t = line (coarse w h P (Z.of_nat (k + 1))) 0 nl
                   /\ Inv [] nl ((h + 1) / 2) (coarse w h P) (k + 2) below
           | _ => Loaded lvs' nl ((h + 1) / 2) (coarse w h P) (k + 1) below
           end)
  | _, _ => False
  end.

Lemma skipn_map_seq {A} (f : nat -> A) n k : (k < n)%nat ->
  skipn k (map f (seq 0 n)) = f k :: skipn (k + 1) (map f (seq 0 n)).
Proof.
  intros H. apply nth_ext_len with (d := f 0%nat).
  - cbn [length]. rewrite !skipn_length, !map_length, !seq_length. lia.
  - intros i Hi. rewrite skipn_length, map_length, seq_length in Hi.
    rewrite nth_skipn, nth_map_seq by lia. destruct i; cbn [nth]; [f_equal; lia|].
    rewrite nth_skipn, nth_map_seq by lia. f_equal. lia.
Qed.
Lemma emits_step b f o c n k : (k < n)%nat -> emits next b (skipn k (band_lines f o c n)) ->
  exists b', next b = Ok (line (f (Z.of_nat k)) o c, b') /\ emits next b' (skipn (k + 1) (band_lines f o c n)).
Proof.
  intros H E. unfold band_lines in E. rewrite skipn_map_seq in E by auto. exact E.
Qed.
Lemma emits_none b f o c n k : (n <= k)%nat -> emits next b (skipn k (band_lines f o c n)).
Proof.
  intros H. unfold band_lines. rewrite skipn_all2 by (rewrite map_length, seq_length; auto). exact I.
Qed.
Lemma image_lines P w h : image P w h = band_lines P 0 w h.
Proof. reflexivity. Qed.

Lemma div2 k : ((2 * k) / 2 = k)%nat.
Proof. rewrite Nat.mul_comm. apply Nat.div_mul. lia. Qed.
Lemma half_up k h : (2 * k < h)%nat -> (k + 1 <= (h + 1) / 2)%nat.
Proof. intros. apply Nat.div_le_lower_bound; lia. Qed.
Lemma half_lt k h : (2 * k + 2 < h)%nat -> (k + 1 < (h + 1) / 2)%nat.
Proof. intros. pose proof (Nat.div_le_lower_bound (h + 1) 2 (k + 2)). lia. Qed.
Lemma half_down k h : (2 * k + 3 < h)%nat -> (k + 1 < h / 2)%nat.
Proof. intros. pose proof (Nat.div_le_lower_bound h 2 (k + 2)). lia. Qed.
Lemma half_odd k h : h = (2 * k + 3)%nat -> (h / 2 = k + 1 /\ (h + 1) / 2 = k + 2)%nat.
Proof.
  intros ->. split.
  - replace (2 * k + 3)%nat with (1 + (k + 1) * 2)%nat by lia. rewrite Nat.div_add by lia. reflexivity.
  - replace (2 * k + 3 + 1)%nat with ((k + 2) * 2)%nat by lia. apply Nat.div_mul. lia.
Qed.
Lemma odd_3 k : Nat.odd (2 * k + 3) = true.
Proof. apply Nat.odd_spec. exists (k + 1)%nat. lia. Qed.
Lemma odd_2 k : Nat.odd (2 * k + 2) = false.
Proof. rewrite <- Nat.negb_even. apply negb_false_iff, Nat.even_spec. exists (k + 1)%nat. lia. Qed.

(** ** filter_decode *)
Lemma decode_ok lvs : forall w h P r s, lvs <> [] -> fits left right lvs w h -> (r < h)%nat -> Inv lvs w h P r s ->
  exists s', decode s = Ok s' /\ Loaded lvs w h P r s'.
Proof.
  induction lvs as [|[nl nh] lvs IH]; intros w h P r s Hne F Hr I; [congruence|].
  destruct s as [b|t b1 b2 b3 below]; [contradiction|].
  assert (I0 := I). cbn [Inv] in I. destruct I as (St & Hl & Hc & Hp & Hb & E1 & E2 & E3 & Ib).
  cbn [filter_decode]. cbn [fits] in F. destruct F as (Fw & Fh & Fl & Fhh & F).
  destruct (Nat.ltb_spec 0 (t_cur t)).
  { eexists. split; [reflexivity|]. cbn [Loaded]. left. split; [exact I0|]. left. auto. }
  assert (C0 : t_cur t = 0%nat) by lia. rewrite C0, Nat.add_0_r in Hl.
  destruct St as (Th & Tw & L0 & L1 & L2 & W & Tp). rewrite Th.
  destruct Hb as [Hb|(k & Ek & Bk)]; [lia|]. rewrite Ek, div2 in E1, E2, E3, Ib.
  rewrite usub_ok by lia. cbn [bind]. cbn [n_bottom tile negb]. rewrite andb_true_r.
  assert (Bh := Bk). destruct Bh as (Bh & _ & _).
  assert (E0 : t_line t = r) by lia.
  destruct (Nat.eq_dec (2 * k + 2) h) as [Ee|Ne].
  { destruct (Nat.leb_spec (h - 3) (t_line t)); [|lia].
    replace (Nat.odd h) with false by (rewrite <- Ee; symmetry; apply odd_2).
    eexists. split; [reflexivity|]. cbn [Loaded]. left. split; [exact I0|]. right. lia. }
  assert (Hk1 := half_up k h ltac:(lia)). rewrite Nat.min_l in Ib by lia.
  assert (Hk2 := half_lt k h ltac:(lia)).
  (* what the lower level does *)
  set (load0 := match below with LL b => _ | _ => _ end).
  assert (Load : exists t' below', load0 = Ok (t', below') /\
    match lvs with
    | [] => t' = set_b0 (line (coarse w h P (Z.of_nat (k + 1))) 0 nl) t
            /\ Inv [] nl ((h + 1) / 2) (coarse w h P) (k + 2) below'
    | _ => t' = t /\ Loaded lvs nl ((h + 1) / 2) (coarse w h P) (k + 1) below'
    end).
  { unfold load0. destruct lvs as [|lv lvs].
    - destruct below as [b|]; [|contradiction]. cbn [Inv] in Ib. rewrite image_lines in Ib.
      destruct (emits_step b _ _ _ _ (k + 1) Hk2 Ib) as (b' & -> & Eb). cbn [bind].
      eexists _, _. split; [reflexivity|]. split; [reflexivity|]. cbn [Inv]. rewrite image_lines.
      replace (k + 2)%nat with (k + 1 + 1)%nat by lia. exact Eb.
    - destruct below as [b|t' c1 c2 c3 below']; [destruct lv; contradiction|].
      destruct (IH nl ((h + 1) / 2)%nat (coarse w h P) (k + 1)%nat _ ltac:(discriminate) F ltac:(lia) Ib) as (s' & -> & Ls).
      cbn [bind]. eexists _, _. split; [reflexivity|]. split; [reflexivity|]. exact Ls. }
  clear IH. clearbody load0. destruct Load as (t' & below' & -> & Load). cbn [bind].
  assert (St' : stat w h t /\ base w h k P t) by (split; [repeat split; auto; apply W|exact Bk]). destruct St' as [St' _].
  destruct (emits_step b1 _ _ _ _ (k + 1) Hk2 E1) as (b1' & N1 & E1').
  replace (k + 1 + 1)%nat with (k + 2)%nat in E1' by lia.
  destruct (Nat.eq_dec (2 * k + 3) h) as [Eo|No].
  - destruct (Nat.leb_spec (h - 3) (t_line t)); [|lia].
    replace (Nat.odd h) with true by (rewrite <- Eo; symmetry; apply odd_3).
    rewrite N1. cbn [bind]. eexists. split; [reflexivity|]. cbn [Loaded]. right.
    destruct (half_odd k h ltac:(lia)) as [Q1 Q2].
    destruct lvs as [|lv lvs]; destruct Load as [-> Load].
    + do 3 (split; [first [exact St'|exact C0|exact E0]|]). exists k.
      split; [lia|]. split; [lia|]. split; [exact Bk|]. split; [reflexivity|]. split; [intros; lia|].
      split; [exact E1'|]. split; [apply emits_none; lia|]. split; [apply emits_none; lia|]. split; [reflexivity|exact Load].
    + do 3 (split; [first [exact St'|exact C0|exact E0]|]). exists k.
      split; [lia|]. split; [lia|]. split; [exact Bk|]. split; [reflexivity|]. split; [intros; lia|].
      split; [exact E1'|]. split; [apply emits_none; lia|]. split; [apply emits_none; lia|]. exact Load.
  - destruct (Nat.leb_spec (h - 3) (t_line t)); [lia|].
    assert (Hk3 := half_down k h ltac:(lia)).
    destruct (emits_step b2 _ _ _ _ (k + 1) Hk3 E2) as (b2' & N2 & E2').
    destruct (emits_step b3 _ _ _ _ (k + 1) Hk3 E3) as (b3' & N3 & E3').
    replace (k + 1 + 1)%nat with (k + 2)%nat in E2', E3' by lia.
    rewrite N1. cbn [bind]. rewrite N2. cbn [bind]. rewrite N3. cbn [bind].
    eexists. split; [reflexivity|]. cbn [Loaded]. right.
    destruct lvs as [|lv lvs]; destruct Load as [-> Load].
    + do 3 (split; [first [exact St'|exact C0|exact E0]|]). exists k.
      split; [lia|]. split; [lia|]. split; [exact Bk|]. split; [reflexivity|]. split; [intros; split; reflexivity|].
      split; [exact E1'|]. split; [exact E2'|]. split; [exact E3'|]. split; [reflexivity|exact Load].
    + do 3 (split; [first [exact St'|exact C0|exact E0]|]). exists k.
      split; [lia|]. split; [lia|]. split; [exact Bk|]. split; [reflexivity|]. split; [intros; split; reflexivity|].
      split; [exact E1'|]. split; [exact E2'|]. split; [exact E3'|]. exact Load.
Qed.

(** ** getline *)
Lemma getline_ok lvs w h P r t b1 b2 b3 below : Inv lvs w h P r (Lev t b1 b2 b3 below) -> (0 < t_cur t)%nat ->
  exists t', getline t = Ok (line (P (Z.of_nat r)) 0 w, t') /\ Inv lvs w h P (r + 1) (Lev t' b1 b2 b3 below).
Proof.
  intros I Hc0. destruct lvs as [|[nl nh] lvs]; [contradiction|]. cbn [Inv] in I.
  destruct I as (St & Hl & Hc & Hp & Hb & E1 & E2 & E3 & Ib).
  destruct St as (Th & Tw & L0 & L1 & L2 & W & Tp).
  unfold getline. rewrite usub_ok by lia. cbn [bind].
  rewrite get_ok with (d := []) by (destruct W as [-> _]; apply Nat.mod_upper_bound; lia). cbn [bind].
  rewrite usub_ok by lia. cbn [bind].
  eexists. split.
  { pose proof (Hp 0%nat Hc0) as H0. rewrite !Nat.add_0_r in H0. rewrite H0. reflexivity. }
  cbn [Inv set_cur t_line t_cur t_tap t_ring t_h t_w t_l0 t_l1 t_l2].
  split; [repeat split; auto; apply W|]. split; [lia|]. split; [lia|].
  split.
  { intros j Hj. replace (t_tap t + 5 - (t_cur t - 1) + j)%nat with (t_tap t + 5 - t_cur t + (j + 1))%nat by lia.
    rewrite Hp by lia. do 3 f_equal; lia. }
  split; [exact Hb|]. repeat (split; [assumption|]). assumption.
Qed.

(** ** filter_transform *)
Lemma transform_idle t b1 b2 b3 below : (0 < t_cur t)%nat -> transform (Lev t b1 b2 b3 below) = Ok (Lev t b1 b2 b3 below).
Proof. intros. cbn [filter_transform]. destruct (Nat.ltb_spec 0 (t_cur t)); [reflexivity|lia]. Qed.

Lemma get_line0 f n i : (i < n)%nat -> get (line f 0 n) i = Ok (f (Z.of_nat i)).
Proof. intros. rewrite get_line by auto. now rewrite Z.add_0_l. Qed.
Lemma map_line f n : map (fun i => f (Z.of_nat i)) (seq 0 n) = line f 0 n.
Proof. unfold line. apply map_ext. intros. f_equal. Qed.

Lemma b0_eta t l : t_b0 t = l -> set_b0 l t = t.
Proof. intros <-. destruct t; reflexivity. Qed.

Lemma ring1 t : (t < 5)%nat -> ((t + 1) mod 5 < 5 /\ (t + 2) mod 5 < 5 /\ t <> (t + 1) mod 5 /\ t <> (t + 2) mod 5
  /\ (t + 1) mod 5 <> (t + 2) mod 5)%nat.
Proof. intros. do 5 (destruct t as [|t]; [cbn; lia|]). lia. Qed.
Lemma ring2 t : (t < 5)%nat -> (((t + 2) mod 5 + 5 - 2 + 0) mod 5 = t /\ ((t + 2) mod 5 + 5 - 2 + 1) mod 5 = (t + 1) mod 5)%nat.
Proof. intros. do 5 (destruct t as [|t]; [cbn; lia|]). lia. Qed.
Lemma ring3 t : (t < 5)%nat -> (((t + 3) mod 5 + 5 - 3 + 0) mod 5 = t /\ ((t + 3) mod 5 + 5 - 3 + 1) mod 5 = (t + 1) mod 5
  /\ ((t + 3) mod 5 + 5 - 3 + 2) mod 5 = (t + 2) mod 5)%nat.
Proof. intros. do 5 (destruct t as [|t]; [cbn; lia|]). lia. Qed.

Definition pending (s : stk B) : Prop := match s with Lev t _ _ _ _ => (0 < t_cur t)%nat | LL _ => False end.

Lemma transform_ok lvs : forall w h P C r s, lvs <> [] -> fits left right lvs w h -> (r < h)%nat ->
  0 <= C -> (forall i j, Z.abs (P i j) <= C) -> (C + 1) * 4 ^ Z.of_nat (length lvs) <= 2 ^ 28 ->
  Loaded lvs w h P r s -> exists s', transform s = Ok s' /\ Inv lvs w h P r s' /\ pending s'.
Proof.
  induction lvs as [|[nl nh] lvs IH]; intros w h P C r s Hne F Hr HC0 HP HC L; [congruence|].
  destruct s as [b|t b1 b2 b3 below]; [contradiction|].
  cbn [fits] in F. destruct F as (Fw & Fh & Fl & Fhh & F).
  cbn [length] in HC. rewrite Nat2Z.inj_succ, Z.pow_succ_r in HC by lia.
  assert (Hp4 : 0 < 4 ^ Z.of_nat (length lvs)) by (apply Z.pow_pos_nonneg; lia).
  assert (HC4 : (4 * C + 3 + 1) * 4 ^ Z.of_nat (length lvs) <= 2 ^ 28) by nia.
  assert (HC1 : 4 * C + 4 <= 2 ^ 28) by nia.
  cbn [Loaded] in L. destruct L as [[I0 Hidle]|L].
  - assert (I := I0). cbn [Inv] in I. destruct I as (St & Hl & Hc & Hp & Hb & E1 & E2 & E3 & Ib).
    destruct (Nat.ltb_spec 0 (t_cur t)) as [Hcur|Hcur].
    { rewrite transform_idle by auto. eexists. split; [reflexivity|]. split; [exact I0|exact Hcur]. }
    destruct Hidle as [|[Hend C0]]; [lia|].
    destruct St as (Th & Tw & L0 & L1 & L2 & W & Tp).
    destruct Hb as [Hb|(k & Ek & Bk)]; [lia|]. destruct Bk as (Bh & Br & Bl).
    assert (Er : r = (2 * k)%nat) by lia. assert (Eh : h = (2 * k + 2)%nat) by lia.
    cbn [filter_transform]. rewrite C0. cbn [Nat.ltb Nat.leb]. rewrite Th. rewrite usub_ok by lia. cbn [bind].
    destruct (Nat.leb_spec (h - 3) (t_line t)); [|lia].
    cbn [n_bottom tile]. replace (Nat.odd h) with false by (rewrite Eh; symmetry; apply odd_2).
    destruct (ring1 _ Tp) as (R1 & R2 & R3 & R4 & R5).
    rewrite Tw.
    destruct (cols1 (last_even_col (t_tap t) ((t_tap t + 1) mod 5) (t_l2 t)) w (t_tap t) ((t_tap t + 1) mod 5) (t_ring t)
                (fun i => P (Z.of_nat (2 * k + 1)) (Z.of_nat i)) W R1) as (ring & -> & Wr & Rr & Ro).
    { intros i rg Hi Wg Hg. unfold last_even_col. rewrite get_ok with (d := []) by (destruct Wg as [-> _]; auto). cbn [bind].
      rewrite Hg by auto. rewrite Br, Bl. rewrite !get_line0 by auto. cbn [bind].
      rewrite vlast_even with (C := C) by (auto; lia). reflexivity. }
    cbn [bind]. eexists. split; [reflexivity|]. split; [|cbn; lia].
    assert (E' : ((2 * k + 2) / 2 = k + 1)%nat) by (replace (2 * k + 2)%nat with ((k + 1) * 2)%nat by lia; apply Nat.div_mul; lia).
    assert (E'' : ((2 * k + 2 + 1) / 2 = k + 1)%nat).
    { replace (2 * k + 2 + 1)%nat with (1 + (k + 1) * 2)%nat by lia. rewrite Nat.div_add by lia. reflexivity. }
    cbn [Inv produce set_ring set_lines t_line t_cur t_tap t_ring t_h t_w t_l0 t_l1 t_l2].
    assert (Hd : ((t_line t + 2) / 2 = k + 1)%nat) by (rewrite Ek; exact E').
    rewrite Hd. rewrite C0, Ek.
    split; [repeat split; auto; try apply Wr; apply Nat.mod_upper_bound; lia|].
    split; [lia|]. split; [lia|]. split.
    { destruct (ring2 _ Tp) as [Q0 Q1]. intros j Hj. cbn [Nat.add] in *.
      destruct j as [|[|j]]; [| |lia].
      - rewrite Q0, Ro by auto. rewrite Br. do 3 f_equal; lia.
      - rewrite Q1, Rr, map_line. do 3 f_equal; lia. }
    split; [left; lia|].
    split; [apply emits_none; lia|]. split; [apply emits_none; lia|]. split; [apply emits_none; lia|].
    rewrite Ek, div2, Nat.min_l in Ib by lia. rewrite Nat.min_r by lia.
    replace ((h + 1) / 2)%nat with (k + 1)%nat in Ib |- * by (rewrite Eh; lia). exact Ib.
  - destruct L as (St & C0 & El & k & Er & Hk & Bk & T1 & T23 & E1 & E2 & E3 & Lb).
    assert (St0 := St). destruct St as (Th & Tw & L0 & L1 & L2 & W & Tp).
    cbn [filter_transform]. rewrite C0. cbn [Nat.ltb Nat.leb]. rewrite Th. rewrite usub_ok by lia. cbn [bind].
    set (load0 := match below with LL b => _ | _ => _ end).
    assert (Hk2 := half_lt k h Hk).
    assert (Load : exists below', load0 = Ok (set_b0 (line (coarse w h P (Z.of_nat (k + 1))) 0 nl) t, below')
      /\ Inv lvs nl ((h + 1) / 2) (coarse w h P) (k + 2) below').
    { unfold load0. destruct lvs as [|lv lvs].
      - destruct Lb as [T0 Ib]. destruct below as [b|]; [|contradiction]. exists (LL b). split; [|exact Ib].
        now rewrite b0_eta.
      - destruct below as [b|t' c1 c2 c3 below']; [destruct lv; contradiction|].
        destruct (IH nl ((h + 1) / 2)%nat (coarse w h P) (4 * C + 3) (k + 1)%nat _ ltac:(discriminate) F ltac:(lia) ltac:(lia)
                    ltac:(intros; apply coarser_bound; auto) HC4 Lb) as (s' & Es & Is & Ps).
        assert (Es' : (if (t_cur t' =? 0)%nat then transform (Lev t' c1 c2 c3 below') else Ok (Lev t' c1 c2 c3 below')) = Ok s').
        { destruct (Nat.eqb_spec (t_cur t') 0); [exact Es|]. rewrite transform_idle in Es by lia. exact Es. }
        rewrite Es'. cbn [bind]. destruct s' as [b|t'' d1 d2 d3 below'']; [contradiction|].
        destruct (getline_ok _ _ _ _ _ _ _ _ _ _ Is Ps) as (t3 & -> & I3). cbn [bind].
        eexists. split; [reflexivity|]. replace (k + 2)%nat with (k + 1 + 1)%nat by lia. exact I3. }
    clear IH. clearbody load0. destruct Load as (below' & -> & Ib). destruct Bk as (Bh & Br & Bl).
    destruct (ring1 _ Tp) as (R1 & R2 & R3 & R4 & R5).
    rewrite El, Er in *.
    destruct (Nat.leb_spec (h - 3) (2 * k)).
    + assert (Eh : h = (2 * k + 3)%nat) by lia. destruct (half_odd k h Eh) as [Q1 Q2].
      cbn [n_bottom n_left n_right tile]. replace (Nat.odd h) with true by (rewrite Eh; symmetry; apply odd_3).
      cbn [bind set_b0 t_b0 t_b1 t_l0 t_l1 t_l2 t_w t_ring set_lines t_h].
      rewrite T1, Tw. unfold coarser.
      rewrite synth_ok with (C := 2 * C + 1); try lia; auto; try (intros; apply rowL_bound; auto). cbn [bind].
      destruct (cols2 (last_odd_col (t_tap t) ((t_tap t + 1) mod 5) ((t_tap t + 2) mod 5)
                         (line (rowL h P (Z.of_nat (k + 1))) 0 w) (t_l2 t)) w
                  (t_tap t) ((t_tap t + 1) mod 5) ((t_tap t + 2) mod 5) (t_ring t)
                  (fun i => P (Z.of_nat (2 * k + 1)) (Z.of_nat i)) (fun i => P (Z.of_nat (2 * k + 2)) (Z.of_nat i)) W R1 R2 R3 R4 R5)
        as (ring & -> & Wr & Rr & Rr2 & Ro).
      { intros i rg Hi Wg Hg. unfold last_odd_col. rewrite Bl. rewrite !get_line0 by auto. cbn [bind].
        destruct (vlast_odd h P C ltac:(lia) ltac:(lia) HP k (Z.of_nat i) Eh) as [V1 V2]. rewrite V1. cbn [bind].
        rewrite get_ok with (d := []) by (destruct Wg as [-> _]; auto). cbn [bind].
        rewrite Hg, Br, !get_line0 by auto. cbn [bind]. rewrite V2. reflexivity. }
      cbn [bind]. eexists. split; [reflexivity|]. split; [|cbn; lia].
      cbn [Inv produce set_ring set_lines set_b0 t_line t_cur t_tap t_ring t_h t_w t_l0 t_l1 t_l2].
      rewrite ?C0, ?El, ?Er.
      assert (Hd : ((2 * k + 3) / 2 = k + 1)%nat).
      { replace (2 * k + 3)%nat with (1 + (k + 1) * 2)%nat by lia. rewrite Nat.div_add by lia. reflexivity. }
      rewrite Hd. replace (k + 1 + 1)%nat with (k + 2)%nat by lia.
      split; [repeat split; auto; try apply Wr; try apply Nat.mod_upper_bound; try lia; rewrite ?Bl; apply line_length|].
      split; [lia|]. split; [lia|]. split.
      { destruct (ring3 _ Tp) as (Z0 & Z1 & Z2). intros j Hj. cbn [Nat.add] in *.
        destruct j as [|[|[|j]]]; [| | |lia].
        - rewrite Z0, Ro by auto. rewrite Br. do 3 f_equal; lia.
        - rewrite Z1, Rr, map_line. do 3 f_equal; lia.
        - rewrite Z2, Rr2, map_line. do 3 f_equal; lia. }
      split; [left; lia|].
      do 3 (split; [assumption|]). rewrite Nat.min_l by lia. exact Ib.
    + destruct (T23 ltac:(lia)) as [T2 T3]. assert (Hk3 := half_down k h ltac:(lia)).
      cbn [bind set_b0 t_b0 t_b1 t_b2 t_b3 t_l0 t_l1 t_l2 t_w t_ring set_lines t_h n_left n_right tile].
      rewrite T1, T2, T3, Tw. unfold coarser.
      rewrite synth_ok with (C := 2 * C + 1); try lia; auto; try (intros; apply rowL_bound; auto). cbn [bind].
      rewrite synth_ok with (C := 2 * C + 1); try lia; auto.
      2:{ intros j. pose proof (rowH_bound h P (Z.of_nat (k + 1)) C j HP). lia. }
      cbn [bind].
      destruct (cols2 (mid_col (t_tap t) ((t_tap t + 1) mod 5) ((t_tap t + 2) mod 5)
                         (line (rowL h P (Z.of_nat (k + 1))) 0 w) (t_l2 t) (line (rowH h P (Z.of_nat (k + 1))) 0 w)) w
                  (t_tap t) ((t_tap t + 1) mod 5) ((t_tap t + 2) mod 5) (t_ring t)
                  (fun i => P (Z.of_nat (2 * k + 1)) (Z.of_nat i)) (fun i => P (Z.of_nat (2 * k + 2)) (Z.of_nat i)) W R1 R2 R3 R4 R5)
        as (ring & -> & Wr & Rr & Rr2 & Ro).
      { intros i rg Hi Wg Hg. unfold mid_col. rewrite Bl. rewrite !get_line0 by auto. cbn [bind].
        destruct (vmid h P C ltac:(lia) ltac:(lia) HP k (Z.of_nat i) ltac:(lia)) as [V1 V2]. rewrite V1. cbn [bind].
        rewrite get_ok with (d := []) by (destruct Wg as [-> _]; auto). cbn [bind].
        rewrite Hg, Br, !get_line0 by auto. cbn [bind]. rewrite V2. reflexivity. }
      cbn [bind]. eexists. split; [reflexivity|].
      cbn [t_line set_lines set_b0]. rewrite ?El, ?Er. destruct (Nat.leb_spec (h - 3) (2 * k)); [lia|]. cbn [andb].
      split; [|cbn; lia].
      cbn [Inv produce set_ring set_lines set_b0 t_line t_cur t_tap t_ring t_h t_w t_l0 t_l1 t_l2].
      rewrite ?C0, ?El, ?Er.
      replace ((2 * k + 2) / 2)%nat with (k + 1)%nat by (replace (2 * k + 2)%nat with ((k + 1) * 2)%nat by lia; rewrite Nat.div_mul; lia).
      replace (k + 1 + 1)%nat with (k + 2)%nat by lia.
      split; [repeat split; auto; try apply Wr; try apply Nat.mod_upper_bound; try lia; rewrite ?Bl; apply line_length|].
      split; [lia|]. split; [lia|]. split.
      { destruct (ring2 _ Tp) as (Z0 & Z1). intros j Hj. cbn [Nat.add] in *.
        destruct j as [|[|j]]; [| |lia].
        - rewrite Z0, Ro by auto. rewrite Br. do 3 f_equal; lia.
        - rewrite Z1, Rr, map_line. do 3 f_equal; lia. }
      split.
      { right. exists (k + 1)%nat. split; [lia|]. split; [lia|]. cbn [produce set_ring set_lines set_b0 t_tap t_ring t_l2]. split; [|reflexivity].
        rewrite Rr2, map_line. do 3 f_equal; lia. }
      do 3 (split; [assumption|]). rewrite Nat.min_l by lia. exact Ib.
Qed.
End Lev.
