(** Samsung, first format: groups, rows, picture. *)
From Coq Require Import List ZArith Lia Bool.
From Coq Require Import ZifyBool ZifyNat.
From Verif Require Import Base BaseLemmas Pumps PumpProofs PumpSeq LjpegEnc LjpegDec LjpegDecode LjpegAnySpec Crx CrxLL CrxImageSpec PefSpec Crypt CryptSony Srw SrwSpec.
Import ListNotations.
Open Scope Z_scope.

(** ** Reading *)
Definition rd (p : wpump) (l : list bool) : Prop := msb32_rep (length l) p l.
Lemma rd_bits n v p l : rd p (bits_of n v ++ l) -> (n <= 32)%nat -> exists p', get_bits msb32_ops n p = Ok (v mod 2 ^ Z.of_nat n, p') /\ rd p' l.
Proof.
  intros H Hn. unfold rd in H. rewrite app_length, bits_of_length in H. destruct (pr_get _ _ msb32_refines _ _ _ n H) as (p' & E & R); try lia.
  rewrite peekv_app, bval_bits_of in E by apply bits_of_length. rewrite skipn_app, bits_of_length, Nat.sub_diag, skipn_all2 in R by (rewrite bits_of_length; lia).
  exists p'. split; [auto|]. unfold rd. cbn [app skipn] in R. now replace (n + length l - n)%nat with (length l) in R by lia.
Qed.
Lemma rd_value n v p l : rd p (bits_of n v ++ l) -> (n <= 32)%nat -> 0 <= v < 2 ^ Z.of_nat n -> exists p', get_bits msb32_ops n p = Ok (v, p') /\ rd p' l.
Proof. intros H Hn Hv. destruct (rd_bits _ _ _ _ H Hn) as (p' & E & R). rewrite Z.mod_small in E by auto. eauto. Qed.
Lemma signed_fits n v : (0 < n)%nat -> - 2 ^ Z.of_nat (n - 1) <= v < 2 ^ Z.of_nat (n - 1) -> signed n (v mod 2 ^ Z.of_nat n) = v.
Proof.
  intros Hn Hv. assert (E : 2 ^ Z.of_nat n = 2 * 2 ^ Z.of_nat (n - 1)) by (rewrite <- pow2_S; f_equal; f_equal; lia). unfold signed. rewrite E.
  pose proof (pow2_pos (n - 1)). destruct (Z.lt_ge_cases v 0).
  - replace (v mod (2 * 2 ^ Z.of_nat (n - 1))) with (v + 2 * 2 ^ Z.of_nat (n - 1)) by (apply Z.mod_unique with (-1); lia).
    destruct (Z.ltb_spec (v + 2 * 2 ^ Z.of_nat (n - 1)) (2 ^ Z.of_nat (n - 1))); lia.
  - rewrite Z.mod_small by lia. destruct (Z.ltb_spec v (2 ^ Z.of_nat (n - 1))); lia.
Qed.
Lemma rd_signed n v p l : rd p (bits_of n v ++ l) -> (n <= 32)%nat -> fits_signed n v -> exists p', get_ibits_sext msb32_ops n p = Ok (v, p') /\ rd p' l.
Proof.
  intros H Hn Hv. unfold fits_signed in Hv. destruct (Nat.eqb_spec n 0) as [->|N].
  - subst v. exists p. split; [reflexivity|exact H].
  - unfold rd in H. rewrite app_length, bits_of_length in H. destruct (get_sext_spec _ _ msb32_refines _ _ _ n H) as (p' & E & R); try lia.
    rewrite peekv_app, bval_bits_of, signed_fits in E by (auto using bits_of_length; lia). rewrite skipn_app, bits_of_length, Nat.sub_diag, skipn_all2 in R by (rewrite bits_of_length; lia).
    exists p'. split; [auto|]. unfold rd. cbn [app skipn] in R. now replace (n + length l - n)%nat with (length l) in R by lia.
Qed.

(** ** Lengths *)
Definition lens_step (ops : list Z) (i : nat) (st : list nat * wpump) : res (list nat * wpump) :=
  let '(len, p) := st in
  do op <- get ops i;
  do l <- get len i;
  if op =? 3 then do (v, p) <- get_bits msb32_ops 4 p; do len <- put len i (Z.to_nat v); Ok (len, p)
  else if op =? 2 then do l <- usub l 1; do len <- put len i l; Ok (len, p)
  else if op =? 1 then do len <- put len i (l + 1)%nat; Ok (len, p)
  else Ok (len, p).
Lemma upd_same {A} (l : list A) i d : upd_list l i (nth i l d) = l.
Proof. apply (nth_ext_len _ _ d); [apply upd_list_length|]. intros j Hj. rewrite upd_list_length in Hj. destruct (Nat.eq_dec i j) as [->|N]; [now rewrite nth_upd_eq by auto|now rewrite nth_upd_neq by auto]. Qed.
Lemma lens_step_ok ops i (o : nat * nat) len p rest : nth_error ops i = Some (Z.of_nat (fst o)) -> (i < length len)%nat -> (fst o < 4)%nat -> (snd o < 16)%nat ->
  (fst o = 2%nat -> (0 < nth i len 0)%nat) -> rd p ((if (fst o =? 3)%nat then bits_of 4 (Z.of_nat (snd o)) else []) ++ rest) ->
  exists p', lens_step ops i (len, p) = Ok (upd_list len i (change o (nth i len 0%nat)), p') /\ rd p' rest.
Proof.
  intros Ho Hi H4 H16 H2 R. destruct o as [x y]. cbn [fst snd] in *. unfold lens_step. unfold get at 1. rewrite Ho. cbn [bind]. rewrite (get_ok _ _ 0%nat) by auto. cbn [bind]. unfold change. cbn [fst snd].
  destruct x as [|[|[|[|]]]]; try lia; cbn [Z.of_nat Z.eqb Pos.of_succ_nat Pos.succ Pos.eqb Nat.eqb] in *.
  - exists p. split; [|exact R]. now rewrite upd_same.
  - rewrite put_ok by auto. cbn [bind]. exists p. split; [|exact R]. now rewrite Nat.add_1_r.
  - rewrite usub_ok by (specialize (H2 eq_refl); lia). cbn [bind]. rewrite put_ok by auto. cbn [bind]. exists p. split; [reflexivity|exact R].
  - destruct (rd_value 4 (Z.of_nat y) p rest R) as (p' & E & R'); [lia|change (2 ^ Z.of_nat 4) with 16; lia|]. rewrite E. cbn [bind]. rewrite put_ok by auto. cbn [bind].
    exists p'. rewrite Nat2Z.id. auto.
Qed.

Section One.
  Variable f : srw1_form.
  Variable a : nat -> nat -> Z.
  Variables w h : nat.
  Variable s : nat -> nat -> Z.
  Hypothesis HF : form_ok f a w h.
  Hypothesis HS : srw1_picture f a w h s.
  Hypothesis Hw : (16 <= w)%nat.
  Hypothesis Hh : (2 <= h)%nat.

  Lemma s_range r c : (r < h)%nat -> (c < w)%nat -> 0 <= s r c < 65536.
  Proof. intros Hr Hc. rewrite HS by auto. apply Z.mod_pos_bound. lia. Qed.

  Definition lens (r g : nat) : list nat := map (len_before f r g) (seq 0 4).
  Lemma lens_ok r g p rest : (r < h)%nat -> (g < groups w)%nat ->
    rd p (flat_map (fun i => if (fst (f_op f r g i) =? 3)%nat then bits_of 4 (Z.of_nat (snd (f_op f r g i))) else []) (seq 0 4) ++ rest) ->
    exists p', srw1_lens (map (fun i => Z.of_nat (fst (f_op f r g i))) (seq 0 4)) (lens r g) p = Ok (lens r (S g), p') /\ rd p' rest.
  Proof.
    intros Hr Hg R. destruct (HF r g Hr Hg) as [HL _]. 
    set (ops := map (fun i => Z.of_nat (fst (f_op f r g i))) (seq 0 4)). change (srw1_lens ops (lens r g) p) with (for_each (seq 0 4) (lens_step ops) (lens r g, p)).
    cbn [seq flat_map] in R. rewrite app_nil_r, <- !app_assoc in R. cbn [seq for_each]. unfold lens. cbn [seq map].
    edestruct (lens_step_ok ops 0 (f_op f r g 0) [len_before f r g 0; len_before f r g 1; len_before f r g 2; len_before f r g 3]) as (p0 & E0 & R0);
      [reflexivity|cbn; lia|apply (HL 0%nat); lia|apply (HL 0%nat); lia|apply (HL 0%nat); lia|exact R|]. rewrite E0. cbn [bind upd_list nth].
    edestruct (lens_step_ok ops 1 (f_op f r g 1) [change (f_op f r g 0) (len_before f r g 0); len_before f r g 1; len_before f r g 2; len_before f r g 3]) as (p1 & E1 & R1);
      [reflexivity|cbn; lia|apply (HL 1%nat); lia|apply (HL 1%nat); lia|apply (HL 1%nat); lia|exact R0|]. rewrite E1. cbn [bind upd_list nth].
    edestruct (lens_step_ok ops 2 (f_op f r g 2) [change (f_op f r g 0) (len_before f r g 0); change (f_op f r g 1) (len_before f r g 1); len_before f r g 2; len_before f r g 3]) as (p2 & E2 & R2);
      [reflexivity|cbn; lia|apply (HL 2%nat); lia|apply (HL 2%nat); lia|apply (HL 2%nat); lia|exact R1|]. rewrite E2. cbn [bind upd_list nth].
    edestruct (lens_step_ok ops 3 (f_op f r g 3) [change (f_op f r g 0) (len_before f r g 0); change (f_op f r g 1) (len_before f r g 1); change (f_op f r g 2) (len_before f r g 2); len_before f r g 3]) as (p3 & E3 & R3);
      [reflexivity|cbn; lia|apply (HL 3%nat); lia|apply (HL 3%nat); lia|apply (HL 3%nat); lia|exact R2|]. rewrite E3. cbn [bind upd_list nth].
    exists p3. split; [reflexivity|exact R3].
  Qed.

  (** ** Pixels: [out] holds the picture where [D] says so *)
  Definition holds (D : nat -> nat -> bool) (out : list Z) : Prop :=
    length out = (w * h)%nat /\ forall r c, (r < h)%nat -> (c < w)%nat -> nth (w * r + c) out 0 = if D r c then s r c else 0.
  Lemma at_lt r c : (r < h)%nat -> (c < w)%nat -> (w * r + c < w * h)%nat.
  Proof. intros. assert (w * S r <= w * h)%nat by (apply Nat.mul_le_mono_l; lia). lia. Qed.
  Lemma at_inj r c r' c' : (c < w)%nat -> (c' < w)%nat -> (w * r + c = w * r' + c')%nat -> r = r' /\ c = c'.
  Proof. intros Hc Hc' E. assert (r = r'); [|subst; split; [auto|lia]]. 
    transitivity ((w * r + c) / w)%nat; [apply Nat.div_unique with c; lia|]. rewrite E. symmetry. apply Nat.div_unique with c'; lia. Qed.
  Lemma holds_put D D' out r c : holds D out -> (r < h)%nat -> (c < w)%nat ->
    (forall r' c', (r' < h)%nat -> (c' < w)%nat -> D' r' c' = ((r' =? r)%nat && (c' =? c)%nat) || D r' c') ->
    exists out', put out (w * r + c) (s r c) = Ok out' /\ holds D' out'.
  Proof.
    intros [L V] Hr Hc HD. pose proof (at_lt r c Hr Hc). rewrite put_ok by lia. eexists. split; [reflexivity|]. split; [now rewrite upd_list_length|].
    intros r' c' Hr' Hc'. rewrite HD by auto. destruct (Nat.eqb_spec r' r) as [Er|Nr]; cbn [andb orb].
    - subst r'. destruct (Nat.eqb_spec c' c) as [Ec|Nc]; cbn [orb]; [subst; now rewrite nth_upd_eq by lia|]. rewrite nth_upd_neq by lia. now apply V.
    - rewrite nth_upd_neq; [now apply V|]. intros E. apply at_inj in E; auto. lia.
  Qed.
  Lemma holds_ext D D' out : holds D out -> (forall r c, (r < h)%nat -> (c < w)%nat -> D r c = D' r c) -> holds D' out.
  Proof. intros [L V] E. split; auto. intros r c Hr Hc. rewrite <- E by auto. auto. Qed.

  (** before the c-th pixel of a group, in the order even columns, odd columns *)
  Definition order (c : nat) : nat := (8 * (c mod 2) + c / 2)%nat.
  Definition done (r g k r' c' : nat) : bool :=
    ((r' <? r) || ((r' =? r) && ((c' <? 16 * g) || ((c' <? 16 * g + 16) && (order (c' - 16 * g) <? k)))))%nat.
  Lemma pixel_ok r g c l p rest out : (r < h)%nat -> (g < groups w)%nat -> (c < 16)%nat -> l = len_of f r g (which_len c) ->
    rd p (bits_of l (a r (16 * g + c)%nat) ++ rest) -> holds (done r g (order c)) out ->
    exists p' out', srw1_pixel w (w * r) (w * (r - (1 + c mod 2))) (2 - c mod 2) (16 * g) c l (f_dir f r g) p out = Ok (p', out') /\
      rd p' rest /\ holds (done r g (S (order c))) out'.
  Proof.
    intros Hr Hg Hc El R H. destruct (HF r g Hr Hg) as [HL HA]. pose proof (Nat.mod_upper_bound c 2 ltac:(lia)) as M.
    assert (Hwl : (which_len c < 4)%nat) by (unfold which_len; pose proof (Nat.div_lt_upper_bound c 8 2 ltac:(lia) ltac:(lia)); lia).
    assert (G16 : (16 * g < w)%nat) by (unfold groups in Hg; pose proof (Nat.div_mod (w + 15) 16 ltac:(lia)); pose proof (Nat.mod_upper_bound (w + 15) 16 ltac:(lia)); lia).
    unfold srw1_pixel. specialize (HA c Hc). rewrite <- El in HA. pose proof (HL _ Hwl) as (_ & _ & L30 & _). rewrite <- El in L30.
    destruct (rd_signed l _ p rest R) as (p' & E & R'); [lia|exact HA|]. rewrite E. cbn [bind]. clear E.
    assert (AB : - 2 ^ 29 <= a r (16 * g + c)%nat < 2 ^ 29).
    { unfold fits_signed in HA. destruct (Nat.eqb_spec l 0); [lia|]. assert (2 ^ Z.of_nat (l - 1) <= 2 ^ Z.of_nat 29) by (apply pow2_le; lia). change (2 ^ Z.of_nat 29) with (2 ^ 29) in *. lia. }
    assert (P : exists v, (if f_dir f r g then get out (w * (r - (1 + c mod 2)) + 16 * g + c)
        else if (16 * g =? 0)%nat then Ok 128 else do i <- usub (w * r + 16 * g) (2 - c mod 2); get out i) = Ok v /\
      ((16 * g + c < w)%nat -> v = srw1_pred f s r (16 * g + c) /\ 0 <= v < 65536)).
    { destruct H as [L V].
      assert (EP : srw1_pred f s r (16 * g + c) = if f_dir f r g then if (r =? 0)%nat then 0 else s (r - (1 + c mod 2))%nat (16 * g + c)%nat
        else if (g =? 0)%nat then 128 else s r (16 * g - 2 + c mod 2)%nat).
      { unfold srw1_pred. replace ((16 * g + c) / 16)%nat with g by (apply Nat.div_unique with c; lia).
        replace ((16 * g + c) mod 2)%nat with (c mod 2)%nat by (replace (16 * g + c)%nat with (c + (8 * g) * 2)%nat by lia; now rewrite Nat.mod_add by lia).
        destruct (f_dir f r g); [|reflexivity]. destruct (Nat.eqb_spec r 0); [reflexivity|]. destruct (Nat.eqb_spec (c mod 2) 0) as [E0|E0].
        - now rewrite E0.
        - replace (c mod 2)%nat with 1%nat by lia. destruct (Nat.eqb_spec r 1) as [->|]; reflexivity. }
      rewrite EP. clear EP. destruct (f_dir f r g).
      - assert (IB : (w * (r - (1 + c mod 2)) + 16 * g + c < w * h)%nat).
        { destruct r as [|r].
          - assert (w * 2 <= w * h)%nat by (apply Nat.mul_le_mono_l; lia). cbn [Nat.sub]. lia.
          - assert (w * (S r - (1 + c mod 2)) <= w * r)%nat by (apply Nat.mul_le_mono_l; lia). assert (w * (r + 2) <= w * h)%nat by (apply Nat.mul_le_mono_l; lia). lia. }
        rewrite (get_ok _ _ 0) by lia. eexists. split; [reflexivity|]. intros Hin. rewrite <- Nat.add_assoc. rewrite V by lia. unfold done.
        destruct (Nat.eqb_spec r 0) as [->|N].
        + cbn [Nat.sub]. replace (order (16 * g + c - 16 * g)) with (order c) by (f_equal; lia).
          replace (0 <? 0)%nat with false by lia. replace (16 * g + c <? 16 * g)%nat with false by lia. replace (order c <? order c)%nat with false by lia. rewrite !andb_false_r. cbn [orb]. lia.
        + replace (r - (1 + c mod 2) <? r)%nat with true by lia. cbn [orb]. split; [reflexivity|]. apply s_range; lia.
      - destruct (Nat.eqb_spec g 0) as [->|N].
        + cbn [Nat.mul Nat.eqb]. eexists. split; [reflexivity|]. intros _. lia.
        + replace (16 * g =? 0)%nat with false by lia. rewrite usub_ok by lia. cbn [bind].
          replace (w * r + 16 * g - (2 - c mod 2))%nat with (w * r + (16 * g - 2 + c mod 2))%nat by lia.
          pose proof (at_lt r (16 * g - 2 + c mod 2) Hr ltac:(lia)). rewrite (get_ok _ _ 0) by lia. eexists. split; [reflexivity|]. intros _.
          rewrite V by lia. unfold done. rewrite Nat.eqb_refl. replace (16 * g - 2 + c mod 2 <? 16 * g)%nat with true by lia. cbn [orb andb]. rewrite orb_true_r.
          split; [reflexivity|]. apply s_range; lia. }
    destruct P as (v & EV & HV). rewrite EV. cbn [bind]. clear EV.
    assert (DD : forall r' c', (r' < h)%nat -> (c' < w)%nat -> done r g (S (order c)) r' c' = ((r' =? r)%nat && (c' =? 16 * g + c)%nat) || done r g (order c) r' c').
    { clear - Hc. intros r' c' _ _. unfold done. destruct (Nat.ltb_spec r' r); cbn [orb]; [now rewrite orb_true_r|]. destruct (Nat.eqb_spec r' r); cbn [andb]; [|reflexivity].
      destruct (Nat.ltb_spec c' (16 * g)); cbn [orb]; [now rewrite orb_true_r|]. destruct (Nat.ltb_spec c' (16 * g + 16)) as [U|U]; cbn [andb]; [|replace (c' =? 16 * g + c)%nat with false by lia; reflexivity].
      assert (OI : order (c' - 16 * g) = order c <-> (c' - 16 * g = c)%nat).
      { split; [|now intros ->]. unfold order. intros E. pose proof (Nat.div_mod c 2 ltac:(lia)). pose proof (Nat.div_mod (c' - 16 * g) 2 ltac:(lia)).
        pose proof (Nat.mod_upper_bound c 2 ltac:(lia)). pose proof (Nat.mod_upper_bound (c' - 16 * g) 2 ltac:(lia)). lia. }
      destruct (Nat.eqb_spec c' (16 * g + c)) as [Ec|Nc]; cbn [orb].
      - apply Nat.ltb_lt. replace (c' - 16 * g)%nat with c by lia. lia.
      - destruct (Nat.ltb_spec (order (c' - 16 * g)) (S (order c))), (Nat.ltb_spec (order (c' - 16 * g)) (order c)); try reflexivity; try lia. }
    destruct (Nat.ltb_spec (16 * g + c) w) as [Hin|Hout].
    - destruct (HV Hin) as [Ev Bv]. rewrite i32_ok by lia. cbn [bind]. replace (wrap_u16 (v + a r (16 * g + c)%nat)) with (s r (16 * g + c)%nat) by (rewrite HS, Ev by auto; reflexivity).
      destruct (holds_put (done r g (order c)) (done r g (S (order c))) out r (16 * g + c) H Hr Hin DD) as (out' & E & H').
      rewrite <- Nat.add_assoc. rewrite E. cbn [bind]. eauto.
    - exists p', out. split; [reflexivity|]. split; [exact R'|]. apply (holds_ext _ _ _ H). intros r' c' Hr' Hc'. rewrite DD by auto. replace (c' =? 16 * g + c)%nat with false by lia.
      now rewrite andb_false_r.
  Qed.

  (** ** A loop over the even or the odd columns *)
  Lemma half_ok r g b : (r < h)%nat -> (g < groups w)%nat -> (b < 2)%nat -> forall n k p rest out, (k + n = 8)%nat ->
    rd p (flat_map (fun k => bits_of (len_of f r g (which_len (2 * k + b))) (a r (16 * g + (2 * k + b))%nat)) (seq k n) ++ rest) -> holds (done r g (8 * b + k)) out ->
    exists p' out', for_each (seq k n) (fun j '(p, out) => do l <- get (lens r (S g)) (2 * b + (2 * j + b) / 8);
        srw1_pixel w (w * r) (w * (r - (1 + b))) (2 - b) (16 * g) (2 * j + b) l (f_dir f r g) p out) (p, out) = Ok (p', out') /\
      rd p' rest /\ holds (done r g (8 * b + 8)) out'.
  Proof.
    intros Hr Hg Hb. induction n; intros k p rest out Hk R H.
    - cbn [seq for_each]. replace k with 8%nat in H by lia. eauto.
    - cbn [seq for_each flat_map] in R |- *. rewrite <- app_assoc in R.
      assert (M : ((2 * k + b) mod 2 = b)%nat) by (replace (2 * k + b)%nat with (b + k * 2)%nat by lia; rewrite Nat.mod_add by lia; apply Nat.mod_small; lia).
      assert (WL : (2 * b + (2 * k + b) / 8)%nat = which_len (2 * k + b)) by (unfold which_len; now rewrite M).
      assert (W4 : (which_len (2 * k + b) < 4)%nat) by (rewrite <- WL; pose proof (Nat.div_lt_upper_bound (2 * k + b) 8 2 ltac:(lia) ltac:(lia)); lia).
      rewrite WL. rewrite (get_ok _ _ 0%nat) by (unfold lens; now rewrite map_length, seq_length). cbn [bind].
      unfold lens at 1. rewrite nth_map_seq by auto. cbn [len_before]. fold (len_of f r g (which_len (2 * k + b))).
      assert (OE : order (2 * k + b) = (8 * b + k)%nat) by (unfold order; rewrite M; f_equal; symmetry; apply Nat.div_unique with b; lia).
      destruct (pixel_ok r g (2 * k + b) _ p _ out Hr Hg ltac:(lia) eq_refl R ltac:(now rewrite OE)) as (p1 & out1 & E & R1 & H1). rewrite M in E. rewrite E. cbn [bind].
      apply IHn; [lia|exact R1|]. rewrite OE in H1. now replace (8 * b + S k)%nat with (S (8 * b + k)) by lia.
  Qed.

  Lemma ops_ok x0 x1 x2 x3 p rest : (x0 < 4)%nat -> (x1 < 4)%nat -> (x2 < 4)%nat -> (x3 < 4)%nat ->
    rd p (bits_of 2 (Z.of_nat x0) ++ bits_of 2 (Z.of_nat x1) ++ bits_of 2 (Z.of_nat x2) ++ bits_of 2 (Z.of_nat x3) ++ rest) ->
    exists p', get_ops p = Ok ([Z.of_nat x0; Z.of_nat x1; Z.of_nat x2; Z.of_nat x3], p') /\ rd p' rest.
  Proof.
    intros H0 H1 H2 H3 R. unfold get_ops. assert (P4 : 2 ^ Z.of_nat 2 = 4) by reflexivity.
    destruct (rd_value 2 (Z.of_nat x0) p _ R) as (p0 & E0 & R0); [lia|lia|]. rewrite E0. cbn [bind].
    destruct (rd_value 2 (Z.of_nat x1) p0 _ R0) as (p1 & E1 & R1); [lia|lia|]. rewrite E1. cbn [bind].
    destruct (rd_value 2 (Z.of_nat x2) p1 _ R1) as (p2 & E2 & R2); [lia|lia|]. rewrite E2. cbn [bind].
    destruct (rd_value 2 (Z.of_nat x3) p2 _ R2) as (p3 & E3 & R3); [lia|lia|]. rewrite E3. cbn [bind]. eauto.
  Qed.

  Lemma group_ok r g p rest out : (r < h)%nat -> (g < groups w)%nat -> rd p (group_bits f a r g ++ rest) -> holds (done r g 0) out ->
    exists p' out', srw1_group w r (16 * g) (lens r g, p, out) = Ok (lens r (S g), p', out') /\ rd p' rest /\ holds (done r (S g) 0) out'.
  Proof.
    intros Hr Hg R H. unfold srw1_group. unfold group_bits in R. rewrite <- !app_assoc in R.
    destruct (rd_value 1 (if f_dir f r g then 1 else 0) p _ R) as (p0 & E0 & R0); [lia|change (2 ^ Z.of_nat 1) with 2; destruct (f_dir f r g); lia|]. rewrite E0. cbn [bind]. clear E0 R p.
    replace ((if f_dir f r g then 1 else 0) =? 1) with (f_dir f r g) by (destruct (f_dir f r g); reflexivity).
    destruct (HF r g Hr Hg) as [HL _].
    change (seq 0 4) with [0; 1; 2; 3]%nat in R0. cbn [flat_map] in R0. rewrite !app_nil_r, <- !app_assoc in R0.
    edestruct (ops_ok (fst (f_op f r g 0)) (fst (f_op f r g 1)) (fst (f_op f r g 2)) (fst (f_op f r g 3)) p0) as (p1 & E1 & R1);
      [apply HL; lia|apply HL; lia|apply HL; lia|apply HL; lia|exact R0|]. rewrite E1. cbn [bind]. clear E1 R0 p0.
    change [Z.of_nat (fst (f_op f r g 0)); Z.of_nat (fst (f_op f r g 1)); Z.of_nat (fst (f_op f r g 2)); Z.of_nat (fst (f_op f r g 3))]
      with (map (fun i => Z.of_nat (fst (f_op f r g i))) (seq 0 4)).
    destruct (lens_ok r g p1 (flat_map (fun k => bits_of (len_of f r g (which_len (2 * k))) (a r (16 * g + 2 * k)%nat)) (seq 0 8) ++
      flat_map (fun k => bits_of (len_of f r g (which_len (2 * k + 1))) (a r (16 * g + (2 * k + 1))%nat)) (seq 0 8) ++ rest)) as (p2 & E2 & R2); [auto|auto| |].
    { change (seq 0 4) with [0; 1; 2; 3]%nat. cbn [flat_map]. rewrite app_nil_r, <- !app_assoc. exact R1. }
    rewrite E2. cbn [bind]. clear E2 R1 p1.
    change (step_range 0 16 2) with (map (fun j => (2 * j + 0)%nat) (seq 0 8)). change (step_range 1 16 2) with (map (fun j => (2 * j + 1)%nat) (seq 0 8)).
    rewrite !for_each_map.
    destruct (half_ok r g 0 Hr Hg ltac:(lia) 8 0 p2
      (flat_map (fun k => bits_of (len_of f r g (which_len (2 * k + 1))) (a r (16 * g + (2 * k + 1))%nat)) (seq 0 8) ++ rest) out eq_refl) as (p3 & out3 & E3 & R3 & H3).
    { exact R2. }
    { exact H. }
    replace (Nat.max 1 r - 1)%nat with (r - (1 + 0))%nat by lia. replace (Nat.max 2 r - 2)%nat with (r - (1 + 1))%nat by lia.
    match goal with |- context [for_each (seq 0 8) ?F _] => replace (for_each (seq 0 8) F (p2, out)) with (Ok (p3, out3)) end.
    cbn [bind].
    destruct (half_ok r g 1 Hr Hg ltac:(lia) 8 0 p3 rest out3 eq_refl R3 H3) as (p4 & out4 & E4 & R4 & H4).
    rewrite for_each_map.    match goal with |- context [for_each (seq 0 8) ?F _] => replace (for_each (seq 0 8) F (p3, out3)) with (Ok (p4, out4)) end.
    cbn [bind]. exists p4, out4. split; [reflexivity|]. split; [exact R4|]. apply (holds_ext _ _ _ H4). clear. intros r' c' _ _. unfold done.
    replace (16 * S g)%nat with (16 * g + 16)%nat by lia. replace (order (c' - (16 * g + 16)) <? 0)%nat with false by lia. rewrite andb_false_r, orb_false_r.
    destruct (r' <? r)%nat; [reflexivity|]. destruct (r' =? r)%nat; [|reflexivity]. cbn [orb andb].
    destruct (Nat.ltb_spec c' (16 * g)), (Nat.ltb_spec c' (16 * g + 16)); try lia; try reflexivity. cbn [orb andb]. apply Nat.ltb_lt. unfold order.
    pose proof (Nat.mod_upper_bound (c' - 16 * g) 2 ltac:(lia)). pose proof (Nat.div_lt_upper_bound (c' - 16 * g) 2 8 ltac:(lia) ltac:(lia)). lia.
  Qed.

  (** ** Rows *)
  Lemma groups_ok r rest : (r < h)%nat -> forall n g p out, (g + n = groups w)%nat -> rd p (flat_map (group_bits f a r) (seq g n) ++ rest) -> holds (done r g 0) out ->
    exists len p' out', for_each (seq g n) (fun g => srw1_group w r (16 * g)) (lens r g, p, out) = Ok (len, p', out') /\ holds (done r (groups w) 0) out'.
  Proof.
    intros Hr. induction n; intros g p out Hn R H.
    - cbn [seq for_each]. replace (groups w) with g by lia. eauto 6.
    - cbn [seq for_each flat_map] in R |- *. rewrite <- app_assoc in R. destruct (group_ok r g p _ out Hr ltac:(lia) R H) as (p1 & out1 & E & R1 & H1). rewrite E. cbn [bind].
      apply IHn; [lia|auto|auto].
  Qed.
  Variables buf loffsets : list Z.
  Hypothesis HBy : Forall is_byte buf.
  Hypothesis HLo : (4 * h <= length loffsets)%nat.
  Hypothesis HRow : forall r, (r < h)%nat -> row_stored buf (Z.to_nat (CryptSpec.word_at loffsets (4 * r))) (row_bits f a w r).
  Lemma row_ok r out : (r < h)%nat -> holds (done r 0 0) out -> exists out', srw1_row buf loffsets w r out = Ok out' /\ holds (done (S r) 0 0) out'.
  Proof.
    intros Hr H. unfold srw1_row. rewrite (Nat.mul_comm r 4). rewrite word_LEu32 by lia. cbn [bind]. destruct (HRow r Hr) as (HO & (q & Hq) & rest & EB).
    set (off := Z.to_nat (CryptSpec.word_at loffsets (4 * r))) in *. rewrite slice_ok by lia. cbn [bind]. rewrite firstn_all2 by (rewrite skipn_length; lia).
    assert (R : rd (wpump_new (skipn off buf)) (row_bits f a w r ++ rest)).
    { unfold rd. rewrite <- EB. apply msb32_new_rep with q.
      - clear - HBy. revert buf HBy. induction off; intros b F; [exact F|]. destruct F; [constructor|]. cbn [skipn]. auto.
      - rewrite skipn_length. lia.
      - rewrite byte_bits_length. apply Nat.mul_le_mono_l. generalize (skipn off buf). clear. 
        assert (X : forall n b, (length b <= n)%nat -> (length (PumpProofs.swap32 b) <= length b)%nat).
        { induction n; intros b Hb; [destruct b; cbn in *; lia|]. destruct b as [|x [|y [|z [|t b]]]]; cbn [PumpProofs.swap32 length] in *; try lia. specialize (IHn b ltac:(lia)). lia. }
        intros b. apply (X (length b)). lia. }
    assert (SR : step_range 0 w 16 = map (fun g => (16 * g)%nat) (seq 0 (groups w))).
    { unfold step_range, groups. replace (w - 0 + (16 - 1))%nat with (w + 15)%nat by lia. apply map_ext. intros i. lia. }
    rewrite SR, for_each_map. destruct (groups_ok r rest Hr (groups w) 0 (wpump_new (skipn off buf)) out eq_refl R H) as (len & p' & out' & E & H').
    change (repeat (if (r <? 2)%nat then 7%nat else 4%nat) 4) with (lens r 0). rewrite E. cbn [bind]. exists out'. split; [reflexivity|].
    apply (holds_ext _ _ _ H'). intros r' c' Hr' Hc'. unfold done.
    assert (GW : (c' < 16 * groups w)%nat) by (unfold groups; pose proof (Nat.div_mod (w + 15) 16 ltac:(lia)); pose proof (Nat.mod_upper_bound (w + 15) 16 ltac:(lia)); lia).
    replace (c' <? 16 * groups w)%nat with true by lia. replace (order (c' - 16 * 0) <? 0)%nat with false by lia. replace (c' <? 16 * 0)%nat with false by lia. rewrite !andb_false_r. cbn [orb]. rewrite ?andb_false_r, ?orb_false_r, ?andb_true_r.
    lia.
  Qed.
  Lemma rows_ok : exists out, for_each (seq 0 h) (srw1_row buf loffsets w) (repeat 0 (w * h)) = Ok out /\ length out = (w * h)%nat /\
    forall r c, (r < h)%nat -> (c < w)%nat -> nth (w * r + c) out 0 = s r c.
  Proof.
    destruct (for_each_seq_inv (srw1_row buf loffsets w) (fun r out => holds (done r 0 0) out) 0 h (repeat 0 (w * h))) as (out & E & H).
    - split; [apply repeat_length|]. intros r c Hr Hc. rewrite nth_repeat_lt by now apply at_lt. unfold done. replace (r <? 0)%nat with false by lia. replace (c <? 16 * 0)%nat with false by lia.
      replace (order (c - 16 * 0) <? 0)%nat with false by lia. now rewrite !andb_false_r.
    - intros r out Hr H. apply row_ok; auto. lia.
    - exists out. split; [exact E|]. destruct H as [L V]. split; [exact L|]. intros r c Hr Hc. rewrite V by auto. unfold done. now replace (r <? 0 + h)%nat with true by lia.
  Qed.

  (** ** Red and blue change places *)
  Definition swapped_to (i j r c : nat) : Z := if ((r / 2 <? i) || ((r / 2 =? i) && (c / 2 <? j)))%nat then swapped s r c else s r c.
  Definition shows (v : nat -> nat -> Z) (out : list Z) : Prop :=
    length out = (w * h)%nat /\ forall r c, (r < h)%nat -> (c < w)%nat -> nth (w * r + c) out 0 = v r c.
  Lemma half2 x : (2 * x / 2 = x /\ (2 * x + 1) / 2 = x /\ (2 * x) mod 2 = 0 /\ (2 * x + 1) mod 2 = 1)%nat.
  Proof.
    assert (E : (2 * x / 2 = x)%nat) by (symmetry; apply Nat.div_unique with 0%nat; lia).
    assert (O : ((2 * x + 1) / 2 = x)%nat) by (symmetry; apply Nat.div_unique with 1%nat; lia).
    pose proof (Nat.div_mod (2 * x) 2 ltac:(lia)). pose proof (Nat.div_mod (2 * x + 1) 2 ltac:(lia)). lia.
  Qed.
  Lemma swap_one i j out : (2 * i + 1 < h)%nat -> (2 * j + 1 < w)%nat -> shows (swapped_to i j) out ->
    exists out', swap_px out (2 * i * w + 2 * j + 1) ((2 * i + 1) * w + 2 * j) = Ok out' /\ shows (swapped_to i (S j)) out'.
  Proof.
    intros Hi Hj [L V]. replace (2 * i * w + 2 * j + 1)%nat with (w * (2 * i) + (2 * j + 1))%nat by lia. replace ((2 * i + 1) * w + 2 * j)%nat with (w * (2 * i + 1) + 2 * j)%nat by lia.
    pose proof (at_lt (2 * i) (2 * j + 1) ltac:(lia) ltac:(lia)) as A1. pose proof (at_lt (2 * i + 1) (2 * j) ltac:(lia) ltac:(lia)) as A2.
    unfold swap_px. rewrite (get_ok _ _ 0) by lia. cbn [bind]. rewrite (get_ok _ _ 0) by lia. cbn [bind]. rewrite put_ok by lia. cbn [bind]. rewrite put_ok by (rewrite upd_list_length; lia).
    eexists. split; [reflexivity|]. split; [now rewrite !upd_list_length|]. intros r c Hr Hc.
    destruct (half2 i) as (I1 & I2 & I3 & I4). destruct (half2 j) as (J1 & J2 & J3 & J4).
    destruct (Nat.eq_dec (w * r + c) (w * (2 * i + 1) + 2 * j)) as [E|N].
    - apply at_inj in E as [-> ->]; [|lia|lia]. rewrite nth_upd_eq by (rewrite upd_list_length; lia). rewrite V by lia. unfold swapped_to. rewrite I1, I2, J1, J2, Nat.eqb_refl.
      replace (j <? S j)%nat with true by lia. replace (j <? j)%nat with false by lia. replace (i <? i)%nat with false by lia. cbn [orb andb]. unfold swapped. rewrite I4, J3. cbn [Nat.eqb andb].
      replace (2 * i + 1 - 1)%nat with (2 * i)%nat by lia. reflexivity.
    - rewrite nth_upd_neq by auto. destruct (Nat.eq_dec (w * r + c) (w * (2 * i) + (2 * j + 1))) as [E|N'].
      + apply at_inj in E as [-> ->]; [|lia|lia]. rewrite nth_upd_eq by lia. rewrite V by lia. unfold swapped_to. rewrite I1, I2, J1, J2, Nat.eqb_refl.
        replace (j <? S j)%nat with true by lia. replace (j <? j)%nat with false by lia. replace (i <? i)%nat with false by lia. cbn [orb andb]. unfold swapped. rewrite I3, J4. cbn [Nat.eqb andb].
        replace (2 * j + 1 - 1)%nat with (2 * j)%nat by lia. reflexivity.
      + rewrite nth_upd_neq by auto. rewrite V by auto. unfold swapped_to. destruct (Nat.ltb_spec (r / 2) i); cbn [orb]; [reflexivity|].
        destruct (Nat.eqb_spec (r / 2) i); cbn [andb]; [|reflexivity].
        destruct (Nat.ltb_spec (c / 2) (S j)), (Nat.ltb_spec (c / 2) j); try lia; try reflexivity.
        assert (c / 2 = j)%nat by lia. pose proof (Nat.div_mod r 2 ltac:(lia)). pose proof (Nat.div_mod c 2 ltac:(lia)).
        pose proof (Nat.mod_upper_bound r 2 ltac:(lia)). pose proof (Nat.mod_upper_bound c 2 ltac:(lia)). unfold swapped.
        destruct (Nat.eqb_spec (r mod 2) 0) as [R0|R0], (Nat.eqb_spec (c mod 2) 0) as [C0|C0].
        * rewrite R0, C0. reflexivity.
        * exfalso. apply N'. replace r with (2 * i)%nat by lia. replace c with (2 * j + 1)%nat by lia. reflexivity.
        * exfalso. apply N. replace r with (2 * i + 1)%nat by lia. replace c with (2 * j)%nat by lia. reflexivity.
        * replace (r mod 2)%nat with 1%nat by lia. replace (c mod 2)%nat with 1%nat by lia. reflexivity.
  Qed.
  Lemma step2_even n : (n mod 2 = 0)%nat -> step_range 0 n 2 = map (fun i => (2 * i)%nat) (seq 0 (n / 2)).
  Proof.
    intros E. unfold step_range. replace ((n - 0 + (2 - 1)) / 2)%nat with (n / 2)%nat; [apply map_ext; intros; lia|].
    apply Nat.div_unique with 1%nat; [lia|]. pose proof (Nat.div_mod n 2 ltac:(lia)). lia.
  Qed.
  Lemma shows_ext v v' out : shows v out -> (forall r c, (r < h)%nat -> (c < w)%nat -> v r c = v' r c) -> shows v' out.
  Proof. intros [L V] E. split; auto. intros. rewrite <- E by auto. auto. Qed.
  Lemma swap_all out : (w mod 2 = 0)%nat -> (h mod 2 = 0)%nat -> shows s out -> srw1_swap w h out = Ok (samples (swapped s) w h).
  Proof.
    intros We He H. unfold srw1_swap. rewrite (step2_even h He), for_each_map.
    pose proof (Nat.div_mod w 2 ltac:(lia)) as DW. pose proof (Nat.div_mod h 2 ltac:(lia)) as DH.
    destruct (for_each_seq_inv (fun i out => for_each (step_range 0 w 2) (fun col out => swap_px out (2 * i * w + col + 1) ((2 * i + 1) * w + col)) out)
      (fun i out => shows (swapped_to i 0) out) 0 (h / 2) out) as (out' & E & H').
    - apply (shows_ext _ _ _ H). intros r c _ _. unfold swapped_to. replace (r / 2 <? 0)%nat with false by lia. replace (c / 2 <? 0)%nat with false by lia. now rewrite andb_false_r.
    - intros i o Hi Ho. rewrite (step2_even w We), for_each_map.
      destruct (for_each_seq_inv (fun j out => swap_px out (2 * i * w + 2 * j + 1) ((2 * i + 1) * w + 2 * j)) (fun j out => shows (swapped_to i j) out) 0 (w / 2) o Ho) as (o' & E & H').
      + intros j o1 Hj H1. apply swap_one; [lia|lia|auto].
      + exists o'. split; [exact E|]. apply (shows_ext _ _ _ H'). intros r c Hr Hc. unfold swapped_to. assert (c / 2 < w / 2)%nat by (apply Nat.div_lt_upper_bound; lia).
        replace (c / 2 <? 0 + w / 2)%nat with true by lia. replace (c / 2 <? 0)%nat with false by lia. rewrite andb_true_r, andb_false_r, orb_false_r.
        destruct (Nat.ltb_spec (r / 2) i), (Nat.eqb_spec (r / 2) i), (Nat.ltb_spec (r / 2) (S i)); try lia; reflexivity.
    - rewrite E. f_equal. destruct H' as [L V]. unfold samples. apply (nth_ext_len _ _ 0); [now rewrite map_length, seq_length|]. intros k Hk. rewrite L in Hk. rewrite nth_map_seq by auto.
      assert (B1 : (k / w < h)%nat) by (apply Nat.div_lt_upper_bound; lia). assert (B2 : (k mod w < w)%nat) by (apply Nat.mod_upper_bound; lia).
      rewrite (Nat.div_mod k w) at 1 by lia. rewrite V by auto. unfold swapped_to. assert (k / w / 2 < h / 2)%nat by (apply Nat.div_lt_upper_bound; lia).
      now replace (k / w / 2 <? 0 + h / 2)%nat with true by lia.
  Qed.
  Theorem srw1_decoded : (w mod 2 = 0)%nat -> (h mod 2 = 0)%nat -> srw1_decode buf loffsets w h = Ok (samples (swapped s) w h).
  Proof.
    intros We He. unfold srw1_decode. destruct rows_ok as (out & E & L & V). rewrite E. cbn [bind]. apply swap_all; auto. split; auto.
  Qed.
End One.
