(** Olympus compressed data: the picture. *)
From Coq Require Import List ZArith Lia Bool.
From Coq Require Import ZifyBool ZifyNat.
From Verif Require Import Base BaseLemmas Pumps PumpProofs Crx CrxLL CrxPicture PefSpec SonySpec Orf OrfSpec OrfProofs.
Import ListNotations.
Open Scope Z_scope.

Lemma orf_predict_ok a b c : 0 <= a < 32768 -> 0 <= b < 32768 -> 0 <= c < 32768 -> orf_predict a b c = Ok (orf_gradient a b c).
Proof.
  intros Ha Hb Hc. unfold orf_predict, orf_gradient. rewrite (i32_ok (a - c)) by lia. cbn [bind]. rewrite (i32_ok (b - c)) by lia. cbn [bind].
  assert (- 1073741824 <= (a - c) * (b - c) <= 1073741824) by nia. rewrite i32_ok by lia. cbn [bind].
  assert (S : ((a - c) * (b - c) <? 0) = (a <? c) && (c <? b) || (b <? c) && (c <? a)).
  { destruct (Z.ltb_spec a c), (Z.ltb_spec c b), (Z.ltb_spec b c), (Z.ltb_spec c a); cbn [andb orb]; try lia; apply Z.ltb_lt || apply Z.ltb_ge; nia. }
  rewrite S. destruct (_ || _).
  - replace ((32 <? Z.abs (a - c)) || (32 <? Z.abs (b - c))) with (negb ((Z.abs (a - c) <=? 32) && (Z.abs (b - c) <=? 32))) by lia.
    destruct (_ && _); cbn [negb].
    + rewrite i32_ok by lia. cbn [bind]. rewrite Z.shiftr_div_pow2 by lia. reflexivity.
    + rewrite i32_ok by lia. f_equal. lia.
  - replace (Z.abs (b - c) <? Z.abs (a - c)) with (negb (Z.abs (a - c) <=? Z.abs (b - c))) by lia. destruct (_ <=? _); reflexivity.
Qed.
Lemma gradient_range a b c : 0 <= a < 32768 -> 0 <= b < 32768 -> 0 <= c < 32768 -> - 32768 <= orf_gradient a b c <= 65534.
Proof.
  intros Ha Hb Hc. unfold orf_gradient. destruct (_ || _); [|destruct (_ <=? _); lia]. destruct (_ && _); [|lia].
  assert (0 <= (a + b) / 2) by (apply Z.div_pos; lia). assert ((a + b) / 2 <= 65534) by (apply Z.div_le_upper_bound; lia). lia.
Qed.
Lemma orf_join_ok v : - 65536 <= v < 65536 -> orf_join (v / 4) (v mod 4) = v.
Proof.
  intros H. pose proof (Z.mod_pos_bound v 4 ltac:(lia)) as M. pose proof (Z.div_mod v 4 ltac:(lia)) as D. unfold orf_join.
  rewrite Z.shiftl_mul_pow2 by lia. change (2 ^ 2) with 4. rewrite wrap_i32_small by (change (2 ^ 31) with 2147483648; lia).
  pose proof (lor_add_disjoint (v / 4) (v mod 4) 2) as X. change (2 ^ Z.of_nat 2) with 4 in X. rewrite X by lia. lia.
Qed.

Lemma rc_inj w r c r' c' : (c < w)%nat -> (c' < w)%nat -> (r * w + c = r' * w + c')%nat -> r = r' /\ c = c'.
Proof.
  intros H1 H2 E. destruct (Nat.lt_trichotomy r r') as [L|[L|L]]; [exfalso| |exfalso].
  - assert ((S r) * w <= r' * w)%nat by (apply Nat.mul_le_mono_r; lia). lia.
  - subst. lia.
  - assert ((S r') * w <= r * w)%nat by (apply Nat.mul_le_mono_r; lia). lia.
Qed.
Section Rows.
  Variables (w h : nat) (l0 : list bool) (s : nat -> nat -> Z).
  Notation e := (paired w).
  Hypothesis HD : orf_data e l0 (e * h).
  Hypothesis HS : orf_picture (orf_value_at e l0) e h s.
  Hypothesis HP : picture_within s e h 32768.
  Hypothesis HW : Z.of_nat w < 2 ^ 31 - 2.

  Lemma e_le : (e <= w)%nat.
  Proof. unfold paired. rewrite Nat.mul_comm. apply Nat.mul_div_le. lia. Qed.
  Lemma pred_range r c : (r < h)%nat -> (c < e)%nat -> - 32768 <= orf_pred s r c <= 65534.
  Proof.
    intros Hr Hc. unfold orf_pred. destruct (Nat.ltb_spec r 2), (Nat.ltb_spec c 2); [lia| | |].
    - pose proof (HP r (c - 2)%nat Hr ltac:(lia)). lia.
    - pose proof (HP (r - 2)%nat c ltac:(lia) Hc). lia.
    - apply gradient_range; apply HP; lia.
  Qed.
  Lemma value_range r c : (r < h)%nat -> (c < e)%nat -> - 65536 <= orf_value_at e l0 (r * e + c) < 65536.
  Proof. intros Hr Hc. pose proof (HS r c Hr Hc) as X. pose proof (HP r c Hr Hc). pose proof (pred_range r c Hr Hc). lia. Qed.
  Lemma in_row r c : (c < e)%nat -> ((r * e + c) mod e = c)%nat.
  Proof. intros H. rewrite Nat.add_comm, Nat.mod_add by lia. apply Nat.mod_small. auto. Qed.

  (** samples before (r, c) are in place, the rest is still zero *)
  Definition placed (r c : nat) (out : list Z) : Prop := length out = (w * h)%nat /\
    forall r' c', (r' < h)%nat -> (c' < w)%nat -> nth (r' * w + c') out 0 = if ((r' <? r) || (r' =? r) && (c' <? c))%nat then orf_out s w r' c' else 0.
  Lemma placed_put r c out : placed r c out -> (r < h)%nat -> (c < e)%nat ->
    exists out', put out (r * w + c) (wrap_u16 (s r c)) = Ok out' /\ placed r (S c) out'.
  Proof.
    intros [L P] Hr Hc. pose proof e_le as EL. assert (B : (r * w + c < w * h)%nat) by nia. rewrite put_ok by lia. eexists. split; [reflexivity|].
    split; [now rewrite upd_list_length|]. intros r' c' Hr' Hc'. pose proof (HP r c Hr Hc) as X.
    destruct (Nat.eq_dec (r' * w + c') (r * w + c)) as [E|E].
    - assert (r' = r /\ c' = c) as [-> ->] by (apply (rc_inj w); lia). rewrite nth_upd_eq by lia. replace ((r <? r) || (r =? r) && (c <? S c))%nat with true by lia.
      unfold orf_out. replace (c <? e)%nat with true by lia. unfold wrap_u16. apply Z.mod_small. change (2 ^ 16) with 65536. lia.
    - rewrite nth_upd_neq by auto. rewrite P by auto. replace ((r' <? r) || (r' =? r) && (c' <? S c))%nat with ((r' <? r) || (r' =? r) && (c' <? c))%nat; [reflexivity|].
      assert (N : r' = r -> c' <> c) by (intros -> ->; now apply E). clear - N. destruct (Nat.eqb_spec r' r); [specialize (N e)|]; lia.
  Qed.
  Lemma placed_get r c out r' c' : placed r c out -> (r' < r)%nat -> (r < h)%nat -> (c' < e)%nat -> get out (r' * w + c') = Ok (s r' c').
  Proof.
    intros [L P] H1 H2 H3. pose proof e_le. rewrite (get_ok _ _ 0) by nia. rewrite P by lia. replace ((r' <? r) || (r' =? r) && (c' <? c))%nat with true by lia.
    unfold orf_out. now replace (c' <? e)%nat with true by lia.
  Qed.

  (** one sample *)
  Lemma sample_ok r col q k1 k2 l acarry lf nw p out : (r < h)%nat -> (col + q < e)%nat -> (q < 2)%nat -> (col = 0 \/ 2 <= col)%nat ->
    orf_at_row e (r * e + (col + q)) (orf_upto e l0 (r * e + (col + q))) = (k1, k2, l) ->
    length acarry = 2%nat -> nth q acarry (0, 0, 0) = k1 -> carry_ok k1 (Z.of_nat (col + q)) -> msb_rep (length l) p l ->
    length lf = 2%nat -> length nw = 2%nat -> placed r (col + q) out ->
    ((2 <= col)%nat -> nth q lf 0 = s r (col + q - 2)%nat) -> ((2 <= col)%nat -> (2 <= r)%nat -> nth q nw 0 = s (r - 2)%nat (col + q - 2)%nat) ->
    exists k l' nw' p' out', orf_sample w r col q (acarry, lf, nw, p, out) = Ok (upd_list acarry q k, upd_list lf q (s r (col + q)%nat), nw', p', out') /\
      orf_upto e l0 (S (r * e + (col + q))) = (k2, k, l') /\ carry_ok k (Z.of_nat (col + q) + 1) /\ msb_rep (length l') p' l' /\
      length nw' = 2%nat /\ ((2 <= r)%nat -> nth q nw' 0 = s (r - 2)%nat (col + q)%nat) /\ (forall j, j <> q -> nth j nw' 0 = nth j nw 0) /\ placed r (S (col + q)) out'.
  Proof.
    intros Hr Hc Hq Hcol EU La Ek Ck R Ll Ln PL HL HN. set (cc := (col + q)%nat) in *. pose proof e_le as EL.
    assert (EV : orf_value_at e l0 (r * e + cc) = fst (fst (orf_read k1 l))).
    { unfold orf_value_at, orf_next. rewrite EU. destruct (orf_read k1 l) as [[v k] t]. reflexivity. }
    assert (ES : orf_upto e l0 (S (r * e + cc)) = (k2, snd (fst (orf_read k1 l)), snd (orf_read k1 l))).
    { cbn [orf_upto]. unfold orf_next. rewrite EU. destruct (orf_read k1 l) as [[v k] t]. reflexivity. }
    assert (DL : (32 <= length l)%nat).
    { assert (BI : (r * e + cc < e * h)%nat) by nia. pose proof (HD _ BI) as X. replace l with (snd (orf_upto e l0 (r * e + cc))); [exact X|].
      unfold orf_at_row in EU. destruct (_ =? _)%nat; [|now rewrite EU]. congruence. }
    pose proof (value_range r cc Hr Hc) as VR. rewrite EV in VR.
    destruct (orf_value_ok p l k1 (Z.of_nat cc) R DL Ck ltac:(lia) VR) as (p' & EO & R' & C').
    pose proof (HS r cc Hr Hc) as HSc. rewrite EV in HSc. set (v := fst (fst (orf_read k1 l))) in *. set (k := snd (fst (orf_read k1 l))) in *. set (l' := snd (orf_read k1 l)) in *. clearbody v k l'.
    pose proof (HP r cc Hr Hc) as PC.
    destruct (placed_put r cc out PL Hr Hc) as (out' & EP & PL').
    unfold orf_sample. rewrite (get_ok _ _ (0, 0, 0)) by lia. rewrite Ek. cbn [bind]. rewrite EO. cbn [bind]. rewrite put_ok by lia. cbn [bind]. rewrite orf_join_ok by lia. fold cc.
    exists k, l'. unfold orf_pred in HSc. destruct (Nat.ltb_spec r 2) as [R2|R2]; cbn [orb andb].
    - exists nw, p', out'. replace (if (col <? 2)%nat then Ok (0, nw) else do l <- get lf q; Ok (l, nw)) with (Ok (s r cc - v, nw) : res (Z * list Z)).
      + cbn [bind]. replace (s r cc - v + v) with (s r cc) by lia. rewrite i32_ok by lia. cbn [bind]. rewrite put_ok by lia. cbn [bind]. rewrite EP. cbn [bind].
        split; [reflexivity|]. split; [exact ES|]. split; [exact C'|]. split; [exact R'|]. split; [auto|]. split; [lia|]. split; auto.
      + destruct (Nat.ltb_spec col 2) as [C2|C2].
        * replace (cc <? 2)%nat with true in HSc by lia. f_equal. f_equal. lia.
        * replace (cc <? 2)%nat with false in HSc by lia. rewrite (get_ok _ _ 0) by lia. cbn [bind]. rewrite (HL C2). f_equal. f_equal. lia.
    - destruct (Nat.ltb_spec col 2) as [C2|C2]; cbn [orb andb].
      + replace (cc <? 2)%nat with true in HSc by lia. rewrite usub_ok by lia. cbn [bind]. rewrite (placed_get r cc out (r - 2) cc PL) by lia. cbn [bind]. rewrite put_ok by lia. cbn [bind].
        rewrite <- HSc. rewrite i32_ok by lia. cbn [bind]. rewrite put_ok by lia. cbn [bind]. rewrite EP. cbn [bind].
        eexists _, _, _. split; [reflexivity|]. split; [exact ES|]. split; [exact C'|]. split; [exact R'|]. split; [now rewrite upd_list_length|]. split; [intros _; apply nth_upd_eq; lia|]. split; [intros j Hj; apply nth_upd_neq; auto|auto].
      + replace (cc <? 2)%nat with false in HSc by lia. rewrite usub_ok by lia. cbn [bind]. rewrite (placed_get r cc out (r - 2) cc PL) by lia. cbn [bind].
        rewrite (get_ok lf _ 0) by lia. cbn [bind]. rewrite (get_ok nw _ 0) by lia. cbn [bind]. rewrite (HL C2), (HN C2 R2).
        rewrite orf_predict_ok by (apply HP; lia). cbn [bind]. rewrite <- HSc. rewrite i32_ok by lia. cbn [bind]. rewrite put_ok by lia. cbn [bind]. rewrite put_ok by lia. cbn [bind]. rewrite EP. cbn [bind].
        eexists _, _, _. split; [reflexivity|]. split; [exact ES|]. split; [exact C'|]. split; [exact R'|]. split; [now rewrite upd_list_length|]. split; [intros _; apply nth_upd_eq; lia|]. split; [intros j Hj; apply nth_upd_neq; auto|auto].
  Qed.

  (** two neighbouring samples *)
  Definition pair_inv (r c : nat) (st : orf_state) : Prop :=
    let '(acarry, lf, nw, p, out) := st in
    exists u1 u2 l, orf_upto e l0 (r * e + 2 * c) = (u1, u2, l) /\ acarry = (if (c =? 0)%nat then [orf_fresh; orf_fresh] else [u1; u2]) /\
      ((0 < c)%nat -> carry_ok u1 (Z.of_nat (2 * c)) /\ carry_ok u2 (Z.of_nat (2 * c))) /\ msb_rep (length l) p l /\
      length lf = 2%nat /\ length nw = 2%nat /\ placed r (2 * c) out /\
      ((0 < c)%nat -> forall q, (q < 2)%nat -> nth q lf 0 = s r (2 * c + q - 2)%nat) /\
      ((0 < c)%nat -> (2 <= r)%nat -> forall q, (q < 2)%nat -> nth q nw 0 = s (r - 2)%nat (2 * c + q - 2)%nat).
  Lemma pair_ok r c st : (r < h)%nat -> (2 * c + 1 < e)%nat -> pair_inv r c st ->
    exists st', for_each (seq 0 2) (fun q st => orf_sample w r (c * 2) q st) st = Ok st' /\ pair_inv r (S c) st'.
  Proof.
    destruct st as [[[[acarry lf] nw] p] out]. intros Hr Hc (u1 & u2 & l & EU & EA & CU & R & Ll & Ln & PL & HL & HN).
    assert (EVEN : exists x, e = (2 * x)%nat) by (exists (w / 2)%nat; unfold paired; lia).
    set (k1 := if (c =? 0)%nat then orf_fresh else u1). set (k2 := if (c =? 0)%nat then orf_fresh else u2).
    assert (EA' : acarry = [k1; k2]) by (unfold k1, k2; rewrite EA; destruct (c =? 0)%nat; reflexivity). clear EA. subst acarry.
    assert (E1 : orf_at_row e (r * e + (c * 2 + 0)) (orf_upto e l0 (r * e + (c * 2 + 0))) = (k1, k2, l)).
    { unfold orf_at_row. rewrite in_row by lia. replace (r * e + (c * 2 + 0))%nat with (r * e + 2 * c)%nat by lia. rewrite EU. unfold k1, k2. destruct (Nat.eqb_spec c 0) as [->|N]; [reflexivity|].
      replace (c * 2 + 0 =? 0)%nat with false by lia. reflexivity. }
    assert (CK : carry_ok k1 (Z.of_nat (2 * c)) /\ carry_ok k2 (Z.of_nat (2 * c))).
    { unfold k1, k2. destruct (Nat.eqb_spec c 0) as [->|N]; [unfold carry_ok, orf_fresh; lia|apply CU; lia]. }
    destruct CK as [CK1 CK2]. change (seq 0 2) with [0; 1]%nat. cbn [for_each].
    destruct (sample_ok r (c * 2) 0 k1 k2 l [k1; k2] lf nw p out) as (ka & la & nwa & pa & outa & X1 & X2 & X3 & X4 & X5 & X6 & X7 & X8); auto; try lia.
    { now replace (c * 2 + 0)%nat with (2 * c)%nat by lia. }
    { now replace (c * 2 + 0)%nat with (2 * c)%nat by lia. }
    { intros. replace (c * 2 + 0)%nat with (2 * c + 0)%nat by lia. apply HL; lia. }
    { intros. replace (c * 2 + 0)%nat with (2 * c + 0)%nat by lia. apply HN; lia. }
    rewrite X1. cbn [bind upd_list].
    replace (S (r * e + (c * 2 + 0)))%nat with (r * e + (c * 2 + 1))%nat in X2 by lia.
    assert (E2 : orf_at_row e (r * e + (c * 2 + 1)) (orf_upto e l0 (r * e + (c * 2 + 1))) = (k2, ka, la)).
    { unfold orf_at_row. rewrite in_row by lia. rewrite X2. replace (c * 2 + 1 =? 0)%nat with false by lia. reflexivity. }
    assert (Lu : length (upd_list lf 0 (s r (c * 2 + 0)%nat)) = 2%nat) by (now rewrite upd_list_length).
    destruct (sample_ok r (c * 2) 1 k2 ka la [ka; k2] (upd_list lf 0 (s r (c * 2 + 0)%nat)) nwa pa outa) as (kb & lb & nwb & pb & outb & Y1 & Y2 & Y3 & Y4 & Y5 & Y6 & Y7 & Y8); auto; try lia.
    { clear - CK2. destruct k2 as [[a b] n]. unfold carry_ok in *. lia. }
    { now replace (c * 2 + 1)%nat with (S (c * 2 + 0))%nat by lia. }
    { intros. rewrite nth_upd_neq by lia. rewrite HL by lia. f_equal. lia. }
    { intros. rewrite X7 by lia. rewrite HN by lia. f_equal. lia. }
    rewrite Y1. cbn [bind upd_list]. eexists. split; [reflexivity|]. exists ka, kb, lb.
    split; [replace (r * e + 2 * S c)%nat with (S (r * e + (c * 2 + 1))) by lia; exact Y2|]. split; [reflexivity|]. split.
    { intros _. clear - X3 Y3. destruct ka as [[a b] n], kb as [[a' b'] n']. unfold carry_ok in *. lia. }
    split; [exact Y4|]. split; [now rewrite !upd_list_length|]. split; [auto|]. split; [now replace (2 * S c)%nat with (S (c * 2 + 1)) by lia|]. split.
    - intros _ q Hq. destruct q as [|[|q]]; [| |lia].
      + rewrite nth_upd_neq by lia. rewrite nth_upd_eq by lia. f_equal. lia.
      + rewrite nth_upd_eq by lia. f_equal. lia.
    - intros _ R2 q Hq. destruct q as [|[|q]]; [| |lia].
      + rewrite Y7 by lia. rewrite X6 by lia. f_equal. lia.
      + rewrite Y6 by lia. f_equal. lia.
  Qed.

  Definition row_inv (r : nat) (st : list Z * list Z * wpump * list Z) : Prop :=
    let '(lf, nw, p, out) := st in
    length lf = 2%nat /\ length nw = 2%nat /\ placed r 0 out /\ msb_rep (length (snd (orf_upto e l0 (r * e)))) p (snd (orf_upto e l0 (r * e))).
  Lemma row_ok r st : (r < h)%nat -> row_inv r st -> exists st', orf_row w r st = Ok st' /\ row_inv (S r) st'.
  Proof.
    destruct st as [[[lf nw] p] out]. intros Hr (Ll & Ln & PL & R). unfold orf_row.
    match goal with |- context [for_each (seq 0 (w / 2)) ?G ?S0] => destruct (for_each_seq_inv G (pair_inv r) 0 (w / 2)%nat S0) as (st & E & I) end.
    - destruct (orf_upto e l0 (r * e)) as [[u1 u2] l] eqn:EU. exists u1, u2, l. cbn [snd] in R. split; [rewrite <- EU; f_equal; lia|]. split; [reflexivity|]. split; [lia|]. split; [exact R|].
      split; [auto|]. split; [auto|]. split; [exact PL|]. split; lia.
    - intros c st Hc I. apply pair_ok; auto. unfold paired. lia.
    - change (0 + w / 2)%nat with (w / 2)%nat in I. rewrite E. destruct st as [[[[ac lf'] nw'] p'] out']. cbn [bind]. eexists. split; [reflexivity|].
      destruct I as (u1 & u2 & l & EU & _ & _ & R' & Ll' & Ln' & PL' & _). split; [auto|]. split; [auto|]. split.
      + destruct PL' as [L P]. split; [auto|]. intros r' c' Hr' Hc'. rewrite P by auto. unfold orf_out, paired.
        replace (c' <? 0)%nat with false by lia. replace (2 * (w / 2))%nat with (w / 2 * 2)%nat by lia.
        destruct (Nat.ltb_spec c' (w / 2 * 2)); [replace ((r' <? r) || (r' =? r) && true)%nat with ((r' <? S r) || (r' =? S r) && false)%nat by lia; reflexivity|].
        destruct (_ || _), (_ || _); reflexivity.
      + replace (S r * e)%nat with (r * e + 2 * (w / 2))%nat by (unfold paired; lia). rewrite EU. exact R'.
  Qed.
End Rows.

Lemma orf_any w h bps header src s : length header = orf_header bps -> Forall is_byte src -> Z.of_nat w < 2 ^ 31 - 2 ->
  orf_data (paired w) (byte_bits src) (paired w * h) -> orf_picture (orf_value_at (paired w) (byte_bits src)) (paired w) h s ->
  picture_within s (paired w) h 32768 ->
  orf_decode (header ++ src) w h bps = Ok (samples (orf_out s w) w h).
Proof.
  intros Lh Hb HW HD HS HP. unfold orf_decode. fold (orf_header bps). rewrite <- Lh. rewrite slice_ok by (rewrite app_length; lia). cbn [bind].
  replace (firstn (length (header ++ src) - length header) (skipn (length header) (header ++ src))) with src.
  2:{ rewrite app_length, skipn_app, Nat.sub_diag, skipn_all2 by lia. cbn [app skipn]. rewrite firstn_all2 by lia. reflexivity. }
  destruct (for_each_seq_inv (orf_row w) (row_inv w h (byte_bits src) s) 0 h ([0; 0], [0; 0], wpump_new src, repeat 0 (w * h))) as (st & E & I).
  - split; [reflexivity|]. split; [reflexivity|]. split.
    + split; [apply repeat_length|]. intros r c Hr Hc. rewrite nth_repeat. replace ((r <? 0) || (r =? 0) && (c <? 0))%nat with false by lia. reflexivity.
    + cbn [Nat.mul orf_upto snd]. apply msb_new_rep; auto. rewrite byte_bits_length. lia.
  - intros r st Hr I. apply row_ok; auto; lia.
  - rewrite E. cbn [bind]. destruct st as [[[lf nw] p] out]. destruct I as (_ & _ & [L P] & _). f_equal. change (0 + h)%nat with h in P.
    apply (nth_ext_len _ _ 0); [unfold samples; now rewrite map_length, seq_length|]. intros i Hi. rewrite L in Hi. unfold samples. rewrite nth_map_seq by auto.
    assert (W0 : (w <> 0)%nat) by (intros ->; lia). pose proof (Nat.div_mod i w W0) as DM. pose proof (Nat.mod_upper_bound i w W0) as MB.
    assert (DB : (i / w < h)%nat) by (apply Nat.div_lt_upper_bound; lia).
    replace i with (i / w * w + i mod w)%nat at 1 by lia. rewrite P by auto. replace ((i / w <? h) || (i / w =? h) && (i mod w <? 0))%nat with true by lia. reflexivity.
Qed.
