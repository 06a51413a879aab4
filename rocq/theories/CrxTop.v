(** Proofs: whole bands. *)
From Coq Require Import List ZArith Bool Lia.
From Verif Require Import Base BaseLemmas Crx CrxSpec CrxProofs CrxLines CrxLL.
Import ListNotations.
Open Scope Z_scope.

Lemma bind_pair {A B C D} (e : res (A * B)) (g : A -> B -> res C) (K : C -> res D) :
  (do (a, b) <- e; do c <- g a b; K c) = bind (bind e (fun p => let '(a, b) := p in g a b)) K.
Proof. destruct e as [[a b]| |]; reflexivity. Qed.

(** A state at column 0. *)
Lemma St_init row a0 cur lk k s bits :
  length cur = (length row + 2)%nat -> length lk = (length row + 2)%nat -> nth 0 cur 0 = a0 -> (k <= 15)%nat -> (s <= 31)%nat ->
  St row a0 0 (mk_lst 1 cur lk s k bits).
Proof. intros. unfold St; cbn. repeat split; auto. intros; lia. Qed.

Lemma store_a_ok row v t : l_pos t = 1%nat -> length (l_cur t) = (length row + 2)%nat -> length (l_lk t) = (length row + 2)%nat ->
  (l_k t <= 15)%nat -> (l_s t <= 31)%nat ->
  exists t', store_a v t = Ok t' /\ St row v 0 t' /\ l_bits t' = l_bits t /\ l_k t' = l_k t /\ l_s t' = l_s t /\ l_lk t' = l_lk t.
Proof.
  intros P L LK K Hs. unfold store_a. rewrite P. cbn [usub Nat.leb Nat.sub bind]. rewrite put_ok by lia. cbn [bind].
  eexists; split; [reflexivity|]. split; [|auto]. unfold St; cbn. rewrite upd_list_length.
  repeat split; auto; [apply nth_upd_eq; lia|intros; lia].
Qed.

Lemma finish_ok row a0 t : St row a0 (length row) t -> Forall sample_ok row -> sample_ok a0 ->
  exists t', finish t = Ok t' /\ length (l_cur t') = (length row + 2)%nat /\ l_lk t' = l_lk t /\ l_bits t' = l_bits t /\
    l_k t' = l_k t /\ l_s t' = l_s t /\ (forall j, (j < length row)%nat -> nth (S j) (l_cur t') 0 = nth j row 0).
Proof.
  intros H Hrow Ha0. unfold finish. pose proof H as (P & L & LK & A0 & C & K & Hs).
  destruct (Nat.ltb_spec (l_pos t) (length (l_cur t))); [|lia]. cbn [assert_ bind].
  rewrite (St_a _ _ _ _ H) by lia. cbn [bind].
  assert (sample_ok (left_of row a0 (length row))) as Hl.
  { destruct (length row) eqn:E; [exact Ha0|]. cbn [left_of]. rewrite Forall_forall in Hrow. apply Hrow, nth_In. lia. }
  unfold sample_ok in Hl. rewrite i32_ok by lia. cbn [bind]. unfold store. rewrite put_ok by lia. cbn [bind].
  eexists; split; [reflexivity|]. cbn. rewrite upd_list_length. repeat split; auto.
  intros j Hj. rewrite nth_upd_neq by lia. apply C. lia.
Qed.

Section Band.
  Variables (w h : nat) (mask : Z) (ll : bool).
  Hypothesis Hmask : ll = true -> mask <= 0.

  (** After some lines, the last of them [row] with parameters [ks]. *)
  Definition Inv (n : nat) (row : list Z) (ks : list nat) (k s : nat) (bits : list bool) (p : band) : Prop :=
    b_w p = w /\ b_h p = h /\ b_mask p = mask /\ b_partial p = ll /\ b_line p = n /\
    length (b_prev p) = (w + 2)%nat /\ length (b_cur p) = (w + 2)%nat /\ length (b_lk p) = (w + 2)%nat /\
    (forall j, (j < w)%nat -> nth (S j) (b_cur p) 0 = nth j row 0) /\
    b_k p = k /\ b_s p = s /\ b_bits p = bits /\ (k <= 15)%nat /\ (s <= 31)%nat /\
    (ll = false -> nth 0 (b_prev p) 0 = 0 /\ nth 0 (b_cur p) 0 = 0 /\
       (forall j, (j < w)%nat -> nth j (b_lk p) 0%nat = nth j ks 0%nat) /\ Forall (fun k => (k <= 15)%nat) ks).

  Lemma first_line row b ks k1 s1 rest p :
    length row = w -> Forall sample_ok row -> (1 <= h)%nat ->
    b_w p = w -> b_h p = h -> b_mask p = mask -> b_partial p = ll -> b_line p = 0%nat ->
    b_prev p = repeat 0 (w + 2) -> b_cur p = repeat 0 (w + 2) -> b_lk p = repeat 0%nat (w + 2) ->
    line_code (line_kind ll None [] row) row (length row) 0 0 0 = (b, ks, k1, s1) -> b_bits p = b ++ rest ->
    exists p', decode_line p = Ok p' /\ Inv 1 row ks k1 s1 rest p'.
  Proof.
    intros Hw Hrow Hh Pw Ph Pm Pp Pl Ppr Pc Plk E Eb. unfold decode_line.
    rewrite Pl, Ph. destruct (Nat.ltb_spec 0 h); [|lia]. cbn [assert_ bind]. change (0 =? 0)%nat with true. cbv iota zeta.
    rewrite Pp, Pw, Pm, Ppr, Pc, Plk. cbn [line_kind] in E.
    assert (length (repeat 0 (w + 2)) = (length row + 2)%nat) as L1 by (rewrite repeat_length; lia).
    assert (length (repeat 0%nat (w + 2)) = (length row + 2)%nat) as L2 by (rewrite repeat_length; lia).
    assert (sample_ok 0) as H0 by (unfold sample_ok; lia).
    destruct ll eqn:Ell.
    - destruct (Z.leb_spec mask 0); [|specialize (Hmask eq_refl); lia].
      unfold decode_top.
      destruct (store_a_ok row 0 (mk_lst 1 (repeat 0 (w + 2)) (repeat 0%nat (w + 2)) 0 0 (b_bits p))) as (t1 & A1 & S1 & B1 & K1 & Q1 & LK1);
        [reflexivity|cbn [l_cur]; lia|cbn [l_lk]; lia|cbn [l_k]; lia|cbn [l_s]; lia|].
      rewrite A1. cbn [bind]. cbn [l_bits l_k l_s] in *.
      destruct (top_ok row Hrow 0 H0 rest eq_refl (S w) (length row) 0 t1 b ks k1 s1) as (t2 & A2 & S2 & B2 & K2 & Q2); auto; try lia.
      { rewrite K1, Q1. exact E. } { congruence. }
      rewrite Nat.sub_0_r, Hw in A2.
      rewrite bind_pair. change (fun p0 : nat * lst => _) with tail_top. rewrite A2. cbn [bind].
      destruct (finish_ok row 0 t2 S2 Hrow H0) as (t3 & A3 & L3 & LK3 & B3 & K3 & Q3 & C3). rewrite A3. cbn [bind].
      eexists; split; [reflexivity|]. pose proof S2 as (_ & _ & LK & _ & _ & Hk & Hs).
      unfold Inv; cbn. rewrite repeat_length. rewrite Hw in *. rewrite LK3, B3, K3, Q3, B2, K2, Q2.
      do 14 (split; [auto; try lia; try congruence|]). congruence.
    - unfold decode_top_nr. cbn [l_pos usub Nat.leb Nat.sub bind]. rewrite put_ok by lia. cbn [bind].
      destruct (store_a_ok row 0 (mk_lst 1 (repeat 0 (w + 2)) (repeat 0%nat (w + 2)) 0 0 (b_bits p))) as (t1 & A1 & S1 & B1 & K1 & Q1 & LK1);
        [reflexivity|cbn [l_cur]; lia|cbn [l_lk]; lia|cbn [l_k]; lia|cbn [l_s]; lia|].
      rewrite A1. cbn [bind]. cbn [l_bits l_k l_s] in *.
      destruct (top_nr_ok row Hrow rest (S w) (length row) 0 t1 b ks k1 s1) as (t2 & A2 & R); auto; try lia.
      { rewrite K1, Q1. exact E. } { congruence. }
      rewrite Nat.sub_0_r, Hw in A2.
      rewrite bind_pair. change (fun p0 : nat * lst => _) with tail_nr. rewrite A2. cbn [bind].
      destruct R as (S2 & B2 & K2 & Q2 & LKa & _). pose proof S2 as (P2 & L2' & LK & A0 & C & Hk & Hs).
      destruct (Nat.ltb_spec (l_pos t2) (length (l_cur t2))); [|lia]. cbn [assert_ bind].
      unfold store. rewrite put_ok by lia. cbn [bind]. eexists; split; [reflexivity|].
      apply line_code_bounds in E; try lia.
      2:{ intros i v kk Hkk. change (Nat.min 15 (next_k kk v) <= 15)%nat. lia. }
      destruct E as (Lks & _ & Fks).
      unfold Inv; cbn. rewrite !upd_list_length, repeat_length. rewrite Hw in *.
      do 8 (split; [auto; try lia; try congruence|]).
      split; [intros j Hj; rewrite nth_upd_neq by lia; apply C; lia|].
      do 5 (split; [auto; try lia; try congruence|]).
      intros _. split; [rewrite nth_upd_eq by (rewrite repeat_length; lia); reflexivity|].
      split; [rewrite nth_upd_neq by lia; exact A0|]. split; [|exact Fks].
      intros j Hj. rewrite LKa by lia. now rewrite Nat.sub_0_r.
  Qed.

  Lemma next_line n above aks k s row b ks k1 s1 rest p :
    length row = w -> Forall sample_ok row -> length above = w -> (ll = true -> Forall sample_ok above) -> (n < h)%nat -> (1 <= n)%nat -> (1 <= w)%nat ->
    line_code (line_kind ll (Some above) aks row) row (length row) 0 k s = (b, ks, k1, s1) ->
    Inv n above aks k s (b ++ rest) p ->
    exists p', decode_line p = Ok p' /\ Inv (S n) row ks k1 s1 rest p'.
  Proof.
    intros Hw Hrow Hwa Habove Hh Hn Hw1 E (Pw & Ph & Pm & Pp & Pl & Lp & Lc & Llk & C & Ek & Es & Eb & Hk & Hs & Hnr).
    unfold decode_line. rewrite Pl, Ph. destruct (Nat.ltb_spec n h); [|lia]. cbn [assert_ bind].
    destruct (Nat.eqb_spec n 0); [lia|]. cbv iota zeta. cbn [andb].
    rewrite Pp, Pw, Pm, Ek, Es, Eb. cbn [line_kind] in E.
    destruct ll eqn:Ell.
    - cbn [negb]. specialize (Habove eq_refl). destruct (Z.leb_spec mask 0); [|specialize (Hmask eq_refl); lia].
      unfold decode_nontop. unfold coeff_b at 1. cbn [l_pos]. rewrite (get_ok _ _ 0) by lia. cbn [bind].
      rewrite C by lia.
      assert (sample_ok (nth 0 above 0)) as Hs0.
      { rewrite Forall_forall in Habove. apply Habove, nth_In. lia. }
      destruct (store_a_ok row (nth 0 above 0) (mk_lst 1 (b_prev p) (b_lk p) s k (b ++ rest))) as (t1 & A1 & S1 & B1 & K1 & Q1 & LK1);
        [reflexivity|cbn [l_cur]; lia|cbn [l_lk]; lia|cbn [l_k]; lia|cbn [l_s]; lia|].
      rewrite A1. cbn [bind]. cbn [l_bits l_k l_s] in *.
      destruct (nontop_ok row Hrow (nth 0 above 0) (b_cur p) above ltac:(lia) ltac:(intros; apply C; lia) Habove rest eq_refl
                  (S w) (length row) 0 t1 b ks k1 s1) as (t2 & A2 & S2 & B2 & K2 & Q2); auto; try lia.
      { rewrite K1, Q1. exact E. }
      rewrite Nat.sub_0_r, Hw in A2.
      rewrite bind_pair. change (fun p0 : nat * lst => _) with (tail_nontop (b_cur p)). rewrite A2. cbn [bind].
      destruct (finish_ok row _ t2 S2 Hrow Hs0) as (t3 & A3 & L3 & LK3 & B3 & K3 & Q3 & C3). rewrite A3. cbn [bind].
      eexists; split; [reflexivity|]. pose proof S2 as (_ & _ & LK & _ & _ & Hk' & Hs').
      unfold Inv; cbn. rewrite Hw in *. rewrite LK3, B3, K3, Q3, B2, K2, Q2.
      do 14 (split; [auto; try lia; try congruence|]). congruence.
    - cbn [negb]. destruct (Hnr eq_refl) as (Z0 & Z1 & Hlk & Hks).
      unfold decode_nontop_nr.
      pose proof (St_init row 0 (b_prev p) (b_lk p) k s (b ++ rest) ltac:(lia) ltac:(lia) Z0 Hk Hs) as S1.
      destruct (nontop_nr_ok row Hrow (b_cur p) above aks ltac:(lia) ltac:(intros; apply C; lia) Hks rest
        (S w) (length row) 0 _ b ks k1 s1 S1) as (t2 & A2 & R); auto; try lia.
      { intros j Hj. cbn [l_lk]. apply Hlk. lia. }
      rewrite Nat.sub_0_r, Hw in A2.
      rewrite bind_pair. change (fun p0 : nat * lst => _) with tail_nr. rewrite A2. cbn [bind].
      destruct R as (S2 & B2 & K2 & Q2 & LKa & _). pose proof S2 as (P2 & L2' & LK & A0 & C2 & Hk2 & Hs2).
      destruct (Nat.ltb_spec (l_pos t2) (length (l_cur t2))); [|lia]. cbn [assert_ bind].
      eexists; split; [reflexivity|].
      apply line_code_bounds in E; try lia.
      2:{ intros i v kk Hkk. change (kd_next _ i v kk) with
            (if (S i <? length row)%nat then adj (nth (S i) aks 0%nat) (next_k kk v) else Nat.min 15 (next_k kk v)).
          destruct (S i <? length row)%nat; [apply adj_le; apply pk_le; exact Hks|lia]. }
      destruct E as (Lks & _ & Fks).
      unfold Inv; cbn. rewrite Hw in *.
      do 14 (split; [auto; try lia; try congruence|]).
      intros _. split; [exact Z1|]. split; [exact A0|]. split; [|exact Fks].
      intros j Hj. rewrite LKa by lia. now rewrite Nat.sub_0_r.
  Qed.

  Lemma decoded_ok n row ks k s bits p : length row = w -> Inv n row ks k s bits p -> decoded_buf p = Ok row.
  Proof.
    intros Hw (Pw & _ & _ & _ & _ & _ & Lc & _ & C & _). unfold decoded_buf. rewrite Pw, slice_ok by lia. f_equal.
    apply nth_ext_len with 0; [rewrite firstn_length, skipn_length; lia|].
    intros i Hi. rewrite firstn_length, skipn_length in Hi. rewrite nth_firstn by lia. rewrite nth_skipn. apply C. lia.
  Qed.

  Lemma next_lines rest : (1 <= w)%nat -> forall rows n above aks k s p,
    Forall (fun r => length r = w /\ Forall sample_ok r) rows -> length above = w -> Forall sample_ok above ->
    (n + length rows <= h)%nat -> (1 <= n)%nat ->
    Inv n above aks k s (band_code ll (Some above) aks k s rows ++ rest) p ->
    exists p', decode_lines (length rows) p = Ok (rows, p') /\ b_bits p' = rest.
  Proof.
    intros Hw1. induction rows as [|row rows IH]; intros n above aks k s p HR Hwa Ha Hn Hn1 HI.
    - cbn. exists p. split; [reflexivity|]. apply HI.
    - inversion HR as [|? ? [Hw Hrow] HR']; subst. cbn [length] in *. cbn [band_code] in HI.
      destruct (line_code _ row _ 0 k s) as [[[b ks1] k1] s1] eqn:E. rewrite <- app_assoc in HI.
      destruct (next_line n above aks k s row b ks1 k1 s1 _ p Hw Hrow Hwa (fun _ => Ha) ltac:(lia) Hn1 Hw1 E HI) as (p1 & A1 & I1).
      cbn [decode_lines]. rewrite A1. cbn [bind]. rewrite (decoded_ok _ _ _ _ _ _ _ Hw I1). cbn [bind].
      destruct (IH (S n) row ks1 k1 s1 p1 HR' Hw Hrow ltac:(lia) ltac:(lia) I1) as (p2 & A2 & B2).
      rewrite A2. cbn [bind]. eauto.
  Qed.
End Band.

Lemma band_roundtrip w h mask ll q rows bytes rest :
  (1 <= w)%nat -> length rows = h -> Forall (fun r => length r = w /\ Forall sample_ok r) rows ->
  (ll = true -> mask <= 0) -> byte_bits bytes = band_code ll None [] 0 0 rows ++ rest ->
  exists p, decode_lines h (band_new w h mask ll q bytes) = Ok (rows, p) /\ b_bits p = rest.
Proof.
  intros Hw Hh HR Hm Eb. destruct rows as [|row rows]; [subst h; cbn; eexists; split; [reflexivity|exact Eb]|].
  inversion HR as [|? ? [Hwr Hrow] HR']; subst. cbn [length] in *. cbn [band_code] in Eb.
  destruct (line_code _ row _ 0 0 0) as [[[b ks1] k1] s1] eqn:E. rewrite <- app_assoc in Eb.
  destruct (first_line (length row) (S (length rows)) mask ll Hm row b ks1 k1 s1 (band_code ll (Some row) ks1 k1 s1 rows ++ rest)
    (band_new (length row) (S (length rows)) mask ll q bytes)) as (p1 & A1 & I1); auto; try lia.
  cbn [decode_lines]. rewrite A1. cbn [bind]. rewrite (decoded_ok _ _ _ _ Hm _ _ _ _ _ _ _ eq_refl I1). cbn [bind].
  destruct (next_lines (length row) (S (length rows)) mask ll Hm rest Hw rows 1 row ks1 k1 s1 p1 HR' eq_refl Hrow ltac:(lia) ltac:(lia) I1)
    as (p2 & A2 & B2).
  rewrite A2. cbn [bind]. eauto.
Qed.
