(** Proofs: QP tables and quantization steps. *)
From Coq Require Import List ZArith Bool Lia.
From Verif Require Import Base BaseLemmas Crx CrxSpec CrxProofs CrxLL Idwt CrxImage IdwtSpec CrxImageSpec CrxHdr CrxGeom.
Import ListNotations.
Open Scope Z_scope.

(** ** Codes *)

Lemma qp_symbol_ok k v r : (k <= 7)%nat -> 0 <= v < 2 ^ 8 -> qp_symbol k (qp_rice k v ++ r) = Ok (v, r).
Proof.
  intros Hk Hv. unfold qp_symbol, rice_decode, qp_rice.
  assert (0 < 2 ^ Z.of_nat k) as Hp by (apply Z.pow_pos_nonneg; lia).
  assert (0 <= v / 2 ^ Z.of_nat k) by (apply Z.div_pos; lia).
  destruct (Z.ltb_spec (v / 2 ^ Z.of_nat k) 23).
  - rewrite <- app_assoc. cbn [app]. rewrite read_unary_zeros. cbn [bind].
    rewrite Z2Nat.id by lia. destruct (Z.leb_spec 23 (v / 2 ^ Z.of_nat k)); [lia|].
    destruct (Nat.ltb_spec 0 k).
    + destruct (Nat.ltb_spec k 32); [|lia]. cbn [assert_ bind].
      rewrite <- bits_of_mod, read_var_bits by (apply Z.mod_pos_bound; lia). cbn [bind].
      f_equal. f_equal. rewrite Z.shiftl_mul_pow2 by lia.
      assert (v / 2 ^ Z.of_nat k * 2 ^ Z.of_nat k <= v) by (rewrite Z.mul_comm; apply Z.mul_div_le; lia).
      unfold wrap_u32. rewrite Z.mod_small by lia.
      rewrite <- Z.shiftl_mul_pow2, <- Z.shiftr_div_pow2, <- Z.land_ones by lia.
      apply Z.bits_inj'. intros i Hi. rewrite Z.lor_spec, Z.land_spec.
      destruct (Z.ltb_spec i (Z.of_nat k)).
      * rewrite Z.shiftl_spec_low, Z.ones_spec_low by lia. now rewrite andb_true_r.
      * rewrite Z.shiftl_spec, Z.shiftr_spec, Z.ones_spec_high by lia.
        rewrite andb_false_r, orb_false_r. f_equal. lia.
    + assert (k = O) by lia. subst. cbn [bits_of app]. rewrite Z.div_1_r. reflexivity.
  - rewrite <- app_assoc. cbn [app]. rewrite read_unary_zeros. cbn [bind].
    destruct (Z.leb_spec 23 (Z.of_nat 23)); [|lia]. apply read_var_bits. exact Hv.
Qed.

Lemma predict_qp_ok a b c : - 2 ^ 20 <= a < 2 ^ 20 -> - 2 ^ 20 <= b < 2 ^ 20 -> - 2 ^ 20 <= c < 2 ^ 20 ->
  predict_qp a b (b - c) (c - a) = Ok (med3 a b c).
Proof.
  intros. unfold predict_qp, med3.
  destruct (Z.ltb_spec (c - a) 0), (Z.ltb_spec (b - c) 0); cbn [xorb].
  - rewrite i32_ok by lia. f_equal. lia.
  - destruct (Z.ltb_spec a b); cbn [xorb]; f_equal; lia.
  - destruct (Z.ltb_spec a b); cbn [xorb]; f_equal; lia.
  - rewrite i32_ok by lia. f_equal. lia.
Qed.

Definition qv (x : Z) : Prop := -4 <= x <= 68.

Lemma qv_nth l i : Forall qv l -> qv (nth i l 0).
Proof. intros H. destruct (Nat.ltb_spec i (length l)); [rewrite Forall_forall in H; apply H, nth_In; lia|]. rewrite nth_overflow by lia. unfold qv; lia. Qed.

Lemma med3_qv a b c : qv a -> qv b -> qv (med3 a b c).
Proof. unfold qv, med3. lia. Qed.

Lemma qp_pred_qv up row i : Forall qv row -> (forall u, up = Some u -> Forall qv u) -> qv (qp_pred up row i).
Proof.
  intros Hr Hu. destruct up as [u|], i as [|j]; cbn [qp_pred]; try (now apply qv_nth); auto.
  - apply qv_nth. auto.
  - apply med3_qv; apply qv_nth; auto.
  - unfold qv; lia.
Qed.

Lemma fold_qv x p : qv x -> qv p -> 0 <= fold_sign (x - p) < 2 ^ 8.
Proof. unfold qv. intros. pose proof (fold_sign_range (x - p) 73 ltac:(lia) ltac:(lia)). lia. Qed.

Lemma skipn_nth_cons {A} (l : list A) i d : (i < length l)%nat -> skipn i l = nth i l d :: skipn (S i) l.
Proof. revert i. induction l as [|x l IH]; intros i H; [cbn in H; lia|]. destruct i; [reflexivity|]. cbn in H. rewrite !skipn_cons. cbn [nth]. rewrite <- IH by lia. reflexivity. Qed.

(** ** Rows *)

Section Rows.
  Variable row : list Z.
  Hypothesis Hrow : Forall qv row.
  Notation w := (length row).

  Lemma qp_top_ok rest : forall n i k b k', (i + n = w)%nat -> (k <= 7)%nat -> qp_line None row n i k = (b, k') ->
    qp_top n (qp_pred None row i) k (b ++ rest) = Ok (skipn i row, k', rest) /\ (k' <= 7)%nat.
  Proof.
    induction n as [|n IH]; intros i k b k' Hi Hk E.
    - cbn [qp_line] in E. injection E as <- <-. cbn [qp_top app]. rewrite skipn_all2 by lia. auto.
    - cbn [qp_line] in E. pose proof (fold_qv (nth i row 0) (qp_pred None row i) (qv_nth _ _ Hrow) (qp_pred_qv None row i Hrow ltac:(discriminate))) as Hf.
      set (v := fold_sign _) in *. destruct (qp_line None row n (S i) _) as [b1 k1] eqn:E1. injection E as <- <-.
      cbn [qp_top]. rewrite <- app_assoc, qp_symbol_ok by auto. cbn [bind].
      rewrite predict_k_ok by lia. cbn [Nat.ltb Nat.leb bind]. unfold v. rewrite error_code_fold.
      pose proof (qv_nth row i Hrow) as Hx. unfold qv in Hx.
      replace (qp_pred None row i + (nth i row 0 - qp_pred None row i)) with (nth i row 0) by lia.
      rewrite i32_ok by lia. cbn [bind]. cbn [qp_mag] in E1. fold v.
      rewrite Nat.min_comm. 
      destruct (IH (S i) (Nat.min 7 (next_k k v)) b1 k1 ltac:(lia) ltac:(lia) E1) as [A1 A2]. cbn [qp_pred] in A1.
      rewrite A1. cbn [bind]. split; [|exact A2]. rewrite (skipn_nth_cons row i 0) by lia. reflexivity.
  Qed.

  Variables (u : list Z) (pre e : Z).
  Hypothesis Hu : Forall qv u.
  Hypothesis Hlu : length u = w.
  Hypothesis Hpre : qv pre.
  Let line := pre :: u ++ [e].

  Lemma line_nth i : (i < w)%nat -> nth (S i) line 0 = nth i u 0.
  Proof. intros. unfold line. cbn [nth]. now rewrite app_nth1 by lia. Qed.

  Definition left_q (i : nat) : Z := match i with O => nth 0 u 0 | S j => nth j row 0 end.
  Definition dh_ok (i : nat) (dh : Z) : Prop := (i < w)%nat -> dh = nth (S i) line 0 - nth i line 0.

  Lemma qp_next_ok rest : forall n i k dh b k', (i + n = w)%nat -> (k <= 7)%nat -> dh_ok i dh ->
    qp_line (Some u) row n i k = (b, k') ->
    qp_next n (skipn i line) (left_q i) dh k (b ++ rest) = Ok (skipn i row, k', rest) /\ (k' <= 7)%nat.
  Proof.
    induction n as [|n IH]; intros i k dh b k' Hi Hk Hd E.
    - cbn [qp_line] in E. injection E as <- <-. cbn [qp_next app]. rewrite skipn_all2 by lia. auto.
    - cbn [qp_line] in E.
      pose proof (qp_pred_qv (Some u) row i Hrow ltac:(intros ? [= <-]; exact Hu)) as Hp.
      pose proof (fold_qv (nth i row 0) (qp_pred (Some u) row i) (qv_nth _ _ Hrow) Hp) as Hf.
      set (v := fold_sign _) in *. destruct (qp_line (Some u) row n (S i) _) as [b1 k1] eqn:E1. injection E as <- <-.
      assert (length line = w + 2)%nat as Hl by (unfold line; cbn [length]; rewrite app_length; cbn [length]; lia).
      specialize (Hd ltac:(lia)).
      cbn [qp_next].
      rewrite (get_ok _ _ 0) by (rewrite skipn_length; lia). cbn [bind]. rewrite (get_ok _ _ 0) by (rewrite skipn_length; lia). cbn [bind].
      rewrite (get_ok _ _ 0) by (rewrite skipn_length; lia). cbn [bind]. rewrite !nth_skipn.
      replace (i + 0)%nat with i by lia. replace (i + 1)%nat with (S i) by lia. replace (i + 2)%nat with (S (S i)) by lia.
      assert (qv (nth i line 0)) as Hc.
      { destruct i as [|j]; [exact Hpre|]. rewrite line_nth by lia. now apply qv_nth. }
      assert (qv (nth (S i) line 0)) as Hb by (rewrite line_nth by lia; now apply qv_nth).
      assert (qv (left_q i)) as Ha by (destruct i; now apply qv_nth).
      unfold qv in Ha, Hb, Hc. rewrite i32_ok by lia. cbn [bind]. rewrite Hd.
      rewrite predict_qp_ok by lia. cbn [bind].
      assert (med3 (left_q i) (nth (S i) line 0) (nth i line 0) = qp_pred (Some u) row i) as EP.
      { rewrite line_nth by lia. destruct i as [|j]; cbn [qp_pred left_q].
        - unfold med3. lia.
        - rewrite line_nth by lia. reflexivity. }
      rewrite EP. rewrite <- app_assoc, qp_symbol_ok by auto. cbn [bind]. unfold v at 1. rewrite error_code_fold.
      pose proof (qv_nth row i Hrow) as Hx. unfold qv in Hx.
      replace (qp_pred (Some u) row i + (nth i row 0 - qp_pred (Some u) row i)) with (nth i row 0) by lia.
      rewrite i32_ok by lia. cbn [bind]. cbn [qp_mag] in E1.
      rewrite skipn_skipn. replace (i + 1)%nat with (S i) by lia.
      destruct (Nat.ltb_spec 0 n) as [Hn|Hn].
      + destruct (Nat.ltb_spec (S i) w); [|lia].
        assert (qv (nth (S (S i)) line 0)) as Hd2 by (rewrite line_nth by lia; now apply qv_nth). unfold qv in Hd2.
        rewrite i32_ok by lia. cbn [bind]. rewrite u32_ok by lia. cbn [bind]. rewrite u32_ok by lia. cbn [bind].
        rewrite Z.shiftr_div_pow2, Z.pow_1_r by lia.
        rewrite predict_k_ok by (try lia; apply Z.div_pos; lia). cbn [Nat.ltb Nat.leb bind].
        rewrite !line_nth by lia. rewrite Nat.min_comm.
        destruct (IH (S i) (Nat.min 7 (next_k k ((v + 2 * Z.abs (nth (S i) u 0 - nth i u 0)) / 2))) (nth (S i) u 0 - nth i u 0) b1 k1 ltac:(lia) ltac:(lia)) as [A1 A2]; [|exact E1|].
        { intros Hlt. rewrite !line_nth by lia. reflexivity. }
        cbn [left_q] in A1. rewrite A1. cbn [bind]. split; [|exact A2]. now rewrite (skipn_nth_cons row i 0) by lia.
      + destruct (Nat.ltb_spec (S i) w); [lia|].
        rewrite predict_k_ok by lia. cbn [Nat.ltb Nat.leb bind]. rewrite Nat.min_comm.
        destruct (IH (S i) (Nat.min 7 (next_k k v)) (nth (S i) line 0 - nth i line 0) b1 k1 ltac:(lia) ltac:(lia)) as [A1 A2]; [|exact E1|].
        { intros Hlt. lia. }
        cbn [left_q] in A1. rewrite A1. cbn [bind]. split; [|exact A2]. now rewrite (skipn_nth_cons row i 0) by lia.
  Qed.
End Rows.

Lemma last_qv row a : Forall qv row -> qv a -> qv (last row a).
Proof. intros H Ha. revert a Ha. induction H as [|x l Hx H IH]; intros; [exact Ha|]. destruct l; [exact Hx|]. exact (IH a Ha). Qed.

Lemma qp_add4 row : Forall qv row -> mapi (fun _ v => i32 (v + 4)) 0 row = Ok (map (fun v => v + 4) row).
Proof.
  intros H. rewrite (mapi_map _ (fun v => v + 4)); [reflexivity|]. intros j v E. apply nth_error_In in E. rewrite Forall_forall in H.
  specialize (H v E). unfold qv in H. apply i32_ok. lia.
Qed.

Definition prev_ok (w : nat) (up prev : option (list Z)) : Prop :=
  match up, prev with
  | None, None => True
  | Some u, Some p => exists pre e, p = pre :: u ++ [e] /\ qv pre /\ Forall qv u /\ length u = w
  | _, _ => False
  end.

Lemma qp_rows_ok w rest : (1 <= w)%nat -> forall rows up prev k,
  Forall (fun r => length r = w /\ Forall qv r) rows -> prev_ok w up prev -> (k <= 7)%nat ->
  qp_rows (length rows) w prev k (qp_code up k rows ++ rest) = Ok (map (map (fun v => v + 4)) rows).
Proof.
  intros Hw. induction rows as [|row rows IH]; intros up prev k HR HP Hk; [reflexivity|].
  inversion HR as [|? ? [Hl Hr] HR']; subst. cbn [length qp_rows qp_code map].
  destruct (qp_line up row (length row) 0 k) as [b k1] eqn:E. rewrite <- app_assoc.
  destruct up as [u|], prev as [p|]; try (now destruct HP).
  - destruct HP as (pre & e & -> & Hpre & Hu & Hlu).
    assert (nth 1 (pre :: u ++ [e]) 0 = nth 0 u 0) as E1 by (cbn [nth]; now rewrite app_nth1 by lia).
    rewrite (get_ok (pre :: u ++ [e]) 1 0) by (cbn [length]; rewrite app_length; cbn [length]; lia). cbn [bind].
    rewrite (get_ok (pre :: u ++ [e]) 0 0) by (cbn [length]; lia). cbn [bind]. rewrite E1. change (nth 0 (pre :: u ++ [e]) 0) with pre.
    pose proof (qv_nth u 0 Hu) as Hq. pose proof Hpre as Hpre'. unfold qv in Hq, Hpre'. rewrite i32_ok by lia. cbn [bind].
    destruct (qp_next_ok row Hr u pre e Hu Hlu Hpre (qp_code (Some row) k1 rows ++ rest) (length row) 0 k (nth 0 u 0 - pre) b k1) as [A1 A2]; auto; try lia.
    { intros _. rewrite (line_nth row u pre e) by lia. reflexivity. }
    rewrite (skipn_O (pre :: u ++ [e])) in A1. cbn [left_q] in A1. rewrite A1. rewrite skipn_O. cbn [bind].
    pose proof (last_qv row (nth 0 u 0) Hr (qv_nth u 0 Hu)) as Hq2. unfold qv in Hq2. rewrite i32_ok by lia. cbn [bind].
    rewrite qp_add4 by exact Hr. cbn [bind]. rewrite (IH (Some row)); auto. cbn [prev_ok].
    exists (nth 0 u 0), (last row (nth 0 u 0) + 1). split; [reflexivity|]. split; [now apply qv_nth|]. auto.
  - destruct (qp_top_ok row Hr (qp_code (Some row) k1 rows ++ rest) (length row) 0 k b k1) as [A1 A2]; auto; try lia.
    cbn [qp_pred] in A1. rewrite A1. rewrite skipn_O. cbn [bind].
    pose proof (last_qv row 0 Hr ltac:(unfold qv; lia)) as Hq2. unfold qv in Hq2. rewrite i32_ok by lia. cbn [bind].
    rewrite qp_add4 by exact Hr. cbn [bind]. rewrite (IH (Some row)); auto. cbn [prev_ok].
    exists 0, (last row 0 + 1). split; [reflexivity|]. split; [unfold qv; lia|]. auto.
Qed.

Lemma qp_table_decoded w h Q rest : (1 <= w)%nat -> qp_table_ok w h Q ->
  qp_rows ((h + 1) / 2) ((w + 7) / 8) None 0 (qp_code None 0 (map (map (fun q => q - 4)) Q) ++ rest) = Ok Q.
Proof.
  intros Hw (HL & HF). rewrite <- HL. rewrite <- (map_length (map (fun q => q - 4)) Q).
  rewrite qp_rows_ok.
  - f_equal. rewrite map_map. transitivity (map (fun x : list Z => x) Q); [|apply map_id]. apply map_ext. intros r. rewrite map_map. transitivity (map (fun x : Z => x) r); [|apply map_id]. apply map_ext. intros. lia.
  - apply Nat.div_le_lower_bound; lia.
  - rewrite Forall_map. eapply Forall_impl; [|exact HF]. cbn. intros r (L & F). rewrite map_length. split; [exact L|].
    rewrite Forall_map. eapply Forall_impl; [|exact F]. unfold qv. cbn. intros. lia.
  - exact I.
  - lia.
Qed.

(** ** Steps *)

Lemma quot_div a b : 0 <= a -> 0 < b -> Z.quot a b = a / b.
Proof. intros. apply Z.quot_div_nonneg; auto. Qed.

Lemma qp_step_bound q : 0 <= q <= 72 -> 0 <= qp_step q < 2 ^ 13.
Proof.
  intros H. unfold qp_step. assert (0 <= q mod 6 < 6) as M by (apply Z.mod_pos_bound; lia).
  assert (0 <= q / 6 <= 12) as D by (split; [apply Z.div_pos; lia|apply Z.div_le_upper_bound; lia]).
  assert (0 < 2 ^ (q / 6) <= 2 ^ 12) as P by (split; [apply Z.pow_pos_nonneg; lia|apply Z.pow_le_mono_r; lia]).
  assert (40 <= nth (Z.to_nat (q mod 6)) [40; 45; 51; 57; 64; 72] 0 <= 72) as T.
  { assert (Z.to_nat (q mod 6) < 6)%nat as B by lia. set (n := Z.to_nat (q mod 6)) in *.
    do 6 (destruct n as [|n]; [cbn; lia|]). lia. }
  set (t := nth _ _ 0) in *. set (p := 2 ^ (q / 6)) in *. split; [apply Z.div_pos; nia|]. apply Z.div_lt_upper_bound; nia.
Qed.

Lemma q_lookup_ok q : 0 <= q <= 72 -> q_lookup q = Ok (qp_step q).
Proof.
  intros H. unfold q_lookup, qp_step. destruct (Z.ltb_spec q 0); [lia|]. cbv zeta.
  assert (0 <= q mod 6 < 6) as M by (apply Z.mod_pos_bound; lia).
  rewrite (get_ok _ _ 0) by (cbn; lia). cbn [bind]. rewrite quot_div by lia.
  assert (0 <= q / 6 <= 12) as D by (split; [apply Z.div_pos; lia|apply Z.div_le_upper_bound; lia]).
  change Q_STEP with [40; 45; 51; 57; 64; 72].
  assert (40 <= nth (Z.to_nat (q mod 6)) [40; 45; 51; 57; 64; 72] 0 <= 72) as T.
  { assert (Z.to_nat (q mod 6) < 6)%nat as B by lia. set (n := Z.to_nat (q mod 6)) in *.
    do 6 (destruct n as [|n]; [cbn; lia|]). lia. }
  set (t := nth _ _ 0) in *. destruct (Z.leb_spec 6 (q / 6)).
  - replace (q / 6 + 26) with ((q / 6 - 6) + 1 * 32) by lia. rewrite Z.mod_add by lia. rewrite Z.mod_small by lia.
    rewrite Z.shiftl_mul_pow2 by lia.
    assert (2 ^ (q / 6) = 2 ^ (q / 6 - 6) * 64) as E by (change 64 with (2 ^ 6); rewrite <- Z.pow_add_r by lia; f_equal; lia).
    rewrite E, Z.mul_assoc, Z.div_mul by lia. unfold wrap_u32. rewrite Z.mod_small; [reflexivity|].
    assert (0 < 2 ^ (q / 6 - 6) <= 2 ^ 6) by (split; [apply Z.pow_pos_nonneg; lia|apply Z.pow_le_mono_r; lia]). nia.
  - rewrite i32_ok by lia. cbn [bind]. destruct (Z.ltb_spec (6 - q / 6) 32); [|lia]. f_equal.
    rewrite Z.shiftr_div_pow2 by lia.
    assert (64 = 2 ^ (6 - q / 6) * 2 ^ (q / 6)) as E by (rewrite <- Z.pow_add_r by lia; change 64 with (2 ^ 6); f_equal; lia).
    rewrite E. rewrite Z.div_mul_cancel_r; [reflexivity| |]; apply Z.pow_nonzero; lia.
Qed.

Lemma q_scale_ok q : 0 <= q < 36 -> q_scale q = Ok (qp_step q).
Proof.
  intros H. unfold q_scale, qp_step.
  assert (0 <= q mod 6 < 6) as M by (apply Z.mod_pos_bound; lia).
  rewrite (get_ok _ _ 0) by (cbn; lia). cbn [bind].
  assert (0 <= q / 6 < 6) as D by (split; [apply Z.div_pos; lia|apply Z.div_lt_upper_bound; lia]).
  destruct (Z.leb_spec 6 (q / 6)); [lia|]. f_equal.
  change Q_STEP with [40; 45; 51; 57; 64; 72]. set (t := nth _ _ 0).
  rewrite Z.shiftr_div_pow2 by lia.
  assert (64 = 2 ^ (6 - q / 6) * 2 ^ (q / 6)) as E by (rewrite <- Z.pow_add_r by lia; change 64 with (2 ^ 6); f_equal; lia).
  rewrite E. rewrite Z.div_mul_cancel_r; [reflexivity| |]; apply Z.pow_nonzero; lia.
Qed.

(** ** Tables of steps *)

Definition q72 (v : Z) : Prop := 0 <= v <= 72.

Lemma sum_ok vs : Forall q72 vs -> forall s, 0 <= s -> s + 72 * zlen vs < 2 ^ 31 ->
  for_each vs (fun v s => i32 (s + v)) s = Ok (s + zsum vs) /\ 0 <= zsum vs <= 72 * zlen vs.
Proof.
  induction 1 as [|v vs Hv H IH]; intros s Hs Hb.
  - cbn. rewrite Z.add_0_r. split; [reflexivity|unfold zlen; cbn; lia].
  - unfold zlen in *. cbn [length] in *. unfold q72 in Hv. cbn [for_each]. rewrite i32_ok by lia. cbn [bind].
    destruct (IH (s + v) ltac:(lia) ltac:(lia)) as [E B]. rewrite E.
    change (zsum (v :: vs)) with (v + zsum vs). split; [f_equal; lia|lia].
Qed.

Definition step_rows (w h n l : nat) (Q : list (list Z)) : list (list Z) :=
  map (fun r => map (fun c => qp_step (level_qp h Q l r c)) (seq 0 w)) (seq 0 n).

Lemma table_entry w h Q i c : (1 <= w)%nat -> qp_table_ok w h Q -> (i < (h + 1) / 2)%nat -> (c < (w + 7) / 8)%nat ->
  get Q i = Ok (nth i Q []) /\ get (nth i Q []) c = Ok (nth c (nth i Q []) 0) /\ q72 (nth c (nth i Q []) 0).
Proof.
  intros Hw (HL & HF) Hi Hc. rewrite (get_ok _ _ []) by lia. rewrite Forall_forall in HF.
  destruct (HF (nth i Q [])) as [L F]; [apply nth_In; lia|]. rewrite (get_ok _ _ 0) by lia.
  split; [reflexivity|]. split; [reflexivity|]. rewrite Forall_forall in F. apply F, nth_In. lia.
Qed.

Lemma level_qp_ok w h Q l r c : (1 <= w)%nat -> (1 <= h)%nat -> qp_table_ok w h Q -> (l <= 2)%nat -> (c < (w + 7) / 8)%nat ->
  let vs := map (fun j => nth c (nth (Nat.min (2 ^ l * r + j) ((h + 1) / 2 - 1)) Q []) 0) (seq 0 (2 ^ l)) in
  mapi (fun _ j => do row <- get Q (Nat.min (2 ^ l * r + j) ((h + 1) / 2 - 1)); get row c) 0 (seq 0 (2 ^ l)) = Ok vs /\
  for_each vs (fun v s => i32 (s + v)) 0 = Ok (zsum vs) /\ 0 <= zsum vs /\ zsum vs / 2 ^ Z.of_nat l = level_qp h Q l r c /\
  q72 (level_qp h Q l r c).
Proof.
  intros Hw Hh HQ Hl Hc vs.
  assert (1 <= (h + 1) / 2)%nat as H1 by (apply Nat.div_le_lower_bound; lia).
  assert (forall j, exists v, v = nth c (nth (Nat.min (2 ^ l * r + j) ((h + 1) / 2 - 1)) Q []) 0 /\
    (do row <- get Q (Nat.min (2 ^ l * r + j) ((h + 1) / 2 - 1)); get row c) = Ok v /\ q72 v) as HE.
  { intros j. destruct (table_entry w h Q (Nat.min (2 ^ l * r + j) ((h + 1) / 2 - 1)) c Hw HQ ltac:(lia) Hc) as (A & B & C).
    eexists. split; [reflexivity|]. rewrite A. cbn [bind]. rewrite B. auto. }
  assert (Forall q72 vs) as HF.
  { unfold vs. rewrite Forall_map, Forall_forall. intros j _. destruct (HE j) as (v & -> & _ & A). exact A. }
  assert (zlen vs = 2 ^ Z.of_nat l) as HZ.
  { unfold zlen, vs. rewrite map_length, seq_length. rewrite Nat2Z.inj_pow. reflexivity. }
  assert (2 ^ Z.of_nat l <= 4) as HP by (change 4 with (2 ^ 2); apply Z.pow_le_mono_r; lia).
  assert (0 < 2 ^ Z.of_nat l) as HP0 by (apply Z.pow_pos_nonneg; lia).
  destruct (sum_ok vs HF 0 ltac:(lia) ltac:(rewrite HZ; lia)) as [E B].
  split.
  { rewrite (mapi_map _ (fun j => nth c (nth (Nat.min (2 ^ l * r + j) ((h + 1) / 2 - 1)) Q []) 0)); [reflexivity|].
    intros i j _. destruct (HE j) as (v & -> & A & _). exact A. }
  rewrite E, Z.add_0_l. split; [reflexivity|]. split; [lia|]. split; [reflexivity|].
  unfold q72, level_qp. fold vs. change (fold_right Z.add 0 vs) with (zsum vs). rewrite HZ in B.
  split; [apply Z.div_pos; lia|]. apply Z.div_le_upper_bound; lia.
Qed.

Lemma qstep_level_ok w h n l Q : (1 <= w)%nat -> (1 <= h)%nat -> qp_table_ok w h Q -> (l <= 2)%nat ->
  qstep_level ((w + 7) / 8) n ((h + 1) / 2) (2 ^ l) Q = Ok (mk_qs ((w + 7) / 8) (concat (step_rows ((w + 7) / 8) h n l Q))).
Proof.
  intros Hw Hh HQ Hl. unfold qstep_level.
  rewrite (mapi_map _ (fun r => map (fun c => qp_step (level_qp h Q l r c)) (seq 0 ((w + 7) / 8)))); [reflexivity|].
  intros i r _. rewrite (mapi_map _ (fun c => qp_step (level_qp h Q l r c))); [reflexivity|].
  intros j c Hc. apply nth_error_In, in_seq in Hc.
  destruct (level_qp_ok w h Q l r c Hw Hh HQ Hl ltac:(lia)) as (A & B & C & D & E).
  rewrite A. cbn [bind]. rewrite B. cbn [bind].
  destruct (Z.ltb_spec (zsum (map (fun j => nth c (nth (Nat.min (2 ^ l * r + j) ((h + 1) / 2 - 1)) Q []) 0) (seq 0 (2 ^ l)))) 0); [lia|].
  rewrite andb_false_r. cbn [bind]. rewrite quot_div; [|lia|].
  2:{ pose proof (Nat.pow_nonzero 2 l ltac:(lia)). lia. }
  rewrite Nat2Z.inj_pow. change (Z.of_nat 2) with 2. rewrite D. apply q_lookup_ok. exact E.
Qed.

Lemma halved2 h : ((h + 3) / 4 = halved h 2)%nat.
Proof.
  cbn [halved]. pose proof (Nat.div_mod (h + 1) 2 ltac:(lia)). pose proof (Nat.mod_upper_bound (h + 1) 2 ltac:(lia)).
  set (a := ((h + 1) / 2)%nat) in *. pose proof (Nat.div_mod (a + 1) 2 ltac:(lia)). pose proof (Nat.mod_upper_bound (a + 1) 2 ltac:(lia)).
  set (b := ((a + 1) / 2)%nat) in *. symmetry. apply Nat.div_unique with (h + 3 - 4 * b)%nat; lia.
Qed.
Lemma halved3 h : ((h + 7) / 8 = halved h 3)%nat.
Proof.
  change (halved h 3) with ((halved h 2 + 1) / 2)%nat. rewrite <- halved2.
  pose proof (Nat.div_mod (h + 3) 4 ltac:(lia)). pose proof (Nat.mod_upper_bound (h + 3) 4 ltac:(lia)).
  set (a := ((h + 3) / 4)%nat) in *. pose proof (Nat.div_mod (a + 1) 2 ltac:(lia)). pose proof (Nat.mod_upper_bound (a + 1) 2 ltac:(lia)).
  set (b := ((a + 1) / 2)%nat) in *. symmetry. apply Nat.div_unique with (h + 7 - 8 * b)%nat; lia.
Qed.

(** The table of level [l] (0 is the finest). *)
Definition steps_at (w h l : nat) (Q : list (list Z)) : qstep :=
  mk_qs ((w + 7) / 8) (concat (step_rows ((w + 7) / 8) h (halved h (S l)) l Q)).

Lemma make_qstep_ok L w h Q : (1 <= L <= 3)%nat -> (1 <= w)%nat -> (1 <= h)%nat -> qp_table_ok w h Q ->
  make_qstep L w h Q = Ok (map (fun k => steps_at w h (L - 1 - k) Q) (seq 0 L)).
Proof.
  intros HL Hw Hh HQ. unfold make_qstep.
  pose proof (qstep_level_ok w h ((h + 1) / 2) 0 Q Hw Hh HQ ltac:(lia)) as E0.
  pose proof (qstep_level_ok w h ((h + 3) / 4) 1 Q Hw Hh HQ ltac:(lia)) as E1.
  pose proof (qstep_level_ok w h ((h + 7) / 8) 2 Q Hw Hh HQ ltac:(lia)) as E2.
  change (2 ^ 0)%nat with 1%nat in E0. change (2 ^ 1)%nat with 2%nat in E1. change (2 ^ 2)%nat with 4%nat in E2.
  rewrite E0, E1, E2. rewrite (halved2 h), (halved3 h). unfold steps_at.
  destruct L as [|[|[|[|]]]]; try lia; reflexivity.
Qed.

Lemma concat_const {A} (l : list (list A)) w i c d : Forall (fun r => length r = w) l -> (i < length l)%nat -> (c < w)%nat ->
  nth (w * i + c) (concat l) d = nth c (nth i l []) d.
Proof.
  intros H. revert i. induction H as [|r l Hr H IH]; intros i Hi Hc; [cbn in Hi; lia|]. cbn [concat].
  destruct i as [|i].
  - rewrite Nat.mul_0_r. cbn [Nat.add nth]. apply app_nth1. lia.
  - rewrite app_nth2 by nia. cbn [nth]. rewrite <- IH by (cbn in Hi; lia). f_equal. nia.
Qed.
Lemma concat_const_length {A} (l : list (list A)) w : Forall (fun r => length r = w) l -> length (concat l) = (w * length l)%nat.
Proof. induction 1 as [|r l Hr H IH]; cbn [concat length]; [lia|]. rewrite app_length, IH. lia. Qed.

Lemma steps_rows_const w h n l Q : Forall (fun r => length r = w) (step_rows w h n l Q).
Proof. unfold step_rows. rewrite Forall_map, Forall_forall. intros r _. now rewrite map_length, seq_length. Qed.

Lemma steps_get w h l Q r c : (r < halved h (S l))%nat -> (c < (w + 7) / 8)%nat ->
  let q := steps_at w h l Q in
  (qs_w q * r <= length (qs_tbl q))%nat /\ get (skipn (qs_w q * r) (qs_tbl q)) c = Ok (qp_step (level_qp h Q l r c)).
Proof.
  intros Hr Hc q. unfold q, steps_at. cbn [qs_w qs_tbl].
  set (W := ((w + 7) / 8)%nat) in *. set (n := halved h (S l)) in *.
  pose proof (concat_const_length _ _ (steps_rows_const W h n l Q)) as HL. unfold step_rows in HL at 2. rewrite map_length, seq_length in HL.
  split; [nia|]. rewrite (get_ok _ _ 0) by (rewrite skipn_length, HL; nia). rewrite nth_skipn.
  rewrite (concat_const _ W); [|apply steps_rows_const|unfold step_rows; now rewrite map_length, seq_length|exact Hc].
  unfold step_rows. rewrite (nth_map_seq (fun r => map _ _) n r []) by exact Hr. rewrite (nth_map_seq _ W c 0) by exact Hc. reflexivity.
Qed.
