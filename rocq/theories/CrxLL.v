(** Proofs: the line decoders of the LL band invert the line coding. *)
From Coq Require Import List ZArith Bool Lia.
From Verif Require Import Base BaseLemmas Crx CrxSpec CrxProofs.
Import ListNotations.
Open Scope Z_scope.

Lemma i32_ok z : - 2 ^ 31 <= z < 2 ^ 31 -> i32 z = Ok z.
Proof. intros. unfold i32. destruct (Z.leb_spec (- 2 ^ 31) z), (Z.ltb_spec z (2 ^ 31)); try lia. reflexivity. Qed.
Lemma u32_ok z : 0 <= z < 2 ^ 32 -> u32 z = Ok z.
Proof. intros. unfold u32. destruct (Z.leb_spec 0 z), (Z.ltb_spec z (2 ^ 32)); try lia. reflexivity. Qed.

Lemma med3_range a b c B : - B <= a < B -> - B <= b < B -> - B <= med3 a b c < B.
Proof. unfold med3. lia. Qed.
Lemma med_ok a b c : - 2 ^ 19 <= a < 2 ^ 19 -> - 2 ^ 19 <= b < 2 ^ 19 -> - 2 ^ 19 <= c < 2 ^ 19 -> med a b c = Ok (med3 a b c).
Proof.
  intros. unfold med, med3. destruct (Z.leb_spec (Z.max a b) c); [f_equal; lia|].
  destruct (Z.leb_spec c (Z.min a b)); [f_equal; lia|].
  rewrite i32_ok by lia. cbn [bind]. rewrite i32_ok by lia. f_equal. lia.
Qed.
Lemma med_same a c : med a a c = Ok a.
Proof.
  unfold med. destruct (Z.leb_spec (Z.max a a) c); [f_equal; lia|].
  destruct (Z.leb_spec c (Z.min a a)); [f_equal; lia|lia].
Qed.

Lemma delta2_ok d b : - 2 ^ 19 <= d < 2 ^ 19 -> - 2 ^ 19 <= b < 2 ^ 19 -> delta2 d b = Ok (2 * Z.abs (d - b)).
Proof.
  intros. unfold delta2. rewrite i32_ok by lia. cbn [bind]. f_equal.
  replace (wrap_i32 (2 * (d - b))) with (2 * (d - b)); [lia|].
  unfold wrap_i32. rewrite Z.mod_small by lia. lia.
Qed.

Section LL.
  Variable row : list Z.
  Let w := length row.
  Hypothesis Hrow : Forall sample_ok row.
  Variable a0 : Z.
  Hypothesis Ha0 : sample_ok a0.
  Let SL := St row a0.

  Definition ResL (t' : lst) (rest : list bool) (k1 s1 : nat) : Prop :=
    SL w t' /\ l_bits t' = rest /\ l_k t' = k1 /\ l_s t' = s1.

  Lemma sampleL i : (i < w)%nat -> sample_ok (nth i row 0).
  Proof. intros. rewrite Forall_forall in Hrow. apply Hrow, nth_In. auto. Qed.
  Lemma leftL i : (i <= w)%nat -> sample_ok (left_of row a0 i).
  Proof. intros. destruct i; [exact Ha0|]. apply sampleL. lia. Qed.

  Lemma codeL x p : sample_ok x -> sample_ok p ->
    0 <= fold_sign (x - p) < 2 ^ 21 /\ p + error_code_signed (fold_sign (x - p)) = x /\
    i32 (p + error_code_signed (fold_sign (x - p))) = Ok x.
  Proof.
    unfold sample_ok. intros. split; [apply (fold_sign_range _ (2 ^ 20)); lia|]. rewrite error_code_fold.
    split; [lia|]. replace (p + (x - p)) with x by lia. apply i32_ok. lia.
  Qed.

  Lemma SL_kb i t : SL i t -> (l_k t <= 15)%nat /\ (l_s t <= 31)%nat.
  Proof. now intros (_ & _ & _ & _ & _ & H). Qed.

  Definition tail_top (p : nat * lst) : res lst :=
    let '(remaining, t) := p in
    if (remaining =? 1)%nat then
      do x <- coeff_a t;
      do (c, t) <- adaptive true PREDICT_K_MAX t;
      do v <- i32 (x + error_code_signed c);
      do t <- store v t;
      Ok (advance t)
    else Ok t.

  (** First line. *)
  Lemma top_ok rest : a0 = 0 -> forall fuel ef i t eb ks k1 s1,
    SL i t -> (i <= w)%nat -> (w - i < fuel)%nat -> (w - i <= ef)%nat ->
    line_code (kind_top row) row ef i (l_k t) (l_s t) = (eb, ks, k1, s1) -> l_bits t = eb ++ rest ->
    exists t', bind (top_loop fuel (w - i) t) tail_top = Ok t' /\ ResL t' rest k1 s1.
  Proof.
    intros Ea0. induction fuel as [|fuel IH]; intros ef i t eb ks k1 s1 H Hi Hf Hef E Eb; [lia|].
    pose proof (SL_kb _ _ H) as (Hk & Hs).
    destruct ef as [|ef].
    { assert (i = w) by lia. subst i. injection E as <- <- <- <-. cbn [app] in Eb.
      rewrite Nat.sub_diag. cbn [top_loop]. exists t. split; [reflexivity|]. unfold ResL. auto. }
    rewrite line_code_S in E. cbv zeta in E. fold w in E.
    destruct (Nat.eqb_spec (w - i) 0).
    { assert (i = w) by lia. subst i. injection E as <- <- <- <-. cbn [app] in Eb.
      rewrite Nat.sub_diag. cbn [top_loop]. exists t. split; [reflexivity|]. unfold ResL. auto. }
    cbn [kind_top kd_left kd_run kd_pred kd_rpred kd_low kd_next] in E.
    change (match i with O => 0 | S i' => nth i' row 0 end) with (left_of row 0 i) in E.
    replace (left_of row 0 i) with (left_of row a0 i) in E by (now rewrite Ea0).
    destruct (Nat.ltb_spec 1 (w - i)) as [Hn|Hn].
    2:{ cbn [andb] in E. set (v := fold_sign (nth i row 0 - left_of row a0 i)) in *.
        set (kk := Nat.min 15 (next_k (l_k t) v)) in *.
        rewrite line_code_end in E by (fold w; lia). injection E as <- <- <- <-.
        rewrite app_nil_r in Eb.
        replace (w - i)%nat with 1%nat by lia. cbn [top_loop Nat.leb bind tail_top Nat.eqb].
        rewrite (St_a _ _ _ _ H) by lia. cbn [bind].
        destruct (codeL (nth i row 0) (left_of row a0 i)) as (C1 & C2 & C3); [apply sampleL; lia|apply leftL; lia|]. fold v in C1, C2, C3.
        rewrite (adaptive_ok true PREDICT_K_MAX v rest) by auto. cbn [bind]. rewrite C3. cbn [bind].
        change (if (0 <? PREDICT_K_MAX)%nat then _ else _) with (Nat.min (next_k (l_k t) v) 15).
        rewrite Nat.min_comm. fold kk.
        destruct (St_store row a0 i (set_k kk (set_bits rest t))) as (t1 & A1 & S1 & L1 & B1 & K1 & Q1 & P1).
        { apply St_k; [now apply St_bits|unfold kk; lia]. } { fold w; lia. }
        rewrite A1. cbn [bind]. eexists; split; [reflexivity|]. unfold ResL.
        replace w with (S i) at 1 by lia. split; [exact S1|]. cbn [advance l_bits l_k l_s]. rewrite B1, K1, Q1. auto. }
    cbn [andb] in E. cbn [top_loop]. destruct (Nat.leb_spec (w - i) 1); [lia|].
    rewrite (St_a _ _ _ _ H) by lia. cbn [bind].
    destruct (Z.eqb_spec (left_of row a0 i) 0) as [Ha|Ha]; cbn [negb].
    - (* run *)
      pose proof (run_length_le (left_of row a0 i) (skipn i row)) as Hl. rewrite skipn_length in Hl. fold w in Hl.
      assert (forall j, (i <= j < i + run_length (left_of row a0 i) (skipn i row))%nat -> nth j row 0 = left_of row a0 i) as Hz.
      { intros j Hj. replace j with (i + (j - i))%nat by lia. rewrite <- nth_skipn. apply run_length_spec. lia. }
      set (r := run_length (left_of row a0 i) (skipn i row)) in *.
      destruct (run_bits (w - i) r (l_s t)) as [rb s2] eqn:Er.
      assert (exists rest1, l_bits t = rb ++ rest1) as (rest1 & Eb1).
      { destruct (i + r =? w)%nat; [injection E as <- _ _ _; eauto|].
        destruct (line_code _ _ _ _ _ _) as [[[? ?] ?] ?]. injection E as <- _ _ _. rewrite <- app_assoc in Eb. eauto. }
      destruct (run_part row a0 copy_run i (w - i) r t rb s2 rest1 (fun _ _ => True))
        as (one & t0 & t1 & A & B & S1 & B1 & K1 & Q1 & _); auto.
      { intros m u Hu Hm1. destruct (copy_run_ok row a0 m i u Hu) as (u' & ? & ? & ? & ? & ?); [lia|intros; apply Hz; lia|].
        exists u'. repeat (split; [assumption|]). auto. }
      rewrite A. cbn [bind]. rewrite B. cbn [bind].
      destruct (Nat.eqb_spec (i + r) w) as [Hw|Hw].
      + injection E as <- <- <- <-. rewrite Eb in Eb1; apply app_inv_head in Eb1; subst rest1.
        replace (w - i - r)%nat with 0%nat by lia. cbn [Nat.eqb bind].
        exists t1. split; [reflexivity|]. unfold ResL. rewrite Hw in S1. auto.
      + set (v := fold_sign (nth (i + r) row 0 - 0) - 0) in *.
        set (kk := Nat.min 15 (next_k (l_k t) v)) in *.
        destruct (line_code _ _ _ _ _ _) as [[[b2 ks2] k2] s3] eqn:E2. injection E as <- <- <- <-.
        rewrite Eb, <- !app_assoc in Eb1. apply app_inv_head in Eb1. subst rest1.
        destruct (Nat.eqb_spec (w - i - r) 0); [lia|].
        destruct (codeL (nth (i + r) row 0) 0) as (C1 & C2 & C3); [apply sampleL; lia|unfold sample_ok; lia|].
        replace (fold_sign (nth (i + r) row 0 - 0)) with v in C1, C2, C3 by (unfold v; lia).
        rewrite (adaptive_ok true PREDICT_K_MAX v (b2 ++ rest)); [|rewrite K1; lia|lia|rewrite K1; exact B1].
        cbn [bind]. change (if (0 <? PREDICT_K_MAX)%nat then _ else _) with (Nat.min (next_k (l_k t1) v) 15).
        rewrite Nat.min_comm, K1. fold kk. rewrite C3. cbn [bind].
        destruct (St_store row a0 (i + r) (set_k kk (set_bits (b2 ++ rest) t1))) as (t2 & A2 & S2 & L2 & B2 & K2 & Q2 & P2).
        { apply St_k; [now apply St_bits|unfold kk; lia]. } { fold w; lia. }
        rewrite A2. cbn [bind].
        destruct (IH ef (S (i + r)) (advance t2) b2 ks2 k2 s3) as (t' & A' & R'); auto; try lia.
        { cbn [advance l_k l_s]. rewrite K2, Q2. cbn [set_k set_bits l_k l_s]. rewrite Q1. exact E2. }
        replace (w - i - r - 1)%nat with (w - S (i + r))%nat by lia. exists t'. auto.
    - (* no run *)
      set (v := fold_sign (nth i row 0 - left_of row a0 i)) in *.
      set (kk := Nat.min 15 (next_k (l_k t) v)) in *.
      destruct (line_code _ _ _ _ _ _) as [[[b2 ks2] k2] s3] eqn:E2. injection E as <- <- <- <-.
      rewrite <- app_assoc in Eb. cbn [bind].
      destruct (Nat.eqb_spec (w - i) 0); [lia|].
      destruct (codeL (nth i row 0) (left_of row a0 i)) as (C1 & C2 & C3); [apply sampleL; lia|apply leftL; lia|]. fold v in C1, C2, C3.
      rewrite (adaptive_ok true PREDICT_K_MAX v (b2 ++ rest)) by auto. cbn [bind]. rewrite C3. cbn [bind].
      change (if (0 <? PREDICT_K_MAX)%nat then _ else _) with (Nat.min (next_k (l_k t) v) 15).
      rewrite Nat.min_comm. fold kk.
      destruct (St_store row a0 i (set_k kk (set_bits (b2 ++ rest) t))) as (t2 & A2 & S2 & L2 & B2 & K2 & Q2 & P2).
      { apply St_k; [now apply St_bits|unfold kk; lia]. } { fold w; lia. }
      rewrite A2. cbn [bind].
      destruct (IH ef (S i) (advance t2) b2 ks2 k2 s3) as (t' & A' & R'); auto; try lia.
      { cbn [advance l_k l_s]. rewrite K2, Q2. exact E2. }
      replace (w - i - 1)%nat with (w - S i)%nat by lia. exists t'. auto.
  Qed.

  (** Other lines. *)
  Variables (prev : list Z) (above : list Z).
  Hypothesis Hprev : length prev = (w + 2)%nat.
  Hypothesis Habove : forall j, (j < w)%nat -> nth (S j) prev 0 = nth j above 0.
  Hypothesis Hup : Forall sample_ok above.

  Lemma upL i : sample_ok (nth i above 0).
  Proof.
    destruct (nth_in_or_default i above 0) as [I| ->]; [|unfold sample_ok; lia].
    rewrite Forall_forall in Hup. now apply Hup.
  Qed.

  Definition tail_nontop (p : nat * lst) : res lst :=
    let '(remaining, t) := p in
    if (remaining =? 1)%nat then
      do a <- coeff_a t; do b <- coeff_b prev t; do c <- coeff_c prev t;
      do x <- med a b c;
      do (c, t) <- adaptive true PREDICT_K_MAX t;
      do v <- i32 (x + error_code_signed c);
      do t <- store v t;
      Ok (advance t)
    else Ok t.

  Definition predL (i : nat) : Z :=
    match i with O => nth 0 above 0 | S i' => med3 (nth i' row 0) (nth i above 0) (nth i' above 0) end.

  Lemma predL_ok i : (i < w)%nat -> sample_ok (predL i).
  Proof.
    intros. destruct i; cbn [predL]; [apply upL|]. pose proof (sampleL i ltac:(lia)). pose proof (upL (S i)).
    unfold sample_ok in *. apply med3_range; auto.
  Qed.

  Lemma coeff_bL i t : SL i t -> (i < w)%nat -> coeff_b prev t = Ok (nth i above 0).
  Proof. intros (P & _) Hi. unfold coeff_b. rewrite P, (get_ok _ _ 0) by lia. now rewrite Habove. Qed.
  Lemma coeff_dL i t : SL i t -> (S i < w)%nat -> coeff_d prev t = Ok (nth (S i) above 0).
  Proof.
    intros (P & _) Hi. unfold coeff_d. rewrite P, (get_ok _ _ 0) by lia.
    replace (S i + 1)%nat with (S (S i)) by lia. now rewrite Habove.
  Qed.

  Lemma med_pred i t : SL i t -> (i < w)%nat -> a0 = nth 0 above 0 ->
    (do c <- coeff_c prev t; med (left_of row a0 i) (nth i above 0) c) = Ok (predL i).
  Proof.
    intros (P & _) Hi E. unfold coeff_c. rewrite P, usub_ok by lia. cbn [bind]. rewrite (get_ok _ _ 0) by lia. cbn [bind].
    replace (S i - 1)%nat with i by lia.
    destruct i as [|i]; cbn [left_of predL].
    - rewrite E. apply med_same.
    - rewrite Habove by lia. apply med_ok; [apply sampleL; lia| |]; apply upL.
  Qed.

  Lemma nontop_ok rest : a0 = nth 0 above 0 -> forall fuel ef i t eb ks k1 s1,
    SL i t -> (i <= w)%nat -> (w - i < fuel)%nat -> (w - i <= ef)%nat ->
    line_code (kind_nontop above row) row ef i (l_k t) (l_s t) = (eb, ks, k1, s1) -> l_bits t = eb ++ rest ->
    exists t', bind (nontop_loop fuel (w - i) prev t) tail_nontop = Ok t' /\ ResL t' rest k1 s1.
  Proof.
    intros Ea0. induction fuel as [|fuel IH]; intros ef i t eb ks k1 s1 H Hi Hf Hef E Eb; [lia|].
    pose proof (SL_kb _ _ H) as (Hk & Hs).
    destruct ef as [|ef].
    { assert (i = w) by lia. subst i. injection E as <- <- <- <-. cbn [app] in Eb.
      rewrite Nat.sub_diag. cbn [nontop_loop]. exists t. split; [reflexivity|]. unfold ResL. auto. }
    rewrite line_code_S in E. cbv zeta in E. fold w in E.
    destruct (Nat.eqb_spec (w - i) 0).
    { assert (i = w) by lia. subst i. injection E as <- <- <- <-. cbn [app] in Eb.
      rewrite Nat.sub_diag. cbn [nontop_loop]. exists t. split; [reflexivity|]. unfold ResL. auto. }
    cbn [kind_nontop kd_left kd_run kd_pred kd_rpred kd_low kd_next] in E. fold w in E.
    rewrite <- Ea0 in E.
    change (match i with O => a0 | S i' => nth i' row 0 end) with (left_of row a0 i) in E.
    replace (match i with O => a0 | S i' => med3 (left_of row a0 i) (nth i above 0) (nth i' above 0) end) with (predL i) in E
      by (destruct i; [cbn; congruence|reflexivity]).
    destruct (Nat.ltb_spec 1 (w - i)) as [Hn|Hn].
    2:{ cbn [andb] in E. set (v := fold_sign (nth i row 0 - predL i)) in *.
        destruct (Nat.ltb_spec (S i) w); [lia|].
        set (kk := Nat.min 15 (next_k (l_k t) v)) in *.
        rewrite line_code_end in E by (fold w; lia). injection E as <- <- <- <-.
        rewrite app_nil_r in Eb.
        replace (w - i)%nat with 1%nat by lia. cbn [nontop_loop Nat.leb bind tail_nontop Nat.eqb].
        rewrite (St_a _ _ _ _ H), (coeff_bL _ _ H) by lia. cbn [bind].
        pose proof (med_pred i t H ltac:(lia) Ea0) as Hmed.
        destruct (coeff_c prev t) as [cc| |]; cbn [bind] in *; try discriminate. rewrite Hmed. cbn [bind].
        destruct (codeL (nth i row 0) (predL i)) as (C1 & C2 & C3); [apply sampleL; lia|apply predL_ok; lia|]. fold v in C1, C2, C3.
        rewrite (adaptive_ok true PREDICT_K_MAX v rest) by auto. cbn [bind]. rewrite C3. cbn [bind].
        change (if (0 <? PREDICT_K_MAX)%nat then _ else _) with (Nat.min (next_k (l_k t) v) 15).
        rewrite Nat.min_comm. fold kk.
        destruct (St_store row a0 i (set_k kk (set_bits rest t))) as (t1 & A1 & S1 & L1 & B1 & K1 & Q1 & P1).
        { apply St_k; [now apply St_bits|unfold kk; lia]. } { fold w; lia. }
        rewrite A1. cbn [bind]. eexists; split; [reflexivity|]. unfold ResL.
        replace w with (S i) at 1 by lia. split; [exact S1|]. cbn [advance l_bits l_k l_s]. rewrite B1, K1, Q1. auto. }
    cbn [andb] in E. cbn [nontop_loop]. destruct (Nat.leb_spec (w - i) 1); [lia|].
    rewrite (St_a _ _ _ _ H), (coeff_bL _ _ H), (coeff_dL _ _ H) by lia. cbn [bind].
    (* coding of one sample at column j with prediction x *)
    assert (forall j t x v b2 ks2 k2 s3,
      SL j t -> (i <= j < w)%nat -> sample_ok x -> v = fold_sign (nth j row 0 - x) ->
      l_bits t = rice_code (l_k t) v ++ b2 ++ rest ->
      line_code (kind_nontop above row) row ef (S j) (Nat.min 15 (next_k (l_k t) (if (S j <? w)%nat then (v + 2 * Z.abs (nth (S j) above 0 - nth j above 0)) / 2 else v))) (l_s t) = (b2, ks2, k2, s3) ->
      exists t', bind (do t <-
        (if (0 <? w - j)%nat then
           do (c, t) <- adaptive false PREDICT_K_MAX t;
           do v <- i32 (x + error_code_signed c);
           do t <- store v t;
           do c <- (if (1 <? w - j)%nat then
                      do d <- coeff_d prev t; do b <- coeff_b prev t;
                      do e <- delta2 d b; do s <- u32 (c + e); Ok (Z.shiftr s 1)
                    else Ok c);
           do t <- update_k c PREDICT_K_MAX t;
           Ok (advance t)
         else Ok t);
        nontop_loop fuel (w - j - 1) prev t) tail_nontop = Ok t' /\ ResL t' rest k2 s3) as Hcode.
    { clear t H Eb E Hk Hs. intros j t x v b2 ks2 k2 s3 H Hj Hx Ev Eb E.
      remember (Nat.min 15 (next_k (l_k t) (if (S j <? w)%nat then (v + 2 * Z.abs (nth (S j) above 0 - nth j above 0)) / 2 else v))) as kk eqn:Ek.
      pose proof (SL_kb _ _ H) as (Hk & Hs).
      destruct (Nat.ltb_spec 0 (w - j)); [|lia].
      destruct (codeL (nth j row 0) x) as (C1 & C2 & C3); [apply sampleL; lia|exact Hx|]. rewrite <- Ev in C1, C2, C3.
      rewrite (adaptive_ok false PREDICT_K_MAX v (b2 ++ rest)) by auto. cbn [bind]. rewrite C3. cbn [bind].
      destruct (St_store row a0 j (set_k (l_k t) (set_bits (b2 ++ rest) t))) as (t1 & A1 & S1 & L1 & B1 & K1 & Q1 & P1).
      { apply St_k; [now apply St_bits|lia]. } { fold w; lia. }
      rewrite A1. cbn [bind].
      assert ((if (1 <? w - j)%nat then
                 do d <- coeff_d prev t1; do b <- coeff_b prev t1;
                 do e <- delta2 d b; do s <- u32 (v + e); Ok (Z.shiftr s 1)
               else Ok v) = Ok (if (S j <? w)%nat then (v + 2 * Z.abs (nth (S j) above 0 - nth j above 0)) / 2 else v)) as ->.
      { destruct (Nat.ltb_spec 1 (w - j)), (Nat.ltb_spec (S j) w); try lia; [|reflexivity].
        unfold coeff_d, coeff_b. rewrite P1. cbn [set_k set_bits l_pos]. replace (l_pos t) with (S j) by (symmetry; apply H).
        rewrite !(get_ok _ _ 0) by lia. cbn [bind]. replace (S j + 1)%nat with (S (S j)) by lia. rewrite !Habove by lia.
        pose proof (upL (S j)) as U1. pose proof (upL j) as U2. unfold sample_ok in U1, U2.
        rewrite delta2_ok by auto. cbn [bind]. rewrite u32_ok by lia. cbn [bind]. now rewrite Z.shiftr_div_pow2, Z.pow_1_r by lia. }
      cbn [bind]. unfold update_k. rewrite predict_k_ok.
      2:{ rewrite K1; cbn [set_k l_k]; lia. }
      2:{ destruct (S j <? w)%nat; [apply Z.div_pos; lia|lia]. }
      cbn [bind]. rewrite K1. cbn [set_k l_k].
      change (if (0 <? PREDICT_K_MAX)%nat then Nat.min ?x PREDICT_K_MAX else _) with (Nat.min x 15).
      rewrite (Nat.min_comm _ 15), <- Ek.
      destruct (IH ef (S j) (advance (set_k kk t1)) b2 ks2 k2 s3) as (t' & A' & R').
      - apply (St_k row a0 (S j) (advance t1) kk); [exact S1|rewrite Ek; lia].
      - lia. - lia. - lia.
      - cbn [advance set_k l_k l_s]. rewrite Q1. exact E.
      - cbn [advance set_k l_bits]. rewrite B1. reflexivity.
      - replace (w - j - 1)%nat with (w - S j)%nat by lia. exists t'. auto. }
    destruct ((left_of row a0 i =? nth i above 0) && (left_of row a0 i =? nth (S i) above 0)) eqn:Hrun.
    - (* run *)
      pose proof (run_length_le (left_of row a0 i) (skipn i row)) as Hl. rewrite skipn_length in Hl. fold w in Hl.
      assert (forall j, (i <= j < i + run_length (left_of row a0 i) (skipn i row))%nat -> nth j row 0 = left_of row a0 i) as Hz.
      { intros j Hj. replace j with (i + (j - i))%nat by lia. rewrite <- nth_skipn. apply run_length_spec. lia. }
      set (r := run_length (left_of row a0 i) (skipn i row)) in *.
      destruct (run_bits (w - i) r (l_s t)) as [rb s2] eqn:Er.
      assert (exists rest1, l_bits t = rb ++ rest1) as (rest1 & Eb1).
      { destruct (i + r =? w)%nat; [injection E as <- _ _ _; eauto|].
        destruct (line_code _ _ _ _ _ _) as [[[? ?] ?] ?]. injection E as <- _ _ _. rewrite <- app_assoc in Eb. eauto. }
      destruct (run_part row a0 copy_run i (w - i) r t rb s2 rest1 (fun _ _ => True))
        as (one & t0 & t1 & A & B & S1 & B1 & K1 & Q1 & _); auto.
      { intros m u Hu Hm1. destruct (copy_run_ok row a0 m i u Hu) as (u' & ? & ? & ? & ? & ?); [lia|intros; apply Hz; lia|].
        exists u'. repeat (split; [assumption|]). auto. }
      rewrite A. cbn [bind]. rewrite B. cbn [bind].
      destruct (Nat.eqb_spec (i + r) w) as [Hw|Hw].
      + injection E as <- <- <- <-. rewrite Eb in Eb1; apply app_inv_head in Eb1; subst rest1.
        replace (w - i - r)%nat with 0%nat by lia. cbn [Nat.ltb Nat.leb bind Nat.sub].
        exists t1. destruct fuel as [|fuel]; [lia|]. cbn [nontop_loop Nat.leb bind tail_nontop Nat.eqb].
        split; [reflexivity|]. unfold ResL. rewrite Hw in S1. auto.
      + destruct (Nat.ltb_spec 0 (w - i - r)); [|lia].
        rewrite (coeff_bL _ _ S1) by lia. cbn [bind].
        rewrite Z.sub_0_r in E.
        destruct (line_code _ _ _ _ _ _) as [[[b2 ks2] k2] s3] eqn:E2. injection E as <- <- <- <-.
        rewrite Eb, <- !app_assoc in Eb1. apply app_inv_head in Eb1. subst rest1.
        destruct (Hcode (i + r)%nat t1 (nth (i + r) above 0) (fold_sign (nth (i + r) row 0 - nth (i + r) above 0)) b2 ks2 k2 s3 S1) as (t' & A' & R');
          [lia|apply upL|reflexivity|rewrite K1; exact B1|rewrite Q1, K1; exact E2|].
        exists t'. split; [|exact R']. replace (w - i - r)%nat with (w - (i + r))%nat by lia.
        destruct (Nat.ltb_spec 0 (w - (i + r))); [|lia]. exact A'.
    - (* no run *)
      destruct (line_code _ _ _ _ _ _) as [[[b2 ks2] k2] s3] eqn:E2. injection E as <- <- <- <-.
      rewrite <- app_assoc in Eb.
      pose proof (med_pred i t H ltac:(lia) Ea0) as Hmed.
      destruct (coeff_c prev t) as [cc| |]; cbn [bind] in *; try discriminate. rewrite Hmed. cbn [bind].
      destruct (Hcode i t (predL i) (fold_sign (nth i row 0 - predL i)) b2 ks2 k2 s3 H) as (t' & A' & R');
        [lia|apply predL_ok; lia|reflexivity|exact Eb|exact E2|].
      exists t'. split; [exact A'|exact R'].
  Qed.
End LL.
