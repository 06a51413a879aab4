(** Proofs: the four line decoders invert the line coding. *)
From Coq Require Import List ZArith Bool Lia.
From Verif Require Import Base BaseLemmas Crx CrxSpec CrxProofs.
Import ListNotations.
Open Scope Z_scope.

Section NR.
  Variable row : list Z.
  Let w := length row.
  Hypothesis Hrow : Forall sample_ok row.

  Let StN := St row 0.

  Definition Res (i : nat) (t t' : lst) (rest : list bool) (ks : list nat) (k1 s1 : nat) : Prop :=
    StN w t' /\ l_bits t' = rest /\ l_k t' = k1 /\ l_s t' = s1 /\
    (forall j, (i <= j < w)%nat -> nth j (l_lk t') 0%nat = nth (j - i) ks 0%nat) /\
    (forall j, (j < i)%nat -> nth j (l_lk t') 0%nat = nth j (l_lk t) 0%nat).

  Lemma Res_cons i t t1 t' rest kk ks k1 s1 :
    Res (S i) t1 t' rest ks k1 s1 -> l_lk t1 = upd_list (l_lk t) i kk -> (i < length (l_lk t))%nat ->
    Res i t t' rest (kk :: ks) k1 s1.
  Proof.
    intros (A & B & C & D & E & F) H Hi. unfold Res. split; [exact A|]. repeat (split; [assumption|]). split.
    - intros j Hj. destruct (Nat.eq_dec j i) as [->|].
      + rewrite Nat.sub_diag. rewrite F by lia. rewrite H, nth_upd_eq by auto. reflexivity.
      + rewrite E by lia. replace (j - i)%nat with (S (j - S i)) by lia. reflexivity.
    - intros j Hj. rewrite F by lia. rewrite H. apply nth_upd_neq. lia.
  Qed.

  Lemma Res_zeros i r t t1 t' rest ks k1 s1 :
    Res (i + r) t1 t' rest ks k1 s1 ->
    (forall j, nth j (l_lk t1) 0%nat = if (i <=? j)%nat && (j <? i + r)%nat then 0%nat else nth j (l_lk t) 0%nat) ->
    Res i t t' rest (repeat 0%nat r ++ ks) k1 s1.
  Proof.
    intros (A & B & C & D & E & F) H. unfold Res. split; [exact A|]. repeat (split; [assumption|]). split.
    - intros j Hj. destruct (Nat.ltb_spec j (i + r)).
      + rewrite F by lia. rewrite H. destruct (Nat.leb_spec i j), (Nat.ltb_spec j (i + r)); try lia. cbn [andb].
        rewrite app_nth1 by (rewrite repeat_length; lia).
        destruct (nth_in_or_default (j - i) (repeat 0%nat r) 0%nat) as [I|I]; [|congruence].
        apply repeat_spec in I. congruence.
      + rewrite E by lia. rewrite app_nth2 by (rewrite repeat_length; lia). rewrite repeat_length. f_equal. lia.
    - intros j Hj. rewrite F by lia. rewrite H. destruct (Nat.leb_spec i j); [lia|]. reflexivity.
  Qed.

  Lemma sample i : (i < w)%nat -> sample_ok (nth i row 0).
  Proof. intros. rewrite Forall_forall in Hrow. apply Hrow, nth_In. auto. Qed.

  Lemma code_range i : (i < w)%nat -> 0 <= fold_sign (nth i row 0 - 0) < 2 ^ 20.
  Proof.
    intros H. apply sample in H. unfold sample_ok in H. rewrite Z.sub_0_r.
    apply (fold_sign_range _ (2 ^ 19)); lia.
  Qed.

  Lemma code_fold i : error_code_signed (fold_sign (nth i row 0 - 0)) = nth i row 0.
  Proof. rewrite Z.sub_0_r. apply error_code_fold. Qed.

  (** Storing a sample and its parameter. *)
  Lemma store_both i t : StN i t -> (i < w)%nat ->
    exists t1 t2, store (nth i row 0) t = Ok t1 /\ l_lk t1 = l_lk t /\ l_k t1 = l_k t /\ l_pos t1 = l_pos t /\
      (forall k t1', l_lk t1' = l_lk t1 -> StN (S i) (advance t1') -> l_k t1' = k -> l_bits t1' = l_bits t1 -> l_s t1' = l_s t1 ->
         exists t2, store_k k t1' = Ok t2 /\ StN (S i) (advance t2) /\ l_lk (advance t2) = upd_list (l_lk t) i k /\
           l_bits (advance t2) = l_bits t /\ l_k (advance t2) = k /\ l_s (advance t2) = l_s t) /\
      StN (S i) (advance t1) /\ t2 = t1 /\ l_bits t1 = l_bits t /\ l_s t1 = l_s t.
  Proof.
    intros H Hi. destruct (St_store _ _ _ _ H) as (t1 & A1 & S1 & L1 & B1 & K1 & Q1 & P1); [auto|].
    exists t1, t1. split; [exact A1|]. split; [exact L1|]. split; [exact K1|]. split; [exact P1|].
    split; [|auto 10]. intros k t1' El S' Ek Eb Es.
    destruct (St_store_k _ _ _ _ k S') as (t2 & A2 & S2 & L2 & B2 & K2 & Q2 & P2); [auto|].
    exists t2. split; [exact A2|]. split; [exact S2|]. cbn [advance l_lk l_bits l_k l_s].
    repeat split; try congruence.
  Qed.

  Definition tail_nr (p : nat * lst) : res lst :=
    let '(remaining, t) := p in
    if (remaining =? 1)%nat then
      do (c, t) <- adaptive true PREDICT_K_MAX t;
      do t <- store (error_code_signed c) t;
      do t <- store_k (l_k t) t;
      Ok (advance t)
    else Ok t.

  Lemma St_lk i t : StN i t -> length (l_lk t) = (w + 2)%nat.
  Proof. now intros (_ & _ & H & _). Qed.
  Lemma St_kb i t : StN i t -> (l_k t <= 15)%nat /\ (l_s t <= 31)%nat.
  Proof. now intros (_ & _ & _ & _ & _ & H). Qed.

  Lemma tail_zero t : StN w t -> tail_nr (0%nat, t) = Ok t.
  Proof. reflexivity. Qed.

  Lemma Res_end t : StN w t -> Res w t t (l_bits t) [] (l_k t) (l_s t).
  Proof. intros. unfold Res. split; [auto|]. repeat (split; [reflexivity|]). split; [intros; lia|auto]. Qed.

  (** The last sample. *)
  Lemma last_ok i t v kk rest : StN i t -> S i = w -> error_code_signed v = nth i row 0 -> 0 <= v < 2 ^ 21 ->
    l_bits t = rice_code (l_k t) v ++ rest -> kk = Nat.min 15 (next_k (l_k t) v) ->
    exists t', tail_nr (1%nat, t) = Ok t' /\ Res i t t' rest [kk] kk (l_s t).
  Proof.
    intros H Hi Ev Hv Eb Ek. pose proof (St_kb _ _ H) as (Hk & Hs).
    cbn [tail_nr]. rewrite (adaptive_ok true PREDICT_K_MAX v rest) by auto. cbn [bind].
    change (if (0 <? PREDICT_K_MAX)%nat then _ else _) with (Nat.min (next_k (l_k t) v) 15).
    rewrite Nat.min_comm, <- Ek, Ev.
    destruct (store_both i (set_k kk (set_bits rest t))) as (t1 & _ & A1 & L1 & K1 & P1 & N & S1 & _ & B1 & Q1).
    { apply St_k; [now apply St_bits|lia]. } { lia. }
    rewrite A1. cbn [bind]. destruct (N (l_k t1) t1) as (t2 & A2 & S2 & L2 & B2 & K2 & Q2); auto.
    rewrite A2. cbn [bind]. eexists; split; [reflexivity|].
    eapply Res_cons with (t1 := advance t2).
    - replace kk with (l_k (advance t2)). replace (l_s t) with (l_s (advance t2)). replace rest with (l_bits (advance t2)).
      rewrite Hi. apply Res_end. rewrite <- Hi. exact S2.
      all: rewrite ?K2, ?K1, ?Q2, ?B2; reflexivity.
    - rewrite L2, K1. reflexivity.
    - rewrite (St_lk _ _ H). lia.
  Qed.

  Ltac step_code v rest' :=
    rewrite (adaptive_ok _ _ v rest') by (cbn; auto; lia).

  (** First line. *)
  Lemma top_nr_ok rest : forall fuel ef i t eb ks k1 s1,
    StN i t -> (i <= w)%nat -> (w - i < fuel)%nat -> (w - i <= ef)%nat ->
    line_code (kind_top_nr row) row ef i (l_k t) (l_s t) = (eb, ks, k1, s1) -> l_bits t = eb ++ rest ->
    exists t', bind (top_nr_loop fuel (w - i) t) tail_nr = Ok t' /\ Res i t t' rest ks k1 s1.
  Proof.
    induction fuel as [|fuel IH]; intros ef i t eb ks k1 s1 H Hi Hf Hef E Eb; [lia|].
    pose proof (St_kb _ _ H) as (Hk & Hs).
    destruct ef as [|ef].
    { assert (i = w) by lia. subst i. injection E as <- <- <- <-. cbn [app] in Eb. subst rest.
      rewrite Nat.sub_diag. cbn [top_nr_loop]. exists t. split; [reflexivity|]. now apply Res_end. }
    rewrite line_code_S in E. cbv zeta in E. fold w in E.
    destruct (Nat.eqb_spec (w - i) 0).
    { assert (i = w) by lia. subst i. injection E as <- <- <- <-. cbn [app] in Eb. subst rest.
      rewrite Nat.sub_diag. cbn [top_nr_loop]. exists t. split; [reflexivity|]. now apply Res_end. }
    cbn [kind_top_nr kd_left kd_run kd_pred kd_rpred kd_low kd_next] in E.
    destruct (Nat.ltb_spec 1 (w - i)) as [Hn|Hn].
    2:{ cbn [andb] in E. rewrite line_code_end in E by (fold w; lia). injection E as <- <- <- <-.
        replace (w - i)%nat with 1%nat by lia. cbn [top_nr_loop Nat.leb].
        rewrite app_nil_r in Eb.
        eapply last_ok; eauto; try lia. apply code_fold. pose proof (code_range i). lia. }
    cbn [andb] in E. cbn [top_nr_loop]. destruct (Nat.leb_spec (w - i) 1); [lia|].
    rewrite (St_a _ _ _ _ H) by lia. cbn [bind]. 
    change (match i with O => 0 | S i' => nth i' row 0 end) with (left_of row 0 i) in E.
    destruct (Z.eqb_spec (left_of row 0 i) 0) as [Ha|Ha]; cbn [negb].
    - (* run *)
      rewrite Ha in E.
      pose proof (run_length_le 0 (skipn i row)) as Hl. rewrite skipn_length in Hl. fold w in Hl.
      pose proof (run_length_max 0 (skipn i row)) as Hm. rewrite skipn_length in Hm. fold w in Hm. rewrite nth_skipn in Hm.
      assert (forall j, (i <= j < i + run_length 0 (skipn i row))%nat -> nth j row 0 = 0) as Hz.
      { intros j Hj. replace j with (i + (j - i))%nat by lia. rewrite <- nth_skipn. apply run_length_spec. lia. }
      set (r := run_length 0 (skipn i row)) in *.
      destruct (run_bits (w - i) r (l_s t)) as [rb s2] eqn:Er.
      assert (exists rest1, l_bits t = rb ++ rest1) as (rest1 & Eb1).
      { destruct (i + r =? w)%nat; [injection E as <- _ _ _; eauto|].
        destruct (line_code _ _ _ _ _ _) as [[[? ?] ?] ?]. injection E as <- _ _ _. rewrite <- app_assoc in Eb. eauto. }
      destruct (run_part row 0 zero_run i (w - i) r t rb s2 rest1
        (fun t t' => forall j, nth j (l_lk t') 0%nat = if (i <=? j)%nat && (j <? i + r)%nat then 0%nat else nth j (l_lk t) 0%nat))
        as (one & t0 & t1 & A & B & S1 & B1 & K1 & Q1 & Z1); auto.
      { intros m u Hu Hm1. destruct (zero_run_ok row 0 m i u Hu) as (u' & ? & ? & ? & ? & ? & HH); [lia|intros; apply Hz; lia|].
        exists u'. repeat (split; [assumption|]). intros ->. exact HH. }
      { intros -> b j. cbn [set_bits l_lk]. destruct (Nat.leb_spec i j), (Nat.ltb_spec j (i + 0)); try lia; reflexivity. }
      rewrite A. cbn [bind]. rewrite B. cbn [bind].
      destruct (Nat.eqb_spec (i + r) w) as [Hw|Hw].
      + injection E as <- <- <- <-. apply app_inv_head_iff in Eb1 || (rewrite Eb in Eb1; apply app_inv_head in Eb1); subst rest1.
        replace (w - i - r)%nat with 0%nat by lia. cbn [Nat.eqb bind].
        exists t1. split; [reflexivity|]. rewrite <- (app_nil_r (repeat 0%nat r)).
        eapply Res_zeros; [|exact Z1]. rewrite Hw.
        replace rest with (l_bits t1). replace (l_k t) with (l_k t1). replace s2 with (l_s t1). apply Res_end. now rewrite <- Hw.
      + set (v := fold_sign (nth (i + r) row 0 - 0) - 1) in *.
        set (kk := Nat.min 15 (next_k (l_k t) v)) in *.
        destruct (line_code _ _ _ _ _ _) as [[[b2 ks2] k2] s3] eqn:E2. injection E as <- <- <- <-.
        rewrite Eb, <- !app_assoc in Eb1. apply app_inv_head in Eb1. subst rest1.
        destruct (Nat.eqb_spec (w - i - r) 0); [lia|].
        assert (1 <= fold_sign (nth (i + r) row 0 - 0)) by (apply fold_sign_pos; rewrite Z.sub_0_r; apply Hm; lia).
        pose proof (code_range (i + r)) as Hc.
        rewrite (adaptive_ok true PREDICT_K_MAX v (b2 ++ rest)); [|rewrite K1; lia|unfold v; lia|rewrite K1; exact B1].
        cbn [bind]. change (if (0 <? PREDICT_K_MAX)%nat then _ else _) with (Nat.min (next_k (l_k t1) v) 15).
        rewrite Nat.min_comm, K1. fold kk.
        unfold u32 at 1. replace (v + 1) with (fold_sign (nth (i + r) row 0 - 0)) by (unfold v; lia).
        destruct (Z.leb_spec 0 (fold_sign (nth (i + r) row 0 - 0))), (Z.ltb_spec (fold_sign (nth (i + r) row 0 - 0)) (2 ^ 32)); try lia.
        cbn [andb bind]. rewrite code_fold.
        destruct (store_both (i + r) (set_k kk (set_bits (b2 ++ rest) t1))) as (t2 & _ & A2 & L2 & K2 & P2 & N & S2 & _ & B2 & Q2).
        { apply St_k; [now apply St_bits|unfold kk; lia]. } { lia. }
        rewrite A2. cbn [bind]. destruct (N (l_k t2) t2) as (t3 & A3 & S3 & L3 & B3 & K3 & Q3); auto.
        rewrite A3. cbn [bind].
        destruct (IH ef (S (i + r)) (advance t3) b2 ks2 k2 s3) as (t' & A' & R'); auto; try lia.
        { rewrite <- E2. f_equal; [rewrite K3, K2; reflexivity|rewrite Q3; exact Q1]. }
        replace (w - i - r - 1)%nat with (w - S (i + r))%nat by lia.
        exists t'. split; [exact A'|]. eapply Res_zeros; [|exact Z1].
        eapply Res_cons; [exact R'| |rewrite (St_lk _ _ S1); lia]. rewrite L3, K2. reflexivity.
    - (* no run *)
      destruct (line_code _ _ _ _ _ _) as [[[b2 ks2] k2] s3] eqn:E2. injection E as <- <- <- <-.
      rewrite <- app_assoc in Eb.
      set (v := fold_sign (nth i row 0 - 0)) in *. set (kk := Nat.min 15 (next_k (l_k t) v)) in *.
      pose proof (code_range i) as Hc. fold v in Hc.
      rewrite (adaptive_ok true PREDICT_K_MAX v (b2 ++ rest)) by (auto; lia). cbn [bind].
      change (if (0 <? PREDICT_K_MAX)%nat then _ else _) with (Nat.min (next_k (l_k t) v) 15).
      rewrite Nat.min_comm. fold kk. unfold v at 1. rewrite code_fold.
      destruct (store_both i (set_k kk (set_bits (b2 ++ rest) t))) as (t2 & _ & A2 & L2 & K2 & P2 & N & S2 & _ & B2 & Q2).
      { apply St_k; [now apply St_bits|unfold kk; lia]. } { lia. }
      rewrite A2. cbn [bind]. destruct (N (l_k t2) t2) as (t3 & A3 & S3 & L3 & B3 & K3 & Q3); auto.
      rewrite A3. cbn [bind].
      destruct (IH ef (S i) (advance t3) b2 ks2 k2 s3) as (t' & A' & R'); auto; try lia.
      { rewrite <- E2. f_equal; [rewrite K3, K2; reflexivity|rewrite Q3; reflexivity]. }
      replace (w - i - 1)%nat with (w - S i)%nat by lia.
      exists t'. split; [exact A'|].
      eapply Res_cons; [exact R'| |rewrite (St_lk _ _ H); lia]. rewrite L3, K2. reflexivity.
  Qed.

  (** Other lines. *)
  Variables (prev : list Z) (above : list Z) (pk : list nat).
  Hypothesis Hprev : length prev = (w + 2)%nat.
  Hypothesis Habove : forall j, (j < w)%nat -> nth (S j) prev 0 = nth j above 0.
  Hypothesis Hpk : Forall (fun k => (k <= 15)%nat) pk.

  Lemma pk_le j : (nth j pk 0 <= 15)%nat.
  Proof using Hpk.
    clear - Hpk.
    destruct (nth_in_or_default j pk 0%nat) as [I| ->]; [|lia].
    rewrite Forall_forall in Hpk. now apply Hpk.
  Qed.

  Definition adj (q k : nat) : nat := if (k + 1 <? q)%nat then S k else Nat.min 15 k.
  Lemma adj_le q k : (q <= 15)%nat -> (adj q k <= 15)%nat.
  Proof using. clear. unfold adj. destruct (Nat.ltb_spec (k + 1) q); lia. Qed.

  Lemma adjust_ok t i : l_pos t = S i -> (S i < length (l_lk t))%nat -> adjust_k t = Ok (set_k (adj (nth (S i) (l_lk t) 0%nat) (l_k t)) t).
  Proof.
    intros P L. unfold adjust_k. rewrite P, (get_ok _ _ 0%nat) by auto. cbn [bind]. f_equal. unfold adj.
    destruct (Nat.leb_spec (nth (S i) (l_lk t) 0%nat - l_k t) 1), (Nat.ltb_spec (l_k t + 1) (nth (S i) (l_lk t) 0%nat)); try lia.
    - destruct (Nat.leb_spec 15 (l_k t)); [now rewrite Nat.min_l by lia|].
      rewrite Nat.min_r by lia. now destruct t.
    - now rewrite Nat.add_1_r.
  Qed.

  (** Storing with the adjusted parameter. *)
  Lemma code_adjust i t v kk r rest1 :
    StN i t -> (S i < w)%nat -> (forall j, (i <= j < w)%nat -> nth j (l_lk t) 0%nat = nth j pk 0%nat) ->
    kk = adj (nth (S i) pk 0%nat) (next_k (l_k t) v) -> r = nth i row 0 ->
    0 <= v -> l_bits t = rest1 ->
    exists t1, (do t <- store r (set_k (next_k (l_k t) v) t); do t <- adjust_k t; do t <- store_k (l_k t) t; Ok (advance t)) = Ok t1 /\
      StN (S i) t1 /\ l_lk t1 = upd_list (l_lk t) i kk /\ l_bits t1 = rest1 /\ l_k t1 = kk /\ l_s t1 = l_s t.
  Proof.
    intros H Hi Hlk Ek -> Hv Eb. pose proof (St_kb _ _ H) as (Hk & Hs).
    pose proof (adj_le (nth (S i) pk 0%nat) (next_k (l_k t) v) (pk_le _)) as Hkk. rewrite <- Ek in Hkk.
    destruct H as (P & L & LK & A0 & C & K & Hs').
    unfold store. cbn [l_pos set_k l_cur]. rewrite P, put_ok by lia. cbn [bind].
    rewrite (adjust_ok _ i) by (cbn [l_pos l_lk set_k]; lia). cbn [l_lk l_k set_k bind].
    rewrite Hlk by lia. rewrite <- Ek.
    unfold store_k. cbn [l_pos l_lk l_k set_k]. rewrite usub_ok by lia. cbn [bind].
    replace (S i - 1)%nat with i by lia. rewrite put_ok by lia. cbn [bind].
    eexists; split; [reflexivity|]. split; [|auto].
    unfold StN, St, advance; cbn [l_pos l_cur l_lk l_k l_s set_k]. rewrite !upd_list_length.
    split; [lia|]. split; [lia|]. split; [lia|]. split; [rewrite nth_upd_neq by lia; exact A0|]. split; [|split; lia].
    intros j Hj. rewrite nth_upd by lia. destruct (Nat.eqb_spec (S i) (S j)); [now replace j with i by lia|]. apply C. lia.
  Qed.

  Lemma lk_keep i i' t t1 : (forall j, (i <= j < w)%nat -> nth j (l_lk t) 0%nat = nth j pk 0%nat) -> (i <= i')%nat ->
    (forall j, (i' <= j)%nat -> nth j (l_lk t1) 0%nat = nth j (l_lk t) 0%nat) ->
    (forall j, (i' <= j < w)%nat -> nth j (l_lk t1) 0%nat = nth j pk 0%nat).
  Proof. intros A B C j Hj. rewrite C by lia. apply A. lia. Qed.

  Lemma nontop_nr_ok rest : forall fuel ef i t eb ks k1 s1,
    StN i t -> (i <= w)%nat -> (w - i < fuel)%nat -> (w - i <= ef)%nat ->
    (forall j, (i <= j < w)%nat -> nth j (l_lk t) 0%nat = nth j pk 0%nat) ->
    line_code (kind_nontop_nr above pk row) row ef i (l_k t) (l_s t) = (eb, ks, k1, s1) -> l_bits t = eb ++ rest ->
    exists t', bind (nontop_nr_loop fuel (w - i) prev t) tail_nr = Ok t' /\ Res i t t' rest ks k1 s1.
  Proof.
    induction fuel as [|fuel IH]; intros ef i t eb ks k1 s1 H Hi Hf Hef Hlk E Eb; [lia|].
    pose proof (St_kb _ _ H) as (Hk & Hs).
    destruct ef as [|ef].
    { assert (i = w) by lia. subst i. injection E as <- <- <- <-. cbn [app] in Eb. subst rest.
      rewrite Nat.sub_diag. cbn [nontop_nr_loop]. exists t. split; [reflexivity|]. now apply Res_end. }
    rewrite line_code_S in E. cbv zeta in E. fold w in E.
    destruct (Nat.eqb_spec (w - i) 0).
    { assert (i = w) by lia. subst i. injection E as <- <- <- <-. cbn [app] in Eb. subst rest.
      rewrite Nat.sub_diag. cbn [nontop_nr_loop]. exists t. split; [reflexivity|]. now apply Res_end. }
    cbn [kind_nontop_nr kd_left kd_run kd_pred kd_rpred kd_low kd_next] in E. fold w in E.
    destruct (Nat.ltb_spec 1 (w - i)) as [Hn|Hn].
    2:{ cbn [andb] in E. rewrite line_code_end in E by (fold w; lia).
        destruct (Nat.ltb_spec (S i) w); [lia|].
        injection E as <- <- <- <-.
        replace (w - i)%nat with 1%nat by lia. cbn [nontop_nr_loop Nat.leb].
        rewrite app_nil_r in Eb.
        eapply last_ok; eauto; try lia. apply code_fold. pose proof (code_range i). lia. }
    cbn [andb] in E. cbn [nontop_nr_loop]. destruct (Nat.leb_spec (w - i) 1); [lia|].
    rewrite (St_a _ _ _ _ H) by lia.
    assert (l_pos t = S i) as Hpos by apply H.
    unfold coeff_d, coeff_b. rewrite Hpos, !(get_ok _ _ 0) by lia. cbn [bind].
    replace (S i + 1)%nat with (S (S i)) by lia. rewrite !Habove by lia.
    change (match i with O => 0 | S i' => nth i' row 0 end) with (left_of row 0 i) in E.
    assert ((Z.lor (Z.lor (nth (S i) above 0) (nth i above 0)) (left_of row 0 i) =? 0) =
            (left_of row 0 i =? 0) && (nth i above 0 =? 0) && (nth (S i) above 0 =? 0)) as ->.
    { destruct (Z.eqb_spec (Z.lor (Z.lor (nth (S i) above 0) (nth i above 0)) (left_of row 0 i)) 0) as [Z0|Z0].
      - apply Z.lor_eq_0_iff in Z0. destruct Z0 as (Z0 & ->). apply Z.lor_eq_0_iff in Z0. destruct Z0 as (-> & ->). reflexivity.
      - destruct (Z.eqb_spec (left_of row 0 i) 0) as [e1|]; [|reflexivity].
        destruct (Z.eqb_spec (nth i above 0) 0) as [e2|]; [|reflexivity].
        destruct (Z.eqb_spec (nth (S i) above 0) 0) as [e3|]; [|reflexivity]. rewrite e1, e2, e3 in Z0. now elim Z0. }
    destruct ((left_of row 0 i =? 0) && (nth i above 0 =? 0) && (nth (S i) above 0 =? 0)) eqn:Hrun; cbn [negb].
    - (* run *)
      apply andb_prop in Hrun. destruct Hrun as [Hrun _]. apply andb_prop in Hrun. destruct Hrun as [Ha _].
      apply Z.eqb_eq in Ha. rewrite Ha in E.
      pose proof (run_length_le 0 (skipn i row)) as Hl. rewrite skipn_length in Hl. fold w in Hl.
      pose proof (run_length_max 0 (skipn i row)) as Hm. rewrite skipn_length in Hm. fold w in Hm. rewrite nth_skipn in Hm.
      assert (forall j, (i <= j < i + run_length 0 (skipn i row))%nat -> nth j row 0 = 0) as Hz.
      { intros j Hj. replace j with (i + (j - i))%nat by lia. rewrite <- nth_skipn. apply run_length_spec. lia. }
      set (r := run_length 0 (skipn i row)) in *.
      destruct (run_bits (w - i) r (l_s t)) as [rb s2] eqn:Er.
      assert (exists rest1, l_bits t = rb ++ rest1) as (rest1 & Eb1).
      { destruct (i + r =? w)%nat; [injection E as <- _ _ _; eauto|].
        destruct (line_code _ _ _ _ _ _) as [[[? ?] ?] ?]. injection E as <- _ _ _. rewrite <- app_assoc in Eb. eauto. }
      destruct (run_part row 0 zero_run i (w - i) r t rb s2 rest1
        (fun t t' => forall j, nth j (l_lk t') 0%nat = if (i <=? j)%nat && (j <? i + r)%nat then 0%nat else nth j (l_lk t) 0%nat))
        as (one & t0 & t1 & A & B & S1 & B1 & K1 & Q1 & Z1); auto.
      { intros m u Hu Hm1. destruct (zero_run_ok row 0 m i u Hu) as (u' & ? & ? & ? & ? & ? & HH); [lia|intros; apply Hz; lia|].
        exists u'. repeat (split; [assumption|]). intros ->. exact HH. }
      { intros -> b j. cbn [set_bits l_lk]. destruct (Nat.leb_spec i j), (Nat.ltb_spec j (i + 0)); try lia; reflexivity. }
      rewrite A. cbn [bind]. rewrite B. cbn [bind].
      assert (forall j, (i + r <= j < w)%nat -> nth j (l_lk t1) 0%nat = nth j pk 0%nat) as Hlk1.
      { intros j Hj. rewrite Z1. destruct (Nat.leb_spec i j), (Nat.ltb_spec j (i + r)); try lia; apply Hlk; lia. }
      destruct (Nat.eqb_spec (i + r) w) as [Hw|Hw].
      + injection E as <- <- <- <-. rewrite Eb in Eb1; apply app_inv_head in Eb1; subst rest1.
        replace (w - i - r)%nat with 0%nat by lia. cbn [Nat.eqb Nat.leb bind].
        exists t1. split; [reflexivity|]. rewrite <- (app_nil_r (repeat 0%nat r)).
        eapply Res_zeros; [|exact Z1]. rewrite Hw.
        replace rest with (l_bits t1). replace (l_k t) with (l_k t1). replace s2 with (l_s t1). apply Res_end. now rewrite <- Hw.
      + set (v := fold_sign (nth (i + r) row 0 - 0) - 1) in *.
        assert (1 <= fold_sign (nth (i + r) row 0 - 0)) by (apply fold_sign_pos; rewrite Z.sub_0_r; apply Hm; lia).
        pose proof (code_range (i + r)) as Hc.
        assert (u32 (v + 1) = Ok (fold_sign (nth (i + r) row 0 - 0))) as Hu.
        { unfold u32. replace (v + 1) with (fold_sign (nth (i + r) row 0 - 0)) by (unfold v; lia).
          destruct (Z.leb_spec 0 (fold_sign (nth (i + r) row 0 - 0))), (Z.ltb_spec (fold_sign (nth (i + r) row 0 - 0)) (2 ^ 32)); try lia.
          reflexivity. }
        destruct (Nat.ltb_spec (S (i + r)) w) as [Hlast|Hlast].
        * fold (adj (nth (S (i + r)) pk 0%nat) (next_k (l_k t) v)) in E.
          set (kk := adj (nth (S (i + r)) pk 0%nat) (next_k (l_k t) v)) in *.
          destruct (line_code _ _ _ _ _ _) as [[[b2 ks2] k2] s3] eqn:E2. injection E as <- <- <- <-.
          rewrite Eb, <- !app_assoc in Eb1. apply app_inv_head in Eb1. subst rest1.
          destruct (Nat.leb_spec (w - i - r) 1); [lia|].
          rewrite (adaptive_ok true 0 v (b2 ++ rest)); [|rewrite K1; lia|unfold v; lia|rewrite K1; exact B1].
          cbn [bind]. change (if (0 <? 0)%nat then _ else _) with (next_k (l_k t1) v).
          rewrite Hu. cbn [bind]. rewrite code_fold.
          destruct (code_adjust (i + r) (set_bits (b2 ++ rest) t1) v kk (nth (i + r) row 0) (b2 ++ rest)) as (t2 & A2 & S2 & L2 & B2 & K2 & Q2);
            [now apply St_bits|lia|exact Hlk1|cbn [set_bits l_k]; rewrite K1; reflexivity|reflexivity|unfold v; lia|reflexivity|].
          cbn [set_bits l_k l_lk l_s] in *.
          destruct (IH ef (S (i + r)) t2 b2 ks2 k2 s3) as (t' & A' & R'); auto; try lia.
          { intros j Hj. rewrite L2, nth_upd_neq by lia. apply Hlk1. lia. }
          { rewrite <- E2, K2, Q2, Q1. reflexivity. }
          replace (w - i - r - 1)%nat with (w - S (i + r))%nat by lia.
          exists t'. split; [|eapply Res_zeros; [|exact Z1]; eapply Res_cons; [exact R'|exact L2|rewrite (St_lk _ _ S1); lia]].
          destruct (store _ _) as [u1| |]; cbn [bind] in *; try discriminate.
          destruct (adjust_k _) as [u2| |]; cbn [bind] in *; try discriminate.
          destruct (store_k _ _) as [u3| |]; cbn [bind] in *; try discriminate.
          injection A2 as <-. exact A'.
        * set (kk := Nat.min 15 (next_k (l_k t) v)) in *. rewrite line_code_end in E by (fold w; lia). injection E as <- <- <- <-.
          rewrite Eb, <- !app_assoc in Eb1. apply app_inv_head in Eb1. subst rest1. cbn [app] in B1.
          replace (w - i - r)%nat with 1%nat by lia. cbn [Nat.leb Nat.eqb].
          rewrite (adaptive_ok true PREDICT_K_MAX v rest); [|rewrite K1; lia|unfold v; lia|rewrite K1; exact B1].
          cbn [bind]. change (if (0 <? PREDICT_K_MAX)%nat then _ else _) with (Nat.min (next_k (l_k t1) v) 15).
          rewrite Nat.min_comm, K1. fold kk.
          rewrite Hu. cbn [bind]. rewrite code_fold.
          destruct (store_both (i + r) (set_k kk (set_bits rest t1))) as (t2 & _ & A2 & L2 & K2 & P2 & N & S2 & _ & B2 & Q2).
          { apply St_k; [now apply St_bits|unfold kk; lia]. } { lia. }
          rewrite A2. cbn [bind]. destruct (N (l_k t2) t2) as (t3 & A3 & S3 & L3 & B3 & K3 & Q3); auto.
          rewrite A3. cbn [bind tail_nr Nat.eqb].
          eexists; split; [reflexivity|]. eapply Res_zeros; [|exact Z1].
          eapply Res_cons with (t1 := advance t3); [|rewrite L3, K2; reflexivity|rewrite (St_lk _ _ S1); lia].
          assert (S (i + r) = w) as Hsw by lia. rewrite Hsw in S3 |- *.
          assert (l_k (advance t3) = kk) as F1 by (rewrite K3, K2; reflexivity).
          assert (l_s (advance t3) = s2) as F2 by (rewrite Q3; exact Q1).
          assert (l_bits (advance t3) = rest) as F3 by (rewrite B3; reflexivity).
          rewrite <- F1, <- F2, <- F3. apply Res_end. exact S3.
    - (* no run *)
      destruct (Nat.ltb_spec (S i) w) as [Hlast|]; [|lia].
      set (v := fold_sign (nth i row 0 - 0)) in *.
      fold (adj (nth (S i) pk 0%nat) (next_k (l_k t) v)) in E. set (kk := adj (nth (S i) pk 0%nat) (next_k (l_k t) v)) in *.
      destruct (line_code _ _ _ _ _ _) as [[[b2 ks2] k2] s3] eqn:E2. injection E as <- <- <- <-.
      rewrite <- app_assoc in Eb.
      pose proof (code_range i) as Hc. fold v in Hc.
      rewrite (adaptive_ok true 0 v (b2 ++ rest)) by (auto; lia). cbn [bind].
      change (if (0 <? 0)%nat then _ else _) with (next_k (l_k t) v).
      replace (error_code_signed v) with (nth i row 0) by (symmetry; apply code_fold).
      destruct (code_adjust i (set_bits (b2 ++ rest) t) v kk (nth i row 0) (b2 ++ rest)) as (t2 & A2 & S2 & L2 & B2 & K2 & Q2);
        [now apply St_bits|lia|exact Hlk|reflexivity|reflexivity|lia|reflexivity|].
      cbn [set_bits l_k l_lk l_s] in *.
      destruct (IH ef (S i) t2 b2 ks2 k2 s3) as (t' & A' & R'); auto; try lia.
      { intros j Hj. rewrite L2, nth_upd_neq by lia. apply Hlk. lia. }
      { rewrite <- E2, K2, Q2. reflexivity. }
      replace (w - i - 1)%nat with (w - S i)%nat by lia.
      exists t'. split; [|eapply Res_cons; [exact R'|exact L2|rewrite (St_lk _ _ H); lia]].
      destruct (store _ _) as [u1| |]; cbn [bind] in *; try discriminate.
      destruct (adjust_k _) as [u2| |]; cbn [bind] in *; try discriminate.
      destruct (store_k _ _) as [u3| |]; cbn [bind] in *; try discriminate.
      injection A2 as <-. exact A'.
  Qed.
End NR.
