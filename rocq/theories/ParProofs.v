From Coq Require Import List ZArith Lia Bool.
From Coq Require Import ZifyBool ZifyNat.
From Verif Require Import Base BaseLemmas Par.
Import ListNotations.
Open Scope nat_scope.

Section ParP.
Context {A : Type}.
Variable d : A.
Notation gather := (gather d).
Notation prun := (prun d).
Notation pstep := (pstep d).
Notation run_seq := (run_seq d).

Lemma scatter_length F : forall (v buf : list A), length (scatter F v buf) = length buf.
Proof. induction F as [|i F IH]; intros [|a v] buf; cbn; auto. now rewrite IH, upd_list_length. Qed.

Lemma scatter_other F : forall (v buf : list A) j, ~ In j F -> nth j (scatter F v buf) d = nth j buf d.
Proof.
  induction F as [|i F IH]; intros [|a v] buf j H; cbn; auto.
  rewrite IH by (intros X; apply H; right; auto). apply nth_upd_neq. intros E. apply H. left; auto.
Qed.

Lemma gather_scatter_other F G (v buf : list A) : (forall j, In j F -> ~ In j G) ->
  gather G (scatter F v buf) = gather G buf.
Proof. intros H. apply map_ext_in. intros j Hj. apply scatter_other. intros X. eapply H; eauto. Qed.

Lemma gather_scatter F : forall (v buf : list A), NoDup F -> Forall (fun j => j < length buf) F -> length v = length F ->
  gather F (scatter F v buf) = v.
Proof.
  induction F as [|i F IH]; intros [|a v] buf ND HB HL; cbn in HL; try lia; auto.
  inversion ND; inversion HB; subst. cbn. f_equal.
  - rewrite scatter_other by auto. apply nth_upd_eq; auto.
  - apply IH; auto. eapply Forall_impl; [|eassumption]. intros k. now rewrite upd_list_length.
Qed.

(** Footprints in bounds, without repetition, pairwise disjoint. *)
Definition footprints_ok (Fs : list (list nat)) (n : nat) : Prop :=
  (forall i, i < length Fs -> NoDup (nth i Fs [])) /\
  (forall i, i < length Fs -> Forall (fun j => j < n) (nth i Fs [])) /\
  (forall i j k, i < length Fs -> j < length Fs -> i <> j -> In k (nth i Fs []) -> ~ In k (nth j Fs [])).

(** Operations cannot change the size of the slice they work on. *)
Definition op_ok (n : nat) (o : op A) : Prop := forall v v', length v = n -> o v = Some v' -> length v' = n.

Definition dw : worker A := mk_worker [] [].

Lemma run_ops_length n (os : list (op A)) : forall v v', Forall (op_ok n) os -> length v = n ->
  run_ops os v = Some v' -> length v' = n.
Proof.
  induction os as [|o os IH]; intros v v' HF HL H; cbn in H. { congruence. }
  inversion HF as [|? ? HO HOS]; subst. destruct (o v) eqn:E; [|discriminate].
  apply (IH _ _ HOS (HO _ _ eq_refl E) H).
Qed.

(** Final contents of worker [i]'s cells when run alone on the initial buffer. *)
Definition alone (buf0 : list A) (w : worker A) : option (list A) := run_ops (wk_ops w) (gather (wk_cells w) buf0).

Section Inv.
Variable buf0 : list A.
Variable ws0 : list (worker A).
Hypothesis HFP : footprints_ok (map wk_cells ws0) (length buf0).
Hypothesis HOK : Forall (fun w => Forall (op_ok (length (wk_cells w))) (wk_ops w)) ws0.

Record inv (s : pstate A) : Prop := {
  iv_len : length (ps_buf s) = length buf0;
  iv_ws : length (ps_ws s) = length ws0;
  iv_cells : forall i, i < length ws0 -> wk_cells (nth i (ps_ws s) dw) = wk_cells (nth i ws0 dw);
  iv_ops : forall i, i < length ws0 -> Forall (op_ok (length (wk_cells (nth i ws0 dw)))) (wk_ops (nth i (ps_ws s) dw));
  iv_alone : ps_failed s = false -> forall i, i < length ws0 ->
      run_ops (wk_ops (nth i (ps_ws s) dw)) (gather (wk_cells (nth i ws0 dw)) (ps_buf s)) = alone buf0 (nth i ws0 dw);
  iv_out : forall k, (forall i, i < length ws0 -> ~ In k (wk_cells (nth i ws0 dw))) ->
      nth k (ps_buf s) d = nth k buf0 d;
  iv_fail : ps_failed s = true -> exists i, i < length ws0 /\ alone buf0 (nth i ws0 dw) = None
}.

Lemma inv_init : inv (mk_pstate buf0 ws0 false).
Proof.
  constructor; cbn; auto; try discriminate.
  intros i Hi. rewrite Forall_forall in HOK. apply HOK. now apply nth_In.
Qed.

Lemma cells_nth i : nth i (map wk_cells ws0) [] = wk_cells (nth i ws0 dw).
Proof. change (@nil nat) with (wk_cells dw). now rewrite map_nth. Qed.

Lemma inv_step s i : inv s -> (ps_failed s = false -> inv (pstep i s)) .
Proof.
  intros I HNF. unfold Par.pstep.
  destruct (nth_error (ps_ws s) i) as [[F [|o os]]|] eqn:E; auto.
  assert (Hi : i < length ws0) by (rewrite <- (iv_ws s I); apply nth_error_Some; congruence).
  assert (EN : nth i (ps_ws s) dw = mk_worker F (o :: os)) by (erewrite nth_error_nth; eauto).
  pose proof (iv_cells s I i Hi) as EF. rewrite EN in EF. cbn in EF.
  pose proof (iv_ops s I i Hi) as EO. rewrite EN in EO. cbn in EO. inversion EO as [|? ? HO HOS]; subst.
  pose proof (iv_alone s I HNF i Hi) as EA. rewrite EN in EA. cbn [wk_ops run_ops] in EA.
  destruct HFP as (ND & IB & DJ). rewrite map_length in *.
  destruct (o (gather (wk_cells (nth i ws0 dw)) (ps_buf s))) as [v|] eqn:EV.
  - assert (HL : length v = length (wk_cells (nth i ws0 dw))).
    { apply (HO _ _ (map_length _ _) EV). }
    assert (HG : gather (wk_cells (nth i ws0 dw)) (scatter (wk_cells (nth i ws0 dw)) v (ps_buf s)) = v).
    { apply gather_scatter; auto.
      - specialize (ND i Hi). now rewrite cells_nth in ND.
      - specialize (IB i Hi). rewrite cells_nth in IB. now rewrite (iv_len s I). }
    constructor; cbn [ps_buf ps_ws ps_failed].
    + rewrite scatter_length. apply (iv_len s I).
    + rewrite upd_list_length. apply (iv_ws s I).
    + intros j Hj. rewrite nth_upd by (rewrite (iv_ws s I); auto).
      destruct (Nat.eqb_spec i j); subst; auto. now apply (iv_cells s I).
    + intros j Hj. rewrite nth_upd by (rewrite (iv_ws s I); auto).
      destruct (Nat.eqb_spec i j); subst; auto. now apply (iv_ops s I).
    + intros _ j Hj. rewrite nth_upd by (rewrite (iv_ws s I); auto).
      destruct (Nat.eqb_spec i j).
      * subst j. cbn [wk_ops]. rewrite HG. exact EA.
      * rewrite gather_scatter_other. { now apply (iv_alone s I). }
        intros k Hk. rewrite <- cells_nth in *. now apply (DJ i j k).
    + intros k Hk. rewrite scatter_other by (apply Hk; auto). now apply (iv_out s I).
    + intros X. congruence.
  - constructor; cbn [ps_buf ps_ws ps_failed].
    + apply (iv_len s I).
    + rewrite upd_list_length. apply (iv_ws s I).
    + intros j Hj. rewrite nth_upd by (rewrite (iv_ws s I); auto).
      destruct (Nat.eqb_spec i j); subst; auto. now apply (iv_cells s I).
    + intros j Hj. rewrite nth_upd by (rewrite (iv_ws s I); auto).
      destruct (Nat.eqb_spec i j); subst; cbn; auto. now apply (iv_ops s I).
    + discriminate.
    + now apply (iv_out s I).
    + intros _. exists i. split; auto.
Qed.

Lemma failed_step i s : ps_failed s = true -> ps_failed (pstep i s) = true.
Proof.
  intros H. unfold Par.pstep. destruct (nth_error (ps_ws s) i) as [[F [|o os]]|]; auto.
  destruct (o _); auto.
Qed.

Lemma failed_run sched : forall s, ps_failed s = true -> ps_failed (prun sched s) = true.
Proof. induction sched as [|i t IH]; cbn; auto. intros s H. apply IH. now apply failed_step. Qed.

Lemma inv_run sched : forall s, inv s ->
  (ps_failed (prun sched s) = false -> inv (prun sched s)) /\
  (ps_failed (prun sched s) = true -> exists i, i < length ws0 /\ alone buf0 (nth i ws0 dw) = None).
Proof.
  induction sched as [|i t IH]; intros s I.
  - cbn. split; auto. apply (iv_fail s I).
  - cbn [Par.prun fold_left]. change (fold_left (fun s i => pstep i s) t (pstep i s)) with (prun t (pstep i s)).
    destruct (ps_failed s) eqn:EF.
    + pose proof (failed_run t _ (failed_step i s EF)) as FR. split; [congruence|].
      intros _. now apply (iv_fail s I).
    + apply IH. now apply inv_step.
Qed.

(** The state reached when nobody fails. *)
Lemma prun_ok sched : ended (prun sched (mk_pstate buf0 ws0 false)) ->
  ps_failed (prun sched (mk_pstate buf0 ws0 false)) = false ->
  let b := ps_buf (prun sched (mk_pstate buf0 ws0 false)) in
  length b = length buf0 /\
  (forall i, i < length ws0 -> alone buf0 (nth i ws0 dw) = Some (gather (wk_cells (nth i ws0 dw)) b)) /\
  (forall k, (forall i, i < length ws0 -> ~ In k (wk_cells (nth i ws0 dw))) -> nth k b d = nth k buf0 d).
Proof.
  intros HE HF. destruct (inv_run sched _ inv_init) as (HI & _). specialize (HI HF).
  set (s := prun sched _) in *. cbv zeta. split; [apply (iv_len s HI)|]. split.
  - intros i Hi. rewrite <- (iv_alone s HI HF i Hi).
    destruct HE as [HE|HE]; [|congruence]. red in HE. rewrite Forall_forall in HE.
    rewrite HE; auto. apply nth_In. rewrite (iv_ws s HI). auto.
  - apply (iv_out s HI).
Qed.

Lemma prun_failed sched : ps_failed (prun sched (mk_pstate buf0 ws0 false)) = true ->
  exists i, i < length ws0 /\ alone buf0 (nth i ws0 dw) = None.
Proof. apply inv_run. apply inv_init. Qed.

(** Sequential run. *)
Lemma run_seq_from n : n <= length ws0 -> forall buf, length buf = length buf0 ->
  (forall i, n <= i < length ws0 -> gather (wk_cells (nth i ws0 dw)) buf = gather (wk_cells (nth i ws0 dw)) buf0) ->
  match run_seq (skipn n ws0) buf with
  | POk b => length b = length buf0 /\
     (forall i, n <= i < length ws0 -> alone buf0 (nth i ws0 dw) = Some (gather (wk_cells (nth i ws0 dw)) b)) /\
     (forall k, (forall i, n <= i < length ws0 -> ~ In k (wk_cells (nth i ws0 dw))) -> nth k b d = nth k buf d)
  | PFail => exists i, n <= i < length ws0 /\ alone buf0 (nth i ws0 dw) = None
  end.
Proof.
  remember (length ws0 - n) as m eqn:Em. revert n Em. induction m as [|m IH]; intros n Em Hn buf HL HG.
  - rewrite skipn_all2 by lia. cbn. split; auto. split; auto. intros; lia.
  - assert (Hlt : n < length ws0) by lia.
    assert (ES : skipn n ws0 = nth n ws0 dw :: skipn (S n) ws0).
    { clear - Hlt. revert n Hlt. induction ws0 as [|w t IH]; intros [|n] H; cbn in *; try lia; auto. apply IH. lia. }
    rewrite ES. cbn [Par.run_seq]. destruct (nth n ws0 dw) as [F os] eqn:EW.
    pose proof (HG n ltac:(lia)) as HGn. rewrite EW in HGn. cbn [wk_cells] in HGn. rewrite HGn.
    assert (EAL : alone buf0 (nth n ws0 dw) = run_ops os (gather F buf0)) by (rewrite EW; reflexivity).
    destruct (run_ops os (gather F buf0)) as [v|] eqn:ER.
    2: { exists n. split; [lia|]. auto. }
    destruct HFP as (ND & IB & DJ). rewrite map_length in *.
    assert (EFn : nth n (map wk_cells ws0) [] = F) by (rewrite cells_nth, EW; auto).
    specialize (IH (S n) ltac:(lia) ltac:(lia) (scatter F v buf)).
    rewrite scatter_length in IH. specialize (IH HL).
    assert (HLv : length v = length F).
    { apply run_ops_length with (n := length F) in ER; auto; [|apply map_length].
      rewrite Forall_forall in HOK. specialize (HOK _ (nth_In ws0 dw Hlt)). now rewrite EW in HOK. }
    assert (HGS : gather F (scatter F v buf) = v).
    { apply gather_scatter; auto.
      - specialize (ND n Hlt). now rewrite EFn in ND.
      - specialize (IB n Hlt). rewrite EFn in IB. now rewrite HL. }
    lapply IH.
    2: { intros i Hi. rewrite gather_scatter_other. { apply HG. lia. }
         intros k Hk. rewrite <- EFn in Hk. rewrite <- cells_nth. apply (DJ n i k); auto; lia. }
    clear IH. intros IH. destruct (run_seq (skipn (S n) ws0) (scatter F v buf)) as [b|].
    + destruct IH as (L & HA & HO). split; auto. split.
      * intros i Hi. destruct (Nat.eq_dec i n) as [->|].
        -- rewrite EAL, EW. cbn [wk_cells]. rewrite <- HGS. f_equal. symmetry. apply map_ext_in.
           intros k Hk. apply HO. intros j Hj. rewrite <- EFn in Hk. rewrite <- cells_nth.
           apply (DJ n j k); auto; lia.
        -- apply HA. lia.
      * intros k Hk. rewrite HO by (intros; apply Hk; lia). apply scatter_other.
        specialize (Hk n ltac:(lia)). now rewrite EW in Hk.
    + destruct IH as (i & Hi & HE). exists i. split; auto. lia.
Qed.

Lemma buf_unique (b b' : list A) : length b = length buf0 -> length b' = length buf0 ->
  (forall i, i < length ws0 -> gather (wk_cells (nth i ws0 dw)) b = gather (wk_cells (nth i ws0 dw)) b') ->
  (forall k, (forall i, i < length ws0 -> ~ In k (wk_cells (nth i ws0 dw))) -> nth k b d = nth k b' d) ->
  b = b'.
Proof.
  intros HL HL' HG HO. apply nth_ext_len with (d := d); [congruence|]. intros k Hk.
  destruct (existsb (fun w => if in_dec Nat.eq_dec k (wk_cells w) then true else false) ws0) eqn:EX.
  - apply existsb_exists in EX. destruct EX as (w & Hw & Hk'). destruct (in_dec Nat.eq_dec k (wk_cells w)) as [Hin|]; [|discriminate].
    apply In_nth with (d := dw) in Hw. destruct Hw as (i & Hi & <-). specialize (HG i Hi).
    apply In_nth with (d := 0) in Hin. destruct Hin as (m & Hm & <-).
    assert (HX : nth m (gather (wk_cells (nth i ws0 dw)) b) d = nth m (gather (wk_cells (nth i ws0 dw)) b') d) by congruence.
    unfold Par.gather in HX.
    rewrite nth_indep with (d' := nth 0 b d) in HX by (rewrite map_length; auto).
    rewrite (nth_indep (map (fun i => nth i b' d) _) d (nth 0 b' d)) in HX by (rewrite map_length; auto).
    rewrite (map_nth (fun i => nth i b d)), (map_nth (fun i => nth i b' d)) in HX. exact HX.
  - apply HO. intros i Hi Hin.
    assert (existsb (fun w => if in_dec Nat.eq_dec k (wk_cells w) then true else false) ws0 = true); [|congruence].
    apply existsb_exists. exists (nth i ws0 dw). split; [now apply nth_In|].
    destruct (in_dec Nat.eq_dec k (wk_cells (nth i ws0 dw))); auto.
Qed.

Lemma par_seq sched : ended (prun sched (mk_pstate buf0 ws0 false)) ->
  result (prun sched (mk_pstate buf0 ws0 false)) = run_seq ws0 buf0.
Proof.
  intros HE. unfold result. pose proof (run_seq_from 0 ltac:(lia) buf0 eq_refl ltac:(auto)) as RS.
  cbn [skipn] in RS. destruct (ps_failed _) eqn:EF.
  - apply prun_failed in EF. destruct EF as (i & Hi & EA).
    destruct (run_seq ws0 buf0); auto. destruct RS as (_ & RS & _). rewrite RS in EA by lia. discriminate.
  - destruct (prun_ok sched HE EF) as (L & HA & HO).
    destruct (run_seq ws0 buf0) as [b|].
    + f_equal. destruct RS as (L' & HA' & HO'). apply buf_unique; auto.
      * intros i Hi. specialize (HA i Hi). rewrite HA' in HA by lia. congruence.
      * intros k Hk. rewrite HO by auto. symmetry. apply HO'. intros; apply Hk; lia.
    + destruct RS as (i & Hi & EA). rewrite HA in EA by lia. discriminate.
Qed.

End Inv.
End ParP.
