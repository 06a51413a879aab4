(** Complete executions of a parallel loop over owned cells ([Par.v]) as a
    function of the schedule: any interleaving, after which the workers that
    have not ended are run one after the other.  Every complete execution has
    this form. *)
From Coq Require Import List ZArith Lia Bool.
From Coq Require Import ZifyBool ZifyNat.
From Verif Require Import Base BaseLemmas Par ParProofs.
Import ListNotations.
Open Scope nat_scope.

Section ParRun.
Context {A : Type}.
Variable d : A.

(** every worker once per operation it has *)
Definition completion (s : pstate A) : list nat :=
  flat_map (fun i => repeat i (length (wk_ops (nth i (ps_ws s) (mk_worker [] []))))) (seq 0 (length (ps_ws s))).

(** A failed worker (a panic) fails the loop. *)
Definition par_run (sched : list nat) (s : pstate A) : res (list A) :=
  match result (prun d (sched ++ completion s) s) with POk b => Ok b | PFail => Panic end.

(** ** The completed schedule ends every worker *)

Definition rem (i : nat) (s : pstate A) : nat := length (wk_ops (nth i (ps_ws s) (mk_worker [] []))).

Lemma pstep_len i s : length (ps_ws (pstep d i s)) = length (ps_ws s).
Proof.
  unfold pstep. destruct (nth_error (ps_ws s) i) as [[F [|o os]]|]; auto.
  destruct (o _); cbn; apply upd_list_length.
Qed.
Lemma prun_len sched : forall s, length (ps_ws (prun d sched s)) = length (ps_ws s).
Proof. induction sched as [|i t IH]; intros s; [reflexivity|]. cbn. unfold prun in IH. now rewrite IH, pstep_len. Qed.

Lemma pstep_rem i j s : rem i (pstep d j s) <= rem i s - (if Nat.eq_dec j i then 1 else 0).
Proof.
  unfold rem, pstep. destruct (nth_error (ps_ws s) j) as [[F os0]|] eqn:E.
  - assert (Hj : j < length (ps_ws s)) by (apply nth_error_Some; congruence).
    destruct os0 as [|o os].
    + destruct (Nat.eq_dec j i) as [->|]; [|lia]. erewrite nth_error_nth by exact E. cbn. lia.
    + destruct (o (gather d F (ps_buf s))); cbn [ps_ws]; destruct (Nat.eq_dec j i) as [->|N];
        rewrite ?nth_upd_eq, ?nth_upd_neq by auto; try lia;
        erewrite nth_error_nth by exact E; cbn; lia.
  - destruct (Nat.eq_dec j i) as [->|]; [|lia].
    apply nth_error_None in E. rewrite nth_overflow by auto. cbn. lia.
Qed.

Lemma prun_rem sched : forall i s, rem i (prun d sched s) <= rem i s - count_occ Nat.eq_dec sched i.
Proof.
  induction sched as [|j t IH]; intros i s; cbn [count_occ]; [cbn; lia|].
  change (prun d (j :: t) s) with (prun d t (pstep d j s)).
  pose proof (IH i (pstep d j s)). pose proof (pstep_rem i j s). destruct (Nat.eq_dec j i); lia.
Qed.

Lemma count_repeat i j n : count_occ Nat.eq_dec (repeat j n) i = if Nat.eq_dec j i then n else 0.
Proof. induction n as [|n IH]; cbn; [now destruct (Nat.eq_dec j i)|]. rewrite IH. destruct (Nat.eq_dec j i); lia. Qed.

Lemma count_completion f i l : In i l -> f i <= count_occ Nat.eq_dec (flat_map (fun i => repeat i (f i)) l) i.
Proof.
  induction l as [|j l IH]; intros H; [destruct H|]. cbn. rewrite count_occ_app, count_repeat.
  destruct H as [->|H]; [destruct (Nat.eq_dec i i); [lia|congruence]|]. specialize (IH H). lia.
Qed.

Lemma completion_ends sched s : finished (prun d (sched ++ completion s) s).
Proof.
  apply Forall_forall. intros w Hw. apply In_nth with (d := mk_worker [] []) in Hw as (i & Hi & <-).
  rewrite prun_len in Hi. apply length_zero_iff_nil.
  pose proof (prun_rem (sched ++ completion s) i s) as H. unfold rem in H. rewrite count_occ_app in H.
  pose proof (count_completion (fun i => length (wk_ops (nth i (ps_ws s) (mk_worker [] [])))) i (seq 0 (length (ps_ws s)))) as C.
  cbv beta in C. unfold completion in H. specialize (C ltac:(apply in_seq; lia)).
  unfold completion. lia.
Qed.

(** Workers that own disjoint cells: the result of every schedule. *)
Lemma par_run_ok sched buf ws :
  footprints_ok (map wk_cells ws) (length buf) ->
  Forall (fun w => Forall (op_ok (length (wk_cells w))) (wk_ops w)) ws ->
  (forall w, In w ws -> run_ops (wk_ops w) (gather d (wk_cells w) buf) <> None) ->
  exists b, par_run sched (mk_pstate buf ws false) = Ok b /\ length b = length buf /\
    (forall w, In w ws -> run_ops (wk_ops w) (gather d (wk_cells w) buf) = Some (gather d (wk_cells w) b)) /\
    (forall k, (forall w, In w ws -> ~ In k (wk_cells w)) -> nth k b d = nth k buf d).
Proof.
  intros HFP HOK HS. unfold par_run. set (s0 := mk_pstate buf ws false).
  pose proof (completion_ends sched s0) as HE. unfold result.
  destruct (ps_failed (prun d (sched ++ completion s0) s0)) eqn:EF.
  - destruct (prun_failed d buf ws HFP HOK _ EF) as (i & Hi & EA). exfalso.
    apply (HS (nth i ws dw)); [now apply nth_In|exact EA].
  - destruct (prun_ok d buf ws HFP HOK _ (or_introl HE) EF) as (L & HA & HO).
    eexists. split; [reflexivity|]. split; [exact L|]. split.
    + intros w Hw. apply In_nth with (d := dw) in Hw as (i & Hi & <-). now apply HA.
    + intros k Hk. apply HO. intros i Hi. apply Hk. now apply nth_In.
Qed.

End ParRun.
