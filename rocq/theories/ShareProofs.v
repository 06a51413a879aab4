(** Race free threads have one result, whatever the interleaving. *)
From Coq Require Import List ZArith Lia Bool.
From Verif Require Import Base BaseLemmas Share.
Import ListNotations.
Open Scope nat_scope.

Section Share.
Context {V : Type}.
Variable d : V.
Variable m0 : list V.
(** cells that are written, and the value each gets *)
Variable W : nat -> Prop.
Variable f : nat -> V.

(** Reads stay in bounds and outside [W]; writes go to [W] and store [f]. *)
Fixpoint good (p : prog V) : Prop :=
  match p with
  | Done => True
  | Rd i k => i < length m0 /\ ~ W i /\ good (k (nth i m0 d))
  | Wr i v p' => i < length m0 /\ W i /\ v = f i /\ good p'
  | Crash => False
  end.

Fixpoint puts (p : prog V) : list nat :=
  match p with
  | Done => []
  | Rd i k => puts (k (nth i m0 d))
  | Wr i v p' => i :: puts p'
  | Crash => []
  end.

Definition mem_ok (m : list V) : Prop :=
  length m = length m0 /\ forall i, ~ W i -> nth i m d = nth i m0 d.

(** every cell is written, or still to be written by a thread, or untouched *)
Definition covered (ts0 ts : list (prog V)) (m : list V) : Prop :=
  forall i, (exists p, In p ts0 /\ In i (puts p)) ->
    nth i m d = f i \/ exists p, In p ts /\ In i (puts p).
Definition only (ts0 : list (prog V)) (m : list V) : Prop :=
  forall i, nth i m d = nth i m0 d \/ (exists p, In p ts0 /\ In i (puts p)) /\ nth i m d = f i.

Lemma in_upd {A} (l : list A) t a x : In x (upd_list l t a) -> x = a \/ In x l.
Proof.
  revert t; induction l as [|b l IH]; intros [|t]; cbn; try tauto.
  - intros [<-|H]; tauto.
  - intros [<-|H]; [tauto|]. destruct (IH t H); tauto.
Qed.

Lemma in_upd_other {A} (l : list A) t a b x : nth_error l t = Some b -> In x l -> In x (upd_list l t a) \/ x = b.
Proof.
  revert t; induction l as [|c l IH]; intros [|t]; cbn; try tauto; try discriminate.
  - intros [= <-] [<-|H]; tauto.
  - intros E [<-|H]; [tauto|]. destruct (IH t E H); tauto.
Qed.

Lemma in_upd_new {A} (l : list A) t a b : nth_error l t = Some b -> In a (upd_list l t a).
Proof.
  revert t; induction l as [|c l IH]; intros [|t]; cbn; try tauto; try discriminate.
  intros E. right. now apply IH.
Qed.

Lemma nth_error_nth' {A} (l : list A) i d' : i < length l -> nth_error l i = Some (nth i l d').
Proof. intros. now apply nth_error_nth'. Qed.

Lemma wr_only ts0 m i v : mem_ok m -> only ts0 m -> i < length m0 -> v = f i ->
  (exists p, In p ts0 /\ In i (puts p)) -> only ts0 (upd_list m i v).
Proof.
  intros [L _] O Hi -> E j. destruct (Nat.eq_dec i j) as [<-|N].
  - right. rewrite nth_upd_eq by lia. auto.
  - rewrite nth_upd_neq by auto. apply O.
Qed.

Lemma wr_mem m i v : mem_ok m -> W i -> mem_ok (upd_list m i v).
Proof.
  intros [L O] Hi. split; [now rewrite upd_list_length|].
  intros j Hj. rewrite nth_upd_neq; [auto|]. intros ->. auto.
Qed.

(** all steps a thread can still make are steps of some original thread *)
Definition sub_puts (ts0 ts : list (prog V)) : Prop :=
  forall p i, In p ts -> In i (puts p) -> exists q, In q ts0 /\ In i (puts q).

Definition st_ok (ts0 ts : list (prog V)) (m : list V) : Prop :=
  mem_ok m /\ Forall good ts /\ covered ts0 ts m /\ only ts0 m /\ sub_puts ts0 ts.

Lemma sstep_ok ts0 t s : st_ok ts0 (ss_thr s) (ss_mem s) -> st_ok ts0 (ss_thr (sstep t s)) (ss_mem (sstep t s)).
Proof.
  intros (M & G & C & O & SP). unfold sstep.
  destruct (nth_error (ss_thr s) t) as [p|] eqn:E; [|split; [|split; [|split; [|split]]]; assumption].
  assert (Gp : good p). { rewrite Forall_forall in G. apply G. eapply nth_error_In, E. }
  assert (Ip : In p (ss_thr s)) by (eapply nth_error_In, E).
  assert (FG : forall q, good q -> Forall good (upd_list (ss_thr s) t q)).
  { intros q Hq. apply Forall_forall. intros x Hx. apply in_upd in Hx as [->|Hx]; auto. rewrite Forall_forall in G; auto. }
  destruct p as [|i k|i v p|]; try (split; [|split; [|split; [|split]]]; assumption).
  - destruct Gp as (Hi & HW & Gk). destruct M as [L MO].
    rewrite (nth_error_nth' _ _ d) by lia. rewrite (MO i HW). cbn.
    split; [split; auto|]. split; [auto|]. split; [|split; [auto|]].
    + intros j Hj. destruct (C j Hj) as [F|(q & Hq & Hjq)]; [auto|right].
      destruct (in_upd_other _ _ (k (nth i m0 d)) _ _ E Hq) as [F| ->]; [now exists q|].
      exists (k (nth i m0 d)). split; [eapply in_upd_new, E|exact Hjq].
    + intros q j Hq Hj. apply in_upd in Hq as [->|Hq]; [|eapply SP; eauto].
      eapply SP; [exact Ip|exact Hj].
  - destruct Gp as (Hi & HW & Hv & Gk). destruct M as [L MO].
    replace (i <? length (ss_mem s)) with true by (symmetry; apply Nat.ltb_lt; lia). cbn.
    assert (EX : exists q, In q ts0 /\ In i (puts q)). { eapply SP; [exact Ip|now left]. }
    split; [apply wr_mem; [split; auto|auto]|]. split; [auto|]. split; [|split].
    + intros j Hj. destruct (Nat.eq_dec i j) as [<-|N].
      { left. rewrite nth_upd_eq by lia. exact Hv. }
      rewrite nth_upd_neq by auto. destruct (C j Hj) as [F|(q & Hq & Hjq)]; [auto|right].
      destruct (in_upd_other _ _ p _ _ E Hq) as [F| ->]; [now exists q|].
      exists p. split; [eapply in_upd_new, E|]. destruct Hjq as [<-|Hjq]; [tauto|auto].
    + apply wr_only; auto. split; auto.
    + intros q j Hq Hj. apply in_upd in Hq as [->|Hq]; [|eapply SP; eauto].
      eapply SP; [exact Ip|now right].
Qed.

Lemma srun_ok ts0 sched s : st_ok ts0 (ss_thr s) (ss_mem s) ->
  st_ok ts0 (ss_thr (srun sched s)) (ss_mem (srun sched s)).
Proof.
  unfold srun. revert s. induction sched as [|t sched IH]; intros s H; [exact H|].
  cbn. apply IH. now apply sstep_ok.
Qed.

Lemma run_prog_ok ts0 p ts m : st_ok ts0 (p :: ts) m ->
  exists m', run_prog p m = Ok m' /\ st_ok ts0 ts m'.
Proof.
  revert m. induction p as [|i k IH|i v p IH|]; intros m H.
  - exists m. split; [reflexivity|]. destruct H as (M & G & C & O & SP). inversion G.
    split; [auto|]. split; [auto|]. split; [|split; [auto|]].
    + intros i Hi. destruct (C i Hi) as [F|(q & [<-|Hq] & Hiq)]; [auto|destruct Hiq|right; eauto].
    + intros q i Hq. apply SP. now right.
  - pose proof (sstep_ok ts0 0 (mk_sstate m (Rd i k :: ts)) H) as H'.
    destruct H as ((L & MO) & G' & _). pose proof (Forall_inv G') as (Hi & HW & _).
    unfold sstep in H'. cbn [ss_thr ss_mem nth_error upd_list] in H'.
    cbn [run_prog]. rewrite (nth_error_nth' _ _ d) in H' |- * by lia. now apply IH.
  - pose proof (sstep_ok ts0 0 (mk_sstate m (Wr i v p :: ts)) H) as H'.
    destruct H as ((L & MO) & G' & _). pose proof (Forall_inv G') as (Hi & HW & _).
    unfold sstep in H'. cbn [ss_thr ss_mem nth_error upd_list] in H'. cbn [run_prog].
    destruct (i <? length m) eqn:E; [|apply Nat.ltb_ge in E; lia]. now apply IH.
  - destruct H as (_ & G & _). destruct (Forall_inv G).
Qed.

Lemma for_each_ok ts0 ts m : st_ok ts0 ts m -> exists m', for_each ts run_prog m = Ok m' /\ st_ok ts0 [] m'.
Proof.
  revert m. induction ts as [|p ts IH]; intros m H; [exists m; split; [reflexivity|exact H]|].
  destruct (run_prog_ok ts0 p ts m H) as (m1 & E & H1). cbn. rewrite E. cbn. now apply IH.
Qed.

(** The result of a parallel loop of race free threads. *)
Theorem par_loop_ok ts sched : Forall good ts ->
  exists m, par_loop sched ts m0 = Ok m /\ length m = length m0 /\
    (forall i, (exists p, In p ts /\ In i (puts p)) -> nth i m d = f i) /\
    (forall i, ~ (exists p, In p ts /\ In i (puts p)) -> nth i m d = nth i m0 d).
Proof.
  intros G.
  assert (H : st_ok ts ts m0).
  { split; [split; auto|]. split; [auto|]. split; [|split].
    - intros i Hi. now right.
    - intros i. now left.
    - intros p i Hp Hi. now exists p. }
  apply (srun_ok ts sched (mk_sstate m0 ts)) in H. apply for_each_ok in H as (m & E & ((L & _) & _ & C & O & _)).
  exists m. split; [exact E|]. split; [exact L|]. split.
  - intros i Hi. destruct (C i Hi) as [F|(q & [] & _)]. exact F.
  - intros i Hi. destruct (O i) as [F|[F _]]; tauto.
Qed.

End Share.
