(** Main results about conversion jobs. *)
From Coq Require Import Ascii String List ZArith Bool Lia.
From Verif Require Import Base BaseLemmas Ftp FtpClient Plan PlanProofs Jobs JobsSpec JobsProofs.
Import ListNotations.
Open Scope Z_scope.

Lemma follow_way d0 ts d : (forall q, spared d0 ts q -> same d0 d q) -> forall p, way d0 ts p -> forall n e i,
  follow (names d0) n p = Some (e, Some (Ino i)) -> follow (names d) n p = Some (e, Some (Ino i)) /\ data d i = data d0 i.
Proof.
  intros F p W. induction W as [p S N|p t S E W IH]; intros n e i H; destruct (F p S) as [S1 S2].
  - assert (X : names d0 p = Some (Ino i) /\ e = p).
    { destruct n; cbn in H; destruct (names d0 p) as [[j| |l]|] eqn:EN; try discriminate; try (injection H as <- <-; auto); destruct (N l eq_refl). }
    destruct X as [X ->]. split; [|now apply S2]. destruct n; cbn; rewrite S1, X; reflexivity.
  - destruct n as [|n]; cbn in H; rewrite E in H; [discriminate|]. cbn. rewrite S1, E. now apply IH.
Qed.
Lemma read_way d0 ts d p c : (forall q, spared d0 ts q -> same d0 d q) -> way d0 ts p -> read d0 p = Some c -> read d p = Some c.
Proof.
  intros F W R. unfold read in *. destruct (follow (names d0) 40 p) as [[e [[i| |l]|]]|] eqn:E; try discriminate. injection R as <-.
  destruct (follow_way d0 ts d F p W 40 e i E) as [-> D]. now rewrite D.
Qed.

Section Par.
Variable faults : bool.
Variable d0 : disk_.
Variable ts : list task.
Hypothesis Hwf : wf_disk d0.
Hypothesis Hnd : NoDup (map t_output ts).
Variable cs : task -> option bytes.
Hypothesis Hcs : forall t c, In t ts -> cs t = Some c -> way d0 ts (t_input t) /\ read d0 (t_input t) = Some c.
Hypothesis Hnf : faults = false -> forall t, In t ts -> has_name (t_input t) = true /\ (names d0 (t_output t) = None \/ exists i, names d0 (t_output t) = Some (Ino i)).
Let P := spared d0 ts.
Notation okt t := (ok faults (rely d0 P (t_output t)) (guar d0 P (t_output t)) (post faults d0 P t (cs t))).

Lemma inv0 : inv d0 P d0.
Proof. split; [exact Hwf|]. intros q _. split; reflexivity. Qed.
Lemma start_ok t : In t ts -> okt t (raw2dng t) d0.
Proof.
  intros I. apply raw2dng_ok.
  - intros c d Hc F. destruct (Hcs t c I Hc) as [W R]. exact (read_way d0 ts d (t_input t) c F W R).
  - intros Hp. exact (Hp t I eq_refl).
  - split; [apply inv0|reflexivity].
  - intros F. exact (Hnf F t I).
Qed.
Lemma par_step ps d ps' d' : inv d0 P d -> Forall2 (fun t p => okt t p d) ts ps -> bstep faults (ps, d) (ps', d') ->
  inv d0 P d' /\ Forall2 (fun t p => okt t p d') ts ps'.
Proof.
  intros I F S. inversion S as [l p r d1 p' d2 PS]; subst. apply Forall2_app_inv_r in F as (tl & tr & Fl & Fr & E). clear S.
  assert (X : exists t tr', tr = t :: tr' /\ okt t p d /\ Forall2 (fun t p => okt t p d) tr' r) by (inversion Fr as [|t p1 tr' r1 F1 F2]; subst; eauto).
  destruct X as (t & tr' & -> & F1 & F2).
  destruct (ok_step faults _ _ _ (rely_refl d0 P (t_output t)) p d p' d' F1 PS) as [G1 O1].
  destruct (G1 I) as (I' & _). split; [exact I'|].
  pose proof Hnd as Hnd'. rewrite E, map_app in Hnd'. cbn [map] in Hnd'. apply NoDup_remove_2 in Hnd'.
  assert (ST : forall t' q, t_output t' <> t_output t -> okt t' q d -> okt t' q d').
  { intros t' q N O. eapply (ok_stable faults _ _ _ (rely_trans d0 P (t_output t'))); [exact O|]. apply (guar_rely d0 P (t_output t)); [congruence|exact G1]. }
  rewrite E. apply Forall2_app; [|constructor; [exact O1|]].
  - assert (NI : forall t', In t' tl -> t_output t' <> t_output t).
    { intros t' Ht X. apply Hnd'. apply in_or_app. left. rewrite <- X. now apply in_map. }
    clear - Fl ST NI. induction Fl as [|a b l1 l2 H Fl IH]; constructor; [apply ST; [apply NI; now left|exact H]|]. apply IH. intros t' Ht. apply NI. now right.
  - assert (NI : forall t', In t' tr' -> t_output t' <> t_output t).
    { intros t' Ht X. apply Hnd'. apply in_or_app. right. rewrite <- X. now apply in_map. }
    clear - F2 ST NI. induction F2 as [|a b l1 l2 H Fl IH]; constructor; [apply ST; [apply NI; now left|exact H]|]. apply IH. intros t' Ht. apply NI. now right.
Qed.
Lemma par_reach ps d : breach faults (map raw2dng ts, d0) (ps, d) -> inv d0 P d /\ Forall2 (fun t p => okt t p d) ts ps.
Proof.
  intros B. assert (S : inv d0 P d0 /\ Forall2 (fun t p => okt t p d0) ts (map raw2dng ts)).
  { split; [apply inv0|]. assert (A : forall t, In t ts -> okt t (raw2dng t) d0) by exact start_ok. assert (H : forall l, (forall t, In t l -> okt t (raw2dng t) d0) -> Forall2 (fun t p => okt t p d0) l (map raw2dng l)).
    { induction l as [|t l IH]; intros H; constructor; [apply H; now left|apply IH; intros; apply H; now right]. }
    apply H. exact A. }
  remember (map raw2dng ts, d0) as s0 eqn:E0. remember (ps, d) as s1 eqn:E1.
  assert (G : forall s, breach faults s s1 -> inv d0 P (snd s) /\ Forall2 (fun t p => okt t p (snd s)) ts (fst s) -> inv d0 P d /\ Forall2 (fun t p => okt t p d) ts ps).
  { clear S E0 B. intros s B. induction B as [s|s1' s2 s3 H B IH]; intros X.
    - subst s. exact X.
    - apply IH; [exact E1|]. destruct s1' as [ps1 e1], s2 as [ps2 e2]. cbn [fst snd] in *. destruct X. now apply (par_step ps1 e1). }
  apply (G s0 B). subst s0. exact S.
Qed.
End Par.

Lemma Forall2_nth {A B} (R : A -> B -> Prop) l m : Forall2 R l m -> forall i a b, nth_error l i = Some a -> nth_error m i = Some b -> R a b.
Proof. induction 1 as [|x y l m H F IH]; intros [|i] a b; cbn; try discriminate; [congruence|apply IH]. Qed.

(** everything spared stays as it was, at every moment *)
Lemma batch_spared d0 ts ps d : wf_disk d0 -> NoDup (map t_output ts) -> breach true (map raw2dng ts, d0) (ps, d) ->
  forall q, spared d0 ts q -> same d0 d q.
Proof.
  intros W N B. destruct (par_reach true d0 ts W N (fun _ => None)) with (ps := ps) (d := d) as [[_ F] _]; try discriminate; auto.
Qed.
(** what finished jobs report *)
Lemma batch_reported d0 ts ps d : wf_disk d0 -> NoDup (map t_output ts) -> breach true (map raw2dng ts, d0) (ps, d) ->
  forall k t r c, nth_error ts k = Some t -> nth_error ps k = Some (Done r) -> way d0 ts (t_input t) -> read d0 (t_input t) = Some c ->
  reported d0 t c r d.
Proof.
  intros W N B k t r c Ht Hr Hw Hc.
  destruct (par_reach true d0 ts W N (fun t' => if pth_eqb (t_output t') (t_output t) then Some c else None)) with (ps := ps) (d := d) as [I F]; try discriminate; auto.
  - intros t' c' Hi E. destruct (pth_eqb (t_output t') (t_output t)) eqn:X; [|discriminate]. apply pth_eqb_eq in X. injection E as <-.
    assert (t' = t); [|subst; auto]. apply nth_error_In in Ht. clear - N Hi Ht X. induction ts as [|a l IH]; [destruct Hi|].
    cbn in N. inversion N as [|? ? N1 N2]; subst. destruct Hi as [->|Hi], Ht as [->|Ht]; auto; exfalso; apply N1; [rewrite X|rewrite <- X]; now apply in_map.
  - pose proof (Forall2_nth _ _ _ F k t (Done r) Ht Hr) as O. apply ok_done in O; [|apply rely_refl]. destruct O as [_ O].
    assert (E : pth_eqb (t_output t) (t_output t) = true) by now apply pth_eqb_eq. rewrite E in O. exact (proj1 (O c eq_refl)).
Qed.
(** without failing operations the outcome is determined *)
Lemma batch_expected d0 ts ps d : wf_disk d0 -> NoDup (map t_output ts) ->
  (forall t, In t ts -> has_name (t_input t) = true /\ (names d0 (t_output t) = None \/ exists i, names d0 (t_output t) = Some (Ino i))) ->
  breach false (map raw2dng ts, d0) (ps, d) ->
  forall k t r c, nth_error ts k = Some t -> nth_error ps k = Some (Done r) -> way d0 ts (t_input t) -> read d0 (t_input t) = Some c ->
  r = expected d0 t c /\ reported d0 t c r d.
Proof.
  intros W N NF B k t r c Ht Hr Hw Hc.
  destruct (par_reach false d0 ts W N (fun t' => if pth_eqb (t_output t') (t_output t) then Some c else None)) with (ps := ps) (d := d) as [I F]; auto.
  - intros t' c' Hi E. destruct (pth_eqb (t_output t') (t_output t)) eqn:X; [|discriminate]. apply pth_eqb_eq in X. injection E as <-.
    assert (t' = t); [|subst; auto]. apply nth_error_In in Ht. clear - N Hi Ht X. induction ts as [|a l IH]; [destruct Hi|].
    cbn in N. inversion N as [|? ? N1 N2]; subst. destruct Hi as [->|Hi], Ht as [->|Ht]; auto; exfalso; apply N1; [rewrite X|rewrite <- X]; now apply in_map.
  - pose proof (Forall2_nth _ _ _ F k t (Done r) Ht Hr) as O. apply ok_done in O; [|apply rely_refl]. destruct O as [_ O].
    assert (E : pth_eqb (t_output t) (t_output t) = true) by now apply pth_eqb_eq. rewrite E in O.
    destruct (O c eq_refl) as [R1 R2]. split; [|exact R1]. destruct (R2 eq_refl) as (A1 & A2 & A3 & A4). unfold expected.
    assert (X : (names d0 (t_output t) <> None /\ t_replace t = false) \/ ~ (names d0 (t_output t) <> None /\ t_replace t = false)).
    { destruct (names d0 (t_output t)), (t_replace t); [right; intros [_ ?]; discriminate|left; split; congruence|right; intros [? _]; congruence|right; intros [? _]; congruence]. }
    destruct X as [[X1 X2]|X].
    + rewrite (A2 X1 X2). destruct (names d0 (t_output t)); [|congruence]. now rewrite X2.
    + assert (Y : r <> JExists) by (intros Y; apply X, A3, Y).
      assert (Z : match names d0 (t_output t), t_replace t with Some _, false => JExists | _, _ => match snd (t_conv t c) with EDone _ => JOk | EFail => JConv false | EPanic => JAbort end end
                  = match snd (t_conv t c) with EDone _ => JOk | EFail => JConv false | EPanic => JAbort end).
      { destruct (names d0 (t_output t)), (t_replace t); try reflexivity. exfalso. apply X. split; congruence. }
      rewrite Z. destruct r as [| | |l|]; try congruence.
      * destruct R1 as (ws & final & -> & _). reflexivity.
      * destruct (A4 l eq_refl) as [-> ->]. reflexivity.
      * destruct R1 as (ws & ->). reflexivity.
Qed.

(** ** progress: every state can be continued until all jobs are done *)
Lemma breach_trans f a b c : breach f a b -> breach f b c -> breach f a c.
Proof. induction 1 as [|x y z S B IH]; intros H; [exact H|]. econstructor; [exact S|now apply IH]. Qed.
Lemma finish_one l p : forall r d, exists o d', breach false (l ++ p :: r, d) (l ++ Done o :: r, d').
Proof.
  induction p as [o|a k IH]; intros r d; [exists o, d; constructor|].
  destruct (exec a false d) as [ans d1] eqn:E. destruct (IH ans r d1) as (o & d' & B). exists o, d'. econstructor; [|exact B].
  constructor. econstructor; [|exact E]. discriminate.
Qed.
Lemma finish_all ps : forall done d, exists rs d', breach false (map Done done ++ ps, d) (map Done (done ++ rs), d').
Proof.
  induction ps as [|p ps IH]; intros done d.
  - exists [], d. rewrite !app_nil_r. constructor.
  - destruct (finish_one (map Done done) p ps d) as (o & d1 & B). destruct (IH (done ++ [o]) d1) as (rs & d' & B').
    exists (o :: rs), d'. eapply breach_trans; [exact B|]. rewrite map_app, <- app_assoc in B'. cbn [map app] in B'.
    rewrite <- app_assoc in B'. exact B'.
Qed.
Lemma batch_progress ps d : exists rs d', breach false (ps, d) (map Done rs, d').
Proof. destruct (finish_all ps [] d) as (rs & d' & B). now exists rs, d'. Qed.

(** ** single jobs *)
Lemma preach_breach_ f s s' : preach f s s' -> breach f ([fst s], snd s) ([fst s'], snd s').
Proof.
  induction 1 as [s|[p1 d1] [p2 d2] s3 S H IH]; [constructor|]. cbn [fst snd] in *. econstructor; [|exact IH]. apply (bstep_one f [] p1 [] d1 p2 d2 S).
Qed.
Lemma preach_breach f p d p' d' : preach f (p, d) (p', d') -> breach f ([p], d) ([p'], d').
Proof. apply preach_breach_. Qed.
Lemma single_nodup (t : task) : NoDup (map t_output [t]). Proof. cbn. constructor; [intros []|constructor]. Qed.
Lemma job_untouched d0 t p d q : wf_disk d0 -> preach true (raw2dng t, d0) (p, d) ->
  q <> t_output t \/ (t_replace t = false /\ names d0 q <> None) -> same d0 d q.
Proof.
  intros W H C. apply preach_breach in H. apply (batch_spared d0 [t] [p] d W (single_nodup t) H).
  intros t' [<-|[]] E. destruct C as [C|C]; [congruence|exact C].
Qed.
Lemma job_reported d0 t r d c : wf_disk d0 -> preach true (raw2dng t, d0) (Done r, d) ->
  way d0 [t] (t_input t) -> read d0 (t_input t) = Some c -> reported d0 t c r d.
Proof. intros W H Hw Hc. apply preach_breach in H. now apply (batch_reported d0 [t] [Done r] d W (single_nodup t) H 0 t r c). Qed.
Lemma job_expected d0 t r d c : wf_disk d0 -> has_name (t_input t) = true ->
  names d0 (t_output t) = None \/ (exists i, names d0 (t_output t) = Some (Ino i)) -> preach false (raw2dng t, d0) (Done r, d) ->
  way d0 [t] (t_input t) -> read d0 (t_input t) = Some c -> r = expected d0 t c.
Proof.
  intros W N O H Hw Hc. apply preach_breach in H.
  apply (batch_expected d0 [t] [Done r] d W (single_nodup t)) with (k := 0%nat); auto. intros t' [<-|[]]. auto.
Qed.

(** ** jobs that open the output with File::create *)

Section Create.
Variable d0 : disk_.
Variable out : pth.
Hypothesis Hwf : wf_disk d0.
Definition kept (d : disk_) : Prop := forall q, clear_of d0 out q -> same d0 d q.
Definition apart (i : nat) : Prop := forall q, clear_of d0 out q -> names d0 q <> Some (Ino i).

(** after the file is open: only writes to it and removals of the output *)
Fixpoint tame_proc (i : nat) (p : proc) : Prop :=
  match p with
  | Done _ => True
  | Act a k =>
    match a with
    | AWrite j _ => j = i
    | AUnlink p => p = out
    | ACreate _ | ACreateNew _ => False
    | _ => True
    end /\ forall ans, tame_proc i (k ans)
  end.
Lemma tame_keeps i p : apart i -> tame_proc i p -> forall d p' d', kept d -> preach true (p, d) (p', d') -> kept d'.
Proof.
  intros A T d p' d' K H. remember (p, d) as s eqn:E. remember (p', d') as s' eqn:E'. revert p d E T K.
  induction H as [s|s1 s2 s3 S H IH]; intros p d E T K; [rewrite E in E'; injection E' as _ <-; exact K|].
  destruct S as [a k e f ans e' Ff X]. injection E as <- <-. cbn [tame_proc] in T. destruct T as [Ta Tk].
  apply (IH E' (k ans) e' eq_refl (Tk ans)). clear IH H. destruct a as [p|p|p|p|j|j c|p|j]; cbn in X, Ta; try contradiction;
    try (injection X as <- <-; exact K).
  - subst p. destruct f; [injection X as <- <-; exact K|]. destruct (names e out) as [[j| |l]|]; injection X as <- <-; try exact K;
      intros q Hq; destruct (K q Hq) as [K1 K2]; (split; [cbn; rewrite set_name_neq; [exact K1|apply Hq]|exact K2]).
  - subst j. injection X as <- <-. destruct f; [exact K|]. intros q Hq. destruct (K q Hq) as [K1 K2]. split; [exact K1|]. cbn. intros j Ej.
    rewrite set_data_neq; [now apply K2|]. intros ->. now apply (A q Hq).
Qed.
Lemma writes_tame i ws fail nxt : tame_proc i fail -> tame_proc i nxt -> tame_proc i (writes i ws fail nxt).
Proof. intros F N. induction ws as [|w ws IH]; cbn; [exact N|]. split; [reflexivity|]. intros ans. destruct (isYes ans); assumption. Qed.
Lemma cleanup_tame i : tame_proc i (cleanup out). Proof. cbn. split; auto. Qed.

(** opening the output *)
Lemma create_keeps d f ans d' : (forall p, names d p = names d0 p) -> next d = next d0 -> kept d -> exec (ACreate out) f d = (ans, d') ->
  kept d' /\ forall i, ans = Handle i -> apart i.
Proof.
  intros En Nx K X. assert (F : forall n p, follow (names d) n p = follow (names d0) n p).
  { induction n as [|n IH]; intros p; cbn; rewrite En; [reflexivity|]. destruct (names d0 p) as [[j| |l]|]; try reflexivity. apply IH. }
  cbn [exec] in X. rewrite F in X. destruct f; [injection X as <- <-; split; [exact K|discriminate]|].
  destruct (follow (names d0) 40 out) as [[e [[j| |l]|]]|] eqn:E; injection X as <- <-; try (split; [exact K|discriminate]).
  - split.
    + intros q Hq. destruct (K q Hq) as [K1 K2]. split; [exact K1|]. cbn. intros i Ei. rewrite set_data_neq; [now apply K2|]. intros ->.
      destruct Hq as [_ Hq]. destruct (Hq e _ E) as [_ Hq2]. now apply (Hq2 j).
    + intros i [= <-] q [_ Hq]. destruct (Hq e _ E) as [_ Hq2]. now apply Hq2.
  - split.
    + intros q Hq. destruct (K q Hq) as [K1 K2]. destruct Hq as [_ Hq]. destruct (Hq e _ E) as [Ne _]. split; cbn.
      * now rewrite set_name_neq.
      * intros i Ei. rewrite set_data_neq; [now apply K2|]. specialize (Hwf q i Ei). lia.
    + intros i [= <-] q _ Ei. specialize (Hwf q _ Ei). lia.
Qed.
End Create.

(** inversion of execution traces *)
Lemma preach_act f a k d s : preach f (Act a k, d) s -> s = (Act a k, d) \/ exists g ans d', (g = true -> f = true) /\ exec a g d = (ans, d') /\ preach f (k ans, d') s.
Proof. intros H. inversion H as [|s1 s2 s3 S H']; subst; [now left|]. inversion S; subst. right. eauto 6. Qed.
Lemma preach_done f r d s : preach f (Done r, d) s -> s = (Done r, d).
Proof. intros H. inversion H as [|s1 s2 s3 S H']; subst; [reflexivity|]. inversion S. Qed.
Lemma kept0 d0 out : kept d0 out d0. Proof. intros q _. now split. Qed.

Lemma image_tail_tame t i c : tame_proc (t_output t) i
  (let '(ws, e) := t_conv t c in
   writes i ws (cleanup (t_output t))
     match e with
     | EFail => cleanup (t_output t)
     | EPanic => Done JAbort
     | EDone final =>
       Act (AWrite i final) (fun a => if negb (isYes a) then Done JIo else
       if t_mtime t then
         Act (ARead (t_input t)) (fun a => match a with Content _ => Act (AMtime i) (fun a => Done (if isYes a then JOk else JIo)) | _ => Done JIo end)
       else Done JOk)
     end).
Proof.
  destruct (t_conv t c) as [ws e]. apply writes_tame; [apply cleanup_tame|]. destruct e; [|apply cleanup_tame|exact I].
  cbn. split; [reflexivity|]. intros ans. destruct (negb (isYes ans)); [exact I|]. destruct (t_mtime t); [|exact I]. cbn. split; [exact I|].
  intros [| | | | |]; try exact I. cbn. auto.
Qed.
Lemma image_untouched d0 t p d q : wf_disk d0 -> preach true (raw2image t, d0) (p, d) -> clear_of d0 (t_output t) q -> same d0 d q.
Proof.
  intros W H. revert q. change (kept d0 (t_output t) d). unfold raw2image in H.
  apply preach_act in H as [H|(g & ans & d1 & _ & X & H)]; [injection H as _ <-; apply kept0|].
  cbn in X. injection X as _ <-. destruct (isYes ans && negb (t_replace t)); [apply preach_done in H; injection H as _ <-; apply kept0|].
  destruct (negb (has_name (t_input t))); [apply preach_done in H; injection H as _ <-; apply kept0|].
  apply preach_act in H as [H|(g2 & ans2 & d2 & _ & X & H)]; [injection H as _ <-; apply kept0|].
  destruct (create_keeps d0 (t_output t) W d0 g2 ans2 d2 (fun _ => eq_refl) eq_refl (kept0 _ _) X) as [K A].
  destruct ans2 as [| | | |i|]; try (apply preach_done in H; injection H as _ <-; exact K).
  refine (tame_keeps d0 (t_output t) i _ (A i eq_refl) _ d2 p d K H).
  cbn [tame_proc]. split; [exact I|]. intros [| | | | |c]; try apply cleanup_tame. apply image_tail_tame.
Qed.
Lemma extract_untouched d0 t parse p d q : wf_disk d0 -> preach true (extractraw t parse, d0) (p, d) -> clear_of d0 (t_output t) q -> same d0 d q.
Proof.
  intros W H. revert q. change (kept d0 (t_output t) d). unfold extractraw in H.
  apply preach_act in H as [H|(g & ans & d1 & _ & X & H)]; [injection H as _ <-; apply kept0|].
  cbn in X. injection X as _ <-. destruct (isYes ans && negb (t_replace t)); [apply preach_done in H; injection H as _ <-; apply kept0|].
  apply preach_act in H as [H|(g1 & ans1 & d1 & _ & X & H)]; [injection H as _ <-; apply kept0|].
  cbn in X. injection X as _ <-. destruct ans1 as [| | | | |c]; try (apply preach_done in H; injection H as _ <-; apply kept0).
  destruct (parse c) as [[ws e]|]; [|apply preach_done in H; injection H as _ <-; apply kept0].
  apply preach_act in H as [H|(g2 & ans2 & d2 & _ & X & H)]; [injection H as _ <-; apply kept0|].
  destruct (create_keeps d0 (t_output t) W d0 g2 ans2 d2 (fun _ => eq_refl) eq_refl (kept0 _ _) X) as [K A].
  destruct ans2 as [| | | |i|]; try (apply preach_done in H; injection H as _ <-; exact K).
  refine (tame_keeps d0 (t_output t) i _ (A i eq_refl) _ d2 p d K H).
  apply writes_tame; [apply cleanup_tame|]. destruct e; [|apply cleanup_tame|exact I]. cbn. split; [reflexivity|]. intros; exact I.
Qed.
(** an output found to exist stops a job without override *)
Lemma image_no_clobber d0 t p d e n : t_replace t = false -> follow (names d0) 40 (t_output t) = Some (e, Some n) ->
  preach false (raw2image t, d0) (p, d) -> d = d0 /\ (p = raw2image t \/ p = Done JExists).
Proof.
  intros R F H. unfold raw2image in H. apply preach_act in H as [H|(g & ans & d1 & Fg & X & H)]; [injection H as -> ->; auto|].
  cbn [exec] in X. destruct g; [specialize (Fg eq_refl); discriminate|]. rewrite F in X. injection X as <- <-. rewrite R in H. cbn in H.
  apply preach_done in H. injection H as -> ->. auto.
Qed.
Lemma extract_no_clobber d0 t parse p d e n : t_replace t = false -> follow (names d0) 40 (t_output t) = Some (e, Some n) ->
  preach false (extractraw t parse, d0) (p, d) -> d = d0 /\ (p = extractraw t parse \/ p = Done JExists).
Proof.
  intros R F H. unfold extractraw in H. apply preach_act in H as [H|(g & ans & d1 & Fg & X & H)]; [injection H as -> ->; auto|].
  cbn [exec] in X. destruct g; [specialize (Fg eq_refl); discriminate|]. rewrite F in X. injection X as <- <-. rewrite R in H. cbn in H.
  apply preach_done in H. injection H as -> ->. auto.
Qed.

(** ** counterexamples *)
Fixpoint play (fs : list bool) (p : proc) (d : disk_) : proc * disk_ :=
  match fs, p with
  | f :: fs, Act a k => let '(ans, d') := exec a f d in play fs (k ans) d'
  | _, _ => (p, d)
  end.
Lemma play_preach fs : forall p d, preach true (p, d) (play fs p d).
Proof.
  induction fs as [|f fs IH]; intros p d; [destruct p; constructor|]. destruct p as [r|a k]; cbn; [constructor|].
  destruct (exec a f d) as [ans d'] eqn:E. econstructor; [econstructor; [|exact E]; reflexivity|apply IH].
Qed.
Lemma play_clean n : forall p d, preach false (p, d) (play (repeat false n) p d).
Proof.
  induction n as [|n IH]; intros p d; [destruct p; constructor|]. destruct p as [r|a k]; cbn; [constructor|].
  destruct (exec a false d) as [ans d'] eqn:E. econstructor; [econstructor; [|exact E]; discriminate|apply IH].
Qed.

Lemma play_end fs p d r : fst (play fs p d) = Done r -> preach true (p, d) (Done r, snd (play fs p d)).
Proof. intros <-. rewrite <- surjective_pairing. apply play_preach. Qed.
Lemma play_clean_end n p d r : fst (play (repeat false n) p d) = Done r -> preach false (p, d) (Done r, snd (play (repeat false n) p d)).
Proof. intros <-. rewrite <- surjective_pairing. apply play_clean. Qed.

Definition raw_ : pth := at_root [str "a.cr2"].
Definition dng_ : pth := at_root [str "a.dng"].
(** a disk with a raw file of content [1; 2] and an older DNG of content [9] *)
Definition disk0 : disk_ :=
  mkD (fun p => if pth_eqb p raw_ then Some (Ino 0) else if pth_eqb p dng_ then Some (Ino 1) else None)
      (fun i => match i with O => [1; 2] | _ => [9] end) 2.
(** the same without the DNG *)
Definition disk1 : disk_ := mkD (fun p => if pth_eqb p raw_ then Some (Ino 0) else None) (fun i => [1; 2]) 1.
Definition good (c : bytes) : list bytes * ending := ([[0]], EDone (0 :: c)).
Definition bad (c : bytes) : list bytes * ending := ([[0]], EFail).
Definition panics (c : bytes) : list bytes * ending := ([[0]], EPanic).

Lemma override_loses : exists t d, t_replace t = true /\ read disk0 (t_output t) = Some [9] /\
  preach false (raw2dng t, disk0) (Done (JConv false), d) /\ read d (t_output t) = None.
Proof.
  set (t := mkTask raw_ dng_ true false bad). exists t, (snd (play (repeat false 8) (raw2dng t) disk0)). split; [reflexivity|split; [reflexivity|split; [now apply play_clean_end|reflexivity]]].
Qed.
Lemma in_place_loses : exists t d, t_replace t = true /\ t_input t = t_output t /\ read disk0 (t_input t) = Some [9] /\
  t_conv t [9] = good [9] /\ preach false (raw2dng t, disk0) (Done (JConv false), d) /\ read d (t_input t) = None.
Proof.
  set (t := mkTask dng_ dng_ true false (fun c => match c with [] => ([], EFail) | _ => good c end)). exists t, (snd (play (repeat false 8) (raw2dng t) disk0)).
  split; [reflexivity|split; [reflexivity|split; [reflexivity|split; [reflexivity|split; [now apply play_clean_end|reflexivity]]]]].
Qed.
Lemma leftovers : exists t1 t2 t3 d1 d2 d3,
  names disk1 dng_ = None /\ t_output t1 = dng_ /\ t_output t2 = dng_ /\ t_output t3 = dng_ /\
  preach true (raw2dng t1, disk1) (Done JIo, d1) /\ holds d1 dng_ [] /\
  preach true (raw2dng t2, disk1) (Done JIo, d2) /\ holds d2 dng_ [0] /\
  preach true (raw2dng t3, disk1) (Done JIo, d3) /\ holds d3 dng_ [0; 1; 2].
Proof.
  set (t := mkTask raw_ dng_ false false good). set (t' := mkTask raw_ dng_ false true good). exists t, t, t',
    (snd (play [false; true] (raw2dng t) disk1)), (snd (play [false; false; false; false; true] (raw2dng t) disk1)),
    (snd (play [false; false; false; false; false; true] (raw2dng t') disk1)). split; [reflexivity|split; [reflexivity|split; [reflexivity|split; [reflexivity|]]]].
  split; [now apply play_end|]. split; [exists 1%nat; split; reflexivity|].
  split; [now apply play_end|]. split; [exists 1%nat; split; reflexivity|].
  split; [now apply play_end|]. exists 1%nat; split; reflexivity.
Qed.
Lemma panic_leaves : exists t d, names disk1 (t_output t) = None /\ preach false (raw2dng t, disk1) (Done JAbort, d) /\ holds d (t_output t) [0].
Proof.
  set (t := mkTask raw_ dng_ false false panics). exists t, (snd (play (repeat false 8) (raw2dng t) disk1)). split; [reflexivity|]. split; [now apply play_clean_end|]. exists 1%nat. split; reflexivity.
Qed.
(** two jobs for one output, both without override, both report success *)
Fixpoint bplay (ns : list bool) (p q : proc) (d : disk_) : list proc * disk_ :=
  match ns with
  | [] => ([p; q], d)
  | true :: ns => match p with Act a k => let '(ans, d') := exec a false d in bplay ns (k ans) q d' | Done _ => bplay ns p q d end
  | false :: ns => match q with Act a k => let '(ans, d') := exec a false d in bplay ns p (k ans) d' | Done _ => bplay ns p q d end
  end.
Lemma bplay_breach ns : forall p q d, breach false ([p; q], d) (bplay ns p q d).
Proof.
  induction ns as [|[] ns IH]; intros p q d; cbn; [constructor| |].
  - destruct p as [r|a k]; [apply IH|]. destruct (exec a false d) as [ans d'] eqn:E. econstructor; [|apply IH].
    apply (bstep_one false [] (Act a k) [q] d (k ans) d'). refine (pstep_act false a k d false ans d' _ E); discriminate.
  - destruct q as [r|a k]; [apply IH|]. destruct (exec a false d) as [ans d'] eqn:E. econstructor; [|apply IH].
    apply (bstep_one false [p] (Act a k) [] d (k ans) d'). refine (pstep_act false a k d false ans d' _ E); discriminate.
Qed.
Lemma image_race : exists t1 t2 d, t_output t1 = t_output t2 /\ t_replace t1 = false /\ t_replace t2 = false /\
  names disk1 (t_output t1) = None /\ breach false ([raw2image t1; raw2image t2], disk1) ([Done JOk; Done JOk], d) /\
  t_conv t1 [1; 2] = ([], EDone [7]) /\ holds d (t_output t1) [8].
Proof.
  exists (mkTask raw_ dng_ false false (fun _ => ([], EDone [7]))), (mkTask raw_ dng_ false false (fun _ => ([], EDone [8]))),
    (snd (bplay [true; false; true; false; true; true; false; false; true; false]
      (raw2image (mkTask raw_ dng_ false false (fun _ => ([], EDone [7])))) (raw2image (mkTask raw_ dng_ false false (fun _ => ([], EDone [8])))) disk1)).
  split; [reflexivity|split; [reflexivity|split; [reflexivity|split; [reflexivity|]]]].
  split; [refine (bplay_breach [true; false; true; false; true; true; false; false; true; false] _ _ _)|]. split; [reflexivity|]. exists 1%nat. split; reflexivity.
Qed.

(** for examples: two raw files *)
Definition raw2_ : pth := at_root [str "b.nef"].
Definition dng2_ : pth := at_root [str "b.dng"].
Definition disk2 : disk_ :=
  mkD (fun p => if pth_eqb p raw_ then Some (Ino 0) else if pth_eqb p raw2_ then Some (Ino 1) else None) (fun i => match i with O => [1; 2] | _ => [3] end) 2.
Definition two : list task := [mkTask raw_ dng_ true false good; mkTask raw2_ dng2_ false true good].
Lemma disk2_wf : wf_disk disk2.
Proof. intros p i. cbn. destruct (pth_eqb p raw_); [intros [= <-]; lia|]. destruct (pth_eqb p raw2_); [intros [= <-]; lia|discriminate]. Qed.
Lemma two_example ps d r : breach false (map raw2dng two, disk2) (ps, d) -> nth_error ps 1 = Some (Done r) -> r = JOk /\ holds d dng2_ [0; 3].
Proof.
  intros B H. destruct (batch_expected disk2 two ps d disk2_wf) with (k := 1%nat) (t := mkTask raw2_ dng2_ false true good) (r := r) (c := [3]) as [-> R]; auto.
  - repeat constructor; cbn; intuition discriminate.
  - intros t [<-|[<-|[]]]; split; auto.
  - apply way_end; [|discriminate]. intros t [<-|[<-|[]]]; discriminate.
  - split; [reflexivity|]. destruct R as (ws & final & E & Ho). cbn in E. injection E as <- <-. exact Ho.
Qed.

Lemma command_ok rs : command_result rs = JOk <-> forall r, In r rs -> r = JOk.
Proof.
  unfold command_result. induction rs as [|r rs IH]; cbn; [split; [intros _ r []|reflexivity]|].
  destruct r; cbn; try (split; [discriminate|intros H; exact (H _ (or_introl eq_refl))]). rewrite IH. split; intros H; [intros x [<-|Hx]; auto|auto].
Qed.
