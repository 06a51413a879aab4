(** Proofs about the login state of FTP sessions. *)
From Coq Require Import Ascii String List ZArith Bool Lia.
From Verif Require Import Base BaseLemmas Ftp FtpProofs FtpClient FtpClientSpec.
Import ListNotations.
Open Scope Z_scope.

Section Login.
Variable cfg : config.
Variable server_root : pth.
Variable pcwd : place.
Variable ext_supported : name -> bool.
Variable dng_name : name -> name.
Variable keep_orig : bool.
Notation handle := (handle_cmd cfg server_root pcwd ext_supported dng_name keep_orig).
Notation run := (session cfg server_root pcwd ext_supported dng_name keep_orig).

(** what a computation leaves alone *)
Definition keeps_user {A} (m : M A) : Prop := forall s, let '(_, s', _) := m s in uname s' = uname s /\ waiting s' = waiting s.
Definition silent {A} (m : M A) : Prop :=
  forall s, let '(e, s', _) := m s in Forall (fun x => ~ serves x) e /\ disk s' = disk s.

Lemma ku_ret {A} (a : A) : keeps_user (ret a). Proof. intros s. cbn. auto. Qed.
Lemma ku_stop {A} : keeps_user (@stop A). Proof. intros s. cbn. auto. Qed.
Lemma ku_bind {A B} (m : M A) (k : A -> M B) : keeps_user m -> (forall a, keeps_user (k a)) -> keeps_user (mbind m k).
Proof.
  intros H K s. unfold mbind. specialize (H s). destruct (m s) as [[e s1] [a|]]; [|exact H].
  specialize (K a s1). destruct (k a s1) as [[e2 s2] r]. destruct H, K. split; congruence.
Qed.
Lemma ku_get : keeps_user get_. Proof. intros s. cbn. auto. Qed.
Lemma ku_modify g : (forall s, uname (g s) = uname s /\ waiting (g s) = waiting s) -> keeps_user (modify g).
Proof. intros H s. cbn. apply H. Qed.
Lemma ku_emit e : keeps_user (emit e). Proof. intros s. cbn. auto. Qed.
Lemma ku_touch a : keeps_user (touch a). Proof. intros s. cbn. auto. Qed.
Lemma ku_send c : keeps_user (send c). Proof. intros s. unfold send. destruct (closed s); cbn; auto. Qed.
Lemma ku_each {A} (l : list A) g : (forall a, keeps_user (g a)) -> keeps_user (each l g).
Proof. intros H. induction l; cbn; [apply ku_ret|]. now apply ku_bind. Qed.

Ltac ku := repeat first
  [ apply ku_bind; [|intro] | apply ku_ret | apply ku_stop | apply ku_get | apply ku_emit | apply ku_touch | apply ku_send
  | apply ku_each; intro
  | apply ku_modify; intro; cbn; solve [auto | repeat match goal with |- context [match ?x with _ => _ end] => destruct x end; auto]
  | progress unfold initiate, close_data, finish, stat_entry, nlst_match, write_file, stor_file, put_file
  | match goal with
    | |- keeps_user (if ?b then _ else _) => destruct b
    | |- keeps_user (match ?x with _ => _ end) => destruct x
    end ].

Lemma served_keep_user o : (forall p, keeps_user (chdir server_root pcwd p)) /\ (forall p, keeps_user (list_ server_root pcwd o p)) /\
  (forall p, keeps_user (nlst server_root pcwd o p)) /\ keeps_user (pasv o) /\ (forall p, keeps_user (epsv o p)) /\
  (forall p, keeps_user (retr server_root pcwd o p)) /\ (forall p, keeps_user (stor server_root pcwd ext_supported dng_name keep_orig o p)) /\
  (forall p, keeps_user (mkd server_root pcwd o p)) /\ (forall p, keeps_user (rmd server_root pcwd o p)) /\
  (forall p, keeps_user (dele server_root pcwd o p)) /\ keeps_user quit.
Proof.
  unfold chdir, list_, nlst, pasv, epsv, retr, stor, mkd, rmd, dele, quit.
  repeat split; intros; ku.
Qed.

(** the account state as a function of the commands *)
Definition known_b (u : bytes) : bool :=
  negb (bytes_eqb u []) && (anonymous cfg && bytes_eqb u (str "anonymous") ||
    match find (fun x => bytes_eqb (fst x) u) (users cfg) with Some _ => true | None => false end).
Definition free_b (u : bytes) : bool :=
  negb (anonymous cfg && bytes_eqb u (str "anonymous")) &&
    match find (fun x => bytes_eqb (fst x) u) (users cfg) with Some (_, []) => true | _ => false end.
Definition pass_b (u p : bytes) : bool := anonymous cfg || existsb (fun x => bytes_eqb (fst x) u && bytes_eqb (snd x) p) (users cfg).

Definition acct := option (bytes * bool).
Definition acct_step (a : acct) (c : command) : acct :=
  match c with
  | User u => if known_b u then Some (u, free_b u) else a
  | Pass p => match a with Some (u, b) => Some (u, b || pass_b u p) | None => None end
  | _ => a
  end.
Definition agrees (s : client) (a : acct) : Prop :=
  match a with None => uname s = None | Some (u, b) => uname s = Some u /\ waiting s = negb b end.

Lemma agrees_logged s a : agrees s a -> is_logged s = match a with Some (_, b) => b | None => false end.
Proof.
  unfold is_logged, agrees. destruct a as [[u b]|]; [intros [-> ->]; apply negb_involutive|intros ->; reflexivity].
Qed.
Lemma agrees_keep {A} (m : M A) s a : keeps_user m -> agrees s a -> let '(_, s', _) := m s in agrees s' a.
Proof.
  intros K H. specialize (K s). destruct (m s) as [[e s'] r]. destruct K as [K1 K2]. unfold agrees in *. now rewrite K1, K2.
Qed.

Lemma login_step content s a : agrees s a -> let '(_, s', r) := login cfg content s in r <> None -> agrees s' (acct_step a (User content)).
Proof.
  intros H. unfold login, acct_step, known_b, free_b. destruct content as [|x content].
  - cbn [bytes_eqb]. unfold bytes_eqb at 1. cbn. apply (agrees_keep (send 501) s a (ku_send _)) in H.
    destruct (send 501 s) as [[e s'] r]. intros _. exact H.
  - set (u := x :: content). replace (bytes_eqb u []) with false by (unfold bytes_eqb, u; now destruct (list_eq_dec _ _ _)). cbn [negb andb].
    destruct (anonymous cfg && bytes_eqb u (str "anonymous")) eqn:EA.
    + cbn [orb negb andb]. unfold mbind, modify, send. cbn. destruct (closed s); intros R; [now destruct R|]. cbn. auto.
    + cbn [orb negb andb]. destruct (find _ (users cfg)) as [[v [|y pw]]|] eqn:EF.
      * unfold mbind, modify, send. cbn. destruct (closed s); intros R; [now destruct R|]. cbn. auto.
      * unfold mbind, modify, send. cbn. destruct (closed s); intros R; [now destruct R|]. cbn. auto.
      * apply (agrees_keep (send 530) s a (ku_send _)) in H. destruct (send 530 s) as [[e s'] r]. intros _. exact H.
Qed.

Lemma handle_step o c s a : agrees s a -> let '(_, s', r) := handle o c s in r <> None -> agrees s' (acct_step a c).
Proof.
  intros H. unfold handle_cmd, mbind at 1, get_ at 1. pose proof (served_keep_user o) as (K1 & K2 & K3 & K4 & K5 & K6 & K7 & K8 & K9 & K10 & K11).
  set (m := dispatch cfg server_root pcwd ext_supported dng_name keep_orig o c s).
  assert (G : let '(_, s', r) := m s in r <> None -> agrees s' (acct_step a c)).
  2: { destruct (m s) as [[e s'] r]. exact G. }
  unfold dispatch in m.
  assert (KEEP : keeps_user m -> acct_step a c = a -> let '(_, s', r) := m s in r <> None -> agrees s' (acct_step a c)).
  { intros K E. pose proof (agrees_keep m s a K H) as G. destruct (m s) as [[e s'] r]. intros _. now rewrite E. }
  destruct (is_logged s) eqn:L.
  - destruct c; try (apply KEEP; [subst m; cbn [common]; solve [auto | ku]|reflexivity]).
    + (* PASS while logged in *)
      apply KEEP; [subst m; cbn; ku|]. rewrite (agrees_logged s a H) in L. cbn. destruct a as [[u b]|]; [|reflexivity]. now rewrite L.
    + subst m. now apply login_step.
  - destruct (uname s) as [u|] eqn:U.
    + destruct c; try (apply KEEP; [subst m; cbn [common]; solve [auto | ku]|reflexivity]); [|subst m; now apply login_step].
      subst m. unfold acct_step. unfold agrees in H. destruct a as [[u' b]|]; [|congruence]. destruct H as [H1 H2].
      assert (u' = u) by congruence. subst u'. unfold is_logged in L. rewrite U, H2, negb_involutive in L. subst b. cbn [orb]. unfold pass_b.
      destruct (anonymous cfg || _).
      * unfold mbind, modify, send. cbn. destruct (closed s); intros R; [now destruct R|]. cbn. auto.
      * unfold send. destruct (closed s); intros R; [now destruct R|]. cbn. auto.
    + unfold agrees in H. destruct a as [[u b]|]; [destruct H; congruence|].
      destruct c; try (apply KEEP; [subst m; cbn [common]; solve [auto | ku]|reflexivity]); subst m; now apply login_step.
Qed.

(** without login nothing is served *)
Lemma si_bind {A B} (m : M A) (k : A -> M B) : silent m -> (forall a, silent (k a)) -> silent (mbind m k).
Proof.
  intros H K s. unfold mbind. specialize (H s). destruct (m s) as [[e s1] [a|]]; [|exact H].
  specialize (K a s1). destruct (k a s1) as [[e2 s2] r]. destruct H as [H1 H2], K as [K1 K2]. split; [now apply Forall_app|congruence].
Qed.
Lemma si_send c : silent (send c). Proof. intros s. unfold send. destruct (closed s); cbn; split; auto. Qed.
Lemma si_modify g : (forall s, disk (g s) = disk s) -> silent (modify g).
Proof. intros H s. cbn. split; auto. Qed.
Lemma si_get : silent get_. Proof. intros s. cbn. split; auto. Qed.
Lemma si_ret {A} (a : A) : silent (ret a). Proof. intros s. cbn. split; auto. Qed.
Ltac si := repeat first [ apply si_bind; [|intro] | apply si_send | apply si_get | apply si_ret | apply si_modify; intro; reflexivity
  | progress unfold close_data | match goal with |- silent (if ?b then _ else _) => destruct b | |- silent (match ?x with _ => _ end) => destruct x end ].

Lemma not_logged_silent o c s : is_logged s = false -> let '(e, s', _) := handle o c s in Forall (fun x => ~ serves x) e /\ disk s' = disk s.
Proof.
  intros L. unfold handle_cmd, mbind at 1, get_ at 1.
  set (m := dispatch cfg server_root pcwd ext_supported dng_name keep_orig o c s).
  assert (S : silent m); [|specialize (S s); destruct (m s) as [[e s'] r]; exact S].
  subst m. unfold dispatch. rewrite L.
  destruct (uname s); [destruct c|]; try (unfold common, quit, login; si; fail).
Qed.

(** ** whole sessions *)
Definition acct_of (cmds : list command) (a : acct) : acct := fold_left acct_step cmds a.

Lemma session_step : forall ins s a, agrees s a ->
  forall k e i, nth_error (fst (run ins s)) k = Some e -> nth_error ins k = Some i ->
  exists s1, agrees s1 (acct_of (commands_of (firstn k ins)) a) /\
    match i with Command o c => let '(e1, s2, _) := handle o c s1 in e = e1 | Disturb _ => e = [] end.
Proof.
  induction ins as [|i0 ins IH]; intros s a H k e i He Hi; [destruct k; discriminate|].
  destruct k as [|k].
  - cbn [nth_error] in Hi. injection Hi as <-. exists s. split; [exact H|]. cbn [session] in He. destruct i0 as [o c|f].
    + destruct (handle o c s) as [[e1 s2] [r|]].
      * destruct (run ins s2). cbn in He. congruence.
      * cbn in He. congruence.
    + destruct (run ins (set_disk s f)). cbn in He. congruence.
  - cbn [nth_error] in Hi. cbn [firstn commands_of flat_map]. cbn [session] in He. destruct i0 as [o c|f].
    + pose proof (handle_step o c s a H) as G. destruct (handle o c s) as [[e1 s2] [r|]].
      * specialize (G ltac:(discriminate)). pose proof (IH s2 _ G k e i) as X. destruct (run ins s2). cbn in He, X. now apply X.
      * cbn in He. destruct k; discriminate.
    + assert (G : agrees (set_disk s f) a) by exact H. pose proof (IH _ _ G k e i) as X. destruct (run ins (set_disk s f)). cbn in He, X. now apply X.
Qed.

(** the account state, read off the commands *)
Lemma bytes_eqb_true a b : bytes_eqb a b = true <-> a = b.
Proof. unfold bytes_eqb. destruct (list_eq_dec Z.eq_dec a b); split; congruence. Qed.
Lemma find_first us u : match find (fun x => bytes_eqb (fst x) u) us with
  | Some (v, pw) => v = u /\ first_user us u pw
  | None => ~ In u (map fst us)
  end.
Proof.
  induction us as [|[v pw] us IH]; cbn [find map fst]; [auto|].
  destruct (bytes_eqb v u) eqn:E.
  - apply bytes_eqb_true in E. subst. split; [reflexivity|]. exists [], us. auto.
  - apply bytes_eqb_neq in E. destruct (find _ us) as [[v' pw']|].
    + destruct IH as [-> (x & y & -> & N)]. split; [reflexivity|]. exists ((v, pw) :: x), y. split; [reflexivity|].
      cbn. intros [->|I]; auto.
    + intros [->|I]; auto.
Qed.
Lemma first_user_in us u pw : first_user us u pw -> In u (map fst us).
Proof. intros (x & y & -> & _). rewrite map_app. apply in_or_app. right. now left. Qed.
Lemma first_user_unique us u p q : first_user us u p -> first_user us u q -> p = q.
Proof.
  intros (x & y & -> & N) (x' & y' & E & N'). revert x' E N'. induction x as [|[v w] x IH]; intros [|[v' w'] x'] E N'; cbn in E.
  - congruence.
  - injection E as -> _ _. destruct N'. now left.
  - injection E as -> _ _. destruct N. now left.
  - injection E as -> -> E. apply (IH) with x'; auto.
    + intros I. apply N. now right.
    + intros I. apply N'. now right.
Qed.
Lemma anon_true u : anonymous cfg && bytes_eqb u (str "anonymous") = true <-> is_anonymous cfg u.
Proof. rewrite andb_true_iff, bytes_eqb_true. reflexivity. Qed.
Lemma known_true u : known_b u = true <-> known_user cfg u.
Proof.
  unfold known_b, known_user. rewrite andb_true_iff, orb_true_iff, negb_true_iff, anon_true.
  assert (E : bytes_eqb u [] = false <-> u <> []).
  { split; [apply bytes_eqb_neq|]. intros N. unfold bytes_eqb. destruct (list_eq_dec _ _ _); congruence. }
  rewrite E. pose proof (find_first (users cfg) u) as F. destruct (find _ (users cfg)) as [[v pw]|].
  - destruct F as [_ F]. apply first_user_in in F. tauto.
  - split; [intros [? [?|?]]; [tauto|discriminate]|tauto].
Qed.
Lemma free_true u : free_b u = true <-> free_user cfg u.
Proof.
  unfold free_b, free_user. rewrite andb_true_iff, negb_true_iff, <- not_true_iff_false, anon_true.
  pose proof (find_first (users cfg) u) as F. destruct (find _ (users cfg)) as [[v [|y pw]]|].
  - destruct F as [_ F]. tauto.
  - destruct F as [_ F]. split; [intros [_ X]; discriminate|]. intros [_ X]. pose proof (first_user_unique _ _ _ _ F X). discriminate.
  - split; [intros [_ X]; discriminate|]. intros [_ X]. apply first_user_in in X. contradiction.
Qed.
Lemma pass_true u p : pass_b u p = true <-> pass_ok cfg u p.
Proof.
  unfold pass_b, pass_ok. rewrite orb_true_iff, existsb_exists. split; (intros [H|H]; [now left|right]).
  - destruct H as ([v w] & I & E). apply andb_true_iff in E as [E1 E2]. apply bytes_eqb_true in E1, E2. cbn in *. now subst.
  - exists (u, p). split; [exact H|]. cbn. now rewrite !bytes_eqb_refl.
Qed.

(** [acct_of] described by the last accepted USER *)
Lemma acct_spec : forall cmds, match acct_of cmds None with
  | None => forall v, In (User v) cmds -> ~ known_user cfg v
  | Some (u, b) => exists pre rest, cmds = pre ++ User u :: rest /\ known_user cfg u /\
      (forall v, In (User v) rest -> ~ known_user cfg v) /\
      (b = true <-> free_user cfg u \/ exists p, In (Pass p) rest /\ pass_ok cfg u p)
  end.
Proof.
  intros cmds. induction cmds as [|c cmds IH] using rev_ind; [cbn; auto|].
  unfold acct_of in *. rewrite fold_left_app. cbn [fold_left]. set (a := fold_left acct_step cmds None) in *.
  assert (OTHER : (forall u, c <> User u \/ known_b u = false) -> (forall p, c <> Pass p) -> acct_step a c = a ->
    match acct_step a c with
    | None => forall v, In (User v) (cmds ++ [c]) -> ~ known_user cfg v
    | Some (u, b) => exists pre rest, cmds ++ [c] = pre ++ User u :: rest /\ known_user cfg u /\
        (forall v, In (User v) rest -> ~ known_user cfg v) /\
        (b = true <-> free_user cfg u \/ exists p, In (Pass p) rest /\ pass_ok cfg u p)
    end \/ exists u, c = User u).
  { intros NU NP ->. left. destruct a as [[u b]|].
    - destruct IH as (pre & rest & -> & K & N & B). exists pre, (rest ++ [c]). split; [now rewrite <- app_assoc|]. split; [exact K|]. split.
      + intros v I. apply in_app_or in I as [I|[I|[]]]; [now apply N|]. destruct (NU v) as [X|X]; [contradiction|].
        rewrite <- known_true, X. discriminate.
      + rewrite B. split; (intros [F|(p & I & P)]; [now left|right; exists p; split; [|exact P]]).
        * apply in_or_app. now left.
        * apply in_app_or in I as [I|[I|[]]]; [exact I|]. destruct (NP p I).
    - intros v I. apply in_app_or in I as [I|[I|[]]]; [now apply IH|]. destruct (NU v) as [X|X]; [contradiction|].
      rewrite <- known_true, X. discriminate. }
  destruct c; try (destruct OTHER as [O|[u E]]; [intros; left; discriminate|discriminate|reflexivity|exact O|discriminate]).
  - (* Pass *)
    cbn [acct_step]. destruct a as [[u b]|].
    + destruct IH as (pre & rest & -> & K & N & B). exists pre, (rest ++ [Pass s]). split; [now rewrite <- app_assoc|]. split; [exact K|]. split.
      * intros v I. apply in_app_or in I as [I|[I|[]]]; [now apply N|discriminate].
      * rewrite orb_true_iff, B, pass_true. split.
        -- intros [[F|(p & I & P)]|P]; [now left| |]; right; [exists p|exists s]; (split; [|exact P]); apply in_or_app; [now left|right; now left].
        -- intros [F|(p & I & P)]; [now left; left|]. apply in_app_or in I as [I|[I|[]]]; [left; right; eauto|]. injection I as ->. now right.
    + intros v I. apply in_app_or in I as [I|[I|[]]]; [now apply IH|discriminate].
  - (* User *)
    cbn [acct_step]. destruct (known_b s) eqn:Kb.
    + exists cmds, []. split; [reflexivity|]. split; [now apply known_true|]. split; [intros v []|].
      rewrite free_true. split; [now left|]. intros [F|(p & [] & _)]. exact F.
    + destruct a as [[u b]|].
      * destruct IH as (pre & rest & -> & K & N & B). exists pre, (rest ++ [User s]). split; [now rewrite <- app_assoc|]. split; [exact K|]. split.
        -- intros v I. apply in_app_or in I as [I|[I|[]]]; [now apply N|]. injection I as ->. rewrite <- known_true, Kb. discriminate.
        -- rewrite B. split; (intros [F|(p & I & P)]; [now left|right; exists p; split; [|exact P]]).
           ++ apply in_or_app. now left.
           ++ apply in_app_or in I as [I|[I|[]]]; [exact I|discriminate].
      * intros v I. apply in_app_or in I as [I|[I|[]]]; [now apply IH|]. injection I as ->. rewrite <- known_true, Kb. discriminate.
Qed.

Lemma app_cons_unique {A} (P : A -> Prop) (a b : list A) x y c d :
  a ++ x :: b = c ++ y :: d -> P x -> P y -> (forall z, In z b -> ~ P z) -> (forall z, In z d -> ~ P z) -> a = c /\ x = y /\ b = d.
Proof.
  revert c. induction a as [|h a IH]; intros [|k c] E Px Py Nb Nd; cbn in E; injection E as E1 E2.
  - auto.
  - subst. exfalso. apply (Nb y); [|exact Py]. apply in_or_app. right. now left.
  - subst. exfalso. apply (Nd x); [|exact Px]. apply in_or_app. right. now left.
  - subst. destruct (IH c E2 Px Py Nb Nd) as (-> & -> & ->). auto.
Qed.

Lemma acct_logged cmds : (match acct_of cmds None with Some (_, b) => b | None => false end) = true <-> logged_in cfg cmds.
Proof.
  pose proof (acct_spec cmds) as S. destruct (acct_of cmds None) as [[u b]|].
  - destruct S as (pre & rest & E & K & N & B). rewrite B. split.
    + intros H. exists pre, u, rest. auto.
    + intros (pre' & u' & rest' & E' & K' & N' & H).
      destruct (app_cons_unique (fun c => exists v, c = User v /\ known_user cfg v) pre rest (User u) (User u') pre' rest') as (_ & X & <-).
      * congruence.
      * eauto.
      * eauto.
      * intros z Hz (v & -> & Kv). now apply (N v).
      * intros z Hz (v & -> & Kv). now apply (N' v).
      * injection X as <-. exact H.
  - split; [discriminate|]. intros (pre & u & rest & -> & K & _). exfalso. apply (S u); [|exact K]. apply in_or_app. right. now left.
Qed.

Lemma login_required f ins k e i : nth_error (fst (run ins (client_new f))) k = Some e -> nth_error ins k = Some i ->
  ~ logged_in cfg (commands_of (firstn k ins)) -> Forall (fun x => ~ serves x) e.
Proof.
  intros He Hi NL. destruct (session_step ins (client_new f) None eq_refl k e i He Hi) as (s1 & A & X).
  destruct i as [o c|g]; [|subst; constructor].
  assert (L : is_logged s1 = false).
  { rewrite (agrees_logged _ _ A). destruct (match acct_of _ _ with Some (_, b) => b | None => false end) eqn:E; [|reflexivity].
    destruct NL. now apply acct_logged. }
  pose proof (not_logged_silent o c s1 L) as S. destruct (handle o c s1) as [[e1 s2] r]. subst. apply S.
Qed.
End Login.
