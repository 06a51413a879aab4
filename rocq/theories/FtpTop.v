(** Session level results and counterexamples for the FTP server. *)
From Coq Require Import Ascii String List ZArith Bool Lia.
From Verif Require Import Base BaseLemmas Ftp FtpProofs FtpClient FtpClientSpec FtpLogin FtpInside.
Import ListNotations.
Open Scope Z_scope.

Section Top.
Variable cfg : config.
Variable root : place.
Variable pcwd : place.
Variable ext_supported : name -> bool.
Variable dng_name : name -> name.
Variable keep_orig : bool.
Notation handle := (handle_cmd cfg (root_path root) pcwd ext_supported dng_name keep_orig).
Notation run := (session cfg (root_path root) pcwd ext_supported dng_name keep_orig).

Lemma step_inside o c s e s' r : ext_supported (last root []) = false -> plain_cwd (cwd s) ->
  (follows_links c = true -> path_clear (disk s) root /\ no_escape (disk s) root) ->
  handle o c s = (e, s', r) ->
  (forall a, In (Acc a) e -> inside root (target a)) /\ same_outside root (disk s) (disk s') /\
  no_new_links (disk s) (disk s') /\ plain_cwd (cwd s').
Proof.
  intros X P L E.
  pose proof (wp_handle cfg root pcwd ext_supported dng_name keep_orig (disk s) X o c s) as W.
  assert (W0 : weak root (disk s) s) by (split; [exact P|split; [intros q _; reflexivity|intros q t H; exact H]]).
  specialize (W W0 L). unfold wp in W. rewrite E in W. destruct W as [W1 W2]. split; [exact W1|].
  assert (W3 : weak root (disk s) s') by (destruct r; exact W2). destruct W3 as (A & B & C). auto.
Qed.

(** tame file systems stay tame *)
Lemma tame_keep f g : no_new_links f g -> path_clear f root -> tame f root -> path_clear g root /\ tame g root.
Proof.
  intros N P T. split.
  - intros a b t E H F. apply N in F. now apply (P a b t).
  - intros d n t Hd F. apply N in F. now apply (T d n t).
Qed.

Lemma session_inside : ext_supported (last root []) = false -> forall ins s, plain_cwd (cwd s) -> path_clear (disk s) root -> tame (disk s) root ->
  Forall (good_input root) ins ->
  (forall e a, In e (fst (run ins s)) -> In (Acc a) e -> inside root (target a)) /\
  ((forall f, ~ In (Disturb f) ins) -> same_outside root (disk s) (disk (snd (run ins s)))).
Proof.
  intros X. induction ins as [|i ins IH]; intros s P C T G.
  - split; [intros e a []|intros _ q _; reflexivity].
  - inversion G as [|? ? G1 G2]; subst. cbn [session]. destruct i as [o c|f].
    + destruct (handle o c s) as [[e s1] r] eqn:E.
      destruct (step_inside o c s e s1 r X P) as (A1 & A2 & A3 & A4); [intros _; split; [exact C|now apply tame_no_escape]|exact E|].
      destruct (tame_keep _ _ A3 C T) as [C1 T1].
      destruct r as [u|].
      * destruct (IH s1 A4 C1 T1 G2) as [B1 B2]. destruct (run ins s1) as [es s2] eqn:R. cbn [fst snd] in *. split.
        -- intros e' a [<-|I] H; [now apply A1|now apply (B1 e')].
        -- intros ND q Hq. rewrite (B2 ltac:(intros f I; apply (ND f); now right) q Hq). now apply A2.
      * cbn [fst snd]. split; [intros e' a [<-|[]] H; now apply A1|]. intros _. exact A2.
    + destruct G1 as [C1 T1]. destruct (IH (set_disk s f) P C1 T1 G2) as [B1 B2]. destruct (run ins (set_disk s f)) as [es s2] eqn:R.
      cbn [fst snd] in *. split.
      * intros e' a [<-|I] H; [destruct H|now apply (B1 e')].
      * intros ND. destruct (ND f). now left.
Qed.

(** ** bytes sent come from a file inside the root *)
Definition nosent {A} (m : M A) : Prop := forall s x, ~ In (Sent x) (fst (fst (m s))).
Lemma ns_bind {A B} (m : M A) (k : A -> M B) : nosent m -> (forall a, nosent (k a)) -> nosent (mbind m k).
Proof.
  intros H K s x. unfold mbind. specialize (H s x). destruct (m s) as [[e s1] [a|]]; [|exact H].
  specialize (K a s1 x). destruct (k a s1) as [[e2 s2] r]. cbn in *. intros I. apply in_app_or in I as [I|I]; auto.
Qed.
Lemma ns_ret {A} (a : A) : nosent (ret a). Proof. intros s x []. Qed.
Lemma ns_stop {A} : nosent (@stop A). Proof. intros s x []. Qed.
Lemma ns_get : nosent get_. Proof. intros s x []. Qed.
Lemma ns_modify g : nosent (modify g). Proof. intros s x []. Qed.
Lemma ns_touch a : nosent (touch a). Proof. intros s x [I|[]]. discriminate. Qed.
Lemma ns_list l : nosent (emit (SentList l)). Proof. intros s x [I|[]]. discriminate. Qed.
Lemma ns_send c : nosent (send c). Proof. intros s x. unfold send. destruct (closed s); cbn; [auto|intros [I|[]]; discriminate]. Qed.
Lemma ns_each {A} (l : list A) g : (forall a, nosent (g a)) -> nosent (each l g).
Proof. intros H. induction l; cbn; [apply ns_ret|]. now apply ns_bind. Qed.
Ltac ns := repeat first
  [ apply ns_bind; [|intro] | apply ns_ret | apply ns_stop | apply ns_get | apply ns_list | apply ns_touch | apply ns_send | apply ns_modify
  | apply ns_each; intro
  | progress unfold initiate, close_data, finish, stat_entry, nlst_match, write_file, stor_file, put_file
  | match goal with
    | |- nosent (if ?b then _ else _) => destruct b
    | |- nosent (match ?x with _ => _ end) => destruct x
    end ].

Lemma ev_bind {A B} (m : M A) (k : A -> M B) s y : In y (fst (fst (mbind m k s))) ->
  In y (fst (fst (m s))) \/ exists a, snd (m s) = Some a /\ In y (fst (fst (k a (snd (fst (m s)))))).
Proof.
  unfold mbind. destruct (m s) as [[e s1] [a|]]; cbn [fst snd]; [|auto]. destruct (k a s1) as [[e2 s2] r] eqn:E. cbn [fst].
  intros I. apply in_app_or in I as [I|I]; [now left|]. right. exists a. split; [reflexivity|]. now rewrite E.
Qed.
Lemma initiate_disk o s : disk (snd (fst (initiate o s))) = disk s.
Proof. unfold initiate, mbind, get_, modify, send. destruct (port s); [destruct (io_connect o); [|destruct (closed s)]|]; reflexivity. Qed.

Lemma retr_sent o p s x : In (Sent x) (fst (fst (retr (root_path root) pcwd o p s))) ->
  exists q, inside root q /\ look (disk s) q = Some (File x).
Proof.
  unfold retr. intros H. apply ev_bind in H as [H|(u & _ & H)].
  { exfalso. revert H. assert (N : nosent (initiate o)) by ns. apply N. }
  rewrite <- (initiate_disk o s). set (s1 := snd (fst (initiate o s))) in *. clearbody s1. clear s u.
  apply ev_bind in H as [[]|(s2 & E & H)]. cbn in E. injection E as <-. cbn [get_ fst snd] in H.
  destruct (writer s1); [|exfalso; revert H; match goal with |- In _ (fst (fst (?m s1))) -> _ => assert (N : nosent m) by ns; apply N end].
  destruct (complete_path _ _ _ _) as [q|] eqn:C; [|exfalso; revert H; match goal with |- In _ (fst (fst (?m s1))) -> _ => assert (N : nosent m) by ns; apply N end].
  destruct (look (disk s1) q) as [[|y|]|] eqn:Lk; try (exfalso; revert H; match goal with |- In _ (fst (fst (?m s1))) -> _ => assert (N : nosent m) by ns; apply N end).
  exists q. split; [now apply complete_inside in C|]. rewrite Lk. do 2 f_equal.
  apply ev_bind in H as [H|(u & _ & H)]; [exfalso; revert H; apply ns_send|].
  destruct (io_os o); [|exfalso; revert H; apply ns_send].
  apply ev_bind in H as [H|(u' & _ & H)]; [exfalso; revert H; apply ns_touch|].
  apply ev_bind in H as [H|(u2 & _ & H)].
  - destruct (io_net o); [cbn in H; destruct H as [H|[]]; congruence|destruct H].
  - exfalso. revert H. assert (N : nosent finish) by ns. apply N.
Qed.

Lemma sent_inside o c s e s' r x : handle o c s = (e, s', r) -> In (Sent x) e ->
  exists q, inside root q /\ look (disk s) q = Some (File x).
Proof.
  intros E I. unfold handle_cmd, mbind, get_ in E.
  set (m := dispatch cfg (root_path root) pcwd ext_supported dng_name keep_orig o c s) in *.
  assert (J : In (Sent x) (fst (fst (m s)))).
  { destruct (m s) as [[e2 s2] r2]. injection E as <- <- <-. exact I. }
  assert (K : nosent m -> False) by (intros N; now apply (N s x)).
  unfold dispatch in m. destruct (is_logged s).
  - destruct c; try (exfalso; apply K; subst m; unfold common, quit, login, chdir, list_, nlst, pasv, epsv, stor, mkd, rmd, dele; ns; fail).
    now apply (retr_sent o p s x).
  - exfalso. apply K. subst m. unfold common, quit, login. ns.
Qed.
End Top.

(** a relative server root refuses every path *)
Lemma relative_root root pcwd f p : rooted root = false -> complete_path root pcwd f p = None.
Proof.
  intros R. unfold complete_path. destruct (canonicalize _ _ _); [|reflexivity]. unfold starts_with. now rewrite R.
Qed.

(** ** counterexamples *)
Definition io0 : io := mkIo true true true true (Some (str "data")) [] (Some []) true (fun _ => false) None (str "dng", true).
Definition cfg0 : config := mkC [(str "bob", [])] false.
Definition cmd (s : string) : input := Command io0 (match command_new (str s) with Some c => c | None => NoOp end).
Definition r_ : name := str "r".
Definition demo (root : place) (f : fs) (cs : list string) : list (list event) * client :=
  session cfg0 (root_path root) [] (fun n => bytes_eqb n (str "x.cr2")) (fun _ => str "x.dng") true (map cmd cs) (client_new f).

Definition fs_link : fs := fun p =>
  if place_eqb p [r_] then Some Dir
  else if place_eqb p [r_; str "l"] then Some (Link (mkP true [Normal (str "x")]))
  else None.
Lemma link_escape : exists f cs, path_clear f [r_] /\ In [Reply 125; Acc (WriteFile [str "x"]); Reply 226] (fst (demo [r_] f cs)).
Proof.
  exists fs_link, ["USER bob"; "PASV"; "STOR l"]%string. split.
  - intros a b t E H. destruct a as [|n [|m a]]; [congruence| |discriminate]. cbn in E. injection E as <- E. discriminate.
  - right. right. left. vm_compute. reflexivity.
Qed.

Definition fs_plain (extra : bool) : fs := fun p =>
  if place_eqb p [r_] then Some Dir
  else if place_eqb p [str "etc"] then (if extra then Some Dir else None)
  else None.
Lemma existence_leak : exists f g cs, (forall p, inside [r_] p -> f p = g p) /\ fst (demo [r_] f cs) <> fst (demo [r_] g cs).
Proof.
  exists (fs_plain true), (fs_plain false), ["USER bob"; "CWD ../etc/../r"]%string. split.
  - intros p [x ->]. unfold fs_plain. cbn [app]. destruct x; reflexivity.
  - vm_compute. discriminate.
Qed.

Lemma root_removed : exists f cs, f [r_] = Some Dir /\ disk (snd (demo [r_] f cs)) [r_] = None.
Proof. exists (fs_plain false), ["USER bob"; "RMD /"]%string. split; vm_compute; reflexivity. Qed.

Lemma root_name_escape : exists root f cs, path_clear f root /\ tame f root /\
  In [Reply 125; Acc (WriteFile [str "x.dng"]); Reply 451] (fst (demo root f cs)) /\ ~ inside root [str "x.dng"].
Proof.
  exists [str "x.cr2"], (fun p => if place_eqb p [str "x.cr2"] then Some Dir else None), ["USER bob"; "PASV"; "STOR /"]%string.
  split; [|split; [|split]].
  - intros a b t _ _. destruct (place_eqb a _); discriminate.
  - intros d n t _ H. destruct (place_eqb _ _); discriminate.
  - right. right. left. vm_compute. reflexivity.
  - intros [rel E]. discriminate.
Qed.

Lemma any_password : exists cfg cmds, users cfg = [(str "admin", str "secret")] /\
  fst (session cfg (root_path [r_]) [] (fun _ => false) (fun n => n) true cmds (client_new (fs_plain false))) =
    [[Reply 331]; [Reply 230]; [Acc (MkDir [r_; str "d"]); Reply 257]] /\
  commands_of cmds = [User (str "admin"); Pass (str "wrong"); Mkd (mkP false [Normal (str "d")])].
Proof.
  exists (mkC [(str "admin", str "secret")] true), (map cmd ["USER admin"; "PASS wrong"; "MKD d"]%string).
  repeat split; vm_compute; reflexivity.
Qed.

Lemma after_quit : exists cs, nth 1 cs EmptyString = "QUIT"%string /\
  nth 2 (fst (demo [r_] (fs_plain false) cs)) [] = [Acc (MkDir [r_; str "d"])].
Proof. exists ["USER bob"; "QUIT"; "MKD d"]%string. split; vm_compute; reflexivity. Qed.

(** ** login works *)
Lemma login_works cfg root pcwd ext dng keep f o1 o2 u p : known_user cfg u -> ~ is_anonymous cfg u -> p <> [] -> first_user (users cfg) u p ->
  exists s, session cfg root pcwd ext dng keep [Command o1 (User u); Command o2 (Pass p)] (client_new f) = ([[Reply 331]; [Reply 230]], s) /\
    is_logged s = true /\ uname s = Some u.
Proof.
  intros [K1 K2] NA NP F. destruct u as [|x u']; [congruence|]. set (u := x :: u') in *.
  assert (EA : anonymous cfg && bytes_eqb u (str "anonymous") = false).
  { destruct (_ && _) eqn:E; [|reflexivity]. destruct NA. now apply anon_true. }
  pose proof (find_first (users cfg) u) as FF.
  assert (EP : anonymous cfg || existsb (fun z => bytes_eqb (fst z) u && bytes_eqb (snd z) p) (users cfg) = true).
  { apply orb_true_iff. right. apply existsb_exists. exists (u, p). destruct F as (a & b & -> & _). split; [apply in_or_app; right; now left|].
    cbn [fst snd]. now rewrite !bytes_eqb_refl. }
  destruct (find _ (users cfg)) as [[v pw]|] eqn:EF; [|apply first_user_in in F; contradiction].
  destruct FF as [-> FF]. pose proof (first_user_unique _ _ _ _ F FF) as ->. destruct pw as [|y pw]; [congruence|].
  assert (EH : handle_cmd cfg root pcwd ext dng keep o1 (User u) (client_new f) =
     ([Reply 331], set_user (client_new f) (Some u) true, Some tt)).
  { unfold handle_cmd, mbind at 1, get_, dispatch. cbn [client_new is_logged uname]. unfold common, login. fold u.
    change (match u with [] => send 501 | _ :: _ => ?z end) with z. unfold u at 1. fold u. rewrite EA, EF. reflexivity. }
  cbn [session]. rewrite EH.
  assert (EH2 : handle_cmd cfg root pcwd ext dng keep o2 (Pass (y :: pw)) (set_user (client_new f) (Some u) true) =
     ([Reply 230], set_user (set_user (client_new f) (Some u) true) (Some u) false, Some tt)).
  { unfold handle_cmd, mbind at 1, get_, dispatch. cbn [is_logged uname set_user waiting client_new negb]. rewrite EP. reflexivity. }
  rewrite EH2. eexists. split; [reflexivity|]. split; reflexivity.
Qed.
