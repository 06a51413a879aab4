(** Proofs that FTP sessions stay inside the served directory. *)
From Coq Require Import Ascii String List ZArith Bool Lia.
From Verif Require Import Base BaseLemmas Ftp FtpProofs FtpClient FtpClientSpec.
Import ListNotations.
Open Scope Z_scope.

(** ** path resolution *)
Lemma resolve_eq c f k cur cs : resolve c f k cur cs =
  match cs with
  | [] => Some cur
  | CurDir :: cs => resolve c f k cur cs
  | ParentDir :: cs => resolve c f k (removelast cur) cs
  | Normal n :: cs =>
    match f (cur ++ [n]) with
    | None => if c then match cs with [] => Some (cur ++ [n]) | _ => None end else None
    | Some Dir => resolve c f k (cur ++ [n]) cs
    | Some (File _) => match cs with [] => Some (cur ++ [n]) | _ => None end
    | Some (Link t) => match k with O => None | S k => resolve c f k (if rooted t then [] else cur) (comps t ++ cs) end
    end
  end.
Proof. destruct k; destruct cs as [|[| |n] cs]; reflexivity. Qed.
Global Opaque resolve.

Lemma resolve_split c f : forall k a b cur p, b <> [] -> resolve c f k cur (a ++ b) = Some p ->
  exists k' q, resolve false f k cur a = Some q /\ resolve c f k' q b = Some p.
Proof.
  induction k as [k IHk] using lt_wf_ind. induction a as [|x a IHa]; intros b cur p Hb E.
  - exists k, cur. split; [now rewrite resolve_eq|exact E].
  - cbn [app] in E. rewrite resolve_eq in E. rewrite (resolve_eq false). destruct x as [| |n]; [now apply IHa|now apply IHa|].
    assert (NE : a ++ b <> []) by (destruct a; [exact Hb|discriminate]).
    destruct (f (cur ++ [n])) as [[|x|t]|].
    + now apply IHa.
    + destruct (a ++ b); [congruence|discriminate].
    + destruct k as [|k]; [discriminate|]. rewrite app_assoc in E. apply (IHk k ltac:(lia)) in E; [exact E|exact Hb].
    + destruct c; [|discriminate]. destruct (a ++ b); [congruence|discriminate].
Qed.

Lemma inside_refl r : inside r r. Proof. exists []. now rewrite app_nil_r. Qed.
Lemma inside_snoc r p n : inside r p -> inside r (p ++ [n]).
Proof. intros [x ->]. exists (x ++ [n]). now rewrite app_assoc. Qed.

(** links that do not escape *)
Lemma resolve_inside f root : no_escape f root -> forall c cs k cur p, inside root cur -> ~ In ParentDir cs ->
  resolve c f k cur cs = Some p -> inside root p.
Proof.
  intros NE c. induction cs as [|x cs IH]; intros k cur p Hc Hp E; rewrite resolve_eq in E; [congruence|].
  assert (Hp' : ~ In ParentDir cs) by (intros I; apply Hp; now right).
  destruct x as [| |n]; [now apply (IH k cur)|destruct Hp; now left|].
  pose proof (inside_snoc root cur n Hc) as Hn.
  destruct (f (cur ++ [n])) as [[|x|t]|] eqn:F.
  - now apply (IH k (cur ++ [n])).
  - destruct cs; [congruence|discriminate].
  - destruct k as [|k]; [discriminate|]. destruct cs as [|y cs].
    + rewrite app_nil_r in E. now apply (NE cur n t Hc F c k p).
    + apply resolve_split in E as (k' & q & E1 & E2); [|discriminate].
      apply (IH k' q); auto. now apply (NE cur n t Hc F false k q).
  - destruct c; [|discriminate]. destruct cs; [congruence|discriminate].
Qed.

(** the way to the root *)
Lemma resolve_to_root c f : forall b a cs k p, (forall x y t, b = x ++ y -> x <> [] -> f (a ++ x) <> Some (Link t)) ->
  resolve c f k a (map Normal b ++ cs) = Some p ->
  resolve c f k (a ++ b) cs = Some p \/ (p = a ++ b /\ cs = []).
Proof.
  induction b as [|n b IH]; intros a cs k p PC E.
  - rewrite app_nil_r. now left.
  - cbn [map app] in E. rewrite resolve_eq in E.
    assert (PC' : forall x y t, b = x ++ y -> x <> [] -> f ((a ++ [n]) ++ x) <> Some (Link t)).
    { intros x y t -> Hx. rewrite <- app_assoc. apply (PC (n :: x) y); [reflexivity|discriminate]. }
    replace (a ++ n :: b) with ((a ++ [n]) ++ b) by (now rewrite <- app_assoc).
    destruct (f (a ++ [n])) as [[|x|t]|] eqn:F.
    + now apply (IH (a ++ [n]) cs k p PC').
    + destruct (map Normal b ++ cs) eqn:M; [|discriminate]. apply app_eq_nil in M as [M1 ->]. apply map_eq_nil in M1. subst b.
      injection E as <-. rewrite app_nil_r. now right.
    + destruct (PC [n] b t eq_refl ltac:(discriminate) F).
    + destruct c; [|discriminate]. destruct (map Normal b ++ cs) eqn:M; [|discriminate]. apply app_eq_nil in M as [M1 ->].
      apply map_eq_nil in M1. subst b. injection E as <-. rewrite app_nil_r. now right.
Qed.

Lemma resolve_from_root f root c cs k p : path_clear f root -> no_escape f root -> ~ In ParentDir cs ->
  resolve c f k [] (map Normal root ++ cs) = Some p -> inside root p.
Proof.
  intros PC NE Hp E. apply (resolve_to_root c f root []) in E.
  - cbn [app] in E. destruct E as [E|[-> _]]; [|apply inside_refl].
    now apply (resolve_inside f root NE c cs k root p (inside_refl _) Hp).
  - intros x y t Ex Hx. cbn [app]. now apply (PC x y t).
Qed.

(** tame links do not escape *)
Lemma tame_inside f root : path_clear f root -> tame f root -> forall c k cs cur p, inside root cur -> ~ In ParentDir cs ->
  resolve c f k cur cs = Some p -> inside root p.
Proof.
  intros PC T c. induction k as [k IHk] using lt_wf_ind. induction cs as [|x cs IH]; intros cur p Hc Hp E; rewrite resolve_eq in E; [congruence|].
  assert (Hp' : ~ In ParentDir cs) by (intros I; apply Hp; now right).
  destruct x as [| |n]; [now apply (IH cur)|destruct Hp; now left|].
  pose proof (inside_snoc root cur n Hc) as Hn.
  destruct (f (cur ++ [n])) as [[|x|t]|] eqn:F.
  - now apply (IH (cur ++ [n])).
  - destruct cs; [congruence|discriminate].
  - destruct k as [|k]; [discriminate|]. destruct (T cur n t Hc F) as [T1 T2].
    assert (NP : ~ In ParentDir (comps t ++ cs)) by (intros I; apply in_app_or in I as [I|I]; auto).
    destruct (rooted t) eqn:R.
    + destruct (T2 eq_refl) as [cs' ET]. rewrite ET, <- app_assoc in E.
      apply (resolve_to_root c f root []) in E; [|intros x y t' Ex Hx; cbn [app]; now apply (PC x y t')].
      cbn [app] in E. destruct E as [E|[-> _]]; [|apply inside_refl].
      apply (IHk k ltac:(lia)) in E; [exact E|apply inside_refl|].
      intros I. apply NP. rewrite ET, <- app_assoc. apply in_or_app. now right.
    + apply (IHk k ltac:(lia)) in E; auto.
  - destruct c; [|discriminate]. destruct cs; [congruence|discriminate].
Qed.

Lemma tame_no_escape f root : path_clear f root -> tame f root -> no_escape f root.
Proof.
  intros PC T d n t Hd F c k p E. destruct (T d n t Hd F) as [T1 T2]. destruct (rooted t).
  - destruct (T2 eq_refl) as [cs ET]. rewrite ET in *.
    apply (resolve_to_root c f root []) in E; [|intros x y t' Ex Hx; cbn [app]; now apply (PC x y t')].
    cbn [app] in E. destruct E as [E|[-> _]]; [|apply inside_refl].
    apply (tame_inside f root PC T c k cs root p); auto using inside_refl.
    intros I. apply T1. apply in_or_app. now right.
  - now apply (tame_inside f root PC T c k (comps t) d p).
Qed.

Lemma place_eqb_true a : forall b, place_eqb a b = true -> a = b.
Proof.
  induction a as [|x a IH]; intros [|y b] H; cbn in H; try discriminate; [reflexivity|].
  apply andb_true_iff in H as [H1 H2]. unfold name_eqb, bytes_eqb in H1. destruct (list_eq_dec Z.eq_dec x y); [|discriminate].
  subst. f_equal. now apply IH.
Qed.
Lemma place_eqb_refl a : place_eqb a a = true.
Proof. induction a; cbn; [reflexivity|]. unfold name_eqb. now rewrite bytes_eqb_refl. Qed.
Lemma prefixb_inside a : forall b, prefixb a b = true -> inside a b.
Proof.
  induction a as [|x a IH]; intros b H; cbn in H; [exists b; reflexivity|].
  destruct b as [|y b]; [discriminate|]. apply andb_true_iff in H as [H1 H2].
  unfold name_eqb, bytes_eqb in H1. destruct (list_eq_dec Z.eq_dec x y); [|discriminate]. subst.
  destruct (IH b H2) as [r ->]. now exists r.
Qed.
Lemma inside_trans a b c : inside a b -> inside b c -> inside a c.
Proof. intros [x ->] [y ->]. exists (x ++ y). now rewrite app_assoc. Qed.

(** creating or overwriting a file does not open an escape *)
Lemma resolve_upd f q x c : f q <> Some Dir -> (forall t, f q <> Some (Link t)) -> forall k cs cur p,
  resolve c (upd f q (Some (File x))) k cur cs = Some p -> p = q \/ resolve c f k cur cs = Some p.
Proof.
  intros HD HL. induction k as [k IHk] using lt_wf_ind. induction cs as [|y cs IH]; intros cur p E; rewrite resolve_eq in E.
  - right. now rewrite resolve_eq.
  - rewrite (resolve_eq c f). destruct y as [| |n]; [now apply IH|now apply IH|]. unfold upd at 1 in E.
    destruct (place_eqb (cur ++ [n]) q) eqn:B.
    + destruct cs; [|discriminate]. apply place_eqb_true in B. left. congruence.
    + destruct (f (cur ++ [n])) as [[|z|t]|].
      * now apply IH.
      * now right.
      * destruct k as [|k]; [discriminate|]. apply (IHk k ltac:(lia)) in E. exact E.
      * now right.
Qed.
Lemma no_escape_write f root q x : inside root q -> f q <> Some Dir -> (forall t, f q <> Some (Link t)) -> no_escape f root ->
  no_escape (upd f q (Some (File x))) root.
Proof.
  intros Hq HD HL NE d n t Hd F c k p E. unfold upd in F. destruct (place_eqb (d ++ [n]) q) eqn:B; [discriminate|].
  apply resolve_upd in E; [|exact HD|exact HL]. destruct E as [->|E]; [exact Hq|]. now apply (NE d n t Hd F c k p).
Qed.

(** ** the commands *)
Section Inside.
Variable cfg : config.
Variable root : place.
Variable pcwd : place.
Variable ext_supported : name -> bool.
Variable dng_name : name -> name.
Variable keep_orig : bool.
Notation server_root := (root_path root).
Notation handle := (handle_cmd cfg server_root pcwd ext_supported dng_name keep_orig).
Notation run := (session cfg server_root pcwd ext_supported dng_name keep_orig).

Lemma starts_inside p : starts_with p server_root = true -> inside root p.
Proof.
  unfold starts_with, root_path. cbn [rooted comps andb]. revert p. induction root as [|n r IH]; intros p H; [exists p; reflexivity|].
  destruct p as [|m p]; [discriminate|]. cbn [map comps_prefix comp_eqb] in H. apply andb_true_iff in H as [H1 H2].
  unfold name_eqb, bytes_eqb in H1. destruct (list_eq_dec Z.eq_dec n m); [|discriminate]. subst.
  destruct (IH p H2) as [x ->]. now exists x.
Qed.
Lemma complete_inside f p d : complete_path server_root pcwd f p = Some d -> inside root d.
Proof.
  unfold complete_path. destruct (canonicalize _ _ _) as [q|]; [|discriminate]. destruct (starts_with q _) eqn:S; [|discriminate].
  intros E. injection E as <-. now apply starts_inside.
Qed.

Variable f0 : fs.
(** what holds at all times, relative to the file system before the command *)
Definition weak (s : client) : Prop := plain_cwd (cwd s) /\ same_outside root f0 (disk s) /\ no_new_links f0 (disk s).
Definition links_ok (s : client) : Prop := path_clear (disk s) root /\ no_escape (disk s) root.

Definition wp {A} (m : M A) (Q : A -> client -> Prop) (s : client) : Prop :=
  let '(e, s', r) := m s in
  (forall a, In (Acc a) e -> inside root (target a)) /\ match r with Some a => Q a s' | None => weak s' end.

Lemma wp_bind {A B} (m : M A) (k : A -> M B) Q s : wp m (fun a => wp (k a) Q) s -> wp (mbind m k) Q s.
Proof.
  unfold wp, mbind. destruct (m s) as [[e s1] [a|]]; [|auto]. intros [H1 H2]. destruct (k a s1) as [[e2 s2] r].
  destruct H2 as [H2 H3]. split; [|exact H3]. intros x I. apply in_app_or in I as [I|I]; auto.
Qed.
Lemma wp_mono {A} (m : M A) (Q R : A -> client -> Prop) s : (forall a s, Q a s -> R a s) -> wp m Q s -> wp m R s.
Proof. unfold wp. destruct (m s) as [[e s1] [a|]]; intros H [H1 H2]; split; auto. Qed.
Lemma wp_get (Q : client -> client -> Prop) s : Q s s -> wp get_ Q s.
Proof. intros H. split; [intros a []|exact H]. Qed.
Lemma wp_ret {A} (a : A) (Q : A -> client -> Prop) s : Q a s -> wp (ret a) Q s.
Proof. intros H. split; [intros x []|exact H]. Qed.
Lemma wp_stop {A} (Q : A -> client -> Prop) s : weak s -> wp stop Q s.
Proof. intros H. split; [intros x []|exact H]. Qed.
Lemma wp_modify g (Q : unit -> client -> Prop) s : Q tt (g s) -> wp (modify g) Q s.
Proof. intros H. split; [intros x []|exact H]. Qed.
Lemma wp_emit_other e (Q : unit -> client -> Prop) s : (forall a, e <> Acc a) -> Q tt s -> wp (emit e) Q s.
Proof. intros N H. split; [intros x [I|[]]; destruct (N x I)|exact H]. Qed.
Lemma wp_touch a (Q : unit -> client -> Prop) s : inside root (target a) -> Q tt s -> wp (touch a) Q s.
Proof. intros N H. split; [intros x [I|[]]; congruence|exact H]. Qed.
Lemma wp_send c (Q : unit -> client -> Prop) s : weak s -> Q tt s -> wp (send c) Q s.
Proof. intros W H. unfold wp, send. destruct (closed s); split; auto; [intros x []|intros x [I|[]]; discriminate]. Qed.
Lemma wp_each {A} (l : list A) g (J : client -> Prop) s : (forall a s, J s -> wp (g a) (fun _ => J) s) -> J s -> wp (each l g) (fun _ => J) s.
Proof.
  intros H. revert s. induction l as [|a l IH]; intros s Hs; cbn [each]; [now apply wp_ret|].
  apply wp_bind. eapply wp_mono; [|now apply H]. intros ? s' Hs'. now apply IH.
Qed.

Definition weakT (_ : unit) (s : client) : Prop := weak s.

(** updates inside the root keep [weak] *)
Lemma weak_disk s f : weak s -> same_outside root (disk s) f -> no_new_links (disk s) f -> weak (set_disk s f).
Proof.
  intros (W1 & W2 & W3) S N. split; [exact W1|]. cbn. split.
  - intros p H. rewrite (S p H). now apply W2.
  - intros p t H. apply W3. now apply N.
Qed.
Lemma upd_outside f q v : inside root q -> same_outside root f (upd f q v).
Proof. intros Hq p Hp. unfold upd. destruct (place_eqb p q) eqn:E; [|reflexivity]. apply place_eqb_true in E. now subst. Qed.
Lemma upd_links f q v : (forall t, v <> Some (Link t)) -> no_new_links f (upd f q v).
Proof. intros Hv p t H. unfold upd in H. destruct (place_eqb p q); [now destruct (Hv t)|exact H]. Qed.
Lemma rmtree_outside f q k : inside root q -> same_outside root f (rmtree f q k).
Proof.
  intros Hq p Hp. unfold rmtree. destruct (prefixb q p) eqn:E; [|reflexivity]. destruct Hp. apply prefixb_inside in E. now apply (inside_trans root q p).
Qed.
Lemma rmtree_links f q k : no_new_links f (rmtree f q k).
Proof. intros p t H. unfold rmtree in H. destruct (_ && _); [discriminate|exact H]. Qed.

Lemma wp_initiate o (J : client -> Prop) s : weak s -> J s -> (forall s r w, J s -> J (set_conn s r w)) -> wp (initiate o) (fun _ s => weak s /\ J s) s.
Proof.
  intros W H C. unfold initiate. apply wp_bind, wp_get. destruct (port s); [|now apply wp_ret].
  destruct (io_connect o); [apply wp_modify; split; [exact W|now apply C]|now apply wp_send].
Qed.
Lemma wp_finish s : weak s -> wp finish weakT s.
Proof.
  intros W. unfold finish, close_data. apply wp_bind, wp_get. destruct (writer s); [|now apply wp_ret].
  apply wp_bind, wp_modify, wp_send; exact W.
Qed.

Lemma wp_mkd o p s : weak s -> wp (mkd server_root pcwd o p) weakT s.
Proof.
  intros W. unfold mkd. apply wp_bind, wp_get. destruct (pparent _); [|now apply wp_send].
  destruct (complete_path _ _ _ _) as [d|] eqn:E; [|now apply wp_send]. apply complete_inside in E.
  destruct (look _ d) as [[| |]|]; try (now apply wp_send). destruct (pfile_name _) as [n|]; [|now apply wp_send].
  apply wp_bind, wp_touch; [now apply inside_snoc|].
  destruct (disk s (d ++ [n])); [now apply wp_send|]. destruct (io_os o); [|now apply wp_send].
  apply wp_bind, wp_modify.
  assert (W' : weak (set_disk s (upd (disk s) (d ++ [n]) (Some Dir)))).
  { apply weak_disk; [exact W|now apply upd_outside, inside_snoc|apply upd_links; discriminate]. }
  now apply wp_send.
Qed.
Lemma wp_rmd o p s : weak s -> wp (rmd server_root pcwd o p) weakT s.
Proof.
  intros W. unfold rmd. apply wp_bind, wp_get.
  destruct (complete_path _ _ _ _) as [d|] eqn:E; [|now apply wp_send]. apply complete_inside in E.
  apply wp_bind, wp_touch; [exact E|]. destruct (look _ d) as [[| |]|]; try (now apply wp_send).
  destruct (io_os o); apply wp_bind, wp_modify, wp_send; unfold weakT; (apply weak_disk; [exact W|now apply rmtree_outside|apply rmtree_links]).
Qed.
Lemma wp_dele o p s : weak s -> wp (dele server_root pcwd o p) weakT s.
Proof.
  intros W. unfold dele. apply wp_bind, wp_get.
  destruct (complete_path _ _ _ _) as [d|] eqn:E; [|now apply wp_send]. apply complete_inside in E.
  apply wp_bind, wp_touch; [exact E|]. destruct (look _ d) as [[| |]|]; try (now apply wp_send).
  destruct (io_os o); [|now apply wp_send]. apply wp_bind, wp_modify, wp_send; unfold weakT;
    (apply weak_disk; [exact W|now apply upd_outside|apply upd_links; discriminate]).
Qed.
Lemma wp_chdir p s : weak s -> wp (chdir server_root pcwd p) weakT s.
Proof.
  intros W. unfold chdir. apply wp_bind, wp_get. destruct (complete_path _ _ _ _) as [d|]; [|now apply wp_send].
  destruct W as (W1 & W2 & W3).
  apply wp_bind, wp_modify, wp_send; (split; [eexists; reflexivity|split; assumption]).
Qed.
Lemma wp_list o p s : weak s -> links_ok s -> wp (list_ server_root pcwd o p) weakT s.
Proof.
  intros W L. unfold list_. apply wp_bind. eapply wp_mono; [|apply (wp_initiate o links_ok); auto]. intros ? s1 [W1 L1].
  apply wp_bind, wp_get. destruct (writer s1); [|apply wp_bind, wp_send; [exact W1|now apply wp_finish]].
  destruct (complete_path _ _ _ _) as [d|] eqn:E; [|apply wp_bind, wp_send; [exact W1|now apply wp_finish]]. apply complete_inside in E.
  apply wp_bind, wp_send; [exact W1|].
  assert (X : wp (touch (Stat d);; (if io_net o then emit (SentList [last d []]) else stop);; finish) weakT s1).
  { apply wp_bind, wp_touch; [exact E|]. apply wp_bind. destruct (io_net o); [apply wp_emit_other; [discriminate|now apply wp_finish]|now apply wp_stop]. }
  destruct (look (disk s1) d) as [[| |]|]; try exact X. clear X.
  apply wp_bind, wp_touch; [exact E|]. destruct (io_os o); [|now apply wp_send].
  apply wp_bind. eapply wp_mono; [|apply (wp_each _ _ (fun s => s = s1)); [|reflexivity]].
  - intros ? s2 ->. apply wp_bind. destruct (io_net o); [apply wp_emit_other; [discriminate|now apply wp_finish]|now apply wp_stop].
  - intros n s2 ->. unfold stat_entry. apply wp_bind, wp_get. destruct (resolve _ _ _ _ _) as [q|] eqn:R; [|now apply wp_ret].
    apply wp_touch; [|reflexivity]. cbn. apply (resolve_inside _ _ (proj2 L1)) in R; [exact R|exact E|]. cbn. intuition discriminate.
Qed.
Lemma wp_nlst o p s : weak s -> wp (nlst server_root pcwd o p) weakT s.
Proof.
  intros W. unfold nlst. apply wp_bind. eapply wp_mono; [|apply (wp_initiate o (fun _ => True)); auto]. intros ? s1 [W1 _].
  apply wp_bind, wp_get. destruct (writer s1); [|apply wp_bind, wp_send; [exact W1|now apply wp_finish]].
  destruct (complete_path _ _ _ _) as [d|]; [|apply wp_bind, wp_send; [exact W1|now apply wp_finish]].
  destruct (match p with Some q => rooted q | None => false end).
  { apply wp_bind, wp_send; [exact W1|]. unfold close_data. apply wp_modify. exact W1. }
  destruct (io_glob o) as [ms|]; [|now apply wp_send]. apply wp_bind, wp_send; [exact W1|].
  apply wp_bind. eapply wp_mono; [|apply (wp_each _ _ (fun s => s = s1)); [|reflexivity]].
  - intros ? s2 ->. apply wp_bind. destruct (io_net o); [apply wp_emit_other; [discriminate|now apply wp_finish]|now apply wp_stop].
  - intros m s2 ->. unfold nlst_match. apply wp_bind, wp_get. destruct (canonicalize _ _ _) as [q|]; [|now apply wp_ret].
    destruct (starts_with q _) eqn:S; [|now apply wp_ret]. apply wp_touch; [|reflexivity]. now apply starts_inside.
Qed.
Lemma wp_pasv o s : weak s -> wp (pasv o) weakT s.
Proof.
  intros W. unfold pasv. apply wp_bind, wp_get. destruct (writer s); [now apply wp_send|].
  apply wp_bind, wp_modify. destruct (io_v4 o); [|now apply wp_stop]. apply wp_bind, wp_send; [exact W|].
  destruct (io_accept o); [now apply wp_modify|now apply wp_stop].
Qed.
Lemma wp_epsv o p s : weak s -> wp (epsv o p) weakT s.
Proof.
  intros W. unfold epsv. destruct (match p with Some _ => _ | None => _ end); [now apply wp_modify|].
  apply wp_bind, wp_get. destruct (writer s); [now apply wp_send|].
  apply wp_bind, wp_modify. apply wp_bind, wp_send; [exact W|].
  destruct (io_accept o); [now apply wp_modify|now apply wp_stop].
Qed.
Lemma wp_quit s : weak s -> wp quit weakT s.
Proof.
  intros W. unfold quit, close_data. apply wp_bind, wp_bind, wp_get.
  destruct (writer s); [apply wp_modify|apply wp_ret]; apply wp_bind, wp_send, wp_modify; exact W.
Qed.
Lemma wp_retr o p s : weak s -> wp (retr server_root pcwd o p) weakT s.
Proof.
  intros W. unfold retr. apply wp_bind. eapply wp_mono; [|apply (wp_initiate o (fun _ => True)); auto]. intros ? s1 [W1 _].
  apply wp_bind, wp_get. destruct (writer s1); [|apply wp_bind, wp_send; [exact W1|now apply wp_finish]].
  destruct (complete_path _ _ _ _) as [d|] eqn:E; [|apply wp_bind, wp_send; [exact W1|now apply wp_finish]]. apply complete_inside in E.
  destruct (look (disk s1) d) as [[|x|]|]; try (apply wp_bind, wp_send; [exact W1|now apply wp_finish]).
  apply wp_bind, wp_send; [exact W1|]. destruct (io_os o); [|now apply wp_send].
  apply wp_bind, wp_touch; [exact E|]. apply wp_bind. destruct (io_net o); [apply wp_emit_other; [discriminate|now apply wp_finish]|now apply wp_stop].
Qed.

(** STOR *)
Lemma wp_write o cs content s : weak s -> links_ok s -> ~ In ParentDir cs ->
  wp (write_file pcwd o (mkP true (map Normal root ++ cs)) content) (fun _ s => weak s /\ links_ok s) s.
Proof.
  intros W L NP. unfold write_file. apply wp_bind, wp_get. cbn [rooted comps].
  destruct (resolve _ _ _ _ _) as [q|] eqn:R; [|now apply wp_ret].
  apply (resolve_from_root _ root) in R; [|apply L|apply L|exact NP].
  assert (WR : forall x, q <> [] -> disk s q <> Some Dir -> (forall t, disk s q <> Some (Link t)) ->
    weak (set_disk s (upd (disk s) q (Some (File x)))) /\ links_ok (set_disk s (upd (disk s) q (Some (File x))))).
  { intros x Hq HD HL. split; [apply weak_disk; [exact W|now apply upd_outside|apply upd_links; discriminate]|].
    split; cbn [disk set_disk].
    - intros a b t Er Ha. unfold upd. destruct (place_eqb a q); [discriminate|]. now apply (proj1 L a b t).
    - apply no_escape_write; auto. apply L. }
  assert (K : forall v, look (disk s) q = v -> (v = None \/ exists x, v = Some (File x)) ->
    q <> [] /\ disk s q <> Some Dir /\ (forall t, disk s q <> Some (Link t))).
  { intros v E V. destruct q as [|n q]; [cbn in E; subst v; destruct V as [V|[x V]]; discriminate|]. cbn in E. rewrite E.
    split; [discriminate|]. destruct V as [->|[x ->]]; split; intros; discriminate. }
  destruct (look (disk s) q) as [[|x|t]|] eqn:E; try (now apply wp_ret);
    (destruct (K _ eq_refl) as (K1 & K2 & K3); [eauto|]; specialize (WR);
     apply wp_bind, wp_touch; [exact R|]; destruct (io_os o);
     [apply wp_bind, wp_modify, wp_ret; now apply WR|destruct (io_part o); [apply wp_bind, wp_modify, wp_ret; now apply WR|now apply wp_ret]]).
Qed.

Hypothesis root_ext : ext_supported (last root []) = false.

Lemma pfile_name_last cs n r : pfile_name (mkP r cs) = Some n -> exists l, cs = l ++ [Normal n].
Proof.
  unfold pfile_name. cbn [comps]. intros H. destruct (rev cs) as [|[| |m] l] eqn:E; try discriminate. injection H as ->.
  exists (rev l). rewrite <- (rev_involutive cs), E. reflexivity.
Qed.

Lemma wp_put o cs content s : weak s -> links_ok s -> ~ In ParentDir cs ->
  wp (put_file server_root pcwd ext_supported dng_name keep_orig o (mkP true cs) content) (fun _ => weak) s.
Proof.
  intros W L NP. unfold put_file. unfold skip1. cbn [rooted comps]. unfold pjoin, root_path. cbn [rooted comps].
  set (cs' := strip_cur cs). assert (NP' : ~ In ParentDir cs').
  { unfold cs', strip_cur. destruct cs as [|[| |n] cs]; try exact NP. intros I. apply NP. now right. }
  apply wp_bind. apply (wp_mono _ (fun _ s => weak s /\ links_ok s)).
  - intros [[|]|] s1 [W1 L1]; [now apply wp_ret| |now apply wp_ret].
    eapply wp_mono; [|now apply wp_write]. cbn. tauto.
  - unfold stor_file. destruct (pfile_name _) as [n|] eqn:N; [|now apply wp_ret].
    destruct (ext_supported n) eqn:X; [|now apply wp_ret].
    apply pfile_name_last in N as [l El]. cbn [rooted comps].
    assert (ER : exists m, l = map Normal root ++ m /\ ~ In ParentDir m).
    { destruct (list_eq_dec (fun a b : comp => ltac:(repeat decide equality)) cs' []) as [E0|NE].
      - exfalso. rewrite E0, app_nil_r in El. assert (EL : last root [] = n).
        { assert (G : root <> []) by (intros ->; destruct l; discriminate).
          destruct (exists_last G) as (r0 & z & ->). rewrite map_app in El. cbn in El. apply app_inj_tail in El as [_ E2].
          rewrite last_last. congruence. }
        rewrite EL in root_ext. congruence.
      - destruct (exists_last NE) as (m & z & E1). rewrite E1, app_assoc in El. apply app_inj_tail in El as [<- _].
        exists m. split; [reflexivity|]. intros I. apply NP'. rewrite E1. apply in_or_app. now left. }
    destruct ER as (m & -> & NM). rewrite El, removelast_last. rewrite <- app_assoc.
    apply wp_bind. eapply wp_mono; [|apply wp_write; [exact W|exact L|]].
    + intros b s1 H. now apply wp_ret.
    + intros I. apply in_app_or in I as [I|[I|[]]]; [auto|discriminate].
Qed.

Lemma invalid_false p : invalid_path p = false -> ~ In ParentDir (comps p).
Proof.
  unfold invalid_path. intros H I. assert (E : existsb (fun c => match c with ParentDir => true | _ => false end) (comps p) = true).
  { apply existsb_exists. now exists ParentDir. } congruence.
Qed.

Lemma wp_stor o p s : weak s -> links_ok s -> wp (stor server_root pcwd ext_supported dng_name keep_orig o p) weakT s.
Proof.
  intros W L. unfold stor. apply wp_bind. eapply wp_mono; [|apply (wp_initiate o links_ok); auto]. intros ? s1 [W1 L1].
  apply wp_bind, wp_get. destruct (reader s1); [|now apply wp_send].
  destruct (invalid_path p) eqn:I; [now apply wp_stop|]. apply invalid_false in I.
  apply wp_bind, wp_send; [exact W1|]. apply wp_bind, wp_modify. destruct (io_data o) as [data|]; [|now apply wp_stop].
  unfold close_data. apply wp_bind, wp_modify. apply wp_bind.
  destruct W1 as ((l & Ec) & W2).
  assert (EJ : exists cs, pjoin (cwd s1) p = mkP true cs /\ ~ In ParentDir cs).
  { rewrite Ec. unfold pjoin. destruct p as [[|] cs]; cbn [rooted comps] in *.
    - exists cs. auto.
    - eexists. split; [reflexivity|]. intros J. apply in_app_or in J as [J|J].
      + apply in_map_iff in J as (x & Ex & _). discriminate.
      + apply I. unfold strip_cur in J. destruct cs as [|[| |n] cs]; try exact J. now right. }
  destruct EJ as (cs & -> & NP).
  eapply wp_mono; [|apply wp_put; [|exact L1|exact NP]].
  - intros ok s2 W3. now apply wp_send.
  - split; [cbn; now exists l|exact W2].
Qed.

Lemma wp_login c s : weak s -> wp (login cfg c) weakT s.
Proof.
  intros W. unfold login. destruct c; [now apply wp_send|]. destruct (_ && _); [apply wp_bind, wp_modify, wp_send; exact W|].
  destruct (find _ _) as [[v [|y pw]]|]; [apply wp_bind, wp_modify, wp_send; exact W|apply wp_bind, wp_modify, wp_send; exact W|now apply wp_send].
Qed.
Lemma wp_common c s : weak s -> wp (common cfg c) weakT s.
Proof.
  intros W. destruct c; cbn [common]; try (now apply wp_send); [now apply wp_quit|apply wp_bind, wp_modify, wp_send; exact W|now apply wp_login].
Qed.

Lemma wp_handle o c s : weak s -> (follows_links c = true -> links_ok s) -> wp (handle o c) weakT s.
Proof.
  intros W L. unfold handle_cmd. apply wp_bind, wp_get. unfold dispatch.
  destruct (is_logged s).
  - destruct c; try (now apply wp_common); try (apply wp_bind, wp_modify, wp_send; exact W).
    + now apply wp_chdir.
    + now apply wp_list, L.
    + now apply wp_nlst.
    + now apply wp_mkd.
    + now apply wp_pasv.
    + now apply wp_epsv.
    + now apply wp_send.
    + now apply wp_retr.
    + now apply wp_rmd.
    + now apply wp_dele.
    + now apply wp_stor, L.
    + assert (W' : weak (match pparent (cwd s) with Some p => set_cwd s (mkP true (comps p)) | None => s end)).
      { destruct W as ((l & E) & W2). rewrite E. unfold pparent. cbn [comps rooted]. destruct l as [|n l]; [split; [now exists []|exact W2]|].
        cbn [map]. split; [|exact W2]. exists (removelast (n :: l)). cbn [set_cwd cwd comps]. f_equal.
        change (Normal n :: map Normal l) with (map Normal (n :: l)). generalize (n :: l). intros z. induction z as [|a z IH]; [reflexivity|].
        cbn. destruct z; [reflexivity|]. cbn in *. now rewrite IH. }
      apply wp_bind, wp_modify, wp_send; exact W'.
  - destruct (uname s); [destruct c|]; try (now apply wp_common).
    destruct (_ || _); [apply wp_bind, wp_modify, wp_send; exact W|now apply wp_send].
Qed.
End Inside.
