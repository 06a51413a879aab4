(** Specification of FTP sessions: who is logged in and where accesses may go. *)
From Coq Require Import Ascii String List ZArith Bool.
From Verif Require Import Base Ftp FtpClient.
Import ListNotations.
Open Scope Z_scope.

(** ** login *)
(** the first entry for [u] has password [pw] *)
Definition first_user (us : list (bytes * bytes)) (u pw : bytes) : Prop :=
  exists a b, us = a ++ (u, pw) :: b /\ ~ In u (map fst a).
Definition is_anonymous (cfg : config) (u : bytes) : Prop := anonymous cfg = true /\ u = str "anonymous".
(** USER [u] selects an account *)
Definition known_user (cfg : config) (u : bytes) : Prop := u <> [] /\ (is_anonymous cfg u \/ In u (map fst (users cfg))).
(** no password is needed for [u] *)
Definition free_user (cfg : config) (u : bytes) : Prop := ~ is_anonymous cfg u /\ first_user (users cfg) u [].
(** PASS [p] is accepted for [u]; see the note on anonymous servers in DESIGN.md *)
Definition pass_ok (cfg : config) (u p : bytes) : Prop := anonymous cfg = true \/ In (u, p) (users cfg).

(** the commands so far log a user in: after the last USER that selected an
    account, either that account needs no password or an accepted PASS followed *)
Definition logged_in (cfg : config) (cmds : list command) : Prop :=
  exists pre u rest, cmds = pre ++ User u :: rest /\ known_user cfg u /\
    (forall v, In (User v) rest -> ~ known_user cfg v) /\
    (free_user cfg u \/ exists p, In (Pass p) rest /\ pass_ok cfg u p).

Definition commands_of (ins : list input) : list command :=
  flat_map (fun i => match i with Command _ c => [c] | Disturb _ => [] end) ins.

(** the effects of a command on served data *)
Definition serves (e : event) : Prop := match e with Reply _ => False | _ => True end.

(** ** containment *)
Definition inside (root p : place) : Prop := exists rel, p = root ++ rel.
Definition target (a : access) : place :=
  match a with Stat p | ReadDir p | ReadFile p | MkDir p | RmTree p | RmFile p | WriteFile p => p end.
Definition root_path (root : place) : pth := mkP true (map Normal root).

(** no directory on the way to the root is a link *)
Definition path_clear (f : fs) (root : place) : Prop :=
  forall a b t, root = a ++ b -> a <> [] -> f a <> Some (Link t).
(** every link in the served tree leads, if anywhere, into the served tree *)
Definition no_escape (f : fs) (root : place) : Prop :=
  forall d n t, inside root d -> f (d ++ [n]) = Some (Link t) ->
  forall create k p, resolve create f k (if rooted t then [] else d) (comps t) = Some p -> inside root p.
(** a condition on the links themselves: no "..", and absolute links start with the root *)
Definition tame (f : fs) (root : place) : Prop :=
  forall d n t, inside root d -> f (d ++ [n]) = Some (Link t) ->
  ~ In ParentDir (comps t) /\ (rooted t = true -> exists cs, comps t = map Normal root ++ cs).

Definition same_outside (root : place) (f g : fs) : Prop := forall p, ~ inside root p -> g p = f p.
Definition no_new_links (f g : fs) : Prop := forall p t, g p = Some (Link t) -> f p = Some (Link t).
Definition plain_cwd (p : pth) : Prop := exists l, p = mkP true (map Normal l).
(** commands that may follow links of the served tree *)
Definition follows_links (c : command) : bool := match c with Stor _ | List_ _ => true | _ => false end.
(** what others may do to the file system between two commands *)
Definition good_input (root : place) (i : input) : Prop :=
  match i with Command _ _ => True | Disturb f => path_clear f root /\ tame f root end.
