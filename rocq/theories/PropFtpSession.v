(** C18, C19: FTP sessions need a login and stay inside the served directory. *)
From Coq Require Import Ascii String List ZArith Bool.
From Verif Require Import Base Ftp FtpClient FtpClientSpec FtpLogin FtpInside FtpTop.
Import ListNotations.
Open Scope Z_scope.

(** A command that comes before a login has no effect but replies. *)
Theorem C18_login_required : forall cfg server_root pcwd ext dng keep f ins k e i,
  nth_error (fst (session cfg server_root pcwd ext dng keep ins (client_new f))) k = Some e -> nth_error ins k = Some i ->
  ~ logged_in cfg (commands_of (firstn k ins)) -> Forall (fun x => ~ serves x) e.
Proof. exact login_required. Qed.
Print Assumptions C18_login_required.

(** In every state that does not count as logged in, files stay as they are. *)
Theorem C18_no_change : forall cfg server_root pcwd ext dng keep o c s, is_logged s = false ->
  let '(e, s', _) := handle_cmd cfg server_root pcwd ext dng keep o c s in Forall (fun x => ~ serves x) e /\ disk s' = disk s.
Proof. exact not_logged_silent. Qed.
Print Assumptions C18_no_change.

(** The right credentials log in. *)
Theorem C18_login_works : forall cfg root pcwd ext dng keep f o1 o2 u p,
  known_user cfg u -> ~ is_anonymous cfg u -> p <> [] -> first_user (users cfg) u p ->
  exists s, session cfg root pcwd ext dng keep [Command o1 (User u); Command o2 (Pass p)] (client_new f) = ([[Reply 331]; [Reply 230]], s) /\
    is_logged s = true /\ uname s = Some u.
Proof. exact login_works. Qed.
Print Assumptions C18_login_works.

(** On a server that allows anonymous access, any password opens any account. *)
Theorem C18_any_password_refuted : exists cfg cmds, users cfg = [(str "admin", str "secret")] /\
  fst (session cfg (root_path [r_]) [] (fun _ => false) (fun n => n) true cmds (client_new (fs_plain false))) =
    [[Reply 331]; [Reply 230]; [Acc (MkDir [r_; str "d"]); Reply 257]] /\
  commands_of cmds = [User (str "admin"); Pass (str "wrong"); Mkd (mkP false [Normal (str "d")])].
Proof. exact any_password. Qed.
Print Assumptions C18_any_password_refuted.

(** A command sent after QUIT still takes effect. *)
Theorem C18_after_quit_refuted : exists cs, nth 1 cs EmptyString = "QUIT"%string /\
  nth 2 (fst (demo [r_] (fs_plain false) cs)) [] = [Acc (MkDir [r_; str "d"])].
Proof. exact after_quit. Qed.
Print Assumptions C18_after_quit_refuted.

(** A listing is refused before and accepted after the password. *)
Example C18_example :
  fst (session (mkC [(str "eve", str "pw")] false) (root_path [r_]) [] (fun _ => false) (fun n => n) true
    (map cmd ["MKD d"; "USER eve"; "MKD d"; "PASS no"; "MKD d"; "PASS pw"; "MKD d"]%string) (client_new (fs_plain false))) =
  [[Reply 530]; [Reply 331]; [Reply 530]; [Reply 530]; [Reply 530]; [Reply 230]; [Acc (MkDir [r_; str "d"]); Reply 257]].
Proof. vm_compute. reflexivity. Qed.

(** One command from any session state.  Only STOR and LIST, which follow links
    of the served tree, need that these do not lead out of it. *)
Theorem C19_step_inside : forall cfg root pcwd ext dng keep o c s e s' r,
  ext (last root []) = false -> plain_cwd (cwd s) ->
  (follows_links c = true -> path_clear (disk s) root /\ no_escape (disk s) root) ->
  handle_cmd cfg (root_path root) pcwd ext dng keep o c s = (e, s', r) ->
  (forall a, In (Acc a) e -> inside root (target a)) /\ same_outside root (disk s) (disk s') /\
  no_new_links (disk s) (disk s') /\ plain_cwd (cwd s').
Proof. exact step_inside. Qed.
Print Assumptions C19_step_inside.

(** Whole sessions, with others changing the file system between commands. *)
Theorem C19_session_inside : forall cfg root pcwd ext dng keep, ext (last root []) = false ->
  forall ins s, plain_cwd (cwd s) -> path_clear (disk s) root -> tame (disk s) root -> Forall (good_input root) ins ->
  (forall e a, In e (fst (session cfg (root_path root) pcwd ext dng keep ins s)) -> In (Acc a) e -> inside root (target a)) /\
  ((forall f, ~ In (Disturb f) ins) ->
   same_outside root (disk s) (disk (snd (session cfg (root_path root) pcwd ext dng keep ins s)))).
Proof. exact session_inside. Qed.
Print Assumptions C19_session_inside.

(** Bytes sent to a client are the content of a file inside the root. *)
Theorem C19_sent_inside : forall cfg root pcwd ext dng keep o c s e s' r x,
  handle_cmd cfg (root_path root) pcwd ext dng keep o c s = (e, s', r) -> In (Sent x) e ->
  exists q, inside root q /\ look (disk s) q = Some (File x).
Proof. exact sent_inside. Qed.
Print Assumptions C19_sent_inside.

(** A relative server root makes every path argument invalid. *)
Theorem C19_relative_root_refuted : forall root pcwd f p, rooted root = false -> complete_path root pcwd f p = None.
Proof. exact relative_root. Qed.
Print Assumptions C19_relative_root_refuted.

(** STOR follows a link out of the served directory. *)
Theorem C19_link_escape_refuted : exists f cs,
  path_clear f [r_] /\ In [Reply 125; Acc (WriteFile [str "x"]); Reply 226] (fst (demo [r_] f cs)).
Proof. exact link_escape. Qed.
Print Assumptions C19_link_escape_refuted.

(** Replies reveal whether directories outside exist. *)
Theorem C19_existence_leak_refuted : exists f g cs,
  (forall p, inside [r_] p -> f p = g p) /\ fst (demo [r_] f cs) <> fst (demo [r_] g cs).
Proof. exact existence_leak. Qed.
Print Assumptions C19_existence_leak_refuted.

(** A client can remove the served directory itself. *)
Theorem C19_root_removed_refuted : exists f cs, f [r_] = Some Dir /\ disk (snd (demo [r_] f cs)) [r_] = None.
Proof. exact root_removed. Qed.
Print Assumptions C19_root_removed_refuted.

(** If the served directory's name ends like a raw file, STOR / writes a DNG next to it. *)
Theorem C19_root_name_refuted : exists root f cs, path_clear f root /\ tame f root /\
  In [Reply 125; Acc (WriteFile [str "x.dng"]); Reply 451] (fst (demo root f cs)) /\ ~ inside root [str "x.dng"].
Proof. exact root_name_escape. Qed.
Print Assumptions C19_root_name_refuted.

(** Attempts to climb out, then a store inside. *)
Example C19_example :
  fst (demo [r_] (fs_plain true) ["USER bob"; "MKD ../etc/d"; "MKD /../../r/../r/d"; "CWD d"; "PASV"; "STOR f"; "CDUP"; "RMD d/../../etc"]%string) =
  [[Reply 230]; [Reply 550]; [Acc (MkDir [r_; str "d"]); Reply 257]; [Reply 250]; [Reply 227];
   [Reply 125; Acc (WriteFile [r_; str "d"; str "f"]); Reply 226]; [Reply 250]; [Reply 550]].
Proof. vm_compute. reflexivity. Qed.
