(** One FTP session: embedftp/src/client.rs, with the STOR callback of
    bin/dnglab/dnglab-lib/src/ftpconv.rs:24-60.

    A file system maps canonical places to nodes.  Everything the outside world
    decides (data connections, directory order, glob matches, failures of file
    operations, received bytes, the bytes a conversion produces) is an input of
    each command.  Reply texts are reduced to their codes.  A control reply
    fails once the control connection is closed; any failure ends the session.
    Listings are reduced to the names they show. *)
From Coq Require Import Ascii String List ZArith Bool.
From Verif Require Import Base Ftp.
Import ListNotations.
Open Scope Z_scope.

(** ** file system *)
Definition place := list name.
Inductive node := Dir | File (content : bytes) | Link (target : pth).
Definition fs := place -> option node.
Definition name_eqb : name -> name -> bool := bytes_eqb.
Fixpoint place_eqb (a b : place) : bool :=
  match a, b with [], [] => true | x :: a, y :: b => name_eqb x y && place_eqb a b | _, _ => false end.
Fixpoint prefixb (a b : place) : bool :=
  match a, b with [], _ => true | x :: a, y :: b => name_eqb x y && prefixb a b | _ :: _, [] => false end.

(** the top directory always exists *)
Definition look (f : fs) (p : place) : option node := match p with [] => Some Dir | _ => f p end.
Definition upd (f : fs) (p : place) (v : option node) : fs := fun q => if place_eqb q p then v else f q.
(** removal of a tree, except of what [kept] says survived *)
Definition rmtree (f : fs) (p : place) (kept : place -> bool) : fs := fun q => if prefixb p q && negb (kept q) then None else f q.

(** POSIX path resolution with at most [fuel] links.  With [create] the last
    component may be missing, as for open(O_CREAT). *)
Fixpoint resolve (create : bool) (f : fs) (fuel : nat) : place -> list comp -> option place :=
  fix go (cur : place) (cs : list comp) {struct cs} : option place :=
  match cs with
  | [] => Some cur
  | CurDir :: cs => go cur cs
  | ParentDir :: cs => go (removelast cur) cs
  | Normal n :: cs =>
    match f (cur ++ [n]) with
    | None => if create then match cs with [] => Some (cur ++ [n]) | _ => None end else None
    | Some Dir => go (cur ++ [n]) cs
    | Some (File _) => match cs with [] => Some (cur ++ [n]) | _ => None end
    | Some (Link t) =>
      match fuel with
      | O => None
      | S fuel => resolve create f fuel (if rooted t then [] else cur) (comps t ++ cs)
      end
    end
  end.
Definition max_links : nat := 40.

(** Path::join: a rooted argument replaces the path *)
Definition strip_cur (cs : list comp) : list comp := match cs with CurDir :: cs => cs | _ => cs end.
Definition pjoin (a b : pth) : pth := if rooted b then b else mkP (rooted a) (comps a ++ strip_cur (comps b)).
(** Path::parent, Path::file_name *)
Definition pparent (p : pth) : option pth := match comps p with [] => None | cs => Some (mkP (rooted p) (removelast cs)) end.
Definition pfile_name (p : pth) : option name := match rev (comps p) with Normal n :: _ => Some n | _ => None end.
(** path.iter().skip(1): a rooted path loses its root *)
Definition skip1 (p : pth) : list comp := if rooted p then comps p else tl (comps p).
(** starts_with, on a canonical place *)
Definition comp_eqb (a b : comp) : bool :=
  match a, b with
  | CurDir, CurDir => true | ParentDir, ParentDir => true | Normal x, Normal y => name_eqb x y | _, _ => false
  end.
Fixpoint comps_prefix (a b : list comp) : bool :=
  match a, b with [], _ => true | x :: a, y :: b => comp_eqb x y && comps_prefix a b | _ :: _, [] => false end.
Definition starts_with (p : place) (root : pth) : bool := rooted root && comps_prefix (comps root) (map Normal p).

(** ** what a session does *)
Inductive access := Stat (p : place) | ReadDir (p : place) | ReadFile (p : place)
| MkDir (p : place) | RmTree (p : place) | RmFile (p : place) | WriteFile (p : place).
Inductive event := Reply (code : Z) | Sent (content : bytes) | SentList (names : list name) | Acc (a : access).

(** server configuration, config.rs *)
Record config := mkC { users : list (bytes * bytes); anonymous : bool }.

(** decisions of the outside world for one command *)
Record io := mkIo {
  io_connect : bool;              (* active data connection succeeds *)
  io_accept : bool;               (* passive listener is bound and a peer connects *)
  io_v4 : bool;                   (* local address is IPv4 *)
  io_net : bool;                  (* writing to the data connection succeeds *)
  io_data : option bytes;         (* received data *)
  io_entries : list name;         (* directory entries *)
  io_glob : option (list pth);    (* glob matches, None for a bad pattern *)
  io_os : bool;                   (* a possible file operation succeeds *)
  io_kept : place -> bool;        (* survivors of an interrupted tree removal *)
  io_part : option bytes;         (* left by an interrupted write *)
  io_conv : bytes * bool          (* bytes written by a conversion, and whether it succeeds *)
}.

Record client := mkClient {
  disk : fs; cwd : pth; port : option Z; reader : bool; writer : bool;
  uname : option bytes; waiting : bool; closed : bool; ttype : transfer_type }.
Definition set_disk s v := mkClient v (cwd s) (port s) (reader s) (writer s) (uname s) (waiting s) (closed s) (ttype s).
Definition set_cwd s v := mkClient (disk s) v (port s) (reader s) (writer s) (uname s) (waiting s) (closed s) (ttype s).
Definition set_port s v := mkClient (disk s) (cwd s) v (reader s) (writer s) (uname s) (waiting s) (closed s) (ttype s).
Definition set_conn s r w := mkClient (disk s) (cwd s) (port s) r w (uname s) (waiting s) (closed s) (ttype s).
Definition set_user s u w := mkClient (disk s) (cwd s) (port s) (reader s) (writer s) u w (closed s) (ttype s).
Definition set_closed s := mkClient (disk s) (cwd s) (port s) (reader s) (writer s) (uname s) (waiting s) true (ttype s).
Definition set_type s t := mkClient (disk s) (cwd s) (port s) (reader s) (writer s) (uname s) (waiting s) (closed s) t.

(** computations: events, new state, result; None ends the session *)
Definition M (A : Type) : Type := client -> list event * client * option A.
Definition ret {A} (a : A) : M A := fun s => ([], s, Some a).
Definition stop {A} : M A := fun s => ([], s, None).
Definition mbind {A B} (m : M A) (k : A -> M B) : M B := fun s =>
  match m s with
  | (e, s, Some a) => match k a s with (e', s, r) => (e ++ e', s, r) end
  | (e, s, None) => (e, s, None)
  end.
Notation "'let!' x := m 'in' k" := (mbind m (fun x => k)) (at level 200, x name, m at level 100, k at level 200).
Notation "m ;; k" := (mbind m (fun _ => k)) (at level 100, right associativity).
Definition get_ : M client := fun s => ([], s, Some s).
Definition modify (g : client -> client) : M unit := fun s => ([], g s, Some tt).
Definition emit (e : event) : M unit := fun s => ([e], s, Some tt).
Definition touch (a : access) : M unit := emit (Acc a).
(** client.rs send *)
Definition send (code : Z) : M unit := fun s => if closed s then ([], s, None) else ([Reply code], s, Some tt).
Fixpoint each {A} (l : list A) (g : A -> M unit) : M unit := match l with [] => ret tt | a :: l => g a ;; each l g end.

Section Session.
Variable cfg : config.
Variable server_root : pth.
Variable pcwd : place.                    (** working directory of the process *)
Variable ext_supported : name -> bool.    (** is_ext_supported of the name's extension, ftpconv.rs:102-106 *)
Variable dng_name : name -> name.         (** with_extension("dng") *)
Variable keep_orig : bool.

(** tokio::fs::canonicalize *)
Definition canonicalize (f : fs) (p : pth) : option place :=
  match rooted p, comps p with
  | false, [] => None
  | _, _ => resolve false f max_links (if rooted p then [] else pcwd) (comps p)
  end.

(** complete_path, client.rs:260-273 *)
Definition complete_path (f : fs) (p : pth) : option place :=
  let directory := pjoin server_root (if rooted p then mkP false (skip1 p) else p) in
  match canonicalize f directory with
  | Some d => if starts_with d server_root then Some d else None
  | None => None
  end.

(** initiate_data_connection, client.rs:234-253 *)
Definition initiate (o : io) : M unit :=
  let! s := get_ in
  match port s with
  | Some _ => if io_connect o then modify (fun s => set_conn s true true) else send 425
  | None => ret tt
  end.
Definition close_data : M unit := modify (fun s => set_conn s false false).

(** mkd, client.rs:275-299 *)
Definition mkd (o : io) (path : pth) : M unit :=
  let! s := get_ in
  let full := pjoin (cwd s) path in
  match pparent full with
  | Some parent =>
    match complete_path (disk s) parent with
    | Some dir =>
      match look (disk s) dir, pfile_name full with
      | Some Dir, Some n =>
        touch (MkDir (dir ++ [n])) ;;
        match disk s (dir ++ [n]), io_os o with
        | None, true => modify (fun s => set_disk s (upd (disk s) (dir ++ [n]) (Some Dir))) ;; send 257
        | _, _ => send 550
        end
      | _, _ => send 550
      end
    | None => send 550
    end
  | None => send 550
  end.

(** rmd, client.rs:301-316 *)
Definition rmd (o : io) (directory : pth) : M unit :=
  let! s := get_ in
  match complete_path (disk s) (pjoin (cwd s) directory) with
  | Some dir =>
    touch (RmTree dir) ;;
    match look (disk s) dir with
    | Some Dir =>
      if io_os o then modify (fun s => set_disk s (rmtree (disk s) dir (fun _ => false))) ;; send 250
      else modify (fun s => set_disk s (rmtree (disk s) dir (io_kept o))) ;; send 550
    | _ => send 550
    end
  | None => send 550
  end.

(** dele, client.rs:318-331 *)
Definition dele (o : io) (file : pth) : M unit :=
  let! s := get_ in
  match complete_path (disk s) (pjoin (cwd s) file) with
  | Some p =>
    touch (RmFile p) ;;
    match look (disk s) p, io_os o with
    | Some (File _), true => modify (fun s => set_disk s (upd (disk s) p None)) ;; send 250
    | _, _ => send 550
    end
  | None => send 550
  end.

(** strip_prefix and prefix_slash, client.rs:333-336 and 739-743 *)
Definition strip_prefix (p : place) : pth := mkP true (map Normal (skipn (length (comps server_root)) p)).

(** cwd, client.rs:338-358 *)
Definition chdir (directory : pth) : M unit :=
  let! s := get_ in
  match complete_path (disk s) (pjoin (cwd s) directory) with
  | Some dir => modify (fun s => set_cwd s (strip_prefix dir)) ;; send 250
  | None => send 550
  end.

(** add_file_info: metadata follows links *)
Definition stat_entry (dir : place) (n : name) : M unit :=
  let! s := get_ in
  match resolve false (disk s) max_links dir [Normal n] with
  | Some p => touch (Stat p)
  | None => ret tt
  end.

(** list, client.rs:360-403 *)
Definition finish : M unit :=
  let! s := get_ in if writer s then close_data ;; send 226 else ret tt.
Definition list_ (o : io) (path : option pth) : M unit :=
  initiate o ;;
  let! s := get_ in
  if writer s then
    match complete_path (disk s) (pjoin (cwd s) (match path with Some p => p | None => mkP false [] end)) with
    | Some p =>
      send 125 ;;
      match look (disk s) p with
      | Some Dir =>
        touch (ReadDir p) ;;
        if io_os o then
          each (io_entries o) (stat_entry p) ;; (if io_net o then emit (SentList (io_entries o)) else stop) ;; finish
        else send 501
      | _ => touch (Stat p) ;; (if io_net o then emit (SentList [last p []]) else stop) ;; finish
      end
    | None => send 501 ;; finish
    end
  else send 426 ;; finish.

(** nlst, client.rs:405-465; the traversal made by glob itself is not an access here *)
Definition nlst_match (m : pth) : M unit :=
  let! s := get_ in
  match canonicalize (disk s) m with
  | Some p => if starts_with p server_root then touch (Stat p) else ret tt
  | None => ret tt
  end.
Definition nlst (o : io) (path : option pth) : M unit :=
  initiate o ;;
  let! s := get_ in
  if writer s then
    match complete_path (disk s) (cwd s) with
    | Some _ =>
      if match path with Some p => rooted p | None => false end then send 501 ;; close_data
      else match io_glob o with
      | None => send 501
      | Some ms => send 125 ;; each ms nlst_match ;; (if io_net o then emit (SentList []) else stop) ;; finish
      end
    | None => send 550 ;; finish
    end
  else send 426 ;; finish.

(** pasv, client.rs:467-514 *)
Definition pasv (o : io) : M unit :=
  let! s := get_ in
  if writer s then send 125
  else
    modify (fun s => set_port s None) ;;
    if io_v4 o then send 227 ;; if io_accept o then modify (fun s => set_conn s true true) else stop
    else stop.
(** epsv, client.rs:516-556 *)
Definition epsv (o : io) (proto : option bytes) : M unit :=
  if match proto with Some p => bytes_eqb (map upper p) (str "ALL") | None => false end
  then modify (fun s => set_conn s (reader s) false)
  else
    let! s := get_ in
    if writer s then send 125
    else
      modify (fun s => set_port s None) ;;
      send 229 ;; if io_accept o then modify (fun s => set_conn s true true) else stop.

(** quit, client.rs:558-568 *)
Definition quit : M unit :=
  (let! s := get_ in if writer s then close_data else ret tt) ;; send 221 ;; modify set_closed.

(** retr, client.rs:570-627 *)
Definition retr (o : io) (path : pth) : M unit :=
  initiate o ;;
  let! s := get_ in
  if writer s then
    match complete_path (disk s) (pjoin (cwd s) path) with
    | Some p =>
      match look (disk s) p with
      | Some (File content) =>
        send 125 ;;
        if io_os o then touch (ReadFile p) ;; (if io_net o then emit (Sent content) else stop) ;; finish
        else send 451
      | _ => send 451 ;; finish
      end
    | None => send 451 ;; finish
    end
  else send 426 ;; finish.

(** invalid_path, client.rs:722-729 *)
Definition invalid_path (p : pth) : bool := existsb (fun c => match c with ParentDir => true | _ => false end) (comps p).

(** tokio::fs::write and File::create with the bytes written *)
Definition write_file (o : io) (p : pth) (content : bytes) : M bool :=
  let! s := get_ in
  match resolve true (disk s) max_links (if rooted p then [] else pcwd) (comps p) with
  | Some q =>
    match look (disk s) q with
    | Some Dir | Some (Link _) => ret false   (* a resolved place is never a link *)
    | _ =>
      touch (WriteFile q) ;;
      if io_os o then modify (fun s => set_disk s (upd (disk s) q (Some (File content)))) ;; ret true
      else match io_part o with
        | Some part => modify (fun s => set_disk s (upd (disk s) q (Some (File part)))) ;; ret false
        | None => ret false
        end
    end
  | None => ret false
  end.

(** FtpState::stor_file, ftpconv.rs:24-60: Some handled or None for an error *)
Definition stor_file (o : io) (p : pth) : M (option bool) :=
  match pfile_name p with
  | Some n =>
    if ext_supported n then
      let! w := write_file o (mkP (rooted p) (removelast (comps p) ++ [Normal (dng_name n)])) (fst (io_conv o)) in
      ret (if w && snd (io_conv o) then Some (negb keep_orig) else None)
    else ret (Some false)
  | None => ret (Some false)
  end.

(** put_file, client.rs:662-669 *)
Definition put_file (o : io) (path : pth) (content : bytes) : M bool :=
  let p := pjoin server_root (mkP false (skip1 path)) in
  let! handled := stor_file o p in
  match handled with
  | None => ret false
  | Some true => ret true
  | Some false => write_file o p content
  end.

(** stor, client.rs:629-659 *)
Definition stor (o : io) (path : pth) : M unit :=
  initiate o ;;
  let! s := get_ in
  if reader s then
    if invalid_path path then stop
    else
      send 125 ;;
      modify (fun s => set_conn s false (writer s)) ;;
      match io_data o with
      | None => stop
      | Some data =>
        close_data ;;
        let! ok := put_file o (pjoin (cwd s) path) data in
        send (if ok then 226 else 451)
      end
  else send 426.

Definition is_logged (s : client) : bool := match uname s with Some _ => negb (waiting s) | None => false end.

(** USER, client.rs:176-213 *)
Definition login (content : bytes) : M unit :=
  match content with
  | [] => send 501
  | _ =>
    if anonymous cfg && bytes_eqb content (str "anonymous")
    then modify (fun s => set_user s (Some content) true) ;; send 331
    else match find (fun u => bytes_eqb (fst u) content) (users cfg) with
      | None => send 530
      | Some (_, []) => modify (fun s => set_user s (Some content) false) ;; send 230
      | Some (_, _) => modify (fun s => set_user s (Some content) true) ;; send 331
      end
  end.

(** the commands accepted in every state, client.rs:165-228 *)
Definition common (c : command) : M unit :=
  match c with
  | Auth => send 502
  | Quit => quit
  | Syst => send 215
  | Type_ t => modify (fun s => set_type s t) ;; send 200
  | User content => login content
  | Feat => send 211
  | NoOp => send 200
  | Unknown _ => send 500
  | _ => send 530
  end.

(** handle_cmd, client.rs:94-230 *)
Definition dispatch (o : io) (c : command) (s : client) : M unit :=
  if is_logged s then
    match c with
    | Cwd d => chdir d
    | List_ p => list_ o p
    | Nlst p => nlst o p
    | Pasv => pasv o
    | Epsv p => epsv o p
    | Port p => modify (fun s => set_port s (Some p)) ;; send 200
    | Pwd => send 257
    | Retr f => retr o f
    | Stor f => stor o f
    | CdUp => modify (fun s => match pparent (cwd s) with Some p => set_cwd s (mkP true (comps p)) | None => s end) ;; send 250
    | Mkd p => mkd o p
    | Rmd p => rmd o p
    | Dele p => dele o p
    | _ => common c
    end
  else match uname s, c with
  | Some u, Pass content =>
    if anonymous cfg || existsb (fun x => bytes_eqb (fst x) u && bytes_eqb (snd x) content) (users cfg)
    then modify (fun s => set_user s (uname s) false) ;; send 230
    else send 530
  | _, _ => common c
  end.
Definition handle_cmd (o : io) (c : command) : M unit := let! s := get_ in dispatch o c s.

(** Client::new, client.rs:65-84 *)
Definition client_new (f : fs) : client := mkClient f (mkP true []) None false false None false false AsciiT.

(** A session: commands in order; between commands others may change the file
    system.  Each input yields its events; an error ends the session. *)
Inductive input := Command (o : io) (c : command) | Disturb (f : fs).
Fixpoint session (ins : list input) (s : client) : list (list event) * client :=
  match ins with
  | [] => ([], s)
  | Command o c :: ins =>
    match handle_cmd o c s with
    | (e, s, Some _) => let '(es, s) := session ins s in (e :: es, s)
    | (e, s, None) => ([e], s)
    end
  | Disturb f :: ins => let '(es, s) := session ins (set_disk s f) in ([] :: es, s)
  end.
End Session.
