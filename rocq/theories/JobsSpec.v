(** Specification of conversion jobs. *)
From Coq Require Import Ascii String List ZArith Bool.
From Verif Require Import Base Ftp FtpClient Plan Jobs.
Import ListNotations.
Open Scope Z_scope.

(** inodes in use are below the allocation mark *)
Definition wf_disk (d : disk_) : Prop := forall p i, names d p = Some (Ino i) -> (i < next d)%nat.
(** the entry [q] and, if it is a file, its content are the same *)
Definition same (d d' : disk_) (q : pth) : Prop :=
  names d' q = names d q /\ forall i, names d q = Some (Ino i) -> data d' i = data d i.
(** content of the file a path leads to *)
Definition read (d : disk_) (p : pth) : option bytes :=
  match follow (names d) 40 p with Some (_, Some (Ino i)) => Some (data d i) | _ => None end.
Definition holds (d : disk_) (p : pth) (c : bytes) : Prop := exists i, names d p = Some (Ino i) /\ data d i = c.

(** entries no job of the batch may change: never an output, or an existing
    output of a job without override *)
Definition spared (d0 : disk_) (ts : list task) (q : pth) : Prop :=
  forall t, In t ts -> t_output t = q -> t_replace t = false /\ names d0 q <> None.
(** every entry on the way from [p] to its file is spared *)
Inductive way (d0 : disk_) (ts : list task) : pth -> Prop :=
| way_end p : spared d0 ts p -> (forall t, names d0 p <> Some (DLink t)) -> way d0 ts p
| way_link p t : spared d0 ts p -> names d0 p = Some (DLink t) -> way d0 ts t -> way d0 ts p.

(** what a finished job may report, given the content [c] of its input *)
Definition reported (d0 : disk_) (t : task) (c : bytes) (r : outcome) (d : disk_) : Prop :=
  match r with
  | JOk => exists ws final, t_conv t c = (ws, EDone final) /\ holds d (t_output t) final
  | JExists => names d0 (t_output t) <> None /\ names d (t_output t) = names d0 (t_output t)
  | JConv false => names d (t_output t) = None
  | JConv true => True
  | JIo => True
  | JAbort => exists ws, t_conv t c = (ws, EPanic)
  end.
(** the outcome when no operation fails *)
Definition expected (d0 : disk_) (t : task) (c : bytes) : outcome :=
  match names d0 (t_output t), t_replace t with
  | Some _, false => JExists
  | _, _ => match snd (t_conv t c) with EDone _ => JOk | EFail => JConv false | EPanic => JAbort end
  end.

(** entries not reached through the output *)
Definition clear_of (d0 : disk_) (out q : pth) : Prop :=
  q <> out /\ forall e n, follow (names d0) 40 out = Some (e, n) -> q <> e /\ forall i, n = Some (Ino i) -> names d0 q <> Some (Ino i).
