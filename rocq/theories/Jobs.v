(** The jobs of a batch run and their effects on the file system:
    bin/dnglab/dnglab-lib/src/jobs/raw2dng.rs, jobs/process_raw.rs,
    jobs/extractraw.rs, and the loop of convert.rs:62-100.

    A disk maps paths to directory entries and inodes to contents.  A path
    stands for an entry of an existing directory; directories on the way are
    resolved.  A job is a process that does one file operation after the other.
    Each operation may fail, a crash may come between any two.  Reading the
    input is one operation.  What a conversion computes is a parameter. *)
From Coq Require Import Ascii String List ZArith Bool.
From Verif Require Import Base Ftp FtpClient Plan.
Import ListNotations.
Open Scope Z_scope.

(** ** disks *)
Inductive dnode := Ino (i : nat) | DDir | DLink (target : pth).
Record disk_ := mkD { names : pth -> option dnode; data : nat -> bytes; next : nat }.
Definition set_name (f : pth -> option dnode) (p : pth) (v : option dnode) : pth -> option dnode := fun q => if pth_eqb q p then v else f q.
Definition set_data (f : nat -> bytes) (i : nat) (v : bytes) : nat -> bytes := fun j => if (j =? i)%nat then v else f j.
(** the entry a path leads to when links are followed; None also after too many links *)
Fixpoint follow (f : pth -> option dnode) (fuel : nat) (p : pth) : option (pth * option dnode) :=
  match f p with
  | Some (DLink t) => match fuel with O => None | S fuel => follow f fuel t end
  | v => Some (p, v)
  end.

(** ** file operations *)
Inductive action :=
| AExists (p : pth)               (* Path::exists *)
| AUnlink (p : pth)               (* remove_file *)
| ACreateNew (p : pth)            (* OpenOptions::create_new *)
| ACreate (p : pth)               (* File::create *)
| ALock (i : nat)                 (* try_lock *)
| AWrite (i : nat) (c : bytes)    (* writes that leave the file with content c *)
| ARead (p : pth)                 (* read a file *)
| AMtime (i : nat).               (* set_modified *)
Inductive answer := Yes | No | Exists_ | Failed | Handle (i : nat) | Content (c : bytes).

(** [fault]: the operation fails for a reason outside the model *)
Definition exec (a : action) (fault : bool) (d : disk_) : answer * disk_ :=
  match a with
  | AExists p => (if fault then No else match follow (names d) 40 p with Some (_, Some _) => Yes | _ => No end, d)
  | AUnlink p =>
    match fault, names d p with
    | false, Some (Ino _) | false, Some (DLink _) => (Yes, mkD (set_name (names d) p None) (data d) (next d))
    | _, _ => (Failed, d)
    end
  | ACreateNew p =>
    if fault then (Failed, d) else
    match names d p with
    | Some _ => (Exists_, d)
    | None => (Handle (next d), mkD (set_name (names d) p (Some (Ino (next d)))) (set_data (data d) (next d) []) (S (next d)))
    end
  | ACreate p =>
    if fault then (Failed, d) else
    match follow (names d) 40 p with
    | Some (_, Some (Ino i)) => (Handle i, mkD (names d) (set_data (data d) i []) (next d))
    | Some (q, None) => (Handle (next d), mkD (set_name (names d) q (Some (Ino (next d)))) (set_data (data d) (next d) []) (S (next d)))
    | _ => (Failed, d)
    end
  | ALock _ | AMtime _ => (if fault then Failed else Yes, d)
  | AWrite i c => (if fault then Failed else Yes, if fault then d else mkD (names d) (set_data (data d) i c) (next d))
  | ARead p =>
    (if fault then Failed else match follow (names d) 40 p with Some (_, Some (Ino i)) => Content (data d i) | _ => Failed end, d)
  end.

(** ** processes *)
(** why a job ended; [JConv logged] is a conversion error, [logged] if the
    output could not be removed, [JAbort] a panic *)
Inductive outcome := JOk | JExists | JIo | JConv (logged : bool) | JAbort.
Inductive proc := Done (r : outcome) | Act (a : action) (k : answer -> proc).

(** result of a conversion: contents the output file takes meanwhile, and the end *)
Inductive ending := EDone (final : bytes) | EFail | EPanic.
Definition conversion := bytes -> list bytes * ending.

Record task := mkTask { t_input : pth; t_output : pth; t_replace : bool; t_mtime : bool; t_conv : conversion }.

Definition has_name (p : pth) : bool := match pfile_name p with Some _ => true | None => false end.
Definition isYes (a : answer) : bool := match a with Yes => true | _ => false end.

(** successive writes; a failing one is an error of the conversion *)
Fixpoint writes (i : nat) (ws : list bytes) (fail next_ : proc) : proc :=
  match ws with
  | [] => next_
  | w :: ws => Act (AWrite i w) (fun a => if isYes a then writes i ws fail next_ else fail)
  end.
(** remove the output after an error, raw2dng.rs:131-135 *)
Definition cleanup (out : pth) : proc := Act (AUnlink out) (fun a => Done (JConv (negb (isYes a)))).

(** the part of internal_exec after the file is open, raw2dng.rs:95-137 *)
Definition raw2dng_body (t : task) (i : nat) : proc :=
  Act (ALock i) (fun a => if negb (isYes a) then Done JIo else
  Act (ARead (t_input t)) (fun a =>
    match a with
    | Content c =>
      let '(ws, e) := t_conv t c in
      writes i ws (cleanup (t_output t))
        match e with
        | EFail => cleanup (t_output t)
        | EPanic => Done JAbort
        | EDone final =>
          Act (AWrite i final) (fun a => if negb (isYes a) then Done JIo else
          if t_mtime t then Act (AMtime i) (fun a => Done (if isYes a then JOk else JIo)) else Done JOk)
        end
    | _ => cleanup (t_output t)
    end)).
(** Raw2DngJob::internal_exec, raw2dng.rs:70-138 *)
Definition raw2dng (t : task) : proc :=
  let create := Act (ACreateNew (t_output t)) (fun a =>
    match a with Handle i => raw2dng_body t i | Exists_ => Done JExists | _ => Done JIo end) in
  if negb (has_name (t_input t)) then Done JIo
  else if t_replace t then
    Act (AExists (t_output t)) (fun a =>
      if isYes a then Act (AUnlink (t_output t)) (fun a => if isYes a then create else Done JIo) else create)
  else create.

(** Raw2Image::internal_exec, jobs/process_raw.rs:71-123 *)
Definition raw2image (t : task) : proc :=
  Act (AExists (t_output t)) (fun a =>
  if isYes a && negb (t_replace t) then Done JExists
  else if negb (has_name (t_input t)) then Done JIo
  else Act (ACreate (t_output t)) (fun a =>
    match a with
    | Handle i =>
      Act (ARead (t_input t)) (fun a =>
        match a with
        | Content c =>
          let '(ws, e) := t_conv t c in
          writes i ws (cleanup (t_output t))
            match e with
            | EFail => cleanup (t_output t)
            | EPanic => Done JAbort
            | EDone final =>
              Act (AWrite i final) (fun a => if negb (isYes a) then Done JIo else
              if t_mtime t then
                Act (ARead (t_input t)) (fun a => match a with Content _ => Act (AMtime i) (fun a => Done (if isYes a then JOk else JIo)) | _ => Done JIo end)
              else Done JOk)
            end
        | _ => cleanup (t_output t)
        end)
    | _ => Done JIo
    end)).

(** ExtractRawJob::internal_exec, jobs/extractraw.rs:55-96; the DNG is read and
    parsed before the output is created, [None] if that fails *)
Definition extractraw (t : task) (parse : bytes -> option (list bytes * ending)) : proc :=
  Act (AExists (t_output t)) (fun a =>
  if isYes a && negb (t_replace t) then Done JExists
  else Act (ARead (t_input t)) (fun a =>
    match a with
    | Content c =>
      match parse c with
      | None => Done JIo
      | Some (ws, e) =>
        Act (ACreate (t_output t)) (fun a =>
          match a with
          | Handle i =>
            writes i ws (cleanup (t_output t))
              match e with
              | EFail => cleanup (t_output t)
              | EPanic => Done JAbort
              | EDone final => Act (AWrite i final) (fun a => Done (if isYes a then JOk else JIo))
              end
          | _ => Done JIo
          end)
      end
    | _ => Done JIo
    end)).

(** ** execution *)
(** one operation of one process; [faults] says whether operations may fail *)
Inductive pstep (faults : bool) : proc * disk_ -> proc * disk_ -> Prop :=
| pstep_act a k d f ans d' : (f = true -> faults = true) -> exec a f d = (ans, d') -> pstep faults (Act a k, d) (k ans, d').
Inductive preach (faults : bool) : proc * disk_ -> proc * disk_ -> Prop :=
| preach_refl s : preach faults s s
| preach_step s1 s2 s3 : pstep faults s1 s2 -> preach faults s2 s3 -> preach faults s1 s3.

(** jobs running at the same time: any of them does its next operation.
    The chunks of convert.rs:66-78 only restrict the order. *)
Inductive bstep (faults : bool) : list proc * disk_ -> list proc * disk_ -> Prop :=
| bstep_one l p r d p' d' : pstep faults (p, d) (p', d') -> bstep faults (l ++ p :: r, d) (l ++ p' :: r, d').
Inductive breach (faults : bool) : list proc * disk_ -> list proc * disk_ -> Prop :=
| breach_refl s : breach faults s s
| breach_step s1 s2 s3 : bstep faults s1 s2 -> breach faults s2 s3 -> breach faults s1 s3.

(** what the command reports, convert.rs:94-100: the first error, if any *)
Definition is_error (r : outcome) : bool := match r with JOk => false | _ => true end.
Definition command_result (rs : list outcome) : outcome := match filter is_error rs with e :: _ => e | [] => JOk end.
