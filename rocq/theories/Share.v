(** Threads over one shared buffer that read cells other threads may own.

    The demosaic passes hand every rayon task one row to write (par_chunks_exact_mut)
    and a raw pointer to the whole image to read from (Color2DPtr,
    rawler/src/pixarray.rs:556-588).  A task is a program of atomic reads and
    writes of single cells; any interleaving of the tasks is possible.  A read or
    write out of bounds, and a panic, end the task as failed. *)
From Coq Require Import List ZArith Lia Bool.
From Verif Require Import Base.
Import ListNotations.
Open Scope nat_scope.

Section Share.
Context {V : Type}.

Inductive prog :=
| Done
| Rd (i : nat) (k : V -> prog)
| Wr (i : nat) (v : V) (p : prog)
| Crash.

Record sstate := mk_sstate { ss_mem : list V; ss_thr : list prog }.

(** One atomic step of thread [t]. *)
Definition sstep (t : nat) (s : sstate) : sstate :=
  match nth_error (ss_thr s) t with
  | Some (Rd i k) =>
    match nth_error (ss_mem s) i with
    | Some v => mk_sstate (ss_mem s) (upd_list (ss_thr s) t (k v))
    | None => mk_sstate (ss_mem s) (upd_list (ss_thr s) t Crash)
    end
  | Some (Wr i v p) =>
    if i <? length (ss_mem s)
    then mk_sstate (upd_list (ss_mem s) i v) (upd_list (ss_thr s) t p)
    else mk_sstate (ss_mem s) (upd_list (ss_thr s) t Crash)
  | _ => s
  end.

Definition srun (sched : list nat) (s : sstate) : sstate := fold_left (fun s t => sstep t s) sched s.

(** A thread running alone to its end. *)
Fixpoint run_prog (p : prog) (m : list V) : res (list V) :=
  match p with
  | Done => Ok m
  | Rd i k => match nth_error m i with Some v => run_prog (k v) m | None => Panic end
  | Wr i v p' => if i <? length m then run_prog p' (upd_list m i v) else Panic
  | Crash => Panic
  end.

(** A parallel loop: an arbitrary interleaving [sched], after which the threads
    that have not ended are run one after the other.  Every complete execution
    has this form. *)
Definition par_loop (sched : list nat) (ts : list prog) (m : list V) : res (list V) :=
  let s := srun sched (mk_sstate m ts) in
  for_each (ss_thr s) run_prog (ss_mem s).

End Share.
Arguments prog : clear implicits.
