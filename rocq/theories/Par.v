(** Parallel workers over one shared buffer.

    rayon's par_chunks_mut / par_chunks_exact_mut (decompressors/mod.rs:148-152,
    182-186, 221-225, 262-266, 297-299) and par_bridge over tiles
    (decoders/mod.rs:796-799) are modelled as workers that each own a list of
    buffer cells (their footprint) and run a program of atomic operations on
    those cells.  A schedule is any list of worker numbers.  [try_for_each]
    fails when some worker fails. *)
From Coq Require Import List ZArith Lia Bool.
From Verif Require Import Base.
Import ListNotations.
Open Scope nat_scope.

Section Par.
Context {A : Type}.
Variable d : A.

(** The contents of the cells [F], in order. *)
Definition gather (F : list nat) (buf : list A) : list A := map (fun i => nth i buf d) F.

(** Write [v] to the cells [F], in order. *)
Fixpoint scatter (F : list nat) (v : list A) (buf : list A) : list A :=
  match F, v with
  | i :: F', a :: v' => scatter F' v' (upd_list buf i a)
  | _, _ => buf
  end.

(** One atomic step of a worker: an arbitrary function of its own cells.
    [None] is a failure (error or panic). *)
Definition op := list A -> option (list A).

Record worker := mk_worker { wk_cells : list nat; wk_ops : list op }.

(** Buffer, remaining workers, some worker has failed. *)
Record pstate := mk_pstate { ps_buf : list A; ps_ws : list worker; ps_failed : bool }.

Definition pstep (i : nat) (s : pstate) : pstate :=
  match nth_error (ps_ws s) i with
  | Some (mk_worker F (o :: os)) =>
    match o (gather F (ps_buf s)) with
    | Some v => mk_pstate (scatter F v (ps_buf s)) (upd_list (ps_ws s) i (mk_worker F os)) (ps_failed s)
    | None => mk_pstate (ps_buf s) (upd_list (ps_ws s) i (mk_worker F [])) true
    end
  | _ => s
  end.

Definition prun (sched : list nat) (s : pstate) : pstate := fold_left (fun s i => pstep i s) sched s.

Definition finished (s : pstate) : Prop := Forall (fun w => wk_ops w = []) (ps_ws s).

(** Result seen by the caller once the parallel loop has ended: it ends when
    all workers are done, or early after a failure. *)
Inductive outcome := POk (buf : list A) | PFail.
Definition result (s : pstate) : outcome := if ps_failed s then PFail else POk (ps_buf s).
Definition ended (s : pstate) : Prop := finished s \/ ps_failed s = true.

(** A worker running alone. *)
Fixpoint run_ops (os : list op) (v : list A) : option (list A) :=
  match os with
  | [] => Some v
  | o :: t => match o v with Some v' => run_ops t v' | None => None end
  end.

(** Sequential execution: workers one after the other, stopping at the first
    failure. *)
Fixpoint run_seq (ws : list worker) (buf : list A) : outcome :=
  match ws with
  | [] => POk buf
  | mk_worker F os :: t =>
    match run_ops os (gather F buf) with
    | Some v => run_seq t (scatter F v buf)
    | None => PFail
    end
  end.

End Par.
Arguments worker : clear implicits.
Arguments pstate : clear implicits.
Arguments outcome : clear implicits.
Arguments op : clear implicits.
