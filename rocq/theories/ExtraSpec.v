(** Vocabulary of the additional theorems in PropExtra.v. *)
From Coq Require Import List ZArith.
From Verif Require Import Base Pumps.
Import ListNotations.
Open Scope Z_scope.

(** The pump after reads of the given widths. *)
Fixpoint after_reads {P} (o : pump_ops P) (ns : list nat) (p : P) : res P :=
  match ns with
  | [] => Ok p
  | n :: t => do (_, p') <- get_bits o n p; after_reads o t p'
  end.

(** Rows of [n] samples. *)
Definition rows_of (image : list Z) (h n stride : nat) : list (list Z) :=
  map (fun r => firstn n (skipn (r * stride) image)) (seq 0 h).

(** A decompression function refuses buffers with fewer than [need] bytes. *)
Definition refuses {A} (f : list Z -> nat -> nat -> res A) (need : nat -> nat -> nat) : Prop :=
  forall buf w h, (length buf < need w h)%nat -> f buf w h = Err.
