(** Specification vocabulary for uncompressed strips. *)
From Coq Require Import List ZArith.
From Verif Require Import Base Par TiffSpec.
Import ListNotations.
Open Scope Z_scope.

(** 16 bit samples as little endian bytes *)
Definition bytes16 (l : list Z) : list Z := flat_map (fun v => [v mod 256; v / 256 mod 256]) l.

(** the samples [c] are stored at offset [o] *)
Definition strip_at (file : list Z) (o : Z) (c : list Z) : Prop := at_ file o (bytes16 c).

(** a parallel decode starts and every schedule that runs to the end returns [data] *)
Definition yields (r : res (pstate Z)) (data : list Z) : Prop :=
  exists s0, r = Ok s0 /\ forall sched, ended (prun 0 sched s0) -> result (prun 0 sched s0) = Par.POk data.
