(** C24: sub views of a source file. *)
From Coq Require Import List ZArith.
From Verif Require Import Base TiffSpec RawSource RawSourceProofs.
Import ListNotations.
Open Scope Z_scope.

(** A view is exactly the requested bytes of the source, and it exists exactly
    when the range lies inside the source. *)
Theorem C24_view_exact : forall buf off size, 0 <= off -> 0 <= size -> off + size < 2 ^ 64 ->
  (forall b, subview buf off size = Ok b <-> at_ buf off b /\ Z.of_nat (length b) = size) /\
  (off + size <= Z.of_nat (length buf) -> exists b, subview buf off size = Ok b) /\
  (Z.of_nat (length buf) < off + size -> subview buf off size = Err).
Proof. exact c24_exact. Qed.
Print Assumptions C24_view_exact.

(** The padded view holds the same bytes followed by 16 readable bytes. *)
Theorem C24_padded_view : forall buf off size, Z.of_nat (length buf) < 2 ^ 63 -> 0 <= off -> 0 <= size -> off + size < 2 ^ 64 ->
  (off + size <= Z.of_nat (length buf) ->
    exists p b pad, subview_padded buf off size = Ok p /\ p_size p = size /\ p_buf p = b ++ pad /\
                    subview buf off size = Ok b /\ length pad = 16%nat) /\
  (Z.of_nat (length buf) < off + size -> subview_padded buf off size = Err).
Proof. exact c24_padded. Qed.
Print Assumptions C24_padded_view.

Theorem C24_view_until_end : forall buf off, 0 <= off ->
  (off <= Z.of_nat (length buf) -> exists b, subview_until_eof buf off = Ok b /\ at_ buf off b /\
     off + Z.of_nat (length b) = Z.of_nat (length buf)) /\
  (Z.of_nat (length buf) < off -> subview_until_eof buf off = Err).
Proof. exact c24_until_eof. Qed.
Print Assumptions C24_view_until_end.

Theorem C24_padded_view_until_end : forall buf off, 0 <= off ->
  (off < Z.of_nat (length buf) ->
     exists p b pad, subview_until_eof_padded buf off = Ok p /\ p_buf p = b ++ pad /\ p_size p = Z.of_nat (length b) /\
                     subview_until_eof buf off = Ok b /\ length pad = 16%nat) /\
  (Z.of_nat (length buf) <= off -> subview_until_eof_padded buf off = Err).
Proof. exact c24_until_eof_padded. Qed.
Print Assumptions C24_padded_view_until_end.

(** An offset and size whose sum exceeds u64 panics instead of reporting an error. *)
Theorem C24_overflow_refuted : exists buf off size, 0 <= off < 2 ^ 64 /\ 0 <= size < 2 ^ 64 /\
  subview buf off size = Panic /\ subview_padded buf off size = Panic.
Proof. exact c24_overflow. Qed.
Print Assumptions C24_overflow_refuted.

(** At the very end of the source the plain variant returns the empty view, the padded one an error. *)
Theorem C24_empty_tail_refuted : forall buf, subview_until_eof buf (Z.of_nat (length buf)) = Ok [] /\
  subview_until_eof_padded buf (Z.of_nat (length buf)) = Err.
Proof. exact c24_empty_tail. Qed.
Print Assumptions C24_empty_tail_refuted.

Example C24_example :
  subview [10; 20; 30; 40; 50] 1 3 = Ok [20; 30; 40] /\
  subview_padded [10; 20; 30; 40; 50] 1 3 = Ok (mk_padded ([20; 30; 40] ++ repeat 0 16) 3) /\
  subview_padded ([10; 20; 30] ++ repeat 7 17) 1 3 = Ok (mk_padded ([20; 30; 7] ++ repeat 7 16) 3) /\
  subview [10; 20; 30; 40; 50] 3 3 = Err.
Proof. repeat split. Qed.
