(** C13: the embedded original raw file. *)
From Coq Require Import List ZArith.
From Verif Require Import Base Tiff Original OriginalProofs.
Import ListNotations.
Open Scope Z_scope.

(** For any block codec with a correct inverse that does not fail on a block,
    any digest function, any source of less than 4 GiB (read from any position)
    and any surrounding bytes: compressing, writing, reading back and
    decompressing with verification restores the source, as long as the
    compressed structure itself stays below 4 GiB. *)
Theorem C13_restores_original : forall (comp decomp : list Z -> option (list Z)) (md5 : list Z -> list Z) file pos pre post,
  (forall b c, comp b = Some c -> decomp c = Some b) ->
  (forall b, b <> [] -> Z.of_nat (length b) <= 65536 -> comp b <> None) ->
  (pos <= length file)%nat -> Z.of_nat (length file - pos) < 2 ^ 32 ->
  exists o, compress comp md5 file pos = Ok o /\ o_digest o = Some (md5 (skipn pos file)) /\
    (4 + (Z.of_nat (length (o_chunks o)) + 1) * 4 + Z.of_nat (length (concat (o_chunks o))) < 2 ^ 32 ->
     exists bytes, write_to_stream o = Ok bytes /\
     exists o', orig_new (pre ++ bytes ++ post) (Z.of_nat (length pre)) (o_digest o) = Ok o' /\
     exists total, decompress decomp md5 o' true = Ok (skipn pos file, total)).
Proof. exact c13_restores. Qed.
Print Assumptions C13_restores_original.

(** Whatever structure is read: verified output always carries the stored digest. *)
Theorem C13_verified_digest : forall (decomp : list Z -> option (list Z)) (md5 : list Z -> list Z) o out total,
  decompress decomp md5 o true = Ok (out, total) -> o_digest o = Some (md5 out).
Proof. exact verified. Qed.
Print Assumptions C13_verified_digest.

(** The reader reports corrupt structures as errors, never as a panic. *)
Theorem C13_reader_no_panic : forall file start digest, orig_new file start digest <> Panic.
Proof. exact reader_np. Qed.
Print Assumptions C13_reader_no_panic.

(** The returned byte count is that of the last block only. *)
Theorem C13_returned_length_refuted : exists (decomp : list Z -> option (list Z)) (md5 : list Z -> list Z) o out total,
  decompress decomp md5 o true = Ok (out, total) /\ total <> length out.
Proof. exact c13_total. Qed.
Print Assumptions C13_returned_length_refuted.

(** A block the compressor rejects is dropped silently and the result cannot be read back. *)
Theorem C13_failed_block_refuted : exists (comp decomp : list Z -> option (list Z)) (md5 : list Z -> list Z) file o bytes,
  (forall b c, comp b = Some c -> decomp c = Some b) /\
  compress comp md5 file 0 = Ok o /\ write_to_stream o = Ok bytes /\ orig_new bytes 0 (o_digest o) = Err.
Proof. exact c13_dropped. Qed.
Print Assumptions C13_failed_block_refuted.

(** Concrete case: a codec that appends a marker byte, three bytes of data,
    the structure embedded between other bytes. *)
Example C13_example : exists o bytes o' total,
  compress (fun b => Some (b ++ [255])) (fun d => [fold_right Z.add 0 d]) [9; 1; 2; 3] 1 = Ok o /\
  write_to_stream o = Ok bytes /\
  orig_new ([7; 7] ++ bytes ++ [8]) 2 (o_digest o) = Ok o' /\
  decompress (fun c => Some (removelast c)) (fun d => [fold_right Z.add 0 d]) o' true = Ok ([1; 2; 3], total).
Proof.
  destruct (C13_restores_original (fun b => Some (b ++ [255])) (fun c => Some (removelast c)) (fun d => [fold_right Z.add 0 d])
              [9; 1; 2; 3] 1 [7; 7] [8]) as (o & E & _ & H).
  - intros b c [= <-]. now rewrite removelast_last.
  - discriminate.
  - cbn. repeat constructor.
  - reflexivity.
  - cbn in E. injection E as <-. destruct H as (bytes & E1 & o' & E2 & total & E3); [reflexivity|].
    eexists. exists bytes, o', total. split; [reflexivity|]. split; [exact E1|]. split; [exact E2|exact E3].
Qed.
