(** A small PEF image with its own Huffman table. *)
From Coq Require Import List ZArith Lia Bool.
From Coq Require Import ZifyBool ZifyNat.
From Verif Require Import Base LjpegAnySpec CrxImageSpec PefSpec Pef PefTop.
Import ListNotations.
Open Scope Z_scope.

(** symbol 2 has the code 0, symbol 0 the code 10 and symbol 1 the code 11 *)
Definition ex_codes : list (Z * nat) := [(2048, 2%nat); (3072, 2%nat); (0, 1%nat)].
Definition ex_entry : list Z := pef_entry false (repeat 7 12) ex_codes.
Definition ex_picture (r c : nat) : Z := nth c (nth r [[1; 0; 3; 2]; [2; 1; 0; 3]; [2; 0; 1; 1]] []) 0.
Definition ex_data : list Z := stored (encode_lanes [1; 2; 2]%nat [2; 0; 1]%nat zero_init ex_picture 4 3) [9; 9; 9; 9].

Lemma ex_canonical : canonical_table ex_codes [1; 2; 2]%nat [2; 0; 1]%nat.
Proof.
  unfold canonical_table, ex_codes. cbn [length]. repeat apply conj; auto.
  - repeat constructor; cbn; intuition lia.
  - intros k Hk. destruct k as [|[|[|k]]]; cbn; lia.
  - intros i j Hij. destruct i as [|[|[|i]]], j as [|[|[|j]]]; cbn; lia.
  - intros k Hk. destruct k as [|[|[|k]]]; cbn; lia.
  - now apply Z.leb_le.
  - intros k Hk. destruct k as [|[|[|k]]]; [reflexivity|reflexivity|reflexivity|lia].
Qed.
Lemma ex_decoded : ex_entry = [7; 0; 7; 7; 7; 7; 7; 7; 7; 7; 7; 7; 7; 7; 0; 8; 0; 12; 0; 0; 2; 2; 1] /\
  firstn 5 ex_data = [242; 75; 149; 237; 192] /\
  pef_decode ex_data (Some (ex_entry, false)) 4 3 = Ok [1; 0; 3; 2; 2; 1; 0; 3; 2; 0; 1; 1].
Proof.
  split; [reflexivity|]. split; [vm_compute; reflexivity|].
  change (Ok [1; 0; 3; 2; 2; 1; 0; 3; 2; 0; 1; 1]) with (Ok (samples ex_picture 4 3)). unfold ex_data. apply (pef_roundtrip (Some (ex_entry, false)) [1; 2; 2]%nat [2; 0; 1]%nat 4 3 ex_picture [9; 9; 9; 9] 2).
  - exists (repeat 7 12), ex_codes. split; [reflexivity|]. split; [reflexivity|]. split; [cbn; lia|]. exact ex_canonical.
  - lia.
  - intros cat Hc. destruct cat as [|[|[|cat]]]; [discriminate|discriminate|discriminate|lia].
  - reflexivity.
  - lia.
  - now apply Z.leb_le.
  - intros r c Hr Hc. assert (E : forallb (fun r => forallb (fun c => (0 <=? ex_picture r c) && (ex_picture r c <? 65536)) (seq 0 4)) (seq 0 3) = true) by reflexivity.
    rewrite forallb_forall in E. specialize (E r ltac:(apply in_seq; lia)). rewrite forallb_forall in E. specialize (E c ltac:(apply in_seq; lia)). lia.
  - intros r c Hr Hc. change (2 ^ Z.of_nat 2) with 4. assert (E : forallb (fun r => forallb (fun c => Z.abs (ex_picture r c - lane_pred zero_init ex_picture r c) <? 4) (seq 0 4)) (seq 0 3) = true) by reflexivity.
    rewrite forallb_forall in E. specialize (E r ltac:(apply in_seq; lia)). rewrite forallb_forall in E. specialize (E c ltac:(apply in_seq; lia)). lia.
  - repeat constructor; unfold is_byte; lia.
  - cbn; lia.
Qed.
