(** Property C65: the decompressor of Canon CRW files. *)
From Coq Require Import List ZArith Bool Lia.
From Verif Require Import Base RawSource Crw CrwSpec CrwProofs CrwTop.
Import ListNotations.
Open Scope Z_scope.

(** Whatever the tables are: when the reader delivers the code of a picture of
    whole blocks, the picture is decoded exactly. *)
Theorem C65_picture : forall S (leaf : bool -> S -> res (Z * S)) bits pump file w h nb px toks s',
  (0 < w)%nat -> (w * h = 64 * nb)%nat -> (forall n, 0 <= px n < 2 ^ 16) -> (540 <= length file)%nat ->
  (forall k, (k < nb)%nat -> codes 0 (coded w px k) (toks k)) -> feed leaf bits (pump (skipn 540 file)) (flat_map toks (seq 0 nb)) s' ->
  crw_decode leaf bits pump file false w h = Ok (map px (seq 0 (w * h))).
Proof. exact @high_ok. Qed.
Print Assumptions C65_picture.

(** With the two low bits of every pixel from byte 26 on.  Pictures of the width
    2672 are changed: 2 is added to values below 512. *)
Theorem C65_low_bits : forall S (leaf : bool -> S -> res (Z * S)) bits pump file w h nb pic toks rest s',
  (0 < w)%nat -> (w * h = 64 * nb)%nat -> (forall n, 0 <= pic n < 2 ^ 16) -> (540 + 16 * nb <= length file)%nat ->
  skipn 26 file = map (low_byte pic) (seq 0 (16 * nb)) ++ rest ->
  (forall k, (k < nb)%nat -> codes 0 (coded w (fun n => pic n / 4) k) (toks k)) -> feed leaf bits (pump (skipn (540 + 16 * nb) file)) (flat_map toks (seq 0 nb)) s' ->
  crw_decode leaf bits pump file true w h = Ok (map (fun n => shown w (pic n)) (seq 0 (w * h))).
Proof. exact @low_high_ok. Qed.
Print Assumptions C65_low_bits.

(** Pixels after the last whole block of 64 are not decoded: a picture of less
    than 64 pixels is black. *)
Theorem C65_rest_refuted : forall S (leaf : bool -> S -> res (Z * S)) bits pump file w h, (w * h < 64)%nat -> (540 <= length file)%nat ->
  crw_decode leaf bits pump file false w h = Ok (repeat 0 (w * h)).
Proof. exact @small_zero. Qed.
Print Assumptions C65_rest_refuted.

(** A picture of two lines of 32 pixels, with a reader of a list of symbols *)
Definition pic (n : nat) : Z := if (n =? 5)%nat then 1999 else if Nat.even n then 2053 else 2050.
Definition lst_leaf (b : bool) (s : list tok) : res (Z * list tok) := match s with TLeaf b' v :: s => if Bool.eqb b b' then Ok (v, s) else Err | _ => Err end.
Definition lst_bits (n : Z) (s : list tok) : res (Z * list tok) := match s with TBits n' v :: s => if n =? n' then Ok (v, s) else Err | _ => Err end.
(** differences 1 at 0 and 32, -13 at 5, 13 at 7 *)
Definition pic_toks : list tok := [TLeaf false 1; TBits 1 1; TLeaf true 0x44; TBits 4 2; TLeaf true 0x14; TBits 4 13; TLeaf true 0xf0; TLeaf true 0x81; TBits 1 1; TLeaf true 0].
Definition pic_file : list Z := repeat 0 26 ++ map (low_byte pic) (seq 0 16) ++ repeat 0 514.
Example C65_example :
  codes 0 (coded 32 (fun n => pic n / 4) 0) pic_toks /\ feed lst_leaf lst_bits pic_toks pic_toks [] /\
  crw_decode lst_leaf lst_bits (fun _ => pic_toks) pic_file true 32 2 = Ok (map pic (seq 0 64)).
Proof.
  split; [|split; [|vm_compute; reflexivity]].
  - change (coded 32 (fun n => pic n / 4) 0) with (repeat 0 0 ++ 1 :: repeat 0 4 ++ (-13) :: repeat 0 1 ++ 13 :: repeat 0 (15 + 1) ++ repeat 0 8 ++ 1 :: repeat 0 (64 - 33)).
    apply (co_val 0 0 1 1); [|lia|lia|lia|lia|cbn; lia]. apply (co_val 1 4 4 (-13)); [|lia|lia|lia|lia|cbn; lia]. apply (co_val 6 1 4 13); [|lia|lia|lia|lia|cbn; lia].
    apply (co_run 8 15); [|lia|lia|lia]. apply (co_val 24 8 1 1); [|lia|lia|lia|lia|cbn; lia]. apply co_eob. lia.
  - unfold pic_toks at 1. repeat (eapply feed_leaf + eapply feed_bits; [vm_compute; reflexivity|]). constructor.
Qed.
