(** Property C64: Canon CIFF (CRW) files. *)
From Coq Require Import List ZArith Bool Lia.
From Verif Require Import Base Tiff TiffSpec TiffBytes Choose ChooseSpec PropChoose Ciff CiffSpec CiffProofs CiffTop.
Import ListNotations.
Open Scope Z_scope.

(** Any file that holds a tree of heaps up to depth 10, however the parts are
    placed: every tag gives exactly the value the tree gives, and every heap is
    read once. *)
Theorem C64_read : forall file start items, urange 32 start -> at_ file 2 (enc LE 4 start) ->
  heap_at file start (Z.of_nat (length file)) items -> (height (CDir 0 items) <= 10)%nat ->
  exists d, ciff_file file = Ok d /\ (forall t, option_map c_data (ciff_find d t) = lookup t items) /\ ndirs d = idirs (CDir 0 items).
Proof. exact file_read. Qed.
Print Assumptions C64_read.

(** A directory with a record at an unknown place is an error for the file; a sub
    heap with such a record is a value ([CBad] in [C64_read]). *)
Theorem C64_bad_record : forall file start items, urange 32 start -> at_ file 2 (enc LE 4 start) ->
  bad_heap_at file start (Z.of_nat (length file)) items -> (height (CDir 0 items) <= 10)%nat -> ciff_file file = Err.
Proof. exact bad_file. Qed.
Print Assumptions C64_bad_record.

(** Whatever the file is: an entry that is found has the tag asked for, the type
    in the tag, and the bytes of the file at its address. *)
Theorem C64_entries : forall file d t e, Forall (urange 8) file -> ciff_file file = Ok d -> ciff_find d t = Some e ->
  c_tag e = t /\ c_typ e = (t / 0x800) mod 8 * 0x800 /\ Z.of_nat (length (c_data e)) = c_size e /\ at_ file (c_off e) (c_data e).
Proof. exact entries_good. Qed.
Print Assumptions C64_entries.

(** Every tree can be written, and is read back. *)
Theorem C64_written : forall items, Forall citem_ok items -> Z.of_nat (length items) < 2 ^ 16 ->
  Z.of_nat (length (heap_bytes items)) < 2 ^ 32 -> (height (CDir 0 items) <= 10)%nat ->
  exists d, ciff_file (crw_file items) = Ok d /\ (forall t, option_map c_data (ciff_find d t) = lookup t items) /\ ndirs d = idirs (CDir 0 items).
Proof. exact file_written. Qed.
Print Assumptions C64_written.

(** Such a file is given to the CRW decoder. *)
Theorem C64_decoder : forall cmt naked fuel lost items, get_decoder cmt naked fuel lost (crw_file items) = Some (Ok DCrw).
Proof.
  intros. apply C62_ciff.
  - left. exists [], (enc LE 4 14 ++ [72; 69; 65; 80; 67; 67; 68; 82] ++ heap_bytes items). now split.
  - exists ([73; 73] ++ enc LE 4 14), (heap_bytes items). now split.
Qed.
Print Assumptions C64_decoder.

(** The limit of the depth does not limit the work: a file of 10 k + 20 bytes has
    k^9 directories. *)
Theorem C64_work_refuted : forall k, Z.of_nat k < 2 ^ 16 ->
  length (self_file k) = (20 + 10 * k)%nat /\ exists d, ciff_file (self_file k) = Ok d /\ (k ^ 9 <= ndirs d)%nat.
Proof. intros k H. split; [apply self_len|now apply self_work]. Qed.
Print Assumptions C64_work_refuted.

(** Values below depth 10 are lost without an error. *)
Fixpoint nest (n : nat) (it : citem) : citem := match n with O => it | S n => CDir 0x2807 [nest n it] end.
Definition deep : list citem := [nest 10 (CVal 0x080a [67])].
Theorem C64_depth_refuted : ~ forall items, Forall citem_ok items -> Z.of_nat (length items) < 2 ^ 16 -> Z.of_nat (length (heap_bytes items)) < 2 ^ 32 ->
  exists d, ciff_file (crw_file items) = Ok d /\ (forall t, option_map c_data (ciff_find d t) = lookup t items).
Proof.
  intros H. destruct (H deep) as (d & E & F).
  - constructor; [|constructor]. cbn -[Z.pow Z.div Z.modulo]. unfold urange, dir_tag. repeat split; try lia; try (left; reflexivity); try (intros [X|X]; discriminate X).
  - cbn. lia.
  - vm_compute. reflexivity.
  - specialize (F 0x080a). assert (L : lookup 0x080a deep = Some [67]) by reflexivity. rewrite L in F.
    assert (X : match ciff_file (crw_file deep) with Ok d => option_map c_data (ciff_find d 0x080a) | _ => None end = None) by (vm_compute; reflexivity).
    rewrite E, F in X. discriminate.
Qed.
Print Assumptions C64_depth_refuted.

(** Damaged files panic: no start, a length or an address outside of the file, a
    sub directory of less than four bytes at the start of the file. *)
Theorem C64_no_panic_refuted :
  ciff_file [73; 73; 14] = Panic /\
  ciff_file ([73; 73; 14; 0; 0; 0; 72; 69; 65; 80; 67; 67; 68; 82] ++ enc LE 2 0 ++ enc LE 4 1000) = Panic /\
  ciff_file ([73; 73; 14; 0; 0; 0; 72; 69; 65; 80; 67; 67; 68; 82] ++ enc LE 2 1 ++ enc LE 2 0x080a ++ enc LE 4 8 ++ enc LE 4 1000 ++ enc LE 4 0) = Panic /\
  ciff_file ([73; 73; 0; 0; 0; 0; 72; 69; 65; 80; 67; 67; 68; 82] ++ enc LE 2 1 ++ enc LE 2 0x2807 ++ enc LE 4 3 ++ enc LE 4 0 ++ enc LE 4 14) = Panic.
Proof. repeat split; vm_compute; reflexivity. Qed.
Print Assumptions C64_no_panic_refuted.

(** A heap with a value, a sub heap with two values of the same tag, and an
    inline value *)
Definition sample : list citem :=
  [CVal 0x2005 [1; 2; 3]; CDir 0x300a [CVal 0x080a [67; 97; 0]; CInline 0x1031 [1; 0; 2; 0; 3; 0; 4; 0]; CVal 0x080a [68; 0]]; CInline 0x1810 [9; 9; 9; 9; 9; 9; 9; 9]].
Example C64_example :
  Forall citem_ok sample /\ (height (CDir 0 sample) <= 10)%nat /\ lookup 0x080a sample = Some [68; 0] /\ lookup 0x2005 sample = Some [1; 2; 3] /\
  (exists d, ciff_file (crw_file sample) = Ok d /\ option_map c_data (ciff_find d 0x080a) = Some [68; 0] /\
     option_map c_data (ciff_find d 0x1810) = Some (repeat 9 8) /\ option_map c_data (ciff_find d 0x10a9) = None /\ ndirs d = 2%nat).
Proof.
  split; [|split; [|split; [|split]]].
  - repeat (apply Forall_cons || apply Forall_nil); unfold urange, dir_tag; cbn -[Z.pow Z.div Z.modulo]; unfold urange, dir_tag; repeat split; try lia; try (intros [X|X]; discriminate X); try (right; reflexivity).
  - cbn. lia.
  - reflexivity.
  - reflexivity.
  - eexists. split; [vm_compute; reflexivity|]. repeat split; vm_compute; reflexivity.
Qed.

(** A sub heap with a bad record is a value, the same record in the file is an error. *)
Definition bad_sub : list Z := enc LE 2 1 ++ enc LE 2 0x8123 ++ repeat 7 8 ++ enc LE 4 0.
Definition head : list Z := [73; 73; 14; 0; 0; 0; 72; 69; 65; 80; 67; 67; 68; 82].
Definition bad_example : list Z := head ++ bad_sub ++ enc LE 2 1 ++ enc LE 2 0x2807 ++ enc LE 4 16 ++ enc LE 4 0 ++ enc LE 4 16.
Ltac place n := match goal with |- at_ ?f _ ?b => exists (firstn n f), (skipn (n + length b) f); split; vm_compute; reflexivity end.
Example C64_bad_example :
  heap_at bad_example 14 (Z.of_nat (length bad_example)) [CBad 0x2807 bad_sub []] /\
  match ciff_file bad_example with Ok d => option_map c_data (ciff_find d 0x2807) = Some bad_sub | _ => False end /\
  bad_heap_at (head ++ bad_sub) 14 (Z.of_nat (length (head ++ bad_sub))) [] /\ ciff_file (head ++ bad_sub) = Err.
Proof.
  assert (D : dir_tag 0x2807) by (left; reflexivity). split; [|split; [vm_compute; reflexivity|split; [|vm_compute; reflexivity]]].
  - apply (heap _ 14 _ 16); [lia|vm_compute; discriminate|unfold urange; lia|cbn; lia|place 42%nat|place 30%nat|]. apply items_cons; [|constructor].
    apply (item_bad _ 14 _ 0x2807 0 bad_sub []); [unfold urange; lia|exact D|unfold urange; lia|vm_compute; reflexivity|place 32%nat|place 14%nat|].
    apply (bad_heap _ _ _ 0 1 0x8123); [lia|vm_compute; discriminate|unfold urange; lia|cbn; lia|place 26%nat|place 14%nat|constructor|lia|place 16%nat].
  - apply (bad_heap _ _ _ 0 1 0x8123); [lia|vm_compute; discriminate|unfold urange; lia|cbn; lia|place 26%nat|place 14%nat|constructor|lia|place 16%nat].
Qed.
