(** TIFF container: C10, C11, C12. *)
From Coq Require Import List ZArith Lia.
From Verif Require Import Base Bits Tiff TiffSpec TiffBytes TiffRead TiffWrite TiffSafe TiffTop.
Import ListNotations.
Open Scope Z_scope.

(** C10: whatever sequence of data blocks and directories is written, and
    whatever root directory closes the file: building succeeds; in a file below
    4 GiB every data block is at the offset that was returned, every directory
    is read back from its offset, the root is found through the header, and a
    LONG tag that holds offsets of written directories yields these
    directories. *)
Theorem C10_file_round_trip ops root : Forall wop_ok ops -> wop_ok (WDir root) ->
  exists offs buf file, wrun ops tiff_new = Ok (offs, buf) /\ tiff_build buf (dir_of root) = Ok file /\
  (Z.of_nat (length file) < 2 ^ 32 - 32 ->
   (forall k d, nth_error ops k = Some (WData d) -> at_ file (nth k offs 0) d /\ nth k offs 0 mod 4 = 0) /\
   (forall k adds lost, nth_error ops k = Some (WDir adds) ->
      exists i, ifd_leaf lost LE file (nth k offs 0) 0 0 = Ok i /\ reads_back adds (i_entries i) /\ i_next i = 0) /\
   (forall lost fuel max subs, exists i,
      parse_file (S fuel) lost file 0 0 0 max subs = Some (Ok [i]) /\ reads_back root (i_entries i) /\ i_next i = 0 /\
      (forall tag l,
         (forall tag t l, last_value tag root = Some (VUnknown t l) -> ~ In tag (wellknown_subs ++ subs)) ->
         last_value tag root = Some (VLong l) -> In tag (wellknown_subs ++ subs) ->
         (forall o, In o l -> exists k adds, nth_error ops k = Some (WDir adds) /\ nth k offs 0 = o) ->
         exists js, bt_get tag (i_sub i) = Some js /\
           Forall2 (fun o j => forall k adds, nth_error ops k = Some (WDir adds) -> nth k offs 0 = o -> reads_back adds (i_entries j)) l js))).
Proof. exact (c10_file ops root). Qed.
Print Assumptions C10_file_round_trip.

Example C10_example :
  let sub := [(256, VShort [640]); (305, VAscii [[100; 110; 103; 108; 97; 98]] []); (256, VShort [320; 1])] in
  let ops := [WData [1; 2; 3]; WDir sub] in
  let root := [(330, VLong [20]); (50706, VByte [1; 4; 0; 0]); (37380, VSRational [(-1, 3)])] in
  Forall wop_ok ops /\ wop_ok (WDir root) /\ fst (match wrun ops tiff_new with Ok r => r | _ => ([], []) end) = [8; 20].
Proof.
  assert (D : forall adds, adds <> [] -> (length (dir_of adds) <=? 4096)%nat = true ->
    Forall (fun a => urange 16 (fst a) /\ writable (snd a)) adds -> wop_ok (WDir adds)).
  { intros adds H1 H2 H3. split; [exact H1|]. split; [now apply Nat.leb_le|exact H3]. }
  assert (W : forall t v, 0 <= t < 65536 -> value_ok v -> (0 < vcount v)%nat ->
    match v with VByte _ | VShort _ | VLong _ | VSRational _ => True | _ => False end -> urange 16 t /\ writable v).
  { intros t v H1 H2 H3 H4. split; [exact H1|]. split; [exact H2|]. split; [exact H3|]. destruct v; easy. }
  split; [|split; [|vm_compute; reflexivity]].
  - constructor; [|constructor; [|constructor]].
    + repeat (apply Forall_cons; [unfold urange; lia|]). apply Forall_nil.
    + apply D; [discriminate|reflexivity|].
      apply Forall_cons; [|apply Forall_cons; [|apply Forall_cons; [|apply Forall_nil]]]; cbn [fst snd].
      * apply W; [lia| |cbn; lia|exact I]. split; [repeat constructor; lia|cbn; lia].
      * split; [unfold urange; lia|]. split; [|split; [cbn; lia|exists [100; 110; 103; 108; 97; 98]; split; reflexivity]].
        split; [|cbn; lia]. apply Forall_cons; [|apply Forall_nil].
        split; [repeat (apply Forall_cons; [unfold urange; lia|]); apply Forall_nil|cbn; lia].
      * apply W; [lia| |cbn; lia|exact I]. split; [repeat constructor; lia|cbn; lia].
  - apply D; [discriminate|reflexivity|].
    apply Forall_cons; [|apply Forall_cons; [|apply Forall_cons; [|apply Forall_nil]]]; cbn [fst snd].
    + apply W; [lia| |cbn; lia|exact I]. split; [repeat constructor; lia|cbn; lia].
    + apply W; [lia| |cbn; lia|exact I]. split; [repeat constructor; lia|cbn; lia].
    + apply W; [lia| |cbn; lia|exact I]. split; [repeat constructor; cbn; lia|cbn; lia].
Qed.

(** C10: a directory laid out as TIFF prescribes, in either byte order, with
    any base and correction of the offsets, is read as it is *)
Theorem C10_conforming_directory lost e file base corr off ents next :
  dir_at e file base corr off ents next -> ascending ents ->
  exists i, ifd_leaf lost e file off base corr = Ok i /\ i_off i = off /\
    i_next i = (if next =? 0 then 0 else (next + corr) mod 2 ^ 32) /\
    forall t, option_map e_value (bt_get t (i_entries i)) = option_map as_read (bt_get t ents).
Proof. exact (c10_conforming lost e file base corr off ents next). Qed.
Print Assumptions C10_conforming_directory.

(** C10: the rule does not extend to several strings in a value, to inline
    floats and to inline signed values: these come back changed *)
Theorem C10_lossy_values_refuted :
  exists file i,
    tiff_build tiff_new (dir_of [(315, VAscii [[97]; [98]] []); (700, VFloat [1065353216]); (701, VSByte [-1; 0]); (702, VSShort [-1; 5])]) = Ok file /\
    parse_file 1 0 file 0 0 0 None [] = Some (Ok [i]) /\
    map (fun x => e_value (snd x)) (i_entries i) = [VAscii [[97]] [97; 0; 98; 0]; VFloat [1]; VSByte [-1; -1]; VSShort [-1; -1]].
Proof. do 2 eexists. split; [vm_compute; reflexivity|]. split; [vm_compute; reflexivity|]. vm_compute. reflexivity. Qed.
Print Assumptions C10_lossy_values_refuted.

(** C11 *)
Theorem C11_inline_is_serialisation v :
  value_ok v -> (0 < vcount v)%nat -> (vsize v <= 4)%nat ->
  match v with VSByte l | VSShort l => Forall (fun x => 0 <= x) l | VFloat _ => False | _ => True end ->
  exists emb w, as_embedded v = Ok emb /\ write_value v = Ok w /\ le_bytes 4 emb = w ++ repeat 0 (4 - length w).
Proof. exact (embed_exact v). Qed.
Print Assumptions C11_inline_is_serialisation.

Example C11_example : exists emb, as_embedded (VShort [513; 1027]) = Ok emb /\ le_bytes 4 emb = [1; 2; 3; 4].
Proof. exists 67305985. split; vm_compute; reflexivity. Qed.

(** C11: signed elements are sign extended over their neighbours, a float is
    stored as its integer part *)
Theorem C11_signed_and_float_refuted :
  as_embedded (VSByte [-1; 0]) = Ok (2 ^ 32 - 1) /\ write_value (VSByte [-1; 0]) = Ok [255; 0] /\
  as_embedded (VSShort [-1; 5]) = Ok (2 ^ 32 - 1) /\ write_value (VSShort [-1; 5]) = Ok [255; 255; 5; 0] /\
  as_embedded (VFloat [1065353216]) = Ok 1 /\ write_value (VFloat [1065353216]) = Ok [0; 0; 128; 63].
Proof. do 5 (split; [vm_compute; reflexivity|]). vm_compute. reflexivity. Qed.
Print Assumptions C11_signed_and_float_refuted.

(** C12: with a limit the parser visits between 1 and limit + 1 directories *)
Theorem C12_chain_bounded fuel lost file start base corr m subs chain :
  parse_file fuel lost file start base corr (Some m) subs = Some (Ok chain) -> (1 <= length chain <= m + 1)%nat.
Proof. exact (c12_bounded fuel lost file start base corr m subs chain). Qed.
Print Assumptions C12_chain_bounded.

Theorem C12_terminates fuel lost file start base corr m subs :
  (m + 1 <= fuel)%nat -> parse_file fuel lost file start base corr (Some m) subs <> None.
Proof. exact (c12_terminates fuel lost file start base corr m subs). Qed.
Print Assumptions C12_terminates.

(** C12: no directory has more than 4096 entries and every value is in the file
    at the offset of its entry *)
Theorem C12_values_from_file fuel lost file start base corr max subs chain :
  Forall (urange 8) file -> 0 <= base ->
  parse_file fuel lost file start base corr max subs = Some (Ok chain) ->
  exists e, Forall (fun i =>
    forall j, (j = i \/ exists tag l, In (tag, l) (i_sub i) /\ In j l) ->
    (length (i_entries j) <= 4096)%nat /\
    forall tag en, In (tag, en) (i_entries j) ->
      at_ file (base + e_off en) (match e_value en with VAscii _ plain => plain | v => venc e v end)) chain.
Proof. exact (c12_from_file fuel lost file start base corr max subs chain). Qed.
Print Assumptions C12_values_from_file.

(** C12: the only panic is an empty pointer tag of unknown type *)
Theorem C12_only_panic fuel lost file start corr max subs :
  Forall (urange 8) file -> Z.of_nat (length file) < 2 ^ 32 - 32 ->
  parse_file fuel lost file start 0 corr max subs = Some Panic ->
  exists e p tag typ, 0 <= p /\ rd_u16 e file p = Ok tag /\ In tag (wellknown_subs ++ subs) /\
    rd_u16 e file (p + 2) = Ok typ /\ (typ = 0 \/ 12 < typ) /\ rd_u32 e file (p + 4) = Ok 0.
Proof. exact (c12_only_panic fuel lost file start corr max subs). Qed.
Print Assumptions C12_only_panic.

Definition two_dirs : list Z :=
  [77; 77; 0; 42; 0; 0; 0; 8] ++ [0; 1] ++ [1; 0; 0; 3; 0; 0; 0; 1; 0; 7; 0; 0] ++ [0; 0; 0; 26]
  ++ [0; 1] ++ [1; 14; 0; 2; 0; 0; 0; 5; 0; 0; 0; 44] ++ [0; 0; 0; 0] ++ [104; 105; 33; 33; 0].
Example C12_example : exists i j,
  parse_file 2 0 two_dirs 0 0 0 (Some 1%nat) [] = Some (Ok [i; j]) /\
  map (fun x => e_value (snd x)) (i_entries j) = [VAscii [[104; 105; 33; 33]] [104; 105; 33; 33; 0]].
Proof. do 2 eexists. split; [vm_compute; reflexivity|]. vm_compute. reflexivity. Qed.

(** C12: the panic happens, and without a limit a cyclic file is never left *)
Theorem C12_empty_pointer_refuted :
  parse_file 1 0 ([73; 73; 42; 0; 8; 0; 0; 0] ++ [1; 0] ++ [74; 1; 13; 0; 0; 0; 0; 0; 0; 0; 0; 0] ++ [0; 0; 0; 0]) 0 0 0 (Some 1%nat) []
  = Some Panic.
Proof. vm_compute. reflexivity. Qed.
Print Assumptions C12_empty_pointer_refuted.

Theorem C12_unlimited_refuted fuel lost : parse_file fuel lost cyclic_file 0 0 0 None [] = None.
Proof. exact (c12_cyclic fuel lost). Qed.
Print Assumptions C12_unlimited_refuted.
