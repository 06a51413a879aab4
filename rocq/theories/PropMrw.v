(** Property C63: Minolta MRW files. *)
From Coq Require Import List ZArith Bool Lia.
From Verif Require Import Base Par Decomp Packed PackedProofs Tiff TiffSpec TiffBytes RawSource Mrw MrwSpec MrwProofs MrwTop.
Import ListNotations.
Open Scope Z_scope.

(** Whatever the blocks are and however they are ordered: when the last one has
    more than 12 bytes, the last block of each kind gives the size and packing,
    the white balance and the place of the TIFF data; the samples begin right
    after the blocks. *)
Theorem C63_blocks : forall blocks z data fuel, Forall mblock_ok (blocks ++ [z]) -> (12 < length (mcontent z))%nat ->
  Z.of_nat (length (flat_map menc (blocks ++ [z]))) < 2 ^ 32 - 8 -> (length blocks < fuel)%nat ->
  exists s, mrw_parse fuel (mfile (blocks ++ [z]) data) = Some (Ok (8 + Z.of_nat (length (flat_map menc (blocks ++ [z]))), s)) /\
    (forall before v h w img size rest, last_of is_prd (blocks ++ [z]) before (MPrd v h w img size rest) -> m_h s = h /\ m_w s = w /\ m_packed s = (size =? 12)) /\
    (forall before pre a b c d rest, last_of is_wbg (blocks ++ [z]) before (MWbg pre a b c d rest) -> m_wb s = [a; b; c; d]) /\
    (forall before t, last_of is_ttw (blocks ++ [z]) before (MTtw t) ->
       m_tiff s = 16 + Z.of_nat (length (flat_map menc before)) /\ at_ (mfile (blocks ++ [z]) data) (m_tiff s) t).
Proof. exact mrw_facts. Qed.
Print Assumptions C63_blocks.

(** The picture: packed samples of 12 bits when the data size says 12, else the
    low 12 bits of big-endian words. *)
Theorem C63_picture : forall blocks z data fuel before v h w img size rest, Forall mblock_ok (blocks ++ [z]) -> (12 < length (mcontent z))%nat ->
  Z.of_nat (length (flat_map menc (blocks ++ [z]))) < 2 ^ 32 - 8 -> (length blocks < fuel)%nat ->
  last_of is_prd (blocks ++ [z]) before (MPrd v (Z.of_nat h) (Z.of_nat w) img size rest) -> Forall is_byte data -> (0 < w)%nat ->
  (if (size =? 12)%Z then w mod 2 = 0 /\ h * w * 12 <= 8 * length data else h * w * 2 <= length data)%nat ->
  exists off s, mrw_parse fuel (mfile (blocks ++ [z]) data) = Some (Ok (off, s)) /\
    delivers (mrw_raw (mfile (blocks ++ [z]) data) off s) w h
      (fun r c => if size =? 12 then field_msb (stream data) (12 * (r * w + c)) 12 else field_msb (stream data) (16 * (r * w + c) + 4) 12).
Proof. exact mrw_picture. Qed.
Print Assumptions C63_picture.

(** The search for blocks ends on every file. *)
Theorem C63_ends : forall file fuel, Forall (urange 8) file -> (length file < fuel)%nat -> mrw_parse fuel file <> None.
Proof. exact parse_ends. Qed.
Print Assumptions C63_ends.

(** What the reader loses: a white balance block in the last place is not read,
    although all its bytes are there. *)
Definition prd : mblock := MPrd (repeat 50 8) 1 2 [0; 1; 0; 2] 12 [12; 89; 0; 0; 0; 1].
Definition wbg : mblock := MWbg [1; 1; 1; 1] 400 256 256 500 [].
Theorem C63_last_block_refuted : ~ forall blocks before pre a b c d rest data fuel off s, Forall mblock_ok blocks ->
  last_of is_wbg blocks before (MWbg pre a b c d rest) -> mrw_parse fuel (mfile blocks data) = Some (Ok (off, s)) -> m_wb s = [a; b; c; d].
Proof.
  intros H. specialize (H [prd; wbg] [prd] [1; 1; 1; 1] 400 256 256 500 [] [18; 52; 86] 5%nat 59 (mk_mrw 1 2 true [0; 0; 0; 0] 0)).
  assert (X : [0; 0; 0; 0] = [400; 256; 256; 500]); [|discriminate]. apply H.
  - repeat constructor; cbn; unfold urange; lia.
  - exists []. repeat split; auto.
  - vm_compute. reflexivity.
Qed.
Print Assumptions C63_last_block_refuted.

(** A file that ends early, and a block length near 2^32, panic. *)
Theorem C63_no_panic_refuted :
  mrw_parse 5 [0; 77; 82; 77; 0; 0] = Some Panic /\
  mrw_parse 5 ([0; 77; 82; 77; 0; 0; 0; 60] ++ menc prd) = Some Panic /\
  mrw_parse 5 ([0; 77; 82; 77; 255; 255; 255; 248] ++ menc prd) = Some Panic /\
  mrw_parse 5 ([0; 77; 82; 77; 0; 0; 0; 60; 0; 1; 2; 3; 255; 255; 255; 248] ++ repeat 0 60) = Some Panic.
Proof. repeat split; vm_compute; reflexivity. Qed.
Print Assumptions C63_no_panic_refuted.

(** A file with TIFF data, a size and a white balance block and two samples *)
Definition ttw : mblock := MTtw ([77; 77; 0; 42; 0; 0; 0; 8] ++ repeat 0 6).
Definition pad : mblock := MOther 0x504144 (repeat 0 16).
Example C63_example :
  (exists s, mrw_parse 9 (mfile ([ttw; prd; wbg] ++ [pad]) [18; 52; 86]) = Some (Ok (105, s)) /\
     s = mk_mrw 1 2 true [400; 256; 256; 500] 16) /\
  Forall mblock_ok ([ttw; prd; wbg] ++ [pad]) /\ (12 < length (mcontent pad))%nat /\
  last_of is_prd ([ttw; prd; wbg] ++ [pad]) [ttw] prd /\
  field_msb (stream [18; 52; 86]) 0 12 = 0x123 /\ field_msb (stream [18; 52; 86]) 12 12 = 0x456.
Proof.
  split; [eexists; split; vm_compute; reflexivity|]. split; [|split; [|split; [|split]]].
  - repeat constructor; cbn; unfold urange; lia.
  - cbn. lia.
  - exists [wbg; pad]. repeat split; auto.
  - vm_compute. reflexivity.
  - vm_compute. reflexivity.
Qed.
