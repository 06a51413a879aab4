(** C60: the container of CR3 files. *)
From Coq Require Import List ZArith Bool Lia.
From Verif Require Import Base Tiff TiffSpec TiffBytes RawSource CrxImage CrxImageSpec CrxAll CrxEnc CrxNeg CrxImageEx Bmff BmffSpec BmffProofs BmffRead BmffTop.
Import ListNotations.
Open Scope Z_scope.

(** A file of boxes as the format describes them is read as it is. *)
Theorem C60_boxes_read : forall cmt boxes fuel, file_ok cmt boxes -> (length (flat_map senc boxes) < fuel)%nat ->
  filebox_parse cmt (flat_map senc boxes) fuel = Some (Ok (seen_all 0 boxes)).
Proof. exact file_read. Qed.
Print Assumptions C60_boxes_read.

(** The tables of a track with at most two runs of chunks lead to the place and
    size of every sample. *)
Theorem C60_samples_two_runs : forall st nc nz no per sizes offs k c i,
  kid stsc (n_kids st) = Some nc -> kid stsz (n_kids st) = Some nz -> kid co64 (n_kids st) = Some no ->
  sample_tables (n_fields nc) (n_fields nz) (n_fields no) per sizes offs -> in_chunk per k c i -> sample_fits offs sizes k c i ->
  get_sample_offset st (Z.of_nat k + 1) = Ok (Some (sample_range offs sizes k c i)).
Proof. exact sample_ok. Qed.
Print Assumptions C60_samples_two_runs.

Definition leaf (t : Z) (f : list Z) : node := Node (mk_bhdr 0 t None 0 8) f [].
Definition three_runs (rows : list (Z * Z * Z)) : node :=
  Node (mk_bhdr 0 stbl None 0 8) []
    [leaf stsc (stsc_fields [0; 0; 0; 0] rows); leaf stsz (stsz_fields [0; 0; 0; 0] 0 4 [10; 20; 30; 40]); leaf co64 (co64_fields [0; 0; 0; 0] [100; 200; 300])].
(** With three runs a sample is taken from the wrong chunk, or the table of a
    correct file is not accepted. *)
Theorem C60_samples_more_runs_refuted :
  (exists rows per k c i, rows_say rows per /\ in_chunk per k c i /\
     exists r, get_sample_offset (three_runs rows) (Z.of_nat k + 1) = Ok (Some r) /\ r <> sample_range [100; 200; 300] [10; 20; 30; 40] k c i) /\
  (exists rows per, rows_say rows per /\ length per = 3%nat /\ stsc_entries (stsc_fields [0; 0; 0; 0] rows) = Panic).
Proof.
  split.
  - exists [(1, 2, 1); (2, 1, 1); (3, 1, 1)], [2; 1; 1]%nat, 2%nat, 1%nat, 0%nat. split; [reflexivity|]. split; [repeat split; cbn; lia|].
    exists (300, 30). split; [vm_compute; reflexivity|]. vm_compute. discriminate.
  - exists [(1, 3, 1); (2, 1, 1); (3, 1, 1)], [3; 1; 1]%nat. repeat split.
Qed.
Print Assumptions C60_samples_more_runs_refuted.

(** The decompressor gets the bytes of the chosen sample of the track that is
    named for the full picture, and the parameters of its CMP1 box. *)
Theorem C60_raw_sample : forall cmt boxes fuel st cm nc nz no per sizes offs c k ch i data,
  file_ok cmt boxes -> (length (flat_map senc boxes) < fuel)%nat ->
  raw_track boxes st cm -> child 0x73747363 (s_kids st) nc -> child 0x7374737A (s_kids st) nz -> child 0x636F3634 (s_kids st) no ->
  sample_tables (s_fields nc) (s_fields nz) (s_fields no) per sizes offs -> cmp1_written (s_fields cm) c ->
  in_chunk per k ch i -> sample_fits offs sizes k ch i ->
  at_ (flat_map senc boxes) (fst (sample_range offs sizes k ch i)) data -> Z.of_nat (length data) = nth k sizes 0 ->
  exists nodes, filebox_parse cmt (flat_map senc boxes) fuel = Some (Ok nodes) /\
    raw_sample (flat_map senc boxes) nodes (Z.of_nat k) = Ok (data, c).
Proof.
  intros. exists (seen_all 0 boxes). split; [now apply file_read|]. eapply raw_sample_ok; eassumption.
Qed.
Print Assumptions C60_raw_sample.

(** From the bytes of a CR3 file to its losslessly coded picture. *)
Theorem C60_lossless_picture : forall cmt boxes fuel st cm nc nz no per sizes offs d P after k ch i,
  file_ok cmt boxes -> (length (flat_map senc boxes) < fuel)%nat ->
  raw_track boxes st cm -> child 0x73747363 (s_kids st) nc -> child 0x7374737A (s_kids st) nz -> child 0x636F3634 (s_kids st) no ->
  sample_tables (s_fields nc) (s_fields nz) (s_fields no) per sizes offs -> cmp1_written (s_fields cm) (lossless_box d P) ->
  in_chunk per k ch i -> sample_fits offs sizes k ch i ->
  at_ (flat_map senc boxes) (fst (sample_range offs sizes k ch i)) (lossless_data d P ++ after) ->
  Z.of_nat (length (lossless_data d P ++ after)) = nth k sizes 0 ->
  i_new d = false -> i_qp d = false -> desc_ok d -> storable d P -> (forall t k i j, Z.abs (P t k i j) <= 2 ^ 18) ->
  exists nodes data c, filebox_parse cmt (flat_map senc boxes) fuel = Some (Ok nodes) /\
    raw_sample (flat_map senc boxes) nodes (Z.of_nat k) = Ok (data, c) /\ decompress_crx data c = Ok (picture d P).
Proof.
  intros cmt boxes fuel st cm nc nz no per sizes offs d P after k ch i H1 H2 H3 H4 H5 H6 H7 H8 H9 H10 H11 H12 H13 H14 H15 H16 H17.
  destruct (C60_raw_sample cmt boxes fuel st cm nc nz no per sizes offs _ k ch i _ H1 H2 H3 H4 H5 H6 H7 H8 H9 H10 H11 H12) as (nodes & A & B).
  exists nodes, (lossless_data d P ++ after), (lossless_box d P). split; [exact A|]. split; [exact B|]. now apply lossless_roundtrip.
Qed.
Print Assumptions C60_lossless_picture.

(** The reader ends on every file in which no box header says size 0. *)
Theorem C60_ends : forall cmt file fuel, Forall (urange 8) file -> (11 * (length file + 4) <= fuel)%nat ->
  filebox_parse cmt file fuel = None -> exists p, 0 <= p < Z.of_nat (length file) /\ zero_size_at file p.
Proof. exact parse_ends. Qed.
Print Assumptions C60_ends.

(** It does not end on every file. *)
Theorem C60_ends_refuted : exists file, Forall (urange 8) file /\ forall cmt fuel, filebox_parse cmt file fuel = None.
Proof.
  exists endless. split; [repeat (apply Forall_cons; [unfold urange; lia|]); apply Forall_nil|exact endless_parse].
Qed.
Print Assumptions C60_ends_refuted.

(** A box of size 0 at the start of the file is reported as an error. *)
Theorem C60_zero_first : forall cmt file typ fuel, at_ file 0 (be 4 0 ++ be 4 typ) -> urange 32 typ ->
  typ <> 0x66747970 -> typ <> 0x6D6F6F76 -> typ <> 0x75756964 -> (2 <= fuel)%nat -> filebox_parse cmt file fuel = Some Err.
Proof. exact zero_first. Qed.
Print Assumptions C60_zero_first.

(** A small CR3 file *)
Definition z4 : list Z := [0; 0; 0; 0].
Definition box (t : Z) (f : list Z) (kids : list sbox) : sbox := SBox t [] false f kids [].
Definition ex_cmp : CrxImage.cmp1 := mk_cmp1 0x100 4 4 4 4 14 4 0 3 16 14.
Definition ex_cmp_fields : list Z :=
  be 2 (-1) ++ be 2 48 ++ be 2 0x100 ++ be 2 0 ++ be 4 4 ++ be 4 4 ++ be 4 4 ++ be 4 4 ++ be 1 14 ++ be 1 (16 * 4 + 0) ++ be 1 (16 * 0 + 3) ++ be 1 0 ++ be 4 16 ++ be 4 0 ++ [].
Definition ex_cm : sbox := SBox 0x434D5031 [] false ex_cmp_fields [] [9; 9].
Definition ex_nc : sbox := box 0x73747363 (stsc_fields z4 [(1, 2, 1)]) [].
Definition ex_nz : sbox := box 0x7374737A (stsz_fields z4 0 2 [3; 5]) [].
Definition ex_no : sbox := box 0x636F3634 (co64_fields z4 [571]) [].
Definition ex_cw : sbox := box 0x43524157 (repeat 0 82) [ex_cm].
Definition ex_sd : sbox := box 0x73747364 (repeat 0 8) [ex_cw].
Definition ex_st : sbox := box 0x7374626C [] [ex_sd; box 0x73747473 (z4 ++ be 4 0 ++ []) []; ex_nc; ex_nz; ex_no].
Definition ex_mi : sbox := box 0x6D696E66 [] [box 0x64696E66 [] []; ex_st].
Definition ex_md : sbox := box 0x6D646961 [] [box 0x6D646864 (repeat 0 22) []; box 0x68646C72 z4 []; ex_mi].
Definition ex_tr : sbox := box 0x7472616B [] [box 0x746B6864 z4 []; ex_md].
Definition ex_ccdt : sbox := box 0x43434454 (be 8 0 ++ be 4 0 ++ be 4 (Z.of_nat 0 + 1)) [].
Definition ex_ct : sbox := box 0x43435450 (repeat 0 12) [ex_ccdt].
Definition ex_cr : sbox :=
  SBox 0x75756964 CR3_UUID false []
    [box 0x434E4356 (repeat 65 30) []; ex_ct; box 0x4354424F [] []; box 0x434D5431 [1] []; box 0x434D5432 [2; 3] []; box 0x434D5433 [] [];
     box 0x434D5434 [] []; box 0x54484D42 [] []] [].
Definition ex_mv : sbox := box 0x6D6F6F76 [] [box 0x6D766864 (repeat 0 20) []; ex_cr; ex_tr].
Definition ex_boxes : list sbox :=
  [box 0x66747970 (be 4 0x63727820 ++ be 4 1 ++ flat_map (be 4) [0x63727820]) []; ex_mv; SBox 0x6D646174 [] true [] [] [1; 2; 3; 4; 5; 6; 7; 8]].

Ltac hdr := split; [unfold urange; cbn [s_typ box]; lia|split; [reflexivity|intros _; vm_compute; reflexivity]].
Ltac others := apply Forall_cons; [discriminate|] || apply Forall_nil.
Ltac needs := intros t Ht; repeat (destruct Ht as [<- | Ht]; [vm_compute; tauto|]); destruct Ht.
Lemma ex_cmp_shape : cmp1_shape ex_cmp_fields.
Proof. split; [apply Forall_forall; intros x Hx; vm_compute in Hx; repeat (destruct Hx as [<- | Hx]; [unfold urange; lia|]); destruct Hx|]. left. split; vm_compute; reflexivity. Qed.
Lemma ex_stsd_ok : box_ok (fun _ => Ok tt) InStbl ex_sd.
Proof.
  split; [hdr|]. change (inner InStbl _ _) with (Some (InStsd, 8%nat)). split; [reflexivity|]. split; [reflexivity|]. split; [split; [needs|]|split; [|exact I]].
  - intros _ t Ht. repeat (destruct Ht as [<- | Ht]; [vm_compute; lia|]). destruct Ht.
  - split; [hdr|]. change (inner InStsd _ _) with (Some (InCraw, 82%nat)). split; [reflexivity|]. split; [reflexivity|]. split; [split; [needs|intros [=]]|split; [|exact I]].
    split; [hdr|]. change (inner InCraw _ _) with (@None (place * nat)). split; [reflexivity|]. exact ex_cmp_shape.
Qed.
Lemma ex_stbl_ok : box_ok (fun _ => Ok tt) InMinf ex_st.
Proof.
  split; [hdr|]. change (inner InMinf _ _) with (Some (InStbl, 0%nat)). split; [reflexivity|]. split; [reflexivity|]. split; [split; [needs|intros [=]]|].
  split; [exact ex_stsd_ok|]. split.
  { split; [hdr|]. split; [reflexivity|]. exists z4, []. repeat split; constructor. }
  split. { split; [hdr|]. split; [reflexivity|]. exists z4, [(1, 2, 1)]. repeat split; repeat constructor; unfold urange; lia. }
  split. { split; [hdr|]. split; [reflexivity|]. exists z4, 0, 2, [3; 5]. repeat split; try (unfold urange; lia); easy. }
  split; [|exact I]. split; [hdr|]. split; [reflexivity|]. exists z4, [be 8 571]. repeat split; repeat constructor.
Qed.
Lemma ex_trak_ok : box_ok (fun _ => Ok tt) InMoov ex_tr.
Proof.
  split; [hdr|]. change (inner InMoov _ _) with (Some (InTrak, 0%nat)). split; [reflexivity|]. split; [reflexivity|]. split; [split; [needs|intros [=]]|].
  split; [split; [hdr|]; split; reflexivity|]. split; [|exact I].
  split; [hdr|]. change (inner InTrak _ _) with (Some (InMdia, 0%nat)). split; [reflexivity|]. split; [reflexivity|]. split; [split; [needs|intros [=]]|].
  split; [split; [hdr|]; split; [reflexivity|]; left; split; reflexivity|]. split; [split; [hdr|]; split; reflexivity|]. split; [|exact I].
  split; [hdr|]. change (inner InMdia _ _) with (Some (InMinf, 0%nat)). split; [reflexivity|]. split; [reflexivity|]. split; [split; [needs|intros [=]]|].
  split; [split; [hdr|]; split; reflexivity|]. split; [exact ex_stbl_ok|exact I].
Qed.
Lemma ex_cr_ok : box_ok (fun _ => Ok tt) InMoov ex_cr.
Proof.
  split; [hdr|]. change (inner InMoov _ _) with (Some (InCr3, 0%nat)). split; [reflexivity|]. split; [reflexivity|]. split; [split; [needs|intros [=]]|].
  split; [split; [hdr|]; split; reflexivity|]. split.
  { split; [hdr|]. change (inner InCr3 _ _) with (Some (InCctp, 12%nat)). split; [reflexivity|]. split; [reflexivity|]. split; [split; [needs|intros [=]]|].
    split; [|exact I]. split; [hdr|]. split; [reflexivity|]. split; reflexivity. }
  split; [split; [hdr|]; split; [reflexivity|]; split; [now left|reflexivity]|].
  split; [split; [hdr|]; split; [reflexivity|]; split; reflexivity|]. split; [split; [hdr|]; split; [reflexivity|]; split; reflexivity|].
  split; [split; [hdr|]; split; [reflexivity|]; split; reflexivity|]. split; [split; [hdr|]; split; [reflexivity|]; split; reflexivity|].
  split; [|exact I]. split; [hdr|]; split; [reflexivity|]; split; [right; now left|reflexivity].
Qed.
Lemma ex_file_ok : file_ok (fun _ => Ok tt) ex_boxes.
Proof.
  split; [|split; [split; [needs|intros [=]]|vm_compute; reflexivity]].
  constructor. { split; [hdr|]. split; [reflexivity|]. split; [reflexivity|]. split; [reflexivity|]. exists 0x63727820, 1, [0x63727820]. reflexivity. }
  constructor.
  { split; [hdr|]. change (inner AtFile _ _) with (Some (InMoov, 0%nat)). split; [reflexivity|]. split; [reflexivity|]. split; [split; [needs|intros [=]]|].
    split; [split; [hdr|]; split; [reflexivity|]; left; split; reflexivity|]. split; [exact ex_cr_ok|]. split; [exact ex_trak_ok|exact I]. }
  constructor; [|constructor]. split; [split; [unfold urange; cbn [s_typ]; lia|split; [reflexivity|intros [=]]]|]. split; reflexivity.
Qed.
Lemma ex_raw_track : raw_track ex_boxes ex_st ex_cm.
Proof.
  exists ex_mv, ex_cr, ex_ct, [], ex_ccdt, [], 0%nat, ex_tr, ex_md, ex_mi, ex_sd, ex_cw.
  assert (C : forall t l c r, s_typ c = t -> Forall (fun x => s_typ x <> t) (l ++ r) -> child t (l ++ c :: r) c) by (intros t l c r H1 H2; now exists l, r).
  split; [apply (C _ [_] _ [_]); [reflexivity|repeat others]|]. split; [apply (C _ [_] _ [_]); [reflexivity|repeat others]|].
  split; [apply (C _ [_] _ [_; _; _; _; _; _]); [reflexivity|repeat others]|]. split; [reflexivity|]. split; [constructor|].
  split; [exists 0; repeat split; unfold urange; lia|]. split; [reflexivity|].
  split; [apply (C _ [_] _ []); [reflexivity|repeat others]|]. split; [apply (C _ [_; _] _ []); [reflexivity|repeat others]|].
  split; [apply (C _ [_] _ []); [reflexivity|repeat others]|]. split; [apply (C _ [] _ [_; _; _; _]); [reflexivity|repeat others]|].
  split; [apply (C _ [] _ []); [reflexivity|constructor]|apply (C _ [] _ []); [reflexivity|constructor]].
Qed.

Example C60_example : exists nodes, filebox_parse (fun _ => Ok tt) (flat_map senc ex_boxes) 1000 = Some (Ok nodes) /\
  raw_sample (flat_map senc ex_boxes) nodes 1 = Ok ([4; 5; 6; 7; 8], ex_cmp).
Proof.
  apply (C60_raw_sample (fun _ => Ok tt) ex_boxes 1000 ex_st ex_cm ex_nc ex_nz ex_no [2%nat] [3; 5] [571] ex_cmp 1 0 1 [4; 5; 6; 7; 8] ex_file_ok).
  - apply Nat.ltb_lt. vm_compute. reflexivity.
  - exact ex_raw_track.
  - eexists [_; _], [_; _]. split; [reflexivity|]. split; [reflexivity|repeat others].
  - eexists [_; _; _], [_]. split; [reflexivity|]. split; [reflexivity|repeat others].
  - eexists [_; _; _; _], []. split; [reflexivity|]. split; [reflexivity|repeat others].
  - split; [exists z4, [(1, 2, 1)]; split; [reflexivity|]; split; [repeat constructor; unfold urange; lia|]; split; [left; exists 2%nat, 1, 1%nat; now split|reflexivity]|].
    split; [exists z4; split; [reflexivity|left; reflexivity]|]. split; [exists z4; now split|].
    repeat split; repeat constructor; unfold urange; lia.
  - exists (-1), 48, 0, 0, 0, 0, []. split; [reflexivity|]. repeat split; try (unfold urange; cbn; lia); cbn; lia.
  - repeat split; cbn; lia.
  - split; vm_compute; reflexivity.
  - exists (firstn 574 (flat_map senc ex_boxes)), []. split; vm_compute; reflexivity.
  - reflexivity.
Qed.
