(** ISO base media files, the container of Canon CR3
    (rawler/src/formats/bmff/*.rs, ext_cr3/*.rs) and the choice of the raw
    sample in decoders/cr3.rs.
    A file is its list of bytes, the reader a position in it.  A box is kept as
    its header, the bytes of its fields in the order they are read, and its
    child boxes in the order of the file; the typed structs of the code hold
    the fields and the last child of each type.  Integer overflow panics (debug
    build).  [Vec::with_capacity] of a large table is not modelled.  A table of
    stsc that is both cut short and overflows is an error here, a panic in the
    code when the overflow comes first. *)
From Coq Require Import List ZArith Lia Bool.
From Verif Require Import Base Tiff RawSource CrxImage.
Import ListNotations.
Open Scope Z_scope.

(** Outcome of a loop that may not end: [None] when [fuel] was too little. *)
Definition obind {A B} (r : option (res A)) (f : A -> option (res B)) : option (res B) :=
  match r with Some (Ok a) => f a | Some Err => Some Err | Some Panic => Some Panic | None => None end.
Notation "'run' x <- e ; f" := (obind e (fun x => f))
  (at level 200, x pattern, e at level 100, f at level 200, right associativity).

Definition rd_be (file : list Z) (pos : Z) (n : Z) : res Z := do b <- rd file pos n; Ok (dec BE b).

(** BoxHeader, mod.rs:58-67 *)
Record bhdr := mk_bhdr { h_size : Z; h_typ : Z; h_uuid : option (list Z); h_off : Z; h_len : Z }.

(** FourCC constants of the [TYP] items; the bytes read as big endian number *)
Definition ftyp := 0x66747970. Definition moov := 0x6D6F6F76. Definition mdat := 0x6D646174.
Definition uuid_ := 0x75756964. Definition mvhd := 0x6D766864. Definition trak := 0x7472616B.
Definition tkhd := 0x746B6864. Definition mdia := 0x6D646961. Definition mdhd := 0x6D646864.
Definition hdlr := 0x68646C72. Definition minf := 0x6D696E66. Definition vmhd := 0x766D6864.
Definition dinf := 0x64696E66. Definition stbl := 0x7374626C. Definition stsd := 0x73747364.
Definition stts := 0x73747473. Definition stsc := 0x73747363. Definition stsz := 0x7374737A.
Definition co64 := 0x636F3634. Definition craw := 0x43524157. Definition ctmd := 0x43544D44.
Definition jpeg := 0x4A504547. Definition hevc := 0x48455643. Definition cmp1_ := 0x434D5031.
Definition cdi1 := 0x43444931. Definition iad1 := 0x49414431. Definition cncv := 0x434E4356.
Definition cctp := 0x43435450. Definition ccdt := 0x43434454. Definition ctbo := 0x4354424F.
Definition cmt1 := 0x434D5431. Definition cmt2 := 0x434D5432. Definition cmt3 := 0x434D5433.
Definition cmt4 := 0x434D5434. Definition cnop := 0x434E4F50. Definition thmb := 0x54484D42.
Definition skip_ := 0x736B6970. Definition free_ := 0x66726565.

(** Cr3DescBox::UUID, cr3desc.rs:35; Cr3XpacketBox::UUID, cr3xpacket.rs:15 *)
Definition CR3_UUID : list Z := [0x85; 0xc0; 0xb6; 0x87; 0x82; 0x0f; 0x11; 0xe0; 0x81; 0x11; 0xf4; 0xce; 0x46; 0x2b; 0x6a; 0x48].
Definition XPACKET_UUID : list Z := [0xbe; 0x7a; 0xcf; 0xcb; 0x97; 0xa9; 0x42; 0xe8; 0x9c; 0x71; 0x99; 0x94; 0x91; 0xe3; 0xaf; 0xac].

Fixpoint bytes_eqb (a b : list Z) : bool :=
  match a, b with
  | [], [] => true
  | x :: a, y :: b => (x =? y) && bytes_eqb a b
  | _, _ => false
  end.

(** BoxHeader::parse, mod.rs:70-92; with the position after it *)
Definition header_parse (file : list Z) (start : Z) : res (bhdr * Z) :=
  do size <- rd_be file start 4;
  do typ <- rd_be file (start + 4) 4;
  do (size, p) <- (if size =? 1 then do s <- rd_be file (start + 8) 8; Ok (s, start + 16) else Ok (size, start + 8));
  do (uuid, p) <- (if typ =? uuid_ then do b <- rd file p 16; Ok (Some b, p + 16) else Ok (None, p));
  Ok (mk_bhdr size typ uuid start (p - start), p).

(** BoxHeader::end_offset, mod.rs:94-96 *)
Definition end_offset (h : bhdr) : res Z := add_u64 (h_off h) (h_size h).

(** What [read_box] is called: [KSkip] is for the boxes of which only the header
    is kept (mdat, dinf, vendor, hevc, thmb, ctbo, skip, free, cr3xpacket). *)
Inductive kind :=
| KFile | KMoov | KTrak | KMdia | KMinf | KStbl | KStsd | KCraw | KCdi1 | KCctp | KCr3
| KSkip | KFull | KFtyp | KMvhd | KMdhd | KVmhd | KStts | KStsc | KStsz | KCo64 | KCtmd
| KCmp1 | KIad1 | KCcdt | KCncv | KCmt | KCnop.

Definition is_file (k : kind) : bool := match k with KFile => true | _ => false end.
Definition is_stsd (k : kind) : bool := match k with KStsd => true | _ => false end.
(** boxes with child boxes *)
Definition container (k : kind) : bool :=
  match k with
  | KFile | KMoov | KTrak | KMdia | KMinf | KStbl | KStsd | KCraw | KCdi1 | KCctp | KCr3 => true
  | _ => false
  end.

(** How the loops over child boxes treat a box: read it, leave the reader
    behind its header, or fail. *)
Inductive action := Use (k : kind) | Pass | Reject.

(** The [match header.typ] of mod.rs:156-184, moov.rs:47-67, trak.rs:41-54,
    mdia.rs:40-56, minf.rs:42-57, stbl.rs:72-94, stsd.rs:49-64, craw.rs:90-110,
    cdi1.rs:37-46, cctp.rs:42-52, cr3desc.rs:56-92 *)
Definition kid_kind (k : kind) (typ : Z) (uuid : option (list Z)) : action :=
  match k with
  | KFile => if typ =? ftyp then Use KFtyp else if typ =? moov then Use KMoov else Use KSkip
  | KMoov =>
      if typ =? mvhd then Use KMvhd else if typ =? trak then Use KTrak else
      match uuid with
      | Some u => if bytes_eqb u CR3_UUID then Use KCr3 else Pass
      | None => Use KSkip
      end
  | KTrak => if typ =? tkhd then Use KFull else if typ =? mdia then Use KMdia else Use KSkip
  | KMdia =>
      if typ =? mdhd then Use KMdhd else if typ =? hdlr then Use KFull else
      if typ =? minf then Use KMinf else Use KSkip
  | KMinf => if typ =? vmhd then Use KVmhd else if typ =? stbl then Use KStbl else Use KSkip
  | KStbl =>
      if typ =? stsd then Use KStsd else if typ =? stts then Use KStts else
      if typ =? stsc then Use KStsc else if typ =? stsz then Use KStsz else
      if typ =? co64 then Use KCo64 else Use KSkip
  | KStsd => if typ =? craw then Use KCraw else if typ =? ctmd then Use KCtmd else Use KSkip
  | KCraw =>
      if typ =? jpeg then Use KFull else if typ =? hevc then Use KSkip else
      if typ =? cmp1_ then Use KCmp1 else if typ =? cdi1 then Use KCdi1 else
      if typ =? free_ then Use KSkip else Reject
  | KCdi1 => if typ =? iad1 then Use KIad1 else Reject
  | KCctp => if typ =? ccdt then Use KCcdt else Reject
  | KCr3 =>
      if typ =? cncv then Use KCncv else if typ =? cctp then Use KCctp else
      if existsb (Z.eqb typ) [cmt1; cmt2; cmt3; cmt4] then Use KCmt else
      if typ =? cnop then Use KCnop else
      if existsb (Z.eqb typ) [ctbo; thmb; skip_; free_] then Use KSkip else Reject
  | _ => Reject
  end.

(** The children without which a box is not accepted ([ok_or_else]) *)
Definition required (k : kind) : list Z :=
  match k with
  | KFile => [ftyp; moov; mdat]
  | KMoov => [mvhd]
  | KTrak => [tkhd; mdia]
  | KMdia => [mdhd; hdlr; minf]
  | KMinf => [dinf; stbl]
  | KStbl => [stsd; stts; stsc; stsz]
  | KCdi1 => [iad1]
  | KCr3 => [cncv; cctp; ctbo; cmt1; cmt2; cmt3; cmt4; thmb]
  | _ => []
  end.

Inductive node := Node (h : bhdr) (fields : list Z) (kids : list node).
Definition n_hdr (n : node) : bhdr := let 'Node h _ _ := n in h.
Definition n_fields (n : node) : list Z := let 'Node _ f _ := n in f.
Definition n_kids (n : node) : list node := let 'Node _ _ k := n in k.
Definition n_typ (n : node) : Z := h_typ (n_hdr n).
Definition has_kid (t : Z) (l : list node) : bool := existsb (fun n => n_typ n =? t) l.

(** Sequential fields of the box as numbers *)
Definition fld (b : list Z) (at_ n : nat) : Z := dec BE (firstn n (skipn at_ b)).

(** The sample number column of the stsc table, stsc.rs:57-71 *)
Fixpoint stsc_fill (last : Z * Z * Z) (l : list (Z * Z * Z)) : res (list (Z * Z * Z)) :=
  match l with
  | [] => Ok [last]
  | (fc, spc, _) :: l =>
      let '(_, spc', fs') := last in
      let d := fc - fs' in
      let fs := fs' + d * spc' in
      if (d <? 0) || (2 ^ 32 <=? d * spc') || (2 ^ 32 <=? fs) then Panic else
      do r <- stsc_fill (fc, spc, fs) l; Ok (last :: r)
  end.
(** (first_chunk, samples_per_chunk, first_sample) of the entries *)
Definition stsc_entries (f : list Z) : res (list (Z * Z * Z)) :=
  let raw := map (fun i => (fld f (8 + 12 * i) 4, fld f (12 + 12 * i) 4, 0)) (seq 0 (Z.to_nat (fld f 4 4))) in
  match raw with [] => Ok [] | (fc, spc, _) :: l => stsc_fill (fc, spc, 1) l end.

Section WithCmt.
(** GenericTiffReader::new_with_buffer on the content of a CMT box *)
Variable cmt : list Z -> res unit.
Variable file : list Z.

(** Number of bytes the fields of a box take when the reader is at [pos]:
    ftyp.rs:23-35, tkhd.rs:22, mdhd.rs:28-46, mvhd.rs:29-46, hdlr.rs:22,
    vmhd.rs:32-39, stts.rs:30-40, stsc.rs:42-71, stsz.rs:34-47, co64.rs:25-32,
    stsd.rs:32-40, craw.rs:48-75, ctmd.rs:42-63, cmp1.rs:39-88, cdi1.rs:26,
    iad1.rs:67-107, cctp.rs:30-32, ccdt.rs:23-25, cncv.rs:20-22, cmt1.rs:23-26,
    cnop.rs:20-23, jpeg.rs:21 *)
Definition field_len (k : kind) (h : bhdr) (pos : Z) : res Z :=
  match k with
  | KFtyp =>
      do _ <- rd file pos 8;
      if negb (h_size h mod 4 =? 0) then Err else
      if h_size h <? 16 then Panic else Ok (8 + 4 * ((h_size h - 16) / 4))
  | KFull | KCdi1 => Ok 4
  | KMvhd | KMdhd =>
      let more := match k with KMdhd => 2 | _ => 0 end in
      do b <- rd file pos 4;
      if fld b 0 1 =? 1 then Ok (32 + more) else do _ <- assert_ (fld b 0 1 =? 0); Ok (20 + more)
  | KVmhd | KCctp => Ok 12
  | KStts | KCo64 => do b <- rd file pos 8; Ok (8 + 8 * fld b 4 4)
  | KStsc => do b <- rd file pos 8; Ok (8 + 12 * fld b 4 4)
  | KStsz => do b <- rd file pos 12; Ok (if fld b 4 4 =? 0 then 12 + 4 * fld b 8 4 else 12)
  | KStsd => Ok 8
  | KCraw => Ok 82
  | KCtmd => do b <- rd file pos 12; Ok (12 + 8 * fld b 8 4)
  | KCmp1 =>
      do b <- rd file pos 36;
      if (fld b 32 4 >=? 2 ^ 31) && (fld b 25 1 / 16 =? 4) && (56 <=? h_size h) then
        do b <- rd file pos 60;
        if Z.testbit (fld b 56 4) 30 && (84 <? h_size h) then Ok 85 else Ok 60
      else Ok 36
  | KIad1 =>
      do b <- rd file pos 16;
      if fld b 10 2 =? 0 then Ok 32 else if fld b 10 2 =? 2 then Ok 48 else Panic
  | KCcdt => Ok 16
  | KCncv => Ok 30
  | KCmt | KCnop => do e <- end_offset h; if e <? pos then Panic else Ok (e - pos)
  | _ => Ok 0
  end.

(** What else can fail while the fields are read *)
Definition field_check (k : kind) (h : bhdr) (pos : Z) (f : list Z) : res unit :=
  match k with
  | KStsc => do _ <- stsc_entries f; Ok tt
  | KCmt => cmt f
  | KCtmd => do e <- end_offset h; assert_ (pos + Z.of_nat (length f) =? e)
  | _ => Ok tt
  end.

(** The [read_box] of every box, and the loops over child boxes: *)
Fixpoint read_box (fuel : nat) (k : kind) (h : bhdr) (pos : Z) : option (res (node * Z)) :=
  match fuel with
  | O => None
  | S fuel =>
      run n <- Some (field_len k h pos);
      run f <- Some (rd file pos n);
      run _ <- Some (field_check k h pos f);
      run e <- Some (end_offset h);
      if container k then
        run kids <- read_kids fuel k e (pos + n) [];
        run _ <- Some (check (forallb (fun t => has_kid t kids) (required k)));
        Some (Ok (Node h f kids, e))
      else Some (Ok (Node h f [], e))
  end
(** [while current < end]; only the loop over the file, mod.rs:149-191, checks
    that the reader has moved; stsd.rs:51,55 assert that there is one box. *)
with read_kids (fuel : nat) (k : kind) (e : Z) (pos : Z) (acc : list node) : option (res (list node)) :=
  match fuel with
  | O => None
  | S fuel =>
      if pos <? e then
        run (h, p) <- Some (header_parse file pos);
        match kid_kind k (h_typ h) (h_uuid h) with
        | Reject => Some Err
        | Pass => read_kids fuel k e p acc
        | Use k' =>
            run _ <- Some (assert_ (negb (is_stsd k && existsb (Z.eqb (h_typ h)) [craw; ctmd] && has_kid (h_typ h) acc)));
            run (nd, p) <- read_box fuel k' h p;
            if is_file k && (p =? pos) then Some Err else read_kids fuel k e p (acc ++ [nd])
        end
      else Some (Ok acc)
  end.

(** FileBox::parse, mod.rs:139-200: the boxes of the file *)
Definition filebox_parse (fuel : nat) : option (res (list node)) :=
  run kids <- read_kids fuel KFile (Z.of_nat (length file)) 0 [];
  run _ <- Some (check (forallb (fun t => has_kid t kids) (required KFile)));
  Some (Ok kids).
End WithCmt.

(** [x = Some(...)] in the loops: the last child of a type *)
Definition kid (t : Z) (l : list node) : option node := find (fun n => n_typ n =? t) (rev l).
(** a field that is not an [Option]; the parser has checked that it is there *)
Definition the (t : Z) (n : node) : res node := match kid t (n_kids n) with Some m => Ok m | None => Panic end.

(** Bmff::compatible_brand, mod.rs:324-326: brands of ftyp *)
Definition brands (n : node) : list Z :=
  map (fun i => fld (n_fields n) (8 + 4 * i) 4) (seq 0 ((length (n_fields n) - 8) / 4)).
Definition compatible_brand (kids : list node) (brand : Z) : bool :=
  match kid ftyp kids with Some n => existsb (Z.eqb brand) (brands n) | None => false end.

(** [slice::binary_search_by] of the standard library (Rust 1.89) on the
    sample numbers; [fuel] bounds the halving loop *)
Fixpoint search_base (fuel : nat) (l : list (Z * Z * Z)) (sample : Z) (base size : nat) : nat :=
  match fuel with
  | O => base
  | S fuel =>
      if (size <=? 1)%nat then base else
      let half := (size / 2)%nat in
      let mid := (base + half)%nat in
      let '(_, _, fs) := nth mid l (0, 0, 0) in
      search_base fuel l sample (if sample <? fs then base else mid) (size - half)
  end.
(** StscBox::get_entry_for_sample, stsc.rs:29-37 *)
Definition entry_for_sample (l : list (Z * Z * Z)) (sample : Z) : res (Z * Z * Z) :=
  do _ <- assert_ (0 <? sample);
  do (_, _, fs0) <- get l 0;
  do _ <- assert_ (fs0 =? 1);
  let i := search_base (length l) l sample 0 (length l) in
  do (_, _, fs) <- get l i;
  if fs <=? sample then get l i else do j <- usub i 1; get l j.

(** StszBox::sample_size, stsz.rs:23-29 *)
Definition sample_size (f : list Z) (sample : Z) : res Z :=
  if 0 <? fld f 4 4 then Ok (fld f 4 4) else
  if sample <? 1 then Panic else
  if sample <=? fld f 8 4 then Ok (fld f (12 + 4 * Z.to_nat (sample - 1)) 4) else Panic.

Definition add32 (a b : Z) : res Z := if a + b <? 2 ^ 32 then Ok (a + b) else Panic.
Definition sub32 (a b : Z) : res Z := if b <=? a then Ok (a - b) else Panic.

(** StblBox::get_sample_offset, stbl.rs:25-47 *)
Definition get_sample_offset (st : node) (sample : Z) : res (option (Z * Z)) :=
  match kid co64 (n_kids st) with
  | None => Ok None
  | Some co =>
      do _ <- assert_ (0 <? sample);
      do c <- the stsc st;
      do z <- the stsz st;
      do l <- stsc_entries (n_fields c);
      do (fc, spc, fs) <- entry_for_sample l sample;
      do f1 <- sub32 fs 1;
      do d <- sub32 (sample - 1) f1;
      do _ <- assert_ (negb (spc =? 0));
      do chunk <- add32 fc (d / spc);
      do s0 <- sub32 sample fs;
      let idx := s0 mod spc in
      do ci <- sub32 chunk 1;
      do _ <- assert_ (ci <? fld (n_fields co) 4 4);
      let chunk_offset := fld (n_fields co) (8 + 8 * Z.to_nat ci) 8 in
      do so <- for_each (map Z.of_nat (seq 0 (Z.to_nat idx)))
        (fun i acc => do s <- sample_size (n_fields z) (sample - idx + i); add32 acc s) 0;
      do size <- sample_size (n_fields z) sample;
      do off <- add_u64 chunk_offset so;
      Ok (Some (off, size))
  end.

(** Cmp1Box, cmp1.rs:38-112, as far as the decompressor reads it *)
Definition cmp1_of (f : list Z) : cmp1 :=
  let bits := fld f 24 1 in
  mk_cmp1 (fld f 4 2) (fld f 8 4) (fld f 12 4) (fld f 16 4) (fld f 20 4) bits (fld f 25 1 / 16)
    (fld f 26 1 / 16) (fld f 26 1 mod 16) (fld f 28 4) (if (84 <? length f)%nat then fld f 84 1 else bits).

(** The stbl box of a trak: [trak.mdia.minf.stbl] *)
Definition trak_stbl (t : node) : res node := do m <- the mdia t; do i <- the minf m; the stbl i.

(** Cr3Decoder::get_trak_index, cr3.rs:593-603 *)
Definition get_trak_index (mv : node) (image_type : Z) : res (option nat) :=
  match kid uuid_ (n_kids mv) with
  | None => Ok None
  | Some d =>
      do c <- the cctp d;
      match find (fun r => fld (n_fields r) 0 8 =? image_type) (n_kids c) with
      | None => Ok None
      | Some r => do i <- sub32 (fld (n_fields r) 12 4) 1; Ok (Some (Z.to_nat i))
      end
  end.

(** The buffer and CMP1 box that raw_image of cr3.rs:257-300 passes to the
    decompressor; the environment variable that overrides the trak is unset and
    the metadata reader (cr3.rs:266) succeeds *)
Definition raw_sample (file : list Z) (boxes : list node) (sample_idx : Z) : res (list Z * cmp1) :=
  match kid moov boxes with
  | None => Panic
  | Some mv =>
      do t <- get_trak_index mv 0;
      match t with
      | None => Err
      | Some i =>
          match nth_error (filter (fun n => n_typ n =? trak) (n_kids mv)) i with
          | None => Err
          | Some t =>
              do st <- trak_stbl t;
              do z <- the stsz st;
              if fld (n_fields z) 8 4 <=? sample_idx then Err else
              do o <- get_sample_offset st (sample_idx + 1);
              match o with
              | None => Err
              | Some (off, size) =>
                  do buf <- subview file off size;
                  do sd <- the stsd st;
                  match kid craw (n_kids sd) with
                  | None => Err
                  | Some w => match kid cmp1_ (n_kids w) with None => Err | Some c => Ok (buf, cmp1_of (n_fields c)) end
                  end
              end
          end
      end
  end.
