(** Boxes of ISO base media files as the format describes them: a tree with its
    bytes, the shapes of the boxes a CR3 file is made of, and the samples that
    the chunk tables describe.  Four-character codes are written as numbers. *)
From Coq Require Import List ZArith Lia Bool.
From Verif Require Import Base Tiff TiffSpec Bmff.
Import ListNotations.
Open Scope Z_scope.

(** type, uuid (16 bytes when the type is 'uuid'), 64-bit size field, fields,
    child boxes, further bytes *)
Inductive sbox := SBox (typ : Z) (uuid : list Z) (wide : bool) (fields : list Z) (kids : list sbox) (extra : list Z).
Definition s_typ (b : sbox) : Z := let 'SBox t _ _ _ _ _ := b in t.
Definition s_uuid (b : sbox) : list Z := let 'SBox _ u _ _ _ _ := b in u.
Definition s_wide (b : sbox) : bool := let 'SBox _ _ w _ _ _ := b in w.
Definition s_fields (b : sbox) : list Z := let 'SBox _ _ _ f _ _ := b in f.
Definition s_kids (b : sbox) : list sbox := let 'SBox _ _ _ _ k _ := b in k.
Definition s_extra (b : sbox) : list Z := let 'SBox _ _ _ _ _ e := b in e.

Definition be (n : nat) (v : Z) : list Z := enc BE n v.

(** Length of the header, and the header of a box of [size] bytes *)
Definition hdr_len (b : sbox) : Z := 8 + (if s_wide b then 8 else 0) + Z.of_nat (length (s_uuid b)).
Definition hdr_bytes (typ : Z) (uuid : list Z) (wide : bool) (size : Z) : list Z :=
  (if wide then be 4 1 ++ be 4 typ ++ be 8 size else be 4 size ++ be 4 typ) ++ uuid.

Fixpoint senc (b : sbox) : list Z :=
  let 'SBox typ uuid wide f kids extra := b in
  let body := f ++ flat_map senc kids ++ extra in
  hdr_bytes typ uuid wide (hdr_len b + Z.of_nat (length body)) ++ body.
Definition ssize (b : sbox) : Z := Z.of_nat (length (senc b)).

(** The tree of headers that a reader should report for a box at [off] *)
Fixpoint seen (off : Z) (b : sbox) : node :=
  let 'SBox typ uuid wide f kids extra := b in
  Node (mk_bhdr (ssize b) typ (if typ =? 0x75756964 then Some uuid else None) off (hdr_len b)) f
    ((fix go o l := match l with [] => [] | k :: l => seen o k :: go (o + ssize k) l end)
       (off + hdr_len b + Z.of_nat (length f)) kids).
Fixpoint seen_all (off : Z) (l : list sbox) : list node :=
  match l with [] => [] | k :: l => seen off k :: seen_all (off + ssize k) l end.

(** ** Shapes of the boxes *)
Inductive place := AtFile | InMoov | InTrak | InMdia | InMinf | InStbl | InStsd | InCraw | InCdi1 | InCctp | InCr3.

(** Boxes that hold boxes: where their children are, bytes before these *)
Definition inner (p : place) (typ : Z) (uuid : list Z) : option (place * nat) :=
  match p with
  | AtFile => if typ =? 0x6D6F6F76 (* moov *) then Some (InMoov, 0%nat) else None
  | InMoov =>
      if typ =? 0x7472616B (* trak *) then Some (InTrak, 0%nat) else
      if (typ =? 0x75756964) (* uuid *) && (if list_eq_dec Z.eq_dec uuid
           [0x85; 0xc0; 0xb6; 0x87; 0x82; 0x0f; 0x11; 0xe0; 0x81; 0x11; 0xf4; 0xce; 0x46; 0x2b; 0x6a; 0x48] then true else false)
      then Some (InCr3, 0%nat) else None
  | InTrak => if typ =? 0x6D646961 (* mdia *) then Some (InMdia, 0%nat) else None
  | InMdia => if typ =? 0x6D696E66 (* minf *) then Some (InMinf, 0%nat) else None
  | InMinf => if typ =? 0x7374626C (* stbl *) then Some (InStbl, 0%nat) else None
  | InStbl => if typ =? 0x73747364 (* stsd *) then Some (InStsd, 8%nat) else None
  | InStsd => if typ =? 0x43524157 (* CRAW *) then Some (InCraw, 82%nat) else None
  | InCraw => if typ =? 0x43444931 (* CDI1 *) then Some (InCdi1, 4%nat) else None
  | InCr3 => if typ =? 0x43435450 (* CCTP *) then Some (InCctp, 12%nat) else None
  | _ => None
  end.

(** Children that have to be there *)
Definition needed (p : place) : list Z :=
  match p with
  | AtFile => [0x66747970 (* ftyp *); 0x6D6F6F76 (* moov *); 0x6D646174 (* mdat *)]
  | InMoov => [0x6D766864 (* mvhd *)]
  | InTrak => [0x746B6864 (* tkhd *); 0x6D646961 (* mdia *)]
  | InMdia => [0x6D646864 (* mdhd *); 0x68646C72 (* hdlr *); 0x6D696E66 (* minf *)]
  | InMinf => [0x64696E66 (* dinf *); 0x7374626C (* stbl *)]
  | InStbl => [0x73747364 (* stsd *); 0x73747473 (* stts *); 0x73747363 (* stsc *); 0x7374737A (* stsz *)]
  | InCdi1 => [0x49414431 (* IAD1 *)]
  | InCr3 => [0x434E4356; 0x43435450; 0x4354424F; 0x434D5431; 0x434D5432; 0x434D5433; 0x434D5434; 0x54484D42]
  | _ => []
  end.

(** version and flags, number of rows, rows of [w] bytes *)
Definition table (w : nat) (f : list Z) : Prop :=
  exists v rows, f = v ++ be 4 (Z.of_nat (length rows)) ++ concat rows /\ length v = 4%nat /\
    Z.of_nat (length rows) < 2 ^ 32 /\ Forall (fun r => length r = w) rows.
(** version 0 or 1 *)
Definition versioned (l0 l1 : nat) (f : list Z) : Prop :=
  (hd 0 f = 0 /\ length f = l0) \/ (hd 0 f = 1 /\ length f = l1).

(** A sample-to-chunk table: (first chunk, samples per chunk, description).
    At most two rows: see the property about longer tables. *)
Definition stsc_fields (v : list Z) (rows : list (Z * Z * Z)) : list Z :=
  v ++ be 4 (Z.of_nat (length rows)) ++ flat_map (fun '(c, s, d) => be 4 c ++ be 4 s ++ be 4 d) rows.
Definition row_ok (r : Z * Z * Z) : Prop := let '(c, s, d) := r in urange 32 c /\ urange 32 s /\ urange 32 d.
Definition stsc_rows_ok (rows : list (Z * Z * Z)) : Prop :=
  Forall row_ok rows /\
  match rows with
  | [] | [_] => True
  | [(_, s, _); (c, _, _)] => 1 <= c /\ 1 + (c - 1) * s < 2 ^ 32
  | _ => False
  end.
Definition stsz_fields (v : list Z) (same : Z) (count : Z) (sizes : list Z) : list Z :=
  v ++ be 4 same ++ be 4 count ++ flat_map (be 4) sizes.
Definition co64_fields (v : list Z) (offs : list Z) : list Z :=
  v ++ be 4 (Z.of_nat (length offs)) ++ flat_map (be 8) offs.

Definition byte_at (f : list Z) (i : nat) : Z := nth i f 0.
(** CMP1: plain, with the extension of movies, with the median precision *)
Definition cmp1_shape (f : list Z) : Prop :=
  Forall (urange 8) f /\
  ((length f = 36%nat /\ byte_at f 32 < 128) \/
   (length f = 60%nat /\ 128 <= byte_at f 32 /\ 64 <= byte_at f 25 < 80 /\ byte_at f 56 mod 128 < 64) \/
   (length f = 85%nat /\ 128 <= byte_at f 32 /\ 64 <= byte_at f 25 < 80 /\ 64 <= byte_at f 56 mod 128)).

Section Shapes.
(** what the TIFF reader says about the content of a CMT box *)
Variable cmt : list Z -> res unit.

(** Fields and further bytes of the boxes without children.  Boxes of other
    types are allowed where the format allows unknown boxes. *)
Definition leaf_shape (p : place) (typ : Z) (wide : bool) (f extra : list Z) : Prop :=
  match p with
  | AtFile =>
      if typ =? 0x66747970 (* ftyp *) then
        wide = false /\ extra = [] /\ exists major minor brands, f = be 4 major ++ be 4 minor ++ flat_map (be 4) brands
      else f = []
  | InMoov => if typ =? 0x6D766864 (* mvhd *) then versioned 20 32 f else f = [] /\ typ <> 0x75756964
  | InTrak => if typ =? 0x746B6864 (* tkhd *) then length f = 4%nat else f = []
  | InMdia =>
      if typ =? 0x6D646864 (* mdhd *) then versioned 22 34 f else
      if typ =? 0x68646C72 (* hdlr *) then length f = 4%nat else f = []
  | InMinf => if typ =? 0x766D6864 (* vmhd *) then length f = 12%nat else f = []
  | InStbl =>
      if typ =? 0x73747473 (* stts *) then table 8 f else
      if typ =? 0x73747363 (* stsc *) then
        exists v rows, length v = 4%nat /\ stsc_rows_ok rows /\ f = stsc_fields v rows
      else if typ =? 0x7374737A (* stsz *) then
        exists v same count sizes, length v = 4%nat /\ urange 32 same /\ urange 32 count /\
          (same = 0 -> Z.of_nat (length sizes) = count) /\ (same <> 0 -> sizes = []) /\ f = stsz_fields v same count sizes
      else if typ =? 0x636F3634 (* co64 *) then table 8 f else f = []
  | InStsd =>
      if typ =? 0x43544D44 (* CTMD *) then
        extra = [] /\ exists v rows, f = v ++ be 4 (Z.of_nat (length rows)) ++ concat rows /\ length v = 8%nat /\
          Z.of_nat (length rows) < 2 ^ 32 /\ Forall (fun r => length r = 8%nat) rows
      else f = []
  | InCraw =>
      if typ =? 0x4A504547 (* JPEG *) then length f = 4%nat else
      if typ =? 0x434D5031 (* CMP1 *) then cmp1_shape f else
      (typ = 0x48455643 (* HEVC *) \/ typ = 0x66726565 (* free *)) /\ f = []
  | InCdi1 =>
      typ = 0x49414431 /\
      ((length f = 32%nat /\ firstn 2 (skipn 10 f) = [0; 0]) \/ (length f = 48%nat /\ firstn 2 (skipn 10 f) = [0; 2]))
  | InCctp => typ = 0x43434454 /\ length f = 16%nat
  | InCr3 =>
      if typ =? 0x434E4356 (* CNCV *) then length f = 30%nat else
      if typ =? 0x434E4F50 (* CNOP *) then extra = [] else
      if existsb (Z.eqb typ) [0x434D5431; 0x434D5432; 0x434D5433; 0x434D5434] (* CMT1..4 *) then extra = [] /\ cmt f = Ok tt else
      In typ [0x4354424F; 0x54484D42; 0x736B6970; 0x66726565] (* CTBO THMB skip free *) /\ f = []
  end.

(** All needed children are there; one CRAW and one CTMD box at most *)
Definition children_ok (p : place) (types : list Z) : Prop :=
  (forall t, In t (needed p) -> In t types) /\
  (p = InStsd -> forall t, In t [0x43524157; 0x43544D44] -> (count_occ Z.eq_dec types t <= 1)%nat).

Definition header_ok (b : sbox) : Prop :=
  urange 32 (s_typ b) /\ length (s_uuid b) = (if s_typ b =? 0x75756964 then 16%nat else 0%nat) /\
  (s_wide b = false -> ssize b < 2 ^ 32).

Fixpoint box_ok (p : place) (b : sbox) : Prop :=
  let 'SBox typ uuid wide f kids extra := b in
  header_ok b /\
  match inner p typ uuid with
  | Some (q, n) =>
      length f = n /\ extra = [] /\ children_ok q (map s_typ kids) /\
      (fix all l := match l with [] => True | k :: l => box_ok q k /\ all l end) kids
  | None => kids = [] /\ leaf_shape p typ wide f extra
  end.

Definition file_ok (boxes : list sbox) : Prop :=
  Forall (box_ok AtFile) boxes /\ children_ok AtFile (map s_typ boxes) /\
  Z.of_nat (length (flat_map senc boxes)) < 2 ^ 63.
End Shapes.

(** A box header at [p] that says size 0 *)
Definition zero_size_at (file : list Z) (p : Z) : Prop :=
  at_ file p (be 4 0) \/ (at_ file p (be 4 1) /\ at_ file (p + 8) (be 8 0)).

(** ** Samples *)
Definition total (l : list Z) : Z := fold_right Z.add 0 l.
(** [per]: number of samples of each chunk, chunks numbered from 1 *)
Definition rows_describe (rows : list (Z * Z * Z)) (per : list nat) : Prop :=
  (exists s d n, rows = [(1, Z.of_nat s, d)] /\ per = repeat s n) \/
  (exists s d n s' d' n', rows = [(1, Z.of_nat s, d); (1 + Z.of_nat n, Z.of_nat s', d')] /\
     (0 < n)%nat /\ (0 < s)%nat /\ per = repeat s n ++ repeat s' n').
(** Sample [k] (from 0) is in chunk [c] (from 0), [i] samples are before it there *)
Definition in_chunk (per : list nat) (k c i : nat) : Prop :=
  (c < length per)%nat /\ (i < nth c per 0)%nat /\ k = (fold_right Nat.add 0%nat (firstn c per) + i)%nat.
(** Place and size of sample [k] *)
Definition sample_range (offs sizes : list Z) (k c i : nat) : Z * Z :=
  (nth c offs 0 + total (firstn i (skipn (k - i) sizes)), nth k sizes 0).

(** The only child of type [t] *)
Definition child (t : Z) (kids : list sbox) (c : sbox) : Prop :=
  exists l r, kids = l ++ c :: r /\ s_typ c = t /\ Forall (fun x => s_typ x <> t) (l ++ r).

(** stsz fields for samples of the given sizes *)
Definition sizes_written (f : list Z) (sizes : list Z) : Prop :=
  exists v, length v = 4%nat /\
  (f = stsz_fields v 0 (Z.of_nat (length sizes)) sizes \/
   exists same, 0 < same < 2 ^ 32 /\ sizes = repeat same (length sizes) /\ f = stsz_fields v same (Z.of_nat (length sizes)) []).

(** What the tables of an stbl box say about its samples *)
Definition sample_tables (c z o : list Z) (per : list nat) (sizes offs : list Z) : Prop :=
  (exists v rows, length v = 4%nat /\ Forall row_ok rows /\ rows_describe rows per /\ c = stsc_fields v rows) /\
  sizes_written z sizes /\
  (exists v, length v = 4%nat /\ o = co64_fields v offs) /\
  length offs = length per /\ Forall (urange 64) offs /\ Forall (urange 32) sizes /\
  fold_right Nat.add 0%nat per = length sizes /\ Z.of_nat (length per) < 2 ^ 32 - 1 /\ Z.of_nat (length sizes) < 2 ^ 32 - 1.
(** sums of the code that have to fit *)
Definition sample_fits (offs sizes : list Z) (k c i : nat) : Prop :=
  total (firstn i (skipn (k - i) sizes)) < 2 ^ 32 /\
  fst (sample_range offs sizes k c i) + nth k sizes 0 < 2 ^ 64.

(** CMP1 fields with the parameters [c] of the codec *)
Definition cmp1_written (f : list Z) (c : CrxImage.cmp1) : Prop :=
  exists u1 hs sub cfa t ext tail,
  f = be 2 u1 ++ be 2 hs ++ be 2 (CrxImage.c_version c) ++ be 2 sub ++ be 4 (CrxImage.c_fw c) ++ be 4 (CrxImage.c_fh c) ++
      be 4 (CrxImage.c_tw c) ++ be 4 (CrxImage.c_th c) ++ be 1 (CrxImage.c_bits c) ++ be 1 (16 * CrxImage.c_planes c + cfa) ++
      be 1 (16 * CrxImage.c_enc c + CrxImage.c_levels c) ++ be 1 t ++ be 4 (CrxImage.c_hdr c) ++ be 4 ext ++ tail /\
  0 <= cfa < 16 /\ urange 16 (CrxImage.c_version c) /\ urange 32 (CrxImage.c_fw c) /\ urange 32 (CrxImage.c_fh c) /\
  urange 32 (CrxImage.c_tw c) /\ urange 32 (CrxImage.c_th c) /\ urange 8 (CrxImage.c_bits c) /\ urange 4 (CrxImage.c_planes c) /\
  urange 4 (CrxImage.c_enc c) /\ urange 4 (CrxImage.c_levels c) /\ urange 32 (CrxImage.c_hdr c) /\
  (((length tail <= 48)%nat /\ CrxImage.c_median c = CrxImage.c_bits c) \/
   (exists x, length x = 48%nat /\ tail = x ++ be 1 (CrxImage.c_median c) /\ urange 8 (CrxImage.c_median c))).

(** A CCDT record: image type, dual pixel flag, number of the trak from 1 *)
Definition ccdt_written (b : sbox) (type trak_no : Z) : Prop :=
  exists d, s_fields b = be 8 type ++ be 4 d ++ be 4 trak_no /\ urange 64 type /\ urange 32 trak_no.

(** [st] is the stbl box of the trak that CCTP names for image type 0, [cm] its
    CMP1 box *)
Definition raw_track (boxes : list sbox) (st cm : sbox) : Prop :=
  exists mv cr ct l r rest n tr md mi sd cw,
  child 0x6D6F6F76 boxes mv /\ child 0x75756964 (s_kids mv) cr /\ child 0x43435450 (s_kids cr) ct /\
  s_kids ct = l ++ r :: rest /\ Forall (fun b => exists ty tn, ccdt_written b ty tn /\ ty <> 0) l /\
  ccdt_written r 0 (Z.of_nat n + 1) /\
  nth_error (filter (fun b => s_typ b =? 0x7472616B) (s_kids mv)) n = Some tr /\
  child 0x6D646961 (s_kids tr) md /\ child 0x6D696E66 (s_kids md) mi /\ child 0x7374626C (s_kids mi) st /\
  child 0x73747364 (s_kids st) sd /\ child 0x43524157 (s_kids sd) cw /\ child 0x434D5031 (s_kids cw) cm.

(** What a sample-to-chunk table of any length says: a chunk has the number of
    samples of the last row whose first chunk does not come after it. *)
Fixpoint samples_of_chunk (rows : list (Z * Z * Z)) (chunk : Z) (so_far : Z) : Z :=
  match rows with
  | [] => so_far
  | (c, s, _) :: rows => samples_of_chunk rows chunk (if c <=? chunk then s else so_far)
  end.
Definition rows_say (rows : list (Z * Z * Z)) (per : list nat) : Prop :=
  per = map (fun j => Z.to_nat (samples_of_chunk rows (Z.of_nat j + 1) 0)) (seq 0 (length per)).
