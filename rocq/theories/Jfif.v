(** JPEG segments (rawler/src/formats/jfif.rs).
    A file is its list of bytes, the reader a position in it.  A failed read
    leaves the reader at the end of the file ([Cursor::read_exact]).  Integer
    overflow panics (debug build). *)
From Coq Require Import List ZArith Lia Bool.
From Verif Require Import Base Tiff Bmff.
Import ListNotations.
Open Scope Z_scope.

(** The markers of APP0 and APP1, jfif.rs:48,139,172 *)
Definition JFIF_MARKER : list Z := [74; 70; 73; 70; 0].
Definition EXIF_MARKER : list Z := [69; 120; 105; 102; 0; 0].
(** "http://ns.adobe.com/xap/1.0/\0" *)
Definition XMP_MARKER : list Z :=
  [104; 116; 116; 112; 58; 47; 47; 110; 115; 46; 97; 100; 111; 98; 101; 46; 99; 111; 109; 47; 120; 97; 112; 47; 49; 46; 48; 47; 0].

(** Payload, jfif.rs:127-132 *)
Inductive payload := PExif (i : ifd) | PXpacket (x : list Z) | PUnknown.

(** Segment, jfif.rs:203-211; of APP0 the bytes of its fields and the thumbnail *)
Inductive segment :=
| SSoi (off : Z)
| SApp0 (off len : Z) (fields : list Z) (thumb : option (list Z))
| SApp1 (off len : Z) (p : payload)
| SSos (off len : Z)
| SEoi
| SUnknown (off marker : Z).

(** App0::read_segment, jfif.rs:43-83, with the position after it *)
Definition app0_read (file : list Z) (q : Z) : res (Z * list Z * option (list Z) * Z) :=
  do len <- rd_u16 BE file q;
  if len <? 5 then Err else
  do m <- rd file (q + 2) 5;
  if negb (bytes_eqb m JFIF_MARKER) then Err else
  do f <- rd file (q + 7) 9;
  let x := nth 7 f 0 in
  let y := nth 8 f 0 in
  if 256 <=? x * y then Panic else
  if 0 <? x * y then
    if (256 <=? 3 * x) || (256 <=? 3 * x * y) then Panic else
    do t <- rd file (q + 16) (3 * x * y);
    Ok (len, f, Some t, q + 16 + 3 * x * y)
  else Ok (len, f, None, q + 16).

(** The loop of SOS::read_segment, jfif.rs:101-121: number of bytes before the
    marker that ends the scan; [n] bytes are read, the last one is [prev] *)
Fixpoint sos_scan (rest : list Z) (prev n : Z) : res Z :=
  match rest with
  | [] => Err
  | v :: rest =>
      if (prev =? 0xFF) && ((v =? 0xFF) || (v - v mod 8 =? 0xD0) || (v =? 0)) then sos_scan rest 0 (n + 1) else
      if prev =? 0xFF then Ok (n - 1) else sos_scan rest v (n + 1)
  end.

(** Result of App1::read_segment: the segment, or an error; with the position *)
Inductive app1_res := A1Ok (len : Z) (p : payload) (pos : Z) | A1Err (pos : Z) | A1Panic | A1Loop.

(** a read that leaves the reader at the end when it fails *)
Definition app1_need (file : list Z) (pos n : Z) (f : list Z -> app1_res) : app1_res :=
  match rd file pos n with Ok b => f b | _ => A1Err (Z.of_nat (length file)) end.

Section WithTiff.
(** IFD::new_root on the file with a base offset (see [exif_root]) *)
Variable exif : list Z -> Z -> option (res ifd).
Variable file : list Z.

(** App1::read_segment, jfif.rs:134-200 *)
Definition app1_xmp (q len : Z) : app1_res :=
  if 29 <=? len then
    app1_need file (q + 2) 29 (fun m =>
    if bytes_eqb m XMP_MARKER then
      if len <? 31 then A1Panic else
      app1_need file (q + 31) (len - 31) (fun x => A1Ok len (PXpacket x) (q + len))
    else A1Ok len PUnknown (q + len))
  else A1Ok len PUnknown (q + len).
Definition app1_read (q : Z) : app1_res :=
  app1_need file q 2 (fun b =>
  let len := dec BE b in
  if 6 <=? len then
    app1_need file (q + 2) 6 (fun m =>
    if bytes_eqb m EXIF_MARKER then
      match exif file (wrap_u32 q + 8) with
      | Some (Ok i) => A1Ok len (PExif i) (q + len)
      | Some Err => A1Err (q + len)
      | Some Panic => A1Panic
      | None => A1Loop
      end
    else app1_xmp q len)
  else app1_xmp q len).

(** Jfif::parse, jfif.rs:219-269: [pos] is the place of the marker [sym], [q] the
    position of the reader.  A failed APP1 segment repeats the loop with the
    same marker (line 237). *)
Fixpoint jfif_loop (fuel : nat) (pos sym q : Z) (segs : list segment) : option (res (list segment)) :=
  match fuel with
  | O => None
  | S fuel =>
      let next s q :=
        if (match segs with [] => true | _ => false end) && negb (sym =? 0xFFD8) then Some Err else
        let segs := segs ++ [s] in
        if sym =? 0xFFD9 then Some (Ok segs) else
        match rd_u16 BE file q with
        | Ok sym => jfif_loop fuel q sym (q + 2) segs
        | _ => Some (Ok segs)
        end in
      if sym =? 0xFFD8 then next (SSoi pos) q else
      if sym =? 0xFFD9 then next SEoi q else
      if sym =? 0xFFE0 then run (l, f, t, q) <- Some (app0_read file q); next (SApp0 pos l f t) q else
      if sym =? 0xFFE1 then
        match app1_read q with
        | A1Ok l p q => next (SApp1 pos l p) q
        | A1Err q => jfif_loop fuel pos sym q segs
        | A1Panic => Some Panic
        | A1Loop => None
        end else
      if sym =? 0xFFDA then run n <- Some (sos_scan (skipn (Z.to_nat q) file) 0 0); next (SSos pos n) (q + n) else
      run l <- Some (rd_u16 BE file q); next (SUnknown pos sym) (q + l)
  end.
Definition jfif_parse (fuel : nat) : option (res (list segment)) :=
  run sym <- Some (rd_u16 BE file 0); jfif_loop fuel 0 sym 2 [].
End WithTiff.

(** Jfif::exif_ifd and Jfif::xpacket, jfif.rs:275-297 *)
Fixpoint exif_ifd (l : list segment) : option ifd :=
  match l with
  | [] => None
  | SApp1 _ _ (PExif i) :: _ => Some i
  | _ :: l => exif_ifd l
  end.
Fixpoint xpacket (l : list segment) : option (list Z) :=
  match l with
  | [] => None
  | SApp1 _ _ (PXpacket x) :: _ => Some x
  | _ :: l => xpacket l
  end.

(** IFD::new_root(reader, base), ifd.rs:52-54; the chain has at most 11 directories *)
Definition exif_root (lost : Z) (file : list Z) (base : Z) : option (res ifd) :=
  new_root 12 lost file 0 base 0 10 [330; 34665].

(** is_exif, jfif.rs:318-326 *)
Definition is_exif (file : list Z) : bool := match rd file 0 4 with Ok b => bytes_eqb b [0xFF; 0xD8; 0xFF; 0xE1] | _ => false end.
