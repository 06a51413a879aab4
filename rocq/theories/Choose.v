(** The choice of the decoder for a file (RawLoader::get_decoder,
    rawler/src/decoders/mod.rs:900-1053).
    The result is the decoder whose constructor is called; what the constructor
    does is not modelled here.  [None]: one of the readers does not end. *)
From Coq Require Import List ZArith Bool.
From Verif Require Import Base Tiff Bmff Jfif DngFile.
Import ListNotations.
Open Scope Z_scope.

Inductive decoder :=
| DMrw | DRaf | DAri | DQtk | DCrw | DMrwJpeg | DX3f | DCr3 | DDng | DCr2 | DPef | DIiq | DTfr | DArw | DMef | DOrf | DSrw
| DErf | DKdc | DDcs | DDcr | DRw2 | DNrw | DNef | DMos | DNkd.

(** [file.subview(at, n)] compared with a byte string; false when the file is
    too short: is_mrw, mrw.rs:31-46; is_raf, raf.rs:63-68; is_ari, ari.rs:18-23;
    is_qtk, qtk.rs:41-46; is_ciff, formats/ciff/mod.rs:41-46; is_x3f, x3f.rs:6-11 *)
Definition bytes_at (file : list Z) (p : Z) (sig : list Z) : bool :=
  match rd file p (Z.of_nat (length sig)) with Ok b => bytes_eqb b sig | _ => false end.
Definition is_mrw (file : list Z) : bool := bytes_at file 0 [0; 77; 82; 77].
Definition is_raf (file : list Z) : bool := bytes_at file 0 [70; 85; 74; 73; 70; 73; 76; 77].
Definition is_ari (file : list Z) : bool := bytes_at file 0 [65; 82; 82; 73].
Definition is_qtk (file : list Z) : bool := bytes_at file 0 [113; 107; 116; 107] || bytes_at file 0 [113; 107; 116; 110].
Definition is_ciff (file : list Z) : bool := bytes_at file 6 [72; 69; 65; 80; 67; 67; 68; 82].
Definition is_x3f (file : list Z) : bool := bytes_at file 0 [70; 79; 86; 98].

(** [str::trim_end] on the UTF-8 bytes of a string, from the last byte on:
    removes the characters with the property White_Space *)
Fixpoint trim_rev (l : list Z) : list Z :=
  match l with
  | [] => []
  | c :: r =>
    if ((9 <=? c) && (c <=? 13)) || (c =? 32) then trim_rev r else
    match r with
    | b :: r2 =>
      if (b =? 0xC2) && ((c =? 0x85) || (c =? 0xA0)) then trim_rev r2 else
      match r2 with
      | a :: r3 =>
        if ((a =? 0xE1) && (b =? 0x9A) && (c =? 0x80))
           || ((a =? 0xE2) && (b =? 0x80) && (((0x80 <=? c) && (c <=? 0x8A)) || (c =? 0xA8) || (c =? 0xA9) || (c =? 0xAF)))
           || ((a =? 0xE2) && (b =? 0x81) && (c =? 0x9F))
           || ((a =? 0xE3) && (b =? 0x80) && (c =? 0x80))
        then trim_rev r3 else l
      | [] => l
      end
    | [] => l
    end
  end.
Definition trim_end (s : list Z) : list Z := rev (trim_rev (rev s)).

(** TiffReader::get_entry, reader.rs:42-49: the first directory of the chain
    that has the tag *)
Fixpoint chain_tag (chain : list ifd) (t : Z) : option value :=
  match chain with
  | [] => None
  | i :: chain => match tag (i_entries i) t with Some v => Some v | None => chain_tag chain t end
  end.
(** Value::as_string and get_string, value.rs:417-429 *)
Definition as_string (v : value) : option (list Z) :=
  match v with VAscii (s :: _) _ => Some s | _ => None end.
Definition str (o : option value) : option (list Z) := match o with Some v => as_string v | None => None end.

(** the match on Make, mod.rs:983-1022 *)
Definition make_table : list (list Z * decoder) :=
  [ (* Canon *) ([67; 97; 110; 111; 110], DCr2);
    (* PENTAX *) ([80; 69; 78; 84; 65; 88], DPef);
    (* PENTAX Corporation *) ([80; 69; 78; 84; 65; 88; 32; 67; 111; 114; 112; 111; 114; 97; 116; 105; 111; 110], DPef);
    (* RICOH IMAGING COMPANY, LTD. *)
    ([82; 73; 67; 79; 72; 32; 73; 77; 65; 71; 73; 78; 71; 32; 67; 79; 77; 80; 65; 78; 89; 44; 32; 76; 84; 68; 46], DPef);
    (* Phase One *) ([80; 104; 97; 115; 101; 32; 79; 110; 101], DIiq);
    (* Phase One A/S *) ([80; 104; 97; 115; 101; 32; 79; 110; 101; 32; 65; 47; 83], DIiq);
    (* Leaf *) ([76; 101; 97; 102], DIiq);
    (* Hasselblad *) ([72; 97; 115; 115; 101; 108; 98; 108; 97; 100], DTfr);
    (* SONY *) ([83; 79; 78; 89], DArw);
    (* Mamiya-OP Co.,Ltd. *) ([77; 97; 109; 105; 121; 97; 45; 79; 80; 32; 67; 111; 46; 44; 76; 116; 100; 46], DMef);
    (* OLYMPUS IMAGING CORP. *)
    ([79; 76; 89; 77; 80; 85; 83; 32; 73; 77; 65; 71; 73; 78; 71; 32; 67; 79; 82; 80; 46], DOrf);
    (* OLYMPUS CORPORATION *) ([79; 76; 89; 77; 80; 85; 83; 32; 67; 79; 82; 80; 79; 82; 65; 84; 73; 79; 78], DOrf);
    (* OLYMPUS OPTICAL CO.,LTD *)
    ([79; 76; 89; 77; 80; 85; 83; 32; 79; 80; 84; 73; 67; 65; 76; 32; 67; 79; 46; 44; 76; 84; 68], DOrf);
    (* OM Digital Solutions *)
    ([79; 77; 32; 68; 105; 103; 105; 116; 97; 108; 32; 83; 111; 108; 117; 116; 105; 111; 110; 115], DOrf);
    (* SAMSUNG *) ([83; 65; 77; 83; 85; 78; 71], DSrw);
    (* SEIKO EPSON CORP. *) ([83; 69; 73; 75; 79; 32; 69; 80; 83; 79; 78; 32; 67; 79; 82; 80; 46], DErf);
    (* EASTMAN KODAK COMPANY *)
    ([69; 65; 83; 84; 77; 65; 78; 32; 75; 79; 68; 65; 75; 32; 67; 79; 77; 80; 65; 78; 89], DKdc);
    (* Eastman Kodak Company *)
    ([69; 97; 115; 116; 109; 97; 110; 32; 75; 111; 100; 97; 107; 32; 67; 111; 109; 112; 97; 110; 121], DKdc);
    (* KODAK *) ([75; 79; 68; 65; 75], DDcs);
    (* Kodak *) ([75; 111; 100; 97; 107], DDcr);
    (* Panasonic *) ([80; 97; 110; 97; 115; 111; 110; 105; 99], DRw2);
    (* LEICA *) ([76; 69; 73; 67; 65], DRw2);
    (* LEICA CAMERA AG *) ([76; 69; 73; 67; 65; 32; 67; 65; 77; 69; 82; 65; 32; 65; 71], DRw2);
    (* NIKON *) ([78; 73; 75; 79; 78], DNrw);
    (* Nikon *) ([78; 105; 107; 111; 110], DNef);
    (* NIKON CORPORATION *) ([78; 73; 75; 79; 78; 32; 67; 79; 82; 80; 79; 82; 65; 84; 73; 79; 78], DNef)].
Definition make_decoder (s : list Z) : option decoder := option_map snd (find (fun x => bytes_eqb (fst x) s) make_table).

(** "Konica Minolta Photo Imaging, Inc." *)
Definition KONICA : list Z :=
  [75; 111; 110; 105; 99; 97; 32; 77; 105; 110; 111; 108; 116; 97; 32; 80; 104; 111; 116; 111; 32; 73; 109; 97; 103; 105; 110; 103; 44; 32; 73; 110; 99; 46].
(** "DCS560C", "Camera Library" *)
Definition DCS560C : list Z := [68; 67; 83; 53; 54; 48; 67].
Definition CAMERA_LIBRARY : list Z := [67; 97; 109; 101; 114; 97; 32; 76; 105; 98; 114; 97; 114; 121].

Definition str_is (o : option (list Z)) (s : list Z) : bool := match o with Some x => bytes_eqb x s | None => false end.

(** mod.rs:964-1030: [Ok None] when the search goes on after a TIFF file *)
Definition tiff_decoder (chain : list ifd) : res (option decoder) :=
  match chain_tag chain 50706 with
  | Some _ => Ok (Some DDng)
  | None =>
    if str_is (str (chain_tag chain 272)) DCS560C then Ok (Some DCr2) else
    match str (chain_tag chain 271) with
    | Some s => match make_decoder (trim_end s) with Some d => Ok (Some d) | None => Err end
    | None => Ok (if str_is (str (chain_tag chain 305)) CAMERA_LIBRARY then Some DMos else None)
    end
  end.

Section WithCmt.
(** what the TIFF reader says about a CMT box of a CR3 file (see [Bmff]) *)
Variable cmt : list Z -> res unit.
(** the file sizes of the cameras without a file format, mod.rs:1042-1045 *)
Variable naked : Z -> bool.

(** mod.rs:929-949: the Konica Minolta cameras whose raw file is in a JPEG file *)
Definition jpeg_decoder (fuel : nat) (lost : Z) (file : list Z) : option (res (option decoder)) :=
  if is_exif file then
    run segs <- jfif_parse (exif_root lost) file fuel;
    Some (Ok match exif_ifd segs with
      | Some i =>
        match str (tag (i_entries i) 271) with
        | Some s => if bytes_eqb (trim_end s) KONICA then Some DMrwJpeg else None
        | None => None
        end
      | None => None
      end)
  else Some (Ok None).

(** mod.rs:956-965: an error of the reader means it is another kind of file *)
Definition bmff_decoder (fuel : nat) (file : list Z) : option (res (option decoder)) :=
  match filebox_parse cmt file fuel with
  | Some (Ok kids) => Some (Ok (if compatible_brand kids 0x63727820 then Some DCr3 else None))
  | Some Err => Some (Ok None)
  | Some Panic => Some Panic
  | None => None
  end.

Definition naked_decoder (file : list Z) : res decoder := if naked (Z.of_nat (length file)) then Ok DNkd else Err.

Definition get_decoder (fuel : nat) (lost : Z) (file : list Z) : option (res decoder) :=
  if is_mrw file then Some (Ok DMrw) else
  if is_raf file then Some (Ok DRaf) else
  if is_ari file then Some (Ok DAri) else
  if is_qtk file then Some (Ok DQtk) else
  if is_ciff file then Some (Ok DCrw) else
  run j <- jpeg_decoder fuel lost file;
  match j with
  | Some d => Some (Ok d)
  | None =>
    if is_x3f file then Some (Ok DX3f) else
    run b <- bmff_decoder fuel file;
    match b with
    | Some d => Some (Ok d)
    | None =>
      match parse_file fuel lost file 0 0 0 None [] with
      | Some (Ok chain) =>
        match tiff_decoder chain with
        | Ok (Some d) => Some (Ok d)
        | Ok None => Some (naked_decoder file)
        | Err => Some Err
        | Panic => Some Panic
        end
      | Some Err => Some (naked_decoder file)
      | Some Panic => Some Panic
      | None => None
      end
    end
  end.
End WithCmt.
