(** What the files of the different makers look like from the outside. *)
From Coq Require Import List ZArith Bool String Ascii.
From Verif Require Import Base Tiff TiffSpec DngFile Choose.
Import ListNotations.
Open Scope Z_scope.

(** the bytes of an ASCII text *)
Definition text (s : string) : list Z := map (fun c => Z.of_nat (nat_of_ascii c)) (list_ascii_of_string s).

(** files known by their first bytes *)
Definition magics : list (list Z * decoder) :=
  [(0 :: text "MRM", DMrw); (text "FUJIFILM", DRaf); (text "ARRI", DAri); (text "qktk", DQtk); (text "qktn", DQtk)].

(** the header of a TIFF file *)
Definition tiff_header (e : bord) (magic off : Z) : list Z :=
  (match e with LE => text "II" | BE => text "MM" end) ++ enc e 2 magic ++ enc e 4 off.
Definition tiff_magic (m : Z) : Prop := In m [42; 0x55; 0x4F52; 0x5352].

(** UTF-8 and the white space of Unicode *)
Definition scalar (c : Z) : Prop := 0 <= c < 0xD800 \/ 0xE000 <= c < 0x110000.
Definition utf8_of (c : Z) : list Z :=
  if c <? 0x80 then [c] else
  if c <? 0x800 then [0xC0 + c / 64; 0x80 + c mod 64] else
  if c <? 0x10000 then [0xE0 + c / 4096; 0x80 + c / 64 mod 64; 0x80 + c mod 64] else
  [0xF0 + c / 262144; 0x80 + c / 4096 mod 64; 0x80 + c / 64 mod 64; 0x80 + c mod 64].
Definition utf8_text (cs : list Z) : list Z := flat_map utf8_of cs.
Definition white (c : Z) : Prop :=
  9 <= c <= 13 \/ c = 0x20 \/ c = 0x85 \/ c = 0xA0 \/ c = 0x1680 \/ 0x2000 <= c <= 0x200A \/
  c = 0x2028 \/ c = 0x2029 \/ c = 0x202F \/ c = 0x205F \/ c = 0x3000.

(** the first directory of the chain that has the tag decides *)
Definition lacks (t : Z) (i : ifd) : Prop := tag (i_entries i) t = None.
Definition found (chain : list ifd) (t : Z) (v : value) : Prop :=
  exists l i r, chain = l ++ i :: r /\ Forall (lacks t) l /\ tag (i_entries i) t = Some v.
Definition says (chain : list ifd) (t : Z) (s : list Z) : Prop := exists ss plain, found chain t (VAscii (s :: ss) plain).

(** a text that is [name] but for white space at its end *)
Definition named (s : list Z) (name : list Z) : Prop := exists ws, s = name ++ utf8_text ws /\ Forall white ws.

(** TIFF files below 1 GiB that do not look like a CIFF file *)
Definition tiff_file (e : bord) (file : list Z) : Prop :=
  exists m off, at_ file 0 (tiff_header e m off) /\ tiff_magic m /\ 0 <= off < 2 ^ 30 /\ Z.of_nat (List.length file) < 2 ^ 30 /\
    ~ at_ file 6 (text "HEAPCCDR").

Open Scope string_scope.
Definition makers : list (string * decoder) :=
  [("Canon", DCr2); ("PENTAX", DPef); ("PENTAX Corporation", DPef); ("RICOH IMAGING COMPANY, LTD.", DPef);
   ("Phase One", DIiq); ("Phase One A/S", DIiq); ("Leaf", DIiq); ("Hasselblad", DTfr); ("SONY", DArw);
   ("Mamiya-OP Co.,Ltd.", DMef); ("OLYMPUS IMAGING CORP.", DOrf); ("OLYMPUS CORPORATION", DOrf);
   ("OLYMPUS OPTICAL CO.,LTD", DOrf); ("OM Digital Solutions", DOrf); ("SAMSUNG", DSrw); ("SEIKO EPSON CORP.", DErf);
   ("EASTMAN KODAK COMPANY", DKdc); ("Eastman Kodak Company", DKdc); ("KODAK", DDcs); ("Kodak", DDcr);
   ("Panasonic", DRw2); ("LEICA", DRw2); ("LEICA CAMERA AG", DRw2);
   ("NIKON", DNrw); ("Nikon", DNef); ("NIKON CORPORATION", DNef)].

(** which decoder a TIFF file is for *)
Inductive tiff_kind (chain : list ifd) : decoder -> Prop :=
| kind_dng v : found chain 50706 v -> tiff_kind chain DDng
| kind_560 : Forall (lacks 50706) chain -> says chain 272 (text "DCS560C") -> tiff_kind chain DCr2
| kind_make s name d : Forall (lacks 50706) chain -> ~ says chain 272 (text "DCS560C") ->
    says chain 271 s -> In (name, d) makers -> named s (text name) -> tiff_kind chain d
| kind_leaf : Forall (lacks 50706) chain -> ~ says chain 272 (text "DCS560C") ->
    (forall s, ~ says chain 271 s) -> says chain 305 (text "Camera Library") -> tiff_kind chain DMos.

(** a maker without decoder *)
Definition unknown_make (chain : list ifd) : Prop :=
  Forall (lacks 50706) chain /\ ~ says chain 272 (text "DCS560C") /\
  exists cs ws, says chain 271 (utf8_text (cs ++ ws)%list) /\ Forall scalar cs /\ Forall white ws /\
    ~ white (last cs 0) /\ forall name d, In (name, d) makers -> utf8_text cs <> text name.
(** no hint at all *)
Definition silent (chain : list ifd) : Prop :=
  Forall (lacks 50706) chain /\ ~ says chain 272 (text "DCS560C") /\
  (forall s, ~ says chain 271 s) /\ ~ says chain 305 (text "Camera Library").
