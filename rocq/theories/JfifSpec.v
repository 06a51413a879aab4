(** JPEG files as lists of segments, with their bytes. *)
From Coq Require Import List ZArith Lia Bool.
From Verif Require Import Base Tiff TiffSpec Jfif.
Import ListNotations.
Open Scope Z_scope.

(** the bytes of coded data: a 0xFF is followed by 0 or is part of a restart marker *)
Inductive coded := Plain (b : Z) | Stuffed | Restart (n : Z).
Definition coded_bytes (c : coded) : list Z :=
  match c with Plain b => [b] | Stuffed => [0xFF; 0] | Restart n => [0xFF; 0xD0 + n] end.
Definition coded_ok (c : coded) : Prop :=
  match c with Plain b => 0 <= b < 255 | Stuffed => True | Restart n => 0 <= n < 8 end.

Inductive jseg :=
| JJfif (fields thumb : list Z)   (** version, units, densities, size of the thumbnail; thumbnail *)
| JExif (tiff : list Z)
| JXmp (packet : list Z)
| JApp1 (content : list Z)        (** other content *)
| JScan (data : list coded)       (** header of the scan and coded data *)
| JOther (marker : Z) (content : list Z).

Definition seg (marker : Z) (content : list Z) : list Z :=
  [0xFF; marker] ++ enc BE 2 (2 + Z.of_nat (length content)) ++ content.
Definition jenc (s : jseg) : list Z :=
  match s with
  | JJfif f t => seg 0xE0 ([74; 70; 73; 70; 0] ++ f ++ t)
  | JExif t => seg 0xE1 ([69; 120; 105; 102; 0; 0] ++ t)
  | JXmp x => seg 0xE1 (XMP_MARKER ++ x)
  | JApp1 c => seg 0xE1 c
  | JScan d => [0xFF; 0xDA] ++ flat_map coded_bytes d
  | JOther m c => seg m c
  end.
Definition starts {A} (p l : list A) : Prop := exists r, l = p ++ r.
Definition fits (content : list Z) : Prop := 2 + Z.of_nat (length content) < 2 ^ 16.
Definition jseg_ok (s : jseg) : Prop :=
  match s with
  | JJfif f t => length f = 9%nat /\ Forall (urange 8) f /\ Z.of_nat (length t) = 3 * nth 7 f 0 * nth 8 f 0 /\ Z.of_nat (length t) < 256
  | JExif t => fits ([69; 120; 105; 102; 0; 0] ++ t)
  | JXmp x => fits (XMP_MARKER ++ x)
  | JApp1 c => fits c /\ ~ starts [69; 120; 105; 102; 0; 0] c /\ ~ starts XMP_MARKER c
  | JScan d => Forall coded_ok d
  | JOther m c => fits c /\ 0xC0 <= m < 0xFF /\ ~ (0xD0 <= m <= 0xDA) /\ m <> 0xE0 /\ m <> 0xE1
  end.
Definition jfile (segs : list jseg) (after : list Z) : list Z :=
  [0xFF; 0xD8] ++ flat_map jenc segs ++ [0xFF; 0xD9] ++ after.

Section Shown.
(** what the TIFF reader says about the data at a place of the file *)
Variable tiff_at : Z -> option (res ifd).
(** the segments that a reader should report for segments from [off] on *)
Inductive shown : Z -> list jseg -> list segment -> Prop :=
| shown_nil off : shown off [] []
| shown_jfif off f t segs out : shown (off + Z.of_nat (length (jenc (JJfif f t)))) segs out ->
    shown off (JJfif f t :: segs) (SApp0 off (16 + Z.of_nat (length t)) f (match t with [] => None | _ => Some t end) :: out)
| shown_exif off t i segs out : tiff_at (off + 10) = Some (Ok i) -> shown (off + Z.of_nat (length (jenc (JExif t)))) segs out ->
    shown off (JExif t :: segs) (SApp1 off (8 + Z.of_nat (length t)) (PExif i) :: out)
| shown_xmp off x segs out : shown (off + Z.of_nat (length (jenc (JXmp x)))) segs out ->
    shown off (JXmp x :: segs) (SApp1 off (31 + Z.of_nat (length x)) (PXpacket x) :: out)
| shown_app1 off c segs out : shown (off + Z.of_nat (length (jenc (JApp1 c)))) segs out ->
    shown off (JApp1 c :: segs) (SApp1 off (2 + Z.of_nat (length c)) PUnknown :: out)
| shown_scan off d segs out : shown (off + Z.of_nat (length (jenc (JScan d)))) segs out ->
    shown off (JScan d :: segs) (SSos off (Z.of_nat (length (flat_map coded_bytes d))) :: out)
| shown_other off m c segs out : shown (off + Z.of_nat (length (jenc (JOther m c)))) segs out ->
    shown off (JOther m c :: segs) (SUnknown off (0xFF00 + m) :: out).
End Shown.

(** the start of an APP1 segment that is cut off *)
Definition cut_app1 (l : list Z) : Prop :=
  (length l < 2)%nat \/
  exists len rest, l = enc BE 2 len ++ rest /\ 6 <= len < 2 ^ 16 /\ (length rest < 6)%nat.
