(** C61: the segments of JPEG files. *)
From Coq Require Import List ZArith Bool Lia.
From Verif Require Import Base Tiff TiffSpec TiffBytes Bmff Jfif JfifSpec JfifProofs JfifTop.
Import ListNotations.
Open Scope Z_scope.

(** Every file of well formed segments is read as it is, whatever follows its end
    marker. *)
Theorem C61_segments : forall lost segs after fuel out,
  Forall jseg_ok segs -> Z.of_nat (length (jfile segs after)) < 2 ^ 32 ->
  shown (exif_root lost (jfile segs after)) 2 segs out -> (length segs + 2 <= fuel)%nat ->
  jfif_parse (exif_root lost) (jfile segs after) fuel = Some (Ok (SSoi 0 :: out ++ [SEoi])).
Proof. exact (fun lost => parse_ok (exif_root lost)). Qed.
Print Assumptions C61_segments.

(** The Exif directory is the one of the first Exif segment, read at its place. *)
Theorem C61_exif_found : forall tiff_at off segs out, shown tiff_at off segs out ->
  match exif_ifd out with
  | Some i => exists l t r, segs = l ++ JExif t :: r /\ Forall (fun s => match s with JExif _ => False | _ => True end) l /\
      tiff_at (off + Z.of_nat (length (flat_map jenc l)) + 10) = Some (Ok i)
  | None => Forall (fun s => match s with JExif _ => False | _ => True end) segs
  end.
Proof. exact shown_exif_ifd. Qed.
Print Assumptions C61_exif_found.

(** The XMP packet is the one of the first XMP segment. *)
Theorem C61_xmp_found : forall tiff_at off segs out, shown tiff_at off segs out ->
  match xpacket out with
  | Some x => exists l r, segs = l ++ JXmp x :: r /\ Forall (fun s => match s with JXmp _ => False | _ => True end) l
  | None => Forall (fun s => match s with JXmp _ => False | _ => True end) segs
  end.
Proof. exact shown_xpacket. Qed.
Print Assumptions C61_xmp_found.

(** The reader ends on every file without APP1 marker; the reader of the Exif
    directory always ends. *)
Theorem C61_ends : forall lost file fuel, Forall (urange 8) file -> (forall p, ~ at_ file p [0xFF; 0xE1]) ->
  (length file <= fuel)%nat -> jfif_parse (exif_root lost) file fuel <> None.
Proof. exact (fun lost file fuel H1 H2 => parse_ends_jfif (exif_root lost) file H1 H2 fuel). Qed.
Print Assumptions C61_ends.
Theorem C61_exif_ends : forall lost file base, exif_root lost file base <> None.
Proof. exact exif_root_ends. Qed.
Print Assumptions C61_exif_ends.

(** A file that is accepted starts with the marker SOI. *)
Theorem C61_starts_with_soi : forall lost file fuel segs, Forall (urange 8) file ->
  jfif_parse (exif_root lost) file fuel = Some (Ok segs) -> at_ file 0 [0xFF; 0xD8].
Proof. exact (fun lost => parse_soi (exif_root lost)). Qed.
Print Assumptions C61_starts_with_soi.

(** It never ends on a file that is cut off in an APP1 segment. *)
Theorem C61_cut_refuted : forall lost segs cut out fuel, Forall jseg_ok segs -> cut_app1 cut ->
  let file := [0xFF; 0xD8] ++ flat_map jenc segs ++ [0xFF; 0xE1] ++ cut in
  Z.of_nat (length file) < 2 ^ 32 -> shown (exif_root lost file) 2 segs out -> jfif_parse (exif_root lost) file fuel = None.
Proof. exact (fun lost => parse_cut (exif_root lost)). Qed.
Print Assumptions C61_cut_refuted.

Definition str_jfxx : list Z := [74; 70; 88; 88; 0; 16].
(** Correct files that are rejected or stop the reader: a fill byte before the
    end marker, a JFIF extension segment, a thumbnail of 10 by 10 pixels.  A
    short XMP segment stops it as well. *)
Theorem C61_correct_files_refuted : forall lost,
  jfif_parse (exif_root lost) ([0xFF; 0xD8] ++ jenc (JScan [Plain 0; Plain 1]) ++ [0xFF; 0xFF; 0xD9]) 9 = Some Err /\
  jfif_parse (exif_root lost) ([0xFF; 0xD8] ++ seg 0xE0 str_jfxx ++ [0xFF; 0xD9]) 9 = Some Err /\
  jfif_parse (exif_root lost) ([0xFF; 0xD8] ++ jenc (JJfif [1; 2; 0; 0; 1; 0; 1; 10; 10] (repeat 7 300)) ++ [0xFF; 0xD9]) 9 = Some Panic /\
  forall after, jfif_parse (exif_root lost) ([0xFF; 0xD8; 0xFF; 0xE1; 0; 30] ++ XMP_MARKER ++ after) 9 = Some Panic.
Proof.
  intros lost. split; [vm_compute; reflexivity|]. split; [vm_compute; reflexivity|]. split; [vm_compute; reflexivity|].
  intros after. set (file := [0xFF; 0xD8; 0xFF; 0xE1; 0; 30] ++ XMP_MARKER ++ after). assert (L : (length file = 35 + length after)%nat) by (unfold file; rewrite !app_length; reflexivity).
  unfold jfif_parse. rewrite (u16_at file 0 0xFFD8); [|unfold urange; lia|exists [], (skipn 2 file); split; reflexivity]. cbn [obind].
  rewrite loop_S. cbn zeta. change (0xFFD8 =? 0xFFD8) with true. cbn iota. cbn [negb andb app]. change (0xFFD8 =? 0xFFD9) with false. cbn iota.
  rewrite (u16_at file 2 0xFFE1); [|unfold urange; lia|exists (firstn 2 file), (skipn 4 file); split; reflexivity].
  rewrite loop_S. cbn zeta. change (0xFFE1 =? 0xFFD8) with false. change (0xFFE1 =? 0xFFD9) with false. change (0xFFE1 =? 0xFFE0) with false. change (0xFFE1 =? 0xFFE1) with true. cbn iota.
  assert (A : app1_read (exif_root lost) file 4 = A1Panic); [|change (2 + 2) with 4; now rewrite A].
  unfold app1_read, app1_need. rewrite (rd_at_n file 4 [0; 30]); [|exists (firstn 4 file), (skipn 6 file); split; reflexivity|reflexivity].
  change (dec BE [0; 30]) with 30. cbn zeta. change (6 <=? 30) with true. cbn iota.
  rewrite (rd_at_n file (4 + 2) [104; 116; 116; 112; 58; 47]); [|exists (firstn 6 file), (skipn 12 file); split; reflexivity|reflexivity].
  change (bytes_eqb _ EXIF_MARKER) with false. cbn iota. unfold app1_xmp, app1_need. change (29 <=? 30) with true. cbn iota.
  rewrite (rd_at_n file (4 + 2) XMP_MARKER); [|exists (firstn 6 file), after; split; reflexivity|reflexivity]. reflexivity.
Qed.
Print Assumptions C61_correct_files_refuted.

(** After a damaged Exif segment the segments that follow are lost: here an XMP
    packet that is found when the Exif segment is left out. *)
Definition lost_xmp (first : list jseg) : list Z := jfile (first ++ [JXmp [60; 62]; JApp1 (repeat 0 60); JScan [Plain 3]]) [].
Theorem C61_damaged_exif_refuted : forall lost, exists bad,
  (match jfif_parse (exif_root lost) (lost_xmp []) 50 with Some (Ok s) => xpacket s = Some [60; 62] | _ => False end) /\
  match jfif_parse (exif_root lost) (lost_xmp [JExif bad]) 50 with Some (Ok s) => xpacket s = None | _ => False end.
Proof. intros lost. exists [0]. split; vm_compute; reflexivity. Qed.
Print Assumptions C61_damaged_exif_refuted.

(** A file with all kinds of segments *)
Definition ex_tiff : list Z :=
  [73; 73; 42; 0; 8; 0; 0; 0] ++ [1; 0] ++ ([15; 1; 2; 0; 4; 0; 0; 0] ++ [65; 66; 67; 0]) ++ [0; 0; 0; 0].
Definition ex_segs : list jseg :=
  [JJfif [1; 2; 0; 0; 1; 0; 1; 1; 1] [9; 9; 9]; JExif ex_tiff; JXmp [60; 62]; JApp1 [69; 120; 105; 102]; JOther 0xDB [1; 2; 3];
   JScan [Plain 0; Plain 8; Stuffed; Plain 7; Restart 2; Plain 254]].
Example C61_example : Forall jseg_ok ex_segs /\ exists out i,
  jfif_parse (exif_root 0) (jfile ex_segs [1; 2]) 8 = Some (Ok (SSoi 0 :: out ++ [SEoi])) /\
  exif_ifd out = Some i /\ map (fun '(t, e) => (t, e_value e)) (i_entries i) = [(271, VAscii [[65; 66; 67]] [65; 66; 67; 0])] /\ xpacket out = Some [60; 62].
Proof.
  assert (OK : Forall jseg_ok ex_segs).
  { repeat constructor; cbn; unfold urange, fits; cbn; try lia; intros (r & E); discriminate E. }
  split; [exact OK|].
  destruct (exif_root 0 (jfile ex_segs [1; 2]) 33) as [[i| |]|] eqn:E; try (vm_compute in E; discriminate E).
  eexists _, i. split; [|split; [|split]].
  - apply C61_segments; [exact OK|vm_compute; reflexivity| |cbn; lia].
    apply shown_jfif, (shown_exif _ _ _ i); [exact E|]. apply shown_xmp, shown_app1, shown_other, shown_scan, shown_nil.
  - reflexivity.
  - vm_compute in E. injection E as <-. reflexivity.
  - reflexivity.
Qed.
