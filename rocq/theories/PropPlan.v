(** C21, C36, C37: batch planning, directory scans and extraction targets. *)
From Coq Require Import Ascii String List ZArith Bool.
From Verif Require Import Base Ftp FtpClient Plan PlanSpec PlanTop.
Import ListNotations.
Open Scope Z_scope.

(** All images of a conversion run get different outputs. *)
Theorem C21_distinct_outputs : forall lossy sel es js, Forall real_entry es -> convert_plan lossy sel es [] = Ok js ->
  NoDup (map j_output js).
Proof. exact distinct. Qed.
Print Assumptions C21_distinct_outputs.

(** Every wanted image of every input is planned once, in order. *)
Theorem C21_complete : forall lossy sel es js, Forall real_entry es -> convert_plan lossy sel es [] = Ok js ->
  map (fun j => (j_input j, j_index j)) js = flat_map (wanted sel) es.
Proof. exact complete. Qed.
Print Assumptions C21_complete.

(** The search for free names always ends. *)
Theorem C21_total : forall lossy sel es, Forall real_entry es -> Forall (plannable sel) es -> exists js, convert_plan lossy sel es [] = Ok js.
Proof. exact total. Qed.
Print Assumptions C21_total.

(** Outputs lie where the entry points to, are named after it, and a number is
    added only while every smaller number is taken by an earlier entry. *)
Theorem C21_names : forall lossy sel before e pr after js, Forall real_entry (before ++ (e, pr) :: after) ->
  convert_plan lossy sel (before ++ (e, pr) :: after) [] = Ok js ->
  exists j1 j2 j3 b d n s k, js = j1 ++ j2 ++ j3 /\ convert_plan lossy sel before [] = Ok j1 /\
    base_of e pr (in_dir b d n) /\ stem_is n s /\
    let multi := (1 <? length j2)%nat in
    (forall i j, nth_error j2 i = Some j -> exists t, tag_text multi k i t /\ j_output j = in_dir b d (lossy s ++ t ++ str ".dng")) /\
    (forall k', (k' < k)%nat -> exists i t, (i < length j2)%nat /\ tag_text multi k' i t /\ In (in_dir b d (lossy s ++ t ++ str ".dng")) (map j_output j1)).
Proof. exact names. Qed.
Print Assumptions C21_names.

(** Developing images instead keeps no record of names: stems must differ. *)
Theorem C21_develop_distinct : forall lossy k es keys js,
  Forall2 (fun ep key => exists b d n s, base_of (fst ep) (snd ep) (in_dir b d n) /\ stem_is n s /\ key = in_dir b d s) es keys ->
  NoDup keys -> develop_plan lossy (Index k) es = Ok js ->
  NoDup (map j_output js) /\ length js = length es.
Proof. exact develop_distinct. Qed.
Print Assumptions C21_develop_distinct.

(** Two raw files with the same stem are developed into the same file. *)
Theorem C21_develop_collision_refuted : exists es, Forall real_entry es /\ NoDup (map (fun ep => src (fst ep)) es) /\
  outs (develop_plan (fun n => n) (Index 0) es) = [p_ "/out/a.tif"; p_ "/out/a.tif"].
Proof. exact develop_collision. Qed.
Print Assumptions C21_develop_collision_refuted.

(** Which of two inputs gets the plain name depends on the directory order. *)
Theorem C21_order_refuted : exists a b, 
  outs (convert_plan (fun n => n) (Index 0) [a; b] []) = [p_ "/out/a.dng"; p_ "/out/a_1.dng"] /\
  outs (convert_plan (fun n => n) (Index 0) [b; a] []) = [p_ "/out/a.dng"; p_ "/out/a_1.dng"] /\ src (fst a) <> src (fst b).
Proof. exact order_matters. Qed.
Print Assumptions C21_order_refuted.

(** A source without images stops the program when all images are requested. *)
Theorem C21_no_images_refuted : forall lossy, exists e,
  convert_plan lossy All [(e, mkProbe (Some 0%nat) true true)] [] = Panic.
Proof. exact no_images. Qed.
Print Assumptions C21_no_images_refuted.

(** Several sources with two images each. *)
Example C21_example :
  outs (convert_plan (fun n => n) All [entry "/in/a.cr3" "/out"; entry "/in/a.nef" "/out"; entry "/in/b.x.CR3" "/out"] []) =
  [p_ "/out/a_0000.dng"; p_ "/out/a_0001.dng"; p_ "/out/a_1_0000.dng"; p_ "/out/a_1_0001.dng"; p_ "/out/b.x_0000.dng"; p_ "/out/b.x_0001.dng"].
Proof. vm_compute. reflexivity. Qed.

(** A scan lists exactly the accepted files, each once, and mirrors their place. *)
Theorem C36_scan_exact : forall filter recursive from to l ms, file_list filter recursive from to l = Ok ms ->
  (forall m, In m ms <-> exists rel, found l rel TFile /\ visited recursive rel /\ filter (from ++ rel) = true /\
     m = mkF (at_root (from ++ rel)) (at_root (to ++ rel))) /\
  (proper (TDir l) -> NoDup (map src ms) /\ NoDup (map dest ms)) /\
  ~ (exists rel, found l rel Broken /\ visited recursive rel).
Proof. exact scan_lists. Qed.
Print Assumptions C36_scan_exact.

(** A scan succeeds unless it meets something it cannot inspect. *)
Theorem C36_scan_total : forall filter recursive from to l,
  ~ (exists rel, found l rel Broken /\ visited recursive rel) -> exists ms, file_list filter recursive from to l = Ok ms.
Proof. exact scan_succeeds. Qed.
Print Assumptions C36_scan_total.

(** One dangling link keeps all other files from being processed. *)
Theorem C36_dangling_refuted : forall filter recursive from to, exists l, found l [str "a.cr2"] TFile /\
  file_list filter recursive from to l = Err.
Proof. exact dangling. Qed.
Print Assumptions C36_dangling_refuted.

Example C36_example :
  file_list (fun p => bytes_eqb (last p []) (str "a.cr2")) true [str "in"] [str "out"]
    [(str "a.cr2", TFile); (str "d", TDir [(str "x.txt", TFile); (str "a.cr2", TFile); (str "sock", TOther)])] =
  Ok [mkF (p_ "/in/a.cr2") (p_ "/out/a.cr2"); mkF (p_ "/in/d/a.cr2") (p_ "/out/d/a.cr2")].
Proof. vm_compute. reflexivity. Qed.

(** An embedded name that is a plain file name stays in the output directory. *)
Theorem C37_extract_inside : forall dest is_dir use_orig orig n, components orig = one n ->
  is_dir = true -> extract_output dest is_dir use_orig orig = mkP (rooted dest) (comps dest ++ [Normal n]).
Proof. exact extract_inside. Qed.
Print Assumptions C37_extract_inside.

Theorem C37_extract_sibling : forall b d m orig n, components orig = one n ->
  extract_output (in_dir b d m) false true orig = in_dir b d n.
Proof. exact extract_sibling. Qed.
Print Assumptions C37_extract_sibling.

(** The name embedded in a DNG decides where extraction writes, whatever the output directory. *)
Theorem C37_absolute_name_refuted : exists orig, forall dest use_orig,
  extract_output dest true use_orig orig = at_root [str "etc"; str "passwd"].
Proof. exact extract_absolute. Qed.
Print Assumptions C37_absolute_name_refuted.

Theorem C37_parent_name_refuted : exists orig, forall dest use_orig,
  extract_output dest true use_orig orig = mkP (rooted dest) (comps dest ++ [ParentDir; Normal (str "x")]).
Proof. exact extract_parent. Qed.
Print Assumptions C37_parent_name_refuted.

Example C37_example : extract_output (p_ "/out/x.dng") false true (str "IMG_1.CR2") = p_ "/out/IMG_1.CR2" /\ components (str "IMG_1.CR2") = one (str "IMG_1.CR2").
Proof. split; reflexivity. Qed.
