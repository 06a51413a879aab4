(** Specification of batch planning and directory scans. *)
From Coq Require Import Ascii String List ZArith Bool.
From Verif Require Import Base Ftp FtpClient Plan.
Import ListNotations.
Open Scope Z_scope.

(** [s] is the file stem of the name [n]: the text before the last dot, or all
    of it if the only dot is at the start or there is none *)
Definition stem_is (n s : name) : Prop :=
  (exists e, n = s ++ [46] ++ e /\ s <> [] /\ ~ In 46 e) \/ (n = s /\ forall a e, n = a ++ [46] ++ e -> ~ In 46 e -> a = []).

(** [q] lies in the directory of [p] and has the name [n] *)
Definition sibling (p q : pth) (n : name) : Prop :=
  exists d last, p = mkP (rooted p) (d ++ [last]) /\ q = mkP (rooted p) (d ++ [Normal n]).

(** decimal text *)
Definition value (s : bytes) : Z := fold_left (fun a b => a * 10 + (b - 48)) s 0.
Definition decimal (n : nat) (s : bytes) : Prop := Forall (fun b => 48 <= b <= 57) s /\ s <> [] /\ value s = Z.of_nat n.

(** the path an entry is written to before its name is changed *)
Definition base_of (e : file_map) (pr : probe) (p : pth) : Prop :=
  if dest_dir pr then exists n, pfile_name (src e) = Some n /\ p = mkP (rooted (dest e)) (comps (dest e) ++ [Normal n])
  else p = dest e.

(** images to produce for an entry *)
Definition wanted (sel : selection) (ep : file_map * probe) : list (pth * nat) :=
  match sel with
  | Index k => [(src (fst ep), k)]
  | All => match images (snd ep) with Some n => map (fun i => (src (fst ep), i)) (seq 0 n) | None => [] end
  end.
(** nothing prevents planning the entry *)
Definition plannable (sel : selection) (ep : file_map * probe) : Prop :=
  (sel = All -> exists n, images (snd ep) = Some (S n)) /\ mkdir_ok (snd ep) = true /\
  exists p n, base_of (fst ep) (snd ep) p /\ pfile_name p = Some n.

(** ** directory scans *)
(** [t] is found at [rel] under a directory with entries [l] *)
Inductive found : list (name * tree) -> place -> tree -> Prop :=
| found_here l n t : In (n, t) l -> found l [n] t
| found_below l n l' rel t : In (n, TDir l') l -> found l' rel t -> found l (n :: rel) t.
(** names in each directory are different *)
Inductive proper : tree -> Prop :=
| proper_file : proper TFile
| proper_other : proper TOther
| proper_broken : proper Broken
| proper_dir l : NoDup (map fst l) -> (forall n t, In (n, t) l -> proper t) -> proper (TDir l).
Definition visited (recursive : bool) (rel : place) : Prop := recursive = true \/ length rel = 1%nat.

(** components of a path are never empty *)
Definition real_path (p : pth) : Prop := forall n, In (Normal n) (comps p) -> n <> [].
Definition real_entry (ep : file_map * probe) : Prop := real_path (src (fst ep)) /\ real_path (dest (fst ep)).
Definition in_dir (b : bool) (d : list comp) (n : name) : pth := mkP b (d ++ [Normal n]).

(** what is put between stem and extension for suffix [k] and frame [i] *)
Definition tag_text (multi : bool) (k i : nat) (t : bytes) : Prop :=
  exists sk si, decimal k sk /\ decimal i si /\ (4 <= length si)%nat /\
  t = (if (k =? 0)%nat then [] else [95] ++ sk) ++ (if multi then [95] ++ si else []).

(** for examples *)
Definition entry (a b : string) : file_map * probe := (mkF (components (str a)) (components (str b)), mkProbe (Some 2%nat) true true).
Definition outs (r : res (list job)) : list pth := match r with Ok js => map j_output js | _ => [] end.
Definition p_ (s : string) : pth := components (str s).
