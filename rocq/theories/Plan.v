(** Planning of batch work: which input is written to which output.
    bin/dnglab/dnglab-lib/src/filemap.rs, convert.rs, process_raw.rs, extract.rs.

    Paths are component lists as in Ftp.v, which is also how PathBuf compares
    and hashes.  Conversion of names to text ([to_string_lossy]) is a parameter.
    What the file system answers is a [probe] of each entry. *)
From Coq Require Import Ascii String List ZArith Bool.
From Verif Require Import Base Ftp FtpClient.
Import ListNotations.
Open Scope Z_scope.

(** ** std::path *)
(** last dot of a name: text before and after it *)
Fixpoint last_dot (s : bytes) : option (bytes * bytes) :=
  match s with
  | [] => None
  | b :: s =>
    match last_dot s with
    | Some (x, y) => Some (b :: x, y)
    | None => if b =? 46 then Some ([], s) else None
    end
  end.
(** Path::file_stem, Path::extension on a file name: a dot at the start does not count *)
Definition stem_of (n : name) : name := match last_dot n with Some (b :: x, _) => b :: x | _ => n end.
Definition ext_of (n : name) : option name := match last_dot n with Some (_ :: _, y) => Some y | _ => None end.
(** PathBuf::pop, PathBuf::push, set_file_name/with_file_name *)
Definition ppop (p : pth) : pth := mkP (rooted p) (removelast (comps p)).
Definition with_name (p : pth) (q : pth) : pth := match pfile_name p with Some _ => pjoin (ppop p) q | None => pjoin p q end.
Definition one (n : name) : pth := mkP false [Normal n].
(** PathBuf::set_extension with a non-empty extension; None is the returned false *)
Definition set_ext (p : pth) (e : bytes) : option pth :=
  match pfile_name p with Some n => Some (mkP (rooted p) (removelast (comps p) ++ [Normal (stem_of n ++ 46 :: e)])) | None => None end.
Fixpoint comps_eqb (a b : list comp) : bool :=
  match a, b with [], [] => true | x :: a, y :: b => comp_eqb x y && comps_eqb a b | _, _ => false end.
Definition pth_eqb (p q : pth) : bool := Bool.eqb (rooted p) (rooted q) && comps_eqb (comps p) (comps q).

(** format!("{}", n) and format!("{:04}", n) for a usize *)
Fixpoint dec (fuel : nat) (n : Z) : bytes :=
  match fuel with
  | O => []
  | S k => if n <? 10 then [48 + n] else dec k (n / 10) ++ [48 + n mod 10]
  end.
Definition show (n : nat) : bytes := dec (S n) (Z.of_nat n).
Definition show4 (n : nat) : bytes := repeat 48 (4 - length (show n))%nat ++ show n.

(** ** directory scan, filemap.rs:110-134 *)
(** what [fs::metadata] and [read_dir] show, links followed; [Broken] is a failing call *)
Inductive tree := TFile | TDir (l : list (name * tree)) | TOther | Broken.
Section Scan.
Variable filter : place -> bool.
Variable recursive : bool.
(** [scan_dir input l] is read_filtered_dir on a directory with entries [l] *)
Fixpoint scan (at_ : place) (t : tree) {struct t} : res (list place) :=
  match t with
  | TFile => Ok (if filter at_ then [at_] else [])
  | TDir l =>
    if recursive then
      (fix go l := match l with
                   | [] => Ok []
                   | (n, t) :: l => do a <- scan (at_ ++ [n]) t; do b <- go l; Ok (a ++ b)
                   end) l
    else Ok []
  | TOther => Ok []
  | Broken => Err
  end.
Fixpoint scan_dir (input : place) (l : list (name * tree)) : res (list place) :=
  match l with
  | [] => Ok []
  | (n, t) :: l => do a <- scan (input ++ [n]) t; do b <- scan_dir input l; Ok (a ++ b)
  end.
End Scan.

Record file_map := mkF { src : pth; dest : pth }.
Definition at_root (p : place) : pth := mkP true (map Normal p).
(** Path::strip_prefix on places *)
Fixpoint strip_prefix (a b : place) : option place :=
  match a, b with
  | [], _ => Some b
  | x :: a, y :: b => if name_eqb x y then strip_prefix a b else None
  | _ :: _, [] => None
  end.
(** DirMap::make_mapping and file_list, filemap.rs:55-79 *)
Definition make_mapping (from to : place) (input : place) : res file_map :=
  match strip_prefix from input with
  | Some rel => Ok (mkF (at_root input) (pjoin (at_root to) (mkP false (map Normal rel))))
  | None => Err
  end.
Fixpoint map_res {A B} (f : A -> res B) (l : list A) : res (list B) :=
  match l with [] => Ok [] | a :: l => do b <- f a; do bs <- map_res f l; Ok (b :: bs) end.
Definition file_list (filter : place -> bool) (recursive : bool) (from to : place) (l : list (name * tree)) : res (list file_map) :=
  do entries <- scan_dir filter recursive from l; map_res (make_mapping from to) entries.

(** ** planning *)
Record probe := mkProbe {
  images : option nat;    (* raw_image_count_file *)
  dest_dir : bool;        (* input.is_file() && output.exists() && output.is_dir() *)
  mkdir_ok : bool         (* the parent exists or can be created *)
}.
Record job := mkJob { j_input : pth; j_output : pth; j_index : nat }.
(** --index: all, or a number *)
Inductive selection := All | Index (i : nat).

Section Plan.
Variable lossy : name -> name.
Variable sel : selection.

Definition batch_count (pr : probe) : option nat := match sel with All => images pr | Index _ => Some 1%nat end.
Definition frame_index (i : nat) : nat := match sel with All => i | Index k => k end.
(** output, with the source name appended if it is a directory: convert.rs:120-126 *)
Definition output_base (e : file_map) (pr : probe) : res pth :=
  if dest_dir pr then match pfile_name (src e) with Some n => Ok (pjoin (dest e) (one n)) | None => Err end else Ok (dest e).

Definition is_dng (x : bytes) : bool := bytes_eqb (map upper x) (str "DNG").
(** resolve_frame, convert.rs:152-165 *)
Definition frame_stem (multi : bool) (stem : bytes) (k i : nat) : bytes :=
  if multi then
    match k with O => stem ++ [95] ++ show4 i | _ => stem ++ [95] ++ show k ++ [95] ++ show4 i end
  else match k with O => stem | _ => stem ++ [95] ++ show k end.
Definition resolve_frame (output : pth) (multi : bool) (stem : bytes) (k i : nat) : pth :=
  with_name output (one (frame_stem multi stem k i ++ str ".dng")).
Definition candidates (output : pth) (multi : bool) (stem : bytes) (count k : nat) : list pth :=
  map (resolve_frame output multi stem k) (seq 0 count).
(** the loop of convert.rs:176-183; [fuel] bounds the tries, None if exceeded *)
Fixpoint find_free (fuel : nat) (claimed : list pth) (cands : nat -> list pth) (k : nat) : option (list pth) :=
  match fuel with
  | O => None
  | S fuel =>
    if existsb (fun p => existsb (pth_eqb p) claimed) (cands k) then find_free fuel claimed cands (S k) else Some (cands k)
  end.

(** generate_job, convert.rs:104-232 *)
Definition convert_jobs (e : file_map) (pr : probe) (claimed : list pth) : res (list job * list pth) :=
  match batch_count pr with
  | None => Err
  | Some count =>
    let multi := match sel with All => (1 <? count)%nat | Index _ => false end in
    do output <- output_base e pr;
    let has_dng := match pfile_name output with Some n => match ext_of n with Some x => is_dng x | None => false end | None => false end in
    do output <- (if has_dng then Ok output else match set_ext output (str "dng") with Some o => Ok o | None => Err end);
    match pfile_name output with
    | None => Err
    | Some n =>
      let stem := lossy (stem_of n) in
      match find_free (S (length claimed)) claimed (candidates output multi stem count) 0 with
      | None => Panic
      | Some outs =>
        do first <- get outs 0;
        do _ <- check (mkdir_ok pr);
        Ok (map (fun io => mkJob (src e) (snd io) (frame_index (fst io))) (combine (seq 0 (length outs)) outs), outs ++ claimed)
      end
    end
  end.
(** the loop over all entries, convert.rs:42-60 *)
Fixpoint convert_plan (es : list (file_map * probe)) (claimed : list pth) : res (list job) :=
  match es with
  | [] => Ok []
  | (e, pr) :: es => do (js, claimed) <- convert_jobs e pr claimed; do rest <- convert_plan es claimed; Ok (js ++ rest)
  end.

(** generate_job, process_raw.rs:98-169 *)
Definition develop_jobs (e : file_map) (pr : probe) : res (list job) :=
  match batch_count pr with
  | None => Err
  | Some count =>
    let multi := match sel with All => (1 <? count)%nat | Index _ => false end in
    map_res (fun i =>
      do output <- output_base e pr;
      let output := match set_ext output (str "tif") with Some o => o | None => output end in
      do output <- (if multi then
        match pfile_name output with
        | Some n => Ok (with_name output (one (lossy (stem_of n) ++ [95] ++ show4 i ++ str ".tif")))
        | None => Err
        end else Ok output);
      do _ <- match pparent output with Some _ => check (mkdir_ok pr) | None => Err end;
      Ok (mkJob (src e) output (frame_index i))) (seq 0 count)
  end.
Fixpoint develop_plan (es : list (file_map * probe)) : res (list job) :=
  match es with
  | [] => Ok []
  | (e, pr) :: es => do js <- develop_jobs e pr; do rest <- develop_plan es; Ok (js ++ rest)
  end.
End Plan.

(** generate_job, extract.rs:103-129: where the embedded file goes; [orig] is the
    OriginalRawFileName found in the DNG *)
Definition extract_output (dest : pth) (is_dir use_orig : bool) (orig : bytes) : pth :=
  if is_dir then pjoin dest (components orig)
  else if use_orig then with_name dest (components orig)
  else dest.
