(** TIFF container: values, directory writer, directory reader
    (rawler/src/formats/tiff/{value,writer,entry,ifd,reader,mod}.rs).
    A file is its list of bytes.  Floats are their bit patterns, strings their
    UTF-8 bytes.  The host is little endian (NativeEndian = LittleEndian).
    Allocation failure and log output are not modelled. *)
From Coq Require Import List ZArith Lia Bool.
From Verif Require Import Base Bits BitsSpec.
Import ListNotations.
Open Scope Z_scope.

Inductive bord := LE | BE.

(** [k] bytes of an integer (two's complement) *)
Definition le_bytes (k : nat) (v : Z) : list Z := map (fun i => (v / 2 ^ (8 * Z.of_nat i)) mod 256) (seq 0 k).
Definition enc (e : bord) (k : nat) (v : Z) : list Z := match e with LE => le_bytes k v | BE => rev (le_bytes k v) end.
(** from_le_bytes, from_be_bytes *)
Fixpoint from_le (l : list Z) : Z := match l with [] => 0 | b :: l => b + 256 * from_le l end.
Definition dec (e : bord) (l : list Z) : Z := from_le (match e with LE => l | BE => rev l end).
(** the signed type of [k] bytes with the same bits *)
Definition signed (k : nat) (v : Z) : Z := if v <? 2 ^ (8 * Z.of_nat k - 1) then v else v - 2 ^ (8 * Z.of_nat k).

(** ** Values, value.rs:376-403, 997-1001 *)
Inductive value :=
| VByte (l : list Z)
| VAscii (ss : list (list Z)) (plain : list Z)
| VShort (l : list Z)
| VLong (l : list Z)
| VRational (l : list (Z * Z))
| VSByte (l : list Z)
| VUndef (l : list Z)
| VSShort (l : list Z)
| VSLong (l : list Z)
| VSRational (l : list (Z * Z))
| VFloat (l : list Z)
| VDouble (l : list Z)
| VUnknown (t : Z) (l : list Z).

(** TiffAscii::count, value.rs:1029-1031 *)
Definition ascii_count (ss : list (list Z)) : nat := fold_right (fun s n => (length s + 1 + n)%nat) 0%nat ss.
(** Value::count, value.rs:799-815 *)
Definition vcount (v : value) : nat :=
  match v with
  | VAscii ss _ => ascii_count ss
  | VByte l | VShort l | VLong l | VSByte l | VUndef l | VSShort l | VSLong l | VFloat l | VDouble l | VUnknown _ l => length l
  | VRational l | VSRational l => length l
  end.
(** Value::byte_size, value.rs:817-833 *)
Definition vsize (v : value) : nat :=
  match v with
  | VAscii ss _ => ascii_count ss
  | VByte l | VSByte l | VUndef l | VUnknown _ l => length l
  | VShort l | VSShort l => (length l * 2)%nat
  | VLong l | VSLong l | VFloat l => (length l * 4)%nat
  | VDouble l => (length l * 8)%nat
  | VRational l | VSRational l => (length l * 8)%nat
  end.
(** Value::value_type, value.rs:957-973 *)
Definition vtype (v : value) : Z :=
  match v with
  | VByte _ => 1 | VAscii _ _ => 2 | VShort _ => 3 | VLong _ => 4 | VRational _ => 5 | VSByte _ => 6 | VUndef _ => 7
  | VSShort _ => 8 | VSLong _ => 9 | VSRational _ => 10 | VFloat _ => 11 | VDouble _ => 12 | VUnknown t _ => t
  end.

(** as_vec_with_nul, value.rs:1033-1040: CString::new fails on interior NULs *)
Definition ascii_nul (ss : list (list Z)) : res (list Z) :=
  for_each ss (fun s out => if existsb (Z.eqb 0) s then Panic else Ok (out ++ s ++ [0])) [].

(** [a | b << 8 | c << 16 | d << 24] on u32, missing elements being zero;
    a signed element is sign extended by the cast *)
Definition or4 (l : list Z) : Z :=
  Z.lor (Z.lor (Z.lor (wrap_u32 (nth 0 l 0)) (wrap_u32 (wrap_u32 (nth 1 l 0) * 2 ^ 8)))
    (wrap_u32 (wrap_u32 (nth 2 l 0) * 2 ^ 16))) (wrap_u32 (wrap_u32 (nth 3 l 0) * 2 ^ 24)).
Definition or2 (l : list Z) : Z := Z.lor (wrap_u32 (nth 0 l 0)) (wrap_u32 (wrap_u32 (nth 1 l 0) * 2 ^ 16)).
(** [f as u32] on an f32: the value, truncated and saturated; NaN is 0 *)
Definition f32_as_u32 (bits : Z) : Z :=
  match classify 23 8 bits with
  | NotANumber => 0
  | Infinite => if fsign 23 8 bits =? 0 then 2 ^ 32 - 1 else 0
  | Finite => if fsign 23 8 bits =? 0 then Z.min (magnitude 23 8 bits / 2 ^ 149) (2 ^ 32 - 1) else 0
  end.

(** Value::as_embedded, value.rs:835-887 *)
Definition as_embedded (v : value) : res Z :=
  do _ <- check (negb (vcount v =? 0)%nat);
  do _ <- check (vsize v <=? 4)%nat;
  match v with
  | VByte l | VSByte l | VUndef l | VUnknown _ l => Ok (or4 l)
  | VAscii ss _ => do b <- ascii_nul ss; Ok (or4 b)
  | VShort l | VSShort l => Ok (or2 l)
  | VLong l | VSLong l => Ok (wrap_u32 (nth 0 l 0))
  | VFloat l => Ok (f32_as_u32 (nth 0 l 0))
  | _ => Panic
  end.

(** Value::write, value.rs:889-955 *)
Definition write_value (v : value) : res (list Z) :=
  match v with
  | VByte l | VUndef l | VUnknown _ l => Ok l
  | VAscii ss _ => ascii_nul ss
  | VSByte l => Ok (flat_map (le_bytes 1) l)
  | VShort l | VSShort l => Ok (flat_map (le_bytes 2) l)
  | VLong l | VSLong l | VFloat l => Ok (flat_map (le_bytes 4) l)
  | VDouble l => Ok (flat_map (le_bytes 8) l)
  | VRational l | VSRational l => Ok (flat_map (fun r => le_bytes 4 (fst r) ++ le_bytes 4 (snd r)) l)
  end.

(** ** Directory writer *)

(** BTreeMap<u16, _>: a list sorted by key *)
Fixpoint bt_insert {A} (k : Z) (a : A) (m : list (Z * A)) : list (Z * A) :=
  match m with
  | [] => [(k, a)]
  | (k', a') :: m' => if k <? k' then (k, a) :: m else if k =? k' then (k, a) :: m' else (k', a') :: bt_insert k a m'
  end.
Fixpoint bt_get {A} (k : Z) (m : list (Z * A)) : option A :=
  match m with [] => None | (k', a) :: m => if k =? k' then Some a else bt_get k m end.

(** add_tag, add_untyped_tag, add_tag_undefined, add_value, writer.rs:147-207 *)
Definition add_tag (d : list (Z * value)) (tag : Z) (v : value) : list (Z * value) := bt_insert tag v d.
(** copy, writer.rs:175-181: existing tags are kept *)
Definition copy_tags (d src : list (Z * value)) : list (Z * value) :=
  fold_left (fun d e => match bt_get (fst e) d with Some _ => d | None => add_tag d (fst e) (snd e) end) src d.

(** position() as u32, writer.rs:129-131 *)
Definition tpos (buf : list Z) : Z := wrap_u32 (Z.of_nat (length buf)).
(** pad_word_boundary, writer.rs:107-114 *)
Definition pad4 (buf : list Z) : list Z :=
  if tpos buf mod 4 =? 0 then buf else buf ++ repeat 0 (Z.to_nat (4 - tpos buf mod 4)).
(** write_data, writer.rs:78-86 *)
Definition write_data (buf data : list Z) : Z * list Z := let b := pad4 buf in (tpos b, b ++ data).
(** write_data_u16_le, writer.rs:88-98 *)
Definition write_data_u16 (buf data : list Z) : Z * list Z := write_data buf (flat_map (le_bytes 2) data).

(** TiffWriter::new, writer.rs:30-54 *)
Definition tiff_new : list Z := [73; 73] ++ le_bytes 2 42 ++ le_bytes 4 0.

(** first loop of DirectoryWriter::build, writer.rs:231-252 *)
Fixpoint build_values (entries : list (Z * value)) (buf : list Z) : res (list Z * list Z) :=
  match entries with
  | [] => Ok ([], buf)
  | (_, v) :: es =>
    if (4 <? vsize v)%nat then
      let b := pad4 buf in
      do w <- write_value v;
      do (embs, buf') <- build_values es (b ++ w);
      Ok (tpos b :: embs, buf')
    else
      do _ <- assert_ (negb (vcount v =? 0)%nat);
      do emb <- as_embedded v;
      do (embs, buf') <- build_values es buf;
      Ok (emb :: embs, buf')
  end.
(** DirectoryWriter::build, writer.rs:222-271; [next] is next_ifd *)
Definition dir_record (tag : Z) (v : value) (emb : Z) : list Z :=
  le_bytes 2 tag ++ le_bytes 2 (vtype v) ++ le_bytes 4 (Z.of_nat (vcount v)) ++ le_bytes 4 emb.
Definition dir_build (entries : list (Z * value)) (next : Z) (buf : list Z) : res (Z * list Z) :=
  do _ <- check (negb (length entries =? 0)%nat);
  do (embs, buf') <- build_values entries buf;
  let b := pad4 buf' in
  Ok (tpos b, b ++ le_bytes 2 (Z.of_nat (length entries))
    ++ flat_map (fun '((tag, v), emb) => dir_record tag v emb) (combine entries embs) ++ le_bytes 4 next).

(** TiffWriter::build, writer.rs:116-121: the header is patched in place *)
Definition patch4 (buf : list Z) (at_ : nat) (v : Z) : list Z := firstn at_ buf ++ le_bytes 4 v ++ skipn (at_ + 4) buf.
Definition tiff_build (buf : list Z) (root : list (Z * value)) : res (list Z) :=
  do (off, buf') <- dir_build root 0 buf;
  Ok (patch4 buf' 4 off).

(** ** Reader *)

(** read_exact of [n] bytes at [pos] *)
Definition rd (file : list Z) (pos n : Z) : res (list Z) :=
  if pos + n <=? Z.of_nat (length file) then Ok (firstn (Z.to_nat n) (skipn (Z.to_nat pos) file)) else Err.
Definition rd_u16 (e : bord) (file : list Z) (pos : Z) : res Z := do b <- rd file pos 2; Ok (dec e b).
Definition rd_u32 (e : bord) (file : list Z) (pos : Z) : res Z := do b <- rd file pos 4; Ok (dec e b).

(** chunks_exact *)
Fixpoint chunks (fuel k : nat) (l : list Z) : list (list Z) :=
  match fuel with
  | O => []
  | S fuel => if (k <=? length l)%nat then firstn k l :: chunks fuel k (skipn k l) else []
  end.
(** read_u16_into and its relatives: [count] integers of [k] bytes *)
Definition rd_many (e : bord) (file : list Z) (pos : Z) (k : nat) (count : Z) : res (list Z) :=
  do b <- rd file pos (count * Z.of_nat k); Ok (map (dec e) (chunks (Z.to_nat count) k b)).
Fixpoint pairs (l : list Z) : list (Z * Z) :=
  match l with a :: b :: l => (a, b) :: pairs l | _ => [] end.

(** std::str::from_utf8(..).is_ok(): well formed UTF-8 (Unicode table 3-7) *)
Definition cont (b : Z) : bool := (128 <=? b) && (b <? 192).
Fixpoint utf8 (fuel : nat) (l : list Z) : bool :=
  match fuel with
  | O => match l with [] => true | _ => false end
  | S fuel =>
    match l with
    | [] => true
    | a :: l1 =>
      if a <? 128 then utf8 fuel l1
      else match l1 with
      | [] => false
      | b :: l2 =>
        if (194 <=? a) && (a <? 224) then cont b && utf8 fuel l2
        else match l2 with
        | [] => false
        | c :: l3 =>
          if (224 <=? a) && (a <? 240) then
            cont b && cont c && (if a =? 224 then 160 <=? b else true) && (if a =? 237 then b <? 160 else true) && utf8 fuel l3
          else match l3 with
          | [] => false
          | d :: l4 =>
            (240 <=? a) && (a <? 245) && cont b && cont c && cont d && (if a =? 240 then 144 <=? b else true)
              && (if a =? 244 then b <? 144 else true) && utf8 fuel l4
          end
        end
      end
    end
  end.
Definition is_utf8 (l : list Z) : bool := utf8 (length l) l.
(** "!!!INVALID UTF8!!!" *)
Definition invalid_utf8 : list Z := [33; 33; 33; 73; 78; 86; 65; 76; 73; 68; 32; 85; 84; 70; 56; 33; 33; 33].
Fixpoint until_nul (l : list Z) : list Z := match l with [] => [] | b :: l => if b =? 0 then [] else b :: until_nul l end.
(** TiffAscii::new_from_raw, value.rs:1042-1058 *)
Definition ascii_from_raw (raw : list Z) : value :=
  let s := until_nul raw in VAscii [if is_utf8 s then s else invalid_utf8] raw.

(** DATASHIFTS, entry.rs:62 *)
Definition datashift (typ : Z) : Z :=
  nth (Z.to_nat typ) [0; 0; 0; 1; 2; 3; 0; 0; 1; 2; 3; 2; 3; 2] 0.
(** the match of Entry::parse, entry.rs:110-236 *)
Definition parse_value (e : bord) (file : list Z) (pos typ count : Z) : res value :=
  if typ =? 1 then do v <- rd file pos count; Ok (VByte v)
  else if typ =? 2 then do v <- rd file pos count; Ok (ascii_from_raw v)
  else if typ =? 3 then do v <- rd_many e file pos 2 count; Ok (VShort v)
  else if typ =? 4 then do v <- rd_many e file pos 4 count; Ok (VLong v)
  else if typ =? 5 then do v <- rd_many e file pos 4 (count * 2); Ok (VRational (pairs v))
  else if typ =? 6 then do v <- rd file pos count; Ok (VSByte (map (signed 1) v))
  else if typ =? 7 then do v <- rd file pos count; Ok (VUndef v)
  else if typ =? 8 then do v <- rd_many e file pos 2 count; Ok (VSShort (map (signed 2) v))
  else if typ =? 9 then do v <- rd_many e file pos 4 count; Ok (VSLong (map (signed 4) v))
  else if typ =? 10 then do v <- rd_many e file pos 4 (count * 2); Ok (VSRational (pairs (map (signed 4) v)))
  else if typ =? 11 then do v <- rd_many e file pos 4 count; Ok (VFloat v)
  else if typ =? 12 then do v <- rd_many e file pos 8 count; Ok (VDouble v)
  else do v <- rd file pos count; Ok (VUnknown typ v).

(** apply_corr, mod.rs:296-298 *)
Definition apply_corr (off corr : Z) : Z := wrap_u32 (off + corr).

Record entry := mk_entry { e_value : value; e_off : Z }.
(** Outcome of a parse step together with the position of the reader: after a
    failed read the position is not specified, [lost] stands for it. *)
Inductive pres := POk (en : entry) (pos : Z) | PErr (pos : Z) | PPanic.
Definition on_io {A} (lost : Z) (r : res A) (k : A -> pres) : pres :=
  match r with Ok a => k a | Err => PErr lost | Panic => PPanic end.

(** Entry::parse, entry.rs:80-240.  [p] is the position of the entry (the tag
    has been read). *)
Definition entry_parse (lost : Z) (e : bord) (file : list Z) (base corr p : Z) : pres :=
  on_io lost (rd_u16 e file (p + 2)) (fun typ =>
  on_io lost (rd_u32 e file (p + 4)) (fun count =>
  let compat := if (typ =? 0) || (12 <? typ) then 7 else typ in
  let bytes := count * 2 ^ datashift compat in
  let after off pos :=
    if (off =? 2 ^ 32 - 1) || (2 ^ 32 <=? base + off) then PErr pos
    else on_io lost (parse_value e file (base + off) typ count) (fun v =>
      if 2 ^ 32 <=? p + 12 then PPanic else POk (mk_entry v off) (p + 12)) in
  if bytes <=? 4 then if p + 8 <? base then PPanic else after (p + 8 - base) (p + 8)
  else on_io lost (rd_u32 e file (p + 8)) (fun o => after (apply_corr o corr) (p + 12)))).

Definition MAX_IFD_ENTRIES : nat := 4096.

(** sub IFD bookkeeping, ifd.rs:146-167 *)
Definition sub_offsets (subs : list Z) (tag : Z) (en : entry) (offs : list (Z * list Z)) : res (list (Z * list Z)) :=
  if existsb (Z.eqb tag) subs then
    match e_value en with
    | VLong l => Ok (bt_insert tag l offs)
    | VUnknown t l => do o <- get l 0; Ok (bt_insert t [o] offs)
    | VUndef _ => Ok (bt_insert tag [e_off en] offs)
    | _ => Ok offs
    end
  else Ok offs.

(** the entry loop of IFD::new, ifd.rs:118-184; [n] iterations are left, [i]
    is the index *)
Fixpoint ifd_loop (lost : Z) (e : bord) (file : list Z) (base corr : Z) (subs : list Z) (n i errs : nat) (next_pos : Z)
  (entries : list (Z * entry)) (offs : list (Z * list Z)) (pos : Z)
  : res (list (Z * entry) * list (Z * list Z) * Z) :=
  match n with
  | O => Ok (entries, offs, pos)
  | S n' =>
    if (MAX_IFD_ENTRIES <=? i)%nat then Ok (entries, offs, pos)
    else if 2 ^ 32 <=? next_pos + 12 then Panic
    else match rd_u16 e file next_pos with
    | Panic => Panic
    | Err => Ok (entries, offs, lost)
    | Ok tag =>
      match entry_parse lost e file base corr next_pos with
      | PPanic => Panic
      | POk en pos' =>
        do offs' <- sub_offsets subs tag en offs;
        ifd_loop lost e file base corr subs n' (S i) 0 (next_pos + 12) (bt_insert tag en entries) offs' pos'
      | PErr pos' =>
        if (5 <=? S errs)%nat then Ok (entries, offs, pos')
        else ifd_loop lost e file base corr subs n' (S i) (S errs) (next_pos + 12) entries offs pos'
      end
    end
  end.

(** IFD, ifd.rs:36-46 (chain is only filled by new_root_with_correction) *)
Inductive ifd := mk_ifd (i_off : Z) (i_next : Z) (i_entries : list (Z * entry)) (i_sub : list (Z * list ifd)) (i_chain : list ifd).
Definition i_off (i : ifd) : Z := match i with mk_ifd o _ _ _ _ => o end.
Definition i_next (i : ifd) : Z := match i with mk_ifd _ n _ _ _ => n end.
Definition i_entries (i : ifd) : list (Z * entry) := match i with mk_ifd _ _ es _ _ => es end.
Definition i_sub (i : ifd) : list (Z * list ifd) := match i with mk_ifd _ _ _ s _ => s end.
Definition i_chain (i : ifd) : list ifd := match i with mk_ifd _ _ _ _ c => c end.

(** first part of IFD::new, ifd.rs:100-197 *)
Definition ifd_head (lost : Z) (e : bord) (file : list Z) (off base corr : Z) (subs : list Z)
  : res (list (Z * entry) * list (Z * list Z) * Z) :=
  do _ <- assert_ (base + off <? 2 ^ 32);
  do count <- rd_u16 e file (base + off);
  let pos := wrap_u32 (base + off + 2) in
  do (x, pos) <- ifd_loop lost e file base corr subs (Z.to_nat count) 0 0 pos [] [] pos;
  let next := match rd_u32 e file pos with Ok n => n | _ => 0 end in
  Ok (x, if next =? 0 then 0 else apply_corr next corr).

(** IFD::new for a sub IFD (sub_tags is empty) *)
Definition ifd_leaf (lost : Z) (e : bord) (file : list Z) (off base corr : Z) : res ifd :=
  do (x, next) <- ifd_head lost e file off base corr [];
  Ok (mk_ifd off next (fst x) [] []).
(** the sub IFDs of one tag, ifd.rs:204-211: errors are ignored *)
Fixpoint sub_ifds (lost : Z) (e : bord) (file : list Z) (base corr : Z) (offs : list Z) : res (list ifd) :=
  match offs with
  | [] => Ok []
  | o :: offs =>
    match ifd_leaf lost e file (apply_corr o corr) base corr with
    | Ok i => do r <- sub_ifds lost e file base corr offs; Ok (i :: r)
    | Err => sub_ifds lost e file base corr offs
    | Panic => Panic
    end
  end.
(** IFD::new, ifd.rs:100-226 *)
Definition ifd_new (lost : Z) (e : bord) (file : list Z) (off base corr : Z) (subs : list Z) : res ifd :=
  do (x, next) <- ifd_head lost e file off base corr subs;
  do sub <- for_each (snd x) (fun '(tag, offs) s =>
    do l <- sub_ifds lost e file base corr offs; Ok (s ++ [(tag, l)])) [];
  Ok (mk_ifd off next (fst x) sub []).

(** the marker and magic of parse_file, reader.rs:139-160 *)
Definition parse_header (file : list Z) (start : Z) : res (bord * Z * Z) :=
  do m <- rd_u16 LE file start;
  do e <- (if m =? 18761 then Ok LE else if m =? 19789 then Ok BE else Err);
  do magic <- rd_u16 e file (start + 2);
  do next <- rd_u32 e file (start + 4);
  Ok (e, magic, next).

(** the chain loop of parse_file, reader.rs:166-181; [None] when the fuel is
    used up *)
Fixpoint chain_loop (fuel : nat) (lost : Z) (e : bord) (file : list Z) (base corr : Z) (subs : list Z)
  (max : option nat) (next : Z) (chain : list ifd) : option (res (list ifd)) :=
  if next =? 0 then Some (Ok chain)
  else match fuel with
  | O => None
  | S fuel =>
    match ifd_new lost e file next base corr subs with
    | Panic => Some Panic
    | Err => Some Err
    | Ok i =>
      if (length (i_entries i) =? 0)%nat then Some Err
      else
        let chain := chain ++ [i] in
        match max with
        | Some m => if (m <? length chain)%nat then Some (Ok chain)
                    else chain_loop fuel lost e file base corr subs max (i_next i) chain
        | None => chain_loop fuel lost e file base corr subs max (i_next i) chain
        end
    end
  end.

(** wellknown_sub_ifd_tags, reader.rs:25-32: SubIFDs, ExifIFDPointer,
    GPSInfo, IccProfile *)
Definition wellknown_subs : list Z := [330; 34665; 34853; 34675].

(** parse_file, reader.rs:138-188; [start] is the position of the reader *)
Definition parse_file (fuel : nat) (lost : Z) (file : list Z) (start base corr : Z) (max : option nat) (subs : list Z)
  : option (res (list ifd)) :=
  match parse_header file start with
  | Panic => Some Panic
  | Err => Some Err
  | Ok (e, magic, next) =>
    if negb (existsb (Z.eqb magic) [42; 85; 21330; 20306]) then Some Err
    else if next =? 0 then Some Err
    else match chain_loop fuel lost e file base corr (wellknown_subs ++ subs) max (apply_corr next corr) [] with
    | Some (Ok []) => Some Err
    | r => r
    end
  end.

(** new_root_with_correction, ifd.rs:54-98: same, but the next pointers are
    corrected a second time *)
Fixpoint root_chain (fuel : nat) (lost : Z) (e : bord) (file : list Z) (base corr : Z) (subs : list Z)
  (max : nat) (next : Z) (chain : list ifd) : option (res (list ifd)) :=
  if next =? 0 then Some (Ok chain)
  else match fuel with
  | O => None
  | S fuel =>
    match ifd_new lost e file (apply_corr next corr) base corr subs with
    | Panic => Some Panic
    | Err => Some Err
    | Ok i =>
      if (length (i_entries i) =? 0)%nat then Some Err
      else
        let chain := chain ++ [i] in
        if ((max <? length chain) && (0 <? max))%nat then Some (Ok chain)
        else root_chain fuel lost e file base corr subs max (i_next i) chain
    end
  end.
Definition new_root (fuel : nat) (lost : Z) (file : list Z) (off base corr : Z) (max : nat) (subs : list Z) : option (res ifd) :=
  if 2 ^ 32 <=? base + off then Some Panic
  else match parse_header file (base + off) with
  | Panic => Some Panic
  | Err => Some Err
  | Ok (e, magic, next) =>
    if negb (magic =? 42) then Some Err
    else if next =? 0 then Some Err
    else match ifd_new lost e file (apply_corr next corr) base corr subs with
    | Panic => Some Panic
    | Err => Some Err
    | Ok root =>
      if (length (i_entries root) =? 0)%nat then Some Err
      else match root_chain fuel lost e file base corr subs max (i_next root) [] with
      | Some (Ok c) => Some (Ok (mk_ifd (i_off root) (i_next root) (i_entries root) (i_sub root) c))
      | Some Err => Some Err
      | Some Panic => Some Panic
      | None => None
      end
    end
  end.
