(** The embedded original raw file: rawler/src/dng/original.rs.
    zlib and MD5 are external libraries; they are arguments here
    ([comp], [decomp], [md5]).  A stream is its bytes plus a position. *)
From Coq Require Import List ZArith Bool.
From Verif Require Import Base Tiff.
Import ListNotations.
Open Scope Z_scope.

(** COMPRESS_BLOCK_SIZE, original.rs:15 *)
Definition BLOCK : Z := 65536.
(** u32::div_ceil *)
Definition div_ceil (a b : Z) : Z := (a + b - 1) / b.

Section Libraries.
  (** ForkBlock::compress, original.rs:171-182 (zlib encoder; [None] is an io error) *)
  Variable comp : list Z -> option (list Z).
  (** ForkBlock::decompress, original.rs:184-189 *)
  Variable decomp : list Z -> option (list Z).
  Variable md5 : list Z -> list Z.

  (** original.rs:19-23 *)
  Record original := mk_original { o_size : Z; o_chunks : list (list Z); o_digest : option (list Z) }.

  (** the read loop, original.rs:113-122: [stream.take(65536).read_to_end()] until it is empty *)
  Fixpoint blocks (fuel : nat) (data : list Z) : list (list Z) :=
    match fuel with
    | O => []
    | S fuel => let buf := firstn (Z.to_nat BLOCK) data in
                match buf with [] => [] | _ => buf :: blocks fuel (skipn (Z.to_nat BLOCK) data) end
    end.

  (** [flat_map] over a [Result]: failed blocks vanish, original.rs:123 *)
  Definition keep_ok {A} (l : list (option A)) : list A :=
    flat_map (fun o => match o with Some a => [a] | None => [] end) l.

  (** compress, original.rs:94-127 *)
  Definition compress (file : list Z) (pos : nat) : res original :=
    do n <- usub (length file) pos;
    if 2 ^ 32 <=? Z.of_nat n then Err else
    let data := skipn pos file in
    let forks := blocks (S (length data)) data in
    Ok (mk_original (Z.of_nat n) (keep_ok (map comp forks)) (Some (md5 (concat forks)))).

  (** the end offsets, original.rs:145-150: u32 additions *)
  Fixpoint ends (at_ : Z) (chunks : list (list Z)) : res (list Z) :=
    match chunks with
    | [] => Ok []
    | c :: chunks =>
      let e := at_ + wrap_u32 (Z.of_nat (length c)) in
      if 2 ^ 32 <=? e then Panic else do es <- ends e chunks; Ok (e :: es)
    end.

  (** write_to_stream, original.rs:134-162: the bytes appended to the output *)
  Definition write_to_stream (o : original) : res (list Z) :=
    let start := wrap_u32 (4 + (Z.of_nat (length (o_chunks o)) + 1) * 4) in
    do es <- ends start (o_chunks o);
    Ok (enc BE 4 (o_size o) ++ enc BE 4 start ++ flat_map (enc BE 4) es ++ concat (o_chunks o)
        ++ flat_map (enc BE 4) (repeat 0 7)).

  (** the index, original.rs:36-39 *)
  Fixpoint read_index (file : list Z) (pos : Z) (n : nat) : res (list Z) :=
    match n with
    | O => Ok []
    | S n => do i <- rd_u32 BE file pos; do is <- read_index file (pos + 4) n; Ok (i :: is)
    end.
  (** the chunks, original.rs:46-54 *)
  Fixpoint read_chunks (file : list Z) (pos offset : Z) (ends : list Z) : res (list (list Z)) :=
    match ends with
    | [] => Ok []
    | e :: ends =>
      if e <? offset then Err else
      do c <- rd file pos (e - offset);
      do cs <- read_chunks file (pos + (e - offset)) e ends; Ok (c :: cs)
    end.
  (** new, original.rs:26-58 *)
  Definition orig_new (file : list Z) (start : Z) (digest : option (list Z)) : res original :=
    do size <- rd_u32 BE file start;
    do index <- read_index file (start + 4) (Z.to_nat (div_ceil size BLOCK + 1));
    match index with
    | [] => Ok (mk_original size [] digest)
    | offset :: es => do cs <- read_chunks file (start + offset) offset es; Ok (mk_original size cs digest)
    end.

  (** decompress, original.rs:60-90: bytes written and returned length ([total] keeps the last block's length only) *)
  Fixpoint unpack (chunks : list (list Z)) (out : list Z) (total : nat) : res (list Z * nat) :=
    match chunks with
    | [] => Ok (out, total)
    | c :: chunks => match decomp c with None => Err | Some buf => unpack chunks (out ++ buf) (length buf) end
    end.
  Definition decompress (o : original) (verify : bool) : res (list Z * nat) :=
    do (out, total) <- unpack (o_chunks o) [] 0;
    let same := match o_digest o with Some d => if list_eq_dec Z.eq_dec d (md5 out) then true else false | None => false end in
    if negb same && verify then Err else Ok (out, total).
End Libraries.
