(** The parallel decoding helpers of rawler/src/decompressors/mod.rs. *)
From Coq Require Import List ZArith Lia Bool.
From Verif Require Import Base Par.
Import ListNotations.
Open Scope nat_scope.

Section Decomp.
Context {A : Type}.
Variable d : A.

(** Cells of chunk [i] of [par_chunks_mut(c)] over a buffer of [n] cells; the
    last chunk may be short. *)
Definition chunk_cells (c n i : nat) : list nat := seq (i * c) (Nat.min c (n - i * c)).

(** Buffer and workers of a loop over [par_chunks_mut(c)]; [prog i] is the
    body for chunk [i].  rayon panics on a zero chunk size. *)
Definition par_chunks (c n : nat) (prog : nat -> list (op A)) : res (pstate A) :=
  if c =? 0 then Panic
  else Ok (mk_pstate (repeat d n)
             (map (fun i => mk_worker (chunk_cells c n i) (prog i)) (seq 0 ((n + c - 1) / c))) false).

(** Same for [par_chunks_exact_mut(c)]: whole chunks only. *)
Definition par_chunks_exact (c n : nat) (prog : nat -> list (op A)) : res (pstate A) :=
  if c =? 0 then Panic
  else Ok (mk_pstate (repeat d n)
             (map (fun i => mk_worker (chunk_cells c n i) (prog i)) (seq 0 (n / c))) false).

(** decompress_lines_fn, decompressors/mod.rs:141-154: [closure row] is run on
    line [row]. *)
Definition lines_fn (width height : nat) (closure : nat -> list (op A)) : res (pstate A) :=
  par_chunks width (width * height) closure.

(** decompress_chunked_fn, decompressors/mod.rs:288-299. *)
Definition chunked_fn (width height chunksize : nat) (closure : nat -> list (op A)) : res (pstate A) :=
  par_chunks chunksize (width * height) closure.

(** decompress_strips_fn, decompressors/mod.rs:212-225: the closure gets the
    strip number and the row of its first line. *)
Definition strips_fn (width height stripsize : nat) (closure : nat -> nat -> list (op A)) : res (pstate A) :=
  par_chunks (width * stripsize) (width * height) (fun strip => closure strip (strip * stripsize)).

(** FnLineDecompressor::decompress, decompressors/mod.rs:315-320: line [j] of
    the slice is decoded as row [skip + j]. *)
Definition on_line (width j : nat) (o : op A) : op A := fun v =>
  match o (firstn width (skipn (j * width) v)) with
  | Some l => Some (firstn (j * width) v ++ l ++ skipn (j * width + width) v)
  | None => None
  end.

Definition fn_line_decompress (f : nat -> op A) (skip nlines width : nat) : list (op A) :=
  map (fun j => on_line width j (f (skip + j))) (seq 0 nlines).

(** decompress_lines with a line decompressor, decompressors/mod.rs:174-187. *)
Definition lines (width height : nat) (f : nat -> op A) : res (pstate A) :=
  par_chunks_exact width (width * height) (fun row => fn_line_decompress f row 1 width).

(** decompress_strips with a line decompressor, decompressors/mod.rs:253-266:
    the strip slice is cut by chunks_exact_mut(width). *)
Definition strips (width height stripsize : nat) (f : nat -> op A) : res (pstate A) :=
  par_chunks (width * stripsize) (width * height) (fun strip =>
    fn_line_decompress f (strip * stripsize)
      (Nat.min (width * stripsize) (width * height - strip * (width * stripsize)) / width) width).

(** ** Specification *)
Fixpoint all_some (l : list (option (list A))) : option (list (list A)) :=
  match l with
  | [] => Some []
  | Some x :: t => match all_some t with Some xs => Some (x :: xs) | None => None end
  | None :: _ => None
  end.

(** The image: row after row, each decoded on its own; a failing row fails the
    image. *)
Definition image_spec (width height : nat) (f : nat -> op A) : outcome A :=
  match all_some (map (fun r => f r (repeat d width)) (seq 0 height)) with
  | Some rows => POk (concat rows)
  | None => PFail
  end.
End Decomp.
