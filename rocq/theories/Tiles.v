(** rawler/src/tiles.rs and the tile decoding loop of rawler/src/decoders/mod.rs. *)
From Coq Require Import List ZArith Lia Bool.
From Verif Require Import Base Par.
Import ListNotations.
Open Scope nat_scope.

(** usize::div_ceil; a zero divisor panics. *)
Definition div_ceil (a b : nat) : res nat :=
  if b =? 0 then Panic else Ok ((a + b - 1) / b).

(** [a / b], [a % b]; a zero divisor panics. *)
Definition udiv (a b : nat) : res nat := if b =? 0 then Panic else Ok (a / b).
Definition umod (a b : nat) : res nat := if b =? 0 then Panic else Ok (a mod b).

Section Tiler.
Context {A : Type}.
Variable d : A.   (* T::default() *)

(** ImageTiler, tiles.rs:11-23 *)
Record tiler := mk_tiler {
  tl_data : list A; tl_width : nat; tl_height : nat; tl_cpp : nat;
  tl_tw : nat; tl_th : nat; tl_tcols : nat; tl_trows : nat }.

(** ImageTiler::new, tiles.rs:26-41 *)
Definition tiler_new (data : list A) (width height cpp tw th : nat) : res tiler :=
  do _ <- assert_ (height * width * cpp <=? length data);
  do tcols <- div_ceil width tw;
  do trows <- div_ceil height th;
  Ok (mk_tiler data width height cpp tw th tcols trows).

(** tile_count, tiles.rs:51-53 *)
Definition tile_count (t : tiler) : nat := tl_trows t * tl_tcols t.

(** One iteration of the row loop of build_tile, tiles.rs:75-91. *)
Definition build_row (t : tiler) (tile_row tile_col : nat) (row : nat) (buf : list A) : res (list A) :=
  let off_row := tile_row * tl_th t + row in
  let offset := off_row * tl_width t * tl_cpp t + tile_col * tl_tw t * tl_cpp t in
  if offset <? length (tl_data t) then
    do last_col <- usub (tl_tcols t) 1;
    do rem <- umod (tl_width t) (tl_tw t);
    if (tile_col <? last_col) || (rem =? 0) then
      do sub <- slice (tl_data t) offset (offset + tl_tw t * tl_cpp t);
      Ok (buf ++ sub)
    else
      do sub <- slice (tl_data t) offset (offset + rem * tl_cpp t);
      let buf := buf ++ sub in
      Ok (buf ++ repeat (last buf d) ((tl_tw t - rem) * tl_cpp t))
  else
    do r <- usub row 1;
    do sub <- slice buf (r * tl_tw t * tl_cpp t) (r * tl_tw t * tl_cpp t + tl_tw t * tl_cpp t);
    Ok (buf ++ sub).

(** build_tile, tiles.rs:69-93 *)
Definition build_tile (t : tiler) (idx : nat) : res (list A) :=
  do tile_row <- udiv idx (tl_tcols t);
  do tile_col <- umod idx (tl_tcols t);
  for_each (seq 0 (tl_th t)) (build_row t tile_row tile_col) [].

(** The iterator: tiles 0 .. tile_count-1, tiles.rs:96-110. *)
Definition all_tiles (t : tiler) : res (list (list A)) :=
  for_each (seq 0 (tile_count t)) (fun i acc => do b <- build_tile t i; Ok (acc ++ [b])) [].

End Tiler.
Arguments tiler : clear implicits.

(** ** Mutable tiles *)

(** IntoTilesIter (tiles.rs:170-177) without the buffer itself; [ti_len] is the
    buffer length. *)
Record tilesit := mk_tilesit { ti_count : nat; ti_width : nat; ti_cpp : nat; ti_tw : nat; ti_th : nat; ti_len : nat }.

(** into_tiles_iter_mut, tiles.rs:140-155 *)
Definition into_tiles (len width cpp tw th : nat) : res tilesit :=
  do _ <- assert_ (0 <? width);
  do _ <- assert_ (0 <? tw * th);
  do _ <- assert_ (0 <? cpp);
  if negb (len mod (tw * cpp * th) =? 0) then Err
  else Ok (mk_tilesit 0 width cpp tw th len).

(** A tile: index of its first sample, samples per line, number of lines,
    distance between lines (Tile, tiles.rs:240-247). *)
Record mtile := mk_mtile { mt_start : nat; mt_line : nat; mt_height : nat; mt_dist : nat }.

(** IntoTilesIter::tile_count, tiles.rs:181-183 *)
Definition ti_tile_count (t : tilesit) : res nat :=
  do a <- udiv (ti_len t) (ti_cpp t); udiv a (ti_th t * ti_tw t).

(** IntoTilesIter::next, tiles.rs:198-230 *)
Definition tiles_next (t : tilesit) : res (option mtile * tilesit) :=
  do tile_cols <- udiv (ti_width t) (ti_tw t);
  do a <- udiv (ti_len t) (ti_cpp t);
  do _ <- udiv a (ti_th t * ti_width t);
  do tile_x <- umod (ti_count t) tile_cols;
  do tile_y <- udiv (ti_count t) tile_cols;
  do tc <- ti_tile_count t;
  do _ <- assert_ (ti_count t <=? tc);
  let start := tile_x * (ti_tw t * ti_cpp t) + tile_y * (ti_width t * ti_cpp t) * ti_th t in
  let t' := mk_tilesit (ti_count t + 1) (ti_width t) (ti_cpp t) (ti_tw t) (ti_th t) (ti_len t) in
  if ti_len t <=? start then Ok (None, t')
  else
    let dist := ti_width t * ti_cpp t in
    do need <- usub (ti_th t * dist) (tile_x * ti_tw t * ti_cpp t);
    if ti_len t - start <? need then Panic
    else
      do _ <- assert_ (ti_tw t * ti_cpp t <=? ti_len t - start);
      Ok (Some (mk_mtile start (ti_tw t * ti_cpp t) (ti_th t) dist), t').

(** TileIterMut::next, tiles.rs:285-301: line [l] is the cells
    [start + l*dist .. start + l*dist + line). *)
Definition mtile_line (m : mtile) (l : nat) : list nat := seq (mt_start m + l * mt_dist m) (mt_line m).
Definition mtile_cells (m : mtile) : list nat := flat_map (mtile_line m) (seq 0 (mt_height m)).

(** Draining the iterator until it returns None. *)
Fixpoint tiles_collect (fuel : nat) (t : tilesit) : res (list mtile) :=
  match fuel with
  | O => Err
  | S fuel' =>
    do (o, t') <- tiles_next t;
    match o with
    | None => Ok []
    | Some m => do ms <- tiles_collect fuel' t'; Ok (m :: ms)
    end
  end.

Definition tiles_list (t : tilesit) : res (list mtile) := tiles_collect (S (S (ti_len t))) t.

(** ** Pix2D cropping, pixarray.rs:206-232 *)
Section Pix.
Context {A : Type}.
Variable d : A.
Record pix2d := mk_pix { px_w : nat; px_h : nat; px_data : list A }.

(** row, pixarray.rs:141-145 *)
Definition pix_row (p : pix2d) (r : nat) : res (list A) := slice (px_data p) (r * px_w p) (r * px_w p + px_w p).

(** crop, pixarray.rs:216-232 (initialized buffers; zero width panics in
    par_chunks_exact_mut).  Each output line is written by its own worker;
    lines do not depend on each other, so they are produced in order here
    (order independence is C23). *)
Definition crop (p : pix2d) (x y w h : nat) : res pix2d :=
  do _ <- assert_ (negb (w =? 0));
  do out <- for_each (seq 0 h) (fun row acc =>
              do src <- pix_row p (y + row);
              do line <- slice src x (x + w);
              Ok (acc ++ line)) [];
  Ok (mk_pix w h out).

(** into_crop, pixarray.rs:206-212 *)
Definition into_crop (p : pix2d) (x y w h : nat) : res pix2d :=
  if (px_w p =? w) && (px_h p =? h) && (x =? 0) && (y =? 0) then Ok p else crop p x y w h.

(** ** decode_tiles, decoders/mod.rs:768-804 *)

(** The copy loop shared by the frame decompressors (e.g.
    decompressors/ljpeg/mod.rs:36-45): the tile's cells, line after line, are
    overwritten by the leading whole lines of the decoded pixels. *)
Definition copy_lines (lw th : nat) (pix : list A) : op A :=
  fun v => let m := Nat.min th (length pix / lw) * lw in Some (firstn m pix ++ skipn m v).

(** Workers of the tile loop: tile [k] is decoded by [dec k]; a failure of the
    decompressor fails the worker before it writes anything. *)
Definition tile_worker (dec : nat -> option (list A)) (lw : nat) (k : nat) (m : mtile) : worker A :=
  mk_worker (mtile_cells m)
    [match dec k with Some pix => copy_lines lw (mt_height m) pix | None => fun _ => None end].

Definition tile_workers (dec : nat -> option (list A)) (lw : nat) (ms : list mtile) : list (worker A) :=
  map (fun '(k, m) => tile_worker dec lw k m) (combine (seq 0 (length ms)) ms).

(** Geometry and buffer of decode_tiles up to the parallel loop.  [ntiles] is
    the number of tile offsets in the file. *)
Definition decode_tiles_init (ntiles width height cpp tw th : nat) (dec : nat -> option (list A))
  : res (nat * nat * pstate A) :=
  do w1 <- usub width 1;
  do h1 <- usub height 1;
  do cq <- udiv w1 tw;
  do rq <- udiv h1 th;
  let dw := (cq + 1) * tw in
  let dh := (rq + 1) * th in
  if negb ((cq + 1) * (rq + 1) =? ntiles) then Err
  else
    do ww <- udiv (dw * cpp) cpp;
    do it <- into_tiles (dw * cpp * dh) ww cpp tw th;
    do ms <- tiles_list it;
    Ok (dw * cpp, dh, mk_pstate (repeat d (dw * cpp * dh)) (tile_workers dec (tw * cpp) ms) false).
End Pix.
Arguments pix2d : clear implicits.
