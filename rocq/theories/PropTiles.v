(** Properties C07 (tiler), C08 (mutable tiles), C09 (lossless DNG image) and
    C23 (parallel decoding). *)
From Coq Require Import List ZArith Lia Bool Permutation.
From Verif Require Import Base Par ParProofs Tiles LjpegEnc LjpegDec DngImage TilesTop Decomp DecompProofs.
Import ListNotations.
Open Scope nat_scope.

(** ** C07 *)

(** Number and size of the tiles, and every sample of every tile: row and
    column are clamped to the image, so positions inside the image hold the
    image sample and positions outside hold the nearest edge sample. *)
Theorem C07_tiler : forall A (d : A) data w h cpp tw th,
  0 < w -> 0 < h -> 0 < cpp -> 0 < tw -> 0 < th -> length data = h * w * cpp ->
  let tcols := (w + tw - 1) / tw in let trows := (h + th - 1) / th in
  exists t tiles,
  tiler_new data w h cpp tw th = Ok t /\ all_tiles d t = Ok tiles /\ length tiles = trows * tcols /\
  (forall k, k < trows * tcols -> length (nth k tiles []) = th * (tw * cpp)) /\
  forall ty tx r c, ty < trows -> tx < tcols -> r < th -> c < tw * cpp ->
    nth (r * (tw * cpp) + c) (nth (ty * tcols + tx) tiles []) d =
    nth (Nat.min (ty * th + r) (h - 1) * (w * cpp) + Nat.min (tx * (tw * cpp) + c) (w * cpp - 1)) data d.
Proof. exact @tiler_top. Qed.
Print Assumptions C07_tiler.

(** Putting the tiles side by side and cropping gives the image. *)
Theorem C07_reassemble : forall A (d : A) data w h cpp tw th,
  0 < w -> 0 < h -> 0 < cpp -> 0 < tw -> 0 < th -> length data = h * w * cpp ->
  forall t tiles, tiler_new data w h cpp tw th = Ok t -> all_tiles d t = Ok tiles ->
  map (fun i => let y := i / (w * cpp) in let c := i mod (w * cpp) in
         nth (y mod th * (tw * cpp) + c mod (tw * cpp)) (nth (y / th * ((w + tw - 1) / tw) + c / (tw * cpp)) tiles []) d)
      (seq 0 (h * (w * cpp))) = data.
Proof. exact @tiler_reassemble. Qed.
Print Assumptions C07_reassemble.

(** The constructor accepts a slice longer than the image, but the rows below
    the image are then read from the surplus, and may panic. *)
Theorem C07_long_slice_refuted : exists (t : tiler Z), tiler_new [1; 2; 3]%Z 2 1 1 2 2 = Ok t /\ all_tiles 0%Z t = Panic.
Proof. eexists. split; [reflexivity|]. vm_compute. reflexivity. Qed.
Print Assumptions C07_long_slice_refuted.

Example C07_example : exists t, tiler_new [1;2;3; 4;5;6]%Z 3 2 1 2 2 = Ok t /\
  all_tiles 0%Z t = Ok [[1;2;4;5]; [3;3;6;6]]%Z.
Proof. eexists. split; [reflexivity|]. vm_compute. reflexivity. Qed.

(** ** C08 *)

(** The lines of all tiles together are a permutation of the buffer cells: in
    bounds, disjoint, covering; each line sits at its place in the image. *)
Theorem C08_tiles_partition : forall tcols trows cpp tw th,
  0 < tcols -> 0 < trows -> 0 < cpp -> 0 < tw -> 0 < th ->
  let len := trows * th * (tcols * (tw * cpp)) in
  exists it ms, into_tiles len (tcols * tw) cpp tw th = Ok it /\ tiles_list it = Ok ms /\
  length ms = trows * tcols /\
  (forall ty tx l p, ty < trows -> tx < tcols -> l < th -> p < tw * cpp ->
     nth p (mtile_line (nth (ty * tcols + tx) ms (mk_mtile 0 0 0 0)) l) 0 =
     (ty * th + l) * (tcols * tw * cpp) + tx * (tw * cpp) + p) /\
  Forall (fun m => mt_height m = th /\ mt_line m = tw * cpp) ms /\
  Permutation (flat_map mtile_cells ms) (seq 0 len).
Proof. exact mtiles_top. Qed.
Print Assumptions C08_tiles_partition.

(** Writing the tiles in any interleaving gives the sequential result. *)
Theorem C08_any_order : forall tcols trows cpp tw th,
  0 < tcols -> 0 < trows -> 0 < cpp -> 0 < tw -> 0 < th ->
  forall A (d : A) it ms (prog : nat -> list (op A)) buf sched,
  let len := trows * th * (tcols * (tw * cpp)) in
  into_tiles len (tcols * tw) cpp tw th = Ok it -> tiles_list it = Ok ms -> length buf = len ->
  (forall k, Forall (op_ok (th * (tw * cpp))) (prog k)) ->
  let ws := map (fun '(k, m) => mk_worker (mtile_cells m) (prog k)) (combine (seq 0 (length ms)) ms) in
  ended (prun d sched (mk_pstate buf ws false)) ->
  result (prun d sched (mk_pstate buf ws false)) = run_seq d ws buf.
Proof. intros tcols trows cpp tw th H1 H2 H3 H4 H5 A. exact (mtiles_par tcols trows cpp tw th H1 H2 H3 H4 H5). Qed.
Print Assumptions C08_any_order.

(** A width that is not a whole number of tiles passes the checks of the
    constructor but leaves cells of the buffer uncovered. *)
Theorem C08_partial_width_refuted : exists it ms, into_tiles 12 3 1 2 2 = Ok it /\ tiles_list it = Ok ms /\
  ~ In 2 (flat_map mtile_cells ms).
Proof.
  eexists. eexists. split; [reflexivity|]. split; [vm_compute; reflexivity|].
  cbv. intros H. repeat destruct H as [H|H]; try discriminate; auto.
Qed.
Print Assumptions C08_partial_width_refuted.

(** Polling the iterator after it returned None panics. *)
Theorem C08_not_fused_refuted : exists it it', into_tiles 4 2 1 2 2 = Ok it /\
  tiles_next (mk_tilesit 1 2 1 2 2 4) = Ok (None, it') /\ tiles_next it' = Panic.
Proof. eexists. eexists. repeat split. Qed.
Print Assumptions C08_not_fused_refuted.

Example C08_example : exists it, into_tiles 16 4 1 2 2 = Ok it /\
  tiles_list it = Ok [mk_mtile 0 2 2 4; mk_mtile 2 2 2 4; mk_mtile 8 2 2 4; mk_mtile 10 2 2 4] /\
  mtile_cells (mk_mtile 10 2 2 4) = [10; 11; 14; 15].
Proof. eexists. repeat split. Qed.

(** ** C09 *)

(** For every layout, predictor, bit depth, size and content: writing
    succeeds, and reading the tiles back under any schedule of the parallel
    tile loop gives the image.  [dbg] is the debug assertion switch: with it
    on, samples must fit the declared bit depth. *)
Theorem C09_image_roundtrip : forall dbg data w h cpp bps ph px,
  0 < w -> 0 < h -> length data = h * w * cpp -> Forall is_u16 data ->
  10 <= bps <= 16 -> 1 <= px <= 7 ->
  (dbg = true -> Forall (fun s => (s < 2 ^ Z.of_nat bps)%Z) data) ->
  match ph with LinearRaw => 1 <= cpp <= 4 | _ => cpp = 1 end ->
  exists tiles, put_raw_ljpeg dbg 256 256 data w h cpp bps ph px = Ok tiles /\
    length tiles = ((h + 255) / 256) * ((w + 255) / 256) /\
    (exists sched, read_ljpeg_ends sched tiles w h cpp 256 256) /\
    forall sched, read_ljpeg_ends sched tiles w h cpp 256 256 ->
      read_ljpeg sched tiles w h cpp 256 256 = Ok data.
Proof. exact image_roundtrip. Qed.
Print Assumptions C09_image_roundtrip.

(** A 3x3 CFA image with predictor 6 (rows realigned, edges padded). *)
Example C09_example :
  let data := [1;2;3; 4;1000;6; 7;8;1023]%Z in
  exists tiles sched, put_raw_ljpeg true 256 256 data 3 3 1 10 (Cfa 2 2) 6 = Ok tiles /\ length tiles = 1 /\
    read_ljpeg sched tiles 3 3 1 256 256 = Ok data.
Proof.
  cbv zeta. destruct (C09_image_roundtrip true [1;2;3; 4;1000;6; 7;8;1023]%Z 3 3 1 10 (Cfa 2 2) 6) as (tiles & E & HL & (sched & HE) & HR);
    [lia|lia|reflexivity|repeat constructor; unfold is_u16; lia|lia|lia|intros _; repeat constructor; cbn; lia|reflexivity|].
  exists tiles, sched. split; [exact E|]. split; [exact HL|]. now apply HR.
Qed.

(** ** C23 *)

(** decompress_lines_fn: any closure (any sequence of atomic steps on its own
    line), any schedule.  Row [r] of the image is what [closure r] makes of a
    zero line; the call fails exactly when some row fails. *)
Theorem C23_lines_fn : forall A (d : A) width height closure s0 sched,
  lines_fn d width height closure = Ok s0 ->
  (forall r, r < height -> Forall (op_ok width) (closure r)) ->
  ended (prun d sched s0) ->
  result (prun d sched s0) = image_spec d width height (fun r v => run_ops (closure r) v).
Proof. exact @lines_fn_ok. Qed.
Print Assumptions C23_lines_fn.

(** decompress_lines and decompress_strips with a line decompressor give the
    same image, whatever the strip size. *)
Theorem C23_lines : forall A (d : A) width height f s0 sched,
  lines d width height f = Ok s0 -> (forall r, op_ok width (f r)) -> ended (prun d sched s0) ->
  result (prun d sched s0) = image_spec d width height f.
Proof. exact @lines_ok. Qed.
Print Assumptions C23_lines.

Theorem C23_strips : forall A (d : A) width height ss f s0 sched,
  strips d width height ss f = Ok s0 -> (forall r, op_ok width (f r)) -> ended (prun d sched s0) ->
  result (prun d sched s0) = image_spec d width height f.
Proof. exact @strips_ok. Qed.
Print Assumptions C23_strips.

(** decompress_strips_fn: strip [i] starts at row [i * ss] and has
    [min ss (height - i * ss)] rows. *)
Theorem C23_strips_fn : forall A (d : A) width height ss closure s0 sched,
  strips_fn d width height ss closure = Ok s0 ->
  (forall i r, Forall (op_ok (Nat.min (width * ss) (width * height - i * (width * ss)))) (closure i r)) ->
  ended (prun d sched s0) ->
  result (prun d sched s0) =
    match all_some (map (fun i => run_ops (closure i (i * ss)) (repeat d (width * Nat.min ss (height - i * ss))))
            (seq 0 ((width * height + width * ss - 1) / (width * ss)))) with
    | Some vs => POk (concat vs)
    | None => PFail
    end.
Proof. exact @strips_fn_ok. Qed.
Print Assumptions C23_strips_fn.

Theorem C23_chunked_fn : forall A (d : A) width height cs closure s0 sched,
  chunked_fn d width height cs closure = Ok s0 ->
  (forall i, i < (width * height + cs - 1) / cs -> Forall (op_ok (Nat.min cs (width * height - i * cs))) (closure i)) ->
  ended (prun d sched s0) ->
  result (prun d sched s0) =
    match all_some (map (fun i => run_ops (closure i) (repeat d (Nat.min cs (width * height - i * cs))))
            (seq 0 ((width * height + cs - 1) / cs))) with
    | Some vs => POk (concat vs)
    | None => PFail
    end.
Proof. exact @chunked_fn_ok. Qed.
Print Assumptions C23_chunked_fn.

(** Zero sizes panic instead of giving an empty image. *)
Theorem C23_zero_width_refuted : forall A (d : A) height f, lines d 0 height f = Panic.
Proof. reflexivity. Qed.
Print Assumptions C23_zero_width_refuted.

(** Two workers interleaved: a 2x3 image in strips of two rows; row [r] gets
    the value [r + 1], written cell by cell. *)
Example C23_example :
  exists s0, strips 0 2 3 2 (fun r v => Some (map (fun _ => r + 1) v)) = Ok s0 /\
    result (prun 0 [1; 0; 0] s0) = POk [1; 1; 2; 2; 3; 3] /\
    result (prun 0 [0; 1; 0] s0) = POk [1; 1; 2; 2; 3; 3].
Proof. eexists. split; [reflexivity|]. split; vm_compute; reflexivity. Qed.
