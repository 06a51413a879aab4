(** Writing and reading the raw image of a DNG:
    rawler/src/dng/writer.rs (dng_put_raw_ljpeg) and
    rawler/src/decoders/mod.rs (plain_image_from_ifd, decode_tiles). *)
From Coq Require Import List ZArith Lia Bool.
From Verif Require Import Base Par Tiles LjpegEnc LjpegDec.
Import ListNotations.
Open Scope Z_scope.

(** RawPhotometricInterpretation; for a CFA only the pattern size matters here. *)
Inductive photometric := BlackIsZero | Cfa (cw ch : nat) | LinearRaw.

(** Tile geometry handed to the LJPEG compressor, dng/writer.rs:579-599:
    (j_width, j_height, components, realign). *)
Definition ljpeg_geometry (tile_w tile_h cpp : nat) (ph : photometric) (predictor : nat)
  : res (nat * nat * nat * nat) :=
  match ph with
  | BlackIsZero =>
    do _ <- assert_ (cpp =? 1)%nat; Ok (tile_w, tile_h, 1%nat, 1%nat)
  | Cfa cw ch =>
    do _ <- assert_ (cpp =? 1)%nat;
    let realign := if ((4 <=? predictor) && (predictor <=? 7) && (cw =? 2) && (ch =? 2))%nat then 2%nat else 1%nat in
    Ok ((tile_w / 2)%nat, tile_h, 2%nat, realign)
  | LinearRaw => Ok (tile_w, tile_h, cpp, 1%nat)
  end.

(** dng_put_raw_ljpeg, dng/writer.rs:569-622: the compressed tiles in order.
    The parallel map has no shared state; its results are collected in index
    order, so it is a plain map here.  [tile_w] and [tile_h] are 256 in the
    code.  [dbg] is the debug_assertions switch of the compressor. *)
Definition put_raw_ljpeg (dbg : bool) (tile_w tile_h : nat) (data : list Z) (w h cpp bps : nat)
    (ph : photometric) (predictor : nat) : res (list (list Z)) :=
  do (jw, jh, comps, realign) <- ljpeg_geometry tile_w tile_h cpp ph predictor;
  do t <- tiler_new data w h cpp tile_w tile_h;
  for_each (seq 0 (tile_count t)) (fun idx acc =>
    do tile <- build_tile 0 t idx;
    do bytes <- ljpeg_compress dbg tile (jw * realign) (jh / realign) comps bps predictor 0 0;
    Ok (acc ++ [bytes])) [].

(** The frame decoded by LJpegDecompressor::decompress before it copies lines
    (decompressors/ljpeg/mod.rs:34-39). *)
Definition ljpeg_frame (bytes : list Z) : option (list Z) :=
  match ljdec_new bytes with
  | Ok dec =>
    match ljdec_decode dec (repeat 0 (ljdec_width dec * ljdec_height dec)) 0 (ljdec_width dec)
            (ljdec_width dec) (ljdec_height dec) with
    | Ok pix => Some pix
    | _ => None
    end
  | _ => None
  end.

(** Start of the tile decoding loop for LJPEG tiles. *)
Definition read_ljpeg_init (tiles : list (list Z)) (w h cpp tile_w tile_h : nat) : res (nat * nat * pstate Z) :=
  decode_tiles_init 0 (length tiles) w h cpp tile_w tile_h (fun k => ljpeg_frame (nth k tiles [])).

(** plain_image_from_ifd (decoders/mod.rs:599-658) for unsigned integer
    samples, ModernJPEG, tiles, no linearization table and no interleaving:
    tile loop under the schedule [sched], then crop. *)
Definition read_ljpeg (sched : list nat) (tiles : list (list Z)) (w h cpp tile_w tile_h : nat) : res (list Z) :=
  do (dw, dh, s0) <- read_ljpeg_init tiles w h cpp tile_w tile_h;
  match result (prun 0 sched s0) with
  | PFail => Err
  | POk buf => do p <- into_crop (mk_pix dw dh buf) 0 0 (w * cpp) h; Ok (px_data p)
  end.

(** The parallel loop has ended under this schedule. *)
Definition read_ljpeg_ends (sched : list nat) (tiles : list (list Z)) (w h cpp tile_w tile_h : nat) : Prop :=
  match read_ljpeg_init tiles w h cpp tile_w tile_h with
  | Ok (_, _, s0) => ended (prun 0 sched s0)
  | _ => True
  end.
