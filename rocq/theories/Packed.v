(** Unpacking of packed samples, rawler/src/decompressors/packed.rs.
    The [dummy] flag (returns a blank image) is not modelled: it is [false].
    Loops over parallel lines use the worker model of [Decomp]. *)
From Coq Require Import List ZArith Lia Bool.
From Verif Require Import Base Pumps Par Decomp.
Import ListNotations.
Open Scope Z_scope.

(** [a << n] on u16. *)
Definition shl16 (a n : Z) : Z := wrap_u16 (Z.shiftl a n).
Local Notation "a << n" := (shl16 a n) (at level 45, left associativity).
Local Notation "a >> n" := (Z.shiftr a n) (at level 45, left associativity).
Local Notation "a & n" := (Z.land a n) (at level 46, left associativity).
Local Notation "a || b" := (Z.lor a b) : Z_scope.

(** for (o, i) in out.chunks_exact_mut(n).zip(inb.chunks_exact(m)): chunk [o]
    is overwritten by [f i]; the rest of [out] is kept. *)
Fixpoint zip_chunks (fuel n m : nat) (f : list Z -> list Z) (out inb : list Z) : list Z :=
  match fuel with
  | O => out
  | S fuel' =>
    if ((n <=? length out)%nat && (m <=? length inb)%nat)%bool
    then f (firstn m inb) ++ zip_chunks fuel' n m f (skipn n out) (skipn m inb)
    else out
  end.

(** ** Bit groups (the loop bodies) *)

(** packed.rs:88-90, 104-106: u16::from_be_bytes, u16::from_le_bytes *)
Definition g16be (i : list Z) : list Z := match i with [a; b] => [a * 256 + b] | _ => [] end.
Definition g16le (i : list Z) : list Z := match i with [a; b] => [b * 256 + a] | _ => [] end.
(** packed.rs:167-169 *)
Definition g8 (i : list Z) : list Z := match i with [a] => [a] | _ => [] end.
(** packed.rs:121-126, 518-523, 749-754, 799-804, 846-851 *)
Definition g12be (i : list Z) : list Z :=
  match i with
  | [g1; g2; g3] => [(g1 << 4) || (g2 >> 4); ((g2 & 15) << 8) || g3]
  | _ => []
  end.
(** packed.rs:143-152 *)
Definition g10be (i : list Z) : list Z :=
  match i with
  | [g1; g2; g3; g4; g5] =>
    [(g1 << 2) || (g2 >> 6); ((g2 & 63) << 4) || (g3 >> 4); ((g3 & 15) << 6) || (g4 >> 2); ((g4 & 3) << 8) || g5]
  | _ => []
  end.
(** packed.rs:396-414 *)
Definition g10le_lsb16 (i : list Z) : list Z :=
  match i with
  | [g1; g2; g3; g4; g5; g6; g7; g8; g9; g10] =>
    [(g2 << 2) || (g1 >> 6); ((g1 & 63) << 4) || (g4 >> 4); ((g4 & 15) << 6) || (g3 >> 2); ((g3 & 3) << 8) || g6;
     (g5 << 2) || (g8 >> 6); ((g8 & 63) << 4) || (g7 >> 4); ((g7 & 15) << 6) || (g10 >> 2); ((g10 & 3) << 8) || g9]
  | _ => []
  end.
(** packed.rs:478-488 *)
Definition g12be_msb16 (i : list Z) : list Z :=
  match i with
  | [g1; g2; g3; g4; g5; g6] =>
    [(g2 << 4) || (g1 >> 4); ((g1 & 15) << 8) || g4; (g3 << 4) || (g6 >> 4); ((g6 & 15) << 8) || g5]
  | _ => []
  end.
(** packed.rs:552-575 *)
Definition g12be_msb32 (i : list Z) : list Z :=
  match i with
  | [g1; g2; g3; g4; g5; g6; g7; g8; g9; g10; g11; g12] =>
    [(g4 << 4) || (g3 >> 4); ((g3 & 15) << 8) || g2; (g1 << 4) || (g8 >> 4); ((g8 & 15) << 8) || g7;
     (g6 << 4) || (g5 >> 4); ((g5 & 15) << 8) || g12; (g11 << 4) || (g10 >> 4); ((g10 & 15) << 8) || g9]
  | _ => []
  end.
(** packed.rs:604-661 *)
Definition g14be_msb32 (i : list Z) : list Z :=
  match i with
  | [g1; g2; g3; g4; g5; g6; g7; g8; g9; g10; g11; g12; g13; g14; g15; g16; g17; g18; g19; g20; g21; g22; g23; g24;
     g25; g26; g27; g28] =>
    [(g4 << 6) || (g3 >> 2); ((g3 & 3) << 12) || (g2 << 4) || (g1 >> 4); ((g1 & 15) << 10) || (g8 << 2) || (g7 >> 6);
     ((g7 & 63) << 8) || g6; (g5 << 6) || (g12 >> 2);
     ((g12 & 3) << 12) || (g11 << 4) || (g10 >> 4); ((g10 & 15) << 10) || (g9 << 2) || (g16 >> 6);
     ((g16 & 63) << 8) || g15; (g14 << 6) || (g13 >> 2);
     ((g13 & 3) << 12) || (g20 << 4) || (g19 >> 4); ((g19 & 15) << 10) || (g18 << 2) || (g17 >> 6);
     ((g17 & 63) << 8) || g24; (g23 << 6) || (g22 >> 2);
     ((g22 & 3) << 12) || (g21 << 4) || (g28 >> 4); ((g28 & 15) << 10) || (g27 << 2) || (g26 >> 6);
     ((g26 & 63) << 8) || g25]
  | _ => []
  end.
(** packed.rs:701-706, 885-890, 925-930 *)
Definition g12le (i : list Z) : list Z :=
  match i with
  | [g1; g2; g3] => [((g2 & 15) << 8) || g1; (g3 << 4) || (g2 >> 4)]
  | _ => []
  end.
(** packed.rs:966-976 *)
Definition g14le (i : list Z) : list Z :=
  match i with
  | [g1; g2; g3; g4; g5; g6; g7] =>
    [((g2 & 63) << 8) || g1; ((g4 & 15) << 10) || (g3 << 2) || (g2 >> 6);
     ((g6 & 3) << 12) || (g5 << 4) || (g4 >> 4); (g7 << 6) || (g6 >> 2)]
  | _ => []
  end.
(** packed.rs:699-708, 747-756: five pairs of a 16 byte group, the last byte
    (control) is not read. *)
Definition wcontrol (g : list Z -> list Z) (ic : list Z) : list Z := zip_chunks 10 2 3 g (repeat 0 10) ic.
(** packed.rs:1009, 1043, 1077, 1111, 1145, 1180, 1214 *)
Definition masked (g : list Z -> list Z) (m : Z) (i : list Z) : list Z := map (fun v => v & m) (g i).
Definition shifted (g : list Z -> list Z) (s : Z) (i : list Z) : list Z := map (fun v => v >> s) (g i).

(** ** Lines *)

(** One line decoded from [&buf[off..]] (slicing past the end panics). *)
Definition line_op (buf : list Z) (off n m : nat) (f : list Z -> list Z) : op Z := fun v =>
  if (off <=? length buf)%nat then Some (zip_chunks (length v) n m f v (skipn off buf)) else None.

(** usize::div_ceil(8) *)
Definition ceil8 (n : nat) : nat := ((n + 7) / 8)%nat.

(** ** PackedDecompressor *)
Inductive endian := BigE | LittleE.

(** Length check common to all unpackers, packed.rs:81-85 etc. *)
Definition need_op (src : list Z) (skip nlines width bits : nat) : op Z := fun v =>
  if (length src <? ceil8 ((skip + nlines) * width * bits))%nat then None else Some v.

(** unpack_16be, unpack_16le, unpack_12be, unpack_10be, unpack_8bit,
    packed.rs:79-172: [off row] is the first byte of [row]. *)
Definition unpack (bits : nat) (off : nat -> nat) (n m : nat) (g : list Z -> list Z) (src : list Z)
  (skip nlines width : nat) : list (op Z) :=
  need_op src skip nlines width bits
    :: map (fun j => on_line width j (line_op src (off (skip + j)%nat) n m g)) (seq 0 nlines).

(** [k] reads of [bits] bits, for p in line { *p = pump.get_bits(bits) as u16 } *)
Fixpoint pump_fill {P} (o : pump_ops P) (bits k : nat) (p : P) : res (list Z * P) :=
  match k with
  | O => Ok ([], p)
  | S k' => do (v, p1) <- get_bits o bits p; do (l, p2) <- pump_fill o bits k' p1; Ok (wrap_u16 v :: l, p2)
  end.

(** unpack_generic_msb, packed.rs:174-191.  The first [bias] bits are consumed
    from the still empty pump. *)
Definition generic_op (src : list Z) (skip nlines width bits : nat) : op Z := fun v =>
  let skip_bits := (skip * width * bits)%nat in
  if (bits <=? 16)%nat then
    if (skip_bits / 8 <=? length src)%nat then
      match consume_bits msb_ops (skip_bits mod 8) (wpump_new (skipn (skip_bits / 8) src)) with
      | Ok p =>
        match pump_fill msb_ops bits (nlines * width) p with
        | Ok (l, _) => Some (l ++ skipn (nlines * width) v)
        | _ => None
        end
      | _ => None
      end
    else None
  else None.
Definition unpack_generic_msb (bits : nat) (src : list Z) (skip nlines width : nat) : list (op Z) :=
  [need_op src skip nlines width bits; generic_op src skip nlines width bits].

(** <PackedDecompressor as Decompressor<u16>>::decompress, packed.rs:56-72;
    the operations run on the slice that holds the [nlines] lines. *)
Definition packed_decompress (bps : nat) (e : endian) (src : list Z) (skip nlines width : nat) : list (op Z) :=
  match e, bps with
  | BigE, 16%nat => unpack 16 (fun row => (row * width * 2)%nat) 1 2 g16be src skip nlines width
  | LittleE, 16%nat => unpack 16 (fun row => (row * width * 2)%nat) 1 2 g16le src skip nlines width
  | _, 12%nat => unpack 12 (fun row => (row * width * 12 / 8)%nat) 2 3 g12be src skip nlines width
  | _, 10%nat => unpack 10 (fun row => (row * width * 10 / 8)%nat) 4 5 g10be src skip nlines width
  | _, 8%nat => unpack 8 (fun row => (row * width)%nat) 1 1 g8 src skip nlines width
  | _, _ => if ((0 <? bps)%nat && (bps <? 16)%nat)%bool then unpack_generic_msb bps src skip nlines width
            else [fun _ => None]
  end.

(** decompress_lines with PackedDecompressor, decompressors/mod.rs:174-187. *)
Definition packed_lines (bps : nat) (e : endian) (src : list Z) (width height : nat) : res (pstate Z) :=
  par_chunks_exact 0 width (width * height) (fun row => packed_decompress bps e src row 1 width).

(** ** The decompress functions *)

(** The common shape: length check, then one worker per line. *)
Definition by_lines (need : nat) (buf : list Z) (width height : nat) (off : nat -> nat) (n m : nat)
  (g : list Z -> list Z) : res (pstate Z) :=
  if (length buf <? need)%nat then Err
  else lines_fn 0 width height (fun row => [line_op buf (off row) n m g]).

(** packed.rs:358-364 *)
Definition decompress_8bit (buf : list Z) (width height : nat) : res (pstate Z) :=
  if (length buf <? height * width)%nat then Err else packed_lines 8 LittleE buf width height.
(** packed.rs:383-419 *)
Definition decompress_10le_lsb16 (buf : list Z) (width height : nat) : res (pstate Z) :=
  by_lines (ceil8 (height * width * 10)) buf width height (fun row => (row * width * 10 / 8)%nat) 8 10 g10le_lsb16.
(** packed.rs:432-438 *)
Definition decompress_10be (buf : list Z) (width height : nat) : res (pstate Z) :=
  if (length buf <? ceil8 (height * width * 10))%nat then Err else packed_lines 10 BigE buf width height.
(** packed.rs:451-453 *)
Definition decompress_12be (buf : list Z) (width height : nat) : res (pstate Z) :=
  packed_lines 12 BigE buf width height.
(** Whole image loops, packed.rs:470-491, 544-578, 595-664 *)
Definition whole (need : nat) (buf : list Z) (width height n m : nat) (g : list Z -> list Z) : res (list Z) :=
  if (length buf <? need)%nat then Err
  else Ok (zip_chunks (width * height) n m g (repeat 0 (width * height)) buf).
Definition decompress_12be_msb16 (buf : list Z) (width height : nat) : res (list Z) :=
  whole (ceil8 (height * width * 12)) buf width height 4 6 g12be_msb16.
Definition decompress_12be_msb32 (buf : list Z) (width height : nat) : res (list Z) :=
  whole (ceil8 (height * width * 12)) buf width height 8 12 g12be_msb32.
Definition decompress_14be_msb32 (buf : list Z) (width height : nat) : res (list Z) :=
  whole (ceil8 (height * width * 14)) buf width height 16 28 g14be_msb32.
(** packed.rs:505-529 *)
Definition stride_16bit (width : nat) : nat := ((width * 12 / 8 + 1) / 2 * 2)%nat.
Definition decompress_12le_16bitaligned (buf : list Z) (width height : nat) : res (pstate Z) :=
  by_lines (height * stride_16bit width) buf width height (fun row => (row * stride_16bit width)%nat) 2 3 g12be.
(** packed.rs:683-712, 731-760 *)
Definition wcontrol_perline (width : nat) : nat := (width * 12 / 8 + (width + 2) / 10)%nat.
Definition decompress_12le_wcontrol (buf : list Z) (width height : nat) : res (pstate Z) :=
  by_lines (height * wcontrol_perline width) buf width height (fun row => (row * wcontrol_perline width)%nat) 10 16
    (wcontrol g12le).
Definition decompress_12be_wcontrol (buf : list Z) (width height : nat) : res (pstate Z) :=
  by_lines (height * wcontrol_perline width) buf width height (fun row => (row * wcontrol_perline width)%nat) 10 16
    (wcontrol g12be).
(** Odd rows come from [&buf[second..]], packed.rs:794-806 and 841-853. *)
Definition interlaced_op (buf : list Z) (second width row : nat) : op Z := fun v =>
  if (second <=? length buf)%nat then
    line_op (if (row mod 2 =? 0)%nat then buf else skipn second buf) (row / 2 * width * 12 / 8)%nat 2 3 g12be v
  else None.
(** packed.rs:779-809: the second field starts at the next multiple of 2048
    after the end of the first one. *)
Definition second_field_aligned (width height : nat) : nat :=
  ((((height + 1) / 2 * width * 3 / 2) / 2048 + 1) * 2048)%nat.
Definition decompress_12be_interlaced (buf : list Z) (width height : nat) : res (pstate Z) :=
  do rest <- usub height ((height + 1) / 2);
  let second := second_field_aligned width height in
  if (length buf <? second + ceil8 (rest * width * 12))%nat then Err
  else lines_fn 0 width height (fun row => [interlaced_op buf second width row]).
(** packed.rs:828-856 *)
Definition decompress_12be_interlaced_unaligned (buf : list Z) (width height : nat) : res (pstate Z) :=
  let second := ((height + 1) / 2 * width * 12 / 8)%nat in
  if (length buf <? ceil8 (height * width * 12))%nat then Err
  else do _ <- assert_ (second <=? length buf)%nat;
  lines_fn 0 width height (fun row => [interlaced_op buf second width row]).
(** packed.rs:872-894 *)
Definition decompress_12le (buf : list Z) (width height : nat) : res (pstate Z) :=
  by_lines (ceil8 (height * width * 12)) buf width height (fun row => (row * width * 12 / 8)%nat) 2 3 g12le.
(** packed.rs:912-934, 953-980 *)
Definition decompress_12le_padded (buf : list Z) (width height stripesize : nat) : res (pstate Z) :=
  by_lines (height * stripesize) buf width height (fun row => (row * stripesize)%nat) 2 3 g12le.
Definition decompress_14le_padded (buf : list Z) (width height stripesize : nat) : res (pstate Z) :=
  by_lines (height * stripesize) buf width height (fun row => (row * stripesize)%nat) 4 7 g14le.
(** packed.rs:997-1014, 1030-1048, 1064-1082, 1098-1116, 1132-1150, 1201-1219 *)
Definition unpacked16 (g : list Z -> list Z) (buf : list Z) (width height : nat) : res (pstate Z) :=
  by_lines (height * width * 2) buf width height (fun row => (row * width * 2)%nat) 1 2 g.
Definition decompress_12le_unpacked := unpacked16 (masked g16le 4095).
Definition decompress_12be_unpacked := unpacked16 (masked g16be 4095).
Definition decompress_12be_unpacked_left_aligned := unpacked16 (shifted g16be 4).
Definition decompress_12le_unpacked_left_aligned := unpacked16 (shifted g16le 4).
Definition decompress_14le_unpacked := unpacked16 (masked g16le 16383).
Definition decompress_14be_unpacked := unpacked16 (masked g16be 16383).
(** packed.rs:1167-1185 *)
Definition decompress_14le_unpacked_padded (buf : list Z) (width height stripsize : nat) : res (pstate Z) :=
  by_lines (height * stripsize) buf width height (fun row => (row * stripsize)%nat) 1 2 (masked g16be 16383).
(** packed.rs:1234-1240, 1290-1296 *)
Definition decompress_16le (buf : list Z) (width height : nat) : res (pstate Z) :=
  if (length buf <? width * height * 2)%nat then Err else packed_lines 16 LittleE buf width height.
Definition decompress_16be (buf : list Z) (width height : nat) : res (pstate Z) :=
  if (length buf <? width * height * 2)%nat then Err else packed_lines 16 BigE buf width height.
(** packed.rs:1257-1275 *)
Definition decompress_16le_skiplines (buf : list Z) (width height : nat) : res (pstate Z) :=
  by_lines (width * height * 4) buf width height (fun row => (row * width * 4)%nat) 1 2 g16le.
(** packed.rs:1311-1323, 1338-1350 *)
Definition generic {P} (o : pump_ops P) (new : list Z -> P) (buf : list Z) (width height bits : nat) : res (list Z) :=
  do _ <- assert_ (bits <=? 16)%nat;
  if (length buf <? ceil8 (width * height * bits))%nat then Err
  else do (l, _) <- pump_fill o bits (width * height) (new buf); Ok l.
Definition decompress_generic_msb := generic msb_ops wpump_new.
Definition decompress_generic_lsb := generic lsb_ops wpump_new.

(** ** Specification: bit fields of a byte stream *)

(** Bit [k] of a byte stream, most significant bit of each byte first, and
    least significant bit first. *)
Definition bit_msb (B : nat -> Z) (k : nat) : bool := Z.testbit (B (k / 8)%nat) (7 - Z.of_nat (k mod 8)).
Definition bit_lsb (B : nat -> Z) (k : nat) : bool := Z.testbit (B (k / 8)%nat) (Z.of_nat (k mod 8)).

(** The [n] bit number at bit offset [off]. *)
Definition field_msb (B : nat -> Z) (off n : nat) : Z := bval (map (fun i => bit_msb B (off + i)%nat) (seq 0 n)).
Definition field_lsb (B : nat -> Z) (off n : nat) : Z := bval (rev (map (fun i => bit_lsb B (off + i)%nat) (seq 0 n))).

(** The buffer as a byte stream; with the bytes of 16 bit and of 32 bit words
    reversed. *)
Definition stream (buf : list Z) (i : nat) : Z := nth i buf 0.
Definition swapped16 (B : nat -> Z) (i : nat) : Z := B (i / 2 * 2 + (1 - i mod 2))%nat.
Definition swapped32 (B : nat -> Z) (i : nat) : Z := B (i / 4 * 4 + (3 - i mod 4))%nat.

(** Rows [r0 .. r0+n) of an image. *)
Definition rows (pix : nat -> nat -> Z) (w r0 n : nat) : list Z :=
  flat_map (fun r => map (pix r) (seq 0 w)) (seq r0 n).

(** The parallel decoder delivers image [pix], whatever the schedule. *)
Definition delivers (r : res (pstate Z)) (w h : nat) (pix : nat -> nat -> Z) : Prop :=
  exists s0, r = Ok s0 /\ forall sched, ended (prun 0 sched s0) -> result (prun 0 sched s0) = POk (rows pix w 0 h).
