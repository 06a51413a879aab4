# Formal model of dnglab/dnglab in Rocq (Coq 8.16.1)

`/repo` is read as text and never built.  Everything proved here is proved
about the Gallina model in `rocq/theories`, whose definitions cite the Rust
lines they transcribe.

## 1. Modelling conventions

* `usize` indices and sizes are `nat` (or `Z` where large constants occur);
  bytes, samples and differences are `Z` with explicit wrap (`mod 2^16`,
  `mod 2^64`, sign re-interpretation) exactly where the Rust code casts or
  shifts.  Overflow of `usize` additions and multiplications is not modelled
  unless a file says so; underflow of subtractions is (`usub`).
* A function that can fail returns `res A = Ok a | Err | Panic`.  `Err` is a
  Rust `Result::Err` (messages are dropped), `Panic` is an index out of
  bounds, `unwrap` on `None`, failed `assert!`, or an arithmetic overflow
  (debug semantics; where release semantics differ this is said in the comment
  or is a parameter, as `dbg` in the LJPEG encoder).
* `&mut` parameters are returned.  Arrays are lists; `a[i] = v` is a checked
  list update.  Loops are structural recursion, `for_each` over an index list,
  or fuel; where fuel is used, a theorem shows that the fuel suffices or that
  more fuel changes nothing.
* rayon parallel iterators are workers with footprints on one shared buffer;
  a schedule is any list of worker numbers (`Par.v`).  Concurrent jobs on the
  file system are processes that do one file operation at a time (`Jobs.v`).
* The outside world (network, directory order, failures of file operations,
  what a conversion computes, zlib, MD5, text conversion of file names) is an
  argument of the model, never an axiom.

File layout per area: `X.v` holds the model and no proofs, `XSpec.v` the
independent specification, `XProofs.v`/`XTop.v` the lemmas, and `Prop*.v`
nothing but the property theorems, each closed by `exact`, followed by
`Print Assumptions` and accompanied by an `Example` on concrete data that meets
the hypotheses.

A property whose ideal form is false for the code is handled by (a) a theorem
for the largest domain on which it holds and (b) a theorem named `..._refuted`
that proves a concrete failure outside of that domain.

## 2. Properties, models, methods

| id | model files | theorem shape / method |
|----|-------------|------------------------|
| C01 | `LjpegEnc`, `LjpegDec`, `Pumps` | round trip for all images: composition of C03, C05, bit writer refinement, header parse, induction over the scan (`LjpegScan`, `LjpegDecode`, `LjpegHeader`, `LjpegRoundtrip`, `LjpegTop`) |
| C02 | same | round trip with point transform and crop/offset/stride, frame property |
| C03 | `LjpegEnc` | invariant of the tree merging loop (`HuffTree`), canonical codes (`HuffCanon`, `HuffBuild`) |
| C04 | `LjpegEnc` | induction on the bit writer (`LjpegBits`), stream grammar in `LjpegSpec` |
| C05 | `Pumps` | each pump refines a bit stream (`PumpProofs`, `PumpSeq`) |
| C06 | `Packed` | every variant against a bit field specification; refusal of short buffers (`ExtraProofs`) |
| C07, C08 | `Tiles` | pointwise content, permutation of buffer cells, any order |
| C09 | `DngImage` | composition of C01, C02, C07, C08 |
| C10, C11, C12 | `Tiff` | write/read round trip through bytes, reading of conforming directories, termination and panic freedom of the reader on any file |
| C13 | `Original` | round trip for every block codec with a left inverse |
| C14, C31 | `Cfa` | pointwise laws, composition, DNG round trip |
| C15, C25, C26 | `Geom` | pointwise laws of crop, rotation, deinterleave; rectangle algebra |
| C16, C17, C28, C32 | `Bits` | value of float patterns as rationals, order of rationals, dithered tables, float predictor |
| C18, C19 | `FtpClient` | invariants over command sequences against a file system with links |
| C20, C34, C35 | `Ftp` | framing independent of segmentation, parser, reply grammar |
| C21, C36, C37 | `Plan` | invariant of the planning fold, tree recursion, path algebra |
| C22, C38 | `Jobs` | small step jobs over an inode file system, every fault and crash point, rely/guarantee for concurrent jobs |
| C23 | `Par`, `Decomp` | every schedule gives the sequential result |
| C24 | `RawSource` | exact slices |
| C27 | `LjpegDec`, `Pumps` | header ranges and termination for every byte string; frame and recurrence of the scan decoder for every data (`LjpegAny*`) |
| C29 | `Crypt` | xor involution, closed form key streams |
| C30 | `Strips`, `Packed`, `Tiff` | write/read round trip |
| C33 | `DngMeta` | round trip of geometry tags |
| C39 | `Demosaic`, `Share` | pointwise formula of the four pass algorithm for every interleaving of its row tasks; no task reads a cell another one writes in the same pass |
| C40, C41, C42 | `Demosaic`, `Share` | pointwise formulas |
| C43, C44 | `Levels`, `ParRun` | pointwise formulas, any schedule |
| C45 | `Color` | invariants of Gauss elimination over the rationals |
| C46 | `Develop` | composition of C39, C43, C45 with cropping |
| C47 | `Crx` | round trip against an encoder written from the format, induction over columns and lines |
| C48 | `Idwt` | reconstruction of the 5/3 wavelet transform, invariant over levels and lines |
| C49 | `CrxImage` | decoder against a specification of the stored image (layout, band sizes, steps, picture); round trip with an encoder |
| C50 | `Pef` | refinement to the canonical code and a two-lane predictor, invariant over rows and columns; round trip with an encoder |
| C51 | `Pef` (NEF part) | refinement to the Nikon codes, curve and noise sequence; round trip with an encoder; exact form of the lossless error |
| C52 | `Sony` | refinement to bit fields and running sums for any data; round trips with encoders; exact quantization bound; curve by loop invariant |
| C53 | `Srw` | first format: invariant on which pixels are written, group by group, against a relational picture; second: table proved equal to an explicit prefix code, lanes as in C50 |
| C54 | `Pana` | packets as 128 bit numbers: refinement of the four readers to bit fields of the packets for any data; round trips with encoders |
| C55 | `Dcr` | bit buffer refined to fields of one large number; segments placed one after the other; round trip with an encoder |
| C56 | `Orf` | adaptive bit widths refined to a state machine over bit lists; row and parity invariants; round trip with an encoder |
| C57 | `LjpegYuv`, `LjpegLeaf` | block loops against relational pictures over the differences of the data (sets of cells written so far); pair decoding and running sums; strip starts by induction over the markers; round trips with encoders |
| C58 | `Cr2` | field loops as maps of places (mixed radix counting for pairs of rows); interpolation as steps that write disjoint cells and read none of them, chunk by chunk; range analysis of the colour sums |
| C59 | `DngFile` | the written bytes only grow, so facts about directories and data survive later steps; lookups in the final directories; directories on disk read back exactly (C10); composed with the tile (C09), strip (C30), geometry (C33), CFA (C14) and black level (C31) results |
| C60 | `Bmff` | induction over trees of boxes with fuel from their bytes; sample tables by arithmetic on runs of chunks; a measure on positions for termination; composed with C49 |
| C61 | `Jfif` | induction over segments with places; states of the scan loop; for endless loops, every amount of fuel is used up |
| C62 | `Choose` | signature bytes excluded one by one; the first TIFF word is a box longer than the file, so the box reader fails; white space by cases on UTF-8 lengths |
| C63 | `Mrw` | one step per block, then the effect of a list of blocks by induction; the picture is C06 on the bytes after the blocks |
| C64 | `Ciff` | induction over the relation of heaps, records and values together; the writer satisfies the relation; the self-referring file is read by induction on the depth left |
| C65 | `Crw` | induction over the code of a block with the zeros still in the buffer; the two predictors are the last two pixels of the line; low bits by division |

## 3. What is modelled

* `rawler/src/ljpeg92.rs` (all of the encoder), the used part of `bitarray.rs`.
* `rawler/src/decompressors/ljpeg/{mod,huffman}.rs` and `decode_ljpeg` of
  `decompressors.rs`; the other scan decoders see below.  The decode cache is a
  function instead of an array.
* `rawler/src/pumps.rs`: `BitPumpLSB/MSB/MSB32/JPEG`, `get_ibits*`,
  `consume_zerobits`, big endian `ByteStream`.  Not: `BitPumpReverseBitsMSB`,
  little endian `ByteStream`.
* `rawler/src/decompressors/{mod,packed,deflate}.rs`: the parallel helpers, all
  u16 unpackers, the float predictor.  Not: the float unpackers of `packed.rs`,
  zlib itself.
* `rawler/src/tiles.rs`; `decode_tiles`, `decode_strips` and
  `plain_image_from_ifd` of `decoders/mod.rs` with their tags as arguments.
* `rawler/src/dng/writer.rs`: `dng_put_raw_ljpeg`, `dng_put_raw_uncompressed`
  (integer samples), the geometry, CFA and black level part of
  `write_rawimage`.
* The whole writer session of `dng/convert.rs` and `dng/writer.rs` (raw image,
  preview, thumbnail, metadata, sub directories, close) for integer samples, and
  the way back through `decoders/dng.rs` (`raw_image`, `get_raw_ifd`).  White
  balance, colour matrices, metadata values, preview and thumbnail data and the
  clock are arguments.  Not: float samples, the photometric conversion, Fuji
  rotation, the choice of the decoder from the first bytes of the file.
* `rawler/src/dng/original.rs` with zlib and MD5 as arguments.
* `rawler/src/decoders/crw.rs` `do_decode` with the symbol reader as an argument.
* `rawler/src/formats/ciff/mod.rs`: reader and search; not the conversions of entries.
* `rawler/src/decoders/mrw.rs` `new_mrw` without the camera lookup, and `raw_image` for 12 bits.
* `rawler/src/decoders/mod.rs` `get_decoder`: which decoder is constructed.
* `rawler/src/formats/jfif.rs`.
* `rawler/src/formats/bmff` with `ext_cr3`, and the choice of the raw sample in
  `decoders/cr3.rs`.  Boxes keep the bytes of their fields.  The TIFF reader of the CMT
  boxes is an argument; the allocation of large tables is not modelled.
* `rawler/src/formats/tiff/*.rs`: values, writer, entry/IFD reader, chain
  reader.  Not: `parse_makernote`, TIFF copying helpers.
* `rawler/src/{cfa,bits,buffer,rawsource}.rs`, `pixarray.rs` (crop, rotate,
  deinterleave), `imgop/mod.rs` (geometry), `BlackLevel` of `rawimage.rs`.
* `rawler/src/imgop/sensor/bayer/{ppg,bilinear,superpixel}.rs`,
  `xtrans/bilinear.rs`, over an arbitrary arithmetic.  Row tasks that read other
  rows through a raw pointer are programs of single reads and writes (`Share.v`).
  Not: `xtrans/{markesteijn,lab}.rs`.
* `apply_scaling`, `calc_black_levels` and the choice of levels in
  `rawimage.rs`, `imgop/raw.rs` (black level correction), `make_blacklevel` and
  `make_whitelevel` of `decoders/camera.rs`.  f32 and Rational are parameters.
* `imgop/{matrix,chromatic_adaption,raw}.rs` and the choice of the colour matrix
  in `imgop/develop.rs`; f32 is a parameter, square root and maximum as well.
* `develop_intermediate` of `imgop/develop.rs` with all processing steps; the
  tone curve and the Fuji rotation are parameters.
* `rawler/src/decoders/nef/decrypt.rs`, `sony_decrypt` of `decoders/arw.rs`.
* `rawler/src/decompressors/crx/{rice,runlength}.rs` and the line decoders of
  `crx/decoder.rs`; the bit reader (crate `bitstream_io`) is a list of bits.
* `rawler/src/decompressors/crx/idwt.rs` over an abstract source of band lines.
* The rest of `rawler/src/decompressors/crx` that bears on the decoded image:
  parameters, header, tile and band geometry, QP tables and dequantization, plane
  decoding, colour conversion and assembly of the frame.  Planes are decoded one
  after the other instead of in parallel.
* `do_decode` of `decoders/pef.rs`.  Not: dummy mode, maker note lookup.
* `do_decode`, `create_hufftable` and the curve of `decoders/nef.rs`, with
  `LookupTable` and `clampbits`.  Not: dummy mode, maker note lookup, small NEF,
  the choice of the decoder.
* `decode_arw1`, `decode_arw2`, `get_curve` (from the four values) and
  `calculate_curve` of `decoders/arw.rs`.  Not: LJPEG tiles, dummy mode, rows in
  parallel.
* `decode_srw1`, `decode_srw2`, `srw2_diff` of `decoders/srw.rs`.  Not: dummy mode,
  `decode_srw3`.
* `decode_kodak65000`, `decode_segment` of `decoders/dcr.rs`.  Not: dummy mode, the
  other Kodak formats.
* `decode_compressed` of `decoders/orf.rs`.  The table of leading zeros is a function.
  Not: dummy mode, the choice of format from the size of the data, levels, crops.
* `decode_panasonic_v4`, `_v5`, `_v6`, `_v7` of `decoders/rw2/` and `BitPumpPanasonic`
  of `pumps.rs`.  Threads work on separate rows and are taken in order.  Not: dummy
  mode, `decode_panasonic_v8`, the choice of format from the tags, the padding
  of the data of format 4 at the end of the file (a byte after the last packet
  is a hypothesis).
* `decompressors/ljpeg/decompressors.rs` (4:2:0, 4:2:2, Sony, Hasselblad, Leaf),
  the dispatch in `ljpeg/mod.rs`, `MosDecoder::do_decode`.  The strips of Leaf
  files are decoded by parallel tasks on disjoint parts and are taken in order.
  Not: dummy mode.
* `Cr2Decoder::raw_image`, `interpolate_yuv` and `convert_to_rgb` of
  `decoders/cr2.rs` from the decoded frame on.  Tags, hints, white balance values
  and the firmware number are arguments; chunks of rows are processed in parallel
  and taken in order.  Not: parsing of the firmware text, black and white levels.
* `embedftp/src/{command,codec,client}.rs` and the upload callback of
  `ftpconv.rs`.  Not: sockets, TLS-free transport details, listing formats.
* `bin/dnglab/dnglab-lib/src/{filemap,convert,process_raw,extract}.rs` and
  `jobs/*.rs`.  Not: argument parsing, analysis and makedng commands.

Not modelled at all: camera specific decoders other than the above, tone
curves, lens data, `exif`, `ciff`, `jfif`,
`bmff`, `radc`, Fuji and Phase One decompressors.

## 4. Trusted base

Coq's kernel.  No axiom, parameter, admitted proof or disabled check occurs in
the development; no functor or module type is defined.  The remaining trust is
that the hand transcription follows the Rust text, and that the libraries kept
as arguments (zlib, MD5, tokio-util framing, the operating system) satisfy the
hypotheses stated about them in the theorems.

## 5. Assumptions report

`Print Assumptions` is issued after every property theorem.  Its answer is
"Closed under the global context" for every one of them: no property theorem
depends on any axiom, not even one of the standard library.  (The files load
standard library modules that contain axioms or, as ssreflect's `Under_rel`,
module parameters; none is used.)

## 6. Findings

Behaviour of the code that contradicts what a user would expect.  "(thm)" names
the theorem that proves it about the model; the others were seen while reading.

LJPEG
* A truncated header, a missing Huffman table, a category above 16, an
  oversubscribed code, a point transform not below the precision, a lone 0xFF at
  the end of the data or a second SOF segment panics (C27_*_refuted).
* The encoder accepts bit depths 2..9 which the decoder rejects; components 0 or
  above 4 and empty images panic; the decoder does not shift samples back by the
  point transform; a height of zero still writes the first pixel; a width that
  is no multiple of the component count writes past it (see `in_frame`).

Bit pumps and packed data
* `BitPumpMSB32` misreads the last incomplete word, `BitPumpJPEG` panics on a
  lone trailing 0xFF (C05_msb32_tail_refuted, C05_jpeg_lone_ff_refuted).
* 12 bit rows of odd width stay partly undecoded; the generic unpacker panics on
  unaligned start rows (C06 refuted theorems).

Tiles, strips, geometry
* The mutable tile iterator hands out overlapping lines if the width is not a
  whole number of tiles and is not fused (C08_*_refuted); the tiler misreads
  slices longer than the image (C07_long_slice_refuted).
* Strips that are adjacent but padded are misread; an empty image panics
  (C30_*_refuted).
* `Rect::adapt` and `is_empty` have wrong corners (C25_*_refuted); odd heights
  are not deinterleaved (C26_odd_height_refuted); zero widths panic
  (C23_zero_width_refuted).
* Active areas with sides above 65535 are truncated to u16 (domain of C33).

CFA and levels
* A 6x6 (X-Trans) pattern is shifted back by the wrong amount when a DNG is read
  (C14_dng_xtrans_refuted); `map_colors` applied twice is not a map
  (C14_map_colors_refuted); colour E is written as C (C14_rgbe_refuted).
* Black levels are shifted when written but not shifted back (C31_dng_refuted).
* Level scaling leaves the last row and column of odd sizes unscaled although the
  levels then say 0 and 1 (C43_odd_refuted), skips everything when the numbers of
  black and white levels differ (C43_mismatch), panics for monochrome images
  (C43_mono), and uses only the first level unless there are exactly four.
* Estimating black levels panics when the masked bands miss a place of the tile
  (C44_empty_place), for X-Trans (C44_xtrans), and when a mean below 2^-8 has no
  short dyadic form (the Rational conversion overflows u32; `rat` in `Levels`).

Demosaicing
* PPG never ends for regions 4 or 5 wide and more than 6 high, and panics below
  height 6 and for width at most 3 at heights above 6 (C39_sizes).
* Four channel bilinear fails on one row or column (C40_small); the three channel
  superpixel accepts any red/green/blue pattern and then reaches `unreachable!`
  (C41_superpixel3_other); X-Trans bilinear also averages the measured channel
  (C42_xtrans).

Colour
* A matrix for another illuminant is adapted to D65 in the wrong direction
  (C45_bradford_direction_refuted), and panics unless it has nine entries
  (C45_matrix_other); D65 matrices with more than four rows panic.
* The final clip of a pixel does not bound it by one (C45_clip_refuted).
* Linear images with an active area are cropped at the wrong place
  (C46_linear_active_refuted); monochrome images, rotated Fuji sensors with an
  active area (C46_mono, C46_fuji_active) and crops outside the active area
  panic.  The TIFF writes width and height as u16.

Numbers
* Subnormal singles are altered (C16_single_subnormal_refuted); 0/0 compares
  inconsistently and negative denominators reverse the order (C17_*_refuted).
* Dithered tables panic or wrap for steep tables (C28_*_refuted).

TIFF
* Several strings in one ASCII value, inline floats and inline negative values
  are not preserved (C10_lossy_values_refuted, C11_signed_and_float_refuted).
* An empty pointer tag panics and a cyclic chain without limit never ends
  (C12_*_refuted); the chain limit is exceeded by one.

Original file
* The reported length and failed blocks are not checked (C13_*_refuted).

Sources and ciphers
* Offset plus size beyond u64 panics; the two until-end views disagree on the
  empty tail (C24_*_refuted).
* The Nikon cipher overflows on long buffers (C29_nikon_long_buffer_refuted).

CRX
* A wavelet coded tile with another tile below it never decodes
  (C48_tile_above_another_fails); the code for a tile above reads the bands at
  stale positions and writes columns 1 and 2 only.
* Levels of two rows or columns underflow (`height - 3`, `width - 3`).
* `integrate_cfa` computes the first row of a tile from the tile width
  (C49_lower_tile_row): only images with one row of tiles, or with square tiles,
  are put together correctly.
* Lines of the predicted band are scaled in place, so with a step other than 1
  the prediction of the next line uses scaled samples; C49 asks for step 1
  there.  QP 0..3 have step 0 and QPs of 36 or more in old band records panic.
* Data shorter than its header and QP tables without levels panic or fail, they
  are never a plain error (C49_short_data_panics, C49_qp_without_levels).
* `get_subband_row` subtracts the rows of the tile below; harmless with one row
  of tiles.  The last sample of a rounded top line is added to a stale value.
* PEF images of odd width never decode (C50_odd_width).  The decoder looks ahead
  32 bits without padding, so data that ends right after its last code panics;
  code lengths above 12 in a maker note underflow.
* A lossless NEF is dithered like a lossy one: an inner value v comes out as
  v - 1 unless the noise modulo 2048 is 1536 or more (C51_lossless,
  C51_lossless_exact_refuted); 0 and the largest value stay.
* NEF images of odd width (C51_odd_width) and files with a curve of no points
  (C51_no_curve) never decode.  A curve shorter than the bit depth or not
  monotone panics; a number of points whose steps do not divide the range leaves
  identity values after the last point; 16 bit files with an interpolated curve
  index past the end of the table.
* The first Sony format never fills the odd rows of an image of odd height
  (C52_arw1_odd_height); the second leaves the columns after the last whole
  stretch of 32 at 0 (C52_arw2_leftover).
* Sony: a block whose maximum is below its minimum panics on a subtraction
  (C52_arw2_crossed), a curve tag with its knots at 1 panics when the table is
  made (C52_curve_steep), and `decode_arw6` is `unimplemented!()`, so such files
  always panic.
* Samsung: a bit length of 0 that is decreased underflows and panics
  (C53_srw1_short_length), an image of odd height never decodes in the first
  format (C53_srw1_odd_height), and the size limits of the allocation are
  commented out.  In the third format the average of two reference pixels is u16
  arithmetic and overflows at 16 bit depth, and reference columns may run into
  the neighbouring row.
* Panasonic format 4 in the split order: a 16 bit read at the last byte of each
  16 KiB takes the byte after them, not the first of them, so one packet of 1024
  decodes with foreign bits (C54_v4_split_seam_refuted), or panics at the end of the
  data.  The reader needs a byte after the last packet.
* Panasonic format 6: samples are stored 15 higher; stored values below 15 are
  meant to come out as 0, but the test that should catch them is never taken and
  they come out as 65521 to 65535 or 16369 to 16383 (C54_v6_dark).
* Panasonic format 7 with 12 bits never decodes (C54_v7_twelve_bits): it
  reads ten samples of 14 bits from a packet of 128 bits.  Format 5 leaves the pixels
  after the last whole packet at 0 and panics when the last 16 KiB are not complete.
  Raw formats other than 3 to 8 hit `todo!`.
* Kodak: a sample without an entry in the curve of the file panics; negative sums
  become zero (part of C55_any_data).
* Olympus: with an odd width the last column is never decoded and stays black
  (C56_roundtrip_odd); the product of two gradients of 16 bit samples overflows
  (C56_sixteen_bits_refuted).
* Chroma-subsampled LJPEG: a luma or chroma sum below zero stops a debug build
  (C57_negative); a release build stores it modulo 65536.  Leaf data: a 0xFF as
  the last byte makes the search for strips read past the end and panic.
* Canon sRAW: vertical chroma interpolation takes the middle row of every three
  instead of the odd rows; rows 4, 10, ... lose the chroma of the file and rows 3, 5,
  ... keep a copy (C58_chroma_rows_refuted).  With two lines per block the width of
  the last field is ignored and an odd height panics.  Without the white balance
  values of the maker note the picture is black.

* DNG files of monochrome sensors are written but cannot be read: the decoder
  asks for a colour filter array unless the picture is LinearRaw
  (C59_monochrome_refuted).  LinearRaw with two or four planes stops the
  converter (C59_planes_refuted).
* A converted file reports 16 bits per sample when it is not compressed, and
  black levels relative to the active area (`si_black` of C59_roundtrip).  Plane
  colours are written and never read.  CFARepeatPatternDim holds columns first, which
  matters for patterns that are not square.  An empty XMP packet stops the writer.

* CR3: the loops inside of boxes do not check that the reader moves.  A file of 16
  bytes (moov with a child of size 0) is read for ever (C60_ends_refuted), and every
  file that is not recognized earlier goes through this reader.  The sample-to-chunk
  table mixes up chunk and sample numbers from the third run on: a sample is taken from
  the wrong chunk, or a correct file panics (C60_samples_more_runs_refuted).  An
  unknown uuid box in moov is not skipped, its content is read as boxes.  A second
  CRAW or CTMD box, an unknown IAD1 type, a ftyp box below 16 bytes and unknown
  versions of mvhd and mdhd panic.
* JPEG files: a failed APP1 segment is tried again with the same marker, so the reader
  never ends when the file is cut off there, e.g. on `FF D8 FF E1` (C61_cut_refuted);
  `get_decoder` calls it for such files.  After a damaged Exif segment the next marker is
  taken for a length (C61_damaged_exif_refuted).  Fill bytes, JFIF extensions and
  thumbnails above 85 pixels are not accepted (C61_correct_files_refuted).
* The choice of the decoder reads every file as boxes and as TIFF first, so the endless
  loops of C12 and C60 are reached by any file given to the program (C62_ends_refuted).
  A big-endian DNG file with its root directory at an address that ends in 0x4845 and the
  bytes `APCCDR` after the header is taken for a CIFF file (C62_big_endian_refuted).
* MRW: a block that begins in the last 20 bytes before the samples is not read; a white
  balance block has exactly 20 bytes, so in the last place it is lost and the white
  balance is 0 (C63_last_block_refuted).  Cut files and lengths near 2^32 panic.
* CIFF: a directory that names itself k times is read k^9 times, so a file of 3 kB keeps
  the reader busy for ever in practice (C64_work_refuted).  Heaps below depth 10 are left
  out without an error (C64_depth_refuted); addresses outside of the file panic.
* CRW: pixels after the last whole block of 64 stay black (C65_rest_refuted); pictures of
  the width 2672 are changed below 512 (C65_low_bits).

FTP
* A server with anonymous access accepts any password for any account; commands
  after QUIT still take effect (C18_*_refuted).
* A relative root refuses every path, STOR follows links out of the root, the
  existence of outside files leaks, `RMD /` removes the root, and a root with
  the name of a raw file lets a conversion write outside (C19_*_refuted).
* An upload may leave a partial file and silently overwrites an existing `.dng`.

Batch work
* Development runs with equal stems share an output and names depend on the
  directory order; a source without images panics (C21_*_refuted).
* One dangling link aborts a directory scan (C36_dangling_refuted).
* The original name inside a hostile DNG may be absolute or contain `..` and
  then escapes the output directory (C37_*_refuted).
* With override the old output is gone when the conversion fails, conversion in
  place deletes the input, failures of lock, flush or time stamp and panics
  leave partial files, development jobs race (C22_*_refuted).

## 7. Mutation testing

`seeded/LOG.jsonl` records wrong programs made from the model in a scratch copy
(one edited definition each), the claim they break and the theorems whose proof
then fails.

How far the log can be trusted: a run stops at the first proof that fails, and
this is mostly a helper lemma, not the theorem.  For C62 to C65 the names in
`theorems_failed` and `theorems_tightened` are those of the theorems that rest on
that lemma, or were found by reasoning; they were not each seen to fail.  Some of
these runs stopped only because a rewrite pattern no longer matched or in an
equation that restates the definition.  Such a stop shows that the proof script
breaks, not that the theorem is false of the wrong program.  Earlier claims were
logged from the same kind of run.
