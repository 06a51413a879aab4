{
 "claims": [
  {
   "property": "C01",
   "status": "proved",
   "theorems": [
    "C01_ljpeg_roundtrip",
    "C01_ljpeg_rows"
   ],
   "note": "Full encoder and decoder models (tables, bit writer, header, scan); debug and release builds."
  },
  {
   "property": "C02",
   "status": "proved",
   "theorems": [
    "C02_ljpeg_point_transform_and_crop"
   ],
   "note": "Any offset, stride, and smaller requested width (whole pixels) and height."
  },
  {
   "property": "C03",
   "status": "proved",
   "theorems": [
    "C03_huffman_table"
   ],
   "note": "All histograms with a 64-bit total."
  },
  {
   "property": "C04",
   "status": "proved",
   "theorems": [
    "C04_ljpeg_stream_wellformed"
   ],
   "note": ""
  },
  {
   "property": "C05",
   "status": "proved",
   "theorems": [
    "C05_msb_pump",
    "C05_lsb_pump",
    "C05_msb32_pump",
    "C05_jpeg_pump",
    "C05_signed_read",
    "C05_zero_run",
    "C05_msb32_tail_refuted",
    "C05_jpeg_lone_ff_refuted",
    "C05_msb32_position"
   ],
   "note": "All four pumps, arbitrary scripts of peeks and reads; sign extended reads and zero-run counting for any refining pump. The two _refuted theorems show that the MSB32 length condition and the JPEG no-lone-0xFF condition cannot be dropped (the code misreads / panics)."
  },
  {
   "property": "C06",
   "status": "proved",
   "theorems": [
    "C06_packed",
    "C06_skip",
    "C06_packed_short",
    "C06_lines",
    "C06_8bit",
    "C06_10be",
    "C06_10le_lsb16",
    "C06_12be",
    "C06_12le",
    "C06_16be",
    "C06_16le",
    "C06_16le_skiplines",
    "C06_12le_padded",
    "C06_14le_padded",
    "C06_12_16bitaligned",
    "C06_12le_wcontrol",
    "C06_12be_wcontrol",
    "C06_12be_interlaced",
    "C06_12be_interlaced_unaligned",
    "C06_12le_unpacked",
    "C06_12be_unpacked",
    "C06_12be_left_aligned",
    "C06_12le_left_aligned",
    "C06_14le_unpacked",
    "C06_14be_unpacked",
    "C06_14_unpacked_padded",
    "C06_12be_msb16",
    "C06_12be_msb32",
    "C06_14be_msb32",
    "C06_generic_msb",
    "C06_generic_lsb",
    "C06_12be_odd_width_refuted",
    "C06_generic_unaligned_refuted",
    "C06_short_buffers",
    "C06_short_unpacked",
    "C06_short_padded",
    "C06_short_generic",
    "C06_short_interlaced"
   ],
   "note": "u16 decoders; outside the width condition the two _refuted theorems show the code leaves pixels undecoded (12 bit, odd width) or panics (generic depth, unaligned start row)"
  },
  {
   "property": "C07",
   "status": "proved",
   "theorems": [
    "C07_tiler",
    "C07_reassemble",
    "C07_long_slice_refuted"
   ],
   "note": "Exact pointwise content of every tile with edge clamping; reassembly. A slice longer than the image is accepted but misread."
  },
  {
   "property": "C08",
   "status": "proved",
   "theorems": [
    "C08_tiles_partition",
    "C08_any_order",
    "C08_partial_width_refuted",
    "C08_not_fused_refuted",
    "C08_partial_tile_rejected"
   ],
   "note": "Lines of all tiles are a permutation of the buffer cells; any interleaving of writes gives the sequential result. Refuted for widths that are not whole tiles."
  },
  {
   "property": "C09",
   "status": "proved",
   "theorems": [
    "C09_image_roundtrip"
   ],
   "note": "Tiling, realignment, LJPEG coding, parallel decode under any schedule, crop. TIFF tag transport of the tiles is C10."
  },
  {
   "property": "C10",
   "status": "proved",
   "theorems": [
    "C10_file_round_trip",
    "C10_conforming_directory",
    "C10_lossy_values_refuted"
   ],
   "note": "Model of TIFF writer and reader; lossy values are documented by a refutation"
  },
  {
   "property": "C11",
   "status": "proved",
   "theorems": [
    "C11_inline_is_serialisation",
    "C11_signed_and_float_refuted"
   ],
   "note": "Signed/float exceptions refuted"
  },
  {
   "property": "C12",
   "status": "proved",
   "theorems": [
    "C12_chain_bounded",
    "C12_terminates",
    "C12_values_from_file",
    "C12_only_panic",
    "C12_empty_pointer_refuted",
    "C12_unlimited_refuted"
   ],
   "note": "The reader position after an I/O error is an arbitrary parameter"
  },
  {
   "property": "C13",
   "status": "proved",
   "theorems": [
    "C13_restores_original",
    "C13_verified_digest",
    "C13_reader_no_panic",
    "C13_returned_length_refuted",
    "C13_failed_block_refuted"
   ],
   "note": "For any codec with a correct inverse that accepts every block, and a compressed structure below 4 GiB; the returned byte count and silently dropped blocks are refuted."
  },
  {
   "property": "C14",
   "status": "proved",
   "theorems": [
    "C14_new",
    "C14_shift",
    "C14_compose",
    "C14_periodic",
    "C14_zero",
    "C14_dng",
    "C14_map_colors",
    "C14_index",
    "C14_planes",
    "C14_dng_xtrans_refuted",
    "C14_map_colors_refuted",
    "C14_rgbe_refuted"
   ],
   "note": "colour arrays of every supported size; the _refuted theorems record the wrong back-shift for 6x6 patterns, double application in map_colors and loss of the E colour name"
  },
  {
   "property": "C15",
   "status": "proved",
   "theorems": [
    "C15_color_crop_total",
    "C15_color_crop",
    "C15_pix_crop",
    "C15_rotate_90cw",
    "C15_rotate_90ccw",
    "C15_rotate_180",
    "C15_four_turns",
    "C15_turn_back",
    "C15_turn_forth",
    "C15_two_quarters",
    "C15_rotate_slice"
   ],
   "note": "Zero height rotation panics and is excluded."
  },
  {
   "property": "C16",
   "status": "proved",
   "theorems": [
    "C16_half_to_single",
    "C16_fp24_to_single",
    "C16_single_kept",
    "C16_single_subnormal_refuted"
   ],
   "note": "See PropBits.v; refuted theorems record the corner cases excluded by the quantifier."
  },
  {
   "property": "C17",
   "status": "proved",
   "theorems": [
    "C17_order_of_fractions",
    "C17_signed_order_of_fractions",
    "C17_equality_agrees",
    "C17_antisymmetric",
    "C17_transitive",
    "C17_zero_over_zero_refuted",
    "C17_negative_denominator_refuted"
   ],
   "note": "See PropBits.v; refuted theorems record the corner cases excluded by the quantifier."
  },
  {
   "property": "C18",
   "status": "proved",
   "theorems": [
    "C18_login_required",
    "C18_no_change",
    "C18_login_works",
    "C18_any_password_refuted",
    "C18_after_quit_refuted"
   ],
   "note": "Commands of a session in any number and order, any configuration, any file system. The two refuted theorems record that a server with anonymous access accepts any password for any account and that commands after QUIT still take effect."
  },
  {
   "property": "C19",
   "status": "proved",
   "theorems": [
    "C19_step_inside",
    "C19_session_inside",
    "C19_sent_inside",
    "C19_relative_root_refuted",
    "C19_link_escape_refuted",
    "C19_existence_leak_refuted",
    "C19_root_removed_refuted",
    "C19_root_name_refuted"
   ],
   "note": "Path resolution follows links as the kernel does; only STOR and LIST need the no-escape hypothesis because the other commands canonicalise their argument. The refuted theorems record the corners outside the quantifier."
  },
  {
   "property": "C20",
   "status": "proved",
   "theorems": [
    "C20_framing",
    "C20_segmentation",
    "C20_lines_unique"
   ],
   "note": "FramedRead of tokio-util is modelled from its documented behaviour."
  },
  {
   "property": "C21",
   "status": "proved",
   "theorems": [
    "C21_distinct_outputs",
    "C21_complete",
    "C21_total",
    "C21_names",
    "C21_develop_distinct",
    "C21_develop_collision_refuted",
    "C21_order_refuted",
    "C21_no_images_refuted"
   ],
   "note": "Any number of entries and frames. Refuted corners: development runs with equal stems share an output, names depend on directory order, a source with no images panics."
  },
  {
   "property": "C22",
   "status": "proved",
   "theorems": [
    "C22_untouched",
    "C22_reported",
    "C22_expected",
    "C22_image_untouched",
    "C22_extract_untouched",
    "C22_image_no_clobber",
    "C22_extract_no_clobber",
    "C22_override_loses_refuted",
    "C22_in_place_refuted",
    "C22_leftovers_refuted",
    "C22_panic_refuted",
    "C22_image_race_refuted"
   ],
   "note": "File system with inodes, links, fault flags; every interleaving of operations. Conversion itself is an arbitrary function of the input bytes producing writes and an ending."
  },
  {
   "property": "C23",
   "status": "proved",
   "theorems": [
    "C23_lines_fn",
    "C23_lines",
    "C23_strips",
    "C23_strips_fn",
    "C23_chunked_fn",
    "C23_zero_width_refuted"
   ],
   "note": "For every worker program and every ended schedule."
  },
  {
   "property": "C24",
   "status": "proved",
   "theorems": [
    "C24_view_exact",
    "C24_padded_view",
    "C24_view_until_end",
    "C24_padded_view_until_end",
    "C24_overflow_refuted",
    "C24_empty_tail_refuted"
   ],
   "note": "Views are exact; ranges whose u64 sum overflows panic (C24_overflow_refuted) and the two until-end variants disagree on the empty tail (C24_empty_tail_refuted)."
  },
  {
   "property": "C25",
   "status": "proved",
   "theorems": [
    "C25_points",
    "C25_dng",
    "C25_borders",
    "C25_borders_total",
    "C25_offsets_total",
    "C25_tlbr_offsets",
    "C25_adapt",
    "C25_adapt_total",
    "C25_adapt_outside_refuted",
    "C25_is_empty_refuted"
   ],
   "note": "usize overflow of additions not modelled. is_empty and adapt have documented counterexamples."
  },
  {
   "property": "C26",
   "status": "proved",
   "theorems": [
    "C26_deinterleave",
    "C26_odd_height_refuted"
   ],
   "note": "For every schedule of the line workers; refuted for odd height."
  },
  {
   "property": "C27",
   "status": "proved",
   "theorems": [
    "C27_header_in_range",
    "C27_header_terminates",
    "C27_dht_terminates",
    "C27_table_accepted",
    "C27_frame",
    "C27_scan",
    "C27_truncated_header_refuted",
    "C27_missing_table_refuted",
    "C27_large_category_refuted",
    "C27_code_overflow_refuted",
    "C27_point_transform_refuted",
    "C27_lone_ff_refuted",
    "C27_two_frames_refuted",
    "C27_header_refused",
    "C27_start_refused"
   ],
   "note": "Header ranges, termination (independence of the loop bound), frame and scan recurrence for arbitrary data; panics on malformed input are recorded as refuted theorems. The 4:2:0, 4:2:2 and Hasselblad scan variants are not modelled."
  },
  {
   "property": "C28",
   "status": "proved",
   "theorems": [
    "C28_dithered_row",
    "C28_padded_table",
    "C28_clampbits",
    "C28_log2ceil",
    "C28_monotone_table_refuted",
    "C28_white_wraps_refuted",
    "C28_log2ceil_small"
   ],
   "note": "See PropBits.v; refuted theorems record the corner cases excluded by the quantifier."
  },
  {
   "property": "C29",
   "status": "proved",
   "theorems": [
    "C29_nikon_involution",
    "C29_nikon_mask",
    "C29_nikon_completes",
    "C29_nikon_long_buffer_refuted",
    "C29_sony_involution",
    "C29_sony_words",
    "C29_sony_stream_exists"
   ],
   "note": "Nikon: involution, closed-form key stream, completes up to 4000 bytes, long buffers overflow (refuted). Sony: involution and feedback key stream."
  },
  {
   "property": "C30",
   "status": "proved",
   "theorems": [
    "C30_strips_roundtrip",
    "C30_any_placement",
    "C30_padded_strips_refuted",
    "C30_empty_image_refuted"
   ],
   "note": "16 bit integer samples; finished file below 4 GiB; the file before the strips may be patched and anything may follow. Adjacent strips with spare bytes in their byte counts are refuted; empty image panics."
  },
  {
   "property": "C31",
   "status": "proved",
   "theorems": [
    "C31_shift",
    "C31_compose",
    "C31_dng",
    "C31_aligned",
    "C31_dng_refuted"
   ],
   "note": "shift and composition; the DNG reader does not shift black levels back (C31_dng_refuted)"
  },
  {
   "property": "C32",
   "status": "proved",
   "theorems": [
    "C32_delta_inverse",
    "C32_float_rows",
    "C32_predictors",
    "C32_other_predictors_panic"
   ],
   "note": "See PropBits.v; refuted theorems record the corner cases excluded by the quantifier."
  },
  {
   "property": "C33",
   "status": "proved",
   "theorems": [
    "C33_geometry"
   ],
   "note": "tags as a record; their byte encoding is C10/C11"
  },
  {
   "property": "C34",
   "status": "proved",
   "theorems": [
    "C34_path_verbs",
    "C34_text_verbs",
    "C34_plain_verbs",
    "C34_port_range",
    "C34_component_names"
   ],
   "note": "Unix path components; UTF-8 validation as in core::str."
  },
  {
   "property": "C35",
   "status": "proved",
   "theorems": [
    "C35_reply_framing"
   ],
   "note": ""
  },
  {
   "property": "C36",
   "status": "proved",
   "theorems": [
    "C36_scan_exact",
    "C36_scan_total",
    "C36_dangling_refuted"
   ],
   "note": "Trees of any shape, links followed. C36_dangling_refuted records that one dangling link aborts the scan."
  },
  {
   "property": "C37",
   "status": "proved",
   "theorems": [
    "C37_extract_inside",
    "C37_extract_sibling",
    "C37_absolute_name_refuted",
    "C37_parent_name_refuted"
   ],
   "note": "Proved for plain names; the refuted theorems show that an absolute or .. name in a hostile DNG escapes the output directory."
  },
  {
   "property": "C38",
   "status": "proved",
   "theorems": [
    "C38_spared",
    "C38_reported",
    "C38_expected",
    "C38_progress",
    "C38_command"
   ],
   "note": "Rely/guarantee proof over arbitrary interleavings; overlapping outputs excluded (that planning avoids them is C21)."
  },
  {
   "property": "C39",
   "status": "proved",
   "theorems": [
    "C39_ppg",
    "C39_keeps_samples",
    "C39_local",
    "C39_sizes",
    "C39_flat"
   ],
   "note": "Any arithmetic (so also f32 rounding), any interleaving of single reads and writes. C39_sizes covers the sizes that hang or panic; C39_flat is for exact rationals."
  },
  {
   "property": "C40",
   "status": "proved",
   "theorems": [
    "C40_bilinear",
    "C40_small"
   ],
   "note": "Any arithmetic and interleaving."
  },
  {
   "property": "C41",
   "status": "proved",
   "theorems": [
    "C41_superpixel3",
    "C41_superpixel3_other",
    "C41_superpixel4"
   ],
   "note": "Three and four channel variants; the ordered parallel map is a map."
  },
  {
   "property": "C42",
   "status": "proved",
   "theorems": [
    "C42_xtrans"
   ],
   "note": "Tasks write disjoint rows and read only the input, so rows are computed in order."
  },
  {
   "property": "C43",
   "status": "proved",
   "theorems": [
    "C43_cfa",
    "C43_linear",
    "C43_range",
    "C43_twice",
    "C43_odd_refuted",
    "C43_mismatch",
    "C43_mono"
   ],
   "note": "arithmetic abstract; exact rationals for range and idempotence"
  },
  {
   "property": "C44",
   "status": "proved",
   "theorems": [
    "C44_masked",
    "C44_areas",
    "C44_configured",
    "C44_decoder",
    "C44_estimated",
    "C44_none",
    "C44_empty_place",
    "C44_xtrans"
   ],
   "note": "conversion to Rational is a parameter that may panic"
  },
  {
   "property": "C45",
   "status": "proved",
   "theorems": [
    "C45_inverse",
    "C45_normalize",
    "C45_roundtrip",
    "C45_neutral",
    "C45_pointwise",
    "C45_clip_nonneg",
    "C45_clip_id",
    "C45_clip_refuted",
    "C45_matrix_d65",
    "C45_matrix_other",
    "C45_matrix_none",
    "C45_bradford_white",
    "C45_bradford_direction_refuted"
   ],
   "note": "exact rational arithmetic; f32 rounding not covered"
  },
  {
   "property": "C46",
   "status": "proved",
   "theorems": [
    "C46_bayer",
    "C46_flat_field",
    "C46_grey",
    "C46_linear",
    "C46_linear_active_refuted",
    "C46_mono",
    "C46_fuji_active",
    "C46_samples"
   ],
   "note": "tone curve, rounding and Fuji rotation are parameters; the TIFF container is C10"
  },
  {
   "property": "C47",
   "status": "proved",
   "theorems": [
    "C47_band_roundtrip"
   ],
   "note": "Rounded lines (rounding mask above zero) are modelled but no theorem covers them. The bit reader of the bitstream_io crate is modelled as a list of bits."
  },
  {
   "property": "C48",
   "status": "proved",
   "theorems": [
    "C48_plane_roundtrip",
    "C48_tile_above_another_fails"
   ],
   "note": "Round trip against the 5/3 transform written as a specification over unbounded signals. Band lines come from an abstract source (C47 covers the entropy decoder)."
  },
  {
   "property": "C49",
   "status": "proved",
   "theorems": [
    "C49_image_decoded",
    "C49_lossless_roundtrip",
    "C49_short_data_panics",
    "C49_qp_without_levels",
    "C49_lower_tile_row"
   ],
   "note": "Against a specification of the stored image and an encoder. Several rows of tiles are excluded: with levels they do not decode (C48), without they are misplaced (C49_lower_tile_row). A band coded with prediction must have step 1."
  },
  {
   "property": "C50",
   "status": "proved",
   "theorems": [
    "C50_any_data",
    "C50_roundtrip",
    "C50_default_table",
    "C50_odd_width"
   ],
   "note": "decoder against the canonical code and the two-lane predictor for any data; round trip with an encoder; odd widths refused by panics"
  },
  {
   "property": "C51",
   "status": "proved",
   "theorems": [
    "C51_any_data",
    "C51_close_to_curve",
    "C51_symbols",
    "C51_roundtrip",
    "C51_lossless",
    "C51_lossless_exact_refuted",
    "C51_odd_width",
    "C51_no_curve"
   ],
   "note": "Model Pef.v (nef part), specification NefSpec.v; the maker note is modelled from its first byte, its lookup is not. head_ok lists the maker notes whose tables fit; bit depths up to 15."
  },
  {
   "property": "C52",
   "status": "proved",
   "theorems": [
    "C52_arw1_any_data",
    "C52_arw1_roundtrip",
    "C52_arw1_odd_height",
    "C52_curve",
    "C52_curve_steep",
    "C52_arw2_any_data",
    "C52_arw2_roundtrip",
    "C52_block_sample",
    "C52_quantized",
    "C52_arw2_leftover",
    "C52_arw2_crossed"
   ],
   "note": "Model Sony.v, specification SonySpec.v. Round trips against encoders; the second format is lossy, so its round trip is to the quantized samples, bounded by C52_quantized. The LJPEG tiles of newer files and decode_arw6 (always unimplemented!) are not modelled."
  },
  {
   "property": "C53",
   "status": "proved",
   "theorems": [
    "C53_srw1_any_data",
    "C53_srw1_roundtrip",
    "C53_srw1_storable",
    "C53_srw1_odd_height",
    "C53_srw2_any_data",
    "C53_srw2_roundtrip"
   ],
   "note": "decode_srw1 and decode_srw2 without the dummy mode. First format: row data a whole number of 32 bit words, lengths of at most 30 bits, offsets below 2^32. Second: width plus height at most 65000. decode_srw3 is not modelled."
  },
  {
   "property": "C54",
   "status": "proved",
   "theorems": [
    "C54_v4_any_data",
    "C54_v4_plain_data",
    "C54_v4_roundtrip",
    "C54_v4_split_seam_refuted",
    "C54_v5_any_data",
    "C54_v5_roundtrip",
    "C54_v6_any_data",
    "C54_v6_roundtrip",
    "C54_v6_dark",
    "C54_v7_any_data",
    "C54_v7_roundtrip",
    "C54_v7_twelve_bits"
   ],
   "note": "Format 8 is not modelled. Round trips: formats 5 and 7 for all samples that fit, formats 4 (plain order) and 6 for pictures the encoder without scales can store; the theorems on any data cover all scales."
  },
  {
   "property": "C55",
   "status": "proved",
   "theorems": [
    "C55_any_data",
    "C55_roundtrip",
    "C55_segment"
   ],
   "note": "The samples must have entries in the curve; otherwise the program panics."
  },
  {
   "property": "C56",
   "status": "proved",
   "theorems": [
    "C56_any_data",
    "C56_roundtrip",
    "C56_roundtrip_odd",
    "C56_sixteen_bits_refuted"
   ],
   "note": "Any data (samples of the picture below 2^15) and round trip for all 15 bit pictures; odd widths leave the last column black; 16 bit samples can overflow (refuted)."
  },
  {
   "property": "C57",
   "status": "proved",
   "theorems": [
    "C57_422",
    "C57_422_stored",
    "C57_420",
    "C57_420_stored",
    "C57_sony",
    "C57_sony_stored",
    "C57_negative",
    "C57_plain",
    "C57_hasselblad",
    "C57_leaf",
    "C57_leaf_count"
   ],
   "note": "Any scan data (samples that fit into 16 bits) and round trips for 4:2:2 and both kinds of 4:2:0; any data for Hasselblad (64 bits left before each pair) and Leaf (even widths); negative luma panics in debug builds (C57_negative)."
  },
  {
   "property": "C58",
   "status": "proved",
   "theorems": [
    "C58_fields",
    "C58_one_field",
    "C58_fields_any",
    "C58_fields_too_wide",
    "C58_sraw",
    "C58_sraw_pairs",
    "C58_pairs_odd_height",
    "C58_chroma",
    "C58_chroma_rows_refuted",
    "C58_no_white_balance",
    "C58_linearize"
   ],
   "note": "From the decoded frame on. Round trip for fields of sensor data and one-line sRAW, any frame for two-line sRAW; factors up to 8192 (32.0) and 15 bit samples, beyond which i32 products may overflow. Interpolation works on the middle row of every three, so stored chroma of some even rows is replaced (refuted claim)."
  },
  {
   "property": "C59",
   "status": "proved",
   "theorems": [
    "C59_roundtrip",
    "C59_monochrome_refuted",
    "C59_planes_refuted",
    "C59_one_white_level"
   ],
   "note": "Whole file from the bytes back to the picture. Floating point values, metadata, previews and the clock are arguments of the model; the copied metadata must not contain layout tags. The choice of the decoder from the first bytes is not part of it."
  },
  {
   "property": "C60",
   "status": "proved",
   "theorems": [
    "C60_boxes_read",
    "C60_samples_two_runs",
    "C60_samples_more_runs_refuted",
    "C60_raw_sample",
    "C60_lossless_picture",
    "C60_ends",
    "C60_ends_refuted",
    "C60_zero_first"
   ],
   "note": "Boxes, sample tables and choice of the raw track of CR3 files. The TIFF reader of the CMT boxes is an argument; allocation of tables is not modelled. C60_lossless_picture composes with C49."
  },
  {
   "property": "C61",
   "status": "proved",
   "theorems": [
    "C61_segments",
    "C61_exif_found",
    "C61_xmp_found",
    "C61_ends",
    "C61_exif_ends",
    "C61_cut_refuted",
    "C61_correct_files_refuted",
    "C61_damaged_exif_refuted",
    "C61_starts_with_soi"
   ],
   "note": "All of jfif.rs with the TIFF reader of C10; files below 4 GiB."
  },
  {
   "property": "C62",
   "status": "proved",
   "theorems": [
    "C62_converted",
    "C62_signatures",
    "C62_ciff",
    "C62_x3f",
    "C62_tiff",
    "C62_unknown_make",
    "C62_size",
    "C62_cr3",
    "C62_jpeg",
    "C62_ends_refuted",
    "C62_big_endian_refuted"
   ],
   "note": "The constructors of the decoders are not part of the model. Files of 1 GiB and more are left out: the box reader looks at them first."
  },
  {
   "property": "C63",
   "status": "proved",
   "theorems": [
    "C63_blocks",
    "C63_picture",
    "C63_ends",
    "C63_last_block_refuted",
    "C63_no_panic_refuted"
   ],
   "note": "Model of the block reader of MRW files and of the raw picture on top of C06. The camera lookup, the TIFF data itself (C12) and the JPEG variant are not modelled. The refuted theorems show a lost white balance block and the panics on damaged files."
  },
  {
   "property": "C64",
   "status": "proved",
   "theorems": [
    "C64_read",
    "C64_written",
    "C64_decoder",
    "C64_work_refuted",
    "C64_depth_refuted",
    "C64_no_panic_refuted",
    "C64_bad_record",
    "C64_entries"
   ],
   "note": "Model of the CIFF reader. The spec is a relation between bytes and trees, and a writer that shows that every tree has a file. The CRW decompressor and the use of the entries are not modelled. The refuted theorems show the unbounded work, lost values and panics."
  },
  {
   "property": "C65",
   "status": "proved",
   "theorems": [
    "C65_picture",
    "C65_low_bits",
    "C65_rest_refuted"
   ],
   "note": "Model of do_decode with the symbol reader as an argument: the Huffman tables and the bit pump are quantified over. The code of a block is a relation that allows every mixture of runs. Runs past the end of a block are not part of the code."
  }
 ]
}
