{
 "claims": [
  {
   "property": "C01",
   "status": "proved",
   "theorems": [
    "C01_read_bits",
    "C01_start",
    "C01_read_bit"
   ],
   "note": "jxlio/bitreader.go ReadBits, readBit, ReadBool."
  },
  {
   "property": "C02",
   "status": "proved",
   "theorems": [
    "C02_split",
    "C02_position_determines_reads"
   ],
   "note": ""
  },
  {
   "property": "C03",
   "status": "proved",
   "theorems": [
    "C03_peek",
    "C03_at_end",
    "C03_failed_peek_refuted"
   ],
   "note": "The claim is about successful peeks. Finding kept as C03_failed_peek_refuted: after a failed peek the position is lost."
  },
  {
   "property": "C04",
   "status": "partial",
   "theorems": [
    "C04_skip_bits",
    "C04_skip_bytes_partial",
    "C04_skip_bytes_refuted",
    "C04_skip_past_end_refuted"
   ],
   "note": "Bit skipping proved for every available count below 2^32. Byte skipping proved below 2^29 bytes; finding: from 2^29 bytes on the count wraps (C04_skip_bytes_refuted). Second finding: skipping past the end succeeds silently (C04_skip_past_end_refuted)."
  },
  {
   "property": "C05",
   "status": "proved",
   "theorems": [
    "C05_write_read_round_trip"
   ],
   "note": ""
  },
  {
   "property": "C06",
   "status": "proved",
   "theorems": [
    "C06_u32",
    "C06_u64_decodes",
    "C06_u64_every_value",
    "C06_u8",
    "C06_enum"
   ],
   "note": ""
  },
  {
   "property": "C07",
   "status": "partial",
   "theorems": [
    "C07_varint_partial",
    "C07_varint_refuted"
   ],
   "note": "Proved below 2^31. Finding: larger values wrap silently (C07_varint_refuted)."
  },
  {
   "property": "C08",
   "status": "partial",
   "theorems": [
    "C08_unpack_signed_partial",
    "C08_unpack_signed_refuted"
   ],
   "note": "Proved for even values and values without the top bit. Finding: odd values with the top bit set unpack wrongly (C08_unpack_signed_refuted)."
  },
  {
   "property": "C09",
   "status": "proved",
   "theorems": [
    "C09_half_float"
   ],
   "note": ""
  },
  {
   "property": "C10",
   "status": "partial",
   "theorems": [
    "C10_scan_partial",
    "C10_offsets_partial",
    "C10_positive_size_refuted",
    "C10_no_codestream_refuted"
   ],
   "note": "Termination, progress, order, location inside the input and level proved for every input. Findings: the declared size is not always positive (a jxlp box of size 8 is reported with size 2^64-4, C10_positive_size_refuted); a container without codestream box, or with an empty unknown box, panics (C10_no_codestream_refuted)."
  },
  {
   "property": "C11",
   "status": "proved",
   "theorems": [
    "C11_classification"
   ],
   "note": "The theorem runs the scanner and the codestream magic check of ParseImageHeader."
  },
  {
   "property": "C12",
   "status": "partial",
   "theorems": [
    "C12_open_ended_partial",
    "C12_open_ended_refuted"
   ],
   "note": "Proved for codestreams of at least 9 bytes whose bytes 4..7 are not a known tag, files below 2^28 bytes. Finding: shorter codestreams (or unlucky ones) are scanned as if they were another box (C12_open_ended_refuted)."
  },
  {
   "property": "C13",
   "status": "partial",
   "theorems": [
    "C13_size_limits_partial",
    "C13_pixel_limit_refuted"
   ],
   "note": "Per-side limits proved for every input (2^18; 2^28 at level 10, stricter than stated). Finding: the pixel count is checked after wrapping to 32 bits, so 2^36 pixels pass at level 5 and 2^56 at level 10 (C13_pixel_limit_refuted)."
  },
  {
   "property": "C14",
   "status": "partial",
   "theorems": [
    "C14_ratio_partial",
    "C14_ratio_refuted"
   ],
   "note": "Proved for every height below 2^28. Finding: beyond that the product wraps; height 2^28 with 16:9 gives width 0 and is accepted (C14_ratio_refuted)."
  },
  {
   "property": "C15",
   "status": "proved",
   "theorems": [
    "C15_orientation",
    "C15_inverse"
   ],
   "note": "Integer and float channels of at least 1x1, each orientation; pixel positions, one-to-one, declared size, inverse."
  },
  {
   "property": "C16",
   "status": "proved",
   "theorems": [
    "C16_read_is_permutation",
    "C16_code_is_read",
    "C16_every_permutation_has_a_code"
   ],
   "note": "Both directions, every size below 2^32-1 and every skip; relative to the entropy decoder's ReadSymbol, which is the model of C18-C24."
  },
  {
   "property": "C17",
   "status": "partial",
   "theorems": [
    "C17_plain_toc_partial",
    "C17_sections_partial",
    "C17_permutation_ignored_refuted",
    "C17_empty_last_section_refuted"
   ],
   "note": "Plain tables of any number of sections: reading the table, and the bytes of every section. Findings: a transmitted permutation is never applied (C17_permutation_ignored_refuted); an empty section at the end of the data is an error (C17_empty_last_section_refuted). Each section is followed by four zero bytes, so over-reading up to 32 bits is not detected."
  },
  {
   "property": "C18",
   "status": "proved",
   "theorems": [
    "C18_hybrid_config",
    "C18_hybrid_roundtrip",
    "C18_hybrid_rejects",
    "C18_hybrid_total"
   ],
   "note": "Config reading, round trip below 2^32 (as int32), rejection above 32 extra bits, no panic for any int32 token."
  },
  {
   "property": "C19",
   "status": "partial",
   "theorems": [
    "C19_canonical_code_partial",
    "C19_incomplete_rejected",
    "C19_end_of_stream_refuted"
   ],
   "note": "Table construction, canonical decoding, uniqueness and rejection of incomplete codes proved for sorted lengths up to 31 bits. Finding: the lookup peeks the whole table width, so a codeword ending the stream is reported as end of data (C19_end_of_stream_refuted)."
  },
  {
   "property": "C20",
   "status": "proved",
   "theorems": [
    "C20_alias_bijection"
   ],
   "note": "Every table size up to 2^12, every frequency list, and the single-symbol case; construction terminates without panic."
  },
  {
   "property": "C21",
   "status": "proved",
   "theorems": [
    "C21_ans_roundtrip",
    "C21_ans_state_fits",
    "C21_final_state"
   ],
   "note": "Every nonempty message over any mix of tables, every initial state of 17..32 bits."
  },
  {
   "property": "C22",
   "status": "partial",
   "theorems": [
    "C22_lz77_history_partial",
    "C22_reference_events",
    "C22_copy_closed_form",
    "C22_special_distances",
    "C22_small_multiplier_refuted",
    "C22_negative_distance_refuted"
   ],
   "note": "Ring buffer equals an unbounded reference history for any number of calls below 2^31. Findings: multipliers 1..7 give distances below 1 that are not raised to 1 (C22_small_multiplier_refuted); negative distance numbers panic (C22_negative_distance_refuted). Lengths of 2^31 and more are outside the theorem."
  },
  {
   "property": "C23",
   "status": "partial",
   "theorems": [
    "C23_cluster_map_partial",
    "C23_stream_clusters",
    "C23_negative_cluster_refuted",
    "C23_mtf_index_refuted"
   ],
   "note": "Upper bound, tightness and maximum proved for every stream; every created stream has a distribution per cluster. Findings: cluster numbers can be negative (C23_negative_cluster_refuted) and move-to-front indices above 255 panic (C23_mtf_index_refuted)."
  },
  {
   "property": "C24",
   "status": "proved",
   "theorems": [
    "C24_inverse_mtf"
   ],
   "note": "Every list of byte values."
  },
  {
   "property": "C25",
   "status": "proved",
   "theorems": [
    "C25_accepted_tree",
    "C25_walk"
   ],
   "note": "Every accepted tree: shape, contexts, clusters, and the walk for every property vector."
  },
  {
   "property": "C26",
   "status": "proved",
   "theorems": [
    "C26_compactify",
    "C26_compactify_row",
    "C26_weighted"
   ],
   "note": "For both specialisations the decoder performs, and any property function that agrees on channel, stream and row (even a failing one); C26_weighted is the test for the weighted predictor."
  },
  {
   "property": "C27",
   "status": "partial",
   "theorems": [
    "C27_horizontal_partial",
    "C27_vertical_partial",
    "C27_wrapping_tendency_partial",
    "C27_empty_channel_refuted"
   ],
   "note": "Proved for every size of at least 1x1, samples below 2^28 against the standard's tendency and below 2^30 with the decoder's wrapping tendency. Finding: a channel of width 0 and odd height panics in the vertical inverse (C27_empty_channel_refuted)."
  },
  {
   "property": "C28",
   "status": "proved",
   "theorems": [
    "C28_rct_inverse",
    "C28_pixel_inverse"
   ],
   "note": "All 42 types, all int32 samples, any position in the channel list. Outside the property: type numbers 42..73 can be read and index past the permutation table."
  },
  {
   "property": "C29",
   "status": "proved",
   "theorems": [
    "C29_prediction",
    "C29_prediction_value"
   ],
   "note": "All predictors, all sizes below 2^31-1; value equal to the standard's for samples up to 2^26."
  },
  {
   "property": "C30",
   "status": "partial",
   "theorems": [
    "C30_no_fault_partial",
    "C30_stored_errors_partial",
    "C30_large_sample_refuted"
   ],
   "note": "No fault while stored errors stay in 0..2^28-1, which holds as long as sub-predictions are within 2^31-4 of eight times the sample. Finding: a sample of 2^28 makes the next pixel index the table at -1 and panic (C30_large_sample_refuted)."
  },
  {
   "property": "C31",
   "status": "proved",
   "theorems": [
    "C31_groups_tile",
    "C31_sizes_add_up",
    "C31_group_in_lf_group"
   ],
   "note": "Sizes 1..2^31-2^12, all group sizes, subsampling shifts 0/1, both encodings, fewer than 2^31 groups."
  },
  {
   "property": "C32",
   "status": "partial",
   "theorems": [
    "C32_partition_partial",
    "C32_schedule_partial",
    "C32_gaborish_partial",
    "C32_many_workers_refuted"
   ],
   "note": "Every row count and worker count with rows+workers at most 2^31, every interleaving; Gaborish with arbitrary float operations, the edge-preserving filter and upsampling as workers writing cells computed from read-only input (the value of an EPF pixel is not modelled). Finding: 2^32 workers divide by zero (C32_many_workers_refuted)."
  },
  {
   "property": "C33",
   "status": "proved",
   "theorems": [
    "C33_queue"
   ],
   "note": "Any number of passes, groups and workers; goroutines as atomic steps; termination, absence of deadlock, exactly-once."
  },
  {
   "property": "C34",
   "status": "partial",
   "theorems": [
    "C34_semaphore_partial",
    "C34_inverse_partial",
    "C34_modular_refuted",
    "C34_vardct_refuted"
   ],
   "note": "LF groups and inverse transforms: an error is returned exactly when some group fails, for every schedule. Findings: errors of pass groups are dropped, so a modular frame never reports one (C34_modular_refuted) and a VarDCT frame panics (C34_vardct_refuted)."
  },
  {
   "property": "C35",
   "status": "partial",
   "theorems": [
    "C35_pooled_partial",
    "C35_frame_buffer_refuted",
    "C35_first_decode_partial",
    "C35_shape_refuted"
   ],
   "note": "Proved for every history of a program that gives back only matrices it holds. Findings: decodePassGroupsConcurrent gives the frame buffer itself to the pool, so once a pool of the frame's dimensions exists the decoded frame becomes zero (C35_frame_buffer_refuted); matrices are filed by the dimensions of their first channel only (C35_shape_refuted)."
  },
  {
   "property": "C36",
   "status": "partial",
   "theorems": [
    "C36_icc_context",
    "C36_shuffle2",
    "C36_shuffle4_partial",
    "C36_shuffle4_refuted"
   ],
   "note": "Contexts and width 2 proved; width 4 proved for lengths <= 4, 0 or 3 modulo 4. Finding: the width-4 shuffle panics for every other length (C36_shuffle4_refuted)."
  },
  {
   "property": "C37",
   "status": "proved",
   "theorems": [
    "C37_mirror",
    "C37_mirror_laws"
   ],
   "note": "For sizes 1..2^30-1 and every int32 coordinate."
  },
  {
   "property": "C38",
   "status": "partial",
   "theorems": [
    "C38_logs",
    "C38_clamps",
    "C38_ceil_div_partial",
    "C38_ceil_div_refuted"
   ],
   "note": "Logarithms and clamps proved for every argument; ceiling division proved for numerators >= 1. Finding: CeilDiv(0,d) is not 0 (C38_ceil_div_refuted)."
  },
  {
   "property": "C39",
   "status": "partial",
   "theorems": [
    "C39_insert_partial",
    "C39_add_refuted",
    "C39_add_at_end_partial"
   ],
   "note": "AddToSlice proved for every position and backing array. Finding: the generic Add (used by the palette transform) loses an element unless inserting at the end (C39_add_refuted)."
  },
  {
   "property": "C40",
   "status": "proved",
   "theorems": [
    "C40_deque"
   ],
   "note": "Refinement of the slice-backed deque, backing array and spare capacity explicit."
  },
  {
   "property": "C41",
   "status": "partial",
   "theorems": [
    "C41_packing_partial",
    "C41_standard_rule",
    "C41_block_below_grid_refuted",
    "C41_gap_accepted_refuted"
   ],
   "note": "Packing, cell contents and row order for every accepted list; every arrangement by the standard's first-free-cell rule is reproduced. Findings: a block taller than the remaining rows panics instead of being rejected (C41_block_below_grid_refuted); lists the standard's rule cannot place are accepted with gaps (C41_gap_accepted_refuted)."
  },
  {
   "property": "C42",
   "status": "proved",
   "theorems": [
    "C42_no_ties",
    "C42_natural_order",
    "C42_signalled_order"
   ],
   "note": "All 13 shapes, any sort that returns a sorted permutation; also orders sent in the stream."
  },
  {
   "property": "C43",
   "status": "partial",
   "theorems": [
    "C43_block_context_shape",
    "C43_lf_index",
    "C43_block_context",
    "C43_contexts_partial",
    "C43_large_count_refuted",
    "C43_spill_refuted",
    "C43_negative_count_refuted",
    "C43_preset_refuted"
   ],
   "note": "Every block that decodes, every preset within the number of presets. Findings: counts above 63 per 8x8 area panic (C43_large_count_refuted), counts followed by too many zeros read the next block context's contexts before the error (C43_spill_refuted), negative counts give negative contexts (C43_negative_count_refuted), the preset is not range checked (C43_preset_refuted)."
  },
  {
   "property": "C44",
   "status": "proved",
   "theorems": [
    "C44_colour_encoding"
   ],
   "note": "Coordinates modelled in millionths."
  },
  {
   "property": "C45",
   "status": "partial",
   "theorems": [
    "C45_metadata_partial",
    "C45_channel_copy_partial",
    "C45_copy_loses_channels_refuted",
    "C45_transfer_refuted"
   ],
   "note": "Copies of single channels and the metadata are right. Finding: NewJXLImageFromJXLImage copies into a slice of length 0, so every copy has no channels (C45_copy_loses_channels_refuted) and transferring an image panics or fails (C45_transfer_refuted)."
  },
  {
   "property": "C46",
   "status": "partial",
   "theorems": [
    "C46_options_partial",
    "C46_render_varblocks_refuted",
    "C46_single_goroutine_refuted"
   ],
   "note": "Debug, ParseOnly and MaxGoroutines > 1 are honoured. Findings: RenderVarblocks is dropped (C46_render_varblocks_refuted), MaxGoroutines = 1 is ignored (C46_single_goroutine_refuted)."
  },
  {
   "property": "C47",
   "status": "partial",
   "theorems": [
    "C47_framing",
    "C47_data_length_partial",
    "C47_image_data",
    "C47_low_depth_refuted",
    "C47_hdr_refuted",
    "C47_gray_alpha_refuted"
   ],
   "note": "Chunk framing for every image that is written (compression and its result abstract); amount of data when the channel depths agree with the header; contents for integer images of 8 or 16 bits. The colour transform before writing is part of C110. Findings: depths below 8 and HDR images of 8 bits announce a different amount of data than is written (C47_low_depth_refuted, C47_hdr_refuted), gray with alpha panics (C47_gray_alpha_refuted)."
  },
  {
   "property": "C48",
   "status": "partial",
   "theorems": [
    "C48_pfm_partial",
    "C48_integer_image_refuted"
   ],
   "note": "Every float image with finite samples (NaN, infinities and -0 are outside the float model). Finding: an image with an integer channel panics (C48_integer_image_refuted)."
  },
  {
   "property": "C49",
   "status": "partial",
   "theorems": [
    "C49_clamp",
    "C49_round_trip_partial",
    "C49_to_int_range",
    "C49_round_trip_24_bits_refuted",
    "C49_clamp_32_bits_refuted"
   ],
   "note": "Clamping for every non-negative maximum; conversion range for every maximum; round trip up to 20 bits. Findings: 24-bit samples change (C49_round_trip_24_bits_refuted); depth 32 gives maximum -1 and clamps to -1 (C49_clamp_32_bits_refuted)."
  },
  {
   "property": "C50",
   "status": "partial",
   "theorems": [
    "C50_blend_partial",
    "C50_replace_partial",
    "C50_left_below_refuted",
    "C50_above_refuted",
    "C50_outside_refuted",
    "C50_no_reference_refuted"
   ],
   "note": "Every mode, size and content, offsets that are both non-negative or negative in x and not positive in y. Findings: panics for other negative offsets (C50_left_below_refuted, C50_above_refuted), for replacing frames outside the canvas (C50_outside_refuted), for missing references (C50_no_reference_refuted)."
  },
  {
   "property": "C51",
   "status": "partial",
   "theorems": [
    "C51_container_partial",
    "C51_large_size_refuted",
    "C51_empty_box_refuted"
   ],
   "note": "Proved for all sequences of boxes with 32-bit sizes, bodies below 2^29 bytes, non-empty unknown boxes. Findings: 64-bit sizes are read before the type and misparsed (C51_large_size_refuted); an empty unknown box panics (C51_empty_box_refuted)."
  },
  {
   "property": "C52",
   "status": "partial",
   "theorems": [
    "C52_no_result_refuted",
    "C52_no_result_partial"
   ],
   "note": "Finding: a first codestream box beginning at the end of the file yields (nil, nil), which Decode dereferences (C52_no_result_refuted). C52_no_result_partial: it is the only case in the modelled entry."
  },
  {
   "property": "C53",
   "status": "proved",
   "theorems": [
    "C53_header_invariants"
   ],
   "note": "The entropy-coded ICC payload is a parameter that must not panic."
  },
  {
   "property": "C54",
   "status": "partial",
   "theorems": [
    "C54_header_language",
    "C54_header_standard_partial",
    "C54_header_standard_refuted"
   ],
   "note": "The accepted language is characterised exactly (C54_header_language), relative to the ICC payload reader. It agrees with the standard on sizes up to 2^28, previews not in units of 8, no animation, empty extensions. Findings: C54_header_standard_refuted."
  },
  {
   "property": "C55",
   "status": "proved",
   "theorems": [
    "C55_upsampling_index",
    "C55_upsampling_symmetric",
    "C55_upsampling_distinct"
   ],
   "note": ""
  },
  {
   "property": "C56",
   "status": "partial",
   "theorems": [
    "C56_icc_short",
    "C56_icc_roundtrip_partial",
    "C56_icc_no_tags_refuted",
    "C56_icc_tiny_refuted",
    "C56_icc_panics_refuted"
   ],
   "note": "Proved for profiles of 0..4, 41..128 and 132..2^30 bytes encoded as header, tag count, raw data. Findings: without tag list the rest of the profile is lost; 5..40 byte profiles panic; tag code 21 and bad command sizes panic. Encodings using tag entries and prediction commands are modelled, not covered by the round trip."
  },
  {
   "property": "C57",
   "status": "partial",
   "theorems": [
    "C57_palette_partial",
    "C57_later_channel_lost_refuted",
    "C57_weighted_delta_refuted",
    "C57_small_depth_refuted"
   ],
   "note": "Proved when the index channel is the last one, depth 3..24, predictors other than 6. Findings: channels behind it are lost (C57_later_channel_lost_refuted), delta entries with predictor 6 panic (C57_weighted_delta_refuted), depths 1 and 2 get a wrong cube offset (C57_small_depth_refuted)."
  },
  {
   "property": "C58",
   "status": "partial",
   "theorems": [
    "C58_truncated_tree_refuted"
   ],
   "note": "Finding: a truncated tree panics (C58_truncated_tree_refuted). That accepted trees are well formed is C25."
  },
  {
   "property": "C59",
   "status": "partial",
   "theorems": [
    "C59_one_pass_partial",
    "C59_several_passes_refuted"
   ],
   "note": "One pass works (C59_one_pass_partial). Finding: two or more passes always panic (C59_several_passes_refuted)."
  },
  {
   "property": "C60",
   "status": "partial",
   "theorems": [
    "C60_coefficients_stored",
    "C60_positions",
    "C60_only_such_symbols",
    "C60_group_edge_refuted"
   ],
   "note": "Blocks inside their group, both directions. ReadSymbol's results are arbitrary inputs here. Finding: a block across the edge of its 256x256 group is accepted by the placement and panics (C60_group_edge_refuted)."
  },
  {
   "property": "C61",
   "status": "partial",
   "theorems": [
    "C61_lossless_samples_partial",
    "C61_25_bits_refuted"
   ],
   "note": "Samples of at most 24 bits. Finding: larger samples are rounded to float32 (C61_25_bits_refuted)."
  },
  {
   "property": "C62",
   "status": "partial",
   "theorems": [
    "C62_value_partial",
    "C62_float_bits_refuted"
   ],
   "note": "Finding: the integer is converted by value, so 1.0 is decoded to 1065353216.0 (C62_float_bits_refuted)."
  },
  {
   "property": "C63",
   "status": "partial",
   "theorems": [
    "C63_frame_header_partial",
    "C63_handled_frames_partial",
    "C63_epf_weights_refuted",
    "C63_multiply_clamp_refuted"
   ],
   "note": "Proved: the parser accepts exactly the grammar with three deviations, and decodes every standard header that avoids them. Findings: the EPF weight flag is never read (C63_epf_weights_refuted), the clamp flag of the multiply mode is not read without extra channels (C63_multiply_clamp_refuted), extension lengths count bytes (see C54). Value constraints of the standard on pass lists are not part of the grammar; animation fields are excluded because the image header parser rejects animations."
  },
  {
   "property": "C64",
   "status": "partial",
   "theorems": [
    "C64_frame_geometry_partial",
    "C64_empty_crop_refuted"
   ],
   "note": "Finding: a zero-sized crop is accepted and its size wraps to 2^31 with 2x upsampling (C64_empty_crop_refuted). All other invariants hold for every accepted header."
  },
  {
   "property": "C65",
   "status": "partial",
   "theorems": [
    "C65_distribution_grammar_partial",
    "C65_distribution_sum",
    "C65_distribution_table",
    "C65_negative_frequency_refuted",
    "C65_single_symbol_refuted"
   ],
   "note": "Proved: exactly the grammar is accepted, the sum is always 4096, non-negative descriptions give correct alias tables. Findings: frequencies that already exceed 4096 are accepted and the omitted one becomes negative (C65_negative_frequency_refuted); the single-symbol form ignores the alphabet size (C65_single_symbol_refuted). Seven bits of look-ahead are needed behind the description."
  },
  {
   "property": "C66",
   "status": "partial",
   "theorems": [
    "C66_descriptions_read_partial",
    "C66_only_descriptions",
    "C66_repeat_past_end_refuted",
    "C66_zeros_past_end_refuted",
    "C66_long_length_refuted",
    "C66_simple_symbols_refuted"
   ],
   "note": "Proved: every description of the grammar is read and gives the canonical code (5 bits of look-ahead behind it), and whatever is accepted is in the grammar. Findings: runs past the alphabet, zero runs past it and lengths above the alphabet size panic (C66_*_past_end_refuted, C66_long_length_refuted); symbols of simple codes may be outside the alphabet or equal (C66_simple_symbols_refuted)."
  },
  {
   "property": "C67",
   "status": "partial",
   "theorems": [
    "C67_sections_partial",
    "C67_streams_partial",
    "C67_entries_wrap_refuted"
   ],
   "note": "Proved for frames with fewer than 2^32 sections and 2^31 streams. Finding: the uint32 number of entries wraps around beyond that (C67_entries_wrap_refuted)."
  },
  {
   "property": "C68",
   "status": "partial",
   "theorems": [
    "C68_inverse_partial",
    "C68_inverse_transposed_partial",
    "C68_forward_partial",
    "C68_roundtrip_partial",
    "C68_transforms_inverse_partial"
   ],
   "note": "Proved over the exact real numbers (standard library Reals); the rounding of float32 is not modelled."
  },
  {
   "property": "C69",
   "status": "partial",
   "theorems": [
    "C69_blocks_partial",
    "C69_dct4_refuted"
   ],
   "note": "Proved for five of the six methods over the exact real numbers. Finding: METHOD_DCT4 always panics (C69_dct4_refuted)."
  },
  {
   "property": "C70",
   "status": "partial",
   "theorems": [
    "C70_afv_partial",
    "C70_afv0_partial",
    "C70_orientation_refuted"
   ],
   "note": "Finding: placeBlock stores the address of its own parameter, so the pointer comparisons of invertAFV never hold and AFV1 to AFV3 are decoded like AFV0 (C70_orientation_refuted). Proved over exact reals: AFV0 with the real pointers, and all four orientations if the pointers were those of the package variables; the basis table is orthonormal up to 10^-14."
  },
  {
   "property": "C71",
   "status": "partial",
   "theorems": [
    "C71_modular_header_partial",
    "C71_standard_headers_partial",
    "C71_squeeze_parameters_refuted",
    "C71_squeeze_start_refuted"
   ],
   "note": "Proved: the accepted headers are exactly those of a grammar that differs from the standard's in the squeeze parameters, in transform kind 3 and in colour transform types 42 to 73; headers without explicit squeezes are read as the standard says. Findings: squeeze parameters are read with offsets and lengths swapped (C71_squeeze_parameters_refuted, C71_squeeze_start_refuted)."
  },
  {
   "property": "C72",
   "status": "partial",
   "theorems": [
    "C72_layout_partial",
    "C72_insert",
    "C72_default_after_palette_refuted",
    "C72_missing_channels_refuted",
    "C72_shifted_channel_refuted"
   ],
   "note": "Proved for all sequences of transforms of existing channels in which a default squeeze finds the first channel and the first non-meta channel of equal size. Findings: a default squeeze after a palette uses the palette's size (C72_default_after_palette_refuted), transforms of missing channels panic (C72_missing_channels_refuted), extra channels with a dimension shift keep the full size (C72_shifted_channel_refuted)."
  },
  {
   "property": "C73",
   "status": "partial",
   "theorems": [
    "C73_transforms_undone_partial",
    "C73_rct_type_refuted"
   ],
   "note": "Proved for depth 3..24, samples below 2^28 under a squeeze, and palettes without delta entries whose index channel is the last channel. Finding: colour transform types 42 to 73 are accepted and panic (C73_rct_type_refuted)."
  },
  {
   "property": "C74",
   "status": "partial",
   "theorems": [
    "C74_product",
    "C74_inverse",
    "C74_primaries_partial",
    "C74_conversion_partial",
    "C74_named_spaces",
    "C74_degenerate_primaries_refuted",
    "C74_d50_refuted"
   ],
   "note": "Proved in exact real arithmetic for primaries that are not on a line, and without conditions for the named spaces (C74_named_spaces). Findings: primaries on a line are accepted and give a wrong matrix (C74_degenerate_primaries_refuted), the point called D50 is not D50 (C74_d50_refuted). Spaces closer than 1/10000 are identified; rounding is not modelled."
  },
  {
   "property": "C75",
   "status": "proved",
   "theorems": [
    "C75_xyb_inverted",
    "C75_xyb_converted"
   ],
   "note": "In exact real arithmetic; float32 rounding is not modelled."
  },
  {
   "property": "C76",
   "status": "partial",
   "theorems": [
    "C76_gamma",
    "C76_gamma_curve",
    "C76_linear",
    "C76_srgb_partial",
    "C76_bt709_partial",
    "C76_pq_refuted",
    "C76_pq_black_refuted",
    "C76_dci_refuted",
    "C76_hlg_refuted"
   ],
   "note": "Proved: gamma and linear curves exactly, sRGB and BT.709 up to 1/10^9 over the reals. Findings: a sign error in the PQ curve (C76_pq_refuted, C76_pq_black_refuted), the DCI curve uses the enum number as gamma (C76_dci_refuted), HLG is missing (C76_hlg_refuted)."
  },
  {
   "property": "C77",
   "status": "partial",
   "theorems": [
    "C77_lf_global_partial",
    "C77_standard_partial",
    "C77_block_context",
    "C77_threshold_refuted",
    "C77_scale_partial",
    "C77_scale_refuted"
   ],
   "note": "The grammar is exact (C77_lf_global_partial) given an exact reader of cluster maps; frames with noise, patches or splines are rejected, so those parts are missing. Findings: thresholds below -2^30 are decoded wrongly (C77_threshold_refuted); the product of the scales overflows int32 and changes the sign of the steps or divides by zero (C77_scale_refuted)."
  },
  {
   "property": "C78",
   "status": "partial",
   "theorems": [
    "C78_lf_image_partial",
    "C78_smoothing_partial",
    "C78_mean",
    "C78_gap_refuted",
    "C78_correlation_refuted",
    "C78_lf_frame_refuted",
    "C78_lf_frame_samples"
   ],
   "note": "In exact real arithmetic, for correlation factors of 128 and more and frames without LF frame; smoothing is proved up to the measure of the distance. Findings: the distance is multiplied by the step instead of divided (C78_gap_refuted), factors below 128 wrap around (C78_correlation_refuted), the samples of an LF frame are overwritten (C78_lf_frame_refuted). What an LF frame puts there before is proved in C78_lf_frame_samples."
  },
  {
   "property": "C79",
   "status": "partial",
   "theorems": [
    "C79_tables",
    "C79_afv_partial",
    "C79_curve_unique",
    "C79_corner",
    "C79_negative_rejected",
    "C79_zero_refuted",
    "C79_afv_refuted",
    "C79_defaults"
   ],
   "note": "In exact real arithmetic, for every mode but AFV exactly as the format says. Findings: the AFV frequencies are spread over one band instead of three, so two parameters never matter (C79_afv_refuted, C79_afv_partial is the rest); zero weights are accepted and their reciprocals taken (C79_zero_refuted). Not part of the claim: whether rows and columns of the AFV table are exchanged, and the factor 64 of mode 3."
  },
  {
   "property": "C80",
   "status": "partial",
   "theorems": [
    "C80_grammar_partial",
    "C80_standard_partial",
    "C80_presets",
    "C80_mode4_refuted"
   ],
   "note": "The grammar is exact without mode 4 (C80_grammar_partial), given an exact reader of raw tables and the check of C79. Finding: mode 4 is accepted by validateIndex and then always rejected (C80_mode4_refuted)."
  },
  {
   "property": "C81",
   "status": "partial",
   "theorems": [
    "C81_dequantize_partial",
    "C81_qm_scale_refuted",
    "C81_chroma_from_luma",
    "C81_chroma_from_luma_partial",
    "C81_subsampled",
    "C81_chroma_from_luma_refuted",
    "C81_final_partial"
   ],
   "note": "Dequantisation for scales from 2 (C81_dequantize_partial); what chroma from luma adds in every case (C81_chroma_from_luma) and that it is the correlation of the tile for blocks in order that do not cross a horizontal tile border (C81_chroma_from_luma_partial); all three steps together (C81_final_partial). Findings: scales 0 and 1 wrap around in uint32, so the step is practically zero (C81_qm_scale_refuted); samples of a block that is decoded before the corner of their tile get no correlation at all (C81_chroma_from_luma_refuted)."
  },
  {
   "property": "C82",
   "status": "partial",
   "theorems": [
    "C82_lowest_partial",
    "C82_factors_partial",
    "C82_means_partial"
   ],
   "note": "Proved over exact real numbers: the coefficients (C82_lowest_partial), the meaning of the exact scales (C82_means_partial), and that all entries of the table are within 2*10^-13 of them (C82_factors_partial). Missing: float32 rounding."
  },
  {
   "property": "C83",
   "status": "partial",
   "theorems": [
    "C83_header_partial",
    "C83_accepted_partial",
    "C83_innermost",
    "C83_refused",
    "C83_restart",
    "C83_alphabet_refuted",
    "C83_gap_refuted",
    "C83_nested_partial"
   ],
   "note": "Every header is read as it should be, with plain cluster maps (C83_header_partial, frequencies not negative) and with maps in entropy-coded streams of their own (C83_nested_partial); only headers of the grammar are accepted, given the same of the reader of cluster maps (C83_accepted_partial), without condition for the innermost streams (C83_innermost). Missing: that the reader of entropy-coded maps accepts nothing else. Findings: alphabets of 2^15+1 to 2^16 symbols are accepted (C83_alphabet_refuted), and so are maps with unused clusters (C83_gap_refuted)."
  },
  {
   "property": "C84",
   "status": "partial",
   "theorems": [
    "C84_value_partial",
    "C84_constant_partial",
    "C84_total_partial",
    "C84_weights_refuted"
   ],
   "note": "Proved over exact real numbers for weights whose sum is not zero. Missing: float32 rounding. Finding: the header is not checked, with -0.25 and 0 the decoder divides by zero (C84_weights_refuted)."
  },
  {
   "property": "C85",
   "status": "partial",
   "theorems": [
    "C85_value_partial",
    "C85_modular_partial",
    "C85_range",
    "C85_sharpness",
    "C85_group_size_refuted",
    "C85_negative_refuted"
   ],
   "note": "Proved over exact real numbers for groups of 256 pixels and strengths that are not negative, for VarDCT (C85_value_partial) and modular frames (C85_modular_partial), range in C85_range. Findings: the LF group of a block is computed with a constant of 256, other group sizes panic or take the wrong group (C85_group_size_refuted); negative strengths do not switch the filter off (C85_negative_refuted)."
  },
  {
   "property": "C86",
   "status": "partial",
   "theorems": [
    "C86_value_partial",
    "C86_limits_partial",
    "C86_one",
    "C86_defaults",
    "C86_overshoot_refuted"
   ],
   "note": "Proved over exact real numbers for windows with a positive sample (C86_value_partial), what happens otherwise in C86_limits_partial, kernels in C86_defaults. Finding: the upper limit starts at the smallest positive number, so negative samples are not limited from above (C86_overshoot_refuted)."
  },
  {
   "property": "C87",
   "status": "partial",
   "theorems": [
    "C87_value_partial",
    "C87_mean_partial",
    "C87_range_partial"
   ],
   "note": "Proved over exact real numbers (C87_value_partial, C87_mean_partial, C87_range_partial). Missing: float32 rounding."
  },
  {
   "property": "C88",
   "status": "partial",
   "theorems": [
    "C88_rgb_partial",
    "C88_gray_partial",
    "C88_scaled_partial",
    "C88_float_partial",
    "C88_integers",
    "C88_sixteen_bits_refuted",
    "C88_alpha_refuted",
    "C88_channel_partial",
    "C88_channel_float_refuted",
    "C88_peak"
   ],
   "note": "8-bit integer images (C88_rgb_partial, C88_gray_partial), integer images of fewer bits (C88_scaled_partial: to the nearest byte), linear float images (C88_float_partial, the transfer function is a parameter), single channels (C88_channel_partial); the channels are integers afterwards, so the float branches are never taken (C88_integers). Missing: mixed depths and types. Findings: 16-bit samples are cut to the low byte (C88_sixteen_bits_refuted); alpha is always the first extra channel, and lost for gray images (C88_alpha_refuted); ChannelToImage cuts and wraps floats and takes the type of channel 0 for all channels (C88_channel_float_refuted). The peak is that of the green or gray channel (C88_peak)."
  },
  {
   "property": "C89",
   "status": "partial",
   "theorems": [
    "C89_twice_partial",
    "C89_twice_refuted",
    "C89_transfer_refuted",
    "C89_premultiplied_refuted",
    "C89_linear_refuted"
   ],
   "note": "A second call gives the same for 8-bit images in the target encoding (C89_twice_partial). Findings: otherwise it does not, since channels are changed in place but not depths and transfer function (C89_twice_refuted); every image without ICC profile whose transfer function is neither linear nor the target's panics (C89_transfer_refuted), so does associated alpha (C89_premultiplied_refuted); integer samples of linear images are divided by the number of bits instead of the largest value (C89_linear_refuted)."
  },
  {
   "property": "C90",
   "status": "partial",
   "theorems": [
    "C90_composition_partial",
    "C90_save_before_transform_refuted",
    "C90_reference_only_refuted",
    "C90_shared_canvas_refuted",
    "C90_blends_onto_itself_refuted",
    "C90_upsampled_origin_refuted",
    "C90_gray_alpha_refuted",
    "C90_conversion_partial",
    "C90_reference_conversion_partial",
    "C90_transform_partial"
   ],
   "note": "Proved against a by-value reading of the frames (C90_composition_partial): any number of frames, sizes and slots, buffers all integer (replace, add) or all float (every mode); what decoding, upsampling and the colour transform compute is a parameter. Channels of different types are converted with the depth of the channel (C90_conversion_partial, C90_reference_conversion_partial), and the colour transform gets and sets the first three channels of the frames that need it (C90_transform_partial). Missing: the composition with mixed buffer types, frames with an index out of range, blending before any frame is saved. The hypotheses leave out what the findings show to be wrong: the frame saved before the colour transform is the transformed one (C90_save_before_transform_refuted); a reference-only frame without that flag is not saved at all (C90_reference_only_refuted); canvas and saved frame share memory, so later channels are blended with the new alpha (C90_shared_canvas_refuted); a frame saved as it is is blended onto itself (C90_blends_onto_itself_refuted); the origin of upsampled frames is multiplied (C90_upsampled_origin_refuted); gray images with integer alpha panic (C90_gray_alpha_refuted)."
  },
  {
   "property": "C91",
   "status": "partial",
   "theorems": [
    "C91_ends_at_last_frame",
    "C91_no_error_skipped",
    "C91_parse_only_refuted",
    "C91_boxes_refuted"
   ],
   "note": "The end at the last frame is proved (C91_ends_at_last_frame), and that no frame up to it failed to decode (C91_no_error_skipped). Findings: with ParseOnly no stream is ever accepted (C91_parse_only_refuted); only the frames of the second box are read, whatever the others hold (C91_boxes_refuted)."
  },
  {
   "property": "C92",
   "status": "partial",
   "theorems": [
    "C92_channel_samples_partial",
    "C92_one_plane_partial",
    "C92_decoded_channel"
   ],
   "note": "Proved against the predictor, properties and errors of the format over unbounded integers (C92_channel_samples_partial, with C92_one_plane_partial: no other plane is encoded; C92_decoded_channel). Missing: samples of 2^26 and more (2^20 with the self-correcting predictor, errors below 2^23), where the 32-bit sums of the code may wrap (C30 has a panic there), and empty channels."
  },
  {
   "property": "C93",
   "status": "partial",
   "theorems": [
    "C93_generator_exists",
    "C93_numbers",
    "C93_odd_slice_refuted",
    "C93_four_seeds",
    "C93_seeds_differ",
    "C93_no_merging",
    "C93_never_zero"
   ],
   "note": "Numbers, seeds and the algebra of the state proved for all seeds (C93_numbers, C93_four_seeds, C93_seeds_differ, C93_no_merging, C93_never_zero). Finding: fill panics for slices of odd length (C93_odd_slice_refuted). The code is called by tests only, the decoder rejects frames with noise."
  },
  {
   "property": "C94",
   "status": "partial",
   "theorems": [
    "C94_group_partial",
    "C94_one_column_partial",
    "C94_wide_group_refuted"
   ],
   "note": "Written rectangle and range proved for all groups (C94_group_partial); the values are those of the standard for groups of one column (C94_one_column_partial). Finding: a run of 16 numbers is drawn for every sample since the loop steps by 1 instead of 16, so that wider groups have other noise (C94_wide_group_refuted)."
  },
  {
   "property": "C95",
   "status": "partial",
   "theorems": [
    "C95_table_partial",
    "C95_one_table",
    "C95_single_refuted"
   ],
   "note": "Proved for distributions over several symbols and for those described by their only symbol (C95_table_partial), with the uniqueness of the table (C95_one_table). Finding: frequencies sent one by one that leave a single symbol get another table than the standard's (C95_single_refuted)."
  },
  {
   "property": "C96",
   "status": "partial",
   "theorems": [
    "C96_values_partial",
    "C96_stream_partial",
    "C96_sendable"
   ],
   "note": "Proved for whole sequences against a grammar of the bits (C96_values_partial), with the header in front (C96_stream_partial), and that sequences can be sent (C96_sendable). Missing: multipliers 1 to 7 if LZ77 is used (see C22), one-symbol distributions described by frequencies (C95), values of 2^31 and more."
  },
  {
   "property": "C97",
   "status": "partial",
   "theorems": [
    "C97_tree_partial"
   ],
   "note": "Proved for the whole bit string of a tree against a specification of the symbols of nodes and the grammars of C83 and C96 (C97_tree_partial). Missing: what C83 and C96 leave out."
  },
  {
   "property": "C98",
   "status": "partial",
   "theorems": [
    "C98_image_partial",
    "C98_global_partial",
    "C98_sendable",
    "C98_rows_refuted",
    "C98_no_tree_refuted"
   ],
   "note": "Proved from bits to samples (C98_image_partial, C98_global_partial), and that every image can be sent (C98_sendable). Missing: explicit squeezes (C71), rows of less than 8 samples with LZ77 (C22), weighted prediction outside the limits of C92, what C73, C83 and C96 leave out. Findings: the rows of LZ77 copies in the global stream are as long as the widest of all channels, also those not in the stream (C98_rows_refuted); a stream that asks for the tree of a frame without one dereferences nil (C98_no_tree_refuted)."
  },
  {
   "property": "C99",
   "status": "partial",
   "theorems": [
    "C99_frame_partial",
    "C99_sendable",
    "C99_residual_groups_refuted",
    "C99_lf_channels_refuted",
    "C99_group_palette_refuted",
    "C99_default_passes_refuted",
    "C99_last_pass_refuted",
    "C99_extra_channel_refuted",
    "C99_grey_ycbcr_refuted"
   ],
   "note": "Proved from the bits of all sections to the buffers (C99_frame_partial), and that every image can be sent (C99_sendable). Missing: what C98 leaves out, float samples, samples of more than 24 bits (C61), groups whose transforms move channels, subsampled colour. Findings: the groups of a channel are counted by its own width, so residuals that end before the last column go to other places (C99_residual_groups_refuted); channels in LF groups are looked up by the wrong number and panic (C99_lf_channels_refuted); palettes of several channels in a group lose the place of the group (C99_group_palette_refuted); frames with default passes, for instance reference frames, larger than a group decode nothing and panic (C99_default_passes_refuted); a last pass named for a coarser scale loses the full size channels (C99_last_pass_refuted); subsampled extra channels get the full size (C99_extra_channel_refuted); grey frames in YCbCr panic (C99_grey_ycbcr_refuted)."
  },
  {
   "property": "C100",
   "status": "partial",
   "theorems": [
    "C100_file_partial",
    "C100_container_partial",
    "C100_image_partial",
    "C100_preview_refuted",
    "C100_sendable",
    "C100_every_image",
    "C100_section_length_refuted",
    "C100_end_of_file_refuted"
   ],
   "note": "Proved from the bytes of a file to the oriented buffers for any number of plain modular frames (C100_file_partial), for one covering frame (C100_image_partial), for the same codestream in a container in one box among boxes of other kinds, at either level (C100_container_partial), and that every image has a file (C100_sendable, C100_every_image). Missing: codestreams split over several boxes (C51), frames in XYB, with VarDCT, filters, upsampling, splines, noise or patches, blending with alpha, what C99 leaves out. Findings: the length of a single section is not used, so bytes at its end are decoded as the next frame (C100_section_length_refuted); a file whose last symbol has a shorter code than the longest one is rejected unless bytes follow (C100_end_of_file_refuted). Images with a preview are rejected (C100_preview_refuted)."
  },
  {
   "property": "C101",
   "status": "partial",
   "theorems": [
    "C101_group_partial",
    "C101_sendable",
    "C101_counts"
   ],
   "note": "Proved from bits to quantized coefficients (C101_group_partial), and that every group can be sent (C101_sendable). Missing: groups whose blocks overlap or leave the group (C41), scan orders and the header of the stream, which are inputs here (C42, C83), and dequantization (C76). A block is accepted only if it has as many nonzero coefficients as its count says (C101_counts)."
  },
  {
   "property": "C102",
   "status": "partial",
   "theorems": [
    "C102_pass_partial",
    "C102_sendable"
   ],
   "note": "Proved from bits to orders and stream (C102_pass_partial) in the form C101 asks for, and that every choice of orders can be sent (C102_sendable). Missing: files that end within 15 bits of the pass, what C83 and C96 leave out."
  },
  {
   "property": "C103",
   "status": "partial",
   "theorems": [
    "C103_lf_group_partial",
    "C103_sendable"
   ],
   "note": "Proved from bits to LF samples, contexts, channels and layout (C103_lf_group_partial), and that every group can be sent (C103_sendable). Missing: sizes that the subsampling does not divide, what C41, C78 and C98 leave out, float32 rounding of the samples."
  },
  {
   "property": "C104",
   "status": "partial",
   "theorems": [
    "C104_types",
    "C104_representatives",
    "C104_methods_partial",
    "C104_dct4_refuted"
   ],
   "note": "Entries of the table (C104_types), representatives (C104_representatives) and methods of all types but one (C104_methods_partial). Finding: the 4x4 DCT is not implemented, a block of this type panics (C104_dct4_refuted)."
  },
  {
   "property": "C105",
   "status": "partial",
   "theorems": [
    "C105_samples_partial",
    "C105_group_partial",
    "C105_frame_partial",
    "C105_exact_partial",
    "C105_passes_refuted",
    "C105_bits_partial"
   ],
   "note": "Proved from the coefficients of a group to its samples (C105_samples_partial), from quantized coefficients (C105_group_partial), from bits (C105_bits_partial) and for all groups in any order (C105_frame_partial, C105_exact_partial). Missing: blocks of the 4x4 DCT and the AFV types 1 to 3, whose code is wrong (C70, C104), without subsampling blocks that cross tiles of 64 samples (C81), float32 rounding; AFV blocks come back up to the error of its basis. Finding: a second pass panics instead of refining the first (C105_passes_refuted)."
  },
  {
   "property": "C106",
   "status": "partial",
   "theorems": [
    "C106_global_partial",
    "C106_read_partial",
    "C106_frame_partial",
    "C106_near_partial"
   ],
   "note": "Proved from the sections to the groups that are transformed back (C106_read_partial) and to the samples (C106_frame_partial, with AFV blocks C106_near_partial); LF global with entropy-coded maps of contexts and the tree (C106_global_partial). Missing: extra channels, noise, patches and splines, table mode 4 (C80), thresholds below -2^30 (C77), what C103 and C105 leave out, float32 rounding, the restoration filters after it. The conditions on the transformed blocks (C105) are hypotheses; C107 derives them from tilings."
  },
  {
   "property": "C107",
   "status": "partial",
   "theorems": [
    "C107_groups",
    "C107_frame_partial",
    "C107_near_partial"
   ],
   "note": "Proved for frames without subsampled channels: tilings meet all conditions of C106 on groups (C107_groups), so the samples are those that the coefficients stand for (C107_frame_partial), with AFV blocks up to 16e-14 of the largest sample (C107_near_partial). Missing: subsampled channels, blocks that cross a row of tiles elsewhere than at the corner of a tile (refuted by C81), what C106 leaves out."
  },
  {
   "property": "C108",
   "status": "partial",
   "theorems": [
    "C108_profile_partial",
    "C108_unambiguous_partial",
    "C108_wide_run_refuted"
   ],
   "note": "Proved for tag lists and all data commands (C108_profile_partial). Missing: profiles of 129 to 131 bytes and tag counts from 127 * 2^24 (the list of tags could not fit). Finding: shuffled runs of width 4 whose length is 1 or 2 above a multiple of 4, other than 1 and 2, panic (C108_wide_run_refuted)."
  },
  {
   "property": "C109",
   "status": "partial",
   "theorems": [
    "C109_profile_partial",
    "C109_profile_container_partial",
    "C109_profile_scaled_partial",
    "C109_every_profile",
    "C109_file_partial",
    "C109_container_partial",
    "C109_scaled_partial",
    "C109_sixteen_bits_refuted",
    "C109_config_partial",
    "C109_config_orientation_refuted",
    "C109_config_model_refuted",
    "C109_bare_refuted",
    "C109_reader_refuted",
    "C109_empty_refuted",
    "C109_config_parts_refuted",
    "C109_every_image"
   ],
   "note": "Proved that Decode gives the Go image of every lossless 8-bit file (C109_file_partial, C109_container_partial, C109_every_image) and of every lossless colour file of 3 to 7 bits (C109_scaled_partial), of every lossless 8-bit file with an ICC profile, whatever the profile (C109_profile_partial, C109_profile_container_partial), with such a file for every image and profile (C109_every_profile), of every such colour file of 3 to 7 bits (C109_profile_scaled_partial), and that DecodeConfig agrees on gray images that are not turned (C109_config_partial). Missing: other bit depths, colour spaces other than sRGB without profile, VarDCT files. Findings: of 16-bit samples the low byte is shown (C109_sixteen_bits_refuted); DecodeConfig tells the size before the orientation is applied (C109_config_orientation_refuted) and a colour model that colour images do not have (C109_config_model_refuted), and rejects images in two boxes (C109_config_parts_refuted); the image package does not recognise bare codestreams (C109_bare_refuted) and fails for every reader that cannot peek, such as files, since the wrapped reader cannot seek (C109_reader_refuted); an empty codestream box at the end makes both panic (C109_empty_refuted)."
  },
  {
   "property": "C110",
   "status": "partial",
   "theorems": [
    "C110_profile_partial",
    "C110_container_partial",
    "C110_plain_partial",
    "C110_gray_alpha_refuted",
    "C110_low_depth_refuted",
    "C110_rejected",
    "C110_empty_refuted"
   ],
   "note": "Proved for files with an ICC profile and 8 or 16 bits (C110_profile_partial, C110_container_partial): the PNG file has the samples as seen and the profile; and for 8-bit files without profile (C110_plain_partial; image/png of the standard library is a parameter, as is zlib). Rejected files give no output (C110_rejected). Missing: other depths, colour spaces other than sRGB without profile, VarDCT files. Findings: a gray image with alpha and a profile makes the program panic (C110_gray_alpha_refuted); below 8 bits twice the announced sample data is written (C110_low_depth_refuted); an empty codestream box makes it panic (C110_empty_refuted)."
  },
  {
   "property": "C111",
   "status": "partial",
   "theorems": [
    "C111_read_partial",
    "C111_missing_refuted",
    "C111_pieces_refuted",
    "C111_position_refuted",
    "C111_rejects",
    "C111_skip_partial",
    "C111_skip_panic_refuted",
    "C111_skip_missing_refuted"
   ],
   "note": "Proved that ReadFullyWithOffset fills the buffer with the bytes at the offset for every reader (C111_read_partial) and that SkipFully skips up to 10000 bytes, multiples of 10000 and all that is left of a reader that gives all the bytes wanted (C111_skip_partial). Readers that give no byte without an error are not modelled. Negative offsets and too large lengths are rejected (C111_rejects). Findings: of a reader that gives pieces too many bytes are taken and the number that remains is negative (C111_pieces_refuted); missing bytes are an error instead of the number of bytes missing (C111_missing_refuted, C111_skip_missing_refuted); ReadFully reads from the start instead of the position of the reader (C111_position_refuted); SkipFully panics for every other number of bytes that are there (C111_skip_panic_refuted)."
  },
  {
   "property": "C112",
   "status": "partial",
   "theorems": [
    "C112_extremes",
    "C112_nan",
    "C112_clamp",
    "C112_range_refuted",
    "C112_compare",
    "C112_equal_partial",
    "C112_equal_refuted",
    "C112_fill",
    "C112_default"
   ],
   "note": "Proved for the extremes (C112_extremes, C112_nan), clamping (C112_clamp), CompareMatrix3D (C112_compare), filling (C112_fill, C112_default) and, for arrays of the same shape, Matrix3Equal (C112_equal_partial). Findings: RangeIterator visits the points one to the right of those of the range (C112_range_refuted); Matrix3Equal finds arrays equal if the second one has more elements in its rows and panics if it has fewer (C112_equal_refuted)."
  },
  {
   "property": "C113",
   "status": "partial",
   "theorems": [
    "C113_get_set",
    "C113_index",
    "C113_shown_partial",
    "C113_gray_partial",
    "C113_other_kind_refuted",
    "C113_size_refuted",
    "C113_kind",
    "C113_copy_refuted"
   ],
   "note": "Proved that Set and Get agree and leave the other channels alone (C113_get_set), that indices without a channel give errors (C113_index), that integer samples that are set are shown, for 8-bit images without a colour transform (C113_shown_partial, C113_gray_partial), and the kind of images with channels (C113_kind). Rows are values in the model; the sharing of row slices is not modelled. Findings: float samples set on an integer image are never shown and give no error (C113_other_kind_refuted); samples of another size are accepted and make ToImage panic (C113_size_refuted); asking for the kind of an image without channels panics (C113_kind), which is every copy that NewJXLImageFromJXLImage makes (C113_copy_refuted)."
  },
  {
   "property": "C114",
   "status": "partial",
   "theorems": [
    "C114_params",
    "C114_nan_refuted",
    "C114_opsin",
    "C114_primaries",
    "C114_symmetric",
    "C114_opsin_refuted",
    "C114_channels",
    "C114_transitive"
   ],
   "note": "Proved what the comparisons decide (C114_params, C114_opsin, C114_primaries, C114_channels) that the order does not matter (C114_symmetric) and that equality of parameter sets and channels is transitive (C114_transitive). Rounding of the distance of chromaticities is not modelled; channels with NaN samples are not modelled. Findings: a parameter set with NaN is not equal to itself (C114_nan_refuted); Matches is not transitive, NaN in a bias matches itself but NaN in the matrix does not, and missing primaries do not match themselves or make it panic (C114_opsin_refuted)."
  },
  {
   "property": "C115",
   "status": "partial",
   "theorems": [
    "C115_pooled_partial",
    "C115_reuse",
    "C115_metrics_refuted"
   ],
   "note": "Proved for every history of a program that gives back only matrices it holds (C115_pooled_partial), by a simulation in the three-dimensional pool of C35, and that returned matrices can be given again (C115_reuse). One type of samples; the choice of the pool by type is not modelled. Finding: New is set for every pool, so every request counts as a hit and the number of misses stays 0, though matrices are made (C115_metrics_refuted; the three-dimensional pool has the same code)."
  }
 ]
}