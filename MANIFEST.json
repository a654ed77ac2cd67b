{
 "claims": [
  {
   "property": "C01",
   "status": "proved",
   "theorems": [
    "C01_varint_roundtrip",
    "C01_varint_min_refuted"
   ],
   "note": "Every int64 except INT64_MIN; INT64_MIN is encoded as the single byte 0, which the decoder does not map back (refuted theorem)."
  },
  {
   "property": "C02",
   "status": "proved",
   "theorems": [
    "C02_varint_decoder_safe",
    "C02_varint_decoder_in_bounds",
    "C02_varint_fast_paths"
   ],
   "note": "Every byte sequence and start; reads past the end would be the outcome UB, proved unreachable."
  },
  {
   "property": "C03",
   "status": "proved",
   "theorems": [
    "C03_uvarint_roundtrip",
    "C03_uvarint_reader_safe",
    "C03_uvarint_truncated"
   ],
   "note": "Every uint64; reader total on every byte sequence."
  },
  {
   "property": "C04",
   "status": "proved",
   "theorems": [
    "C04_int_lossless",
    "C04_int_lossless_small",
    "C04_int64_refuted"
   ],
   "note": "All widths; for 64-bit columns no consecutive difference may be 2^63 modulo 2^64 (automatic for narrower ones), shown necessary by the refuted theorem."
  },
  {
   "property": "C05",
   "status": "proved",
   "theorems": [
    "C05_xor_exact"
   ],
   "note": "Every bit pattern including NaN payloads and signed zeros."
  },
  {
   "property": "C06",
   "status": "proved",
   "theorems": [
    "C06_gorilla_exact"
   ],
   "note": "Every bit pattern and history of the window."
  },
  {
   "property": "C07",
   "status": "proved",
   "theorems": [
    "C07_lossy32",
    "C07_lossy64",
    "C07_overflow_refuted"
   ],
   "note": "Every finite value whose quotient fits int64 (NaN is kept); beyond it the refuted theorem gives the counterexample."
  },
  {
   "property": "C08",
   "status": "proved",
   "theorems": [
    "C08_grouped"
   ],
   "note": "One to four lanes (the code uses 3 and 4) and both compiled variants of the vector rounding."
  },
  {
   "property": "C09",
   "status": "proved",
   "theorems": [
    "C09_bound32",
    "C09_bound64",
    "C09_boundN",
    "C09_cloud",
    "C09_one_step",
    "C09_half_resolution_refuted"
   ],
   "note": "Against the real numbers; the plain r/2 bound is refuted, the proved bound carries the float rounding terms."
  },
  {
   "property": "C10",
   "status": "proved",
   "theorems": [
    "C10_v4_chunk_roundtrip"
   ],
   "note": ""
  },
  {
   "property": "C11",
   "status": "proved",
   "theorems": [
    "C11_section_roundtrip"
   ],
   "note": ""
  },
  {
   "property": "C12",
   "status": "proved",
   "theorems": [
    "C12_v5_chunk_roundtrip"
   ],
   "note": "Every number of points and every legal set of fields."
  },
  {
   "property": "C13",
   "status": "proved",
   "theorems": [
    "C13_stream_eq_batch"
   ],
   "note": ""
  },
  {
   "property": "C14",
   "status": "proved",
   "theorems": [
    "C14_palette",
    "C14_palette_indexes"
   ],
   "note": ""
  },
  {
   "property": "C15",
   "status": "proved",
   "theorems": [
    "C15_bitpack",
    "C15_palette_bits"
   ],
   "note": ""
  },
  {
   "property": "C16",
   "status": "proved",
   "theorems": [
    "C16_mode_minimal",
    "C16_mode_of_chunk"
   ],
   "note": ""
  },
  {
   "property": "C17",
   "status": "proved",
   "theorems": [
    "C17_roundtrip",
    "C17_never_wrong",
    "C17_roundtrip_compressed",
    "C17_roundtrip_fits",
    "C17_always_decodes"
   ],
   "note": "From encode to decode through the public API for every chunk size; the compression libraries enter as round-trip hypotheses (LibSpec.v) with an instance that meets them."
  },
  {
   "property": "C18",
   "status": "proved",
   "theorems": [
    "C18_characterised",
    "C18_refuted"
   ],
   "note": "The exact failure condition (characterised) and a witness."
  },
  {
   "property": "C19",
   "status": "proved",
   "theorems": [
    "C19_encoder_history",
    "C19_decoder_history"
   ],
   "note": ""
  },
  {
   "property": "C20",
   "status": "proved",
   "theorems": [
    "C20_chunk_alone"
   ],
   "note": ""
  },
  {
   "property": "C21",
   "status": "proved",
   "theorems": [
    "C21_fields_only"
   ],
   "note": ""
  },
  {
   "property": "C22",
   "status": "proved",
   "theorems": [
    "C22_encoder_frames",
    "C22_decoder_frames",
    "C22_cut_or_extended",
    "C22_oversized_chunk"
   ],
   "note": ""
  },
  {
   "property": "C23",
   "status": "proved",
   "theorems": [
    "C23_threaded_equals_single_threaded"
   ],
   "note": "Every interleaving of caller and worker steps."
  },
  {
   "property": "C24",
   "status": "proved",
   "theorems": [
    "C24_no_deadlock",
    "C24_terminates",
    "C24_failure_is_reported_and_local",
    "C24_worker_ends"
   ],
   "note": "Every interleaving; failure means the worker's compression call throwing."
  },
  {
   "property": "C25",
   "status": "proved",
   "theorems": [
    "C25_v4_bound"
   ],
   "note": ""
  },
  {
   "property": "C26",
   "status": "proved",
   "theorems": [
    "C26_v5_bound",
    "C26_refuted"
   ],
   "note": "A correct bound is proved for the V5 codec; the claim that MaxCompressedSize is one is refuted."
  },
  {
   "property": "C27",
   "status": "proved",
   "theorems": [
    "C27_refused",
    "C27_in_bounds",
    "C27_rest_untouched"
   ],
   "note": ""
  },
  {
   "property": "C28",
   "status": "proved",
   "theorems": [
    "C28_binary_header_round_trip",
    "C28_long_name_refuted"
   ],
   "note": "Names up to 65535 bytes; longer names are refuted."
  },
  {
   "property": "C29",
   "status": "proved",
   "theorems": [
    "C29_width_ten_rejected",
    "C29_width_ten_refuted"
   ],
   "note": "Both directions: which headers are misread, and the witness."
  },
  {
   "property": "C30",
   "status": "proved",
   "theorems": [
    "C30_yaml_header_round_trip",
    "C30_yaml_header_exact"
   ],
   "note": "Resolutions that survive six significant digits; C75 and C76 treat the others."
  },
  {
   "property": "C31",
   "status": "proved",
   "theorems": [
    "C31_resolution_refuted",
    "C31_names_refuted",
    "C31_denormal_resolution_refuted"
   ],
   "note": "The three ways in which the text header loses information, each with a witness."
  },
  {
   "property": "C32",
   "status": "proved",
   "theorems": [
    "C32_decode_header_safe",
    "C32_wrong_start_rejected",
    "C32_header_text"
   ],
   "note": ""
  },
  {
   "property": "C33",
   "status": "proved",
   "theorems": [
    "C33_raw_decode_safe",
    "C33_fixed_then_ints_safe",
    "C33_group_then_ints_safe",
    "C33_truncated_v4_refuted",
    "C33_truncated_v5_refuted"
   ],
   "note": "Safety is proved for the field sets listed in the theorems; truncated chunks of other fields are refuted by witnesses."
  },
  {
   "property": "C34",
   "status": "proved",
   "theorems": [
    "C34_decoder_offset_refuted",
    "C34_encoder_offset_refuted",
    "C34_encoder_in_bounds"
   ],
   "note": "Witnesses for out-of-range offsets, and in-bounds for legal ones."
  },
  {
   "property": "C35",
   "status": "proved",
   "theorems": [
    "C35_skip_v4",
    "C35_skip_v5_refuted"
   ],
   "note": "V4 proved; V5 refuted by a witness."
  },
  {
   "property": "C36",
   "status": "proved",
   "theorems": [
    "C36_rle_overflow_refuted",
    "C36_delta_rle_overflow_refuted",
    "C36_short_runs_safe"
   ],
   "note": "Safety below the overflow proved, the overflow itself refuted by witnesses."
  },
  {
   "property": "C37",
   "status": "proved",
   "theorems": [
    "C37_gorilla_safe",
    "C37_gorilla_start",
    "C37_gorilla_shift_refuted"
   ],
   "note": "From every reachable state the only undefined outcome is a new window of more than 64 bits; such a stream exists (refuted theorem)."
  },
  {
   "property": "C38",
   "status": "proved",
   "theorems": [
    "C38_dispatch",
    "C38_grouping",
    "C38_zero_resolution_refuted"
   ],
   "note": "Every field list and option; the zero-resolution mismatch is refuted."
  },
  {
   "property": "C39",
   "status": "proved",
   "theorems": [
    "C39_version2_refuted"
   ],
   "note": ""
  },
  {
   "property": "C40",
   "status": "proved",
   "theorems": [
    "C40_empty"
   ],
   "note": ""
  },
  {
   "property": "C41",
   "status": "proved",
   "theorems": [
    "C41_cdr_roundtrip",
    "C41_cdr_roundtrip_in_sequence",
    "C41_wire_format",
    "C41_hostile_message",
    "C41_short_message_refuted",
    "C41_version_not_in_header_refuted"
   ],
   "note": "Every scalar type and offset; hostile lengths throw. The library's two gaps have witnesses."
  },
  {
   "property": "C42",
   "status": "proved",
   "theorems": [
    "C42_parse_message",
    "C42_hostile_message",
    "C42_compress",
    "C42_message_roundtrip",
    "C42_size_wraps_refuted"
   ],
   "note": "Every message the parser accepts; wrap-around of the size product is refuted."
  },
  {
   "property": "C43",
   "status": "proved",
   "theorems": [
    "C43_big_endian",
    "C43_big_endian_refuted"
   ],
   "note": ""
  },
  {
   "property": "C44",
   "status": "proved",
   "theorems": [
    "C44_viz_subset",
    "C44_kept_iff_first_of_voxel",
    "C44_every_voxel_kept",
    "C44_no_triple",
    "C44_far_points_refuted",
    "C44_field_offset_refuted"
   ],
   "note": "Every cloud in the range of the voxel keys; far points and misplaced fields are refuted."
  },
  {
   "property": "C45",
   "status": "proved",
   "theorems": [
    "C45_key_equal_iff",
    "C45_key_injective",
    "C45_out_of_range_refuted"
   ],
   "note": "The exact equality condition for keys; outside the range refuted."
  },
  {
   "property": "C46",
   "status": "proved",
   "theorems": [
    "C46_profile_semantics",
    "C46_positions_kept",
    "C46_integer_resolution_refuted"
   ],
   "note": ""
  },
  {
   "property": "C47",
   "status": "proved",
   "theorems": [
    "C47_objects_are_values",
    "C47_programs_run",
    "C47_moved_from_refuted"
   ],
   "note": ""
  },
  {
   "property": "C48",
   "status": "proved",
   "theorems": [
    "C48_per_channel",
    "C48_cut",
    "C48_nothing_to_cut"
   ],
   "note": ""
  },
  {
   "property": "C49",
   "status": "proved",
   "theorems": [
    "C49_map",
    "C49_counts",
    "C49_bad_size",
    "C49_terminates",
    "C49_truncated_refuted",
    "C49_leading_comment_refuted",
    "C49_eight_byte_refuted"
   ],
   "note": "Every header text; the last three theorems are witnesses of accepted but wrong inputs."
  },
  {
   "property": "C50",
   "status": "proved",
   "theorems": [
    "C50_pool",
    "C50_delivered",
    "C50_safe",
    "C50_destroy_refuted",
    "C50_header_refuted"
   ],
   "note": "Every interleaving of acquire, release and destroy steps."
  },
  {
   "property": "C51",
   "status": "proved",
   "theorems": [
    "C51_regular_prefix",
    "C51_probe_independent"
   ],
   "note": ""
  },
  {
   "property": "C52",
   "status": "proved",
   "theorems": [
    "C52_encode_message",
    "C52_compute_size",
    "C52_encode_bad_message",
    "C52_encode_data",
    "C52_decode_data",
    "C52_decode_capacity_refuted",
    "C52_zero_step_refuted",
    "C52_uncaught_refuted",
    "C52_size_of_incomplete_refuted"
   ],
   "note": "Every linear memory content; the gaps of the declared-size check have witnesses."
  },
  {
   "property": "C53",
   "status": "proved",
   "theorems": [
    "C53_no_data_race",
    "C53_exception_then_reuse_refuted"
   ],
   "note": "Happens-before over every execution; reuse after an exception is refuted."
  },
  {
   "property": "C54",
   "status": "proved",
   "theorems": [
    "C54_encode_recording",
    "C54_decode_recording",
    "C54_recording_roundtrip",
    "C54_metadata_dropped_refuted",
    "C54_no_schema_refuted"
   ],
   "note": "Every recording; dropped metadata and missing schema are refuted by witnesses."
  },
  {
   "property": "C55",
   "status": "proved",
   "theorems": [
    "C55_profile_text",
    "C55_bad_entry",
    "C55_trailing_semicolon_refuted",
    "C55_profile_file_refuted"
   ],
   "note": ""
  },
  {
   "property": "C56",
   "status": "proved",
   "theorems": [
    "C56_pcl_roundtrip",
    "C56_count_refuted",
    "C56_tiny_resolution_refuted"
   ],
   "note": ""
  },
  {
   "property": "C57",
   "status": "proved",
   "theorems": [
    "C57_type_mismatch",
    "C57_typed_decode",
    "C57_point_roundtrip",
    "C57_step_refuted",
    "C57_larger_step_rejected"
   ],
   "note": ""
  },
  {
   "property": "C58",
   "status": "proved",
   "theorems": [
    "C58_header_text",
    "C58_encode_data_undecodable",
    "C58_encode_data_refuted"
   ],
   "note": ""
  },
  {
   "property": "C59",
   "status": "proved",
   "theorems": [
    "C59_decode_writes_only_fields",
    "C59_nothing_past_the_points",
    "C59_room_for_every_point",
    "C59_old_versions"
   ],
   "note": ""
  },
  {
   "property": "C60",
   "status": "proved",
   "theorems": [
    "C60_fields_from_data_only",
    "C60_idempotent"
   ],
   "note": ""
  },
  {
   "property": "C61",
   "status": "proved",
   "theorems": [
    "C61_plugin_roundtrip",
    "C61_big_endian_refuted",
    "C61_padded_rows_refuted"
   ],
   "note": ""
  },
  {
   "property": "C62",
   "status": "proved",
   "theorems": [
    "C62_subscriber_checks",
    "C62_full_size"
   ],
   "note": ""
  },
  {
   "property": "C63",
   "status": "proved",
   "theorems": [
    "C63_no_subscribers",
    "C63_converter_roundtrip",
    "C63_field_outside_refuted"
   ],
   "note": ""
  },
  {
   "property": "C64",
   "status": "proved",
   "theorems": [
    "C64_plugin_to_converter",
    "C64_converter_to_plugin",
    "C64_serialized_message",
    "C64_empty_refuted",
    "C64_format_refuted"
   ],
   "note": ""
  },
  {
   "property": "C65",
   "status": "proved",
   "theorems": [
    "C65_request_matches_offers",
    "C65_no_publisher_yet_refuted"
   ],
   "note": ""
  },
  {
   "property": "C66",
   "status": "proved",
   "theorems": [
    "C66_header",
    "C66_table",
    "C66_round_trip",
    "C66_int64_refuted",
    "C66_empty_refuted",
    "C66_long_header_refuted"
   ],
   "note": "numpy dtype table, header parser and decoder of the Python package."
  },
  {
   "property": "C67",
   "status": "proved",
   "theorems": [
    "C67_decode",
    "C67_round_trip",
    "C67_encode",
    "C67_encode_refuted"
   ],
   "note": "Decoding agrees on every stream; encoding agrees except on ties, with a witness."
  },
  {
   "property": "C68",
   "status": "proved",
   "theorems": [
    "C68_same_stream",
    "C68_far_refuted"
   ],
   "note": "Clouds inside the quantiser's exact range; outside it refuted."
  },
  {
   "property": "C69",
   "status": "proved",
   "theorems": [
    "C69_text",
    "C69_lines",
    "C69_untouched",
    "C69_all_retyped",
    "C69_back",
    "C69_type_line",
    "C69_named_line",
    "C69_longer_type_refuted",
    "C69_empty_list_refuted",
    "C69_short_name_refuted"
   ],
   "note": "Every metadata text, line by line; three refuted texts."
  },
  {
   "property": "C70",
   "status": "proved",
   "theorems": [
    "C70_bag_kept",
    "C70_default_kept",
    "C70_consent",
    "C70_where",
    "C70_exit_zero",
    "C70_climbing_refuted",
    "C70_same_file_refuted",
    "C70_inside_refuted",
    "C70_exit_status",
    "C70_lone_name"
   ],
   "note": "Every initial file system content and option list."
  },
  {
   "property": "C71",
   "status": "proved",
   "theorems": [
    "C71_cut_default",
    "C71_cut_one",
    "C71_cut_refuted",
    "C71_pcd_input_kept",
    "C71_pcd_consent",
    "C71_pcd_exit",
    "C71_batch",
    "C71_batch_all",
    "C71_cut_exit_status",
    "C71_cut_name"
   ],
   "note": "Every initial file system content and option list."
  },
  {
   "property": "C72",
   "status": "proved",
   "theorems": [
    "C72_pcl",
    "C72_points",
    "C72_wasm",
    "C72_ros",
    "C72_mcap"
   ],
   "note": ""
  },
  {
   "property": "C73",
   "status": "proved",
   "theorems": [
    "C73_refused",
    "C73_pcd_roundtrip",
    "C73_int64_refuted"
   ],
   "note": ""
  },
  {
   "property": "C74",
   "status": "proved",
   "theorems": [
    "C74_neighbour_kept",
    "C74_no_duplicates",
    "C74_recording"
   ],
   "note": ""
  },
  {
   "property": "C75",
   "status": "proved",
   "theorems": [
    "C75_six_digits",
    "C75_any",
    "C75_meets",
    "C75_header",
    "C75_header_any",
    "C75_seventh_digit_refuted"
   ],
   "note": "Decimal printing and reading of floats, related to the reals."
  },
  {
   "property": "C76",
   "status": "proved",
   "theorems": [
    "C76_roundtrip",
    "C76_six_digits",
    "C76_header_error_refuted"
   ],
   "note": ""
  },
  {
   "property": "C77",
   "status": "proved",
   "theorems": [
    "C77_foxglove_roundtrip",
    "C77_frees_everything",
    "C77_without_decoding",
    "C77_values",
    "C77_size_mismatch_refuted",
    "C77_short_data_refuted",
    "C77_deterministic_refuted"
   ],
   "note": "The JavaScript heap discipline and the converted values; three refuted claims of the interface."
  },
  {
   "property": "C78",
   "status": "proved",
   "theorems": [
    "C78_totals",
    "C78_same_numbers",
    "C78_one_message",
    "C78_shared_topic_refuted",
    "C78_large_messages_refuted",
    "C78_leak_refuted"
   ],
   "note": "Every file content in the modelled message sequence; three refuted claims."
  },
  {
   "property": "C79",
   "status": "proved",
   "theorems": [
    "C79_hash_set",
    "C79_wyhash",
    "C79_thinning"
   ],
   "note": "The table of ankerl::unordered_dense as used, including wyhash mixing."
  },
  {
   "property": "C80",
   "status": "proved",
   "theorems": [
    "C80_sessions",
    "C80_save",
    "C80_reentrant_refuted",
    "C80_mixed_refuted",
    "C80_cancel_refuted",
    "C80_stuck_refuted",
    "C80_encode_refuted",
    "C80_decode_refuted"
   ],
   "note": "Every sequence of user actions; refuted theorems are witnesses of stale or mixed state."
  },
  {
   "property": "C81",
   "status": "proved",
   "theorems": [
    "C81_inspect",
    "C81_report",
    "C81_status",
    "C81_bytes_refuted",
    "C81_resolution_refuted",
    "C81_empty_refuted",
    "C81_short_refuted"
   ],
   "note": "Every recording content."
  },
  {
   "property": "C82",
   "status": "proved",
   "theorems": [
    "C82_decode",
    "C82_encode",
    "C82_native_to_wasm",
    "C82_entry_points",
    "C82_no_threads",
    "C82_wide_point_refuted",
    "C82_wrapped_size_refuted"
   ],
   "note": "Every modulus W up to 2^64: W = 2^32 is wasm32, W = 2^64 shows that unbounded sizes in the other models lose nothing; two counterexamples with the real chunk size."
  },
  {
   "property": "C83",
   "status": "proved",
   "theorems": [
    "C83_parsed_cloud",
    "C83_parsed_compressed",
    "C83_compressed_message",
    "C83_decompressed_message",
    "C83_decoded_recording",
    "C83_encoded_recording",
    "C83_datatype_codes"
   ],
   "note": "The reader is a separate specification: a parser of ROS message definitions and a CDR reader driven by it; the texts are those of the header file, character by character. Encoding with visualisation filtering and big-endian compression (C43) are not covered."
  },
  {
   "property": "C84",
   "status": "proved",
   "theorems": [
    "C84_messages",
    "C84_recording",
    "C84_zero_refuted",
    "C84_unfinished_refuted",
    "C84_other_type_refuted"
   ],
   "note": "The mcap reader library is represented by what it delivers; malloc succeeds; a message that makes the decoder leave its memory (C66, C52) ends what the model says."
  },
  {
   "property": "C85",
   "status": "proved",
   "theorems": [
    "C85_order",
    "C85_out_of_range_refuted",
    "C85_builds_refuted"
   ],
   "note": "Over the real numbers, for both builds and all quantisers; the range is that of C09."
  },
  {
   "property": "C86",
   "status": "proved",
   "theorems": [
    "C86_progressions",
    "C86_shape",
    "C86_probe_refuted"
   ],
   "note": "Bounds are on the bytes after the header, framing included. C86_probe_refuted uses the library's constants (32768 points per chunk, 4096 probed)."
  },
  {
   "property": "C87",
   "status": "proved",
   "theorems": [
    "C87_bytes",
    "C87_progressions",
    "C87_shape",
    "C87_gentle",
    "C87_coarser_refuted"
   ],
   "note": "The size is exact for every field kind."
  },
  {
   "property": "C88",
   "status": "proved",
   "theorems": [
    "C88_ample",
    "C88_refuted"
   ],
   "note": "C88_ample is the positive part; C88_refuted the cloud of 65 INT64 columns no buffer is large enough for (shows the 64-column limit used elsewhere is exact)."
  },
  {
   "property": "C89",
   "status": "proved",
   "theorems": [
    "C89_joined",
    "C89_slice",
    "C89_same_stream",
    "C89_same_stream_refuted"
   ],
   "note": "C89_same_stream_refuted holds at the library's constants (32768 points per chunk, 4096 probed), for every pair of streams."
  },
  {
   "property": "C90",
   "status": "proved",
   "theorems": [
    "C90_measured",
    "C90_no_exception",
    "C90_same_fingerprint",
    "C90_fingerprint_of_bytes",
    "C90_one_wrong_byte",
    "C90_equal_outputs_refuted",
    "C90_always_a_fingerprint_refuted"
   ],
   "note": "The runs over several modes and without --decode-replay compute no fingerprint and are covered by the per-message step only; timing and printing are not modelled."
  },
  {
   "property": "C91",
   "status": "proved",
   "theorems": [
    "C91_one_stream",
    "C91_compare",
    "C91_equal_streams",
    "C91_far_refuted",
    "C91_one_stream_refuted"
   ],
   "note": "same_in_any_room is a hypothesis about the external compressors (StreamSpec.v); libzstd meets it only with ZSTD_compressBound bytes of room."
  },
  {
   "property": "C92",
   "status": "proved",
   "theorems": [
    "C92_same_call",
    "C92_same_buffer_size",
    "C92_same_stream",
    "C92_same_decode",
    "C92_new_header"
   ],
   "note": "C92_same_stream needs the encode_side conditions of C17 and same_in_any_room for the compressor; the other statements hold without any of them. The header hypotheses are those of C28 and C30."
  },
  {
   "property": "C93",
   "status": "proved",
   "theorems": [
    "C93_confined",
    "C93_intact_chunks",
    "C93_flip_noticed_refuted",
    "C93_exchange_noticed_refuted"
   ],
   "note": "C93_confined holds for arbitrary chunks; the two negative parts are C93_flip_noticed_refuted and C93_exchange_noticed_refuted. When a damaged chunk makes decode throw, the others can be cut out and decoded: C89_slice."
  },
  {
   "property": "C94",
   "status": "proved",
   "theorems": [
    "C94_normal_return",
    "C94_writes_only_fields",
    "C94_old_versions",
    "C94_salvage",
    "C94_cut_short",
    "C94_truncated",
    "C94_stops_at_failure",
    "C94_untouched_refuted",
    "C94_failing_chunk_untouched_refuted",
    "C94_damaged_start"
   ],
   "note": "The memory at the exception is computed by Left.v, which follows the decoding functions step by step; C94_normal_return ties it to them when they return. Nothing is said of outcomes with undefined behaviour. C94_stops_at_failure is for uncompressed streams only (the capacity given to a decompressor depends on the declared points); C94_damaged_start is for every compression, and finds the failing chunk by comparison with a stream that decodes and ends alike. The negative parts are C94_untouched_refuted and C94_failing_chunk_untouched_refuted."
  },
  {
   "property": "C95",
   "status": "proved",
   "theorems": [
    "C95_exact",
    "C95_nan",
    "C95_drift32",
    "C95_drift64",
    "C95_coarsest_refuted"
   ],
   "note": "Each generation decodes into a buffer laid out as the cloud it was encoded from, so a field has one offset throughout (another layout on the way is C17 and C92). A generation in which decode throws (C18) does not count. The negative part is C95_coarsest_refuted."
  },
  {
   "property": "C96",
   "status": "proved",
   "theorems": [
    "C96_settings",
    "C96_points",
    "C96_selection",
    "C96_fields",
    "C96_builds",
    "C96_neighbours_refuted"
   ],
   "note": "Both decodes are assumed to return (C18: with a compressor one of them may throw); the two encoders run on one build, except in C96_builds (between builds a sample half-way between two steps of the vector group decodes differently, C85). The negative part is C96_neighbours_refuted."
  }
 ]
}