{
 "claims": [
  {
   "property": "C01",
   "status": "proved",
   "theorems": [
    "C01_roundtrip",
    "C01_exact_roundtrip_refuted",
    "C01_encode_injective"
   ],
   "note": ""
  },
  {
   "property": "C02",
   "status": "proved",
   "theorems": [
    "C02_encode_is_rfc4648",
    "C02_encode_length"
   ],
   "note": ""
  },
  {
   "property": "C03",
   "status": "proved",
   "theorems": [
    "C03_crc_is_bitwise_crc16",
    "C03_crc_chunks"
   ],
   "note": ""
  },
  {
   "property": "C04",
   "status": "proved",
   "theorems": [
    "C04_single_byte_error_detected",
    "C04_two_byte_burst_detected"
   ],
   "note": ""
  },
  {
   "property": "C05",
   "status": "proved",
   "theorems": [
    "C05_utf8_round_trip"
   ],
   "note": ""
  },
  {
   "property": "C06",
   "status": "proved",
   "theorems": [
    "C06_utf8_decode_total",
    "C06_utf8_decode_safe",
    "C06_utf8_decode_overrun"
   ],
   "note": ""
  },
  {
   "property": "C07",
   "status": "proved",
   "theorems": [
    "C07_utf8_encode_is_rfc3629",
    "C07_utf8_decode_loses_high_bits"
   ],
   "note": ""
  },
  {
   "property": "C08",
   "status": "proved",
   "theorems": [
    "C08_w1252_round_trip",
    "C08_w1252_decode_injective"
   ],
   "note": ""
  },
  {
   "property": "C09",
   "status": "proved",
   "theorems": [
    "C09_utf16_encode_big_endian",
    "C09_utf16_decode_be",
    "C09_utf16_decode_le",
    "C09_utf16_round_trip",
    "C09_utf16_bom",
    "C09_utf16_bom_ascii_lost",
    "C09_utf16_own_output_overrun"
   ],
   "note": ""
  },
  {
   "property": "C10",
   "status": "proved",
   "theorems": [
    "C10_string_history",
    "C10_char_at"
   ],
   "note": ""
  },
  {
   "property": "C11",
   "status": "proved",
   "theorems": [
    "C11_storage_invariant",
    "C11_constructors_sound",
    "C11_delete_range_past_end_refuted",
    "C11_insert_self_refuted"
   ],
   "note": ""
  },
  {
   "property": "C12",
   "status": "proved",
   "theorems": [
    "C12_indexOf_char",
    "C12_lastIndexOf_char",
    "C12_lastIndexOf_string",
    "C12_indexOf_string",
    "C12_indexOf_string_spare",
    "C12_indexOf_string_refuted",
    "C12_startsWith_endsWith_at",
    "C12_at_negative_refuted",
    "C12_count"
   ],
   "note": ""
  },
  {
   "property": "C13",
   "status": "proved",
   "theorems": [
    "C13_compareTo",
    "C13_compareTo_order",
    "C13_equals"
   ],
   "note": ""
  },
  {
   "property": "C14",
   "status": "proved",
   "theorems": [
    "C14_hash_is_polynomial",
    "C14_equal_strings_equal_hash",
    "C14_mutation_resets_hash",
    "C14_hash_consistency_refuted"
   ],
   "note": ""
  },
  {
   "property": "C15",
   "status": "proved",
   "theorems": [
    "C15_replace",
    "C15_replace_terminates",
    "C15_replace_empty_pattern_refuted",
    "C15_replace_char",
    "C15_spec_deterministic"
   ],
   "note": ""
  },
  {
   "property": "C16",
   "status": "proved",
   "theorems": [
    "C16_valueOf_canonical",
    "C16_valueOf_unsigned_canonical",
    "C16_roundtrip",
    "C16_most_negative_refuted",
    "C16_toInt",
    "C16_digits",
    "C16_canonical_unique"
   ],
   "note": ""
  },
  {
   "property": "C17",
   "status": "proved",
   "theorems": [
    "C17_toHex_canonical",
    "C17_fromHex",
    "C17_roundtrip",
    "C17_negative_is_empty"
   ],
   "note": ""
  },
  {
   "property": "C18",
   "status": "proved",
   "theorems": [
    "C18_roman",
    "C18_injective",
    "C18_nonpositive_is_empty"
   ],
   "note": ""
  },
  {
   "property": "C19",
   "status": "proved",
   "theorems": [
    "C19_latin",
    "C19_small",
    "C19_letters_only_refuted"
   ],
   "note": ""
  },
  {
   "property": "C20",
   "status": "proved",
   "theorems": [
    "C20_split",
    "C20_split_join",
    "C20_iterates_tokens",
    "C20_tokens_partition"
   ],
   "note": ""
  },
  {
   "property": "C21",
   "status": "proved",
   "theorems": [
    "C21_histories",
    "C21_get",
    "C21_contains",
    "C21_join",
    "C21_copy",
    "C21_new_is_sound",
    "C21_append_own_element_refuted",
    "C21_remove_own_element_refuted"
   ],
   "note": ""
  },
  {
   "property": "C22",
   "status": "proved",
   "theorems": [
    "C22_no_marker",
    "C22_replaces_best_marker",
    "C22_char_replaces_best_marker",
    "C22_best_marker_exists",
    "C22_percent_without_marker_refuted"
   ],
   "note": ""
  },
  {
   "property": "C23",
   "status": "proved",
   "theorems": [
    "C23_encode",
    "C23_roundtrip",
    "C23_non_ascii_refuted"
   ],
   "note": ""
  },
  {
   "property": "C24",
   "status": "proved",
   "theorems": [
    "C24_history",
    "C24_any_keys",
    "C24_clear_frees",
    "C24_load"
   ],
   "note": ""
  },
  {
   "property": "C25",
   "status": "proved",
   "theorems": [
    "C25_iteration",
    "C25_walk"
   ],
   "note": ""
  },
  {
   "property": "C26",
   "status": "proved",
   "theorems": [
    "C26_hashed_key_lost",
    "C26_null_value"
   ],
   "note": ""
  },
  {
   "property": "C27",
   "status": "proved",
   "theorems": [
    "C27_array_sort",
    "C27_array_sort_unordered",
    "C27_array_sort_any_order",
    "C27_pointer_sort",
    "C27_pointer_null_refuted",
    "C27_float_sort",
    "C27_float_nan_refuted",
    "C27_bytearray_sort",
    "C27_stringlist_sort"
   ],
   "note": ""
  },
  {
   "property": "C28",
   "status": "proved",
   "theorems": [
    "C28_history",
    "C28_empty_pop_undefined",
    "C28_defined_iff",
    "C28_lifo",
    "C28_copy_refuted"
   ],
   "note": ""
  },
  {
   "property": "C29",
   "status": "proved",
   "theorems": [
    "C29_history",
    "C29_iterator",
    "C29_swap_refuted"
   ],
   "note": ""
  },
  {
   "property": "C30",
   "status": "proved",
   "theorems": [
    "C30_history",
    "C30_undo_redo",
    "C30_no_leak_refuted"
   ],
   "note": ""
  },
  {
   "property": "C31",
   "status": "proved",
   "theorems": [
    "C31_history_refinement",
    "C31_undo_restores_redo_reinstates",
    "C31_memory_depends_on_position_only",
    "C31_undo_redo_mark_for_regeneration"
   ],
   "note": ""
  },
  {
   "property": "C32",
   "status": "proved",
   "theorems": [
    "C32_counts",
    "C32_counts_are_available_steps",
    "C32_registering_clears_redo"
   ],
   "note": ""
  },
  {
   "property": "C33",
   "status": "proved",
   "theorems": [
    "C33_rollback_restores",
    "C33_commit_is_one_step",
    "C33_close_transaction",
    "C33_inner_levels_have_no_effect",
    "C33_end_without_transaction",
    "C33_undo_inside_transaction_refuted"
   ],
   "note": ""
  },
  {
   "property": "C34",
   "status": "proved",
   "theorems": [
    "C34_history_keeps_objects_alive",
    "C34_no_dangling_reference",
    "C34_clear_gives_references_back"
   ],
   "note": ""
  },
  {
   "property": "C35",
   "status": "proved",
   "theorems": [
    "C35_fields_of_constructed_date",
    "C35_timestamp_from_fields",
    "C35_constructor_total",
    "C35_constructor3"
   ],
   "note": ""
  },
  {
   "property": "C36",
   "status": "proved",
   "theorems": [
    "C36_fields_in_range",
    "C36_leap_years",
    "C36_every_timestamp_refuted"
   ],
   "note": ""
  },
  {
   "property": "C37",
   "status": "proved",
   "theorems": [
    "C37_week_day",
    "C37_week_day_before_1970_refuted"
   ],
   "note": ""
  },
  {
   "property": "C38",
   "status": "proved",
   "theorems": [
    "C38_toString_is_iso",
    "C38_text_order_is_time_order",
    "C38_comparisons_agree",
    "C38_total_order"
   ],
   "note": ""
  },
  {
   "property": "C39",
   "status": "proved",
   "theorems": [
    "C39_floor_division",
    "C39_excluded_cases"
   ],
   "note": ""
  },
  {
   "property": "C40",
   "status": "proved",
   "theorems": [
    "C40_powerOf2",
    "C40_ceilPowerOf2",
    "C40_ceilPowerOf2_zero",
    "C40_swap_distinct",
    "C40_swap_with_itself_refuted"
   ],
   "note": ""
  },
  {
   "property": "C41",
   "status": "proved",
   "theorems": [
    "C41_distance",
    "C41_symmetric",
    "C41_zero",
    "C41_triangle",
    "C41_asymmetric_refuted"
   ],
   "note": ""
  },
  {
   "property": "C42",
   "status": "proved",
   "theorems": [
    "C42_script"
   ],
   "note": ""
  },
  {
   "property": "C43",
   "status": "proved",
   "theorems": [
    "C43_objects",
    "C43_right_side",
    "C43_add_refuted",
    "C43_modified_refuted"
   ],
   "note": ""
  },
  {
   "property": "C44",
   "status": "proved",
   "theorems": [
    "C44_text_split",
    "C44_text_round_trip",
    "C44_all_text",
    "C44_apostrophe_refuted"
   ],
   "note": ""
  },
  {
   "property": "C45",
   "status": "proved",
   "theorems": [
    "C45_document",
    "C45_text",
    "C45_events_nested",
    "C45_prolog_refuted"
   ],
   "note": ""
  },
  {
   "property": "C46",
   "status": "proved",
   "theorems": [
    "C46_parse_back",
    "C46_attributes",
    "C46_exact_without_apostrophes",
    "C46_lookup",
    "C46_hand_written"
   ],
   "note": ""
  },
  {
   "property": "C47",
   "status": "proved",
   "theorems": [
    "C47_reads",
    "C47_all_bytes_once"
   ],
   "note": ""
  },
  {
   "property": "C48",
   "status": "proved",
   "theorems": [
    "C48_history",
    "C48_written",
    "C48_write_fits",
    "C48_write_overrun_refuted",
    "C48_negative_seek_refuted",
    "C48_seek_to_end_ignored"
   ],
   "note": ""
  },
  {
   "property": "C49",
   "status": "proved",
   "theorems": [
    "C49_from_list",
    "C49_from_buffer",
    "C49_from_cstring",
    "C49_from_size",
    "C49_copy",
    "C49_copy_null_refuted",
    "C49_history",
    "C49_unchecked",
    "C49_resize",
    "C49_regrow_refuted",
    "C49_resize_null",
    "C49_replace_range",
    "C49_replace_offset_refuted",
    "C49_equal"
   ],
   "note": ""
  },
  {
   "property": "C50",
   "status": "proved",
   "theorems": [
    "C50_history",
    "C50_checked",
    "C50_pointer_index",
    "C50_float_unchecked"
   ],
   "note": ""
  },
  {
   "property": "C51",
   "status": "proved",
   "theorems": [
    "C51_no_error",
    "C51_count",
    "C51_referenced_is_alive",
    "C51_deleted_once",
    "C51_deleted_by_last_release",
    "C51_unreferenced_is_being_deleted",
    "C51_no_leak",
    "C51_no_race",
    "C51_progress",
    "C51_setHighBit_refuted"
   ],
   "note": ""
  },
  {
   "property": "C52",
   "status": "proved",
   "theorems": [
    "C52_order",
    "C52_drain_is_complete",
    "C52_pool_contents",
    "C52_autorelease_in_destructor_refuted"
   ],
   "note": ""
  },
  {
   "property": "C53",
   "status": "proved",
   "theorems": [
    "C53_case_conversion",
    "C53_characters",
    "C53_idempotent",
    "C53_equalsIgnoreCase"
   ],
   "note": ""
  },
  {
   "property": "C54",
   "status": "proved",
   "theorems": [
    "C54_format",
    "C54_patterns",
    "C54_total",
    "C54_quote_after_field_refuted",
    "C54_odd_patterns_refuted"
   ],
   "note": ""
  },
  {
   "property": "C55",
   "status": "proved",
   "theorems": [
    "C55_decode_safe",
    "C55_decode_any_length_refuted"
   ],
   "note": ""
  },
  {
   "property": "C56",
   "status": "proved",
   "theorems": [
    "C56_random_in_range",
    "C56_random_whole_range_refuted"
   ],
   "note": ""
  },
  {
   "property": "C57",
   "status": "proved",
   "theorems": [
    "C57_mac_round_trip",
    "C57_raw_round_trip"
   ],
   "note": ""
  },
  {
   "property": "C58",
   "status": "proved",
   "theorems": [
    "C58_guess_boms",
    "C58_guess_utf8_needs_bom",
    "C58_guess_ascii_always"
   ],
   "note": ""
  },
  {
   "property": "C59",
   "status": "proved",
   "theorems": [
    "C59_substring",
    "C59_trim",
    "C59_reverse"
   ],
   "note": ""
  },
  {
   "property": "C60",
   "status": "proved",
   "theorems": [
    "C60_compareFancyTo",
    "C60_total_preorder",
    "C60_not_antisymmetric_refuted"
   ],
   "note": ""
  },
  {
   "property": "C61",
   "status": "proved",
   "theorems": [
    "C61_parser_total",
    "C61_texts_refuted"
   ],
   "note": ""
  },
  {
   "property": "C62",
   "status": "proved",
   "theorems": [
    "C62_written",
    "C62_read",
    "C62_round_trip",
    "C62_no_room"
   ],
   "note": ""
  },
  {
   "property": "C63",
   "status": "proved",
   "theorems": [
    "C63_raw",
    "C63_zlib",
    "C63_any_distance",
    "C63_far_match_refuted"
   ],
   "note": ""
  },
  {
   "property": "C64",
   "status": "proved",
   "theorems": [
    "C64_ends"
   ],
   "note": ""
  },
  {
   "property": "C65",
   "status": "proved",
   "theorems": [
    "C65_header",
    "C65_dynamic_distance",
    "C65_truncated_refuted",
    "C65_stored_length_refuted",
    "C65_block_type_refuted",
    "C65_before_start_refuted",
    "C65_distance_code_refuted",
    "C65_no_distance_code_refuted",
    "C65_crossing_run_refuted",
    "C65_default_constructor_refuted",
    "C65_evaluation_order_refuted"
   ],
   "note": ""
  },
  {
   "property": "C66",
   "status": "proved",
   "theorems": [
    "C66_archive",
    "C66_over_existing",
    "C66_existing_refuted",
    "C66_same_object_refuted",
    "C66_close_entry_first_refuted"
   ],
   "note": ""
  },
  {
   "property": "C67",
   "status": "proved",
   "theorems": [
    "C67_read",
    "C67_lookup",
    "C67_comment_refuted",
    "C67_empty_with_comment_refuted",
    "C67_is_directory_refuted",
    "C67_malformed_refuted"
   ],
   "note": ""
  },
  {
   "property": "C68",
   "status": "proved",
   "theorems": [
    "C68_round_trip"
   ],
   "note": ""
  },
  {
   "property": "C69",
   "status": "proved",
   "theorems": [
    "C69_crc32",
    "C69_burst_detected",
    "C69_not_checked_refuted"
   ],
   "note": ""
  },
  {
   "property": "C70",
   "status": "proved",
   "theorems": [
    "C70_history",
    "C70_destroy",
    "C70_values_alive",
    "C70_set_overrun_refuted"
   ],
   "note": ""
  },
  {
   "property": "C71",
   "status": "proved",
   "theorems": [
    "C71_round_trip",
    "C71_identity",
    "C71_grows_refuted",
    "C71_load_overrun_refuted"
   ],
   "note": ""
  },
  {
   "property": "C72",
   "status": "proved",
   "theorems": [
    "C72_set_then_value",
    "C72_int",
    "C72_bool"
   ],
   "note": ""
  },
  {
   "property": "C73",
   "status": "proved",
   "theorems": [
    "C73_translate",
    "C73_messages",
    "C73_line_break_refuted"
   ],
   "note": ""
  },
  {
   "property": "C74",
   "status": "proved",
   "theorems": [
    "C74_written",
    "C74_rejected",
    "C74_short_refuted",
    "C74_offsets_refuted"
   ],
   "note": ""
  },
  {
   "property": "C75",
   "status": "proved",
   "theorems": [
    "C75_canonical",
    "C75_same_place",
    "C75_shortest",
    "C75_equal_paths"
   ],
   "note": ""
  },
  {
   "property": "C76",
   "status": "proved",
   "theorems": [
    "C76_two_names",
    "C76_below_file",
    "C76_empty_child",
    "C76_name_parent",
    "C76_root",
    "C76_reassemble",
    "C76_relative_refuted",
    "C76_separator_child_refuted"
   ],
   "note": ""
  },
  {
   "property": "C77",
   "status": "proved",
   "theorems": [
    "C77_extension",
    "C77_no_dot",
    "C77_directory_dot_refuted",
    "C77_hidden"
   ],
   "note": ""
  },
  {
   "property": "C78",
   "status": "proved",
   "theorems": [
    "C78_read_fully"
   ],
   "note": ""
  },
  {
   "property": "C79",
   "status": "proved",
   "theorems": [
    "C79_history",
    "C79_stored",
    "C79_comma_refuted",
    "C79_long_refuted"
   ],
   "note": ""
  },
  {
   "property": "C80",
   "status": "proved",
   "theorems": [
    "C80_to_rgb",
    "C80_is_white",
    "C80_grey_cmyk_rgb",
    "C80_rgb_to_cmyk",
    "C80_black_refuted",
    "C80_back_refuted",
    "C80_greyscale_refuted"
   ],
   "note": ""
  },
  {
   "property": "C81",
   "status": "proved",
   "theorems": [
    "C81_hsv",
    "C81_grey"
   ],
   "note": ""
  },
  {
   "property": "C82",
   "status": "proved",
   "theorems": [
    "C82_opaque",
    "C82_over_opaque",
    "C82_hides",
    "C82_alpha",
    "C82_transparent_refuted",
    "C82_modes_refuted"
   ],
   "note": ""
  },
  {
   "property": "C83",
   "status": "proved",
   "theorems": [
    "C83_interpolate",
    "C83_ends",
    "C83_beyond_refuted"
   ],
   "note": ""
  },
  {
   "property": "C84",
   "status": "proved",
   "theorems": [
    "C84_equal",
    "C84_equivalence",
    "C84_add_sub",
    "C84_add_comm",
    "C84_sum_refuted"
   ],
   "note": ""
  },
  {
   "property": "C85",
   "status": "proved",
   "theorems": [
    "C85_from_hsv",
    "C85_round_trip",
    "C85_exact_refuted",
    "C85_angle_refuted"
   ],
   "note": ""
  },
  {
   "property": "C86",
   "status": "proved",
   "theorems": [
    "C86_defined",
    "C86_polling",
    "C86_exclusion",
    "C86_relock"
   ],
   "note": ""
  },
  {
   "property": "C87",
   "status": "proved",
   "theorems": [
    "C87_interrupted",
    "C87_true",
    "C87_ended_refuted"
   ],
   "note": ""
  },
  {
   "property": "C88",
   "status": "proved",
   "theorems": [
    "C88_interrupt_waits"
   ],
   "note": ""
  },
  {
   "property": "C89",
   "status": "proved",
   "theorems": [
    "C89_ends",
    "C89_early_refuted",
    "C89_sleep_refuted"
   ],
   "note": ""
  },
  {
   "property": "C90",
   "status": "proved",
   "theorems": [
    "C90_wakes",
    "C90_early_refuted"
   ],
   "note": ""
  },
  {
   "property": "C91",
   "status": "proved",
   "theorems": [
    "C91_deadline",
    "C91_long_refuted",
    "C91_negative"
   ],
   "note": ""
  },
  {
   "property": "C92",
   "status": "proved",
   "theorems": [
    "C92_equal",
    "C92_symmetric",
    "C92_consistent",
    "C92_order",
    "C92_large_refuted",
    "C92_transitive_refuted",
    "C92_infinite_refuted"
   ],
   "note": ""
  },
  {
   "property": "C93",
   "status": "proved",
   "theorems": [
    "C93_round",
    "C93_half_refuted",
    "C93_integer_refuted",
    "C93_large",
    "C93_undefined",
    "C93_fraction",
    "C93_fraction_refuted"
   ],
   "note": ""
  },
  {
   "property": "C94",
   "status": "proved",
   "theorems": [
    "C94_begin",
    "C94_monotone",
    "C94_end",
    "C94_grid",
    "C94_end_refuted",
    "C94_overflow_refuted",
    "C94_position",
    "C94_position_refuted"
   ],
   "note": ""
  },
  {
   "property": "C95",
   "status": "proved",
   "theorems": [
    "C95_swap",
    "C95_self_refuted",
    "C95_random",
    "C95_range_refuted",
    "C95_certain",
    "C95_never_refuted",
    "C95_epsilon"
   ],
   "note": ""
  },
  {
   "property": "C96",
   "status": "proved",
   "theorems": [
    "C96_edges",
    "C96_set",
    "C96_shift",
    "C96_move",
    "C96_align",
    "C96_normalize",
    "C96_center",
    "C96_contains",
    "C96_set_refuted"
   ],
   "note": ""
  },
  {
   "property": "C97",
   "status": "proved",
   "theorems": [
    "C97_union",
    "C97_union_contains",
    "C97_intersect",
    "C97_intersection",
    "C97_intersects",
    "C97_common",
    "C97_disjoint_refuted",
    "C97_empty_refuted",
    "C97_union_refuted"
   ],
   "note": ""
  },
  {
   "property": "C98",
   "status": "proved",
   "theorems": [
    "C98_extents",
    "C98_empty",
    "C98_merge",
    "C98_nan",
    "C98_valid_refuted",
    "C98_flat_refuted"
   ],
   "note": ""
  },
  {
   "property": "C99",
   "status": "proved",
   "theorems": [
    "C99_fixed",
    "C99_cut",
    "C99_exact",
    "C99_integer",
    "C99_arg",
    "C99_arg_int",
    "C99_arg_none"
   ],
   "note": ""
  },
  {
   "property": "C100",
   "status": "proved",
   "theorems": [
    "C100_precision0_refuted",
    "C100_sign_refuted",
    "C100_minus_zero_refuted",
    "C100_range_refuted",
    "C100_digits_refuted",
    "C100_unsigned_refuted",
    "C100_unsigned_ok"
   ],
   "note": ""
  },
  {
   "property": "C101",
   "status": "proved",
   "theorems": [
    "C101_new",
    "C101_set",
    "C101_add",
    "C101_zeros",
    "C101_copy",
    "C101_transpose",
    "C101_transpose_twice",
    "C101_insert",
    "C101_diag",
    "C101_alias_refuted",
    "C101_range_refuted",
    "C101_large_refuted"
   ],
   "note": ""
  },
  {
   "property": "C102",
   "status": "proved",
   "theorems": [
    "C102_product",
    "C102_mismatch",
    "C102_vector",
    "C102_exact",
    "C102_identity",
    "C102_assoc",
    "C102_assoc_refuted"
   ],
   "note": ""
  },
  {
   "property": "C103",
   "status": "proved",
   "theorems": [
    "C103_square",
    "C103_multiples",
    "C103_shape_refuted",
    "C103_ub_refuted"
   ],
   "note": ""
  },
  {
   "property": "C104",
   "status": "proved",
   "theorems": [
    "C104_det",
    "C104_none",
    "C104_transpose",
    "C104_product"
   ],
   "note": ""
  },
  {
   "property": "C105",
   "status": "proved",
   "theorems": [
    "C105_exact",
    "C105_near",
    "C105_inverse",
    "C105_singular_refuted"
   ],
   "note": ""
  },
  {
   "property": "C106",
   "status": "proved",
   "theorems": [
    "C106_moving",
    "C106_scaling",
    "C106_scalingAt",
    "C106_mirroring",
    "C106_rotationZ",
    "C106_rotation",
    "C106_identity",
    "C106_compose",
    "C106_columns",
    "C106_rows_refuted"
   ],
   "note": ""
  },
  {
   "property": "C107",
   "status": "proved",
   "theorems": [
    "C107_norm1",
    "C107_normInf",
    "C107_transpose",
    "C107_trace",
    "C107_trace_exact",
    "C107_count"
   ],
   "note": ""
  },
  {
   "property": "C108",
   "status": "proved",
   "theorems": [
    "C108_dot",
    "C108_dot_refuted",
    "C108_dot_exact",
    "C108_sum",
    "C108_mismatch",
    "C108_scale",
    "C108_length_exact",
    "C108_length",
    "C108_normalize",
    "C108_zero_refuted"
   ],
   "note": ""
  },
  {
   "property": "C109",
   "status": "proved",
   "theorems": [
    "C109_products2",
    "C109_side",
    "C109_collinear2",
    "C109_collinear_refuted",
    "C109_products3",
    "C109_perpendicular",
    "C109_collinear3",
    "C109_length_exact",
    "C109_length3_exact",
    "C109_length",
    "C109_length3",
    "C109_normalized",
    "C109_normalized3",
    "C109_normalized_refuted",
    "C109_equal",
    "C109_equal3",
    "C109_equal_near",
    "C109_biggest",
    "C109_biggest_refuted",
    "C109_independent"
   ],
   "note": ""
  },
  {
   "property": "C110",
   "status": "proved",
   "theorems": [
    "C110_solve",
    "C110_lines"
   ],
   "note": ""
  },
  {
   "property": "C111",
   "status": "proved",
   "theorems": [
    "C111_crosses",
    "C111_overlap_refuted",
    "C111_small_refuted",
    "C111_large_refuted"
   ],
   "note": ""
  },
  {
   "property": "C112",
   "status": "proved",
   "theorems": [
    "C112_plane",
    "C112_closest",
    "C112_on_line",
    "C112_on_segment",
    "C112_same",
    "C112_on_plane_refuted"
   ],
   "note": ""
  },
  {
   "property": "C113",
   "status": "proved",
   "theorems": [
    "C113_circle",
    "C113_collinear_refuted"
   ],
   "note": ""
  },
  {
   "property": "C114",
   "status": "proved",
   "theorems": [
    "C114_angle",
    "C114_negative_refuted",
    "C114_huge_refuted",
    "C114_ellipse_refuted",
    "C114_axis_refuted"
   ],
   "note": ""
  },
  {
   "property": "C115",
   "status": "proved",
   "theorems": [
    "C115_curve",
    "C115_hull",
    "C115_local",
    "C115_start"
   ],
   "note": ""
  },
  {
   "property": "C116",
   "status": "proved",
   "theorems": [
    "C116_constructor",
    "C116_safe",
    "C116_sizes_refuted",
    "C116_outside",
    "C116_end_refuted"
   ],
   "note": ""
  },
  {
   "property": "C117",
   "status": "proved",
   "theorems": [
    "C117_integer",
    "C117_double",
    "C117_unit",
    "C117_bool",
    "C117_text",
    "C117_separate",
    "C117_type",
    "C117_about",
    "C117_copy",
    "C117_pun_refuted",
    "C117_byte_refuted"
   ],
   "note": ""
  },
  {
   "property": "C118",
   "status": "proved",
   "theorems": [
    "C118_value_equals",
    "C118_value_equivalence",
    "C118_bits_refuted",
    "C118_place",
    "C118_text",
    "C118_number",
    "C118_bool",
    "C118_unit",
    "C118_equivalence",
    "C118_editor_refuted",
    "C118_infinite_refuted",
    "C118_symmetric_refuted",
    "C118_transitive_refuted",
    "C118_bool_refuted"
   ],
   "note": ""
  },
  {
   "property": "C119",
   "status": "proved",
   "theorems": [
    "C119_number",
    "C119_string",
    "C119_copy",
    "C119_int32",
    "C119_stale_refuted",
    "C119_string_refuted"
   ],
   "note": ""
  },
  {
   "property": "C120",
   "status": "proved",
   "theorems": [
    "C120_complete",
    "C120_truncated_refuted",
    "C120_totals",
    "C120_long_refuted",
    "C120_input_refuted",
    "C120_reset",
    "C120_lossy_refuted"
   ],
   "note": ""
  },
  {
   "property": "C121",
   "status": "proved",
   "theorems": [
    "C121_exact",
    "C121_range",
    "C121_range_refuted",
    "C121_double",
    "C121_nan",
    "C121_never_nan",
    "C121_vertex",
    "C121_small_refuted",
    "C121_vertex_nan_refuted"
   ],
   "note": ""
  },
  {
   "property": "C122",
   "status": "proved",
   "theorems": [
    "C122_index",
    "C122_name",
    "C122_assign",
    "C122_int",
    "C122_missing",
    "C122_bool",
    "C122_copy_refuted"
   ],
   "note": ""
  },
  {
   "property": "C123",
   "status": "proved",
   "theorems": [
    "C123_frame",
    "C123_coordinates",
    "C123_roundtrip",
    "C123_world",
    "C123_below",
    "C123_length_refuted",
    "C123_null_refuted"
   ],
   "note": ""
  },
  {
   "property": "C124",
   "status": "proved",
   "theorems": [
    "C124_whole_calls",
    "C124_defined",
    "C124_progress",
    "C124_race_free",
    "C124_last_error_race_refuted",
    "C124_before_init_refuted",
    "C124_exception_before_init_refuted"
   ],
   "note": ""
  },
  {
   "property": "C125",
   "status": "proved",
   "theorems": [
    "C125_execute",
    "C125_success",
    "C125_no_such_test_refuted",
    "C125_negative_refuted",
    "C125_infinite_refuted",
    "C125_foreign_exception_refuted"
   ],
   "note": ""
  },
  {
   "property": "C126",
   "status": "proved",
   "theorems": [
    "C126_alive",
    "C126_safe",
    "C126_deleted_with_last_reference",
    "C126_assignment_leaks_refuted",
    "C126_search_leaks_refuted",
    "C126_not_found_refuted"
   ],
   "note": ""
  },
  {
   "property": "C127",
   "status": "proved",
   "theorems": [
    "C127_same_history",
    "C127_unchanged_is_saved",
    "C127_open_step_refuted",
    "C127_switch_off",
    "C127_open_transaction_leaks_refuted",
    "C127_manager_lifetime",
    "C127_kept_manager_refuted",
    "C127_detached_manager_refuted",
    "C127_unmanaged_edits"
   ],
   "note": ""
  },
  {
   "property": "C128",
   "status": "proved",
   "theorems": [
    "C128_make_directory",
    "C128_remove",
    "C128_rename",
    "C128_create",
    "C128_create_keeps_refuted",
    "C128_kinds",
    "C128_kinds_refuted",
    "C128_exists",
    "C128_exists_link_refuted",
    "C128_list",
    "C128_list_race_refuted",
    "C128_modified_within_second",
    "C128_modified_refuted",
    "C128_compare",
    "C128_wellformed",
    "C128_open_directory_refuted"
   ],
   "note": ""
  },
  {
   "property": "C129",
   "status": "proved",
   "theorems": [
    "C129_open",
    "C129_open_missing",
    "C129_open_no_directory",
    "C129_step",
    "C129_history",
    "C129_one_way_defined",
    "C129_seek_first_defined",
    "C129_switch_refuted",
    "C129_close",
    "C129_round_trip",
    "C129_unopened_refuted",
    "C129_copies_refuted",
    "C129_close_error_refuted",
    "C129_leak_refuted"
   ],
   "note": ""
  },
  {
   "property": "C130",
   "status": "proved",
   "theorems": [
    "C130_classes",
    "C130_digits",
    "C130_case",
    "C130_case_refuted",
    "C130_unicode_refuted"
   ],
   "note": ""
  },
  {
   "property": "C131",
   "status": "proved",
   "theorems": [
    "C131_min_max",
    "C131_nan_refuted",
    "C131_grid",
    "C131_times",
    "C131_absorbed_refuted",
    "C131_size_equal",
    "C131_size_consistent",
    "C131_size_equal_refuted"
   ],
   "note": ""
  },
  {
   "property": "C132",
   "status": "proved",
   "theorems": [
    "C132_signed",
    "C132_int32",
    "C132_overflow_refuted",
    "C132_unsigned",
    "C132_unsigned_delta_refuted",
    "C132_readable",
    "C132_text",
    "C132_text_silent",
    "C132_text_refuted",
    "C132_double",
    "C132_double_tolerance",
    "C132_vertices",
    "C132_report",
    "C132_lines",
    "C132_entry",
    "C132_added_refuted"
   ],
   "note": ""
  },
  {
   "property": "C133",
   "status": "proved",
   "theorems": [
    "C133_sessions",
    "C133_next_session",
    "C133_init_twice_refuted",
    "C133_after_quit_refuted",
    "C133_torn_save",
    "C133_torn_save_refuted",
    "C133_crash_after_open_refuted"
   ],
   "note": ""
  },
  {
   "property": "C134",
   "status": "proved",
   "theorems": [
    "C134_alive_while_referenced",
    "C134_quit_frees_everything",
    "C134_early_object_refuted",
    "C134_late_release_refuted",
    "C134_deleted_entry_refuted"
   ],
   "note": ""
  },
  {
   "property": "C135",
   "status": "proved",
   "theorems": [
    "C135_progress",
    "C135_totals",
    "C135_reset",
    "C135_chain",
    "C135_reuse_refuted",
    "C135_reuse_bit_refuted",
    "C135_freed_buffer",
    "C135_freed_buffer_reset",
    "C135_freed_buffer_refuted",
    "C135_last_byte_refuted",
    "C135_uninitialised_refuted"
   ],
   "note": ""
  },
  {
   "property": "C136",
   "status": "proved",
   "theorems": [
    "C136_search",
    "C136_language",
    "C136_user_language",
    "C136_minus",
    "C136_no_bundle",
    "C136_mixed_locales_refuted",
    "C136_bundle_refuted",
    "C136_modifier_refuted"
   ],
   "note": ""
  },
  {
   "property": "C137",
   "status": "proved",
   "theorems": [
    "C137_for_name",
    "C137_guess_known",
    "C137_round_trip",
    "C137_guess_reads",
    "C137_guess_utf16",
    "C137_spelling_refuted",
    "C137_after_quit_refuted",
    "C137_raw_high_refuted",
    "C137_utf16be_refuted",
    "C137_utf16le_refuted",
    "C137_guess_utf8_refuted"
   ],
   "note": ""
  },
  {
   "property": "C138",
   "status": "proved",
   "theorems": [
    "C138_trace",
    "C138_print",
    "C138_depth",
    "C138_ascii",
    "C138_path_not_utf8_refuted"
   ],
   "note": ""
  },
  {
   "property": "C139",
   "status": "proved",
   "theorems": [
    "C139_two",
    "C139_complex_refuted",
    "C139_diagonal",
    "C139_one",
    "C139_throws",
    "C139_total",
    "C139_three"
   ],
   "note": ""
  },
  {
   "property": "C140",
   "status": "proved",
   "theorems": [
    "C140_trans",
    "C140_roundtrip",
    "C140_places"
   ],
   "note": ""
  },
  {
   "property": "C141",
   "status": "proved",
   "theorems": [
    "C141_degToRad",
    "C141_radToDeg",
    "C141_roundtrip",
    "C141_order",
    "C141_marks",
    "C141_refuted"
   ],
   "note": ""
  },
  {
   "property": "C142",
   "status": "proved",
   "theorems": [
    "C142_check",
    "C142_miss",
    "C142_hit",
    "C142_hang_refuted"
   ],
   "note": ""
  }
 ]
}