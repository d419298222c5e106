{
 "claims": [
  {
   "property": "C01",
   "status": "proved",
   "theorems": [
    "C01_base64_roundtrip",
    "C01_base64_roundtrip_unbounded_refuted"
   ],
   "note": "in theories/Base64Props.v; the _refuted theorems give witnesses where the unrestricted claim fails"
  },
  {
   "property": "C02",
   "status": "proved",
   "theorems": [
    "C02_base64_is_rfc4648",
    "C02_base64_long_input_truncated"
   ],
   "note": "in theories/Base64Props.v"
  },
  {
   "property": "C03",
   "status": "proved",
   "theorems": [
    "C03_base64_decode_stops",
    "C03_base64_decode_total"
   ],
   "note": "in theories/Base64Props.v"
  },
  {
   "property": "C04",
   "status": "proved",
   "theorems": [
    "C04_md5_chunking",
    "C04_md5_chunk_boundary"
   ],
   "note": "in theories/MD5Props.v"
  },
  {
   "property": "C05",
   "status": "proved",
   "theorems": [
    "C05_md5_rfc1321",
    "C05_md5_constants"
   ],
   "note": "in theories/MD5Props.v"
  },
  {
   "property": "C06",
   "status": "proved",
   "theorems": [
    "C06_md5_hex",
    "C06_md5_text_length"
   ],
   "note": "in theories/MD5Props.v"
  },
  {
   "property": "C07",
   "status": "proved",
   "theorems": [
    "C07_tostr_exact",
    "C07_decimal_unique"
   ],
   "note": "in theories/IntToStrProps.v"
  },
  {
   "property": "C08",
   "status": "proved",
   "theorems": [
    "C08_tostr_safe_refuted"
   ],
   "note": "in theories/IntToStrProps.v; the _refuted theorems give witnesses where the unrestricted claim fails"
  },
  {
   "property": "C09",
   "status": "proved",
   "theorems": [
    "C09_obfuscated_like_plain",
    "C09_operators",
    "C09_obfuscated_large_value_refuted"
   ],
   "note": "in theories/ObfProps.v; the _refuted theorems give witnesses where the unrestricted claim fails"
  },
  {
   "property": "C10",
   "status": "proved",
   "theorems": [
    "C10_levenshtein_minimal"
   ],
   "note": "in theories/LevProps.v"
  },
  {
   "property": "C11",
   "status": "proved",
   "theorems": [
    "C11_levenshtein_metric"
   ],
   "note": "in theories/LevProps.v"
  },
  {
   "property": "C12",
   "status": "proved",
   "theorems": [
    "C12_replace_first"
   ],
   "note": "in theories/StrProps.v"
  },
  {
   "property": "C13",
   "status": "proved",
   "theorems": [
    "C13_replaceAll_removes",
    "C13_replaceAll_shorter_returns",
    "C13_replaceAll_char",
    "C13_replaceAll_standard"
   ],
   "note": "in theories/StrProps.v"
  },
  {
   "property": "C14",
   "status": "proved",
   "theorems": [
    "C14_replaceAll_diverges"
   ],
   "note": "in theories/StrProps.v"
  },
  {
   "property": "C15",
   "status": "proved",
   "theorems": [
    "C15_split",
    "C15_split_empty_separator_diverges"
   ],
   "note": "in theories/StrProps.v"
  },
  {
   "property": "C16",
   "status": "proved",
   "theorems": [
    "C16_split_many"
   ],
   "note": "in theories/StrProps.v"
  },
  {
   "property": "C17",
   "status": "proved",
   "theorems": [
    "C17_split_trailing"
   ],
   "note": "in theories/StrProps.v"
  },
  {
   "property": "C18",
   "status": "proved",
   "theorems": [
    "C18_tokenize_leading_throws",
    "C18_tokenize_shifted_refuted"
   ],
   "note": "in theories/StrProps.v; the _refuted theorems give witnesses where the unrestricted claim fails"
  },
  {
   "property": "C19",
   "status": "proved",
   "theorems": [
    "C19_beginsWith",
    "C19_beginsWith_char",
    "C19_endsWith",
    "C19_endsWith_char"
   ],
   "note": "in theories/StrProps.v"
  },
  {
   "property": "C20",
   "status": "proved",
   "theorems": [
    "C20_trimL",
    "C20_trimR",
    "C20_trimLR",
    "C20_trim_idempotent"
   ],
   "note": "in theories/ContProps.v"
  },
  {
   "property": "C21",
   "status": "proved",
   "theorems": [
    "C21_idxOf",
    "C21_contains",
    "C21_containsAnyOf",
    "C21_containsAllOf",
    "C21_containsAnyIf",
    "C21_eraseRemoveIf",
    "C21_eraseRemove",
    "C21_getKeys"
   ],
   "note": "in theories/ContProps.v"
  },
  {
   "property": "C22",
   "status": "proved",
   "theorems": [
    "C22_getMod_signed",
    "C22_getMod_unsigned",
    "C22_getMod_range"
   ],
   "note": "in theories/MathProps.v"
  },
  {
   "property": "C23",
   "status": "proved",
   "theorems": [
    "C23_getByModIdx"
   ],
   "note": "in theories/MathProps.v"
  },
  {
   "property": "C24",
   "status": "proved",
   "theorems": [
    "C24_index_roundtrip",
    "C24_coordinates_roundtrip",
    "C24_origin_excluded_refuted"
   ],
   "note": "in theories/MathProps.v; the _refuted theorems give witnesses where the unrestricted claim fails"
  },
  {
   "property": "C25",
   "status": "proved",
   "theorems": [
    "C25_index3D_value",
    "C25_index3D_injective",
    "C25_index3D_inverse_refuted"
   ],
   "note": "in theories/MathProps.v; the _refuted theorems give witnesses where the unrestricted claim fails"
  },
  {
   "property": "C26",
   "status": "proved",
   "theorems": [
    "C26_clamp",
    "C26_clamp_mixed_sign_refuted",
    "C26_one_sided",
    "C26_sign"
   ],
   "note": "in theories/MathProps.v; the _refuted theorems give witnesses where the unrestricted claim fails"
  },
  {
   "property": "C27",
   "status": "proved",
   "theorems": [
    "C27_cycled",
    "C27_cycled_unique",
    "C27_wrap",
    "C27_angle_distance_minimal",
    "C27_angle_distance_range",
    "C27_angle_distance_symmetric",
    "C27_angle_distance_zero",
    "C27_rotate",
    "C27_radians",
    "C27_wrap_float_refuted"
   ],
   "note": "in theories/MathProps.v; the _refuted theorems give witnesses where the unrestricted claim fails"
  },
  {
   "property": "C28",
   "status": "proved",
   "theorems": [
    "C28_vecmap",
    "C28_vecmap_equality",
    "C28_vecmap_bracket"
   ],
   "note": "in theories/VecProps.v"
  },
  {
   "property": "C29",
   "status": "proved",
   "theorems": [
    "C29_init_distinct",
    "C29_init_keeps_duplicates",
    "C29_init_duplicates_refuted"
   ],
   "note": "in theories/VecProps.v; the _refuted theorems give witnesses where the unrestricted claim fails"
  },
  {
   "property": "C30",
   "status": "proved",
   "theorems": [
    "C30_vecsorted",
    "C30_vecsorted_insert"
   ],
   "note": "in theories/VecProps.v"
  },
  {
   "property": "C31",
   "status": "proved",
   "theorems": [
    "C31_bimap"
   ],
   "note": "in theories/BimapProps.v"
  },
  {
   "property": "C32",
   "status": "proved",
   "theorems": [
    "C32_bracket",
    "C32_bracket_collision_refuted",
    "C32_reference_assignment_refuted"
   ],
   "note": "in theories/BimapProps.v; the _refuted theorems give witnesses where the unrestricted claim fails"
  },
  {
   "property": "C33",
   "status": "proved",
   "theorems": [
    "C33_grow",
    "C33_grow_smaller",
    "C33_grow_huge_refuted"
   ],
   "note": "in theories/MemProps.v; the _refuted theorems give witnesses where the unrestricted claim fails"
  },
  {
   "property": "C34",
   "status": "proved",
   "theorems": [
    "C34_refresh"
   ],
   "note": "in theories/MemProps.v"
  },
  {
   "property": "C35",
   "status": "proved",
   "theorems": [
    "C35_manager"
   ],
   "note": "in theories/MemProps.v"
  },
  {
   "property": "C36",
   "status": "proved",
   "theorems": [
    "C36_recycler",
    "C36_recycler_peak",
    "C36_throwing_constructor_refuted"
   ],
   "note": "in theories/MemProps.v; the _refuted theorems give witnesses where the unrestricted claim fails"
  },
  {
   "property": "C37",
   "status": "proved",
   "theorems": [
    "C37_block_sizes",
    "C37_overaligned_refuted"
   ],
   "note": "in theories/MemProps.v; the _refuted theorems give witnesses where the unrestricted claim fails"
  },
  {
   "property": "C38",
   "status": "proved",
   "theorems": [
    "C38_flag_lookup",
    "C38_overaligned_refuted"
   ],
   "note": "in theories/MemProps.v; the _refuted theorems give witnesses where the unrestricted claim fails"
  },
  {
   "property": "C39",
   "status": "proved",
   "theorems": [
    "C39_tick_times",
    "C39_constant_rate",
    "C39_one_shot",
    "C39_total",
    "C39_float",
    "C39_exact"
   ],
   "note": "in theories/TickerProps.v"
  },
  {
   "property": "C40",
   "status": "proved",
   "theorems": [
    "C40_stop",
    "C40_pause_resume",
    "C40_restart",
    "C40_paused_update",
    "C40_paused_silent_refuted",
    "C40_stopped_zero_target_refuted"
   ],
   "note": "in theories/TickerProps.v; the _refuted theorems give witnesses where the unrestricted claim fails"
  },
  {
   "property": "C41",
   "status": "proved",
   "theorems": [
    "C41_order",
    "C41_reset",
    "C41_history",
    "C41_wait",
    "C41_action_reset_refuted",
    "C41_action_jump_refuted"
   ],
   "note": "in theories/TimelineProps.v; the _refuted theorems give witnesses where the unrestricted claim fails"
  },
  {
   "property": "C42",
   "status": "proved",
   "theorems": [
    "C42_overshoot_lost",
    "C42_carry_refuted"
   ],
   "note": "in theories/TimelineProps.v; the _refuted theorems give witnesses where the unrestricted claim fails"
  },
  {
   "property": "C43",
   "status": "proved",
   "theorems": [
    "C43_loop",
    "C43_loop_reset",
    "C43_unroll",
    "C43_nested_refuted"
   ],
   "note": "in theories/TimelineProps.v; the _refuted theorems give witnesses where the unrestricted claim fails"
  },
  {
   "property": "C44",
   "status": "proved",
   "theorems": [
    "C44_index_valid",
    "C44_out_of_range_refuted",
    "C44_insert_before_refuted"
   ],
   "note": "in theories/TimelineProps.v; the _refuted theorems give witnesses where the unrestricted claim fails"
  },
  {
   "property": "C45",
   "status": "proved",
   "theorems": [
    "C45_manager",
    "C45_restarted_refuted",
    "C45_dangling_refuted"
   ],
   "note": "in theories/TimelineMgrProps.v; the _refuted theorems give witnesses where the unrestricted claim fails"
  },
  {
   "property": "C46",
   "status": "proved",
   "theorems": [
    "C46_dispatch"
   ],
   "note": "in theories/CmdProps.v"
  },
  {
   "property": "C47",
   "status": "proved",
   "theorems": [
    "C47_distribution",
    "C47_failure",
    "C47_optional",
    "C47_early",
    "C47_negative_refuted",
    "C47_bad_integer_refuted"
   ],
   "note": "in theories/CmdProps.v; the _refuted theorems give witnesses where the unrestricted claim fails"
  },
  {
   "property": "C48",
   "status": "proved",
   "theorems": [
    "C48_flags",
    "C48_unknown",
    "C48_repeat_refuted"
   ],
   "note": "in theories/CmdProps.v; the _refuted theorems give witnesses where the unrestricted claim fails"
  },
  {
   "property": "C49",
   "status": "proved",
   "theorems": [
    "C49_by_position",
    "C49_named_refuted",
    "C49_unknown_refuted"
   ],
   "note": "in theories/CmdProps.v; the _refuted theorems give witnesses where the unrestricted claim fails"
  },
  {
   "property": "C50",
   "status": "proved",
   "theorems": [
    "C50_atomic_refuted",
    "C50_packs_refuted",
    "C50_failed_call"
   ],
   "note": "in theories/CmdProps.v; the _refuted theorems give witnesses where the unrestricted claim fails"
  },
  {
   "property": "C51",
   "status": "proved",
   "theorems": [
    "C51_round_trip"
   ],
   "note": "in theories/JsonProps.v"
  },
  {
   "property": "C52",
   "status": "proved",
   "theorems": [
    "C52_unescaped_refuted",
    "C52_confusion_refuted",
    "C52_failures_refuted"
   ],
   "note": "in theories/JsonProps.v; the _refuted theorems give witnesses where the unrestricted claim fails"
  },
  {
   "property": "C53",
   "status": "proved",
   "theorems": [
    "C53_blanks_and_comments",
    "C53_leftovers_refuted"
   ],
   "note": "in theories/JsonProps.v; the _refuted theorems give witnesses where the unrestricted claim fails"
  },
  {
   "property": "C54",
   "status": "proved",
   "theorems": [
    "C54_leading_blanks_refuted"
   ],
   "note": "in theories/JsonProps.v; the _refuted theorems give witnesses where the unrestricted claim fails"
  },
  {
   "property": "C55",
   "status": "proved",
   "theorems": [
    "C55_purge",
    "C55_safe",
    "C55_terminates",
    "C55_refuted"
   ],
   "note": "in theories/JsonProps.v; the _refuted theorems give witnesses where the unrestricted claim fails"
  },
  {
   "property": "C56",
   "status": "proved",
   "theorems": [
    "C56_refuted",
    "C56_same_representation",
    "C56_integers"
   ],
   "note": "in theories/JsonProps.v; the _refuted theorems give witnesses where the unrestricted claim fails"
  },
  {
   "property": "C57",
   "status": "proved",
   "theorems": [
    "C57_round_trip",
    "C57_target_replaced",
    "C57_maps_merge",
    "C57_map_target_refuted",
    "C57_map_check_refuted",
    "C57_arrays",
    "C57_literal_check_refuted",
    "C57_short_literal_refuted",
    "C57_check",
    "C57_check_strict"
   ],
   "note": "in theories/JsonCnvProps.v; the _refuted theorems give witnesses where the unrestricted claim fails"
  },
  {
   "property": "C58",
   "status": "proved",
   "theorems": [
    "C58_histories",
    "C58_no_leak",
    "C58_copy",
    "C58_move",
    "C58_set",
    "C58_set_via_null",
    "C58_set_via_refuted",
    "C58_self_refuted"
   ],
   "note": "in theories/JsonSlotProps.v; the _refuted theorems give witnesses where the unrestricted claim fails"
  },
  {
   "property": "C59",
   "status": "proved",
   "theorems": [
    "C59_last_wins",
    "C59_order_irrelevant"
   ],
   "note": "in theories/JsonProps.v"
  },
  {
   "property": "C60",
   "status": "proved",
   "theorems": [
    "C60_success",
    "C60_result",
    "C60_hidden_failure_refuted"
   ],
   "note": "in theories/JsonProps.v; the _refuted theorems give witnesses where the unrestricted claim fails"
  },
  {
   "property": "C61",
   "status": "proved",
   "theorems": [
    "C61_erase",
    "C61_maintain",
    "C61_set_key",
    "C61_add_sections",
    "C61_only_contents_refuted",
    "C61_nested_text_refuted",
    "C61_final_escape_refuted",
    "C61_end_prefix_refuted"
   ],
   "note": "in theories/TplProps.v; the _refuted theorems give witnesses where the unrestricted claim fails"
  },
  {
   "property": "C62",
   "status": "proved",
   "theorems": [
    "C62_diverges",
    "C62_only_by_passes",
    "C62_terminates"
   ],
   "note": "in theories/TplProps.v"
  },
  {
   "property": "C63",
   "status": "proved",
   "theorems": [
    "C63_normalise",
    "C63_determined",
    "C63_idempotent",
    "C63_append",
    "C63_append_seen",
    "C63_exists",
    "C63_observation_refuted"
   ],
   "note": "in theories/PathProps.v; the _refuted theorems give witnesses where the unrestricted claim fails"
  },
  {
   "property": "C64",
   "status": "proved",
   "theorems": [
    "C64_split",
    "C64_file_name",
    "C64_parent",
    "C64_parent_none",
    "C64_extension",
    "C64_extension_none",
    "C64_all_extensions",
    "C64_all_extensions_none",
    "C64_stem",
    "C64_stem_nodot",
    "C64_folder_name",
    "C64_folder_name_file",
    "C64_has_extension"
   ],
   "note": "in theories/PathProps.v"
  },
  {
   "property": "C65",
   "status": "proved",
   "theorems": [
    "C65_relative_folder_refuted",
    "C65_out_of_bounds_refuted",
    "C65_parent_refuted",
    "C65_stem_refuted",
    "C65_equality_refuted"
   ],
   "note": "in theories/PathProps.v; the _refuted theorems give witnesses where the unrestricted claim fails"
  },
  {
   "property": "C66",
   "status": "proved",
   "theorems": [
    "C66_scan",
    "C66_missing"
   ],
   "note": "in theories/PathProps.v"
  },
  {
   "property": "C67",
   "status": "proved",
   "theorems": [
    "C67_prefix_refuted",
    "C67_endless_refuted"
   ],
   "note": "in theories/PathProps.v; the _refuted theorems give witnesses where the unrestricted claim fails"
  },
  {
   "property": "C68",
   "status": "proved",
   "theorems": [
    "C68_in",
    "C68_out",
    "C68_inOut",
    "C68_zero_duration",
    "C68_ends",
    "C68_reflection",
    "C68_inOut_reflection",
    "C68_steady",
    "C68_bounce_inside",
    "C68_bounce_no_jump",
    "C68_back_undershoots",
    "C68_cubic_inOut",
    "C68_cubic_inOut_refuted",
    "C68_order_refuted"
   ],
   "note": "in theories/EaseProps.v; the _refuted theorems give witnesses where the unrestricted claim fails"
  },
  {
   "property": "C69",
   "status": "proved",
   "theorems": [
    "C69_map_from_zero",
    "C69_map_shifted",
    "C69_map_refuted",
    "C69_eased_refuted"
   ],
   "note": "in theories/EaseProps.v; the _refuted theorems give witnesses where the unrestricted claim fails"
  },
  {
   "property": "C70",
   "status": "proved",
   "theorems": [
    "C70_insert",
    "C70_remove",
    "C70_insert_remove",
    "C70_insert_empty_refuted",
    "C70_at",
    "C70_ends",
    "C70_append_reverse",
    "C70_filter",
    "C70_max",
    "C70_find",
    "C70_unique",
    "C70_slice",
    "C70_slice_negative_refuted",
    "C70_positions",
    "C70_sequences"
   ],
   "note": "in theories/MplProps.v; the _refuted theorems give witnesses where the unrestricted claim fails"
  },
  {
   "property": "C71",
   "status": "proved",
   "theorems": [
    "C71_replace",
    "C71_replace_empty_pattern",
    "C71_replace_type",
    "C71_all_any",
    "C71_all_empty_refuted"
   ],
   "note": "in theories/MplProps.v; the _refuted theorems give witnesses where the unrestricted claim fails"
  },
  {
   "property": "C72",
   "status": "proved",
   "theorems": [
    "C72_forArgs",
    "C72_forArgs_groups",
    "C72_forArgs_refused",
    "C72_tplFor",
    "C72_tplFor_empty_refuted",
    "C72_tplFor_noexcept_refuted",
    "C72_explode",
    "C72_explode_exception_refuted",
    "C72_index",
    "C72_repeat_vector",
    "C72_map"
   ],
   "note": "in theories/TupProps.v; the _refuted theorems give witnesses where the unrestricted claim fails"
  },
  {
   "property": "C73",
   "status": "proved",
   "theorems": [
    "C73_history",
    "C73_call",
    "C73_change_ub"
   ],
   "note": "in theories/TupProps.v"
  },
  {
   "property": "C74",
   "status": "proved",
   "theorems": [
    "C74_separators",
    "C74_forward_overflow_refuted",
    "C74_numeral",
    "C74_text",
    "C74_toStr",
    "C74_unformatted_refuted",
    "C74_null_pointer_refuted",
    "C74_nested_toStr_refuted",
    "C74_determined",
    "C74_strings_refuted"
   ],
   "note": "in theories/StrfProps.v; the _refuted theorems give witnesses where the unrestricted claim fails"
  },
  {
   "property": "C75",
   "status": "proved",
   "theorems": [
    "C75_latest",
    "C75_report",
    "C75_scopes",
    "C75_empty_line_refuted",
    "C75_duration_text",
    "C75_long_duration_refuted",
    "C75_group",
    "C75_group_alternating",
    "C75_nested_group_refuted",
    "C75_pause_first_refuted"
   ],
   "note": "in theories/BenchProps.v; the _refuted theorems give witnesses where the unrestricted claim fails"
  },
  {
   "property": "C76",
   "status": "proved",
   "theorems": [
    "C76_atomic",
    "C76_no_deadlock",
    "C76_single",
    "C76_message",
    "C76_whole_values",
    "C76_suppressed",
    "C76_suppressed_newline_refuted",
    "C76_stale_title_refuted",
    "C76_stolen_title_refuted",
    "C76_formatting_unlocked_refuted",
    "C76_colours",
    "C76_unique_colour_refuted"
   ],
   "note": "in theories/LogProps.v; the _refuted theorems give witnesses where the unrestricted claim fails"
  },
  {
   "property": "C77",
   "status": "proved",
   "theorems": [
    "C77_used_as_meant",
    "C77_misuse_caught",
    "C77_throwing_constructor_refuted",
    "C77_overwritten_refuted",
    "C77_storage",
    "C77_pod",
    "C77_maybe"
   ],
   "note": "in theories/UnionProps.v; the _refuted theorems give witnesses where the unrestricted claim fails"
  },
  {
   "property": "C78",
   "status": "proved",
   "theorems": [
    "C78_accepted",
    "C78_names_and_values"
   ],
   "note": "in theories/EnumProps.v"
  },
  {
   "property": "C79",
   "status": "proved",
   "theorems": [
    "C79_advance",
    "C79_backstep",
    "C79_period",
    "C79_distance",
    "C79_minus",
    "C79_wrapped",
    "C79_engines",
    "C79_narrow_refuted",
    "C79_read_state_refuted"
   ],
   "note": "in theories/PcgProps.v; the _refuted theorems give witnesses where the unrestricted claim fails"
  },
  {
   "property": "C80",
   "status": "proved",
   "theorems": [
    "C80_range",
    "C80_exact",
    "C80_sign",
    "C80_mixed_refuted",
    "C80_narrow_refuted",
    "C80_unsigned_sign_refuted"
   ],
   "note": "in theories/RndProps.v; the _refuted theorems give witnesses where the unrestricted claim fails"
  },
  {
   "property": "C81",
   "status": "proved",
   "theorems": [
    "C81_case_conversion",
    "C81_char_count",
    "C81_new_lines",
    "C81_char_count_pieces"
   ],
   "note": "in theories/StrProps.v"
  },
  {
   "property": "C82",
   "status": "proved",
   "theorems": [
    "C82_eraseRemove_own_element_refuted"
   ],
   "note": "in theories/ContProps.v; the _refuted theorems give witnesses where the unrestricted claim fails"
  },
  {
   "property": "C83",
   "status": "proved",
   "theorems": [
    "C83_rotatedRad_refuted"
   ],
   "note": "in theories/MathProps.v; the _refuted theorems give witnesses where the unrestricted claim fails"
  },
  {
   "property": "C84",
   "status": "proved",
   "theorems": [
    "C84_distance_exact",
    "C84_distance_metric",
    "C84_getMap_int",
    "C84_getMap",
    "C84_getLerp"
   ],
   "note": "in theories/MathProps.v"
  },
  {
   "property": "C85",
   "status": "proved",
   "theorems": [
    "C85_reader_correct"
   ],
   "note": "in theories/JsonProps.v"
  },
  {
   "property": "C86",
   "status": "proved",
   "theorems": [
    "C86_through_text"
   ],
   "note": "in theories/JsonCnvProps.v"
  },
  {
   "property": "C87",
   "status": "proved",
   "theorems": [
    "C87_expand",
    "C87_expand_diverges_refuted"
   ],
   "note": "in theories/PathProps.v; the _refuted theorems give witnesses where the unrestricted claim fails"
  },
  {
   "property": "C88",
   "status": "proved",
   "theorems": [
    "C88_equally_often",
    "C88_next",
    "C88_seed",
    "C88_states",
    "C88_output",
    "C88_bounded",
    "C88_unbiased"
   ],
   "note": "in theories/PcgProps.v"
  },
  {
   "property": "C89",
   "status": "proved",
   "theorems": [
    "C89_draws",
    "C89_permutation",
    "C89_ends",
    "C89_every_order_once",
    "C89_count_converted_refuted"
   ],
   "note": "in theories/PcgProps.v; the _refuted theorems give witnesses where the unrestricted claim fails"
  },
  {
   "property": "C90",
   "status": "proved",
   "theorems": [
    "C90_whole",
    "C90_between",
    "C90_random_access",
    "C90_random_access_reverse",
    "C90_steps",
    "C90_postfix_refuted",
    "C90_postfix_shows_neighbour_refuted",
    "C90_cast",
    "C90_cast_refuted",
    "C90_json",
    "C90_json_values",
    "C90_json_other_kind",
    "C90_json_throw_refuted"
   ],
   "note": "in theories/RangeProps.v; the _refuted theorems give witnesses where the unrestricted claim fails"
  },
  {
   "property": "C91",
   "status": "proved",
   "theorems": [
    "C91_values",
    "C91_read",
    "C91_assign",
    "C91_nested_refuted",
    "C91_look",
    "C91_emplace",
    "C91_has",
    "C91_getIfHas",
    "C91_mkObj",
    "C91_sizes"
   ],
   "note": "in theories/JsonAccProps.v; the _refuted theorems give witnesses where the unrestricted claim fails"
  },
  {
   "property": "C92",
   "status": "proved",
   "theorems": [
    "C92_equal",
    "C92_unsigned_real_refuted"
   ],
   "note": "in theories/JsonAccProps.v; the _refuted theorems give witnesses where the unrestricted claim fails"
  },
  {
   "property": "C93",
   "status": "proved",
   "theorems": [
    "C93_arithmetic",
    "C93_build",
    "C93_negative_refuted",
    "C93_compare",
    "C93_bitwise",
    "C93_shifts",
    "C93_far_shift_refuted",
    "C93_division",
    "C93_logs",
    "C93_trailing_zeros",
    "C93_narrow_counts"
   ],
   "note": "in theories/U128Props.v; the _refuted theorems give witnesses where the unrestricted claim fails"
  },
  {
   "property": "C94",
   "status": "proved",
   "theorems": [
    "C94_formulas",
    "C94_states",
    "C94_period",
    "C94_rxs",
    "C94_rxs_once",
    "C94_rxs16_refuted",
    "C94_inverses",
    "C94_unxorshift",
    "C94_rrr",
    "C94_rrr_once",
    "C94_rxs_m",
    "C94_xsh",
    "C94_xsl"
   ],
   "note": "in theories/PermProps.v; the _refuted theorems give witnesses where the unrestricted claim fails"
  },
  {
   "property": "C95",
   "status": "proved",
   "theorems": [
    "C95_in",
    "C95_out",
    "C95_inOut",
    "C95_circ_outside",
    "C95_zero_duration",
    "C95_ends",
    "C95_reflection",
    "C95_inOut_reflection",
    "C95_steady",
    "C95_elastic_bound",
    "C95_elastic_beyond",
    "C95_expo_step_refuted",
    "C95_circ_order_refuted"
   ],
   "note": "in theories/EaseRProps.v; the _refuted theorems give witnesses where the unrestricted claim fails"
  },
  {
   "property": "C96",
   "status": "proved",
   "theorems": [
    "C96_int_text",
    "C96_size_text",
    "C96_numeral_back",
    "C96_size_back_refuted",
    "C96_print_read",
    "C96_print_read_size",
    "C96_integers",
    "C96_integers_back",
    "C96_truncation",
    "C96_to_float",
    "C96_float_back",
    "C96_float_back_refuted",
    "C96_double_back",
    "C96_seconds",
    "C96_seconds_refuted",
    "C96_frames",
    "C96_frames_refuted",
    "C96_fps",
    "C96_there_and_back_refuted"
   ],
   "note": "in theories/CastProps.v; the _refuted theorems give witnesses where the unrestricted claim fails"
  },
  {
   "property": "C97",
   "status": "proved",
   "theorems": [
    "C97_named",
    "C97_turned",
    "C97_draw",
    "C97_equidistributed",
    "C97_period",
    "C97_claim",
    "C97_claim_refuted",
    "C97_advance",
    "C97_advance_zero_refuted",
    "C97_advance_tock_refuted",
    "C97_backstep",
    "C97_backstep_refuted",
    "C97_backstep_arriving_refuted",
    "C97_set",
    "C97_selfinit_refuted",
    "C97_sizes",
    "C97_constants"
   ],
   "note": "in theories/ExtProps.v; the _refuted theorems give witnesses where the unrestricted claim fails"
  },
  {
   "property": "C98",
   "status": "proved",
   "theorems": [
    "C98_read",
    "C98_write",
    "C98_survives",
    "C98_six_digits",
    "C98_seven_digits_refuted"
   ],
   "note": "in theories/RealProps.v; the _refuted theorems give witnesses where the unrestricted claim fails"
  },
  {
   "property": "C99",
   "status": "proved",
   "theorems": [
    "C99_text",
    "C99_restored",
    "C99_read",
    "C99_failed",
    "C99_extended",
    "C99_big_end_refuted",
    "C99_big_overflow_refuted",
    "C99_padding_refuted",
    "C99_hex",
    "C99_hex_refuted",
    "C99_byte",
    "C99_byte_refuted"
   ],
   "note": "in theories/PcgIoProps.v; the _refuted theorems give witnesses where the unrestricted claim fails"
  },
  {
   "property": "C100",
   "status": "proved",
   "theorems": [
    "C100_words",
    "C100_engine",
    "C100_stream",
    "C100_repeatable",
    "C100_order_refuted",
    "C100_once",
    "C100_four",
    "C100_draws",
    "C100_library",
    "C100_extended"
   ],
   "note": "in theories/SeedProps.v; the _refuted theorems give witnesses where the unrestricted claim fails"
  },
  {
   "property": "C101",
   "status": "proved",
   "theorems": [
    "C101_same",
    "C101_engines",
    "C101_extended",
    "C101_extended_unequal_refuted"
   ],
   "note": "in theories/EqProps.v; the _refuted theorems give witnesses where the unrestricted claim fails"
  },
  {
   "property": "C102",
   "status": "proved",
   "theorems": [
    "C102_queue",
    "C102_before_refuted",
    "C102_stuck_refuted",
    "C102_endless_refuted",
    "C102_clear_refuted"
   ],
   "note": "in theories/GrowProps.v; the _refuted theorems give witnesses where the unrestricted claim fails"
  },
  {
   "property": "C103",
   "status": "proved",
   "theorems": [
    "C103_read_float",
    "C103_read_double",
    "C103_read_hex_float",
    "C103_read_hex_double",
    "C103_no_number",
    "C103_write_float",
    "C103_six_float",
    "C103_six_double",
    "C103_back_float",
    "C103_back_double",
    "C103_seven_refuted",
    "C103_small_refuted",
    "C103_argument_refuted"
   ],
   "note": "in theories/FltProps.v; the _refuted theorems give witnesses where the unrestricted claim fails"
  },
  {
   "property": "C104",
   "status": "proved",
   "theorems": [
    "C104_log",
    "C104_json",
    "C104_json_any",
    "C104_not_written",
    "C104_saved_refuted",
    "C104_contents",
    "C104_spelling",
    "C104_folder",
    "C104_folder_text",
    "C104_folder_stale_refuted",
    "C104_remove",
    "C104_remove_answer_refuted",
    "C104_md5",
    "C104_md5_any",
    "C104_md5_long_refuted"
   ],
   "note": "in theories/FilesProps.v; the _refuted theorems give witnesses where the unrestricted claim fails"
  },
  {
   "property": "C105",
   "status": "proved",
   "theorems": [
    "C105_usage",
    "C105_flag_names",
    "C105_usage_unique",
    "C105_usage_untidy_refuted",
    "C105_help",
    "C105_help_large_refuted",
    "C105_help_unique",
    "C105_help_same_refuted",
    "C105_names",
    "C105_names_refuted",
    "C105_message",
    "C105_message_unique"
   ],
   "note": "in theories/HelpProps.v; the _refuted theorems give witnesses where the unrestricted claim fails"
  },
  {
   "property": "C106",
   "status": "proved",
   "theorems": [
    "C106_wrap",
    "C106_wrap_bounds",
    "C106_wrap_again",
    "C106_wrap_below_refuted",
    "C106_dist",
    "C106_dist_error",
    "C106_dist_symmetric",
    "C106_dist_overflow",
    "C106_cycled",
    "C106_cycled_range",
    "C106_cycled_above_refuted",
    "C106_cycled_inside_refuted",
    "C106_rotated",
    "C106_rotated_fast",
    "C106_rotated_stuck_refuted",
    "C106_lerp",
    "C106_lerp_above_refuted",
    "C106_map",
    "C106_map_max_refuted",
    "C106_degrees",
    "C106_degrees_refuted"
   ],
   "note": "in theories/AngleProps.v; the _refuted theorems give witnesses where the unrestricted claim fails"
  },
  {
   "property": "C107",
   "status": "proved",
   "theorems": [
    "C107_ticker_exact",
    "C107_timeline_exact",
    "C107_total_error",
    "C107_ticks_near",
    "C107_total_stops_refuted",
    "C107_count_stops_refuted",
    "C107_never_ticks_refuted",
    "C107_wait_never_ends_refuted"
   ],
   "note": "in theories/ClockProps.v; the _refuted theorems give witnesses where the unrestricted claim fails"
  },
  {
   "property": "C108",
   "status": "proved",
   "theorems": [
    "C108_kept",
    "C108_survives",
    "C108_whole",
    "C108_again",
    "C108_error",
    "C108_history",
    "C108_division",
    "C108_plain",
    "C108_counter_refuted",
    "C108_digits_refuted",
    "C108_overflow_refuted"
   ],
   "note": "in theories/ObfFloatProps.v; the _refuted theorems give witnesses where the unrestricted claim fails"
  },
  {
   "property": "C109",
   "status": "proved",
   "theorems": [
    "C109_exact",
    "C109_all_gone",
    "C109_at_home",
    "C109_moved_from",
    "C109_moved_refuted",
    "C109_assign_refuted"
   ],
   "note": "in theories/RecVecProps.v; the _refuted theorems give witnesses where the unrestricted claim fails"
  },
  {
   "property": "C110",
   "status": "proved",
   "theorems": [
    "C110_same",
    "C110_stuck",
    "C110_stuck_later",
    "C110_ways",
    "C110_idle",
    "C110_cleared",
    "C110_old",
    "C110_moved_refuted"
   ],
   "note": "in theories/TlMoveProps.v; the _refuted theorems give witnesses where the unrestricted claim fails"
  },
  {
   "property": "C111",
   "status": "proved",
   "theorems": [
    "C111_wrap",
    "C111_wrap_drift",
    "C111_wrap_direction_refuted",
    "C111_wrap_again",
    "C111_wrap_nan",
    "C111_dist",
    "C111_dist_true",
    "C111_dist_symmetric",
    "C111_dist_overflow",
    "C111_rotated_refuted"
   ],
   "note": "in theories/RadProps.v; the _refuted theorems give witnesses where the unrestricted claim fails"
  },
  {
   "property": "C112",
   "status": "proved",
   "theorems": [
    "C112_climb",
    "C112_follow",
    "C112_linear",
    "C112_linear_end_refuted",
    "C112_quad_out_ends",
    "C112_quad_out_back_refuted",
    "C112_quad_out_past_refuted",
    "C112_mirror",
    "C112_zero"
   ],
   "note": "in theories/EaseFProps.v; the _refuted theorems give witnesses where the unrestricted claim fails"
  },
  {
   "property": "C113",
   "status": "proved",
   "theorems": [
    "C113_sound",
    "C113_ends",
    "C113_refresh",
    "C113_lost",
    "C113_cascade",
    "C113_clear",
    "C113_clear_all",
    "C113_clear_creating",
    "C113_constructor",
    "C113_both_deleted_refuted",
    "C113_order_refuted",
    "C113_debug_refuted",
    "C113_full_refuted"
   ],
   "note": "in theories/ReMgrProps.v; the _refuted theorems give witnesses where the unrestricted claim fails"
  },
  {
   "property": "C114",
   "status": "proved",
   "theorems": [
    "C114_iterate",
    "C114_use_first",
    "C114_timelines",
    "C114_slots",
    "C114_timelines_refuted",
    "C114_refresh_refuted",
    "C114_clear_refuted"
   ],
   "note": "in theories/IterProps.v; the _refuted theorems give witnesses where the unrestricted claim fails"
  },
  {
   "property": "C115",
   "status": "proved",
   "theorems": [
    "C115_same",
    "C115_accepted",
    "C115_blank",
    "C115_standard",
    "C115_cut",
    "C115_cut_stops",
    "C115_report_refuted",
    "C115_slash_refuted"
   ],
   "note": "in theories/JsonDbgProps.v; the _refuted theorems give witnesses where the unrestricted claim fails"
  },
  {
   "property": "C116",
   "status": "proved",
   "theorems": [
    "C116_screen",
    "C116_colours",
    "C116_reset",
    "C116_style",
    "C116_style_replaced_refuted",
    "C116_reset_bold_refuted",
    "C116_kept_refuted",
    "C116_streams_refuted",
    "C116_null",
    "C116_width_refuted",
    "C116_style_count",
    "C116_color_count_refuted",
    "C116_info",
    "C116_info_refuted"
   ],
   "note": "in theories/ConProps.v; the _refuted theorems give witnesses where the unrestricted claim fails"
  },
  {
   "property": "C117",
   "status": "proved",
   "theorems": [
    "C117_shown",
    "C117_brackets",
    "C117_characters",
    "C117_left_on_refuted",
    "C117_styles_mix_refuted",
    "C117_colours_lost_refuted"
   ],
   "note": "in theories/StrfLookProps.v; the _refuted theorems give witnesses where the unrestricted claim fails"
  },
  {
   "property": "C118",
   "status": "proved",
   "theorems": [
    "C118_histories",
    "C118_builds",
    "C118_own_key_refuted",
    "C118_write_second",
    "C118_write_first"
   ],
   "note": "in theories/BmWorldProps.v; the _refuted theorems give witnesses where the unrestricted claim fails"
  },
  {
   "property": "C119",
   "status": "proved",
   "theorems": [
    "C119_queue",
    "C119_stop",
    "C119_jump",
    "C119_start_again_refuted",
    "C119_start_stuck_refuted",
    "C119_start_on_refuted",
    "C119_reset_stuck_refuted",
    "C119_reset_skips_refuted",
    "C119_before_refuted",
    "C119_clear_refuted"
   ],
   "note": "in theories/PollProps.v; the _refuted theorems give witnesses where the unrestricted claim fails"
  },
  {
   "property": "C120",
   "status": "proved",
   "theorems": [
    "C120_builds",
    "C120_defined",
    "C120_archived",
    "C120_into",
    "C120_into_map",
    "C120_other_map",
    "C120_surplus",
    "C120_surplus_pair",
    "C120_surplus_map",
    "C120_missing",
    "C120_short_pair",
    "C120_short_tuple",
    "C120_short_map_refuted",
    "C120_carray",
    "C120_chars",
    "C120_lenient_refuted"
   ],
   "note": "in theories/JsonShapeProps.v; the _refuted theorems give witnesses where the unrestricted claim fails"
  },
  {
   "property": "C121",
   "status": "proved",
   "theorems": [
    "C121_macro",
    "C121_macro_throws",
    "C121_macro_class",
    "C121_macro_short_refuted",
    "C121_macro_tuple_refuted",
    "C121_value",
    "C121_source",
    "C121_filled",
    "C121_archived",
    "C121_builds",
    "C121_short_pair_refuted",
    "C121_short_tuple_refuted",
    "C121_unchanged_refuted"
   ],
   "note": "in theories/JsonMutProps.v; the _refuted theorems give witnesses where the unrestricted claim fails"
  },
  {
   "property": "C122",
   "status": "proved",
   "theorems": [
    "C122_programs",
    "C122_queries",
    "C122_link",
    "C122_link_refuted"
   ],
   "note": "in theories/VmWorldProps.v; the _refuted theorems give witnesses where the unrestricted claim fails"
  },
  {
   "property": "C123",
   "status": "proved",
   "theorems": [
    "C123_tidy",
    "C123_holds",
    "C123_kept",
    "C123_push",
    "C123_put",
    "C123_defined",
    "C123_new_refuted",
    "C123_class_refuted"
   ],
   "note": "in theories/EmplProps.v; the _refuted theorems give witnesses where the unrestricted claim fails"
  }
 ]
}