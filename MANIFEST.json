{
 "claims": [
  {
   "property": "C01",
   "status": "proved",
   "theorems": [
    "C01_wildcard_meaning",
    "C01_utf8_has_characters"
   ],
   "note": ""
  },
  {
   "property": "C02",
   "status": "proved",
   "theorems": [
    "C02_plain_word_matches_itself_only"
   ],
   "note": ""
  },
  {
   "property": "C03",
   "status": "proved",
   "theorems": [
    "C03_not_output",
    "C03_traversal_words_catch_exactly_traversal_paths"
   ],
   "note": ""
  },
  {
   "property": "C04",
   "status": "proved",
   "theorems": [
    "C04_allow",
    "C04_undeclared"
   ],
   "note": ""
  },
  {
   "property": "C05",
   "status": "proved",
   "theorems": [
    "C05_unescape_escape"
   ],
   "note": ""
  },
  {
   "property": "C06",
   "status": "proved",
   "theorems": [
    "C06_escaped_has_no_active_characters",
    "C06_escape_is_characterwise"
   ],
   "note": ""
  },
  {
   "property": "C07",
   "status": "proved",
   "theorems": [
    "C07_filter_value_idempotent",
    "C07_refilter_idempotent"
   ],
   "note": ""
  },
  {
   "property": "C08",
   "status": "proved",
   "theorems": [
    "C08_context_is_filtered",
    "C08_rest_is_unchanged"
   ],
   "note": ""
  },
  {
   "property": "C09",
   "status": "proved",
   "theorems": [
    "C09_filtered_keys",
    "C09_unique_filtered_key_is_kept",
    "C09_all_entries_kept_refuted"
   ],
   "note": "Which values survive is characterised exactly; that nothing is ever lost is refuted by C09_all_entries_kept_refuted."
  },
  {
   "property": "C10",
   "status": "proved",
   "theorems": [
    "C10_no_bif",
    "C10_no_bif_plain",
    "C10_default",
    "C10_context",
    "C10_context_rebound_refuted"
   ],
   "note": "Refuted companion shows the CONTEXT exception."
  },
  {
   "property": "C11",
   "status": "proved",
   "theorems": [
    "C11_flags",
    "C11_safe_is_inert"
   ],
   "note": ""
  },
  {
   "property": "C12",
   "status": "proved",
   "theorems": [
    "C12_second_wins",
    "C12_rest_is_kept",
    "C12_objects_are_merged",
    "C12_key_order"
   ],
   "note": ""
  },
  {
   "property": "C13",
   "status": "proved",
   "theorems": [
    "C13_owned_merge_agrees",
    "C13_merge_twice",
    "C13_update_functions_agree",
    "C13_associative_refuted"
   ],
   "note": "Agreement and idempotence proved; associativity is not claimed and refuted."
  },
  {
   "property": "C14",
   "status": "proved",
   "theorems": [
    "C14_version_is_stamped",
    "C14_update_fails_only_on_non_objects"
   ],
   "note": ""
  },
  {
   "property": "C15",
   "status": "proved",
   "theorems": [
    "C15_header_spellings_agree",
    "C15_newest_value_wins_refuted"
   ],
   "note": "Also refuted: the newest value need not win (lower-case spelling has priority)."
  },
  {
   "property": "C16",
   "status": "proved",
   "theorems": [
    "C16_extraction_finds_outermost_bifs"
   ],
   "note": ""
  },
  {
   "property": "C17",
   "status": "proved",
   "theorems": [
    "C17_blocks_ordered_and_delimited",
    "C17_failure_position_is_a_close"
   ],
   "note": ""
  },
  {
   "property": "C18",
   "status": "proved",
   "theorems": [
    "C18_unbalanced_block",
    "C18_unbalanced_render"
   ],
   "note": ""
  },
  {
   "property": "C19",
   "status": "proved",
   "theorems": [
    "C19_split_at_first_top_level_separator",
    "C19_no_separator_no_split",
    "C19_split_is_at_a_separator"
   ],
   "note": ""
  },
  {
   "property": "C20",
   "status": "proved",
   "theorems": [
    "C20_paths_resolve_stepwise",
    "C20_every_name_has_components",
    "C20_value_text"
   ],
   "note": ""
  },
  {
   "property": "C21",
   "status": "proved",
   "theorems": [
    "C21_truth_tables",
    "C21_decimal_strings"
   ],
   "note": ""
  },
  {
   "property": "C22",
   "status": "proved",
   "theorems": [
    "C22_exactly_one",
    "C22_condition",
    "C22_exactly_one_compare"
   ],
   "note": ""
  },
  {
   "property": "C23",
   "status": "proved",
   "theorems": [
    "C23_tests",
    "C23_compare",
    "C23_else",
    "C23_eval"
   ],
   "note": ""
  },
  {
   "property": "C24",
   "status": "proved",
   "theorems": [
    "C24_else",
    "C24_previous",
    "C24_visible_output_refuted"
   ],
   "note": "C24_visible_output_refuted: output means before trimming."
  },
  {
   "property": "C25",
   "status": "proved",
   "theorems": [
    "C25_first_filled",
    "C25_result"
   ],
   "note": ""
  },
  {
   "property": "C26",
   "status": "proved",
   "theorems": [
    "C26_parse_ends",
    "C26_bound_is_irrelevant",
    "C26_within_budget",
    "C26_render_within_budget",
    "C26_limit_aborts"
   ],
   "note": ""
  },
  {
   "property": "C27",
   "status": "proved",
   "theorems": [
    "C27_unclosed_never_ends",
    "C27_ends_iff",
    "C27_bound_is_irrelevant",
    "C27_terminates_refuted"
   ],
   "note": "C27_ends_iff is an equivalence; that every render ends is false of the code (C27_terminates_refuted)."
  },
  {
   "property": "C28",
   "status": "proved",
   "theorems": [
    "C28_no_leak",
    "C28_levels"
   ],
   "note": ""
  },
  {
   "property": "C29",
   "status": "proved",
   "theorems": [
    "C29_inherited",
    "C29_copied"
   ],
   "note": ""
  },
  {
   "property": "C30",
   "status": "proved",
   "theorems": [
    "C30_exported",
    "C30_starts",
    "C30_code"
   ],
   "note": ""
  },
  {
   "property": "C31",
   "status": "proved",
   "theorems": [
    "C31_schema_is_protected",
    "C31_block"
   ],
   "note": ""
  },
  {
   "property": "C32",
   "status": "proved",
   "theorems": [
    "C32_errors",
    "C32_append_only"
   ],
   "note": ""
  },
  {
   "property": "C33",
   "status": "proved",
   "theorems": [
    "C33_rest_is_processed",
    "C33_failing_bif"
   ],
   "note": ""
  },
  {
   "property": "C34",
   "status": "proved",
   "theorems": [
    "C34_each",
    "C34_restored"
   ],
   "note": ""
  },
  {
   "property": "C35",
   "status": "proved",
   "theorems": [
    "C35_values",
    "C35_for"
   ],
   "note": ""
  },
  {
   "property": "C36",
   "status": "proved",
   "theorems": [
    "C36_exact",
    "C36_restored_iff",
    "C36_strings_restored",
    "C36_restored_refuted"
   ],
   "note": "C36_exact and C36_restored_iff say exactly what is left; that every value is restored is false of the code (C36_restored_refuted). For plain variable names (no ->, / or local::)."
  },
  {
   "property": "C37",
   "status": "proved",
   "theorems": [
    "C37_rejected",
    "C37_every_dynamic_name_refuted"
   ],
   "note": ""
  },
  {
   "property": "C38",
   "status": "proved",
   "theorems": [
    "C38_include",
    "C38_data",
    "C38_locale",
    "C38_obj_refuted"
   ],
   "note": ""
  },
  {
   "property": "C39",
   "status": "proved",
   "theorems": [
    "C39_raw",
    "C39_missing",
    "C39_once",
    "C39_include",
    "C39_remembered",
    "C39_inherited",
    "C39_recorded"
   ],
   "note": ""
  },
  {
   "property": "C40",
   "status": "proved",
   "theorems": [
    "C40_error_status_decides",
    "C40_redirect_status_decides",
    "C40_other_status",
    "C40_long_codes_refuted"
   ],
   "note": ""
  },
  {
   "property": "C41",
   "status": "proved",
   "theorems": [
    "C41_accepts",
    "C41_refuses",
    "C41_other_types_refuted"
   ],
   "note": "C41_other_types_refuted shows the js:reload edge."
  },
  {
   "property": "C42",
   "status": "proved",
   "theorems": [
    "C42_no_bif_after_exit",
    "C42_block_after_exit",
    "C42_block_stops",
    "C42_exit_is_final_refuted"
   ],
   "note": "C42_exit_is_final_refuted shows that !exit lowers the flag."
  },
  {
   "property": "C43",
   "status": "proved",
   "theorems": [
    "C43_moveto_inserts"
   ],
   "note": ""
  },
  {
   "property": "C44",
   "status": "proved",
   "theorems": [
    "C44_render_once_agrees",
    "C44_render_keeps_schema",
    "C44_render_is_fresh",
    "C44_plain_source_keeps_old_status_refuted",
    "C44_render_after_render_once_refuted"
   ],
   "note": ""
  },
  {
   "property": "C45",
   "status": "proved",
   "theorems": [
    "C45_plain_text_is_trimmed"
   ],
   "note": ""
  },
  {
   "property": "C46",
   "status": "proved",
   "theorems": [
    "C46_text_and_blocks",
    "C46_segments",
    "C46_literal_text",
    "C46_comments_only"
   ],
   "note": ""
  },
  {
   "property": "C47",
   "status": "proved",
   "theorems": [
    "C47_hit",
    "C47_unreadable",
    "C47_unreadable_plain",
    "C47_unreadable_aborted",
    "C47_miss",
    "C47_aborted"
   ],
   "note": ""
  },
  {
   "property": "C48",
   "status": "proved",
   "theorems": [
    "C48_expired",
    "C48_read",
    "C48_overflow",
    "C48_nested_refuted"
   ],
   "note": ""
  },
  {
   "property": "C49",
   "status": "proved",
   "theorems": [
    "C49_distinct",
    "C49_consults",
    "C49_separate",
    "C49_refuted",
    "C49_requests"
   ],
   "note": "C49_refuted: two differences at once (GET and COOKIES exchanged) can share an entry."
  },
  {
   "property": "C50",
   "status": "proved",
   "theorems": [
    "C50_bypass",
    "C50_no_access"
   ],
   "note": ""
  },
  {
   "property": "C51",
   "status": "proved",
   "theorems": [
    "C51_range",
    "C51_empty_range",
    "C51_nine_digits"
   ],
   "note": ""
  },
  {
   "property": "C52",
   "status": "proved",
   "theorems": [
    "C52_trans"
   ],
   "note": ""
  },
  {
   "property": "C53",
   "status": "proved",
   "theorems": [
    "C53_param_refused",
    "C53_declare_refused",
    "C53_snippet_refused",
    "C53_param_defines",
    "C53_declare_defines",
    "C53_snippet_defines"
   ],
   "note": ""
  },
  {
   "property": "C54",
   "status": "proved",
   "theorems": [
    "C54_refused",
    "C54_table_is_complete"
   ],
   "note": ""
  },
  {
   "property": "C55",
   "status": "proved",
   "theorems": [
    "C55_remove_comments_exact"
   ],
   "note": ""
  },
  {
   "property": "C56",
   "status": "proved",
   "theorems": [
    "C56_exact",
    "C56_fails",
    "C56_remove_comments_total_refuted"
   ],
   "note": "Exact: C56_exact is an iff with the specification `uncommented`, C56_fails is the exact set of failing sources; C56_remove_comments_total_refuted records that the set is not empty (a panic in the code)."
  },
  {
   "property": "C57",
   "status": "proved",
   "theorems": [
    "C57_panics"
   ],
   "note": ""
  },
  {
   "property": "C58",
   "status": "proved",
   "theorems": [
    "C58_join",
    "C58_local"
   ],
   "note": ""
  },
  {
   "property": "C59",
   "status": "proved",
   "theorems": [
    "C59_contains_bif",
    "C59_replace_bif",
    "C59_replace_empty",
    "C59_contains_is_substring",
    "C59_replace"
   ],
   "note": ""
  },
  {
   "property": "C60",
   "status": "proved",
   "theorems": [
    "C60_same"
   ],
   "note": ""
  },
  {
   "property": "C61",
   "status": "proved",
   "theorems": [
    "C61_records_decode",
    "C61_oversized_refused",
    "C61_whole_request_decodes",
    "C61_request_refused"
   ],
   "note": ""
  },
  {
   "property": "C62",
   "status": "proved",
   "theorems": [
    "C62_pairs_decode",
    "C62_pairs_encodable"
   ],
   "note": ""
  },
  {
   "property": "C63",
   "status": "proved",
   "theorems": [
    "C63_response_is_the_stdout_stream",
    "C63_closed_connection",
    "C63_http_body"
   ],
   "note": ""
  },
  {
   "property": "C64",
   "status": "proved",
   "theorems": [
    "C64_neutral",
    "C64_noparse",
    "C64_cache_pass_refuted"
   ],
   "note": ""
  },
  {
   "property": "C65",
   "status": "proved",
   "theorems": [
    "C65_eval",
    "C65_restored"
   ],
   "note": ""
  },
  {
   "property": "C66",
   "status": "proved",
   "theorems": [
    "C66_kept",
    "C66_evaluated"
   ],
   "note": ""
  },
  {
   "property": "C67",
   "status": "proved",
   "theorems": [
    "C67_render",
    "C67_render_once",
    "C67_writes"
   ],
   "note": ""
  },
  {
   "property": "C68",
   "status": "proved",
   "theorems": [
    "C68_answer",
    "C68_request",
    "C68_bridge",
    "C68_refused",
    "C68_sent",
    "C68_closed",
    "C68_foreign"
   ],
   "note": ""
  },
  {
   "property": "C69",
   "status": "proved",
   "theorems": [
    "C69_file",
    "C69_inline",
    "C69_not_json",
    "C69_inline_not_json",
    "C69_missing",
    "C69_once",
    "C69_bad_flags",
    "C69_rest_is_kept_refuted"
   ],
   "note": ""
  },
  {
   "property": "C70",
   "status": "proved",
   "theorems": [
    "C70_file",
    "C70_inline",
    "C70_not_json",
    "C70_missing",
    "C70_once",
    "C70_translation"
   ],
   "note": ""
  },
  {
   "property": "C71",
   "status": "proved",
   "theorems": [
    "C71_read",
    "C71_round_trip"
   ],
   "note": ""
  },
  {
   "property": "C72",
   "status": "proved",
   "theorems": [
    "C72_call",
    "C72_round_trip",
    "C72_any_name_refuted",
    "C72_directory_refuted"
   ],
   "note": ""
  },
  {
   "property": "C73",
   "status": "proved",
   "theorems": [
    "C73_exit",
    "C73_moveto"
   ],
   "note": ""
  },
  {
   "property": "C74",
   "status": "proved",
   "theorems": [
    "C74_set",
    "C74_read",
    "C74_not_a_number"
   ],
   "note": ""
  },
  {
   "property": "C75",
   "status": "proved",
   "theorems": [
    "C75_sum",
    "C75_lang",
    "C75_flags",
    "C75_hash",
    "C75_date",
    "C75_format_is_evaluated_refuted"
   ],
   "note": ""
  },
  {
   "property": "C76",
   "status": "proved",
   "theorems": [
    "C76_fetch"
   ],
   "note": ""
  },
  {
   "property": "C77",
   "status": "proved",
   "theorems": [
    "C77_reads_back",
    "C77_closed",
    "C77_test",
    "C77_shows"
   ],
   "note": ""
  },
  {
   "property": "C78",
   "status": "proved",
   "theorems": [
    "C78_call",
    "C78_script_error",
    "C78_no_script",
    "C78_no_venv",
    "C78_bad_description",
    "C78_missing_description",
    "C78_answer_is_data_refuted"
   ],
   "note": ""
  },
  {
   "property": "C79",
   "status": "proved",
   "theorems": [
    "C79_natural",
    "C79_seconds",
    "C79_integer",
    "C79_float",
    "C79_written",
    "C79_one_value"
   ],
   "note": ""
  },
  {
   "property": "C80",
   "status": "proved",
   "theorems": [
    "C80_stored",
    "C80_served",
    "C80_history"
   ],
   "note": ""
  },
  {
   "property": "C81",
   "status": "partial",
   "theorems": [
    "C81_anywhere",
    "C81_left",
    "C81_served_partial",
    "C81_undisturbed_refuted"
   ],
   "note": "The full claim (a later render outputs what an undisturbed one does) is false of the code: C81_undisturbed_refuted. Proved: what a crash can leave behind (C81_anywhere, C81_left) and that exactly this is served (C81_served_partial)."
  },
  {
   "property": "C82",
   "status": "proved",
   "theorems": [
    "C82_call"
   ],
   "note": ""
  },
  {
   "property": "C83",
   "status": "partial",
   "theorems": [
    "C83_loaded",
    "C83_fresh",
    "C83_history_partial",
    "C83_named_file_refuted"
   ],
   "note": "The full claim is false of the code: C83_named_file_refuted. Proved: which file is run (C83_loaded, C83_fresh), and the claim for every life of a process without name clashes and tampering scripts (C83_history_partial)."
  },
  {
   "property": "C84",
   "status": "proved",
   "theorems": [
    "C84_later_venv",
    "C84_first_venv",
    "C84_missing_venv",
    "C84_messages",
    "C84_no_name",
    "C84_path_grows"
   ],
   "note": ""
  },
  {
   "property": "C85",
   "status": "partial",
   "theorems": [
    "C85_strings_partial",
    "C85_answer_is_data_partial"
   ],
   "note": "The full claim (an answer is only ever data) is false of the code: C78_answer_is_data_refuted. Proved for every answer whose text contains neither {: nor :}; C85_strings_partial, with the JSON printer of C98, for every answer whose keys and strings contain neither."
  },
  {
   "property": "C86",
   "status": "proved",
   "theorems": [
    "C86_parts",
    "C86_stopped",
    "C86_part"
   ],
   "note": ""
  },
  {
   "property": "C87",
   "status": "proved",
   "theorems": [
    "C87_modifier_order"
   ],
   "note": ""
  },
  {
   "property": "C88",
   "status": "proved",
   "theorems": [
    "C88_layout_of_the_parts",
    "C88_layout_of_the_body"
   ],
   "note": ""
  },
  {
   "property": "C89",
   "status": "proved",
   "theorems": [
    "C89_arguments",
    "C89_delimiter",
    "C89_delimiter_fetch",
    "C89_delimiter_whole"
   ],
   "note": ""
  },
  {
   "property": "C90",
   "status": "proved",
   "theorems": [
    "C90_page",
    "C90_one_page",
    "C90_nothing_else",
    "C90_upline"
   ],
   "note": ""
  },
  {
   "property": "C91",
   "status": "proved",
   "theorems": [
    "C91_larger_limit",
    "C91_smaller_limit",
    "C91_page"
   ],
   "note": ""
  },
  {
   "property": "C92",
   "status": "proved",
   "theorems": [
    "C92_recorded",
    "C92_replay",
    "C92_other_files",
    "C92_pure"
   ],
   "note": ""
  },
  {
   "property": "C93",
   "status": "proved",
   "theorems": [
    "C93_once",
    "C93_result",
    "C93_quiet"
   ],
   "note": ""
  },
  {
   "property": "C94",
   "status": "proved",
   "theorems": [
    "C94_only",
    "C94_directories",
    "C94_refused",
    "C94_expired",
    "C94_leading_zero",
    "C94_harmless",
    "C94_entries",
    "C94_signed_kept",
    "C94_octal_refuted",
    "C94_race_refuted"
   ],
   "note": ""
  },
  {
   "property": "C95",
   "status": "proved",
   "theorems": [
    "C95_words",
    "C95_pieces",
    "C95_arguments"
   ],
   "note": ""
  },
  {
   "property": "C96",
   "status": "proved",
   "theorems": [
    "C96_two_arguments",
    "C96_join",
    "C96_cache",
    "C96_fetch",
    "C96_each",
    "C96_for",
    "C96_rand"
   ],
   "note": ""
  },
  {
   "property": "C97",
   "status": "proved",
   "theorems": [
    "C97_report",
    "C97_no_delimiter",
    "C97_unknown",
    "C97_no_flags",
    "C97_raw_flags",
    "C97_wrong_flag",
    "C97_locale_flags"
   ],
   "note": ""
  },
  {
   "property": "C98",
   "status": "proved",
   "theorems": [
    "C98_reads",
    "C98_one_value",
    "C98_round_trip",
    "C98_too_deep",
    "C98_stable",
    "C98_injective",
    "C98_clean",
    "C98_schema",
    "C98_merge"
   ],
   "note": "serde_json is a dependency whose source is not in /repo: JsonText.v is transcribed from its documentation and RFC 8259."
  },
  {
   "property": "C99",
   "status": "proved",
   "theorems": [
    "C99_unmarked",
    "C99_auto",
    "C99_click",
    "C99_visible",
    "C99_form",
    "C99_only",
    "C99_replaced",
    "C99_failed",
    "C99_still",
    "C99_lost",
    "C99_answers"
   ],
   "note": ""
  },
  {
   "property": "C100",
   "status": "proved",
   "theorems": [
    "C100_one_at_a_time",
    "C100_buttons",
    "C100_stuck",
    "C100_overlap_refuted",
    "C100_without_file",
    "C100_with_file"
   ],
   "note": ""
  },
  {
   "property": "C101",
   "status": "proved",
   "theorems": [
    "C101_limits",
    "C101_settings",
    "C101_show"
   ],
   "note": ""
  },
  {
   "property": "C102",
   "status": "proved",
   "theorems": [
    "C102_call",
    "C102_history",
    "C102_reads",
    "C102_abort",
    "C102_returns",
    "C102_harmless",
    "C102_constructors",
    "C102_same_render"
   ],
   "note": ""
  },
  {
   "property": "C103",
   "status": "proved",
   "theorems": [
    "C103_reads",
    "C103_one_value",
    "C103_cut",
    "C103_rest",
    "C103_no_value",
    "C103_value",
    "C103_round_trip",
    "C103_injective",
    "C103_schema",
    "C103_same",
    "C103_from_file",
    "C103_merge"
   ],
   "note": ""
  },
  {
   "property": "C104",
   "status": "proved",
   "theorems": [
    "C104_strip",
    "C104_tag"
   ],
   "note": ""
  },
  {
   "property": "C105",
   "status": "proved",
   "theorems": [
    "C105_pieces",
    "C105_broken",
    "C105_request",
    "C105_call",
    "C105_value",
    "C105_waits",
    "C105_slow_refuted"
   ],
   "note": ""
  },
  {
   "property": "C106",
   "status": "proved",
   "theorems": [
    "C106_php",
    "C106_broken",
    "C106_one_process",
    "C106_life",
    "C106_python",
    "C106_other_file_refuted"
   ],
   "note": ""
  },
  {
   "property": "C107",
   "status": "proved",
   "theorems": [
    "C107_sha256",
    "C107_md5",
    "C107_machine",
    "C107_shape",
    "C107_no_slice",
    "C107_entry",
    "C107_shared",
    "C107_collision",
    "C107_swept",
    "C107_hash",
    "C107_moveto_key"
   ],
   "note": ""
  },
  {
   "property": "C108",
   "status": "proved",
   "theorems": [
    "C108_reads",
    "C108_adds",
    "C108_shows",
    "C108_number",
    "C108_positive",
    "C108_condition",
    "C108_machine",
    "C108_reads_back",
    "C108_commutes",
    "C108_error",
    "C108_exact",
    "C108_running",
    "C108_sum",
    "C108_integers"
   ],
   "note": ""
  },
  {
   "property": "C109",
   "status": "proved",
   "theorems": [
    "C109_decimal",
    "C109_prints",
    "C109_nearest",
    "C109_digits",
    "C109_error",
    "C109_range",
    "C109_stable",
    "C109_injective",
    "C109_drift"
   ],
   "note": ""
  },
  {
   "property": "C110",
   "status": "proved",
   "theorems": [
    "C110_new",
    "C110_status",
    "C110_plain",
    "C110_page"
   ],
   "note": ""
  },
  {
   "property": "C111",
   "status": "proved",
   "theorems": [
    "C111_float",
    "C111_every",
    "C111_single",
    "C111_told_apart",
    "C111_converted",
    "C111_repacked",
    "C111_same"
   ],
   "note": ""
  },
  {
   "property": "C112",
   "status": "proved",
   "theorems": [
    "C112_calendar",
    "C112_format",
    "C112_any_time",
    "C112_refused",
    "C112_sorted",
    "C112_date",
    "C112_stamp"
   ],
   "note": ""
  }
 ]
}