{
 "claims": [
  {
   "property": "C01",
   "status": "proved",
   "theorems": [
    "time_format_parse_round_trip",
    "time_format_fields"
   ],
   "note": "All u32 values."
  },
  {
   "property": "C02",
   "status": "proved",
   "theorems": [
    "time_parse_exact",
    "time_parse_panics_iff",
    "time_parse_total_refuted"
   ],
   "note": "Accepted language and value are exact. The no-overflow part is false: refuted by 11931:00:00.00; the panic condition is characterised exactly."
  },
  {
   "property": "C03",
   "status": "proved",
   "theorems": [
    "color_parse_rgba",
    "color_parse_rgb",
    "color_parse_exact",
    "color_parse_no_panic",
    "color_only_hex_digits_refuted"
   ],
   "note": "All colours in all dressings are read correctly. Rejection of non-hex text is false for a leading plus sign (refuted); the accepted language is characterised exactly."
  },
  {
   "property": "C04",
   "status": "proved",
   "theorems": [
    "uu_encode_decode"
   ],
   "note": "All byte sequences."
  },
  {
   "property": "C05",
   "status": "proved",
   "theorems": [
    "font_section_round_trip",
    "font_section_loses_last_chunk",
    "font_section_exact",
    "font_section_round_trip_refuted",
    "binary_section_total"
   ],
   "note": "Exact characterisation for single-entry sections; the unconditional round trip is refuted with a witness."
  },
  {
   "property": "C06",
   "status": "proved",
   "theorems": [
    "strip_bom_exact",
    "detect_bom_longest",
    "detect_bom_absent",
    "validate_bom_utf32le_refuted",
    "validate_bom_rejects_valid_text_refuted"
   ],
   "note": "Stripping and detection proved for all inputs; validate_bom_handling violates the claim (two findings proved as _refuted)."
  },
  {
   "property": "C07",
   "status": "proved",
   "theorems": [
    "truncate_longest_prefix"
   ],
   "note": ""
  },
  {
   "property": "C08",
   "status": "proved",
   "theorems": [
    "line_endings_keep_lines",
    "line_endings_clean"
   ],
   "note": ""
  },
  {
   "property": "C09",
   "status": "proved",
   "theorems": [
    "whitespace_normal_form",
    "whitespace_no_collapse_pointwise",
    "whitespace_collapse_runs"
   ],
   "note": ""
  },
  {
   "property": "C10",
   "status": "proved",
   "theorems": [
    "control_chars_removed_exactly"
   ],
   "note": ""
  },
  {
   "property": "C11",
   "status": "proved",
   "theorems": [
    "parse_total",
    "parse_in_bounds",
    "parse_in_order"
   ],
   "note": "Every input ends in Done; positions are exact up to a line-number shortfall (see C12)."
  },
  {
   "property": "C12",
   "status": "proved",
   "theorems": [
    "parse_line_numbers",
    "parse_line_numbers_below",
    "parse_line_numbers_refuted"
   ],
   "note": "Blank lines before a header are not counted, so that later numbers can be too small: refuted without the condition."
  },
  {
   "property": "C13",
   "status": "proved",
   "theorems": [
    "event_write_read",
    "event_read_write_read",
    "event_read_write_read_default",
    "event_case_lost_refuted",
    "actor_column_lost_refuted"
   ],
   "note": "Default format and any format spelled as the writer spells it; refuted for other spellings and for Actor columns."
  },
  {
   "property": "C14",
   "status": "proved",
   "theorems": [
    "style_line_reads",
    "style_line_reads_parent",
    "style_read_write_read",
    "style_read_write_read_default",
    "style_parent_lost_refuted"
   ],
   "note": "A parent is lost by the writer (refuted)."
  },
  {
   "property": "C15",
   "status": "proved",
   "theorems": [
    "event_line_reads",
    "event_line_reads_only",
    "event_text_keeps_commas"
   ],
   "note": ""
  },
  {
   "property": "C16",
   "status": "proved",
   "theorems": [
    "build_modified_source_edits",
    "build_modified_source_only",
    "range_after_edit_moves",
    "range_before_edit_stays",
    "range_across_edit_covers",
    "section_span_after_edit_moves",
    "adjust_keeps_content",
    "moved_span_line_stale_refuted",
    "header_search_panics_refuted"
   ],
   "note": "Offsets and denoted text are right for every edit; an empty range exactly at the edit is treated as lying after it. Line numbers of moved spans are stale and the backwards header search can cut a character (both shown false)."
  },
  {
   "property": "C17",
   "status": "proved",
   "theorems": [
    "line_number_counts_newlines",
    "line_number_at_boundary",
    "line_range_of_text",
    "line_range_at_end_refuted"
   ],
   "note": "Up to the u32 range of line numbers. calculate_line_range gives start line 0 for an insertion at the end of the text (shown false)."
  },
  {
   "property": "C18",
   "status": "proved",
   "theorems": [
    "stream_division_free",
    "stream_same_as_at_once",
    "stream_state_of_lines",
    "from_utf8_exact",
    "encode_bytes",
    "stream_refused_chunk",
    "stream_reset_fresh",
    "stream_line_number",
    "stream_section_is_last_header",
    "stream_reports_nothing",
    "stream_result_constant",
    "delta_kinds",
    "stream_crlf_cut_refuted",
    "stream_cr_cut_refuted",
    "stream_char_cut_refuted",
    "stream_result_empty_refuted",
    "stream_format_after_dialogue_refuted",
    "stream_v4pp_refuted",
    "stream_format_sound",
    "stream_format_complete",
    "stream_finish_reads_rest"
   ],
   "note": "Cuts inside a character, after a carriage return or inside CRLF change the state (refuted); the result being empty means no events are ever reported (refuted against the documentation)."
  },
  {
   "property": "C19",
   "status": "proved",
   "theorems": [
    "atomic_failure_keeps_script",
    "atomic_success_applies_all",
    "atomic_applies_sorted",
    "atomic_order_refuted"
   ],
   "note": "A failed atomic batch returns the script (and tracker) unchanged; a successful one applied every operation and then the additions. On a laid-out script a batch of distinct, ascending, well-formed operations succeeds with the exact result; the order matters (refuted otherwise)."
  },
  {
   "property": "C20",
   "status": "proved",
   "theorems": [
    "batch_changes_named_lines",
    "parsed_batch_changes_named_lines",
    "batch_touches_only_named",
    "parsed_laid_out",
    "batch_add_styles_adds",
    "batch_add_events_adds",
    "add_one_style",
    "add_one_event",
    "update_after_update_refuted"
   ],
   "note": "Exact effect on every parsed source with closed headers (and any laid-out script); soundness, one outcome per operation and correct old lines for every script and batch. A second update after the last line was updated fails (refuted)."
  },
  {
   "property": "C21",
   "status": "proved",
   "theorems": [
    "tracker_records_enabled",
    "tracked_sections_replay",
    "tracked_update_recorded",
    "tracked_field_added",
    "untracked_update_silent",
    "failed_update_silent",
    "diff_patches",
    "diff_empty",
    "field_update_unrecorded_refuted",
    "add_event_unrecorded_refuted",
    "diff_replay_refuted"
   ],
   "note": "The tracker itself is exact. Script operations that change the script without recording anything are refuted separately."
  },
  {
   "property": "C22",
   "status": "proved",
   "theorems": [
    "overlaps_found_exactly",
    "overlaps_found",
    "overlaps_outcome",
    "overlaps_counted",
    "dialogue_overlaps_exact",
    "overlaps_single_unchecked",
    "overlaps_empty_event_refuted",
    "dialogue_overlaps_unread"
   ],
   "note": "Proved for events that end after they start, and exactly described for all; an event with end <= start is paired with every later one. Proved for events that end after they start, and exactly described for all; an event with end <= start is paired with every later one."
  },
  {
   "property": "C23",
   "status": "proved",
   "theorems": [
    "sort_events_permutation",
    "sort_events_ordered",
    "sort_events_stable"
   ],
   "note": "The sort orders by start and then by end; it is stable for equal times. slice::sort_by is modelled by a stable sort, whose result is unique (SortLib.sort_unique)."
  },
  {
   "property": "C24",
   "status": "proved",
   "theorems": [
    "block_has_unique_pieces",
    "block_reported",
    "block_reported_members",
    "block_spans_in_block",
    "block_panics_iff",
    "block_no_panic_refuted",
    "block_long_name_refuted"
   ],
   "note": "Exact for every block; false as stated: a backslash before a multi-byte character panics."
  },
  {
   "property": "C25",
   "status": "proved",
   "theorems": [
    "text_has_segments",
    "text_analysis_exact",
    "text_analysis_panics",
    "text_analysis_too_deep",
    "drawing_mode_decided",
    "text_flags",
    "text_line_count",
    "text_analysis_total_refuted",
    "text_open_block_refuted",
    "text_final_backslash_refuted",
    "text_line_count_refuted",
    "text_analysis_panics_first",
    "text_analysis_ends"
   ],
   "note": "Exact for every text; false as stated: an open brace at the end panics, a final backslash is dropped."
  },
  {
   "property": "C26",
   "status": "proved",
   "theorems": [
    "animation_score_exact",
    "total_score_exists",
    "animation_score_bounded",
    "animation_score_overflow_refuted",
    "complexity_score_bounded",
    "complexity_score_monotone",
    "performance_impact_bands",
    "complexity_score_exact",
    "analyzed_event_scores"
   ],
   "note": "Bounds hold; the u8 sum overflows from 256 on. Bounds hold; the u8 sum overflows from 256 on."
  },
  {
   "property": "C27",
   "status": "proved",
   "theorems": [
    "styles_analyzed",
    "styles_resolved_exact",
    "styles_listed_in_order",
    "cycle_reported_iff",
    "conflicts_exact",
    "inheritance_info_exact",
    "parents_have_no_effect",
    "inheritance_refuted",
    "style_issues_exact"
   ],
   "note": "Cycles, undefined parents and duplicate names are reported exactly. Inheritance itself is refuted: no style ever takes a value from its parent, since the order is dropped as soon as one parent is defined."
  },
  {
   "property": "C28",
   "status": "proved",
   "theorems": [
    "tokens_cover",
    "tokens_terminate",
    "tokenize_ok",
    "tokenize_err",
    "tokenize_never_panics",
    "tokenize_limit_refuted",
    "tokenize_final_cr_refuted"
   ],
   "note": "Coverage, order, progress and absence of panics hold for every text. Success does not: tokenize_err gives exactly when tokenize_all fails (over 50 tokens, or a final CR that is a token)."
  },
  {
   "property": "C29",
   "status": "proved",
   "theorems": [
    "lint_runner_exact",
    "lint_runner_exact_any",
    "lint_respects_config",
    "lint_ends",
    "never_critical",
    "analysis_lints",
    "no_critical_issues"
   ],
   "note": "The runner's result is characterised for every configuration: rules switched off, severities below the minimum and issues above the limit are left out, in rule order."
  },
  {
   "property": "C30",
   "status": "proved",
   "theorems": [
    "edit_is_splice",
    "edit_out_of_bounds",
    "editing_never_panics",
    "failed_replace_unchanged_refuted"
   ],
   "note": "Splicing, refusal and panic-freedom proved for all reachable documents; the failed-edit-changes-nothing half is violated by replace at a start offset inside a character (refuted)."
  },
  {
   "property": "C31",
   "status": "proved",
   "theorems": [
    "undo_redo_refines",
    "undo_redo_available",
    "undo_replace_exact",
    "undo_replace_refuted",
    "undo_insert_mid_char_refuted",
    "undo_incremental_insert_refuted"
   ],
   "note": "Undo does not restore the text after replacements of another length, insertions inside a character or edit_incremental (refuted with witnesses)."
  },
  {
   "property": "C32",
   "status": "proved",
   "theorems": [
    "undo_redo_refines",
    "undo_redo_available",
    "undo_then_redo",
    "redo_all_refuted"
   ],
   "note": "n redos after n undos, for n > 1, are refused by the code (redo_all_refuted)."
  },
  {
   "property": "C33",
   "status": "proved",
   "theorems": [
    "history_within_limits",
    "history_keeps_newest"
   ],
   "note": ""
  },
  {
   "property": "C34",
   "status": "proved",
   "theorems": [
    "edit_discards_redo"
   ],
   "note": ""
  },
  {
   "property": "C35",
   "status": "proved",
   "theorems": [
    "offset_to_line_column",
    "line_column_round_trip",
    "line_end_crlf_refuted",
    "line_end_boundary_refuted"
   ],
   "note": "Offset/line/column conversions proved; the end-of-line positions of PositionBuilder violate the claim (refuted)."
  },
  {
   "property": "C36",
   "status": "proved",
   "theorems": [
    "range_algebra",
    "range_new_ordered",
    "range_overlaps_empty_refuted"
   ],
   "note": "Empty ranges inside another count as overlapping (refuted); everything else proved."
  },
  {
   "property": "C37",
   "status": "proved",
   "theorems": [
    "batch_is_sequence",
    "batch_atomic_refuted"
   ],
   "note": "Sequencing proved; atomicity is violated by the code (refuted)."
  },
  {
   "property": "C38",
   "status": "proved",
   "theorems": [
    "toggle_one",
    "toggle_twice",
    "toggle_panics",
    "toggle_ends",
    "toggle_all_refuted",
    "toggle_named_refuted",
    "toggle_comments_refuted"
   ],
   "note": "With more than one event selected the line end is not adjusted after a change, so that events are skipped (refuted with witnesses for all, named and Comment events)."
  },
  {
   "property": "C39",
   "status": "proved",
   "theorems": [
    "adjust_all",
    "adjust_in_place",
    "adjust_one",
    "adjust_one_panics",
    "adjust_comma_refuted",
    "adjust_accent_refuted",
    "adjust_accent_panics",
    "adjust_growth_refuted",
    "adjust_overflow_panics",
    "adjust_wrap_refuted"
   ],
   "note": "Each condition is needed: commas in texts, effects beyond ASCII, growing lines and times that overflow are refuted with witnesses or shown to panic."
  },
  {
   "property": "C40",
   "status": "proved",
   "theorems": [
    "merge_exact",
    "merge_neighbours",
    "merge_unended",
    "merge_between_refuted",
    "merge_comma_refuted"
   ],
   "note": "Keeping the events in between and keeping texts with commas are refuted."
  },
  {
   "property": "C41",
   "status": "proved",
   "theorems": [
    "delete_exact",
    "delete_missing",
    "delete_panics_refuted"
   ],
   "note": "Exact for every line that ends in a newline; a last line without one panics if it ends in a multi-byte character (refuted)."
  },
  {
   "property": "C42",
   "status": "proved",
   "theorems": [
    "srt_time_round",
    "vtt_time_round",
    "srt_time_cut",
    "vtt_time_cut",
    "time_out_panics_refuted",
    "zero_hours_refuted"
   ],
   "note": "Proved for every time whose fields fit in 32 bits with two-digit minutes and seconds, for both writers and both readers. False for times with a long fraction: the export panics on overflow (time_out_panics_refuted)."
  },
  {
   "property": "C43",
   "status": "proved",
   "theorems": [
    "selector_matches_scan",
    "selector_never_panics",
    "answers_determined",
    "one_query_exact",
    "stale_index_refuted",
    "time_jump_refuted"
   ],
   "note": "Without the conditions: a different list of the same length at the same address keeps the old index, and a jump in time of 2^31 cs or more panics or goes unnoticed (refuted)."
  },
  {
   "property": "C44",
   "status": "proved",
   "theorems": [
    "dirty_regions_grouped",
    "dirty_regions_cover",
    "region_added_exactly",
    "merge_is_hull",
    "merge_smallest",
    "contains_point_exact",
    "intersects_exact",
    "intersects_sound",
    "intersects_tight_refuted",
    "full_screen_covers",
    "region_overflow_refuted"
   ],
   "note": "Regions whose far edge does not fit in 32 bits panic (refuted separately); intersects also counts regions that only touch."
  },
  {
   "property": "C45",
   "status": "proved",
   "theorems": [
    "glyph_cache_bounded",
    "glyph_cache_sound",
    "glyph_cache_complete",
    "glyph_insert_exact",
    "glyph_len_exact",
    "render_cache_bounded",
    "render_cache_sound",
    "render_cache_complete",
    "text_store_exact",
    "drawing_store_exact",
    "cache_stats_exact",
    "lookups_change_nothing",
    "zero_limit_refuted",
    "overwrite_evicts_refuted"
   ],
   "note": "Every order of the hash map is covered by choices in the operations. A limit of zero still holds one entry (refuted)."
  },
  {
   "property": "C46",
   "status": "proved",
   "theorems": [
    "atlas_disjoint",
    "atlas_in_bounds",
    "atlas_ids",
    "allocation_sized",
    "first_allocation",
    "atlas_never_panics",
    "write_exact",
    "write_keeps_others",
    "too_wide_refuted",
    "refusal_wastes_row_refuted",
    "atlas_overflow_refuted",
    "clear_as_new"
   ],
   "note": "Disjointness holds always; in bounds only for requests no wider than the atlas (refuted otherwise: granted past the right edge, and writing there hits other regions)."
  },
  {
   "property": "C47",
   "status": "proved",
   "theorems": [
    "placing_exact",
    "placing_separates",
    "free_box_stays",
    "placing_never_panics",
    "placing_on_screen",
    "room_unused_refuted"
   ],
   "note": "Clamped boxes can overlap although there is room elsewhere (refuted). f32 arithmetic is shown exact on the grid."
  },
  {
   "property": "C48",
   "status": "proved",
   "theorems": [
    "registry_answers",
    "registry_refusal",
    "registry_lookup",
    "registry_names",
    "registry_owner_name"
   ],
   "note": "Every sequence of registrations, removals and look-ups on the extension registry answers as the history says; handlers are arbitrary functions."
  },
  {
   "property": "C49",
   "status": "proved",
   "theorems": [
    "session_replies",
    "session_limit",
    "session_read",
    "session_active",
    "session_kept",
    "cleanup_exact",
    "session_replaced_refuted",
    "session_edited_stale_refuted",
    "session_race_refuted",
    "cleanup_count"
   ],
   "note": "Creating a session under a taken name replaces it, edits do not count as use, and cleanup racing with use drops a session in use (refuted as guarantees)."
  },
  {
   "property": "C50",
   "status": "proved",
   "theorems": [
    "channel_order",
    "channel_replies",
    "channel_dispatch",
    "channel_exactly_once",
    "channel_batch",
    "channel_starves_refuted",
    "channel_poisoned_refuted",
    "channel_custom_refuted",
    "channel_queue_refuted",
    "channel_async"
   ],
   "note": "A failing handler keeps the event from later ones, a panic poisons the lock, and the queue bound is not respected (refuted as guarantees)."
  },
  {
   "property": "C51",
   "status": "proved",
   "theorems": [
    "second_font_is_lost",
    "add_two_fonts_refuted",
    "add_font_keeps_existing_refuted"
   ],
   "note": "What users would expect, that all fonts stay readable after another is added, is refuted: the data reader does not stop at the next fontname line, and with a following section the new entry is glued to the old terminator."
  },
  {
   "property": "C52",
   "status": "proved",
   "theorems": [
    "trim_lines_exact",
    "every_text_has_lines",
    "trim_lines_again",
    "trim_lines_idempotent_refuted"
   ],
   "note": "Exact behaviour; plain idempotence is refuted."
  },
  {
   "property": "C53",
   "status": "proved",
   "theorems": [
    "content_check_position",
    "content_check_accepts"
   ],
   "note": ""
  },
  {
   "property": "C54",
   "status": "proved",
   "theorems": [
    "execute_insert_undo",
    "execute_delete_undo_refuted",
    "execute_replace_undo_refuted"
   ],
   "note": "Insertions proved; deletions and replacements violate it (refuted)."
  },
  {
   "property": "C55",
   "status": "proved",
   "theorems": [
    "parse_reads_lines",
    "plugins_keep_sections"
   ],
   "note": "Sources below the size cap with headers closed on their line."
  },
  {
   "property": "C56",
   "status": "proved",
   "theorems": [
    "script_write_read",
    "script_read_write_read",
    "script_formats_mixed_refuted",
    "script_format_forgotten_refuted",
    "info_key_becomes_remark_refuted"
   ],
   "note": "Each exclusion that matters is refuted with a witness: mixed formats, forgotten formats, keys that become remarks."
  },
  {
   "property": "C57",
   "status": "proved",
   "theorems": [
    "sections_equal_iff",
    "delta_rebuilds_new",
    "delta_modified_only",
    "delta_misses_second_section_refuted"
   ],
   "note": "Up to spans and order of sections; false when a section type is repeated (shown)."
  },
  {
   "property": "C58",
   "status": "proved",
   "theorems": [
    "affected_sections_overlap",
    "parse_incremental_total",
    "incremental_is_fresh",
    "incremental_misses_new_line_refuted",
    "incremental_drops_old_styles_refuted",
    "incremental_offsets_refuted",
    "incremental_format_stale_refuted"
   ],
   "note": "Outside the condition it differs from parsing afresh: lines added after the last one are missed, a [V4 Styles] section disappears, offsets are relative to the section, formats are stale (each refuted)."
  },
  {
   "property": "C59",
   "status": "proved",
   "theorems": [
    "section_end_without_header",
    "section_end_at_first_header",
    "line_start_is_unique",
    "section_start_at_last_header",
    "header_search_panics_refuted"
   ],
   "note": "The end search is settled for every hint on a boundary. The start search is exact when the window starts on a character boundary; it panics otherwise (header_search_panics_refuted)."
  },
  {
   "property": "C60",
   "status": "proved",
   "theorems": [
    "line_segments",
    "line_breaks_exact",
    "line_break_is_newline",
    "line_breaks_agree_with_analysis",
    "line_breaks_final_backslash_refuted"
   ],
   "note": "The final backslash is the only disagreement with the text analysis shown."
  },
  {
   "property": "C61",
   "status": "proved",
   "theorems": [
    "plugins_hide_no_tag"
   ],
   "note": "Registry as a function of name and arguments."
  },
  {
   "property": "C62",
   "status": "proved",
   "theorems": [
    "analyzed_event_times",
    "timing_relation_meaning",
    "timing_relation_symmetric",
    "events_in_range_exact",
    "events_in_empty_range_refuted"
   ],
   "note": "Empty query ranges are an exception."
  },
  {
   "property": "C63",
   "status": "proved",
   "theorems": [
    "duration_of_event",
    "total_duration_exact",
    "average_duration_exact",
    "duration_overflow_refuted"
   ],
   "note": "duration_ms and the average overflow for very long events."
  },
  {
   "property": "C64",
   "status": "proved",
   "theorems": [
    "first_delimiter",
    "no_delimiter",
    "hex_parsed",
    "hex_flag_refuted"
   ],
   "note": "Delimiters: proved. Hex: exact characterisation, which includes a leading + (accepted differently by the two builds, hex_flag_refuted)."
  },
  {
   "property": "C65",
   "status": "proved",
   "theorems": [
    "utf8_accepted",
    "utf8_error_position",
    "utf8_error_position_refuted"
   ],
   "note": "Acceptance proved for both builds. The position is right without simd; with simd it is relative to the last partial chunk (refuted)."
  },
  {
   "property": "C66",
   "status": "proved",
   "theorems": [
    "tokens_follow_grammar",
    "grammar_deterministic",
    "tokenize_ok",
    "tokenize_field",
    "text_after_block_refuted"
   ],
   "note": "text_after_block_refuted shows one consequence a user would not expect."
  },
  {
   "property": "C67",
   "status": "proved",
   "theorems": [
    "token_positions",
    "tokenize_positions",
    "simd_same_tokens",
    "simd_same_tokens_refuted",
    "simd_columns_refuted",
    "simd_lines_refuted"
   ],
   "note": "Columns with simd, lines with lone carriage returns and tokens with semicolons differ (three refuted theorems)."
  },
  {
   "property": "C68",
   "status": "proved",
   "theorems": [
    "formats_valid",
    "rounding_nearest",
    "rounding_ties_to_even",
    "rounding_overflow",
    "rounding_exact",
    "rounding_monotone",
    "rounding_respects_value",
    "integers_exact",
    "number_read_exactly",
    "number_read_unique",
    "cast_bounded",
    "cast_truncates",
    "operations_nearest",
    "division_by_zero",
    "special_values"
   ],
   "note": "f32 and f64; the sign of zero is not modelled."
  },
  {
   "property": "C69",
   "status": "proved",
   "theorems": [
    "style_read_exact",
    "style_read_never_panics",
    "style_inherited_exact",
    "style_scaled_exact",
    "style_scaled_always",
    "style_complexity_bounded",
    "size_positive_refuted",
    "child_override_refuted"
   ],
   "note": "Exact for all styles. Positive sizes are refuted by the size NaN, and overriding a parent with 0 or 100 is refuted."
  },
  {
   "property": "C70",
   "status": "proved",
   "theorems": [
    "prepared",
    "overlap_rule_exact",
    "duration_rule_exact",
    "colour_rule_exact",
    "missing_style_rule_exact",
    "tag_rule_exact",
    "performance_rule_exact",
    "encoding_rule_exact",
    "accessibility_rule_exact",
    "rule_list",
    "missing_style_meaning",
    "lint_panics_refuted",
    "short_event_refuted",
    "defined_style_refuted",
    "later_sections_unlinted"
   ],
   "note": "Each rule's output is specified exactly. As documented the claim is false in four ways, each shown: some texts crash the analysis, a line of almost five seconds is called short, a line whose style is defined but unreadable is reported as undefined, and later event sections are not looked at."
  },
  {
   "property": "C71",
   "status": "proved",
   "theorems": [
    "performance_summary_exact",
    "performance_score_bounded",
    "advice_exact",
    "performance_issues_exact"
   ],
   "note": "Exact counts and score."
  },
  {
   "property": "C72",
   "status": "proved",
   "theorems": [
    "mul255_exact",
    "rows_agree",
    "blend_within_two",
    "blend_extremes",
    "blend_keeps_premultiplied"
   ],
   "note": "composite_exact (C73) ties these to the code's rows."
  },
  {
   "property": "C73",
   "status": "proved",
   "theorems": [
    "composite_exact",
    "composite_same_built",
    "draw_all_proper",
    "composite_far_refuted",
    "composite_wraps_refuted"
   ],
   "note": "For frames and bitmaps of fewer than 2^31 pixels placed so that i32 differences exist; refuted beyond: near i32::MIN it panics. RGBA bitmaps must be premultiplied, otherwise bytes wrap (refuted)."
  },
  {
   "property": "C74",
   "status": "proved",
   "theorems": [
    "crop_exact",
    "crop_then_draw",
    "clear_exact",
    "noted_boxes_hull",
    "layers_to_bitmaps",
    "leaked_layer_refuted",
    "saturated_hint_refuted"
   ],
   "note": "Drawing a layer is abstract: any function that leaves a premultiplied picture inside the boxes it notes. Refuted without that: pixels outside the box leak into the next layer; a box saturated at i32::MAX panics."
  },
  {
   "property": "C75",
   "status": "proved",
   "theorems": [
    "alpha_blend_within_one"
   ],
   "note": ""
  },
  {
   "property": "C76",
   "status": "proved",
   "theorems": [
    "batch_exact",
    "turn_unique",
    "free_place_exact",
    "shared_area",
    "least_priority_refuted",
    "free_place_outside_refuted"
   ],
   "note": "Refuted: priority i32::MIN panics; a free place may lie outside the bounds given."
  },
  {
   "property": "C77",
   "status": "proved",
   "theorems": [
    "srt_convert_round",
    "srt_format_round",
    "srt_writes_cues",
    "srt_arrow_refuted",
    "srt_number_refuted",
    "srt_warning_refuted",
    "srt_color_refuted",
    "srt_color_out_refuted",
    "second_events_refuted",
    "angle_text_refuted"
   ],
   "note": "Full round trip for every well-formed file. Refuted outside: arrows in text (converter), number-only paragraphs, colours, text between angle brackets, further [Events] sections (formats), and a warning on every well-formed file."
  },
  {
   "property": "C78",
   "status": "proved",
   "theorems": [
    "vtt_convert_round",
    "vtt_format_round",
    "vtt_writes_cues",
    "vtt_settings_refuted",
    "vtt_margin_refuted",
    "vtt_note_refuted",
    "vtt_comma_refuted"
   ],
   "note": "Full round trip for every well-formed file without cue settings. Refuted: exported cue settings cannot be read back, overflow panic on margins, NOTE/WEBVTT at the start of a text line, commas in times."
  },
  {
   "property": "C79",
   "status": "proved",
   "theorems": [
    "detects_srt",
    "detects_vtt",
    "detects_quoted_refuted",
    "import_never_panics",
    "srt_import_reads",
    "vtt_import_reads",
    "vtt_import_panics_refuted",
    "srt_import_counts",
    "converter_import_reads",
    "plain_import_reads"
   ],
   "note": "The WebVTT format panics on a timing line with nothing after the arrow; quoted headers are mistaken for a script (refuted)."
  },
  {
   "property": "C80",
   "status": "proved",
   "theorems": [
    "strip_removes_blocks",
    "plain_export_texts",
    "plain_export_stripped"
   ],
   "note": "Exact for all texts and scripts."
  },
  {
   "property": "C81",
   "status": "proved",
   "theorems": [
    "effect_one",
    "effect_all",
    "effect_all_refuted",
    "effect_clear_refuted",
    "effect_never_ends_refuted"
   ],
   "note": "Refuted outside: shorter lines hide the next event, text is taken for the effect, and for one effect the command provably never ends."
  },
  {
   "property": "C82",
   "status": "proved",
   "theorems": [
    "split_exact",
    "split_outside",
    "split_comma_refuted"
   ],
   "note": "Exact for clean events; commas in the text are refuted."
  },
  {
   "property": "C83",
   "status": "proved",
   "theorems": [
    "batch_delete_exact",
    "batch_delete_defined",
    "batch_delete_panics_refuted"
   ],
   "note": "Exact for every document that ends in a newline; refuted otherwise: a last line that ends in a multi-byte character panics, whichever events are named."
  },
  {
   "property": "C84",
   "status": "proved",
   "theorems": [
    "insert_tag_exact",
    "insert_tag_refused",
    "insert_braced_refuted",
    "wrap_tag_exact",
    "wrap_switches",
    "wrap_other_refuted",
    "tag_commands_unrecorded_refuted"
   ],
   "note": "Exact for every document. Refuted: a tag given in braces is always refused, the automatic closing tag goes by the first letter only, and no tag command can be undone."
  },
  {
   "property": "C85",
   "status": "proved",
   "theorems": [
    "text_has_parts",
    "remove_tag_exact",
    "remove_all_exact",
    "remove_nothing",
    "remove_prefix_refuted",
    "remove_comment_refuted",
    "remove_pattern_panics_refuted",
    "remove_open_refuted",
    "remove_nested_refuted"
   ],
   "note": "Exact for every text. Tags whose name merely begins with the pattern, comments, open and nested blocks are affected too (refuted as guarantees)."
  },
  {
   "property": "C86",
   "status": "proved",
   "theorems": [
    "replace_tag_exact",
    "replace_nothing",
    "replace_every",
    "replace_comment_refuted",
    "replace_open_refuted",
    "replace_prefix_refuted"
   ],
   "note": "Exact result proved for every text; comments in blocks and everything after an open brace are lost (refuted)."
  },
  {
   "property": "C87",
   "status": "proved",
   "theorems": [
    "list_tags_exact",
    "list_positions_refuted",
    "listed_positions"
   ],
   "note": "Completeness, order and parameters hold for every text. The positions are always too small (proved for every tag)."
  },
  {
   "property": "C88",
   "status": "proved",
   "theorems": [
    "event_build_reads",
    "event_build_default",
    "event_build_ssa_reads",
    "event_format_reads",
    "event_format_errors",
    "ssa_layer_lost_refuted",
    "top_margin_lost_refuted",
    "speaker_comma_refuted",
    "text_break_refuted"
   ],
   "note": "Proved for all calls whose values fit a column. Beside it: the layer is dropped for SSA, top and bottom margins are dropped in every version's format, and the conditions on values are needed, as a comma in a speaker's name shifts the fields and a line break in the text makes a second event; the builder checks neither."
  },
  {
   "property": "C89",
   "status": "proved",
   "theorems": [
    "style_build_reads",
    "style_build_version",
    "style_format_reads",
    "style_plus_format",
    "style_format_errors",
    "ssa_outline_lost_refuted",
    "star_name_refuted",
    "top_margin_style_lost_refuted",
    "style_ssa_format"
   ],
   "note": "Proved for every display function of f32 whose outputs fit a column. Beside it: the SSA tertiary colour is lost on reading, a name with a leading star makes a line the parser refuses, and build drops the top and bottom margins."
  },
  {
   "property": "C90",
   "status": "proved",
   "theorems": [
    "create_style_under",
    "create_style_apart",
    "create_twice_refuted",
    "create_format_last_refuted",
    "create_next_section_refuted",
    "create_mention_refuted"
   ],
   "note": "Proved for every document with a line after the header, or without styles. Beside it, where users may expect more: no check for a style of the same name, a format line that ends the text comes to stand below the style, without a format line the style lands in the next section, and a header named in a comment is taken for one."
  },
  {
   "property": "C91",
   "status": "proved",
   "theorems": [
    "delete_style_exact",
    "delete_style_fails",
    "delete_prefix_refuted",
    "delete_mention_refuted"
   ],
   "note": "The first 'Style: Name' of the text is exact; that it is the style named is not guaranteed: a style whose name begins with the name, or a dialogue that mentions it, is deleted if it comes first."
  },
  {
   "property": "C92",
   "status": "proved",
   "theorems": [
    "edit_style_exact",
    "edit_order_free",
    "edit_fields",
    "edit_name_refuted",
    "edit_no_blanks_refuted",
    "edit_prefix_refuted"
   ],
   "note": "Proved for format lines separated by comma and blank. Beside it: setting the name destroys the line, a format without blanks makes every edit a silent no-op, and a style whose name begins with the name is edited if it comes first."
  },
  {
   "property": "C93",
   "status": "proved",
   "theorems": [
    "clone_style_exact",
    "clone_style_fails",
    "clone_prefix_refuted",
    "clone_free_name_refuted"
   ],
   "note": "Both checks are for the text 'Style: Name' as a prefix, so that a longer name can be cloned or block the target."
  },
  {
   "property": "C94",
   "status": "proved",
   "theorems": [
    "apply_style_exact",
    "apply_style_ends",
    "apply_style_endless_refuted",
    "apply_longer_refuted",
    "apply_shorter_refuted",
    "apply_panics_refuted",
    "apply_text_refuted",
    "apply_blanks_refuted"
   ],
   "note": "Outside: the position is not adjusted, so that events are skipped or the command panics; text between commas is changed too; with commas in the new name the loop need not end (all refuted)."
  },
  {
   "property": "C95",
   "status": "proved",
   "theorems": [
    "section_exists",
    "info_needs_section",
    "get_info_first",
    "set_info_lines",
    "set_then_get",
    "names_apart",
    "delete_info_line",
    "delete_info_last",
    "delete_info_none",
    "delete_then_get",
    "set_bare_header",
    "set_bare_header_refuted",
    "set_suffix_refuted",
    "set_comment_refuted",
    "set_blank_refuted",
    "set_undo_refuted"
   ],
   "note": "The _refuted theorems show where the commands do less than a user may expect: a header without a line break, names inside longer names or comments, a value without a blank after the colon, undo."
  },
  {
   "property": "C96",
   "status": "proved",
   "theorems": [
    "get_all_info_pairs",
    "pairs_exist",
    "get_all_comment_refuted"
   ],
   "note": "Comment lines with a colon are listed too (get_all_comment_refuted)."
  },
  {
   "property": "C97",
   "status": "proved",
   "theorems": [
    "resolution_round_trip",
    "wrap_style_round_trip",
    "scaled_round_trip",
    "scaled_reads"
   ],
   "note": ""
  },
  {
   "property": "C98",
   "status": "proved",
   "theorems": [
    "list_media_names",
    "listed_exists",
    "add_media_listed",
    "add_media_new",
    "encoded_lines",
    "add_binary_listed",
    "add_glued",
    "add_glued_refuted",
    "exists_blank_refuted"
   ],
   "note": "The list grows by the name when the section ends in an empty line or is new; add_glued is the exact effect otherwise, add_glued_refuted a case where the file is lost."
  },
  {
   "property": "C99",
   "status": "proved",
   "theorems": [
    "remove_media_first",
    "remove_media_none",
    "remove_prefix_refuted",
    "remove_sections_refuted"
   ],
   "note": "remove_prefix_refuted and remove_sections_refuted: a longer name is taken, and a later section's file extends the deletion."
  },
  {
   "property": "C100",
   "status": "proved",
   "theorems": [
    "clear_media_empties",
    "clear_media_none",
    "clear_second_refuted"
   ],
   "note": ""
  },
  {
   "property": "C101",
   "status": "proved",
   "theorems": [
    "generate_exact",
    "generate_visible",
    "generate_seen",
    "generate_refused",
    "generate_spaces_refuted",
    "karaoke_unrecorded_refuted"
   ],
   "note": "generate_spaces_refuted: runs of spaces grow; karaoke_unrecorded_refuted: no karaoke command is recorded for undo."
  },
  {
   "property": "C102",
   "status": "proved",
   "theorems": [
    "split_exact",
    "split_succeeds",
    "split_unsorted_refuted",
    "split_inside_refuted"
   ],
   "note": "split_unsorted_refuted, split_inside_refuted: unsorted positions are dropped, a position inside a character panics."
  },
  {
   "property": "C103",
   "status": "proved",
   "theorems": [
    "apply_exact",
    "apply_visible",
    "apply_again",
    "apply_document",
    "apply_empty_refuted",
    "apply_tags_refuted",
    "beat_length"
   ],
   "note": "apply_empty_refuted: an empty pattern panics; apply_tags_refuted: other tags are dropped."
  },
  {
   "property": "C104",
   "status": "proved",
   "theorems": [
    "adjust_tags_exact",
    "adjust_document",
    "adjust_seen",
    "generate_set",
    "adjust_custom",
    "adjust_set",
    "adjust_scale",
    "adjust_offset",
    "adjust_refuted"
   ],
   "note": "adjust_refuted: two durations in one block, upper case, a space, an open block and overflow."
  },
  {
   "property": "C105",
   "status": "proved",
   "theorems": [
    "word_search_exact",
    "word_search_any_scope",
    "word_search_upper",
    "word_search_phrase",
    "case_search_refuted",
    "scope_search_refuted"
   ],
   "note": "For every choice of the Unicode functions with lower w = w on lower-case words. The _refuted theorems show that case sensitivity, scope and line numbers do not work as documented."
  },
  {
   "property": "C106",
   "status": "proved",
   "theorems": [
    "plain_search_exact",
    "plain_search_wide",
    "plain_search_empty",
    "first_line_refuted",
    "folded_search_refuted"
   ],
   "note": "Exact for patterns that start with a one-byte character and for case folding that keeps byte lengths; the panics outside that are theorems too."
  },
  {
   "property": "C107",
   "status": "proved",
   "theorems": [
    "word_replace_exact",
    "plain_replace_exact",
    "overlap_replace_refuted"
   ],
   "note": "Holds for every document reached by edits."
  },
  {
   "property": "C108",
   "status": "proved",
   "theorems": [
    "update_rebuilds",
    "update_unindexed",
    "update_none",
    "update_finds_all",
    "update_index_refuted",
    "update_single_exact"
   ],
   "note": "The general claim that the index is that of the new text is false (update_index_refuted). update_single_exact gives the result of any single change."
  },
  {
   "property": "C109",
   "status": "proved",
   "theorems": [
    "fst_search_exact",
    "fst_search_refuted",
    "fst_replace_exact"
   ],
   "note": "CR-free text; the automaton is modelled as subsequence on UTF-8 bytes. fst_replace_exact covers replacing."
  },
  {
   "property": "C110",
   "status": "proved",
   "theorems": [
    "linear_search_exact",
    "linear_search_refuted"
   ],
   "note": "For every permutation of the map."
  },
  {
   "property": "C111",
   "status": "proved",
   "theorems": [
    "query_exact",
    "query_views",
    "query_time_crash",
    "sort_crash_refuted",
    "query_place_refuted",
    "delete_found_refuted"
   ],
   "note": "lower-casing is a parameter; the reported line and range are constants (query_place_refuted); deleting the result of a query counts events differently (delete_found_refuted)"
  },
  {
   "property": "C112",
   "status": "proved",
   "theorems": [
    "get_exact",
    "all_exact",
    "find_event_text_exact",
    "field_value_exact",
    "info_fields_exact",
    "flags_exact",
    "styles_count_exact"
   ],
   "note": "for documents that parse"
  },
  {
   "property": "C113",
   "status": "proved",
   "theorems": [
    "at_insert_exact",
    "at_insert_line_exact",
    "at_delete_exact",
    "at_delete_beyond",
    "at_backspace_exact",
    "at_backspace_start",
    "insert_then_backspace",
    "at_line_column_exact",
    "at_line_column_beyond",
    "replace_line_end_exact",
    "replace_line_end_crlf",
    "replace_line_end_last",
    "replace_line_end_keeps_break_refuted",
    "replace_line_end_beyond"
   ],
   "note": "the CR of a CR LF is replaced with the rest of the line (replace_line_end_keeps_break_refuted)"
  },
  {
   "property": "C114",
   "status": "proved",
   "theorems": [
    "sel_edits_exact",
    "sel_wrap_panics"
   ],
   "note": ""
  },
  {
   "property": "C115",
   "status": "proved",
   "theorems": [
    "text_lines_unique",
    "indent_exact",
    "unindent_exact",
    "indent_unindent",
    "unindent_indent_refuted"
   ],
   "note": ""
  },
  {
   "property": "C116",
   "status": "proved",
   "theorems": [
    "edit_index_exact",
    "edit_index_reads",
    "edit_index_errors",
    "edit_index_same_refuted",
    "edit_index_blank_refuted",
    "edit_index_order_refuted",
    "edit_index_columns_refuted"
   ],
   "note": "exact under the stated condition; the refuted theorems show that it is needed"
  },
  {
   "property": "C117",
   "status": "proved",
   "theorems": [
    "edit_builder_exact",
    "edit_builder_errors",
    "edit_builder_kind_refuted",
    "edit_builder_number_refuted",
    "edit_builder_sections_refuted"
   ],
   "note": "formats that end in Text; the closure is a sequence of builder calls"
  },
  {
   "property": "C118",
   "status": "proved",
   "theorems": [
    "edit_text_exact",
    "edit_text_absent",
    "edit_text_refuted",
    "set_field_exact",
    "set_field_absent",
    "set_field_inside_refuted",
    "add_event_exact",
    "add_event_new",
    "add_style_exact",
    "add_style_new",
    "edit_style_exact",
    "edit_style_absent",
    "add_event_cut_refuted",
    "add_style_place_refuted"
   ],
   "note": "exact effects; the refuted theorems are the wrong places"
  },
  {
   "property": "C119",
   "status": "proved",
   "theorems": [
    "incremental_exact",
    "incremental_panics",
    "remembered_large",
    "remembered_small",
    "remembered_insert",
    "incremental_after_insert_refuted",
    "delta_command_exact",
    "delta_command_absent",
    "edit_safe_exact"
   ],
   "note": "The exact condition under which the edit works, and the panic otherwise; incremental_after_insert_refuted is a document on which it panics."
  },
  {
   "property": "C120",
   "status": "proved",
   "theorems": [
    "undo_incremental_nothing",
    "redo_incremental_debug",
    "undo_redo_incremental_refuted",
    "undo_first_edit_refuted"
   ],
   "note": "States what undo and redo do, not what one would like; the refuted theorems are runs in which the text is lost. Debug output is a parameter (any function of the section)."
  },
  {
   "property": "C121",
   "status": "proved",
   "theorems": [
    "script_delta_exact",
    "script_delta_not_recorded",
    "script_delta_kind_refuted",
    "script_delta_partly_refuted",
    "extract_to_end"
   ],
   "note": "Exact for texts of sections of different kinds; the refuted theorems show the others."
  },
  {
   "property": "C122",
   "status": "proved",
   "theorems": [
    "block_divided",
    "piece_named",
    "block_exact",
    "block_field",
    "named_reset_refuted",
    "last_tag_refuted",
    "comment_refuted"
   ],
   "note": "Exact for all block texts; the _refuted theorems show what users would expect and do not get."
  },
  {
   "property": "C123",
   "status": "proved",
   "theorems": [
    "transform_exact",
    "transform_answers",
    "acceleration_refuted"
   ],
   "note": "Numbers and colours are read by the models of the standard parser and of parse_bgr_color."
  },
  {
   "property": "C124",
   "status": "proved",
   "theorems": [
    "segments_of_text",
    "segments_exact",
    "segments_plain",
    "segments_panic",
    "segments_too_deep",
    "segments_show",
    "segments_panic_digit_refuted",
    "segments_panic_fade_refuted",
    "segments_plain_text_refuted"
   ],
   "note": "Without an extension registry. Refuted: no panic on analysable or on ASCII text; agreement with the plain text (drawings are shown as text, a final backslash is kept)."
  },
  {
   "property": "C125",
   "status": "proved",
   "theorems": [
    "event_tags_exact",
    "event_tags_panic",
    "event_tags_too_deep",
    "event_tags_segments_refuted"
   ],
   "note": "Without an extension registry."
  },
  {
   "property": "C126",
   "status": "proved",
   "theorems": [
    "progress_waits",
    "progress_ends",
    "progress_within",
    "progress_grows",
    "progress_exact",
    "progress_root_refuted",
    "progress_negative_refuted"
   ],
   "note": "sin and powf of the platform are arguments; the range and order claims assume powf keeps [0,1] and its order for the acceleration. Acceleration 0.5 is not a square root (refuted) and a negative one can finish early (refuted)."
  },
  {
   "property": "C127",
   "status": "proved",
   "theorems": [
    "byte_blend",
    "byte_blend_ends",
    "byte_blend_moves",
    "color_blend",
    "number_blend",
    "number_end_refuted"
   ],
   "note": "For numbers whose difference rounds, the blend at progress 1 need not be the target (refuted)."
  },
  {
   "property": "C128",
   "status": "proved",
   "theorems": [
    "animation_fields",
    "animation_panics",
    "animation_answers",
    "animation_untouched",
    "animation_after",
    "animation_start_refuted",
    "animation_alpha_refuted",
    "blend_kinds"
   ],
   "note": "An alpha that is not set starts at fully transparent, and \\alpha&HXX& inside \\t is ignored (both refuted)."
  },
  {
   "property": "C129",
   "status": "proved",
   "theorems": [
    "lines_divided",
    "lines_unique",
    "lines_whole",
    "lines_blank_refuted"
   ],
   "note": "Blank lines vanish (lines_blank_refuted)."
  },
  {
   "property": "C130",
   "status": "proved",
   "theorems": [
    "colors_without_fade",
    "fade_dims",
    "fade_opacity",
    "fade_grows",
    "fade_falls",
    "fade_panics",
    "alpha_tag_refuted",
    "fade_total_refuted"
   ],
   "note": "Accuracy for ramps up to 65536 centiseconds; \\alpha misses outline and shadow (alpha_tag_refuted)."
  },
  {
   "property": "C131",
   "status": "proved",
   "theorems": [
    "karaoke_sung",
    "karaoke_lines",
    "karaoke_panics",
    "karaoke_grows",
    "karaoke_continues_refuted",
    "karaoke_syllable_refuted"
   ],
   "note": "Lines after the first and split syllables are timed wrongly (refuted theorems)."
  },
  {
   "property": "C132",
   "status": "proved",
   "theorems": [
    "wrap_keeps_text"
   ],
   "note": ""
  },
  {
   "property": "C133",
   "status": "proved",
   "theorems": [
    "wrap_greedy",
    "wrap_balanced",
    "wrap_balanced_fits_refuted"
   ],
   "note": "fits: as computed by the code's own inked width; fair: single precision numbers up to 2^90."
  },
  {
   "property": "C134",
   "status": "proved",
   "theorems": [
    "pos_native",
    "pos_scaled",
    "pos_in_layout",
    "pos_stays",
    "move_starts",
    "move_ends",
    "move_onward",
    "move_even",
    "move_panics"
   ],
   "note": ""
  },
  {
   "property": "C135",
   "status": "proved",
   "theorems": [
    "margin_read",
    "anchor_near",
    "box_at_anchor",
    "margin_zeros_refuted"
   ],
   "note": "margin_zeros_refuted: an event margin written 0000 overrides the margin of the style with zero"
  },
  {
   "property": "C136",
   "status": "proved",
   "theorems": [
    "lines_stacked",
    "runs_in_a_row",
    "placed_lines_same_height",
    "placed_lines_stacked_refuted",
    "lines_stacked_off_keypad_refuted"
   ],
   "note": "line height and anchor natural numbers (of half pixels), frame of the script size"
  },
  {
   "property": "C137",
   "status": "proved",
   "theorems": [
    "event_text_kept",
    "event_not_wrapped",
    "wrap_style_chosen",
    "pos_in_text_refuted"
   ],
   "note": "pos_in_text_refuted: plain text containing \\pos is not wrapped"
  },
  {
   "property": "C138",
   "status": "proved",
   "theorems": [
    "frame_in_turn",
    "turn_once",
    "frame_exists",
    "lone_event_stays",
    "lone_event_stays_refuted",
    "unknown_style_overlaps_refuted"
   ],
   "note": "Fonts, shaping and effects are parameters. The boxes are reckoned against 1080 pixels whatever the frame: lone_event_stays_refuted. Events of undefined styles may overlap: unknown_style_overlaps_refuted."
  },
  {
   "property": "C139",
   "status": "proved",
   "theorems": [
    "opening_drawing_alone",
    "opening_drawing_still",
    "words_after_drawing_refuted",
    "drawing_fades_refuted"
   ],
   "note": "Words after an opening drawing are lost and fades do not act on it (refuted theorems)."
  },
  {
   "property": "C140",
   "status": "proved",
   "theorems": [
    "still_frame"
   ],
   "note": ""
  },
  {
   "property": "C141",
   "status": "proved",
   "theorems": [
    "prepared_twice",
    "prepared_afresh",
    "prepared_settings",
    "prepared_style",
    "prepared_default_style",
    "prepared_twice_refuted",
    "prepared_afresh_refuted"
   ],
   "note": "False without the conditions: prepared_twice_refuted, prepared_afresh_refuted."
  },
  {
   "property": "C142",
   "status": "proved",
   "theorems": [
    "kept_frames_fresh",
    "hidden_fade_frozen_refuted",
    "resized_refuted",
    "restyled_refuted"
   ],
   "note": "False without the conditions or after a change of context: the three refuted theorems."
  },
  {
   "property": "C143",
   "status": "proved",
   "theorems": [
    "dirty_regions_exact",
    "incremental_exact",
    "incremental_over_blank",
    "incremental_gone_refuted",
    "incremental_replaced_refuted",
    "incremental_animation_refuted"
   ],
   "note": "An incremental frame is not the full frame in general: the three refuted theorems."
  },
  {
   "property": "C144",
   "status": "proved",
   "theorems": [
    "track_waits",
    "track_ends",
    "track_within",
    "track_grows",
    "track_share"
   ],
   "note": "The powf of f32 is an argument; the bounds need it to keep [0,1] and its order."
  },
  {
   "property": "C145",
   "status": "proved",
   "theorems": [
    "track_first",
    "track_last",
    "track_between",
    "track_curve",
    "track_eased",
    "integer_blend",
    "integer_panics",
    "integer_end_refuted",
    "integer_target_refuted"
   ],
   "note": "The refuted theorems show the two ways wide integers fail."
  },
  {
   "property": "C146",
   "status": "proved",
   "theorems": [
    "controller_panics",
    "controller_last",
    "controller_none",
    "active_exact",
    "active_some",
    "state_readers",
    "waiting_track_refuted"
   ],
   "note": ""
  },
  {
   "property": "C147",
   "status": "proved",
   "theorems": [
    "tag_tracks",
    "tag_panics",
    "color_text",
    "color_alpha_text",
    "alpha_text",
    "plain_modifier",
    "script_modifier_refuted",
    "other_tags_refuted",
    "tag_times_refuted"
   ],
   "note": "Number texts are read by parse_float, the model of f32's FromStr."
  },
  {
   "property": "C148",
   "status": "proved",
   "theorems": [
    "drawing_words",
    "every_text_has_words",
    "same_words_same_drawing",
    "backslash_ends_drawing",
    "drawing_letter_case",
    "drawing_letter_spaces"
   ],
   "note": "Letters are never part of a number, so 1e3 is three words."
  },
  {
   "property": "C149",
   "status": "proved",
   "theorems": [
    "drawing_exact",
    "drawing_refused",
    "drawing_total",
    "drawing_unique",
    "leftover_always_refused_refuted",
    "leftover_always_passed_refuted"
   ],
   "note": "The two refuted theorems show that leftovers are neither always refused nor always passed over."
  },
  {
   "property": "C150",
   "status": "proved",
   "theorems": [
    "drawing_path",
    "drawing_no_path",
    "drawing_total_path",
    "spline_curves",
    "whole_points_apart",
    "spline_starts_at_first_point_refuted"
   ],
   "note": "The calls made to the path builder are modelled, not the builder (tiny-skia). A spline that opens a drawing does not move to its first point (refuted)."
  },
  {
   "property": "C151",
   "status": "proved",
   "theorems": [
    "handlers_exact",
    "handlers_trim",
    "handlers_finite_refuted"
   ],
   "note": "Grammars in HandlerSpec.rules; float arguments through FloatModel (exact rounding)."
  },
  {
   "property": "C152",
   "status": "proved",
   "theorems": [
    "handlers_registered",
    "answer_unique",
    "block_with_handlers",
    "standard_tags_refuted",
    "bracketed_position_rejected"
   ],
   "note": "standard_tags_refuted: \\pos(10,20) and \\move(...) are reported malformed because the handlers expect no brackets although the parser passes them."
  },
  {
   "property": "C153",
   "status": "proved",
   "theorems": [
    "project_exact",
    "extradata_exact",
    "sections_registered"
   ],
   "note": ""
  },
  {
   "property": "C154",
   "status": "proved",
   "theorems": [
    "register_builtin_exact",
    "register_builtin_succeeds",
    "register_builtin_twice",
    "register_sections_exact",
    "extradata_registered_refuted"
   ],
   "note": "The statement is about any prior registry. extradata_registered_refuted records that the extradata processor exists but is never registered by the built-in registration."
  },
  {
   "property": "C155",
   "status": "proved",
   "theorems": [
    "manager_history",
    "manager_moves"
   ],
   "note": "Each critical section is one step; a panicking method leaves the lock free (parking_lot does not poison)."
  },
  {
   "property": "C156",
   "status": "proved",
   "theorems": [
    "manager_safe",
    "dependencies_loaded_refuted",
    "dependencies_at_load_refuted",
    "removed_was_stopped_refuted",
    "executed_is_active_refuted",
    "command_returns_refuted"
   ],
   "note": "The five refuted theorems exhibit schedules or histories for the sentences said not to hold: initializing an unknown name leaves a state that satisfies dependency checks; load and unload are two critical sections each; execute_command does not look at the state; a command taken over is not given back."
  },
  {
   "property": "C157",
   "status": "proved",
   "theorems": [
    "load_exact",
    "initialize_exact",
    "unload_exact",
    "execute_exact",
    "whole_calls"
   ],
   "note": "unload_exact assumes distinct command keys, as a HashMap has."
  },
  {
   "property": "C158",
   "status": "proved",
   "theorems": [
    "own_context_exact",
    "other_context_returns",
    "builtin_initialize_hangs",
    "builtin_configuration",
    "context_settings",
    "single_context_settings_refuted",
    "context_data"
   ],
   "note": "The borrow of create_context keeps the manager variable itself from being used, so the own context comes from a clone. single_context_settings_refuted: without multi-thread a context does not see its own settings."
  },
  {
   "property": "C159",
   "status": "proved",
   "theorems": [
    "shared_history",
    "shared_moves"
   ],
   "note": "a waiting writer does not hold up readers in the model; a platform where it does has fewer schedules"
  },
  {
   "property": "C160",
   "status": "proved",
   "theorems": [
    "reads_finished_edits",
    "read_guard_stable",
    "write_guard_alone",
    "broken_stays"
   ],
   "note": "Stated about the events of any run; 'settled' is the value at the last release of write access without a panic"
  },
  {
   "property": "C161",
   "status": "proved",
   "theorems": [
    "tidy_progress",
    "tidy_finishes",
    "own_guard_hangs",
    "any_progress_refuted"
   ],
   "note": "any_progress_refuted: without the discipline two readers that execute a command wait forever"
  },
  {
   "property": "C162",
   "status": "proved",
   "theorems": [
    "pool_exact",
    "pool_keeps_all_refuted"
   ],
   "note": "pool_keeps_all_refuted: equal identifiers replace each other"
  },
  {
   "property": "C163",
   "status": "proved",
   "theorems": [
    "highlight_exact",
    "highlight_total"
   ],
   "note": "char::is_alphanumeric is an argument; the line that reaches the limit is coloured to its end"
  },
  {
   "property": "C164",
   "status": "proved",
   "theorems": [
    "highlight_orderly",
    "highlight_reads",
    "pieces_are_line",
    "crlf_shift_refuted",
    "style_shift_refuted"
   ],
   "note": "the refuted theorems: with CRLF, and in style lines with a blank after the colon, ranges are too far left"
  },
  {
   "property": "C165",
   "status": "proved",
   "theorems": [
    "highlight_cache",
    "forgotten_fresh",
    "cache_follows_text_refuted"
   ],
   "note": "cache_follows_text_refuted: an edited document is answered from the old text"
  },
  {
   "property": "C166",
   "status": "proved",
   "theorems": [
    "validation_exact",
    "validation_fails",
    "valid_complete",
    "valid_no_error_refuted"
   ],
   "note": "what parsing and analysis find is any function of the text and options; valid_no_error_refuted: an error after a hundred warnings is cut off"
  },
  {
   "property": "C167",
   "status": "proved",
   "theorems": [
    "validator_answers",
    "validator_transparent",
    "forced_fresh",
    "validator_collision_refuted"
   ],
   "note": "validator_collision_refuted: 7mohtcOFVz and c1E51sSEyx have one hash"
  },
  {
   "property": "C168",
   "status": "proved",
   "theorems": [
    "complete_exact",
    "complete_after_break_refuted",
    "complete_crlf_refuted"
   ],
   "note": "Exact characterisation against a declarative description of the cursor's surroundings. Lower-casing, the alphanumeric test and the style names found by parsing are arguments."
  },
  {
   "property": "C169",
   "status": "proved",
   "theorems": [
    "complete_panics_iff",
    "complete_no_panic_refuted",
    "trigger_exact",
    "trigger_end_answers"
   ],
   "note": "complete_no_panic_refuted exhibits the panic before a header."
  },
  {
   "property": "C170",
   "status": "proved",
   "theorems": [
    "tile_shows_area",
    "area_exists",
    "area_unique",
    "shade_unique",
    "rectangle_covers",
    "overlap_refuted"
   ],
   "note": "Exact arithmetic: the binary32 rounding error is not bounded. The number of chords for a curve is only known to be 1 to 64 (quadratic) or 1 to 96 (cubic). overlap_refuted: overlapping outlines add up instead of counting once."
  },
  {
   "property": "C171",
   "status": "proved",
   "theorems": [
    "calls_never_panic",
    "tile_never_panics",
    "far_curve_panics_refuted",
    "huge_bounds_panic_refuted"
   ],
   "note": "binary32 arithmetic with any square root that is right to within rounding. Panics outside the stated range are shown by the two refutations (overflow checks on)."
  },
  {
   "property": "C172",
   "status": "proved",
   "theorems": [
    "vtt_writes_settings",
    "vtt_reads_settings",
    "vtt_percent_refuted",
    "vtt_settings_refuted"
   ],
   "note": "Percentages, the usual form of line and position, give no position (vtt_percent_refuted); the converter's own importer cannot read settings back (vtt_settings_refuted)."
  },
  {
   "property": "C173",
   "status": "proved",
   "theorems": [
    "ssa_export_exact",
    "swapped_one"
   ],
   "note": "The renaming is stated as a relation that has one result per text (swapped_one); it also renames headers quoted in other lines."
  },
  {
   "property": "C174",
   "status": "proved",
   "theorems": [
    "text_frame_history",
    "text_bitmaps_history",
    "text_shapes_history",
    "blur_rotation_refuted",
    "sink_leak_refuted",
    "database_refuted",
    "blur_bitmaps_refuted",
    "sizes_refuted"
   ],
   "note": "The five refuted theorems show that each condition is needed: a blurred text turned about the x or y axis leaves its projected tile under the unturned key; a bitmap list that ends in an error leaves the sink set, so the next frame's text is lost; the shape cache does not record the font database; the second bitmap list of a blurred text differs from the first; two sizes with the same 16.16 number share an outline."
  },
  {
   "property": "C175",
   "status": "proved",
   "theorems": [
    "text_caches_bounded"
   ],
   "note": "The glyph cache has no limit in the code and none is claimed."
  },
  {
   "property": "C176",
   "status": "proved",
   "theorems": [
    "text_bitmaps_make_frame"
   ],
   "note": "If blending panics, so does composite_layers."
  },
  {
   "property": "C177",
   "status": "proved",
   "theorems": [
    "text_bordered_bitmaps",
    "karaoke_crop"
   ],
   "note": "The shadow of a border is not drawn on this path: the shadow bitmap is the fill's coverage."
  },
  {
   "property": "C178",
   "status": "proved",
   "theorems": [
    "gaussian_blur_exact",
    "float_bytes",
    "rational_bytes",
    "gaussian_blur_none",
    "gaussian_blur_panics"
   ],
   "note": "The kernel radius is ceil(3 sigma) as the code computes it. Both sides plus 92680 must fit an i32."
  },
  {
   "property": "C179",
   "status": "proved",
   "theorems": [
    "gaussian_blur_reach",
    "gaussian_blur_clear",
    "gaussian_blur_clean"
   ],
   "note": "gaussian_blur_exact (C178) ties gaussian to the code."
  },
  {
   "property": "C180",
   "status": "proved",
   "theorems": [
    "gaussian_blur_weights",
    "gaussian_blur_between",
    "gaussian_blur_uniform"
   ],
   "note": "Over the rationals; the rounding error of binary32 sums is not bounded."
  },
  {
   "property": "C181",
   "status": "proved",
   "theorems": [
    "gaussian_blur_white",
    "blur_premultiplied_refuted"
   ],
   "note": "composite_rgba adds channels that exceed their alpha and wraps at 256 (the blurred tile reaches it through a bitmap list, see TileModel)."
  },
  {
   "property": "C182",
   "status": "proved",
   "theorems": [
    "effects_exact",
    "effects_in_order",
    "event_text_layers"
   ],
   "note": "The karaoke effect follows these in the list and is part of C-claims on karaoke."
  },
  {
   "property": "C183",
   "status": "proved",
   "theorems": [
    "effects_read_tags",
    "effects_read_style",
    "effects_tags_win",
    "drawing_reads",
    "style_angle_refuted",
    "vertical_shear_refuted"
   ],
   "note": "A style's Angle is never used and \\fay without \\fax is ignored; both shown as refutations. Drawings are not rotated, sheared, stretched, faded or given a shadow."
  },
  {
   "property": "C184",
   "status": "proved",
   "theorems": [
    "unscaled_frame",
    "frame_bound_kinds",
    "edge_blur_grows_refuted"
   ],
   "note": "\\be is not scaled to the frame at all, unlike \\blur."
  },
  {
   "property": "C185",
   "status": "proved",
   "theorems": [
    "drawing_on_anchor",
    "drawing_xbord_refuted"
   ],
   "note": "Bounds are those of the path after scaling, computed by tiny-skia. \\xbord on a drawing is scaled by the vertical factor."
  },
  {
   "property": "C186",
   "status": "proved",
   "theorems": [
    "frames_are_values",
    "frames_no_leak",
    "frames_share",
    "frames_write_in_place"
   ],
   "note": "Refinement of a counted-pointer heap machine to plain values; each operation is one step (std's atomic counters are trusted)."
  },
  {
   "property": "C187",
   "status": "proved",
   "theorems": [
    "to_rgba_keeps_picture",
    "to_rgba_total",
    "is_empty_exact",
    "empty_frame_refuted"
   ],
   "note": "empty_frame_refuted: Frame::empty computes width * height * 4 in u32 and panics (checked build) on large sizes."
  },
  {
   "property": "C188",
   "status": "proved",
   "theorems": [
    "gpu_exact",
    "composite_no_history",
    "far_tile_refuted"
   ],
   "note": "wgpu is a parameter of the model. Sizes must fit the device: a tile whose right edge exceeds i32 panics and a tile without area is a device error (far_tile_refuted)."
  },
  {
   "property": "C189",
   "status": "proved",
   "theorems": [
    "gpu_exact",
    "layer_is_picture"
   ],
   "note": "gpu_exact states every answer and the user's textures after any list of calls."
  },
  {
   "property": "C190",
   "status": "proved",
   "theorems": [
    "tile_pixels",
    "far_tile_refuted"
   ],
   "note": "Under WebGPU's viewport transform, sampling at pixel centres and nearest filtering, with exact interpolation."
  },
  {
   "property": "C191",
   "status": "proved",
   "theorems": [
    "family_exact",
    "font_exact",
    "font_never_worse",
    "font_covered",
    "broken_face_refuted",
    "asian_best_refuted"
   ],
   "note": "Without readability of every face the claim is false: one unreadable font file makes every text fail that the chosen face does not fully show, and the empty text (broken_face_refuted). East Asian text may get a face that shows less than another (asian_best_refuted)."
  },
  {
   "property": "C192",
   "status": "proved",
   "theorems": [
    "player_shows",
    "player_cache",
    "cached_moment_refuted",
    "no_cache_holds_one_refuted"
   ],
   "note": "Frame provenance and the cache bound hold for every history. Refuted: that the frame shown is always the position's own (a cached frame from the same 40 ms slot is shown), and that a limit of zero keeps nothing."
  },
  {
   "property": "C193",
   "status": "proved",
   "theorems": [
    "player_plays",
    "player_forward",
    "player_in_range",
    "player_speed",
    "load_leaves_range_refuted",
    "speed_jump_refuted"
   ],
   "note": "Refuted: that a load keeps the position inside the new script, and that a change of speed while playing leaves the position alone (the time already played is counted twice)."
  },
  {
   "property": "C194",
   "status": "proved",
   "theorems": [
    "analyze_regions",
    "analyze_texts",
    "loose_frame_refuted"
   ],
   "note": "Refuted for frames whose buffer holds more pixels than the sizes say (Frame::new does not check): the analyser panics."
  },
  {
   "property": "C195",
   "status": "proved",
   "theorems": [
    "analyze_counts",
    "analyze_share",
    "dominant_refuted"
   ],
   "note": "Refuted: that the dominant colour is the colour of a pixel; it is chosen channel by channel."
  },
  {
   "property": "C196",
   "status": "proved",
   "theorems": [
    "compare_exact",
    "compare_average",
    "compare_zero",
    "compare_panics",
    "same_sizes_refuted",
    "total_refuted"
   ],
   "note": "The report is exact on the shared area. Refuted: no differences does not mean the same picture, since what lies outside the shared area is ignored though it counts in the average's divisor; and the pixel count passes through a float, so 4097 x 4097 is reported one too small."
  },
  {
   "property": "C197",
   "status": "proved",
   "theorems": [
    "shape_any",
    "shape_exact",
    "shape_panics"
   ],
   "note": "The shaper's answer per text, the boxes and metrics of a face are parameters. Exactness is for fonts of 2^k units and whole sizes; shape_any holds for all."
  },
  {
   "property": "C198",
   "status": "proved",
   "theorems": [
    "shape_cached_exact",
    "shape_cached_foreign",
    "own_database_refuted"
   ],
   "note": "Font files are assumed not to change. Refuted: the key leaves out the database, so a thread that uses a second database gets the first one's shapes."
  },
  {
   "property": "C199",
   "status": "proved",
   "theorems": [
    "glyphs_exact",
    "glyphs_near",
    "own_size_refuted",
    "own_font_refuted"
   ],
   "note": "Path building and moving are parameters. Refuted: two sizes less than 2^-16 apart share outlines; and a renderer handed a second database keeps the first one's font data for the same id."
  },
  {
   "property": "C200",
   "status": "proved",
   "theorems": [
    "box_exact",
    "box_inside",
    "coordinates_scaled",
    "ssa_alignment_read",
    "ssa_alignment_agree",
    "ssa_alignment_same_refuted"
   ],
   "note": "The two SSA readers disagree on the other bytes, for instance 8 (ssa_alignment_same_refuted)."
  },
  {
   "property": "C201",
   "status": "proved",
   "theorems": [
    "multiline_text",
    "multiline_exact",
    "multiline_by_characters_refuted"
   ],
   "note": "Widths count UTF-8 bytes, not characters (multiline_by_characters_refuted)."
  },
  {
   "property": "C202",
   "status": "proved",
   "theorems": [
    "placed_by_tags",
    "seen_on_keypad",
    "moved_at_its_ends",
    "moved_one_way",
    "unmoved_same",
    "right_aligned_refuted"
   ],
   "note": "The exact statement uses the columns the code tells apart: alignments 3, 6 and 9 are treated as centred, so right alignment is refuted (right_aligned_refuted); on the other keypad numbers the columns are the keypad's (seen_on_keypad)."
  },
  {
   "property": "C203",
   "status": "proved",
   "theorems": [
    "multiply_exact",
    "composition_exact",
    "identity_neutral",
    "transform_exact",
    "shear_applied_refuted",
    "transform_lerp_ends",
    "transform_lerp_one_way",
    "bezier_at_its_ends"
   ],
   "note": "The shear of a transform is ignored by its matrix (shear_applied_refuted). Sine and cosine are parameters; transform_exact takes them whole (quarter turns)."
  },
  {
   "property": "C204",
   "status": "proved",
   "theorems": [
    "parameters_checked",
    "position_checked",
    "clip_ordered",
    "rotation_normal",
    "rotation_whole_exact",
    "rotation_below_turn_refuted",
    "rotation_finite_refuted"
   ],
   "note": "A tiny negative angle becomes 360 itself (rotation_below_turn_refuted), and NaN or an infinity is accepted as a rotation and becomes NaN (rotation_finite_refuted)."
  },
  {
   "property": "C205",
   "status": "proved",
   "theorems": [
    "pool_statistics",
    "pool_resets",
    "pool_resets_counted",
    "pool_collects",
    "pool_cleaned",
    "strategy_keeps",
    "acceptable_refuted",
    "hybrid_restarts_refuted",
    "pool_reset_exact",
    "pool_asked",
    "pool_temp_exact",
    "pool_pressure",
    "pool_collects_itself"
   ],
   "note": "The use is measured only at resets, so an arena over its limit is reported acceptable (acceptable_refuted); the hybrid strategy's collection does not restart its operation count, so past 1000 operations it fires at every evaluation (hybrid_restarts_refuted). Counts are assumed below 2^53, which a double holds exactly, in the two theorems about ratios."
  },
  {
   "property": "C206",
   "status": "proved",
   "theorems": [
    "registry_last_wins",
    "registry_finds",
    "registry_extensions",
    "registry_opens",
    "registry_choice_refuted"
   ],
   "note": "Handlers use the default can_import/can_export of formats/traits.rs; what a handler does is an arbitrary value. registry_choice_refuted: with two formats sharing an extension the answer depends on the order of the hash map."
  },
  {
   "property": "C207",
   "status": "proved",
   "theorems": [
    "span_located",
    "span_foreign",
    "span_place_unique",
    "limits_checked"
   ],
   "note": "A slice is its address and length; slices of the source have their addresses inside it."
  },
  {
   "property": "C208",
   "status": "proved",
   "theorems": [
    "utf8_recovered",
    "utf8_reading_unique",
    "utf8_recovered_text",
    "utf8_kept",
    "utf8_count_refuted"
   ],
   "note": "String::from_utf8_lossy is modelled after core's Utf8Chunks. utf8_count_refuted: the reported count includes replacement characters that were in the input."
  },
  {
   "property": "C209",
   "status": "proved",
   "theorems": [
    "diagnosis_exact",
    "diagnosis_agrees",
    "diagnosis_lower_refuted",
    "overrides_reported",
    "overrides_clip_refuted",
    "name_accepted",
    "probe_first"
   ],
   "note": "diagnosis_lower_refuted: the parser reads &h, the diagnosis calls it invalid. overrides_clip_refuted: a \\clip counts as a colour override and \\3c does not."
  },
  {
   "property": "C210",
   "status": "proved",
   "theorems": [
    "inspector_pixel",
    "inspector_moves",
    "inspector_sets",
    "inspector_cursor",
    "inspector_region",
    "inspector_mean",
    "inspector_bounds",
    "inspector_line",
    "inspector_similar",
    "inspector_region_refuted",
    "inspector_move_refuted",
    "inspector_average_refuted"
   ],
   "note": "The three refuted theorems exhibit the false parts named in the statement: the panic on a region beyond the frame, the panic on a long move, and the average of a segment that ends early."
  },
  {
   "property": "C211",
   "status": "proved",
   "theorems": [
    "effect_parameters",
    "effect_found",
    "effect_removed",
    "effect_listed"
   ],
   "note": "A hash map is a list of entries with distinct keys, yielded in any order."
  },
  {
   "property": "C212",
   "status": "proved",
   "theorems": [
    "report_exact",
    "token_report_exact",
    "issues_gathered",
    "issues_critical",
    "issues_collected",
    "issues_emptied",
    "issues_errors",
    "report_suggestion_refuted"
   ],
   "note": "report_suggestion_refuted: a two-line message can imitate a suggestion, so the one-line condition is needed"
  }
 ]
}
