{
 "claims": [
  {
   "property": "C01",
   "status": "proved",
   "theorems": [
    "C01_parse_iff_grammar"
   ],
   "note": ""
  },
  {
   "property": "C02",
   "status": "partial",
   "theorems": [
    "C02_parse_terminates_partial",
    "C02_parse_terminates_refuted"
   ],
   "note": "false for texts with a bare backslash outside a string (the reader loops): refuted for those, proved for all others"
  },
  {
   "property": "C03",
   "status": "proved",
   "theorems": [
    "C03_any_layout_roundtrip",
    "C03_write_read",
    "C03_inspect_read",
    "C03_inspect_read_refuted"
   ],
   "note": "all canonical layouts; the debug printer does not escape, shown by C03_inspect_read_refuted"
  },
  {
   "property": "C04",
   "status": "proved",
   "theorems": [
    "C04_clone"
   ],
   "note": ""
  },
  {
   "property": "C05",
   "status": "partial",
   "theorems": [
    "C05_walk_success",
    "C05_walk_failure",
    "C05_walk_total",
    "C05_wrapped",
    "C05_walk_collects_partial",
    "C05_collect_only_unknown_refuted",
    "C05_walk_tmap_refuted",
    "C05_several"
   ],
   "note": "false in collect mode: known keywords after the last unknown one are collected too; exact behaviour proved"
  },
  {
   "property": "C06",
   "status": "partial",
   "theorems": [
    "C06_strings",
    "C06_switch",
    "C06_switch_total",
    "C06_enum",
    "C06_pair",
    "C06_number",
    "C06_vec2",
    "C06_stringset_partial",
    "C06_stringset_residue_refuted"
   ],
   "note": "string-set reading keeps residue on error paths; everything else proved"
  },
  {
   "property": "C07",
   "status": "proved",
   "theorems": [
    "C07_roundtrip"
   ],
   "note": ""
  },
  {
   "property": "C08",
   "status": "partial",
   "theorems": [
    "C08_accepts_grammar_partial",
    "C08_total",
    "C08_final_comma_refuted"
   ],
   "note": "false for texts ending in a comma (last empty field is dropped); exact for all others"
  },
  {
   "property": "C09",
   "status": "partial",
   "theorems": [
    "C09_column_partial",
    "C09_header_position",
    "C09_short_row_error_partial",
    "C09_no_crash_refuted",
    "C09_loader_partial"
   ],
   "note": "false: a row exactly one field short throws; exact characterisation of success, error and exception proved"
  },
  {
   "property": "C10",
   "status": "partial",
   "theorems": [
    "C10_roundtrip_partial",
    "C10_standard",
    "C10_roundtrip_five_bytes_refuted",
    "C10_roundtrip_six_bytes_refuted",
    "C10_decode_total"
   ],
   "note": "proved below 2^24 (all of Unicode); refuted from 2^24 on, with the exact set of surviving values"
  },
  {
   "property": "C11",
   "status": "partial",
   "theorems": [
    "C11_accepts_well_formed_partial",
    "C11_yes_refuted",
    "C11_no_partial",
    "C11_terminates_refuted"
   ],
   "note": "false: exact characterisation of yes / no / never returns proved; well-formed text is accepted"
  },
  {
   "property": "C12",
   "status": "partial",
   "theorems": [
    "C12_utf32_roundtrip_partial",
    "C12_count_partial",
    "C12_utf16_roundtrip_partial",
    "C12_nul_refuted",
    "C12_astral_refuted",
    "C12_total"
   ],
   "note": "false for NUL and (UTF-16) for characters beyond U+FFFF; proved for all other texts"
  },
  {
   "property": "C13",
   "status": "partial",
   "theorems": [
    "C13_tokens_partial",
    "C13_delivers_meaning",
    "C13_string_verbatim",
    "C13_escapes_refuted",
    "C13_termination_refuted",
    "C13_total",
    "C13_number_at_end_refuted"
   ],
   "note": "tokens of every RFC 8259 document proved with strings as written; false (refuted with exact conditions): escapes are not resolved, an unclosed string never returns, a number at the end of input is an error"
  },
  {
   "property": "C14",
   "status": "proved",
   "theorems": [
    "C14_skip",
    "C14_skip_text"
   ],
   "note": ""
  },
  {
   "property": "C15",
   "status": "partial",
   "theorems": [
    "C15_geojson_partial",
    "C15_point_refuted",
    "C15_point_z_refuted",
    "C15_line_3d_refuted",
    "C15_rings_3d_refuted",
    "C15_multipolygon_3d_refuted",
    "C15_collection_refuted",
    "C15_malformed_refuted",
    "C15_not_json_refuted",
    "C15_lines_index"
   ],
   "note": "proved for documents with two-dimensional positions other than Point; refuted for Point, three-dimensional positions, GeometryCollection and malformed input"
  },
  {
   "property": "C16",
   "status": "proved",
   "theorems": [
    "C16_reads_tree",
    "C16_any_string"
   ],
   "note": ""
  },
  {
   "property": "C17",
   "status": "partial",
   "theorems": [
    "C17_unterminated_string",
    "C17_unclosed_block",
    "C17_excess_closing_paren",
    "C17_unclosed_paren_refuted",
    "C17_total"
   ],
   "note": "false for unclosed parentheses (refuted for every call); unterminated strings, unbalanced blocks, excess closing parentheses and totality proved"
  },
  {
   "property": "C18",
   "status": "proved",
   "theorems": [
    "C18_history",
    "C18_inline"
   ],
   "note": ""
  },
  {
   "property": "C19",
   "status": "proved",
   "theorems": [
    "C19_grouping",
    "C19_partition"
   ],
   "note": ""
  },
  {
   "property": "C20",
   "status": "partial",
   "theorems": [
    "C20_order_independent_partial",
    "C20_order_nan_refuted",
    "C20_nan_hides_data_refuted",
    "C20_covers_partial",
    "C20_covers_rounded",
    "C20_covers_refuted",
    "C20_attained_partial",
    "C20_explicit_limits",
    "C20_columns"
   ],
   "note": "exact and rounded coverage, attainment and order independence proved for data without NaN; refuted for NaN (order matters, NaN hides data) and, with padding in double precision, coverage"
  },
  {
   "property": "C21",
   "status": "partial",
   "theorems": [
    "C21_linear",
    "C21_linear_binary64_partial",
    "C21_binary64_refuted"
   ],
   "note": "proved in exact arithmetic (untranslate inverts translate, strictly monotone, ends); in binary64 ends and monotonicity are proved and the exact inverse is refuted"
  },
  {
   "property": "C22",
   "status": "partial",
   "theorems": [
    "C22_log_partial",
    "C22_untranslate_refuted",
    "C22_untranslate_max_partial",
    "C22_zero_refuted"
   ],
   "note": "translate proved (exact arithmetic); untranslate does not invert translate (refuted for every base and limits off the documented case), exact at the maximum"
  },
  {
   "property": "C23",
   "status": "partial",
   "theorems": [
    "C23_centres_partial",
    "C23_inside_distinct",
    "C23_binary64",
    "C23_unknown_value",
    "C23_repeated_refuted",
    "C23_empty_refuted",
    "C23_subdivide_refuted"
   ],
   "note": "proved for distinct categories; refuted for repeated categories and for a scale without categories (undefined behaviour)"
  },
  {
   "property": "C24",
   "status": "partial",
   "theorems": [
    "C24_subdivide",
    "C24_subdivide_binary32",
    "C24_subdivide_last_refuted",
    "C24_subdivide_zero_refuted",
    "C24_categorical",
    "C24_categorical_bounds_partial",
    "C24_bounds_empty_refuted",
    "C24_linear",
    "C24_interval",
    "C24_align_partial",
    "C24_align_inverted_refuted",
    "C24_alignat_partial",
    "C24_alignat_refuted",
    "C24_exponential",
    "C24_exponential_steps",
    "C24_reader",
    "C24_reader_errors",
    "C24_defaults"
   ],
   "note": "every placement characterised exactly; refuted: last tick in binary32, 0 divisions, align on inverted scales, alignat not at A, bounds without categories"
  },
  {
   "property": "C25",
   "status": "partial",
   "theorems": [
    "C25_terminates_partial",
    "C25_max_ticks_refuted",
    "C25_error_dropped_refuted",
    "C25_reader_accepts",
    "C25_negative_step_refuted",
    "C25_zero_step_refuted",
    "C25_small_step_refuted",
    "C25_exp_base_refuted",
    "C25_log_negative_refuted",
    "C25_subdivide_unbounded_refuted"
   ],
   "note": "termination and the bound 8193 proved for positive steps on linear/log scales in exact arithmetic; refuted for negative/zero steps, tiny steps in binary64, base < 1, negative log data; the tick limit is off by one and its error dropped"
  },
  {
   "property": "C26",
   "status": "partial",
   "theorems": [
    "C26_pt_inverse",
    "C26_consistent",
    "C26_binary64_partial",
    "C26_binary64_refuted",
    "C26_zero_dpi_refuted"
   ],
   "note": "exact arithmetic proved; in binary64 accuracy 2^-50 proved and exactness refuted (17 pt at 96 dpi)"
  },
  {
   "property": "C27",
   "status": "partial",
   "theorems": [
    "C27_read",
    "C27_read_total",
    "C27_print_read",
    "C27_percent_refuted",
    "C27_unit_refuted",
    "C27_size",
    "C27_position",
    "C27_no_unit",
    "C27_default",
    "C27_percent_size_refuted",
    "C27_normalize_partial",
    "C27_mm_refuted",
    "C27_font_mm_refuted",
    "C27_dash_percent_refuted",
    "C27_converters",
    "C27_layer_size_partial",
    "C27_layer_em_refuted",
    "C27_lists",
    "C27_font_parent",
    "C27_dash_partial"
   ],
   "note": "reading, printing, sizes and positions proved; refuted: mm never resolved by measure_normalize, percentages in dash settings resolve to 0, em/% layer sizes become 0, percent round trip in binary64"
  },
  {
   "property": "C28",
   "status": "proved",
   "theorems": [
    "C28_leap_years",
    "C28_month_lengths"
   ],
   "note": ""
  },
  {
   "property": "C29",
   "status": "partial",
   "theorems": [
    "C29_every_day_counted",
    "C29_instant",
    "C29_exact_partial",
    "C29_later_is_later_partial",
    "C29_before_epoch_refuted",
    "C29_before_1970_refuted",
    "C29_missing_day_refuted"
   ],
   "note": "exact for instants at or after the epoch; refuted for instants before it (they wrap), for years before 1970 and for dates without month or day"
  },
  {
   "property": "C30",
   "status": "partial",
   "theorems": [
    "C30_dates_read",
    "C30_date_times_read",
    "C30_accepted_exactly_partial",
    "C30_text_to_instant",
    "C30_missing_days_refuted",
    "C30_times_refuted",
    "C30_overrun_refuted",
    "C30_no_other_overrun"
   ],
   "note": "every valid text is read, the accepted language characterised exactly; refuted: days that do not exist are accepted, times without zone or with second 60 rejected, YYYY-MM- reads past the end"
  },
  {
   "property": "C31",
   "status": "proved",
   "theorems": [
    "C31_add_sub_inverse",
    "C31_distance",
    "C31_units_inverse",
    "C31_whole_units",
    "C31_constructors",
    "C31_sums"
   ],
   "note": ""
  },
  {
   "property": "C32",
   "status": "partial",
   "theorems": [
    "C32_split_then_join",
    "C32_join_then_split_byte",
    "C32_join_then_split_partial",
    "C32_join_then_split_refuted"
   ],
   "note": "join after split proved for every text; split after join proved for one-byte separators and, for longer ones, under a no-overlap condition, without which it is refuted"
  },
  {
   "property": "C33",
   "status": "partial",
   "theorems": [
    "C33_replaced_partial",
    "C33_empty_pattern_refuted"
   ],
   "note": "proved for non-empty patterns; the empty pattern never ends (refuted)"
  },
  {
   "property": "C34",
   "status": "proved",
   "theorems": [
    "C34_compare",
    "C34_total_order",
    "C34_prefix_suffix"
   ],
   "note": ""
  },
  {
   "property": "C35",
   "status": "partial",
   "theorems": [
    "C35_trim_partial",
    "C35_trim_refuted",
    "C35_buffers"
   ],
   "note": "proved when something is left; refuted (undefined behaviour) on the empty text and on texts of stripped characters only"
  },
  {
   "property": "C36",
   "status": "partial",
   "theorems": [
    "C36_classes",
    "C36_number_partial",
    "C36_number_refuted",
    "C36_strip_shell"
   ],
   "note": "exact languages of all predicates; refuted: isNumber and isDigitString accept texts without digits"
  },
  {
   "property": "C37",
   "status": "proved",
   "theorems": [
    "C37_hex_print"
   ],
   "note": "fewer than 2^31 bytes"
  },
  {
   "property": "C38",
   "status": "partial",
   "theorems": [
    "C38_sequence_partial",
    "C38_edits_partial",
    "C38_reserve_zero_refuted",
    "C38_self_copy_refuted",
    "C38_self_move_refuted",
    "C38_copied_mark_refuted",
    "C38_move_assign_leak_refuted"
   ],
   "note": "proved for all histories over any number of buffers, also with copies and moves; refuted: reserve(0) on an empty allocated block raises, self-assignment loses the contents, marks of copies are uninitialised, move assignment leaks"
  },
  {
   "property": "C39",
   "status": "partial",
   "theorems": [
    "C39_round_trip",
    "C39_round_trip_alpha",
    "C39_short",
    "C39_reject_partial",
    "C39_throw_refuted",
    "C39_garbage_refuted",
    "C39_total",
    "C39_blank_refuted",
    "C39_sign_refuted"
   ],
   "note": "reading and printing all 2^24 (and 2^32 with alpha) colours is exact, in binary32/binary64; refuted: non-hex digits raise or are accepted instead of being rejected"
  },
  {
   "property": "C40",
   "status": "partial",
   "theorems": [
    "C40_gradient_partial",
    "C40_at_stop",
    "C40_range_partial",
    "C40_above_refuted",
    "C40_below_refuted",
    "C40_steps",
    "C40_edge",
    "C40_nan_refuted"
   ],
   "note": "linear interpolation, exactness at the stops, range in binary64 and step maps proved; refuted: above the last stop undefined, below the first fading to black, nan"
  },
  {
   "property": "C41",
   "status": "partial",
   "theorems": [
    "C41_cyclic_partial",
    "C41_zero_refuted",
    "C41_string_refuted",
    "C41_exception_refuted",
    "C41_in_bounds"
   ],
   "note": "proved for indices 1 to 2^63-1 and memory safety for all; refuted: index 0, plain strings (off by one), overflow and the empty text"
  },
  {
   "property": "C42",
   "status": "partial",
   "theorems": [
    "C42_body",
    "C42_attr_partial",
    "C42_attr_refuted"
   ],
   "note": "text content proved; attributes proved for texts without double quote, < and &, refuted for every other text"
  },
  {
   "property": "C43",
   "status": "partial",
   "theorems": [
    "C43_product",
    "C43_associative",
    "C43_apply",
    "C43_path",
    "C43_point",
    "C43_path_compose_partial",
    "C43_path_compose_refuted",
    "C43_builders",
    "C43_rotation_distance"
   ],
   "note": "all proved in exact arithmetic; composition of path transforms for affine matrices (all the code builds), refuted for others"
  },
  {
   "property": "C44",
   "status": "proved",
   "theorems": [
    "C44_round_trip",
    "C44_rings",
    "C44_flatten",
    "C44_rectangles"
   ],
   "note": ""
  },
  {
   "property": "C45",
   "status": "partial",
   "theorems": [
    "C45_margins",
    "C45_never_negative",
    "C45_margins_binary64",
    "C45_margins_binary64_refuted",
    "C45_align",
    "C45_align_inside"
   ],
   "note": "proved in exact arithmetic with an error bound in binary64; exact containment refuted in binary64"
  },
  {
   "property": "C46",
   "status": "partial",
   "theorems": [
    "C46_rows",
    "C46_flow",
    "C46_flow_order_partial",
    "C46_one_row",
    "C46_wide_first_refuted",
    "C46_drawn_partial",
    "C46_overflow_refuted",
    "C46_label",
    "C46_height_only_refuted"
   ],
   "note": "Rows and flow proved in exact arithmetic for nonnegative sizes; refuted: a too wide first item leaves an empty row, a legend that does not fit is drawn outside its box, height limit without width limit is undefined"
  },
  {
   "property": "C47",
   "status": "partial",
   "theorems": [
    "C47_order",
    "C47_unique",
    "C47_permutation",
    "C47_uniform",
    "C47_reads_past_end_refuted",
    "C47_empty_refuted"
   ],
   "note": "Order proved equal to the Unicode rule for every level list; refuted (undefined): the level behind the last run is read if the last run is not at level 0, and a line without runs"
  },
  {
   "property": "C48",
   "status": "proved",
   "theorems": [
    "C48_document",
    "C48_written",
    "C48_draw",
    "C48_no_line",
    "C48_color_refuted",
    "C48_default_styles"
   ],
   "note": "document read back by an independent SVG reader, for colours with channels in [0,1] (larger channels refuted); see C64 for the numbers that can be written"
  },
  {
   "property": "C49",
   "status": "partial",
   "theorems": [
    "C49_others",
    "C49_set_get_partial",
    "C49_quantised",
    "C49_bright_refuted",
    "C49_negative_refuted",
    "C49_rgb_refuted",
    "C49_wrap_refuted",
    "C49_bounds",
    "C49_convert",
    "C49_clear_partial"
   ],
   "note": "Storing and reading back proved for components up to 127/255 and every position; refuted: brighter components are converted out of range of a signed char, negative components, RGB images are not written, positions wrap around"
  },
  {
   "property": "C50",
   "status": "partial",
   "theorems": [
    "C50_custom",
    "C50_custom_empty",
    "C50_superscript",
    "C50_superscript_injective",
    "C50_integer_partial",
    "C50_integer_refuted",
    "C50_not_a_number",
    "C50_fixed",
    "C50_scientific_partial",
    "C50_scientific_small_refuted",
    "C50_base_partial",
    "C50_base_between_refuted",
    "C50_base_negative_refuted",
    "C50_datetime_partial",
    "C50_datetime_refuted",
    "C50_configure",
    "C50_argument_ignored_refuted",
    "C50_custom_words",
    "C50_unknown",
    "C50_choice",
    "C50_not_finite"
   ],
   "note": "Custom, fixed, superscript formatters proved in full; refuted: integer and datetime conversion out of range is undefined, scientific formatter below 1, base formatter for values between powers and negative values, ignored arguments"
  },
  {
   "property": "C51",
   "status": "partial",
   "theorems": [
    "C51_points_csv_refuted",
    "C51_points_inline",
    "C51_detection",
    "C51_points_geojson_partial"
   ],
   "note": "CSV is detected but never loadable (refuted)"
  },
  {
   "property": "C52",
   "status": "proved",
   "theorems": [
    "C52_at_or",
    "C52_fallback"
   ],
   "note": ""
  },
  {
   "property": "C53",
   "status": "proved",
   "theorems": [
    "C53_paper_sizes",
    "C53_other_names",
    "C53_resize_error",
    "C53_resize_two",
    "C53_defaults",
    "C53_dpi_font_size"
   ],
   "note": ""
  },
  {
   "property": "C54",
   "status": "proved",
   "theorems": [
    "C54_resolution"
   ],
   "note": "exact arithmetic"
  },
  {
   "property": "C55",
   "status": "partial",
   "theorems": [
    "C55_size_map",
    "C55_between",
    "C55_not_a_number",
    "C55_nan_refuted",
    "C55_reader"
   ],
   "note": "proved for numbers; a datum read as NaN gives a NaN size (refuted)"
  },
  {
   "property": "C56",
   "status": "partial",
   "theorems": [
    "C56_in_words_partial",
    "C56_years_refuted",
    "C56_short_refuted"
   ],
   "note": "proved below one year and in whole milliseconds; refuted: no space after the years, nothing printed below 1 ms"
  },
  {
   "property": "C57",
   "status": "partial",
   "theorems": [
    "C57_find",
    "C57_find_last_partial",
    "C57_find_last_refuted",
    "C57_includes",
    "C57_includesi",
    "C57_upper",
    "C57_lower"
   ],
   "note": "findLast fails for texts longer than 2^31 bytes (refuted), everything else proved"
  },
  {
   "property": "C58",
   "status": "partial",
   "theorems": [
    "C58_number_text_partial",
    "C58_number_text_refuted"
   ],
   "note": "proved up to 120 integer digits; beyond, the buffer is overrun (refuted). The decimal conversion of %f itself is libc's"
  },
  {
   "property": "C59",
   "status": "proved",
   "theorems": [
    "C59_lists",
    "C59_hex",
    "C59_other_texts",
    "C59_maps",
    "C59_map_errors",
    "C59_palettes",
    "C59_palette_list",
    "C59_palette_unknown"
   ],
   "note": ""
  },
  {
   "property": "C60",
   "status": "proved",
   "theorems": [
    "C60_circle"
   ],
   "note": "in exact arithmetic"
  },
  {
   "property": "C61",
   "status": "proved",
   "theorems": [
    "C61_rotated_bounds"
   ],
   "note": "in exact arithmetic"
  },
  {
   "property": "C62",
   "status": "partial",
   "theorems": [
    "C62_lines",
    "C62_parallel",
    "C62_lopsided_refuted",
    "C62_line_segment",
    "C62_segments",
    "C62_polygon",
    "C62_zero_length_refuted"
   ],
   "note": "proved in exact arithmetic for segments of non-zero length; refuted: the parallel test is lopsided, zero-length segments hit everything"
  },
  {
   "property": "C63",
   "status": "partial",
   "theorems": [
    "C63_ends",
    "C63_points",
    "C63_zero_edges_refuted",
    "C63_flat_rectangle_refuted"
   ],
   "note": "termination and position proved in exact arithmetic for polygons without zero-length edges; refuted: never ends for two zero-length edges"
  },
  {
   "property": "C64",
   "status": "partial",
   "theorems": [
    "C64_number",
    "C64_defined",
    "C64_range_refuted",
    "C64_path",
    "C64_poly_refuted"
   ],
   "note": "proved for numbers in the range of int; refuted (undefined) for whole numbers beyond and infinities"
  },
  {
   "property": "C65",
   "status": "partial",
   "theorems": [
    "C65_corner",
    "C65_borders_partial",
    "C65_border_sides_refuted"
   ],
   "note": "Position proved; refuted: top and bottom borders are exchanged"
  },
  {
   "property": "C66",
   "status": "proved",
   "theorems": [
    "C66_position",
    "C66_other_words",
    "C66_order"
   ],
   "note": "Full"
  },
  {
   "property": "C67",
   "status": "partial",
   "theorems": [
    "C67_runs_partial",
    "C67_plain",
    "C67_reorder",
    "C67_empty_text_refuted"
   ],
   "note": "Proved for nonempty text and every level assignment; refuted (undefined) for empty text with bidirectional support"
  },
  {
   "property": "C68",
   "status": "proved",
   "theorems": [
    "C68_font",
    "C68_font_error",
    "C68_layout",
    "C68_no_overlap"
   ],
   "note": "Exact arithmetic; shaping (harfbuzz) is a parameter"
  },
  {
   "property": "C69",
   "status": "proved",
   "theorems": [
    "C69_placed",
    "C69_rotated",
    "C69_turn",
    "C69_colour"
   ],
   "note": "Exact arithmetic; glyph outlines (freetype) are a parameter"
  },
  {
   "property": "C70",
   "status": "proved",
   "theorems": [
    "C70_inline",
    "C70_lines",
    "C70_lines_exact"
   ],
   "note": "For every option list and data source in the machine's own arithmetic (rounding as a parameter); end to end for inline data and exactly for linear axes in exact arithmetic; glyph outlines are a parameter"
  },
  {
   "property": "C71",
   "status": "partial",
   "theorems": [
    "C71_ranges",
    "C71_covers_exact",
    "C71_covers_binary64",
    "C71_lines_inside",
    "C71_program",
    "C71_points_program",
    "C71_bars_program_refuted",
    "C71_constant_refuted",
    "C71_vectors_refuted"
   ],
   "note": "Ranges cover the data of all elements, at every command, proved for any program on numeric axes (exact, and for floats in binary64); whole programs for lines and points. Refuted: constant data gives NaN, vectors' tips are not covered, bars' zero is not in the range"
  },
  {
   "property": "C72",
   "status": "partial",
   "theorems": [
    "C72_points",
    "C72_inline",
    "C72_shapes_refuted"
   ],
   "note": "Proved for every option list and data source; refuted: the option shapes always fails"
  },
  {
   "property": "C73",
   "status": "proved",
   "theorems": [
    "C73_bars",
    "C73_corners_exact",
    "C73_inline"
   ],
   "note": "For every option list and data source; exact corners in exact arithmetic; end to end for inline data"
  },
  {
   "property": "C74",
   "status": "proved",
   "theorems": [
    "C74_areas",
    "C74_inline"
   ],
   "note": "For every option list and data source; end to end for inline data"
  },
  {
   "property": "C75",
   "status": "partial",
   "theorems": [
    "C75_errorbars_partial",
    "C75_caps_exact",
    "C75_zero_refuted",
    "C75_horizontal_refuted",
    "C75_inline"
   ],
   "note": "Proved for vertical bars; refuted: horizontal bars use the wrong origin (x instead of y), bars of length zero have NaN caps"
  },
  {
   "property": "C76",
   "status": "partial",
   "theorems": [
    "C76_vectors_partial",
    "C76_vectors_exact",
    "C76_inverted_refuted",
    "C76_tip_refuted",
    "C76_zero_refuted",
    "C76_inline"
   ],
   "note": "Proved for axes that are not inverted; refuted: inverted axes point the other way, the tip overshoots by four sizes, zero vectors have NaN heads"
  },
  {
   "property": "C77",
   "status": "proved",
   "theorems": [
    "C77_rectangles",
    "C77_extent_exact",
    "C77_inline"
   ],
   "note": "For every option list and data source; end to end for inline data"
  },
  {
   "property": "C78",
   "status": "partial",
   "theorems": [
    "C78_polygons_partial",
    "C78_corner_exact",
    "C78_clamped_refuted",
    "C78_holes_refuted"
   ],
   "note": "Boundaries proved; refuted: corners beyond the limits are moved to the border, holes are not scaled"
  },
  {
   "property": "C79",
   "status": "partial",
   "theorems": [
    "C79_labels_partial",
    "C79_mirrored_refuted",
    "C79_too_many_refuted"
   ],
   "note": "Number, text and order proved; refuted: heights are mirrored, more labels than points is undefined"
  },
  {
   "property": "C80",
   "status": "partial",
   "theorems": [
    "C80_exp_steps_refuted",
    "C80_axis_refuted",
    "C80_axes_example",
    "C80_ticks_at_data",
    "C80_axes",
    "C80_same_place",
    "C80_default_ticks",
    "C80_ticks_any_scale"
   ],
   "note": "Linear scales in exact arithmetic with every placement by value or by division, all sides; placements by value on any scale and any rounding. Refuted: the axis command ignores the scales of the plot; exponential-steps labels ticks with another value"
  },
  {
   "property": "C81",
   "status": "partial",
   "theorems": [
    "C81_tick_length_refuted",
    "C81_space",
    "C81_within",
    "C81_never_negative",
    "C81_behind",
    "C81_area_kept"
   ],
   "note": "Area proved for any options and program; refuted: tick marks take no space"
  },
  {
   "property": "C82",
   "status": "partial",
   "theorems": [
    "C82_mirrored_refuted",
    "C82_lines",
    "C82_even_ticks"
   ],
   "note": "Lines proved; refuted: horizontal lines are mirrored unless the ticks are even"
  },
  {
   "property": "C83",
   "status": "proved",
   "theorems": [
    "C83_painted_in_order"
   ],
   "note": "For every program and command"
  },
  {
   "property": "C84",
   "status": "partial",
   "theorems": [
    "C84_page",
    "C84_order",
    "C84_draw_refuted"
   ],
   "note": "Page settings proved for every program; the order is irrelevant for class plot; refuted for class draw, where a setting that comes last is an error"
  },
  {
   "property": "C85",
   "status": "partial",
   "theorems": [
    "C85_options",
    "C85_plot",
    "C85_legend_items",
    "C85_draw",
    "C85_plot_command_refuted",
    "C85_axis_refuted",
    "C85_axis_empty_refuted"
   ],
   "note": "Proved for the options of all elements, axes, grid, legend, its items, background and for class draw; refuted: an unknown command of a plot and an unknown option of axis are skipped"
  },
  {
   "property": "C86",
   "status": "partial",
   "theorems": [
    "C86_legend",
    "C86_inside"
   ],
   "note": "Items, order, borders and background proved for any options; inside the box without rounding and if there is room (see also C46)"
  },
  {
   "property": "C87",
   "status": "partial",
   "theorems": [
    "C87_complete",
    "C87_failure_partial",
    "C87_errors",
    "C87_short_write_refuted",
    "C87_png_refuted",
    "C87_stdout_refuted",
    "C87_arguments_refuted"
   ],
   "note": "Proved for SVG files; refuted: short writes leave partial files, PNG output is empty with status 0, stdout errors are ignored, wrong arguments end with status 0"
  },
  {
   "property": "C88",
   "status": "partial",
   "theorems": [
    "C88_eval_refuted",
    "C88_format"
   ],
   "note": "Setting the format proved; refuted: clip_eval does nothing"
  },
  {
   "property": "C89",
   "status": "partial",
   "theorems": [
    "C89_draw_styles_accepted",
    "C89_stroke_style",
    "C89_fill",
    "C89_draw_styles",
    "C89_hatch_then_color_refuted",
    "C89_color_then_hatch_refuted",
    "C89_none_refuted",
    "C89_fill_solid_refuted",
    "C89_border_style_refuted"
   ],
   "note": "Stroke, hatch, fill and draw styles characterised exactly; refuted where the code departs: a colour and a hatching given one after the other, a style after none, (fill solid) in drawings, the borders of axes and legends"
  },
  {
   "property": "C90",
   "status": "partial",
   "theorems": [
    "C90_names",
    "C90_distinct",
    "C90_triangle_refuted",
    "C90_parentheses_refuted",
    "C90_round",
    "C90_glyph"
   ],
   "note": "Names, distinctness, roundness and position proved; refuted: two triangle names give one shape, parenthesised markers are errors"
  },
  {
   "property": "C91",
   "status": "partial",
   "theorems": [
    "C91_load_as",
    "C91_load_as_refuted",
    "C91_column",
    "C91_csv",
    "C91_other_list_refuted",
    "C91_nested_refuted",
    "C91_empty_file_refuted",
    "C91_strings",
    "C91_lines_csv",
    "C91_points_geojson",
    "C91_lines_geojson",
    "C91_polygons_geojson"
   ],
   "note": "Values of every form and the conditions for CSV data proved for all files; refuted: other lists count as an empty value, an empty file has every column"
  },
  {
   "property": "C92",
   "status": "partial",
   "theorems": [
    "C92_tick_placement_refuted",
    "C92_options_by_side",
    "C92_shown"
   ],
   "note": "Every option and side proved; refuted: tick-placement-x and -y are unknown"
  },
  {
   "property": "C93",
   "status": "proved",
   "theorems": [
    "C93_rectangle",
    "C93_text",
    "C93_program",
    "C93_corners",
    "C93_position"
   ],
   "note": "Every program, options and defaults, as an equivalence; glyph shapes are those of the text layout (C69, C70)"
  },
  {
   "property": "C94",
   "status": "partial",
   "theorems": [
    "C94_truetype",
    "C94_glyph",
    "C94_truetype_glyph",
    "C94_broken_contour_refuted",
    "C94_cubic_start_refuted",
    "C94_unknown_tag"
   ],
   "note": "Every outline made of curves, in binary64; every TrueType outline; refuted: a contour with a single cubic control point is accepted and cut, one that begins with a cubic control point ends the program"
  },
  {
   "property": "C95",
   "status": "partial",
   "theorems": [
    "C95_number",
    "C95_number_error",
    "C95_length",
    "C95_color",
    "C95_color_error",
    "C95_limits",
    "C95_limit_min_max_padding",
    "C95_kind",
    "C95_font",
    "C95_dash",
    "C95_color_map",
    "C95_size_map"
   ],
   "note": "Numbers, lengths (without rounding), limits and scale kinds as equivalences; colours, colour and size maps for every documented form; partial because malformed hexadecimal colours are not refused (C39_throw_refuted, C39_garbage_refuted)"
  },
  {
   "property": "C96",
   "status": "partial",
   "theorems": [
    "C96_mkdir_p_makes_directory",
    "C96_mkdir_p",
    "C96_mkdir_p_slash_refuted",
    "C96_mkdir_p_race_refuted",
    "C96_join_paths",
    "C96_join_root_refuted",
    "C96_ls",
    "C96_du_c",
    "C96_du_c_hidden_refuted",
    "C96_du_c_root_refuted",
    "C96_read",
    "C96_short_read_refuted",
    "C96_rm",
    "C96_rm_refuted",
    "C96_absent",
    "C96_nowhere"
   ],
   "note": "mkdir_p for all schedules (soundness) and exactly for all spellings without '..'; joining, listing, sizes, removing, reading; refuted: a slash at the end or a second process makes mkdir_p fail although the directory was made, joining with the root is undefined, du_c leaves out hidden files, rm reports nothing, short reads are not noticed. mv, truncate and cp are not modelled"
  },
  {
   "property": "C97",
   "status": "partial",
   "theorems": [
    "C97_settings",
    "C97_axis_settings",
    "C97_space",
    "C97_drawn",
    "C97_middle_title_refuted",
    "C97_middle_labels_refuted"
   ],
   "note": "All settings of axis and axes; space and drawing of the axes at the four sides in exact arithmetic; refuted: in the middle (axis with align x or y) the title is placed by the wrong extent and the labels of align y are drawn over the axis. Lengths of label-padding, title-padding and tick-length are taken without conversion of units (rd_measure)"
  },
  {
   "property": "C98",
   "status": "partial",
   "theorems": [
    "C98_histories",
    "C98_determined",
    "C98_self_assignment_refuted",
    "C98_failed_assignment_refuted",
    "C98_deref_empty_refuted"
   ],
   "note": "All histories without assigning an Option to itself and without an assignment over a value during which the copy throws; both of these are undefined behaviour in the code (refuted)"
  },
  {
   "property": "C99",
   "status": "proved",
   "theorems": [
    "C99_new_page",
    "C99_document",
    "C99_default_document",
    "C99_fonts",
    "C99_background"
   ],
   "note": "Drawing of the background without rounding; the document for pages of whole numbers of pixels, in exact and in binary64 arithmetic"
  },
  {
   "property": "C100",
   "status": "partial",
   "theorems": [
    "C100_message",
    "C100_long_refuted",
    "C100_untyped_refuted",
    "C100_nul_refuted"
   ],
   "note": "All sequences of calls for formatted messages and for std::string messages below 1024 characters without NUL; refuted: a std::string of 1024 characters or more (RAISEF) is stored without an end and reading it is undefined, a NUL cuts the message, type and location of an exception without them are undefined"
  },
  {
   "property": "C101",
   "status": "partial",
   "theorems": [
    "C101_memory",
    "C101_file",
    "C101_short_refuted",
    "C101_long_printf_refuted",
    "C101_descriptors",
    "C101_closed_stdin_refuted",
    "C101_opened"
   ],
   "note": "All histories; refuted: short writes to files are answered with a smaller number but not repeated, printf of 8192 characters or more throws, and in a process without standard input a file that is opened is reported as an error and stays open"
  },
  {
   "property": "C102",
   "status": "partial",
   "theorems": [
    "C102_hex",
    "C102_no_loss",
    "C102_alphanumeric",
    "C102_zero_refuted"
   ],
   "note": "For every sequence of nonzero numbers; refuted: a generated 0 aborts the process"
  },
  {
   "property": "C103",
   "status": "partial",
   "theorems": [
    "C103_pictures",
    "C103_page",
    "C103_blank_refuted",
    "C103_turned_text",
    "C103_failed_font",
    "C103_turned_shape_refuted",
    "C103_curves_refuted",
    "C103_zero_dash_refuted",
    "C103_text_size_refuted"
   ],
   "note": "All sequences of shapes of straight lines with dashes that cairo accepts and of texts without transformation, in any rounding, relative to the documented meaning of the cairo calls; refuted: pages made by the drawing commands give an empty picture, curves are left out, a turned text turns the shapes behind it, dashes of length zero make everything after them disappear, texts have the size in points as pixels"
  },
  {
   "property": "C104",
   "status": "partial",
   "theorems": [
    "C104_formats_partial",
    "C104_printed",
    "C104_round_trip_partial",
    "C104_year_10000_refuted",
    "C104_order",
    "C104_accepted",
    "C104_junk_refuted",
    "C104_short_format_refuted",
    "C104_long_refuted",
    "C104_labels"
   ],
   "note": "printing, order, acceptance and labels proved; round trip proved up to the year 9999 and refuted from 10000 on; trailing junk, formats without all six numbers and texts of 256 bytes refuted; other strftime conversions are parameters"
  },
  {
   "property": "C105",
   "status": "partial",
   "theorems": [
    "C105_options",
    "C105_accepted",
    "C105_default",
    "C105_limits",
    "C105_lengths",
    "C105_words",
    "C105_replaced_refuted"
   ],
   "note": "accepted options, what each says, words as categories, defaults and lengths proved; a second list of words leaves the first in the lookup (C105_replaced_refuted)"
  },
  {
   "property": "C106",
   "status": "proved",
   "theorems": [
    "C106_line_chart",
    "C106_chart"
   ],
   "note": "From the text of a program to the file, in binary64: proved for programs with any number of lines, points, bars and areas elements with inline data or columns of CSV files, sizes in pixels, colours #rrggbb, limits of the axes and an optional page size in pixels. Other elements, other data, axes and legends are covered by the theorems for the single steps (C70 to C87, C48), not by one theorem."
  },
  {
   "property": "C107",
   "status": "partial",
   "theorems": [
    "C107_first",
    "C107_same_walk",
    "C107_same_tool",
    "C107_sizes",
    "C107_palettes",
    "C107_units",
    "C107_kinds",
    "C107_layouts_partial",
    "C107_listed_refuted",
    "C107_csv_refuted",
    "C107_stroke_refuted",
    "C107_steps_refuted",
    "C107_silent_refuted",
    "C107_one_argument",
    "C107_nargs_refuted",
    "C107_stderr",
    "C107_wrong_size",
    "C107_wrong_module",
    "C107_place_refuted",
    "C107_first_option",
    "C107_switch",
    "C107_number",
    "C107_range",
    "C107_length",
    "C107_measure_map",
    "C107_placement_arguments",
    "C107_placement_numbers",
    "C107_color_map",
    "C107_formats",
    "C107_points_file",
    "C107_font",
    "C107_unreadable",
    "C107_same_strokes"
   ],
   "note": "first fault, names, stderr and status, page sizes, units, palettes, kinds of scale proved; refuted: csv is refused by a message that lists it, a word that is only accepted as a list is listed, dashed is missing for strokes, steps reported as gradient, wrong numbers of arguments for size and subdivide, an error without any text, and no message says in which command the fault is; the messages of modules and fonts are parameters (those of the parser: C112)"
  },
  {
   "property": "C108",
   "status": "partial",
   "theorems": [
    "C108_best",
    "C108_none",
    "C108_page",
    "C108_unreadable_font_refuted",
    "C108_file_refuted",
    "C108_program",
    "C108_text",
    "C108_preferred",
    "C108_measure",
    "C108_size_refuted"
   ],
   "note": "order of preference, fallback, measures and errors proved, fontconfig and freetype are parameters; refuted: one unreadable font of the system makes every page fail, relative font files with other endings are not opened, sizes and resolutions are cut to 64ths and whole dots. The arithmetic of text shaping is that of real numbers cut to integers."
  },
  {
   "property": "C109",
   "status": "partial",
   "theorems": [
    "C109_metric_partial",
    "C109_overflow_refuted",
    "C109_thousand_refuted",
    "C109_tiny_refuted",
    "C109_not_a_number_refuted"
   ],
   "note": "proved for numbers up to 10^130 in exact arithmetic (C109_metric_partial); refuted for larger ones (read behind the buffer from 10^140), 999.96, 1e-14, and what is not a number"
  },
  {
   "property": "C110",
   "status": "partial",
   "theorems": [
    "C110_written",
    "C110_no_file_refuted",
    "C110_empty_refuted"
   ],
   "note": "proved for images with pixels and files that can be created; refuted: no file, and images without pixels (undefined behaviour)"
  },
  {
   "property": "C111",
   "status": "partial",
   "theorems": [
    "C111_owned",
    "C111_moved",
    "C111_write_read",
    "C111_write",
    "C111_open",
    "C111_opened",
    "C111_clone",
    "C111_append_refuted",
    "C111_exec_refuted",
    "C111_partial_write_refuted",
    "C111_read_on",
    "C111_size",
    "C111_truncate",
    "C111_sound"
   ],
   "note": "ownership over all histories, moves, clones, opening, reading and writing proved; refuted: O_APPEND is ignored, every descriptor is inherited, a failed write may have written a part"
  },
  {
   "property": "C112",
   "status": "partial",
   "theorems": [
    "C112_same",
    "C112_first_fault",
    "C112_answers",
    "C112_unclosed_refuted",
    "C112_stale_refuted",
    "C112_tool",
    "C112_tool_unclosed_refuted"
   ],
   "note": "the first fault and what could have stood there proved for every text; refuted: at a premature end the message does not say what is missing (empty for any block that is not closed), or is one left over from an unclosed parenthesis that was accepted"
  },
  {
   "property": "C113",
   "status": "partial",
   "theorems": [
    "C113_lines",
    "C113_points",
    "C113_bars",
    "C113_areas",
    "C113_errorbars",
    "C113_rectangles",
    "C113_labels",
    "C113_vectors",
    "C113_vectors_fit",
    "C113_polygons",
    "C113_no_labels",
    "C113_no_map",
    "C113_plain_scales",
    "C113_categories",
    "C113_lines_case",
    "C113_bars_case",
    "C113_points_case",
    "C113_many_labels_refuted",
    "C113_vectors_refuted",
    "C113_no_categories_refuted",
    "C113_no_categories_case",
    "C113_gradient_refuted",
    "C113_polygons_refuted",
    "C113_many_labels_case"
   ],
   "note": "proved for any option list if there are no more labels than points, as many differences as vectors, categories on categorical scales, and gradients that reach 1; refuted without each of these"
  },
  {
   "property": "C114",
   "status": "partial",
   "theorems": [
    "C114_plot",
    "C114_draw",
    "C114_commands",
    "C114_text",
    "C114_tool",
    "C114_text_case",
    "C114_settings_only_refuted",
    "C114_settings_case",
    "C114_ticks_refuted"
   ],
   "note": "proved for every program that has a command and keeps to the plain features (no point labels, gradients, vectors, logarithmic scales, ticks by step, integer-converting label formats; polygons not with categories), up to the printing of the picture; refuted: a program of settings only dereferences a null pointer, ticks with step 0 never end"
  },
  {
   "property": "C115",
   "status": "partial",
   "theorems": [
    "C115_calls_partial",
    "C115_released_partial",
    "C115_left",
    "C115_case",
    "C115_size_refuted",
    "C115_defaults_refuted",
    "C115_glyph_refuted",
    "C115_null_refuted"
   ],
   "note": "proved for all histories in which sizes can be set on pages and fontconfig has a configuration and understands the pattern; nothing is left over if moreover glyphs are outlines and the default fonts are not listed; refuted: a page whose font size cannot be set frees a face twice, each listing of the default fonts leaks an object set, glyphs that are not outlines leak, a pattern that fontconfig cannot parse is used as a null pointer"
  },
  {
   "property": "C116",
   "status": "proved",
   "theorems": [
    "C116_program",
    "C116_text",
    "C116_any_order",
    "C116_settings_first",
    "C116_elements",
    "C116_names_refuted",
    "C116_padding_refuted"
   ],
   "note": "for programs of class plot; options are exchanged when the table of their names lists different things for them; refuted for options that merely have different names: color overrides fill, scale-x: categorical resets scale-x-padding"
  },
  {
   "property": "C117",
   "status": "proved",
   "theorems": [
    "C117_parts",
    "C117_removed",
    "C117_swapped",
    "C117_permuted",
    "C117_swapped_free",
    "C117_inserted",
    "C117_unlimited_refuted"
   ],
   "note": "for programs of class plot that give the limits of both scales and make a picture; without given limits proved for exchanges (numeric axes, data without NaN) and refuted for leaving out, since ranges follow the data of all commands; axes and the margin commands are meant to change the room of what comes after them and are not among the commands that only draw"
  },
  {
   "property": "C118",
   "status": "proved",
   "theorems": [
    "C118_respelled",
    "C118_file_or_list",
    "C118_lines_file",
    "C118_bare_refuted",
    "C118_texts_refuted"
   ],
   "note": "for programs of class plot and CSV files without a final comma (C08); refuted for values outside a list, which only bars and errorbars take, and for texts (labels, colors, sizes, shapes), where a CSV column is added to earlier texts and a list of texts replaces them"
  },
  {
   "property": "C119",
   "status": "proved",
   "theorems": [
    "C119_element",
    "C119_plot"
   ],
   "note": "for programs of class plot and the shorthands listed in Short_Spec.shorthands"
  }
 ]
}