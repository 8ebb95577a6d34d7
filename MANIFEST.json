{
 "claims": [
  {
   "property": "C01",
   "status": "proved",
   "theorems": [
    "C01_create_card_layout",
    "C01_create_card_all_types",
    "C01_create_card_refused"
   ],
   "note": ""
  },
  {
   "property": "C02",
   "status": "proved",
   "theorems": [
    "C02_keyword_roundtrip",
    "C02_keyword_injective"
   ],
   "note": ""
  },
  {
   "property": "C03",
   "status": "proved",
   "theorems": [
    "C03_string_value_exact",
    "C03_slash_exact",
    "C03_slash_roundtrip_refuted",
    "C03_slash_undefined_refuted"
   ],
   "note": ""
  },
  {
   "property": "C04",
   "status": "proved",
   "theorems": [
    "C04_integer_roundtrip"
   ],
   "note": ""
  },
  {
   "property": "C05",
   "status": "proved",
   "theorems": [
    "C05_bool_roundtrip",
    "C05_bool_column",
    "C05_bool_only_T_or_F"
   ],
   "note": ""
  },
  {
   "property": "C06",
   "status": "proved",
   "theorems": [
    "C06_complex_int_unreadable",
    "C06_complex_size_exact"
   ],
   "note": ""
  },
  {
   "property": "C07",
   "status": "proved",
   "theorems": [
    "C07_first_read_wins",
    "C07_recreate_is_fresh_refuted"
   ],
   "note": ""
  },
  {
   "property": "C08",
   "status": "proved",
   "theorems": [
    "C08_set_value_in_memory",
    "C08_set_value_too_long_ignored",
    "C08_set_value_record_rejected",
    "C08_set_integer_record_length",
    "C08_set_value_refused",
    "C08_never_refused"
   ],
   "note": ""
  },
  {
   "property": "C09",
   "status": "proved",
   "theorems": [
    "C09_comment_never_leaks",
    "C09_field_text",
    "C09_tight_comment_drops_character",
    "C09_tight_comment_refuted"
   ],
   "note": ""
  },
  {
   "property": "C10",
   "status": "proved",
   "theorems": [
    "C10_constructor_accepts",
    "C10_constructor_rejects",
    "C10_short_strings_out_of_range"
   ],
   "note": ""
  },
  {
   "property": "C11",
   "status": "proved",
   "theorems": [
    "C11_commentary_layout",
    "C11_commentary_value",
    "C11_short_key_refuted",
    "C11_literal_value_too_long_refuted"
   ],
   "note": ""
  },
  {
   "property": "C12",
   "status": "proved",
   "theorems": [
    "C12_header_roundtrip",
    "C12_queries_keep_equality",
    "C12_padding_to_block",
    "C12_name_query_breaks_equality_refuted"
   ],
   "note": ""
  },
  {
   "property": "C13",
   "status": "proved",
   "theorems": [
    "C13_consumes_records",
    "C13_first_bad_record_rejected",
    "C13_truncated_end_accepted_refuted"
   ],
   "note": ""
  },
  {
   "property": "C14",
   "status": "proved",
   "theorems": [
    "C14_contains_keyword",
    "C14_read_header_values",
    "C14_proper_header_accepted",
    "C14_too_many_axes"
   ],
   "note": ""
  },
  {
   "property": "C15",
   "status": "proved",
   "theorems": [
    "C15_missing_keywords_use_first_card",
    "C15_missing_bitpix_error_of_first_card",
    "C15_missing_bitpix_rejected_refuted"
   ],
   "note": ""
  },
  {
   "property": "C16",
   "status": "proved",
   "theorems": [
    "C16_no_end_reads_forever",
    "C16_terminates_exactly"
   ],
   "note": ""
  },
  {
   "property": "C17",
   "status": "proved",
   "theorems": [
    "C17_data_size",
    "C17_exact_when_it_fits",
    "C17_zero_axis",
    "C17_overflow_refuted"
   ],
   "note": ""
  },
  {
   "property": "C18",
   "status": "proved",
   "theorems": [
    "C18_unit_end",
    "C18_aligned_skips_block",
    "C18_fits_rule_exactly_unaligned"
   ],
   "note": ""
  },
  {
   "property": "C19",
   "status": "proved",
   "theorems": [
    "C19_read_chars",
    "C19_failed_stream_reads_blanks"
   ],
   "note": ""
  },
  {
   "property": "C20",
   "status": "proved",
   "theorems": [
    "C20_written_units_are_read",
    "C20_written_text",
    "C20_read_units",
    "C20_bad_unit",
    "C20_rewritten",
    "C20_primary_unedited",
    "C20_primary_edited",
    "C20_binary_unedited",
    "C20_binary_edited",
    "C20_ascii_unedited",
    "C20_ascii_edited"
   ],
   "note": ""
  },
  {
   "property": "C21",
   "status": "proved",
   "theorems": [
    "C21_same_names_collide",
    "C21_names"
   ],
   "note": ""
  },
  {
   "property": "C22",
   "status": "proved",
   "theorems": [
    "C22_truncated_data_never_ends",
    "C22_truncated_data_throws"
   ],
   "note": ""
  },
  {
   "property": "C23",
   "status": "proved",
   "theorems": [
    "C23_single_roundtrip",
    "C23_big_endian_bytes",
    "C23_bytes_roundtrip",
    "C23_signed_integers"
   ],
   "note": ""
  },
  {
   "property": "C24",
   "status": "proved",
   "theorems": [
    "C24_numeric_vectors",
    "C24_byte_vectors",
    "C24_bool_vectors",
    "C24_size"
   ],
   "note": ""
  },
  {
   "property": "C25",
   "status": "proved",
   "theorems": [
    "C25_complex_vectors",
    "C25_single_complex_and_pair",
    "C25_pair_vectors_exact",
    "C25_pair_vector_roundtrip_refuted"
   ],
   "note": ""
  },
  {
   "property": "C26",
   "status": "proved",
   "theorems": [
    "C26_read_is_zero",
    "C26_write_back_refuted"
   ],
   "note": ""
  },
  {
   "property": "C27",
   "status": "proved",
   "theorems": [
    "C27_pixels",
    "C27_write_back",
    "C27_remainder_dropped"
   ],
   "note": ""
  },
  {
   "property": "C28",
   "status": "proved",
   "theorems": [
    "C28_max",
    "C28_min",
    "C28_median",
    "C28_total_on_nonempty",
    "C28_median_order_free",
    "C28_empty",
    "C28_mean",
    "C28_std_dev",
    "C28_std_dev_zero",
    "C28_std_dev_single"
   ],
   "note": ""
  },
  {
   "property": "C29",
   "status": "proved",
   "theorems": [
    "C29_cells",
    "C29_column_width",
    "C29_needs_all_rows",
    "C29_row_stride_refuted",
    "C29_other_formats"
   ],
   "note": ""
  },
  {
   "property": "C30",
   "status": "proved",
   "theorems": [
    "C30_written_data",
    "C30_written_file",
    "C30_write_back_refuted"
   ],
   "note": ""
  },
  {
   "property": "C31",
   "status": "proved",
   "theorems": [
    "C31_cells",
    "C31_column_width"
   ],
   "note": ""
  },
  {
   "property": "C32",
   "status": "proved",
   "theorems": [
    "C32_roundtrip",
    "C32_over_wide_cell",
    "C32_gap_refuted"
   ],
   "note": ""
  },
  {
   "property": "C33",
   "status": "proved",
   "theorems": [
    "C33_view_is_array",
    "C33_binary_view_is_array",
    "C33_ascii_view_is_array",
    "C33_loop_visits_rows",
    "C33_written_cell_decodes",
    "C33_written_vector_decodes",
    "C33_written_ascii_decodes",
    "C33_assign_to_undecodable"
   ],
   "note": ""
  },
  {
   "property": "C34",
   "status": "proved",
   "theorems": [
    "C34_view_keeps_first_value",
    "C34_untouched_rows_are_current",
    "C34_second_view_not_seen",
    "C34_view_shows_table_refuted"
   ],
   "note": ""
  },
  {
   "property": "C35",
   "status": "proved",
   "theorems": [
    "C35_one_per_day",
    "C35_value",
    "C35_days_between",
    "C35_value_before_reform",
    "C35_time_of_day_ignored",
    "C35_drop_at_reform",
    "C35_before_reform",
    "C35_one_per_day_refuted",
    "C35_julian_calendar_before_reform",
    "C35_double_exact"
   ],
   "note": ""
  },
  {
   "property": "C36",
   "status": "proved",
   "theorems": [
    "C36_greenwich",
    "C36_local",
    "C36_greenwich_double",
    "C36_local_double",
    "C36_reduction_double_refuted"
   ],
   "note": ""
  },
  {
   "property": "C37",
   "status": "proved",
   "theorems": [
    "C37_period",
    "C37_opposite",
    "C37_average",
    "C37_zero"
   ],
   "note": ""
  },
  {
   "property": "C38",
   "status": "proved",
   "theorems": [
    "C38_decomposition",
    "C38_undefined_outside_long",
    "C38_from_components"
   ],
   "note": ""
  },
  {
   "property": "C39",
   "status": "proved",
   "theorems": [
    "C39_cartesian_round_trip",
    "C39_make_round_trip"
   ],
   "note": ""
  },
  {
   "property": "C40",
   "status": "proved",
   "theorems": [
    "C40_angular_round_trip",
    "C40_principal_representative",
    "C40_at_the_poles",
    "C40_pole_first_angle_refuted"
   ],
   "note": ""
  },
  {
   "property": "C41",
   "status": "proved",
   "theorems": [
    "C41_first_component_is_azimuth",
    "C41_longitude_zero_is_the_pole",
    "C41_latitude_90_refuted",
    "C41_separation_ignores_latitude"
   ],
   "note": ""
  },
  {
   "property": "C42",
   "status": "proved",
   "theorems": [
    "C42_cross_is_vector_product",
    "C42_cross_laws"
   ],
   "note": ""
  },
  {
   "property": "C43",
   "status": "proved",
   "theorems": [
    "C43_dot_laws",
    "C43_dot_scaling",
    "C43_magnitude_squared",
    "C43_magnitude_cartesian",
    "C43_magnitude_of_cartesian_form",
    "C43_cauchy",
    "C43_negative_magnitude_refuted"
   ],
   "note": ""
  },
  {
   "property": "C44",
   "status": "proved",
   "theorems": [
    "C44_unit_vector_cartesian",
    "C44_unit_vector_angular",
    "C44_numbers_are_direction_cosines",
    "C44_mixed_units_refuted"
   ],
   "note": ""
  },
  {
   "property": "C45",
   "status": "proved",
   "theorems": [
    "C45_sum",
    "C45_mean",
    "C45_plus_operator"
   ],
   "note": ""
  },
  {
   "property": "C46",
   "status": "proved",
   "theorems": [
    "C46_equality_compares_numbers",
    "C46_equivalence",
    "C46_same_units",
    "C46_units_ignored_refuted"
   ],
   "note": ""
  },
  {
   "property": "C47",
   "status": "proved",
   "theorems": [
    "C47_separation",
    "C47_distances_do_not_matter",
    "C47_triangle",
    "C47_negative_distance_refuted"
   ],
   "note": ""
  },
  {
   "property": "C48",
   "status": "proved",
   "theorems": [
    "C48_involutions",
    "C48_ecliptic",
    "C48_on_vectors"
   ],
   "note": ""
  },
  {
   "property": "C49",
   "status": "proved",
   "theorems": [
    "C49_round_trips",
    "C49_extract",
    "C49_column",
    "C49_ranges",
    "C49_pole_refuted"
   ],
   "note": ""
  },
  {
   "property": "C50",
   "status": "proved",
   "theorems": [
    "C50_not_inverse",
    "C50_equinox_off",
    "C50_transpose_is_inverse_approximately",
    "C50_arcsine_defined"
   ],
   "note": ""
  },
  {
   "property": "C51",
   "status": "proved",
   "theorems": [
    "C51_value",
    "C51_decreasing",
    "C51_range"
   ],
   "note": ""
  },
  {
   "property": "C52",
   "status": "proved",
   "theorems": [
    "C52_coslat_round_trip",
    "C52_round_trip_refuted"
   ],
   "note": ""
  },
  {
   "property": "C53",
   "status": "proved",
   "theorems": [
    "C53_scaling",
    "C53_scaling_coslat",
    "C53_coslat_times_one_refuted"
   ],
   "note": ""
  },
  {
   "property": "C54",
   "status": "proved",
   "theorems": [
    "C54_proper_motion",
    "C54_proper_motion_right_iff_radians",
    "C54_proper_motion_refuted"
   ],
   "note": ""
  },
  {
   "property": "C55",
   "status": "proved",
   "theorems": [
    "C55_frame_history",
    "C55_frame_constructor",
    "C55_coordinate_history",
    "C55_coordinate_constructor",
    "C55_coordinate_radians",
    "C55_frame_parameters",
    "C55_equinox"
   ],
   "note": ""
  },
  {
   "property": "C56",
   "status": "proved",
   "theorems": [
    "C56_mandatory_value_types"
   ],
   "note": ""
  },
  {
   "property": "C57",
   "status": "proved",
   "theorems": [
    "C57_access",
    "C57_inside_iff",
    "C57_own_pixel_iff",
    "C57_read_image_unusable"
   ],
   "note": ""
  },
  {
   "property": "C58",
   "status": "proved",
   "theorems": [
    "C58_single",
    "C58_vector",
    "C58_out_of_bounds",
    "C58_integer_cell_refuted"
   ],
   "note": ""
  },
  {
   "property": "C59",
   "status": "proved",
   "theorems": [
    "C59_binary_columns",
    "C59_ascii_columns",
    "C59_repeat_count",
    "C59_lookup_by_name",
    "C59_column_name_refuted"
   ],
   "note": ""
  },
  {
   "property": "C60",
   "status": "proved",
   "theorems": [
    "C60_binary_types",
    "C60_first_request_fixes_type",
    "C60_missing_column_has_no_effect",
    "C60_columns_do_not_interfere"
   ],
   "note": ""
  },
  {
   "property": "C61",
   "status": "proved",
   "theorems": [
    "C61_copy_writes_the_original",
    "C61_copy_outliving_the_original_is_undefined",
    "C61_early_copy_is_independent",
    "C61_copies_are_independent_refuted"
   ],
   "note": ""
  },
  {
   "property": "C62",
   "status": "proved",
   "theorems": [
    "C62_no_data_last",
    "C62_next_header_grows"
   ],
   "note": ""
  },
  {
   "property": "C63",
   "status": "proved",
   "theorems": [
    "C63_same_places",
    "C63_ends_on_truncated"
   ],
   "note": ""
  },
  {
   "property": "C64",
   "status": "proved",
   "theorems": [
    "C64_headers_only_loses_data"
   ],
   "note": ""
  },
  {
   "property": "C65",
   "status": "proved",
   "theorems": [
    "C65_unsupported_extension",
    "C65_dropped_on_write"
   ],
   "note": ""
  },
  {
   "property": "C66",
   "status": "proved",
   "theorems": [
    "C66_bytes_zeroed"
   ],
   "note": ""
  },
  {
   "property": "C67",
   "status": "proved",
   "theorems": [
    "C67_extend_required"
   ],
   "note": ""
  },
  {
   "property": "C68",
   "status": "proved",
   "theorems": [
    "C68_reopened_object_keeps_hdus"
   ],
   "note": ""
  },
  {
   "property": "C69",
   "status": "proved",
   "theorems": [
    "C69_sidereal_rate"
   ],
   "note": ""
  },
  {
   "property": "C70",
   "status": "proved",
   "theorems": [
    "C70_conversion_keeps_position",
    "C70_make_keeps_position",
    "C70_change_of_units_keeps_position",
    "C70_to_representation",
    "C70_to_representation_refuted"
   ],
   "note": ""
  },
  {
   "property": "C71",
   "status": "proved",
   "theorems": [
    "C71_hour_angle",
    "C71_horizon",
    "C71_ecliptic"
   ],
   "note": ""
  },
  {
   "property": "C72",
   "status": "proved",
   "theorems": [
    "C72_conversion_keeps_velocity",
    "C72_addition",
    "C72_coslat_plus_zero",
    "C72_to_differential",
    "C72_to_differential_refuted"
   ],
   "note": ""
  },
  {
   "property": "C73",
   "status": "proved",
   "theorems": [
    "C73_equality_compares_numbers",
    "C73_equal_velocities",
    "C73_coslat_equality_refuted",
    "C73_magnitude",
    "C73_unit_vector"
   ],
   "note": ""
  },
  {
   "property": "C74",
   "status": "proved",
   "theorems": [
    "C74_positional_angle",
    "C74_same_meridian",
    "C74_conventions_differ_refuted"
   ],
   "note": ""
  },
  {
   "property": "C75",
   "status": "proved",
   "theorems": [
    "C75_frame_from_parts"
   ],
   "note": ""
  },
  {
   "property": "C76",
   "status": "proved",
   "theorems": [
    "C76_equal_iff_same_text",
    "C76_reading_keeps_equality",
    "C76_value_with_comment",
    "C76_created_value_with_comment",
    "C76_after_set_value_refuted"
   ],
   "note": ""
  },
  {
   "property": "C77",
   "status": "proved",
   "theorems": [
    "C77_get",
    "C77_gets_are_read",
    "C77_reads_compose",
    "C77_at_end",
    "C77_seek_after_end",
    "C77_failed_forever",
    "C77_end_or_zero_refuted"
   ],
   "note": ""
  },
  {
   "property": "C78",
   "status": "proved",
   "theorems": [
    "C78_bytes",
    "C78_nothing_written",
    "C78_read_back",
    "C78_failure",
    "C78_writes_compose",
    "C78_write_after_end_refuted"
   ],
   "note": ""
  },
  {
   "property": "C79",
   "status": "proved",
   "theorems": [
    "C79_axes",
    "C79_card_count",
    "C79_card_count_empty_refuted"
   ],
   "note": ""
  },
  {
   "property": "C80",
   "status": "proved",
   "theorems": [
    "C80_binary_new_data",
    "C80_ascii_new_data",
    "C80_no_data_keeps_table",
    "C80_no_data_refuted"
   ],
   "note": ""
  },
  {
   "property": "C81",
   "status": "proved",
   "theorems": [
    "C81_flags",
    "C81_pixels"
   ],
   "note": ""
  },
  {
   "property": "C82",
   "status": "proved",
   "theorems": [
    "C82_object",
    "C82_written",
    "C82_bytes_refuted"
   ],
   "note": ""
  },
  {
   "property": "C83",
   "status": "proved",
   "theorems": [
    "C83_single",
    "C83_vector",
    "C83_bool_vector",
    "C83_pair_vector",
    "C83_too_short",
    "C83_short_by_one",
    "C83_short_refuted"
   ],
   "note": ""
  },
  {
   "property": "C84",
   "status": "proved",
   "theorems": [
    "C84_readable_files",
    "C84_cut_read",
    "C84_cut_only",
    "C84_cut_inside",
    "C84_cut_prefix",
    "C84_cut_headers",
    "C84_written"
   ],
   "note": ""
  },
  {
   "property": "C85",
   "status": "proved",
   "theorems": [
    "C85_name_of_bad_unit",
    "C85_reading_on"
   ],
   "note": ""
  },
  {
   "property": "C86",
   "status": "proved",
   "theorems": [
    "C86_again",
    "C86_headers_wrap_refuted"
   ],
   "note": ""
  },
  {
   "property": "C87",
   "status": "proved",
   "theorems": [
    "C87_unwritable",
    "C87_failure_reported_refuted",
    "C87_missing",
    "C87_reading_after_missing",
    "C87_no_file"
   ],
   "note": ""
  },
  {
   "property": "C88",
   "status": "proved",
   "theorems": [
    "C88_open",
    "C88_open_headers",
    "C88_number",
    "C88_convert"
   ],
   "note": ""
  },
  {
   "property": "C89",
   "status": "proved",
   "theorems": [
    "C89_double_card",
    "C89_float_card",
    "C89_error",
    "C89_order",
    "C89_double_as_float",
    "C89_float_as_double",
    "C89_special_card",
    "C89_ascii_cell",
    "C89_same_value_refuted"
   ],
   "note": ""
  },
  {
   "property": "C90",
   "status": "proved",
   "theorems": [
    "C90_text_stable",
    "C90_card_stable",
    "C90_unchanged_iff",
    "C90_six_digits_unchanged",
    "C90_subnormal_refuted"
   ],
   "note": ""
  },
  {
   "property": "C91",
   "status": "proved",
   "theorems": [
    "C91_text_reads",
    "C91_card_reads",
    "C91_overflow_refused",
    "C91_d_exponent_refused"
   ],
   "note": ""
  },
  {
   "property": "C92",
   "status": "proved",
   "theorems": [
    "C92_width",
    "C92_creates",
    "C92_complex_unreadable"
   ],
   "note": ""
  },
  {
   "property": "C93",
   "status": "proved",
   "theorems": [
    "C93_defined",
    "C93_fields",
    "C93_from_fields",
    "C93_fields_return_refuted"
   ],
   "note": ""
  },
  {
   "property": "C94",
   "status": "proved",
   "theorems": [
    "C94_text",
    "C94_same_text_close",
    "C94_sixty_seconds",
    "C94_below_sixty_refuted",
    "C94_from_fields_prints_zero"
   ],
   "note": ""
  },
  {
   "property": "C95",
   "status": "proved",
   "theorems": [
    "C95_close",
    "C95_stored_unit",
    "C95_identity_refuted",
    "C95_text_kept"
   ],
   "note": ""
  },
  {
   "property": "C96",
   "status": "proved",
   "theorems": [
    "C96_prints_what_was_given",
    "C96_words",
    "C96_text_determines",
    "C96_same_number_close",
    "C96_given_determined",
    "C96_long_numbers_refuted"
   ],
   "note": ""
  },
  {
   "property": "C97",
   "status": "proved",
   "theorems": [
    "C97_nearest",
    "C97_commutes",
    "C97_null",
    "C97_opposite",
    "C97_units",
    "C97_associative_refuted"
   ],
   "note": ""
  },
  {
   "property": "C98",
   "status": "proved",
   "theorems": [
    "C98_between",
    "C98_commutes",
    "C98_self",
    "C98_units",
    "C98_self_large_refuted"
   ],
   "note": ""
  },
  {
   "property": "C99",
   "status": "proved",
   "theorems": [
    "C99_commutes",
    "C99_self",
    "C99_perpendicular_plane",
    "C99_units",
    "C99_perpendicular_refuted"
   ],
   "note": ""
  },
  {
   "property": "C100",
   "status": "proved",
   "theorems": [
    "C100_parallel",
    "C100_opposite",
    "C100_units",
    "C100_parallel_only_refuted"
   ],
   "note": ""
  },
  {
   "property": "C101",
   "status": "proved",
   "theorems": [
    "C101_close",
    "C101_parts",
    "C101_axis",
    "C101_zero",
    "C101_monotone",
    "C101_range_refuted"
   ],
   "note": ""
  },
  {
   "property": "C102",
   "status": "proved",
   "theorems": [
    "C102_between",
    "C102_axis",
    "C102_close",
    "C102_length",
    "C102_null",
    "C102_exact_refuted"
   ],
   "note": ""
  },
  {
   "property": "C103",
   "status": "proved",
   "theorems": [
    "C103_ordinary",
    "C103_mean",
    "C103_mean_doubles",
    "C103_integer_mean",
    "C103_integer_total",
    "C103_integer_between",
    "C103_integer_order",
    "C103_blank",
    "C103_empty",
    "C103_mean_below_refuted",
    "C103_order_refuted",
    "C103_overflow_refuted"
   ],
   "note": ""
  },
  {
   "property": "C104",
   "status": "proved",
   "theorems": [
    "C104_std_dev",
    "C104_true_variance",
    "C104_zero",
    "C104_constant",
    "C104_single",
    "C104_blank",
    "C104_constant_refuted"
   ],
   "note": ""
  },
  {
   "property": "C105",
   "status": "proved",
   "theorems": [
    "C105_max",
    "C105_min",
    "C105_first_blank",
    "C105_order",
    "C105_median",
    "C105_median_order",
    "C105_median_undefined",
    "C105_undefined",
    "C105_blank_order_refuted"
   ],
   "note": ""
  },
  {
   "property": "C106",
   "status": "proved",
   "theorems": [
    "C106_conversions",
    "C106_zenith_refuted"
   ],
   "note": ""
  },
  {
   "property": "C107",
   "status": "proved",
   "theorems": [
    "C107_round_trip",
    "C107_away_from_poles"
   ],
   "note": ""
  },
  {
   "property": "C108",
   "status": "proved",
   "theorems": [
    "C108_galactic",
    "C108_to_galactic"
   ],
   "note": ""
  },
  {
   "property": "C109",
   "status": "proved",
   "theorems": [
    "C109_cartesian",
    "C109_spherical",
    "C109_symmetric",
    "C109_symmetric_spherical",
    "C109_itself_refuted",
    "C109_small_refuted"
   ],
   "note": ""
  },
  {
   "property": "C110",
   "status": "proved",
   "theorems": [
    "C110_positional_angle",
    "C110_north_east"
   ],
   "note": ""
  },
  {
   "property": "C111",
   "status": "proved",
   "theorems": [
    "C111_to_cartesian",
    "C111_from_cartesian",
    "C111_there_and_back",
    "C111_back_and_there",
    "C111_null",
    "C111_pole_refuted"
   ],
   "note": ""
  },
  {
   "property": "C112",
   "status": "proved",
   "theorems": [
    "C112_prefix",
    "C112_silent",
    "C112_sound_device",
    "C112_every_length",
    "C112_read_back",
    "C112_atomic_refuted"
   ],
   "note": ""
  },
  {
   "property": "C113",
   "status": "proved",
   "theorems": [
    "C113_close",
    "C113_falls",
    "C113_plain",
    "C113_from_ecliptic",
    "C113_to_ecliptic"
   ],
   "note": ""
  },
  {
   "property": "C114",
   "status": "proved",
   "theorems": [
    "C114_agrees",
    "C114_binary",
    "C114_ascii",
    "C114_never",
    "C114_unchanged_refuted"
   ],
   "note": ""
  },
  {
   "property": "C115",
   "status": "proved",
   "theorems": [
    "C115_sum",
    "C115_mean",
    "C115_cross",
    "C115_dot",
    "C115_axes",
    "C115_axes_cross",
    "C115_unit",
    "C115_opposite_refuted"
   ],
   "note": ""
  },
  {
   "property": "C116",
   "status": "proved",
   "theorems": [
    "C116_no_card",
    "C116_values",
    "C116_entire",
    "C116_headers",
    "C116_names",
    "C116_headers_unit",
    "C116_headers_name",
    "C116_headers_iff",
    "C116_reading_on",
    "C116_reading_on_refuted"
   ],
   "note": ""
  },
  {
   "property": "C117",
   "status": "proved",
   "theorems": [
    "C117_times_axes",
    "C117_times_angles",
    "C117_coslat",
    "C117_axes_plus",
    "C117_angles_plus",
    "C117_make_coslat",
    "C117_coslat_plus",
    "C117_magnitude",
    "C117_times_one_refuted"
   ],
   "note": ""
  },
  {
   "property": "C118",
   "status": "proved",
   "theorems": [
    "C118_card_made",
    "C118_card_value",
    "C118_header",
    "C118_reading",
    "C118_reading_again",
    "C118_open",
    "C118_fits_handler",
    "C118_fits_handler_refuted",
    "C118_get_column",
    "C118_binary_element",
    "C118_ascii_element",
    "C118_writing"
   ],
   "note": ""
  },
  {
   "property": "C119",
   "status": "proved",
   "theorems": [
    "C119_standard_file",
    "C119_full_header_never_ends",
    "C119_full_header_refuted",
    "C119_full_data_refuted"
   ],
   "note": ""
  },
  {
   "property": "C120",
   "status": "proved",
   "theorems": [
    "C120_binary_vector",
    "C120_binary_logicals",
    "C120_binary_single",
    "C120_blank_byte",
    "C120_blank_bytes",
    "C120_text_blank",
    "C120_ascii_integer",
    "C120_ascii_double",
    "C120_ascii_float",
    "C120_every_integer_refuted"
   ],
   "note": ""
  },
  {
   "property": "C121",
   "status": "proved",
   "theorems": [
    "C121_copy",
    "C121_same_objects",
    "C121_identical",
    "C121_edit",
    "C121_blank_refuted",
    "C121_gap_refuted"
   ],
   "note": ""
  },
  {
   "property": "C122",
   "status": "proved",
   "theorems": [
    "C122_needed",
    "C122_sizes",
    "C122_spare",
    "C122_extname_refuted"
   ],
   "note": ""
  },
  {
   "property": "C123",
   "status": "proved",
   "theorems": [
    "C123_other_extensions",
    "C123_bytes_refuted"
   ],
   "note": ""
  },
  {
   "property": "C124",
   "status": "proved",
   "theorems": [
    "C124_headers",
    "C124_written_refuted"
   ],
   "note": ""
  },
  {
   "property": "C125",
   "status": "proved",
   "theorems": [
    "C125_kept",
    "C125_names",
    "C125_written",
    "C125_written_later",
    "C125_names_refuted"
   ],
   "note": ""
  },
  {
   "property": "C126",
   "status": "proved",
   "theorems": [
    "C126_shares",
    "C126_count",
    "C126_rows_refuted",
    "C126_cells_refuted",
    "C126_buffer_refuted"
   ],
   "note": ""
  },
  {
   "property": "C127",
   "status": "proved",
   "theorems": [
    "C127_place",
    "C127_back",
    "C127_altitudes",
    "C127_transits",
    "C127_always",
    "C127_pole",
    "C127_double"
   ],
   "note": ""
  },
  {
   "property": "C128",
   "status": "proved",
   "theorems": [
    "C128_apart",
    "C128_sense",
    "C128_mirror",
    "C128_rotation_refuted",
    "C128_galactic",
    "C128_double"
   ],
   "note": ""
  },
  {
   "property": "C129",
   "status": "proved",
   "theorems": [
    "C129_sheet",
    "C129_tables",
    "C129_entry_lasts",
    "C129_looking",
    "C129_either_order",
    "C129_same_column_refuted",
    "C129_binary_sheet"
   ],
   "note": ""
  },
  {
   "property": "C130",
   "status": "proved",
   "theorems": [
    "C130_greenwich",
    "C130_local",
    "C130_held",
    "C130_apart",
    "C130_rate",
    "C130_below_24_refuted"
   ],
   "note": ""
  }
 ]
}