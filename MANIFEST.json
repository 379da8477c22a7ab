{
 "claims": [
  {
   "property": "C01",
   "status": "proved",
   "theorems": [
    "c01_resolution_idempotent"
   ],
   "note": "All reachable name paths, all references."
  },
  {
   "property": "C02",
   "status": "proved",
   "theorems": [
    "c02_max_name_path_bound"
   ],
   "note": "All reachable name paths with a maximum set, all non-empty references."
  },
  {
   "property": "C03",
   "status": "proved",
   "theorems": [
    "c03_set_name_path_atomic",
    "c03_add_name_path_atomic",
    "c03_name_path_bounded",
    "c03_name_path_dot_free"
   ],
   "note": "Atomicity for all states; bound for all call sequences after the maximum is set that stay out of INFORMATION_SCHEMA."
  },
  {
   "property": "C04",
   "status": "partial",
   "theorems": [
    "c04_unqualified_name_partial",
    "c04_unqualified_name_refuted"
   ],
   "note": "Proved when the reference's first component is not a component of the name path; refuted otherwise (a table named like its dataset)."
  },
  {
   "property": "C05",
   "status": "partial",
   "theorems": [
    "c05_distinct_names_partial",
    "c05_distinct_names_refuted"
   ],
   "note": "Proved for components without '_'; refuted in general (a_b.c and a.b_c share one stored name)."
  },
  {
   "property": "C06",
   "status": "partial",
   "theorems": [
    "c06_live_objects",
    "c06_failed_drop_changes_nothing",
    "c06_lookup_last_definition_partial",
    "c06_analysis_finds_first_definition",
    "c06_lookup_last_definition_refuted"
   ],
   "note": "Live objects, order, presence and failing DROP for all histories; the definition returned is proved for histories without replacement and refuted with one (an unrelated DROP brings the replaced definition back)."
  },
  {
   "property": "C07",
   "status": "partial",
   "theorems": [
    "c07_create_after_drop_partial",
    "c07_replacement_never_seen_refuted",
    "c07_replacement_takes_effect_refuted"
   ],
   "note": "Refuted for every replacement of a live object (analysis and function bodies keep the first definition until a DROP); partial: CREATE after DROP."
  },
  {
   "property": "C08",
   "status": "proved",
   "theorems": [
    "c08_full_path_finds_own_table"
   ],
   "note": "Proved for all creation orders of equal-length paths, case-insensitive; refuted for unequal lengths, which the property excludes."
  },
  {
   "property": "C09",
   "status": "partial",
   "theorems": [
    "c09_reopen_sees_all_partial",
    "c09_reopen_sees_all_refuted"
   ],
   "note": "All histories with restarts and all row orders, when no name is used for both a table and a function; refuted otherwise."
  },
  {
   "property": "C10",
   "status": "partial",
   "theorems": [
    "c10_committed_tables_visible_partial",
    "c10_committed_tables_visible_refuted",
    "c10_drop_never_observed_refuted"
   ],
   "note": "All interleavings without a sync query between stamp and commit; refuted otherwise (never becomes visible), and DROPs are never observed."
  },
  {
   "property": "C11",
   "status": "partial",
   "theorems": [
    "c11_drop_existing_partial",
    "c11_drop_if_exists_refuted"
   ],
   "note": "Refuted in every state: DROP ... IF EXISTS of a name missing from the catalog always fails; existing tables drop correctly."
  },
  {
   "property": "C12",
   "status": "partial",
   "theorems": [
    "c12_exec_order_partial",
    "c12_query_order",
    "c12_last_outcome",
    "c12_last_outcome_refuted"
   ],
   "note": "Order, stopping point and independence from the rest of the script proved for all scripts and failure points (Exec and Query); the last-outcome clause holds for scripts without temporary objects and is refuted for CREATE TEMP TABLE x; DROP TABLE x."
  },
  {
   "property": "C13",
   "status": "partial",
   "theorems": [
    "c13_temporary_objects_partial",
    "c13_temporary_objects_refuted"
   ],
   "note": "Quantifies over the statements that began to execute, the failing one included, as the specification's own relation defines them. Missing: SQLite failures during clean-up, for which it is false (witness), and temporary tables whose name a view holds."
  },
  {
   "property": "C14",
   "status": "partial",
   "theorems": [
    "c14_close_partial",
    "c14_failed_query_refuted"
   ],
   "note": "Closing the rows of a successful Query; refuted when Query fails (no clean-up at all)."
  },
  {
   "property": "C15",
   "status": "partial",
   "theorems": [
    "c15_exec_keeps_objects_partial",
    "c15_exec_keeps_objects_refuted"
   ],
   "note": "All creating scripts, all failure points, when temporary and OR REPLACE names are new; refuted otherwise (a failing CREATE TEMP TABLE t drops the existing t)."
  },
  {
   "property": "C16",
   "status": "partial",
   "theorems": [
    "c16_changed_catalog_partial",
    "c16_changed_catalog_refuted"
   ],
   "note": "Successful scripts without views or temporary objects under an empty name path; refuted for views and for functions outside the name path (nil entry, or a panic)."
  },
  {
   "property": "C17",
   "status": "proved",
   "theorems": [
    "c17_statement_place",
    "c17_commit_rollback_close",
    "c17_stays_open"
   ],
   "note": "All histories of calls, including failing Begin/Commit/Rollback and stale handles."
  },
  {
   "property": "C18",
   "status": "partial",
   "theorems": [
    "c18_rollback_partial",
    "c18_rollback_refuted"
   ],
   "note": "Transactions without DDL; refuted for every DROP TABLE and CREATE TABLE (the in-memory catalog is not rolled back)."
  },
  {
   "property": "C19",
   "status": "partial",
   "theorems": [
    "c19_prepare_partial",
    "c19_prepare_refuted"
   ],
   "note": "All scripts without OR REPLACE; refuted with it (the table is dropped by Prepare)."
  },
  {
   "property": "C20",
   "status": "partial",
   "theorems": [
    "c20_one_handle_per_name_partial",
    "c20_no_deadlock",
    "c20_memory_refuted"
   ],
   "note": "All interleavings of any number of goroutines, no deadlock; refuted for :memory:, where connections share the catalog but not the tables."
  },
  {
   "property": "C21",
   "status": "proved",
   "theorems": [
    "c21_named_by_name",
    "c21_same_name_same_value"
   ],
   "note": "Every reference gets the last argument of its name, any order, case or extra arguments; repeated uses agree."
  },
  {
   "property": "C22",
   "status": "partial",
   "theorems": [
    "c22_offsets_partial",
    "c22_after_create_table_partial",
    "c22_positional_refuted"
   ],
   "note": "Exact offsets proved: only CREATE TABLE statements advance; holds after those, refuted for any two other statements with question marks."
  },
  {
   "property": "C23",
   "status": "partial",
   "theorems": [
    "c23_simultaneous_partial",
    "c23_prefix_refuted",
    "c23_swapped_arguments_refuted",
    "c23_too_few_partial"
   ],
   "note": "Simultaneous substitution proved for @-free arguments and names no earlier of which is a prefix of a later; refuted for a/ab and for arguments mentioning parameters (f(x,y)=g(y,x))."
  },
  {
   "property": "C24",
   "status": "partial",
   "theorems": [
    "c24_matched_delete_partial",
    "c24_insert_partial",
    "c24_then_insert_partial",
    "c24_matched_update_partial",
    "c24_symmetric_update_partial",
    "c24_not_by_source_refuted",
    "c24_condition_refuted",
    "c24_null_key_refuted",
    "c24_update_value_refuted",
    "c24_columns_refuted",
    "c24_target_refuted",
    "c24_target_partial"
   ],
   "note": "DELETE, INSERT, symmetric UPDATE proved for equal layouts; refuted: BY SOURCE never acts, AND conditions ignored, NULL keys, asymmetric updates, different columns, table-name substring swaps target."
  },
  {
   "property": "C25",
   "status": "partial",
   "theorems": [
    "c25_failed_merge_refuted",
    "c25_partial"
   ],
   "note": "Refuted for every failure after the first statement; success and first-statement failure leave nothing behind."
  },
  {
   "property": "C26",
   "status": "partial",
   "theorems": [
    "c26_stored_values_come_back_partial",
    "c26_scalars_are_exact",
    "c26_nested_integers_refuted",
    "c26_text_iff_utf8",
    "c26_not_finite_refuted"
   ],
   "note": "JSON is modelled as a tree with the effect of Marshal/Unmarshal on leaves written out. Refuted: INT64 of magnitude over 2^53 inside arrays/structs lose digits, text that is not UTF-8 is altered, NaN becomes NULL, NaN/Inf inside arrays fail. INTERVAL is not modelled; sub-microsecond parts and years outside 0..9999 are excluded."
  },
  {
   "property": "C27",
   "status": "proved",
   "theorems": [
    "c27_literal_is_one_token",
    "c27_literals_are_distinct"
   ],
   "note": "For every byte string as layout; strconv.Quote is modelled for ASCII, which base64 is."
  },
  {
   "property": "C28",
   "status": "proved",
   "theorems": [
    "c28_datetime",
    "c28_time"
   ],
   "note": "Proved for every year 0-9999 and every valid combination of fields."
  },
  {
   "property": "C29",
   "status": "partial",
   "theorems": [
    "c29_partial",
    "c29_west_refuted"
   ],
   "note": "Right exactly for a process whose zone offset is in [0, 24h); west of Greenwich every literal is the day before."
  },
  {
   "property": "C30",
   "status": "partial",
   "theorems": [
    "c30_back_partial",
    "c30_decimal_partial",
    "c30_refuted"
   ],
   "note": "Converting back proved for all instants; the text is a decimal number of seconds exactly when the microseconds are 0 or at least 100000 (characterised, refuted otherwise)."
  },
  {
   "property": "C31",
   "status": "partial",
   "theorems": [
    "c31_exact_partial",
    "c31_overflow_refuted",
    "c31_div_partial",
    "c31_div_overflow_refuted"
   ],
   "note": "+,-,* are right exactly when the result fits and silently wrong otherwise; DIV is right except -2^63 DIV -1."
  },
  {
   "property": "C32",
   "status": "partial",
   "theorems": [
    "c32_operators_partial",
    "c32_total_order_partial",
    "c32_collation_partial",
    "c32_order_by_partial",
    "c32_interval_refuted"
   ],
   "note": "Total order for every scalar type except INTERVAL (all comparisons fail, collation inconsistent). NaN is outside the order, as in SQL."
  },
  {
   "property": "C33",
   "status": "partial",
   "theorems": [
    "c33_equality_partial",
    "c33_null_refuted",
    "c33_unnamed_fields_refuted"
   ],
   "note": "Proved for values without NULLs and without two equal field names at any nesting; a NULL element panics and unnamed struct fields are not all compared."
  },
  {
   "property": "C34",
   "status": "partial",
   "theorems": [
    "c34_scalar_partial",
    "c34_scalar_error_partial",
    "c34_aggregates_partial",
    "c34_generate_refuted",
    "c34_range_refuted"
   ],
   "note": "Proved for every expression of NUMERIC function calls and for every interleaving of aggregate steps. Refuted: GENERATE_ARRAY on NUMERIC repeats one value; a RANGE frame with a NUMERIC key changes the key it searches for and loses rows."
  },
  {
   "property": "C35",
   "status": "partial",
   "theorems": [
    "c35_numeric_partial",
    "c35_overflow_refuted",
    "c35_bool_partial",
    "c35_bool_refuted"
   ],
   "note": "Exact: NUMERIC to INT64 is right iff the value is an integer or plus or minus one half; INT64 to BOOL is right iff the value is 0 or 1 (others fail)."
  },
  {
   "property": "C36",
   "status": "proved",
   "theorems": [
    "c36_and",
    "c36_or",
    "c36_not"
   ],
   "note": "Full three-valued truth tables for any number of operands."
  },
  {
   "property": "C37",
   "status": "partial",
   "theorems": [
    "c37_in_partial",
    "c37_null_in_list_refuted",
    "c37_unnest_partial",
    "c37_unnest_large_refuted",
    "c37_unnest_null_refuted"
   ],
   "note": "Right unless no element matches and the list holds a NULL; UNNEST form right for integers below 2^53 without NULLs."
  },
  {
   "property": "C38",
   "status": "partial",
   "theorems": [
    "c38_null_operand_partial",
    "c38_comparison_partial",
    "c38_not_equal_partial",
    "c38_is_partial",
    "c38_is_true_partial",
    "c38_is_true_refuted",
    "c38_between_partial",
    "c38_between_null_refuted"
   ],
   "note": "Comparisons and arithmetic proved; IS TRUE/FALSE and BETWEEN of NULL refuted. LIKE's NULL rule is in the LIKE model."
  },
  {
   "property": "C39",
   "status": "partial",
   "theorems": [
    "c39_case_partial",
    "c39_case_value_partial",
    "c39_case_null_partial",
    "c39_if_ifnull_partial",
    "c39_coalesce_partial",
    "c39_nullif_partial",
    "c39_coalesce_eager_refuted",
    "c39_nullif_null_refuted"
   ],
   "note": "CASE, IF, IFNULL, and COALESCE of error-free operands; COALESCE evaluates all operands, NULLIF(x, NULL) panics."
  },
  {
   "property": "C40",
   "status": "partial",
   "theorems": [
    "c40_one_meaning_partial",
    "c40_two_meanings_refuted",
    "c40_safe_add_refuted"
   ],
   "note": "Any function table and map order. Refuted for six names of this program (safe_add, safe_subtract, safe_multiply, safe_divide, safe_array_at_offset, safe_array_at_ordinal), where the order of a Go map decides between two functions."
  },
  {
   "property": "C41",
   "status": "partial",
   "theorems": [
    "c41_like_partial",
    "c41_like_without_percent",
    "c41_underscore_refuted",
    "c41_newline_refuted",
    "c41_null_refuted"
   ],
   "note": "Exact on text without newlines and patterns without _. Refuted: _ only matches itself, % never crosses a newline, NULL gives FALSE. Go's regexp is modelled on the expressions LIKE builds; \\ escapes of the documented language are not in the statement."
  },
  {
   "property": "C42",
   "status": "partial",
   "theorems": [
    "c42_bitwise_partial",
    "c42_shift_left_partial",
    "c42_shift_right_partial",
    "c42_shift_right_negative_refuted",
    "c42_negative_count_refuted",
    "c42_bit_count_partial"
   ],
   "note": "Bitwise operators, left shift, right shift of non-negative words and BIT_COUNT proved for all words. Refuted: >> of a negative word keeps the sign; a negative count panics."
  },
  {
   "property": "C43",
   "status": "partial",
   "theorems": [
    "c43_greatest_partial",
    "c43_least_partial",
    "c43_null_partial",
    "c43_interval_refuted"
   ],
   "note": "Proved for every non-empty list of mutually comparable values (numbers, strings, bytes, dates and times). Refuted for INTERVAL, which cannot be compared."
  },
  {
   "property": "C44",
   "status": "partial",
   "theorems": [
    "c44_partial",
    "c44_ints_partial",
    "c44_large_refuted"
   ],
   "note": "Proved for every sorted boundary array of comparable values and for INT64 boundaries below 2^53. Refuted above: array elements reach the function as float64."
  },
  {
   "property": "C45",
   "status": "partial",
   "theorems": [
    "c45_up_partial",
    "c45_down_partial",
    "c45_overflow_refuted",
    "c45_max_refuted",
    "c45_zero_refuted",
    "c45_same_refuted",
    "c45_unique"
   ],
   "note": "Proved for every int64 start, end and non-zero step such that the element after the last still fits in int64 (and start <> end for negative steps). Refuted: beyond that the sum wraps and the array is wrong or the call never returns; step 0 gives [] or never returns; start = end with a negative step gives []."
  },
  {
   "property": "C46",
   "status": "partial",
   "theorems": [
    "c46_offset_partial",
    "c46_ordinal_partial",
    "c46_safe_partial",
    "c46_null_partial",
    "c46_int64_partial",
    "c46_large_refuted"
   ],
   "note": "Proved for every array and subscript at the level of the functions, and end to end for INT64 elements below 2^53. Refuted above 2^53: the elements reach the function as float64."
  },
  {
   "property": "C47",
   "status": "proved",
   "theorems": [
    "c47_reverse",
    "c47_concat",
    "c47_length"
   ],
   "note": "Proved for every list of non-NULL arrays."
  },
  {
   "property": "C48",
   "status": "partial",
   "theorems": [
    "c48_ipv4_int_round_trip_partial",
    "c48_out_of_range_refuted"
   ],
   "note": "Refuted outside 0..2^32-1: no integer is an error, it is taken modulo 2^32. The round trip and the byte order are proved in range; the direction from bytes is C104."
  },
  {
   "property": "C49",
   "status": "proved",
   "theorems": [
    "c49_ip_trunc",
    "c49_other_lengths_are_errors",
    "c49_net_mask",
    "c49_truncation_composes"
   ],
   "note": "Addresses are byte lists of 4 or 16 bytes; other lengths are shown to be errors."
  },
  {
   "property": "C50",
   "status": "partial",
   "theorems": [
    "c50_substr_bytes",
    "c50_substr_string_partial",
    "c50_substr_multibyte_refuted",
    "c50_negative_length",
    "c50_never_panics"
   ],
   "note": "Holds for BYTES and ASCII STRINGs; positions are counted in characters but the slice is taken in bytes, so any text starting with a multi-byte character is cut inside it (refuted universally)."
  },
  {
   "property": "C51",
   "status": "partial",
   "theorems": [
    "c51_pad_string_partial",
    "c51_pad_bytes_partial",
    "c51_bytes_pad_panics_refuted",
    "c51_negative_or_empty_panics_refuted"
   ],
   "note": "Holds for STRING with a non-empty pad; BYTES pads not shorter than the gap, negative LPAD lengths and empty pads panic (refuted universally)."
  },
  {
   "property": "C52",
   "status": "partial",
   "theorems": [
    "c52_translate_bytes_partial",
    "c52_translate_string_partial",
    "c52_duplicate_is_error",
    "c52_translate_chain_refuted",
    "c52_translate_multibyte_refuted"
   ],
   "note": "Holds for distinct ASCII sources none of which is an earlier target; replacement is sequential and works on bytes, refuted for chains and multi-byte characters."
  },
  {
   "property": "C53",
   "status": "partial",
   "theorems": [
    "c53_hex_round_trip",
    "c53_base64_round_trip",
    "c53_base32_round_trip",
    "c53_texts_distinct",
    "c53_code_points_bytes",
    "c53_code_points_string_partial",
    "c53_code_points_nul_refuted"
   ],
   "note": "All encodings proved; CODE_POINTS_TO_STRING drops NUL characters (exact iff, refuted for every text containing one)."
  },
  {
   "property": "C54",
   "status": "proved",
   "theorems": [
    "c54_split_join",
    "c54_split_pieces",
    "c54_split_characters",
    "c54_split_bytes",
    "c54_split_default",
    "c54_pieces_unique"
   ],
   "note": "STRING and BYTES; the cut is characterised by a relation with a unique solution."
  },
  {
   "property": "C55",
   "status": "partial",
   "theorems": [
    "c55_strpos_bytes",
    "c55_strpos_found",
    "c55_strpos_position_partial",
    "c55_strpos_multibyte_refuted",
    "c55_starts_ends_with",
    "c55_instr_partial",
    "c55_instr_default_refuted",
    "c55_instr_last_refuted",
    "c55_instr_backward_refuted"
   ],
   "note": "STRPOS counts bytes: exact iff for the position; two-argument INSTR always fails, position = length fails, negative positions are wrong."
  },
  {
   "property": "C56",
   "status": "proved",
   "theorems": [
    "c56_reverse_involution",
    "c56_reverse_characters"
   ],
   "note": "Modelled over a proved UTF-8 decoder."
  },
  {
   "property": "C57",
   "status": "proved",
   "theorems": [
    "c57_days",
    "c57_weeks"
   ],
   "note": "Dates and results from 0001-01-01 to 9999-12-31."
  },
  {
   "property": "C58",
   "status": "partial",
   "theorems": [
    "c58_months_partial",
    "c58_sub_partial",
    "c58_quarter_refuted"
   ],
   "note": "MONTH and YEAR proved exactly; QUARTER ignores the count (right only for 1) and DATE_SUB rejects it."
  },
  {
   "property": "C59",
   "status": "partial",
   "theorems": [
    "c59_weeks_partial",
    "c59_months_years_partial",
    "c59_antisymmetric",
    "c59_days_partial",
    "c59_isoweek_refuted"
   ],
   "note": "WEEK and WEEK(day), MONTH, YEAR, ISOYEAR proved exactly, antisymmetry for every part; DAY right iff at most 106752 days apart; ISOWEEK refuted across years; QUARTER not implemented."
  },
  {
   "property": "C60",
   "status": "partial",
   "theorems": [
    "c60_trunc_partial",
    "c60_laws_partial",
    "c60_iso_refuted"
   ],
   "note": "DAY, WEEK, WEEK(day), MONTH, QUARTER, YEAR proved exactly with the three laws; ISOYEAR right iff January 1st of the ISO year is not Friday or Saturday; ISOWEEK right for no date."
  },
  {
   "property": "C61",
   "status": "partial",
   "theorems": [
    "c61_last_partial",
    "c61_week_refuted",
    "c61_isoyear_refuted"
   ],
   "note": "YEAR, MONTH, WEEK proved exactly; WEEK(day), ISOWEEK, ISOYEAR refuted with exact characterisations; QUARTER not implemented."
  },
  {
   "property": "C62",
   "status": "partial",
   "theorems": [
    "c62_partial",
    "c62_reverse_partial",
    "c62_far_refuted"
   ],
   "note": "Exact for offsets in [0, 24h) and at most 106751 days from 1970; refuted elsewhere."
  },
  {
   "property": "C63",
   "status": "partial",
   "theorems": [
    "c63_fields_partial",
    "c63_days_partial",
    "c63_quarter_refuted"
   ],
   "note": "All parts but QUARTER proved; QUARTER wrong exactly on Apr 1 and Jul 1 of common years and Sep 30 of leap years."
  },
  {
   "property": "C64",
   "status": "partial",
   "theorems": [
    "c64_timestamp_clock_partial",
    "c64_timestamp_date_partial",
    "c64_repeated_hour_refuted",
    "c64_iso_refuted",
    "c64_datetime_partial",
    "c64_datetime_refuted",
    "c64_time_partial"
   ],
   "note": "TIMESTAMP_TRUNC is right in UTC and fixed-offset zones for all but the ISO parts; where clocks go back, the repeated hour is truncated an hour too early. DATETIME_TRUNC and TIME_TRUNC to SECOND clear the seconds, MILLISECOND drops the fraction, and DATETIME_TRUNC to a WEEK part keeps the time of day (each iff-characterised)."
  },
  {
   "property": "C65",
   "status": "proved",
   "theorems": [
    "c65_from_unix",
    "c65_round_trip",
    "c65_rounds_down"
   ],
   "note": "Conversions both ways, floor before 1970; the counts quantified are those of TIMESTAMP values 0001..9999."
  },
  {
   "property": "C66",
   "status": "partial",
   "theorems": [
    "c66_days_partial",
    "c66_months_refuted",
    "c66_hours_partial",
    "c66_minutes_refuted",
    "c66_interval_partial"
   ],
   "note": "The length is kept by JUSTIFY_DAYS always and by JUSTIFY_HOURS exactly when the minutes with the carried seconds are above -60 (function_interval.go:72 adds Hours/60 instead of Minutes/60); only one year is carried, so months stay above 11 for 1050 days and more. The text form of intervals (bigquery.IntervalValue, outside /repo) is not modelled."
  },
  {
   "property": "C67",
   "status": "partial",
   "theorems": [
    "c67_any_partial",
    "c67_last_refuted",
    "c67_once_partial",
    "c67_refuted",
    "c67_short_year_refuted",
    "c67_times_partial"
   ],
   "note": "Proved for every format of %Y, %m, %d and characters, except 29 February where the year stands behind both the month and the day (read as 1 March, for every such format and year) and years below 1000 printed in front of a digit. The other date elements (%F, %D, %b, ...) are modelled but not in the round trip."
  },
  {
   "property": "C68",
   "status": "partial",
   "theorems": [
    "c68_exact_partial",
    "c68_times_partial",
    "c68_literal_refuted",
    "c68_rollover_refuted",
    "c68_refuted"
   ],
   "note": "Exactly which texts are read and as what, for formats of %Y %m %d %H %I %M %S %p and characters. The characters of the format are not compared with the text, and days up to 31 are taken in every month."
  },
  {
   "property": "C69",
   "status": "partial",
   "theorems": [
    "c69_avg_partial",
    "c69_sum_wraps_refuted",
    "c69_nan_order_refuted",
    "c69_float_order_refuted"
   ],
   "note": "Refuted: an INT64 sum out of range wraps around silently, a NaN makes MAX depend on the row order, and a FLOAT64 SUM depends on the row order. AVG over INT64 proved as the FLOAT64 quotient when the sum is in range; what holds fully is C106, C107 and C108."
  },
  {
   "property": "C70",
   "status": "partial",
   "theorems": [
    "c70_bit_and_partial",
    "c70_bit_or_partial",
    "c70_bit_xor_partial",
    "c70_bit_xor_refuted",
    "c70_bit_or_refuted",
    "c70_empty_refuted"
   ],
   "note": "BIT_AND is right on every non-empty group. BIT_OR forgets everything so far once the result so far is -1, BIT_XOR once it is 1, and a group without values gives -1, -1 and 1 instead of NULL."
  },
  {
   "property": "C71",
   "status": "proved",
   "theorems": [
    "c71_rows_fed",
    "c71_feeds_right",
    "c71_ints",
    "c71_strings"
   ],
   "note": "For every aggregate function; also as a general theorem for any value type whose text is injective."
  },
  {
   "property": "C72",
   "status": "partial",
   "theorems": [
    "c72_order_limit_partial",
    "c72_dates_ignored_refuted",
    "c72_numeric_text_refuted",
    "c72_large_int_refuted",
    "c72_null_key_partial",
    "c72_null_tie_refuted"
   ],
   "note": "Proved for keys of INT64 below 2^53, STRING and FLOAT64, mixed and with directions, under the contract of sort.Slice. Refuted: date and time keys are ignored, NUMERIC keys compare as text, large INT64 keys tie, a NULL key hides later keys."
  },
  {
   "property": "C73",
   "status": "partial",
   "theorems": [
    "c73_other_values_partial",
    "c73_option_text_refuted"
   ],
   "note": "A STRING that is the JSON text of an option is taken for one: the call fails, crashes, or drops the row."
  },
  {
   "property": "C74",
   "status": "partial",
   "theorems": [
    "c74_columns_partial",
    "c74_timestamp_refuted",
    "c74_nan_refuted",
    "c74_compound_refuted"
   ],
   "note": "Exact for every type but TIMESTAMP, which groups by the second (Interface formats with RFC3339), and NaN, which joins NULL; STRUCT and ARRAY keys fail. Empty BYTES depend on the driver and are left out; INTERVAL and JSON keys are not modelled."
  },
  {
   "property": "C75",
   "status": "partial",
   "theorems": [
    "c75_rows_frame_partial",
    "c75_inverted_frame_refuted",
    "c75_far_end_refuted"
   ],
   "note": "Common hypotheses: ORDER BY keys are INT64 of up to 53 bits, BOOL as 0/1, well-formed STRING, finite FLOAT64, NUMERIC, BYTES, DATE, DATETIME or TIMESTAMP; PARTITION BY keys are INT64 of up to 53 bits or STRING (without underscore if there are several); no argument has the text of a JSON object; sort.Slice is any sort satisfying its contract. The frame theorem needs the end not more than one row before the start; an end further before it panics (slice bounds), and offsets that do not fit int64 wrap."
  },
  {
   "property": "C76",
   "status": "partial",
   "theorems": [
    "c76_default_frame_partial",
    "c76_descending_refuted",
    "c76_peers_left_out_refuted",
    "c76_only_last_key_refuted",
    "c76_null_key_refuted"
   ],
   "note": "Common hypotheses: ORDER BY keys are INT64 of up to 53 bits, BOOL as 0/1, well-formed STRING, finite FLOAT64, NUMERIC, BYTES, DATE, DATETIME or TIMESTAMP; PARTITION BY keys are INT64 of up to 53 bits or STRING (without underscore if there are several); no argument has the text of a JSON object; sort.Slice is any sort satisfying its contract. Default frame: exact for one ascending key; descending, several keys, NULL keys and CURRENT ROW .. UNBOUNDED FOLLOWING are refuted."
  },
  {
   "property": "C77",
   "status": "partial",
   "theorems": [
    "c77_partition_alone_partial",
    "c77_underscore_refuted",
    "c77_large_keys_refuted",
    "c77_null_key_refuted"
   ],
   "note": "Common hypotheses: ORDER BY keys are INT64 of up to 53 bits, BOOL as 0/1, well-formed STRING, finite FLOAT64, NUMERIC, BYTES, DATE, DATETIME or TIMESTAMP; PARTITION BY keys are INT64 of up to 53 bits or STRING (without underscore if there are several); no argument has the text of a JSON object; sort.Slice is any sort satisfying its contract. Refuted for keys joined with underscores, INT64 keys beyond 53 bits (sent as JSON numbers) and NULL keys."
  },
  {
   "property": "C78",
   "status": "partial",
   "theorems": [
    "c78_rank_partial",
    "c78_rank_zero_refuted",
    "c78_dense_rank_partial",
    "c78_string_key_refuted"
   ],
   "note": "Common hypotheses: ORDER BY keys are INT64 of up to 53 bits, BOOL as 0/1, well-formed STRING, finite FLOAT64, NUMERIC, BYTES, DATE, DATETIME or TIMESTAMP; PARTITION BY keys are INT64 of up to 53 bits or STRING (without underscore if there are several); no argument has the text of a JSON object; sort.Slice is any sort satisfying its contract. RANK and DENSE_RANK: one INT64 key, descending or positive. Refuted: an ascending key <= 0 has rank 0; a STRING key that is not a number makes them fail. ROW_NUMBER is C113."
  },
  {
   "property": "C79",
   "status": "partial",
   "theorems": [
    "c79_lead_lag_partial",
    "c79_default_for_null_refuted",
    "c79_far_lead_refuted",
    "c79_nth_value_partial",
    "c79_nth_value_refuted"
   ],
   "note": "Common hypotheses: ORDER BY keys are INT64 of up to 53 bits, BOOL as 0/1, well-formed STRING, finite FLOAT64, NUMERIC, BYTES, DATE, DATETIME or TIMESTAMP; PARTITION BY keys are INT64 of up to 53 bits or STRING (without underscore if there are several); no argument has the text of a JSON object; sort.Slice is any sort satisfying its contract. Refuted: the default of LEAD/LAG replaces a NULL value of an existing row; LEAD by an offset near 2^63 panics; NTH_VALUE never returns the last row of the frame and panics for n = 0. FIRST_VALUE and LAST_VALUE are C117."
  },
  {
   "property": "C80",
   "status": "partial",
   "theorems": [
    "c80_ntile_partial",
    "c80_extra_buckets_refuted"
   ],
   "note": "Common hypotheses: ORDER BY keys are INT64 of up to 53 bits, BOOL as 0/1, well-formed STRING, finite FLOAT64, NUMERIC, BYTES, DATE, DATETIME or TIMESTAMP; PARTITION BY keys are INT64 of up to 53 bits or STRING (without underscore if there are several); no argument has the text of a JSON object; sort.Slice is any sort satisfying its contract. NTILE(n) is right when the partition has at most n+1 rows; with n+2 or more the last row gets a bucket beyond n."
  },
  {
   "property": "C81",
   "status": "partial",
   "theorems": [
    "c81_decimal",
    "c81_text_unique",
    "c81_grouping_partial",
    "c81_grouping_refuted",
    "c81_grouped_width_refuted",
    "c81_huge_width_refuted"
   ],
   "note": "%d with a written width up to 10000009 and an optional 0 prints the documented text. %' prints the documented text exactly for numbers >= 0 and negative ones whose number of digits is not a multiple of 3 (FORMAT(\"%'d\", -123456) is '-,123,456'), always ignoring the width; a width above 10000009 from * loses the number ('%!(NOVERB)\u2026')."
  },
  {
   "property": "C82",
   "status": "partial",
   "theorems": [
    "c82_complete_partial",
    "c82_read_partial",
    "c82_found_partial",
    "c82_other_project_refuted",
    "c82_bare_refuted",
    "c82_suffix_partial",
    "c82_two_projects_refuted",
    "c82_parts_refuted"
   ],
   "note": "Proved: every table the prefix names is read; which tables are read, exactly; in a catalog of one project the suffix and the columns. Refuted: tables that only contain the pattern are read too (unanchored regular expression, dots match anything), a table named exactly the prefix makes the query fail, tables of two projects get wrong suffixes, and a path in separate identifiers fails or panics. Not modelled: names with other regular expression characters."
  },
  {
   "property": "C83",
   "status": "proved",
   "theorems": [
    "c83_unique"
   ],
   "note": "Names are compared as SQLite does, without regard to the case of ASCII letters."
  },
  {
   "property": "C84",
   "status": "partial",
   "theorems": [
    "c84_schema_and_rows_agree_partial",
    "c84_schema_and_rows_agree_refuted"
   ],
   "note": "Proved for references spelled with the full path; refuted for abbreviated ones."
  },
  {
   "property": "C85",
   "status": "partial",
   "theorems": [
    "c85_truncate_partial",
    "c85_truncate_refuted"
   ],
   "note": "Undotted references under an empty name path; refuted for d.t, which empties table t."
  },
  {
   "property": "C86",
   "status": "partial",
   "theorems": [
    "c86_missing_argument_refuted",
    "c86_too_few_partial"
   ],
   "note": "Too few arguments is an error; refuted for a misspelt name, which silently binds NULL."
  },
  {
   "property": "C87",
   "status": "partial",
   "theorems": [
    "c87_iso_partial",
    "c87_week_refuted"
   ],
   "note": "ISOYEAR and ISOWEEK proved; WEEK refuted with the exact set of days."
  },
  {
   "property": "C88",
   "status": "proved",
   "theorems": [
    "c88_date",
    "c88_extract"
   ],
   "note": "Go's time.Date is modelled by the proleptic Gregorian calendar of CalendarModel."
  },
  {
   "property": "C89",
   "status": "partial",
   "theorems": [
    "c89_diff_add_partial",
    "c89_days_refuted"
   ],
   "note": "DAY holds exactly up to 106752 days; beyond, DATE_DIFF saturates."
  },
  {
   "property": "C90",
   "status": "partial",
   "theorems": [
    "c90_small_partial",
    "c90_rounding_refuted",
    "c90_overflow_refuted"
   ],
   "note": "Exact below 2^53 (the float64 detour); wrong above and overflow is never NULL."
  },
  {
   "property": "C92",
   "status": "partial",
   "theorems": [
    "c92_days_partial",
    "c92_weeks_partial",
    "c92_months_partial",
    "c92_month_end_refuted",
    "c92_quarter_refuted",
    "c92_zero_refuted",
    "c92_same_refuted"
   ],
   "note": "DAY and WEEK proved for all dates and steps; MONTH and YEAR proved for start days up to the 28th. Refuted: later start days drift, QUARTER steps are days, step 0 gives NULL, start = end with a negative step gives []."
  },
  {
   "property": "C91",
   "status": "partial",
   "theorems": [
    "c91_truncates_partial",
    "c91_range_refuted",
    "c91_half_refuted"
   ],
   "note": "Proved that the cast truncates and exactly when that is the rounding; refuted for fractions of one half or more and for NaN, infinities and out-of-range values."
  },
  {
   "property": "C93",
   "status": "partial",
   "theorems": [
    "c93_add_sub_partial",
    "c93_print_partial",
    "c93_exact_refuted"
   ],
   "note": "Sums and differences of nine-digit values stay nine-digit and print faithfully; refuted for quotients and products, which are kept unrounded."
  },
  {
   "property": "C94",
   "status": "partial",
   "theorems": [
    "c94_round_trip_partial",
    "c94_decimal_partial",
    "c94_empty_refuted",
    "c94_underscore_refuted"
   ],
   "note": "Round trip proved for all int64; accepted language proved for strings without 0x. Refuted: the empty string is 0, underscores are accepted in hexadecimal."
  },
  {
   "property": "C95",
   "status": "partial",
   "theorems": [
    "c95_round_trip_partial",
    "c95_accepts_partial",
    "c95_refuted"
   ],
   "note": "Round trip and exact accepted set proved; it is not the documented one: '' and 't' are accepted, 'tRue' is refused."
  },
  {
   "property": "C96",
   "status": "proved",
   "theorems": [
    "c96_left_right",
    "c96_left_right_bytes"
   ],
   "note": "Character level for STRING, byte level for BYTES."
  },
  {
   "property": "C97",
   "status": "partial",
   "theorems": [
    "c97_replace_partial",
    "c97_replace_empty_refuted",
    "c97_repeat_partial",
    "c97_repeat_negative_panics_refuted"
   ],
   "note": "REPLACE proved for a non-empty search text; an empty one inserts the new text everywhere; REPEAT panics on negative counts."
  },
  {
   "property": "C98",
   "status": "proved",
   "theorems": [
    "c98_concat_length",
    "c98_length_bounds",
    "c98_length_ascii",
    "c98_concat_bytes"
   ],
   "note": "Character level, every list of texts."
  },
  {
   "property": "C99",
   "status": "proved",
   "theorems": [
    "c99_safe_convert",
    "c99_safe_convert_keeps_prefix"
   ],
   "note": "Every byte string."
  },
  {
   "property": "C100",
   "status": "proved",
   "theorems": [
    "c100_date_text_reads_back",
    "c100_datetime_text_reads_back",
    "c100_time_text_reads_back",
    "c100_text_is_unambiguous"
   ],
   "note": "Years outside 0..9999 are outside the model of Format."
  },
  {
   "property": "C101",
   "status": "proved",
   "theorems": [
    "c101_date_reading",
    "c101_time_reading",
    "c101_datetime_reading"
   ],
   "note": "Exact equivalence with an independent grammar for all strings."
  },
  {
   "property": "C102",
   "status": "proved",
   "theorems": [
    "c102_ltrim",
    "c102_rtrim",
    "c102_trim"
   ],
   "note": "For all well-formed strings and sets."
  },
  {
   "property": "C103",
   "status": "partial",
   "theorems": [
    "c103_trim_bytes_partial",
    "c103_ltrim_rtrim_bytes_refuted",
    "c103_default_set_refuted"
   ],
   "note": "TRIM with an explicit ASCII set is proved. Refuted: LTRIM/RTRIM use the base64 text of a BYTES set; the default set is the space only. Bytes above 127 are not modelled."
  },
  {
   "property": "C104",
   "status": "proved",
   "theorems": [
    "c104_ipv4_bytes_round_trip"
   ],
   "note": "All byte strings, by length."
  },
  {
   "property": "C105",
   "status": "proved",
   "theorems": [
    "c105_ipv4_text_iff"
   ],
   "note": "Go's netip.ParseAddr is modelled for IPv4 texts."
  },
  {
   "property": "C106",
   "status": "proved",
   "theorems": [
    "c106_count",
    "c106_count_star",
    "c106_countif"
   ],
   "note": "Counters are int64; hence fewer than 2^63 rows."
  },
  {
   "property": "C107",
   "status": "proved",
   "theorems": [
    "c107_max",
    "c107_min",
    "c107_any_value",
    "c107_defined"
   ],
   "note": "Values pairwise comparable in the sense of CompareSpec, which excludes NaN."
  },
  {
   "property": "C108",
   "status": "proved",
   "theorems": [
    "c108_sum_int64",
    "c108_sum_numeric",
    "c108_order",
    "c108_order_numeric"
   ],
   "note": "INT64 partial sums wrap and the total is exact when it is in range; NUMERIC is an unbounded rational in the code."
  },
  {
   "property": "C109",
   "status": "proved",
   "theorems": [
    "c109_array_agg",
    "c109_null_is_error"
   ],
   "note": "The order of the rows is the order in which SQLite steps the aggregate."
  },
  {
   "property": "C110",
   "status": "partial",
   "theorems": [
    "c110_string_agg_partial",
    "c110_empty_delimiter_refuted"
   ],
   "note": "Refuted for the empty delimiter, which becomes a comma."
  },
  {
   "property": "C111",
   "status": "partial",
   "theorems": [
    "c111_logical_partial",
    "c111_empty_refuted"
   ],
   "note": "Refuted for a group without values: TRUE and FALSE instead of NULL."
  },
  {
   "property": "C112",
   "status": "proved",
   "theorems": [
    "c112_frame_around"
   ],
   "note": "Common hypotheses: ORDER BY keys are INT64 of up to 53 bits, BOOL as 0/1, well-formed STRING, finite FLOAT64, NUMERIC, BYTES, DATE, DATETIME or TIMESTAMP; PARTITION BY keys are INT64 of up to 53 bits or STRING (without underscore if there are several); no argument has the text of a JSON object; sort.Slice is any sort satisfying its contract."
  },
  {
   "property": "C113",
   "status": "proved",
   "theorems": [
    "c113_row_number",
    "c113_all_numbers"
   ],
   "note": "Common hypotheses: ORDER BY keys are INT64 of up to 53 bits, BOOL as 0/1, well-formed STRING, finite FLOAT64, NUMERIC, BYTES, DATE, DATETIME or TIMESTAMP; PARTITION BY keys are INT64 of up to 53 bits or STRING (without underscore if there are several); no argument has the text of a JSON object; sort.Slice is any sort satisfying its contract."
  },
  {
   "property": "C114",
   "status": "proved",
   "theorems": [
    "c114_ntile_steps"
   ],
   "note": "Common hypotheses: ORDER BY keys are INT64 of up to 53 bits, BOOL as 0/1, well-formed STRING, finite FLOAT64, NUMERIC, BYTES, DATE, DATETIME or TIMESTAMP; PARTITION BY keys are INT64 of up to 53 bits or STRING (without underscore if there are several); no argument has the text of a JSON object; sort.Slice is any sort satisfying its contract."
  },
  {
   "property": "C115",
   "status": "partial",
   "theorems": [
    "c115_avg_partial",
    "c115_nulls_counted_refuted"
   ],
   "note": "Common hypotheses: ORDER BY keys are INT64 of up to 53 bits, BOOL as 0/1, well-formed STRING, finite FLOAT64, NUMERIC, BYTES, DATE, DATETIME or TIMESTAMP; PARTITION BY keys are INT64 of up to 53 bits or STRING (without underscore if there are several); no argument has the text of a JSON object; sort.Slice is any sort satisfying its contract. Refuted: rows with NULL are counted in the divisor."
  },
  {
   "property": "C116",
   "status": "partial",
   "theorems": [
    "c116_cume_dist_partial",
    "c116_cume_dist_refuted",
    "c116_percent_rank_partial"
   ],
   "note": "Common hypotheses: ORDER BY keys are INT64 of up to 53 bits, BOOL as 0/1, well-formed STRING, finite FLOAT64, NUMERIC, BYTES, DATE, DATETIME or TIMESTAMP; PARTITION BY keys are INT64 of up to 53 bits or STRING (without underscore if there are several); no argument has the text of a JSON object; sort.Slice is any sort satisfying its contract. Refuted: peers after the row are left out of CUME_DIST. PERCENT_RANK: one INT64 key, descending or positive (else RANK is 0 and the result negative)."
  },
  {
   "property": "C117",
   "status": "proved",
   "theorems": [
    "c117_first_last"
   ],
   "note": "Common hypotheses: ORDER BY keys are INT64 of up to 53 bits, BOOL as 0/1, well-formed STRING, finite FLOAT64, NUMERIC, BYTES, DATE, DATETIME or TIMESTAMP; PARTITION BY keys are INT64 of up to 53 bits or STRING (without underscore if there are several); no argument has the text of a JSON object; sort.Slice is any sort satisfying its contract. The formatter sends IGNORE NULLS also when no modifier is given, where SQL says RESPECT NULLS; the theorem is about explicit modifiers."
  },
  {
   "property": "C118",
   "status": "partial",
   "theorems": [
    "c118_create_new_partial",
    "c118_or_replace_partial",
    "c118_if_not_exists_partial",
    "c118_exists_partial",
    "c118_ctas_if_not_exists_refuted"
   ],
   "note": "Permanent tables, no SQLite failure (a failing name check needs no such assumption). Refuted: CREATE TABLE IF NOT EXISTS ... AS SELECT fails when the table exists (the schema text of a query ignores the mode)."
  },
  {
   "property": "C119",
   "status": "partial",
   "theorems": [
    "c119_dml_partial",
    "c119_or_replace_refuted",
    "c119_create_refuted",
    "c119_merge_refuted"
   ],
   "note": "Holds for DML, TRUNCATE and queries under any SQLite failures. Refuted outside a transaction for CREATE OR REPLACE TABLE (the old table is gone), CREATE TABLE (the table stays without stored catalog entry) and MERGE (its first statement stays)."
  },
  {
   "property": "C120",
   "status": "partial",
   "theorems": [
    "c120_add_partial",
    "c120_diff_partial",
    "c120_diff_add_partial",
    "c120_far_refuted"
   ],
   "note": "Exact iff the distance fits a 64-bit number of nanoseconds (292 years); farther differences are all equal."
  },
  {
   "property": "C121",
   "status": "partial",
   "theorems": [
    "c121_days_partial",
    "c121_dst_refuted"
   ],
   "note": "Exact iff the process's zone has the same offset at both ends; always exact with a fixed-offset process zone."
  },
  {
   "property": "C122",
   "status": "proved",
   "theorems": [
    "c122_date_parts"
   ],
   "note": "Stated against DATE_ADD and DATE_SUB, including when they fail."
  },
  {
   "property": "C123",
   "status": "partial",
   "theorems": [
    "c123_timestamp_refuted",
    "c123_datetime_refuted",
    "c123_days_partial"
   ],
   "note": "The code rounds away from zero."
  },
  {
   "property": "C124",
   "status": "partial",
   "theorems": [
    "c124_default_zone_refuted"
   ],
   "note": "Right iff the process's zone agrees with UTC."
  },
  {
   "property": "C125",
   "status": "partial",
   "theorems": [
    "c125_add_partial",
    "c125_far_refuted",
    "c125_diff_partial"
   ],
   "note": "Exact up to 292 years; beyond that never for units up to a second."
  },
  {
   "property": "C126",
   "status": "proved",
   "theorems": [
    "c126_clock_parts",
    "c126_built"
   ],
   "note": "Wall clocks of whole microseconds; fields in their documented ranges."
  },
  {
   "property": "C127",
   "status": "partial",
   "theorems": [
    "c127_offsets_partial",
    "c127_anywhere_refuted"
   ],
   "note": "-HH:MM adds the minutes instead of subtracting them; offsets are found anywhere in a name."
  },
  {
   "property": "C128",
   "status": "proved",
   "theorems": [
    "c128_history",
    "c128_calls"
   ],
   "note": "Assumes of the time zone database that only UTC begins with UTC and that the empty name is UTC."
  },
  {
   "property": "C129",
   "status": "proved",
   "theorems": [
    "c129_round_trip",
    "c129_extract"
   ],
   "note": "Zones of fixed offset."
  },
  {
   "property": "C130",
   "status": "partial",
   "theorems": [
    "c130_carried_refuted"
   ],
   "note": "No field is checked."
  },
  {
   "property": "C131",
   "status": "proved",
   "theorems": [
    "c131_written"
   ],
   "note": "Proved for the fields the functions receive; the text form of intervals is outside /repo."
  },
  {
   "property": "C132",
   "status": "partial",
   "theorems": [
    "c132_part_partial",
    "c132_wrap_refuted",
    "c132_week_refuted",
    "c132_make_partial"
   ],
   "note": "Exact for every part: QUARTER and WEEK always fail, counts outside 32 bits wrap around."
  },
  {
   "property": "C133",
   "status": "partial",
   "theorems": [
    "c133_datetime_partial",
    "c133_date_partial",
    "c133_month_end_refuted",
    "c133_inverse_partial"
   ],
   "note": "Right exactly when the month reached has the day of the month; otherwise the result spills into the next month by the missing days."
  },
  {
   "property": "C134",
   "status": "partial",
   "theorems": [
    "c134_days_partial",
    "c134_far_refuted"
   ],
   "note": "Right exactly up to 106751 days; beyond that the result is 106751 days with the sign."
  },
  {
   "property": "C135",
   "status": "partial",
   "theorems": [
    "c135_fixed_partial",
    "c135_zone_partial",
    "c135_dst_refuted"
   ],
   "note": "Right in zones with a fixed offset, and in general exactly when the offset is the same at both ends."
  },
  {
   "property": "C136",
   "status": "proved",
   "theorems": [
    "c136_exact",
    "c136_equivalence"
   ],
   "note": "BYTES, FLOAT64 without NaN and mixed tuples are in C74's theorem."
  },
  {
   "property": "C137",
   "status": "proved",
   "theorems": [
    "c137_query"
   ],
   "note": "Analytic functions, WITH, LEFT JOIN UNNEST without ON (C245), grouping sets, and DISTINCT, ORDER BY and LIMIT inside an aggregate function are not part of this model of queries; values are NULL or integers, functions and aggregate functions are abstract."
  },
  {
   "property": "C138",
   "status": "partial",
   "theorems": [
    "c138_delete_partial",
    "c138_delete_refuted",
    "c138_update_partial"
   ],
   "note": "Holds when the columns of the statement have different names and, with UNNEST, none is called like a column of json_each (C246); else refuted."
  },
  {
   "property": "C139",
   "status": "partial",
   "theorems": [
    "c139_left_refuted",
    "c139_on_refuted",
    "c139_left_deep_partial"
   ],
   "note": "Left-deep joins are right, a join on the right is not."
  },
  {
   "property": "C140",
   "status": "partial",
   "theorems": [
    "c140_refuted"
   ],
   "note": "Refuted for LIMIT."
  },
  {
   "property": "C141",
   "status": "partial",
   "theorems": [
    "c141_refuted"
   ],
   "note": "Refuted for every such subquery."
  },
  {
   "property": "C142",
   "status": "partial",
   "theorems": [
    "c142_same_names_refuted",
    "c142_other_names_refuted"
   ],
   "note": "Refuted."
  },
  {
   "property": "C143",
   "status": "proved",
   "theorems": [
    "c143_texts"
   ],
   "note": "Years 1000 to 9999: a shorter year is printed without padding, see c67_short_year_refuted."
  },
  {
   "property": "C144",
   "status": "partial",
   "theorems": [
    "c144_exact_partial",
    "c144_refuted"
   ],
   "note": "Each element's exact condition; %z is modelled (seconds east of UTC, undocumented form) but has no theorem. %c and %Z are texts of Go's time package."
  },
  {
   "property": "C145",
   "status": "partial",
   "theorems": [
    "c145_text_partial",
    "c145_dropped_refuted"
   ],
   "note": "The text of the element is right; the character of the format behind it is lost when it is not at the end."
  },
  {
   "property": "C146",
   "status": "partial",
   "theorems": [
    "c146_parse_refuted",
    "c146_format_refuted"
   ],
   "note": "The exact condition of the panic. For FORMAT over the elements with a documented text, in years 0 to 9999."
  },
  {
   "property": "C147",
   "status": "proved",
   "theorems": [
    "c147_halves"
   ],
   "note": "PARSE_TIME and PARSE_DATETIME; whole seconds; for a DATETIME the year not behind a 29 February."
  },
  {
   "property": "C148",
   "status": "proved",
   "theorems": [
    "c148_times"
   ],
   "note": "Whole seconds, as no element prints a fraction; formats without %I, which drops the half of the day."
  },
  {
   "property": "C149",
   "status": "proved",
   "theorems": [
    "c149_zones"
   ],
   "note": "Whole seconds, years 1000 to 9999, formats without %I, zone offsets of whole minutes below 100 hours; a 29 February needs the year first."
  },
  {
   "property": "C150",
   "status": "proved",
   "theorems": [
    "c150_left_to_right",
    "c150_text_unique"
   ],
   "note": "The formats of the theorem contain no other flag and no precision. Characters are bytes. %t for INT64 and STRING arguments."
  },
  {
   "property": "C151",
   "status": "partial",
   "theorems": [
    "c151_arguments_partial",
    "c151_left_over_refuted"
   ],
   "note": "Missing and mistyped arguments fail; left over ones are ignored. The condition is exact for formats without %t. Patterns that are literals may already be refused by the analyzer, which is not modelled."
  },
  {
   "property": "C152",
   "status": "partial",
   "theorems": [
    "c152_plus_partial",
    "c152_space_partial",
    "c152_minus_sharp_refuted"
   ],
   "note": "Refuted: 0 gets no sign, the sign is put in front of the padding (FORMAT('%+5d', 42) is '+   42'), the space is printed before negative numbers too, - and # are refused."
  },
  {
   "property": "C153",
   "status": "partial",
   "theorems": [
    "c153_precision_partial",
    "c153_zero_precision_refuted",
    "c153_star_refuted"
   ],
   "note": "n >= 1 is passed on; 0 is passed on as -1, all the digits; * is always refused. strconv.FormatFloat is a parameter."
  },
  {
   "property": "C154",
   "status": "partial",
   "theorems": [
    "c154_string_width_refuted",
    "c154_star_width_refuted"
   ],
   "note": "Refuted for every string: the width is ignored, and with * the width itself is printed instead of the string."
  },
  {
   "property": "C155",
   "status": "partial",
   "theorems": [
    "c155_null_partial",
    "c155_show_null_refuted"
   ],
   "note": "The result is NULL exactly when an argument is NULL; %t and %T included."
  },
  {
   "property": "C156",
   "status": "partial",
   "theorems": [
    "c156_no_crash_partial",
    "c156_wide_float_refuted"
   ],
   "note": "Holds when no argument is FLOAT64 or NUMERIC; with one, a width above 2^48 panics in strings.Repeat. Parameters stand for strconv, go-json and Value.Format."
  },
  {
   "property": "C157",
   "status": "partial",
   "theorems": [
    "c157_union_all_partial",
    "c157_distinct_columns_partial",
    "c157_repeated_column_refuted",
    "c157_all_refuted"
   ],
   "note": "Exact condition for UNION ALL; a column the first input selects twice is read by name, so other inputs lose values; INTERSECT ALL and EXCEPT ALL are no SQLite syntax."
  },
  {
   "property": "C158",
   "status": "proved",
   "theorems": [
    "c158_distinct"
   ],
   "note": "Set laws for any number of inputs; SQLite's compound SELECT is modelled as comparing stored values."
  },
  {
   "property": "C159",
   "status": "partial",
   "theorems": [
    "c159_nan_refuted"
   ],
   "note": "NaN is stored as NULL."
  },
  {
   "property": "C160",
   "status": "proved",
   "theorems": [
    "c160_compare",
    "c160_sorted"
   ],
   "note": "The engine's comparison is the specified lexicographic order, and it is transitive; SQLite is trusted to sort by it."
  },
  {
   "property": "C161",
   "status": "proved",
   "theorems": [
    "c161_limit"
   ],
   "note": "SQLite's LIMIT is modelled by its documentation."
  },
  {
   "property": "C162",
   "status": "partial",
   "theorems": [
    "c162_negative_refuted"
   ],
   "note": "SQLite takes a negative LIMIT as none and a negative OFFSET as 0."
  },
  {
   "property": "C163",
   "status": "proved",
   "theorems": [
    "c163_grouping_sets"
   ],
   "note": "Uses the exactness of zetasqlite_group_by keys (C136); no order of the rows is claimed."
  },
  {
   "property": "C164",
   "status": "proved",
   "theorems": [
    "c164_unnest",
    "c164_null_array"
   ],
   "note": "UNNEST without an input scan; what becomes of integral floats from 2^53 is a parameter."
  },
  {
   "property": "C165",
   "status": "partial",
   "theorems": [
    "c165_large_refuted"
   ],
   "note": "Stated for any treatment of large floats in JSON."
  },
  {
   "property": "C166",
   "status": "proved",
   "theorems": [
    "c166_in_subquery"
   ],
   "note": "SQLite's IN is modelled over stored values."
  },
  {
   "property": "C167",
   "status": "partial",
   "theorems": [
    "c167_with_partial",
    "c167_name_refuted",
    "c167_scope_refuted"
   ],
   "note": "Names are written unquoted, and SQLite sees later entries and the entry itself in an entry's text."
  },
  {
   "property": "C168",
   "status": "proved",
   "theorems": [
    "c168_to_json"
   ],
   "note": "About the value as it reaches the function: what becomes of BOOL and of INT64 in arrays on the way there is C357 and C359. For any unicode.IsPrint, float and interval text; FLOAT64, INTERVAL, dates and times excluded (C172); go-json's reading is taken as RFC 8259."
  },
  {
   "property": "C169",
   "status": "partial",
   "theorems": [
    "c169_to_json_string_partial",
    "c169_wide_refuted"
   ],
   "note": ""
  },
  {
   "property": "C170",
   "status": "proved",
   "theorems": [
    "c170_parse",
    "c170_again",
    "c170_distinct"
   ],
   "note": ""
  },
  {
   "property": "C171",
   "status": "partial",
   "theorems": [
    "c171_string_partial",
    "c171_string_refuted"
   ],
   "note": ""
  },
  {
   "property": "C172",
   "status": "partial",
   "theorems": [
    "c172_dates_refuted",
    "c172_time_refuted",
    "c172_not_finite_refuted"
   ],
   "note": "DATE, DATETIME and TIMESTAMP from year 0 on; TIMESTAMP text taken in UTC"
  },
  {
   "property": "C173",
   "status": "partial",
   "theorems": [
    "c173_null_refuted"
   ],
   "note": ""
  },
  {
   "property": "C174",
   "status": "partial",
   "theorems": [
    "c174_json_value_partial",
    "c174_large_refuted",
    "c174_extract_null_refuted"
   ],
   "note": "what a path finds, and the text of numbers that are not whole or reach 2^53, are variables"
  },
  {
   "property": "C175",
   "status": "partial",
   "theorems": [
    "c175_value_array_partial",
    "c175_null_refuted",
    "c175_word_refuted",
    "c175_nested"
   ],
   "note": "what a path finds is a variable"
  },
  {
   "property": "C176",
   "status": "partial",
   "theorems": [
    "c176_same",
    "c176_scalar_partial",
    "c176_scalar_refuted"
   ],
   "note": "the path library is a variable"
  },
  {
   "property": "C177",
   "status": "partial",
   "theorems": [
    "c177_type_partial",
    "c177_panics_exactly",
    "c177_spaced_null_refuted",
    "c177_null_refuted",
    "c177_of_to_json"
   ],
   "note": ""
  },
  {
   "property": "C178",
   "status": "partial",
   "theorems": [
    "c178_string_partial",
    "c178_string_refuted",
    "c178_number_refuted"
   ],
   "note": "the failing comparison stands for any use of the result"
  },
  {
   "property": "C179",
   "status": "proved",
   "theorems": [
    "c179_values_are_shown",
    "c179_null"
   ],
   "note": ""
  },
  {
   "property": "C180",
   "status": "proved",
   "theorems": [
    "c180_fields"
   ],
   "note": ""
  },
  {
   "property": "C181",
   "status": "partial",
   "theorems": [
    "c181_duplicate_names_refuted"
   ],
   "note": "Exact for STRUCTs of STRING fields: every field shows the last value of its name."
  },
  {
   "property": "C182",
   "status": "partial",
   "theorems": [
    "c182_inside_struct_refuted"
   ],
   "note": "NUMERIC, BYTES and TIMESTAMP, alone in a STRUCT."
  },
  {
   "property": "C183",
   "status": "partial",
   "theorems": [
    "c183_unnamed_fields_refuted"
   ],
   "note": ""
  },
  {
   "property": "C184",
   "status": "proved",
   "theorems": [
    "c184_arguments_arrive",
    "c184_arguments_come_back",
    "c184_integer_as_bool"
   ],
   "note": ""
  },
  {
   "property": "C185",
   "status": "partial",
   "theorems": [
    "c185_unsigned_refuted"
   ],
   "note": ""
  },
  {
   "property": "C186",
   "status": "partial",
   "theorems": [
    "c186_nil_pointer_refuted"
   ],
   "note": ""
  },
  {
   "property": "C187",
   "status": "partial",
   "theorems": [
    "c187_null_types_refuted"
   ],
   "note": "driver.Valuer is never called: CheckNamedValue accepts every value."
  },
  {
   "property": "C188",
   "status": "partial",
   "theorems": [
    "c188_unmatched_fields_refuted"
   ],
   "note": "The Go struct case; a map goes the same way."
  },
  {
   "property": "C189",
   "status": "proved",
   "theorems": [
    "c189_text_and_back",
    "c189_timestamp_and_back"
   ],
   "note": "What big.Rat.SetString makes of texts other than plain decimals, and zone notations other than Z and +hh:mm, are arbitrary in the model."
  },
  {
   "property": "C190",
   "status": "proved",
   "theorems": [
    "c190_dates_and_times"
   ],
   "note": ""
  },
  {
   "property": "C191",
   "status": "partial",
   "theorems": [
    "c191_local_clock_partial",
    "c191_utc_refuted"
   ],
   "note": "Proved: the result is the wall clock of the machine's zone, so it is the one in UTC exactly where the offset is zero. Refuted for every instant with another offset."
  },
  {
   "property": "C192",
   "status": "proved",
   "theorems": [
    "c192_dates",
    "c192_times",
    "c192_datetimes"
   ],
   "note": ""
  },
  {
   "property": "C193",
   "status": "proved",
   "theorems": [
    "c193_safe_cast"
   ],
   "note": ""
  },
  {
   "property": "C194",
   "status": "proved",
   "theorems": [
    "c194_arrays"
   ],
   "note": ""
  },
  {
   "property": "C195",
   "status": "partial",
   "theorems": [
    "c195_structs_partial",
    "c195_renamed_refuted",
    "c195_unnamed_refuted"
   ],
   "note": "Proved for structs with the same different names on both sides, one of them not empty. Refuted: a renamed field becomes NULL, unnamed structs are returned uncast."
  },
  {
   "property": "C196",
   "status": "proved",
   "theorems": [
    "c196_string_to_bytes"
   ],
   "note": ""
  },
  {
   "property": "C197",
   "status": "partial",
   "theorems": [
    "c197_base64_refuted"
   ],
   "note": "Refuted for all byte strings but the empty one."
  },
  {
   "property": "C198",
   "status": "partial",
   "theorems": [
    "c198_never_fails_refuted",
    "c198_decimals_partial"
   ],
   "note": "Proved for the plain decimals that a NUMERIC prints. Refuted: no text at all is rejected."
  },
  {
   "property": "C199",
   "status": "proved",
   "theorems": [
    "c199_wider_and_back"
   ],
   "note": ""
  },
  {
   "property": "C200",
   "status": "partial",
   "theorems": [
    "c200_timestamp_text_refuted"
   ],
   "note": "Refuted for every timestamp."
  },
  {
   "property": "C201",
   "status": "partial",
   "theorems": [
    "c201_time_as_date_refuted",
    "c201_date_as_time_refuted",
    "c201_one_digit_refuted"
   ],
   "note": "Refuted: every time of day is accepted as a DATE, every day as a TIME; one-digit months and hours are errors."
  },
  {
   "property": "C202",
   "status": "partial",
   "theorems": [
    "c202_one_name_partial",
    "c202_success_partial",
    "c202_create_refuted",
    "c202_drop_refuted"
   ],
   "note": "False: a CREATE TABLE killed between its two calls leaves a table that the catalog does not list and that can never be created again, a DROP TABLE leaves the name of a table that is gone (c202_create_refuted, c202_drop_refuted). Proved: in a history of any number of killed processes every crash puts at most one name out of step, and a script that succeeds puts none. For scripts of CREATE TABLE, DROP TABLE, INSERT/UPDATE/DELETE, TRUNCATE and queries on lower-case table names."
  },
  {
   "property": "C203",
   "status": "proved",
   "theorems": [
    "c203_replace",
    "c203_if_not_exists"
   ],
   "note": "For states in which the stored rows are those of tables with lower-case names (well_stored)."
  },
  {
   "property": "C204",
   "status": "partial",
   "theorems": [
    "c204_listed_partial",
    "c204_not_listed_refuted"
   ],
   "note": "Succeeds for names the catalog lists. For a table that the catalog does not list (the crash of a CREATE TABLE) it fails, although it has dropped the table."
  },
  {
   "property": "C205",
   "status": "partial",
   "theorems": [
    "c205_temporary_table_refuted",
    "c205_temporary_function_partial"
   ],
   "note": "Holds for temporary functions. A temporary table stays in the file under its plain name, and every later CREATE TEMP TABLE of that name fails."
  },
  {
   "property": "C206",
   "status": "partial",
   "theorems": [
    "c206_rows_partial",
    "c206_merge_refuted",
    "c206_replace_refuted"
   ],
   "note": "Holds for INSERT, UPDATE, DELETE and TRUNCATE. MERGE can be cut between its changes, and then no MERGE works any more; CREATE OR REPLACE TABLE can lose the old table without making the new one."
  },
  {
   "property": "C207",
   "status": "partial",
   "theorems": [
    "c207_extract_partial",
    "c207_past_end_partial",
    "c207_position_refuted"
   ],
   "note": "Proved for ASCII texts and for position 1. Otherwise the position is used as a byte offset after it was compared with the number of characters, and the result may not even be valid UTF-8 (c207_position_refuted)."
  },
  {
   "property": "C208",
   "status": "proved",
   "theorems": [
    "c208_agree"
   ],
   "note": ""
  },
  {
   "property": "C209",
   "status": "partial",
   "theorems": [
    "c209_instr_partial",
    "c209_group_refuted",
    "c209_bytes_refuted"
   ],
   "note": "Proved for ASCII texts and expressions without groups. With a group the position is that of the whole match; the position is counted in bytes."
  },
  {
   "property": "C210",
   "status": "partial",
   "theorems": [
    "c210_base64_refuted",
    "c210_instr_partial",
    "c210_replace_partial",
    "c210_bytes_refuted"
   ],
   "note": "REGEXP_INSTR and REGEXP_REPLACE do. REGEXP_CONTAINS compares the base64 texts of its arguments, REGEXP_EXTRACT and REGEXP_EXTRACT_ALL take the base64 text of the expression as the expression."
  },
  {
   "property": "C211",
   "status": "partial",
   "theorems": [
    "c211_replace_partial",
    "c211_end_refuted",
    "c211_escape_refuted",
    "c211_dollar_refuted",
    "c211_dollars_refuted",
    "c211_digit_refuted"
   ],
   "note": "Proved for replacements without $, double backslashes and \\0 in which every reference is followed by a character that is not a digit. False otherwise: a reference at the end stays as ${1, \\0 and double backslashes stay as they are, $1 is taken as a reference, and a digit after a reference becomes part of its number."
  },
  {
   "property": "C212",
   "status": "partial",
   "theorems": [
    "c212_no_panic_partial",
    "c212_backslash_refuted",
    "c212_position_refuted"
   ],
   "note": "REGEXP_REPLACE crashes on a replacement that ends in a backslash, REGEXP_INSTR on a negative occurrence_position; the others never do."
  },
  {
   "property": "C213",
   "status": "proved",
   "theorems": [
    "c213_initcap"
   ],
   "note": ""
  },
  {
   "property": "C214",
   "status": "partial",
   "theorems": [
    "c214_default_partial",
    "c214_white_space_refuted"
   ],
   "note": "A tab, line feed, vertical tab, form feed or carriage return does not start a word."
  },
  {
   "property": "C215",
   "status": "proved",
   "theorems": [
    "c215_soundex",
    "c215_codes"
   ],
   "note": ""
  },
  {
   "property": "C216",
   "status": "partial",
   "theorems": [
    "c216_now_iff_partial",
    "c216_far_refuted"
   ],
   "note": "Holds exactly for the times that an int64 of nanoseconds can hold, 1677 to 2262; any other time is shown a multiple of 2^64 nanoseconds away, without an error."
  },
  {
   "property": "C217",
   "status": "proved",
   "theorems": [
    "c217_no_clock",
    "c217_one_instant"
   ],
   "note": ""
  },
  {
   "property": "C218",
   "status": "partial",
   "theorems": [
    "c218_clock_partial",
    "c218_context_iff_partial",
    "c218_local_refuted"
   ],
   "note": "Holds without WithCurrentTime. With it the wall clock is the one of the process's zone, so the claim holds exactly when that zone's offset is 0 at that time."
  },
  {
   "property": "C219",
   "status": "partial",
   "theorems": [
    "c219_clock_partial",
    "c219_context_refuted",
    "c219_name_refuted"
   ],
   "note": "Holds without WithCurrentTime. With it the formatter writes (zone, time) and the binders read (time, zone): every call with a zone fails, for every time from 1970 on whatever the zone, and for every time if the zone is not a number."
  },
  {
   "property": "C220",
   "status": "partial",
   "theorems": [
    "c220_still_partial",
    "c220_agree_refuted"
   ],
   "note": "Each call reads the clock anew. Holds if the clock stands still; a query across midnight shows a date and a timestamp of different days."
  },
  {
   "property": "C221",
   "status": "proved",
   "theorems": [
    "c221_within",
    "c221_ordered"
   ],
   "note": ""
  },
  {
   "property": "C222",
   "status": "partial",
   "theorems": [
    "c222_created_partial",
    "c222_timeless_partial",
    "c222_view_refuted",
    "c222_other_time_refuted",
    "c222_prepared_refuted"
   ],
   "note": "The SQL kept by CREATE VIEW, CREATE FUNCTION and Prepare has the time of its own context in it, or a call that reads the clock if there was none. Holds if both contexts have the same time or the body does not ask for the time. Functions with templated arguments are formatted by the calling query and are not in this model."
  },
  {
   "property": "C223",
   "status": "partial",
   "theorems": [
    "c223_refuted"
   ],
   "note": "The operators' resolved forms are ZetaSQL's; GoogleSQL does not offer them in every dialect. SQLite refuses both words (set_step)."
  },
  {
   "property": "C224",
   "status": "partial",
   "theorems": [
    "c224_refuted"
   ],
   "note": "Refuted, with a general theorem about the two columns and a witness against the meaning."
  },
  {
   "property": "C225",
   "status": "partial",
   "theorems": [
    "c225_refuted"
   ],
   "note": "Refuted: HAVING FALSE returns one row for every table, and HAVING on an aggregate fails for every non-empty table."
  },
  {
   "property": "C226",
   "status": "partial",
   "theorems": [
    "c226_no_crash_partial",
    "c226_refuted"
   ],
   "note": "Proved for goroutines without DROP TABLE, DROP VIEW and wildcard queries. Refuted otherwise: DROP reads c.tableMap before it takes the mutex (stmt_action.go:265) and a wildcard table iterates over it without the mutex (wildcard_table.go:150-154), so beside any CREATE some schedule reads the map while it is written, which Go's runtime aborts. Data races without such an abort (c.catalog, c.tables) are taken as sequentially consistent steps."
  },
  {
   "property": "C227",
   "status": "partial",
   "theorems": [
    "c227_refuted"
   ],
   "note": "DROP replaces the analyzer's catalog by an empty one and adds the remaining tables one by one, under a mutex that FindTable does not take."
  },
  {
   "property": "C228",
   "status": "proved",
   "theorems": [
    "c228_found"
   ],
   "note": ""
  },
  {
   "property": "C229",
   "status": "proved",
   "theorems": [
    "c229_serial"
   ],
   "note": "The statements sent to SQLite are not part of this model; OSync's rows are any list."
  },
  {
   "property": "C230",
   "status": "proved",
   "theorems": [
    "c230_progress"
   ],
   "note": "Progress, for every schedule; that every goroutine ends needs a fair scheduler, which is not modelled."
  },
  {
   "property": "C231",
   "status": "partial",
   "theorems": [
    "c231_refuted"
   ],
   "note": "IsTemp only decides whether the spec is saved in zetasqlite_catalog (catalog.go:227); the table itself is a plain SQLite table until Cleanup drops it, so both the lookup and the table are there."
  },
  {
   "property": "C232",
   "status": "proved",
   "theorems": [
    "c232_dml",
    "c232_query"
   ],
   "note": "Proved."
  },
  {
   "property": "C233",
   "status": "partial",
   "theorems": [
    "c233_refuted"
   ],
   "note": "Refuted for every CREATE TABLE and CREATE VIEW: Exec of the prepared statement always fails, because the slice of arguments is handed over as one argument; and with OR REPLACE preparing it has already dropped the old object."
  },
  {
   "property": "C234",
   "status": "partial",
   "theorems": [
    "c234_refuted"
   ],
   "note": "Refuted for every such statement: Prepare returns a nil driver.Stmt without error, and database/sql panics when it is used."
  },
  {
   "property": "C235",
   "status": "partial",
   "theorems": [
    "c235_refuted",
    "c235_direct"
   ],
   "note": "Refuted for every statement: with a named argument neither Exec nor Query of a prepared statement succeeds. c235_direct: executed directly, the argument is accepted."
  },
  {
   "property": "C236",
   "status": "partial",
   "theorems": [
    "c236_single_partial",
    "c236_refuted"
   ],
   "note": "Proved for one statement; refuted for two: only the last is executed."
  },
  {
   "property": "C237",
   "status": "partial",
   "theorems": [
    "c237_permanent_partial",
    "c237_refuted"
   ],
   "note": "Proved for permanent functions; a temporary function stays registered, and the result is a nil driver.Result whose RowsAffected panics."
  },
  {
   "property": "C238",
   "status": "partial",
   "theorems": [
    "c238_dml_partial",
    "c238_refuted"
   ],
   "note": "Proved for scripts that end in INSERT, UPDATE or DELETE; TRUNCATE and MERGE always report 0."
  },
  {
   "property": "C239",
   "status": "proved",
   "theorems": [
    "c239_success",
    "c239_failure",
    "c239_no_panic",
    "c239_cause"
   ],
   "note": "Proved. c239_no_panic assumes that reading the arguments does not panic."
  },
  {
   "property": "C240",
   "status": "partial",
   "theorems": [
    "c240_refuted",
    "c240_query_partial"
   ],
   "note": "Refuted for Exec: the error is always an ErrorGroup without Unwrap, so that nothing but the group itself is found. Proved for Query (errors of the arguments excepted)."
  },
  {
   "property": "C241",
   "status": "partial",
   "theorems": [
    "c241_refuted"
   ],
   "note": "Refuted: the first statement stays."
  },
  {
   "property": "C242",
   "status": "partial",
   "theorems": [
    "c242_query_partial",
    "c242_exec_refuted",
    "c242_close_refuted"
   ],
   "note": "Proved for Query of one query. Exec runs the query itself, and Close of the rows panics when the script has created a temporary object."
  },
  {
   "property": "C243",
   "status": "partial",
   "theorems": [
    "c243_accepted_partial",
    "c243_refuted"
   ],
   "note": "c243_accepted_partial: the CREATE INDEX text is one exactly when the index name, which has no quotes, is a plain identifier. Otherwise CREATE TABLE fails and leaves a SQLite table that the catalog does not know."
  },
  {
   "property": "C244",
   "status": "partial",
   "theorems": [
    "c244_direct_partial",
    "c244_refuted"
   ],
   "note": "Proved for direct queries without explain mode; on the rows of every prepared query it panics."
  },
  {
   "property": "C245",
   "status": "partial",
   "theorems": [
    "c245_refuted"
   ],
   "note": ""
  },
  {
   "property": "C246",
   "status": "partial",
   "theorems": [
    "c246_refuted"
   ],
   "note": ""
  },
  {
   "property": "C247",
   "status": "proved",
   "theorems": [
    "c247_values"
   ],
   "note": "Values with subqueries are not covered; UPDATE and DELETE have them in C138."
  },
  {
   "property": "C248",
   "status": "proved",
   "theorems": [
    "c248_select"
   ],
   "note": ""
  },
  {
   "property": "C249",
   "status": "proved",
   "theorems": [
    "c249_lawful"
   ],
   "note": ""
  },
  {
   "property": "C250",
   "status": "partial",
   "theorems": [
    "c250_refuted"
   ],
   "note": "TableSpec.SQLiteSchema returns before it looks at columns and key when there is a query."
  },
  {
   "property": "C251",
   "status": "partial",
   "theorems": [
    "c251_partial",
    "c251_refuted"
   ],
   "note": "Witness: UPDATE t SET id = id + 1 on the rows k and k+1 for any k. SQLite checks uniqueness after each row; rows are taken in storage order."
  },
  {
   "property": "C252",
   "status": "partial",
   "theorems": [
    "c252_partial",
    "c252_reserved_refuted"
   ],
   "note": "The names of key columns are written without quotes. Names with characters outside identifiers are taken as refused."
  },
  {
   "property": "C253",
   "status": "partial",
   "theorems": [
    "c253_insert_refuted",
    "c253_update_refuted"
   ],
   "note": ""
  },
  {
   "property": "C254",
   "status": "partial",
   "theorems": [
    "c254_refuted"
   ],
   "note": ""
  },
  {
   "property": "C255",
   "status": "partial",
   "theorems": [
    "c255_insert_refuted",
    "c255_update_refuted"
   ],
   "note": ""
  },
  {
   "property": "C256",
   "status": "partial",
   "theorems": [
    "c256_refuted"
   ],
   "note": ""
  },
  {
   "property": "C257",
   "status": "proved",
   "theorems": [
    "c257_column"
   ],
   "note": "SQLite's column affinity and go-sqlite3's use of declared types are outside /repo and modelled from their documentation."
  },
  {
   "property": "C258",
   "status": "proved",
   "theorems": [
    "c258_sum"
   ],
   "note": ""
  },
  {
   "property": "C259",
   "status": "partial",
   "theorems": [
    "c259_refuted"
   ],
   "note": "The sum wraps around."
  },
  {
   "property": "C260",
   "status": "proved",
   "theorems": [
    "c260_extremes"
   ],
   "note": ""
  },
  {
   "property": "C261",
   "status": "proved",
   "theorems": [
    "c261_countif"
   ],
   "note": ""
  },
  {
   "property": "C262",
   "status": "partial",
   "theorems": [
    "c262_partial",
    "c262_refuted"
   ],
   "note": "Missing: the empty delimiter, for which a comma is used."
  },
  {
   "property": "C263",
   "status": "proved",
   "theorems": [
    "c263_distinct"
   ],
   "note": ""
  },
  {
   "property": "C264",
   "status": "partial",
   "theorems": [
    "c264_refuted"
   ],
   "note": "It divides by the number of rows of the frame, duplicates and NULLs included."
  },
  {
   "property": "C265",
   "status": "proved",
   "theorems": [
    "c265_whole"
   ],
   "note": ""
  },
  {
   "property": "C266",
   "status": "partial",
   "theorems": [
    "c266_partial",
    "c266_refuted"
   ],
   "note": "Missing: percentiles above 0 that fall on the first value, where the result is NULL (so for every percentile but 0 of a partition of one row)."
  },
  {
   "property": "C267",
   "status": "partial",
   "theorems": [
    "c267_cont_partial",
    "c267_disc_refuted"
   ],
   "note": "PERCENTILE_DISC crashes."
  },
  {
   "property": "C268",
   "status": "partial",
   "theorems": [
    "c268_partial",
    "c268_zero_refuted",
    "c268_fraction_refuted"
   ],
   "note": "Proved for f = 0 and for one row of INT64; 0 is returned whenever the greatest value is 0, and FLOAT64 values lose their fraction. Interpolation between two rows is modelled but nothing is proved of it."
  },
  {
   "property": "C269",
   "status": "proved",
   "theorems": [
    "c269_code_arrives"
   ],
   "note": ""
  },
  {
   "property": "C270",
   "status": "partial",
   "theorems": [
    "c270_arguments_arrive_partial",
    "c270_arguments_arrive_refuted"
   ],
   "note": "Missing: names that begin another name and arguments whose text holds an @; refuted for f(a, ab): the second argument becomes the text of the first one followed by b."
  },
  {
   "property": "C271",
   "status": "partial",
   "theorems": [
    "c271_identity_partial",
    "c271_int64_refuted",
    "c271_numeric_refuted",
    "c271_timestamp_refuted"
   ],
   "note": "Refuted for INT64 beyond 2^53 (rounded), NUMERIC (the argument is the text n/d, not a number, so all give the same value) and TIMESTAMP (fractions of a second are lost). TIME and BYTES are not claimed."
  },
  {
   "property": "C272",
   "status": "partial",
   "theorems": [
    "c272_null_refuted",
    "c272_null_partial"
   ],
   "note": "Refuted for every type but STRUCT: no such function can return NULL."
  },
  {
   "property": "C273",
   "status": "proved",
   "theorems": [
    "c273_documents"
   ],
   "note": ""
  },
  {
   "property": "C274",
   "status": "proved",
   "theorems": [
    "c274_any_order"
   ],
   "note": ""
  },
  {
   "property": "C275",
   "status": "partial",
   "theorems": [
    "c275_no_crash_refuted",
    "c275_no_crash_partial"
   ],
   "note": "Refuted: an ARRAY function that returns null or anything but an array panics in a type assertion."
  },
  {
   "property": "C276",
   "status": "partial",
   "theorems": [
    "c276_final_comment_refuted",
    "c276_final_comment_partial"
   ],
   "note": "Refuted for every such code ending in a comment without a newline."
  },
  {
   "property": "C277",
   "status": "proved",
   "theorems": [
    "c277_dates"
   ],
   "note": ""
  },
  {
   "property": "C278",
   "status": "partial",
   "theorems": [
    "c278_numeric_refuted"
   ],
   "note": "Refuted: the failure of SetString is ignored."
  },
  {
   "property": "C279",
   "status": "partial",
   "theorems": [
    "c279_empty_object_refuted"
   ],
   "note": "Refuted for every struct type."
  },
  {
   "property": "C280",
   "status": "partial",
   "theorems": [
    "c280_series_partial",
    "c280_long_refuted",
    "c280_same_refuted"
   ],
   "note": "Right for all steps whose nanoseconds fit 64 bits (292 years), except that equal ends with a negative step give an empty array. Longer steps wrap; c280_long_refuted says exactly when the array is still right."
  },
  {
   "property": "C281",
   "status": "partial",
   "theorems": [
    "c281_returns_partial",
    "c281_hangs_refuted"
   ],
   "note": "The exact condition for a call that never returns is c281_hangs_refuted: a wrapped step that goes the wrong way or nowhere, e.g. INTERVAL 150000 DAY."
  },
  {
   "property": "C282",
   "status": "partial",
   "theorems": [
    "c282_null_partial",
    "c282_null_step_refuted",
    "c282_zero_refuted"
   ],
   "note": "A NULL step panics in the binder; step 0 gives NULL."
  },
  {
   "property": "C283",
   "status": "proved",
   "theorems": [
    "c283_extract"
   ],
   "note": "The canonical form is what parsing the text of an interval gives; that text is not modelled."
  },
  {
   "property": "C284",
   "status": "proved",
   "theorems": [
    "c284_with"
   ],
   "note": "Names that clash are C167; a WITH inside a subquery and WITH RECURSIVE are not modelled."
  },
  {
   "property": "C285",
   "status": "proved",
   "theorems": [
    "c285_single",
    "c285_pairs"
   ],
   "note": "ToFloat64 is modelled for INT64 and FLOAT64 arguments."
  },
  {
   "property": "C286",
   "status": "partial",
   "theorems": [
    "c286_none_partial",
    "c286_one_refuted"
   ],
   "note": "Refuted: with exactly one row the result is a FLOAT64, whatever the library computes (gonum returns NaN); proved NULL without a row."
  },
  {
   "property": "C287",
   "status": "partial",
   "theorems": [
    "c287_population_refuted",
    "c287_both_refuted"
   ],
   "note": "Refuted on all rows with a nonzero covariance: both call the same library function."
  },
  {
   "property": "C288",
   "status": "partial",
   "theorems": [
    "c288_distinct_partial",
    "c288_second_refuted"
   ],
   "note": "Refuted: of two pairs with the same first value the second is dropped; proved when no two different pairs share their first value."
  },
  {
   "property": "C289",
   "status": "proved",
   "theorems": [
    "c289_count_distinct",
    "c289_int64",
    "c289_string"
   ],
   "note": "The general theorem assumes that the texts of the distinct values differ; the INT64 and STRING theorems need no such premise."
  },
  {
   "property": "C290",
   "status": "partial",
   "theorems": [
    "c290_ends_partial",
    "c290_minimum_refuted",
    "c290_null_refuted",
    "c290_order_refuted",
    "c290_median_refuted"
   ],
   "note": "Refuted: the rows are not sorted and NULLs are kept, so the first element is the first row's value; proved which values the ends are and that every element is the value of a row."
  },
  {
   "property": "C291",
   "status": "partial",
   "theorems": [
    "c291_small_partial",
    "c291_twelve_refuted"
   ],
   "note": "Refuted for n = 12, which gives 14 elements for all values; proved for n up to 11."
  },
  {
   "property": "C292",
   "status": "proved",
   "theorems": [
    "c292_top_count",
    "c292_no_rows"
   ],
   "note": "Both directions: every outcome described is possible."
  },
  {
   "property": "C293",
   "status": "proved",
   "theorems": [
    "c293_top_sum"
   ],
   "note": "Both directions; sums that overflow are C69."
  },
  {
   "property": "C294",
   "status": "partial",
   "theorems": [
    "c294_fewer_refuted",
    "c294_numeric_refuted",
    "c294_bytes_refuted"
   ],
   "note": "Refuted: asking for more than there are is an error, equal NUMERIC values are separate entries, BYTES values end the process."
  },
  {
   "property": "C295",
   "status": "proved",
   "theorems": [
    "c295_merge",
    "c295_no_sketch",
    "c295_broken"
   ],
   "note": "The laws of the sketch library are premises; c295_example shows a library that meets them."
  },
  {
   "property": "C296",
   "status": "partial",
   "theorems": [
    "c296_sketch_partial",
    "c296_hashed_partial",
    "c296_null_refuted",
    "c296_precision_refuted"
   ],
   "note": "Refuted: a NULL adds the hash 0, and the error of a refused precision is overwritten by the final return; proved for rows without NULL."
  },
  {
   "property": "C297",
   "status": "proved",
   "theorems": [
    "c297_null",
    "c297_round",
    "c297_only"
   ],
   "note": ""
  },
  {
   "property": "C298",
   "status": "partial",
   "theorems": [
    "c298_round_refuted"
   ],
   "note": "ROUND(x, NULL) converts the precision before testing for NULL: a nil dereference, for every x"
  },
  {
   "property": "C299",
   "status": "partial",
   "theorems": [
    "c299_one_partial",
    "c299_base_refuted",
    "c299_value_refuted"
   ],
   "note": "LOG(x, y) is math.Ldexp(x, int(x)): y is never read; LOG(8, y) is 2048. LOG(x) = LN(x) holds"
  },
  {
   "property": "C300",
   "status": "partial",
   "theorems": [
    "c300_one_partial",
    "c300_places_refuted"
   ],
   "note": "The second argument of TRUNC is ignored; one-argument TRUNC proved exact"
  },
  {
   "property": "C301",
   "status": "proved",
   "theorems": [
    "c301_floor",
    "c301_ceil",
    "c301_special"
   ],
   "note": ""
  },
  {
   "property": "C302",
   "status": "partial",
   "theorems": [
    "c302_nonzero_partial",
    "c302_zero_partial",
    "c302_negative_zero_refuted",
    "c302_nan_refuted"
   ],
   "note": "SIGN(-0.0) is -1; SIGN(NaN) is 1 or -1. All other values proved"
  },
  {
   "property": "C303",
   "status": "partial",
   "theorems": [
    "c303_quotient_partial",
    "c303_negative_zero_refuted"
   ],
   "note": "Exact characterisation: wrong precisely for a finite nonzero dividend and a divisor of -0.0"
  },
  {
   "property": "C304",
   "status": "proved",
   "theorems": [
    "c304_abs",
    "c304_negate",
    "c304_is_inf",
    "c304_is_nan"
   ],
   "note": ""
  },
  {
   "property": "C305",
   "status": "partial",
   "theorems": [
    "c305_operator_refuted",
    "c305_safe_refuted"
   ],
   "note": "The operators and SAFE_ forms return an infinity for overflow, never an error or NULL"
  },
  {
   "property": "C306",
   "status": "partial",
   "theorems": [
    "c306_value_partial",
    "c306_domain_refuted"
   ],
   "note": "No function reports a domain error, whatever the library; only / can fail"
  },
  {
   "property": "C307",
   "status": "proved",
   "theorems": [
    "c307_safe",
    "c307_division"
   ],
   "note": ""
  },
  {
   "property": "C308",
   "status": "proved",
   "theorems": [
    "c308_domain",
    "c308_none"
   ],
   "note": ""
  },
  {
   "property": "C309",
   "status": "proved",
   "theorems": [
    "c309_labels",
    "c309_null"
   ],
   "note": ""
  },
  {
   "property": "C310",
   "status": "partial",
   "theorems": [
    "c310_null_partial",
    "c310_net_refuted",
    "c310_parse_refuted"
   ],
   "note": "All but NET.HOST and NET.IP_NET_MASK dereference a nil interface on NULL"
  },
  {
   "property": "C311",
   "status": "proved",
   "theorems": [
    "c311_host",
    "c311_no_url",
    "c311_total"
   ],
   "note": ""
  },
  {
   "property": "C312",
   "status": "proved",
   "theorems": [
    "c312_text",
    "c312_null",
    "c312_fingerprint"
   ],
   "note": ""
  },
  {
   "property": "C313",
   "status": "proved",
   "theorems": [
    "c313_round"
   ],
   "note": ""
  },
  {
   "property": "C314",
   "status": "partial",
   "theorems": [
    "c314_fraction_refuted",
    "c314_total_partial"
   ],
   "note": "Fractions are accepted: PARSE_NUMERIC of n/d is the number n/d for all n and d. Proved: the result is an error or a NUMERIC, never NULL"
  },
  {
   "property": "C315",
   "status": "partial",
   "theorems": [
    "c315_exact_refuted",
    "c315_digits_refuted",
    "c315_range_refuted"
   ],
   "note": "No rounding and no range check: every plain decimal is kept exactly, 0.0000000001 and 10^29 included"
  },
  {
   "property": "C316",
   "status": "proved",
   "theorems": [
    "c316_field",
    "c316_null",
    "c316_value",
    "c316_index"
   ],
   "note": ""
  },
  {
   "property": "C317",
   "status": "proved",
   "theorems": [
    "c317_round",
    "c317_first",
    "c317_null"
   ],
   "note": ""
  },
  {
   "property": "C318",
   "status": "partial",
   "theorems": [
    "c318_error_refuted"
   ],
   "note": "Refuted: every such number gives U+FFFD or the character of the number modulo 2^32."
  },
  {
   "property": "C319",
   "status": "partial",
   "theorems": [
    "c319_ascii_partial",
    "c319_none_partial",
    "c319_error_refuted"
   ],
   "note": "Refuted for a first character outside ASCII: the first byte is returned. Holds for ASCII."
  },
  {
   "property": "C320",
   "status": "proved",
   "theorems": [
    "c320_upper",
    "c320_lower",
    "c320_null",
    "c320_characters"
   ],
   "note": ""
  },
  {
   "property": "C321",
   "status": "partial",
   "theorems": [
    "c321_ascii_partial",
    "c321_invalid_refuted",
    "c321_letter_refuted"
   ],
   "note": "Refuted: UTF-8 letters change case, and byte sequences that are not UTF-8 never come back unchanged."
  },
  {
   "property": "C322",
   "status": "partial",
   "theorems": [
    "c322_refuted"
   ],
   "note": "Refuted for all arguments: the function is a stub that returns NULL."
  },
  {
   "property": "C323",
   "status": "partial",
   "theorems": [
    "c323_same_partial",
    "c323_case_refuted",
    "c323_binary_refuted",
    "c323_null_partial"
   ],
   "note": "Refuted: COLLATE returns its argument, so texts that differ at all compare different; binary, '' and unicode:cs are errors."
  },
  {
   "property": "C324",
   "status": "partial",
   "theorems": [
    "c324_normalize_partial",
    "c324_null_partial",
    "c324_mode_partial",
    "c324_ascii_partial",
    "c324_after_refuted"
   ],
   "note": "The modes, NULL and ASCII text hold; refuted for characters that a normal form replaces by capital letters, because folding (lower case) comes first."
  },
  {
   "property": "C325",
   "status": "partial",
   "theorems": [
    "c325_text_partial",
    "c325_null_refuted"
   ],
   "note": "Refuted for NULL."
  },
  {
   "property": "C326",
   "status": "partial",
   "theorems": [
    "c326_field_partial",
    "c326_integer_refuted"
   ],
   "note": "Holds for values that survive storage inside a STRUCT (CodecSpec.storable); refuted for INT64 of 2^53 and more."
  },
  {
   "property": "C327",
   "status": "partial",
   "theorems": [
    "c327_abs_partial",
    "c327_abs_refuted",
    "c327_numeric_refuted"
   ],
   "note": "Holds below 2^53 for ABS; refuted for every odd integer from 2^53 on."
  },
  {
   "property": "C328",
   "status": "partial",
   "theorems": [
    "c328_sample_refuted",
    "c328_rows_refuted",
    "c328_column_partial"
   ],
   "note": "Refuted: the FROM item is dropped, so a query of constants or COUNT( * ) has one row whatever the table. Queries that read a column or have a condition are errors."
  },
  {
   "property": "C329",
   "status": "partial",
   "theorems": [
    "c329_having_refuted",
    "c329_equal_partial"
   ],
   "note": "Refuted: the clause is ignored; right only when the rows left out add up to 0."
  },
  {
   "property": "C330",
   "status": "partial",
   "theorems": [
    "c330_null_keys_refuted",
    "c330_default_partial"
   ],
   "note": "Refuted: the clause is ignored; right exactly when it asks for what holds without it."
  },
  {
   "property": "C331",
   "status": "partial",
   "theorems": [
    "c331_null_keys_refuted",
    "c331_first_partial",
    "c331_values_partial"
   ],
   "note": "Refuted: the clause is ignored and NULL is first also with DESC. Partial: when NULLs are to come first; and rows with STRING keys come in the direction written."
  },
  {
   "property": "C332",
   "status": "partial",
   "theorems": [
    "c332_date_refuted",
    "c332_bytes_refuted",
    "c332_base64_partial"
   ],
   "note": "Refuted: the format is ignored."
  },
  {
   "property": "C333",
   "status": "partial",
   "theorems": [
    "c333_length_refuted",
    "c333_within_partial",
    "c333_safe_partial",
    "c333_scale_refuted"
   ],
   "note": "Refuted: the parameters are ignored; the result is within them exactly if the argument was."
  },
  {
   "property": "C334",
   "status": "partial",
   "theorems": [
    "c334_case_refuted",
    "c334_small_partial"
   ],
   "note": "Refuted: the collation is ignored, texts are compared by bytes; right for small ASCII letters."
  },
  {
   "property": "C335",
   "status": "proved",
   "theorems": [
    "c335_array_agg",
    "c335_count",
    "c335_distinct"
   ],
   "note": "INT64 columns; ARRAY_AGG and COUNT. The orders are those of AggModel (C71, C105-C109)."
  },
  {
   "property": "C336",
   "status": "proved",
   "theorems": [
    "c336_one",
    "c336_pairs"
   ],
   "note": "Proved for all tables; the statistics library is a parameter."
  },
  {
   "property": "C337",
   "status": "partial",
   "theorems": [
    "c337_null_refuted",
    "c337_ignored_partial"
   ],
   "note": "Refuted: a NULL in the frame panics; the answer is right exactly if there is none."
  },
  {
   "property": "C338",
   "status": "partial",
   "theorems": [
    "c338_alone_partial",
    "c338_population_refuted",
    "c338_frame_refuted"
   ],
   "note": "Refuted: in a partition of one row POP is NULL, in a larger one a frame of one row is handed to the library and never NULL; right for SAMP in a partition of one row."
  },
  {
   "property": "C339",
   "status": "partial",
   "theorems": [
    "c339_last_refuted",
    "c339_none_refuted",
    "c339_whole_partial"
   ],
   "note": "Refuted: with a NULL in the table the last row panics if the frame depends on the row or there is PARTITION BY, and if no row has both values every row is an error; right over the whole table with two or more pairs."
  },
  {
   "property": "C340",
   "status": "partial",
   "theorems": [
    "c340_distinct_refuted",
    "c340_once_partial"
   ],
   "note": "Refuted: DISTINCT is ignored; right exactly if the library gives the same without the repetitions."
  },
  {
   "property": "C341",
   "status": "partial",
   "theorems": [
    "c341_population_refuted"
   ],
   "note": "Refuted: both call the same function, so not both are right unless the codeviation is 0."
  },
  {
   "property": "C342",
   "status": "partial",
   "theorems": [
    "c342_accepted_partial",
    "c342_different_refuted"
   ],
   "note": "Refuted: one of 13 types (or an array of it) is tried for all arguments together, so a body that needs different types is refused; exact characterisation proved."
  },
  {
   "property": "C343",
   "status": "partial",
   "theorems": [
    "c343_fixed_refuted",
    "c343_argument_refuted",
    "c343_right_partial",
    "c343_element_partial"
   ],
   "note": "Refuted: a call gets the type all tried types agree on, or else that of its arguments; right if the body has that type."
  },
  {
   "property": "C344",
   "status": "partial",
   "theorems": [
    "c344_different_refuted",
    "c344_same_partial"
   ],
   "note": "Refuted: refused always; right for equal types."
  },
  {
   "property": "C345",
   "status": "partial",
   "theorems": [
    "c345_returns_refuted",
    "c345_same_partial"
   ],
   "note": "Refuted: the declared type is reported and the body is not coerced; right exactly if the body has the type by itself."
  },
  {
   "property": "C346",
   "status": "partial",
   "theorems": [
    "c346_anonymous_refuted",
    "c346_named_partial"
   ],
   "note": "Refuted: a field without a name is written with empty quotes, which the analyser refuses; right for structs with names."
  },
  {
   "property": "C347",
   "status": "proved",
   "theorems": [
    "c347_concat",
    "c347_ordered"
   ],
   "note": ""
  },
  {
   "property": "C348",
   "status": "partial",
   "theorems": [
    "c348_empty_array_refuted"
   ],
   "note": "Refuted for every such group and frame: the result is the empty array."
  },
  {
   "property": "C349",
   "status": "partial",
   "theorems": [
    "c349_first_row_partial",
    "c349_null_first_refuted"
   ],
   "note": "Proved: the result is the value of the first row of the frame, so right where that is not NULL. Refuted: NULL whenever the first row of the frame has NULL."
  },
  {
   "property": "C350",
   "status": "partial",
   "theorems": [
    "c350_without_null_partial",
    "c350_null_stops_refuted"
   ],
   "note": "Proved where no row of the table has NULL. Refuted: with one NULL anywhere in the table no row gets a result."
  },
  {
   "property": "C351",
   "status": "proved",
   "theorems": [
    "c351_views"
   ],
   "note": ""
  },
  {
   "property": "C352",
   "status": "proved",
   "theorems": [
    "c352_replace"
   ],
   "note": "The resolved query is given: what the analyser finds in the catalogue after OR REPLACE is C07."
  },
  {
   "property": "C353",
   "status": "proved",
   "theorems": [
    "c353_drop"
   ],
   "note": ""
  },
  {
   "property": "C354",
   "status": "proved",
   "theorems": [
    "c354_taken",
    "c354_free"
   ],
   "note": "About the views SQLite stores; what the catalogue remembers is C06 and C07."
  },
  {
   "property": "C355",
   "status": "proved",
   "theorems": [
    "c355_nested",
    "c355_read"
   ],
   "note": "Indexes are literals; an index out of range is C46. An INT64 may be held as the equal FLOAT64 and a BOOL as 0 or 1 in between."
  },
  {
   "property": "C356",
   "status": "partial",
   "theorems": [
    "c356_element_refuted"
   ],
   "note": "Refuted exactly: z is kept iff FLOAT64 keeps it; 2^53+1 is a witness. Below 2^53 it is C355."
  },
  {
   "property": "C357",
   "status": "partial",
   "theorems": [
    "c357_scalar_refuted",
    "c357_inside_refuted",
    "c357_every_refuted"
   ],
   "note": "Refuted for every BOOL expression: SQLite has no BOOL, so the function gets 0 or 1 and writes the number."
  },
  {
   "property": "C358",
   "status": "partial",
   "theorems": [
    "c358_refuted"
   ],
   "note": "Refuted for both values."
  },
  {
   "property": "C359",
   "status": "partial",
   "theorems": [
    "c359_elements_refuted",
    "c359_million_refuted",
    "c359_alike_partial"
   ],
   "note": "Refuted: elements arrive as FLOAT64 and are written as fmt.Sprint writes these (1000000 as 1e+06); equal exactly where the two texts are."
  },
  {
   "property": "C360",
   "status": "proved",
   "theorems": [
    "c360_history",
    "c360_fails"
   ],
   "note": ""
  },
  {
   "property": "C361",
   "status": "partial",
   "theorems": [
    "c361_refuted",
    "c361_other_partial"
   ],
   "note": "Refuted for every database and query: the table is dropped first, so a query of the table itself fails and its rows are lost (no transaction is around the two statements). Partial: with another table in the query the new table holds its rows, after any history; a failing query still loses the old table."
  },
  {
   "property": "C362",
   "status": "proved",
   "theorems": [
    "c362_type",
    "c362_different"
   ],
   "note": ""
  },
  {
   "property": "C363",
   "status": "proved",
   "theorems": [
    "c363_history",
    "c363_function",
    "c363_table"
   ],
   "note": "go-json is outside /repo: its writer is modelled as documented, its reader as JsonSpec.denotes and members in order."
  },
  {
   "property": "C364",
   "status": "partial",
   "theorems": [
    "c364_refuted",
    "c364_names_partial"
   ],
   "note": "Refuted for all names SQLite reads as the same integer, such as 1 and 01: the column is declared STRING, which SQLite takes as NUMERIC, so both have one row; the first definition is lost and dropping the second removes it. Partial: names that do not begin like a number."
  },
  {
   "property": "C365",
   "status": "proved",
   "theorems": [
    "c365_array",
    "c365_select"
   ],
   "note": "SQLite's rows of a subquery reach the aggregate in the order of the subquery, as in QueryModel; the alias the text does not have is an empty one in the model."
  },
  {
   "property": "C366",
   "status": "partial",
   "theorems": [
    "c366_option_refuted"
   ],
   "note": "With the text of IGNORE NULLS the row is lost, with that of DISTINCT the query fails, with those of LIMIT and ORDER BY args[0] panics."
  },
  {
   "property": "C367",
   "status": "proved",
   "theorems": [
    "c367_own_over"
   ],
   "note": "About which columns a function is written with; what it computes from them is WindowModel. Expressions of frame bounds are constants."
  },
  {
   "property": "C368",
   "status": "partial",
   "theorems": [
    "c368_argument_refuted",
    "c368_once_partial",
    "c368_partition_partial"
   ],
   "note": "The inner scan clears the order columns of the whole statement, so the next function of the outer group has no ORDER BY, and its first group starts with the columns of the outer one. That the analyzer accepts such a query is an assumption: it is outside /repo and could not be run."
  },
  {
   "property": "C369",
   "status": "partial",
   "theorems": [
    "c369_text_partial",
    "c369_compare_partial",
    "c369_call_partial",
    "c369_backquote_refuted",
    "c369_call_refuted",
    "c369_backslash_refuted"
   ],
   "note": "Proved against a grammar of type texts (shown unambiguous): for fields whose names need no escapes the text of a type is that type and no other, so a call is analysed with the types of its arguments. Refuted: a back quote or a backslash in a field's name is written as it is, so the text is another type. Fields without a name are C346."
  }
 ]
}