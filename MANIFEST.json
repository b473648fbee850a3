{
 "claims": [
  {
   "property": "C01",
   "status": "proved",
   "theorems": [
    "C01_one_row_per_data_line",
    "C01_any_bytes",
    "C01_pieces_unique",
    "C01_too_many_rows_is_an_error"
   ],
   "note": "Every file; files with over-long lines in terms of fgets pieces (long_line_refuted shows the difference)."
  },
  {
   "property": "C02",
   "status": "proved",
   "theorems": [
    "C02_inert_lines_deleted",
    "C02_inert_lines"
   ],
   "note": "Lines fit the buffer; unterminated last line not a lone G/M marker (lone_marker_at_eof_refuted shows the condition is needed)."
  },
  {
   "property": "C03",
   "status": "proved",
   "theorems": [
    "C03_samples_independent",
    "C03_same_samples"
   ],
   "note": ""
  },
  {
   "property": "C04",
   "status": "proved",
   "theorems": [
    "C04_complete_D",
    "C04_complete_G",
    "C04_complete_M",
    "C04_decimal_scanner",
    "C04_documented_file",
    "C04_blanks_before_numbers"
   ],
   "note": "For every C library scanner that reads decimal literals; incomplete_line_refuted shows what happens without completeness."
  },
  {
   "property": "C05",
   "status": "proved",
   "theorems": [
    "C05_compact_two_letters",
    "C05_compact_one_letter",
    "C05_reduced_unique",
    "C04_documented_file"
   ],
   "note": ""
  },
  {
   "property": "C06",
   "status": "proved",
   "theorems": [
    "C06_conversion_preserves_records",
    "C06_conversion_succeeds",
    "C06_other_formats_rejected"
   ],
   "note": "Clock range and absence of compact lines are needed: C06_clock_out_of_range_refuted, C06_compact_input_refuted."
  },
  {
   "property": "C07",
   "status": "proved",
   "theorems": [
    "C07_only_adds_periods"
   ],
   "note": "Clock values as exact rationals (double rounding idealised)."
  },
  {
   "property": "C08",
   "status": "proved",
   "theorems": [
    "C08_continuous_clock_recovered",
    "C08_continuous_clock_any_start"
   ],
   "note": "C08_half_period_refuted shows the bound is sharp."
  },
  {
   "property": "C09",
   "status": "proved",
   "theorems": [
    "C09_reference_agrees"
   ],
   "note": "C09_tie_refuted is the exception named in the property."
  },
  {
   "property": "C10",
   "status": "proved",
   "theorems": [
    "C10_samples_are_running_sums",
    "C10_differences_recovered",
    "C10_plain_formats_unchanged",
    "C13_consistent"
   ],
   "note": ""
  },
  {
   "property": "C11",
   "status": "proved",
   "theorems": [
    "C11_filter_is_plausibility",
    "C11_exactly_the_plausible_fixes",
    "C11_fast_reader_rows_numeric",
    "C11_reference_filter_agrees"
   ],
   "note": "The reference reader applies the same limits but keeps impossible dates (C11_reference_keeps_impossible_dates_refuted); non-numeric coordinates pass (C11_nan_position_refuted)."
  },
  {
   "property": "C12",
   "status": "proved",
   "theorems": [
    "C12_defined",
    "C12_epoch",
    "C12_next_second",
    "C12_increasing",
    "C12_injective"
   ],
   "note": "UTCDateTime is modelled by Python's datetime algorithm (third-party contract)."
  },
  {
   "property": "C13",
   "status": "proved",
   "theorems": [
    "C13_consistent",
    "C13_only_documented_errors",
    "C13_missing_file",
    "C13_classification",
    "C13_one_fix_suffices"
   ],
   "note": "pandas readers are arbitrary parameters. Format 0.91 is never read by _read_single: C13_version_091_refuted."
  },
  {
   "property": "C14",
   "status": "proved",
   "theorems": [
    "C14_contributes_or_is_reported",
    "C14_only_interrupts_escape",
    "C14_rejected_files_removable"
   ],
   "note": "A rejected file may still leave a header row: C14_rejected_header_refuted."
  },
  {
   "property": "C15",
   "status": "proved",
   "theorems": [
    "C15_never_backwards"
   ],
   "note": "Condition on the rows before the first sample is needed (C15_backward_rows_refuted); fails in the 65536 ms formats (C15_plain_formats_refuted)."
  },
  {
   "property": "C16",
   "status": "proved",
   "theorems": [
    "C16_one_clock",
    "C16_contiguous_files"
   ],
   "note": ""
  },
  {
   "property": "C17",
   "status": "proved",
   "theorems": [
    "C17_accepted_iff",
    "C17_errors",
    "C17_optional_gps",
    "C17_backward_fixes_cover",
    "C17_kept_span_hardly_checked"
   ],
   "note": "The least-squares routines (polyfit) are arbitrary functions. The last two theorems show the loose points of the acceptance test."
  },
  {
   "property": "C18",
   "status": "proved",
   "theorems": [
    "C18_terminates",
    "C18_result",
    "C18_consistent_core",
    "C18_raises",
    "C18_pass_leaves_out_few",
    "C18_pass_leaves_some",
    "C18_exact_data_kept"
   ],
   "note": "polyfit is an arbitrary function; the two counting theorems assume it is least squares over a class closed under shifts (C18_uncentred_pass_refuted shows this is needed)."
  },
  {
   "property": "C19",
   "status": "proved",
   "theorems": [
    "C19_time_by_containing_line",
    "C19_time_by_containing_span",
    "C19_no_time_outside_spans",
    "C19_times_increase",
    "C19_every_sample_timed",
    "C19_own_fit",
    "C19_samples_not_at_zero"
   ],
   "note": "C19_own_fit is for the 8192 ms formats (see C15). The header lines of rejected files hold zeros, so the theorems about fitted spans are for clock values other than exactly 0; C19_samples_not_at_zero shows that every sample has such a clock value. Limits shown: C19_zero_clock_refuted."
  },
  {
   "property": "C20",
   "status": "proved",
   "theorems": [
    "C20_one_trace_per_run",
    "C20_raises_iff",
    "C20_traces_within_runs",
    "C20_sample_times_uniform",
    "C20_nothing_in_gaps",
    "C20_traces_in_order",
    "C20_runs_covered",
    "C20_grid_data_unchanged",
    "C20_between_limits",
    "C20_within_limits"
   ],
   "note": "The cubic spline is an arbitrary function; where needed it is assumed to exist for increasing times and to pass through its points (linear_contract shows the assumption can be met). C20_first_gap_refuted, C20_short_run_refuted, C20_tie_refuted show the limits."
  },
  {
   "property": "C21",
   "status": "proved",
   "theorems": [
    "C21_samples_after_merging",
    "C21_remaining_gaps",
    "C21_joined_iff",
    "C21_short_gaps_filled",
    "C21_idempotent"
   ],
   "note": "obspy's merge and split are modelled for one channel and integer data on a common sampling grid. For overlapping traces with different data samples are lost: C21_overlap_refuted."
  },
  {
   "property": "C22",
   "status": "proved",
   "theorems": [
    "C22_default_start",
    "C22_given_start",
    "C22_one_file_per_time"
   ],
   "note": "obspy's slice, trim and split are modelled in Stream.v; reading a block of files is an arbitrary function. Limits shown: C22_end_time_refuted, C22_late_start_refuted, C22_given_start_gap_refuted, C22_uneven_length_refuted."
  },
  {
   "property": "C23",
   "status": "proved",
   "theorems": [
    "C23_log_name",
    "C23_consecutive",
    "C23_name_order"
   ],
   "note": "The folder is the list of existing paths. Limits shown: C23_after_deletion_refuted, C23_name_order_refuted."
  },
  {
   "property": "C24",
   "status": "proved",
   "theorems": [
    "C24_injective",
    "C24_sorted",
    "C24_distinct_times"
   ],
   "note": "For formats without a dot. C24_same_second_refuted: pieces starting in the same second share a name."
  },
  {
   "property": "C25",
   "status": "proved",
   "theorems": [
    "C25_all_files_offered_once",
    "C25_reads_are_a_prefix",
    "C25_division_exists"
   ],
   "note": "Reading a block of files is an arbitrary function."
  },
  {
   "property": "C26",
   "status": "proved",
   "theorems": [
    "C26_selected_numbers",
    "C26_refusals",
    "C26_no_raw_files",
    "C26_selection_can_be_converted"
   ],
   "note": "What pandas reads as serial number of a file is an attribute of the file; integer literals are those of ASCII text."
  },
  {
   "property": "C27",
   "status": "proved",
   "theorems": [
    "C27_missing_iff",
    "C27_corrupt_iff",
    "C27_files_read",
    "C27_chosen_files_are_read"
   ],
   "note": "Serial number, size and format line are attributes of a file; reading the files and assigning times are arbitrary functions here (see C14-C19). Limits shown: C27_foreign_file_refuted, C27_long_serial_refuted."
  },
  {
   "property": "C28",
   "status": "proved",
   "theorems": [
    "C28_one_generation",
    "C28_others_fail",
    "C28_documented_voltage",
    "C28_pressure_of_voltage",
    "C28_voltage_step"
   ],
   "note": "Limits shown: C28_documented_pressure_refuted (pressure steps are 4 % above those documented), C28_pressure_step_refuted."
  },
  {
   "property": "C29",
   "status": "proved",
   "theorems": [
    "C29_low_gain_doubles",
    "C29_accepted_iff",
    "C29_selected_unit",
    "C29_conversion_weight"
   ],
   "note": "Letter case for ASCII. Limit shown: C29_conversion_unit_case_refuted."
  },
  {
   "property": "C30",
   "status": "proved",
   "theorems": [
    "C30_centred_and_normalised",
    "C30_affine",
    "C30_refused_iff"
   ],
   "note": "Exact arithmetic. Limit shown: C30_trace_unchanged_refuted."
  },
  {
   "property": "C31",
   "status": "proved",
   "theorems": [
    "C31_partition",
    "C31_grouping_unique",
    "C31_every_output_has_gps",
    "C31_cat_all",
    "C31_empty_file"
   ],
   "note": "For arbitrary file contents; input and output directories assumed different."
  },
  {
   "property": "C32",
   "status": "proved",
   "theorems": [
    "C32_merged_content",
    "C32_merged_samples",
    "C32_earlier_formats"
   ],
   "note": "Through the modelled reader, LF or CR LF line ends, any number of files. Limits shown: C32_version_091_refuted, C32_incomplete_last_line_refuted, C32_blank_line_refuted, C32_lines_before_D_refuted, C32_no_metadata_refuted."
  },
  {
   "property": "C33",
   "status": "proved",
   "theorems": [
    "C33_file_lookup",
    "C33_no_heading",
    "C33_refused",
    "C33_rename",
    "C33_serial_number_of_file"
   ],
   "note": "Limits shown: C33_number_without_heading_refuted, C33_missing_column_refuted, C33_data_frame_refuted. Splitting CSV text into cells is pandas (a file is its rows); whether pandas keeps a cell as text is a function argument; obspy date fields are a function argument."
  },
  {
   "property": "C34",
   "status": "proved",
   "theorems": [
    "C34_fixed_point",
    "C34_idempotent",
    "C34_never_empty",
    "C34_pass_keeps_most",
    "C34_small_tables",
    "C34_order_free",
    "C34_visits",
    "C34_visits_removed"
   ],
   "note": "Limit shown: C34_few_fixes_refuted. C34_visits_case: 70 fixes at a place, two elsewhere. Exact rationals; the standard deviation is compared through its square."
  },
  {
   "property": "C35",
   "status": "proved",
   "theorems": [
    "C35_made_iff",
    "C35_channels",
    "C35_structure",
    "C35_from_file"
   ],
   "note": "Limits shown: C35_unlocated_network_refuted, C35_replaced_instrument_refuted. The instrument response is passed through as an opaque value; obspy containers are records."
  },
  {
   "property": "C36",
   "status": "proved",
   "theorems": [
    "C36_idempotent",
    "C36_fields_filled",
    "C36_every_file",
    "C36_default_pattern"
   ],
   "note": "Python's str.replace is modelled for all strings; str.format for fields {name} and {name:0wd}."
  },
  {
   "property": "C37",
   "status": "proved",
   "theorems": [
    "C37_unique"
   ],
   "note": "For any element type with a correct equality test."
  },
  {
   "property": "C38",
   "status": "proved",
   "theorems": [
    "C38_windows",
    "C38_no_gap",
    "C38_short",
    "C38_validated"
   ],
   "note": "Limits shown: C38_one_window_refuted (a record of exactly one window raises), C38_last_sample_refuted. Exact rationals for times; the function applied to a window is any function."
  },
  {
   "property": "C39",
   "status": "proved",
   "theorems": [
    "C39_windows",
    "C39_covered",
    "C39_data",
    "C39_no_sample_lost"
   ],
   "note": "Limits shown: C39_late_start_refuted (a start after 23:59:58 leaves a gap), C39_once_refuted (a start off midnight makes data be processed twice). Times in whole microseconds; files are lists of traces with timed samples; merge keeps all samples (no overlapping data of one channel) and limits are on the sampling grid; the function applied is any function."
  },
  {
   "property": "C40",
   "status": "proved",
   "theorems": [
    "C40_slowness",
    "C40_refused",
    "C40_few_stations"
   ],
   "note": "Exact rationals. The result is the vector opposite to the slowness (whose direction is the backazimuth) and the squared slowness: arctan2 and sqrt are not modelled."
  },
  {
   "property": "C41",
   "status": "proved",
   "theorems": [
    "C41_channels",
    "C41_order_free",
    "C41_command_line"
   ],
   "note": "Limits shown: C41_in_data_refuted (a full identifier is not checked against the data), C41_only_named_refuted (a station name that is part of another). re.search is a function argument; the pattern of full identifiers is modelled for ASCII text."
  },
  {
   "property": "C42",
   "status": "proved",
   "theorems": [
    "C42_options",
    "C42_planned",
    "C42_plan",
    "C42_accepted",
    "C42_plan_fits",
    "C42_any_moment",
    "C42_outcome",
    "C42_folders_there",
    "C42_one_process",
    "C42_same_tree",
    "C42_finishes"
   ],
   "note": "Limits shown: C42_new_folder_refuted (with several workers in a new folder one may lose the race to make it and its serial number is silently not converted), C42_same_codes_refuted, C42_long_option_refuted, C42_documented_option_refuted, C42_stray_file_refuted, C42_txt_refuted."
  },
  {
   "property": "C43",
   "status": "proved",
   "theorems": [
    "C43_results",
    "C43_messages",
    "C43_one_result",
    "C43_worse",
    "C43_alone",
    "C43_first_log",
    "C43_loggers",
    "C43_loggers_given",
    "C43_times",
    "C43_temperatures",
    "C43_lags",
    "C43_individual_only",
    "C43_finishes",
    "C43_short",
    "C43_fast_clock"
   ],
   "note": "Limits shown: C43_missing_refuted (a missing first value hides a low battery), C43_individual_only_refuted (individual-only still reports group errors), C43_same_time_refuted (loggers with the same temperature at the same time are reported if started at different times), C43_no_agreement_refuted, C43_stack_refuted (warning without logger). C43_temperatures and C43_finishes are for rows at a fixed interval whose whole seconds divide 60. Plots, pdf and wording are left out; whether positions and waveforms can be read is an argument."
  },
  {
   "property": "C44",
   "status": "proved",
   "theorems": [
    "C44_summary",
    "C44_total",
    "C44_newest_log",
    "C44_command_line",
    "C44_codes",
    "C44_visits"
   ],
   "note": "Limits shown: C44_other_file_refuted, C44_thousand_refuted, C44_limits_first_refuted, C44_command_line_refuted (a serial number that is part of a named one is included or excluded with it). Exact rationals; standard errors are given by their squares; parsing a log is pandas."
  },
  {
   "property": "C45",
   "status": "proved",
   "theorems": [
    "C45_cut_anywhere",
    "C45_cut_at_line"
   ],
   "note": ""
  },
  {
   "property": "C46",
   "status": "proved",
   "theorems": [
    "C46_times_agree_with_gps"
   ],
   "note": "For fixes at a clock reading other than exactly 0 (see C19)."
  },
  {
   "property": "C47",
   "status": "proved",
   "theorems": [
    "C47_logs",
    "C47_logs_default_start"
   ],
   "note": "The first theorem is for a given start time, the second for the default; the case is C22_case."
  },
  {
   "property": "C48",
   "status": "proved",
   "theorems": [
    "C48_fields_of_time",
    "C48_time_of_fields"
   ],
   "note": "Years 1 to 9999, whole seconds."
  },
  {
   "property": "C49",
   "status": "proved",
   "theorems": [
    "C49_fails_iff",
    "C49_steady_clock",
    "C49_one_stretch",
    "C49_same_at_any_time",
    "C49_positions"
   ],
   "note": "The spline is a function argument. Limits shown: C49_repeated_tags_refuted, C49_date_refuted, C49_invented_fix_refuted."
  },
  {
   "property": "C50",
   "status": "proved",
   "theorems": [
    "C50_block",
    "C50_block_samples",
    "C50_block_covered",
    "C50_gain",
    "C50_skipped",
    "C50_reported",
    "C50_conversion",
    "C50_output_files"
   ],
   "note": "Composition of the models of C14-C22, C27, C47, C49. polyfit, CubicSpline, sscanf and the pandas readers are function arguments; coverage of runs assumes of the spline only that it exists for increasing times and takes the given values."
  },
  {
   "property": "C51",
   "status": "proved",
   "theorems": [
    "C51_readers_agree",
    "C51_decimal_float"
   ],
   "note": "sscanf and float are arguments that read decimal literals; the fallback readers are arguments with any outcome. Limits shown: C51_no_metadata_refuted, C51_short_line_refuted, C51_compact_refuted."
  },
  {
   "property": "C52",
   "status": "proved",
   "theorems": [
    "C52_version",
    "C52_serial",
    "C52_serial_only",
    "C52_config",
    "C52_no_config",
    "C52_missing_words"
   ],
   "note": "Which words pandas takes for missing, and rows with more cells than names, are arguments. Limits shown: C52_converted_refuted, C52_late_config_refuted, C52_short_config_refuted, C52_early_serial_refuted."
  },
  {
   "property": "C53",
   "status": "proved",
   "theorems": [
    "C53_written",
    "C53_required",
    "C53_refused_iff",
    "C53_forced",
    "C53_same_as_block",
    "C53_command"
   ],
   "note": "polyfit, CubicSpline, sscanf and the pandas readers are arguments; writing the stream is obspy's. Limits shown: C53_long_option_refuted, C53_wrong_reason_refuted."
  },
  {
   "property": "C54",
   "status": "proved",
   "theorems": [
    "C54_samples",
    "C54_short_filled",
    "C54_long_kept",
    "C54_ends_kept",
    "C54_exact_limit",
    "C54_values",
    "C54_raises_iff",
    "C54_spaced",
    "C54_close_gaps_refuted",
    "C54_below_limit_refuted"
   ],
   "note": "For any spline function and any limit that is a whole number of sampling intervals. The error for two short gaps close together (AttributeError on a window without masked samples) is part of the theorem."
  },
  {
   "property": "C55",
   "status": "proved",
   "theorems": [
    "C55_every_file",
    "C55_exact",
    "C55_converted_names",
    "C55_nothing_lost",
    "C55_gaps_filled",
    "C55_overlap",
    "C55_networks_refuted",
    "C55_contained_refuted"
   ],
   "note": "Names without glob characters, input and output directories different, traces of a group with the same id."
  },
  {
   "property": "C56",
   "status": "proved",
   "theorems": [
    "C56_items",
    "C56_mean_and_consistency",
    "C56_wave_consistent",
    "C56_lag_bound",
    "C56_upsample",
    "C56_upsample_keeps",
    "C56_upsample_last_refuted",
    "C56_parameters",
    "C56_parameters_used",
    "C56_ratio_ignored_refuted",
    "C56_ratio_default_refuted",
    "C56_tolerance_refuted",
    "C56_channels_refuted"
   ],
   "note": "Refuted: that the tolerance is one sample per correlation (a single correlation may be off by n*n samples); that two channels of one station keep their own items; that the last sample survives upsampling; that a ratio given without an overlap is used (the source looks at the overlap instead)."
  },
  {
   "property": "C57",
   "status": "proved",
   "theorems": [
    "C57_directions",
    "C57_rounded",
    "C57_missing_refuted"
   ],
   "note": "Refuted: that a sensor without data in the first window only spoils windows it has no data in (the inversion then raises for all windows)."
  },
  {
   "property": "C58",
   "status": "proved",
   "theorems": [
    "C58_old_rows",
    "C58_old_format",
    "C58_fallback_agrees",
    "C58_conditions_met",
    "C58_short_head_refuted",
    "C58_fraction_refuted",
    "C58_empty_cell_refuted",
    "C58_compact_refuted",
    "C58_bad_clock_refuted"
   ],
   "note": "read_csv is modelled on ASCII text without double quotes: rows split at commas, empty and NaN cells missing, a column whose cells are all numbers is numeric. What it does with irregular rows is an argument with any outcome. Refuted: data among the first six lines, fractional clock values, empty first cells, compact lines (fallback), and one unreadable clock value (0.8)."
  },
  {
   "property": "C59",
   "status": "proved",
   "theorems": [
    "C59_run_again",
    "C59_can_run_again",
    "C59_logs_kept",
    "C59_summary_reads_last",
    "C59_killed",
    "C59_whole_files_refuted",
    "C59_complete_log_refuted"
   ],
   "note": "The raw files are the same in every call (the same jobs of C42). A file being written when the call is killed has any beginning of its contents. Refuted: after a kill alone every waveform file is whole; the summary prefers a complete log to that of a killed later call."
  },
  {
   "property": "C60",
   "status": "proved",
   "theorems": [
    "C60_database",
    "C60_no_database",
    "C60_lags",
    "C60_lags_end",
    "C60_consistent",
    "C60_band_ignored",
    "C60_endless",
    "C60_lags_drawable",
    "C60_dots",
    "C60_two_stations_refuted",
    "C60_amplitudes_printed",
    "C60_amplitudes_drawn",
    "C60_legend",
    "C60_legend_refuted",
    "C60_statistics_refuted",
    "C60_whole_file_refuted",
    "C60_first_window_refuted",
    "C60_stations_refuted"
   ],
   "note": "Detrending with the standard deviation, slicing and correlation are parameters."
  },
  {
   "property": "C61",
   "status": "proved",
   "theorems": [
    "C61_response",
    "C61_refused",
    "C61_stream",
    "C61_unchanged",
    "C61_low_is_high",
    "C61_gain_ignored",
    "C61_low_pressure_refuted",
    "C61_failed_unchanged_refuted"
   ],
   "note": "What obspy reads from a response file and its removal in the frequency domain are parameters; the shipped files appear with the gains and units of their stages."
  },
  {
   "property": "C62",
   "status": "proved",
   "theorems": [
    "C62_true_times",
    "C62_continuous_read",
    "C62_continuous",
    "C62_conversion"
   ],
   "note": "The recorder, its clock and the way it writes lines are in the specification (RecordingSpec.v); the code is that of C01-C05, C15-C20, C22, C27, C49 and C50 put together. Arithmetic is exact. The cubic clock is per file; totality (C62_continuous_read) is for clocks of even rate. All fixes of a file may be exact, or, on a clock of even rate, all but one among 33 or more (one_false, with C81; C82_archive_case has such a file). The fits are assumed to be least-squares fits."
  },
  {
   "property": "C63",
   "status": "proved",
   "theorems": [
    "C63_table",
    "C63_days",
    "C63_late_station_refuted",
    "C63_positions",
    "C63_stream_on_earth",
    "C63_stream_in_plane",
    "C63_stream_unknown",
    "C63_stream_iff",
    "C63_stream_inventory",
    "C63_arrays",
    "C63_origin",
    "C63_directions_file",
    "C63_lags_file",
    "C63_pipeline",
    "C63_lost_refuted"
   ],
   "note": "Option parsing by argparse, the analysis of one day (C38, C56, C57) and the readers and writers of files are arguments; C63_pipeline asks that the table of lags is read as it was written, which pandas does up to rounding. The two _refuted theorems are findings about the code."
  },
  {
   "property": "C64",
   "status": "proved",
   "theorems": [
    "C64_rows",
    "C64_values",
    "C64_steady",
    "C64_text",
    "C64_succeeds",
    "C64_length",
    "C64_other_formats_rejected",
    "C64_times_refuted",
    "C64_recovery_refuted",
    "C64_readable_refuted"
   ],
   "note": "The three _refuted theorems are findings about the code."
  },
  {
   "property": "C65",
   "status": "proved",
   "theorems": [
    "C65_every_moment",
    "C65_log",
    "C65_sequential",
    "C65_ends",
    "C65_tasks",
    "C65_log_tells",
    "C65_completed_means_converted",
    "C65_one_process_tells",
    "C65_processes",
    "C65_test",
    "C65_status",
    "C65_status_refuted",
    "C65_death_refuted",
    "C65_whose_error_refuted",
    "C65_error_text",
    "C65_allocation_refuted",
    "C65_gem_cat",
    "C65_gem_cat_status",
    "C65_huddle",
    "C65_long_option_refuted"
   ],
   "note": "The _refuted theorems are findings about the code."
  },
  {
   "property": "C66",
   "status": "proved",
   "theorems": [
    "C66_archive",
    "C66_other_files"
   ],
   "note": "C66_archive composes C52, C26, C62, C50 and C22; the libraries (scanf, fits, spline) are assumed to do what C62 states of them."
  },
  {
   "property": "C67",
   "status": "proved",
   "theorems": [
    "C67_merged",
    "C67_archive",
    "C67_pauses"
   ],
   "note": "C67_merged composes C52, C31 and C32; C67_archive adds C66, and C67_pauses adds C70 instead. C67_pauses_case: two groups with a restart of the counter between them, one with a file without GPS data. Format 0.91 is left out because gem_cat does not handle it (C32_version_091_refuted)."
  },
  {
   "property": "C68",
   "status": "proved",
   "theorems": [
    "C68_archive_with_pauses"
   ],
   "note": "As C66_archive with in_turn instead of unbroken. C68_case is a card with a restart of the counter after a pause of 89 s, and with twenty samples missing in its second recording; it is not a case of C66 (pc_pause, pc_gap_in_file)."
  },
  {
   "property": "C69",
   "status": "proved",
   "theorems": [
    "C69_logs"
   ],
   "note": "As C68 with notes: the fixes and readings of each recording with the numbers in their lines. C69_case is the card of C68_case from 5.5 s on: the fixes of the first 4 s are dropped, and the reading in the middle of the second recording has its true time."
  },
  {
   "property": "C70",
   "status": "proved",
   "theorems": [
    "C70_archive_from_a_time"
   ],
   "note": "As C68_archive_with_pauses with a start time T: the given one, or a whole second near the beginning. C70_case starts 5.5 s after the beginning."
  },
  {
   "property": "C71",
   "status": "proved",
   "theorems": [
    "C71_spectrum",
    "C71_powers",
    "C71_same_power",
    "C71_no_band",
    "C71_band",
    "C71_bands_add",
    "C71_other_types",
    "C71_old_versions",
    "C71_other_models",
    "C71_medium_refuted"
   ],
   "note": "About real numbers, so these theorems (alone) rest on the axioms of the standard library's Reals. C71_medium_refuted: the documentation names a model 'medium', the code raises. C71_case is a flat table."
  },
  {
   "property": "C72",
   "status": "proved",
   "theorems": [
    "C72_lines",
    "C72_silent_iff",
    "C72_raises_iff",
    "C72_two_loggers_refuted"
   ],
   "note": "C72_two_loggers_refuted: with files of two loggers lines are printed although neither has a gap. C72_case: three files in any order with an overlap and a gap."
  },
  {
   "property": "C73",
   "status": "proved",
   "theorems": [
    "C73_from_card_to_map",
    "C73_visits"
   ],
   "note": "Composes C69, C44 and C35. The log is read back as it was written. C73_case: the card of C69_case, a folder with its log and a table of one station."
  },
  {
   "property": "C74",
   "status": "proved",
   "theorems": [
    "C74_rows",
    "C74_unwrap",
    "C74_read_single",
    "C74_rounding_exists",
    "C74_fractions_refuted"
   ],
   "note": "Twin definitions of the readers with a rounding after every operation. C74_rounding_exists: rounding to nearest with ties to even satisfies the contract. C74_fractions_refuted: with fractions of milliseconds the unwrapped times may differ. C74_case: a file with compact lines and a rollover."
  },
  {
   "property": "C75",
   "status": "proved",
   "theorems": [
    "C75_resampling",
    "C75_uniform",
    "C75_grid_data_refuted"
   ],
   "note": "Double-precision twin of the definitions of C20. The interpolant is an arbitrary function (its own rounding errors are not modelled). C75_grid_data_refuted: 30 samples on the grid give 28. The rounding used in C75_case and C75_grid_data_refuted is to nearest with ties to even (C74_rounding_exists)."
  },
  {
   "property": "C76",
   "status": "proved",
   "theorems": [
    "C76_times",
    "C76_order",
    "C76_from_clock_to_traces"
   ],
   "note": "Double-precision twin of the definitions of C19, composed with C75. The coefficients are those of the header, whatever their origin. C76_case: a drifting clock and the line of a rejected file."
  },
  {
   "property": "C77",
   "status": "proved",
   "theorems": [
    "C77_joined",
    "C77_recorded_files",
    "C77_rounding_respects",
    "C77_second_refuted"
   ],
   "note": "Double-precision twin of the loop of C14-C16, composed with the readers of C74. The fit of the clock is a parameter; that it decides alike for tables within 10 nanoseconds is a hypothesis. C77_case: three files, one missing, two rollovers; C77_recorded_case. C77_second_refuted shows why samples exactly a second apart are excluded."
  },
  {
   "property": "C78",
   "status": "proved",
   "theorems": [
    "C78_times",
    "C78_traces",
    "C78_true_times",
    "C78_fit_spans"
   ],
   "note": "Composes C77, C76, C75 and C62. That fits in doubles agree within eps for tables that agree within 10 nanoseconds is a hypothesis (part of calm_run). C78_case: three files, one missing; C78_true_case: a recording with the program's own fit on the exact side."
  },
  {
   "property": "C79",
   "status": "proved",
   "theorems": [
    "C79_plane_wave",
    "C79_least_squares",
    "C79_timing_errors",
    "C79_aperture",
    "C79_refused",
    "C79_rational",
    "C79_record"
   ],
   "note": "Over the real numbers (standard library axioms). C79_rational: on rational data this is the angle and the root of what C40's model gives. Limit shown: C79_compass_refuted (a wave from the west is reported at -90, not 270). What arctan2 gives for zeros, whose signs are not modelled, is a parameter."
  },
  {
   "property": "C80",
   "status": "proved",
   "theorems": [
    "C80_delayed",
    "C80_either_sign",
    "C80_check_lags",
    "C80_check_lags_noise",
    "C80_noise",
    "C80_noise_prepared",
    "C80_noise_either_sign",
    "C80_best",
    "C80_silent",
    "C80_coefficient",
    "C80_gain",
    "C80_exchanged",
    "C80_window",
    "C80_directions",
    "C80_window_noise",
    "C80_directions_noise"
   ],
   "note": "Lifts the arguments `prepare` and `correlate` of C56, C57 and C79: detrending, taper, correlation and its maximum are modelled as obspy computes them, in exact arithmetic with the square root as a parameter. Limits shown: C80_silent (a silent sensor is reported with the largest negative lag, coefficient 0), C80_continuing_refuted (a tone that goes on through the window), C80_polarity_refuted (an inverted copy is not found, while check_lags finds it: C80_either_sign, and C80_check_lags and C80_check_lags_noise for the whole function, with the slices and the correlation of obspy modelled in Lags.v). C80_directions and C80_directions_noise are over the reals (standard library axioms)."
  },
  {
   "property": "C81",
   "status": "proved",
   "theorems": [
    "C81_least_squares",
    "C81_defined",
    "C81_cubic",
    "C81_line",
    "C81_fits",
    "C81_libraries",
    "C81_wrong_point",
    "C81_evenly",
    "C81_wrong_fix",
    "C81_wrong_fix_evenly",
    "C81_few_fixes"
   ],
   "note": "polyfit is modelled (in exact arithmetic) and C81_libraries discharges with it what C62 and the properties built on it (C66 to C70, C73, C78) assume of the two fits. The wrong-fix theorems hold for every least-squares routine, and C62 and the properties built on it allow one wrong fix per file by them; C81_wrong_fix_evenly is stated with the modelled one."
  },
  {
   "property": "C82",
   "status": "proved",
   "theorems": [
    "C82_spline",
    "C82_only",
    "C82_refused",
    "C82_contract",
    "C82_exact",
    "C82_superposition",
    "C82_resampled",
    "C82_line",
    "C82_steady",
    "C82_libraries",
    "C82_archive"
   ],
   "note": "CubicSpline is modelled (in exact arithmetic). C82_libraries, with C81, discharges everything that C62 and the properties built on it (C66 to C70, C73, C78) assume of the fits and the spline; C82_archive is C66 without these assumptions. What is left is that the scanner reads decimal numbers (reads_decimal). The case of C82_archive is in SplineCase.v."
  }
 ]
}