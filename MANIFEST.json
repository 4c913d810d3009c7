{
 "claims": [
  {
   "property": "C01",
   "status": "proved",
   "theorems": [
    "C01_range_construction",
    "C01_zero_step",
    "C01_from_length_stop",
    "C01_from_length_start",
    "C01_from_length_step"
   ],
   "note": "Integer and nanosecond coordinates; quotients are exact rationals, float64 rounding of the quotient is outside the model."
  },
  {
   "property": "C02",
   "status": "proved",
   "theorems": [
    "C02_range_slicing"
   ],
   "note": "All python slices."
  },
  {
   "property": "C03",
   "status": "proved",
   "theorems": [
    "C03_range_select",
    "C03_range_select_tolerance"
   ],
   "note": "Exact for steps below 2e10 units (20 s for times); the tolerance theorem covers every step."
  },
  {
   "property": "C04",
   "status": "partial",
   "theorems": [
    "C04_mono_select_partial",
    "C04_mono_select_refuted"
   ],
   "note": "The returned indexer always selects exactly the in-range positions. The returned values are exact unless the selected values are nearly even (all gaps within 0.1% of the median), in which case get_coord snaps them; refuted in that case."
  },
  {
   "property": "C05",
   "status": "partial",
   "theorems": [
    "C05_array_select_partial",
    "C05_array_select_refuted"
   ],
   "note": "As C04, for unsorted arrays."
  },
  {
   "property": "C06",
   "status": "partial",
   "theorems": [
    "C06_select_values_partial",
    "C06_select_sample_array_partial",
    "C06_select_bools_partial",
    "C06_index_exact",
    "C06_select_values_refuted"
   ],
   "note": "Indexer exact for all coordinates. Values exact for slices and for array coordinates; rebuilding an evenly sampled coordinate through get_coord may snap nearly even values (refuted)."
  },
  {
   "property": "C07",
   "status": "proved",
   "theorems": [
    "C07_sample_select",
    "C07_sample_int",
    "C07_sample_pair"
   ],
   "note": "Integers, pairs and unbounded ends, all coordinate kinds including coordinates without values."
  },
  {
   "property": "C08",
   "status": "partial",
   "theorems": [
    "C08_order_values_partial",
    "C08_order_values_refuted",
    "C08_order_samples_partial",
    "C08_argsort_exists"
   ],
   "note": "Holds for every argsort numpy may use. Values exact except when nearly even (refuted). Negative sample indices: the index array is only shown faithful for non-negative entries."
  },
  {
   "property": "C09",
   "status": "partial",
   "theorems": [
    "C09_sort_partial",
    "C09_sort_range",
    "C09_sort_refuted"
   ],
   "note": "Evenly sampled coordinates sort exactly; array coordinates sort exactly unless nearly even (refuted)."
  },
  {
   "property": "C10",
   "status": "partial",
   "theorems": [
    "C10_get_coord_partial",
    "C10_get_coord_flags",
    "C10_get_coord_refuted",
    "C10_drift_bound",
    "C10_drift_unbounded",
    "C10_get_coord_one"
   ],
   "note": "Full statement refuted: nearly even values are snapped. Proved: exact values when spread, same length, same first value, class flags, the drift bound and its unboundedness."
  },
  {
   "property": "C11",
   "status": "partial",
   "theorems": [
    "C11_flags_truthful_partial",
    "C11_flags_truthful_refuted",
    "C11_select_after_order_refuted"
   ],
   "note": "Holds for every history of operations that does not order a monotonic array; refuted for that operation because the class is kept."
  },
  {
   "property": "C12",
   "status": "partial",
   "theorems": [
    "C12_three_arguments",
    "C12_step",
    "C12_min",
    "C12_max",
    "C12_min_is_min",
    "C12_max_is_max",
    "C12_both_partial",
    "C12_none",
    "C12_array",
    "C12_stays_range",
    "C12_zero_step_length_refuted",
    "C12_min_descending_refuted",
    "C12_both_length_refuted",
    "C12_both_max_refuted"
   ],
   "note": "Per-argument theorems; refuted for a minimum on a descending coordinate and for both limits given (exclusive stop, length change by truncated step). A step of zero is accepted and collapses the length (refuted)."
  },
  {
   "property": "C13",
   "status": "partial",
   "theorems": [
    "C13_change_length_ok",
    "C13_change_length_partial",
    "C13_prefix",
    "C13_negative",
    "C13_zero",
    "C13_change_length_refuted"
   ],
   "note": "Proved for time coordinates and for integer coordinates where the change is larger than the all_close tolerance; refuted otherwise."
  },
  {
   "property": "C14",
   "status": "proved",
   "theorems": [
    "C14_snap",
    "C14_snap_error"
   ],
   "note": "Time coordinates (integer-nanosecond step)."
  },
  {
   "property": "C15",
   "status": "partial",
   "theorems": [
    "C15_align_to_partial",
    "C15_align_confusable",
    "C15_align_equal_times",
    "C15_align_close_refuted",
    "C15_align_unknown_values"
   ],
   "note": "Duplicate-free coordinates that == tells apart; values represented as in C10. Coordinates that == does not tell apart come back unchanged, which is alignment for times and refuted for integer arrays within 1e-5 of each other."
  },
  {
   "property": "C16",
   "status": "partial",
   "theorems": [
    "C16_next_index_range",
    "C16_next_index_mono_partial",
    "C16_next_index_mono_refuted",
    "C16_out_of_bounds",
    "C16_unsorted",
    "C16_samples"
   ],
   "note": "Ascending coordinates. Refuted for the first value of a monotonic array."
  },
  {
   "property": "C17",
   "status": "proved",
   "theorems": [
    "C17_sample_count",
    "C17_sample_count_samples"
   ],
   "note": "Ascending coordinates, non-negative durations."
  },
  {
   "property": "C18",
   "status": "proved",
   "theorems": [
    "C18_summary_roundtrip",
    "C18_summary_truthful",
    "C18_coord_range"
   ],
   "note": "Evenly sampled coordinates."
  },
  {
   "property": "C19",
   "status": "proved",
   "theorems": [
    "C19_index_compression"
   ],
   "note": "Non-negative in-range index arrays of any length."
  },
  {
   "property": "C20",
   "status": "partial",
   "theorems": [
    "C20_whole_span",
    "C20_intervals",
    "C20_errors",
    "C20_disjoint",
    "C20_inside",
    "C20_cover_partial",
    "C20_last_sample_refuted",
    "C20_fractional_length_refuted",
    "C20_settings",
    "C20_settings_error"
   ],
   "note": "Non-negative steps. Full coverage with keep_partial is false: a last chunk of one sample is dropped, and lengths that are not whole steps drop samples (refuted). Coverage of all other samples, disjointness, sizes and errors proved."
  },
  {
   "property": "C21",
   "status": "partial",
   "theorems": [
    "C21_continuity_groups",
    "C21_sampling_groups",
    "C21_labels",
    "C21_groups_contiguous",
    "C21_other_key_hides_gap_refuted",
    "C21_negative_steps_refuted",
    "C21_warning"
   ],
   "note": "Proved for every list of rows and every argsort. Refuted: gaps are detected across all group keys at once, so another key hides a gap; negative steps are never separated."
  },
  {
   "property": "C22",
   "status": "partial",
   "theorems": [
    "C22_overlap_removal_partial",
    "C22_trimmed_disjoint_partial",
    "C22_fields",
    "C22_nested_refuted"
   ],
   "note": "Proved when no row is nested in another; nested rows refuted."
  },
  {
   "property": "C23",
   "status": "partial",
   "theorems": [
    "C23_instructions_partial",
    "C23_chunk_table",
    "C23_chunk_numbers",
    "C23_group_step_even",
    "C23_group_step_gap",
    "C23_median_step",
    "C23_nested_refuted",
    "C23_repeated_refuted",
    "C23_gap_boundary_refuted"
   ],
   "note": "Instruction rows exact when trimmed sources are disjoint and the chunk ends lie in a source; refuted for nested, repeated and gapped sources. The chunk table is characterised fully."
  },
  {
   "property": "C24",
   "status": "proved",
   "theorems": [
    "C24_streaming",
    "C24_estimate",
    "C24_estimate_defined",
    "C24_chunk_data",
    "C24_merge_one_key",
    "C24_spool_samples",
    "C24_spool_trimmed"
   ],
   "note": "Data along the merged dimension, for every estimate of the streaming buffer, and end to end for mergeable groups. Merging of the other coordinates is C52. C24_spool_samples carries this to the spool: every entry of a chunked spool of truthful, evenly sampled, staggered sources loads exactly the samples of the recorded signal between the limits of its row. C24_spool_trimmed is the same after a selection has trimmed the sources to limits inside the stored patches."
  },
  {
   "property": "C25",
   "status": "partial",
   "theorems": [
    "C25_filter",
    "C25_patterns",
    "C25_errors",
    "C25_refusals",
    "C25_none_matches_nothing_refuted",
    "C25_ignored_keyword_fails_refuted"
   ],
   "note": "Full row-by-row characterisation of filter_df for every table and query of the modelled value types, and of every refusal. Two refuted expectations: None on an existing column matches nothing; ignore_bad_kwargs does not cover <name>_min."
  },
  {
   "property": "C26",
   "status": "proved",
   "theorems": [
    "C26_trim",
    "C26_errors",
    "C26_success"
   ],
   "note": "adjust_segments: rows kept, trimmed interval, untouched cells, the _modified flag, and all error cases."
  },
  {
   "property": "C27",
   "status": "partial",
   "theorems": [
    "C27_kernel",
    "C27_lookup_partial",
    "C27_defaults",
    "C27_covering_file_missed_refuted",
    "C27_epoch_bound_refuted"
   ],
   "note": "Partial: the rows returned are exactly the answering ones except those covering the range with an end exactly one second beyond it; such rows are missed (refuted). A bound equal to the epoch is dropped (refuted)."
  },
  {
   "property": "C28",
   "status": "partial",
   "theorems": [
    "C28_history",
    "C28_transparent_partial",
    "C28_ring",
    "C28_repeat",
    "C28_keywords_never_cached",
    "C28_cached_gains_row_refuted",
    "C28_cached_loses_row_refuted",
    "C28_options_ignored_refuted",
    "C28_foreign_update_refuted"
   ],
   "note": "Partial: for every history of one indexer the cache is transparent when no row sticks out of the range on both sides by a second; four refutations (gained row, lost row, ignored read options, updates by another process)."
  },
  {
   "property": "C29",
   "status": "partial",
   "theorems": [
    "C29_stamp_complete",
    "C29_update_complete",
    "C29_rows_real",
    "C29_coarse_mtime_refuted",
    "C29_partial_update_refuted"
   ],
   "note": "Proved for every interleaving of file writes, removals, concurrent updates and crashes when mtimes are at most 1 ms coarse. Refuted for coarser mtimes and for update(paths=...)."
  },
  {
   "property": "C30",
   "status": "partial",
   "theorems": [
    "C30_scan_once",
    "C30_scan_collects",
    "C30_quiet_partial",
    "C30_listed_twice_refuted",
    "C30_stale_row_refuted"
   ],
   "note": "Partial: one undisturbed scan lists every eligible file once and a quiet directory adds nothing. Refuted in general: files within the 1 ms slack are listed twice, rewritten and removed files keep stale rows."
  },
  {
   "property": "C31",
   "status": "partial",
   "theorems": [
    "C31_roundtrip_partial",
    "C31_outside",
    "C31_repeated_name_refuted"
   ],
   "note": "Partial: round trip holds exactly when the base path with a slash does not occur again in the relative path; refuted otherwise."
  },
  {
   "property": "C32",
   "status": "partial",
   "theorems": [
    "C32_history",
    "C32_construct",
    "C32_given",
    "C32_validator",
    "C32_new_patch",
    "C32_update_dimension",
    "C32_update_coordinate",
    "C32_distinct_dims_refuted",
    "C32_limit_like_name_refuted"
   ],
   "note": "Soundness (consistent manager, data of the manager's shape) proved for every patch built and every sequence of the fourteen modelled methods; the validator characterised exactly; what get_coord_manager builds from keywords, dimensions and a shape characterised (C32_given); update_coords characterised for replacing a dimension and adding a coordinate. Refuted: dimension names need not stay distinct (rename, set_dims); a coordinate named like a limit keyword breaks select."
  },
  {
   "property": "C33",
   "status": "partial",
   "theorems": [
    "C33_select",
    "C33_select_never_misaligns",
    "C33_unknown_coordinate",
    "C33_shared_dimension",
    "C33_two",
    "C33_reversed_slice_refuted",
    "C33_private_coordinate_refuted"
   ],
   "note": "Exact positions for one request per dimension of every argument type; restriction and order preservation for any request without a negative slice step; two coordinates of one dimension are two selects in the order of their names (C33_two); both refusals. Refuted: reversed slice on a partial coordinate, private coordinate without dimensions."
  },
  {
   "property": "C34",
   "status": "partial",
   "theorems": [
    "C34_order",
    "C34_sort",
    "C34_sort_refuses",
    "C34_snap",
    "C34_sort_after_sort_refuted"
   ],
   "note": "order and sort characterised for every argsort that returns a sorting permutation; snap_coords on times sorts and then makes the named coordinates even (C34_snap); snapping numbers is not modelled (floats). Refuted: sort by another coordinate leaves a monotone coordinate that claims to be sorted."
  },
  {
   "property": "C35",
   "status": "proved",
   "theorems": [
    "C35_transpose",
    "C35_refused",
    "C35_back"
   ],
   "note": "Both outcomes for every argument list, and transposing back is the identity."
  },
  {
   "property": "C36",
   "status": "partial",
   "theorems": [
    "C36_flip",
    "C36_flip_data_only",
    "C36_flip_twice",
    "C36_range_spread",
    "C36_shared_coordinate_refuted"
   ],
   "note": "Flip of any set of dimensions no two of which share a coordinate; twice is the identity. Refuted for two dimensions sharing a 2-D coordinate."
  },
  {
   "property": "C37",
   "status": "partial",
   "theorems": [
    "C37_rename",
    "C37_rename_unknown",
    "C37_rename_back",
    "C37_drop",
    "C37_drop_dimension",
    "C37_squeeze",
    "C37_squeeze_refuses",
    "C37_append",
    "C37_append_squeeze",
    "C37_set_dims",
    "C37_swap_refuted",
    "C37_rename_onto_existing_refuted",
    "C37_squeeze_all_refuted"
   ],
   "note": "rename/drop/squeeze/append_dims/set_dims characterised with their inverses and refusals. Refuted: swapping two names, renaming onto an existing coordinate, squeezing a patch with only length-one dimensions."
  },
  {
   "property": "C38",
   "status": "partial",
   "theorems": [
    "C38_appends",
    "C38_same",
    "C38_other",
    "C38_required",
    "C38_sequence",
    "C38_entry",
    "C38_entry_told_apart",
    "C38_entry_keywords",
    "C38_entry_positional",
    "C38_entry_default",
    "C38_type_refuted",
    "C38_text_refuted",
    "C38_nested_refuted",
    "C38_distinct_refuted",
    "C38_missing_attr_refuted"
   ],
   "note": "The patch_function decorator (HistoryModel.v): requirement checks, the call, the history string (inspect.getcallargs, formatting, repr), update_attrs. Patches are objects in a heap, so 'input unchanged' and 'function not called' are statements about the state. C38_appends: the result is what the function gave with its history, the call's entry and the data_type, for patches whose attributes can be told from coordinate information (conforms). C38_same, C38_other, C38_required; C38_sequence: any sequence of calls. C38_entry: the text of an entry; C38_entry_keywords, C38_entry_positional, C38_entry_default: how arguments are passed does not matter. C38_entry_told_apart: two calls with the same entry are calls of the same function with arguments of the same text. The statement as given is false in five ways (C38_*_refuted). Not modelled: validate_call, str/array2string of leaf values, functions whose double-star parameter has another name than kwargs."
  },
  {
   "property": "C39",
   "status": "partial",
   "theorems": [
    "C39_aligned",
    "C39_total",
    "C39_no_shared",
    "C39_array",
    "C39_array_refuses",
    "C39_transposed_refuted",
    "C39_associated_refuted",
    "C39_nearby_refuted",
    "C39_extra_coords_refuted"
   ],
   "note": "BinOpModel.v: align_patch_coords, _merge_aligned_coords, the two-patch and patch/array branches of _apply_binary_ufunc; the operator is any function of two elements. C39_aligned: for patches that can be lined up (operands: at least one shared dimension, comparable labels or a length-1 dimension without labels, not merely transposed) the result has the dimensions of both, the common labels, and at each position the operator on the elements carrying these labels; otherwise only AssertionError. C39_total: no error when only dimensions are shared and the common labels are spread. C39_no_shared, C39_array (numpy stretching, scalars, what grows and what is dropped), C39_array_refuses. Four refuted claims: a transposed operand, a reordered associated coordinate, nearby integer labels, differing extra coordinates. Not modelled: units, attribute merging (C102), extra operator arguments, reduce/accumulate."
  },
  {
   "property": "C40",
   "status": "partial",
   "theorems": [
    "C40_any_operations",
    "C40_out_of_range",
    "C40_negative",
    "C40_wraps_twice_refuted",
    "C40_memory_get",
    "C40_array",
    "C40_array_defined",
    "C40_slice",
    "C40_slice_single",
    "C40_shared_source_refuted",
    "C40_rechunk_refuted"
   ],
   "note": "Entries after any sequence of slices, arrays, sorts and selects on a spool of patches equal the list operations, and load exactly the samples inside every selected range; python negative indices; IndexError exactly outside -2n..n-1; arrays on any spool; slices on any spool without shared sources. Refuted: indices wrap twice, slicing a chunked spool with shared sources repeats samples, chunk() forgets array selection."
  },
  {
   "property": "C41",
   "status": "partial",
   "theorems": [
    "C41_split",
    "C41_step",
    "C41_count",
    "C41_never_ends",
    "C41_exact_count_refuted"
   ],
   "note": "For a positive step the pieces are the consecutive slices, none empty, and concatenate to the spool; the step from size/count; a step that is not positive never ends. Refuted: count is not always met exactly."
  },
  {
   "property": "C42",
   "status": "partial",
   "theorems": [
    "C42_sort",
    "C42_sorted",
    "C42_sort_refuses",
    "C42_select",
    "C42_contents",
    "C42_gap_selection_refuted",
    "C42_contents_refuted",
    "C42_leftover",
    "C42_leftover_refuted",
    "C42_sort_repeated_refuted",
    "C42_suffix_refuted"
   ],
   "note": "Sorting permutes entries with their parts and orders the column; select keeps and cuts exactly the entries and parts meeting the query; get_contents; C42_leftover: keywords no column answers accumulate over selections. Refuted: selection in a gap of a merged entry, get_contents after a non-indexed keyword, left-over keywords ignored on trimmed rows, sort after a repeated array selection, <column>_max keywords."
  },
  {
   "property": "C43",
   "status": "partial",
   "theorems": [
    "C43_register_duplicate",
    "C43_register_new",
    "C43_registered_from",
    "C43_no_repeats",
    "C43_extension_first",
    "C43_newest_first",
    "C43_format",
    "C43_version_only",
    "C43_load_assertion",
    "C43_detect_first",
    "C43_complete",
    "C43_format_complete",
    "C43_detect_unique",
    "C43_detect_none",
    "C43_shipped_coherent",
    "C43_shipped_extensions",
    "C43_get_fresh",
    "C43_get_again",
    "C43_newest_version_refuted",
    "C43_rsf_extension_refuted",
    "C43_hint_repeats_refuted",
    "C43_late_reader_refuted",
    "C43_shadowed_plugin_refuted",
    "C43_stale_answer_refuted"
   ],
   "note": "Every sequence of definitions, loads and requests, every set order: duplicates ignored, each registered reader at most once, extension matches first, newest version string first, format and version honoured, unknown ones raise, detection takes the first answer; with only the plugins defined, requests are complete and detection does not depend on earlier use or set order; the shipped readers are coherent. Refuted beyond that: version strings compare as text, RSF's extension is split into letters, hints repeat, readers defined late or shadowing a plugin, stale get_fiberio."
  },
  {
   "property": "C44",
   "status": "partial",
   "theorems": [
    "C44_sequence",
    "C44_keeps",
    "C44_again",
    "C44_names",
    "C44_names_times",
    "C44_stale_attribute_refuted",
    "C44_stale_coordinate_refuted",
    "C44_same_second_refuted",
    "C44_separator_refuted",
    "C44_name_attribute_refuted",
    "C44_path_refuted",
    "C44_lone_coordinate_refuted",
    "C44_underscore_refuted",
    "C44_marker_refuted"
   ],
   "note": "DasdaeModel.v: a file as named groups of attributes and arrays; _save_patch, _get_attrs, _get_coords, _read_patch, get_patch_names, write and read without selections. C44_sequence: any number of writes, then a read: one patch per name in the order of the names, the last saved under it, with the same data, dims, units and attributes and coordinates inferred from the same values (exactly the same when they are of the kind get_coord infers). C44_keeps: patches that differ in network, station, tag or times to the second all come back. C44_again, C44_names, C44_names_times. Nine refuted claims: stale attribute, stale coordinate, same second, separator, name attribute, path column, coordinate without dims, underscore in a coordinate name, marker in an attribute name. Trusted: HDF5/PyTables give back what was stored, listings sorted by name, how pandas prints times (a parameter). Not modelled: the index table, reading with selections, partly written files, names PyTables reserves."
  },
  {
   "property": "C45",
   "status": "partial",
   "theorems": [
    "C45_whole_seconds",
    "C45_whole_seconds_refuted",
    "C45_round_trip",
    "C45_round_trip_refuted",
    "C45_round_trip_near",
    "C45_round_trip_far",
    "C45_nearest",
    "C45_both",
    "C45_monotone",
    "C45_in_range",
    "C45_out_of_range",
    "C45_not_finite",
    "C45_wrap_around_refuted",
    "C45_units",
    "C45_unit_ignored_refuted",
    "C45_missing_int_refuted",
    "C45_missing_float",
    "C45_arrays",
    "C45_arrays_length",
    "C45_arrays_timedelta",
    "C45_strings"
   ],
   "note": "Floats are Flocq's binary64 and rounding is proved through Flocq's theorems on reals, so these theorems depend on the standard library's axioms of the reals (listed under Trusted base). The limits are sharp: C45_whole_seconds_refuted and C45_round_trip_refuted are at the first (resp. the fifth) integer beyond the proved range. Conversion of a float out of range to int64 is left open by C; the model answers what x86-64 does. Month and year units, pandas containers and the ISO 8601 parser (a parameter) are not modelled."
  },
  {
   "property": "C46",
   "status": "partial",
   "theorems": [
    "C46_align",
    "C46_valid_no_fill",
    "C46_full_keeps",
    "C46_reverse_restores",
    "C46_succeeds",
    "C46_refuses",
    "C46_shift_independent_refuted",
    "C46_reverse_times_refuted",
    "C46_valid_empty_refuted"
   ],
   "note": "All shift arrays, lengths and modes: position of every sample, no fill in valid mode, nothing lost in full mode, reversal by samples restores the data. Shifts given as times are rounded differently depending on the other traces, so reversal by times is refuted; so is the documented error for an empty valid range."
  },
  {
   "property": "C47",
   "status": "partial",
   "theorems": [
    "C47_rolling",
    "C47_engines_agree",
    "C47_refuses",
    "C47_engines_centre_refuted",
    "C47_single_output_refuted",
    "C47_default_engine_refuted"
   ],
   "note": "All lengths, windows, steps, both engines, centred or not: which samples each output uses, where NaN stands, coordinates. The engines agree except for centred windows with a step above one (refuted); a one-dimensional patch reduced to one sample loses its axis (refuted); the default engine refuses some three-dimensional patches (refuted). The applied function is a parameter."
  },
  {
   "property": "C48",
   "status": "partial",
   "theorems": [
    "C48_frequencies",
    "C48_frequencies_real",
    "C48_roundtrip",
    "C48_roundtrip_padded",
    "C48_lags",
    "C48_one_complex_sample_refuted",
    "C48_two_single_samples_refuted",
    "C48_descending_refuted",
    "C48_padding_mixed_refuted",
    "C48_padding_kept_refuted",
    "C48_lag_single_refuted",
    "C48_lag_long_refuted"
   ],
   "note": "All lengths, steps, dimension lists, complex or real, padded or not, for any numpy transform whose inverse undoes it on the transformed shape: coordinates list the frequencies of the shifted bins, data are the shifted bins, the inverse restores data and coordinates; all lags of correlate_shift. Refuted: one complex sample, two single-sample dimensions, descending coordinates, mixed padding, stepwise inverse of a padded transform, lags of one sample or of long odd non-time dimensions. Frequencies are in units of one over length times step; units, other outputs and stft are not modelled."
  },
  {
   "property": "C49",
   "status": "partial",
   "theorems": [
    "C49_pad",
    "C49_keeps_samples",
    "C49_negative",
    "C49_unknown_dimension",
    "C49_descending_refuted",
    "C49_negative_length_refuted"
   ],
   "note": "All evenly sampled ascending dimensions, by samples or by length, several dimensions at once: widths, fill, kept samples and coordinates, refusals. Descending dimensions and negative lengths are refuted. next_fast_len is a parameter."
  },
  {
   "property": "C50",
   "status": "partial",
   "theorems": [
    "C50_decimate",
    "C50_positions",
    "C50_associated_coordinates_refuted"
   ],
   "note": "Positions 0, k, 2k, ... for every positive factor; coordinates sharing the dimension are dropped when they do not fit (refuted expectation), and misaligned for factor -1."
  },
  {
   "property": "C51",
   "status": "partial",
   "theorems": [
    "C51_raise",
    "C51_raise_conflict",
    "C51_raise_equal",
    "C51_drop",
    "C51_keep_first",
    "C51_no_coordinate",
    "C51_arguments",
    "C51_keep_first_default_refuted",
    "C51_keep_first_nothing_refuted",
    "C51_drop_coords_refuted",
    "C51_drop_dims_refuted",
    "C51_drop_null_refuted",
    "C51_raise_ignored_refuted"
   ],
   "note": "combine_patch_attrs complete (AttrsModel.v), for attribute sets whose attribute names cannot be mistaken for coordinate information (family) and drop_attrs that leave dims and coords alone. C51_raise and C51_raise_equal give soundness and completeness of raise, C51_raise_conflict the error; C51_drop and C51_keep_first describe the whole result; merged describes the merged coordinate: union extent, middle step, common dtype and units. A given coordinate object and plain dicts as input are modelled but only C51_arguments speaks of them. The values None and NaN, dims and coords conflicts, and defaults in keep_first depart from the statement: six C51_*_refuted theorems show how. History is an attribute like any other here; what keeps it from conflicting is the drop_attrs argument."
  },
  {
   "property": "C52",
   "status": "partial",
   "theorems": [
    "C52_merge",
    "C52_snap",
    "C52_conflict",
    "C52_dims_differ",
    "C52_associated",
    "C52_associated_refuted",
    "C52_last_axis_refuted"
   ],
   "note": "merge_coord_managers complete except units (MergeModel.v). C52_merge describes the whole result for any number of managers without associated coordinates along the dimension; C52_snap the snapping of ranges with a tolerance, both outcomes; C52_conflict and C52_dims_differ the errors. The part of the statement about associated coordinates is false of the code: C52_associated says what it does instead, C52_associated_refuted and C52_last_axis_refuted show it."
  },
  {
   "property": "C53",
   "status": "partial",
   "theorems": [
    "C53_frozen",
    "C53_lookup",
    "C53_reading",
    "C53_new",
    "C53_hash",
    "C53_equal",
    "C53_equal_hash",
    "C53_new_other_key",
    "C53_new_any_key_refuted"
   ],
   "note": "Every program over a heap of dictionaries: frozen contents never change, lookups are those of the source at that moment, new, cached hashes and equality as stated, equal ones hash equally. Refuted: new raises TypeError when a key is not a string."
  },
  {
   "property": "C54",
   "status": "partial",
   "theorems": [
    "C54_roll",
    "C54_associated_coordinates_refuted"
   ],
   "note": "All shifts, both modes; other coordinates of the dimension are not rolled (refuted)."
  },
  {
   "property": "C55",
   "status": "partial",
   "theorems": [
    "C55_join",
    "C55_join_even",
    "C55_nothing_varies",
    "C55_ambiguous",
    "C55_dims_differ",
    "C55_descending_refuted",
    "C55_gap_refuted"
   ],
   "note": "join_patches is the merging end of a chunked spool (patch.py _force_patch_merge; the streaming variant differs in the buffer, C24). C55_join_even: exact labels for ranges that continue each other, snapped or not. C55_join: any ascending patches without snapping. C55_descending_refuted concerns descending coordinates handed to the merge; C55_gap_refuted shows what the default snapping does to labels around a tolerated gap. Attributes are C51; units are not modelled; patches are assumed to have their dimensions in the same order. C55_nothing_varies, C55_ambiguous and C55_dims_differ: when the merge is refused or changes nothing."
  },
  {
   "property": "C56",
   "status": "partial",
   "theorems": [
    "C56_rebuild",
    "C56_update",
    "C56_update_field",
    "C56_update_nested",
    "C56_update_clear",
    "C56_flat_round",
    "C56_read",
    "C56_rename",
    "C56_update_dims_refuted",
    "C56_prefix_refuted",
    "C56_two_words_refuted",
    "C56_flat_others_refuted",
    "C56_flat_underscore_refuted",
    "C56_rebuild_data_refuted",
    "C56_swap_refuted"
   ],
   "note": "PatchAttrs construction, model_dump, update, flat_dump, rename_dimension and dynamic reading (AttrsModel.v), for attribute names that cannot be mistaken for coordinate information (family, quiet, clear_names) and, in the flat form, dimension names without underscore none of which begins another (flat_names). C56_rebuild: the dump builds the same attributes. C56_update, C56_update_field, C56_update_nested, C56_update_clear: what the four kinds of update change. C56_flat_round: the flat form of attributes whose coordinates are the dimensions. C56_read, C56_rename. The hypotheses are needed: seven C56_*_refuted theorems give real cases outside them. Not covered: updates mixing several kinds of information in one call, and a CoordManager passed to update."
  },
  {
   "property": "C57",
   "status": "partial",
   "theorems": [
    "C57_along",
    "C57_lengths",
    "C57_new",
    "C57_raise_same",
    "C57_raise_refused",
    "C57_dims_refused",
    "C57_zero_refused",
    "C57_negative_refuted"
   ],
   "note": "ConcatModel.v: check_dims, check_coords, yield_sub_sequences, concatenate_patches with drop_private_coords. C57_along (labels), C57_lengths (no labels, one group), C57_new (new dimension), C57_raise_same, C57_raise_refused, C57_dims_refused, C57_zero_refused. One refuted claim: a negative length loses every patch. Not modelled: units, attributes with the history entry, warnings, labels of different kinds along the dimension (numpy promotes), a lone null label."
  },
  {
   "property": "C58",
   "status": "partial",
   "theorems": [
    "C58_fixed",
    "C58_vary",
    "C58_raise_same",
    "C58_raise_refused",
    "C58_no_dim",
    "C58_transposed_refuted",
    "C58_fewer_dims_refuted"
   ],
   "note": "ConcatModel.v: stack_patches with any addition. C58_fixed, C58_vary (labels moved to start at zero), C58_raise_same, C58_raise_refused, C58_no_dim. Two refuted claims, both because check_dims returns True after its warning: a transposed patch is added with labels mixed up, a patch with fewer dimensions is added to every row. Not modelled: units, attributes, warnings, a varying dimension without labels."
  },
  {
   "property": "C59",
   "status": "partial",
   "theorems": [
    "C59_empty",
    "C59_label",
    "C59_int_label_refuted",
    "C59_squeeze",
    "C59_squeeze_all",
    "C59_unknown",
    "C59_other"
   ],
   "note": "AggModel.v: _apply_aggregator with any fold of a line of elements, reduce_coord, get_dim_axis_value for names. C59_empty, C59_label (time labels), C59_squeeze, C59_squeeze_all, C59_unknown, C59_other. One refuted claim: dim_reduce=\"min\" and the like fail or lose the label on integer dimensions. Not modelled: units (update_data drops those of the coordinate), attributes, floating-point labels, labels of functions with another type."
  },
  {
   "property": "C60",
   "status": "partial",
   "theorems": [
    "C60_same_shape",
    "C60_reduced",
    "C60_no_axis",
    "C60_ufunc",
    "C60_ufunc_default",
    "C60_ufunc_unknown",
    "C60_ufunc_names_refuted",
    "C60_transpose_refuted",
    "C60_keepdims_refuted"
   ],
   "note": "AggModel.v: _reassemble_patch for any outcome, _normalize_axes, swap_kwargs_dim_to_axis, ufunc.reduce with any fold. C60_same_shape, C60_reduced, C60_no_axis, C60_ufunc, C60_ufunc_default, C60_ufunc_unknown. Three refuted claims: several dimensions always raise TypeError, np.transpose of a square patch keeps the labels, keepdims=True is refused. Not modelled: the numpy functions themselves, units, attributes, data types."
  },
  {
   "property": "C61",
   "status": "partial",
   "theorems": [
    "C61_read",
    "C61_plain",
    "C61_none",
    "C61_empty_refuted",
    "C61_ends_refuted"
   ],
   "note": "LoadModel.v: read, _matches_attr_filters over the model of filter_df, _read_patch with keywords over the model of CoordManager.select, _kwargs_empty. C61_read for any file and keywords (one keyword per dimension, open or numeric ends, text patterns without '['); C61_plain, C61_none. Two refuted claims: an attribute keyword loses a fitting patch without samples; time_min is a KeyError. Not modelled: text patterns against attributes that are None, arrays and slices as keyword values."
  },
  {
   "property": "C62",
   "status": "partial",
   "theorems": [
    "C62_scan",
    "C62_overlap_refuted",
    "C62_pattern_refuted",
    "C62_load"
   ],
   "note": "LoadModel.v: scan, contents row, _convert_min_max_in_kwargs, FileSpool._load_patch. C62_scan: what a scan tells of every patch and in which order, for any file whose names do not clash with those the scan adds. C62_load: the row of a patch loads that patch - samples, labels, units and attributes - if every patch under an earlier name differs from it in an attribute or lies apart along a dimension. It covers patches with one coordinate per dimension (besides those of several dimensions) whose names have no underscore, and attributes without sequences or '['. Two refuted claims show that the condition on earlier patches is needed: the row of a patch that shares attributes and part of its range with an earlier one loads part of that one; texts in a row are read as patterns. Not modelled: the file's index table, and the missing values pandas fills in for columns that only other rows have."
  },
  {
   "property": "C63",
   "status": "partial",
   "theorems": [
    "C63_convert",
    "C63_refuses",
    "C63_back",
    "C63_via",
    "C63_history",
    "C63_history_refuted",
    "C63_coord",
    "C63_coord_refuses",
    "C63_patch",
    "C63_patch_refuses",
    "C63_unknown",
    "C63_simplify",
    "C63_simplify_refuted",
    "C63_set_units",
    "C63_set_units_refuted",
    "C63_no_labels_refuted"
   ],
   "note": "UnitsModel.v, exact rationals. C63_convert, C63_back, C63_via, C63_refuses for numbers; C63_history for any sequence of calls with the cache; C63_coord, C63_coord_refuses for coordinates; C63_patch, C63_patch_refuses, C63_unknown, C63_simplify, C63_set_units for patches. Four refuted claims: cached factors used for another unit, simplify_units of data in degC, set_units dropping the data units, coordinates without labels. Trusted: pint, as described in the model. Not modelled: float64 rounding, parsing of unit strings, the class of the converted coordinate (C10)."
  },
  {
   "property": "C64",
   "status": "partial",
   "theorems": [
    "C64_plain",
    "C64_frequencies",
    "C64_periods",
    "C64_one_period",
    "C64_one_sided_refuted",
    "C64_refuses"
   ],
   "note": "UnitsModel.v: get_filter_units and get_inverted_quant complete, on exact rationals. C64_plain, C64_frequencies (one or two limits), C64_periods (two), C64_one_period (what one does), C64_refuses. One refuted claim: a single period limits the other side. Units with an offset are left out (pint refuses to invert them)."
  },
  {
   "property": "C65",
   "status": "partial",
   "theorems": [
    "C65_taper",
    "C65_overlap",
    "C65_too_long",
    "C65_unknown",
    "C65_zero_refuted",
    "C65_descending_refuted"
   ],
   "note": "TaperModel.v on top of the coordinate model. C65_taper, C65_overlap, C65_too_long, C65_unknown. Left out: percentages and fractions of an integer range that are no integers. Two refuted claims: a taper of length zero changes nothing; the ends can be tapered whatever the order of the labels (along descending labels a taper of one end is refused)."
  },
  {
   "property": "C66",
   "status": "partial",
   "theorems": [
    "C66_range",
    "C66_invert",
    "C66_invert_one",
    "C66_refused",
    "C66_none_refuted",
    "C66_invert_refuted",
    "C66_overlap_refuted"
   ],
   "note": "TaperModel.v, exact rationals. C66_range, C66_invert, C66_invert_one, C66_refused. Evenly sampled ascending dimensions only (other curves are interpolated). Three refuted claims: a missing third or fourth value stands for the end of the dimension (the last sample is set to zero); inverting keeps what is outside (not if the second and third value name the same sample); no sample grows (overlapping ranges add up)."
  },
  {
   "property": "C67",
   "status": "partial",
   "theorems": [
    "C67_scan",
    "C67_error",
    "C67_listing",
    "C67_found",
    "C67_each_once",
    "C67_iterator_refuted",
    "C67_dot_refuted",
    "C67_hints",
    "C67_missing_refuted",
    "C67_directory_format_refuted",
    "C67_timestamp_refuted"
   ],
   "note": "IoModel.v: _iter_filesystem as a resumable generator, the loop of scan as its consumer. C67_scan, C67_error, C67_listing, C67_found, C67_each_once. Five refuted claims: an iterator of sources is scanned (it is used up by counting); directory formats are found below '.' and '..' (no directory is offered there); a missing path is skipped (it ends the scan); a directory format given for files reads them all (the next one is lost); files and directories treat the time stamp alike (>= and >). Not modelled: progress bars, races with the file system, symbolic links, permissions."
  },
  {
   "property": "C68",
   "status": "partial",
   "theorems": [
    "C68_closed",
    "C68_same",
    "C68_open",
    "C68_cast",
    "C68_cast_refused",
    "C68_cast_stream",
    "C68_stream_refuted",
    "C68_after_refuted",
    "C68_text_writer_refuted",
    "C68_cast_refuted",
    "C68_reading_makes_directories_refuted"
   ],
   "note": "IoModel.v: programs as trees of requests. C68_closed, C68_same, C68_open, C68_cast. Five refuted claims: the caller's stream stays usable (it is closed with the manager); a manager is not used after its block (it returns the closed handle); a text writer takes text streams (only binary ones); a direct call that fails closes its handle; reading makes nothing (it makes the parent directories of a missing path)."
  },
  {
   "property": "C69",
   "status": "partial",
   "theorems": [
    "C69_dropna",
    "C69_none_left",
    "C69_again",
    "C69_unknown",
    "C69_fillna",
    "C69_full",
    "C69_where_array",
    "C69_where_patch",
    "C69_coordinates_refuted",
    "C69_how_refuted",
    "C69_where_refuted"
   ],
   "note": "NaModel.v on top of the patch model and, for condition patches, the aligning of BinOpModel.v. C69_dropna, C69_none_left, C69_again, C69_unknown, C69_fillna, C69_full, C69_where_array, C69_where_patch. Replacements for where are scalars in the theorems. Three refuted claims: the other coordinates of the dimension are kept (they are dropped with the first label); a wrong how is refused (it means all); a condition array that fits the patch works with a patch of replacements (not if that has fewer labels)."
  },
  {
   "property": "C70",
   "status": "partial",
   "theorems": [
    "C70_febus",
    "C70_time_labels",
    "C70_both",
    "C70_file",
    "C70_time_refuted",
    "C70_both_refuted"
   ],
   "note": "C70_febus, C70_file (no time filter). C70_time_labels proves exactly what a time filter does: labels one step late (an extra step is added to the block starts). C70_both: with a distance filter as well no patch is ever returned, since the reshape uses the full channel count. Both are recorded as refuted claims: C70_time_refuted, C70_both_refuted."
  },
  {
   "property": "C71",
   "status": "partial",
   "theorems": [
    "C71_interleaved",
    "C71_chunks_partial",
    "C71_order",
    "C71_order_refuted",
    "C71_complete_refuted",
    "C71_segments_refuted"
   ],
   "note": "C71_interleaved, C71_chunks_partial, C71_order (exactly where every sample goes). Refuted: samples by chunks come back in order (C71_order_refuted), complete chunks only can be read (C71_complete_refuted: always a TypeError), a second segment is appended in time (C71_segments_refuted: it is put next to the first)."
  },
  {
   "property": "C72",
   "status": "partial",
   "theorems": [
    "C72_terra15",
    "C72_unsnapped_refuted"
   ],
   "note": "C72_terra15. Without snapping the times of an incomplete block are not sorted, and a time filter then fails with an AttributeError (C72_unsnapped_refuted)."
  },
  {
   "property": "C73",
   "status": "partial",
   "theorems": [
    "C73_read",
    "C73_no_channel_refuted",
    "C73_round_trip",
    "C73_start_refuted"
   ],
   "note": "C73_read, C73_round_trip. Refuted: an empty channel selection gives no patch (C73_no_channel_refuted: always a ValueError); times survive writing and reading (C73_start_refuted: fractions of a second are lost)."
  },
  {
   "property": "C74",
   "status": "partial",
   "theorems": [
    "C74_packets",
    "C74_whole"
   ],
   "note": "C74_packets, C74_whole. Labels and headers are not modelled."
  },
  {
   "property": "C75",
   "status": "proved",
   "theorems": [
    "C75_range",
    "C75_refused"
   ],
   "note": "C75_range, C75_refused. Data is of any type with any multiplication by a number."
  },
  {
   "property": "C76",
   "status": "partial",
   "theorems": [
    "C76_wedge_partial",
    "C76_strip_partial",
    "C76_refused",
    "C76_lost",
    "C76_short_refuted",
    "C76_order_refuted"
   ],
   "note": "C76_wedge_partial, C76_strip_partial (lines exactly parallel; those within 1e-9 of it are left out), C76_refused. C76_lost proves that crossing lines with a product of directions of at most 1e-8 mute nothing; so drawing the same wedge shorter loses it (C76_short_refuted). Numbers are read with the labels of the first two dimensions of the patch whatever dimensions are named; the theorems state it, C76_order_refuted shows the effect."
  },
  {
   "property": "C77",
   "status": "partial",
   "theorems": [
    "C77_slopes_partial",
    "C77_refused",
    "C77_flip_refuted",
    "C77_order_refuted"
   ],
   "note": "C77_slopes_partial (ranges up to 1e9; drawn segments nearly parallel or with a product above 1e-8), C77_refused. Refuted: flipping a dimension moves the origin to its other end, as the docstring says (C77_flip_refuted: nothing is muted or the mute is refused); the dimensions may be named in the other order (C77_order_refuted)."
  },
  {
   "property": "C78",
   "status": "proved",
   "theorems": [
    "C78_derivative",
    "C78_step",
    "C78_parabola",
    "C78_refused",
    "C78_integers_refuted"
   ],
   "note": "C78_derivative, C78_step, C78_parabola, C78_refused. Integer data loses its fraction with a step and only then (C78_step says so, C78_integers_refuted shows it). Exact arithmetic instead of floats; orders above 2 need another package and are not modelled."
  },
  {
   "property": "C79",
   "status": "partial",
   "theorems": [
    "C79_running_partial",
    "C79_uneven_refused",
    "C79_definite",
    "C79_refused",
    "C79_uneven_refuted",
    "C79_sign_refuted",
    "C79_integers_refuted"
   ],
   "note": "C79_running_partial (labels even, or along the last dimension, or two of them), C79_definite, C79_refused. Uneven labels along another dimension give ValueError (C79_uneven_refused), unless one less than their number is the length of the last dimension: then the widths are taken along the wrong dimension (C79_uneven_refuted). Also refuted: the definite integral goes from the smallest to the largest label (C79_sign_refuted, descending labels); the running integral ends with the definite one (C79_integers_refuted, integer data is cut). No dimension may be the beginning of a new name."
  },
  {
   "property": "C80",
   "status": "partial",
   "theorems": [
    "C80_rate",
    "C80_edgeless_partial",
    "C80_agree",
    "C80_refused",
    "C80_short"
   ],
   "note": "C80_rate, C80_edgeless_partial (integer labels whose middles are integers), C80_agree, C80_refused, C80_short. Order 2; units and warnings are left out."
  },
  {
   "property": "C81",
   "status": "proved",
   "theorems": [
    "C81_scipy",
    "C81_bottleneck",
    "C81_agree",
    "C81_refused",
    "C81_even_refuted",
    "C81_ends_refuted"
   ],
   "note": "`C81_scipy` and `C81_bottleneck` give every element of the result as the reduction of a list of elements that is described by `continued` or by plain positions; medians and extremes are given by rank in a sorted permutation, means by multiplication, standard deviations by the sum of squares. `C81_agree` is derived from equality of the two windows."
  },
  {
   "property": "C82",
   "status": "proved",
   "theorems": [
    "C82_exact",
    "C82_approximate",
    "C82_integers",
    "C82_large_integers",
    "C82_refused",
    "C82_edge_refuted",
    "C82_integers_refuted"
   ],
   "note": "`despiked` states the comparison without division; `box_medians` gives the box as an array of its own, read from the data by reflected positions, and the median by rank. The approximate variant rests on the window theorems of C81 for each dimension in turn. For integers the conversion to float32 and back is shown to be exact to 2^24."
  },
  {
   "property": "C83",
   "status": "proved",
   "theorems": [
    "C83_median",
    "C83_sobel",
    "C83_gaussian",
    "C83_savgol",
    "C83_refused",
    "C83_savgol_refuted"
   ],
   "note": "`weighted` gives every element as the sum of weights times elements of the continued line, `weighted_in_turn` chains them. `C83_savgol` says what the loop in savgol_filter does, which filters the data of the patch each time; `C83_savgol_refuted` that this is not what its documentation says."
  },
  {
   "property": "C84",
   "status": "proved",
   "theorems": [
    "C84_least_squares",
    "C84_trends_vanish",
    "C84_again",
    "C84_refused"
   ],
   "note": "`best` compares with every other line there is; the model computes slope and intercept in closed form and the proof shows no other line leaves less. `C84_trends_vanish` and `C84_again` follow from uniqueness."
  },
  {
   "property": "C85",
   "status": "proved",
   "theorems": [
    "C85_kurtosis",
    "C85_at_least_one",
    "C85_refused"
   ],
   "note": "The recursion is a loop over four running values; `fading` states the outcome as a weighted sum of everything that came before, without recursion. `C85_at_least_one` is the inequality of Pearson."
  },
  {
   "property": "C86",
   "status": "partial",
   "theorems": [
    "C86_even",
    "C86_uneven_partial",
    "C86_mirrored",
    "C86_refused",
    "C86_last_refuted",
    "C86_uneven_refuted",
    "C86_order_refuted",
    "C86_descending_refuted"
   ],
   "note": "Proved for evenly spaced channels, for unevenly spaced ones only for positive slownesses: the rows of negative slownesses are wrong there (refuted), and `C86_uneven_partial` says what they are instead; they are right when the distances are the same from both ends (`C86_mirrored`). Refuted as well: the last sample of every trace counts as nothing, data with time first is taken for its transpose, descending distances read samples from the wrong end."
  },
  {
   "property": "C87",
   "status": "proved",
   "theorems": [
    "C87_edges",
    "C87_inside",
    "C87_number",
    "C87_single",
    "C87_monotone",
    "C87_overlap_refuted"
   ],
   "note": "`cells` reads cells off the edges, so the number and order of edges are part of the statement; `middle_interval` says what the median is by ranks. Refuted: with factors below one cells overlap."
  },
  {
   "property": "C88",
   "status": "proved",
   "theorems": [
    "C88_band",
    "C88_one_sided",
    "C88_units",
    "C88_refused",
    "C88_arguments",
    "C88_ends_refuted",
    "C88_dots_refuted",
    "C88_descending_refuted",
    "C88_notch",
    "C88_notch_refused"
   ],
   "note": "The filters are not modelled, only the request. Refuted: zero and the highest frequency, which the message calls possible, raise ValueError in scipy; (..., ...) fails an assertion instead of raising FilterValueError; falling coordinates refuse every positive limit; negative notch frequencies pass the check."
  },
  {
   "property": "C89",
   "status": "partial",
   "theorems": [
    "C89_weights",
    "C89_ramps",
    "C89_accepted",
    "C89_refused",
    "C89_order_refuted",
    "C89_steep_refuted"
   ],
   "note": "Proved when the last two limits differ: otherwise elements of just that slope are NaN (refuted). Lists and tuples out of order pass the check (refuted). Units of limits and the transform itself are not modelled; the sine is any function that rises from 0 to 1."
  },
  {
   "property": "C90",
   "status": "partial",
   "theorems": [
    "C90_mesh",
    "C90_image",
    "C90_pixels",
    "C90_positions",
    "C90_refused",
    "C90_falling_refuted"
   ],
   "note": "Refuted: evenly spaced labels that fall are drawn in the wrong order, since the image always runs from the smallest label up. matplotlib is trusted to draw an image and a mesh where it is told to."
  },
  {
   "property": "C91",
   "status": "proved",
   "theorems": [
    "C91_fence",
    "C91_mean",
    "C91_range",
    "C91_absolute",
    "C91_refused",
    "C91_whole_refuted",
    "C91_order_refuted"
   ],
   "note": "Quartiles are stated by ranks. Refuted: a scale of 1.0 is not the whole range of the data as the docstring says (it is centred at the mean); a negative relative number gives reversed limits; data that is mostly the same gives equal limits."
  },
  {
   "property": "C92",
   "status": "proved",
   "theorems": [
    "C92_demean",
    "C92_demedian",
    "C92_l1",
    "C92_l2",
    "C92_max",
    "C92_bit",
    "C92_standardize",
    "C92_refused",
    "C92_refused_norm",
    "C92_finite_refuted"
   ],
   "note": "The square root is a parameter which needs to be right for the number it is taken of only. Refuted: that finite data stays finite under standardize (constant lines become NaN)."
  },
  {
   "property": "C93",
   "status": "proved",
   "theorems": [
    "C93_equals",
    "C93_other",
    "C93_self",
    "C93_symmetric",
    "C93_close",
    "C93_required",
    "C93_self_refuted",
    "C93_symmetric_refuted",
    "C93_transitive_refuted",
    "C93_units_refuted"
   ],
   "note": "Refuted: a patch equals itself (NaN in the data), equality is symmetric, equality is transitive (tolerances for coordinates), equal patches have coordinates of the same units (metres equal feet)."
  },
  {
   "property": "C94",
   "status": "proved",
   "theorems": [
    "C94_interpolate",
    "C94_kept",
    "C94_straight",
    "C94_between",
    "C94_even",
    "C94_refused"
   ],
   "note": "Linear interpolation only. The new coordinate is represented as get_coord builds it."
  },
  {
   "property": "C95",
   "status": "proved",
   "theorems": [
    "C95_map",
    "C95_entries",
    "C95_client",
    "C95_pieces",
    "C95_never_ends",
    "C95_shared_refuted",
    "C95_default_size_refuted"
   ],
   "note": "Refuted: that a client makes no difference for chunked spools, since slices of entries that share a source repeat samples; that the size is the number of processors by default, as the docstring says."
  },
  {
   "property": "C96",
   "status": "proved",
   "theorems": [
    "C96_to_table",
    "C96_of_table",
    "C96_round_trip",
    "C96_table_trip",
    "C96_named_by_attrs",
    "C96_refused",
    "C96_coords_refuted"
   ],
   "note": "Refuted: other coordinates survive. Labels of the new patch are as get_coord makes them (C10). Attributes given as PatchAttrs for a dataframe without names are not modelled: their dims is one text of which dataframe_to_patch takes the first two characters."
  },
  {
   "property": "C97",
   "status": "proved",
   "theorems": [
    "C97_registry",
    "C97_access",
    "C97_sticky",
    "C97_once",
    "C97_loads",
    "C97_warns",
    "C97_methods",
    "C97_names",
    "C97_override_refuted",
    "C97_reused_refuted"
   ],
   "note": "Refuted: a namespace a user has defined stays (the entry point of the same name replaces it on the first access), and public functions taken from another namespace class can be called (they are wrapped twice)."
  },
  {
   "property": "C98",
   "status": "proved",
   "theorems": [
    "C98_found",
    "C98_keywords",
    "C98_positional",
    "C98_implicit",
    "C98_single",
    "C98_refused",
    "C98_one_entry_refuted",
    "C98_dim_refuted"
   ],
   "note": "Refuted: the answer has one entry where one dimension is allowed (a name given twice is there twice), and a dimension called dim can be given a value."
  },
  {
   "property": "C99",
   "status": "proved",
   "theorems": [
    "C99_decides",
    "C99_sound",
    "C99_symmetric",
    "C99_self",
    "C99_reads",
    "C99_arrays_refuted"
   ],
   "note": "Objects whose == or equals is not symmetric: only that reported differences exist. Refuted: arrays of different lengths differ and equality is transitive (== broadcasts)."
  },
  {
   "property": "C100",
   "status": "proved",
   "theorems": [
    "C100_stalta",
    "C100_numbers",
    "C100_constant",
    "C100_bound",
    "C100_scaled",
    "C100_refused",
    "C100_order_refuted"
   ],
   "note": "Exact arithmetic. Refuted: a longer long-term window has more samples (lengths are rounded up to samples)."
  },
  {
   "property": "C101",
   "status": "proved",
   "theorems": [
    "C101_leaf",
    "C101_node",
    "C101_texts",
    "C101_same",
    "C101_lossless_refuted",
    "C101_lists_refuted"
   ],
   "note": "Attributes are ignored by the function and not modelled. Refuted: nothing is lost, and what is under a tag is always a list."
  },
  {
   "property": "C102",
   "status": "proved",
   "theorems": [
    "C102_result",
    "C102_refused",
    "C102_conflict",
    "C102_equal",
    "C102_order",
    "C102_history_refuted",
    "C102_defaults"
   ],
   "note": "Without a coordinate manager, as operators call it. Attribute values are those of AttrsModel.v. Refuted: the history is ignored (it decides whether missing values count as equal)."
  },
  {
   "property": "C103",
   "status": "proved",
   "theorems": [
    "C103_matches",
    "C103_matches_refused",
    "C103_extract",
    "C103_extract_refused",
    "C103_extract_ok",
    "C103_checked",
    "C103_items",
    "C103_bytes_refuted",
    "C103_arrays_refuted"
   ],
   "note": "Arrays have one dimension; addresses are keys of the file, without links or relative paths; the empty address is an address like any other. Refuted: bytes are always read as text (not in arrays of one element); attributes with more than one value can be extracted (TypeError from the lookup of replacements)."
  },
  {
   "property": "C104",
   "status": "proved",
   "theorems": [
    "C104_accepted",
    "C104_refused",
    "C104_increasing",
    "C104_names",
    "C104_name_back",
    "C104_name_back_refuted",
    "C104_water_refuted"
   ],
   "note": "The checks of whiten itself; the transforms, the taper and the sample count of the smoothing can refuse arguments too and are not modelled here. Largest frequency and step are arguments. Refuted: water levels from 0 to 1 are accepted (integers are not) and others refused (not without smoothing); names always come back."
  },
  {
   "property": "C105",
   "status": "proved",
   "theorems": [
    "C105_sigma",
    "C105_refused",
    "C105_fraction",
    "C105_negative_refuted"
   ],
   "note": "The filter itself is not modelled. Refuted: widths are not negative (numbers of samples are not checked)."
  },
  {
   "property": "C106",
   "status": "proved",
   "theorems": [
    "C106_dims",
    "C106_coords",
    "C106_inverse_dims",
    "C106_back",
    "C106_extra",
    "C106_trim",
    "C106_back_refuted",
    "C106_trim_refuted"
   ],
   "note": "Data, attributes, units and lengths are not modelled. Refuted: every stft has an inverse (latitude along distance prevents it); istft trims along the restored dimension (not after a transposition that puts time before frequency)."
  },
  {
   "property": "C107",
   "status": "proved",
   "theorems": [
    "C107_traces",
    "C107_refused",
    "C107_patch",
    "C107_stream_refused",
    "C107_empty",
    "C107_back",
    "C107_removed",
    "C107_times_refuted",
    "C107_check_refuted",
    "C107_attributes_refuted"
   ],
   "note": "Times and steps are exact; the stats ObsPy adds itself are left out; PatchConversionError is modelled as PatchError, a base of it. Refuted: all traces have the times of the patch (starts and steps are not compared, so that traces of different times get those of the last); the check refuses what cannot be converted (only patches with exactly two dimensions); attributes come back as they were (one named after the dimension is added, and calib is lost)."
  },
  {
   "property": "C108",
   "status": "proved",
   "theorems": [
    "C108_others",
    "C108_default",
    "C108_last",
    "C108_major",
    "C108_order",
    "C108_slices",
    "C108_slice",
    "C108_listed",
    "C108_assertion",
    "C108_order_refuted",
    "C108_recognised_refuted",
    "C108_sources_refuted"
   ],
   "note": "Instruments are given in the order of their names; sources in any order, as a set is gone through. Refuted: the order of sources is irrelevant (with different versions the last one counts, whichever it is); files with the fingerprint are recognised (not with an empty version, or one starting with a dot); such files have a source (instruments without any are enough)."
  }
 ]
}