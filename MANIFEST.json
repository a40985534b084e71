{
 "claims": [
  {
   "property": "C01",
   "status": "proved",
   "theorems": [
    "C01_split_m_even",
    "C01_zero_parts_raises"
   ],
   "note": "split_m as floor/remainder split; m=0 raises."
  },
  {
   "property": "C02",
   "status": "proved",
   "theorems": [
    "C02_con_concatenates",
    "C02_alt_positions",
    "C02_alt_exactly_once",
    "C02_alt_permutes",
    "C02_unknown_method",
    "C02_index_out_of_range"
   ],
   "note": "con pieces concatenate to the list, alt piece i is positions i+k*n; unknown method and bad index raise."
  },
  {
   "property": "C03",
   "status": "proved",
   "theorems": [
    "C03_owned_once",
    "C03_mpirange_partition",
    "C03_con_matches_split_local"
   ],
   "note": "split_all/split_local/partition_list_mpi/mpirange over all communicator sizes (non-negative range arguments, positive step)."
  },
  {
   "property": "C04",
   "status": "proved",
   "theorems": [
    "C04_parallel_map_is_map",
    "C04_parallel_map_root"
   ],
   "note": "collective run on any number of ranks; func is total (exceptions inside func not modelled)."
  },
  {
   "property": "C05",
   "status": "partial",
   "theorems": [
    "C05_parallel_map_rand_refuted",
    "C05_parallel_map_rand_shared_partial"
   ],
   "note": "False of the code when ranks draw different permutations (refuted); true when all ranks share one permutation."
  },
  {
   "property": "C06",
   "status": "proved",
   "theorems": [
    "C06_transpose_blocks",
    "C06_tags_distinct"
   ],
   "note": "Middle axes flattened into rows as the code does; tags shown distinct."
  },
  {
   "property": "C07",
   "status": "proved",
   "theorems": [
    "C07_unique_ordered",
    "C07_unique_ordered_set"
   ],
   "note": ""
  },
  {
   "property": "C08",
   "status": "proved",
   "theorems": [
    "C08_budget",
    "C08_never_lies",
    "C08_evicts_least_recent",
    "C08_no_needless_eviction",
    "C08_store_succeeds_iff_fits"
   ],
   "note": "caput supplies size function and budget; the cachetools loop is modelled from its published source."
  },
  {
   "property": "C09",
   "status": "partial",
   "theorems": [
    "C09_rows_written_refuted",
    "C09_always_overwrites_file_start",
    "C09_multibyte_rows_raise",
    "C09_rows_written_partial"
   ],
   "note": "False of the code (refuted): the data always overwrite the start of the file, and multi-byte items always raise. The conditional theorem covers the single case that works."
  },
  {
   "property": "C10",
   "status": "proved",
   "theorems": [
    "C10_error_bound_32",
    "C10_error_bound_64"
   ],
   "note": "Both word sizes, for all inputs for which no signed overflow (undefined in C) occurs."
  },
  {
   "property": "C11",
   "status": "proved",
   "theorems": [
    "C11_nearest_ties_even_32",
    "C11_nearest_ties_even_64",
    "C11_granularity_exists",
    "C11_zero_tolerance_identity",
    "C11_idempotent_32",
    "C11_idempotent_64"
   ],
   "note": "Granularity, nearest multiple, ties to even, identity for zero tolerance, idempotence (idempotence for |v| <= 2^30 / 2^62)."
  },
  {
   "property": "C12",
   "status": "partial",
   "theorems": [
    "C12_float_error_bound_partial",
    "C12_float_zero_tolerance_partial",
    "C12_double_error_bound_partial",
    "C12_double_zero_tolerance_partial",
    "C12_float_bound_refuted",
    "C12_double_bound_refuted",
    "C12_float_overflow_refuted"
   ],
   "note": "False of the code on one exponent band (fast_pow argument wraps) and for the top binade (rounds to infinity): refuted with witnesses. Proved for every other finite value and tolerance, single and double precision."
  },
  {
   "property": "C13",
   "status": "partial",
   "theorems": [
    "C13_weights_fallback_refuted",
    "C13_weights_nonnegative_partial",
    "C13_weights_sigma_partial",
    "C13_relative_both_signs"
   ],
   "note": "False of the code for negative values (the tolerance fallback*val is negative): refuted. Proved for non-negative tolerances and for bit_truncate_relative."
  },
  {
   "property": "C14",
   "status": "partial",
   "theorems": [
    "C14_len_slice_forward_partial",
    "C14_len_slice_iff",
    "C14_len_slice_refuted"
   ],
   "note": "False of the code for slices running backwards by a step or more (refuted); proved to be right exactly when start - stop < step."
  },
  {
   "property": "C15",
   "status": "partial",
   "theorems": [
    "C15_reslice_slice_partial",
    "C15_reslice_list",
    "C15_reslice_step_rejected",
    "C15_reslice_refuted"
   ],
   "note": "Proved for sub-slices with non-negative bounds and for index lists; sub-slices with a step raise; negative sub-slice bounds refuted."
  },
  {
   "property": "C16",
   "status": "partial",
   "theorems": [
    "C16_from_file_slice_partial",
    "C16_from_file_reversed_raises",
    "C16_from_file_list",
    "C16_from_file_refuted"
   ],
   "note": "Proved for index lists and for all slices except those running backwards by a step or more, which are shown to raise although they select nothing."
  },
  {
   "property": "C17",
   "status": "partial",
   "theorems": [
    "C17_partition_io_bounds",
    "C17_partition_io_accepts_partial",
    "C17_partition_io_rejects",
    "C17_partition_io_refuted"
   ],
   "note": "Tiling and size bound proved for every partition produced; acceptance proved for non-empty arrays; empty arrays raise (refuted). The byte threshold is an exact rational."
  },
  {
   "property": "C18",
   "status": "proved",
   "theorems": [
    "C18_global_get",
    "C18_global_set",
    "C18_global_get_int",
    "C18_global_set_int",
    "C18_expand_padding",
    "C18_expand_ellipsis"
   ],
   "note": "Any unit-step slice including negative bounds, in-range integers, ellipsis expansion. Values assigned are scalars."
  },
  {
   "property": "C19",
   "status": "partial",
   "theorems": [
    "C19_global_negative_refuted",
    "C19_global_int_ignored"
   ],
   "note": "False of the code (refuted); every negative integer shown to be ignored silently."
  },
  {
   "property": "C20",
   "status": "partial",
   "theorems": [
    "C20_global_step_refuted",
    "C20_global_step_aligned_partial",
    "C20_global_step_set_partial"
   ],
   "note": "False of the code (refuted); proved when rank offsets are in phase with the stride."
  },
  {
   "property": "C21",
   "status": "proved",
   "theorems": [
    "C21_redistribute_preserves",
    "C21_redistribute_back"
   ],
   "note": "Any shape, communicator size, and pair of distinct axes (negative names of the target included). The memory check and MPI failures are not modelled."
  },
  {
   "property": "C22",
   "status": "proved",
   "theorems": [
    "C22_step_is_permutation",
    "C22_partners_match",
    "C22_tags_agree",
    "C22_each_pair_once",
    "C22_tags_distinct"
   ],
   "note": "Schedule arithmetic of send/receive partners and tags for every size."
  },
  {
   "property": "C23",
   "status": "partial",
   "theorems": [
    "C23_allgather",
    "C23_gather_partial",
    "C23_gather_refuted"
   ],
   "note": "allgather proved. gather does not wait for the receive the root posts from itself: refuted when that message has not been delivered on return, proved when it has."
  },
  {
   "property": "C24",
   "status": "partial",
   "theorems": [
    "C24_reduce_partial",
    "C24_reduce_refuted"
   ],
   "note": "Proved for every stored axis number in 0..ndim-1 (any reduced axes, positive or negative names, keepdims or not); refuted for arrays created with a negative axis number, which the class stores unchanged."
  },
  {
   "property": "C25",
   "status": "partial",
   "theorems": [
    "C25_accumulate_partial",
    "C25_accumulate_refuted",
    "C25_accumulate_negative_missed"
   ],
   "note": "False of the code for negative axis arguments (refuted, for every one of them); proved for non-negative ones."
  },
  {
   "property": "C26",
   "status": "proved",
   "theorems": [
    "C26_getitem",
    "C26_getitem_rejects"
   ],
   "note": "Integer bounds are numpy's to check; fancy indexing is not modelled."
  },
  {
   "property": "C27",
   "status": "partial",
   "theorems": [
    "C27_reshape_accepts_partial",
    "C27_reshape_order",
    "C27_reshape_refuted"
   ],
   "note": "Exact acceptance condition proved on ranks with at least one element, order preservation proved in general; on ranks without elements refuted (division by zero with a wildcard, incompatible shapes accepted)."
  },
  {
   "property": "C28",
   "status": "proved",
   "theorems": [
    "C28_canonical",
    "C28_idempotent",
    "C28_same_path",
    "C28_relative_refused",
    "C28_extra_slashes",
    "C28_lookup_by_names"
   ],
   "note": "format_abs_path and lookup of absolute paths and names relative to a group; every string."
  },
  {
   "property": "C29",
   "status": "partial",
   "theorems": [
    "C29_tree_is_map",
    "C29_created_found",
    "C29_others_untouched",
    "C29_missing_keyerror_refuted",
    "C29_dataset_trailing_slash_refuted",
    "C29_delete_trailing_slash_refuted"
   ],
   "note": "Refinement to a map from lists of names proved for histories of calls whose names do not end in a slash; refuted otherwise (create_dataset or delete with a trailing slash), and a lookup through a dataset is not always a KeyError."
  },
  {
   "property": "C30",
   "status": "partial",
   "theorems": [
    "C30_json_roundtrip",
    "C30_json_plain",
    "C30_zarr",
    "C30_h5_partial",
    "C30_others_stay",
    "C30_h5_mixed_list_refuted",
    "C30_h5_none_refuted"
   ],
   "note": "Zarr proved for every JSON-like value (the JSON writer and parser are modelled and their round trip proved); HDF5 proved for flat lists of one kind, texts, 64-bit integers, floats, booleans and any dictionary; refuted for mixed lists and None."
  },
  {
   "property": "C31",
   "status": "partial",
   "theorems": [
    "C31_decoded_refuted",
    "C31_fails_refuted",
    "C31_tagged",
    "C31_untagged_partial"
   ],
   "note": "False of the code for every string that starts with the tag (refuted, and what happens instead characterised); proved for all others."
  },
  {
   "property": "C32",
   "status": "partial",
   "theorems": [
    "C32_copy_partial",
    "C32_memory_partial",
    "C32_subgroup_source_refuted",
    "C32_subgroup_target_refuted",
    "C32_endless_refuted"
   ],
   "note": "Proved from root to root for a target without entries of the same names (termination, every entry, attributes, nothing else touched); refuted for subgroups as source or target and for entries of empty name. Sharing of objects is not modelled."
  },
  {
   "property": "C33",
   "status": "partial",
   "theorems": [
    "C33_selected_partial",
    "C33_dropped_refuted",
    "C33_always_dropped",
    "C33_shared_refused"
   ],
   "note": "Proved in memory and for files with string conversion; false for files without it (refuted, and shown for every selection)."
  },
  {
   "property": "C34",
   "status": "partial",
   "theorems": [
    "C34_axis_zero_partial",
    "C34_one_rank_partial",
    "C34_wrong_data_refuted",
    "C34_other_axes_refuted",
    "C34_other_axes_fail"
   ],
   "note": "False of the code for axes other than 0 (refuted: wrong data or ValueError); proved for axis 0, and on one rank for axes not shorter than axis 0."
  },
  {
   "property": "C35",
   "status": "proved",
   "theorems": [
    "C35_final_name_atomic",
    "C35_lock_guards_temporary",
    "C35_success_cleans_up",
    "C35_failure_cleans_up",
    "C35_other_files_untouched",
    "C35_other_ranks"
   ],
   "note": "Rename and remove are atomic; the body writes only the temporary file. Crash points are the states between file operations."
  },
  {
   "property": "C36",
   "status": "partial",
   "theorems": [
    "C36_early_failure_partial",
    "C36_early_failure_always_wrong",
    "C36_early_failure_refuted"
   ],
   "note": "False of the code (refuted, and shown to be false whenever the temporary file does not exist and preserve is off); proved when it exists or preserve is set."
  },
  {
   "property": "C37",
   "status": "proved",
   "theorems": [
    "C37_history",
    "C37_only",
    "C37_continued",
    "C37_reserved",
    "C37_order_text",
    "C37_null",
    "C37_line",
    "C37_control",
    "C37_plain"
   ],
   "note": "Reading back gives the additions in order for every text; the text round trip of repr and literal_eval is proved for lists of strings."
  },
  {
   "property": "C38",
   "status": "partial",
   "theorems": [
    "C38_values",
    "C38_success",
    "C38_errors",
    "C38_assignment",
    "C38_empty_list_refuted"
   ],
   "note": "Values, success condition, errors and assignments proved for every hierarchy; an empty list as compare_keys disables the comparison (refuted)."
  },
  {
   "property": "C39",
   "status": "partial",
   "theorems": [
    "C39_last_given_wins",
    "C39_override_partial",
    "C39_key_refuted",
    "C39_type_refuted"
   ],
   "note": "False of the code: a parent declaration with another key or a stricter type still takes part (two refutations); the most derived declaration whose key is given wins (proved), hence the subclass if the keys agree."
  },
  {
   "property": "C40",
   "status": "partial",
   "theorems": [
    "C40_float_in_range_partial",
    "C40_nan_refuted",
    "C40_enum",
    "C40_enum_default",
    "C40_list_type_partial",
    "C40_zero_length_refuted",
    "C40_default_refuted",
    "C40_list_default_partial",
    "C40_types"
   ],
   "note": "Proved except: NaN is in every range and text that is no number is a ValueError (refuted), length limits of zero are ignored (refuted), empty list defaults are unchecked (refuted)."
  },
  {
   "property": "C41",
   "status": "proved",
   "theorems": [
    "C41_lifecycle"
   ],
   "note": "For arbitrary task behaviour, configuration and length of run."
  },
  {
   "property": "C42",
   "status": "proved",
   "theorems": [
    "C42_in_order",
    "C42_queues",
    "C42_requires"
   ],
   "note": "Prefix of what was produced at any time, the queues hold exactly the rest; also what setup receives."
  },
  {
   "property": "C43",
   "status": "proved",
   "theorems": [
    "C43_closed_last",
    "C43_nothing_lost",
    "C43_single_input",
    "C43_failures"
   ],
   "note": "Closed for lack of input only after all earlier tasks are removed; all items of the scarcest input consumed unless the task stops by itself; complete list of causes of failure."
  },
  {
   "property": "C44",
   "status": "partial",
   "theorems": [
    "C44_order_refuted"
   ],
   "note": "False of the code (refuted): with the consumer listed first the run completes, but the items produced are never delivered."
  },
  {
   "property": "C45",
   "status": "proved",
   "theorems": [
    "C45_terminates",
    "C45_cycle_never_ends"
   ],
   "note": "With producers first; a valid pipeline with a task feeding itself never ends."
  },
  {
   "property": "C46",
   "status": "partial",
   "theorems": [
    "C46_validation_partial",
    "C46_null_output_refuted"
   ],
   "note": "Proved when no out is given as null and inputs are not tuples; refuted for two tasks with a null out."
  },
  {
   "property": "C47",
   "status": "partial",
   "theorems": [
    "C47_limit_partial",
    "C47_limit_zero_refuted"
   ],
   "note": "Proved for limits of at least 1; a limit of 0 delivers one output (refuted)."
  },
  {
   "property": "C48",
   "status": "partial",
   "theorems": [
    "C48_quantile_partial",
    "C48_weighted_median",
    "C48_rejects_other_quantiles",
    "C48_zero_weight_returned_refuted"
   ],
   "note": "Median proved for every array and method; quantiles proved except length 1 with q = 1 (reads out of bounds, C49) and \"lower\" at q = 0 with zero weights (refuted: returns an element of zero weight). Values and weights are exact integers."
  },
  {
   "property": "C49",
   "status": "partial",
   "theorems": [
    "C49_single_element_refuted",
    "C49_out_of_bounds_exactly",
    "C49_median_in_bounds"
   ],
   "note": "False of the code for one element and q = 1 (refuted); shown to be the only case, and that the selection always ends."
  },
  {
   "property": "C50",
   "status": "proved",
   "theorems": [
    "C50_tree_is_balanced_ordered_multiset",
    "C50_remove_succeeds_iff_present",
    "C50_height_logarithmic"
   ],
   "note": "Any history; also removal succeeds exactly when present, and the height is logarithmic. Parent pointers are modelled by the path from the root."
  },
  {
   "property": "C51",
   "status": "proved",
   "theorems": [
    "C51_moving_median_1d",
    "C51_moving_median_2d",
    "C51_even_window_rejected",
    "C51_even_window_rejected_2d"
   ],
   "note": "One and two dimensions, any odd window sizes. Exact weights; integer data are promoted as in the code only up to the mean, given as a fraction."
  },
  {
   "property": "C52",
   "status": "partial",
   "theorems": [
    "C52_higher_refuted",
    "C52_lower_refuted",
    "C52_no_tie_1d_partial",
    "C52_no_tie_2d_partial"
   ],
   "note": "False of the code for both methods (refuted); proved when no subset of the smallest elements weighs exactly half."
  },
  {
   "property": "C53",
   "status": "partial",
   "theorems": [
    "C53_zero_windows_refuted",
    "C53_nan_after_first_partial",
    "C53_zero_in_2d",
    "C53_zero_for_single_window"
   ],
   "note": "False of the code (refuted: 0 at the first position, NaN afterwards in one dimension; always 0 in two dimensions and for windows of one element, all proved)."
  },
  {
   "property": "C54",
   "status": "partial",
   "theorems": [
    "C54_concatenate_partial",
    "C54_concatenate_disorder",
    "C54_concatenate_refuted"
   ],
   "note": "Proved for starts not below -n and bounds in order, except that an empty selection may lose the dataset; refuted otherwise (unwritten cells, ValueError, missing dataset)."
  },
  {
   "property": "C55",
   "status": "proved",
   "theorems": [
    "C55_select_time_range",
    "C55_select_then_read",
    "C55_select_nothing",
    "C55_no_bounds",
    "C55_start_only",
    "C55_stop_only"
   ],
   "note": "Also composed with read: exactly the samples in range are returned."
  },
  {
   "property": "C56",
   "status": "partial",
   "theorems": [
    "C56_names",
    "C56_order",
    "C56_most_derived_partial",
    "C56_most_derived_refuted",
    "C56_instance",
    "C56_axes",
    "C56_order_unique"
   ],
   "note": "Names, fixed order, instance specifications and axes proved for every resolution order; the most derived declaration wins if each class without its own specification continues the order; refuted for a diamond."
  },
  {
   "property": "C57",
   "status": "proved",
   "theorems": [
    "C57_selections",
    "C57_unknown_axis"
   ],
   "note": "Assumes no dataset is called index_map/... ."
  },
  {
   "property": "C58",
   "status": "partial",
   "theorems": [
    "C58_copies_partial",
    "C58_single",
    "C58_no_conversion",
    "C58_empty_list_refuted",
    "C58_array_refuted",
    "C58_again_refuted",
    "C58_other_axis_refuted",
    "C58_common_to_distributed_refuted",
    "C58_repeated_axis_refuted",
    "C58_distributed"
   ],
   "note": "Values, shapes and distribution proved for sensible selections on any number of ranks; refuted: empty list, arrays, selecting twice, selections on the distributed axis of another kind, common to distributed, repeated axes."
  },
  {
   "property": "C59",
   "status": "partial",
   "theorems": [
    "C59_none_left",
    "C59_idempotent",
    "C59_converted",
    "C59_total",
    "C59_unchanged",
    "C59_arrays",
    "C59_arrays_refuted",
    "C59_key_clash_refuted",
    "C59_namedtuple_refuted",
    "C59_namedtuple_generator_refuted"
   ],
   "note": "None left, idempotent, exact result, success and identity proved for values without named tuples; refuted: keys that become equal lose an entry, named tuples raise TypeError or come back holding a generator."
  },
  {
   "property": "C60",
   "status": "partial",
   "theorems": [
    "C60_to_unicode_partial",
    "C60_to_bytestring_partial",
    "C60_roundtrip_unicode_partial",
    "C60_roundtrip_bytestring_partial",
    "C60_shape_refuted",
    "C60_padding_refuted",
    "C60_byte_order_refuted"
   ],
   "note": "Proved for types without shapes and padding; refuted: shapes are dropped, padding becomes a field, text in the other byte order is left."
  },
  {
   "property": "C61",
   "status": "partial",
   "theorems": [
    "C61_sound",
    "C61_never_raises_partial",
    "C61_single_field_refuted"
   ],
   "note": "Every answer is right (proved); it never raises if nested compound types have two entries or more; refuted for one entry (IndexError)."
  },
  {
   "property": "C62",
   "status": "proved",
   "theorems": [
    "C62_blocks",
    "C62_blocks_unique",
    "C62_all",
    "C62_small"
   ],
   "note": ""
  },
  {
   "property": "C63",
   "status": "partial",
   "theorems": [
    "C63_accepted",
    "C63_order",
    "C63_untouched",
    "C63_documented_partial",
    "C63_no_map",
    "C63_precedence_refuted",
    "C63_no_axis_refuted"
   ],
   "note": "Acceptance, errors and precedence proved as they are; the documented precedence without both index and map; refuted: map wins over index, keys without axis are accepted."
  },
  {
   "property": "C64",
   "status": "partial",
   "theorems": [
    "C64_dealt",
    "C64_once",
    "C64_result",
    "C64_listed_twice_refuted"
   ],
   "note": "Exactly one rank, the lowest of its host, and the resulting files for every interleaving proved for lists without repetition; refuted: a container listed twice is zipped twice and fails."
  },
  {
   "property": "C65",
   "status": "partial",
   "theorems": [
    "C65_flatten_partial",
    "C65_directory",
    "C65_expanded_again_refuted",
    "C65_endless_refuted",
    "C65_subdirectory_refuted",
    "C65_filelists_partial",
    "C65_nested_refuted",
    "C65_question_mark_refuted",
    "C65_bracket_refuted",
    "C65_matches",
    "C65_found"
   ],
   "note": "Flattening proved for lists of patterns whose matches are not patterns themselves; refuted: names containing wildcards are expanded again (possibly without end), ? and [..] patterns are not expanded, nested lists fail."
  },
  {
   "property": "C66",
   "status": "partial",
   "theorems": [
    "C66_groups_partial",
    "C66_accepted_partial",
    "C66_single",
    "C66_pattern_refuted",
    "C66_no_match_refuted",
    "C66_string_refuted"
   ],
   "note": "Groups proved for patterns with * and existing names; refuted: patterns without * are rejected, patterns matching nothing are accepted beside others, a string is split into letters."
  },
  {
   "property": "C67",
   "status": "partial",
   "theorems": [
    "C67_accepted_partial",
    "C67_refused",
    "C67_names_refuted",
    "C67_default_refuted",
    "C67_class_default_refuted",
    "C67_abstract_refuted"
   ],
   "note": "None and format classes accepted, everything else refused; refuted: names are never accepted, defaults given as names fail, the abstract class is accepted."
  },
  {
   "property": "C68",
   "status": "partial",
   "theorems": [
    "C68_format",
    "C68_all_partial",
    "C68_failure",
    "C68_no_value",
    "C68_command_refuted",
    "C68_twice_refuted",
    "C68_call",
    "C68_settings"
   ],
   "note": "All combinations exactly once proved for template_run with the four settings of run_pipeline and distinct variables; refuted: the command line never runs anything, a variable given twice."
  },
  {
   "property": "C69",
   "status": "partial",
   "theorems": [
    "C69_reused_partial",
    "C69_new",
    "C69_never_partial",
    "C69_finished_partial",
    "C69_running_refuted",
    "C69_waiting_refuted",
    "C69_temporary_refuted",
    "C69_leftover_refuted",
    "C69_mail"
   ],
   "note": "Reuse characterised; never and finished jobs proved over any history without temporary directories; refuted: running and waiting jobs are resubmitted with failed, temporary directories, directories left over by a failed command."
  },
  {
   "property": "C70",
   "status": "proved",
   "theorems": [
    "C70_parts",
    "C70_written_once",
    "C70_never_twice",
    "C70_values",
    "C70_schedule",
    "C70_finishes"
   ],
   "note": "Parts, single writes, values, independence of the schedule and termination, for any generator; a call for n numbers is taken as n draws."
  },
  {
   "property": "C71",
   "status": "partial",
   "theorems": [
    "C71_invert_out_partial",
    "C71_invert_strided",
    "C71_invert_strided_refuted",
    "C71_invert_integers_refuted",
    "C71_rng_out_partial",
    "C71_rng_new",
    "C71_rng_not_contiguous",
    "C71_rng_fortran_refuted",
    "C71_rng_dtype"
   ],
   "note": "Proved for C ordered out (generators) and contiguous out of the layout of x (invert_no_zero); refuted: Fortran or strided out is returned unfilled, integers ignore out."
  },
  {
   "property": "C72",
   "status": "partial",
   "theorems": [
    "C72_elementwise_partial",
    "C72_new_array",
    "C72_integers",
    "C72_any_schedule",
    "C72_shapes",
    "C72_mixed_layouts_refuted",
    "C72_lists_refuted",
    "C72_special_values",
    "C72_divides",
    "C72_small_numbers_refuted"
   ],
   "note": "Proved for new arrays of any layout, integers, and contiguous out of the layout class of x, in any schedule and in place; refuted: mixed layouts are scrambled, lists, tiny numbers."
  },
  {
   "property": "C73",
   "status": "partial",
   "theorems": [
    "C73_terminates",
    "C73_sum_partial",
    "C73_module_refuted",
    "C73_string_slot_refuted",
    "C73_inherited_slot_refuted"
   ],
   "note": "Termination proved for every graph; the sum if no module is reached and slots are listed by name; refuted: a module in a list, a string as __slots__, inherited slots."
  },
  {
   "property": "C74",
   "status": "proved",
   "theorems": [
    "C74_exact",
    "C74_reflexive",
    "C74_symmetric",
    "C74_transitive",
    "C74_list_tuple",
    "C74_array_class",
    "C74_arrays_refuted"
   ],
   "note": "Exact, reflexive, symmetric, transitive on nested dictionaries, sequences and scalars; refuted with arrays, which the statement leaves out."
  },
  {
   "property": "C75",
   "status": "partial",
   "theorems": [
    "C75_spacing",
    "C75_spacing_refuted",
    "C75_missed_refuted",
    "C75_once_refuted",
    "C75_short_interval",
    "C75_sound_partial",
    "C75_found_partial",
    "C75_once_partial",
    "C75_skip"
   ],
   "note": "Refuted: the spacing always exceeds the step (up to twice), roots further apart than the step are missed, a root on the grid is reported twice. Proved for continuous functions: every result is a root, roots separated by twice the step are found, once if not on the grid."
  },
  {
   "property": "C76",
   "status": "partial",
   "theorems": [
    "C76_unit",
    "C76_projected",
    "C76_rotate",
    "C76_basis",
    "C76_axes",
    "C76_shape",
    "C76_shape_refuted",
    "C76_shape_error"
   ],
   "note": "Unit vectors, projection, rotations and shapes proved; refuted: the sum in place fails for arguments that broadcast together if x, dec and ha have a smaller shape."
  },
  {
   "property": "C77",
   "status": "partial",
   "theorems": [
    "C77_redistribute_negative_refuted",
    "C77_redistribute_negative_other_partial",
    "C77_redistribute_missing_axis"
   ],
   "note": "False of the code for the negative name of the current axis (refuted); proved for negative names of every other axis."
  },
  {
   "property": "C78",
   "status": "partial",
   "theorems": [
    "C78_transpose_partial",
    "C78_transpose_refuted",
    "C78_transpose_fails"
   ],
   "note": "False of the code for None and for negative names of the distributed axis (refuted); proved for no argument and for non-negative permutations."
  },
  {
   "property": "C79",
   "status": "proved",
   "theorems": [
    "C79_ufunc_call"
   ],
   "note": "Stored axis numbers in 0..ndim-1; values are numpy's."
  },
  {
   "property": "C80",
   "status": "partial",
   "theorems": [
    "C80_ranks_agree_partial",
    "C80_ranks_agree_refuted"
   ],
   "note": "False of the code (refuted: arr[0:n] with n the local length of some ranks only); proved when the index does not spell out a local length."
  },
  {
   "property": "C81",
   "status": "partial",
   "theorems": [
    "C81_own_names_distinct",
    "C81_names_private_partial",
    "C81_names_private_refuted"
   ],
   "note": "Own names distinct for every file name; disjointness for plain names without leading dot or .lock suffix; refuted in general (a and a.lock)."
  },
  {
   "property": "C82",
   "status": "partial",
   "theorems": [
    "C82_to_common_partial",
    "C82_one_rank_refuted"
   ],
   "note": "Proved for more than one rank and common array layout; with a single rank it fails with IndexError (refuted)."
  },
  {
   "property": "C83",
   "status": "partial",
   "theorems": [
    "C83_numpy_number_refuted",
    "C83_writable"
   ],
   "note": "False of the code for numpy numbers (refuted); exact set of writable values proved."
  },
  {
   "property": "C84",
   "status": "proved",
   "theorems": [
    "C84_skipped_names",
    "C84_refused"
   ],
   "note": "Root to root; also that the copy is refused otherwise."
  },
  {
   "property": "C85",
   "status": "proved",
   "theorems": [
    "C85_signatures",
    "C85_calls_fit",
    "C85_refused"
   ],
   "note": "Accepted exactly if the methods can be called; all calls of a run fit."
  },
  {
   "property": "C86",
   "status": "proved",
   "theorems": [
    "C86_choice",
    "C86_priority",
    "C86_fallback"
   ],
   "note": "For every state of the scheduler."
  },
  {
   "property": "C87",
   "status": "proved",
   "theorems": [
    "C87_complete"
   ],
   "note": "For every completed run."
  },
  {
   "property": "C88",
   "status": "partial",
   "theorems": [
    "C88_counts_partial",
    "C88_single_key_refuted"
   ],
   "note": "Proved for two or more keys; with one key the surplus items are dropped silently (refuted)."
  },
  {
   "property": "C89",
   "status": "partial",
   "theorems": [
    "C89_levels",
    "C89_upper",
    "C89_idempotent",
    "C89_unknown_level",
    "C89_wrong_kind_refuted"
   ],
   "note": "Proved, except that a value of another kind raises AttributeError (refuted)."
  },
  {
   "property": "C90",
   "status": "partial",
   "theorems": [
    "C90_memory",
    "C90_shared_refuted"
   ],
   "note": "Proved for property objects declared in one place; refuted for one object used under two names."
  },
  {
   "property": "C91",
   "status": "partial",
   "theorems": [
    "C91_tables",
    "C91_others",
    "C91_class_unchanged_refuted",
    "C91_class_unchanged",
    "C91_select_refuted"
   ],
   "note": "Datasets and axes of tables proved; refuted: the class specification changes when an instance is created, selections on table axes are rejected."
  },
  {
   "property": "C92",
   "status": "partial",
   "theorems": [
    "C92_visits",
    "C92_axis_partial",
    "C92_axis_refuted",
    "C92_bound"
   ],
   "note": "Visits proved for every tree; axis choice proved except for integers below minus the number of dimensions (refuted)."
  },
  {
   "property": "C93",
   "status": "partial",
   "theorems": [
    "C93_axes",
    "C93_missing",
    "C93_created",
    "C93_datasets",
    "C93_skipped",
    "C93_copied_partial",
    "C93_not_copied",
    "C93_unknown_ignored",
    "C93_stretched_refuted",
    "C93_transposed_refuted"
   ],
   "note": "Axes, errors, initialised datasets, chunks and copies of equal shape proved; refuted: a source of length one is stretched, a source with axes in another order is copied untransposed."
  },
  {
   "property": "C94",
   "status": "partial",
   "theorems": [
    "C94_tags",
    "C94_documented_refuted",
    "C94_distinct_refuted"
   ],
   "note": "Given tags and positions from zero proved; refuted: the documented count from one, distinctness."
  },
  {
   "property": "C95",
   "status": "partial",
   "theorems": [
    "C95_one_job",
    "C95_in_turn",
    "C95_waits_partial",
    "C95_nothing_refuted",
    "C95_others_hang_refuted",
    "C95_name"
   ],
   "note": "One job per container in turn over the hosts, names and the outcome of waiting on a rank proved; refuted: nothing to wait for raises TypeError, a failed job leaves the other ranks at a barrier."
  },
  {
   "property": "C96",
   "status": "proved",
   "theorems": [
    "C96_in_order",
    "C96_fails",
    "C96_stem",
    "C96_combinations",
    "C96_hidden"
   ],
   "note": "Also the error when a file cannot be read."
  },
  {
   "property": "C97",
   "status": "partial",
   "theorems": [
    "C97_in_turn_partial",
    "C97_by_label",
    "C97_empty_refuted",
    "C97_same_label_refuted"
   ],
   "note": "In turn and by label proved; refuted: no file gives ZeroDivisionError, of two files with one label the first is never used."
  },
  {
   "property": "C98",
   "status": "partial",
   "theorems": [
    "C98_names",
    "C98_distinct_partial",
    "C98_overwritten_refuted"
   ],
   "note": "Names proved; distinct if all are untagged or tags are distinct; refuted: a tag equal to a running number overwrites."
  },
  {
   "property": "C99",
   "status": "partial",
   "theorems": [
    "C99_guess",
    "C99_check",
    "C99_requested_refuted",
    "C99_default_refuted"
   ],
   "note": "Detection and agreement proved; refuted: some requests contradicting the name, and the default."
  },
  {
   "property": "C100",
   "status": "partial",
   "theorems": [
    "C100_spellings",
    "C100_stable",
    "C100_none",
    "C100_both",
    "C100_missing_refuted",
    "C100_zarr_to_hdf5_refuted",
    "C100_gzip_refuted"
   ],
   "note": "Spellings, stability and absence proved; refuted: missing options, zarr to HDF5, gzip."
  },
  {
   "property": "C101",
   "status": "partial",
   "theorems": [
    "C101_variables",
    "C101_attributes",
    "C101_tag_partial",
    "C101_untagged_refuted"
   ],
   "note": "Variables, formatted attributes and tags proved; refuted: an untagged first input gives the tag None instead of the count."
  },
  {
   "property": "C102",
   "status": "partial",
   "theorems": [
    "C102_numbered_partial",
    "C102_inputs_partial",
    "C102_untagged_refuted",
    "C102_two_outputs_refuted",
    "C102_each_partial"
   ],
   "note": "Numbers for tasks without inputs and tags of inputs proved; refuted: untagged inputs, two outputs of one call."
  },
  {
   "property": "C103",
   "status": "partial",
   "theorems": [
    "C103_agree_partial",
    "C103_skipped",
    "C103_passed",
    "C103_compound_refuted",
    "C103_pair_refuted"
   ],
   "note": "Detection in numeric datasets, agreement, skipping and passing proved; refuted: compound datasets, one output of several is replaced by None."
  },
  {
   "property": "C104",
   "status": "partial",
   "theorems": [
    "C104_finish",
    "C104_next",
    "C104_error_refuted",
    "C104_empty_refuted",
    "C104_count",
    "C104_order"
   ],
   "note": "Order, counting and the error of finish proved; refuted: next gives AttributeError, an empty tuple IndexError."
  },
  {
   "property": "C105",
   "status": "partial",
   "theorems": [
    "C105_setup",
    "C105_process",
    "C105_extra_refuted",
    "C105_none_refuted"
   ],
   "note": "Dealing out and composition proved; refuted: surplus arguments are ignored, a subtask without output does not stop the group."
  },
  {
   "property": "C106",
   "status": "partial",
   "theorems": [
    "C106_levels",
    "C106_names",
    "C106_lower_refuted"
   ],
   "note": "Refuted: lower case names are rejected."
  },
  {
   "property": "C107",
   "status": "partial",
   "theorems": [
    "C107_registered",
    "C107_clusters",
    "C107_no_section",
    "C107_register",
    "C107_unknown_refuted",
    "C107_optional_refuted",
    "C107_partly_refuted"
   ],
   "note": "Acceptance, clusters and registration proved; refuted: unknown systems give UnboundLocalError, the documented optional system is required, a faulty file is registered in part."
  },
  {
   "property": "C108",
   "status": "partial",
   "theorems": [
    "C108_slurm_partial",
    "C108_values",
    "C108_pbs_refuted",
    "C108_required_refuted",
    "C108_memory_refuted",
    "C108_arguments_refuted"
   ],
   "note": "Proved for SLURM with values of the right kinds, and the values used for every system; refuted: PBS never gives a script, its required keys do not suffice, numbers as memory, default launcher arguments are ignored."
  },
  {
   "property": "C109",
   "status": "partial",
   "theorems": [
    "C109_modules",
    "C109_options",
    "C109_venv",
    "C109_null_refuted"
   ],
   "note": "Modules and environment proved; refuted: an empty environment gives TypeError."
  },
  {
   "property": "C110",
   "status": "partial",
   "theorems": [
    "C110_first",
    "C110_added",
    "C110_directory_partial",
    "C110_directory_refuted"
   ],
   "note": "Order of sys.path proved; refuted: the directory for Python 3.10 and later."
  },
  {
   "property": "C111",
   "status": "partial",
   "theorems": [
    "C111_parameters_partial",
    "C111_result_partial",
    "C111_direct",
    "C111_broadcast",
    "C111_endpoint_refuted",
    "C111_positional_out_refuted",
    "C111_out_none_refuted",
    "C111_size_and_out_refuted",
    "C111_poisson_refuted"
   ],
   "note": "Parameters, size, out and type proved for calls without positional out and endpoint; refuted: these two, out=None, size next to out, type of Poisson samples."
  },
  {
   "property": "C112",
   "status": "partial",
   "theorems": [
    "C112_refused",
    "C112_result",
    "C112_default_partial",
    "C112_step_refuted"
   ],
   "note": "Interval, refusals and default step proved (sampling at least every quarter); refuted: a negative or zero step is accepted."
  },
  {
   "property": "C113",
   "status": "partial",
   "theorems": [
    "C113_direction",
    "C113_domain",
    "C113_inverse_partial",
    "C113_below",
    "C113_inverse_refuted"
   ],
   "note": "Direction, domain and inverse above the horizon proved; refuted below the horizon."
  },
  {
   "property": "C114",
   "status": "partial",
   "theorems": [
    "C114_to_cart",
    "C114_round",
    "C114_inverse",
    "C114_zero_refuted",
    "C114_integers_refuted"
   ],
   "note": "Both directions proved; refuted: the zero vector, arrays of integers."
  },
  {
   "property": "C115",
   "status": "proved",
   "theorems": [
    "C115_angle",
    "C115_symmetric",
    "C115_zero"
   ],
   "note": "Over the real numbers."
  },
  {
   "property": "C116",
   "status": "partial",
   "theorems": [
    "C116_points",
    "C116_antipodal",
    "C116_same",
    "C116_same_refuted"
   ],
   "note": "Proved for different points that are not antipodal; refuted: equal points give NaN."
  },
  {
   "property": "C117",
   "status": "proved",
   "theorems": [
    "C117_basis",
    "C117_growing",
    "C117_agree",
    "C117_dot"
   ],
   "note": "Over the real numbers."
  },
  {
   "property": "C118",
   "status": "partial",
   "theorems": [
    "C118_cosine",
    "C118_contiguous",
    "C118_copy_refuted",
    "C118_slice_refuted",
    "C118_pairs",
    "C118_zero_refuted"
   ],
   "note": "cosine_rule and contiguous arrays proved in any schedule; refuted: arrays that need a copy are left as they were, slices are refused, zero vectors become NaN."
  },
  {
   "property": "C119",
   "status": "partial",
   "theorems": [
    "C119_one_formula",
    "C119_values",
    "C119_arrays",
    "C119_sequences_refuted"
   ],
   "note": "Choice and values proved for numbers and arrays; refuted: lists and tuples give only the first element."
  },
  {
   "property": "C120",
   "status": "partial",
   "theorems": [
    "C120_derivative_partial",
    "C120_zero_refuted"
   ],
   "note": "Proved for the exact functions and z other than 0; refuted: NaN at 0."
  },
  {
   "property": "C121",
   "status": "partial",
   "theorems": [
    "C121_error",
    "C121_second_refuted"
   ],
   "note": "Refuted: jl_d2 differs from the second derivative; the difference is determined exactly."
  },
  {
   "property": "C122",
   "status": "partial",
   "theorems": [
    "C122_exact",
    "C122_prefix",
    "C122_errors",
    "C122_unit_refuted",
    "C122_any_refuted"
   ],
   "note": "Values and errors determined exactly; refuted: units with an underscore in their name take no prefix, any two constants are accepted as prefix and unit."
  },
  {
   "property": "C123",
   "status": "proved",
   "theorems": [
    "C123_number",
    "C123_checked"
   ],
   "note": "For any clock that differs from UNIX time by whole leap seconds; otherwise the check to a hundredth of a second."
  },
  {
   "property": "C124",
   "status": "partial",
   "theorems": [
    "C124_found",
    "C124_result",
    "C124_first",
    "C124_error",
    "C124_leap_refuted"
   ],
   "note": "Proved for uniform rotation and every time that exists in UNIX time; the error for any other rotation is determined; refuted: angles that occur during a leap second are missed by one second of rotation."
  },
  {
   "property": "C125",
   "status": "partial",
   "theorems": [
    "C125_zero",
    "C125_turns",
    "C125_count",
    "C125_far_refuted"
   ],
   "note": "Proved for 4e11 seconds around day zero with uniform rotation, and for any rotation within half a day of the mean; refuted for arbitrarily distant times."
  },
  {
   "property": "C126",
   "status": "proved",
   "theorems": [
    "C126_time",
    "C126_inverse"
   ],
   "note": "For 4e11 seconds around day zero, uniform rotation, at most one leap second in two days and fewer than 500 in all."
  },
  {
   "property": "C127",
   "status": "proved",
   "theorems": [
    "C127_epoch",
    "C127_next_day",
    "C127_time_of_day",
    "C127_inverse",
    "C127_nearest"
   ],
   "note": "Numbers are rational."
  },
  {
   "property": "C128",
   "status": "partial",
   "theorems": [
    "C128_text",
    "C128_inverse",
    "C128_instant",
    "C128_zone_refuted",
    "C128_year_refuted",
    "C128_format_refuted"
   ],
   "note": "Proved for years from 1000 in UTC; refuted: other time zones are marked as UTC, earlier years cannot be read back, shorter texts are accepted."
  },
  {
   "property": "C129",
   "status": "partial",
   "theorems": [
    "C129_remainder",
    "C129_datetime",
    "C129_utc",
    "C129_array",
    "C129_empty_refuted"
   ],
   "note": "Proved for at least one time; refuted: no times at all give ValueError."
  },
  {
   "property": "C130",
   "status": "partial",
   "theorems": [
    "C130_numbers",
    "C130_datetimes",
    "C130_texts",
    "C130_mixed",
    "C130_single",
    "C130_shape_refuted",
    "C130_scalar_refuted"
   ],
   "note": "Proved for single times, lists and numbers of any shape; refuted: datetimes in several dimensions, arrays without dimension."
  },
  {
   "property": "C131",
   "status": "partial",
   "theorems": [
    "C131_call",
    "C131_error",
    "C131_empty",
    "C131_pointwise",
    "C131_zero_refuted",
    "C131_keywords_refuted",
    "C131_listize",
    "C131_listize_refuted",
    "C131_vectorize"
   ],
   "note": "Proved for positional arguments; refuted: arrays without dimension, calls with keyword arguments only, lists given by keyword."
  },
  {
   "property": "C132",
   "status": "partial",
   "theorems": [
    "C132_angles",
    "C132_pairs",
    "C132_single",
    "C132_empty_refuted"
   ],
   "note": "Proved for one or more elements; refuted: no angles with one time give AttributeError."
  },
  {
   "property": "C133",
   "status": "proved",
   "theorems": [
    "C133_one_state",
    "C133_state",
    "C133_set_up"
   ],
   "note": "For every configuration and run."
  },
  {
   "property": "C134",
   "status": "proved",
   "theorems": [
    "C134_chain",
    "C134_every_run",
    "C134_tuple_taken_apart"
   ],
   "note": "For every chain; that tuples are taken apart is shown beside it."
  },
  {
   "property": "C135",
   "status": "proved",
   "theorems": [
    "C135_valid",
    "C135_error",
    "C135_no_internal_error"
   ],
   "note": "Validation characterised; the internal errors excluded where IterBase has names for its outputs."
  },
  {
   "property": "C136",
   "status": "proved",
   "theorems": [
    "C136_reads",
    "C136_writes",
    "C136_names_differ",
    "C136_stops",
    "C136_failure"
   ],
   "note": "For every list of names and behaviour."
  },
  {
   "property": "C137",
   "status": "proved",
   "theorems": [
    "C137_once",
    "C137_pipeline_input"
   ],
   "note": "For every configuration and behaviour."
  },
  {
   "property": "C138",
   "status": "partial",
   "theorems": [
    "C138_no_directory",
    "C138_current_directory_refuted",
    "C138_group_never",
    "C138_group_refuted",
    "C138_container"
   ],
   "note": "Proved for containers (exactly when they are written); refuted: an output path without directory always fails, and GroupIOMixin never writes anything (NameError)."
  },
  {
   "property": "C139",
   "status": "partial",
   "theorems": [
    "C139_endless_refuted",
    "C139_none_item_refuted"
   ],
   "note": "Refuted: an item None makes SingleBase read a file called None; IterBase without input never stops."
  },
  {
   "property": "C140",
   "status": "proved",
   "theorems": [
    "C140_transform",
    "C140_inverse",
    "C140_functions",
    "C140_axes",
    "C140_which"
   ],
   "note": "For every shape and choice of axes, over the real numbers."
  },
  {
   "property": "C141",
   "status": "proved",
   "theorems": [
    "C141_circular",
    "C141_function",
    "C141_one_axis",
    "C141_symmetric"
   ],
   "note": "For every shape and choice of axes, over the real numbers."
  },
  {
   "property": "C142",
   "status": "partial",
   "theorems": [
    "C142_padded",
    "C142_linear_refuted"
   ],
   "note": "Refuted (the result is circular); proved for inputs padded with enough zeros."
  },
  {
   "property": "C143",
   "status": "proved",
   "theorems": [
    "C143_window",
    "C143_function",
    "C143_ones",
    "C143_twice",
    "C143_convolve"
   ],
   "note": "For every shape, choice of axes and window."
  },
  {
   "property": "C144",
   "status": "partial",
   "theorems": [
    "C144_errors",
    "C144_dtype",
    "C144_documented_refuted",
    "C144_initialised_refuted"
   ],
   "note": "Errors characterised; refuted: RuntimeError is raised where AttributeError is documented, also for arguments without a shape."
  },
  {
   "property": "C145",
   "status": "proved",
   "theorems": [
    "C145_weights",
    "C145_other_axis"
   ],
   "note": "For every number of axes."
  },
  {
   "property": "C146",
   "status": "proved",
   "theorems": [
    "C146_config",
    "C146_preset",
    "C146_chosen"
   ],
   "note": "For all settings and specifications."
  },
  {
   "property": "C147",
   "status": "proved",
   "theorems": [
    "C147_weighted",
    "C147_complex",
    "C147_fixed"
   ],
   "note": "With the bound of the truncation functions (C12, C13) as hypothesis."
  },
  {
   "property": "C148",
   "status": "partial",
   "theorems": [
    "C148_order_refuted",
    "C148_text_refuted",
    "C148_instance_refuted"
   ],
   "note": "Refuted in each case, with witnesses."
  },
  {
   "property": "C149",
   "status": "proved",
   "theorems": [
    "C149_channels",
    "C149_inside",
    "C149_delay",
    "C149_short"
   ],
   "note": "For every size, over the real numbers."
  },
  {
   "property": "C150",
   "status": "proved",
   "theorems": [
    "C150_profile",
    "C150_normalised",
    "C150_evaluate"
   ],
   "note": "For every size, over the real numbers; splines are a parameter."
  },
  {
   "property": "C151",
   "status": "partial",
   "theorems": [
    "C151_cached_refuted"
   ],
   "note": "Refuted: the spline of the first call is kept, whatever its norm."
  },
  {
   "property": "C152",
   "status": "proved",
   "theorems": [
    "C152_value",
    "C152_odd"
   ],
   "note": "For every size, over the real numbers."
  },
  {
   "property": "C153",
   "status": "partial",
   "theorems": [
    "C153_exact_partial",
    "C153_correlation_refuted",
    "C153_odd_refuted"
   ],
   "note": "Proved for windows whose alternating sum is zero; refuted otherwise (the last term of the spectrum is counted twice), and for odd numbers of points."
  },
  {
   "property": "C154",
   "status": "proved",
   "theorems": [
    "C154_names",
    "C154_width"
   ],
   "note": "For every number of ranks."
  },
  {
   "property": "C155",
   "status": "partial",
   "theorems": [
    "C155_default_partial",
    "C155_path_refuted",
    "C155_psutil_refuted"
   ],
   "note": "Proved without a path; refuted: Profiler ignores it and PSUtilProfiler fails with AttributeError."
  },
  {
   "property": "C156",
   "status": "proved",
   "theorems": [
    "C156_value",
    "C156_shown"
   ],
   "note": "For every number of bytes; numbers are rational."
  },
  {
   "property": "C157",
   "status": "partial",
   "theorems": [
    "C157_below_refuted",
    "C157_below_partial"
   ],
   "note": "Proved up to 1024.0 itself; refuted: 1048575 bytes are shown as 1024.0KiB."
  },
  {
   "property": "C158",
   "status": "proved",
   "theorems": [
    "C158_row",
    "C158_missing",
    "C158_table",
    "C158_off",
    "C158_order"
   ],
   "note": "For any number of blocks and all readings with the usual fields."
  },
  {
   "property": "C159",
   "status": "partial",
   "theorems": [
    "C159_header_refuted",
    "C159_peak_refuted"
   ],
   "note": "Refuted: a switched off profiler started by hand writes rows without header; the peak does not include the end."
  },
  {
   "property": "C160",
   "status": "proved",
   "theorems": [
    "C160_usage",
    "C160_not_entered"
   ],
   "note": "For all counters."
  },
  {
   "property": "C161",
   "status": "proved",
   "theorems": [
    "C161_exchange",
    "C161_verdict"
   ],
   "note": "For every number of ranks."
  },
  {
   "property": "C162",
   "status": "partial",
   "theorems": [
    "C162_sound_partial",
    "C162_late_refuted",
    "C162_timeout_refuted"
   ],
   "note": "Proved that a passed test means messages in time; refuted: messages arriving after the last look, timeouts that are not positive."
  },
  {
   "property": "C163",
   "status": "proved",
   "theorems": [
    "C163_ranks",
    "C163_names",
    "C163_repeat",
    "C163_value",
    "C163_classes"
   ],
   "note": "Different on all ranks for class names of up to 256 characters, or with a sum of characters below 65520; the number itself (checksum as in RFC 1950) for every name."
  },
  {
   "property": "C164",
   "status": "partial",
   "theorems": [
    "C164_classes_refuted",
    "C164_attribute_refuted",
    "C164_configured_partial"
   ],
   "note": "Proved for configured seeds; refuted: classes with the same checksum, seeds set on the instance."
  },
  {
   "property": "C165",
   "status": "proved",
   "theorems": [
    "C165_nodes",
    "C165_answers",
    "C165_alone"
   ],
   "note": "For every job."
  },
  {
   "property": "C166",
   "status": "partial",
   "theorems": [
    "C166_share_refuted",
    "C166_idle_refuted",
    "C166_zero_refuted",
    "C166_share_partial"
   ],
   "note": "Proved with at least as many machines as processes on each; refuted: the quotient taken is the number of machines, not of processes on a machine."
  },
  {
   "property": "C167",
   "status": "proved",
   "theorems": [
    "C167_shared",
    "C167_process",
    "C167_global"
   ],
   "note": "For every job in which all processes can tell their memory."
  },
  {
   "property": "C168",
   "status": "partial",
   "theorems": [
    "C168_scope_refuted",
    "C168_scope_partial",
    "C168_answers_refuted",
    "C168_answers_partial"
   ],
   "note": "Proved with MPI and readable memory; refuted: unknown scopes are accepted without MPI, and a process that cannot read its memory leaves the others waiting."
  },
  {
   "property": "C169",
   "status": "proved",
   "theorems": [
    "C169_no_group",
    "C169_root",
    "C169_limit",
    "C169_errors"
   ],
   "note": "For all contents of the files in the stated form."
  },
  {
   "property": "C170",
   "status": "partial",
   "theorems": [
    "C170_v2_refuted",
    "C170_joined_refuted",
    "C170_unlimited_refuted",
    "C170_negative_refuted",
    "C170_machine_partial"
   ],
   "note": "Refuted: limits of groups of version 2 and of joined controllers are not seen, groups without a limit exceed the machine, a missing limit counts as zero."
  },
  {
   "property": "C171",
   "status": "proved",
   "theorems": [
    "C171_decision",
    "C171_record",
    "C171_again"
   ],
   "note": "For all filters and records."
  },
  {
   "property": "C172",
   "status": "proved",
   "theorems": [
    "C172_targets",
    "C172_released"
   ],
   "note": "For every number of processes."
  },
  {
   "property": "C173",
   "status": "partial",
   "theorems": [
    "C173_root_refuted",
    "C173_stuck"
   ],
   "note": "Refuted: without process 0 in the list nobody is released."
  },
  {
   "property": "C174",
   "status": "proved",
   "theorems": [
    "C174_dotted",
    "C174_local",
    "C174_only"
   ],
   "note": "For all names and modules."
  },
  {
   "property": "C175",
   "status": "partial",
   "theorems": [
    "C175_name_refuted",
    "C175_section_refuted",
    "C175_group_refuted",
    "C175_version_refuted",
    "C175_name_partial",
    "C175_section_partial",
    "C175_spec_partial",
    "C175_missing_partial"
   ],
   "note": "Proved for names with a dot, sections that are not mappings, unknown keys, missing types and groups; refuted: single names and a missing section are KeyErrors, empty groups TypeErrors, missing versions AttributeErrors."
  },
  {
   "property": "C176",
   "status": "proved",
   "theorems": [
    "C176_params",
    "C176_global"
   ],
   "note": "For all specifications whose groups are mappings."
  },
  {
   "property": "C177",
   "status": "partial",
   "theorems": [
    "C177_inline_refuted",
    "C177_none_refuted",
    "C177_line_partial"
   ],
   "note": "Proved for parameters given by name and mappings that have lines (C396: loaded ones have none); refuted: with inline or no parameters the line is lost, because a number is passed where a mapping is expected."
  },
  {
   "property": "C178",
   "status": "partial",
   "theorems": [
    "C178_pattern_refuted",
    "C178_default_partial"
   ],
   "note": "Proved for the default; refuted: the pattern is compiled before the configuration is read."
  },
  {
   "property": "C179",
   "status": "proved",
   "theorems": [
    "C179_configured",
    "C179_default"
   ],
   "note": "For all configured levels."
  },
  {
   "property": "C180",
   "status": "partial",
   "theorems": [
    "C180_lint_refuted",
    "C180_lint_partial"
   ],
   "note": "Proved with configured levels; refuted without: the level is set on a copy of the default."
  },
  {
   "property": "C181",
   "status": "proved",
   "theorems": [
    "C181_versions",
    "C181_other"
   ],
   "note": "For all lists of modules."
  },
  {
   "property": "C182",
   "status": "proved",
   "theorems": [
    "C182_keys",
    "C182_spec"
   ],
   "note": "For all mappings."
  },
  {
   "property": "C183",
   "status": "partial",
   "theorems": [
    "C183_both_refuted",
    "C183_unknown_refuted",
    "C183_same_partial"
   ],
   "note": "Refuted: only the same key in both is refused."
  },
  {
   "property": "C184",
   "status": "proved",
   "theorems": [
    "C184_format",
    "C184_hdf5",
    "C184_serial",
    "C184_zarr"
   ],
   "note": "For all shapes, axes from 0, orders of the ranks and compatible datasets; with MPI-IO for arrays that can be cut to the limit and are not empty (C17)."
  },
  {
   "property": "C185",
   "status": "proved",
   "theorems": [
    "C185_hdf5",
    "C185_zarr",
    "C185_no_selection",
    "C185_axis"
   ],
   "note": "For all readable selections; HDF5 with MPI-IO for arrays that can be cut."
  },
  {
   "property": "C186",
   "status": "proved",
   "theorems": [
    "C186_hdf5",
    "C186_serial",
    "C186_zarr"
   ],
   "note": "For every pair of numbers of ranks and of axes, under the conditions of C184 and C185."
  },
  {
   "property": "C187",
   "status": "proved",
   "theorems": [
    "C187_refused",
    "C187_error",
    "C187_stored"
   ],
   "note": "For all datasets."
  },
  {
   "property": "C188",
   "status": "proved",
   "theorems": [
    "C188_refused",
    "C188_own"
   ],
   "note": "For all arrays that can be cut."
  },
  {
   "property": "C189",
   "status": "partial",
   "theorems": [
    "C189_refuted",
    "C189_serial"
   ],
   "note": "Refuted: without MPI in h5py the compression (and the chunks) are dropped."
  },
  {
   "property": "C190",
   "status": "partial",
   "theorems": [
    "C190_argument",
    "C190_refuted",
    "C190_world",
    "C190_read"
   ],
   "note": "Proved for reading; refuted for writing: the communicator is passed as use_mpi and COMM_WORLD is used."
  },
  {
   "property": "C191",
   "status": "partial",
   "theorems": [
    "C191_refuted",
    "C191_selection"
   ],
   "note": "Refuted: the selection is put on the first axis."
  },
  {
   "property": "C192",
   "status": "partial",
   "theorems": [
    "C192_refuted",
    "C192_used"
   ],
   "note": "Refuted: it is used exactly where the axis is positive."
  },
  {
   "property": "C193",
   "status": "partial",
   "theorems": [
    "C193_distinct",
    "C193_plain",
    "C193_refuted"
   ],
   "note": "Proved distinct, and beside the store for names without directory; refuted with directories."
  },
  {
   "property": "C194",
   "status": "proved",
   "theorems": [
    "C194_roundtrip",
    "C194_format",
    "C194_not_ascii"
   ],
   "note": "For all trees with distinct names whose datasets can be written and read in the sense of C184 and C185."
  },
  {
   "property": "C195",
   "status": "proved",
   "theorems": [
    "C195_hints",
    "C195_none"
   ],
   "note": "For all trees."
  },
  {
   "property": "C196",
   "status": "partial",
   "theorems": [
    "C196_refuted"
   ],
   "note": "Refuted: to_file does not pass hints on."
  },
  {
   "property": "C197",
   "status": "proved",
   "theorems": [
    "C197_distribute",
    "C197_axis"
   ],
   "note": "For all datasets whose selection can be read (C185)."
  },
  {
   "property": "C198",
   "status": "partial",
   "theorems": [
    "C198_refuted"
   ],
   "note": "Refuted: only a positive hint of the caller counts."
  },
  {
   "property": "C199",
   "status": "partial",
   "theorems": [
    "C199_refuted"
   ],
   "note": "Refuted: neither common nor distributed datasets are given it."
  },
  {
   "property": "C200",
   "status": "partial",
   "theorems": [
    "C200_refuted",
    "C200_zarr_refuted"
   ],
   "note": "Refuted: with HDF5 and with zarr unicode is refused by to_file; only the common datasets are converted."
  },
  {
   "property": "C201",
   "status": "partial",
   "theorems": [
    "C201_refuted"
   ],
   "note": "Refuted: the whole dataset is taken with a slice, which an array without axes does not accept."
  },
  {
   "property": "C202",
   "status": "proved",
   "theorems": [
    "C202_same",
    "C202_common"
   ],
   "note": "For all files."
  },
  {
   "property": "C203",
   "status": "proved",
   "theorems": [
    "C203_iteration"
   ],
   "note": "For all trees whose names are not empty and have no slash."
  },
  {
   "property": "C204",
   "status": "proved",
   "theorems": [
    "C204_datasets",
    "C204_hidden"
   ],
   "note": "For all trees and names."
  },
  {
   "property": "C205",
   "status": "proved",
   "theorems": [
    "C205_refused",
    "C205_container",
    "C205_wrong_kind",
    "C205_wrong_kind_dataset",
    "C205_base"
   ],
   "note": "For all trees, names and rules."
  },
  {
   "property": "C206",
   "status": "proved",
   "theorems": [
    "C206_created"
   ],
   "note": "For all containers and accepted names that are not empty."
  },
  {
   "property": "C207",
   "status": "partial",
   "theorems": [
    "C207_refuted"
   ],
   "note": "Refuted by the empty name."
  },
  {
   "property": "C208",
   "status": "partial",
   "theorems": [
    "C208_create_refuted",
    "C208_require_refuted",
    "C208_partial"
   ],
   "note": "Refuted: create_dataset and require_dataset replace a group of that name; proved for all histories without such calls."
  },
  {
   "property": "C209",
   "status": "partial",
   "theorems": [
    "C209_refuted"
   ],
   "note": "Refuted: datasets create the groups above them."
  },
  {
   "property": "C210",
   "status": "partial",
   "theorems": [
    "C210_refuted",
    "C210_partial"
   ],
   "note": "Refuted for names that are not in the usual form; proved for the others."
  },
  {
   "property": "C211",
   "status": "proved",
   "theorems": [
    "C211_closed",
    "C211_opened",
    "C211_ondisk",
    "C211_in_memory",
    "C211_read"
   ],
   "note": "For all arguments."
  },
  {
   "property": "C212",
   "status": "partial",
   "theorems": [
    "C212_refuted"
   ],
   "note": "Refuted: not if the format is given; the condition on the format is the wrong way round."
  },
  {
   "property": "C213",
   "status": "proved",
   "theorems": [
    "C213_distributed",
    "C213_refused",
    "C213_kept"
   ],
   "note": "For all groups and communicators."
  },
  {
   "property": "C214",
   "status": "partial",
   "theorems": [
    "C214_refuted"
   ],
   "note": "Refuted by a distributed group in a named file."
  },
  {
   "property": "C215",
   "status": "proved",
   "theorems": [
    "C215_class",
    "C215_caller",
    "C215_other",
    "C215_not_a_string"
   ],
   "note": "For all importable classes without NUL in their names and not starting with the tag for JSON."
  },
  {
   "property": "C216",
   "status": "partial",
   "theorems": [
    "C216_refuted"
   ],
   "note": "Refuted: a class recorded before is not replaced."
  },
  {
   "property": "C217",
   "status": "partial",
   "theorems": [
    "C217_refuted"
   ],
   "note": "Refuted: UnboundLocalError after the warning."
  },
  {
   "property": "C218",
   "status": "proved",
   "theorems": [
    "C218_arguments"
   ],
   "note": "For all arguments."
  },
  {
   "property": "C219",
   "status": "partial",
   "theorems": [
    "C219_refuted"
   ],
   "note": "Refuted: dropped without warning when MemDiskGroup reads and detects the class."
  },
  {
   "property": "C220",
   "status": "proved",
   "theorems": [
    "C220_memory"
   ],
   "note": "For all combinations."
  },
  {
   "property": "C221",
   "status": "partial",
   "theorems": [
    "C221_mode_refuted",
    "C221_conversion_refuted",
    "C221_readonly_refuted"
   ],
   "note": "Refuted three times: mode, conversions and format, and read-only sources."
  },
  {
   "property": "C222",
   "status": "partial",
   "theorems": [
    "C222_refuted",
    "C222_kept"
   ],
   "note": "Refuted: all ranks remove it, since the communicator is looked up in the store."
  },
  {
   "property": "C223",
   "status": "partial",
   "theorems": [
    "C223_refuted"
   ],
   "note": "Refuted: only groups in memory and names are accepted."
  },
  {
   "property": "C224",
   "status": "proved",
   "theorems": [
    "C224_all",
    "C224_parents"
   ],
   "note": "For all trees with absolute names."
  },
  {
   "property": "C225",
   "status": "partial",
   "theorems": [
    "C225_refuted"
   ],
   "note": "Refuted: the names compared have no slash, the names of entries have."
  },
  {
   "property": "C226",
   "status": "proved",
   "theorems": [
    "C226_names"
   ],
   "note": "For all containers with distinct names."
  },
  {
   "property": "C227",
   "status": "proved",
   "theorems": [
    "C227_index"
   ],
   "note": "For all compatible containers and bounds in order, output in memory."
  },
  {
   "property": "C228",
   "status": "proved",
   "theorems": [
    "C228_datasets"
   ],
   "note": "For all compatible containers and bounds in order, output in memory or on disk."
  },
  {
   "property": "C229",
   "status": "partial",
   "theorems": [
    "C229_refuted",
    "C229_never"
   ],
   "note": "Refuted: they are written to arrays that were just read; no cell is ever filled."
  },
  {
   "property": "C230",
   "status": "partial",
   "theorems": [
    "C230_scalar",
    "C230_refuted"
   ],
   "note": "Refuted: mappings are overwritten with resolved bounds; proved for numbers."
  },
  {
   "property": "C231",
   "status": "partial",
   "theorems": [
    "C231_refuted"
   ],
   "note": "Refuted: AttributeError for tuples."
  },
  {
   "property": "C232",
   "status": "partial",
   "theorems": [
    "C232_refuted"
   ],
   "note": "Refuted: the history is dropped."
  },
  {
   "property": "C233",
   "status": "partial",
   "theorems": [
    "C233_refuted"
   ],
   "note": "Refuted: they come from the first container that contributes."
  },
  {
   "property": "C234",
   "status": "partial",
   "theorems": [
    "C234_refuted",
    "C234_partial"
   ],
   "note": "Refuted by datasets in groups; proved for those in the root."
  },
  {
   "property": "C235",
   "status": "partial",
   "theorems": [
    "C235_refuted",
    "C235_partial"
   ],
   "note": "Refuted if the format is not given; proved if HDF5 is given."
  },
  {
   "property": "C236",
   "status": "proved",
   "theorems": [
    "C236_files",
    "C236_reader"
   ],
   "note": "For all file systems and arguments."
  },
  {
   "property": "C237",
   "status": "proved",
   "theorems": [
    "C237_datasets",
    "C237_time"
   ],
   "note": "For all selections."
  },
  {
   "property": "C238",
   "status": "proved",
   "theorems": [
    "C238_between",
    "C238_even",
    "C238_centred"
   ],
   "note": "For all times with two samples or more, in rational numbers."
  },
  {
   "property": "C239",
   "status": "partial",
   "theorems": [
    "C239_refuted",
    "C239_partial"
   ],
   "note": "Refuted by one sample that is not centred; proved for two or more."
  },
  {
   "property": "C240",
   "status": "proved",
   "theorems": [
    "C240_disorder"
   ],
   "note": "For all containers and bounds."
  },
  {
   "property": "C241",
   "status": "proved",
   "theorems": [
    "C241_handles_are_names"
   ],
   "note": "For all programs."
  },
  {
   "property": "C242",
   "status": "proved",
   "theorems": [
    "C242_single_process"
   ],
   "note": "For all programs."
  },
  {
   "property": "C243",
   "status": "proved",
   "theorems": [
    "C243_redistribute",
    "C243_removed",
    "C243_common"
   ],
   "note": "For all states."
  },
  {
   "property": "C244",
   "status": "partial",
   "theorems": [
    "C244_stale_refuted"
   ],
   "note": "Refuted for every number of processes but one."
  },
  {
   "property": "C245",
   "status": "partial",
   "theorems": [
    "C245_axis_refuted"
   ],
   "note": "Refuted for every number of processes."
  },
  {
   "property": "C246",
   "status": "partial",
   "theorems": [
    "C246_copy_redistribute_refuted",
    "C246_copy_of_stored_partial"
   ],
   "note": "Refuted for copies of looked-up datasets; proved for copies of stored ones."
  },
  {
   "property": "C247",
   "status": "proved",
   "theorems": [
    "C247_settings_kept"
   ],
   "note": "For all programs."
  },
  {
   "property": "C248",
   "status": "proved",
   "theorems": [
    "C248_settings_of_lookups"
   ],
   "note": "For all programs."
  },
  {
   "property": "C249",
   "status": "partial",
   "theorems": [
    "C249_settings_on_lookup_refuted"
   ],
   "note": "Refuted: the view has settings of its own."
  },
  {
   "property": "C250",
   "status": "proved",
   "theorems": [
    "C250_chunks_setter"
   ],
   "note": "For all shapes."
  },
  {
   "property": "C251",
   "status": "proved",
   "theorems": [
    "C251_ensure_chunked",
    "C251_short"
   ],
   "note": "For all specifications with distinct names."
  },
  {
   "property": "C252",
   "status": "proved",
   "theorems": [
    "C252_compression_off"
   ],
   "note": "For all outputs without sub-groups."
  },
  {
   "property": "C253",
   "status": "partial",
   "theorems": [
    "C253_compression_off_groups",
    "C253_compression_off_any_refuted"
   ],
   "note": "Refuted: ValueError whenever there is a dataset in a sub-group."
  },
  {
   "property": "C254",
   "status": "proved",
   "theorems": [
    "C254_compression_given",
    "C254_compression_on"
   ],
   "note": "For all configurations of datasets in the root."
  },
  {
   "property": "C255",
   "status": "partial",
   "theorems": [
    "C255_short_name_replaced_refuted"
   ],
   "note": "Refuted: the assignment goes to a view."
  },
  {
   "property": "C256",
   "status": "proved",
   "theorems": [
    "C256_same_in_hdf5",
    "C256_same_in_zarr"
   ],
   "note": "For all options."
  },
  {
   "property": "C257",
   "status": "proved",
   "theorems": [
    "C257_equality"
   ],
   "note": "For all states whose attribute dictionaries have distinct keys."
  },
  {
   "property": "C258",
   "status": "proved",
   "theorems": [
    "C258_copy_equal",
    "C258_other_root"
   ],
   "note": "For all states."
  },
  {
   "property": "C259",
   "status": "proved",
   "theorems": [
    "C259_len",
    "C259_len_one_process"
   ],
   "note": "For all shapes."
  },
  {
   "property": "C260",
   "status": "partial",
   "theorems": [
    "C260_len_is_length_refuted"
   ],
   "note": "Refuted with two processes."
  },
  {
   "property": "C261",
   "status": "proved",
   "theorems": [
    "C261_parts",
    "C261_refused",
    "C261_ranks_agree"
   ],
   "note": "For all inputs, any number of ranks."
  },
  {
   "property": "C262",
   "status": "proved",
   "theorems": [
    "C262_parts",
    "C262_refused"
   ],
   "note": "For all reductions; a reduction without neutral element needs non-empty axes."
  },
  {
   "property": "C263",
   "status": "proved",
   "theorems": [
    "C263_parts",
    "C263_refused"
   ],
   "note": "For all accumulations along other axes."
  },
  {
   "property": "C264",
   "status": "partial",
   "theorems": [
    "C264_refuted"
   ],
   "note": "Refuted: accepted with local sums."
  },
  {
   "property": "C265",
   "status": "proved",
   "theorems": [
    "C265_vector",
    "C265_allreduce",
    "C265_refused"
   ],
   "note": "For all arrays; with a neutral element, or on ranks that have elements."
  },
  {
   "property": "C266",
   "status": "proved",
   "theorems": [
    "C266_out",
    "C266_plain"
   ],
   "note": "For all inputs and outputs of elementwise operations."
  },
  {
   "property": "C267",
   "status": "partial",
   "theorems": [
    "C267_refuted"
   ],
   "note": "Refuted: an array with more axes than the inputs."
  },
  {
   "property": "C268",
   "status": "partial",
   "theorems": [
    "C268_refuted"
   ],
   "note": "Refuted: accepted on the ranks whose local length it has."
  },
  {
   "property": "C269",
   "status": "partial",
   "theorems": [
    "C269_refuted",
    "C269_reduce_refuted"
   ],
   "note": "Refuted: wrong axis in the result, and reductions over the distributed axis."
  },
  {
   "property": "C270",
   "status": "proved",
   "theorems": [
    "C270_none",
    "C270_different"
   ],
   "note": "For all inputs."
  },
  {
   "property": "C271",
   "status": "partial",
   "theorems": [
    "C271_refuted"
   ],
   "note": "Refuted: None then a communicator is accepted, the reverse is not."
  },
  {
   "property": "C272",
   "status": "partial",
   "theorems": [
    "C272_refuted"
   ],
   "note": "Refuted: TypeError."
  },
  {
   "property": "C273",
   "status": "partial",
   "theorems": [
    "C273_refuted"
   ],
   "note": "Refuted: ValueError on ranks without elements only."
  },
  {
   "property": "C274",
   "status": "proved",
   "theorems": [
    "C274_transpose"
   ],
   "note": "For all permutations."
  },
  {
   "property": "C275",
   "status": "partial",
   "theorems": [
    "C275_refuted"
   ],
   "note": "Refuted: the axis stays where it was."
  },
  {
   "property": "C276",
   "status": "proved",
   "theorems": [
    "C276_whole",
    "C276_local",
    "C276_refused"
   ],
   "note": "For all basic indices."
  },
  {
   "property": "C277",
   "status": "proved",
   "theorems": [
    "C277_wrap",
    "C277_uneven",
    "C277_copy"
   ],
   "note": "For all arrays."
  },
  {
   "property": "C278",
   "status": "proved",
   "theorems": [
    "C278_unsupported"
   ],
   "note": "For all inputs."
  },
  {
   "property": "C279",
   "status": "proved",
   "theorems": [
    "C279_expressions"
   ],
   "note": "For all expressions."
  },
  {
   "property": "C280",
   "status": "proved",
   "theorems": [
    "C280_hour_angle"
   ],
   "note": "For all times."
  },
  {
   "property": "C281",
   "status": "proved",
   "theorems": [
    "C281_transits",
    "C281_number"
   ],
   "note": "For all bodies whose hour angle grows by less than half a turn in two steps (with the default step: less than 450 degrees a day)."
  },
  {
   "property": "C282",
   "status": "partial",
   "theorems": [
    "C282_once_partial",
    "C282_refuted"
   ],
   "note": "Refuted: a transit on the grid is listed twice, also with the default step; proved when none is on the grid."
  },
  {
   "property": "C283",
   "status": "partial",
   "theorems": [
    "C283_refuted"
   ],
   "note": "Refuted: two transits a day apart, step 0.9 days, nothing found."
  },
  {
   "property": "C284",
   "status": "proved",
   "theorems": [
    "C284_full_turn"
   ],
   "note": "As C281."
  },
  {
   "property": "C285",
   "status": "proved",
   "theorems": [
    "C285_sidereal_time"
   ],
   "note": "As C281; for conversions of time that undo each other."
  },
  {
   "property": "C286",
   "status": "proved",
   "theorems": [
    "C286_declination"
   ],
   "note": "For all intervals and steps."
  },
  {
   "property": "C287",
   "status": "proved",
   "theorems": [
    "C287_rise_set"
   ],
   "note": "For all bodies with continuous altitude."
  },
  {
   "property": "C288",
   "status": "partial",
   "theorems": [
    "C288_alternate_partial",
    "C288_refuted"
   ],
   "note": "Proved when no point of the grid is exactly on the horizon; refuted otherwise: a rising is listed twice."
  },
  {
   "property": "C289",
   "status": "proved",
   "theorems": [
    "C289_horizon",
    "C289_which"
   ],
   "note": "For all intervals."
  },
  {
   "property": "C290",
   "status": "partial",
   "theorems": [
    "C290_refuted"
   ],
   "note": "Refuted: the location from the first question is kept."
  },
  {
   "property": "C291",
   "status": "proved",
   "theorems": [
    "C291_asked"
   ],
   "note": "For all observers."
  },
  {
   "property": "C292",
   "status": "proved",
   "theorems": [
    "C292_refused"
   ],
   "note": "For all intervals and positive steps."
  },
  {
   "property": "C293",
   "status": "proved",
   "theorems": [
    "C293_samples"
   ],
   "note": "For all windows."
  },
  {
   "property": "C294",
   "status": "proved",
   "theorems": [
    "C294_linear"
   ],
   "note": "For oversampling from 3."
  },
  {
   "property": "C295",
   "status": "partial",
   "theorems": [
    "C295_even_partial",
    "C295_refuted"
   ],
   "note": "Refuted for oversampling 2; proved from 3."
  },
  {
   "property": "C296",
   "status": "proved",
   "theorems": [
    "C296_outside"
   ],
   "note": "For all delays."
  },
  {
   "property": "C297",
   "status": "proved",
   "theorems": [
    "C297_gather"
   ],
   "note": "Given that the root has received its own message (C23)."
  },
  {
   "property": "C298",
   "status": "partial",
   "theorems": [
    "C298_layout_refuted",
    "C298_fortran",
    "C298_every_other_layout",
    "C298_strided"
   ],
   "note": "Refuted: arrays in Fortran order (a transpose) arrive with their elements in another order, without error; exactly which one, and that every layout but C order is wrong for some data or refused, is proved."
  },
  {
   "property": "C299",
   "status": "proved",
   "theorems": [
    "C299_compound",
    "C299_refused"
   ],
   "note": "Given that the root has received its own message (C23)."
  },
  {
   "property": "C300",
   "status": "proved",
   "theorems": [
    "C300_allgather"
   ],
   "note": ""
  },
  {
   "property": "C301",
   "status": "proved",
   "theorems": [
    "C301_gather_local"
   ],
   "note": ""
  },
  {
   "property": "C302",
   "status": "partial",
   "theorems": [
    "C302_layout_refuted",
    "C302_refused"
   ],
   "note": "Refuted: in an array in Fortran order they are put elsewhere; other layouts raise ValueError, compound types KeyError."
  },
  {
   "property": "C303",
   "status": "proved",
   "theorems": [
    "C303_one_outcome"
   ],
   "note": ""
  },
  {
   "property": "C304",
   "status": "proved",
   "theorems": [
    "C304_redistributions"
   ],
   "note": "Every rank takes the path for two ranks or more; exceptions are results of local computations here."
  },
  {
   "property": "C305",
   "status": "proved",
   "theorems": [
    "C305_transpose"
   ],
   "note": ""
  },
  {
   "property": "C306",
   "status": "proved",
   "theorems": [
    "C306_gather_local",
    "C306_to_common"
   ],
   "note": ""
  },
  {
   "property": "C307",
   "status": "proved",
   "theorems": [
    "C307_check"
   ],
   "note": "The time limit of the check is not modelled."
  },
  {
   "property": "C308",
   "status": "proved",
   "theorems": [
    "C308_gather"
   ],
   "note": ""
  },
  {
   "property": "C309",
   "status": "partial",
   "theorems": [
    "C309_own_part_refuted"
   ],
   "note": "Refuted: when the library copies the message of the root to itself, its send is complete before the message has been received, and the array is read too early (C23)."
  },
  {
   "property": "C310",
   "status": "proved",
   "theorems": [
    "C310_samples",
    "C310_a_sinc",
    "C310_peak",
    "C310_zeros",
    "C310_mirror",
    "C310_bound"
   ],
   "note": "In exact arithmetic; NumPy gets 1 at the peak as the quotient of two tiny numbers."
  },
  {
   "property": "C311",
   "status": "proved",
   "theorems": [
    "C311_samples",
    "C311_single",
    "C311_ends",
    "C311_between"
   ],
   "note": "In exact arithmetic."
  },
  {
   "property": "C312",
   "status": "partial",
   "theorems": [
    "C312_symmetric_refuted"
   ],
   "note": "Refuted: two taps of two samples."
  },
  {
   "property": "C313",
   "status": "proved",
   "theorems": [
    "C313_once",
    "C313_timescale",
    "C313_ephemeris",
    "C313_reload",
    "C313_path"
   ],
   "note": "Loaded objects are taken to be true; warnings and texts of errors are left out."
  },
  {
   "property": "C314",
   "status": "partial",
   "theorems": [
    "C314_reload_refuted",
    "C314_first"
   ],
   "note": "Refuted: what was loaded before stays in use; data not loaded before are loaded after it."
  },
  {
   "property": "C315",
   "status": "proved",
   "theorems": [
    "C315_instant",
    "C315_back"
   ],
   "note": "That the date of a Julian day is the Gregorian one is taken from Skyfield; the way back is for any datetimes within a given error."
  },
  {
   "property": "C316",
   "status": "proved",
   "theorems": [
    "C316_direction"
   ],
   "note": "For all latitudes."
  },
  {
   "property": "C317",
   "status": "proved",
   "theorems": [
    "C317_to_disk",
    "C317_back",
    "C317_stay",
    "C317_returned"
   ],
   "note": "That saving and loading keep the contents is C30, C32 and C33."
  },
  {
   "property": "C318",
   "status": "partial",
   "theorems": [
    "C318_mode_refuted"
   ],
   "note": "Refuted: mode=\"w\" empties the file that was just written, mode=\"x\" raises after writing it."
  },
  {
   "property": "C319",
   "status": "partial",
   "theorems": [
    "C319_copy_refuted",
    "C319_never",
    "C319_zarr",
    "C319_inside"
   ],
   "note": "Refuted: HDF5 files are opened for reading, so it never succeeds; proved for zarr."
  },
  {
   "property": "C320",
   "status": "partial",
   "theorems": [
    "C320_to_memory_refuted",
    "C320_h5",
    "C320_attribute"
   ],
   "note": "Refuted for zarr stores and for groups inside files, which have no file name; proved for HDF5 files."
  },
  {
   "property": "C321",
   "status": "proved",
   "theorems": [
    "C321_gone",
    "C321_ends",
    "C321_goes_on"
   ],
   "note": "Directories of files; all processes list them in the same order; no files are added meanwhile."
  },
  {
   "property": "C322",
   "status": "proved",
   "theorems": [
    "C322_each",
    "C322_combinations",
    "C322_never",
    "C322_shared"
   ],
   "note": "Linting, loading and resolving a configuration are a parameter."
  },
  {
   "property": "C323",
   "status": "proved",
   "theorems": [
    "C323_no_endless_run",
    "C323_one_end"
   ],
   "note": "What a collective call does is taken from the standard of MPI."
  },
  {
   "property": "C324",
   "status": "proved",
   "theorems": [
    "C324_wrap"
   ],
   "note": "Every rank has the axis; one that has not raises before the first call."
  },
  {
   "property": "C325",
   "status": "proved",
   "theorems": [
    "C325_allreduce"
   ],
   "note": "The order of combination is that of the ranks."
  },
  {
   "property": "C326",
   "status": "partial",
   "theorems": [
    "C326_uneven",
    "C326_refuted"
   ],
   "note": "Refuted: ranks with one element wait for ever for those that raised; proved for every uneven distribution."
  },
  {
   "property": "C327",
   "status": "proved",
   "theorems": [
    "C327_all_fit",
    "C327_none_fits"
   ],
   "note": "available_memory_shared is a parameter."
  },
  {
   "property": "C328",
   "status": "partial",
   "theorems": [
    "C328_mixed",
    "C328_unreadable",
    "C328_refuted"
   ],
   "note": "Refuted: with enough memory on one node only its ranks wait for ever, and so does everybody if one rank of a node cannot read its memory."
  },
  {
   "property": "C329",
   "status": "proved",
   "theorems": [
    "C329_no_exception",
    "C329_handler"
   ],
   "note": "For the methods con and alt, as in C01-C10 rand needs the same permutation on all ranks."
  },
  {
   "property": "C330",
   "status": "partial",
   "theorems": [
    "C330_waits",
    "C330_refuted"
   ],
   "note": "Refuted: the ranks without exception wait for ever."
  },
  {
   "property": "C331",
   "status": "proved",
   "theorems": [
    "C331_nan_check"
   ],
   "note": "Finite or not is a parameter for each dataset."
  },
  {
   "property": "C332",
   "status": "proved",
   "theorems": [
    "C332_next_task"
   ],
   "note": "If no rank has available tasks the ranks do not talk: they agree if their managers do."
  },
  {
   "property": "C333",
   "status": "partial",
   "theorems": [
    "C333_refuted"
   ],
   "note": "Refuted: a rank without available tasks runs its next one while the others wait for the broadcast."
  },
  {
   "property": "C334",
   "status": "proved",
   "theorems": [
    "C334_written",
    "C334_refused"
   ],
   "note": "Writing one distributed dataset is one collective operation here; the data are in C194-C202."
  },
  {
   "property": "C335",
   "status": "partial",
   "theorems": [
    "C335_waits",
    "C335_refuted"
   ],
   "note": "Refuted: the other ranks wait for ever for rank 0."
  },
  {
   "property": "C336",
   "status": "proved",
   "theorems": [
    "C336_same_tree"
   ],
   "note": "Reading one distributed dataset is one collective operation here; the data are in C194-C202."
  },
  {
   "property": "C337",
   "status": "partial",
   "theorems": [
    "C337_waits",
    "C337_refuted"
   ],
   "note": "Refuted: the other ranks wait for ever for rank 0."
  },
  {
   "property": "C338",
   "status": "proved",
   "theorems": [
    "C338_written",
    "C338_missing"
   ],
   "note": "That zarr with a synchroniser writes parts independently is taken from zarr."
  },
  {
   "property": "C339",
   "status": "proved",
   "theorems": [
    "C339_written",
    "C339_one_at_a_time"
   ],
   "note": "Polling of ranks is waiting until its turn comes."
  },
  {
   "property": "C340",
   "status": "partial",
   "theorems": [
    "C340_waits",
    "C340_refuted"
   ],
   "note": "Refuted: rank 0 raises FileNotFoundError and the others poll for ever."
  },
  {
   "property": "C341",
   "status": "proved",
   "theorems": [
    "C341_moved_when_complete",
    "C341_never_half",
    "C341_failure"
   ],
   "note": "Renaming is one step, as in POSIX."
  },
  {
   "property": "C342",
   "status": "partial",
   "theorems": [
    "C342_left_over",
    "C342_refuted"
   ],
   "note": "Refuted: of two ranks without communicator one can find the temporary file gone; and if a rank other than 0 fails, rank 0 waits for ever and the temporary and lock files stay."
  },
  {
   "property": "C343",
   "status": "proved",
   "theorems": [
    "C343_pipeline_of_ranks"
   ],
   "note": "Shape: None, an object, tuples and lists of such; exceptions may differ.  Methods without actions on shared files."
  },
  {
   "property": "C344",
   "status": "proved",
   "theorems": [
    "C344_as_alone",
    "C344_single"
   ],
   "note": "On a single rank without any condition on the tasks."
  },
  {
   "property": "C345",
   "status": "partial",
   "theorems": [
    "C345_hang_refuted",
    "C345_mixed_refuted"
   ],
   "note": "Refuted: rank 0 is sent ahead to the collective call of the next task while the other rank waits in the choice of the task; or items of different calls are added up."
  },
  {
   "property": "C346",
   "status": "proved",
   "theorems": [
    "C346_float",
    "C346_double"
   ],
   "note": "The product is rounded as IEEE 754 says (Flocq)."
  },
  {
   "property": "C347",
   "status": "proved",
   "theorems": [
    "C347_float",
    "C347_double"
   ],
   "note": ""
  },
  {
   "property": "C348",
   "status": "proved",
   "theorems": [
    "C348_float",
    "C348_double"
   ],
   "note": "The function 1/sqrt of the processor is given; inverse variances below zero are not covered."
  },
  {
   "property": "C349",
   "status": "proved",
   "theorems": [
    "C349_order",
    "C349_refused",
    "C349_scalar"
   ],
   "note": ""
  },
  {
   "property": "C350",
   "status": "proved",
   "theorems": [
    "C350_row"
   ],
   "note": "cabs of the C library is given; the bound is in terms of its result."
  },
  {
   "property": "C351",
   "status": "partial",
   "theorems": [
    "C351_relative_refuted"
   ],
   "note": "Refuted: a NaN becomes 0."
  },
  {
   "property": "C352",
   "status": "partial",
   "theorems": [
    "C352_zero_refuted",
    "C352_nan_refuted",
    "C352_large_refuted"
   ],
   "note": "Refuted: the parts are rounded to floats even with precision 0; a NaN in the real part makes the imaginary part 0; 1e200 becomes 0."
  },
  {
   "property": "C353",
   "status": "proved",
   "theorems": [
    "C353_float",
    "C353_special"
   ],
   "note": "Arithmetic as IEEE 754 says (Flocq); the second rounding does no harm."
  },
  {
   "property": "C354",
   "status": "proved",
   "theorems": [
    "C354_double",
    "C354_special"
   ],
   "note": ""
  },
  {
   "property": "C355",
   "status": "partial",
   "theorems": [
    "C355_refuted",
    "C355_finite_partial"
   ],
   "note": "Refuted: the inverses of 2^-1024 and -2^-1024 are infinite; all others are finite."
  },
  {
   "property": "C356",
   "status": "proved",
   "theorems": [
    "C356_new_array",
    "C356_new_array_double"
   ],
   "note": ""
  },
  {
   "property": "C357",
   "status": "proved",
   "theorems": [
    "C357_exact",
    "C357_close",
    "C357_zero"
   ],
   "note": ""
  },
  {
   "property": "C358",
   "status": "proved",
   "theorems": [
    "C358_double",
    "C358_special",
    "C358_float"
   ],
   "note": "The quotient of complex doubles is given."
  },
  {
   "property": "C359",
   "status": "partial",
   "theorems": [
    "C359_refuted",
    "C359_nonzero_partial"
   ],
   "note": "Refuted: ZeroDivisionError, since 1.0 / x is evaluated first. Others: proved up to 2^53 for ints and above 2^-1024 for floats."
  },
  {
   "property": "C360",
   "status": "proved",
   "theorems": [
    "C360_inverse",
    "C360_nearest"
   ],
   "note": "CPython as described in DESIGN.md; arithmetic as IEEE 754 says (Flocq)."
  },
  {
   "property": "C361",
   "status": "partial",
   "theorems": [
    "C361_refuted",
    "C361_last_refuted",
    "C361_close_partial"
   ],
   "note": "Refuted: from 2242-03-16 on some microseconds come back as others, and the last microsecond of 9999 raises ValueError. Moved by at most 15 microseconds in the years 2 to 9998."
  },
  {
   "property": "C362",
   "status": "partial",
   "theorems": [
    "C362_close_partial",
    "C362_refuted",
    "C362_special"
   ],
   "note": "Refuted by 2.5e-06; at most half a microsecond and 1e-12 s away."
  },
  {
   "property": "C363",
   "status": "proved",
   "theorems": [
    "C363_number",
    "C363_datetime"
   ],
   "note": ""
  },
  {
   "property": "C364",
   "status": "proved",
   "theorems": [
    "C364_any_arithmetic",
    "C364_doubles",
    "C364_one",
    "C364_exact_instance"
   ],
   "note": "Reads of arrays are checked in the model; the arithmetic is a parameter of the theorem."
  },
  {
   "property": "C365",
   "status": "partial",
   "theorems": [
    "C365_one_element_refuted"
   ],
   "note": "Refuted: infinite weight, NaN, or the smallest double with the quantile 0.75 read outside the array."
  },
  {
   "property": "C366",
   "status": "proved",
   "theorems": [
    "C366_exact_weights",
    "C366_integer_weights"
   ],
   "note": "Doubles as in IEEE 754 (Flocq)."
  },
  {
   "property": "C367",
   "status": "partial",
   "theorems": [
    "C367_rounded_sums_refuted"
   ],
   "note": "Refuted by the values 1, 2, 3 with the weights 2^53, 1, 2^53: the answer is 5/2 instead of 2."
  },
  {
   "property": "C368",
   "status": "proved",
   "theorems": [
    "C368_rounded_sums"
   ],
   "note": "Doubles as in IEEE 754 (Flocq)."
  },
  {
   "property": "C369",
   "status": "proved",
   "theorems": [
    "C369_exact_1d",
    "C369_exact_2d"
   ],
   "note": "Doubles as in IEEE 754 (Flocq)."
  },
  {
   "property": "C370",
   "status": "partial",
   "theorems": [
    "C370_null_pointer_refuted"
   ],
   "note": "Refuted by the values 1, 2, 3 with the weights 0.9, 0.4, 0.5 and the window 5, for every method. C369 gives weights with which it holds."
  },
  {
   "property": "C371",
   "status": "partial",
   "theorems": [
    "C371_nan_refuted"
   ],
   "note": "Refuted: a NaN with weight can make the removal from the tree raise RuntimeError."
  },
  {
   "property": "C372",
   "status": "proved",
   "theorems": [
    "C372_any_finite"
   ],
   "note": "A null pointer is an error of the model."
  },
  {
   "property": "C373",
   "status": "partial",
   "theorems": [
    "C373_overflow_refuted"
   ],
   "note": "Refuted: the sum of the two medians overflows."
  },
  {
   "property": "C374",
   "status": "proved",
   "theorems": [
    "C374_low",
    "C374_high"
   ],
   "note": "Real numbers."
  },
  {
   "property": "C375",
   "status": "partial",
   "theorems": [
    "C375_small_refuted"
   ],
   "note": "Refuted by the order 1 and an argument near 7e-7: more than a tenth too small, because of the term missing from C374. Real numbers."
  },
  {
   "property": "C376",
   "status": "proved",
   "theorems": [
    "C376_values",
    "C376_scalar",
    "C376_check"
   ],
   "note": ""
  },
  {
   "property": "C377",
   "status": "partial",
   "theorems": [
    "C377_compound_refuted"
   ],
   "note": "Refuted: the fields of compound types, whose own byte order is \"|\"."
  },
  {
   "property": "C378",
   "status": "proved",
   "theorems": [
    "C378_ranks",
    "C378_get",
    "C378_set"
   ],
   "note": ""
  },
  {
   "property": "C379",
   "status": "proved",
   "theorems": [
    "C379_lists"
   ],
   "note": "What the code does with lists, which the documentation does not describe; see C65 for the flattening that is documented."
  },
  {
   "property": "C380",
   "status": "proved",
   "theorems": [
    "C380_any_finite_2d"
   ],
   "note": "A null pointer is an error of the model."
  },
  {
   "property": "C381",
   "status": "proved",
   "theorems": [
    "C381_pattern",
    "C381_errors"
   ],
   "note": ""
  },
  {
   "property": "C382",
   "status": "proved",
   "theorems": [
    "C382_pieces"
   ],
   "note": ""
  },
  {
   "property": "C383",
   "status": "proved",
   "theorems": [
    "C383_stages"
   ],
   "note": ""
  },
  {
   "property": "C384",
   "status": "partial",
   "theorems": [
    "C384_refuted"
   ],
   "note": "Refuted by a first group without samples: its result has no dataset along that axis, so the dataset is dropped from the second result. C383 is the case with samples."
  },
  {
   "property": "C385",
   "status": "proved",
   "theorems": [
    "C385_units"
   ],
   "note": "Exact numbers."
  },
  {
   "property": "C386",
   "status": "proved",
   "theorems": [
    "C386_reverse",
    "C386_transpose"
   ],
   "note": "Exact numbers."
  },
  {
   "property": "C387",
   "status": "partial",
   "theorems": [
    "C387_refuted"
   ],
   "note": "Refuted: a first window without weight gives 0, a last one NaN. C386 is the case with weight."
  },
  {
   "property": "C388",
   "status": "proved",
   "theorems": [
    "C388_float",
    "C388_double",
    "C388_weights_float",
    "C388_weights_double"
   ],
   "note": "The same ranges as in C12 and C348."
  },
  {
   "property": "C389",
   "status": "partial",
   "theorems": [
    "C389_refuted",
    "C389_double_refuted"
   ],
   "note": "Refuted for both formats: the tolerance of the rounded value can be above a power of two when that of the value is below. C388 is the case of a fixed tolerance."
  },
  {
   "property": "C390",
   "status": "proved",
   "theorems": [
    "C390_no_axis",
    "C390_several",
    "C390_all"
   ],
   "note": "What numpy does with several axes is part of the model."
  },
  {
   "property": "C391",
   "status": "partial",
   "theorems": [
    "C391_refuted"
   ],
   "note": "Refuted: each rank accumulates its own elements only, since None is not equal to the distributed axis. C264 is the same with a negative axis."
  },
  {
   "property": "C392",
   "status": "proved",
   "theorems": [
    "C392_float",
    "C392_double"
   ],
   "note": "What the code does with numbers whose exponent is too small for it; see C393."
  },
  {
   "property": "C393",
   "status": "partial",
   "theorems": [
    "C393_refuted"
   ],
   "note": "Refuted: the number is returned as it is. C392 says where; in the other range C12 and C348 apply."
  },
  {
   "property": "C394",
   "status": "proved",
   "theorems": [
    "C394_ascii",
    "C394_escapes"
   ],
   "note": "Characters below 256."
  },
  {
   "property": "C395",
   "status": "proved",
   "theorems": [
    "C395_mapping",
    "C395_text",
    "C395_loaded"
   ],
   "note": "That PyYAML copies the result of construct_mapping into a new dictionary is assumed in the model."
  },
  {
   "property": "C396",
   "status": "partial",
   "theorems": [
    "C396_refuted",
    "C396_file_refuted",
    "C396_task_refuted"
   ],
   "note": "Refuted: PyYAML copies the mapping with the line into a plain dictionary, and without a line the file is left out. C395 says what is shown."
  }
 ]
}