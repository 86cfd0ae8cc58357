{
 "claims": [
  {
   "property": "C01",
   "status": "proved",
   "theorems": [
    "C01_logsumexp",
    "C01_logsumexp2",
    "C01_logsumexp_in_range",
    "C01_logsumexp2_in_range",
    "C01_logsumexp_order",
    "C01_logsumexp_empty",
    "C01_helpers_log_sum_exp",
    "C01_c_logsumexp2",
    "C01_c_logsumexp"
   ],
   "note": "Python logsumexp/logsumexp2, helpers.log_sum_exp and the two C functions; exact real arithmetic."
  },
  {
   "property": "C02",
   "status": "proved",
   "theorems": [
    "C02_kt_distribution",
    "C02_kt_distribution_counts"
   ],
   "note": "For the default prior and for user-supplied positive counts."
  },
  {
   "property": "C03",
   "status": "proved",
   "theorems": [
    "C03_kt_closed_form",
    "C03_kt_exchangeable"
   ],
   "note": ""
  },
  {
   "property": "C04",
   "status": "proved",
   "theorems": [
    "C04_kt_agrees",
    "C04_ktbinary_agrees",
    "C04_sad_agrees",
    "C04_dumb_agrees",
    "C04_averager_agrees",
    "C04_factored_agrees",
    "C04_ctw_agrees",
    "C04_ctw_mkcontext_agrees",
    "C04_ctwkt_agrees"
   ],
   "note": "As equality of results including exceptions, in every state."
  },
  {
   "property": "C05",
   "status": "proved",
   "theorems": [
    "C05_kt_redundancy_prob",
    "C05_kt_redundancy",
    "C05_ktbinary_redundancy"
   ],
   "note": ""
  },
  {
   "property": "C06",
   "status": "proved",
   "theorems": [
    "C06_ktbinary_is_kt"
   ],
   "note": ""
  },
  {
   "property": "C07",
   "status": "partial",
   "theorems": [
    "C07_sad_normalised",
    "C07_sad_all_seen_deficit",
    "C07_sad_always_normalised_refuted",
    "C07_sad_outside_raises",
    "C07_sad_closed_form"
   ],
   "note": "The full expectation (always normalised) is refuted: once all symbols were seen the sum is below one."
  },
  {
   "property": "C08",
   "status": "proved",
   "theorems": [
    "C08_averager_mixture",
    "C08_averager_normalised",
    "C08_averager_duplicates_refuted"
   ],
   "note": "Distinct member objects; duplicates refuted (predictions sum to 1/2)."
  },
  {
   "property": "C09",
   "status": "proved",
   "theorems": [
    "C09_averager_regret"
   ],
   "note": ""
  },
  {
   "property": "C10",
   "status": "proved",
   "theorems": [
    "C10_averager_map"
   ],
   "note": ""
  },
  {
   "property": "C11",
   "status": "proved",
   "theorems": [
    "C11_ctw_recursion"
   ],
   "note": "Any base model whose calls succeed, any alphabet of context symbols, any depth >= 1; exact real arithmetic."
  },
  {
   "property": "C12",
   "status": "proved",
   "theorems": [
    "C12_ctw_mixture",
    "C12_all_trees",
    "C12_all_trees_nodup",
    "C12_tree_prior",
    "C12_ctw_regret"
   ],
   "note": ""
  },
  {
   "property": "C13",
   "status": "proved",
   "theorems": [
    "C13_ctw_distribution"
   ],
   "note": ""
  },
  {
   "property": "C14",
   "status": "proved",
   "theorems": [
    "C14_log_predict_transparent",
    "C14_calls_succeed"
   ],
   "note": ""
  },
  {
   "property": "C15",
   "status": "partial",
   "theorems": [
    "C15_context_is_last_symbols",
    "C15_context_reversed",
    "C15_ignores_older",
    "C15_depth0_whole_history",
    "C15_depth0_refuted"
   ],
   "note": "Depth >= 1. Depth 0 is refuted: the whole history becomes the context."
  },
  {
   "property": "C16",
   "status": "partial",
   "theorems": [
    "C16_size_counts_nodes",
    "C16_copy_size_refuted",
    "C16_fast_size_refuted"
   ],
   "note": "Proved for every object that was not made by copy() and has not been copied. After copy() it is refuted: new nodes of the copy are counted on the original; in C a log_predict on a copy changes the size of the original."
  },
  {
   "property": "C17",
   "status": "proved",
   "theorems": [
    "C17_ctwkt_is_ctw",
    "C17_fast_is_ctwkt",
    "C17_fast_is_ctw_over_kt"
   ],
   "note": "Values and exceptions for the two Python classes at every depth; the C code (any alphabet up to 128 symbols) for depth >= 1, symbols of the alphabet, weights >= 0, over programs with any number of objects."
  },
  {
   "property": "C18",
   "status": "proved",
   "theorems": [
    "C18_ctw_copies_deep",
    "C18_ctwkt_copies_deep"
   ],
   "note": "All programs over any number of objects, any base model with a deep copy, CTW with binary contexts and CTW_KT."
  },
  {
   "property": "C19",
   "status": "proved",
   "theorems": [
    "C19_memory_safe",
    "C19_no_leak",
    "C19_shared_nodes_unmodified",
    "C19_unchecked_symbols_refuted"
   ],
   "note": "All programs within the alphabet; refuted outside it (no check on symbols)."
  },
  {
   "property": "C20",
   "status": "proved",
   "theorems": [
    "C20_ptw_fixed_recursion",
    "C20_fixed_height",
    "C20_promotion_literal"
   ],
   "note": ""
  },
  {
   "property": "C21",
   "status": "proved",
   "theorems": [
    "C21_ptw_mixture",
    "C21_all_parts",
    "C21_all_parts_nodup",
    "C21_part_prior",
    "C21_segments_tile",
    "C21_part_prob_segments",
    "C21_ptw_regret",
    "C21_ptw_changepoints"
   ],
   "note": ""
  },
  {
   "property": "C22",
   "status": "proved",
   "theorems": [
    "C22_ptw_update_ratio",
    "C22_levels",
    "C22_ptw_update_normalised",
    "C22_ptwf_update_normalised"
   ],
   "note": ""
  },
  {
   "property": "C23",
   "status": "proved",
   "theorems": [
    "C23_ptw_unknown_length"
   ],
   "note": ""
  },
  {
   "property": "C24",
   "status": "partial",
   "theorems": [
    "C24_ptw_log_predict_partial",
    "C24_ptwf_log_predict_partial",
    "C24_ptw_boundary_not_normalised",
    "C24_ptwf_boundary_not_normalised",
    "C24_ptw_log_predict_refuted"
   ],
   "note": "Full property refuted: on partition boundaries log_predict disagrees with update and its predictions sum to more than one (proved for every boundary). Agreement proved everywhere else."
  },
  {
   "property": "C25",
   "status": "partial",
   "theorems": [
    "C25_rounds_down",
    "C25_power_of_two_partial",
    "C25_rounds_up_refuted"
   ],
   "note": "The documented rounding up is refuted; the code rounds down (proved)."
  },
  {
   "property": "C26",
   "status": "proved",
   "theorems": [
    "C26_ctw_recursion",
    "C26_ctw_log_predict",
    "C26_ctw_full",
    "C26_learners_recursion",
    "C26_learners_log_predict",
    "C26_learners_full",
    "C26_learners_memory",
    "C26_learners_full_predict"
   ],
   "note": ""
  },
  {
   "property": "C27",
   "status": "proved",
   "theorems": [
    "C27_retained",
    "C27_size",
    "C27_first_is_newest",
    "C27_last_is_oldest",
    "C27_learners_same"
   ],
   "note": ""
  },
  {
   "property": "C28",
   "status": "partial",
   "theorems": [
    "C28_retained",
    "C28_getitem_partial",
    "C28_last_index_refuted",
    "C28_last_index_never_works",
    "C28_past_the_end_wraps"
   ],
   "note": "Retention, spacing, order and size proved. s[-1] is refuted: it always raises IndexError (the doctest in model.py claims 0)."
  },
  {
   "property": "C29",
   "status": "proved",
   "theorems": [
    "C29_fmn_total",
    "C29_fmn_update_normalised",
    "C29_logstore_law",
    "C29_uniform_law",
    "C29_fmn_log_predict_between",
    "C29_fmn_boundary_not_normalised"
   ],
   "note": "For FMN.update; FMN.log_predict inherits the defect of PTW.log_predict (C24)."
  },
  {
   "property": "C30",
   "status": "proved",
   "theorems": [
    "C30_offered",
    "C30_logstore_retains",
    "C30_uniform_retains"
   ],
   "note": ""
  },
  {
   "property": "C31",
   "status": "proved",
   "theorems": [
    "C31_fmn_competes"
   ],
   "note": ""
  },
  {
   "property": "C32",
   "status": "partial",
   "theorems": [
    "C32_log_predict",
    "C32_update_partial",
    "C32_total",
    "C32_lawful",
    "C32_dumb",
    "C32_weight_refuted",
    "C32_weight_never_matters"
   ],
   "note": "Routing, isolation, sums and lawfulness proved; that the caller's weight is passed on is refuted (Factored.update drops it)."
  },
  {
   "property": "C33",
   "status": "partial",
   "theorems": [
    "C33_update_seq_partial",
    "C33_log_predict_seq_partial",
    "C33_split",
    "C33_total_probability",
    "C33_update_seq_refuted",
    "C33_log_predict_seq_refuted",
    "C33_empty_erases"
   ],
   "note": "Proved for every non-empty sequence; the empty sequence is refuted: history is erased."
  },
  {
   "property": "C34",
   "status": "partial",
   "theorems": [
    "C34_round_trip_safe_partial",
    "C34_round_trip_last_symbol_partial",
    "C34_round_trip_moderate_partial",
    "C34_decompress_never_returns_refuted",
    "C34_lossless"
   ],
   "note": "Full property refuted: with ctw.py's KT and 32 bits the message 1 1 compresses to 1 1 0 and decompressing that never returns. Proved: whatever is returned is the message; it is returned when the last symbol put out a bit, or the code ends in 01 and the model is not extreme. The code (given the length) determines the message for every coherent model, without any condition on precision (C34_lossless)."
  },
  {
   "property": "C35",
   "status": "proved",
   "theorems": [
    "C35_encode_progress",
    "C35_start",
    "C35_compress_total",
    "C35_no_room_never_ends"
   ],
   "note": "Exact arithmetic; the loop that never ends when a one is left no part of the interval is a separate theorem."
  },
  {
   "property": "C36",
   "status": "proved",
   "theorems": [
    "C36_code_length",
    "C36_quantisation"
   ],
   "note": ""
  },
  {
   "property": "C37",
   "status": "partial",
   "theorems": [
    "C37_byte_round_trip_refuted",
    "C37_pack_unpack",
    "C37_reversed_twice",
    "C37_bytes_reversed"
   ],
   "note": "Refuted with KT on the byte 1 (129 decodes to 128). Proved: pack after unpack reverses the bits of every byte, so bytes come back reversed even where the bit-level coder is right."
  },
  {
   "property": "C38",
   "status": "proved",
   "theorems": [
    "C38_binary_boundary",
    "C38_mscb_divides",
    "C38_mscb_highest_change",
    "C38_at_partition_start",
    "C38_start_and_mscb"
   ],
   "note": ""
  },
  {
   "property": "C39",
   "status": "proved",
   "theorems": [
    "C39_regions",
    "C39_no_labels"
   ],
   "note": ""
  },
  {
   "property": "C40",
   "status": "proved",
   "theorems": [
    "C40_grid",
    "C40_count",
    "C40_once",
    "C40_combinations",
    "C40_no_parameters"
   ],
   "note": ""
  },
  {
   "property": "C41",
   "status": "proved",
   "theorems": [
    "C41_shared_keys",
    "C41_unique_keys",
    "C41_shared_values"
   ],
   "note": ""
  },
  {
   "property": "C42",
   "status": "partial",
   "theorems": [
    "C42_discounted",
    "C42_bellman",
    "C42_horizon",
    "C42_defaults_refuted"
   ],
   "note": "Refuted for the default arguments: without a horizon and with a discount of one every call on a non-empty sequence raises TypeError. Everything else proved."
  },
  {
   "property": "C43",
   "status": "partial",
   "theorems": [
    "C43_tiles_partial",
    "C43_default_fits",
    "C43_range_exact",
    "C43_range_refuted",
    "C43_same_tile",
    "C43_resolution",
    "C43_coder",
    "C43_pairs"
   ],
   "note": "Proved when frac(1/width) < 1/num_tilings (always so for the default width); C43_range_exact shows the condition is necessary, C43_range_refuted gives a coder that exceeds its range (width 0.6, two tilings)."
  },
  {
   "property": "C44",
   "status": "proved",
   "theorems": [
    "C44_round_trip",
    "C44_stable",
    "C44_unstable_refuted",
    "C44_directory"
   ],
   "note": ""
  },
  {
   "property": "C45",
   "status": "partial",
   "theorems": [
    "C45_strings",
    "C45_concat",
    "C45_values_partial",
    "C45_keys_refuted",
    "C45_errors",
    "C45_order"
   ],
   "note": "Strings: proved. Nested values: safe if all keys are safe; keys are not cleaned (refuted)."
  },
  {
   "property": "C46",
   "status": "partial",
   "theorems": [
    "C46_schedule_partial",
    "C46_any_schedule",
    "C46_unordered_refuted",
    "C46_calls",
    "C46_bias_refuted",
    "C46_call_after_refuted"
   ],
   "note": "Increasing schedules: proved, for get_data and calls. Refuted: a change point not after its predecessor is never passed and blocks all later ones; the probability is that of a zero; after get_data the object cannot be called."
  },
  {
   "property": "C47",
   "status": "partial",
   "theorems": [
    "C47_half_refuted",
    "C47_sample_refuted",
    "C47_other_refuted",
    "C47_half_partial",
    "C47_sample_partial"
   ],
   "note": "Refuted as it stands: math is not imported, so 'half' and 'sample' raise NameError for all data, and any other mode returns the data twice. Proved with the name bound."
  },
  {
   "property": "C48",
   "status": "partial",
   "theorems": [
    "C48_block",
    "C48_empty",
    "C48_all",
    "C48_stream_partial",
    "C48_step",
    "C48_negative_refuted",
    "C48_empty_refuted"
   ],
   "note": "Blocks and get_all_data proved; stepping proved equal for steps >= 0 and non-empty files. Refuted: negative steps and empty files differ between the two ways of reading."
  },
  {
   "property": "C49",
   "status": "proved",
   "theorems": [
    "C49_ctw_kt_same",
    "C49_learners_kt_same"
   ],
   "note": ""
  },
  {
   "property": "C50",
   "status": "proved",
   "theorems": [
    "C50_outer_boundaries"
   ],
   "note": ""
  },
  {
   "property": "C51",
   "status": "partial",
   "theorems": [
    "C51_running_mean_partial",
    "C51_window_one_refuted",
    "C51_running_mean_error",
    "C51_trace_accumulating",
    "C51_trace_replacing",
    "C51_trace_between"
   ],
   "note": "running_mean is refuted for a window of one step, which returns nothing; proved for all other windows."
  },
  {
   "property": "C52",
   "status": "partial",
   "theorems": [
    "C52_scale_default",
    "C52_scale_given",
    "C52_scale_val",
    "C52_constant_refuted"
   ],
   "note": "Refuted for constant signals, which are returned unscaled; proved for all others."
  },
  {
   "property": "C53",
   "status": "partial",
   "theorems": [
    "C53_all_approx",
    "C53_precision",
    "C53_precision_refuted"
   ],
   "note": "utilities.approx with a precision is refuted (10**precision instead of 10**-precision); helpers.approx and all_approx proved."
  },
  {
   "property": "C54",
   "status": "partial",
   "theorems": [
    "C54_texts",
    "C54_values_partial",
    "C54_empty_refuted",
    "C54_short_list_refuted",
    "C54_number_string_refuted",
    "C54_small_float_refuted",
    "C54_de_string_ends"
   ],
   "note": "Texts: proved. Values: for the kinds listed. Refuted: {}, one-element lists, strings that read as numbers, floats whose text has a dash."
  },
  {
   "property": "C55",
   "status": "partial",
   "theorems": [
    "C55_round_trip_partial",
    "C55_two_numbers_refuted",
    "C55_sign_refuted"
   ],
   "note": "Proved for the values described by comes_back. Refuted: lists of two numbers raise TypeError, numbers in lists lose their sign."
  },
  {
   "property": "C56",
   "status": "partial",
   "theorems": [
    "C56_args_partial",
    "C56_numbers_refuted"
   ],
   "note": "Proved except for the numbers 0 (dropped) and 1 (value lost), which are refuted."
  },
  {
   "property": "C57",
   "status": "partial",
   "theorems": [
    "C57_number",
    "C57_negative_refuted"
   ],
   "note": "Proved for n >= 0, any name and width; negative numbers refuted."
  },
  {
   "property": "C58",
   "status": "partial",
   "theorems": [
    "C58_split",
    "C58_split_all",
    "C58_remove",
    "C58_add_partial",
    "C58_add_refuted",
    "C58_match"
   ],
   "note": "Splitting, removing and matching proved; add_modifiers tests for substrings, so some names do not get a modifier they lack (refuted)."
  },
  {
   "property": "C59",
   "status": "partial",
   "theorems": [
    "C59_headers",
    "C59_filters_partial",
    "C59_filters_last",
    "C59_filters_refuted",
    "C59_names"
   ],
   "note": "Headers proved. Filters: proved if only the last header is scaled; in general all columns are scaled with the range of the last header (refuted)."
  },
  {
   "property": "C60",
   "status": "proved",
   "theorems": [
    "C60_same_as_model",
    "C60_external_history",
    "C60_reset_history",
    "C60_recursion",
    "C60_log_predict",
    "C60_distribution",
    "C60_transparent",
    "C60_update_seq",
    "C60_log_predict_seq"
   ],
   "note": "Proved for base classes whose log_prob adds up what update returns (ctw.KT shown to be one); agreement with model.CTW for depth >= 1 (model.CTW raises at depth 0), the recursion and the other laws at every depth."
  },
  {
   "property": "C61",
   "status": "partial",
   "theorems": [
    "C61_sad_same",
    "C61_averager_same",
    "C61_running_totals",
    "C61_mixture",
    "C61_regret",
    "C61_log_predict",
    "C61_distribution",
    "C61_map",
    "C61_recomputed",
    "C61_recomputed_refuted",
    "C61_ptw_member_refuted",
    "C61_ctw_member_refuted",
    "C61_half_refuted"
   ],
   "note": "Proved for classes whose log_prob is a running total (KT and SAD shown to be). Refuted for members that are PTW, CTW or Averager: the predictions sum to the mean of the probabilities the members gave to their past."
  },
  {
   "property": "C62",
   "status": "proved",
   "theorems": [
    "C62_total",
    "C62_full",
    "C62_distribution",
    "C62_log_predict",
    "C62_offered",
    "C62_logstore",
    "C62_competes"
   ],
   "note": "Proved for base classes whose log_prob is a running total (KT and SAD, C61), any store satisfying store_law and any iteration order."
  },
  {
   "property": "C63",
   "status": "partial",
   "theorems": [
    "C63_start_at",
    "C63_map_partial",
    "C63_fixed_map_partial",
    "C63_ctw_map_partial",
    "C63_scores",
    "C63_scores_lower",
    "C63_map_refuted"
   ],
   "note": "Proved: a base with the best score is returned, and its posterior is at least 2^-d times the best one. Refuted as stated: the scores ignore the levels the tree leaves out, so the base returned need not be the maximum a posteriori one."
  },
  {
   "property": "C64",
   "status": "proved",
   "theorems": [
    "C64_ptw_drift",
    "C64_ptwf_drift",
    "C64_fmn_drift",
    "C64_source"
   ],
   "note": ""
  },
  {
   "property": "C65",
   "status": "proved",
   "theorems": [
    "C65_ctw_tree_source",
    "C65_by_leaf"
   ],
   "note": ""
  },
  {
   "property": "C66",
   "status": "proved",
   "theorems": [
    "C66_texts",
    "C66_values",
    "C66_injective",
    "C66_order",
    "C66_spelling"
   ],
   "note": "Proved for flat Structures (no Struct field) under the stated conditions on class and values, for any literal_eval agreeing with Python on integers, None, True and False, and any float parser. Paths are POSIX."
  },
  {
   "property": "C67",
   "status": "partial",
   "theorems": [
    "C67_positional_alone_refuted",
    "C67_positional_two_refuted",
    "C67_positional_list_refuted",
    "C67_positional_underscore_refuted",
    "C67_positional_letter_refuted",
    "C67_optional_positional_refuted",
    "C67_nameless_unset_refuted",
    "C67_collision_refuted",
    "C67_text_file_refuted",
    "C67_sentinel_refuted",
    "C67_boolean_text_refuted",
    "C67_listable_unset_refuted",
    "C67_integers_refuted"
   ],
   "note": "Refuted as stated; C66 gives the conditions under which it holds. Refuted by classes with named positional fields only (CoinEnv), positional lists, positional names with underscore, unset nameless fields, underscores in values, values ending in .txt, sentinels that are not first, Boolean texts, unset Listables and integer lists."
  },
  {
   "property": "C68",
   "status": "partial",
   "theorems": [
    "C68_valid",
    "C68_kept",
    "C68_missing",
    "C68_nargs",
    "C68_choice",
    "C68_again",
    "C68_inherited",
    "C68_listable_choices_refuted"
   ],
   "note": "Proved for all classes of fields but Struct, for any float parser returning floats; validity for fields that are neither Listable nor Keyed. Refuted for Listable, which ignores its choices."
  },
  {
   "property": "C69",
   "status": "partial",
   "theorems": [
    "C69_same_states",
    "C69_mixture",
    "C69_map",
    "C69_log_predict_joint",
    "C69_predictions_total",
    "C69_distribution_refuted",
    "C69_reset",
    "C69_reset_refuted"
   ],
   "note": "Proved: log_prob, map, and exactly what log_predict and reset do. Refuted: predictions after an update do not sum to one (they sum to the probability of the past), and reset keeps the members trained."
  },
  {
   "property": "C70",
   "status": "proved",
   "theorems": [
    "C70_stream",
    "C70_hallway_context",
    "C70_room_context_refuted",
    "C70_room_wall_refuted",
    "C70_switcher",
    "C70_switcher_never"
   ],
   "note": "For any random generator given as a state transformer (choice in range). The refuted theorems are about claims beyond the statement: the room is no finite-context source and its wall can be passed."
  },
  {
   "property": "C71",
   "status": "proved",
   "theorems": [
    "C71_ctw",
    "C71_fmn"
   ],
   "note": "For exact real arithmetic, as all theorems on losses; model.CTW_KT (modelfast.CTW_KT returns the same, C17)."
  },
  {
   "property": "C72",
   "status": "proved",
   "theorems": [
    "C72_exact",
    "C72_same_number",
    "C72_logsumexp2",
    "C72_ctw",
    "C72_predict",
    "C72_rounding"
   ],
   "note": "Overflow is excluded by a bound in the hypothesis (2^1000 for doubles); unit weights; that binary64 and the C library meet the accuracy hypothesis is trusted, an arithmetic that cuts off binary digits is proved to."
  },
  {
   "property": "C73",
   "status": "proved",
   "theorems": [
    "C73_exact",
    "C73_any_base",
    "C73_kt",
    "C73_ctw"
   ],
   "note": "Overflow is excluded by a bound in the hypothesis; unit weights; the accuracy hypothesis as in C72. About update and update_seq: log_predict computes the adjustment with its terms in another order and need not give the same float."
  },
  {
   "property": "C74",
   "status": "partial",
   "theorems": [
    "C74_round_trip",
    "C74_columns",
    "C74_headers",
    "C74_saved_headers",
    "C74_lines",
    "C74_frame",
    "C74_skip_comments",
    "C74_formatted",
    "C74_atomic_refuted",
    "C74_any_path_refuted",
    "C74_snippets_refuted",
    "C74_simplify_refuted",
    "C74_any_data_refuted",
    "C74_blank_refuted"
   ],
   "note": "The round trip is proved for data whose first column is the shortest, with single-word names and values, names not differing only in characters clean_string drops, no column 'comments', one-line notes and paths without 'gz'; outside these conditions it fails (refuted, with examples). get_snippets always raises, simplify_logs never changes a file, a failed save leaves a truncated file (refuted)."
  },
  {
   "property": "C75",
   "status": "partial",
   "theorems": [
    "C75_round_trip",
    "C75_read",
    "C75_text",
    "C75_log_file",
    "C75_safe",
    "C75_frame",
    "C75_grows",
    "C75_closed",
    "C75_check_headers",
    "C75_check_headers_refuted",
    "C75_iteration_refuted",
    "C75_any_path_refuted",
    "C75_write_log_refuted",
    "C75_write_list_refuted",
    "C75_with_refuted",
    "C75_frame_refuted"
   ],
   "note": "The round trip is proved for rows with one word per header, one-line comments and a first header that begins neither with '#' nor a digit, in a path with a directory, reading row by row. Refuted: a loop over a reader sees only one row; a path without a directory raises; write_log always raises; a data frame written under its headers cannot be read back; check_headers raises on a log with comments only; write_list of a string writes letters; with binds None in safe mode if the file exists. read_log and reformat_data (pandas) are not modelled."
  },
  {
   "property": "C76",
   "status": "partial",
   "theorems": [
    "C76_run",
    "C76_files",
    "C76_kept",
    "C76_numbered",
    "C76_kept_refuted",
    "C76_log_dir",
    "C76_log_dir_refuted",
    "C76_params",
    "C76_params_short",
    "C76_stats",
    "C76_flaked",
    "C76_killed",
    "C76_no_lines",
    "C76_finished",
    "C76_finished_refuted",
    "C76_table",
    "C76_table_fails",
    "C76_table_refuted",
    "C76_results",
    "C76_results_refuted"
   ],
   "note": "Proved for options on one line, a log_name of allowed characters, and (for scripts and logs that can be told apart) protocols and models without dashes and depths from zero. Refuted: in debug mode, or when the queue fails, jobs that differ in base_dir or platform only overwrite each other's script; slashes of log_name are dropped; the ratio is not found if z.py prints a number of nodes; a log with fewer than two dashes in its name, or an empty one, makes get_all_logs fail; logs whose names agree up to the first dot share a row. What the shell does with the script is not modelled, nor is graph_results."
  },
  {
   "property": "C77",
   "status": "partial",
   "theorems": [
    "C77_compress",
    "C77_lossless",
    "C77_size",
    "C77_reading",
    "C77_bar",
    "C77_last_bar",
    "C77_default_refuted",
    "C77_common_refuted",
    "C77_unknown",
    "C77_bad_depth",
    "C77_missing",
    "C77_uncompress_refuted",
    "C77_uncompress_key",
    "C77_empty_refuted",
    "C77_same_file_refuted",
    "C77_huge_refuted",
    "C77_clock_refuted"
   ],
   "note": "Proved for the models KT, PTW and FMN and non-empty inputs below 4 GiB with OUTFILE different from INFILE (exact arithmetic for the models' probabilities). Refuted: the default model CTW and seven others raise; an empty input raises after the output is written; larger inputs empty the output; a file compressed onto itself is lost silently; uncompress always raises."
  },
  {
   "property": "C78",
   "status": "partial",
   "theorems": [
    "C78_reads",
    "C78_given",
    "C78_default",
    "C78_order",
    "C78_required",
    "C78_exclusive",
    "C78_refused",
    "C78_default_refuted",
    "C78_list_default_refuted",
    "C78_required_default_refuted",
    "C78_optional_refuted",
    "C78_others_refuted",
    "C78_class_refuted",
    "C78_dashes",
    "C78_ambiguous",
    "C78_flag_value"
   ],
   "note": "Proved for classes whose options differ and for command lines in which no field is given twice. Refuted: the default of a Listable, Keyed or required field is not used; an optional Integer that is not named raises TypeError and an optional String becomes the text None; a short option of another class sets a field whose name begins like it (and --h ends the program); a Listable x beside a field xs leaves the class without parser. Help texts and the messages of argparse are not modelled; argparse itself is (options with two dashes, as in Python 3.4)."
  },
  {
   "property": "C79",
   "status": "partial",
   "theorems": [
    "C79_round_trip",
    "C79_space_refuted",
    "C79_number_refuted",
    "C79_negative_refuted",
    "C79_exponent_refuted",
    "C79_several_refuted",
    "C79_unset_refuted",
    "C79_directory_refuted",
    "C79_inherited",
    "C79_boolean_refuted"
   ],
   "note": "Proved for instances with all fields set, texts without spaces that argparse takes for arguments, no numbers in fields without class, at most one value with nargs. Refuted for each of these: texts with a space lose the rest, numbers of an untyped field become texts, a list that begins with a negative number and negative numbers with an exponent end the program, several values become one, an unset field after a dictionary raises IndexError; from_wildcard of a directory string with two dashes parses it as a command line; a Boolean without default that is not given has no command line."
  },
  {
   "property": "C80",
   "status": "partial",
   "theorems": [
    "C80_round_trip_partial",
    "C80_no_constructor_refuted",
    "C80_default_flags_refuted",
    "C80_default_flags_field_refuted",
    "C80_nameless_struct_refuted",
    "C80_same_name_refuted",
    "C80_same_class_refuted",
    "C80_unset_refuted"
   ],
   "note": "Proved, for any depth, for Structs with a constructor, keyword=False and positional=True that hold an instance, with names that differ on all levels. Refuted otherwise: without constructor (all Structs of the repository) no directory is read; with the default flags the name of the Struct stays in base_dir, or is read as the positional field before it; keyword=False without positional=True loses the fields; a name on two levels or two Structs of one class mix up their values; an unset Struct takes the directory of the field before it. Structs have no default, constant, choices or nargs here."
  },
  {
   "property": "C81",
   "status": "partial",
   "theorems": [
    "C81_matches_partial",
    "C81_param_partial",
    "C81_drop_refuted",
    "C81_list_refuted",
    "C81_items_partial",
    "C81_record_partial",
    "C81_entries",
    "C81_unset_refuted",
    "C81_nested_refuted",
    "C81_directory_refuted",
    "C81_nargs_refuted"
   ],
   "note": "Proved: exactly when matches and matches_param answer yes, for options that are lists or single values other than None and dictionaries, and values that have a text; the entries of a record; that constructor after items or record restores the fields of flat classes whose fields all have values. Refuted: values in drop_vals leave nothing out (only texts with the name of the field do); a list does not match itself; an unset field, or a Struct, means AttributeError instead of a record; the directory is not in the record; a negative nargs shrinks the list each time."
  },
  {
   "property": "C82",
   "status": "partial",
   "theorems": [
    "C82_save_partial",
    "C82_no_other_file",
    "C82_own_log_partial",
    "C82_load_partial",
    "C82_load_refuted",
    "C82_load_top_refuted",
    "C82_save_given_refuted",
    "C82_save_other_refuted",
    "C82_data_partial"
   ],
   "note": "Proved: save_data() writes the log once and no other file, for all classes and file systems; instances with one log have the same fields on all levels; load_data() gives the saved data if the class has an attribute base_path. Refuted: no class has it, so load_data() and data fail for a log that is there; load_data(base_dir) reads the file at the top of base_dir, maybe the log of another Structure; save_data(data) writes other data, or a log without data that blocks later saving."
  },
  {
   "property": "C83",
   "status": "partial",
   "theorems": [
    "C83_enter_partial",
    "C83_last_dir",
    "C83_run",
    "C83_shared_refuted",
    "C83_silent_refuted",
    "C83_save_model",
    "C83_save_once",
    "C83_save_missing",
    "C83_exit_adds",
    "C83_exit_saves",
    "C83_load_memory",
    "C83_load_file",
    "C83_load_runs",
    "C83_load_none",
    "C83_own_model"
   ],
   "note": "Proved: entering places the parts of all levels one inside the other and keeps every field (for classes whose parts can all be entered), run, what leaving writes, what load_model gives, and that instances with one model file have the same fields. Refuted: positional fields of the Experiment are not in the directories of its parts, so different Experiments share directories, and the second gets the model of the first; an AttributeError while a part is entered is dropped, and its parts have no directory."
  },
  {
   "property": "C84",
   "status": "partial",
   "theorems": [
    "C84_partition",
    "C84_name",
    "C84_values_partial",
    "C84_texts_refuted",
    "C84_joined_refuted",
    "C84_letters_refuted",
    "C84_no_keys",
    "C84_key",
    "C84_required",
    "C84_restricted_partial",
    "C84_restricted_refuted"
   ],
   "note": "Proved: the groups are a partition that keeps the order, their names, and that sets are together exactly if their values are the same, if each key has whole numbers or words; check_param_matches if both have the restricted keys. Refuted: values with one text are together (1 and \"1\", missing and \"None\"), lists with underscores run into the next key, a key given as string is taken for its letters, a restricted key that is missing raises KeyError."
  },
  {
   "property": "C85",
   "status": "partial",
   "theorems": [
    "C85_sets",
    "C85_succeeds",
    "C85_fails_partial",
    "C85_missing",
    "C85_fails_refuted",
    "C85_names",
    "C85_values",
    "C85_no_values",
    "C85_match",
    "C85_part_refuted",
    "C85_list_refuted"
   ],
   "note": "Proved: what set_attributes sets, when it succeeds, and that nothing changes if a valid parameter is missing; what validate_params accepts, for all kinds of requirements. Refuted: with a value None some attributes are set before the exception; any part of a required string is accepted; a list is refused although it is the value required."
  },
  {
   "property": "C86",
   "status": "partial",
   "theorems": [
    "C86_creates_partial",
    "C86_keeps",
    "C86_already",
    "C86_not_made_refuted",
    "C86_endless_refuted",
    "C86_relative_refuted",
    "C86_relative_true_refuted"
   ],
   "note": "Proved for paths from the root (plain components) where making is allowed; what is there stays, in all cases. Refuted: if the second directory above cannot be made the path is given back though it is not there, if the third the recursion has no end; of relative paths with several new levels nothing is made, and from three on the path is given back. Links are not modelled."
  },
  {
   "property": "C87",
   "status": "partial",
   "theorems": [
    "C87_parts_partial",
    "C87_parts_text",
    "C87_below_partial",
    "C87_none",
    "C87_self_refuted",
    "C87_others_refuted",
    "C87_ext_whole",
    "C87_ext"
   ],
   "note": "get_all_dirs is the names of the path for all paths without `..`, and below a base directory that is in the path once; split_ext for all paths. Refuted: the base directory itself gives the dot, part of a name is taken for a directory, a base directory that is there twice or not written in its normal form raises ValueError."
  },
  {
   "property": "C88",
   "status": "partial",
   "theorems": [
    "C88_count",
    "C88_header",
    "C88_different",
    "C88_order",
    "C88_apart_partial",
    "C88_apart_refuted"
   ],
   "note": "Count, form, difference and order for all names and lengths; different names of safe characters without dashes share no header. Refuted for other names: characters that are not kept are dropped."
  },
  {
   "property": "C89",
   "status": "partial",
   "theorems": [
    "C89_children_partial",
    "C89_blocks",
    "C89_models",
    "C89_models_first",
    "C89_kt",
    "C89_interval",
    "C89_whole",
    "C89_certain_refuted"
   ],
   "note": "get_model_string and repr for all models, depths and sequences; get_child_string if no prediction of a block is certain (always so for KT with two symbols or more). Refuted: a block whose sequence has probability one is not named."
  },
  {
   "property": "C90",
   "status": "partial",
   "theorems": [
    "C90_round",
    "C90_zip",
    "C90_unzip_partial",
    "C90_safe",
    "C90_there",
    "C90_none",
    "C90_stale_refuted",
    "C90_second_refuted",
    "C90_cut_off_refuted"
   ],
   "note": "Round trip, no loss and file_exists for all files and paths whose name is not only dots, with gzip and the text encoding as parameters. unzip is right if the uncompressed file is not there before; refuted otherwise: any file of that name is taken, also what a failed call has left."
  },
  {
   "property": "C91",
   "status": "partial",
   "theorems": [
    "C91_exact",
    "C91_part_partial",
    "C91_once",
    "C91_paths",
    "C91_none",
    "C91_hidden_refuted",
    "C91_hidden_ex_refuted",
    "C91_ignore_refuted"
   ],
   "note": "Exact names at any depth, each once, for all trees with plain names; with partial=True exactly which files are given. Refuted: a file of exactly the name hides the others in its directory; paths to ignore are compared as texts."
  },
  {
   "property": "C92",
   "status": "partial",
   "theorems": [
    "C92_there_partial",
    "C92_zipped_partial",
    "C92_search_partial",
    "C92_extras",
    "C92_lists_refuted",
    "C92_no_others_refuted",
    "C92_many_others_refuted"
   ],
   "note": "For one feature, with or without modifiers: the file of its name, compressed or not, otherwise the first file with the fewest others, of those with one at least and less than ten times the length of the string. Refuted: a list of features always raises AttributeError; files without others or with more are not found."
  },
  {
   "property": "C93",
   "status": "partial",
   "theorems": [
    "C93_number",
    "C93_dash",
    "C93_no_number",
    "C93_headers",
    "C93_headers_same",
    "C93_headers_all",
    "C93_exists",
    "C93_all_partial",
    "C93_complete_partial",
    "C93_only_refuted",
    "C93_one_refuted",
    "C93_lines_refuted",
    "C93_lines_never_refuted",
    "C93_missing_refuted"
   ],
   "note": "Proved: de_number for all names that do not end like a number; get_headers for all columns; file_complete without lines, one way. Refuted: file_complete is true if one of the headers is there; a missing header or a number of lines raises NameError; names that are a number raise IndexError."
  },
  {
   "property": "C94",
   "status": "partial",
   "theorems": [
    "C94_deep",
    "C94_leaves",
    "C94_factored",
    "C94_averager",
    "C94_shared_refuted",
    "C94_dumb_refuted"
   ],
   "note": "Proved for all programs in which a model that is put into another is not used otherwise. Refuted: the copy of a Factored with a shared model does something else; Dumb cannot be copied. PTW, PTWFixedLength and FMN have no copy either (by reading)."
  },
  {
   "property": "C95",
   "status": "proved",
   "theorems": [
    "C95_deep",
    "C95_deep_uniform",
    "C95_snapshots",
    "C95_snapshots_uniform"
   ],
   "note": "The base models are objects whose copy is deep (C18, C94)."
  },
  {
   "property": "C96",
   "status": "partial",
   "theorems": [
    "C96_ptw",
    "C96_fmn",
    "C96_ctw_learns",
    "C96_ptw_ctw",
    "C96_fmn_ctw",
    "C96_ctw_ptw",
    "C96_ptw_ctw_measure",
    "C96_ctw_ptw_measure",
    "C96_ctw_ptw_predict_refuted"
   ],
   "note": "Loss bounds and the updates being a measure are proved, for change times on multiples of 2^min_height. Refuted part: the predictions of CTW over PTW sum to more than one on partition boundaries, as those of PTW do (C24)."
  },
  {
   "property": "C97",
   "status": "partial",
   "theorems": [
    "C97_routes",
    "C97_runs",
    "C97_update_seq",
    "C97_log_predict_seq",
    "C97_ctw",
    "C97_ctw_log_predict",
    "C97_ctw_distribution",
    "C97_factorize_refuted",
    "C97_empty_refuted",
    "C97_failed",
    "C97_failed_refuted"
   ],
   "note": "Proved of the class Factorized. Refuted of the code: Factorize returns itself instead of the class, so the class cannot be reached; log_predict_seq([]) forgets the history; a log_predict_seq that raises leaves symbols in the history."
  },
  {
   "property": "C98",
   "status": "partial",
   "theorems": [
    "C98_mscb",
    "C98_mscb_error",
    "C98_mscb_refuted",
    "C98_log_sum_exp",
    "C98_log_sum_exp_empty",
    "C98_argmax",
    "C98_argmax_any",
    "C98_bins_partial",
    "C98_long_refuted",
    "C98_short_refuted",
    "C98_many_refuted",
    "C98_no_bins",
    "C98_bin_index_refuted"
   ],
   "note": "Proved for mscb below 2^46 - 1, for log_sum_exp, logsumexp and argmax, and for bin_data of 100 values and up to 50 bins. Refuted of the code: mscb(2^48 - 1) is 49 instead of 48; bin_data assumes 100 values (more are summed into the last bin, fewer raise, more than 100 bins divide by zero); get_bin_index always raises NameError."
  },
  {
   "property": "C99",
   "status": "proved",
   "theorems": [
    "C99_kt",
    "C99_sad",
    "C99_runs"
   ],
   "note": "Every event has weight 1. Loss in natural logarithms, in exact arithmetic."
  },
  {
   "property": "C100",
   "status": "proved",
   "theorems": [
    "C100_length",
    "C100_zip",
    "C100_zip_kt",
    "C100_zip_ptw",
    "C100_zip_fmn",
    "C100_constant_refuted"
   ],
   "note": "Exact arithmetic for the probabilities. That the code is within a constant of the loss, as an arithmetic coder should have it, is refuted of the code (C100_constant_refuted) and not part of the property."
  },
  {
   "property": "C101",
   "status": "proved",
   "theorems": [
    "C101_exact",
    "C101_logsumexp",
    "C101_any_models",
    "C101_prediction",
    "C101_nests",
    "C101_ctw",
    "C101_ptw"
   ],
   "note": "Overflow is excluded by a bound in the hypothesis; unit weights; the accuracy hypothesis as in C72. sum() is one addition after the other, as before Python 3.12."
  },
  {
   "property": "C102",
   "status": "partial",
   "theorems": [
    "C102_kt_account",
    "C102_kt_predict",
    "C102_kt_reset",
    "C102_ptw_account",
    "C102_ptw_predict",
    "C102_ptw_distribution",
    "C102_ptw_reset_refuted",
    "C102_from_sequence_refuted",
    "C102_sad_refuted"
   ],
   "note": "Proved: accounts and predictions of KT and PTW, reset of KT. Refuted of the code: reset of PTW keeps the base models and the finished parts; from_sequence always raises NameError; update and log_predict of SAD always raise. Exact arithmetic."
  },
  {
   "property": "C103",
   "status": "partial",
   "theorems": [
    "C103_rounding_refuted",
    "C103_until_splits_differ",
    "C103_same_splits_safe",
    "C103_same_splits_last",
    "C103_complements_safe"
   ],
   "note": "Refuted of the code: with nothing but exp rounded to the nearest double, KT and the 34 bits 0 1 ... 0 1 are decoded to other bits. Proved for any arithmetic: what is decoded begins with the symbols for which encoder and decoder split alike; if they do for all of the message nothing else is returned, and it is returned when the last symbol puts out a bit; they do when the computed probabilities of 0 and 1 are complements to the last digit."
  },
  {
   "property": "C104",
   "status": "proved",
   "theorems": [
    "C104_ptw",
    "C104_ptw_fixed_length",
    "C104_ctw_ptw",
    "C104_ptw_work",
    "C104_fmn_logstore",
    "C104_fmn_uniform",
    "C104_ctw",
    "C104_ctw_most",
    "C104_ctwkt",
    "C104_ctwkt_most"
   ],
   "note": "Counts the base models and nodes the objects refer to, whatever the base models and the data, for runs that do not fail. PTW exactly, FMN as an upper bound with both stores, CTW and CTW_KT exactly for depth at least 1 (with depth 0 the whole history is the context, see the findings). The deallocation itself is Python's and is not modelled; sizes after copy() are C16."
  },
  {
   "property": "C105",
   "status": "proved",
   "theorems": [
    "C105_exact",
    "C105_any_base",
    "C105_kt",
    "C105_kt_uniform",
    "C105_ctw",
    "C105_drift"
   ],
   "note": "The arithmetic is a parameter with bounded relative error (as in C72, C73, C101). The base model is any which follows an exact model with bounded steps; proved to hold of KTBinary and CTW_KT. Weights are 1, as update_seq uses. The theorem compares with the models that the program with rounding retains."
  },
  {
   "property": "C106",
   "status": "proved",
   "theorems": [
    "C106_exact_kt",
    "C106_exact_init",
    "C106_exact_ctw",
    "C106_kt",
    "C106_ctw_any_base",
    "C106_ctw_follows",
    "C106_ctw",
    "C106_ctw_predict",
    "C106_kt_agrees",
    "C106_ctw_agrees",
    "C106_ptw",
    "C106_fmn"
   ],
   "note": "The arithmetic is a parameter with bounded relative error (as in C72, C73, C101, C105); quotients must not be tiny, which excludes underflow for the lengths allowed. Sums of KT start from the empty sum and go from left to right. Weights are 1. FMN over CTW is with the default store."
  },
  {
   "property": "C107",
   "status": "proved",
   "theorems": [
    "C107_ptw_follows",
    "C107_total",
    "C107_values",
    "C107_ptw_predict"
   ],
   "note": "The arithmetic is a parameter with bounded relative error (as in C72, C73, C105, C106). FMN on top is in C105 and C106; its values cannot be compared with those of exact arithmetic, since the models retained may differ. Weights are 1. What PTW predicts without an update is covered over base models whose prediction is what their update returns (KT, CTW over KT, CTW_KT), not over another PTW."
  },
  {
   "property": "C108",
   "status": "partial",
   "theorems": [
    "C108_dir_params",
    "C108_arg_string_partial",
    "C108_arg_string_refuted",
    "C108_membership",
    "C108_exact_match_partial",
    "C108_match_both",
    "C108_exact_match_refuted",
    "C108_lists_refuted",
    "C108_unit_vector",
    "C108_unit_vectors_differ",
    "C108_unit_outside",
    "C108_unit_negative_refuted"
   ],
   "note": "get_dir_params, confirm_membership and unit vectors for labels 0 to n-1 are proved as stated. Refuted: values with white space are not quoted in params_to_arg_string (proved for arguments that are single words); dicts_exact_match compares one way only and raises for unhashable values (proved: it tells whether the second dictionary extends the first; both ways together mean equality); negative labels are taken for other classes."
  },
  {
   "property": "C109",
   "status": "proved",
   "theorems": [
    "C109_coder",
    "C109_follows",
    "C109_kt",
    "C109_ptw",
    "C109_fmn",
    "C109_fmn_competes",
    "C109_fmn_drift"
   ],
   "note": "The arithmetic, including the product of the range and the probability, is a parameter with bounded error (as in C72, C73, C103, C105 to C107). This is about the size of the code; that decoding may go wrong when encoder and decoder round differently is C103."
  },
  {
   "property": "C110",
   "status": "proved",
   "theorems": [
    "C110_learner",
    "C110_ptw",
    "C110_fmn",
    "C110_ctw",
    "C110_ptw_ctw",
    "C110_fmn_ctw"
   ],
   "note": "The arithmetic is a parameter with bounded relative error (as in C72, C73, C105 to C107). Weights are 1. For FMN the store is LogStore (of which the first model is always retained)."
  },
  {
   "property": "C111",
   "status": "proved",
   "theorems": [
    "C111_kt_learns",
    "C111_sad_learns",
    "C111_ctw_any",
    "C111_ctw",
    "C111_ctw_sad",
    "C111_ptw_ctw_any",
    "C111_fmn_ctw_any",
    "C111_ptw",
    "C111_fmn",
    "C111_fmn_ctw",
    "C111_fmn_ctw_sad",
    "C111_kt_rounded",
    "C111_fmn_ctw_rounded"
   ],
   "note": "Weights are 1. For FMN the store is LogStore. SAD is treated in exact arithmetic only. The arithmetic of the rounded theorems is a parameter with bounded relative error (as in C105, C106)."
  },
  {
   "property": "C112",
   "status": "proved",
   "theorems": [
    "C112_ctw",
    "C112_ctw_episodes",
    "C112_ctw_kt",
    "C112_ctw_sad",
    "C112_ptw",
    "C112_fmn",
    "C112_learners_ptw",
    "C112_ptw_kt",
    "C112_fmn_kt",
    "C112_learners_ptw_kt",
    "C112_fmn_sad"
   ],
   "note": "Weights are 1; exact arithmetic. For ctw.FMN the store is LogStore. The base models of PTW and FMN are given no history, as in the code."
  },
  {
   "property": "C113",
   "status": "proved",
   "theorems": [
    "C113_learner",
    "C113_kt",
    "C113_kt_measure"
   ],
   "note": "Weights are 1; exact arithmetic. The base model must give a probability measure, as KT does; SAD does not once every symbol has been seen (C07). That log_predict of CTW over PTW need not be one is C96."
  },
  {
   "property": "C114",
   "status": "proved",
   "theorems": [
    "C114_learns",
    "C114_ctw_kt",
    "C114_ptw",
    "C114_fmn",
    "C114_fmn_ctw_kt",
    "C114_factorized",
    "C114_factorized_kt",
    "C114_factorized_sad"
   ],
   "note": "Weights are 1, as Factored passes no weight on (C32); exact arithmetic. For FMN the store is LogStore. The factors are of one class; the mix with Dumb is in C32 and C71. Factorize of ctw.py does not return the class Factorized (C97); the theorems are about its objects."
  },
  {
   "property": "C115",
   "status": "proved",
   "theorems": [
    "C115_learns",
    "C115_ptw",
    "C115_fmn",
    "C115_ctw_kt",
    "C115_fmn_ctw_kt"
   ],
   "note": "The members are of one class (a sum type covers several) and distinct objects; C08 shows what goes wrong when an object is listed twice. Exact arithmetic. For FMN the store is LogStore."
  }
 ]
}