{
 "claims": [
  {
   "property": "C01",
   "status": "proved",
   "theorems": [
    "C01_stored_keys_found",
    "C01_lone_ff_lost",
    "C01_refuted",
    "C01_without_dense",
    "C01_zero_length_suffix_refuted"
   ],
   "note": "Complete case split: stored keys are always found except for the lone 0xFF key set, where they are always lost."
  },
  {
   "property": "C02",
   "status": "proved",
   "theorems": [
    "C02_lookup_exact",
    "C02_lookup_true_only_on_match",
    "C02_lookup_true_on_match",
    "C02_zero_byte_refuted"
   ],
   "note": "Exact answer; the zero-byte exception has a witness. The upper bound assumes the size limit of C29 or zero bytes after the label array."
  },
  {
   "property": "C03",
   "status": "proved",
   "theorems": [
    "C03_split_invisible",
    "C03_zero_byte_refuted",
    "C03_without_dense_refuted"
   ],
   "note": "Equality for every pair of ratios, with witnesses for both exceptions."
  },
  {
   "property": "C22",
   "status": "proved",
   "theorems": [
    "C22_duplicates_ignored"
   ],
   "note": "Equality of the built filters for every key list and configuration."
  },
  {
   "property": "C29",
   "status": "proved",
   "theorems": [
    "C29_create_succeeds",
    "C29_small_total",
    "C29_small_tails",
    "C29_program_returns",
    "C29_create_exact",
    "C29_long_prefix_refuted",
    "C29_suffix_without_dense_refuted",
    "C29_ratio_zero_refuted"
   ],
   "note": "The exact size limit is proved up to 8,388,607 bytes of distinguishing prefixes."
  },
  {
   "property": "C28",
   "status": "proved",
   "theorems": [
    "C28_no_fault",
    "C28_lookup_no_fault",
    "C28_label_overread_refuted",
    "C28_shift_refuted",
    "C28_count_refuted",
    "C28_lone_ff_refuted",
    "C28_empty_seek_refuted",
    "C28_restored_refuted"
   ],
   "note": "The literal claim is false; proved in the corrected form, with a witness for every exception."
  },
  {
   "property": "C31",
   "status": "proved",
   "theorems": [
    "C31_hash_suffix_exact",
    "C31_no_more_than_25",
    "C31_long_hash_refuted"
   ],
   "note": ""
  },
  {
   "property": "C32",
   "status": "proved",
   "theorems": [
    "C32_real_suffix_exact"
   ],
   "note": ""
  },
  {
   "property": "C16",
   "status": "proved",
   "theorems": [
    "C16_rank"
   ],
   "note": ""
  },
  {
   "property": "C17",
   "status": "proved",
   "theorems": [
    "C17_select",
    "C17_leading_zero_refuted"
   ],
   "note": ""
  },
  {
   "property": "C18",
   "status": "proved",
   "theorems": [
    "C18_next_set_bit",
    "C18_prev_set_bit",
    "C18_end_overshoot_refuted"
   ],
   "note": "Exact distances, with a witness for the overshoot at the end."
  },
  {
   "property": "C19",
   "status": "proved",
   "theorems": [
    "C19_concatenation",
    "C19_dirty_tail_refuted",
    "C19_word_after_end_refuted"
   ],
   "note": ""
  },
  {
   "property": "C20",
   "status": "proved",
   "theorems": [
    "C20_search",
    "C20_search_greater",
    "C20_variants_agree",
    "C20_greater_variants_agree",
    "C20_simd_overread_refuted"
   ],
   "note": ""
  },
  {
   "property": "C21",
   "status": "proved",
   "theorems": [
    "C21_suffixes_read_back",
    "C21_wide_shift_refuted"
   ],
   "note": ""
  },
  {
   "property": "C27",
   "status": "proved",
   "theorems": [
    "C27_order",
    "C27_roundtrip",
    "C27_string_roundtrip",
    "C27_shape",
    "C27_any",
    "C27_short_string_refuted"
   ],
   "note": ""
  },
  {
   "property": "C35",
   "status": "proved",
   "theorems": [
    "C35_suxpopcount",
    "C35_popcountLinear",
    "C35_select64",
    "C35_select512",
    "C35_selectLinear",
    "C35_select64_naive_none",
    "C35_selectLinear_none",
    "C35_selectLinear_overread_refuted"
   ],
   "note": "select64_broadword is C52."
  },
  {
   "property": "C23",
   "status": "proved",
   "theorems": [
    "C23_levels",
    "C23_dense_levels",
    "C23_builder_returns",
    "C23_lone_ff_refuted"
   ],
   "note": "Builder vectors of every level, sparse and dense, against a prefix-set specification; the lone 0xFF key set is the one exception for the dense bitmaps."
  },
  {
   "property": "C30",
   "status": "proved",
   "theorems": [
    "C30_height",
    "C30_cutoff",
    "C30_fraction_refuted",
    "C30_without_dense"
   ],
   "note": "Height and cut-off level; the claim that dense levels stay below the fraction is false and replaced by the exact rule."
  },
  {
   "property": "C06",
   "status": "proved",
   "theorems": [
    "C06_forward_visits_all",
    "C06_lone_ff_refuted",
    "C06_without_dense_refuted"
   ],
   "note": ""
  },
  {
   "property": "C07",
   "status": "proved",
   "theorems": [
    "C07_backward_visits_all",
    "C07_backward_skips_zero",
    "C07_backward_all_zero",
    "C07_zero_byte_refuted",
    "C07_all_zero_refuted"
   ],
   "note": "Complete case split over keys that start with byte 0, with witnesses for both exceptions."
  },
  {
   "property": "C10",
   "status": "proved",
   "theorems": [
    "C10_moves_exact",
    "C10_next_then_prev",
    "C10_prev_then_next",
    "C10_next_then_prev_exact",
    "C10_zero_byte_refuted"
   ],
   "note": "Iterators are compared by everything a caller can observe after any further moves. Iterators obtained by seeks are not included in \"reached\"."
  },
  {
   "property": "C12",
   "status": "proved",
   "theorems": [
    "C12_suffix_bits",
    "C12_full_word_lost",
    "C12_full_word_refuted"
   ],
   "note": ""
  },
  {
   "property": "C04",
   "status": "proved",
   "theorems": [
    "C04_range_finds_key",
    "C04_past_prefix_key_refuted",
    "C04_last_node_refuted",
    "C04_ends_early_refuted",
    "C04_short_key_refuted",
    "C04_short_bound_refuted",
    "C04_lone_ff_refuted"
   ],
   "note": "True outside the listed exceptions; every exception has a false negative as witness. The exceptions are not claimed to be tight (a trap need not lead to a wrong answer)."
  },
  {
   "property": "C05",
   "status": "proved",
   "theorems": [
    "C05_stored_ends",
    "C05_lone_ff_refuted"
   ],
   "note": ""
  },
  {
   "property": "C08",
   "status": "proved",
   "theorems": [
    "C08_seek_greater",
    "C08_seek_stored",
    "C08_past_prefix_key_refuted",
    "C08_ends_early_refuted",
    "C08_short_key_refuted",
    "C08_exclusive_refuted"
   ],
   "note": "Traps are excluded; witnesses show wrong results for them."
  },
  {
   "property": "C09",
   "status": "proved",
   "theorems": [
    "C09_seek_less",
    "C09_seek_less_exact",
    "C09_two_steps_refuted",
    "C09_above_refuted",
    "C09_exclusive_refuted"
   ],
   "note": "Traps are excluded."
  },
  {
   "property": "C11",
   "status": "proved",
   "theorems": [
    "C11_compare_sound",
    "C11_prefix_key_refuted",
    "C11_short_key_refuted"
   ],
   "note": ""
  },
  {
   "property": "C24",
   "status": "proved",
   "theorems": [
    "C24_range_ignores_history"
   ],
   "note": ""
  },
  {
   "property": "C37",
   "status": "proved",
   "theorems": [
    "C37_range_has_cause",
    "C37_code_clash_refuted"
   ],
   "note": ""
  },
  {
   "property": "C36",
   "status": "proved",
   "theorems": [
    "C36_no_false_negative",
    "C36_exact",
    "C36_whole_string_refuted",
    "C36_hash",
    "C36_murmur",
    "C36_integers"
   ],
   "note": "In the first three the hash function and the rounding of bits_per_key * 0.69 are arbitrary."
  },
  {
   "property": "C13",
   "status": "proved",
   "theorems": [
    "C13_round_trip",
    "C13_same_answers",
    "C13_same_program",
    "C13_same_lookup_refuted"
   ],
   "note": "Answers are equal when the memory behind the labels is quiet; the witness shows a changed answer otherwise."
  },
  {
   "property": "C14",
   "status": "proved",
   "theorems": [
    "C14_exact_size",
    "C14_unaligned_refuted"
   ],
   "note": ""
  },
  {
   "property": "C15",
   "status": "proved",
   "theorems": [
    "C15_any_aligned_address",
    "C15_unaligned_refuted"
   ],
   "note": "True for aligned addresses only; the counterexample fails at all seven residues."
  },
  {
   "property": "C33",
   "status": "proved",
   "theorems": [
    "C33_report_built",
    "C33_report_restored",
    "C33_refuted"
   ],
   "note": "The claim that the report covers the arrays is false; the theorems give the exact difference."
  },
  {
   "property": "C34",
   "status": "proved",
   "theorems": [
    "C34_destroy",
    "C34_refuted"
   ],
   "note": "All but one array are released; the theorem names the leaked one."
  },
  {
   "property": "C25",
   "status": "proved",
   "theorems": [
    "C25_readers",
    "C25_no_fault",
    "C25_two_ranges_refuted"
   ],
   "note": "Concurrent lookupRange is refuted; the rest is proved for every interleaving of atomic steps (statements that touch iter_ or iter2_)."
  },
  {
   "property": "C26",
   "status": "proved",
   "theorems": [
    "C26_count_exact",
    "C26_count_within_two",
    "C26_count_stored_exact",
    "C26_count_iterators",
    "C26_count_past_end",
    "C26_count_invalid",
    "C26_deepest_faults",
    "C26_deepest_iterators_fault",
    "C26_left_not_sought_refuted",
    "C26_no_dense_refuted",
    "C26_no_room_refuted",
    "C26_left_not_stored_refuted",
    "C26_last_level_prefix_refuted",
    "C26_byte_zero_refuted",
    "C26_byte_ff_refuted"
   ],
   "note": "The promise of the header is false; proved under the stated conditions, each with a witness that it is needed."
  },
  {
   "property": "C38",
   "status": "proved",
   "theorems": [
    "C38_integer_lookup",
    "C38_integer_range",
    "C38_fixed_range",
    "C38_fixed_seek",
    "C38_fixed_count",
    "C38_last_node_refuted",
    "C38_lone_refuted"
   ],
   "note": ""
  },
  {
   "property": "C39",
   "status": "proved",
   "theorems": [
    "C39_selection",
    "C39_point",
    "C39_lone_ff_refuted",
    "C39_mixed_refuted",
    "C39_zero_percent_refuted"
   ],
   "note": "Key files are arguments of the model; timing and printing are not modelled."
  },
  {
   "property": "C40",
   "status": "proved",
   "theorems": [
    "C40_upper",
    "C40_run",
    "C40_outcome",
    "C40_integer_range",
    "C40_last_node_refuted",
    "C40_bloom_refuted",
    "C40_wrap_refuted"
   ],
   "note": ""
  },
  {
   "property": "C41",
   "status": "proved",
   "theorems": [
    "C41_arguments",
    "C41_ignored",
    "C41_arf",
    "C41_count",
    "C41_modify",
    "C41_alter_byte_refuted",
    "C41_count_refuted"
   ],
   "note": ""
  },
  {
   "property": "C42",
   "status": "proved",
   "theorems": [
    "C42_words",
    "C42_emails",
    "C42_integers",
    "C42_numbers",
    "C42_any_integers",
    "C42_missing",
    "C42_email_run",
    "C42_integer_run",
    "C42_email_report",
    "C42_integer_report",
    "C42_last_twice_refuted",
    "C42_empty_refuted",
    "C42_stale_refuted"
   ],
   "note": "A file is its contents."
  },
  {
   "property": "C43",
   "status": "proved",
   "theorems": [
    "C43_arguments",
    "C43_point",
    "C43_range",
    "C43_remainder_refuted",
    "C43_no_threads_refuted",
    "C43_start_refuted",
    "C43_negatives_refuted",
    "C43_race_refuted"
   ],
   "note": "Threads interleave between the statements that touch shared state."
  },
  {
   "property": "C44",
   "status": "proved",
   "theorems": [
    "C44_output",
    "C44_other_keys",
    "C44_range_refuted",
    "C44_shift_refuted"
   ],
   "note": "The text written to std::cout, line by line."
  },
  {
   "property": "C45",
   "status": "proved",
   "theorems": [
    "C45_suffix_fault",
    "C45_create_exact",
    "C45_ends",
    "C45_seek",
    "C45_seek_less",
    "C45_less_refuted",
    "C45_range_finds_key",
    "C45_range_cause",
    "C45_range_fault",
    "C45_count_fault",
    "C45_restored"
   ],
   "note": ""
  },
  {
   "property": "C46",
   "status": "proved",
   "theorems": [
    "C46_create_exact",
    "C46_stored_found",
    "C46_admits",
    "C46_rejects",
    "C46_one_key_refuted",
    "C46_zero_byte_refuted",
    "C46_seek",
    "C46_ends",
    "C46_past_prefix_key_refuted"
   ],
   "note": ""
  },
  {
   "property": "C47",
   "status": "proved",
   "theorems": [
    "C47_create",
    "C47_height",
    "C47_stored_found",
    "C47_admits",
    "C47_rejects",
    "C47_lone_ff_refuted",
    "C47_seek",
    "C47_ends",
    "C47_empty_refuted",
    "C47_short_key_refuted",
    "C47_stuck_refuted"
   ],
   "note": ""
  },
  {
   "property": "C48",
   "status": "proved",
   "theorems": [
    "C48_sparse_seek",
    "C48_sparse_count",
    "C48_sparse_deepest_faults",
    "C48_sparse_room_refuted",
    "C48_dense_seek",
    "C48_dense_count",
    "C48_dense_last_byte_refuted",
    "C48_dense_zero_byte_refuted",
    "C48_dense_prefix_refuted"
   ],
   "note": ""
  },
  {
   "property": "C49",
   "status": "proved",
   "theorems": [
    "C49_height",
    "C49_lookup",
    "C49_empty",
    "C49_range",
    "C49_count",
    "C49_greater",
    "C49_last",
    "C49_less",
    "C49_first",
    "C49_first_refuted"
   ],
   "note": ""
  },
  {
   "property": "C50",
   "status": "proved",
   "theorems": [
    "C50_iterators",
    "C50_keys",
    "C50_no_room_refuted",
    "C50_trap_refuted"
   ],
   "note": ""
  },
  {
   "property": "C51",
   "status": "proved",
   "theorems": [
    "C51_sparse_written",
    "C51_sparse_figures",
    "C51_sparse_answers",
    "C51_same_lookup_refuted",
    "C51_dense_written",
    "C51_dense_same"
   ],
   "note": ""
  },
  {
   "property": "C52",
   "status": "proved",
   "theorems": [
    "C52_broadword",
    "C52_mirror",
    "C52_wide",
    "C52_same_refuted"
   ],
   "note": ""
  },
  {
   "property": "C53",
   "status": "proved",
   "theorems": [
    "C53_none",
    "C53_hash",
    "C53_mixed",
    "C53_real",
    "C53_longer_real_refuted"
   ],
   "note": ""
  },
  {
   "property": "C54",
   "status": "proved",
   "theorems": [
    "C54_seek",
    "C54_less",
    "C54_compare",
    "C54_range",
    "C54_one_place"
   ],
   "note": ""
  },
  {
   "property": "C55",
   "status": "proved",
   "theorems": [
    "C55_same",
    "C55_fewer",
    "C55_longer",
    "C55_split_refuted",
    "C55_order_refuted",
    "C55_longer_refuted"
   ],
   "note": ""
  },
  {
   "property": "C56",
   "status": "proved",
   "theorems": [
    "C56_size",
    "C56_memory",
    "C56_leaves",
    "C56_bound"
   ],
   "note": ""
  },
  {
   "property": "C57",
   "status": "proved",
   "theorems": [
    "C57_sparse_seek",
    "C57_sparse_compare",
    "C57_dense_seek",
    "C57_dense_compare",
    "C57_bare_seek",
    "C57_bare_less",
    "C57_bare_range"
   ],
   "note": ""
  },
  {
   "property": "C58",
   "status": "proved",
   "theorems": [
    "C58_hash",
    "C58_one_group",
    "C58_two_groups_refuted",
    "C58_rejects",
    "C58_16_refuted",
    "C58_earlier_refuted"
   ],
   "note": ""
  },
  {
   "property": "C59",
   "status": "proved",
   "theorems": [
    "C59_bytes_used",
    "C59_faults",
    "C59_cut_short",
    "C59_damage_refuted"
   ],
   "note": ""
  },
  {
   "property": "C60",
   "status": "proved",
   "theorems": [
    "C60_split",
    "C60_larger",
    "C60_point",
    "C60_seek",
    "C60_resume",
    "C60_split_refuted",
    "C60_larger_prefix_refuted",
    "C60_larger_short_refuted",
    "C60_point_refuted",
    "C60_seek_refuted"
   ],
   "note": ""
  },
  {
   "property": "C61",
   "status": "proved",
   "theorems": [
    "C61_report",
    "C61_invalid",
    "C61_clear",
    "C61_new",
    "C61_flag_move",
    "C61_flag_first",
    "C61_flag_last",
    "C61_flag_less"
   ],
   "note": ""
  },
  {
   "property": "C62",
   "status": "proved",
   "theorems": [
    "C62_load",
    "C62_load_missing",
    "C62_exit",
    "C62_no_load",
    "C62_no_txn",
    "C62_short",
    "C62_report",
    "C62_program",
    "C62_rate_refuted",
    "C62_wrap_refuted"
   ],
   "note": ""
  },
  {
   "property": "C63",
   "status": "proved",
   "theorems": [
    "C63_grow",
    "C63_point",
    "C63_range",
    "C63_real_refuted",
    "C63_range_refuted"
   ],
   "note": ""
  },
  {
   "property": "C65",
   "status": "proved",
   "theorems": [
    "C65_one_block",
    "C65_short",
    "C65_seed",
    "C65_integers",
    "C65_append",
    "C65_undo",
    "C65_same_hash",
    "C65_two_blocks_refuted"
   ],
   "note": ""
  },
  {
   "property": "C64",
   "status": "proved",
   "theorems": [
    "C64_exit",
    "C64_logged",
    "C64_randint_load",
    "C64_randint_txn",
    "C64_reverse",
    "C64_injective",
    "C64_email",
    "C64_queries_loaded",
    "C64_email_enough",
    "C64_email_short",
    "C64_email_none",
    "C64_timestamp",
    "C64_timestamp_short",
    "C64_numbers",
    "C64_last_line_refuted",
    "C64_no_at_refuted"
   ],
   "note": ""
  }
 ]
}