{
 "claims": [
  {
   "property": "C01",
   "status": "proved",
   "theorems": [
    "C01_partition_and_shards_cover",
    "C01_without_epoch"
   ],
   "note": ""
  },
  {
   "property": "C02",
   "status": "proved",
   "theorems": [
    "C02_order_is_permutation",
    "C02_order_total",
    "C02_default_every_n",
    "C02_default_every_n_refuted",
    "C02_default_every_n_refuses"
   ],
   "note": "default_every_n drops num_seqs mod n sequences (C02_default_every_n_refuted), as the statement says; _refuted shows that it is no permutation in general."
  },
  {
   "property": "C03",
   "status": "proved",
   "theorems": [
    "C03_sorted",
    "C03_sorted_reverse",
    "C03_laplace"
   ],
   "note": "The laplace theorem fixes the number of bins from the method string."
  },
  {
   "property": "C04",
   "status": "proved",
   "theorems": [
    "C04_full_epoch_is_one_pass",
    "C04_unique_tags",
    "C04_repeat_and_filter",
    "C04_filter_with_partition_refuted",
    "C04_random_order"
   ],
   "note": "C04_filter_with_partition_refuted is a finding: a tag filter together with partition_epoch raises AssertionError for a sub-epoch without wanted sequences."
  },
  {
   "property": "C05",
   "status": "proved",
   "theorems": [
    "C05_distribute_evenly",
    "C05_too_few_files",
    "C05_full_epoch_reads_every_file_once",
    "C05_histories_total"
   ],
   "note": "For an arbitrary comparison oracle in place of the float comparisons."
  },
  {
   "property": "C06",
   "status": "proved",
   "theorems": [
    "C06_worker_serves_requests",
    "C06_memory_bound",
    "C06_skipping_refuted",
    "C06_reread_fails"
   ],
   "note": "C06_skipping_refuted documents a limit of the interface: reads that skip at least buffer_size sequences."
  },
  {
   "property": "C07",
   "status": "proved",
   "theorems": [
    "C07_seq_order_sharding",
    "C07_dedicated_sharding",
    "C07_dedicated_with_filter_refuted",
    "C07_unknown_frac_refuted"
   ],
   "note": "Findings: a tag filter with the dedicated sequence order process, and an unknown completed fraction."
  },
  {
   "property": "C08",
   "status": "proved",
   "theorems": [
    "C08_batching",
    "C08_batching_constant_limits",
    "C08_batching_options",
    "C08_len_filter"
   ],
   "note": ""
  },
  {
   "property": "C09",
   "status": "proved",
   "theorems": [
    "C09_config",
    "C09_bucket_batching",
    "C09_best_fit_in_order"
   ],
   "note": ""
  },
  {
   "property": "C10",
   "status": "proved",
   "theorems": [
    "C10_shuffling",
    "C10_permutation",
    "C10_empty_stream_refuted"
   ],
   "note": "Finding: an empty stream raises AssertionError."
  },
  {
   "property": "C11",
   "status": "proved",
   "theorems": [
    "C11_laplace_ordering",
    "C11_empty_stream_refuted"
   ],
   "note": "Finding: an empty stream raises AssertionError."
  },
  {
   "property": "C12",
   "status": "proved",
   "theorems": [
    "C12_chunks_are_windows",
    "C12_every_frame_is_in_a_chunk",
    "C12_chunks_tile_the_sequence",
    "C12_chunking_pipe",
    "C12_config_sizes_positive",
    "C12_config_accepted",
    "C12_config_step_numbersdict_refuted",
    "C12_config_step_numbersdict",
    "C12_config_step_positive_refuted"
   ],
   "note": "Finding: a step of zero for a second key is accepted."
  },
  {
   "property": "C13",
   "status": "proved",
   "theorems": [
    "C13_collate",
    "C13_padding_loses_nothing",
    "C13_key_clash_refuted"
   ],
   "note": "Finding: C13_key_clash_refuted, data is lost if a data key has the name of a length key."
  },
  {
   "property": "C14",
   "status": "proved",
   "theorems": [
    "C14_behaves_as_lru_list",
    "C14_threads",
    "C14_transparent",
    "C14_bounded",
    "C14_keeps_the_most_recent",
    "C14_set_overwrites_refuted",
    "C14_concurrent_resize_refuted"
   ],
   "note": "Findings: cache_set does not overwrite; a call concurrent with a resize to zero can fail."
  },
  {
   "property": "C15",
   "status": "proved",
   "theorems": [
    "C15_arithmetic_is_pointwise",
    "C15_floordiv",
    "C15_inplace",
    "C15_neg",
    "C15_max_min",
    "C15_max_with_number_refuted",
    "C15_any_compare",
    "C15_any_compare_some_key",
    "C15_any_compare_refuted",
    "C15_equality",
    "C15_equality_transitive_refuted",
    "C15_copy_like",
    "C15_max_value"
   ],
   "note": "Findings: max/min with plain numbers, any_compare and keys given by the broadcast value, equality not transitive."
  },
  {
   "property": "C16",
   "status": "proved",
   "theorems": [
    "C16_exclusive",
    "C16_exclusive_without_old_locks",
    "C16_recovers_from_killed_holder",
    "C16_two_waiters_refuted",
    "C16_late_unlock_refuted"
   ],
   "note": "Mutual exclusion holds while no lock is older than the timeout; findings show what happens otherwise."
  },
  {
   "property": "C17",
   "status": "proved",
   "theorems": [
    "C17_never_truncated",
    "C17_request_gives_the_source",
    "C17_request_succeeds_after_crash",
    "C17_retry_refuted",
    "C17_retry_after_full_disk_refuted",
    "C17_get_file"
   ],
   "note": "Findings: the retries after a full disk never help."
  },
  {
   "property": "C18",
   "status": "proved",
   "theorems": [
    "C18_frees_what_is_needed",
    "C18_oldest_first",
    "C18_spares_files_in_use",
    "C18_removes_old_files",
    "C18_small_wanted_age_refuted"
   ],
   "note": "Finding: a wanted age below 10 seconds."
  },
  {
   "property": "C19",
   "status": "proved",
   "theorems": [
    "C19_touches_the_files_in_use",
    "C19_round",
    "C19_thread_lives",
    "C19_thread_dies_refuted",
    "C19_root_file_refuted"
   ],
   "note": "Findings: the thread can end for ever, see the two _refuted theorems."
  },
  {
   "property": "C20",
   "status": "proved",
   "theorems": [
    "C20_keeps_decays_or_grows",
    "C20_same_answer_again",
    "C20_minimum",
    "C20_constant",
    "C20_minimal_number_of_epochs",
    "C20_newbob_decision",
    "C20_newbob_relative_decision",
    "C20_multi_epoch_interval",
    "C20_multi_epoch_decision",
    "C20_score_choice",
    "C20_score_names",
    "C20_minimum_with_growth_refuted",
    "C20_decay_never_raises_refuted",
    "C20_zero_score_refuted",
    "C20_thresholds_refuted"
   ],
   "note": "Findings: growth below one, minimum after a decay, score zero, thresholds."
  },
  {
   "property": "C21",
   "status": "proved",
   "theorems": [
    "C21_best_epoch",
    "C21_latest_can_be_best_refuted"
   ],
   "note": "Finding: the latest epoch is never the answer, as stated in the property it must beat the latest."
  },
  {
   "property": "C22",
   "status": "proved",
   "theorems": [
    "C22_always_complete",
    "C22_restart",
    "C22_any_meta_refuted",
    "C22_old_format"
   ],
   "note": "For meta data which better_repr writes faithfully."
  },
  {
   "property": "C23",
   "status": "proved",
   "theorems": [
    "C23_deletes_exactly",
    "C23_keeps_last",
    "C23_keeps_some_scored_refuted",
    "C23_never_fails_refuted",
    "C23_unknown_option_refuted"
   ],
   "note": "Findings: scores equal in all saved epochs, unknown epochs, misspelled options."
  },
  {
   "property": "C24",
   "status": "proved",
   "theorems": [
    "C24_all_arrive",
    "C24_closed_stream",
    "C24_serialize",
    "C24_size_limit"
   ],
   "note": ""
  },
  {
   "property": "C25",
   "status": "proved",
   "theorems": [
    "C25_recurrent_batches",
    "C25_total_limit",
    "C25_total_limit_refuted",
    "C25_every_chunk_refuted",
    "C25_refuses",
    "C25_nonrecurrent_batches",
    "C25_nonrecurrent_max_seqs_refuted"
   ],
   "note": "Findings: total limit exceeded by one, last sequences without frames, non-recurrent limit."
  },
  {
   "property": "C26",
   "status": "proved",
   "theorems": [
    "C26_reads_all_batches",
    "C26_advance_works"
   ],
   "note": ""
  },
  {
   "property": "C27",
   "status": "proved",
   "theorems": [
    "C27_mean_and_variance",
    "C27_min_max_counts",
    "C27_grouping_irrelevant",
    "C27_no_data"
   ],
   "note": ""
  },
  {
   "property": "C28",
   "status": "proved",
   "theorems": [
    "C28_positions",
    "C28_loading",
    "C28_random_dataset",
    "C28_sampling_is_cyclic",
    "C28_sampling_order",
    "C28_unknown_sizes",
    "C28_unknown_sizes_default",
    "C28_data_keys",
    "C28_data_map_conflict_refuted",
    "C28_unknown_sizes_other_ordering",
    "C28_sampling_unused_dataset_refuted",
    "C28_sampling_empty_dataset_refuted",
    "C28_reversed_name_refuted"
   ],
   "note": "Findings: data key conflicts, sampling of unused or empty datasets, name of the reversed order."
  },
  {
   "property": "C29",
   "status": "proved",
   "theorems": [
    "C29_concatenation",
    "C29_all_epochs",
    "C29_predefined_order",
    "C29_empty_inner_epoch_refuted",
    "C29_empty_order_refuted",
    "C29_skipping_refuted"
   ],
   "note": "Findings: empty inner epochs, empty given order, skipping."
  },
  {
   "property": "C30",
   "status": "proved",
   "theorems": [
    "C30_tiling",
    "C30_joined",
    "C30_no_failure",
    "C30_end",
    "C30_plain",
    "C30_repeat_keeps_block_count",
    "C30_pad_keeps_alignment",
    "C30_pad_with_postfix_refuted",
    "C30_empty_part_refuted"
   ],
   "note": "Findings: padding with postfix removal, empty sub-sequences."
  },
  {
   "property": "C31",
   "status": "proved",
   "theorems": [
    "C31_right_answers",
    "C31_produced_once_in_order",
    "C31_num_timesteps",
    "C31_num_timesteps_gap_refuted",
    "C31_empty_epoch_refuted",
    "C31_load_behind_end_refuted"
   ],
   "note": "Findings: gaps, empty epochs, load behind the end."
  },
  {
   "property": "C32",
   "status": "proved",
   "theorems": [
    "C32_history",
    "C32_pushed_items_come_next"
   ],
   "note": ""
  },
  {
   "property": "C33",
   "status": "proved",
   "theorems": [
    "C33_terminates",
    "C33_finds"
   ],
   "note": ""
  },
  {
   "property": "C34",
   "status": "proved",
   "theorems": [
    "C34_step_nearest",
    "C34_linear_between",
    "C34_linear_outside",
    "C34_linear_range"
   ],
   "note": ""
  },
  {
   "property": "C35",
   "status": "proved",
   "theorems": [
    "C35_comments_removed",
    "C35_no_comments_unchanged",
    "C35_line_comment_at_end_refuted",
    "C35_slash_at_end_of_comment_refuted",
    "C35_line_break_in_string_refuted"
   ],
   "note": "Findings: comments at the end, slash before the end mark, line breaks in strings."
  },
  {
   "property": "C36",
   "status": "proved",
   "theorems": [
    "C36_uniq",
    "C36_uniq_generic",
    "C36_uniq_generic_like_uniq_refuted",
    "C36_find_ranges",
    "C36_find_ranges_refuses",
    "C36_slice_pad_zeros",
    "C36_slice_before_refuted"
   ],
   "note": "Findings: uniq_generic, window before the array."
  },
  {
   "property": "C37",
   "status": "proved",
   "theorems": [
    "C37_read_back",
    "C37_deterministic",
    "C37_injective",
    "C37_singletons_refuted",
    "C37_nested_singletons_refuted",
    "C37_mixed_keys_refuted"
   ],
   "note": "Findings: tuples of one element, keys of different types."
  },
  {
   "property": "C38",
   "status": "proved",
   "theorems": [
    "C38_resumes_after_last_completed",
    "C38_always_resumable",
    "C38_keep_last_one_refuted",
    "C38_start_epoch_refuted",
    "C38_start_epoch",
    "C38_saves_when_due",
    "C38_loads_last_completed",
    "C38_loads_matching_epoch",
    "C38_start_and_load_epoch_refuted"
   ],
   "note": "Findings: keep_last_n 1 with a save interval, start_epoch without checkpoints."
  },
  {
   "property": "C39",
   "status": "proved",
   "theorems": [
    "C39_shortest_in_order",
    "C39_mean",
    "C39_mean_bounded_refuted",
    "C39_no_needless_removal_refuted",
    "C39_empty_refuted",
    "C39_keeps_order",
    "C39_other_epochs",
    "C39_configured_epochs",
    "C39_in_order",
    "C39_accepts",
    "C39_refuses",
    "C39_accepts_open_start",
    "C39_open_range_refuted"
   ],
   "note": "Findings: mean not bounded, needless removal, empty list, open ranges."
  },
  {
   "property": "C40",
   "status": "proved",
   "theorems": [
    "C40_covers_all",
    "C40_chunk_positions",
    "C40_same_lengths",
    "C40_short_stream_refuted",
    "C40_min_chunk_refuted"
   ],
   "note": "Findings: streams of at most one frame, minimal chunk size."
  },
  {
   "property": "C41",
   "status": "partial",
   "theorems": [
    "C41_split_keeps_sequences",
    "C41_loop_keeps_sequences_partial",
    "C41_real_batch_cannot_be_split_refuted",
    "C41_forward_fails_on_oom_refuted",
    "C41_no_batch_is_readable_and_splittable",
    "C41_split_sizes",
    "C41_empty_part_refuted"
   ],
   "note": "The property is false of the code: C41_forward_fails_on_oom_refuted. The partial theorem is about the loop for batches without the meta entries which make the real ones unsplittable."
  },
  {
   "property": "C42",
   "status": "proved",
   "theorems": [
    "C42_save",
    "C42_state_by_name",
    "C42_load_succeeds",
    "C42_old_file",
    "C42_frozen_moved_refuted"
   ],
   "note": "Finding: C42_frozen_moved_refuted."
  },
  {
   "property": "C43",
   "status": "proved",
   "theorems": [
    "C43_weight_decay_groups",
    "C43_one_group",
    "C43_full_param_name_refuted",
    "C43_accepted_options",
    "C43_unused_option_refuted"
   ],
   "note": "Findings: full_param_name is not the full name; unused options are refused. param_groups_custom is not modelled."
  },
  {
   "property": "C44",
   "status": "proved",
   "theorems": [
    "C44_effective_learning_rate",
    "C44_multiplier_refuted"
   ],
   "note": "Finding: learning_rate_multiplier has no effect."
  },
  {
   "property": "C45",
   "status": "proved",
   "theorems": [
    "C45_word_kept",
    "C45_merge_order",
    "C45_merge_deterministic",
    "C45_vocabulary",
    "C45_sentence_kept",
    "C45_word_by_word",
    "C45_no_empty_symbols_refuted",
    "C45_any_word_kept_refuted"
   ],
   "note": "Findings: C45_no_empty_symbols_refuted, C45_any_word_kept_refuted."
  },
  {
   "property": "C46",
   "status": "proved",
   "theorems": [
    "C46_sample_is_split",
    "C46_all_splits",
    "C46_sentence",
    "C46_split_reads_as_word",
    "C46_split_is_marked_word",
    "C46_split_labels",
    "C46_unknown_label_refuted"
   ],
   "note": "Finding: C46_unknown_label_refuted."
  },
  {
   "property": "C47",
   "status": "proved",
   "theorems": [
    "C47_file_accepted",
    "C47_file_labels",
    "C47_lines_accepted",
    "C47_id_label_id",
    "C47_label_id_label",
    "C47_get_seq_inverse",
    "C47_sentence_round_trip",
    "C47_unknown_words",
    "C47_no_unknown",
    "C47_characters",
    "C47_label_id_label_refuted",
    "C47_id_label_id_refuted",
    "C47_get_seq_inverse_postfix_refuted",
    "C47_unknown_id_refuted",
    "C47_from_labels_class",
    "C47_from_labels_refuted"
   ],
   "note": "Findings: two labels for an id, repeated labels, postfix, unknown_label=-1, options dropped by create_vocab_from_labels. The other special symbols and the file cache are not modelled."
  },
  {
   "property": "C48",
   "status": "proved",
   "theorems": [
    "C48_utf8_round_trip",
    "C48_utf8_inverse",
    "C48_utf8_postfix_refuted"
   ],
   "note": "Python's utf8 codec itself is modelled, too. Finding: C48_utf8_postfix_refuted."
  },
  {
   "property": "C49",
   "status": "proved",
   "theorems": [
    "C49_round_trip",
    "C49_accepts",
    "C49_close_crash_safe",
    "C49_sizes_key_refuted",
    "C49_data_key_refuted",
    "C49_declared_sizes"
   ],
   "note": "C49_round_trip: round trip for every history of batches. C49_accepts: documented calls are never refused. C49_close_crash_safe: close() for every crash point. Findings: a user key 'sizes' next to several dynamic axes is silently mixed up (C49_sizes_key_refuted); a key 'data' is written but the file cannot be opened (C49_data_key_refuted). h5py and dtypes are not modelled."
  },
  {
   "property": "C50",
   "status": "proved",
   "theorems": [
    "C50_sizes_agree",
    "C50_concatenation",
    "C50_accepts",
    "C50_target_only_refuted",
    "C50_add_file_after_lookup_refuted"
   ],
   "note": "C50_concatenation, C50_accepts. Findings: files without input data where a later file has more keys are accepted but read with the lengths of other keys (C50_target_only_refuted); add_file after a lookup by tag: new tags are not found (C50_add_file_after_lookup_refuted)."
  },
  {
   "property": "C51",
   "status": "proved",
   "theorems": [
    "C51_extended",
    "C51_undeclared_refuted",
    "C51_labels_refuted"
   ],
   "note": "C51_extended. Findings: with two extra keys that are not declared, the first appended sequence gets wrong lengths and the following data is shifted (C51_undeclared_refuted); labels of targets are replaced by a dummy (C51_labels_refuted)."
  },
  {
   "property": "C52",
   "status": "proved",
   "theorems": [
    "C52_copy",
    "C52_accepts",
    "C52_between_refuted"
   ],
   "note": "C52_copy, C52_accepts. Finding: if 'data' is a target and another target is between 'classes' and 'data' in the order of names (e.g. 'context'), then the lengths are swapped (C52_between_refuted). end_seq is inclusive."
  },
  {
   "property": "C53",
   "status": "proved",
   "theorems": [
    "C53_belong_together",
    "C53_sequences_of_epoch",
    "C53_takes_effect",
    "C53_initial",
    "C53_same_epoch_again",
    "C53_default_after_list_refuted",
    "C53_after_failure_refuted"
   ],
   "note": "Findings: default order after a predefined list; initialisation after a failure."
  },
  {
   "property": "C54",
   "status": "proved",
   "theorems": [
    "C54_usable",
    "C54_construct",
    "C54_too_few",
    "C54_control_with_list_refuted"
   ],
   "note": "Finding: list file in another order than that of the control dataset."
  },
  {
   "property": "C55",
   "status": "proved",
   "theorems": [
    "C55_arithmetic",
    "C55_remembered",
    "C55_equality",
    "C55_equal_size",
    "C55_distinct_names",
    "C55_batch_refuted",
    "C55_same_name_refuted"
   ],
   "note": "Proved for any equality under which equal dims have equal sizes, and for the equality of the library for dims with distinct names that are not batch dims (descriptions are read back). Findings: arithmetic with batch dims; static dims of the same name. Examples replay the dim tests of the repository."
  },
  {
   "property": "C56",
   "status": "proved",
   "theorems": [
    "C56_division",
    "C56_distinct_names",
    "C56_product_refuted"
   ],
   "note": "Proved for identity and, with distinct names, for the equality of the library. Finding: false for the division of a product that contains a division."
  },
  {
   "property": "C57",
   "status": "proved",
   "theorems": [
    "C57_dyn_size",
    "C57_dim_value",
    "C57_clipped_refuted",
    "C57_axis_refuted"
   ],
   "note": "Findings: clipped intermediate sums, size of the axis for decreasing functions and for two dynamic dims."
  },
  {
   "property": "C58",
   "status": "proved",
   "theorems": [
    "C58_ctc_language",
    "C58_separate",
    "C58_total",
    "C58_blank_in_targets_refuted"
   ],
   "note": "For targets that contain the blank label the claim is false (shown); the weights are all 0 and not modelled."
  },
  {
   "property": "C59",
   "status": "proved",
   "theorems": [
    "C59_staircase",
    "C59_staircase_loop",
    "C59_staircase_positions",
    "C59_staircase_total",
    "C59_shared",
    "C59_inf_loop"
   ],
   "note": "Loops together with skip limits are modelled, but nothing is claimed about their language. Examples replay tests/test_Fsa.py."
  },
  {
   "property": "C60",
   "status": "proved",
   "theorems": [
    "C60_edit_distance",
    "C60_padding",
    "C60_metric"
   ],
   "note": "Also: independence of the padding, metric laws. Tensor operations are modelled on lists, each batch entry separately; integers are unbounded."
  },
  {
   "property": "C61",
   "status": "proved",
   "theorems": [
    "C61_no_deadlock",
    "C61_terminates",
    "C61_same_steps",
    "C61_deterministic",
    "C61_no_data",
    "C61_accum_refuted",
    "C61_eval_refuted"
   ],
   "note": "Proved for settings where all processes accumulate gradients over the same steps and all evaluation datasets have data. Findings: accum_grad_multiple_step as a function of epoch_continuous differs between processes and hangs (C61_accum_refuted); an evaluation dataset without data fails on rank 0 and hangs the others (C61_eval_refuted); one process without data in an epoch makes all fail (C61_no_data). A collective operation is modelled as a rendezvous of all processes in the same operation; failures and timeouts of the network are not modelled."
  },
  {
   "property": "C62",
   "status": "proved",
   "theorems": [
    "C62_like_single",
    "C62_rank_update_refuted",
    "C62_leftover_refuted"
   ],
   "note": "Holds for updates that do not depend on the process. Findings: gradient noise uses random numbers seeded with the rank, after the averaging of the gradients, so the replicas drift apart (C62_rank_update_refuted); gradients accumulated at the end of the epoch are dropped (C62_leftover_refuted). Exact numbers instead of floats; buffers not modelled."
  },
  {
   "property": "C63",
   "status": "proved",
   "theorems": [
    "C63_averaged",
    "C63_equal",
    "C63_end_refuted"
   ],
   "note": "Finding: there is no averaging at the end of the epoch, so the saved parameters (of rank 0) do not contain what the other processes learned since the last averaging, and after a restart all processes continue from those (C63_end_refuted)."
  },
  {
   "property": "C64",
   "status": "proved",
   "theorems": [
    "C64_order",
    "C64_data",
    "C64_empty",
    "C64_partition_refuted",
    "C64_subset_refuted"
   ],
   "note": "Proved if each background thread ends before the next call (see C66), for orders that, when they have as many sequences as the start cache, have the same sequences as the order of the start cache. Findings: otherwise the order is looked up in the old one: KeyError for the next partition (partition_epoch) when a partition fits in the cache (C64_partition_refuted), or data missing after a successful load for a subset (C64_subset_refuted). Only the input data are modelled, window 1, no shuffle_frames_of_nseqs."
  },
  {
   "property": "C65",
   "status": "proved",
   "theorems": [
    "C65_start_cache",
    "C65_reachable",
    "C65_prefetch",
    "C65_budget",
    "C65_limit_refuted"
   ],
   "note": "What is kept is proved exactly, but the limit is not: the frames that are asked for are never subtracted from the free frames, but added to them when they are deleted (C65_budget: the sum of used and free frames grows by them with each load), so the cache grows over all limits (C65_limit_refuted). A frame of bytes is one unit; the number of free frames is kept when a new order starts with an empty cache."
  },
  {
   "property": "C66",
   "status": "proved",
   "theorems": [
    "C66_one_load",
    "C66_start_cache_refuted"
   ],
   "note": "Proved for a load that starts when no other thread runs. Finding: while the thread for the start cache runs, a load starts a second thread, which marks everything that the first one has allocated as loaded, although the frames are still zero (C66_start_cache_refuted). One step of a thread: the insertion in the table, the update of the set of loaded sequences, the frames of one sequence."
  },
  {
   "property": "C67",
   "status": "proved",
   "theorems": [
    "C67_laplace",
    "C67_read_ahead",
    "C67_error",
    "C67_empty_refuted",
    "C67_size",
    "C67_sequential",
    "C67_laplace_computes"
   ],
   "note": "Finding: a stream without any items gives an AssertionError instead of an empty stream (C67_empty_refuted). The dicts of the stream are separate objects; a function that yields the same object twice before LaplaceOrdering is not modelled (there the fractions are set twice)."
  },
  {
   "property": "C68",
   "status": "proved",
   "theorems": [
    "C68_map_seq",
    "C68_stream",
    "C68_laplace",
    "C68_same_data",
    "C68_fractions",
    "C68_num_seqs",
    "C68_seq_list",
    "C68_construct",
    "C68_unknown_fraction_refuted"
   ],
   "note": "Finding: if the wrapped dataset does not know its fractions, then the entry complete_frac has no value, and even a map_seq that changes nothing gives a TypeError (C68_unknown_fraction_refuted). Fractions are exact rationals (float32 in the code); the check against the template of the outputs is any function of the dict."
  },
  {
   "property": "C69",
   "status": "proved",
   "theorems": [
    "C69_atomic_add",
    "C69_atomic_add_determined",
    "C69_atomic_add_total",
    "C69_select_max",
    "C69_select_max_total",
    "C69_torn_read_refuted"
   ],
   "note": "Finding: the struct of index and value is copied field by field; if another thread writes in between, then for equal scores the kept index need not be the smallest (C69_torn_read_refuted), the score is still the best. Memory is sequentially consistent; the compare-and-swap is of the whole cell and compares exactly (no NaN, no two zeros)."
  },
  {
   "property": "C70",
   "status": "proved",
   "theorems": [
    "C70_viterbi",
    "C70_determined",
    "C70_total"
   ],
   "note": "Scores are any ordered type with a monotonic addition and a least element, as floats without NaN are, including their rounding. If no path has a score above negative infinity, then nothing is said about the labels but their number. That two runs agree needs that the struct is read at once (C69)."
  },
  {
   "property": "C71",
   "status": "proved",
   "theorems": [
    "C71_posteriors",
    "C71_sum_to_one",
    "C71_total"
   ],
   "note": "Exact numbers (a commutative semiring without negative elements and with a quotient) instead of floats in -log space; NaN, which comes from infinity minus infinity, is modelled. The weight and order of float rounding is not."
  },
  {
   "property": "C72",
   "status": "proved",
   "theorems": [
    "C72_ctc_posteriors",
    "C72_ctc_viterbi"
   ],
   "note": "Combines C58, C70 and C71, with their simplifications. The sums are over any alphabet that has the blank and the targets."
  },
  {
   "property": "C73",
   "status": "proved",
   "theorems": [
    "C73_sizes",
    "C73_no_error",
    "C73_dilated_same_refuted",
    "C73_short_refuted"
   ],
   "note": "Findings: \"same\" with an odd filter and a dilation pads (size-1)/2 frames without the dilation, so the raw tensor is shorter than its dim and nothing raises an error (C73_dilated_same_refuted); a sequence shorter than the filter gives an empty output in a batch, but alone an error (C73_short_refuted). \"same\" with a stride only with the consistent padding (behavior version 24). One spatial dim, PyTorch backend, not in an ONNX export."
  },
  {
   "property": "C74",
   "status": "proved",
   "theorems": [
    "C74_batch",
    "C74_other_batch",
    "C74_old_same",
    "C74_old_same_refuted",
    "C74_no_mask_refuted",
    "C74_old_same_crops_refuted"
   ],
   "note": "For \"valid\", integer and \"same\" padding, with masks, \"same\" with a stride only with the consistent padding; before, the padding depends on the longest sequence (C74_old_same_refuted, issue 1693 of the code), for a single sequence it is balanced as documented if the filter is at least as long as the stride (C74_old_same), otherwise frames are cut off at the start (C74_old_same_crops_refuted). Without the mask (before behavior version 23): C74_no_mask_refuted."
  },
  {
   "property": "C75",
   "status": "proved",
   "theorems": [
    "C75_max",
    "C75_avg_valid",
    "C75_avg_even",
    "C75_no_error",
    "C75_avg_same_refuted",
    "C75_same_even_refuted",
    "C75_old_same_refuted"
   ],
   "note": "Findings: average pooling with \"same\" and an odd pool size counts the masked frames at the end of shorter sequences, but not the padding of a single sequence, so the result depends on the batch (C75_avg_same_refuted); for an even pool size zeros are always counted (C75_avg_even). \"same\" with stride 1 and an even pool size always raises an error (C75_same_even_refuted). Before behavior version 24, a pool size below the stride raises an error for some lengths (C75_old_same_refuted)."
  },
  {
   "property": "C76",
   "status": "proved",
   "theorems": [
    "C76_pad",
    "C76_append_tensor",
    "C76_shift_right",
    "C76_shift_left",
    "C76_append_once",
    "C76_shift_tensor_refuted",
    "C76_default_value_refuted"
   ],
   "note": "Findings: shift_right with a tensor with one value per sequence returns the input unshifted, as the backend appends this value on the right whatever the padding is (C76_shift_tensor_refuted); padding after the end of dynamic sequences with the default value None raises an error (C76_default_value_refuted). Constant mode, one axis, amounts as numbers, PyTorch backend."
  },
  {
   "property": "C77",
   "status": "proved",
   "theorems": [
    "C77_reverse",
    "C77_reverse_twice",
    "C77_reverse_empty_refuted",
    "C77_reverse_unhandled_refuted",
    "C77_slice_size",
    "C77_slice_from",
    "C77_slice_range",
    "C77_slice_int",
    "C77_slice_end",
    "C77_slice_refused",
    "C77_step_refuted",
    "C77_tensor_start_refuted",
    "C77_tensor_start_empty",
    "C77_negative_refuted",
    "C77_short_refuted"
   ],
   "note": "Proved for non-empty sequences (reverse), and slices with non-negative start and either sizes inside of the sequences, or no end, or an end inside of all sequences. Findings: a batch with an empty sequence cannot be reversed (C77_reverse_empty_refuted); the step of a slice only changes the sizes but not the frames (C77_step_refuted); a scalar tensor zero as start gives size zero (C77_tensor_start_refuted); negative start or end are errors (C77_negative_refuted); an end after the end of a sequence gives frames after it (C77_short_refuted)."
  },
  {
   "property": "C78",
   "status": "proved",
   "theorems": [
    "C78_same",
    "C78_default_sides",
    "C78_sides",
    "C78_valid",
    "C78_default_value_refuted",
    "C78_short_refuted"
   ],
   "note": "With handling of dynamic dims (behavior version 21), for left + right + 1 = window; \"valid\" if no sequence is shorter than the window. Findings: the default padding value None raises an error for dynamic dims (C78_default_value_refuted); with \"valid\", a sequence shorter than the window gets one window (C78_short_refuted)."
  },
  {
   "property": "C79",
   "status": "proved",
   "theorems": [
    "C79_select",
    "C79_scatter",
    "C79_pack",
    "C79_pack_concat",
    "C79_unpack",
    "C79_select_time",
    "C79_scatter_time",
    "C79_outside_refuted",
    "C79_nothing_refuted"
   ],
   "note": "Findings: masked_select over all dims also takes masked elements after the ends of the sequences, while masked_scatter (and masked_select over some dims) does not, so scattering back puts elements at wrong places (C79_outside_refuted); masked_scatter over time raises an error if nothing was selected (C79_nothing_refuted). Frames with an addition that has a zero for masked_select over time (it scatters by adding to zeros)."
  },
  {
   "property": "C80",
   "status": "proved",
   "theorems": [
    "C80_sum",
    "C80_max",
    "C80_min",
    "C80_range",
    "C80_fill",
    "C80_fill_refuted",
    "C80_int_refuted"
   ],
   "note": "With masking (behavior version 23), static out dim, floats without rounding. An index outside of the out dim is an error, also after the end (C80_range). Findings: with a fill value other than zero, the sum has it added once for each index after the end (C80_fill_refuted); the maximum or minimum of integers without an explicit fill value raises an error (C80_int_refuted)."
  },
  {
   "property": "C81",
   "status": "proved",
   "theorems": [
    "C81_argmax",
    "C81_padding",
    "C81_padding_refuted",
    "C81_default_refuted"
   ],
   "note": "Findings: with padding, every entry that an index after the end of the sequence points to gets the invalid index, though frames of the sequence point to it (C81_padding_refuted); all other entries are right (C81_padding). scatter(mode=\"argmax\") without a fill value raises an error (C81_default_refuted)."
  },
  {
   "property": "C82",
   "status": "proved",
   "theorems": [
    "C82_logsumexp",
    "C82_logmeanexp",
    "C82_padding_refuted",
    "C82_fill_refuted"
   ],
   "note": "Log-values are modelled by their exponentials as exact rational numbers. scatter_logmeanexp is right without padding. Findings: with padding, it also counts the frames after the end of the sequence (C82_padding_refuted); an explicit fill value is an error (C82_fill_refuted)."
  },
  {
   "property": "C83",
   "status": "proved",
   "theorems": [
    "C83_top_k",
    "C83_top_p",
    "C83_top_p_range",
    "C83_top_p_one_more"
   ],
   "note": "Static axis, probabilities as exact numbers (integers with a common unit); the results of torch.topk and torch.sort by their contracts."
  },
  {
   "property": "C84",
   "status": "proved",
   "theorems": [
    "C84_combine",
    "C84_rejected",
    "C84_order",
    "C84_default_order",
    "C84_native",
    "C84_native_order",
    "C84_native_agrees",
    "C84_permutation",
    "C84_permutation_found",
    "C84_permutation_identical",
    "C84_native_permutation",
    "C84_native_rejected_refuted",
    "C84_native_same_order_refuted",
    "C84_native_square_refuted",
    "C84_native_twice_refuted"
   ],
   "note": "The permutation to given dims is also right when a dim occurs several times, and finds identical dims (C84_permutation, C84_permutation_identical). Findings: the compiled module ignores allow_broadcast_all_sources=False (C84_native_rejected_refuted); it can give the dims in another order than the python code (C84_native_same_order_refuted); with a dim twice in one tensor it takes another axis, so the entries differ (C84_native_square_refuted), or raises an error (C84_native_twice_refuted)."
  },
  {
   "property": "C85",
   "status": "proved",
   "theorems": [
    "C85_right",
    "C85_left",
    "C85_native",
    "C85_logical_and",
    "C85_logical_or",
    "C85_division",
    "C85_zero_minus_refuted",
    "C85_power_refuted",
    "C85_one_power_refuted",
    "C85_logical_or_refuted",
    "C85_native_division_refuted"
   ],
   "note": "Proved for all cases but the following findings, all without the compiled module: 0 - x gives x (C85_zero_minus_refuted), x ** -1 gives -x (C85_power_refuted), 1 ** x gives the number 1 (C85_one_power_refuted), logical_or with True gives x (C85_logical_or_refuted). A division of integers is refused in python (C85_division), but not with the compiled module (C85_native_division_refuted)."
  },
  {
   "property": "C86",
   "status": "proved",
   "theorems": [
    "C86_matmul",
    "C86_commutes",
    "C86_missing",
    "C86_square",
    "C86_mask_refuted",
    "C86_two_squares_refuted"
   ],
   "note": "Elements are integers, without rounding. Also for a weight with the same in and out dim (C86_square). Findings: reducing a dynamic dim with use_mask=True (the default), documented as masked automatically, is an error, and since behavior version 22 it is a TypeError from the condition itself (C86_mask_refuted); the product of two square matrices with the same dim is an error though priorities tell the axes apart (C86_two_squares_refuted)."
  },
  {
   "property": "C87",
   "status": "proved",
   "theorems": [
    "C87_merge",
    "C87_split",
    "C87_reshape",
    "C87_merge_split",
    "C87_split_merge",
    "C87_reshape_back"
   ],
   "note": "The sizes of the dims are a function; that the numbers of entries match is a hypothesis. Not modelled: sequence lengths of merged dims, the feature dim."
  },
  {
   "property": "C88",
   "status": "proved",
   "theorems": [
    "C88_concat",
    "C88_split",
    "C88_entry",
    "C88_split_concat",
    "C88_concat_split"
   ],
   "note": "concat with allow_broadcast=False. torch.cat and torch.split are modelled by their documentation. This is at the level of the raw tensor: padding within a joined dynamic dim is not handled by this function."
  },
  {
   "property": "C89",
   "status": "proved",
   "theorems": [
    "C89_top_k",
    "C89_dynamic_refuted"
   ],
   "note": "torch.topk is any function that meets its documentation (topk_contract, which is met by C89_ex_contract); without masks. Finding: with a dynamic dim among the axes, for which the code above applies a mask, the decoding of the indices raises TypeError because dimension is None (C89_dynamic_refuted)."
  },
  {
   "property": "C90",
   "status": "proved",
   "theorems": [
    "C90_cross_entropy",
    "C90_batch_time",
    "C90_batch",
    "C90_dense",
    "C90_otherwise_error",
    "C90_accepts",
    "C90_order_refuted",
    "C90_same_order_refuted",
    "C90_silent_refuted"
   ],
   "note": "The cross entropy of one position is any function. Findings: the code passes the inverse of the permutation that copy_transpose expects. So logits [time, batch, classes] with targets [batch, time] fail (C90_order_refuted), also logits [batch, time, x, classes] with targets [batch, time, x] in the same order (C90_same_order_refuted); if the sizes happen to be equal, the result is wrong without an error (C90_silent_refuted)."
  },
  {
   "property": "C91",
   "status": "proved",
   "theorems": [
    "C91_shift",
    "C91_single_step",
    "C91_scores",
    "C91_step_scores",
    "C91_learned",
    "C91_full_matrix",
    "C91_full_matrix_step",
    "C91_default_offset_refuted"
   ],
   "note": "For at least one query. Finding: LearnedRelativePositionalEncoding.full_matrix for a sequence fails with the default query_offset None (C91_default_offset_refuted)."
  },
  {
   "property": "C92",
   "status": "proved",
   "theorems": [
    "C92_self_attention",
    "C92_sequence",
    "C92_steps",
    "C92_steps_from_start",
    "C92_prompt_then_steps",
    "C92_causal",
    "C92_sequence_with_history"
   ],
   "note": "One head and one feature of the values; softmax is any function with the contract; values are finite (0 times a padded value is 0)."
  },
  {
   "property": "C93",
   "status": "proved",
   "theorems": [
    "C93_relative",
    "C93_moved",
    "C93_same_position"
   ],
   "note": "Exact arithmetic, no rounding. The sine and cosine are given by the addition theorem."
  },
  {
   "property": "C94",
   "status": "proved",
   "theorems": [
    "C94_several",
    "C94_first_axis",
    "C94_no_key",
    "C94_other_axis_refuted",
    "C94_length_error",
    "C94_range_error"
   ],
   "note": "Finding: documented for any axis, but for another axis than the first one the key is applied to the first axis (C94_other_axis_refuted). With at most one vector among the keys."
  },
  {
   "property": "C95",
   "status": "proved",
   "theorems": [
    "C95_reduce",
    "C95_no_mask",
    "C95_argmax",
    "C95_argmin",
    "C95_minus_infinity_refuted",
    "C95_argmax_all_refuted",
    "C95_max_of_two_refuted"
   ],
   "note": "Findings: the padding is filled with the lowest finite number, so a sequence with only -inf gets this as its maximum (C95_minus_infinity_refuted); argmax over all of several dims gives an index into all entries, declared as index of the first dim (C95_argmax_all_refuted); max, min and argmax over several but not all dims raise TypeError (C95_max_of_two_refuted). logsumexp is not modelled."
  },
  {
   "property": "C96",
   "status": "proved",
   "theorems": [
    "C96_num_elements",
    "C96_mean",
    "C96_separate_lengths_refuted"
   ],
   "note": "Exact arithmetic. Finding: dims whose lengths depend on different dims are refused with ValueError (C96_separate_lengths_refuted)."
  },
  {
   "property": "C97",
   "status": "proved",
   "theorems": [
    "C97_round_trip",
    "C97_size_limit",
    "C97_short_names",
    "C97_has_short_refuted",
    "C97_unfinished",
    "C97_scan_refuted"
   ],
   "note": "Bytes of a little-endian machine; floats are bit patterns; the attributes text is given. Findings: has_entry does not know the short names read accepts (C97_has_short_refuted); the scan of an archive without table looks at multiples of 4 bytes but entries start at byte 9, so they are not found (C97_scan_refuted). Compressed entries are not modelled."
  },
  {
   "property": "C98",
   "status": "proved",
   "theorems": [
    "C98_alignment",
    "C98_state_refuted",
    "C98_weighted",
    "C98_weighted_time_refuted",
    "C98_raw_weighted_refuted"
   ],
   "note": "Findings: in the weighted scheme a frame with explicit time reads one item too many because `num_items /= 2` is a float division (C98_weighted_time_refuted); there align_raw looks up states too and fails without allophones (C98_raw_weighted_refuted); state 6 is silently read as state 5 (C98_state_refuted)."
  },
  {
   "property": "C99",
   "status": "proved",
   "theorems": [
    "C99_bundle",
    "C99_short",
    "C99_ambiguous_refuted"
   ],
   "note": "Finding: a short name which is ambiguous across archives silently means the entry of the last archive, while within one archive it is refused (C99_ambiguous_refuted)."
  },
  {
   "property": "C100",
   "status": "proved",
   "theorems": [
    "C100_last_change",
    "C100_priority",
    "C100_config_option_refuted",
    "C100_applied_twice_refuted",
    "C100_name_error_refuted"
   ],
   "note": "eval, repr, int and optparse are parameters. Findings: with --config FILE the file is loaded after the other options and wins over them (C100_config_option_refuted); the command line is applied twice, so a quoted str in place of None keeps its quotes (C100_applied_twice_refuted); a text which evaluates to a NameError fails instead of being kept as str (C100_name_error_refuted)."
  },
  {
   "property": "C101",
   "status": "proved",
   "theorems": [
    "C101_text",
    "C101_int_list",
    "C101_bool",
    "C101_float",
    "C101_int_pair",
    "C101_int_pair_refuted",
    "C101_is_true_refuted",
    "C101_none_refuted",
    "C101_text_file"
   ],
   "note": "Findings: int_pair of the text \"5,3\" fails while the tuple (5, 3) is fine (C101_int_pair_refuted); is_true of the str \"false\" of a Python config is True, of the text it is False (C101_is_true_refuted); int() of a key which is None gives None, value() the default (C101_none_refuted). float() is modelled but has no theorem."
  },
  {
   "property": "C102",
   "status": "proved",
   "theorems": [
    "C102_eval",
    "C102_batching",
    "C102_empty_batch_refuted",
    "C102_train",
    "C102_no_lengths_refuted"
   ],
   "note": "Exact rationals instead of floats. Findings: one batch with norm factor 0 (no targets, all masked) fails with a division by zero (C102_empty_batch_refuted); an epoch without batches or without data with sequence lengths fails at its end in the padding statistics (C102_no_lengths_refuted)."
  },
  {
   "property": "C103",
   "status": "proved",
   "theorems": [
    "C103_updates",
    "C103_dynamic",
    "C103_joined",
    "C103_normalized_refuted",
    "C103_rest_refuted"
   ],
   "note": "Gradients as derivatives carried along the loss (dual numbers). Findings: with use_normalized_loss the means of the batches are added, which is neither the sum nor the mean of all (C103_normalized_refuted); batches left over at the end of an epoch are computed but dropped (C103_rest_refuted)."
  },
  {
   "property": "C104",
   "status": "proved",
   "theorems": [
    "C104_sizes",
    "C104_lengths_refuted",
    "C104_accepted"
   ],
   "note": "Finding: if data with the same time dim have different lengths, the lengths of the first silently count for all (C104_lengths_refuted). Dynamic dims after the second get no size."
  },
  {
   "property": "C105",
   "status": "proved",
   "theorems": [
    "C105_values",
    "C105_checked",
    "C105_accept",
    "C105_random_refuted",
    "C105_pattern_refuted",
    "C105_swap_refuted",
    "C105_unexpected_refuted"
   ],
   "note": "Shapes are not modelled. Findings: with entries alone, parameters without any entry silently stay random (C105_random_refuted); a pattern entry works only if its key sorts before that of the file entry which misses the parameter (C105_pattern_refuted); var_name_mapping cannot swap names (C105_swap_refuted); unexpected parameters of preloaded files are never reported (C105_unexpected_refuted)."
  },
  {
   "property": "C106",
   "status": "proved",
   "theorems": [
    "C106_resume",
    "C106_override_refuted",
    "C106_buffer_refuted"
   ],
   "note": "Parameters which are turned into buffers are not changed by the training (they are not passed to the optimizer). Findings: if an entry with init_for_train=True and a smaller key has a parameter of an \"always\" entry, its value changes on resuming (C106_override_refuted); \"always\" entries for persistent buffers fail with ValueError (C106_buffer_refuted)."
  },
  {
   "property": "C107",
   "status": "proved",
   "theorems": [
    "C107_scan"
   ],
   "note": "States without the batch dim (counters) are not masked, they are as after the longest sequence. Changing dims in the state are not modelled."
  },
  {
   "property": "C108",
   "status": "proved",
   "theorems": [
    "C108_outputs",
    "C108_state",
    "C108_final_refuted"
   ],
   "note": "Finding: the final state is not the one of this loop, but the state before the last iteration (C108_state, C108_final_refuted)."
  },
  {
   "property": "C109",
   "status": "proved",
   "theorems": [
    "C109_push_back",
    "C109_functional_refuted"
   ],
   "note": "Finding: the API is documented as functional (\"each modifying operation returns a new TensorArray object\"), but in eager mode the old array changes, too (C109_functional_refuted)."
  },
  {
   "property": "C110",
   "status": "proved",
   "theorems": [
    "C110_modules",
    "C110_parameters",
    "C110_get_parameter",
    "C110_get_module"
   ],
   "note": "Class attributes and properties are not modelled."
  },
  {
   "property": "C111",
   "status": "proved",
   "theorems": [
    "C111_set",
    "C111_set_refuted",
    "C111_apply",
    "C111_apply_total",
    "C111_apply_once_refuted"
   ],
   "note": "Findings: set_deep raises ValueError for every target with two or more dots (C111_set_refuted), so C111_set has a bound on the depth. apply calls the function several times for a shared module."
  },
  {
   "property": "C112",
   "status": "proved",
   "theorems": [
    "C112_state_dict",
    "C112_total",
    "C112_cyclic",
    "C112_named",
    "C112_agree",
    "C112_shared_refuted"
   ],
   "note": "torch.nn.Module is modelled after its documentation. Finding: for a shared module or parameter the RF name (breadth first) and the torch name (depth first) can differ (C112_shared_refuted). A module which contains itself cannot be converted (C112_cyclic)."
  },
  {
   "property": "C113",
   "status": "proved",
   "theorems": [
    "C113_init",
    "C113_copy",
    "C113_append",
    "C113_extend",
    "C113_read",
    "C113_slice",
    "C113_set",
    "C113_set_slice",
    "C113_del_slice",
    "C113_del",
    "C113_del_last_refuted",
    "C113_negative_refuted",
    "C113_behind_refuted",
    "C113_order_refuted",
    "C113_self_refuted"
   ],
   "note": "Slices with a step and class attributes as names are not modelled. Findings: del l[-1], l[-1:] = ..., a start behind the end, a stop before the start, l[:] = l (C113_*_refuted)."
  },
  {
   "property": "C114",
   "status": "proved",
   "theorems": [
    "C114_set_refuted",
    "C114_append_refuted",
    "C114_build"
   ],
   "note": "C113_init, C113_append, C113_read, C113_slice are for both classes. Finding: l[i] = p sets the attribute to the class rf.Parameter, so that the i-th parameter is removed (C114_set_refuted) and a later append replaces another one."
  },
  {
   "property": "C115",
   "status": "proved",
   "theorems": [
    "C115_total",
    "C115_method",
    "C115_call",
    "C115_restored",
    "C115_two",
    "C115_call_refuted"
   ],
   "note": "Subclasses and hooks which change the hooks are not modelled. Finding: for __call__ this is true only if not more than one object of the class has hooks. With hooks on two objects no call of any object of the class returns (C115_two, C115_call_refuted)."
  },
  {
   "property": "C116",
   "status": "proved",
   "theorems": [
    "C116_terminates",
    "C116_bound",
    "C116_starts",
    "C116_end",
    "C116_exit",
    "C116_finished",
    "C116_error",
    "C116_manager",
    "C116_nested",
    "C116_code_refuted"
   ],
   "note": "The exit code does not tell whether the training is finished, in neither direction (C116_code_refuted)."
  },
  {
   "property": "C117",
   "status": "proved",
   "theorems": [
    "C117_one_epoch",
    "C117_one_epoch_ends",
    "C117_epochs",
    "C117_epochs_end",
    "C117_prefix",
    "C117_memory",
    "C117_early_train_refuted",
    "C117_old_epoch_refuted",
    "C117_early_sprint_refuted"
   ],
   "note": "Proved for one epoch and all schedules, and for several epochs if no thread is early at the start of an epoch. Finding: without this condition it is wrong, see the refuted theorems."
  },
  {
   "property": "C118",
   "status": "proved",
   "theorems": [
    "C118_train",
    "C118_eval",
    "C118_plain",
    "C118_normal",
    "C118_running",
    "C118_running_range",
    "C118_variance",
    "C118_moments",
    "C118_moments_unmasked_refuted",
    "C118_running_variance_refuted",
    "C118_single_refuted",
    "C118_layer_norm",
    "C118_layer_norm_shift"
   ],
   "note": "Proved over the rationals. Findings: see the refuted theorems."
  },
  {
   "property": "C119",
   "status": "proved",
   "theorems": [
    "C119_distribution",
    "C119_value",
    "C119_order",
    "C119_sparse",
    "C119_single",
    "C119_gradient",
    "C119_excluded",
    "C119_excluded_refuted",
    "C119_excluded_twice_refuted"
   ],
   "note": "Proved over the rationals. Findings: see the refuted theorems."
  },
  {
   "property": "C120",
   "status": "proved",
   "theorems": [
    "C120_register",
    "C120_read",
    "C120_write",
    "C120_remove",
    "C120_register_own",
    "C120_read_own",
    "C120_write_own",
    "C120_remove_own",
    "C120_twice",
    "C120_failed",
    "C120_failed_refuted",
    "C120_is_parametrized_refuted",
    "C120_deepcopy",
    "C120_deepcopy_refuted"
   ],
   "note": "Proved for all reachable states. Findings: see the refuted theorems."
  },
  {
   "property": "C121",
   "status": "proved",
   "theorems": [
    "C121_edit_distance",
    "C121_only_sequences"
   ],
   "note": "Proved; a length beyond the array gives -1."
  },
  {
   "property": "C122",
   "status": "proved",
   "theorems": [
    "C122_optimal_completion",
    "C122_per_successor"
   ],
   "note": "Proved for lengths inside of the arrays."
  },
  {
   "property": "C123",
   "status": "proved",
   "theorems": [
    "C123_next_row",
    "C123_next_reduce",
    "C123_loop",
    "C123_blank",
    "C123_empty_refuted"
   ],
   "note": "Proved, apart from the loop without any step, see the refuted theorem."
  },
  {
   "property": "C124",
   "status": "proved",
   "theorems": [
    "C124_n_chunks",
    "C124_cover",
    "C124_chunk",
    "C124_unchunk",
    "C124_round_trip",
    "C124_step_refuted",
    "C124_empty_refuted"
   ],
   "note": "Proved for 0 < step <= size and a non-empty time; refuted otherwise."
  },
  {
   "property": "C125",
   "status": "proved",
   "theorems": [
    "C125_chunk_grad",
    "C125_unchunk_grad",
    "C125_mask_refuted"
   ],
   "note": "Proved for masks which chunking gives; refuted for other masks of unchunking."
  },
  {
   "property": "C126",
   "status": "proved",
   "theorems": [
    "C126_union",
    "C126_closure",
    "C126_terminates",
    "C126_recursion_refuted",
    "C126_attribute_refuted",
    "C126_vocab_refuted"
   ],
   "note": "Proved for successful calls without batch information; three failures are refuted claims."
  },
  {
   "property": "C127",
   "status": "proved",
   "theorems": [
    "C127_sizes",
    "C127_new_dim",
    "C127_stale_refuted",
    "C127_dynamic_refuted"
   ],
   "note": "Refuted after several declarations and for different dynamic sizes."
  },
  {
   "property": "C128",
   "status": "proved",
   "theorems": [
    "C128_masks",
    "C128_amount",
    "C128_eval",
    "C128_always",
    "C128_before",
    "C128_total",
    "C128_small_features_refuted",
    "C128_no_features_refuted"
   ],
   "note": "The random numbers are universally quantified inputs; refuted: no error with few features, and zero consecutive features switch the feature masks off."
  },
  {
   "property": "C129",
   "status": "proved",
   "theorems": [
    "C129_serial",
    "C129_crash",
    "C129_crash_in_info",
    "C129_serial_refuted",
    "C129_dependencies",
    "C129_dependencies_crash_refuted",
    "C129_dependencies_edit_refuted",
    "C129_static_name_refuted",
    "C129_used_refuted"
   ],
   "note": "Proved without dependencies for all kill points but one, and with dependencies without kills; the other cases are refuted claims."
  },
  {
   "property": "C130",
   "status": "proved",
   "theorems": [
    "C130_exclusive",
    "C130_result",
    "C130_progress",
    "C130_broken_refuted",
    "C130_failed_refuted",
    "C130_cleanup_refuted"
   ],
   "note": "Proved unless another process writes the library or the info file at this very moment; refuted in general."
  },
  {
   "property": "C131",
   "status": "proved",
   "theorems": [
    "C131_average",
    "C131_order",
    "C131_rest",
    "C131_shared_refuted"
   ],
   "note": "Proved for checkpoints in which no two parameters share a tensor; refuted for shared ones."
  },
  {
   "property": "C132",
   "status": "proved",
   "theorems": [
    "C132_transparent",
    "C132_bounded",
    "C132_kept",
    "C132_no_stale_dim",
    "C132_dead_tensor",
    "C132_dead_run_ctx",
    "C132_repeated_dims_refuted",
    "C132_set_overwrites_refuted",
    "C132_least_recently_used_refuted",
    "C132_lookup_total_refuted",
    "C132_undefined_dim_refuted",
    "C132_structure_refuted",
    "C132_template_key_refuted"
   ],
   "note": "Transparency is proved for functions which do not depend on the names of dims, and stored keys without a repeated dim. Hash collisions, threads and NaN are left out."
  },
  {
   "property": "C133",
   "status": "proved",
   "theorems": [
    "C133_gather_selects",
    "C133_incomplete_state_refuted",
    "C133_dims_of_sizes_refuted",
    "C133_none_leaf_refuted",
    "C133_beam_leaf_refuted"
   ],
   "note": "For states which have their per-hypothesis dims as leaves, with sizes which do not depend on positions in other such dims. The extents of the padded arrays and mask_nested / masked_select_nested / masked_scatter_nested are left out."
  },
  {
   "property": "C134",
   "status": "proved",
   "theorems": [
    "C134_epoch",
    "C134_seq_list",
    "C134_unknown_tag",
    "C134_seq_order",
    "C134_both",
    "C134_user_order",
    "C134_replay",
    "C134_default_tags",
    "C134_no_lengths",
    "C134_from_list_sorted",
    "C134_sorting_query_refuted"
   ],
   "note": "Finding: without sort_data_key, FromListDataset raises an AssertionError when asked whether sorting is supported (C134_sorting_query_refuted). If several sequences have the same tag, a list of tags always reads the last one. The buffer of CachedDataset2 is C31; data types and shapes are left out."
  },
  {
   "property": "C135",
   "status": "proved",
   "theorems": [
    "C135_epoch",
    "C135_seq_order",
    "C135_fresh_seq_order_refuted",
    "C135_seq_list",
    "C135_no_epoch",
    "C135_first_entry",
    "C135_later_entry_refuted",
    "C135_random_vocab_refuted"
   ],
   "note": "Findings: a given order of indices on a data set which has read nothing yet is accepted, but the first sequence then raises a TypeError, as the file is not loaded (C135_fresh_seq_order_refuted); only the first entry is checked, so an empty list of a later entry fails in the middle of an epoch (C135_later_entry_refuted); with a vocabulary which samples, \"data\" need not be one of the parts of \"data_flat\" (C135_random_vocab_refuted). Reading the literal in the file is left out; scores are integers."
  },
  {
   "property": "C136",
   "status": "proved",
   "theorems": [
    "C136_select",
    "C136_unique",
    "C136_scatter",
    "C136_inverse",
    "C136_nonzero",
    "C136_inverse_refuted",
    "C136_wrong_dims",
    "C136_missing_dim_refuted"
   ],
   "note": "Findings: masked_scatter sets the mask to false in the padding before it uses it, masked_select does not; if the mask is true in the padding, masked_scatter of masked_select puts wrong entries at valid places, without an error (C136_inverse_refuted). A tensor without one of the dims of the mask is an AssertionError, not repeated (C136_missing_dim_refuted). Masks over exactly the given dims; the case of a subset of the dims is in C79, for padded sequences."
  },
  {
   "property": "C137",
   "status": "proved",
   "theorems": [
    "C137_pass",
    "C137_epochs",
    "C137_shared",
    "C137_workers_refuted",
    "C137_frac_refuted",
    "C137_reserved_refuted"
   ],
   "note": "Findings: with the default callback, passes in new worker processes are all epoch 1 (C137_workers_refuted; the engine uses the shared value); fractions may decrease if one in between is not known, although the code asserts that they do not (C137_frac_refuted); data under a key which the pipe uses itself is overwritten (C137_reserved_refuted). Both map-style pipes define __int__ instead of __init__, so that they cannot be constructed with a dataset; they are not modelled. Loading of the data is taken not to fail."
  },
  {
   "property": "C138",
   "status": "proved",
   "theorems": [
    "C138_between",
    "C138_outside",
    "C138_same",
    "C138_order",
    "C138_error",
    "C138_single_refuted"
   ],
   "note": "Finding: with a single point, which the constructor accepts, the result at the point itself is NaN, and tensors with two dims or more fail with an index of -1 (C138_single_refuted); the function for plain numbers handles this. Rational numbers: keys are not rounded to floats."
  },
  {
   "property": "C139",
   "status": "proved",
   "theorems": [
    "C139_default",
    "C139_mark",
    "C139_outputs",
    "C139_step",
    "C139_unknown_refuted",
    "C139_caught_refuted"
   ],
   "note": "Findings: the code says that dims in the expected outputs which are not known yet allow any dynamic dim; but the dims are compared as they are before, so that only this very dim is accepted and the check for it never fails (C139_unknown_refuted). An output that is not as expected is stored before the checks, and the final check does not look at it again (C139_caught_refuted, only if the error is caught). Raw tensors as outputs, and dims which were declared the same, are not modelled."
  },
  {
   "property": "C140",
   "status": "proved",
   "theorems": [
    "C140_walk",
    "C140_functions",
    "C140_nearest",
    "C140_seed_refuted"
   ],
   "note": "Finding: the seeds themselves are given as well, although the description says that the consumers are given (C140_seed_refuted). The functions are taken to be pure, and tensors are compared by identity."
  },
  {
   "property": "C141",
   "status": "proved",
   "theorems": [
    "C141_roundtrip",
    "C141_unique",
    "C141_stable",
    "C141_errors",
    "C141_inner_refuted",
    "C141_rf_refuted",
    "C141_class_refuted"
   ],
   "note": "Findings: a class inside of another class is stored by its own name only, so another class of the same name in the module is built without an error (C141_inner_refuted); a class in a module called rf is looked up in the frontend (C141_rf_refuted); an argument called class replaces the class (C141_class_refuted). Importing a module is taken to have no other effects."
  },
  {
   "property": "C142",
   "status": "proved",
   "theorems": [
    "C142_journal",
    "C142_replay",
    "C142_recent",
    "C142_recent_refuted",
    "C142_end_refuted"
   ],
   "note": "Findings: the search for the most recent read in an accessible context only considers the last read, and is an error although an earlier one is accessible (C142_recent_refuted); a replay neither checks that all was replayed nor clears the journal, as its description says (C142_end_refuted). Not modelled: the drawing of the numbers, the layers made for a replay."
  },
  {
   "property": "C143",
   "status": "proved",
   "theorems": [
    "C143_roundtrip",
    "C143_store",
    "C143_once",
    "C143_sizes",
    "C143_all_sizes",
    "C143_assign"
   ],
   "note": "The names of the sizes are taken to be different from those of tensors; with a tensor whose name ends as a size, as data:size0, the code has an assertion error. Dims are compared by identity, and the check of types is left out. Scalar sizes which are left out are reset when it is read."
  },
  {
   "property": "C144",
   "status": "proved",
   "theorems": [
    "C144_same",
    "C144_line",
    "C144_inner"
   ],
   "note": "Texts are lists of tokens. Numpy arrays are left out. The score of simplicity is any function of the object."
  }
 ]
}