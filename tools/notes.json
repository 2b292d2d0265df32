{
 "C02": {
  "note": "default_every_n drops num_seqs mod n sequences (C02_default_every_n_refuted), as the statement says; _refuted shows that it is no permutation in general."
 },
 "C03": {
  "note": "The laplace theorem fixes the number of bins from the method string."
 },
 "C04": {
  "note": "C04_filter_with_partition_refuted is a finding: a tag filter together with partition_epoch raises AssertionError for a sub-epoch without wanted sequences."
 },
 "C05": {
  "note": "For an arbitrary comparison oracle in place of the float comparisons."
 },
 "C06": {
  "note": "C06_skipping_refuted documents a limit of the interface: reads that skip at least buffer_size sequences."
 },
 "C07": {
  "note": "Findings: a tag filter with the dedicated sequence order process, and an unknown completed fraction."
 },
 "C10": {
  "note": "Finding: an empty stream raises AssertionError."
 },
 "C11": {
  "note": "Finding: an empty stream raises AssertionError."
 },
 "C12": {
  "note": "Finding: a step of zero for a second key is accepted."
 },
 "C13": {
  "note": "Finding: C13_key_clash_refuted, data is lost if a data key has the name of a length key."
 },
 "C14": {
  "note": "Findings: cache_set does not overwrite; a call concurrent with a resize to zero can fail."
 },
 "C15": {
  "note": "Findings: max/min with plain numbers, any_compare and keys given by the broadcast value, equality not transitive."
 },
 "C16": {
  "note": "Mutual exclusion holds while no lock is older than the timeout; findings show what happens otherwise."
 },
 "C17": {
  "note": "Findings: the retries after a full disk never help."
 },
 "C18": {
  "note": "Finding: a wanted age below 10 seconds."
 },
 "C19": {
  "note": "Findings: the thread can end for ever, see the two _refuted theorems."
 },
 "C20": {
  "note": "Findings: growth below one, minimum after a decay, score zero, thresholds."
 },
 "C21": {
  "note": "Finding: the latest epoch is never the answer, as stated in the property it must beat the latest."
 },
 "C22": {
  "note": "For meta data which better_repr writes faithfully."
 },
 "C23": {
  "note": "Findings: scores equal in all saved epochs, unknown epochs, misspelled options."
 },
 "C25": {
  "note": "Findings: total limit exceeded by one, last sequences without frames, non-recurrent limit."
 },
 "C28": {
  "note": "Findings: data key conflicts, sampling of unused or empty datasets, name of the reversed order."
 },
 "C29": {
  "note": "Findings: empty inner epochs, empty given order, skipping."
 },
 "C30": {
  "note": "Findings: padding with postfix removal, empty sub-sequences."
 },
 "C31": {
  "note": "Findings: gaps, empty epochs, load behind the end."
 },
 "C35": {
  "note": "Findings: comments at the end, slash before the end mark, line breaks in strings."
 },
 "C36": {
  "note": "Findings: uniq_generic, window before the array."
 },
 "C37": {
  "note": "Findings: tuples of one element, keys of different types."
 },
 "C38": {
  "note": "Findings: keep_last_n 1 with a save interval, start_epoch without checkpoints."
 },
 "C39": {
  "note": "Findings: mean not bounded, needless removal, empty list, open ranges."
 },
 "C40": {
  "note": "Findings: streams of at most one frame, minimal chunk size."
 },
 "C41": {
  "note": "The property is false of the code: C41_forward_fails_on_oom_refuted. The partial theorem is about the loop for batches without the meta entries which make the real ones unsplittable."
 },
 "C42": {
  "note": "Finding: C42_frozen_moved_refuted."
 },
 "C43": {
  "note": "Findings: full_param_name is not the full name; unused options are refused. param_groups_custom is not modelled."
 },
 "C44": {
  "note": "Finding: learning_rate_multiplier has no effect."
 },
 "C45": {
  "note": "Findings: C45_no_empty_symbols_refuted, C45_any_word_kept_refuted."
 },
 "C46": {
  "note": "Finding: C46_unknown_label_refuted."
 },
 "C47": {
  "note": "Findings: two labels for an id, repeated labels, postfix, unknown_label=-1, options dropped by create_vocab_from_labels. The other special symbols and the file cache are not modelled."
 },
 "C48": {
  "note": "Python's utf8 codec itself is modelled, too. Finding: C48_utf8_postfix_refuted."
 },
 "C49": {
  "note": "C49_round_trip: round trip for every history of batches. C49_accepts: documented calls are never refused. C49_close_crash_safe: close() for every crash point. Findings: a user key 'sizes' next to several dynamic axes is silently mixed up (C49_sizes_key_refuted); a key 'data' is written but the file cannot be opened (C49_data_key_refuted). h5py and dtypes are not modelled."
 },
 "C50": {
  "note": "C50_concatenation, C50_accepts. Findings: files without input data where a later file has more keys are accepted but read with the lengths of other keys (C50_target_only_refuted); add_file after a lookup by tag: new tags are not found (C50_add_file_after_lookup_refuted)."
 },
 "C51": {
  "note": "C51_extended. Findings: with two extra keys that are not declared, the first appended sequence gets wrong lengths and the following data is shifted (C51_undeclared_refuted); labels of targets are replaced by a dummy (C51_labels_refuted)."
 },
 "C52": {
  "note": "C52_copy, C52_accepts. Finding: if 'data' is a target and another target is between 'classes' and 'data' in the order of names (e.g. 'context'), then the lengths are swapped (C52_between_refuted). end_seq is inclusive."
 },
 "C53": {
  "note": "Findings: default order after a predefined list; initialisation after a failure."
 },
 "C54": {
  "note": "Finding: list file in another order than that of the control dataset."
 },
 "C55": {
  "note": "Proved for any equality under which equal dims have equal sizes, and for the equality of the library for dims with distinct names that are not batch dims (descriptions are read back). Findings: arithmetic with batch dims; static dims of the same name. Examples replay the dim tests of the repository."
 },
 "C56": {
  "note": "Proved for identity and, with distinct names, for the equality of the library. Finding: false for the division of a product that contains a division."
 },
 "C57": {
  "note": "Findings: clipped intermediate sums, size of the axis for decreasing functions and for two dynamic dims."
 },
 "C58": {
  "note": "For targets that contain the blank label the claim is false (shown); the weights are all 0 and not modelled."
 },
 "C59": {
  "note": "Loops together with skip limits are modelled, but nothing is claimed about their language. Examples replay tests/test_Fsa.py."
 },
 "C60": {
  "note": "Also: independence of the padding, metric laws. Tensor operations are modelled on lists, each batch entry separately; integers are unbounded."
 },
 "C61": {
  "note": "Proved for settings where all processes accumulate gradients over the same steps and all evaluation datasets have data. Findings: accum_grad_multiple_step as a function of epoch_continuous differs between processes and hangs (C61_accum_refuted); an evaluation dataset without data fails on rank 0 and hangs the others (C61_eval_refuted); one process without data in an epoch makes all fail (C61_no_data). A collective operation is modelled as a rendezvous of all processes in the same operation; failures and timeouts of the network are not modelled."
 },
 "C62": {
  "note": "Holds for updates that do not depend on the process. Findings: gradient noise uses random numbers seeded with the rank, after the averaging of the gradients, so the replicas drift apart (C62_rank_update_refuted); gradients accumulated at the end of the epoch are dropped (C62_leftover_refuted). Exact numbers instead of floats; buffers not modelled."
 },
 "C63": {
  "note": "Finding: there is no averaging at the end of the epoch, so the saved parameters (of rank 0) do not contain what the other processes learned since the last averaging, and after a restart all processes continue from those (C63_end_refuted)."
 },
 "C64": {
  "note": "Proved if each background thread ends before the next call (see C66), for orders that, when they have as many sequences as the start cache, have the same sequences as the order of the start cache. Findings: otherwise the order is looked up in the old one: KeyError for the next partition (partition_epoch) when a partition fits in the cache (C64_partition_refuted), or data missing after a successful load for a subset (C64_subset_refuted). Only the input data are modelled, window 1, no shuffle_frames_of_nseqs."
 },
 "C65": {
  "note": "What is kept is proved exactly, but the limit is not: the frames that are asked for are never subtracted from the free frames, but added to them when they are deleted (C65_budget: the sum of used and free frames grows by them with each load), so the cache grows over all limits (C65_limit_refuted). A frame of bytes is one unit; the number of free frames is kept when a new order starts with an empty cache."
 },
 "C66": {
  "note": "Proved for a load that starts when no other thread runs. Finding: while the thread for the start cache runs, a load starts a second thread, which marks everything that the first one has allocated as loaded, although the frames are still zero (C66_start_cache_refuted). One step of a thread: the insertion in the table, the update of the set of loaded sequences, the frames of one sequence."
 },
 "C67": {
  "note": "Finding: a stream without any items gives an AssertionError instead of an empty stream (C67_empty_refuted). The dicts of the stream are separate objects; a function that yields the same object twice before LaplaceOrdering is not modelled (there the fractions are set twice)."
 },
 "C68": {
  "note": "Finding: if the wrapped dataset does not know its fractions, then the entry complete_frac has no value, and even a map_seq that changes nothing gives a TypeError (C68_unknown_fraction_refuted). Fractions are exact rationals (float32 in the code); the check against the template of the outputs is any function of the dict."
 },
 "C69": {
  "note": "Finding: the struct of index and value is copied field by field; if another thread writes in between, then for equal scores the kept index need not be the smallest (C69_torn_read_refuted), the score is still the best. Memory is sequentially consistent; the compare-and-swap is of the whole cell and compares exactly (no NaN, no two zeros)."
 },
 "C70": {
  "note": "Scores are any ordered type with a monotonic addition and a least element, as floats without NaN are, including their rounding. If no path has a score above negative infinity, then nothing is said about the labels but their number. That two runs agree needs that the struct is read at once (C69)."
 },
 "C71": {
  "note": "Exact numbers (a commutative semiring without negative elements and with a quotient) instead of floats in -log space; NaN, which comes from infinity minus infinity, is modelled. The weight and order of float rounding is not."
 },
 "C72": {
  "note": "Combines C58, C70 and C71, with their simplifications. The sums are over any alphabet that has the blank and the targets."
 },
 "C73": {
  "note": "Findings: \"same\" with an odd filter and a dilation pads (size-1)/2 frames without the dilation, so the raw tensor is shorter than its dim and nothing raises an error (C73_dilated_same_refuted); a sequence shorter than the filter gives an empty output in a batch, but alone an error (C73_short_refuted). \"same\" with a stride only with the consistent padding (behavior version 24). One spatial dim, PyTorch backend, not in an ONNX export."
 },
 "C74": {
  "note": "For \"valid\", integer and \"same\" padding, with masks, \"same\" with a stride only with the consistent padding; before, the padding depends on the longest sequence (C74_old_same_refuted, issue 1693 of the code), for a single sequence it is balanced as documented if the filter is at least as long as the stride (C74_old_same), otherwise frames are cut off at the start (C74_old_same_crops_refuted). Without the mask (before behavior version 23): C74_no_mask_refuted."
 },
 "C75": {
  "note": "Findings: average pooling with \"same\" and an odd pool size counts the masked frames at the end of shorter sequences, but not the padding of a single sequence, so the result depends on the batch (C75_avg_same_refuted); for an even pool size zeros are always counted (C75_avg_even). \"same\" with stride 1 and an even pool size always raises an error (C75_same_even_refuted). Before behavior version 24, a pool size below the stride raises an error for some lengths (C75_old_same_refuted)."
 },
 "C76": {
  "note": "Findings: shift_right with a tensor with one value per sequence returns the input unshifted, as the backend appends this value on the right whatever the padding is (C76_shift_tensor_refuted); padding after the end of dynamic sequences with the default value None raises an error (C76_default_value_refuted). Constant mode, one axis, amounts as numbers, PyTorch backend."
 },
 "C77": {
  "note": "Proved for non-empty sequences (reverse), and slices with non-negative start and either sizes inside of the sequences, or no end, or an end inside of all sequences. Findings: a batch with an empty sequence cannot be reversed (C77_reverse_empty_refuted); the step of a slice only changes the sizes but not the frames (C77_step_refuted); a scalar tensor zero as start gives size zero (C77_tensor_start_refuted); negative start or end are errors (C77_negative_refuted); an end after the end of a sequence gives frames after it (C77_short_refuted)."
 },
 "C78": {
  "note": "With handling of dynamic dims (behavior version 21), for left + right + 1 = window; \"valid\" if no sequence is shorter than the window. Findings: the default padding value None raises an error for dynamic dims (C78_default_value_refuted); with \"valid\", a sequence shorter than the window gets one window (C78_short_refuted)."
 },
 "C79": {
  "note": "Findings: masked_select over all dims also takes masked elements after the ends of the sequences, while masked_scatter (and masked_select over some dims) does not, so scattering back puts elements at wrong places (C79_outside_refuted); masked_scatter over time raises an error if nothing was selected (C79_nothing_refuted). Frames with an addition that has a zero for masked_select over time (it scatters by adding to zeros)."
 },
 "C80": {
  "note": "With masking (behavior version 23), static out dim, floats without rounding. An index outside of the out dim is an error, also after the end (C80_range). Findings: with a fill value other than zero, the sum has it added once for each index after the end (C80_fill_refuted); the maximum or minimum of integers without an explicit fill value raises an error (C80_int_refuted)."
 },
 "C81": {
  "note": "Findings: with padding, every entry that an index after the end of the sequence points to gets the invalid index, though frames of the sequence point to it (C81_padding_refuted); all other entries are right (C81_padding). scatter(mode=\"argmax\") without a fill value raises an error (C81_default_refuted)."
 },
 "C82": {
  "note": "Log-values are modelled by their exponentials as exact rational numbers. scatter_logmeanexp is right without padding. Findings: with padding, it also counts the frames after the end of the sequence (C82_padding_refuted); an explicit fill value is an error (C82_fill_refuted)."
 },
 "C83": {
  "note": "Static axis, probabilities as exact numbers (integers with a common unit); the results of torch.topk and torch.sort by their contracts."
 },
 "C84": {
  "note": "The permutation to given dims is also right when a dim occurs several times, and finds identical dims (C84_permutation, C84_permutation_identical). Findings: the compiled module ignores allow_broadcast_all_sources=False (C84_native_rejected_refuted); it can give the dims in another order than the python code (C84_native_same_order_refuted); with a dim twice in one tensor it takes another axis, so the entries differ (C84_native_square_refuted), or raises an error (C84_native_twice_refuted)."
 },
 "C85": {
  "note": "Proved for all cases but the following findings, all without the compiled module: 0 - x gives x (C85_zero_minus_refuted), x ** -1 gives -x (C85_power_refuted), 1 ** x gives the number 1 (C85_one_power_refuted), logical_or with True gives x (C85_logical_or_refuted). A division of integers is refused in python (C85_division), but not with the compiled module (C85_native_division_refuted)."
 },
 "C86": {
  "note": "Elements are integers, without rounding. Also for a weight with the same in and out dim (C86_square). Findings: reducing a dynamic dim with use_mask=True (the default), documented as masked automatically, is an error, and since behavior version 22 it is a TypeError from the condition itself (C86_mask_refuted); the product of two square matrices with the same dim is an error though priorities tell the axes apart (C86_two_squares_refuted)."
 },
 "C87": {
  "note": "The sizes of the dims are a function; that the numbers of entries match is a hypothesis. Not modelled: sequence lengths of merged dims, the feature dim."
 },
 "C88": {
  "note": "concat with allow_broadcast=False. torch.cat and torch.split are modelled by their documentation. This is at the level of the raw tensor: padding within a joined dynamic dim is not handled by this function."
 },
 "C89": {
  "note": "torch.topk is any function that meets its documentation (topk_contract, which is met by C89_ex_contract); without masks. Finding: with a dynamic dim among the axes, for which the code above applies a mask, the decoding of the indices raises TypeError because dimension is None (C89_dynamic_refuted)."
 },
 "C90": {
  "note": "The cross entropy of one position is any function. Findings: the code passes the inverse of the permutation that copy_transpose expects. So logits [time, batch, classes] with targets [batch, time] fail (C90_order_refuted), also logits [batch, time, x, classes] with targets [batch, time, x] in the same order (C90_same_order_refuted); if the sizes happen to be equal, the result is wrong without an error (C90_silent_refuted)."
 },
 "C91": {
  "note": "For at least one query. Finding: LearnedRelativePositionalEncoding.full_matrix for a sequence fails with the default query_offset None (C91_default_offset_refuted)."
 },
 "C92": {
  "note": "One head and one feature of the values; softmax is any function with the contract; values are finite (0 times a padded value is 0)."
 },
 "C93": {
  "note": "Exact arithmetic, no rounding. The sine and cosine are given by the addition theorem."
 },
 "C94": {
  "note": "Finding: documented for any axis, but for another axis than the first one the key is applied to the first axis (C94_other_axis_refuted). With at most one vector among the keys."
 },
 "C95": {
  "note": "Findings: the padding is filled with the lowest finite number, so a sequence with only -inf gets this as its maximum (C95_minus_infinity_refuted); argmax over all of several dims gives an index into all entries, declared as index of the first dim (C95_argmax_all_refuted); max, min and argmax over several but not all dims raise TypeError (C95_max_of_two_refuted). logsumexp is not modelled."
 },
 "C96": {
  "note": "Exact arithmetic. Finding: dims whose lengths depend on different dims are refused with ValueError (C96_separate_lengths_refuted)."
 },
 "C97": {
  "note": "Bytes of a little-endian machine; floats are bit patterns; the attributes text is given. Findings: has_entry does not know the short names read accepts (C97_has_short_refuted); the scan of an archive without table looks at multiples of 4 bytes but entries start at byte 9, so they are not found (C97_scan_refuted). Compressed entries are not modelled."
 },
 "C98": {
  "note": "Findings: in the weighted scheme a frame with explicit time reads one item too many because `num_items /= 2` is a float division (C98_weighted_time_refuted); there align_raw looks up states too and fails without allophones (C98_raw_weighted_refuted); state 6 is silently read as state 5 (C98_state_refuted)."
 },
 "C99": {
  "note": "Finding: a short name which is ambiguous across archives silently means the entry of the last archive, while within one archive it is refused (C99_ambiguous_refuted)."
 },
 "C100": {
  "note": "eval, repr, int and optparse are parameters. Findings: with --config FILE the file is loaded after the other options and wins over them (C100_config_option_refuted); the command line is applied twice, so a quoted str in place of None keeps its quotes (C100_applied_twice_refuted); a text which evaluates to a NameError fails instead of being kept as str (C100_name_error_refuted)."
 },
 "C101": {
  "note": "Findings: int_pair of the text \"5,3\" fails while the tuple (5, 3) is fine (C101_int_pair_refuted); is_true of the str \"false\" of a Python config is True, of the text it is False (C101_is_true_refuted); int() of a key which is None gives None, value() the default (C101_none_refuted). float() is modelled but has no theorem."
 },
 "C102": {
  "note": "Exact rationals instead of floats. Findings: one batch with norm factor 0 (no targets, all masked) fails with a division by zero (C102_empty_batch_refuted); an epoch without batches or without data with sequence lengths fails at its end in the padding statistics (C102_no_lengths_refuted)."
 },
 "C103": {
  "note": "Gradients as derivatives carried along the loss (dual numbers). Findings: with use_normalized_loss the means of the batches are added, which is neither the sum nor the mean of all (C103_normalized_refuted); batches left over at the end of an epoch are computed but dropped (C103_rest_refuted)."
 },
 "C104": {
  "note": "Finding: if data with the same time dim have different lengths, the lengths of the first silently count for all (C104_lengths_refuted). Dynamic dims after the second get no size."
 },
 "C105": {
  "note": "Shapes are not modelled. Findings: with entries alone, parameters without any entry silently stay random (C105_random_refuted); a pattern entry works only if its key sorts before that of the file entry which misses the parameter (C105_pattern_refuted); var_name_mapping cannot swap names (C105_swap_refuted); unexpected parameters of preloaded files are never reported (C105_unexpected_refuted)."
 },
 "C106": {
  "note": "Parameters which are turned into buffers are not changed by the training (they are not passed to the optimizer). Findings: if an entry with init_for_train=True and a smaller key has a parameter of an \"always\" entry, its value changes on resuming (C106_override_refuted); \"always\" entries for persistent buffers fail with ValueError (C106_buffer_refuted)."
 },
 "C107": {
  "note": "States without the batch dim (counters) are not masked, they are as after the longest sequence. Changing dims in the state are not modelled."
 },
 "C108": {
  "note": "Finding: the final state is not the one of this loop, but the state before the last iteration (C108_state, C108_final_refuted)."
 },
 "C109": {
  "note": "Finding: the API is documented as functional (\"each modifying operation returns a new TensorArray object\"), but in eager mode the old array changes, too (C109_functional_refuted)."
 },
 "C110": {
  "note": "Class attributes and properties are not modelled."
 },
 "C111": {
  "note": "Findings: set_deep raises ValueError for every target with two or more dots (C111_set_refuted), so C111_set has a bound on the depth. apply calls the function several times for a shared module."
 },
 "C112": {
  "note": "torch.nn.Module is modelled after its documentation. Finding: for a shared module or parameter the RF name (breadth first) and the torch name (depth first) can differ (C112_shared_refuted). A module which contains itself cannot be converted (C112_cyclic)."
 },
 "C113": {
  "note": "Slices with a step and class attributes as names are not modelled. Findings: del l[-1], l[-1:] = ..., a start behind the end, a stop before the start, l[:] = l (C113_*_refuted)."
 },
 "C114": {
  "note": "C113_init, C113_append, C113_read, C113_slice are for both classes. Finding: l[i] = p sets the attribute to the class rf.Parameter, so that the i-th parameter is removed (C114_set_refuted) and a later append replaces another one."
 },
 "C115": {
  "note": "Subclasses and hooks which change the hooks are not modelled. Finding: for __call__ this is true only if not more than one object of the class has hooks. With hooks on two objects no call of any object of the class returns (C115_two, C115_call_refuted)."
 },
 "C116": {
  "note": "The exit code does not tell whether the training is finished, in neither direction (C116_code_refuted)."
 },
 "C117": {
  "note": "Proved for one epoch and all schedules, and for several epochs if no thread is early at the start of an epoch. Finding: without this condition it is wrong, see the refuted theorems."
 },
 "C118": {
  "note": "Proved over the rationals. Findings: see the refuted theorems."
 },
 "C119": {
  "note": "Proved over the rationals. Findings: see the refuted theorems."
 },
 "C120": {
  "note": "Proved for all reachable states. Findings: see the refuted theorems."
 },
 "C121": {
  "note": "Proved; a length beyond the array gives -1."
 },
 "C122": {
  "note": "Proved for lengths inside of the arrays."
 },
 "C123": {
  "note": "Proved, apart from the loop without any step, see the refuted theorem."
 },
 "C124": {
  "note": "Proved for 0 < step <= size and a non-empty time; refuted otherwise."
 },
 "C125": {
  "note": "Proved for masks which chunking gives; refuted for other masks of unchunking."
 },
 "C126": {
  "note": "Proved for successful calls without batch information; three failures are refuted claims."
 },
 "C127": {
  "note": "Refuted after several declarations and for different dynamic sizes."
 },
 "C128": {
  "note": "The random numbers are universally quantified inputs; refuted: no error with few features, and zero consecutive features switch the feature masks off."
 },
 "C129": {
  "note": "Proved without dependencies for all kill points but one, and with dependencies without kills; the other cases are refuted claims."
 },
 "C130": {
  "note": "Proved unless another process writes the library or the info file at this very moment; refuted in general."
 },
 "C131": {
  "note": "Proved for checkpoints in which no two parameters share a tensor; refuted for shared ones."
 },
 "C132": {
  "note": "Transparency is proved for functions which do not depend on the names of dims, and stored keys without a repeated dim. Hash collisions, threads and NaN are left out."
 },
 "C133": {
  "note": "For states which have their per-hypothesis dims as leaves, with sizes which do not depend on positions in other such dims. The extents of the padded arrays and mask_nested / masked_select_nested / masked_scatter_nested are left out."
 },
 "C134": {
  "note": "Finding: without sort_data_key, FromListDataset raises an AssertionError when asked whether sorting is supported (C134_sorting_query_refuted). If several sequences have the same tag, a list of tags always reads the last one. The buffer of CachedDataset2 is C31; data types and shapes are left out."
 },
 "C135": {
  "note": "Findings: a given order of indices on a data set which has read nothing yet is accepted, but the first sequence then raises a TypeError, as the file is not loaded (C135_fresh_seq_order_refuted); only the first entry is checked, so an empty list of a later entry fails in the middle of an epoch (C135_later_entry_refuted); with a vocabulary which samples, \"data\" need not be one of the parts of \"data_flat\" (C135_random_vocab_refuted). Reading the literal in the file is left out; scores are integers."
 },
 "C136": {
  "note": "Findings: masked_scatter sets the mask to false in the padding before it uses it, masked_select does not; if the mask is true in the padding, masked_scatter of masked_select puts wrong entries at valid places, without an error (C136_inverse_refuted). A tensor without one of the dims of the mask is an AssertionError, not repeated (C136_missing_dim_refuted). Masks over exactly the given dims; the case of a subset of the dims is in C79, for padded sequences."
 },
 "C137": {
  "note": "Findings: with the default callback, passes in new worker processes are all epoch 1 (C137_workers_refuted; the engine uses the shared value); fractions may decrease if one in between is not known, although the code asserts that they do not (C137_frac_refuted); data under a key which the pipe uses itself is overwritten (C137_reserved_refuted). Both map-style pipes define __int__ instead of __init__, so that they cannot be constructed with a dataset; they are not modelled. Loading of the data is taken not to fail."
 },
 "C138": {
  "note": "Finding: with a single point, which the constructor accepts, the result at the point itself is NaN, and tensors with two dims or more fail with an index of -1 (C138_single_refuted); the function for plain numbers handles this. Rational numbers: keys are not rounded to floats."
 },
 "C139": {
  "note": "Findings: the code says that dims in the expected outputs which are not known yet allow any dynamic dim; but the dims are compared as they are before, so that only this very dim is accepted and the check for it never fails (C139_unknown_refuted). An output that is not as expected is stored before the checks, and the final check does not look at it again (C139_caught_refuted, only if the error is caught). Raw tensors as outputs, and dims which were declared the same, are not modelled."
 },
 "C140": {
  "note": "Finding: the seeds themselves are given as well, although the description says that the consumers are given (C140_seed_refuted). The functions are taken to be pure, and tensors are compared by identity."
 },
 "C141": {
  "note": "Findings: a class inside of another class is stored by its own name only, so another class of the same name in the module is built without an error (C141_inner_refuted); a class in a module called rf is looked up in the frontend (C141_rf_refuted); an argument called class replaces the class (C141_class_refuted). Importing a module is taken to have no other effects."
 },
 "C142": {
  "note": "Findings: the search for the most recent read in an accessible context only considers the last read, and is an error although an earlier one is accessible (C142_recent_refuted); a replay neither checks that all was replayed nor clears the journal, as its description says (C142_end_refuted). Not modelled: the drawing of the numbers, the layers made for a replay."
 },
 "C143": {
  "note": "The names of the sizes are taken to be different from those of tensors; with a tensor whose name ends as a size, as data:size0, the code has an assertion error. Dims are compared by identity, and the check of types is left out. Scalar sizes which are left out are reset when it is read."
 },
 "C144": {
  "note": "Texts are lists of tokens. Numpy arrays are left out. The score of simplicity is any function of the object."
 }
}