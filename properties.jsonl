{"id": "C01", "title": "Partition-epoch and sharding split the data without loss or overlap", "statement": "With partition_epoch=P and num_shards=S, the sub-epochs of one full epoch and the shards together deliver every sequence of the full-epoch order exactly once, in order, and the sizes of any two pieces differ by at most one.", "quantifier": "all sequence orders, all P>=1, all S>=1, all epochs", "why_tests_cant": "Index arithmetic with division: a test sees a few sizes, an off-by-one loses sequences only for particular remainders.", "anchors": ["returnn/datasets/basic.py:Dataset._apply_partition_epoch_and_sharding"]}
{"id": "C02", "title": "Every sequence ordering is a reordering of the corpus", "statement": "For each supported seq_ordering (default, reverse, sorted, sorted_reverse, random, sort_bin_shuffle, sort_bin_shuffle_x2, laplace) the order of one epoch contains each corpus sequence exactly once, whatever the sequence lengths and whatever the random generator returns; default_every_n only ever drops the num_seqs mod n last sequences.", "quantifier": "all corpus sizes, all length functions, all random shuffles, all parameters", "why_tests_cant": "Random orders and bin boundaries: a lost or duplicated sequence appears only for particular lengths/bin counts/seeds.", "anchors": ["returnn/datasets/basic.py:Dataset.get_seq_order_for_epoch"]}
{"id": "C03", "title": "Sorted and laplace orders are sorted as documented", "statement": "'sorted' yields non-decreasing lengths with ties in corpus order, 'sorted_reverse' non-increasing with ties in corpus order; 'laplace' yields bins that are alternately non-decreasing and non-increasing.", "quantifier": "all corpus sizes, all length functions, all shuffles", "why_tests_cant": "Stability and per-bin direction need all permutations.", "anchors": ["returnn/datasets/basic.py:Dataset.get_seq_order_for_epoch"]}
{"id": "C04", "title": "A full epoch built from sub-epochs is exactly one shuffled pass", "statement": "With partition_epoch=P and a random ordering, the P sub-epochs of the same full epoch use the same shuffle, so that together they visit every sequence exactly once; repeat_epoch repeats each sub-epoch that many times; a tag filter keeps exactly the wanted sequences, and unique tags keep the first occurrence of each tag. (The tag filter is applied to each sub-epoch; each sub-epoch must contain a wanted sequence.)", "quantifier": "all epochs, P, S, seeds, filters, random generators", "why_tests_cant": "Requires reasoning about P consecutive calls with independent object state.", "anchors": ["returnn/datasets/basic.py:Dataset.get_seq_order_for_epoch", "returnn/datasets/basic.py:Dataset._get_random_seed_for_epoch"]}
{"id": "C05", "title": "Files are distributed over sub-epochs with no loss and no empty sub-epoch", "statement": "Distributing files by size into n sub-epochs with at least n files always succeeds, yields exactly n non-empty consecutive groups whose concatenation is the given file order, and never trips an internal assertion or a division by zero, whatever the sizes are and however float comparisons round.", "quantifier": "all file lists with length >= n, all size functions, all comparison outcomes", "why_tests_cant": "The loop is driven by float comparisons; tests exercise a handful of size vectors.", "anchors": ["returnn/datasets/distrib_files.py:DistributeFilesDataset._distribute_evenly_by_size"]}
{"id": "C06", "title": "Prefetching dataset workers answer like the plain dataset", "statement": "A dataset worker process that prefetches sequences into a bounded buffer answers every sequential read request with exactly the sequence the plain dataset has at this index (and with 'none' after the end), for every interleaving of prefetching and requests, and its buffer never exceeds the configured size by more than one.", "quantifier": "all datasets, all request histories with non-decreasing indices, all prefetch schedules", "why_tests_cant": "Schedules of a concurrent process cannot be enumerated by tests.", "anchors": ["returnn/datasets/distrib_files.py:_worker_proc_loop", "returnn/datasets/multi_proc.py:MultiProcDataset._worker_proc_loop"]}
{"id": "C07", "title": "Multi-process data loading preserves the sequence order", "statement": "With W workers, sequence i of the combined dataset is sequence i of the underlying order: the strided per-worker orders interleave back to the original order with no loss or duplicate, and the same index arithmetic is consistent with contiguous sharding of the workers (worker i mod W has more than i div W sequences exactly for the valid i).", "quantifier": "all sequence orders, all W>=1, all shard counts", "why_tests_cant": "Depends on all remainders of N modulo W (and modulo P*W).", "anchors": ["returnn/datasets/multi_proc.py:MultiProcDataset"]}
{"id": "C08", "title": "Size-limited batching keeps every sequence, in order, within limits", "statement": "The batching pipe emits non-empty batches whose concatenation is exactly the input stream; no batch has more than max_seqs sequences; the padded size of every batch with more than one sequence is at most batch_size for every data key; and each batch is maximal.", "quantifier": "all input streams, all limits, all data keys", "why_tests_cant": "Depends on the whole history of accumulated maxima.", "anchors": ["returnn/torch/data/pipeline.py:BatchingIterDataPipe"]}
{"id": "C09", "title": "Bucket batching keeps every admissible sequence", "statement": "Bucket batching emits each sequence not longer than the largest bucket exactly once and drops exactly the longer ones; every batch comes from one bucket, is within the bucket's length bound and sequence limit.", "quantifier": "all streams, all bucket specifications", "why_tests_cant": "All interleavings of lengths over buckets.", "anchors": ["returnn/torch/data/pipeline.py:BucketOrderingIterDataPipe"]}
{"id": "C10", "title": "Batch shuffling is a permutation and keeps monotone keys", "statement": "Shuffling batches within a buffer emits every input batch exactly once, an item never moves out of its buffer window, and values of monotonic data keys come out in the input order. (For a non-empty stream.)", "quantifier": "all streams, all buffer sizes, all random generators", "why_tests_cant": "Randomised reordering over an unbounded stream.", "anchors": ["returnn/torch/data/pipeline.py:ShufflingDataPipe"]}
{"id": "C11", "title": "Laplace ordering of a stream is a permutation", "statement": "The streaming laplace ordering emits every sequence exactly once, sorts each buffer of num_seqs_per_bin sequences alternately ascending/descending, and keeps the epoch-progress values in their input order. (For a non-empty stream.)", "quantifier": "all streams, all bin sizes, all length functions", "why_tests_cant": "Unbounded stream with double buffering.", "anchors": ["returnn/datasets/postprocessing.py:LaplaceOrdering"]}
{"id": "C12", "title": "Chunking covers every sequence", "statement": "Splitting a sequence into chunks of chunk_size with step chunk_step yields chunks that are the slices at the multiples of chunk_step, each of at most chunk_size frames, and, when chunk_step<=chunk_size and min_chunk_size is off, every frame is in some chunk; with chunk_step=chunk_size the chunks concatenate to the sequence. (For configurations with a positive step for every key.)", "quantifier": "all lengths, chunk sizes, steps and minimum sizes", "why_tests_cant": "Boundary arithmetic at sequence ends.", "anchors": ["returnn/torch/data/pipeline.py:ChunkingIterDataPipe", "returnn/datasets/basic.py:Dataset.iterate_seqs"]}
{"id": "C13", "title": "Padding a batch loses nothing", "statement": "Collating sequences into a padded batch keeps, for each sequence, its frames as the prefix of its row and its length, so cutting each row at the stored length gives back the input sequences; all rows have the same length, the maximum. (If no data key has the name under which the lengths of another key are stored.)", "quantifier": "all batches of sequences", "why_tests_cant": "All combinations of lengths.", "anchors": ["returnn/torch/data/pipeline.py:collate_batch"]}
{"id": "C14", "title": "LRU cache is transparent and bounded", "statement": "Calling a cached function always returns what the function returns for these arguments, the number of entries never exceeds the configured maximum size, and when full the least recently used entry is dropped, for every history of calls, peeks, pops, sets, clears and size changes.", "quantifier": "all operation histories, all sizes", "why_tests_cant": "The linked ring is mutated in place; corruption needs particular histories.", "anchors": ["returnn/util/lru_cache.py:lru_cache"]}
{"id": "C15", "title": "Per-key number arithmetic is pointwise", "statement": "Arithmetic and min/max on per-data-key number dictionaries act on each key as on plain numbers, with the broadcast value standing in for keys that are missing on one side; comparison helpers are true exactly when some key fulfils the comparison. (Comparison helpers look at the keys of the left side; min and max of several items are for dictionaries without a plain number among them.)", "quantifier": "all dictionaries, keys and broadcast values", "why_tests_cant": "Combinations of present/missing keys and broadcast values.", "anchors": ["returnn/util/basic.py:NumbersDict"]}
{"id": "C16", "title": "Lock files exclude each other", "statement": "As long as no lock is older than the stale timeout, at most one process at a time holds a lock file, for every interleaving of any number of processes and crashes.", "quantifier": "all numbers of processes, all interleavings, all crash points", "why_tests_cant": "Interleavings of processes.", "anchors": ["returnn/util/basic.py:LockFile"]}
{"id": "C17", "title": "A crash never leaves a truncated file in the file cache", "statement": "Whatever point a process copying a file into the local cache is killed at, the cached file is either absent or has the full content of the source (of the given size), and a later request for the file returns the full content.", "quantifier": "all crash points and histories of crashed copies", "why_tests_cant": "Crash points inside the copy.", "anchors": ["returnn/util/file_cache.py:FileCache._copy_file_if_needed", "returnn/util/file_cache.py:_copy_with_prealloc"]}
{"id": "C18", "title": "File-cache cleanup frees what was asked and spares what is in use", "statement": "Cleanup either leaves at least the needed space free or raises; it removes files oldest first, never removes a file touched in the last seconds unless it is beyond the always-delete age, and removes files below the wanted-retention age only if the space was really needed. (For a wanted-retention age not below these seconds.)", "quantifier": "all directory contents, all disk sizes, all requests", "why_tests_cant": "All combinations of ages and sizes.", "anchors": ["returnn/util/file_cache.py:FileCache.cleanup"]}
{"id": "C19", "title": "Cached files stay touched while in use", "statement": "After any history of acquire and release calls the background toucher keeps exactly those files alive which have been acquired more often than released. (As long as no file is removed between its release and the end of the running round, and no file of the root directory is cached.)", "quantifier": "all histories of acquire/release", "why_tests_cant": "Histories of reference counts.", "anchors": ["returnn/util/file_cache.py:_TouchFilesThread"]}
{"id": "C20", "title": "Learning rate control respects its bounds", "statement": "Newbob style learning rate control only ever keeps, decays or grows the last learning rate, a decay never goes below the configured minimum, and a constant schedule stays constant. (For a growth factor of at least one.)", "quantifier": "all score histories, all parameters", "why_tests_cant": "All float histories.", "anchors": ["returnn/learning_rate_control.py"]}
{"id": "C21", "title": "The best epoch is the one with the best score", "statement": "Querying the last best epoch returns an epoch whose score beats the latest by the requested distance and which no other epoch in the considered range beats, and returns none only if there is no such epoch.", "quantifier": "all score histories, all ranges", "why_tests_cant": "All histories.", "anchors": ["returnn/learning_rate_control.py:LearningRateControl.get_last_best_epoch"]}
{"id": "C22", "title": "Saving learning rates and scores is crash safe", "statement": "If the process is killed while saving the learning-rate file, the next start loads either the old or the new content, never a partial one. (For meta data which is written faithfully, see C37.)", "quantifier": "all crash points, all contents", "why_tests_cant": "Crash points.", "anchors": ["returnn/learning_rate_control.py:LearningRateControl.save"]}
{"id": "C23", "title": "Checkpoint cleanup never deletes what it must keep", "statement": "Cleaning old models deletes exactly the existing epochs that are neither among the last n, nor among the best n for some score, nor in the explicit keep set. (A score which has the same value in all saved epochs that have it is not counted as a score.)", "quantifier": "all sets of epochs, scores and settings", "why_tests_cant": "Sets of epochs and ties between scores.", "anchors": ["returnn/engine/base.py:EngineBase.cleanup_old_models"]}
{"id": "C24", "title": "Pickled object framing survives any stream fragmentation", "statement": "Objects written to a pipe with length framing are read back in the same order, whatever pieces the pipe delivers the bytes in; a closed pipe raises EOF and never yields a partial object.", "quantifier": "all object sequences, all fragmentations", "why_tests_cant": "All fragmentations of a byte stream.", "anchors": ["returnn/util/basic.py:write_pickled_object", "returnn/util/basic.py:read_pickled_object", "returnn/util/basic.py:read_bytes_to_new_buffer"]}
{"id": "C25", "title": "Batch generation keeps order and respects limits", "statement": "Generating batches from a dataset for recurrent nets puts every chunk into exactly one batch, in order, and no batch exceeds the frame or sequence limit unless it consists of one single over-long chunk. (For sequences with at least one frame in some data key, or followed by such a sequence.)", "quantifier": "all datasets, limits and chunkings", "why_tests_cant": "All length histories.", "anchors": ["returnn/datasets/basic.py:Dataset._generate_batches", "returnn/engine/batch.py:Batch"]}
{"id": "C26", "title": "Peeking and advancing over batches never skips or repeats one", "statement": "For every history of peek_next_n, advance and has_more calls, the batches handed out are the generator's stream in order; after a reset they are the same batches again when caching is on.", "quantifier": "all histories, all streams", "why_tests_cant": "All histories.", "anchors": ["returnn/engine/batch.py:BatchSetGenerator"]}
{"id": "C27", "title": "Running mean and variance are exact", "statement": "After collecting any number of items in any grouping, the reported mean and variance equal the mean and variance of all items (over exact arithmetic).", "quantifier": "all item sequences and groupings", "why_tests_cant": "All sequences.", "anchors": ["returnn/util/basic.py:Stats"]}
{"id": "C28", "title": "A combined dataset maps every position to the right sub-dataset sequence", "statement": "In a combination of datasets, position k of the epoch is the sequence selected by the joint order from the concatenation of the sub-datasets, for every joint order; random_dataset keeps the order within each dataset; fixed-size sampling walks cyclically through each dataset over the epochs.", "quantifier": "all numbers and sizes of sub-datasets (including empty ones), all joint orders", "why_tests_cant": "Boundary arithmetic with empty sub-datasets and repeated indices.", "anchors": ["returnn/datasets/meta.py:CombinedDataset"]}
{"id": "C29", "title": "A multi-epoch dataset is the concatenation of its inner epochs", "statement": "Reading one outer epoch e yields the inner epochs (e-1)*M+1 .. e*M one after the other, each sequence once, then the end. (For inner epochs that are not empty, except the first.)", "quantifier": "all inner datasets with non-empty epochs, all M>=1", "why_tests_cant": "Hidden offset state across reads.", "anchors": ["returnn/datasets/meta.py:MultiEpochDataset"]}
{"id": "C30", "title": "Concatenated sequences are the joined sub-sequences", "statement": "Every concatenated sequence is the in-order concatenation of its sub-sequences (with inner postfix labels removed and inner padding to the requested multiple), and the sub-sequence indices tile the inner dataset order.", "quantifier": "all sequence lists", "why_tests_cant": "All lists.", "anchors": ["returnn/datasets/meta.py:ConcatSeqsDataset"]}
{"id": "C31", "title": "The sliding window dataset cache returns the right sequence", "statement": "For every monotone history of load requests, reading a loaded sequence returns the sequence with that index, and asking whether index n exists is answered correctly also when the number of sequences is not known in advance. (For epochs that are not empty, and as long as no load starts behind the end.)", "quantifier": "all datasets, all monotone load histories", "why_tests_cant": "Histories.", "anchors": ["returnn/datasets/cached2.py:CachedDataset2"]}
{"id": "C32", "title": "Pushed back items come first", "statement": "After pushing back items onto a data iterator, the next items are exactly those in order, followed by the rest of the underlying iterator, for every history.", "quantifier": "all histories", "why_tests_cant": "Histories.", "anchors": ["returnn/torch/data/queued_data_iter.py:QueuedDataIter"]}
{"id": "C33", "title": "Binary search finds a matching position", "statement": "binary_search_any returns a position where the comparison is zero whenever a monotone comparison has one, and otherwise the insertion boundary as documented; it terminates for every comparison function.", "quantifier": "all ranges, all monotone comparison functions", "why_tests_cant": "All functions.", "anchors": ["returnn/util/basic.py:binary_search_any"]}
{"id": "C34", "title": "Piecewise schedules interpolate between their points", "statement": "A step function returns the value of the nearest key (the lower one on a tie) for every query; a piecewise linear function hits its points and stays within the range of its neighbours.", "quantifier": "all point sets, all queries", "why_tests_cant": "All queries.", "anchors": ["returnn/util/math.py:StepFunction", "returnn/util/math.py:PiecewiseLinear"]}
{"id": "C35", "title": "Comments are stripped from JSON without touching strings", "statement": "Stripping comments from a JSON text removes exactly the comments outside string literals and keeps every other line and every string unchanged. (For texts in which line comments end with a line break, block comments do not end with a slash directly before their end mark, and strings contain no raw line break.)", "quantifier": "all texts", "why_tests_cant": "All texts.", "anchors": ["returnn/util/basic.py:json_remove_comments"]}
{"id": "C36", "title": "Deduplication helpers agree with their definition", "statement": "Run-length deduplication removes exactly consecutive repeats; range detection partitions a sorted index list into maximal consecutive ranges that expand back to the list. (The generic version removes all repeats, not only consecutive ones, and is stated as such.)", "quantifier": "all lists", "why_tests_cant": "All lists.", "anchors": ["returnn/util/basic.py:uniq", "returnn/util/basic.py:uniq_generic", "returnn/util/basic.py:find_ranges"]}
{"id": "C37", "title": "What better_repr writes reads back as the same value", "statement": "The text better_repr makes of a value (numbers, strings, lists, tuples, dictionaries, epoch data) evaluates back to the same value, does not depend on the insertion order of dictionaries, and different values have different texts. (For values without tuples of one element and with dictionary keys of one type.)", "quantifier": "all values of any nesting, all strings", "why_tests_cant": "All nestings and all characters with their escapes.", "anchors": ["returnn/util/basic.py:better_repr", "returnn/learning_rate_control.py:LearningRateControl.EpochData", "returnn/learning_rate_control.py:LearningRateControl.load"]}
{"id": "C38", "title": "A killed training resumes right after its last complete checkpoint", "statement": "Whenever a training process is killed, also between or during the saving and deleting of checkpoint files, the next start continues with the epoch after the last one whose model and optimizer state were both saved, and both files of that checkpoint exist at every moment. (If at least the last two checkpoints are kept, or every epoch is saved.)", "quantifier": "all configurations of number of epochs, save interval and cleanup options (keeping at least two if not every epoch is saved), all scores, all crash points and all numbers of restarts", "why_tests_cant": "The crash can hit between any two file operations, and repeatedly.", "anchors": ["returnn/torch/engine.py:Engine._save_model", "returnn/torch/engine.py:Engine._save_optimizer", "returnn/torch/engine.py:Engine.delete_model", "returnn/engine/base.py:EngineBase.get_train_start_epoch", "returnn/engine/base.py:EngineBase.get_existing_models", "returnn/engine/base.py:EngineBase.cleanup_old_models"]}
{"id": "C39", "title": "Filtering by mean sequence length selects the shortest sequences in order", "statement": "For an epoch with a maximum mean length, the filtered sequence order is a sub-sequence of the given order, it consists of the shortest sequences, and its mean length is exactly the maximum, or everything is kept and the mean is below it, or the mean is below the maximum once the longest kept sequence is left out; outside the configured epochs nothing is changed. (For a maximum that is not zero.)", "quantifier": "all sequence orders, lengths, maxima and epoch ranges", "why_tests_cant": "All length distributions and all boundary cases of the search.", "anchors": ["returnn/datasets/meta.py:EpochWiseFilter.filter_epoch", "returnn/datasets/meta.py:EpochWiseFilter.filter"]}
{"id": "C40", "title": "Chunking at dataset level covers every sequence", "statement": "Iterating over a dataset with a chunk size and step yields, for every sequence, chunks that start at multiples of the step, have the chunk size or end with the sequence, and together contain every frame of every data stream, except for a rest that is not longer than the minimal chunk size. (For data streams of the same length and step; and, whenever the chunking is accepted, for other streams of more than one frame, where the last part, about missing frames, is only for the case without a minimal chunk size.)", "quantifier": "all sequence lengths, sets of data streams, chunk sizes and steps per stream, minimal chunk sizes", "why_tests_cant": "The loop end depends on the lengths, steps and minimal sizes of all streams at once; tests only try a few.", "anchors": ["returnn/datasets/basic.py:Dataset.iterate_seqs"]}
{"id": "C41", "title": "Splitting batches on out-of-memory loses no sequence of a forward pass", "statement": "When a forward pass may split batches that run out of memory, then for every pattern of out-of-memory failures the callback gets every sequence of the dataset exactly once, in order, with its complete data, as long as single sequences fit.", "quantifier": "all datasets, batch sizes and patterns of out-of-memory failures", "why_tests_cant": "All failure patterns; needs a GPU that runs out of memory at chosen moments.", "anchors": ["returnn/torch/engine.py:Engine.forward_with_callback", "returnn/torch/data/extern_data.py:raw_dict_split_batch", "returnn/torch/data/pipeline.py:collate_batch"]}
{"id": "C42", "title": "Optimizer state is restored by parameter name", "statement": "Loading an optimizer checkpoint gives every parameter exactly the optimizer state that was saved for the parameter of the same name, whatever the order of the parameters in the old and the new model is, or it is refused with a ValueError; it is refused if a trainable parameter is missing in the checkpoint or was in another parameter group.", "quantifier": "all pairs of models and optimizers (names, groups, states, trainable flags)", "why_tests_cant": "The remapping concerns arbitrary permutations, additions and removals of parameters over several groups; a test covers single cases, and a wrong state silently only makes training worse.", "anchors": ["returnn/torch/updater.py: Updater.load_optimizer, Updater.save_optimizer, Updater._get_opt_param_names"]}
{"id": "C43", "title": "Weight decay groups partition the parameters", "statement": "Creating the optimizer with weight decay puts every parameter of the network into exactly one of the two groups with and without weight decay, also if modules share parameters, as the documented rule says for it; without weight decay there is one group with every parameter exactly once. (Options for excluding modules must not be given without weight decay.)", "quantifier": "all networks (module trees with shared parameters) and optimizer options", "why_tests_cant": "A parameter that is in no group is never trained, without any error; this must not happen for any network.", "anchors": ["returnn/torch/updater.py: Updater._get_optimizer_param_groups, Updater._create_optimizer"]}
{"id": "C44", "title": "Effective learning rate", "statement": "After any history of setting the learning rate and the training step, every parameter group of the optimizer has the effective learning rate, which is the configured dynamic learning rate function applied to the last step, epoch and learning rate that were set. (The option learning_rate_multiplier has no effect.)", "quantifier": "all histories of calls, all dynamic learning rate functions", "why_tests_cant": "It must hold after every history of calls, for an arbitrary user function.", "anchors": ["returnn/torch/updater.py: Updater.set_learning_rate, Updater.set_current_train_step, Updater._update_effective_learning_rate"]}
{"id": "C45", "title": "Byte pair encoding keeps the text", "statement": "Encoding a word with merge operations gives symbols which, put together again, are the word. Without a vocabulary the symbols are exactly the result of applying the merge operations in the order of the codes file, to the leftmost occurrences first. With a vocabulary, every symbol is a label of it or cannot be split further, and symbols which are labels are left as they are. An encoded sentence reads as the sentence. (Words which contain the text of the end-of-word mark can lose it, and with codes of version 0.1 a symbol can be empty.)", "quantifier": "all codes files with two symbols per line, vocabularies, versions, words and sentences", "why_tests_cant": "It must hold for every list of merge operations, vocabulary and text, tests use one demo file.", "anchors": ["returnn/util/bpe.py: StandardBytePairEncoder._load, StandardBytePairEncoder._encode_word, StandardBytePairEncoder._check_vocab_and_split, StandardBytePairEncoder._recursive_split, StandardBytePairEncoder.segment_sentence"]}
{"id": "C46", "title": "Sampled subword splits", "statement": "Whatever the random choices are, sampling a split of a word ends, returns a sequence of labels which make up the word, and returns one whenever there is one. The exhaustive search returns exactly all such sequences. In a sentence, the unknown label is used exactly for the words without a split. (With a mark for word starts and no label that starts with it, the encoder fails even with an unknown label.)", "quantifier": "all label sets, words, sentences and all sequences of random choices", "why_tests_cant": "Every run of a test sees one sequence of random choices; completeness is a statement about all splits.", "anchors": ["returnn/util/bpe.py: PrefixTree.add, CharSyncSearch.search, DepthFirstSearch.search, SamplingBytePairEncoder.get_bpe_split_for_word, SamplingBytePairEncoder.segment_sentence"]}
{"id": "C47", "title": "Vocabularies map labels and ids both ways", "statement": "A vocabulary file is accepted exactly if its ids are 0, ..., n - 1 without gap (a file with one label per line: if no line occurs twice), the given number of labels is n and the unknown label is in it. For every id, the id of its label is the id. If no two labels share an id, the label of the id of a label is the label. get_seq(get_seq_labels(seq)) is seq if all labels are words and there is no postfix, and a sentence of known words comes back with single spaces. Every unknown word becomes the unknown label, or is refused if there is none. (A dict file with two labels for an id and a label list with repetitions are accepted and break this; a postfix breaks the inverse; unknown_label=-1 gives None.)", "quantifier": "all vocabulary files, label lists, options, sentences and label sequences", "why_tests_cant": "Round trips must hold for every vocabulary and text; tests use a handful.", "anchors": ["returnn/datasets/util/vocabulary.py: Vocabulary.__init__, Vocabulary._parse_vocab, Vocabulary.create_vocab_from_labels, Vocabulary.to_id, Vocabulary.label_to_id, Vocabulary.id_to_label, Vocabulary.get_seq, Vocabulary.get_seq_indices, Vocabulary.get_seq_labels, CharacterTargets"]}
{"id": "C48", "title": "UTF-8 byte labels", "statement": "For every text of Unicode scalar values the byte vocabulary gives bytes whose labels are the text again, other texts are refused, and every byte sequence that has labels is the sequence of these labels. (Not with a postfix.)", "quantifier": "all texts and byte sequences", "why_tests_cant": "There are infinitely many texts, and the boundaries of the encoding (surrogates, overlong forms) are easily missed.", "anchors": ["returnn/datasets/util/vocabulary.py: Utf8ByteTargets.get_seq, Utf8ByteTargets.get_seq_labels"]}
{"id": "C49", "title": "HDF files written batch by batch read back exactly", "statement": "Whatever batches are given to SimpleHDFWriter (padded arrays with one or several dynamic axes, extra data that may be empty for some sequences), HDFDataset on the file gives exactly these sequences: the same tags in the same order, for every order of sequences and every list of tags the unpadded data, extra data and lengths of the right sequence, and no other data keys. The writer accepts all documented calls. When a temporary file is used and the process dies during close(), the destination is as before or complete.", "quantifier": "all sequences of insert_batch calls, all array contents and lengths, all orders and tag lists on reading, all crash points of close()", "why_tests_cant": "The lengths of all keys are in one matrix whose columns are sorted by key and shift while keys are added during the first sequence; tests use one or two keys.", "anchors": ["returnn/datasets/hdf.py:SimpleHDFWriter", "returnn/datasets/hdf.py:HDFDataset", "returnn/datasets/cached.py:CachedDataset.init_seq_order"]}
{"id": "C50", "title": "HDFDataset on several files is the concatenation", "statement": "HDFDataset with several files written by SimpleHDFWriter shows the sequences of the files one after the other, in each order of sequences and for each tag; if the later files have more extra keys, then the keys of the first file are shown correctly. Files with the same keys and dimensions are always accepted.", "quantifier": "all lists of files, each written or extended by any history; all orders and tags", "why_tests_cant": "Global index, file index and columns have to match for every combination of files and keys; tests use two files with the same keys.", "anchors": ["returnn/datasets/hdf.py:SimpleHDFWriter", "returnn/datasets/hdf.py:HDFDataset", "returnn/datasets/cached.py:CachedDataset.init_seq_order", "returnn/datasets/hdf.py:HDFDataset.add_file"]}
{"id": "C51", "title": "Extending an HDF file keeps what is there", "statement": "After extending an existing file with SimpleHDFWriter(extend_existing_file=True), any number of times, HDFDataset shows the old sequences unchanged followed by the new ones, if all the extra keys are declared in extra_type or there is at most one.", "quantifier": "all histories of writing and extending", "why_tests_cant": "The writer rebuilds its counters from the file; the one unit test has no extra data.", "anchors": ["returnn/datasets/hdf.py:SimpleHDFWriter", "returnn/datasets/hdf.py:HDFDataset", "returnn/datasets/cached.py:CachedDataset.init_seq_order"]}
{"id": "C52", "title": "Copying a dataset to HDF", "statement": "HDFDatasetWriter.dump_from_dataset gives a file from which HDFDataset shows the selected sequences of the dataset: same tags and order, the input under 'data', all other keys under their names ('data' as target is called 'classes'), with the right data and lengths. Copying is accepted for each dataset with a unique input key (or 'data', or only targets).", "quantifier": "all datasets (keys, targets, sequences) and ranges of sequences", "why_tests_cant": "Sorting of keys before and after renaming has to agree for all sets of key names.", "anchors": ["returnn/datasets/hdf.py:HDFDatasetWriter.dump_from_dataset", "returnn/datasets/hdf.py:HDFDataset", "returnn/datasets/cached.py:CachedDataset.init_seq_order"]}
{"id": "C53", "title": "MetaDataset combines data that belongs together", "statement": "For each sequence of an epoch of a MetaDataset, the data of all keys that is read is the data of the sub-datasets for the tags at one common position of the lists of tags; the tag of the sequence is the one at this position, and the positions of the epoch are those asked for (by indices, tags, the control dataset, or the own ordering). Initialising the same epoch again is either a full initialisation or changes nothing.", "quantifier": "all sub-datasets (any behaviour, as long as the data for a tag is always the same), data maps, lists of tags, requests, and histories of loads", "why_tests_cant": "The wrong combination of sequences raises no error and looks like normal training data.", "anchors": ["returnn/datasets/meta.py:MetaDataset", "returnn/datasets/cached2.py:CachedDataset2"]}
{"id": "C54", "title": "MetaDataset can be used with datasets that can be ordered", "statement": "If the sub-datasets have the listed tags and can be given a list of them as order (and the control dataset numbers its sequences by its list of tags), then init_seq_order succeeds for each new epoch and valid request, each load in a row succeeds, and all keys of the loaded sequences can be read.", "quantifier": "all such sub-datasets, data maps, requests and sequences of loads within the epoch", "why_tests_cant": "The tag assertions could fail for some order or some history of overlapping loads.", "anchors": ["returnn/datasets/meta.py:MetaDataset", "returnn/datasets/cached2.py:CachedDataset2"]}
{"id": "C55", "title": "Sums, differences and products of dims have the right size", "statement": "Whatever is computed from dims with +, - and * (numbers or dims, from either side), with all simplifications and with any earlier results found in the caches, stands for the size that the same computation gives on the sizes, provided that dims that compare equal have the same size. This holds for the equality of the library if the dims have distinguishable names and are not batch dims.", "quantifier": "all programs of dim operations, all dims, all sizes of the dynamic dims, all states of the caches reached", "why_tests_cant": "The simplifications depend on the whole structure of the terms and on the history of earlier results; tests check some identities.", "anchors": ["returnn/tensor/_dim_extra.py:_DimMixin", "returnn/tensor/_dim_extra.py:_OpMultTerm", "returnn/tensor/_dim_extra.py:_OpLinearTerm", "returnn/tensor/dim.py:Dim"]}
{"id": "C56", "title": "Divisions of dims have the right size", "statement": "With floor division, rounded up division and exact division as well, what is computed from dims stands for the size that the same computation gives on the sizes, for divisions by positive sizes of sums whose terms are divisions or free of divisions.", "quantifier": "all programs of dim operations in which the divisions are of this form, all sizes, all cache states reached", "why_tests_cant": "Wrong rounding shows only for some sizes and some chains of operations.", "anchors": ["returnn/tensor/_dim_extra.py:_DimMixin", "returnn/tensor/_dim_extra.py:_OpMultTerm", "returnn/tensor/_dim_extra.py:_OpLinearTerm", "returnn/tensor/dim.py:Dim"]}
{"id": "C57", "title": "Computed sizes of derived dims", "statement": "The size computed for each sequence of a derived dim is the size it stands for as long as no sum inside is negative. The size of the axis is the largest of the sizes of the sequences, for dims derived from one dynamic dim by adding, multiplying and dividing with numbers.", "quantifier": "all derived dims, all sizes, all batches", "why_tests_cant": "Depends on the sizes in the batch.", "anchors": ["returnn/tensor/_dim_extra.py:_DimMixin", "returnn/tensor/_dim_extra.py:_OpMultTerm", "returnn/tensor/_dim_extra.py:_OpLinearTerm", "returnn/tensor/dim.py:Dim"]}
{"id": "C58", "title": "CTC automaton", "statement": "The automaton built for CTC has, for each sequence of the batch, exactly one path for every label string that becomes the targets by merging repeated labels and dropping blanks, and no path for any other string; the automata of different sequences share no states.", "quantifier": "all batches of targets without blanks, all lengths including 0, all label strings of any length", "why_tests_cant": "The set of strings is infinite; a wrong edge around repeated labels or at the end changes the loss slightly and tests compare the loss for a few targets.", "anchors": ["returnn/util/fsa.py:get_ctc_fsa_fast_bw"]}
{"id": "C59", "title": "Staircase and shared automata", "statement": "The staircase automaton has exactly one path for each strictly increasing string of positions that obeys the skip limits, with loops exactly one for each non-decreasing string of positions, and none for other strings. The shared automaton gives every sequence of the batch the paths of the edges that were added, from the first to the last state.", "quantifier": "all batches, all lengths, all limits (without loops), all strings; all edge lists", "why_tests_cant": "The set of strings is infinite.", "anchors": ["returnn/util/fsa.py:fast_bw_fsa_staircase", "returnn/util/fsa.py:FastBwFsaShared"]}
{"id": "C60", "title": "Edit distance", "statement": "The edit distance computed for each batch entry is the least number of insertions, deletions and substitutions of one label that turn one sequence into the other, whatever the padding contains.", "quantifier": "all batches, all sequence lengths including 0, all padded sizes (either input may be longer), all labels", "why_tests_cant": "The computation walks over diagonals in a ring buffer; index errors show only for some combinations of lengths.", "anchors": ["returnn/frontend/loss.py:edit_distance"]}
{"id": "C61", "title": "Distributed training cannot hang", "statement": "An epoch of distributed training, with the evaluation after it, never gets stuck: in whatever order the processes run, all of them finish, all after the same number of steps (the number of batches of the process with the fewest), and the outcome does not depend on the order.", "quantifier": "all numbers of processes, all numbers of batches per process, all schedules (interleavings) of the processes, all numbers of batches of the evaluation datasets, all gradient accumulation settings", "why_tests_cant": "A hang depends on the order of the processes and on how many batches each gets; tests run one or two processes on a few batches.", "anchors": ["returnn/torch/engine.py:Engine.train_epoch", "returnn/torch/engine.py:Engine.eval_model", "returnn/torch/distributed.py:DistributedContext"]}
{"id": "C62", "title": "Distributed training with averaged gradients equals training in a single process", "statement": "With reduce_type grad, all processes have the same parameters at the end of the epoch, and these are the ones a single process would get that, in each step, computes the gradients of the batches of all processes and averages them (with gradient accumulation over steps).", "quantifier": "all numbers of processes, batches, schedules, gradient and update functions, accumulation settings", "why_tests_cant": "Replicas that drift apart do not raise an error; a test compares a few numbers of a toy network.", "anchors": ["returnn/torch/engine.py:Engine.train_epoch", "returnn/torch/distributed.py:DistributedContext.maybe_make_distributed_module"]}
{"id": "C63", "title": "Distributed training with averaged parameters", "statement": "With reduce_type param and param_sync_step n, each process trains on its own batches and after each n steps all continue from the mean of the parameters; after a multiple of n steps all parameters are equal.", "quantifier": "all numbers of processes, batches, schedules, n, gradient and update functions, accumulation settings", "why_tests_cant": "An off-by-one in the step of the averaging shows in no error; only in slightly different parameters.", "anchors": ["returnn/torch/distributed.py:DistributedContext.step_after_param_update", "returnn/torch/engine.py:Engine.train_epoch"]}
{"id": "C64", "title": "A cached HDF dataset gives the data of the files", "statement": "With cache_byte_size set, over any number of epochs with any orders, after load_seqs(start, end) the data of each of these sequences are those of the corresponding sequence of the files.", "quantifier": "all numbers and lengths of sequences, cache sizes, histories of epochs, orders and loaded ranges", "why_tests_cant": "The table of allocated intervals depends on the whole history of loads, deletions and orders; a wrong offset gives wrong data without an error. Tests use a cache that holds everything or nothing.", "anchors": ["returnn/datasets/cached.py:CachedDataset.init_seq_order", "returnn/datasets/cached.py:CachedDataset.load_seqs", "returnn/datasets/cached.py:CachedDataset.get_input_data", "returnn/datasets/hdf.py:HDFDataset._load_seqs"]}
{"id": "C65", "title": "Which sequences the cache of an HDF dataset keeps", "statement": "The start cache has the longest begin of the order that fits; a load of sequences that are not cached keeps the start cache, these sequences and as many of the next ones as fit in the rest of the cache, so that the cache never exceeds its limit.", "quantifier": "all numbers and lengths of sequences, cache sizes, histories of loads", "why_tests_cant": "The memory limit is violated only after many loads; no test watches the memory.", "anchors": ["returnn/datasets/cached.py:CachedDataset._init_start_cache", "returnn/datasets/cached.py:CachedDataset._load_seqs_with_cache", "returnn/datasets/cached.py:CachedDataset.delete"]}
{"id": "C66", "title": "A cached HDF dataset with its background threads", "statement": "In any interleaving of load_seqs with the background thread it starts, load_seqs returns, and then the data of the range are those of the files.", "quantifier": "all interleavings, all numbers and lengths of sequences, all states of the cache", "why_tests_cant": "A race shows as zero frames in the training data, depending on the timing.", "anchors": ["returnn/datasets/cached.py:CachedDataset.load_seqs", "returnn/datasets/cached.py:CachedDataset.is_cached", "returnn/datasets/cached.py:CachedDataset._preload_seqs", "returnn/datasets/hdf.py:HDFDataset._load_seqs"]}
{"id": "C67", "title": "Laplace ordering and composition of stream functions", "statement": "LaplaceOrdering gives exactly the items of its input, each bin of num_seqs_per_bin items stably sorted by length, up and down in turn, with the increasing fractions kept at their positions; it reads one bin plus one item per item ahead; a Sequential is the composition of its functions.", "quantifier": "all streams (also infinitely many states of the iterator behind), bin sizes, lengths, numbers of composed functions", "why_tests_cant": "The generator reads ahead while it gives items, so a mistake at the border of a bin or at the end of the stream depends on the number of items modulo the bin size. The test has one stream of two full bins.", "anchors": ["returnn/datasets/postprocessing.py:LaplaceOrdering.__call__", "returnn/datasets/postprocessing.py:Sequential.__call__", "returnn/datasets/postprocessing.py:Sequential.preserves_num_seqs"]}
{"id": "C68", "title": "The sequences of a postprocessing dataset", "statement": "In each epoch, sequence i is what map_seq gives for sequence i of the wrapped dataset, or item i of the stream of map_seq_stream; the same in each run of the epoch, whichever sequences are asked for; fractions are in [0, 1] and do not decrease, a known number of sequences is kept, and tags agree with a given list of tags.", "quantifier": "all functions of the user with any state and exceptions, all wrapped datasets, epochs, lists of tags, and histories of reads", "why_tests_cant": "The functions share a random generator and are run lazily, so which data come could depend on which sequences are read. Tests read all sequences in order.", "anchors": ["returnn/datasets/postprocessing.py:PostprocessingDataset.init_seq_order", "returnn/datasets/postprocessing.py:PostprocessingDataset._collect_single_seq", "returnn/datasets/postprocessing.py:PostprocessingDataset._build_mapping_iter", "returnn/datasets/postprocessing.py:PostprocessingDataset._iterate_dataset"]}
{"id": "C69", "title": "Atomic updates of the kernels", "statement": "When the threads of a kernel add scores to the same cell, or keep the best candidate of a cell, then in every interleaving no update is lost or done twice: the cell is the sum of all in some order, or the best of all candidates, and for equal candidates the one with the smallest index if the cell is read at once.", "quantifier": "all numbers of threads, cells and candidates, all interleavings of their reads and compare-and-swap operations", "why_tests_cant": "The tests run the CPU code, which is sequential; an interleaving that loses an update would be rare on a GPU and would only change a score slightly.", "anchors": ["returnn/native_op.py:FastBaumWelchOp", "returnn/native_op.py:FastViterbiOp"]}
{"id": "C70", "title": "FastViterbi finds the best path", "statement": "For each sequence of a batch, the score of FastViterbi is the best score of all paths of the length of the sequence through its automaton, the labels are those of a path with this score, and 0 after the end of the sequence; two runs give the same labels, also for equal scores.", "quantifier": "all batches of automata with separate states, all scores, lengths, and interleavings of the threads of each frame", "why_tests_cant": "The tests compare a few automata with a reference implementation; equal scores and threads in other orders do not occur there.", "anchors": ["returnn/native_op.py:FastViterbiOp"]}
{"id": "C71", "title": "FastBaumWelch computes posteriors", "statement": "For each frame of a sequence, FastBaumWelch gives the sum over all paths through the automaton of the sequence, the same in each frame, and for each label the part of the paths that have this label in this frame; these sum up to one; frames after the end and sequences without a path are zero.", "quantifier": "all batches of automata with separate states, all weights and scores, masks for lengths, and interleavings of the threads", "why_tests_cant": "Forward and backward pass meet in an edge buffer that is normalized per frame; an error there shows up only for some lengths in the batch. The tests compare sums for a few small automata.", "anchors": ["returnn/native_op.py:FastBaumWelchOp"]}
{"id": "C72", "title": "CTC loss and CTC alignment", "statement": "With the automaton of get_ctc_fsa_fast_bw, the sums of FastBaumWelch are the sums over all label strings of the length of the sequence that collapse to the targets, and the output is the posterior of each label; FastViterbi gives a best alignment, which collapses to the targets.", "quantifier": "all batches of targets without blanks, all lengths, scores and interleavings", "why_tests_cant": "It needs the automaton, both passes and the lengths to fit together; the tests compare with TF for a few targets.", "anchors": ["returnn/util/fsa.py:get_ctc_fsa_fast_bw", "returnn/native_op.py:FastBaumWelchOp", "returnn/native_op.py:FastViterbiOp"]}
{"id": "C73", "title": "Sizes of convolutions", "statement": "The out spatial dim of a convolution gives for each sequence the number of windows that fit into the sequence with its padding, or ceildiv(length, stride) for \"same\"; the raw tensor has as many frames as the longest of these. An error is raised only if not even the longest sequence has a window.", "quantifier": "all lengths, filter sizes, strides, dilations, paddings, any filter", "why_tests_cant": "Sizes of dims and the raw tensor are computed by separate formulas; the raw tensor is not checked against a dynamic dim.", "anchors": ["returnn/frontend/conv.py:conv", "returnn/frontend/conv.py:make_conv_out_spatial_dims", "returnn/frontend/conv.py:_consistent_same_padding", "returnn/torch/frontend/_backend.py:TorchBackend.conv"]}
{"id": "C74", "title": "Convolution of a padded batch", "statement": "The convolution of a padded batch of sequences is, within the length of each output, the convolution of each single sequence with zeros around it; it does not depend on the other sequences or on what is after the end of a sequence.", "quantifier": "all batches and paddings, all values after the ends, filter sizes, strides, dilations, filters", "why_tests_cant": "The tests compare one entry of one batch with its result alone; which paddings depend on the longest sequence is a matter of remainders.", "anchors": ["returnn/frontend/conv.py:conv", "returnn/frontend/conv.py:make_conv_out_spatial_dims", "returnn/frontend/conv.py:_consistent_same_padding", "returnn/torch/frontend/_backend.py:TorchBackend.conv"]}
{"id": "C75", "title": "Pooling of a padded batch", "statement": "Max-pooling of a padded batch is, within the length of each output, the maximum over the windows of each single sequence, and zero after it; average pooling without padding is the average over the windows of each sequence.", "quantifier": "all batches, values after the ends, pool sizes, strides, dilations, paddings", "why_tests_cant": "The tests use a few sizes; the average with \"same\" is only tested for an even pool size.", "anchors": ["returnn/frontend/conv.py:pool", "returnn/torch/frontend/_backend.py:TorchBackend.pool"]}
{"id": "C76", "title": "Padding and shifting of padded sequences", "statement": "Padding a dynamic dim adds the value before the first and after the last frame of each sequence, also for sequences shorter than others of the batch; shift_right and shift_left move each sequence by the amount and fill with the value; the result does not depend on what is after the end of a sequence.", "quantifier": "all batches, lengths, values after the ends, amounts left and right, values", "why_tests_cant": "The tests compare shapes, or a single small batch.", "anchors": ["returnn/frontend/array_.py:pad", "returnn/frontend/array_.py:shift_right", "returnn/frontend/array_.py:shift_left", "returnn/torch/frontend/_backend.py:TorchBackend.pad"]}
{"id": "C77", "title": "Reversing and slicing of padded sequences", "statement": "reverse_sequence reverses each sequence within its length, and twice gives the sequences back; a slice of a padded batch is the slice of each sequence.", "quantifier": "all batches, lengths, starts, ends and sizes", "why_tests_cant": "Slices are tested for a few static numbers.", "anchors": ["returnn/frontend/array_.py:reverse_sequence", "returnn/frontend/array_.py:slice", "returnn/torch/frontend/_backend.py:TorchBackend.gather", "returnn/torch/frontend/_backend.py:TorchBackend.slice"]}
{"id": "C78", "title": "Windows of padded sequences", "statement": "window gives for each (or each stride-th) frame of each sequence the window of frames around it, with the padding value outside of the sequence; with \"valid\" one window for each position where it fits.", "quantifier": "all batches, lengths, window sizes, strides, left and right sizes, padding values", "why_tests_cant": "The function has no test; it works by flattening, padding and reshaping.", "anchors": ["returnn/frontend/array_.py:window"]}
{"id": "C79", "title": "Packing of padded sequences", "statement": "pack_padded gives the frames of all sequences in the order of the dims without the padding, pad_packed is its inverse, also after any processing of the frames; masked_select and masked_scatter do the same for any mask, over all dims or only over time.", "quantifier": "all batches, lengths, masks inside of the sequences, both orders of dims, any processing", "why_tests_cant": "The tests use a static batch and one random mask; orders and padding interact.", "anchors": ["returnn/frontend/array_.py:masked_select", "returnn/frontend/array_.py:masked_scatter", "returnn/frontend/array_.py:pack_padded", "returnn/frontend/array_.py:pad_packed", "returnn/torch/frontend/_backend.py:TorchBackend.masked_select", "returnn/torch/frontend/_backend.py:TorchBackend.masked_scatter"]}
{"id": "C80", "title": "Scattering of padded sequences", "statement": "scatter puts into each entry of the out dim the sum (maximum, minimum) of the values of all frames of the sequence whose index is this entry, and zero (minus, plus infinity) if there is none, whatever the frames after the end of the sequence are.", "quantifier": "all sequences, indices, values and frames after the end", "why_tests_cant": "The tests scatter a static dim with few values.", "anchors": ["returnn/frontend/array_.py:scatter", "returnn/torch/frontend/_backend.py:TorchBackend.scatter"]}
{"id": "C81", "title": "Scattering of the position of the maximum", "statement": "scatter_argmax gives for each entry the first position of the largest of all values whose index is this entry, and the invalid index if there is none.", "quantifier": "all sequences, indices, values", "why_tests_cant": "Ties, infinities and padding interact.", "anchors": ["returnn/frontend/array_.py:scatter_argmax", "returnn/frontend/array_.py:scatter"]}
{"id": "C82", "title": "Scattering in log space", "statement": "scatter_logsumexp gives for each entry the log of the sum of the exponentials of all values whose index is this entry, minus infinity if there is none; scatter_logmeanexp gives the log of their mean.", "quantifier": "all sequences, indices, log-values including minus infinity", "why_tests_cant": "Needs all values; infinities give nan in intermediate results.", "anchors": ["returnn/frontend/array_.py:scatter_logsumexp", "returnn/frontend/array_.py:scatter_logmeanexp"]}
{"id": "C83", "title": "Masks of the most probable labels", "statement": "top_k_mask keeps k values, each at least every dropped one. top_p_mask keeps the most probable labels: as many as have a sum of at most p, and with one_more (the default) one more if there is one, so that at least one label is always kept.", "quantifier": "all values, k, p, and all orders that sorting may find for equal values", "why_tests_cant": "Ties and sums at the boundary.", "anchors": ["returnn/frontend/array_.py:top_k_mask", "returnn/frontend/array_.py:top_p_mask"]}
{"id": "C84", "title": "Elementwise operations go by the dims", "statement": "An elementwise operation on two tensors (combine, compare, the operators) gives a tensor with all dims of both, whose entry for each choice of indices of these dims is the operation on the entries of both for these indices, in whatever order the axes of both are. If none of both has all dims, it is a ValueError unless allow_broadcast_all_sources is set. With dim_order, the dims of the result are in this order. The compiled module gives the same entries as the python code.", "quantifier": "all tensors with different dims, all operations, all orders of the axes", "why_tests_cant": "The tests use a few shapes; the code has fast paths for identical, prefix and reordered dims.", "anchors": ["returnn/frontend/math_.py:combine", "returnn/frontend/math_.py:compare", "returnn/frontend/_utils.py:bin_op_out_template", "returnn/tensor/_tensor_extra.py:_TensorMixin.copy_compatible_to_dims_raw", "returnn/tensor/_tensor_extra.py:_TensorMixin.get_out_permutation_to_dims", "returnn/frontend/_native/tensor_ops.cpp:compareOrCombine", "returnn/frontend/_native/tensor_ops.cpp:_permuteAndExtend", "returnn/frontend/_native/tensor_ops.cpp:_getPermutationSupersetToSubset"]}
{"id": "C85", "title": "Operations of a tensor and a number", "statement": "An operation of a tensor and a number gives the operation on each element, also for the numbers where the code takes a shortcut (0, 1, -1, True).", "quantifier": "all operations, tensors of integers, numbers", "why_tests_cant": "The shortcuts are for special numbers only; the tests use the compiled module.", "anchors": ["returnn/frontend/math_.py:combine", "returnn/tensor/_tensor_op_overloads.py:_TensorOpOverloadsMixin", "returnn/frontend/_native/tensor_ops.cpp:compareOrCombineViaCached"]}
{"id": "C86", "title": "The product of tensors with named dims", "statement": "matmul(a, b, reduce=dims) gives a tensor with the common dims in the order of a, then the other dims of a, then those of b; its entry for each choice of indices is the sum, over all indices of the reduced dims, of the products of the entries of a and b.", "quantifier": "all tensors with different dims in any order, any number of common, reduced and other dims, also of size 0", "why_tests_cant": "The code takes three ways (linear, mm, bmm) depending on the numbers of axes and the sizes.", "anchors": ["returnn/frontend/matmul.py:matmul", "returnn/torch/frontend/_backend.py:TorchBackend.matmul", "returnn/tensor/_tensor_extra.py:_TensorMixin.get_axis_from_description"]}
{"id": "C87", "title": "Merging, splitting and reshaping dims keeps each entry", "statement": "merge_dims, split_dims and reshape put the new dims where the first of the old ones was and leave all other dims; the entry for a choice of indices is the entry of the source with the same row-major position in the replaced dims, for any order of the dims in the source; doing the inverse gives the same entries again.", "quantifier": "all tensors with different dims in any order, all lists of dims to merge or reshape in any order, all sizes", "why_tests_cant": "The order of the dims in the source and in the arguments, and whether they are adjacent, decide on the transposition.", "anchors": ["returnn/torch/frontend/_backend.py:TorchBackend.merge_dims", "returnn/torch/frontend/_backend.py:TorchBackend.split_dims", "returnn/torch/frontend/_backend.py:TorchBackend.reshape", "returnn/tensor/_tensor_extra.py:_TensorMixin.copy_transpose"]}
{"id": "C88", "title": "Joining tensors along a dim and splitting them again", "statement": "concat gives a tensor which has each source from the sum of the sizes of the sources before on, whatever the order of the dims in each source, and nothing else; split gives these parts; concat after split and split after concat give the same entries.", "quantifier": "all numbers of sources, all orders of the dims in each, all sizes, also 0", "why_tests_cant": "Offsets and transpositions depend on all sources.", "anchors": ["returnn/torch/frontend/_backend.py:TorchBackend.concat", "returnn/torch/frontend/_backend.py:TorchBackend.split"]}
{"id": "C89", "title": "The largest entries over several dims", "statement": "top_k with a list of axes gives, for each choice of the other indices, the k largest entries over all index combinations of the axes in decreasing order, and for each axis its index, such that the source has this value at these indices; no combination is there twice.", "quantifier": "all tensors, all non-empty lists of axes in any order, all k up to the number of combinations", "why_tests_cant": "The indices are computed from positions in the flattened axes.", "anchors": ["returnn/torch/frontend/_backend.py:TorchBackend.top_k", "returnn/frontend/reduce.py:top_k"]}
{"id": "C90", "title": "The cross entropy of logits is per position", "statement": "cross_entropy with estimated_type=\"logits\" gives, for each choice of the indices of all dims but the classes, the cross entropy of the logits over the classes there with the target there, for sparse and dense targets, if the dims of the logits and of the targets are in mirrored order (e.g. [batch, time, classes] and [batch, time], or [batch, classes] and [batch]); if the order is another one and all sizes differ, there is an error.", "quantifier": "all logits and targets with any number of dims in any order, any sizes, any function for one position", "why_tests_cant": "The permutation depends on the orders of the dims of both tensors; tests use two or three dims.", "anchors": ["returnn/torch/frontend/_backend.py:TorchBackend.softmax_cross_entropy_with_logits", "returnn/frontend/loss.py:cross_entropy", "returnn/tensor/_tensor_extra.py:_TensorMixin.copy_transpose"]}
{"id": "C91", "title": "Relative positions in self-attention", "statement": "In self-attention with relative positions, the positional score of query t and key s is the one computed for the relative position s - t (with an offset o: s - t - o), whatever other dims there are and in whichever order; in a single step it is the one of the last position. The learned encoding takes for each relative position the row with this distance to the row of position 0, and the first or last row for positions outside, never a row outside of the table; the full matrix has the same rows.", "quantifier": "all numbers of queries and keys, all tensors and orders of dims, all scores, tables and offsets", "why_tests_cant": "The shift is done by padding and reshaping (\"You need to draw the 2D arrays on paper to understand this\"); tests compare a few sizes.", "anchors": ["returnn/frontend/attention.py:_rel_pos_enc_shift", "returnn/frontend/attention.py:_make_indices", "returnn/frontend/attention.py:LearnedRelativePositionalEncoding"]}
{"id": "C92", "title": "Self-attention ignores padding; causal self-attention step by step", "statement": "Self-attention on a padded batch gives each sequence what it gives on its own, whatever the padding holds. Causal self-attention gives each frame the attention to itself and the frames before, so a result does not depend on later frames; running it frame by frame from the initial state, or on a prompt with sequences of different lengths and then step by step, gives the same as the whole sequences at once, and the state always holds the frames seen. This holds for any energies which depend on the two positions: plain, rotary and relative. A whole sequence after a state with frames is refused.", "quantifier": "all batches, lengths, padding, numbers of steps, prompts, projections, energies, and softmax functions which give masked entries weight zero", "why_tests_cant": "Tests compare a few random tensors with fixed seeds, and the step-by-step case only for few steps.", "anchors": ["returnn/frontend/attention.py:dot_attention", "returnn/frontend/attention.py:SelfAttention", "returnn/frontend/attention.py:CausalSelfAttention", "returnn/frontend/attention.py:_causal_self_att_step", "returnn/frontend/attention.py:RotaryPosCausalSelfAttention", "returnn/frontend/attention.py:RelPosCausalSelfAttention", "returnn/frontend/array_.py:cum_concat_step"]}
{"id": "C93", "title": "Rotary positions depend on distances only", "statement": "With rotary positions, the score of a query and a key depends on the distance of their positions only: it is the score of the query rotated by the angle of the distance. Moving all positions changes nothing, and at equal positions the product, and so the length of vectors, is kept.", "quantifier": "all vectors, positions and numbers of features, any commutative ring with sines and cosines with the addition theorem", "why_tests_cant": "Rounding hides errors in a numeric test, and few positions are tried.", "anchors": ["returnn/frontend/attention.py:_apply_rope", "returnn/frontend/attention.py:RotaryPosSelfAttention", "returnn/frontend/attention.py:sinusoidal_positional_encoding"]}
{"id": "C94", "title": "Assignment to a part of a parameter", "statement": "Assigning (or adding) a value to a parameter at a key changes exactly the entries at the key, each by the entry of the value for it, for numbers (also negative), slices (also with steps and negative ends) and vectors as keys, for the first axes in any order; without a key all entries.", "quantifier": "all parameters, sizes, values (with any order of dims, or with dims missing), keys of the first axes", "why_tests_cant": "Tests use one axis, which is the first.", "anchors": ["returnn/frontend/parameter.py:Parameter.assign_key", "returnn/frontend/_utils.py:strided_slice_raw_key", "returnn/torch/frontend/_backend.py:TorchBackend.parameter_assign_key"]}
{"id": "C95", "title": "Reductions ignore the padding", "statement": "A reduction (sum, max, min, all, any, argmax, argmin) over dims with sequence lengths takes exactly the entries before the end of each sequence into account, whatever is in the padding, also where lengths depend on other dims with lengths; use_mask=False takes all entries; argmax gives the first best index, inside the sequence.", "quantifier": "all tensors, orders of dims, lengths (nested without circles), lists of reduced dims", "why_tests_cant": "Tests use few shapes, and lengths of shape [B] mostly.", "anchors": ["returnn/torch/frontend/_backend.py:TorchBackend.reduce", "returnn/tensor/_dim_extra.py:_DimMixin.get_mask", "returnn/tensor/_tensor_extra.py:_TensorMixin.get_sequence_mask_broadcast", "returnn/tensor/_tensor_extra.py:_TensorMixin.copy_masked"]}
{"id": "C96", "title": "Number of elements and mean", "statement": "The number of elements of some dims is the number of places before the end of each sequence, also where the lengths of some of them depend on others of them; the mean over dims is the sum of the entries that count divided by their number.", "quantifier": "all dims with nested lengths, tensors, indices of the remaining dims with at least one entry", "why_tests_cant": "Tests use [B,T] with lengths of shape [B].", "anchors": ["returnn/frontend/dims.py:num_elements_of_shape", "returnn/frontend/dims.py:masked_fraction_of_shape", "returnn/torch/frontend/_backend.py:TorchBackend.reduce"]}
{"id": "C97", "title": "Sprint archives give back what was written", "statement": "A feature archive written with add_feature_cache and finalize can be opened again, lists the entry names and their attributes in the order of first writing, and reading a name gives the features and times (or attributes) last written under it; a unique last part of a name works as name too; an archive whose writer died before finalize is refused on opening.", "quantifier": "all sequences of entries (names, feature vectors of any lengths, times), all archives", "why_tests_cant": "Tests have no archive written and read with arbitrary names, repeated names, empty entries or a missing table.", "anchors": ["returnn/sprint/cache.py:FileArchive.__init__", "returnn/sprint/cache.py:FileArchive.add_feature_cache", "returnn/sprint/cache.py:FileArchive.write_file_info_table", "returnn/sprint/cache.py:FileArchive.read_file_info_table", "returnn/sprint/cache.py:FileArchive.read", "returnn/sprint/cache.py:FileArchive.scan_archive"]}
{"id": "C98", "title": "Alignments of Sprint archives", "statement": "Reading a run-length encoded alignment gives for every frame its time, allophone and state as encoded, for literals, runs and explicit times, whatever bytes follow; the same in the weighted scheme for frames without an explicit time.", "quantifier": "all lists of runs, labels with fewer than 6 states, up to 2^26 allophones, positions in the file", "why_tests_cant": "No test reads alignments of either scheme from bytes.", "anchors": ["returnn/sprint/cache.py:FileArchive._raw_read", "returnn/sprint/cache.py:FileArchive.get_state", "returnn/sprint/cache.py:FileArchive.read_packed_U32"]}
{"id": "C99", "title": "Bundles of Sprint archives", "statement": "A bundle lists the entries of all its archives and reads each entry from the archive added last among those which have it; a short name which belongs to exactly one entry works.", "quantifier": "all lists of archives and names", "why_tests_cant": "Tests have no bundles with overlapping archives.", "anchors": ["returnn/sprint/cache.py:FileArchiveBundle.add_archive", "returnn/sprint/cache.py:FileArchiveBundle.read", "returnn/sprint/cache.py:FileArchiveBundle.has_entry"]}
{"id": "C100", "title": "Which setting of the config counts", "statement": "The last change of a key counts. A key given on the command line has the value given last there, whatever the config files, updates and defaults say: as text, or in place of a Python value as a str or as the evaluated expression. Otherwise extra_updates count, otherwise what the last config file sets, otherwise the default config.", "quantifier": "all config files (as functions of the config so far), command lines, default configs and updates", "why_tests_cant": "The tests have one config file with one overridden key; the order of the sources matters only in combinations.", "anchors": ["returnn/__main__.py:init_config", "returnn/config.py:Config.add_line", "returnn/config.py:Config.parse_cmd_args", "returnn/config.py:Config.load_file", "returnn/config.py:Config.update", "returnn/config.py:Config.set"]}
{"id": "C101", "title": "Reading settings", "statement": "A text with commas is read back as the same text, as the list of its parts, and part by part as str, int or bool; an int list is the same from a Python config and as a text; a file in the old format gives the keys and values of its lines whatever spaces, blank lines and comments it has.", "quantifier": "all texts, keys, lists, files in the old format of printable characters", "why_tests_cant": "Tests read one small file of each format.", "anchors": ["returnn/config.py:Config.value", "returnn/config.py:Config.int", "returnn/config.py:Config.bool", "returnn/config.py:Config.list", "returnn/config.py:Config.int_list", "returnn/config.py:Config.int_pair", "returnn/config.py:Config.is_true", "returnn/config.py:Config.load_file"]}
{"id": "C102", "title": "Scores are averages over the dataset", "statement": "The score of a loss after an epoch (on the training data, or on an evaluation dataset) is the sum of the loss over all entries of all batches divided by the number of entries (or by custom_inv_norm_factor); every loss marked in some batch has a score; on an evaluation dataset it does not depend on the batches nor on the order of the sequences.", "quantifier": "all losses per sequence, all splits of the sequences into batches, all numbers of batches, losses which are marked only in some batches", "why_tests_cant": "Tests train for a step or two and look at no score; equality for all splits cannot be tested.", "anchors": ["returnn/frontend/run_ctx.py:RunCtx.mark_as_loss", "returnn/frontend/run_ctx.py:Loss.get_summed_loss", "returnn/frontend/run_ctx.py:Loss.get_inv_norm_factor", "returnn/torch/engine.py:Engine.train_epoch", "returnn/torch/engine.py:Engine.eval_model"]}
{"id": "C103", "title": "Accumulated gradients", "statement": "With accum_grad_multiple_step n each update uses the sum of the gradients of n batches with the same weights, which for losses that are not normalized is the gradient of one batch with all their sequences.", "quantifier": "all numbers n (or functions of the step), all batches, losses and optimizers", "why_tests_cant": "Tests do not compare accumulated gradients with a large batch.", "anchors": ["returnn/torch/engine.py:Engine.train_epoch", "returnn/frontend/run_ctx.py:RunCtx.total_loss", "returnn/frontend/run_ctx.py:Loss.get_scaled_reduced_loss"]}
{"id": "C104", "title": "Sizes of the data of a batch", "statement": "For a batch which fits extern_data, the batch dim gets the number of sequences as size, and each dynamic time dim the sequence lengths of the data which have it, if data with the same time dim have the same lengths.", "quantifier": "all extern_data definitions and batches", "why_tests_cant": "Tests use one or two data keys with matching lengths.", "anchors": ["returnn/torch/data/extern_data.py:raw_dict_to_extern_data"]}
{"id": "C105", "title": "Parameters of a loaded model", "statement": "When a model is loaded (checkpoint and preload_from_files), every parameter has the value of the first applicable entry of preload_from_files which has it, else of the checkpoint; loading fails if a critical parameter is in none of them, unless it is marked to be initialized randomly; and it does not fail if all are found.", "quantifier": "all models, checkpoints, tasks, numbers of entries of preload_from_files with all their options (prefix, ignored parameters, renamed parameters, checkpoint key, ignore_missing, patterns, init_for_train)", "why_tests_cant": "There is no unit test for preload_from_files with the PyTorch engine; combinations of entries cannot be enumerated.", "anchors": ["returnn/torch/engine.py:Engine._load_model", "returnn/torch/util/module.py:convert_parameters_to_buffers"]}
{"id": "C106", "title": "Resuming with preloaded parameters", "statement": "Training which is stopped after saving and started again goes on with the same parameters, the next epoch and the same global step, also if some parameters come from files with init_for_train=\"always\" and are not in the saved checkpoint.", "quantifier": "all models, all preload_from_files, all parameter updates by training, all epochs and steps", "why_tests_cant": "A test would need two runs of the engine for all kinds of configs.", "anchors": ["returnn/torch/engine.py:Engine._load_model", "returnn/torch/engine.py:Engine._save_model", "returnn/torch/util/module.py:convert_parameters_to_buffers"]}
{"id": "C107", "title": "scan over a dim", "statement": "rf.scan over a dim with sequence lengths gives every sequence of the batch the outputs and the final state it would get alone: padded frames and the other sequences have no influence.", "quantifier": "all batches, sequence lengths, inputs, paddings, states and bodies which handle the entries of the batch separately", "why_tests_cant": "Tests compare one batch with one loop; independence from padding holds for all inputs only by proof.", "anchors": ["returnn/frontend/loop.py:scan", "returnn/frontend/loop.py:while_loop", "returnn/frontend/nested.py:mask_nested", "returnn/torch/frontend/_backend.py:TorchBackend.tensor_array_stack"]}
{"id": "C108", "title": "scan with a condition", "statement": "rf.scan with cond gives every sequence the outputs of the loop `while cond: body` (or with cond_before_body=False of `do body while cond`) run for it alone, and the number of iterations (at most max_seq_len) as the size of the new dim; the size of the outputs is the longest.", "quantifier": "all conditions and bodies which handle the entries separately and whose loops end, all batches, all limits", "why_tests_cant": "Tests have one batch and do not look at the final state.", "anchors": ["returnn/frontend/loop.py:scan", "returnn/frontend/loop.py:while_loop", "returnn/frontend/nested.py:mask_nested"]}
{"id": "C109", "title": "TensorArray", "statement": "push_back gives an array with the entry at its end; arrays which were created independently are not changed.", "quantifier": "all arrays and entries", "why_tests_cant": "Aliasing shows up only if the old array is used again.", "anchors": ["returnn/frontend/tensor_array.py:TensorArray.push_back", "returnn/frontend/_backend.py:Backend.tensor_array_push_back"]}
{"id": "C110", "title": "Names of modules and parameters", "statement": "named_modules and named_parameters give every module and every parameter which can be reached from a module over attributes exactly once, also when it is shared or when modules refer to each other in cycles. The names are distinct, each is the dotted path of attributes of one of the shortest ways to the object, and get_deep(name) gives the object back (and accepts exactly the names of paths).", "quantifier": "all graphs of modules with attribute names without dots", "why_tests_cant": "Tests have small trees; uniqueness, completeness and termination concern all graphs.", "anchors": ["returnn/frontend/module.py:Module.named_modules", "returnn/frontend/module.py:Module.named_parameters", "returnn/frontend/module.py:Module.get_deep"]}
{"id": "C111", "title": "set_deep and apply", "statement": "set_deep(target, value) sets the attribute which get_deep(target) reads, and nothing else. apply calls the function for exactly the modules which can be reached, for children before their parents, for the module itself at last.", "quantifier": "all graphs of modules, targets and values; acyclic ones for the termination of apply", "why_tests_cant": "Depends on the depth of the target and the shape of the graph.", "anchors": ["returnn/frontend/module.py:Module.set_deep", "returnn/frontend/module.py:Module.apply"]}
{"id": "C112", "title": "RF modules as torch modules", "statement": "The torch module made of an RF module has a state dict with exactly the parameters of the RF module under the dotted names of all paths to them, each name once. named_parameters and named_buffers give every parameter once, auxiliary ones as buffers if this is wanted, and without sharing under the same names as named_parameters of the RF module.", "quantifier": "all acyclic graphs of modules, all choices of auxiliary parameters", "why_tests_cant": "Checkpoints depend on these names; tests compare a few models.", "anchors": ["returnn/torch/frontend/bridge.py:rf_module_to_pt_module", "returnn/torch/frontend/bridge.py:RFModuleAsPTModule.__init__"]}
{"id": "C113", "title": "ModuleList", "statement": "ModuleList (and Sequential) behaves as a python list of modules: construction, append, extend, len, iteration, l[i], l[a:b], l[i] = m, l[a:b] = ms and del. Entries without an own name are named by their position, so the names in checkpoints depend on the contents only.", "quantifier": "all lists of modules with or without own names, all indices and slices as stated", "why_tests_cant": "Tests have one list and four operations.", "anchors": ["returnn/frontend/container.py:ModuleList"]}
{"id": "C114", "title": "ParameterList", "statement": "ParameterList behaves as a python list of parameters.", "quantifier": "all lists of parameters", "why_tests_cant": "The assignment has no test.", "anchors": ["returnn/frontend/container.py:ParameterList"]}
{"id": "C115", "title": "Hooks on methods", "statement": "A method with hooks gives the result of the method passed through the active hooks of that object, in the order of registration (or in front with prepend), whatever was registered and removed before. Other objects are not affected, removing a hook twice is harmless, and after the last hook is removed the class and the objects are as before.", "quantifier": "all sequences of registrations and removals on all objects of a class, all calls afterwards", "why_tests_cant": "The test has one object and one hook.", "anchors": ["returnn/frontend/hooks.py:setup_post_hook_on_method", "returnn/frontend/hooks.py:MethodWithHooks", "returnn/frontend/module.py:Module.register_forward_hook"]}
{"id": "C116", "title": "Restarting the training process", "statement": "The train proc manager starts the training process only if the training is not finished, and again only if the process before made progress; so it comes to an end after at most as many starts as there are epochs. Its exit code is that of the last process, or 0 if nothing was to be done.", "quantifier": "all behaviours of the training processes: exit codes and model files which they write or delete", "why_tests_cant": "Crashes of the child process are not tested.", "anchors": ["returnn/util/train_proc_manager.py:main_proc_manager", "returnn/util/train_proc_manager.py:maybe_start_train_proc_manager", "returnn/engine/base.py:EngineBase.get_existing_models"]}
{"id": "C117", "title": "Data from Sprint: two threads", "statement": "While the Sprint thread adds the sequences of an epoch and the train thread reads them, the train thread gets all sequences in the order in which they were added, however the threads are scheduled; no thread fails, they never wait for each other forever, and Sprint keeps less than 200 sequences ahead of the last requested one in memory.", "quantifier": "all data of the epochs (also with no sequences), all schedules of the two threads", "why_tests_cant": "The result depends on the schedule of two threads; the tests see one schedule.", "anchors": ["returnn/datasets/sprint.py:SprintDatasetBase.add_new_data", "returnn/datasets/sprint.py:SprintDatasetBase._wait_for_seq", "returnn/datasets/sprint.py:SprintDatasetBase.load_seqs", "returnn/datasets/sprint.py:SprintDatasetBase.wait_for_returnn_epoch", "returnn/sprint/interface.py:getSegmentList"]}
{"id": "C118", "title": "Normalization over padded batches", "statement": "Batch normalization in training normalizes exactly the frames of the sequences of a batch with their mean and variance, whatever is in the padding, and moves the running statistics to these; in evaluation it uses the running statistics and does not change them, so the result of a sequence does not depend on the others. The running statistics stay in the range of the statistics of the batches. Layer normalization uses mean and variance of each frame.", "quantifier": "all batches, lengths, paddings, values (rational numbers), momentum and epsilon values, any function for the reciprocal square root", "why_tests_cant": "The result for one sequence depends on the lengths and values of all sequences; tests compare a few random tensors.", "anchors": ["returnn/frontend/normalization.py:moments", "returnn/frontend/normalization.py:LayerNorm", "returnn/frontend/normalization.py:BatchNorm", "returnn/torch/frontend/_backend.py:TorchBackend.batch_norm", "returnn/torch/frontend/_backend.py:TorchBackend.reduce"]}
{"id": "C119", "title": "Label smoothing gives distributions", "statement": "Label smoothing of a distribution is a distribution, keeps the order of the labels, and gives the same for sparse labels and their one-hot distribution; with the smoothed gradient, a loss has the gradient for smoothed targets, also if the loss is scaled, and a zero gradient stays zero.", "quantifier": "all distributions, numbers of labels, smoothing values, scales", "why_tests_cant": "Holds for all distributions and sizes; tests use one of each.", "anchors": ["returnn/frontend/label_smoothing.py:label_smoothing", "returnn/frontend/label_smoothing.py:smooth_one_hot", "returnn/frontend/label_smoothing.py:label_smoothed_log_prob_gradient", "returnn/torch/util/scaled_gradient.py:scaled_gradient_ext"]}
{"id": "C120", "title": "Parametrized parameters", "statement": "After register_parametrization, reading the parameter of the module gives the transformation of its current value, assigning sets the original parameter, and all other attributes, parameters, names and values of all modules stay the same; remove_parametrization gives back the original parameter. With keep_existing_param=False the parametrization takes the place of the parameter, with its value, and removing it gives a new parameter with the current value. This holds for every history of these calls.", "quantifier": "all modules, names, parametrizations, and all histories of register, remove and assignments (also failing ones)", "why_tests_cant": "The class of the module is replaced at runtime; the result depends on the history of calls. The test has one history.", "anchors": ["returnn/frontend/parametrize.py:register_parametrization", "returnn/frontend/parametrize.py:remove_parametrization", "returnn/frontend/parametrize.py:is_parametrized", "returnn/frontend/parametrize.py:_Property"]}
{"id": "C121", "title": "Native edit distance", "statement": "The native edit distance operation gives, for every pair of padded sequences of a batch, the least number of insertions, deletions and substitutions; it never accesses memory outside of its arrays; padding, the other sequences, uninitialised buffers and the order in which the threads run do not matter.", "quantifier": "all batches, lengths, paddings, contents of the buffers, and all orders of the iterations of each kernel call", "why_tests_cant": "The diagonals of the table are packed differently depending on the shape, and the threads run in any order; tests have a few random shapes.", "anchors": ["returnn/native_op.py:EditDistanceOp", "returnn/tf/native_op.py:edit_distance"]}
{"id": "C122", "title": "Native optimal completion distance", "statement": "The optimal completion operations give the least edit distance which any continuation of the prefix can reach, also for every successor label, although the latter is computed only of the last row of the table.", "quantifier": "all batches, prefixes, references, successor labels, and all orders of the iterations", "why_tests_cant": "There are infinitely many continuations, and concurrent atomic minima.", "anchors": ["returnn/native_op.py:OptimalCompletionEditDistanceOp", "returnn/native_op.py:OptimalCompletionEditDistancePerSuccessorOp"]}
{"id": "C123", "title": "Edit distance row by row", "statement": "Going step by step through the symbols, the rows are those of the table of edit distances, also when sequences end at different steps or with blank labels in between; the reductions give the (optimal completion) edit distance of one more label; the whole loop agrees with the direct operation.", "quantifier": "all batches, lengths, labels, blanks and numbers of steps", "why_tests_cant": "Every step depends on all steps before; tests compare for one random batch.", "anchors": ["returnn/native_op.py:NextEditDistanceRowOp", "returnn/native_op.py:NextEditDistanceReduceOp", "returnn/tf/native_op.py:edit_distance_via_next_edit_distance_row", "returnn/tf/layers/rec.py:EditDistanceTableLayer"]}
{"id": "C124", "title": "Native chunking and unchunking", "statement": "Chunking a batch gives every frame of every sequence in all chunks which contain it, with the chunk starts of the naive loop; unchunking gives the mean over the chunks; unchunking what was chunked gives the input and its mask; no access is outside of the tensors.", "quantifier": "all batches, lengths, masks, chunk sizes and steps with step at most the size", "why_tests_cant": "The number of chunks and the range of chunks of a frame are rounded divisions; tests have seven pairs of size and step.", "anchors": ["returnn/native_op.py:Chunking", "returnn/native_op.py:UnChunking", "returnn/tf/native_op.py:chunk", "returnn/tf/native_op.py:unchunk"]}
{"id": "C125", "title": "Gradients of chunking and unchunking", "statement": "The registered gradients of chunking and unchunking are the adjoints of these linear operations.", "quantifier": "all batches, lengths, masks, sizes, steps and output gradients", "why_tests_cant": "The gradient of each one is computed by the other operation with correction factors; tests compare for a few shapes.", "anchors": ["returnn/tf/native_op.py:_chunk_grad", "returnn/tf/native_op.py:_unchunk_grad"]}
{"id": "C126", "title": "Declaring dims the same", "statement": "After any number of successful declarations, two user-made dims compare equal iff this follows from the declared pairs; a declaration joins two classes and changes no other equality; it always ends.", "quantifier": "all histories of dims and declarations in any order and direction", "why_tests_cant": "The direction of a declaration is swapped by five conditions, with nested calls on the bases; tests declare single pairs.", "anchors": ["returnn/tensor/_dim_extra.py:_DimMixin.declare_same_as", "returnn/tensor/_dim_extra.py:_DimMixin.get_same_base", "returnn/tensor/_dim_extra.py:_DimMixin.get_derived_bases_set"]}
{"id": "C127", "title": "Sizes of dims declared the same", "statement": "Two dims have the same static size after being declared the same, a known size is kept, different ones are an error; a new dim takes over the static and dynamic sizes.", "quantifier": "all pairs of dims for which nothing was declared before; all new dims and all not derived dims", "why_tests_cant": "The sizes are copied between self, other and the base of other depending on which ones are known.", "anchors": ["returnn/tensor/_dim_extra.py:_DimMixin.declare_same_as", "returnn/tensor/_dim_extra.py:_DimMixin.is_dim_known"]}
{"id": "C128", "title": "SpecAugment masks", "statement": "In training, each sequence gets between the fewest and the most masks of the current phase, at different starts, of 1 to the given number of positions, shared over the other axis, inside of the sequence; everything else is unchanged; nothing is masked in evaluation or before the first step.", "quantifier": "all batches, lengths, options, train steps and all outcomes of the random numbers", "why_tests_cant": "The masks are random; tests check shapes or a single seed.", "anchors": ["returnn/frontend/audio/specaugment.py:specaugment", "returnn/frontend/audio/specaugment.py:random_mask", "returnn/frontend/audio/specaugment.py:mask", "returnn/torch/frontend/_backend.py:TorchBackend.top_k"]}
{"id": "C129", "title": "Native code is compiled when needed", "statement": "Calls one after the other, some of them killed at any point, always load the library compiled from their own code (and with the current dependencies); killed processes and cleanups only cost time.", "quantifier": "all sequences of calls, kill points, cleanups, clock advances and changes of the dependencies", "why_tests_cant": "What a killed process leaves behind depends on the exact point; tests compile once in a clean directory.", "anchors": ["returnn/util/native_code_compiler.py:NativeCodeCompiler._maybe_compile", "returnn/util/native_code_compiler.py:NativeCodeCompiler._need_recompile", "returnn/util/native_code_compiler.py:NativeCodeCompiler._maybe_compile_inner", "returnn/util/native_code_compiler.py:NativeCodeCompiler._cleanup_old"]}
{"id": "C130", "title": "Native code is compiled by several processes", "statement": "Any number of processes at the same time: at most one of them writes to the directory, each one loads the library of its code, and none waits forever.", "quantifier": "all interleavings of any number of processes", "why_tests_cant": "Races between file accesses of processes.", "anchors": ["returnn/util/native_code_compiler.py:NativeCodeCompiler._maybe_compile", "returnn/util/native_code_compiler.py:NativeCodeCompiler._need_recompile", "returnn/util/basic.py:LockFile"]}
{"id": "C131", "title": "Averaging checkpoints", "statement": "The averaged checkpoint has each parameter once, with its mean over the checkpoints which have it, independent of the order; epoch and step are the largest ones, all merged ones are listed.", "quantifier": "all lists of checkpoints with any parameters", "why_tests_cant": "The tensors are added in place; tests do not run the tool.", "anchors": ["tools/torch_avg_checkpoints.py:merge_checkpoints"]}
{"id": "C132", "title": "Transparent cache of derived tensors", "statement": "A cache lookup gives the default or exactly what the cached function gives for this key, with the dims of the caller, never a result for a tensor or a run context which is gone; the cache stays within its size and keeps a new entry until it is full of newer ones.", "quantifier": "all histories of sets, gets and objects going out of scope, all keys of plain values, tensors and dims, eager and graph mode", "why_tests_cant": "Depends on the history of the whole process and on when objects are garbage collected.", "anchors": ["returnn/frontend/_cache.py:Cache", "returnn/frontend/_cache.py:DimWrapper", "returnn/frontend/_cache.py:TensorWrapper", "returnn/util/lru_cache.py:lru_cache"]}
{"id": "C133", "title": "Selecting hypotheses in nested states", "statement": "gather_nested gives a state of the same structure in which each hypothesis has the sizes and entries of the hypothesis its index refers to, also for dims whose sizes differ per hypothesis.", "quantifier": "all nested states of tensors and dims, all indices, any dims and sizes", "why_tests_cant": "States of any structure with any mixture of dims; tests have a few fixed ones.", "anchors": ["returnn/frontend/nested.py:gather_nested", "returnn/frontend/dims.py:replace_dim_v2", "returnn/torch/frontend/_backend.py:TorchBackend.gather"]}
{"id": "C134", "title": "Data sets given by the user as a list of sequences", "statement": "A MapDatasetWrapper reads each sequence of the wrapped data set exactly once per epoch with its own tag; a list of tags or of indices is read exactly in its order; replaying the tags of an epoch gives the same epoch; an order of the user overrides all options; orders which need lengths are refused without them, and FromListDataset sorts by the length of the given key.", "quantifier": "all wrapped data sets, orders, tags, epochs and random number generators", "why_tests_cant": "Any user-defined list of sequences, tags and lengths; tests have one small list.", "anchors": ["returnn/datasets/map.py:MapDatasetWrapper", "returnn/datasets/map.py:MapDatasetBase", "returnn/datasets/map.py:FromListDataset"]}
{"id": "C135", "title": "Data sets of texts and of lists with scores", "statement": "An epoch of a TextDictDataset reads each entry of the file exactly once with its tag: the encoded text, or for a list with scores the encoding of the first text with the greatest score, all scores, and all encoded texts concatenated such that data_seq_lens splits them again; a given order of indices is read exactly.", "quantifier": "all files, orders, epochs, encodings of texts and random number generators", "why_tests_cant": "Any file, with ties of scores, empty texts and duplicate tags; tests have one small file.", "anchors": ["returnn/datasets/text_dict.py:TextDictDataset"]}
{"id": "C136", "title": "Packing by a mask and putting it back", "statement": "masked_select gives each entry where the mask is true exactly once along the new dim, in the order of the given dims, with all other dims kept; a given size of the new dim must be the number of these. masked_scatter puts entries back in this order and keeps the backup, or zeros, elsewhere; after masked_select with a mask which is false in the padding it restores the tensor where the mask is true.", "quantifier": "all tensors, masks, sizes, orders of the dims, orders of the axes in memory and backups", "why_tests_cant": "Any number and order of dims with any mask; tests compare few shapes.", "anchors": ["returnn/torch/frontend/_backend.py:TorchBackend.masked_select", "returnn/torch/frontend/_backend.py:TorchBackend.masked_scatter", "returnn/torch/util/array_.py:masked_select", "returnn/torch/util/array_.py:nonzero", "returnn/frontend/array_.py:masked_select", "returnn/frontend/array_.py:masked_scatter"]}
{"id": "C137", "title": "A pass over a dataset by the data pipe", "statement": "One pass over the iterable data pipe gives each sequence of the epoch exactly once and in order, with its data by key, its tag, its index, the epoch, the number of sequences and the fraction; it stops with an error exactly at the first fraction out of range or below the one before. With the default callback the passes are the epochs 1, 2, ...; with the shared value each pass is the epoch which is given at this time, also in new workers.", "quantifier": "all datasets, epochs, histories of passes and of the shared value, with and without workers", "why_tests_cant": "Any dataset with any fractions and number of passes; tests read one or two epochs in one process.", "anchors": ["returnn/torch/data/returnn_dataset_wrapper.py:ReturnnDatasetIterDataPipe", "returnn/torch/data/returnn_dataset_wrapper.py:ReturnnDatasetResetDefaultEpochCounterCallback", "returnn/torch/data/returnn_dataset_wrapper.py:ReturnnDatasetResetMpSharedEpochCallback"]}
{"id": "C138", "title": "Piecewise linear schedules on tensors", "statement": "The piecewise linear module of the frontend, for any dict of two points or more and for tensors with any number of dims, is the line between neighbouring points and constant outside of them. It is the same function as the one for plain numbers and does not depend on the order of the dict. Without points there is an error at construction.", "quantifier": "all dicts of points, all arguments, all numbers of dims", "why_tests_cant": "Any number of points and any argument, at the points, between and outside of them; tests evaluate one schedule.", "anchors": ["returnn/frontend/piecewise_linear.py:PiecewiseLinear", "returnn/frontend/stepwise_scheduler.py:PiecewiseLinearStepwiseScheduler"]}
{"id": "C139", "title": "The outputs of a forward step", "statement": "A tensor is taken as an output exactly if its name is new and, if outputs are expected, the name, the order of dims, the dtype and the sparse dim are the expected ones. It is stored with all its entries at their place by dim, in the given order of dims, or the expected one, or the default one (batch, time, one more dim with sequence lengths, one other dim), which is an error if there is no such order. A forward step succeeds exactly if the names are different, each tensor is accepted, and the outputs are complete.", "quantifier": "all tensors and dims, all expected outputs, all sequences of marked outputs", "why_tests_cant": "Any number of dims and of outputs, in any order; tests mark a few outputs with the dims in the usual order.", "anchors": ["returnn/frontend/run_ctx.py:RunCtx.mark_as_output", "returnn/frontend/run_ctx.py:RunCtx.check_outputs_complete", "returnn/frontend/run_ctx.py:_default_dim_order", "returnn/frontend/_backend.py:Backend.make_output_tensor"]}
{"id": "C140", "title": "The walk over the consumers of tensors", "statement": "For every finite graph, also with cycles, the walk over the consumers of some tensors ends and gives each tensor that can be reached exactly once, nearer ones first. With an ending condition it is cut after the first tensor that satisfies it, and with a filter only tensors which satisfy it are given; with the same function for both, the result is the nearest such tensor, or nothing if there is none.", "quantifier": "all graphs, seeds, filters and ending conditions", "why_tests_cant": "Any size and shape of the graph, with shared and cyclic parts; tests have small graphs without cycles.", "anchors": ["returnn/frontend/graph.py:walk_tensor_consumers"]}
{"id": "C141", "title": "Dicts for the construction of modules", "statement": "The dict for a class or function that can be found by its name, in the frontend or in its module, builds just what a direct use with the same arguments gives, together with the arguments given later; a name in both is an error. Different classes have different dicts, and the dict for something of the frontend does not depend on the module where it is defined.", "quantifier": "all classes, functions, modules and arguments", "why_tests_cant": "Any names, nesting of modules and combination of arguments; tests build a few modules of the frontend.", "anchors": ["returnn/frontend/build_from_dict.py:build_dict", "returnn/frontend/build_from_dict.py:build_from_dict"]}
{"id": "C142", "title": "The journal of random numbers", "statement": "For any history of calls, what is read from a journal of random numbers are the first recorded entries in order, none lost or twice, also after failed reads; a read succeeds exactly if there is a further entry and it has the type and sizes asked for. So a replay with the same calls gives the same numbers and ends at the end of the journal. In a graph, the control dependency of a read is the last read if it is accessible from the current control flow context, or else a nearest tensor which depends on it and is accessible.", "quantifier": "all histories of recording and reading, entries, templates, graphs and control flow contexts", "why_tests_cant": "Any interleaving of calls, with errors in between, any nesting of contexts; tests record and replay a few modules.", "anchors": ["returnn/frontend/_random_journal.py:RandomJournal", "returnn/tensor/control_flow_ctx.py:ControlFlowContext.is_parent_or_same", "returnn/tf/frontend_layers/_backend.py:ReturnnLayersBackend.random_journal_replay"]}
{"id": "C143", "title": "Dicts of tensors as raw tensors", "statement": "A dict of tensors that is stored as a dict of raw tensors with the sizes of its dims is restored from it by the matching options, whatever sizes the dims had before: all tensors and the sizes of all dims; other dims are not changed. It can be stored exactly if all dims have a size. Without duplicates, each dim is stored once.", "quantifier": "all dicts of tensors, dims shared in any way, and options", "why_tests_cant": "Any number of tensors which share dims, in any order, with all options and all kinds of dims; tests have a few fixed dicts.", "anchors": ["returnn/tensor/tensor_dict.py:TensorDict.as_raw_tensor_dict", "returnn/tensor/tensor_dict.py:TensorDict.assign_from_raw_tensor_dict_", "returnn/tensor/_dim_extra.py:_DimMixin.reset_raw"]}
{"id": "C144", "title": "Pretty-printing of nested objects", "statement": "The pretty-printed text of an object of nested lists, tuples, sets and dicts is, up to white space of the layout, the text of its repr, whatever parts are put on one line. An object that is simple enough is printed exactly as by repr, with a newline at its end.", "quantifier": "all nested objects, and all choices of what is simple enough for one line", "why_tests_cant": "Any nesting of the kinds of containers, with tuples of one element and empty containers anywhere; tests have a few fixed objects.", "anchors": ["returnn/util/pprint.py:pprint", "returnn/util/pprint.py:pformat"]}
