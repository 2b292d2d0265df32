# Formal model of rwth-i6/returnn: design

The code in `/repo` is python. We model selected functions one by one as total computable Gallina
functions (`rocq/theories/*Model.v`), give small specifications that do not use the model's helpers
(`*Spec.v`), prove lemmas (`*Proofs.v`) and state the properties (`*Props.v`, which contain only
statements, `exact`, `Print Assumptions`, and `Example`s that meet the hypotheses).

## Conventions

* Python exceptions and failed `assert`s are values of the result type `res` (`Base.v`); a theorem that
  says a call yields `Ok ...` therefore also says that no assertion fails and nothing is raised.
* `while` loops and generators that are not structurally recursive get a fuel argument; running out of
  fuel is an explicit `OutOfFuel` result, and theorems show that it does not happen.
* python `int` is `Z` or `nat` (where the code only ever has non-negative numbers); floats are exact
  rationals/reals or an arbitrary comparison oracle, as said for each module.
* Random generators, clocks, the scheduler and the file system contents are universally quantified.

## Plan per property

| id | modelled code | how it is proved |
|----|---------------|------------------|
| C01 | `_apply_partition_epoch_and_sharding` | prefix sums; concat of slices over a partition of the index range |
| C02 | `get_seq_order_for_epoch`, each ordering branch | Permutation proofs; shuffles are arbitrary permutations |
| C03 | same | Sorted + stability of a merge/insertion argsort spec |
| C04 | whole `get_seq_order_for_epoch` with seeds | RNG as arbitrary function of the seed; combine C01 and C02 |
| C05 | `_distribute_evenly_by_size` | loop invariant for an arbitrary comparison oracle |
| C06 | `_worker_proc_loop` | transition system with nondeterministic prefetch; invariant cache = window of the dataset |
| C07 | `MultiProcDataset` index arithmetic | div/mod arithmetic, list refinement |
| C08 | `BatchingIterDataPipe.__iter__` | loop invariant, stream refinement |
| C09 | `BucketOrderingIterDataPipe` | multiset invariant |
| C10 | `ShufflingDataPipe` | permutation per buffer |
| C11 | `LaplaceOrdering` | permutation per buffer, sortedness |
| C12 | `ChunkingIterDataPipe`, `Dataset.iterate_seqs` | arithmetic + list slices |
| C13 | `collate_batch` | round trip pad/unpad |
| C14 | `lru_cache` with heap-allocated links | heap representation predicate, refinement to a list |
| C15 | `NumbersDict` | pointwise characterisation |
| C16 | `LockFile` | transition system over processes and file system |
| C17 | `FileCache._copy_file_if_needed` | step-indexed program over a file system, crash = prefix of steps |
| C18 | `FileCache.cleanup` | loop invariant |
| C19 | `_TouchFilesThread` | induction over histories, counting spec |
| C20 | learning rate classes | case analysis over exact rationals |
| C21 | `get_last_best_epoch` | min lemma |
| C22 | `save`/`load` | crash prefix of file system steps |
| C23 | `cleanup_old_models` | set reasoning |
| C24 | framing functions | codec round trip with arbitrary fragmentation |
| C25 | `_generate_batches`, `Batch` | loop invariant |
| C26 | `BatchSetGenerator` | simulation with a stream position |
| C27 | `Stats.collect` | algebra over rationals |
| C28 | `CombinedDataset` | index mapping, counting lemma |
| C29 | `MultiEpochDataset._collect_single_seq` | invariant over reads |
| C30 | `ConcatSeqsDataset` | list reasoning |
| C31 | `CachedDataset2` | invariant over load histories |
| C32 | `QueuedDataIter` | refinement to list |
| C33 | `binary_search_any` | loop invariant |
| C34 | `StepFunction`, `PiecewiseLinear` | order reasoning over Q |
| C35 | `json_remove_comments` | lexer refinement |
| C36 | `uniq`, `find_ranges` | list induction |
| C37 | `better_repr` and python's literal syntax (a parser for the subset) | round trip by induction over values and tokens |
| C38 | saving, deleting and finding checkpoints over a whole training | transition system with crashes, invariant |
| C39 | `EpochWiseFilter` | sorted list + binary search lemma |
| C40 | `Dataset.iterate_seqs` with chunking | arithmetic, list slices |
| C41 | `split_batch`, the forward loop with `QueuedDataIter` | induction over splittings for an arbitrary out-of-memory oracle |
| C42 | `save_optimizer`, `load_optimizer` with torch's `state_dict`/`load_state_dict` | numbering lemma: positions = indices; case same order / remapped |
| C43 | `_get_optimizer_param_groups`, `named_parameters` | visited-set invariant, insertion sort |
| C44 | learning rate part of `Updater` | induction over call histories |
| C45 | `StandardBytePairEncoder` | merge loop refines a relation (lowest rank first, leftmost occurrences); induction over splits |
| C46 | `PrefixTree`, `CharSyncSearch`, `DepthFirstSearch`, `SamplingBytePairEncoder` | the tree recognises the labels; search invariant for an arbitrary choice oracle, measure for the end |
| C47 | `Vocabulary`, `CharacterTargets` | the sorted id table is 0..n-1; words of a sentence as a relation |
| C48 | `Utf8ByteTargets` and the utf8 codec of python | encoder and decoder are inverse, case by case over the length of the code |
| C49 | `HdfModel`: writer and reader on the content of the file | invariant of the writer (content = encoding of the sequences, partial last row), then reading by prefix sums |
| C50 | `HdfModel`: `add_file`, reading by global index | invariant of the reader over the added files |
| C51 | `HdfModel`: writer on existing content | the invariant of C49 is re-established by the constructor |
| C52 | `HdfModel`: `dump_from_dataset` | key choice, then the reader of C49/C50 |
| C53 | `MetaModel`: constructor, lists of tags, init_seq_order, checks, loading and reading | invariant over the loads: what was collected has passed the tag check of all sub-datasets |
| C54 | `MetaModel` | progress: all checks hold for every position, window invariant of the loaded sequences |
| C55 | `DimModel`: dims, operators, simplification, caches, equality | Hoare style invariant: all cached results have the right size; the value of a term list is preserved by each rewriting; for the equality by description: a reader that recovers the size from the description |
| C56 | `DimModel` | as C55, with the law of chained divisions; shape invariant on the terms of a dividend |
| C57 | `DimModel`: complete_dyn_size, get_dim_value | induction over the dim; monotone functions commute with the maximum |
| C58 | `FsaModel`: edges and start and end states | induction over the targets: number of paths from each state of the automaton |
| C59 | `FsaModel` | number of paths from each state, by induction over the string |
| C60 | `EditModel`: diagonals in a ring buffer | invariant: the last two diagonals hold the table of prefix distances; the recursion gives the minimum over edit scripts (via alignments) |
| C61 | `DistTrainModel`: processes as small-step machines with collective operations | confluence: local steps of the processes commute; the synchronous run is the invariant; termination by accessibility |
| C62 | `DistTrainModel` | the state after each synchronous step equals the single-process state, by induction on the steps; averaging in every backward pass is covered for a linear mean |
| C63 | `DistTrainModel` | induction on the steps |
| C64 | `AllocModel`: the table of intervals, insertion, removal, binary search, deletion, loading, the order | the table is a sorted chain between two empty intervals; insertion and removal are compared with structural functions on the chain; the invariant of the cache is preserved by each operation |
| C65 | `AllocModel` | the deletion loop by induction over the intervals; sums over the covered sequences |
| C66 | `AllocModel`: the main thread and background threads as small-step machines | invariant of the phases of the thread over all steps |
| C67 | `PostprocModel`: iterators as a state with next; the generator as a state machine | invariant of the generator: what it will still give; the result is the unique stably sorted one; composition by induction over the functions |
| C68 | `PostprocModel`: source, user function, validation and collection as nested iterators | invariant: the state of the iterator is the one after as many steps as were counted, or it has ended |
| C69 | `BwModel`: threads as small state machines over a shared memory, runs over all interleavings | invariant of the runs: the memory is the fold of the finished threads in the order of their swaps |
| C70 | `BwModel`: the frames as results of kernels, the search of the best path backwards | induction over the frames: upper bound for all paths, and a path that attains the score |
| C71 | `BwModel`: states, edge buffer, normalization and result as in the kernels | sums over all tuples of edges: forward and backward states by induction over the frames, product at each edge |
| C72 | `BwModel` with `FsaModel` | paths of the automaton are counted per string (C58); the sum over paths is regrouped by strings |
| C73 | `ConvModel`: dims, paddings of the frontend and of the backend, the torch operation by its documented index formula | the paddings of all cases are reduced to one formula |
| C74 | `ConvModel` | the masked row is the sequence with zeros after it; windows by their positions |
| C75 | `ConvModel`: windows of optional frames | as C74; the maximum does not distinguish padding from negative infinity |
| C76 | `PadOpsModel`: lengths and rows of the padded tensor | rows as the sequence and the rest; the mask overwrites the rest |
| C77 | `PadOpsModel`: the sizes of the frontend, `torch.narrow` and `torch.gather` by their definitions | as C76 |
| C78 | `PadOpsModel`: the flatten-pad-reshape-slice of one row, and the gather for strides | index arithmetic of the flat row |
| C79 | `PadOpsModel` | the flat orders are maps over lists of positions; cumulative sums by induction |
| C80 | `ScatterModel`: one row, `scatter_reduce_` by its definition | induction on the indices; the fill value is neutral |
| C81 | `ScatterModel` | as C80; the maximum is attained, the minimum of the positions is the first |
| C82 | `ScatterModel`: exponentials of log-values, `Qc` of the standard library | as C80, field arithmetic |
| C83 | `ScatterModel` | the mask is a prefix of the order; sums over permutations |
| C84 | `TensorModel`: raw tensors as row-major lists with permute, reshape and broadcasting; both variants | each raw tensor stands for its entries by the names of the dims; the permutation is one; broadcasting reads the right entry |
| C85 | `TensorModel` | cases on the shortcuts |
| C86 | `MatmulModel` on `TensorModel`: permute, reshape and the three products by their documentation | indices by axis; merged axes are positions; sums over positions are nested sums, in any order |
| C87 | `ReshapeModel` on `TensorModel` | transposing keeps values by name; positions of merged axes |
| C88 | `ReshapeModel` | offsets as sums of the sizes before; each index is in exactly one part |
| C89 | `ReshapeModel` | decoding from the last axis on gives the index of the position |
| C90 | `XentModel` on `ReshapeModel`; torch cross_entropy by its documentation | the permuted dims are the wanted ones iff the orders are mirrored; entries by name |
| C91 | `RelPosModel` on `ReshapeModel`: pad, reshape and slice of named dims | position arithmetic: t(P+1) + (q - t + s) = q + tP + s; entries by name through each step |
| C92 | `AttnModel` on `ConvModel` padding and `PadOpsModel.pad` (per-sequence values) | the state holds the frames of each sequence; padding changes only what is masked |
| C93 | `AttnModel`, section Rope: pairs of features, halves of the encoding | ring arithmetic per pair of features |
| C94 | `AssignModel` on `TensorModel`: keys with new axes, PyTorch indexing with broadcasting | the selected part as list of indices per axis; values by name |
| C95 | `ReduceModel` on `TensorModel`: masks from lengths with recursion, torch.where, reduction over axes | the list of places that count; masks right by induction over the nesting; the mask value is neutral |
| C96 | `ReduceModel`: the loop with postponed dims, fractions as Q | sum over places of the postponed dims of the product of lengths; count of places by permutation |
| C97 | `ArchiveModel`: struct pack/unpack on byte lists, writer, table, reader | invariant of the writer: each name in the table points at bytes which read back as its last content |
| C98 | `ArchiveModel`: the decoder loops with fuel of the bytes left | induction over the items; packed numbers by bit operations |
| C99 | `ArchiveModel`: bundle as fold over archives | lookup in folded dict updates |
| C144 | `PprintModel` | induction over nested objects, first for one line, then for many lines |
| C143 | `TDictModel` | both loops as one list of rounds; what was written covers what is read, by induction over the rounds with the visited dims |
| C142 | `JournalModel`, `WalkModel` | invariant on the index and the entries over all histories; suffixes of contexts; C140_nearest |
| C141 | `BuildModel` | the last dot of the stored name splits it as it was put together; dict insertion of new keys is concatenation |
| C140 | `WalkModel` | breadth-first search with an invariant on the levels of the queue; the sum of the edges of tensors not seen yet as the measure |
| C139 | `FwdOutModel` | the default order as the unique one sorted by rank; induction over the marks |
| C138 | `PcwModel` | the clipped index and fraction by cases on the place of the argument among the sorted keys |
| C137 | `PipeModel` | the loop by induction from any index on, with the fraction of the sequence before as an invariant |
| C136 | `MSelModel` | ranks in the flat mask as the unique order preserving numbering of its places; the mask repeated over the other dims as blocks |
| C135 | `TextDictModel` | the first maximum as an invariant of the search, and the orders of C02 |
| C134 | `MapDsModel` | the dict of tags as a fold, and the orders of C02/C03 |
| C133 | `NestModel` | an invariant on the dim map of the first pass, and the replacement of dims as a renaming of positions |
| C132 | `FCacheModel` | an invariant on the entries over all histories, and equality of transformed keys as a renaming of dims |
| C131 | `AvgModel` | an invariant on the sums in memory over all parameters of all files |
| C130 | `NccModel` | an invariant on who has the lock and the files |
| C129 | `NccModel` | an invariant on the library and the info file for each program counter |
| C128 | `SpecAugModel` | the loop over masks commutes with the loop over the batch; the sorted positions are a permutation with the padding last |
| C127 | `SameAsModel` | case analysis of the size updates; an invariant that the other steps keep the sizes |
| C126 | `SameAsModel` | the new same_as edge goes from one class to the base of the other one; a measure on the guard bounds the recursion |
| C125 | `ChunkOpModel` | exchange of the sums over chunk frames and over sequence frames |
| C124 | `ChunkOpModel` | the range of chunks computed by the divisions is the set of chunks with the frame |
| C123 | `EdOpModel` | invariant: the row has the distances of the labels so far |
| C122 | `EdOpModel` | alignments can be cut behind the prefix, so that the optimum is the least distance to a prefix of the reference |
| C121 | `EdOpModel` | invariant over the diagonals: all three buffers hold the distances of the prefixes; every access is checked |
| C120 | `ParamModel` | inductive invariant: every module has its own parametrized class, whose properties refer to this module |
| C119 | `NormModel` | algebra over the rationals, induction over the labels |
| C118 | `NormModel` | sums over the padded rows; weighted means stay in an interval; affine maps of mean and variance |
| C117 | `SprintModel` | inductive invariant of the two threads; a measure which decreases with every step |
| C116 | `TrainProcModel` | induction on the runs; the newest epoch grows with every restart |
| C115 | `HooksModel` | invariant: the wrappers in the class are a chain with one link per hooked object |
| C114 | `ModListModel`: param_setitem | refinement as for C113 |
| C113 | `ModListModel` | refinement: the attributes represent a list of entries |
| C112 | `ModTreeModel`: to_pt, state_dict, pt_named_parameters | induction on the recursion depth of the conversion; lists of paths |
| C111 | `ModTreeModel`: set_deep, apply_trace | string lemmas for split; induction on the recursion depth |
| C110 | `ModTreeModel`: named_modules, named_parameters, get_deep | breadth first search invariant: found modules sorted by depth, edges of processed ones go at most one level deeper |
| C109 | `ScanModel`: ta_push_back on a store of python lists | induction over the store |
| C108 | `ScanModel`: scan_cond | invariant over the iterations, with the run of each entry alone given by an inductive relation |
| C107 | `ScanModel`: while_loop, scan_known | invariant over the iterations: state of each entry = run alone on its own frames so far |
| C106 | `LoadModel`: save_model, load_model | both runs are related by the invariant of C105 |
| C105 | `LoadModel`: _load_model with load_state_dict(strict=False), the loop over the entries, the sets of loaded, missing and ignored keys | induction over the sorted entries: value, loaded, missing and ignored keys after each of them |
| C104 | `ExternModel`: the loop over the keys with the sizes set so far | invariant on the sizes |
| C103 | `ScoreModel`: zero_grad, backward, count and update of train_epoch | simulation by a run which collects batches; induction over groups |
| C102 | `ScoreModel`: Loss with dual numbers, steps of train_epoch and eval_model | invariant on the accumulated dicts; sums are additive and invariant under permutations |
| C101 | `ConfigModel`: the getters, strip/splitlines/split on lists of characters | lookup lemmas; the parser by lines, with strip lemmas |
| C100 | `ConfigModel`: two dicts, add_line with eval, load_file with includes (fuel), init_config | fold over the changes with a specification of one setting; phases of init_config |

## Trusted base

* The Coq 8.16.1 kernel. `vm_compute` is used for concrete `Example`s and for witnesses of `_refuted` theorems.
* Axioms: none. `Print Assumptions` says "Closed under the global context" for every theorem in `*Props.v`
  (rational numbers are `QArith`, real numbers are not used). The items that `vcheck` counts in addition come
  from loaded ssreflect library files and no theorem depends on them.
* The faithfulness of the Gallina definitions to the cited python lines. This is checked by reading, by
  `Example`s taken from the unit tests of the repository (`tests/`), and by the mutation tests in
  `seeded/LOG.jsonl`, which show that the theorems notice wrong programs.

What is simplified, everywhere:

* Floating point numbers: exact rationals `Q` (learning rates, statistics, schedules, fractions), or an arbitrary
  comparison oracle (C05), so rounding is not modelled except where an oracle is used. Integers do not overflow,
  except in `uniq` (C36), where the wrap around of numpy differences is modelled.
* numpy / torch arrays: lists (of frames, of rows). dtypes, strides and devices are left out.
* Random generators: arbitrary functions of the seed or the state which return a permutation / an index in range.
* Time: an arbitrary number given with each event. Scheduling: arbitrary interleavings of the atomic steps
  named in the model file. A crash: the run stops after any prefix of steps.
* File system: finite maps from paths to contents (and times); `rename` and `O_CREAT|O_EXCL` are atomic; no
  reordering of writes by the operating system after a power failure.
* Logging, printing, type annotations and documentation strings are left out.

What is modelled (file and lines are cited at each definition), by model file:

| file | code |
|------|------|
| `SeqOrderModel` | `datasets/basic.py`: `get_seq_order_for_epoch`, `_apply_partition_epoch_and_sharding`, tag filter, seeds |
| `DistribModel` | `datasets/distrib_files.py`: `_distribute_evenly_by_size` |
| `WorkerModel` | `datasets/distrib_files.py`, `datasets/multi_proc.py`: worker process loop, parent index arithmetic |
| `BatchPipeModel`, `ShuffleModel`, `ChunkModel` | `torch/data/pipeline.py`: batching, bucket ordering, shuffling, laplace ordering, chunking, `collate_batch`, length filter |
| `ForwardModel` | `torch/data/queued_data_iter.py`, `torch/data/extern_data.py` split, forward loop of `torch/engine.py` |
| `LruModel` | `util/lru_cache.py` |
| `NumbersDictModel` | `util/basic.py`: `NumbersDict` |
| `LockModel` | `util/basic.py`: `LockFile` |
| `FileCopyModel`, `CleanupModel`, `TouchModel` | `util/file_cache.py` |
| `LrModel`, `LrSaveModel` | `learning_rate_control.py` |
| `CkptModel`, `ResumeModel` | `engine/base.py`, checkpoint parts of `torch/engine.py` and `torch/updater.py` |
| `OptimModel` | `torch/updater.py`: optimizer state, parameter groups, learning rate |
| `FrameModel` | `util/basic.py`: `read_bytes_to_new_buffer`, `read_pickled_object`, `write_pickled_object` |
| `BatchGenModel`, `BatchSetModel`, `DsChunkModel` | `datasets/basic.py` batches and chunking, `engine/batch.py` |
| `StatsModel`, `SearchModel`, `JsonModel`, `UniqModel`, `ReprModel` | `util/basic.py`, `util/math.py` helpers |
| `CombinedModel`, `ConcatSeqsModel`, `MultiEpochModel`, `FilterModel` | `datasets/meta.py` |
| `BpeModel` | `util/bpe.py`: both encoders, without the parsing of the codes file, `str.split` and the caches |
| `VocabModel` | `datasets/util/vocabulary.py`: `Vocabulary`, `CharacterTargets`, `Utf8ByteTargets`, without the special symbols other than the unknown label |
| `HdfModel` | `datasets/hdf.py`: `SimpleHDFWriter` (constructor, `insert_batch`, `close`, extending), `HDFDatasetWriter.dump_from_dataset`, `HDFDataset` without cache, on the content of a file as a record; `CachedDataset.init_seq_order`, `get_seq_length` without cache (`datasets/cached.py`). Not: h5py, dtypes, string data, `swmr`, `NextGenHDFDataset`, `SiameseHDFDataset` |
| `MetaModel` | `datasets/meta.py`: `MetaDataset` (without `seq_lens_file`, `data_dims`) |
| `EditModel` | `frontend/loss.py` `edit_distance` with the tensor operations it uses on one batch entry; not the device handling, not broadcasting of batch dims |
| `PostprocModel` | `datasets/postprocessing.py` `PostprocessingDataset` (init_seq_order, iteration, validation, collection), `LaplaceOrdering`, `Sequential`; not: the templates of the inputs and outputs, data types and labels, `Sequential` of `map_seq` functions |
| `BwModel` | `native_op.py` `FastBaumWelchOp` and `FastViterbiOp`: the kernels and the order of their calls; not: memory layout and strides, launch parameters, float arithmetic, the debugging dumps and the pruning of the edges, `MultiEndFastBaumWelchOp`, `SegmentFastBaumWelchOp` |
| `MatmulModel` | `torch/frontend/_backend.py` `matmul`, `tensor/_tensor_extra.py` `get_axis_from_description` for dims; `torch.mm`, `bmm`, `linear` by their documentation, on integers; not: rounding, dtypes |
| `XentModel` | `torch/frontend/_backend.py` `softmax_cross_entropy_with_logits`, `tensor/_tensor_extra.py` `copy_move_axis`; the cross entropy of one position is a parameter |
| `RelPosModel` | `frontend/attention.py` `_rel_pos_enc_shift`, `_make_indices`, `LearnedRelativePositionalEncoding`; the sinusoidal encoding itself is not modelled |
| `AttnModel` | `frontend/attention.py` `dot_attention`, `SelfAttention`, `CausalSelfAttention`, `RotaryPos*`, `RelPosCausalSelfAttention`, `_causal_self_att_step`, `_apply_rope`; `array_.py` `cum_concat_step`. Dropout, projections and rounding are not modelled |
| `AssignModel` | `frontend/_utils.py` `strided_slice_raw_key`; `torch/frontend/_backend.py` `parameter_assign_key`; several vectors as keys and keys with a sparse dim but no axis are not modelled |
| `ReduceModel` | `torch/frontend/_backend.py` `reduce`; `tensor/_dim_extra.py` `get_mask`; `tensor/_tensor_extra.py` `get_sequence_mask_broadcast`, `copy_masked`; `frontend/dims.py` `num_elements_of_shape`, `masked_fraction_of_shape`; logsumexp, capacities, caches and empty lists of axes are not modelled |
| `ArchiveModel` | `sprint/cache.py` `FileArchive` (writing features, table, reading strings, features, alignments, scan), `FileArchiveBundle`; encodings, compression, float formats and the text of the attributes are not modelled |
| `ConfigModel` | `config.py` `Config` (load_file, add_line, parse_cmd_args, getters), `__main__.py` `init_config`; `eval`, `repr`, `int`, `float` and optparse are parameters, a Python config file is any function from the config so far to settings; pickling is not modelled |
| `ScoreModel` | `frontend/run_ctx.py` losses, `torch/engine.py` `train_epoch`, `eval_model` (one worker; exact rationals, derivatives as dual numbers; grad scaler, inf/nan checks and reports are not modelled) |
| `ExternModel` | `torch/data/extern_data.py` `raw_dict_to_extern_data` (sizes only) |
| `LoadModel` | `torch/engine.py` `_load_model` (checkpoint, `preload_from_files`), `_save_model`; `torch/util/module.py` (shapes and files which cannot be read are not modelled) |
| `ScanModel` | `frontend/loop.py` `while_loop`, `scan`; `frontend/nested.py` `mask_nested` as used there; `frontend/tensor_array.py` (eager backend, no changing dims) |
| `ModTreeModel` | `frontend/module.py` `named_modules`, `named_parameters`, `apply`, `get_deep`, `set_deep`; `torch/frontend/bridge.py` `RFModuleAsPTModule.__init__`; `state_dict` and `named_parameters` of `torch.nn.Module` after its documentation |
| `ModListModel` | `frontend/container.py` `ModuleList`, `ParameterList` (not the forward of `Sequential`, no slices with steps) |
| `JournalModel` | `frontend/_random_journal.py`: `RandomJournal`; `tensor/control_flow_ctx.py`: `is_parent_or_same`; `tf/frontend_layers/_backend.py`: `random_journal_replay` |
| `TDictModel` | `tensor/tensor_dict.py`: `as_raw_tensor_dict`, `assign_from_raw_tensor_dict_`; `tensor/_dim_extra.py`: `reset_raw` |
| `PprintModel` | `util/pprint.py`: `pprint`, `pformat`, without numpy arrays; the score of simplicity is any function |
| `AllocModel` | `datasets/cached.py`: `CachedDataset.init_seq_order`, `CachedDataset.load_seqs`, `CachedDataset.get_input_data`, `CachedDataset._init_start_cache`, `CachedDataset._load_seqs_with_cache`, `CachedDataset.delete`, `CachedDataset.is_cached`, `CachedDataset._preload_seqs`; `datasets/hdf.py`: `HDFDataset._load_seqs` (the anchors of C64, C65, C66; lines and simplifications in the comments of the model) |
| `AvgModel` | `tools/torch_avg_checkpoints.py`: `merge_checkpoints` (the anchors of C131; lines and simplifications in the comments of the model) |
| `BuildModel` | `frontend/build_from_dict.py`: `build_dict`, `build_from_dict` (the anchors of C141; lines and simplifications in the comments of the model) |
| `ChunkOpModel` | `tf/native_op.py`: `_chunk_grad`, `_unchunk_grad`, `chunk`, `unchunk`; `native_op.py`: `Chunking`, `UnChunking` (the anchors of C124, C125; lines and simplifications in the comments of the model) |
| `ConvModel` | `frontend/conv.py`: `conv`, `make_conv_out_spatial_dims`, `_consistent_same_padding`, `pool`; `torch/frontend/_backend.py`: `TorchBackend.conv`, `TorchBackend.pool`; `frontend/attention.py`: `dot_attention`, `SelfAttention`, `CausalSelfAttention`, `_causal_self_att_step`, `RotaryPosCausalSelfAttention`, `RelPosCausalSelfAttention`; `frontend/array_.py`: `cum_concat_step` (the anchors of C73, C74, C75, C92; lines and simplifications in the comments of the model) |
| `DimModel` | `tensor/_dim_extra.py`: `_DimMixin`, `_OpMultTerm`, `_OpLinearTerm`; `tensor/dim.py`: `Dim` (the anchors of C55, C56, C57; lines and simplifications in the comments of the model) |
| `DistTrainModel` | `torch/engine.py`: `Engine.train_epoch`, `Engine.eval_model`; `torch/distributed.py`: `DistributedContext`, `DistributedContext.maybe_make_distributed_module`, `DistributedContext.step_after_param_update` (the anchors of C61, C62, C63; lines and simplifications in the comments of the model) |
| `EdOpModel` | `native_op.py`: `NextEditDistanceRowOp`, `NextEditDistanceReduceOp`, `OptimalCompletionEditDistanceOp`, `OptimalCompletionEditDistancePerSuccessorOp`, `EditDistanceOp`; `tf/native_op.py`: `edit_distance_via_next_edit_distance_row`, `edit_distance`; `tf/layers/rec.py`: `EditDistanceTableLayer` (the anchors of C121, C122, C123; lines and simplifications in the comments of the model) |
| `FCacheModel` | `frontend/_cache.py`: `Cache`, `DimWrapper`, `TensorWrapper`; `util/lru_cache.py`: `lru_cache` (the anchors of C132; lines and simplifications in the comments of the model) |
| `FsaModel` | `util/fsa.py`: `get_ctc_fsa_fast_bw`, `fast_bw_fsa_staircase`, `FastBwFsaShared`; `native_op.py`: `FastBaumWelchOp`, `FastViterbiOp` (the anchors of C58, C59, C72; lines and simplifications in the comments of the model) |
| `FwdOutModel` | `frontend/run_ctx.py`: `RunCtx.mark_as_output`, `RunCtx.check_outputs_complete`, `_default_dim_order`; `frontend/_backend.py`: `Backend.make_output_tensor` (the anchors of C139; lines and simplifications in the comments of the model) |
| `HooksModel` | `frontend/hooks.py`: `setup_post_hook_on_method`, `MethodWithHooks`; `frontend/module.py`: `Module.register_forward_hook` (the anchors of C115; lines and simplifications in the comments of the model) |
| `MSelModel` | `torch/frontend/_backend.py`: `TorchBackend.masked_select`, `TorchBackend.masked_scatter`; `torch/util/array_.py`: `masked_select`, `nonzero`; `frontend/array_.py`: `masked_select`, `masked_scatter` (the anchors of C136; lines and simplifications in the comments of the model) |
| `MapDsModel` | `datasets/map.py`: `MapDatasetWrapper`, `MapDatasetBase`, `FromListDataset` (the anchors of C134; lines and simplifications in the comments of the model) |
| `NccModel` | `util/native_code_compiler.py`: `NativeCodeCompiler._maybe_compile`, `NativeCodeCompiler._need_recompile`, `NativeCodeCompiler._maybe_compile_inner`, `NativeCodeCompiler._cleanup_old`; `util/basic.py`: `LockFile` (the anchors of C129, C130; lines and simplifications in the comments of the model) |
| `NestModel` | `frontend/nested.py`: `gather_nested`; `frontend/dims.py`: `replace_dim_v2`; `torch/frontend/_backend.py`: `TorchBackend.gather` (the anchors of C133; lines and simplifications in the comments of the model) |
| `NormModel` | `frontend/label_smoothing.py`: `label_smoothing`, `smooth_one_hot`, `label_smoothed_log_prob_gradient`; `torch/util/scaled_gradient.py`: `scaled_gradient_ext`; `frontend/normalization.py`: `moments`, `LayerNorm`, `BatchNorm`; `torch/frontend/_backend.py`: `TorchBackend.batch_norm`, `TorchBackend.reduce` (the anchors of C118, C119; lines and simplifications in the comments of the model) |
| `PadOpsModel` | `frontend/array_.py`: `pad`, `shift_right`, `shift_left`, `reverse_sequence`, `slice`, `window`, `masked_select`, `masked_scatter`, `pack_padded`, `pad_packed`; `torch/frontend/_backend.py`: `TorchBackend.pad`, `TorchBackend.gather`, `TorchBackend.slice`, `TorchBackend.masked_select`, `TorchBackend.masked_scatter` (the anchors of C76, C77, C78, C79; lines and simplifications in the comments of the model) |
| `ParamModel` | `frontend/parametrize.py`: `register_parametrization`, `remove_parametrization`, `is_parametrized`, `_Property` (the anchors of C120; lines and simplifications in the comments of the model) |
| `PcwModel` | `frontend/piecewise_linear.py`: `PiecewiseLinear`; `frontend/stepwise_scheduler.py`: `PiecewiseLinearStepwiseScheduler` (the anchors of C138; lines and simplifications in the comments of the model) |
| `PipeModel` | `torch/data/returnn_dataset_wrapper.py`: `ReturnnDatasetIterDataPipe`, `ReturnnDatasetResetDefaultEpochCounterCallback`, `ReturnnDatasetResetMpSharedEpochCallback` (the anchors of C137; lines and simplifications in the comments of the model) |
| `ReshapeModel` | `torch/frontend/_backend.py`: `TorchBackend.merge_dims`, `TorchBackend.split_dims`, `TorchBackend.reshape`, `TorchBackend.concat`, `TorchBackend.split`, `TorchBackend.top_k`, `TorchBackend.softmax_cross_entropy_with_logits`; `tensor/_tensor_extra.py`: `_TensorMixin.copy_transpose`; `frontend/reduce.py`: `top_k`; `frontend/loss.py`: `cross_entropy`; `frontend/attention.py`: `_rel_pos_enc_shift`, `_make_indices`, `LearnedRelativePositionalEncoding` (the anchors of C87, C88, C89, C90, C91; lines and simplifications in the comments of the model) |
| `SameAsModel` | `tensor/_dim_extra.py`: `_DimMixin.declare_same_as`, `_DimMixin.is_dim_known`, `_DimMixin.get_same_base`, `_DimMixin.get_derived_bases_set` (the anchors of C126, C127; lines and simplifications in the comments of the model) |
| `ScatterModel` | `frontend/array_.py`: `scatter`, `scatter_argmax`, `scatter_logsumexp`, `scatter_logmeanexp`, `top_k_mask`, `top_p_mask`; `torch/frontend/_backend.py`: `TorchBackend.scatter` (the anchors of C80, C81, C82, C83; lines and simplifications in the comments of the model) |
| `SpecAugModel` | `frontend/audio/specaugment.py`: `specaugment`, `random_mask`, `mask`; `torch/frontend/_backend.py`: `TorchBackend.top_k` (the anchors of C128; lines and simplifications in the comments of the model) |
| `SprintModel` | `datasets/sprint.py`: `SprintDatasetBase.add_new_data`, `SprintDatasetBase._wait_for_seq`, `SprintDatasetBase.load_seqs`, `SprintDatasetBase.wait_for_returnn_epoch`; `sprint/interface.py`: `getSegmentList` (the anchors of C117; lines and simplifications in the comments of the model) |
| `TensorModel` | `frontend/math_.py`: `combine`, `compare`; `frontend/_utils.py`: `bin_op_out_template`, `strided_slice_raw_key`; `tensor/_tensor_extra.py`: `_TensorMixin.copy_compatible_to_dims_raw`, `_TensorMixin.get_out_permutation_to_dims`, `_TensorMixin.get_axis_from_description`, `_TensorMixin.copy_transpose`, `_TensorMixin.get_sequence_mask_broadcast`, `_TensorMixin.copy_masked`; `frontend/_native/tensor_ops.cpp`: `compareOrCombine`, `_permuteAndExtend`, `_getPermutationSupersetToSubset`, `compareOrCombineViaCached`; `tensor/_tensor_op_overloads.py`: `_TensorOpOverloadsMixin`; `frontend/matmul.py`: `matmul`; `torch/frontend/_backend.py`: `TorchBackend.matmul`, `TorchBackend.merge_dims`, `TorchBackend.split_dims`, `TorchBackend.reshape`, `TorchBackend.parameter_assign_key`, `TorchBackend.reduce`; `frontend/parameter.py`: `Parameter.assign_key`; `tensor/_dim_extra.py`: `_DimMixin.get_mask` (the anchors of C84, C85, C86, C87, C94, C95; lines and simplifications in the comments of the model) |
| `TextDictModel` | `datasets/text_dict.py`: `TextDictDataset` (the anchors of C135; lines and simplifications in the comments of the model) |
| `TrainProcModel` | `util/train_proc_manager.py`: `main_proc_manager`, `maybe_start_train_proc_manager`; `engine/base.py`: `EngineBase.get_existing_models` (the anchors of C116; lines and simplifications in the comments of the model) |
| `WalkModel` | `frontend/_random_journal.py`: `RandomJournal`; `tensor/control_flow_ctx.py`: `ControlFlowContext.is_parent_or_same`; `tf/frontend_layers/_backend.py`: `ReturnnLayersBackend.random_journal_replay`; `frontend/graph.py`: `walk_tensor_consumers` (the anchors of C140, C142; lines and simplifications in the comments of the model) |
| `Cached2Model` | `datasets/cached2.py`: `CachedDataset2` |

Not modelled: neural network layers and all of `tf/`, `frontend/`, `tensor/` (except where listed), CUDA and native
ops, the readers of particular file formats (Sprint, OGG; HDF only as listed), the command line tools, the automatic differentiation
and optimizers of torch. A property about numerical results of networks is not attempted.

## Findings

Each is a theorem with the suffix `_refuted`: the expected statement, and a concrete witness that it fails in the model.
Where a property of `properties.jsonl` has a condition in parentheses, the finding is the reason for it.

* C02 `default_every_n` loses `num_seqs mod n` sequences.
* C04 A tag filter with `partition_epoch` raises AssertionError for a sub-epoch without wanted sequences.
* C06 (limit of the interface) Skipping at least `buffer_size` sequences fails or works depending on the prefetching.
* C07 With a tag filter, the dedicated process for the sequence order fails; a wrapped dataset that does not know its
  completed fraction makes the parent fail with TypeError.
* C10, C11 An empty stream raises AssertionError in the shuffling and the laplace pipe.
* C12 A chunk step of 0 for a second key is accepted and fails on the first sequence; a step given as `NumbersDict` with
  only a broadcast value is ignored, because it compares equal to None.
* C13 The key under which lengths are stored can be a data key; data is then lost silently.
* C14 `cache_set` does not overwrite; a call concurrent with a resize to 0 can raise KeyError.
* C15 max/min with plain numbers depends on the position of the number; `any_compare` ignores keys given by the
  broadcast value only; equality is not transitive.
* C16 Two waiters for a stale lock can both get it; a late `unlock` removes the lock of another process.
* C17 The retries after "no space left" never help, and fail with AssertionError after a failed preallocation.
* C18 A wanted age below 10 seconds removes files in use.
* C19 Releasing and removing a lock file during a round ends the toucher thread for ever; so does a file in "/".
* C20 Growth factor below one goes below the minimum; a decay can raise a learning rate below the minimum; a score of
  exactly zero gives ZeroDivisionError; thresholds in the wrong order give AssertionError.
* C21 The latest epoch is never the last best one, even if it is the best of all.
* C22, C37 A tuple of one string is written wrongly by `better_repr`, and the learning rate file is lost; nested one
  element tuples lose a level; dictionaries with keys of different types cannot be written.
* C23 A score with the same value in all saved epochs is ignored; a saved epoch unknown to the learning rate file stops
  the cleanup; a misspelled option is only noticed when something is deleted.
* C25 The limit on the total number of sequences is exceeded by one, and of the last one only the first chunk is used;
  a last sequence without frames is lost; a non-recurrent batch can have one sequence too many.
  Also (in `BatchGenModel`, comment): the end positions are changed in place when a context window is set. If the
  dataset returns its stored lengths (MetaDataset with a sequence length file does), they grow with every epoch.
* C28 Two data keys mapped to one: the first is silently dropped; a sampling size for an unused dataset gives copies of
  the very first sequence; sampling fails for an empty dataset; the reversed order has different names in the two cases.
* C29 An empty inner epoch fails; an empty given order is taken as none; skipping an index returns the wrong sequence.
* C30 Padding together with a removed postfix breaks the alignment; an empty sub-sequence fails.
* C31 The number of frames is too small after a load with a gap; an empty epoch fails; after a load behind the end, any
  index is said to exist.
* C35 A line comment at the very end stays; a block comment ending in a slash is not closed; a line break in a string
  is dropped with white space stripping.
* C36 `uniq_generic` is not the generic version of `uniq`; a window before the array is refused by `slice_pad_zeros`.
* C38 With a save interval above one and `keep_last_n` 1, two crashes lose the whole training; `start_epoch` is ignored
  without checkpoints; `load_epoch=4` with `start_epoch=5` starts at epoch 1.
* C39 The mean length is not bounded by the maximum; sequences are dropped although the mean is exactly the maximum; no
  sequences at all fail; an open range cannot be combined with another one.
* C40 A stream of at most one frame makes all chunks but the first disappear; with a minimal chunk size the check of
  the number of chunks is not exact.
* C42 If a frozen parameter moved to another group and the order is the same, loading is refused, but with another order it
  is accepted.
* C43 The argument `full_param_name` of the user's include check is not the full name; with weight decay 0 the options for
  excluding modules make the optimizer constructor fail.
* C44 `learning_rate_multiplier` has no effect in training: the factor is lost at the start of the first epoch.
* C45 With codes of version 0.1 and a vocabulary a symbol can be empty; a word containing `</w>` can lose text.
* C46 With a mark for word starts and no label starting with it, the encoder raises KeyError despite an unknown label.
* C41 Batches of the data loader can never be split, so splitting after out-of-memory always fails with IndexError;
  with more than two parts, some can be empty.
* C47 A dict file with two labels for an id, and a label list with repetitions, are accepted and then map a label or id to another one; with a `seq_postfix` the documented `get_seq(get_seq_labels(seq)) == seq` never holds; `unknown_label=-1` gives None instead of an id; `create_vocab_from_labels` drops all options for the 256 bytes.
* C49 `SimpleHDFWriter.insert_batch` with several dynamic axes and a user extra key "sizes": own and user data are interleaved, all later sequences are wrong (`C49_sizes_key_refuted`).
* C49 `SimpleHDFWriter` accepts an extra key "data", `HDFDataset` cannot open the file (`C49_data_key_refuted`).
* C50 `HDFDataset.add_file` for files without "inputs": the reordering of the length columns assumes an input column, a later file with more keys gives wrong lengths (`C50_target_only_refuted`).
* C50 `CachedDataset._update_tag_idx` never updates: tags of files added after the first lookup raise KeyError (`C50_add_file_after_lookup_refuted`).
* C51 `SimpleHDFWriter(extend_existing_file=True)` without `extra_type` and with two extra keys: the length columns are overwritten with total counts, all appended data is shifted (`C51_undeclared_refuted`).
* C51 `SimpleHDFWriter(extend_existing_file=True)` replaces the labels of a target by "dummy-label" (`C51_labels_refuted`).
* C52 `HDFDatasetWriter.dump_from_dataset` sorts the length columns by the names before the renaming of "data" to "classes": with a target like "context" lengths are swapped (`C52_between_refuted`).
* C53 (meta.py:394-411) `MetaDataset.init_seq_order(epoch)` after `init_seq_order(epoch, seq_list=...)` of the same epoch keeps the predefined list (`need_reinit` only looks at the epoch number).
* C53 (meta.py:402, 417) if `init_seq_order(epoch, seq_list)` fails on an unknown tag, `self.epoch` is already set, and a following `init_seq_order(epoch)` silently keeps the sequences of the epoch before.
* C54 (meta.py:418-422, 440) with `seq_order_control_dataset`, the corpus indices of this dataset are used as positions in the list of `seq_list_file`; with a list in another order every load fails in the tag check (or with IndexError for a shorter list).
* C55 (_dim_extra.py:1420-1448, 2835-2847) a number that is combined with a dim gets the kind of the dim; with a batch dim it gets the batch kind, and all dims of the batch kind compare equal: `batch_dim + 2` simplifies to the constant 0, `batch_dim // 2` to 1.
* C55 (_dim_extra.py:1420-1448) `_eq_simple` (behaviour version >= 16) does not compare the static sizes, unlike `is_equal` and the hash: with two feature dims of the same name and sizes 10 and 22, `(2 + a) // 3 == (2 + b) // 3` is true, the hashes differ, and the difference of the two simplifies to 0.
* C56 (_dim_extra.py:2571-2576, 2622-2628) dividing a product whose last factor is a division merges the divisors although there are other factors: `(2 * (t // 2)) // 2` becomes `2 * (t // 4)`, which is 2 instead of 3 for t = 7. The same for ceildiv.
* C57 (_dim_extra.py:1245, 2849) each sum is clipped at zero, also intermediate sums that the reordering of terms has introduced: for `b.sub_left(a).sub_left(3)` with b = 10, a = 4 the dim is `(-3 + -a) + b` and the computed size is 10 instead of 3.
* C57 (_dim_extra.py:1278, 1290) the maximum size of a derived dim is computed from the maxima of the inputs: `10 - t` for lengths 3 and 7 gives the axis size 3 although the lengths are 7 and 3; `a + b` gets the sum of the maxima.
* C61 accum_grad_multiple_step per process
* C61 empty evaluation dataset
* C62 gradient noise per rank
* C62 left over gradients dropped
* C63 no averaging at the end of the epoch
* C64 next partition: KeyError
* C64 subset of the order: data missing
* C65 free frames grow with each load
* C66 data silently zero while the start cache is loaded
* C67 empty stream: AssertionError
* C68 unknown fractions: TypeError
* C69 torn read of the packed struct
* C73 "same" with dilation gives a wrong size
* C73 short sequences raise an error when alone
* C74 old "same" padding crops frames if the filter is shorter than the stride
* C75 average pooling depends on the batch
* C75 "same" pooling with an even size and no stride raises an error
* C76 shift_right with a tensor value does not shift
* C76 the default value of pad raises an error for dynamic dims
* C77 slice ignores the step
* C77 slice with a tensor start 0 has size 0
* C77 negative end of a slice raises an error
* C78 window with the default value raises an error
* C78 short sequences have a window for "valid"
* C79 masked_select over all dims includes padding
* C79 masked_scatter over time fails for an empty selection
* C80 sum with a fill value adds it for padded frames
* C80 max/min of integers needs a fill value
* C81 scatter_argmax loses entries that padded frames point to
* C81 scatter(mode="argmax") raises an error by default
* C82 scatter_logmeanexp counts padded frames
* C82 a fill value for scatter_logsumexp raises an error
* C84 compiled combine ignores allow_broadcast_all_sources=False
* C84 compiled combine gives another order of dims
* C84 compiled combine on a square matrix takes another axis than the python code
* C84 compiled combine fails when a dim is twice in the second tensor
* C85 0 - x gives x without the compiled module
* C85 x ** -1 gives -x
* C85 1 ** x gives a number
* C85 logical_or(x, True) gives x
* C85 the check for a division of integers is missing in the compiled module
* C86 matmul with a dynamic reduced dim raises TypeError since behavior version 22
* C86 matmul of two square matrices with the same dim fails
* C89 top_k over a list of axes with a dynamic dim raises TypeError
* C90 softmax_cross_entropy_with_logits permutes the logits by the inverse permutation: an error or a wrong result unless it is an involution
* C91 LearnedRelativePositionalEncoding.full_matrix adds query_offset None for a sequence
* C94 assign_key for another axis than the first uses the key for the first axis
* C95 reduce max/argmax fills the padding with the lowest finite number, wrong for sequences with only -inf
* C95 reduce argmax over all of several dims gives a flat index with the sparse dim of the first axis
* C95 reduce max/min/argmax over several but not all dims raises TypeError
* C96 num_elements_of_shape raises ValueError for dims whose lengths depend on different dims
* C97 FileArchive.has_entry is False for short names which read() accepts
* C97 FileArchive.scan_archive misses entries: it steps by 4 bytes from 0, entries start at byte 9
* C98 weighted alignments with explicit times read one item too many (float division of num_items)
* C98 align_raw needs allophones in the weighted scheme
* C98 get_state gives state 5 for state 6 without an error
* C99 FileArchiveBundle resolves short names that are ambiguous across archives to the last archive
* C100 options given with --config FILE lose to the file
* C100 init_config applies the command line twice, which is not idempotent for quoted strings
* C100 add_line keeps texts with a SyntaxError as str, but a NameError is raised
* C101 Config.int_pair does not accept "5,3" as text
* C101 Config.is_true of the str "false" is True
* C101 Config.int of None ignores the default
* C102 a batch whose norm factor is zero makes training and evaluation fail with ZeroDivisionError
* C102 train_epoch fails with ValueError (min of nothing) when there are no batches or no data with sequence lengths
* C103 use_normalized_loss with accum_grad_multiple_step adds up the means of the batches
* C103 the last batches of an epoch have no effect if their number is less than accum_grad_multiple_step
* C104 raw_dict_to_extern_data does not check that data with the same time dim have the same lengths
* C105 _load_model without a checkpoint accepts parameters which no entry covers
* C105 effect of a pattern entry in preload_from_files depends on the sort order of the keys
* C105 var_name_mapping is applied sequentially on the same dict
* C105 unexpected_keys_preload is always empty
* C106 init_for_train True and "always" for the same parameter gives other values after a restart
* C106 init_for_train="always" for a file with buffers (batch norm statistics) raises ValueError
* C108 the final state returned by scan with cond is the one before the last call of body
* C109 TensorArray.push_back modifies the array in place
* C111 set_deep with a target with two or more dots always raises ValueError: rsplit(".", 2) gives three parts
* C111 apply calls the function more than once for a shared module
* C112 for shared modules the names of parameters in RF and in the torch module can differ
* C113 del l[-1] of a ModuleList fails, and keeps the module in a list with one module
* C113 l[-1:] = [m] names the module "-1"
* C113 l[a:] = ms with a > len(l) leads to later appends replacing modules
* C113 l[2:1] = ms duplicates modules
* C113 l[:] = l empties the list
* C114 ParameterList l[i] = p removes the i-th parameter instead of replacing it
* C115 forward hooks on two modules of the same class: calling one of them recurses endlessly, calling another module of this class fails an assertion
* C116 the exit code of the train proc manager can be 0 without a finished training (process exits with 0 before the end), and non-zero with a finished one
* C117 after init_seq_order of the second or a later epoch the train thread can see the state of the epoch before (reached_final_seq is still set): an assertion in load_seqs fails, or it gets the old data
* C117 the Sprint thread fails with a TypeError (comparison with None) if it is done with its first epoch before the train thread calls init_seq_order
* C118 moments(use_mask=False) still masks the mean, so mean and variance are neither those of the frames nor those of the tensor
* C118 BatchNorm: the running variance is the biased one with masking and the unbiased one without
* C118 BatchNorm: a batch with one frame can be used for training with masking, without it is an error
* C119 with exclude_labels, the smoothed targets of a frame in which an excluded label (blank) has some probability sum up to more than 1
* C119 exclude_labels: a label given twice, or by a negative index, is counted but not excluded
* C120 a failed register_parametrization leaves the module parametrized (without any parametrization which could be removed)
* C120 is_parametrized(module, name) is true for every attribute of the class, e.g. methods
* C120 copy.deepcopy of a parametrized module shares the class: its parameter cannot be read, and changes of the copy break the original module
* C123 edit_distance_via_next_edit_distance_row for a hypothesis array without any frame gives the length of the longest reference for all sequences of the batch
* C124 chunking with a step larger than the size, or of an empty time, can fail with an assertion
* C125 the gradient of unchunking is wrong when the mask differs between the chunks with the same frame: it uses the mask of the sequence
* C126 declaring Dim(5) the same as a derived dim of unknown size raises InfiniteRecursionDetected in both directions
* C126 declaring a dim which was used in dim math the same as a plain Dim raises an AttributeError
* C126 the vocabulary of self is lost when other has none: the code which merges both is dead
* C127 x.declare_same_as(y); y.declare_same_as(Dim(5)) leaves x without static size although x == Dim(5)
* C127 dims with different dynamic sizes can be declared the same with only a warning
* C128 an explicit max_consecutive_feature_dims with fewer than 5 features makes torch.topk fail for some random draws
* C128 max_consecutive_feature_dims=0 is replaced by feature_dim // 5 instead of disabling the feature masks
* C129 a process killed between creating and writing info.py makes every later call fail with a SyntaxError
* C129 a process killed while compiling again for a newer dependency leaves a broken library which is taken for current
* C129 a dependency changed while the compiler runs is not noticed
* C129 with static_version_name, a process killed after compiling makes others load the library of another code
* C129 a library in daily use is deleted after 60 days: use touches info.py, the cleanup looks at the library
* C130 the second check is done before the lock is taken, so a waiting process compiles again, over the library which others load at this time
* C130 a process can read info.py when it was just created and is still empty
* C130 the cleanup of another process can delete the directory in which a process compiles
* C131 with tied parameters (two names for one tensor) the in-place addition counts twice: the average of 2 and 4 is 5
* C132 an entry stored for a key with a repeated dim is renamed wrongly for a key of two different dims of the same size
* C132 setting a key again is ignored
* C132 lookups do not count as a use, so the oldest entry is dropped although it is used all the time
* C132 when the dim of a stored key is gone and the value does not mention it, the lookup fails an assertion
* C132 a key with a dim without sizes raises a TypeError on the second lookup
* C132 keys which differ only in their structure (dict keys, nesting) or in 1 vs. True are the same
* C132 a tensor without content in a key raises a TypeError
* C133 a per-hypothesis dim which is not a leaf of the structure keeps the sizes of the old hypotheses, without an error
* C133 when the sizes of a dim depend on another per-hypothesis dim which comes later in the structure, they keep the old dim
* C133 a None or a number in the structure raises a TypeError
* C133 the dim of the hypotheses itself as a leaf stays the old dim
* C134 FromListDataset without sort_data_key raises an AssertionError in supports_seq_order_sorting, and an empty one an IndexError
* C135 init_seq_order(seq_order=...) on a fresh TextDictDataset does not load the file, so that the first sequence raises a TypeError
* C135 only the first entry of the file is checked; an empty list in a later one raises a ValueError in the middle of an epoch
* C135 with a sampling vocabulary, data is not one of the sequences in data_flat
* C136 masked_select takes entries in the padding where the mask is true, masked_scatter does not, so it is not the inverse
* C136 masked_select of a tensor without one of the dims of the mask is an AssertionError
* C137 the default callback of the data pipe gives epoch 1 for each pass in new workers
* C137 a fraction which is not known resets the check that fractions do not decrease
* C137 data with the key seq_tag, seq_idx, epoch, num_seqs or complete_frac is overwritten by the data pipe
* C137 ReturnnDatasetPerEpochMapDataPipe and ReturnnDatasetFullMapDataPipe define __int__ instead of __init__
* C138 rf.PiecewiseLinear with a single point gives NaN at this point, and an index of -1 for tensors with two dims or more
* C139 mark_as_output: expected dims which are not known do not allow other dynamic dims, against the comment in the code
* C139 mark_as_output stores an output before it is checked
* C140 walk_tensor_consumers gives the seed itself, which is not a consumer
* C141 build_dict uses __name__ instead of __qualname__
* C141 a user module called rf clashes with the prefix for the frontend
* C141 build_dict lets an argument called class replace the class
* C142 get_recent_graph_reader_node_in_accessible_ctx only considers the last node
* C142 random_journal_replay does not check the end and does not clear the journal
