{"id": "C01", "title": "Shuffle reservoir is exact-once", "statement": "For any sequence of offers to a streaming shuffle reservoir followed by a drain, if no call raises, the concatenation of everything the calls returned is a permutation of everything offered: no item is lost, duplicated or invented, and the offered/emitted/occupancy counters agree with that.", "quantifier": "every item sequence, item sizes, capacity >= 1, byte limit (or none), seed/hash value, and every split of the sequence into offer / offer_many / offer_zero_sized calls", "why_tests_cant": "eviction position depends on a 64-bit hash and on the interaction of capacity and byte evictions; a lost or duplicated sample only shows for particular hash values and sizes", "anchors": ["dataset/shuffle.py:StreamingShuffleReservoir.offer", "dataset/shuffle.py:StreamingShuffleReservoir.offer_many", "dataset/shuffle.py:StreamingShuffleReservoir.offer_zero_sized", "dataset/shuffle.py:StreamingShuffleReservoir.drain"]}
{"id": "C02", "title": "Shuffle reservoir never exceeds its capacity or byte limit", "statement": "After every successful call the reservoir holds at most `capacity` items whose sizes sum to the reported resident bytes, which never exceed `max_bytes`; the reported peaks bound every earlier occupancy and never exceed the limits; an item that alone exceeds the byte limit is rejected without changing the reservoir.", "quantifier": "every history of calls on every reservoir configuration", "why_tests_cant": "bounded memory must hold at every step of an unbounded stream", "anchors": ["dataset/shuffle.py:StreamingShuffleReservoir"]}
{"id": "C03", "title": "Shuffle order does not depend on call chunking", "statement": "Offering a sequence of items one by one, in one bulk call, or in any split into bulk calls (and, for zero-sized items, through the zero-sized fast path) emits the same items in the same order and leaves the same state up to the peak statistics' definition.", "quantifier": "every item sequence and every way of chunking it", "why_tests_cant": "the number of chunkings is exponential; determinism across prefetch depths and batch sizes rests on it", "anchors": ["dataset/shuffle.py:StreamingShuffleReservoir.offer", "dataset/shuffle.py:StreamingShuffleReservoir.offer_many", "dataset/shuffle.py:StreamingShuffleReservoir.offer_zero_sized"]}
{"id": "C04", "title": "Reservoir snapshots restore exactly, and only consistent snapshots are accepted", "statement": "Restoring the state captured at any point of any history into a freshly built reservoir with the same configuration succeeds and continues bit-identically; every state that restore accepts satisfies the capacity, byte, exact-once and RNG-counter invariants, so a malformed or foreign state is rejected.", "quantifier": "every reachable state and every arbitrary candidate state", "why_tests_cant": "crash points are unbounded and malformed states are arbitrary", "anchors": ["dataset/shuffle.py:StreamingShuffleReservoir.state", "dataset/shuffle.py:StreamingShuffleReservoir.restore"]}
{"id": "C05", "title": "Native packed reservoir is equivalent to the Python reservoir", "statement": "For zero-sized unsigned 64-bit items the C++ packed reservoir emits exactly the same values in the same order, with the same RNG counter and slots, as the generic Python reservoir, whenever neither raises.", "quantifier": "every block sequence, capacity, RNG base and starting counter", "why_tests_cant": "which implementation is used depends on the build; equality must hold for all hash values and block splits", "anchors": ["dataset/planner_cpp/packed_shuffle.cpp:PackedUInt64Reservoir", "dataset/packed.py", "dataset/shuffle.py:StreamingShuffleReservoir.offer_zero_sized"]}
{"id": "C06", "title": "Deterministic permutations are permutations", "statement": "deterministic_permutation(n, ...) returns each index 0..n-1 exactly once for every seed/domain/key, and each bounded draw it makes is strictly below its bound.", "quantifier": "every n, every digest function (so every seed, domain and key)", "why_tests_cant": "a 64-bit hash with rejection sampling cannot be exhausted by tests", "anchors": ["dataset/core.py:deterministic_permutation", "dataset/core.py:uniform_below"]}
{"id": "C07", "title": "RNG key encoding is injective and prefix-free", "statement": "Two different (domain, seed, key, counter) tuples never feed the same bytes to the hash, and no encoding is a prefix of another, so distinct logical streams never alias; the prefix-cached fast paths hash the same bytes as the reference path.", "quantifier": "every nested key of None/bool/int64/str/bytes/tuple values and every counter", "why_tests_cant": "injectivity is a statement about all pairs of keys", "anchors": ["dataset/core.py:_tlv", "dataset/core.py:rng_digest", "dataset/core.py:_counter_rng_base"]}
{"id": "C08", "title": "Bounded draws are unbiased", "statement": "Rejection sampling in uniform_below accepts exactly floor(2^64/n)*n of the 2^64 raw values, and each residue 0..n-1 is produced by exactly the same number of accepted raw values.", "quantifier": "every bound n in 1..2^64", "why_tests_cant": "counting preimages over 2^64 values is not testable", "anchors": ["dataset/core.py:uniform_below", "dataset/shuffle.py:StreamingShuffleReservoir._random_slot", "dataset/planner_cpp/packed_shuffle.cpp"]}
{"id": "C09", "title": "Weighted composition serves every child exactly its weight per cycle", "statement": "The interleaving order computed for a list of positive weights has length sum(weights) and contains child i exactly weight_i times.", "quantifier": "every list of positive integer weights", "why_tests_cant": "smooth weighted round robin correctness is an invariant over all weight vectors", "anchors": ["dataset/composite_source.py:_weighted_cycle"]}
{"id": "C10", "title": "Composite source delivers complete cycles with sync_length and everything without", "statement": "With sync_length the composite source emits exactly min_i floor(n_i / w_i) complete weighted cycles, each child's records in order; without it every record of every child is emitted exactly once, and each child's relative order is preserved. Neither depends on how many records are requested per call.", "quantifier": "every number of children, child lengths, weights and request-size sequence", "why_tests_cant": "end-of-stream interaction of several children with lookahead cannot be enumerated", "anchors": ["dataset/composite_source.py:CompositeRecordSource"]}
{"id": "C11", "title": "Dense record ids resolve to exactly one (file, row)", "statement": "Every id in [0, total) resolves to the unique file and row whose interval contains it, ids enumerate the concatenation of the files in order, and ids outside are rejected.", "quantifier": "every list of file row counts (including empty files) and every id", "why_tests_cant": "bisect boundary behaviour at every file boundary for every layout", "anchors": ["dataset/npz_source.py:DenseNumpyRecordSource._resolve"]}
{"id": "C12", "title": "Rank-sharded dense reading partitions the rows", "statement": "With rank sharding, the rows read by ranks 0..world-1 in one cycle are disjoint and together are exactly all rows of the cycle, independent of chunk sizes; unsharded reading yields every row exactly once per cycle in file order.", "quantifier": "every world size, file layout, file order and request-size sequence", "why_tests_cant": "all world sizes and residues", "anchors": ["dataset/npz_source.py:DenseNumpyRecordSource.next_envelopes", "dataset/npz_source.py:DenseNumpyRecordSource.next_packed_records"]}
{"id": "C13", "title": "Dense source cursors resume exactly", "statement": "Saving a cursor at any point and restoring it into a fresh source continues with exactly the records that had not been read; a cursor that does not describe a valid position is rejected.", "quantifier": "every cursor position of every layout and every malformed cursor", "why_tests_cant": "all crash points", "anchors": ["dataset/npz_source.py:DenseNumpyRecordSource.save_cursor", "dataset/npz_source.py:DenseNumpyRecordSource.restore_cursor"]}
{"id": "C14", "title": "Sequential file sharding is a partition with no idle rank", "statement": "Size-balanced assignment of files to ranks gives every file to exactly one rank, and when there are at least as many files as ranks every rank receives at least one file.", "quantifier": "every list of file sizes, every world size", "why_tests_cant": "greedy balancing with ties over arbitrary size vectors", "anchors": ["dataset/sequential_source.py:SequentialRecordSource._file_order"]}
{"id": "C15", "title": "Sequential interleaving reads every entry exactly once", "statement": "A cycle of the sequential source over any number of concurrently open files yields every subrecord of every admitted entry of its files exactly once, in file order within each file, for every interleave width and quantum, and then reports end of cycle.", "quantifier": "every set of files, entry/subrecord counts, active file limit and quantum", "why_tests_cant": "turn-taking with replacement and removal while pending subrecords exist has unboundedly many schedules", "anchors": ["dataset/sequential_source.py:SequentialRecordSource.next_envelope"]}
{"id": "C16", "title": "Sequential source cursors resume exactly", "statement": "Saving the cursor at any point of a cycle and restoring it yields the same remaining stream as the uninterrupted run.", "quantifier": "every point of every interleaving", "why_tests_cant": "all crash points", "anchors": ["dataset/sequential_source.py:SequentialRecordSource.save_cursor", "dataset/sequential_source.py:SequentialRecordSource.restore_cursor"]}
{"id": "C17", "title": "Training batches are exact-once full batches", "statement": "In one training cycle the planner's batches, concatenated, contain each source record at most once, every batch has exactly the planning batch size, and fewer than one batch per shape is left over; nothing outside the source is ever emitted.", "quantifier": "every source, reservoir configuration, batch size and shape mix", "why_tests_cant": "interaction of reservoir, shape queues and refill chunking over unbounded streams", "anchors": ["dataset/planner.py:DatasetPlanner.next_batch"]}
{"id": "C18", "title": "Evaluation covers every sample exactly once with explicit padding", "statement": "In evaluation every source record appears exactly once as a real sample, every batch is padded to full size by repeating its own real samples cyclically, and the valid mask marks exactly the real ones; the per-rank slices of every batch are disjoint and reassemble it.", "quantifier": "every source, batch size, world size and shape mix", "why_tests_cant": "evaluation metrics are only correct if this holds for every remainder and every shape mix", "anchors": ["dataset/planner.py:DatasetPlanner.next_batch", "dataset/stream.py:EvaluationBatchPlannerDataset"]}
{"id": "C19", "title": "Epoch step budget is exact", "statement": "With steps_per_epoch = s, an epoch yields exactly s batches (when the source can supply them) and the s-th is marked as the terminal batch and no other.", "quantifier": "every budget and source", "why_tests_cant": "off-by-one at each budget for each source length", "anchors": ["dataset/planner.py:DatasetPlanner._make_batch"]}
{"id": "C20", "title": "Planner transactions: only committed batches advance, rollback replays them", "statement": "Batches that were published but not committed are produced again, identically and in the same order, after a rollback or a resume from the last commit; committed batches are never produced again; state_dict reflects exactly the last commit.", "quantifier": "every interleaving of next / commit / rollback / save / load", "why_tests_cant": "crash points between publication and commit are unbounded", "anchors": ["dataset/planner.py:DatasetPlanner.next_transactional_batch", "dataset/planner.py:DatasetPlanner.prepare_commit", "dataset/planner.py:DatasetPlanner.commit_prepared", "dataset/planner.py:DatasetPlanner.rollback_uncommitted"]}
{"id": "C21", "title": "Planner resume is equivalent to not stopping", "statement": "Loading the planner state captured after any batch into a new planner over the same source produces exactly the batches the uninterrupted run would produce.", "quantifier": "every history and crash point", "why_tests_cant": "all crash points", "anchors": ["dataset/planner.py:DatasetPlanner.state", "dataset/planner.py:DatasetPlanner.restore"]}
{"id": "C22", "title": "Prefetching changes neither order nor content and is bounded", "statement": "With background workers the dataset yields exactly the batches of the synchronous path in the same order whatever the completion order of workers, and never holds more than the configured number of pending batches.", "quantifier": "every worker completion schedule, prefetch depth and worker count", "why_tests_cant": "schedules are unbounded", "anchors": ["dataset/source_dataset.py:SourceDataset"]}
{"id": "C23", "title": "Resumable sampler: ranks are disjoint and resume is exact", "statement": "Across ranks the sampler yields each index of the epoch permutation at most once, dropping fewer than world_size; committing after k batches and reloading continues at batch k+1; rollback replays uncommitted batches.", "quantifier": "every dataset length, world size, batch size and commit history", "why_tests_cant": "all lengths, world sizes and crash points", "anchors": ["utils/training_utils.py:ResumableSampler"]}
{"id": "C24", "title": "Symmetry transforms of moves and boards agree", "statement": "For each symmetry and every board, transforming a plane and reading the transformed coordinate gives the value at the original coordinate; each symmetry is a bijection of the board, and the symmetries offered for a shape preserve that shape.", "quantifier": "all eight symmetries, all board sizes (square and rectangular), all planes and moves", "why_tests_cant": "board sizes are unbounded and coordinates are conventions that can be transposed silently", "anchors": ["utils/data_utils.py:Symmetry"]}
{"id": "C25", "title": "Simple binary records round-trip", "statement": "Encoding then decoding any in-range simple-binary entry is the identity, field widths never overlap, and framing a concatenation of entries yields the entries in order.", "quantifier": "every header field combination and move list", "why_tests_cant": "2^32 headers and unbounded move lists", "anchors": ["dataset/simple_binary.py"]}
{"id": "C26", "title": "Packed binary records round-trip and are framed consistently", "statement": "Decoding packed records recovers each bit field, the metadata pre-scan predicts exactly the number of move groups that full decoding produces, truncated input raises EOF rather than yielding a partial entry.", "quantifier": "every header and move array", "why_tests_cant": "bit layouts and truncation points are too many", "anchors": ["dataset/packed_binary.py"]}
{"id": "C27", "title": "Checkpoint saves are atomic", "statement": "If the process dies at any point of saving a checkpoint, the checkpoint path holds either the previous complete file or the new complete file.", "quantifier": "every crash point of the save procedure, every prior directory content", "why_tests_cant": "crash points cannot be exhaustively injected", "anchors": ["utils/file_utils.py:save_torch_ckpt"]}
{"id": "C28", "title": "Latest checkpoint discovery picks the numerically latest", "statement": "find_latest_ckpt returns a checkpoint whose iteration is the maximum among matching files (numeric, not lexicographic), and None exactly when none match.", "quantifier": "every directory listing", "why_tests_cant": "all file name sets and digit lengths", "anchors": ["utils/file_utils.py:find_latest_ckpt_filename", "utils/file_utils.py:get_iteration_from_ckpt_filename"]}
{"id": "C29", "title": "Asynchronous checkpoint writer keeps order and reports every failure", "statement": "At most one asynchronous write is in flight, writes complete in submission order, a failed write is raised at the next submit or flush and never silently dropped, and finalizers/post hooks run only for completed writes.", "quantifier": "every interleaving of submit, worker progress, failure and flush", "why_tests_cant": "schedules and failure points are unbounded", "anchors": ["utils/async_checkpoint.py:AsyncCheckpointWriter"]}
{"id": "C30", "title": "Canonical pipeline state round-trips", "statement": "Encoding then decoding any supported pipeline state value is the identity (up to list/tuple normalisation), and distinct states have distinct canonical encodings.", "quantifier": "every nested state value", "why_tests_cant": "infinite recursive domain", "anchors": ["dataset/core.py:encode_pipeline_state", "dataset/core.py:decode_pipeline_state"]}
{"id": "C31", "title": "Evaluation metrics do not depend on how the rows are spread over processes", "statement": "A metric collected over the evaluation is the weighted mean over all real rows, and a maximum is the largest value of any real row, whatever the number of processes, the batches and the padding. A metric of scope 'global batch' (losses, accuracies, composed losses) is the mean over the global batches of the metric of the whole batch, where the finalizer sees the sums over all processes; with planned batches it depends only on the rows of each global batch. Repeated batches of a process that ran out of data do not count. Processes or batches that report different statistics stop the evaluation with an error on every process. (Not: the mean over all samples, nor anything exact in floating point - see the refuted variants.)", "quantifier": "all numbers of processes, loader lengths, batches, paddings, row values, statistics and registered finalizers", "why_tests_cant": "unit tests use one process, or two with a fixed example; independence of the distribution is a statement about all partitions", "anchors": ["dataset/core.py:SumCount,Maximum,SufficientStats", "trainer/base.py:_gather_averaged_metrics,_accumulate_evaluation_metrics,_finalize_masked_global_batch,_preflight_evaluation_schema,_iter_collective_safe_batches,_validate"]}
{"id": "C32", "title": "Filter expressions cannot leave their language and limits", "statement": "A filter that is accepted was within the length, node and depth limits, contains only whitelisted syntax and names, and its result is what the expression means in Python: a boolean vector with one entry per row. Whatever the text and whether or not it is accepted, the evaluation reads only the input arrays, applies only listed operators and calls only listed functions; texts beyond the limits and unsupported inputs are rejected before anything is computed. No operator, comparison or function makes an array of more elements than permitted, if the expression has no chained comparison and no tuple operand. (Refuted variants: chained comparisons, column lists, Python integers and tuples escape the size limits; forbidden syntax is found only when evaluation reaches it.)", "quantifier": "every expression tree, every dictionary of arrays, every implementation of the operators", "why_tests_cant": "all programs", "anchors": ["dataset/filter.py:SafeFilterEvaluator", "dataset/filter.py:evaluate_filter_condition"]}
{"id": "C33", "title": "Config override merge is right-biased and idempotent", "statement": "deep_update_dict(base, override) keeps every base entry not overridden, takes every override leaf, merges dictionaries recursively; merging the same override twice equals merging once.", "quantifier": "every pair of nested configurations", "why_tests_cant": "infinite recursive domain", "anchors": ["utils/misc_utils.py:deep_update_dict"]}
{"id": "C34", "title": "Composite source cursors resume exactly", "statement": "Saving the cursor of a composite source at any point of a cycle and restoring it yields exactly the records the uninterrupted source would still have delivered.", "quantifier": "every list of children and weights, every history of reads, every save point", "why_tests_cant": "save points and histories are unbounded", "anchors": ["dataset/composite_source.py:save_cursor", "dataset/composite_source.py:restore_cursor"]}
{"id": "C35", "title": "NPZ record keys identify rows", "statement": "The key attached to a delivered NPZ record determines the cycle, the content digest of its file and the physical row: within one cycle two records with different file contents or different rows never share a key, so per-sample randomness keyed by it never aliases.", "quantifier": "every file catalog, cycle, physical row and digest function", "why_tests_cant": "a statement about all pairs of records", "anchors": ["dataset/npz_source.py:_record_key"]}
{"id": "C36", "title": "Sequential record keys identify records", "statement": "The key attached to a record of a sequential source determines the file key, the cycle, the entry number and the subrecord number; every delivered record passes the identity check of materialisation and is materialised from the raw bytes of exactly that entry; the byte stream fed to a key digest is prefix-free, so equal digests' inputs mean equal key sequences.", "quantifier": "all file lists, formats, cycles, entries, subrecords and record sequences", "why_tests_cant": "Collisions would need adversarial pairs of keys; tests only look at a few records.", "anchors": ["dataset/sequential_source.py:InterleavedSequentialSource.materialize_batch", "dataset/sequential_source.py:InterleavedSequentialSource.update_record_key_digest"]}
{"id": "C37", "title": "Packed shuffle reservoir state resumes exactly", "statement": "Saving the state of a packed (uint64 id) shuffle reservoir after any history of offers, drains and reads and restoring it into a fresh reservoir of the same configuration succeeds, and every later call shows the same ids, states and exceptions; a state that restore accepts always describes a legal reservoir of the same configuration.", "quantifier": "every configuration, every history of calls before and after the save, every candidate state", "why_tests_cant": "histories are unbounded and the state space of forged states is infinite", "anchors": ["dataset/packed.py:PackedShuffleReservoir.state", "dataset/packed.py:PackedShuffleReservoir.restore", "dataset/planner_cpp/packed_shuffle.cpp"]}
{"id": "C38", "title": "The files of a checkpoint fit together after any crash", "statement": "Whatever saves, crashes at any file operation of a save or of pruning, and restarts happened before, resuming never fails for want of a file: it finds either no training state at all or the state, the weights of every model and the runtime sidecars of one and the same save; a completed state save is never lost to a later crash, completed permanent checkpoints are never pruned, pruning never gives up and leaves at most num_keep_states states, and it removes exactly the temporary model snapshots that are neither the newest nor have a retained state.", "quantifier": "every model list, world size, retention setting, history of saves and restarts, crash point, interleaving of the ranks and directory order", "why_tests_cant": "crash points times histories times listing orders are unbounded", "anchors": ["trainer/base.py:_save_checkpoint", "trainer/base.py:_save_checkpoint_main", "trainer/base.py:_cleanup_checkpoints", "trainer/base.py:_load_checkpoint", "trainer/base.py:_load_state_checkpoint", "trainer/base.py:_write_vq_runtime_sidecar"]}
{"id": "C39", "title": "Open files take turns of a fixed number of entries", "statement": "A sequential source delivers records in one order fixed by its file order, the number of simultaneously open files and read_quantum: the file whose turn it is first delivers what is still due from the entry it read last, then reads entries, delivering the first record of each, until it has used read_quantum entries; then the next open file (the first after the last) has its turn; an exhausted file is replaced in place by the next waiting file or closed.", "quantifier": "every file list and contents, format, quantum, number of open files, sampling rate, cycle and rank", "why_tests_cant": "the order depends on unboundedly many entries and on every interleaving of exhausted and replaced files", "anchors": ["dataset/sequential_source.py:InterleavedSequentialSource.next_envelope", "dataset/sequential_source.py:_replace_or_remove", "dataset/sequential_source.py:_advance_turn"]}
{"id": "C40", "title": "Line codes number the windows of a board one to one", "statement": "For every allowed line length there is one numbering of the possible windows (rows of line_length cells around a point, with walls at the ends only), one to one and below get_total_num_encoding, such that transforming a board writes, for each of the four directions and each point, exactly the number of the window there; transforming lines uses the same numbering; the usage flags mark exactly the numbers of possible windows; with raw_code the number spells the window in base 4. A batch is transformed board by board. Lengths that are even, not positive or too long, and boards for which the 64-bit key would wrap around, are rejected with ValueError.", "quantifier": "every line length, every board size and contents, every line, every direction and point", "why_tests_cant": "3^17 windows times all boards; collisions between different wall layouts only show on particular pairs", "anchors": ["dataset/pipeline/line_encoding_cpp/line_encoding.cpp:transform_board_to_line_encoding", "dataset/pipeline/line_encoding_cpp/line_encoding.cpp:LineEncodingEncoder", "dataset/pipeline/line_encoding_cpp/line_encoding.cpp:get_encoding_usage_flag", "dataset/pipeline/line_encoding.py:transform_lines_to_line_encoding"]}
{"id": "C41", "title": "Forbidden-point flags are the Renju rule", "statement": "The forbidden-point flag of a point is 1 exactly if the point is empty and a black stone there makes an overline, two fours (in two directions or on one line) or two threes, where a three only counts if it can become a straight four by a move that is itself neither five, overline, double four nor, recursively, double three; the recursive rule has exactly one solution on every board. Checking leaves the board unchanged; black is channel 0 with fixed sides or black to move and channel 1 otherwise; a batch is its samples; boards wider or higher than 22 are rejected with ValueError; rotating or mirroring the sample rotates or mirrors the flags.", "quantifier": "every board of up to 22x22 and its contents, every point, every symmetry, every recursion depth", "why_tests_cant": "3^(22*22) boards, and the recursion through hypothetical moves has no small depth bound", "anchors": ["dataset/pipeline/forbidden_point.py:ForbiddenPointPipeline", "dataset/pipeline/forbidden_point_cpp/board.cpp:Board::isForbidden", "dataset/pipeline/forbidden_point_cpp/board.cpp:Board::isOpenThree", "dataset/pipeline/forbidden_point_cpp/forbidden_point.cpp:transform_board_to_forbidden_point"]}
{"id": "C42", "title": "Batches reach the device intact, in order and in bounded memory", "statement": "With the CUDA prefetch loader, whatever the copy stream, the compute stream, the memory allocator and the training code do: a kernel launched with a tensor of a delivered batch reads what the source put into that batch, even though device and host memory are reused; the batches are delivered in order, each once, up to the terminal one; the source is read at most cuda_prefetch_batches ahead and never again after a terminal batch; at most that many batches are queued and one more host batch retained; no schedule gets stuck; closing always closes the source and reports a synchronization failure. With static input slots, kernels launched while a batch is current read that batch, over any number of iterators, the streams never wait for each other in a circle, and a batch of another schema raises before anything is copied.", "quantifier": "every schedule of the two device streams, every source, lookahead 1 to 4, every sequence of launches, releases and closes", "why_tests_cant": "races between streams and memory reuse depend on the schedule; tests see one schedule at a time", "anchors": ["utils/training_utils.py:CudaPrefetchLoaderWrapper", "utils/training_utils.py:CudaPrefetchLoaderWrapper._synchronize_and_close", "utils/training_utils.py:StaticSlotLoaderWrapper"]}
{"id": "C43", "title": "A decoded batch equals its rows decoded one by one", "statement": "For references to existing rows of readable files, decoding a batch of a processed NPZ dataset (from one file, from several files, as a packed request, or fused with other batches) gives exactly the rows that decoding each reference alone gives, in order, including the side swap and the random symmetry; it is refused exactly if some row is refused or the rows do not stack; no uninitialised memory is ever delivered. The random symmetry of a row depends only on seed, epoch and the row itself, not on its batch. A packed request over files that store different policy layouts may be refused; without transforms, rows past the end of a file are not always refused (both proved).", "quantifier": "every set of files and contents, every list of references, every batch split, seed, epoch, symmetry type and hash function", "why_tests_cant": "batches mix files, board sizes, repeated and contiguous rows in unboundedly many ways; tests compare a few", "anchors": ["dataset/decoder.py:ProcessedNpzDecoder.decode_one", "dataset/decoder.py:ProcessedNpzDecoder.decode_batch", "dataset/decoder.py:ProcessedNpzDecoder.decode_packed_batch", "dataset/decoder.py:ProcessedNpzDecoder.decode_batches", "dataset/decoder.py:ProcessedNpzDecoder._post_process_vectorized", "dataset/core.py:_uniform_below_for_processed_sample_keys_v2"]}
{"id": "C44", "title": "The NPZ array cache is shared safely between decode workers", "statement": "When any number of workers ask the processed NPZ decoder for files at the same time: a call returns what was read from that very file (its contents, while the file does not change); a call raises only what its own read raised, and after a failed read the next call reads again; one file is never read by two calls at once; every call returns or raises, within a bounded number of steps, under every schedule; after every step at most 16 memory-mapped files are kept, and the files in memory respect the entry and the byte limit unless there is only one; the least recently used files are dropped first, no more than needed, and never the one just read; if all requested files fit, each is read successfully only once; configure_cache accepts exactly positive integers and applies at once.", "quantifier": "every number of calls and files, every interleaving, every outcome of every read, every reconfiguration", "why_tests_cant": "lost wake-ups, double reads and cache races depend on the schedule; eviction depends on the whole history", "anchors": ["dataset/decoder.py:ProcessedNpzDecoder._load", "dataset/decoder.py:ProcessedNpzDecoder._evict_array_cache", "dataset/decoder.py:ProcessedNpzDecoder.configure_cache", "dataset/decoder.py:ProcessedNpzDecoder.cache_state"]}
{"id": "C45", "title": "Batch pipelines add their declared fields and nothing else", "statement": "A PipelineStateComposer is built exactly if the identifiers are distinct and not empty, versions are integers, no output name is declared twice or is also an input of its pipeline, and configurations and initial states can be encoded. Preparing a batch runs the pipelines in order, each from the state stored for it in the blob (or its initial state), and succeeds exactly if every pipeline keeps its configuration, gets its required inputs, returns the declared fields with the declared dtypes, shapes and nothing else; the result has exactly the fields of the batch and the declared outputs, the fields of the batch come back unchanged (assuming no hash collision, for values without dictionaries; a change inside nested dictionaries can go unnoticed, proved), and the new blob stores the next states. Continuing from a saved blob in a new process is the same as going on; a blob of another chain (other identifiers, versions, number or order) is refused with an exception.", "quantifier": "every list of pipelines and their behaviour, every batch, every blob, every sequence of batches and resume point", "why_tests_cant": "pipelines are arbitrary user code; one needs all field values, states and batch histories", "anchors": ["dataset/core.py:PipelineStateComposer", "dataset/core.py:PipelineStateComposer.prepare_batch", "dataset/core.py:PipelineStateComposer.decode_blob", "dataset/core.py:_field_value_digest"]}
{"id": "C46", "title": "The pipeline autotuner stays within its limits and comes to an end", "statement": "Whatever the measurements are: the number of prefetch threads, the prefetch depth and the cache bytes stay between 1 and their configured maximum, also after reusing a profile or loading a state; locked options keep the value given at construction (except cache_entries, which is raised with cache_bytes even if locked; proved); every change of a setting is one logged adjustment, made in the direction the measurement asks for and one option at a time; nothing is decided before the warm-up, within the decision interval or after freezing; frozen is final; after freeze_after iterations the next decision freezes; saving and loading the tuning state changes nothing, a state of another runtime is refused; a saved profile starts the next run with the same settings; the decode limit and the cache are those of the settings; all processes get the main process's settings, or stop with ValueError.", "quantifier": "every sequence of metrics, iterations, restarts, profiles and cache failures; every configuration; any number of processes", "why_tests_cant": "the settings depend on the whole history of measurements; tests follow a few hand-made histories", "anchors": ["dataset/telemetry.py:PipelineAutotuner.update", "dataset/telemetry.py:PipelineAutotuner.load_state_dict", "dataset/telemetry.py:ObservedSourceBatchDataset.load_pipeline_tuning_state_dict", "dataset/katago.py:BatchedProcessedKatagoNumpyDataset._build_partitioned_stream", "trainer/base.py:BaseTrainer._flush_pipeline_metrics"]}
{"id": "C47", "title": "Tuning the pipeline while it runs changes no batch", "statement": "With observability on, whatever the tuner sets the prefetch depth, the number of workers and the decode limit to, at any moment, and whatever the threads do: the batches handed out and the effects of commits are those of the synchronous iterator, the end and failures included; the number of batches held grows at most to the depth in force; a decode starts only while fewer than the limit in force run, and never on more threads than the pool has; a thread sleeps at the gate only while as many decodes as the limit run (no lost wake-up); left alone, the decode threads finish every submitted chunk within a bounded number of steps, and then the iterator can go on, so there is no deadlock.", "quantifier": "every schedule of iterator, threads and consumer, every sequence of parameter changes, every source and epoch length", "why_tests_cant": "lost wake-ups, deadlocks and reordered batches depend on the schedule and on when the parameters change", "anchors": ["dataset/telemetry.py:ObservedSourceBatchDataset._iter_prefetched", "dataset/telemetry.py:_AdjustableConcurrencyGate", "dataset/telemetry.py:ObservedSourceBatchDataset._run_decode_batches"]}
{"id": "C48", "title": "The cache of tuning profiles is safe to share", "statement": "Whatever processes and threads save and load profiles in one directory, in any interleaving, with failing operations and calls killed between any two file operations: every profile in the directory is the complete text of one saved record under its own key, other files are never touched, and load returns only a valid record that was saved, with the exact key or (compatible mode only) the compatible key, nothing with reuse off. A save that is not disturbed succeeds, leaves at most max_entries profiles, removes only profiles not newer than those left, and its record is found by the next load while fewer than max_entries other profiles are dated as new; an undisturbed load never raises and finds the exact profile, else the newest compatible one. (Not: that load cannot raise next to another process's save, nor that every save is stored - both refuted.)", "quantifier": "every number of processes, interleaving, crash point, disk failure, directory content and order, record and clock", "why_tests_cant": "races and crash points between single file operations cannot be enumerated", "anchors": ["dataset/telemetry.py:PipelineProfileStore.load", "dataset/telemetry.py:PipelineProfileStore.save"]}
{"id": "C49", "title": "Exported models state the rules and board sizes that were asked for", "statement": "An export of weights that returns has written a file whose header, read as four little-endian words, a length and a description, gives the magic number, the architecture hash, bit masks with exactly the rules and the board sizes the export arguments name (all legal, at least one rule), the description, and then the weights byte for byte. Arguments naming no or illegal rules, illegal sizes, or the same thing in two ways raise before any file is touched; arguments in order are accepted. The ONNX version number fits a signed 64-bit field and gives back version, rules and sizes exactly. (A size range the wrong way round is accepted and advertises no size; proved.)", "quantifier": "every argument dictionary, registry of serializers, model, output type, rule and size set, version", "why_tests_cant": "argument spellings and subsets of 3 rules and 32 sizes combine without bound; a test checks a few", "anchors": ["model/serialization/__init__.py:get_rules_from_args", "model/serialization/__init__.py:get_boardsizes_from_args", "model/serialization/__init__.py:build_serializer", "export.py:make_onnx_model_version", "export.py:parse_onnx_model_version", "export.py:export_serialization"]}
{"id": "C50", "title": "A failed weight export leaves the previous file", "statement": "At every moment of a weight export - also after an argument error, a failing serializer half-way through, a kill or a full disk after any file operation - every file except output.tmp is what it was before, until the last step of a successful export puts the complete new file at the output path. A leftover temporary file does not influence the next export, and a successful one leaves none. (The ONNX and torch-jit exports do not have this property; proved for ONNX.)", "quantifier": "every crash or failure point, every serializer behaviour, every initial directory", "why_tests_cant": "crash points between file operations cannot be enumerated by tests", "anchors": ["export.py:export_serialization", "export.py:export_onnx"]}
{"id": "C51", "title": "Exported feature tables hold the network's features", "statement": "Exporting a mix model evaluates the learned line mapping once for every possible line and stores the result in a table. Looking up any window (any position of any line, or any point and direction of any board, for the newer models through the same line encoding the data pipeline computes) yields exactly the feature the mapping computes there; no two different windows share an entry, no index leaves the table, unused entries stay zero, and the export batch size does not matter.", "quantifier": "all line lengths (radius h; h <= 8 for the encoded tables), all mappings that depend on the window only, all batch sizes, all lines and boards, all orders of writes", "why_tests_cant": "4*3^11 entries written by 6+5+25 loops with different offsets; a wrong entry shows up only as slightly worse play on rare windows near a border", "anchors": ["model/serialization/mixnet.py: generate_base3_permutation, _export_map_table, _export_feature_map"]}
{"id": "C52", "title": "Exported features survive clipping, rounding and packing", "statement": "The feature table is clipped, rounded to 1/32 and packed as 10-bit fields into a little-endian stream of 64-bit words. Reading field i back with sign gives exactly the i-th quantised feature for every table size; the stream has the minimal number of words; rounding is to the nearest representable value with ties to even, saturates outside [-16, 511/32], and is monotone.", "quantifier": "all lists of values, all field widths 1..64, all rational features", "why_tests_cant": "fields straddle word boundaries in a pattern with period 32; an off-by-one at one boundary (for example exactly 64 used bits) corrupts everything after it", "anchors": ["model/serialization/mixnet.py: write_feature_map_compressed, _export_feature_map"]}
{"id": "C53", "title": "A combined map-style data set is the concatenation of its children", "statement": "The multi data set has the summed length; sample i (counting from 0) is sample i of the concatenation of the children, and an index past the end raises IndexError. The reference used for deterministic per-sample randomness names the child and the position inside it, and different samples never share a reference. Negative indices are not supported: they land in the first child.", "quantifier": "all numbers and sizes of children (also empty ones), all indices", "why_tests_cant": "off-by-one errors show only at the seams between children and with empty children", "anchors": ["dataset/__init__.py: MultiDataset.__len__, __getitem__, map_record_ref"]}
{"id": "C54", "title": "Blend ratios become exact, smallest integer weights", "statement": "Every list of positive finite decimal blend ratios whose reduced denominators are at most a million is turned into positive integers in exactly the same proportions, and these are the smallest such integers; every other list (not finite, not positive, too fine) is refused with ValueError. No rounding happens.", "quantifier": "all lists of decimal ratios", "why_tests_cant": "floating-point ratio arithmetic looks right on simple ratios; exactness and minimality are statements about all decimals", "anchors": ["dataset/__init__.py: MultiIterativeDataset._integer_ratio_weights"]}
{"id": "C55", "title": "Splitting an npz file loses and duplicates nothing", "statement": "npzsplit writes the requested number of files with pairwise different names (never the input's); every kept array is dealt out so that over all files each row occurs exactly as often as in the input, file sizes differ by at most one row, and rows with the same number in different arrays stay together, also when shuffling. Arrays shorter than the number of files are refused before anything is written. A negative number of files is accepted and writes nothing.", "quantifier": "all sets of arrays, excluded keys, numbers of files, permutations", "why_tests_cant": "alignment of parallel arrays under shuffling and uneven division has to hold for every length and every drawn permutation", "anchors": ["tools/npzsplit.py: npz_split"]}
{"id": "C56", "title": "Ranks resume from states that belong together", "statement": "When a training checkpoint is resumed, the per-rank continuation states are accepted exactly if there is one for every rank of the job, each is undamaged (its digests fit its contents), declares a known cursor and all carry the same rank-independent digest; they are then put in rank order whatever order they were saved in, and each rank continues from its own. Accepted ranks agree on whether they can continue, on the data stream, on the cursor kind, on the shared stream position (or the sampler but for the rank) and on the quantiser schema, unless the digest collides. What the ranks of one run save is always accepted. Checkpoints of the old format pass unchanged; old and new states are never mixed, and another number of ranks is refused.", "quantifier": "every number of ranks, every list of states (any Python values), every order of gathering, every digest function", "why_tests_cant": "the damage, the order and the contents of states are unbounded; tests try a few corruptions", "anchors": ["trainer/base.py:_validate_rank_resume_states", "trainer/base.py:_global_resume_projection", "trainer/base.py:_local_resume_state", "trainer/base.py:resume selection"]}
{"id": "C57", "title": "A failure on one rank stops every rank, and none is left waiting", "statement": "In a distributed job, when a hook, a step, a dataset call, a batch fetch, an evaluation loader or a phase of saving fails on any rank, all ranks raise the same exception, which lists exactly the ranks that failed with what they reported, and no rank is left waiting in a collective that another rank never enters; if nothing fails anywhere all ranks go on. Ranks that must agree on a value (stream cursor, token, metric names) all stop if they do not. In an evaluation with unequal shares all ranks make the same number of steps: each gets all of its own batches and then, while another rank still has some, repetitions marked so that they are not counted.", "quantifier": "every number of ranks, every combination of outcomes on them, every number of micro-steps, every share of batches and limit", "why_tests_cant": "tests run one or two ranks with one injected failure; a hang depends on the combination of what all ranks do", "anchors": ["trainer/base.py:_synchronize_phase_errors", "trainer/base.py:_run_synchronized_operation", "trainer/base.py:_collective_dataset_call", "trainer/base.py:_fetch_batch", "trainer/base.py:_run_train_step", "trainer/base.py:_synchronize_step_validity", "trainer/base.py:_iter_collective_safe_batches", "trainer/base.py:_save_checkpoint"]}
{"id": "C58", "title": "Checkpoints are step boundaries", "statement": "However the training is interrupted - exceptions in fetching, stepping, the optimizer, logging, validation, profiling or saving, interrupts between steps, kills - and however often it is resumed from any checkpoint with a training state, every checkpoint ever written is exactly the state after some whole number n of undisturbed steps: iteration n, the rows of n steps, the weights, optimizer and generators after n steps, and the data cursor after the batches of n steps. Two checkpoints of one iteration agree, and a run that returns after resuming ends in the same state as one that was never interrupted.", "quantifier": "every step function, data stream, configuration, number of processes in the history, and point of failure in each", "why_tests_cant": "tests inject a failure at a few points; the claim is about every combination of failure points, intervals and resumes", "anchors": ["trainer/base.py:run", "trainer/base.py:_run_train_step", "trainer/base.py:_save_checkpoint", "trainer/base.py:_drain_pending_step_validity"]}
{"id": "C59", "title": "No checkpoint after a non-finite step", "statement": "A checkpoint that is written follows only steps whose losses and gradients were all finite, although the check of a step may be read one step late; and a run that returns has seen every check succeed. Exception (refuted): an interrupt between two steps while the last check is still pending saves the state of an unchecked step.", "quantifier": "every step function and pattern of non-finite steps, every configuration of intervals, with deferred or immediate checks, every history of resumes", "why_tests_cant": "the delay of the check interacts with save, validation and interrupt points in unboundedly many ways", "anchors": ["trainer/base.py:run", "trainer/base.py:_enqueue_step_validity", "trainer/base.py:_drain_pending_step_validity"]}
{"id": "C60", "title": "A run that returns has saved what was due", "statement": "When training returns, it has made exactly the steps asked for; the final state is on disk and can be resumed; every iteration at which a save was due since the process started has its checkpoint, with training state if that was due too. If all operations succeed, interrupts between steps lose nothing: the last completed step is on disk with its training state, and without an interrupt the run returns.", "quantifier": "every configuration of intervals, starting point, and schedule of interrupts", "why_tests_cant": "needs every combination of intervals, and interrupts at every point between steps", "anchors": ["trainer/base.py:run", "trainer/base.py:_is_save_iteration", "trainer/base.py:_save_checkpoint"]}
{"id": "C61", "title": "What the training log averages", "statement": "Each log entry of an iteration averages whole consecutive steps ending with that iteration, beginning after the last iteration that was logged or shown (or where the process started); a run that returns has exactly one entry per iteration that was due. If everything shown is also logged, the entries together cover every step. Refuted otherwise: showing starts a new average, so steps are left out.", "quantifier": "every pair of intervals, starting iteration and failure", "why_tests_cant": "depends on the arithmetic of two arbitrary intervals over arbitrarily long runs", "anchors": ["trainer/base.py:run", "trainer/base.py:_gather_train_metrics", "trainer/base.py:_log_metrics"]}
{"id": "C62", "title": "katago_numpy loads the positions of its files", "statement": "For files of one board format (side at least 4, with one or at least six global features), the data set has exactly those positions that the side filter, the filter condition and the accepted board sizes let through, in the order of the files and of the rows in them; the stones, board size, side to move, value target and policy target of each are read off the bits and numbers that the file stores for that position; and if none is left, construction fails.", "quantifier": "every list of files, every number of positions, every packed bit, global feature, target and policy, every filter and value level", "why_tests_cant": "tests build a few files; the claim is about every bit of every position, every filter combination and every split into files", "anchors": ["dataset/katago.py:KatagoNumpyDataset", "dataset/katago.py:_unpack_board_feature", "dataset/katago.py:_unpack_data"]}
{"id": "C63", "title": "The two processed KataGo data sets give the same rows", "statement": "processed_katago_numpy and the per-file loading of its iterative variant each give exactly the rows of the files of accepted board sizes whose side to move and filter condition are wanted, with the selected channels, in file order: where both accept the files they agree row by row, and the first accepts all files the second accepts, if a file is wanted and the wanted files have the same arrays with the same row shapes. Refuted: that both refuse files whose arrays have different numbers of rows.", "quantifier": "every list of files, contents, filters, conditions that look at one row at a time, and channel selections", "why_tests_cant": "an equivalence of two loaders over all files and options cannot be sampled", "anchors": ["dataset/katago.py:ProcessedKatagoNumpyDataset", "dataset/decoder.py:_load_uncached"]}
{"id": "C64", "title": "Every optimizer step is the AdamW update", "statement": "After any history of steps, loaded states and added groups, a MultiTensorAdamW step succeeds, gives every parameter that has a gradient exactly the AdamW update for its own step count and its group's hyperparameters (moments start at 0), counts it, and changes nothing else in memory or state; so the result does not depend on which parameters go through the fused kernel, on the order in which its lanes run, on the block size or on what is cached. This needs that written tensors do not overlap, that a parameter does not move while all gradients of its group stay, and that maximize does not change after the first step; both last conditions are refuted to be unnecessary.", "quantifier": "every number of groups and parameters, shape, stride, memory content, set of parameters with gradients at each step, addresses at each step, and order of the kernel's lanes", "why_tests_cant": "tests compare a few steps on a few tensors; the claim is about every layout, every history of moving gradients and every interleaving of lanes", "anchors": ["utils/fused_adamw.py:MultiTensorAdamW.step", "utils/fused_adamw.py:MultiTensorAdamW._launch_plan", "utils/fused_adamw.py:MultiTensorAdamW._partition", "utils/fused_adamw.py:_flat_layout", "utils/fused_adamw.py:_multi_tensor_adamw_kernel"]}
{"id": "C65", "title": "Each fused kernel reads the gradient addresses of its own step", "statement": "However far the device is behind the host and however many steps raised before their launch, each AdamW kernel reads the table of gradient addresses of its own step; the host never overwrites a staging buffer that a queued upload has still to read; and a step waits only for work that was queued before the last but one change of the addresses.", "quantifier": "every sequence of steps with moved or unmoved gradients, failing steps, other work in the stream, and every progress of the device", "why_tests_cant": "the interleavings of host and device cannot be enumerated by tests, and races show rarely", "anchors": ["utils/fused_adamw.py:_LaunchPlan.refresh_grad_pointers", "utils/fused_adamw.py:_LaunchPlan.mark_launched", "utils/fused_adamw.py:MultiTensorAdamW.step"]}
{"id": "C66", "title": "A chained optimizer updates each parameter once per step with its own optimizer", "statement": "After any history of steps, rate changes and added groups, a step of the chained optimizer updates every parameter of its groups that has a gradient exactly once, by the rule of the first optimizer whose filter accepts it, with the current rate of its group, that optimizer's weight decay, its own gradient (computed once, before any update) and its own optimizer state, and touches nothing else. Only a group with a parameter that is already there is refused, without effect. A saved state loads into any optimizer built with the same groups, which goes on alike. Construction succeeds exactly if no parameter is in two groups, each has an optimizer, and each optimizer has a parameter. Several initial groups do not keep their rates, and a group with a parameter that no optimizer accepts ruins the optimizer (both refuted).", "quantifier": "every list of filters, every update rule, every history of steps, rate changes, added groups, save and load", "why_tests_cant": "tests try single splits; the claim is about all filters, histories and update rules", "anchors": ["utils/chained_optimizer.py:ChainedOptimizer", "utils/training_utils.py:_make_muon_adamw"]}
{"id": "C67", "title": "Validation reports the loss that training would report on the real rows", "statement": "However the rows of a global batch are split among ranks and padded, validation reports exactly the named losses (total, auxiliary, distillation and regularization losses included) that training would compute on the real rows taken together, with or without a teacher; so neither the split nor the padding rows show. A model with a plain-tensor auxiliary loss cannot be validated, and a value loss kind that training rejects is evaluated as cross entropy (both refuted).", "quantifier": "every loss kind and weight, every set of auxiliary losses, every mask, split and padding, with and without a teacher", "why_tests_cant": "tests compare a few batches on one process; the claim is about all splits, paddings and kinds of losses", "anchors": ["trainer/loss/supervised.py:compute_supervised_losses", "trainer/loss/supervised.py:compute_supervised_loss_statistics", "dataset/core.py:SufficientStats"]}
{"id": "C68", "title": "What is outside the board has no influence on the loss", "statement": "If the model gives a board mask, then whatever the policy heads, the policy target and the teacher say outside the board changes neither the training losses nor the validation statistics nor the errors.", "quantifier": "every mask, every pair of outputs and targets that agree on the board, every loss kind and auxiliary loss", "why_tests_cant": "tests change single cells; the claim is about all cells, masks and losses", "anchors": ["trainer/loss/utils.py:prepare_policy", "trainer/loss/supervised.py:policy_reg_loss", "trainer/loss/supervised.py:_compute_loss_terms"]}
{"id": "C69", "title": "The total loss is the weighted sum of the reported losses", "statement": "Without a teacher the total is the sum of the reported losses with their configured weights. With a teacher, losses against the teacher count alpha T^2, the same losses against the data count 1 - alpha, and losses that compare with no target count once; with alpha = 0 the total is the one without a teacher. The reported names are exactly the configured ones.", "quantifier": "every configuration with distinct loss names, every batch", "why_tests_cant": "tests check single configurations; the claim is about all weights, kinds and auxiliary losses", "anchors": ["trainer/loss/supervised.py:compute_supervised_losses", "trainer/loss/supervised.py:_apply_aux_losses", "trainer/loss/supervised.py:_sum_terms"]}
{"id": "C70", "title": "Ranks hold the same codebook and never wait for each other in vain", "statement": "Starting from the same codebook, after any sequence of training forwards on the ranks' own batches (of any sizes), optimizer updates and restarts, no forward fails or leaves a rank waiting at a collective operation that others do not reach, and all ranks have the same codebook, averages and cluster sizes and become initialised at the same forward.", "quantifier": "every number of ranks, batches of every size, sampled rows, search function and history of forwards, updates and restarts", "why_tests_cant": "tests run one or two processes for a few steps; the claim is about all numbers of ranks, batches and histories", "anchors": ["model/vq.py:VectorQuantize.forward", "model/vq.py:VectorQuantize._accumulate_input_batch", "model/vq.py:kmeans", "model/vq.py:sample_vectors"]}
{"id": "C71", "title": "The codebook is trained on the rows of all ranks together", "statement": "After any history, codebook, averages and cluster sizes are those of k-means and exponential moving averages over all rows of all ranks; sizes are never negative and never all zero. Where no code expires, several ranks train exactly as one process does on the concatenated batches.", "quantifier": "every number of ranks, batches, decay, history, with and without moving-average updates and cosine similarity", "why_tests_cant": "tests compare single steps; the claim is about all histories and splits", "anchors": ["model/vq.py:VectorQuantize._update_ema", "model/vq.py:ema_inplace", "model/vq.py:VectorQuantize.forward"]}
{"id": "C72", "title": "Exactly the codes below the threshold are replaced", "statement": "At every training forward of an initialised module, each code whose cluster size relative to the mean is below the threshold is replaced by a row of the current batches, with the configured size and the matching average, and no other code is; bounds remembered from earlier forwards never hide an expired code.", "quantifier": "every history (so every remembered bound), threshold, decay, number of ranks and batch", "why_tests_cant": "the remembered bounds depend on the whole history; tests try short ones", "anchors": ["model/vq.py:VectorQuantize._expire_codes", "model/vq.py:VectorQuantize._update_ema", "model/vq.py:VectorQuantize._invalidate_dead_code_cache"]}
{"id": "C73", "title": "k-means starts from the first samples of every rank, and restarts do not matter", "statement": "An uninitialised module keeps its codebook and collects exactly the first target rows each rank sees, until the first forward at which all ranks have them; then k-means runs over those rows. Saving at any point and loading into new modules changes neither the pending rows nor anything later.", "quantifier": "every sequence of batches on every rank, every restart point", "why_tests_cant": "tests try single splits; the claim is about all batch sizes and restart points", "anchors": ["model/vq.py:VectorQuantize._accumulate_input_batch", "model/vq.py:VectorQuantize._init_embed", "model/vq.py:VectorQuantize._vq_init_continuation_state", "model/vq.py:VectorQuantize._load_vq_init_continuation_state"]}
{"id": "C74", "title": "An engine computes from the exported file what the quantised network computes", "statement": "For FlatSquare7x7 v2, v3 (8-bit and 4-bit features), v4 and v4VQ and FlatLadder7x7 v1, v2: a program that only knows the documented struct layout, looks up table rows by the base-3 code of each chunk of the board (of its lower triangle for ladders) and evaluates integer layers gets, for every 7x7 board, exactly the network's value outputs in units of 2^-14, with zeros for the outputs that the network does not have.", "quantifier": "every network (mapping, weights, biases, codebook, number of features), batch size of the export and every 7x7 board", "why_tests_cant": "3^49 boards and all weights; tests compare a few random boards of one seed", "anchors": ["model/serialization/flatnet.py:FlatSquare7x7NNUEv4Serializer", "model/serialization/flatnet.py:FlatSquare7x7NNUEv4VQSerializer", "model/serialization/flatnet.py:FlatSquare7x7NNUEv2Serializer", "model/serialization/flatnet.py:FlatSquare7x7NNUEv3Serializer", "model/serialization/flatnet.py:FlatLadder7x7NNUEv1Serializer", "model/serialization/flatnet.py:FlatLadder7x7NNUEv2Serializer", "model/flatnet.py:FlatSquare7x7NNUEv4.forward", "utils/quant_utils.py:fake_quant", "model/layers/linear.py:LinearBlock"]}
{"id": "C75", "title": "Integer inference on an exported file never overflows", "statement": "On every board, the sums of the table rows of v4 and v4VQ stay within 16 bits after any number of rows, and in every layer of an exported network with biases up to 1000 in magnitude and at most 65536 inputs, the accumulator stays within 32 bits whatever the order of additions.", "quantifier": "every exported file, board, prefix and order of the additions", "why_tests_cant": "the extremes occur on no test board", "anchors": ["model/serialization/flatnet.py:_export_square_value", "model/serialization/flatnet.py:FlatSquare7x7NNUEv4Serializer"]}
{"id": "C76", "title": "The value does not depend on the orientation of the board", "statement": "FlatSquare7x7 v4, v4VQ and FlatLadder7x7 v1, v2 give the same value on a board and on the board rotated by any multiple of 90 degrees; FlatLadder7x7 v1 also on the mirrored board, whatever the learned mappings are.", "quantifier": "every mapping, quantizer, layers, board and rotation", "why_tests_cant": "it depends on the tables of slices and rotations matching for all cells; tests sample boards", "anchors": ["model/flatnet.py:FlatSquare7x7NNUEv4.get_features", "model/flatnet.py:FlatLadder7x7NNUEv1", "model/flatnet.py:FlatLadder7x7NNUEv2"]}
{"id": "C77", "title": "Exactly the representable networks can be exported", "statement": "The export of a square network succeeds if and only if every weight of the first value layer lies in [-257/512, 255/512), and otherwise stops with AssertionError; weights within v3's clipping limits always do. The export of a ladder network succeeds if and only if every weight of its four value layers lies strictly between -129/128 and 1.", "quantifier": "every network, including weights at ties of the rounding", "why_tests_cant": "tests export freshly initialised networks, whose weights are small", "anchors": ["model/serialization/flatnet.py:_export_square_value", "model/flatnet.py:FlatSquare7x7NNUEv3.weight_clipping", "model/flatnet.py:FlatValueModel.weight_clipping"]}
{"id": "C78", "title": "The exported integers of Mix9 compute what the quantised network computes", "statement": "For Mix9 and Mix9s with dynamic or static policy convolution, star blocks, plain blocks or no value groups, and depthwise biases within 64: an engine that only has the exported integers (table entries of the directional features, 16-bit depthwise weights, 8-bit layers) and uses integer products, shifts, saturation and averages rounding up gets for every board size the network's features in units of 1/128, its three value outputs in units of 2^-14, and its policy from sixteen integers in units of 2^-21 per cell.", "quantifier": "every network, every board size, all directional features", "why_tests_cant": "real-valued weights and features of any magnitude; tests compare a few random boards of fresh weights, which never saturate", "anchors": ["model/mixnet.py:Mix9Net.get_feature", "model/mixnet.py:Mix9Net.forward", "model/mixnet_components.py:QuantizedHeadMixin", "model/ops/aggregation.py:quantized_avg4", "model/layers/star.py:StarBlock", "model/serialization/mixnet.py:Mix9NetSerializer"]}
{"id": "C79", "title": "The nine value regions partition every board evenly and symmetrically", "statement": "On a board of any size each cell belongs to exactly one of the nine regions; the regions are three bands by three bands of which the outer two are equal and the middle one differs by at most one; mirroring or transposing the features permutes the nine quantised sums, corners to corners and edges to edges.", "quantifier": "every board size, including sizes below three, and all features", "why_tests_cant": "all sizes and remainders; tests use a few sizes", "anchors": ["model/ops/aggregation.py:split_3x3_regions", "model/ops/aggregation.py:quantized_sum_3x3_regions"]}
{"id": "C80", "title": "When the exported depthwise convolution fits 16 bits", "statement": "The exporter's overflow check accepts every network, including one whose convolution leaves 16 bits; if 8176 times the sum of a channel's absolute exported weights is at most 65536 times (32758 minus its absolute bias), the accumulator stays within 16 bits after every tap on every board.", "quantifier": "every network, board and prefix of the taps", "why_tests_cant": "the extreme features occur in no test; the check looks as if it guarded them", "anchors": ["model/serialization/mixnet.py:Mix9NetSerializer._export_feature_dwconv", "model/mixnet.py:Mix9Net.get_feature"]}
{"id": "C81", "title": "Which integer accumulators of Mix9 need which widths", "statement": "On boards of up to 65536 cells all sums of features fit 32 bits; the star blocks' sums of two byte products always fit 16 bits, so a saturating instruction computes them exactly; a policy row whose absolute exported weights times 32767 plus its absolute bias stay below 2^31 fits 32 bits in every order of additions, but an exported network can leave 32 bits.", "quantifier": "every exported network, board, features and order of the additions", "why_tests_cant": "the extremes occur in no test, and float32 inference does not overflow", "anchors": ["model/layers/star.py:StarBlock", "model/ops/aggregation.py:sum_3x3_regions", "model/mixnet_components.py:QuantizedHeadMixin._forward_quantized_policy"]}
