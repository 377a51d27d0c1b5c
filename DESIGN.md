# Formal model of dhbloo/pytorch-nnue-trainer in Rocq (Coq 8.16.1)

Everything is in `rocq/theories`. `X.v` models code, `XSpec.v` holds the vocabulary in which the
properties are stated, `XFacts.v` etc. are proofs, `Prop_X.v` has the property theorems
(`Cnn_...`), each followed by `Print Assumptions` and by an `Example` that meets its hypotheses.
`properties.jsonl` has the English, `MANIFEST.json` the theorem names.

## 1. Method

* Shallow embedding: each modelled Python or C++ function is a total Gallina function. Exceptions are
  values (`res A := Ok a | Err e`, `Base.v`), mutation is state passing, Python `int` is `Z`, lengths and
  list indices are `nat`, machine-word arithmetic is written out (`mod 2^64`).
* Every definition cites file and lines in /repo and states what it leaves out.
* Rejection-sampling loops are total: they recurse on a binary counter covering all 2^63 remaining RNG
  counters, so no fuel runs out before the code itself raises. Other loops have a proved measure;
  `OutOfFuel` is proved unreachable under the hypotheses of the theorems that mention the loop.
* Concurrent code (prefetcher, asynchronous writer, checkpoint crashes) is a transition relation; theorems
  quantify over all reachable states.
* A property that is false of the code is stated as the user would expect it, its negation is proved under a
  name ending in `_refuted`, and the strongest true version is proved beside it (section 5).

## 2. Trusted base

1. Coq 8.16.1's kernel (including `vm_compute`, used in examples only, and in closed computations on
   constants), and the correspondence between the Gallina definitions and the cited lines, which is by
   reading, not by extraction or execution.
2. `Print Assumptions` says "Closed under the global context" for every theorem listed in MANIFEST.json
   (ASSUMPTIONS.txt has the output, one line per theorem): no axiom is used anywhere, neither ours nor the
   standard library's. (`vcheck` lists `Coq.ssr.ssrunder.Under_rel.*` as library axioms: those are
   fields of an opaque module of the ssreflect plugin loaded through libraries; no theorem depends on them.)
3. No Admitted, no Variable/Hypothesis outside sections, no module types, no kernel flags.
4. Parameters over which theorems quantify universally, i.e. nothing is assumed about them unless a
   theorem's hypotheses say so: blake2b (`hash64`), SHA-256 digests, `torch.randperm` (only: a
   permutation), record decoding, JSON text of floats, the filter parser and NumPy operators, finalizers of
   metrics, torch.save/load serialisation, scheduling of threads, streams and ranks.

## 3. What is modelled, what is not

| Part of /repo | Model | Not modelled |
|---|---|---|
| dataset/core.py: keyed RNG, permutations, sampling, state codec, SumCount/Maximum/SufficientStats | Rng, StateCodec, Json, Metrics | field schemas, sample dictionaries, manifest text |
| dataset/shuffle.py | Reservoir | `__repr__`, type annotations |
| dataset/packed.py, planner_cpp/packed_shuffle.cpp | PackedReservoir, PackedState | build of the extension, GIL, memory reclamation of the ready buffer |
| dataset/source.py, composite_source.py | Source, Composite | digests, materialize_batch, close_cursor |
| dataset/npz_source.py | Npz | array decoding, manifest_state, prefetch of files |
| dataset/sequential_source.py | Sequential, SequentialShard | paths and stat; the non-raw mode (unused by the repository) |
| dataset/planner.py | Planner, PlannerFeed, PlannerPacked, Transactions | telemetry; object state after an exception |
| dataset/source_dataset.py | Prefetch | decoding itself (a function of the batch slice) |
| dataset/stream.py | through Planner (evaluation mode) | torch DataLoader |
| dataset/simple_binary.py, packed_binary.py | Codec | construction of the sample tensors beyond what C24 uses |
| dataset/pipeline/__init__.py, symmetry handling of readers | Symmetry | — |
| dataset/pipeline/line_encoding.py, line_encoding_cpp/line_encoding.cpp | LineEncoding | array dtype and layout checks, encoder cache, int8 cast of the board |
| dataset/pipeline/forbidden_point.py, forbidden_point_cpp/* | Forbidden | array dtype and layout checks; boards with more than two channels |
| dataset/decoder.py 452-905 (row and batch decoding of processed NPZ files), core.py 462-672 (per-row symmetry draws) | Decoder | dtypes and casts; the several-path branch of _decode_loaded_batch (815-839, 856-867), which no caller reaches; arrays are lists of rows; filters and channel selection are C37's and NpzBuild's |
| dataset/decoder.py 63-102, 346-412 (array cache) | NpzCache | file reading itself (an outcome chosen by the schedule); asynchronous exceptions inside a locked block; spurious wake-ups; the counters of telemetry.py 495-533 |
| dataset/core.py 99-111, 113-166 (use of the specs), 1407-1804 (pipeline composer) | FieldDigest, Composer | numpy on lists (an abstract asarray), row equality, the hash function (all abstract); complex, string and structured dtypes; dictionaries with keys other than str; values are snapshots before and after each call |
| dataset/telemetry.py 97-161, 684-969, 1030-1034, 1152-1194; dataset/katago.py 912-944; trainer/base.py 4339-4352 (autotuner) | Autotune | the float arithmetic on the metrics (its tests are free), texts of reasons, wall-clock times and the run record; the profile cache answers freely |
| dataset/telemetry.py 971-994, 997-1137 (observed prefetching, decode gate) | Observed | the counters; locked blocks and the code between two control points of the iterator are one step; the executor is a FIFO queue with a number of threads |
| dataset/telemetry.py 548-622 (profile cache) | ProfileStore | programs over single file operations with any interleaving, failing operations and kills; the choice of the directory (537-545); json is an arbitrary parse/render pair with parse (render r) = r for the records saved; a directory listing and one file operation are atomic, writing is not |
| utils/training_utils.py 340-758 (CUDA loaders) | DeviceLoader | telemetry, event timing, non-CUDA wrappers; one compute stream; kernels only read batch tensors; host memory of the static wrapper is not reused before its copy has run (torch's pinned-memory allocator) |
| dataset/filter.py | Filter | the parser and the operators (parameters) |
| utils/training_utils.py: ResumableSampler | Sampler | the rest of that file |
| utils/file_utils.py | Checkpoint | safetensors/torch formats (injective encodings as parameters) |
| trainer/base.py: saving, pruning, resuming | CheckpointSet | optimizer contents, logging |
| utils/async_checkpoint.py | AsyncWriter | KeyboardInterrupt, allocator |
| utils/misc_utils.py: deep_update_dict | ConfigMerge | other helpers |
| trainer/base.py: evaluation reduction | Metrics | VQ perplexity, logging |
| export.py 185-211, 214-270, 273-341; model/serialization/__init__.py (export arguments, masks, headers, files) | Export | what the tensor library, onnx, onnxslim, lz4 and the serializers write (arbitrary bytes and outcomes); devices; printing; file buffering (every write reaches the file at once) |
| model/serialization/mixnet.py 13-20, 90-149, 478-540, 891-948, 1559-1612, 1894-1914, 2155-2217, 2450-2499, 2653-2673 | FeatureTable | the network itself (an arbitrary mapping), scaling and overflow checks of mix6-mix8, the remaining weights of the file |
| dataset/__init__.py 107-140 (multi), 231-252 (blend weights); tools/npzsplit.py | DataMix | child construction and option checks of build_dataset; numpy file formats; the random permutation (any permutation); output shapes in references |
| trainer/base.py 1478-1511, 1593-1695, 2261-2331 (rank continuation states) | Resume | SHA-256 is an arbitrary function; what the cursor, the coordination state and the random states contain; error texts |
| trainer/base.py 565-608, 1957-2092, 2149-2177, 3461-3601 (several processes, or nothing deferred), 3670-3958, 4219-4316, 4905-5047: the order of collectives | Collective.v | what the ranks compute (hooks, passes, file operations appear as their outcome, which may differ from rank to rank); a rank that dies without an exception; the transport of the messages |
| the training loop (`trainer/base.py` 3987-4126, 3603-3668, 1738-1748, 3707-3958, 1957-2092) | TrainLoop.v | what a step computes (any function), the contents of validation, log and profiler output (any function of the state and the iteration), the asynchronous writer (C23) and the collectives (C55-C57); exceptions may come at the named points only, not between two arbitrary byte codes |
| KataGo data sets (`dataset/katago.py` 69-255, 391-547; `dataset/decoder.py` 121-193) | Katago.v | dtypes, `np.load`, what a filter condition computes (C28), board transformations (C18, C43), file digests |
| Fused AdamW (`utils/fused_adamw.py` 65-172, 306-533) | AdamW.v | rounding (exact field arithmetic), amsgrad, closures, the conversion of the step count in state dicts, several devices |
| Gradient address ring (`utils/fused_adamw.py` 175-237, 471-533) | AdamWRing.v | other CUDA streams, half-finished copies |
| Chained optimizer (`utils/chained_optimizer.py`) | Chained.v | the rules of the sub-optimizers (any function of rate, decay, gradient, state and value), casts of a loaded state, the selection callback |
| Supervised loss in training and validation (`trainer/loss/supervised.py`, `trainer/loss/utils.py`, `dataset/core.py` 815-1403) | Loss.v | what torch computes of a row (softmax, soft-label cross entropy, huber: any functions), VQ losses, gradients, rounding, the composed keys of statistics |
| Vector quantization in training (`model/vq.py` 227-304, 363-481, 506-859, 923-1120) | Vq.v | gradients, losses, outputs, evaluation statistics, rounding and dtypes, the check of the first forward, the search itself (any function; the samples drawn and the codes found are given), product quantization, validation of restored samples |
| Flat 7x7 networks and their exports (`model/flatnet.py` 17-24, 103-320, 937-1372, `model/serialization/flatnet.py` 19-825, `model/layers/linear.py` 71-88, `utils/quant_utils.py` 4-18, `utils/misc_utils.py` 144-147) | FlatNet.v | the learned mapping of chunks (any function; for ladders the convolutions as far as they decide which cells matter), policy heads, gradients, histograms, rounding of float32 sums, half precision (F48), FlatNNUEv1, hash and v1 networks |
| Quantised part of Mix9 and Mix9s and its export (`model/mixnet.py` 470-577, 640-735, `model/mixnet_components.py` 108-262, `model/ops/aggregation.py`, `model/ops/dynamic.py`, `model/layers/star.py`, `model/layers/convolution.py` 201-247, `model/serialization/mixnet.py` 1592-1730) | QuantHead.v | the convolutions of the mapping (directional features are any numbers), gradients, the order in which the arrays are written, hash, rounding of float32 sums in the policy head, vector quantization of Mix9sVQ |

Abstractions that matter when reading the theorems:

* Child sources of the composite source and of the planner are any sources meeting the contract `serves`
  (`serves_packed` for packed ids): from a cursor a definite list of records is still to come. C12 and C15
  prove that the NPZ and sequential sources meet it, C10 that the composite source does.
* The planner is proved over an abstract `feed` (PlannerSim.v); PlannerFeed.v and PlannerPacked.v prove the
  contract for the two feeds of the code.
* Disk (Checkpoint, CheckpointSet): a map from path to content; a write is visible partially at every
  prefix, `os.replace` is atomic, a crash may happen between any two operations; power loss without fsync
  ordering is not modelled. File names are ASCII.
* Asynchronous writer: device and copy streams execute kernels and copies in order and independently, waits
  on events are modelled; a finalizer may fail at any time.
* Config merge works on a heap of dictionaries with aliasing.
* Metrics: ranks execute collectives in lock-step, arithmetic is exact (rationals) where the theorem says
  so; a binary32 counterexample shows where it matters. int64 overflow of counts is ignored.
* JSON: no recursion limit; strings are code-point lists; UTF-8 written out.

## 4. Properties, models and proofs

| Id | Model | Proof idea |
|---|---|---|
| C01-C04 | Reservoir | invariant over operation lists; emitted ++ resident is a permutation of offered; chunking by splitting the operation list; restore is a left inverse of state |
| C05 | PackedReservoir | forward and backward simulation with the Python model; ready buffer refines a FIFO |
| C06-C08 | Rng | Fisher-Yates loop invariant; prefix-freeness by induction on keys; counting accepted values per residue; splitmix as composition of bijections |
| C09, C10, C34 | Composite | scores of smooth weighted round robin stay bounded and return to zero; the stream as a function of the children's streams; cursor round trip |
| C11-C13, C35 | Npz | prefix sums and bisect; the delivered stream equals a filter of the schedule; key injectivity through C07 |
| C14-C16, C36 | Sequential, SequentialShard | greedy load balance invariant; measure of the reading loop; per-file remaining records; digest injectivity |
| C39 | SequentialTurns | inductive specification of taking turns; simulation of the reading loop; the specification is deterministic |
| C17-C19 | Planner, PlannerSim, PlannerRun | the planner simulates a list machine; batches are consecutive parts of the per-shape queues |
| C20 | Transactions | all histories over fetch, commit, fail, rollback, restart, next epoch: invariant linking published batches with the uninterrupted run |
| C21, C37 | PlannerResume, PackedState | restore . state = id on reachable states; determinism |
| C22 | Prefetch | transition system of iterator, workers, consumer; simulation by synchronous iteration; progress |
| C23 | Sampler | all histories of the sampler; strided shares partition the permutation |
| C24 | Symmetry | coordinate algebra of the eight symmetries on moves, planes and boards |
| C25, C26 | Codec | bit-field arithmetic; induction over entries of a file; an independent arithmetical encoder is the specification |
| C27, C28 | Checkpoint | crash at any point of the operation list; maximum over directory listings |
| C29 | AsyncWriter | transition system, invariant over all interleavings; log properties |
| C30 | Json, StateCodec | structural induction; canonical form |
| C31 | Metrics | sums over ranks and batches; exact rationals |
| C32 | Filter | induction on the syntax tree with a trace of effects |
| C33 | ConfigMerge | heap model with reachability |
| C38 | CheckpointSet | invariant over histories of saves, crashes, pruning and resumes |
| C40 | LineEncoding | base-3 value of the digit string; walls can be read back off the digits (injectivity); bit-level invariant of the 64-bit keys and of their rotation; induction over the flag-filling recursion |
| C41 | Forbidden | the rules on an unbounded plane (ForbiddenSpec); every walk of the board class computes the ends of the row through the point; induction on the number of empty points for the recursion; invariance under signed permutations |
| C42 | DeviceLoader | three agents (main thread, copy stream, compute stream) as a transition system; invariants over the histories of both streams; progress by draining; the allocator may reuse any memory its rules allow |
| C43 | Decoder | columns as lists of rows; the vectorised swap, symmetry and scatter steps proved equal to a map over rows (agree-on-a-set invariant for scatter into np.empty memory); groups of files by a cover argument; splitmix and hash streams proved per-row |
| C44 | NpzCache | calls as a transition system, one step per locked block; invariant tying the loading set to the calls that read; provenance over the schedule; explicit bound n*n+5n on steps; eviction loops equal the longest suitable end of the recency order |
| C45 | FieldDigest, Composer | pipelines as arbitrary state-changing functions; what one stage may do as a relation (ComposerSpec); the digest feed proved injective on values without dictionaries (unique parsing); blobs through C30's codec |
| C46 | Autotune | the controller as a function of arbitrary outcomes of its tests; invariants over all histories of updates, restarts and restores; termination by a measure over decisions |
| C47 | Observed | the iterator of C22 with parameters that change at any moment, the gate's threads with their condition variable; C22's invariant with a free depth, plus one for the gate; a measure bounds the threads' steps |
| C48 | ProfileStore, ProfileStoreSpec | calls as programs over file operations, a transition system of any number of calls; a rely/guarantee invariant (only the own temporary file and complete renames) for safety; the undisturbed call by symbolic execution for completeness |
| C49 | Export, ExportSpec | the argument readers over JSON values, the second reading inside build_serializer and Python's keyword rules; a file reader in the spec reads the header back; masks by bits, the version number by division |
| C50 | Export | the export as the list of its file operations; every prefix of it is a crash or failure point |
| C51 | FeatureTable | the mapping is any function giving one feature per cell that depends on the window only (hypotheses `one_per_cell`, `local`); the writes of all loops are collected; base-3 numbers are injective on windows (induction on digits), every window of a line of any length has a representative among the enumerated lines; for the newer models the indices are the codes of C40 |
| C52 | FeatureTable | invariant of the packing loop: the words so far plus the accumulator spell the values so far; rounding by division with remainder |
| C53 | DataMix | induction on the children; a reference path starts with the child number |
| C54 | DataMix | ratios as decimals; lowest terms by gcd, common denominator by lcm, Gauss's lemma for minimality |
| C55 | DataMix | the strided slices of a list are a permutation of it (index arithmetic modulo the number of files) |
| C56 | Resume (with StateCodec) | the check of one state is characterised exactly; sorting by slot is a permutation; equal digests give equal states by C30 or a collision is exhibited |
| C57 | Collective, CollectiveSpec (ranks as programs that meet in collectives) | composition lemmas for programs that end together; induction on micro-steps and, for the evaluation loops, on the rounds; the two gaps are refuted by running the programs |
| C58 | TrainLoop | Hoare triples for each piece of the loop over a view of the state; between turns the state is the one after exactly n undisturbed steps, and an unsafe or divergent state is never saved |
| C59 | TrainLoop | same invariant: at most one unjudged finite check is in flight, none at a save; refuted for emergency saves with a pending check |
| C60 | TrainLoop | same invariant with the list of files; emergency save covers every interrupt between steps |
| C61 | TrainLoop | separate invariant on the metric sums and the log entries; refuted for intervals that are not nested |
| C62 | Katago | unpacking shown equal to direct addressing of bits; selections by index lists equal filters; refuted for komi 0 with a side filter and for boards of side below 4 |
| C63 | Katago | a table represents a list of rows; loading, selecting, channel selection and concatenation proved on representations; refuted for files whose arrays have different numbers of rows |
| C64 | AdamW | cells that are written do not overlap, so any order of lanes equals the pointwise update (induction on the lanes); flat layouts shown to reach every element once; invariant: a cached plan describes what the optimizer saw at its last step; refuted for parameters that move alone and for `maximize` switched later |
| C65 | AdamWRing | host and stream as a labelled transition system; invariant: running the stream out with the present buffers reads the wanted tables; events bound the copies in flight |
| C66 | Chained | invariant: the links of a group lead to exactly those sub-groups that hold its parameters; simulation of a view (groups, values, states) for all histories; the layout is a function of the groups added, so a state dict fits any optimizer with the same groups |
| C67 | Loss | every training term corresponds to an additive statistic with the same value; a dictionary of statistics as a function of replicas and rows, which combination adds; induction over the ranks |
| C68 | Loss | masked fill and multiplication with the mask hide the other cells; the terms of the two readings are equal one by one |
| C69 | Loss | a separate list of parts (name, compares with the target or not, weight); with distinct names the dictionary is the list |
| C70 | Vq | programs of ranks that meet at collectives; every rank's state is related to one global state (VqSpec), which each forward preserves; induction over the history |
| C71 | Vq | the forward of all ranks refines one step over the rows of all (tables of counts and sums add up); index_add and lerp agree; the specification does not mention the number of processes where no code expires |
| C72 | Vq | the cached bounds stay below every size and above the total; a safe bound means that no code is below the threshold; writing through the mask against the count of dead codes before |
| C73 | Vq | the pending rows are the first of the rows seen; Lloyd's iterations over all ranks; loading loses only the cache |
| C74 | FlatNet | engine written from the documented structs (FlatNetSpec); quantised rationals are integers over powers of two; tables indexed by base-3 codes are read back at the offsets of the struct; padding rows give zeros; ladders: the mapping sees only the lower triangle, digits with leading zeros |
| C75 | FlatNet | bounds of bytes and of sums over any prefix of any permutation; exported biases of bounded networks |
| C76 | FlatNet | each turned chunk of the turned board is a chunk of the board; sums of vectors do not depend on the order |
| C77 | FlatNet | rounding half to even (square) and truncation (ladder) against the interval of weights; the other steps of the serializers cannot fail |
| C78 | QuantHead | engine with integers only (QuantHeadSpec); values on a grid are integers over the scale, floors are shifts; composition layer by layer |
| C79 | QuantHead | regions as blocks of cells, permutation of their concatenation; mirror images as bijections between blocks |
| C80 | QuantHead | bounds of clipped weights; induction over the taps |
| C81 | QuantHead | bounds of features (saturated or at most 2044) and of shifted bytes; sums of absolute values |

## 5. Findings (claims refuted of the code, with the theorem that proves it)

* `C05_equality_at_the_last_counter_refuted`: the C++ reservoir preflights counters and raises at 2^63 where Python still succeeds.
* `C19_every_ended_epoch_has_a_terminal_batch_refuted`: an evaluation epoch whose record count is an exact multiple of the batch marks no batch as last.
* `C20_stale_tokens_are_rejected_refuted`, `C23_stale_tokens_are_rejected_refuted`: tokens handed out before a rollback are accepted afterwards.
* `C21_resume_never_does_more_than_the_run_refuted`: saved state drops empty shape queues, which the running planner still counts.
* `C24_binary_readers_*_refuted`: binary readers apply board symmetries after padding / leave last_move in place.
* `C27_metadata_can_replace_the_weights_refuted`, `C27_bare_file_names_are_saved_refuted`, `C28_weights_of_the_named_model_refuted`.
* `C29_every_iterable_is_written_refuted`: a generator of payloads is consumed by the out-of-memory retry.
* `C31_*_refuted`: means of batch means weight rows unequally when batches are not full; a reduction library that adds turns maxima into sums; float rounding depends on the distribution.
* `C32_*_refuted`: chained comparisons, column lists, integers and tuples escape the size limits; forbidden syntax is found only when reached.
* `C33_*_refuted`: merging aliases an earlier override's dictionaries and a failed merge leaves a half-merged configuration.
* `C41_five_is_never_flagged_refuted`: a stone that makes five and, on another line, an overline is flagged, although five wins in Renju.
* `C42_static_always_closes_refuted`: if the copy stream's synchronize() raises, StaticSlotLoaderWrapper does not close its source (CudaPrefetchLoaderWrapper does).
* F22 (C43_packed_answers_like_batch_refuted): decode_packed_batch compares file layouts before it drops a stored pass entry, so with has_pass_move=False it refuses a batch that mixes a file without `pt` and a file with flat `pt`; decode_one and decode_batch accept the same rows.
* F23 (C43_rows_past_the_end_raise_refuted): in a batch over several files without transforms, contiguous references past the end of a (truncated) file are filled by broadcasting its last row; decode_one raises RuntimeError.
* F24 (C45_changes_inside_dictionaries_are_refused_refuted): the digest of a field value does not encode how many entries a dictionary has, so `{"a": {}, "b": 1}` and `{"a": {"b": 1}}` have the same digest: a pipeline that turns one into the other in a field it must not touch is not refused.
* F25 (C46_a_locked_number_of_cache_entries_is_kept_refuted): the tuner raises cache_entries together with cache_bytes and only looks whether cache_bytes is locked, so a locked cache_entries changes. katago.py never locks it, so today only a direct caller of PipelineAutotuner sees this.
* F26 (C48_load_raises_only_when_the_disk_fails_refuted): in compatible mode load lists the profiles and then stats each; when the save of another process expires one in between, FileNotFoundError leaves load, and the constructor of the tuner does not catch it, so starting a second training on the machine can crash the third.
* F27 (C48_every_save_is_stored_refuted): save expires profiles by modification time including the one just written; with max_entries profiles dated at or after the present clock (clock set back, coarse time stamps) it deletes its own record.
* F28 (C50_onnx_failure_destroys_previous): the ONNX export (and torch-jit) writes straight to the output path, so a failure or kill while tracing destroys the previous export, unlike the weight export.
* F29 (C49_reversed_size_range_advertises_nothing): min_board_size > max_board_size is accepted and stamps a model that supports no board size.
* F30 (C53) `multi[-1]` is the last sample of the first child, not of the data set: `MultiDataset.__getitem__` compares the index with each length only from above (C53_negative_indices_stay_in_the_first_child). The samplers never use negative indices.
* F31 (C55) npzsplit accepts a negative number of splits and writes no file at all (C55_negative_splits_lose_everything).
* F32 (C57) Preparing the commit of the data cursor comes before a collective inside the guarded block of the optimizer mutation; if it fails on one rank only, that rank goes to another collective than the others and the job hangs (C57_refuted_a_failed_commit_preparation_stops_every_rank). The sampler calls inside _fetch_batch have the same shape and are hypotheses (fetch_uniform).
* F33 (C57) When a step is not finite on one rank, the exception reports a non-finite loss on every rank (C57_refuted_the_exception_names_only_ranks_that_are_not_finite).
* F34 (C59) `run`'s emergency save (`trainer/base.py` 4100-4108) does not drain the pending finite check: an interrupt right after a step whose loss or gradient is not finite is saved as a resumable checkpoint (deferred checks only, i.e. one process without a gradient scaler).
* F35 (C61) `run` (`trainer/base.py` 4037-4047) resets the metric sums at every showing as well as at every log entry: unless the show interval is a multiple of the log interval, the logged averages leave out steps.
* F36 (C62) `katago_numpy` (`dataset/katago.py` 143-151, 191-203): a position of komi 0 is loaded as black to move, but `filter_stm` -1 and 1 both drop it, so the two filtered data sets do not make up the whole.
* F37 (C63) `processed_katago_numpy` (`dataset/katago.py` 459-478) compares only the total numbers of rows of its arrays: files whose arrays have different numbers of rows that happen to balance pair the boards of one file with the targets of another; the iterative variant refuses each such file.
* F38 (C62) `katago_numpy` derives the board side from the number of bytes (`dataset/katago.py` 155): boards of side 3 (two bytes) are taken for side 4. KataGo's files use larger boards.
* F39 (C64) `_launch_plan` (`utils/fused_adamw.py` 394-407) returns the cached plan when the gradient addresses are unchanged without comparing the parameter addresses, although the comment at 298-302 says both are revalidated: a parameter whose storage is replaced while its gradient keeps its address (`param.data = ...` with `zero_grad(set_to_none=False)`) is no longer updated; the kernel writes to its old memory.
* F40 (C64) `maximize` is only looked at when a plan is built (`utils/fused_adamw.py` 346-376): switching it in a group after the first step has no effect on parameters of the fast path.
* F41 (C66) A sub-optimizer to which no parameter goes makes the construction fail with torch's `optimizer got an empty parameter list` (`utils/chained_optimizer.py` 62-68): `muon-adamw` cannot train a model whose trainable parameters are all matrices, or none.
* F42 (C66) `add_param_group` that meets a parameter no spec accepts raises after the group was appended and linked (102-123): every later `step` raises IndexError. Not reachable with muon-adamw, whose second spec accepts all.
* F43 (C66) With several initial groups, all parameters that go to one sub-optimizer share one rate (that of the last such group), and a group's own weight decay is never used; `build_optimizer` makes one group.
* F44 (C67) An auxiliary loss that is a plain tensor is accepted in training (weight 1 by default) but makes validation raise ValueError (C67_a_plain_tensor_cannot_be_validated).
* F45 (C67) A value loss kind that training rejects with KeyError is accepted by validation, which silently evaluates cross entropy (`_value_loss_stat`, lines 161-185; C67_an_unknown_value_loss_cannot_be_trained, case_f45).
* F46 (C71) With `threshold_ema_dead_code=0`, a code that k-means left without rows keeps its row only until the first training step: its average is row times size zero, so the first moving average makes the code the zero vector, and it stays there unless rows are assigned to it (toy_empty_cluster_zero in Prop_Vq.v). With a positive threshold it is replaced before.
* F47 (C77) v2, v4 and v4VQ clip the first layer in training to [-1, 127/128] (`model/flatnet.py` 35-42), but its scale is 256, so the forward saturates beyond [-1/2, 127/256] and the export stops with AssertionError (toy_not_exported in Prop_FlatNet.v); v3 overrides the limits (1121-1130).
* F48 (C74) The v4 and v4VQ serializers compute the features under autocast by default (`enable_amp=True`), so rows of the table may differ from the rounding of the float32 features; C74 is about exact features.
* F49 (C74) With a number of features that is no multiple of 4 (8 with 4-bit features), v2's and v3's files lack the padding that the documented structs have before the int32 members; C74 assumes multiples.
* F50 (C74) The documented structs of the ladder exports say `mapping[59049][ValueDim]`, but the rows have dim_policy + dim_value features, and the weights of the policy head are not exported; C74's engine reads the rows as they are written, and needs dim_policy + dim_value to be a multiple of 4 for the struct's alignment.
* F51 (C80) `_export_feature_dwconv` asserts that the depthwise convolution does not overflow, but halves weights that are already at most 1/2 in magnitude: its left side is at most 18432, so the assertion never stops an export, while the convolution reaches 36783 (C80_an_exported_convolution_can_leave_16_bits); the forward saturates it at 32767 (mixnet.py 527), its comment says [0, 9/2*16*4].
* F52 (C78) The export clips the biases of the depthwise convolution to [-64, 64], the forward only to 16 bits ([-256, 256)), and training has no limit for them: beyond 64 the file differs from the network (large_bias_differs in Prop_QuantHead.v); C78 assumes biases within 64.
* F53 (C81) The comments of `_forward_quantized_policy` call the policy accumulators int32; with weights and features within all limits of the code three policy channels already reach beyond 2^31 (C81_an_exported_policy_can_leave_32_bits), and nothing checks it; C78's engine keeps them exact.

## 6. Testing the theorems

`seeded/LOG.jsonl`: one line per wrong program: the definition edited, the edit, the claim it breaks, the
proofs that no longer compile and the property theorems that rest on them (`theorems_failed`), the theorems
added or tightened afterwards.
