{"id": "C01", "title": "Flushed records read back byte for byte", "statement": "If every watched module of every buffered sample has a saved array and all arrays share one dtype, then after a flush to disk, indexing the log dataset at the sample's position returns the sample's id and, for every watched (module, 'grad') path and nothing else, exactly the bytes, shape and dtype that were buffered; the block-size assertion of the reader never fires. Whatever the buffer, the data file of a flush that succeeds holds as many bytes as the buffered arrays together.", "quantifier": "every non-empty buffer (any number of samples, modules, shapes, byte contents, item size) and every write order", "why_tests_cant": "the offsets of one record depend on the sizes of all previous ones; tests use a handful of arrays", "anchors": ["logix/logging/mmap.py:MemoryMapHandler.write", "logix/logging/log_loader.py:LogDataset.__getitem__", "logix/logging/log_loader_utils.py:get_flatten_item,unflatten_tensor"]}
{"id": "C02", "title": "No sample is lost by the synchronous writer, for any flush threshold", "statement": "With num_workers <= 1 and pairwise distinct data ids, after any number of logged-and-saved batches followed by finalize(), the log dataset built from the directory contains exactly the saved samples, each once, in logging order, with the values that were logged; in particular its contents do not depend on flush_threshold or on where flushes happened.", "quantifier": "all batch sequences, batch sizes, thresholds (including <= 0), tensor contents", "why_tests_cant": "flush points depend on accumulated sizes across the whole history; the space of (history, threshold) pairs is infinite", "anchors": ["logix/logging/log_saver.py:LogSaver.buffer_write,flush,_flush_serialized,finalize", "logix/logging/log_loader.py:LogDataset.fetch_data"]}
{"id": "C03", "title": "Repeated data ids: last write wins inside a chunk, first chunk wins across chunks", "statement": "When a data id is logged more than once, the dataset returns for it the last value written before the end of the first chunk that contains the id; consequently the value a user reads back depends on flush_threshold, and flush transparency fails for repeated ids.", "quantifier": "all histories with repeated ids; all thresholds", "why_tests_cant": "needs a duplicate pair straddling a flush boundary; tests use one chunk", "anchors": ["logix/logging/log_saver.py:LogSaver.buffer_write", "logix/logging/log_loader_utils.py:get_mmap_metadata"]}
{"id": "C04", "title": "The asynchronous writer (num_workers > 1) silently discards every threshold flush", "statement": "With num_workers > 1, whenever the buffer exceeds a positive flush_threshold and the ids are not all two-character strings, the flush empties the buffer, raises nothing to the caller and leaves the directory unchanged, so those samples are never readable; exactly the samples logged after the last threshold crossing survive finalize().", "quantifier": "all batch histories, ids, thresholds, worker counts > 1", "why_tests_cant": "the exception is swallowed in a future; only a large run crosses the default threshold", "anchors": ["logix/logging/log_saver.py:LogSaver._flush_safe,_flush_unsafe,flush"]}
{"id": "C05", "title": "Chunk files are found, named and ordered numerically for every rank and chunk number", "statement": "For all ranks r and chunk numbers c, the name written by the saver is recognised by the loader, the loader reconstructs exactly the data and metadata file names that were written, and chunks are visited in increasing (rank, chunk) numeric order whatever order the directory listing returns.", "quantifier": "all natural numbers r, c (any number of digits); all directory listing orders", "why_tests_cant": "character-set strip() and lexicographic/numeric order only differ on particular names and large counts", "anchors": ["logix/logging/log_loader_utils.py:find_chunk_indices,extract_rank_and_chunk", "logix/logging/log_saver.py:LogSaver.__init__", "logix/logging/mmap.py:MemoryMapHandler.write"]}
{"id": "C06", "title": "Multi-process logs are combined completely, rank by rank", "statement": "If several ranks log disjoint ids into the same directory with the synchronous writer and all finalize, the dataset is the concatenation, in rank order, of what each rank saved.", "quantifier": "all numbers of ranks, all per-rank histories and thresholds", "why_tests_cant": "needs arbitrary interleavings and chunk counts per rank", "anchors": ["logix/logging/log_loader.py:LogDataset", "logix/logging/log_saver.py:LogSaver.__init__"]}
{"id": "C07", "title": "A record whose modules have different dtypes is not read back faithfully", "statement": "One dtype per record is stored (that of the last watched module). Every array read back from the record carries that dtype, so a record is returned as it was saved only if all its modules have one dtype; if a record has two modules of different item sizes, the number of bytes read for it differs from the number of bytes written for it.", "quantifier": "all records with at least two modules and distinct item sizes", "why_tests_cant": "only mixed-precision models expose it", "anchors": ["logix/logging/mmap.py:MemoryMapHandler.write", "logix/logging/log_loader.py:LogDataset.__getitem__"]}
{"id": "C08", "title": "Only 'grad' logs of watched modules reach the disk", "statement": "Saving is hard-wired to the (module, 'grad') paths set by watch(): forward/backward/activation logs that are buffered next to gradients never appear in the dataset, and if some watched module has no 'grad' array in a buffered sample (e.g. save='forward', or a module unused in the batch) the flush raises AttributeError.", "quantifier": "all buffered logs and watched module lists", "why_tests_cant": "depends on which modules fire in each batch and which log types are configured", "anchors": ["logix/utils.py:get_repr_dim", "logix/logging/mmap.py:get_from_nested_dict,MemoryMapHandler.write", "logix/logix.py:LogIX.watch"]}
{"id": "C09", "title": "Crash consistency of a flush", "statement": "If the process dies during a flush, then previously written chunks are still readable exactly when the crash happens before the new data file is created or after its metadata is completely written; in the window in between the whole dataset (including older chunks) fails to open. This needs the chunk to be new: if an earlier run left a chunk of the same name, a crash in the window is not detected and the dataset opens with the old ids and the new bytes. A crash while the metadata is written leaves exactly the directory of the completed flush, except for an unreadable metadata file.", "quantifier": "all crash points of a flush, all previous directory contents", "why_tests_cant": "crash windows are not reachable from unit tests", "anchors": ["logix/logging/mmap.py:MemoryMapHandler.write,read_metafile", "logix/logging/log_loader.py:LogDataset.fetch_data"]}
{"id": "C10", "title": "Re-running a project in the same directory leaves stale chunks behind", "statement": "A new run restarts chunk numbering at 0 and never removes files: after it finalizes, the dataset equals the new run's samples followed by those samples of old chunks with numbers not overwritten whose ids were not logged again; it equals the new run alone iff no such old sample exists.", "quantifier": "all pairs of runs (histories, thresholds)", "why_tests_cant": "needs two runs with different chunk counts", "anchors": ["logix/logging/log_saver.py:LogSaver.__init__", "logix/logging/log_loader_utils.py:find_chunk_indices"]}
{"id": "C11", "title": "The in-memory buffer is bounded by the flush threshold", "statement": "With a positive flush_threshold, after every saved batch the recorded buffer size is at most the threshold, and the number of array elements really held never exceeds the recorded size.", "quantifier": "all histories (ids repeated or not), both writer modes", "why_tests_cant": "invariant over unbounded histories", "anchors": ["logix/logging/log_saver.py:LogSaver.buffer_write,flush,buffer_clear"]}
{"id": "C12", "title": "Records of a chunk are laid out disjointly and gap-free", "statement": "In every chunk file the records occupy consecutive, disjoint, in-bounds byte ranges starting at 0 in buffer order, and the file is as long as the sum of all buffered arrays.", "quantifier": "every buffer and write order accepted by the writer", "why_tests_cant": "inductive over number of records", "anchors": ["logix/logging/mmap.py:MemoryMapHandler.write"]}
{"id": "C13", "title": "A data id that JSON cannot represent makes the directory unreadable", "statement": "If a buffered id is not JSON-serialisable (e.g. the tensors of the README's data_id=batch['input_ids']), the flush raises TypeError after the data file has been created, and from then on building a log dataset from that directory fails.", "quantifier": "all buffers containing such an id, all earlier directory contents", "why_tests_cant": "failure order (data before metadata) matters, not a single value", "anchors": ["logix/logging/mmap.py:MemoryMapHandler.write", "README.md"]}
{"id": "C14", "title": "Flattened and nested dataset views agree", "statement": "For every stored sample, the flattened view is the concatenation, in watch order, of the row-major flattened module gradients returned by the nested view.", "quantifier": "all stored records", "why_tests_cant": "all shapes and module counts", "anchors": ["logix/logging/log_loader.py:LogDataset.__getitem__", "logix/logging/log_loader_utils.py:unflatten_tensor"]}
{"id": "C15", "title": "Log batches keep ids and gradients aligned, and batching loses nothing", "statement": "Iterating the log dataloader with any batch size yields batches whose concatenated ids are the dataset ids in order, and in each batch the i-th slice of every collated tensor is that of the i-th id; this holds for samples with equal module sets and shapes. With flatten=True a batch of integer ids delivers tensors in place of the integers, a batch that begins with a string keeps all its ids, and one that begins with an integer raises TypeError if it has a string and RuntimeError if an integer does not fit into 64 bits. A sample with a module the first sample of its batch lacks raises KeyError, but a later sample that lacks a module is silently misaligned: the batch then has more ids than rows for that module.", "quantifier": "all datasets, batch sizes > 0", "why_tests_cant": "all sizes incl. last partial batch", "anchors": ["logix/logging/log_loader_utils.py:collate_nested_dicts", "logix/logix.py:LogIX.build_log_dataloader"]}
{"id": "C16", "title": "Ids and rows of a batch must match in number", "statement": "When a batch has fewer ids than rows, the surplus rows are silently never saved; when it has more ids than rows, saving raises IndexError after having buffered the rows that exist, and leaves an empty record under the first surplus id in the buffer.", "quantifier": "all batches", "why_tests_cant": "size mismatch semantics for every pair of sizes", "anchors": ["logix/logging/log_saver.py:LogSaver.buffer_write"]}
{"id": "C17", "title": "Linear per-sample gradients are the true per-sample weight gradients", "statement": "For a linear layer, the logged gradient of sample n is the unique matrix G with <G, dW> = <error_n, dW applied to activation_n> for every weight perturbation dW (sum over all positions of the sample), and summing over samples gives the ordinary batch weight gradient.", "quantifier": "all batch sizes, position dimensions, feature sizes and values (exact arithmetic)", "why_tests_cant": "tests compare floats on one small MLP", "anchors": ["logix/logging/utils.py:compute_per_sample_gradient"]}
{"id": "C18", "title": "Conv2d per-sample gradients are the true per-sample kernel gradients", "statement": "For an ungrouped Conv2d with any kernel size, stride, zero padding and dilation, the logged gradient of sample n is the unique G with <G, dK> = <error_n, conv(dK, activation_n)> for every kernel perturbation; for grouped convolutions the logged gradient has groups times as many entries as the weight.", "quantifier": "all geometries and values (exact arithmetic)", "why_tests_cant": "unfold index arithmetic over all geometries", "anchors": ["logix/logging/utils.py:compute_per_sample_gradient"]}
{"id": "C19", "title": "Re-used modules accumulate gradients over all their calls", "statement": "With 'grad' starting with Log and no Log in the other phases, after any batch the gradient logged under a name is the sum of the per-sample gradients of all calls of the modules watched under that name (once per watch), in the shape of the first one to arrive, to which the others are broadcast; if both succeed, two orders of arrival give the same result. For linear layers watched once and called on batches of one size, row a is the gradient, with respect to the weights, of the sum over the calls of <output gradient, output> of sample a. Names without deliveries have no entry.", "quantifier": "all call multiplicities and arrival orders", "why_tests_cant": "depends on autograd schedule", "anchors": ["logix/logging/logger.py:HookLogger._grad_hook_fn", "logix/statistic/log.py:Log.update"]}
{"id": "C20", "title": "Watching a module k times multiplies its logged gradient by k", "statement": "watch() does not deduplicate: watching the same model k times since the last clear registers every module k times, and if the modules behind a name were watched k times its logged gradient is k times the sum of the per-sample gradients of its calls (broadcast to the first, see C19); k=1 gives the true one.", "quantifier": "all k, all models", "why_tests_cant": "tests call watch once", "anchors": ["logix/logging/logger.py:HookLogger.add_module,register_all_module_hooks", "logix/logix.py:LogIX.watch"]}
{"id": "C21", "title": "Leaving the logging context does not detach the hooks", "statement": "end() or leaving a with-block does not detach the hooks: model calls made afterwards change the batch log as if the batch had not ended and update the configured statistics, with the mask of the batch that has ended. After clear() calls change neither state, log, buffer nor log directory; only a backward pass of a call made before clear() can still update statistics.", "quantifier": "all traces of API calls and model executions", "why_tests_cant": "trace property", "anchors": ["logix/logix.py:LogIX.__exit__,__enter__,start,end,clear", "logix/logging/logger.py:HookLogger.clear,update"]}
{"id": "C22", "title": "Batch isolation", "statement": "In every reachable state start() and entering a with-block succeed and yield an empty log, the new ids and mask, and exactly one set of hooks per watched module and watch (no tensor hooks); the rows in the buffer keep the values they have then (see C92) and are no longer shared with a log; the log after a batch depends only on the watched modules, options, memory, mask and model executions of that batch, not on what was logged before.", "quantifier": "all previous histories", "why_tests_cant": "history-independence", "anchors": ["logix/logix.py:LogIX.__call__,__enter__,start", "logix/batch_info.py:BatchInfo.clear"]}
{"id": "C23", "title": "An exception inside the logging context still commits the partial batch", "statement": "If the body of a with-block raises, the exit path still runs: the object ends in the same state as if the body had ended normally before the exception (statistics, buffered log), and the exception propagates unless the exit path raises its own. If a hook raises, what it had done stays and the exit path runs on that.", "quantifier": "all partial executions", "why_tests_cant": "failure injection at every point", "anchors": ["logix/logix.py:LogIX.__exit__"]}
{"id": "C24", "title": "LogIX.log discards the batch", "statement": "LogIX.log(data_id, mask) never raises, empties the batch log, sets ids and mask, and changes nothing else: whatever had been logged and not saved is dropped without reaching statistics or disk; rows saved before keep the values they have then (see C92).", "quantifier": "all states", "why_tests_cant": "state-dependent", "anchors": ["logix/logging/logger.py:HookLogger.log", "logix/logix.py:LogIX.log"]}
{"id": "C25", "title": "get_log(copy=True) is a stable snapshot, get_log() is a live view", "statement": "A copied log is unaffected by all later operations; copying raises RuntimeError exactly if some logged tensor is a non-leaf that requires gradients. An uncopied log shows every later change and is empty as soon as the next batch starts, while its id list is kept.", "quantifier": "all later operation sequences", "why_tests_cant": "aliasing over histories", "anchors": ["logix/logix.py:LogIX.get_log,__call__", "logix/batch_info.py:BatchInfo.clear"]}
{"id": "C26", "title": "Nothing is buffered or written unless saving was requested", "statement": "If saving is off and no later operation asks for saving, no sequence of operations changes the log directory, the state files, or which samples are buffered; it changes no buffered row either unless rows of the current batch were saved before (see C92). Ending a batch stores the log exactly if saving is on or was asked for with this batch; eval() turns global saving off but not per-batch saving.", "quantifier": "all traces", "why_tests_cant": "trace property", "anchors": ["logix/logix.py:LogIX.save,eval,__exit__,end", "logix/logging/logger.py:HookLogger.update"]}
{"id": "C27", "title": "Masking of activations", "statement": "With a mask of shape (.., positions) and activations (.., positions, features), logs and statistics of 'forward' data see the activations times the mask, so a 0/1 mask zeroes or keeps whole positions; a mask of the same shape multiplies elementwise; a mask whose last size differs from the position (or feature) size is silently ignored; other ranks raise AssertionError, masks on another device RuntimeError. If the other sizes differ, sizes 1 are expanded on either side, so that a mask with more rows than the batch repeats the samples, and other differences raise RuntimeError. A mask without dimensions raises IndexError for activations of at most one dimension.", "quantifier": "all masks and activations", "why_tests_cant": "shape coincidences", "anchors": ["logix/logging/logger.py:HookLogger._forward_hook_fn"]}
{"id": "C28", "title": "Plugin lists are validated, deduplicated and ordered with Log first", "statement": "setup succeeds exactly if all elements are known plugins (names or classes); each phase then holds each requested plugin once, nothing else, in the order Log, Mean, Variance, Covariance, CorrectedEigval, depending only on the set of requested plugins; phases not mentioned are emptied. An unknown element raises AssertionError and leaves the earlier phases configured, the later ones empty. The caller's dictionary keeps its keys; its lists are rewritten to classes, those with an unknown element up to it and those of later phases not at all, and after success it can be used again with the same result. _to_plugins(is_grad=True) adds Log to lists that are not empty.", "quantifier": "all option dictionaries", "why_tests_cant": "all permutations/multisets", "anchors": ["logix/logging/option.py:_to_plugins,_reorder_plugins,LogOption.setup"]}
{"id": "C29", "title": "Gradient statistics without Log are not repaired", "statement": "setup({'grad': L}) never inserts Log: if L is non-empty and lacks Log, in every batch the first gradient that reaches an output of a watched module raises AssertionError; if L is empty or contains Log no gradient does.", "quantifier": "all plugin lists", "why_tests_cant": "dead branch not visible to tests", "anchors": ["logix/logging/option.py:LogOption.setup", "logix/logging/logger.py:HookLogger._grad_hook_fn"]}
{"id": "C30", "title": "The scheduler collects every statistic the chosen Hessian needs, after LoRA, and saves only in the last epoch", "statement": "The scheduler accepts exactly the known lora and hessian names (AssertionError otherwise) and save values (KeyError otherwise). It runs 1 epoch, plus 1 for PCA, plus 1 for ekfac. In each epoch, whatever happened before: LoRA is added at the beginning exactly of epoch 0 (random) or 1 (pca), which forgets all statistics collected so far; every epoch but the last collects forward and backward covariances; the last one collects exactly what the Hessian needs (kfac: forward and backward covariance, raw: logged gradients and their covariance, ekfac: logged gradients and corrected eigenvalues) and logs what is to be saved; saving is switched on in the last epoch if requested and otherwise left as it was. Afterwards StopIteration is raised. If add_lora raises, so does the step, and the epoch is used up; for a model without parameters that exception is StopIteration, so a for loop just ends.", "quantifier": "all configurations (including arbitrary strings)", "why_tests_cant": "all combinations and exhaustion", "anchors": ["logix/scheduler.py:LogIXScheduler"]}
{"id": "C31", "title": "The mean statistic is the exact mean", "statement": "After one finalize(), the mean state of a (module, log type) is the sum over all logged rows divided by the count the code uses (number of samples, or of unmasked positions when a mask is given); the result does not depend on how samples were split into batches nor on their order. All batches have the row width of the first one or width one; rows of width one are added to every column.", "quantifier": "all batch sequences, splits, permutations (exact arithmetic)", "why_tests_cant": "unbounded histories", "anchors": ["logix/statistic/mean.py:Mean.update", "logix/state.py:LogIXState.normalize"]}
{"id": "C32", "title": "The covariance statistic is the exact uncentered second moment, symmetric and positive semidefinite", "statement": "After one finalize(), covariance[m][t] = (sum over rows x of x x^T)/count; it is symmetric, positive semidefinite and independent of batch splitting and order.", "quantifier": "all batch sequences", "why_tests_cant": "unbounded histories", "anchors": ["logix/statistic/covariance.py:Covariance.update", "logix/state.py:LogIXState.normalize"]}
{"id": "C33", "title": "Padding does not influence masked forward statistics, but an all-ones mask is not neutral", "statement": "For sequence activations of linear layers with 0/1 masks, the finalised forward mean and covariance equal the moments of the unmasked positions of all batches, divided by their number (if there is any); without a mask the same rows are divided by the number of samples, so an all-ones mask over P positions scales the statistic by 1/P.", "quantifier": "all masks and activations", "why_tests_cant": "relation between two runs", "anchors": ["logix/statistic/mean.py", "logix/statistic/covariance.py", "logix/logging/logger.py:HookLogger._forward_hook_fn"]}
{"id": "C34", "title": "finalize() is not idempotent on statistics", "statement": "Each finalize divides every statistic again by its (never reset) counter: after k finalizes without new data the state is the raw sum divided by count^k, and data logged after a finalize are averaged with already divided values; the documented statistics are obtained iff finalize is called exactly once after the last clear.", "quantifier": "all k, all histories", "why_tests_cant": "two-epoch schedules (ekfac) trigger it", "anchors": ["logix/state.py:LogIXState.finalize,normalize", "logix/scheduler.py"]}
{"id": "C35", "title": "The variance plugin always raises", "statement": "In every state reachable without loading foreign state files, updating the variance statistic raises AttributeError and changes nothing.", "quantifier": "all reachable states and inputs", "why_tests_cant": "no test covers it; universally quantified over histories", "anchors": ["logix/statistic/variance.py:Variance.update", "logix/state.py:LogIXState.__init__"]}
{"id": "C36", "title": "EKFAC eigenvalues are second moments of the gradient in the Kronecker eigenbasis", "statement": "After finalize, entry (i,j) of the corrected eigenvalues is the average over samples of <G_n, u_i v_j^T>^2 where u, v are the backward and forward covariance eigenvectors.", "quantifier": "all gradients, eigenbases, batch splits", "why_tests_cant": "unbounded histories", "anchors": ["logix/statistic/corrected_eigval.py:CorrectedEigval.update"]}
{"id": "C37", "title": "Distributed statistics equal single-process statistics when ranks register keys in the same order", "statement": "If all ranks touched the same (module, log type) keys in the same order, then after synchronisation every rank holds the sums over all ranks and finalize yields the statistics of the concatenated data; if two ranks touched the same keys in different orders, tensors of different keys are summed together.", "quantifier": "all numbers of ranks and histories", "why_tests_cant": "needs several processes and orders", "anchors": ["logix/state.py:LogIXState.synchronize"]}
{"id": "C38", "title": "CPU offloading does not change statistics", "statement": "Mean and covariance states and counters computed with cpu_offload are equal to those computed without, for every history.", "quantifier": "all histories", "why_tests_cant": "relation between two runs", "anchors": ["logix/statistic/mean.py", "logix/statistic/covariance.py"]}
{"id": "C39", "title": "State save/load restores exactly the saved statistics; counters are not saved", "statement": "load_state after save_state restores every state marked to be saved; counters are not restored, so resuming logging of a loaded statistic, or calling finalize right after loading a non-empty statistic, raises.", "quantifier": "all states", "why_tests_cant": "all key sets", "anchors": ["logix/state.py:LogIXState.save_state,load_state,normalize"]}
{"id": "C40", "title": "clear() empties every registered state except the module paths", "statement": "After clear() every registered statistic, counter and cached inverse/eigendecomposition is empty while the module paths are kept; but cached decompositions stay registered, so a later preconditioning does not recompute them and fails on every module.", "quantifier": "all histories", "why_tests_cant": "state-dependent", "anchors": ["logix/state.py:LogIXState.clear,get_covariance_inverse_state,get_covariance_svd_state"]}
{"id": "C41", "title": "Influence scores are inner products with aligned ids", "statement": "Without preconditioning, in dot mode, influence[i][j] is the sum over the source's modules of the inner product of source gradient i and target gradient j (and the same per group); rows follow src_ids, columns tgt_ids. A source module without gradients in the target raises AttributeError (KeyError if the target comes from the log loader, see C95), a module of another shape AssertionError, numbers of ids that differ from the tensors AssertionError. Modules logged only in the target are ignored, except that the first (module, type) of the target must be logged in the source, otherwise AttributeError is raised.", "quantifier": "all logs", "why_tests_cant": "all sizes", "anchors": ["logix/analysis/influence_function.py:InfluenceFunction.compute_influence", "logix/analysis/influence_function_utils.py:cross_dot_product"]}
{"id": "C42", "title": "compute_influence_all does not depend on the dataloader batch size", "statement": "For any split of the training log into batches, compute_influence_all returns the training ids in order and the score matrix (total and groups) of the unsplit log: in dot mode for every preconditioner, in l2 and cosine modes with KFAC, raw and no covariances. With corrected eigenvalues (EKFAC) on the device of the gradients, l2 scores do depend on the batch size. Gradients keep their shape in preconditioning, as they always do unless a gradient or a covariance has a size of one where the other has not (see C94).", "quantifier": "all splits", "why_tests_cant": "all batch sizes", "anchors": ["logix/analysis/influence_function.py:InfluenceFunction.compute_influence_all", "logix/analysis/influence_function_utils.py:merge_influence_results"]}
{"id": "C43", "title": "Flattened and nested training logs give the same scores", "statement": "In dot mode without groups, scores computed against the flattened log equal those computed against the nested one, with and without preconditioning, whenever the source log has exactly the watched modules, in any order. With groups the flattened log raises AttributeError, in modes l2 and cosine, and for self-influence, NotImplementedError. Gradients keep their shape in preconditioning, as they always do unless a gradient or a covariance has a size of one where the other has not (see C94).", "quantifier": "all logs", "why_tests_cant": "all module counts and shapes", "anchors": ["logix/utils.py:flatten_log", "logix/analysis/influence_function.py:InfluenceFunction.compute_influence"]}
{"id": "C44", "title": "Raw-Hessian preconditioning solves the damped linear system", "statement": "With the gradient covariance (hessian 'raw', or 'auto' when the first module has one) and damping d, the preconditioned gradient of every sample, flattened, times (C + d I) is the flattened original gradient, where C is that module's covariance and the default d is 0.1*trace(C)/dim of that same module; ids, modules and devices are kept, and no other state changes than the cached inverses.", "quantifier": "all covariances with invertible damped matrix, all gradients", "why_tests_cant": "algebraic identity", "anchors": ["logix/analysis/influence_function_utils.py:precondition_raw", "logix/state.py:LogIXState.covariance_inverse"]}
{"id": "C45", "title": "KFAC preconditioning solves the damped Kronecker system", "statement": "With explicit positive damping d, the KFAC-preconditioned gradient P of each sample satisfies C_b P C_f + d P = G where C_b, C_f are the module's backward and forward covariances; ids, modules and devices are kept, and no other state changes than the cached eigendecompositions.", "quantifier": "all covariances, gradients, d making the damped eigenvalues non-zero", "why_tests_cant": "algebraic identity", "anchors": ["logix/analysis/influence_function_utils.py:precondition_kfac"]}
{"id": "C46", "title": "KFAC default damping leaks from the first module to all others", "statement": "With damping=None the damping is 0.1 times the product of the mean diagonal entries of the first module's covariances, and it is used for every module of the log, so a module's preconditioned gradient depends on which module comes first; with explicit damping each module's result depends only on that module.", "quantifier": "all states and logs with at least two modules", "why_tests_cant": "relation between runs", "anchors": ["logix/analysis/influence_function_utils.py:precondition_kfac"]}
{"id": "C47", "title": "The damping argument is honoured only by the first raw preconditioning", "statement": "After a raw preconditioning with damping d1, any later one of the same log with damping d2 on the same state returns the d1 result, also if the covariances changed in between; accumulating statistics never resets the cached inverse.", "quantifier": "all d1, d2, states", "why_tests_cant": "stale cache", "anchors": ["logix/state.py:LogIXState.get_covariance_inverse_state"]}
{"id": "C48", "title": "Repeated EKFAC preconditioning drifts", "statement": "With plain KFAC repeated calls return identical results and leave the state unchanged. With corrected eigenvalues, the first preconditioning solves (eigenvalue + d) * component = component in the eigenbasis; if they are on the device of the gradients, each call adds d in place to the stored eigenvalues, so call number k uses eigenvalue + k*d, while on another device every call uses eigenvalue + d. The default d is 0.1 times the mean corrected eigenvalue of the first module.", "quantifier": "all k, states, logs", "why_tests_cant": "history-dependent", "anchors": ["logix/analysis/influence_function_utils.py:precondition_kfac"]}
{"id": "C49", "title": "Self-influence is the diagonal of influence and is non-negative", "statement": "compute_self_influence(log) equals the diagonal of compute_influence(log, log) in dot mode, for every preconditioner and grouping, and raises the same error if that fails in preconditioning; with KFAC or the raw preconditioner on positive semidefinite covariances with positive damping, and without preconditioning, it is >= 0 for the total and every group, and 0 exactly for samples whose gradients are zero in all modules of the group. Gradients keep their shape in preconditioning, as they always do unless a gradient or a covariance has a size of one where the other has not (see C94).", "quantifier": "all logs", "why_tests_cant": "algebraic", "anchors": ["logix/analysis/influence_function.py:InfluenceFunction.compute_self_influence"]}
{"id": "C50", "title": "Influence groups add up", "statement": "If every source module name contains exactly one of the (distinct) group names, the group scores sum to the total; a group that matches no module raises AttributeError in compute_influence and TypeError in compute_self_influence. Gradients keep their shape in preconditioning, as they always do unless a gradient or a covariance has a size of one where the other has not (see C94).", "quantifier": "all module names and groups", "why_tests_cant": "substring semantics for all names", "anchors": ["logix/analysis/influence_function.py:InfluenceFunction.compute_influence"]}
{"id": "C51", "title": "Saved influence scores accumulate all source batches in order, but returned results are aliased", "statement": "After n calls of compute_influence_all(save=True) the saved scores have the ids and rows of all calls in order and the target ids of the first; results of later calls are unaffected, but the result object returned by the first call shares its id list with the accumulator, so its src_ids grow with later calls while its score matrix does not (with groups its score dictionary grows as well). A loader without batches raises KeyError if scores are saved. If a result does not fit the saved scores (other columns, groups against none, a missing group), the call raises after its ids were saved, so saved ids and rows no longer correspond. Calls without saving change nothing.", "quantifier": "all call sequences", "why_tests_cant": "aliasing over histories", "anchors": ["logix/analysis/influence_function.py:InfluenceFunction.compute_influence_all", "logix/analysis/influence_function_utils.py:merge_influence_results"]}
{"id": "C52", "title": "Missing covariances disable preconditioning entirely", "statement": "If any source module has no covariance entry, preconditioning returns the source log unchanged (for all modules); an unknown hessian raises AssertionError; a state without covariances AttributeError.", "quantifier": "all states and logs", "why_tests_cant": "key-set relation", "anchors": ["logix/analysis/influence_function.py:InfluenceFunction.precondition"]}
{"id": "C53", "title": "l2 and cosine modes", "statement": "Mode 'l2' subtracts half the preconditioned self-influence of each target from the dot score, mode 'cosine' divides by its square root, column-wise, for the total and every group; the source's norm does not enter and the target's norm is preconditioned even if preconditioning is off. For gradients on the GPU both raise RuntimeError. Unknown modes raise AssertionError. Gradients keep their shape in preconditioning, as they always do unless a gradient or a covariance has a size of one where the other has not (see C94).", "quantifier": "all logs", "why_tests_cant": "all sizes", "anchors": ["logix/analysis/influence_function.py:InfluenceFunction.compute_influence"]}
{"id": "C54", "title": "Adding LoRA does not change the model function", "statement": "Immediately after LoRA is added (any filters, rank, initialisation, any number of calls, models with arbitrary module code that only calls its children) the model computes the same function as before, errors included, if the wrapped convolutions are undilated and bottlenecks are not shared, or are shared by layers of one class at least as wide as the rank. Around a dilated convolution whose stride is at most (dilation-1)*(kernel-1) the LoRA module raises RuntimeError on every input on which the convolution itself has an output.", "quantifier": "all layers, ranks, encoder/decoder weights, inputs", "why_tests_cant": "all shapes", "anchors": ["logix/lora/modules.py:LoraLinear,LoraConv2d", "logix/lora/lora.py:LoRAHandler.add_lora"]}
{"id": "C55", "title": "LoRA gradients are Kronecker projections of the full gradient", "statement": "The per-sample gradient logged at a LoRA bottleneck is C^T G A^T, where G is the per-sample gradient logged for the wrapped layer (linear with any number of positions, or undilated convolution) at the same input and output gradient and A, C are encoder and decoder; it is also the gradient of each sample's loss with respect to the bottleneck weight.", "quantifier": "all layers and samples", "why_tests_cant": "algebraic identity", "anchors": ["logix/lora/modules.py:LoraLinear.forward", "logix/logging/utils.py:compute_per_sample_gradient"]}
{"id": "C56", "title": "LoRA wraps each selected leaf once and afterwards exactly the bottlenecks are tracked", "statement": "add_lora replaces exactly the leaves that pass the filters (a layer held by several attributes only at the one found first) by LoRA modules with new encoder, decoder and zero bottleneck, leaving all other modules and all weights in place. Watching then tracks exactly the bottlenecks that pass the stored filters, all of them if there are none, and freezes the parameters of every other leaf. Encoder, bottleneck, decoder and original layer are selected again by a second add_lora.", "quantifier": "all module trees and filters", "why_tests_cant": "tree recursion while mutating", "anchors": ["logix/lora/lora.py:LoRAHandler.add_lora", "logix/logix.py:LogIX.watch", "logix/utils.py:module_check"]}
{"id": "C57", "title": "Parameter sharing breaks for layers narrower than the rank", "statement": "With parameter sharing the shared bottleneck has size rank x rank; a selected layer whose input or output size is below the rank then gets a LoRA module that raises RuntimeError on every input. add_lora raises NotImplementedError or AssertionError at the first selected layer that is a one-dimensional convolution or whose name does not contain exactly one group keyword, succeeds if there is no such layer, and raises AttributeError for a model that is itself a layer.", "quantifier": "all sizes", "why_tests_cant": "all combinations", "anchors": ["logix/lora/lora.py:LoRAHandler.add_lora", "logix/lora/modules.py:LoraLinear.__init__"]}
{"id": "C58", "title": "Index data ids are unique and consecutive over the generator's lifetime", "statement": "In index mode the ids handed out over a generator's lifetime are '0','1','2',... in order and without repetition, whatever the batch sizes and whichever calls failed; a batch without len() raises TypeError and consumes no number. Modes other than 'hash' and 'index' raise ValueError at every call.", "quantifier": "all call sequences", "why_tests_cant": "unbounded", "anchors": ["logix/utils.py:DataIDGenerator"]}
{"id": "C59", "title": "Hash data ids are content-determined", "statement": "In hash mode the ids of two samples, in any batches of any generators, NumPy array or torch tensor, are equal exactly if the hashes of their bytes are; shape and dtype do not matter. The first sample that is neither raises ValueError, one whose dtype NumPy lacks TypeError. Every NumPy object handed in up to there is read-only afterwards, and nothing else is.", "quantifier": "all data, any hash function", "why_tests_cant": "all inputs", "anchors": ["logix/utils.py:DataIDGenerator.generate_hash_id"]}
{"id": "C60", "title": "merge_logs concatenates batch logs", "statement": "Merging logs yields the concatenated ids and for every (module, type) the tensors of the logs that have it, concatenated in order; tensors that do not fit (trailing shape, device) raise RuntimeError. If all logs have the module, row k of the merged tensor belongs to id k; logs that lack it contribute no rows, so the merged tensor then has fewer rows than ids.", "quantifier": "all lists of logs", "why_tests_cant": "all lengths", "anchors": ["logix/utils.py:merge_logs,merge_log_dict"]}
{"id": "C61", "title": "Saved configuration is restored by load_config, but cannot be used to construct a run", "statement": "A run's settings are those of its file, then the defaults; the given project name always wins; the log directory is join(root, project) and is created. Unknown names, a file that is empty or no mapping, or a root that is no string raise TypeError, a null logging section AttributeError, and create nothing. finalize() writes all fields; initialize_from_log() in any other run restores every field of project, root, logging and LoRA sections and changes no other attribute, but also re-creates the directory that the saved root and project name. The saved file used as settings of a new run raises TypeError. Loading any file turns unknown plain entries into attributes; the first nested entry that is no section raises AttributeError or AssertionError, keeping what was loaded before it.", "quantifier": "all configurations", "why_tests_cant": "all field values", "anchors": ["logix/config.py:Config,load_config_from_dict,init_config_from_yaml"]}
{"id": "C62", "title": "Watched modules must take one tensor and return a tensor that requires gradients", "statement": "In a batch, a call of a watched module with other than one positional argument raises AssertionError; one whose output is not a tensor raises AttributeError, and one whose output tensor does not require gradients (for example under no_grad) raises RuntimeError, even if nothing is configured to be logged; modules that are not watched are unaffected.", "quantifier": "all watched models, histories, calls", "why_tests_cant": "all histories and argument lists", "anchors": ["logix/logging/logger.py:HookLogger._forward_hook_fn,_grad_hook_fn"]}
{"id": "C63", "title": "Statistics of an epoch are those of the data that reached the modules", "statement": "After any number of batches (start/end or with-blocks) on a newly prepared object with mean and covariance options, finalize leaves, for every module, phase and statistic, the moment of all rows that reached the module in all batches (masked as in C27, once per watch), divided by their count; keys no data reached have no entry. With mean or covariance over gradients, whose log is taken after each batch, these are the moments of the flattened gradients of all samples that the log shows after the batches, divided by the number of samples.", "quantifier": "all models, batch counts, call patterns", "why_tests_cant": "all sequences of batches", "anchors": ["logix/logix.py:LogIX", "logix/logging/logger.py:HookLogger", "logix/statistic/mean.py", "logix/statistic/covariance.py"]}
{"id": "C64", "title": "Logging the inputs of a re-used module overwrites the program's tensor", "statement": "With 'forward': [Log], the input tensor of the first call is stored without a copy, and the second call of the module in the batch adds its input, broadcast to the first, to that tensor in place: afterwards the program's own input tensor holds the sum of both inputs, and it is this tensor that is logged.", "quantifier": "all models, inputs", "why_tests_cant": "all tensors", "anchors": ["logix/statistic/log.py:Log.update", "logix/logging/logger.py:HookLogger._forward_hook_fn"]}
{"id": "C65", "title": "Initial LoRA weights", "statement": "With init 'pca' and collected covariances, row j of a LoRA encoder is the j-th left singular vector of the wrapped layer's forward covariance and column j of its decoder that of the backward covariance (for convolutions with the kernel flattened channel-major), bottlenecks are zero; with any other init, or if no covariance was collected at all, encoder and decoder keep their random initial weights and later calls do not use PCA either. If covariances were collected but the first selected layer has none, add_lora raises TypeError.", "quantifier": "all module trees, filters, ranks, covariances, svd results of matching shape", "why_tests_cant": "A permuted kernel layout or swapped factors still gives a working, merely worse, LoRA; tests would have to compare the factors entry by entry for every layer shape.", "anchors": ["logix/lora/modules.py:LoraLinear.pca_init_weight,LoraConv2d.pca_init_weight", "logix/lora/lora.py:LoRAHandler.add_lora", "logix/lora/utils.py:compute_top_k_singular_vectors"]}
{"id": "C66", "title": "Saved LoRA weights are restored exactly, except from the run's own directory", "statement": "add_lora writes weight and bias of exactly the layers below attributes whose name contains 'logix_lora', under their dotted names; loading that file into a model with the same modules at the same places gives each of them the saved weight and changes nothing else. A name the model does not have raises AssertionError and changes nothing; a tensor of another shape raises RuntimeError. initialize_from_log adds LoRA first exactly if no bottleneck exists, and that overwrites the file of its own directory before it is read: there the weights of an earlier run are lost and replaced by new ones, in the model and in the file, and likewise if add_lora was called before. They are restored from another directory (lora_path), and into a model that already has the LoRA modules while the file was not touched. Without a lora directory or without a model that part does nothing. Before it, the LoRA settings of config.yaml replace those in force (without that file AssertionError is raised and nothing changes); after it the statistics are loaded, from state_path if given. config.yaml is written by finalize() alone, after statistics and log were written, with the settings then in force.", "quantifier": "all module trees with attribute names without dots, all weights, shared modules included", "why_tests_cant": "Name collisions of dotted paths, shared modules and failing loads are rare shapes that fixed test models do not have.", "anchors": ["logix/logix.py:LogIX.add_lora,save_lora,initialize_from_log"]}
{"id": "C67", "title": "Source samples may be handed over in several calls", "statement": "Without corrected eigenvalues, if compute_influence_all of a log with n samples succeeds with some scores, then for every cut of the samples into consecutive non-empty batches, in every mode, with every preconditioner and grouping, calling compute_influence_all(save=True) once per batch succeeds, returns a result each time, saves exactly those scores (ids, rows, groups) and leaves the same state. In any state, the call for some of the samples alone returns exactly their rows and leaves the same state. With corrected eigenvalues the saved scores do depend on the cut.", "quantifier": "all logs, batch sizes, loaders, modes, preconditioners, groups, states", "why_tests_cant": "A drift between calls (as the in-place damping of EKFAC causes) shows only for particular batch sizes and states; tests compare one split.", "anchors": ["logix/analysis/influence_function.py:InfluenceFunction.compute_influence_all", "logix/analysis/influence_function_utils.py:merge_influence_results"]}
{"id": "C68", "title": "Questions about influence do not disturb each other", "statement": "Without corrected eigenvalues, a precondition, compute_influence, compute_self_influence or compute_influence_all call that succeeded once returns the identical result again after any sequence of further such calls with any arguments, successful or failing, and then leaves the state unchanged; no such sequence changes any attribute of the state except the three caches of inverses and eigendecompositions. This holds after any sequence of statistics updates, before and after finalize().", "quantifier": "all states reached by statistics, all sequences of calls", "why_tests_cant": "The caches make results depend on history in general; only a proof excludes that some sequence of arguments or failures alters a later answer.", "anchors": ["logix/analysis/influence_function.py:InfluenceFunction.precondition,compute_influence,compute_self_influence,compute_influence_all", "logix/state.py:LogIXState.get_covariance_svd_state,get_covariance_inverse_state"]}
{"id": "C69", "title": "Gradient accumulation does not change the influence scores of a trainer run", "statement": "PatchedTrainer.influence(): if the statistics have no corrected eigenvalues and no scores are saved yet, then however the test samples are distributed over micro-batches, optimizer steps and epochs, the run returns the scores that one compute_influence_all call for all samples (in order of processing) against the batches of the log directory returns, with all their ids; no log is left in the callback, the log directory is not changed, and only the caches of the statistics change. A run of several epochs scores every sample once per epoch.", "quantifier": "for all models, statistics, logs on disk, test samples, and all ways to distribute them over micro-batches, optimizer steps and epochs", "why_tests_cant": "the scores depend on merged copies of per-sample gradients, on caches in the state and on the accumulator of the influence object; a test sees a few batch layouts", "anchors": ["logix/huggingface/callback.py:LogIXCallback.on_train_begin,on_step_end,on_substep_end,log_dataloader", "logix/huggingface/patch.py:PatchedTrainer.influence,training_step", "logix/utils.py:merge_logs"]}
{"id": "C70", "title": "extract_log and self_influence leave saved scores alone", "statement": "PatchedTrainer.self_influence() and extract_log() change neither the saved influence scores nor any result handed out before, also if they fail; in particular the self-influence values are computed and discarded. Once an influence run has read the log directory, every later run uses the same batches, also if more logs were written in between.", "quantifier": "for all runs, successful or not, from any state of the trainer", "why_tests_cant": "it concerns what is not changed, in every run", "anchors": ["logix/huggingface/callback.py:LogIXCallback.on_step_end,log_dataloader", "logix/huggingface/patch.py:PatchedTrainer.extract_log,self_influence"]}
{"id": "C71", "title": "A failed influence step leaves its logs to the next step", "statement": "At the end of an optimizer step in influence mode the trainer scores the merge of all logs kept in the callback, those of this step and those left over. If merging or scoring raises, the logs stay in the callback and the scores of the next step, also in a later influence() call, contain their samples again.", "quantifier": "for all micro-batches, all logs left over, every way the step can fail in merging or scoring", "why_tests_cant": "the leftover logs are internal; a test has to provoke a failure and then look at a second run", "anchors": ["logix/huggingface/callback.py:LogIXCallback.on_step_end,on_substep_end"]}
{"id": "C72", "title": "Every epoch of extract_log uses up one entry of the schedule", "statement": "A successful extract_log run of k epochs uses up exactly k entries of the logging schedule, so all successful runs of one trainer together have at most len(scheduler) epochs; when none is left, extract_log raises StopIteration before processing a sample.", "quantifier": "for all sequences of epochs and all states of the trainer", "why_tests_cant": "the iterator is hidden in the callback and depends on the whole history of runs", "anchors": ["logix/huggingface/callback.py:LogIXCallback.on_epoch_begin,on_epoch_end", "logix/huggingface/patch.py:PatchedTrainer.__init__,extract_log", "logix/scheduler.py:LogIXScheduler.__next__"]}
{"id": "C73", "title": "Data ids and loss scale of a training step", "statement": "A training step processes the batch with the ids made by the tokenizer or by hashing, with the loss multiplied by the number of labels different from ignore_idx. A failing id computation or missing labels (AttributeError) raise before anything is changed; 'detokenize' without a tokenizer raises AssertionError. Any other data_id argument is accepted and gives no ids: then no training step with saving enabled and no optimizer step of an influence or self-influence run succeeds.", "quantifier": "for all batches, id settings, models and states", "why_tests_cant": "the accepted but useless settings fail late, in ways that depend on mode and state", "anchors": ["logix/huggingface/patch.py:PatchedTrainer.training_step,get_data_id,get_sum_scale", "logix/logging/log_saver.py:LogSaver.buffer_write"]}
{"id": "C74", "title": "What an epoch saves is what the log loader yields", "statement": "If the gradients of an epoch of LogIXTrainer in log mode are representable in the dtype of the log, the samples have distinct ids, one process writes and num_workers <= 1, then the loader on the finalized directory yields exactly the ids in training order and for every watched module the gradients of these samples, cut into batches of the loader's own batch size, whatever the micro-batches and the flush threshold were; the first influence run builds its loader from these batches.", "quantifier": "all models, gradients, module sets, micro-batches, gradient accumulation, flush thresholds, loader batch sizes", "why_tests_cant": "It composes hooks, buffering, byte layout, metadata, index and collation; tests run one configuration and compare shapes.", "anchors": ["logix/huggingface/patch.py:training_step", "logix/logix.py:LogIX.__exit__,finalize,build_log_dataloader", "logix/logging/log_saver.py:LogSaver", "logix/logging/log_loader.py:LogDataset"]}
{"id": "C75", "title": "watch() determines the order of stored gradients only before initialize_from_log()", "statement": "watch() sets the path list of the state to the gradients of all watched modules in order, with their sizes, and the saver writes records in the same order as long as no state was loaded. initialize_from_log() replaces the dictionary, the saver keeps the old one: later watch() calls change the order in the state only. If nothing was watched before loading, the saver's order stays empty: no chunk is ever completed (no metadata file appears), and finalize() with buffered samples raises.", "quantifier": "all sequences of API calls before and after the load, all models and directories", "why_tests_cant": "The sharing of one dictionary by two objects is invisible until a load replaces it; only particular call orders reveal it.", "anchors": ["logix/logix.py:LogIX.watch,initialize_from_log,finalize", "logix/state.py:LogIXState.load_state,set_state", "logix/logging/log_saver.py:LogSaver.__init__,_flush_serialized"]}
{"id": "C76", "title": "Lightning influence runs score every sample of the first epoch", "statement": "With the patched Lightning trainer, influence(module, dataloader) on an object whose batches log without an exception returns, and stores, the scores compute_influence_all would give for all samples of the first epoch of the dataloader at once against the training log, for any split into batches; only one epoch is trained, the directory of the log is not changed, and logging plugins are those of setup({'grad': ['log']}).", "quantifier": "all batches, models' event sequences, extractors, states without cached second-order data, influence modes and dampings", "why_tests_cant": "Depends on all batch splits and on what earlier runs left in the object", "anchors": ["logix/lightning/callback.py:LogIXCallback.on_train_epoch_start,on_train_batch_start,on_train_batch_end", "logix/lightning/patch.py:patch"]}
{"id": "C77", "title": "Number of epochs of a Lightning extract run", "statement": "extract_log trains the next max(1, T - e) epochs, where T is the length of the schedule (not what is left of it) and e the number of epochs the trainer has trained before, and consumes one schedule entry per epoch. A trainer that has trained an epoch already therefore never completes a fresh schedule of two or more entries: the run ends normally, but the last entry, which is the one that saves, is not reached. Influence and self-influence runs train exactly one epoch.", "quantifier": "all trainers, schedules, numbers of epochs and contents of batches", "why_tests_cant": "A test with a fresh trainer sees the full schedule; the failure needs a trainer that was used before", "anchors": ["logix/lightning/callback.py:LogIXCallback.on_train_epoch_end", "logix/lightning/patch.py:patch"]}
{"id": "C78", "title": "Lightning self-influence discards its result but needs the training log", "statement": "Extract and self-influence runs never change stored influence scores, and a self-influence run returns nothing. In self-influence mode every batch nevertheless opens the training log: if the log cannot be read, the batch raises that error after the batch was logged.", "quantifier": "all runs, states and batches", "why_tests_cant": "The result of the run is None in every case, so a test has nothing to compare", "anchors": ["logix/lightning/callback.py:LogIXCallback.on_train_batch_end", "logix/lightning/patch.py:patch"]}
{"id": "C79", "title": "Default data ids of the Lightning callback are those of the batch's items, not of its samples", "statement": "Without data_id_extractor the ids of a batch are the hashes of the items that iterating over the batch yields: for an (inputs, labels) batch these are two ids, whatever the number of samples, and the other samples are not saved under any id; if an item is not an array or tensor (for instance a key of a dictionary batch), the batch raises TypeError or ValueError.", "quantifier": "all batches, iterables and hash functions", "why_tests_cant": "With batches of two samples the numbers agree and nothing looks wrong", "anchors": ["logix/lightning/callback.py:LogIXCallback.__init__,on_train_batch_start", "logix/utils.py:DataIDGenerator.__call__,generate_hash_id"]}
{"id": "C80", "title": "Preconditioning a log that does not fit the state", "statement": "If the log has a module whose gradients are missing, or for which the state has no forward and backward (raw: gradient) covariance, preconditioning raises AttributeError; without corrected eigenvalues for it (EKFAC), AssertionError; with gradients of another rank or another size (unless a size is one) or covariances on two devices, RuntimeError. Covariances and everything else but the caches stay as they were, and the caches stay those of the covariances, apart from empty entries for the failing module (see C95); with corrected eigenvalues on the device of the gradients, however, the modules before the failing one keep their damping, so a later call divides by eigenvalues damped twice. With hessian 'auto' an empty log raises IndexError, a flattened log AttributeError.", "quantifier": "all logs, states, positions of the failing module and damping values", "why_tests_cant": "The state after an exception is rarely looked at; the wrong scores appear in the next successful call", "anchors": ["logix/analysis/influence_function_utils.py:precondition_kfac,precondition_raw", "logix/analysis/influence_function.py:InfluenceFunction.precondition"]}
{"id": "C81", "title": "Influence of degenerate logs", "statement": "An influence computation never returns scores for source modules on two devices (RuntimeError), an empty source (AttributeError; self-influence TypeError), a flattened source (IndexError) or a flattened target when nothing was watched (RuntimeError), and it leaves the state unchanged. In modes 'l2' and 'cosine' a group that matches modules of the target only is accepted for exactly one source sample, whose group score is that of a zero inner product, and refused with AssertionError for any other number of source samples.", "quantifier": "all logs, states, modes, groups and numbers of samples", "why_tests_cant": "One sample and several samples behave differently; tests use modules common to source and target", "anchors": ["logix/analysis/influence_function.py:InfluenceFunction.compute_influence,compute_self_influence", "logix/analysis/influence_function_utils.py:cross_dot_product", "logix/utils.py:synchronize_device,flatten_log"]}
{"id": "C82", "title": "Tensors handed to watch_activation are logged as they are, and their gradients once they arrive", "statement": "watch_activation({name: tensor}) during a batch logs each tensor at once under (name, 'forward'), without the mask and by reference (a later in-place change shows), and leaves all other entries alone; when the tensor's gradient arrives in that batch it is logged under (name, 'backward') for every name the tensor was handed over with and no other. Mean and covariance statistics see the tensor and its gradient reshaped to (batch, rest). A tensor that does not require gradients raises RuntimeError after its value was logged; the names after it are not logged. What is handed over before the batch starts is forgotten: nothing is logged, no gradient is seen.", "quantifier": "all reachable states, option sets that log first or collect moments only, tensor dictionaries with new names, model executions before and after the call, and gradients", "why_tests_cant": "the hooks on tensors are added in the middle of a batch and interleave with module hooks, tensors may be shared between names, and partial effects before an exception depend on the order of the dictionary", "anchors": ["logix/logix.py:LogIX.watch_activation", "logix/logging/logger.py:HookLogger.register_all_tensor_hooks,_tensor_forward_hook_fn,_tensor_backward_hook_fn,clear"]}
{"id": "C83", "title": "The log loader is built once and never sees later samples", "statement": "build_log_dataloader(batch_size, flatten) reads the log directory at its first successful call; every later call of build_log_dataloader, build_log_dataset, or compute_influence_all without a loader, returns or uses that loader with its original batch size, flatten flag and samples, whatever its arguments and whatever was logged in between. A directory that cannot be read keeps nothing; a batch size below 1 raises ValueError but keeps the dataset with its flag. A loader over a dataset built earlier with the other flag delivers nested batches if the dataset is nested, and raises AttributeError at its first batch if the dataset is flattened. A record that cannot be read ends the iteration, after the batches before it. compute_influence_all and compute_self_influence without a source use the current log; no front-end call changes saved scores or results returned earlier.", "quantifier": "all log directories, batch sizes, flags, batches of uniform samples, and histories of front-end calls interleaved with arbitrary other operations on the object", "why_tests_cant": "The stale loader only shows after a particular order of calls with different arguments over several logging runs.", "anchors": ["logix/logix.py:LogIX.build_log_dataset,build_log_dataloader,compute_influence_all,compute_self_influence", "logix/logging/log_loader.py:LogDataset.__getitem__", "logix/logging/log_loader_utils.py:collate_nested_dicts"]}
{"id": "C84", "title": "Module-level functions act on the first initialised object", "statement": "Before a successful logix.init every module-level function raises RuntimeError and changes nothing; an init whose LogIX constructor raises leaves the module uninitialised. After a successful init, every later init returns None, constructs nothing and ignores its arguments, and every module-level function is the method of the same name of the first object, except add_analysis, which always raises (AttributeError, as LogIX has no such method). init requires its configuration file, by default ./config.yaml, and raises AssertionError without it, while LogIX(project) does not.", "quantifier": "all constructors, methods, arguments and sequences of module-level calls", "why_tests_cant": "The claim ranges over all call sequences and over methods with arbitrary effects.", "anchors": ["logix/__init__.py:init,add_analysis,add_lora,build_log_dataloader,clear,eval,finalize,get_log,initialize_from_log,log,setup,watch,watch_activation"]}
{"id": "C85", "title": "Which logs can be copied", "statement": "If only gradients are logged, get_log(copy=True) succeeds in every state of a batch, also after an exception in the model or in a hook: logged per-sample gradients never belong to the autograd graph (backward passes without create_graph). Logging the input of a layer keeps the log copyable exactly if the input is a leaf or needs no gradient, when no mask multiplies it, and exactly if autograd is off or the input needs no gradient, when one does; so a mask makes the log of a leaf input uncopyable. Logging an output gradient keeps the log copyable exactly if that gradient is a leaf or needs no gradient.", "quantifier": "all reachable states, batches, masks, model executions ending in an exception or not, and flags of the tensors", "why_tests_cant": "Whether a copy works depends on the autograd flags of every tensor in the log; tests copy logs of one kind of model", "anchors": ["logix/logix.py:LogIX.get_log", "logix/logging/logger.py:HookLogger._forward_hook_fn,_backward_hook_fn,_grad_hook_fn", "logix/statistic/log.py:Log.update"]}
{"id": "C86", "title": "What watch() tracks and what it freezes", "statement": "watch(model, type_filter, name_filter) tracks exactly the supported layers that pass the filters (in a model with LoRA bottlenecks only these), adds them to those tracked before under their path names, freezes exactly the parameters of the other leaf modules, and remembers model and filters, which later calls without filters use. It never unfreezes: a layer that only a second call selects is tracked with frozen parameters. If nothing was ever selected it raises TypeError, with all leaves frozen and the logger unchanged. add_lora and save_lora before watch raise AttributeError and touch no weights; saving a model that contains itself (a bare layer that got LoRA) raises RuntimeError.", "quantifier": "all module trees, filters, earlier watch calls, states and weights", "why_tests_cant": "Filters, sharing of modules and the order of watch calls multiply; the frozen flags only show in training", "anchors": ["logix/logix.py:LogIX.watch,add_lora,save_lora", "logix/utils.py:module_check", "logix/logging/logger.py:HookLogger.add_module", "logix/utils.py:get_repr_dim"]}
{"id": "C87", "title": "Logs that cannot be stored", "statement": "A log is stored only if every logged tensor has a first dimension of at least one and an element type NumPy knows: otherwise the first tensor that does not (rank 0 or no rows: IndexError; bfloat16: TypeError) stops the batch at its first sample, whose record is created or kept without it, no other record changes and nothing is written. A buffered scalar makes the write raise TypeError, arrays that are all empty ValueError, and more bytes to write than were buffered (a module named twice in the saver's paths) ValueError; the buffer is kept, a data file of the buffered size stays behind, and the directory cannot be opened unless that chunk's metadata existed.", "quantifier": "all logs, element types, ranks, buffers and directories", "why_tests_cant": "Needs unusual tensors and the file system state after each kind of failure", "anchors": ["logix/logging/log_saver.py:LogSaver.buffer_write,_flush_serialized", "logix/logging/mmap.py:MemoryMapHandler.write"]}
{"id": "C88", "title": "Damaged log directories", "statement": "Opening a log directory succeeds if every chunk has a non-empty data file and readable metadata; otherwise the first faulty chunk by rank and number decides, in whatever order the files are listed: ValueError for empty data, FileNotFoundError for missing and JSONDecodeError for broken metadata. A file log_*.mmap whose name does not contain rank_<digits>_chunk_<digits> raises AttributeError. If a data file was cut to k>0 bytes the directory opens with all ids, the records that end within k bytes are read intact and the others raise TypeError, nested or flat. Indices past the end raise IndexError; batches of the log loader whose records differ in shape raise RuntimeError. File names without extension are completed alike by writer and readers.", "quantifier": "all directories, listings, chunk numbers, cuts, indices and batch sizes", "why_tests_cant": "The kinds of damage and the listing orders of a directory are unbounded", "anchors": ["logix/logging/log_loader.py:LogDataset", "logix/logging/log_loader_utils.py:find_chunk_indices,extract_rank_and_chunk,get_mmap_data,get_mmap_metadata,get_flatten_item,collate_nested_dicts", "logix/logging/mmap.py:MemoryMapHandler.read,read_metafile"]}
{"id": "C89", "title": "The hooks accept one gradient per call, of the right device and a fitting shape", "statement": "In a batch whose 'grad' phase starts with Log, the gradient arriving for the output of a call of a module watched once is logged if it is on the device of the call's input, the per-sample gradient can be computed, and, when the name already has an entry, that gradient is on the entry's device and broadcasts to its shape. Then a gradient with fewer samples (one row) is silently added to every row of the entry. Otherwise the hook raises and leaves everything as it was: RuntimeError for another device or for a shape that does not broadcast to the entry (for instance, if the single row arrives first), the error of the per-sample gradient otherwise. Leaving a batch that was entered without data ids raises TypeError if the batch is to be saved, and succeeds otherwise.", "quantifier": "all watched models, histories, batches, gradients", "why_tests_cant": "batches of different sizes through one module are not tested", "anchors": ["logix/logging/logger.py:HookLogger._grad_hook_fn,save_log", "logix/statistic/log.py:Log.update"]}
{"id": "C90", "title": "Convolutions with other paddings, inputs without batch dimension, and tensors of unexpected rank", "statement": "For an nn.Conv2d with a padding_mode other than 'zeros', the per-sample gradient and the forward rows of the statistics are computed as for zero padding: the module's gradient is the logged one plus what its kernel reads in the padding, so a circular convolution is logged wrongly without an error. With padding given as a string both raise TypeError. An image without batch dimension has its channels taken for samples: with C channels, O output channels, k kernel positions and L output positions the result has shape [C, O, L*L/(C*k)] and mixes unrelated entries if C*k divides O*L and L*L, and RuntimeError is raised otherwise; its statistics always raise. Activations of rank 0 raise RuntimeError (linear) or IndexError (convolution, statistics), other ranks of a convolution RuntimeError; unknown log types raise ValueError and other modules InvalidModuleError.", "quantifier": "all geometries, paddings, images, output gradients and shapes", "why_tests_cant": "the error is silent, and the cases depend on divisibility of sizes", "anchors": ["logix/logging/utils.py:compute_per_sample_gradient", "logix/statistic/utils.py:extract_patches,make_forward_2d,make_backward_2d,make_2d"]}
{"id": "C91", "title": "A new trainer watches the selected layers; its LoRA weights are always new ones", "statement": "Creating a Hugging Face trainer or a Lightning module with lora=False tracks exactly the selected leaf layers under their names and freezes all other leaves; with lora=True every selected layer is wrapped and exactly the bottlenecks are tracked. A new trainer has accumulated nothing, is in mode 'log' and asks for as many epochs as the statistics need; unknown hessian and save names raise AssertionError and KeyError before anything is watched. With lora=True the file of LoRA weights in the log directory is overwritten with the new weights, and initialize_from_log=True afterwards changes no weights: those of an earlier run in that directory are lost. In a Lightning module with initialize_from_log=True and lora=False, a stored file makes LoRA be added with new weights, which overwrite the stored ones too; without such a file only the LoRA settings and the statistics are loaded, and without the config.yaml of an earlier run AssertionError is raised.", "quantifier": "all models, filters, settings, logging histories and stored files", "why_tests_cant": "The loss is silent: training continues with other random projections, so influence scores compare gradients of different projections.", "anchors": ["logix/huggingface/callback.py:LogIXCallback.on_init_end,on_train_begin", "logix/huggingface/patch.py:patch_trainer", "logix/lightning/patch.py:patch", "logix/logix.py:LogIX.initialize_from_log,add_lora,save_lora"]}
{"id": "C92", "title": "Saved rows change with backward passes after the end of the batch", "statement": "When a batch ends with saving, the buffer holds the rows of the log at that moment, and the next batch does not change them. But for logs on the CPU the buffered rows are memory of the log tensors, and the hooks stay installed: until the next batch begins, every gradient that reaches a watched module is added to the rows already saved, and finalize() (or a later flush) writes the sums under the ids of the batch. If the buffer was written out at the end of the batch, or the log is on a GPU, the rows keep their values.", "quantifier": "all histories, batches, further model executions and encodings", "why_tests_cant": "It needs model executions between two batches, a log on the CPU and a buffer below its threshold; the ids, shapes and file layout stay right.", "anchors": ["logix/logging/log_saver.py:LogSaver.buffer_write,flush", "logix/utils.py:to_numpy", "logix/logging/logger.py:HookLogger.update,_grad_hook_fn", "logix/statistic/log.py:Log.update"]}
{"id": "C93", "title": "The configured data type converts exactly what is logged, after masking", "statement": "log_dtype 'none', 'float64', 'float16', 'bfloat16' and 'int8' have their meaning; every other value, also a misspelled name, silently means float32. With 'none', or the type the program computes in, logging is as in the other properties (tensors are not even copied). With another type, the log of a batch holds per name the sums of the converted inputs, output gradients and per-sample gradients: inputs are masked before, per-sample gradients made from the unconverted tensors; the statistics receive the converted tensors; and no tensor of the program changes (contrast C64). Tensors handed to watch_activation are logged as converted copies that do not follow the program's tensors. A converted activation stays in the autograd graph, so get_log(copy=True) raises RuntimeError if it was tracked, unless the type is not a floating one.", "quantifier": "for all conversions, models, calls, masks, watches, ids and histories (sums exact)", "why_tests_cant": "Tests run with the default type, where nothing is converted; the order of masking and converting and the aliasing are only visible with types that round.", "anchors": ["logix/config.py:LoggingConfig.get_dtype", "logix/logging/logger.py:HookLogger._forward_hook_fn,_backward_hook_fn,_grad_hook_fn,_tensor_forward_hook_fn,_tensor_backward_hook_fn"]}
{"id": "C94", "title": "Dimensions of size one are silently repeated in scores and in KFAC", "statement": "If a module logged one row for a whole batch, its product is added to the scores of all samples; this requires that the first module of the source log has a row per id: if it has one row and another module has more, compute_influence and compute_self_influence raise RuntimeError, so the outcome depends on the order of the modules; if the first module fits the others but not the ids, AssertionError. KFAC treats a gradient of other sizes than the covariances, where one of the two sizes is one, as the gradient repeated to the size of the covariance or summed up over that dimension, and returns gradients of the sizes of the covariances; compute_influence against a log of the original sizes then raises AssertionError, while compute_self_influence returns the sum of the products with both factors repeated to the larger size.", "quantifier": "all logs, numbers of rows per module, sizes, states and orders of modules", "why_tests_cant": "Needs a layer that is called once per batch (position embeddings, say) or covariances of another LoRA rank; no error is raised in most cases and the scores look plausible.", "anchors": ["logix/analysis/influence_function.py:129-139", "logix/analysis/influence_function.py:206-231", "logix/analysis/influence_function_utils.py:25-68"]}
{"id": "C95", "title": "A failed influence computation can spoil the logs it was given for good", "statement": "If nothing is missing, compute_influence and compute_self_influence return the scores of C41-C53 for logs of any origin, and change no log except that the target's tensors are moved to the device of the first tensor they are compared with. The same log as source and target is, if no preconditioning takes place, first moved as a whole to the device of its own first tensor, so that it can be scored against itself even where it cannot be scored against a copy. If the target has no gradients for a module of the source, a target that comes from the log loader raises KeyError and keeps its entries; any other target (a log of get_log or merge_logs) raises AttributeError, its tensors are moved, and an empty dictionary is stored in it as the missing gradients. The same happens to the source if it lacks the first entry of the target. From then on every compute_influence with that log as source or as dictionary target, and every compute_self_influence of it, raises, whatever was called in between, also with partners that fit. Likewise preconditioning a log with a module for which the state lacks a covariance or corrected eigenvalues stores an empty dictionary in the cached eigenvectors, inverses or corrected eigenvalues of that module (in the latter case the modules before it stay damped, C80), so that the corrected eigenvalues of this module can no longer be collected.", "quantifier": "all worlds of log dictionaries and states, all programs of influence calls afterwards", "why_tests_cant": "The damage is done by a call that raises and shows only in later calls, on an object the program may use much later; a test would have to catch the exception and go on.", "anchors": ["logix/utils.py:159-163", "logix/utils.py:202-220", "logix/analysis/influence_function.py:129-139", "logix/analysis/influence_function_utils.py:32-66", "logix/batch_info.py:26", "logix/logging/log_loader.py:60-82"]}
{"id": "C96", "title": "Scores of a raw run are inverse-second-moment products of the logged gradients", "statement": "Take a Hugging Face run scheduled with hessian 'raw', on an object that has collected nothing and an empty directory, one process, no LoRA, and any training steps during which the batch logs are the gradients M of the samples s_1..s_n, in any division into batches and accumulation steps. extract_log then succeeds; the log loader yields exactly these samples and gradients in order, at any batch size; the only statistics are, for every module, the mean over the samples of g g^T of the flattened gradients g, not a centred covariance. An influence run that follows, in dot mode with damping d > 0, over any test steps with gradients Q, succeeds and stores, for every test sample i and training sample j (and per group), the sum over the modules of p . g_j, where p solves (C + d I) p = (gradient of i) and C is that second moment. The batch sizes of training, testing and loading have no influence on any score.", "quantifier": "all models, training and test steps, batchings, dampings, groups", "why_tests_cant": "ties the files on disk, the statistics, the loader and the solver of one run together; each part can be right with the whole wrong (rows written twice, statistics of other rows than the stored ones, ids in another order)", "anchors": ["logix/huggingface/patch.py", "logix/huggingface/callback.py", "logix/scheduler.py", "logix/logging/logger.py", "logix/statistic/covariance.py", "logix/analysis/influence_function.py", "logix/analysis/influence_function_utils.py"]}
{"id": "C97", "title": "Scores of a KFAC run solve the Kronecker-factored system of the training data", "statement": "In the setting of C96 with hessian 'kfac', extract_log succeeds and leaves on disk the gradients of all samples and in the state exactly the covariances, for every module, of all activation rows and of all output-gradient rows that reached it in training (masked as in C27, divided by their count), none of gradients. An influence run that follows, in dot mode with damping d > 0, stores the sum over the modules of P . G_j, where P solves C_b P C_f + d P = (gradient of the test sample), C_f and C_b being these two covariances; the division into batches changes nothing but the order of the rows. This requires that both covariances of a module are on one device.", "quantifier": "all models, training and test steps, batchings, dampings, groups", "why_tests_cant": "end to end over training, storage, finalisation, decomposition and scoring", "anchors": ["logix/huggingface/patch.py", "logix/huggingface/callback.py", "logix/scheduler.py", "logix/logging/logger.py", "logix/statistic/covariance.py", "logix/state.py", "logix/analysis/influence_function.py", "logix/analysis/influence_function_utils.py"]}
{"id": "C98", "title": "Corrected eigenvalues work only as a statistic of gradients", "statement": "If 'corrected_eigval' is among the plugins of the forward (or backward) phase, then in every batch, whatever was logged or loaded before, every call of a watched module (or every backward pass of one) raises. The first time, before raising AssertionError, the update decomposes the covariances collected so far, usually none, and registers empty corrected eigenvalues; every other attribute keeps its value. From then on the decomposition handed out is that one, whatever covariances are collected later, so corrected eigenvalues of gradients collected afterwards on the same object raise as well; later updates raise without changing anything.", "quantifier": "all models, batches, states, plugins before and after it in the list, all statistics collected before and after", "why_tests_cant": "setup() accepts the plugin in every phase; the lasting effect of the failed call appears only in a later run on the same object", "anchors": ["logix/statistic/corrected_eigval.py:CorrectedEigval.update", "logix/logging/logger.py:HookLogger._forward_hook_fn,_backward_hook_fn", "logix/state.py:LogIXState.get_covariance_svd_state"]}
{"id": "C99", "title": "Self-influence runs keep nothing but the caches, unless a step fails", "statement": "A step of a Hugging Face self-influence run merges the logs kept since the last successful step, computes their self-influence with preconditioning ('auto' Hessian, the run's groups and damping) and discards the result: nothing but the statistics' caches changes and the kept logs are dropped. If the merge or the computation raises, the step raises the same error and the kept logs stay, so that the next step, also of an influence run on other data, scores those samples as well. A Lightning batch of a self-influence run scores only its own log, without groups, and keeps nothing.", "quantifier": "all models, steps, numbers of micro-batches, states, groups and dampings", "why_tests_cant": "the result is discarded, so a test sees no output; what a failed step leaves behind only shows in the next run", "anchors": ["logix/huggingface/callback.py:LogIXCallback.on_step_end,on_substep_end", "logix/lightning/callback.py:LogIXCallback.on_train_batch_end", "logix/analysis/influence_function.py:InfluenceFunction.compute_self_influence"]}
{"id": "C100", "title": "With corrected eigenvalues, the scores of a run depend on the optimizer step of each test sample", "statement": "In an influence run (or a series of influence calls) with corrected eigenvalues and a positive damping d, the test samples of the k-th optimizer step (call), counted from one, are preconditioned with the corrected eigenvalues plus k times d if these are on the gradients' device, and plus d otherwise; the scores kept are the inner products of the gradients so preconditioned with those of the logged samples, in order of the ids. So regrouping the same samples into other steps changes the scores, which it never does without corrected eigenvalues (see C69).", "quantifier": "all models, test samples, micro-batches, steps, epochs, loader batches, groups, dampings and devices", "why_tests_cant": "every step alone looks right; the error is that the eigenvalues of the shared state grow with each step, so only a comparison of two differently grouped runs shows it", "anchors": ["logix/analysis/influence_function_utils.py:precondition_kfac", "logix/state.py:LogIXState.get_covariance_svd_state", "logix/huggingface/callback.py:LogIXCallback.on_step_end", "logix/analysis/influence_function.py:InfluenceFunction.compute_influence_all"]}
{"id": "C101", "title": "A run with corrected eigenvalues scores in the eigenbasis of its covariances, and ends with these divided by their counts twice", "statement": "In the setting of C96 with hessian 'ekfac', extract_log over two epochs succeeds. The first epoch stores no samples and leaves, for every module, the covariances of all activation rows and of all output-gradient rows that reached it (as in C97). The second stores the gradients of its samples, which the log loader yields in order. The run ends with the eigenvectors of these covariances, with, for every module, the mean over the samples of the second epoch of the squared gradient entries in that eigenbasis, and with the covariances divided by their counts a second time, so that the stored covariances are no longer those that were decomposed. An influence run that follows, in dot mode with damping d > 0, stores the inner products of the logged gradients with the test gradients, each divided, entry by entry in the eigenbasis of the covariances of the first epoch, by the mean square plus the damping, which is k times d in the k-th optimizer step if the mean squares are on the CPU, as the test gradients are, and d otherwise (see C100).", "quantifier": "all models, training and test steps of both epochs, batchings, dampings, groups", "why_tests_cant": "end to end over two epochs, storage, decomposition, finalisation and scoring; the second division shows only in the state left by the whole run", "anchors": ["logix/scheduler.py:LogIXScheduler.configure_schedule,__next__", "logix/huggingface/patch.py", "logix/huggingface/callback.py", "logix/logging/logger.py", "logix/statistic/covariance.py", "logix/statistic/corrected_eigval.py", "logix/state.py:LogIXState.finalize,get_covariance_svd_state", "logix/analysis/influence_function.py", "logix/analysis/influence_function_utils.py:precondition_kfac"]}
{"id": "C102", "title": "A record that does not fit its metadata raises by the first path that does not fit; copies of chunks are never read", "statement": "For any metadata entry of a dataset: if its block reaches beyond the data file, reading it raises TypeError in both views, otherwise the flat view succeeds whatever else is wrong. As a dictionary, the first path decides for which something does not fit: no shape left raises IndexError, an empty shape TypeError, more elements than the block has left RuntimeError, an empty path IndexError; a path below an earlier path raises too. If all fit but leave part of the block over, AssertionError is raised; otherwise the record is read, and every path that no later path replaces leads to its part of the block, in order. In the loader, records of one batch must fit the structure of its first record: the first entry without a place raises KeyError if the key is missing there, AttributeError if it is a tensor in place of a dictionary, TypeError if it is a non-empty dictionary in place of a tensor. A data file named like a chunk followed by dots and letters of 'map', as log_rank_0_chunk_0.mmap.mmap, is never read: its name stands for the chunk itself, so without that chunk opening raises FileNotFoundError. When writing, keys of the write order that a record lacks are skipped, so that an array found without them is stored under the full path.", "quantifier": "all datasets, metadata entries, paths, shapes, structures, batch sizes, listings and file names", "why_tests_cant": "The ways in which metadata, data and structure can disagree are unbounded, and which exception wins depends on the order of the paths", "anchors": ["logix/logging/log_loader.py:LogDataset.__getitem__,fetch_data", "logix/logging/log_loader_utils.py:unflatten_tensor,get_flatten_item,collate_nested_dicts,_merge_dicts,find_chunk_indices", "logix/logging/mmap.py:get_from_nested_dict,MemoryMapHandler.write"]}
{"id": "C103", "title": "A trainer created with or without LoRA around a new LogIX object logs and scores as C96, C97 and C101 say", "statement": "A Hugging Face trainer (without initialize_from_log) created around a LogIX object on which nothing was done yet watches at least one module if its creation succeeds, and starts without statistics, log files, scores and loader, for every schedule; with LoRA, the write order left by the first watch is gone and holds only what is watched now. So for the 'raw' schedule: creating the trainer, one logging run and one influence run store p . g for every test and training sample, where p solves (C + d I) p = (test gradient) and C is the second moment of the training gradients g of the watched modules, i.e. with LoRA of the bottlenecks.", "quantifier": "all models, filters, LoRA settings, weights, batches, samples, gradients and damping values; one process, at most one saver worker", "why_tests_cant": "The hypotheses of the results about whole runs must hold after construction for every module tree and LoRA setting; tests of pieces start from hand-made objects", "anchors": ["logix/huggingface/patch.py:PatchedTrainer.__init__,extract_log,influence", "logix/huggingface/callback.py:LogIXCallback.on_init_end,on_train_begin", "logix/logix.py:LogIX.watch,add_lora", "logix/state.py:LogState.clear", "logix/logging/logger.py:HookLogger.clear"]}
{"id": "C104", "title": "Gradients of a module without a factor never get corrected eigenvalues", "statement": "If corrected eigenvalues are collected for a module whose forward covariance was never collected, the module's first gradient raises TypeError (AttributeError with CPU offloading); if only the backward covariance is missing, it raises AttributeError. All statistics collected before stay as they are, but the module is left with corrected eigenvalues zero and count zero, by which finalize would divide. Collecting covariances for the module afterwards does not repair this: every later gradient of it raises the same exception.", "quantifier": "for all states reached by any phases of statistics, all modules, devices, gradient shapes, eigenvalue routines, all later statistics calls and all later gradients of the module", "why_tests_cant": "the error appears only for particular module sets and orders of phases; the lasting damage shows only after further phases", "anchors": ["logix/statistic/corrected_eigval.py:CorrectedEigval.update", "logix/state.py:covariance_svd"]}
{"id": "C105", "title": "Scores of a whole Lightning run solve the systems of the training data, as in a Hugging Face run", "statement": "Take a Lightning trainer scheduled with hessian 'raw' or 'kfac', without LoRA, on an object that has collected nothing and an empty directory, one process, and a dataloader in whose epoch the gradients M of the samples s_1..s_n are logged, in any division into batches. extract_log then trains exactly one epoch and succeeds, and disk and state are those of C96 and C97: the gradients of all samples in order, and the second moments of the gradients ('raw') or the covariances of activations and output gradients ('kfac'), nothing else. An influence run that follows over test batches with gradients Q, in dot mode with damping d > 0, succeeds and stores the same scores as the Hugging Face trainer: the sum over the modules of p . g_j where p solves (C + d I) p = (gradient of the test sample), or C_b p C_f + d p = (that gradient). Further epochs of the dataloaders are not trained. The sample ids must be such that they can be written as JSON.", "quantifier": "all models, training and test batches, batchings, dampings", "why_tests_cant": "ties hooks, epochs, files on disk, statistics, loader and solver of a run together for a trainer whose hooks run at other moments than those of the Hugging Face callback", "anchors": ["logix/lightning/patch.py", "logix/lightning/callback.py", "logix/scheduler.py", "logix/logging/logger.py", "logix/statistic/covariance.py", "logix/analysis/influence_function.py"]}
{"id": "C106", "title": "A Lightning module patched with or without LoRA around a new LogIX object logs and scores as C105 says", "statement": "patch() around a new LogIX object with an empty directory, followed by the construction of the patched module without initialize_from_log, leaves a trainer that, whatever its hessian, watches at least one module, has no statistics, no files, no results and has trained no epoch: it meets the hypotheses of C105. With LoRA the watched modules are the bottlenecks only (C91), and so are those whose gradients are stored and scored. Hence for hessian 'raw' creation, extract_log and influence together store, for every test sample and every training sample, the sum over the watched modules of p . g where p solves (C + d I) p = (test gradient) and C is the second moment of the training gradients. With LoRA the model must not itself be a layer.", "quantifier": "all models, filters, LoRA configurations, training and test batches, dampings", "why_tests_cant": "the constructor clears and re-watches the model when it adds LoRA; that what remains of the first watching (savers, buffers, handles) never affects a later run is a statement about all runs", "anchors": ["logix/lightning/patch.py", "logix/lightning/callback.py", "logix/logix.py", "logix/lora/lora.py"]}
{"id": "C107", "title": "Scores of a whole Lightning run with corrected eigenvalues use the mean squares of the training gradients, with a damping that grows with every test batch", "statement": "Take a Lightning trainer scheduled with hessian 'ekfac', without LoRA, that has trained no epoch, on an object that has collected nothing and an empty directory, one process. extract_log trains exactly two epochs: the first collects the covariances of activations and output gradients and writes nothing; after the second the gradients of its samples are on disk in order, and the state holds the covariances divided by their counts once more, the eigenvectors of the (once divided) covariances and, for every module, the means over the samples of the squared coefficients of the gradient in that eigenbasis. An influence run in dot mode with damping d > 0 that follows stores scores p . g where, in that basis, the coefficients of p times (mean squares + c d) are those of the test gradient; c is 1 for the samples of the first test batch, 2 for those of the second, and so on, when the corrected eigenvalues are on the CPU like the gradients, and 1 otherwise. In a trainer that has trained an epoch before, extract_log succeeds but stops after the first epoch: no sample is written.", "quantifier": "all models, training and test batches, batchings, dampings, numbers of epochs trained before", "why_tests_cant": "ties two epochs with different statistics, files, decompositions and the scoring together; the growing damping depends on the division into batches, and the early stop on the trainer's history", "anchors": ["logix/lightning/patch.py", "logix/lightning/callback.py", "logix/scheduler.py", "logix/logging/logger.py", "logix/statistic/corrected_eigval.py", "logix/analysis/influence_function.py"]}
{"id": "C108", "title": "Scores computed in a later process are those of the logging process with initialize_from_log, and plain inner products without", "statement": "Let a Hugging Face run scheduled with hessian 'raw' or 'kfac', without LoRA, have logged the gradients M of its samples as in C96 and C97. Let another trainer be created in the same directory, around an object that has collected nothing, and run influence over test gradients Q in dot mode, with any batch size of the log loader. With initialize_from_log and damping d > 0 it succeeds and stores exactly the scores of C96 and C97: p . g where p solves the damped system of the second moment, or of the Kronecker factors, of the gradients, activations and output gradients seen by the first process. Without initialize_from_log it succeeds as well (a warning is logged) and stores the inner products of the gradients in Q and M themselves: neither the statistics on disk nor the damping have any effect. A trainer created around a new LogIX object in that directory, without LoRA, always starts this way.", "quantifier": "all models, training and test steps, batchings, loader batch sizes, dampings, groups", "why_tests_cant": "relates two processes through the files between them: statistics saved by finalize, restored under the names registered in another object, together with records read at another batch size; without the flag nothing fails, only the numbers differ", "anchors": ["logix/huggingface/callback.py", "logix/huggingface/patch.py", "logix/logix.py", "logix/state.py", "logix/analysis/influence_function.py"]}
{"id": "C109", "title": "Corrected eigenvalues survive into a later process, where the damping starts anew", "statement": "Let a Hugging Face run scheduled with hessian 'ekfac', without LoRA, have trained its two epochs as in C101. Let another trainer be created in the same directory, around an object that has collected nothing, and run influence with initialize_from_log over test gradients Q in dot mode with damping d > 0, with any batch size of the log loader. It succeeds and stores scores p . g where, in the eigenbasis of the covariances of the first epoch, the coefficients of p times (mean squares of the training gradients + c d) are those of the test gradient. c is 1 for the samples of the first optimizer step of the second process, 2 for those of the second, and so on, when the corrected eigenvalues are on the CPU, and 1 otherwise: the eigenvalues read from disk carry no damping.", "quantifier": "all models, training and test steps, batchings, loader batch sizes, dampings, groups", "why_tests_cant": "the states of the corrected eigenvalues are registered during logging only; that a new object restores all of them under the same names, and none that was changed by scoring, relates two processes", "anchors": ["logix/huggingface/callback.py", "logix/huggingface/patch.py", "logix/logix.py", "logix/state.py", "logix/statistic/corrected_eigval.py", "logix/analysis/influence_function.py"]}
