# Formal model of logix in Rocq (Coq 8.16.1)

## Approach

* Shallow, executable Gallina models mirror the Python functions branch by branch. Each definition
  cites the file and lines it models. Exceptions are values (`res A := Ok a | Err e`). Operations on
  objects are functions `state -> state * res A`: the state left behind by an exception is part of
  the model.
* Python dicts are insertion-ordered association lists; nested dicts are a nested inductive.
* Scalars of tensors are an abstract ordered field (`Field.v`); concrete cases use the rationals
  `Qc`. Numeric theorems are about exact arithmetic: rounding, NaN and infinities are not modelled.
* Arrays on disk are byte lists; the storage theorems are byte-exact.
* External routines are function arguments: `torch.linalg.eigh`, `torch.inverse`, `sqrt`, `svd`,
  random initialisation, SHA-256, user module code. What a theorem needs of them is a hypothesis in
  its statement (`eigh_contract`, `inverse_contract`, ...).
* The autograd engine is represented by the events it causes (a call of a module, a gradient arriving
  at an output); theorems quantify over all event sequences.
* `LogSaver` and `LogIXState` share the dictionary `model_module` until `load_state` replaces it; the
  model carries a flag for this.
* Buffered rows of logs on the CPU are memory of the log tensors (`to_numpy` does not copy). The model
  records these rows (`x_views`): `settle` is the buffer as a reader sees it, and `detach` fixes the
  rows when the log object is dropped. Rows of activations logged without a copy (`Ref`) are taken as
  copied when saved, and so are rows left over in memory by a second tensor of the same name.
* Several processes: a list of states; `all_reduce` pairs the k-th call of every rank
  (`CollectiveMismatch` if they differ).

## Files (rocq/theories)

| files | content |
|---|---|
| `Py.v`, `PyStr.v`, `Monad.v`, `Field.v`, `Tensor.v` | exceptions, dicts, strings, state monad, scalars, tensors |
| `Model*.v` | the code, no proofs |
| `Spec*.v` | vocabulary of the property statements |
| `*Proofs*.v`, `InfAlg.v` | lemmas |
| `Ex*.v` | concrete objects for the examples |
| `Prop*.v` | property theorems, each closed by `exact`, each followed by `Print Assumptions`, and an `Example` showing a concrete case that meets the hypotheses |

| properties | theorems in | model |
|---|---|---|
| C01-C16 storage | `PropStore.v` | `ModelMmap`, `ModelSaver`, `ModelLoader` |
| C17-C18 per-sample gradients | `PropGrad.v` | `ModelGrad` |
| C19-C29, C33, C62-C64 hooks, batches, options | `PropLogger.v` | `ModelLogger` |
| C92 saved rows that follow the log | `PropView.v` | `ModelLogger`, `ModelSaver` |
| C93 data type of the log | `PropDtype.v` | `ModelDtype` |
| C82 watched tensors | `PropAct.v` | `ModelLogger` |
| C85, C86 copies of logs, watch | `PropWatch.v` | `ModelLogger`, `ModelLora` |
| C87, C88 logs that cannot be stored, damaged directories; file sizes of C01, crash of C09 | `PropDamage.v` | `ModelMmap`, `ModelSaver`, `ModelLoader` |
| C89 (and further theorems of C27) what the hooks accept | `PropHooks.v` | `ModelLogger` |
| C83, C84 front end, module-level functions | `PropRun.v` | `ModelRun`, `ModelLoader`, `ModelConfig` |
| C30 scheduler | `PropScheduler.v` | `ModelScheduler` |
| C31, C32, C34-C40 statistics and state | `PropState.v` | `ModelState` |
| C41-C53, C60 influence, merged logs | `PropInfluence.v` | `ModelInfluence` |
| C67, C68 source batches, repeated calls | `PropRows.v` | `ModelInfluence` |
| C94 sizes of one | `PropSpread.v` | `ModelInfluence` |
| C95 what failed reads leave behind | `PropReads.v` | `ModelReads` |
| C98 corrected eigenvalues outside the gradient phase | `PropEigval.v` | `ModelState`, `ModelLogger` |
| C99 self-influence runs | `PropSelf.v` | `ModelTrainer`, `ModelLightning` |
| C100 influence runs with corrected eigenvalues | `PropDrift.v` | `ModelTrainer`, `ModelInfluence` |
| C101 from training to scores with corrected eigenvalues | `PropEkfac.v` | all of these |
| C102 records that do not fit their metadata, stray files | `PropRecord.v` | `ModelMmap`, `ModelLoader` |
| C103 from the constructor of a trainer, with LoRA, to scores | `PropBorn.v` | all of these |
| C104 corrected eigenvalues of modules without a factor | `PropFactor.v` | `ModelState` |
| C105 Lightning: from the logging run to scores | `PropLightWhole.v` | all of these |
| C106 from the constructor of a Lightning module, with LoRA, to scores | `PropLightBorn.v` | all of these |
| C107 Lightning: two epochs with corrected eigenvalues, then scores | `PropLightEkfac.v` | all of these |
| C108 scores in a later process, with and without initialize_from_log | `PropReopen.v` | all of these |
| C109 corrected eigenvalues in a later process | `PropReopenEkfac.v` | all of these |
| C80, C81 logs that do not fit | `PropFault.v` | `ModelInfluence` |
| C54-C57, C65, C66 LoRA and watching | `PropLora.v` | `ModelModules`, `ModelLora` |
| C58, C59 data ids | `PropUtils.v` | `ModelUtils` |
| C69-C73 Hugging Face trainer | `PropTrainer.v` | `ModelTrainer` |
| C74, C75 from training to stored records | `PropDisk.v` | `ModelTrainer`, `ModelLogger`, `ModelSaver`, `ModelLoader` |
| C96, C97 from training to scores; gradient statistics of C63 | `PropWhole.v` | all of these |
| C76-C79 Lightning trainer | `PropLightning.v` | `ModelLightning` |
| C61 configuration | `PropConfig.v` | `ModelConfig` |

A property's text says what is true at this commit, including where the code misbehaves. Theorems
ending in `_refuted` exhibit a witness for such misbehaviour. `MANIFEST.json` maps properties to
theorems.

## Trusted base

* The Coq 8.16.1 kernel and its `vm_compute`.
* No axioms. Every `Print Assumptions` in `Prop*.v` reports `Closed under the global context`. The
  checker's list of library axioms contains seven constants of `Coq.ssr.ssrunder`. These are module
  parameters of the standard library's own files, loaded by its tactics; no theorem depends on them.
* That the models describe the code. The list below says which code, and what was left out.
* The hypotheses about external routines in the theorem statements.

## What is modelled, and what is not

| code | modelled | left out |
|---|---|---|
| `logging/mmap.py` | all functions, bytes and files, crash at any point of a write | page cache, partial writes inside one byte string |
| `logging/log_saver.py` | all functions; the pool is joined inside the flush, so no interleaving arises | `dtype` conversion |
| `logging/log_loader.py`, `log_loader_utils.py` | index construction, file name matching, `__getitem__`, collation, flattening | worker processes of `DataLoader`, shuffling, `pin_memory`; which exception torch raises when a path of the metadata leads below a tensor (the model says TypeError, C102 only that something is raised) |
| `logging/utils.py`, `statistic/utils.py` | gradient einsum, `make_2d`, patches, unbatched convolution inputs; string padding and other padding modes in the two functions alone (`psg_padded`, `forward_padded`) | convolution inputs of rank 5 and more (`nn.Conv2d` rejects them), string padding and other padding modes in the module trees |
| `logging/option.py`, `logger.py`, `batch_info.py`, `statistic/log.py` | all hooks, tensors with identity and sharing, masks, `get_log`; `log_dtype` in `ModelDtype.v`, for any conversion of values (elsewhere it is `none`) | rounding and overflow of sums of converted tensors, torch's version counters, backward passes with `create_graph` |
| `state.py`, `statistic/*.py` | all functions, devices, several processes | dtypes; entries inserted by failed reads of the statistics themselves (those of the influence functions are in `ModelReads.v`) |
| `analysis/influence_function*.py` | all functions; products and sums broadcast sizes of one as torch does; a second model with log dictionaries as objects (`ModelReads.v`), proved to follow the first where nothing is missing | progress bars, devices per tensor beyond CPU/GPU; `opt_einsum`, with which torch raises ValueError instead of RuntimeError for sizes that do not fit |
| `utils.py` | `module_check`, `merge_logs`, `flatten_log`, `synchronize_device`, `DataIDGenerator` | logging to the console |
| `lora/*.py` | all functions, module trees with shared modules, grouped and dilated convolutions | negative rank |
| `scheduler.py` | all functions | changes of attributes from outside |
| `config.py` | construction, saving, loading, log directories, default values | processes other than rank 0, file permissions, YAML syntax |
| `logix.py` | every method, split over the models above; `initialize_from_log` reads its own LoRA file after `add_lora` has written it, and the LoRA section of `config.yaml`; the kept dataset and loader, read lazily (`ModelRun.v`) | worker and pinning arguments of `build_log_dataloader`, influence calls on a log without data ids |
| `__init__.py` | `init` and the twelve functions, over arbitrary constructors and methods | the warning of a second `init` |
| `huggingface/callback.py`, `patch.py` | callback, `training_step`, data ids, the three kinds of runs; the loop of transformers as the events it causes | distributed training, sagemaker, apex, `n_gpu > 1`; reading failures of the log appear when the loader is built |
| `lightning/callback.py`, `patch.py` | callback, patched module and trainer, the three kinds of runs; Lightning's loop as the events it causes | optimizer and parameters of Lightning, `min_epochs`, validation, distributed training; reading failures of the log appear when the loader is built |

## Mutation tests

`seeded/LOG.jsonl` has one line per wrong program tried: a definition of a `Model*.v` file was changed
in a copy, the development was rebuilt, and the theorems that no longer went through were recorded.
Survivors led to new or sharper theorems, or are explained in their note. Where the note says `not
analysed`, neither has been done: the change may be visible from the API without any theorem noticing.
A mutant is recorded with the theorems of the day it was tried, unless it was tried again later.
