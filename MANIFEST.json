{
 "claims": [
  {
   "property": "C01",
   "status": "proved",
   "theorems": [
    "C01_file_size",
    "C01_flush_roundtrip"
   ],
   "note": ""
  },
  {
   "property": "C02",
   "status": "proved",
   "theorems": [
    "C02_no_loss_sync"
   ],
   "note": ""
  },
  {
   "property": "C03",
   "status": "proved",
   "theorems": [
    "C03_repeated_ids",
    "C03_transparency_refuted"
   ],
   "note": "C03_transparency_refuted is the counterexample part of the property (value depends on the threshold)."
  },
  {
   "property": "C04",
   "status": "proved",
   "theorems": [
    "C04_async_discards",
    "C04_async_two_char"
   ],
   "note": "Both the generic case and the two-character-id corner of the pool callback are covered."
  },
  {
   "property": "C05",
   "status": "proved",
   "theorems": [
    "C05_names_agree",
    "C05_chunk_order"
   ],
   "note": ""
  },
  {
   "property": "C06",
   "status": "proved",
   "theorems": [
    "C06_multi_rank"
   ],
   "note": ""
  },
  {
   "property": "C07",
   "status": "proved",
   "theorems": [
    "C07_mixed_dtypes",
    "C07_two_dtypes_count"
   ],
   "note": ""
  },
  {
   "property": "C08",
   "status": "proved",
   "theorems": [
    "C08_only_grads",
    "C08_missing_grad"
   ],
   "note": ""
  },
  {
   "property": "C09",
   "status": "proved",
   "theorems": [
    "C09_crash_meta",
    "C09_crash_consistency",
    "C09_rerun_crash_refuted"
   ],
   "note": "The window and the fresh-chunk condition are explicit; C09_rerun_crash_refuted is the undetected-corruption witness."
  },
  {
   "property": "C10",
   "status": "proved",
   "theorems": [
    "C10_rerun",
    "C10_rerun_clean"
   ],
   "note": ""
  },
  {
   "property": "C11",
   "status": "proved",
   "theorems": [
    "C11_bounded_buffer"
   ],
   "note": ""
  },
  {
   "property": "C12",
   "status": "proved",
   "theorems": [
    "C12_layout"
   ],
   "note": ""
  },
  {
   "property": "C13",
   "status": "proved",
   "theorems": [
    "C13_unserialisable"
   ],
   "note": ""
  },
  {
   "property": "C14",
   "status": "proved",
   "theorems": [
    "C14_views_agree"
   ],
   "note": ""
  },
  {
   "property": "C15",
   "status": "proved",
   "theorems": [
    "C15_dataloader",
    "C15_pieces",
    "C15_row_aligned",
    "C15_dataloader_flat",
    "C15_flat_ids",
    "C15_extra_key",
    "C15_missing_key_refuted"
   ],
   "note": "C15_missing_key_refuted is the silent-misalignment witness named in the property."
  },
  {
   "property": "C16",
   "status": "proved",
   "theorems": [
    "C16_fewer_ids",
    "C16_too_many_ids"
   ],
   "note": ""
  },
  {
   "property": "C17",
   "status": "proved",
   "theorems": [
    "C17_linear",
    "C17_unique",
    "C17_mismatch",
    "C17_broadcast",
    "C17_unbatched",
    "C17_unsupported"
   ],
   "note": ""
  },
  {
   "property": "C18",
   "status": "proved",
   "theorems": [
    "C18_conv2d",
    "C18_grouped",
    "C18_too_small"
   ],
   "note": ""
  },
  {
   "property": "C19",
   "status": "proved",
   "theorems": [
    "C19_batch_gradients",
    "C19_gradients_any_order",
    "C19_linear_gradient"
   ],
   "note": "Autograd is represented by the events of the program (which gradient tensors arrive at which outputs, in any order); the gradient claim for linear layers is proved against a polynomial definition of gradient."
  },
  {
   "property": "C20",
   "status": "proved",
   "theorems": [
    "C20_watch_again",
    "C20_batch_multiples"
   ],
   "note": ""
  },
  {
   "property": "C21",
   "status": "proved",
   "theorems": [
    "C21_end_transparent",
    "C21_after_statistics",
    "C21_clear_silences"
   ],
   "note": ""
  },
  {
   "property": "C22",
   "status": "proved",
   "theorems": [
    "C22_start_fresh",
    "C22_call_enter_fresh",
    "C22_isolated"
   ],
   "note": ""
  },
  {
   "property": "C23",
   "status": "proved",
   "theorems": [
    "C23_raising_block",
    "C23_failing_block"
   ],
   "note": ""
  },
  {
   "property": "C24",
   "status": "proved",
   "theorems": [
    "C24_log_discards"
   ],
   "note": ""
  },
  {
   "property": "C25",
   "status": "proved",
   "theorems": [
    "C25_got_copy",
    "C25_got_copy_iff",
    "C25_got_view",
    "C25_got_view_next"
   ],
   "note": ""
  },
  {
   "property": "C26",
   "status": "proved",
   "theorems": [
    "C26_quiet_ops",
    "C26_saves_when_asked",
    "C26_eval_off"
   ],
   "note": ""
  },
  {
   "property": "C27",
   "status": "proved",
   "theorems": [
    "C27_mask_positions_general",
    "C27_mask_features_general",
    "C27_mask_scalar",
    "C27_mask_positions",
    "C27_mask_zeroes",
    "C27_mask_ignored",
    "C27_mask_features",
    "C27_mask_features_ignored",
    "C27_mask_rank",
    "C27_mask_device",
    "C27_forward_logged",
    "C27_batch_statistics"
   ],
   "note": ""
  },
  {
   "property": "C28",
   "status": "proved",
   "theorems": [
    "C28_setup_ok",
    "C28_setup_bad",
    "C28_requested_nodup",
    "C28_requested_unique",
    "C28_opt_setup_again",
    "C28_lists",
    "C28_is_grad"
   ],
   "note": ""
  },
  {
   "property": "C29",
   "status": "proved",
   "theorems": [
    "C29_batch_without_log",
    "C29_batch_with_log"
   ],
   "note": ""
  },
  {
   "property": "C30",
   "status": "proved",
   "theorems": [
    "C30_sched_good",
    "C30_sched_bad",
    "C30_next_epoch",
    "C30_next_exhausted",
    "C30_add_lora_fresh",
    "C30_next_no_parameters"
   ],
   "note": "The statistics themselves are those of C19-C40; here it is which of them are switched on when."
  },
  {
   "property": "C31",
   "status": "proved",
   "theorems": [
    "C31_mean",
    "C31_split",
    "C31_count"
   ],
   "note": "C31_narrow is the case of rows of width one, which the in-place addition repeats."
  },
  {
   "property": "C32",
   "status": "proved",
   "theorems": [
    "C32_covariance",
    "C32_psd"
   ],
   "note": ""
  },
  {
   "property": "C33",
   "status": "proved",
   "theorems": [
    "C33_masked_statistics",
    "C33_plain_statistics"
   ],
   "note": ""
  },
  {
   "property": "C34",
   "status": "proved",
   "theorems": [
    "C34_phases",
    "C34_repeated"
   ],
   "note": ""
  },
  {
   "property": "C35",
   "status": "proved",
   "theorems": [
    "C35_variance"
   ],
   "note": ""
  },
  {
   "property": "C36",
   "status": "proved",
   "theorems": [
    "C36_ekfac",
    "C36_after_svd"
   ],
   "note": ""
  },
  {
   "property": "C37",
   "status": "proved",
   "theorems": [
    "C37_ranks",
    "C37_order_refuted"
   ],
   "note": "C37_order_refuted is the witness for ranks touching keys in different orders."
  },
  {
   "property": "C38",
   "status": "proved",
   "theorems": [
    "C38_offload",
    "C38_converse",
    "C38_values"
   ],
   "note": ""
  },
  {
   "property": "C39",
   "status": "proved",
   "theorems": [
    "C39_save_load",
    "C39_missing",
    "C39_resume"
   ],
   "note": ""
  },
  {
   "property": "C40",
   "status": "proved",
   "theorems": [
    "C40_clear",
    "C40_stale",
    "C40_init",
    "C40_set_state"
   ],
   "note": "The failure of preconditioning with the emptied decompositions is shown at the level of the state: the getters return empty dictionaries."
  },
  {
   "property": "C41",
   "status": "proved",
   "theorems": [
    "C41_influence_dot",
    "C41_influence_head_missing",
    "C41_influence_mismatch",
    "C41_influence_ids"
   ],
   "note": ""
  },
  {
   "property": "C42",
   "status": "proved",
   "theorems": [
    "C42_batches_dot",
    "C42_batches_kfac",
    "C42_batches_raw",
    "C42_batches_uncovered",
    "C42_ekfac_refuted"
   ],
   "note": "C42_ekfac_refuted is the counterexample for corrected eigenvalues named in the property."
  },
  {
   "property": "C43",
   "status": "proved",
   "theorems": [
    "C43_flat_nested",
    "C43_flat_groups",
    "C43_flat_modes",
    "C43_self_flat"
   ],
   "note": ""
  },
  {
   "property": "C44",
   "status": "proved",
   "theorems": [
    "C44_raw_solves"
   ],
   "note": "torch.inverse is an argument with its contract as hypothesis (inverse_contract)."
  },
  {
   "property": "C45",
   "status": "proved",
   "theorems": [
    "C45_kfac_solves"
   ],
   "note": "torch.linalg.eigh is an argument with its contract as hypothesis (eigh_contract)."
  },
  {
   "property": "C46",
   "status": "proved",
   "theorems": [
    "C46_kfac_default",
    "C46_kfac_local",
    "C46_order_refuted"
   ],
   "note": "C46_order_refuted is the witness that the order of modules matters without an explicit damping."
  },
  {
   "property": "C47",
   "status": "proved",
   "theorems": [
    "C47_raw_damping_ignored",
    "C47_calls_keep_inverse"
   ],
   "note": ""
  },
  {
   "property": "C48",
   "status": "proved",
   "theorems": [
    "C48_kfac_repeat",
    "C48_ekfac_step",
    "C48_ekfac_default",
    "C48_ekfac_drift"
   ],
   "note": ""
  },
  {
   "property": "C49",
   "status": "proved",
   "theorems": [
    "C49_self_diagonal",
    "C49_kfac_positive",
    "C49_raw_positive",
    "C49_plain_positive"
   ],
   "note": ""
  },
  {
   "property": "C50",
   "status": "proved",
   "theorems": [
    "C50_groups_add_up",
    "C50_group_unmatched",
    "C50_self_group_unmatched"
   ],
   "note": ""
  },
  {
   "property": "C51",
   "status": "proved",
   "theorems": [
    "C51_saved_history",
    "C51_saved_empty",
    "C51_saved_error",
    "C51_unsaved",
    "C51_saved_failed",
    "C51_saved_missing_group"
   ],
   "note": ""
  },
  {
   "property": "C52",
   "status": "proved",
   "theorems": [
    "C52_uncovered",
    "C52_bad_hessian",
    "C52_no_covariance"
   ],
   "note": ""
  },
  {
   "property": "C53",
   "status": "proved",
   "theorems": [
    "C53_l2_cosine",
    "C53_bad_mode"
   ],
   "note": "The square root is an uninterpreted function."
  },
  {
   "property": "C54",
   "status": "proved",
   "theorems": [
    "C54_add_lora_same",
    "C54_add_lora_repeated",
    "C54_add_lora_dilated"
   ],
   "note": "The user's forward methods are an arbitrary function of the children's functions (hypothesis calls_only). Unbatched convolution inputs and string padding are outside the model."
  },
  {
   "property": "C55",
   "status": "proved",
   "theorems": [
    "C55_f_linear_spec",
    "C55_f_conv2d_spec",
    "C55_lora_linear_projection",
    "C55_lora_conv_projection"
   ],
   "note": "The gradient arriving at the bottleneck's output is characterised by is_gradient, the polynomial definition of gradient; the encoder's convolution is the one modules.py builds (no dilation, no groups)."
  },
  {
   "property": "C56",
   "status": "proved",
   "theorems": [
    "C56_add_lora_tree",
    "C56_add_lora_tracked",
    "C56_add_lora_bottlenecks",
    "C56_add_lora_all",
    "C56_add_lora_again"
   ],
   "note": "Trees may share modules; tree_ok says attribute names are distinct and non-empty and an object has one content."
  },
  {
   "property": "C57",
   "status": "proved",
   "theorems": [
    "C57_add_lora_narrow",
    "C57_add_lora_fails",
    "C57_add_lora_succeeds",
    "C57_add_lora_bare"
   ],
   "note": ""
  },
  {
   "property": "C58",
   "status": "proved",
   "theorems": [
    "C58_index_consecutive",
    "C58_index_call",
    "C58_other_mode"
   ],
   "note": ""
  },
  {
   "property": "C59",
   "status": "proved",
   "theorems": [
    "C59_hash_good",
    "C59_hash_content",
    "C59_hash_bad",
    "C59_hash_no_iter"
   ],
   "note": "sha256 is an arbitrary function."
  },
  {
   "property": "C60",
   "status": "proved",
   "theorems": [
    "C60_merge_ok",
    "C60_merge_misfit",
    "C60_merge_size",
    "C60_merge_rows"
   ],
   "note": ""
  },
  {
   "property": "C61",
   "status": "proved",
   "theorems": [
    "C61_new_run_ok",
    "C61_new_run_logging",
    "C61_new_run_no_file",
    "C61_new_run_no_project",
    "C61_new_run_no_dict",
    "C61_new_run_unknown",
    "C61_new_run_unknown_sec",
    "C61_new_run_root",
    "C61_new_run_logging_null",
    "C61_new_run_nowhere",
    "C61_run_set_lora",
    "C61_run_finalize",
    "C61_save_config_default",
    "C61_save_config_missing",
    "C61_run_initialize",
    "C61_run_initialize_bad",
    "C61_new_saved",
    "C61_load_saved",
    "C61_load_file",
    "C61_load_file_homeless",
    "C61_load_file_bad",
    "C61_load_no_file",
    "C61_load_no_dict"
   ],
   "note": "yaml.dump followed by yaml.safe_load is taken to give back the values with sorted keys."
  },
  {
   "property": "C62",
   "status": "proved",
   "theorems": [
    "C62_batch_inputs",
    "C62_batch_outputs"
   ],
   "note": "For failing outputs with a mask or forward options configured, the call still raises, but an earlier hook may determine the kind of the exception."
  },
  {
   "property": "C63",
   "status": "proved",
   "theorems": [
    "C63_pristine_init",
    "C63_pristine_ops",
    "C63_epoch_statistics",
    "C63_gradient_statistics"
   ],
   "note": ""
  },
  {
   "property": "C64",
   "status": "proved",
   "theorems": [
    "C64_reuse_overwrites"
   ],
   "note": "torch's own check for in-place changes of tensors saved for backward (which then raises in the backward pass) is not modelled."
  },
  {
   "property": "C65",
   "status": "proved",
   "theorems": [
    "C65_add_lora_random",
    "C65_add_lora_pca",
    "C65_add_lora_pca_missing"
   ],
   "note": "torch.linalg.svd is an argument; the only thing assumed is that U of a square matrix is square."
  },
  {
   "property": "C66",
   "status": "proved",
   "theorems": [
    "C66_save_lora_saves",
    "C66_lora_restored",
    "C66_lora_unknown",
    "C66_lora_misfit",
    "C66_add_lora_path",
    "C66_from_log_loads",
    "C66_from_log_adds",
    "C66_from_log_lost",
    "C66_from_log_after",
    "C66_from_log_nothing",
    "C66_from_log_fails",
    "C66_initialize_missing",
    "C66_initialize",
    "C66_finalize"
   ],
   "note": "The state_dict is restricted to weights and biases of layers; buffers and other parameters are outside the model. C66_from_log_lost and C66_lost_example give the loss of the stored weights."
  },
  {
   "property": "C67",
   "status": "proved",
   "theorems": [
    "C67_source_batches",
    "C67_source_rows",
    "C67_ekfac_refuted"
   ],
   "note": "All tensors of the log have the same number of samples. torch.linalg.eigh and inverse are arbitrary functions."
  },
  {
   "property": "C68",
   "status": "proved",
   "theorems": [
    "C68_ask_again",
    "C68_ask_keeps",
    "C68_plain_kept",
    "C68_plain_reached"
   ],
   "note": "torch.linalg.eigh and inverse are arbitrary functions; the same arguments give the same result."
  },
  {
   "property": "C69",
   "status": "proved",
   "theorems": [
    "C69_influence"
   ],
   "note": "The training loop of transformers is represented by the callback events it causes; forward and backward passes are arbitrary event sequences."
  },
  {
   "property": "C70",
   "status": "proved",
   "theorems": [
    "C70_other_runs",
    "C70_loader_kept"
   ],
   "note": "The model reads a record of the log when the loader is built; the code maps the files again in every pass."
  },
  {
   "property": "C71",
   "status": "proved",
   "theorems": [
    "C71_step",
    "C71_unmerged"
   ],
   "note": "Steps whose micro-batches train without an exception. A failing loader is left out of the statement."
  },
  {
   "property": "C72",
   "status": "proved",
   "theorems": [
    "C72_consumes",
    "C72_exhausted"
   ],
   "note": "The epochs are those the training loop starts, whatever happens in them."
  },
  {
   "property": "C73",
   "status": "proved",
   "theorems": [
    "C73_runs",
    "C73_no_labels",
    "C73_ids",
    "C73_no_ids_saved",
    "C73_no_ids_influence"
   ],
   "note": "The tokenizer and SHA-256 are arbitrary functions."
  },
  {
   "property": "C74",
   "status": "proved",
   "theorems": [
    "C74_written",
    "C74_loader"
   ],
   "note": "Encoding and decoding of scalars are functions with a round-trip contract on the representable values."
  },
  {
   "property": "C75",
   "status": "proved",
   "theorems": [
    "C75_watch",
    "C75_shared",
    "C75_loaded_refuted"
   ],
   "note": "Objects are those reached by the modelled calls, or freshly constructed on an existing directory."
  },
  {
   "property": "C76",
   "status": "proved",
   "theorems": [
    "C76_influence"
   ],
   "note": "Lightning's training loop is represented by the callback events it causes; forward and backward passes are arbitrary event sequences."
  },
  {
   "property": "C77",
   "status": "proved",
   "theorems": [
    "C77_epochs",
    "C77_one_epoch",
    "C77_trained_before_refuted"
   ],
   "note": "should_stop is taken to end the loop after the current epoch; min_epochs is 1 or less and max_epochs is not reached earlier than the dataloader's epochs given."
  },
  {
   "property": "C78",
   "status": "proved",
   "theorems": [
    "C78_other_runs",
    "C78_self_needs_log"
   ],
   "note": "A batch that logs without an exception; the loader has not been built before."
  },
  {
   "property": "C79",
   "status": "proved",
   "theorems": [
    "C79_default_ids",
    "C79_default_fails"
   ],
   "note": "SHA-256 is an arbitrary function."
  },
  {
   "property": "C80",
   "status": "proved",
   "theorems": [
    "C80_kfac_misfit",
    "C80_ekfac_misfit",
    "C80_raw_misfit",
    "C80_empty_log",
    "C80_flat_log"
   ],
   "note": "Eigendecomposition and inverse are functions with their mathematical contracts as hypotheses. The modules before the failing one are fit; sizes of one, which einsum broadcasts, are in C94."
  },
  {
   "property": "C81",
   "status": "proved",
   "theorems": [
    "C81_two_devices",
    "C81_empty_source",
    "C81_empty_self",
    "C81_flat_source",
    "C81_nothing_watched",
    "C81_target_group"
   ],
   "note": "Without preconditioning of the source. For the target-only group the self-influence of the target is a hypothesis, since modes l2 and cosine compute it with the given state."
  },
  {
   "property": "C82",
   "status": "proved",
   "theorems": [
    "C82_forward",
    "C82_total",
    "C82_untracked",
    "C82_statistics",
    "C82_backward",
    "C82_backward_statistics",
    "C82_too_early"
   ],
   "note": "Log entries, statistics calls, partial effect before RuntimeError, gradients per name, and tensors handed over too early. C82_total needs logging only; C82_backward_statistics needs o_grad empty."
  },
  {
   "property": "C83",
   "status": "proved",
   "theorems": [
    "C83_first",
    "C83_unreadable",
    "C83_bad_size",
    "C83_loader_kept",
    "C83_dataset_kept",
    "C83_loader_over",
    "C83_nested",
    "C83_flat",
    "C83_nested_flatten",
    "C83_flat_nested_refuted",
    "C83_broken_record",
    "C83_default_loader",
    "C83_default_loader_fails",
    "C83_default_source",
    "C83_value",
    "C83_broken_loader",
    "C83_results_stay"
   ],
   "note": "An opened dataset is a snapshot: chunk files it maps are not rewritten. A call whose own log has no ids is not claimed."
  },
  {
   "property": "C84",
   "status": "proved",
   "theorems": [
    "C84_uninitialised",
    "C84_first_init",
    "C84_later_init",
    "C84_delegates",
    "C84_add_analysis_refuted",
    "C84_init_needs_file"
   ],
   "note": "Constructor and methods are arbitrary functions on objects and world; C84_init_needs_file uses the configuration model."
  },
  {
   "property": "C85",
   "status": "proved",
   "theorems": [
    "C85_gradients",
    "C85_detached",
    "C85_forward",
    "C85_backward"
   ],
   "note": "The flags of tensors are inputs of the model execution; C85_forward and C85_backward are per hook call that logs a new entry."
  },
  {
   "property": "C86",
   "status": "proved",
   "theorems": [
    "C86_watch",
    "C86_watch_ok",
    "C86_watch_nothing",
    "C86_watch_again",
    "C86_add_lora_first",
    "C86_save_lora_first",
    "C86_save_lora_cycle"
   ],
   "note": "One process (world size 1), so a wrapped model is not unwrapped."
  },
  {
   "property": "C87",
   "status": "proved",
   "theorems": [
    "C87_row",
    "C87_scalar",
    "C87_twice",
    "C87_empty"
   ],
   "note": "Byte-level model of the saver and writer; what a failing write leaves is part of the theorems."
  },
  {
   "property": "C88",
   "status": "proved",
   "theorems": [
    "C88_good",
    "C88_first_fault",
    "C88_foreign",
    "C88_truncated",
    "C88_index",
    "C88_shapes",
    "C88_sizes",
    "C88_bare"
   ],
   "note": "The numpy checks on the buffer size and torch's stacking check are modelled as branches; torch's promotion of unequal element types in one batch is rejected by the model and not used in the theorems."
  },
  {
   "property": "C89",
   "status": "proved",
   "theorems": [
    "C89_gradient",
    "C89_no_ids"
   ],
   "note": "exact outcome of the arrival of one gradient, for all histories; leaving a batch without ids; example: batches of two and of one sample through one layer"
  },
  {
   "property": "C90",
   "status": "proved",
   "theorems": [
    "C90_padding_mode",
    "C90_padding_mode_refuted",
    "C90_padding_rows",
    "C90_padding_string",
    "C90_unbatched",
    "C90_unbatched_rows",
    "C90_linear_scalar",
    "C90_conv_rank",
    "C90_rows_scalar",
    "C90_rows_type",
    "C90_rows_module"
   ],
   "note": "values of the silently wrong gradients are stated exactly; examples: a circular 1x3 convolution, unbatched images with one and two channels; C90_padding_mode_refuted gives the witness"
  },
  {
   "property": "C91",
   "status": "proved",
   "theorems": [
    "C91_trainer_new",
    "C91_trainer_refused",
    "C91_trainer_watching",
    "C91_trainer_compressed",
    "C91_trainer_lora_lost",
    "C91_pl_new",
    "C91_pl_refused",
    "C91_module_frame",
    "C91_module_watching",
    "C91_module_compressed",
    "C91_module_init_missing",
    "C91_module_init",
    "C91_module_init_lost"
   ],
   "note": "the violation is proved (trainer_lora_lost, module_init_lost) and witnessed: an earlier run's A = [3 4] in the directory, the new model and the file have [2 3]; the loops of transformers and Lightning are modelled by the events they cause"
  },
  {
   "property": "C92",
   "status": "proved",
   "theorems": [
    "C92_rows_at_end",
    "C92_rows_follow",
    "C92_finalize_writes",
    "C92_rows_kept",
    "C92_next_batch",
    "C92_rows_at_end_refuted"
   ],
   "note": "C92_rows_at_end_refuted is the witness: two samples saved with gradients (1,2) and (6,8) are stored as (16,2) and (8,9) after a backward pass for other samples. Distinct ids are assumed where rows follow; the shared rows are those of gradients (activations logged without a copy are taken as copied)."
  },
  {
   "property": "C93",
   "status": "proved",
   "theorems": [
    "C93_names",
    "C93_none",
    "C93_same",
    "C93_batch",
    "C93_activation",
    "C93_copy"
   ],
   "note": "The conversion is an argument: any function on tensors, the tensors that have the type already, floating or not. Sums of converted tensors are not rounded again. C93_batch is for phases with log, mean and covariance; example: conversion to integers of two calls, with and without a mask."
  },
  {
   "property": "C94",
   "status": "proved",
   "theorems": [
    "C94_shared_rows",
    "C94_rows_misfit",
    "C94_rows_short",
    "C94_self",
    "C94_self_misfit",
    "C94_self_short",
    "C94_kfac_fitted",
    "C94_reshaped"
   ],
   "note": "Scores are for mode dot without groups. Eigendecomposition is a function with its mathematical contract as hypothesis. einsum is taken to broadcast as torch.einsum does; examples: a layer logged once, and covariances of another orientation than the gradients."
  },
  {
   "property": "C95",
   "status": "proved",
   "theorems": [
    "C95_influence",
    "C95_flat",
    "C95_self_influence",
    "C95_same_log_preconditioned",
    "C95_same_log",
    "C95_target_lacks_layer",
    "C95_source_lacks_first",
    "C95_spoiled_for_good",
    "C95_ekfac_lacks_layer",
    "C95_ekfac_stuck",
    "C95_kfac_lacks_covariance",
    "C95_raw_lacks_covariance"
   ],
   "note": "Logs are objects; C95_influence is about two objects, C95_same_log and C95_same_log_preconditioned about one. Exceptions follow the first model up to KeyError for logs of the loader. Reads in statistics (CorrectedEigval's eigenvectors) do not insert in the model."
  },
  {
   "property": "C96",
   "status": "proved",
   "theorems": [
    "C96_extract",
    "C96_influence"
   ],
   "note": "One process, dot mode, explicit positive damping, gradients that can be written and read back exactly; torch.inverse is assumed to succeed on symmetric positive definite matrices of the sizes of the gradients and to return the inverse. That training steps log these gradients is a hypothesis about the batch logs (trained), as in C74."
  },
  {
   "property": "C97",
   "status": "proved",
   "theorems": [
    "C97_extract",
    "C97_influence"
   ],
   "note": "As C96; eigh is assumed to succeed on the collected factors and to meet its contract. That both factors of a module are on one device is assumed of the state after extract_log."
  },
  {
   "property": "C98",
   "status": "proved",
   "theorems": [
    "C98_forward",
    "C98_backward",
    "C98_first",
    "C98_again"
   ],
   "note": "The exceptions in C98_forward/C98_backward are existential because a plugin earlier in the list may raise first; the first error of the update itself is given by C98_first/C98_again. C98_first assumes that eigh succeeds on the covariances collected so far; if it fails, that error is raised."
  },
  {
   "property": "C99",
   "status": "proved",
   "theorems": [
    "C99_step",
    "C99_unmerged",
    "C99_lightning"
   ],
   "note": "C99_step and C99_unmerged are about one optimiser step of the trainer model; C99_lightning about one batch. The example runs both trainers end to end."
  },
  {
   "property": "C100",
   "status": "proved",
   "theorems": [
    "C100_influence",
    "C100_calls",
    "C100_steps_refuted"
   ],
   "note": "C100_influence is about the trainer model, C100_calls about calls on an influence object; both with an explicit damping, mode dot and gradients with one matrix per sample. C100_steps_refuted gives two runs with different scores."
  },
  {
   "property": "C101",
   "status": "proved",
   "theorems": [
    "C101_factors",
    "C101_extract",
    "C101_influence"
   ],
   "note": "As C96 and C97, for two epochs. C101_factors is the state after the first epoch, C101_extract the whole logging run, C101_influence the run after it (mode dot, explicit damping, test gradients on the CPU with one matrix per sample). That eigh succeeds on the collected factors follows from the hypothesis that the second epoch yields logs; for the scores it must meet its contract."
  },
  {
   "property": "C102",
   "status": "proved",
   "theorems": [
    "C102_short",
    "C102_flat",
    "C102_bad",
    "C102_sound",
    "C102_collate",
    "C102_copy",
    "C102_copy_refuted",
    "C102_skips"
   ],
   "note": "Metadata entries have non-negative offsets, sizes and block lengths. The kind of exception for a path below an earlier path depends on the key and the torch version and is left open. C102_copy_refuted shows that a copy of a chunk is not found although its file is there."
  },
  {
   "property": "C103",
   "status": "proved",
   "theorems": [
    "C103_new",
    "C103_scores"
   ],
   "note": "C103_new: the hypothesis new_run of C96, C97 and C101 holds for every newly created trainer, with the watched names that C91 describes; the LogIX object is a new one (empty log directory). C103_scores chains it with C96 for the schedule raw. With LoRA the model must not itself be a layer."
  },
  {
   "property": "C104",
   "status": "proved",
   "theorems": [
    "C104_forward",
    "C104_backward"
   ],
   "note": "C104_forward for a missing forward factor, C104_backward for a missing backward factor alone (there the forward operand must fit: same device, at least one sample). The eigenvalue routine must not raise on the collected covariances."
  },
  {
   "property": "C105",
   "status": "proved",
   "theorems": [
    "C105_extract",
    "C105_influence",
    "C105_kfac_extract",
    "C105_kfac_influence"
   ],
   "note": "C105_extract and C105_influence for raw, C105_kfac_extract and C105_kfac_influence for kfac. Mode dot, explicit damping, test gradients on the CPU with one matrix per sample; for kfac both covariances of a module on one device and an eigh that meets its contract. The scores of the examples equal those of C96_example and C97_example."
  },
  {
   "property": "C106",
   "status": "proved",
   "theorems": [
    "C106_new",
    "C106_scores"
   ],
   "note": "C106_new: the hypothesis new_light of C105 holds for every newly created module. C106_scores chains it with C105 for the schedule raw. Module and trainer belong to one patch() call, and one module is created."
  },
  {
   "property": "C107",
   "status": "proved",
   "theorems": [
    "C107_extract",
    "C107_influence",
    "C107_stops_early"
   ],
   "note": "As C101, for the Lightning trainer. C107_extract is the logging run of a trainer whose current_epoch is 0, C107_influence the run after it (mode dot, explicit damping, test gradients on the CPU with one matrix per sample, an eigh that meets its contract), C107_stops_early the logging run of a trainer with another current_epoch."
  },
  {
   "property": "C108",
   "status": "proved",
   "theorems": [
    "C108_raw",
    "C108_kfac",
    "C108_forgotten",
    "C108_new"
   ],
   "note": "C108_raw and C108_kfac with initialize_from_log, C108_forgotten without. The second trainer finds the configuration, statistics and records of the first and no LoRA file (SpecReopen.reopened). Mode dot, explicit damping, test gradients on the CPU with one matrix per sample, as in C96 and C97. The examples give the scores of C96_example and C97_example with another loader batch size. C108_new: a trainer created around a new LogIX object in that directory, without LoRA, is such a trainer."
  },
  {
   "property": "C109",
   "status": "proved",
   "theorems": [
    "C109_influence"
   ],
   "note": "C109_influence, as C101_influence with a second trainer that finds the files of the first (SpecReopen.reopened). E is the table of corrected eigenvalues the first process finished with. Its run had no influence scores yet: the files are written by finalize at the end of the logging run."
  }
 ]
}