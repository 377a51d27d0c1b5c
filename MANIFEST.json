{
 "claims": [
  {
   "property": "C01",
   "status": "proved",
   "theorems": [
    "C01_reservoir_never_loses_or_duplicates",
    "C01_drained_reservoir_is_exact_once"
   ],
   "note": ""
  },
  {
   "property": "C02",
   "status": "proved",
   "theorems": [
    "C02_reservoir_respects_limits",
    "C02_bad_items_are_rejected",
    "C02_offer_failure_modes"
   ],
   "note": ""
  },
  {
   "property": "C03",
   "status": "proved",
   "theorems": [
    "C03_chunking_is_unobservable"
   ],
   "note": ""
  },
  {
   "property": "C04",
   "status": "proved",
   "theorems": [
    "C04_restore_resumes_exactly",
    "C04_restore_accepts_only_consistent_states"
   ],
   "note": ""
  },
  {
   "property": "C05",
   "status": "proved",
   "theorems": [
    "C05_packed_run_is_a_generic_run",
    "C05_generic_run_is_a_packed_run",
    "C05_equality_at_the_last_counter_refuted",
    "C05_ready_buffer_is_fifo"
   ],
   "note": ""
  },
  {
   "property": "C06",
   "status": "proved",
   "theorems": [
    "C06_deterministic_permutation_is_permutation",
    "C06_uniform_below_in_range",
    "C06_permutation_failure_is_counter_exhaustion"
   ],
   "note": ""
  },
  {
   "property": "C07",
   "status": "proved",
   "theorems": [
    "C07_tlv_prefix_free",
    "C07_rng_payload_injective",
    "C07_cached_prefix_equals_reference"
   ],
   "note": ""
  },
  {
   "property": "C08",
   "status": "proved",
   "theorems": [
    "C08_each_residue_has_equally_many_accepted_values",
    "C08_splitmix_injective"
   ],
   "note": ""
  },
  {
   "property": "C09",
   "status": "proved",
   "theorems": [
    "C09_cycle_has_exact_counts",
    "C09_no_child_runs_ahead",
    "C09_bad_weights_are_rejected"
   ],
   "note": ""
  },
  {
   "property": "C10",
   "status": "proved",
   "theorems": [
    "C10_composite_delivers_the_mixed_stream",
    "C10_synchronised_stream_is_complete_cycles",
    "C10_unsynchronised_stream_is_everything",
    "C10_composite_is_a_source",
    "C10_envelopes_are_namespaced"
   ],
   "note": ""
  },
  {
   "property": "C11",
   "status": "proved",
   "theorems": [
    "C11_dense_ids_resolve",
    "C11_indexed_ids_resolve",
    "C11_delivered_records_decode_to_their_row",
    "C11_packed_decode_agrees"
   ],
   "note": ""
  },
  {
   "property": "C12",
   "status": "proved",
   "theorems": [
    "C12_npz_is_a_source",
    "C12_unsharded_cycle_is_everything_once",
    "C12_full_rate_admits_every_row",
    "C12_ranks_partition_the_rows",
    "C12_packed_reading_agrees"
   ],
   "note": ""
  },
  {
   "property": "C13",
   "status": "proved",
   "theorems": [
    "C13_npz_cursor_restores_exactly",
    "C13_accepted_cursor_is_a_position"
   ],
   "note": ""
  },
  {
   "property": "C14",
   "status": "proved",
   "theorems": [
    "C14_every_file_goes_to_exactly_one_rank",
    "C14_loads_differ_by_at_most_one_file"
   ],
   "note": ""
  },
  {
   "property": "C15",
   "status": "proved",
   "theorems": [
    "C15_cycle_delivers_every_record_once_in_file_order",
    "C15_unsharded_cycle_reads_every_file",
    "C15_ranks_partition_the_records",
    "C15_full_rate_admits_every_subrecord",
    "C15_sequential_is_a_source"
   ],
   "note": ""
  },
  {
   "property": "C16",
   "status": "proved",
   "theorems": [
    "C16_cursor_restores_exactly",
    "C16_compressed_sources_refuse",
    "C16_accepted_cursor_is_consistent"
   ],
   "note": ""
  },
  {
   "property": "C17",
   "status": "proved",
   "theorems": [
    "C17_training_batches_are_full_and_never_repeat_a_record",
    "C17_packed_training_batches_are_full_and_never_repeat_a_record",
    "C17_training_epoch_leaves_less_than_a_batch_per_shape",
    "C17_packed_training_epoch_leaves_less_than_a_batch"
   ],
   "note": ""
  },
  {
   "property": "C18",
   "status": "proved",
   "theorems": [
    "C18_evaluation_covers_every_record_exactly_once",
    "C18_packed_evaluation_covers_every_record_exactly_once",
    "C18_rank_slices_reassemble_the_batch"
   ],
   "note": ""
  },
  {
   "property": "C19",
   "status": "proved",
   "theorems": [
    "C19_step_budget_is_exact",
    "C19_packed_step_budget_is_exact",
    "C19_next_batch_always_returns",
    "C19_every_ended_epoch_has_a_terminal_batch_refuted"
   ],
   "note": ""
  },
  {
   "property": "C20",
   "status": "proved",
   "theorems": [
    "C20_every_history_publishes_the_same_batches",
    "C20_published_batches_are_numbered_without_gap_or_repetition",
    "C20_rollback_replays_the_uncommitted_batches",
    "C20_restart_is_rollback",
    "C20_commit_takes_an_initial_part",
    "C20_next_epoch_needs_everything_committed",
    "C20_every_initial_part_can_be_committed",
    "C20_stale_tokens_are_rejected_refuted"
   ],
   "note": ""
  },
  {
   "property": "C21",
   "status": "proved",
   "theorems": [
    "C21_resume_equals_not_stopping",
    "C21_packed_resume_equals_not_stopping",
    "C21_resume_never_does_more_than_the_run_refuted"
   ],
   "note": ""
  },
  {
   "property": "C22",
   "status": "proved",
   "theorems": [
    "C22_prefetching_is_synchronous_iteration",
    "C22_prefetching_is_bounded",
    "C22_prefetching_fails_only_where_synchronous_iteration_fails",
    "C22_prefetching_never_deadlocks"
   ],
   "note": ""
  },
  {
   "property": "C23",
   "status": "proved",
   "theorems": [
    "C23_every_history_follows_the_uninterrupted_sequence",
    "C23_no_call_is_refused",
    "C23_ranks_share_out_every_epoch",
    "C23_batches_cover_the_share",
    "C23_foreign_states_are_rejected",
    "C23_stale_tokens_are_rejected_refuted"
   ],
   "note": ""
  },
  {
   "property": "C24",
   "status": "proved",
   "theorems": [
    "C24_planes_and_moves_agree",
    "C24_symmetries_are_invertible",
    "C24_symmetries_preserve_distances",
    "C24_default_kind_is_complete",
    "C24_all_fields_move_together",
    "C24_readers_samples_are_accepted",
    "C24_batch_rows_are_independent",
    "C24_binary_readers_keep_the_board_in_its_corner_refuted",
    "C24_binary_readers_move_the_last_move_refuted"
   ],
   "note": ""
  },
  {
   "property": "C25",
   "status": "proved",
   "theorems": [
    "C25_decoding_recovers_every_field",
    "C25_wanted_entries_are_delivered",
    "C25_raw_and_direct_reading_agree",
    "C25_truncated_entries_raise_eof",
    "C25_files_are_split_into_their_entries"
   ],
   "note": ""
  },
  {
   "property": "C26",
   "status": "proved",
   "theorems": [
    "C26_raw_and_direct_reading_agree",
    "C26_prescan_predicts_decoding",
    "C26_truncated_entries_raise_eof",
    "C26_decoding_recovers_every_field",
    "C26_wanted_games_are_delivered",
    "C26_files_are_split_into_their_games"
   ],
   "note": ""
  },
  {
   "property": "C27",
   "status": "proved",
   "theorems": [
    "C27_saves_are_atomic",
    "C27_no_checkpoint_name_ever_holds_a_partial_file",
    "C27_saved_checkpoints_load_back",
    "C27_metadata_can_replace_the_weights_refuted",
    "C27_bare_file_names_are_saved_refuted"
   ],
   "note": ""
  },
  {
   "property": "C28",
   "status": "proved",
   "theorems": [
    "C28_latest_is_the_numeric_maximum",
    "C28_none_exactly_when_nothing_matches",
    "C28_file_names_carry_their_iteration",
    "C28_resume_picks_the_newest_state",
    "C28_weights_of_the_named_model_refuted"
   ],
   "note": ""
  },
  {
   "property": "C29",
   "status": "proved",
   "theorems": [
    "C29_files_hold_the_values_at_submit",
    "C29_files_are_written_in_order",
    "C29_the_hook_runs_after_all_files",
    "C29_failures_are_raised_before_anything_else",
    "C29_after_flush_everything_is_written",
    "C29_one_submission_at_a_time",
    "C29_every_exception_has_its_own_failure",
    "C29_staging_preserves_sharing",
    "C29_no_deadlock",
    "C29_payload_lists_survive_running_out_of_memory",
    "C29_every_iterable_is_written_refuted"
   ],
   "note": ""
  },
  {
   "property": "C30",
   "status": "proved",
   "theorems": [
    "C30_supported_states_are_encoded",
    "C30_encoded_states_decode_to_themselves",
    "C30_encodings_are_equal_exactly_for_the_same_state",
    "C30_only_canonical_blobs_decode"
   ],
   "note": ""
  },
  {
   "property": "C31",
   "status": "proved",
   "theorems": [
    "C31_mean_of_batch_metrics",
    "C31_planned_batches",
    "C31_distribution_does_not_matter",
    "C31_mean_over_all_rows",
    "C31_maximum_over_all_rows",
    "C31_finalizers_see_the_whole_batch",
    "C31_every_row_counts_equally_refuted",
    "C31_only_the_global_batches_matter_refuted",
    "C31_a_library_that_adds_reports_no_maximum_refuted",
    "C31_float_distribution_does_not_matter_refuted",
    "C31_different_statistics_stop_the_evaluation"
   ],
   "note": ""
  },
  {
   "property": "C32",
   "status": "proved",
   "theorems": [
    "C32_accepted_filters",
    "C32_effects",
    "C32_limits_come_first",
    "C32_arrays_handed_on",
    "C32_element_limit",
    "C32_forbidden_syntax_is_found_first_refuted",
    "C32_chained_comparisons_are_limited_refuted",
    "C32_column_lists_are_estimated_refuted",
    "C32_integers_are_limited_refuted",
    "C32_tuples_are_limited_refuted"
   ],
   "note": ""
  },
  {
   "property": "C33",
   "status": "proved",
   "theorems": [
    "C33_merge_by_path",
    "C33_conflicts_are_reported",
    "C33_merging_twice_is_merging_once",
    "C33_earlier_overrides_are_left_alone_refuted",
    "C33_a_failed_merge_changes_nothing_refuted"
   ],
   "note": ""
  },
  {
   "property": "C34",
   "status": "proved",
   "theorems": [
    "C34_composite_cursor_resumes_exactly"
   ],
   "note": ""
  },
  {
   "property": "C35",
   "status": "proved",
   "theorems": [
    "C35_record_keys_identify_rows",
    "C35_distinct_contents_give_distinct_keys"
   ],
   "note": ""
  },
  {
   "property": "C36",
   "status": "proved",
   "theorems": [
    "C36_record_keys_identify_records",
    "C36_records_materialize_to_their_entry",
    "C36_key_digest_bytes_are_prefix_free",
    "C36_key_digest_accepts_every_record"
   ],
   "note": ""
  },
  {
   "property": "C37",
   "status": "proved",
   "theorems": [
    "C37_packed_reservoir_state_roundtrip",
    "C37_restore_accepts_only_consistent_states"
   ],
   "note": ""
  },
  {
   "property": "C38",
   "status": "proved",
   "theorems": [
    "C38_resuming_finds_one_complete_save",
    "C38_completed_saves_are_not_lost",
    "C38_permanent_checkpoints_stay",
    "C38_pruning_does_not_fail",
    "C38_at_most_num_keep_states_remain",
    "C38_which_models_are_pruned"
   ],
   "note": ""
  },
  {
   "property": "C39",
   "status": "proved",
   "theorems": [
    "C39_files_take_turns",
    "C39_turns_determine_the_order"
   ],
   "note": ""
  },
  {
   "property": "C40",
   "status": "proved",
   "theorems": [
    "C40_compact_codes_number_the_windows",
    "C40_raw_codes_spell_the_window",
    "C40_raw_codes_are_one_to_one",
    "C40_a_batch_is_its_boards",
    "C40_bad_sizes_are_rejected",
    "C40_bad_lengths_have_no_total",
    "C40_every_window_occurs"
   ],
   "note": ""
  },
  {
   "property": "C41",
   "status": "proved",
   "theorems": [
    "C41_double_three_rule_has_one_solution",
    "C41_forbidden_points",
    "C41_kinds",
    "C41_too_large_rejected",
    "C41_never_flagged",
    "C41_process_uses_black",
    "C41_batch_is_samples",
    "C41_symmetric",
    "C41_five_is_never_flagged_refuted"
   ],
   "note": ""
  },
  {
   "property": "C42",
   "status": "proved",
   "theorems": [
    "C42_prefetch_kernels_read_their_batch",
    "C42_prefetch_in_order",
    "C42_prefetch_lookahead",
    "C42_prefetch_memory",
    "C42_prefetch_never_stuck",
    "C42_prefetch_always_closes",
    "C42_static_always_closes_refuted",
    "C42_static_kernels_read_their_batch",
    "C42_static_never_stuck",
    "C42_static_schema"
   ],
   "note": ""
  },
  {
   "property": "C43",
   "status": "proved",
   "theorems": [
    "C43_batch_is_its_rows",
    "C43_transformed_batch_is_its_rows",
    "C43_packed_batch_is_its_rows",
    "C43_packed_batch_sound",
    "C43_fused_batches",
    "C43_fused_batches_complete",
    "C43_fixed_size_declines",
    "C43_draw_is_per_row",
    "C43_draw_in_range",
    "C43_draw_is_uniform_below",
    "C43_packed_draw",
    "C43_no_uninitialised_memory",
    "C43_packed_answers_like_batch_refuted",
    "C43_rows_past_the_end_raise_refuted"
   ],
   "note": ""
  },
  {
   "property": "C44",
   "status": "proved",
   "theorems": [
    "C44_calls_use_absolute_paths",
    "C44_result_is_a_read",
    "C44_result_is_file_contents",
    "C44_failure_is_own_read",
    "C44_failed_read_released",
    "C44_one_reader_per_file",
    "C44_limits",
    "C44_cache_state_is_exact",
    "C44_least_recently_used",
    "C44_configure",
    "C44_never_stuck",
    "C44_every_call_is_served",
    "C44_read_once_when_everything_fits"
   ],
   "note": ""
  },
  {
   "property": "C45",
   "status": "proved",
   "theorems": [
    "C45_chains_are_accepted_exactly_when_valid",
    "C45_batches_are_prepared_by_running_the_chain",
    "C45_exactly_the_declared_fields_are_added",
    "C45_batch_fields_come_back_unchanged",
    "C45_blobs_of_other_chains_are_refused",
    "C45_resuming_from_the_blob_changes_nothing",
    "C45_changes_inside_dictionaries_are_refused_refuted"
   ],
   "note": ""
  },
  {
   "property": "C46",
   "status": "proved",
   "theorems": [
    "C46_settings_stay_in_bounds",
    "C46_locked_options_never_change",
    "C46_the_log_explains_the_settings",
    "C46_adjustments_go_the_right_way",
    "C46_frozen_is_final",
    "C46_tuning_ends",
    "C46_when_it_decides",
    "C46_resuming_changes_nothing",
    "C46_states_of_another_runtime_are_refused",
    "C46_profiles_carry_over",
    "C46_settings_are_applied",
    "C46_processes_agree",
    "C46_a_locked_number_of_cache_entries_is_kept_refuted"
   ],
   "note": ""
  },
  {
   "property": "C47",
   "status": "proved",
   "theorems": [
    "C47_tuned_prefetching_is_synchronous_iteration",
    "C47_depth_in_force_bounds_what_is_held",
    "C47_prefetching_is_bounded",
    "C47_decodes_respect_the_limit",
    "C47_nobody_sleeps_while_there_is_room",
    "C47_decode_threads_finish",
    "C47_the_iterator_goes_on"
   ],
   "note": ""
  },
  {
   "property": "C48",
   "status": "proved",
   "theorems": [
    "C48_profiles_are_always_complete",
    "C48_load_returns_only_saved_matching_profiles",
    "C48_loaded_profiles_have_the_current_format",
    "C48_save_keeps_the_newest_profiles",
    "C48_saved_profiles_are_stored",
    "C48_undisturbed_load_finds_the_newest_match",
    "C48_saved_profiles_are_found_again",
    "C48_load_raises_only_when_the_disk_fails_refuted",
    "C48_every_save_is_stored_refuted"
   ],
   "note": ""
  },
  {
   "property": "C49",
   "status": "proved",
   "theorems": [
    "C49_weight_file_states_what_was_asked",
    "C49_bad_arguments_touch_nothing",
    "C49_good_arguments_are_accepted",
    "C49_onnx_version_round_trip",
    "C49_onnx_states_what_was_asked",
    "C49_reversed_size_range_advertises_nothing"
   ],
   "note": ""
  },
  {
   "property": "C50",
   "status": "proved",
   "theorems": [
    "C50_previous_export_survives",
    "C50_leftovers_do_not_matter",
    "C50_onnx_failure_destroys_previous"
   ],
   "note": ""
  },
  {
   "property": "C51",
   "status": "proved",
   "theorems": [
    "C51_lookup_is_the_mapping",
    "C51_numbers_are_windows",
    "C51_board_codes_find_their_features",
    "C51_tables_exist"
   ],
   "note": ""
  },
  {
   "property": "C52",
   "status": "proved",
   "theorems": [
    "C52_the_stream_is_lossless",
    "C52_quantisation_is_nearest",
    "C52_quantisation_is_monotone",
    "C52_features_come_back"
   ],
   "note": ""
  },
  {
   "property": "C53",
   "status": "proved",
   "theorems": [
    "C53_multi_is_the_concatenation",
    "C53_negative_indices_stay_in_the_first_child",
    "C53_a_reference_names_its_sample",
    "C53_references_are_distinct",
    "C53_references_end_with_the_samples"
   ],
   "note": ""
  },
  {
   "property": "C54",
   "status": "proved",
   "theorems": [
    "C54_weights_are_exact_and_smallest",
    "C54_unusable_ratios_are_refused"
   ],
   "note": ""
  },
  {
   "property": "C55",
   "status": "proved",
   "theorems": [
    "C55_rows_are_dealt_out",
    "C55_short_arrays_are_refused",
    "C55_negative_splits_lose_everything",
    "C55_file_names_are_distinct",
    "C55_the_input_is_not_overwritten"
   ],
   "note": ""
  },
  {
   "property": "C56",
   "status": "proved",
   "theorems": [
    "C56_states_are_accepted_exactly_if_they_belong_together",
    "C56_old_states_pass_unchanged",
    "C56_old_and_new_states_are_not_mixed",
    "C56_a_changed_state_no_longer_fits_its_stamp",
    "C56_accepted_ranks_agree",
    "C56_saved_states_are_accepted",
    "C56_a_rank_continues_from_its_own_state",
    "C56_another_world_size_is_refused"
   ],
   "note": ""
  },
  {
   "property": "C57",
   "status": "proved",
   "theorems": [
    "C57_reported_errors_stop_every_rank",
    "C57_the_exception_names_the_failed_ranks",
    "C57_a_failed_call_stops_every_rank",
    "C57_a_failed_operation_stops_every_rank",
    "C57_different_values_stop_every_rank",
    "C57_a_fetched_batch_is_the_ranks_own",
    "C57_ranks_fetch_together",
    "C57_ranks_judge_a_step_together",
    "C57_ranks_step_together",
    "C57_ranks_save_together",
    "C57_ranks_evaluate_a_plan_together",
    "C57_ranks_evaluate_together",
    "C57_refuted_a_failed_commit_preparation_stops_every_rank",
    "C57_refuted_the_exception_names_only_ranks_that_are_not_finite"
   ],
   "note": ""
  },
  {
   "property": "C58",
   "status": "proved",
   "theorems": [
    "C58_every_checkpoint_is_a_step_boundary",
    "C58_an_iteration_has_one_state",
    "C58_resumed_training_ends_like_an_uninterrupted_one"
   ],
   "note": ""
  },
  {
   "property": "C59",
   "status": "proved",
   "theorems": [
    "C59_checkpoints_follow_finite_steps_only",
    "C59_a_run_that_returns_was_finite",
    "C59_refuted_interrupted_runs_save_finite_steps_only"
   ],
   "note": ""
  },
  {
   "property": "C60",
   "status": "proved",
   "theorems": [
    "C60_a_run_that_returns_has_saved_what_was_due",
    "C60_a_fresh_run_that_returns_has_saved_what_was_due",
    "C60_interrupts_between_steps_lose_nothing",
    "C60_interrupts_of_a_resumed_run_lose_nothing"
   ],
   "note": ""
  },
  {
   "property": "C61",
   "status": "proved",
   "theorems": [
    "C61_log_entries_average_the_steps_just_before",
    "C61_a_run_that_returns_has_every_entry_once",
    "C61_no_step_is_left_out_if_what_is_shown_is_logged",
    "C61_refuted_entries_average_every_step"
   ],
   "note": ""
  },
  {
   "property": "C62",
   "status": "proved",
   "theorems": [
    "C62_the_dataset_is_the_wanted_positions",
    "C62_files_of_different_sides_are_refused",
    "C62_every_position_belongs_to_a_side_refuted",
    "C62_boards_of_any_side_refuted"
   ],
   "note": ""
  },
  {
   "property": "C63",
   "status": "proved",
   "theorems": [
    "C63_a_file_gives_its_wanted_rows",
    "C63_the_dataset_has_the_wanted_rows_of_its_files",
    "C63_map_and_iterative_agree",
    "C63_what_the_iterative_variant_accepts_the_map_variant_accepts",
    "C63_files_with_unequal_rows_are_refused_refuted"
   ],
   "note": ""
  },
  {
   "property": "C64",
   "status": "proved",
   "theorems": [
    "C64_every_step_is_the_adamw_update",
    "C64_the_path_does_not_show",
    "C64_a_parameter_that_moves_alone_is_not_updated_refuted",
    "C64_maximize_switched_later_is_ignored_refuted"
   ],
   "note": ""
  },
  {
   "property": "C65",
   "status": "proved",
   "theorems": [
    "C65_every_kernel_reads_the_addresses_of_its_step",
    "C65_all_kernels_have_read_in_the_end",
    "C65_no_buffer_is_overwritten_in_flight",
    "C65_a_step_waits_only_for_old_work"
   ],
   "note": ""
  },
  {
   "property": "C66",
   "status": "proved",
   "theorems": [
    "C66_construction_succeeds_iff",
    "C66_each_parameter_is_updated_once_by_its_own_optimizer",
    "C66_several_groups",
    "C66_a_saved_optimizer_goes_on",
    "C66_a_refused_group_stops_training",
    "C66_groups_of_one_optimizer_do_not_keep_their_rates",
    "C66_an_optimizer_without_parameters_is_an_error",
    "C66_a_groups_weight_decay_is_ignored"
   ],
   "note": ""
  },
  {
   "property": "C67",
   "status": "proved",
   "theorems": [
    "C67_validation_reports_the_training_loss",
    "C67_neither_split_nor_padding_shows",
    "C67_a_plain_tensor_cannot_be_validated",
    "C67_an_unknown_value_loss_cannot_be_trained"
   ],
   "note": ""
  },
  {
   "property": "C68",
   "status": "proved",
   "theorems": [
    "C68_outside_the_board_does_not_matter"
   ],
   "note": ""
  },
  {
   "property": "C69",
   "status": "proved",
   "theorems": [
    "C69_the_total",
    "C69_the_total_with_a_teacher",
    "C69_alpha_zero"
   ],
   "note": ""
  },
  {
   "property": "C70",
   "status": "proved",
   "theorems": [
    "C70_ranks_agree"
   ],
   "note": ""
  },
  {
   "property": "C71",
   "status": "proved",
   "theorems": [
    "C71_codebook_of_all_ranks",
    "C71_sizes",
    "C71_as_one_process"
   ],
   "note": ""
  },
  {
   "property": "C72",
   "status": "proved",
   "theorems": [
    "C72_dead_codes"
   ],
   "note": ""
  },
  {
   "property": "C73",
   "status": "proved",
   "theorems": [
    "C73_waits",
    "C73_starts",
    "C73_restart"
   ],
   "note": ""
  },
  {
   "property": "C74",
   "status": "proved",
   "theorems": [
    "C74_v4_file_gives_the_value_of_the_network",
    "C74_v4vq_file_gives_the_value_of_the_network",
    "C74_v2_file_gives_the_value_of_the_network",
    "C74_v3_file_gives_the_value_of_the_network",
    "C74_ladder_file_gives_the_value_of_the_network"
   ],
   "note": ""
  },
  {
   "property": "C75",
   "status": "proved",
   "theorems": [
    "C75_v4_feature_sums_fit_16_bits",
    "C75_v4vq_feature_sums_fit_16_bits",
    "C75_layers_fit_32_bits"
   ],
   "note": ""
  },
  {
   "property": "C76",
   "status": "proved",
   "theorems": [
    "C76_v4_value_is_the_same_on_the_rotated_board",
    "C76_ladder_value_is_the_same_on_the_rotated_board",
    "C76_ladder_v1_value_is_the_same_on_the_mirrored_board"
   ],
   "note": ""
  },
  {
   "property": "C77",
   "status": "proved",
   "theorems": [
    "C77_v4_exports_exactly_representable_networks",
    "C77_v2_exports_exactly_representable_networks",
    "C77_v3_exports_exactly_representable_networks",
    "C77_ladder_exports_exactly_networks_within_one",
    "C77_clipped_weights_are_representable"
   ],
   "note": ""
  },
  {
   "property": "C78",
   "status": "proved",
   "theorems": [
    "C78_features_are_the_engines_integers",
    "C78_value_is_the_engines_integers",
    "C78_policy_is_the_engines_integers"
   ],
   "note": ""
  },
  {
   "property": "C79",
   "status": "proved",
   "theorems": [
    "C79_nine_regions_partition_the_board",
    "C79_nine_regions_are_balanced",
    "C79_mirrored_boards_have_mirrored_regions"
   ],
   "note": ""
  },
  {
   "property": "C80",
   "status": "proved",
   "theorems": [
    "C80_the_overflow_check_never_stops_an_export",
    "C80_sixteen_bits_suffice_for_small_weights",
    "C80_an_exported_convolution_can_leave_16_bits"
   ],
   "note": ""
  },
  {
   "property": "C81",
   "status": "proved",
   "theorems": [
    "C81_feature_sums_fit_32_bits",
    "C81_star_products_fit_16_bits",
    "C81_policy_accumulators_fit_32_bits_for_small_weights",
    "C81_an_exported_policy_can_leave_32_bits"
   ],
   "note": ""
  }
 ]
}