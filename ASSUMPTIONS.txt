Output of Print Assumptions for every theorem of MANIFEST.json
C01_reservoir_never_loses_or_duplicates: Closed under the global context
C01_drained_reservoir_is_exact_once: Closed under the global context
C02_reservoir_respects_limits: Closed under the global context
C02_bad_items_are_rejected: Closed under the global context
C02_offer_failure_modes: Closed under the global context
C03_chunking_is_unobservable: Closed under the global context
C04_restore_resumes_exactly: Closed under the global context
C04_restore_accepts_only_consistent_states: Closed under the global context
C05_packed_run_is_a_generic_run: Closed under the global context
C05_generic_run_is_a_packed_run: Closed under the global context
C05_equality_at_the_last_counter_refuted: Closed under the global context
C05_ready_buffer_is_fifo: Closed under the global context
C06_deterministic_permutation_is_permutation: Closed under the global context
C06_uniform_below_in_range: Closed under the global context
C06_permutation_failure_is_counter_exhaustion: Closed under the global context
C07_tlv_prefix_free: Closed under the global context
C07_rng_payload_injective: Closed under the global context
C07_cached_prefix_equals_reference: Closed under the global context
C08_each_residue_has_equally_many_accepted_values: Closed under the global context
C08_splitmix_injective: Closed under the global context
C09_cycle_has_exact_counts: Closed under the global context
C09_no_child_runs_ahead: Closed under the global context
C09_bad_weights_are_rejected: Closed under the global context
C10_composite_delivers_the_mixed_stream: Closed under the global context
C10_synchronised_stream_is_complete_cycles: Closed under the global context
C10_unsynchronised_stream_is_everything: Closed under the global context
C10_composite_is_a_source: Closed under the global context
C10_envelopes_are_namespaced: Closed under the global context
C11_dense_ids_resolve: Closed under the global context
C11_indexed_ids_resolve: Closed under the global context
C11_delivered_records_decode_to_their_row: Closed under the global context
C11_packed_decode_agrees: Closed under the global context
C12_npz_is_a_source: Closed under the global context
C12_unsharded_cycle_is_everything_once: Closed under the global context
C12_full_rate_admits_every_row: Closed under the global context
C12_ranks_partition_the_rows: Closed under the global context
C12_packed_reading_agrees: Closed under the global context
C13_npz_cursor_restores_exactly: Closed under the global context
C13_accepted_cursor_is_a_position: Closed under the global context
C14_every_file_goes_to_exactly_one_rank: Closed under the global context
C14_loads_differ_by_at_most_one_file: Closed under the global context
C15_cycle_delivers_every_record_once_in_file_order: Closed under the global context
C15_unsharded_cycle_reads_every_file: Closed under the global context
C15_ranks_partition_the_records: Closed under the global context
C15_full_rate_admits_every_subrecord: Closed under the global context
C15_sequential_is_a_source: Closed under the global context
C16_cursor_restores_exactly: Closed under the global context
C16_compressed_sources_refuse: Closed under the global context
C16_accepted_cursor_is_consistent: Closed under the global context
C17_training_batches_are_full_and_never_repeat_a_record: Closed under the global context
C17_packed_training_batches_are_full_and_never_repeat_a_record: Closed under the global context
C17_training_epoch_leaves_less_than_a_batch_per_shape: Closed under the global context
C17_packed_training_epoch_leaves_less_than_a_batch: Closed under the global context
C18_evaluation_covers_every_record_exactly_once: Closed under the global context
C18_packed_evaluation_covers_every_record_exactly_once: Closed under the global context
C18_rank_slices_reassemble_the_batch: Closed under the global context
C19_step_budget_is_exact: Closed under the global context
C19_packed_step_budget_is_exact: Closed under the global context
C19_next_batch_always_returns: Closed under the global context
C19_every_ended_epoch_has_a_terminal_batch_refuted: Closed under the global context
C20_every_history_publishes_the_same_batches: Closed under the global context
C20_published_batches_are_numbered_without_gap_or_repetition: Closed under the global context
C20_rollback_replays_the_uncommitted_batches: Closed under the global context
C20_restart_is_rollback: Closed under the global context
C20_commit_takes_an_initial_part: Closed under the global context
C20_next_epoch_needs_everything_committed: Closed under the global context
C20_every_initial_part_can_be_committed: Closed under the global context
C20_stale_tokens_are_rejected_refuted: Closed under the global context
C21_resume_equals_not_stopping: Closed under the global context
C21_packed_resume_equals_not_stopping: Closed under the global context
C21_resume_never_does_more_than_the_run_refuted: Closed under the global context
C22_prefetching_is_synchronous_iteration: Closed under the global context
C22_prefetching_is_bounded: Closed under the global context
C22_prefetching_fails_only_where_synchronous_iteration_fails: Closed under the global context
C22_prefetching_never_deadlocks: Closed under the global context
C23_every_history_follows_the_uninterrupted_sequence: Closed under the global context
C23_no_call_is_refused: Closed under the global context
C23_ranks_share_out_every_epoch: Closed under the global context
C23_batches_cover_the_share: Closed under the global context
C23_foreign_states_are_rejected: Closed under the global context
C23_stale_tokens_are_rejected_refuted: Closed under the global context
C24_planes_and_moves_agree: Closed under the global context
C24_symmetries_are_invertible: Closed under the global context
C24_symmetries_preserve_distances: Closed under the global context
C24_default_kind_is_complete: Closed under the global context
C24_all_fields_move_together: Closed under the global context
C24_readers_samples_are_accepted: Closed under the global context
C24_batch_rows_are_independent: Closed under the global context
C24_binary_readers_keep_the_board_in_its_corner_refuted: Closed under the global context
C24_binary_readers_move_the_last_move_refuted: Closed under the global context
C25_decoding_recovers_every_field: Closed under the global context
C25_wanted_entries_are_delivered: Closed under the global context
C25_raw_and_direct_reading_agree: Closed under the global context
C25_truncated_entries_raise_eof: Closed under the global context
C25_files_are_split_into_their_entries: Closed under the global context
C26_raw_and_direct_reading_agree: Closed under the global context
C26_prescan_predicts_decoding: Closed under the global context
C26_truncated_entries_raise_eof: Closed under the global context
C26_decoding_recovers_every_field: Closed under the global context
C26_wanted_games_are_delivered: Closed under the global context
C26_files_are_split_into_their_games: Closed under the global context
C27_saves_are_atomic: Closed under the global context
C27_no_checkpoint_name_ever_holds_a_partial_file: Closed under the global context
C27_saved_checkpoints_load_back: Closed under the global context
C27_metadata_can_replace_the_weights_refuted: Closed under the global context
C27_bare_file_names_are_saved_refuted: Closed under the global context
C28_latest_is_the_numeric_maximum: Closed under the global context
C28_none_exactly_when_nothing_matches: Closed under the global context
C28_file_names_carry_their_iteration: Closed under the global context
C28_resume_picks_the_newest_state: Closed under the global context
C28_weights_of_the_named_model_refuted: Closed under the global context
C29_files_hold_the_values_at_submit: Closed under the global context
C29_files_are_written_in_order: Closed under the global context
C29_the_hook_runs_after_all_files: Closed under the global context
C29_failures_are_raised_before_anything_else: Closed under the global context
C29_after_flush_everything_is_written: Closed under the global context
C29_one_submission_at_a_time: Closed under the global context
C29_every_exception_has_its_own_failure: Closed under the global context
C29_staging_preserves_sharing: Closed under the global context
C29_no_deadlock: Closed under the global context
C29_payload_lists_survive_running_out_of_memory: Closed under the global context
C29_every_iterable_is_written_refuted: Closed under the global context
C30_supported_states_are_encoded: Closed under the global context
C30_encoded_states_decode_to_themselves: Closed under the global context
C30_encodings_are_equal_exactly_for_the_same_state: Closed under the global context
C30_only_canonical_blobs_decode: Closed under the global context
C31_mean_of_batch_metrics: Closed under the global context
C31_planned_batches: Closed under the global context
C31_distribution_does_not_matter: Closed under the global context
C31_mean_over_all_rows: Closed under the global context
C31_maximum_over_all_rows: Closed under the global context
C31_finalizers_see_the_whole_batch: Closed under the global context
C31_every_row_counts_equally_refuted: Closed under the global context
C31_only_the_global_batches_matter_refuted: Closed under the global context
C31_a_library_that_adds_reports_no_maximum_refuted: Closed under the global context
C31_float_distribution_does_not_matter_refuted: Closed under the global context
C31_different_statistics_stop_the_evaluation: Closed under the global context
C32_accepted_filters: Closed under the global context
C32_effects: Closed under the global context
C32_limits_come_first: Closed under the global context
C32_arrays_handed_on: Closed under the global context
C32_element_limit: Closed under the global context
C32_forbidden_syntax_is_found_first_refuted: Closed under the global context
C32_chained_comparisons_are_limited_refuted: Closed under the global context
C32_column_lists_are_estimated_refuted: Closed under the global context
C32_integers_are_limited_refuted: Closed under the global context
C32_tuples_are_limited_refuted: Closed under the global context
C33_merge_by_path: Closed under the global context
C33_conflicts_are_reported: Closed under the global context
C33_merging_twice_is_merging_once: Closed under the global context
C33_earlier_overrides_are_left_alone_refuted: Closed under the global context
C33_a_failed_merge_changes_nothing_refuted: Closed under the global context
C34_composite_cursor_resumes_exactly: Closed under the global context
C35_record_keys_identify_rows: Closed under the global context
C35_distinct_contents_give_distinct_keys: Closed under the global context
C36_record_keys_identify_records: Closed under the global context
C36_records_materialize_to_their_entry: Closed under the global context
C36_key_digest_bytes_are_prefix_free: Closed under the global context
C36_key_digest_accepts_every_record: Closed under the global context
C37_packed_reservoir_state_roundtrip: Closed under the global context
C37_restore_accepts_only_consistent_states: Closed under the global context
C38_resuming_finds_one_complete_save: Closed under the global context
C38_completed_saves_are_not_lost: Closed under the global context
C38_permanent_checkpoints_stay: Closed under the global context
C38_pruning_does_not_fail: Closed under the global context
C38_at_most_num_keep_states_remain: Closed under the global context
C38_which_models_are_pruned: Closed under the global context
C39_files_take_turns: Closed under the global context
C39_turns_determine_the_order: Closed under the global context
C40_compact_codes_number_the_windows: Closed under the global context
C40_raw_codes_spell_the_window: Closed under the global context
C40_raw_codes_are_one_to_one: Closed under the global context
C40_a_batch_is_its_boards: Closed under the global context
C40_bad_sizes_are_rejected: Closed under the global context
C40_bad_lengths_have_no_total: Closed under the global context
C40_every_window_occurs: Closed under the global context
C41_double_three_rule_has_one_solution: Closed under the global context
C41_forbidden_points: Closed under the global context
C41_kinds: Closed under the global context
C41_too_large_rejected: Closed under the global context
C41_never_flagged: Closed under the global context
C41_process_uses_black: Closed under the global context
C41_batch_is_samples: Closed under the global context
C41_symmetric: Closed under the global context
C41_five_is_never_flagged_refuted: Closed under the global context
C42_prefetch_kernels_read_their_batch: Closed under the global context
C42_prefetch_in_order: Closed under the global context
C42_prefetch_lookahead: Closed under the global context
C42_prefetch_memory: Closed under the global context
C42_prefetch_never_stuck: Closed under the global context
C42_prefetch_always_closes: Closed under the global context
C42_static_always_closes_refuted: Closed under the global context
C42_static_kernels_read_their_batch: Closed under the global context
C42_static_never_stuck: Closed under the global context
C42_static_schema: Closed under the global context
C43_batch_is_its_rows: Closed under the global context
C43_transformed_batch_is_its_rows: Closed under the global context
C43_packed_batch_is_its_rows: Closed under the global context
C43_packed_batch_sound: Closed under the global context
C43_fused_batches: Closed under the global context
C43_fused_batches_complete: Closed under the global context
C43_fixed_size_declines: Closed under the global context
C43_draw_is_per_row: Closed under the global context
C43_draw_in_range: Closed under the global context
C43_draw_is_uniform_below: Closed under the global context
C43_packed_draw: Closed under the global context
C43_no_uninitialised_memory: Closed under the global context
C43_packed_answers_like_batch_refuted: Closed under the global context
C43_rows_past_the_end_raise_refuted: Closed under the global context
C44_calls_use_absolute_paths: Closed under the global context
C44_result_is_a_read: Closed under the global context
C44_result_is_file_contents: Closed under the global context
C44_failure_is_own_read: Closed under the global context
C44_failed_read_released: Closed under the global context
C44_one_reader_per_file: Closed under the global context
C44_limits: Closed under the global context
C44_cache_state_is_exact: Closed under the global context
C44_least_recently_used: Closed under the global context
C44_configure: Closed under the global context
C44_never_stuck: Closed under the global context
C44_every_call_is_served: Closed under the global context
C44_read_once_when_everything_fits: Closed under the global context
C45_chains_are_accepted_exactly_when_valid: Closed under the global context
C45_batches_are_prepared_by_running_the_chain: Closed under the global context
C45_exactly_the_declared_fields_are_added: Closed under the global context
C45_batch_fields_come_back_unchanged: Closed under the global context
C45_blobs_of_other_chains_are_refused: Closed under the global context
C45_resuming_from_the_blob_changes_nothing: Closed under the global context
C45_changes_inside_dictionaries_are_refused_refuted: Closed under the global context
C46_settings_stay_in_bounds: Closed under the global context
C46_locked_options_never_change: Closed under the global context
C46_the_log_explains_the_settings: Closed under the global context
C46_adjustments_go_the_right_way: Closed under the global context
C46_frozen_is_final: Closed under the global context
C46_tuning_ends: Closed under the global context
C46_when_it_decides: Closed under the global context
C46_resuming_changes_nothing: Closed under the global context
C46_states_of_another_runtime_are_refused: Closed under the global context
C46_profiles_carry_over: Closed under the global context
C46_settings_are_applied: Closed under the global context
C46_processes_agree: Closed under the global context
C46_a_locked_number_of_cache_entries_is_kept_refuted: Closed under the global context
C47_tuned_prefetching_is_synchronous_iteration: Closed under the global context
C47_depth_in_force_bounds_what_is_held: Closed under the global context
C47_prefetching_is_bounded: Closed under the global context
C47_decodes_respect_the_limit: Closed under the global context
C47_nobody_sleeps_while_there_is_room: Closed under the global context
C47_decode_threads_finish: Closed under the global context
C47_the_iterator_goes_on: Closed under the global context
C48_profiles_are_always_complete: Closed under the global context
C48_load_returns_only_saved_matching_profiles: Closed under the global context
C48_loaded_profiles_have_the_current_format: Closed under the global context
C48_save_keeps_the_newest_profiles: Closed under the global context
C48_saved_profiles_are_stored: Closed under the global context
C48_undisturbed_load_finds_the_newest_match: Closed under the global context
C48_saved_profiles_are_found_again: Closed under the global context
C48_load_raises_only_when_the_disk_fails_refuted: Closed under the global context
C48_every_save_is_stored_refuted: Closed under the global context
C49_weight_file_states_what_was_asked: Closed under the global context
C49_bad_arguments_touch_nothing: Closed under the global context
C49_good_arguments_are_accepted: Closed under the global context
C49_onnx_version_round_trip: Closed under the global context
C49_onnx_states_what_was_asked: Closed under the global context
C49_reversed_size_range_advertises_nothing: Closed under the global context
C50_previous_export_survives: Closed under the global context
C50_leftovers_do_not_matter: Closed under the global context
C50_onnx_failure_destroys_previous: Closed under the global context
C51_lookup_is_the_mapping: Closed under the global context
C51_numbers_are_windows: Closed under the global context
C51_board_codes_find_their_features: Closed under the global context
C51_tables_exist: Closed under the global context
C52_the_stream_is_lossless: Closed under the global context
C52_quantisation_is_nearest: Closed under the global context
C52_quantisation_is_monotone: Closed under the global context
C52_features_come_back: Closed under the global context
C53_multi_is_the_concatenation: Closed under the global context
C53_negative_indices_stay_in_the_first_child: Closed under the global context
C53_a_reference_names_its_sample: Closed under the global context
C53_references_are_distinct: Closed under the global context
C53_references_end_with_the_samples: Closed under the global context
C54_weights_are_exact_and_smallest: Closed under the global context
C54_unusable_ratios_are_refused: Closed under the global context
C55_rows_are_dealt_out: Closed under the global context
C55_short_arrays_are_refused: Closed under the global context
C55_negative_splits_lose_everything: Closed under the global context
C55_file_names_are_distinct: Closed under the global context
C55_the_input_is_not_overwritten: Closed under the global context
C56_states_are_accepted_exactly_if_they_belong_together: Closed under the global context
C56_old_states_pass_unchanged: Closed under the global context
C56_old_and_new_states_are_not_mixed: Closed under the global context
C56_a_changed_state_no_longer_fits_its_stamp: Closed under the global context
C56_accepted_ranks_agree: Closed under the global context
C56_saved_states_are_accepted: Closed under the global context
C56_a_rank_continues_from_its_own_state: Closed under the global context
C56_another_world_size_is_refused: Closed under the global context
C57_reported_errors_stop_every_rank: Closed under the global context
C57_the_exception_names_the_failed_ranks: Closed under the global context
C57_a_failed_call_stops_every_rank: Closed under the global context
C57_a_failed_operation_stops_every_rank: Closed under the global context
C57_different_values_stop_every_rank: Closed under the global context
C57_a_fetched_batch_is_the_ranks_own: Closed under the global context
C57_ranks_fetch_together: Closed under the global context
C57_ranks_judge_a_step_together: Closed under the global context
C57_ranks_step_together: Closed under the global context
C57_ranks_save_together: Closed under the global context
C57_ranks_evaluate_a_plan_together: Closed under the global context
C57_ranks_evaluate_together: Closed under the global context
C57_refuted_a_failed_commit_preparation_stops_every_rank: Closed under the global context
C57_refuted_the_exception_names_only_ranks_that_are_not_finite: Closed under the global context
C58_every_checkpoint_is_a_step_boundary: Closed under the global context
C58_an_iteration_has_one_state: Closed under the global context
C58_resumed_training_ends_like_an_uninterrupted_one: Closed under the global context
C59_checkpoints_follow_finite_steps_only: Closed under the global context
C59_a_run_that_returns_was_finite: Closed under the global context
C59_refuted_interrupted_runs_save_finite_steps_only: Closed under the global context
C60_a_run_that_returns_has_saved_what_was_due: Closed under the global context
C60_a_fresh_run_that_returns_has_saved_what_was_due: Closed under the global context
C60_interrupts_between_steps_lose_nothing: Closed under the global context
C60_interrupts_of_a_resumed_run_lose_nothing: Closed under the global context
C61_log_entries_average_the_steps_just_before: Closed under the global context
C61_a_run_that_returns_has_every_entry_once: Closed under the global context
C61_no_step_is_left_out_if_what_is_shown_is_logged: Closed under the global context
C61_refuted_entries_average_every_step: Closed under the global context
C62_the_dataset_is_the_wanted_positions: Closed under the global context
C62_files_of_different_sides_are_refused: Closed under the global context
C62_every_position_belongs_to_a_side_refuted: Closed under the global context
C62_boards_of_any_side_refuted: Closed under the global context
C63_a_file_gives_its_wanted_rows: Closed under the global context
C63_the_dataset_has_the_wanted_rows_of_its_files: Closed under the global context
C63_map_and_iterative_agree: Closed under the global context
C63_what_the_iterative_variant_accepts_the_map_variant_accepts: Closed under the global context
C63_files_with_unequal_rows_are_refused_refuted: Closed under the global context
C64_every_step_is_the_adamw_update: Closed under the global context
C64_the_path_does_not_show: Closed under the global context
C64_a_parameter_that_moves_alone_is_not_updated_refuted: Closed under the global context
C64_maximize_switched_later_is_ignored_refuted: Closed under the global context
C65_every_kernel_reads_the_addresses_of_its_step: Closed under the global context
C65_all_kernels_have_read_in_the_end: Closed under the global context
C65_no_buffer_is_overwritten_in_flight: Closed under the global context
C65_a_step_waits_only_for_old_work: Closed under the global context
C66_construction_succeeds_iff: Closed under the global context
C66_each_parameter_is_updated_once_by_its_own_optimizer: Closed under the global context
C66_several_groups: Closed under the global context
C66_a_saved_optimizer_goes_on: Closed under the global context
C66_a_refused_group_stops_training: Closed under the global context
C66_groups_of_one_optimizer_do_not_keep_their_rates: Closed under the global context
C66_an_optimizer_without_parameters_is_an_error: Closed under the global context
C66_a_groups_weight_decay_is_ignored: Closed under the global context
C67_validation_reports_the_training_loss: Closed under the global context
C67_neither_split_nor_padding_shows: Closed under the global context
C67_a_plain_tensor_cannot_be_validated: Closed under the global context
C67_an_unknown_value_loss_cannot_be_trained: Closed under the global context
C68_outside_the_board_does_not_matter: Closed under the global context
C69_the_total: Closed under the global context
C69_the_total_with_a_teacher: Closed under the global context
C69_alpha_zero: Closed under the global context
C70_ranks_agree: Closed under the global context
C71_codebook_of_all_ranks: Closed under the global context
C71_sizes: Closed under the global context
C71_as_one_process: Closed under the global context
C72_dead_codes: Closed under the global context
C73_waits: Closed under the global context
C73_starts: Closed under the global context
C73_restart: Closed under the global context
C74_v4_file_gives_the_value_of_the_network: Closed under the global context
C74_v4vq_file_gives_the_value_of_the_network: Closed under the global context
C74_v2_file_gives_the_value_of_the_network: Closed under the global context
C74_v3_file_gives_the_value_of_the_network: Closed under the global context
C74_ladder_file_gives_the_value_of_the_network: Closed under the global context
C75_v4_feature_sums_fit_16_bits: Closed under the global context
C75_v4vq_feature_sums_fit_16_bits: Closed under the global context
C75_layers_fit_32_bits: Closed under the global context
C76_v4_value_is_the_same_on_the_rotated_board: Closed under the global context
C76_ladder_value_is_the_same_on_the_rotated_board: Closed under the global context
C76_ladder_v1_value_is_the_same_on_the_mirrored_board: Closed under the global context
C77_v4_exports_exactly_representable_networks: Closed under the global context
C77_v2_exports_exactly_representable_networks: Closed under the global context
C77_v3_exports_exactly_representable_networks: Closed under the global context
C77_ladder_exports_exactly_networks_within_one: Closed under the global context
C77_clipped_weights_are_representable: Closed under the global context
C78_features_are_the_engines_integers: Closed under the global context
C78_value_is_the_engines_integers: Closed under the global context
C78_policy_is_the_engines_integers: Closed under the global context
C79_nine_regions_partition_the_board: Closed under the global context
C79_nine_regions_are_balanced: Closed under the global context
C79_mirrored_boards_have_mirrored_regions: Closed under the global context
C80_the_overflow_check_never_stops_an_export: Closed under the global context
C80_sixteen_bits_suffice_for_small_weights: Closed under the global context
C80_an_exported_convolution_can_leave_16_bits: Closed under the global context
C81_feature_sums_fit_32_bits: Closed under the global context
C81_star_products_fit_16_bits: Closed under the global context
C81_policy_accumulators_fit_32_bits_for_small_weights: Closed under the global context
C81_an_exported_policy_can_leave_32_bits: Closed under the global context
