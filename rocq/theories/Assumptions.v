(** Prints what every theorem of the development rests on.  Generated from the
    list of theorems in the *Theorems.v files. *)
From Verif Require Import BlobTheorems.
From Verif Require Import ClusterAnswerTheorems.
From Verif Require Import ClusterDecryptTheorems.
From Verif Require Import ClusterOrderTheorems.
From Verif Require Import ClusterTabletTheorems.
From Verif Require Import ClusterTheorems.
From Verif Require Import CommTheorems.
From Verif Require Import ConsensusTheorems.
From Verif Require Import CoordinatorTheorems.
From Verif Require Import CounterTheorems.
From Verif Require Import DriverBatchTheorems.
From Verif Require Import DriverReplyTheorems.
From Verif Require Import DriverSoloTheorems.
From Verif Require Import DriverTheorems.
From Verif Require Import KeyvalueTheorems.
From Verif Require Import LoggerTheorems.
From Verif Require Import MetadataTheorems.
From Verif Require Import ReplicaRunTheorems.
From Verif Require Import ReplicaTheorems.
From Verif Require Import ReplicaTransferTheorems.
From Verif Require Import ServiceTheorems.
From Verif Require Import SessionTheorems.
From Verif Require Import SnapshotTheorems.
From Verif Require Import StorageTheorems.
From Verif Require Import TabletTheorems.
From Verif Require Import WillowTheorems.
Print Assumptions C01_log_has_no_holes.
Print Assumptions C01_fresh_log_is_empty.
Print Assumptions C01_reachable_closed.
Print Assumptions C02_append_overwrites_conflicting_suffix.
Print Assumptions C02_append_elsewhere_aborts.
Print Assumptions C02_append_nothing.
Print Assumptions C02_set_hard_state.
Print Assumptions C03_range_reads_are_exact.
Print Assumptions C03_available_ranges_are_served.
Print Assumptions C03_term_reads_agree.
Print Assumptions C04_snapshot_loses_no_unapplied_entry.
Print Assumptions C04_snapshot_elsewhere_is_refused.
Print Assumptions C04_snapshot_index_never_moves_back.
Print Assumptions C04_latest_snapshot_size.
Print Assumptions C05_installing_replaces_the_log.
Print Assumptions C05_stale_snapshot_is_refused.
Print Assumptions C05_commit_never_regresses_refuted.
Print Assumptions C06_snapshot_served_iff_satisfiable.
Print Assumptions C06_snapshot_wanted_iff_threshold_or_outstanding.
Print Assumptions C07_snapshotting_does_not_loop.
Print Assumptions C07_no_snapshot_right_after_install.
Print Assumptions C08_pieces_partition_the_payload.
Print Assumptions C08_requests_of_a_transfer.
Print Assumptions C09_completed_snapshot_is_the_one_sent.
Print Assumptions C09_all_chunks_complete_the_snapshot.
Print Assumptions C09_completion_uses_received_chunks_only.
Print Assumptions C09_acknowledgements_are_truthful.
Print Assumptions C09_unexpected_requests_are_rejected.
Print Assumptions C10_no_mixing_refuted.
Print Assumptions C10_no_mixing_within_one_transfer_partial.
Print Assumptions C100_stores_are_serializable.
Print Assumptions C100_no_update_is_lost.
Print Assumptions C100_reads_are_not_stale.
Print Assumptions C101_requests_are_answered_once.
Print Assumptions C101_no_number_is_answered_twice.
Print Assumptions C101_counters_answer_once.
Print Assumptions C101_tablet_stores_answer_once.
Print Assumptions C101_decryptors_answer_once.
Print Assumptions C101_restarted_replicas_answer_again_refuted.
Print Assumptions C102_records_reach_the_host_once.
Print Assumptions C102_records_are_handed_over_by_their_call.
Print Assumptions C102_log_messages_come_in_between.
Print Assumptions C102_logging_changes_nothing_else.
Print Assumptions C102_no_records_with_a_logger.
Print Assumptions C102_records_of_failing_calls_are_lost_refuted.
Print Assumptions C103_agreed_requests_are_answered.
Print Assumptions C103_counters_answer_all.
Print Assumptions C103_tablet_stores_answer_all.
Print Assumptions C103_decryptors_answer_all.
Print Assumptions C103_skipped_requests_are_not_answered_refuted.
Print Assumptions C104_requests_are_answered_at_once.
Print Assumptions C104_nodes_answer_at_once.
Print Assumptions C11_in_flight_bounded.
Print Assumptions C11_delivery_ids_count_up.
Print Assumptions C11_configuration.
Print Assumptions C12_reports_are_justified.
Print Assumptions C12_finished_transfers_are_reported.
Print Assumptions C13_sender_iff_leader.
Print Assumptions C13_changes_abort_transfers.
Print Assumptions C13_processor_histories.
Print Assumptions C13_cancelled_once.
Print Assumptions C13_uninitialised_aborts.
Print Assumptions C14_least_advanced_first.
Print Assumptions C15_only_ciphertext_leaves.
Print Assumptions C15_sent_messages_go_to_attested_peers.
Print Assumptions C15_contents_are_encrypted_by_the_session.
Print Assumptions C16_only_authenticated_messages_are_delivered.
Print Assumptions C16_delivered_messages_come_from_attested_peers.
Print Assumptions C16_contents_are_decrypted_by_the_session.
Print Assumptions C17_what_a_peer_gets.
Print Assumptions C17_only_heartbeats_are_superseded.
Print Assumptions C17_order_is_kept.
Print Assumptions C18_nothing_queued_is_lost.
Print Assumptions C18_failed_channels_are_retried.
Print Assumptions C18_unanswered_handshakes_time_out.
Print Assumptions C18_next_message_restarts_handshake.
Print Assumptions C19_removed_peers_lose_their_channels.
Print Assumptions C19_no_old_keys_after_removal.
Print Assumptions C20_completed_only_by_a_completed_session.
Print Assumptions C20_handshake_message_ends_a_completed_channel.
Print Assumptions C20_nothing_before_completion.
Print Assumptions C20_role_follows_direction.
Print Assumptions C20_uninitialised_module_refuses.
Print Assumptions C20_no_history_aborts.
Print Assumptions C20_handshake_messages_are_addressed_to_the_peer.
Print Assumptions C20_default_sessions_never_abort.
Print Assumptions C21_completed_only_when_open.
Print Assumptions C21_messages_of_a_session.
Print Assumptions C21_finished_sessions_stay_finished.
Print Assumptions C21_unexpected_messages_fail_the_session.
Print Assumptions C21_progress.
Print Assumptions C22_events_of_the_log.
Print Assumptions C22_indices_increase.
Print Assumptions C22_reported_index.
Print Assumptions C23_proposals.
Print Assumptions C23_owner.
Print Assumptions C23_owned_only_if_named.
Print Assumptions C24_state_is_that_of_the_log.
Print Assumptions C24_replicas_converge.
Print Assumptions C24_atomic_counters_converge.
Print Assumptions C24_tablet_stores_converge.
Print Assumptions C24_decryptors_converge.
Print Assumptions C25_time_of_the_application.
Print Assumptions C25_clock.
Print Assumptions C25_clock_at_most_once.
Print Assumptions C26_stopped_partial.
Print Assumptions C26_stopped_refuted.
Print Assumptions C27_starts_once.
Print Assumptions C27_before_start.
Print Assumptions C28_status_partial.
Print Assumptions C28_status_refuted.
Print Assumptions C29_messages_partial.
Print Assumptions C29_misrouted_refuted.
Print Assumptions C30_change_requests.
Print Assumptions C31_ephemeral.
Print Assumptions C32_compare_and_swap.
Print Assumptions C32_initial_values.
Print Assumptions C33_log_order.
Print Assumptions C33_replicas_agree.
Print Assumptions C33_one_winner.
Print Assumptions C34_failed_swap_reports_old_value_refuted.
Print Assumptions C34_failed_swap_reports_zero_partial.
Print Assumptions C35_snapshot_restores_state_refuted.
Print Assumptions C35_snapshot_restores_state_partial.
Print Assumptions C35_snapshot_restores_lagging_replica.
Print Assumptions C35_unreadable_snapshot_is_refused.
Print Assumptions C36_followers_reject.
Print Assumptions C36_leader_proposes.
Print Assumptions C36_malformed_commands_are_refused.
Print Assumptions C36_every_command_is_taken_care_of.
Print Assumptions C37_all_or_nothing.
Print Assumptions C37_outcome_is_answered.
Print Assumptions C38_updates_raise_version_by_one.
Print Assumptions C38_versions_never_go_down.
Print Assumptions C38_version_counts_updates.
Print Assumptions C38_log_is_run_in_order.
Print Assumptions C39_no_two_conflicting_updates.
Print Assumptions C40_duplicate_update_is_a_conflict_refuted.
Print Assumptions C40_duplicate_update_is_a_conflict_partial.
Print Assumptions C41_listing_is_exact_refuted.
Print Assumptions C41_listing_is_exact_for_closed_ranges.
Print Assumptions C41_no_responsible_tablet_is_missing_partial.
Print Assumptions C41_list_operation.
Print Assumptions C41_every_hash_has_one_owner.
Print Assumptions C42_snapshot_restores_state.
Print Assumptions C42_reachable_states_can_be_saved.
Print Assumptions C42_same_configuration_same_tables.
Print Assumptions C42_unknown_tables_are_refused.
Print Assumptions C42_unreadable_snapshots_are_refused.
Print Assumptions C43_store_is_bounded.
Print Assumptions C43_oldest_key_is_evicted.
Print Assumptions C43_later_keys_have_larger_numbers.
Print Assumptions C44_key_is_used_once_refuted.
Print Assumptions C44_key_is_used_once_partial.
Print Assumptions C44_decryption_needs_a_stored_key.
Print Assumptions C45_published_key_is_usable_refuted.
Print Assumptions C45_stored_pair_is_not_replaced_partial.
Print Assumptions C45_published_key_is_the_stored_one.
Print Assumptions C45_stored_pairs_match.
Print Assumptions C45_decryption_uses_the_stored_pair.
Print Assumptions C46_snapshot_restores_state.
Print Assumptions C46_generation_is_idempotent.
Print Assumptions C46_followers_refuse.
Print Assumptions C46_commands_do_not_change_keys.
Print Assumptions C46_missing_keys_are_reported.
Print Assumptions C46_unreadable_snapshots_are_refused.
Print Assumptions C47_cache_knows_the_newest_report.
Print Assumptions C47_known_versions_never_decrease.
Print Assumptions C48_split_is_exact.
Print Assumptions C48_region_bounds_are_exact.
Print Assumptions C49_delivered_answers_are_sound_partial.
Print Assumptions C49_resolved_against_listing_partial.
Print Assumptions C49_first_key_beyond_first_tablet_is_lost_refuted.
Print Assumptions C49_lost_key_witness_refuted.
Print Assumptions C50_untracked_hashes_abort_refuted.
Print Assumptions C50_largest_hash_untracked_refuted.
Print Assumptions C50_tracked_hashes_partial.
Print Assumptions C51_one_outstanding_request.
Print Assumptions C51_result_of_store.
Print Assumptions C51_result_of_load_partial.
Print Assumptions C51_complete_load_partial.
Print Assumptions C51_batches_resolve.
Print Assumptions C51_results_never_change.
Print Assumptions C51_never_aborts.
Print Assumptions C51_incomplete_load_refuted.
Print Assumptions C52_empty_batch_refuted.
Print Assumptions C53_hash_not_checked_refuted.
Print Assumptions C54_ids_numbers_and_outcomes_once.
Print Assumptions C54_outcome_of_the_answer_partial.
Print Assumptions C54_outcome_is_the_verdict_of_the_tablet_store.
Print Assumptions C54_answer_decides.
Print Assumptions C54_handles_keep_the_outcome.
Print Assumptions C54_truncated_answer_refuted.
Print Assumptions C55_failed_commit_changes_the_cache_refuted.
Print Assumptions C55_cache_holds_what_it_was_told_partial.
Print Assumptions C55_uncommitted_version_witness_refuted.
Print Assumptions C56_failed_processing_stays_pending_refuted.
Print Assumptions C57_error_aborts_refuted.
Print Assumptions C57_undecided_without_results.
Print Assumptions C58_no_request_is_ever_answered_refuted.
Print Assumptions C58_waiting_for_nothing_aborts_refuted.
Print Assumptions C58_failed_requests_are_not_retried_refuted.
Print Assumptions C59_batch_is_executed_in_order.
Print Assumptions C60_no_request_aborts_the_store_refuted.
Print Assumptions C60_no_request_aborts_the_store_partial.
Print Assumptions C61_commands.
Print Assumptions C62_every_command_is_answered_or_proposed_refuted.
Print Assumptions C62_every_command_is_answered_or_proposed_partial.
Print Assumptions C62_a_new_decryptor_knows_no_key.
Print Assumptions C63_departed_replicas_partial.
Print Assumptions C63_departed_replicas_refuted.
Print Assumptions C64_messages_of_the_application.
Print Assumptions C65_snapshots.
Print Assumptions C66_lame_duck.
Print Assumptions C67_initialisation.
Print Assumptions C67_initialised_once.
Print Assumptions C68_list_answers_reach_the_cache.
Print Assumptions C68_no_repeated_list_requests.
Print Assumptions C68_unanswered_requests_are_being_listed.
Print Assumptions C68_lists_only_what_is_asked.
Print Assumptions C68_messages_are_numbered_and_taken_once.
Print Assumptions C69_answered_at_most_once_partial.
Print Assumptions C69_proper_calls_never_abort_partial.
Print Assumptions C69_two_queries_of_one_table_refuted.
Print Assumptions C69_second_query_replaces_first_refuted.
Print Assumptions C70_tablets_asked_for_partial.
Print Assumptions C70_fresh_tablets_refuted.
Print Assumptions C71_written_metadata.
Print Assumptions C71_names_differ.
Print Assumptions C72_same_change_twice_refuted.
Print Assumptions C72_stores_of_new_names_partial.
Print Assumptions C73_commit_is_what_handlers_did.
Print Assumptions C73_client_state_is_changed_by_handlers_only.
Print Assumptions C74_transactions_are_atomic.
Print Assumptions C75_contents_are_stored_before_commit.
Print Assumptions C76_handlers_are_given_known_tablets_partial.
Print Assumptions C76_handlers_are_given_loaded_contents_partial.
Print Assumptions C76_tables_are_mixed_up_refuted.
Print Assumptions C77_reading_transactions_never_commit_refuted.
Print Assumptions C77_empty_transactions_never_end_refuted.
Print Assumptions C78_answers_are_sound.
Print Assumptions C78_success_answers_all.
Print Assumptions C79_one_transaction_per_tablet.
Print Assumptions C80_requests_go_to_the_first_tablet_refuted.
Print Assumptions C80_request_of_second_tablet_is_lost_refuted.
Print Assumptions C81_different_configurations_refuted.
Print Assumptions C82_refused_commits_are_listed_again.
Print Assumptions C82_answered_from_the_cache.
Print Assumptions C82_conflicting_regions_are_listed_again.
Print Assumptions C83_calls_are_atomic.
Print Assumptions C83_calls_return.
Print Assumptions C83_kernel_calls.
Print Assumptions C84_no_reply_after_an_error.
Print Assumptions C84_errors_have_a_cause.
Print Assumptions C84_kernel_aborts.
Print Assumptions C85_cancelled_calls_refuted.
Print Assumptions C86_batches_are_carried_out.
Print Assumptions C87_consensus_contract.
Print Assumptions C87_never_aborts.
Print Assumptions C87_node_is_called_as_consensus_is.
Print Assumptions C88_stored.
Print Assumptions C89_snapshots_in_time.
Print Assumptions C89_snapshots_when_due.
Print Assumptions C90_only_a_leader_describes_the_cluster.
Print Assumptions C90_applications_are_told_whether_they_lead.
Print Assumptions C91_peers_match_the_reference_values.
Print Assumptions C91_other_peers_are_checked_as_a_whole.
Print Assumptions C91_insecure_only_on_request.
Print Assumptions C91_bound_with_the_verified_key.
Print Assumptions C91_hardware_values_ignored.
Print Assumptions C91_sessions_use_the_latest_values.
Print Assumptions C91_no_session_before_initialisation.
Print Assumptions C92_only_attested_peers_are_heard.
Print Assumptions C92_handshakes_affect_their_channel.
Print Assumptions C92_only_attested_peers_are_told.
Print Assumptions C92_peers_that_are_heard_match_the_reference_values.
Print Assumptions C93_headings_are_not_protected_refuted.
Print Assumptions C94_strangers_change_nothing.
Print Assumptions C94_handshakes_change_nothing_else.
Print Assumptions C94_message_without_contents_refuted.
Print Assumptions C95_refused_events_refuted.
Print Assumptions C96_replicas_start.
Print Assumptions C96_replicas_keep_running.
Print Assumptions C96_all_chunks_are_collected.
Print Assumptions C96_counters_meet_the_contract.
Print Assumptions C97_events_act_on_the_state_of_the_log.
Print Assumptions C97_counters_are_linearizable.
Print Assumptions C98_processor_is_connected.
Print Assumptions C98_messages_are_addressed.
Print Assumptions C98_snapshots_arrive_as_sent.
Print Assumptions C98_success_means_accepted.
Print Assumptions C99_decryptions_use_unused_pairs.
Print Assumptions C99_members_do_not_use_a_key_again.
Print Assumptions C99_published_keys_are_in_the_log.
Print Assumptions C99_members_keep_published_pairs.
Print Assumptions C99_key_is_used_once_refuted.
