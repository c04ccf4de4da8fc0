{
 "claims": [
  {
   "property": "C01",
   "status": "proved",
   "theorems": [
    "C01_log_has_no_holes",
    "C01_fresh_log_is_empty",
    "C01_reachable_closed"
   ],
   "note": ""
  },
  {
   "property": "C02",
   "status": "proved",
   "theorems": [
    "C02_append_overwrites_conflicting_suffix",
    "C02_append_elsewhere_aborts",
    "C02_append_nothing",
    "C02_set_hard_state"
   ],
   "note": ""
  },
  {
   "property": "C03",
   "status": "proved",
   "theorems": [
    "C03_range_reads_are_exact",
    "C03_available_ranges_are_served",
    "C03_term_reads_agree"
   ],
   "note": ""
  },
  {
   "property": "C04",
   "status": "proved",
   "theorems": [
    "C04_snapshot_loses_no_unapplied_entry",
    "C04_snapshot_elsewhere_is_refused",
    "C04_snapshot_index_never_moves_back",
    "C04_latest_snapshot_size"
   ],
   "note": ""
  },
  {
   "property": "C05",
   "status": "partial",
   "theorems": [
    "C05_installing_replaces_the_log",
    "C05_stale_snapshot_is_refused",
    "C05_commit_never_regresses_refuted"
   ],
   "note": "REFUTED on the model of the code as written, see C05_commit_never_regresses_refuted. Installing replaces the log (proved). The part that is false: the commit index can move backwards."
  },
  {
   "property": "C06",
   "status": "proved",
   "theorems": [
    "C06_snapshot_served_iff_satisfiable",
    "C06_snapshot_wanted_iff_threshold_or_outstanding"
   ],
   "note": ""
  },
  {
   "property": "C07",
   "status": "proved",
   "theorems": [
    "C07_snapshotting_does_not_loop",
    "C07_no_snapshot_right_after_install"
   ],
   "note": ""
  },
  {
   "property": "C08",
   "status": "proved",
   "theorems": [
    "C08_pieces_partition_the_payload",
    "C08_requests_of_a_transfer"
   ],
   "note": ""
  },
  {
   "property": "C09",
   "status": "proved",
   "theorems": [
    "C09_completed_snapshot_is_the_one_sent",
    "C09_all_chunks_complete_the_snapshot",
    "C09_completion_uses_received_chunks_only",
    "C09_acknowledgements_are_truthful",
    "C09_unexpected_requests_are_rejected"
   ],
   "note": ""
  },
  {
   "property": "C10",
   "status": "partial",
   "theorems": [
    "C10_no_mixing_refuted",
    "C10_no_mixing_within_one_transfer_partial"
   ],
   "note": "REFUTED on the model of the code as written, see C10_no_mixing_refuted. False in general because the receiver keys its buffer by sender only and never compares snapshot ids. Proved within one transfer of one snapshot."
  },
  {
   "property": "C11",
   "status": "proved",
   "theorems": [
    "C11_in_flight_bounded",
    "C11_delivery_ids_count_up",
    "C11_configuration"
   ],
   "note": ""
  },
  {
   "property": "C12",
   "status": "proved",
   "theorems": [
    "C12_reports_are_justified",
    "C12_finished_transfers_are_reported"
   ],
   "note": ""
  },
  {
   "property": "C13",
   "status": "proved",
   "theorems": [
    "C13_sender_iff_leader",
    "C13_changes_abort_transfers",
    "C13_processor_histories",
    "C13_cancelled_once",
    "C13_uninitialised_aborts"
   ],
   "note": ""
  },
  {
   "property": "C14",
   "status": "proved",
   "theorems": [
    "C14_least_advanced_first"
   ],
   "note": ""
  },
  {
   "property": "C15",
   "status": "proved",
   "theorems": [
    "C15_only_ciphertext_leaves",
    "C15_sent_messages_go_to_attested_peers",
    "C15_contents_are_encrypted_by_the_session"
   ],
   "note": ""
  },
  {
   "property": "C16",
   "status": "proved",
   "theorems": [
    "C16_only_authenticated_messages_are_delivered",
    "C16_delivered_messages_come_from_attested_peers",
    "C16_contents_are_decrypted_by_the_session"
   ],
   "note": ""
  },
  {
   "property": "C17",
   "status": "proved",
   "theorems": [
    "C17_what_a_peer_gets",
    "C17_only_heartbeats_are_superseded",
    "C17_order_is_kept"
   ],
   "note": ""
  },
  {
   "property": "C18",
   "status": "proved",
   "theorems": [
    "C18_nothing_queued_is_lost",
    "C18_failed_channels_are_retried",
    "C18_unanswered_handshakes_time_out",
    "C18_next_message_restarts_handshake"
   ],
   "note": ""
  },
  {
   "property": "C19",
   "status": "proved",
   "theorems": [
    "C19_removed_peers_lose_their_channels",
    "C19_no_old_keys_after_removal"
   ],
   "note": ""
  },
  {
   "property": "C20",
   "status": "proved",
   "theorems": [
    "C20_completed_only_by_a_completed_session",
    "C20_handshake_message_ends_a_completed_channel",
    "C20_nothing_before_completion",
    "C20_role_follows_direction",
    "C20_uninitialised_module_refuses",
    "C20_no_history_aborts",
    "C20_handshake_messages_are_addressed_to_the_peer",
    "C20_default_sessions_never_abort"
   ],
   "note": ""
  },
  {
   "property": "C21",
   "status": "proved",
   "theorems": [
    "C21_completed_only_when_open",
    "C21_messages_of_a_session",
    "C21_finished_sessions_stay_finished",
    "C21_unexpected_messages_fail_the_session",
    "C21_progress"
   ],
   "note": ""
  },
  {
   "property": "C22",
   "status": "proved",
   "theorems": [
    "C22_events_of_the_log",
    "C22_indices_increase",
    "C22_reported_index"
   ],
   "note": ""
  },
  {
   "property": "C23",
   "status": "proved",
   "theorems": [
    "C23_proposals",
    "C23_owner",
    "C23_owned_only_if_named"
   ],
   "note": ""
  },
  {
   "property": "C24",
   "status": "proved",
   "theorems": [
    "C24_state_is_that_of_the_log",
    "C24_replicas_converge",
    "C24_atomic_counters_converge",
    "C24_tablet_stores_converge",
    "C24_decryptors_converge"
   ],
   "note": "Proved for every application that satisfies the record `replicated` (only events and snapshots change the state, effects do not depend on who applies them, snapshots restore states), and for the three replicated applications of the repository, which are shown to satisfy it. Assumed of consensus, as explicit hypotheses (`agrees`): one log, entries handed over in order and without gaps, snapshots handed over were created by some member before. These are guarantees of raft-rs, which is not part of this repository."
  },
  {
   "property": "C25",
   "status": "proved",
   "theorems": [
    "C25_time_of_the_application",
    "C25_clock",
    "C25_clock_at_most_once"
   ],
   "note": ""
  },
  {
   "property": "C26",
   "status": "partial",
   "theorems": [
    "C26_stopped_partial",
    "C26_stopped_refuted"
   ],
   "note": "REFUTED on the model of the code as written, see C26_stopped_refuted. False as stated: a stopped replica keeps applying entries, keeps its clock running and answers snapshot requests. Proved: what a stopped replica does refuse."
  },
  {
   "property": "C27",
   "status": "proved",
   "theorems": [
    "C27_starts_once",
    "C27_before_start"
   ],
   "note": ""
  },
  {
   "property": "C28",
   "status": "partial",
   "theorems": [
    "C28_status_partial",
    "C28_status_refuted"
   ],
   "note": "REFUTED on the model of the code as written, see C28_status_refuted. False for followers, which report nothing. Proved for the leader and for the reports that are made."
  },
  {
   "property": "C29",
   "status": "partial",
   "theorems": [
    "C29_messages_partial",
    "C29_misrouted_refuted"
   ],
   "note": "REFUTED on the model of the code as written, see C29_misrouted_refuted. False: misrouted messages are only logged. Proved: which messages are dropped."
  },
  {
   "property": "C30",
   "status": "proved",
   "theorems": [
    "C30_change_requests"
   ],
   "note": ""
  },
  {
   "property": "C31",
   "status": "proved",
   "theorems": [
    "C31_ephemeral"
   ],
   "note": ""
  },
  {
   "property": "C32",
   "status": "proved",
   "theorems": [
    "C32_compare_and_swap",
    "C32_initial_values"
   ],
   "note": ""
  },
  {
   "property": "C33",
   "status": "proved",
   "theorems": [
    "C33_log_order",
    "C33_replicas_agree",
    "C33_one_winner"
   ],
   "note": ""
  },
  {
   "property": "C34",
   "status": "partial",
   "theorems": [
    "C34_failed_swap_reports_old_value_refuted",
    "C34_failed_swap_reports_zero_partial"
   ],
   "note": "REFUTED on the model of the code as written, see C34_failed_swap_reports_old_value_refuted. False: the new value is reported as zero. Proved: exactly what is reported."
  },
  {
   "property": "C35",
   "status": "partial",
   "theorems": [
    "C35_snapshot_restores_state_refuted",
    "C35_snapshot_restores_state_partial",
    "C35_snapshot_restores_lagging_replica",
    "C35_unreadable_snapshot_is_refused"
   ],
   "note": "REFUTED on the model of the code as written, see C35_snapshot_restores_state_refuted. False without a condition on the loading replica, because loading does not clear. Proved when the loader's counters occur in the snapshot, in particular for lagging replicas of one configuration."
  },
  {
   "property": "C36",
   "status": "proved",
   "theorems": [
    "C36_followers_reject",
    "C36_leader_proposes",
    "C36_malformed_commands_are_refused",
    "C36_every_command_is_taken_care_of"
   ],
   "note": ""
  },
  {
   "property": "C37",
   "status": "proved",
   "theorems": [
    "C37_all_or_nothing",
    "C37_outcome_is_answered"
   ],
   "note": ""
  },
  {
   "property": "C38",
   "status": "proved",
   "theorems": [
    "C38_updates_raise_version_by_one",
    "C38_versions_never_go_down",
    "C38_version_counts_updates",
    "C38_log_is_run_in_order"
   ],
   "note": ""
  },
  {
   "property": "C39",
   "status": "proved",
   "theorems": [
    "C39_no_two_conflicting_updates"
   ],
   "note": ""
  },
  {
   "property": "C40",
   "status": "partial",
   "theorems": [
    "C40_duplicate_update_is_a_conflict_refuted",
    "C40_duplicate_update_is_a_conflict_partial"
   ],
   "note": "REFUTED on the model of the code as written, see C40_duplicate_update_is_a_conflict_refuted. False: the second update wins and the version grows by one only. Proved: when both are refused or accepted."
  },
  {
   "property": "C41",
   "status": "partial",
   "theorems": [
    "C41_listing_is_exact_refuted",
    "C41_listing_is_exact_for_closed_ranges",
    "C41_no_responsible_tablet_is_missing_partial",
    "C41_list_operation",
    "C41_every_hash_has_one_owner"
   ],
   "note": "REFUTED on the model of the code as written, see C41_listing_is_exact_refuted. False: the tablet that owns the wrap-around can be listed in addition. Proved: no responsible tablet is missing, nothing is listed twice, and what else may be listed."
  },
  {
   "property": "C42",
   "status": "proved",
   "theorems": [
    "C42_snapshot_restores_state",
    "C42_reachable_states_can_be_saved",
    "C42_same_configuration_same_tables",
    "C42_unknown_tables_are_refused",
    "C42_unreadable_snapshots_are_refused"
   ],
   "note": ""
  },
  {
   "property": "C43",
   "status": "proved",
   "theorems": [
    "C43_store_is_bounded",
    "C43_oldest_key_is_evicted",
    "C43_later_keys_have_larger_numbers"
   ],
   "note": ""
  },
  {
   "property": "C44",
   "status": "partial",
   "theorems": [
    "C44_key_is_used_once_refuted",
    "C44_key_is_used_once_partial",
    "C44_decryption_needs_a_stored_key"
   ],
   "note": "REFUTED on the model of the code as written, see C44_key_is_used_once_refuted. False when requests overlap. Proved when the second request is delivered after the first event was applied."
  },
  {
   "property": "C45",
   "status": "partial",
   "theorems": [
    "C45_published_key_is_usable_refuted",
    "C45_stored_pair_is_not_replaced_partial",
    "C45_published_key_is_the_stored_one",
    "C45_stored_pairs_match",
    "C45_decryption_uses_the_stored_pair"
   ],
   "note": "REFUTED on the model of the code as written, see C45_published_key_is_usable_refuted. False when generations overlap or the store is full. Proved: a stored pair is not replaced by later commands."
  },
  {
   "property": "C46",
   "status": "proved",
   "theorems": [
    "C46_snapshot_restores_state",
    "C46_generation_is_idempotent",
    "C46_followers_refuse",
    "C46_commands_do_not_change_keys",
    "C46_missing_keys_are_reported",
    "C46_unreadable_snapshots_are_refused"
   ],
   "note": ""
  },
  {
   "property": "C47",
   "status": "proved",
   "theorems": [
    "C47_cache_knows_the_newest_report",
    "C47_known_versions_never_decrease"
   ],
   "note": ""
  },
  {
   "property": "C48",
   "status": "proved",
   "theorems": [
    "C48_split_is_exact",
    "C48_region_bounds_are_exact"
   ],
   "note": ""
  },
  {
   "property": "C49",
   "status": "partial",
   "theorems": [
    "C49_delivered_answers_are_sound_partial",
    "C49_resolved_against_listing_partial",
    "C49_first_key_beyond_first_tablet_is_lost_refuted",
    "C49_lost_key_witness_refuted"
   ],
   "note": "REFUTED on the model of the code as written, see C49_first_key_beyond_first_tablet_is_lost_refuted, C49_lost_key_witness_refuted. False: keys beyond the first tablet of a region are lost. Proved: what is answered is sound, and complete for the first tablet."
  },
  {
   "property": "C50",
   "status": "partial",
   "theorems": [
    "C50_untracked_hashes_abort_refuted",
    "C50_largest_hash_untracked_refuted",
    "C50_tracked_hashes_partial"
   ],
   "note": "REFUTED on the model of the code as written, see C50_untracked_hashes_abort_refuted, C50_largest_hash_untracked_refuted. False: the topmost hash is not tracked for any region size. Proved for all others."
  },
  {
   "property": "C51",
   "status": "partial",
   "theorems": [
    "C51_one_outstanding_request",
    "C51_result_of_store",
    "C51_result_of_load_partial",
    "C51_complete_load_partial",
    "C51_batches_resolve",
    "C51_results_never_change",
    "C51_never_aborts",
    "C51_incomplete_load_refuted"
   ],
   "note": "REFUTED on the model of the code as written, see C51_incomplete_load_refuted. At most one load per blob (proved). A load can complete before all its blobs have arrived (refuted)."
  },
  {
   "property": "C52",
   "status": "partial",
   "theorems": [
    "C52_empty_batch_refuted"
   ],
   "note": "REFUTED on the model of the code as written, see C52_empty_batch_refuted. Refuted for every state: a store of nothing never completes."
  },
  {
   "property": "C53",
   "status": "partial",
   "theorems": [
    "C53_hash_not_checked_refuted"
   ],
   "note": "REFUTED on the model of the code as written, see C53_hash_not_checked_refuted. Refuted: contents are accepted whatever their hash."
  },
  {
   "property": "C54",
   "status": "partial",
   "theorems": [
    "C54_ids_numbers_and_outcomes_once",
    "C54_outcome_of_the_answer_partial",
    "C54_outcome_is_the_verdict_of_the_tablet_store",
    "C54_answer_decides",
    "C54_handles_keep_the_outcome",
    "C54_truncated_answer_refuted"
   ],
   "note": "REFUTED on the model of the code as written, see C54_truncated_answer_refuted. Proved: the outcome is that of the answer, and commits are complete unless the answer is truncated. False for truncated answers, which count as success."
  },
  {
   "property": "C55",
   "status": "partial",
   "theorems": [
    "C55_failed_commit_changes_the_cache_refuted",
    "C55_cache_holds_what_it_was_told_partial",
    "C55_uncommitted_version_witness_refuted"
   ],
   "note": "REFUTED on the model of the code as written, see C55_failed_commit_changes_the_cache_refuted, C55_uncommitted_version_witness_refuted. False: a failed transaction leaves the versions it wanted to write in the cache. Proved: the cache holds only what it was told by the store or by a commit."
  },
  {
   "property": "C56",
   "status": "partial",
   "theorems": [
    "C56_failed_processing_stays_pending_refuted"
   ],
   "note": "REFUTED on the model of the code as written, see C56_failed_processing_stays_pending_refuted. Refuted for every transaction one of whose processings failed."
  },
  {
   "property": "C57",
   "status": "partial",
   "theorems": [
    "C57_error_aborts_refuted",
    "C57_undecided_without_results"
   ],
   "note": "REFUTED on the model of the code as written, see C57_error_aborts_refuted. Refuted for every commit with at least one operation: the service aborts."
  },
  {
   "property": "C58",
   "status": "partial",
   "theorems": [
    "C58_no_request_is_ever_answered_refuted",
    "C58_waiting_for_nothing_aborts_refuted",
    "C58_failed_requests_are_not_retried_refuted"
   ],
   "note": "REFUTED on the model of the code as written, see C58_no_request_is_ever_answered_refuted, C58_waiting_for_nothing_aborts_refuted, C58_failed_requests_are_not_retried_refuted. Refuted for every history: the actor never advances the transaction manager. Two further defects are refuted as well."
  },
  {
   "property": "C59",
   "status": "proved",
   "theorems": [
    "C59_batch_is_executed_in_order"
   ],
   "note": ""
  },
  {
   "property": "C60",
   "status": "partial",
   "theorems": [
    "C60_no_request_aborts_the_store_refuted",
    "C60_no_request_aborts_the_store_partial"
   ],
   "note": "REFUTED on the model of the code as written, see C60_no_request_aborts_the_store_refuted. False: unsupported operations and the largest version abort every replica. Proved for the rest."
  },
  {
   "property": "C61",
   "status": "proved",
   "theorems": [
    "C61_commands"
   ],
   "note": ""
  },
  {
   "property": "C62",
   "status": "partial",
   "theorems": [
    "C62_every_command_is_answered_or_proposed_refuted",
    "C62_every_command_is_answered_or_proposed_partial",
    "C62_a_new_decryptor_knows_no_key"
   ],
   "note": "REFUTED on the model of the code as written, see C62_every_command_is_answered_or_proposed_refuted. False: malformed commands fail the replica. Proved for well-formed ones."
  },
  {
   "property": "C63",
   "status": "partial",
   "theorems": [
    "C63_departed_replicas_partial",
    "C63_departed_replicas_refuted"
   ],
   "note": "REFUTED on the model of the code as written, see C63_departed_replicas_refuted. False on followers. Proved: when the communication module is told."
  },
  {
   "property": "C64",
   "status": "proved",
   "theorems": [
    "C64_messages_of_the_application"
   ],
   "note": ""
  },
  {
   "property": "C65",
   "status": "proved",
   "theorems": [
    "C65_snapshots"
   ],
   "note": ""
  },
  {
   "property": "C66",
   "status": "proved",
   "theorems": [
    "C66_lame_duck"
   ],
   "note": ""
  },
  {
   "property": "C67",
   "status": "proved",
   "theorems": [
    "C67_initialisation",
    "C67_initialised_once"
   ],
   "note": ""
  },
  {
   "property": "C68",
   "status": "proved",
   "theorems": [
    "C68_list_answers_reach_the_cache",
    "C68_no_repeated_list_requests",
    "C68_unanswered_requests_are_being_listed",
    "C68_lists_only_what_is_asked",
    "C68_messages_are_numbered_and_taken_once"
   ],
   "note": ""
  },
  {
   "property": "C69",
   "status": "partial",
   "theorems": [
    "C69_answered_at_most_once_partial",
    "C69_proper_calls_never_abort_partial",
    "C69_two_queries_of_one_table_refuted",
    "C69_second_query_replaces_first_refuted"
   ],
   "note": "REFUTED on the model of the code as written, see C69_two_queries_of_one_table_refuted, C69_second_query_replaces_first_refuted. False for two queries of one table and region. Proved for histories without such queries."
  },
  {
   "property": "C70",
   "status": "partial",
   "theorems": [
    "C70_tablets_asked_for_partial",
    "C70_fresh_tablets_refuted"
   ],
   "note": "REFUTED on the model of the code as written, see C70_fresh_tablets_refuted. False for tablets without a blob, which all share one name. Proved when names are distinct."
  },
  {
   "property": "C71",
   "status": "proved",
   "theorems": [
    "C71_written_metadata",
    "C71_names_differ"
   ],
   "note": ""
  },
  {
   "property": "C72",
   "status": "partial",
   "theorems": [
    "C72_same_change_twice_refuted",
    "C72_stores_of_new_names_partial"
   ],
   "note": "REFUTED on the model of the code as written, see C72_same_change_twice_refuted. False: identical concurrent writes abort. Proved for writes of new names."
  },
  {
   "property": "C73",
   "status": "proved",
   "theorems": [
    "C73_commit_is_what_handlers_did",
    "C73_client_state_is_changed_by_handlers_only"
   ],
   "note": ""
  },
  {
   "property": "C74",
   "status": "proved",
   "theorems": [
    "C74_transactions_are_atomic"
   ],
   "note": ""
  },
  {
   "property": "C75",
   "status": "proved",
   "theorems": [
    "C75_contents_are_stored_before_commit"
   ],
   "note": ""
  },
  {
   "property": "C76",
   "status": "partial",
   "theorems": [
    "C76_handlers_are_given_known_tablets_partial",
    "C76_handlers_are_given_loaded_contents_partial",
    "C76_tables_are_mixed_up_refuted"
   ],
   "note": "REFUTED on the model of the code as written, see C76_tables_are_mixed_up_refuted. Proved: tablets given to handlers were reported by the store, and contents were loaded or set. False across tables, because tablets are identified by id and version only."
  },
  {
   "property": "C77",
   "status": "partial",
   "theorems": [
    "C77_reading_transactions_never_commit_refuted",
    "C77_empty_transactions_never_end_refuted"
   ],
   "note": "REFUTED on the model of the code as written, see C77_reading_transactions_never_commit_refuted, C77_empty_transactions_never_end_refuted. Refuted: transactions that only read never commit, and empty ones never end."
  },
  {
   "property": "C78",
   "status": "proved",
   "theorems": [
    "C78_answers_are_sound",
    "C78_success_answers_all"
   ],
   "note": ""
  },
  {
   "property": "C79",
   "status": "proved",
   "theorems": [
    "C79_one_transaction_per_tablet"
   ],
   "note": ""
  },
  {
   "property": "C80",
   "status": "partial",
   "theorems": [
    "C80_requests_go_to_the_first_tablet_refuted",
    "C80_request_of_second_tablet_is_lost_refuted"
   ],
   "note": "REFUTED on the model of the code as written, see C80_requests_go_to_the_first_tablet_refuted, C80_request_of_second_tablet_is_lost_refuted. Refuted: all requests of a batch go to the first tablet of the result, and a concrete request is lost."
  },
  {
   "property": "C81",
   "status": "partial",
   "theorems": [
    "C81_different_configurations_refuted"
   ],
   "note": "REFUTED on the model of the code as written, see C81_different_configurations_refuted. Refuted for the atomic counter: counters known only to the loading replica survive. See C24 and C35 for what holds."
  },
  {
   "property": "C82",
   "status": "proved",
   "theorems": [
    "C82_refused_commits_are_listed_again",
    "C82_answered_from_the_cache",
    "C82_conflicting_regions_are_listed_again"
   ],
   "note": ""
  },
  {
   "property": "C83",
   "status": "proved",
   "theorems": [
    "C83_calls_are_atomic",
    "C83_calls_return",
    "C83_kernel_calls"
   ],
   "note": ""
  },
  {
   "property": "C84",
   "status": "proved",
   "theorems": [
    "C84_no_reply_after_an_error",
    "C84_errors_have_a_cause",
    "C84_kernel_aborts"
   ],
   "note": ""
  },
  {
   "property": "C85",
   "status": "partial",
   "theorems": [
    "C85_cancelled_calls_refuted"
   ],
   "note": "REFUTED on the model of the code as written, see C85_cancelled_calls_refuted. Refuted for every driver: the thread panics when nobody waits for a reply, so a cancelled call terminates the replica."
  },
  {
   "property": "C86",
   "status": "proved",
   "theorems": [
    "C86_batches_are_carried_out"
   ],
   "note": ""
  },
  {
   "property": "C87",
   "status": "proved",
   "theorems": [
    "C87_consensus_contract",
    "C87_never_aborts",
    "C87_node_is_called_as_consensus_is"
   ],
   "note": ""
  },
  {
   "property": "C88",
   "status": "proved",
   "theorems": [
    "C88_stored"
   ],
   "note": ""
  },
  {
   "property": "C89",
   "status": "proved",
   "theorems": [
    "C89_snapshots_in_time",
    "C89_snapshots_when_due"
   ],
   "note": ""
  },
  {
   "property": "C90",
   "status": "proved",
   "theorems": [
    "C90_only_a_leader_describes_the_cluster",
    "C90_applications_are_told_whether_they_lead"
   ],
   "note": ""
  },
  {
   "property": "C91",
   "status": "proved",
   "theorems": [
    "C91_peers_match_the_reference_values",
    "C91_other_peers_are_checked_as_a_whole",
    "C91_insecure_only_on_request",
    "C91_bound_with_the_verified_key",
    "C91_hardware_values_ignored",
    "C91_sessions_use_the_latest_values",
    "C91_no_session_before_initialisation"
   ],
   "note": "C91_hardware_values_ignored shows how far the exception goes: values for the hardware are not looked at when insecure hardware is accepted as well."
  },
  {
   "property": "C92",
   "status": "proved",
   "theorems": [
    "C92_only_attested_peers_are_heard",
    "C92_handshakes_affect_their_channel",
    "C92_only_attested_peers_are_told",
    "C92_peers_that_are_heard_match_the_reference_values"
   ],
   "note": ""
  },
  {
   "property": "C93",
   "status": "partial",
   "theorems": [
    "C93_headings_are_not_protected_refuted"
   ],
   "note": "REFUTED on the model of the code as written, see C93_headings_are_not_protected_refuted. Contents: C92. Refuted for kind, recipient and delivery number: only the payload is encrypted, so a host can relabel messages."
  },
  {
   "property": "C94",
   "status": "partial",
   "theorems": [
    "C94_strangers_change_nothing",
    "C94_handshakes_change_nothing_else",
    "C94_message_without_contents_refuted"
   ],
   "note": "REFUTED on the model of the code as written, see C94_message_without_contents_refuted. Holds for messages with contents and handshakes. Refuted for messages without contents on an established channel, which abort."
  },
  {
   "property": "C95",
   "status": "partial",
   "theorems": [
    "C95_refused_events_refuted"
   ],
   "note": "REFUTED on the model of the code as written, see C95_refused_events_refuted. Refuted: whenever an application decides on an event that consensus refuses, the replica aborts."
  },
  {
   "property": "C96",
   "status": "proved",
   "theorems": [
    "C96_replicas_start",
    "C96_replicas_keep_running",
    "C96_all_chunks_are_collected",
    "C96_counters_meet_the_contract"
   ],
   "note": "Under contracts for application, consensus, platform and host that exclude the refuted cases of C94 and C95 and others; shown to be met by the counter and a concrete consensus."
  },
  {
   "property": "C97",
   "status": "proved",
   "theorems": [
    "C97_events_act_on_the_state_of_the_log",
    "C97_counters_are_linearizable"
   ],
   "note": "Consensus is assumed to hand over one log in which every event was proposed, at most once per proposal and after what was handed over before; members share one configuration (needed: C81)."
  },
  {
   "property": "C98",
   "status": "proved",
   "theorems": [
    "C98_processor_is_connected",
    "C98_messages_are_addressed",
    "C98_snapshots_arrive_as_sent",
    "C98_success_means_accepted"
   ],
   "note": "Codecs of messages are assumed to round-trip, and consensus not to send snapshots to a replica with id 0 (0 stands for no replica in the selection loop of the sender). What is heard from a replica is a hypothesis, since channels are verified separately (C17, C92)."
  },
  {
   "property": "C99",
   "status": "proved",
   "theorems": [
    "C99_decryptions_use_unused_pairs",
    "C99_members_do_not_use_a_key_again",
    "C99_published_keys_are_in_the_log",
    "C99_members_keep_published_pairs",
    "C99_key_is_used_once_refuted"
   ],
   "note": "The statement is proved without restriction of the histories, under the assumptions on consensus of C97 (one log, each proposal at most once and after what was handed over before). The stronger claim in its last sentence, at most one use of a key, is REFUTED for the code as written (C99_key_is_used_once_refuted)."
  },
  {
   "property": "C100",
   "status": "proved",
   "theorems": [
    "C100_stores_are_serializable",
    "C100_no_update_is_lost",
    "C100_reads_are_not_stale"
   ],
   "note": "Under the assumptions on consensus of C97 (one log, each proposal at most once and after what was handed over before); members share one configuration; serialisations round-trip."
  },
  {
   "property": "C101",
   "status": "proved",
   "theorems": [
    "C101_requests_are_answered_once",
    "C101_no_number_is_answered_twice",
    "C101_counters_answer_once",
    "C101_tablet_stores_answer_once",
    "C101_decryptors_answer_once",
    "C101_restarted_replicas_answer_again_refuted"
   ],
   "note": "The restriction in the statement is needed, see C101_restarted_replicas_answer_again_refuted. Under the assumptions on consensus of C97. For one run of a replica; C101_restarted_replicas_answer_again_refuted shows that a second run under the same id may answer the requests of the first again."
  },
  {
   "property": "C102",
   "status": "proved",
   "theorems": [
    "C102_records_reach_the_host_once",
    "C102_records_are_handed_over_by_their_call",
    "C102_log_messages_come_in_between",
    "C102_logging_changes_nothing_else",
    "C102_no_records_with_a_logger",
    "C102_records_of_failing_calls_are_lost_refuted"
   ],
   "note": "The restriction in the statement is needed, see C102_records_of_failing_calls_are_lost_refuted. For successful calls; C102_records_of_failing_calls_are_lost_refuted shows that a failing call takes its records, and those kept from before, with it. Which records are logged is an input of the model."
  },
  {
   "property": "C103",
   "status": "proved",
   "theorems": [
    "C103_agreed_requests_are_answered",
    "C103_counters_answer_all",
    "C103_tablet_stores_answer_all",
    "C103_decryptors_answer_all",
    "C103_skipped_requests_are_not_answered_refuted"
   ],
   "note": "The restriction in the statement is needed, see C103_skipped_requests_are_not_answered_refuted. Consensus is a parameter; C103_skipped_requests_are_not_answered_refuted shows a request that takes effect by a snapshot and is never answered."
  },
  {
   "property": "C104",
   "status": "proved",
   "theorems": [
    "C104_requests_are_answered_at_once",
    "C104_nodes_answer_at_once"
   ],
   "note": "What it means that consensus agrees alone are the records agrees_alone of DriverReplySpec.v and, for a node of the raft crate below the modelled RaftSimple, node_agrees_alone of DriverSoloSpec.v; both are hypotheses, and C104_solo_agrees_alone and C104_node_agrees_alone show that they can be met."
  }
 ]
}