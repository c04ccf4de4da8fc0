{"id": "C01", "title": "Replicated log has no holes", "statement": "After any history of storage calls that did not abort, the entries the storage serves have consecutive indices from first_index to last_index, every index in that interval is readable and carries its own index, the snapshot sits directly at or one below the first served index, and the last index is never below the snapshot index.", "quantifier": "every finite sequence of set_hard_state / append / apply_snapshot / create_snapshot / snapshot-request calls, starting from an empty storage, where each appended list has consecutive indices (the order Raft hands entries over; the storage does not check it)", "why_tests_cant": "The holes could appear after an arbitrary interleaving of truncating appends, compactions and snapshots; tests only run a handful of short sequences.", "anchors": ["runtime/src/storage.rs:MemoryStorageCore", "runtime/src/storage.rs:append_entries", "runtime/src/storage.rs:compact_entries", "runtime/src/storage.rs:apply_snapshot", "runtime/src/storage.rs:create_snapshot"]}
{"id": "C02", "title": "Appending overwrites exactly the conflicting suffix", "statement": "When an append succeeds, every index below the first appended index keeps its entry, every appended index reads back exactly the appended entry, and everything above the last appended index becomes unavailable.", "quantifier": "every reachable storage state and every list of entries with consecutive indices", "why_tests_cant": "Depends on the relation between the appended interval and the current log interval; there are unboundedly many.", "anchors": ["runtime/src/storage.rs:append_entries", "runtime/src/storage.rs:entries", "runtime/src/storage.rs:entry_term"]}
{"id": "C03", "title": "Range reads are exact", "statement": "A range read [low, high) returns the stored entries low, low+1, ... in order; with a size limit it returns the longest prefix that fits the limit but never fewer than one entry; below the first index it reports Compacted, an empty log reports Unavailable, a range past the end aborts, and a term read past the end reports Unavailable; term reads agree with the entry, and at the snapshot index with the snapshot.", "quantifier": "every reachable storage state, every low <= high, every size limit", "why_tests_cant": "The outcome depends on all relative positions of low, high, first and last index and of entry sizes.", "anchors": ["runtime/src/storage.rs:entries", "runtime/src/storage.rs:entry_term", "runtime/src/storage.rs:first_entry_index", "runtime/src/storage.rs:last_entry_index"]}
{"id": "C04", "title": "Taking a snapshot loses no unapplied entry", "statement": "Creating a snapshot at applied index a keeps every entry above a readable and unchanged, records the term of entry a and the supplied cluster configuration and data, and never moves the snapshot index backwards; it is refused when a was already compacted away.", "quantifier": "every reachable storage state and every applied index not above the last index", "why_tests_cant": "Loss of an unapplied entry would depend on the exact position of the compaction boundary in an arbitrary log.", "anchors": ["runtime/src/storage.rs:create_snapshot", "runtime/src/storage.rs:compact_entries", "runtime/src/storage.rs:set_snapshot"]}
{"id": "C05", "title": "Installing a snapshot replaces the log", "statement": "Installing a received snapshot is refused when it is older than the first served entry; otherwise afterwards the log is empty, first index is the snapshot index plus one, last index is the snapshot index, the stored snapshot is the received one and the hard state points at it.", "quantifier": "every reachable storage state and every snapshot", "why_tests_cant": "The accept/refuse boundary depends on an arbitrary log prefix.", "anchors": ["runtime/src/storage.rs:apply_snapshot"]}
{"id": "C06", "title": "Snapshot requests are served exactly when satisfiable", "statement": "A peer asking for a snapshot at some index is handed the stored snapshot only if that snapshot is at or above the requested index and its configuration contains the peer; otherwise the request is remembered, makes the storage ask for a new snapshot as soon as the applied index and configuration satisfy it, and is forgotten exactly when a satisfying snapshot is stored.", "quantifier": "every history of storage calls and every set of requesting peers", "why_tests_cant": "Requests and snapshots can interleave in any order with any indices and configurations.", "anchors": ["runtime/src/storage.rs:try_satisfy_request", "runtime/src/storage.rs:should_snapshot", "runtime/src/storage.rs:set_snapshot"]}
{"id": "C07", "title": "Snapshotting does not loop", "statement": "Right after a snapshot is stored for some applied index and configuration, the storage does not ask for another snapshot at the same applied index and configuration.", "quantifier": "every history of storage calls, every set of pending requests, every snapshot threshold", "why_tests_cant": "A livelock would need one particular set of leftover requests; tests enumerate only a few.", "anchors": ["runtime/src/storage.rs:should_snapshot", "runtime/src/storage.rs:set_snapshot", "runtime/src/driver.rs:maybe_create_raft_snapshot"]}
{"id": "C08", "title": "Snapshot chunking partitions the payload", "statement": "For a snapshot of any size and any positive chunk size the transfer consists of exactly one header and chunk_count-1 chunk requests whose payloads, concatenated by index, are the snapshot bytes; every chunk but the last has exactly the chunk size.", "quantifier": "every payload, every positive chunk size", "why_tests_cant": "Off-by-one errors at the last chunk depend on payload size modulo chunk size.", "anchors": ["runtime/src/snapshot.rs:chunk_count", "runtime/src/snapshot.rs:SnapshotSenderState::next_chunk"]}
{"id": "C09", "title": "Snapshot transfer integrity under any delivery schedule", "statement": "If a receiver is fed the requests of one transfer starting with its header, with any of the chunk requests lost, duplicated or reordered, it completes only with exactly the metadata and bytes that were sent, and it does complete as soon as every chunk has arrived once.", "quantifier": "every payload, every chunk size, every delivery schedule of the transfer's requests", "why_tests_cant": "Unboundedly many delivery orders, duplications and losses.", "anchors": ["runtime/src/snapshot.rs:DefaultSnapshotReceiver", "runtime/src/snapshot.rs:ReceiverState::accept_chunk", "runtime/src/snapshot.rs:ReceiverState::try_complete", "runtime/src/snapshot.rs:DefaultSnapshotSender"]}
{"id": "C10", "title": "A receiver never mixes chunks of different snapshots", "statement": "A chunk carrying a snapshot identifier different from the one announced by the header in progress does not contribute bytes to the snapshot that is delivered.", "quantifier": "every history of requests from any senders for any snapshots", "why_tests_cant": "Needs a late chunk of an aborted transfer to meet a newer transfer of the same sender.", "anchors": ["runtime/src/snapshot.rs:DefaultSnapshotReceiver::process_request", "runtime/src/snapshot.rs:ReceiverState::accept_chunk"]}
{"id": "C11", "title": "Snapshot sender flow control", "statement": "The number of unacknowledged chunk deliveries never exceeds the configured maximum, and every delivery id handed out is larger than all earlier ones.", "quantifier": "every history of start / next / response / failure / reset calls", "why_tests_cant": "Holds only if every exit path returns its in-flight budget; histories are unbounded.", "anchors": ["runtime/src/snapshot.rs:DefaultSnapshotSender::next_request", "runtime/src/snapshot.rs:SnapshotSenderState::next_chunk", "runtime/src/snapshot.rs:SnapshotSenderState::process_response"]}
{"id": "C12", "title": "Snapshot sender reports success only after full acceptance", "statement": "A transfer is reported finished only if every one of its chunks was acknowledged as accepted under the delivery id it was sent with; a rejected, failed or undecodable acknowledgement reports failure; each started transfer is reported at most once.", "quantifier": "every history of sender calls and arbitrary acknowledgement messages", "why_tests_cant": "Acknowledgements may arrive in any order, repeat, or belong to another snapshot.", "anchors": ["runtime/src/snapshot.rs:SnapshotSenderState::process_response", "runtime/src/snapshot.rs:DefaultSnapshotSender::try_complete", "runtime/src/snapshot.rs:DefaultSnapshotSender::process_response"]}
{"id": "C13", "title": "Leadership changes abort snapshot transfers", "statement": "When the leader or the term changes, or this replica leaves the cluster, all its outgoing transfers are reported as failed exactly once, a partially received snapshot is discarded, and the replica acts as snapshot sender if and only if it is the current leader.", "quantifier": "every sequence of cluster-change notifications interleaved with transfer calls", "why_tests_cant": "The role is a function of the whole notification history.", "anchors": ["runtime/src/snapshot.rs:DefaultSnapshotProcessor::process_cluster_change", "runtime/src/snapshot.rs:DefaultSnapshotSender::reset", "runtime/src/snapshot.rs:DefaultSnapshotReceiver::reset"]}
{"id": "C14", "title": "Least advanced snapshot transfer goes first", "statement": "With several transfers in progress the next chunk belongs to a transfer whose progress is minimal, and a transfer with unsent chunks is served eventually: chunks are offered as long as some transfer has unsent chunks and the in-flight budget is not exhausted.", "quantifier": "every set of transfers with any progress and any map iteration order", "why_tests_cant": "Depends on every combination of chunk counts and acknowledgement progress.", "anchors": ["runtime/src/snapshot.rs:DefaultSnapshotSender::next_request", "runtime/src/snapshot.rs:SnapshotSenderState::progress"]}
{"id": "C15", "title": "Nothing leaves the enclave in the clear", "statement": "Every message handed to the host for a peer replica is either a handshake message produced by the handshake session or a payload produced by the encryptor obtained from the completed handshake with that peer; a queued plaintext message is never emitted.", "quantifier": "every history of outgoing messages, incoming messages, ticks and cluster changes, for every behaviour of the handshake and encryption sessions", "why_tests_cant": "A leak needs one particular state/message interleaving.", "anchors": ["runtime/src/communication.rs:DefaultCommunicationModule", "runtime/src/communication.rs:CommunicationState::take_out_messages", "runtime/src/communication.rs:take_encrypted_messages"]}
{"id": "C16", "title": "Nothing is accepted before attestation", "statement": "An incoming message is delivered to the replica only if the handshake with its sender had completed and the payload decrypted and decoded under that handshake's encryptor; in every other state the call yields no message.", "quantifier": "every history of communication-module calls with arbitrary incoming messages", "why_tests_cant": "Requires ruling out every state in which a message might be passed on early.", "anchors": ["runtime/src/communication.rs:CommunicationState::process_in_message", "runtime/src/communication.rs:decrypt_message"]}
{"id": "C17", "title": "Outgoing messages keep their order", "statement": "Once the handshake completed, queued messages are emitted in the order they were queued, each at most once; the only messages skipped are ones the encryptor rejected and heartbeats superseded by newer heartbeats, which take over the position of the older one.", "quantifier": "every history of communication-module calls", "why_tests_cant": "Queue contents depend on an arbitrary interleaving of sends, handshake progress and failures.", "anchors": ["runtime/src/communication.rs:push_or_replace", "runtime/src/communication.rs:take_encrypted_messages", "runtime/src/communication.rs:CommunicationState::process_out_message"]}
{"id": "C18", "title": "Stalled handshakes are retried and keep the queue", "statement": "A handshake initiated but not completed within the configured number of ticks fails, a failed handshake is reset after the configured number of ticks (and not earlier), and neither failure nor reset drops queued plaintext messages.", "quantifier": "every tick count, every history of communication-module calls", "why_tests_cant": "Timing boundaries for arbitrary configured timeouts; histories unbounded.", "anchors": ["runtime/src/communication.rs:CommunicationState::make_tick", "runtime/src/communication.rs:reset_state_machine", "runtime/src/communication.rs:DefaultCommunicationModule::make_tick"]}
{"id": "C19", "title": "Removed peers lose their channels", "statement": "After a cluster change every channel to a replica that is not in the new cluster is gone, channels to remaining replicas are untouched, and if the replica itself is not in the cluster all channels are gone.", "quantifier": "every set of channels and every new cluster", "why_tests_cant": "Arbitrary sets.", "anchors": ["runtime/src/communication.rs:process_cluster_change"]}
{"id": "C20", "title": "Channel state machine discipline", "statement": "A channel to a peer becomes usable only when a handshake message from that peer completes its session, whose encryptor is the one used; before that nothing is delivered from the peer and only handshake messages are emitted to it. The role of a new session follows the direction of the first message (outgoing: initiator, incoming: recipient) and no session is requested while a channel is in use. A handshake message on a completed channel ends the channel until a new handshake completes; an undecipherable message is dropped and the channel goes on. No such history aborts the process.", "quantifier": "every history of communication-module calls and every behaviour of sessions", "why_tests_cant": "Adversarial message schedules.", "anchors": ["runtime/src/communication.rs:CommunicationState", "runtime/src/handshake.rs:ClientHandshakeSession", "runtime/src/handshake.rs:ServerHandshakeSession"]}
{"id": "C21", "title": "Handshake sessions complete only when the attested session is open", "statement": "A client or server handshake session reports completion only if the underlying attested session reported being open, never returns to an earlier phase, becomes permanently failed on any unexpected or rejected message, and yields an encryptor only when completed.", "quantifier": "every sequence of messages and every behaviour of the underlying attested session", "why_tests_cant": "Adversarial message order.", "anchors": ["runtime/src/handshake.rs:ClientHandshakeSession", "runtime/src/handshake.rs:ServerHandshakeSession"]}
{"id": "C22", "title": "Events are applied once, in log order", "statement": "Over the life of a replica the application sees the committed events in strictly increasing log-index order, each exactly once, with exactly the committed contents; empty entries and configuration changes are never passed to it; the reported applied index is the index of the last processed entry.", "quantifier": "every sequence of committed-entry batches the consensus layer may produce, each batch in any internal order", "why_tests_cant": "Batching and ordering by the consensus layer is arbitrary.", "anchors": ["runtime/src/driver.rs:apply_raft_committed_entries", "runtime/src/model.rs:Actor::on_apply_event"]}
{"id": "C23", "title": "Responses are attributed to the proposing replica", "statement": "The application is told it owns an event exactly when the committed entry was proposed by this replica, and the correlation id it sees is the one of the original command.", "quantifier": "every committed entry and every replica id", "why_tests_cant": "Any replica may have proposed any entry.", "anchors": ["runtime/src/driver.rs:apply_raft_committed_entries", "runtime/src/driver.rs:process_deliver_app_message"]}
{"id": "C24", "title": "Replicas converge", "statement": "Two replicas started with the same configuration that processed the same committed log, possibly one of them via snapshots taken by the other at any point and with restarts in between, hold the same application state.", "quantifier": "every committed log, every choice of snapshot points, any number of restarts", "why_tests_cant": "All schedules of apply / snapshot / install / restart.", "anchors": ["runtime/src/driver.rs:apply_raft_committed_entries", "runtime/src/driver.rs:restore_raft_snapshot", "runtime/src/driver.rs:maybe_create_raft_snapshot", "runtime/src/model.rs:Actor"]}
{"id": "C25", "title": "Time never runs backwards for the application", "statement": "The instant the application observes is the maximum of all instants delivered so far, and the consensus clock advances at most once per delivered message and only if at least the configured tick period elapsed since the previous advance.", "quantifier": "every sequence of delivered instants", "why_tests_cant": "The host may deliver arbitrary, non-monotone instants.", "anchors": ["runtime/src/driver.rs:preset_state_machine", "runtime/src/driver.rs:trigger_raft_tick"]}
{"id": "C26", "title": "Stopped replicas do not participate", "statement": "After a stop request no consensus clock tick happens and start / change-cluster / peer messages are refused with an error; stopping twice has the same effect as once.", "quantifier": "every history of host messages", "why_tests_cant": "Any message may follow a stop.", "anchors": ["runtime/src/driver.rs:process_stop_node", "runtime/src/driver.rs:check_driver_started", "runtime/src/driver.rs:advance_raft"]}
{"id": "C27", "title": "Lifecycle preconditions are enforced", "statement": "A replica accepts a start request only once and only in the initial state; before start, cluster changes and peer messages are refused, application messages do not reach the application, and neither the application nor the log changes.", "quantifier": "every history of host messages", "why_tests_cant": "Any message order.", "anchors": ["runtime/src/driver.rs:process_start_node", "runtime/src/driver.rs:process_change_cluster", "runtime/src/driver.rs:deliver_system_message", "runtime/src/driver.rs:process_deliver_app_message"]}
{"id": "C28", "title": "Leadership is reported on change", "statement": "Whenever the leader, the term, the committed configuration or the pending-change flag known to the replica changes, the same call emits a cluster status carrying the new values, and no status is emitted when nothing changed; a status request is answered in the same call.", "quantifier": "every history of host messages and every behaviour of the consensus layer", "why_tests_cant": "Depends on two consecutive states of the consensus layer.", "anchors": ["runtime/src/driver.rs:stash_leader_state", "runtime/src/driver.rs:process_check_cluster"]}
{"id": "C29", "title": "Misrouted replica messages are not processed", "statement": "A peer message whose recipient is not this replica, or whose claimed sender differs from the consensus sender, is not processed by the consensus layer.", "quantifier": "every peer message", "why_tests_cant": "Adversarial host.", "anchors": ["runtime/src/driver.rs:make_raft_step", "runtime/src/driver.rs:deliver_system_message"]}
{"id": "C30", "title": "Cluster change requests are always answered", "statement": "Every cluster change request delivered to a started replica is answered in the same call with pending or rejected, and the proposed change is exactly the requested one.", "quantifier": "every change request and consensus behaviour", "why_tests_cant": "Consensus may refuse for many reasons.", "anchors": ["runtime/src/driver.rs:process_change_cluster", "runtime/src/driver.rs:make_raft_config_change_proposal"]}
{"id": "C31", "title": "Ephemeral applications see their own events immediately", "statement": "In ephemeral mode each event an application proposes is applied in the same call, in the order proposed, as owned, and no consensus message, proposal or snapshot is ever produced.", "quantifier": "every history of host messages in ephemeral mode", "why_tests_cant": "All command histories.", "anchors": ["runtime/src/driver.rs:process_deliver_app_message", "runtime/src/driver.rs:receive_message"]}
{"id": "C32", "title": "Compare-and-swap is atomic and exact", "statement": "A counter compare-and-swap succeeds exactly when the stored value (0 if the counter is new) equals the expected value; on success the value becomes the new value, otherwise it is unchanged; no other counter changes; the answer always carries the old value, a successful answer the new value, and the payload kept with a counter is that of its last successful swap.", "quantifier": "every counter state and every request", "why_tests_cant": "All states, values and counter names.", "anchors": ["apps/atomic_counter/service/src/actor.rs:apply_compare_and_swap"]}
{"id": "C33", "title": "Counter histories are linearizable in log order", "statement": "The value of each counter after a committed log is the value obtained by running the requests one at a time in log order, and at most one of any set of requests expecting the same value with different new values can succeed before the value is restored.", "quantifier": "every committed log of requests", "why_tests_cant": "All histories.", "anchors": ["apps/atomic_counter/service/src/actor.rs:on_apply_event", "apps/atomic_counter/service/src/actor.rs:apply_compare_and_swap"]}
{"id": "C34", "title": "A failed compare-and-swap reports the old value as new value", "statement": "As documented in the protocol definition, when the swap is not successful the reported new value equals the reported old value.", "quantifier": "every counter state and every failing request", "why_tests_cant": "All states and requests.", "anchors": ["apps/atomic_counter/service/src/actor.rs:apply_compare_and_swap", "apps/atomic_counter/service/proto/atomic_counter.proto"]}
{"id": "C35", "title": "Counter snapshots restore the state", "statement": "Loading a saved counter snapshot reproduces exactly the saved counters and payloads, whatever state the loading replica was in.", "quantifier": "every saved state and every state of the loading replica", "why_tests_cant": "All pairs of states.", "anchors": ["apps/atomic_counter/service/src/actor.rs:on_save_snapshot", "apps/atomic_counter/service/src/actor.rs:on_load_snapshot"]}
{"id": "C36", "title": "Only the leader accepts counter commands", "statement": "A command delivered to a replica that is not leader is rejected with a rejection answer and proposes nothing; a command on the leader proposes exactly one event carrying the request and the same correlation id, and processing a command never changes the counters.", "quantifier": "every command and every state", "why_tests_cant": "All commands.", "anchors": ["apps/atomic_counter/service/src/actor.rs:on_process_command"]}
{"id": "C37", "title": "Tablet transactions are all-or-nothing", "statement": "A tablet request either applies all its update operations and reports success, or changes nothing and reports failure with one result per operation in order; it succeeds exactly when each operation's precondition held in the state before the request.", "quantifier": "every store state and every list of operations", "why_tests_cant": "All lists of operations.", "anchors": ["apps/tablet_store/service/src/actor.rs:on_apply_tablets_request", "apps/tablet_store/service/src/actor.rs:TableMetadata::prepare_tablet_op"]}
{"id": "C38", "title": "Tablet versions grow by one", "statement": "The version of a tablet never decreases, tablets are never created or deleted by requests, and each successful request that updates a tablet raises its version by exactly one.", "quantifier": "every committed log of tablet requests", "why_tests_cant": "All histories.", "anchors": ["apps/tablet_store/service/src/actor.rs:prepare_tablet_op", "apps/tablet_store/service/src/actor.rs:commit_tablet_op"]}
{"id": "C39", "title": "Conflicting tablet updates cannot both commit", "statement": "Of two requests that both update the same tablet prepared against the same version, at most one succeeds, whatever is committed between them.", "quantifier": "every committed log containing the two requests", "why_tests_cant": "All interleavings.", "anchors": ["apps/tablet_store/service/src/actor.rs:on_apply_tablets_request"]}
{"id": "C40", "title": "Two updates of one tablet in one request", "statement": "A request that updates the same tablet twice is treated as a conflict: it must not report success for both updates.", "quantifier": "every request", "why_tests_cant": "All requests.", "anchors": ["apps/tablet_store/service/src/actor.rs:on_apply_tablets_request"]}
{"id": "C41", "title": "Tablet listing returns exactly the responsible tablets", "statement": "Listing a key-hash range (documented as including its start and excluding its end) returns, without duplicates, exactly the tablets that own some key hash of the range on the consistent-hashing ring, where the owner of a hash is the first tablet clockwise from it.", "quantifier": "every set of tablets and every range, including ranges that wrap around zero", "why_tests_cant": "Ring wrap-around for arbitrary tablet sets.", "anchors": ["apps/tablet_store/service/src/actor.rs:TableMetadata::find_tablets"]}
{"id": "C42", "title": "Tablet store snapshots restore the state", "statement": "Loading a saved snapshot reproduces every table of the saved state, whatever the tablets of the loading replica were, provided both replicas are configured with the same tables; a snapshot naming an unknown table, or one that cannot be read, is refused.", "quantifier": "every pair of states with the same tables, every iteration order of the tables", "why_tests_cant": "All states and orders.", "anchors": ["apps/tablet_store/service/src/actor.rs:on_save_snapshot", "apps/tablet_store/service/src/actor.rs:on_load_snapshot"]}
{"id": "C43", "title": "Decryptor key store is bounded", "statement": "The decryptor never stores more than the configured maximum of key pairs; when full, storing a new key evicts a key with the smallest sequence number and no other key.", "quantifier": "every committed log of key events", "why_tests_cant": "All histories.", "anchors": ["apps/willow/decryptor/actor/src/actor.rs:process_generate_key_event"]}
{"id": "C44", "title": "A decryption key is used at most once", "statement": "No two successful decryption responses are ever given for the same generated key pair.", "quantifier": "every history of commands and committed events", "why_tests_cant": "Needs overlapping requests before the first is committed.", "anchors": ["apps/willow/decryptor/actor/src/actor.rs:process_decrypt_command", "apps/willow/decryptor/actor/src/actor.rs:process_decrypt_event"]}
{"id": "C45", "title": "A published decryption key stays usable", "statement": "A client that received a public key for a key id can later decrypt with the matching private key, as long as the key was neither used nor evicted.", "quantifier": "every history of commands and committed events", "why_tests_cant": "Needs two overlapping generation requests.", "anchors": ["apps/willow/decryptor/actor/src/actor.rs:process_generate_key_command", "apps/willow/decryptor/actor/src/actor.rs:process_generate_key_event"]}
{"id": "C46", "title": "Decryptor snapshots restore the state", "statement": "Loading a saved decryptor snapshot reproduces exactly the saved keys, sequence numbers included, whatever state the loading replica was in; a snapshot that cannot be read is refused; key generation is idempotent per key id and non-leaders refuse commands.", "quantifier": "every pair of states, every command", "why_tests_cant": "All states.", "anchors": ["apps/willow/decryptor/actor/src/actor.rs:on_save_snapshot", "apps/willow/decryptor/actor/src/actor.rs:on_load_snapshot", "apps/willow/decryptor/actor/src/actor.rs:process_generate_key_command"]}
{"id": "C47", "title": "Cached tablet metadata never goes back in version", "statement": "For every tablet the version the metadata cache knows never decreases, whatever list responses and transaction results arrive in whatever order.", "quantifier": "every history of cache calls", "why_tests_cant": "Responses can be stale and reordered.", "anchors": ["apps/tablet_cache/service/src/transaction/metadata.rs:insert_latest_tablet", "apps/tablet_cache/service/src/transaction/metadata.rs:update_region", "apps/tablet_cache/service/src/transaction/metadata.rs:update_tablet"]}
{"id": "C48", "title": "Key hashes are split into regions exactly", "statement": "Splitting a query by region assigns every key hash to exactly one region, the one whose bounds contain it, losing and duplicating none.", "quantifier": "every key set and region size", "why_tests_cant": "All key sets.", "anchors": ["apps/tablet_cache/service/src/transaction/metadata.rs:split_and_map_query", "apps/tablet_cache/service/src/transaction/metadata.rs:compute_table_region_bounds"]}
{"id": "C49", "title": "Every queried key is resolved to its owner tablet", "statement": "Resolving a query returns every key hash of the query exactly once, attached to the first listed tablet clockwise from it.", "quantifier": "every key set and every set of tablets of a region", "why_tests_cant": "All sets.", "anchors": ["apps/tablet_cache/service/src/transaction/metadata.rs:try_resolve_pending_query"]}
{"id": "C50", "title": "Every key hash belongs to a tracked region", "statement": "Every possible key hash maps to a region the metadata cache tracks, so that a query for it can be resolved.", "quantifier": "every key hash and region size", "why_tests_cant": "All 2^32 hashes and region sizes.", "anchors": ["apps/tablet_cache/service/src/transaction/metadata.rs:TableMetadata::create", "apps/tablet_cache/service/src/transaction/metadata.rs:map_table_region"]}
{"id": "C51", "title": "One outstanding load per blob", "statement": "However many batches ask for the same tablet blob, at most one storage request for it is outstanding, every batch waiting for it is notified exactly once, and a batch resolves exactly when all its blobs are ready or as failed if one of them failed.", "quantifier": "every history of load / store / response / progress calls", "why_tests_cant": "All interleavings.", "anchors": ["apps/tablet_cache/service/src/transaction/data.rs:load_tablets", "apps/tablet_cache/service/src/transaction/data.rs:make_progress", "apps/tablet_cache/service/src/transaction/data.rs:resolve_pending_cache_entry"]}
{"id": "C52", "title": "Storing an empty batch completes", "statement": "A store request for zero tablets completes successfully (a read-only transaction must be able to commit).", "quantifier": "every cache state", "why_tests_cant": "Every state.", "anchors": ["apps/tablet_cache/service/src/transaction/data.rs:store_tablets"]}
{"id": "C53", "title": "Loaded tablet data matches its metadata", "statement": "Data returned for a tablet has the hash recorded in the tablet's metadata, even though the storage is untrusted.", "quantifier": "every response of the untrusted storage", "why_tests_cant": "Adversarial storage.", "anchors": ["apps/tablet_cache/service/src/transaction/data.rs:prepare_tablet_read"]}
{"id": "C54", "title": "A transaction succeeds only if every operation succeeded", "statement": "The coordinator reports a transaction as succeeded only if the store answered every operation of its commit request with success; transaction ids and correlation ids are never reused and every outcome is reported at most once.", "quantifier": "every history of coordinator calls and store responses", "why_tests_cant": "All histories, truncated or reordered responses.", "anchors": ["apps/tablet_cache/service/src/transaction/coordinator.rs:CommittingTabletTransactionState::complete", "apps/tablet_cache/service/src/transaction/coordinator.rs:DefaultTabletTransactionCoordinator"]}
{"id": "C55", "title": "Failed transactions leave no uncommitted metadata in the cache", "statement": "When a transaction fails to commit, the metadata cache does not start using the tablet versions the transaction tried to create.", "quantifier": "every mix of per-operation results", "why_tests_cant": "All mixes of results.", "anchors": ["apps/tablet_cache/service/src/transaction/coordinator.rs:CommittingTabletTransactionState::complete", "apps/tablet_cache/service/src/transaction/metadata.rs:update_tablet"]}
{"id": "C56", "title": "Failed processing can be finished", "statement": "A transaction whose tablet processing failed stops being pending, so that it can be completed as failed.", "quantifier": "every transaction state", "why_tests_cant": "All states.", "anchors": ["apps/tablet_cache/service/src/transaction/coordinator.rs:PreparingTabletTransactionState::is_active"]}
{"id": "C57", "title": "Store errors fail the transaction", "statement": "An error answer from the tablet store for a commit request fails that transaction without stopping the service.", "quantifier": "every committed list of operations", "why_tests_cant": "All operation lists.", "anchors": ["apps/tablet_cache/service/src/transaction/manager.rs:create_failed_op_result", "apps/tablet_cache/service/src/transaction/coordinator.rs:CommittingTabletTransactionState::complete"]}
{"id": "C58", "title": "Every key-value request is eventually answered", "statement": "Each put or get accepted by the cache application is answered once the stores respond; a request whose transaction failed is retried.", "quantifier": "every request history", "why_tests_cant": "All histories and failures.", "anchors": ["apps/tablet_cache/service/src/actor.rs:on_process_command", "apps/tablet_cache/service/src/store.rs:maybe_finalize_or_retry_transactions", "apps/tablet_cache/service/src/store.rs:SimpleKeyValueStoreCore::init"]}
{"id": "C59", "title": "Key-value requests are executed in order against the tablet", "statement": "Processing a batch of puts and gets against a tablet executes them in arrival order: a get returns the value of the last preceding put of the same key or the stored value, existed flags are exact, and only keys whose hash belongs to the query are touched.", "quantifier": "every tablet contents and every batch of requests", "why_tests_cant": "All batches.", "anchors": ["apps/tablet_cache/service/src/store.rs:TabletTracker::process_table_query", "apps/tablet_cache/service/src/store.rs:process_put_request", "apps/tablet_cache/service/src/store.rs:process_get_request"]}
{"id": "C60", "title": "No request can abort the tablet store", "statement": "A request that a tablet store leader accepted and replicated never aborts or fails the replicas that apply it.", "quantifier": "every accepted request and every state of the replicas", "why_tests_cant": "A single accepted request that aborts every replica takes the whole cluster down, and again after each restart.", "anchors": ["apps/tablet_store/service/src/actor.rs:prepare_tablet_op", "apps/tablet_store/service/src/actor.rs:commit_tablet_op", "apps/tablet_store/service/src/actor.rs:on_process_command"]}
{"id": "C61", "title": "Tablet store commands are answered or proposed exactly once", "statement": "A command delivered to a tablet store replica that is not leader is rejected and proposes nothing; on the leader a well-formed request is proposed exactly once, unchanged and under its correlation id, anything else is refused with an answer; processing a command never changes the tables.", "quantifier": "every command and every state", "why_tests_cant": "All commands.", "anchors": ["apps/tablet_store/service/src/actor.rs:on_process_command", "apps/tablet_store/service/src/actor.rs:create_error_outcome"]}
{"id": "C62", "title": "Every decryptor command is answered or proposed", "statement": "A command delivered to the decryptor is answered at once or proposed to the cluster exactly once under its correlation id; no client request makes the replica fail or abort.", "quantifier": "every command, every state and every result of the cryptographic library", "why_tests_cant": "Malformed and hostile requests in every state.", "anchors": ["apps/willow/decryptor/actor/src/actor.rs:on_process_command", "apps/willow/decryptor/actor/src/actor.rs:process_decrypt_command"]}
{"id": "C63", "title": "Replicas that left the cluster lose their channels", "statement": "After a committed configuration change removed a replica, every other replica closes its secure channel to it: whenever the committed configuration a replica knows changes, its communication layer is told the new member list in the same call.", "quantifier": "every history of calls, every role of the replica and every sequence of committed changes", "why_tests_cant": "Depends on the role of the replica at the moment the change commits and on everything it reported before.", "anchors": ["runtime/src/driver.rs:stash_leader_state", "runtime/src/driver.rs:process_state_machine", "runtime/src/communication.rs:process_cluster_change"]}
{"id": "C64", "title": "Application messages are delivered and answered exactly once", "statement": "Every message for the application that reaches a started replica is given to the application exactly once, in the call that delivered it; everything the application emits, while processing a command or applying an event, leaves in the same call, exactly once and in the order emitted.", "quantifier": "every history of calls and every application", "why_tests_cant": "Outputs are collected across several phases of a call; a duplicate or loss would need one particular combination of phases.", "anchors": ["runtime/src/driver.rs:process_deliver_app_message", "runtime/src/driver.rs:process_actor_raft_proposals", "runtime/src/driver.rs:apply_raft_committed_entries", "runtime/src/driver.rs:stash_message", "runtime/src/driver.rs:take_out_messages"]}
{"id": "C65", "title": "A created snapshot describes exactly the applied prefix", "statement": "A snapshot a replica creates carries the index of the last entry the application has processed, the configuration committed by the entries up to it, and the state the application has after exactly those entries.", "quantifier": "every history of calls, every application, every point at which the log store asks for a snapshot", "why_tests_cant": "A snapshot taken between two entries of a batch, or labelled one entry off, would corrupt only replicas that later restore it.", "anchors": ["runtime/src/driver.rs:maybe_create_raft_snapshot", "runtime/src/driver.rs:apply_raft_committed_entries"]}
{"id": "C66", "title": "A lame duck replica does not drive elections", "statement": "After a lame-duck notification the replica never advances its consensus clock again, so it cannot start an election, while it keeps serving messages and applying committed entries.", "quantifier": "every history of calls after the notification", "why_tests_cant": "Holds only if no code path advances the clock.", "anchors": ["runtime/src/driver.rs:advance_raft", "runtime/src/driver.rs:trigger_raft_tick", "runtime/src/driver.rs:receive_message"]}
{"id": "C67", "title": "The application is initialised exactly once", "statement": "The application is initialised exactly once, by the start request, with the identity and configuration of that request and the instant of that call, and before it sees any command, event or snapshot; the consensus layer starts from a snapshot of the state right after initialisation.", "quantifier": "every history of calls", "why_tests_cant": "All histories.", "anchors": ["runtime/src/driver.rs:initialize_raft_node", "runtime/src/driver.rs:process_start_node"]}
{"id": "C68", "title": "List requests of the tablet cache are neither lost nor repeated", "statement": "Whenever the cache makes progress it asks, in at most one message, exactly once for each region some unanswered resolve request needs and that is not already being listed, with exactly the bounds of that region; after that every unanswered request has a list request under way for one of the keys it asks for.", "quantifier": "every history of resolve, progress, update and response calls in which no request asks two queries of one table, every configuration of tables and every iteration order of the hash maps", "why_tests_cant": "Requests, responses, conflicts and failures interleave arbitrarily.", "anchors": ["apps/tablet_cache/service/src/transaction/metadata.rs:make_progress", "apps/tablet_cache/service/src/transaction/metadata.rs:maybe_prepare_list_op", "apps/tablet_cache/service/src/transaction/metadata.rs:mark_stale"]}
{"id": "C69", "title": "Every tablet resolve request is answered at most once and never aborts the cache", "statement": "A resolve request is answered at most once, and no resolve request, list response or metadata update aborts the cache.", "quantifier": "every history of resolve, progress, update and response calls", "why_tests_cant": "Requests, responses, conflicts and failures interleave arbitrarily.", "anchors": ["apps/tablet_cache/service/src/transaction/metadata.rs:process_in_message", "apps/tablet_cache/service/src/transaction/metadata.rs:TabletResolve"]}
{"id": "C70", "title": "A load returns exactly the tablets asked for", "statement": "The result of a load request contains each requested tablet exactly once, with the metadata it was requested with.", "quantifier": "every history of load, store, progress, eviction and storage-response calls", "why_tests_cant": "Depends on which blobs other requests have put into the cache before.", "anchors": ["apps/tablet_cache/service/src/transaction/data.rs:load_tablets", "apps/tablet_cache/service/src/transaction/data.rs:add_pending_cache_entry", "apps/tablet_cache/service/src/transaction/data.rs:resolve_pending_cache_entry"]}
{"id": "C71", "title": "Blobs of different tablets, versions or contents have different names", "statement": "Writing a tablet gives it the next version, the size and hash of its new contents and a name determined by its id, version and hash; two blobs that differ in id, version or hash never have the same name.", "quantifier": "every tablet, value, hash function and injective text encoding of hashes", "why_tests_cant": "All combinations of ids, versions and hashes.", "anchors": ["apps/tablet_cache/service/src/transaction/data.rs:format_blob_uri", "apps/tablet_cache/service/src/transaction/data.rs:prepare_tablet_write"]}
{"id": "C72", "title": "Storing tablets never stops the service", "statement": "A store request never aborts the cache, in particular when two transactions write the same contents to the same tablet.", "quantifier": "every history and every list of tablets", "why_tests_cant": "Needs two transactions that make the same change.", "anchors": ["apps/tablet_cache/service/src/transaction/data.rs:store_tablets", "apps/tablet_cache/service/src/transaction/data.rs:prepare_tablet_write"]}
{"id": "C73", "title": "A commit is exactly what the transaction's handlers did", "statement": "The commit request of a transaction contains exactly one operation per tablet its handlers were given: a check that the version given is still current if the handler left the tablet alone, otherwise an update to the next version described by the size, hash and name of the contents it set; and each processing the client asked for had its handler called exactly once.", "quantifier": "every history of calls of the transaction manager, every handler and every iteration order of the hash maps", "why_tests_cant": "Handlers run at arbitrary moments between other transactions, and the tablets pass through three hash maps on the way.", "anchors": ["apps/tablet_cache/service/src/transaction/coordinator.rs:PreparingTabletTransactionState", "apps/tablet_cache/service/src/transaction/coordinator.rs:commit_transaction", "apps/tablet_cache/service/src/transaction/coordinator.rs:get_tablet_op"]}
{"id": "C74", "title": "Transactions are atomic and isolated", "statement": "A transaction is reported as succeeded only if every tablet its handlers were given still had, when the tablet store took its commit, the version they were given; the store then moved exactly the written tablets to their new versions. A transaction reported as failed changed nothing.", "quantifier": "every history of calls, any number of concurrent transactions and clients, every sequence of store answers", "why_tests_cant": "All interleavings of transactions of several clients.", "anchors": ["apps/tablet_cache/service/src/transaction/coordinator.rs:CommittingTabletTransactionState::complete", "apps/tablet_store/service/src/actor.rs:prepare_tablet_op", "apps/tablet_store/service/src/actor.rs:commit_tablet_op"]}
{"id": "C75", "title": "Contents are stored before they are committed", "statement": "A tablet version is only offered to the tablet store after the blob store has confirmed that the contents are stored under the name in the metadata, so a committed tablet never names a missing blob.", "quantifier": "every history of calls and storage answers", "why_tests_cant": "Depends on the order of storage answers relative to commits, for every interleaving.", "anchors": ["apps/tablet_cache/service/src/transaction/coordinator.rs:PreparingTabletTransactionState", "apps/tablet_cache/service/src/transaction/data.rs:store_tablets"]}
{"id": "C76", "title": "Handlers are given what the stores reported", "statement": "A handler is only given tablets that the tablet store reported to exist, responsible for the keys of the query, together with the contents of that tablet's blob.", "quantifier": "every history of calls and answers", "why_tests_cant": "All interleavings; tablets of several tables in one transaction.", "anchors": ["apps/tablet_cache/service/src/transaction/coordinator.rs:create_tablet_key", "apps/tablet_cache/service/src/transaction/metadata.rs:TabletResolve", "apps/tablet_cache/service/src/transaction/data.rs:load_tablets"]}
{"id": "C77", "title": "Every transaction can be committed and has an outcome", "statement": "Once all handlers of a transaction have run, it stops being pending, can be committed, and its outcome becomes available after the tablet store answered.", "quantifier": "every transaction, including those that only read or touch no tablet", "why_tests_cant": "All transactions and histories.", "anchors": ["apps/tablet_cache/service/src/transaction/coordinator.rs:PreparingTabletTransactionState::is_active", "apps/tablet_cache/service/src/transaction/manager.rs:process_in_tablets_op_response", "apps/tablet_cache/service/src/transaction/data.rs:store_tablets"]}
{"id": "C78", "title": "Key-value answers are sound", "statement": "Every answer belongs to a request of its own that was accepted before, at most one answer per request; it is the right answer for executing that request, after the other requests of its batch, on the contents of the tablet given to a transaction that was later reported to have succeeded, and whose new contents are exactly what those requests produce; conversely, when a transaction succeeds every request it executed is answered.", "quantifier": "every history of requests, resolve results, handler calls and outcomes, every transaction context and every iteration order of the hash maps", "why_tests_cant": "Requests, resolutions, transactions and outcomes interleave arbitrarily.", "anchors": ["apps/tablet_cache/service/src/store.rs:SimpleKeyValueStore", "apps/tablet_cache/service/src/store.rs:maybe_finalize_transaction", "apps/tablet_cache/service/src/store.rs:append_process_results"]}
{"id": "C79", "title": "One transaction at a time for each tablet", "statement": "The key value store never has two unfinished transactions that work on the same tablet, so requests for one tablet never conflict with each other.", "quantifier": "every history of requests, resolve results, handler calls and outcomes", "why_tests_cant": "All interleavings of transactions and outcomes.", "anchors": ["apps/tablet_cache/service/src/store.rs:maybe_start_transaction", "apps/tablet_cache/service/src/store.rs:collect_process_queries", "apps/tablet_cache/service/src/store.rs:complete_transaction"]}
{"id": "C80", "title": "Requests reach the tablet responsible for their key", "statement": "When a batch of requests is resolved to several tablets, each request is executed against the tablet responsible for its key.", "quantifier": "every batch of requests and every resolve result", "why_tests_cant": "Needs batches that span tablets.", "anchors": ["apps/tablet_cache/service/src/store.rs:take_resolved_requests", "apps/tablet_cache/service/src/store.rs:handle_query_resolve", "apps/tablet_cache/service/src/store.rs:process_table_query"]}
{"id": "C81", "title": "A snapshot brings a replica into the state of the cluster whatever its own configuration", "statement": "A replica that installs a snapshot holds the state of the replica that created it, even if the two were started with different configurations.", "quantifier": "every pair of configurations, every log and snapshot point", "why_tests_cant": "Tests start all replicas with one configuration.", "anchors": ["apps/atomic_counter/service/src/actor.rs:on_load_snapshot", "runtime/src/driver.rs:restore_raft_snapshot"]}
{"id": "C82", "title": "Conflicts make the cached metadata of a region stale", "statement": "A request to resolve keys is answered from cached metadata exactly when the last thing heard about each region asked for is a successful listing. After a commit was refused because a tablet had changed, or after a failed listing, the region is listed again before anything about it is answered.", "quantifier": "every history of calls, listings, failures and commit results, every table configuration and every iteration order of the hash maps", "why_tests_cant": "Staleness depends on the whole history of listings and conflicts.", "anchors": ["apps/tablet_cache/service/src/transaction/metadata.rs:mark_stale", "apps/tablet_cache/service/src/transaction/metadata.rs:update_tablet", "apps/tablet_cache/service/src/transaction/metadata.rs:try_resolve_pending_query", "apps/tablet_cache/service/src/transaction/coordinator.rs:CommittingTabletTransactionState"]}
{"id": "C83", "title": "Calls of a replica's endpoint take effect one at a time", "statement": "Whatever calls of the endpoint overlap, the replies are those of handling the requests one after the other, each at some moment between being made and returning; every caller gets the reply to its own request, and every outstanding call can return.", "quantifier": "every driver, every history of calls, replies and cancellations, every schedule of the thread and its channels", "why_tests_cant": "Schedules of concurrent calls.", "anchors": ["runtime/src/service.rs:TonicApplicationService", "runtime/src/service.rs:run_driver_loop", "runtime/src/service.rs:ApplicationService"]}
{"id": "C84", "title": "After an unrecoverable error nothing is answered", "statement": "Once handling a request has failed, no call made after the error was reported gets a reply, and calls fail only after a request that could not be handled or a caller that gave up.", "quantifier": "every driver, every history of calls and every schedule", "why_tests_cant": "The point of failure and the schedule of overlapping calls are arbitrary.", "anchors": ["runtime/src/service.rs:run_driver_loop", "runtime/src/service.rs:receive_message"]}
{"id": "C85", "title": "A caller that gives up does not harm the replica", "statement": "Cancelling a call of the endpoint, for example because of a deadline, has no effect on other calls.", "quantifier": "every driver and every request it can handle", "why_tests_cant": "Needs a cancellation while the request is in the channel or being handled.", "anchors": ["runtime/src/service.rs:run_driver_loop"]}
{"id": "C86", "title": "Batches of consensus are carried out completely before they are acknowledged", "statement": "Whenever consensus hands out a batch of work, the replica stores the hard state, the snapshot and the entries of the batch, hands back the configuration changes it commits, and acknowledges the batch, under its number, only after that. All messages of the batch leave in their order, addressed to the replicas they are for; every snapshot to be sent is either sent or reported to consensus as failed.", "quantifier": "every consensus implementation, every batch, every application and every history of calls", "why_tests_cant": "Batches combine states, entries, snapshots, configuration changes and messages arbitrarily, and the order relative to the acknowledgement is what makes a crash safe.", "anchors": ["runtime/src/driver.rs:advance_raft", "runtime/src/driver.rs:send_raft_messages", "runtime/src/driver.rs:restore_raft_snapshot", "runtime/src/driver.rs:apply_raft_committed_entries", "runtime/src/driver.rs:process_snapshot_sending"]}
{"id": "C87", "title": "Consensus is used as its contract demands", "statement": "A replica initialises consensus before it uses it, and once; it takes a batch of work only when there is one, and acknowledges it, under its number, before it makes any other call. So the calls that would abort the process, on a missing node or an unknown batch, are never made.", "quantifier": "every history of calls of the host, every behaviour of the raft library, the snapshot processor, the communication module and the application", "why_tests_cant": "The order of calls depends on all that consensus, peers and the host do.", "anchors": ["runtime/src/consensus.rs:RaftSimple", "runtime/src/driver.rs:advance_raft", "runtime/src/driver.rs:initialize_raft_node"]}
{"id": "C88", "title": "The store holds exactly what consensus asked to be stored", "statement": "The state of a replica's store is at any time the result of exactly those successful changes that consensus asked for, in their order, starting from an empty store with the configured snapshot interval: hard states, entries, snapshots received and snapshots made; for the replica that starts a cluster the first of them is the application's initial state.", "quantifier": "every history of calls, every behaviour of the raft library that changes its store only through requests for snapshots", "why_tests_cant": "The store is shared by the raft library, the driver and the snapshot logic.", "anchors": ["runtime/src/consensus.rs:RaftSimple", "runtime/src/consensus.rs:mut_store", "runtime/src/storage.rs:MemoryStorage", "runtime/src/driver.rs:initialize_raft_node"]}
{"id": "C89", "title": "Snapshots are made as often as configured", "statement": "After every call, the index a replica reports is at most the configured number of entries ahead of the snapshot in its store; and a snapshot is only made if more entries than that have been applied since the last one, or if another replica waits for one that this one serves.", "quantifier": "every history of calls, every configuration and every behaviour of the raft library", "why_tests_cant": "Depends on how entries, received snapshots and requests for snapshots interleave.", "anchors": ["runtime/src/driver.rs:maybe_create_raft_snapshot", "runtime/src/storage.rs:should_snapshot", "runtime/src/driver.rs:initialize_raft_node"]}
{"id": "C90", "title": "Only a leader describes the cluster", "statement": "What a replica tells its host about the cluster is either empty, or the replica itself is the leader: it then names itself, its current term, the members consensus last agreed on and whether a change of them is in progress. Whenever the application is called, it is told that its replica leads exactly if the replica's consensus node led when the call of the host began.", "quantifier": "every history of calls and every behaviour of the raft library", "why_tests_cant": "Leadership changes at any moment.", "anchors": ["runtime/src/consensus.rs:state", "runtime/src/driver.rs:get_raft_state", "runtime/src/driver.rs:stash_leader_state"]}
{"id": "C91", "title": "Sessions are opened only with peers that match the reference values", "statement": "A session a replica creates, in either role, presents the replica's own evidence with the endorsements it was started with, and verifies the peer against the reference values of the application: kernel, system and container always, hardware and firmware unless the reference values accept insecure hardware; values of other platforms are checked as a whole. No session exists before the replica has been given reference values.", "quantifier": "every set of reference values, every evidence, every history of initialisations and every clock", "why_tests_cant": "The reference values have optional layers and alternatives, the combinations of which select different verifiers.", "anchors": ["runtime/src/session.rs:DefaultOakSessionFactory", "runtime/src/session.rs:DefaultOakClientSession", "runtime/src/session.rs:DefaultOakServerSession"]}
{"id": "C92", "title": "Only verified peers are heard and told", "statement": "A message of a peer changes a replica's consensus, snapshots, application or answers only if a session that was opened after verifying the peer against the application's reference values decrypts it, and what is acted upon are the decrypted contents. Whatever a replica sends to a peer, beside handshakes, is encrypted by such a session with that peer.", "quantifier": "every history of calls of the host, every behaviour of consensus, snapshots, application, Oak sessions and platform", "why_tests_cant": "Messages can be forged, replayed or delivered at any point of the handshake.", "anchors": ["runtime/src/driver.rs:receive_message", "runtime/src/communication.rs:DefaultCommunicationModule", "runtime/src/handshake.rs:ClientHandshakeSession", "runtime/src/encryptor.rs", "runtime/src/session.rs:DefaultOakSessionFactory"]}
{"id": "C93", "title": "Messages of peers arrive as they were sent", "statement": "The host, which carries the messages between replicas, cannot change them: kind, recipient, delivery number and contents are those the sending replica set.", "quantifier": "every message and every state of the channel it is sent on", "why_tests_cant": "Requires a malicious host.", "anchors": ["runtime/src/communication.rs:decrypt_message", "runtime/src/driver.rs:process_deliver_system_message", "runtime/src/driver.rs:process_deliver_snapshot_response"]}
{"id": "C94", "title": "Strangers cannot disturb a replica", "statement": "Messages and handshakes that do not come from a verified peer have exactly the effect of a signal of the clock on a started replica, except on the channel with the replica they claim to be from: they can neither end it nor change anything else.", "quantifier": "every history, every message and handshake", "why_tests_cant": "All malformed and forged messages at any time.", "anchors": ["runtime/src/communication.rs:process_in_message", "runtime/src/communication.rs:decrypt_message", "runtime/src/driver.rs:receive_message"]}
{"id": "C95", "title": "Events that consensus cannot accept at the moment do not end a replica", "statement": "An application may decide on an event whenever it is called. If consensus does not accept the event at the moment, for example while leadership changes, the replica goes on.", "quantifier": "every started replica, every application and command, every consensus that refuses proposals", "why_tests_cant": "Depends on the moment at which a command arrives relative to an election or a transfer of leadership.", "anchors": ["runtime/src/driver.rs:make_raft_proposal", "runtime/src/driver.rs:process_actor_raft_proposals"]}
{"id": "C96", "title": "A started replica keeps running", "statement": "If the application and consensus do what is asked of them and the platform attests and creates sessions, then a replica can be started, and whatever the host delivers after that, in any order and at any times, is dealt with: no call ends with an error or an abort. All chunks of snapshots that can be sent are sent.", "quantifier": "every history of calls of the host, all messages of peers and handshakes, all applications and consensus engines that keep the stated contracts", "why_tests_cant": "Every combination of delivered messages, duties of consensus, transfers of snapshots and states of the sessions.", "anchors": ["runtime/src/driver.rs:receive_message", "runtime/src/driver.rs:process_start_node", "runtime/src/driver.rs:advance_raft", "runtime/src/communication.rs:DefaultCommunicationModule", "runtime/src/snapshot.rs:DefaultSnapshotProcessor", "apps/atomic_counter/service/src/actor.rs:CounterActor"]}
{"id": "C97", "title": "Atomic counters are linearizable across the cluster", "statement": "What all clients of all replicas of a cluster are told about the values of counters is explained by carrying out their compare-and-swap requests one at a time, each at most once and beginning with the configured values. A request made after another one was answered comes later. A request that was refused has no effect, then or later.", "quantifier": "every history of calls to any number of replicas, with restarts, leader changes and snapshots at any points; every consensus that hands over one log of what was proposed, in an order that respects time", "why_tests_cant": "Ranges over all interleavings of the requests of many clients with replication on many replicas.", "anchors": ["apps/atomic_counter/service/src/actor.rs:CounterActor", "runtime/src/driver.rs:process_actor_raft_proposals", "runtime/src/driver.rs:advance_raft"]}
{"id": "C98", "title": "Snapshots arrive at other replicas as they were sent, and success is reported only if all pieces were accepted", "statement": "Two started replicas exchange snapshots only through messages between them, which may be lost, repeated and reordered. If all that a replica hears from another one about snapshots are requests of one transfer, the snapshot it hands to its consensus is the one that consensus of the other replica asked to send. If consensus of a replica is told that a snapshot was sent, every piece of it was handed to the other replica and accepted there. Requests and answers carry the ids of the replicas that send and receive them, and no two requests have the same delivery id. Whatever the snapshot processor is told comes from the network, consensus or the host, and what it answers is passed on.", "quantifier": "all histories of calls to two replicas with any consensus, communication module and application; all snapshots, chunk sizes and schedules of messages", "why_tests_cant": "Ranges over all interleavings, losses and repetitions of the messages of two replicas.", "anchors": ["runtime/src/driver.rs:process_deliver_snapshot_request", "runtime/src/driver.rs:process_deliver_snapshot_response", "runtime/src/driver.rs:process_snapshot_progress", "runtime/src/driver.rs:stash_snapshot", "runtime/src/snapshot.rs:DefaultSnapshotProcessor"]}
{"id": "C99", "title": "Decryption keys in a cluster: decryptions use pairs of the log, members do not use or replace what they know of", "statement": "In a cluster whose members share one log, every decryption a client is told was made for its request with the private share of a pair that the log generated for the key, which was neither used nor replaced in the part of the log the asked member had seen, and the use is in the log. A member that has seen a use of a key does not use the key again before another pair is generated; a member that has seen a pair generates another one only after a use, or after the pair was evicted from a full store. Every public key a client is told is one that the log generated for its key. (A key is not used at most once, even by requests that follow each other: a leader that has not yet applied the use uses it again.)", "quantifier": "all histories of calls to any number of members, all logs consensus may agree on, all requests and randomness", "why_tests_cant": "Ranges over all schedules of requests, replication and changes of leadership of a cluster.", "anchors": ["apps/willow/decryptor/actor/src/actor.rs:process_decrypt_command", "apps/willow/decryptor/actor/src/actor.rs:process_generate_key_command", "apps/willow/decryptor/actor/src/actor.rs:on_apply_event", "runtime/src/driver.rs:process_deliver_app_message"]}
{"id": "C100", "title": "Requests to the tablet stores of a cluster are strictly serializable", "statement": "In a cluster of tablet stores whose members share one log, the responses clients get, from whichever members, are those of one sequential execution of whole requests that begins with the tables of the initial leader: each request of it was sent by a client and is executed once, as a whole or not at all; it keeps the order of requests that were answered before others were sent; a refused request is not in it. So of all requests that update a tablet to the same version at most one is answered with success, and a response to a request that was sent after an update was answered with success does not show an older version of the tablet.", "quantifier": "all histories of calls to any number of members, all logs consensus may agree on, all requests, generated tablet ids and orders of tables", "why_tests_cant": "Ranges over all schedules of requests, replication, restarts and changes of leadership of a cluster.", "anchors": ["apps/tablet_store/service/src/actor.rs:on_apply_event", "apps/tablet_store/service/src/actor.rs:on_process_command", "apps/tablet_store/service/src/actor.rs:on_apply_tablets_request", "runtime/src/driver.rs:process_deliver_app_message"]}
{"id": "C101", "title": "Requests to a cluster are answered at most once", "statement": "In a cluster whose members share one log and run an application that answers a request at once or turns it into one event, every message that a running replica hands out for its clients is the answer to a request of its own: a request with the same number that was handed to a replica with the same id, not after the answer; different messages answer different requests. So if clients number their requests differently, no running replica uses a number twice. The atomic counter, the tablet store and the decryptor are such applications. (A replica that is started again under its old id may answer requests of its predecessor again.)", "quantifier": "all histories of calls to any number of members, all logs consensus may agree on, all requests", "why_tests_cant": "Ranges over all schedules of requests, replication, restarts and changes of leadership of a cluster.", "anchors": ["runtime/src/driver.rs:process_deliver_app_message", "runtime/src/driver.rs:apply_raft_committed_entries", "apps/atomic_counter/service/src/actor.rs:on_process_command", "apps/tablet_store/service/src/actor.rs:on_apply_event"]}
{"id": "C102", "title": "Log records reach the host once, in order", "statement": "If a replica is created without a logger, then every record logged while it handles calls is handed to the host exactly once, in the order in which records were logged, as a message with the severity of the record that names the file without its directories, the line, the column, the text and all keys and values. A call that succeeds hands over all that was logged up to the point where it collects the messages of its peers, together with what earlier calls left, after its own messages and before those for its peers; only a call with a message that is not set hands over nothing. If the replica is created with a logger, the host gets no records. What is logged changes nothing else. (Records are lost with a call that fails.)", "quantifier": "all histories of calls, all records logged during them, all applications and consensus implementations", "why_tests_cant": "Ranges over all histories of calls and all that may be logged during them.", "anchors": ["runtime/src/logger.rs:create_log_message", "runtime/src/logger.rs:RemoteDrainCore", "runtime/src/driver.rs:stash_log_entries", "runtime/src/driver.rs:receive_message"]}
{"id": "C103", "title": "Requests that consensus agrees on are answered", "statement": "A request that the host hands to a running replica is either answered in the same call, under the number of the request, or proposed to consensus in that call; and in the call in which consensus hands the replica an entry with what was proposed, the request is answered under its number. This holds for every application that answers a request at once or turns it into an event under its number, and answers events of its own replica under their number: the counter, the tablet store and the decryptor are such applications. (Requests that consensus drops, or whose entry the replica only gets inside a snapshot, are never answered.)", "quantifier": "all histories of calls of one run of a replica, all requests in them, all consensus implementations, all applications that answer their requests", "why_tests_cant": "Ranges over all histories between a request and the call in which its entry is handed over.", "anchors": ["runtime/src/driver.rs:process_deliver_app_message", "runtime/src/driver.rs:process_actor_raft_proposals", "runtime/src/driver.rs:apply_raft_committed_entries", "apps/atomic_counter/service/src/actor.rs:on_process_command", "apps/tablet_store/service/src/actor.rs:on_process_command", "apps/willow/decryptor/actor/src/actor.rs:on_apply_event"]}
{"id": "C104", "title": "A replica that needs no one else answers at once", "statement": "When consensus needs no other replica to agree, as in a cluster of one replica, so that what it accepts is in its next batch, agreed on there or once the batch has been stored, then every request that the host hands to the running replica is answered under its number in the same call, whatever the replica has been through. This holds for every application that answers its requests in the sense of C103.", "quantifier": "all histories of calls of one run of a replica, all requests in them, all consensus implementations that agree alone, all applications that answer their requests", "why_tests_cant": "Ranges over all histories before the request and over all states of the application and of consensus.", "anchors": ["runtime/src/driver.rs:process_actor_raft_proposals", "runtime/src/driver.rs:process_state_machine", "runtime/src/driver.rs:advance_raft", "runtime/src/driver.rs:receive_message"]}
