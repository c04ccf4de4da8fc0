# Formal model of the Trusted Computations Platform (Rocq/Coq 8.16.1)

## Approach

* The code in /repo is modelled function by function as total Gallina functions over plain data
  (`rocq/theories/*Model.v`). `&mut self` becomes a returned new state, `Result`/`Option` stay data,
  every `panic!`/`unwrap`/`assert!`/out-of-bounds index becomes an explicit `Panic` outcome.
* External components (raft-rs, Oak sessions, cryptography, protobuf) are parameters: either section variables that
  are generalised (so a theorem holds for every behaviour) or inputs of the step function chosen by the environment.
* `HashMap` iteration order is a parameter (or a permutation) wherever it is observable.
* Specifications live in separate small files or beside the theorem and do not use model helpers where avoidable.
* If the code does not satisfy an English property, the theorem is a `_refuted` theorem with a concrete witness,
  together with the strongest variant that does hold.

## Trusted base

* The kernel of Coq 8.16.1, and `coqchk`, which vcheck runs over the compiled files.
* `Print Assumptions` of every theorem listed in MANIFEST.json is run in `rocq/theories/Assumptions.v` (generated). The
  answer is `Closed under the global context` for all of them: no axioms, neither own ones nor of the standard library.
* The library std++ is used for lists, finite maps and finite sets. It adds no axioms. (Loading it loads Coq's `ssrunder`
  file, whose module parameters are listed by coqchk as library axioms; no theorem depends on them.)
* That the models are the code: every definition cites the lines it models, and each `*Model.v` file begins with its
  simplifications, which are repeated below.
* What is assumed about things outside the repository is never an axiom but a visible hypothesis of the theorem
  (`codec_ok`, `consensus_ok`, `agrees`, ...), beside which there is a concrete instance that meets it.

## Files

For a component X: `XModel.v` the model, `XSpec.v` the vocabulary of the statements, `X...Proofs.v` the proofs,
`XTheorems.v` the theorems named after the properties, with examples that meet their hypotheses.

| component | code modelled |
|-----------|---------------|
| Base | outcomes of calls (value, error, abort) |
| Storage | runtime/src/storage.rs |
| Snapshot | runtime/src/snapshot.rs |
| Comm | runtime/src/communication.rs, handshake.rs, encryptor.rs; session.rs as an arbitrary session |
| Session | runtime/src/session.rs: reference values, choice of verifiers, configuration of sessions |
| Actor | runtime/src/model.rs (interface between runtime and application) |
| Driver | runtime/src/driver.rs; the traits of consensus.rs as a record of functions |
| Consensus | runtime/src/consensus.rs: RaftSimple, over the Storage model and any node of the raft crate |
| Service | runtime/src/service.rs: both endpoint services, the channels and the thread as a transition system |
| Replica | runtime/src/service.rs 84-107: the driver put together with the modelled snapshot processor, communication module and session factory |
| Cluster | no further code: several replicas, each a driver, connected by an assumed consensus protocol |
| Counter | apps/atomic_counter/service/src/actor.rs |
| Btree, Tablet | apps/tablet_store/service/src/actor.rs |
| Willow | apps/willow/decryptor/actor/src/actor.rs |
| Metadata | apps/tablet_cache/service/src/transaction/metadata.rs, queries of transaction.rs |
| Blob | apps/tablet_cache/service/src/transaction/data.rs, result.rs |
| Coordinator | apps/tablet_cache/service/src/transaction.rs, transaction/coordinator.rs, transaction/manager.rs |
| Keyvalue | apps/tablet_cache/service/src/store.rs, actor.rs and the assembly in app/src/main.rs |
| Logger | runtime/src/logger.rs, and the log messages of driver.rs receive_message |

## Not modelled

* raft-rs, Oak sessions, attestation, cryptography, hashing, protobuf (prost) and tonic: external crates. Where the code
  calls them, the model has a parameter.
* What Oak's verifiers and sessions do with their configuration (runtime/src/session.rs configures them).
* which records are logged (logger.rs itself is modelled), mock.rs, lib.rs, platform.rs (traits and error names; the errors are in the driver model), the conversions
  of util.rs (used as plain data), the protos (used as records), build scripts, containers, launchers, integration harness
  and tests, Bazel files.
* Memory, wall-clock time, thread scheduling and resource exhaustion.

## Simplifications

In general: 64-bit counters are unbounded numbers, 32-bit versions of tablets are bounded; log output is left out; error
values carry what the code tells apart; shared mutable cells (`Rc<RefCell>`) become part of the state of their owner, and a
double borrow that would abort is an explicit `Panic`. In particular:

* Storage: `Option` fields of snapshot metadata that the code always sets are plain fields.
* Snapshot: chunk payloads are structured data with a case for "does not decode"; the progress of a transfer is compared as a
  rational instead of an `f64`.
* Comm: the attested session has arbitrary behaviour, and whoever provides sessions may answer each request differently;
  the three kinds of messages between replicas are one record.
* Session: the values of a layer are opaque; the verifiers of Oak are predicates on evidence.
* Replica: randomness, evidence and iteration orders are functions of the number of calls so far.
* Driver: the state after an error is not represented, because the service terminates then; the log storage is part of the
  state of the consensus implementation.
* Consensus: calls without an error result that abort the process set a flag; the node of the raft crate is a record of
  functions that changes its store only by asking for snapshots (`node_ok`) and names itself when it leads
  (`node_leads_ok`). For C104 only, the node is one that agrees without the help of others
  (`node_agrees_alone`), as that of a cluster of one replica does.
* Tablet: of a table's configuration only name and initial tablet count are kept; initial ids are a parameter.
* Willow: key generation and decryption are functions of the randomness of the call.
* Metadata, Blob, Coordinator, Keyvalue: values, serialisers, hashes and handlers are parameters, as are the keys the
  eviction policy returns and the iteration orders of hash maps; results are delivered into lists kept in the state.

## Findings

Behaviour of the code that a user would not expect. The ones that contradict a listed property are proved as `_refuted`
theorems (named in parentheses), several of them for all states.

Runtime

* Installing a snapshot can move the commit index backwards (C05).
* The snapshot receiver never compares snapshot ids, so chunks of two snapshots of one sender can be mixed (C10).
* When another replica leaves, a transfer to it is not cancelled.
* A message sent while a handshake cannot be started is dropped silently; when two replicas initiate at once both handshakes
  fail; a decryption failure does not close the channel; replica id 0 can never communicate.
* A stopped replica keeps its clock, applies entries and serves snapshot requests (C26); followers report no status (C28) and
  never close channels of removed replicas (C63); misrouted messages are only logged (C29).
* Any error returned by a call terminates the replica, so any refused message does. A clock tick before the start request
  aborts, as does a start request without endorsements.
* A client that cancels a call while it is being handled terminates the replica, because the reply cannot be delivered (C85).
* Only the payload of a message between replicas is encrypted: the host can change its kind, recipient and delivery number,
  for example acknowledge other chunks of a snapshot than the receiver did (C93). A message without payload on an
  established channel aborts the replica (C94).
* An event that consensus refuses at the moment, for example because there is no leader or leadership is being handed
  over, aborts the replica (C95).
* Reference values for the hardware are ignored when insecure hardware is accepted as well (C91).

Applications

* Counter: a failed swap reports new value zero (C34); loading a snapshot keeps counters that are not in it (C35, C81).
* Tablet store: two updates of one tablet in one request are both accepted (C40); listings can contain an additional tablet
  (C41); unsupported operations abort all replicas (C60); initial tablet ids are random per replica, so replicas agree only
  because the leader's initial snapshot is installed by the others.
* Decryptor: overlapping requests use a key twice (C44) or replace a published key (C45); malformed commands fail the
  replica (C62); a full store evicts a key even when it only overwrites one.

Tablet cache

* The topmost hash is untracked for every region size (C50); keys beyond the first tablet of a listing are lost (C49); two
  queries of one table and region in one request abort (C69); unsolicited list results are accepted whatever their
  correlation id.
* A load can complete early (C51); a batch of nothing never completes (C52), so reading transactions never commit (C77);
  contents are not checked against their hash (C53); fresh tablets share one cache entry (C70); identical concurrent writes
  abort (C72).
* A failed transaction leaves uncommitted versions in the cache (C55); failed processings are never finished (C56); a store
  error aborts (C57); truncated answers count as success (C54); tablets of different tables with equal id and version are
  mixed up (C76); transactions without operations never end (C77).
* The actor never advances the transaction manager, so no request is ever answered (C58); requests of a failed transaction
  are not retried (C58); all requests of a batch go to the first tablet (C80); the configuration of the key value store is
  not kept, so empty queries are started for idle tablets.

## Properties: plan and result

`proved`: the theorems say what the property says. `partial`: part of it is proved, or it is false of the code and
refuted; MANIFEST.json says which and lists the theorems.

| id | title | plan | result |
|----|-------|------|--------|
| C01 | Replicated log has no holes | Model MemoryStorageCore; invariant by induction over op sequences. | proved (3 theorems) |
| C02 | Appending overwrites exactly the conflicting suffix | Read-back theorem on the same model, stated with the public entry reads. | proved (4 theorems) |
| C03 | Range reads are exact | Exact characterisation of `entries`/`entry_term`, incl. limit_size, against an index-filter spec. | proved (3 theorems) |
| C04 | Taking a snapshot loses no unapplied entry | Theorem on create_snapshot over reachable states, observed through reads. | proved (4 theorems) |
| C05 | Installing a snapshot replaces the log | Theorem on apply_snapshot. Commit-regression recorded as a finding. | partial, refuted (3 theorems) |
| C06 | Snapshot requests are served exactly when satisfiable | Theorem on try_satisfy_request/should_snapshot/set_snapshot + invariant over histories. | proved (2 theorems) |
| C07 | Snapshotting does not loop | Follows from the C06 invariant. | proved (2 theorems) |
| C08 | Snapshot chunking partitions the payload | Model of SnapshotSenderState; run-to-exhaustion theorem. | proved (2 theorems) |
| C09 | Snapshot transfer integrity under any delivery schedule | Model of receiver; schedules = lists of request indices; invariant over deliveries. | proved (5 theorems) |
| C10 | A receiver never mixes chunks of different snapshots | Expected false (receiver does not compare snapshot ids): refuted by a witness; proved variant with per-sender single snapshot. | partial, refuted (2 theorems) |
| C11 | Snapshot sender flow control | Invariant over histories of sender operations. | proved (3 theorems) |
| C12 | Snapshot sender reports success only after full acceptance | Invariant with ghost set of acknowledged chunks over histories. | proved (2 theorems) |
| C13 | Leadership changes abort snapshot transfers | Model of DefaultSnapshotProcessor; role as a function of the last notification. | proved (5 theorems) |
| C14 | Least advanced snapshot transfer goes first | Theorem on next_request for every iteration order; progress as a rational (cross-multiplied) instead of f64. | proved (1 theorems) |
| C15 | Nothing leaves the enclave in the clear | Model of CommunicationModule with oracle sessions; every output tagged with its provenance; invariant. | proved (3 theorems) |
| C16 | Nothing is accepted before attestation | Same model; theorem on process_in_message. | proved (3 theorems) |
| C17 | Outgoing messages keep their order | Same model; queue refinement. | proved (3 theorems) |
| C18 | Stalled handshakes are retried and keep the queue | Same model; ticks. | proved (4 theorems) |
| C19 | Removed peers lose their channels | Same model; maps. | proved (2 theorems) |
| C20 | Channel state machine discipline | Same model; invariant relating handshake state and encryptor. | proved (8 theorems) |
| C21 | Handshake sessions complete only when the attested session is open | Model of Client/ServerHandshakeSession over an oracle Oak session. | proved (5 theorems) |
| C22 | Events are applied once, in log order | Driver model with consensus oracle; sortedness + invariant. | proved (3 theorems) |
| C23 | Responses are attributed to the proposing replica | Driver model. | proved (3 theorems) |
| C24 | Replicas converge | Generic replicated-state-machine simulation theorem over the Actor interface, instantiated with the application models. | proved (5 theorems) |
| C25 | Time never runs backwards for the application | Driver model; induction over histories. | proved (3 theorems) |
| C26 | Stopped replicas do not participate | Driver model. | partial, refuted (2 theorems) |
| C27 | Lifecycle preconditions are enforced | Driver model. | proved (2 theorems) |
| C28 | Leadership is reported on change | Driver model. | partial, refuted (2 theorems) |
| C29 | Misrouted replica messages are not processed | Expected false (only warned about): refuted on the driver model. | partial, refuted (2 theorems) |
| C30 | Cluster change requests are always answered | Driver model. | proved (1 theorems) |
| C31 | Ephemeral applications see their own events immediately | Driver model in ephemeral mode. | proved (1 theorems) |
| C32 | Compare-and-swap is atomic and exact | Model of the counter actor. | proved (2 theorems) |
| C33 | Counter histories are linearizable in log order | Induction over logs on the counter model against a one-line sequential spec. | proved (3 theorems) |
| C34 | A failed compare-and-swap reports the old value as new value | Expected false: refuted. | partial, refuted (2 theorems) |
| C35 | Counter snapshots restore the state | Round trip; the unrestricted form is expected false (load does not clear) — proved when the loader's counters are a subset. | partial, refuted (4 theorems) |
| C36 | Only the leader accepts counter commands | Counter model. | proved (4 theorems) |
| C37 | Tablet transactions are all-or-nothing | Model of the tablet store actor. | proved (2 theorems) |
| C38 | Tablet versions grow by one | Tablet store model; induction over logs. | proved (4 theorems) |
| C39 | Conflicting tablet updates cannot both commit | Tablet store model; induction over logs. | proved (1 theorems) |
| C40 | Two updates of one tablet in one request | Expected false: refuted. | partial, refuted (2 theorems) |
| C41 | Tablet listing returns exactly the responsible tablets | find_tablets vs ring-successor specification. | partial, refuted (5 theorems) |
| C42 | Tablet store snapshots restore the state | Round trip for every permutation of the saved tables. | proved (5 theorems) |
| C43 | Decryptor key store is bounded | Willow model; invariant over logs. | proved (3 theorems) |
| C44 | A decryption key is used at most once | Expected false with overlapping requests: refuted; proved when commands are serialized. | partial, refuted (3 theorems) |
| C45 | A published decryption key stays usable | Expected false with overlapping requests: refuted. | partial, refuted (5 theorems) |
| C46 | Decryptor snapshots restore the state | Willow model; round trip. | proved (6 theorems) |
| C47 | Cached tablet metadata never goes back in version | Metadata cache model; invariant over histories. | proved (2 theorems) |
| C48 | Key hashes are split into regions exactly | Metadata cache model. | proved (2 theorems) |
| C49 | Every queried key is resolved to its owner tablet | Expected false: refuted; proved for the case the code handles. | partial, refuted (4 theorems) |
| C50 | Every key hash belongs to a tracked region | Expected false: refuted (topmost hashes). | partial, refuted (3 theorems) |
| C51 | One outstanding load per blob | Data cache model; invariant over histories. | partial, refuted (8 theorems) |
| C52 | Storing an empty batch completes | Expected false: refuted. | partial, refuted (1 theorems) |
| C53 | Loaded tablet data matches its metadata | Expected false: refuted. | partial, refuted (1 theorems) |
| C54 | A transaction succeeds only if every operation succeeded | Coordinator model; expected partly false (truncated responses). | partial, refuted (6 theorems) |
| C55 | Failed transactions leave no uncommitted metadata in the cache | Expected false: refuted. | partial, refuted (3 theorems) |
| C56 | Failed processing can be finished | Expected false: refuted. | partial, refuted (1 theorems) |
| C57 | Store errors fail the transaction | Expected false: refuted. | partial, refuted (2 theorems) |
| C58 | Every key-value request is eventually answered | Expected false: refuted on the actor model. | partial, refuted (3 theorems) |
| C59 | Key-value requests are executed in order against the tablet | Key-value batch model against a sequential map spec. | proved (1 theorems) |
| C60 | No request can abort the tablet store | Expected false (unsupported operations): refuted; proved for supported operations. | partial, refuted (2 theorems) |
| C61 | Tablet store commands are answered or proposed exactly once | Case analysis of the tablet store actor's command handler. | proved (1 theorems) |
| C62 | Every decryptor command is answered or proposed | Expected false (malformed commands): refuted; proved for well-formed ones. | partial, refuted (3 theorems) |
| C63 | Replicas that left the cluster lose their channels | Driver model with recorded calls of the communication module; false on followers. | partial, refuted (2 theorems) |
| C64 | Application messages are delivered and answered exactly once | Driver model with recorded calls of the application; messages handed out per call. | proved (1 theorems) |
| C65 | A created snapshot describes exactly the applied prefix | Driver model; what the application went through when a snapshot is created. | proved (1 theorems) |
| C66 | A lame duck replica does not drive elections | Driver model; number of ticks recorded. | proved (1 theorems) |
| C67 | The application is initialised exactly once | Driver model; the first recorded calls. | proved (2 theorems) |
| C68 | List requests of the tablet cache are neither lost nor repeated | Metadata cache model; invariant relating pending requests and list requests under way. | proved (5 theorems) |
| C69 | Every tablet resolve request is answered at most once and never aborts the cache | Metadata cache model; invariant over histories; false for two queries of one region. | partial, refuted (4 theorems) |
| C70 | A load returns exactly the tablets asked for | Data cache model; invariant relating batches and the names they wait for. | partial, refuted (2 theorems) |
| C71 | Blobs of different tablets, versions or contents have different names | Data cache model; injectivity of names. | proved (2 theorems) |
| C72 | Storing tablets never stops the service | Data cache model; refuted by a witness; proved for new names. | partial, refuted (2 theorems) |
| C73 | A commit is exactly what the transaction's handlers did | Coordinator model; invariant relating handler calls and commit operations. | proved (2 theorems) |
| C74 | Transactions are atomic and isolated | Coordinator model composed with the tablet store model; history of both. | proved (1 theorems) |
| C75 | Contents are stored before they are committed | Coordinator model composed with the data cache; invariant over stored names. | proved (1 theorems) |
| C76 | Handlers are given what the stores reported | Coordinator model; provenance of metadata and contents. | partial, refuted (3 theorems) |
| C77 | Every transaction can be committed and has an outcome | Coordinator model; refuted for reading and empty transactions. | partial, refuted (2 theorems) |
| C78 | Key-value answers are sound | Key value store model over an arbitrary transaction context; invariant over histories. | proved (2 theorems) |
| C79 | One transaction at a time for each tablet | Key value store model; invariant over histories. | proved (1 theorems) |
| C80 | Requests reach the tablet responsible for their key | Key value store model; refuted. | partial, refuted (2 theorems) |
| C81 | A snapshot brings a replica into the state of the cluster whatever its own configuration | Cluster model with the counter application; refuted by a witness. | partial, refuted (1 theorems) |
| C82 | Conflicts make the cached metadata of a region stale | Metadata cache and coordinator models; from the history of calls, the last news about a region. | proved (3 theorems) |
| C83 | Calls of a replica's endpoint take effect one at a time | Service model with explicit schedule; linearization order as invariant. | proved (3 theorems) |
| C84 | After an unrecoverable error nothing is answered | Service model; invariant of the dead state. | proved (3 theorems) |
| C85 | A caller that gives up does not harm the replica | Service model; refuted by a schedule for every driver and request. | partial, refuted (1 theorems) |
| C86 | Batches of consensus are carried out completely before they are acknowledged | Driver model over recorded consensus, communication and snapshot processor; one call either finds no batch or carries out one completely; frame lemmas per function. | proved (1 theorems) |
| C87 | Consensus is used as its contract demands | Driver model over any consensus; calls recorded and shown to be those of the contract, by frame lemmas per function; RaftSimple model: invariant over the contract. | proved (3 theorems) |
| C88 | The store holds exactly what consensus asked to be stored | Driver model with the RaftSimple and storage models; each recorded call is related to one change of the store. | proved (1 theorems) |
| C89 | Snapshots are made as often as configured | As C88; at the end of each call only reports followed the decision about a snapshot. | proved (2 theorems) |
| C90 | Only a leader describes the cluster | As C88; state reported through RaftSimple, with the raft library's promise that a leader names itself. | proved (2 theorems) |
| C91 | Sessions are opened only with peers that match the reference values | Model of the factory in session.rs: which verifier is chosen for which reference values, and what a session is configured with; the checks themselves (Oak) are arbitrary predicates on evidence. Case analysis; no session before initialisation. | proved (7 theorems) |
| C92 | Only verified peers are heard and told | The driver over the modelled communication module and session factory. Frame lemma: every function of the driver changes the module only through its calls; invariant on channels: sessions and encryptors are reachable from sessions made with the reference values, encryptors from open ones. | proved (4 theorems) |
| C93 | Messages of peers arrive as they were sent | As C92. Contents hold by C92; the heading is refuted for every state and every changed heading. | partial, refuted (1 theorems) |
| C94 | Strangers cannot disturb a replica | As C92, with equality of outcomes instead of only successful ones, given that sessions can be created; refuted for messages without contents on an established channel, for all states. | partial, refuted (3 theorems) |
| C95 | Events that consensus cannot accept at the moment do not end a replica | The assembled driver. Refuted for all states, applications and commands: the proposal is unwrapped. | partial, refuted (1 theorems) |
| C96 | A started replica keeps running | The driver put together with the modelled snapshot processor, communication module and session factory. Contracts for application, consensus (a protocol of duties that the driver has to carry out in order) and host are stated in ReplicaRunSpec; the invariant resting, with one for the channels and one for snapshot transfers, is kept by every call and implies success. The counter is shown to keep the contract, and an example consensus too. | proved (4 theorems) |
| C97 | Atomic counters are linearizable across the cluster | Clusters of driver models that run the counter. ClusterOrderSpec states what is assumed of the order of proposals and defines linearizability over the history of calls with the sequential specification of C33. Every applied event is shown to act on the state the log defines before it (also for any replicated application), and the sequence of swaps is read off the log. | proved (2 theorems) |
| C98 | Snapshots arrive at other replicas as they were sent, and success is reported only if all pieces were accepted | The assembled replica model with a recorder around the snapshot processor (ReplicaTransferSpec). An invariant of all histories ties each recorded call to what communication, consensus and the host were told; the recorded calls are then read as a trace of the sender and receiver models, to which the theorems about one transfer (C09, C12) apply, and two replicas are joined by what they hear from each other. | proved (4 theorems) |
| C99 | Decryption keys in a cluster: decryptions use pairs of the log, members do not use or replace what they know of | The cluster model of C24/C97 with the decryptor as the application. A lemma about one call of the driver shows that a command acts on the state held before the call; with the state theorem of C24 that is the state of the log at the position of the member, and an induction over the log relates the pairs of that state to generate and decrypt events. The refuted part is a history of two members in which the second leader lags behind. | proved, refuted (5 theorems) |
| C100 | Requests to the tablet stores of a cluster are strictly serializable | The cluster model of C24/C97 with the tablet store as the application. The specification is a relation for one request (all its preconditions in the state before; last updates; what each operation reports) and its iteration, independent of the functions of the store. The requests of the log, up to the furthest position any member reached, are the sequential execution; responses and refusals are traced to events and commands with the lemmas of C97 and C99. The two corollaries are proved from the specification alone. | proved (3 theorems) |
| C101 | Requests to a cluster are answered at most once | The cluster model of C24/C97 with any application that meets a small contract (answers_once), which is proved for the three applications. Every message is given a source: the call that answers it directly, or the entry of the log it answers; sources do not repeat because a call gives the application one command and indices increase (C22), and are mapped injectively to the calls in which clients asked. A concrete cluster shows that restarted replicas are excluded from the claim for a reason. | proved, refuted (6 theorems) |
| C102 | Log records reach the host once, in order | Model of logger.rs and of the end of receive_message with log messages, over the driver model; the records of a call are an input. Proved by induction over the calls: handed over ++ kept = all that was logged. The name of the file is specified by what it is (the part after the last slash), not by the search. | proved, refuted (6 theorems) |
| C103 | Requests that consensus agrees on are answered | Over the driver model with any consensus: what a call proposes and is handed is read off the recorded calls to consensus. An entry with the bytes of a proposal decodes to the event with the name of this replica, so the application applies it as its own and its answer is among the messages of that call. The three applications are shown to answer their requests by cases. | proved, refuted (5 theorems) |
| C104 | A replica that needs no one else answers at once | Over the driver model: what consensus holds is followed through one call, from the proposal over the progress of snapshot transfers, the clock and the handling of a batch, to the call of consensus that hands it over; then C103 applies. The model of RaftSimple passes the hypothesis on from a node of the raft crate. Consensus that stores before it agrees is given as an instance. | proved (2 theorems) |
