(** Model of the replica driver, runtime/src/driver.rs.

    The driver is generic in the consensus implementation, the snapshot
    processor, the communication module and the application (driver.rs 180-181),
    and so is the model: each is a record of functions over a type of states,
    one function per method of the trait. What holds of the driver is stated for
    all implementations.

    Simplifications, for the whole file:
    - an error returned by [receive_message] terminates the process
      (service.rs 114-120 and 163-168), so the state of a driver after an error
      is not represented;
    - logging, log messages and the signing key of the host are left out;
    - the [Store] is part of the state of the consensus implementation, which
      owns it (consensus.rs 190);
    - reference values, endorsements and the clock handed to the communication
      module are left out, except that missing endorsements abort;
    - the context shared with the application through [Rc<RefCell<..>>] is part
      of the driver's state; the application reads it when it is called;
    - u64 arithmetic is unbounded. *)
From Verif Require Import Base StorageModel SnapshotModel CommModel ActorModel.

(** ** The interfaces the driver uses *)

(** consensus.rs 76-82 RaftState. *)
Record raft_st := RaftSt {
  rf_leader : N;
  rf_term : N;
  rf_config : list N;
  rf_pending : bool;
}.
Global Instance raft_st_eq : EqDecision raft_st. Proof. solve_decision. Defined.
(** consensus.rs 84-90 RaftState::new. *)
Definition raft_st0 : raft_st := RaftSt 0 0 [] false.

(** raft eraftpb::MessageType: the two kinds the driver and the communication
    module tell apart, and all the others. *)
Inductive rmsg_type := MsgHeartbeat | MsgSnapshot | MsgOther (kind : N).
Global Instance rmsg_type_eq : EqDecision rmsg_type. Proof. solve_decision. Defined.
(** raft eraftpb::Message; the fields the driver never looks at are [rm_rest]. *)
Record rmsg := RMsg {
  rm_type : rmsg_type;
  rm_to : N;
  rm_from : N;
  rm_snapshot : option snapshot;
  rm_rest : bytes;
}.
(** util.rs 140-150 create_raft_message, with the snapshot set. *)
Definition snapshot_message (from to : N) (s : snapshot) : rmsg := RMsg MsgSnapshot to from (Some s) [].

(** raft eraftpb::ConfChange. *)
Inductive change_type := AddNode | RemoveNode | AddLearnerNode.
Record conf_change := ConfChange { cc_type : change_type; cc_node : N }.

(** consensus.rs 92-101 RaftReady. *)
Record ready := Ready {
  rd_messages : list rmsg;
  rd_persisted : list rmsg;
  rd_entries : list rentry;
  rd_committed : list rentry;
  rd_hard : option hard_state;
  rd_snapshot : snapshot;
  rd_number : N;
}.
(** consensus.rs 148-152 RaftLightReady. *)
Record light_ready := LightReady { lr_messages : list rmsg; lr_committed : list rentry }.

(** raft Error: the variant the driver tells apart, and the others. *)
Inductive raft_error := ProposalDropped | RaftOther.

(** endpoint.proto RaftConfig with its SnapshotConfig. *)
Record snapshot_config := SnapshotConfig { sc_count : N; sc_chunk_size : N; sc_max_pending : N }.
Record raft_config := RaftConfig {
  rc_tick_period : N;
  rc_election_tick : N;
  rc_heartbeat_tick : N;
  rc_max_size : N;
  rc_snapshot : option snapshot_config;
  rc_handshake_retry : N;
}.

(** consensus.rs 172-217 Raft and 38-74 Store. A state is returned with each
    answer the driver continues after. *)
Record raft_ops (RS : Type) := RaftOps {
  ra_initialized : RS -> bool;
  ra_leader : RS -> bool;
  ra_state : RS -> raft_st;
  (** replica id, configuration, snapshot, leader, snapshot count of the store
      created for it (driver.rs 289-301) *)
  ra_init : RS -> N -> option raft_config -> bytes -> bool -> N -> res raft_error RS;
  (** [false]: an error *)
  ra_step : RS -> rmsg -> RS * bool;
  ra_propose : RS -> bytes -> res raft_error RS;
  ra_propose_change : RS -> conf_change -> RS * option raft_error;
  ra_tick : RS -> RS;
  ra_apply_change : RS -> conf_change -> res raft_error (RS * conf_state);
  ra_has_ready : RS -> bool;
  ra_get_ready : RS -> RS * ready;
  (** the driver has emptied the ready; what identifies it is its number *)
  ra_advance : RS -> N -> RS * light_ready;
  ra_advance_apply : RS -> RS;
  ra_report : RS -> N -> snap_status -> RS;
  ra_set_hard : RS -> hard_state -> RS;
  ra_append : RS -> list rentry -> res raft_error RS;
  ra_apply_snapshot : RS -> snapshot -> res raft_error RS;
  ra_should_snapshot : RS -> N -> conf_state -> bool;
  ra_create_snapshot : RS -> N -> conf_state -> bytes -> res raft_error RS;
  ra_snapshot_size : RS -> N;
}.
Arguments ra_initialized {RS}. Arguments ra_leader {RS}. Arguments ra_state {RS}. Arguments ra_init {RS}.
Arguments ra_step {RS}. Arguments ra_propose {RS}. Arguments ra_propose_change {RS}. Arguments ra_tick {RS}.
Arguments ra_apply_change {RS}. Arguments ra_has_ready {RS}. Arguments ra_get_ready {RS}. Arguments ra_advance {RS}.
Arguments ra_advance_apply {RS}. Arguments ra_report {RS}. Arguments ra_set_hard {RS}. Arguments ra_append {RS}.
Arguments ra_apply_snapshot {RS}. Arguments ra_should_snapshot {RS}. Arguments ra_create_snapshot {RS}.
Arguments ra_snapshot_size {RS}.

(** snapshot.rs 49-228 SnapshotProcessor, SnapshotSender, SnapshotReceiver.
    Requests and responses are the messages of the communication module, whose
    payload the processor reads. [sp_drain] bounds the number of requests the
    sender has ready: the loop of driver.rs 1087-1089 runs until there are no
    more. *)
Record snap_ops (SP : Type) := SnapOps {
  sp_init : SP -> N -> option (N * N) -> res unit SP;
  sp_cluster : SP -> N -> N -> list N -> res unit (SP * list (N * snap_status));
  sp_role : SP -> N -> res unit role;
  sp_start : SP -> N -> snapshot -> res unit SP;
  sp_next : SP -> res unit (SP * option peer_msg);
  sp_drain : SP -> nat;
  (** [None]: the delivery failed *)
  sp_response : SP -> N -> N -> option peer_msg -> res unit SP;
  sp_unexpected : SP -> peer_msg -> res unit peer_msg;
  sp_sent : SP -> res unit (SP * option (N * snap_status));
  sp_request : SP -> peer_msg -> res unit (SP * peer_msg);
  (** [Some None]: received but not valid *)
  sp_received : SP -> res unit (SP * option (option (N * snapshot)));
}.
Arguments sp_init {SP}. Arguments sp_cluster {SP}. Arguments sp_role {SP}. Arguments sp_start {SP}.
Arguments sp_next {SP}. Arguments sp_drain {SP}. Arguments sp_response {SP}. Arguments sp_unexpected {SP}.
Arguments sp_sent {SP}. Arguments sp_request {SP}. Arguments sp_received {SP}.

(** communication.rs 63-122 CommunicationModule. *)
Record comm_ops (CS REQ RESP : Type) := CommOps {
  (** replica id, handshake retry ticks, handshake timeout ticks *)
  co_init : CS -> N -> N -> N -> CS;
  co_out : CS -> out_msg -> res pal_error CS;
  co_in : CS -> in_msg REQ RESP -> res pal_error (CS * option (in_msg REQ RESP));
  co_take : CS -> res pal_error (CS * list (wire REQ RESP));
  co_cluster : CS -> list N -> CS;
  co_tick : CS -> CS;
}.
Arguments co_init {CS REQ RESP}. Arguments co_out {CS REQ RESP}. Arguments co_in {CS REQ RESP}.
Arguments co_take {CS REQ RESP}. Arguments co_cluster {CS REQ RESP}. Arguments co_tick {CS REQ RESP}.

(** endpoint.proto Entry: who proposed an event, its correlation id, and its
    contents. *)
Record entry_id := EntryId { ei_entry : N; ei_replica : N }.
Record entry := Entry { en_id : option entry_id; en_contents : bytes }.

(** Serialisation (util.rs 49-71, endpoint.proto). *)
Record driver_codec := DriverCodec {
  enc_rmsg : rmsg -> bytes;
  dec_rmsg : bytes -> option rmsg;
  dec_change : bytes -> option conf_change;
  enc_entry : entry -> bytes;
  dec_entry : bytes -> option entry;
}.

(** ** Messages exchanged with the host *)

(** endpoint.proto StartReplicaRequest; [sr_endorsements]: whether they are
    set. *)
Record start_request := StartRequest {
  sr_leader : bool;
  sr_id : N;
  sr_raft : option raft_config;
  sr_config : bytes;
  sr_ephemeral : bool;
  sr_endorsements : bool;
}.

(** endpoint.proto ChangeClusterRequest and ChangeClusterResponse. *)
Record change_request := ChangeRequest { cr_id : N; cr_replica : N; cr_type : N }.
Inductive change_status := ChangePending | ChangeRejected.

(** endpoint.proto InMessage. *)
Inductive host_in {REQ RESP : Type} :=
| HStart (r : start_request)
| HStop
| HLameduck
| HChange (r : change_request)
| HCheck
| HPeer (m : peer_msg)
| HSnapshotFailure (sender delivery : N)
| HGetState
| HHandshake (m : hs_msg REQ RESP)
| HApp (m : actor_command).
Arguments host_in : clear implicits.

(** endpoint.proto OutMessage. *)
Inductive host_out {REQ RESP : Type} :=
| OStarted (id : N)
| OStopped
| OChange (id : N) (s : change_status)
| OCluster (leader term : N) (replicas : list N) (pending : bool)
| OState (applied size : N)
| OApp (m : actor_command)
| OWire (w : wire REQ RESP).
Arguments host_out : clear implicits.

(** driver.rs 153-158 DriverState. *)
Inductive driver_phase := Created | Started | Stopped.
Global Instance driver_phase_eq : EqDecision driver_phase. Proof. solve_decision. Defined.

(** Turns the error of a call into the error of the driver. *)
Definition or_fail {E A} (e : pal_error) (r : res E A) : res pal_error A :=
  match r with Ok a => Ok a | Err _ => Err e | Panic => Panic end.
(** The call returns no errors; an error is an abort. *)
Definition or_abort {E A} (r : res E A) : res pal_error A :=
  match r with Ok a => Ok a | _ => Panic end.

(** ** The driver *)

Section Driver.
Context {RS SP CS ST REQ RESP : Type}.
Variable codec : driver_codec.
Variable rops : raft_ops RS.
Variable sops : snap_ops SP.
Variable cops : comm_ops CS REQ RESP.
Variable app : actor ST.

(** driver.rs 181-204 Driver with its DriverContextCore (49-55), DriverConfig
    (160-163) and RaftProgress (165-170). [d_actor] is the state of the
    application once [on_init] has run. *)
Record driver := Driver {
  d_core_id : N;
  d_core_instant : N;
  d_core_config : bytes;
  d_core_leader : bool;
  d_proposals : list bytes;
  d_tick_period : N;
  d_snapshot_count : N;
  d_phase : driver_phase;
  d_messages : list (host_out REQ RESP);
  d_stashed : list rmsg;
  d_id : N;
  d_instant : N;
  d_tick_instant : N;
  d_raft : RS;
  d_snap : SP;
  d_actor : option ST;
  d_rstate : raft_st;
  d_prev : raft_st;
  d_applied : N;
  d_conf : conf_state;
  d_comm : CS;
  d_ephemeral : bool;
  d_lameduck : bool;
}.
(** Updates of one field of the driver's state. *)
Definition set_core_id (d : driver) (v : N) : driver :=
  Driver v (d_core_instant d) (d_core_config d) (d_core_leader d) (d_proposals d) (d_tick_period d) (d_snapshot_count d) (d_phase d) (d_messages d) (d_stashed d) (d_id d) (d_instant d) (d_tick_instant d) (d_raft d) (d_snap d) (d_actor d) (d_rstate d) (d_prev d) (d_applied d) (d_conf d) (d_comm d) (d_ephemeral d) (d_lameduck d).
Definition set_core_instant (d : driver) (v : N) : driver :=
  Driver (d_core_id d) v (d_core_config d) (d_core_leader d) (d_proposals d) (d_tick_period d) (d_snapshot_count d) (d_phase d) (d_messages d) (d_stashed d) (d_id d) (d_instant d) (d_tick_instant d) (d_raft d) (d_snap d) (d_actor d) (d_rstate d) (d_prev d) (d_applied d) (d_conf d) (d_comm d) (d_ephemeral d) (d_lameduck d).
Definition set_core_config (d : driver) (v : bytes) : driver :=
  Driver (d_core_id d) (d_core_instant d) v (d_core_leader d) (d_proposals d) (d_tick_period d) (d_snapshot_count d) (d_phase d) (d_messages d) (d_stashed d) (d_id d) (d_instant d) (d_tick_instant d) (d_raft d) (d_snap d) (d_actor d) (d_rstate d) (d_prev d) (d_applied d) (d_conf d) (d_comm d) (d_ephemeral d) (d_lameduck d).
Definition set_core_leader (d : driver) (v : bool) : driver :=
  Driver (d_core_id d) (d_core_instant d) (d_core_config d) v (d_proposals d) (d_tick_period d) (d_snapshot_count d) (d_phase d) (d_messages d) (d_stashed d) (d_id d) (d_instant d) (d_tick_instant d) (d_raft d) (d_snap d) (d_actor d) (d_rstate d) (d_prev d) (d_applied d) (d_conf d) (d_comm d) (d_ephemeral d) (d_lameduck d).
Definition set_proposals (d : driver) (v : list bytes) : driver :=
  Driver (d_core_id d) (d_core_instant d) (d_core_config d) (d_core_leader d) v (d_tick_period d) (d_snapshot_count d) (d_phase d) (d_messages d) (d_stashed d) (d_id d) (d_instant d) (d_tick_instant d) (d_raft d) (d_snap d) (d_actor d) (d_rstate d) (d_prev d) (d_applied d) (d_conf d) (d_comm d) (d_ephemeral d) (d_lameduck d).
Definition set_tick_period (d : driver) (v : N) : driver :=
  Driver (d_core_id d) (d_core_instant d) (d_core_config d) (d_core_leader d) (d_proposals d) v (d_snapshot_count d) (d_phase d) (d_messages d) (d_stashed d) (d_id d) (d_instant d) (d_tick_instant d) (d_raft d) (d_snap d) (d_actor d) (d_rstate d) (d_prev d) (d_applied d) (d_conf d) (d_comm d) (d_ephemeral d) (d_lameduck d).
Definition set_snapshot_count (d : driver) (v : N) : driver :=
  Driver (d_core_id d) (d_core_instant d) (d_core_config d) (d_core_leader d) (d_proposals d) (d_tick_period d) v (d_phase d) (d_messages d) (d_stashed d) (d_id d) (d_instant d) (d_tick_instant d) (d_raft d) (d_snap d) (d_actor d) (d_rstate d) (d_prev d) (d_applied d) (d_conf d) (d_comm d) (d_ephemeral d) (d_lameduck d).
Definition set_phase (d : driver) (v : driver_phase) : driver :=
  Driver (d_core_id d) (d_core_instant d) (d_core_config d) (d_core_leader d) (d_proposals d) (d_tick_period d) (d_snapshot_count d) v (d_messages d) (d_stashed d) (d_id d) (d_instant d) (d_tick_instant d) (d_raft d) (d_snap d) (d_actor d) (d_rstate d) (d_prev d) (d_applied d) (d_conf d) (d_comm d) (d_ephemeral d) (d_lameduck d).
Definition set_messages (d : driver) (v : list (host_out REQ RESP)) : driver :=
  Driver (d_core_id d) (d_core_instant d) (d_core_config d) (d_core_leader d) (d_proposals d) (d_tick_period d) (d_snapshot_count d) (d_phase d) v (d_stashed d) (d_id d) (d_instant d) (d_tick_instant d) (d_raft d) (d_snap d) (d_actor d) (d_rstate d) (d_prev d) (d_applied d) (d_conf d) (d_comm d) (d_ephemeral d) (d_lameduck d).
Definition set_stashed (d : driver) (v : list rmsg) : driver :=
  Driver (d_core_id d) (d_core_instant d) (d_core_config d) (d_core_leader d) (d_proposals d) (d_tick_period d) (d_snapshot_count d) (d_phase d) (d_messages d) v (d_id d) (d_instant d) (d_tick_instant d) (d_raft d) (d_snap d) (d_actor d) (d_rstate d) (d_prev d) (d_applied d) (d_conf d) (d_comm d) (d_ephemeral d) (d_lameduck d).
Definition set_id (d : driver) (v : N) : driver :=
  Driver (d_core_id d) (d_core_instant d) (d_core_config d) (d_core_leader d) (d_proposals d) (d_tick_period d) (d_snapshot_count d) (d_phase d) (d_messages d) (d_stashed d) v (d_instant d) (d_tick_instant d) (d_raft d) (d_snap d) (d_actor d) (d_rstate d) (d_prev d) (d_applied d) (d_conf d) (d_comm d) (d_ephemeral d) (d_lameduck d).
Definition set_instant (d : driver) (v : N) : driver :=
  Driver (d_core_id d) (d_core_instant d) (d_core_config d) (d_core_leader d) (d_proposals d) (d_tick_period d) (d_snapshot_count d) (d_phase d) (d_messages d) (d_stashed d) (d_id d) v (d_tick_instant d) (d_raft d) (d_snap d) (d_actor d) (d_rstate d) (d_prev d) (d_applied d) (d_conf d) (d_comm d) (d_ephemeral d) (d_lameduck d).
Definition set_tick_instant (d : driver) (v : N) : driver :=
  Driver (d_core_id d) (d_core_instant d) (d_core_config d) (d_core_leader d) (d_proposals d) (d_tick_period d) (d_snapshot_count d) (d_phase d) (d_messages d) (d_stashed d) (d_id d) (d_instant d) v (d_raft d) (d_snap d) (d_actor d) (d_rstate d) (d_prev d) (d_applied d) (d_conf d) (d_comm d) (d_ephemeral d) (d_lameduck d).
Definition set_raft (d : driver) (v : RS) : driver :=
  Driver (d_core_id d) (d_core_instant d) (d_core_config d) (d_core_leader d) (d_proposals d) (d_tick_period d) (d_snapshot_count d) (d_phase d) (d_messages d) (d_stashed d) (d_id d) (d_instant d) (d_tick_instant d) v (d_snap d) (d_actor d) (d_rstate d) (d_prev d) (d_applied d) (d_conf d) (d_comm d) (d_ephemeral d) (d_lameduck d).
Definition set_snap (d : driver) (v : SP) : driver :=
  Driver (d_core_id d) (d_core_instant d) (d_core_config d) (d_core_leader d) (d_proposals d) (d_tick_period d) (d_snapshot_count d) (d_phase d) (d_messages d) (d_stashed d) (d_id d) (d_instant d) (d_tick_instant d) (d_raft d) v (d_actor d) (d_rstate d) (d_prev d) (d_applied d) (d_conf d) (d_comm d) (d_ephemeral d) (d_lameduck d).
Definition set_actor (d : driver) (v : option ST) : driver :=
  Driver (d_core_id d) (d_core_instant d) (d_core_config d) (d_core_leader d) (d_proposals d) (d_tick_period d) (d_snapshot_count d) (d_phase d) (d_messages d) (d_stashed d) (d_id d) (d_instant d) (d_tick_instant d) (d_raft d) (d_snap d) v (d_rstate d) (d_prev d) (d_applied d) (d_conf d) (d_comm d) (d_ephemeral d) (d_lameduck d).
Definition set_rstate (d : driver) (v : raft_st) : driver :=
  Driver (d_core_id d) (d_core_instant d) (d_core_config d) (d_core_leader d) (d_proposals d) (d_tick_period d) (d_snapshot_count d) (d_phase d) (d_messages d) (d_stashed d) (d_id d) (d_instant d) (d_tick_instant d) (d_raft d) (d_snap d) (d_actor d) v (d_prev d) (d_applied d) (d_conf d) (d_comm d) (d_ephemeral d) (d_lameduck d).
Definition set_prev (d : driver) (v : raft_st) : driver :=
  Driver (d_core_id d) (d_core_instant d) (d_core_config d) (d_core_leader d) (d_proposals d) (d_tick_period d) (d_snapshot_count d) (d_phase d) (d_messages d) (d_stashed d) (d_id d) (d_instant d) (d_tick_instant d) (d_raft d) (d_snap d) (d_actor d) (d_rstate d) v (d_applied d) (d_conf d) (d_comm d) (d_ephemeral d) (d_lameduck d).
Definition set_applied (d : driver) (v : N) : driver :=
  Driver (d_core_id d) (d_core_instant d) (d_core_config d) (d_core_leader d) (d_proposals d) (d_tick_period d) (d_snapshot_count d) (d_phase d) (d_messages d) (d_stashed d) (d_id d) (d_instant d) (d_tick_instant d) (d_raft d) (d_snap d) (d_actor d) (d_rstate d) (d_prev d) v (d_conf d) (d_comm d) (d_ephemeral d) (d_lameduck d).
Definition set_conf (d : driver) (v : conf_state) : driver :=
  Driver (d_core_id d) (d_core_instant d) (d_core_config d) (d_core_leader d) (d_proposals d) (d_tick_period d) (d_snapshot_count d) (d_phase d) (d_messages d) (d_stashed d) (d_id d) (d_instant d) (d_tick_instant d) (d_raft d) (d_snap d) (d_actor d) (d_rstate d) (d_prev d) (d_applied d) v (d_comm d) (d_ephemeral d) (d_lameduck d).
Definition set_comm (d : driver) (v : CS) : driver :=
  Driver (d_core_id d) (d_core_instant d) (d_core_config d) (d_core_leader d) (d_proposals d) (d_tick_period d) (d_snapshot_count d) (d_phase d) (d_messages d) (d_stashed d) (d_id d) (d_instant d) (d_tick_instant d) (d_raft d) (d_snap d) (d_actor d) (d_rstate d) (d_prev d) (d_applied d) (d_conf d) v (d_ephemeral d) (d_lameduck d).
Definition set_ephemeral (d : driver) (v : bool) : driver :=
  Driver (d_core_id d) (d_core_instant d) (d_core_config d) (d_core_leader d) (d_proposals d) (d_tick_period d) (d_snapshot_count d) (d_phase d) (d_messages d) (d_stashed d) (d_id d) (d_instant d) (d_tick_instant d) (d_raft d) (d_snap d) (d_actor d) (d_rstate d) (d_prev d) (d_applied d) (d_conf d) (d_comm d) v (d_lameduck d).
Definition set_lameduck (d : driver) (v : bool) : driver :=
  Driver (d_core_id d) (d_core_instant d) (d_core_config d) (d_core_leader d) (d_proposals d) (d_tick_period d) (d_snapshot_count d) (d_phase d) (d_messages d) (d_stashed d) (d_id d) (d_instant d) (d_tick_instant d) (d_raft d) (d_snap d) (d_actor d) (d_rstate d) (d_prev d) (d_applied d) (d_conf d) (d_comm d) (d_ephemeral d) v.

(** driver.rs 212-256 new. *)
Definition driver_new (r : RS) (s : SP) (c : CS) : driver :=
  Driver 0 0 [] false [] 100 1000 Created [] [] 0 0 0 r s None raft_st0 raft_st0 0 (conf_of_voters []) c false false.

(** driver.rs 1248-1254 stash_message and stash_snapshot. *)
Definition stash (d : driver) (m : host_out REQ RESP) : driver := set_messages d (d_messages d ++ [m]).
Definition stash_apps (d : driver) (cs : list actor_command) : driver :=
  set_messages d (d_messages d ++ map OApp cs).
Definition stash_snapshot (d : driver) (m : rmsg) : driver := set_stashed d (d_stashed d ++ [m]).

(** driver.rs 119-135: the context the application sees. *)
Definition context (d : driver) : actor_context :=
  ActorCtx (d_core_id d) (d_core_instant d) (d_core_config d) (d_core_leader d).

(** driver.rs 330-337 get_raft_state. *)
Definition get_raft_state (d : driver) : raft_st :=
  let s := ra_state rops (d_raft d) in
  if rf_leader s =? d_id d
  then RaftSt (rf_leader s) (rf_term s) (cs_voters (d_conf d)) (rf_pending s)
  else s.

(** driver.rs 262-324 initialize_raft_node. *)
Definition initialize_raft_node (d : driver) (config : option raft_config) (snapshot : bytes) (leader : bool)
  : res pal_error driver :=
  let d :=
    match config with
    | Some c =>
      let d := set_tick_period d (rc_tick_period c) in
      match rc_snapshot c with Some s => set_snapshot_count d (sc_count s) | None => d end
    | None => d
    end in
  let! r := or_fail PalRaft (ra_init rops (d_raft d) (d_id d) config snapshot leader (d_snapshot_count d)) in
  let d := set_raft d r in
  let d := if leader then set_conf (set_applied d 1) (conf_of_voters [d_id d]) else d in
  let d := set_tick_instant d (d_instant d) in
  Ok (set_prev d (get_raft_state d)).

(** driver.rs 339-383 make_raft_step: the two checks only log a warning. *)
Definition make_raft_step (d : driver) (sender recipient : N) (contents : bytes) : res pal_error driver :=
  match dec_rmsg codec contents with
  | None => Ok d
  | Some m =>
    match ra_step rops (d_raft d) m with
    | (r, true) => Ok (set_raft d r)
    | (_, false) => Err PalRaft
    end
  end.

(** driver.rs 385-389 make_raft_proposal. *)
Definition make_raft_proposal (d : driver) (p : bytes) : res pal_error driver :=
  let! r := or_abort (ra_propose rops (d_raft d) p) in Ok (set_raft d r).

(** driver.rs 391-413 make_raft_config_change_proposal. *)
Definition make_config_change (d : driver) (node : N) (t : change_type) : res pal_error (driver * change_status) :=
  match ra_propose_change rops (d_raft d) (ConfChange t node) with
  | (r, None) => Ok (set_raft d r, ChangePending)
  | (r, Some ProposalDropped) => Ok (set_raft d r, ChangeRejected)
  | (_, Some RaftOther) => Err PalRaft
  end.

(** driver.rs 415-423 trigger_raft_tick. *)
Definition trigger_raft_tick (d : driver) : driver :=
  if d_tick_period d <=? d_instant d - d_tick_instant d
  then set_raft (set_tick_instant d (d_instant d)) (ra_tick rops (d_raft d))
  else d.

(** driver.rs 441-470: a committed configuration change. *)
Definition apply_change_entry (d : driver) (e : rentry) : res pal_error driver :=
  match dec_change codec (re_data e) with
  | None => Err PalRaft
  | Some c =>
    let! (r, conf) := or_fail PalRaft (ra_apply_change rops (d_raft d) c) in
    Ok (set_conf (set_raft d r) conf)
  end.

(** driver.rs 471-510: a committed event. *)
Definition apply_event_entry (d : driver) (e : rentry) : res pal_error driver :=
  match dec_entry codec (re_data e) with
  | None => Err PalRaft
  | Some en =>
    let! i := unwrap (en_id en) in
    let! st := unwrap (d_actor d) in
    let! (st, out) := or_fail PalActor
      (a_apply app st (EventContext (re_index e) (ei_replica i =? d_id d))
         (ActorEvent (ei_entry i) (en_contents en))) in
    Ok (stash_apps (set_actor d (Some st)) out)
  end.

(** driver.rs 431-511: the body of the loop. *)
Definition apply_entry (d : driver) (e : rentry) : res pal_error driver :=
  let d := set_applied d (re_index e) in
  match re_data e with
  | [] => Ok d
  | _ =>
    match re_type e with
    | EntryConfChange => apply_change_entry d e
    | _ => apply_event_entry d e
    end
  end.
Fixpoint apply_entries (d : driver) (es : list rentry) : res pal_error driver :=
  match es with
  | [] => Ok d
  | e :: es => let! d := apply_entry d e in apply_entries d es
  end.

(** driver.rs 425-514 apply_raft_committed_entries. *)
Definition entry_le (a b : rentry) : Prop := re_index a <= re_index b.
#[global] Instance entry_le_dec a b : Decision (entry_le a b).
Proof. unfold entry_le. apply _. Defined.
Definition apply_committed (d : driver) (es : list rentry) : res pal_error driver :=
  apply_entries d (merge_sort entry_le es).

(** driver.rs 516-542 send_raft_messages. *)
Definition system_message (d : driver) (m : rmsg) : out_msg :=
  OutMsg (PeerMsg KSystem (rm_to m) (d_id d) 0 (Some (Payload (enc_rmsg codec m) [])))
         (bool_decide (rm_type m = MsgHeartbeat)).
Fixpoint send_raft_messages (d : driver) (ms : list rmsg) : res pal_error driver :=
  match ms with
  | [] => Ok d
  | m :: ms =>
    if decide (rm_type m = MsgSnapshot) then send_raft_messages (stash_snapshot d m) ms
    else
      let! c := co_out cops (d_comm d) (system_message d m) in
      send_raft_messages (set_comm d c) ms
  end.

(** driver.rs 544-581 restore_raft_snapshot. A snapshot is empty when its index
    is zero (raft crate). *)
Definition restore_raft_snapshot (d : driver) (s : snapshot) : res pal_error driver :=
  if sn_index s =? 0 then Ok d
  else
    let d := set_conf d (sn_conf s) in
    let! r := or_fail PalRaft (ra_apply_snapshot rops (d_raft d) s) in
    let d := set_raft d r in
    let! st := unwrap (d_actor d) in
    let! st := or_fail PalActor (a_load app st (sn_data s)) in
    Ok (set_applied (set_actor d (Some st)) (sn_index s)).

(** driver.rs 583-607 maybe_create_raft_snapshot. *)
Definition maybe_create_snapshot (d : driver) : res pal_error driver :=
  if negb (ra_should_snapshot rops (d_raft d) (d_applied d) (d_conf d)) then Ok d
  else
    let! st := unwrap (d_actor d) in
    let! data := or_fail PalActor (a_save app st) in
    let! r := or_fail PalActor (ra_create_snapshot rops (d_raft d) (d_applied d) (d_conf d) data) in
    Ok (set_raft d r).

(** driver.rs 609-672 advance_raft. *)
Definition advance_raft (d : driver) : res pal_error driver :=
  let d := if negb (d_lameduck d) then trigger_raft_tick d else d in
  if negb (ra_has_ready rops (d_raft d)) then Ok d
  else
    let '(r, rd) := ra_get_ready rops (d_raft d) in
    let d := set_raft d r in
    let! d := send_raft_messages d (rd_messages rd) in
    let d := match rd_hard rd with
             | Some h => set_raft d (ra_set_hard rops (d_raft d) h)
             | None => d
             end in
    let! d := restore_raft_snapshot d (rd_snapshot rd) in
    let! d := apply_committed d (rd_committed rd) in
    let! d := send_raft_messages d (rd_persisted rd) in
    let! d :=
      match rd_entries rd with
      | [] => Ok d
      | es => let! r := or_fail PalActor (ra_append rops (d_raft d) es) in Ok (set_raft d r)
      end in
    let '(r, lr) := ra_advance rops (d_raft d) (rd_number rd) in
    let d := set_raft d r in
    let! d := send_raft_messages d (lr_messages lr) in
    let! d := apply_committed d (lr_committed lr) in
    Ok (set_raft d (ra_advance_apply rops (d_raft d))).

(** driver.rs 921-937 update_snapshot_cluster_change. *)
Definition report_all (r : RS) (l : list (N * snap_status)) : RS :=
  foldl (fun r '(replica, s) => ra_report rops r replica s) r l.
Definition update_snapshot_cluster (d : driver) : res pal_error driver :=
  if decide (d_phase d = Started) then
    let! (s, l) := or_abort
      (sp_cluster sops (d_snap d) (rf_leader (d_rstate d)) (rf_term (d_rstate d)) (rf_config (d_rstate d))) in
    Ok (set_raft (set_snap d s) (report_all (d_raft d) l))
  else Ok d.

(** driver.rs 682-705 stash_leader_state. *)
Definition stash_leader_state (d : driver) : res pal_error driver :=
  let d := set_rstate d (get_raft_state d) in
  if decide (d_prev d = d_rstate d) then Ok d
  else
    let d := set_prev d (d_rstate d) in
    let! d := update_snapshot_cluster d in
    let d := set_comm d (co_cluster cops (d_comm d) (cs_voters (d_conf d))) in
    let s := d_rstate d in
    Ok (stash d (OCluster (rf_leader s) (rf_term s) (rf_config s) (rf_pending s))).

(** driver.rs 707-714 preset_state_machine. *)
Definition preset (d : driver) (instant : N) : driver :=
  let d := set_prev d (d_rstate d) in
  let d := set_instant d (N.max (d_instant d) instant) in
  set_core_leader (set_core_instant d (d_instant d)) (ra_leader rops (d_raft d)).

(** driver.rs 716-733. *)
Definition check_phase (d : driver) (p : driver_phase) : res pal_error unit :=
  if decide (d_phase d = p) then Ok tt else Err InvalidOperation.
Definition check_non_ephemeral (d : driver) : res pal_error unit :=
  if d_ephemeral d then Err InvalidOperation else Ok tt.

(** driver.rs 740-827 process_start_node with initialize_driver (735-738). *)
Definition process_start (d : driver) (q : start_request) : res pal_error driver :=
  let! _ := check_phase d Created in
  let d := set_id d (sr_id q) in
  let d := set_core_config (set_core_id d (d_id d)) (sr_config q) in
  let! st := or_fail PalActor (a_init app (context d)) in
  let d := set_ephemeral (set_actor d (Some st)) (sr_ephemeral q) in
  let! d :=
    if d_ephemeral d then Ok d
    else
      let! data := or_fail PalActor (a_save app st) in
      let! s := or_abort (sp_init sops (d_snap d) (d_id d)
        (match sr_raft q with
         | Some c => (fun s => (sc_chunk_size s, sc_max_pending s)) <$> rc_snapshot c
         | None => None
         end)) in
      initialize_raft_node (set_snap d s) (sr_raft q) data (sr_leader q) in
  let '(retry, timeout) :=
    match sr_raft q with
    | Some c => (rc_handshake_retry c, rc_heartbeat_tick c * 10)
    | None => (1, 10)
    end in
  if negb (sr_endorsements q) then Panic
  else
    let d := set_comm d (co_init cops (d_comm d) (d_id d) retry timeout) in
    Ok (stash (set_phase d Started) (OStarted (d_id d))).

(** driver.rs 829-844 process_stop_node; what [on_shutdown] does to the
    application is left out. *)
Definition process_stop (d : driver) : res pal_error driver :=
  if decide (d_phase d = Stopped) then Ok d
  else Ok (stash (set_phase d Stopped) OStopped).

(** driver.rs 846-876 process_change_cluster. *)
Definition process_change (d : driver) (q : change_request) : res pal_error driver :=
  let! _ := check_phase d Started in
  let! _ := check_non_ephemeral d in
  let! (d, status) :=
    if cr_type q =? 1 then make_config_change d (cr_replica q) AddNode
    else if cr_type q =? 2 then make_config_change d (cr_replica q) RemoveNode
    else Ok (d, ChangeRejected) in
  Ok (stash d (OChange (cr_id q) status)).

(** driver.rs 878-888 process_check_cluster. *)
Definition process_check (d : driver) : res pal_error driver :=
  let! _ := check_phase d Started in
  let! _ := check_non_ephemeral d in
  Ok (set_prev d raft_st0).

(** driver.rs 890-919 process_deliver_system_message. *)
Definition process_system (d : driver) (m : peer_msg) : res pal_error driver :=
  let! _ := check_phase d Started in
  let! _ := check_non_ephemeral d in
  let! (c, r) := co_in cops (d_comm d) (IPeer m) in
  let d := set_comm d c in
  match r with
  | None => Ok d
  | Some (IPeer m) =>
    match pm_kind m with
    | KSystem =>
      let! p := unwrap (pm_payload m) in
      make_raft_step d (pm_sender m) (pm_recipient m) (pl_contents p)
    | _ => Err Internal
    end
  | Some _ => Err Internal
  end.

(** driver.rs 939-977 process_deliver_snapshot_request. *)
Definition process_snapshot_request (d : driver) (m : peer_msg) : res pal_error driver :=
  let! _ := check_non_ephemeral d in
  let! (c, r) := co_in cops (d_comm d) (IPeer m) in
  let d := set_comm d c in
  match r with
  | None => Ok d
  | Some (IPeer m) =>
    match pm_kind m with
    | KSnapshotRequest =>
      let! role := or_abort (sp_role sops (d_snap d) (d_instant d)) in
      let! (d, answer) :=
        match role with
        | RoleSender =>
          let! answer := or_abort (sp_unexpected sops (d_snap d) m) in Ok (d, answer)
        | RoleReceiver =>
          let! (s, answer) := or_abort (sp_request sops (d_snap d) m) in Ok (set_snap d s, answer)
        end in
      let! c := co_out cops (d_comm d) (OutMsg answer false) in
      Ok (set_comm d c)
    | _ => Err Internal
    end
  | Some _ => Err Internal
  end.

(** driver.rs 979-1015 process_deliver_snapshot_response. *)
Definition process_snapshot_response (d : driver) (m : peer_msg) : res pal_error driver :=
  let! _ := check_non_ephemeral d in
  let! (c, r) := co_in cops (d_comm d) (IPeer m) in
  let d := set_comm d c in
  match r with
  | None => Ok d
  | Some (IPeer m) =>
    match pm_kind m with
    | KSnapshotResponse =>
      let! role := or_abort (sp_role sops (d_snap d) (d_instant d)) in
      match role with
      | RoleSender =>
        let! s := or_abort (sp_response sops (d_snap d) (pm_sender m) (pm_delivery m) (Some m)) in
        Ok (set_snap d s)
      | RoleReceiver => Ok d
      end
    | _ => Err Internal
    end
  | Some _ => Err Internal
  end.

(** driver.rs 1017-1037 process_deliver_snapshot_failure. *)
Definition process_snapshot_failure (d : driver) (sender delivery : N) : res pal_error driver :=
  let! _ := check_non_ephemeral d in
  let! role := or_abort (sp_role sops (d_snap d) (d_instant d)) in
  match role with
  | RoleSender =>
    let! s := or_abort (sp_response sops (d_snap d) sender delivery None) in Ok (set_snap d s)
  | RoleReceiver => Ok d
  end.

(** driver.rs 1039-1074 process_snapshot_progress; an error of the step is only
    logged. *)
Definition process_snapshot_progress (d : driver) : res pal_error driver :=
  if decide (d_phase d = Started) then
    let! role := or_abort (sp_role sops (d_snap d) (d_instant d)) in
    match role with
    | RoleSender =>
      let! (s, r) := or_abort (sp_sent sops (d_snap d)) in
      let d := set_snap d s in
      match r with
      | Some (replica, status) => Ok (set_raft d (ra_report rops (d_raft d) replica status))
      | None => Ok d
      end
    | RoleReceiver =>
      let! (s, r) := or_abort (sp_received sops (d_snap d)) in
      let d := set_snap d s in
      match r with
      | Some (Some (sender, snapshot)) =>
        Ok (set_raft d (fst (ra_step rops (d_raft d) (snapshot_message sender (d_id d) snapshot))))
      | _ => Ok d
      end
    end
  else Ok d.

(** driver.rs 1083-1089: the transfers are started, then the requests that are
    ready are collected. *)
Fixpoint start_all (s : SP) (ms : list rmsg) : res pal_error SP :=
  match ms with
  | [] => Ok s
  | m :: ms =>
    let! sn := unwrap (rm_snapshot m) in
    let! s := or_abort (sp_start sops s (rm_to m) sn) in
    start_all s ms
  end.
Fixpoint drain (fuel : nat) (s : SP) : res pal_error (SP * list peer_msg) :=
  match fuel with
  | O => Ok (s, [])
  | S fuel =>
    let! (s, r) := or_abort (sp_next sops s) in
    match r with
    | None => Ok (s, [])
    | Some m => let! (s, ms) := drain fuel s in Ok (s, m :: ms)
    end
  end.
Fixpoint send_all (c : CS) (ms : list peer_msg) : res pal_error CS :=
  match ms with
  | [] => Ok c
  | m :: ms => let! c := co_out cops c (OutMsg m false) in send_all c ms
  end.
(** driver.rs 1076-1109 process_snapshot_sending. *)
Definition process_snapshot_sending (d : driver) : res pal_error driver :=
  let ms := d_stashed d in
  let d := set_stashed d [] in
  let! role := or_abort (sp_role sops (d_snap d) (d_instant d)) in
  match role with
  | RoleSender =>
    let! s := start_all (d_snap d) ms in
    let! (s, out) := drain (sp_drain sops s) s in
    let! c := send_all (d_comm d) out in
    Ok (set_comm (set_snap d s) c)
  | RoleReceiver =>
    Ok (set_raft d (foldl (fun r m => ra_report rops r (rm_to m) Failure) (d_raft d) ms))
  end.

(** driver.rs 1111-1178 process_deliver_app_message. *)
Definition process_app (d : driver) (m : option actor_command) : res pal_error driver :=
  let! _ := check_phase d Started in
  let! st := unwrap (d_actor d) in
  let! (st, out) := or_fail PalActor (a_command app (context d) st m) in
  let d := stash_apps (set_actor d (Some st)) (co_commands out) in
  match co_event out with
  | None => Ok d
  | Some ev =>
    if d_ephemeral d then
      let! (st, out) := or_fail PalActor (a_apply app st (EventContext 0 true) ev) in
      Ok (stash_apps (set_actor d (Some st)) out)
    else
      Ok (set_proposals d (d_proposals d ++
        [enc_entry codec (Entry (Some (EntryId (ae_correlation ev) (d_id d))) (ae_contents ev))]))
  end.

(** driver.rs 1180-1199 process_get_replica_state. *)
Definition process_get_state (d : driver) : res pal_error driver :=
  let! _ := check_phase d Started in
  if d_ephemeral d then Ok (stash d (OState 0 0))
  else Ok (stash d (OState (d_applied d) (ra_snapshot_size rops (d_raft d)))).

(** driver.rs 1201-1212 process_secure_channel_handshake. *)
Definition process_handshake (d : driver) (m : hs_msg REQ RESP) : res pal_error driver :=
  let! _ := check_phase d Started in
  let! (c, _) := co_in cops (d_comm d) (IHandshake m) in
  Ok (set_comm d c).

(** driver.rs 1214-1220 process_actor_raft_proposals. *)
Fixpoint propose_all (d : driver) (ps : list bytes) : res pal_error driver :=
  match ps with
  | [] => Ok d
  | p :: ps => let! d := make_raft_proposal d p in propose_all d ps
  end.
Definition process_proposals (d : driver) : res pal_error driver :=
  propose_all (set_proposals d []) (d_proposals d).

(** driver.rs 1222-1235 process_state_machine. *)
Definition process_state_machine (d : driver) : res pal_error driver :=
  if ra_initialized rops (d_raft d) then
    let! d := advance_raft d in
    let! d := maybe_create_snapshot d in
    stash_leader_state d
  else Ok d.

(** driver.rs 1292-1337: the dispatch of a message; an application message is
    only kept for later. *)
Definition dispatch (d : driver) (m : host_in REQ RESP) : res pal_error driver :=
  match m with
  | HStart q => process_start d q
  | HStop => process_stop d
  | HLameduck => Ok (set_lameduck d true)
  | HChange q => process_change d q
  | HCheck => process_check d
  | HPeer m =>
    match pm_kind m with
    | KSystem => process_system d m
    | KSnapshotRequest => process_snapshot_request d m
    | KSnapshotResponse => process_snapshot_response d m
    end
  | HSnapshotFailure sender delivery => process_snapshot_failure d sender delivery
  | HGetState => process_get_state d
  | HHandshake m => process_handshake d m
  | HApp _ => Ok d
  end.

(** driver.rs 1338-1359: the rest of the call. *)
Definition run_app (d : driver) (m : option actor_command) : res pal_error driver :=
  if decide (d_phase d = Started) then
    let! d := process_app d m in
    Ok (set_comm d (co_tick cops (d_comm d)))
  else Ok d.
Definition run_replication (d : driver) : res pal_error driver :=
  if d_ephemeral d then Ok d
  else
    let! d := process_proposals d in
    let! d := process_snapshot_progress d in
    let! d := process_state_machine d in
    process_snapshot_sending d.
Definition flush (d : driver) : res pal_error (driver * list (host_out REQ RESP)) :=
  let! (c, ws) := co_take cops (d_comm d) in
  let d := set_comm d c in
  Ok (set_messages d [], d_messages d ++ map OWire ws).

(** driver.rs 1271-1361 receive_message: [None] is a clock signal, [Some None]
    a message that is not set. Returns the messages sent to the host. *)
Definition app_message (m : host_in REQ RESP) : option actor_command :=
  match m with HApp m => Some m | _ => None end.
Definition receive_message (d : driver) (instant : N) (m : option (option (host_in REQ RESP)))
  : res pal_error (driver * list (host_out REQ RESP)) :=
  let d := preset d instant in
  match m with
  | Some None => Ok (d, [])
  | _ =>
    let! d := match m with Some (Some m) => dispatch d m | _ => Ok d end in
    let! d := run_app d (match m with Some (Some m) => app_message m | _ => None end) in
    let! d := run_replication d in
    flush d
  end.
End Driver.
Arguments driver : clear implicits.
