(** The parts of a replica put together: the driver runs over the snapshot
    processor and the communication module of the code, which gets its sessions
    from the session factory (runtime/src/service.rs 84-107).

    Simplifications, for the whole file:
    - the iteration order of a hash map and the randomness of a session may be
      different in every call: the states carry the number of calls so far, and
      orders and randomness are functions of it;
    - protobuf encoding of chunks and acknowledgements is a pair of functions
      without assumed properties. *)
From Verif Require Import Base StorageModel SnapshotModel CommModel ActorModel DriverModel SessionModel.

(** ** The snapshot processor as the driver uses it *)
Section Snap.
Variable enc_meta : snap_meta -> bytes.
Variable dec_meta : bytes -> option snap_meta.
Variable enc_content : content -> bytes.
Variable dec_content : bytes -> option content.
Variable enc_ack : ack -> bytes.
Variable dec_ack : bytes -> option ack.
(** The iteration order of the sender's transfers in the n-th call. *)
Variable order : N -> gmap N sender_state -> list N.

(** endpoint.proto DeliverSnapshotRequest and DeliverSnapshotResponse: the
    messages of the communication module and those of the snapshot processor;
    the payload is decoded where the processor does it (snapshot.rs 471, 680,
    858). *)
Definition request_of (m : peer_msg) : drequest :=
  DRequest (pm_recipient m) (pm_sender m) (pm_delivery m)
    ((fun p => dec_content (pl_contents p)) <$> pm_payload m).
Definition response_of (m : peer_msg) : dresponse :=
  DResponse (pm_recipient m) (pm_sender m) (pm_delivery m)
    ((fun p => dec_ack (pl_contents p)) <$> pm_payload m).
(** snapshot.rs 646-655, 698-711, 927-940: requests and responses carry an encoded
    payload without a nonce. *)
Definition encoded {A} (enc : A -> bytes) (p : option (option A)) : option payload :=
  match p with Some (Some a) => Some (Payload (enc a) []) | _ => None end.
Definition of_request (q : drequest) : peer_msg :=
  PeerMsg KSnapshotRequest (dq_recipient q) (dq_sender q) (dq_delivery q) (encoded enc_content (dq_payload q)).
Definition of_response (r : dresponse) : peer_msg :=
  PeerMsg KSnapshotResponse (dp_recipient r) (dp_sender r) (dp_delivery r) (encoded enc_ack (dp_payload r)).

(** The processor and the number of calls so far. *)
Record snapper := Snapper { sp_processor : processor; sp_calls : N }.
Definition snapper_new : snapper := Snapper processor_new 0.

(** A call without errors. *)
Definition no_error {A} (r : pan A) : res unit A :=
  match r with Ok a => Ok a | Err _ => Panic | Panic => Panic end.
Definition with_sender (s : snapper) (x : sender) : snapper :=
  let p := sp_processor s in
  Snapper (Processor (pr_replica_id p) (pr_leader_id p) (pr_leader_term p) (pr_state p) x (pr_receiver p))
    (sp_calls s + 1).
Definition with_receiver (s : snapper) (x : option receiver_state) : snapper :=
  let p := sp_processor s in
  Snapper (Processor (pr_replica_id p) (pr_leader_id p) (pr_leader_term p) (pr_state p) (pr_sender p) x)
    (sp_calls s + 1).
Definition the_order (s : snapper) : list N := order (sp_calls s) (sd_receivers (pr_sender (sp_processor s))).

(** snapshot.rs 230-337: the methods of the processor, its sender and its
    receiver. The loop that collects requests (driver.rs 1087-1089) ends because
    each of them is pending, of which there are at most the configured number
    ([drained]). *)
Definition real_snap : snap_ops snapper :=
  SnapOps snapper
    (fun s id c => let! p := no_error (processor_init (sp_processor s) id c) in Ok (Snapper p (sp_calls s + 1)))
    (fun s leader term ids =>
       let! (p, l) := no_error (process_cluster_change (sp_processor s) (the_order s) leader term ids) in
       Ok (Snapper p (sp_calls s + 1), l))
    (fun s _ => no_error (processor_role (sp_processor s)))
    (fun s to sn => let! x := no_error (sender_start (pr_sender (sp_processor s)) to sn) in Ok (with_sender s x))
    (fun s =>
       let! (x, q) := no_error (next_request enc_meta (pr_sender (sp_processor s)) (the_order s)) in
       Ok (with_sender s x, of_request <$> q))
    (fun s => S (N.to_nat (sd_max_pending (pr_sender (sp_processor s)))))
    (fun s receiver id m =>
       let! x := no_error (sender_process_response (pr_sender (sp_processor s)) receiver id (response_of <$> m)) in
       Ok (with_sender s x))
    (fun _ m => let! r := no_error (process_unexpected_request (request_of m)) in Ok (of_response r))
    (fun s =>
       let '(x, r) := sender_try_complete (pr_sender (sp_processor s)) (the_order s) in Ok (with_sender s x, r))
    (fun s m =>
       let! (x, r) := no_error (process_request (pr_receiver (sp_processor s)) (request_of m)) in
       Ok (with_receiver s x, of_response r))
    (fun s =>
       let! (x, r) := no_error (receiver_try_complete dec_meta (pr_receiver (sp_processor s))) in
       Ok (with_receiver s x, r)).
End Snap.

(** ** The communication module as the driver uses it *)
Section Comm.
Context {REQ RESP CSN SSN : Type}.
Variable client : oak_ops CSN REQ RESP.
Variable server : oak_ops SSN RESP REQ.
Variable create_client : session_config -> N -> option CSN.
Variable create_server : session_config -> N -> option SSN.
(** What the attester and the binder of the platform answer in the n-th call. *)
Variable attest bind : N -> option bytes.
(** The application's reference values, the clock it provides if any, and the
    endorsements of the start request (driver.rs 808-818). The three are fixed
    while a replica runs: a replica is started only once (C67). *)
Variable values : ref_values.
Variable own_clock : option clock.
Variable endorsements : bytes.

Notation HSN := (hsession CSN + hsession SSN)%type.
Notation ENN := (CSN + SSN)%type.
(** The iteration order of the channels in the n-th call. *)
Variable order : N -> gmap N (chan REQ RESP HSN ENN) -> list N.

(** communication.rs 125-133, with the provider's factory and the number of calls
    so far. *)
Record messenger := Messenger {
  ms_comm : comm REQ RESP HSN ENN;
  ms_factory : factory;
  ms_calls : N;
}.
Definition messenger_new : messenger := Messenger comm_new factory_new 0.

(** handshake.rs 114-134 get over the factory. The module refuses messages until
    it is initialised (communication.rs 151-156), and initialises the factory
    with itself (communication.rs 160-176), so the factory always has a verifier
    here. *)
Definition provide (s : messenger) (peer : N) (r : hs_role) : option HSN :=
  let n := ms_calls s in
  provider_get (cm_id (ms_comm s)) peer
    (match get_client create_client (ms_factory s) (attest n) (bind n) n with Ok x => Some x | _ => None end)
    (match get_server create_server (ms_factory s) (attest n) (bind n) n with Ok x => Some x | _ => None end) r.

(** communication.rs 158-320: the methods of the module. *)
Definition real_comm : comm_ops messenger REQ RESP :=
  CommOps messenger REQ RESP
    (fun s id retry timeout =>
       Messenger (comm_init (ms_comm s) id retry timeout)
         (factory_init (ms_factory s) (default HostClock own_clock) values endorsements) (ms_calls s + 1))
    (fun s m =>
       match comm_out (default_ops client server) (ms_comm s) (provide s (pm_recipient (om_msg m))) m with
       | (c, Ok _) => Ok (Messenger c (ms_factory s) (ms_calls s + 1))
       | (_, Err e) => Err e
       | (_, Panic) => Panic
       end)
    (fun s m =>
       match comm_in (default_ops client server) (ms_comm s) (provide s (default 0 (in_sender m))) m with
       | (c, Ok r) => Ok (Messenger c (ms_factory s) (ms_calls s + 1), r)
       | (_, Err e) => Err e
       | (_, Panic) => Panic
       end)
    (fun s =>
       let! (c, ws) := comm_take (default_ops client server) (ms_comm s) (order (ms_calls s) (cm_replicas (ms_comm s))) in
       Ok (Messenger c (ms_factory s) (ms_calls s + 1), ws))
    (fun s ids => Messenger (comm_cluster_change (ms_comm s) ids) (ms_factory s) (ms_calls s + 1))
    (fun s => Messenger (comm_tick (ms_comm s)) (ms_factory s) (ms_calls s + 1)).
End Comm.
