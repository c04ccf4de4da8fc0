(** Model of the chunked snapshot transfer, runtime/src/snapshot.rs.

    Simplifications, for the whole file:
    - protobuf encoding of chunk payloads and acknowledgements is replaced by
      structured data with an explicit "does not decode" case;
    - u32/u64 counters are unbounded;
    - transfer progress, an f64 quotient in the code, is compared exactly as a
      rational number (the two agree for chunk counts below 2^26);
    - logging, [set_instant] (the instant is never read) and the capacity
      allocated by [BytesMut::with_capacity] are omitted. *)
From Verif Require Import Base StorageModel.

(** A call that may abort the process but returns no error. *)
Notation pan := (res Empty_set).

(** raft SnapshotStatus. *)
Inductive snap_status := Finish | Failure.

(** endpoint.proto 365-374 DeliverSnapshotStatus. *)
Inductive ack_status := AckUnspecified | AckAccepted | AckRejected | AckCorrupted.

(** raft eraftpb::SnapshotMetadata. *)
Record snap_meta := SnapMeta { sm_index : N; sm_term : N; sm_conf : conf_state }.

Definition meta_of (sn : snapshot) : snap_meta :=
  SnapMeta (sn_index sn) (sn_term sn) (sn_conf sn).
Definition snapshot_of (m : snap_meta) (data : bytes) : snapshot :=
  Snapshot (sm_index m) (sm_term m) (sm_conf m) data.

(** endpoint.proto DeliverSnapshotRequest.SnapshotContent. *)
Inductive content_it :=
| CHeader (size : N) (metadata : bytes) (contents : bytes)
| CChunk (index : N) (contents : bytes).
Record content := Content { ct_snapshot_id : N; ct_it : option content_it }.

(** endpoint.proto DeliverSnapshotRequest; the payload may be missing
    ([None]) or fail to decode ([Some None]). *)
Record drequest := DRequest {
  dq_recipient : N;
  dq_sender : N;
  dq_delivery : N;
  dq_payload : option (option content);
}.

(** endpoint.proto DeliverSnapshotResponse.SnapshotAck. *)
Record ack := Ack { ak_snapshot_id : N; ak_chunk_index : N; ak_status : ack_status }.

(** endpoint.proto DeliverSnapshotResponse; payload as above. *)
Record dresponse := DResponse {
  dp_recipient : N;
  dp_sender : N;
  dp_delivery : N;
  dp_payload : option (option ack);
}.

(** snapshot.rs 339-345 chunk_count; division by a zero chunk size aborts. *)
Definition chunk_count (size chunk_size : N) : pan N :=
  if 0 <? size then
    if chunk_size =? 0 then Panic else Ok ((size - 1) / chunk_size + 1)
  else Ok 1.

(** snapshot.rs 347-358 SnapshotSenderState. *)
Record sender_state := SenderState {
  ss_id : N;
  ss_meta : snap_meta;
  ss_data : bytes;
  ss_chunk_size : N;
  ss_count : N;
  ss_next : N;
  ss_sent : N;
  ss_pending : gmap N N;
  ss_status : option snap_status;
}.

(** snapshot.rs 361-383 SnapshotSenderState::new. *)
Definition sender_state_new (id : N) (sn : snapshot) (chunk_size : N) : pan sender_state :=
  let! count := chunk_count (Nlen (sn_data sn)) chunk_size in
  Ok (SenderState id (meta_of sn) (sn_data sn) chunk_size count 0 0 ∅ None).

(** snapshot.rs 394-396 pending_chunks. *)
Definition pending_count (st : sender_state) : N := N.of_nat (size (ss_pending st)).

(** snapshot.rs 385-392 progress, as numerator and denominator. *)
Definition progress (st : sender_state) : N * N :=
  match ss_status st with
  | Some _ => (1, 1)
  | None => (ss_sent st + pending_count st, ss_count st)
  end.

(** Strict comparison of two such fractions. *)
Definition frac_lt (a b : N * N) : bool := fst a * snd b <? fst b * snd a.

Section Codec.
(** Encoding and decoding of the Raft snapshot metadata (protobuf). *)
Variable enc_meta : snap_meta -> bytes.
Variable dec_meta : bytes -> option snap_meta.

(** snapshot.rs 398-454 SnapshotSenderState::next_chunk. [Bytes::slice] aborts
    when the range is reversed. *)
Definition next_chunk (st : sender_state) (delivery : N)
  : pan (sender_state * option content) :=
  match ss_status st with
  | Some _ => Ok (st, None)
  | None =>
    let start := ss_next st * ss_chunk_size st in
    let stop := N.min (Nlen (ss_data st)) (start + ss_chunk_size st) in
    if stop <? start then Panic
    else
      let chunk := take (N.to_nat (stop - start)) (drop (N.to_nat start) (ss_data st)) in
      let it :=
        if ss_next st =? 0
        then CHeader (Nlen (ss_data st)) (enc_meta (ss_meta st)) chunk
        else CChunk (ss_next st) chunk in
      Ok (SenderState (ss_id st) (ss_meta st) (ss_data st) (ss_chunk_size st) (ss_count st)
            (ss_next st + 1) (ss_sent st) (<[delivery := ss_next st]> (ss_pending st)) None,
          Some (Content (ss_id st) (Some it)))
  end.

Definition with_status (st : sender_state) (o : option snap_status) : sender_state :=
  SenderState (ss_id st) (ss_meta st) (ss_data st) (ss_chunk_size st) (ss_count st)
    (ss_next st) (ss_sent st) (ss_pending st) o.

Definition with_pending (st : sender_state) (p : gmap N N) : sender_state :=
  SenderState (ss_id st) (ss_meta st) (ss_data st) (ss_chunk_size st) (ss_count st)
    (ss_next st) (ss_sent st) p (ss_status st).

Definition with_sent (st : sender_state) (n : N) : sender_state :=
  SenderState (ss_id st) (ss_meta st) (ss_data st) (ss_chunk_size st) (ss_count st)
    (ss_next st) n (ss_pending st) (ss_status st).

(** snapshot.rs 456-510 SnapshotSenderState::process_response. [resp] is
    [None] for a delivery error. A missing payload aborts ([unwrap]). The
    pending entry is removed even when it does not match. *)
Definition ss_process_response (st : sender_state) (delivery : N) (resp : option dresponse)
  : pan sender_state :=
  match resp with
  | None => Ok (with_status st (Some Failure))
  | Some r =>
    match dp_payload r with
    | None => Panic
    | Some None => Ok (with_status st (Some Failure))
    | Some (Some a) =>
      if negb (ss_id st =? ak_snapshot_id a) then Ok st
      else if ss_count st <=? ak_chunk_index a then Ok (with_status st (Some Failure))
      else
        let st' := with_pending st (delete delivery (ss_pending st)) in
        if bool_decide (ss_pending st !! delivery = Some (ak_chunk_index a))
        then
          match ak_status a with
          | AckAccepted => Ok (with_sent st' (ss_sent st' + 1))
          | _ => Ok (with_status st' (Some Failure))
          end
        else Ok (with_status st' (Some Failure))
    end
  end.

(** snapshot.rs 512-518 SnapshotSenderState::try_complete, the status it
    returns. (The state is dropped by the caller when it is [Some].) *)
Definition ss_try_complete (st : sender_state) : option snap_status :=
  match ss_status st with
  | Some x => Some x
  | None => if ss_sent st =? ss_count st then Some Finish else None
  end.

(** snapshot.rs 527-541 DefaultSnapshotSender. *)
Record sender := Sender {
  sd_chunk_size : N;
  sd_max_pending : N;
  sd_replica_id : N;
  sd_next_snapshot_id : N;
  sd_next_delivery_id : N;
  sd_receivers : gmap N sender_state;
}.

(** snapshot.rs 543-569 new and init. *)
Definition sender_init (replica_id : N) (config : option (N * N)) : sender :=
  match config with
  | Some (chunk_size, max_pending) => Sender chunk_size max_pending replica_id 1 1 ∅
  | None => Sender (1024 * 1024) 2 replica_id 1 1 ∅
  end.

Definition with_receivers (s : sender) (m : gmap N sender_state) : sender :=
  Sender (sd_chunk_size s) (sd_max_pending s) (sd_replica_id s)
    (sd_next_snapshot_id s) (sd_next_delivery_id s) m.

(** The entries of a hash map in the order [ord] of its keys. *)
Definition in_order {A} (ord : list N) (m : gmap N A) : list (N * A) :=
  omap (fun k => match m !! k with Some v => Some (k, v) | None => None end) ord.

(** snapshot.rs 575-588 reset, for the iteration order [ord]. *)
Definition sender_reset (s : sender) (ord : list N) : sender * list (N * snap_status) :=
  (with_receivers s ∅,
   map (fun '(k, _) => (k, Failure)) (in_order ord (sd_receivers s))).

(** snapshot.rs 592-612 start. *)
Definition sender_start (s : sender) (receiver : N) (sn : snapshot) : pan sender :=
  let! st := sender_state_new (sd_next_snapshot_id s) sn (sd_chunk_size s) in
  Ok (Sender (sd_chunk_size s) (sd_max_pending s) (sd_replica_id s)
        (sd_next_snapshot_id s + 1) (sd_next_delivery_id s)
        (<[receiver := st]> (sd_receivers s))).

(** snapshot.rs 618-627: the selection loop. Accumulator: selected receiver,
    least progress so far, number of pending chunks. *)
Fixpoint select_receiver (l : list (N * sender_state)) (acc : N * (N * N) * N)
  : N * (N * N) * N :=
  match l with
  | [] => acc
  | (id, st) :: l' =>
    let '(sel, min, pend) := acc in
    let pend' := pend + pending_count st in
    if frac_lt (progress st) min
    then select_receiver l' (id, progress st, pend')
    else select_receiver l' (sel, min, pend')
  end.

(** snapshot.rs 614-659 next_request, for the iteration order [ord]. *)
Definition next_request (s : sender) (ord : list N) : pan (sender * option drequest) :=
  let '(sel, _, pend) :=
    select_receiver (in_order ord (sd_receivers s)) (0, (1, 1), 0) in
  if (sd_max_pending s <=? pend) || (sel =? 0) then Ok (s, None)
  else
    let d := sd_next_delivery_id s in
    match sd_receivers s !! sel with
    | None => Panic
    | Some st =>
      let! (st', c) := next_chunk st d in
      Ok (Sender (sd_chunk_size s) (sd_max_pending s) (sd_replica_id s)
            (sd_next_snapshot_id s) (d + 1) (<[sel := st']> (sd_receivers s)),
          match c with
          | Some c => Some (DRequest sel (sd_replica_id s) d (Some (Some c)))
          | None => None
          end)
    end.

(** snapshot.rs 661-674 process_response. *)
Definition sender_process_response (s : sender) (receiver delivery : N)
  (resp : option dresponse) : pan sender :=
  match sd_receivers s !! receiver with
  | None => Ok s
  | Some st =>
    let! st' := ss_process_response st delivery resp in
    Ok (with_receivers s (<[receiver := st']> (sd_receivers s)))
  end.

(** snapshot.rs 676-711 process_unexpected_request. *)
Definition process_unexpected_request (q : drequest) : pan dresponse :=
  match dq_payload q with
  | None => Panic
  | Some payload =>
    let a :=
      match payload with
      | Some (Content id (Some (CHeader _ _ _))) => Ack id 0 AckRejected
      | Some (Content id (Some (CChunk i _))) => Ack id i AckRejected
      | _ => Ack 0 0 AckRejected
      end in
    Ok (DResponse (dq_sender q) (dq_recipient q) (dq_delivery q) (Some (Some a)))
  end.

(** snapshot.rs 713-733 try_complete, for the iteration order [ord]. *)
Fixpoint first_completed (l : list (N * sender_state)) : option (N * snap_status) :=
  match l with
  | [] => None
  | (id, st) :: l' =>
    match ss_try_complete st with
    | Some x => Some (id, x)
    | None => first_completed l'
    end
  end.
Definition sender_try_complete (s : sender) (ord : list N)
  : sender * option (N * snap_status) :=
  match first_completed (in_order ord (sd_receivers s)) with
  | Some (id, x) => (with_receivers s (delete id (sd_receivers s)), Some (id, x))
  | None => (s, None)
  end.

(** ** Receiver *)

(** snapshot.rs 736-745 ReceiverState. *)
Record receiver_state := ReceiverState {
  rs_sender : N;
  rs_id : N;
  rs_size : N;
  rs_meta : bytes;
  rs_chunk_size : N;
  rs_count : N;
  rs_chunks : gmap N bytes;
}.

(** snapshot.rs 748-769 ReceiverState::new. *)
Definition receiver_state_new (sender id size : N) (meta first : bytes) : pan receiver_state :=
  let! count := chunk_count size (Nlen first) in
  Ok (ReceiverState sender id size meta (Nlen first) count {[0 := first]}).

(** snapshot.rs 771-786 accept_chunk; [None] when the chunk is not accepted. *)
Definition accept_chunk (st : receiver_state) (sender index : N) (contents : bytes)
  : option receiver_state :=
  if negb (sender =? rs_sender st) then None
  else if (rs_count st <=? index)
       || ((index <? rs_count st - 1) && negb (Nlen contents =? rs_chunk_size st))
       || ((index =? rs_count st - 1)
           && negb (Nlen contents =? rs_size st - (rs_count st - 1) * rs_chunk_size st))
  then None
  else Some (ReceiverState (rs_sender st) (rs_id st) (rs_size st) (rs_meta st)
               (rs_chunk_size st) (rs_count st) (<[index := contents]> (rs_chunks st))).

(** snapshot.rs 799-801: concatenate chunks [i], [i+1], ...; a missing chunk
    aborts. *)
Fixpoint assemble (n : nat) (i : N) (chunks : gmap N bytes) : pan bytes :=
  match n with
  | O => Ok []
  | S n' =>
    match chunks !! i with
    | None => Panic
    | Some b => let! rest := assemble n' (i + 1) chunks in Ok (b ++ rest)
    end
  end.

(** snapshot.rs 788-817 ReceiverState::try_complete. The inner [None] is
    [SnapshotError::Corrupted]. *)
Definition rs_try_complete (st : receiver_state)
  : pan (option (option (N * snapshot))) :=
  if negb (N.of_nat (size (rs_chunks st)) =? rs_count st) then Ok None
  else
    match dec_meta (rs_meta st) with
    | None => Ok (Some None)
    | Some m =>
      let! data := assemble (N.to_nat (rs_count st)) 0 (rs_chunks st) in
      Ok (Some (Some (rs_sender st, snapshot_of m data)))
    end.

(** snapshot.rs 854-941 process_request on the receiver's [state] field. *)
Definition process_request (state : option receiver_state) (q : drequest)
  : pan (option receiver_state * dresponse) :=
  let respond a := DResponse (dq_sender q) (dq_recipient q) (dq_delivery q) (Some (Some a)) in
  let current_id := match state with Some st => rs_id st | None => 0 end in
  match dq_payload q with
  | None => Panic
  | Some None => Ok (state, respond (Ack current_id 0 AckRejected))
  | Some (Some (Content id None)) => Ok (state, respond (Ack current_id 0 AckUnspecified))
  | Some (Some (Content id (Some (CHeader size meta contents)))) =>
    let! st := receiver_state_new (dq_sender q) id size meta contents in
    Ok (Some st, respond (Ack id 0 AckAccepted))
  | Some (Some (Content id (Some (CChunk index contents)))) =>
    match state with
    | None => Ok (None, respond (Ack id index AckRejected))
    | Some st =>
      match accept_chunk st (dq_sender q) index contents with
      | Some st' => Ok (Some st', respond (Ack id index AckAccepted))
      | None => Ok (Some st, respond (Ack id index AckRejected))
      end
    end
  end.

(** snapshot.rs 943-950 DefaultSnapshotReceiver::try_complete. *)
Definition receiver_try_complete (state : option receiver_state)
  : pan (option receiver_state * option (option (N * snapshot))) :=
  match state with
  | None => Ok (None, None)
  | Some st =>
    let! r := rs_try_complete st in
    match r with
    | None => Ok (Some st, None)
    | Some x => Ok (None, Some x)
    end
  end.

(** ** Processor *)

(** snapshot.rs 124-136 ReplicaState. *)
Inductive replica_state := RUnknown | RFollower | RLeader.

(** snapshot.rs 231-254 DefaultSnapshotProcessor. *)
Record processor := Processor {
  pr_replica_id : N;
  pr_leader_id : N;
  pr_leader_term : N;
  pr_state : replica_state;
  pr_sender : sender;
  pr_receiver : option receiver_state;
}.

(** snapshot.rs 240-254 new. *)
Definition processor_new : processor :=
  Processor 0 0 0 RUnknown (sender_init 0 None) None.

(** snapshot.rs 257-266 init. *)
Definition processor_init (p : processor) (replica_id : N) (config : option (N * N))
  : pan processor :=
  match pr_state p with
  | RUnknown =>
    Ok (Processor replica_id (pr_leader_id p) (pr_leader_term p) RFollower
          (sender_init replica_id config) (pr_receiver p))
  | _ => Panic
  end.

(** snapshot.rs 268-319 process_cluster_change, for the iteration order [ord]
    of the sender's transfers. *)
Definition process_cluster_change (p : processor) (ord : list N)
  (leader_id leader_term : N) (replicas : list N)
  : pan (processor * list (N * snap_status)) :=
  let needs_reset :=
    negb (pr_leader_id p =? leader_id)
    || negb (pr_leader_term p =? leader_term)
    || negb (existsb (fun r => r =? pr_replica_id p) replicas) in
  match pr_state p with
  | RUnknown => Panic
  | RFollower =>
    let rcv := if needs_reset then None else pr_receiver p in
    let st := if pr_replica_id p =? leader_id then RLeader else RFollower in
    Ok (Processor (pr_replica_id p) leader_id leader_term st (pr_sender p) rcv, [])
  | RLeader =>
    let '(snd', cancelled) :=
      if needs_reset then sender_reset (pr_sender p) ord else (pr_sender p, []) in
    let st := if negb (pr_replica_id p =? leader_id) then RFollower else RLeader in
    Ok (Processor (pr_replica_id p) leader_id leader_term st snd' (pr_receiver p), cancelled)
  end.

(** snapshot.rs 321-335 mut_processor: which role is exposed. *)
Inductive role := RoleSender | RoleReceiver.
Definition processor_role (p : processor) : pan role :=
  match pr_state p with
  | RFollower => Ok RoleReceiver
  | RLeader => Ok RoleSender
  | RUnknown => Panic
  end.

(** ** Histories *)

(** Calls on the sender. *)
Inductive sop :=
| SStart (receiver : N) (sn : snapshot)
| SNext (ord : list N)
| SResp (receiver delivery : N) (resp : option dresponse)
| SComplete (ord : list N)
| SReset (ord : list N).

(** What a call returns. *)
Inductive sout :=
| ONone
| OReq (q : option drequest)
| ODone (r : option (N * snap_status))
| OCancel (l : list (N * snap_status)).

Definition sender_step (s : sender) (op : sop) : pan (sender * sout) :=
  match op with
  | SStart r sn => let! s' := sender_start s r sn in Ok (s', ONone)
  | SNext ord => let! (s', q) := next_request s ord in Ok (s', OReq q)
  | SResp r d resp => let! s' := sender_process_response s r d resp in Ok (s', ONone)
  | SComplete ord => let '(s', r) := sender_try_complete s ord in Ok (s', ODone r)
  | SReset ord => let '(s', l) := sender_reset s ord in Ok (s', OCancel l)
  end.

(** Calls on the receiver. *)
Inductive rop := RReq (q : drequest) | RPoll | RReset.

Definition receiver_step (st : option receiver_state) (op : rop)
  : pan (option receiver_state) :=
  match op with
  | RReq q => let! (st', _) := process_request st q in Ok st'
  | RPoll => let! (st', _) := receiver_try_complete st in Ok st'
  | RReset => Ok None
  end.

Fixpoint receiver_run (st : option receiver_state) (ops : list rop)
  : pan (option receiver_state) :=
  match ops with
  | [] => Ok st
  | op :: ops' => let! st' := receiver_step st op in receiver_run st' ops'
  end.

(** A call on the processor: a cluster change notification, or a call on the
    role that mut_processor (321-335) exposes; asking for the wrong role is an
    error of the caller ([Err]). [SReset]/[RReset] are not available to it. *)
Inductive pop :=
| PChange (ord : list N) (leader_id leader_term : N) (replicas : list N)
| PSend (op : sop)
| PRecv (op : rop).

Inductive pout :=
| PCancelled (l : list (N * snap_status))
| PSent (o : sout)
| PReceived.

Definition processor_step (p : processor) (op : pop) : res unit (processor * pout) :=
  match op with
  | PChange ord l t rs =>
    match process_cluster_change p ord l t rs with
    | Ok (p', c) => Ok (p', PCancelled c)
    | _ => Panic
    end
  | PSend op =>
    match processor_role p with
    | Ok RoleSender =>
      match op with
      | SReset _ => Err tt
      | _ =>
        match sender_step (pr_sender p) op with
        | Ok (s, o) => Ok (Processor (pr_replica_id p) (pr_leader_id p) (pr_leader_term p)
                             (pr_state p) s (pr_receiver p), PSent o)
        | _ => Panic
        end
      end
    | Ok RoleReceiver => Err tt
    | _ => Panic
    end
  | PRecv op =>
    match processor_role p with
    | Ok RoleReceiver =>
      match op with
      | RReset => Err tt
      | _ =>
        match receiver_step (pr_receiver p) op with
        | Ok r => Ok (Processor (pr_replica_id p) (pr_leader_id p) (pr_leader_term p)
                        (pr_state p) (pr_sender p) r, PReceived)
        | _ => Panic
        end
      end
    | Ok RoleSender => Err tt
    | _ => Panic
    end
  end.
End Codec.
