(** Vocabulary of the theorems about snapshots on their way between replicas: every
    call of the snapshot processor with what it was answered. *)
From Verif Require Import Base StorageModel SnapshotModel SnapshotSpec CommModel ActorModel DriverModel DriverSpec.

Inductive snap_call :=
| CInit (id : N) (config : option (N * N))
(** leader, term and replicas; the transfers given up *)
| CCluster (leader term : N) (replicas : list N) (given_up : list (N * snap_status))
| CStart (to : N) (sn : snapshot)
| CNext (request : option peer_msg)
| CResponse (from delivery : N) (response : option peer_msg)
| CSent (result : option (N * snap_status))
| CRequest (request answer : peer_msg)
| CReceived (result : option (option (N * snapshot))).

(** A recorded processor behaves as the one it records. *)
Definition log_snap {SP} (o : snap_ops SP) : snap_ops (SP * list snap_call) :=
  SnapOps (SP * list snap_call)
    (fun s id c => let! x := sp_init o s.1 id c in Ok (x, s.2 ++ [CInit id c]))
    (fun s l t ids => let! (x, r) := sp_cluster o s.1 l t ids in Ok ((x, s.2 ++ [CCluster l t ids r]), r))
    (fun s t => sp_role o s.1 t)
    (fun s to sn => let! x := sp_start o s.1 to sn in Ok (x, s.2 ++ [CStart to sn]))
    (fun s => let! (x, r) := sp_next o s.1 in Ok ((x, s.2 ++ [CNext r]), r))
    (fun s => sp_drain o s.1)
    (fun s i n m => let! x := sp_response o s.1 i n m in Ok (x, s.2 ++ [CResponse i n m]))
    (fun s m => sp_unexpected o s.1 m)
    (fun s => let! (x, r) := sp_sent o s.1 in Ok ((x, s.2 ++ [CSent r]), r))
    (fun s m => let! (x, a) := sp_request o s.1 m in Ok ((x, s.2 ++ [CRequest m a]), a))
    (fun s => let! (x, r) := sp_received o s.1 in Ok ((x, s.2 ++ [CReceived r]), r)).

Definition snap_calls {RS SP CS ST REQ RESP} (d : rdriver RS (SP * list snap_call) CS ST REQ RESP) : list snap_call :=
  (d_snap d).2.

(** In these calls the transfer to [r] is neither started again, nor does it end,
    nor is it given up. *)
Definition goes_on (r : N) (calls : list snap_call) : Prop :=
  forall c, c ∈ calls ->
    match c with
    | CStart to _ => to <> r
    | CSent (Some (to, _)) => to <> r
    | CCluster _ _ _ given_up => r ∉ given_up.*1
    | _ => True
    end.

(** Consensus has handed over this message to be sent. *)
Definition asked_to_send (calls : list raft_call) (m : rmsg) : Prop :=
  exists c, c ∈ calls /\
    match c with
    | KReady r => m ∈ rd_messages r \/ m ∈ rd_persisted r
    | KLight _ r => m ∈ lr_messages r
    | _ => False
    end.
(** Consensus has asked for this snapshot to be sent to [to]. *)
Definition asked_for_snapshot (calls : list raft_call) (to : N) (sn : snapshot) : Prop :=
  exists m, asked_to_send calls m /\ rm_type m = MsgSnapshot /\ rm_to m = to /\ rm_snapshot m = Some sn.

(** Number of transfers started. *)
Definition transfers (calls : list snap_call) : N :=
  Nlen (omap (fun c => match c with CStart to sn => Some to | _ => None end) calls).

(** The contents of a message, decoded. *)
Definition carries {A} (dec : bytes -> option A) (m : peer_msg) (a : A) : Prop :=
  exists p, pm_payload m = Some p /\ dec (pl_contents p) = Some a.

(** ** What the calls of the processor have to do with the rest of the replica *)
Section Accounts.
Context {RS SP CS ST REQ RESP : Type}.
Variable cops : comm_ops CS REQ RESP.
(** The communication module handed over this message, when it was given one that
    the host delivered. *)
Definition handed_over (xs : list (delivery REQ RESP)) (m : peer_msg) : Prop :=
  exists m0 c c', delivered (HPeer m0) xs /\ co_in cops c (IPeer m0) = Ok (c', Some (IPeer m)).
(** What the processor is told comes from the network, from consensus or from the
    host; what it answers goes to the network or to consensus. *)
Definition accounted_for (xs : list (delivery REQ RESP)) (d : rdriver RS (SP * list snap_call) CS ST REQ RESP)
  (c : snap_call) : Prop :=
  match c with
  | CInit id _ => id = d_id d
  | CCluster _ _ _ given_up => forall r s, (r, s) ∈ given_up -> KReport r s ∈ raft_calls d
  | CStart to sn => asked_for_snapshot (raft_calls d) to sn
  | CNext (Some m) => MOut (OutMsg m false) ∈ comm_calls d
  | CResponse from delivery (Some m) =>
      from = pm_sender m /\ delivery = pm_delivery m /\ pm_kind m = KSnapshotResponse /\ handed_over xs m
  | CResponse from delivery None => delivered (HSnapshotFailure from delivery) xs
  | CSent (Some (r, s)) => KReport r s ∈ raft_calls d
  | CRequest m answer =>
      pm_kind m = KSnapshotRequest /\ handed_over xs m /\ MOut (OutMsg answer false) ∈ comm_calls d
  | CReceived (Some (Some (from, sn))) => KStep (snapshot_message from (d_id d) sn) ∈ raft_calls d
  | _ => True
  end.
(** Where a report to consensus comes from. *)
Definition report_explained (d : rdriver RS (SP * list snap_call) CS ST REQ RESP) (r : N) (s : snap_status) : Prop :=
  CSent (Some (r, s)) ∈ snap_calls d \/
  (exists l t ids given_up, CCluster l t ids given_up ∈ snap_calls d /\ (r, s) ∈ given_up) \/
  (s = Failure /\ exists m, asked_to_send (raft_calls d) m /\ rm_type m = MsgSnapshot /\ rm_to m = r).
End Accounts.
