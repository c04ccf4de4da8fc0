(** Theorems about the batches of consensus (C86). *)
From Verif Require Import Base StorageModel SnapshotModel CommModel ActorModel DriverModel DriverSpec DriverProofs DriverTheorems DriverBatchProofs.

Section Theorems.
Context {RS SP CS ST REQ RESP : Type}.
Variable codec : driver_codec.
Variable rops : raft_ops RS.
Variable sops : snap_ops SP.
Variable cops : comm_ops CS REQ RESP.
Variable app : actor ST.

(** * C86 *)
(** A call of a replicated replica either finds no batch ready, or carries out one
    batch: it stores all that is to be stored and acknowledges the batch after
    that; it gives all messages of the batch to the communication module, in
    order and to the replicas they are for, before what is to leave is taken from
    it; of the snapshots to be sent, all transfers are started, or all are reported
    as failed. It makes none of these calls otherwise. *)
Theorem C86_batches_are_carried_out r s c xs d outs q x d' out :
  reaches codec rops (rec_snap sops) cops app r s c xs d outs ->
  delivered (HStart q) (xs ++ [x]) -> sr_ephemeral q = false ->
  receive codec rops (rec_snap sops) cops app d x = Ok (d', out) -> x.2 <> Some None ->
  exists calls sent transfers,
    raft_calls d' = raft_calls d ++ calls /\
    comm_calls d' = comm_calls d ++ sent ++ [MTake] /\
    (d_snap d').2 = (d_snap d).2 ++ transfers /\
    ((Forall (fun k => ~ batch_call k) calls /\ transfers = [] /\
      exists r, rtc (raft_move rops) (d_raft d).1 r /\ rtc (raft_move rops) r (d_raft d').1 /\
        (ra_initialized rops r = true -> ra_has_ready rops r = false)) \/
     exists b answer before batch after before' after',
       calls = before ++ batch ++ after /\ carries_out codec b answer batch /\
       Forall (fun k => ~ batch_call k) before /\ Forall (fun k => ~ batch_call k) after /\
       sent = before' ++
         map (as_sent codec (sr_id q)) (filter (fun m => rm_type m <> MsgSnapshot) (batch_messages b answer)) ++ after' /\
       let snapshots := filter (fun m => rm_type m = MsgSnapshot) (batch_messages b answer) in
       (map (fun t => (t.1, Some t.2)) transfers = map (fun m => (rm_to m, rm_snapshot m)) snapshots \/
        transfers = [] /\ exists before, after = before ++ map (fun m => KReport (rm_to m) Failure) snapshots)).
Proof using.
  intros B Hd He H Hm. pose proof (born_inv _ _ _ _ _ _ _ _ _ _ _ B) as I.
  pose proof (born_next _ _ _ _ _ _ _ _ _ _ _ _ _ _ B H) as B'.
  destruct (life_request _ _ (born_life _ _ _ _ _ _ _ _ _ _ _ B') _ Hd) as (I1&E1&_).
  rewrite He in E1.
  destruct (receive_batch _ _ _ _ _ _ _ _ _ I H E1 Hm) as (rt&mt&l&R&C&S&[(O&->&r0&M1&M2&Hr)|(b&lr&pre&body&post&pre'&post'&->&Hc&O1&O2&->&P)]).
  - exists rt, mt, []. split_and!; try done. left. split_and!; try done. by exists r0.
  - rewrite I1 in C. do 3 eexists. split_and!; [done|done|done|]. right.
    exists b, lr, pre, body, post, pre', post'. split_and!; try done. cbn zeta.
    destruct P as [P|(->&p&->)]; [by left|]. right. split; [done|]. by exists p.
Qed.
End Theorems.

(** Consensus that has one batch, with everything in it, when it is started. *)
Definition one_ready : ready :=
  Ready [RMsg MsgHeartbeat 2 1 None []; RMsg MsgSnapshot 3 1 (Some (Snapshot 1 1 (conf_of_voters [1]) [7])) []]
        [RMsg (MsgOther 0) 4 1 None [5]]
        [REntry EntryNormal 1 4 [8]] [REntry EntryNormal 1 3 [1; 9; 1; 6]; REntry EntryConfChange 1 2 [1; 2]]
        (Some (HardState 1 1 3)) (Snapshot 0 0 (conf_of_voters []) []) 7.
Definition one_light : light_ready := LightReady [RMsg (MsgOther 1) 2 1 None []] [REntry EntryConfChange 1 4 [2; 2]].
Definition one_ops : raft_ops (bool * bool) := RaftOps (bool * bool)
  fst (fun _ => false) (fun _ => raft_st0)
  (fun _ _ _ _ _ _ => Ok (true, true)) (fun r _ => (r, true)) (fun r _ => Ok r) (fun r _ => (r, None)) (fun r => r)
  (fun r c => Ok (r, conf_of_voters [cc_node c])) snd (fun r => ((r.1, false), one_ready)) (fun r _ => (r, one_light)) (fun r => r)
  (fun r _ _ => r) (fun r _ => r) (fun r _ => Ok r) (fun r _ => Ok r) (fun _ _ _ => false) (fun r _ _ _ => Ok r) (fun _ => 0).
(** A snapshot processor that sends, or one that receives. *)
Definition one_snap (role : role) : snap_ops unit := SnapOps unit
  (fun s _ _ => Ok s) (fun s _ _ _ => Ok (s, [])) (fun _ _ => Ok role) (fun s _ _ => Ok s)
  (fun s => Ok (s, None)) (fun _ => O) (fun s _ _ _ => Ok s) (fun _ m => Ok m) (fun s => Ok (s, None))
  (fun s m => Ok (s, m)) (fun s => Ok (s, None)).
Definition one_run (role : role) :=
  run toy_codec one_ops (rec_snap (one_snap role)) toy_comm toy_app (fresh (false, false) (tt, []) tt) [(5, toy_start false false 1)].
Example C86_example :
  match one_run RoleSender, one_run RoleReceiver with
  | Ok (d, _), Ok (d', _) =>
    raft_calls d = [KInit 1 false [7]; KReady one_ready; KHard (HardState 1 1 3); KApplyChange (ConfChange AddNode 2) (conf_of_voters [2]);
      KAppend [REntry EntryNormal 1 4 [8]]; KLight 7 one_light; KApplyChange (ConfChange RemoveNode 2) (conf_of_voters [2]); KApplied] /\
    raft_calls d' = raft_calls d ++ [KReport 3 Failure] /\
    (d_snap d).2 = [(3, Snapshot 1 1 (conf_of_voters [1]) [7])] /\ (d_snap d').2 = [] /\
    omap (fun k => match k with MOut m => Some (pm_recipient (om_msg m)) | _ => None end) (comm_calls d) = [2; 4; 2]
  | _, _ => False
  end.
Proof. vm_compute. done. Qed.
