(** Vocabulary of the theorems about the driver: what it asks of the consensus
    implementation, of the communication module and of the application, and in
    which order. A recorded implementation behaves as the one it records, which
    cannot see the record. *)
From Verif Require Import Base StorageModel SnapshotModel CommModel ActorModel DriverModel.

(** ** Recorded calls *)
Inductive raft_call :=
| KInit (id : N) (leader : bool) (data : bytes)
| KStep (m : rmsg)
| KPropose (p : bytes)
| KProposeChange (c : conf_change)
| KTick
| KApplyChange (c : conf_change) (conf : conf_state)
| KReady (r : ready)
| KLight (number : N) (r : light_ready)
| KApplied
| KReport (replica : N) (s : snap_status)
| KHard (h : hard_state)
| KAppend (es : list rentry)
| KInstall (s : snapshot)
| KSave (index : N) (c : conf_state) (data : bytes).
Definition rec_raft {RS} (o : raft_ops RS) : raft_ops (RS * list raft_call) :=
  let keep (t : list raft_call) (c : raft_call) (r : res raft_error RS) :=
    let! s := r in Ok (s, t ++ [c]) in
  RaftOps (RS * list raft_call)
    (fun s => ra_initialized o s.1)
    (fun s => ra_leader o s.1)
    (fun s => ra_state o s.1)
    (fun s id c data leader n => keep s.2 (KInit id leader data) (ra_init o s.1 id c data leader n))
    (fun s m => let '(s', b) := ra_step o s.1 m in ((s', s.2 ++ [KStep m]), b))
    (fun s p => keep s.2 (KPropose p) (ra_propose o s.1 p))
    (fun s c => let '(s', b) := ra_propose_change o s.1 c in ((s', s.2 ++ [KProposeChange c]), b))
    (fun s => (ra_tick o s.1, s.2 ++ [KTick]))
    (fun s c => let! (s', conf) := ra_apply_change o s.1 c in Ok ((s', s.2 ++ [KApplyChange c conf]), conf))
    (fun s => ra_has_ready o s.1)
    (fun s => let '(s', r) := ra_get_ready o s.1 in ((s', s.2 ++ [KReady r]), r))
    (fun s n => let '(s', r) := ra_advance o s.1 n in ((s', s.2 ++ [KLight n r]), r))
    (fun s => (ra_advance_apply o s.1, s.2 ++ [KApplied]))
    (fun s id st => (ra_report o s.1 id st, s.2 ++ [KReport id st]))
    (fun s h => (ra_set_hard o s.1 h, s.2 ++ [KHard h]))
    (fun s es => keep s.2 (KAppend es) (ra_append o s.1 es))
    (fun s sn => keep s.2 (KInstall sn) (ra_apply_snapshot o s.1 sn))
    (fun s i c => ra_should_snapshot o s.1 i c)
    (fun s i c data => keep s.2 (KSave i c data) (ra_create_snapshot o s.1 i c data))
    (fun s => ra_snapshot_size o s.1).

Inductive app_call :=
| AInit (cx : actor_context)
| ALoad (data : bytes)
| ACommand (cx : actor_context) (m : option actor_command) (out : command_outcome)
| AApply (cx : event_context) (ev : actor_event) (out : list actor_command).
Definition rec_actor {ST} (a : actor ST) : actor (ST * list app_call) :=
  Actor (ST * list app_call)
    (fun cx => let! s := a_init a cx in Ok (s, [AInit cx]))
    (fun s => a_save a s.1)
    (fun s data => let! s' := a_load a s.1 data in Ok (s', s.2 ++ [ALoad data]))
    (fun cx s m => let! (s', out) := a_command a cx s.1 m in Ok ((s', s.2 ++ [ACommand cx m out]), out))
    (fun s cx ev => let! (s', out) := a_apply a s.1 cx ev in Ok ((s', s.2 ++ [AApply cx ev out]), out)).

(** One call of the application after initialisation, with its record. *)
Inductive app_move {ST} (a : actor ST) : ST * list app_call -> ST * list app_call -> Prop :=
| move_load st t data st' : a_load a st data = Ok st' -> app_move a (st, t) (st', t ++ [ALoad data])
| move_command st t cx m st' out : a_command a cx st m = Ok (st', out) -> app_move a (st, t) (st', t ++ [ACommand cx m out])
| move_event st t cx ev st' out : a_apply a st cx ev = Ok (st', out) -> app_move a (st, t) (st', t ++ [AApply cx ev out]).
(** The application has been called exactly as recorded. *)
Definition called_as_recorded {ST} (a : actor ST) (s : ST * list app_call) : Prop :=
  exists cx st, a_init a cx = Ok st /\ rtc (app_move a) (st, [AInit cx]) s.

Inductive comm_call {REQ RESP : Type} :=
| MInit (id : N)
| MOut (m : out_msg)
| MIn (m : in_msg REQ RESP)
| MTake
| MCluster (replicas : list N)
| MTick.
Arguments comm_call : clear implicits.
Definition rec_comm {CS REQ RESP} (o : comm_ops CS REQ RESP) : comm_ops (CS * list (comm_call REQ RESP)) REQ RESP :=
  CommOps (CS * list (comm_call REQ RESP)) REQ RESP
    (fun s id r t => (co_init o s.1 id r t, s.2 ++ [MInit id]))
    (fun s m => let! s' := co_out o s.1 m in Ok (s', s.2 ++ [MOut m]))
    (fun s m => let! (s', r) := co_in o s.1 m in Ok ((s', s.2 ++ [MIn m]), r))
    (fun s => let! (s', r) := co_take o s.1 in Ok ((s', s.2 ++ [MTake]), r))
    (fun s ids => (co_cluster o s.1 ids, s.2 ++ [MCluster ids]))
    (fun s => (co_tick o s.1, s.2 ++ [MTick])).

(** Of the snapshot processor the transfers it is asked to start are recorded. *)
Definition rec_snap {SP} (o : snap_ops SP) : snap_ops (SP * list (N * snapshot)) :=
  let keep (t : list (N * snapshot)) (r : res unit SP) := let! s := r in Ok (s, t) in
  let keep2 {A} (t : list (N * snapshot)) (r : res unit (SP * A)) := let! (s, a) := r in Ok ((s, t), a) in
  SnapOps (SP * list (N * snapshot))
    (fun s id c => keep s.2 (sp_init o s.1 id c))
    (fun s l t ids => keep2 s.2 (sp_cluster o s.1 l t ids))
    (fun s t => sp_role o s.1 t)
    (fun s to sn => keep (s.2 ++ [(to, sn)]) (sp_start o s.1 to sn))
    (fun s => keep2 s.2 (sp_next o s.1))
    (fun s => sp_drain o s.1)
    (fun s i n m => keep s.2 (sp_response o s.1 i n m))
    (fun s m => sp_unexpected o s.1 m)
    (fun s => keep2 s.2 (sp_sent o s.1))
    (fun s m => keep2 s.2 (sp_request o s.1 m))
    (fun s => keep2 s.2 (sp_received o s.1)).

(** The driver over recorded implementations. *)
Notation rdriver RS SP CS ST REQ RESP :=
  (driver (RS * list raft_call) SP (CS * list (comm_call REQ RESP)) (ST * list app_call) REQ RESP).
Definition raft_calls {RS SP CS ST REQ RESP} (d : rdriver RS SP CS ST REQ RESP) : list raft_call := snd (d_raft d).
Definition comm_calls {RS SP CS ST REQ RESP} (d : rdriver RS SP CS ST REQ RESP) : list (comm_call REQ RESP) :=
  snd (d_comm d).
Definition app_calls {RS SP CS ST REQ RESP} (d : rdriver RS SP CS ST REQ RESP) : list app_call :=
  match d_actor d with Some (_, t) => t | None => [] end.

(** What the host delivers in one call: an instant and, if any, a message. *)
Notation delivery REQ RESP := (N * option (option (host_in REQ RESP)))%type.

Section Spec.
Context {RS SP CS ST REQ RESP : Type}.
Variable codec : driver_codec.
Variable rops : raft_ops RS.
Variable sops : snap_ops SP.
Variable cops : comm_ops CS REQ RESP.
Variable app : actor ST.

(** One call and a history of calls, on a recorded driver, as long as the
    driver returns no error. *)
Definition receive (d : rdriver RS SP CS ST REQ RESP) (x : delivery REQ RESP) :=
  receive_message codec (rec_raft rops) sops (rec_comm cops) (rec_actor app) d x.1 x.2.
Fixpoint run (d : rdriver RS SP CS ST REQ RESP) (xs : list (delivery REQ RESP))
  : res pal_error (rdriver RS SP CS ST REQ RESP * list (list (host_out REQ RESP))) :=
  match xs with
  | [] => Ok (d, [])
  | x :: xs =>
    let! (d, out) := receive d x in
    let! (d, outs) := run d xs in
    Ok (d, out :: outs)
  end.
(** A new driver. *)
Definition fresh (r : RS) (s : SP) (c : CS) : rdriver RS SP CS ST REQ RESP :=
  driver_new (r, []) s (c, []).
(** A new driver over a consensus implementation that is not initialised yet is
    in this state after these calls, having handed these messages to the host. *)
Definition reaches (r : RS) (s : SP) (c : CS) (xs : list (delivery REQ RESP))
  (d : rdriver RS SP CS ST REQ RESP) (outs : list (list (host_out REQ RESP))) : Prop :=
  ra_initialized rops r = false /\ run (fresh r s c) xs = Ok (d, outs).
End Spec.

(** The largest instant delivered. *)
Definition now {REQ RESP} (xs : list (delivery REQ RESP)) : N := foldr N.max 0 (map fst xs).

(** The messages delivered so far include this one. *)
Definition delivered {REQ RESP} (m : host_in REQ RESP) (xs : list (delivery REQ RESP)) : Prop :=
  exists t, (t, Some (Some m)) ∈ xs.
(** The log position a replica starts at: the initial leader starts from the
    snapshot of its initial state, at index one. *)
Definition start_index (q : start_request) : N := if sr_leader q then 1 else 0.
(** The tick period: 100 unless configured. *)
Definition period (q : start_request) : N := match sr_raft q with Some c => rc_tick_period c | None => 100 end.

(** ** What is assumed of consensus, by some theorems *)
(** One call of the consensus implementation. *)
Inductive raft_move {RS} (o : raft_ops RS) (r : RS) : RS -> Prop :=
| move_init id c data leader n r' : ra_init o r id c data leader n = Ok r' -> raft_move o r r'
| move_step m r' b : ra_step o r m = (r', b) -> raft_move o r r'
| move_propose p r' : ra_propose o r p = Ok r' -> raft_move o r r'
| move_change c r' e : ra_propose_change o r c = (r', e) -> raft_move o r r'
| move_tick : raft_move o r (ra_tick o r)
| move_apply c r' conf : ra_apply_change o r c = Ok (r', conf) -> raft_move o r r'
| move_ready r' rd : ra_get_ready o r = (r', rd) -> raft_move o r r'
| move_advance n r' lr : ra_advance o r n = (r', lr) -> raft_move o r r'
| move_applied : raft_move o r (ra_advance_apply o r)
| move_report id s : raft_move o r (ra_report o r id s)
| move_hard h : raft_move o r (ra_set_hard o r h)
| move_append es r' : ra_append o r es = Ok r' -> raft_move o r r'
| move_install s r' : ra_apply_snapshot o r s = Ok r' -> raft_move o r r'
| move_save i c data r' : ra_create_snapshot o r i c data = Ok r' -> raft_move o r r'.
(** Initialisation initialises, for good. Telling consensus how a snapshot
    transfer ended does not change who leads, nor the term. *)
Record consensus_ok {RS} (o : raft_ops RS) : Prop := ConsensusOk {
  init_initialises : forall r id c data leader n r', ra_init o r id c data leader n = Ok r' -> ra_initialized o r' = true;
  stays_initialised : forall r r', raft_move o r r' -> ra_initialized o r = true -> ra_initialized o r' = true;
  report_keeps_state : forall r id s, ra_state o (ra_report o r id s) = ra_state o r;
}.

(** ** What consensus hands to the driver *)
(** Either a snapshot to install, or a batch of committed entries. *)
Definition handed_by (c : raft_call) : list (snapshot + list rentry) :=
  match c with
  | KReady r => (if sn_index (rd_snapshot r) =? 0 then [] else [inl (rd_snapshot r)]) ++ [inr (rd_committed r)]
  | KLight _ r => [inr (lr_committed r)]
  | _ => []
  end.
Definition handed (t : list raft_call) : list (snapshot + list rentry) := concat (map handed_by t).

(** Consensus hands entries over in order: every batch, in whatever internal
    order, only holds entries above all indices handed over before, no index
    twice, and a snapshot is not older than what was handed over before. [pos]
    is the position reached so far. *)
Fixpoint in_order_from (pos : N) (os : list (snapshot + list rentry)) : Prop :=
  match os with
  | [] => True
  | inl s :: os => pos <= sn_index s /\ in_order_from (sn_index s) os
  | inr es :: os =>
    NoDup (map re_index es) /\ Forall (fun e => pos < re_index e) es /\
    in_order_from (foldr (fun e p => N.max (re_index e) p) pos es) os
  end.
(** The position reached. *)
Fixpoint position (pos : N) (os : list (snapshot + list rentry)) : N :=
  match os with
  | [] => pos
  | inl s :: os => position (sn_index s) os
  | inr es :: os => position (foldr (fun e p => N.max (re_index e) p) pos es) os
  end.

(** The committed configuration: that of the initial leader alone, then what the
    consensus implementation answers to every committed change, or that of an
    installed snapshot. *)
Definition config_step (conf : conf_state) (c : raft_call) : conf_state :=
  match c with
  | KInit id true _ => conf_of_voters [id]
  | KApplyChange _ conf' => conf'
  | KInstall s => sn_conf s
  | _ => conf
  end.
Definition config_of (t : list raft_call) : conf_state := foldl config_step (conf_of_voters []) t.

(** The log position the calls start at. *)
Definition start_of (t : list raft_call) : N :=
  match head t with Some (KInit _ true _) => 1 | _ => 0 end.

(** The call an entry leads to on replica [id]: none for empty entries and
    configuration changes. *)
Definition event_of_entry (codec : driver_codec) (id : N) (e : rentry) : option (event_context * actor_event) :=
  match re_data e, re_type e with
  | [], _ | _, EntryConfChange => None
  | _, _ =>
    match dec_entry codec (re_data e) with
    | Some (Entry (Some i) contents) =>
        Some (EventContext (re_index e) (ei_replica i =? id), ActorEvent (ei_entry i) contents)
    | _ => None
    end
  end.

(** What the application was given by the log: events and snapshots. *)
Definition from_log (c : app_call) : option (bytes + event_context * actor_event) :=
  match c with
  | ALoad data => Some (inl data)
  | AApply cx ev _ => Some (inr (cx, ev))
  | _ => None
  end.

(** What the log gives to the application of replica [id]: snapshots as they
    are, and the events of every batch in the order of their indices. *)
Inductive hands_over (codec : driver_codec) (id : N) :
  list (snapshot + list rentry) -> list (bytes + event_context * actor_event) -> Prop :=
| over_nothing : hands_over codec id [] []
| over_snapshot s os l : hands_over codec id os l -> hands_over codec id (inl s :: os) (inl (sn_data s) :: l)
| over_batch es sorted os l : sorted ≡ₚ es -> StronglySorted (fun a b => re_index a <= re_index b) sorted ->
    hands_over codec id os l ->
    hands_over codec id (inr es :: os) (map inr (omap (event_of_entry codec id) sorted) ++ l).

(** What is proposed to consensus. *)
Definition proposal_of (c : raft_call) : option bytes := match c with KPropose p => Some p | _ => None end.
(** What the events the application emits are proposed as by replica [id]. *)
Definition event_proposal (codec : driver_codec) (id : N) (c : app_call) : option bytes :=
  match c with
  | ACommand _ _ out =>
    (fun ev => enc_entry codec (Entry (Some (EntryId (ae_correlation ev) id)) (ae_contents ev))) <$> co_event out
  | _ => None
  end.
(** The messages the application emits. *)
Definition emitted (c : app_call) : list actor_command :=
  match c with AApply _ _ out => out | ACommand _ _ out => co_commands out | _ => [] end.
(** The messages of the application and the status messages among those handed
    to the host. *)
Definition app_out {REQ RESP} (m : host_out REQ RESP) : option actor_command := match m with OApp c => Some c | _ => None end.
Definition cluster_out {REQ RESP} (m : host_out REQ RESP) : option raft_st :=
  match m with OCluster l t c p => Some (RaftSt l t c p) | _ => None end.
(** The configurations the communication module is told about. *)
Definition cluster_call {REQ RESP} (c : comm_call REQ RESP) : option (list N) := match c with MCluster l => Some l | _ => None end.
(** The commands the application is given. *)
Definition command_of (c : app_call) : option (option actor_command) :=
  match c with ACommand _ m _ => Some m | _ => None end.
(** The log index of an event applied. *)
Definition event_index (c : app_call) : option N := match c with AApply cx _ _ => Some (ec_index cx) | _ => None end.
(** The answers to requests of the host, among the messages handed to it: all but
    the messages of the application, to other replicas, and status messages. *)
Definition answer_out {REQ RESP} (m : host_out REQ RESP) : option (host_out REQ RESP) :=
  match m with OApp _ | OCluster _ _ _ _ | OWire _ => None | m => Some m end.
(** What the application was told about its replica and the time. *)
Definition context_of (c : app_call) : option actor_context :=
  match c with AInit cx | ACommand cx _ _ => Some cx | _ => None end.
(** Every event is applied right after the command it came from, as owned; no
    event is applied, and no snapshot loaded, otherwise. *)
Fixpoint applied_at_once (t : list app_call) : Prop :=
  match t with
  | [] => True
  | AInit _ :: t => applied_at_once t
  | ACommand _ _ out :: t =>
    match co_event out with
    | None => applied_at_once t
    | Some ev =>
      match t with
      | AApply cx ev' _ :: t => ec_owned cx = true /\ ev' = ev /\ applied_at_once t
      | _ => False
      end
    end
  | _ => False
  end.
(** ** Batches of consensus *)
(** The committed changes of the configuration among these entries. *)
Definition change_of_entry (codec : driver_codec) (e : rentry) : option conf_change :=
  match re_data e, re_type e with
  | [], _ => None
  | _, EntryConfChange => dec_change codec (re_data e)
  | _, _ => None
  end.
(** These calls hand the changes committed by these entries back to consensus, in
    the order of their indices, and do nothing else. *)
Definition hands_back (codec : driver_codec) (es : list rentry) (t : list raft_call) : Prop :=
  exists sorted, sorted ≡ₚ es /\ StronglySorted (fun a b => re_index a <= re_index b) sorted /\
    map (fun c => match c with KApplyChange c _ => Some c | _ => None end) t = map Some (omap (change_of_entry codec) sorted).
(** A batch is carried out: the batch is taken, the hard state, the snapshot and
    the entries it contains are stored, the changes it commits are handed back,
    and only then is it acknowledged, under its number; the changes committed in
    answer are handed back before they are acknowledged. *)
Definition carries_out (codec : driver_codec) (r : ready) (lr : light_ready) (t : list raft_call) : Prop :=
  exists t1 t2, hands_back codec (rd_committed r) t1 /\ hands_back codec (lr_committed lr) t2 /\
    t = [KReady r] ++ map KHard (option_list (rd_hard r)) ++
        (if sn_index (rd_snapshot r) =? 0 then [] else [KInstall (rd_snapshot r)]) ++ t1 ++
        match rd_entries r with [] => [] | es => [KAppend es] end ++
        [KLight (rd_number r) lr] ++ t2 ++ [KApplied].
(** The calls that belong to a batch. *)
Definition batch_call (c : raft_call) : Prop :=
  match c with
  | KReady _ | KLight _ _ | KApplied | KHard _ | KAppend _ | KInstall _ | KApplyChange _ _ => True
  | _ => False
  end.
(** What a batch asks to be sent. *)
Definition batch_messages (r : ready) (lr : light_ready) : list rmsg := rd_messages r ++ rd_persisted r ++ lr_messages lr.
(** A message of consensus as replica [id] sends it: heartbeats may be dropped
    when there is no channel. *)
Definition as_sent {REQ RESP} (codec : driver_codec) (id : N) (m : rmsg) : comm_call REQ RESP :=
  MOut (OutMsg (PeerMsg KSystem (rm_to m) id 0 (Some (Payload (enc_rmsg codec m) [])))
               (bool_decide (rm_type m = MsgHeartbeat))).

(** The number of ticks. *)
Definition tick_of (c : raft_call) : option unit := match c with KTick => Some tt | _ => None end.
Definition ticks (t : list raft_call) : nat := length (omap tick_of t).

(** The calls that start or advance the clock of consensus. *)
Definition clock_call (c : raft_call) : Prop := match c with KInit _ _ _ | KTick => True | _ => False end.

(** What a replica [id] knows of the cluster: what consensus says, with the
    committed configuration if the replica leads. *)
Definition known {RS} (o : raft_ops RS) (id : N) (r : RS * list raft_call) : raft_st :=
  let s := ra_state o r.1 in
  if rf_leader s =? id then RaftSt (rf_leader s) (rf_term s) (cs_voters (config_of r.2)) (rf_pending s) else s.

Section Clock.
Context {RS SP CS ST REQ RESP : Type}.
Variable codec : driver_codec.
Variable rops : raft_ops RS.
Variable sops : snap_ops SP.
Variable cops : comm_ops CS REQ RESP.
Variable app : actor ST.
Variable d0 : rdriver RS SP CS ST REQ RESP.
(** In this history the clock of consensus was last advanced, or started, at
    instant [t]. *)
Inductive last_advance : list (delivery REQ RESP) -> N -> Prop :=
| advanced_now xs x d outs d' out rt :
    run codec rops sops cops app d0 xs = Ok (d, outs) -> receive codec rops sops cops app d x = Ok (d', out) ->
    raft_calls d' = raft_calls d ++ rt -> Exists clock_call rt ->
    last_advance (xs ++ [x]) (now (xs ++ [x]))
| advanced_before xs x t d outs d' out rt :
    last_advance xs t ->
    run codec rops sops cops app d0 xs = Ok (d, outs) -> receive codec rops sops cops app d x = Ok (d', out) ->
    raft_calls d' = raft_calls d ++ rt -> ~ Exists clock_call rt ->
    last_advance (xs ++ [x]) t.
End Clock.

Record driver_codec_ok (c : driver_codec) : Prop := DriverCodecOk {
  entry_round_trip : forall e, dec_entry c (enc_entry c e) = Some e;
  entry_not_empty : forall i contents, enc_entry c (Entry (Some i) contents) <> [];
}.
