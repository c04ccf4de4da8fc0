(** Specification: a replica that keeps running. What the parts the driver is
    generic in have to do for that, and what the host has to respect. *)
From Verif Require Import Base StorageModel SnapshotModel SnapshotSpec CommModel ActorModel DriverModel.

(** ** The application *)
(** [valid]: the states it can be in; [loads]: the snapshots and [applies]: the
    events it can read; [commands]: the commands it does not answer with an
    error. It decides on events it can read, only as the leader, and only when it
    got a command. *)
Record app_contract {ST} (app : actor ST) (valid : ST -> Prop) (loads applies : bytes -> Prop)
  (commands : actor_command -> Prop) : Prop := AppContract {
  ap_save : forall st, valid st -> exists data, a_save app st = Ok data;
  ap_load : forall st data, valid st -> loads data -> exists st', a_load app st data = Ok st' /\ valid st';
  ap_command : forall cx st m, valid st -> (forall c, m = Some c -> commands c) ->
    exists st' out, a_command app cx st m = Ok (st', out) /\ valid st' /\
      (forall ev, co_event out = Some ev -> is_Some m /\ cx_leader cx = true /\ applies (ae_contents ev));
  ap_apply : forall st cx ev, valid st -> applies (ae_contents ev) ->
    exists st' out, a_apply app st cx ev = Ok (st', out) /\ valid st';
}.

(** ** Consensus *)
(** What is to be done with a batch of consensus, in this order. *)
Inductive duty :=
| DHard (h : hard_state)
| DInstall (sn : snapshot)
| DEntry (e : rentry)
| DAppend (es : list rentry)
| DAdvance (number : N)
| DApplied.
Definition duties (rd : ready) : list duty :=
  match rd_hard rd with Some h => [DHard h] | None => [] end ++
  (if sn_index (rd_snapshot rd) =? 0 then [] else [DInstall (rd_snapshot rd)]) ++
  map DEntry (merge_sort entry_le (rd_committed rd)) ++
  match rd_entries rd with [] => [] | es => [DAppend es] end ++
  [DAdvance (rd_number rd)].
Definition light_duties (lr : light_ready) : list duty :=
  map DEntry (merge_sort entry_le (lr_committed lr)) ++ [DApplied].

Section Consensus.
Context {RS : Type}.
Variable codec : driver_codec.
Variable rops : raft_ops RS.
Variable loads applies : bytes -> Prop.
(** The messages of other replicas consensus can deal with. *)
Variable steps : RS -> rmsg -> Prop.

(** An event somebody proposed and the application can read. *)
Definition event_ok (data : bytes) : Prop :=
  exists en, dec_entry codec data = Some en /\ is_Some (en_id en) /\ applies (en_contents en).
(** An entry is empty, a readable change of the cluster, or such an event. *)
Definition entry_ok (e : rentry) : Prop :=
  re_data e = [] \/
  match re_type e with
  | EntryConfChange => is_Some (dec_change codec (re_data e))
  | _ => event_ok (re_data e)
  end.
(** The change of the cluster in an entry, if it has one. *)
Definition change_of (e : rentry) : option conf_change :=
  match re_data e, re_type e with
  | [], _ => None
  | data, EntryConfChange => dec_change codec data
  | _, _ => None
  end.
(** A message that transfers a snapshot has one, and goes to some replica. *)
Definition message_ok (m : rmsg) : Prop :=
  rm_type m = MsgSnapshot -> is_Some (rm_snapshot m) /\ rm_to m <> 0.
Definition ready_ok (rd : ready) : Prop :=
  Forall message_ok (rd_messages rd) /\ Forall message_ok (rd_persisted rd) /\ Forall entry_ok (rd_committed rd) /\
  (sn_index (rd_snapshot rd) <> 0 -> loads (sn_data (rd_snapshot rd))).
Definition light_ok (lr : light_ready) : Prop :=
  Forall message_ok (lr_messages lr) /\ Forall entry_ok (lr_committed lr).

(** [idle r n cs]: no batch is being carried out, and entries up to [n] are
    applied, with the configuration [cs] in effect. [busy r n cs l]: [l] is still
    to be done with the present batch. *)
Record consensus_contract (idle : RS -> N -> conf_state -> Prop) (busy : RS -> N -> conf_state -> list duty -> Prop)
  : Prop := ConsensusContract {
  ct_tick : forall r n cs, idle r n cs -> idle (ra_tick rops r) n cs;
  ct_report : forall r n cs id s, idle r n cs -> idle (ra_report rops r id s) n cs;
  ct_step : forall r n cs m, idle r n cs -> steps r m ->
    exists r', ra_step rops r m = (r', true) /\ idle r' n cs;
  ct_received : forall r n cs from to sn, idle r n cs -> loads (sn_data sn) ->
    idle (fst (ra_step rops r (snapshot_message from to sn))) n cs;
  ct_propose : forall r n cs p, idle r n cs -> ra_leader rops r = true -> event_ok p ->
    exists r', ra_propose rops r p = Ok r' /\ idle r' n cs;
  ct_propose_change : forall r n cs c, idle r n cs ->
    exists r' e, ra_propose_change rops r c = (r', e) /\ e <> Some RaftOther /\ idle r' n cs;
  ct_create : forall r n cs data, idle r n cs -> ra_should_snapshot rops r n cs = true ->
    exists r', ra_create_snapshot rops r n cs data = Ok r' /\ idle r' n cs;
  ct_ready : forall r n cs, idle r n cs -> ra_has_ready rops r = true ->
    exists r' rd, ra_get_ready rops r = (r', rd) /\ ready_ok rd /\ busy r' n cs (duties rd);
  ct_hard : forall r n cs h l, busy r n cs (DHard h :: l) -> busy (ra_set_hard rops r h) n cs l;
  ct_install : forall r n cs sn l, busy r n cs (DInstall sn :: l) ->
    exists r', ra_apply_snapshot rops r sn = Ok r' /\ busy r' (sn_index sn) (sn_conf sn) l;
  ct_entry : forall r n cs e l, busy r n cs (DEntry e :: l) ->
    match change_of e with
    | Some c => exists r' cs', ra_apply_change rops r c = Ok (r', cs') /\ busy r' (re_index e) cs' l
    | None => busy r (re_index e) cs l
    end;
  ct_append : forall r n cs es l, busy r n cs (DAppend es :: l) ->
    exists r', ra_append rops r es = Ok r' /\ busy r' n cs l;
  ct_advance : forall r n cs number, busy r n cs [DAdvance number] ->
    exists r' lr, ra_advance rops r number = (r', lr) /\ light_ok lr /\ busy r' n cs (light_duties lr);
  ct_applied : forall r n cs, busy r n cs [DApplied] -> idle (ra_advance_apply rops r) n cs;
}.
End Consensus.

(** ** The host *)
Section Host.
Context {RS SP CS ST REQ RESP : Type}.
Variable codec : driver_codec.
Variable rops : raft_ops RS.
Variable sops : snap_ops SP.
Variable cops : comm_ops CS REQ RESP.
Variable app : actor ST.
Variable commands : actor_command -> Prop.
(** The messages consensus, and the requests of a snapshot transfer the receiver
    can deal with. *)
Variable steps : RS -> rmsg -> Prop.
Variable chunks : SP -> peer_msg -> Prop.

(** How a replica may be started: with a number other than 0 and chunks that are
    not empty, with endorsements, not ephemeral, and so that the application and
    consensus can be initialised. *)
Definition start_ok (r : RS) (valid : ST -> Prop) (idle : RS -> N -> conf_state -> Prop) (q : start_request) (t : N) : Prop :=
  sr_id q <> 0 /\ sr_ephemeral q = false /\ sr_endorsements q = true /\
  (forall c s, sr_raft q = Some c -> rc_snapshot c = Some s -> sc_chunk_size s <> 0) /\
  exists st, a_init app (ActorCtx (sr_id q) t (sr_config q) (ra_leader rops r)) = Ok st /\ valid st /\
    forall data count, a_save app st = Ok data ->
      exists r', ra_init rops r (sr_id q) (sr_raft q) data (sr_leader q) count = Ok r' /\
        (if sr_leader q then idle r' 1 (conf_of_voters [sr_id q]) else idle r' 0 (conf_of_voters [])).

(** What the host may deliver to a running replica: anything but another start or
    a stop; messages of other replicas have contents, and if the peer is heard,
    then consensus and the receiver of snapshots can deal with what it says. *)
Definition delivery_ok (d : driver RS SP CS ST REQ RESP) (m : host_in REQ RESP) : Prop :=
  match m with
  | HStart _ | HStop => False
  | HApp c => commands c
  | HPeer pm =>
    is_Some (pm_payload pm) /\
    forall c' pm' p, co_in cops (d_comm d) (IPeer pm) = Ok (c', Some (IPeer pm')) -> pm_payload pm' = Some p ->
      match pm_kind pm' with
      | KSystem => forall rm, dec_rmsg codec (pl_contents p) = Some rm -> steps (d_raft d) rm
      | KSnapshotRequest => chunks (d_snap d) pm'
      | KSnapshotResponse => True
      end
  | _ => True
  end.
Definition call_ok (d : driver RS SP CS ST REQ RESP) (m : option (option (host_in REQ RESP))) : Prop :=
  match m with Some (Some m) => delivery_ok d m | _ => True end.

(** The states a replica goes through: it is started, and then gets any number
    of calls, at any times. *)
Inductive served (d0 : driver RS SP CS ST REQ RESP) (started : start_request -> N -> Prop)
  : driver RS SP CS ST REQ RESP -> Prop :=
| served_start q t d out : started q t ->
    receive_message codec rops sops cops app d0 t (Some (Some (HStart q))) = Ok (d, out) -> served d0 started d
| served_call d t m d' out : served d0 started d -> call_ok d m ->
    receive_message codec rops sops cops app d t m = Ok (d', out) -> served d0 started d'.
End Host.

(** The first request of a transfer that is not empty has a part of it, and if a
    request completes a transfer, then the application can read the snapshot. *)
Definition chunks_ok {SP} (sops : snap_ops SP) (dec_content : bytes -> option content) (loads : bytes -> Prop) (s : SP) (m : peer_msg) : Prop :=
  (forall p id size meta first, pm_payload m = Some p ->
     dec_content (pl_contents p) = Some (Content id (Some (CHeader size meta first))) -> size <> 0 -> first <> []) /\
  (forall s1 a s2 from sn, sp_request sops s m = Ok (s1, a) -> sp_received sops s1 = Ok (s2, Some (Some (from, sn))) -> loads (sn_data sn)).

(** A sender has no request to make: as many chunks as are allowed are on their
    way, or no transfer has a chunk left that was not sent. *)
Definition nothing_to_send (s : sender) : Prop :=
  sd_max_pending s <= in_flight s \/ forall r st, sd_receivers s !! r = Some st -> ~ viable st.
