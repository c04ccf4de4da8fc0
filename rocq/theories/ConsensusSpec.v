(** What it means to use consensus as its contract demands. *)
From Verif Require Import Base StorageModel SnapshotModel CommModel ActorModel DriverModel DriverSpec ConsensusModel.

(** ** The calls made *)
(** Consensus, in state [r], is called like this, and is in state [r'] after. A
    batch is only taken when there is one, and a snapshot only made when the store
    wants one. *)
Inductive consensus_does {RS} (o : raft_ops RS) (r : RS) : raft_call -> RS -> Prop :=
| does_init id c data leader n r' : ra_init o r id c data leader n = Ok r' -> consensus_does o r (KInit id leader data) r'
| does_step m r' b : ra_step o r m = (r', b) -> consensus_does o r (KStep m) r'
| does_propose p r' : ra_propose o r p = Ok r' -> consensus_does o r (KPropose p) r'
| does_change c r' e : ra_propose_change o r c = (r', e) -> consensus_does o r (KProposeChange c) r'
| does_tick : consensus_does o r KTick (ra_tick o r)
| does_apply c r' conf : ra_apply_change o r c = Ok (r', conf) -> consensus_does o r (KApplyChange c conf) r'
| does_ready r' rd : ra_has_ready o r = true -> ra_get_ready o r = (r', rd) -> consensus_does o r (KReady rd) r'
| does_advance n r' lr : ra_advance o r n = (r', lr) -> consensus_does o r (KLight n lr) r'
| does_applied : consensus_does o r KApplied (ra_advance_apply o r)
| does_report id s : consensus_does o r (KReport id s) (ra_report o r id s)
| does_hard h : consensus_does o r (KHard h) (ra_set_hard o r h)
| does_append es r' : ra_append o r es = Ok r' -> consensus_does o r (KAppend es) r'
| does_install s r' : ra_apply_snapshot o r s = Ok r' -> consensus_does o r (KInstall s) r'
| does_save i c data r' : ra_should_snapshot o r i c = true -> ra_create_snapshot o r i c data = Ok r' -> consensus_does o r (KSave i c data) r'.
(** These calls are made, one after the other, and no others. *)
Fixpoint consensus_runs {RS} (o : raft_ops RS) (r : RS) (t : list raft_call) (r' : RS) : Prop :=
  match t with
  | [] => r' = r
  | c :: t => exists r1, consensus_does o r c r1 /\ consensus_runs o r1 t r'
  end.

(** Initialised once, before anything else; then any calls that do not belong to
    a batch, and batches, each carried out completely before the next call. *)
Inductive keeps_contract (codec : driver_codec) : list raft_call -> Prop :=
| contract_unused : keeps_contract codec []
| contract_init id leader data : keeps_contract codec [KInit id leader data]
| contract_call t c :
    keeps_contract codec t -> t <> [] -> ~ batch_call c -> (forall id leader data, c <> KInit id leader data) ->
    keeps_contract codec (t ++ [c])
| contract_batch t b answer batch :
    keeps_contract codec t -> t <> [] -> carries_out codec b answer batch -> keeps_contract codec (t ++ batch).

(** ** What the raft crate promises *)
Section Node.
Context {ND NR : Type}.
Variable nops : node_ops ND NR.
(** The calls that change a node; the storage is reached through [nd_with_store]
    only. *)
Inductive node_move (n : ND) : ND -> Prop :=
| node_step m n' b : nd_step nops n m = (n', b) -> node_move n n'
| node_propose p n' : nd_propose nops n p = Ok n' -> node_move n n'
| node_change c n' e : nd_propose_change nops n c = (n', e) -> node_move n n'
| node_tick : node_move n (nd_tick nops n)
| node_apply c n' conf : nd_apply_change nops n c = Ok (n', conf) -> node_move n n'
| node_ready n' rd : nd_ready nops n = (n', rd) -> node_move n n'
| node_advance rest n' lr : nd_advance nops n rest = (n', lr) -> node_move n n'
| node_applied : node_move n (nd_advance_apply nops n)
| node_report id s : node_move n (nd_report nops n id s).
(** The storage after these calls of it: of those that change it, a node itself
    only asks for snapshots. *)
Definition asked (s : storage) (asks : list (N * N)) : storage :=
  foldl (fun s a => (storage_snapshot s a.1 a.2).1) s asks.
Record node_ok : Prop := NodeOk {
  node_store : forall n s, nd_store nops (nd_with_store nops n s) = s;
  node_new_store : forall id c s n, nd_new nops id c s = Ok n -> exists asks, nd_store nops n = asked s asks;
  node_move_store : forall n n', node_move n n' -> exists asks, nd_store nops n' = asked (nd_store nops n) asks;
}.
(** What a node says about who leads: itself, or nothing. *)
Record node_leads_ok (own : N -> ND -> Prop) : Prop := NodeLeadsOk {
  own_new : forall id c s n, nd_new nops id c s = Ok n -> own id n;
  own_move : forall id n n', own id n -> node_move n n' -> own id n';
  own_store : forall id n s, own id n -> own id (nd_with_store nops n s);
  own_leader : forall id n, own id n -> nd_leads nops n = true -> nd_leader nops n = id;
  report_keeps : forall n id s, nd_leads nops (nd_report nops n id s) = nd_leads nops n /\
    nd_leader nops (nd_report nops n id s) = nd_leader nops n /\ nd_term nops (nd_report nops n id s) = nd_term nops n /\
    nd_pending nops (nd_report nops n id s) = nd_pending nops n;
}.
End Node.

(** ** What is stored *)
(** One successful call of the storage. *)
Definition store_does (s : storage) (op : storage_op) (s' : storage) : Prop :=
  match op with
  | OpSetHardState h => s' = set_hard_state s h
  | OpAppend es => append_entries s es = Ok s'
  | OpApplySnapshot sn => apply_snapshot s sn = Ok s'
  | OpCreateSnapshot i c data => create_snapshot s i c data = Ok s'
  | OpSnapshot r p => s' = (storage_snapshot s r p).1
  end.
Fixpoint store_runs (s : storage) (ops : list storage_op) (s' : storage) : Prop :=
  match ops with
  | [] => s' = s
  | op :: ops => exists s1, store_does s op s1 /\ store_runs s1 ops s'
  end.
(** What a call of consensus asks to be stored. A replica that starts a cluster
    stores the initial state of the application as the first snapshot. *)
Definition stored_by (c : raft_call) : option storage_op :=
  match c with
  | KInit id true data => Some (OpApplySnapshot (Snapshot 1 1 (conf_of_voters [id]) data))
  | KHard h => Some (OpSetHardState h)
  | KAppend es => Some (OpAppend es)
  | KInstall s => Some (OpApplySnapshot s)
  | KSave i c data => Some (OpCreateSnapshot i c data)
  | _ => None
  end.
(** The node is called like this: it, together with what is left of the batches
    taken from it, goes from one state to the next. Everything the replica decides
    reaches the node as it is; a batch is acknowledged with what is left of that
    batch; what is to be stored goes to the storage of the node. *)
Inductive node_does {ND NR} (nops : node_ops ND NR) (n : ND) (left : gmap N NR) : raft_call -> ND -> gmap N NR -> Prop :=
| told_step m n' b : nd_step nops n m = (n', b) -> node_does nops n left (KStep m) n' left
| told_propose p n' : nd_propose nops n p = Ok n' -> node_does nops n left (KPropose p) n' left
| told_change c n' e : nd_propose_change nops n c = (n', e) -> node_does nops n left (KProposeChange c) n' left
| told_tick : node_does nops n left KTick (nd_tick nops n) left
| told_apply c n' conf : nd_apply_change nops n c = Ok (n', conf) -> node_does nops n left (KApplyChange c conf) n' left
| told_ready n' rd rest : nd_has_ready nops n = true -> nd_ready nops n = (n', (rd, rest)) ->
    node_does nops n left (KReady rd) n' (<[rd_number rd := rest]> left)
| told_advance number rest n' lr : left !! number = Some rest -> nd_advance nops n rest = (n', lr) ->
    node_does nops n left (KLight number lr) n' (delete number left)
| told_applied : node_does nops n left KApplied (nd_advance_apply nops n) left
| told_report id s : node_does nops n left (KReport id s) (nd_report nops n id s) left
| told_store c op store : (forall id le data, c <> KInit id le data) -> stored_by c = Some op -> store_does (nd_store nops n) op store ->
    node_does nops n left c (nd_with_store nops n store) left.
Fixpoint node_runs {ND NR} (nops : node_ops ND NR) (n : ND) (left : gmap N NR) (t : list raft_call) (n' : ND) (left' : gmap N NR) : Prop :=
  match t with
  | [] => n' = n /\ left' = left
  | c :: t => exists n1 left1, node_does nops n left c n1 left1 /\ node_runs nops n1 left1 t n' left'
  end.
Definition is_ask (op : storage_op) : bool := match op with OpSnapshot _ _ => true | _ => false end.
(** How many entries may be applied before a snapshot is made, as configured. *)
Definition snapshot_interval (q : start_request) : N :=
  match sr_raft q with
  | Some c => match rc_snapshot c with Some s => sc_count s | None => 1000 end
  | None => 1000
  end.
