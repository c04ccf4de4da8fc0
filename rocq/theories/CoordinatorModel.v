(** Model of the transaction coordinator and the transaction manager of the
    tablet cache application: apps/tablet_cache/service/src/transaction.rs,
    transaction/coordinator.rs and transaction/manager.rs, on top of the models
    of the metadata cache and of the data cache.

    Simplifications: a handler is an element of a type of handlers, with a
    function that says what a call of it does to the state of the client and
    which contents it sets for the tablets it is given (the last contents set,
    or nothing; a handler cannot do anything else to a tablet). A tablet key is
    the pair of the tablet's id and version instead of the two 32-bit numbers
    packed in one 64-bit number. Logging and the ignored parts of messages are
    left out. Calling back into the manager from a handler is not modelled. *)
From Verif Require Import Base TabletModel MetadataModel BlobModel.

(** transaction.rs 290-296 TabletTransactionOutcome. *)
Inductive tx_outcome := TxSucceeded | TxFailed.
Global Instance tx_outcome_eq : EqDecision tx_outcome.
Proof. solve_decision. Defined.

(** coordinator.rs 601-603 create_tablet_key. *)
Definition tablet_key (m : tablet_metadata) : N * N := (tm_id m, tm_version m).

(** coordinator.rs 607-612 TabletState with transaction.rs 121-126 Tablet. *)
Record working (V : Type) := Working {
  wk_query : table_query;
  wk_meta : tablet_metadata;
  wk_contents : option V;
  wk_updated : option V;
  wk_dirty : bool;
}.
Arguments Working {V} _ _ _ _ _.
Arguments wk_query {V} _.
Arguments wk_meta {V} _.
Arguments wk_contents {V} _.
Arguments wk_updated {V} _.
Arguments wk_dirty {V} _.

(** coordinator.rs 615-620 create (transaction.rs 129-136). *)
Definition working_create {V} (q : table_query) (m : tablet_metadata) : working V := Working q m None None false.
(** coordinator.rs 629-632 tablet_init. *)
Definition working_init {V} (w : working V) (v : V) : working V :=
  Working (wk_query w) (wk_meta w) (Some v) (wk_updated w) (wk_dirty w).
(** transaction.rs 166-169 set_contents, if the handler called it. *)
Definition working_set {V} (w : working V) (o : option V) : working V :=
  match o with
  | Some v => Working (wk_query w) (wk_meta w) (wk_contents w) (Some v) true
  | None => w
  end.
(** coordinator.rs 636-642 tablet_prepare: the updated contents are taken. *)
Definition working_taken {V} (w : working V) : working V :=
  Working (wk_query w) (wk_meta w) (wk_contents w) None (wk_dirty w).
Definition working_moved {V} (w : working V) (m : tablet_metadata) : working V :=
  Working (wk_query w) m (wk_contents w) (wk_updated w) (wk_dirty w).
(** coordinator.rs 645-665 get_tablet_op. *)
Definition working_op {V} (w : working V) : tablet_op :=
  TabletOp (tq_table (wk_query w))
    (Some (if wk_dirty w then OpUpdate (Some (wk_meta w))
           else OpCheck (tm_id (wk_meta w)) (tm_version (wk_meta w)))).

(** coordinator.rs 676-692 TabletProcessStatus; a result handle of the metadata
    cache is the number of its request. *)
Inductive process_status :=
| PsPending (queries : list table_query)
| PsResolving (request : N)
| PsLoading (h : handle)
| PsStoring (h : handle)
| PsCompleted
| PsFailed.

(** coordinator.rs 668-674 TabletProcessState. *)
Record process (V H : Type) := Process {
  ps_status : process_status;
  ps_handler : H;
  ps_tablets : gmap (N * N) (working V);
}.
Arguments Process {V H} _ _ _.
Arguments ps_status {V H} _.
Arguments ps_handler {V H} _.
Arguments ps_tablets {V H} _.

(** coordinator.rs 331-340 TabletTransactionState. *)
Inductive tx_state (V H : Type) :=
| TxPreparing (processes : list (process V H))
| TxCommitting (ops : list tablet_op)
| TxCompleted (o : tx_outcome).
Arguments TxPreparing {V H} _.
Arguments TxCommitting {V H} _.
Arguments TxCompleted {V H} _.

(** coordinator.rs 109-123 DefaultTabletTransactionCoordinator. *)
Record coordinator (V H : Type) := Coordinator {
  co_correlation : N;
  co_counter : N;
  co_transactions : gmap N (tx_state V H);
  co_correlations : gmap N N;
  co_out : list (N * list tablet_op);
}.
Arguments Coordinator {V H} _ _ _ _ _.
Arguments co_correlation {V H} _.
Arguments co_counter {V H} _.
Arguments co_transactions {V H} _.
Arguments co_correlations {V H} _.
Arguments co_out {V H} _.

(** A call of a handler: the transaction it was called for, the handler, and for
    each tablet the query, the metadata, the contents and the contents set by the handler. *)
Record handled (V H : Type) := Handled {
  hd_tx : N;
  hd_handler : H;
  hd_tablets : list (table_query * tablet_metadata * option V * option V);
}.
Arguments Handled {V H} _ _ _.
Arguments hd_tx {V H} _.
Arguments hd_handler {V H} _.
Arguments hd_tablets {V H} _.

(** manager.rs 160-170 TabletTransactionManagerCore. *)
Record manager (V H : Type) := Manager {
  mg_coordinator : coordinator V H;
  mg_meta : metadata_cache;
  mg_data : data_cache V;
  mg_errors : gmap N tablets_response;
}.
Arguments Manager {V H} _ _ _ _.
Arguments mg_coordinator {V H} _.
Arguments mg_meta {V H} _.
Arguments mg_data {V H} _.
Arguments mg_errors {V H} _.

(** transaction.rs 47-56 InMessage. *)
Inductive manager_in :=
| InData (m : data_in)
| InOps (correlation : N) (r : tablets_response)
| InOpsError (correlation : N).
(** transaction.rs 60-67 OutMessage. *)
Inductive manager_out :=
| OutOps (correlation : N) (ops : list tablet_op)
| OutData (m : data_out).

Section Coordinator.
Context {V H S : Type}.
Variable serialize : V -> option bytes.
Variable deserialize : bytes -> option V.
Variable sha256 : bytes -> bytes.
Variable base64 : bytes -> string.
(** The iteration orders of the hash maps. *)
Variable entry_order : gmap string (entry V) -> list (string * entry V).
Variable result_order : gmap (string * N) resolve_result -> list resolve_result.
Variable region_order : gmap N region -> list (N * region).
Variable table_order : gmap string table_cache -> list (string * table_cache).
Variable tablet_order : gmap (N * N) (working V) -> list (N * N).
Variable tx_order : gmap N (tx_state V H) -> list N.
(** What a call of a handler does: it may abort (it does if it reads contents
    that are absent, transaction.rs 162-164). *)
Variable handle_tablets : S -> H -> N -> list (table_query * tablet_metadata * option V) ->
  res unit (S * list (option V)).

(** coordinator.rs 126-135 create. *)
Definition co_create (correlation : N) : coordinator V H := Coordinator correlation 1 ∅ ∅ [].

(** result.rs 51-60 check_result for a resolve request; a resolve request never
    ends with an error. *)
Definition resolve_outcome (c : metadata_cache) (request : N) : option (list resolved) :=
  snd <$> List.find (fun x => x.1 =? request) (mc_delivered c).

(** coordinator.rs 391-398: the tablets of a resolved request. *)
Definition track_resolved (t : gmap (N * N) (working V)) (x : resolved) : gmap (N * N) (working V) :=
  <[tablet_key x.2 := working_create x.1 x.2]> t.
(** coordinator.rs 423-431: setting the loaded contents. *)
Fixpoint init_loaded (t : gmap (N * N) (working V)) (l : list (tablet_metadata * V))
  : res unit (gmap (N * N) (working V)) :=
  match l with
  | [] => Ok t
  | (m, v) :: l =>
    let! w := unwrap (t !! tablet_key m) in
    init_loaded (<[tablet_key m := working_init w v]> t) l
  end.
(** coordinator.rs 433-436: the tablets handed to the handler. *)
Definition handler_input (t : gmap (N * N) (working V)) (keys : list (N * N))
  : list (table_query * tablet_metadata * option V) :=
  omap (fun k => (fun w => (wk_query w, wk_meta w, wk_contents w)) <$> t !! k) keys.
(** What the handler set. *)
Definition set_tablet (t : gmap (N * N) (working V)) (x : (N * N) * option V) : gmap (N * N) (working V) :=
  alter (fun w => working_set w x.2) x.1 t.
Definition set_tablets_contents (t : gmap (N * N) (working V)) (keys : list (N * N)) (outs : list (option V))
  : gmap (N * N) (working V) := foldl set_tablet t (zip keys outs).
(** coordinator.rs 441-448: the tablets to store. *)
Definition tablet_writes (t : gmap (N * N) (working V)) (keys : list (N * N))
  : list ((N * N) * (tablet_metadata * V)) :=
  omap (fun k => w ← t !! k; v ← wk_updated w; Some (k, (wk_meta w, v))) keys.
(** data.rs 417-431: the metadata of the tablets stored is changed in place. *)
Definition move_tablet (t : gmap (N * N) (working V)) (x : (N * N) * tablet_metadata) : gmap (N * N) (working V) :=
  alter (fun w => working_moved w x.2) x.1 t.

(** The state the coordinator and the caches share while making progress; the
    last part collects the calls of handlers. *)
Record shared := Shared {
  sh_client : S;
  sh_meta : metadata_cache;
  sh_data : data_cache V;
  sh_handled : list (handled V H);
}.

(** coordinator.rs 375-485: advancing one process. *)
Definition process_progress (tx : N) (s : shared) (p : process V H) : res unit (shared * process V H) :=
  match ps_status p with
  | PsPending queries =>
    let! mc := mc_resolve result_order (sh_meta s) queries ToSource in
    Ok (Shared (sh_client s) mc (sh_data s) (sh_handled s),
        Process (PsResolving (mc_resolve_counter mc)) (ps_handler p) (ps_tablets p))
  | PsResolving request =>
    match resolve_outcome (sh_meta s) request with
    | None => Ok (s, p)
    | Some values =>
      let tablets := foldl track_resolved (ps_tablets p) values in
      let! (dc, h) := load_tablets (sh_data s) (map snd values) in
      Ok (Shared (sh_client s) (sh_meta s) dc (sh_handled s), Process (PsLoading h) (ps_handler p) tablets)
    end
  | PsLoading h =>
    match check_result (sh_data s) h with
    | None => Ok (s, p)
    | Some (OutLoaded values) =>
      let! tablets := init_loaded (ps_tablets p) values in
      let keys := tablet_order tablets in
      let input := handler_input tablets keys in
      let! (client, outs) := handle_tablets (sh_client s) (ps_handler p) tx input in
      let tablets := set_tablets_contents tablets keys outs in
      let writes := tablet_writes tablets (tablet_order tablets) in
      let tablets := working_taken <$> tablets in
      let! (dc, ms, h) := store_tablets serialize sha256 base64 (sh_data s) (map snd writes) in
      let tablets := foldl move_tablet tablets (zip (map fst writes) ms) in
      Ok (Shared client (sh_meta s) dc
            (sh_handled s ++ [Handled tx (ps_handler p) (zip input (outs ++ replicate (length input) None))]),
          Process (PsStoring h) (ps_handler p) tablets)
    | Some _ => Ok (s, Process PsFailed (ps_handler p) (ps_tablets p))
    end
  | PsStoring h =>
    match check_result (sh_data s) h with
    | None => Ok (s, p)
    | Some OutFailed => Ok (s, Process PsFailed (ps_handler p) (ps_tablets p))
    | Some _ => Ok (s, Process PsCompleted (ps_handler p) (ps_tablets p))
    end
  | PsCompleted => Ok (s, p)
  | PsFailed => Ok (s, p)
  end.

(** coordinator.rs 367-486 PreparingTabletTransactionState::make_progress. *)
Fixpoint preparing_progress (tx : N) (s : shared) (ps : list (process V H))
  : res unit (shared * list (process V H)) :=
  match ps with
  | [] => Ok (s, [])
  | p :: ps =>
    let! (s, p) := process_progress tx s p in
    let! (s, ps) := preparing_progress tx s ps in
    Ok (s, p :: ps)
  end.

(** coordinator.rs 158-174 make_progress, over the transactions in order. *)
Fixpoint transactions_progress (s : shared) (txs : gmap N (tx_state V H)) (ids : list N)
  : res unit (shared * gmap N (tx_state V H)) :=
  match ids with
  | [] => Ok (s, txs)
  | i :: ids =>
    match txs !! i with
    | Some (TxPreparing ps) =>
      let! (s, ps) := preparing_progress i s ps in
      transactions_progress s (<[i := TxPreparing ps]> txs) ids
    | _ => transactions_progress s txs ids
    end
  end.
Definition co_progress (c : coordinator V H) (s : shared) : res unit (coordinator V H * shared) :=
  let! (s, txs) := transactions_progress s (co_transactions c) (tx_order (co_transactions c)) in
  Ok (Coordinator (co_correlation c) (co_counter c) txs (co_correlations c) (co_out c), s).

(** coordinator.rs 535-597 CommittingTabletTransactionState::complete; the loop
    over the operations zipped with the results. *)
Fixpoint committing_complete (l : list (tablet_op * op_result))
  : res unit (tx_outcome * list (string * tablet_metadata * bool)) :=
  match l with
  | [] => Ok (TxSucceeded, [])
  | (op, r) :: l =>
    let succeeded := bool_decide (or_status r = OpSucceeded) in
    let! updates :=
      match op_kind_of op, or_detail r with
      | Some (OpCheck _ _), Some (CheckResult existing) =>
        if succeeded then Ok []
        else let! m := unwrap existing in Ok [(op_table op, m, true)]
      | Some (OpUpdate updated), Some (UpdateResult existing) =>
        if succeeded then let! m := unwrap updated in Ok [(op_table op, m, false)]
        else let! m := unwrap existing in Ok [(op_table op, m, true)]
      | _, _ => Panic
      end in
    let! (o, more) := committing_complete l in
    Ok (if succeeded then o else TxFailed, updates ++ more)
  end.

Definition update_meta (c : metadata_cache) (x : string * tablet_metadata * bool) : metadata_cache :=
  let '(table, m, conflict) := x in mc_update c table m conflict.

(** coordinator.rs 176-204 process_in_message. *)
Definition co_response (c : coordinator V H) (mc : metadata_cache) (n : N) (results : list op_result)
  : res unit (coordinator V H * metadata_cache) :=
  match co_correlations c !! n with
  | None => Ok (c, mc)
  | Some tx =>
    let correlations := delete n (co_correlations c) in
    match co_transactions c !! tx with
    | Some (TxCommitting ops) =>
      let! (o, updates) := committing_complete (zip ops results) in
      Ok (Coordinator (co_correlation c) (co_counter c) (<[tx := TxCompleted o]> (co_transactions c))
            correlations (co_out c), foldl update_meta mc updates)
    | _ => Ok (Coordinator (co_correlation c) (co_counter c) (co_transactions c) correlations (co_out c), mc)
    end
  end.

(** coordinator.rs 206-208 take_out_messages. *)
Definition co_take (c : coordinator V H) : coordinator V H * list (N * list tablet_op) :=
  (Coordinator (co_correlation c) (co_counter c) (co_transactions c) (co_correlations c) [], co_out c).

Definition set_transactions (c : coordinator V H) (t : gmap N (tx_state V H)) : coordinator V H :=
  Coordinator (co_correlation c) (co_counter c) t (co_correlations c) (co_out c).

(** coordinator.rs 210-225 create_transaction. *)
Definition co_start (c : coordinator V H) : coordinator V H * N :=
  let i := co_counter c + 1 in
  (Coordinator (co_correlation c) i (<[i := TxPreparing []]> (co_transactions c)) (co_correlations c) (co_out c), i).

(** coordinator.rs 227-243 process_transaction, with 488-494 init_pending. *)
Definition co_process (c : coordinator V H) (tx : N) (queries : list table_query) (h : H)
  : res unit (coordinator V H) :=
  match co_transactions c !! tx with
  | Some (TxPreparing ps) =>
    Ok (set_transactions c (<[tx := TxPreparing (ps ++ [Process (PsPending queries) h ∅])]> (co_transactions c)))
  | _ => Panic
  end.

(** coordinator.rs 496-503 is_active. *)
Definition process_active (p : process V H) : bool :=
  match ps_status p with PsCompleted => false | _ => true end.
Definition is_active (ps : list (process V H)) : bool := existsb process_active ps.

(** coordinator.rs 245-258 has_transaction_pending_process. *)
Definition co_pending (c : coordinator V H) (tx : N) : res unit bool :=
  match co_transactions c !! tx with
  | Some (TxPreparing ps) => Ok (is_active ps)
  | Some _ => Ok false
  | None => Panic
  end.

(** coordinator.rs 505-522 complete. *)
Definition process_ops (p : process V H) : list tablet_op :=
  omap (fun k => working_op <$> ps_tablets p !! k) (tablet_order (ps_tablets p)).
Definition process_failed (p : process V H) : bool :=
  match ps_status p with PsFailed => true | _ => false end.
Definition preparing_complete (ps : list (process V H)) : option (list tablet_op) :=
  if existsb process_failed ps then None else Some (concat (map process_ops ps)).

(** coordinator.rs 260-294 commit_transaction, with 137-150 transaction_stash_request. *)
Definition co_commit (c : coordinator V H) (tx : N) : res unit (coordinator V H) :=
  match co_transactions c !! tx with
  | Some (TxPreparing ps) =>
    if is_active ps then Panic
    else
      match preparing_complete ps with
      | Some ops =>
        let n := co_correlation c + 1 in
        Ok (Coordinator n (co_counter c) (<[tx := TxCommitting ops]> (co_transactions c))
              (<[n := tx]> (co_correlations c)) (co_out c ++ [(n, ops)]))
      | None => Ok (set_transactions c (<[tx := TxCompleted TxFailed]> (co_transactions c)))
      end
  | _ => Panic
  end.

(** coordinator.rs 296-300 abort_transaction. *)
Definition co_abort (c : coordinator V H) (tx : N) : coordinator V H :=
  set_transactions c (delete tx (co_transactions c)).

(** coordinator.rs 302-327 check_transaction_result. *)
Definition co_check (c : coordinator V H) (tx : N) : res unit (coordinator V H * option tx_outcome) :=
  match co_transactions c !! tx with
  | Some (TxCommitting _) => Ok (c, None)
  | Some (TxCompleted o) => Ok (set_transactions c (delete tx (co_transactions c)), Some o)
  | _ => Panic
  end.

(** * The manager *)

(** manager.rs 174-187 create. *)
Definition mg_create (co mc dc : N) : manager V H := Manager (co_create co) (mc_create mc) (dc_create dc) ∅.
(** manager.rs 189-203 init; only the metadata cache's tables are configured. *)
Definition mg_init (m : manager V H) (configs : list (string * N)) : res unit (manager V H) :=
  let! mc := mc_init (mg_meta m) configs in
  Ok (Manager (mg_coordinator m) mc (mg_data m) (mg_errors m)).

(** manager.rs 205-213 make_progress. *)
Definition mg_progress (m : manager V H) (client : S) (evicted : list string)
  : res unit (manager V H * S * list (handled V H)) :=
  let mc := mc_progress region_order table_order (mg_meta m) in
  let! dc := dc_progress entry_order (mg_data m) evicted in
  let! (co, s) := co_progress (mg_coordinator m) (Shared client mc dc []) in
  Ok (Manager co (sh_meta s) (sh_data s) (mg_errors m), sh_client s, sh_handled s).

(** manager.rs 215-218 resolve. *)
Definition mg_resolve (m : manager V H) (queries : list table_query) : res unit (manager V H) :=
  let! mc := mc_resolve result_order (mg_meta m) queries ToHandler in
  Ok (Manager (mg_coordinator m) mc (mg_data m) (mg_errors m)).

Definition set_coordinator (m : manager V H) (c : coordinator V H) : manager V H :=
  Manager c (mg_meta m) (mg_data m) (mg_errors m).

(** manager.rs 373-408 process_in_tablets_op_response. *)
Definition is_list_result (r : op_result) : bool :=
  match or_detail r with Some (ListResult _ _ _) => true | _ => false end.
Definition is_exec_result (r : op_result) : bool :=
  match or_detail r with Some (ListResult _ _ _) => false | Some _ => true | None => false end.
Definition mg_tablets_response (m : manager V H) (n : N) (r : tablets_response) : res unit (manager V H) :=
  let lists := List.filter is_list_result (rs_results r) in
  let execs := List.filter is_exec_result (rs_results r) in
  let! mc := match lists with
             | [] => Ok (mg_meta m)
             | _ => mc_response result_order (mg_meta m) lists
             end in
  let! (co, mc) := match execs with
                   | [] => Ok (mg_coordinator m, mc)
                   | _ => co_response (mg_coordinator m) mc n execs
                   end in
  Ok (Manager co mc (mg_data m) (mg_errors m)).

(** manager.rs 411-429 create_failed_op_result. The results of add and remove
    operations, which are never requested, are not distinguished from an absent one. *)
Definition failed_op_result (op : tablet_op) : op_result :=
  OpResult (op_table op) OpFailed
    match op_kind_of op with
    | Some (OpList from to) => Some (ListResult from to [])
    | Some (OpCheck _ _) => Some (CheckResult None)
    | Some (OpUpdate _) => Some (UpdateResult None)
    | _ => None
    end.
Definition failed_response (ops : list tablet_op) : tablets_response :=
  TabletsResponse false (map failed_op_result ops).

(** manager.rs 257-287 process_in_message. *)
Definition mg_in (m : manager V H) (x : manager_in) : res unit (manager V H) :=
  match x with
  | InData d =>
    let! dc := dc_process deserialize (mg_data m) d in
    Ok (Manager (mg_coordinator m) (mg_meta m) dc (mg_errors m))
  | InOps n r =>
    mg_tablets_response (Manager (mg_coordinator m) (mg_meta m) (mg_data m) (delete n (mg_errors m))) n r
  | InOpsError n =>
    match mg_errors m !! n with
    | Some r =>
      mg_tablets_response (Manager (mg_coordinator m) (mg_meta m) (mg_data m) (delete n (mg_errors m))) n r
    | None => Ok m
    end
  end.

(** manager.rs 296-320 and 323-347: recording the answer to use in case of an error. *)
Fixpoint record_errors (errors : gmap N tablets_response) (l : list (N * list tablet_op))
  : res unit (gmap N tablets_response) :=
  match l with
  | [] => Ok errors
  | (n, ops) :: l =>
    match errors !! n with
    | Some _ => Panic
    | None => record_errors (<[n := failed_response ops]> errors) l
    end
  end.
(** manager.rs 289-371 take_out_messages. *)
Definition mg_take (m : manager V H) : res unit (manager V H * list manager_out) :=
  let '(co, execs) := co_take (mg_coordinator m) in
  let '(mc, lists) := mc_take (mg_meta m) in
  let '(dc, datas) := dc_take (mg_data m) in
  let! errors := record_errors (mg_errors m) (execs ++ lists) in
  Ok (Manager co mc dc errors,
      map (fun x => OutOps x.1 x.2) (execs ++ lists) ++ map OutData datas).

(** The calls of the users of the manager: manager.rs 68-97 (manager and
    context) and 115-144 (transactions); without the commit handle. *)
Inductive call :=
| CProgress (evicted : list string)
| CResolve (queries : list table_query)
| CStart
| CProcess (tx : N) (queries : list table_query) (h : H)
| CPending (tx : N)
| CCommit (tx : N)
| CAbort (tx : N)
| CCheck (tx : N)
| CIn (x : manager_in)
| CTake.
(** What a call returns, and the calls of handlers made meanwhile. *)
Inductive reply :=
| RNone
| RHandled (l : list (handled V H))
| RStarted (tx : N)
| RPending (b : bool)
| ROutcome (o : option tx_outcome)
| RMessages (l : list manager_out).

Definition mg_call (m : manager V H) (client : S) (c : call) : res unit (manager V H * S * reply) :=
  match c with
  | CProgress evicted =>
    let! (m, client, l) := mg_progress m client evicted in Ok (m, client, RHandled l)
  | CResolve queries => let! m := mg_resolve m queries in Ok (m, client, RNone)
  | CStart => let '(co, i) := co_start (mg_coordinator m) in Ok (set_coordinator m co, client, RStarted i)
  | CProcess tx queries h =>
    let! co := co_process (mg_coordinator m) tx queries h in Ok (set_coordinator m co, client, RNone)
  | CPending tx => let! b := co_pending (mg_coordinator m) tx in Ok (m, client, RPending b)
  | CCommit tx => let! co := co_commit (mg_coordinator m) tx in Ok (set_coordinator m co, client, RNone)
  | CAbort tx => Ok (set_coordinator m (co_abort (mg_coordinator m) tx), client, RNone)
  | CCheck tx =>
    let! (co, o) := co_check (mg_coordinator m) tx in Ok (set_coordinator m co, client, ROutcome o)
  | CIn x => let! m := mg_in m x in Ok (m, client, RNone)
  | CTake => let! (m, l) := mg_take m in Ok (m, client, RMessages l)
  end.

(** manager.rs 147-155 check_result of the commit handle, which keeps the outcome. *)
Record commit_handle := CommitHandle { ch_tx : N; ch_outcome : option tx_outcome }.
Definition handle_check (m : manager V H) (h : commit_handle) : res unit (manager V H * commit_handle) :=
  match ch_outcome h with
  | Some _ => Ok (m, h)
  | None =>
    let! (co, o) := co_check (mg_coordinator m) (ch_tx h) in
    Ok (set_coordinator m co, CommitHandle (ch_tx h) o)
  end.
End Coordinator.
