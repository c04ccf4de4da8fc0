(** Model of the tablet store application:
    apps/tablet_store/service/src/actor.rs.

    Simplifications: serialisation (prost) is a record of functions; the
    diagnostic text of an error is left out; of a table's configuration only its
    name and initial tablet count are kept (the sizes are never read); a version
    is a 32-bit number, and the increment of the largest one aborts, as in a
    build with overflow checks (without them it wraps around). *)
From Verif Require Import Base ActorModel Btree.

(** tablet_store.proto TabletMetadata. *)
Record tablet_metadata := TabletMetadata {
  tm_id : N;
  tm_version : N;
  tm_deleted : bool;
  tm_key : bytes;
  tm_size : N;
  tm_hash : bytes;
  tm_uri : string;
}.
(** The derived [Default], with the id set (actor.rs 60-66). *)
Definition fresh_tablet (i : N) : tablet_metadata := TabletMetadata i 0 false [] 0 [] "".

(** tablet_store.proto TabletOp. *)
Inductive op_kind :=
| OpList (from to : N)
| OpCheck (tablet version : N)
| OpAdd (m : option tablet_metadata)
| OpUpdate (m : option tablet_metadata)
| OpRemove (tablet version : N).
Record tablet_op := TabletOp { op_table : string; op_kind_of : option op_kind }.

(** tablet_store.proto TabletOpStatus. *)
Inductive op_status := OpUnspecified | OpSucceeded | OpFailed | OpAborted | OpInvalid.
Global Instance op_status_eq : EqDecision op_status.
Proof. solve_decision. Defined.
(** tablet_store.proto TabletOpResult. *)
Inductive op_detail :=
| ListResult (from to : N) (tablets : list tablet_metadata)
| CheckResult (existing : option tablet_metadata)
| UpdateResult (existing : option tablet_metadata).
Record op_result := OpResult { or_table : string; or_status : op_status; or_detail : option op_detail }.

(** tablet_store.proto TabletsResponse. *)
Record tablets_response := TabletsResponse { rs_succeeded : bool; rs_results : list op_result }.

(** tablet_store.proto ExecuteTabletOpsStatus. *)
Inductive ops_status := OpsRejected | OpsInvalidOperation.
(** tablet_store.proto TabletStoreOutMessage. *)
Inductive out_message := OutResponse | OutError (s : ops_status).

(** A table: actor.rs 49-52 TableMetadata; all tables: 239-244. *)
Notation table := (gmap N tablet_metadata).
Notation tables := (gmap string table).

(** tablet_store.proto TableSnapshot. *)
Record table_snapshot := TableSnapshot { ts_name : string; ts_tablets : list tablet_metadata }.

Record tablet_codec := TabletCodec {
  (** TabletStoreInMessage; the request in it carries nothing that is used *)
  dec_header : bytes -> option (option unit);
  (** TabletsRequest *)
  enc_ops : list tablet_op -> bytes;
  dec_ops : bytes -> option (list tablet_op);
  (** TabletsResponse *)
  enc_results : tablets_response -> bytes;
  (** TabletStoreOutMessage *)
  enc_out : out_message -> bytes;
  (** TabletStoreSnapshot *)
  enc_tables : list table_snapshot -> bytes;
  dec_tables : bytes -> option (list table_snapshot);
  (** TabletStoreConfig: names and initial tablet counts *)
  dec_tables_config : bytes -> option (list (string * N));
}.

(** actor.rs 55-72 create, for the ids the configurator generated. *)
Definition create_table (ids : list N) : table :=
  foldl (fun t i => <[i := fresh_tablet i]> t) ∅ ids.

(** actor.rs 74-79 load_snapshot. *)
Definition load_table (s : table_snapshot) : table :=
  foldl (fun t m => <[tm_id m := m]> t) ∅ (ts_tablets s).

(** actor.rs 81-92 save_snapshot: the values in key order, then sorted (stably)
    by their id. *)
Definition tm_le (a b : tablet_metadata) : Prop := tm_id a <= tm_id b.
Global Instance tm_le_dec a b : Decision (tm_le a b).
Proof. unfold tm_le. apply _. Defined.
Definition save_table (name : string) (t : table) : table_snapshot :=
  TableSnapshot name (merge_sort tm_le (map snd (btree_list t))).

(** actor.rs 113-128: the scan of one interval, over the tablets from its start
    on, in order. Returns the seen ids, the listed tablets and [found_last]. *)
Fixpoint scan_interval (to : N) (items : list (N * tablet_metadata)) (seen : gset N)
    (listed : list tablet_metadata) : gset N * list tablet_metadata * bool :=
  match items with
  | [] => (seen, listed, false)
  | (i, m) :: items =>
    let '(seen, listed) :=
      if decide (i ∈ seen) then (seen, listed) else ({[i]} ∪ seen, listed ++ [m]) in
    if to <=? i then (seen, listed, true) else scan_interval to items seen listed
  end.

(** actor.rs 110-139: one interval. *)
Definition list_interval (t : table) (st : gset N * list tablet_metadata) (interval : N * N)
  : gset N * list tablet_metadata :=
  let '(from, to) := interval in
  let '(seen, listed) := st in
  let items := List.filter (fun x => from <=? x.1) (btree_list t) in
  let '(seen, listed, found_last) := scan_interval to items seen listed in
  if found_last then (seen, listed)
  else
    match btree_list t with
    | (i, m) :: _ =>
      if decide (i ∈ seen) then (seen, listed) else ({[i]} ∪ seen, listed ++ [m])
    | [] => (seen, listed)
    end.

(** actor.rs 94-142 find_tablets. *)
Definition find_tablets (t : table) (from to : N) : list tablet_metadata :=
  let intervals := if from <? to then [(from, to)] else [(from, u32_max); (0, to)] in
  (foldl (list_interval t) (∅, []) intervals).2.

(** actor.rs 144-195 TableMetadata::prepare_tablet_op. *)
Definition prepare_in_table (t : table) (name : string) (k : op_kind) : res actor_error op_result :=
  match k with
  | OpList from to =>
    Ok (OpResult name OpSucceeded (Some (ListResult from to (find_tablets t from to))))
  | OpCheck i version =>
    match t !! i with
    | Some existing =>
      if tm_version existing =? version
      then Ok (OpResult name OpSucceeded (Some (CheckResult None)))
      else Ok (OpResult name OpFailed (Some (CheckResult (Some existing))))
    | None => Ok (OpResult name OpFailed (Some (CheckResult None)))
    end
  | OpUpdate None => Ok (OpResult name OpFailed (Some (UpdateResult None)))
  | OpUpdate (Some updated) =>
    match t !! tm_id updated with
    | Some existing =>
      if tm_version existing =? u32_max then Panic
      else if tm_version updated =? tm_version existing + 1
      then Ok (OpResult name OpSucceeded (Some (UpdateResult (Some existing))))
      else Ok (OpResult name OpFailed (Some (UpdateResult (Some existing))))
    | None => Ok (OpResult name OpFailed (Some (UpdateResult None)))
    end
  | OpAdd _ => Panic
  | OpRemove _ _ => Panic
  end.

(** actor.rs 341-353 TabletStoreActor::prepare_tablet_op. *)
Definition prepare_op (ts : tables) (op : tablet_op) : res actor_error op_result :=
  match ts !! op_table op, op_kind_of op with
  | Some t, Some k => prepare_in_table t (op_table op) k
  | _, _ => Ok (OpResult (op_table op) OpInvalid None)
  end.

(** actor.rs 197-219 TableMetadata::commit_tablet_op; the result is the prepared
    one, whose detail must be present. *)
Definition commit_in_table (t : table) (k : op_kind) (r : op_result) : res actor_error (table * op_result) :=
  match k with
  | OpList _ _ => let! d := unwrap (or_detail r) in Ok (t, OpResult (or_table r) (or_status r) (Some d))
  | OpCheck _ _ => let! d := unwrap (or_detail r) in Ok (t, OpResult (or_table r) (or_status r) (Some d))
  | OpUpdate m =>
    let! updated := unwrap m in
    let! d := unwrap (or_detail r) in
    Ok (<[tm_id updated := updated]> t, OpResult (or_table r) (or_status r) (Some d))
  | OpAdd _ => Panic
  | OpRemove _ _ => Panic
  end.

(** actor.rs 355-362 TabletStoreActor::commit_tablet_op. *)
Definition commit_op (ts : tables) (op : tablet_op) (r : op_result) : res actor_error (tables * op_result) :=
  let! t := unwrap (ts !! op_table op) in
  let! k := unwrap (op_kind_of op) in
  let! (t', r') := commit_in_table t k r in
  Ok (<[op_table op := t']> ts, r').

(** actor.rs 305-309: preparing all operations against the same state. *)
Fixpoint prepare_all (ts : tables) (ops : list tablet_op) : res actor_error (list op_result) :=
  match ops with
  | [] => Ok []
  | op :: ops =>
    let! r := prepare_op ts op in
    let! rs := prepare_all ts ops in
    Ok (r :: rs)
  end.

(** actor.rs 312-319: committing all operations, in order. *)
Fixpoint commit_all (ts : tables) (ops : list tablet_op) (rs : list op_result)
  : res actor_error (tables * list op_result) :=
  match ops, rs with
  | op :: ops, r :: rs =>
    let! (ts', r') := commit_op ts op r in
    let! (ts'', rs') := commit_all ts' ops rs in
    Ok (ts'', r' :: rs')
  | _, _ => Ok (ts, [])
  end.

(** actor.rs 302-339 on_apply_tablets_request. *)
Definition apply_tablets_request (ts : tables) (ops : list tablet_op)
  : res actor_error (tables * tablets_response) :=
  let! prepared := prepare_all ts ops in
  if forallb (fun r => bool_decide (or_status r = OpSucceeded)) prepared
  then let! (ts', results) := commit_all ts ops prepared in
       Ok (ts', TabletsResponse true results)
  else Ok (ts, TabletsResponse false prepared).

Section Actor.
Variable codec : tablet_codec.
(** The ids the configurator (actor.rs 222-237; random numbers) generates for
    the n-th configured table and its initial tablet count. *)
Variable generate : nat -> N -> list N.
(** The order in which the hash map of tables is iterated. *)
Variable order : tables -> list (string * table).

(** actor.rs 366-381 on_init. *)
Definition create_tables (configs : list (string * N)) : tables :=
  foldl (fun ts '(n, (name, count)) => <[name := create_table (generate n count)]> ts) ∅
    (imap (fun n c => (n, c)) configs).
Definition tablet_init (cx : actor_context) : res actor_error tables :=
  match dec_tables_config codec (cx_config cx) with
  | None => Err AConfigLoading
  | Some configs => Ok (create_tables configs)
  end.

(** actor.rs 385-395 on_save_snapshot. *)
Definition tablet_save (ts : tables) : res actor_error bytes :=
  Ok (enc_tables codec (map (fun '(name, t) => save_table name t) (order ts))).

(** actor.rs 403-409: the tables are replaced one by one; a table that is not
    configured is refused. *)
Fixpoint load_tables (ts : tables) (snapshots : list table_snapshot) : res actor_error tables :=
  match snapshots with
  | [] => Ok ts
  | s :: snapshots =>
    match ts !! ts_name s with
    | None => Err ASnapshotLoading
    | Some _ => load_tables (<[ts_name s := load_table s]> ts) snapshots
    end
  end.
(** actor.rs 397-412 on_load_snapshot. *)
Definition tablet_load (ts : tables) (snapshot : bytes) : res actor_error tables :=
  match dec_tables codec snapshot with
  | None => Err ASnapshotLoading
  | Some snapshots => load_tables ts snapshots
  end.

(** actor.rs 261-279 create_error_outcome. *)
Definition error_outcome (correlation : N) (s : ops_status) : command_outcome :=
  outcome_command (with_header correlation (enc_out codec (OutError s))).

(** actor.rs 414-470 on_process_command. *)
Definition tablet_command (cx : actor_context) (ts : tables) (c : option actor_command)
  : res actor_error (tables * command_outcome) :=
  match c with
  | None => Ok (ts, outcome_none)
  | Some c =>
    if negb (cx_leader cx) then Ok (ts, error_outcome (ac_correlation c) OpsRejected)
    else
      match dec_header codec (ac_header c) with
      | None => Ok (ts, error_outcome (ac_correlation c) OpsInvalidOperation)
      | Some (Some _) =>
        match dec_ops codec (ac_payload c) with
        | Some _ => Ok (ts, outcome_event (ActorEvent (ac_correlation c) (ac_payload c)))
        | None => Ok (ts, error_outcome (ac_correlation c) OpsInvalidOperation)
        end
      | Some None => Ok (ts, error_outcome (ac_correlation c) OpsInvalidOperation)
      end
  end.

(** actor.rs 472-483 on_apply_event, with 281-300 create_success_outcome. *)
Definition tablet_apply (ts : tables) (cx : event_context) (ev : actor_event)
  : res actor_error (tables * list actor_command) :=
  match dec_ops codec (ae_contents ev) with
  | None => Err AInternal
  | Some ops =>
    let! (ts', response) := apply_tablets_request ts ops in
    if ec_owned cx
    then Ok (ts', [ActorCommand (ae_correlation ev) (enc_out codec OutResponse) (enc_results codec response)])
    else Ok (ts', [])
  end.

Definition tablet_actor : actor tables :=
  Actor _ tablet_init tablet_save tablet_load tablet_command tablet_apply.
End Actor.
