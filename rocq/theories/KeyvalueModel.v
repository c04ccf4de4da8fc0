(** Model of the key value store and of the actor of the tablet cache
    application: apps/tablet_cache/service/src/store.rs and actor.rs, with the
    assembly of app/src/main.rs, on top of the model of the transaction manager.

    Simplifications: hashing of keys and the encoding of tablet contents and of
    incoming messages are parameters; outgoing messages are not encoded; a
    transaction and its commit handle are represented by the transaction's id and
    a flag; sizes are natural numbers; logging is left out. The handlers passed to
    the transaction context only change the store, so that calling them after the
    context's own work is the same as calling them during it; calling one while
    the store is borrowed aborts. *)
From Verif Require Import Base ActorModel TabletModel MetadataModel BlobModel CoordinatorModel.

(** store.rs 38-43 KeyValueRequest. *)
Inductive kv_request := KvPut (n : N) (key : string) (value : bytes) | KvGet (n : N) (key : string).
(** store.rs 47-52 KeyValueResponse. *)
Inductive kv_response := KvPutDone (n : N) (existed : bool) | KvGot (n : N) (existed : bool) (value : bytes).

(** The key of a request. *)
Definition kv_key (r : kv_request) : string := match r with KvPut _ k _ => k | KvGet _ k => k end.

(** store.rs 411-423 TabletTracker. *)
Record tablet_tracker := TabletTracker {
  tk_min : N;
  tk_busy : bool;
  tk_pending : list kv_request;
  tk_waiting : gmap N (list kv_request);
}.
(** store.rs 426-433 create. *)
Definition tracker_create (min : N) : tablet_tracker := TabletTracker min false [] ∅.
(** store.rs 435-439 append_pending_requests. *)
Definition tracker_append (t : tablet_tracker) (l : list kv_request) : tablet_tracker :=
  TabletTracker (tk_min t) (tk_busy t) (tk_pending t ++ l) (tk_waiting t).
(** store.rs 566-568 complete_transaction. *)
Definition tracker_complete (t : tablet_tracker) : tablet_tracker :=
  TabletTracker (tk_min t) false (tk_pending t) (tk_waiting t).

(** store.rs 572-578 TransactionTracker; [tt_committed]: the transaction has been
    turned into a commit handle. *)
Record tx_tracker := TxTracker {
  tt_tablets : list N;
  tt_requests : list kv_request;
  tt_responses : list kv_response;
  tt_committed : bool;
}.
(** store.rs 581-592 create. *)
Definition txt_create (tablets : list N) : tx_tracker := TxTracker tablets [] [] false.
(** store.rs 594-600 append_process_results. *)
Definition txt_append (t : tx_tracker) (l : list (kv_request * kv_response)) : tx_tracker :=
  TxTracker (tt_tablets t) (tt_requests t ++ map fst l) (tt_responses t ++ map snd l) (tt_committed t).

(** store.rs 161-169 SimpleKeyValueStoreCore, with 332-335 TableAccessor
    ([st_table], [st_counter]) and 363-367 RequestTracker ([st_min], [st_pending],
    [st_waiting]). [st_min_process]: the configured number of requests to wait for
    on a tablet. *)
Record kv_store := KvStore {
  st_table : string;
  st_counter : N;
  st_min : N;
  st_min_process : N;
  st_pending : list kv_request;
  st_waiting : gmap N (list kv_request);
  st_tablets : gmap N tablet_tracker;
  st_txs : gmap N tx_tracker;
  st_responses : list kv_response;
}.
(** store.rs 172-182 new. *)
Definition kv_new : kv_store := KvStore "" 0 0 0 [] ∅ ∅ ∅ [].
(** store.rs 188-193 init; the configuration itself is not kept, so that the
    number of requests to wait for on a tablet stays 0. *)
Definition kv_init (s : kv_store) (table : string) (min_resolve min_process : N) : kv_store :=
  KvStore table 0 min_resolve (st_min_process s) [] ∅ (st_tablets s) (st_txs s) (st_responses s).

(** store.rs 319-322 append_request, 378-381 append_pending_request. *)
Definition kv_append (s : kv_store) (r : kv_request) : kv_store :=
  KvStore (st_table s) (st_counter s) (st_min s) (st_min_process s) (st_pending s ++ [r]) (st_waiting s)
    (st_tablets s) (st_txs s) (st_responses s).
(** store.rs 324-326 take_responses. *)
Definition kv_take (s : kv_store) : kv_store * list kv_response :=
  (KvStore (st_table s) (st_counter s) (st_min s) (st_min_process s) (st_pending s) (st_waiting s)
    (st_tablets s) (st_txs s) [], st_responses s).

(** store.rs 402-407 take_resolved_requests and 195-214 handle_query_resolve: for
    each result the requests waiting under the query's id, which are removed. *)
Definition resolved_one (s : kv_store) (x : N * N) : kv_store :=
  let '(query, tablet) := x in
  let t := match st_tablets s !! tablet with Some t => t | None => tracker_create (st_min_process s) end in
  let l := match st_waiting s !! query with Some l => l | None => [] end in
  KvStore (st_table s) (st_counter s) (st_min s) (st_min_process s) (st_pending s) (delete query (st_waiting s))
    (<[tablet := tracker_append t l]> (st_tablets s)) (st_txs s) (st_responses s).
Definition kv_resolved (s : kv_store) (results : list (N * N)) : kv_store := foldl resolved_one s results.

Section Store.
(** store.rs 349-353 hash_key. *)
Variable hash_key : string -> N.
(** TabletContents::decode and encode. *)
Variable decode_contents : bytes -> option (gmap string bytes).
Variable encode_contents : gmap string bytes -> bytes.
(** The iteration orders of the hash maps. *)
Variable tracker_order : gmap N tablet_tracker -> list N.
Variable txt_order : gmap N tx_tracker -> list N.

(** store.rs 642-661 create_table_query, with 355-358 get_next_id. *)
Definition table_query_of (counter : N) (table : string) (l : list kv_request) : table_query :=
  query_create (counter + 1) table (map (fun r => hash_key (kv_key r)) l).

(** store.rs 383-399 collect_resolve_queries. *)
Definition collect_resolve (s : kv_store) : kv_store * list table_query :=
  if st_min s <=? Nlen (st_pending s) then
    let q := table_query_of (st_counter s) (st_table s) (st_pending s) in
    (KvStore (st_table s) (st_counter s + 1) (st_min s) (st_min_process s) []
       (<[tq_id q := st_pending s]> (st_waiting s)) (st_tablets s) (st_txs s) (st_responses s), [q])
  else (s, []).

(** store.rs 441-459 collect_process_queries. *)
Definition collect_process (counter : N) (table : string) (t : tablet_tracker) : option (tablet_tracker * table_query) :=
  if (tk_min t <=? Nlen (tk_pending t)) && negb (tk_busy t) then
    let q := table_query_of counter table (tk_pending t) in
    Some (TabletTracker (tk_min t) true [] (<[tq_id q := tk_pending t]> (tk_waiting t)), q)
  else None.
(** store.rs 262-266: collecting from all tablets. *)
Fixpoint collect_all (counter : N) (table : string) (m : gmap N tablet_tracker) (ids : list N)
  : N * gmap N tablet_tracker * list (N * table_query) :=
  match ids with
  | [] => (counter, m, [])
  | i :: ids =>
    match m !! i ≫= collect_process counter table with
    | Some (t, q) =>
      let '(counter, m, l) := collect_all (counter + 1) table (<[i := t]> m) ids in (counter, m, (i, q) :: l)
    | None => collect_all counter table m ids
    end
  end.

(** store.rs 521-542 process_put_request and 544-564 process_get_request: None if
    the key does not belong to the query. *)
Definition execute_request (q : table_query) (d : gmap string bytes) (r : kv_request)
  : gmap string bytes * option kv_response :=
  if decide (hash_key (kv_key r) ∈ tq_hashes q) then
    match r with
    | KvPut n key value => (<[key := value]> d, Some (KvPutDone n (bool_decide (is_Some (d !! key)))))
    | KvGet n key => (d, Some (KvGot n (bool_decide (is_Some (d !! key)))
                                (match d !! key with Some v => v | None => [] end)))
    end
  else (d, None).
(** store.rs 475-511: the loop over the requests: the contents, whether they were
    updated, the results, and the requests kept for later. *)
Fixpoint execute_all (q : table_query) (d : gmap string bytes) (l : list kv_request)
  : gmap string bytes * bool * list (kv_request * kv_response) * list kv_request :=
  match l with
  | [] => (d, false, [], [])
  | r :: l =>
    let '(d, o) := execute_request q d r in
    let '(d, updated, done, kept) := execute_all q d l in
    match o with
    | Some a => (d, match r with KvPut _ _ _ => true | KvGet _ _ => updated end, (r, a) :: done, kept)
    | None => (d, updated, done, r :: kept)
    end
  end.
(** store.rs 461-519 process_table_query; also returns the contents set, if any. *)
Definition process_query (t : tablet_tracker) (q : table_query) (contents : option bytes)
  : res unit (tablet_tracker * list (kv_request * kv_response) * option bytes) :=
  let! bs := unwrap contents in
  let! d := unwrap (decode_contents bs) in
  match tk_waiting t !! tq_id q with
  | None => Ok (t, [], None)
  | Some l =>
    let '(d, updated, done, kept) := execute_all q d l in
    Ok (TabletTracker (tk_min t) (tk_busy t) (tk_pending t) (<[tq_id q := kept]> (tk_waiting t)), done,
        if updated then Some (encode_contents d) else None)
  end.
(** store.rs 221-237: the loop of handle_query_process. *)
Fixpoint process_all (m : gmap N tablet_tracker) (tx : tx_tracker)
    (l : list (table_query * tablet_metadata * option bytes))
  : res unit (gmap N tablet_tracker * tx_tracker * list (option bytes)) :=
  match l with
  | [] => Ok (m, tx, [])
  | (q, md, contents) :: l =>
    match m !! tm_id md with
    | Some t =>
      let! (t, done, set) := process_query t q contents in
      let! (m, tx, outs) := process_all (<[tm_id md := t]> m) (txt_append tx done) l in
      Ok (m, tx, set :: outs)
    | None =>
      let! (m, tx, outs) := process_all m tx l in Ok (m, tx, None :: outs)
    end
  end.
(** store.rs 216-238 handle_query_process; the last part says for each tablet
    which contents the handler set. *)
Definition kv_process (s : kv_store) (tx : N) (l : list (table_query * tablet_metadata * option bytes))
  : res unit (kv_store * list (option bytes)) :=
  match st_txs s !! tx with
  | None => Ok (s, map (fun _ => None) l)
  | Some t =>
    let! (m, t, outs) := process_all (st_tablets s) t l in
    Ok (KvStore (st_table s) (st_counter s) (st_min s) (st_min_process s) (st_pending s) (st_waiting s)
          m (<[tx := t]> (st_txs s)) (st_responses s), outs)
  end.

(** transaction.rs 101-110 TabletTransactionContext, 240-266 TabletTransaction and
    269-273 TabletTransactionCommit: what the store calls. [cx_resolve] also says
    whether the resolve handler was called before it returned. *)
Record context (C : Type) := Context {
  cx_resolve : C -> list table_query -> res unit (C * bool);
  cx_start : C -> res unit (C * N);
  cx_process : C -> N -> list table_query -> res unit C;
  cx_pending : C -> N -> res unit bool;
  cx_commit : C -> N -> res unit C;
  cx_check : C -> N -> res unit (C * option tx_outcome);
}.
Arguments cx_resolve {C} _ _ _.
Arguments cx_start {C} _ _.
Arguments cx_process {C} _ _ _ _.
Arguments cx_pending {C} _ _ _.
Arguments cx_commit {C} _ _ _.
Arguments cx_check {C} _ _ _.

Section Progress.
Context {C : Type}.
Variable cx : context C.

(** store.rs 239-252 maybe_resolve_tablets; a handler called at once finds the
    store borrowed (store.rs 117 and 123). *)
Definition resolve_progress (s : kv_store) (c : C) : res unit (kv_store * C) :=
  let '(s, qs) := collect_resolve s in
  match qs with
  | [] => Ok (s, c)
  | _ =>
    let! (c, called) := cx_resolve cx c qs in
    if called : bool then Panic else Ok (s, c)
  end.

(** store.rs 254-281 maybe_start_transaction. *)
Definition start_progress (s : kv_store) (c : C) : res unit (kv_store * C) :=
  let '(counter, m, l) := collect_all (st_counter s) (st_table s) (st_tablets s) (tracker_order (st_tablets s)) in
  match l with
  | [] => Ok (s, c)
  | _ =>
    let! (c, tx) := cx_start cx c in
    let! c := cx_process cx c tx (map snd l) in
    Ok (KvStore (st_table s) counter (st_min s) (st_min_process s) (st_pending s) (st_waiting s) m
          (<[tx := txt_create (map fst l)]> (st_txs s)) (st_responses s), c)
  end.

(** store.rs 602-613 maybe_commit_transaction, for all transactions (283-288). *)
Fixpoint commit_progress (m : gmap N tx_tracker) (c : C) (ids : list N) : res unit (gmap N tx_tracker * C) :=
  match ids with
  | [] => Ok (m, c)
  | i :: ids =>
    match m !! i with
    | Some t =>
      if tt_committed t then commit_progress m c ids
      else
        let! pending := cx_pending cx c i in
        if pending : bool then commit_progress m c ids
        else
          let! c := cx_commit cx c i in
          commit_progress (<[i := TxTracker (tt_tablets t) (tt_requests t) (tt_responses t) true]> m) c ids
    | None => commit_progress m c ids
    end
  end.

(** store.rs 615-639 maybe_finalize_transaction, for all transactions (290-304):
    the completed transactions, the tablets affected and the responses. The failed
    requests are collected in a local variable that is not used. *)
Fixpoint finalize_progress (m : gmap N tx_tracker) (c : C) (ids : list N)
  : res unit (list N * list N * list kv_response * C) :=
  match ids with
  | [] => Ok ([], [], [], c)
  | i :: ids =>
    match m !! i with
    | Some t =>
      if tt_committed t then
        let! (c, o) := cx_check cx c i in
        let! (completed, tablets, responses, c) := finalize_progress m c ids in
        match o with
        | Some o => Ok (i :: completed, tt_tablets t ++ tablets,
                        match o with TxSucceeded => tt_responses t ++ responses | TxFailed => responses end, c)
        | None => Ok (completed, tablets, responses, c)
        end
      else finalize_progress m c ids
    | None => finalize_progress m c ids
    end
  end.

(** store.rs 112-147 make_progress. *)
Definition kv_progress (s : kv_store) (c : C) : res unit (kv_store * C) :=
  let! (s, c) := resolve_progress s c in
  let! (s, c) := start_progress s c in
  let! (txs, c) := commit_progress (st_txs s) c (txt_order (st_txs s)) in
  let! (completed, tablets, responses, c) := finalize_progress txs c (txt_order txs) in
  Ok (KvStore (st_table s) (st_counter s) (st_min s) (st_min_process s) (st_pending s) (st_waiting s)
        (foldl (fun m i => alter tracker_complete i m) (st_tablets s) tablets)
        (foldl (fun m i => delete i m) txs completed) (st_responses s ++ responses), c).
End Progress.
End Store.

Arguments cx_resolve {C} _ _ _.
Arguments cx_start {C} _ _.
Arguments cx_process {C} _ _ _ _.
Arguments cx_pending {C} _ _ _.
Arguments cx_commit {C} _ _ _.
Arguments cx_check {C} _ _ _.
Arguments Context {C} _ _ _ _ _ _.

(** * The actor *)

(** TabletCacheInMessage: the messages whose header can be parsed. *)
Inductive cache_in :=
| CachePut (key : string) (value : bytes)
| CacheGet (key : string)
| CacheLoaded (status : N)
| CacheStored (status : N)
| CacheOps
| CacheOpsError.
(** TabletCacheOutMessage. *)
Inductive cache_out := CacheRequest (m : manager_out) | CacheAnswer (r : kv_response).

(** actor.rs 37-44 TabletCacheActor. *)
Record cache_actor := CacheActor { ca_manager : manager bytes unit; ca_store : kv_store }.

Section Actor.
Variable sha256 : bytes -> bytes.
Variable base64 : bytes -> string.
Variable entry_order : gmap string (entry bytes) -> list (string * entry bytes).
Variable result_order : gmap (string * N) resolve_result -> list resolve_result.
Variable region_order : gmap N region -> list (N * region).
Variable table_order : gmap string table_cache -> list (string * table_cache).
Variable tablet_order : gmap (N * N) (working bytes) -> list (N * N).
Variable tx_order : gmap N (tx_state bytes unit) -> list N.
Variable hash_key : string -> N.
Variable decode_contents : bytes -> option (gmap string bytes).
Variable encode_contents : gmap string bytes -> bytes.
Variable tracker_order : gmap N tablet_tracker -> list N.
Variable txt_order : gmap N tx_tracker -> list N.
(** TabletCacheInMessage::decode: None: cannot be parsed; Some None: no message is
    set. *)
Variable decode_in : bytes -> option (option cache_in).
(** TabletsResponse::decode. *)
Variable decode_response : bytes -> option tablets_response.
(** TabletCacheConfig::decode: the table, the numbers of requests to wait for and the
    tables of the metadata cache; the parts that are unwrapped may be absent. *)
Variable decode_config : bytes -> option (option (string * N * N) * option (list (string * N))).

(** manager.rs 215-254: the manager as a transaction context. The resolve handler
    has been called if a result was delivered. *)
Definition manager_context : context (manager bytes unit) := Context
  (fun m qs => let! m' := mg_resolve result_order m qs in
     Ok (m', length (mc_delivered (mg_meta m)) <? length (mc_delivered (mg_meta m')))%nat)
  (fun m => let '(co, i) := co_start (mg_coordinator m) in Ok (set_coordinator m co, i))
  (fun m tx qs => let! co := co_process (mg_coordinator m) tx qs tt in Ok (set_coordinator m co))
  (fun m tx => co_pending (mg_coordinator m) tx)
  (fun m tx => let! co := co_commit tablet_order (mg_coordinator m) tx in Ok (set_coordinator m co))
  (fun m tx => let! (co, o) := co_check (mg_coordinator m) tx in Ok (set_coordinator m co, o)).

(** The resolve requests made by the store (and not by transactions) that were
    answered between two states of the manager, in order. *)
Definition newly_resolved (m m' : manager bytes unit) : list (list resolved) :=
  omap (fun x => match mc_resolves (mg_meta m') !! x.1 with
                 | Some r => match rs_kind r with ToHandler => Some x.2 | ToSource => None end
                 | None => None
                 end)
    (drop (length (mc_delivered (mg_meta m))) (mc_delivered (mg_meta m'))).
(** store.rs 121-124: the store's resolve handler, called with the results of
    each of them; metadata.rs 639-642: a tablet is described by its id. *)
Definition call_resolved (s : kv_store) (l : list (list resolved)) : kv_store :=
  foldl (fun s r => kv_resolved s (map (fun x => (tq_id x.1, tm_id x.2)) r)) s l.

(** manager.rs 257-287 with the calls of the handlers. *)
Definition actor_in (a : cache_actor) (x : manager_in) : res unit cache_actor :=
  let! m := mg_in Some result_order (ca_manager a) x in
  Ok (CacheActor m (call_resolved (ca_store a) (newly_resolved (ca_manager a) m))).

(** main.rs 57-74: the parts of the application. *)
Definition actor_create : cache_actor := CacheActor (mg_create (2 ^ 56) (3 * 2 ^ 56) (2 * 2 ^ 56)) kv_new.
(** actor.rs 93-114 on_init; absent parts of the configuration are unwrapped. *)
Definition actor_init (a : cache_actor) (config : bytes) : res actor_error cache_actor :=
  match decode_config config with
  | None => Err AConfigLoading
  | Some (Some (table, min_resolve, min_process), Some tables) =>
    match mg_init (ca_manager a) tables with
    | Ok m => Ok (CacheActor m (kv_init (ca_store a) table min_resolve min_process))
    | _ => Panic
    end
  | Some _ => Panic
  end.

(** A call that cannot report an error. *)
Definition no_error {A} (r : res unit A) : res actor_error A :=
  match r with Ok x => Ok x | _ => Panic end.

(** actor.rs 129-187: the effect of an incoming command. *)
Definition actor_incoming (a : cache_actor) (c : actor_command) : res actor_error cache_actor :=
  match decode_in (ac_header c) with
  | None => Err AInternal
  | Some None => Err AInternal
  | Some (Some m) =>
    match m with
    | CachePut key value =>
      Ok (CacheActor (ca_manager a) (kv_append (ca_store a) (KvPut (ac_correlation c) key value)))
    | CacheGet key => Ok (CacheActor (ca_manager a) (kv_append (ca_store a) (KvGet (ac_correlation c) key)))
    | CacheLoaded status => no_error (actor_in a (InData (LoadResponse (ac_correlation c) status (ac_payload c))))
    | CacheStored status => no_error (actor_in a (InData (StoreResponse (ac_correlation c) status)))
    | CacheOps =>
      match decode_response (ac_payload c) with
      | Some r => no_error (actor_in a (InOps (ac_correlation c) r))
      | None => Panic
      end
    | CacheOpsError => no_error (actor_in a (InOpsError (ac_correlation c)))
    end
  end.

(** actor.rs 189-246: progress and the outgoing messages. The transaction manager
    is not asked to make progress. *)
Definition actor_outgoing (a : cache_actor) : res actor_error (cache_actor * list cache_out) :=
  let! (s, m) := no_error (kv_progress hash_key tracker_order txt_order manager_context (ca_store a) (ca_manager a)) in
  let! (m, out) := no_error (mg_take m) in
  let '(s, responses) := kv_take s in
  Ok (CacheActor m s, map CacheRequest out ++ map CacheAnswer responses).

(** actor.rs 125-249 on_process_command. *)
Definition actor_process (a : cache_actor) (c : option actor_command) : res actor_error (cache_actor * list cache_out) :=
  let! a := match c with Some c => actor_incoming a c | None => Ok a end in
  actor_outgoing a.

(** actor.rs 118-124 on_save_snapshot, on_load_snapshot; 251-257 on_apply_event:
    nothing is saved, loaded or applied. *)
Definition actor_save (a : cache_actor) : res actor_error bytes := Ok [].
Definition actor_load (a : cache_actor) (snapshot : bytes) : res actor_error cache_actor := Ok a.
Definition actor_apply (a : cache_actor) (ctx : event_context) (e : actor_event) : res actor_error (cache_actor * list cache_out) :=
  Ok (a, []).
End Actor.
