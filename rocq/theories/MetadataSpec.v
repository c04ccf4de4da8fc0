(** What the theorems about the metadata cache of the tablet cache application
    speak about: histories of calls, what was reported to the cache, what was
    asked of it and which list requests are unanswered. *)
From Verif Require Import Base TabletModel MetadataModel.

(** The calls of the cache. *)
Inductive cache_call :=
| CallResolve (queries : list table_query) (kind : notification)
| CallProgress
| CallUpdate (table : string) (m : tablet_metadata) (conflict : bool)
| CallResponse (results : list op_result)
| CallTake.

(** The progress calls among calls. *)
Definition progress_calls (calls : list cache_call) : list unit :=
  omap (fun c => match c with CallProgress => Some tt | _ => None end) calls.

Section Histories.
Variable result_order : gmap (string * N) resolve_result -> list resolve_result.
Variable region_order : gmap N region -> list (N * region).
Variable table_order : gmap string table_cache -> list (string * table_cache).

(** The cache and the messages taken from it so far. *)
Record observed := Observed { ob_cache : metadata_cache; ob_taken : list (N * list tablet_op) }.
(** All messages the cache has produced. *)
Definition sent (s : observed) : list (N * list tablet_op) := ob_taken s ++ mc_out (ob_cache s).
(** What the cache has delivered: request and results. *)
Definition delivered (s : observed) : list (N * list resolved) := mc_delivered (ob_cache s).

Definition perform (s : observed) (call : cache_call) : res unit observed :=
  match call with
  | CallResolve queries kind =>
    let! c := mc_resolve result_order (ob_cache s) queries kind in Ok (Observed c (ob_taken s))
  | CallProgress => Ok (Observed (mc_progress region_order table_order (ob_cache s)) (ob_taken s))
  | CallUpdate table m conflict => Ok (Observed (mc_update (ob_cache s) table m conflict) (ob_taken s))
  | CallResponse results =>
    let! c := mc_response result_order (ob_cache s) results in Ok (Observed c (ob_taken s))
  | CallTake => let '(c, out) := mc_take (ob_cache s) in Ok (Observed c (ob_taken s ++ out))
  end.
Fixpoint performs (s : observed) (calls : list cache_call) : res unit observed :=
  match calls with [] => Ok s | call :: calls => let! s := perform s call in performs s calls end.

(** A history: the cache is created, configured with tables (name and region
    size), and then called. *)
Definition history (counter : N) (tables : list (string * N)) (calls : list cache_call) (s : observed) : Prop :=
  exists c, mc_init (mc_create counter) tables = Ok c /\ performs (Observed c []) calls = Ok s.
End Histories.

(** The regions the cache tracks for a table with a region size. *)
Definition tracked (size hash : N) : Prop := hash / size < u32_max / size.

(** The metadata reported to the cache for a table: by updates, and by
    successful list results for a region it tracks. *)
Definition result_reports (table : string) (size : N) (r : op_result) : list tablet_metadata :=
  match or_detail r with
  | Some (ListResult from _ tablets) =>
    if decide (or_table r = table /\ or_status r = OpSucceeded /\ from / size < u32_max / size) then tablets else []
  | _ => []
  end.
Definition call_reports (table : string) (size : N) (call : cache_call) : list tablet_metadata :=
  match call with
  | CallUpdate t m _ => if decide (t = table) then [m] else []
  | CallResponse rs => concat (map (result_reports table size) rs)
  | _ => []
  end.
Definition reports (table : string) (size : N) (calls : list cache_call) : list tablet_metadata :=
  concat (map (call_reports table size) calls).

(** The newest of the reports about a tablet. *)
Definition newest (i : N) (l : list tablet_metadata) (o : option tablet_metadata) : Prop :=
  match o with
  | None => forall m, m ∈ l -> tm_id m <> i
  | Some m => m ∈ l /\ tm_id m = i /\ forall m', m' ∈ l -> tm_id m' = i -> tm_version m' <= tm_version m
  end.
(** What the cache knows about a tablet. *)
Definition known (s : observed) (table : string) (i : N) : option tablet_metadata :=
  mc_tables (ob_cache s) !! table ≫= fun t => tb_tablets t !! i.

(** The resolve requests of a history; they are numbered from 2. *)
Definition call_queries (call : cache_call) : option (list table_query) :=
  match call with CallResolve queries _ => Some queries | _ => None end.
Definition request (calls : list cache_call) (i : N) : option (list table_query) :=
  if i <? 2 then None else omap call_queries calls !! N.to_nat (i - 2).

(** [h] is one of the hashes the queries [qs] ask for in [table] under the query id [qi]. *)
Definition asks (qs : list table_query) (table : string) (qi h : N) : Prop :=
  exists q, q ∈ qs /\ tq_table q = table /\ tq_id q = qi /\ h ∈ tq_hashes q.
Definition asks_any (qs : list table_query) (table : string) (h : N) : Prop :=
  exists qi, asks qs table qi h.

(** The list requests without an answer, as pairs of a table and the index of
    the region asked for. An answer (whatever its status) or a report of a
    conflicting tablet of the region ends the wait for an answer. *)
Definition size_of (tables : list (string * N)) (table : string) : N :=
  match list_find (fun x => x.1 = table) tables with Some (_, (_, size)) => size | None => 1 end.
Definition op_region (tables : list (string * N)) (op : tablet_op) : option (string * N) :=
  match op_kind_of op with
  | Some (OpList from _) => Some (op_table op, from / size_of tables (op_table op))
  | _ => None
  end.
Definition result_region (tables : list (string * N)) (r : op_result) : option (string * N) :=
  match or_detail r with
  | Some (ListResult from _ _) => Some (or_table r, from / size_of tables (or_table r))
  | _ => None
  end.
Definition asked_regions (tables : list (string * N)) (messages : list (N * list tablet_op)) : list (string * N) :=
  omap (op_region tables) (concat (map snd messages)).
Definition outstanding_next (tables : list (string * N)) (s s' : observed) (call : cache_call)
    (o : gset (string * N)) : gset (string * N) :=
  match call with
  | CallProgress => o ∪ list_to_set (asked_regions tables (drop (length (sent s)) (sent s')))
  | CallResponse rs => o ∖ list_to_set (omap (result_region tables) rs)
  | CallUpdate t m true => o ∖ {[ (t, tm_id m / size_of tables t) ]}
  | _ => o
  end.
(** The last thing the cache heard about a region (a table and an index) is a
    successful listing of it, not a failed one or a report of a conflicting
    tablet of the region. *)
Definition heard_result (tables : list (string * N)) (region : string * N) (b : bool) (r : op_result) : bool :=
  if decide (result_region tables r = Some region) then bool_decide (or_status r = OpSucceeded) else b.
Definition heard (tables : list (string * N)) (region : string * N) (b : bool) (call : cache_call) : bool :=
  match call with
  | CallResponse rs => foldl (heard_result tables region) b rs
  | CallUpdate t m true => if decide ((t, tm_id m / size_of tables t) = region) then false else b
  | _ => b
  end.
Definition up_to_date (tables : list (string * N)) (region : string * N) (calls : list cache_call) : bool :=
  foldl (heard tables region) false calls.

Section Outstanding.
Variable result_order : gmap (string * N) resolve_result -> list resolve_result.
Variable region_order : gmap N region -> list (N * region).
Variable table_order : gmap string table_cache -> list (string * table_cache).
Inductive outstanding (counter : N) (tables : list (string * N))
  : list cache_call -> observed -> gset (string * N) -> Prop :=
| outstanding_start c : mc_init (mc_create counter) tables = Ok c ->
    outstanding counter tables [] (Observed c []) ∅
| outstanding_call calls s o call s' : outstanding counter tables calls s o ->
    perform result_order region_order table_order s call = Ok s' ->
    outstanding counter tables (calls ++ [call]) s' (outstanding_next tables s s' call o).
End Outstanding.

(** The hash maps are iterated in some order, each entry once. *)
Definition map_order {K A} `{Countable K} (f : gmap K A -> list (K * A)) : Prop :=
  forall m, f m ≡ₚ map_to_list m.
Definition values_order {K A} `{Countable K} (f : gmap K A -> list A) : Prop :=
  forall m, f m ≡ₚ map snd (map_to_list m).

(** Key hashes and region sizes are 32-bit numbers. *)
Definition sizes_u32 (tables : list (string * N)) : Prop := forall name size, (name, size) ∈ tables -> size <= u32_max.
Definition hashes_u32 (calls : list cache_call) : Prop :=
  forall queries kind q h, CallResolve queries kind ∈ calls -> q ∈ queries -> h ∈ tq_hashes q -> h <= u32_max.

(** Every resolve request asks at most one query of each table. *)
Definition one_query_per_table (calls : list cache_call) : Prop :=
  forall queries kind, CallResolve queries kind ∈ calls -> NoDup (map tq_table queries).
(** Calls that keep to the rules: queries for configured tables, one per table,
    for hashes of tracked regions, and answers that are list results, the
    successful ones with at least one tablet. *)
Definition proper_call (tables : list (string * N)) (call : cache_call) : Prop :=
  match call with
  | CallResolve queries _ =>
    NoDup (map tq_table queries) /\
    forall q, q ∈ queries -> tq_table q ∈ map fst tables /\
      forall h, h ∈ tq_hashes q -> tracked (size_of tables (tq_table q)) h
  | CallResponse results =>
    forall r, r ∈ results -> exists from to tablets, or_detail r = Some (ListResult from to tablets) /\
      (or_status r = OpSucceeded -> tablets <> [])
  | _ => True
  end.
