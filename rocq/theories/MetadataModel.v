(** Model of the tablet metadata cache of the tablet cache application:
    apps/tablet_cache/service/src/transaction/metadata.rs, with the queries of
    transaction.rs.

    Simplifications: the ranges of 32 and 64 bit numbers are not enforced
    (tablet ids and key hashes are numbers; the theorems say where a bound is
    used), logging is omitted, and the result of a resolve request is delivered
    by appending it to a list of delivered results ([mc_delivered]), together
    with the id of the request: what the handler or the holder of the result
    does with it is not part of this file. *)
From Verif Require Import Base ActorModel TabletModel.

(** A [BTreeSet] of numbers, and its elements in ascending order. *)
Definition ascending (s : gset N) : list N := merge_sort N.le (elements s).

(** transaction.rs 211-215 TableQuery. *)
Record table_query := TableQuery { tq_id : N; tq_table : string; tq_hashes : gset N }.
(** transaction.rs 218-227 create. *)
Definition query_create (i : N) (table : string) (hashes : list N) : table_query :=
  TableQuery i table (list_to_set hashes).
(** transaction.rs 230-232 create_from. *)
Definition query_from (q : table_query) (hashes : list N) : table_query :=
  query_create (tq_id q) (tq_table q) hashes.

(** A resolved query: the part of the query a tablet is responsible for. *)
Notation resolved := (table_query * tablet_metadata)%type.

(** metadata.rs 255-258 TableRegionState. *)
Inductive region_state := Stale (waiting : list N) (prepared : bool) | Fresh.
(** metadata.rs 262-267 TableRegion. *)
Record region := Region { rg_state : region_state; rg_ids : gset N }.
(** metadata.rs 270-275 create. *)
Definition region_create : region := Region (Stale [] false) ∅.

(** metadata.rs 280-291 maybe_prepare_list_op. *)
Definition region_prepare (r : region) (from to : N) : region * option op_kind :=
  match rg_state r with
  | Stale waiting prepared =>
    match waiting with
    | _ :: _ => if negb prepared then (Region (Stale waiting true) (rg_ids r), Some (OpList from to)) else (r, None)
    | [] => (r, None)
    end
  | Fresh => (r, None)
  end.

(** metadata.rs 295-300 maybe_fresh_tablet_ids. *)
Definition region_fresh (r : region) : option (gset N) :=
  match rg_state r with Stale _ _ => None | Fresh => Some (rg_ids r) end.

(** metadata.rs 305-314 mark_stale. *)
Definition region_mark_stale (r : region) : region :=
  Region (Stale (match rg_state r with Stale waiting _ => waiting | Fresh => [] end) false) ∅.

(** metadata.rs 318-326 mark_fresh; also returns the requests to notify. *)
Definition region_mark_fresh (r : region) (ids : list N) : region * list N :=
  (Region Fresh (list_to_set ids), match rg_state r with Stale waiting _ => waiting | Fresh => [] end).

(** metadata.rs 329-338 register_pending_query. *)
Definition region_register (r : region) (request : N) : res unit region :=
  match rg_state r with
  | Stale waiting prepared => Ok (Region (Stale (waiting ++ [request]) prepared) (rg_ids r))
  | Fresh => Panic
  end.

(** metadata.rs 342-352 TableMetadata. *)
Record table_cache := TableCache {
  tb_name : string;
  tb_size : N;
  tb_regions : gmap N region;
  tb_tablets : gmap N tablet_metadata;
}.
Definition set_regions (t : table_cache) (r : gmap N region) : table_cache :=
  TableCache (tb_name t) (tb_size t) r (tb_tablets t).
Definition set_tablets (t : table_cache) (m : gmap N tablet_metadata) : table_cache :=
  TableCache (tb_name t) (tb_size t) (tb_regions t) m.

(** metadata.rs 356-369 create; dividing by zero aborts. *)
Definition regions_count (size : N) : N := u32_max / size.
Definition table_create (name : string) (size : N) : res unit table_cache :=
  if size =? 0 then Panic
  else Ok (TableCache name size
    (list_to_map (map (fun i => (N.of_nat i, region_create)) (seq 0 (N.to_nat (regions_count size))))) ∅).

(** metadata.rs 527-529 map_table_region. *)
Definition map_region (size hash : N) : N := hash / size.

(** metadata.rs 532-542 compute_table_region_bounds. *)
Definition region_bounds (size idx : N) : N * N :=
  let start := idx * size in
  (start, if u32_max - size <? start then u32_max else start + size - 1).

(** metadata.rs 386-401 insert_latest_tablet. *)
Definition insert_latest (m : gmap N tablet_metadata) (t : tablet_metadata) : gmap N tablet_metadata :=
  match m !! tm_id t with
  | Some latest => if tm_version latest <? tm_version t then <[tm_id t := t]> m else m
  | None => <[tm_id t := t]> m
  end.

(** metadata.rs 403-413 update_tablet. *)
Definition table_update_tablet (t : table_cache) (m : tablet_metadata) (conflict : bool) : table_cache :=
  let t := set_tablets t (insert_latest (tb_tablets t) m) in
  let idx := map_region (tb_size t) (tm_id m) in
  match tb_regions t !! idx with
  | Some r => if conflict then set_regions t (<[idx := region_mark_stale r]> (tb_regions t)) else t
  | None => t
  end.

(** metadata.rs 415-439 update_region. *)
Definition table_update_region (t : table_cache) (from : N) (tablets : option (list tablet_metadata))
  : table_cache * N * list N :=
  let idx := map_region (tb_size t) from in
  match tb_regions t !! idx with
  | None => (t, idx, [])
  | Some r =>
    match tablets with
    | Some tablets =>
      let t := set_tablets t (foldl insert_latest (tb_tablets t) tablets) in
      let '(r, notify) := region_mark_fresh r (map tm_id tablets) in
      (set_regions t (<[idx := r]> (tb_regions t)), idx, notify)
    | None => (set_regions t (<[idx := region_mark_stale r]> (tb_regions t)), idx, [])
    end
  end.

(** metadata.rs 441-445 register_pending_query. *)
Definition table_register (t : table_cache) (request idx : N) : res unit table_cache :=
  match tb_regions t !! idx with
  | Some r => let! r := region_register r request in Ok (set_regions t (<[idx := r]> (tb_regions t)))
  | None => Ok t
  end.

(** [Iterator::cycle] over a list: the next element and the rest of the round;
    a cycle over nothing yields nothing and the unwrap aborts. *)
Definition cycle_next (all rest : list N) : res unit (N * list N) :=
  match rest with
  | x :: rest => Ok (x, rest)
  | [] => match all with x :: rest => Ok (x, rest) | [] => Panic end
  end.

(** metadata.rs 464-469 and 476-481: the collected hashes become a result. *)
Definition flush_result (t : table_cache) (q : table_query) (tablet : N) (hashes : list N) : res unit (list resolved) :=
  match hashes with
  | [] => Ok []
  | _ => let! m := unwrap (tb_tablets t !! tablet) in Ok [(query_from q hashes, m)]
  end.

(** metadata.rs 462-475: the loop over the key hashes. *)
Fixpoint resolve_loop (t : table_cache) (q : table_query) (all rest : list N) (current : N) (hashes : list N)
    (keys : list N) : res unit (list resolved) :=
  match keys with
  | [] => flush_result t q current hashes
  | k :: keys =>
    if current <? k then
      let! out := flush_result t q current hashes in
      let! (next, rest) := cycle_next all rest in
      let! more := resolve_loop t q all rest next [] keys in
      Ok (out ++ more)
    else resolve_loop t q all rest current (hashes ++ [k]) keys
  end.

(** metadata.rs 447-489 try_resolve_pending_query. *)
Definition try_resolve (t : table_cache) (idx : N) (q : table_query) : res unit (option (list resolved)) :=
  match tb_regions t !! idx with
  | None => Panic
  | Some r =>
    match region_fresh r with
    | None => Ok None
    | Some ids =>
      let all := ascending ids in
      let! (first, rest) := cycle_next all all in
      let! out := resolve_loop t q all rest first [] (ascending (tq_hashes q)) in
      Ok (Some out)
    end
  end.

(** metadata.rs 506-518: moving on to the region of a key hash. The loop ends
    after at most as many steps as there are regions; after that the code's
    multiplication overflows. *)
Definition flush_region (q : table_query) (idx : N) (hashes : list N) : list (table_query * N) :=
  match hashes with [] => [] | _ => [(query_from q hashes, idx)] end.
Fixpoint region_advance (fuel : nat) (size : N) (q : table_query) (idx key : N) (hashes : list N)
  : res unit (N * list N * list (table_query * N)) :=
  if (region_bounds size idx).2 <? key then
    match fuel with
    | O => Panic
    | S fuel =>
      let! (idx', hashes', out) := region_advance fuel size q (idx + 1) key [] in
      Ok (idx', hashes', flush_region q idx hashes ++ out)
    end
  else Ok (idx, hashes, []).
(** metadata.rs 505-524: the loop over the key hashes. *)
Fixpoint split_loop (size : N) (q : table_query) (idx : N) (hashes keys : list N)
  : res unit (list (table_query * N)) :=
  match keys with
  | [] => Ok (flush_region q idx hashes)
  | k :: keys =>
    let! (idx, hashes, out) := region_advance (S (N.to_nat (regions_count size))) size q idx k hashes in
    let! more := split_loop size q idx (hashes ++ [k]) keys in
    Ok (out ++ more)
  end.
(** metadata.rs 493-525 split_and_map_query. *)
Definition split_query (t : table_cache) (q : table_query) : res unit (list (table_query * N)) :=
  match ascending (tq_hashes q) with
  | [] => Ok []
  | k :: keys => split_loop (tb_size t) q (map_region (tb_size t) k) [] (k :: keys)
  end.

(** metadata.rs 678-707 TabletResolveResult. *)
Record resolve_result := ResolveResult {
  rr_query : N;
  rr_table : string;
  rr_tablet : tablet_metadata;
  rr_hashes : list N;
}.
(** metadata.rs 701-706 take_result. *)
Definition take_result (r : resolve_result) : resolved :=
  (query_create (rr_query r) (rr_table r) (rr_hashes r), rr_tablet r).

(** metadata.rs 545-548: whom a resolve request notifies. *)
Inductive notification := ToSource | ToHandler.

(** metadata.rs 551-557 TabletResolve; [rs_set]: the result source has been set. *)
Record resolve := Resolve {
  rs_kind : notification;
  rs_pending : gmap (string * N) table_query;
  rs_partial : gmap (string * N) resolve_result;
  rs_set : bool;
}.

(** metadata.rs 607-622 append_results. *)
Definition append_result (m : gmap (string * N) resolve_result) (x : resolved) : gmap (string * N) resolve_result :=
  let '(q, md) := x in
  let key := (tq_table q, tm_id md) in
  let r := match m !! key with Some r => r | None => ResolveResult (tq_id q) (tq_table q) md [] end in
  <[key := ResolveResult (rr_query r) (rr_table r) (rr_tablet r) (rr_hashes r ++ ascending (tq_hashes q))]> m.
Definition append_results (r : resolve) (l : list resolved) : resolve :=
  Resolve (rs_kind r) (rs_pending r) (foldl append_result (rs_partial r) l) (rs_set r).

(** metadata.rs 99-107 DefaultTabletMetadataCache. *)
Record metadata_cache := MetadataCache {
  mc_correlation : N;
  mc_resolve_counter : N;
  mc_tables : gmap string table_cache;
  mc_resolves : gmap N resolve;
  mc_out : list (N * list tablet_op);
  mc_delivered : list (N * list resolved);
}.

(** metadata.rs 110-120 create. *)
Definition mc_create (correlation : N) : metadata_cache := MetadataCache correlation 1 ∅ ∅ [] [].

(** metadata.rs 140-153 init. *)
Fixpoint init_tables (m : gmap string table_cache) (configs : list (string * N)) : res unit (gmap string table_cache) :=
  match configs with
  | [] => Ok m
  | (name, size) :: configs =>
    let! t := table_create name size in init_tables (<[name := t]> m) configs
  end.
Definition mc_init (c : metadata_cache) (configs : list (string * N)) : res unit metadata_cache :=
  let! tables := init_tables (mc_tables c) configs in
  Ok (MetadataCache (mc_correlation c) (mc_resolve_counter c) tables (mc_resolves c) (mc_out c) (mc_delivered c)).

Section Model.
(** The iteration orders of the hash maps. *)
Variable result_order : gmap (string * N) resolve_result -> list resolve_result.
Variable region_order : gmap N region -> list (N * region).
Variable table_order : gmap string table_cache -> list (string * table_cache).

(** metadata.rs 624-647 maybe_resolve_results; setting a result source twice
    aborts (result.rs 68-72). Returns what is delivered. *)
Definition maybe_deliver (r : resolve) : res unit (resolve * option (list resolved)) :=
  if decide (rs_pending r = ∅) then
    let results := map take_result (result_order (rs_partial r)) in
    match rs_kind r with
    | ToSource =>
      if rs_set r then Panic
      else Ok (Resolve ToSource (rs_pending r) ∅ true, Some results)
    | ToHandler => Ok (Resolve ToHandler (rs_pending r) ∅ (rs_set r), Some results)
    end
  else Ok (r, None).

(** metadata.rs 574-580: splitting all queries. *)
Fixpoint split_all (tables : gmap string table_cache) (qs : list table_query) : res unit (list (table_query * N)) :=
  match qs with
  | [] => Ok []
  | q :: qs =>
    let! t := unwrap (tables !! tq_table q) in
    let! l := split_query t q in
    let! more := split_all tables qs in
    Ok (l ++ more)
  end.
(** metadata.rs 584-600: resolving or registering the parts. *)
Fixpoint register_all (request : N) (tables : gmap string table_cache) (r : resolve) (parts : list (table_query * N))
  : res unit (gmap string table_cache * resolve) :=
  match parts with
  | [] => Ok (tables, r)
  | (q, idx) :: parts =>
    let! t := unwrap (tables !! tq_table q) in
    let! o := try_resolve t idx q in
    match o with
    | Some l => register_all request tables (append_results r l) parts
    | None =>
      let! t := table_register t request idx in
      register_all request (<[tq_table q := t]> tables)
        (Resolve (rs_kind r) (<[(tq_table q, idx) := q]> (rs_pending r)) (rs_partial r) (rs_set r)) parts
    end
  end.
(** metadata.rs 561-604 TabletResolve::create. *)
Definition resolve_create (request : N) (queries : list table_query) (kind : notification)
    (tables : gmap string table_cache) : res unit (gmap string table_cache * resolve * option (list resolved)) :=
  let! parts := split_all tables queries in
  let! (tables, r) := register_all request tables (Resolve kind ∅ ∅ false) parts in
  let! (r, o) := maybe_deliver r in
  Ok (tables, r, o).

Definition deliver (d : list (N * list resolved)) (request : N) (o : option (list resolved)) : list (N * list resolved) :=
  match o with Some l => d ++ [(request, l)] | None => d end.

(** metadata.rs 122-136 resolve_tablets_with_notification (with 171-192). *)
Definition mc_resolve (c : metadata_cache) (queries : list table_query) (kind : notification)
  : res unit metadata_cache :=
  let request := mc_resolve_counter c + 1 in
  let! (tables, r, o) := resolve_create request queries kind (mc_tables c) in
  Ok (MetadataCache (mc_correlation c) request tables (<[request := r]> (mc_resolves c)) (mc_out c)
        (deliver (mc_delivered c) request o)).

(** metadata.rs 371-384 prepare_list_op. *)
Definition table_prepare (t : table_cache) : table_cache * list tablet_op :=
  let prepare idx r := let '(from, to) := region_bounds (tb_size t) idx in region_prepare r from to in
  (set_regions t (map_imap (fun idx r => Some (prepare idx r).1) (tb_regions t)),
   omap (fun '(idx, r) => (fun k => TabletOp (tb_name t) (Some k)) <$> (prepare idx r).2) (region_order (tb_regions t))).

(** metadata.rs 155-169 make_progress. *)
Definition mc_progress (c : metadata_cache) : metadata_cache :=
  let ops := concat (map (fun '(_, t) => (table_prepare t).2) (table_order (mc_tables c))) in
  let tables := (fun t => (table_prepare t).1) <$> mc_tables c in
  match ops with
  | [] => MetadataCache (mc_correlation c) (mc_resolve_counter c) tables (mc_resolves c) (mc_out c) (mc_delivered c)
  | _ => MetadataCache (mc_correlation c + 1) (mc_resolve_counter c) tables (mc_resolves c)
           (mc_out c ++ [(mc_correlation c + 1, ops)]) (mc_delivered c)
  end.

(** metadata.rs 194-203 update_tablet. *)
Definition mc_update (c : metadata_cache) (table : string) (m : tablet_metadata) (conflict : bool) : metadata_cache :=
  match mc_tables c !! table with
  | Some t => MetadataCache (mc_correlation c) (mc_resolve_counter c)
      (<[table := table_update_tablet t m conflict]> (mc_tables c)) (mc_resolves c) (mc_out c) (mc_delivered c)
  | None => c
  end.

(** metadata.rs 649-675 process_results_fresh. *)
Definition results_fresh (t : table_cache) (table : string) (idx : N) (r : resolve)
  : res unit (resolve * option (list resolved)) :=
  match rs_pending r !! (table, idx) with
  | Some q =>
    let r := Resolve (rs_kind r) (delete (table, idx) (rs_pending r)) (rs_partial r) (rs_set r) in
    let! o := try_resolve t idx q in
    match o with
    | Some l => maybe_deliver (append_results r l)
    | None => Panic
    end
  | None => maybe_deliver r
  end.
(** metadata.rs 228-239: notifying the interested requests. *)
Fixpoint notify_all (t : table_cache) (table : string) (idx : N) (resolves : gmap N resolve)
    (delivered : list (N * list resolved)) (requests : list N)
  : res unit (gmap N resolve * list (N * list resolved)) :=
  match requests with
  | [] => Ok (resolves, delivered)
  | i :: requests =>
    match resolves !! i with
    | Some r =>
      let! (r, o) := results_fresh t table idx r in
      notify_all t table idx (<[i := r]> resolves) (deliver delivered i o) requests
    | None => notify_all t table idx resolves delivered requests
    end
  end.
(** metadata.rs 208-242: one result of a list response. *)
Definition mc_result (c : metadata_cache) (r : op_result) : res unit metadata_cache :=
  match or_detail r with
  | Some (ListResult from _ tablets) =>
    match mc_tables c !! or_table r with
    | Some t =>
      let '(t, idx, notify) := table_update_region t from
        (if decide (or_status r = OpSucceeded) then Some tablets else None) in
      let! (resolves, delivered) := notify_all t (or_table r) idx (mc_resolves c) (mc_delivered c) notify in
      Ok (MetadataCache (mc_correlation c) (mc_resolve_counter c) (<[or_table r := t]> (mc_tables c)) resolves
            (mc_out c) delivered)
    | None => Ok c
    end
  | _ => Panic
  end.
(** metadata.rs 205-247 process_in_message; the correlation id is not used. *)
Fixpoint mc_response (c : metadata_cache) (rs : list op_result) : res unit metadata_cache :=
  match rs with
  | [] => Ok c
  | r :: rs => let! c := mc_result c r in mc_response c rs
  end.

(** metadata.rs 249-251 take_out_messages. *)
Definition mc_take (c : metadata_cache) : metadata_cache * list (N * list tablet_op) :=
  (MetadataCache (mc_correlation c) (mc_resolve_counter c) (mc_tables c) (mc_resolves c) [] (mc_delivered c), mc_out c).
End Model.
