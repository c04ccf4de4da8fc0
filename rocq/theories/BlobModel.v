(** Model of the tablet data cache of the tablet cache application:
    apps/tablet_cache/service/src/transaction/data.rs and result.rs.

    Simplifications: the type of tablet values, their serialiser (whose table
    name argument is the constant "todo"), SHA-256 and base64 are parameters; the
    eviction policy is represented by the keys it returns, an argument of each
    progress call; a result handle is the number of its batch, and the shared
    cells of results are kept in the cache ([dc_results]); a version is a 32-bit
    number whose largest value cannot be incremented (see TabletModel); the
    configuration (read by the policy only) and logging are left out. *)
From stdpp Require Import pretty.
From Verif Require Import Base TabletModel.

(** tablet_cache.proto TabletDataStorageStatus, as transmitted. *)
Notation status_failed := 1%N (only parsing).
Notation status_succeeded := 2%N (only parsing).

(** data.rs 48-52 TabletDataCacheOutMessage. *)
Inductive data_out :=
| LoadRequest (correlation : N) (uri : string)
| StoreRequest (correlation : N) (uri : string) (contents : bytes).
(** data.rs 42-46 TabletDataCacheInMessage. *)
Inductive data_in :=
| LoadResponse (correlation status : N) (contents : bytes)
| StoreResponse (correlation status : N).

(** data.rs 583-588 TabletCacheEntryState. *)
Inductive entry_state (V : Type) := EntryLoad | EntryStore (v : V) | EntryCache (v : V) | EntryError.
Arguments EntryLoad {V}.
Arguments EntryStore {V} v.
Arguments EntryCache {V} v.
Arguments EntryError {V}.
(** data.rs 592-601 TabletCacheEntry. *)
Record entry (V : Type) := Entry { en_meta : tablet_metadata; en_state : entry_state V; en_waiting : list N }.
Arguments Entry {V} _ _ _.
Arguments en_meta {V} _.
Arguments en_state {V} _.
Arguments en_waiting {V} _.

(** data.rs 721-729 TabletBatchState; the result source is the batch's cell of [dc_results]. *)
Inductive batch_state (V : Type) := BatchLoad (l : list (tablet_metadata * V)) | BatchStore | BatchError | BatchCompleted.
Arguments BatchLoad {V} l.
Arguments BatchStore {V}.
Arguments BatchError {V}.
Arguments BatchCompleted {V}.
(** data.rs 735-739 TabletBatch; its id is its key in the map. *)
Record batch (V : Type) := Batch { bt_state : batch_state V; bt_remaining : N }.
Arguments Batch {V} _ _.
Arguments bt_state {V} _.
Arguments bt_remaining {V} _.

(** result.rs: the value a result source was given. *)
Inductive outcome (V : Type) := OutLoaded (l : list (tablet_metadata * V)) | OutStored | OutFailed.
Arguments OutLoaded {V} l.
Arguments OutStored {V}.
Arguments OutFailed {V}.
(** The result handle of a batch, or of a request that failed at once (result.rs 30-37). *)
Inductive handle := HandleBatch (i : N) | HandleFailed.

(** data.rs 239-250 DefaultTabletDataCache. *)
Record data_cache (V : Type) := DataCache {
  dc_correlation : N;
  dc_counter : N;
  dc_entries : gmap string (entry V);
  dc_batches : gmap N (batch V);
  dc_operations : gmap N string;
  dc_out : list data_out;
  dc_results : gmap N (outcome V);
}.
Arguments DataCache {V} _ _ _ _ _ _ _.
Arguments dc_correlation {V} _.
Arguments dc_counter {V} _.
Arguments dc_entries {V} _.
Arguments dc_batches {V} _.
Arguments dc_operations {V} _.
Arguments dc_out {V} _.
Arguments dc_results {V} _.

(** data.rs 154-161 format_blob_uri. *)
Definition blob_uri (base64 : bytes -> string) (id version : N) (hash : bytes) : string :=
  (pretty id +:+ "_" +:+ pretty version +:+ "_" +:+ base64 hash)%string.

Section Blob.
Context {V : Type}.
Variable serialize : V -> option bytes.
Variable deserialize : bytes -> option V.
Variable sha256 : bytes -> bytes.
Variable base64 : bytes -> string.
(** The order in which the entries are iterated. *)
Variable entry_order : gmap string (entry V) -> list (string * entry V).

(** data.rs 255-272 create. *)
Definition dc_create (correlation : N) : data_cache V := DataCache correlation 0 ∅ ∅ ∅ [] ∅.

(** result.rs 69-79 set_result, set_error: a result is set only once. *)
Definition set_outcome (results : gmap N (outcome V)) (i : N) (o : outcome V) : res unit (gmap N (outcome V)) :=
  match results !! i with Some _ => Panic | None => Ok (<[i := o]> results) end.
(** result.rs 51-60 check_result. *)
Definition check_result (c : data_cache V) (h : handle) : option (outcome V) :=
  match h with HandleBatch i => dc_results c !! i | HandleFailed => Some OutFailed end.

(** data.rs 774-776 is_ready. *)
Definition batch_ready (b : batch V) : bool := bt_remaining b =? 0.

(** data.rs 790-833 resolve_pending_cache_entry. *)
Definition resolve_entry (i : N) (b : batch V) (results : gmap N (outcome V)) (e : entry V)
  : res unit (batch V * gmap N (outcome V)) :=
  if bt_remaining b =? 0 then Panic
  else
    let remaining := bt_remaining b - 1 in
    let completed := remaining =? 0 in
    match en_state e, bt_state b with
    | EntryCache v, BatchLoad l =>
      let l := l ++ [(en_meta e, v)] in
      if completed then
        let! results := set_outcome results i (OutLoaded l) in
        Ok (Batch BatchCompleted remaining, results)
      else Ok (Batch (BatchLoad l) remaining, results)
    | EntryError, BatchLoad _ =>
      let! results := set_outcome results i OutFailed in
      Ok (Batch BatchError remaining, results)
    | EntryCache _, BatchStore =>
      if completed then
        let! results := set_outcome results i OutStored in
        Ok (Batch BatchCompleted remaining, results)
      else Ok (Batch BatchStore remaining, results)
    | EntryError, BatchStore =>
      let! results := set_outcome results i OutFailed in
      Ok (Batch BatchError remaining, results)
    | _, _ => Ok (Batch (bt_state b) remaining, results)
    end.

(** data.rs 778-788 add_pending_cache_entry; 655-657 register_waiting_batch. *)
Definition add_pending (i : N) (b : batch V) (results : gmap N (outcome V)) (e : entry V)
  : res unit (batch V * gmap N (outcome V) * entry V) :=
  let b := Batch (bt_state b) (bt_remaining b + 1) in
  match en_state e with
  | EntryLoad | EntryStore _ => Ok (b, results, Entry (en_meta e) (en_state e) (en_waiting e ++ [i]))
  | EntryCache _ | EntryError =>
    let! (b, results) := resolve_entry i b results e in Ok (b, results, e)
  end.
(** data.rs 276-289 register_pending_cache_entries. *)
Fixpoint register_keys (i : N) (b : batch V) (results : gmap N (outcome V)) (entries : gmap string (entry V))
    (keys : list string) : res unit (batch V * gmap N (outcome V) * gmap string (entry V)) :=
  match keys with
  | [] => Ok (b, results, entries)
  | k :: keys =>
    match entries !! k with
    | Some e =>
      let! (b, results, e) := add_pending i b results e in
      register_keys i b results (<[k := e]> entries) keys
    | None => register_keys i b results entries keys
    end
  end.

(** data.rs 399-414 and 466-480: the second half of both requests: a new batch
    registered with the entries, kept unless it is ready. *)
Definition start_batch (c : data_cache V) (state : batch_state V) (keys : list string)
  : res unit (data_cache V * handle) :=
  let i := dc_counter c + 1 in
  let! (b, results, entries) := register_keys i (Batch state 0) (dc_results c) (dc_entries c) keys in
  Ok (DataCache (dc_correlation c) i entries
        (if batch_ready b then dc_batches c else <[i := b]> (dc_batches c))
        (dc_operations c) (dc_out c) results, HandleBatch i).

(** data.rs 375-397: new entries for the tablets not in the cache; 604-621 with_load_state. *)
Definition load_entry (c : data_cache V) (m : tablet_metadata) : data_cache V :=
  match dc_entries c !! tm_uri m with
  | Some _ => c
  | None =>
    let n := dc_correlation c + 1 in
    DataCache n (dc_counter c) (<[tm_uri m := Entry m EntryLoad []]> (dc_entries c)) (dc_batches c)
      (<[n := tm_uri m]> (dc_operations c)) (dc_out c ++ [LoadRequest n (tm_uri m)]) (dc_results c)
  end.
(** data.rs 371-415 load_tablets. *)
Definition load_tablets (c : data_cache V) (tablets : list tablet_metadata) : res unit (data_cache V * handle) :=
  start_batch (foldl load_entry c tablets) (BatchLoad []) (map tm_uri tablets).

(** data.rs 291-310 prepare_tablet_write. *)
Definition prepare_write (m : tablet_metadata) (v : V) : res unit (tablet_metadata * option bytes) :=
  match serialize v with
  | None => Ok (m, None)
  | Some contents =>
    if tm_version m =? u32_max then Panic
    else
      let version := tm_version m + 1 in
      let hash := sha256 contents in
      Ok (TabletMetadata (tm_id m) version (tm_deleted m) (tm_key m) (Nlen contents mod 4294967296) hash
            (blob_uri base64 (tm_id m) version hash), Some contents)
  end.
(** data.rs 421-430: preparing all tablets, until one fails. The metadata
    (borrowed mutably) prepared so far stays changed. *)
Fixpoint prepare_all (tablets : list (tablet_metadata * V))
  : res unit (list tablet_metadata * option (list bytes)) :=
  match tablets with
  | [] => Ok ([], Some [])
  | (m, v) :: tablets =>
    let! (m, contents) := prepare_write m v in
    match contents with
    | None => Ok (m :: map fst tablets, None)
    | Some contents =>
      let! (ms, all) := prepare_all tablets in
      Ok (m :: ms, (cons contents) <$> all)
    end
  end.
(** data.rs 432-465: new entries for the tablets written; 623-645 with_store_state. *)
Fixpoint store_entries (c : data_cache V) (tablets : list (tablet_metadata * V * bytes)) : res unit (data_cache V) :=
  match tablets with
  | [] => Ok c
  | (m, v, contents) :: tablets =>
    match dc_entries c !! tm_uri m with
    | Some _ => Panic
    | None =>
      let n := dc_correlation c + 1 in
      store_entries
        (DataCache n (dc_counter c) (<[tm_uri m := Entry m (EntryStore v) []]> (dc_entries c)) (dc_batches c)
          (<[n := tm_uri m]> (dc_operations c)) (dc_out c ++ [StoreRequest n (tm_uri m) contents]) (dc_results c))
        tablets
    end
  end.
(** data.rs 417-481 store_tablets; also returns the new metadata. *)
Definition store_tablets (c : data_cache V) (tablets : list (tablet_metadata * V))
  : res unit (data_cache V * list tablet_metadata * handle) :=
  let! (ms, contents) := prepare_all tablets in
  match contents with
  | None => Ok (c, ms, HandleFailed)
  | Some contents =>
    let! c := store_entries c (zip (zip ms (map snd tablets)) contents) in
    let! (c, h) := start_batch c BatchStore (map tm_uri ms) in
    Ok (c, ms, h)
  end.

(** data.rs 668-693 process_load_response. *)
Definition entry_loaded (e : entry V) (status : N) (value : option V) : res unit (entry V) :=
  match en_state e with
  | EntryLoad =>
    if status =? status_succeeded then
      Ok (Entry (en_meta e) (match value with Some v => EntryCache v | None => EntryError end) (en_waiting e))
    else if status =? status_failed then Ok (Entry (en_meta e) EntryError (en_waiting e))
    else Panic
  | _ => Panic
  end.
(** data.rs 695-711 process_store_response. *)
Definition entry_stored (e : entry V) (status : N) : res unit (entry V) :=
  match en_state e with
  | EntryStore v =>
    if status =? status_succeeded then Ok (Entry (en_meta e) (EntryCache v) (en_waiting e))
    else if status =? status_failed then Ok (Entry (en_meta e) EntryError (en_waiting e))
    else Panic
  | _ => Panic
  end.
(** data.rs 483-519 process_in_message (312-324 prepare_tablet_read only deserialises). *)
Definition dc_process (c : data_cache V) (m : data_in) : res unit (data_cache V) :=
  let correlation := match m with LoadResponse n _ _ => n | StoreResponse n _ => n end in
  match dc_operations c !! correlation with
  | None => Ok c
  | Some key =>
    let! e := unwrap (dc_entries c !! key) in
    let! e := match m with
              | LoadResponse _ status contents => entry_loaded e status (deserialize contents)
              | StoreResponse _ status => entry_stored e status
              end in
    Ok (DataCache (dc_correlation c) (dc_counter c) (<[key := e]> (dc_entries c)) (dc_batches c)
          (delete correlation (dc_operations c)) (dc_out c) (dc_results c))
  end.

(** data.rs 659-666 take_waiting_batches. *)
Definition entry_ready (e : entry V) : bool :=
  match en_state e with EntryCache _ | EntryError => true | _ => false end.
Definition entry_failed (e : entry V) : bool := match en_state e with EntryError => true | _ => false end.
Definition taken_batches (e : entry V) : list N := if entry_ready e then en_waiting e else [].
Definition entry_take (e : entry V) : entry V :=
  if entry_ready e then Entry (en_meta e) (en_state e) [] else e.
(** data.rs 338-344: notifying the waiting batches of one entry. *)
Fixpoint notify_batches (batches : gmap N (batch V)) (results : gmap N (outcome V)) (e : entry V) (l : list N)
  : res unit (gmap N (batch V) * gmap N (outcome V)) :=
  match l with
  | [] => Ok (batches, results)
  | i :: l =>
    let! b := unwrap (batches !! i) in
    let! (b, results) := resolve_entry i b results e in
    notify_batches (<[i := b]> batches) results e l
  end.
Fixpoint notify_entries (batches : gmap N (batch V)) (results : gmap N (outcome V)) (l : list (string * entry V))
  : res unit (gmap N (batch V) * gmap N (outcome V)) :=
  match l with
  | [] => Ok (batches, results)
  | (_, e) :: l =>
    let! (batches, results) := notify_batches batches results e (taken_batches e) in
    notify_entries batches results l
  end.
(** data.rs 333-369 make_progress; [evicted]: what the policy returned. *)
Definition dc_progress (c : data_cache V) (evicted : list string) : res unit (data_cache V) :=
  let! (batches, results) := notify_entries (dc_batches c) (dc_results c) (entry_order (dc_entries c)) in
  let entries := filter (fun x : string * entry V => entry_failed x.2 = false) (entry_take <$> dc_entries c) in
  Ok (DataCache (dc_correlation c) (dc_counter c) (foldl (fun m k => delete k m) entries evicted)
        (filter (fun x : N * batch V => batch_ready x.2 = false) batches)
        (dc_operations c) (dc_out c) results).

(** data.rs 521-523 take_out_messages. *)
Definition dc_take (c : data_cache V) : data_cache V * list data_out :=
  (DataCache (dc_correlation c) (dc_counter c) (dc_entries c) (dc_batches c) (dc_operations c) [] (dc_results c),
   dc_out c).
End Blob.
