(** What the theorems about the tablet data cache of the tablet cache
    application speak about: histories of calls, the storage requests sent and
    their answers, and what every result handle was returned for. *)
From Verif Require Import Base TabletModel BlobModel.

(** The calls of the cache. [evicted]: the entries the policy evicts. *)
Inductive data_call (V : Type) :=
| CallLoad (tablets : list tablet_metadata)
| CallStore (tablets : list (tablet_metadata * V))
| CallIn (m : data_in)
| CallProgress (evicted : list string)
| CallTake.
Arguments CallLoad {V} tablets.
Arguments CallStore {V} tablets.
Arguments CallIn {V} m.
Arguments CallProgress {V} evicted.
Arguments CallTake {V}.

Definition request_id (m : data_out) : N := match m with LoadRequest n _ => n | StoreRequest n _ _ => n end.
Definition request_uri (m : data_out) : string := match m with LoadRequest _ u => u | StoreRequest _ u _ => u end.
Definition response_id (m : data_in) : N := match m with LoadResponse n _ _ => n | StoreResponse n _ => n end.

(** What was asked: to load tablets, or to store tablets (with the new
    metadata). Of a load it is recorded whether its first tablet had to be waited
    for. *)
Inductive asked := AskedLoad (tablets : list tablet_metadata) (waits : bool) | AskedStore (tablets : list tablet_metadata).
Definition asked_tablets (q : asked) : list tablet_metadata :=
  match q with AskedLoad l _ => l | AskedStore l => l end.

Section Histories.
Context {V : Type}.
Variable serialize : V -> option bytes.
Variable deserialize : bytes -> option V.
Variable sha256 : bytes -> bytes.
Variable base64 : bytes -> string.
Variable entry_order : gmap string (entry V) -> list (string * entry V).

(** The cache, the requests taken from it and the handles it returned. *)
Record observed := Observed {
  ob_cache : data_cache V;
  ob_taken : list data_out;
  ob_handles : list (asked * handle);
}.
Definition sent (s : observed) : list data_out := ob_taken s ++ dc_out (ob_cache s).
Definition check (s : observed) (h : handle) : option (outcome V) := check_result (ob_cache s) h.
(** The blob is in the cache, loaded or stored or failed. *)
Definition ready (s : observed) (uri : string) : bool :=
  match dc_entries (ob_cache s) !! uri with Some e => entry_ready e | None => false end.
(** A load waits for its first tablet. *)
Definition waits_for_first (s : observed) (tablets : list tablet_metadata) : bool :=
  match tablets with m :: _ => negb (ready s (tm_uri m)) | [] => false end.

Definition perform (s : observed) (call : data_call V) : res unit observed :=
  match call with
  | CallLoad l =>
    let! (c, h) := load_tablets (ob_cache s) l in
    Ok (Observed c (ob_taken s) (ob_handles s ++ [(AskedLoad l (waits_for_first s l), h)]))
  | CallStore l =>
    let! (c, ms, h) := store_tablets serialize sha256 base64 (ob_cache s) l in
    Ok (Observed c (ob_taken s) (ob_handles s ++ [(AskedStore ms, h)]))
  | CallIn m => let! c := dc_process deserialize (ob_cache s) m in Ok (Observed c (ob_taken s) (ob_handles s))
  | CallProgress evicted =>
    let! c := dc_progress entry_order (ob_cache s) evicted in Ok (Observed c (ob_taken s) (ob_handles s))
  | CallTake => let '(c, out) := dc_take (ob_cache s) in Ok (Observed c (ob_taken s ++ out) (ob_handles s))
  end.

(** The requests without an answer after a call, and the requests answered by it. *)
Definition answered_by (call : data_call V) (q : data_out) : Prop :=
  match call with CallIn r => response_id r = request_id q | _ => False end.
Global Instance answered_by_dec call q : Decision (answered_by call q).
Proof. destruct call; simpl; apply _. Defined.
Definition outstanding_next (s s' : observed) (call : data_call V) (o : list data_out) : list data_out :=
  filter (fun q => ~ answered_by call q) o ++ drop (length (sent s)) (sent s').
Definition answers_next (call : data_call V) (o : list data_out) (a : list (data_out * data_in))
  : list (data_out * data_in) :=
  a ++ match call with CallIn r => map (fun q => (q, r)) (filter (answered_by call) o) | _ => [] end.
(** The policy does not evict what is being loaded or stored. *)
Definition allowed (o : list data_out) (call : data_call V) : Prop :=
  match call with CallProgress evicted => forall k, k ∈ evicted -> k ∉ map request_uri o | _ => True end.
(** A history of calls: the cache, the requests without an answer and the
    answers received to requests, in order. *)
Inductive history (counter : N)
  : list (data_call V) -> observed -> list data_out -> list (data_out * data_in) -> Prop :=
| history_start : history counter [] (Observed (dc_create counter) [] []) [] []
| history_call calls s o a call s' : history counter calls s o a -> allowed o call -> perform s call = Ok s' ->
    history counter (calls ++ [call]) s' (outstanding_next s s' call o) (answers_next call o a).
(** Calls from one state to another. *)
Inductive reaches : observed -> list data_out -> list (data_out * data_in) ->
                    observed -> list data_out -> list (data_out * data_in) -> Prop :=
| reaches_refl s o a : reaches s o a s o a
| reaches_step s o a s1 o1 a1 call s2 : reaches s o a s1 o1 a1 -> allowed o1 call -> perform s1 call = Ok s2 ->
    reaches s o a s2 (outstanding_next s1 s2 call o1) (answers_next call o1 a1).

(** An answer provides the value of a blob: the contents loaded decode to it, or
    they were stored as its contents. *)
Definition provides (x : data_out * data_in) (uri : string) (v : V) : Prop :=
  request_uri x.1 = uri /\
  match x with
  | (LoadRequest _ _, LoadResponse _ status contents) => status = status_succeeded /\ deserialize contents = Some v
  | (StoreRequest _ _ contents, StoreResponse _ status) => status = status_succeeded /\ serialize v = Some contents
  | _ => False
  end.
(** An answer says that the blob could not be loaded or stored. *)
Definition refuses (x : data_out * data_in) (uri : string) : Prop :=
  request_uri x.1 = uri /\
  match x with
  | (LoadRequest _ _, LoadResponse _ status contents) =>
    status = status_failed \/ status = status_succeeded /\ deserialize contents = None
  | (StoreRequest _ _ _, StoreResponse _ status) => status = status_failed
  | _ => False
  end.
(** The blob was stored successfully. *)
Definition stored (x : data_out * data_in) (uri : string) : Prop :=
  match x with
  | (StoreRequest _ u _, StoreResponse _ status) => u = uri /\ status = status_succeeded
  | _ => False
  end.
End Histories.
Arguments observed : clear implicits.

(** The entries are iterated in some order, each once. *)
Definition entries_order {V} (f : gmap string (entry V) -> list (string * entry V)) : Prop :=
  forall m, f m ≡ₚ map_to_list m.
(** A response of the expected kind with a known status. *)
Definition valid_answer (q : data_out) (r : data_in) : Prop :=
  request_id q = response_id r /\
  match q, r with
  | LoadRequest _ _, LoadResponse _ status _ => status = status_succeeded \/ status = status_failed
  | StoreRequest _ _ _, StoreResponse _ status => status = status_succeeded \/ status = status_failed
  | _, _ => False
  end.
