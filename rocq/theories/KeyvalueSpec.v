(** What the theorems about the key value store of the tablet cache application
    speak about. *)
From Verif Require Import Base ActorModel TabletModel MetadataModel BlobModel CoordinatorModel KeyvalueModel.

(** * One batch of requests against a dictionary *)

(** The number the client gave to a request, and to which an answer belongs. *)
Definition request_number (r : kv_request) : N := match r with KvPut n _ _ => n | KvGet n _ => n end.
Definition response_number (a : kv_response) : N := match a with KvPutDone n _ => n | KvGot n _ _ => n end.

(** The value of a key after requests were executed in order: that of the last
    put of the key, and otherwise the one stored before. *)
Fixpoint value_after (stored : option bytes) (key : string) (l : list kv_request) : option bytes :=
  match l with
  | [] => stored
  | KvPut _ k v :: l => value_after (if decide (k = key) then Some v else stored) key l
  | KvGet _ _ :: l => value_after stored key l
  end.
(** The right answer to a request if its key has the given value. *)
Definition right_answer (r : kv_request) (value : option bytes) : kv_response :=
  match r with
  | KvPut n _ _ => KvPutDone n (bool_decide (value <> None))
  | KvGet n _ => match value with Some v => KvGot n true v | None => KvGot n false [] end
  end.
(** The answers to requests executed in order on a dictionary. *)
Definition right_answers (d : gmap string bytes) (l : list kv_request) (a : list kv_response) : Prop :=
  length a = length l /\
  forall i r, l !! i = Some r -> a !! i = Some (right_answer r (value_after (d !! kv_key r) (kv_key r) (take i l))).
(** A request that writes. *)
Definition writes (r : kv_request) : bool := match r with KvPut _ _ _ => true | KvGet _ _ => false end.

(** * Histories of the store with any transaction context *)

(** What the store asks of the transaction context, with the answers. *)
Inductive context_call :=
| AskResolve (queries : list table_query)
| AskStart (tx : N)
| AskProcess (tx : N) (queries : list table_query)
| AskCommit (tx : N)
| AskOutcome (tx : N) (o : option tx_outcome).

(** A context that keeps a record of what it is asked. *)
Definition recording {C} (cx : context C) : context (C * list context_call) := Context
  (fun c qs => let! (c', b) := cx_resolve cx c.1 qs in Ok ((c', c.2 ++ [AskResolve qs]), b))
  (fun c => let! (c', tx) := cx_start cx c.1 in Ok ((c', c.2 ++ [AskStart tx]), tx))
  (fun c tx qs => let! c' := cx_process cx c.1 tx qs in Ok (c', c.2 ++ [AskProcess tx qs]))
  (fun c tx => cx_pending cx c.1 tx)
  (fun c tx => let! c' := cx_commit cx c.1 tx in Ok (c', c.2 ++ [AskCommit tx]))
  (fun c tx => let! (c', o) := cx_check cx c.1 tx in Ok ((c', c.2 ++ [AskOutcome tx o]), o)).

(** What happens to a store: a request is accepted; it makes progress; the resolve
    handler is called with the id of a query and a tablet for each result; the
    process handler is called for a transaction with tablets and says which
    contents it sets; the answers are taken. *)
Inductive store_event :=
| EvRequest (r : kv_request)
| EvProgress (calls : list context_call)
| EvResolved (results : list (N * N))
| EvProcess (tx : N) (tablets : list (table_query * tablet_metadata * option bytes)) (set : list (option bytes))
| EvTake (answers : list kv_response).

Section Histories.
Variable hash_key : string -> N.
Variable decode_contents : bytes -> option (gmap string bytes).
Variable encode_contents : gmap string bytes -> bytes.
Variable tracker_order : gmap N tablet_tracker -> list N.
Variable txt_order : gmap N tx_tracker -> list N.

(** One event; the context may do anything by itself. *)
Inductive store_step {C} (cx : context C) : kv_store -> store_event -> kv_store -> Prop :=
| step_request s r : store_step cx s (EvRequest r) (kv_append s r)
| step_progress s c s' c' calls :
    kv_progress hash_key tracker_order txt_order (recording cx) s (c, []) = Ok (s', (c', calls)) ->
    store_step cx s (EvProgress calls) s'
| step_resolved s results : store_step cx s (EvResolved results) (kv_resolved s results)
| step_process s tx tablets s' set :
    kv_process hash_key decode_contents encode_contents s tx tablets = Ok (s', set) ->
    store_step cx s (EvProcess tx tablets set) s'
| step_take s : store_step cx s (EvTake (kv_take s).2) (kv_take s).1.
Inductive store_steps {C} (cx : context C) : kv_store -> list store_event -> kv_store -> Prop :=
| steps_refl s : store_steps cx s [] s
| steps_step s tr s1 e s2 : store_steps cx s tr s1 -> store_step cx s1 e s2 -> store_steps cx s (tr ++ [e]) s2.
(** From the start. *)
Definition store_runs {C} (cx : context C) (table : string) (min_resolve min_process : N)
  (tr : list store_event) (s : kv_store) : Prop :=
  store_steps cx (kv_init kv_new table min_resolve min_process) tr s.

(** The requests accepted. *)
Definition accepted (tr : list store_event) : list kv_request :=
  omap (fun e => match e with EvRequest r => Some r | _ => None end) tr.
(** The answers taken, and those not taken yet. *)
Definition given (tr : list store_event) : list kv_response :=
  concat (map (fun e => match e with EvTake l => l | _ => [] end) tr).
Definition answers_of (tr : list store_event) (s : kv_store) : list kv_response := given tr ++ st_responses s.
(** An answer belongs to a request: same number and same kind. *)
Definition belongs (r : kv_request) (a : kv_response) : Prop :=
  match r, a with
  | KvPut n _ _, KvPutDone m _ => n = m
  | KvGet n _, KvGot m _ _ => n = m
  | _, _ => False
  end.
(** A request and its answer in a call of the process handler: some of the requests
    [asked], [l], were executed in order on the contents [bs] of one of the tablets
    passed to the handler; the new contents were set if one of them writes. *)
Definition executed_by (asked : list kv_request) (e : store_event) (tx : N) (r : kv_request) (a : kv_response) : Prop :=
  exists tablets set k q md bs d l answers d' i, e = EvProcess tx tablets set /\ tablets !! k = Some (q, md, Some bs) /\
    decode_contents bs = Some d /\ l ⊆+ asked /\ Forall (fun r => hash_key (kv_key r) ∈ tq_hashes q) l /\
    right_answers d l answers /\ l !! i = Some r /\ answers !! i = Some a /\
    (forall key, d' !! key = value_after (d !! key) key l) /\
    set !! k = Some (if existsb writes l then Some (encode_contents d') else None).
(** A transaction is reported to have succeeded. *)
Definition succeeds (e : store_event) (tx : N) : Prop :=
  exists calls, e = EvProgress calls /\ AskOutcome tx (Some TxSucceeded) ∈ calls.
Definition fails (e : store_event) (tx : N) : Prop :=
  exists calls, e = EvProgress calls /\ AskOutcome tx (Some TxFailed) ∈ calls.
(** A transaction that has executed a request and is not completed. *)
Definition carries (s : kv_store) (tx : N) (r : kv_request) : Prop :=
  exists t, st_txs s !! tx = Some t /\ r ∈ tt_requests t.
(** A transaction is begun. *)
Definition begins (e : store_event) (tx : N) : Prop := exists calls, e = EvProgress calls /\ AskStart tx ∈ calls.
(** The transactions begun, in order. *)
Definition started (tr : list store_event) : list N :=
  concat (map (fun e => match e with
    | EvProgress calls => omap (fun x => match x with AskStart tx => Some tx | _ => None end) calls
    | _ => []
    end) tr).
(** A tablet for which a transaction that is not completed was begun. *)
Definition works_on (s : kv_store) (tx tablet : N) : Prop :=
  exists t, st_txs s !! tx = Some t /\ tablet ∈ tt_tablets t.
(** An event that neither repeats a request number nor calls the process handler
    for one of the given queries. *)
Definition unrelated (queries : list N) (n : N) (e : store_event) : Prop :=
  match e with
  | EvRequest r => request_number r <> n
  | EvProcess _ tablets _ => forall q md o, (q, md, o) ∈ tablets -> tq_id q ∉ queries
  | _ => True
  end.
End Histories.

(** * Histories of the application *)

Section Application.
Variable result_order : gmap (string * N) resolve_result -> list resolve_result.
Variable tablet_order : gmap (N * N) (working bytes) -> list (N * N).
Variable hash_key : string -> N.
Variable tracker_order : gmap N tablet_tracker -> list N.
Variable txt_order : gmap N tx_tracker -> list N.
Variable decode_in : bytes -> option (option cache_in).
Variable decode_response : bytes -> option tablets_response.
Variable decode_config : bytes -> option (option (string * N * N) * option (list (string * N))).

(** The application is created, configured and given commands (or none: a tick);
    a command it refuses ends the service. [outs]: what each command put out. *)
Inductive actor_runs (config : bytes) : list (option actor_command) -> list (list cache_out) -> cache_actor -> Prop :=
| actor_begins a : actor_init decode_config actor_create config = Ok a -> actor_runs config [] [] a
| actor_continues cs outs a c a' out : actor_runs config cs outs a ->
    actor_process result_order tablet_order hash_key tracker_order txt_order decode_in decode_response a c = Ok (a', out) ->
    actor_runs config (cs ++ [c]) (outs ++ [out]) a'.
End Application.
