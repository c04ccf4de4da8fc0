(** What the theorems about transactions of the tablet cache application speak
    about: histories of calls of the transaction manager with what each call
    returned, and what a client sees in them. *)
From Verif Require Import Base TabletModel MetadataModel BlobModel CoordinatorModel.
From Verif Require BlobSpec.

Section Histories.
Context {V H S : Type}.
Variable serialize : V -> option bytes.
Variable deserialize : bytes -> option V.
Variable sha256 : bytes -> bytes.
Variable base64 : bytes -> string.
Variable entry_order : gmap string (entry V) -> list (string * entry V).
Variable result_order : gmap (string * N) resolve_result -> list resolve_result.
Variable region_order : gmap N region -> list (N * region).
Variable table_order : gmap string table_cache -> list (string * table_cache).
Variable tablet_order : gmap (N * N) (working V) -> list (N * N).
Variable tx_order : gmap N (tx_state V H) -> list N.
Variable handle_tablets : S -> H -> N -> list (table_query * tablet_metadata * option V) ->
  res unit (S * list (option V)).

(** A history: the calls, with what they returned. *)
Notation trace := (list (call (H := H) * reply (V := V) (H := H))).
Notation perform := (mg_call serialize deserialize sha256 base64 entry_order result_order region_order table_order
                       tablet_order tx_order handle_tablets).

(** The manager is created with the first numbers to use for the requests of
    its three parts, configured with tables and then called. *)
Inductive runs (co mc dc : N) (tables : list (string * N)) (client : S)
  : trace -> manager V H -> S -> Prop :=
| runs_start m : mg_init (mg_create co mc dc) tables = Ok m -> runs co mc dc tables client [] m client
| runs_call tr m s c m' s' r : runs co mc dc tables client tr m s -> perform m s c = Ok (m', s', r) ->
    runs co mc dc tables client (tr ++ [(c, r)]) m' s'.
(** Calls from one state to another. *)
Inductive reaches : manager V H -> S -> trace -> manager V H -> S -> Prop :=
| reaches_refl m s : reaches m s [] m s
| reaches_call m s tr m1 s1 c m2 s2 r : reaches m s tr m1 s1 -> perform m1 s1 c = Ok (m2, s2, r) ->
    reaches m s (tr ++ [(c, r)]) m2 s2.

(** The transactions started. *)
Definition started (tr : trace) : list N :=
  omap (fun x => match x.2 with RStarted tx => Some tx | _ => None end) tr.
(** The transactions whose commit was requested, in order. *)
Definition commits (tr : trace) : list N :=
  omap (fun x => match x.1 with CCommit tx => Some tx | _ => None end) tr.
(** The number of the request to the tablet store made by a commit after [tr]. *)
Definition number (co : N) (tr : trace) : N := co + 1 + Nlen (commits tr).
(** The processing asked of a transaction. *)
Definition processing (tr : trace) (tx : N) : list (list table_query * H) :=
  omap (fun x => match x.1 with
                 | CProcess i queries h => if decide (i = tx) then Some (queries, h) else None
                 | _ => None
                 end) tr.
(** The handler calls made for a transaction. *)
Definition handler_calls (tr : trace) (tx : N) : list (handled V H) :=
  concat (map (fun x => match x.2 with
                        | RHandled l => List.filter (fun h => hd_tx h =? tx) l
                        | _ => []
                        end) tr).
(** All handler calls, in order. *)
Definition all_handler_calls (tr : trace) : list (handled V H) :=
  concat (map (fun x => match x.2 with RHandled l => l | _ => [] end) tr).
(** Calling handlers one after the other takes the client from one state to
    another; each is given the tablets recorded and sets the contents recorded. *)
Inductive client_after : S -> list (handled V H) -> S -> Prop :=
| client_same s : client_after s [] s
| client_handled s h s1 outs l s2 :
    handle_tablets s (hd_handler h) (hd_tx h) (map fst (hd_tablets h)) = Ok (s1, outs) ->
    (forall i x, hd_tablets h !! i = Some x -> x.2 = default None (outs !! i)) ->
    client_after s1 l s2 -> client_after s (h :: l) s2.
(** The outcomes reported. *)
Definition reported (tr : trace) : list (N * tx_outcome) :=
  omap (fun x => match x with (CCheck tx, ROutcome (Some o)) => Some (tx, o) | _ => None end) tr.
(** The requests to the tablet store sent. *)
Definition sent_ops (tr : trace) : list (N * list tablet_op) :=
  concat (map (fun x => match x.2 with
                        | RMessages l => omap (fun m => match m with OutOps n ops => Some (n, ops) | _ => None end) l
                        | _ => []
                        end) tr).
(** All requests to the tablet store, including those not taken yet. *)
Definition requests (tr : trace) (m : manager V H) : list (N * list tablet_op) :=
  sent_ops tr ++ co_out (mg_coordinator m) ++ mc_out (mg_meta m).
(** A request to list tablets. *)
Definition lists_tablets (ops : list tablet_op) : bool :=
  match ops with TabletOp _ (Some (OpList _ _)) :: _ => true | _ => false end.
(** The requests made to commit transactions. *)
Definition commit_requests (tr : trace) (m : manager V H) : list (N * list tablet_op) :=
  List.filter (fun x => negb (lists_tablets x.2)) (requests tr m).
(** The results of a response that belong to checks and updates. *)
Definition executed (r : tablets_response) : list op_result := List.filter is_exec_result (rs_results r).

(** The answers received are the answers of a tablet store with the tables [names],
    in some state, to requests with the same number. *)
Definition store_answers (names : list string) (tr : trace) : Prop :=
  forall n resp rep, (CIn (InOps n resp), rep) ∈ tr ->
  exists ops ts ts', (n, ops) ∈ sent_ops tr /\ (forall t, is_Some (ts !! t) <-> t ∈ names) /\
    apply_tablets_request ts ops = Ok (ts', resp).
(** What the manager holds to be the current metadata of a tablet. *)
Definition knows (m : manager V H) (table : string) (i : N) : option tablet_metadata :=
  mc_tables (mg_meta m) !! table ≫= fun t => tb_tablets t !! i.

(** The requests to the blob store, including those not taken yet. *)
Definition sent_data (tr : trace) : list data_out :=
  concat (map (fun x => match x.2 with
                        | RMessages l => omap (fun m => match m with OutData d => Some d | _ => None end) l
                        | _ => []
                        end) tr).
Definition data_requests (tr : trace) (m : manager V H) : list data_out := sent_data tr ++ dc_out (mg_data m).
(** A call that delivers an answer of the blob store to a request. *)
Definition answers (c : call (H := H)) (q : data_out) : Prop :=
  match c with CIn (InData r) => BlobSpec.response_id r = BlobSpec.request_id q | _ => False end.
Global Instance answers_dec c q : Decision (answers c q).
Proof. destruct c as [| | | | | | | |[]|]; simpl; apply _. Defined.
(** Histories with the requests to the blob store that are without an answer,
    and the answers received to requests. The cache's policy does not evict what
    is being loaded or stored. *)
Inductive data_runs (co mc dc : N) (tables : list (string * N)) (client : S)
  : trace -> manager V H -> S -> list data_out -> list (data_out * data_in) -> Prop :=
| data_runs_start m : mg_init (mg_create co mc dc) tables = Ok m -> data_runs co mc dc tables client [] m client [] []
| data_runs_call tr m s o a c m' s' r : data_runs co mc dc tables client tr m s o a -> perform m s c = Ok (m', s', r) ->
    (forall evicted k, c = CProgress evicted -> k ∈ evicted -> k ∉ map BlobSpec.request_uri o) ->
    data_runs co mc dc tables client (tr ++ [(c, r)]) m' s'
      (filter (fun q => ~ answers c q) o ++ drop (length (data_requests tr m)) (data_requests (tr ++ [(c, r)]) m'))
      (a ++ match c with CIn (InData x) => map (fun q => (q, x)) (filter (answers c) o) | _ => [] end).

(** What the manager was told about the tablets of a table: tablets the store
    listed or reported as existing in answer to a commit, and the tablets of
    updates the store answered with success. *)
Inductive told (tr : trace) (m : manager V H) (table : string) : tablet_metadata -> Prop :=
| told_listed n resp rep r from to l md :
    (CIn (InOps n resp), rep) ∈ tr -> r ∈ rs_results resp -> or_table r = table -> or_status r = OpSucceeded ->
    or_detail r = Some (ListResult from to l) -> md ∈ l -> told tr m table md
| told_existing n resp rep ops i op r md :
    (CIn (InOps n resp), rep) ∈ tr -> (n, ops) ∈ commit_requests tr m ->
    ops !! i = Some op -> executed resp !! i = Some r -> op_table op = table ->
    or_status r <> OpSucceeded ->
    or_detail r = Some (CheckResult (Some md)) \/ or_detail r = Some (UpdateResult (Some md)) -> told tr m table md
| told_written n resp rep ops i op r md :
    (CIn (InOps n resp), rep) ∈ tr -> (n, ops) ∈ commit_requests tr m ->
    ops !! i = Some op -> executed resp !! i = Some r -> op_table op = table ->
    op_kind_of op = Some (OpUpdate (Some md)) -> or_status r = OpSucceeded -> told tr m table md.

(** Key hashes are 32-bit numbers. *)
Definition queries_u32 (queries : list table_query) : Prop :=
  forall q h, q ∈ queries -> h ∈ tq_hashes q -> h <= u32_max.
Definition call_u32 (c : call (H := H)) : Prop :=
  match c with CProcess _ queries _ => queries_u32 queries | CResolve queries => queries_u32 queries | _ => True end.

(** The operation a tablet handed to a handler stands for in the commit: if the
    handler set no contents, a check that the version handed out is still the
    current one; otherwise an update to the next version, described by the size,
    the hash and the name of the new contents. *)
Definition tablet_operation (x : table_query * tablet_metadata * option V * option V) (op : tablet_op) : Prop :=
  let '(q, m, _, set) := x in
  op_table op = tq_table q /\
  match set with
  | None => op_kind_of op = Some (OpCheck (tm_id m) (tm_version m))
  | Some v => exists contents, serialize v = Some contents /\
      op_kind_of op = Some (OpUpdate (Some
        (TabletMetadata (tm_id m) (tm_version m + 1) (tm_deleted m) (tm_key m) (Nlen contents mod 2 ^ 32)
           (sha256 contents) (blob_uri base64 (tm_id m) (tm_version m + 1) (sha256 contents)))))
  end.
End Histories.

(** Each key of a map once, in any order. *)
Definition keys_order {K A} `{Countable K} (f : gmap K A -> list K) : Prop :=
  forall m, f m ≡ₚ map fst (map_to_list m).
