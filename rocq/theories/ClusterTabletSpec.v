(** The tablet store as the clients of a whole cluster see it. *)
From Verif Require Import Base StorageModel SnapshotModel CommModel ActorModel DriverModel DriverSpec ClusterSpec TabletModel TabletSpec.

(** ** Requests executed one after the other *)
(** A listing of a range of hashes: tablets as they are, none twice, and among
    them every tablet that is responsible for a hash of the range. *)
Definition lists (ts : tables) (name : string) (from to : N) (l : list tablet_metadata) : Prop :=
  from <= u32_max ->
  NoDup (map tm_id l) /\ (forall m, m ∈ l -> tablet ts name (tm_id m) = Some m) /\
  forall t h i, ts !! name = Some t -> half_open_range from to h -> owner t h i -> i ∈ map tm_id l.
(** What one operation is told about the state before the request. *)
Definition reports (ts : tables) (op : tablet_op) (r : op_result) : Prop :=
  or_table r = op_table op /\ (or_status r = OpSucceeded <-> precondition ts op) /\
  expected_detail ts op (or_detail r) /\
  forall from to l, or_detail r = Some (ListResult from to l) -> lists ts (op_table op) from to l.
(** A request is carried out as a whole: it succeeds if and only if all its
    operations may go ahead in the state before, and then every tablet it updates
    is as its last update says and the others are as they were; otherwise nothing
    changes. *)
Definition executes (ts : tables) (ops : list tablet_op) (r : tablets_response) (ts' : tables) : Prop :=
  (rs_succeeded r = true <-> Forall (precondition ts) ops) /\
  Forall2 (reports ts) ops (rs_results r) /\
  (rs_succeeded r = true ->
    (forall name, is_Some (ts' !! name) <-> is_Some (ts !! name)) /\
    forall name i, tablet ts' name i = match last_update ops name i with Some u => Some u | None => tablet ts name i end) /\
  (rs_succeeded r = false -> ts' = ts).
Inductive serial : tables -> list (list tablet_op) -> list tablets_response -> tables -> Prop :=
| serial_none ts : serial ts [] [] ts
| serial_next ts ops r ts1 reqs rs ts2 : executes ts ops r ts1 -> serial ts1 reqs rs ts2 ->
    serial ts (ops :: reqs) (r :: rs) ts2.

(** ** What clients see *)
Section Clients.
Context {RS SP CS REQ RESP : Type}.
Variable c : tablet_codec.
(** The tablet ids each member generates, and the order in which it visits its
    tables. *)
Variable generate : nat -> nat -> N -> list N.
Variable order : nat -> tables -> list (string * table).
Variable codec : driver_codec.
Variable rops : raft_ops RS.
Variable sops : snap_ops SP.
Variable cops : comm_ops CS REQ RESP.
Variable begin : nat -> RS * SP * CS.
Notation apps := (fun k : nat => tablet_actor c (generate k) (order k)).
Notation events := (list (nat * delivery REQ RESP)).

(** In the call number [a] of the history, a member with this id is sent this
    request under this number. *)
Definition requested (H : events) (a : nat) (id n : N) (ops : list tablet_op) : Prop :=
  exists k t m q u, H !! a = Some (k, (t, Some (Some (HApp m)))) /\ started_with k H q /\ sr_id q = id /\
    ac_correlation m = n /\ dec_header c (ac_header m) = Some (Some u) /\ dec_ops c (ac_payload m) = Some ops.
(** In the call number [b], a member with this id sends this message out. *)
Definition sent_out (H : events) (b : nat) (id : N) (y : actor_command) : Prop :=
  exists H1 k x H2 q d d' out, H = H1 ++ (k, x) :: H2 /\ length H1 = b /\ started_with k H q /\ sr_id q = id /\
    member codec rops sops cops apps begin k H1 d /\
    receive codec rops sops cops (apps k) d x = Ok (d', out) /\ OApp y ∈ out.
(** The response to the request with this number, and the refusal of it. *)
Definition responded (H : events) (b : nat) (id n : N) (r : tablets_response) : Prop :=
  sent_out H b id (ActorCommand n (enc_out c OutResponse) (enc_results c r)).
Definition refused (H : events) (b : nat) (id n : N) (s : ops_status) : Prop :=
  sent_out H b id (ActorCommand n (enc_out c (OutError s)) []).

(** The calls of the history are explained by requests executed one after the
    other, beginning with these tables: each of them was sent in the call it is
    listed with, no call more than once; a response is that of a request of the
    sequence, sent under the same number to a member with the same id and not
    later than the response; whatever is sent after the response comes later in
    the sequence; and a request that is refused has no effect, then or later. *)
Definition serializable (first : tables) (H : events) : Prop :=
  exists (S : list (nat * list tablet_op)) rs last,
    NoDup (map fst S) /\
    (forall a ops, (a, ops) ∈ S -> exists id n, requested H a id n ops) /\
    serial first (map snd S) rs last /\
    (forall b id n r, responded H b id n r ->
      exists (j : nat) a ops, S !! j = Some (a, ops) /\ requested H a id n ops /\ (a <= b)%nat /\ rs !! j = Some r /\
        forall (j' : nat) a' ops', S !! j' = Some (a', ops') -> (b < a')%nat -> (j < j')%nat) /\
    forall b id n s, refused H b id n s -> b ∉ map fst S.

(** Every request sent to this member under this number updates this tablet to
    this version. *)
Definition updates_to (H : events) (id n : N) (name : string) (i v : N) : Prop :=
  forall a ops, requested H a id n ops -> exists op u, op ∈ ops /\ update_of op = Some (name, u) /\ tm_id u = i /\ tm_version u = v.
(** A response shows this tablet of this table as it is. *)
Definition shows (r : tablets_response) (name : string) (m : tablet_metadata) : Prop :=
  exists x, x ∈ rs_results r /\ or_table x = name /\
    ((exists from to l, or_detail x = Some (ListResult from to l) /\ from <= u32_max /\ m ∈ l) \/
     or_detail x = Some (CheckResult (Some m)) \/ or_detail x = Some (UpdateResult (Some m))).
End Clients.
