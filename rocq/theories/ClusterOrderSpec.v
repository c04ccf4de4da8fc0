(** Linearizability of the replicated counters, as clients of a cluster see it. *)
From Verif Require Import Base StorageModel SnapshotModel CommModel ActorModel DriverModel DriverSpec ClusterSpec CounterModel CounterSpec.

(** ** What is assumed of consensus *)
Section Consensus.
Context {RS SP CS ST REQ RESP : Type}.
Variable codec : driver_codec.
Variable rops : raft_ops RS.
Variable sops : snap_ops SP.
Variable cops : comm_ops CS REQ RESP.
Variable apps : nat -> actor ST.
Variable begin : nat -> RS * SP * CS.
Notation events := (list (nat * delivery REQ RESP)).

(** How far a member is in the log. *)
Definition reached (k : nat) (H : events) (i : N) : Prop :=
  exists d q, member codec rops sops cops apps begin k H d /\ started_with k H q /\
    i = position (start_index q) (handed (raft_calls d)).
(** The log has a committed event at an index: one that some member is past. *)
Definition committed_event (log : N -> rentry) (H : events) (i : N) (ev : actor_event) : Prop :=
  2 <= i /\ logged codec log i = Some ev /\ exists k j, reached k H j /\ i <= j.

(** Every event of the log was proposed by some member, in the call of the
    history that [origin] gives; each proposal is committed at most once; and an
    event gets a place in the log after everything that any member got from the
    log before that call. *)
Record proposals_in_order (log : N -> rentry) (H : events) (origin : N -> nat) : Prop := ProposalsInOrder {
  pi_source : forall i ev, committed_event log H i ev ->
    exists H1 k x H2 d d' calls, H = H1 ++ (k, x) :: H2 /\ length H1 = origin i /\
      member codec rops sops cops apps begin k H1 d /\ member codec rops sops cops apps begin k (H1 ++ [(k, x)]) d' /\
      raft_calls d' = raft_calls d ++ calls /\ KPropose (re_data (log i)) ∈ calls;
  pi_once : forall i j ev ev', committed_event log H i ev -> committed_event log H j ev' -> origin i = origin j -> i = j;
  pi_order : forall i ev H1 H2 k j, committed_event log H i ev -> H = H1 ++ H2 -> (length H1 <= origin i)%nat ->
    reached k H1 j -> j < i;
}.
End Consensus.

(** ** What clients see *)
Section Clients.
Context {RS SP CS REQ RESP : Type}.
Variable c : counter_codec.
Variable codec : driver_codec.
Variable rops : raft_ops RS.
Variable sops : snap_ops SP.
Variable cops : comm_ops CS REQ RESP.
Variable begin : nat -> RS * SP * CS.
Notation apps := (fun _ : nat => counter_actor c).
Notation events := (list (nat * delivery REQ RESP)).

(** In the call number [a] of the history, a member with this id is asked for
    this compare-and-swap under this number. *)
Definition asked (H : events) (a : nat) (id : N) (n : N) (s : swap) : Prop :=
  exists k t m r cas q, H !! a = Some (k, (t, Some (Some (HApp m)))) /\ started_with k H q /\ sr_id q = id /\
    ac_correlation m = n /\ dec_in c (ac_header m) = Some (Some r) /\ cr_op r = Some cas /\
    s = Swap (cr_name r) (cas_expected cas) (cas_new cas) (cr_payload r).
(** In the call number [b], a member with this id gives this response to the
    request with this number. *)
Definition told (H : events) (b : nat) (id : N) (n : N) (r : counter_response) : Prop :=
  exists H1 k x H2 q d d' out, H = H1 ++ (k, x) :: H2 /\ length H1 = b /\ started_with k H q /\ sr_id q = id /\
    member codec rops sops cops apps begin k H1 d /\
    receive codec rops sops cops (counter_actor c) d x = Ok (d', out) /\
    OApp (response_command c n r) ∈ out.
(** The counters a cluster starts with. *)
Definition configured (values : gmap string Z) : registers := fun name => (default 0%Z (values !! name), []).

(** The calls of the history are explained by a sequence of compare-and-swaps
    executed one after the other: each of them was asked for in the call it is
    listed with, no call more than once; a response about the value of a counter
    is that of a compare-and-swap of the sequence, asked for under the same number
    of a member with the same id and not later than the response; whatever is
    asked for after the response comes later in the sequence; and a call that is
    answered with a refusal has no effect, then or later. *)
Definition linearizable (values : gmap string Z) (H : events) : Prop :=
  exists S : list (nat * swap),
    NoDup (map fst S) /\
    (forall a s, (a, s) ∈ S -> exists id n, asked H a id n s) /\
    (forall b id n r op, told H b id n r -> crs_op r = Some op ->
      exists (j : nat) a s ans, S !! j = Some (a, s) /\ asked H a id n s /\ (a <= b)%nat /\
        snd (spec_run (configured values) (map snd S)) !! j = Some ans /\ reads_as r s ans /\
        forall (j' : nat) a' s', S !! j' = Some (a', s') -> (b < a')%nat -> (j < j')%nat) /\
    forall b id n r, told H b id n r -> crs_op r = None -> b ∉ map fst S.
End Clients.
