(** Requests and answers, counted: what the clients of a cluster get back. *)
From Verif Require Import Base StorageModel SnapshotModel CommModel ActorModel DriverModel DriverSpec ClusterSpec.

(** The application of some member can decide on this event. *)
Definition decided {ST} (apps : nat -> actor ST) (ev : actor_event) : Prop :=
  exists k cx st m st' out, a_command (apps k) cx st m = Ok (st', out) /\ co_event out = Some ev.
(** Applications that answer requests once: a request is answered at once with one
    message under its number, or becomes an event under its number and is not
    answered yet, or is dropped. An event is answered with at most one message under
    its number, and only where it came from. Without a request nothing happens. *)
Record answers_once {ST} (apps : nat -> actor ST) : Prop := AnswersOnce {
  ao_quiet : forall k cx st st' out, a_command (apps k) cx st None = Ok (st', out) -> out = CommandOutcome [] None;
  ao_request : forall k cx st m st' out, a_command (apps k) cx st (Some m) = Ok (st', out) ->
    (exists y, co_commands out = [y] /\ ac_correlation y = ac_correlation m /\ co_event out = None) \/
    (co_commands out = [] /\ forall ev, co_event out = Some ev -> ae_correlation ev = ac_correlation m);
  ao_event : forall k st cx ev st' out, decided apps ev -> a_apply (apps k) st cx ev = Ok (st', out) ->
    out = [] \/ ec_owned cx = true /\ exists y, out = [y] /\ ac_correlation y = ae_correlation ev;
}.

Section Spec.
Context {RS SP CS ST REQ RESP : Type}.
Variable codec : driver_codec.
Variable rops : raft_ops RS.
Variable sops : snap_ops SP.
Variable cops : comm_ops CS REQ RESP.
Variable apps : nat -> actor ST.
Variable begin : nat -> RS * SP * CS.
Notation events := (list (nat * delivery REQ RESP)).

(** In the call number [a] of the history, a member with this id is handed a
    request of a client with this number. *)
Definition client_asks (H : events) (a : nat) (id n : N) : Prop :=
  exists k t m q, H !! a = Some (k, (t, Some (Some (HApp m)))) /\ started_with k H q /\ sr_id q = id /\ ac_correlation m = n.
(** All messages that the member [k] hands to its host for its clients, each with
    the number of the call of the history in which it does. *)
Inductive tells (k : nat) : events -> list (nat * actor_command) -> Prop :=
| tells_nothing : tells k [] []
| tells_not H l k' x : k' <> k -> tells k H l -> tells k (H ++ [(k', x)]) l
| tells_messages H l x d d' out : tells k H l -> member codec rops sops cops apps begin k H d ->
    receive codec rops sops cops (apps k) d x = Ok (d', out) ->
    tells k (H ++ [(k, x)]) (l ++ map (pair (length H)) (omap app_out out)).
(** Every message is an answer to a request of its own: a request with the same
    number, handed to a member with this id, not after the answer. *)
Definition answered_once (H : events) (id : N) (l : list (nat * actor_command)) : Prop :=
  exists requests : list nat, NoDup requests /\
    Forall2 (fun '(b, y) a => client_asks H a id (ac_correlation y) /\ (a <= b)%nat) l requests.
(** Clients give every request of theirs to replicas with this id a new number. *)
Definition new_numbers (H : events) (id : N) : Prop :=
  forall a1 a2 n, client_asks H a1 id n -> client_asks H a2 id n -> a1 = a2.
End Spec.
