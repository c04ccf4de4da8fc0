(** Vocabulary of the theorems about a replica put together from its parts. *)
From Verif Require Import Base StorageModel SnapshotModel CommModel ActorModel DriverModel SessionModel SessionSpec ReplicaModel.

(** ** Histories *)
Section History.
Context {RS SP CS ST REQ RESP : Type}.
Variable codec : driver_codec.
Variable rops : raft_ops RS.
Variable sops : snap_ops SP.
Variable cops : comm_ops CS REQ RESP.
Variable app : actor ST.
(** A replica in some state, the calls it receives from there (an instant and,
    if any, a message), what it hands to the host, and the state it is in then.
    A replica is gone once a call fails. *)
Inductive lives (d0 : driver RS SP CS ST REQ RESP) :
  list (N * option (option (host_in REQ RESP))) -> list (host_out REQ RESP) -> driver RS SP CS ST REQ RESP -> Prop :=
| lives_new : lives d0 [] [] d0
| lives_call xs outs d t m d' out :
    lives d0 xs outs d -> receive_message codec rops sops cops app d t m = Ok (d', out) ->
    lives d0 (xs ++ [(t, m)]) (outs ++ out) d'.
End History.

(** The channel with a peer. *)
Definition channel {REQ RESP CSN SSN} (s : @messenger REQ RESP CSN SSN) (peer : N) :=
  cm_replicas (ms_comm s) !! peer.
(** Only the channel with this peer may differ. *)
Definition same_but {REQ RESP CSN SSN} (peer : N) (s s' : @messenger REQ RESP CSN SSN) : Prop :=
  forall p, p <> peer -> channel s' p = channel s p.

(** ** Sessions *)
Section Sessions.
Context {REQ RESP CSN SSN : Type}.
Variable client : oak_ops CSN REQ RESP.
Variable server : oak_ops SSN RESP REQ.
Variable create_client : session_config -> N -> option CSN.
Variable create_server : session_config -> N -> option SSN.

(** One call on an Oak session. *)
Inductive oak_move : CSN + SSN -> CSN + SSN -> Prop :=
| client_out s s' o : oak_out _ _ _ client s = (s', o) -> oak_move (inl s) (inl s')
| client_in s m s' b : oak_in _ _ _ client s m = (s', b) -> oak_move (inl s) (inl s')
| client_write s m s' b : oak_write _ _ _ client s m = (s', b) -> oak_move (inl s) (inl s')
| client_read s s' o : oak_read _ _ _ client s = (s', o) -> oak_move (inl s) (inl s')
| server_out s s' o : oak_out _ _ _ server s = (s', o) -> oak_move (inr s) (inr s')
| server_in s m s' b : oak_in _ _ _ server s m = (s', b) -> oak_move (inr s) (inr s')
| server_write s m s' b : oak_write _ _ _ server s m = (s', b) -> oak_move (inr s) (inr s')
| server_read s s' o : oak_read _ _ _ server s = (s', o) -> oak_move (inr s) (inr s').
Definition is_open (e : CSN + SSN) : bool :=
  match e with inl s => oak_open _ _ _ client s | inr s => oak_open _ _ _ server s end.
(** A new session made from this configuration. *)
Definition created (cfg : session_config) (e : CSN + SSN) : Prop :=
  exists rnd, match e with
              | inl s => create_client cfg rnd = Some s
              | inr s => create_server cfg rnd = Some s
              end.
(** A session this replica made to verify the peer with these reference values,
    and what has become of it. *)
Definition made_for (values : ref_values) (c : clock) (e : CSN + SSN) : Prop :=
  exists cfg e0, se_verifier cfg = fst (choose values c) /\ created cfg e0 /\ rtc oak_move e0 e.
(** Such a session that has been open. *)
Definition attested (values : ref_values) (c : clock) (e : CSN + SSN) : Prop :=
  exists e1, made_for values c e1 /\ is_open e1 = true /\ rtc oak_move e1 e.

(** What Oak promises: a session is open only when the verifier it was made with
    has accepted the evidence the peer presented. *)
Definition oak_verifies (ck : checks) (evidence_of : CSN + SSN -> bytes) : Prop :=
  forall cfg e0 e, created cfg e0 -> rtc oak_move e0 e -> is_open e = true ->
    accepts ck (se_verifier cfg) (evidence_of e).

(** An attested session that is used with this peer decrypts the contents of the
    message. *)
Definition heard (values : ref_values) (c : clock) (s : @messenger REQ RESP CSN SSN) (m : peer_msg) (plain : bytes) : Prop :=
  exists ch e e' p, channel s (pm_sender m) = Some ch /\ ch_phase ch = PhCompleted /\
    ch_encryptor ch = Some e /\ attested values c e /\
    pm_payload m = Some p /\ en_decrypt (default_ops client server) e p = (e', Some plain).
(** The message is what an attested session that is used with its recipient made
    of some contents. *)
Definition enciphered (values : ref_values) (c : clock) (s : @messenger REQ RESP CSN SSN) (m : peer_msg) : Prop :=
  exists ch now e e' plain p, channel s (pm_recipient m) = Some ch /\ ch_phase ch = PhCompleted /\
    ch_encryptor ch = Some now /\ attested values c e /\
    en_encrypt (default_ops client server) e plain = (e', Some p) /\ pm_payload m = Some p /\ rtc oak_move e' now.
End Sessions.
