(** The decryptor as the clients of a whole cluster see it. *)
From Verif Require Import Base StorageModel SnapshotModel CommModel ActorModel DriverModel DriverSpec ClusterSpec ClusterOrderSpec
  WillowModel WillowSpec.

Section Clients.
Context {RS SP CS REQ RESP : Type}.
Variable c : willow_codec.
Variable keygen : bytes -> N -> bytes * bytes.
Variable decrypt : bytes -> bytes -> bytes -> N -> res w_code bytes.
(** The randomness each member uses. *)
Variable entropy : nat -> actor_context -> key_store -> option actor_command -> N.
Variable codec : driver_codec.
Variable rops : raft_ops RS.
Variable sops : snap_ops SP.
Variable cops : comm_ops CS REQ RESP.
Variable begin : nat -> RS * SP * CS.
Notation apps := (fun k : nat => willow_actor c keygen decrypt (entropy k)).
Notation events := (list (nat * delivery REQ RESP)).

(** In the call number [a] of the history, the member [k], whose id is [id], is
    asked for this under this number. *)
Definition asks (H : events) (a k : nat) (id n : N) (w : w_request) : Prop :=
  exists t m q, H !! a = Some (k, (t, Some (Some (HApp m)))) /\ started_with k H q /\ sr_id q = id /\
    ac_correlation m = n /\ dec_wrequest c (ac_header m) = Some (Some w).
(** In the call number [b], the member [k], whose id is [id], gives this response
    to the request with this number. *)
Definition answers (H : events) (b k : nat) (id n : N) (r : w_response) : Prop :=
  exists H1 x H2 q d d' out, H = H1 ++ (k, x) :: H2 /\ length H1 = b /\ started_with k H q /\ sr_id q = id /\
    member codec rops sops cops apps begin k H1 d /\
    receive codec rops sops cops (apps k) d x = Ok (d', out) /\ OApp (w_answer c n r) ∈ out.
(** How far the member [k] has got in the log before the call number [a]. *)
Definition had_reached (H : events) (a k : nat) (j : N) : Prop :=
  reached codec rops sops cops apps begin k (take a H) j.
(** The log has this event at this index, and some member got it. *)
Definition in_log (log : N -> rentry) (H : events) (i : N) (e : w_event) : Prop :=
  exists ev, committed_event codec rops sops cops apps begin log H i ev /\ event_of c ev = Some e.
Definition about (e : w_event) : bytes :=
  match e with GenerateKeyEvent key _ _ _ => key | DecryptEvent key _ => key end.
(** The pair of this key was generated at an index [g], and up to the index [j] it
    was neither used nor replaced. *)
Definition unused_pair (log : N -> rentry) (H : events) (g j : N) (key public private : bytes) : Prop :=
  g <= j /\ (exists o, in_log log H g (GenerateKeyEvent key public private o)) /\
  forall i e, g < i <= j -> in_log log H i e -> about e <> key.
End Clients.
