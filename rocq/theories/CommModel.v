(** Model of the secure communication between replicas:
    runtime/src/communication.rs, runtime/src/handshake.rs and
    runtime/src/encryptor.rs.

    Simplifications, for the whole file:
    - the attested Oak session (runtime/src/session.rs, a thin wrapper of an
      external crate) is a type with arbitrary behaviour; whoever provides
      sessions may answer every request differently, so each call carries the
      provider's answer as an argument;
    - the three kinds of messages exchanged by replicas (DeliverSystemMessage,
      DeliverSnapshotRequest, DeliverSnapshotResponse) have the same shape and
      are one record with a kind; a system message has no delivery id;
    - errors of sessions carry no information; logging is omitted; tick
      counters (u32/u64) are unbounded. *)
From Verif Require Import Base.

(** platform.rs 43-49 PalError. *)
Inductive pal_error := Internal | InvalidOperation | PalRaft | PalActor.

(** endpoint.proto Payload. *)
Record payload := Payload { pl_contents : bytes; pl_nonce : bytes }.

(** endpoint.proto DeliverSystemMessage / DeliverSnapshotRequest /
    DeliverSnapshotResponse. *)
Inductive peer_kind := KSystem | KSnapshotRequest | KSnapshotResponse.
Record peer_msg := PeerMsg {
  pm_kind : peer_kind;
  pm_recipient : N;
  pm_sender : N;
  pm_delivery : N;
  pm_payload : option payload;
}.

Definition with_payload (m : peer_msg) (p : payload) : peer_msg :=
  PeerMsg (pm_kind m) (pm_recipient m) (pm_sender m) (pm_delivery m) (Some p).

(** communication.rs 51-57 OutgoingMessage; the flag says that a system message
    carries a Raft heartbeat. *)
Record out_msg := OutMsg { om_msg : peer_msg; om_heartbeat : bool }.

(** handshake.rs 36-41 Role. *)
Inductive hs_role := Initiator | Recipient.

(** communication.rs 337-349 HandshakeState. *)
Inductive chan_phase :=
| PhUnknown
| PhInitialized
| PhInitiated (ticks : N)
| PhCompleted
| PhFailed (ticks : N).

Section Messages.
(** Oak SessionRequest and SessionResponse. *)
Context {REQ RESP : Type}.

(** endpoint.proto SecureChannelHandshake; [BOther] stands for a message whose
    nested fields are not all present. *)
Inductive hs_body :=
| BRequest (r : REQ)
| BResponse (r : RESP)
| BOther.
Record hs_msg := HsMsg { hm_recipient : N; hm_sender : N; hm_body : hs_body }.

(** in_message::Msg; [IOther] stands for the kinds this module does not
    handle. *)
Inductive in_msg :=
| IHandshake (m : hs_msg)
| IPeer (m : peer_msg)
| IOther.

(** OutMessage. *)
Inductive wire :=
| WHandshake (m : hs_msg)
| WPeer (m : peer_msg).
End Messages.
Arguments hs_body : clear implicits.
Arguments hs_msg : clear implicits.
Arguments in_msg : clear implicits.
Arguments wire : clear implicits.

(** ** The communication module over arbitrary handshake sessions *)

(** The HandshakeSession and Encryptor traits (handshake.rs 63-84,
    encryptor.rs 28-33). A session that is consumed by get_encryptor is not
    used again. *)
Record session_ops (REQ RESP HS EN : Type) := SessionOps {
  hs_process : HS -> hs_msg REQ RESP -> HS * bool;
  hs_take : HS -> HS * option (option (hs_msg REQ RESP));
  hs_completed : HS -> bool;
  hs_encryptor : HS -> option EN;
  en_encrypt : EN -> bytes -> EN * option payload;
  en_decrypt : EN -> payload -> EN * option bytes;
}.
Arguments hs_process {REQ RESP HS EN}.
Arguments hs_take {REQ RESP HS EN}.
Arguments hs_completed {REQ RESP HS EN}.
Arguments hs_encryptor {REQ RESP HS EN}.
Arguments en_encrypt {REQ RESP HS EN}.
Arguments en_decrypt {REQ RESP HS EN}.

Section Module.
Context {REQ RESP HS EN : Type}.
Variable ops : session_ops REQ RESP HS EN.

(** communication.rs 322-334 CommunicationState. *)
Record chan := Chan {
  ch_phase : chan_phase;
  ch_pending : option (hs_msg REQ RESP);
  ch_session : option HS;
  ch_queue : list out_msg;
  ch_encryptor : option EN;
  ch_timeout : N;
}.

(** communication.rs 354-364 new. *)
Definition chan_new (timeout : N) : chan := Chan PhUnknown None None [] None timeout.

Definition with_phase (c : chan) (p : chan_phase) : chan :=
  Chan p (ch_pending c) (ch_session c) (ch_queue c) (ch_encryptor c) (ch_timeout c).
Definition with_queue (c : chan) (q : list out_msg) : chan :=
  Chan (ch_phase c) (ch_pending c) (ch_session c) q (ch_encryptor c) (ch_timeout c).
Definition with_session (c : chan) (s : option HS) : chan :=
  Chan (ch_phase c) (ch_pending c) s (ch_queue c) (ch_encryptor c) (ch_timeout c).
Definition with_hs_pending (c : chan) (p : option (hs_msg REQ RESP)) : chan :=
  Chan (ch_phase c) p (ch_session c) (ch_queue c) (ch_encryptor c) (ch_timeout c).
Definition with_encryptor (c : chan) (e : option EN) : chan :=
  Chan (ch_phase c) (ch_pending c) (ch_session c) (ch_queue c) e (ch_timeout c).

(** communication.rs 365-376 init; the caller has checked the phase. *)
Definition chan_init (c : chan) (h : HS) : res pal_error chan :=
  match ch_phase c with
  | PhUnknown => Ok (with_phase (with_session c (Some h)) PhInitialized)
  | _ => Err InvalidOperation
  end.

(** communication.rs 378-380 is_initialized. *)
Definition chan_initialized (c : chan) : bool :=
  match ch_phase c with PhUnknown => false | _ => true end.

(** communication.rs 382-399 make_tick. *)
Definition chan_tick (c : chan) : chan :=
  match ch_phase c with
  | PhFailed n => with_phase c (PhFailed (n + 1))
  | PhInitiated n =>
    if ch_timeout c <=? n + 1 then with_phase c (PhFailed 0)
    else with_phase c (PhInitiated (n + 1))
  | _ => c
  end.

(** communication.rs 402-408 reset_state_machine. *)
Definition chan_reset (c : chan) : chan :=
  Chan PhUnknown None None (ch_queue c) None (ch_timeout c).

(** communication.rs 417-429 push_or_replace_unencrypted_message: a heartbeat
    replaces the first queued heartbeat. *)
Fixpoint replace_heartbeat (q : list out_msg) (m : out_msg) : option (list out_msg) :=
  match q with
  | [] => None
  | x :: q' =>
    if om_heartbeat x then Some (m :: q')
    else match replace_heartbeat q' m with
         | Some q'' => Some (x :: q'')
         | None => None
         end
  end.
Definition push_or_replace (q : list out_msg) (m : out_msg) : list out_msg :=
  if om_heartbeat m then
    match replace_heartbeat q m with
    | Some q' => q'
    | None => q ++ [m]
    end
  else q ++ [m].

(** communication.rs 431-470 process_out_message; the boolean is false for an
    error. *)
Definition chan_out (c : chan) (m : out_msg) : res pal_error (chan * bool) :=
  match ch_phase c with
  | PhUnknown => Ok (with_phase c (PhFailed 0), false)
  | PhInitialized =>
    match ch_session c with
    | None => Panic
    | Some h =>
      match hs_take ops h with
      | (h', None) => Ok (with_phase (with_session c (Some h')) (PhFailed 0), false)
      | (h', Some None) =>
        Ok (with_phase (with_hs_pending (with_session c (Some h')) None) (PhFailed 0), false)
      | (h', Some (Some hm)) =>
        let c' := with_hs_pending (with_session c (Some h')) (Some hm) in
        Ok (with_phase (with_queue c' (push_or_replace (ch_queue c) m)) (PhInitiated 0), true)
      end
    end
  | PhInitiated _ | PhCompleted | PhFailed _ =>
    Ok (with_queue c (push_or_replace (ch_queue c) m), true)
  end.

(** communication.rs 530-582 decrypt_message, for the supported kinds. An
    absent payload or encryptor aborts ([unwrap]). *)
Definition chan_decrypt (c : chan) (m : in_msg REQ RESP)
  : res pal_error (chan * option (in_msg REQ RESP)) :=
  match ch_encryptor c with
  | None => Panic
  | Some e =>
    match m with
    | IPeer pm =>
      match pm_payload pm with
      | None => Panic
      | Some p =>
        match en_decrypt ops e p with
        | (e', Some plain) =>
          Ok (with_encryptor c (Some e'), Some (IPeer (with_payload pm (Payload plain []))))
        | (e', None) => Ok (with_encryptor c (Some e'), None)
        end
      end
    | IHandshake _ => Ok (with_phase c (PhFailed 0), None)
    | IOther => Ok (c, None)
    end
  end.

(** communication.rs 472-528 process_in_message. An error of the channel is
    turned into "no message" by the module (274-281), so both are [None]. *)
Definition chan_in (c : chan) (m : in_msg REQ RESP)
  : res pal_error (chan * option (in_msg REQ RESP)) :=
  match ch_phase c with
  | PhUnknown => Ok (with_phase c (PhFailed 0), None)
  | PhInitialized | PhInitiated _ =>
    match m with
    | IHandshake hm =>
      match ch_session c with
      | None => Panic
      | Some h =>
        match hs_process ops h hm with
        | (h1, false) => Ok (with_phase (with_session c (Some h1)) (PhFailed 0), None)
        | (h1, true) =>
          match hs_take ops h1 with
          | (h2, None) => Ok (with_phase (with_session c (Some h2)) (PhFailed 0), None)
          | (h2, Some pending) =>
            let c' := with_hs_pending (with_session c (Some h2)) pending in
            if hs_completed ops h2 then
              Ok (with_phase (with_encryptor (with_session c' None) (hs_encryptor ops h2)) PhCompleted,
                  None)
            else
              match ch_phase c with
              | PhInitialized => Ok (with_phase c' (PhInitiated 0), None)
              | _ => Ok (c', None)
              end
          end
        end
      end
    | _ => Ok (with_phase c (PhFailed 0), None)
    end
  | PhCompleted => chan_decrypt c m
  | PhFailed _ => Ok (c, None)
  end.

(** communication.rs 584-625 take_encrypted_messages; an absent payload
    aborts; a message that cannot be encrypted is dropped. *)
Fixpoint encrypt_all (e : EN) (q : list out_msg) : res pal_error (EN * list (wire REQ RESP)) :=
  match q with
  | [] => Ok (e, [])
  | m :: q' =>
    match pm_payload (om_msg m) with
    | None => Panic
    | Some p =>
      let '(e', r) := en_encrypt ops e (pl_contents p) in
      let! (e'', ws) := encrypt_all e' q' in
      Ok (e'', match r with
               | Some p' => WPeer (with_payload (om_msg m) p') :: ws
               | None => ws
               end)
    end
  end.

(** communication.rs 627-640 take_out_messages. *)
Definition chan_take (c : chan) : res pal_error (chan * list (wire REQ RESP)) :=
  match ch_pending c with
  | Some hm => Ok (with_hs_pending c None, [WHandshake hm])
  | None =>
    match ch_phase c with
    | PhCompleted =>
      match ch_encryptor c with
      | None => Panic
      | Some e =>
        let! (e', ws) := encrypt_all e (ch_queue c) in
        Ok (with_queue (with_encryptor c (Some e')) [], ws)
      end
    | _ => Ok (c, [])
    end
  end.

(** communication.rs 125-133 DefaultCommunicationModule. *)
Record comm := Comm {
  cm_replicas : gmap N chan;
  cm_id : N;
  cm_retry : N;
  cm_timeout : N;
}.

(** communication.rs 136-149 new. *)
Definition comm_new : comm := Comm ∅ 0 1 10.

(** communication.rs 160-176 init. *)
Definition comm_init (s : comm) (id retry timeout : N) : comm :=
  Comm (cm_replicas s) id retry timeout.

Definition with_replicas (s : comm) (m : gmap N chan) : comm :=
  Comm m (cm_id s) (cm_retry s) (cm_timeout s).

(** communication.rs 196-210 / 255-269: the peer's channel, created and
    initialised on demand with the session [g] the provider returns. The first
    component is the module even when the provider fails. *)
Definition get_channel (s : comm) (peer : N) (g : option HS)
  : comm * res pal_error chan :=
  let c := match cm_replicas s !! peer with Some c => c | None => chan_new (cm_timeout s) end in
  let s' := with_replicas s (<[peer := c]> (cm_replicas s)) in
  if chan_initialized c then (s', Ok c)
  else
    match g with
    | None => (s', Err Internal)
    | Some h => (s', chan_init c h)
    end.

(** communication.rs 179-224 process_out_message. [g] is what the provider
    returns if asked for a session with role Initiator. *)
Definition comm_out (s : comm) (g : hs_role -> option HS) (m : out_msg)
  : comm * res pal_error unit :=
  if cm_id s =? 0 then (s, Err InvalidOperation)
  else
    let peer := pm_recipient (om_msg m) in
    match get_channel s peer (g Initiator) with
    | (s', Ok c) =>
      match chan_out c m with
      | Ok (c', _) => (with_replicas s' (<[peer := c']> (cm_replicas s')), Ok tt)
      | Err e => (s', Err e)
      | Panic => (s', Panic)
      end
    | (s', Err e) => (s', Err e)
    | (s', Panic) => (s', Panic)
    end.

(** communication.rs 232-248: who sent it; unsupported kinds are an error. *)
Definition in_sender (m : in_msg REQ RESP) : option N :=
  match m with
  | IHandshake hm => Some (hm_sender hm)
  | IPeer pm => Some (pm_sender pm)
  | IOther => None
  end.

(** communication.rs 226-282 process_in_message. *)
Definition comm_in (s : comm) (g : hs_role -> option HS) (m : in_msg REQ RESP)
  : comm * res pal_error (option (in_msg REQ RESP)) :=
  if cm_id s =? 0 then (s, Err InvalidOperation)
  else
    match in_sender m with
    | None => (s, Err InvalidOperation)
    | Some peer =>
      match get_channel s peer (g Recipient) with
      | (s', Ok c) =>
        match chan_in c m with
        | Ok (c', r) => (with_replicas s' (<[peer := c']> (cm_replicas s')), Ok r)
        | Err e => (s', Err e)
        | Panic => (s', Panic)
        end
      | (s', Err e) => (s', Err e)
      | (s', Panic) => (s', Panic)
      end
    end.

(** communication.rs 284-290 take_out_messages, for the iteration order
    [ord]. *)
Fixpoint take_all (m : gmap N chan) (ord : list N) : res pal_error (gmap N chan * list (wire REQ RESP)) :=
  match ord with
  | [] => Ok (m, [])
  | k :: ord' =>
    match m !! k with
    | None => take_all m ord'
    | Some c =>
      let! (c', ws) := chan_take c in
      let! (m', ws') := take_all (<[k := c']> m) ord' in
      Ok (m', ws ++ ws')
    end
  end.
Definition comm_take (s : comm) (ord : list N) : res pal_error (comm * list (wire REQ RESP)) :=
  let! (m, ws) := take_all (cm_replicas s) ord in
  Ok (with_replicas s m, ws).

(** communication.rs 292-309 process_cluster_change. *)
Definition comm_cluster_change (s : comm) (ids : list N) : comm :=
  if existsb (fun i => i =? cm_id s) ids
  then with_replicas s (filter (fun '(k, _) => existsb (fun i => i =? k) ids = true) (cm_replicas s))
  else with_replicas s ∅.

(** communication.rs 311-320 make_tick. *)
Definition comm_tick_chan (retry : N) (c : chan) : chan :=
  let c' := chan_tick c in
  match ch_phase c' with
  | PhFailed n => if retry <=? n then chan_reset c' else c'
  | _ => c'
  end.
Definition comm_tick (s : comm) : comm :=
  with_replicas s (comm_tick_chan (cm_retry s) <$> cm_replicas s).

(** Calls on an initialised module and what they return. *)
Inductive comm_op :=
| COut (g : hs_role -> option HS) (m : out_msg)
| CIn (g : hs_role -> option HS) (m : in_msg REQ RESP)
| CTake (ord : list N)
| CCluster (ids : list N)
| CTick.
Inductive comm_ret :=
| RUnit (r : res pal_error unit)
| RIn (r : res pal_error (option (in_msg REQ RESP)))
| RTake (ws : list (wire REQ RESP)).

(** One call; [None] means that the process aborted. *)
Definition comm_step (s : comm) (op : comm_op) : option (comm * comm_ret) :=
  match op with
  | COut g m => match comm_out s g m with
                | (_, Panic) => None
                | (s', r) => Some (s', RUnit r)
                end
  | CIn g m => match comm_in s g m with
               | (_, Panic) => None
               | (s', r) => Some (s', RIn r)
               end
  | CTake ord => match comm_take s ord with
                 | Ok (s', ws) => Some (s', RTake ws)
                 | _ => None
                 end
  | CCluster ids => Some (comm_cluster_change s ids, RUnit (Ok tt))
  | CTick => Some (comm_tick s, RUnit (Ok tt))
  end.
End Module.
Arguments chan : clear implicits.
Arguments comm : clear implicits.
Arguments comm_op : clear implicits.
Arguments comm_ret : clear implicits.

(** ** Handshake sessions over Oak sessions *)

(** handshake.rs 131-144 State. *)
Inductive hs_state := HUnknown | HInitiated | HCompleted | HFailed.

Section Handshake.
Context {REQ RESP CS SS : Type}.

(** session.rs: the operations of the Oak client and server sessions. [None]
    is an error. A message of an open session may carry an encrypted
    message. *)
Record oak_ops (S OUT IN : Type) := OakOps {
  oak_out : S -> S * option (option OUT);
  oak_in : S -> IN -> S * bool;
  oak_open : S -> bool;
  oak_write : S -> bytes -> S * bool;
  oak_read : S -> S * option (option bytes);
  (** the encrypted message carried by an outgoing message, and the incoming
      message that carries one; a missing nonce aborts, modelled as [None] in
      the second component *)
  oak_carried : OUT -> option (bytes * option bytes);
  oak_carry : bytes -> bytes -> IN;
}.
Arguments oak_out {S OUT IN}.
Arguments oak_in {S OUT IN}.
Arguments oak_open {S OUT IN}.
Arguments oak_write {S OUT IN}.
Arguments oak_read {S OUT IN}.
Arguments oak_carried {S OUT IN}.
Arguments oak_carry {S OUT IN}.

Variable client : oak_ops CS REQ RESP.
Variable server : oak_ops SS RESP REQ.

(** handshake.rs 146-152 / 326-332 ClientHandshakeSession and
    ServerHandshakeSession. *)
Record hsession (S : Type) := HSession {
  h_self : N;
  h_peer : N;
  h_session : S;
  h_state : hs_state;
}.
Arguments HSession {S}.
Arguments h_self {S}.
Arguments h_peer {S}.
Arguments h_session {S}.
Arguments h_state {S}.

Definition h_with {S} (h : hsession S) (s : S) (st : hs_state) : hsession S :=
  HSession (h_self h) (h_peer h) s st.

(** handshake.rs 155-168 / 335-348 new. *)
Definition hsession_new {S} (self peer : N) (s : S) : hsession S := HSession self peer s HUnknown.

(** handshake.rs 206-259 ClientHandshakeSession::process_message. *)
Definition client_process (h : hsession CS) (m : hs_msg REQ RESP) : hsession CS * bool :=
  match h_state h with
  | HUnknown => (h_with h (h_session h) HFailed, false)
  | HInitiated =>
    match hm_body m with
    | BResponse r =>
      match oak_in client (h_session h) r with
      | (s', true) => (h_with h s' HInitiated, true)
      | (s', false) => (h_with h s' HFailed, false)
      end
    | _ => (h_with h (h_session h) HFailed, false)
    end
  | HCompleted | HFailed => (h, true)
  end.

(** handshake.rs 261-312 ClientHandshakeSession::take_out_message (with
    get_session_request 187-203 and create_secure_channel_handshake 170-181). *)
Definition client_take (h : hsession CS) : hsession CS * option (option (hs_msg REQ RESP)) :=
  let wrap r := HsMsg (h_peer h) (h_self h) (BRequest r) in
  match h_state h with
  | HUnknown =>
    match oak_out client (h_session h) with
    | (s', None) => (h_with h s' HFailed, None)
    | (s', Some o) => (h_with h s' HInitiated, Some (wrap <$> o))
    end
  | HInitiated =>
    match oak_out client (h_session h) with
    | (s', None) => (h_with h s' HFailed, None)
    | (s', Some o) =>
      (h_with h s' (if oak_open client s' then HCompleted else HInitiated), Some (wrap <$> o))
    end
  | HCompleted | HFailed => (h, Some None)
  end.

(** handshake.rs 384-433 ServerHandshakeSession::process_message. *)
Definition server_process (h : hsession SS) (m : hs_msg REQ RESP) : hsession SS * bool :=
  match h_state h with
  | HUnknown | HInitiated =>
    match hm_body m with
    | BRequest r =>
      match oak_in server (h_session h) r with
      | (s', true) => (h_with h s' HInitiated, true)
      | (s', false) => (h_with h s' HFailed, false)
      end
    | _ => (h_with h (h_session h) HFailed, false)
    end
  | HCompleted | HFailed => (h, true)
  end.

(** handshake.rs 435-476 ServerHandshakeSession::take_out_message (with
    get_session_response 367-381). *)
Definition server_take (h : hsession SS) : hsession SS * option (option (hs_msg REQ RESP)) :=
  let wrap r := HsMsg (h_peer h) (h_self h) (BResponse r) in
  match h_state h with
  | HUnknown => (h, Some None)
  | HInitiated =>
    match oak_out server (h_session h) with
    | (s', None) => (h_with h s' HFailed, None)
    | (s', Some o) =>
      (h_with h s' (if oak_open server s' then HCompleted else HInitiated), Some (wrap <$> o))
    end
  | HCompleted | HFailed => (h, Some None)
  end.

(** handshake.rs 314-316 / 478-480 is_completed. *)
Definition h_completed {S} (h : hsession S) : bool :=
  match h_state h with HCompleted => true | _ => false end.

(** handshake.rs 318-324 / 482-488 get_encryptor. *)
Definition h_encryptor {S} (h : hsession S) : option S :=
  if h_completed h then Some (h_session h) else None.

(** encryptor.rs 47-60 / 86-100 encrypt. A missing nonce aborts; the Oak
    session sets it, and the model treats its absence as an error. *)
Definition oak_encrypt {S OUT IN} (o : oak_ops S OUT IN) (s : S) (plain : bytes)
  : S * option payload :=
  match oak_write o s plain with
  | (s1, false) => (s1, None)
  | (s1, true) =>
    match oak_out o s1 with
    | (s2, Some (Some m)) =>
      match oak_carried o m with
      | Some (c, Some n) => (s2, Some (Payload c n))
      | _ => (s2, None)
      end
    | (s2, _) => (s2, None)
    end
  end.

(** encryptor.rs 62-76 / 102-117 decrypt. *)
Definition oak_decrypt {S OUT IN} (o : oak_ops S OUT IN) (s : S) (p : payload)
  : S * option bytes :=
  match oak_in o s (oak_carry o (pl_contents p) (pl_nonce p)) with
  | (s1, false) => (s1, None)
  | (s1, true) =>
    match oak_read o s1 with
    | (s2, Some (Some b)) => (s2, Some b)
    | (s2, _) => (s2, None)
    end
  end.

(** handshake.rs 114-128 get: the session of a role; the arguments are the
    answers of the session factory. *)
Definition provider_get (self peer : N) (c : option CS) (s : option SS) (r : hs_role)
  : option (hsession CS + hsession SS) :=
  match r with
  | Initiator => (fun x => inl (hsession_new self peer x)) <$> c
  | Recipient => (fun x => inr (hsession_new self peer x)) <$> s
  end.

(** The sessions as the communication module uses them. *)
Definition default_ops : session_ops REQ RESP (hsession CS + hsession SS) (CS + SS) :=
  SessionOps _ _ _ _
    (fun h m => match h with
                | inl h => let '(h', b) := client_process h m in (inl h', b)
                | inr h => let '(h', b) := server_process h m in (inr h', b)
                end)
    (fun h => match h with
              | inl h => let '(h', o) := client_take h in (inl h', o)
              | inr h => let '(h', o) := server_take h in (inr h', o)
              end)
    (fun h => match h with inl h => h_completed h | inr h => h_completed h end)
    (fun h => match h with inl h => inl <$> h_encryptor h | inr h => inr <$> h_encryptor h end)
    (fun e p => match e with
                | inl s => let '(s', r) := oak_encrypt client s p in (inl s', r)
                | inr s => let '(s', r) := oak_encrypt server s p in (inr s', r)
                end)
    (fun e p => match e with
                | inl s => let '(s', r) := oak_decrypt client s p in (inl s', r)
                | inr s => let '(s', r) := oak_decrypt server s p in (inr s', r)
                end).
End Handshake.
