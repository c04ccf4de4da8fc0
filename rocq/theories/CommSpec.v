(** Vocabulary for the secure channel properties. *)
From Verif Require Import Base CommModel.

(** The message with this in place of what it carried. *)
Definition carrying (m : peer_msg) (p : payload) : peer_msg :=
  PeerMsg (pm_kind m) (pm_recipient m) (pm_sender m) (pm_delivery m) (Some p).

(** A queue in which a new heartbeat supersedes the older ones, taking the
    place of the first: what is left of the messages [l]. *)
Definition is_hb (m : out_msg) : Prop := om_heartbeat m = true.
Global Instance is_hb_dec m : Decision (is_hb m).
Proof. unfold is_hb. apply _. Defined.

Definition collapse (l : list out_msg) : list out_msg :=
  match list_find is_hb l with
  | None => l
  | Some (i, first) =>
      take i l ++ default first (last (filter is_hb l)) :: filter (fun m => ~ is_hb m) (drop (S i) l)
  end.

Section Spec.
Context {REQ RESP HS EN : Type}.
Variable ops : session_ops REQ RESP HS EN.

(** A history: the module before each call, the call, and its result. *)
Definition ctrace : Type :=
  list (comm REQ RESP HS EN * comm_op REQ RESP HS * comm_ret REQ RESP).

Definition cop_ok (s : comm REQ RESP HS EN) (op : comm_op REQ RESP HS) : Prop :=
  match op with
  | CTake ord => ord ≡ₚ (map_to_list (cm_replicas s)).*1
  | _ => True
  end.

Inductive comm_trace (s0 : comm REQ RESP HS EN) : ctrace -> comm REQ RESP HS EN -> Prop :=
| ctrace_nil : comm_trace s0 [] s0
| ctrace_snoc t s op s' ret :
    comm_trace s0 t s -> cop_ok s op -> comm_step ops s op = Some (s', ret) ->
    comm_trace s0 (t ++ [(s, op, ret)]) s'.

(** Phase of the channel to peer [r]; [PhUnknown] if there is none. *)
Definition phase (s : comm REQ RESP HS EN) (r : N) : chan_phase :=
  match cm_replicas s !! r with Some c => ch_phase c | None => PhUnknown end.

(** Queue of the channel to peer [r]. *)
Definition queue (s : comm REQ RESP HS EN) (r : N) : list out_msg :=
  match cm_replicas s !! r with Some c => ch_queue c | None => [] end.

(** A handshake message for [r] waits to be handed out. *)
Definition handshake_waiting (s : comm REQ RESP HS EN) (r : N) : option (hs_msg REQ RESP) :=
  match cm_replicas s !! r with Some c => ch_pending c | None => None end.

(** An outgoing message for [r] enters the queue: there is a channel in use, or
    the provider's new session [g] produces its first handshake message. *)
Definition accepted (s : comm REQ RESP HS EN) (r : N) (g : hs_role -> option HS) : bool :=
  match phase s r with
  | PhUnknown =>
    match g Initiator with
    | Some h => match snd (hs_take ops h) with Some (Some _) => true | _ => false end
    | None => false
    end
  | _ => true
  end.

(** A take call hands out the queued messages of [r]. *)
Definition flushes (s : comm REQ RESP HS EN) (r : N) : bool :=
  match handshake_waiting s r, phase s r with
  | None, PhCompleted => true
  | _, _ => false
  end.

Definition stays (s : comm REQ RESP HS EN) (r : N) (ids : list N) : bool :=
  bool_decide (r ∈ ids /\ cm_id s ∈ ids).

(** The messages accepted for [r] and not handed out since, oldest first. *)
Definition unsent (r : N) (t : ctrace) : list out_msg :=
  foldl (fun acc '(s, op, _) =>
    match op with
    | COut g m =>
        if (pm_recipient (om_msg m) =? r) && accepted s r g then acc ++ [m] else acc
    | CTake _ => if flushes s r then [] else acc
    | CCluster ids => if stays s r ids then acc else []
    | _ => acc
    end) [] t.

(** Sessions the provider returned for peer [r] and what became of them. *)
Inductive session_from (t : ctrace) (r : N) : HS -> Prop :=
| sf_initiator s g m ret h :
    (s, COut g m, ret) ∈ t -> pm_recipient (om_msg m) = r -> g Initiator = Some h ->
    session_from t r h
| sf_recipient s g m ret h :
    (s, CIn g m, ret) ∈ t -> in_sender m = Some r -> g Recipient = Some h -> session_from t r h
| sf_process h hm h' b s g ret :
    session_from t r h -> (s, CIn g (IHandshake hm), ret) ∈ t -> hm_sender hm = r ->
    hs_process ops h hm = (h', b) -> session_from t r h'
| sf_take h h' o : session_from t r h -> hs_take ops h = (h', o) -> session_from t r h'.

(** The handshake message [hm] was produced by a session with [r]. *)
Definition made_by (t : ctrace) (r : N) (hm : hs_msg REQ RESP) : Prop :=
  exists h h', session_from t r h /\ hs_take ops h = (h', Some (Some hm)).

(** Encryptors obtained from completed sessions with [r], and what became of
    them. *)
Inductive encryptor_from (t : ctrace) (r : N) : EN -> Prop :=
| ef_session h e : session_from t r h -> hs_completed ops h = true ->
    hs_encryptor ops h = Some e -> encryptor_from t r e
| ef_encrypt e b e' o : encryptor_from t r e -> en_encrypt ops e b = (e', o) -> encryptor_from t r e'
| ef_decrypt e p e' o : encryptor_from t r e -> en_decrypt ops e p = (e', o) -> encryptor_from t r e'.

(** Encrypting a list of messages one after the other: the final state of the
    encryptor and what each message became ([None]: rejected). *)
Inductive encrypted : EN -> list out_msg -> list (option (wire REQ RESP)) -> EN -> Prop :=
| enc_nil e : encrypted e [] [] e
| enc_cons e m p e' o e'' q ws :
    pm_payload (om_msg m) = Some p -> en_encrypt ops e (pl_contents p) = (e', o) ->
    encrypted e' q ws e'' ->
    encrypted e (m :: q) (((fun p' => WPeer (carrying (om_msg m) p')) <$> o) :: ws) e''.

(** To whom a message on the wire is addressed. *)
Definition addressed (w : wire REQ RESP) : N :=
  match w with
  | WHandshake m => hm_recipient m
  | WPeer m => pm_recipient m
  end.

(** The messages of the history accepted for [r], in the order of the calls. *)
Definition accepted_for (r : N) (t : ctrace) : list out_msg :=
  flat_map (fun '(s, op, _) =>
    match op with
    | COut g m => if (pm_recipient (om_msg m) =? r) && accepted s r g then [m] else []
    | _ => []
    end) t.

(** The messages other than handshake messages handed out for [r], in order. *)
Definition handed_out (r : N) (t : ctrace) : list peer_msg :=
  flat_map (fun '(_, _, ret) =>
    match ret with
    | RTake ws => flat_map (fun w => match w with
                                     | WPeer m => if pm_recipient m =? r then [m] else []
                                     | _ => []
                                     end) ws
    | _ => []
    end) t.

(** A list without its heartbeats. *)
Definition without_heartbeats (l : list out_msg) : list out_msg := filter (fun m => ~ is_hb m) l.

(** Number of ticks in a history. *)
Definition is_tick (op : comm_op REQ RESP HS) : bool :=
  match op with CTick => true | _ => false end.
Definition ticks (t : ctrace) : N :=
  Nlen (List.filter (fun '(_, op, _) => is_tick op) t).

(** Peer [r] is never removed in the history. *)
Definition keeps (r : N) (t : ctrace) : Prop :=
  forall s ids ret, (s, CCluster ids, ret) ∈ t -> r ∈ ids /\ cm_id s ∈ ids.

(** Nothing arrives from peer [r] in the history. *)
Definition silent (r : N) (t : ctrace) : Prop :=
  forall s g m ret, (s, CIn g m, ret) ∈ t -> in_sender m <> Some r.

(** The messages a call carries have contents. *)
Definition op_has_payload (op : comm_op REQ RESP HS) : Prop :=
  match op with
  | COut _ m => is_Some (pm_payload (om_msg m))
  | CIn _ (IPeer m) => is_Some (pm_payload m)
  | _ => True
  end.
End Spec.

(** ** Handshake sessions *)
Section HandshakeSpec.
Context {REQ RESP CS SS : Type}.

(** What can happen to a handshake session, and with which result. *)
Inductive hs_event :=
| EvProcess (m : hs_msg REQ RESP) (ok : bool)
| EvTake (out : option (option (hs_msg REQ RESP))).

(** All sequences of calls on a session. *)
Inductive hs_history {S} (process : hsession S -> hs_msg REQ RESP -> hsession S * bool)
    (take : hsession S -> hsession S * option (option (hs_msg REQ RESP))) (h0 : hsession S)
  : list hs_event -> hsession S -> Prop :=
| hh_nil : hs_history process take h0 [] h0
| hh_process l h m h' b : hs_history process take h0 l h -> process h m = (h', b) ->
    hs_history process take h0 (l ++ [EvProcess m b]) h'
| hh_take l h h' o : hs_history process take h0 l h -> take h = (h', o) ->
    hs_history process take h0 (l ++ [EvTake o]) h'.

Variable client : oak_ops CS REQ RESP.
Variable server : oak_ops SS RESP REQ.

(** The sessions in a history of the communication module of replica [self] all
    come from the default provider. *)
Definition provided (self : N) (t : @ctrace REQ RESP (hsession CS + hsession SS) (CS + SS)) : Prop :=
  (forall s g m ret, (s, COut g m, ret) ∈ t ->
     exists c sv, g Initiator = provider_get self (pm_recipient (om_msg m)) c sv Initiator) /\
  (forall s g m ret r, (s, CIn g m, ret) ∈ t -> in_sender m = Some r ->
     exists c sv, g Recipient = provider_get self r c sv Recipient).

(** Encryptors made from an Oak session that reported being open, that is, after
    the peer was attested. *)
Inductive secured : CS + SS -> Prop :=
| sec_client s : oak_open _ _ _ client s = true -> secured (inl s)
| sec_server s : oak_open _ _ _ server s = true -> secured (inr s)
| sec_encrypt e b e' o : secured e -> en_encrypt (default_ops client server) e b = (e', o) -> secured e'
| sec_decrypt e p e' o : secured e -> en_decrypt (default_ops client server) e p = (e', o) -> secured e'.
End HandshakeSpec.
