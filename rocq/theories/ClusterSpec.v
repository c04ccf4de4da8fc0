(** A cluster: several replicas driven by their hosts, and what is assumed of the
    consensus protocol that connects them. A replica that restarts keeps nothing,
    so it is a new member of the cluster, whatever id it uses. *)
From Verif Require Import Base StorageModel SnapshotModel CommModel ActorModel DriverModel DriverSpec.

Section Spec.
Context {RS SP CS ST REQ RESP : Type}.
Variable codec : driver_codec.
Variable rops : raft_ops RS.
Variable sops : snap_ops SP.
Variable cops : comm_ops CS REQ RESP.
(** The application every member runs; they may differ in what they choose
    freely, such as random numbers. *)
Variable apps : nat -> actor ST.
(** The states members begin with, before they are started. *)
Variable begin : nat -> RS * SP * CS.

(** The history of a cluster: which member was called, and with what. *)
Notation events := (list (nat * delivery REQ RESP)).
(** The calls of one member. *)
Definition calls_of (k : nat) (H : events) : list (delivery REQ RESP) :=
  omap (fun '(k', x) => if decide (k' = k) then Some x else None) H.
(** The member [k] is in this state after this history. *)
Definition member (k : nat) (H : events) (d : rdriver RS SP CS ST REQ RESP) : Prop :=
  exists outs, reaches codec rops sops cops (apps k) (begin k).1.1 (begin k).1.2 (begin k).2 (calls_of k H) d outs.
(** The request a member was started with, as a replicated one. *)
Definition started_with (k : nat) (H : events) (q : start_request) : Prop :=
  delivered (HStart q) (calls_of k H) /\ sr_ephemeral q = false.

(** The log that consensus agrees on: its entry at every index. *)
Notation rlog := (N -> rentry).
(** The [n] entries after position [pos]. *)
Definition next_entries (log : rlog) (pos : N) (n : nat) : list rentry :=
  map (fun j => log (pos + 1 + N.of_nat j)) (seq 0 n).
(** Consensus hands over this log, from position [pos] on, without gaps: every
    batch holds the next entries, in some order; a snapshot skips entries. The
    log begins with the snapshot of the initial leader, at index one, so nothing
    is handed over before it. *)
Fixpoint of_log (log : rlog) (pos : N) (os : list (snapshot + list rentry)) : Prop :=
  match os with
  | [] => True
  | inl s :: os => pos <= sn_index s /\ 1 <= sn_index s /\ of_log log (sn_index s) os
  | inr es :: os =>
    (es = [] \/ 1 <= pos) /\ es ≡ₚ next_entries log pos (length es) /\ of_log log (pos + N.of_nat (length es)) os
  end.

(** This snapshot was created in the history: by a member that called for it, or
    as the one the initial leader starts from, at index one. *)
Definition created (H : events) (s : snapshot) : Prop :=
  exists k d, member k H d /\
    ((exists conf, KSave (sn_index s) conf (sn_data s) ∈ raft_calls d) \/
     (sn_index s = 1 /\ exists id, head (raft_calls d) = Some (KInit id true (sn_data s)))).

(** What is assumed of a cluster: no call returned an error, at most one member
    is started as the initial leader, and consensus hands over one log, and
    snapshots that were created before. *)
Record agrees (log : rlog) (H : events) : Prop := Agrees {
  ag_index : forall i, re_index (log i) = i;
  ag_runs : forall k, exists d, member k H d;
  ag_leader : forall k1 k2 q1 q2, started_with k1 H q1 -> started_with k2 H q2 ->
    sr_leader q1 = true -> sr_leader q2 = true -> k1 = k2;
  ag_log : forall k d q, member k H d -> started_with k H q -> of_log log (start_index q) (handed (raft_calls d));
  ag_snapshots : forall H1 k x H2 d d' calls s, H = H1 ++ (k, x) :: H2 -> member k H1 d -> member k (H1 ++ [(k, x)]) d' ->
    raft_calls d' = raft_calls d ++ calls -> inl s ∈ handed calls -> created H1 s;
}.

(** All members are started with the same configuration of the application. *)
Definition one_configuration (H : events) : Prop :=
  forall k1 k2 q1 q2, started_with k1 H q1 -> started_with k2 H q2 -> sr_config q1 = sr_config q2.

(** The event an entry of the log carries, if any. *)
Definition logged (log : rlog) (i : N) : option actor_event := snd <$> event_of_entry codec 0 (log i).
(** The state the log defines at an index: that of the initial leader at index
    one, then the events of the entries are applied one by one, by no matter
    which member and whether it owns them or not. *)
Inductive state_at (log : rlog) (first : ST) : N -> ST -> Prop :=
| at_first : state_at log first 1 first
| at_nothing i st : state_at log first i st -> logged log (i + 1) = None -> state_at log first (i + 1) st
| at_event i st k owned ev st' out : state_at log first i st -> logged log (i + 1) = Some ev ->
    a_apply (apps k) st (EventContext (i + 1) owned) ev = Ok (st', out) -> state_at log first (i + 1) st'.

(** The state the application of the initial leader starts with. *)
Definition first_state (H : events) (st : ST) : Prop :=
  exists k q d cx, started_with k H q /\ sr_leader q = true /\ member k H d /\
    head (app_calls d) = Some (AInit cx) /\ a_init (apps k) cx = Ok st.

(** The position in the log of a member, and the state of its application. *)
Definition holds (k : nat) (H : events) (i : N) (st : ST) : Prop :=
  exists d q t, member k H d /\ started_with k H q /\ i = position (start_index q) (handed (raft_calls d)) /\
    d_actor d = Some (st, t).
End Spec.

(** What is assumed of the application: only events and snapshots change its
    state; the effect of an event on the state does not depend on who applies it;
    a saved state is restored by loading it. The last is needed only where it
    matters: for states that occur ([good]), and over a state that is [older]:
    one that comes before in the log, or an initial one of the same
    configuration. *)
Record replicated {ST} (apps : nat -> actor ST) (good : ST -> Prop) (older : ST -> ST -> Prop) : Prop := Replicated {
  rp_command : forall k cx st m st' out, a_command (apps k) cx st m = Ok (st', out) -> st' = st;
  rp_event : forall k1 k2 i own1 own2 st ev st1 st2 out1 out2,
    a_apply (apps k1) st (EventContext i own1) ev = Ok (st1, out1) ->
    a_apply (apps k2) st (EventContext i own2) ev = Ok (st2, out2) -> st1 = st2;
  rp_good_init : forall k cx st, a_init (apps k) cx = Ok st -> good st;
  rp_good_event : forall k cx st ev st' out, good st -> a_apply (apps k) st cx ev = Ok (st', out) -> good st';
  rp_older_same : forall st, older st st;
  rp_older_init : forall k1 k2 cx1 cx2 st1 st2, cx_config cx1 = cx_config cx2 ->
    a_init (apps k1) cx1 = Ok st1 -> a_init (apps k2) cx2 = Ok st2 -> older st1 st2;
  rp_older_event : forall k cx st0 st ev st' out, older st0 st -> a_apply (apps k) st cx ev = Ok (st', out) -> older st0 st';
  rp_load : forall k1 k2 st data old st', good st -> older old st ->
    a_save (apps k1) st = Ok data -> a_load (apps k2) old data = Ok st' -> st' = st;
}.
