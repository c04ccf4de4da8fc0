(** What the counter properties talk about, independently of how the
    application stores counters. *)
From Verif Require Import Base ActorModel ActorSpec CounterModel.

(** What the serialisations have to satisfy (the trusted property of prost). *)
Record codec_ok (c : counter_codec) : Prop := CodecOk {
  request_round_trip : forall r, dec_request c (enc_request c r) = Some r;
  snapshot_round_trip : forall s, dec_snapshot c (enc_snapshot c s) = Some s;
  response_injective : forall r1 r2, enc_response c r1 = enc_response c r2 -> r1 = r2;
}.

(** A counter that was never mentioned has value 0 and no payload. *)
Definition current (st : counters) (name : string) : Z * bytes :=
  match st !! name with
  | Some v => (cv_value v, cv_payload v)
  | None => (0%Z, [])
  end.

(** One compare-and-swap as the client sees it. *)
Record swap := Swap { sw_name : string; sw_expected : Z; sw_new : Z; sw_payload : bytes }.

(** The event that carries a swap: what a leader replicates for a request. *)
Definition swap_event (c : counter_codec) (correlation : N) (s : swap) : actor_event :=
  ActorEvent correlation
    (enc_request c (CounterRequest (sw_name s) (Some (CasRequest (sw_expected s) (sw_new s))) [] (sw_payload s))).

(** The answer to a swap. *)
Record answer := Answer { an_success : bool; an_old : Z }.

(** The sequential specification: an atomic register with compare-and-swap per
    name, all initially given by a function. *)
Definition registers : Type := string -> Z * bytes.
Definition spec_step (m : registers) (s : swap) : registers * answer :=
  let old := (m (sw_name s)).1 in
  if (old =? sw_expected s)%Z
  then ((fun n => if String.eqb n (sw_name s) then (sw_new s, sw_payload s) else m n), Answer true old)
  else (m, Answer false old).
Fixpoint spec_run (m : registers) (ss : list swap) : registers * list answer :=
  match ss with
  | [] => (m, [])
  | s :: ss => let '(m', a) := spec_step m s in
              let '(m'', r) := spec_run m' ss in (m'', a :: r)
  end.

(** How a client reads a response. *)
Definition reads_as (r : counter_response) (s : swap) (a : answer) : Prop :=
  if an_success a
  then r = CounterResponse CsSuccess (Some (CasResponse (an_old a) (sw_new s)))
  else crs_status r = CsInvalidArgument /\
       exists op, crs_op r = Some op /\ csr_old op = an_old a.

(** The command that carries a response. *)
Definition response_command (c : counter_codec) (correlation : N) (r : counter_response) : actor_command :=
  ActorCommand correlation (enc_response c r) [].

(** A log entry: the swap, its correlation id, whether this replica proposed it
    and at which index it was committed. *)
Record entry := LogEntry { le_swap : swap; le_correlation : N; le_owned : bool; le_index : N }.
Definition to_log (c : counter_codec) (l : list entry) : list (event_context * actor_event) :=
  map (fun e => (EventContext (le_index e) (le_owned e), swap_event c (le_correlation e) (le_swap e))) l.
