(** Model of the atomic counter application:
    apps/atomic_counter/service/src/actor.rs.

    Simplifications: serialisation (prost) is a record of functions; values are
    integers without the 64-bit bound (no arithmetic is done on them); logging
    and reference values are omitted. *)
From Verif Require Import Base ActorModel.

(** atomic_counter.proto CounterStatus. *)
Inductive counter_status := CsUnspecified | CsSuccess | CsRejected | CsInvalidArgument | CsInvalidOperation.

(** atomic_counter.proto CounterCompareAndSwapRequest. *)
Record cas_request := CasRequest { cas_expected : Z; cas_new : Z }.
(** atomic_counter.proto CounterRequest. *)
Record counter_request := CounterRequest {
  cr_name : string;
  cr_op : option cas_request;
  cr_context : bytes;
  cr_payload : bytes;
}.
(** atomic_counter.proto CounterCompareAndSwapResponse. *)
Record cas_response := CasResponse { csr_old : Z; csr_new : Z }.
(** atomic_counter.proto CounterResponse. *)
Record counter_response := CounterResponse { crs_status : counter_status; crs_op : option cas_response }.

(** actor.rs 40-43 CounterValue. *)
Record counter_value := CounterValue { cv_value : Z; cv_payload : bytes }.

(** actor.rs 45-49 CounterActor: the values. *)
Notation counters := (gmap string counter_value).

(** The serialisations used: the header of an incoming command
    (AtomicCounterInMessage, whose message may be absent), a replicated request,
    the header of an outgoing command, a snapshot (CounterSnapshot) and the
    configuration (CounterConfig). *)
Record counter_codec := CounterCodec {
  dec_in : bytes -> option (option counter_request);
  enc_request : counter_request -> bytes;
  dec_request : bytes -> option counter_request;
  enc_response : counter_response -> bytes;
  enc_snapshot : counters -> bytes;
  dec_snapshot : bytes -> option counters;
  dec_config : bytes -> option (gmap string Z);
}.

Section Model.
Variable codec : counter_codec.

(** actor.rs 105-145 apply_compare_and_swap. *)
Definition apply_compare_and_swap (st : counters) (name : string) (req : cas_request) (payload : bytes)
  : counters * counter_response :=
  let existing := match st !! name with Some v => v | None => CounterValue 0 [] end in
  let st := <[name := existing]> st in
  if (cv_value existing =? cas_expected req)%Z
  then (<[name := CounterValue (cas_new req) payload]> st,
        CounterResponse CsSuccess (Some (CasResponse (cv_value existing) (cas_new req))))
  else (st, CounterResponse CsInvalidArgument (Some (CasResponse (cv_value existing) 0))).

(** actor.rs 149-167 on_init. *)
Definition counter_init (cx : actor_context) : res actor_error counters :=
  match dec_config codec (cx_config cx) with
  | None => Err AConfigLoading
  | Some values => Ok ((fun v => CounterValue v []) <$> values)
  end.

(** actor.rs 171-189 on_save_snapshot. *)
Definition counter_save (st : counters) : res actor_error bytes := Ok (enc_snapshot codec st).

(** actor.rs 191-208 on_load_snapshot: the values of the snapshot are inserted
    over the present ones. *)
Definition counter_load (st : counters) (snapshot : bytes) : res actor_error counters :=
  match dec_snapshot codec snapshot with
  | None => Err ASnapshotLoading
  | Some values => Ok (values ∪ st)
  end.

(** actor.rs 210-279 on_process_command. *)
Definition counter_command (cx : actor_context) (st : counters) (c : option actor_command)
  : res actor_error (counters * command_outcome) :=
  match c with
  | None => Ok (st, outcome_none)
  | Some c =>
    let answer status :=
      outcome_command (with_header (ac_correlation c) (enc_response codec (CounterResponse status None))) in
    match dec_in codec (ac_header c) with
    | Some (Some request) =>
      if negb (cx_leader cx) then Ok (st, answer CsRejected)
      else
        match cr_op request with
        | None => Ok (st, answer CsInvalidOperation)
        | Some _ =>
          let request := CounterRequest (cr_name request) (cr_op request) [] (cr_payload request) in
          Ok (st, outcome_event (ActorEvent (ac_correlation c) (enc_request codec request)))
        end
    | Some None => Ok (st, answer CsInvalidOperation)
    | None => Ok (st, answer CsInvalidOperation)
    end
  end.

(** actor.rs 281-311 on_apply_event. *)
Definition counter_apply (st : counters) (cx : event_context) (ev : actor_event)
  : res actor_error (counters * list actor_command) :=
  match dec_request codec (ae_contents ev) with
  | None => Err AInternal
  | Some request =>
    match cr_op request with
    | None => Panic
    | Some cas =>
      let '(st', response) := apply_compare_and_swap st (cr_name request) cas (cr_payload request) in
      if ec_owned cx
      then Ok (st', [with_header (ae_correlation ev) (enc_response codec response)])
      else Ok (st', [])
    end
  end.

Definition counter_actor : actor counters :=
  Actor _ counter_init counter_save counter_load counter_command counter_apply.
End Model.
