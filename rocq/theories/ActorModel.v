(** Model of the interface between the runtime and an application:
    runtime/src/model.rs.

    Simplifications: an error carries its variant only; the logger, the
    reference values and the clock override are not part of the interface; the
    boxed [ActorContext] the application keeps is read when it is called, so its
    observable part is an argument of the calls. *)
From Verif Require Import Base.

(** model.rs 32-39 ActorError. *)
Inductive actor_error := AInternal | AConfigLoading | ASnapshotLoading.

(** model.rs 88-97 ActorCommand. *)
Record actor_command := ActorCommand {
  ac_correlation : N;
  ac_header : bytes;
  ac_payload : bytes;
}.

(** model.rs 101-107 with_header; the header is already serialised. *)
Definition with_header (correlation : N) (header : bytes) : actor_command :=
  ActorCommand correlation header [].

(** model.rs 124-129 ActorEvent. *)
Record actor_event := ActorEvent { ae_correlation : N; ae_contents : bytes }.

(** model.rs 150-157 ActorEventContext. *)
Record event_context := EventContext { ec_index : N; ec_owned : bool }.

(** model.rs 163-168 CommandOutcome. *)
Record command_outcome := CommandOutcome {
  co_commands : list actor_command;
  co_event : option actor_event;
}.
(** model.rs 172-198. *)
Definition outcome_none : command_outcome := CommandOutcome [] None.
Definition outcome_command (c : actor_command) : command_outcome := CommandOutcome [c] None.
Definition outcome_event (e : actor_event) : command_outcome := CommandOutcome [] (Some e).

(** model.rs 59-81 ActorContext: what the application can ask the runtime. *)
Record actor_context := ActorCtx {
  cx_id : N;
  cx_instant : N;
  cx_config : bytes;
  cx_leader : bool;
}.

(** model.rs 237-284 Actor, for an application with state [ST]. A call that
    returns an error terminates the application, so its state is not kept. *)
Record actor (ST : Type) := Actor {
  (** on_init: the state the application starts with *)
  a_init : actor_context -> res actor_error ST;
  (** on_save_snapshot *)
  a_save : ST -> res actor_error bytes;
  (** on_load_snapshot *)
  a_load : ST -> bytes -> res actor_error ST;
  (** on_process_command *)
  a_command : actor_context -> ST -> option actor_command -> res actor_error (ST * command_outcome);
  (** on_apply_event; the result lists the commands to be sent out *)
  a_apply : ST -> event_context -> actor_event -> res actor_error (ST * list actor_command);
}.
Arguments a_init {ST}.
Arguments a_save {ST}.
Arguments a_load {ST}.
Arguments a_command {ST}.
Arguments a_apply {ST}.
