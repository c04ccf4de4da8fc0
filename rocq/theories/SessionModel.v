(** Model of the session factory, runtime/src/session.rs, and of how the driver
    and the communication module use it.

    Simplifications, for the whole file:
    - the Oak crates are parameters: an Oak session is created from a
      configuration and from the randomness of the call, and behaves in any way
      whatever ([CommModel.oak_ops]);
    - of reference values the parts the factory tells apart are kept, the rest
      are opaque bytes;
    - the clock handed to a verifier is named, not modelled: it is the one the
      application provides, or the time of the host. *)
From Verif Require Import Base CommModel.

(** ** Reference values *)

(** oak.attestation.v1 AmdSevReferenceValues: the values for the firmware and
    the others. *)
Record amd_values := AmdValues { am_stage0 : option bytes; am_rest : bytes }.
(** oak.attestation.v1 RootLayerReferenceValues. [rv_insecure]: whether the field
    that accepts insecure hardware is set. *)
Record root_values := RootValues { rv_amd : option amd_values; rv_tdx : option bytes; rv_insecure : bool }.
(** oak.attestation.v1 ReferenceValues.type: Oak Containers with their four
    layers, or another platform, or not set. *)
Inductive ref_values :=
| RvContainers (root : option root_values) (kernel system container : option bytes)
| RvOther (kind : N) (values : bytes)
| RvUnset.

(** ** Verifiers *)

(** oak_attestation_verification: the policies the factory uses. *)
Inductive policy := KernelPolicy (v : bytes) | SystemPolicy (v : bytes) | ContainerPolicy (v : bytes).
(** Which clock a verifier reads: that of the application, or the time the host
    last gave (driver.rs 137-151). *)
Inductive clock := AppClock | HostClock.
(** InsecureAttestationVerifier, AmdSevSnpDiceAttestationVerifier (with its
    platform and firmware policies) and DiceAttestationVerifier. *)
Inductive verifier :=
| VInsecure (c : clock) (ps : list policy)
| VSevSnp (platform : amd_values) (firmware : bytes) (ps : list policy) (c : clock)
| VDice (values : ref_values) (c : clock).
(** oak_session::key_extractor: where the key that binds a session is found. *)
Inductive key_extractor := BindingKey | SigningKey.

(** session.rs 208-267: the verifier and the key extractor for some reference
    values. *)
Definition choose (v : ref_values) (c : clock) : verifier * key_extractor :=
  match v with
  | RvContainers (Some root) (Some k) (Some s) (Some ct) =>
    if rv_insecure root
    then (VInsecure c [KernelPolicy k; SystemPolicy s; ContainerPolicy ct], BindingKey)
    else
      match rv_amd root with
      | Some amd =>
        match am_stage0 amd with
        | Some firmware =>
          (VSevSnp amd firmware [KernelPolicy k; SystemPolicy s; ContainerPolicy ct] c, BindingKey)
        | None => (VDice v c, SigningKey)
        end
      | None => (VDice v c, SigningKey)
      end
  | _ => (VDice v c, SigningKey)
  end.

(** ** The factory *)

(** session.rs 179-185 DefaultOakSessionFactory. *)
Record factory := Factory {
  fa_chosen : option (verifier * key_extractor);
  fa_endorsements : bytes;
}.
(** session.rs 187-199 new. *)
Definition factory_new : factory := Factory None [].
(** session.rs 202-272 init. *)
Definition factory_init (f : factory) (c : clock) (v : ref_values) (endorsements : bytes) : factory :=
  Factory (Some (choose v c)) endorsements.

(** What a session is created from (session.rs 334-353, 388-407): this replica's
    evidence, the endorsements sent with it, the key it is bound with, and what
    the peer's evidence is verified with. Attestation is bidirectional and the
    handshake is NoiseNN for both roles. *)
Record session_config := SessionConfig {
  se_evidence : bytes;
  se_endorsements : bytes;
  se_binder : bytes;
  se_verifier : verifier;
  se_extractor : key_extractor;
}.
(** session.rs 274-291 and 293-310 get_oak_client_session and
    get_oak_server_session up to the creation of the session: the attester and
    the binder are asked first, then an absent verifier aborts. The answers of
    the attester and of the binder are arguments; [None] is an error. *)
Definition get_config (f : factory) (evidence binder : option bytes) : res unit session_config :=
  match evidence with
  | None => Err tt
  | Some e =>
    match binder with
    | None => Err tt
    | Some b =>
      match fa_chosen f with
      | None => Panic
      | Some (v, x) => Ok (SessionConfig e (fa_endorsements f) b v x)
      end
    end
  end.

Section Sessions.
Context {CSN SSN : Type}.
(** ClientSession::create and ServerSession::create (session.rs 339, 393) for the
    randomness of the call. *)
Variable create_client : session_config -> N -> option CSN.
Variable create_server : session_config -> N -> option SSN.

(** session.rs 274-291 get_oak_client_session. *)
Definition get_client (f : factory) (evidence binder : option bytes) (rnd : N) : res unit CSN :=
  let! cfg := get_config f evidence binder in
  match create_client cfg rnd with Some s => Ok s | None => Err tt end.
(** session.rs 293-310 get_oak_server_session. *)
Definition get_server (f : factory) (evidence binder : option bytes) (rnd : N) : res unit SSN :=
  let! cfg := get_config f evidence binder in
  match create_server cfg rnd with Some s => Ok s | None => Err tt end.
End Sessions.
