(** Vocabulary of the theorems about the session factory: what reference values
    demand of a peer, and what the verifiers of Oak check. *)
From Verif Require Import Base SessionModel.

Section Spec.
(** The checks of a peer's evidence, which Oak carries out: its hardware report
    and firmware, its three software layers, the chain of certificates of the
    layers, and everything at once for other platforms. *)
Record checks := Checks {
  ck_hardware : amd_values -> bytes -> Prop;
  ck_firmware : bytes -> bytes -> Prop;
  ck_kernel : bytes -> bytes -> Prop;
  ck_system : bytes -> bytes -> Prop;
  ck_container : bytes -> bytes -> Prop;
  ck_chain : bytes -> Prop;
  ck_dice : ref_values -> bytes -> Prop;
}.
Variable ck : checks.

(** What the verifiers of Oak accept, as documented there. *)
Definition policy_holds (ev : bytes) (p : policy) : Prop :=
  match p with
  | KernelPolicy v => ck_kernel ck v ev
  | SystemPolicy v => ck_system ck v ev
  | ContainerPolicy v => ck_container ck v ev
  end.
Definition accepts (v : verifier) (ev : bytes) : Prop :=
  match v with
  | VInsecure _ ps => ck_chain ck ev /\ Forall (policy_holds ev) ps
  | VSevSnp amd firmware ps _ =>
    ck_chain ck ev /\ ck_hardware ck amd ev /\ ck_firmware ck firmware ev /\ Forall (policy_holds ev) ps
  | VDice rv _ => ck_dice ck rv ev
  end.

(** Where Oak leaves the key of the application that the verified evidence
    vouches for: policies extract it as the binding key; the general verifier, as
    the signing key of the application. *)
Definition key_left (v : verifier) : key_extractor :=
  match v with VInsecure _ _ | VSevSnp _ _ _ _ => BindingKey | VDice _ _ => SigningKey end.
(** The clock that decides whether certificates are valid. *)
Definition clock_of (v : verifier) : clock := match v with VInsecure c _ | VSevSnp _ _ _ c | VDice _ c => c end.

(** What someone who writes down reference values for Oak Containers demands of a
    peer: that every layer for which there are values matches them. *)
Definition software_matches (v : ref_values) (ev : bytes) : Prop :=
  match v with
  | RvContainers _ kernel system container =>
    (forall x, kernel = Some x -> ck_kernel ck x ev) /\
    (forall x, system = Some x -> ck_system ck x ev) /\
    (forall x, container = Some x -> ck_container ck x ev)
  | _ => True
  end.
Definition hardware_matches (v : ref_values) (ev : bytes) : Prop :=
  match v with
  | RvContainers (Some root) _ _ _ =>
    forall amd, rv_amd root = Some amd ->
      ck_hardware ck amd ev /\ forall f, am_stage0 amd = Some f -> ck_firmware ck f ev
  | _ => True
  end.
End Spec.

(** The reference values say explicitly that insecure hardware is accepted. *)
Definition allows_insecure (v : ref_values) : Prop :=
  match v with RvContainers (Some root) _ _ _ => rv_insecure root = true | _ => False end.
(** Values for all layers of Oak Containers, on AMD SEV-SNP unless insecure
    hardware is accepted. *)
Definition complete (v : ref_values) : Prop :=
  match v with
  | RvContainers (Some root) (Some _) (Some _) (Some _) =>
    rv_insecure root = true \/ exists amd f, rv_amd root = Some amd /\ am_stage0 amd = Some f
  | _ => False
  end.

(** A factory after these initialisations. *)
Definition initialised (l : list (clock * ref_values * bytes)) : factory :=
  foldl (fun f '(c, v, e) => factory_init f c v e) factory_new l.
