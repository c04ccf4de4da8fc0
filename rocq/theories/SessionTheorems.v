(** C91: which peers a replica opens a session with. *)
From Verif Require Import Base SessionModel SessionSpec.

(** C91. Peers of Oak Containers are accepted only if all layers match the
    reference values: the software always, hardware and firmware unless the
    reference values say that insecure hardware is accepted. *)
Theorem C91_peers_match_the_reference_values : forall ck v c ev,
  complete v -> accepts ck (fst (choose v c)) ev ->
  software_matches ck v ev /\ (~ allows_insecure v -> hardware_matches ck v ev).
Proof.
  intros ck [[[amd tdx ins]|] [k|] [s|] [ct|]|kind x|] c ev Hc Ha; try done. simpl in *.
  assert (forall ps, Forall (policy_holds ck ev) ps -> ps = [KernelPolicy k; SystemPolicy s; ContainerPolicy ct] ->
          (forall x, Some k = Some x -> ck_kernel ck x ev) /\ (forall x, Some s = Some x -> ck_system ck x ev) /\
          (forall x, Some ct = Some x -> ck_container ck x ev)) as Hsw.
  { intros ps Hp ->. rewrite !Forall_cons in Hp. destruct Hp as (H1 & H2 & H3 & _).
    split_and!; by intros ? [= <-]. }
  destruct ins; simpl in Ha.
  - destruct Ha as [_ Hp]. split; [by eapply Hsw|by intros []].
  - destruct Hc as [|(a & f & -> & Hf)]; [done|]. rewrite Hf in Ha. destruct Ha as (_ & Hh & Hfw & Hp).
    split; [by eapply Hsw|]. intros _ amd' [= <-]. split; [done|]. intros f' E. congruence.
Qed.

(** C91. Peers of other platforms, or when some layer has no values, are accepted
    only if the general verifier of Oak accepts them for exactly these
    reference values. *)
Theorem C91_other_peers_are_checked_as_a_whole : forall ck v c ev,
  ~ complete v -> accepts ck (fst (choose v c)) ev -> ck_dice ck v ev.
Proof.
  intros ck v c ev Hc Ha. destruct v as [[[amd tdx ins]|] [k|] [s|] [ct|]|kind x|]; try done. simpl in *.
  destruct ins; [destruct Hc; by left|]. destruct amd as [[[f|] rest]|]; try done.
  destruct Hc. right. by eexists _, _.
Qed.

(** C91. Hardware is not checked only if the reference values say so. *)
Theorem C91_insecure_only_on_request : forall v c c' ps,
  fst (choose v c) = VInsecure c' ps -> allows_insecure v.
Proof.
  intros v c c' ps. destruct v as [[[amd tdx ins]|] [k|] [s|] [ct|]|kind x|]; simpl; try done.
  destruct ins; [done|]. destruct amd as [[[f|] rest]|]; done.
Qed.

(** C91. A session is bound with the key that the verified evidence vouches for,
    and evidence is judged at the time of the given clock. *)
Theorem C91_bound_with_the_verified_key : forall v c,
  snd (choose v c) = key_left (fst (choose v c)) /\ clock_of (fst (choose v c)) = c.
Proof.
  intros v c. destruct v as [[[amd tdx ins]|] [k|] [s|] [ct|]|kind x|]; simpl; try done.
  destruct ins; [done|]. by destruct amd as [[[f|] rest]|].
Qed.

(** C91, how far the exception goes: reference values for the hardware are
    ignored, whatever they say, when the reference values also accept insecure
    hardware. *)
Theorem C91_hardware_values_ignored : forall amd tdx kernel system container c,
  let v := RvContainers (Some (RootValues (Some amd) tdx true)) (Some kernel) (Some system) (Some container) in
  exists ck ev, complete v /\ accepts ck (fst (choose v c)) ev /\ ~ hardware_matches ck v ev.
Proof.
  intros amd tdx k s ct c v.
  exists (Checks (fun _ _ => False) (fun _ _ => False) (fun _ _ => True) (fun _ _ => True) (fun _ _ => True)
            (fun _ => True) (fun _ _ => False)), [].
  split; [by left|]. split.
  - split; [done|]. by repeat constructor.
  - intros H. by destruct (H amd eq_refl).
Qed.

(** C91. However often the factory is initialised, the sessions it creates, for
    either role, present this replica's evidence with the latest endorsements
    and verify the peer with the latest reference values and clock. *)
Theorem C91_sessions_use_the_latest_values : forall CSN SSN
    (create_client : session_config -> N -> option CSN) (create_server : session_config -> N -> option SSN)
    l c v e evidence binder rnd,
  let f := initialised (l ++ [(c, v, e)]) in
  (forall s, get_client create_client f evidence binder rnd = Ok s ->
     exists ev b, evidence = Some ev /\ binder = Some b /\
       create_client (SessionConfig ev e b (fst (choose v c)) (snd (choose v c))) rnd = Some s) /\
  (forall s, get_server create_server f evidence binder rnd = Ok s ->
     exists ev b, evidence = Some ev /\ binder = Some b /\
       create_server (SessionConfig ev e b (fst (choose v c)) (snd (choose v c))) rnd = Some s) /\
  get_client create_client f evidence binder rnd <> Panic /\
  get_server create_server f evidence binder rnd <> Panic.
Proof.
  intros CSN SSN cc cs l c v e evidence binder rnd f.
  assert (f = factory_init (initialised l) c v e) as -> by (unfold f, initialised; by rewrite foldl_app).
  unfold get_client, get_server, get_config. simpl. destruct (choose v c) as [ver x]. simpl.
  destruct evidence as [ev|]; [|done]. destruct binder as [b|]; [|done]. simpl.
  split_and!; try (destruct (cc _ rnd); done); try (destruct (cs _ rnd); done).
  - intros s. destruct (cc _ rnd) eqn:E; [|done]. intros [= ->]. by exists ev, b.
  - intros s. destruct (cs _ rnd) eqn:E; [|done]. intros [= ->]. by exists ev, b.
Qed.

(** C91. Before it is initialised the factory hands out no session. *)
Theorem C91_no_session_before_initialisation : forall CSN SSN
    (create_client : session_config -> N -> option CSN) (create_server : session_config -> N -> option SSN)
    evidence binder rnd,
  (forall s, get_client create_client factory_new evidence binder rnd <> Ok s) /\
  (forall s, get_server create_server factory_new evidence binder rnd <> Ok s).
Proof. intros. unfold get_client, get_server, get_config. by destruct evidence, binder. Qed.

(** Reference values for SEV-SNP with all layers, for which the theorems say that
    five checks are made; a second set accepts insecure hardware. *)
Example sev_values : ref_values :=
  RvContainers (Some (RootValues (Some (AmdValues (Some [1]) [2])) None false)) (Some [3]) (Some [4]) (Some [5]).
Example insecure_values : ref_values :=
  RvContainers (Some (RootValues None None true)) (Some [3]) (Some [4]) (Some [5]).
(** Evidence is accepted if it lists the values of the layers. *)
Example listing : checks :=
  Checks (fun a ev => am_rest a = take 1 ev) (fun f ev => f = take 1 (drop 1 ev))
    (fun k ev => k = take 1 (drop 2 ev)) (fun s ev => s = take 1 (drop 3 ev)) (fun c ev => c = take 1 (drop 4 ev))
    (fun _ => True) (fun _ _ => False).
Example C91_example :
  complete sev_values /\ ~ allows_insecure sev_values /\
  accepts listing (fst (choose sev_values HostClock)) [2; 1; 3; 4; 5] /\
  ~ accepts listing (fst (choose sev_values HostClock)) [9; 1; 3; 4; 5] /\
  ~ accepts listing (fst (choose sev_values HostClock)) [2; 1; 3; 4; 9] /\
  complete insecure_values /\ allows_insecure insecure_values /\
  accepts listing (fst (choose insecure_values AppClock)) [9; 9; 3; 4; 5] /\
  ~ complete (RvOther 1 [7]) /\ fst (choose (RvOther 1 [7]) HostClock) = VDice (RvOther 1 [7]) HostClock.
Proof.
  split_and!; try done.
  - right. by eexists _, _.
  - by repeat constructor.
  - intros (_ & [=] & _).
  - intros (_ & _ & _ & H). rewrite !Forall_cons in H. by destruct H as (_ & _ & [=] & _).
  - by left.
  - split; [done|]. by repeat constructor.
  - by intros [].
Qed.
