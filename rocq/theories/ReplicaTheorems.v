(** C92, C93, C94: a replica put together from its driver, its communication
    module and its session factory; consensus, snapshot processor, application,
    Oak and the platform are arbitrary. *)
From Verif Require Import Base StorageModel SnapshotModel CommModel CommSpec ActorModel DriverModel DriverProofs SessionModel SessionSpec SessionTheorems
  ReplicaModel ReplicaSpec ReplicaProofs ReplicaCommProofs.
From Verif Require CommTheorems DriverTheorems.

Section Theorems.
Context {RS SP ST REQ RESP CSN SSN : Type}.
Variable codec : driver_codec.
Variable rops : raft_ops RS.
Variable sops : snap_ops SP.
Variable app : actor ST.
Variable client : oak_ops CSN REQ RESP.
Variable server : oak_ops SSN RESP REQ.
Variable create_client : session_config -> N -> option CSN.
Variable create_server : session_config -> N -> option SSN.
Variable attest bind : N -> option bytes.
Variable values : ref_values.
Variable own_clock : option clock.
Variable endorsements : bytes.
Variable order : N -> gmap N (chan REQ RESP (hsession CSN + hsession SSN) (CSN + SSN)) -> list N.
Notation cops := (real_comm client server create_client create_server attest bind values own_clock endorsements order).
Notation receive := (receive_message codec rops sops cops app).
Notation the_clock := (default HostClock own_clock).
Notation heard := (heard client server create_client create_server values the_clock).
Notation DR := (driver RS SP (@messenger REQ RESP CSN SSN) ST REQ RESP).
Implicit Types d : DR.
(** A replica's history from its creation. *)
Notation lived r s := (lives codec rops sops cops app (driver_new r s messenger_new)).

Local Notation snd_ := (fun id s => sound client server create_client create_server values own_clock s /\ cm_id (ms_comm s) = id).
Lemma lived_good r s xs outs d : lived r s xs outs d -> good untouched snd_ d.
Proof using.
  intros H. eapply lives_good; [..|exact H|].
  - intros c c' H1 H2. by eapply untouched_move.
  - intros id c c' [H1 H2] H3. split; [by eapply sound_move|]. rewrite <- H2. by eapply id_move.
  - intros c id retry timeout H1. split; [by apply sound_init|done].
  - constructor; try done. constructor.
Qed.
Lemma lived_step r s xs outs d t m d' out : lived r s xs outs d -> receive d t m = Ok (d', out) ->
  good untouched snd_ d' /\
  exists d1 ws, good untouched snd_ d1 /\ d_phase d1 = d_phase d' /\
    match m with Some None => out = [] /\ d_comm d' = d_comm d
    | _ => (exists ms, wireless ms /\ out = ms ++ map OWire ws) /\ exists c, co_take cops (d_comm d1) = Ok (c, ws) /\ d' = set_messages (set_comm d1 c) [] end.
Proof using.
  intros H H'. eapply receive_good; [..|exact H'|].
  - intros c c' H1 H2. by eapply untouched_move.
  - intros id c c' [H1 H2] H3. split; [by eapply sound_move|]. rewrite <- H2. by eapply id_move.
  - intros c id retry timeout H1. split; [by apply sound_init|done].
  - by eapply lived_good.
Qed.
Lemma untouched_in c m : untouched c -> exists e, co_in cops c m = Err e.
Proof using. intros [H _]. cbn. unfold comm_in. rewrite H. by eexists. Qed.
Lemma co_in_sound d m c r : good untouched snd_ d -> co_in cops (d_comm d) m = Ok (c, r) ->
  sound client server create_client create_server values own_clock (d_comm d).
Proof using.
  intros [G1 G2 G3 _] H. destruct (d_phase d) eqn:P.
  - destruct (untouched_in (d_comm d) m) as [e E]; [by apply G1|congruence].
  - by apply G2.
  - destruct (G3 eq_refl) as [U|[S _]]; [|done]. destruct (untouched_in (d_comm d) m U) as [e E]. congruence.
Qed.
(** What the driver does with a message that the module keeps to itself. *)
Lemma kept_system d t m c : co_in cops (d_comm d) (IPeer m) = Ok (c, None) ->
  d_ephemeral d = false -> (pm_kind m = KSystem -> d_phase d = Started) ->
  receive d t (Some (Some (HPeer m))) = receive (set_comm d c) t None.
Proof using.
  intros H He Hp. unfold receive_message. cbn [dispatch app_message].
  assert (d_comm (preset rops d t) = d_comm d) as Ec by done.
  assert (d_ephemeral (preset rops d t) = false) as Ee by done.
  assert (d_phase (preset rops d t) = d_phase d) as Ep by done.
  destruct (pm_kind m) eqn:K.
  - unfold process_system, check_phase, check_non_ephemeral. rewrite Ec, Ee, Ep, (Hp eq_refl), H. done.
  - unfold process_snapshot_request, check_non_ephemeral. rewrite Ec, Ee, H. done.
  - unfold process_snapshot_response, check_non_ephemeral. rewrite Ec, Ee, H. done.
Qed.

(** C92. A replica acts on a message of a peer only if it has verified the peer:
    in every history, a message delivered to a replica that goes on is either
    decrypted by an attested session with its sender, and then what the replica
    is given is the message with the decrypted contents, or it has no more
    effect than a signal of the clock, except on the channel with that sender. *)
Theorem C92_only_attested_peers_are_heard : forall r s xs outs d t m d' out,
  lived r s xs outs d ->
  receive d t (Some (Some (HPeer m))) = Ok (d', out) ->
  (exists plain c, heard (d_comm d) m plain /\
     co_in cops (d_comm d) (IPeer m) = Ok (c, Some (IPeer (carrying m (Payload plain []))))) \/
  (exists c, same_but (pm_sender m) (d_comm d) c /\ receive (set_comm d c) t None = Ok (d', out)).
Proof using.
  intros r s xs outs d t m d' out Hl H. apply lived_good in Hl.
  assert (d_ephemeral d = false /\ (pm_kind m = KSystem -> d_phase d = Started) /\
          exists c r, co_in cops (d_comm d) (IPeer m) = Ok (c, r)) as (He & Hp & c & x & Hc).
  { pose proof H as H0. unfold receive_message in H0. apply bind_ok in H0 as (d1 & H0 & _). cbn [dispatch] in H0.
    destruct (pm_kind m).
    - unfold process_system, check_phase, check_non_ephemeral in H0.
      apply bind_ok in H0 as ([] & E1 & H0). apply bind_ok in H0 as ([] & E2 & H0). apply bind_ok in H0 as ([c x] & E3 & H0).
      destruct (decide _) as [Hp|]; [|done]. split_and!; [|done|by eexists _, _].
      change (d_ephemeral (preset rops d t)) with (d_ephemeral d) in E2. by destruct (d_ephemeral d).
    - unfold process_snapshot_request, check_non_ephemeral in H0. apply bind_ok in H0 as ([] & E2 & H0).
      apply bind_ok in H0 as ([c x] & E3 & H0). split_and!; [|done|by eexists _, _].
      change (d_ephemeral (preset rops d t)) with (d_ephemeral d) in E2. by destruct (d_ephemeral d).
    - unfold process_snapshot_response, check_non_ephemeral in H0. apply bind_ok in H0 as ([] & E2 & H0).
      apply bind_ok in H0 as ([c x] & E3 & H0). split_and!; [|done|by eexists _, _].
      change (d_ephemeral (preset rops d t)) with (d_ephemeral d) in E2. by destruct (d_ephemeral d). }
  pose proof (co_in_sound _ _ _ _ Hl Hc) as Hs.
  destruct (sound_in _ _ _ _ _ _ _ _ _ _ _ _ _ _ Hc Hs) as (_ & Hsame & Hr).
  destruct Hr as [->|(pm & ch & e & e' & p & plain & [= <-] & A1 & A2 & A3 & A4 & A5 & A6 & ->)].
  - right. exists c. split; [intros p Hne; apply Hsame; cbn; congruence|]. rewrite <- H. symmetry. by apply kept_system.
  - left. exists plain, c. split; [|done]. by exists ch, e, e', p.
Qed.

(** C92. A message of a handshake affects only the channel with its sender. *)
Theorem C92_handshakes_affect_their_channel : forall r s xs outs d t m d' out,
  lived r s xs outs d ->
  receive d t (Some (Some (HHandshake m))) = Ok (d', out) ->
  exists c, same_but (hm_sender m) (d_comm d) c /\ receive (set_comm d c) t None = Ok (d', out).
Proof using.
  intros r s xs outs d t m d' out Hl H. apply lived_good in Hl. pose proof H as H0.
  unfold receive_message in H0. cbn [dispatch] in H0. apply bind_ok in H0 as (d1 & H0 & H1).
  unfold process_handshake in H0. apply bind_ok in H0 as ([] & E1 & H0). apply bind_ok in H0 as ([c x] & E2 & H0).
  injection H0 as <-. change (d_comm (preset rops d t)) with (d_comm d) in E2.
  pose proof (co_in_sound _ _ _ _ Hl E2) as Hs.
  destruct (sound_in _ _ _ _ _ _ _ _ _ _ _ _ _ _ E2 Hs) as (_ & Hsame & _).
  exists c. split; [intros p Hne; apply Hsame; cbn; congruence|exact H1].
Qed.

(** C92. What a replica sends to a peer, beside handshakes, has been encrypted by
    an attested session with that peer. *)
Theorem C92_only_attested_peers_are_told : forall r s xs outs d t x d' out m,
  lived r s xs outs d -> receive d t x = Ok (d', out) -> OWire (WPeer m) ∈ out ->
  enciphered client server create_client create_server values the_clock (d_comm d') m.
Proof using.
  intros r s xs outs d t x d' out m Hl H Hin.
  destruct (lived_step _ _ _ _ _ _ _ _ _ Hl H) as (G & d1 & ws & G1 & Hp & Hx).
  assert ((exists ms, wireless ms /\ out = ms ++ map OWire ws) /\
    exists c, co_take cops (d_comm d1) = Ok (c, ws) /\ d' = set_messages (set_comm d1 c) []) as ((ms & Hms & ->) & c & Hc & ->).
  { destruct x as [[y|]|]; try done. destruct Hx as [-> _]. by apply elem_of_nil in Hin. }
  clear Hx. apply elem_of_app in Hin as [Hin|Hin].
  { unfold wireless in Hms. rewrite Forall_forall in Hms. by apply Hms in Hin. }
  apply elem_of_list_fmap in Hin as (w & [= <-] & Hw).
  assert (sound client server create_client create_server values own_clock (d_comm d1)) as Hs.
  { destruct G1 as [F1 F2 F3 _].
    assert (untouched (d_comm d1) -> ws = []) as Hu.
    { intros [_ Hu]. cbn in Hc. apply bind_ok in Hc as ([m1 ws1] & Hc & E). injection E as <- <-. unfold comm_take in Hc.
      apply bind_ok in Hc as ([m2 ws2] & Hc & E). injection E as <- <-. rewrite Hu in Hc. revert Hc.
      generalize (order (ms_calls (d_comm d1)) ∅). intros ord. clear. revert m2 ws2.
      induction ord as [|k ord IH]; intros m2 ws2 H; simpl in H; [by injection H as <- <-|]. rewrite lookup_empty in H. by eapply IH. }
    destruct (d_phase d1) eqn:P.
    - rewrite (Hu (F1 eq_refl)) in Hw. by apply elem_of_nil in Hw.
    - by apply F2.
    - destruct (F3 eq_refl) as [U|[S _]]; [|done]. rewrite (Hu U) in Hw. by apply elem_of_nil in Hw. }
  destruct (sound_take _ _ _ _ _ _ _ _ _ _ _ _ _ Hc Hs) as [_ HW]. rewrite Forall_forall in HW.
  destruct (HW _ Hw) as (ch & e & e' & A1 & A2 & A3 & A4 & plain & p & e1 & e2 & B1 & B2 & B3 & B4).
  exists ch, e', e1, e2, plain, p. split_and!; try done. by eapply att_moves.
Qed.

(** C92. With what Oak promises: the peer has presented evidence that matches the
    application's reference values. *)
Theorem C92_peers_that_are_heard_match_the_reference_values : forall ck evidence_of,
  oak_verifies client server create_client create_server ck evidence_of ->
  forall s m plain, heard s m plain ->
  exists ch e presented, channel s (pm_sender m) = Some ch /\ ch_encryptor ch = Some e /\
    rtc (oak_move client server) presented e /\
    (complete values -> software_matches ck values (evidence_of presented) /\
       (~ allows_insecure values -> hardware_matches ck values (evidence_of presented))) /\
    (~ complete values -> ck_dice ck values (evidence_of presented)).
Proof using.
  intros ck ev Hv s m plain (ch & e & e' & p & A1 & A2 & A3 & (e1 & (cfg & e0 & B1 & B2 & B3) & Ho & B4) & _).
  exists ch, e, e1. split_and!; try done.
  - intros Hc. eapply C91_peers_match_the_reference_values; [done|]. rewrite <- B1. by eapply Hv.
  - intros Hc. eapply C91_other_peers_are_checked_as_a_whole; [done|]. rewrite <- B1. by eapply Hv.
Qed.

(** C93, the part that holds: the contents are those the session with the sender
    decrypts (C92). What does not hold: kind, recipient and delivery number of a
    message are not protected. Whatever the host makes of them, the replica is
    given the same contents under the changed heading. *)
Theorem C93_headings_are_not_protected_refuted : forall s m plain kind recipient delivery,
  heard s m plain -> cm_id (ms_comm s) <> 0 ->
  let m' := PeerMsg kind recipient (pm_sender m) delivery (pm_payload m) in
  heard s m' plain /\
  exists c, co_in cops s (IPeer m') = Ok (c, Some (IPeer (carrying m' (Payload plain [])))).
Proof using.
  intros s m plain kind recipient delivery H Hid m'. split; [exact H|].
  destruct H as (ch & e & e' & p & A1 & A2 & A3 & A4 & A5 & A6).
  cbn. unfold comm_in. destruct (N.eqb_spec (cm_id (ms_comm s)) 0) as [|_]; [done|].
  cbn [in_sender m' pm_sender]. unfold get_channel. unfold channel in A1. rewrite A1. unfold chan_initialized. rewrite A2.
  unfold chan_in. rewrite A2. unfold chan_decrypt. rewrite A3. unfold m'. cbn [pm_payload]. rewrite A5, A6. by eexists.
Qed.

(** C94. A message with contents that no attested session with its sender
    decrypts has exactly the effect of a signal of the clock, except on the
    channel with that sender, whether the replica goes on or not; and so does a
    message of a handshake. *)
Definition sessions_available : Prop :=
  (forall n, is_Some (attest n)) /\ (forall n, is_Some (bind n)) /\ (forall cfg n, is_Some (create_server cfg n)).
Theorem C94_strangers_change_nothing : forall r s xs outs d t m,
  lived r s xs outs d -> sessions_available ->
  d_phase d = Started -> d_ephemeral d = false -> d_id d <> 0 ->
  is_Some (pm_payload m) -> (forall plain, ~ heard (d_comm d) m plain) ->
  exists c, same_but (pm_sender m) (d_comm d) c /\
    receive d t (Some (Some (HPeer m))) = receive (set_comm d c) t None.
Proof using.
  intros r s xs outs d t m Hl (Ha & Hb & Hc) Hp He Hid Hm Hn. apply lived_good in Hl.
  destruct (gd_started _ _ _ Hl Hp) as [Hs Hi].
  destruct (in_total client server create_client create_server attest bind values own_clock endorsements order (d_comm d) (IPeer m))
    as (c & x & E); try done; [congruence|].
  destruct (sound_in _ _ _ _ _ _ _ _ _ _ _ _ _ _ E Hs) as (_ & Hsame & Hr).
  destruct Hr as [->|(pm & ch & e & e' & p & plain & [= <-] & A1 & A2 & A3 & A4 & A5 & A6 & ->)].
  - exists c. split; [intros p Hne; apply Hsame; cbn; congruence|]. by apply kept_system.
  - destruct (Hn plain). by exists ch, e, e', p.
Qed.
Theorem C94_handshakes_change_nothing_else : forall r s xs outs d t m,
  lived r s xs outs d -> sessions_available ->
  d_phase d = Started -> d_id d <> 0 ->
  exists c, same_but (hm_sender m) (d_comm d) c /\
    receive d t (Some (Some (HHandshake m))) = receive (set_comm d c) t None.
Proof using.
  intros r s xs outs d t m Hl (Ha & Hb & Hc) Hp Hid. apply lived_good in Hl.
  destruct (gd_started _ _ _ Hl Hp) as [Hs Hi].
  destruct (in_total client server create_client create_server attest bind values own_clock endorsements order (d_comm d) (IHandshake m))
    as (c & x & E); try done; [congruence|].
  destruct (sound_in _ _ _ _ _ _ _ _ _ _ _ _ _ _ E Hs) as (_ & Hsame & _).
  exists c. split; [intros p Hne; apply Hsame; cbn; congruence|].
  unfold receive_message. cbn [dispatch app_message]. unfold process_handshake, check_phase.
  change (d_comm (preset rops d t)) with (d_comm d). change (d_phase (preset rops d t)) with (d_phase d). rewrite Hp, E. done.
Qed.
(** C94, the part that does not hold: a message without contents, whoever made
    it, ends a replica that has an established channel with the sender it names. *)
Theorem C94_message_without_contents_refuted : forall r s xs outs d t m ch,
  lived r s xs outs d -> d_phase d = Started -> d_ephemeral d = false -> d_id d <> 0 ->
  channel (d_comm d) (pm_sender m) = Some ch -> ch_phase ch = PhCompleted -> pm_payload m = None ->
  receive d t (Some (Some (HPeer m))) = Panic.
Proof using.
  intros r s xs outs d t m ch Hl Hp He Hid Hch Hph Hm. apply lived_good in Hl.
  destruct (gd_started _ _ _ Hl Hp) as [Hs Hi].
  assert (co_in cops (d_comm d) (IPeer m) = Panic) as E.
  { cbn. unfold comm_in. destruct (N.eqb_spec (cm_id (ms_comm (d_comm d))) 0) as [|_]; [congruence|].
    cbn [in_sender]. unfold get_channel. unfold channel in Hch. rewrite Hch. unfold chan_initialized. rewrite Hph.
    unfold chan_in. rewrite Hph. unfold chan_decrypt. rewrite Hm. by destruct (ch_encryptor ch). }
  unfold receive_message. cbn [dispatch].
  assert (d_comm (preset rops d t) = d_comm d) as Ec by done.
  assert (d_ephemeral (preset rops d t) = false) as Ee by done.
  assert (d_phase (preset rops d t) = Started) as Ep by done.
  destruct (pm_kind m).
  - unfold process_system, check_phase, check_non_ephemeral. by rewrite Ec, Ee, Ep, E.
  - unfold process_snapshot_request, check_non_ephemeral. by rewrite Ec, Ee, E.
  - unfold process_snapshot_response, check_non_ephemeral. by rewrite Ec, Ee, E.
Qed.
End Theorems.

(** ** A concrete case *)

(** Sessions of CommTheorems: the handshake is one message in each direction, and
    encryption adds 1 to each byte. Consensus of DriverTheorems, which with each
    batch of entries sends a message to replica 2. *)
Definition chatty : raft_ops DriverTheorems.toy :=
  let o := DriverTheorems.toy_ops in
  RaftOps _ (ra_initialized o) (ra_leader o) (ra_state o) (ra_init o) (ra_step o) (ra_propose o) (ra_propose_change o)
    (ra_tick o) (ra_apply_change o) (ra_has_ready o)
    (fun r => let '(r, rd) := ra_get_ready o r in
       (r, Ready [RMsg (MsgOther 5) 2 1 None [8]] (rd_persisted rd) (rd_entries rd) (rd_committed rd) (rd_hard rd)
             (rd_snapshot rd) (rd_number rd)))
    (ra_advance o) (ra_advance_apply o) (ra_report o) (ra_set_hard o) (ra_append o) (ra_apply_snapshot o)
    (ra_should_snapshot o) (ra_create_snapshot o) (ra_snapshot_size o).
Definition ex_create (cfg : session_config) (n : N) : option CommTheorems.toy_state := Some (0, None, None).
Definition ex_comm : comm_ops messenger (option bytes) (option bytes) :=
  real_comm (CommTheorems.toy true) (CommTheorems.toy false) ex_create ex_create (fun _ => Some [1]) (fun _ => Some [2])
    sev_values None [3] (fun _ m => map fst (map_to_list m)).
Definition ex_receive := receive_message DriverTheorems.toy_codec chatty DriverTheorems.toy_snap ex_comm DriverTheorems.toy_app.
Definition ex_start : host_in (option bytes) (option bytes) :=
  HStart (StartRequest true 1 (Some (RaftConfig 10 5 2 0 None 1)) [7] false true).
Definition ex_hello : host_in (option bytes) (option bytes) := HHandshake (HsMsg 1 2 (BRequest None)).
(** A message of consensus with the contents [0;1;2;1;30;2;6], encrypted. *)
Definition ex_message : peer_msg := PeerMsg KSystem 1 2 0 (Some (Payload [1; 2; 3; 2; 31; 3; 7] [7])).
Fixpoint ex_run (d : driver _ _ _ _ _ _) (l : list (host_in (option bytes) (option bytes))) :=
  match l with
  | [] => Ok (d, [])
  | m :: l => let! (d, o) := ex_receive d 1 (Some (Some m)) in let! (d, os) := ex_run d l in Ok (d, o :: os)
  end.
Definition ex_new : driver _ _ _ bytes (option bytes) (option bytes) := driver_new DriverTheorems.toy0 tt (@messenger_new (option bytes) (option bytes) CommTheorems.toy_state CommTheorems.toy_state).

(** After the handshake the message is heard: consensus commits the entry in it,
    the application applies it, and the answer of consensus leaves encrypted.
    Before the handshake the same message has no effect. A message without
    contents ends the replica. *)
Example C92_example :
  match ex_run ex_new [ex_start; ex_hello; HPeer ex_message] with
  | Ok (d, outs) =>
    last outs = Some [OWire (WPeer (PeerMsg KSystem 2 1 0 (Some (Payload [6; 3; 2; 9] [7]))))] /\
    d_actor d = Some [7; 6]
  | _ => False
  end /\
  match ex_run ex_new [ex_start; HPeer ex_message] with
  | Ok (d, outs) => last outs = Some [] /\ d_actor d = Some [7]
  | _ => False
  end /\
  match ex_run ex_new [ex_start; ex_hello] with
  | Ok (d, _) =>
    d_phase d = Started /\ d_ephemeral d = false /\ d_id d = 1 /\
    ex_receive d 1 (Some (Some (HPeer (PeerMsg KSystem 1 2 0 None)))) = Panic
  | _ => False
  end.
Proof. by vm_compute. Qed.
Example C92_example_hypotheses :
  sessions_available ex_create (fun _ => Some [1]) (fun _ => Some [2]) /\
  exists ck evidence_of,
    oak_verifies (CommTheorems.toy true) (CommTheorems.toy false) ex_create ex_create ck evidence_of /\
    ~ (forall ev, accepts ck (fst (choose sev_values HostClock)) ev).
Proof.
  split; [by repeat split; eexists|].
  exists (Checks (fun _ ev => ev <> []) (fun _ _ => True) (fun _ _ => True) (fun _ _ => True) (fun _ _ => True) (fun _ => True) (fun _ ev => ev <> [])), (fun _ => [1]).
  split.
  - intros cfg e0 e _ _ _. destruct (se_verifier cfg) as [c ps|a f ps c|v c]; cbn; split_and?; try done; (apply Forall_true; by intros []).
  - intros H. by destruct (H []) as (_ & H1 & _).
Qed.
(** The hypotheses of the theorems are met after the handshake, and the message
    is heard. *)
Definition ex_lives := lives DriverTheorems.toy_codec chatty DriverTheorems.toy_snap ex_comm DriverTheorems.toy_app ex_new.
Lemma ex_run_lives l : forall xs outs d d' os, ex_lives xs outs d -> ex_run d l = Ok (d', os) ->
  exists xs' outs', ex_lives xs' outs' d'.
Proof.
  induction l as [|m l IH]; intros xs outs d d' os H Hr; cbn [ex_run] in Hr; [injection Hr as <- <-; by eexists _, _|].
  apply bind_ok in Hr as ([d1 o] & H1 & Hr). apply bind_ok in Hr as ([d2 o2] & H2 & Hr). injection Hr as <- <-.
  eapply IH; [|exact H2]. eapply lives_call; [exact H|exact H1].
Qed.
Lemma ex_shaken : match ex_run ex_new [ex_start; ex_hello] with
  | Ok (d, _) => match channel (d_comm d) 2 with
       | Some ch => ch_phase ch = PhCompleted /\ ch_encryptor ch = Some (inr (2, None, None))
       | None => False end /\ d_phase d = Started
  | _ => False end.
Proof. by vm_compute. Qed.
Example C92_example_heard : exists xs outs d,
  ex_lives xs outs d /\
  heard (CommTheorems.toy true) (CommTheorems.toy false) ex_create ex_create sev_values HostClock (d_comm d) ex_message [0; 1; 2; 1; 30; 2; 6].
Proof.
  destruct (ex_run ex_new [ex_start; ex_hello]) as [[d os]| |] eqn:E; [|pose proof ex_shaken as X; rewrite E in X; destruct X..].
  destruct (ex_run_lives _ _ _ _ _ _ (lives_new _ _ _ _ _ _) E) as (xs & outs & Hl). exists xs, outs, d. split; [exact Hl|].
  pose proof ex_shaken as X. rewrite E in X. clear E. destruct X as [H Hp].
  destruct (channel (d_comm d) 2) as [ch|] eqn:Hc; [|done]. destruct H as [H1 H2].
  exists ch. do 3 eexists. split_and!; [exact Hc|exact H1|exact H2| |done|by vm_compute].
  apply lived_good in Hl. destruct (gd_started _ _ _ Hl Hp) as [[Hs _] _].
  exact (ck_encryptor _ _ _ _ _ _ _ _ (Hs 2 ch Hc) _ H2).
Qed.
