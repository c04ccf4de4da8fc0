(** C95, C96: when a replica goes on. The replica is put together from its
    driver, its snapshot processor, its communication module and its session
    factory; consensus, application, Oak and the platform are arbitrary. *)
From Verif Require Import Base StorageModel SnapshotModel SnapshotSpec CommModel ActorModel DriverModel DriverSpec DriverProofs SessionModel SessionSpec
  ReplicaModel ReplicaProofs ReplicaCommProofs ReplicaTotalProofs ReplicaRunSpec ReplicaRunProofs ReplicaSnapProofs ActorSpec.
From Verif Require CounterModel CounterSpec CounterTheorems CommTheorems DriverTheorems SessionTheorems.

(** ** C95 *)
Section Events.
Context {RS SP CS ST REQ RESP : Type}.
Variable codec : driver_codec.
Variable rops : raft_ops RS.
Variable sops : snap_ops SP.
Variable cops : comm_ops CS REQ RESP.
Variable app : actor ST.
Implicit Types d : driver RS SP CS ST REQ RESP.
(** Whenever the application decides on an event and consensus does not accept it
    at the moment, the replica is aborted. *)
Theorem C95_refused_events_refuted : forall d t c st st' out ev,
  d_phase d = Started -> d_ephemeral d = false -> d_actor d = Some st ->
  a_command app (ActorCtx (d_core_id d) (N.max (d_instant d) t) (d_core_config d) (ra_leader rops (d_raft d))) st (Some c) = Ok (st', out) ->
  co_event out = Some ev -> d_proposals d = [] ->
  (forall p, ra_propose rops (d_raft d) p = Err ProposalDropped) ->
  receive_message codec rops sops cops app d t (Some (Some (HApp c))) = Panic.
Proof using.
  intros d t c st st' out ev Hp He Ha Hc Hev Hps Hdrop. unfold receive_message. cbn [dispatch res_bind app_message].
  assert (d_phase (preset rops d t) = Started) as Hp' by exact Hp. assert (d_ephemeral (preset rops d t) = false) as He' by exact He.
  assert (d_actor (preset rops d t) = Some st) as Ha' by exact Ha. assert (d_proposals (preset rops d t) = []) as Hps' by exact Hps.
  assert (a_command app (context (preset rops d t)) st (Some c) = Ok (st', out)) as Hc' by exact Hc.
  assert (d_raft (preset rops d t) = d_raft d) as Hr' by done.
  revert Hp' He' Ha' Hps' Hc' Hr'. generalize (preset rops d t). intros d0 Hp' He' Ha' Hps' Hc' Hr'.
  assert (exists d1, run_app codec cops app d0 (Some c) = Ok d1 /\ d_ephemeral d1 = false /\ d_raft d1 = d_raft d /\ exists p, d_proposals d1 = [p])
    as (d1 & -> & He1 & Hr1 & p & Hp1).
  { unfold run_app, process_app, check_phase. rewrite Hp', Ha'. cbn [unwrap res_bind]. rewrite decide_True by done. cbn [res_bind]. rewrite Hc'. cbn [or_fail res_bind].
    rewrite Hev. change (d_ephemeral (stash_apps (set_actor d0 (Some st')) (co_commands out))) with (d_ephemeral d0). rewrite He'. cbn [res_bind].
    eexists. split; [reflexivity|]. split; [exact He'|]. split; [exact Hr'|]. eexists. cbn [d_proposals set_comm set_proposals stash_apps set_messages set_actor]. rewrite Hps'. reflexivity. }
  cbn [res_bind]. unfold run_replication. rewrite He1. unfold process_proposals. rewrite Hp1. cbn [propose_all]. unfold make_raft_proposal.
  change (d_raft (set_proposals d1 [])) with (d_raft d1). rewrite Hr1, Hdrop. reflexivity.
Qed.
End Events.

(** ** C96 *)
Section Running.
Context {RS ST REQ RESP CSN SSN : Type}.
Variable codec : driver_codec.
Variable rops : raft_ops RS.
Variable app : actor ST.
(** The communication module. *)
Variable client : oak_ops CSN REQ RESP.
Variable server : oak_ops SSN RESP REQ.
Variable create_client : session_config -> N -> option CSN.
Variable create_server : session_config -> N -> option SSN.
Variable attest bind : N -> option bytes.
Variable values : ref_values.
Variable own_clock : option clock.
Variable endorsements : bytes.
Variable order : N -> gmap N (chan REQ RESP (hsession CSN + hsession SSN) (CSN + SSN)) -> list N.
Notation cops := (real_comm client server create_client create_server attest bind values own_clock endorsements order).
(** The snapshot processor. *)
Variable enc_meta : snap_meta -> bytes.
Variable dec_meta : bytes -> option snap_meta.
Variable enc_content : content -> bytes.
Variable dec_content : bytes -> option content.
Variable enc_ack : ack -> bytes.
Variable dec_ack : bytes -> option ack.
Variable torder : N -> gmap N sender_state -> list N.
Notation sops := (real_snap enc_meta dec_meta enc_content dec_content enc_ack dec_ack torder).
Notation receive := (receive_message codec rops sops cops app).
Notation DR := (driver RS snapper (@messenger REQ RESP CSN SSN) ST REQ RESP).
Implicit Types d : DR.

(** What is assumed of the surroundings: events can be read back, a hash map is
    visited completely, and the platform attests and creates sessions. *)
Definition surroundings : Prop :=
  (forall e, dec_entry codec (enc_entry codec e) = Some e) /\
  (forall n m, torder n m ≡ₚ (map_to_list m).*1) /\
  (forall n, is_Some (attest n)) /\ (forall n, is_Some (bind n)) /\
  (forall cfg n, is_Some (create_client cfg n)) /\ (forall cfg n, is_Some (create_server cfg n)).

Variable valid : ST -> Prop.
Variable loads applies : bytes -> Prop.
Variable commands : actor_command -> Prop.
Variable steps : RS -> rmsg -> Prop.
Variable idle : RS -> N -> conf_state -> Prop.
Variable busy : RS -> N -> conf_state -> list duty -> Prop.
Notation chunks := (chunks_ok sops dec_content loads).
Notation new r := (driver_new r snapper_new messenger_new : DR).
Notation served r := (served codec rops sops cops app commands steps chunks (new r) (start_ok rops app r valid idle)).
Notation resting := (resting valid idle (fit client server create_client create_server values own_clock) (snap_ok enc_meta dec_meta loads)).

Notation fitc := (fit client server create_client create_server values own_clock).
Lemma real_peer c m : surroundings -> fitc c -> filled m -> exists c' r, co_in cops c (IPeer m) = Ok (c', r) /\ fitc c' /\
  (r = None \/ exists m', r = Some (IPeer m') /\ pm_kind m' = pm_kind m /\ filled m').
Proof using.
  intros (S1 & S2 & S3 & S4 & S5 & S6) F Hf.
  destruct (in_fit client server create_client create_server attest bind values own_clock endorsements order S3 S4 S6 c (IPeer m) F Hf) as (c' & r & E & F').
  exists c', r. split; [exact E|]. split; [exact F'|]. destruct r as [x|]; [|by left]. right.
  destruct (in_peer client server create_client create_server attest bind values own_clock endorsements order _ _ _ _ E) as (m' & -> & K1 & K2). by exists m'.
Qed.
Lemma call_goes_on d t m : surroundings -> app_contract app valid loads applies commands ->
  consensus_contract codec rops loads applies steps idle busy -> resting d -> call_ok codec cops commands steps chunks d m ->
  exists d' out, receive d t m = Ok (d', out) /\ resting d'.
Proof using.
  intros S HA HC Hd Hm. pose proof S as (S1 & S2 & S3 & S4 & S5 & S6).
  eapply (receive_run codec rops sops cops app valid loads applies commands HA idle busy steps HC S1
    (fit client server create_client create_server values own_clock)); [..|exact Hd|exact Hm].
  - intros c m0 F Hf. exact (out_total client server create_client create_server attest bind values own_clock endorsements order S3 S4 S5 S6 c m0 F Hf).
  - intros c m0 F. exact (in_fit client server create_client create_server attest bind values own_clock endorsements order S3 S4 S6 c (IHandshake m0) F I).
  - intros c m0 F Hf. exact (real_peer c m0 S F Hf).
  - intros c F. exact (take_total client server create_client create_server attest bind values own_clock endorsements order c F).
  - intros c F. exact (tick_fit client server create_client create_server attest bind values own_clock endorsements order c F).
  - intros c ids F. exact (cluster_fit client server create_client create_server attest bind values own_clock endorsements order c ids F).
  - intros s l t0 ids F. exact (snap_cluster enc_meta dec_meta enc_content dec_content enc_ack dec_ack torder S2 loads s l t0 ids F).
  - intros s t0 F. exact (snap_role enc_meta dec_meta enc_content dec_content enc_ack dec_ack torder loads s t0 F).
  - intros s to sn F Hto. exact (snap_start enc_meta dec_meta enc_content dec_content enc_ack dec_ack torder loads s to sn F Hto).
  - intros s F. exact (snap_next enc_meta dec_meta enc_content dec_content enc_ack dec_ack torder S2 loads s F).
  - intros s to n m0 F Hf. exact (snap_response enc_meta dec_meta enc_content dec_content enc_ack dec_ack torder loads s to n m0 F Hf).
  - intros s m0 F Hf. exact (snap_unexpected enc_meta dec_meta enc_content dec_content enc_ack dec_ack torder loads s m0 F Hf).
  - intros s F. exact (snap_sent enc_meta dec_meta enc_content dec_content enc_ack dec_ack torder S2 loads s F).
  - intros s m0 F Hf Hc. exact (snap_request enc_meta dec_meta enc_content dec_content enc_ack dec_ack torder loads s m0 F Hf Hc).
  - intros s F. exact (snap_received enc_meta dec_meta enc_content dec_content enc_ack dec_ack torder loads s F).
Qed.
Lemma start_goes_on r q t : surroundings -> app_contract app valid loads applies commands ->
  consensus_contract codec rops loads applies steps idle busy -> start_ok rops app r valid idle q t ->
  exists d' out, receive (new r) t (Some (Some (HStart q))) = Ok (d', out) /\ resting d'.
Proof using.
  intros S HA HC Hq. pose proof S as (S1 & S2 & S3 & S4 & S5 & S6).
  eapply (start_run codec rops sops cops app valid loads applies commands HA idle busy steps HC S1
    (fit client server create_client create_server values own_clock)); [..|exact Hq].
  - intros c m0 F Hf. exact (out_total client server create_client create_server attest bind values own_clock endorsements order S3 S4 S5 S6 c m0 F Hf).
  - intros c F. exact (take_total client server create_client create_server attest bind values own_clock endorsements order c F).
  - intros c F. exact (tick_fit client server create_client create_server attest bind values own_clock endorsements order c F).
  - intros c ids F. exact (cluster_fit client server create_client create_server attest bind values own_clock endorsements order c ids F).
  - intros s l t0 ids F. exact (snap_cluster enc_meta dec_meta enc_content dec_content enc_ack dec_ack torder S2 loads s l t0 ids F).
  - intros s t0 F. exact (snap_role enc_meta dec_meta enc_content dec_content enc_ack dec_ack torder loads s t0 F).
  - intros s to sn F Hto. exact (snap_start enc_meta dec_meta enc_content dec_content enc_ack dec_ack torder loads s to sn F Hto).
  - intros s F. exact (snap_next enc_meta dec_meta enc_content dec_content enc_ack dec_ack torder S2 loads s F).
  - intros s F. exact (snap_sent enc_meta dec_meta enc_content dec_content enc_ack dec_ack torder S2 loads s F).
  - intros s F. exact (snap_received enc_meta dec_meta enc_content dec_content enc_ack dec_ack torder loads s F).
  - intros id cfg Hid Hc. exact (snap_init enc_meta dec_meta enc_content dec_content enc_ack dec_ack torder loads id cfg Hid Hc).
  - intros id retry timeout Hid. by apply init_fit.
Qed.
Lemma served_resting r d : surroundings -> app_contract app valid loads applies commands ->
  consensus_contract codec rops loads applies steps idle busy -> served r d -> resting d.
Proof using.
  intros S HA HC. induction 1 as [q t d out Hq E|d t m d' out H IH Hm E].
  - destruct (start_goes_on r q t S HA HC Hq) as (d1 & out1 & E1 & Hd). rewrite E in E1. by injection E1 as <- <-.
  - destruct (call_goes_on d t m S HA HC IH Hm) as (d1 & out1 & E1 & Hd). rewrite E in E1. by injection E1 as <- <-.
Qed.

(** With an application and consensus that do what is asked of them, a replica
    can be started, and whatever the host delivers after that, in any order and at
    any times, is dealt with. *)
Theorem C96_replicas_start : forall r q t,
  surroundings -> app_contract app valid loads applies commands ->
  consensus_contract codec rops loads applies steps idle busy ->
  start_ok rops app r valid idle q t ->
  exists d out, receive (new r) t (Some (Some (HStart q))) = Ok (d, out).
Proof using.
  intros r q t S HA HC Hq. destruct (start_goes_on r q t S HA HC Hq) as (d & out & E & _). by exists d, out.
Qed.
Theorem C96_replicas_keep_running : forall r d t m,
  surroundings -> app_contract app valid loads applies commands ->
  consensus_contract codec rops loads applies steps idle busy ->
  served r d -> call_ok codec cops commands steps chunks d m ->
  exists d' out, receive d t m = Ok (d', out).
Proof using.
  intros r d t m S HA HC Hs Hm. destruct (call_goes_on d t m S HA HC (served_resting r d S HA HC Hs) Hm) as (d' & out & E & _). by exists d', out.
Qed.
(** In such a replica every request of a snapshot transfer that can be sent is
    sent: the loop that collects them ends because there are none left. *)
Theorem C96_all_chunks_are_collected : forall r d s out,
  surroundings -> app_contract app valid loads applies commands ->
  consensus_contract codec rops loads applies steps idle busy ->
  served r d -> drain sops (sp_drain sops (d_snap d)) (d_snap d) = Ok (s, out) ->
  nothing_to_send (pr_sender (sp_processor s)).
Proof using.
  intros r d s out S HA HC Hs Hd. destruct S as (S1 & S2 & S3). eapply drained; [exact S2| |exact Hd].
  apply (served_resting r d (conj S1 (conj S2 S3)) HA HC Hs).
Qed.
End Running.

(** The counter does what is asked of an application, whatever commands it gets:
    its replicas keep running. *)
Theorem C96_counters_meet_the_contract : forall c, CounterSpec.codec_ok c ->
  app_contract (CounterModel.counter_actor c) (fun _ => True)
    (fun data => is_Some (CounterModel.dec_snapshot c data))
    (fun data => exists r, CounterModel.dec_request c data = Some r /\ is_Some (CounterModel.cr_op r))
    (fun _ => True).
Proof.
  intros c Hc. constructor.
  - intros st _. by eexists.
  - intros st data _ [s Hs]. cbn. unfold CounterModel.counter_load. rewrite Hs. by eexists.
  - intros cx st m _ _. cbn. unfold CounterModel.counter_command. destruct m as [m|]; [|eexists _, _; by split_and!].
    destruct (CounterModel.dec_in c (ac_header m)) as [[r|]|]; [|eexists _, _; by split_and!..].
    destruct (cx_leader cx); cbn [negb]; [|eexists _, _; by split_and!].
    destruct (CounterModel.cr_op r) as [op|] eqn:E; [|eexists _, _; by split_and!].
    eexists _, _. split; [done|]. split; [done|]. intros ev [= <-]. split; [by eexists|]. split; [done|].
    cbn. rewrite (CounterSpec.request_round_trip _ Hc). eexists. split; [done|]. by eexists.
  - intros st cx ev _ (r & Hr & [op Ho]). cbn. unfold CounterModel.counter_apply. rewrite Hr, Ho.
    destruct (CounterModel.apply_compare_and_swap _ _ _ _) as [st' resp]. destruct (ec_owned cx); by eexists _, _.
Qed.

(** ** A replica that runs *)
(** Consensus of a single replica: it leads when the clock has ticked, and what is
    proposed is committed in the next batch. *)
Record solo := Solo { so_ready : bool; so_lead : bool; so_next : N; so_queue : list rentry }.
Definition solo_add (r : solo) (t : entry_type) (data : bytes) : solo :=
  Solo (so_ready r) (so_lead r) (so_next r + 1) (so_queue r ++ [REntry t 1 (so_next r) data]).
Definition solo_ops : raft_ops solo := RaftOps solo
  so_ready so_lead
  (fun r => RaftSt (if so_lead r then 1 else 0) 1 [1] false)
  (fun r id c data leader n => Ok (Solo true false 2 []))
  (fun r m => (r, true))
  (fun r p => if so_lead r then Ok (solo_add r EntryNormal p) else Err ProposalDropped)
  (fun r c => match so_lead r, cc_type c with
              | true, AddNode => (solo_add r EntryConfChange (DriverTheorems.change_code c), None)
              | _, _ => (r, Some ProposalDropped)
              end)
  (fun r => Solo (so_ready r) true (so_next r) (so_queue r))
  (fun r c => Ok (r, conf_of_voters [1; cc_node c]))
  (fun r => match so_queue r with [] => false | _ => true end)
  (fun r => (Solo (so_ready r) (so_lead r) (so_next r) [],
             Ready [RMsg MsgSnapshot 2 1 (Some (Snapshot 2 1 (conf_of_voters [1; 2]) [8])) []; RMsg (MsgOther 5) 2 1 None [8]]
                   [] [] (so_queue r) None (Snapshot 0 0 (conf_of_voters []) []) 1))
  (fun r n => (r, LightReady [] []))
  (fun r => r) (fun r _ _ => r) (fun r _ => r) (fun r _ => Ok r) (fun r _ => Ok r)
  (fun r i _ => i =? 3) (fun r _ _ _ => Ok r) (fun r => 0).
Notation ex_counter := (CounterModel.counter_actor CounterTheorems.sample_codec).
Notation ex_applies := (fun data => exists r, CounterModel.dec_request CounterTheorems.sample_codec data = Some r /\ is_Some (CounterModel.cr_op r)).
Notation ex_loads := (fun data => is_Some (CounterModel.dec_snapshot CounterTheorems.sample_codec data)).
Definition solo_fine (r : solo) : Prop := Forall (entry_ok DriverTheorems.toy_codec ex_applies) (so_queue r).
Lemma solo_contract : consensus_contract DriverTheorems.toy_codec solo_ops ex_loads ex_applies (fun _ _ => True)
  (fun r _ _ => solo_fine r) (fun r _ _ l => Forall (fun x => match x with DEntry e => entry_ok DriverTheorems.toy_codec ex_applies e | _ => True end) l /\ solo_fine r).
Proof.
  constructor; try done.
  - intros r n cs m Hr _. by exists r.
  - intros r n cs p Hr Hl Hp. cbn in *. rewrite Hl. eexists. split; [done|]. apply Forall_app. split; [done|]. constructor; [|done]. by right.
  - intros r n cs c Hr. cbn. destruct (so_lead r), c as [[] node]; (eexists _, _; split; [done|]; split; [done|]); try done.
    apply Forall_app. split; [done|]. constructor; [|done]. right. by eexists.
  - intros r n cs data Hr _. by exists r.
  - intros r n cs Hr _. eexists _, _. split; [done|]. split; [|split; [|constructor]].
    + split_and!; try done; [|constructor]. constructor; [|constructor; [|constructor]]; intros ?; [|done]. split; [by eexists|done].
    + unfold duties. cbn [rd_hard rd_snapshot rd_committed rd_entries rd_number sn_index N.eqb app]. apply Forall_app. split; [|by constructor].
      apply Forall_fmap. apply (Forall_impl (entry_ok DriverTheorems.toy_codec ex_applies)); [|by intros]. by rewrite merge_sort_Permutation.
  - intros r n cs h l [Hl Hr]. split; [by apply Forall_cons in Hl as [_ Hl]|done].
  - intros r n cs sn l [Hl Hr]. exists r. split; [done|]. split; [by apply Forall_cons in Hl as [_ Hl]|done].
  - intros r n cs e l [Hl Hr]. apply Forall_cons in Hl as [_ Hl]. destruct (change_of _ e) as [c|]; [|done]. by eexists _, _.
  - intros r n cs es l [Hl Hr]. exists r. split; [done|]. split; [by apply Forall_cons in Hl as [_ Hl]|done].
  - intros r n cs number [Hl Hr]. eexists _, _. split; [done|]. split; [by split; constructor|]. split; [|done]. cbn. by repeat constructor.
  - intros r n cs [_ Hr]. done.
Qed.

Definition ex_create (cfg : session_config) (n : N) : option CommTheorems.toy_state := Some (0, None, None).
Definition ex_comm : comm_ops messenger (option bytes) (option bytes) :=
  real_comm (CommTheorems.toy true) (CommTheorems.toy false) ex_create ex_create (fun _ => Some [1]) (fun _ => Some [2])
    SessionTheorems.sev_values None [3] (fun _ m => map fst (map_to_list m)).
Definition ex_snap : snap_ops snapper :=
  real_snap (fun m => [1]) (fun _ => None) (fun _ => [2]) (fun _ => None) (fun _ => [3]) (fun _ => None) (fun _ m => (map_to_list m).*1).
Notation EX := (driver solo snapper (@messenger (option bytes) (option bytes) CommTheorems.toy_state CommTheorems.toy_state) CounterModel.counters (option bytes) (option bytes)).
Notation ex_receive := (receive_message DriverTheorems.toy_codec solo_ops ex_snap ex_comm ex_counter).
#[local] Existing Instances CounterTheorems.counter_request_eq CounterTheorems.counter_request_countable.
Definition ex_start : start_request :=
  StartRequest true 1 (Some (RaftConfig 10 5 2 0 (Some (SnapshotConfig 10 1 2)) 1)) (sample_enc (∅ : gmap string Z)) false true.
Definition ex_swap : actor_command := ActorCommand 7
  (sample_enc (Some (CounterModel.CounterRequest "a"%string (Some (CounterModel.CasRequest 0%Z 5%Z)) [] []))) [].
Definition ex_new : EX := driver_new (Solo false false 1 []) snapper_new messenger_new.
Notation ex_served := (served DriverTheorems.toy_codec solo_ops ex_snap ex_comm ex_counter (fun _ => True) (fun _ _ => True)
  (chunks_ok ex_snap (fun _ => None) ex_loads) ex_new (start_ok solo_ops ex_counter (Solo false false 1 []) (fun _ => True) (fun r _ _ => solo_fine r))).
Notation ex_call d m := (call_ok DriverTheorems.toy_codec ex_comm (fun _ => True) (fun _ _ => True) (chunks_ok ex_snap (fun _ => None) ex_loads) (d : EX) m).
Example C96_example_start : start_ok solo_ops ex_counter (Solo false false 1 []) (fun _ => True) (fun r _ _ => solo_fine r) ex_start 1.
Proof.
  split; [done|]. split; [done|]. split; [done|]. split; [intros c s [= <-] [= <-]; done|].
  exists ∅. split; [|split; [done|]].
  - cbn [a_init CounterModel.counter_actor]. unfold CounterModel.counter_init. cbn [cx_config sr_config ex_start CounterModel.dec_config CounterTheorems.sample_codec].
    rewrite sample_dec_enc. f_equal. apply fmap_empty.
  - intros data count _. eexists. split; [done|]. constructor.
Qed.
Lemma ex_surroundings : surroundings DriverTheorems.toy_codec ex_create ex_create (fun _ => Some [1]) (fun _ => Some [2]) (fun _ m => (map_to_list m).*1).
Proof.
  split; [apply (entry_round_trip _ DriverTheorems.toy_codec_ok)|]. split; [by intros|]. by split_and!; eexists.
Qed.
(** The replica is started, comes to lead, swaps a counter, and is still there. *)
Example C96_example_runs : exists d1 o1 d2 o2 d3 o3,
  ex_receive ex_new 1 (Some (Some (HStart ex_start))) = Ok (d1, o1) /\
  ex_receive d1 20 None = Ok (d2, o2) /\
  ex_receive d2 21 (Some (Some (HApp ex_swap))) = Ok (d3, o3) /\ ex_served d3.
Proof.
  assert (forall d t m, ex_served d -> ex_call d m -> exists d' out, ex_receive d t m = Ok (d', out)) as X.
  { intros d t m Hd Hm. eapply C96_replicas_keep_running; [apply ex_surroundings|apply C96_counters_meet_the_contract, CounterTheorems.sample_codec_ok|apply solo_contract|exact Hd|exact Hm]. }
  assert (exists d out, ex_receive ex_new 1 (Some (Some (HStart ex_start))) = Ok (d, out)) as (d1 & o1 & E1).
  { eapply C96_replicas_start; [apply ex_surroundings|apply C96_counters_meet_the_contract, CounterTheorems.sample_codec_ok|apply solo_contract|apply C96_example_start]. }
  assert (ex_served d1) as S1. { exact (served_start _ _ _ _ _ _ _ _ _ _ _ _ _ _ C96_example_start E1). }
  assert (ex_call d1 None) as I1. { exact I. }
  destruct (X d1 20 None S1 I1) as (d2 & o2 & E2).
  assert (ex_served d2) as S2. { exact (served_call _ _ _ _ _ _ _ _ _ _ _ _ _ _ _ S1 I1 E2). }
  assert (ex_call d2 (Some (Some (HApp ex_swap)))) as I2. { exact I. }
  destruct (X d2 21 (Some (Some (HApp ex_swap))) S2 I2) as (d3 & o3 & E3).
  exists d1, o1, d2, o2, d3, o3. split; [exact E1|]. split; [exact E2|]. split; [exact E3|].
  exact (served_call _ _ _ _ _ _ _ _ _ _ _ _ _ _ _ S2 I2 E3).
Qed.
(** The swap is answered, and the transfer of a snapshot consensus asked for is
    under way: its request waits for the handshake with the peer. *)
Example C96_example :
  match ex_receive ex_new 1 (Some (Some (HStart ex_start))) with
  | Ok (d1, _) =>
    match ex_receive d1 20 None with
    | Ok (d2, _) =>
      match ex_receive d2 21 (Some (Some (HApp ex_swap))) with
      | Ok (d3, o3) =>
        omap (fun o => match o with OApp c => Some (ac_correlation c) | _ => None end) o3 = [7] /\
        d_applied d3 = 2 /\ pr_state (sp_processor (d_snap d3)) = RLeader /\
        in_flight (pr_sender (sp_processor (d_snap d3))) = 1
      | _ => False
      end
    | _ => False
    end
  | _ => False
  end.
Proof. by vm_compute. Qed.
(** The same replica, when it is about to hand its leadership over: it still leads,
    but consensus accepts no proposals. *)
Definition leaving_ops : raft_ops solo := RaftOps solo
  so_ready so_lead (ra_state solo_ops) (ra_init solo_ops) (ra_step solo_ops)
  (fun _ _ => Err ProposalDropped) (ra_propose_change solo_ops) (ra_tick solo_ops) (ra_apply_change solo_ops)
  (ra_has_ready solo_ops) (ra_get_ready solo_ops) (ra_advance solo_ops) (ra_advance_apply solo_ops)
  (ra_report solo_ops) (ra_set_hard solo_ops) (ra_append solo_ops) (ra_apply_snapshot solo_ops)
  (ra_should_snapshot solo_ops) (ra_create_snapshot solo_ops) (ra_snapshot_size solo_ops).
Example C95_example :
  match ex_receive ex_new 1 (Some (Some (HStart ex_start))) with
  | Ok (d1, _) =>
    match ex_receive d1 20 None with
    | Ok (d2, _) =>
      receive_message DriverTheorems.toy_codec leaving_ops ex_snap ex_comm ex_counter d2 21 (Some (Some (HApp ex_swap))) = Panic
    | _ => False
    end
  | _ => False
  end.
Proof. by vm_compute. Qed.
