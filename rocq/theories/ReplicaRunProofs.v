From Verif Require Import Base StorageModel SnapshotModel CommModel ActorModel DriverModel DriverProofs ReplicaRunSpec.

(** ** The driver over parts that do what is asked of them *)
Section Run.
Context {RS SP CS ST REQ RESP : Type}.
Variable codec : driver_codec.
Variable rops : raft_ops RS.
Variable sops : snap_ops SP.
Variable cops : comm_ops CS REQ RESP.
Variable app : actor ST.
Notation DR := (driver RS SP CS ST REQ RESP).
Implicit Types d : DR.
Variable valid : ST -> Prop.
Variable loads applies : bytes -> Prop.
Variable commands : actor_command -> Prop.
Hypothesis APP : app_contract app valid loads applies commands.
Variable idle : RS -> N -> conf_state -> Prop.
Variable busy : RS -> N -> conf_state -> list duty -> Prop.
Variable steps : RS -> rmsg -> Prop.
Hypothesis CON : consensus_contract codec rops loads applies steps idle busy.
Hypothesis encodes : forall e, dec_entry codec (enc_entry codec e) = Some e.

(** The communication module. *)
Variable cok : CS -> Prop.
Definition filled (m : peer_msg) : Prop := is_Some (pm_payload m).
Hypothesis c_out : forall c m, cok c -> filled (om_msg m) -> exists c', co_out cops c m = Ok c' /\ cok c'.
Hypothesis c_handshake : forall c m, cok c -> exists c' r, co_in cops c (IHandshake m) = Ok (c', r) /\ cok c'.
Hypothesis c_peer : forall c m, cok c -> filled m -> exists c' r, co_in cops c (IPeer m) = Ok (c', r) /\ cok c' /\
  (r = None \/ exists m', r = Some (IPeer m') /\ pm_kind m' = pm_kind m /\ filled m').
Hypothesis c_take : forall c, cok c -> exists c' ws, co_take cops c = Ok (c', ws) /\ cok c'.
Hypothesis c_tick : forall c, cok c -> cok (co_tick cops c).
Hypothesis c_cluster : forall c ids, cok c -> cok (co_cluster cops c ids).

(** The snapshot processor. *)
Variable sok : SP -> Prop.
Variable chunks : SP -> peer_msg -> Prop.
Hypothesis s_cluster : forall s l t ids, sok s -> exists s' out, sp_cluster sops s l t ids = Ok (s', out) /\ sok s'.
Hypothesis s_role : forall s t, sok s -> exists r, sp_role sops s t = Ok r.
Hypothesis s_start : forall s to sn, sok s -> to <> 0 -> exists s', sp_start sops s to sn = Ok s' /\ sok s'.
Hypothesis s_next : forall s, sok s -> exists s' r, sp_next sops s = Ok (s', r) /\ sok s' /\ (forall m, r = Some m -> filled m).
Hypothesis s_response : forall s to n m, sok s -> (forall x, m = Some x -> filled x) ->
  exists s', sp_response sops s to n m = Ok s' /\ sok s'.
Hypothesis s_unexpected : forall s m, sok s -> filled m -> exists a, sp_unexpected sops s m = Ok a /\ filled a.
Hypothesis s_sent : forall s, sok s -> exists s' r, sp_sent sops s = Ok (s', r) /\ sok s'.
Hypothesis s_request : forall s m, sok s -> filled m -> chunks s m -> exists s' a, sp_request sops s m = Ok (s', a) /\ sok s' /\ filled a.
Hypothesis s_received : forall s, sok s -> exists s' r, sp_received sops s = Ok (s', r) /\ sok s' /\
  (forall from sn, r = Some (Some (from, sn)) -> loads (sn_data sn)).

Notation receive := (receive_message codec rops sops cops app).

(** What does not change while messages are dealt with, and what is kept. *)
Record steady d : Prop := Steady {
  sd_phase : d_phase d = Started;
  sd_eph : d_ephemeral d = false;
  sd_actor : exists st, d_actor d = Some st /\ valid st;
  sd_snap : sok (d_snap d);
  sd_comm : cok (d_comm d);
}.
Definition at_rest d : Prop := idle (d_raft d) (d_applied d) (d_conf d).
Definition at_work d l : Prop := busy (d_raft d) (d_applied d) (d_conf d) l.
Definition stash_ok d : Prop := Forall (fun m => is_Some (rm_snapshot m) /\ rm_to m <> 0) (d_stashed d).

(** Sending the messages of consensus. *)
Lemma send_run ms : forall d, steady d -> stash_ok d -> Forall message_ok ms ->
  exists d', send_raft_messages codec cops d ms = Ok d' /\ steady d' /\ stash_ok d' /\ d_proposals d' = d_proposals d /\
    d_raft d' = d_raft d /\ d_applied d' = d_applied d /\ d_conf d' = d_conf d.
Proof.
  induction ms as [|m ms IH]; intros d Hd Hs Hm; cbn [send_raft_messages]; [by exists d|].
  apply Forall_cons in Hm as [Hm Hms]. destruct (decide (rm_type m = MsgSnapshot)) as [E|E].
  - destruct (IH (stash_snapshot d m)) as (d' & H1 & H2 & H3 & H4); [destruct Hd; by constructor| |done|].
    { unfold stash_ok in *. cbn. apply Forall_app. split; [done|]. constructor; [by apply Hm|done]. }
    by exists d'.
  - destruct (c_out (d_comm d) (system_message codec d m)) as (c & Ec & Hc); [apply Hd|by eexists|]. rewrite Ec. cbn [res_bind].
    destruct (IH (set_comm d c)) as (d' & H1 & H2 & H3 & H4); [destruct Hd; by constructor|done|done|]. by exists d'.
Qed.
(** Restoring a snapshot. *)
Lemma restore_run d sn l : steady d -> stash_ok d ->
  at_work d ((if sn_index sn =? 0 then [] else [DInstall sn]) ++ l) -> (sn_index sn <> 0 -> loads (sn_data sn)) ->
  exists d', restore_raft_snapshot rops app d sn = Ok d' /\ steady d' /\ stash_ok d' /\ at_work d' l /\ d_proposals d' = d_proposals d.
Proof.
  intros Hd Hs Hw Hl. unfold restore_raft_snapshot. destruct (N.eqb_spec (sn_index sn) 0) as [|Hn]; [by exists d|].
  destruct (ct_install _ _ _ _ _ _ _ CON _ _ _ _ _ Hw) as (r & Er & Hb). destruct (sd_actor _ Hd) as (st & Ea & Hv).
  destruct (ap_load _ _ _ _ _ APP st (sn_data sn) Hv (Hl Hn)) as (st' & El & Hv').
  cbn. rewrite Er. cbn. rewrite Ea. cbn. rewrite El. cbn. eexists. split; [done|]. split_and!; [|done..].
  destruct Hd. constructor; try done. by exists st'.
Qed.

(** Applying the entries of a batch. *)
Lemma entry_run d e l : steady d -> stash_ok d -> at_work d (DEntry e :: l) -> entry_ok codec applies e ->
  exists d', apply_entry codec rops app d e = Ok d' /\ steady d' /\ stash_ok d' /\ at_work d' l /\ d_proposals d' = d_proposals d.
Proof.
  intros Hd Hs Hw He. pose proof (ct_entry _ _ _ _ _ _ _ CON _ _ _ _ _ Hw) as H. unfold change_of in H. unfold apply_entry.
  destruct He as [He|He]. { rewrite He in *. exists (set_applied d (re_index e)). split_and!; try done. destruct Hd; by constructor. }
  destruct (re_data e) as [|x b] eqn:Ed. { exists (set_applied d (re_index e)). split_and!; try done. destruct Hd; by constructor. }
  destruct (re_type e) eqn:Et.
  all: try (destruct He as (en & Een & [i Ei] & Hap);
    unfold apply_event_entry; rewrite Ed, Een; cbn; rewrite Ei; cbn; destruct (sd_actor _ Hd) as (st & Ea & Hv); rewrite Ea; cbn;
    destruct (ap_apply _ _ _ _ _ APP st (EventContext (re_index e) (ei_replica i =? d_id d)) (ActorEvent (ei_entry i) (en_contents en)) Hv Hap) as (st' & out & El & Hv');
    rewrite El; cbn; eexists; (split; [done|]); split_and!; [destruct Hd; constructor; try done; by exists st'|done..]).
  destruct He as [c Ec]. unfold apply_change_entry. rewrite Ed, Ec. rewrite Ec in H. destruct H as (r & cs & Er & Hb). cbn. rewrite Er. cbn.
  eexists. split; [done|]. split_and!; [destruct Hd; by constructor|done..].
Qed.
Lemma entries_run es : forall d l, steady d -> stash_ok d -> at_work d (map DEntry es ++ l) -> Forall (entry_ok codec applies) es ->
  exists d', apply_entries codec rops app d es = Ok d' /\ steady d' /\ stash_ok d' /\ at_work d' l /\ d_proposals d' = d_proposals d.
Proof.
  induction es as [|e es IH]; intros d l Hd Hs Hw He; cbn [apply_entries]; [by exists d|]. apply Forall_cons in He as [He Hes].
  destruct (entry_run d e (map DEntry es ++ l)) as (d1 & E1 & H1 & H2 & H3 & H4); [done..|]. rewrite E1. cbn [res_bind].
  destruct (IH d1 l) as (d2 & E2 & K1 & K2 & K3 & K4); [done..|]. exists d2. rewrite K4. done.
Qed.
Lemma committed_run es d l : steady d -> stash_ok d -> at_work d (map DEntry (merge_sort entry_le es) ++ l) -> Forall (entry_ok codec applies) es ->
  exists d', apply_committed codec rops app d es = Ok d' /\ steady d' /\ stash_ok d' /\ at_work d' l /\ d_proposals d' = d_proposals d.
Proof.
  intros Hd Hs Hw He. apply entries_run; [done..|]. by rewrite merge_sort_Permutation.
Qed.

Lemma advance_run d : steady d -> stash_ok d -> at_rest d ->
  exists d', advance_raft codec rops cops app d = Ok d' /\ steady d' /\ stash_ok d' /\ at_rest d' /\ d_proposals d' = d_proposals d.
Proof.
  intros Hd Hs Hr. unfold advance_raft.
  set (d1 := if negb (d_lameduck d) then trigger_raft_tick rops d else d).
  assert (steady d1 /\ stash_ok d1 /\ at_rest d1 /\ d_proposals d1 = d_proposals d) as (A1 & A2 & A3 & A4).
  { unfold d1, trigger_raft_tick. destruct (negb (d_lameduck d)); [|by split_and!].
    destruct (d_tick_period d <=? _); [|by split_and!]. split_and!; [destruct Hd; by constructor|done| |done].
    by apply (ct_tick _ _ _ _ _ _ _ CON). }
  clearbody d1. clear Hd Hs Hr. rewrite <- A4. clear A4 d.
  destruct (ra_has_ready rops (d_raft d1)) eqn:Hready; cbn [negb]; [|by exists d1].
  destruct (ct_ready _ _ _ _ _ _ _ CON _ _ _ A3 Hready) as (r & rd & -> & (R1 & R2 & R3 & R4) & Hb).
  destruct (send_run (rd_messages rd) (set_raft d1 r)) as (d2 & -> & B1 & B2 & B3 & B4 & B5 & B6); [destruct A1; by constructor|done|done|].
  cbn [res_bind].
  assert (at_work d2 (duties rd)) as Hw by (unfold at_work; rewrite B4, B5, B6; exact Hb).
  unfold duties in Hw.
  set (d3 := match rd_hard rd with Some h => set_raft d2 (ra_set_hard rops (d_raft d2) h) | None => d2 end).
  assert (steady d3 /\ stash_ok d3 /\ d_proposals d3 = d_proposals d1 /\ at_work d3 ((if sn_index (rd_snapshot rd) =? 0 then [] else [DInstall (rd_snapshot rd)]) ++
    map DEntry (merge_sort entry_le (rd_committed rd)) ++ match rd_entries rd with [] => [] | es => [DAppend es] end ++ [DAdvance (rd_number rd)]))
    as (C1 & C2 & C3 & C4).
  { unfold d3. destruct (rd_hard rd) as [h|]; [|by rewrite B3]. split_and!; [destruct B1; by constructor|done|by cbn; rewrite B3|].
    by apply (ct_hard _ _ _ _ _ _ _ CON). }
  clearbody d3. clear Hw Hb B1 B2 B3 B4 B5 B6 d2.
  destruct (restore_run d3 (rd_snapshot rd) _ C1 C2 C4 R4) as (d4 & -> & D1 & D2 & D3 & D4). cbn [res_bind].
  destruct (committed_run (rd_committed rd) d4 _ D1 D2 D3 R3) as (d5 & -> & E1 & E2 & E3 & E4). cbn [res_bind].
  destruct (send_run (rd_persisted rd) d5 E1 E2 R2) as (d6 & -> & F1 & F2 & F3 & F4 & F5 & F6). cbn [res_bind].
  assert (exists d7, match rd_entries rd with [] => Ok d6 | es => let! r := or_fail PalActor (ra_append rops (d_raft d6) es) in Ok (set_raft d6 r) end = Ok d7 /\
    steady d7 /\ stash_ok d7 /\ d_proposals d7 = d_proposals d1 /\ at_work d7 [DAdvance (rd_number rd)]) as (d7 & -> & G1 & G2 & G3 & G4).
  { unfold at_work in *. rewrite <- F4, <- F5, <- F6 in E3.
    destruct (rd_entries rd) as [|x es]. { exists d6. split_and!; try done. by rewrite F3, E4, D4, C3. }
    destruct (ct_append _ _ _ _ _ _ _ CON _ _ _ _ _ E3) as (r' & -> & Hb'). cbn. eexists. split; [done|].
    split_and!; [destruct F1; by constructor|done|cbn; by rewrite F3, E4, D4, C3|done]. }
  cbn [res_bind]. destruct (ct_advance _ _ _ _ _ _ _ CON _ _ _ _ G4) as (r8 & lr & -> & (L1 & L2) & Hb8).
  destruct (send_run (lr_messages lr) (set_raft d7 r8)) as (d9 & -> & H1 & H2 & H3 & H4 & H5 & H6); [destruct G1; by constructor|done|done|]. cbn [res_bind].
  destruct (committed_run (lr_committed lr) d9 [DApplied]) as (d10 & -> & I1 & I2 & I3 & I4); [done..| |done|].
  { unfold at_work. rewrite H4, H5, H6. exact Hb8. }
  cbn [res_bind]. eexists. split; [done|]. split_and!; [destruct I1; by constructor|done| |cbn; by rewrite I4, H3].
  by apply (ct_applied _ _ _ _ _ _ _ CON).
Qed.
Lemma create_run d : steady d -> stash_ok d -> at_rest d ->
  exists d', maybe_create_snapshot rops app d = Ok d' /\ steady d' /\ stash_ok d' /\ at_rest d' /\ d_proposals d' = d_proposals d.
Proof.
  intros Hd Hs Hr. unfold maybe_create_snapshot. destruct (ra_should_snapshot rops (d_raft d) (d_applied d) (d_conf d)) eqn:E; cbn [negb]; [|by exists d].
  destruct (sd_actor _ Hd) as (st & Ea & Hv). rewrite Ea. cbn. destruct (ap_save _ _ _ _ _ APP st Hv) as (data & ->). cbn.
  destruct (ct_create _ _ _ _ _ _ _ CON _ _ _ data Hr E) as (r & -> & Hr'). cbn. eexists. split; [done|].
  split_and!; [destruct Hd; constructor; try done; by exists st|done..].
Qed.
Lemma report_rest (l : list (N * snap_status)) : forall r n cs, idle r n cs -> idle (report_all rops r l) n cs.
Proof.
  unfold report_all. induction l as [|[id s] l IH]; intros r n cs H; cbn; [done|]. apply IH. by apply (ct_report _ _ _ _ _ _ _ CON).
Qed.
Lemma leader_run d : steady d -> stash_ok d -> at_rest d ->
  exists d', stash_leader_state rops sops cops d = Ok d' /\ steady d' /\ stash_ok d' /\ at_rest d' /\ d_proposals d' = d_proposals d.
Proof.
  intros Hd Hs Hr. unfold stash_leader_state. cbn. destruct (decide _) as [_|_].
  { eexists. split; [done|]. split_and!; try done. destruct Hd; by constructor. }
  unfold update_snapshot_cluster. cbn. destruct (decide (d_phase d = Started)) as [_|n]; [|by destruct n; apply Hd].
  destruct (s_cluster (d_snap d) (rf_leader (get_raft_state rops d)) (rf_term (get_raft_state rops d)) (rf_config (get_raft_state rops d)) (sd_snap _ Hd)) as (s & l & -> & Hs').
  cbn. eexists. split; [done|]. split_and!; [destruct Hd; constructor; try done; by apply c_cluster|done|by apply report_rest|done].
Qed.
Lemma machine_run d : steady d -> stash_ok d -> at_rest d ->
  exists d', process_state_machine codec rops sops cops app d = Ok d' /\ steady d' /\ stash_ok d' /\ at_rest d' /\ d_proposals d' = d_proposals d.
Proof.
  intros Hd Hs Hr. unfold process_state_machine. destruct (ra_initialized rops (d_raft d)); [|by exists d].
  destruct (advance_run d Hd Hs Hr) as (d1 & -> & A1 & A2 & A3 & A4). cbn [res_bind].
  destruct (create_run d1 A1 A2 A3) as (d2 & -> & B1 & B2 & B3 & B4). cbn [res_bind].
  destruct (leader_run d2 B1 B2 B3) as (d3 & -> & C1 & C2 & C3 & C4). exists d3. split_and!; try done. by rewrite C4, B4.
Qed.
Lemma start_all_run ms : forall s, sok s -> Forall (fun m => is_Some (rm_snapshot m) /\ rm_to m <> 0) ms ->
  exists s', start_all sops s ms = Ok s' /\ sok s'.
Proof.
  induction ms as [|m ms IH]; intros s Hs Hm; cbn [start_all]; [by exists s|]. apply Forall_cons in Hm as [[[sn Hsn] Hto] Hms]. rewrite Hsn. cbn.
  destruct (s_start s (rm_to m) sn Hs Hto) as (s' & -> & Hs'). cbn. by apply IH.
Qed.
Lemma drain_run n : forall s, sok s -> exists s' out, drain sops n s = Ok (s', out) /\ sok s' /\ Forall filled out.
Proof.
  induction n as [|n IH]; intros s Hs; cbn [drain]; [by eexists _, _|].
  destruct (s_next s Hs) as (s' & r & -> & Hs' & Hf). cbn. destruct r as [m|]; [|by eexists _, _].
  destruct (IH s' Hs') as (s2 & out & -> & Hs2 & Hout). cbn. eexists _, _. split; [done|]. split; [done|]. constructor; [by apply Hf|done].
Qed.
Lemma send_all_run ms : forall c, cok c -> Forall filled ms -> exists c', send_all cops c ms = Ok c' /\ cok c'.
Proof.
  induction ms as [|m ms IH]; intros c Hc Hm; cbn [send_all]; [by exists c|]. apply Forall_cons in Hm as [Hm Hms].
  destruct (c_out c (OutMsg m false) Hc Hm) as (c' & -> & Hc'). cbn. by apply IH.
Qed.
Lemma sending_run d : steady d -> stash_ok d -> at_rest d ->
  exists d', process_snapshot_sending rops sops cops d = Ok d' /\ steady d' /\ d_stashed d' = [] /\ at_rest d' /\ d_proposals d' = d_proposals d.
Proof.
  intros Hd Hs Hr. unfold process_snapshot_sending. cbn. destruct (s_role (d_snap d) (d_instant d) (sd_snap _ Hd)) as ([] & ->); cbn.
  - destruct (start_all_run (d_stashed d) (d_snap d) (sd_snap _ Hd) Hs) as (s & -> & Hs1). cbn.
    destruct (drain_run (sp_drain sops s) s Hs1) as (s' & out & -> & Hs2 & Ho). cbn.
    destruct (send_all_run out (d_comm d) (sd_comm _ Hd) Ho) as (c & -> & Hc). cbn. eexists. split; [done|].
    split_and!; try done. destruct Hd; by constructor.
  - eexists. split; [done|]. split_and!; try done; [destruct Hd; by constructor|]. unfold at_rest in *. cbn. clear Hs. revert Hr. generalize (d_raft d).
    induction (d_stashed d) as [|m ms IH]; intros r H; cbn; [done|]. apply IH. by apply (ct_report _ _ _ _ _ _ _ CON).
Qed.
Lemma progress_run d : steady d -> at_rest d ->
  exists d', process_snapshot_progress rops sops d = Ok d' /\ steady d' /\ at_rest d' /\ d_proposals d' = d_proposals d /\ d_stashed d' = d_stashed d.
Proof.
  intros Hd Hr. unfold process_snapshot_progress. destruct (decide (d_phase d = Started)) as [_|n]; [|by destruct n; apply Hd].
  destruct (s_role (d_snap d) (d_instant d) (sd_snap _ Hd)) as ([] & ->); cbn.
  - destruct (s_sent (d_snap d) (sd_snap _ Hd)) as (s & r & -> & Hs'). cbn. destruct r as [[id st]|].
    + eexists. split; [done|]. split_and!; try done; [destruct Hd; by constructor|]. by apply (ct_report _ _ _ _ _ _ _ CON).
    + eexists. split; [done|]. split_and!; try done. destruct Hd; by constructor.
  - destruct (s_received (d_snap d) (sd_snap _ Hd)) as (s & r & -> & Hs' & Hl). cbn. destruct r as [[[id sn]|]|].
    + eexists. split; [done|]. split_and!; try done; [destruct Hd; by constructor|]. apply (ct_received _ _ _ _ _ _ _ CON); [done|by eapply Hl].
    + eexists. split; [done|]. split_and!; try done. destruct Hd; by constructor.
    + eexists. split; [done|]. split_and!; try done. destruct Hd; by constructor.
Qed.

(** Between calls. *)
Record resting d : Prop := Resting {
  re_steady : steady d;
  re_rest : at_rest d;
  re_stashed : d_stashed d = [];
  re_proposals : d_proposals d = [];
}.
(** Proposals are only made while consensus accepts them. *)
Lemma replication_run d : steady d -> at_rest d -> d_stashed d = [] ->
  (d_proposals d = [] \/ (exists p, d_proposals d = [p] /\ event_ok codec applies p) /\ ra_leader rops (d_raft d) = true) ->
  exists d', run_replication codec rops sops cops app d = Ok d' /\ resting d'.
Proof.
  intros Hd Hr Hst Hp. unfold run_replication. rewrite (sd_eph _ Hd). unfold process_proposals.
  assert (exists d1, propose_all rops (set_proposals d []) (d_proposals d) = Ok d1 /\ steady d1 /\ at_rest d1 /\ d_stashed d1 = [] /\ d_proposals d1 = [])
    as (d1 & -> & A1 & A2 & A3 & A4).
  { destruct Hp as [->|[(p & -> & Hev) Hl]]; cbn.
    - eexists. split; [done|]. split_and!; try done. destruct Hd; by constructor.
    - unfold make_raft_proposal. cbn. destruct (ct_propose _ _ _ _ _ _ _ CON _ _ _ p Hr Hl Hev) as (r & -> & Hr'). cbn. eexists. split; [done|].
      split_and!; try done. destruct Hd; by constructor. }
  cbn [res_bind]. destruct (progress_run d1 A1 A2) as (d2 & -> & B1 & B2 & B3 & B4). cbn [res_bind].
  destruct (machine_run d2 B1) as (d3 & -> & C1 & C2 & C3 & C4); [unfold stash_ok; by rewrite B4, A3|done|]. cbn [res_bind].
  destruct (sending_run d3 C1 C2 C3) as (d4 & -> & D1 & D2 & D3 & D4). exists d4. split; [done|]. constructor; try done. by rewrite D4, C4, B3.
Qed.

Lemma app_run d m : resting d -> (forall c, m = Some c -> commands c /\ d_core_leader d = ra_leader rops (d_raft d)) ->
  exists d', run_app codec cops app d m = Ok d' /\ steady d' /\ at_rest d' /\ d_stashed d' = [] /\
    (d_proposals d' = [] \/ (exists p, d_proposals d' = [p] /\ event_ok codec applies p) /\ ra_leader rops (d_raft d') = true).
Proof.
  intros [Hd Hr Hst Hp] Hm. unfold run_app, process_app, check_phase. destruct (decide (d_phase d = Started)) as [_|n]; [|by destruct n; apply Hd]. cbn.
  destruct (sd_actor _ Hd) as (st & Ea & Hv). rewrite Ea. cbn.
  destruct (ap_command _ _ _ _ _ APP (context d) st m Hv) as (st' & out & -> & Hv' & Hev); [intros c Hc; by apply Hm|]. cbn.
  destruct (co_event out) as [ev|] eqn:Eev.
  - rewrite (sd_eph _ Hd). cbn. destruct (Hev ev eq_refl) as ([c ->] & Hl & Hap). eexists. split; [done|]. split_and!; try done.
    + destruct Hd; constructor; try done; [by exists st'|by apply c_tick].
    + right. split; [eexists; rewrite Hp; split; [done|]; eexists; split; [apply encodes|]; split; [by eexists|done]|]. cbn. destruct (Hm c eq_refl) as [_ <-]. exact Hl.
  - cbn. eexists. split; [done|]. split_and!; try done; [|by left].
    destruct Hd; constructor; try done; [by exists st'|by apply c_tick].
Qed.
Lemma flush_run d : resting d -> exists d' out, flush cops d = Ok (d', out) /\ resting d'.
Proof.
  intros [Hd Hr Hst Hp]. unfold flush. destruct (c_take (d_comm d) (sd_comm _ Hd)) as (c & ws & -> & Hc). cbn. eexists _, _. split; [done|].
  constructor; try done. destruct Hd; by constructor.
Qed.
Lemma preset_run d t : resting d -> resting (preset rops d t).
Proof. intros [Hd Hr Hst Hp]. constructor; try done. destruct Hd; by constructor. Qed.

Lemma rest_run d m : resting d -> (forall c, m = Some c -> commands c /\ d_core_leader d = ra_leader rops (d_raft d)) ->
  exists d' out, (let! d := run_app codec cops app d m in let! d := run_replication codec rops sops cops app d in flush cops d) = Ok (d', out) /\ resting d'.
Proof.
  intros Hd Hm. destruct (app_run d m Hd Hm) as (d1 & -> & A1 & A2 & A3 & A4). cbn [res_bind].
  destruct (replication_run d1 A1 A2 A3 A4) as (d2 & -> & B). cbn [res_bind]. by apply flush_run.
Qed.

Lemma set_snap_resting d s : resting d -> sok s -> resting (set_snap d s).
Proof. intros [K1 K2 K3 K4] Hs. constructor; try done. destruct K1; by constructor. Qed.
Lemma set_comm_resting d c : resting d -> cok c -> resting (set_comm d c).
Proof. intros [K1 K2 K3 K4] Hs. constructor; try done. destruct K1; by constructor. Qed.
Lemma stash_resting d m : resting d -> resting (stash d m).
Proof. intros [K1 K2 K3 K4]. constructor; try done. destruct K1; by constructor. Qed.

Lemma change_run d q : resting d -> exists d', process_change rops d q = Ok d' /\ resting d'.
Proof.
  intros Hd. pose proof Hd as [K1 K2 K3 K4]. unfold process_change, check_phase, check_non_ephemeral.
  destruct (decide (d_phase d = Started)) as [_|n]; [|by destruct n; apply K1]. rewrite (sd_eph _ K1). cbn.
  assert (forall node t, exists d' s, make_config_change rops d node t = Ok (d', s) /\ resting d') as H.
  { intros node t. unfold make_config_change. destruct (ct_propose_change _ _ _ _ _ _ _ CON _ _ _ (ConfChange t node) K2) as (r & e & -> & He & Hr).
    assert (resting (set_raft d r)) by (constructor; try done; destruct K1; by constructor).
    destruct e as [[]|]; [by eexists _, _|done|by eexists _, _]. }
  destruct (cr_type q =? 1); [|destruct (cr_type q =? 2)].
  - destruct (H (cr_replica q) AddNode) as (d' & s & -> & Hd'). cbn. eexists. split; [done|]. by apply stash_resting.
  - destruct (H (cr_replica q) RemoveNode) as (d' & s & -> & Hd'). cbn. eexists. split; [done|]. by apply stash_resting.
  - cbn. eexists. split; [done|]. by apply stash_resting.
Qed.

Lemma dispatch_run d0 t m : resting d0 -> delivery_ok codec cops commands steps chunks d0 m ->
  exists d', dispatch codec rops sops cops app (preset rops d0 t) m = Ok d' /\ resting d' /\
    (forall c, app_message m = Some c -> commands c /\ d_core_leader d' = ra_leader rops (d_raft d')).
Proof.
  intros Hd0 Hm. pose proof (preset_run d0 t Hd0) as Hd.
  assert (d_comm (preset rops d0 t) = d_comm d0) as Ec by done. assert (d_raft (preset rops d0 t) = d_raft d0) as Er by done.
  assert (d_snap (preset rops d0 t) = d_snap d0) as Es by done.
  assert (d_core_leader (preset rops d0 t) = ra_leader rops (d_raft (preset rops d0 t))) as El by done.
  revert Ec Er Es El Hd. generalize (preset rops d0 t). intros d Ec Er Es El Hd.
  pose proof Hd as [K1 K2 K3 K4]. pose proof (sd_phase _ K1) as P. pose proof (sd_eph _ K1) as E.
  destruct m as [q| | |q| |pm|s n| |hm|c]; cbn [dispatch app_message delivery_ok] in *; try done.
  - exists (set_lameduck d true). split_and!; try done. constructor; try done. destruct K1; by constructor.
  - destruct (change_run d q Hd) as (d' & -> & Hd'). by exists d'.
  - unfold process_check, check_phase, check_non_ephemeral. destruct (decide (d_phase d = Started)) as [_|]; [|done]. rewrite E. cbn.
    eexists. split; [done|]. split; [|done]. constructor; try done. destruct K1; by constructor.
  - destruct Hm as [Hf Hm]. rewrite <- Ec, <- Er, <- Es in Hm.
    destruct (c_peer (d_comm d) pm (sd_comm _ K1) Hf) as (c' & r & Ein & Hc & Hr).
    assert (resting (set_comm d c')) as Hd' by (by apply set_comm_resting).
    assert (forall m', r = Some (IPeer m') -> filled m' -> pm_kind m' = pm_kind pm -> match pm_kind pm with
      | KSystem => forall p rm, pm_payload m' = Some p -> dec_rmsg codec (pl_contents p) = Some rm -> steps (d_raft d) rm
      | KSnapshotRequest => chunks (d_snap d) m'
      | KSnapshotResponse => True
      end) as Hm'.
    { intros m' -> [p Hp] Hk. pose proof (Hm _ _ _ Ein Hp) as X. rewrite Hk in X. destruct (pm_kind pm); try done. intros p' rm Hp'. rewrite Hp in Hp'. injection Hp' as <-. apply X. }
    clear Hm. destruct (pm_kind pm) eqn:Ek.
    + unfold process_system, check_phase, check_non_ephemeral. destruct (decide (d_phase d = Started)) as [_|]; [|done]. rewrite E. cbn. rewrite Ein. cbn.
      destruct Hr as [->|(m' & -> & Hk & [p Hp])]; [by exists (set_comm d c')|]. rewrite Hk, Hp. cbn. unfold make_raft_step.
      specialize (Hm' m' eq_refl ltac:(by exists p) Hk). cbn in Hm'.
      destruct (dec_rmsg codec (pl_contents p)) as [rm|] eqn:Edec; [|by exists (set_comm d c')]. specialize (Hm' p rm Hp Edec). cbn.
      destruct (ct_step _ _ _ _ _ _ _ CON _ _ _ rm K2 Hm') as (r' & -> & Hs).
      eexists. split; [done|]. split; [|done]. destruct Hd' as [[] ? ? ?]. by constructor.
    + unfold process_snapshot_request, check_non_ephemeral. rewrite E. cbn. rewrite Ein. cbn.
      destruct Hr as [->|(m' & -> & Hk & Hp)]; [by exists (set_comm d c')|]. rewrite Hk. cbn. specialize (Hm' m' eq_refl Hp Hk).
      destruct (s_role (d_snap d) (d_instant d) (sd_snap _ K1)) as ([] & ->); cbn.
      * destruct (s_unexpected (d_snap d) m' (sd_snap _ K1) Hp) as (a & -> & Ha). cbn.
        destruct (c_out c' (OutMsg a false) Hc Ha) as (c2 & -> & Hc2). cbn. eexists. split; [done|]. split; [|done]. by apply set_comm_resting.
      * destruct (s_request (d_snap d) m' (sd_snap _ K1) Hp Hm') as (s & a & -> & Hs & Ha). cbn.
        destruct (c_out c' (OutMsg a false) Hc Ha) as (c2 & -> & Hc2). cbn. eexists. split; [done|]. split; [|done].
        apply set_comm_resting; [|done]. by apply set_snap_resting.
    + unfold process_snapshot_response, check_non_ephemeral. rewrite E. cbn. rewrite Ein. cbn.
      destruct Hr as [->|(m' & -> & Hk & Hp)]; [by exists (set_comm d c')|]. rewrite Hk. cbn.
      destruct (s_role (d_snap d) (d_instant d) (sd_snap _ K1)) as ([] & ->); cbn; [|by exists (set_comm d c')].
      destruct (s_response (d_snap d) (pm_sender m') (pm_delivery m') (Some m') (sd_snap _ K1)) as (s & -> & Hs); [by intros ? [= <-]|]. cbn.
      eexists. split; [done|]. split; [|done]. by apply set_snap_resting.
  - unfold process_snapshot_failure, check_non_ephemeral. rewrite E. cbn.
    destruct (s_role (d_snap d) (d_instant d) (sd_snap _ K1)) as ([] & ->); cbn; [|by exists d].
    destruct (s_response (d_snap d) s n None (sd_snap _ K1)) as (s' & -> & Hs); [done|]. cbn. eexists. split; [done|]. split; [|done]. by apply set_snap_resting.
  - unfold process_get_state, check_phase. destruct (decide (d_phase d = Started)) as [_|]; [|done]. rewrite E. cbn. eexists. split; [done|]. split; [|done]. by apply stash_resting.
  - unfold process_handshake, check_phase. destruct (decide (d_phase d = Started)) as [_|]; [|done]. cbn.
    destruct (c_handshake (d_comm d) hm (sd_comm _ K1)) as (c' & r & -> & Hc). cbn. eexists. split; [done|]. split; [|done]. by apply set_comm_resting.
  - exists d. split; [done|]. split; [done|]. by intros ? [= <-].
Qed.

Lemma receive_run d t m : resting d -> call_ok codec cops commands steps chunks d m ->
  exists d' out, receive d t m = Ok (d', out) /\ resting d'.
Proof.
  intros Hd Hm. unfold receive_message. destruct m as [[m|]|].
  - destruct (dispatch_run d t m Hd Hm) as (d1 & -> & H1 & H2). cbn [res_bind]. by apply rest_run.
  - eexists _, _. split; [done|]. by apply preset_run.
  - cbn [res_bind]. apply rest_run; [by apply preset_run|done].
Qed.

(** The start. *)
Lemma start_run (r0 : RS) (s0 : SP) (c0 : CS) q t :
  (forall id cfg, id <> 0 -> (forall size pending, cfg = Some (size, pending) -> size <> 0) ->
     exists s', sp_init sops s0 id cfg = Ok s' /\ sok s') ->
  (forall id retry timeout, id <> 0 -> cok (co_init cops c0 id retry timeout)) ->
  start_ok rops app r0 valid idle q t ->
  exists d' out, receive (driver_new r0 s0 c0) t (Some (Some (HStart q))) = Ok (d', out) /\ resting d'.
Proof.
  intros Hsi Hci (Hid & He & Hen & Hcfg & st & Ei & Hv & Hraft). unfold receive_message. cbn [dispatch].
  assert (exists d', process_start rops sops cops app (preset rops (driver_new r0 s0 c0) t) q = Ok d' /\ resting d') as (d' & -> & Hd').
  { unfold process_start, check_phase. cbn.
    unfold context. cbn. rewrite (N.max_r 0 t) by lia. rewrite Ei. cbn. rewrite He. destruct (ap_save _ _ _ _ _ APP st Hv) as (data & Ed). rewrite Ed. cbn.
    destruct (Hsi (sr_id q) (match sr_raft q with Some c => (fun s => (sc_chunk_size s, sc_max_pending s)) <$> rc_snapshot c | None => None end) Hid)
      as (s' & -> & Hs').
    { intros size pending. destruct (sr_raft q) as [c|] eqn:Eq; [|done]. destruct (rc_snapshot c) as [s|] eqn:Es; [|done]. intros [= <- <-]. by eapply Hcfg. }
    cbn. unfold initialize_raft_node. rewrite Hen. destruct (sr_raft q) as [c|] eqn:Eq; [destruct (rc_snapshot c) as [s|] eqn:Es|].
    all: cbn; match goal with |- context [ra_init _ _ _ _ _ _ ?n] => destruct (Hraft data n Ed) as (r' & -> & Hi) end; cbn.
    all: destruct (sr_leader q); cbn; (eexists; split; [done|]); constructor; try done; constructor; try done; cbn; try (by exists st); by apply Hci. }
  cbn [res_bind]. by apply rest_run.
Qed.
End Run.
