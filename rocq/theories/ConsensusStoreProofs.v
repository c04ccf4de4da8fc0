From Verif Require Import Base StorageModel StorageSpec StorageProofs SnapshotModel CommModel ActorModel DriverModel DriverSpec DriverProofs DriverBatchProofs ConsensusModel ConsensusSpec ConsensusProofs.

Section Count.
Context {RS SP CS ST REQ RESP : Type}.
Variable codec : driver_codec.
Variable rops : raft_ops RS.
Variable sops : snap_ops SP.
Variable cops : comm_ops CS REQ RESP.
Variable app : actor ST.
Notation DR := (rdriver RS SP CS ST REQ RESP).
Notation rr := (rec_raft rops).
Notation rc := (rec_comm cops).
Notation ra := (rec_actor app).
Implicit Types d : DR.
Notation cnt d := (d_snapshot_count d).
Opaque rec_raft rec_comm rec_actor.

Ltac open_call H := repeat match type of H with
  | (let! _ := _ in _) = Ok _ => apply bind_ok in H as (?&?&H)
  | match ?x with _ => _ end = Ok _ => destruct x eqn:?; try done
  | Ok _ = Ok _ => injection H as <-
  | Ok _ = Ok _ => injection H as <- <-
  end.
Ltac open_all := repeat match goal with
  | H : (let! _ := _ in _) = Ok _ |- _ => apply bind_ok in H as (?&?&H)
  | H : match ?x with _ => _ end = Ok _ |- _ => destruct x eqn:?; try done
  | H : Ok _ = Ok _ |- _ => injection H as <-
  | H : Ok _ = Ok _ |- _ => injection H as <- <-
  end; simpl in *; try done.
Lemma apply_entry_count d e d' : apply_entry codec rr ra d e = Ok d' -> cnt d' = cnt d.
Proof using. unfold apply_entry, apply_event_entry, apply_change_entry. intros H. open_call H; done. Qed.
Lemma apply_entries_count es : forall d d', apply_entries codec rr ra d es = Ok d' -> cnt d' = cnt d.
Proof using.
  induction es as [|e es IH]; intros d d' H; simpl in H; [by injection H as <-|].
  apply bind_ok in H as (d1&H1&H2). apply IH in H2. apply apply_entry_count in H1. congruence.
Qed.
Lemma send_count ms : forall d d', send_raft_messages codec rc d ms = Ok d' -> cnt d' = cnt d.
Proof using.
  induction ms as [|m ms IH]; intros d d' H; simpl in H; [by injection H as <-|].
  destruct (decide _); [by apply IH in H|]. apply bind_ok in H as (c&_&H). by apply IH in H.
Qed.
Lemma restore_count d s d' : restore_raft_snapshot rr ra d s = Ok d' -> cnt d' = cnt d.
Proof using. unfold restore_raft_snapshot. intros H. open_call H; done. Qed.
Lemma advance_count d d' : advance_raft codec rr rc ra d = Ok d' -> cnt d' = cnt d.
Proof using.
  unfold advance_raft. set (d0 := if negb (d_lameduck d) then trigger_raft_tick rr d else d). intros H.
  assert (H0 : cnt d0 = cnt d).
  { clear H. subst d0. unfold trigger_raft_tick. destruct (negb (d_lameduck d)); [|done]. by destruct (d_tick_period d <=? _). }
  clearbody d0. destruct (ra_has_ready rr (d_raft d0)); simpl in H; [|by injection H as <-].
  destruct (ra_get_ready rr (d_raft d0)) as [r rd].
  apply bind_ok in H as (d1&S1&H). apply send_count in S1. simpl in S1.
  apply bind_ok in H as (d2&S2&H). apply restore_count in S2.
  apply bind_ok in H as (d3&S3&H). apply apply_entries_count in S3.
  apply bind_ok in H as (d4&S4&H). apply send_count in S4.
  apply bind_ok in H as (d5&S5&H).
  destruct (ra_advance rr (d_raft d5) (rd_number rd)) as [r' lr].
  apply bind_ok in H as (d6&S6&H). apply send_count in S6. simpl in S6.
  apply bind_ok in H as (d7&S7&[= <-]). apply apply_entries_count in S7. simpl.
  assert (E5 : cnt d5 = cnt d4) by (destruct (rd_entries rd); open_call S5; done).
  assert (E2 : cnt d2 = cnt d1) by by destruct (rd_hard rd).
  congruence.
Qed.
Lemma state_machine_count d d' : process_state_machine codec rr sops rc ra d = Ok d' -> cnt d' = cnt d.
Proof using.
  unfold process_state_machine. destruct (ra_initialized rr (d_raft d)); [|by intros [= <-]].
  intros H. apply bind_ok in H as (d1&H1&H). apply bind_ok in H as (d2&H2&H). apply advance_count in H1.
  assert (E2 : cnt d2 = cnt d1) by (unfold maybe_create_snapshot in H2; open_call H2; done).
  assert (E3 : cnt d' = cnt d2).
  { unfold stash_leader_state in H. destruct (decide _); [by injection H as <-|].
    apply bind_ok in H as (d3&H3&[= <-]). simpl. unfold update_snapshot_cluster in H3. open_call H3; done. }
  congruence.
Qed.
Lemma propose_count ps : forall d d', propose_all rr d ps = Ok d' -> cnt d' = cnt d.
Proof using.
  induction ps as [|p ps IH]; intros d d' H; simpl in H; [by injection H as <-|].
  apply bind_ok in H as (d1&H1&H2). unfold make_raft_proposal in H1. open_call H1. by apply IH in H2.
Qed.
Lemma replication_count d d' : run_replication codec rr sops rc ra d = Ok d' -> cnt d' = cnt d.
Proof using.
  unfold run_replication. destruct (d_ephemeral d); [by intros [= <-]|]. intros H.
  apply bind_ok in H as (d1&H1&H). apply bind_ok in H as (d2&H2&H). apply bind_ok in H as (d3&H3&H).
  unfold process_proposals in H1. apply propose_count in H1. simpl in H1. apply state_machine_count in H3.
  assert (E2 : cnt d2 = cnt d1) by (unfold process_snapshot_progress in H2; open_call H2; done).
  assert (E4 : cnt d' = cnt d3) by (unfold process_snapshot_sending in H; open_call H; done).
  congruence.
Qed.
Lemma run_app_count d m d' : run_app codec rc ra d m = Ok d' -> cnt d' = cnt d.
Proof using.
  unfold run_app. intros H. destruct (decide _); [|by injection H as <-]. apply bind_ok in H as (d1&H&[= <-]). simpl.
  unfold process_app in H. open_call H; done.
Qed.
Lemma dispatch_count d m d' : dispatch codec rr sops rc ra d m = Ok d' -> is_start m = false -> cnt d' = cnt d.
Proof using.
  intros H Hm. destruct m as [q| | |q| |p| | |h|a]; try done; simpl in H.
  - unfold process_stop in H. open_all.
  - by injection H as <-.
  - unfold process_change, make_config_change in H. open_all.
  - unfold process_check in H. open_all.
  - destruct (pm_kind p).
    + unfold process_system, make_raft_step in H. open_all.
    + unfold process_snapshot_request in H. open_all.
    + unfold process_snapshot_response in H. open_all.
  - unfold process_snapshot_failure in H. open_all.
  - unfold process_get_state in H. open_all.
  - unfold process_handshake in H. open_all.
  - by injection H as <-.
Qed.
End Count.
Transparent rec_raft rec_comm rec_actor.

Section Started.
Context {RS SP CS ST REQ RESP : Type}.
Variable codec : driver_codec.
Variable rops : raft_ops RS.
Variable sops : snap_ops SP.
Variable cops : comm_ops CS REQ RESP.
Variable app : actor ST.
Notation DR := (rdriver RS SP CS ST REQ RESP).
Notation rr := (rec_raft rops).
Notation rc := (rec_comm cops).
Notation ra := (rec_actor app).
Implicit Types d : DR.
Notation rcv := (receive codec rops sops cops app).
Notation born := (reaches codec rops sops cops app).

Lemma created_count r s c xs : forall d outs, born r s c xs d outs -> d_phase d = Created -> d_snapshot_count d = 1000.
Proof using.
  induction xs as [|x xs IH] using rev_ind; intros d outs B Hp.
  - destruct B as [_ [= <- <-]]. done.
  - apply born_snoc in B as (d1&o1&out&B&H&->). pose proof (born_inv _ _ _ _ _ _ _ _ _ _ _ B) as I.
    destruct x as [t m]. destruct (phase_step _ _ _ _ _ _ _ _ _ _ I H) as (Hq&_). rewrite Hp in Hq.
    assert (Hm : m = Some None \/ m <> Some None) by (destruct m as [[]|]; [by right|by left|by right]).
    destruct Hm as [->|Hm]; [injection H as <- <-; exact (IH _ _ B Hp)|].
    apply receive_parts in H as (e1&e2&e3&c0&ws&H1&H2&H3&_&->&_); [|done]. simpl.
    apply (run_app_count codec cops app) in H2. apply (replication_count codec rops sops cops app) in H3. rewrite H3, H2.
    assert (E1 : d_snapshot_count e1 = d_snapshot_count d1).
    { destruct m as [[m|]|]; [|done|by subst e1]. destruct (is_start m) eqn:Es; [by destruct m|].
      apply (dispatch_count codec rops sops cops app) in H1; [|done]. done. }
    rewrite E1. eapply IH; [done|]. destruct m as [[[]|]|]; done.
Qed.
Lemma start_init d q d' : process_start rr sops rc ra d q = Ok d' -> sr_ephemeral q = false -> d_snapshot_count d = 1000 ->
  exists data r, ra_init rops (d_raft d).1 (sr_id q) (sr_raft q) data (sr_leader q) (snapshot_interval q) = Ok r /\
    d_raft d' = (r, (d_raft d).2 ++ [KInit (sr_id q) (sr_leader q) data]).
Proof using.
  unfold process_start. intros H He Hc. apply bind_ok in H as (?&_&H). apply bind_ok in H as (st&_&H). simpl in H. rewrite He in H.
  apply bind_ok in H as (d1&H1&H). apply bind_ok in H1 as (data&_&H1). apply bind_ok in H1 as (s&_&H1).
  assert (E : d_raft d' = d_raft d1).
  { destruct (match sr_raft q with Some c => (rc_handshake_retry c, rc_heartbeat_tick c * 10) | None => (1, 10) end) as [a b].
    destruct (negb (sr_endorsements q)); [done|]. by injection H as <-. }
  clear H. unfold initialize_raft_node in H1.
  apply bind_ok in H1 as (r&H1&[= <-]). apply or_fail_ok in H1. exists data.
  unfold snapshot_interval. rewrite E. simpl in *. destruct (sr_raft q) as [rc0|]; simpl in *.
  - destruct (rc_snapshot rc0) as [sc|]; simpl in *; apply bind_ok in H1 as (r0&H1&[= <-]); exists r0;
      (split; [by rewrite ?Hc in H1|by destruct (sr_leader q)]).
  - apply bind_ok in H1 as (r0&H1&[= <-]); exists r0. split; [by rewrite Hc in H1|by destruct (sr_leader q)].
Qed.
Lemma reaches_started r s c xs : forall d outs q, born r s c xs d outs -> delivered (HStart q) xs -> sr_ephemeral q = false ->
  exists data r1 t, raft_calls d = KInit (sr_id q) (sr_leader q) data :: t /\
    ra_init rops r (sr_id q) (sr_raft q) data (sr_leader q) (snapshot_interval q) = Ok r1 /\
    consensus_runs rops r1 t (d_raft d).1.
Proof using.
  induction xs as [|x xs IH] using rev_ind; intros d outs q B Hd He.
  { destruct Hd as [t Ht]. by apply elem_of_nil in Ht. }
  pose proof B as B0. apply born_snoc in B as (d1&o1&out&B&H&->). pose proof (born_inv _ _ _ _ _ _ _ _ _ _ _ B) as I.
  apply delivered_snoc in Hd as [Hd|Hd].
  - destruct (IH _ _ _ B Hd He) as (data&r1&t&E1&H1&H2). apply receive_follows in H as (t'&E&H).
    exists data, r1, (t ++ t'). unfold raft_calls in *. rewrite E, E1. split_and!; [done|done|]. apply runs_app. by exists (d_raft d1).1.
  - destruct x as [t m]. simpl in Hd. subst m. destruct (phase_step _ _ _ _ _ _ _ _ _ _ I H) as (_&Hq&_).
    specialize (Hq _ eq_refl). destruct (created_empty _ _ I Hq) as (_&Hrc&_).
    pose proof (created_count _ _ _ _ _ _ B Hq) as Hc.
    pose proof (reaches_follows _ _ _ _ _ _ _ _ _ _ _ B) as Hf. rewrite Hrc in Hf. simpl in Hf.
    apply receive_parts in H as (e1&e2&e3&c0&ws&H1&H2&H3&_&->&_); [|done]. simpl in H1.
    apply start_init in H1 as (data&r1&Hi&E1); [|done|done]. simpl in Hi, E1. rewrite Hf in Hi.
    apply (run_app_follows _ rops) in H2. apply replication_follows in H3 as (t'&E3&H3). rewrite H2, E1 in E3, H3. simpl in *.
    exists data, r1, t'. unfold raft_calls in *. simpl. rewrite E3, Hrc. by split_and!.
Qed.

(** At the end of a call, only reports have been made since it was decided whether
    a snapshot is needed. *)
Definition decided d : Prop :=
  exists r1 t, consensus_runs rops r1 t (d_raft d).1 /\ Forall is_report t /\
    (ra_should_snapshot rops r1 (d_applied d) (d_conf d) = false \/
     exists r0 data, ra_create_snapshot rops r0 (d_applied d) (d_conf d) data = Ok r1).
Lemma runs_reports {A} (f : A -> N * snap_status) l : forall s : RS * list raft_call,
  consensus_runs rops s.1 (map (fun x => KReport (f x).1 (f x).2) l) (foldl (fun s x => ra_report rr s (f x).1 (f x).2) s l).1.
Proof using.
  induction l as [|x l IH]; intros s; [done|]. cbn [map foldl consensus_runs]. eexists. split; [constructor|].
  exact (IH (ra_report rr s (f x).1 (f x).2)).
Qed.
Lemma report_all_runs l : forall s, consensus_runs rops s.1 (map (fun x => KReport x.1 x.2) l) (report_all rr s l).1.
Proof using.
  induction l as [|[i x] l IH]; intros s; [done|]. cbn [map consensus_runs]. eexists. split; [constructor|].
  exact (IH (ra_report rr s i x)).
Qed.
Lemma reports_are {A} (f : A -> N * snap_status) l : Forall is_report (map (fun x => KReport (f x).1 (f x).2) l).
Proof using. rewrite Forall_map. by apply Forall_true. Qed.
Lemma state_machine_decides d d' : process_state_machine codec rr sops rc ra d = Ok d' -> ra_initialized rops (d_raft d).1 = true ->
  decided d'.
Proof using.
  unfold process_state_machine. intros H Hi. simpl in H. rewrite Hi in H.
  apply bind_ok in H as (d1&_&H). apply bind_ok in H as (d2&H2&H).
  assert (D2 : ra_should_snapshot rops (d_raft d2).1 (d_applied d2) (d_conf d2) = false \/
    exists r0 data, ra_create_snapshot rops r0 (d_applied d2) (d_conf d2) data = Ok (d_raft d2).1).
  { unfold maybe_create_snapshot in H2. simpl in H2. destruct (ra_should_snapshot rops _ _ _) eqn:Es; simpl in H2.
    - apply bind_ok in H2 as (st&_&H2). apply bind_ok in H2 as (data&_&H2). apply bind_ok in H2 as (r&H2&[= <-]).
      apply or_fail_ok in H2. apply bind_ok in H2 as (r1&H2&[= <-]). right. by eexists _, _.
    - injection H2 as <-. by left. }
  unfold stash_leader_state in H. destruct (decide _).
  { injection H as <-. exists (d_raft d2).1, []. split_and!; [done|constructor|done]. }
  apply bind_ok in H as (d3&H3&[= <-]). unfold update_snapshot_cluster in H3. destruct (decide _).
  - apply bind_ok in H3 as ([s l]&_&[= <-]). exists (d_raft d2).1, (map (fun x => KReport x.1 x.2) l). split_and!; [|apply (reports_are (fun x => x))|done].
    exact (report_all_runs l (d_raft d2)).
  - injection H3 as <-. exists (d_raft d2).1, []. split_and!; [done|constructor|done].
Qed.
Lemma sending_decides d d' : process_snapshot_sending rr sops rc d = Ok d' -> decided d -> decided d'.
Proof using.
  unfold process_snapshot_sending. intros H D. apply bind_ok in H as (role&_&H). destruct role.
  - apply bind_ok in H as (s&_&H). apply bind_ok in H as ([s' out]&_&H). apply bind_ok in H as (c&_&[= <-]). done.
  - injection H as <-. destruct D as (r1&t&R&F&D).
    exists r1, (t ++ map (fun m => KReport (rm_to m) Failure) (d_stashed d)). split_and!; [| |done].
    + apply runs_app. exists (d_raft d).1. split; [done|]. exact (runs_reports (fun m => (rm_to m, Failure)) (d_stashed d) (d_raft d)).
    + apply Forall_app. split; [done|]. exact (reports_are (fun m => (rm_to m, Failure)) (d_stashed d)).
Qed.
(** [s2]: when the state machine of consensus is driven. *)
Lemma receive_decides d x d' out : inv rops d -> rcv d x = Ok (d', out) -> x.2 <> Some None -> d_ephemeral d' = false -> d_actor d' <> None ->
  exists s2, follows rops (d_raft d) s2 /\ follows rops s2 (d_raft d') /\ (exists id l data, head s2.2 = Some (KInit id l data)) /\
    (ra_initialized rops s2.1 = true -> decided d').
Proof using.
  intros I H Hm He Ha. destruct x as [t m]. cbn [snd] in Hm.
  apply receive_parts in H as (d1&d2&d3&c&ws&H1&H2&H3&_&->&->); [|done]. simpl in *.
  assert (Hmid : exists rt0 mt0 tr0 ms0, mid rops app d t d1 rt0 mt0 tr0 ms0).
  { destruct m as [[m|]|]; [|done|].
    - destruct (is_start m) eqn:Es.
      + destruct m as [q| | | | | | | | | ]; try done. cbn [dispatch] in H1.
        by apply (mid_start _ _ _ _ d) in H1.
      + apply dispatch_ext in H1; [|done].
        apply mid_dispatched in H1 as (rt&mt&ms&Hx&_); [|done]. by exists rt, mt, [], ms.
    - subst d1. destruct (mid_dispatched rops app d t false false false (preset rr d t) I) as (rt&mt&ms&Hx&_).
      { eapply (dispatched_intro _ _ _ _ [] [] []); try done; try (by repeat constructor). apply ext_refl. }
      by exists rt, mt, [], ms. }
  destruct Hmid as (rt0&mt0&tr0&ms0&M).
  assert (F1 : follows rops (d_raft d) (d_raft d1)).
  { destruct m as [[m|]|]; [by apply dispatch_follows in H1|done|subst d1; apply follows_refl]. }
  pose proof H2 as S2. apply (run_app_ext codec rops cops app) in H2 as (Ss2&_&_&_&Rf2&Z2&_&Sn2&mt1&tr1&ps&X2&_&_).
  destruct (d_ephemeral d2) eqn:He2.
  { unfold run_replication in H3. rewrite He2 in H3. injection H3 as <-. congruence. }
  pose proof H3 as H3'. apply run_replication_ext in H3' as (Ss3&_); [|done|by rewrite Z2; apply M].
  assert (A1 : d_actor d1 <> None).
  { intros E. apply (same_present _ _ Ss2) in E. by apply (same_present _ _ Ss3) in E. }
  assert (E1 : d_ephemeral d1 = false) by (rewrite <- (same_ephemeral _ _ Ss2); done).
  destruct (core_present _ _ (mid_core _ _ _ _ _ _ _ _ _ M) A1 E1) as (le&data&Hh).
  unfold run_replication in H3. rewrite He2 in H3.
  apply bind_ok in H3 as (e1&P1&H3). apply bind_ok in H3 as (e2&P2&H3). apply bind_ok in H3 as (e3&P3&H3).
  unfold process_proposals in P1. apply propose_follows in P1. simpl in P1. rewrite Rf2 in P1. apply progress_follows in P2.
  pose proof (follows_trans _ _ _ _ P1 P2) as P12.
  exists (d_raft e2). split_and!.
  - by eapply follows_trans.
  - apply state_machine_follows in P3. apply sending_follows in H3. by eapply follows_trans.
  - destruct P12 as (t'&->&_). unfold raft_calls in Hh. destruct (d_raft d1).2; [done|]. simpl in *. injection Hh as ->. by do 3 eexists.
  - intros Hi. pose proof (state_machine_decides _ _ P3 Hi) as D. by apply sending_decides in H3.
Qed.
End Started.

Section SimpleStore.
Context {ND NR : Type}.
Variable nops : node_ops ND NR.
Notation so := (simple_ops nops).
Notation runs := (consensus_runs so).

Lemma node_kept s c s' : consensus_does so s c s' -> is_Some (rs_node s) -> is_Some (rs_node s').
Proof using.
  intros H [n Hn]. inversion H; subst; simpl in *;
    unfold simple_init, simple_step, simple_propose, simple_propose_change, simple_tick, simple_apply_change, simple_advance_apply, simple_get_ready, simple_advance,
      simple_report, simple_set_hard, simple_append, simple_install, simple_create_snapshot, on_node, on_node', on_store in *;
    rewrite ?Hn in *.
  all: repeat match goal with
  | H : match ?x with _ => _ end = _ |- _ => destruct x as [? ?] eqn:?
  | H : match ?x with _ => _ end = _ |- _ => destruct x eqn:?
  | H : _ = Ok _ |- _ => apply bind_ok in H as (?&?&H)
  | x : (_ * _)%type |- _ => destruct x
  end; simplify_eq; simpl; eauto.
Qed.
Lemma nodes_kept t : forall s s', runs s t s' -> is_Some (rs_node s) -> is_Some (rs_node s').
Proof using.
  induction t as [|c t IH]; simpl; intros s s' H Hs; [by subst|]. destruct H as (s1&H1&H2).
  apply (IH s1); [done|]. by eapply node_kept.
Qed.
Lemma init_node s id c data l n s' : simple_init nops s id c data l n = Ok s' -> is_Some (rs_node s').
Proof using. unfold simple_init. intros H. apply bind_ok in H as (st&_&H). apply bind_ok in H as (nn&_&[= <-]). by eexists. Qed.

Hypothesis Hok : node_ok nops.
Lemma store_runs_app l1 : forall l2 s s', store_runs s (l1 ++ l2) s' <-> exists s1, store_runs s l1 s1 /\ store_runs s1 l2 s'.
Proof using.
  clear Hok. induction l1 as [|c t1 IH]; intros t2 r r'; simpl.
  - split; [intros H; by exists r|]. by intros (r1&->&H).
  - split.
    + intros (r1&H1&H2). apply IH in H2 as (r2&H2&H3). exists r2. split; [|done]. by exists r1.
    + intros (r2&(r1&H1&H2)&H3). exists r1. split; [done|]. apply IH. by exists r2.
Qed.
Lemma asked_runs l : forall s, store_runs s (map (fun a => OpSnapshot a.1 a.2) l) (asked s l).
Proof using. clear Hok. induction l as [|a l IH]; intros s; [done|]. cbn [map store_runs]. eexists. split; [done|]. apply IH. Qed.
Definition kept_ops (ops : list storage_op) : list storage_op := filter (fun op => is_ask op = false) ops.
Lemma asks_kept l : kept_ops (map (fun a : N * N => OpSnapshot a.1 a.2) l) = [].
Proof using. clear Hok. induction l as [|a l IH]; [done|]. exact IH. Qed.

(** One call of consensus and the store. *)
Lemma store_call s n c s' n' : (forall id l data, c <> KInit id l data) -> consensus_does so s c s' -> rs_node s = Some n -> rs_node s' = Some n' ->
  exists ops, store_runs (nd_store nops n) ops (nd_store nops n') /\ kept_ops ops = option_list (stored_by c).
Proof using Hok.
  intros Hc H Hn Hn'.
  assert (Hmove : node_move nops n n' -> stored_by c = None -> exists ops, store_runs (nd_store nops n) ops (nd_store nops n') /\ kept_ops ops = option_list (stored_by c)).
  { intros M E. destruct (node_move_store _ Hok _ _ M) as [l El]. exists (map (fun a => OpSnapshot a.1 a.2) l).
    rewrite El, E. split; [apply asked_runs|apply asks_kept]. }
  assert (Hset : forall op st, store_does (nd_store nops n) op st -> is_ask op = false -> stored_by c = Some op -> n' = nd_with_store nops n st ->
    exists ops, store_runs (nd_store nops n) ops (nd_store nops n') /\ kept_ops ops = option_list (stored_by c)).
  { intros op st D A E ->. exists [op]. rewrite (node_store _ Hok), E. split; [by exists st|]. unfold kept_ops. simpl. by rewrite filter_cons_True by done. }
  inversion H; subst; simpl in *;
    unfold simple_init, simple_step, simple_propose, simple_propose_change, simple_tick, simple_apply_change, simple_advance_apply, simple_get_ready, simple_advance,
      simple_report, simple_set_hard, simple_append, simple_install, simple_create_snapshot, on_node, on_node', on_store in *;
    rewrite ?Hn in *; try by edestruct Hc.
  - destruct (nd_step nops n m) as [n1 b1] eqn:E. simplify_eq/=. apply Hmove; [by econstructor|done].
  - apply bind_ok in H0 as (n1&E&H0). simplify_eq/=. apply Hmove; [by econstructor|done].
  - destruct (nd_propose_change nops n c0) as [n1 b1] eqn:E. simplify_eq/=. apply Hmove; [by econstructor|done].
  - simplify_eq/=. apply Hmove; [by econstructor|done].
  - apply bind_ok in H0 as ([n1 cf]&E&H0). simplify_eq/=. apply Hmove; [by econstructor|done].
  - destruct (nd_ready nops n) as [n1 [b1 b2]] eqn:E. simplify_eq/=. apply Hmove; [by econstructor|done].
  - destruct (rs_ready s !! n0) as [rest|]; simplify_eq/=.
    + destruct (nd_advance nops n rest) as [n1 b1] eqn:E. simplify_eq/=. apply Hmove; [by econstructor|done].
    + exists []. done.
  - simplify_eq/=. apply Hmove; [by econstructor|done].
  - simplify_eq/=. apply Hmove; [by econstructor|done].
  - simplify_eq/=. by apply (Hset (OpSetHardState h) (set_hard_state (nd_store nops n) h)).
  - apply bind_ok in H0 as (st&E&H0). simplify_eq/=. apply (Hset (OpAppend es) st); try done. simpl.
    by destruct (append_entries (nd_store nops n) es); simplify_eq/=.
  - apply bind_ok in H0 as (st&E&H0). simplify_eq/=. apply (Hset (OpApplySnapshot s0) st); try done. simpl.
    by destruct (apply_snapshot (nd_store nops n) s0); simplify_eq/=.
  - apply bind_ok in H1 as (st&E&H1). simplify_eq/=. apply (Hset (OpCreateSnapshot i c0 data) st); try done. simpl.
    by destruct (create_snapshot (nd_store nops n) i c0 data); simplify_eq/=.
Qed.
Lemma store_calls t : forall s n s', Forall (fun c => forall id l data, c <> KInit id l data) t -> runs s t s' -> rs_node s = Some n ->
  exists n' ops, rs_node s' = Some n' /\ store_runs (nd_store nops n) ops (nd_store nops n') /\ kept_ops ops = omap stored_by t.
Proof using Hok.
  induction t as [|c t IH]; intros s n s' Hf H Hn; simpl in H.
  { subst. exists n, []. done. }
  destruct H as (s1&H1&H2). inversion Hf as [|? ? Hc Hf']; subst.
  destruct (node_kept _ _ _ H1) as [n1 Hn1]; [by eexists|].
  destruct (store_call _ _ _ _ _ Hc H1 Hn Hn1) as (ops1&R1&K1).
  destruct (IH _ _ _ Hf' H2 Hn1) as (n'&ops2&Hn'&R2&K2).
  exists n', (ops1 ++ ops2). split_and!; [done|apply store_runs_app; by eexists|].
  unfold kept_ops in *. rewrite filter_app, K1, K2. simpl. by destruct (stored_by c).
Qed.
Lemma store_init s id c data l count s' : simple_init nops s id c data l count = Ok s' ->
  exists n ops, rs_node s' = Some n /\ store_runs (storage_new count) ops (nd_store nops n) /\
    kept_ops ops = option_list (stored_by (KInit id l data)).
Proof using Hok.
  unfold simple_init. intros H. apply bind_ok in H as (st&H1&H). apply bind_ok in H as (n&H2&[= <-]).
  destruct (node_new_store _ Hok _ _ _ _ H2) as [asks E]. exists n.
  assert (Hs : exists ops, store_runs (storage_new count) ops st /\ kept_ops ops = option_list (stored_by (KInit id l data))).
  { destruct l.
    - exists [OpApplySnapshot (Snapshot 1 1 (conf_of_voters [id]) data)]. split; [|done]. exists st. split; [|done].
      simpl. destruct (apply_snapshot _ _); by simplify_eq/=.
    - injection H1 as <-. by exists []. }
  destruct Hs as (ops&R&K). exists (ops ++ map (fun a => OpSnapshot a.1 a.2) asks). split_and!; [done| |].
  - apply store_runs_app. exists st. split; [done|]. rewrite E. apply asked_runs.
  - unfold kept_ops in *. rewrite filter_app, K. fold (kept_ops (map (fun a : N * N => OpSnapshot a.1 a.2) asks)). by rewrite asks_kept, app_nil_r.
Qed.

(** What the calls do to the limit and the position of the snapshot. *)
Lemma compact_snap s i s' : compact_entries s i = Ok s' -> st_snap s' = st_snap s /\ st_max_diff s' = st_max_diff s.
Proof using.
  clear Hok. unfold compact_entries. destruct (_ <=? _); [by intros [= <-]|]. destruct (_ <? _); [done|].
  destruct (st_entries s) as [|e l]; [by intros [= <-]|]. destruct (Nat.ltb _ _); [done|]. by intros [= <-].
Qed.
Lemma create_snap s i c data s' : create_snapshot s i c data = Ok s' -> snap_index s' = i /\ st_max_diff s' = st_max_diff s.
Proof using.
  clear Hok. unfold create_snapshot. destruct (_ <? _); [done|]. destruct (_ <? _); [done|].
  destruct (entry_term s i) as [t| |]; simpl; try done. intros H. apply compact_snap in H as [E1 E2]. unfold snap_index. by rewrite E1, E2.
Qed.
Lemma store_does_limit s op s' : store_does s op s' -> st_max_diff s' = st_max_diff s.
Proof using.
  clear Hok. destruct op as [h|es|sn|i c data|r p]; unfold store_does.
  - by intros ->.
  - destruct es as [|e es]; [by intros [= <-]|]. unfold append_entries. cbn zeta.
    destruct (re_index e <? first_index s); [done|]. destruct (StorageModel.last_index s + 1 <? re_index e); [done|].
    destruct (Nat.ltb _ _); [done|]. by intros [= <-].
  - unfold apply_snapshot. destruct (sn_index sn <? first_index s); [done|]. by intros [= <-].
  - intros H. by apply create_snap in H as [_ ->].
  - intros ->. unfold storage_snapshot, try_satisfy_request. by destruct (satisfies_request _ _ _ _).
Qed.
Lemma store_runs_limit ops : forall s s', store_runs s ops s' -> st_max_diff s' = st_max_diff s.
Proof using.
  clear Hok. induction ops as [|op ops IH]; simpl; intros s s' H; [by subst|]. destruct H as (s1&H1&H2). apply store_does_limit in H1.
  apply IH in H2. congruence.
Qed.
Lemma asks_snap ops : forall s s', store_runs s ops s' -> kept_ops ops = [] -> st_snap s' = st_snap s.
Proof using.
  clear Hok. induction ops as [|op ops IH]; simpl; intros s s' H K; [by subst|]. destruct H as (s1&H1&H2).
  destruct op as [| | | |r p]; simpl in K; try done. rewrite (IH _ _ H2 K). simpl in H1. subst s1.
  unfold storage_snapshot, try_satisfy_request. by destruct (satisfies_request _ _ _ _).
Qed.
End SimpleStore.
