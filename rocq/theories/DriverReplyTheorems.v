(** Theorems about requests that consensus agrees on (C103). They hold for one run
    of a replica, for every consensus implementation and whatever else happens. *)
From Verif Require Import Base StorageModel SnapshotModel CommModel ActorModel DriverModel DriverSpec DriverProofs DriverTheorems
  CounterModel CounterSpec TabletModel TabletSpec WillowModel WillowSpec ClusterTheorems DriverReplySpec DriverReplyProofs.

Section Theorems.
Context {RS SP CS ST REQ RESP : Type}.
Variable codec : driver_codec.
Variable rops : raft_ops RS.
Variable sops : snap_ops SP.
Variable cops : comm_ops CS REQ RESP.
(** A request handed to a running replica is answered in the same call, or
    proposed to consensus in this call; and then, whenever consensus hands over an
    entry with what was proposed, the request is answered in that call. *)
Theorem C103_agreed_requests_are_answered (app : actor ST) r s c xs d outs q a t m :
  answers_all app -> driver_codec_ok codec ->
  reaches codec rops sops cops app r s c xs d outs -> xs !! a = Some (t, Some (Some (HApp m))) ->
  delivered (HStart q) (take a xs) -> sr_ephemeral q = false -> ~ delivered (REQ := REQ) (RESP := RESP) HStop (take a xs) ->
  replies outs a (ac_correlation m) \/
  exists p, proposes codec rops sops cops app r s c xs a p /\
    forall b e, (a <= b)%nat -> is_given codec rops sops cops app r s c xs b e -> re_type e = EntryNormal -> re_data e = p ->
      replies outs b (ac_correlation m).
Proof using. intros AA Hd. by apply request_is_answered. Qed.
End Theorems.

(** ** The applications of the platform answer every request *)
Local Ltac by_cases := repeat first
  [done|match goal with E : res_bind _ _ = Ok _ |- _ => apply bind_ok in E as (?&?&E) end|progress simplify_eq/=|case_match
  |left; eexists; split; [by left|done]|right; eexists; split; done|eexists; split; [by left|done]].
Theorem C103_counters_answer_all c : answers_all (counter_actor c).
Proof.
  constructor.
  - intros cx st m st' out E. cbn in E. unfold counter_command in E. by_cases.
  - intros cx0 st0 m st0' out0 st cx ev st' out _ _ E Ho. cbn in E. unfold counter_apply in E. by_cases.
Qed.
Theorem C103_tablet_stores_answer_all c generate order : answers_all (tablet_actor c generate order).
Proof.
  constructor.
  - intros cx st m st' out E. cbn in E. unfold tablet_command in E. by_cases.
  - intros cx0 st0 m st0' out0 st cx ev st' out _ _ E Ho. cbn [a_apply tablet_actor] in E. unfold tablet_apply in E. by_cases.
Qed.
Theorem C103_decryptors_answer_all c keygen decrypt entropy : willow_codec_ok c -> answers_all (willow_actor c keygen decrypt entropy).
Proof.
  intros Hc. constructor.
  - intros cx st m st' out E. cbn [a_command willow_actor] in E. unfold willow_command, generate_command, decrypt_command in E. by_cases.
  - intros cx0 st0 m st0' out0 st cx ev st' out D Ev E Ho.
    assert (exists e, ae_contents ev = enc_wevent c e) as [e Ee].
    { cbn [a_command willow_actor] in D. unfold willow_command, generate_command, decrypt_command in D. clear E Hc.
      repeat first [done|match goal with E : res_bind _ _ = Ok _ |- _ => apply bind_ok in E as (?&?&E) end|progress simplify_eq/=|case_match];
        by eexists. }
    cbn [a_apply willow_actor] in E. unfold willow_apply, generate_event, decrypt_event in E.
    rewrite Ee, (wevent_round_trip _ Hc) in E.
    destruct e; injection E as <- <-; rewrite Ho; eexists; (split; [by left|done]).
Qed.

(** ** A replica whose proposals take their time *)
(** Consensus of [fed_ops], but what is proposed is only sent on to others. *)
Definition slow_ops : raft_ops fed := RaftOps fed
  (ra_initialized fed_ops) (ra_leader fed_ops) (ra_state fed_ops) (ra_init fed_ops) (ra_step fed_ops) (fun r _ => Ok r)
  (ra_propose_change fed_ops) (ra_tick fed_ops) (ra_apply_change fed_ops) (ra_has_ready fed_ops) (ra_get_ready fed_ops)
  (ra_advance fed_ops) (ra_advance_apply fed_ops) (ra_report fed_ops) (ra_set_hard fed_ops) (ra_append fed_ops)
  (ra_apply_snapshot fed_ops) (ra_should_snapshot fed_ops) (ra_create_snapshot fed_ops) (ra_snapshot_size fed_ops).
Lemma toy_answers_all : answers_all toy_app.
Proof.
  constructor.
  - intros cx st m st' out [= <- <-]. right. by eexists.
  - intros cx0 st0 m st0' out0 st cx ev st' out _ _ [= <- <-] ->. eexists. split; [by left|done].
Qed.
Notation slow_run := (run toy_codec slow_ops toy_snap toy_comm toy_app (fresh fed0 tt tt)).
Notation slow_reaches := (reaches toy_codec slow_ops toy_snap toy_comm toy_app fed0 tt tt).
(** A follower gets the initial state, is handed the request 21, an entry of
    another replica, and its own. *)
Definition slow_history : list (delivery unit unit) :=
  [(5, toy_start false false 2); (6, toy_peer 3 2 1 [1; 7]); (7, toy_app_msg 21 [4; 4]);
   (8, toy_peer 0 2 1 [1; 21; 1; 9]); (9, toy_peer 0 2 1 [1; 21; 2; 4; 4])].
Lemma slow_shows {A} (f : rdriver fed unit unit bytes unit unit -> list (list (host_out unit unit)) -> A) xs v :
  match slow_run xs with Ok (d, outs) => Some (f d outs) | _ => None end = Some v ->
  exists d outs, slow_reaches xs d outs /\ f d outs = v.
Proof.
  destruct (slow_run xs) as [[d outs]| |] eqn:E; [|discriminate..]. intros H. injection H as <-.
  exists d, outs. split; [split; [reflexivity|exact E]|reflexivity].
Qed.
Lemma slow_unique xs d1 o1 d2 o2 : slow_reaches xs d1 o1 -> slow_reaches xs d2 o2 -> d1 = d2 /\ o1 = o2.
Proof.
  intros [_ E1] [_ E2]. assert (E : Ok (d1, o1) = Ok (d2, o2)) by exact (eq_trans (eq_sym E1) E2). injection E as -> ->. split; reflexivity.
Qed.
Lemma replies_shown (outs : list (list (host_out unit unit))) told b y n : map (omap app_out) outs = told ->
  told !! b = Some [y] -> ac_correlation y = n -> replies outs b n.
Proof.
  intros E Hb Hn. rewrite <- E, list_lookup_fmap in Hb. destruct (outs !! b) as [out|] eqn:Eo; [|discriminate Hb]. injection Hb as L.
  exists out, y. split; [exact Eo|]. split; [|exact Hn].
  assert (Hin : y ∈ omap app_out out) by (rewrite L; left).
  apply elem_of_list_omap in Hin as (z&Hz&Ez). destruct z; try discriminate Ez. injection Ez as ->. exact Hz.
Qed.
Local Ltac somewhere l := let rec go n := first [apply (elem_of_list_lookup_2 l n); reflexivity|go (S n)] in go O.
Example C103_example_answered :
  exists d outs, slow_reaches slow_history d outs /\ map (omap app_out) outs = [[]; []; []; []; [ActorCommand 21 [] [4; 4]]] /\ replies outs 4 21.
Proof.
  destruct (slow_shows (fun _ outs => map (omap app_out) outs) slow_history [[]; []; []; []; [ActorCommand 21 [] [4; 4]]]) as (d&outs&B&E);
    [vm_compute; reflexivity|].
  exists d, outs. split; [exact B|]. split; [exact E|]. eapply replies_shown; [exact E|reflexivity|reflexivity].
Qed.
Example C103_example_hypotheses :
  slow_history !! 2%nat = Some (7, toy_app_msg 21 [4; 4]) /\
  delivered (HStart (StartRequest false 2 (Some (RaftConfig 10 5 2 0 None 1)) [7] false true)) (take 2 slow_history) /\
  ~ delivered HStop (take 2 slow_history).
Proof.
  split; [reflexivity|]. split; [exists 5; left|].
  intros [t Ht]. repeat (apply elem_of_cons in Ht as [Ht|Ht]; [discriminate Ht|]). by apply elem_of_nil in Ht.
Qed.
Example C103_example_proposed : proposes toy_codec slow_ops toy_snap toy_comm toy_app fed0 tt tt slow_history 2 [1; 21; 2; 4; 4].
Proof.
  destruct (slow_shows (fun d _ => raft_calls d) (take 2 slow_history) _ ltac:(vm_compute; reflexivity)) as (d1&o1&B1&E1).
  destruct (slow_shows (fun d _ => raft_calls d) (take 3 slow_history) _ ltac:(vm_compute; reflexivity)) as (d2&o2&B2&E2).
  eexists. split.
  - exists d1, o1, d2, o2. split; [vm_compute; lia|]. split; [exact B1|]. split; [exact B2|]. rewrite E1, E2. cbn [app]. reflexivity.
  - match goal with |- _ ∈ ?l => somewhere l end.
Qed.
Example C103_example_given :
  is_given toy_codec slow_ops toy_snap toy_comm toy_app fed0 tt tt slow_history 4 (REntry EntryNormal 1 3 [1; 21; 2; 4; 4]).
Proof.
  destruct (slow_shows (fun d _ => raft_calls d) (take 4 slow_history) _ ltac:(vm_compute; reflexivity)) as (d1&o1&B1&E1).
  destruct (slow_shows (fun d _ => raft_calls d) (take 5 slow_history) _ ltac:(vm_compute; reflexivity)) as (d2&o2&B2&E2).
  eexists _, [REntry EntryNormal 1 3 [1; 21; 2; 4; 4]]. split; [|split; [|left]].
  - exists d1, o1, d2, o2. split; [vm_compute; lia|]. split; [exact B1|]. split; [exact B2|]. rewrite E1, E2. cbn [app]. reflexivity.
  - match goal with |- _ ∈ ?l => somewhere l end.
Qed.

(** "A request that the cluster carries out is answered, if its replica keeps
    running" is false: the replica may learn of it by a snapshot. *)
Definition skipped_history : list (delivery unit unit) :=
  [(5, toy_start false false 2); (6, toy_peer 3 2 1 [1; 7]); (7, toy_app_msg 21 [4; 4]); (8, toy_peer 3 2 1 [2; 7; 4; 4])].
Theorem C103_skipped_requests_are_not_answered_refuted :
  exists d outs, slow_reaches skipped_history d outs /\ fst <$> d_actor d = Some [7; 4; 4] /\
    KPropose [1; 21; 2; 4; 4] ∈ raft_calls d /\ map (omap app_out) outs = [[]; []; []; []].
Proof.
  destruct (slow_shows (fun d _ => raft_calls d) skipped_history _ ltac:(vm_compute; reflexivity)) as (d&outs&B&E2).
  destruct (slow_shows (fun d _ => fst <$> d_actor d) skipped_history (Some [7; 4; 4])) as (d'&outs'&B'&E1); [vm_compute; reflexivity|].
  destruct (slow_shows (fun _ outs => map (omap app_out) outs) skipped_history [[]; []; []; []]) as (d''&outs''&B''&E3); [vm_compute; reflexivity|].
  destruct (slow_unique _ _ _ _ _ B B') as [<- <-]. destruct (slow_unique _ _ _ _ _ B B'') as [<- <-].
  exists d, outs. split; [exact B|]. rewrite E1, E2, E3. split; [reflexivity|]. split; [|reflexivity].
  match goal with |- _ ∈ ?l => somewhere l end.
Qed.
