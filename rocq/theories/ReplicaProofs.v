From Verif Require Import Base StorageModel SnapshotModel CommModel ActorModel DriverModel DriverProofs SessionModel SessionSpec
  ReplicaModel ReplicaSpec.

(** ** What a call of the driver does to the module of communication and to the
    snapshot processor *)
Section Frame.
Context {RS SP CS ST REQ RESP : Type}.
Variable codec : driver_codec.
Variable rops : raft_ops RS.
Variable sops : snap_ops SP.
Variable cops : comm_ops CS REQ RESP.
Variable app : actor ST.
Notation DR := (driver RS SP CS ST REQ RESP).
Implicit Types d : DR.

Inductive cmove : CS -> CS -> Prop :=
| cm_out c m c' : co_out cops c m = Ok c' -> cmove c c'
| cm_in c m c' r : co_in cops c m = Ok (c', r) -> cmove c c'
| cm_take c c' ws : co_take cops c = Ok (c', ws) -> cmove c c'
| cm_cluster c ids : cmove c (co_cluster cops c ids)
| cm_tick c : cmove c (co_tick cops c).

Definition wireless (ms : list (host_out REQ RESP)) : Prop :=
  Forall (fun m => match m with OWire _ => False | _ => True end) ms.

Record frame d d' : Prop := Frame {
  fr_comm : rtc cmove (d_comm d) (d_comm d');
  fr_phase : d_phase d' = d_phase d;
  fr_ephemeral : d_ephemeral d' = d_ephemeral d;
  fr_id : d_id d' = d_id d;
  fr_wire : wireless (d_messages d) -> wireless (d_messages d');
}.
Lemma frame_refl d : frame d d.
Proof using. by constructor. Qed.
Lemma frame_trans d1 d2 d3 : frame d1 d2 -> frame d2 d3 -> frame d1 d3.
Proof using. intros [] []. constructor; try congruence; [by etrans|tauto]. Qed.

Lemma wireless_snoc ms m : (match m with OWire _ => False | _ => True end) -> wireless ms -> wireless (ms ++ [m]).
Proof using. intros. unfold wireless. rewrite Forall_app. split; [done|]. by repeat constructor. Qed.
Lemma wireless_apps ms cs : wireless ms -> wireless (ms ++ map OApp cs).
Proof using. intros. unfold wireless. rewrite Forall_app. split; [done|]. apply Forall_map. by apply Forall_true. Qed.

Ltac fr := constructor; cbn; try done; auto using wireless_snoc, wireless_apps;
  try (eapply rtc_once; by econstructor).

Lemma step_frame d a b c d' : make_raft_step codec rops d a b c = Ok d' -> frame d d'.
Proof using. unfold make_raft_step. intros H. oks; fr. Qed.
Lemma entry_frame d e d' : apply_entry codec rops app d e = Ok d' -> frame d d'.
Proof using.
  unfold apply_entry, apply_change_entry, apply_event_entry. intros H. oks; fr.
Qed.
Lemma entries_frame es : forall d d', apply_entries codec rops app d es = Ok d' -> frame d d'.
Proof using.
  induction es as [|e es IH]; intros d d' H; simpl in H; oks; [apply frame_refl|].
  eapply frame_trans; [by eapply entry_frame|by apply IH].
Qed.
Lemma send_frame ms : forall d d', send_raft_messages codec cops d ms = Ok d' -> frame d d'.
Proof using.
  induction ms as [|m ms IH]; intros d d' H; simpl in H; [oks; apply frame_refl|].
  destruct (decide _) as [_|_]; oks; (eapply frame_trans; [|by apply IH]); fr.
Qed.
Lemma restore_frame d s d' : restore_raft_snapshot rops app d s = Ok d' -> frame d d'.
Proof using. unfold restore_raft_snapshot. intros H. oks; fr. Qed.
Lemma create_frame d d' : maybe_create_snapshot rops app d = Ok d' -> frame d d'.
Proof using. unfold maybe_create_snapshot. intros H. oks; fr. Qed.
Lemma advance_frame d d' : advance_raft codec rops cops app d = Ok d' -> frame d d'.
Proof using.
  unfold advance_raft. intros H.
  set (d1 := if negb (d_lameduck d) then trigger_raft_tick rops d else d) in *.
  assert (frame d d1) as F1. { unfold d1, trigger_raft_tick. repeat case_match; fr. }
  clearbody d1. eapply frame_trans; [exact F1|]. clear F1.
  destruct (negb _); [injection H as <-; apply frame_refl|].
  destruct (ra_get_ready rops (d_raft d1)) as [r rd].
  apply bind_ok in H as (d2 & H2 & H). apply send_frame in H2.
  eapply frame_trans; [|]; [eapply (frame_trans _ (set_raft d1 r)); [fr|exact H2]|]. clear H2.
  apply bind_ok in H as (d3 & H3 & H). apply restore_frame in H3.
  eapply frame_trans; [|]; [eapply frame_trans; [|exact H3]; destruct (rd_hard rd); fr|]. clear H3.
  apply bind_ok in H as (d4 & H4 & H). apply entries_frame in H4.
  eapply frame_trans; [exact H4|]. clear H4.
  apply bind_ok in H as (d5 & H5 & H). apply send_frame in H5.
  eapply frame_trans; [exact H5|]. clear H5.
  apply bind_ok in H as (d6 & H6 & H).
  eapply (frame_trans _ d6); [destruct (rd_entries rd); oks; fr|]. clear H6.
  destruct (ra_advance rops (d_raft d6) _) as [r' lr].
  apply bind_ok in H as (d7 & H7 & H). apply send_frame in H7.
  eapply frame_trans; [|]; [eapply (frame_trans _ (set_raft d6 r')); [fr|exact H7]|]. clear H7.
  apply bind_ok in H as (d8 & H8 & H). apply entries_frame in H8.
  eapply frame_trans; [exact H8|]. injection H as <-. fr.
Qed.
Lemma leader_frame d d' : stash_leader_state rops sops cops d = Ok d' -> frame d d'.
Proof using.
  unfold stash_leader_state. set (d1 := set_rstate d (get_raft_state rops d)).
  assert (frame d d1) as F1 by (unfold d1; fr). clearbody d1. intros H.
  eapply frame_trans; [exact F1|]. clear F1.
  destruct (decide _) as [_|_]; [oks; apply frame_refl|].
  apply bind_ok in H as (d2 & H2 & H). injection H as <-.
  assert (frame d1 d2) as F2.
  { unfold update_snapshot_cluster in H2. destruct (decide _) as [_|_]; oks; fr. }
  eapply frame_trans; [exact F2|]. clear F2 H2. fr.
Qed.
Lemma machine_frame d d' : process_state_machine codec rops sops cops app d = Ok d' -> frame d d'.
Proof using.
  unfold process_state_machine. destruct (ra_initialized _ _); intros H; [|oks; apply frame_refl].
  apply bind_ok in H as (d1 & H1 & H). apply bind_ok in H as (d2 & H2 & H).
  eapply frame_trans; [by apply advance_frame|]. eapply frame_trans; [by apply create_frame|]. by apply leader_frame.
Qed.
Lemma propose_frame ps : forall d d', propose_all rops d ps = Ok d' -> frame d d'.
Proof using.
  induction ps as [|p ps IH]; intros d d' H; simpl in H; [oks; apply frame_refl|].
  apply bind_ok in H as (d1 & H1 & H). eapply frame_trans; [|by apply IH]. unfold make_raft_proposal in H1. oks. fr.
Qed.
Lemma progress_frame d d' : process_snapshot_progress rops sops d = Ok d' -> frame d d'.
Proof using. unfold process_snapshot_progress. destruct (decide _) as [_|_]; intros H; oks; fr. Qed.
Lemma send_all_moves ms : forall c c', send_all cops c ms = Ok c' -> rtc cmove c c'.
Proof using.
  induction ms as [|m ms IH]; intros c c' H; simpl in H; [oks; done|].
  apply bind_ok in H as (c1 & H1 & H). eapply rtc_l; [by econstructor|]. by apply IH.
Qed.
Lemma sending_frame d d' : process_snapshot_sending rops sops cops d = Ok d' -> frame d d'.
Proof using.
  unfold process_snapshot_sending. intros H. apply bind_ok in H as (role & _ & H). destruct role.
  - apply bind_ok in H as (s & _ & H). apply bind_ok in H as ([s' out] & _ & H).
    apply bind_ok in H as (c & Hc & H). injection H as <-. constructor; try done. by eapply send_all_moves.
  - injection H as <-. fr.
Qed.
Lemma replication_frame d d' : run_replication codec rops sops cops app d = Ok d' -> frame d d'.
Proof using.
  unfold run_replication. destruct (d_ephemeral d); intros H; [oks; apply frame_refl|].
  apply bind_ok in H as (d1 & H1 & H). apply bind_ok in H as (d2 & H2 & H). apply bind_ok in H as (d3 & H3 & H).
  eapply frame_trans; [|eapply frame_trans; [by apply progress_frame|]; eapply frame_trans; [by apply machine_frame|by apply sending_frame]].
  unfold process_proposals in H1. eapply (frame_trans _ (set_proposals d [])); [fr|by eapply propose_frame].
Qed.
Lemma app_frame d m d' : run_app codec cops app d m = Ok d' -> frame d d'.
Proof using.
  unfold run_app. destruct (decide _) as [_|_]; intros H; [|oks; apply frame_refl].
  apply bind_ok in H as (d1 & H1 & H). injection H as <-. eapply (frame_trans _ d1); [|fr].
  unfold process_app, check_phase in H1. oks; fr.
Qed.
Lemma start_frame d q d' : process_start rops sops cops app d q = Ok d' ->
  d_phase d = Created /\ d_phase d' = Started /\ d_id d' = sr_id q /\ sr_endorsements q = true /\ d_ephemeral d' = sr_ephemeral q /\
  (exists retry timeout, d_comm d' = co_init cops (d_comm d) (sr_id q) retry timeout) /\
  (wireless (d_messages d) -> wireless (d_messages d')).
Proof using.
  unfold process_start, check_phase. intros H. apply bind_ok in H as (? & H1 & H). destruct (decide _) as [Hp|_]; [|done].
  apply bind_ok in H as (st & H2 & H). apply bind_ok in H as (d1 & H3 & H).
  assert (d_id d1 = sr_id q /\ d_comm d1 = d_comm d /\ d_messages d1 = d_messages d /\ d_ephemeral d1 = sr_ephemeral q) as (E1 & E2 & E3 & E4).
  { cbn in H3. destruct (sr_ephemeral q); [by injection H3 as <-|]. unfold initialize_raft_node in H3. oks; repeat case_match; done. }
  clear H3. destruct (sr_raft q) as [cfg|]; cbv beta iota zeta in H; (destruct (sr_endorsements q); [|done]);
    injection H as <-; cbn; rewrite E1, E2, E3, E4; (split_and!; [done..|by eexists _, _|by apply wireless_snoc]).
Qed.
Lemma dispatch_frame d m d' : dispatch codec rops sops cops app d m = Ok d' ->
  (forall q, m <> HStart q) -> m <> HStop -> frame d d'.
Proof using.
  destruct m as [q| | |q| |m|sn dl| |m|m]; intros H Hs Ht; simpl in H.
  - by destruct (Hs q).
  - done.
  - injection H as <-. fr.
  - unfold process_change, check_phase, check_non_ephemeral, make_config_change in H. oks; fr.
  - unfold process_check, check_phase, check_non_ephemeral in H. oks; fr.
  - destruct (pm_kind m).
    + unfold process_system in H. apply bind_ok in H as (? & _ & H). apply bind_ok in H as (? & _ & H).
      apply bind_ok in H as ([c r] & H1 & H).
      assert (frame d (set_comm d c)) by fr.
      destruct r as [[]|]; try done; [|by injection H as <-].
      destruct (pm_kind m0); try done. apply bind_ok in H as (? & _ & H).
      eapply frame_trans; [done|]. by eapply step_frame.
    + unfold process_snapshot_request in H. apply bind_ok in H as (? & _ & H).
      apply bind_ok in H as ([c r] & H1 & H).
      assert (frame d (set_comm d c)) by fr.
      destruct r as [[]|]; try done; [|by injection H as <-].
      destruct (pm_kind m0); try done. apply bind_ok in H as (role & _ & H).
      apply bind_ok in H as ([d1 a] & H2 & H). apply bind_ok in H as (c' & H3 & H). injection H as <-.
      eapply frame_trans; [done|]. apply (frame_trans _ d1); [|fr]. destruct role; oks; fr.
    + unfold process_snapshot_response in H. apply bind_ok in H as (? & _ & H).
      apply bind_ok in H as ([c r] & H1 & H).
      assert (frame d (set_comm d c)) by fr.
      destruct r as [[]|]; try done; [|by injection H as <-].
      destruct (pm_kind m0); try done. apply bind_ok in H as (role & _ & H).
      eapply frame_trans; [done|]. destruct role; oks; fr.
  - unfold process_snapshot_failure in H. oks; fr.
  - unfold process_get_state, check_phase in H. oks; fr.
  - unfold process_handshake, check_phase in H. oks; fr.
  - injection H as <-. apply frame_refl.
Qed.
Lemma preset_frame d t : frame d (preset rops d t).
Proof using. fr. Qed.

(** The state of the module: as made, before the start; then moved by its calls. *)
Variable fresh : CS -> Prop.
Variable ok : N -> CS -> Prop.
Hypothesis fresh_move : forall c c', fresh c -> cmove c c' -> fresh c'.
Hypothesis ok_move : forall id c c', ok id c -> cmove c c' -> ok id c'.
Hypothesis init_ok : forall c id retry timeout, fresh c -> ok id (co_init cops c id retry timeout).
Record good d : Prop := Good {
  gd_created : d_phase d = Created -> fresh (d_comm d);
  gd_started : d_phase d = Started -> ok (d_id d) (d_comm d);
  gd_stopped : d_phase d = Stopped -> fresh (d_comm d) \/ ok (d_id d) (d_comm d);
  gd_wire : wireless (d_messages d);
}.
Lemma fresh_moves c c' : rtc cmove c c' -> fresh c -> fresh c'.
Proof using fresh_move. induction 1; eauto. Qed.
Lemma ok_moves id c c' : rtc cmove c c' -> ok id c -> ok id c'.
Proof using ok_move. induction 1; eauto. Qed.
Lemma frame_good d d' : frame d d' -> good d -> good d'.
Proof using fresh_move ok_move.
  intros [Hc Hp _ Hi Hw] [G1 G2 G3 G4]. constructor; rewrite ?Hp, ?Hi; auto.
  - intros H. eapply fresh_moves; eauto.
  - intros H. eapply ok_moves; eauto.
  - intros H. destruct (G3 H); [left; by eapply fresh_moves|right; by eapply ok_moves].
Qed.
Lemma dispatch_good d m d' : dispatch codec rops sops cops app d m = Ok d' -> good d -> good d'.
Proof using fresh_move init_ok ok_move.
  intros H G. destruct m; try (eapply frame_good; [by eapply dispatch_frame|done]).
  - simpl in H. apply start_frame in H as (Hp & Hp' & Hi & _ & _ & (retry & timeout & Hc) & Hw). destruct G as [G1 G2 G3 G4].
    constructor; rewrite ?Hp'; try done; [|by apply Hw]. intros _. rewrite Hc, Hi. apply init_ok, G1, Hp.
  - simpl in H. unfold process_stop in H. destruct (decide _) as [_|Hn]; injection H as <-; [done|].
    destruct G as [G1 G2 G3 G4]. constructor; cbn; try done.
    + intros _. destruct (d_phase d); [left; by apply G1|right; by apply G2|done].
    + by apply wireless_snoc.
Qed.
Lemma receive_good d t m d' out : receive_message codec rops sops cops app d t m = Ok (d', out) -> good d ->
  good d' /\
  exists d1 ws, good d1 /\ d_phase d1 = d_phase d' /\
    match m with Some None => out = [] /\ d_comm d' = d_comm d
    | _ => (exists ms, wireless ms /\ out = ms ++ map OWire ws) /\ exists c, co_take cops (d_comm d1) = Ok (c, ws) /\ d' = set_messages (set_comm d1 c) [] end.
Proof using fresh_move init_ok ok_move.
  intros H G. unfold receive_message in H. cbv zeta in H.
  pose proof (frame_good _ _ (preset_frame d t) G) as G0.
  assert (forall d0 m', good d0 ->
    (let! d := run_app codec cops app d0 m' in let! d := run_replication codec rops sops cops app d in flush cops d) = Ok (d', out) ->
    good d' /\ exists d1 ws, good d1 /\ d_phase d1 = d_phase d' /\
      (exists ms, wireless ms /\ out = ms ++ map OWire ws) /\ exists c, co_take cops (d_comm d1) = Ok (c, ws) /\ d' = set_messages (set_comm d1 c) []) as Hrest.
  { clear H G0. intros d0 m' G0 H. apply bind_ok in H as (d2 & H2 & H). apply bind_ok in H as (d3 & H3 & H).
    apply app_frame in H2. apply replication_frame in H3.
    pose proof (frame_good _ _ H3 (frame_good _ _ H2 G0)) as G3.
    unfold flush in H. apply bind_ok in H as ([c ws] & Hc & H). injection H as <- <-.
    split.
    - eapply (frame_good (set_messages d3 [])); [fr|]. destruct G3. constructor; try done; constructor.
    - exists d3, ws. split_and!; try done; [|by eexists]. eexists. split; [apply G3|done]. }
  destruct m as [[m|]|].
  - apply bind_ok in H as (d0 & H0 & H). eapply Hrest; [|exact H]. by eapply dispatch_good.
  - injection H as <- <-. split; [done|]. by exists (preset rops d t), [].
  - simpl in H. by eapply Hrest.
Qed.
Lemma lives_good d0 xs outs d : lives codec rops sops cops app d0 xs outs d -> good d0 -> good d.
Proof using fresh_move init_ok ok_move. induction 1; [done|]. intros G. by eapply receive_good; [|auto]. Qed.
End Frame.
