(** Proofs about the batches of consensus and what becomes of them. *)
From Verif Require Import Base StorageModel SnapshotModel CommModel ActorModel DriverModel DriverSpec DriverProofs.

Section Proofs.
Context {RS SP CS ST REQ RESP : Type}.
Variable codec : driver_codec.
Variable rops : raft_ops RS.
Variable sops : snap_ops SP.
Variable cops : comm_ops CS REQ RESP.
Variable app : actor ST.
Notation DR := (rdriver RS (SP * list (N * snapshot)) CS ST REQ RESP).
Notation rr := (rec_raft rops).
Notation rs := (rec_snap sops).
Notation rc := (rec_comm cops).
Notation ra := (rec_actor app).
Implicit Types d : DR.

Definition starts d : list (N * snapshot) := (d_snap d).2.
Notation change_call := (fun c => match c with KApplyChange c _ => Some c | _ => None end).
Notation is_snap := (fun m => rm_type m = MsgSnapshot).
Notation not_snap := (fun m => rm_type m <> MsgSnapshot).

(** What most steps leave alone. *)
Record frame d d' : Prop := Frame {
  fr_id : d_id d' = d_id d;
  fr_comm : comm_calls d' = comm_calls d;
  fr_starts : starts d' = starts d;
  fr_stashed : d_stashed d' = d_stashed d;
}.
Lemma frame_refl d : frame d d.
Proof using. done. Qed.
Lemma frame_trans d1 d2 d3 : frame d1 d2 -> frame d2 d3 -> frame d1 d3.
Proof using. intros [] []. constructor; congruence. Qed.

Lemma apply_entry_batch d e d' : apply_entry codec rr ra d e = Ok d' ->
  frame d d' /\ exists t, raft_calls d' = raft_calls d ++ t /\
    map change_call t = map Some (option_list (change_of_entry codec e)).
Proof using.
  unfold apply_entry, change_of_entry. intros H. destruct (re_data e) as [|x l] eqn:Ed.
  { injection H as <-. split; [done|]. exists []. by rewrite app_nil_r. }
  rewrite <- Ed in *.
  assert (Hev : apply_event_entry codec ra (set_applied d (re_index e)) e = Ok d' ->
    frame d d' /\ exists t, raft_calls d' = raft_calls d ++ t /\ map change_call t = map Some (option_list None)).
  { clear H. intros H. unfold apply_event_entry in H. oks. split; [done|]. exists []. by rewrite app_nil_r. }
  destruct (re_type e); try (by apply Hev in H).
  clear Hev. unfold apply_change_entry in H. destruct (dec_change codec (re_data e)) as [c|]; [|done]. simpl in H. oks.
  split; [done|]. eexists [_]. split; [done|]. done.
Qed.
Lemma apply_entries_batch es : forall d d', apply_entries codec rr ra d es = Ok d' ->
  frame d d' /\ exists t, raft_calls d' = raft_calls d ++ t /\
    map change_call t = map Some (omap (change_of_entry codec) es).
Proof using.
  induction es as [|e es IH]; intros d d' H; simpl in H.
  { injection H as <-. split; [done|]. exists []. by rewrite app_nil_r. }
  apply bind_ok in H as (d1&H1&H2). apply apply_entry_batch in H1 as (F1&t1&R1&C1). apply IH in H2 as (F2&t2&R2&C2).
  split; [by eapply frame_trans|]. exists (t1 ++ t2). split; [by rewrite R2, R1, app_assoc|].
  rewrite map_app, C1, C2. simpl. by destruct (change_of_entry codec e).
Qed.
Lemma apply_committed_batch d es d' : apply_committed codec rr ra d es = Ok d' ->
  frame d d' /\ exists t, raft_calls d' = raft_calls d ++ t /\ hands_back codec es t.
Proof using.
  intros H. apply apply_entries_batch in H as (F&t&R&C). split; [done|]. exists t. split; [done|].
  exists (merge_sort entry_le es). split; [apply merge_sort_Permutation|]. split; [|done].
  apply entry_le_sorted.
Qed.

Lemma send_batch ms : forall d d', send_raft_messages codec rc d ms = Ok d' ->
  d_id d' = d_id d /\ raft_calls d' = raft_calls d /\ starts d' = starts d /\
  d_stashed d' = d_stashed d ++ filter is_snap ms /\
  comm_calls d' = comm_calls d ++ map (as_sent codec (d_id d)) (filter not_snap ms).
Proof using.
  induction ms as [|m ms IH]; intros d d' H; simpl in H.
  { injection H as <-. by rewrite !app_nil_r. }
  rewrite !filter_cons. destruct (decide (rm_type m = MsgSnapshot)) as [Hm|Hm].
  - rewrite decide_False by tauto. apply IH in H as (E1&E2&E3&E4&E5). split_and!; try done.
    rewrite E4. simpl. by rewrite <- app_assoc.
  - rewrite decide_True by done. oks. apply IH in H as (E1&E2&E3&E4&E5). split_and!; try done.
    rewrite E5. unfold comm_calls. simpl. by rewrite <- app_assoc.
Qed.

Lemma restore_batch d s d' : restore_raft_snapshot rr ra d s = Ok d' ->
  frame d d' /\ raft_calls d' = raft_calls d ++ (if sn_index s =? 0 then [] else [KInstall s]).
Proof using.
  unfold restore_raft_snapshot. destruct (sn_index s =? 0).
  - intros [= <-]. by rewrite app_nil_r.
  - intros H. oks. done.
Qed.

Lemma advance_batch d d' : advance_raft codec rr rc ra d = Ok d' ->
  exists tk body, raft_calls d' = raft_calls d ++ tk ++ body /\ Forall (fun c => c = KTick) tk /\
  starts d' = starts d /\ d_id d' = d_id d /\
  ((body = [] /\ comm_calls d' = comm_calls d /\ d_stashed d' = d_stashed d /\ ra_has_ready rops (d_raft d').1 = false) \/
   exists r lr, carries_out codec r lr body /\
     comm_calls d' = comm_calls d ++ map (as_sent codec (d_id d)) (filter not_snap (batch_messages r lr)) /\
     d_stashed d' = d_stashed d ++ filter is_snap (batch_messages r lr)).
Proof using.
  unfold advance_raft. intros H.
  set (d1 := if negb (d_lameduck d) then trigger_raft_tick rr d else d) in *.
  assert (H1 : frame d d1 /\ exists tk, raft_calls d1 = raft_calls d ++ tk /\ Forall (fun c => c = KTick) tk).
  { unfold d1, trigger_raft_tick. destruct (negb (d_lameduck d)); [destruct (_ <=? _)|]; (split; [done|]).
    - exists [KTick]. by repeat constructor.
    - exists []. by rewrite app_nil_r.
    - exists []. by rewrite app_nil_r. }
  clearbody d1. destruct H1 as (F1&tk&R1&Htk).
  destruct (ra_has_ready rr (d_raft d1)) eqn:Er; cbn [negb] in H.
  2:{ injection H as <-. exists tk, []. rewrite app_nil_r. split_and!; try done; try apply F1. left. split_and!; try done; apply F1. }
  destruct (ra_get_ready rops (d_raft d1).1) as [r rd] eqn:Eg. simpl in H. rewrite Eg in H. cbn zeta beta iota in H.
  apply bind_ok in H as (d2&H2&H). apply send_batch in H2 as (I2&R2&S2&Z2&C2).
  change (raft_calls (set_raft d1 _)) with ((d_raft d1).2 ++ [KReady rd]) in R2. fold (raft_calls d1) in R2.
  change (d_id (set_raft d1 _)) with (d_id d1) in I2, C2. change (comm_calls (set_raft d1 _)) with (comm_calls d1) in C2.
  change (starts (set_raft d1 _)) with (starts d1) in S2. change (d_stashed (set_raft d1 _)) with (d_stashed d1) in Z2.
  set (d3 := match rd_hard rd with Some h => _ | None => d2 end) in *.
  assert (H3 : frame d2 d3 /\ raft_calls d3 = raft_calls d2 ++ map KHard (option_list (rd_hard rd))).
  { unfold d3. destruct (rd_hard rd); [done|]. by rewrite app_nil_r. }
  clearbody d3. destruct H3 as [F3 R3].
  apply bind_ok in H as (d4&H4&H). apply restore_batch in H4 as [F4 R4].
  apply bind_ok in H as (d5&H5&H). apply apply_committed_batch in H5 as (F5&t5&R5&B5).
  apply bind_ok in H as (d6&H6&H). apply send_batch in H6 as (I6&R6&S6&Z6&C6).
  apply bind_ok in H as (d7&H7&H).
  assert (H7' : frame d6 d7 /\ raft_calls d7 = raft_calls d6 ++ match rd_entries rd with [] => [] | es => [KAppend es] end).
  { destruct (rd_entries rd) as [|e es].
    - injection H7 as <-. by rewrite app_nil_r.
    - clear H. oks. done. }
  clear H7. destruct H7' as [F7 R7].
  destruct (ra_advance rops (d_raft d7).1 (rd_number rd)) as [r' lr] eqn:Ea.
  apply bind_ok in H as (d8&H8&H). apply send_batch in H8 as (I8&R8&S8&Z8&C8).
  change (raft_calls (set_raft d7 _)) with ((d_raft d7).2 ++ [KLight (rd_number rd) lr]) in R8. fold (raft_calls d7) in R8.
  change (d_id (set_raft d7 _)) with (d_id d7) in I8, C8. change (comm_calls (set_raft d7 _)) with (comm_calls d7) in C8.
  change (starts (set_raft d7 _)) with (starts d7) in S8. change (d_stashed (set_raft d7 _)) with (d_stashed d7) in Z8.
  apply bind_ok in H as (d9&H9&H). apply apply_committed_batch in H9 as (F9&t9&R9&B9).
  injection H as <-.
  change (raft_calls (set_raft d9 _)) with ((d_raft d9).2 ++ [KApplied]). fold (raft_calls d9).
  change (d_id (set_raft d9 _)) with (d_id d9). change (comm_calls (set_raft d9 _)) with (comm_calls d9).
  change (starts (set_raft d9 _)) with (starts d9). change (d_stashed (set_raft d9 _)) with (d_stashed d9).
  destruct F1 as [I1 C1 S1 Z1], F3 as [I3 C3 S3 Z3], F4 as [I4 C4 S4 Z4], F5 as [I5 C5 S5 Z5], F7 as [I7 C7 S7 Z7], F9 as [I9 C9 S9 Z9].
  exists tk, ([KReady rd] ++ map KHard (option_list (rd_hard rd)) ++
        (if sn_index (rd_snapshot rd) =? 0 then [] else [KInstall (rd_snapshot rd)]) ++ t5 ++
        match rd_entries rd with [] => [] | es => [KAppend es] end ++
        [KLight (rd_number rd) lr] ++ t9 ++ [KApplied]).
  split; [rewrite R9, R8, R7, R6, R5, R4, R3, R2, R1; rewrite <- !app_assoc; done|].
  split; [done|]. split; [congruence|]. split; [congruence|]. right. exists rd, lr. split; [by exists t5, t9|].
  assert (Hid : d_id d1 = d_id d /\ d_id d5 = d_id d /\ d_id d7 = d_id d) by (split_and!; congruence).
  destruct Hid as (J1&J5&J7). unfold batch_messages. rewrite !filter_app, !map_app.
  split.
  - rewrite C9, C8, C7, C6, C5, C4, C3, C2, C1, J1, J5, J7. by rewrite <- !app_assoc.
  - rewrite Z9, Z8, Z7, Z6, Z5, Z4, Z3, Z2, Z1. by rewrite <- !app_assoc.
Qed.

(** The other steps. *)
Definition other_call (c : raft_call) : Prop := ~ batch_call c.
Lemma maybe_create_batch d d' : maybe_create_snapshot rr ra d = Ok d' ->
  frame d d' /\ exists t, raft_calls d' = raft_calls d ++ t /\ Forall other_call t.
Proof using.
  unfold maybe_create_snapshot. destruct (negb _).
  - intros [= <-]. split; [done|]. exists []. by rewrite app_nil_r.
  - intros H. oks. split; [done|]. eexists [_]. split; [done|]. repeat constructor. by intros [].
Qed.
Lemma report_other l : Forall other_call (map (fun x : N * snap_status => KReport x.1 x.2) l).
Proof using. rewrite Forall_map. apply Forall_true. by intros x []. Qed.
Lemma leader_batch d d' : stash_leader_state rr rs rc d = Ok d' ->
  d_id d' = d_id d /\ starts d' = starts d /\ d_stashed d' = d_stashed d /\
  (exists t, raft_calls d' = raft_calls d ++ t /\ Forall other_call t) /\
  exists mt, comm_calls d' = comm_calls d ++ mt.
Proof using.
  unfold stash_leader_state. intros H. cbn zeta in H. destruct (decide _).
  { injection H as <-. split_and!; try done; exists []; by rewrite app_nil_r. }
  apply bind_ok in H as (d1&H1&H). injection H as <-. unfold update_snapshot_cluster in H1.
  destruct (decide _).
  - apply bind_ok in H1 as ([s l]&H1%or_abort_ok&E). injection E as <-. simpl in H1.
    apply bind_ok in H1 as ([s1 l1]&_&E). injection E as <- <-. split_and!; try done.
    + eexists. split; [apply report_all_calls|apply report_other].
    + by eexists.
  - injection H1 as <-. split_and!; try done; [exists []; by rewrite app_nil_r|by eexists].
Qed.
Lemma progress_batch d d' : process_snapshot_progress rr rs d = Ok d' ->
  frame d d' /\ exists t, raft_calls d' = raft_calls d ++ t /\ Forall other_call t.
Proof using.
  unfold process_snapshot_progress. destruct (decide _).
  2:{ intros [= <-]. split; [done|]. exists []. by rewrite app_nil_r. }
  intros H. apply bind_ok in H as (role&_&H). destruct role.
  - apply bind_ok in H as ([s x]&H1%or_abort_ok&H). simpl in H1. apply bind_ok in H1 as ([s1 x1]&_&E). injection E as <- <-.
    destruct x1 as [[i st]|]; injection H as <-; (split; [done|]).
    + exists [KReport i st]. split; [done|]. repeat constructor. by intros [].
    + exists []. by rewrite app_nil_r.
  - apply bind_ok in H as ([s x]&H1%or_abort_ok&H). simpl in H1. apply bind_ok in H1 as ([s1 x1]&_&E). injection E as <- <-.
    destruct x1 as [[[i st]|]|]; injection H as <-; (split; [done|]).
    + simpl. eexists [_]. unfold raft_calls. simpl. destruct (ra_step rops _ _). split; [done|]. repeat constructor. by intros [].
    + exists []. by rewrite app_nil_r.
    + exists []. by rewrite app_nil_r.
Qed.
Lemma start_all_batch ms : forall s s', start_all rs s ms = Ok s' ->
  exists l, s'.2 = s.2 ++ l /\ map (fun m => (rm_to m, rm_snapshot m)) ms = map (fun x => (x.1, Some x.2)) l.
Proof using.
  induction ms as [|m ms IH]; intros s s' H; simpl in H.
  { injection H as <-. exists []. by rewrite app_nil_r. }
  apply bind_ok in H as (sn&Hsn%unwrap_ok&H). apply bind_ok in H as (s1&H1%or_abort_ok&H).
  simpl in H1. apply bind_ok in H1 as (s2&_&E). injection E as <-. apply IH in H as (l&El&Hl). simpl in El.
  exists ((rm_to m, sn) :: l). split; [by rewrite El, <- app_assoc|]. simpl. by rewrite Hl, Hsn.
Qed.
Lemma drain_batch n : forall s s' ms, drain rs n s = Ok (s', ms) -> s'.2 = s.2.
Proof using.
  induction n as [|n IH]; intros s s' ms H; simpl in H; [by injection H as <- <-|].
  apply bind_ok in H as ([s1 x]&H1%or_abort_ok&H). simpl in H1. apply bind_ok in H1 as ([s2 x2]&_&E). injection E as <- <-.
  destruct x2; [|by injection H as <- <-]. apply bind_ok in H as ([s3 ms3]&H3&E). injection E as <- <-. by apply IH in H3.
Qed.
Lemma sending_batch d d' : process_snapshot_sending rr rs rc d = Ok d' ->
  d_id d' = d_id d /\ exists mt, comm_calls d' = comm_calls d ++ mt /\
  ((exists l, starts d' = starts d ++ l /\ raft_calls d' = raft_calls d /\
      map (fun m => (rm_to m, rm_snapshot m)) (d_stashed d) = map (fun x => (x.1, Some x.2)) l) \/
   (starts d' = starts d /\ raft_calls d' = raft_calls d ++ map (fun m => KReport (rm_to m) Failure) (d_stashed d))).
Proof using.
  unfold process_snapshot_sending. intros H. apply bind_ok in H as (role&_&H). destruct role.
  - apply bind_ok in H as (s&Hs&H). apply bind_ok in H as ([s2 ms]&Hd&H). apply bind_ok in H as (c&Hc&H). injection H as <-.
    apply start_all_batch in Hs as (l&El&Hl). apply drain_batch in Hd. apply send_all_calls in Hc.
    split; [done|]. eexists. split; [exact Hc|]. left. exists l. unfold starts. simpl. by rewrite Hd.
  - injection H as <-. split; [done|]. exists []. split; [by rewrite app_nil_r|]. right. split; [done|].
    unfold raft_calls. simpl. clear. generalize (d_raft d). induction (d_stashed d) as [|m ms IH]; intros r; simpl; [by rewrite app_nil_r|].
    rewrite IH. simpl. by rewrite <- app_assoc.
Qed.
Lemma propose_batch ps : forall d d', propose_all rr d ps = Ok d' ->
  frame d d' /\ raft_calls d' = raft_calls d ++ map KPropose ps.
Proof using.
  induction ps as [|p ps IH]; intros d d' H; simpl in H.
  { injection H as <-. by rewrite app_nil_r. }
  unfold make_raft_proposal in H. oks. apply IH in H as (F&R).
  split; [eapply frame_trans; [|exact F]; done|]. rewrite R. unfold raft_calls. simpl. by rewrite <- app_assoc.
Qed.

(** Replication in one call. *)
Definition passed_on (sm : list rmsg) (rt : list raft_call) (l : list (N * snapshot)) : Prop :=
  map (fun m => (rm_to m, rm_snapshot m)) sm = map (fun x => (x.1, Some x.2)) l \/
  l = [] /\ exists pre, rt = pre ++ map (fun m => KReport (rm_to m) Failure) sm.
Definition batched (id : N) (rt : list raft_call) (mt : list (comm_call REQ RESP)) (l : list (N * snapshot)) (idle : Prop) : Prop :=
  (Forall other_call rt /\ l = [] /\ idle) \/
  exists r lr pre body post pre' post',
    rt = pre ++ body ++ post /\ carries_out codec r lr body /\ Forall other_call pre /\ Forall other_call post /\
    mt = pre' ++ map (as_sent codec id) (filter not_snap (batch_messages r lr)) ++ post' /\
    passed_on (filter is_snap (batch_messages r lr)) post l.
Lemma reports_other (l : list rmsg) : Forall other_call (map (fun m => KReport (rm_to m) Failure) l).
Proof using. rewrite Forall_map. apply Forall_true. by intros x []. Qed.

Lemma replication_batch d d' : run_replication codec rr rs rc ra d = Ok d' -> d_ephemeral d = false -> d_stashed d = [] ->
  d_id d' = d_id d /\ exists rt mt l, raft_calls d' = raft_calls d ++ rt /\ comm_calls d' = comm_calls d ++ mt /\
    starts d' = starts d ++ l /\
    batched (d_id d) rt mt l (exists r, rtc (raft_move rops) (d_raft d).1 r /\ rtc (raft_move rops) r (d_raft d').1 /\
      (ra_initialized rops r = true -> ra_has_ready rops r = false)).
Proof using.
  intros H He Hz. pose proof H as Hx. apply run_replication_ext in Hx as (_&_&_&rt1'&tk'&body'&rt3'&mt'&tr'&ms'&X'&_); [|done|done].
  pose proof (ext_moves _ _ _ _ _ _ _ _ X') as Hmoves. clear dependent rt1' tk' body' rt3' mt' tr' ms'.
  unfold run_replication, process_proposals in H. rewrite He in H.
  apply bind_ok in H as (d1&H1&H). apply bind_ok in H as (d2&H2&H). apply bind_ok in H as (d5&H3&H).
  pose proof H1 as M1. apply (propose_all_ext rops app) in M1 as (_&_&_&_&_&M1%ext_moves).
  pose proof H2 as M2. apply (progress_ext rops rs app) in M2 as (_&_&_&_&_&_&q2&M2%ext_moves&_).
  pose proof H as M6. apply (sending_ext rops rs cops app) in M6 as (_&_&_&_&_&_&q6&p6&M6%ext_moves&_).
  apply propose_batch in H1 as (F1&R1). apply progress_batch in H2 as (F2&t2&R2&O2).
  apply sending_batch in H as (I6&mt6&C6&H6).
  assert (F12 : frame d d2) by (eapply frame_trans; [|exact F2]; destruct F1; by constructor).
  change (raft_calls (set_proposals d [])) with (raft_calls d) in R1.
  assert (R12 : raft_calls d2 = raft_calls d ++ (map KPropose (d_proposals d) ++ t2)) by by rewrite R2, R1, app_assoc.
  assert (O12 : Forall other_call (map KPropose (d_proposals d) ++ t2)).
  { apply Forall_app. split; [|done]. rewrite Forall_map. apply Forall_true. by intros x []. }
  assert (M12 : rtc (raft_move rops) (d_raft d).1 (d_raft d2).1) by (etrans; [exact M1|exact M2]).
  clear F1 F2 R1 R2 O2 M1 M2. destruct F12 as [I2 C2 S2 Z2]. set (pre0 := map KPropose (d_proposals d) ++ t2) in *. clearbody pre0.
  unfold process_state_machine in H3. destruct (ra_initialized rr (d_raft d2)) eqn:Ei.
  2:{ injection H3 as <-. rewrite Z2, Hz in H6. split; [by rewrite I6, I2|].
      destruct H6 as [(l&E1&E2&E3)|(E1&E2)].
      - symmetry in E3. apply map_eq_nil in E3 as ->.
        exists pre0, mt6, []. split_and!; [by rewrite E2|by rewrite C6, C2|by rewrite E1, S2|]. left. split_and!; try done.
        exists (d_raft d2).1. split_and!; try done. intros Hi. simpl in Ei. congruence.
      - exists pre0, mt6, []. rewrite app_nil_r in E2. split_and!; [by rewrite E2|by rewrite C6, C2|by rewrite E1, S2, app_nil_r|]. left. split_and!; try done.
        exists (d_raft d2).1. split_and!; try done. intros Hi. simpl in Ei. congruence. }
  apply bind_ok in H3 as (d3&H3&H4). apply bind_ok in H4 as (d4&H4&H5).
  pose proof H3 as M3. apply (advance_ext codec rops cops app) in M3 as (_&_&_&_&_&bq&mq&tq&M3%ext_moves&_).
  pose proof H4 as M4. apply (maybe_create_ext rops app) in M4 as (_&_&_&_&q4&M4%ext_moves&_).
  pose proof H5 as M5. apply (stash_leader_ext rops rs cops app) in M5 as (_&_&_&_&_&_&_&_&q5&p5&s5&M5%ext_moves&_).
  apply advance_batch in H3 as (tk&body&R3&T3&S3&I3&H3). apply maybe_create_batch in H4 as ([I4 C4 S4 Z4]&t4&R4&O4).
  apply leader_batch in H5 as (I5&S5&Z5&(t5&R5&O5)&mt5&C5).
  assert (Otk : Forall other_call tk) by (eapply Forall_impl; [exact T3|]; by intros c -> []).
  assert (Hid : d_id d' = d_id d) by congruence.
  assert (Hid2 : d_id d2 = d_id d) by congruence.
  split; [done|]. destruct H3 as [(->&C3&Z3&Hr)|(r&lr&Hc&C3&Z3)].
  - rewrite Z5, Z4, Z3, Z2, Hz in H6. destruct H6 as [(l&E1&E2&E3)|(E1&E2)].
    + symmetry in E3. apply map_eq_nil in E3 as ->.
      exists (pre0 ++ tk ++ t4 ++ t5), (mt5 ++ mt6), []. split_and!.
      * rewrite E2, R5, R4, R3, R12. by rewrite app_nil_r, <- !app_assoc.
      * by rewrite C6, C5, C4, C3, C2, app_assoc.
      * by rewrite E1, S5, S4, S3, S2.
      * left. split_and!; [by rewrite !Forall_app|done|]. exists (d_raft d3).1.
        split; [etrans; [exact M12|exact M3]|]. split; [|done]. etrans; [exact M4|]. etrans; [exact M5|exact M6].
    + exists (pre0 ++ tk ++ t4 ++ t5), (mt5 ++ mt6), []. split_and!.
      * rewrite E2, R5, R4, R3, R12. by rewrite !app_nil_r, <- !app_assoc.
      * by rewrite C6, C5, C4, C3, C2, app_assoc.
      * by rewrite E1, S5, S4, S3, S2, app_nil_r.
      * left. split_and!; [by rewrite !Forall_app|done|]. exists (d_raft d3).1.
        split; [etrans; [exact M12|exact M3]|]. split; [|done]. etrans; [exact M4|]. etrans; [exact M5|exact M6].
  - rewrite Z5, Z4, Z3, Z2, Hz in H6. cbn [Datatypes.app] in H6. rewrite Hid2 in C3.
    destruct H6 as [(l&E1&E2&E3)|(E1&E2)].
    + exists ((pre0 ++ tk) ++ body ++ (t4 ++ t5)), (map (as_sent codec (d_id d)) (filter not_snap (batch_messages r lr)) ++ mt5 ++ mt6), l.
      split_and!.
      * rewrite E2, R5, R4, R3, R12. by rewrite <- !app_assoc.
      * rewrite C6, C5, C4, C3, C2. by rewrite <- !app_assoc.
      * by rewrite E1, S5, S4, S3, S2.
      * right. exists r, lr, (pre0 ++ tk), body, (t4 ++ t5), [], (mt5 ++ mt6). split_and!; try done; try (by apply Forall_app). by left.
    + exists ((pre0 ++ tk) ++ body ++ (t4 ++ t5 ++ map (fun m => KReport (rm_to m) Failure) (filter is_snap (batch_messages r lr)))),
        (map (as_sent codec (d_id d)) (filter not_snap (batch_messages r lr)) ++ mt5 ++ mt6), [].
      split_and!.
      * rewrite E2, R5, R4, R3, R12. by rewrite <- !app_assoc.
      * rewrite C6, C5, C4, C3, C2. by rewrite <- !app_assoc.
      * by rewrite E1, S5, S4, S3, S2, app_nil_r.
      * right. eexists r, lr, (pre0 ++ tk), body, _, [], (mt5 ++ mt6). split; [done|]. split; [done|]. split; [by apply Forall_app|].
        split; [rewrite !Forall_app; split_and!; [done|done|apply reports_other]|]. split; [done|].
        right. split; [done|]. exists (t4 ++ t5). by rewrite app_assoc.
Qed.

(** The first part of a call. *)
Lemma start_starts d q d' : process_start rr rs rc ra d q = Ok d' -> starts d' = starts d.
Proof using.
  unfold process_start. intros H. apply bind_ok in H as (?&_&H). apply bind_ok in H as (st&_&H). apply bind_ok in H as (d1&H1&H).
  assert (E1 : starts d1 = starts d).
  { destruct (sr_ephemeral q); [by injection H1 as <-|].
    apply bind_ok in H1 as (data&_&H1). apply bind_ok in H1 as (sp&Hsp%or_abort_ok&H1). simpl in Hsp.
    apply bind_ok in Hsp as (s1&_&E). injection E as <-. unfold initialize_raft_node in H1.
    apply bind_ok in H1 as (r&_&E). injection E as <-.
    destruct (sr_leader q), (sr_raft q) as [c|]; try destruct (rc_snapshot c); done. }
  destruct (sr_raft q), (sr_endorsements q); try done; by injection H as <-.
Qed.
Lemma dispatch_starts d m d' : dispatch codec rr rs rc ra d m = Ok d' -> starts d' = starts d.
Proof using.
  intros H. destruct m as [q| | |q| |m|sender delivery| |m|m]; cbn [dispatch] in H.
  - by apply start_starts in H.
  - unfold process_stop in H. destruct (decide _); by injection H as <-.
  - by injection H as <-.
  - apply process_change_ext in H as (_&_&H). destruct (change_of q); [destruct H as (r&e&_&_&->)|subst d']; done.
  - unfold process_check in H. apply bind_ok in H as (?&_&H). apply bind_ok in H as (?&_&H). by injection H as <-.
  - destruct (pm_kind m).
    + apply process_system_ext in H as (_&_&c&o&_&H). simpl in H. destruct o as [[h|m'|]|]; [done| |done|by subst d'].
      destruct H as (_&p&_&[[_ ->]|(x&r&_&_&->)]); done.
    + unfold process_snapshot_request in H. apply bind_ok in H as (?&_&H). apply bind_ok in H as ([c o]&_&H).
      destruct o as [[h|m'|]|]; [done| |done|by injection H as <-]. destruct (pm_kind m'); try done.
      apply bind_ok in H as (role&_&H). apply bind_ok in H as ([d1 a]&H1&H). apply bind_ok in H as (c2&_&E). injection E as <-.
      destruct role.
      * apply bind_ok in H1 as (y&_&E). by injection E as <- <-.
      * apply bind_ok in H1 as ([s y]&Hs%or_abort_ok&E). injection E as <- <-. simpl in Hs.
        apply bind_ok in Hs as ([s1 x1]&_&E). by injection E as <- <-.
    + unfold process_snapshot_response in H. apply bind_ok in H as (?&_&H). apply bind_ok in H as ([c o]&_&H).
      destruct o as [[h|m'|]|]; [done| |done|by injection H as <-]. destruct (pm_kind m'); try done.
      apply bind_ok in H as (role&_&H). destruct role; [|by injection H as <-].
      apply bind_ok in H as (s&Hs%or_abort_ok&E). injection E as <-. simpl in Hs.
      apply bind_ok in Hs as (s1&_&E). by injection E as <-.
  - unfold process_snapshot_failure in H. apply bind_ok in H as (?&_&H). apply bind_ok in H as (role&_&H).
    destruct role; [|by injection H as <-]. apply bind_ok in H as (s&Hs%or_abort_ok&E). injection E as <-. simpl in Hs.
    apply bind_ok in Hs as (s1&_&E). by injection E as <-.
  - unfold process_get_state in H. apply bind_ok in H as (?&_&H). destruct (d_ephemeral d); by injection H as <-.
  - unfold process_handshake in H. apply bind_ok in H as (?&_&H). apply bind_ok in H as ([c o]&_&H). by injection H as <-.
  - by injection H as <-.
Qed.
Notation inv := (inv rops).
(** A whole call. *)
Lemma receive_batch d x d' out : inv d -> receive codec rops rs cops app d x = Ok (d', out) -> d_ephemeral d' = false -> x.2 <> Some None ->
  exists rt mt l, raft_calls d' = raft_calls d ++ rt /\ comm_calls d' = comm_calls d ++ mt ++ [MTake] /\
    starts d' = starts d ++ l /\
    batched (d_id d') rt mt l (exists r, rtc (raft_move rops) (d_raft d).1 r /\ rtc (raft_move rops) r (d_raft d').1 /\
    (ra_initialized rops r = true -> ra_has_ready rops r = false)).
Proof using.
  intros I H He Hm. destruct x as [t m]. cbn [snd] in Hm.
  apply receive_parts in H as (d1&d2&d3&c&ws&H1&H2&H3&_&->&->); [|done].
  assert (Hmid : (exists rt0 mt0 tr0 ms0, mid rops app d t d1 rt0 mt0 tr0 ms0) /\ starts d1 = starts d).
  { destruct m as [[m|]|]; [|done|].
    - split; [|by apply dispatch_starts in H1]. destruct (is_start m) eqn:Es.
      + destruct m as [q| | | | | | | | | ]; try done. cbn [dispatch] in H1.
        apply (mid_start _ _ _ _ d) in H1 as (rt&mt&tr&ms&Hx); [|done]. by exists rt, mt, tr, ms.
      + apply dispatch_ext in H1; [|done].
        apply mid_dispatched in H1 as (rt&mt&ms&Hx&_); [|done]. by exists rt, mt, [], ms.
    - subst d1. split; [|done]. destruct (mid_dispatched rops app d t false false false (preset rr d t) I) as (rt&mt&ms&Hx&_).
      { eapply (dispatched_intro _ _ _ _ [] [] []); try done; try (by repeat constructor). apply ext_refl. }
      by exists rt, mt, [], ms. }
  destruct Hmid as [(rt0&mt0&tr0&ms0&M) E1].
  pose proof H2 as S2. apply (run_app_ext codec rops cops app) in H2 as (Ss2&_&_&_&Rf2&Z2&_&Sn2&mt1&tr1&ps&X2&_&_).
  simpl in He.
  assert (He2 : d_ephemeral d2 = false).
  { unfold run_replication in H3. destruct (d_ephemeral d2) eqn:E; [|done]. injection H3 as <-. congruence. }
  assert (Hz2 : d_stashed d2 = []) by (rewrite Z2; apply (mid_stashed _ _ _ _ _ _ _ _ _ M)).
  apply replication_batch in H3 as (I3&rt&mt&l&R3&C3&S3&B3); [|done|done].
  pose proof (ext_trans _ _ _ _ _ _ _ _ _ _ _ _ _ (mid_ext _ _ _ _ _ _ _ _ _ M) X2) as X12.
  exists (rt0 ++ rt), ((mt0 ++ mt1) ++ mt), l. split_and!.
  - unfold raft_calls. simpl. fold (raft_calls d3). rewrite R3, (ext_raft _ _ _ _ _ _ _ _ X12), app_nil_r. by rewrite <- app_assoc.
  - unfold comm_calls. simpl. fold (comm_calls d3). rewrite C3, (ext_comm _ _ _ _ _ _ _ _ X12). by rewrite <- !app_assoc.
  - unfold starts. simpl. fold (starts d3). rewrite S3. unfold starts at 1. rewrite Sn2. fold (starts d1). by rewrite E1.
  - simpl. rewrite I3.
    assert (O0 : Forall other_call rt0).
    { eapply Forall_impl; [exact (mid_calls _ _ _ _ _ _ _ _ _ M)|]. by intros [] Hc Hb. }
    destruct B3 as [(O&->&(r&M1&M2&Hr))|(r&lr&pre&body&post&pre'&post'&->&Hc&O1&O2&->&P)].
    + left. split_and!; [by apply Forall_app|done|]. exists r. split_and!; try done. etrans; [|exact M1]. exact (ext_moves _ _ _ _ _ _ _ _ X12).
    + right. exists r, lr, (rt0 ++ pre), body, post, ((mt0 ++ mt1) ++ pre'), post'. split_and!; try done.
      * by rewrite <- !app_assoc.
      * by apply Forall_app.
      * by rewrite <- !app_assoc.
Qed.
End Proofs.
