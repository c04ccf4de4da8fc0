(** Theorems about the driver (C22, C23, C25-C31, C63-C67). They hold for every
    consensus implementation, snapshot processor, communication module and
    application, and for every history of calls of the host. An error returned by
    a call ends the process, so the histories are those without one. *)
From Verif Require Import Base StorageModel SnapshotModel CommModel ActorModel DriverModel DriverSpec DriverProofs.

(** * A small cluster to show that the hypotheses can be met *)

(** Consensus of one replica on its own: whatever is proposed, or delivered by a
    message, is committed at once; batches are handed over in reverse order. *)
Record toy := Toy { ty_init : bool; ty_id : N; ty_leader : bool; ty_next : N; ty_ready : list rentry; ty_voters : list N }.
Definition toy0 : toy := Toy false 0 false 1 [] [].
Definition toy_add (r : toy) (t : entry_type) (data : bytes) : toy :=
  Toy (ty_init r) (ty_id r) (ty_leader r) (ty_next r + 1) (ty_ready r ++ [REntry t 1 (ty_next r) data]) (ty_voters r).
Definition change_code (c : conf_change) : bytes :=
  [match cc_type c with AddNode => 1 | RemoveNode => 2 | AddLearnerNode => 3 end; cc_node c].
Definition toy_ops : raft_ops toy := RaftOps toy
  ty_init
  ty_leader
  (fun r => if ty_leader r then RaftSt (ty_id r) 1 [] false else raft_st0)
  (fun r id c data leader n => Ok (Toy true id leader (if leader then 2 else 1) [] (if leader then [id] else [1; 2; 3])))
  (fun r m => match rm_type m with
              | MsgOther 0 => (toy_add r EntryNormal (rm_rest m), true)
              | MsgOther 1 => (toy_add r EntryConfChange (rm_rest m), true)
              | MsgOther 2 => (toy_add (toy_add r EntryNormal (rm_rest m)) EntryNormal (rm_rest m ++ [0]), true)
              | _ => (r, true)
              end)
  (fun r p => Ok (toy_add r EntryNormal p))
  (fun r c => if ty_leader r then (toy_add r EntryConfChange (change_code c), None) else (r, Some ProposalDropped))
  (fun r => r)
  (fun r c =>
     let vs := match cc_type c with
               | AddNode => ty_voters r ++ [cc_node c]
               | _ => filter (fun n => n <> cc_node c) (ty_voters r)
               end in
     Ok (Toy (ty_init r) (ty_id r) (ty_leader r) (ty_next r) (ty_ready r) vs, conf_of_voters vs))
  (fun r => match ty_ready r with [] => false | _ => true end)
  (fun r => (Toy (ty_init r) (ty_id r) (ty_leader r) (ty_next r) [] (ty_voters r),
             Ready [] [] [] (reverse (ty_ready r)) None (Snapshot 0 0 (conf_of_voters []) []) 1))
  (fun r n => (r, LightReady [] []))
  (fun r => r)
  (fun r _ _ => r)
  (fun r _ => r)
  (fun r _ => Ok r)
  (fun r _ => Ok r)
  (fun r i _ => i =? 3)
  (fun r _ _ _ => Ok r)
  (fun r => 0).
Lemma toy_ok : consensus_ok toy_ops.
Proof.
  constructor.
  - intros r id c data leader n r' [= <-]. done.
  - intros r r' Hm Hi. destruct Hm as [|m r' b H|p r' H|c r' e H| |c r' conf H|r' rd H|n r' lr H| | | |es r' H|s r' H|i c data r' H];
      simpl in *; try done; try (by injection H as <- <-); try (by injection H as <-); try congruence.
    + destruct (rm_type m) as [| |[|[|[]|]]]; by injection H as <- <-.
    + destruct (ty_leader r); by injection H as <- <-.
  - done.
Qed.

(** No snapshots are transferred. *)
Definition toy_snap : snap_ops unit := SnapOps unit
  (fun s _ _ => Ok s) (fun s _ _ _ => Ok (s, [])) (fun _ _ => Ok RoleReceiver) (fun s _ _ => Ok s)
  (fun s => Ok (s, None)) (fun _ => O) (fun s _ _ _ => Ok s) (fun _ m => Ok m) (fun s => Ok (s, None))
  (fun s m => Ok (s, m)) (fun s => Ok (s, None)).
(** Messages pass as they are; nothing leaves. *)
Definition toy_comm : comm_ops unit unit unit := CommOps unit unit unit
  (fun c _ _ _ => c) (fun c _ => Ok c) (fun c m => Ok (c, Some m)) (fun c => Ok (c, [])) (fun c _ => c) (fun c => c).
(** The application keeps the contents of all events and answers its own. *)
Definition toy_app : actor bytes := Actor bytes
  (fun cx => Ok (cx_config cx)) (fun st => Ok st) (fun _ data => Ok data)
  (fun cx st m => Ok (st, match m with
    | Some m => CommandOutcome [] (Some (ActorEvent (ac_correlation m) (ac_payload m)))
    | None => CommandOutcome [] None
    end))
  (fun st cx ev => Ok (st ++ ae_contents ev,
     if ec_owned cx then [ActorCommand (ae_correlation ev) [] (ae_contents ev)] else [])).
Definition toy_codec : driver_codec := DriverCodec
  (fun m => match rm_type m with MsgOther k => [k; rm_to m; rm_from m] | _ => [9; rm_to m; rm_from m] end ++ rm_rest m)
  (fun b => match b with k :: to :: from :: rest => Some (RMsg (MsgOther k) to from None rest) | _ => None end)
  (fun b => match b with [1; n] => Some (ConfChange AddNode n) | [2; n] => Some (ConfChange RemoveNode n) | _ => None end)
  (fun e => match en_id e with Some i => [1; ei_entry i; ei_replica i] | None => [0] end ++ en_contents e)
  (fun b => match b with
            | 1 :: e :: r :: c => Some (Entry (Some (EntryId e r)) c)
            | 0 :: c => Some (Entry None c)
            | _ => None
            end).
Lemma toy_codec_ok : driver_codec_ok toy_codec.
Proof. constructor; [by intros [[[]|] c]|done]. Qed.

Notation toy_reaches := (reaches toy_codec toy_ops toy_snap toy_comm toy_app toy0 tt tt).
Notation toy_run := (run toy_codec toy_ops toy_snap toy_comm toy_app (fresh toy0 tt tt)).
Definition toy_start (leader ephemeral : bool) (id : N) : option (option (host_in unit unit)) :=
  Some (Some (HStart (StartRequest leader id (Some (RaftConfig 10 5 2 0 None 1)) [7] ephemeral true))).
Definition toy_app_msg (n : N) (p : bytes) : option (option (host_in unit unit)) := Some (Some (HApp (ActorCommand n [] p))).
Definition toy_peer (kind to from : N) (rest : bytes) : option (option (host_in unit unit)) :=
  Some (Some (HPeer (PeerMsg KSystem 1 2 0 (Some (Payload ([kind; to; from] ++ rest) []))))).

Section Theorems.
Context {RS SP CS ST REQ RESP : Type}.
Variable codec : driver_codec.
Variable rops : raft_ops RS.
Variable sops : snap_ops SP.
Variable cops : comm_ops CS REQ RESP.
Variable app : actor ST.
Notation receives d x d' out := (receive codec rops sops cops app d x = Ok (d', out)).
Implicit Types (d : rdriver RS SP CS ST REQ RESP) (xs : list (delivery REQ RESP)) (q : start_request).

(** * C22 *)
(** The application of a replicated replica is given exactly what consensus
    handed over: snapshots, and the event of every entry that carries one, in the
    order of the indices of its batch; nothing else, nothing twice. *)
Theorem C22_events_of_the_log r s c xs d outs q :
  reaches codec rops sops cops app r s c xs d outs -> delivered (HStart q) xs -> sr_ephemeral q = false ->
  hands_over codec (sr_id q) (handed (raft_calls d)) (omap from_log (app_calls d)).
Proof using.
  intros B Hd He. destruct (life_request _ _ (born_life _ _ _ _ _ _ _ _ _ _ _ B) _ Hd) as (E1&E2&_).
  rewrite (hist_log _ _ _ _ (born_history _ _ _ _ _ _ _ _ _ _ _ B)) by congruence. rewrite E1. apply expected_over.
Qed.
(** If consensus hands batches over in order, the indices the application sees
    increase strictly, and the index reported to the host is that of the last
    entry handed over. *)
Theorem C22_indices_increase r s c xs d outs q :
  reaches codec rops sops cops app r s c xs d outs -> delivered (HStart q) xs -> sr_ephemeral q = false ->
  in_order_from (start_index q) (handed (raft_calls d)) ->
  StronglySorted N.lt (omap event_index (app_calls d)) /\
  Forall (fun i => start_index q < i <= position (start_index q) (handed (raft_calls d))) (omap event_index (app_calls d)).
Proof using.
  intros B Hd He Ho. pose proof (C22_events_of_the_log _ _ _ _ _ _ _ B Hd He) as H.
  apply over_increases with (pos := start_index q) in H; [|done]. by rewrite indices_from_log in H.
Qed.
Theorem C22_reported_index r s c xs d outs q t d' out :
  reaches codec rops sops cops app r s c xs d outs -> delivered (HStart q) xs -> sr_ephemeral q = false ->
  in_order_from (start_index q) (handed (raft_calls d)) ->
  receives d (t, Some (Some HGetState)) d' out ->
  omap answer_out out = [OState (position (start_index q) (handed (raft_calls d))) (ra_snapshot_size rops (d_raft d).1)].
Proof using.
  intros B Hd He Ho H. destruct (life_request _ _ (born_life _ _ _ _ _ _ _ _ _ _ _ B) _ Hd) as (_&E2&_).
  pose proof (born_inv _ _ _ _ _ _ _ _ _ _ _ B) as I.
  apply rest_call in H as (d1&rest&rt&H&_&_&_&_&_&->&Hn&_); [|done|done].
  apply get_state_ext in H as (_&H). simpl in H. rewrite E2, He in H. rewrite omap_app, (answers_none rest) by done. rewrite app_nil_r, H, (inv_messages _ _ I). simpl.
  rewrite (hist_applied _ _ _ _ (born_history _ _ _ _ _ _ _ _ _ _ _ B)) by congruence.
  rewrite (born_start_of _ _ _ _ _ _ _ _ _ _ _ _ B Hd He), after_position by done. done.
Qed.

(** * C23 *)
(** The entry proposed for an event: it carries the event and who proposed it, so
    that any replica applying it sees the same event, and is told it owns it
    exactly when it is the one that proposed it. *)
Theorem C23_proposals r s c xs d outs q :
  reaches codec rops sops cops app r s c xs d outs -> delivered (HStart q) xs -> sr_ephemeral q = false ->
  omap proposal_of (raft_calls d) = omap (event_proposal codec (sr_id q)) (app_calls d).
Proof using.
  intros B Hd He. destruct (life_request _ _ (born_life _ _ _ _ _ _ _ _ _ _ _ B) _ Hd) as (E1&E2&_).
  rewrite (hist_proposals _ _ _ _ (born_history _ _ _ _ _ _ _ _ _ _ _ B)) by congruence. by rewrite E1.
Qed.
Theorem C23_owner r s c xs d outs q r2 s2 c2 xs2 d2 outs2 q2 p e es :
  driver_codec_ok codec ->
  reaches codec rops sops cops app r s c xs d outs -> delivered (HStart q) xs -> sr_ephemeral q = false ->
  reaches codec rops sops cops app r2 s2 c2 xs2 d2 outs2 -> delivered (HStart q2) xs2 -> sr_ephemeral q2 = false ->
  (* proposed by the first replica, then handed to the second in some batch *)
  p ∈ omap proposal_of (raft_calls d) ->
  re_data e = p -> re_type e = EntryNormal -> inr es ∈ handed (raft_calls d2) -> e ∈ es ->
  exists cx m out ev,
    ACommand cx m out ∈ app_calls d /\ co_event out = Some ev /\
    exists out2, AApply (EventContext (re_index e) (bool_decide (sr_id q = sr_id q2))) ev out2 ∈ app_calls d2.
Proof using.
  intros K B Hd He B2 Hd2 He2 Hp Hdata Hty Hes Hin.
  rewrite (C23_proposals _ _ _ _ _ _ _ B Hd He) in Hp. apply elem_of_list_omap in Hp as (a&Ha&Hp).
  destruct a as [| |cx m out|]; try done. simpl in Hp. destruct (co_event out) as [ev|] eqn:Ev; [|done]. simpl in Hp. injection Hp as <-.
  exists cx, m, out, ev. split_and!; [done|done|].
  pose proof (C22_events_of_the_log _ _ _ _ _ _ _ B2 Hd2 He2) as Ho.
  assert (Hev : event_of_entry codec (sr_id q2) e =
    Some (EventContext (re_index e) (bool_decide (sr_id q = sr_id q2)), ev)).
  { unfold event_of_entry. rewrite Hty, Hdata, (entry_round_trip _ K). destruct (enc_entry _ _) eqn:En; [by apply (entry_not_empty _ K) in En|].
    simpl. destruct ev. simpl. do 3 f_equal. apply eq_true_iff_eq. rewrite bool_decide_eq_true, N.eqb_eq. done. }
  apply (over_member _ _ _ _ es e _ Ho Hes Hin) in Hev. apply elem_of_list_omap in Hev as (a&Ha2&Hf).
  destruct a; try done. injection Hf as -> ->. by eexists.
Qed.
(** The reverse: an event is applied as owned only if its entry names this
    replica, whatever the entry. *)
Theorem C23_owned_only_if_named r s c xs d outs q cx ev out :
  reaches codec rops sops cops app r s c xs d outs -> delivered (HStart q) xs -> sr_ephemeral q = false ->
  AApply cx ev out ∈ app_calls d ->
  exists es e i, inr es ∈ handed (raft_calls d) /\ e ∈ es /\
    dec_entry codec (re_data e) = Some (Entry (Some i) (ae_contents ev)) /\
    ec_index cx = re_index e /\ ae_correlation ev = ei_entry i /\ (ec_owned cx = true <-> ei_replica i = sr_id q).
Proof using.
  intros B Hd He Hin. pose proof (C22_events_of_the_log _ _ _ _ _ _ _ B Hd He) as Ho.
  assert (Hl : inr (cx, ev) ∈ omap from_log (app_calls d)) by (apply elem_of_list_omap; by eexists).
  destruct (over_source _ _ _ _ _ Ho Hl) as (es&e&Hes&He'&Hev).
  unfold event_of_entry in Hev. destruct (re_data e) eqn:Ed; [done|]. destruct (re_type e) eqn:Et; try done;
    rewrite <- Ed in *; destruct (dec_entry codec (re_data e)) as [[[i|] contents]|] eqn:Hde; try done;
    injection Hev as <- <-; exists es, e, i; simpl; split_and!; try done; apply N.eqb_eq.
Qed.

(** * C25 *)
(** Whenever the application is called, it is told the largest instant delivered
    so far, the id of its replica, and whether the replica led when the call
    began. *)
Theorem C25_time_of_the_application r s c xs d outs x d' out :
  reaches codec rops sops cops app r s c xs d outs -> receives d x d' out ->
  exists calls, app_calls d' = app_calls d ++ calls /\
    forall a cx, a ∈ calls -> context_of a = Some cx ->
      cx_instant cx = now (xs ++ [x]) /\ cx_leader cx = ra_leader rops (d_raft d).1 /\ (forall q, delivered (HStart q) (xs ++ [x]) -> cx_id cx = sr_id q).
Proof using.
  intros B H. pose proof (born_inv _ _ _ _ _ _ _ _ _ _ _ B) as I.
  pose proof (born_next _ _ _ _ _ _ _ _ _ _ _ _ _ _ B H) as B'.
  destruct (receive_call _ _ _ _ _ _ _ _ _ I H) as (rt&mt&tr&C). exists tr. split; [by apply C|].
  intros a cx Ha Hcx. destruct (call_context _ _ _ _ _ _ _ _ _ _ C _ _ Ha Hcx) as (->&->&->). split_and!; [|done|].
  - by apply (born_now _ _ _ _ _ _ _ _ _ _ _ B').
  - intros q Hd. by destruct (life_request _ _ (born_life _ _ _ _ _ _ _ _ _ _ _ B') _ Hd).
Qed.
(** The clock of consensus advances at most once per call; from the start of the
    replica on it advances exactly when the tick period has passed since it was
    last advanced or started, unless the replica is a lame duck. *)
Theorem C25_clock r s c xs d outs q t0 x d' out :
  consensus_ok rops ->
  reaches codec rops sops cops app r s c xs d outs -> delivered (HStart q) xs -> sr_ephemeral q = false ->
  last_advance codec rops sops cops app (fresh r s c) xs t0 ->
  receives d x d' out -> x.2 <> Some None -> ~ delivered HLameduck (xs ++ [x]) ->
  exists calls, raft_calls d' = raft_calls d ++ calls /\
    ticks calls = if decide (period q <= now (xs ++ [x]) - t0) then 1%nat else 0%nat.
Proof using.
  intros K B Hd He Hl H Hx Hlame. pose proof (born_inv _ _ _ _ _ _ _ _ _ _ _ B) as I.
  pose proof (born_next _ _ _ _ _ _ _ _ _ _ _ _ _ _ B H) as B'.
  destruct (receive_call _ _ _ _ _ _ _ _ _ I H) as (rt&mt&tr&C). exists rt. split; [by apply C|].
  destruct (life_request _ _ (born_life _ _ _ _ _ _ _ _ _ _ _ B) _ Hd) as (_&_&Ha0&_).
  assert (Hd' : delivered (HStart q) (xs ++ [x])) by (apply delivered_snoc; by left).
  destruct (life_request _ _ (born_life _ _ _ _ _ _ _ _ _ _ _ B') _ Hd') as (_&E2&Ha&E3). rewrite He in E3. destruct E3 as [E3 _].
  assert (Hld : d_lameduck d' = false).
  { pose proof (life_lameduck _ _ (born_life _ _ _ _ _ _ _ _ _ _ _ B')) as HL. destruct (d_lameduck d'); [|done].
    destruct Hlame. by apply HL. }
  assert (Hnc : d_phase d <> Created).
  { intros Hc. pose proof (created_empty _ _ I Hc) as (Hn&_). done. }
  assert (Hh : match rt with KInit _ _ _ :: _ => d_instant d' | _ => d_tick_instant d end = t0).
  { pose proof (call_first _ _ _ _ _ _ _ _ _ _ C Hnc) as F.
    rewrite <- (last_advance_instant _ _ _ _ _ _ _ _ _ _ (proj1 B) Hl _ _ B). destruct F as [|[] ? ?]; done. }
  pose proof (call_ticks _ _ _ _ _ _ _ _ _ _ C) as Ck. pose proof (call_due _ _ _ _ _ _ _ _ _ _ C K Ha) as Cd. simpl in Ck.
  rewrite Hh, E3, (born_now _ _ _ _ _ _ _ _ _ _ _ B') in *. rewrite E2 in Cd.
  destruct (decide (period q <= now (xs ++ [x]) - t0)) as [Hp|Hp]; [by apply Cd|].
  destruct Ck as [(->&_)|(_&Hq&_)]; [done|]. contradiction.
Qed.
(** Even without any assumption on consensus, and for every call. *)
Theorem C25_clock_at_most_once r s c xs d outs x d' out :
  reaches codec rops sops cops app r s c xs d outs -> receives d x d' out ->
  exists calls, raft_calls d' = raft_calls d ++ calls /\ (ticks calls <= 1)%nat /\
    (ticks calls = 1%nat -> forall t0 q, last_advance codec rops sops cops app (fresh r s c) xs t0 ->
       delivered (HStart q) xs -> sr_ephemeral q = false -> period q <= now (xs ++ [x]) - t0).
Proof using.
  intros B H. pose proof (born_inv _ _ _ _ _ _ _ _ _ _ _ B) as I.
  pose proof (born_next _ _ _ _ _ _ _ _ _ _ _ _ _ _ B H) as B'.
  destruct (receive_call _ _ _ _ _ _ _ _ _ I H) as (rt&mt&tr&C). exists rt. split; [by apply C|].
  pose proof (call_ticks _ _ _ _ _ _ _ _ _ _ C) as Ck. simpl in Ck. split; [destruct Ck as [(->&_)|(->&_)]; lia|].
  intros Hone t0 q Hl Hd He.
  destruct (life_request _ _ (born_life _ _ _ _ _ _ _ _ _ _ _ B) _ Hd) as (_&_&Ha0&_).
  assert (Hd' : delivered (HStart q) (xs ++ [x])) by (apply delivered_snoc; by left).
  destruct (life_request _ _ (born_life _ _ _ _ _ _ _ _ _ _ _ B') _ Hd') as (_&E2&Ha&E3). rewrite He in E3. destruct E3 as [E3 _].
  assert (Hnc : d_phase d <> Created).
  { intros Hc. pose proof (created_empty _ _ I Hc) as (Hn&_). done. }
  assert (Hh : match rt with KInit _ _ _ :: _ => d_instant d' | _ => d_tick_instant d end = t0).
  { pose proof (call_first _ _ _ _ _ _ _ _ _ _ C Hnc) as F.
    rewrite <- (last_advance_instant _ _ _ _ _ _ _ _ _ _ (proj1 B) Hl _ _ B). destruct F as [|[] ? ?]; done. }
  rewrite Hh, E3, (born_now _ _ _ _ _ _ _ _ _ _ _ B') in Ck. destruct Ck as [(Hz&_)|(_&Hq&_)]; [|done]. by rewrite Hz in Hone.
Qed.

(** * C66 *)
(** The clock of consensus does not advance on a lame duck. *)
Theorem C66_lame_duck r s c xs d outs x d' out :
  reaches codec rops sops cops app r s c xs d outs -> receives d x d' out -> delivered HLameduck (xs ++ [x]) ->
  exists calls, raft_calls d' = raft_calls d ++ calls /\ KTick ∉ calls.
Proof using.
  intros B H Hlame. pose proof (born_inv _ _ _ _ _ _ _ _ _ _ _ B) as I.
  pose proof (born_next _ _ _ _ _ _ _ _ _ _ _ _ _ _ B H) as B'.
  destruct (receive_call _ _ _ _ _ _ _ _ _ I H) as (rt&mt&tr&C). exists rt. split; [by apply C|].
  apply (life_lameduck _ _ (born_life _ _ _ _ _ _ _ _ _ _ _ B')) in Hlame.
  pose proof (call_ticks _ _ _ _ _ _ _ _ _ _ C) as Ck. simpl in Ck. destruct Ck as [(Hz&_)|(_&_&_&Hn)]; [|congruence].
  intros Hin. assert (Hi : tt ∈ omap tick_of rt) by (apply elem_of_list_omap; by eexists).
  unfold ticks in Hz. apply nil_length_inv in Hz. rewrite Hz in Hi. by apply elem_of_nil in Hi.
Qed.

(** * C26 *)
(** Once stopped, a replica refuses to be started, asked for or changed, and
    system messages and handshakes; it never calls the application with a
    command; being stopped again has no effect. What is missing: see the
    refutations below. *)
Theorem C26_stopped_partial r s c xs d outs t :
  reaches codec rops sops cops app r s c xs d outs -> delivered HStop xs ->
  (forall m, match m with
             | HStart _ | HChange _ | HCheck | HGetState | HHandshake _ => True
             | HPeer p => pm_kind p = KSystem
             | _ => False
             end -> receive codec rops sops cops app d (t, Some (Some m)) = Err InvalidOperation) /\
  (forall x d' out, receives d x d' out ->
     exists calls, app_calls d' = app_calls d ++ calls /\ omap command_of calls = []) /\
  receive codec rops sops cops app d (t, Some (Some HStop)) = receive codec rops sops cops app d (t, None).
Proof using.
  intros B Hs. pose proof (born_life _ _ _ _ _ _ _ _ _ _ _ B) as L. apply (life_stopped _ _ L) in Hs.
  pose proof (born_inv _ _ _ _ _ _ _ _ _ _ _ B) as I.
  split_and!.
  - intros m Hm. apply refused; [by rewrite Hs|]. destruct m; try done. by rewrite Hs.
  - intros x d' out H. destruct (receive_call _ _ _ _ _ _ _ _ _ I H) as (rt&mt&tr&C). exists tr. split; [by apply C|].
    rewrite (call_commands _ _ _ _ _ _ _ _ _ _ C). rewrite decide_False; [done|].
    destruct x as [t' m]. destruct (phase_step _ _ _ _ _ _ _ _ _ _ I H) as (->&Hq&_).
    rewrite Hs. destruct m as [[[]|]|]; simpl; try done. specialize (Hq _ eq_refl). congruence.
  - unfold receive, receive_message. simpl. unfold process_stop. simpl. rewrite Hs. done.
Qed.

(** * C27 *)
(** A start request is refused unless it is the first, before any stop. *)
Theorem C27_starts_once r s c xs d outs t q :
  reaches codec rops sops cops app r s c xs d outs ->
  delivered HStop xs \/ (exists q', delivered (HStart q') xs) ->
  receive codec rops sops cops app d (t, Some (Some (HStart q))) = Err InvalidOperation.
Proof using.
  intros B Hs. pose proof (born_life _ _ _ _ _ _ _ _ _ _ _ B) as L. apply refused_start.
  intros Hc. destruct Hs as [Hs|[q' Hs]].
  - apply (life_stopped _ _ L) in Hs. congruence.
  - destruct (life_created _ _ L Hc) as [Hn _]. by apply (Hn q').
Qed.
(** Before it is started nothing reaches the application nor consensus, and
    nothing of theirs is handed to the host; requests and messages of other
    replicas are refused. *)
Theorem C27_before_start r s c xs d outs :
  reaches codec rops sops cops app r s c xs d outs -> (forall q, ~ delivered (HStart q) xs) ->
  raft_calls d = [] /\ app_calls d = [] /\ Forall (fun out => omap app_out out = []) outs /\
  forall t m, match m with
              | HChange _ | HCheck | HGetState | HHandshake _ => True
              | HPeer p => pm_kind p = KSystem
              | _ => False
              end -> receive codec rops sops cops app d (t, Some (Some m)) = Err InvalidOperation.
Proof using.
  intros B Hn. pose proof (born_life _ _ _ _ _ _ _ _ _ _ _ B) as L.
  pose proof (born_inv _ _ _ _ _ _ _ _ _ _ _ B) as I.
  pose proof (life_none _ _ L Hn) as Ha. destruct (core_absent _ _ (inv_core _ _ I) Ha) as (Hp&Hr&_).
  assert (Hap : app_calls d = []) by (unfold app_calls; by rewrite Ha).
  split_and!; try done.
  - clear Hr Hp L I Ha Hap. revert d outs B Hn. induction xs as [|x xs IH] using rev_ind; intros d outs B Hn.
    + destruct B as [_ [= <- <-]]. constructor.
    + assert (Hap : app_calls d = []).
      { unfold app_calls. by rewrite (life_none _ _ (born_life _ _ _ _ _ _ _ _ _ _ _ B) Hn). }
      apply born_snoc in B as (d1&o1&out&B&H&->). apply Forall_app. split.
      * eapply IH; [exact B|]. intros q Hd. apply (Hn q), delivered_snoc. by left.
      * constructor; [|constructor]. destruct (receive_call _ _ _ _ _ _ _ _ _ (born_inv _ _ _ _ _ _ _ _ _ _ _ B) H) as (rt&mt&tr&C).
        rewrite (call_outputs _ _ _ _ _ _ _ _ _ _ C). pose proof (call_app _ _ _ _ _ _ _ _ _ _ C) as E. rewrite Hap in E.
        symmetry in E. by apply app_eq_nil in E as [_ ->].
  - intros t m Hm. apply refused; [done|]. by destruct m.
Qed.

(** * C28 *)
(** A call of a started replica emits one status with what the replica knows
    after it if that differs from what it knew before, and no status otherwise.
    When asked for its status, it emits it unless it knows nothing. What is
    missing: what a replica that does not lead knows, see below. *)
Theorem C28_status_partial r s c xs d outs q x d' out :
  consensus_ok rops ->
  reaches codec rops sops cops app r s c xs d outs -> delivered (HStart q) xs -> sr_ephemeral q = false ->
  receives d x d' out ->
  let before := match x.2 with Some (Some HCheck) => raft_st0 | _ => known rops (sr_id q) (d_raft d) end in
  let after := known rops (sr_id q) (d_raft d') in
  omap cluster_out out = if decide (before = after) then [] else [after].
Proof using.
  intros K B Hd He H before after. pose proof (born_inv _ _ _ _ _ _ _ _ _ _ _ B) as I.
  pose proof (born_next _ _ _ _ _ _ _ _ _ _ _ _ _ _ B H) as B'.
  destruct (receive_call _ _ _ _ _ _ _ _ _ I H) as (rt&mt&tr&C).
  destruct (life_request _ _ (born_life _ _ _ _ _ _ _ _ _ _ _ B) _ Hd) as (I0&E0&Ha0&_).
  assert (Hd' : delivered (HStart q) (xs ++ [x])) by (apply delivered_snoc; by left).
  destruct (life_request _ _ (born_life _ _ _ _ _ _ _ _ _ _ _ B') _ Hd') as (I1&E1&Ha&_).
  rewrite He in E0, E1.
  destruct (call_status _ _ _ _ _ _ _ _ _ _ C K Ha E1) as (prev&Hprev&->).
  assert (Hnc : d_phase d <> Created).
  { intros Hc. pose proof (created_empty _ _ I Hc) as (Hn&_). done. }
  rewrite (Hprev Hnc), (inv_known _ _ I K Ha0 E0).
  rewrite !known_state by (done || apply (call_inv _ _ _ _ _ _ _ _ _ _ C)). rewrite I0, I1. fold after.
  assert (Hb : before = if is_check_msg x.2 then raft_st0 else known rops (sr_id q) (d_raft d)).
  { unfold before. destruct x as [t [[[]|]|]]; done. }
  by rewrite <- Hb.
Qed.

(** * C29 *)
(** Apart from snapshots it received, a replica only gives consensus messages
    that the communication module accepted, decoded. What is missing: who they
    are for and who they are from, see below. *)
Theorem C29_messages_partial r s c xs d outs x d' out :
  reaches codec rops sops cops app r s c xs d outs -> receives d x d' out ->
  exists calls, raft_calls d' = raft_calls d ++ calls /\
    forall m, KStep m ∈ calls -> rm_type m <> MsgSnapshot ->
      exists p c' p' pl, x.2 = Some (Some (HPeer p)) /\ pm_kind p = KSystem /\
        co_in cops (d_comm d).1 (IPeer p) = Ok (c', Some (IPeer p')) /\
        pm_payload p' = Some pl /\ dec_rmsg codec (pl_contents pl) = Some m.
Proof using.
  intros B H. pose proof (born_inv _ _ _ _ _ _ _ _ _ _ _ B) as I. destruct x as [t m].
  assert (Hm : m = Some None \/ m <> Some None) by (destruct m as [[]|]; [by right|by left|by right]).
  destruct Hm as [->|Hm].
  { injection H as <- <-. exists []. rewrite app_nil_r. split; [done|]. intros ? Hin. by apply elem_of_nil in Hin. }
  apply rest_call in H as (d1&rest&rt&H&_&_&_&_&_&_&_&Hr&Hf); [|done|done].
  assert (Hlate : forall m, KStep m ∈ rt -> rm_type m = MsgSnapshot).
  { intros m' Hin. rewrite Forall_forall in Hf. by apply (Hf _ Hin). }
  assert (Hsame : raft_calls d1 = raft_calls d -> exists calls, raft_calls d' = raft_calls d ++ calls /\
    forall m', KStep m' ∈ calls -> rm_type m' <> MsgSnapshot -> False).
  { intros E. exists rt. split; [by rewrite Hr, E|]. intros m' Hin Ht. by apply Hlate in Hin. }
  assert (Hdone : raft_calls d1 = raft_calls d \/ (exists k, raft_calls d1 = raft_calls d ++ [k] /\ forall m, k <> KStep m) ->
    exists calls, raft_calls d' = raft_calls d ++ calls /\
    forall m0, KStep m0 ∈ calls -> rm_type m0 <> MsgSnapshot ->
      exists p c' p' pl, m = Some (Some (HPeer p)) /\ pm_kind p = KSystem /\
        co_in cops (d_comm d).1 (IPeer p) = Ok (c', Some (IPeer p')) /\
        pm_payload p' = Some pl /\ dec_rmsg codec (pl_contents pl) = Some m0).
  { intros [E|(k&E&Hk)].
    - destruct (Hsame E) as (calls&E2&Hc). exists calls. split; [done|]. intros m0 Hin Ht. by destruct (Hc _ Hin Ht).
    - exists (k :: rt). rewrite Hr, E, <- app_assoc. split; [done|]. intros m0 Hin Ht.
      apply elem_of_cons in Hin as [<-|Hin]; [by destruct (Hk m0)|]. by apply Hlate in Hin. }
  destruct m as [[m|]|]; [|done|by apply Hdone; left; subst d1].
  destruct (decide (is_start m = true)) as [Es|Es].
  { destruct m as [q| | | | | | | | | ]; try done. apply process_start_ext in H as (_&_&_&_&_&_&_&_&_&_&_&_&_&_&_&H).
    apply Hdone. destruct (sr_ephemeral q); [left; destruct H as (E&_); unfold raft_calls; by rewrite E|right].
    destruct H as (data&r0&n&st&_&_&_&E&_). exists (KInit (sr_id q) (sr_leader q) data). split; [|done].
    unfold raft_calls. by rewrite E. }
  assert (Hc : (exists q : change_request, m = HChange q) \/ ~ (exists q : change_request, m = HChange q)).
  { destruct m; try (right; by intros [??]). left. by eexists. }
  destruct Hc as [[q ->]|Ec].
  { apply process_change_ext in H as (_&_&H). apply Hdone. destruct (change_of q) as [cc|]; [right|left; by subst d1].
    destruct H as (r0&e&_&_&->). exists (KProposeChange cc). by split. }
  assert (Hc : (exists p, m = HPeer p /\ pm_kind p = KSystem) \/ ~ (exists p, m = HPeer p /\ pm_kind p = KSystem)).
  { destruct m as [| | | | |p| | | |]; try (right; by intros (?&?&_)).
    destruct (pm_kind p) eqn:Ek; [left; by eexists|right; intros (?&[= <-]&?); congruence..]. }
  destruct Hc as [(p&->&Hk)|Ep].
  2: { apply Hdone. left. unfold raft_calls. erewrite dispatch_raft; [|exact H|..]; try done.
       destruct m as [| | | | |p| | | | ]; try done. - by destruct (Ec (ex_intro _ r0 eq_refl)). - intros Hk. apply Ep. by exists p. }
  simpl in H. rewrite Hk in H. apply process_system_ext in H as (_&_&c'&o&Hin&H). simpl in Hin, H.
  destruct o as [[|p'|]|]; try done; [|by apply Hdone; left; subst d1].
  destruct H as (Hk'&pl&Hpl&[(_&->)|(x&r0&Hdec&_&->)]); [by apply Hdone; left|].
  exists (KStep x :: rt). split; [rewrite Hr; unfold raft_calls; simpl; by rewrite <- app_assoc|].
  intros m0 Hm0 Ht. apply elem_of_cons in Hm0 as [[= ->]|Hm0]; [|by apply Hlate in Hm0].
  by exists p, c', p', pl.
Qed.

(** * C30 *)
(** A change request is answered in the same call, once, and nothing else is
    answered; consensus is asked for exactly the requested change; the answer is
    whether it took it. An unknown kind of change is rejected. *)
Theorem C30_change_requests r s c xs d outs t (q : change_request) d' out :
  reaches codec rops sops cops app r s c xs d outs ->
  receives d (t, Some (Some (HChange q))) d' out ->
  let requested := if cr_type q =? 1 then Some (ConfChange AddNode (cr_replica q))
                   else if cr_type q =? 2 then Some (ConfChange RemoveNode (cr_replica q)) else None in
  exists status calls,
    omap answer_out out = [OChange (cr_id q) status] /\
    raft_calls d' = raft_calls d ++ calls /\
    match requested with
    | None => status = ChangeRejected /\ forall ch, KProposeChange ch ∉ calls
    | Some ch => (exists later, calls = KProposeChange ch :: later /\ forall ch', KProposeChange ch' ∉ later) /\
        (status = ChangePending <-> (ra_propose_change rops (d_raft d).1 ch).2 = None)
    end.
Proof using.
  intros B H requested. pose proof (born_inv _ _ _ _ _ _ _ _ _ _ _ B) as I.
  apply rest_call in H as (d1&rest&rt&H&_&_&_&_&_&->&Hn&Hr&Hf); [|done|done].
  assert (Hlate : forall ch, KProposeChange ch ∉ rt).
  { intros ch Hin. rewrite Forall_forall in Hf. by apply (Hf _ Hin). }
  apply process_change_ext in H as (_&_&H). change (change_of q) with requested in H.
  destruct requested as [ch|].
  - destruct H as (r0&e&Hp&He&->). simpl in Hp. eexists _, _. split_and!; [| |by eexists|].
    + rewrite omap_app, (answers_none rest) by done. simpl. by rewrite (inv_messages _ _ I).
    + rewrite Hr. unfold raft_calls. simpl. by rewrite <- app_assoc.
    + rewrite Hp. simpl. by destruct e.
  - subst d1. eexists _, rt. split_and!; try done.
    rewrite omap_app, (answers_none rest) by done. simpl. by rewrite (inv_messages _ _ I).
Qed.

(** * C31 *)
(** In ephemeral mode consensus is never called at all, every event is applied
    right after the command that emitted it, as owned, no snapshot is loaded, and
    nothing is sent to other replicas. *)
Theorem C31_ephemeral r s c xs d outs q x d' out :
  reaches codec rops sops cops app r s c xs d outs -> receives d x d' out ->
  delivered (HStart q) (xs ++ [x]) -> sr_ephemeral q = true ->
  raft_calls d' = [] /\ applied_at_once (app_calls d') /\
  exists calls, comm_calls d' = comm_calls d ++ calls /\ forall m, MOut m ∉ calls.
Proof using.
  intros B H Hd He. pose proof (born_inv _ _ _ _ _ _ _ _ _ _ _ B) as I.
  pose proof (born_next _ _ _ _ _ _ _ _ _ _ _ _ _ _ B H) as B'.
  destruct (receive_call _ _ _ _ _ _ _ _ _ I H) as (rt&mt&tr&C).
  destruct (life_request _ _ (born_life _ _ _ _ _ _ _ _ _ _ _ B') _ Hd) as (_&E1&_&E2). rewrite He in E1, E2.
  split_and!; [done|by apply (hist_at_once _ _ _ _ (born_history _ _ _ _ _ _ _ _ _ _ _ B'))|].
  exists mt. split; [by apply C|]. intros m Hin. destruct (call_at_once _ _ _ _ _ _ _ _ _ _ C E1) as [_ F].
  rewrite Forall_forall in F. by apply (F _ Hin).
Qed.

(** * C63 *)
(** The communication module is told the committed configuration exactly when a
    status is emitted. What is missing: see the refutation below. *)
Theorem C63_departed_replicas_partial r s c xs d outs x d' out :
  reaches codec rops sops cops app r s c xs d outs -> receives d x d' out ->
  exists calls, comm_calls d' = comm_calls d ++ calls /\
    omap cluster_call calls = map (fun _ => cs_voters (config_of (raft_calls d'))) (omap cluster_out out).
Proof using.
  intros B H. pose proof (born_inv _ _ _ _ _ _ _ _ _ _ _ B) as I.
  destruct (receive_call _ _ _ _ _ _ _ _ _ I H) as (rt&mt&tr&C). exists mt. split; by apply C.
Qed.

(** * C64 *)
(** What the application emits is handed to the host in the same call, in order,
    nothing else is handed over in its name, and while the replica is started
    every call gives the application exactly one command: the message of the
    application if that is what was delivered. *)
Theorem C64_messages_of_the_application r s c xs d outs x d' out :
  reaches codec rops sops cops app r s c xs d outs -> receives d x d' out ->
  exists calls, app_calls d' = app_calls d ++ calls /\
    omap app_out out = concat (map emitted calls) /\
    ((exists q, delivered (HStart q) (xs ++ [x])) -> ~ delivered HStop (xs ++ [x]) ->
     omap command_of calls = match x.2 with
                             | Some None => []
                             | Some (Some (HApp m)) => [Some m]
                             | _ => [None]
                             end).
Proof using.
  intros B H. pose proof (born_inv _ _ _ _ _ _ _ _ _ _ _ B) as I.
  pose proof (born_next _ _ _ _ _ _ _ _ _ _ _ _ _ _ B H) as B'.
  destruct (receive_call _ _ _ _ _ _ _ _ _ I H) as (rt&mt&tr&C). exists tr. split_and!; [by apply C|by apply C|].
  intros [q Hq] Hs. pose proof (born_life _ _ _ _ _ _ _ _ _ _ _ B') as L.
  rewrite (call_commands _ _ _ _ _ _ _ _ _ _ C). rewrite decide_True.
  - by destruct x as [t [[[]|]|]].
  - destruct (d_phase d') eqn:Ep; [|done|by destruct Hs; apply (life_stopped _ _ L)].
    destruct (life_created _ _ L Ep) as [Hn _]. by destruct (Hn q).
Qed.

(** * C65 *)
(** A snapshot a replica creates is that of the state its application has after
    exactly the calls recorded, at the position reached in the log, with the
    committed configuration. *)
Theorem C65_snapshots r s c xs d outs q x d' out :
  reaches codec rops sops cops app r s c xs d outs -> receives d x d' out ->
  delivered (HStart q) (xs ++ [x]) -> sr_ephemeral q = false ->
  in_order_from (start_index q) (handed (raft_calls d')) ->
  exists calls, raft_calls d' = raft_calls d ++ calls /\
    forall i conf data, KSave i conf data ∈ calls ->
      i = position (start_index q) (handed (raft_calls d')) /\ conf = config_of (raft_calls d') /\
      exists st, called_as_recorded app (st, app_calls d') /\ a_save app st = Ok data /\
        hands_over codec (sr_id q) (handed (raft_calls d')) (omap from_log (app_calls d')).
Proof using.
  intros B H Hd He Ho. pose proof (born_inv _ _ _ _ _ _ _ _ _ _ _ B) as I.
  pose proof (born_next _ _ _ _ _ _ _ _ _ _ _ _ _ _ B H) as B'.
  destruct (receive_call _ _ _ _ _ _ _ _ _ I H) as (rt&mt&tr&C). exists rt. split; [by apply C|].
  intros i conf data Hin. destruct (call_saves _ _ _ _ _ _ _ _ _ _ C _ _ _ Hin) as (->&->&[st t]&Hst&Hsave).
  destruct (life_request _ _ (born_life _ _ _ _ _ _ _ _ _ _ _ B') _ Hd) as (_&E2&_). rewrite He in E2.
  pose proof (born_history _ _ _ _ _ _ _ _ _ _ _ B') as Hh.
  split_and!; [|done|].
  - rewrite (hist_applied _ _ _ _ Hh) by done. rewrite (born_start_of _ _ _ _ _ _ _ _ _ _ _ _ B' Hd He), after_position by done. done.
  - exists st. split_and!; [|done|by eapply C22_events_of_the_log].
    assert (Et : app_calls d' = t) by (unfold app_calls; by rewrite Hst). rewrite Et. by apply (hist_actor _ _ _ _ Hh).
Qed.

(** * C67 *)
(** The application is initialised by the start request, with its id, its
    configuration and the current instant, and never again; consensus is given
    the snapshot of that initial state. *)
Theorem C67_initialisation r s c xs d outs t q d' out :
  reaches codec rops sops cops app r s c xs d outs -> receives d (t, Some (Some (HStart q))) d' out ->
  exists cx st, head (app_calls d') = Some (AInit cx) /\
    cx_id cx = sr_id q /\ cx_config cx = sr_config q /\ cx_instant cx = N.max (now xs) t /\
    a_init app cx = Ok st /\
    if sr_ephemeral q then raft_calls d' = []
    else exists data, a_save app st = Ok data /\ head (raft_calls d') = Some (KInit (sr_id q) (sr_leader q) data).
Proof using.
  intros B H. pose proof (born_inv _ _ _ _ _ _ _ _ _ _ _ B) as I.
  pose proof (born_next _ _ _ _ _ _ _ _ _ _ _ _ _ _ B H) as B'.
  pose proof (born_now _ _ _ _ _ _ _ _ _ _ _ B) as Hnow.
  destruct (receive_call _ _ _ _ _ _ _ _ _ I H) as (rt'&mt&tr&C).
  destruct (phase_step _ _ _ _ _ _ _ _ _ _ I H) as (_&Hq&_). specialize (Hq _ eq_refl).
  destruct (created_empty _ _ I Hq) as (_&Hrc&_).
  pose proof H as Hp. apply receive_parts in Hp as (e1&e2&e3&c0&ws&H1&H2&H3&_&E4&_); [|done].
  apply rest_call in H as (d1&rest&rt&H&_&_&_&_&_&_&_&Hr&_); [|done|done].
  rewrite H1 in H. injection H as <-.
  simpl in H1. apply process_start_ext in H1 as (_&_&_&E1&E2&_&_&_&Es&_&Hcx&_&_&(st&Hst&Ha)&_&H1). simpl in *.
  exists (context e1), st. split_and!; try done.
  - assert (Happ : exists tl, app_calls d' = AInit (context e1) :: tl).
    { apply (run_app_ext _ rops) in H2 as (Ss2&Tk2&R2&V2&Rf2&S2&A2&_&mt1&tr1&ps&X2&P2&_).
      assert (Ea1 : app_calls e1 = [AInit (context e1)]) by (unfold app_calls; by rewrite Ha).
      pose proof (ext_app _ _ _ _ _ _ _ _ X2) as Ea2. rewrite Ea1 in Ea2.
      assert (Ed : app_calls d' = app_calls e3) by by rewrite E4. rewrite Ed.
      destruct (d_ephemeral e2) eqn:Ee.
      - unfold run_replication in H3. rewrite Ee in H3. injection H3 as <-. rewrite Ea2. by eexists.
      - apply run_replication_ext in H3; [|done|by rewrite S2, Es; apply I].
        destruct H3 as (_&_&_&rt1&tk&body&rt3&mt3&tr3&ms3&X3&_). rewrite (ext_app _ _ _ _ _ _ _ _ X3), Ea2. by eexists. }
    destruct Happ as [tl ->]. done.
  - by rewrite Hcx.
  - by rewrite Hcx.
  - rewrite Hcx. simpl. by rewrite Hnow.
  - destruct (sr_ephemeral q) eqn:Eq.
    + rewrite <- (core_ephemeral _ _ (inv_core _ _ (born_inv _ _ _ _ _ _ _ _ _ _ _ B'))); [done|].
      assert (Hd : delivered (HStart q) (xs ++ [(t, Some (Some (HStart q)))])) by (apply delivered_snoc; by right).
      destruct (life_request _ _ (born_life _ _ _ _ _ _ _ _ _ _ _ B') _ Hd) as (_&->&_). by rewrite Eq.
    + destruct H1 as (data&r0&n&st'&Hst'&Hsv&_&Hrr&_). rewrite Hst in Hst'. injection Hst' as <-. exists data. split; [done|].
      rewrite Hr. unfold raft_calls at 1. rewrite Hrr. simpl. fold (raft_calls d). by rewrite Hrc.
Qed.
Theorem C67_initialised_once r s c xs d outs :
  reaches codec rops sops cops app r s c xs d outs ->
  match app_calls d with
  | [] => True
  | first :: later => (exists cx, first = AInit cx) /\ forall cx, AInit cx ∉ later
  end.
Proof using.
  intros B. pose proof (hist_actor _ _ _ _ (born_history _ _ _ _ _ _ _ _ _ _ _ B)) as Ha.
  unfold app_calls. destruct (d_actor d) as [[st t]|]; [|done]. destruct (Ha _ eq_refl) as (cx&st0&_&Hm).
  apply moves_calls in Hm as (l&->&Hl). simpl. split; [by eexists|]. intros cx' Hin. rewrite Forall_forall in Hl. by apply (Hl _ Hin).
Qed.
End Theorems.


(** * Cases that meet the hypotheses, and refutations *)

(** A leader proposes two events, one of which it is asked for while consensus
    hands over a change of the configuration, takes a snapshot at index 3, and
    ticks. *)
Definition toy_history : list (delivery unit unit) :=
  [(5, toy_start true false 1);
   (7, toy_app_msg 21 [4; 4]);
   (3, Some (Some (HChange (ChangeRequest 8 2 1))));
   (16, toy_app_msg 22 [5]);
   (16, toy_peer 2 1 2 [1; 30; 2; 6]);
   (17, Some (Some HGetState))].
Example toy_history_meets_hypotheses :
  match toy_run toy_history with
  | Ok (d, outs) =>
      omap proposal_of (raft_calls d) = [[1; 21; 1; 4; 4]; [1; 22; 1; 5]] /\
      omap event_index (app_calls d) = [2; 4; 5; 6] /\
      omap (fun a => match a with AApply cx ev _ => Some (ec_owned cx, ev) | _ => None end) (app_calls d)
        = [(true, ActorEvent 21 [4; 4]); (true, ActorEvent 22 [5]); (false, ActorEvent 30 [6]); (false, ActorEvent 30 [6; 0])] /\
      in_order_from 1 (handed (raft_calls d)) /\
      ticks (raft_calls d) = 1%nat /\
      omap (fun k => match k with KSave i c data => Some (i, cs_voters c, data) | _ => None end) (raft_calls d) = [(3, [1; 2], [7; 4; 4])] /\
      map (omap answer_out) outs = [[OStarted 1]; []; [OChange 8 ChangePending]; []; []; [OState 6 0]] /\
      map (omap cluster_out) outs = [[]; []; [RaftSt 1 1 [1; 2] false]; []; []; []] /\
      map (omap app_out) outs = [[]; [ActorCommand 21 [] [4; 4]]; []; [ActorCommand 22 [] [5]]; []; []] /\
      omap (fun a => cx_instant <$> context_of a) (app_calls d) = [5; 5; 7; 7; 16; 16; 17]
  | _ => False
  end.
Proof. vm_compute. split_and!; try done; rewrite ?NoDup_cons, ?elem_of_list_singleton; repeat constructor; set_solver. Qed.
(** The clock was last advanced at 16. *)
Notation toy_last := (last_advance toy_codec toy_ops toy_snap toy_comm toy_app (fresh toy0 tt tt)).
Definition toy_step (xs : list (delivery unit unit)) (x : delivery unit unit) (b : bool) : Prop :=
  match toy_run xs with
  | Ok (d, _) =>
    match receive toy_codec toy_ops toy_snap toy_comm toy_app d x with
    | Ok (d', _) =>
        let rt := drop (length (raft_calls d)) (raft_calls d') in
        raft_calls d' = raft_calls d ++ rt /\
        existsb (fun c => match c with KInit _ _ _ | KTick => true | _ => false end) rt = b
    | _ => False
    end
  | _ => False
  end.
Lemma toy_clock (rt : list raft_call) :
  existsb (fun c => match c with KInit _ _ _ | KTick => true | _ => false end) rt = true <-> Exists clock_call rt.
Proof.
  rewrite existsb_exists, Exists_exists. setoid_rewrite elem_of_list_In.
  split; intros (k&Hin&Hk); exists k; (split; [done|]); by destruct k.
Qed.
Lemma toy_advanced xs x : toy_step xs x true -> toy_last (xs ++ [x]) (now (xs ++ [x])).
Proof.
  unfold toy_step. destruct (toy_run xs) as [[d o]| |] eqn:H1; try done.
  destruct (receive _ _ _ _ _ _ _) as [[d' o']| |] eqn:H2; try done. intros [H3 H4].
  eapply advanced_now; [done|done|exact H3|]. by apply toy_clock.
Qed.
Lemma toy_kept xs x t : toy_last xs t -> toy_step xs x false -> toy_last (xs ++ [x]) t.
Proof.
  unfold toy_step. intros H. destruct (toy_run xs) as [[d o]| |] eqn:H1; try done.
  destruct (receive _ _ _ _ _ _ _) as [[d' o']| |] eqn:H2; try done. intros [H3 H4].
  eapply advanced_before; [done|done|done|exact H3|]. rewrite <- toy_clock, H4. done.
Qed.
Example toy_last_advance : toy_last (take 5 toy_history) 16.
Proof.
  change (take 5 toy_history) with (take 4 toy_history ++ [(16, toy_peer 2 1 2 [1; 30; 2; 6])]).
  apply toy_kept; [|by vm_compute].
  change (toy_last (take 3 toy_history ++ [(16, toy_app_msg 22 [5])]) (now (take 3 toy_history ++ [(16, toy_app_msg 22 [5])]))).
  apply toy_advanced. by vm_compute.
Qed.
(** An ephemeral replica. *)
Example toy_ephemeral :
  match toy_run [(5, toy_start true true 1); (6, toy_app_msg 21 [4]); (6, toy_app_msg 22 [5])] with
  | Ok (d, outs) => raft_calls d = [] /\ length (app_calls d) = 6%nat /\ map (omap app_out) outs =
      [[]; [ActorCommand 21 [] [4]]; [ActorCommand 22 [] [5]]]
  | _ => False
  end.
Proof. by vm_compute. Qed.

(** ** C26 *)
(** A stopped replica still advances the clock of consensus, so that it takes part
    in elections, and does not refuse snapshots. *)
Theorem C26_stopped_refuted :
  (exists xs d outs d' out,
     toy_reaches xs d outs /\ delivered HStop xs /\
     receive toy_codec toy_ops toy_snap toy_comm toy_app d (100, None) = Ok (d', out) /\
     ticks (raft_calls d') = S (ticks (raft_calls d))) /\
  (exists xs d outs d' out m,
     toy_reaches xs d outs /\ delivered HStop xs /\ pm_kind m = KSnapshotRequest /\
     receive toy_codec toy_ops toy_snap toy_comm toy_app d (9, Some (Some (HPeer m))) = Ok (d', out) /\
     comm_calls d' = comm_calls d ++ [MIn (IPeer m); MOut (OutMsg m false); MTake]).
Proof.
  split.
  - exists [(5, toy_start true false 1); (6, Some (Some HStop))]. do 4 eexists. split; [|split; [|split]].
    + split; [done|]. vm_compute. reflexivity.
    + exists 6. set_solver.
    + vm_compute. reflexivity.
    + vm_compute. reflexivity.
  - exists [(5, toy_start true false 1); (6, Some (Some HStop))]. do 4 eexists.
    exists (PeerMsg KSnapshotRequest 1 2 3 (Some (Payload [] []))). split; [|split; [|split; [done|split]]].
    + split; [done|]. vm_compute. reflexivity.
    + exists 6. set_solver.
    + vm_compute. reflexivity.
    + vm_compute. reflexivity.
Qed.

(** ** C28 and C63 *)
(** A replica that does not lead applies the removal of replica 3 from the
    configuration. No status is emitted, none when it is asked for it, and the
    communication module is not told that replica 3 left. *)
Definition toy_follower : list (delivery unit unit) :=
  [(5, toy_start false false 2); (6, toy_peer 1 2 1 [1; 4]); (7, toy_peer 1 2 1 [2; 3]); (8, Some (Some HCheck))].
Theorem C28_status_refuted : exists d outs,
  toy_reaches toy_follower d outs /\
  cs_voters (config_of (raft_calls d)) = [1; 2; 4] /\ Forall (fun out => omap cluster_out out = []) outs.
Proof.
  do 2 eexists. split; [split; [done|vm_compute; reflexivity]|].
  split; [vm_compute; reflexivity|repeat constructor].
Qed.
Theorem C63_departed_replicas_refuted : exists d outs,
  toy_reaches toy_follower d outs /\
  omap (fun k => match k with KApplyChange c conf => Some (cc_type c, cs_voters conf) | _ => None end) (raft_calls d)
    = [(AddNode, [1; 2; 3; 4]); (RemoveNode, [1; 2; 4])] /\
  (forall ids, MCluster ids ∉ comm_calls d).
Proof.
  do 2 eexists. split; [split; [done|vm_compute; reflexivity]|].
  split; [vm_compute; reflexivity|].
  intros ids Hin. unfold comm_calls in Hin. simpl in Hin. repeat (apply elem_of_cons in Hin as [Hin|Hin]; [done|]). by apply elem_of_nil in Hin.
Qed.
(** ** C29 *)
(** A message of replica 2 for replica 1 whose contents say that it is from
    replica 8 and for replica 9 is given to consensus. *)
Theorem C29_misrouted_refuted : exists xs d outs d' out m,
  toy_reaches xs d outs /\ delivered (HStart (StartRequest true 1 (Some (RaftConfig 10 5 2 0 None 1)) [7] false true)) xs /\
  receive toy_codec toy_ops toy_snap toy_comm toy_app d (6, toy_peer 0 9 8 []) = Ok (d', out) /\
  KStep m ∈ raft_calls d' /\ rm_to m = 9 /\ rm_from m = 8.
Proof.
  exists [(5, toy_start true false 1)]. do 5 eexists. split; [|split; [|split; [|split]]].
  - split; [done|]. vm_compute. reflexivity.
  - exists 5. set_solver.
  - vm_compute. reflexivity.
  - vm_compute. right. left.
  - done.
Qed.
