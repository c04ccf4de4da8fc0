(** Theorems about how a replica uses consensus and its storage (C87-C90). *)
From Verif Require Import Base StorageModel StorageSpec StorageProofs SnapshotModel CommModel ActorModel DriverModel DriverSpec DriverProofs
  DriverBatchProofs DriverTheorems ConsensusModel ConsensusSpec ConsensusProofs ConsensusStoreProofs.

Lemma contract_inits codec t : keeps_contract codec t -> Forall (fun c => forall id l data, c <> KInit id l data) (drop 1 t).
Proof.
  assert (Hh : forall es t, hands_back codec es t -> Forall (fun c => forall id l data, c <> KInit id l data) t).
  { intros es u H. apply hands_back_plain in H. eapply Forall_impl; [exact H|]. by intros [] ? ? ? ?. }
  intros K. induction K as [|id le data|t c K IH Hn Hb Hi|t b lr body K IH Hn (t1&t2&H1&H2&->)]; [constructor|constructor| |].
  - destruct t as [|c0 t]; [done|]. cbn [Datatypes.app drop] in *. apply Forall_app. split; [done|]. by constructor.
  - destruct t as [|c0 t]; [done|]. cbn [Datatypes.app drop] in *. apply Forall_app. split; [done|]. apply Hh in H1, H2.
    repeat first [apply Forall_app; split | apply Forall_cons; split]; try done.
    + rewrite Forall_map. by apply Forall_true.
    + destruct (sn_index (rd_snapshot b) =? 0); repeat constructor; done.
    + destruct (rd_entries b); repeat constructor; done.
Qed.

Section Theorems.
Context {RS SP CS ST REQ RESP ND NR : Type}.
Variable codec : driver_codec.
Variable rops : raft_ops RS.
Variable nops : node_ops ND NR.
Variable sops : snap_ops SP.
Variable cops : comm_ops CS REQ RESP.
Variable app : actor ST.
Notation snode := (simple_ops nops).

(** * C87 *)
(** Whatever the host, consensus, the snapshot processor, the communication module
    and the application do: the replica initialises consensus before it uses it,
    once; it takes a batch only when there is one and acknowledges it, under its
    number, before it makes any other call; and makes no calls but these. *)
Theorem C87_consensus_contract r s c xs d outs :
  reaches codec rops (rec_snap sops) cops app r s c xs d outs ->
  keeps_contract codec (raft_calls d) /\ consensus_runs rops r (raft_calls d) (d_raft d).1.
Proof using.
  intros B. split; [by eapply reaches_contract|by eapply reaches_follows].
Qed.
(** So the calls of RaftSimple that abort the process are never made: it holds a
    node once it is used, and exactly the batches not yet acknowledged, none
    between the calls of the host. *)
Theorem C87_never_aborts s c xs d outs :
  reaches codec snode (rec_snap sops) cops app simple_new s c xs d outs ->
  let r := (d_raft d).1 in
  rs_aborted r = false /\ rs_ready r = ∅ /\ (is_Some (rs_node r) <-> raft_calls d <> []).
Proof using.
  intros B r. pose proof (reaches_contract _ _ _ _ _ _ _ _ _ _ _ B) as K. pose proof (reaches_follows _ _ _ _ _ _ _ _ _ _ _ B) as R.
  pose proof (sound_contract _ _ _ K _ R) as S. fold r in S. destruct (raft_calls d) as [|k t].
  - rewrite S. split_and!; try done. split; [by intros []|done].
  - destruct S as (S1&S2&S3). by split_and!.
Qed.

(** And the node of the raft crate is called exactly as the replica calls
    consensus: nothing is dropped, added, changed or reordered in between. *)
Lemma aborted_stays s c s' : consensus_does snode s c s' -> rs_aborted s = true -> rs_aborted s' = true.
Proof using.
  intros D Ha. inversion D; subst; simpl in *;
    unfold simple_init, simple_step, simple_propose, simple_propose_change, simple_tick, simple_apply_change, simple_advance_apply, simple_get_ready, simple_advance,
      simple_report, simple_set_hard, simple_append, simple_install, simple_create_snapshot, on_node, on_node', on_store in *;
    repeat match goal with
    | H : res_bind _ _ = Ok _ |- _ => apply bind_ok in H as (?&?&?)
    | H : context [let '(_, _) := ?e in _] |- _ => destruct e
    | H : context [match ?e with _ => _ end] |- _ => destruct e
    | |- context [match ?e with _ => _ end] => destruct e
    end; simplify_eq; done.
Qed.
Lemma aborted_run t : forall s s', consensus_runs snode s t s' -> rs_aborted s' = false -> rs_aborted s = false.
Proof using.
  induction t as [|c t IH]; simpl; intros s s' R Ha; [by subst|]. destruct R as (s1&D&R). specialize (IH _ _ R Ha).
  destruct (rs_aborted s) eqn:E; [|done]. rewrite (aborted_stays _ _ _ D E) in IH. done.
Qed.
Lemma call_relayed s c s' n : consensus_does snode s c s' -> (forall id le data, c <> KInit id le data) -> rs_node s = Some n ->
  rs_aborted s' = false -> exists n', rs_node s' = Some n' /\ node_does nops n (rs_ready s) c n' (rs_ready s').
Proof using.
  intros D Hc Hn Ha.
  inversion D as [? ? ? ? ? ? E|m r' b E|p r' E|cc r' e E| |cc r' conf E|r' rd Hh E|num r' lr E| |id st|h|es r' E|sn r' E|i cc data r' Hs E];
    subst; simpl in *;
    unfold simple_has_ready, simple_step, simple_propose, simple_propose_change, simple_tick, simple_apply_change, simple_advance_apply, simple_get_ready, simple_advance,
      simple_report, simple_set_hard, simple_append, simple_install, simple_create_snapshot, on_node, on_node', on_store in *;
    rewrite ?Hn in *; try (by destruct (Hc _ _ _ eq_refl)).
  - destruct (nd_step nops n m) as [n' b'] eqn:En. injection E as <- <-. exists n'. split; [done|]. by econstructor.
  - apply bind_ok in E as (n'&En&[= <-]). exists n'. split; [done|]. by econstructor.
  - destruct (nd_propose_change nops n cc) as [n' e'] eqn:En. injection E as <- <-. exists n'. split; [done|]. by econstructor.
  - eexists. split; [done|]. constructor.
  - apply bind_ok in E as ([n' cf]&En&[= <- <-]). exists n'. split; [done|]. by constructor.
  - destruct (nd_ready nops n) as [n' [rd' rest]] eqn:En. injection E as <- <-. exists n'. split; [done|]. by constructor.
  - destruct (rs_ready s !! num) as [rest|] eqn:El; [|by injection E as <- <-].
    destruct (nd_advance nops n rest) as [n' lr'] eqn:En. injection E as <- <-. exists n'. split; [done|]. by econstructor.
  - eexists. split; [done|]. constructor.
  - eexists. split; [done|]. constructor.
  - eexists. split; [done|]. by econstructor.
  - apply bind_ok in E as (st&Es&[= <-]). eexists. split; [done|]. econstructor; [done|done|]. simpl.
    by destruct (append_entries _ _); simpl in Es; simplify_eq.
  - apply bind_ok in E as (st&Es&[= <-]). eexists. split; [done|]. econstructor; [done|done|]. simpl.
    by destruct (apply_snapshot _ _); simpl in Es; simplify_eq.
  - apply bind_ok in E as (st&Es&[= <-]). eexists. split; [done|]. econstructor; [done|done|]. simpl.
    by destruct (create_snapshot _ _ _ _); simpl in Es; simplify_eq.
Qed.
Lemma calls_relayed t : forall s s' n, consensus_runs snode s t s' -> Forall (fun c => forall id l data, c <> KInit id l data) t ->
  rs_node s = Some n -> rs_aborted s' = false -> exists n', rs_node s' = Some n' /\ node_runs nops n (rs_ready s) t n' (rs_ready s').
Proof using.
  induction t as [|c t IH]; simpl; intros s s' n R F Hn Ha; [subst; by exists n|].
  destruct R as (s1&D&R). inversion F as [|? ? Hc F']; subst. pose proof (aborted_run _ _ _ R Ha) as Ha1.
  destruct (call_relayed _ _ _ _ D Hc Hn Ha1) as (n1&Hn1&D1). destruct (IH _ _ _ R F' Hn1 Ha) as (n'&Hn'&R').
  exists n'. split; [done|]. by exists n1, (rs_ready s1).
Qed.
Theorem C87_node_is_called_as_consensus_is s c xs d outs q :
  reaches codec snode (rec_snap sops) cops app simple_new s c xs d outs -> delivered (HStart q) xs -> sr_ephemeral q = false ->
  exists data t store n n', raft_calls d = KInit (sr_id q) (sr_leader q) data :: t /\
    store_runs (storage_new (snapshot_interval q)) (option_list (stored_by (KInit (sr_id q) (sr_leader q) data))) store /\
    nd_new nops (sr_id q) (sr_raft q) store = Ok n /\ rs_node (d_raft d).1 = Some n' /\ node_runs nops n ∅ t n' ∅.
Proof using.
  intros B Hd He. destruct (reaches_started _ _ _ _ _ _ _ _ _ _ _ _ B Hd He) as (data&r1&t&E&Hi&R).
  destruct (C87_never_aborts _ _ _ _ _ B) as (Ha&Hr&_).
  pose proof (reaches_contract _ _ _ _ _ _ _ _ _ _ _ B) as C. apply contract_inits in C. rewrite E in C. cbn [drop] in C.
  simpl in Hi. unfold simple_init in Hi. apply bind_ok in Hi as (store&Hs&Hi). apply bind_ok in Hi as (n&Hn&[= <-]).
  destruct (calls_relayed _ _ _ n R C eq_refl Ha) as (n'&Hn'&R'). rewrite Hr in R'.
  exists data, t, store, n, n'. split_and!; try done. destruct (sr_leader q); simpl.
  - exists store. split; [|done]. by destruct (apply_snapshot _ _); simpl in Hs; simplify_eq.
  - by injection Hs as <-.
Qed.

(** * C88 *)
(** The store of a replica is the result of the calls that consensus asked for, in
    their order, each of which succeeded, on an empty store; besides, consensus
    itself only asked it for snapshots. *)
Theorem C88_stored s c xs d outs q :
  node_ok nops ->
  reaches codec snode (rec_snap sops) cops app simple_new s c xs d outs -> delivered (HStart q) xs -> sr_ephemeral q = false ->
  exists n ops, rs_node (d_raft d).1 = Some n /\ store_runs (storage_new (snapshot_interval q)) ops (nd_store nops n) /\
    filter (fun op => is_ask op = false) ops = omap stored_by (raft_calls d).
Proof using.
  intros K B Hd He. destruct (reaches_started _ _ _ _ _ _ _ _ _ _ _ _ B Hd He) as (data&r1&t&E&Hi&R).
  pose proof (reaches_contract _ _ _ _ _ _ _ _ _ _ _ B) as C. apply contract_inits in C. rewrite E in C. cbn [drop] in C.
  simpl in Hi. destruct (store_init nops K _ _ _ _ _ _ _ Hi) as (n&ops&Hn&S1&K1).
  destruct (store_calls nops K _ _ _ _ C R Hn) as (n'&ops'&Hn'&S2&K2).
  exists n', (ops ++ ops'). split_and!; [done|apply store_runs_app; by eexists|].
  unfold kept_ops in *. rewrite filter_app, K1, K2, E. cbn [omap list_omap]. by destruct (stored_by _).
Qed.

(** * C89 *)
Lemma reports_none t : forall s s', consensus_runs snode s t s' -> Forall is_report t -> rs_node s = None -> rs_node s' = None.
Proof using.
  induction t as [|c t IH]; simpl; intros s s' R F Hn; [by subst|]. destruct R as (s1&D&R). inversion F as [|? ? Hc F']; subst.
  apply (IH _ _ R F'). destruct c; try done. inversion D; subst. simpl. unfold simple_report, on_node'. by rewrite Hn.
Qed.
Lemma snapshot_near s c xs : node_ok nops -> forall d outs q,
  reaches codec snode (rec_snap sops) cops app simple_new s c xs d outs -> delivered (HStart q) xs -> sr_ephemeral q = false ->
  exists n, rs_node (d_raft d).1 = Some n /\ d_applied d <= snap_index (nd_store nops n) + snapshot_interval q.
Proof using.
  intros K. induction xs as [|x xs IH] using rev_ind; intros d outs q B Hd He.
  { destruct Hd as [t Ht]. by apply elem_of_nil in Ht. }
  destruct (C88_stored _ _ _ _ _ _ K B Hd He) as (n&ops&Hn&S&_). apply store_runs_limit in S.
  change (st_max_diff (storage_new (snapshot_interval q))) with (snapshot_interval q) in S.
  exists n. split; [done|].
  pose proof (born_life _ _ _ _ _ _ _ _ _ _ _ B) as L. destruct (life_request _ _ L _ Hd) as (_&E&Ha&_). rewrite He in E.
  pose proof (reaches_follows _ _ _ _ _ _ _ _ _ _ _ B) as R.
  apply born_snoc in B as (d1&o1&out&B&H&->).
  assert (Hx : x.2 = Some None \/ x.2 <> Some None) by (destruct x as [t [[]|]]; [by right|by left|by right]).
  destruct Hx as [Hx|Hx].
  { apply delivered_snoc in Hd as [Hd|Hd]; [|congruence]. destruct (IH _ _ _ B Hd He) as (n1&Hn1&Hl).
    destruct x as [t m]. simpl in Hx. subst m. injection H as <- <-. simpl in *. by simplify_eq. }
  pose proof (born_inv _ _ _ _ _ _ _ _ _ _ _ B) as I. pose proof (reaches_follows _ _ _ _ _ _ _ _ _ _ _ B) as R1.
  destruct (receive_decides _ _ _ _ _ _ _ _ _ I H Hx E Ha) as (s2&(t1&E1&F1)&(t2&E2&F2)&(id&le&data&Hh)&D).
  assert (Hi : is_Some (rs_node s2.1)).
  { assert (R2 : consensus_runs snode simple_new s2.2 s2.1) by (rewrite E1; apply runs_app; by eexists).
    destruct s2.2 as [|k t]; [done|]. injection Hh as ->. destruct R2 as (r1&D1&R2). apply nodes_kept in R2; [done|].
    inversion D1 as [? cc ? ? ? r' Ei| | | | | | | | | | | | |]; subst. by apply init_node in Ei. }
  destruct D as (r1&t&F&Hr&D); [by apply bool_decide_eq_true|].
  assert (Hr1 : exists n1, rs_node r1 = Some n1).
  { destruct (rs_node r1) as [n1|] eqn:En; [by eexists|]. apply (reports_none t) in F; [|done|done]. congruence. }
  destruct Hr1 as [n1 Hn1].
  destruct (store_calls nops K t r1 n1 (d_raft d).1) as (n'&ops'&Hn'&S'&K'); [|done|done|].
  { eapply Forall_impl; [exact Hr|]. by intros [] ? ? ? ?. }
  rewrite Hn in Hn'. injection Hn' as <-.
  assert (Kn : omap stored_by t = []).
  { clear -Hr. induction Hr as [|k t Hk _ IH]; [done|]. by destruct k. }
  rewrite Kn in K'. pose proof (store_runs_limit _ _ _ S') as L'. pose proof (asks_snap _ _ _ S' K') as P'.
  unfold snap_index. rewrite P'. fold (snap_index (nd_store nops n1)).
  destruct D as [D|(r0&dat&D)].
  - simpl in D. unfold simple_should_snapshot in D. rewrite Hn1 in D. unfold should_snapshot in D. apply orb_false_iff in D as [D _].
    apply N.ltb_ge in D. rewrite <- L', S in D. done.
  - simpl in D. unfold simple_create_snapshot, on_store in D. destruct (rs_node r0) as [n0|]; [|done].
    apply bind_ok in D as (st&D&[= <-]). unfold with_node in Hn1. cbn [rs_node] in Hn1. injection Hn1 as <-. rewrite (node_store _ K).
    destruct (create_snapshot (nd_store nops n0) (d_applied d) (d_conf d) dat) as [st'| |] eqn:Ec; try done.
    injection D as <-. apply create_snap in Ec as [-> _]. lia.
Qed.
(** The index a replica reports to its host is at most the configured number of
    entries ahead of the snapshot in its store, after every call. *)
Theorem C89_snapshots_in_time s c xs d outs q t d' out i size :
  node_ok nops ->
  reaches codec snode (rec_snap sops) cops app simple_new s c xs d outs -> delivered (HStart q) xs -> sr_ephemeral q = false ->
  receive codec snode (rec_snap sops) cops app d (t, Some (Some HGetState)) = Ok (d', out) -> OState i size ∈ out ->
  exists n, rs_node (d_raft d).1 = Some n /\ i <= sn_index (st_snap (nd_store nops n)) + snapshot_interval q /\
    size = Nlen (sn_data (st_snap (nd_store nops n))).
Proof using.
  intros K B Hd He H Hin. destruct (snapshot_near _ _ _ K _ _ _ B Hd He) as (n&Hn&Hl).
  exists n. split; [done|]. destruct (life_request _ _ (born_life _ _ _ _ _ _ _ _ _ _ _ B) _ Hd) as (_&E2&_).
  pose proof (born_inv _ _ _ _ _ _ _ _ _ _ _ B) as I.
  assert (Ho : OState i size ∈ omap answer_out out) by (apply elem_of_list_omap; by exists (OState i size)).
  apply rest_call in H as (d1&rest&rt&H&_&_&_&_&_&->&Hr&_); [|done|done].
  apply get_state_ext in H as (_&H). simpl in H. rewrite E2, He in H.
  rewrite omap_app, (answers_none rest) in Ho by done. rewrite app_nil_r, H, (inv_messages _ _ I) in Ho. simpl in Ho.
  apply elem_of_list_singleton in Ho. injection Ho as -> ->. split; [done|].
  unfold simple_snapshot_size. by rewrite Hn.
Qed.
(** A snapshot is only made when more entries than that have been applied since the
    last one, or another replica waits for one that this one serves. *)
Theorem C89_snapshots_when_due s c xs d outs q before i conf data after :
  node_ok nops ->
  reaches codec snode (rec_snap sops) cops app simple_new s c xs d outs -> delivered (HStart q) xs -> sr_ephemeral q = false ->
  raft_calls d = before ++ KSave i conf data :: after ->
  exists ops store,
    store_runs (storage_new (snapshot_interval q)) ops store /\
    filter (fun op => is_ask op = false) ops = omap stored_by before /\
    (sn_index (st_snap store) + snapshot_interval q < i \/
     exists replica index, st_reqs store !! replica = Some index /\ serves i conf replica index).
Proof using.
  intros K B Hd He E. destruct (reaches_started _ _ _ _ _ _ _ _ _ _ _ _ B Hd He) as (dat&r1&t&E1&Hi&R).
  pose proof (reaches_contract _ _ _ _ _ _ _ _ _ _ _ B) as C. apply contract_inits in C. rewrite E1 in C. cbn [drop] in C.
  rewrite E1 in E. destruct before as [|k before]; [done|]. injection E as <- ->.
  apply runs_app in R as (r2&R&(r3&D&_)). apply Forall_app in C as [C _].
  simpl in Hi. destruct (store_init nops K _ _ _ _ _ _ _ Hi) as (n&ops&Hn&S1&K1).
  destruct (store_calls nops K _ _ _ _ C R Hn) as (n'&ops'&Hn'&S2&K2).
  exists (ops ++ ops'), (nd_store nops n'). split_and!.
  - apply store_runs_app. by eexists.
  - unfold kept_ops in *. rewrite filter_app, K1, K2. cbn [omap list_omap]. by destruct (stored_by _).
  - inversion D as [| | | | | | | | | | | | |? ? ? ? Hs _]; subst. simpl in Hs. unfold simple_should_snapshot in Hs. rewrite Hn' in Hs.
    apply should_snapshot_iff in Hs as [Hs|(p&ix&Hl&Hs)].
    + left. apply store_runs_limit in S1, S2. rewrite S2, S1 in Hs. done.
    + right. by exists p, ix.
Qed.

(** * C90 *)
Ltac open_calls Hn :=
  unfold simple_init, simple_step, simple_propose, simple_propose_change, simple_tick, simple_apply_change, simple_advance_apply, simple_get_ready, simple_advance,
      simple_report, simple_set_hard, simple_append, simple_install, simple_create_snapshot, on_node, on_node', on_store in *;
  rewrite ?Hn in *;
  repeat match goal with
  | H : match ?x with _ => _ end = _ |- _ => destruct x as [? ?] eqn:?
  | H : match ?x with _ => _ end = _ |- _ => destruct x eqn:?
  | H : _ = Ok _ |- _ => apply bind_ok in H as (?&?&H)
  | x : (_ * _)%type |- _ => destruct x
  end; simplify_eq; simpl.
Lemma simple_ok own : node_leads_ok nops own -> consensus_ok snode.
Proof using.
  intros [_ _ _ _ Hr]. constructor.
  - intros r id c data leader n r' H. apply init_node in H. by apply bool_decide_eq_true.
  - intros r r' M H. simpl in *. unfold simple_initialized in *. apply bool_decide_eq_true in H. apply bool_decide_eq_true.
    destruct H as [n Hn]. inversion M; subst; simpl in *; open_calls Hn; eauto.
  - intros r id st. simpl. unfold simple_state, simple_report, on_node'. destruct (rs_node r) as [n|] eqn:En; [|simpl; by rewrite En].
    simpl. by destruct (Hr n id st) as (->&->&->&->).
Qed.
Lemma owns_call own id s c s' : node_leads_ok nops own -> (forall id l data, c <> KInit id l data) -> consensus_does snode s c s' ->
  (exists n, rs_node s = Some n /\ own id n) -> exists n, rs_node s' = Some n /\ own id n.
Proof using.
  intros O Hc D (n&Hn&Ho). pose proof (own_move _ _ O id n) as Hm. pose proof (own_store _ _ O id n) as Hs.
  inversion D; subst; try (by edestruct Hc); simpl in *; open_calls Hn;
    (eexists; split; [done|]); try (by apply Hs); try (by (apply Hm; [done|econstructor])); try done.
Qed.
Lemma owns_calls own id t : node_leads_ok nops own -> forall s s', Forall (fun c => forall id l data, c <> KInit id l data) t ->
  consensus_runs snode s t s' -> (exists n, rs_node s = Some n /\ own id n) -> exists n, rs_node s' = Some n /\ own id n.
Proof using.
  intros O. induction t as [|c t IH]; simpl; intros s s' F R H; [by subst|]. destruct R as (s1&D&R). inversion F; subst.
  eapply IH; [done|done|]. by eapply owns_call.
Qed.
(** A replica describes the cluster to its host only as its leader: it names
    itself, its term, the members consensus last agreed on and whether a change of
    them is in progress. Otherwise what it says is empty. *)
Theorem C90_only_a_leader_describes_the_cluster own s c xs d outs q x d' out st :
  node_leads_ok nops own ->
  reaches codec snode (rec_snap sops) cops app simple_new s c xs d outs ->
  delivered (HStart q) (xs ++ [x]) -> sr_ephemeral q = false ->
  receive codec snode (rec_snap sops) cops app d x = Ok (d', out) -> st ∈ omap cluster_out out ->
  exists n, rs_node (d_raft d').1 = Some n /\
    if nd_leads nops n then st = RaftSt (sr_id q) (nd_term nops n) (cs_voters (config_of (raft_calls d'))) (nd_pending nops n)
    else st = RaftSt 0 0 [] false \/ st = RaftSt 0 0 (cs_voters (config_of (raft_calls d'))) false /\ sr_id q = 0.
Proof using.
  intros O B Hd He H Hin. pose proof (born_next _ _ _ _ _ _ _ _ _ _ _ _ _ _ B H) as B'.
  pose proof (born_inv _ _ _ _ _ _ _ _ _ _ _ B) as I. pose proof (born_inv _ _ _ _ _ _ _ _ _ _ _ B') as I'.
  destruct (receive_call _ _ _ _ _ _ _ _ _ I H) as (rt&mt&tr&C).
  destruct (life_request _ _ (born_life _ _ _ _ _ _ _ _ _ _ _ B') _ Hd) as (I1&E1&Ha&_). rewrite He in E1.
  destruct (call_status _ _ _ _ _ _ _ _ _ _ C (simple_ok _ O) Ha E1) as (prev&_&Ho). rewrite Ho in Hin.
  destruct (decide _) as [_|_]; [by apply elem_of_nil in Hin|]. apply elem_of_list_singleton in Hin.
  rewrite (known_state _ _ I'), I1 in Hin.
  destruct (reaches_started _ _ _ _ _ _ _ _ _ _ _ _ B' Hd He) as (data&r1&t&E&Hi&R).
  pose proof (reaches_contract _ _ _ _ _ _ _ _ _ _ _ B') as K. apply contract_inits in K. rewrite E in K. cbn [drop] in K.
  destruct (owns_calls own (sr_id q) t O r1 (d_raft d').1 K R) as (n&Hn&Hown).
  { simpl in Hi. unfold simple_init in Hi. apply bind_ok in Hi as (store&_&Hi). apply bind_ok in Hi as (nn&Hi&[= <-]).
    eexists. split; [done|]. by eapply own_new. }
  exists n. split; [done|]. unfold known in Hin.
  change (ra_state snode (d_raft d').1) with (simple_state nops (d_raft d').1) in Hin. unfold simple_state in Hin. rewrite Hn in Hin.
  destruct (nd_leads nops n) eqn:El.
  - cbn [rf_leader rf_term rf_pending] in Hin. rewrite (own_leader _ _ O _ _ Hown El), N.eqb_refl in Hin. done.
  - unfold raft_st0 in Hin. cbn [rf_leader rf_term rf_pending] in Hin.
    destruct (N.eqb_spec 0 (sr_id q)) as [Eq|Eq]; [right; by split|by left].
Qed.
(** Whenever the application is called, it is told that its replica leads exactly
    if the replica's node led when the call of the host began. *)
Theorem C90_applications_are_told_whether_they_lead s c xs d outs x d' out :
  reaches codec snode (rec_snap sops) cops app simple_new s c xs d outs ->
  receive codec snode (rec_snap sops) cops app d x = Ok (d', out) ->
  exists calls, app_calls d' = app_calls d ++ calls /\
    forall a cx, a ∈ calls -> context_of a = Some cx ->
      (cx_leader cx = true <-> exists n, rs_node (d_raft d).1 = Some n /\ nd_leads nops n = true).
Proof using.
  intros B H. destruct (C25_time_of_the_application _ _ _ _ _ _ _ _ _ _ _ _ _ _ B H) as (calls&E&Hc). exists calls. split; [done|].
  intros a cx Ha Hx. destruct (Hc a cx Ha Hx) as (_&L&_). rewrite L. clear. simpl. unfold simple_leader.
  destruct (rs_node (d_raft d).1) as [n|]; [|split; [done|by intros (n&?&_)]].
  split; [intros Hl; by exists n|by intros (n'&[= <-]&Hl)].
Qed.
End Theorems.

(** * Cases that meet the hypotheses *)
(** A node that leads if it starts the cluster, and then hands over every proposal
    at once. Some messages ask for a snapshot, others tell of another leader. *)
Record tnode := TNode { tn_store : storage; tn_id : N; tn_leads : bool; tn_term : N; tn_new : list rentry; tn_number : N }.
Definition tnode_store (n : tnode) (s : storage) : tnode := TNode s (tn_id n) (tn_leads n) (tn_term n) (tn_new n) (tn_number n).
Definition tnode_add (n : tnode) (e : rentry) : tnode := TNode (tn_store n) (tn_id n) (tn_leads n) (tn_term n) (tn_new n ++ [e]) (tn_number n).
Definition tnode_ops : node_ops tnode N := NodeOps tnode N
  (fun id _ s => Ok (TNode s id (sn_index (st_snap s) =? 1) 1 [] 1))
  tn_store tnode_store tn_leads (fun n => if tn_leads n then tn_id n else 2) tn_term (fun _ => false)
  (fun n m => match rm_type m with
              | MsgOther 1 => (TNode (storage_snapshot (tn_store n) (StorageModel.last_index (tn_store n) + 1) (rm_from m)).1 (tn_id n) (tn_leads n) (tn_term n) (tn_new n) (tn_number n), true)
              | _ => (TNode (tn_store n) (tn_id n) false 2 (tn_new n) (tn_number n), true)
              end)
  (fun n p => if tn_leads n then Ok (tnode_add n (REntry EntryNormal 1 (StorageModel.last_index (tn_store n) + 1) p)) else Err ProposalDropped)
  (fun n c => (tnode_add n (REntry EntryConfChange 1 (StorageModel.last_index (tn_store n) + 1) [1; cc_node c]), None))
  (fun n => n) (fun n c => Ok (n, conf_of_voters [tn_id n; cc_node c]))
  (fun n => match tn_new n with [] => false | _ => true end)
  (fun n => (TNode (tn_store n) (tn_id n) (tn_leads n) (tn_term n) [] (tn_number n + 1),
             (Ready [] [] (tn_new n) (tn_new n) (Some (HardState 1 1 (StorageModel.last_index (tn_store n) + 1)))
                (Snapshot 0 0 (conf_of_voters []) []) (tn_number n), tn_number n)))
  (fun n rest => (n, LightReady [] []))
  (fun n => n) (fun n _ _ => n).
Lemma tnode_ok : node_ok tnode_ops.
Proof.
  constructor; [done| |].
  - intros id c s n [= <-]. by exists [].
  - intros n n' M. destruct M as [m n' b E|p n' E|c n' e E| |c n' conf E|n' rd E|rest n' lr E| |]; simpl in *; try (by exists []).
    + assert (Hd : n' = TNode (storage_snapshot (tn_store n) (StorageModel.last_index (tn_store n) + 1) (rm_from m)).1 (tn_id n) (tn_leads n) (tn_term n) (tn_new n) (tn_number n)
        \/ n' = TNode (tn_store n) (tn_id n) false 2 (tn_new n) (tn_number n)).
      { destruct (rm_type m) as [| |[|[]]]; injection E as <- _; auto. }
      destruct Hd as [->| ->]; [|by exists []]. by exists [(StorageModel.last_index (tn_store n) + 1, rm_from m)].
    + destruct (tn_leads n); [|done]. injection E as <-. by exists [].
    + injection E as <- <-. by exists [].
    + injection E as <- <-. by exists [].
    + injection E as <- <-. by exists [].
    + injection E as <- <-. by exists [].
Qed.
Lemma tnode_leads_ok : node_leads_ok tnode_ops (fun id n => tn_id n = id).
Proof.
  constructor; [by intros id c s n [= <-]| |done| |done].
  - intros id n n' <- M. destruct M as [m n' b E|p n' E|c n' e E| |c n' conf E|n' rd E|rest n' lr E| |]; simpl in *; try done.
    + destruct (rm_type m) as [| |[|[]]]; injection E as <- _; done.
    + destruct (tn_leads n); [|done]. by injection E as <-.
    + by injection E as <- <-.
    + by injection E as <- <-.
    + by injection E as <- <-.
    + by injection E as <- <-.
  - intros id n <- H. simpl in *. by rewrite H.
Qed.
Definition tnode_start : start_request := StartRequest true 1 (Some (RaftConfig 10 5 2 0 (Some (SnapshotConfig 3 100 3)) 1)) [7] false true.
(** Replica 2 is added and asks for a snapshot, which is made with the next event,
    at index 4; another one is made at index 8. Then the leader learns of another
    one. *)
Definition tnode_history : list (delivery unit unit) :=
  [(5, Some (Some (HStart tnode_start)));
   (6, Some (Some (HChange (ChangeRequest 8 2 1)))); (6, toy_app_msg 21 [4]);
   (7, toy_peer 1 1 2 []);
   (8, toy_app_msg 22 [5]); (8, toy_app_msg 23 [6]); (9, toy_app_msg 24 [8]); (9, toy_app_msg 25 [9]); (9, toy_app_msg 26 [9]);
   (10, Some (Some HGetState));
   (12, toy_peer 0 1 2 [])].
Notation tnode_run := (run toy_codec (simple_ops tnode_ops) (rec_snap toy_snap) toy_comm toy_app (fresh simple_new (tt, []) tt)).
Lemma tnode_reaches xs d outs : tnode_run xs = Ok (d, outs) ->
  reaches toy_codec (simple_ops tnode_ops) (rec_snap toy_snap) toy_comm toy_app simple_new (tt, []) tt xs d outs.
Proof. intros H. split; [done|exact H]. Qed.
Lemma tnode_started n : delivered (REQ := unit) (RESP := unit) (HStart tnode_start) (take (S n) tnode_history).
Proof. exists 5. simpl. left. Qed.
Example C87_C90_example :
  match tnode_run tnode_history with
  | Ok (d, outs) =>
    map (omap cluster_out) outs = [[]; [RaftSt 1 1 [1; 2] false]; []; []; []; []; []; []; []; []; [RaftSt 0 0 [] false]] /\
    map (omap answer_out) outs = [[OStarted 1]; [OChange 8 ChangePending]; []; []; []; []; []; []; []; [OState 8 7]; []] /\
    omap (fun k => match k with KSave i c data => Some (i, cs_voters c, data) | _ => None end) (raft_calls d)
      = [(4, [1; 2], [7; 4; 5]); (8, [1; 2], [7; 4; 5; 6; 8; 9; 9])] /\
    length (omap stored_by (raft_calls d)) = 17%nat /\
    match rs_node (d_raft d).1 with
    | Some n => sn_index (st_snap (tn_store n)) = 8 /\ map re_index (st_entries (tn_store n)) = [8]
    | None => False
    end
  | _ => False
  end.
Proof. vm_compute. done. Qed.
Example C90_told_example :
  match tnode_run (tnode_history ++ [(13, None)]) with
  | Ok (d, _) => omap (fun a => cx_leader <$> context_of a) (app_calls d)
      = [false; false; true; true; true; true; true; true; true; true; true; true; false]
  | _ => False
  end.
Proof. vm_compute. done. Qed.
