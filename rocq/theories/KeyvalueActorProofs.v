(** Proofs about the tablet cache application: it never puts anything out. *)
From Verif Require Import Base ActorModel TabletModel MetadataModel BlobModel CoordinatorModel.
From Verif Require Import KeyvalueModel KeyvalueSpec KeyvalueProofs.

(** A process that was asked for and not begun. *)
Definition untouched (p : process bytes unit) : Prop := exists queries, ps_status p = PsPending queries.
Definition manager_idle (m : manager bytes unit) : Prop :=
  co_out (mg_coordinator m) = [] /\ co_correlations (mg_coordinator m) = ∅ /\
  mc_out (mg_meta m) = [] /\ dc_out (mg_data m) = [] /\ dc_operations (mg_data m) = ∅.
Definition tracked_idle (m : manager bytes unit) (txs : gmap N tx_tracker) : Prop :=
  map_Forall (fun tx t => tt_committed t = false /\
    exists p ps, co_transactions (mg_coordinator m) !! tx = Some (TxPreparing (p :: ps)) /\ untouched p) txs.
Definition actor_idle (a : cache_actor) : Prop :=
  manager_idle (ca_manager a) /\ tracked_idle (ca_manager a) (st_txs (ca_store a)) /\ st_responses (ca_store a) = [].

Section Idle.
Variable result_order : gmap (string * N) resolve_result -> list resolve_result.
Variable tablet_order : gmap (N * N) (working bytes) -> list (N * N).
Variable hash_key : string -> N.
Variable tracker_order : gmap N tablet_tracker -> list N.
Variable txt_order : gmap N tx_tracker -> list N.
Variable decode_in : bytes -> option (option cache_in).
Variable decode_response : bytes -> option tablets_response.
Variable decode_config : bytes -> option (option (string * N * N) * option (list (string * N))).

Lemma mc_response_out c rs c' : mc_response result_order c rs = Ok c' -> mc_out c' = mc_out c.
Proof.
  clear. revert c. induction rs as [|r rs IH]; intros c; simpl; [by intros [= <-]|].
  intros (c1 & H1 & ->%IH)%res_bind_ok. unfold mc_result in H1.
  destruct (or_detail r) as [[from to tablets| |]|]; try done.
  destruct (mc_tables c !! or_table r) as [t|]; [|by injection H1 as <-].
  destruct (table_update_region _ _ _) as [[t' idx] notify].
  apply res_bind_ok in H1 as ([? ?] & _ & [= <-]). done.
Qed.

Lemma in_idle m x m' : manager_idle m -> mg_in Some result_order m x = Ok m' ->
  manager_idle m' /\ mg_coordinator m' = mg_coordinator m.
Proof.
  clear -result_order. intros (H1 & H2 & H3 & H4 & H5).
  assert (Htr : forall m0 n r, mg_coordinator m0 = mg_coordinator m -> mg_meta m0 = mg_meta m -> mg_data m0 = mg_data m ->
    mg_tablets_response result_order m0 n r = Ok m' -> manager_idle m' /\ mg_coordinator m' = mg_coordinator m).
  { intros m0 n r Hc Hm Hd. unfold mg_tablets_response. intros (mc & Hmc & Hr)%res_bind_ok.
    assert (Ho : mc_out mc = []).
    { destruct (List.filter is_list_result _); [injection Hmc as <-; congruence|].
      apply mc_response_out in Hmc. congruence. }
    apply res_bind_ok in Hr as ([co mc'] & Hco & [= <-]).
    assert (co = mg_coordinator m /\ mc' = mc) as [-> ->].
    { destruct (List.filter is_exec_result _); [injection Hco as <- <-; auto|].
      unfold co_response in Hco. rewrite Hc, H2, lookup_empty in Hco. injection Hco as <- <-. done. }
    split; [|done]. unfold manager_idle. simpl. rewrite Hd. auto. }
  destruct x as [d|n r|n]; simpl.
  - unfold dc_process. rewrite H5. rewrite lookup_empty. simpl. intros [= <-]. split; [|done]. unfold manager_idle. simpl. by split_and!.
  - by apply Htr.
  - destruct (mg_errors m !! n); [by apply Htr|]. intros [= <-]. unfold manager_idle. by split_and!.
Qed.

Lemma call_resolved_same s l : st_txs (call_resolved s l) = st_txs s /\ st_responses (call_resolved s l) = st_responses s.
Proof.
  clear. revert s. induction l as [|r l IH]; intros s; [done|].
  change (call_resolved s (r :: l)) with (call_resolved (kv_resolved s (map (fun x => (tq_id x.1, tm_id x.2)) r)) l).
  destruct (IH (kv_resolved s (map (fun x => (tq_id x.1, tm_id x.2)) r))) as [-> ->].
  generalize (map (fun x : resolved => (tq_id x.1, tm_id x.2)) r). clear. intros l. revert s.
  induction l as [|[q i] l IH]; intros s; [done|].
  change (kv_resolved s ((q, i) :: l)) with (kv_resolved (resolved_one s (q, i)) l).
  destruct (IH (resolved_one s (q, i))) as [-> ->]. done.
Qed.

Lemma actor_in_idle a x a' : actor_idle a -> actor_in result_order a x = Ok a' -> actor_idle a'.
Proof.
  clear -result_order. intros (Hm & Ht & Hr). unfold actor_in. intros (m & Hi & [= <-])%res_bind_ok.
  destruct (in_idle _ _ _ Hm Hi) as [Hm' Hc]. unfold actor_idle, tracked_idle. simpl.
  destruct (call_resolved_same (ca_store a) (newly_resolved (ca_manager a) m)) as [-> ->]. rewrite Hc. auto.
Qed.

Lemma incoming_idle a c a' : actor_idle a ->
  actor_incoming result_order decode_in decode_response a c = Ok a' -> actor_idle a'.
Proof.
  clear -result_order. intros Ha. unfold actor_incoming.
  assert (Hn : forall r, no_error (actor_in result_order a r) = Ok a' -> actor_idle a').
  { intros r. destruct (actor_in result_order a r) eqn:Hr; simpl; [|done..]. intros [= <-]. by eapply actor_in_idle. }
  destruct (decode_in (ac_header c)) as [[[key value|key|status|status| |]|]|]; try done; try apply Hn.
  - by intros [= <-].
  - by intros [= <-].
  - destruct (decode_response (ac_payload c)); [apply Hn|done].
Qed.

Notation mcx := (manager_context result_order tablet_order).
Lemma commit_idle m txs ids : tracked_idle m txs -> commit_progress mcx txs m ids = Ok (txs, m).
Proof.
  clear -result_order. intros Ht. induction ids as [|i ids IH]; simpl; [done|].
  destruct (txs !! i) as [t|] eqn:Hi; [|done]. destruct (Ht _ _ Hi) as [-> (p & ps & Hp & queries & Hq)].
  unfold co_pending. rewrite Hp. simpl. unfold process_active. rewrite Hq. simpl. exact IH.
Qed.
Lemma finalize_idle m txs ids : tracked_idle m txs -> finalize_progress mcx txs m ids = Ok ([], [], [], m).
Proof.
  clear -result_order. intros Ht. induction ids as [|i ids IH]; simpl; [done|].
  destruct (txs !! i) as [t|] eqn:Hi; [|done]. by destruct (Ht _ _ Hi) as [-> _].
Qed.

Lemma progress_idle s m s' m' : manager_idle m -> tracked_idle m (st_txs s) -> st_responses s = [] ->
  kv_progress hash_key tracker_order txt_order mcx s m = Ok (s', m') ->
  manager_idle m' /\ tracked_idle m' (st_txs s') /\ st_responses s' = [].
Proof.
  clear -result_order. intros Hm Ht Hr. unfold kv_progress. intros ([s1 m1] & H1 & Hp)%res_bind_ok.
  assert (Hs1 : manager_idle m1 /\ tracked_idle m1 (st_txs s1) /\ st_responses s1 = []).
  { unfold resolve_progress, collect_resolve in H1. destruct (_ <=? _); simpl in H1.
    - destruct (mg_resolve result_order m _) as [m2| |] eqn:Hmr; simpl in H1; [|done..]. destruct (_ <? _)%nat; [done|].
      injection H1 as <- <-. unfold mg_resolve in Hmr. apply res_bind_ok in Hmr as (mc & Hmc & [= <-]).
      unfold mc_resolve in Hmc. apply res_bind_ok in Hmc as ([[tables r] o] & _ & [= <-]).
      destruct Hm as (? & ? & ? & ? & ?). split_and!; [|done|done]. unfold manager_idle. simpl. auto.
    - injection H1 as <- <-. auto. }
  destruct Hs1 as (Hm1 & Ht1 & Hr1). apply res_bind_ok in Hp as ([s2 m2] & H2 & Hp).
  assert (Hs2 : manager_idle m2 /\ tracked_idle m2 (st_txs s2) /\ st_responses s2 = []).
  { unfold start_progress in H2. destruct (collect_all _ _ _ _ _) as [[counter mt] [|x l]]; [by injection H2 as <- <-|].
    simpl in H2. unfold co_process in H2. simpl in H2. rewrite lookup_insert in H2. simpl in H2. injection H2 as <- <-.
    destruct Hm1 as (? & ? & ? & ? & ?). split_and!; [unfold manager_idle; simpl; auto| |done].
    intros tx t. simpl. rewrite insert_insert. intros [[<- <-]|[Hne Htx]]%lookup_insert_Some.
    - split; [done|]. eexists _, []. rewrite lookup_insert. split; [done|]. eexists. simpl. done.
    - destruct (Ht1 _ _ Htx) as [Hc (p & ps & Hps & Hu)]. split; [done|]. exists p, ps. by rewrite lookup_insert_ne. }
  destruct Hs2 as (Hm2 & Ht2 & Hr2). apply res_bind_ok in Hp as ([txs m3] & H3 & Hp).
  rewrite commit_idle in H3 by done. injection H3 as <- <-. apply res_bind_ok in Hp as ([[[completed tablets] responses] m4] & H4 & Hp).
  rewrite finalize_idle in H4 by done. injection H4 as <- <- <- <-. injection Hp as <- <-. simpl. rewrite app_nil_r. auto.
Qed.

Lemma process_idle a c a' out : actor_idle a ->
  actor_process result_order tablet_order hash_key tracker_order txt_order decode_in decode_response a c = Ok (a', out) ->
  actor_idle a' /\ out = [].
Proof.
  clear -result_order. intros Ha. unfold actor_process. intros (a1 & H1 & Ho)%res_bind_ok.
  assert (Ha1 : actor_idle a1).
  { destruct c; [by eapply incoming_idle|]. by injection H1 as <-. }
  clear Ha H1. unfold actor_outgoing in Ho. apply res_bind_ok in Ho as ([s m] & Hp & Ho).
  destruct (kv_progress _ _ _ _ _ _) as [[s0 m0]| |] eqn:Hpp; simpl in Hp; [|done..]. injection Hp as -> ->.
  destruct Ha1 as (Hm & Ht & Hr). destruct (progress_idle _ _ _ _ Hm Ht Hr Hpp) as (Hm1 & Ht1 & Hr1).
  destruct Hm1 as (I1 & I2 & I3 & I4 & I5).
  unfold mg_take, co_take, mc_take, dc_take, kv_take in Ho. simpl in Ho. rewrite I1, I3, I4 in Ho. simpl in Ho. rewrite Hr1 in Ho. simpl in Ho. injection Ho as <- <-.
  split; [|done]. split_and!; [|exact Ht1|done]. unfold manager_idle. simpl. auto.
Qed.

Lemma create_idle a config : actor_init decode_config actor_create config = Ok a -> actor_idle a.
Proof.
  unfold actor_init. destruct (decode_config config) as [[[[[table mr] mp]|] [tables|]]|]; try done.
  destruct (mg_init _ tables) as [m| |] eqn:Hi; [|done..]. intros [= <-]. unfold mg_init in Hi.
  apply res_bind_ok in Hi as (mc & Hmc & [= <-]). unfold mc_init in Hmc.
  apply res_bind_ok in Hmc as (t & Ht & [= <-]).
  split_and!; [unfold manager_idle; simpl; auto| |done]. intros tx t0. simpl. by rewrite lookup_empty.
Qed.

Lemma actor_silent config cs outs a :
  actor_runs result_order tablet_order hash_key tracker_order txt_order decode_in decode_response decode_config config cs outs a ->
  actor_idle a /\ Forall (fun out => out = []) outs.
Proof.
  induction 1 as [a H|cs outs a c a' out Hr [IH1 IH2] Hp].
  - split; [by eapply create_idle|constructor].
  - destruct (process_idle _ _ _ _ IH1 Hp) as [? ->]. split; [done|]. apply Forall_app_2; auto.
Qed.

(** With no requests to wait for, the first call aborts. *)
Lemma default_aborts config table mp tables a : decode_config config = Some (Some (table, 0, mp), Some tables) ->
  actor_init decode_config actor_create config = Ok a ->
  actor_process result_order tablet_order hash_key tracker_order txt_order decode_in decode_response a None = Panic.
Proof.
  intros Hd. unfold actor_init. rewrite Hd. destruct (mg_init _ tables) as [m| |] eqn:Hi; [|done..]. intros [= <-].
  unfold mg_init in Hi. apply res_bind_ok in Hi as (mc & Hmc & [= <-]). unfold mc_init in Hmc.
  apply res_bind_ok in Hmc as (t & Ht & [= <-]).
  unfold actor_process, actor_outgoing, kv_progress, resolve_progress, collect_resolve. simpl.
  unfold mg_resolve, mc_resolve, resolve_create. simpl. destruct (t !! table); simpl; [|done].
  unfold split_query. simpl. unfold maybe_deliver. simpl. done.
Qed.
End Idle.
