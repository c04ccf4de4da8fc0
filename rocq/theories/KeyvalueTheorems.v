(** Theorems about the key value store and the application of the tablet cache. *)
From Verif Require Import Base ActorModel TabletModel MetadataModel BlobModel CoordinatorModel CoordinatorSpec.
From Verif Require Import KeyvalueModel KeyvalueSpec KeyvalueProofs KeyvalueHistoryProofs KeyvalueLossProofs.
From Verif Require Import KeyvalueActorProofs KeyvalueTabletProofs.

(** * C59 *)

(** The requests of a batch whose keys belong to the query are executed in order on
    the contents of the tablet: the answers are right, the contents set are those
    after all of them, and the other requests are kept. *)
Theorem C59_batch_is_executed_in_order hash_key decode_contents encode_contents t q o t' results set :
  process_query hash_key decode_contents encode_contents t q o = Ok (t', results, set) ->
  exists bs d, o = Some bs /\ decode_contents bs = Some d /\
  let batch := match tk_waiting t !! tq_id q with Some l => l | None => [] end in
  let own := filter (fun r => hash_key (kv_key r) ∈ tq_hashes q) batch in
  map fst results = own /\
  right_answers d own (map snd results) /\
  (exists d', (forall key, d' !! key = value_after (d !! key) key own) /\
     set = if existsb writes own then Some (encode_contents d') else None) /\
  (forall query, match tk_waiting t' !! query with Some l => l | None => [] end =
     if decide (query = tq_id q) then filter (fun r => ~ hash_key (kv_key r) ∈ tq_hashes q) batch
     else match tk_waiting t !! query with Some l => l | None => [] end) /\
  tk_pending t' = tk_pending t.
Proof.
  intros Hp. destruct (process_query_spec _ _ _ _ _ _ _ _ _ Hp) as (bs & d & -> & Hd & [(-> & -> & -> & Hw)|Hx]).
  - exists bs, d. split; [done|]. split; [done|]. rewrite Hw. cbn zeta. split_and!; [done|by split|by exists d| |done].
    intros query. destruct (decide _) as [->|]; [by rewrite Hw|done].
  - destruct Hx as (l & d' & Hw & Hf & -> & -> & Hd' & Ha). exists bs, d. split; [done|]. split; [done|]. rewrite Hw. cbn zeta.
    rewrite <- Hf. split_and!; [done|done|by exists d'| |done]. intros query. simpl. destruct (decide _) as [->|Hne].
    + by rewrite lookup_insert.
    + by rewrite lookup_insert_ne.
Qed.
(** A batch with a key that belongs to another query is processed: two puts and a get. *)
Example C59_example : exists t',
  process_query (fun k => if decide (k = "x"%string) then 9 else 1) (fun _ => Some {["a"%string := [1]]}) (fun d => concat (map snd (map_to_list d)))
    (TabletTracker 0 true [] {[3 := [KvPut 1 "a" [5]; KvGet 2 "x"; KvGet 3 "a"]]}) (query_create 3 "t" [1]) (Some [])
  = Ok (t', [(KvPut 1 "a" [5], KvPutDone 1 true); (KvGet 3 "a", KvGot 3 true [5])], Some [5]) /\
  tk_waiting t' !! 3 = Some [KvGet 2 "x"].
Proof. eexists. split; vm_compute; reflexivity. Qed.

(** * C58 *)

(** Whatever the application is configured with and whatever it is given, it never
    puts anything out: no request is sent to the stores and none is answered. *)
Theorem C58_no_request_is_ever_answered_refuted result_order tablet_order hash_key tracker_order txt_order
    decode_in decode_response decode_config config cs outs a :
  actor_runs result_order tablet_order hash_key tracker_order txt_order decode_in decode_response decode_config config cs outs a ->
  forall out, out ∈ outs -> out = [].
Proof. intros H. destruct (actor_silent _ _ _ _ _ _ _ _ _ _ _ _ H) as [_ Hf]. by rewrite Forall_forall in Hf. Qed.

Definition example_in (b : bytes) : option (option cache_in) :=
  match b with [0] => Some (Some (CachePut "a" [5])) | [1] => Some (Some (CacheGet "a")) | _ => None end.
Definition example_config (b : bytes) : option (option (string * N * N) * option (list (string * N))) :=
  Some (Some ("t"%string, 2, 0), Some [("t"%string, 2000000000)]).
Definition order_of {A} (m : gmap N A) : list N := map fst (map_to_list m).
(** A put and a get are accepted and a query is resolved to no avail. *)
Example C58_example : exists outs a,
  actor_runs (fun _ => []) (fun _ => []) (fun _ => 1) order_of order_of example_in (fun _ => None) example_config [] 
    [Some (ActorCommand 1 [0] []); Some (ActorCommand 2 [1] []); None] outs a /\
  length outs = 3%nat /\ st_waiting (ca_store a) !! 1 = Some [KvPut 1 "a" [5]; KvGet 2 "a"].
Proof.
  eexists [_; _; _], _. split; [|split].
  - change [Some (ActorCommand 1 [0] []); Some (ActorCommand 2 [1] []); None]
      with ((([] ++ [Some (ActorCommand 1 [0] [])]) ++ [Some (ActorCommand 2 [1] [])]) ++ [@None actor_command]).
    match goal with |- actor_runs _ _ _ _ _ _ _ _ _ _ [?x; ?y; ?z] _ => change [x; y; z] with ((([] ++ [x]) ++ [y]) ++ [z]) end.
    eapply actor_continues; [eapply actor_continues; [eapply actor_continues; [apply actor_begins|]|]|]; vm_compute; reflexivity.
  - done.
  - vm_compute. reflexivity.
Qed.

(** If the application is configured to wait for no requests, it aborts in the
    first call, even if there is nothing to do. *)
Theorem C58_waiting_for_nothing_aborts_refuted result_order tablet_order hash_key tracker_order txt_order
    decode_in decode_response decode_config config table min_process tables a :
  decode_config config = Some (Some (table, 0, min_process), Some tables) ->
  actor_init decode_config actor_create config = Ok a ->
  actor_process result_order tablet_order hash_key tracker_order txt_order decode_in decode_response a None = Panic.
Proof. apply default_aborts. Qed.
Example C58_waiting_for_nothing_example : exists a,
  actor_init (fun _ => Some (Some ("t"%string, 0, 0), Some [("t"%string, 2000000000)])) actor_create [] = Ok a.
Proof. eexists. vm_compute. reflexivity. Qed.

(** A request executed in a transaction that is reported to have failed is not
    retried: it is not answered, whatever happens afterwards. *)
Theorem C58_failed_requests_are_not_retried_refuted {C} hash_key decode_contents encode_contents tracker_order txt_order
    (cx : context C) table mr mp tr s e s' tx r :
  keys_order txt_order ->
  store_runs hash_key decode_contents encode_contents tracker_order txt_order cx table mr mp tr s ->
  NoDup (map request_number (accepted tr)) ->
  carries s tx r ->
  store_step hash_key decode_contents encode_contents tracker_order txt_order cx s e s' -> fails e tx -> ~ begins e tx ->
  forall tr2 s2, store_steps hash_key decode_contents encode_contents tracker_order txt_order cx s' tr2 s2 ->
    request_number r ∉ map request_number (accepted tr2) ->
    request_number r ∉ map response_number (answers_of (tr ++ [e] ++ tr2) s2).
Proof.
  intros Hord Hr Hnd Hc Hs Hf Hb tr2 s2 Hs2 Hn.
  destruct (failed_gone _ _ _ _ _ _ _ _ _ _ _ _ _ _ _ Hord Hr Hnd Hc Hs Hf Hb) as [Hg Ha].
  assert (Hu : Forall (unrelated [] (request_number r)) tr2).
  { apply Forall_forall. intros ev Hev. destruct ev as [r'| | | |]; simpl; try done.
    - intros Heq. apply Hn. rewrite <- Heq. apply elem_of_list_fmap_1. unfold accepted. apply elem_of_list_omap. eauto.
    - intros q md o _ ?%elem_of_nil. done. }
  destruct (steps_gone _ _ _ _ _ _ _ _ _ _ _ Hord Hg Hu Hs2) as [Ha2 _].
  assert (Hgiven : forall l1 l2, given (l1 ++ l2) = given l1 ++ given l2).
  { intros l1 l2. unfold given. by rewrite map_app, concat_app. }
  unfold answers_of in *. rewrite (assoc_L app), Hgiven, <- (assoc_L app).
  intros Hx. rewrite map_app in Hx. unfold unanswered in *. apply elem_of_app in Hx as [Hx|Hx].
  - apply elem_of_list_fmap in Hx as (a & Heq & Hx). apply Forall_app in Ha as [Ha _]. rewrite Forall_forall in Ha. by apply (Ha _ Hx).
  - apply elem_of_list_fmap in Hx as (a & Heq & Hx). rewrite Forall_forall in Ha2. by apply (Ha2 _ Hx).
Qed.

(** * Example of a transaction context *)

(** A context with a counter of transactions that says that processes are pending
    if told so and gives the outcome it is told. *)
Definition example_context : context (N * bool * tx_outcome) := Context
  (fun c _ => Ok (c, false))
  (fun c => Ok ((c.1.1 + 1, c.1.2, c.2), c.1.1 + 1))
  (fun c _ _ => Ok c)
  (fun c _ => Ok c.1.2)
  (fun c _ => Ok c)
  (fun c _ => Ok (c, Some c.2)).
Definition example_decode (b : bytes) : option (gmap string bytes) := Some {["a"%string := b]}.
Definition example_encode (d : gmap string bytes) : bytes := match d !! "a"%string with Some b => b | None => [] end.
Definition example_meta (i : N) : tablet_metadata := TabletMetadata i 1 false [] 0 [] "".
Notation example_steps := (store_steps (fun _ => 1) example_decode example_encode order_of order_of example_context).
Notation example_step := (store_step (fun _ => 1) example_decode example_encode order_of order_of example_context).

Lemma order_of_keys {A} : keys_order (A:=A) order_of.
Proof. intros m. done. Qed.

(** A put and a get, executed in transaction 1. *)
Definition example_events : list store_event :=
  [EvRequest (KvPut 1 "a" [5]); EvRequest (KvGet 2 "a");
   EvProgress [AskResolve [query_create 1 "t" [1; 1]]];
   EvResolved [(1, 7)];
   EvProgress [AskStart 1; AskProcess 1 [query_create 2 "t" [1; 1]]];
   EvProcess 1 [(query_create 2 "t" [1], example_meta 7, Some [8])] [Some [5]]].
Ltac run_step c := lazymatch goal with
  | |- store_step _ _ _ _ _ _ _ (EvProgress _) _ => eapply (step_progress _ _ _ _ _ _ _ c); vm_compute; reflexivity
  | |- store_step _ _ _ _ _ _ _ (EvProcess _ _ _) _ => eapply step_process; vm_compute; reflexivity
  | |- store_step _ _ _ _ _ _ ?s (EvTake _) _ => apply (step_take _ _ _ _ _ _ s)
  | _ => constructor
  end.
Lemma steps_cons {C} hash_key decode_contents encode_contents tracker_order txt_order (cx : context C) s e s1 tr s2 :
  store_step hash_key decode_contents encode_contents tracker_order txt_order cx s e s1 ->
  store_steps hash_key decode_contents encode_contents tracker_order txt_order cx s1 tr s2 ->
  store_steps hash_key decode_contents encode_contents tracker_order txt_order cx s (e :: tr) s2.
Proof.
  intros H1 H2. change (e :: tr) with ([e] ++ tr). eapply store_steps_app; [|exact H2].
  change [e] with ([] ++ [e]). econstructor; [constructor|done].
Qed.
Lemma example_runs : exists s,
  store_runs (fun _ => 1) example_decode example_encode order_of order_of example_context "t" 2 0 example_events s /\
  st_txs s !! 1 = Some (TxTracker [7] [KvPut 1 "a" [5]; KvGet 2 "a"] [KvPutDone 1 true; KvGot 2 true [5]] false) /\
  exists s1, example_step s (EvProgress [AskCommit 1; AskOutcome 1 (Some TxSucceeded)]) s1 /\
    st_responses s1 = [KvPutDone 1 true; KvGot 2 true [5]].
Proof.
  eexists. split.
  - unfold store_runs, example_events.
    eapply steps_cons; [run_step (0, true, TxSucceeded)|].
    eapply steps_cons; [run_step (0, true, TxSucceeded)|].
    eapply steps_cons; [run_step (0, true, TxSucceeded)|].
    eapply steps_cons; [run_step (0, true, TxSucceeded)|].
    eapply steps_cons; [run_step (0, true, TxSucceeded)|].
    eapply steps_cons; [run_step (0, true, TxSucceeded)|]. constructor.
  - split; [vm_compute; reflexivity|]. eexists. split; [run_step (1, false, TxSucceeded)|]. vm_compute. reflexivity.
Qed.

(** The failed transaction of the example: its requests are carried by it. *)
Example C58_failed_example : exists s s',
  store_runs (fun _ => 1) example_decode example_encode order_of order_of example_context "t" 2 0 example_events s /\
  NoDup (map request_number (accepted example_events)) /\ carries s 1 (KvPut 1 "a" [5]) /\
  example_step s (EvProgress [AskCommit 1; AskOutcome 1 (Some TxFailed)]) s' /\
  fails (EvProgress [AskCommit 1; AskOutcome 1 (Some TxFailed)]) 1 /\
  ~ begins (EvProgress [AskCommit 1; AskOutcome 1 (Some TxFailed)]) 1.
Proof.
  eexists _, _. split; [|split; [|split; [|split; [|split]]]].
  - unfold store_runs, example_events. do 5 (eapply steps_cons; [run_step (0, true, TxSucceeded)|]).
    eapply steps_cons; [run_step (0, true, TxSucceeded)|]. constructor.
  - unfold accepted, example_events. simpl. apply NoDup_cons. split; [set_solver|]. apply NoDup_singleton.
  - eexists. split; [vm_compute; reflexivity|]. vm_compute. left.
  - run_step (1, false, TxFailed).
  - eexists. split; [done|]. set_solver.
  - intros (calls & [= <-] & Hx). repeat (apply elem_of_cons in Hx as [Hx|Hx]; [done|]). by apply elem_of_nil in Hx.
Qed.

(** * C78 *)

(** Every answer belongs to a request of its own that was accepted before, and was
    computed when that request was executed, with others accepted before, by a
    transaction that was later reported to have succeeded. *)
Theorem C78_answers_are_sound {C} hash_key decode_contents encode_contents tracker_order txt_order
    (cx : context C) table mr mp tr s :
  keys_order txt_order ->
  store_runs hash_key decode_contents encode_contents tracker_order txt_order cx table mr mp tr s ->
  exists answered, answered ⊆+ accepted tr /\
    Forall2 (fun r a => belongs r a /\
      exists tx tr1 e1 tr2 e2 tr3, tr = tr1 ++ e1 :: tr2 ++ e2 :: tr3 /\
        executed_by hash_key decode_contents encode_contents (accepted tr1) e1 tx r a /\ succeeds e2 tx)
      answered (answers_of tr s).
Proof.
  intros Hord Hr. destruct (store_inv_steps _ _ _ _ _ _ _ _ _ _ _ Hord Hr) as (_ & answered & Ha & Hsub).
  exists answered. split; [etrans; [|exact Hsub]; by apply submseteq_inserts_r|].
  eapply Forall2_impl; [exact Ha|]. intros r a Hj. split; [|exact Hj].
  destruct Hj as (tx & tr1 & e1 & tr2 & e2 & tr3 & _ & He & _).
  destruct He as (tb & set & k & q & md & bs & d & l & answers & d' & i & _ & _ & _ & _ & _ & [_ Hra] & Hi & Hai & _).
  rewrite (Hra _ _ Hi) in Hai. injection Hai as <-. destruct r; simpl; [done|]. by destruct (value_after _ _ _).
Qed.
(** When a transaction is reported to have succeeded, every request it executed is
    answered. *)
Theorem C78_success_answers_all {C} hash_key decode_contents encode_contents tracker_order txt_order
    (cx : context C) table mr mp tr s e s' tx r :
  keys_order txt_order ->
  store_runs hash_key decode_contents encode_contents tracker_order txt_order cx table mr mp tr s ->
  carries s tx r ->
  store_step hash_key decode_contents encode_contents tracker_order txt_order cx s e s' -> succeeds e tx -> ~ begins e tx ->
  exists a, belongs r a /\ a ∈ st_responses s'.
Proof.
  intros Hord Hruns (t & Htx & Hr) Hstep (calls & -> & Hf) Hbeg.
  assert (Hns : AskStart tx ∉ calls). { intros Hin. apply Hbeg. exists calls. done. }
  pose proof (store_inv_steps _ _ _ _ _ _ _ _ _ _ _ Hord Hruns) as (Ho & _).
  inversion Hstep as [|? c ? c' ? Hp| | |]; subst.
  destruct (progress_spec _ _ _ _ _ _ _ _ _ Hord Hp) as (l & _ & HP & HW & HND & HT & HO & HK).
  apply HO in Hf as [t' Hl]. apply elem_of_list_lookup in Hr as [i Hi].
  destruct (Forall2_lookup_l _ _ _ _ _ (Ho _ _ Htx) Hi) as (a & Hai & tr1 & e & tr2 & _ & He).
  exists a. split.
  - destruct He as (tb & set & k & q & md & bs & d & lr & answers & d' & i' & _ & _ & _ & _ & _ & [_ Hra] & Hi' & Hai' & _).
    rewrite (Hra _ _ Hi') in Hai'. injection Hai' as <-. destruct r; simpl; [done|]. by destruct (value_after _ _ _).
  - rewrite HP. apply elem_of_app. right. apply elem_of_list_In, in_concat. exists (tt_responses t'). split.
    + apply in_map_iff. exists (tx, t', TxSucceeded). split; [done|]. by apply elem_of_list_In.
    + apply elem_of_list_In. destruct (HK _ _ Htx Hns) as [(t1 & Ht1 & _)|(t1 & o & Hl1 & Hq1 & Hq2)].
      * apply HT in Ht1 as [_ Hn]. exfalso. apply Hn. apply elem_of_list_fmap. by exists (tx, t', TxSucceeded).
      * assert (t1 = t') as ->.
        { rewrite Forall_forall in HW. revert HND Hl Hl1. clear. induction l as [|x l IH]; simpl; [by intros _ ?%elem_of_nil|].
          intros [Hx HND]%NoDup_cons Ha Hb. apply elem_of_cons in Ha as [Ha|Ha]; apply elem_of_cons in Hb as [Hb|Hb]; [congruence| | |auto].
          - subst x. exfalso. apply Hx. apply elem_of_list_fmap. by exists (tx, t1, o).
          - subst x. exfalso. apply Hx. apply elem_of_list_fmap. by exists (tx, t', TxSucceeded). }
        rewrite Hq2. by eapply elem_of_list_lookup_2.
Qed.
(** The requests of the example are answered. *)
Example C78_example : exists s s',
  store_runs (fun _ => 1) example_decode example_encode order_of order_of example_context "t" 2 0 example_events s /\
  carries s 1 (KvGet 2 "a") /\
  example_step s (EvProgress [AskCommit 1; AskOutcome 1 (Some TxSucceeded)]) s' /\
  succeeds (EvProgress [AskCommit 1; AskOutcome 1 (Some TxSucceeded)]) 1 /\
  ~ begins (EvProgress [AskCommit 1; AskOutcome 1 (Some TxSucceeded)]) 1 /\
  st_responses s' = [KvPutDone 1 true; KvGot 2 true [5]].
Proof.
  eexists _, _. split; [|split; [|split; [|split; [|split]]]].
  - unfold store_runs, example_events. do 6 (eapply steps_cons; [run_step (0, true, TxSucceeded)|]). constructor.
  - eexists. split; [vm_compute; reflexivity|]. vm_compute. right. left.
  - run_step (1, false, TxSucceeded).
  - eexists. split; [done|]. set_solver.
  - intros (calls & [= <-] & Hx). repeat (apply elem_of_cons in Hx as [Hx|Hx]; [done|]). by apply elem_of_nil in Hx.
  - vm_compute. reflexivity.
Qed.

(** * C79 *)

(** If the context never gives out a transaction twice, no two transactions that
    are not completed work on the same tablet. *)
Theorem C79_one_transaction_per_tablet {C} hash_key decode_contents encode_contents tracker_order txt_order
    (cx : context C) table mr mp tr s tx1 tx2 tablet :
  keys_order txt_order ->
  store_runs hash_key decode_contents encode_contents tracker_order txt_order cx table mr mp tr s ->
  NoDup (started tr) ->
  works_on s tx1 tablet -> works_on s tx2 tablet -> tx1 = tx2.
Proof.
  intros Hord Hr Hnd (t1 & H1 & Hi1) (t2 & H2 & Hi2).
  destruct (steps_exclusive _ _ _ _ _ _ _ _ _ _ _ Hord Hr Hnd) as [_ _ _ HO]. eauto.
Qed.
(** Two requests for the same tablet, one after the other: the second waits until
    the transaction of the first is completed. *)
Example C79_example : exists s s1 s2,
  store_runs (fun _ => 1) example_decode example_encode order_of order_of example_context "t" 1 0
    [EvRequest (KvPut 1 "a" [5]);
     EvProgress [AskResolve [query_create 1 "t" [1]]];
     EvResolved [(1, 7)];
     EvRequest (KvGet 2 "a");
     EvProgress [AskResolve [query_create 2 "t" [1]]; AskStart 1; AskProcess 1 [query_create 3 "t" [1]]];
     EvResolved [(2, 7)]] s /\
  works_on s 1 7 /\
  example_step (kv_append s (KvGet 3 "b")) (EvProgress [AskResolve [query_create 4 "t" [1]]]) s1 /\
  example_step (kv_append s (KvGet 3 "b")) (EvProgress [AskResolve [query_create 4 "t" [1]]; AskCommit 1; AskOutcome 1 (Some TxSucceeded)]) s2 /\
  (exists t, st_tablets s1 !! 7 = Some t /\ tk_busy t = true /\ tk_pending t = [KvGet 2 "a"]) /\
  (exists t, st_tablets s2 !! 7 = Some t /\ tk_busy t = false /\ tk_pending t = [KvGet 2 "a"]).
Proof.
  eexists _, _, _. split; [|split; [|split; [|split; [|split]]]].
  - unfold store_runs. do 6 (eapply steps_cons; [run_step (0, true, TxSucceeded)|]). constructor.
  - eexists. split; [vm_compute; reflexivity|]. left.
  - run_step (1, true, TxSucceeded).
  - run_step (1, false, TxSucceeded).
  - eexists. split; [vm_compute; reflexivity|]. done.
  - eexists. split; [vm_compute; reflexivity|]. done.
Qed.

(** * C80 *)

(** If a query is resolved to several tablets, all requests waiting for it go to
    the first of them and none to the others. *)
Theorem C80_requests_go_to_the_first_tablet_refuted s query first others l i :
  st_waiting s !! query = Some l ->
  let s' := kv_resolved s ((query, first) :: map (fun i => (query, i)) others) in
  let requests s i := match st_tablets s !! i with Some t => tk_pending t | None => [] end in
  requests s' first = requests s first ++ l /\
  (i <> first -> requests s' i = requests s i) /\ st_waiting s' !! query = None.
Proof.
  intros Hl. cbn zeta.
  change (kv_resolved s ((query, first) :: map (fun i => (query, i)) others))
    with (kv_resolved (resolved_one s (query, first)) (map (fun i => (query, i)) others)).
  set (req := fun s i => match st_tablets s !! i with Some t => tk_pending t | None => [] end).
  assert (Hone : forall j, req (resolved_one s (query, first)) j = if decide (j = first) then req s j ++ l else req s j).
  { intros j. unfold resolved_one. rewrite Hl. unfold req. simpl. destruct (decide (j = first)) as [->|Hne].
    - rewrite lookup_insert. simpl. by destruct (st_tablets s !! first).
    - by rewrite lookup_insert_ne. }
  assert (Hrest : forall s0, st_waiting s0 !! query = None ->
    (forall j, req (kv_resolved s0 (map (fun i => (query, i)) others)) j = req s0 j) /\
    st_waiting (kv_resolved s0 (map (fun i => (query, i)) others)) !! query = None).
  { induction others as [|j others IH]; intros s0 Hs0; [done|]. cbn [map].
    change (kv_resolved s0 ((query, j) :: map (fun i => (query, i)) others))
      with (kv_resolved (resolved_one s0 (query, j)) (map (fun i => (query, i)) others)).
    destruct (IH (resolved_one s0 (query, j))) as [IH1 IH2].
    { unfold resolved_one. simpl. apply lookup_delete. }
    split; [|done]. intros k. rewrite IH1. unfold resolved_one. rewrite Hs0. unfold req. simpl.
    destruct (decide (j = k)) as [->|Hne].
    - rewrite lookup_insert. simpl. rewrite app_nil_r. by destruct (st_tablets s0 !! k).
    - by rewrite lookup_insert_ne. }
  destruct (Hrest (resolved_one s (query, first))) as [H1 H2].
  { unfold resolved_one. simpl. apply lookup_delete. }
  split; [|split; [|done]].
  - fold (req (kv_resolved (resolved_one s (query, first)) (map (fun i => (query, i)) others)) first).
    rewrite H1, Hone, decide_True; done.
  - intros Hne. fold (req (kv_resolved (resolved_one s (query, first)) (map (fun i => (query, i)) others)) i).
    rewrite H1, Hone, decide_False; done.
Qed.

Definition two_tablets (key : string) : N := if decide (key = "a"%string) then 1 else 9.
(** Two keys, of which the second belongs to another tablet. The query is resolved
    to both tablets, the process handler is called with both and with the hashes
    that belong to each, and the transaction succeeds. *)
Definition lost_events : list store_event :=
  [EvRequest (KvPut 1 "a" [5]); EvRequest (KvPut 2 "b" [6]);
   EvProgress [AskResolve [query_create 1 "t" [1; 9]]];
   EvResolved [(1, 7); (1, 8)];
   EvProgress [AskStart 1; AskProcess 1 [query_create 2 "t" [1; 9]; query_create 3 "t" []]];
   EvProcess 1 [(query_create 2 "t" [1], example_meta 7, Some [8]); (query_create 2 "t" [9], example_meta 8, Some [8])] [Some [5]; None];
   EvProgress [AskCommit 1; AskOutcome 1 (Some TxSucceeded)];
   EvTake [KvPutDone 1 true]].
(** The state holds no request with the number, except on tablets for the queries. *)
Definition goneb (queries : list N) (n : N) (s : kv_store) : bool :=
  let free l := forallb (fun r => negb (request_number r =? n)) l in
  let silent l := forallb (fun a => negb (response_number a =? n)) l in
  free (st_pending s) && forallb (fun x => free x.2) (map_to_list (st_waiting s)) &&
  forallb (fun x => free (tk_pending x.2) &&
    forallb (fun y => bool_decide (y.1 ∈ queries) || free y.2) (map_to_list (tk_waiting x.2))) (map_to_list (st_tablets s)) &&
  forallb (fun x => free (tt_requests x.2) && silent (tt_responses x.2)) (map_to_list (st_txs s)) &&
  silent (st_responses s).
Lemma goneb_gone queries n s : goneb queries n s = true -> gone queries n s.
Proof.
  unfold goneb. rewrite !andb_true_iff. intros ((((H1 & H2) & H3) & H4) & H5).
  assert (Hfree : forall l, forallb (fun r => negb (request_number r =? n)) l = true -> without n l).
  { intros l Hl. apply Forall_forall. intros r Hr. rewrite forallb_forall in Hl. apply elem_of_list_In in Hr.
    apply Hl in Hr. apply negb_true_iff, N.eqb_neq in Hr. done. }
  assert (Hsilent : forall l, forallb (fun r => negb (response_number r =? n)) l = true -> unanswered n l).
  { intros l Hl. apply Forall_forall. intros r Hr. rewrite forallb_forall in Hl. apply elem_of_list_In in Hr.
    apply Hl in Hr. apply negb_true_iff, N.eqb_neq in Hr. done. }
  rewrite forallb_forall in H2, H3, H4. constructor; auto.
  - intros q l Hq. apply Hfree. apply (H2 (q, l)). by apply elem_of_list_In, elem_of_map_to_list.
  - intros i t Hi. assert (Hx : (i, t) ∈ map_to_list (st_tablets s)) by (by apply elem_of_map_to_list).
    apply elem_of_list_In, H3, andb_true_iff in Hx as [Hp Hw]. split; [by apply Hfree|].
    intros q l Hq Hn. rewrite forallb_forall in Hw. assert (Hx : (q, l) ∈ map_to_list (tk_waiting t)) by (by apply elem_of_map_to_list).
    apply elem_of_list_In, Hw, orb_true_iff in Hx as [Hx|Hx]; [by apply bool_decide_eq_true in Hx|by apply Hfree].
  - intros tx t Hi. assert (Hx : (tx, t) ∈ map_to_list (st_txs s)) by (by apply elem_of_map_to_list).
    apply elem_of_list_In, H4, andb_true_iff in Hx as [Hp Hw]. auto.
Qed.
(** The request for the key of the second tablet is never answered, unless the
    process handler is called again for the same query. *)
Theorem C80_request_of_second_tablet_is_lost_refuted : exists s,
  store_runs two_tablets example_decode example_encode order_of order_of example_context "t" 2 0 lost_events s /\
  KvPut 2 "b" [6] ∈ accepted lost_events /\
  forall tr s', store_steps two_tablets example_decode example_encode order_of order_of example_context s tr s' ->
    Forall (unrelated [2] 2) tr -> 2 ∉ map response_number (answers_of (lost_events ++ tr) s').
Proof.
  eexists. split; [|split].
  - unfold store_runs, lost_events. do 6 (eapply steps_cons; [run_step (0, true, TxSucceeded)|]).
    eapply steps_cons; [run_step (1, false, TxSucceeded)|]. eapply steps_cons; [run_step (1, false, TxSucceeded)|]. constructor.
  - unfold lost_events, accepted. simpl. set_solver.
  - intros tr s' Hs Hu.
    edestruct (steps_gone two_tablets example_decode example_encode order_of order_of [2] 2 example_context) as [Ha _]; [apply order_of_keys| |exact Hu|exact Hs|].
    + apply goneb_gone. vm_compute. reflexivity.
    + unfold answers_of in *. unfold given in *. rewrite (map_app _ lost_events tr), concat_app, <- (assoc_L app), map_app.
      intros Hx. apply elem_of_app in Hx as [Hx|Hx].
      * revert Hx. vm_compute. intros Hx. apply elem_of_cons in Hx as [Hx|Hx]; [done|]. by apply elem_of_nil in Hx.
      * apply elem_of_list_fmap in Hx as (a & Heq & Hx). unfold unanswered in Ha. rewrite Forall_forall in Ha. by apply (Ha _ Hx).
Qed.
