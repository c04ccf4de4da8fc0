(** Proofs about the key value store: histories with any transaction context. *)
From Verif Require Import Base ActorModel TabletModel MetadataModel BlobModel CoordinatorModel CoordinatorSpec.
From Verif Require Import KeyvalueModel KeyvalueSpec KeyvalueProofs.

Section Histories.
Variable hash_key : string -> N.
Variable decode_contents : bytes -> option (gmap string bytes).
Variable encode_contents : gmap string bytes -> bytes.
Variable tracker_order : gmap N tablet_tracker -> list N.
Variable txt_order : gmap N tx_tracker -> list N.
Context {C : Type}.
Variable cx : context C.
Notation rcx := (recording cx).

Definition is_outcome (x : context_call) : bool := match x with AskOutcome _ _ => true | _ => false end.
Definition is_start (x : context_call) : bool := match x with AskStart _ => true | _ => false end.

Lemma resolve_recorded s c log s' c' log' : resolve_progress hash_key rcx s (c, log) = Ok (s', (c', log')) ->
  exists extra, log' = log ++ extra /\ Forall (fun x => is_outcome x = false /\ is_start x = false) extra.
Proof.
  clear decode_contents encode_contents.
  unfold resolve_progress. destruct (collect_resolve hash_key s) as [s1 [|q qs]].
  { intros [= <- <- <-]. exists []. rewrite app_nil_r. auto. }
  simpl. destruct cx_resolve as [[c1 b]| |]; simpl; [|done..]. destruct b; [done|]. intros [= <- <- <-]. eauto.
Qed.
Lemma start_recorded s c log s' c' log' : start_progress hash_key tracker_order rcx s (c, log) = Ok (s', (c', log')) ->
  exists extra, log' = log ++ extra /\ Forall (fun x => is_outcome x = false) extra /\
    (forall tx, AskStart tx ∉ extra -> st_txs s' !! tx = st_txs s !! tx).
Proof.
  clear decode_contents encode_contents.
  unfold start_progress. destruct (collect_all _ _ _ _ _) as [[counter m] [|x l]].
  { intros [= <- <- <-]. exists []. rewrite app_nil_r. auto. }
  simpl. destruct cx_start as [[c1 tx]| |]; simpl; [|done..]. destruct cx_process as [c2| |]; simpl; [|done..].
  intros [= <- <- <-]. eexists. rewrite <- (assoc app). split_and!; [done|repeat constructor|].
  intros tx' Htx. simpl. rewrite lookup_insert_ne; [done|]. intros ->. set_solver.
Qed.
Lemma commit_recorded m c log ids m' c' log' : commit_progress rcx m (c, log) ids = Ok (m', (c', log')) ->
  exists extra, log' = log ++ extra /\ Forall (fun x => is_outcome x = false /\ is_start x = false) extra.
Proof.
  clear decode_contents encode_contents.
  revert m c log. induction ids as [|i ids IH]; intros m c log; simpl.
  { intros [= <- <- <-]. exists []. rewrite app_nil_r. auto. }
  destruct (m !! i) as [t|]; [|apply IH]. destruct (tt_committed t); [apply IH|].
  destruct cx_pending as [b| |]; simpl; [|done..]. destruct b; [apply IH|].
  destruct cx_commit as [c1| |]; simpl; [|done..]. intros (extra & -> & Hf)%IH.
  eexists. rewrite <- (assoc app). split; [done|]. apply Forall_app. auto.
Qed.

(** The transactions completed, with their outcomes. *)
Notation finals := (list (N * tx_tracker * tx_outcome)).
Lemma finalize_recorded m c log ids completed tablets responses c' log' : NoDup ids ->
  finalize_progress rcx m (c, log) ids = Ok (completed, tablets, responses, (c', log')) ->
  exists (l : finals) extra,
    completed = map (fun x => x.1.1) l /\ NoDup completed /\ (forall i, i ∈ completed -> i ∈ ids) /\
    Forall (fun x => m !! x.1.1 = Some x.1.2 /\ tt_committed x.1.2) l /\
    tablets = concat (map (fun x => tt_tablets x.1.2) l) /\
    responses = concat (map (fun x => match x.2 with TxSucceeded => tt_responses x.1.2 | TxFailed => [] end) l) /\
    log' = log ++ extra /\ Forall (fun x => is_start x = false) extra /\
    (forall i o, AskOutcome i (Some o) ∈ extra <-> exists t, (i, t, o) ∈ l).
Proof.
  clear decode_contents encode_contents.
  intros Hnd. revert c log completed tablets responses.
  induction Hnd as [|i ids Hi Hnd IH]; intros c log completed tablets responses; simpl.
  { intros [= <- <- <- <- <-]. exists [], []. rewrite app_nil_r. split_and!; auto using NoDup_nil_2.
    intros i o. split; [by intros ?%elem_of_nil|]. by intros [t ?%elem_of_nil]. }
  assert (Hskip : forall c log, finalize_progress rcx m (c, log) ids = Ok (completed, tablets, responses, (c', log')) ->
    exists (l : finals) extra,
    completed = map (fun x => x.1.1) l /\ NoDup completed /\ (forall j, j ∈ completed -> j ∈ i :: ids) /\
    Forall (fun x => m !! x.1.1 = Some x.1.2 /\ tt_committed x.1.2) l /\
    tablets = concat (map (fun x => tt_tablets x.1.2) l) /\
    responses = concat (map (fun x => match x.2 with TxSucceeded => tt_responses x.1.2 | TxFailed => [] end) l) /\
    log' = log ++ extra /\ Forall (fun x => is_start x = false) extra /\
    (forall i o, AskOutcome i (Some o) ∈ extra <-> exists t, (i, t, o) ∈ l)).
  { intros c1 log1 (l & extra & ? & ? & Hin & Hrest)%IH. exists l, extra. split; [done|]. split; [done|].
    split; [|exact Hrest]. intros j Hj. right. by apply Hin. }
  destruct (m !! i) as [t|] eqn:Hm; [|apply Hskip]. destruct (tt_committed t) eqn:Ht; [|apply Hskip].
  destruct cx_check as [[c1 o]| |]; simpl; [|done..].
  destruct (finalize_progress rcx m (c1, log ++ [AskOutcome i o]) ids) as [[[[cs ts] rs] [c2 log2]]| |] eqn:Hf; simpl; [|done..].
  destruct o as [o|].
  - intros [= <- <- <- <- <-]. destruct (IH _ _ _ _ _ Hf) as (l & extra & H1 & H2 & H3 & H4 & H5 & H6 & H7 & H8 & H9).
    exists ((i, t, o) :: l), (AskOutcome i (Some o) :: extra). simpl. rewrite H1, H5, H6 in *.
    split_and!; [done| | | |done|by destruct o| | |].
    + constructor; auto.
    + set_solver.
    + constructor; [|done]. simpl. by rewrite Ht.
    + by rewrite H7, <- (assoc app).
    + by constructor.
    + intros j o'. rewrite elem_of_cons, H9. split.
      * intros [[= -> ->]|[t' ?]]; [exists t; left|exists t'; right; done].
      * intros [t' [[= -> -> ->]|?]%elem_of_cons]; eauto.
  - intros [= <- <- <- <- <-]. destruct (Hskip _ _ Hf) as (l & extra & H1 & H2 & H3 & H4 & H5 & H6 & H7 & H8 & H9).
    exists l, (AskOutcome i None :: extra). split_and!; try done.
    + by rewrite H7, <- (assoc app).
    + by constructor.
    + intros j o'. rewrite elem_of_cons, H9. split; [intros [?|?]; done|auto].
Qed.

(** A tracker with the same requests and answers as one of [m], or none. *)
Definition same_work (m : gmap N tx_tracker) (tx : N) (t : tx_tracker) : Prop :=
  (exists t0, m !! tx = Some t0 /\ tt_requests t = tt_requests t0 /\ tt_responses t = tt_responses t0) \/
  (tt_requests t = [] /\ tt_responses t = []).

Lemma progress_spec s c s' c' calls : keys_order txt_order ->
  kv_progress hash_key tracker_order txt_order rcx s (c, []) = Ok (s', (c', calls)) ->
  exists l : finals,
    concat (map (fun x => tt_requests x.1.2) l) ++ all_requests s' ⊆+ all_requests s /\
    st_responses s' = st_responses s ++
      concat (map (fun x => match x.2 with TxSucceeded => tt_responses x.1.2 | TxFailed => [] end) l) /\
    Forall (fun x => same_work (st_txs s) x.1.1 x.1.2) l /\
    NoDup (map (fun x => x.1.1) l) /\
    (forall tx t, st_txs s' !! tx = Some t -> same_work (st_txs s) tx t /\ tx ∉ map (fun x => x.1.1) l) /\
    (forall i o, AskOutcome i (Some o) ∈ calls <-> exists t, (i, t, o) ∈ l) /\
    (forall tx t0, st_txs s !! tx = Some t0 -> AskStart tx ∉ calls ->
       (exists t, st_txs s' !! tx = Some t /\ tt_requests t = tt_requests t0 /\ tt_responses t = tt_responses t0) \/
       (exists t o, (tx, t, o) ∈ l /\ tt_requests t = tt_requests t0 /\ tt_responses t = tt_responses t0)).
Proof.
  clear decode_contents encode_contents.
  intros Hord. unfold kv_progress. intros ([s1 [c1 g1]] & H1 & Hr)%res_bind_ok.
  apply res_bind_ok in Hr as ([s2 [c2 g2]] & H2 & Hr).
  apply res_bind_ok in Hr as ([txs [c3 g3]] & H3 & Hr).
  apply res_bind_ok in Hr as ([[[completed tablets] responses] [c4 g4]] & H4 & Hr). injection Hr as <- <- <-.
  pose proof (resolve_recorded _ _ _ _ _ _ H1) as (e1 & -> & E1).
  pose proof (start_recorded _ _ _ _ _ _ H2) as (e2 & -> & E2 & K2).
  pose proof (commit_recorded _ _ _ _ _ _ _ H3) as (e3 & -> & E3).
  destruct (resolve_progress_requests _ _ _ _ _ _ H1) as (R1 & T1 & P1 & _).
  destruct (start_progress_requests _ _ _ _ _ _ _ H2) as (R2 & P2 & T2).
  destruct (commit_progress_requests _ _ _ _ _ _ H3) as (R3 & T3 & K3).
  assert (Hnd : NoDup (txt_order txs)). { rewrite (Hord txs). apply NoDup_fst_map_to_list. }
  destruct (finalize_recorded _ _ _ _ _ _ _ _ _ Hnd H4) as (l & e4 & -> & Hnd' & Hin & Hl & -> & -> & -> & E4 & O4).
  assert (Hsame : forall tx t, txs !! tx = Some t -> same_work (st_txs s) tx t).
  { intros tx t Ht. destruct (T3 _ _ Ht) as (t1 & Ht1 & Hr1 & Hp1 & _).
    destruct (T2 _ _ Ht1) as [Ht2|(Hr2 & Hp2 & _)].
    - left. exists t1. rewrite <- T1. auto.
    - right. by rewrite Hr1, Hp1. }
  exists l. simpl. split_and!.
  - etrans; [|exact R1]. etrans; [|exact R2]. unfold all_requests. simpl.
    rewrite <- R3, (completed_requests txs l) by done.
    assert (Halter : forall (m : gmap N tablet_tracker) ids, total tracker_requests (foldl (fun m i => alter tracker_complete i m) m ids) ≡ₚ total tracker_requests m).
    { intros m ids. revert m. induction ids as [|i ids IH]; intros m; simpl; [done|]. rewrite IH. by apply total_alter. }
    rewrite Halter. apply Permutation_submseteq. solve_Permutation.
  - by rewrite P2, P1.
  - eapply Forall_impl; [exact Hl|]. intros [[i t] o] [Ht _]. simpl in *. by apply Hsame.
  - exact Hnd'.
  - intros tx t Ht. rewrite foldl_delete_lookup in Ht. destruct (decide (tx ∈ map (fun x => x.1.1) l)) as [|Hn]; [done|]. split; [by apply Hsame|exact Hn].
  - intros i o. rewrite !elem_of_app, O4. split; [|auto].
    rewrite Forall_forall in E1, E2, E3.
    intros [[[Hi|Hi]|Hi]|Hi]; [..|done].
    + apply E1 in Hi as [? _]. done.
    + by apply E2 in Hi.
    + apply E3 in Hi as [? _]. done.
  - intros tx t0 Ht0 Hns. rewrite <- T1 in Ht0. rewrite <- K2 in Ht0 by set_solver.
    destruct (K3 tx) as [t Ht]; [eauto|]. destruct (T3 _ _ Ht) as (t1 & Ht1 & Hr1 & Hp1 & _).
    assert (t1 = t0) as -> by congruence.
    destruct (decide (tx ∈ map (fun x => x.1.1) l)) as [Hd|Hd].
    + right. apply elem_of_list_fmap in Hd as ([[i t'] o] & -> & Hx). rewrite Forall_forall in Hl.
      destruct (Hl _ Hx) as [Ht' _]. simpl in *. assert (t' = t) as -> by congruence. eauto.
    + left. exists t. rewrite foldl_delete_lookup, decide_False by done. auto.
Qed.

Notation origin tr tx r a := (exists tr1 e tr2, tr = tr1 ++ e :: tr2 /\ executed_by hash_key decode_contents encode_contents (accepted tr1) e tx r a).
(** A request executed in a transaction that was later reported to have succeeded. *)
Definition justified (tr : list store_event) (r : kv_request) (a : kv_response) : Prop :=
  exists tx tr1 e1 tr2 e2 tr3, tr = tr1 ++ e1 :: tr2 ++ e2 :: tr3 /\
    executed_by hash_key decode_contents encode_contents (accepted tr1) e1 tx r a /\ succeeds e2 tx.
Lemma justified_app tr e r a : justified tr r a -> justified (tr ++ [e]) r a.
Proof.
  intros (tx & tr1 & e1 & tr2 & e2 & tr3 & -> & H). exists tx, tr1, e1, tr2, e2, (tr3 ++ [e]). split; [|done].
  by rewrite <- !(assoc app), <- !app_comm_cons, <- !(assoc app), <- !app_comm_cons.
Qed.

Lemma origin_ext tr e tx r a : origin tr tx r a -> origin (tr ++ [e]) tx r a.
Proof.
  intros (tr1 & e' & tr2 & -> & Hx). exists tr1, e', (tr2 ++ [e]). split; [by rewrite <- (assoc_L app), <- app_comm_cons|exact Hx].
Qed.
Definition tx_origin (tr : list store_event) (s : kv_store) : Prop :=
  forall tx t, st_txs s !! tx = Some t -> Forall2 (fun r a => origin tr tx r a) (tt_requests t) (tt_responses t).
Definition store_inv (tr : list store_event) (s : kv_store) : Prop :=
  tx_origin tr s /\
  exists answered, Forall2 (justified tr) answered (answers_of tr s) /\ answered ++ all_requests s ⊆+ accepted tr.

Lemma accepted_app tr e : accepted (tr ++ [e]) = accepted tr ++ match e with EvRequest r => [r] | _ => [] end.
Proof. unfold accepted. rewrite omap_app. by destruct e. Qed.
Lemma given_app tr e : given (tr ++ [e]) = given tr ++ match e with EvTake l => l | _ => [] end.
Proof. unfold given. rewrite map_app, concat_app. simpl. by rewrite app_nil_r. Qed.

Lemma origin_app tr e s s' : tx_origin tr s -> (forall tx t, st_txs s' !! tx = Some t -> same_work (st_txs s) tx t) ->
  tx_origin (tr ++ [e]) s'.
Proof.
  intros Ho Hs tx t Ht. destruct (Hs _ _ Ht) as [(t0 & Ht0 & -> & ->)|[-> ->]]; [|constructor].
  eapply Forall2_impl; [by apply Ho|]. apply origin_ext.
Qed.

Lemma same_work_refl m tx t : m !! tx = Some t -> same_work m tx t.
Proof. intros. left. eauto. Qed.
Lemma resolved_txs s l : st_txs (kv_resolved s l) = st_txs s /\ st_responses (kv_resolved s l) = st_responses s.
Proof.
  revert s. induction l as [|[q i] l IH]; intros s; [done|].
  change (kv_resolved s ((q, i) :: l)) with (kv_resolved (resolved_one s (q, i)) l).
  destruct (IH (resolved_one s (q, i))) as [-> ->]. done.
Qed.

Lemma Forall2_concat_2 {A B D} (P : A -> B -> Prop) (f : D -> list A) (g : D -> list B) (l : list D) :
  (forall x, x ∈ l -> Forall2 P (f x) (g x)) -> Forall2 P (concat (map f l)) (concat (map g l)).
Proof.
  induction l as [|x l IH]; intros Hx; simpl; [constructor|]. apply Forall2_app; [apply Hx; set_solver|apply IH; set_solver].
Qed.
Lemma concat_sub {A D} (f g : D -> list A) (l : list D) : (forall x, x ∈ l -> f x ⊆+ g x) ->
  concat (map f l) ⊆+ concat (map g l).
Proof.
  induction l as [|x l IH]; intros Hx; simpl; [done|]. apply submseteq_app; [apply Hx; set_solver|apply IH; set_solver].
Qed.

Notation step := (store_step hash_key decode_contents encode_contents tracker_order txt_order cx).
Notation steps := (store_steps hash_key decode_contents encode_contents tracker_order txt_order cx).

Lemma store_inv_step tr s e s' : keys_order txt_order -> store_inv tr s -> step s e s' -> store_inv (tr ++ [e]) s'.
Proof.
  intros Hord (Ho & answered & Ha & Hsub) Hstep.
  assert (Hj : Forall2 (justified (tr ++ [e])) answered (answers_of tr s)).
  { eapply Forall2_impl; [exact Ha|]. intros. by apply justified_app. }
  unfold store_inv, answers_of in *. rewrite accepted_app, given_app.
  destruct Hstep as [s r|s c s' c' calls Hp|s results|s tx tablets s' set Hp|s].
  - split.
    + eapply origin_app; [done|]. intros tx t. apply same_work_refl.
    + exists answered. rewrite app_nil_r. split; [exact Hj|]. rewrite append_requests.
      rewrite <- Permutation_middle, <- Permutation_cons_append. by apply submseteq_skip.
  - destruct (progress_spec _ _ _ _ _ Hord Hp) as (l & R & P & W & _ & T & O & _). split.
    + eapply origin_app; [done|]. intros tx t Ht. by apply T.
    + set (f := fun x : N * tx_tracker * tx_outcome => match x.2 with TxSucceeded => tt_requests x.1.2 | TxFailed => [] end).
      exists (answered ++ concat (map f l)). rewrite !app_nil_r. split.
      * rewrite P, (assoc_L app). apply Forall2_app; [exact Hj|]. apply Forall2_concat_2.
        intros [[tx t] o] Hx. unfold f. simpl. destruct o; [|constructor]. rewrite Forall_forall in W.
        assert (Hsucc : succeeds (EvProgress calls) tx) by (exists calls; split; [done|apply O; eauto]).
        destruct (W _ Hx) as [(t0 & Ht0 & Hr & Ha0)|[Hr Ha0]]; simpl in Hr, Ha0; rewrite Hr, Ha0; [|constructor].
        eapply Forall2_impl; [by apply Ho|]. intros r a (tr1 & e' & tr2 & -> & He').
        exists tx, tr1, e', tr2, (EvProgress calls), []. split; [|done]. by rewrite <- (assoc_L app).
      * etrans; [|exact Hsub]. rewrite <- (assoc_L app). apply submseteq_app; [done|]. etrans; [|exact R].
        apply submseteq_app; [|done]. apply concat_sub. intros [[i t] [|]] _; unfold f; simpl; [done|apply submseteq_nil_l].
  - destruct (resolved_txs s results) as [Ht Hr]. split.
    + eapply origin_app; [done|]. intros tx t. rewrite Ht. apply same_work_refl.
    + exists answered. rewrite !app_nil_r, Hr. split; [exact Hj|]. etrans; [|exact Hsub].
      apply submseteq_app; [done|apply resolved_requests].
  - unfold kv_process in Hp. destruct (st_txs s !! tx) as [t|] eqn:Htx.
    + apply res_bind_ok in Hp as ([[m t'] outs] & Hp & [= <- <-]).
      destruct (process_all_spec _ _ _ _ _ _ _ _ _ Hp) as (results & -> & Hlen & Htot & Hex). split.
      * intros tx' t' Ht'. simpl in Ht'. apply lookup_insert_Some in Ht' as [[<- <-]|[Hne Ht']].
        -- simpl. apply Forall2_app.
           ++ eapply Forall2_impl; [by apply Ho|]. apply origin_ext.
           ++ apply Forall2_fmap. apply Forall_Forall2_diag.
              eapply Forall_impl; [apply Hex|]. intros [r a] Hx. simpl in *. exists tr, (EvProcess tx tablets outs), [].
              split; [done|]. specialize (Hx tx).
              destruct Hx as (tb & set & k & q & md & bs & d & lr & answers & d' & i & ? & ? & ? & Hlr & Hrest).
              exists tb, set, k, q, md, bs, d, lr, answers, d', i. do 3 (split; [done|]). split; [|exact Hrest]. etrans; [exact Hlr|]. etrans; [|exact Hsub].
              apply submseteq_inserts_l. unfold all_requests. apply submseteq_inserts_l, submseteq_inserts_l, submseteq_inserts_r. done.
        -- eapply Forall2_impl; [by apply Ho|]. apply origin_ext.
      * exists answered. rewrite !app_nil_r. split; [exact Hj|]. etrans; [|exact Hsub].
        apply submseteq_app; [done|]. unfold all_requests. simpl.
        apply submseteq_app; [done|]. apply submseteq_app; [done|]. apply Permutation_submseteq.
        rewrite Htot, total_insert, (total_lookup _ _ _ _ Htx). simpl. solve_Permutation.
    + injection Hp as <- <-. split.
      * eapply origin_app; [done|]. intros tx' t. apply same_work_refl.
      * exists answered. rewrite !app_nil_r. done.
  - split.
    + eapply origin_app; [done|]. intros tx t. apply same_work_refl.
    + exists answered. simpl. rewrite !app_nil_r. done.
Qed.

Lemma store_inv_steps table mr mp tr s : keys_order txt_order ->
  store_runs hash_key decode_contents encode_contents tracker_order txt_order cx table mr mp tr s -> store_inv tr s.
Proof.
  intros Hord. unfold store_runs. remember (kv_init kv_new table mr mp) as s0 eqn:Hs0.
  induction 1 as [s|s tr s1 e s2 Hr IH Hs]; [subst|by eapply store_inv_step; eauto].
  split; [intros tx t; cbn; by rewrite lookup_empty|]. exists []. split; [constructor|].
  unfold all_requests, accepted. simpl. unfold pool. by rewrite !total_empty.
Qed.
Lemma store_steps_app s tr1 s1 tr2 s2 : steps s tr1 s1 -> steps s1 tr2 s2 -> steps s (tr1 ++ tr2) s2.
Proof.
  intros H1. induction 1 as [|s1 tr s2 e s3 H2 IH H3]; [by rewrite app_nil_r|].
  rewrite (assoc_L app). econstructor; eauto.
Qed.
End Histories.
