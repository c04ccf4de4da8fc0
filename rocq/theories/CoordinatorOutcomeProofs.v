(** The outcomes of transactions, and transactions that never have one. *)
From Verif Require Import Base ActorModel TabletModel TabletSpec TabletProofs MetadataModel BlobModel CoordinatorModel CoordinatorSpec CoordinatorProofs CoordinatorHandlerProofs CoordinatorCacheProofs.
Local Arguments N.add : simpl never.

(** ** What completes a transaction *)
Lemma complete_outcome l : forall o updates, committing_complete l = Ok (o, updates) ->
  (o = TxSucceeded <-> Forall (fun x => or_status x.2 = OpSucceeded) l).
Proof.
  induction l as [|[op r] l IH]; intros o updates Hc; cbn [committing_complete] in Hc.
  - injection Hc as <- <-. split; [constructor|done].
  - match type of Hc with res_bind ?X _ = _ => destruct X as [us| |] eqn:Eu end; cbn [res_bind] in Hc; [|done..].
    destruct (committing_complete l) as [[o' more]| |] eqn:El; cbn [res_bind] in Hc; [|done..]. injection Hc as <- <-.
    rewrite Forall_cons, <- (IH _ _ eq_refl). simpl. case_bool_decide; naive_solver.
Qed.

(** ** Answers of the store *)
(** If all tables are known, each check and update has a result. *)
Lemma store_results ts ops ts' resp : apply_tablets_request ts ops = Ok (ts', resp) -> exec_request ops ->
  (forall op, op ∈ ops -> is_Some (ts !! op_table op)) ->
  executed resp = rs_results resp /\ Forall2 (fun op r => or_status r = OpSucceeded <-> precondition ts op) ops (rs_results resp).
Proof.
  intros Ha He Hk. apply apply_request_spec in Ha as (Hp & _). apply prepare_all_spec in Hp. unfold executed. revert He Hk.
  induction Hp as [|op r ops rs Hr _ IH]; intros He Hk; [by split|]. apply Forall_cons in He as [He1 He2].
  destruct IH as [IH1 IH2]; [done|intros op' Hop; apply Hk; by right|].
  destruct (prepare_op_spec _ _ _ Hr) as (_ & Hs & _ & Hd). split; [|by constructor]. simpl.
  assert (is_exec_result r = true) as ->; [|by f_equal].
  unfold expected_detail in Hd. destruct (Hk op ltac:(by left)) as [t Ht]. rewrite Ht in Hd. unfold is_exec_result.
  destruct He1 as [(i & v & Hop)|(m & Hop)]; rewrite Hop in Hd; by rewrite Hd.
Qed.
Lemma store_answer_empty ts ts' resp : apply_tablets_request ts [] = Ok (ts', resp) -> executed resp = [].
Proof. intros Ha. unfold apply_tablets_request in Ha. simpl in Ha. by injection Ha as <- <-. Qed.
Lemma record_errors_keep l : forall errors errors', record_errors errors l = Ok errors' ->
  (forall n r, errors !! n = Some r -> errors' !! n = Some r) /\ forall n ops, (n, ops) ∈ l -> errors' !! n = Some (failed_response ops).
Proof.
  induction l as [|[n ops] l IH]; intros errors errors'; simpl.
  - intros [= <-]. split; [done|]. intros n ops Hx. by apply elem_of_nil in Hx.
  - destruct (errors !! n) eqn:E; [done|]. intros He. destruct (IH _ _ He) as [H1 H2]. split.
    + intros n' r Hn. apply H1. rewrite lookup_insert_ne; [done|]. intros ->. congruence.
    + intros n' ops' Hx. apply elem_of_cons in Hx as [[= -> ->]|Hx]; [|by apply H2]. apply H1. by rewrite lookup_insert.
Qed.

Section Outcomes.
Context {V H S : Type}.
Variable serialize : V -> option bytes.
Variable deserialize : bytes -> option V.
Variable sha256 : bytes -> bytes.
Variable base64 : bytes -> string.
Variable entry_order : gmap string (entry V) -> list (string * entry V).
Variable result_order : gmap (string * N) resolve_result -> list resolve_result.
Variable region_order : gmap N region -> list (N * region).
Variable table_order : gmap string table_cache -> list (string * table_cache).
Variable tablet_order : gmap (N * N) (working V) -> list (N * N).
Variable tx_order : gmap N (tx_state V H) -> list N.
Variable handle_tablets : S -> H -> N -> list (table_query * tablet_metadata * option V) ->
  res unit (S * list (option V)).
Notation perform := (mg_call serialize deserialize sha256 base64 entry_order result_order region_order table_order
                       tablet_order tx_order handle_tablets).
Notation runs := (runs serialize deserialize sha256 base64 entry_order result_order region_order table_order
                       tablet_order tx_order handle_tablets).
Notation reaches := (reaches serialize deserialize sha256 base64 entry_order result_order region_order table_order
                       tablet_order tx_order handle_tablets).
Notation process_progress := (process_progress serialize sha256 base64 result_order tablet_order handle_tablets).
Notation preparing_progress := (preparing_progress serialize sha256 base64 result_order tablet_order handle_tablets).
Notation transactions_progress := (transactions_progress serialize sha256 base64 result_order tablet_order handle_tablets).
Notation trace := (list (call (H := H) * reply (V := V) (H := H))).

Lemma runs_reaches co mc dc tables client tr m s tr' m' s' : runs co mc dc tables client tr m s -> reaches m s tr' m' s' ->
  runs co mc dc tables client (tr ++ tr') m' s'.
Proof using Type.
  intros Hr. induction 1 as [m s|m s tr' m1 s1 c m2 s2 r Hx IH Hc]; [by rewrite app_nil_r|].
  rewrite app_assoc. econstructor; [by apply IH|done].
Qed.

Lemma runs_reported co mc dc tables client tr m s : runs co mc dc tables client tr m s ->
  forall tx o, (tx, o) ∈ reported tr ->
  exists a r b resp r' c ops updates d,
    tr = a ++ (CCommit tx, r) :: b ++ (CIn (InOps (number co a) resp), r') :: c ++ (CCheck tx, ROutcome (Some o)) :: d /\
    (number co a, ops) ∈ commit_requests tr m /\ executed resp <> [] /\
    committing_complete (zip ops (executed resp)) = Ok (o, updates).
Proof using Type.
  induction 1 as [m Hi|tr m s c m' s' r Hr IH Hc]; intros tx o Hx; [by apply elem_of_nil in Hx|].
  pose proof (runs_inv _ _ _ _ _ _ _ _ _ _ _ _ _ _ _ _ _ _ _ Hr) as I.
  rewrite reported_app in Hx. apply elem_of_app in Hx as [Hx|Hx].
  - destruct (IH _ _ Hx) as (a & r1 & b & resp & r2 & c' & ops & upd & d & -> & H1 & H2 & H3).
    exists a, r1, b, resp, r2, c', ops, upd, (d ++ [(c, r)]). split_and!; [|by eapply requests_grow|done|done].
    repeat (rewrite <- ?app_assoc; simpl). done.
  - unfold reported in Hx. simpl in Hx. destruct c as [| | | | | | |tx'| |]; try (by apply elem_of_nil in Hx). destruct r as [| | | |[o'|]|]; try (by apply elem_of_nil in Hx).
    apply elem_of_list_singleton in Hx as [= <- <-].
    assert (co_transactions (mg_coordinator m) !! tx = Some (TxCompleted o)) as Ht.
    { cbn [mg_call] in Hc. unfold co_check in Hc. destruct (co_transactions (mg_coordinator m) !! tx) as [[ps|ops|out]|]; cbn [res_bind] in Hc; try done.
      by injection Hc as _ _ ->. }
    destruct (i_completed _ _ _ I _ _ Ht) as (a & r1 & b & resp & r2 & c' & ops & upd & -> & H1 & H2 & H3).
    exists a, r1, b, resp, r2, c', ops, upd, []. split_and!; [|by eapply requests_grow|done|done].
    repeat (rewrite <- ?app_assoc; simpl). done.
Qed.

(** ** Commits without an answer *)
Definition touches (n tx : N) (c : call (H := H)) : Prop :=
  match c with CAbort i => i = tx | CIn (InOps k _) => k = n | CIn (InOpsError k) => k = n | _ => False end.
Definition in_flight (m : manager V H) (n tx : N) (ops : list tablet_op) : Prop :=
  co_correlations (mg_coordinator m) !! n = Some tx /\ co_transactions (mg_coordinator m) !! tx = Some (TxCommitting ops) /\
  ((n, ops) ∈ co_out (mg_coordinator m) \/ mg_errors m !! n = Some (failed_response ops)).
Lemma response_in_flight co tr (m m' : manager V H) n tx ops k resp : inv co tr m -> k <> n -> in_flight m n tx ops ->
  mg_tablets_response result_order (Manager (mg_coordinator m) (mg_meta m) (mg_data m) (delete k (mg_errors m))) k resp = Ok m' ->
  in_flight m' n tx ops.
Proof using Type.
  intros I Hk (F1 & F2 & F3) E. unfold mg_tablets_response in E.
  destruct (match List.filter _ _ with [] => _ | _ => _ end) as [c| |]; cbn [res_bind] in E; [|done..].
  destruct (match List.filter is_exec_result _ with [] => _ | _ => _ end) as [[c' mc']| |] eqn:Ec; cbn [res_bind] in E; [|done..]. injection E as <-.
  assert (co_correlations c' !! n = Some tx /\ co_transactions c' !! tx = Some (TxCommitting ops) /\ co_out c' = co_out (mg_coordinator m)) as (G1 & G2 & G3).
  { cbn [mg_coordinator] in Ec. destruct (List.filter is_exec_result (rs_results resp)) as [|x l]; [by injection Ec as <- <-|].
    unfold co_response in Ec. destruct (co_correlations (mg_coordinator m) !! k) as [tx'|] eqn:En; [|by injection Ec as <- <-].
    assert (tx' <> tx) as Hne.
    { intros ->. destruct (i_correlations _ _ _ I _ _ F1) as (a & r1 & b & Ha & ->). destruct (i_correlations _ _ _ I _ _ En) as (a' & r2 & b' & Ha' & ->).
      apply Hk. unfold number. f_equal. f_equal. eapply number_determined; [|rewrite <- Ha'; exact Ha]. rewrite <- Ha'. apply I. }
    destruct (co_transactions (mg_coordinator m) !! tx') as [[ps|ops'|out]|];
      try (injection Ec as <- <-; simpl; rewrite lookup_delete_ne by done; done).
    destruct (committing_complete _) as [[o u]| |]; cbn [res_bind] in Ec; [|done..]. injection Ec as <- <-. simpl.
    rewrite lookup_delete_ne by done. rewrite lookup_insert_ne by done. done. }
  split_and!; simpl; [done|done|]. rewrite G3. destruct F3 as [F3|F3]; [by left|]. right. by rewrite lookup_delete_ne.
Qed.
Lemma in_flight_step co tr m s c m' s' r n tx ops : inv co tr m -> in_flight m n tx ops -> ~ touches n tx c ->
  perform m s c = Ok (m', s', r) -> in_flight m' n tx ops.
Proof using Type.
  intros I F Ht Hc. pose proof F as (F1 & F2 & F3). destruct c as [evicted|queries| |tx' queries h|tx'|tx'|tx'|tx'|x|]; cbn [mg_call] in Hc; simpl in Ht.
  - unfold mg_progress in Hc. destruct (dc_progress entry_order (mg_data m) evicted) as [dc| |]; cbn [res_bind] in Hc; [|done..].
    unfold co_progress in Hc.
    destruct (transactions_progress _ _ _) as [[s1 txs]| |] eqn:Et; cbn [res_bind] in Hc; [|done..]. injection Hc as <- <- <-.
    split_and!; simpl; [done| |done]. apply transactions_progress_txs with (i := tx) in Et. unfold same_tx in Et. by rewrite F2 in Et.
  - unfold mg_resolve in Hc. destruct (mc_resolve _ _ _ _) as [mc| |]; cbn [res_bind] in Hc; [|done..]. by injection Hc as <- <- <-.
  - injection Hc as <- <- <-. split_and!; simpl; [done| |done]. rewrite lookup_insert_ne; [done|].
    pose proof (i_started _ _ _ I tx (i_known _ _ _ I _ _ F2)). lia.
  - unfold co_process in Hc. destruct (co_transactions (mg_coordinator m) !! tx') as [[ps| |]|] eqn:Et; cbn [res_bind] in Hc; [|done..]. injection Hc as <- <- <-.
    split_and!; simpl; [done| |done]. rewrite lookup_insert_ne; [done|]. intros ->. congruence.
  - destruct (co_pending (mg_coordinator m) tx') as [b| |]; cbn [res_bind] in Hc; [|done..]. by injection Hc as <- <- <-.
  - destruct (co_commit tablet_order (mg_coordinator m) tx') as [c'| |] eqn:E; cbn [res_bind] in Hc; [|done..]. injection Hc as <- <- <-.
    apply co_commit_ok in E as (ps & ops' & Htx & Ha & Hops & He & ->). split_and!; simpl.
    + rewrite lookup_insert_ne; [done|]. destruct (i_correlations _ _ _ I _ _ F1) as (a & r1 & b & -> & ->).
      rewrite (i_correlation _ _ _ I). unfold number. rewrite commits_app. unfold Nlen. rewrite app_length. simpl. lia.
    + rewrite lookup_insert_ne; [done|]. intros ->. congruence.
    + destruct F3 as [F3|F3]; [|by right]. left. apply elem_of_app. by left.
  - injection Hc as <- <- <-. split_and!; simpl; [done| |done]. by rewrite lookup_delete_ne.
  - unfold co_check in Hc. destruct (co_transactions (mg_coordinator m) !! tx') as [[ps|ops'|out]|] eqn:Et; cbn [res_bind] in Hc; [done| | |done]; injection Hc as <- <- <-;
      [done|]. split_and!; simpl; [done| |done]. rewrite lookup_delete_ne; [done|]. intros ->. congruence.
  - destruct (mg_in deserialize result_order m x) as [m1| |] eqn:E; cbn [res_bind] in Hc; [|done..]. injection Hc as <- <- <-.
    destruct x as [d|k resp|k]; simpl in E.
    + destruct (dc_process deserialize (mg_data m) d); simpl in E; [|done..]. by injection E as <-.
    + by eapply response_in_flight.
    + destruct (mg_errors m !! k); [by eapply response_in_flight|]. by injection E as <-.
  - unfold mg_take, co_take, mc_take, dc_take in Hc.
    destruct (record_errors _ _) as [errors| |] eqn:Er; cbn [res_bind] in Hc; [|done..]. injection Hc as <- <- <-. apply record_errors_keep in Er as [E1 E2].
    split_and!; simpl; [done|done|]. right. destruct F3 as [F3|F3]; [|by apply E1]. apply E2. apply elem_of_app. by left.
Qed.
Lemma runs_in_flight co mc dc tables client tr m s : runs co mc dc tables client tr m s ->
  forall a tx r b, tr = a ++ (CCommit tx, r) :: b -> (forall x, x ∈ b -> ~ touches (number co a) tx x.1) ->
  exists ops, in_flight m (number co a) tx ops /\ (number co a, ops) ∈ commit_requests tr m.
Proof using Type.
  induction 1 as [m Hi|tr m s c m' s' r' Hr IH Hc]; intros a tx r b Ht Hb; [by destruct a|].
  pose proof (runs_inv _ _ _ _ _ _ _ _ _ _ _ _ _ _ _ _ _ _ _ Hr) as I.
  destruct (list_eq_nil_dec b) as [->|Hne].
  - apply app_inj_tail in Ht as [-> [= -> ->]]. pose proof (mg_call_inv _ _ _ _ _ _ _ _ _ _ _ _ _ _ _ _ _ _ _ I Hc) as I'.
    cbn [mg_call] in Hc. destruct (co_commit tablet_order (mg_coordinator m) tx) as [c'| |] eqn:E; cbn [res_bind] in Hc; [|done..]. injection Hc as <- <- <-.
    apply co_commit_ok in E as (ps & ops & Htx & Ha & Hops & He & ->). exists ops.
    assert (number co a = co_correlation (mg_coordinator m) + 1) as -> by (unfold number; rewrite (i_correlation _ _ _ I); lia).
    split.
    + split_and!; simpl; [by rewrite lookup_insert..|]. left. apply elem_of_app. right. by left.
    + rewrite commit_requests_eq by apply I'. simpl. apply elem_of_app. right. apply elem_of_app. right. by left.
  - destruct (exists_last Hne) as (b' & x & ->). rewrite app_comm_cons, app_assoc in Ht. apply app_inj_tail in Ht as [-> <-].
    destruct (IH a tx r b') as (ops & F & Hin); [done| |]. { intros x Hx. apply Hb. apply elem_of_app. by left. }
    exists ops. split; [|by eapply requests_grow]. eapply in_flight_step; [exact I|exact F| |exact Hc].
    apply (Hb (c, r')). apply elem_of_app. right. by left.
Qed.
(** An error for a commit that was sent aborts the service. *)
Lemma error_aborts co tr m s n tx ops : inv co tr m -> in_flight m n tx ops -> (n, ops) ∈ commit_requests tr m -> (n, ops) ∈ sent_ops tr -> ops <> [] ->
  perform m s (CIn (InOpsError n)) = Panic.
Proof using Type.
  intros I (F1 & F2 & F3) Hin Hsent Hne.
  assert (exec_request ops) as He.
  { destruct (i_kinds _ _ _ I) as (_ & _ & K3). rewrite Forall_forall in K3. destruct (K3 _ Hsent) as [Hl|He]; [|done].
    apply elem_of_list_In, filter_In in Hin as [_ Hx]. by rewrite list_request_lists in Hx. }
  assert ((n, ops) ∈ List.filter (fun x => negb (lists_tablets x.2)) (sent_ops tr)) as Hs.
  { apply elem_of_list_In, filter_In. split; [by apply elem_of_list_In|]. simpl. by rewrite exec_request_lists. }
  assert (mg_errors m !! n = Some (failed_response ops)) as Hm.
  { destruct F3 as [F3|F3]; [|done]. exfalso. pose proof (i_numbers _ _ _ I) as Hnum. rewrite commit_requests_eq in Hnum by apply I.
    assert (NoDup (map fst (List.filter (fun x => negb (lists_tablets x.2)) (sent_ops tr) ++ co_out (mg_coordinator m)))) as Hnd.
    { rewrite Hnum. apply (NoDup_fmap_2_strong (fun k => co + 1 + N.of_nat k)); [intros x y _ _ Hxy; lia|]. apply NoDup_seq. }
    rewrite map_app in Hnd. apply NoDup_app in Hnd as (_ & Hd & _). apply (Hd n); apply elem_of_list_fmap; by exists (n, ops). }
  cbn [mg_call mg_in]. rewrite Hm. unfold mg_tablets_response. cbn [rs_results failed_response mg_coordinator mg_meta].
  assert (List.filter is_list_result (map failed_op_result ops) = []) as ->.
  { apply filter_all_false. apply Forall_fmap. eapply Forall_impl; [exact He|]. intros op [(i & v & Hk)|(md & Hk)]; simpl; unfold is_list_result, failed_op_result; simpl; by rewrite Hk. }
  assert (List.filter is_exec_result (map failed_op_result ops) = map failed_op_result ops) as ->.
  { apply filter_all_true. apply Forall_fmap. eapply Forall_impl; [exact He|]. intros op [(i & v & Hk)|(md & Hk)]; simpl; unfold is_exec_result, failed_op_result; simpl; by rewrite Hk. }
  destruct ops as [|[t k] ops]; [done|]. cbn [res_bind map]. unfold co_response. rewrite F1, F2. cbn [zip_with committing_complete op_kind_of].
  apply Forall_cons in He as [[(i & v & Hk)|(md & Hk)] _]; simpl in Hk; subst k; done.
Qed.
(** ** Commits stay undecided until an answer with results *)
Lemma undecided_step co tr m s c m' s' r n tx ops : inv co tr m -> committed_with co tr (commit_requests tr m) tx n ops ->
  co_transactions (mg_coordinator m) !! tx = Some (TxCommitting ops) -> c <> CAbort tx ->
  (forall resp, c = CIn (InOps n resp) -> executed resp = []) ->
  perform m s c = Ok (m', s', r) -> co_transactions (mg_coordinator m') !! tx = Some (TxCommitting ops).
Proof using Type.
  intros I (a & r0 & b & -> & -> & Hin) F2 Hab Hres Hc.
  destruct c as [evicted|queries| |tx' queries h|tx'|tx'|tx'|tx'|x|]; cbn [mg_call] in Hc.
  - unfold mg_progress in Hc. destruct (dc_progress entry_order (mg_data m) evicted) as [dc| |]; cbn [res_bind] in Hc; [|done..].
    unfold co_progress in Hc.
    destruct (transactions_progress _ _ _) as [[s1 txs]| |] eqn:Et; cbn [res_bind] in Hc; [|done..]. injection Hc as <- <- <-.
    simpl. apply transactions_progress_txs with (i := tx) in Et. unfold same_tx in Et. by rewrite F2 in Et.
  - unfold mg_resolve in Hc. destruct (mc_resolve _ _ _ _) as [mc| |]; cbn [res_bind] in Hc; [|done..]. by injection Hc as <- <- <-.
  - injection Hc as <- <- <-. simpl. rewrite lookup_insert_ne; [done|].
    pose proof (i_started _ _ _ I tx (i_known _ _ _ I _ _ F2)). lia.
  - unfold co_process in Hc. destruct (co_transactions (mg_coordinator m) !! tx') as [[ps| |]|] eqn:Et; cbn [res_bind] in Hc; [|done..]. injection Hc as <- <- <-.
    simpl. rewrite lookup_insert_ne; [done|]. intros ->. congruence.
  - destruct (co_pending (mg_coordinator m) tx') as [b'| |]; cbn [res_bind] in Hc; [|done..]. by injection Hc as <- <- <-.
  - destruct (co_commit tablet_order (mg_coordinator m) tx') as [c'| |] eqn:E; cbn [res_bind] in Hc; [|done..]. injection Hc as <- <- <-.
    apply co_commit_ok in E as (ps & ops' & Htx & Ha & Hops & He & ->). simpl. rewrite lookup_insert_ne; [done|]. intros ->. congruence.
  - injection Hc as <- <- <-. simpl. rewrite lookup_delete_ne; [done|]. congruence.
  - unfold co_check in Hc. destruct (co_transactions (mg_coordinator m) !! tx') as [[ps|ops'|out]|] eqn:Et; cbn [res_bind] in Hc; [done| | |done]; injection Hc as <- <- <-;
      [done|]. simpl. rewrite lookup_delete_ne; [done|]. intros ->. congruence.
  - destruct (mg_in deserialize result_order m x) as [m1| |] eqn:E; cbn [res_bind] in Hc; [|done..]. injection Hc as <- <- <-.
    assert (forall k resp, mg_tablets_response result_order (Manager (mg_coordinator m) (mg_meta m) (mg_data m) (delete k (mg_errors m))) k resp = Ok m1 ->
      (k = number co a -> executed resp = []) \/ mg_errors m !! k = Some resp ->
      co_transactions (mg_coordinator m1) !! tx = Some (TxCommitting ops)) as Hresp.
    { intros k resp Hm Hor. apply tablets_response_cases in Hm as (_ & _ & _ & _ & _ & _ & _ & [Hs|Hs]); [by rewrite Hs|].
      destruct Hs as (tx' & ops' & o & u & Hcor & Htx & Hex & Hcomp & Hs). simpl in *. rewrite Hs.
      destruct (decide (tx' = tx)) as [->|]; [|by rewrite lookup_insert_ne]. exfalso.
      destruct Hor as [Hor|Her].
      - apply Hex, Hor. destruct (i_correlations _ _ _ I _ _ Hcor) as (a' & r1 & b' & Ha' & ->). unfold number. do 2 f_equal.
        eapply number_determined; [|symmetry; exact Ha']. rewrite <- Ha'. apply I.
      - by eapply (error_completes_none co). }
    destruct x as [d|k resp|k]; simpl in E.
    + destruct (dc_process deserialize (mg_data m) d); simpl in E; [|done..]. by injection E as <-.
    + eapply Hresp; [exact E|]. left. intros ->. by apply Hres.
    + destruct (mg_errors m !! k) as [resp|] eqn:Er; [|by injection E as <-]. eapply Hresp; [exact E|]. by right.
  - unfold mg_take, co_take, mc_take, dc_take in Hc.
    destruct (record_errors _ _) as [errors| |] eqn:Er; cbn [res_bind] in Hc; [|done..]. by injection Hc as <- <- <-.
Qed.
Lemma runs_undecided co mc dc tables client tr m s : runs co mc dc tables client tr m s ->
  forall a tx r b, tr = a ++ (CCommit tx, r) :: b ->
  (forall x, x ∈ b -> x.1 <> CAbort tx) ->
  (forall resp x, x ∈ b -> x.1 = CIn (InOps (number co a) resp) -> executed resp = []) ->
  exists ops, co_transactions (mg_coordinator m) !! tx = Some (TxCommitting ops) /\ (number co a, ops) ∈ commit_requests tr m.
Proof using Type.
  induction 1 as [m Hi|tr m s c m' s' r' Hr IH Hc]; intros a tx r b Ht Hb1 Hb2; [by destruct a|].
  pose proof (runs_inv _ _ _ _ _ _ _ _ _ _ _ _ _ _ _ _ _ _ _ Hr) as I.
  destruct (list_eq_nil_dec b) as [->|Hne].
  - apply app_inj_tail in Ht as [-> [= -> ->]]. pose proof (mg_call_inv _ _ _ _ _ _ _ _ _ _ _ _ _ _ _ _ _ _ _ I Hc) as I'.
    cbn [mg_call] in Hc. destruct (co_commit tablet_order (mg_coordinator m) tx) as [c'| |] eqn:E; cbn [res_bind] in Hc; [|done..]. injection Hc as <- <- <-.
    apply co_commit_ok in E as (ps & ops & Htx & Ha & Hops & He & ->). exists ops.
    assert (number co a = co_correlation (mg_coordinator m) + 1) as -> by (unfold number; rewrite (i_correlation _ _ _ I); lia).
    split; [simpl; by rewrite lookup_insert|].
    rewrite commit_requests_eq by apply I'. simpl. apply elem_of_app. right. apply elem_of_app. right. by left.
  - destruct (exists_last Hne) as (b' & x & ->). rewrite app_comm_cons, app_assoc in Ht. apply app_inj_tail in Ht as [-> <-].
    destruct (IH a tx r b') as (ops & F & Hin); [done| | |].
    { intros x Hx. apply Hb1. apply elem_of_app. by left. }
    { intros resp x Hx. apply Hb2. apply elem_of_app. by left. }
    exists ops. split; [|by eapply requests_grow].
    eapply undecided_step; [exact I| |exact F| | |exact Hc].
    + by exists a, r, b'.
    + apply (Hb1 (c, r')). apply elem_of_app. right. by left.
    + intros resp Hx. apply (Hb2 resp (c, r')); [|done]. apply elem_of_app. right. by left.
Qed.

(** ** Failed processing stays *)
Definition stuck (m : manager V H) (tx : N) : Prop :=
  exists ps, co_transactions (mg_coordinator m) !! tx = Some (TxPreparing ps) /\ existsb process_failed ps = true.
Lemma preparing_stuck tx ps : forall s s' ps', preparing_progress tx s ps = Ok (s', ps') ->
  existsb process_failed ps = true -> existsb process_failed ps' = true.
Proof using Type.
  induction ps as [|p ps IH]; intros s s' ps' Hp Hf; [done|]. cbn [CoordinatorModel.preparing_progress] in Hp.
  destruct (process_progress tx s p) as [[s1 p1]| |] eqn:E; cbn [res_bind] in Hp; [|done..].
  destruct (preparing_progress tx s1 ps) as [[s2 ps2]| |] eqn:E2; cbn [res_bind] in Hp; [|done..]. injection Hp as <- <-.
  simpl in *. apply orb_true_iff in Hf as [Hf|Hf]; [|rewrite (IH _ _ _ E2 Hf); apply orb_true_r].
  unfold process_failed in Hf. destruct (ps_status p) eqn:Es; try done. unfold CoordinatorModel.process_progress in E. rewrite Es in E. injection E as <- <-.
  unfold process_failed. by rewrite Es.
Qed.
Lemma transactions_stuck tx ids : forall s txs s' txs' ps, transactions_progress s txs ids = Ok (s', txs') ->
  txs !! tx = Some (TxPreparing ps) -> existsb process_failed ps = true ->
  exists ps', txs' !! tx = Some (TxPreparing ps') /\ existsb process_failed ps' = true.
Proof using Type.
  induction ids as [|i ids IH]; intros s txs s' txs' ps Hp Htx Hf; cbn [CoordinatorModel.transactions_progress] in Hp.
  - injection Hp as <- <-. by exists ps.
  - destruct (txs !! i) as [[ps1| |]|] eqn:Ei; try (by eapply IH).
    destruct (preparing_progress i s ps1) as [[s2 ps2]| |] eqn:E2; cbn [res_bind] in Hp; [|done..].
    destruct (decide (i = tx)) as [->|Hne].
    + rewrite Htx in Ei. injection Ei as <-. eapply IH; [exact Hp|by rewrite lookup_insert|]. by eapply preparing_stuck.
    + eapply IH; [exact Hp|by rewrite lookup_insert_ne|done].
Qed.
Lemma failed_active (ps : list (process V H)) : existsb process_failed ps = true -> is_active ps = true.
Proof using Type.
  intros Hf. apply existsb_exists in Hf as (p & Hin & Hf). apply existsb_exists. exists p. split; [done|].
  unfold process_failed in Hf. unfold process_active. by destruct (ps_status p).
Qed.
Lemma stuck_step co tr m s c m' s' r tx : inv co tr m -> stuck m tx -> c <> CAbort tx -> perform m s c = Ok (m', s', r) -> stuck m' tx.
Proof using Type.
  intros I (ps & F2 & Hf) Hab Hc. destruct c as [evicted|queries| |tx' queries h|tx'|tx'|tx'|tx'|x|]; cbn [mg_call] in Hc.
  - unfold mg_progress in Hc. destruct (dc_progress entry_order (mg_data m) evicted) as [dc| |]; cbn [res_bind] in Hc; [|done..].
    unfold co_progress in Hc.
    destruct (transactions_progress _ _ _) as [[s1 txs]| |] eqn:Et; cbn [res_bind] in Hc; [|done..]. injection Hc as <- <- <-.
    eapply transactions_stuck in Et as (ps' & ? & ?); [|done|done]. by exists ps'.
  - unfold mg_resolve in Hc. destruct (mc_resolve _ _ _ _) as [mc| |]; cbn [res_bind] in Hc; [|done..]. injection Hc as <- <- <-. by exists ps.
  - injection Hc as <- <- <-. exists ps. simpl. rewrite lookup_insert_ne; [done|].
    pose proof (i_started _ _ _ I tx (i_known _ _ _ I _ _ F2)). lia.
  - unfold co_process in Hc. destruct (co_transactions (mg_coordinator m) !! tx') as [[ps'| |]|] eqn:Et; cbn [res_bind] in Hc; [|done..]. injection Hc as <- <- <-.
    unfold stuck. simpl. destruct (decide (tx' = tx)) as [->|]; [|rewrite lookup_insert_ne by done; by exists ps].
    rewrite lookup_insert. rewrite F2 in Et. injection Et as <-. eexists. split; [done|]. by rewrite existsb_app, Hf.
  - destruct (co_pending (mg_coordinator m) tx') as [b'| |]; cbn [res_bind] in Hc; [|done..]. injection Hc as <- <- <-. by exists ps.
  - destruct (co_commit tablet_order (mg_coordinator m) tx') as [c'| |] eqn:E; cbn [res_bind] in Hc; [|done..]. injection Hc as <- <- <-.
    apply co_commit_ok in E as (ps' & ops' & Htx & Ha & Hops & He & ->). unfold stuck. simpl.
    destruct (decide (tx' = tx)) as [->|]; [|rewrite lookup_insert_ne by done; by exists ps].
    rewrite F2 in Htx. injection Htx as <-. by rewrite failed_active in Ha.
  - injection Hc as <- <- <-. exists ps. simpl. rewrite lookup_delete_ne; [done|]. congruence.
  - unfold co_check in Hc. destruct (co_transactions (mg_coordinator m) !! tx') as [[ps'|ops'|out]|] eqn:Et; cbn [res_bind] in Hc; [done| | |done]; injection Hc as <- <- <-;
      [by exists ps|]. exists ps. simpl. rewrite lookup_delete_ne; [done|]. intros ->. congruence.
  - destruct (mg_in deserialize result_order m x) as [m1| |] eqn:E; cbn [res_bind] in Hc; [|done..]. injection Hc as <- <- <-.
    assert (forall k resp, mg_tablets_response result_order (Manager (mg_coordinator m) (mg_meta m) (mg_data m) (delete k (mg_errors m))) k resp = Ok m1 ->
      stuck m1 tx) as Hresp.
    { intros k resp Hm. apply tablets_response_cases in Hm as (_ & _ & _ & _ & _ & _ & _ & [Hs|Hs]); [exists ps; by rewrite Hs|].
      destruct Hs as (tx' & ops' & o & u & Hcor & Htx & Hex & Hcomp & Hs). simpl in *. exists ps. rewrite Hs.
      rewrite lookup_insert_ne; [done|]. intros ->. congruence. }
    destruct x as [d|k resp|k]; simpl in E.
    + destruct (dc_process deserialize (mg_data m) d); simpl in E; [|done..]. injection E as <-. by exists ps.
    + by eapply Hresp.
    + destruct (mg_errors m !! k) as [resp|]; [by eapply Hresp|]. injection E as <-. by exists ps.
  - unfold mg_take, co_take, mc_take, dc_take in Hc.
    destruct (record_errors _ _) as [errors| |] eqn:Er; cbn [res_bind] in Hc; [|done..]. injection Hc as <- <- <-. by exists ps.
Qed.
Lemma stuck_forever co mc dc tables client tr m s : runs co mc dc tables client tr m s ->
  forall tr' m' s' tx, reaches m s tr' m' s' -> stuck m tx -> (forall x, x ∈ tr' -> x.1 <> CAbort tx) -> stuck m' tx.
Proof using Type.
  intros Hr tr' m' s' tx. induction 1 as [m s|m s tr' m1 s1 c m2 s2 r Hx IH Hc]; intros Hs Hab; [done|].
  eapply stuck_step; [by eapply runs_inv, runs_reaches| | |exact Hc].
  - apply IH; [done|done|]. intros x Hin. apply Hab. apply elem_of_app. by left.
  - apply (Hab (c, r)). apply elem_of_app. right. by left.
Qed.
Lemma stuck_calls m s tx : stuck m tx ->
  perform m s (CPending tx) = Ok (m, s, RPending true) /\ perform m s (CCommit tx) = Panic /\ perform m s (CCheck tx) = Panic.
Proof using Type.
  intros (ps & F & Hf). cbn [mg_call]. unfold co_pending, co_commit, co_check. rewrite F, failed_active by done. done.
Qed.
End Outcomes.
