(** Theorems about transactions of the tablet cache application: histories of
    calls of the transaction manager, with the answers of the tablet store and of
    the blob store. *)
From Verif Require Import Base ActorModel TabletModel TabletSpec TabletProofs MetadataModel BlobModel CoordinatorModel CoordinatorSpec CoordinatorProofs CoordinatorHandlerProofs CoordinatorCacheProofs CoordinatorDataProofs CoordinatorOutcomeProofs CoordinatorStoreProofs CoordinatorClientProofs.
From Verif Require MetadataSpec BlobSpec.
Local Arguments N.add : simpl never.

(** ** A concrete system for the examples *)
(** Contents are numbers; a handler writes its number to all its tablets, or
    nothing. The tables "t" and "u" have one tablet each. *)
Definition ex_serialize (v : N) : option bytes := Some [v].
Definition ex_deserialize (l : bytes) : option N := match l with [v] => Some v | _ => None end.
Definition ex_handle (s : unit) (h : option N) (tx : N) (input : list (table_query * tablet_metadata * option N))
  : res unit (unit * list (option N)) := Ok (s, map (fun _ => h) input).
Definition ex_entries (m : gmap string (entry N)) := map_to_list m.
Definition ex_results (m : gmap (string * N) resolve_result) := map snd (map_to_list m).
Definition ex_regions (m : gmap N region) := map_to_list m.
Definition ex_tables (m : gmap string table_cache) := map_to_list m.
Definition ex_tablets (m : gmap (N * N) (working N)) := map fst (map_to_list m).
Definition ex_txs (m : gmap N (tx_state N (option N))) := map fst (map_to_list m).
Definition ex_hash (l : bytes) : bytes := l.
Definition ex_base64 (l : bytes) : string := "h".
Notation ex_call := (call (H := option N)).
Notation ex_reply := (reply (V := N) (H := option N)).
Notation ex_perform := (mg_call ex_serialize ex_deserialize ex_hash ex_base64 ex_entries ex_results ex_regions ex_tables
  ex_tablets ex_txs ex_handle).
Notation ex_runs := (runs ex_serialize ex_deserialize ex_hash ex_base64 ex_entries ex_results ex_regions ex_tables
  ex_tablets ex_txs ex_handle).
Notation ex_data_runs := (data_runs ex_serialize ex_deserialize ex_hash ex_base64 ex_entries ex_results ex_regions ex_tables
  ex_tablets ex_txs ex_handle).
Notation ex_manager := (manager N (option N)).
Lemma ex_results_order : MetadataSpec.values_order ex_results. Proof. by intros m. Qed.
Lemma ex_tablets_order : keys_order ex_tablets. Proof. by intros m. Qed.
Lemma ex_entries_order : BlobSpec.entries_order ex_entries. Proof. by intros m. Qed.
Fixpoint ex_exec (m : ex_manager) (cs : list ex_call) : res unit (list (ex_call * ex_reply) * ex_manager) :=
  match cs with
  | [] => Ok ([], m)
  | c :: cs => let! (m, _, r) := ex_perform m tt c in let! (tr, m) := ex_exec m cs in Ok ((c, r) :: tr, m)
  end.
Definition ex_config : list (string * N) := [("t"%string, 1073741824); ("u"%string, 1073741824)].
Lemma ex_config_once : NoDup (map fst ex_config).
Proof. repeat constructor; set_solver. Qed.
Lemma ex_config_u32 : MetadataSpec.sizes_u32 ex_config.
Proof. intros name size Hin. apply elem_of_list_In in Hin. simpl in Hin. unfold u32_max. naive_solver lia. Qed.
Definition ex_create : ex_manager := mg_create 100 300 200.
Definition ex_init : ex_manager := match mg_init ex_create ex_config with Ok m => m | _ => ex_create end.
Definition ex_trace (cs : list ex_call) : list (ex_call * ex_reply) :=
  match ex_exec ex_init cs with Ok (tr, _) => tr | _ => [] end.
Definition ex_state (cs : list ex_call) : ex_manager :=
  match ex_exec ex_init cs with Ok (_, m) => m | _ => ex_init end.
Definition ex_ok (cs : list ex_call) : bool := match ex_exec ex_init cs with Ok _ => true | _ => false end.
Definition no_eviction (c : ex_call) : bool := match c with CProgress (_ :: _) => false | _ => true end.
Lemma ex_exec_runs cs : forall tr0 m0 tr m, ex_runs 100 300 200 ex_config tt tr0 m0 tt -> ex_exec m0 cs = Ok (tr, m) ->
  ex_runs 100 300 200 ex_config tt (tr0 ++ tr) m tt.
Proof.
  induction cs as [|c cs IH]; intros tr0 m0 tr m Hr He; cbn [ex_exec] in He.
  - injection He as <- <-. by rewrite app_nil_r.
  - destruct (ex_perform m0 tt c) as [[[m1 []] r]| |] eqn:E; cbn [res_bind] in He; [|done..].
    destruct (ex_exec m1 cs) as [[tr1 m2]| |] eqn:E2; cbn [res_bind] in He; [|done..]. injection He as <- <-.
    change (tr0 ++ (c, r) :: tr1) with (tr0 ++ [(c, r)] ++ tr1). rewrite app_assoc. eapply IH; [|exact E2]. by econstructor.
Qed.
Lemma ex_exec_data_runs cs : forall tr0 m0 o0 a0 tr m, ex_data_runs 100 300 200 ex_config tt tr0 m0 tt o0 a0 -> ex_exec m0 cs = Ok (tr, m) ->
  forallb no_eviction cs = true -> exists o a, ex_data_runs 100 300 200 ex_config tt (tr0 ++ tr) m tt o a.
Proof.
  induction cs as [|c cs IH]; intros tr0 m0 o0 a0 tr m Hr He Hn; cbn [ex_exec] in He.
  - injection He as <- <-. rewrite app_nil_r. by exists o0, a0.
  - destruct (ex_perform m0 tt c) as [[[m1 []] r]| |] eqn:E; cbn [res_bind] in He; [|done..].
    destruct (ex_exec m1 cs) as [[tr1 m2]| |] eqn:E2; cbn [res_bind] in He; [|done..]. injection He as <- <-.
    simpl in Hn. apply andb_true_iff in Hn as [Hn1 Hn2].
    change (tr0 ++ (c, r) :: tr1) with (tr0 ++ [(c, r)] ++ tr1). rewrite app_assoc. eapply IH; [|exact E2|done]. econstructor; [exact Hr|exact E|].
    intros evicted k -> Hk. destruct evicted; [by apply elem_of_nil in Hk|done].
Qed.
Lemma ex_init_ok : mg_init ex_create ex_config = Ok ex_init.
Proof. unfold ex_init. destruct (mg_init ex_create ex_config) eqn:E; [done|..]; by vm_compute in E. Qed.
Lemma ex_history cs : ex_ok cs = true -> ex_runs 100 300 200 ex_config tt (ex_trace cs) (ex_state cs) tt.
Proof.
  unfold ex_ok, ex_trace, ex_state. destruct (ex_exec ex_init cs) as [[tr m]| |] eqn:E; [intros _|done..].
  apply (ex_exec_runs cs [] ex_init); [|done]. constructor. apply ex_init_ok.
Qed.
Lemma ex_data_history cs : ex_ok cs = true -> forallb no_eviction cs = true ->
  exists o a, ex_data_runs 100 300 200 ex_config tt (ex_trace cs) (ex_state cs) tt o a.
Proof.
  unfold ex_ok, ex_trace, ex_state. destruct (ex_exec ex_init cs) as [[tr m]| |] eqn:E; [intros _ Hn|done..].
  apply (ex_exec_data_runs cs [] ex_init [] []); [|done|done]. constructor. apply ex_init_ok.
Qed.
Definition ex_tablet (i v : N) (uri : string) : tablet_metadata := TabletMetadata i v false [] 1 [1] uri.
(** The tablet store, at first and after another client has changed a tablet of "u". *)
Definition ex_store : tables := {[ "t"%string := {[ 5 := ex_tablet 5 1 "a" ]}; "u"%string := {[ 6 := ex_tablet 6 1 "b" ]} ]}.
Definition ex_store' : tables := {[ "t"%string := {[ 5 := ex_tablet 5 1 "a" ]}; "u"%string := {[ 6 := ex_tablet 6 2 "c" ]} ]}.
Definition ex_answer (ts : tables) (ops : list tablet_op) : tablets_response :=
  match apply_tablets_request ts ops with Ok (_, r) => r | _ => TabletsResponse false [] end.
Definition ex_next (ts : tables) (ops : list tablet_op) : tables :=
  match apply_tablets_request ts ops with Ok (ts', _) => ts' | _ => ts end.
Lemma ex_applied ts ops : match apply_tablets_request ts ops with Ok _ => True | _ => False end ->
  apply_tablets_request ts ops = Ok (ex_next ts ops, ex_answer ts ops).
Proof. unfold ex_next, ex_answer. by destruct (apply_tablets_request ts ops) as [[ts' r]| |]. Qed.
Definition ex_query1 : table_query := query_create 7 "t" [3].
Definition ex_query2 : table_query := query_create 8 "u" [4].
Definition ex_list : list tablet_op := [TabletOp "t" (Some (OpList 0 1073741823)); TabletOp "u" (Some (OpList 0 1073741823))].
Definition ex_resolve (h : option N) : list ex_call :=
  [CStart; CProcess 2 [ex_query1; ex_query2] h; CProgress []; CProgress []; CTake;
   CIn (InOps 301 (ex_answer ex_store ex_list)); CProgress []; CTake].
Definition ex_loaded (h : option N) : list ex_call :=
  ex_resolve h ++ [CIn (InData (LoadResponse 201 2 [1])); CIn (InData (LoadResponse 202 2 [1])); CProgress []; CTake].
Definition ex_commit : list ex_call :=
  ex_loaded (Some 42) ++ [CIn (InData (StoreResponse 203 2)); CIn (InData (StoreResponse 204 2)); CProgress []; CPending 2; CCommit 2].
Definition ex_sent : list ex_call := ex_commit ++ [CTake].
Definition ex_update5 : tablet_metadata := TabletMetadata 5 2 false [] 1 [42] "5_2_h".
Definition ex_update6 : tablet_metadata := TabletMetadata 6 2 false [] 1 [42] "6_2_h".
Definition ex_ops : list tablet_op :=
  [TabletOp "t" (Some (OpUpdate (Some ex_update5))); TabletOp "u" (Some (OpUpdate (Some ex_update6)))].
Definition ex_success : list ex_call := ex_sent ++ [CIn (InOps 101 (ex_answer ex_store ex_ops)); CCheck 2].
Definition ex_failure : list ex_call := ex_sent ++ [CIn (InOps 101 (ex_answer ex_store' ex_ops)); CCheck 2].
Lemma u32_calls (cs : list ex_call) : ex_ok cs = true -> Forall call_u32 cs -> Forall (fun x => call_u32 x.1) (ex_trace cs).
Proof.
  unfold ex_ok, ex_trace. generalize ex_init as m0. induction cs as [|c cs IH]; intros m0 He Hu; cbn [ex_exec] in *; [constructor|].
  apply Forall_cons in Hu as [Hu1 Hu2].
  destruct (ex_perform m0 tt c) as [[[m1 []] r]| |] eqn:E; cbn [res_bind] in *; [|constructor..].
  specialize (IH m1). destruct (ex_exec m1 cs) as [[tr1 m2]| |] eqn:E2; cbn [res_bind] in *; [|constructor..]. constructor; [done|]. by apply IH.
Qed.
Lemma ex_queries_u32 : queries_u32 [ex_query1; ex_query2].
Proof.
  intros q h Hq Hh. apply elem_of_cons in Hq as [->|Hq]; [|apply elem_of_list_singleton in Hq as ->];
    cbn [tq_hashes ex_query1 ex_query2 query_create] in Hh; apply elem_of_list_to_set, elem_of_list_singleton in Hh as ->; by vm_compute.
Qed.
Lemma ex_success_u32 : Forall (fun x => call_u32 x.1) (ex_trace ex_success).
Proof. apply u32_calls; [by vm_compute|]. repeat constructor; apply ex_queries_u32. Qed.
Lemma ex_sent_u32 : Forall (fun x => call_u32 x.1) (ex_trace ex_sent).
Proof. apply u32_calls; [by vm_compute|]. repeat constructor; apply ex_queries_u32. Qed.
Lemma ex_trace_in cs c r : (c, r) ∈ ex_trace cs -> c ∈ cs.
Proof.
  unfold ex_trace. generalize ex_init as m0. induction cs as [|c' cs IH]; intros m0; cbn [ex_exec]; [by intros ?%elem_of_nil|].
  destruct (ex_perform m0 tt c') as [[[m1 []] r']| |] eqn:E; cbn [res_bind]; [|by intros ?%elem_of_nil..].
  specialize (IH m1). destruct (ex_exec m1 cs) as [[tr1 m2]| |] eqn:E2; cbn [res_bind]; [|by intros ?%elem_of_nil..].
  intros [[= -> ->]|Hin]%elem_of_cons; [by left|]. right. by apply IH.
Qed.

Lemma refused_operation ts ops ts' resp : apply_tablets_request ts ops = Ok (ts', resp) -> ~ Forall (precondition ts) ops ->
  exists op, op ∈ ops /\ ~ precondition ts op.
Proof.
  intros Ha Hno. apply apply_request_spec in Ha as (Hp & _). apply prepare_all_spec in Hp.
  induction Hp as [|op r ops rs Hr _ IH]; [by destruct Hno|]. destruct (prepare_op_spec _ _ _ Hr) as (_ & Hs & _).
  destruct (decide (or_status r = OpSucceeded)) as [Hok|Hbad].
  - destruct IH as (x & Hx & ?); [|exists x; split; [by right|done]]. intros Hk. apply Hno. constructor; [by apply Hs|done].
  - exists op. split; [by left|]. intros Hx. by apply Hbad, Hs.
Qed.

Section Transactions.
Context {V H S : Type}.
Variable serialize : V -> option bytes.
Variable deserialize : bytes -> option V.
Variable sha256 : bytes -> bytes.
Variable base64 : bytes -> string.
Variable entry_order : gmap string (entry V) -> list (string * entry V).
Variable result_order : gmap (string * N) resolve_result -> list resolve_result.
Variable region_order : gmap N region -> list (N * region).
Variable table_order : gmap string table_cache -> list (string * table_cache).
Variable tablet_order : gmap (N * N) (working V) -> list (N * N).
Variable tx_order : gmap N (tx_state V H) -> list N.
Variable handle_tablets : S -> H -> N -> list (table_query * tablet_metadata * option V) ->
  res unit (S * list (option V)).
Notation perform := (mg_call serialize deserialize sha256 base64 entry_order result_order region_order table_order
                       tablet_order tx_order handle_tablets).
Notation runs := (runs serialize deserialize sha256 base64 entry_order result_order region_order table_order
                       tablet_order tx_order handle_tablets).
Notation data_runs := (data_runs serialize deserialize sha256 base64 entry_order result_order region_order table_order
                       tablet_order tx_order handle_tablets).
Notation reaches := (reaches serialize deserialize sha256 base64 entry_order result_order region_order table_order
                       tablet_order tx_order handle_tablets).
Notation tablet_operation := (tablet_operation serialize sha256 base64).
Notation provides := (BlobSpec.provides serialize deserialize).
Notation trace := (list (call (H := H) * reply (V := V) (H := H))).

(** ** C54: outcomes *)
(** Ids of transactions and numbers of commit requests are never reused, a
    transaction is committed at most once and only committed transactions have an
    outcome, which is reported at most once. *)
Theorem C54_ids_numbers_and_outcomes_once co mc dc tables client tr m s : runs co mc dc tables client tr m s ->
  NoDup (started tr) /\ NoDup (commits tr) /\ NoDup (map fst (commit_requests tr m)) /\ NoDup (map fst (reported tr)) /\
  length (commit_requests tr m) = length (commits tr) /\
  forall tx o, (tx, o) ∈ reported tr -> tx ∈ commits tr /\ tx ∈ started tr.
Proof using Type.
  intros Hr. pose proof (runs_inv _ _ _ _ _ _ _ _ _ _ _ _ _ _ _ _ _ _ _ Hr) as I. split_and!; try apply I.
  - rewrite (i_numbers _ _ _ I). apply (NoDup_fmap_2_strong (fun k => co + 1 + N.of_nat k)); [intros x y _ _ Hxy; lia|]. apply NoDup_seq.
  - rewrite <- (map_length fst), (i_numbers _ _ _ I), map_length. by rewrite seq_length.
  - intros tx o Hx. destruct (runs_reported _ _ _ _ _ _ _ _ _ _ _ _ _ _ _ _ _ _ _ Hr _ _ Hx) as (a & r & b & resp & r' & c & ops & upd & d & Htr & _).
    split; [|by eapply (i_reported _ _ _ I)]. rewrite Htr, commits_app. apply elem_of_app. right. by left.
Qed.

(** The outcome reported is success exactly if no result the store gave to the
    commit request is a failure, for the operations that have a result. Partial:
    operations without a result count as succeeded, see the refutation below. *)
Theorem C54_outcome_of_the_answer_partial co mc dc tables client tr m s : runs co mc dc tables client tr m s ->
  forall tx o, (tx, o) ∈ reported tr ->
  exists a r b resp r' c d ops,
    tr = a ++ (CCommit tx, r) :: b ++ (CIn (InOps (number co a) resp), r') :: c ++ (CCheck tx, ROutcome (Some o)) :: d /\
    (number co a, ops) ∈ commit_requests tr m /\
    (o = TxSucceeded <->
     forall i op x, ops !! i = Some op -> executed resp !! i = Some x -> or_status x = OpSucceeded).
Proof using Type.
  intros Hr tx o Hx. destruct (runs_reported _ _ _ _ _ _ _ _ _ _ _ _ _ _ _ _ _ _ _ Hr _ _ Hx) as (a & r & b & resp & r' & c & ops & upd & d & Htr & Hreq & _ & Hc).
  exists a, r, b, resp, r', c, d, ops. split_and!; [done|done|]. rewrite (complete_outcome _ _ _ Hc). split.
  - rewrite Forall_lookup. intros Hf i op x Hop Hres. apply (Hf i (op, x)). apply lookup_zip_with_Some. by exists op, x.
  - intros Hf. rewrite Forall_lookup. intros i [op x] Hi. apply lookup_zip_with_Some in Hi as (op' & x' & [= -> ->] & H1 & H2). by eapply Hf.
Qed.

(** With the answers of a tablet store, the outcome is the store's: success
    exactly if the store found the precondition of every operation to hold, and
    then it made all updates, otherwise none. *)
Theorem C54_outcome_is_the_verdict_of_the_tablet_store co mc dc tables client tr m s names :
  keys_order tablet_order -> MetadataSpec.values_order result_order -> NoDup (map fst tables) -> MetadataSpec.sizes_u32 tables ->
  runs co mc dc tables client tr m s -> Forall (fun x => call_u32 x.1) tr -> store_answers names tr ->
  forall tx o, (tx, o) ∈ reported tr ->
  exists a r b resp r' c d ops ts ts',
    tr = a ++ (CCommit tx, r) :: b ++ (CIn (InOps (number co a) resp), r') :: c ++ (CCheck tx, ROutcome (Some o)) :: d /\
    (number co a, ops) ∈ sent_ops tr /\ apply_tablets_request ts ops = Ok (ts', resp) /\
    (o = TxSucceeded <-> Forall (precondition ts) ops) /\
    (o = TxSucceeded -> forall name i, tablet ts' name i = match last_update ops name i with Some u => Some u | None => tablet ts name i end) /\
    (o = TxFailed -> ts' = ts).
Proof using Type.
  intros O1 O2 O3 O4 Hr Hu Hs tx o Hx.
  destruct (runs_store_reported serialize deserialize sha256 base64 entry_order result_order region_order table_order tablet_order tx_order handle_tablets
    O1 tables O2 O3 O4 _ _ _ _ _ _ _ _ Hr Hu Hs _ _ Hx) as (a & r & b & resp & r' & c & d & ops & ts & ts' & Htr & _ & Hsent & _ & Ha & Ho).
  exists a, r, b, resp, r', c, d, ops, ts, ts'. destruct (apply_request_spec _ _ _ _ Ha) as (_ & H1 & H2 & H3). rewrite <- Ho in H1. split_and!; try done.
  - intros Hok. apply H1 in Hok. by apply H2.
  - intros ->. apply H3. destruct (rs_succeeded resp); [|done]. by destruct H1 as [H1 _]; specialize (H1 eq_refl).
Qed.

(** The store's answer to a commit request of existing tablets is processed, and
    then the outcome is available. *)
Theorem C54_answer_decides co mc dc tables client a tx r b m s ts ops ts' resp :
  runs co mc dc tables client (a ++ (CCommit tx, r) :: b) m s ->
  (forall x, x ∈ b -> x.1 <> CAbort tx /\ (forall y, x.1 <> CIn (InOps (number co a) y)) /\ x.1 <> CIn (InOpsError (number co a))) ->
  (number co a, ops) ∈ commit_requests (a ++ (CCommit tx, r) :: b) m -> ops <> [] ->
  (forall op, op ∈ ops -> match op_kind_of op with
     | Some (OpCheck i _) => is_Some (tablet ts (op_table op) i)
     | Some (OpUpdate (Some u)) => is_Some (tablet ts (op_table op) (tm_id u))
     | _ => True
     end) ->
  apply_tablets_request ts ops = Ok (ts', resp) ->
  exists m1 m2 o, perform m s (CIn (InOps (number co a) resp)) = Ok (m1, s, RNone) /\
    perform m1 s (CCheck tx) = Ok (m2, s, ROutcome (Some o)) /\ (o = TxSucceeded <-> rs_succeeded resp = true).
Proof using Type.
  intros Hr Hb Hreq Hne Hex Ha. pose proof (runs_inv _ _ _ _ _ _ _ _ _ _ _ _ _ _ _ _ _ _ _ Hr) as I.
  destruct (runs_in_flight _ _ _ _ _ _ _ _ _ _ _ _ _ _ _ _ _ _ _ Hr a tx r b eq_refl) as (ops' & F & Hin).
  { intros [c1 r1] Hx. destruct (Hb _ Hx) as (B1 & B2 & B3). simpl in *. unfold touches.
    destruct c1 as [| | | | | |tx1| |[d1|k1 y1|k1]|]; try (by intros []); intros ->; [by apply B1|by eapply B2|by apply B3]. }
  assert (ops' = ops) as -> by (by eapply (commit_request_unique co)).
  assert (exec_request ops) as He.
  { rewrite commit_requests_eq in Hreq by apply I. destruct (i_kinds _ _ _ I) as (K1 & K2 & K3). apply elem_of_app in Hreq as [Hq|Hq].
    - apply elem_of_list_In, filter_In in Hq as [Hq1 Hq2]. rewrite Forall_forall in K3. apply elem_of_list_In in Hq1. destruct (K3 _ Hq1) as [Hl|He]; [|done].
      simpl in *. by rewrite list_request_lists in Hq2.
    - rewrite Forall_forall in K2. by apply (K2 _ Hq). }
  assert (forall op, op ∈ ops -> is_Some (ts !! op_table op)) as Hk.
  { intros op Hop. specialize (Hex op Hop). unfold exec_request in He. rewrite Forall_forall in He.
    destruct (He _ Hop) as [(i & v & E)|(u & E)]; rewrite E in Hex; destruct Hex as [x Hx]; unfold tablet in Hx; destruct (ts !! op_table op); done. }
  destruct (store_results _ _ _ _ Ha He Hk) as [Hexec Hall]. pose proof Ha as Ha'. apply apply_request_spec in Ha' as (Hp & Hsucc & _).
  apply prepare_all_spec in Hp.
  assert (exists o u, committing_complete (zip ops (rs_results resp)) = Ok (o, u) /\ (o = TxSucceeded <-> Forall (precondition ts) ops)) as (o & u & Hcomp & Ho).
  { clear -Hp Hex He Hk Hall. revert Hex He Hk. induction Hp as [|op x ops rs Hx _ IH]; intros Hex He Hk.
    - exists TxSucceeded, []. split; [done|]. split; [constructor|done].
    - apply Forall_cons in He as [He1 He2]. apply Forall2_cons in Hall as [Hall1 Hall2].
      destruct IH as (o & u & Hc & Ho); [done|intros; apply Hex; by right|done|intros; apply Hk; by right|].
      destruct (prepare_op_spec _ _ _ Hx) as (_ & Hs & _ & Hd). pose proof (Hex op ltac:(by left)) as Hx1. destruct (Hk op ltac:(by left)) as [t Ht].
      unfold expected_detail in Hd. rewrite Ht in Hd. cbn [zip_with committing_complete]. rewrite Hc.
      assert (forall us, (let! updates := Ok (E := unit) us in let! (o, more) := Ok (E := unit) (o, u) in
        Ok (if bool_decide (or_status x = OpSucceeded) then o else TxFailed, updates ++ more)) = Ok (if bool_decide (or_status x = OpSucceeded) then o else TxFailed, us ++ u)) as Hdone by done.
      assert ((if bool_decide (or_status x = OpSucceeded) then o else TxFailed) = TxSucceeded <-> Forall (precondition ts) (op :: ops)) as Hiff.
      { rewrite Forall_cons, <- Ho, <- Hs. case_bool_decide; naive_solver. }
      destruct He1 as [(i & v & E)|(md & E)]; rewrite E in *.
      + rewrite Hd. case_bool_decide as Hst.
        * eexists _, _. split; [reflexivity|]. exact Hiff.
        * destruct Hx1 as [cur Hcur]. unfold tablet in Hcur. rewrite Ht in Hcur. simpl in Hcur. rewrite Hcur. simpl.
          assert (tm_version cur <> v) as Hv. { intros Hv. apply Hst, Hs. unfold precondition. rewrite E. split; [by eexists|]. exists cur. unfold tablet. rewrite Ht. done. }
          rewrite decide_False by done. simpl. eexists _, _. split; [reflexivity|]. exact Hiff.
      + rewrite Hd. case_bool_decide as Hst.
        * simpl. eexists _, _. split; [reflexivity|]. exact Hiff.
        * destruct Hx1 as [cur Hcur]. unfold tablet in Hcur. rewrite Ht in Hcur. simpl in Hcur. rewrite Hcur. simpl.
          eexists _, _. split; [reflexivity|]. exact Hiff. }
  pose proof F as (F1 & F2 & _).
  assert (List.filter is_list_result (rs_results resp) = []) as Hnl.
  { apply filter_all_false. rewrite Forall_forall. intros x Hx. unfold executed in Hexec. rewrite <- Hexec in Hx.
    apply elem_of_list_In, filter_In in Hx as [_ Hx]. unfold is_exec_result, is_list_result in *. by destruct (or_detail x) as [[]|]. }
  assert (executed resp <> []) as Hnon. { rewrite Hexec. intros E. rewrite E in Hall. apply Forall2_nil_inv_r in Hall. done. }
  cbn [mg_call mg_in]. unfold mg_tablets_response. rewrite Hnl. cbn [res_bind].
  change (List.filter is_exec_result (rs_results resp)) with (executed resp).
  assert (forall X, (match executed resp with [] => X | _ => co_response (V := V) (H := H) (mg_coordinator m) (mg_meta m) (number co a) (executed resp) end) =
    co_response (mg_coordinator m) (mg_meta m) (number co a) (executed resp)) as Hcr by (intros; by destruct (executed resp)).
  cbn [mg_coordinator mg_meta]. rewrite Hcr. unfold co_response. rewrite F1, F2, Hexec, Hcomp. cbn [res_bind].
  eexists _, _, o. split; [reflexivity|]. cbn [mg_call]. unfold co_check. simpl. rewrite lookup_insert. cbn [res_bind]. split; [reflexivity|].
  by rewrite Ho, Hsucc.
Qed.

(** A commit handle asks the manager until there is an outcome and then keeps
    it: from then on every check returns that outcome and changes nothing. *)
Theorem C54_handles_keep_the_outcome (m : manager V H) h m' h' : handle_check m h = Ok (m', h') ->
  ch_tx h' = ch_tx h /\
  (ch_outcome h = None -> forall s, perform m s (CCheck (ch_tx h)) = Ok (m', s, ROutcome (ch_outcome h'))) /\
  (forall o, ch_outcome h = Some o -> m' = m /\ h' = h) /\
  (forall o, ch_outcome h' = Some o -> forall m'' : manager V H, handle_check m'' h' = Ok (m'', h')).
Proof using Type.
  intros Hc. pose proof (handle_check_spec serialize deserialize sha256 base64 entry_order result_order region_order table_order tablet_order tx_order handle_tablets _ _ _ _ Hc) as [Ht Hx].
  split_and!; [done| | |].
  - intros Ho. by rewrite Ho in Hx.
  - intros o Ho. rewrite Ho in Hx. destruct Hx as [-> Hx]. split; [done|]. destruct h, h'; simpl in *; congruence.
  - intros o Ho m''. unfold handle_check. by rewrite Ho.
Qed.

(** ** C55: failed transactions and the metadata cache *)
(** Whenever the tablet store refuses a commit although the precondition of one
    of its updates holds, the version that was not created is from then on held to
    be the current one, or a later one: forever one the store does not have at the
    time of the answer. *)
Theorem C55_failed_commit_changes_the_cache_refuted co mc dc tables client a tx r b m s ts ops ts' resp i op md m' s' r' :
  MetadataSpec.values_order result_order -> NoDup (map fst tables) -> MetadataSpec.sizes_u32 tables ->
  runs co mc dc tables client (a ++ (CCommit tx, r) :: b) m s -> Forall (fun x => call_u32 x.1) (a ++ (CCommit tx, r) :: b) ->
  (forall x, x ∈ b -> x.1 <> CAbort tx /\ (forall y, x.1 <> CIn (InOps (number co a) y)) /\ x.1 <> CIn (InOpsError (number co a))) ->
  (number co a, ops) ∈ commit_requests (a ++ (CCommit tx, r) :: b) m ->
  (** the store's answer *)
  apply_tablets_request ts ops = Ok (ts', resp) -> rs_succeeded resp = false ->
  (forall x, x ∈ ops -> is_Some (ts !! op_table x)) ->
  ops !! i = Some op -> precondition ts op -> op_kind_of op = Some (OpUpdate (Some md)) -> op_table op ∈ map fst tables ->
  perform m s (CIn (InOps (number co a) resp)) = Ok (m', s', r') ->
  (exists m'', perform m' s' (CCheck tx) = Ok (m'', s', ROutcome (Some TxFailed))) /\
  (exists current, tablet ts' (op_table op) (tm_id md) = Some current /\ tm_version current < tm_version md) /\
  forall tr' m'' s'', reaches m' s' tr' m'' s'' -> Forall (fun x => call_u32 x.1) tr' ->
  exists md', knows m'' (op_table op) (tm_id md) = Some md' /\ tm_version md <= tm_version md'.
Proof using Type.
  intros O2 O3 O4 Hr Hu Hb Hreq Ha Hf Hk Hop Hpre Hkind Htab Hc. pose proof (runs_inv _ _ _ _ _ _ _ _ _ _ _ _ _ _ _ _ _ _ _ Hr) as I.
  destruct (runs_in_flight _ _ _ _ _ _ _ _ _ _ _ _ _ _ _ _ _ _ _ Hr a tx r b eq_refl) as (ops' & F & Hin).
  { intros [c1 r1] Hx. destruct (Hb _ Hx) as (B1 & B2 & B3). simpl in *. unfold touches.
    destruct c1 as [| | | | | |tx1| |[d1|k1 y1|k1]|]; try (by intros []); intros ->; [by apply B1|by eapply B2|by apply B3]. }
  assert (ops' = ops) as -> by (by eapply (commit_request_unique co)).
  assert (exec_request ops) as He.
  { rewrite commit_requests_eq in Hreq by apply I. destruct (i_kinds _ _ _ I) as (K1 & K2 & K3). apply elem_of_app in Hreq as [Hq|Hq].
    - apply elem_of_list_In, filter_In in Hq as [Hq1 Hq2]. rewrite Forall_forall in K3. apply elem_of_list_In in Hq1. destruct (K3 _ Hq1) as [Hl|He]; [|done].
      simpl in *. by rewrite list_request_lists in Hq2.
    - rewrite Forall_forall in K2. by apply (K2 _ Hq). }
  destruct (store_results _ _ _ _ Ha He Hk) as [Hexec Hall].
  destruct (apply_request_spec _ _ _ _ Ha) as (_ & Hsucc & _ & Hsame). specialize (Hsame Hf). subst ts'.
  destruct (Forall2_lookup_l _ _ _ _ _ Hall Hop) as (res & Hres & Hst).
  split_and!.
  - assert (executed resp <> []) as Hnon. { rewrite Hexec. intros E. rewrite E in Hres. done. }
    edestruct (answer_outcome serialize deserialize sha256 base64 entry_order result_order region_order table_order tablet_order tx_order handle_tablets) as (o & u & m'' & Hcomp & Hchk); [exact Hr|exact F|exact Hnon|exact Hc|].
    exists m''. rewrite Hchk. do 4 f_equal. destruct o; [|done]. exfalso. rewrite Hexec in Hcomp.
    assert (Forall (precondition ts) ops) as Hall2.
    { pose proof (proj1 (complete_outcome _ _ _ Hcomp) eq_refl) as Hz. clear -Hz Hall. induction Hall as [|? ? ? ? Hx _ IH]; [constructor|]. simpl in Hz. apply Forall_cons in Hz as [Hz1 Hz2].
      constructor; [by apply Hx|by apply IH]. }
    apply Hsucc in Hall2. congruence.
  - unfold precondition in Hpre. rewrite Hkind in Hpre. destruct Hpre as [_ (cur & Hcur & Hv)]. exists cur. split; [done|]. lia.
  - intros tr' m'' s'' Hx Hu'. eapply (update_known serialize deserialize sha256 base64 entry_order result_order region_order table_order tablet_order tx_order handle_tablets
      tables O2 O3 O4); [exact Hr|exact Hu|exact F|exact Hc|exact Hop| |by apply Hst|exact Hkind|exact Htab|exact Hx|exact Hu']. by rewrite Hexec.
Qed.
(** What does hold: the cache only holds tablets to be current that the store
    listed, reported as existing, or answered with success. Partial: the last is
    not enough, as the store answers operations of a refused request with success. *)
Theorem C55_cache_holds_what_it_was_told_partial co mc dc tables client tr m s :
  MetadataSpec.values_order result_order -> NoDup (map fst tables) -> MetadataSpec.sizes_u32 tables ->
  runs co mc dc tables client tr m s -> Forall (fun x => call_u32 x.1) tr ->
  forall table i md, knows m table i = Some md -> told tr m table md /\ tm_id md = i.
Proof using Type. intros O2 O3 O4 Hr Hu. by eapply (knows_told serialize deserialize sha256 base64 entry_order result_order region_order table_order tablet_order tx_order handle_tablets). Qed.

(** ** C82: refused commits and the metadata cache *)
(** After the store answered an operation of a commit with a conflict, reporting
    the tablet there is, requests to resolve keys of that tablet's region are not
    answered from what the cache held before. *)
Theorem C82_refused_commits_are_listed_again co mc dc tables client a tx r b m s ops resp i op x md m' s' r' queries q h m'' s'' r'' :
  MetadataSpec.values_order result_order -> NoDup (map fst tables) -> MetadataSpec.sizes_u32 tables ->
  runs co mc dc tables client (a ++ (CCommit tx, r) :: b) m s -> Forall (fun x => call_u32 x.1) (a ++ (CCommit tx, r) :: b) ->
  (forall x, x ∈ b -> x.1 <> CAbort tx /\ (forall y, x.1 <> CIn (InOps (number co a) y)) /\ x.1 <> CIn (InOpsError (number co a))) ->
  (number co a, ops) ∈ commit_requests (a ++ (CCommit tx, r) :: b) m ->
  perform m s (CIn (InOps (number co a) resp)) = Ok (m', s', r') ->
  ops !! i = Some op -> executed resp !! i = Some x -> or_status x <> OpSucceeded ->
  or_detail x = Some (CheckResult (Some md)) \/ or_detail x = Some (UpdateResult (Some md)) ->
  queries_u32 queries -> q ∈ queries -> h ∈ tq_hashes q -> tq_table q = op_table op ->
  h / MetadataSpec.size_of tables (op_table op) = tm_id md / MetadataSpec.size_of tables (op_table op) ->
  perform m' s' (CResolve queries) = Ok (m'', s'', r'') -> mc_delivered (mg_meta m'') = mc_delivered (mg_meta m').
Proof using Type.
  intros O2 O3 O4 Hr Hu Hb Hreq Hc. pose proof (runs_inv _ _ _ _ _ _ _ _ _ _ _ _ _ _ _ _ _ _ _ Hr) as I.
  destruct (runs_in_flight _ _ _ _ _ _ _ _ _ _ _ _ _ _ _ _ _ _ _ Hr a tx r b eq_refl) as (ops' & F & Hin).
  { intros [c1 r1] Hx. destruct (Hb _ Hx) as (B1 & B2 & B3). simpl in *. unfold touches.
    destruct c1 as [| | | | | |tx1| |[d1|k1 y1|k1]|]; try (by intros []); intros ->; [by apply B1|by eapply B2|by apply B3]. }
  assert (ops' = ops) as -> by (by eapply (commit_request_unique co)).
  by eapply (conflict_not_answered serialize deserialize sha256 base64 entry_order result_order region_order table_order tablet_order tx_order handle_tablets).
Qed.

(** ** C56: failed processing *)
(** A transaction some processing of which failed stays pending whatever happens,
    until it is aborted; committing it or asking for its outcome aborts the
    service. *)
Theorem C56_failed_processing_stays_pending_refuted co mc dc tables client tr m s tx ps p :
  runs co mc dc tables client tr m s ->
  co_transactions (mg_coordinator m) !! tx = Some (TxPreparing ps) -> p ∈ ps -> ps_status p = PsFailed ->
  forall tr' m' s', reaches m s tr' m' s' -> (forall x, x ∈ tr' -> x.1 <> CAbort tx) ->
  perform m' s' (CPending tx) = Ok (m', s', RPending true) /\ perform m' s' (CCommit tx) = Panic /\ perform m' s' (CCheck tx) = Panic.
Proof using Type.
  intros Hr Htx Hp Hst tr' m' s' Hx Hab. apply stuck_calls. eapply stuck_forever; [exact Hr|exact Hx| |exact Hab].
  exists ps. split; [done|]. apply existsb_exists. exists p. split; [by apply elem_of_list_In|]. unfold process_failed. by rewrite Hst.
Qed.

(** ** C57: errors of the store *)
(** An error for a commit request that was sent aborts the service, whatever the
    operations. *)
Theorem C57_error_aborts_refuted co mc dc tables client a tx r b m s ops :
  runs co mc dc tables client (a ++ (CCommit tx, r) :: b) m s ->
  (forall x, x ∈ b -> x.1 <> CAbort tx /\ (forall y, x.1 <> CIn (InOps (number co a) y)) /\ x.1 <> CIn (InOpsError (number co a))) ->
  (number co a, ops) ∈ commit_requests (a ++ (CCommit tx, r) :: b) m -> (number co a, ops) ∈ sent_ops (a ++ (CCommit tx, r) :: b) -> ops <> [] ->
  perform m s (CIn (InOpsError (number co a))) = Panic.
Proof using Type.
  intros Hr Hb Hreq Hsent Hne. pose proof (runs_inv _ _ _ _ _ _ _ _ _ _ _ _ _ _ _ _ _ _ _ Hr) as I.
  destruct (runs_in_flight _ _ _ _ _ _ _ _ _ _ _ _ _ _ _ _ _ _ _ Hr a tx r b eq_refl) as (ops' & F & Hin).
  { intros [c1 r1] Hx. destruct (Hb _ Hx) as (B1 & B2 & B3). simpl in *. unfold touches.
    destruct c1 as [| | | | | |tx1| |[d1|k1 y1|k1]|]; try (by intros []); intros ->; [by apply B1|by eapply B2|by apply B3]. }
  assert (ops' = ops) as -> by (by eapply (commit_request_unique co)).
  by eapply error_aborts.
Qed.
(** A commit stays undecided until an answer with results of checks or updates
    arrives (or the transaction is aborted); errors never decide it. *)
Theorem C57_undecided_without_results co mc dc tables client a tx r b m s :
  runs co mc dc tables client (a ++ (CCommit tx, r) :: b) m s ->
  (forall x, x ∈ b -> x.1 <> CAbort tx /\ forall resp, x.1 = CIn (InOps (number co a) resp) -> executed resp = []) ->
  perform m s (CCheck tx) = Ok (m, s, ROutcome None).
Proof using Type.
  intros Hr Hb. destruct (runs_undecided _ _ _ _ _ _ _ _ _ _ _ _ _ _ _ _ _ _ _ Hr a tx r b eq_refl) as (ops & F & _).
  { intros x Hx. by apply Hb. } { intros resp x Hx. by apply Hb. }
  cbn [mg_call]. unfold co_check. rewrite F. cbn [res_bind]. unfold set_coordinator. by destruct m.
Qed.

(** ** C68: answers to list requests *)
(** The answer of the tablet store to a list request is handled by the metadata
    cache, as in the histories of C68, and leaves everything else as it is. *)
Theorem C68_list_answers_reach_the_cache m s n resp m' s' rep :
  rs_results resp <> [] -> (forall x, x ∈ rs_results resp -> exists from to ts, or_detail x = Some (ListResult from to ts)) ->
  perform m s (CIn (InOps n resp)) = Ok (m', s', rep) ->
  MetadataSpec.perform result_order region_order table_order (MetadataSpec.Observed (mg_meta m) [])
    (MetadataSpec.CallResponse (rs_results resp)) = Ok (MetadataSpec.Observed (mg_meta m') []) /\
  mg_coordinator m' = mg_coordinator m /\ mg_data m' = mg_data m /\ s' = s.
Proof using Type.
  intros Hne Hl Hp. cbn [mg_call mg_in] in Hp. unfold mg_tablets_response in Hp. cbn [mg_meta mg_coordinator mg_data mg_errors] in Hp.
  assert (List.filter is_list_result (rs_results resp) = rs_results resp /\ List.filter is_exec_result (rs_results resp) = []) as [E1 E2].
  { clear Hp Hne. induction (rs_results resp) as [|x l IH]; [done|]. destruct (Hl x) as (from & to & ts & Hx); [by left|].
    destruct IH as [I1 I2]; [intros y Hy; apply Hl; by right|]. simpl. unfold is_list_result at 1, is_exec_result at 1. rewrite Hx, I1. done. }
  rewrite E1, E2 in Hp. destruct (rs_results resp) as [|x l]; [done|]. unfold MetadataSpec.perform. cbn [MetadataSpec.ob_cache MetadataSpec.ob_taken].
  destruct (mc_response result_order (mg_meta m) (x :: l)) as [c| |]; cbn [res_bind] in Hp; [|done..]. injection Hp as <- <- <-. simpl. split_and!; done.
Qed.

(** ** C73: what is committed *)
(** The commit request of a transaction consists of exactly one operation for
    each tablet its handlers were given: a check of the version given if the
    handler set no contents, otherwise an update to the next version described by
    the new contents; and each processing asked for had its handler called once. *)
Theorem C73_commit_is_what_handlers_did co mc dc tables client a tx r b m s : keys_order tablet_order ->
  runs co mc dc tables client (a ++ (CCommit tx, r) :: b) m s ->
  exists ops ops', (number co a, ops) ∈ commit_requests (a ++ (CCommit tx, r) :: b) m /\ ops ≡ₚ ops' /\
    Forall2 tablet_operation (concat (map hd_tablets (handler_calls a tx))) ops' /\
    map hd_handler (handler_calls a tx) ≡ₚ map snd (processing a tx).
Proof using Type. intros O1 Hr. by eapply (runs_commit_request serialize deserialize sha256 base64 entry_order result_order region_order table_order tablet_order tx_order handle_tablets). Qed.

(** The client's state is changed by handler calls only: it is what the recorded
    handler calls make of it, one after the other, each given the tablets recorded. *)
Theorem C73_client_state_is_changed_by_handlers_only co mc dc tables client tr m s : runs co mc dc tables client tr m s ->
  client_after handle_tablets client (all_handler_calls tr) s.
Proof using Type. apply runs_client. Qed.

(** ** C74: transactions are atomic *)
(** With the answers of a tablet store: a transaction is reported as succeeded
    only if, in the state in which the store took its request, every tablet its
    handlers were given still had the version they were given; the store then
    gave each tablet written its new version and left all others alone. If it is
    reported as failed, some tablet had another version and nothing changed. *)
Theorem C74_transactions_are_atomic co mc dc tables client tr m s names :
  keys_order tablet_order -> MetadataSpec.values_order result_order -> NoDup (map fst tables) -> MetadataSpec.sizes_u32 tables ->
  runs co mc dc tables client tr m s -> Forall (fun x => call_u32 x.1) tr -> store_answers names tr ->
  forall tx o, (tx, o) ∈ reported tr ->
  exists a r b ops ts ts' resp rep,
    tr = a ++ (CCommit tx, r) :: b /\ (CIn (InOps (number co a) resp), rep) ∈ b /\
    (number co a, ops) ∈ sent_ops tr /\ apply_tablets_request ts ops = Ok (ts', resp) /\
    let given := concat (map hd_tablets (handler_calls a tx)) in
    let unchanged x := let '(q, md, _, _) := x : table_query * tablet_metadata * option V * option V in
      exists current, tablet ts (tq_table q) (tm_id md) = Some current /\ tm_version current = tm_version md in
    match o with
    | TxSucceeded =>
      (forall x, x ∈ given -> unchanged x) /\
      forall name i,
        (tablet ts' name i = tablet ts name i /\ (forall q md c v, (q, md, c, Some v) ∈ given -> ~ (tq_table q = name /\ tm_id md = i))) \/
        (exists q md c v op u, (q, md, c, Some v) ∈ given /\ tq_table q = name /\ tm_id md = i /\
           tablet_operation (q, md, c, Some v) op /\ op_kind_of op = Some (OpUpdate (Some u)) /\ tablet ts' name i = Some u)
    | TxFailed => ts' = ts /\ exists x, x ∈ given /\ ~ unchanged x
    end.
Proof using Type.
  intros O1 O2 O3 O4 Hr Hu Hs tx o Hx.
  destruct (runs_store_reported serialize deserialize sha256 base64 entry_order result_order region_order table_order tablet_order tx_order handle_tablets
    O1 tables O2 O3 O4 _ _ _ _ _ _ _ _ Hr Hu Hs _ _ Hx) as (a & r & b & resp & r' & c & d & ops & ts & ts' & Htr & Hreq & Hsent & _ & Ha & Ho).
  exists a, r, (b ++ (CIn (InOps (number co a) resp), r') :: c ++ (CCheck tx, ROutcome (Some o)) :: d), ops, ts, ts', resp, r'.
  split_and!; [done|set_solver|done|done|]. intros given unchanged.
  destruct (runs_commit_request serialize deserialize sha256 base64 entry_order result_order region_order table_order tablet_order tx_order handle_tablets O1 _ _ _ _ _ _ _ _ Hr
    _ _ _ _ Htr) as (ops1 & ops' & Hreq1 & Hperm & Hops & _).
  assert (ops1 = ops) as ->. { eapply (commit_request_unique co); [by eapply runs_inv|exact Hreq1|exact Hreq]. }
  fold given in Hops.
  assert (forall x op, tablet_operation x op -> (precondition ts op <-> unchanged x)) as Hpre.
  { intros [[[q md] v] set] op (Ht & Hk). unfold unchanged, precondition. rewrite Ht in *.
    assert (forall i cur, tablet ts (tq_table q) i = Some cur -> is_Some (ts !! tq_table q)) as Hsome.
    { intros i cur Hc. unfold tablet in Hc. by destruct (ts !! tq_table q). }
    destruct set as [w|].
    - destruct Hk as (cont & _ & ->). split.
      + intros (_ & cur & Hc & Hv). exists cur. simpl in *. split; [done|lia].
      + intros (cur & Hc & Hv). split; [by eapply Hsome|]. exists cur. simpl. split; [done|lia].
    - rewrite Hk. split; [intros (_ & cur & ? & ?); by exists cur|]. intros (cur & Hc & ?). split; [by eapply Hsome|]. by exists cur. }
  assert (Forall (precondition ts) ops <-> forall x, x ∈ given -> unchanged x) as Hall.
  { rewrite Hperm. clear -Hops Hpre. induction Hops as [|x op l k Hx _ IH]; [split; [by intros _ x ?%elem_of_nil|constructor]|].
    rewrite Forall_cons, IH. rewrite (Hpre _ _ Hx). split.
    - intros [H1 H2] y [->|Hy]%elem_of_cons; [done|by apply H2].
    - intros Hy. split; [apply Hy; by left|]. intros y Hy2. apply Hy. by right. }
  destruct (apply_request_spec _ _ _ _ Ha) as (_ & H1 & _ & H3). destruct o.
  - assert (Forall (precondition ts) ops) as Hok by (by apply Ho). split; [by apply Hall|]. intros name i.
    destruct (request_tablet _ _ _ _ name i Ha) as [(_ & op & u & cur & Hop & Hup & Hi & _ & Hnew & _)|(Hsame & Hno)].
    + right. rewrite Hperm in Hop. apply elem_of_list_lookup in Hop as [k Hop]. destruct (Forall2_lookup_r _ _ _ _ _ Hops Hop) as ([[[q md] v] set] & Hgiven & Hto).
      apply elem_of_list_lookup_2 in Hgiven. pose proof Hto as (Ht & Hk). unfold update_of in Hup. destruct set as [w|].
      * destruct Hk as (cont & Hser & Hk). rewrite Hk in Hup. injection Hup as Hup1 Hup2. exists q, md, v, w, op, u. subst u. simpl in Hi. split_and!; [done|congruence|done|exact Hto|exact Hk|exact Hnew].
      * rewrite Hk in Hup. done.
    + left. split; [done|]. intros q md v w Hg [<- <-]. apply elem_of_list_lookup in Hg as [k Hg].
      destruct (Forall2_lookup_l _ _ _ _ _ Hops Hg) as (op & Hop & (Ht & cont & Hser & Hk)). apply elem_of_list_lookup_2 in Hop. rewrite <- Hperm in Hop.
      assert (update_of op = Some (tq_table q, TabletMetadata (tm_id md) (tm_version md + 1) (tm_deleted md) (tm_key md) (Nlen cont mod 2 ^ 32)
        (sha256 cont) (blob_uri base64 (tm_id md) (tm_version md + 1) (sha256 cont)))) as Hup by (unfold update_of; by rewrite Hk, Ht).
      by eapply (Hno (proj2 H1 Hok) _ _ Hop Hup).
  - assert (~ Forall (precondition ts) ops) as Hbad. { intros Hok. apply Ho in Hok. done. }
    split; [apply H3; destruct (rs_succeeded resp); [|done]; exfalso; by apply Hbad, H1|].
    destruct (refused_operation _ _ _ _ Ha Hbad) as (op & Hop & Hno). rewrite Hperm in Hop.
    apply elem_of_list_lookup in Hop as [k Hop]. destruct (Forall2_lookup_r _ _ _ _ _ Hops Hop) as (x & Hgx & Hto).
    exists x. split; [by eapply elem_of_list_lookup_2|]. by rewrite <- (Hpre _ _ Hto).
Qed.

(** ** C75: contents are stored before they are committed *)
(** Every update in a commit request names a blob that was stored successfully
    before: the blob store had answered a request to store under this name with
    success. *)
Theorem C75_contents_are_stored_before_commit co mc dc tables client tr m s o a :
  keys_order tablet_order -> BlobSpec.entries_order entry_order ->
  data_runs co mc dc tables client tr m s o a ->
  forall n ops op md, (n, ops) ∈ commit_requests tr m -> op ∈ ops -> op_kind_of op = Some (OpUpdate (Some md)) ->
  exists x, x ∈ a /\ BlobSpec.stored x (tm_uri md).
Proof using Type.
  intros O1 O2 Hr.
  destruct (data_runs_dinv serialize deserialize sha256 base64 entry_order result_order region_order table_order tablet_order tx_order handle_tablets O1 O2 _ _ _ _ _ _ _ _ _ _ Hr) as [handles D].
  apply D.
Qed.

(** ** C76: what handlers are given *)
(** A handler is only given tablets that the tablet store listed, reported as
    existing or answered an update to with success, at or after all keys of the
    query it is given for. Partial: the successes of a refused request are not
    excluded (C55), nor are tablets that have changed since. *)
Theorem C76_handlers_are_given_known_tablets_partial co mc dc tables client tr m s :
  MetadataSpec.values_order result_order -> NoDup (map fst tables) -> MetadataSpec.sizes_u32 tables ->
  runs co mc dc tables client tr m s -> Forall (fun x => call_u32 x.1) tr ->
  forall tx ev q md c set, ev ∈ handler_calls tr tx -> (q, md, c, set) ∈ hd_tablets ev ->
  told tr m (tq_table q) md /\ forall h, h ∈ tq_hashes q -> h <= tm_id md.
Proof using Type.
  intros O2 O3 O4 Hr Hu tx ev q md c set Hev Hx.
  destruct (runs_minv serialize deserialize sha256 base64 entry_order result_order region_order table_order tablet_order tx_order handle_tablets
      tables O2 O3 O4 _ _ _ _ _ _ _ Hr Hu) as (calls & taken & M).
  destruct (mi_handled _ _ _ _ _ _ _ _ _ M tx ev Hev _ _ _ _ Hx) as [Hrep Hh]. split; [|done].
  by eapply (mi_told _ _ _ _ _ _ _ _ _ M).
Qed.
(** The contents a handler is given were provided by an answer of the blob store,
    for a tablet with the id and version it is given. Partial: of which table is
    not said (the tables of one transaction are mixed up, see below). *)
Theorem C76_handlers_are_given_loaded_contents_partial co mc dc tables client tr m s o a :
  keys_order tablet_order -> BlobSpec.entries_order entry_order ->
  data_runs co mc dc tables client tr m s o a ->
  forall tx ev q md v set, ev ∈ handler_calls tr tx -> (q, md, Some v, set) ∈ hd_tablets ev ->
  exists md' x, tm_id md' = tm_id md /\ tm_version md' = tm_version md /\ x ∈ a /\ provides x (tm_uri md') v.
Proof using Type.
  intros O1 O2 Hr tx ev q md v set Hev Hx.
  destruct (data_runs_dinv serialize deserialize sha256 base64 entry_order result_order region_order table_order tablet_order tx_order handle_tablets O1 O2 _ _ _ _ _ _ _ _ _ _ Hr) as [handles D].
  destruct (di_handled _ _ _ _ _ _ _ _ _ _ _ D tx ev Hev _ _ _ _ Hx) as (md' & x & Hk & Hin & Hp).
  exists md', x. unfold tablet_key in Hk. injection Hk as H1 H2. done.
Qed.

(** ** C77: every finished transaction can be committed *)
(** A transaction of which some handler wrote nothing can never be committed:
    committing it aborts the service, at any time. *)
Theorem C77_reading_transactions_never_commit_refuted co mc dc tables client tr m s o a tx ev :
  keys_order tablet_order -> BlobSpec.entries_order entry_order ->
  data_runs co mc dc tables client tr m s o a ->
  ev ∈ handler_calls tr tx -> (forall q md c v, (q, md, c, Some v) ∉ hd_tablets ev) ->
  perform m s (CCommit tx) = Panic.
Proof using Type.
  intros O1 O2 Hr Hev Hno. destruct (perform m s (CCommit tx)) as [[[m' s'] r]|e|] eqn:E; [| |done].
  - destruct (data_runs_writes serialize deserialize sha256 base64 entry_order result_order region_order table_order tablet_order tx_order handle_tablets O1 O2
      _ _ _ _ _ _ _ _ _ _ _ _ _ _ Hr E ev Hev) as (q & md & c & v & Hx). exfalso. by eapply Hno.
  - exfalso. cbn [mg_call] in E. unfold co_commit in E.
    destruct (co_transactions (mg_coordinator m) !! tx) as [[ps| |]|]; [|done..]. destruct (is_active ps); [done|].
    by destruct (preparing_complete tablet_order ps).
Qed.
(** A transaction committed without any tablet never has an outcome with the
    answers of a tablet store. *)
Theorem C77_empty_transactions_never_end_refuted co mc dc tables client a tx r b m s names : keys_order tablet_order ->
  runs co mc dc tables client (a ++ (CCommit tx, r) :: b) m s -> store_answers names (a ++ (CCommit tx, r) :: b) ->
  (forall ev, ev ∈ handler_calls a tx -> hd_tablets ev = []) ->
  (forall x, x ∈ b -> x.1 <> CAbort tx) ->
  perform m s (CCheck tx) = Ok (m, s, ROutcome None).
Proof using Type.
  intros O1 Hr Hs Hno Hab. pose proof (runs_inv _ _ _ _ _ _ _ _ _ _ _ _ _ _ _ _ _ _ _ Hr) as I.
  eapply C57_undecided_without_results; [exact Hr|]. intros [c rep] Hx. split; [by apply Hab|]. simpl. intros resp ->.
  destruct (Hs (number co a) resp rep) as (ops & ts & ts' & Hsent & _ & Ha); [apply elem_of_app; right; by right|].
  destruct (i_kinds _ _ _ I) as (K1 & K2 & K3). rewrite Forall_forall in K3. destruct (K3 _ Hsent) as [Hl|He]; [by eapply list_answer|].
  destruct (C73_commit_is_what_handlers_did _ _ _ _ _ _ _ _ _ _ _ O1 Hr) as (ops1 & ops' & Hreq & Hperm & Hops & _).
  assert (ops = ops1) as ->.
  { eapply (commit_request_unique co); [exact I| |exact Hreq]. rewrite commit_requests_eq by apply I. apply elem_of_app. left.
    apply elem_of_list_In, filter_In. split; [by apply elem_of_list_In|]. simpl. by rewrite exec_request_lists. }
  assert (concat (map hd_tablets (handler_calls a tx)) = []) as Hnil.
  { clear -Hno. induction (handler_calls a tx) as [|ev l IH]; [done|]. simpl. rewrite (Hno ev) by (by left). apply IH. intros e He. apply Hno. by right. }
  rewrite Hnil in Hops. apply Forall2_nil_inv_l in Hops. subst ops'. apply Permutation_nil_r in Hperm. subst ops1. by eapply store_answer_empty.
Qed.
End Transactions.

(** ** Concrete cases *)
(** A transaction that reads and writes a tablet of each table and succeeds, and
    one that fails because another client has changed one of the tablets; all
    answers are those of a tablet store. *)
Example C54_success_example :
  ex_runs 100 300 200 ex_config tt (ex_trace ex_success) (ex_state ex_success) tt /\
  started (ex_trace ex_success) = [2] /\ commits (ex_trace ex_success) = [2] /\
  commit_requests (ex_trace ex_success) (ex_state ex_success) = [(101, ex_ops)] /\ reported (ex_trace ex_success) = [(2, TxSucceeded)].
Proof. split; [apply ex_history; by vm_compute|]. by vm_compute. Qed.
Example C54_failure_example :
  ex_runs 100 300 200 ex_config tt (ex_trace ex_failure) (ex_state ex_failure) tt /\ reported (ex_trace ex_failure) = [(2, TxFailed)].
Proof. split; [apply ex_history; by vm_compute|]. by vm_compute. Qed.
Lemma ex_names ts : (ts = ex_store \/ ts = ex_store') -> forall t, is_Some (ts !! t) <-> t ∈ ["t"; "u"]%string.
Proof.
  intros Hts t. destruct (decide (t = "t"%string)) as [->|Ht]; [|destruct (decide (t = "u"%string)) as [->|Hu]].
  - destruct Hts as [-> | ->]; split; (set_solver || by eexists).
  - destruct Hts as [-> | ->]; split; (set_solver || by eexists).
  - split; [|set_solver]. intros [x Hx]. exfalso.
    destruct Hts as [-> | ->]; unfold ex_store, ex_store' in Hx; rewrite lookup_insert_ne, lookup_singleton_ne in Hx by congruence; done.
Qed.
Lemma ex_store_answers cs ts2 : (ts2 = ex_store \/ ts2 = ex_store') -> (forall n resp, CIn (InOps n resp) ∈ cs -> n = 301 /\ resp = ex_answer ex_store ex_list \/ n = 101 /\ resp = ex_answer ts2 ex_ops) ->
  (301, ex_list) ∈ sent_ops (ex_trace cs) -> (101, ex_ops) ∈ sent_ops (ex_trace cs) -> store_answers ["t"; "u"]%string (ex_trace cs).
Proof.
  intros Hts Hcs H1 H2 n resp rep Hx. destruct (Hcs _ _ (ex_trace_in _ _ _ Hx)) as [[-> ->]|[-> ->]].
  - eexists ex_list, ex_store, _. split_and!; [done|apply ex_names; by left|apply ex_applied; by vm_compute].
  - destruct Hts as [-> | ->]; eexists ex_ops, _, _; (split_and!; [done| |apply ex_applied; by vm_compute]; apply ex_names; by auto).
Qed.
Ltac find_answer H := repeat (apply elem_of_cons in H as [H|H]; [try discriminate H; injection H as -> ->; by auto|]); by apply elem_of_nil in H.
Example C54_store_example :
  store_answers ["t"; "u"]%string (ex_trace ex_success) /\ store_answers ["t"; "u"]%string (ex_trace ex_failure) /\
  Forall (fun x => call_u32 x.1) (ex_trace ex_success).
Proof.
  split_and!; [| |apply ex_success_u32].
  - apply (ex_store_answers _ ex_store); [by left| |vm_compute; set_solver|vm_compute; set_solver]. intros n resp Hx. find_answer Hx.
  - apply (ex_store_answers _ ex_store'); [by right| |vm_compute; set_solver|vm_compute; set_solver]. intros n resp Hx. find_answer Hx.
Qed.
(** The history up to the commit and after it. *)
Definition ex_before : list (ex_call * ex_reply) := take 16 (ex_trace ex_sent).
Definition ex_after : list (ex_call * ex_reply) := drop 17 (ex_trace ex_sent).
Lemma ex_split : ex_trace ex_sent = ex_before ++ (CCommit 2, RNone) :: ex_after.
Proof. by vm_compute. Qed.
Lemma ex_in_flight x : x ∈ ex_after ->
  x.1 <> CAbort 2 /\ (forall y, x.1 <> CIn (InOps (number 100 ex_before) y)) /\ x.1 <> CIn (InOpsError (number 100 ex_before)).
Proof.
  assert (map fst ex_after = [CTake]) as Hx by by vm_compute. revert Hx. generalize ex_after as l, (number 100 ex_before) as n. intros l n Hx Hin.
  destruct l as [|[c r] [|]]; [done| |done]. injection Hx as ->. apply elem_of_list_singleton in Hin as ->. done.
Qed.
Example C54_answer_decides_example :
  ex_runs 100 300 200 ex_config tt (ex_before ++ (CCommit 2, RNone) :: ex_after) (ex_state ex_sent) tt /\
  (number 100 ex_before, ex_ops) ∈ commit_requests (ex_before ++ (CCommit 2, RNone) :: ex_after) (ex_state ex_sent) /\
  (number 100 ex_before, ex_ops) ∈ sent_ops (ex_before ++ (CCommit 2, RNone) :: ex_after) /\
  Forall (fun x => call_u32 x.1) (ex_before ++ (CCommit 2, RNone) :: ex_after) /\
  (forall op, op ∈ ex_ops -> match op_kind_of op with
     | Some (OpCheck i _) => is_Some (tablet ex_store' (op_table op) i)
     | Some (OpUpdate (Some u)) => is_Some (tablet ex_store' (op_table op) (tm_id u))
     | _ => True
     end).
Proof.
  rewrite <- ex_split. split_and!.
  - apply ex_history. by vm_compute.
  - vm_compute. set_solver.
  - vm_compute. set_solver.
  - apply ex_sent_u32.
  - intros op Hop. repeat (apply elem_of_cons in Hop as [->|Hop]; [simpl; vm_compute; by eexists|]). by apply elem_of_nil in Hop.
Qed.
(** An answer with a result for the first of two operations only: the transaction
    is reported as succeeded. *)
Definition ex_truncated : list ex_call :=
  ex_sent ++ [CIn (InOps 101 (TabletsResponse true [OpResult "t" OpSucceeded (Some (UpdateResult (Some (ex_tablet 5 1 "a"))))])); CCheck 2].
Theorem C54_truncated_answer_refuted :
  ex_runs 100 300 200 ex_config tt (ex_trace ex_truncated) (ex_state ex_truncated) tt /\
  commit_requests (ex_trace ex_truncated) (ex_state ex_truncated) = [(101, ex_ops)] /\ length ex_ops = 2%nat /\
  reported (ex_trace ex_truncated) = [(2, TxSucceeded)].
Proof. split; [apply ex_history; by vm_compute|]. by vm_compute. Qed.

(** The failed transaction of the example: the cache holds version 2 of the tablet
    of "t" to be the current one, the store has version 1. *)
Theorem C55_uncommitted_version_witness_refuted :
  ex_runs 100 300 200 ex_config tt (ex_trace ex_failure) (ex_state ex_failure) tt /\
  store_answers ["t"; "u"]%string (ex_trace ex_failure) /\ reported (ex_trace ex_failure) = [(2, TxFailed)] /\
  (exists ts' resp, apply_tablets_request ex_store' ex_ops = Ok (ts', resp) /\ rs_succeeded resp = false /\ tablet ts' "t" 5 = Some (ex_tablet 5 1 "a")) /\
  knows (ex_state ex_failure) "t" 5 = Some ex_update5.
Proof.
  split; [apply ex_history; by vm_compute|]. split; [apply C54_store_example|]. split; [by vm_compute|]. split; [|by vm_compute].
  eexists _, _. split; [apply ex_applied; by vm_compute|]. by vm_compute.
Qed.

(** A transaction whose tablets could not be loaded. *)
Definition ex_unloaded : list ex_call :=
  ex_resolve (Some 42) ++ [CIn (InData (LoadResponse 201 1 [])); CIn (InData (LoadResponse 202 1 [])); CProgress []].
Example C56_failed_processing_example :
  ex_runs 100 300 200 ex_config tt (ex_trace ex_unloaded) (ex_state ex_unloaded) tt /\
  exists ps p, co_transactions (mg_coordinator (ex_state ex_unloaded)) !! 2 = Some (TxPreparing ps) /\ p ∈ ps /\ ps_status p = PsFailed.
Proof.
  split; [apply ex_history; by vm_compute|].
  assert (forall o : option (tx_state N (option N)), match o with Some (TxPreparing [p]) => ps_status p = PsFailed | _ => False end ->
    exists ps p, o = Some (TxPreparing ps) /\ p ∈ ps /\ ps_status p = PsFailed) as Hx.
  { intros [[[|p []]| |]|] Hp; try done. exists [p], p. split_and!; [done|by left|done]. }
  apply Hx. by vm_compute.
Qed.
(** The error of the store for the commit request of the example. *)
Example C57_error_aborts_example : ex_perform (ex_state ex_sent) tt (CIn (InOpsError (number 100 ex_before))) = Panic.
Proof. by vm_compute. Qed.
Example C57_undecided_example : ex_perform (ex_state ex_sent) tt (CCheck 2) = Ok (ex_state ex_sent, tt, ROutcome None).
Proof.
  apply (C57_undecided_without_results ex_serialize ex_deserialize ex_hash ex_base64 ex_entries ex_results ex_regions ex_tables ex_tablets ex_txs ex_handle
    100 300 200 ex_config tt ex_before 2 RNone ex_after); [apply C54_answer_decides_example|].
  intros x Hx. destruct (ex_in_flight x Hx) as (H1 & H2 & _). split; [done|]. intros resp E. by destruct (H2 resp).
Qed.

(** There are such answers in the example. *)
Example C68_list_answer_example :
  existsb (fun x => match x.1 with
                    | CIn (InOps _ resp) =>
                      match rs_results resp with
                      | [] => false
                      | l => forallb (fun y => match or_detail y with Some (ListResult _ _ _) => true | _ => false end) l
                      end
                    | _ => false
                    end) ex_before = true.
Proof. by vm_compute. Qed.

(** The handler of the example was called once, with both tablets, and wrote both. *)
Example C73_handler_example :
  map (fun ev => (hd_handler ev, map (fun '(q, md, c, set) => (tq_table q, tm_id md, tm_version md, c, set)) (hd_tablets ev))) (handler_calls ex_before 2) =
    [(Some 42, [("t"%string, 5, 1, Some 1, Some 42); ("u"%string, 6, 1, Some 1, Some 42)])] /\
  map snd (processing ex_before 2) = [Some 42].
Proof. by vm_compute. Qed.
Example C75_data_example : exists o a, ex_data_runs 100 300 200 ex_config tt (ex_trace ex_sent) (ex_state ex_sent) tt o a.
Proof. apply ex_data_history; by vm_compute. Qed.

(** Two tables with a tablet of the same id and version: one of them is lost, and the
    handler is given the other with the contents of the lost one (blob "a" has the
    contents 1, blob "b" the contents 2). *)
Definition ex_same : tables := {[ "t"%string := {[ 5 := ex_tablet 5 1 "a" ]}; "u"%string := {[ 5 := ex_tablet 5 1 "b" ]} ]}.
Definition ex_mixed : list ex_call :=
  [CStart; CProcess 2 [ex_query1; ex_query2] (Some 42); CProgress []; CProgress []; CTake;
   CIn (InOps 301 (ex_answer ex_same ex_list)); CProgress []; CTake;
   CIn (InData (LoadResponse 201 2 [1])); CIn (InData (LoadResponse 202 2 [2])); CProgress []].
Theorem C76_tables_are_mixed_up_refuted :
  ex_runs 100 300 200 ex_config tt (ex_trace ex_mixed) (ex_state ex_mixed) tt /\
  processing (ex_trace ex_mixed) 2 = [([ex_query1; ex_query2], Some 42)] /\
  map (fun ev => map (fun '(q, md, c, set) => (tq_table q, tm_uri md, c)) (hd_tablets ev)) (handler_calls (ex_trace ex_mixed) 2) =
    [[("u"%string, "b"%string, Some 1)]].
Proof. split; [apply ex_history; by vm_compute|]. by vm_compute. Qed.

(** A transaction that only reads, and an empty one. *)
Example C77_reading_example :
  (exists o a, ex_data_runs 100 300 200 ex_config tt (ex_trace (ex_loaded None)) (ex_state (ex_loaded None)) tt o a) /\
  exists ev, ev ∈ handler_calls (ex_trace (ex_loaded None)) 2 /\ (forall q md c v, (q, md, c, Some v) ∉ hd_tablets ev).
Proof.
  split; [apply ex_data_history; by vm_compute|].
  assert (map (fun ev => map snd (hd_tablets ev)) (handler_calls (ex_trace (ex_loaded None)) 2) = [[None; None]]) as Hl by by vm_compute.
  destruct (handler_calls (ex_trace (ex_loaded None)) 2) as [|ev l]; [done|]. exists ev. split; [by left|]. injection Hl as Hl _.
  intros q md c v Hx. assert (Some v ∈ map snd (hd_tablets ev)) as Hs by (apply elem_of_list_fmap; by exists (q, md, c, Some v)).
  rewrite Hl in Hs. set_solver.
Qed.
Definition ex_empty : list ex_call := [CStart; CCommit 2; CTake; CIn (InOps 101 (ex_answer ex_store []))].
Example C77_empty_example :
  ex_runs 100 300 200 ex_config tt (ex_trace ex_empty) (ex_state ex_empty) tt /\ store_answers ["t"; "u"]%string (ex_trace ex_empty) /\
  ex_perform (ex_state ex_empty) tt (CCheck 2) = Ok (ex_state ex_empty, tt, ROutcome None).
Proof.
  split; [apply ex_history; by vm_compute|]. split; [|by vm_compute].
  intros n resp rep Hx. apply ex_trace_in in Hx.
  assert (n = 101 /\ resp = ex_answer ex_store []) as [-> ->] by find_answer Hx.
  eexists [], ex_store, _. split_and!; [vm_compute; set_solver|apply ex_names; by left|apply ex_applied; by vm_compute].
Qed.

(** The refused commit of [ex_failure]: the second operation, on tablet 6 of "u",
    met version 2. The region of that tablet is not answered for, the one of tablet 5
    of "t" is. *)
Example C82_refused_example :
  ex_runs 100 300 200 ex_config tt (ex_before ++ (CCommit 2, RNone) :: ex_after) (ex_state ex_sent) tt /\
  executed (ex_answer ex_store' ex_ops) !! 1%nat = Some (OpResult "u" OpFailed (Some (UpdateResult (Some (ex_tablet 6 2 "c"))))) /\
  match ex_perform (ex_state ex_failure) tt (CResolve [ex_query2]) with
  | Ok (m, _, _) => mc_delivered (mg_meta m) = mc_delivered (mg_meta (ex_state ex_failure)) | _ => False end /\
  match ex_perform (ex_state ex_failure) tt (CResolve [ex_query1]) with
  | Ok (m, _, _) => length (mc_delivered (mg_meta m)) = Datatypes.S (length (mc_delivered (mg_meta (ex_state ex_failure)))) | _ => False end.
Proof. split_and!; [apply C54_answer_decides_example|vm_compute; reflexivity..]. Qed.
(** A handle of the transaction of [ex_success], before and after the answer. *)
Example C54_handle_example :
  match handle_check (ex_state ex_sent) (CommitHandle 2 None) with Ok (m, h) => h = CommitHandle 2 None | _ => False end /\
  match handle_check (ex_state (take 19 ex_success)) (CommitHandle 2 None) with
  | Ok (m, h) => h = CommitHandle 2 (Some TxSucceeded) | _ => False end.
Proof. split; vm_compute; reflexivity. Qed.
