(** Transactions when the answers come from a tablet store. *)
From Verif Require Import Base ActorModel TabletModel TabletSpec TabletProofs MetadataModel BlobModel CoordinatorModel CoordinatorSpec CoordinatorProofs CoordinatorHandlerProofs CoordinatorCacheProofs CoordinatorOutcomeProofs.
From Verif Require MetadataSpec MetadataTheorems.
Local Arguments N.add : simpl never.

(** A result with a detail is about a table of the store. *)
Lemma result_known ts ops ts' resp r : apply_tablets_request ts ops = Ok (ts', resp) -> r ∈ rs_results resp -> is_Some (or_detail r) ->
  is_Some (ts !! or_table r).
Proof.
  intros Ha Hr Hd. apply apply_request_spec in Ha as (Hp & _). apply prepare_all_spec in Hp.
  apply elem_of_list_lookup in Hr as [i Hi]. destruct (Forall2_lookup_r _ _ _ _ _ Hp Hi) as (op & _ & Hop).
  destruct (prepare_op_spec _ _ _ Hop) as (-> & _ & _ & He). unfold expected_detail in He.
  destruct (ts !! op_table op); [by eexists|]. rewrite He in Hd. by destruct Hd.
Qed.
(** A list request has no results for the coordinator. *)
Lemma list_answer ts ops ts' resp : apply_tablets_request ts ops = Ok (ts', resp) -> list_request ops -> executed resp = [].
Proof.
  intros Ha [_ Hl]. apply apply_request_spec in Ha as (Hp & _). apply prepare_all_spec in Hp. unfold executed.
  apply filter_all_false. rewrite Forall_forall. intros r Hr. apply elem_of_list_lookup in Hr as [i Hi].
  destruct (Forall2_lookup_r _ _ _ _ _ Hp Hi) as (op & Hopi & Hop). destruct (prepare_op_spec _ _ _ Hop) as (_ & _ & _ & He).
  rewrite Forall_forall in Hl. destruct (Hl op) as (f & to & Hk); [by eapply elem_of_list_lookup_2|].
  unfold expected_detail in He. rewrite Hk in He. unfold is_exec_result.
  destruct (ts !! op_table op); [|by rewrite He]. by destruct He as [l ->].
Qed.

Section Store.
Context {V H S : Type}.
Variable serialize : V -> option bytes.
Variable deserialize : bytes -> option V.
Variable sha256 : bytes -> bytes.
Variable base64 : bytes -> string.
Variable entry_order : gmap string (entry V) -> list (string * entry V).
Variable result_order : gmap (string * N) resolve_result -> list resolve_result.
Variable region_order : gmap N region -> list (N * region).
Variable table_order : gmap string table_cache -> list (string * table_cache).
Variable tablet_order : gmap (N * N) (working V) -> list (N * N).
Variable tx_order : gmap N (tx_state V H) -> list N.
Variable handle_tablets : S -> H -> N -> list (table_query * tablet_metadata * option V) ->
  res unit (S * list (option V)).
Notation perform := (mg_call serialize deserialize sha256 base64 entry_order result_order region_order table_order
                       tablet_order tx_order handle_tablets).
Notation runs := (runs serialize deserialize sha256 base64 entry_order result_order region_order table_order
                       tablet_order tx_order handle_tablets).
Notation reaches := (reaches serialize deserialize sha256 base64 entry_order result_order region_order table_order
                       tablet_order tx_order handle_tablets).
Notation tablet_operation := (tablet_operation serialize sha256 base64).
Notation trace := (list (call (H := H) * reply (V := V) (H := H))).
Hypothesis tablets_in_order : keys_order tablet_order.

Definition handled_tables (tr : trace) (names : list string) : Prop :=
  forall tx ev q md c set, ev ∈ handler_calls tr tx -> (q, md, c, set) ∈ hd_tablets ev -> tq_table q ∈ names.

Lemma commit_tables co mc dc tables client tr m s names : runs co mc dc tables client tr m s ->
  handled_tables tr names -> forall n ops op, (n, ops) ∈ commit_requests tr m -> op ∈ ops -> op_table op ∈ names.
Proof using tablets_in_order.
  induction 1 as [m Hi|tr m s c m' s' r Hr IH Hc]; intros Hh n ops op Hin Hop.
  - rewrite commit_requests_eq in Hin by (by eapply (i_kinds co), init_inv). unfold mg_init in Hi. destruct (mc_init _ _) as [c| |]; simpl in Hi; [|done..].
    injection Hi as <-. simpl in Hin. by apply elem_of_nil in Hin.
  - pose proof (runs_inv _ _ _ _ _ _ _ _ _ _ _ _ _ _ _ _ _ _ _ Hr) as I.
    assert (handled_tables tr names) as Hh1.
    { intros tx ev q md c' set He. eapply Hh. rewrite handler_calls_app. apply elem_of_app. by left. }
    destruct (requests_step _ _ _ _ _ _ _ _ _ _ _ _ _ _ _ _ _ _ _ _ I Hc Hin) as [Hold|(tx & ps & -> & Htx & Ha & Hops)]; [by eapply IH|].
    pose proof (runs_hinv serialize deserialize sha256 base64 entry_order result_order region_order table_order tablet_order tx_order handle_tablets tablets_in_order _ _ _ _ _ _ _ _ Hr) as HI.
    destruct (h_ok _ _ _ _ _ _ HI _ _ Htx) as (es & Hok & Hes & _). simpl in Hops. subst ops.
    destruct (completed_ops _ _ _ _ _ _ Ha Hok) as (ops' & Hp & Hf & _).
    rewrite Hp in Hop. apply elem_of_list_lookup in Hop as [i Hi]. destruct (Forall2_lookup_r _ _ _ _ _ Hf Hi) as ([[[q md] v] set] & Hx & (Ht & _)).
    rewrite Ht. apply elem_of_list_lookup_2 in Hx. apply elem_of_list_In, in_concat in Hx as (l & Hl & Hx). apply in_map_iff in Hl as (ev & <- & Hev).
    apply elem_of_list_In in Hx, Hev. rewrite Hes in Hev. by eapply Hh1.
Qed.

Variable tables : list (string * N).
Hypothesis results_in_order : MetadataSpec.values_order result_order.
Hypothesis tables_once : NoDup (map fst tables).
Hypothesis tables_u32 : MetadataSpec.sizes_u32 tables.

Definition from_store (names : list string) (tr : trace) : Prop :=
  forall n resp rep, (CIn (InOps n resp), rep) ∈ tr ->
  exists ops ts ts', (forall t, is_Some (ts !! t) <-> t ∈ names) /\ apply_tablets_request ts ops = Ok (ts', resp).
Lemma runs_tables co mc dc client tr m s names : runs co mc dc tables client tr m s -> Forall (fun x => call_u32 x.1) tr ->
  from_store names tr -> handled_tables tr names.
Proof using tablets_in_order results_in_order tables_once tables_u32.
  induction 1 as [m Hi|tr m s c m' s' r Hr IH Hc]; intros Hu Hf.
  - intros tx ev q md c set Hx. by apply elem_of_nil in Hx.
  - pose proof (runs_inv _ _ _ _ _ _ _ _ _ _ _ _ _ _ _ _ _ _ _ Hr) as I. apply Forall_app in Hu as [Hu1 Hu2].
    assert (from_store names tr) as Hf1. { intros n resp rep Hx. eapply Hf. apply elem_of_app. by left. }
    specialize (IH Hu1 Hf1).
    assert (runs co mc dc tables client (tr ++ [(c, r)]) m' s') as Hr' by by econstructor.
    destruct (runs_minv serialize deserialize sha256 base64 entry_order result_order region_order table_order tablet_order tx_order handle_tablets
      tables results_in_order tables_once tables_u32 _ _ _ _ _ _ _ Hr') as (calls & taken & M); [by apply Forall_app|].
    intros tx ev q md v set Hev Hx. pose proof (mi_handled _ _ _ _ _ _ _ _ _ M tx ev Hev _ _ _ _ Hx) as [Hrep _].
    rewrite handler_calls_app in Hev. apply elem_of_app in Hev as [Hev|Hev]; [by eapply IH|].
    apply (mi_told _ _ _ _ _ _ _ _ _ M) in Hrep.
    assert (exists evicted, c = CProgress evicted) as [evicted ->].
    { destruct c; [by eexists|..]; exfalso; unfold handler_calls in Hev; simpl in Hev; cbn [mg_call] in Hc;
        try (match type of Hc with res_bind ?X _ = _ => destruct X as [?| |]; cbn [res_bind] in Hc; [|done..] end);
        repeat (match type of Hc with context [let '(_, _) := ?p in _] => destruct p end);
        injection Hc as <- <- <-; by apply elem_of_nil in Hev. }
    assert (forall x, x ∈ commit_requests (tr ++ [(CProgress evicted, r)]) m' -> x ∈ commit_requests tr m) as Hback.
    { intros x Hxin. destruct (requests_step _ _ _ _ _ _ _ _ _ _ _ _ _ _ _ _ _ _ _ _ I Hc Hxin) as [?|(tx1 & ps1 & Hx1 & _)]; [done|discriminate Hx1]. }
    destruct Hrep as [n resp rep res from to l md Hin Hres <- Hst Hd Hmd|n resp rep ops i op res md Hin Hreq Hop Hres <- _ _|n resp rep ops i op res md Hin Hreq Hop Hres <- _ _].
    + apply elem_of_app in Hin as [Hin|Hin]; [|by apply elem_of_list_singleton in Hin].
      destruct (Hf1 _ _ _ Hin) as (ops & ts & ts' & Hn & Ha). apply Hn. eapply result_known; [exact Ha|done|by rewrite Hd].
    + eapply commit_tables; [exact Hr|done|by apply Hback|]. by eapply elem_of_list_lookup_2.
    + eapply commit_tables; [exact Hr|done|by apply Hback|]. by eapply elem_of_list_lookup_2.
Qed.

(** The answer with results to a commit request is the store's. *)
Lemma runs_store_reported co mc dc client tr m s names : runs co mc dc tables client tr m s -> Forall (fun x => call_u32 x.1) tr ->
  store_answers names tr -> forall tx o, (tx, o) ∈ reported tr ->
  exists a r b resp r' c d ops ts ts',
    tr = a ++ (CCommit tx, r) :: b ++ (CIn (InOps (number co a) resp), r') :: c ++ (CCheck tx, ROutcome (Some o)) :: d /\
    (number co a, ops) ∈ commit_requests tr m /\ (number co a, ops) ∈ sent_ops tr /\ ops <> [] /\
    apply_tablets_request ts ops = Ok (ts', resp) /\
    (o = TxSucceeded <-> Forall (precondition ts) ops).
Proof using tablets_in_order results_in_order tables_once tables_u32.
  intros Hr Hu Hst tx o Hrep. pose proof (runs_inv _ _ _ _ _ _ _ _ _ _ _ _ _ _ _ _ _ _ _ Hr) as I.
  destruct (runs_reported _ _ _ _ _ _ _ _ _ _ _ _ _ _ _ _ _ _ _ Hr _ _ Hrep) as (a & r & b & resp & r' & c & ops & upd & d & Htr & Hreq & Hex & Hcomp).
  assert ((CIn (InOps (number co a) resp), r') ∈ tr) as Hin. { rewrite Htr. set_solver. }
  destruct (Hst _ _ _ Hin) as (ops' & ts & ts' & Hsent & Hnames & Ha).
  destruct (i_kinds _ _ _ I) as (K1 & K2 & K3). rewrite Forall_forall in K3.
  assert (exec_request ops') as He. { destruct (K3 _ Hsent) as [Hl|He]; [|done]. by rewrite (list_answer _ _ _ _ Ha Hl) in Hex. }
  assert (ops' = ops) as ->.
  { eapply (commit_request_unique co); [exact I| |exact Hreq]. rewrite commit_requests_eq by apply I. apply elem_of_app. left.
    apply elem_of_list_In, filter_In. split; [by apply elem_of_list_In|]. simpl. by rewrite exec_request_lists. }
  assert (forall op, op ∈ ops -> is_Some (ts !! op_table op)) as Hk.
  { intros op Hop. apply Hnames. eapply commit_tables; [exact Hr| |exact Hreq|done]. eapply runs_tables; [exact Hr|done|].
    intros n1 resp1 rep1 Hx. destruct (Hst _ _ _ Hx) as (ops1 & ts1 & ts1' & _ & ? & ?). by exists ops1, ts1, ts1'. }
  destruct (store_results _ _ _ _ Ha He Hk) as [Hexec Hall].
  exists a, r, b, resp, r', c, d, ops, ts, ts'. split_and!; try done.
  - intros ->. rewrite Hexec in Hex. apply Forall2_nil_inv_l in Hall. done.
  - rewrite (complete_outcome _ _ _ Hcomp), Hexec. clear -Hall. induction Hall as [|op x ops rs Hx _ IH]; simpl; [by split|]. rewrite !Forall_cons, IH. simpl. by rewrite Hx.
Qed.

(** ** What the cache learns *)
Lemma knows_told co mc dc client tr m s : runs co mc dc tables client tr m s -> Forall (fun x => call_u32 x.1) tr ->
  forall table i md, knows m table i = Some md -> told tr m table md /\ tm_id md = i.
Proof using results_in_order tables_once tables_u32.
  intros Hr Hu table i md Hk.
  destruct (runs_minv serialize deserialize sha256 base64 entry_order result_order region_order table_order tablet_order tx_order handle_tablets
      tables results_in_order tables_once tables_u32 _ _ _ _ _ _ _ Hr Hu) as (calls & taken & M).
  pose proof (mi_history _ _ _ _ _ _ _ _ _ M) as Hh.
  assert (exists size, (table, size) ∈ tables) as [size Hin].
  { pose proof (MetadataProofs.history_tables _ _ _ _ _ _ _ tables_once Hh table) as Ht. unfold knows in Hk. simpl in Ht.
    destruct (mc_tables (mg_meta m) !! table) as [t|]; [|done]. destruct Ht as (size & Hs & _). by exists size. }
  pose proof (MetadataTheorems.C47_cache_knows_the_newest_report _ _ _ _ _ _ _ _ _ i tables_once Hh Hin) as Hn.
  unfold MetadataSpec.known in Hn. simpl in Hn. unfold knows in Hk. rewrite Hk in Hn. destruct Hn as (H1 & H2 & _). split; [|done].
  by eapply (mi_told _ _ _ _ _ _ _ _ _ M).
Qed.
Notation minv := (minv result_order region_order table_order tables).
Lemma reports_keep mc co dc client tr m s calls taken : runs co mc dc tables client tr m s -> minv mc tr m calls taken ->
  forall tr' m' s', reaches m s tr' m' s' -> Forall (fun x => call_u32 x.1) tr' ->
  exists more taken', minv mc (tr ++ tr') m' (calls ++ more) taken'.
Proof using results_in_order tables_once tables_u32.
  intros Hr M tr' m' s'. induction 1 as [m s|m s tr' m1 s1 c m2 s2 r Hx IH Hc]; intros Hu.
  - exists [], taken. by rewrite !app_nil_r.
  - apply Forall_app in Hu as [Hu1 Hu2]. apply Forall_cons in Hu2 as [Hu2 _]. destruct (IH Hr M Hu1) as (more & taken' & M1).
    pose proof (runs_reaches _ _ _ _ _ _ _ _ _ _ _ _ _ _ _ _ _ _ _ _ _ _ Hr Hx) as Hr1.
    pose proof (runs_inv _ _ _ _ _ _ _ _ _ _ _ _ _ _ _ _ _ _ _ Hr1) as I1.
    destruct (mg_call_minv serialize deserialize sha256 base64 entry_order result_order region_order table_order tablet_order tx_order handle_tablets
      tables results_in_order tables_once tables_u32 _ _ _ _ _ _ _ _ _ _ _ I1 M1 Hu2 Hc) as (more2 & taken2 & M2 & _).
    exists (more ++ more2), taken2. by rewrite !app_assoc in *.
Qed.
(** An update whose result says it succeeded is held to be current from then on,
    whatever the outcome of the transaction. *)
Lemma update_known co mc dc client tr m s n tx ops resp m' s' r : runs co mc dc tables client tr m s -> Forall (fun x => call_u32 x.1) tr ->
  in_flight m n tx ops -> perform m s (CIn (InOps n resp)) = Ok (m', s', r) ->
  forall i op res md, ops !! i = Some op -> executed resp !! i = Some res -> or_status res = OpSucceeded ->
    op_kind_of op = Some (OpUpdate (Some md)) -> op_table op ∈ map fst tables ->
  forall tr' m'' s'', reaches m' s' tr' m'' s'' -> Forall (fun x => call_u32 x.1) tr' ->
  exists md', knows m'' (op_table op) (tm_id md) = Some md' /\ tm_version md <= tm_version md'.
Proof using results_in_order tables_once tables_u32.
  intros Hr Hu (F1 & F2 & _) Hc i op res md Hop Hres Hs Hk Htab tr' m'' s'' Hx Hu'.
  destruct (runs_minv serialize deserialize sha256 base64 entry_order result_order region_order table_order tablet_order tx_order handle_tablets
      tables results_in_order tables_once tables_u32 _ _ _ _ _ _ _ Hr Hu) as (calls & taken & M).
  pose proof (runs_inv _ _ _ _ _ _ _ _ _ _ _ _ _ _ _ _ _ _ _ Hr) as I.
  destruct (mg_call_minv serialize deserialize sha256 base64 entry_order result_order region_order table_order tablet_order tx_order handle_tablets
      tables results_in_order tables_once tables_u32 _ _ _ _ _ (CIn (InOps n resp)) _ _ _ _ _ I M Logic.I Hc) as (more & taken' & M' & Hrep).
  specialize (Hrep _ _ F1 F2 _ _ _ _ Hop Hres Hs Hk).
  assert (runs co mc dc tables client (tr ++ [(CIn (InOps n resp), r)]) m' s') as Hr' by by econstructor.
  destruct (reports_keep _ _ _ _ _ _ _ _ _ Hr' M' _ _ _ Hx Hu') as (more2 & taken2 & M2).
  apply elem_of_list_fmap in Htab as ([table size] & Ht & Hin). simpl in Ht.
  rewrite Ht in *. rewrite (MetadataRequestProofs.size_of_in _ _ _ tables_once Hin) in Hrep.
  pose proof (MetadataTheorems.C47_cache_knows_the_newest_report _ _ _ _ _ _ _ _ _ (tm_id md) tables_once (mi_history _ _ _ _ _ _ _ _ _ M2) Hin) as Hn.
  unfold MetadataSpec.known in Hn. simpl in Hn. change (MetadataSpec.newest (tm_id md) (MetadataSpec.reports table size ((calls ++ more) ++ more2)) (knows m'' table (tm_id md))) in Hn.
  assert (md ∈ MetadataSpec.reports table size ((calls ++ more) ++ more2)) as Hmd.
  { rewrite mreports_app. apply elem_of_app. left. rewrite mreports_app. apply elem_of_app. by right. }
  destruct (knows m'' table (tm_id md)) as [md'|]; [|by specialize (Hn _ Hmd)].
  exists md'. split; [done|]. by apply Hn.
Qed.
(** The outcome after the answer. *)
Lemma answer_outcome co mc dc client tr m s n tx ops resp m' s' r : runs co mc dc tables client tr m s ->
  in_flight m n tx ops -> executed resp <> [] -> perform m s (CIn (InOps n resp)) = Ok (m', s', r) ->
  exists o updates m'', committing_complete (zip ops (executed resp)) = Ok (o, updates) /\
    perform m' s' (CCheck tx) = Ok (m'', s', ROutcome (Some o)).
Proof using Type.
  intros Hr (F1 & F2 & _) He Hc. cbn [mg_call mg_in] in Hc. unfold mg_tablets_response in Hc.
  destruct (match List.filter is_list_result _ with [] => _ | _ => _ end) as [c1| |]; cbn [res_bind] in Hc; [|done..].
  unfold executed in He. unfold executed. destruct (List.filter is_exec_result (rs_results resp)) as [|x l] eqn:El; [done|].
  unfold co_response in Hc. cbn [mg_coordinator] in Hc. rewrite F1, F2 in Hc.
  destruct (committing_complete _) as [[o u]| |]; cbn [res_bind] in Hc; [|done..]. injection Hc as <- <- <-.
  exists o, u. cbn [mg_call]. unfold co_check. simpl. rewrite lookup_insert. cbn [res_bind]. by eexists.
Qed.
End Store.
