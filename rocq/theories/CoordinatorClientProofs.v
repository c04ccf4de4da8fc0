(** Proofs about the client's state, commit handles and refused commits. *)
From Verif Require Import Base TabletModel MetadataModel BlobModel CoordinatorModel CoordinatorSpec CoordinatorProofs
  CoordinatorHandlerProofs CoordinatorCacheProofs CoordinatorOutcomeProofs.
From Verif Require MetadataSpec MetadataFreshProofs MetadataRequestProofs.
Local Arguments N.add : simpl never.

Section Client.
Context {V H S : Type}.
Variable serialize : V -> option bytes.
Variable deserialize : bytes -> option V.
Variable sha256 : bytes -> bytes.
Variable base64 : bytes -> string.
Variable entry_order : gmap string (entry V) -> list (string * entry V).
Variable result_order : gmap (string * N) resolve_result -> list resolve_result.
Variable region_order : gmap N region -> list (N * region).
Variable table_order : gmap string table_cache -> list (string * table_cache).
Variable tablet_order : gmap (N * N) (working V) -> list (N * N).
Variable tx_order : gmap N (tx_state V H) -> list N.
Variable handle_tablets : S -> H -> N -> list (table_query * tablet_metadata * option V) ->
  res unit (S * list (option V)).
Notation perform := (mg_call serialize deserialize sha256 base64 entry_order result_order region_order table_order
                       tablet_order tx_order handle_tablets).
Notation runs := (runs serialize deserialize sha256 base64 entry_order result_order region_order table_order
                       tablet_order tx_order handle_tablets).
Notation process_progress := (process_progress serialize sha256 base64 result_order tablet_order handle_tablets).
Notation preparing_progress := (preparing_progress serialize sha256 base64 result_order tablet_order handle_tablets).
Notation transactions_progress := (transactions_progress serialize sha256 base64 result_order tablet_order handle_tablets).
Notation trace := (list (call (H := H) * reply (V := V) (H := H))).
Notation client_after := (client_after (V := V) (H := H) handle_tablets).

Lemma client_after_app s1 l1 s2 l2 s3 : client_after s1 l1 s2 -> client_after s2 l2 s3 -> client_after s1 (l1 ++ l2) s3.
Proof using Type. induction 1 as [|s h s1' outs l s2 Hh Hx _ IH]; intros H2; simpl; [done|]. econstructor; [exact Hh|exact Hx|by apply IH]. Qed.
Lemma zip_outs {A} (input : list A) (outs : list (option V)) :
  map fst (zip input (outs ++ replicate (length input) None)) = input /\
  forall i x, zip input (outs ++ replicate (length input) None) !! i = Some x -> x.2 = default None (outs !! i).
Proof using Type.
  split.
  - apply fst_zip. rewrite app_length, replicate_length. lia.
  - intros i x Hi. apply lookup_zip_with_Some in Hi as (a & o & -> & _ & Ho). simpl. apply lookup_app_Some in Ho as [->|[Hl Ho]]; [done|].
    apply lookup_replicate in Ho as [-> _]. by rewrite lookup_ge_None_2.
Qed.
Lemma process_client tx s p s' p' : process_progress tx s p = Ok (s', p') ->
  exists l, sh_handled s' = sh_handled s ++ l /\ client_after (sh_client s) l (sh_client s').
Proof using Type.
  assert (forall s0 : shared (V := V) (H := H) (S := S), sh_handled s0 = sh_handled s -> sh_client s0 = sh_client s ->
    exists l, sh_handled s0 = sh_handled s ++ l /\ client_after (sh_client s) l (sh_client s0)) as Hsame.
  { intros s0 -> ->. exists []. split; [by rewrite app_nil_r|constructor]. }
  intros Hp. unfold CoordinatorModel.process_progress in Hp. destruct (ps_status p) as [queries|request|h|h| |].
  - destruct (mc_resolve _ _ _ _); cbn [res_bind] in Hp; [|done..]. injection Hp as <- _. by apply Hsame.
  - destruct (resolve_outcome _ _); [|injection Hp as <- _; by apply Hsame].
    destruct (load_tablets _ _) as [[dc h]| |]; cbn [res_bind] in Hp; [|done..]. injection Hp as <- _. by apply Hsame.
  - destruct (check_result _ _) as [[values| |]|]; [|injection Hp as <- _; by apply Hsame..].
    destruct (init_loaded _ _) as [tablets| |]; cbn [res_bind] in Hp; [|done..].
    destruct (handle_tablets _ _ _ _) as [[client outs]| |] eqn:Eh; cbn [res_bind] in Hp; [|done..].
    destruct (store_tablets _ _ _ _ _) as [[[dc ms] h']| |]; cbn [res_bind] in Hp; [|done..]. injection Hp as <- _. simpl.
    eexists. split; [done|]. econstructor; [|apply zip_outs|constructor]. cbn [hd_handler hd_tx hd_tablets]. rewrite (proj1 (zip_outs _ _)). exact Eh.
  - destruct (check_result _ _) as [[| |]|]; injection Hp as <- _; by apply Hsame.
  - injection Hp as <- _. by apply Hsame.
  - injection Hp as <- _. by apply Hsame.
Qed.
Lemma preparing_client tx ps : forall s s' ps', preparing_progress tx s ps = Ok (s', ps') ->
  exists l, sh_handled s' = sh_handled s ++ l /\ client_after (sh_client s) l (sh_client s').
Proof using Type.
  induction ps as [|p ps IH]; intros s s' ps' Hp; cbn [CoordinatorModel.preparing_progress] in Hp.
  - injection Hp as <- _. exists []. split; [by rewrite app_nil_r|constructor].
  - destruct (process_progress tx s p) as [[s1 p1]| |] eqn:E; cbn [res_bind] in Hp; [|done..].
    destruct (preparing_progress tx s1 ps) as [[s2 ps2]| |] eqn:E2; cbn [res_bind] in Hp; [|done..]. injection Hp as <- _.
    apply process_client in E as (l1 & H1 & C1). apply IH in E2 as (l2 & H2 & C2). exists (l1 ++ l2).
    split; [by rewrite H2, H1, app_assoc|by eapply client_after_app].
Qed.
Lemma transactions_client ids : forall s txs s' txs', transactions_progress s txs ids = Ok (s', txs') ->
  exists l, sh_handled s' = sh_handled s ++ l /\ client_after (sh_client s) l (sh_client s').
Proof using Type.
  induction ids as [|i ids IH]; intros s txs s' txs' Hp; cbn [CoordinatorModel.transactions_progress] in Hp.
  - injection Hp as <- _. exists []. split; [by rewrite app_nil_r|constructor].
  - destruct (txs !! i) as [[ps| |]|]; [|by apply IH in Hp..].
    destruct (preparing_progress i s ps) as [[s1 ps1]| |] eqn:E; cbn [res_bind] in Hp; [|done..].
    apply preparing_client in E as (l1 & H1 & C1). apply IH in Hp as (l2 & H2 & C2). exists (l1 ++ l2).
    split; [by rewrite H2, H1, app_assoc|by eapply client_after_app].
Qed.
Lemma call_client m s c m' s' r : perform m s c = Ok (m', s', r) -> client_after s (all_handler_calls [(c, r)]) s'.
Proof using Type.
  intros Hc. unfold all_handler_calls. cbn [map concat snd]. rewrite app_nil_r.
  destruct c as [evicted|queries| |tx queries h|tx|tx|tx|tx|x|]; cbn [mg_call] in Hc.
  - unfold mg_progress in Hc. destruct (dc_progress _ _ _) as [dc| |]; cbn [res_bind] in Hc; [|done..].
    unfold co_progress in Hc. destruct (transactions_progress _ _ _) as [[s1 txs]| |] eqn:E; cbn [res_bind] in Hc; [|done..].
    injection Hc as <- <- <-. apply transactions_client in E as (l & -> & Hl). exact Hl.
  - destruct (mg_resolve _ _ _); cbn [res_bind] in Hc; [|done..]. injection Hc as _ <- <-. constructor.
  - injection Hc as _ <- <-. constructor.
  - destruct (co_process _ _ _ _); cbn [res_bind] in Hc; [|done..]. injection Hc as _ <- <-. constructor.
  - destruct (co_pending _ _); cbn [res_bind] in Hc; [|done..]. injection Hc as _ <- <-. constructor.
  - destruct (co_commit _ _ _); cbn [res_bind] in Hc; [|done..]. injection Hc as _ <- <-. constructor.
  - injection Hc as _ <- <-. constructor.
  - destruct (co_check _ _) as [[? ?]| |]; cbn [res_bind] in Hc; [|done..]. injection Hc as _ <- <-. constructor.
  - destruct (mg_in _ _ _ _); cbn [res_bind] in Hc; [|done..]. injection Hc as _ <- <-. constructor.
  - destruct (mg_take _) as [[? ?]| |]; cbn [res_bind] in Hc; [|done..]. injection Hc as _ <- <-. constructor.
Qed.
Lemma runs_client co mc dc tables client tr m s : runs co mc dc tables client tr m s -> client_after client (all_handler_calls tr) s.
Proof using Type.
  induction 1 as [m Hi|tr m s c m' s' r Hr IH Hc]; [constructor|]. unfold all_handler_calls in *. rewrite map_app, concat_app.
  eapply client_after_app; [exact IH|]. by eapply call_client.
Qed.

(** ** Refused commits *)
Lemma complete_conflicts l : forall o updates i op r md, committing_complete l = Ok (o, updates) -> l !! i = Some (op, r) ->
  or_status r <> OpSucceeded -> or_detail r = Some (CheckResult (Some md)) \/ or_detail r = Some (UpdateResult (Some md)) ->
  (op_table op, md, true) ∈ updates.
Proof using Type.
  induction l as [|[op r] l IH]; intros o updates i op' r' md Hc Hi Hs Hd; cbn [committing_complete] in Hc; [done|].
  match type of Hc with res_bind ?X _ = _ => destruct X as [us| |] eqn:Eu end; cbn [res_bind] in Hc; [|done..].
  destruct (committing_complete l) as [[o' more]| |] eqn:El; cbn [res_bind] in Hc; [|done..]. injection Hc as <- <-.
  apply elem_of_app. destruct i as [|i]; simpl in Hi.
  - injection Hi as <- <-. left. rewrite (bool_decide_false _ Hs) in Eu.
    destruct Hd as [Hd|Hd]; rewrite Hd in Eu; destruct (op_kind_of op) as [[| | | |]|]; try done; simpl in Eu; injection Eu as <-; by left.
  - right. by eapply IH.
Qed.
Variable tables : list (string * N).
Hypothesis results_in_order : MetadataSpec.values_order result_order.
Hypothesis tables_once : NoDup (map fst tables).
Hypothesis tables_u32 : MetadataSpec.sizes_u32 tables.
Lemma updates_heard region l b : (exists t md, (t, md, true) ∈ l /\ region = (t, tm_id md / MetadataSpec.size_of tables t)) ->
  foldl (MetadataSpec.heard tables region) b (map update_call l) = false.
Proof using Type.
  assert (forall l, foldl (MetadataSpec.heard tables region) false (map update_call l) = false) as Hf.
  { clear. intros l. induction l as [|[[t md] []] l IH]; simpl; [done|by destruct (decide _)|done]. }
  revert b. induction l as [|[[t md] c] l IH]; intros b (t' & md' & Hin & E); [by apply elem_of_nil in Hin|]. simpl.
  apply elem_of_cons in Hin as [Hx|Hin].
  - injection Hx as <- <- <-. rewrite decide_True by done. apply Hf.
  - apply IH. by exists t', md'.
Qed.
Lemma conflict_not_answered co mc dc client tr m s n tx ops resp m' s' r i op x md queries m'' s'' r'' q h :
  runs co mc dc tables client tr m s -> Forall (fun x => call_u32 x.1) tr -> in_flight m n tx ops ->
  perform m s (CIn (InOps n resp)) = Ok (m', s', r) ->
  ops !! i = Some op -> executed resp !! i = Some x -> or_status x <> OpSucceeded ->
  or_detail x = Some (CheckResult (Some md)) \/ or_detail x = Some (UpdateResult (Some md)) ->
  queries_u32 queries -> q ∈ queries -> h ∈ tq_hashes q -> tq_table q = op_table op ->
  h / MetadataSpec.size_of tables (op_table op) = tm_id md / MetadataSpec.size_of tables (op_table op) ->
  perform m' s' (CResolve queries) = Ok (m'', s'', r'') -> mc_delivered (mg_meta m'') = mc_delivered (mg_meta m').
Proof using results_in_order tables_once tables_u32.
  intros Hr Hu (F1 & F2 & _) Hc Hop Hx Hst Hd Hqu Hq Hh Ht Hreg Hres.
  edestruct (runs_minv serialize deserialize sha256 base64 entry_order result_order region_order table_order tablet_order tx_order handle_tablets
    tables results_in_order tables_once tables_u32 _ _ _ _ _ _ _ Hr Hu) as (calls & taken & MI).
  cbn [mg_call] in Hc. destruct (mg_in _ _ _ _) as [m1| |] eqn:E; cbn [res_bind] in Hc; [|done..]. injection Hc as <- <- _. simpl in E.
  apply (response_meta result_order region_order table_order tables mc taken calls) in E as (lists & updates & -> & Hh1 & Hupd); [|apply MI]. simpl in Hupd.
  assert (executed resp <> []) as Hne by (intros E; by rewrite E in Hx).
  destruct Hupd as [[_ [E|E]]|(tx' & ops' & o & U1 & U2 & U3 & U4)]; [done|by eapply E in F2|].
  rewrite F1 in U1. injection U1 as <-. rewrite F2 in U2. injection U2 as <-.
  assert ((op_table op, md, true) ∈ updates) as Hin.
  { eapply complete_conflicts; [exact U4| |exact Hst|exact Hd]. apply lookup_zip_with_Some. by exists op, x. }
  cbn [mg_call] in Hres. unfold mg_resolve in Hres. destruct (mc_resolve _ _ _ _) as [c| |] eqn:Ec; cbn [res_bind] in Hres; [|done..]. injection Hres as <- _ _. simpl.
  edestruct (MetadataFreshProofs.resolve_answered result_order region_order table_order tables tables_once) as (out & Ho & _ & Hiff);
    [exact tables_u32|exact Hh1|exact Hqu| |].
  { simpl. rewrite Ec. cbn [res_bind]. reflexivity. }
  unfold MetadataSpec.delivered in Ho. simpl in Ho. rewrite Ho. destruct out as [|y out]; [by rewrite app_nil_r|]. exfalso.
  pose proof (proj1 Hiff ltac:(done) q h Hq Hh) as Hup. rewrite Ht, Hreg in Hup. unfold MetadataSpec.up_to_date in Hup. rewrite app_assoc, foldl_app in Hup.
  rewrite updates_heard in Hup; [done|]. by exists (op_table op), md.
Qed.

(** ** Commit handles *)
Lemma handle_check_spec (m : manager V H) h m' h' : handle_check m h = Ok (m', h') ->
  ch_tx h' = ch_tx h /\
  match ch_outcome h with
  | Some o => m' = m /\ ch_outcome h' = Some o
  | None => forall s, perform m s (CCheck (ch_tx h)) = Ok (m', s, ROutcome (ch_outcome h'))
  end.
Proof using Type.
  unfold handle_check. destruct (ch_outcome h) as [o|] eqn:Eo; [intros [= <- <-]; by rewrite Eo|].
  destruct (co_check _ _) as [[co o]| |] eqn:E; cbn [res_bind]; [|done..]. intros [= <- <-]. split; [done|]. simpl.
  intros s. by rewrite E.
Qed.
End Client.
