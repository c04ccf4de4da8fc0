(** Facts about histories of the transaction manager: numbers of transactions
    and requests, and where outcomes come from. *)
From Verif Require Import Base TabletModel MetadataModel BlobModel CoordinatorModel CoordinatorSpec.
Local Arguments N.add : simpl never.

(** ** The messages of the metadata cache *)
Definition list_request (ops : list tablet_op) : Prop :=
  ops <> [] /\ Forall (fun op => exists from to, op_kind_of op = Some (OpList from to)) ops.
Definition exec_request (ops : list tablet_op) : Prop :=
  Forall (fun op => (exists i v, op_kind_of op = Some (OpCheck i v)) \/ (exists m, op_kind_of op = Some (OpUpdate (Some m)))) ops.

Lemma list_request_lists ops : list_request ops -> lists_tablets ops = true.
Proof.
  intros [Hne Hf]. destruct ops as [|[t k] ops]; [done|]. apply Forall_cons in Hf as [(f & to & Hk) _]. simpl in Hk. by subst k.
Qed.
Lemma exec_request_lists ops : exec_request ops -> lists_tablets ops = false.
Proof.
  intros Hf. destruct ops as [|[t k] ops]; [done|]. apply Forall_cons in Hf as [[(i & v & Hk)|(m & Hk)] _]; simpl in Hk; by subst k.
Qed.

Section Meta.
Variable result_order : gmap (string * N) resolve_result -> list resolve_result.
Variable region_order : gmap N region -> list (N * region).
Variable table_order : gmap string table_cache -> list (string * table_cache).

Lemma mc_resolve_out c qs k c' : mc_resolve result_order c qs k = Ok c' -> mc_out c' = mc_out c.
Proof using Type.
  unfold mc_resolve. destruct (resolve_create _ _ _ _ _) as [[[t r] o]| |]; simpl; [|done..]. by intros [= <-].
Qed.
Lemma mc_result_out c r c' : mc_result result_order c r = Ok c' -> mc_out c' = mc_out c.
Proof using Type.
  unfold mc_result. destruct (or_detail r) as [[f to l| |]|]; [|done..]. destruct (mc_tables c !! or_table r) as [t|]; [|by intros [= <-]].
  destruct (table_update_region _ _ _) as [[t' idx] nt]. destruct (notify_all _ _ _ _ _ _ _) as [[rs d]| |]; simpl; [|done..]. by intros [= <-].
Qed.
Lemma mc_response_out l : forall c c', mc_response result_order c l = Ok c' -> mc_out c' = mc_out c.
Proof using Type.
  induction l as [|r l IH]; intros c c'; simpl; [by intros [= <-]|].
  destruct (mc_result result_order c r) as [c1| |] eqn:E; simpl; [|done..]. intros Hc. rewrite (IH _ _ Hc). by eapply mc_result_out.
Qed.
Lemma mc_update_out c t m b : mc_out (mc_update c t m b) = mc_out c.
Proof using Type. unfold mc_update. by destruct (mc_tables c !! t). Qed.
Lemma update_meta_out l : forall c, mc_out (foldl update_meta c l) = mc_out c.
Proof using Type.
  induction l as [|[[t m] b] l IH]; intros c; simpl; [done|]. rewrite IH. apply mc_update_out.
Qed.
Lemma table_prepare_list t op : op ∈ (table_prepare region_order t).2 -> exists f to, op_kind_of op = Some (OpList f to).
Proof using Type.
  unfold table_prepare. simpl. intros Ho. apply elem_of_list_omap in Ho as ([idx r] & _ & Ho).
  destruct (region_bounds (tb_size t) idx) as [f to]. unfold region_prepare in Ho.
  destruct (rg_state r) as [[|w ws] [|]|]; simpl in Ho; try done. injection Ho as <-. simpl. by eexists _, _.
Qed.
Lemma mc_progress_out c : exists l, mc_out (mc_progress region_order table_order c) = mc_out c ++ l /\
  Forall (fun x => list_request x.2) l.
Proof using Type.
  unfold mc_progress. destruct (concat _) as [|op ops] eqn:E; simpl.
  - exists []. by rewrite app_nil_r.
  - eexists. split; [done|]. apply Forall_singleton. simpl. split; [done|]. rewrite <- E. apply Forall_forall.
    intros o Ho. apply elem_of_list_In in Ho. apply in_concat in Ho as (l & Hl & Ho). apply in_map_iff in Hl as ([n t] & <- & _).
    apply elem_of_list_In in Ho. by eapply table_prepare_list.
Qed.
End Meta.

Section Histories.
Context {V H S : Type}.
Variable serialize : V -> option bytes.
Variable deserialize : bytes -> option V.
Variable sha256 : bytes -> bytes.
Variable base64 : bytes -> string.
Variable entry_order : gmap string (entry V) -> list (string * entry V).
Variable result_order : gmap (string * N) resolve_result -> list resolve_result.
Variable region_order : gmap N region -> list (N * region).
Variable table_order : gmap string table_cache -> list (string * table_cache).
Variable tablet_order : gmap (N * N) (working V) -> list (N * N).
Variable tx_order : gmap N (tx_state V H) -> list N.
Variable handle_tablets : S -> H -> N -> list (table_query * tablet_metadata * option V) ->
  res unit (S * list (option V)).

Notation perform := (mg_call serialize deserialize sha256 base64 entry_order result_order region_order table_order
                       tablet_order tx_order handle_tablets).
Notation runs := (runs serialize deserialize sha256 base64 entry_order result_order region_order table_order
                       tablet_order tx_order handle_tablets).
Notation process_progress := (process_progress serialize sha256 base64 result_order tablet_order handle_tablets).
Notation preparing_progress := (preparing_progress serialize sha256 base64 result_order tablet_order handle_tablets).
Notation transactions_progress := (transactions_progress serialize sha256 base64 result_order tablet_order handle_tablets).
Notation trace := (list (call (H := H) * reply (V := V) (H := H))).

(** ** Progress *)
Lemma process_progress_out tx s p s' p' : process_progress tx s p = Ok (s', p') -> mc_out (sh_meta s') = mc_out (sh_meta s).
Proof using Type.
  unfold CoordinatorModel.process_progress. destruct (ps_status p).
  - destruct (mc_resolve _ _ _ _) as [mc| |] eqn:E; simpl; [|done..]. intros [= <- <-]. simpl. by eapply mc_resolve_out.
  - destruct (resolve_outcome _ _); [|by intros [= <- <-]]. destruct (load_tablets _ _) as [[dc h]| |]; simpl; [|done..]. by intros [= <- <-].
  - destruct (check_result _ _) as [[l| |]|]; [|by intros [= <- <-]..].
    destruct (init_loaded _ _) as [t| |]; simpl; [|done..]. destruct (handle_tablets _ _ _ _) as [[c outs]| |]; simpl; [|done..].
    destruct (store_tablets _ _ _ _ _) as [[[dc ms] h']| |]; simpl; [|done..]. by intros [= <- <-].
  - destruct (check_result _ _) as [[l| |]|]; by intros [= <- <-].
  - by intros [= <- <-].
  - by intros [= <- <-].
Qed.
Lemma preparing_progress_out tx ps : forall s s' ps', preparing_progress tx s ps = Ok (s', ps') -> mc_out (sh_meta s') = mc_out (sh_meta s).
Proof using Type.
  induction ps as [|p ps IH]; intros s s' ps'; cbn [CoordinatorModel.preparing_progress]; [by intros [= <- <-]|].
  destruct (process_progress tx s p) as [[s1 p1]| |] eqn:E; simpl; [|done..].
  destruct (preparing_progress tx s1 ps) as [[s2 ps2]| |] eqn:E2; simpl; [|done..].
  intros [= <- <-]. rewrite (IH _ _ _ E2). by eapply process_progress_out.
Qed.
Lemma transactions_progress_out ids : forall s txs s' txs', transactions_progress s txs ids = Ok (s', txs') -> mc_out (sh_meta s') = mc_out (sh_meta s).
Proof using Type.
  induction ids as [|i ids IH]; intros s txs s' txs'; cbn [CoordinatorModel.transactions_progress]; [by intros [= <- <-]|].
  destruct (txs !! i) as [[ps| |]|]; [|by apply IH..].
  destruct (preparing_progress i s ps) as [[s1 ps1]| |] eqn:E; simpl; [|done..].
  intros Ht. rewrite (IH _ _ _ _ Ht). by eapply preparing_progress_out.
Qed.
(** Making progress only changes transactions that are being prepared. *)
Definition same_tx (o o' : option (tx_state V H)) : Prop :=
  match o with Some (TxPreparing _) => exists ps, o' = Some (TxPreparing ps) | _ => o' = o end.
Lemma same_tx_refl o : same_tx o o.
Proof using Type. destruct o as [[ps| |]|]; simpl; by eauto. Qed.
Lemma same_tx_trans a b c : same_tx a b -> same_tx b c -> same_tx a c.
Proof using Type.
  destruct a as [[ps| |]|]; simpl; [|by intros ->..]. intros [ps' ->]. simpl. done.
Qed.
Lemma transactions_progress_txs ids : forall s txs s' txs', transactions_progress s txs ids = Ok (s', txs') ->
  forall i, same_tx (txs !! i) (txs' !! i).
Proof using Type.
  induction ids as [|i ids IH]; intros s txs s' txs'; cbn [CoordinatorModel.transactions_progress].
  - intros [= <- <-] j. apply same_tx_refl.
  - destruct (txs !! i) as [[ps| |]|] eqn:Ei; [|by apply IH..].
    destruct (preparing_progress i s ps) as [[s1 ps1]| |] eqn:E; simpl; [|done..].
    intros Ht j. eapply same_tx_trans; [|by eapply IH].
    destruct (decide (i = j)) as [<-|Hij].
    + rewrite lookup_insert, Ei. simpl. by eexists.
    + rewrite lookup_insert_ne by done. apply same_tx_refl.
Qed.

(** ** The observations *)
Lemma started_app (a b : trace) : started (a ++ b) = started a ++ started b.
Proof using Type. unfold started. apply omap_app. Qed.
Lemma commits_app (a b : trace) : commits (a ++ b) = commits a ++ commits b.
Proof using Type. unfold commits. apply omap_app. Qed.
Lemma reported_app (a b : trace) : reported (a ++ b) = reported a ++ reported b.
Proof using Type. unfold reported. apply omap_app. Qed.
Lemma sent_ops_app (a b : trace) : sent_ops (a ++ b) = sent_ops a ++ sent_ops b.
Proof using Type. unfold sent_ops. by rewrite map_app, concat_app. Qed.
Lemma filter_all_false {A} (f : A -> bool) (l : list A) : Forall (fun x => f x = false) l -> List.filter f l = [].
Proof using Type. induction 1 as [|x l Hx _ IH]; simpl; [done|]. by rewrite Hx. Qed.
Lemma filter_all_true {A} (f : A -> bool) (l : list A) : Forall (fun x => f x = true) l -> List.filter f l = l.
Proof using Type. induction 1 as [|x l Hx _ IH]; simpl; [done|]. by rewrite Hx, IH. Qed.

(** The transaction was committed by a call, with the request. *)
Definition committed_with (co : N) (tr : trace) (reqs : list (N * list tablet_op)) (tx n : N) (ops : list tablet_op) : Prop :=
  exists a r b, tr = a ++ (CCommit tx, r) :: b /\ n = number co a /\ (n, ops) ∈ reqs.
Definition completed_with (co : N) (tr : trace) (reqs : list (N * list tablet_op)) (tx : N) (o : tx_outcome) : Prop :=
  exists a r b resp r' c ops updates, tr = a ++ (CCommit tx, r) :: b ++ (CIn (InOps (number co a) resp), r') :: c /\
    (number co a, ops) ∈ reqs /\ executed resp <> [] /\ committing_complete (zip ops (executed resp)) = Ok (o, updates).

Definition requests_split (sent : list (N * list tablet_op)) (c : coordinator V H) (mc : metadata_cache) : Prop :=
  Forall (fun x => list_request x.2) (mc_out mc) /\ Forall (fun x => exec_request x.2) (co_out c) /\
  Forall (fun x => list_request x.2 \/ exec_request x.2) sent.

Record inv (co : N) (tr : trace) (m : manager V H) : Prop := {
  i_started : forall x, x ∈ started tr -> x <= co_counter (mg_coordinator m);
  i_started_once : NoDup (started tr);
  i_known : forall tx t, co_transactions (mg_coordinator m) !! tx = Some t -> tx ∈ started tr;
  i_correlation : co_correlation (mg_coordinator m) = co + Nlen (commits tr);
  i_commits : NoDup (commits tr);
  i_commits_started : forall tx, tx ∈ commits tr -> tx ∈ started tr;
  i_not_preparing : forall tx ps, tx ∈ commits tr -> co_transactions (mg_coordinator m) !! tx <> Some (TxPreparing ps);
  i_kinds : requests_split (sent_ops tr) (mg_coordinator m) (mg_meta m);
  i_numbers : map fst (commit_requests tr m) = map (fun k => co + 1 + N.of_nat k) (seq 0 (length (commits tr)));
  i_committing : forall tx ops, co_transactions (mg_coordinator m) !! tx = Some (TxCommitting ops) ->
    exists n, committed_with co tr (commit_requests tr m) tx n ops;
  i_correlations : forall n tx, co_correlations (mg_coordinator m) !! n = Some tx ->
    exists a r b, tr = a ++ (CCommit tx, r) :: b /\ n = number co a;
  i_completed : forall tx o, co_transactions (mg_coordinator m) !! tx = Some (TxCompleted o) ->
    completed_with co tr (commit_requests tr m) tx o;
  i_reported : forall tx o, (tx, o) ∈ reported tr -> co_transactions (mg_coordinator m) !! tx = None /\ tx ∈ started tr;
  i_reported_once : NoDup (map fst (reported tr));
  i_errors : forall n r, mg_errors m !! n = Some r -> exists ops, (n, ops) ∈ sent_ops tr /\ r = failed_response ops;
}.

Lemma commit_requests_eq (tr : trace) (m : manager V H) : requests_split (sent_ops tr) (mg_coordinator m) (mg_meta m) ->
  commit_requests tr m = List.filter (fun x => negb (lists_tablets x.2)) (sent_ops tr) ++ co_out (mg_coordinator m).
Proof using Type.
  intros (Hm & Hc & Hs). unfold commit_requests, requests. rewrite !List.filter_app.
  rewrite (filter_all_false _ (mc_out (mg_meta m))), app_nil_r, (filter_all_true _ (co_out _)); [done| |].
  - eapply Forall_impl; [exact Hc|]. intros x Hx. simpl. by rewrite exec_request_lists.
  - eapply Forall_impl; [exact Hm|]. intros x Hx. simpl. by rewrite list_request_lists.
Qed.

Lemma record_errors_spec l : forall errors errors', record_errors errors l = Ok errors' ->
  forall n r, errors' !! n = Some r -> errors !! n = Some r \/ exists ops, (n, ops) ∈ l /\ r = failed_response ops.
Proof using Type.
  induction l as [|[n ops] l IH]; intros errors errors'; simpl; [by intros [= <-]; left|].
  destruct (errors !! n) eqn:E; [done|]. intros He n' r Hn. destruct (IH _ _ He _ _ Hn) as [Hx|(ops' & Hx & ->)].
  - destruct (decide (n = n')) as [<-|Hne].
    + rewrite lookup_insert in Hx. injection Hx as <-. right. exists ops. split; [by left|done].
    + rewrite lookup_insert_ne in Hx by done. by left.
  - right. exists ops'. split; [by right|done].
Qed.

Lemma init_inv co mc dc tables m : mg_init (mg_create co mc dc) tables = Ok m -> inv co [] m.
Proof using Type.
  unfold mg_init. destruct (mc_init _ _) as [c| |] eqn:E; simpl; [|done..]. intros [= <-].
  assert (mc_out c = []) as Hout.
  { unfold mc_init in E. simpl in E. destruct (init_tables _ _); simpl in E; [|done..]. by injection E as <-. }
  constructor; simpl; unfold requests_split, commit_requests, requests; simpl; rewrite ?Hout; simpl; try done;
    try apply NoDup_nil_2; try (intros ? Hx; by apply elem_of_nil in Hx); try (intros ? ? Hx; by apply elem_of_nil in Hx).
  - unfold Nlen. simpl. lia.
  - split_and!; constructor.
Qed.

Lemma committed_mono co (tr tr' : trace) reqs reqs' tx n ops : (forall x, x ∈ reqs -> x ∈ reqs') ->
  committed_with co tr reqs tx n ops -> committed_with co (tr ++ tr') reqs' tx n ops.
Proof using Type.
  intros Hr (a & r & b & -> & Hn & Hin). exists a, r, (b ++ tr'). split_and!; [|done|by apply Hr]. by rewrite <- app_assoc.
Qed.
Lemma completed_mono co (tr tr' : trace) reqs reqs' tx o : (forall x, x ∈ reqs -> x ∈ reqs') ->
  completed_with co tr reqs tx o -> completed_with co (tr ++ tr') reqs' tx o.
Proof using Type.
  intros Hr (a & r & b & resp & r' & c & ops & upd & -> & Hin & Hne & Hc). exists a, r, b, resp, r', (c ++ tr'), ops, upd.
  split_and!; [|by apply Hr|done|done]. rewrite <- !app_assoc. simpl. by rewrite <- !app_assoc.
Qed.

(** A call that starts nothing, commits nothing, reports nothing and sends nothing. *)
Definition quiet (c : call (H := H)) (r : reply (V := V) (H := H)) : Prop :=
  started [(c, r)] = [] /\ commits [(c, r)] = [] /\ reported [(c, r)] = [] /\ sent_ops [(c, r)] = [].
Definition tx_moves (co : N) (tr : trace) reqs tx (o o' : option (tx_state V H)) : Prop :=
  o' = None \/ same_tx o o' \/
  exists ops out, o = Some (TxCommitting ops) /\ o' = Some (TxCompleted out) /\ completed_with co tr reqs tx out.

Lemma quiet_inv co tr m m' c r l : inv co tr m -> quiet c r ->
  co_counter (mg_coordinator m') = co_counter (mg_coordinator m) ->
  co_correlation (mg_coordinator m') = co_correlation (mg_coordinator m) ->
  co_out (mg_coordinator m') = co_out (mg_coordinator m) ->
  (forall n tx, co_correlations (mg_coordinator m') !! n = Some tx -> co_correlations (mg_coordinator m) !! n = Some tx) ->
  (forall n x, mg_errors m' !! n = Some x -> mg_errors m !! n = Some x) ->
  mc_out (mg_meta m') = mc_out (mg_meta m) ++ l -> Forall (fun x => list_request x.2) l ->
  (forall tx, tx_moves co (tr ++ [(c, r)]) (commit_requests tr m) tx
     (co_transactions (mg_coordinator m) !! tx) (co_transactions (mg_coordinator m') !! tx)) ->
  inv co (tr ++ [(c, r)]) m'.
Proof using Type.
  intros I (Q1 & Q2 & Q3 & Q4) Hcnt Hcor Hout Hcors Herr Hmc Hl Htx. destruct I.
  assert (commit_requests (tr ++ [(c, r)]) m' = commit_requests tr m) as Hreq.
  { rewrite !commit_requests_eq; [by rewrite sent_ops_app, Q4, app_nil_r, Hout|done|].
    destruct i_kinds0 as (K1 & K2 & K3). unfold requests_split. rewrite sent_ops_app, Q4, app_nil_r, Hout, Hmc.
    split_and!; [|done|done]. by apply Forall_app. }
  constructor; rewrite ?started_app, ?commits_app, ?reported_app, ?sent_ops_app, ?Q1, ?Q2, ?Q3, ?Q4, ?app_nil_r, ?Hcnt, ?Hcor, ?Hreq; try done.
  - intros tx t Ht. destruct (Htx tx) as [Hx|[Hx|(ops & out & Hx & Hy & _)]]; [congruence| |by eapply i_known0].
    destruct (co_transactions (mg_coordinator m) !! tx) as [t0|] eqn:E; [by eapply i_known0|]. simpl in Hx. congruence.
  - intros tx ps Hc Ht. destruct (Htx tx) as [Hx|[Hx|(ops & out & _ & Hx & _)]]; [congruence| |congruence].
    rewrite Ht in Hx. destruct (co_transactions (mg_coordinator m) !! tx) as [[ps'| |]|] eqn:E; [|done..]. by eapply i_not_preparing0.
  - destruct i_kinds0 as (K1 & K2 & K3). unfold requests_split. rewrite Hout, Hmc. split_and!; [|done|done]. by apply Forall_app.
  - intros tx ops Ht. destruct (Htx tx) as [Hx|[Hx|(ops' & out & _ & Hx & _)]]; [congruence| |congruence].
    rewrite Ht in Hx. destruct (co_transactions (mg_coordinator m) !! tx) as [[ps'| |]|] eqn:E; simpl in Hx; try done.
    + by destruct Hx.
    + injection Hx as <-. destruct (i_committing0 _ _ E) as [n Hn]. exists n. by eapply committed_mono.
  - intros n tx Hn. destruct (i_correlations0 n tx) as (a & r' & b & -> & ->); [by apply Hcors|].
    exists a, r', (b ++ [(c, r)]). split; [|done]. by rewrite <- app_assoc.
  - intros tx o Ht. destruct (Htx tx) as [Hx|[Hx|(ops' & out & _ & Hx & Hc)]]; [congruence| |].
    + rewrite Ht in Hx. destruct (co_transactions (mg_coordinator m) !! tx) as [[ps'| |]|] eqn:E; simpl in Hx; try done.
      * by destruct Hx.
      * injection Hx as <-. eapply completed_mono; [|by apply i_completed0]. done.
    + rewrite Ht in Hx. by injection Hx as ->.
  - intros tx o Hr. destruct (i_reported0 _ _ Hr) as [Hn Hs]. split; [|done].
    destruct (Htx tx) as [Hx|[Hx|(ops' & out & Hx & _)]]; [done| |congruence]. rewrite Hn in Hx. done.
  - intros n x Hx. by apply i_errors0, Herr.
Qed.

Lemma started_start_inv co tr (m : manager V H) : inv co tr m ->
  inv co (tr ++ [(CStart, RStarted (co_counter (mg_coordinator m) + 1))]) (set_coordinator m (co_start (mg_coordinator m)).1).
Proof using Type.
  intros I. destruct I.
  assert (started (V := V) (H := H) [(CStart, RStarted (co_counter (mg_coordinator m) + 1))] = [co_counter (mg_coordinator m) + 1]) as Q1 by done.
  set (i := co_counter (mg_coordinator m) + 1) in *. set (m' := set_coordinator m _).
  assert (commit_requests (tr ++ [(CStart, RStarted i)]) m' = commit_requests tr m) as Hreq.
  { rewrite !commit_requests_eq; [by rewrite sent_ops_app, app_nil_r|done|].
    unfold requests_split. by rewrite sent_ops_app, app_nil_r. }
  assert (i ∉ started tr) as Hi by (intros Hi; specialize (i_started0 _ Hi); lia).
  constructor; rewrite ?started_app, ?commits_app, ?reported_app, ?sent_ops_app, ?Q1; cbn [commits reported sent_ops omap list_omap map concat fst snd];
    rewrite ?app_nil_r, ?Hreq; try done; simpl.
  - intros x Hx. apply elem_of_app in Hx as [Hx|Hx]; [specialize (i_started0 _ Hx); lia|]. apply elem_of_list_singleton in Hx. lia.
  - apply NoDup_app. split_and!; [done| |apply NoDup_singleton]. intros x Hx Hy. apply elem_of_list_singleton in Hy as ->. done.
  - intros tx t Ht. apply elem_of_app. destruct (decide (tx = i)) as [->|Hne]; [right; by left|].
    rewrite lookup_insert_ne in Ht by done. left. by eapply i_known0.
  - intros tx Hx. apply elem_of_app. left. by apply i_commits_started0.
  - intros tx ps Hc. destruct (decide (tx = i)) as [->|Hne].
    + by apply i_commits_started0 in Hc.
    + rewrite lookup_insert_ne by done. by apply i_not_preparing0.
  - intros tx ops Ht. destruct (decide (tx = i)) as [->|Hne]; [by rewrite lookup_insert in Ht|]. rewrite lookup_insert_ne in Ht by done.
    destruct (i_committing0 _ _ Ht) as [n Hn]. exists n. by eapply committed_mono.
  - intros n tx Hn. destruct (i_correlations0 n tx Hn) as (a & r' & b & -> & ->).
    exists a, r', (b ++ [(CStart, RStarted i)]). split; [|done]. by rewrite <- app_assoc.
  - intros tx o Ht. destruct (decide (tx = i)) as [->|Hne]; [by rewrite lookup_insert in Ht|]. rewrite lookup_insert_ne in Ht by done.
    eapply completed_mono; [|by apply i_completed0]. done.
  - intros tx o Hr. destruct (i_reported0 _ _ Hr) as [Hn Hs]. split; [|apply elem_of_app; by left].
    rewrite lookup_insert_ne; [done|]. intros Hx. apply Hi. unfold i. by rewrite Hx.
Qed.

(** ** Committing *)
Lemma process_ops_exec (p : process V H) : exec_request (process_ops tablet_order p).
Proof using Type.
  unfold exec_request. apply Forall_forall. intros op Ho. unfold process_ops in Ho. apply elem_of_list_omap in Ho as (k & _ & Ho).
  destruct (ps_tablets p !! k) as [w|]; simpl in Ho; [|done]. injection Ho as <-. unfold working_op. simpl.
  destruct (wk_dirty w); [right|left]; by eauto.
Qed.
Lemma preparing_complete_exec (ps : list (process V H)) ops : preparing_complete tablet_order ps = Some ops -> exec_request ops.
Proof using Type.
  unfold preparing_complete. destruct (existsb _ _); [done|]. intros [= <-]. unfold exec_request. induction ps as [|p ps IH]; simpl; [constructor|].
  apply Forall_app. split; [apply process_ops_exec|done].
Qed.
Lemma not_active_not_failed (ps : list (process V H)) : is_active ps = false -> existsb process_failed ps = false.
Proof using Type.
  unfold is_active. induction ps as [|p ps IH]; simpl; [done|]. intros Ha. apply orb_false_iff in Ha as [Ha1 Ha2].
  rewrite (IH Ha2). unfold process_active, process_failed in *. by destruct (ps_status p).
Qed.
(** A commit that does not abort always makes a request. *)
Lemma co_commit_ok (c c' : coordinator V H) tx : co_commit tablet_order c tx = Ok c' ->
  exists ps ops, co_transactions c !! tx = Some (TxPreparing ps) /\ is_active ps = false /\
    ops = concat (map (process_ops tablet_order) ps) /\ exec_request ops /\
    c' = Coordinator (co_correlation c + 1) (co_counter c) (<[tx := TxCommitting ops]> (co_transactions c))
           (<[co_correlation c + 1 := tx]> (co_correlations c)) (co_out c ++ [(co_correlation c + 1, ops)]).
Proof using Type.
  unfold co_commit. destruct (co_transactions c !! tx) as [[ps| |]|] eqn:E; [|done..].
  destruct (is_active ps) eqn:Ea; [done|]. pose proof (not_active_not_failed _ Ea) as Hf.
  destruct (preparing_complete tablet_order ps) as [ops|] eqn:Ep.
  - intros [= <-]. exists ps, ops. split_and!; try done; [|by eapply preparing_complete_exec].
    unfold preparing_complete in Ep. rewrite Hf in Ep. by injection Ep as <-.
  - unfold preparing_complete in Ep. by rewrite Hf in Ep.
Qed.

Lemma commit_inv co tr (m : manager V H) tx c' r : inv co tr m -> co_commit tablet_order (mg_coordinator m) tx = Ok c' ->
  r = RNone -> inv co (tr ++ [(CCommit tx, r)]) (set_coordinator m c').
Proof using Type.
  intros I Hc ->. apply co_commit_ok in Hc as (ps & ops & Htx & Ha & Hops & He & ->). destruct I.
  assert (commits (V := V) (H := H) [(CCommit tx, RNone)] = [tx]) as Q2 by done.
  set (n := co_correlation (mg_coordinator m) + 1) in *. set (m' := set_coordinator m _).
  assert (requests_split (sent_ops (tr ++ [(CCommit tx, RNone)])) (mg_coordinator m') (mg_meta m')) as Hk.
  { destruct i_kinds0 as (K1 & K2 & K3). unfold requests_split. rewrite sent_ops_app, app_nil_r. simpl. split_and!; [done| |done].
    apply Forall_app. split; [done|]. by apply Forall_singleton. }
  assert (commit_requests (tr ++ [(CCommit tx, RNone)]) m' = commit_requests tr m ++ [(n, ops)]) as Hreq.
  { rewrite !commit_requests_eq by done. rewrite sent_ops_app, app_nil_r. simpl. by rewrite app_assoc. }
  assert (tx ∉ commits tr) as Hnc by (intros Hx; by eapply i_not_preparing0).
  assert (tx ∈ started tr) as Hst by by eapply i_known0.
  assert (n = number co tr) as Hn by (unfold n, number; rewrite i_correlation0; lia).
  constructor; rewrite ?started_app, ?commits_app, ?reported_app, ?sent_ops_app, ?Q2; cbn [started reported sent_ops omap list_omap map concat fst snd];
    rewrite ?app_nil_r, ?Hreq; try done; cbn [mg_coordinator set_coordinator m' co_counter co_correlation co_transactions co_correlations co_out mg_errors].
  - intros tx' t Ht. destruct (decide (tx' = tx)) as [->|Hne]; [done|]. rewrite lookup_insert_ne in Ht by done. by eapply i_known0.
  - unfold n. rewrite i_correlation0. unfold Nlen. rewrite app_length. simpl. lia.
  - apply NoDup_app. split_and!; [done| |apply NoDup_singleton]. intros x Hx Hy. apply elem_of_list_singleton in Hy as ->. done.
  - intros tx' Hx. apply elem_of_app in Hx as [Hx|Hx]; [by apply i_commits_started0|]. by apply elem_of_list_singleton in Hx as ->.
  - intros tx' ps' Hx. destruct (decide (tx' = tx)) as [->|Hne]; [by rewrite lookup_insert|]. rewrite lookup_insert_ne by done.
    apply elem_of_app in Hx as [Hx|Hx]; [by apply i_not_preparing0|]. by apply elem_of_list_singleton in Hx.
  - rewrite sent_ops_app, app_nil_r in Hk. done.
  - rewrite map_app, i_numbers0, app_length, Nat.add_1_r, seq_S, map_app. simpl. do 2 f_equal. rewrite Hn. unfold number, Nlen. lia.
  - intros tx' ops' Ht. destruct (decide (tx' = tx)) as [->|Hne].
    + rewrite lookup_insert in Ht. injection Ht as <-. exists n, tr, RNone, []. split_and!; [done|done|]. apply elem_of_app. right. by left.
    + rewrite lookup_insert_ne in Ht by done. destruct (i_committing0 _ _ Ht) as [n' Hn']. exists n'. eapply committed_mono; [|done].
      intros x Hx. apply elem_of_app. by left.
  - intros n' tx' Ht. destruct (decide (n' = n)) as [->|Hne].
    + rewrite lookup_insert in Ht. injection Ht as <-. by exists tr, RNone, [].
    + rewrite lookup_insert_ne in Ht by done. destruct (i_correlations0 _ _ Ht) as (a & r' & b & -> & ->).
      exists a, r', (b ++ [(CCommit tx, RNone)]). split; [|done]. by rewrite <- app_assoc.
  - intros tx' o Ht. destruct (decide (tx' = tx)) as [->|Hne]; [by rewrite lookup_insert in Ht|]. rewrite lookup_insert_ne in Ht by done.
    eapply completed_mono; [|by apply i_completed0]. intros x Hx. apply elem_of_app. by left.
  - intros tx' o Hr. destruct (i_reported0 _ _ Hr) as [Hx Hs]. split; [|done]. rewrite lookup_insert_ne; [done|]. intros ->. congruence.
Qed.

(** ** Reporting *)
Lemma check_inv co tr (m : manager V H) tx c' o : inv co tr m -> co_check (mg_coordinator m) tx = Ok (c', o) ->
  inv co (tr ++ [(CCheck tx, ROutcome o)]) (set_coordinator m c').
Proof using Type.
  intros I Hc. unfold co_check in Hc. destruct (co_transactions (mg_coordinator m) !! tx) as [[ps|ops|out]|] eqn:Ht; [done| | |done].
  - injection Hc as <- <-. eapply (quiet_inv _ _ m _ _ _ []); try done; [by rewrite app_nil_r|].
    intros tx'. right. left. apply same_tx_refl.
  - injection Hc as <- <-. destruct I.
    assert (reported (V := V) (H := H) [(CCheck tx, ROutcome (Some out))] = [(tx, out)]) as Q3 by done.
    set (m' := set_coordinator m _).
    assert (commit_requests (tr ++ [(CCheck tx, ROutcome (Some out))]) m' = commit_requests tr m) as Hreq.
    { rewrite !commit_requests_eq; [by rewrite sent_ops_app, app_nil_r|done|]. unfold requests_split. by rewrite sent_ops_app, app_nil_r. }
    constructor; rewrite ?started_app, ?commits_app, ?reported_app, ?sent_ops_app, ?Q3; cbn [started commits sent_ops omap list_omap map concat fst snd];
      rewrite ?app_nil_r, ?Hreq; try done; cbn [mg_coordinator set_coordinator set_transactions m' co_counter co_correlation co_transactions co_correlations co_out mg_errors].
    + intros tx' t Hx. apply lookup_delete_Some in Hx as [_ Hx]. by eapply i_known0.
    + intros tx' ps Hx Hy. apply lookup_delete_Some in Hy as [_ Hy]. by eapply i_not_preparing0.
    + intros tx' ops Hx. apply lookup_delete_Some in Hx as [_ Hx]. destruct (i_committing0 _ _ Hx) as [n Hn]. exists n. by eapply committed_mono.
    + intros n tx' Hn. destruct (i_correlations0 n tx' Hn) as (a & r' & b & -> & ->).
      exists a, r', (b ++ [(CCheck tx, ROutcome (Some out))]). split; [|done]. by rewrite <- app_assoc.
    + intros tx' o Hx. apply lookup_delete_Some in Hx as [_ Hx]. eapply completed_mono; [|by apply i_completed0]. done.
    + intros tx' o Hx. apply elem_of_app in Hx as [Hx|Hx].
      * destruct (i_reported0 _ _ Hx) as [Hy Hs]. split; [|done]. apply lookup_delete_None. by right.
      * apply elem_of_list_singleton in Hx as [= -> ->]. split; [apply lookup_delete|]. by eapply i_known0.
    + rewrite map_app. apply NoDup_app. split_and!; [done| |apply NoDup_singleton]. intros x Hx Hy. apply elem_of_list_singleton in Hy as ->.
      apply elem_of_list_fmap in Hx as ([tx' o] & Hx & Hr). simpl in Hx. subst tx'. destruct (i_reported0 _ _ Hr). congruence.
Qed.

(** ** Sending *)
Lemma omap_out_ops (l : list (N * list tablet_op)) (datas : list data_out) :
  omap (fun m => match m with OutOps n ops => Some (n, ops) | _ => None end) (map (fun x => OutOps x.1 x.2) l ++ map OutData datas) = l.
Proof using Type.
  rewrite omap_app. replace (omap _ (map OutData datas)) with (@nil (N * list tablet_op)).
  - rewrite app_nil_r. induction l as [|[n ops] l IH]; [done|]. cbn [map]. simpl. f_equal. exact IH.
  - symmetry. induction datas as [|d ds IH]; simpl; done.
Qed.
Lemma take_inv co tr (m m' : manager V H) l : inv co tr m -> mg_take m = Ok (m', l) -> inv co (tr ++ [(CTake, RMessages l)]) m'.
Proof using Type.
  intros I Hc. unfold mg_take, co_take, mc_take, dc_take in Hc.
  destruct (record_errors (mg_errors m) (co_out (mg_coordinator m) ++ mc_out (mg_meta m))) as [errors| |] eqn:Ee; simpl in Hc; [|done..].
  injection Hc as <- <-. destruct I. set (l := _ ++ map OutData _). set (m' := Manager _ _ _ _).
  assert (sent_ops (V := V) (H := H) [(CTake, RMessages l)] = co_out (mg_coordinator m) ++ mc_out (mg_meta m)) as Q4.
  { unfold sent_ops. cbn [map concat snd]. rewrite app_nil_r. unfold l. by rewrite omap_out_ops. }
  destruct i_kinds0 as (K1 & K2 & K3).
  assert (requests_split (sent_ops (tr ++ [(CTake, RMessages l)])) (mg_coordinator m') (mg_meta m')) as Hk.
  { unfold requests_split. rewrite sent_ops_app, Q4. simpl. split_and!; [done..|]. rewrite !Forall_app. split_and!; [done| |].
    - eapply Forall_impl; [exact K2|]. by right.
    - eapply Forall_impl; [exact K1|]. by left. }
  assert (commit_requests (tr ++ [(CTake, RMessages l)]) m' = commit_requests tr m) as Hreq.
  { unfold commit_requests, requests. rewrite sent_ops_app, Q4. simpl. by rewrite app_nil_r. }
  constructor; rewrite ?started_app, ?commits_app, ?reported_app; cbn [started commits reported omap list_omap map concat fst snd];
      rewrite ?app_nil_r, ?Hreq; try done; cbn [mg_coordinator m' co_counter co_correlation co_transactions co_correlations co_out mg_errors].
  - intros tx ops Hx. destruct (i_committing0 _ _ Hx) as [n Hn]. exists n. by eapply committed_mono.
  - intros n tx Hn. destruct (i_correlations0 n tx Hn) as (a & r' & b & -> & ->).
    exists a, r', (b ++ [(CTake, RMessages l)]). split; [|done]. by rewrite <- app_assoc.
  - intros tx o Hx. eapply completed_mono; [|by apply i_completed0]. done.
  - intros n r Hn. rewrite sent_ops_app, Q4. destruct (record_errors_spec _ _ _ Ee _ _ Hn) as [Hx|(ops & Hx & ->)].
    + destruct (i_errors0 _ _ Hx) as (ops & Ho & ->). exists ops. split; [|done]. apply elem_of_app. by left.
    + exists ops. split; [|done]. apply elem_of_app. by right.
Qed.

(** ** Responses *)
Lemma number_determined (a b a' b' : trace) tx r r' : NoDup (commits (a ++ (CCommit tx, r) :: b)) ->
  a ++ (CCommit tx, r) :: b = a' ++ (CCommit tx, r') :: b' -> commits a = commits a'.
Proof using Type.
  intros Hn He. assert (commits a ++ tx :: commits b = commits a' ++ tx :: commits b') as Hc.
  { apply (f_equal commits) in He. rewrite !commits_app in He. exact He. }
  rewrite commits_app in Hn. change (NoDup (commits a ++ tx :: commits b)) in Hn. clear He.
  revert Hc Hn. generalize (commits a), (commits a'), (commits b), (commits b'). clear.
  intros l. induction l as [|x l IH]; intros [|y l'] k k' Hc Hn; simpl in *; try done.
  - injection Hc as -> ->. apply NoDup_cons in Hn as [Hn _]. exfalso. apply Hn. apply elem_of_app. right. by left.
  - injection Hc as -> Hc. apply NoDup_cons in Hn as [Hn _]. exfalso. apply Hn. apply elem_of_app. right. by left.
  - injection Hc as -> Hc. apply NoDup_cons in Hn as [_ Hn]. f_equal. by eapply IH.
Qed.
Lemma commit_request_unique co tr m n ops ops' : inv co tr m -> (n, ops) ∈ commit_requests tr m -> (n, ops') ∈ commit_requests tr m -> ops = ops'.
Proof using Type.
  intros I Ho Ho'. assert (NoDup (map fst (commit_requests tr m))) as Hn.
  { rewrite (i_numbers _ _ _ I). apply (NoDup_fmap_2_strong (fun k => co + 1 + N.of_nat k)); [intros x y _ _ Hxy; lia|]. apply NoDup_seq. }
  apply elem_of_list_lookup in Ho as [i Hi]. apply elem_of_list_lookup in Ho' as [j Hj].
  assert (i = j) as ->; [|congruence]. eapply (NoDup_lookup _ i j n Hn); rewrite list_lookup_fmap; [by rewrite Hi|by rewrite Hj].
Qed.
Lemma failed_complete ops updates o l : exec_request ops -> ops <> [] ->
  l = List.filter is_exec_result (map failed_op_result ops) -> committing_complete (zip ops l) = Ok (o, updates) -> False.
Proof using Type.
  intros He Hne -> Hc. destruct ops as [|[t k] ops]; [done|]. apply Forall_cons in He as [[(i & v & Hk)|(m & Hk)] _]; simpl in Hk; subst k; by simpl in Hc.
Qed.

Lemma co_response_cases (c c' : coordinator V H) mc mc' n results : co_response c mc n results = Ok (c', mc') ->
  co_counter c' = co_counter c /\ co_correlation c' = co_correlation c /\ co_out c' = co_out c /\ mc_out mc' = mc_out mc /\
  (forall i tx, co_correlations c' !! i = Some tx -> co_correlations c !! i = Some tx) /\
  (co_transactions c' = co_transactions c \/
   exists tx ops o updates, co_correlations c !! n = Some tx /\ co_transactions c !! tx = Some (TxCommitting ops) /\
     committing_complete (zip ops results) = Ok (o, updates) /\ co_transactions c' = <[tx := TxCompleted o]> (co_transactions c)).
Proof using Type.
  unfold co_response. destruct (co_correlations c !! n) as [tx|] eqn:En; [|intros [= <- <-]; split_and!; by try left].
  destruct (co_transactions c !! tx) as [[ps|ops|out]|] eqn:Et;
    try (intros [= <- <-]; simpl; split_and!; try done; [|by left]; intros i tx' Hi; by apply lookup_delete_Some in Hi as [_ ?]).
  destruct (committing_complete (zip ops results)) as [[o updates]| |] eqn:Ec; simpl; [|done..]. intros [= <- <-]. simpl.
  split_and!; try done; [by apply update_meta_out|intros i tx' Hi; by apply lookup_delete_Some in Hi as [_ ?]|].
  right. by exists tx, ops, o, updates.
Qed.
Lemma tablets_response_cases (m m' : manager V H) n r : mg_tablets_response result_order m n r = Ok m' ->
  mg_errors m' = mg_errors m /\ mg_data m' = mg_data m /\ mc_out (mg_meta m') = mc_out (mg_meta m) /\
  co_counter (mg_coordinator m') = co_counter (mg_coordinator m) /\
  co_correlation (mg_coordinator m') = co_correlation (mg_coordinator m) /\ co_out (mg_coordinator m') = co_out (mg_coordinator m) /\
  (forall i tx, co_correlations (mg_coordinator m') !! i = Some tx -> co_correlations (mg_coordinator m) !! i = Some tx) /\
  (co_transactions (mg_coordinator m') = co_transactions (mg_coordinator m) \/
   exists tx ops o updates, co_correlations (mg_coordinator m) !! n = Some tx /\
     co_transactions (mg_coordinator m) !! tx = Some (TxCommitting ops) /\ executed r <> [] /\
     committing_complete (zip ops (executed r)) = Ok (o, updates) /\
     co_transactions (mg_coordinator m') = <[tx := TxCompleted o]> (co_transactions (mg_coordinator m))).
Proof using Type.
  unfold mg_tablets_response. fold (executed r). intros Hr.
  destruct (match List.filter is_list_result (rs_results r) with [] => Ok (mg_meta m) | _ => _ end) as [mc| |] eqn:El; simpl in Hr; [|done..].
  assert (mc_out mc = mc_out (mg_meta m)) as Hmc.
  { destruct (List.filter is_list_result (rs_results r)) as [|x l]; [by injection El as <-|]. by eapply mc_response_out. }
  destruct (executed r) as [|x l] eqn:Ee.
  - simpl in Hr. injection Hr as <-. simpl. split_and!; try done. by left.
  - destruct (co_response (mg_coordinator m) mc n (x :: l)) as [[c' mc']| |] eqn:Ec; simpl in Hr; [|done..]. injection Hr as <-. simpl.
    apply co_response_cases in Ec as (E1 & E2 & E3 & E4 & E5 & E6). split_and!; try done; [congruence|].
    destruct E6 as [E6|(tx & ops & o & upd & F1 & F2 & F3 & F4)]; [by left|]. right. exists tx, ops, o, upd. by rewrite F4.
Qed.

Lemma in_inv co tr (m m' : manager V H) x : inv co tr m -> mg_in deserialize result_order m x = Ok m' -> inv co (tr ++ [(CIn x, RNone)]) m'.
Proof using Type.
  intros I Hm. destruct x as [d|n r|n]; simpl in Hm.
  - destruct (dc_process deserialize (mg_data m) d) as [dc| |]; simpl in Hm; [|done..]. injection Hm as <-.
    eapply (quiet_inv _ _ m _ _ _ []); try done; [by rewrite app_nil_r|]. intros tx. right. left. apply same_tx_refl.
  - pose proof (tablets_response_cases _ _ _ _ Hm) as (E1 & E2 & E3 & E4 & E5 & E6 & E7 & E8). simpl in *.
    eapply (quiet_inv _ _ m _ _ _ []); try done; [|by rewrite app_nil_r|].
    { intros i y Hi. rewrite E1 in Hi. by apply lookup_delete_Some in Hi as [_ ?]. }
    intros tx'. destruct E8 as [->|(tx & ops & o & upd & F1 & F2 & F3 & F4 & ->)]; [right; left; apply same_tx_refl|].
    destruct (decide (tx' = tx)) as [->|Hne]; [|rewrite lookup_insert_ne by done; right; left; apply same_tx_refl].
    rewrite lookup_insert. right. right. exists ops, o. split_and!; [done|done|].
    destruct (i_committing _ _ _ I _ _ F2) as (n' & a & r1 & b & Ha & -> & Hin).
    destruct (i_correlations _ _ _ I _ _ F1) as (a' & r2 & b' & Ha' & ->).
    assert (commits a = commits a') as Hca.
    { eapply number_determined; [|rewrite <- Ha; exact Ha']. rewrite <- Ha. apply I. }
    assert (number co a' = number co a) as Hnn by (unfold number; by rewrite Hca).
    exists a, r1, b, r, RNone, [], ops, upd. rewrite Hnn. split_and!; [|done|done|done]. rewrite Ha, <- app_assoc. done.
  - destruct (mg_errors m !! n) as [r|] eqn:En; [|injection Hm as <-; eapply (quiet_inv _ _ m _ _ _ []); try done; [by rewrite app_nil_r|];
      intros tx; right; left; apply same_tx_refl].
    pose proof (tablets_response_cases _ _ _ _ Hm) as (E1 & E2 & E3 & E4 & E5 & E6 & E7 & E8). simpl in *.
    eapply (quiet_inv _ _ m _ _ _ []); try done; [|by rewrite app_nil_r|].
    { intros i y Hi. rewrite E1 in Hi. by apply lookup_delete_Some in Hi as [_ ?]. }
    intros tx'. destruct E8 as [->|(tx & ops & o & upd & F1 & F2 & F3 & F4 & _)]; [right; left; apply same_tx_refl|]. exfalso.
    destruct (i_committing _ _ _ I _ _ F2) as (n' & a & r1 & b & Ha & -> & Hin).
    destruct (i_correlations _ _ _ I _ _ F1) as (a' & r2 & b' & Ha' & ->).
    assert (commits a = commits a') as Hca.
    { eapply number_determined; [|rewrite <- Ha; exact Ha']. rewrite <- Ha. apply I. }
    assert (number co a' = number co a) as Hnn by (unfold number; by rewrite Hca). rewrite Hnn in *.
    destruct (i_errors _ _ _ I _ _ En) as (ops' & Ho & ->).
    destruct (i_kinds _ _ _ I) as (_ & _ & K3). rewrite Forall_forall in K3. destruct (K3 _ Ho) as [Hl|He]; simpl in *.
    + apply F3. unfold executed, failed_response. simpl. apply filter_all_false. apply Forall_fmap.
      destruct Hl as [_ Hl]. eapply Forall_impl; [exact Hl|]. intros op (f & to & Hk). simpl. unfold is_exec_result, failed_op_result. simpl. by rewrite Hk.
    + assert (ops' = ops) as ->.
      { eapply (commit_request_unique _ _ _ _ _ _ I); [|exact Hin]. rewrite commit_requests_eq by apply I. apply elem_of_app. left.
        apply elem_of_list_In, filter_In. split; [by apply elem_of_list_In|]. simpl. by rewrite exec_request_lists. }
      eapply (failed_complete _ _ _ _ He); [|done|exact F4]. intros ->. done.
Qed.

Lemma mg_call_inv co tr m s c m' s' r : inv co tr m -> perform m s c = Ok (m', s', r) -> inv co (tr ++ [(c, r)]) m'.
Proof using Type.
  intros I Hc. destruct c as [evicted|queries| |tx queries h|tx|tx|tx|tx|x|]; cbn [mg_call] in Hc.
  - unfold mg_progress in Hc. destruct (dc_progress entry_order (mg_data m) evicted) as [dc| |]; cbn [res_bind] in Hc; [|done..].
    unfold co_progress in Hc.
    destruct (transactions_progress _ _ _) as [[s1 txs]| |] eqn:Et; cbn [res_bind] in Hc; [|done..]. injection Hc as <- <- <-.
    destruct (mc_progress_out region_order table_order (mg_meta m)) as (l & Hl & Hf).
    eapply (quiet_inv _ _ m _ _ _ l); try done; cbn [mg_meta mg_coordinator co_transactions].
    + rewrite (transactions_progress_out _ _ _ _ _ Et). simpl. done.
    + intros tx. right. left. by eapply transactions_progress_txs.
  - unfold mg_resolve in Hc. destruct (mc_resolve _ _ _ _) as [mc| |] eqn:E; simpl in Hc; [|done..]. injection Hc as <- <- <-.
    eapply (quiet_inv _ _ m _ _ _ []); try done; [simpl; rewrite app_nil_r; by eapply mc_resolve_out|]. intros tx. right. left. apply same_tx_refl.
  - injection Hc as <- <- <-. by apply started_start_inv.
  - unfold co_process in Hc. destruct (co_transactions (mg_coordinator m) !! tx) as [[ps| |]|] eqn:Et; simpl in Hc; [|done..]. injection Hc as <- <- <-.
    eapply (quiet_inv _ _ m _ _ _ []); try done; [by rewrite app_nil_r|]. intros tx'. right. left. simpl.
    destruct (decide (tx' = tx)) as [->|Hne]; [rewrite lookup_insert, Et; simpl; by eexists|]. rewrite lookup_insert_ne by done. apply same_tx_refl.
  - destruct (co_pending (mg_coordinator m) tx) as [b| |]; simpl in Hc; [|done..]. injection Hc as <- <- <-.
    eapply (quiet_inv _ _ m _ _ _ []); try done; [by rewrite app_nil_r|]. intros tx'. right. left. apply same_tx_refl.
  - destruct (co_commit tablet_order (mg_coordinator m) tx) as [c'| |] eqn:E; simpl in Hc; [|done..]. injection Hc as <- <- <-. by eapply commit_inv.
  - injection Hc as <- <- <-. eapply (quiet_inv _ _ m _ _ _ []); try done; [by rewrite app_nil_r|]. intros tx'. simpl.
    destruct (decide (tx' = tx)) as [->|Hne]; [rewrite lookup_delete; by left|]. rewrite lookup_delete_ne by done. right. left. apply same_tx_refl.
  - destruct (co_check (mg_coordinator m) tx) as [[c' o]| |] eqn:E; simpl in Hc; [|done..]. injection Hc as <- <- <-. by apply check_inv.
  - destruct (mg_in deserialize result_order m x) as [m1| |] eqn:E; cbn [res_bind] in Hc; [|done..]. injection Hc as <- <- <-. by eapply in_inv.
  - destruct (mg_take m) as [[m1 l]| |] eqn:E; cbn [res_bind] in Hc; [|done..]. injection Hc as <- <- <-. by apply (take_inv _ _ m).
Qed.
Lemma runs_inv co mc dc tables client tr m s : runs co mc dc tables client tr m s -> inv co tr m.
Proof using Type.
  induction 1 as [m Hi|tr m s c m' s' r Hr IH Hc]; [by eapply init_inv|]. by eapply mg_call_inv.
Qed.
End Histories.
