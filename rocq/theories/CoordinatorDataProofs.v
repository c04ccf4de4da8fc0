(** The data cache inside the transaction manager only sees proper histories;
    what this says about the blobs of a transaction. *)
From Verif Require Import Base TabletModel MetadataModel BlobModel CoordinatorModel CoordinatorSpec CoordinatorProofs CoordinatorHandlerProofs CoordinatorCacheProofs.
From Verif Require BlobSpec BlobInvariantProofs BlobKnownProofs BlobTheorems.
Local Arguments N.add : simpl never.

Section Data.
Context {V H S : Type}.
Variable serialize : V -> option bytes.
Variable deserialize : bytes -> option V.
Variable sha256 : bytes -> bytes.
Variable base64 : bytes -> string.
Variable entry_order : gmap string (entry V) -> list (string * entry V).
Variable result_order : gmap (string * N) resolve_result -> list resolve_result.
Variable region_order : gmap N region -> list (N * region).
Variable table_order : gmap string table_cache -> list (string * table_cache).
Variable tablet_order : gmap (N * N) (working V) -> list (N * N).
Variable tx_order : gmap N (tx_state V H) -> list N.
Variable handle_tablets : S -> H -> N -> list (table_query * tablet_metadata * option V) ->
  res unit (S * list (option V)).
Notation perform := (mg_call serialize deserialize sha256 base64 entry_order result_order region_order table_order
                       tablet_order tx_order handle_tablets).
Notation runs := (runs serialize deserialize sha256 base64 entry_order result_order region_order table_order
                       tablet_order tx_order handle_tablets).
Notation data_runs := (data_runs serialize deserialize sha256 base64 entry_order result_order region_order table_order
                       tablet_order tx_order handle_tablets).
Notation process_progress := (process_progress serialize sha256 base64 result_order tablet_order handle_tablets).
Notation preparing_progress := (preparing_progress serialize sha256 base64 result_order tablet_order handle_tablets).
Notation transactions_progress := (transactions_progress serialize sha256 base64 result_order tablet_order handle_tablets).
Notation trace := (list (call (H := H) * reply (V := V) (H := H))).
Notation shared := (shared (V := V) (H := H) (S := S)).
Notation dhistory := (BlobSpec.history serialize deserialize sha256 base64 entry_order).
Notation dobserved := BlobSpec.Observed.
Notation provides := (BlobSpec.provides serialize deserialize).
Notation answer := (data_out * data_in)%type.

Lemma data_runs_runs co mc dc tables client tr m s o a : data_runs co mc dc tables client tr m s o a -> runs co mc dc tables client tr m s.
Proof using Type. induction 1; [by constructor|by econstructor]. Qed.

(** ** The metadata of the tablets written *)
Definition marked (t : gmap (N * N) (working V)) : Prop :=
  forall k w, t !! k = Some w -> wk_dirty w = true -> is_Some (wk_updated w).
Lemma set_marked l : forall t, marked t -> marked (foldl set_tablet t l).
Proof using Type.
  induction l as [|[k o] l IH]; intros t Ht; simpl; [done|]. apply IH. intros k' w'. unfold set_tablet. simpl.
  destruct (decide (k = k')) as [->|Hne].
  - rewrite lookup_alter. destruct (t !! k') as [w|] eqn:E; simpl; [|done]. intros [= <-]. destruct o as [v|]; simpl; [by eexists|]. by apply (Ht k').
  - rewrite lookup_alter_ne by done. apply Ht.
Qed.
Hypothesis tablets_in_order : keys_order tablet_order.
Lemma moved_metas t2 t4 dc dc' ms i writes :
  marked t2 -> writes = tablet_writes t2 (tablet_order t2) ->
  store_tablets serialize sha256 base64 dc (map snd writes) = Ok (dc', ms, HandleBatch i) ->
  t4 = foldl move_tablet (working_taken <$> t2) (zip (map fst writes) ms) ->
  forall k w, t4 !! k = Some w -> wk_dirty w = true -> wk_meta w ∈ ms.
Proof using tablets_in_order.
  intros Hm Hw Hst -> k w Hk Hd.
  assert (length ms = length writes) as Hlen.
  { unfold store_tablets in Hst. destruct (prepare_all serialize sha256 base64 (map snd writes)) as [[ms' [cs|]]| |] eqn:E; cbn [res_bind] in Hst; try done.
    destruct (store_entries _ _) as [c1| |]; cbn [res_bind] in Hst; [|done..].
    destruct (start_batch _ _ _) as [[c2 h]| |]; cbn [res_bind] in Hst; [|done..]. injection Hst as <- <- _.
    destruct (BlobInvariantProofs.prepare_all_ok serialize _ _ _ _ _ E) as (L1 & _ & _). by rewrite L1, map_length. }
  assert (NoDup (map fst writes)) as Hndw.
  { rewrite Hw. unfold tablet_writes.
    apply omap_fst_sub; [|by apply order_nodup]. intros k0 y. destruct (t2 !! k0) as [w0|]; simpl; [|done].
    destruct (wk_updated w0); simpl; [by intros [= <-]|done]. }
  assert (map fst (zip (map fst writes) ms) = map fst writes) as Hz.
  { apply fst_zip. rewrite map_length. lia. }
  unfold move_tablet in Hk. rewrite (foldl_alter (fun m w => working_moved w m)) in Hk by by rewrite Hz.
  destruct ((list_to_map (zip (map fst writes) ms) : gmap (N * N) tablet_metadata) !! k) as [m'|] eqn:El.
  - destruct ((working_taken <$> t2) !! k) as [w0|]; simpl in Hk; [|done]. injection Hk as <-. simpl.
    apply elem_of_list_to_map_2 in El. by apply elem_of_zip_r in El.
  - exfalso. rewrite lookup_fmap in Hk. destruct (t2 !! k) as [w0|] eqn:E0; simpl in Hk; [|done]. injection Hk as <-. simpl in Hd.
    destruct (Hm _ _ E0 Hd) as [v Hv]. apply not_elem_of_list_to_map_2 in El. apply El.
    change (k ∈ map fst (zip (map fst writes) ms)). rewrite Hz. apply elem_of_list_fmap. exists (k, (wk_meta w0, v)). split; [done|].
    rewrite Hw. unfold tablet_writes. apply elem_of_list_omap. exists k. split; [apply order_elem; [done|by eexists]|].
    rewrite E0. simpl. by rewrite Hv.
Qed.

Definition marked_back (t : gmap (N * N) (working V)) : Prop :=
  forall k w, t !! k = Some w -> is_Some (wk_updated w) -> wk_dirty w = true.
Lemma set_marked_back l : forall t, marked_back t -> marked_back (foldl set_tablet t l).
Proof using Type.
  induction l as [|[k o] l IH]; intros t Ht; simpl; [done|]. apply IH. intros k' w'. unfold set_tablet. simpl.
  destruct (decide (k = k')) as [->|Hne].
  - rewrite lookup_alter. destruct (t !! k') as [w|] eqn:E; simpl; [|done]. intros [= <-]. destruct o as [v|]; simpl; [done|]. by apply (Ht k').
  - rewrite lookup_alter_ne by done. apply Ht.
Qed.
Lemma move_dirty l : forall (t : gmap (N * N) (working V)) k w, t !! k = Some w -> wk_dirty w = true ->
  exists w', foldl move_tablet t l !! k = Some w' /\ wk_dirty w' = true.
Proof using Type.
  induction l as [|[k' m] l IH]; intros t k w Hk Hd; simpl; [by exists w|]. unfold move_tablet at 2. simpl.
  destruct (decide (k' = k)) as [->|Hne].
  - apply (IH _ k (working_moved w m)); [|done]. by rewrite lookup_alter, Hk.
  - apply (IH _ k w); [|done]. by rewrite lookup_alter_ne.
Qed.
Lemma nothing_written t2 dc dc' ms i writes :
  marked_back t2 -> writes = tablet_writes t2 (tablet_order t2) ->
  store_tablets serialize sha256 base64 dc (map snd writes) = Ok (dc', ms, HandleBatch i) ->
  (forall k w, foldl move_tablet (working_taken <$> t2) (zip (map fst writes) ms) !! k = Some w -> wk_dirty w = false) -> ms = [].
Proof using Type.
  intros Hm Hw Hst Hd.
  assert (length ms = length writes) as Hlen.
  { unfold store_tablets in Hst. destruct (prepare_all serialize sha256 base64 (map snd writes)) as [[ms' [cs|]]| |] eqn:E; cbn [res_bind] in Hst; try done.
    destruct (store_entries _ _) as [c1| |]; cbn [res_bind] in Hst; [|done..].
    destruct (start_batch _ _ _) as [[c2 h]| |]; cbn [res_bind] in Hst; [|done..]. injection Hst as <- <- _.
    destruct (BlobInvariantProofs.prepare_all_ok serialize _ _ _ _ _ E) as (L1 & _ & _). by rewrite L1, map_length. }
  destruct writes as [|[k [m v]] writes]; [by destruct ms|]. exfalso.
  assert ((k, (m, v)) ∈ tablet_writes t2 (tablet_order t2)) as Hin by (rewrite <- Hw; by left).
  unfold tablet_writes in Hin. apply elem_of_list_omap in Hin as (k' & _ & Hx). destruct (t2 !! k') as [w|] eqn:Ek; simpl in Hx; [|done].
  destruct (wk_updated w) as [v'|] eqn:Eu; simpl in Hx; [|done]. injection Hx as -> _ _.
  destruct (move_dirty (zip (map fst ((k, (m, v)) :: writes)) ms) (working_taken <$> t2) k (working_taken w)) as (w' & W1 & W2).
  - by rewrite lookup_fmap, Ek.
  - simpl. apply (Hm k); [done|]. by rewrite Eu.
  - apply Hd in W1. congruence.
Qed.

(** ** One process *)
Definition dghost : Type := list (BlobSpec.data_call V) * list (BlobSpec.asked * handle) * list data_out.
Definition contents_from (a : list answer) (t : gmap (N * N) (working V)) : Prop :=
  forall k w v, t !! k = Some w -> wk_contents w = Some v ->
    exists md x, tablet_key md = k /\ x ∈ a /\ provides x (tm_uri md) v.
Definition provided_event (a : list answer) (ev : handled V H) : Prop :=
  forall q md v set, (q, md, Some v, set) ∈ hd_tablets ev ->
    exists md' x, tablet_key md' = tablet_key md /\ x ∈ a /\ provides x (tm_uri md') v.
Definition dbefore (g g' : dghost) : Prop := exists more, g'.1.2 = g.1.2 ++ more.
Definition dgood (dc : N) (taken out0 o0 : list data_out) (a : list answer) (g : dghost) (s : shared) : Prop :=
  dhistory dc g.1.1 (dobserved (sh_data s) taken g.1.2) g.2 a /\
  (exists new, dc_out (sh_data s) = out0 ++ new /\ g.2 = o0 ++ new) /\
  forall ev, ev ∈ sh_handled s -> provided_event a ev.
Definition dirty_stored (a : list answer) (t : gmap (N * N) (working V)) : Prop :=
  forall k w, t !! k = Some w -> wk_dirty w = true -> exists x, x ∈ a /\ BlobSpec.stored x (tm_uri (wk_meta w)).
Definition dfine' (a : list answer) (handles : list (BlobSpec.asked * handle)) (p : process V H) : Prop :=
  match ps_status p with
  | PsPending _ | PsResolving _ => ps_tablets p = ∅
  | PsLoading h => (exists l w, (BlobSpec.AskedLoad l w, h) ∈ handles) /\ clean (ps_tablets p) /\ contents_from a (ps_tablets p)
  | PsStoring (HandleBatch i) => exists ms, (BlobSpec.AskedStore ms, HandleBatch i) ∈ handles /\
      (forall k w, ps_tablets p !! k = Some w -> wk_dirty w = true -> wk_meta w ∈ ms) /\
      ((forall k w, ps_tablets p !! k = Some w -> wk_dirty w = false) -> ms = [])
  | PsCompleted => dirty_stored a (ps_tablets p) /\ ~ (forall k w, ps_tablets p !! k = Some w -> wk_dirty w = false)
  | _ => True
  end.
Definition dfine (a : list answer) (g : dghost) (p : process V H) : Prop := dfine' a g.1.2 p.

Lemma contents_mono a a' t : (forall x, x ∈ a -> x ∈ a') -> contents_from a t -> contents_from a' t.
Proof using Type. intros Ha Ht k w v H1 H2. destruct (Ht _ _ _ H1 H2) as (md & x & ? & ? & ?). exists md, x. split_and!; auto. Qed.
Lemma provided_mono a a' ev : (forall x, x ∈ a -> x ∈ a') -> provided_event a ev -> provided_event a' ev.
Proof using Type. intros Ha Ht q md v set H1. destruct (Ht _ _ _ _ H1) as (md' & x & ? & ? & ?). exists md', x. split_and!; auto. Qed.
Lemma dfine'_mono a a' handles handles' p : (forall x, x ∈ a -> x ∈ a') -> (forall x, x ∈ handles -> x ∈ handles') ->
  dfine' a handles p -> dfine' a' handles' p.
Proof using Type.
  intros Ha Hh. unfold dfine'. destruct (ps_status p) as [qs|n|h|[i|]| |]; try done.
  - intros ((l & w & Hl) & Hc & Hf). split_and!; [by exists l, w; apply Hh|done|by eapply contents_mono].
  - intros (ms & Hm & Hw & Hn). exists ms. auto.
  - intros [Hd Hn]. split; [|done]. intros k w H1 H2. destruct (Hd _ _ H1 H2) as (x & ? & ?). exists x. auto.
Qed.
Lemma dbefore_refl g : dbefore g g.
Proof using Type. exists []. by rewrite app_nil_r. Qed.
Lemma dbefore_trans g1 g2 g3 : dbefore g1 g2 -> dbefore g2 g3 -> dbefore g1 g3.
Proof using Type. intros [x Hx] [y Hy]. exists (x ++ y). by rewrite Hy, Hx, app_assoc. Qed.
Lemma dfine_mono a g g' p : dbefore g g' -> dfine a g p -> dfine a g' p.
Proof using Type. intros [more Hm]. apply dfine'_mono; [done|]. rewrite Hm. intros x Hx. apply elem_of_app. by left. Qed.

Lemma track_contents a l : forall t, contents_from a t -> contents_from a (foldl track_resolved t l).
Proof using Type.
  induction l as [|[q m] l IH]; intros t Ht; simpl; [done|]. apply IH. intros k w v. unfold track_resolved. simpl.
  destruct (decide (k = tablet_key m)) as [->|Hne].
  - rewrite lookup_insert. by intros [= <-].
  - rewrite lookup_insert_ne by done. apply Ht.
Qed.
Lemma init_contents a l : forall t t', contents_from a t -> (forall m v, (m, v) ∈ l -> exists x, x ∈ a /\ provides x (tm_uri m) v) ->
  init_loaded t l = Ok t' -> contents_from a t'.
Proof using Type.
  induction l as [|[m v] l IH]; intros t t' Ht Hl; simpl; [by intros [= <-]|].
  destruct (t !! tablet_key m) as [w|] eqn:E; simpl; [|done]. apply IH; [|intros m' v' Hx; apply Hl; by right]. intros k w' v'.
  destruct (decide (k = tablet_key m)) as [->|Hne].
  - rewrite lookup_insert. intros [= <-]. simpl. intros [= <-]. destruct (Hl m v) as (x & ? & ?); [by left|]. by exists m, x.
  - rewrite lookup_insert_ne by done. apply Ht.
Qed.
Lemma load_out (c : data_cache V) l c' h : load_tablets c l = Ok (c', h) -> exists new, dc_out c' = dc_out c ++ new.
Proof using Type.
  unfold load_tablets. intros Hl. destruct (BlobKnownProofs.load_entries_out l c) as [new Hn]. exists new. rewrite <- Hn. by eapply BlobKnownProofs.start_batch_out.
Qed.
Lemma store_out (c : data_cache V) l c' ms h : store_tablets serialize sha256 base64 c l = Ok (c', ms, h) -> exists new, dc_out c' = dc_out c ++ new.
Proof using Type.
  unfold store_tablets. destruct (prepare_all serialize sha256 base64 l) as [[ms' [cs|]]| |] eqn:E; cbn [res_bind]; try done.
  - destruct (store_entries _ _) as [c1| |] eqn:E1; cbn [res_bind]; [|done..].
    destruct (start_batch _ _ _) as [[c2 h2]| |] eqn:E2; cbn [res_bind]; [|done..]. intros [= <- <- <-].
    apply BlobKnownProofs.store_entries_out in E1 as [new E1]. apply BlobKnownProofs.start_batch_out in E2. exists new. by rewrite E2.
  - intros [= <- <- <-]. exists []. by rewrite app_nil_r.
Qed.
(** A call that only adds requests. *)
Lemma dhistory_step dc calls c c' taken taken' handles handles' o a call new :
  dhistory dc calls (dobserved c taken handles) o a -> BlobSpec.allowed o call ->
  BlobSpec.perform serialize deserialize sha256 base64 entry_order (dobserved c taken handles) call = Ok (dobserved c' taken' handles') ->
  (forall r, call <> BlobSpec.CallIn r) -> taken' ++ dc_out c' = taken ++ dc_out c ++ new ->
  dhistory dc (calls ++ [call]) (dobserved c' taken' handles') (o ++ new) a.
Proof using Type.
  intros Hh Hal Hp Hno Hout. pose proof (BlobSpec.history_call _ _ _ _ _ _ _ _ _ _ _ _ Hh Hal Hp) as Hx.
  unfold BlobSpec.outstanding_next, BlobSpec.answers_next, BlobSpec.sent in Hx. simpl in Hx. rewrite Hout in Hx.
  rewrite (BlobInvariantProofs.drop_sent) in Hx.
  rewrite BlobInvariantProofs.filter_all in Hx by (intros q Hq; destruct call; try done; by eapply Hno).
  replace (a ++ _) with a in Hx; [done|]. destruct call; rewrite ?app_nil_r; try done. exfalso; by eapply Hno.
Qed.
Hypothesis entries_in_order : BlobSpec.entries_order entry_order.
Lemma dstep dc taken out0 o0 a tx g s p s' p' : dgood dc taken out0 o0 a g s -> dfine a g p -> process_progress tx s p = Ok (s', p') ->
  exists g', dbefore g g' /\ dgood dc taken out0 o0 a g' s' /\ dfine a g' p'.
Proof using tablets_in_order entries_in_order.
  destruct g as [[calls handles] o]. intros (Gh & (new & Gn & Go) & Ge) Hf Hp. unfold CoordinatorModel.process_progress in Hp.
  unfold dfine, dfine' in Hf. unfold dgood, dfine, dfine'. simpl in *.
  assert (forall s' p', Ok (s, p) = Ok (E := unit) (s', p') -> exists g', dbefore (calls, handles, o) g' /\
    (dhistory dc g'.1.1 (dobserved (sh_data s') taken g'.1.2) g'.2 a /\
     (exists new, dc_out (sh_data s') = out0 ++ new /\ g'.2 = o0 ++ new) /\ forall ev, ev ∈ sh_handled s' -> provided_event a ev) /\
    dfine' a g'.1.2 p') as Hsame.
  { intros s1 p1 [= <- <-]. exists (calls, handles, o). split_and!; [apply dbefore_refl|done|by exists new|done|]. simpl. unfold dfine'. exact Hf. }
  destruct (ps_status p) as [qs|n|h|h| |] eqn:Est; [| | | |by apply Hsame|by apply Hsame].
  - destruct (mc_resolve _ _ _ _) as [c| |] eqn:E; cbn [res_bind] in Hp; [|done..]. injection Hp as <- <-.
    exists (calls, handles, o). simpl. split_and!; [apply dbefore_refl|done|by exists new|done|done].
  - destruct (resolve_outcome _ _) as [values|] eqn:Eo; [|by apply Hsame].
    destruct (load_tablets _ _) as [[c h]| |] eqn:El; cbn [res_bind] in Hp; [|done..]. injection Hp as <- <-.
    destruct (load_out _ _ _ _ El) as [new' Hn'].
    eexists (calls ++ [BlobSpec.CallLoad (map snd values)], handles ++ [(BlobSpec.AskedLoad (map snd values) _, h)], o ++ new'). simpl. split_and!.
    + by eexists.
    + eapply dhistory_step; [exact Gh|done| |done|by rewrite Hn', app_assoc]. simpl. rewrite El. done.
    + exists (new ++ new'). rewrite Hn', Gn, Go. by rewrite !app_assoc.
    + done.
    + eexists _, _. apply elem_of_app. right. by left.
    + rewrite Hf. apply track_clean. intros k w Hk. by rewrite lookup_empty in Hk.
    + rewrite Hf. apply track_contents. intros k w v Hk. by rewrite lookup_empty in Hk.
  - destruct Hf as ((l & w & Hl) & Hcl & Hcf).
    destruct (check_result (sh_data s) h) as [[values| |]|] eqn:Ec;
      [|injection Hp as <- <-; exists (calls, handles, o); simpl; split_and!; try done; [apply dbefore_refl|by exists new]..|by apply Hsame].
    destruct (init_loaded _ _) as [t| |] eqn:Ei; cbn [res_bind] in Hp; [|done..].
    destruct h as [i|]; [|done].
    pose proof (BlobTheorems.C51_result_of_load_partial _ _ _ _ _ _ _ _ _ _ _ _ _ _ entries_in_order Gh Hl) as Hld.
    unfold BlobSpec.check in Hld. simpl in Hld. simpl in Ec. rewrite Ec in Hld.
    assert (contents_from a t) as Hcf'.
    { eapply init_contents; [exact Hcf| |exact Ei]. intros m v Hm. destruct (Hld _ _ Hm) as (m' & x & _ & _ & ? & ?). by exists x. }
    apply init_clean in Ei; [|done].
    destruct (handle_tablets _ _ _ _) as [[cl outs]| |]; cbn [res_bind] in Hp; [|done..].
    destruct (store_tablets _ _ _ _ _) as [[[c ms] h']| |] eqn:Est'; cbn [res_bind] in Hp; [|done..]. injection Hp as <- <-.
    destruct (store_out _ _ _ _ _ Est') as [new' Hn'].
    eexists (calls ++ [BlobSpec.CallStore _], handles ++ [(BlobSpec.AskedStore ms, h')], o ++ new'). simpl. split_and!.
    + by eexists.
    + eapply dhistory_step; [exact Gh|done| |done|by rewrite Hn', app_assoc]. simpl. rewrite Est'. done.
    + exists (new ++ new'). rewrite Hn', Gn, Go. by rewrite !app_assoc.
    + intros ev Hev. apply elem_of_app in Hev as [Hev|Hev]; [by apply Ge|]. apply elem_of_list_singleton in Hev as ->.
      intros q md v set Hx. simpl in Hx. apply elem_of_zip_l in Hx. unfold handler_input in Hx. apply elem_of_list_omap in Hx as (k & _ & Hx).
      destruct (t !! k) as [w'|] eqn:Ek; simpl in Hx; [|done]. injection Hx as _ <- Hc. destruct (Hcf' _ _ _ Ek Hc) as (md' & x & <- & ? & ?).
      exists md', x. split_and!; [|done|done]. by apply (Ei _ _ Ek).
    + destruct h' as [j|]; [|done]. exists ms. split_and!; [apply elem_of_app; right; by left| |].
      * eapply moved_metas; [|done|exact Est'|done]. apply set_marked. intros k w' Hk Hd. destruct (Ei _ _ Hk) as (_ & _ & Hx). by rewrite Hx in Hd.
      * eapply nothing_written; [|done|exact Est']. apply set_marked_back. intros k w' Hk Hd. destruct (Ei _ _ Hk) as (_ & Hx & _). rewrite Hx in Hd. by destruct Hd.
  - destruct h as [i|]; simpl in Hp.
    + destruct Hf as (ms & Hm & Hw & Hn).
      pose proof (BlobTheorems.C51_result_of_store _ _ _ _ _ _ _ _ _ _ _ _ _ entries_in_order Gh Hm) as Hst.
      unfold BlobSpec.check in Hst. simpl in Hst.
      destruct (dc_results (sh_data s) !! i) as [[values| |]|] eqn:Er; [done| | |by apply Hsame];
        injection Hp as <- <-; exists (calls, handles, o); simpl; split_and!; try done; try apply dbefore_refl; try by exists new.
      * intros k w Hk Hd. apply Hst. by eapply Hw.
      * intros Hall. pose proof (BlobKnownProofs.empty_unresolved _ _ _ _ _ entries_in_order _ _ _ _ _ _ _ Gh Hm (Hn Hall)) as Hx.
        unfold BlobSpec.check in Hx. simpl in Hx. congruence.
    + injection Hp as <- <-. exists (calls, handles, o). simpl. split_and!; try done; try apply dbefore_refl. by exists new.
Qed.
(** ** Histories *)
Record dinv (dc : N) (tr : trace) (m : manager V H) (o : list data_out) (a : list answer) (handles : list (BlobSpec.asked * handle)) : Prop := {
  di_history : exists calls, dhistory dc calls (dobserved (mg_data m) (sent_data tr) handles) o a;
  di_fine : forall tx ps p, co_transactions (mg_coordinator m) !! tx = Some (TxPreparing ps) -> p ∈ ps -> dfine' a handles p;
  di_handled : forall tx ev, ev ∈ handler_calls tr tx -> provided_event a ev;
  di_commits : forall n ops op md, (n, ops) ∈ commit_requests tr m -> op ∈ ops -> op_kind_of op = Some (OpUpdate (Some md)) ->
    exists x, x ∈ a /\ BlobSpec.stored x (tm_uri md);
}.
Lemma sent_data_app (a b : trace) : sent_data (a ++ b) = sent_data a ++ sent_data b.
Proof using Type. unfold sent_data. by rewrite map_app, concat_app. Qed.
Lemma process_update (p : process V H) op md : op ∈ process_ops tablet_order p -> op_kind_of op = Some (OpUpdate (Some md)) ->
  exists k w, ps_tablets p !! k = Some w /\ wk_dirty w = true /\ wk_meta w = md.
Proof using Type.
  unfold process_ops. intros Hx Hk. apply elem_of_list_omap in Hx as (k & _ & Hx). destruct (ps_tablets p !! k) as [w|] eqn:E; simpl in Hx; [|done].
  injection Hx as <-. unfold working_op in Hk. simpl in Hk. destruct (wk_dirty w) eqn:Ed; [|done]. injection Hk as <-. by exists k, w.
Qed.
(** A call whose effect on the data cache is known. *)
Lemma dcall_dinv dc co tr m m' c r s s' o o' a more handles handles' : inv co tr m -> dinv dc tr m o a handles ->
  perform m s c = Ok (m', s', r) ->
  (exists calls, dhistory dc calls (dobserved (mg_data m') (sent_data (tr ++ [(c, r)])) handles') o' (a ++ more)) ->
  (forall x, x ∈ handles -> x ∈ handles') ->
  (forall tx ps p, co_transactions (mg_coordinator m') !! tx = Some (TxPreparing ps) -> p ∈ ps ->
     (exists ps', co_transactions (mg_coordinator m) !! tx = Some (TxPreparing ps') /\ p ∈ ps') \/ dfine' (a ++ more) handles' p) ->
  (forall tx ev, ev ∈ handler_calls [(c, r)] tx -> provided_event (a ++ more) ev) ->
  dinv dc (tr ++ [(c, r)]) m' o' (a ++ more) handles'.
Proof using Type.
  intros I [D1 D2 D3 D4] Hc Hh Hhs Htx Hev. assert (forall x, x ∈ a -> x ∈ a ++ more) as Ha by (intros x Hx; apply elem_of_app; by left).
  constructor; [done| | |].
  - intros tx ps p Hx Hp. destruct (Htx _ _ _ Hx Hp) as [(ps' & H1 & H2)|Hf]; [|done]. eapply dfine'_mono; [exact Ha|exact Hhs|by eapply D2].
  - intros tx ev Hx. rewrite handler_calls_app in Hx. apply elem_of_app in Hx as [Hx|Hx]; [|by eapply Hev]. eapply provided_mono; [exact Ha|by eapply D3].
  - intros n ops op md Hin Hop Hk. destruct (requests_step _ _ _ _ _ _ _ _ _ _ _ _ _ _ _ _ _ _ _ _ I Hc Hin) as [Hold|(tx & ps & -> & T1 & T2 & T3)].
    + destruct (D4 _ _ _ _ Hold Hop Hk) as (x & ? & ?). exists x. auto.
    + simpl in T3. subst ops. apply elem_of_list_In, in_concat in Hop as (l & Hl & Hop). apply in_map_iff in Hl as (p & <- & Hp). apply elem_of_list_In in Hp, Hop.
      destruct (process_update _ _ _ Hop Hk) as (k & w & W1 & W2 & <-). pose proof (D2 _ _ _ T1 Hp) as Hf. unfold dfine' in Hf.
      assert (process_active p = false) as Hact.
      { unfold is_active in T2. destruct (process_active p) eqn:Ea; [|done]. rewrite <- T2. symmetry. apply existsb_exists. exists p.
        split; [by apply elem_of_list_In|done]. }
      unfold process_active in Hact. destruct (ps_status p); try done. destruct Hf as [Hf _]. destruct (Hf _ _ W1 W2) as (x & ? & ?). exists x. auto.
Qed.
Lemma omap_out_data (l : list (N * list tablet_op)) (k : list data_out) :
  omap (fun m => match m with OutData d => Some d | _ => None end) (map (fun x => OutOps x.1 x.2) l ++ map OutData k) = k.
Proof using Type. induction l as [|x l IH]; simpl; [|exact IH]. induction k as [|d k IH]; simpl; [done|]. f_equal. exact IH. Qed.
Lemma filter_none (c : call (H := H)) (o : list data_out) : (forall q, ~ answers c q) -> filter (fun q => ~ answers c q) o = o.
Proof using Type. intros Hq. induction o as [|q o IH]; [done|]. rewrite filter_cons_True by done. by rewrite IH. Qed.
Lemma mg_call_dinv co dc tr m s o a handles c m' s' r : inv co tr m -> dinv dc tr m o a handles ->
  (forall evicted k, c = CProgress evicted -> k ∈ evicted -> k ∉ map BlobSpec.request_uri o) ->
  perform m s c = Ok (m', s', r) ->
  exists handles', dinv dc (tr ++ [(c, r)]) m'
    (filter (fun q => ~ answers c q) o ++ drop (length (data_requests tr m)) (data_requests (tr ++ [(c, r)]) m'))
    (a ++ match c with CIn (InData x) => map (fun q => (q, x)) (filter (answers c) o) | _ => [] end) handles'.
Proof using tablets_in_order entries_in_order.
  intros I DI Hal Hc. pose proof Hc as Hperf. destruct (di_history _ _ _ _ _ _ DI) as [calls Hh].
  assert (forall q, (forall x, c <> CIn (InData x)) -> ~ answers c q) as Hno.
  { intros q Hx. destruct c as [| | | | | | | |[]|]; simpl; try tauto. by edestruct Hx. }
  (* nothing happened to the data cache *)
  assert (mg_data m' = mg_data m -> sent_data [(c, r)] = [] -> (forall x, c <> CIn (InData x)) ->
    filter (fun q => ~ answers c q) o ++ drop (length (data_requests tr m)) (data_requests (tr ++ [(c, r)]) m') = o /\
    sent_data (tr ++ [(c, r)]) = sent_data tr) as Hquiet.
  { intros E1 E2 E3. unfold data_requests. rewrite sent_data_app, E2, app_nil_r, E1, drop_all, app_nil_r. split; [|done].
    apply filter_none. intros q. by apply Hno. }
  assert (forall c', c' = c -> (forall x, c' <> CIn (InData x)) ->
    match c' with CIn (InData x) => map (fun q => (q, x)) (filter (answers c) o) | _ => [] end = []) as Hnone.
  { intros c' -> Hx. destruct c as [| | | | | | | |[]|]; try done. by edestruct Hx. }
  assert (mg_data m' = mg_data m -> sent_data [(c, r)] = [] -> (forall x, c <> CIn (InData x)) ->
    (forall tx ps p, co_transactions (mg_coordinator m') !! tx = Some (TxPreparing ps) -> p ∈ ps ->
      (exists ps', co_transactions (mg_coordinator m) !! tx = Some (TxPreparing ps') /\ p ∈ ps') \/ dfine' (a ++ []) handles p) ->
    (forall tx, handler_calls [(c, r)] tx = []) ->
    exists handles', dinv dc (tr ++ [(c, r)]) m'
    (filter (fun q => ~ answers c q) o ++ drop (length (data_requests tr m)) (data_requests (tr ++ [(c, r)]) m'))
    (a ++ match c with CIn (InData x) => map (fun q => (q, x)) (filter (answers c) o) | _ => [] end) handles') as Hq.
  { intros E1 E2 E3 E4 E5. exists handles. destruct (Hquiet E1 E2 E3) as [-> Hs]. rewrite (Hnone c eq_refl E3).
    eapply dcall_dinv; [exact I|exact DI|exact Hperf| |done|exact E4|].
    - rewrite app_nil_r, Hs, E1. by exists calls.
    - intros tx ev Hx. rewrite E5 in Hx. by apply elem_of_nil in Hx. }
  destruct c as [evicted|queries| |tx queries h|tx|tx|tx|tx|x|]; cbn [mg_call] in Hc.
  - unfold mg_progress in Hc. destruct (dc_progress entry_order (mg_data m) evicted) as [dc1| |] eqn:Ed; cbn [res_bind] in Hc; [|done..].
    unfold co_progress in Hc.
    destruct (transactions_progress _ _ _) as [[s1 txs]| |] eqn:Et; cbn [res_bind] in Hc; [|done..]. injection Hc as <- <- <-.
    pose proof (BlobInvariantProofs.history_inv _ _ _ entries_in_order _ _ _ _ _ _ _ Hh) as [J _ _].
    destruct (BlobInvariantProofs.progress_inv _ _ _ entries_in_order _ _ _ _ evicted J (fun k => Hal evicted k eq_refl)) as (c1 & A1 & _ & _ & A2 & _).
    simpl in A1, A2. rewrite A1 in Ed. injection Ed as <-.
    assert (dgood dc (sent_data tr) (dc_out (mg_data m)) o a (calls ++ [BlobSpec.CallProgress evicted], handles, o)
              (Shared s (mc_progress region_order table_order (mg_meta m)) c1 [])) as Hg.
    { split_and!; simpl.
      - rewrite <- (app_nil_r o). eapply dhistory_step; [exact Hh| | |done|by rewrite A2, app_nil_r].
        + simpl. intros k. by apply Hal.
        + simpl. by rewrite A1.
      - exists []. by rewrite !app_nil_r.
      - intros ev Hev. by apply elem_of_nil in Hev. }
    destruct (transactions_lift serialize sha256 base64 result_order tablet_order handle_tablets dbefore (dgood dc (sent_data tr) (dc_out (mg_data m)) o a) (dfine a) dbefore_refl dbefore_trans (dfine_mono a)
      (dstep dc (sent_data tr) (dc_out (mg_data m)) o a) (tx_order (co_transactions (mg_coordinator m)))
      _ _ (co_transactions (mg_coordinator m)) s1 txs Hg) as ([[calls' handles'] o'] & [more Hm] & (G1 & (new & G2 & G2') & G3) & F); [|exact Et|].
    { intros tx ps p Hx Hp. by eapply (di_fine _ _ _ _ _ _ DI). }
    simpl in G1, G2, G2', Hm, F. subst o'. exists handles'.
    rewrite filter_none by (intros q; simpl; tauto).
    unfold data_requests. rewrite sent_data_app. unfold sent_data at 3. simpl map. simpl concat. cbn [mg_data]. rewrite app_nil_r, G2, BlobInvariantProofs.drop_sent.
    eapply dcall_dinv; [exact I|exact DI|exact Hperf| | | |].
    + exists calls'. rewrite sent_data_app. unfold sent_data at 2. simpl. by rewrite !app_nil_r.
    + intros x Hx. rewrite Hm. apply elem_of_app. by left.
    + intros tx ps p Hx Hp. right. rewrite app_nil_r. by eapply F.
    + intros tx ev Hx. rewrite app_nil_r. apply G3. unfold handler_calls in Hx. simpl in Hx. rewrite app_nil_r in Hx.
      apply elem_of_list_In, filter_In in Hx as [Hx _]. by apply elem_of_list_In.
  - unfold mg_resolve in Hc. destruct (mc_resolve _ _ _ _) as [c| |] eqn:E; cbn [res_bind] in Hc; [|done..]. injection Hc as <- <- <-.
    apply Hq; try done. intros tx ps p Hx Hp. left. by exists ps.
  - injection Hc as <- <- <-. apply Hq; try done. intros tx ps p Hx Hp. simpl in Hx. left. destruct (decide (tx = co_counter (mg_coordinator m) + 1)) as [->|Hne].
    + rewrite lookup_insert in Hx. injection Hx as <-. by apply elem_of_nil in Hp.
    + rewrite lookup_insert_ne in Hx by done. by exists ps.
  - unfold co_process in Hc. destruct (co_transactions (mg_coordinator m) !! tx) as [[ps| |]|] eqn:Et; cbn [res_bind] in Hc; [|done..].
    injection Hc as <- <- <-. apply Hq; try done. intros tx' ps' p Hx Hp. simpl in Hx. destruct (decide (tx' = tx)) as [->|Hne].
    + rewrite lookup_insert in Hx. injection Hx as <-. apply elem_of_app in Hp as [Hp|Hp]; [left; by exists ps|].
      apply elem_of_list_singleton in Hp as ->. right. done.
    + rewrite lookup_insert_ne in Hx by done. left. by exists ps'.
  - destruct (co_pending (mg_coordinator m) tx) as [b| |]; cbn [res_bind] in Hc; [|done..]. injection Hc as <- <- <-.
    apply Hq; try done. intros tx' ps p Hx Hp. left. by exists ps.
  - destruct (co_commit tablet_order (mg_coordinator m) tx) as [c'| |] eqn:E; cbn [res_bind] in Hc; [|done..]. injection Hc as <- <- <-.
    apply co_commit_ok in E as (ps & ops & Htx & Ha & Hops & He & ->). apply Hq; try done.
    intros tx' ps' p Hx Hp. simpl in Hx. destruct (decide (tx' = tx)) as [->|Hne]; [by rewrite lookup_insert in Hx|].
    rewrite lookup_insert_ne in Hx by done. left. by exists ps'.
  - injection Hc as <- <- <-. apply Hq; try done. intros tx' ps' p Hx Hp. simpl in Hx. apply lookup_delete_Some in Hx as [_ Hx]. left. by exists ps'.
  - unfold co_check in Hc.
    destruct (co_transactions (mg_coordinator m) !! tx) as [[ps|ops|out]|] eqn:Ht; cbn [res_bind] in Hc; [done| | |done];
      injection Hc as <- <- <-; (apply Hq; try done); intros tx' ps' p Hx Hp; simpl in Hx; [|apply lookup_delete_Some in Hx as [_ Hx]]; left; by exists ps'.
  - destruct (mg_in deserialize result_order m x) as [m1| |] eqn:E; cbn [res_bind] in Hc; [|done..]. injection Hc as <- <- <-.
    destruct x as [d|n resp|n]; simpl in E.
    + destruct (dc_process deserialize (mg_data m) d) as [c1| |] eqn:Ed; simpl in E; [|done..]. injection E as <-. exists handles.
      assert (BlobSpec.perform serialize deserialize sha256 base64 entry_order (dobserved (mg_data m) (sent_data tr) handles) (BlobSpec.CallIn d)
              = Ok (dobserved c1 (sent_data tr) handles)) as Hp by (simpl; by rewrite Ed).
      assert (BlobSpec.allowed (V := V) o (BlobSpec.CallIn d)) as Hal' by done.
      pose proof (BlobSpec.history_call _ _ _ _ _ _ _ _ _ _ _ _ Hh Hal' Hp) as Hx.
      eapply dcall_dinv; [exact I|exact DI|exact Hperf| |done| |].
      * eexists. rewrite sent_data_app. unfold sent_data at 2. simpl. rewrite app_nil_r.
        unfold BlobSpec.outstanding_next, BlobSpec.answers_next, BlobSpec.sent in Hx. unfold data_requests. rewrite sent_data_app. unfold sent_data at 3. simpl.
        rewrite app_nil_r. exact Hx.
      * intros tx' ps p Hx' Hp'. left. by exists ps.
      * intros tx' ev Hx'. by apply elem_of_nil in Hx'.
    + apply Hq; try done.
      * unfold mg_tablets_response in E. destruct (match List.filter _ _ with [] => _ | _ => _ end) as [c| |]; cbn [res_bind] in E; [|done..].
        destruct (match List.filter is_exec_result _ with [] => _ | _ => _ end) as [[c' mc']| |]; cbn [res_bind] in E; [|done..]. by injection E as <-.
      * intros tx ps p Hx Hp. left. exists ps. split; [|done]. by eapply response_preparing in E; [|exact Hx].
    + destruct (mg_errors m !! n) as [resp|] eqn:En.
      2:{ injection E as <-. apply Hq; try done. intros tx' ps p Hx Hp. left. by exists ps. }
      apply Hq; try done.
      * unfold mg_tablets_response in E. destruct (match List.filter _ _ with [] => _ | _ => _ end) as [c| |]; cbn [res_bind] in E; [|done..].
        destruct (match List.filter is_exec_result _ with [] => _ | _ => _ end) as [[c' mc']| |]; cbn [res_bind] in E; [|done..]. by injection E as <-.
      * intros tx ps p Hx Hp. left. exists ps. split; [|done]. by eapply response_preparing in E; [|exact Hx].
  - unfold mg_take, co_take, mc_take, dc_take in Hc.
    destruct (record_errors _ _) as [errors| |]; cbn [res_bind] in Hc; [|done..]. injection Hc as <- <- <-. exists handles.
    set (out := map (fun x => OutOps x.1 x.2) (co_out (mg_coordinator m) ++ mc_out (mg_meta m)) ++ map OutData (dc_out (mg_data m))) in *.
    assert (sent_data [(CTake (H := H), RMessages (V := V) (H := H) out)] = dc_out (mg_data m)) as Hs.
    { unfold sent_data. cbn [map concat snd]. rewrite app_nil_r. apply omap_out_data. }
    rewrite filter_none by (intros q; simpl; tauto). unfold data_requests. rewrite sent_data_app, Hs. simpl.
    rewrite app_nil_r, drop_all.
    eapply dcall_dinv; [exact I|exact DI|exact Hperf| |done| |].
    + exists (calls ++ [BlobSpec.CallTake]). rewrite sent_data_app, Hs. rewrite app_nil_r. simpl.
      rewrite (app_nil_r a), <- (app_nil_r o). eapply dhistory_step; [exact Hh|done|done|done|]. simpl. by rewrite !app_nil_r.
    + intros tx ps p Hx Hp. left. by exists ps.
    + intros tx ev Hx. by apply elem_of_nil in Hx.
Qed.
Lemma data_runs_dinv co mc dc tables client tr m s o a : data_runs co mc dc tables client tr m s o a -> exists handles, dinv dc tr m o a handles.
Proof using tablets_in_order entries_in_order.
  induction 1 as [m Hi|tr m s o a c m' s' r Hr [handles IH] Hc Hal].
  - pose proof (init_inv co _ _ _ _ Hi) as I. unfold mg_init in Hi. destruct (mc_init _ _) as [c| |] eqn:E; simpl in Hi; [|done..].
    injection Hi as <-. exists []. constructor; simpl.
    + exists []. constructor.
    + intros tx ps p Hx. by rewrite lookup_empty in Hx.
    + intros tx ev Hx. by apply elem_of_nil in Hx.
    + intros n ops op md Hx. rewrite commit_requests_eq in Hx by apply I. by apply elem_of_nil in Hx.
  - eapply mg_call_dinv; [|exact IH|exact Hal|exact Hc]. eapply runs_inv. by eapply data_runs_runs.
Qed.
(** A handler that changed no tablet keeps the transaction from being committed. *)
Lemma data_runs_writes co mc dc tables client tr m s o a tx m' s' r : data_runs co mc dc tables client tr m s o a ->
  perform m s (CCommit tx) = Ok (m', s', r) ->
  forall ev, ev ∈ handler_calls tr tx -> exists q md c v, (q, md, c, Some v) ∈ hd_tablets ev.
Proof using tablets_in_order entries_in_order.
  intros Hr Hc ev Hev. destruct (data_runs_dinv _ _ _ _ _ _ _ _ _ _ Hr) as [handles [_ D2 _ _]].
  pose proof (runs_hinv _ _ _ _ _ _ _ _ _ _ _ tablets_in_order _ _ _ _ _ _ _ _ (data_runs_runs _ _ _ _ _ _ _ _ _ _ Hr)) as [H1 _].
  cbn [mg_call] in Hc. destruct (co_commit tablet_order (mg_coordinator m) tx) as [c'| |] eqn:E; cbn [res_bind] in Hc; [|done..]. injection Hc as <- <- <-.
  apply co_commit_ok in E as (ps & ops & Htx & Ha & Hops & He & ->).
  destruct (H1 _ _ Htx) as (es & F1 & F2 & _). rewrite <- F2 in Hev. apply elem_of_list_omap in Hev as ([ev'|] & Hin & [= ->]).
  apply elem_of_list_lookup in Hin as [j Hj]. destruct (Forall2_lookup_r _ _ _ _ _ F1 Hj) as (p & Hp & _ & Hok).
  apply elem_of_list_lookup_2 in Hp. pose proof (D2 _ _ _ Htx Hp) as Hf. unfold dfine' in Hf.
  assert (process_active p = false) as Hact.
  { unfold is_active in Ha. destruct (process_active p) eqn:Ea; [|done]. rewrite <- Ha. symmetry. apply existsb_exists. exists p.
    split; [by apply elem_of_list_In|done]. }
  unfold process_active in Hact. destruct (ps_status p); try done. destruct Hf as [_ Hf]. destruct Hok as (ev' & [= <-] & ops' & O1 & O2).
  destruct (decide (Exists (fun op => match op_kind_of op with Some (OpUpdate _) => true | _ => false end = true) ops')) as [Hx|Hx].
  - apply Exists_exists in Hx as (op & Hop & Hk). apply elem_of_list_lookup in Hop as [i Hi].
    destruct (Forall2_lookup_r _ _ _ _ _ O2 Hi) as ([[[q md] c] set] & Hy & _ & Ht). apply elem_of_list_lookup_2 in Hy.
    destruct set as [v|]; [by exists q, md, c, v|]. by rewrite Ht in Hk.
  - exfalso. apply Hf. intros k w Hk. destruct (wk_dirty w) eqn:Ed; [|done]. exfalso. apply Hx. apply Exists_exists.
    exists (working_op w). split; [|unfold working_op; simpl; by rewrite Ed]. rewrite <- O1. unfold process_ops. apply elem_of_list_omap.
    exists k. rewrite Hk. split; [|done]. apply order_elem; [done|by eexists].
Qed.
End Data.
