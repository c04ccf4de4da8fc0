(** What a transaction commits is what its handlers read and wrote. *)
From Verif Require Import Base TabletModel MetadataModel BlobModel BlobKnownProofs CoordinatorModel CoordinatorSpec CoordinatorProofs.
Local Arguments N.add : simpl never.

(** ** Changing tablets one by one *)
Section Alter.
Context {K A B : Type} `{Countable K}.
Implicit Types (l : list (K * B)) (t : gmap K A).
Lemma foldl_alter (f : B -> A -> A) l : forall t k, NoDup (map fst l) ->
  foldl (fun t x => alter (f x.2) x.1 t) t l !! k =
  match (list_to_map l : gmap K B) !! k with Some b => f b <$> t !! k | None => t !! k end.
Proof using Type.
  induction l as [|[k' b] l IH]; intros t k Hn; simpl; [by rewrite lookup_empty|].
  simpl in Hn. apply NoDup_cons in Hn as [Hx Hn]. rewrite IH by done. destruct (decide (k = k')) as [->|Hne].
  - rewrite (not_elem_of_list_to_map_1 l k') by done. by rewrite lookup_insert, lookup_alter.
  - by rewrite lookup_insert_ne, lookup_alter_ne by done.
Qed.
Lemma zip_lookup_set (keys : list K) (outs : list (option B)) : forall i k, NoDup keys -> keys !! i = Some k ->
  default None ((list_to_map (zip keys outs) : gmap K (option B)) !! k) = default None (outs !! i).
Proof using Type.
  revert outs. induction keys as [|k' keys IH]; intros outs i k Hn Hi; [done|].
  apply NoDup_cons in Hn as [Hx Hn]. destruct outs as [|o outs]; simpl.
  - rewrite lookup_empty. done.
  - destruct i as [|i]; simpl in *.
    + injection Hi as ->. by rewrite lookup_insert.
    + rewrite lookup_insert_ne; [by apply IH|]. intros ->. apply Hx. by apply elem_of_list_lookup_2 in Hi.
Qed.
End Alter.
Lemma omap_Forall2 {A B} (f : A -> option B) l : Forall (fun k => is_Some (f k)) l -> Forall2 (fun k y => f k = Some y) l (omap f l).
Proof. induction 1 as [|k l [y Hy] _ IH]; simpl; [constructor|]. rewrite Hy. by constructor. Qed.
Lemma omap_perm {A B} (f : A -> option B) l k : l ≡ₚ k -> omap f l ≡ₚ omap f k.
Proof. by intros ->. Qed.
Lemma omap_fst_sub {A B} (f : A -> option (A * B)) l : (forall k y, f k = Some y -> y.1 = k) -> NoDup l -> NoDup (map fst (omap f l)).
Proof.
  intros Hf. induction 1 as [|k l Hk _ IH]; simpl; [constructor|]. destruct (f k) as [y|] eqn:E; simpl; [|exact IH].
  constructor; [|exact IH]. intros Hx. apply elem_of_list_fmap in Hx as (z & Hz & Hx). apply elem_of_list_omap in Hx as (k' & Hk' & Hx).
  apply Hf in Hx. apply Hf in E. congruence.
Qed.

Section Handlers.
Context {V H S : Type}.
Variable serialize : V -> option bytes.
Variable deserialize : bytes -> option V.
Variable sha256 : bytes -> bytes.
Variable base64 : bytes -> string.
Variable entry_order : gmap string (entry V) -> list (string * entry V).
Variable result_order : gmap (string * N) resolve_result -> list resolve_result.
Variable region_order : gmap N region -> list (N * region).
Variable table_order : gmap string table_cache -> list (string * table_cache).
Variable tablet_order : gmap (N * N) (working V) -> list (N * N).
Variable tx_order : gmap N (tx_state V H) -> list N.
Variable handle_tablets : S -> H -> N -> list (table_query * tablet_metadata * option V) ->
  res unit (S * list (option V)).
Notation perform := (mg_call serialize deserialize sha256 base64 entry_order result_order region_order table_order
                       tablet_order tx_order handle_tablets).
Notation runs := (runs serialize deserialize sha256 base64 entry_order result_order region_order table_order
                       tablet_order tx_order handle_tablets).
Notation process_progress := (process_progress serialize sha256 base64 result_order tablet_order handle_tablets).
Notation preparing_progress := (preparing_progress serialize sha256 base64 result_order tablet_order handle_tablets).
Notation transactions_progress := (transactions_progress serialize sha256 base64 result_order tablet_order handle_tablets).
Notation trace := (list (call (H := H) * reply (V := V) (H := H))).
Notation tablet_operation := (tablet_operation serialize sha256 base64).

Definition clean (t : gmap (N * N) (working V)) : Prop :=
  forall k w, t !! k = Some w -> k = tablet_key (wk_meta w) /\ wk_updated w = None /\ wk_dirty w = false.

Lemma track_clean l : forall t, clean t -> clean (foldl track_resolved t l).
Proof using Type.
  induction l as [|[q m] l IH]; intros t Ht; simpl; [done|]. apply IH. intros k w. unfold track_resolved. simpl.
  destruct (decide (k = tablet_key m)) as [->|Hne].
  - rewrite lookup_insert. by intros [= <-].
  - rewrite lookup_insert_ne by done. apply Ht.
Qed.
Lemma init_clean l : forall t t', clean t -> init_loaded t l = Ok t' -> clean t'.
Proof using Type.
  induction l as [|[m v] l IH]; intros t t' Ht; simpl; [by intros [= <-]|].
  destruct (t !! tablet_key m) as [w|] eqn:E; simpl; [|done]. apply IH. intros k w'.
  destruct (decide (k = tablet_key m)) as [->|Hne].
  - rewrite lookup_insert. intros [= <-]. destruct (Ht _ _ E) as (? & ? & ?). by split_and!.
  - rewrite lookup_insert_ne by done. apply Ht.
Qed.

Hypothesis tablets_in_order : keys_order tablet_order.
Lemma order_nodup t : NoDup (tablet_order t).
Proof using tablets_in_order. rewrite (tablets_in_order t). apply NoDup_fst_map_to_list. Qed.
Lemma order_elem t k : k ∈ tablet_order t <-> is_Some (t !! k).
Proof using tablets_in_order.
  rewrite (tablets_in_order t). rewrite elem_of_list_fmap. split.
  - intros ([k' w] & -> & Hx). apply elem_of_map_to_list in Hx. by exists w.
  - intros [w Hw]. exists (k, w). split; [done|]. by apply elem_of_map_to_list.
Qed.
Lemma order_same t t' : (forall k, is_Some (t !! k) <-> is_Some (t' !! k)) -> tablet_order t ≡ₚ tablet_order t'.
Proof using tablets_in_order.
  intros Hs. apply NoDup_Permutation; [apply order_nodup..|]. intros k. by rewrite !order_elem.
Qed.

(** The tablets after the handler was called and the changed ones were given to
    the data cache, and the operations they stand for. *)
Lemma handled_ops t t2 t4 outs writes dc dc' ms i p :
  clean t -> t2 = set_tablets_contents t (tablet_order t) outs -> writes = tablet_writes t2 (tablet_order t2) ->
  store_tablets serialize sha256 base64 dc (map snd writes) = Ok (dc', ms, HandleBatch i) ->
  t4 = foldl move_tablet (working_taken <$> t2) (zip (map fst writes) ms) ->
  ps_tablets p = t4 ->
  let input := handler_input t (tablet_order t) in
  exists ops, process_ops (H := H) tablet_order p ≡ₚ ops /\
    Forall2 tablet_operation (zip input (outs ++ replicate (length input) None)) ops.
Proof using tablets_in_order.
  intros Hcl H2 Hw Hst H4 Hp input. set (keys := tablet_order t) in *.
  assert (NoDup keys) as Hnd by apply order_nodup.
  pose (set_of k := default None ((list_to_map (zip keys outs) : gmap (N * N) (option V)) !! k)).
  assert (NoDup (map fst (zip keys outs))) as Hndz.
  { assert (exists n, map fst (zip keys outs) = take n keys) as [n ->].
    { clear. revert outs. induction keys as [|k keys IH]; intros [|o outs]; simpl; [by exists 0%nat..|].
      destruct (IH outs) as [n Hn]. exists (Datatypes.S n). simpl. by rewrite Hn. }
    rewrite <- (take_drop n keys) in Hnd. by apply NoDup_app in Hnd as (? & _). }
  assert (forall k, t2 !! k = (fun w => working_set w (set_of k)) <$> t !! k) as Ht2.
  { intros k. rewrite H2. unfold set_tablets_contents, set_tablet.
    rewrite (foldl_alter (fun o w => working_set w o) (zip keys outs)) by done.
    unfold set_of. destruct ((list_to_map (zip keys outs) : gmap (N * N) (option V)) !! k) as [o|]; simpl; [done|]. by destruct (t !! k). }
  assert (forall k, is_Some (t2 !! k) <-> is_Some (t !! k)) as Hd2 by (intros k; by rewrite Ht2, fmap_is_Some).
  assert (forall k w, t !! k = Some w -> wk_updated (working_set w (set_of k)) = set_of k /\ wk_meta (working_set w (set_of k)) = wk_meta w /\
    wk_query (working_set w (set_of k)) = wk_query w /\ wk_dirty (working_set w (set_of k)) = bool_decide (is_Some (set_of k))) as Hset.
  { intros k w Hk. destruct (Hcl _ _ Hk) as (_ & Hu & Hdi). by destruct (set_of k); simpl. }
  assert (NoDup (map fst writes)) as Hndw.
  { rewrite Hw. unfold tablet_writes.
    apply omap_fst_sub; [|apply order_nodup]. intros k y. destruct (t2 !! k) as [w|]; simpl; [|done].
    destruct (wk_updated w); simpl; [by intros [= <-]|done]. }
  assert (forall k m v, (k, (m, v)) ∈ writes <-> exists w, t !! k = Some w /\ m = wk_meta w /\ set_of k = Some v) as Hwr.
  { intros k m v. rewrite Hw. unfold tablet_writes. rewrite elem_of_list_omap. split.
    - intros (k' & Hk' & Hx). rewrite Ht2 in Hx. destruct (t !! k') as [w|] eqn:Ek; simpl in Hx; [|done].
      destruct (Hset _ _ Ek) as (E1 & E2 & _). rewrite E1 in Hx. destruct (set_of k') as [v'|] eqn:Es; simpl in Hx; [|done].
      injection Hx as <- <- <-. exists w. split_and!; [done|by destruct (Hcl _ _ Ek) as (_ & _ & _)|done].
    - intros (w & Hk & -> & Hs). exists k. destruct (Hset _ _ Hk) as (E1 & E2 & _). split.
      + apply order_elem. rewrite Ht2, Hk. by eexists.
      + rewrite Ht2, Hk. simpl. rewrite E1. rewrite Hs in E2 |- *. simpl. by rewrite <- E2. }
  assert (Forall2 (fun x m => exists contents, serialize x.2 = Some contents /\
      m = TabletMetadata (tm_id x.1) (tm_version x.1 + 1) (tm_deleted x.1) (tm_key x.1) (Nlen contents mod 2 ^ 32)
            (sha256 contents) (blob_uri base64 (tm_id x.1) (tm_version x.1 + 1) (sha256 contents))) (map snd writes) ms) as Hms.
  { unfold store_tablets in Hst. destruct (BlobModel.prepare_all serialize sha256 base64 (map snd writes)) as [[ms' [cs|]]| |] eqn:E; cbn [res_bind] in Hst; try done.
    destruct (store_entries _ _) as [c1| |]; cbn [res_bind] in Hst; [|done..].
    destruct (start_batch _ _ _) as [[c2 h]| |]; cbn [res_bind] in Hst; [|done..]. injection Hst as _ <- _.
    apply prepare_all_written in E. eapply Forall2_impl; [exact E|].
    intros x m (c & Hc & A1 & A2 & A3 & A4 & A5 & A6 & A7). exists c. split; [done|]. destruct m; simpl in *; congruence. }
  assert (length ms = length writes) as Hlen by (apply Forall2_length in Hms; rewrite map_length in Hms; done).
  assert (map fst (zip (map fst writes) ms) = map fst writes) as Hfz by (apply fst_zip; rewrite map_length; lia).
  assert (NoDup (map fst (zip (map fst writes) ms))) as Hnz by by rewrite Hfz.
  assert (forall k w, t !! k = Some w -> exists w', t4 !! k = Some w' /\ forall c,
    tablet_operation (wk_query w, wk_meta w, c, set_of k) (working_op w')) as Ht4.
  { intros k w Hk. destruct (Hset _ _ Hk) as (E1 & E2 & E3 & E4).
    rewrite H4. unfold move_tablet. rewrite (foldl_alter (fun m w => working_moved w m)) by by rewrite Hfz.
    rewrite lookup_fmap, Ht2, Hk. simpl.
    destruct (set_of k) as [v|] eqn:Es.
    - assert ((k, (wk_meta w, v)) ∈ writes) as Hin by (apply Hwr; by exists w).
      apply elem_of_list_lookup in Hin as [j Hj].
      assert (map snd writes !! j = Some (wk_meta w, v)) as Hj2 by (rewrite list_lookup_fmap, Hj; done).
      destruct (Forall2_lookup_l _ _ _ _ _ Hms Hj2) as (m' & Hm' & contents & Hc & Hm'').
      assert ((list_to_map (zip (map fst writes) ms) : gmap (N * N) tablet_metadata) !! k = Some m') as Hl.
      { apply elem_of_list_to_map_1; [exact Hnz|]. apply elem_of_list_lookup. exists j.
        apply lookup_zip_with_Some. exists k, m'. split_and!; [done| |done]. by rewrite list_lookup_fmap, Hj. }
      rewrite Hl. simpl. eexists. split; [done|]. intros c. split; [done|]. exists contents. split; [done|]. simpl. by rewrite Hm''.
    - rewrite not_elem_of_list_to_map_1.
      + eexists. split; [done|]. intros c. simpl. destruct (Hcl _ _ Hk) as (_ & _ & Hdi). split; [done|]. by rewrite Hdi.
      + intros Hx. change (k ∈ map fst (zip (map fst writes) ms)) in Hx. rewrite Hfz in Hx. apply elem_of_list_fmap in Hx as ([k' [m v]] & Hk' & Hx). simpl in Hk'. subst k'.
        apply Hwr in Hx as (w' & _ & _ & Hx). congruence. }
  assert (forall k, is_Some (t !! k) <-> is_Some (t4 !! k)) as Hd4.
  { intros k. split.
    - intros [w Hk]. destruct (Ht4 _ _ Hk) as (w' & Hw' & _). by exists w'.
    - rewrite H4. unfold move_tablet. rewrite (foldl_alter (fun m w => working_moved w m)) by by rewrite Hfz.
      rewrite lookup_fmap. intros Hx. apply Hd2. destruct (t2 !! k); [by eexists|]. simpl in Hx. destruct ((list_to_map (zip (map fst writes) ms) : gmap (N * N) tablet_metadata) !! k); by destruct Hx. }
  exists (omap (fun k => working_op <$> t4 !! k) keys). split.
  { unfold process_ops. rewrite Hp. apply omap_perm. symmetry. by apply order_same. }
  assert (Forall2 (fun k y => (fun w => (wk_query w, wk_meta w, wk_contents w)) <$> t !! k = Some y) keys input) as Hin.
  { apply omap_Forall2. apply Forall_forall. intros k Hk. apply order_elem in Hk as [w Hk]. rewrite Hk. by eexists. }
  assert (Forall2 (fun k y => working_op <$> t4 !! k = Some y) keys (omap (fun k => working_op <$> t4 !! k) keys)) as Hops.
  { apply omap_Forall2. apply Forall_forall. intros k Hk. apply order_elem, Hd4 in Hk as [w Hk]. rewrite Hk. by eexists. }
  pose proof (Forall2_length _ _ _ Hin) as L1. pose proof (Forall2_length _ _ _ Hops) as L2.
  apply Forall2_same_length_lookup. split.
  { rewrite zip_with_length, app_length, replicate_length. lia. }
  intros j x op Hx Hop. apply lookup_zip_with_Some in Hx as (y & o & -> & Hy & Ho).
  destruct (Forall2_lookup_r _ _ _ _ _ Hin Hy) as (k & Hk & Hky).
  destruct (t !! k) as [w|] eqn:Ek; simpl in Hky; [|done]. injection Hky as <-.
  destruct (Ht4 _ _ Ek) as (w' & Hw' & Hto).
  assert (o = set_of k) as ->.
  { unfold set_of. rewrite (zip_lookup_set keys outs j k Hnd Hk). apply lookup_app_Some in Ho as [Ho|[Ho Ho']].
    - by rewrite Ho.
    - rewrite lookup_ge_None_2 by done. simpl. by apply lookup_replicate in Ho' as [-> _]. }
  destruct (Forall2_lookup_l _ _ _ _ _ Hops Hk) as (op' & Hop' & Hf). rewrite Hop' in Hop. injection Hop as <-. simpl in Hf. rewrite Hw' in Hf. simpl in Hf. injection Hf as <-. apply Hto.
Qed.

(** ** The processes of a transaction and the calls of their handlers *)
Definition ops_of (p : process V H) (ev : handled V H) : Prop :=
  exists ops, process_ops tablet_order p ≡ₚ ops /\ Forall2 tablet_operation (hd_tablets ev) ops.
Definition proc_ok (p : process V H) (e : option (handled V H)) : Prop :=
  (forall ev, e = Some ev -> hd_handler ev = ps_handler p) /\
  match ps_status p with
  | PsPending _ | PsResolving _ => e = None /\ ps_tablets p = ∅
  | PsLoading _ => e = None /\ clean (ps_tablets p)
  | PsStoring (HandleBatch _) | PsCompleted => exists ev, e = Some ev /\ ops_of p ev
  | PsStoring HandleFailed | PsFailed => True
  end.

Lemma process_step tx s p s' p' e : process_progress tx s p = Ok (s', p') -> proc_ok p e ->
  exists e' evs, sh_handled s' = sh_handled s ++ evs /\ Forall (fun h => hd_tx h = tx) evs /\
    ps_handler p' = ps_handler p /\ proc_ok p' e' /\
    (evs = [] /\ e' = e \/ exists ev, e = None /\ evs = [ev] /\ e' = Some ev).
Proof using tablets_in_order.
  intros Hp [Hh Hok]. unfold CoordinatorModel.process_progress in Hp.
  assert (forall s' p', Ok (s, p) = Ok (E := unit) (s', p') -> exists e' evs, sh_handled s' = sh_handled s ++ evs /\ Forall (fun h => hd_tx h = tx) evs /\
    ps_handler p' = ps_handler p /\ proc_ok p' e' /\
    (evs = [] /\ e' = e \/ exists ev, e = None /\ evs = [ev] /\ e' = Some ev)) as Hsame.
  { intros s1 p1 [= <- <-]. exists e, []. rewrite app_nil_r. split_and!; [done|constructor|done|by split|by left]. }
  assert (forall st s' p', (proc_ok p e -> proc_ok (Process st (ps_handler p) (ps_tablets p)) e) ->
    Ok (s, Process st (ps_handler p) (ps_tablets p)) = Ok (E := unit) (s', p') -> exists e' evs, sh_handled s' = sh_handled s ++ evs /\ Forall (fun h => hd_tx h = tx) evs /\
    ps_handler p' = ps_handler p /\ proc_ok p' e' /\
    (evs = [] /\ e' = e \/ exists ev, e = None /\ evs = [ev] /\ e' = Some ev)) as Hstatus.
  { intros st s1 p1 Hst [= <- <-]. exists e, []. rewrite app_nil_r. split_and!; [done|constructor|done|apply Hst; by split|by left]. }
  destruct (ps_status p) as [qs|n|h|h| |] eqn:Est; [| | | |by apply Hsame|by apply Hsame].
  - destruct (mc_resolve _ _ _ _) as [mc| |]; cbn [res_bind] in Hp; [|done..]. injection Hp as <- <-. exists e, []. rewrite app_nil_r.
    split_and!; [done|constructor|done|by split|by left].
  - destruct (resolve_outcome _ _) as [values|]; [|by apply Hsame].
    destruct (load_tablets _ _) as [[dc h]| |]; cbn [res_bind] in Hp; [|done..]. injection Hp as <- <-. exists e, []. rewrite app_nil_r.
    split_and!; [done|constructor|done| |by left]. split; [done|]. simpl. destruct Hok as [He Ht]. split; [done|]. rewrite Ht.
    apply track_clean. intros k w Hk. by rewrite lookup_empty in Hk.
  - destruct (check_result _ _) as [[values| |]|]; [|eapply Hstatus; [|exact Hp]; by intros [? _].. |by apply Hsame].
    destruct Hok as [-> Hcl].
    destruct (init_loaded _ _) as [t| |] eqn:Ei; cbn [res_bind] in Hp; [|done..]. apply init_clean in Ei; [|done].
    destruct (handle_tablets _ _ _ _) as [[cl outs]| |]; cbn [res_bind] in Hp; [|done..].
    destruct (store_tablets _ _ _ _ _) as [[[dc ms] h']| |] eqn:Est'; cbn [res_bind] in Hp; [|done..]. injection Hp as <- <-.
    set (ev := Handled tx (ps_handler p) _). exists (Some ev), [ev].
    split_and!; [done|by constructor|done| |right; by exists ev]. split; [by intros ? [= <-]|]. simpl.
    destruct h' as [i|]; [|done]. exists ev. split; [done|].
    eapply handled_ops; [exact Ei|done|done|exact Est'|done|done].
  - destruct h as [i|]; simpl in Hp.
    + destruct (dc_results (sh_data s) !! i) as [[values| |]|]; [| | |by apply Hsame]; (eapply Hstatus; [|exact Hp]; intros _; split; [done|]); done.
    + eapply Hstatus; [|exact Hp]. by intros [? _].
Qed.

Lemma preparing_step tx ps : forall s s' ps' es, preparing_progress tx s ps = Ok (s', ps') -> Forall2 proc_ok ps es ->
  exists es' evs, sh_handled s' = sh_handled s ++ evs /\ Forall (fun h => hd_tx h = tx) evs /\
    map ps_handler ps' = map ps_handler ps /\ Forall2 proc_ok ps' es' /\ omap id es' ≡ₚ omap id es ++ evs.
Proof using tablets_in_order.
  induction ps as [|p ps IH]; intros s s' ps' es Hp Hf; cbn [CoordinatorModel.preparing_progress] in Hp.
  - injection Hp as <- <-. apply Forall2_nil_inv_l in Hf as ->. exists [], []. rewrite app_nil_r. by split_and!.
  - apply Forall2_cons_inv_l in Hf as (e & es1 & He & Hf & ->).
    destruct (process_progress tx s p) as [[s1 p1]| |] eqn:E; cbn [res_bind] in Hp; [|done..].
    destruct (preparing_progress tx s1 ps) as [[s2 ps2]| |] eqn:E2; cbn [res_bind] in Hp; [|done..]. injection Hp as <- <-.
    destruct (process_step _ _ _ _ _ _ E He) as (e' & evs & H1 & H2 & H3 & H4 & H5).
    destruct (IH _ _ _ _ E2 Hf) as (es' & evs' & J1 & J2 & J3 & J4 & J5).
    exists (e' :: es'), (evs ++ evs'). split_and!.
    + by rewrite J1, H1, app_assoc.
    + by apply Forall_app.
    + simpl. by rewrite H3, J3.
    + by constructor.
    + destruct H5 as [[-> ->]|(ev & -> & -> & ->)].
      * simpl. destruct e as [x|]; simpl; [by constructor|exact J5].
      * simpl. rewrite J5. apply Permutation_middle.
Qed.

Definition of_tx (tx : N) (l : list (handled V H)) : list (handled V H) := List.filter (fun h => hd_tx h =? tx) l.
Definition txs_ok (base : N -> list (handled V H)) (procs : N -> list H) (hs : list (handled V H)) (txs : gmap N (tx_state V H)) : Prop :=
  (forall tx ps, txs !! tx = Some (TxPreparing ps) -> exists es, Forall2 proc_ok ps es /\
    omap id es ≡ₚ base tx ++ of_tx tx hs /\ map ps_handler ps = procs tx) /\
  Forall (fun h => is_Some (txs !! hd_tx h)) hs.
Lemma of_tx_all tx l : Forall (fun h => hd_tx h = tx) l -> of_tx tx l = l.
Proof using Type.
  induction 1 as [|h l Hh _ IH]; [done|]. unfold of_tx. simpl. rewrite Hh, N.eqb_refl. by f_equal.
Qed.
Lemma of_tx_none tx tx' l : tx <> tx' -> Forall (fun h => hd_tx h = tx) l -> of_tx tx' l = [].
Proof using Type.
  intros Hne. induction 1 as [|h l Hh _ IH]; [done|]. unfold of_tx. simpl. rewrite Hh. apply N.eqb_neq in Hne. by rewrite Hne.
Qed.
Lemma of_tx_app tx l k : of_tx tx (l ++ k) = of_tx tx l ++ of_tx tx k.
Proof using Type. apply List.filter_app. Qed.
Lemma transactions_step base procs ids : forall s txs s' txs', transactions_progress s txs ids = Ok (s', txs') ->
  txs_ok base procs (sh_handled s) txs -> txs_ok base procs (sh_handled s') txs'.
Proof using tablets_in_order.
  induction ids as [|i ids IH]; intros s txs s' txs'; cbn [CoordinatorModel.transactions_progress]; [by intros [= <- <-]|].
  destruct (txs !! i) as [[ps| |]|] eqn:Ei; [|by apply IH..].
  destruct (preparing_progress i s ps) as [[s1 ps1]| |] eqn:E; cbn [res_bind]; [|done..].
  intros Ht [Hok Hk]. apply (IH _ _ _ _ Ht). destruct (Hok _ _ Ei) as (es & F1 & F2 & F3).
  destruct (preparing_step _ _ _ _ _ _ E F1) as (es' & evs & J1 & J2 & J3 & J4 & J5). split.
  - intros tx ps' Hx. rewrite J1, of_tx_app. destruct (decide (tx = i)) as [->|Hne].
    + rewrite lookup_insert in Hx. injection Hx as <-. exists es'. split_and!; [done| |congruence].
      rewrite (of_tx_all _ _ J2), J5, F2. by rewrite app_assoc.
    + rewrite lookup_insert_ne in Hx by done. destruct (Hok _ _ Hx) as (es2 & G1 & G2 & G3). exists es2. split_and!; [done| |done].
      rewrite (of_tx_none i tx evs); [|by intros ->|done]. by rewrite app_nil_r.
  - rewrite J1. apply Forall_app. split.
    + eapply Forall_impl; [exact Hk|]. intros h Hh. destruct (decide (hd_tx h = i)) as [->|Hne]; [by rewrite lookup_insert|by rewrite lookup_insert_ne].
    + eapply Forall_impl; [exact J2|]. intros h ->. by rewrite lookup_insert.
Qed.

(** ** Histories *)
Lemma handler_calls_app (a b : trace) tx : handler_calls (a ++ b) tx = handler_calls a tx ++ handler_calls b tx.
Proof using Type. unfold handler_calls. by rewrite map_app, concat_app. Qed.
Lemma processing_app (a b : trace) tx : processing (a ++ b) tx = processing a tx ++ processing b tx.
Proof using Type. unfold processing. apply omap_app. Qed.

Record hinv (tr : trace) (m : manager V H) : Prop := {
  h_ok : forall tx ps, co_transactions (mg_coordinator m) !! tx = Some (TxPreparing ps) -> exists es, Forall2 proc_ok ps es /\
    omap id es ≡ₚ handler_calls tr tx /\ map ps_handler ps = map snd (processing tr tx);
  h_new : forall tx, tx ∉ started tr -> handler_calls tr tx = [] /\ processing tr tx = [];
}.
Lemma hinv_same tr m m' c r : hinv tr m ->
  (forall tx ps, co_transactions (mg_coordinator m') !! tx = Some (TxPreparing ps) -> co_transactions (mg_coordinator m) !! tx = Some (TxPreparing ps)) ->
  (forall tx, handler_calls [(c, r)] tx = []) -> (forall tx, processing [(c, r)] tx = []) ->
  hinv (tr ++ [(c, r)]) m'.
Proof using Type.
  intros [H1 H2] Htx Hh Hp. constructor.
  - intros tx ps Hx. rewrite handler_calls_app, processing_app, Hh, Hp, !app_nil_r. by apply H1, Htx.
  - intros tx Hx. rewrite handler_calls_app, processing_app, Hh, Hp, !app_nil_r. apply H2. intros Hy. apply Hx.
    rewrite started_app. apply elem_of_app. by left.
Qed.
Lemma response_preparing (m m' : manager V H) n r tx ps : mg_tablets_response result_order m n r = Ok m' ->
  co_transactions (mg_coordinator m') !! tx = Some (TxPreparing ps) -> co_transactions (mg_coordinator m) !! tx = Some (TxPreparing ps).
Proof using Type.
  intros Hr. apply tablets_response_cases in Hr as (_ & _ & _ & _ & _ & _ & _ & [->|(tx' & ops & o & upd & _ & _ & _ & _ & ->)]); [done|].
  destruct (decide (tx = tx')) as [->|Hne]; [by rewrite lookup_insert|by rewrite lookup_insert_ne].
Qed.

Lemma mg_call_hinv co tr m s c m' s' r : inv co tr m -> hinv tr m -> perform m s c = Ok (m', s', r) -> hinv (tr ++ [(c, r)]) m'.
Proof using tablets_in_order.
  intros I HI Hc. destruct c as [evicted|queries| |tx queries h|tx|tx|tx|tx|x|]; cbn [mg_call] in Hc.
  - unfold mg_progress in Hc. destruct (dc_progress entry_order (mg_data m) evicted) as [dc| |]; cbn [res_bind] in Hc; [|done..].
    unfold co_progress in Hc.
    destruct (transactions_progress _ _ _) as [[s1 txs]| |] eqn:Et; cbn [res_bind] in Hc; [|done..]. injection Hc as <- <- <-.
    pose proof (transactions_progress_txs _ _ _ _ _ _ _ _ _ _ _ Et) as Hsame. simpl in Hsame.
    apply (transactions_step (handler_calls tr) (fun tx => map snd (processing tr tx))) in Et as [T1 T2].
    + assert (forall tx, handler_calls [(CProgress (H := H) evicted, RHandled (sh_handled s1))] tx = of_tx tx (sh_handled s1)) as Hev
        by (intros tx; unfold handler_calls; simpl; by rewrite app_nil_r).
      constructor.
      * intros tx ps Hx. rewrite handler_calls_app, processing_app, Hev. simpl. rewrite app_nil_r. by apply T1.
      * intros tx Hx. rewrite started_app in Hx. rewrite handler_calls_app, processing_app, Hev. simpl. rewrite app_nil_r.
        destruct (h_new _ _ HI tx) as [-> ->]; [intros Hy; apply Hx, elem_of_app; by left|]. split; [|done]. simpl.
        apply filter_all_false. eapply Forall_impl; [exact T2|]. intros h [t Ht]. apply N.eqb_neq. intros He. apply Hx, elem_of_app. left.
        specialize (Hsame (hd_tx h)). rewrite Ht in Hsame. rewrite <- He.
        destruct (co_transactions (mg_coordinator m) !! hd_tx h) as [t0|] eqn:E0; [by eapply i_known|done].
    + split; simpl; [|constructor]. intros tx ps Hx. unfold of_tx. simpl. rewrite app_nil_r. by apply HI.
  - unfold mg_resolve in Hc. destruct (mc_resolve _ _ _ _) as [mc| |]; cbn [res_bind] in Hc; [|done..]. injection Hc as <- <- <-. by eapply hinv_same.
  - injection Hc as <- <- <-. set (i := co_counter (mg_coordinator m) + 1).
    assert (i ∉ started tr) as Hi by (intros Hi; pose proof (i_started _ _ _ I _ Hi); lia).
    constructor.
    + intros tx ps Hx. simpl in Hx. rewrite handler_calls_app, processing_app. simpl. rewrite !app_nil_r. destruct (decide (tx = i)) as [->|Hne].
      * fold i in Hx. rewrite lookup_insert in Hx. injection Hx as <-. destruct (h_new _ _ HI _ Hi) as [-> ->]. exists []. split_and!; [constructor|done|done].
      * fold i in Hx. rewrite lookup_insert_ne in Hx by done. by apply HI.
    + intros tx Hx. rewrite handler_calls_app, processing_app. simpl. rewrite !app_nil_r. apply HI. intros Hy. apply Hx.
      rewrite started_app. apply elem_of_app. by left.
  - unfold co_process in Hc. destruct (co_transactions (mg_coordinator m) !! tx) as [[ps| |]|] eqn:Et; cbn [res_bind] in Hc; [|done..]. injection Hc as <- <- <-.
    assert (forall tx', processing (V := V) [(CProcess tx queries h, RNone)] tx' = if decide (tx = tx') then [(queries, h)] else []) as Hproc.
    { intros tx'. unfold processing. simpl. by destruct (decide (tx = tx')). }
    constructor.
    + intros tx' ps' Hx. simpl in Hx. rewrite handler_calls_app, processing_app, Hproc. simpl. rewrite app_nil_r. destruct (decide (tx = tx')) as [<-|Hne].
      * rewrite lookup_insert in Hx. injection Hx as <-. destruct (h_ok _ _ HI _ _ Et) as (es & F1 & F2 & F3).
        exists (es ++ [None]). split_and!.
        -- apply Forall2_app; [done|]. repeat constructor. intros ev Hev. done.
        -- rewrite omap_app. simpl. by rewrite app_nil_r.
        -- rewrite !map_app, F3. done.
      * rewrite lookup_insert_ne in Hx by done. rewrite app_nil_r. by apply HI.
    + intros tx' Hx. rewrite started_app in Hx. rewrite handler_calls_app, processing_app, Hproc. simpl. rewrite app_nil_r.
      rewrite decide_False; [rewrite app_nil_r; apply HI; intros Hy; apply Hx, elem_of_app; by left|].
      intros <-. apply Hx, elem_of_app. left. by eapply i_known.
  - destruct (co_pending (mg_coordinator m) tx) as [b| |]; cbn [res_bind] in Hc; [|done..]. injection Hc as <- <- <-. by eapply hinv_same.
  - destruct (co_commit tablet_order (mg_coordinator m) tx) as [c'| |] eqn:E; cbn [res_bind] in Hc; [|done..]. injection Hc as <- <- <-.
    apply co_commit_ok in E as (ps & ops & Htx & Ha & Hops & He & ->). eapply hinv_same; [done| |done|done]. intros tx' ps' Hx. simpl in Hx.
    destruct (decide (tx' = tx)) as [->|Hne]; [by rewrite lookup_insert in Hx|by rewrite lookup_insert_ne in Hx].
  - injection Hc as <- <- <-. eapply hinv_same; [done| |done|done]. intros tx' ps' Hx. simpl in Hx. by apply lookup_delete_Some in Hx as [_ ?].
  - unfold co_check in Hc. destruct (co_transactions (mg_coordinator m) !! tx) as [[ps|ops|out]|] eqn:Ht; cbn [res_bind] in Hc; [done| | |done];
      injection Hc as <- <- <-; (eapply hinv_same; [done| |done|done]); [done|]. intros tx' ps' Hx. simpl in Hx. by apply lookup_delete_Some in Hx as [_ ?].
  - destruct (mg_in deserialize result_order m x) as [m1| |] eqn:E; cbn [res_bind] in Hc; [|done..]. injection Hc as <- <- <-.
    eapply hinv_same; [done| |done|done]. intros tx' ps' Hx. destruct x as [d|n resp|n]; simpl in E.
    + destruct (dc_process deserialize (mg_data m) d); simpl in E; [|done..]. by injection E as <-.
    + by eapply response_preparing in E; [|exact Hx].
    + destruct (mg_errors m !! n); [|by injection E as <-]. by eapply response_preparing in E; [|exact Hx].
  - destruct (mg_take m) as [[m1 l]| |] eqn:E; cbn [res_bind] in Hc; [|done..]. injection Hc as <- <- <-.
    eapply hinv_same; [done| |done|done]. intros tx' ps' Hx. unfold mg_take in E. simpl in E.
    destruct (record_errors _ _) as [errors| |]; simpl in E; [|done..]. injection E as <- <-. done.
Qed.
Lemma runs_hinv co mc dc tables client tr m s : runs co mc dc tables client tr m s -> hinv tr m.
Proof using tablets_in_order.
  induction 1 as [m Hi|tr m s c m' s' r Hr IH Hc].
  - unfold mg_init in Hi. destruct (mc_init _ _) as [c| |]; simpl in Hi; [|done..]. injection Hi as <-. constructor; [|done].
    intros tx ps Hx. simpl in Hx. by rewrite lookup_empty in Hx.
  - eapply mg_call_hinv; [by eapply runs_inv|done|done].
Qed.

(** ** The request of a commit *)
Lemma completed_ops ps es : is_active ps = false -> Forall2 proc_ok ps es ->
  exists ops, concat (map (process_ops tablet_order) ps) ≡ₚ ops /\
    Forall2 tablet_operation (concat (map hd_tablets (omap id es))) ops /\ map hd_handler (omap id es) = map ps_handler ps.
Proof using Type.
  intros Ha. induction 1 as [|p e ps es [Hh Hp] _ IH]; simpl; [exists []; split_and!; constructor|].
  unfold is_active in Ha. simpl in Ha. apply orb_false_iff in Ha as [Ha1 Ha2]. destruct (IH Ha2) as (ops & O1 & O2 & O3).
  unfold process_active in Ha1. destruct (ps_status p); try done. destruct Hp as (ev & -> & ops' & O1' & O2').
  exists (ops' ++ ops). simpl. split_and!.
  - by rewrite O1, O1'.
  - by apply Forall2_app.
  - f_equal; [by apply Hh|exact O3].
Qed.
Lemma Forall2_concat_perm (l k : list (handled V H)) (ops : list tablet_op) : l ≡ₚ k ->
  Forall2 tablet_operation (concat (map hd_tablets l)) ops -> exists ops', ops ≡ₚ ops' /\ Forall2 tablet_operation (concat (map hd_tablets k)) ops'.
Proof using Type.
  intros Hp Hf. assert (concat (map hd_tablets l) ≡ₚ concat (map hd_tablets k)) as Hc.
  { clear Hf. induction Hp as [|x l k _ IH|x y l|l1 l2 l3 _ IH1 _ IH2]; simpl; [done|by rewrite IH| |by rewrite IH1].
    rewrite !app_assoc. f_equiv. apply Permutation_app_comm. }
  destruct (Permutation_Forall2 Hc Hf) as (ops' & Ho & Hf'). by exists ops'.
Qed.

Lemma co_out_step m s c m' s' r : perform m s c = Ok (m', s', r) ->
  (c = CTake /\ co_out (mg_coordinator m') = [] /\ sent_ops [(c, r)] = co_out (mg_coordinator m) ++ mc_out (mg_meta m)) \/
  (sent_ops [(c, r)] = [] /\ exists l, co_out (mg_coordinator m') = co_out (mg_coordinator m) ++ l /\
    (l = [] \/ exists tx ps n, c = CCommit tx /\ co_transactions (mg_coordinator m) !! tx = Some (TxPreparing ps) /\ is_active ps = false /\
       l = [(n, concat (map (process_ops tablet_order) ps))])).
Proof using Type.
  intros Hc. destruct c as [evicted|queries| |tx queries h|tx|tx|tx|tx|x|]; cbn [mg_call] in Hc.
  - unfold mg_progress in Hc. destruct (dc_progress entry_order (mg_data m) evicted) as [dc| |]; cbn [res_bind] in Hc; [|done..].
    unfold co_progress in Hc.
    destruct (transactions_progress _ _ _) as [[s1 txs]| |]; cbn [res_bind] in Hc; [|done..]. injection Hc as <- <- <-.
    right. split; [done|]. exists []. rewrite app_nil_r. split; [done|by left].
  - unfold mg_resolve in Hc. destruct (mc_resolve _ _ _ _) as [mc| |]; cbn [res_bind] in Hc; [|done..]. injection Hc as <- <- <-.
    right. split; [done|]. exists []. rewrite app_nil_r. split; [done|by left].
  - injection Hc as <- <- <-. right. split; [done|]. exists []. rewrite app_nil_r. split; [done|by left].
  - unfold co_process in Hc. destruct (co_transactions (mg_coordinator m) !! tx) as [[ps| |]|] eqn:Et; cbn [res_bind] in Hc; [|done..]. injection Hc as <- <- <-.
    right. split; [done|]. exists []. rewrite app_nil_r. split; [done|by left].
  - destruct (co_pending (mg_coordinator m) tx) as [b| |]; cbn [res_bind] in Hc; [|done..]. injection Hc as <- <- <-.
    right. split; [done|]. exists []. rewrite app_nil_r. split; [done|by left].
  - destruct (co_commit tablet_order (mg_coordinator m) tx) as [c'| |] eqn:E; cbn [res_bind] in Hc; [|done..]. injection Hc as <- <- <-.
    apply co_commit_ok in E as (ps & ops & Htx & Ha & Hops & He & ->). right. split; [done|]. eexists. split; [done|]. right. exists tx, ps, (co_correlation (mg_coordinator m) + 1). by rewrite Hops.
  - injection Hc as <- <- <-. right. split; [done|]. exists []. rewrite app_nil_r. split; [done|by left].
  - unfold co_check in Hc. destruct (co_transactions (mg_coordinator m) !! tx) as [[ps|ops|out]|] eqn:Ht; cbn [res_bind] in Hc; [done| | |done];
      injection Hc as <- <- <-; right; (split; [done|]); exists []; rewrite app_nil_r; (split; [done|by left]).
  - destruct (mg_in deserialize result_order m x) as [m1| |] eqn:E; cbn [res_bind] in Hc; [|done..]. injection Hc as <- <- <-.
    right. split; [done|]. exists []. rewrite app_nil_r. split; [|by left]. destruct x as [d|n resp|n]; simpl in E.
    + destruct (dc_process deserialize (mg_data m) d); simpl in E; [|done..]. by injection E as <-.
    + by apply tablets_response_cases in E as (_ & _ & _ & _ & _ & E & _).
    + destruct (mg_errors m !! n); [|by injection E as <-]. by apply tablets_response_cases in E as (_ & _ & _ & _ & _ & E & _).
  - unfold mg_take, co_take, mc_take, dc_take in Hc. left. split; [done|].
    destruct (record_errors _ _) as [errors| |]; cbn [res_bind] in Hc; [|done..]. injection Hc as <- <- <-. split; [done|].
    unfold sent_ops. cbn [map concat snd]. rewrite app_nil_r. by rewrite omap_out_ops.
Qed.
Lemma requests_grow co tr m s c m' s' r : inv co tr m -> perform m s c = Ok (m', s', r) ->
  forall x, x ∈ commit_requests tr m -> x ∈ commit_requests (tr ++ [(c, r)]) m'.
Proof using Type.
  intros I Hc x Hx. pose proof (mg_call_inv _ _ _ _ _ _ _ _ _ _ _ _ _ _ _ _ _ _ _ I Hc) as I'.
  rewrite commit_requests_eq in Hx by apply I. rewrite commit_requests_eq by apply I'.
  rewrite sent_ops_app, List.filter_app. apply elem_of_app in Hx as [Hx|Hx]; [apply elem_of_app; left; apply elem_of_app; by left|].
  destruct (co_out_step _ _ _ _ _ _ Hc) as [(_ & -> & ->)|[-> (l & -> & _)]].
  - rewrite app_nil_r. apply elem_of_app. right. rewrite List.filter_app. apply elem_of_app. left.
    destruct (i_kinds _ _ _ I) as (_ & K & _). rewrite filter_all_true; [done|]. eapply Forall_impl; [exact K|].
    intros y Hy. simpl. by rewrite exec_request_lists.
  - apply elem_of_app. right. apply elem_of_app. by left.
Qed.
Lemma requests_step co tr m s c m' s' r x : inv co tr m -> perform m s c = Ok (m', s', r) -> x ∈ commit_requests (tr ++ [(c, r)]) m' ->
  x ∈ commit_requests tr m \/ exists tx ps, c = CCommit tx /\ co_transactions (mg_coordinator m) !! tx = Some (TxPreparing ps) /\
    is_active ps = false /\ x.2 = concat (map (process_ops tablet_order) ps).
Proof using Type.
  intros I Hc Hx. pose proof (mg_call_inv _ _ _ _ _ _ _ _ _ _ _ _ _ _ _ _ _ _ _ I Hc) as I'.
  rewrite commit_requests_eq in Hx by apply I'. rewrite commit_requests_eq by apply I.
  rewrite sent_ops_app, List.filter_app in Hx. rewrite !elem_of_app in Hx. rewrite elem_of_app.
  destruct (co_out_step _ _ _ _ _ _ Hc) as [(_ & E1 & E2)|[E1 (l & E2 & Hl)]]; rewrite E1, E2 in Hx; [|rewrite elem_of_app in Hx].
  - left. destruct Hx as [[Hx|Hx]|Hx]; [by left|right|by apply elem_of_nil in Hx].
    apply elem_of_list_In, filter_In in Hx as [Hx Hy]. apply in_app_iff in Hx as [Hx|Hx]; [by apply elem_of_list_In|].
    destruct (i_kinds _ _ _ I) as (K & _ & _). rewrite Forall_forall in K. apply elem_of_list_In in Hx. apply K in Hx.
    by rewrite list_request_lists in Hy.
  - destruct Hx as [[Hx|Hx]|[Hx|Hx]]; [left; by left|by apply elem_of_nil in Hx|left; by right|].
    destruct Hl as [->|(tx & ps & n & -> & H1 & H2 & ->)]; [by apply elem_of_nil in Hx|]. apply elem_of_list_singleton in Hx as ->.
    right. by exists tx, ps.
Qed.
Lemma runs_commit_request co mc dc tables client tr m s : runs co mc dc tables client tr m s ->
  forall a tx r b, tr = a ++ (CCommit tx, r) :: b ->
  exists ops ops', (co + 1 + Nlen (commits a), ops) ∈ commit_requests tr m /\ ops ≡ₚ ops' /\
    Forall2 tablet_operation (concat (map hd_tablets (handler_calls a tx))) ops' /\
    map hd_handler (handler_calls a tx) ≡ₚ map snd (processing a tx).
Proof using tablets_in_order.
  induction 1 as [m Hi|tr m s c m' s' r' Hr IH Hc]; intros a tx r b Ht; [by destruct a|].
  pose proof (runs_inv _ _ _ _ _ _ _ _ _ _ _ _ _ _ _ _ _ _ _ Hr) as I.
  destruct (list_eq_nil_dec b) as [->|Hb].
  - apply app_inj_tail in Ht as [-> [= -> ->]].
    pose proof (mg_call_inv _ _ _ _ _ _ _ _ _ _ _ _ _ _ _ _ _ _ _ I Hc) as I'.
    pose proof (runs_hinv _ _ _ _ _ _ _ _ Hr) as HI.
    cbn [mg_call] in Hc. destruct (co_commit tablet_order (mg_coordinator m) tx) as [c'| |] eqn:E; cbn [res_bind] in Hc; [|done..]. injection Hc as <- <- <-.
    apply co_commit_ok in E as (ps & ops & Htx & Ha & Hops & He & ->).
    destruct (h_ok _ _ HI _ _ Htx) as (es & F1 & F2 & F3).
    destruct (completed_ops _ _ Ha F1) as (ops1 & O1 & O2 & O3).
    destruct (Forall2_concat_perm _ _ _ F2 O2) as (ops2 & P1 & P2).
    exists ops, ops2. split_and!; [|by rewrite Hops, O1|done|].
    + rewrite commit_requests_eq by apply I'. simpl. apply elem_of_app. right. apply elem_of_app. right.
      apply elem_of_list_singleton. f_equal. rewrite (i_correlation _ _ _ I). lia.
    + rewrite <- F3, <- O3. by rewrite F2.
  - destruct (exists_last Hb) as (b' & x & ->). rewrite app_comm_cons, app_assoc in Ht. apply app_inj_tail in Ht as [-> <-].
    destruct (IH a tx r b') as (ops & ops' & J1 & J2); [done|]. exists ops, ops'. split; [|done]. eapply requests_grow; [exact I|exact Hc|done].
Qed.
End Handlers.
