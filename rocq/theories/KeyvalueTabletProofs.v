(** Proofs about the key value store: one transaction at a time for each tablet. *)
From Verif Require Import Base ActorModel TabletModel MetadataModel BlobModel CoordinatorModel CoordinatorSpec.
From Verif Require Import KeyvalueModel KeyvalueSpec KeyvalueProofs KeyvalueHistoryProofs.

Definition busy (m : gmap N tablet_tracker) (i : N) : Prop := exists k, m !! i = Some k /\ tk_busy k = true.
Definition starts (calls : list context_call) : list N :=
  omap (fun x => match x with AskStart tx => Some tx | _ => None end) calls.
Record exclusive (ids : list N) (txs : gmap N tx_tracker) (m : gmap N tablet_tracker) : Prop := {
  ex_known : forall tx, is_Some (txs !! tx) -> tx ∈ ids;
  ex_nodup : forall tx t, txs !! tx = Some t -> NoDup (tt_tablets t);
  ex_busy : forall tx t i, txs !! tx = Some t -> i ∈ tt_tablets t -> busy m i;
  ex_once : forall tx1 tx2 t1 t2 i, txs !! tx1 = Some t1 -> txs !! tx2 = Some t2 ->
    i ∈ tt_tablets t1 -> i ∈ tt_tablets t2 -> tx1 = tx2;
}.

Lemma started_app tr e : started (tr ++ [e]) = started tr ++ match e with EvProgress calls => starts calls | _ => [] end.
Proof. unfold started. rewrite map_app, concat_app. simpl. by rewrite app_nil_r. Qed.
Lemma starts_app l1 l2 : starts (l1 ++ l2) = starts l1 ++ starts l2.
Proof. apply omap_app. Qed.
Lemma starts_none l : Forall (fun x => is_start x = false) l -> starts l = [].
Proof. induction 1 as [|x l Hx _ IH]; [done|]. by destruct x. Qed.

Lemma busy_insert m j t k i : m !! j = Some t -> tk_busy t = tk_busy k \/ tk_busy k = true -> busy m i -> busy (<[j := k]> m) i.
Proof.
  intros Hj Hk (t0 & Ht & Hb). destruct (decide (j = i)) as [->|Hne].
  - exists k. rewrite lookup_insert. split; [done|]. destruct Hk; congruence.
  - exists t0. by rewrite lookup_insert_ne.
Qed.

Section Tablets.
Variable hash_key : string -> N.
Variable decode_contents : bytes -> option (gmap string bytes).
Variable encode_contents : gmap string bytes -> bytes.
Variable tracker_order : gmap N tablet_tracker -> list N.
Variable txt_order : gmap N tx_tracker -> list N.

Lemma collect_all_busy counter table m ids counter' m' l :
  collect_all hash_key counter table m ids = (counter', m', l) ->
  NoDup (map fst l) /\ (forall i, i ∈ map fst l -> ~ busy m i /\ busy m' i) /\ (forall i, busy m i -> busy m' i).
Proof.
  clear decode_contents encode_contents tracker_order txt_order.
  revert counter m counter' m' l. induction ids as [|j ids IH]; intros counter m counter' m' l; simpl.
  { intros [= <- <- <-]. simpl. split_and!; [apply NoDup_nil_2| |done]. intros i ?%elem_of_nil. done. }
  destruct (m !! j ≫= collect_process hash_key counter table) as [[t q]|] eqn:Hj; [|by apply IH].
  destruct (collect_all _ _ _ _ ids) as [[c2 m2] l2] eqn:Hr. intros [= <- <- <-].
  apply bind_Some in Hj as (t0 & Hj & Ht). unfold collect_process in Ht.
  destruct (_ <=? _); [|done]. destruct (tk_busy t0) eqn:Hb; [done|]. simpl in Ht. injection Ht as <- <-.
  destruct (IH _ _ _ _ _ Hr) as (H1 & H2 & H3). simpl.
  assert (Hin : forall i, busy m i -> busy (<[j := TabletTracker (tk_min t0) true [] (<[counter+1 := tk_pending t0]> (tk_waiting t0))]> m) i).
  { intros i. apply (busy_insert _ _ _ _ _ Hj). by right. }
  assert (Hj' : busy (<[j := TabletTracker (tk_min t0) true [] (<[counter+1 := tk_pending t0]> (tk_waiting t0))]> m) j).
  { eexists. rewrite lookup_insert. split; [done|]. done. }
  split_and!.
  - constructor; [|done]. intros Hx. apply H2 in Hx as [Hx _]. by apply Hx.
  - intros i Hi. apply elem_of_cons in Hi as [->|Hi].
    + split; [|by apply H3]. intros (k & Hk & Hkb). congruence.
    + apply H2 in Hi as [Hi ?]. split; [|done]. intros Hx. apply Hi. by apply Hin.
  - intros i Hi. by apply H3, Hin.
Qed.

Lemma process_all_busy m tx l m' tx' outs :
  process_all hash_key decode_contents encode_contents m tx l = Ok (m', tx', outs) ->
  tt_tablets tx' = tt_tablets tx /\ (forall i, busy m i -> busy m' i).
Proof.
  clear tracker_order txt_order.
  revert m tx m' tx' outs. induction l as [|[[q md] o] l IH]; intros m tx m' tx' outs; simpl.
  { by intros [= <- <- <-]. }
  destruct (m !! tm_id md) as [t|] eqn:Ht.
  - intros ([[t1 r1] set1] & Hp & Hr)%res_bind_ok. apply res_bind_ok in Hr as ([[m2 tx2] o2] & Hl & [= <- <- <-]).
    destruct (IH _ _ _ _ _ Hl) as [H1 H2]. split; [done|]. intros i Hi. apply H2.
    apply (busy_insert _ _ _ _ _ Ht); [|done]. left.
    destruct (process_query_spec _ _ _ _ _ _ _ _ _ Hp) as (bs & d & -> & _ & [(_ & _ & -> & _)|(lw & d' & _ & _ & -> & _)]); done.
  - intros ([[m2 tx2] o2] & Hl & [= <- <- <-])%res_bind_ok. by apply IH in Hl.
Qed.

Lemma resolved_busy s l i : busy (st_tablets s) i -> busy (st_tablets (kv_resolved s l)) i.
Proof.
  clear. revert s. induction l as [|[q j] l IH]; intros s Hb; [done|].
  change (kv_resolved s ((q, j) :: l)) with (kv_resolved (resolved_one s (q, j)) l). apply IH. simpl.
  destruct (decide (j = i)) as [->|Hne].
  - destruct Hb as (k & Hk & Hb). rewrite Hk. eexists. rewrite lookup_insert. split; [done|]. done.
  - destruct Hb as (k & Hk & Hb). exists k. by rewrite lookup_insert_ne.
Qed.

Section Context.
Context {C : Type}.
Variable cx : context C.

Lemma progress_exclusive ids s c s' c' calls : keys_order txt_order ->
  exclusive ids (st_txs s) (st_tablets s) ->
  kv_progress hash_key tracker_order txt_order (recording cx) s (c, []) = Ok (s', (c', calls)) ->
  NoDup (ids ++ starts calls) ->
  exclusive (ids ++ starts calls) (st_txs s') (st_tablets s').
Proof.
  clear decode_contents encode_contents.
  intros Hord [K ND B O] Hp Hnd.
  unfold kv_progress in Hp. apply res_bind_ok in Hp as ([s1 [c1 g1]] & H1 & Hr).
  apply res_bind_ok in Hr as ([s2 [c2 g2]] & H2 & Hr).
  apply res_bind_ok in Hr as ([txs [c3 g3]] & H3 & Hr).
  apply res_bind_ok in Hr as ([[[completed tablets] responses] [c4 g4]] & H4 & Hr). injection Hr as <- <- <-.
  pose proof (resolve_recorded _ _ _ _ _ _ _ _ H1) as (e1 & -> & E1).
  pose proof (commit_recorded _ _ _ _ _ _ _ _ H3) as (e3 & -> & E3).
  destruct (resolve_progress_requests _ _ _ _ _ _ H1) as (_ & T1 & _ & M1).
  destruct (commit_progress_requests _ _ _ _ _ _ H3) as (_ & T3 & K3).
  assert (Hn : NoDup (txt_order txs)). { rewrite (Hord txs). apply NoDup_fst_map_to_list. }
  destruct (finalize_recorded txt_order _ _ _ _ _ _ _ _ _ _ Hn H4) as (l & e4 & -> & Hnd' & Hin & Hl & -> & -> & -> & E4 & _).
  rewrite !starts_app, (starts_none e4), app_nil_r in * by done.
  rewrite (starts_none e3), app_nil_r in * by (eapply Forall_impl; [exact E3|]; naive_solver).
  assert (Hs2 : exclusive (ids ++ starts g2) (st_txs s2) (st_tablets s2)).
  { unfold start_progress in H2. rewrite M1 in H2.
    destruct (collect_all _ _ _ _ _) as [[counter m] [|x l0]] eqn:Hc.
    { injection H2 as <- _ <-. rewrite T1, M1. simpl. constructor; auto. intros tx Htx. apply elem_of_app. left. auto. }
    simpl in H2. destruct cx_start as [[c5 tx]| |]; simpl in H2; [|done..].
    destruct cx_process as [c6| |]; simpl in H2; [|done..]. injection H2 as <- <- <-. simpl in *.
    rewrite !starts_app in *. rewrite (starts_none e1) in * by (eapply Forall_impl; [exact E1|]; naive_solver).
    simpl in *. rewrite T1. destruct (collect_all_busy _ _ _ _ _ _ _ Hc) as (L1 & L2 & L3).
    assert (Hfresh : st_txs s !! tx = None).
    { apply eq_None_not_Some. intros Hs. apply K in Hs. apply NoDup_app in Hnd as (_ & Hd & _). apply (Hd _ Hs). set_solver. }
    constructor.
    - intros tx' [t Ht]. apply lookup_insert_Some in Ht as [[<- _]|[_ Ht]]; [set_solver|].
      apply elem_of_app. left. apply K. eauto.
    - intros tx' t Ht. apply lookup_insert_Some in Ht as [[<- <-]|[_ Ht]]; [exact L1|by eapply ND].
    - intros tx' t i Ht Hi. apply lookup_insert_Some in Ht as [[<- <-]|[_ Ht]]; [by apply L2|].
      apply L3. by eapply B.
    - intros tx1 tx2 t1 t2 i Ht1 Ht2 Hi1 Hi2.
      apply lookup_insert_Some in Ht1 as [[<- <-]|[Hne1 Ht1]]; apply lookup_insert_Some in Ht2 as [[<- <-]|[Hne2 Ht2]]; [done| | |].
      + exfalso. apply L2 in Hi1 as [Hi1 _]. apply Hi1. by eapply B.
      + exfalso. apply L2 in Hi2 as [Hi2 _]. apply Hi2. by eapply B.
      + by eapply O. }
  destruct Hs2 as [K2 N2 B2 O2].
  assert (Hdel : forall tx t, foldl (fun m i => delete i m) txs (map (fun x => x.1.1) l) !! tx = Some t ->
    tx ∉ map (fun x => x.1.1) l /\ txs !! tx = Some t /\ exists t0, st_txs s2 !! tx = Some t0 /\ tt_tablets t = tt_tablets t0).
  { intros tx t. rewrite foldl_delete_lookup. destruct (decide _) as [|Hx]; [done|]. intros Ht.
    destruct (T3 _ _ Ht) as (t0 & Ht0 & _ & _ & Htt & _). eauto. }
  constructor; simpl.
  - intros tx [t Ht]. apply Hdel in Ht as (_ & _ & t0 & Ht0 & _). apply K2. eauto.
  - intros tx t Ht. apply Hdel in Ht as (_ & _ & t0 & Ht0 & ->). by eapply N2.
  - intros tx t i Ht Hi. apply Hdel in Ht as (Hx & Ht & t0 & Ht0 & Htt).
    assert (Hni : i ∉ concat (map (fun x : N * tx_tracker * tx_outcome => tt_tablets x.1.2) l)).
    { intros Hc. apply elem_of_list_In, in_concat in Hc as (lt & Hlt & Hc). apply in_map_iff in Hlt as ([[tx1 t1] o] & <- & Hin1).
      apply elem_of_list_In in Hin1, Hc. rewrite Forall_forall in Hl. destruct (Hl _ Hin1) as [Ht1 _]. simpl in *.
      destruct (T3 _ _ Ht1) as (t2 & Ht2 & _ & _ & Htt2 & _).
      assert (tx = tx1) as ->.
      { eapply (O2 _ _ _ _ i Ht0 Ht2); [by rewrite <- Htt|by rewrite <- Htt2]. }
      apply Hx. apply elem_of_list_fmap. by exists (tx1, t1, o). }
    rewrite Htt in Hi. specialize (B2 _ _ _ Ht0 Hi). revert Hni B2. clear.
    generalize (st_tablets s2). generalize (concat (map (fun x : N * tx_tracker * tx_outcome => tt_tablets x.1.2) l)).
    intros js. induction js as [|j js IH]; intros m Hni Hb; simpl; [done|]. apply IH; [set_solver|].
    destruct Hb as (k & Hk & Hb). exists k. rewrite lookup_alter_ne by set_solver. done.
  - intros tx1 tx2 t1 t2 i Ht1 Ht2 Hi1 Hi2. apply Hdel in Ht1 as (_ & _ & t3 & Ht3 & E5). apply Hdel in Ht2 as (_ & _ & t4 & Ht4 & E6).
    rewrite E5 in Hi1. rewrite E6 in Hi2. by eapply O2.
Qed.

Lemma steps_exclusive table mr mp tr s : keys_order txt_order ->
  store_runs hash_key decode_contents encode_contents tracker_order txt_order cx table mr mp tr s ->
  NoDup (started tr) -> exclusive (started tr) (st_txs s) (st_tablets s).
Proof.
  intros Hord. unfold store_runs. remember (kv_init kv_new table mr mp) as s0 eqn:Hs0.
  induction 1 as [s|s tr s1 e s2 Hr IH Hs]; intros Hnd.
  { subst. constructor; simpl; try (intros ? ?; rewrite lookup_empty; done); [intros tx; rewrite lookup_empty; by intros []|..];
      intros ? ? ?; rewrite lookup_empty; done. }
  rewrite started_app in *. assert (Hnd1 : NoDup (started tr)) by (by apply NoDup_app in Hnd as [? _]).
  specialize (IH Hs0 Hnd1). clear Hr Hs0 s. destruct Hs as [s r|s c s' c' calls Hp|s results|s tx tablets s' set Hp|s]; rewrite ?app_nil_r.
  - exact IH.
  - by eapply progress_exclusive.
  - destruct (resolved_txs s results) as [Ht _]. rewrite Ht. destruct IH as [K ND B O]. constructor; auto.
    intros tx t i H1 H2. apply resolved_busy. by eapply B.
  - unfold kv_process in Hp. destruct (st_txs s !! tx) as [t|] eqn:Htx; [|by injection Hp as <- <-].
    apply res_bind_ok in Hp as ([[m t'] outs] & Hp & [= <- <-]). destruct (process_all_busy _ _ _ _ _ _ Hp) as [Htt Hbb].
    assert (Hold : forall tx0 t0, <[tx := t']> (st_txs s) !! tx0 = Some t0 ->
      exists t1, st_txs s !! tx0 = Some t1 /\ tt_tablets t0 = tt_tablets t1).
    { intros tx0 t0 [[<- <-]|[_ Ht]]%lookup_insert_Some; eauto. }
    destruct IH as [K ND B O]. constructor; simpl.
    + intros tx0 [t0 Ht0]. apply Hold in Ht0 as (t1 & Ht1 & _). apply K. eauto.
    + intros tx0 t0 Ht0. apply Hold in Ht0 as (t1 & Ht1 & ->). by eapply ND.
    + intros tx0 t0 i Ht0 Hi. apply Hold in Ht0 as (t1 & Ht1 & E). rewrite E in Hi. apply Hbb. by eapply B.
    + intros tx1 tx2 t1 t2 i H1 H2 H3 H4. apply Hold in H1 as (t3 & ? & E1). apply Hold in H2 as (t4 & ? & E2).
      rewrite E1 in H3. rewrite E2 in H4. by eapply O.
  - exact IH.
Qed.
End Context.
End Tablets.
