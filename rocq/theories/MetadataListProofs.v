(** Proofs about the list requests of the metadata cache. *)
From Verif Require Import Base TabletModel MetadataModel MetadataSpec MetadataProofs MetadataRequestProofs.
Local Arguments region_bounds : simpl never.
Local Arguments regions_count : simpl never.
Local Arguments N.div : simpl never.
Local Arguments N.sub : simpl never.
Local Arguments N.add : simpl never.
Local Arguments N.mul : simpl never.
Local Arguments ascending : simpl never.
Local Arguments N.ltb : simpl never.
Local Arguments N.eqb : simpl never.

Lemma elem_of_concat {A} (x : A) (l : list (list A)) : x ∈ concat l <-> exists k, x ∈ k /\ k ∈ l.
Proof.
  rewrite elem_of_list_In, in_concat. split; intros (k & H1 & H2); exists k; by rewrite <- ?elem_of_list_In in *.
Qed.

(** A list request for the region is on its way. *)
Definition prepared (T : gmap string table_cache) (key : string * N) : Prop :=
  exists t r w, T !! key.1 = Some t /\ tb_regions t !! key.2 = Some r /\ rg_state r = Stale w true.
(** The region needs to be asked for. *)
Definition needed (T : gmap string table_cache) (key : string * N) : Prop :=
  exists t r w, T !! key.1 = Some t /\ tb_regions t !! key.2 = Some r /\ rg_state r = Stale w false /\ w <> [].

Lemma prepared_insert T name t idx :
  prepared (<[name := t]> T) (name, idx) <-> exists r w, tb_regions t !! idx = Some r /\ rg_state r = Stale w true.
Proof.
  unfold prepared. simpl. rewrite lookup_insert. split.
  - intros (? & r & w & [= <-] & ?). by exists r, w.
  - intros (r & w & ?). by exists t, r, w.
Qed.
Lemma prepared_lookup T name t idx :
  T !! name = Some t ->
  prepared T (name, idx) <-> exists r w, tb_regions t !! idx = Some r /\ rg_state r = Stale w true.
Proof.
  intros H. unfold prepared. simpl. rewrite H. split.
  - intros (? & r & w & [= <-] & ?). by exists r, w.
  - intros (r & w & ?). by exists t, r, w.
Qed.
Lemma prepared_insert_ne T name t key : key.1 <> name -> prepared (<[name := t]> T) key <-> prepared T key.
Proof. intros H. unfold prepared. by rewrite lookup_insert_ne. Qed.

Lemma register_prepared T name t request idx t' key :
  T !! name = Some t -> table_register t request idx = Ok t' ->
  prepared (<[name := t']> T) key <-> prepared T key.
Proof.
  intros Ht. unfold table_register. destruct (tb_regions t !! idx) as [r|] eqn:Er.
  - unfold region_register. destruct (rg_state r) as [w p|] eqn:Es; simpl; [|done]. intros [= <-].
    destruct key as [n i]. destruct (decide (n = name)) as [->|e]; [|by apply prepared_insert_ne].
    rewrite prepared_insert, (prepared_lookup _ _ _ _ Ht). simpl.
    destruct (decide (idx = i)) as [<-|e].
    + rewrite lookup_insert, Er. split.
      * intros (r' & w' & [= <-] & Hs). simpl in Hs. injection Hs as <- ->. by exists r, w.
      * intros (r' & w' & [= <-] & Hs). rewrite Es in Hs. injection Hs as <- ->. by eexists _, _.
    + by rewrite lookup_insert_ne.
  - intros [= <-]. by rewrite insert_id.
Qed.
Lemma register_all_prepared i T r parts T' r' key :
  register_all i T r parts = Ok (T', r') -> prepared T' key <-> prepared T key.
Proof.
  revert T r. induction parts as [|[q idx] parts IH]; intros T r; simpl; [by intros [= <- _]|].
  destruct (T !! tq_table q) as [t|] eqn:Et; simpl; [|done].
  destruct (try_resolve t idx q) as [[l|]| |]; simpl; [by intros H; apply IH in H| |done..].
  destruct (table_register t i idx) as [t'| |] eqn:Eg; simpl; [|done..]. intros H. rewrite (IH _ _ H).
  by eapply register_prepared.
Qed.

Lemma region_prepare_state r a b w :
  rg_state (region_prepare r a b).1 = Stale w true <->
  rg_state r = Stale w true \/ (rg_state r = Stale w false /\ w <> []).
Proof.
  unfold region_prepare. destruct (rg_state r) as [[|x l] []|] eqn:E; simpl; rewrite ?E; split.
  all: try (intros [H|[H ?]]; congruence).
  all: try (intros H; left; congruence).
  - intros [= <-]. by right.
Qed.
Lemma region_prepare_op r a b k :
  (region_prepare r a b).2 = Some k <-> k = OpList a b /\ exists w, rg_state r = Stale w false /\ w <> [].
Proof.
  unfold region_prepare. destruct (rg_state r) as [[|x l] []|] eqn:E; simpl; split.
  all: try done.
  all: try (intros (_ & w & H & Hw); by injection H as <-).
  all: try (intros (_ & w & H & Hw); done).
  - intros [= <-]. split; [done|]. by eexists.
  - by intros (-> & _).
Qed.

Lemma progress_prepared rgo T key :
  prepared ((fun t => (table_prepare rgo t).1) <$> T) key <-> prepared T key \/ needed T key.
Proof.
  destruct key as [n i]. unfold prepared, needed. simpl. rewrite lookup_fmap. destruct (T !! n) as [t|]; simpl.
  2:{ split; [by intros (?&?&?&?&_)|]. intros [(?&?&?&?&_)|(?&?&?&?&_)]; done. }
  split.
  - intros (? & r' & w & [= <-] & Hr & Hs). simpl in Hr. rewrite map_lookup_imap in Hr.
    destruct (tb_regions t !! i) as [r|] eqn:Er; [|done]. simpl in Hr. injection Hr as <-.
    destruct (region_bounds (tb_size t) i) as [a b]. apply region_prepare_state in Hs as [Hs|[Hs Hw]].
    + left. by exists t, r, w.
    + right. by exists t, r, w.
  - assert (forall r w, tb_regions t !! i = Some r ->
      rg_state r = Stale w true \/ rg_state r = Stale w false /\ w <> [] ->
      exists t0 r0 w0, Some (table_prepare rgo t).1 = Some t0 /\ tb_regions t0 !! i = Some r0 /\ rg_state r0 = Stale w0 true) as Hx.
    { intros r w Hr Hs. eexists _, _, w. split; [done|]. simpl. rewrite map_lookup_imap, Hr. simpl. split; [done|].
      destruct (region_bounds (tb_size t) i) as [a b]. by apply region_prepare_state. }
    intros [(?&r&w&[= <-]&Hr&Hs)|(?&r&w&[= <-]&Hr&Hs&Hw)]; eapply Hx; eauto.
Qed.

Section Listing.
Variable region_order : gmap N region -> list (N * region).
Variable table_order : gmap string table_cache -> list (string * table_cache).
Hypothesis Hrg : map_order region_order.
Hypothesis Htb : map_order table_order.

(** The operations a progress call asks for. *)
Definition progress_ops (T : gmap string table_cache) : list tablet_op :=
  concat (map (fun '(_, t) => (table_prepare region_order t).2) (table_order T)).

Lemma table_prepare_ops t op :
  op ∈ (table_prepare region_order t).2 <->
  exists idx r w, tb_regions t !! idx = Some r /\ rg_state r = Stale w false /\ w <> [] /\
    op = TabletOp (tb_name t) (Some (OpList (region_bounds (tb_size t) idx).1 (region_bounds (tb_size t) idx).2)).
Proof using Hrg.
  unfold table_prepare. cbn [snd]. rewrite elem_of_list_omap. split.
  - intros ([idx r] & Hin & Hop). rewrite (Hrg (tb_regions t)) in Hin. apply elem_of_map_to_list in Hin.
    destruct (region_bounds (tb_size t) idx) as [a b] eqn:Eb.
    destruct (region_prepare r a b).2 as [k|] eqn:Ek; [|done]. simpl in Hop. injection Hop as <-.
    apply region_prepare_op in Ek as (-> & w & Hs & Hw). exists idx, r, w. rewrite Eb. done.
  - intros (idx & r & w & Hr & Hs & Hw & ->). exists (idx, r). split.
    + rewrite (Hrg (tb_regions t)). by apply elem_of_map_to_list.
    + destruct (region_bounds (tb_size t) idx) as [a b]. 
      assert ((region_prepare r a b).2 = Some (OpList a b)) as ->; [|done].
      apply region_prepare_op. eauto.
Qed.
Lemma progress_ops_spec size reps T op :
  tables_wf size reps T ->
  op ∈ progress_ops T <->
  exists idx, needed T (op_table op, idx) /\
    op_kind_of op = Some (OpList (region_bounds (size (op_table op)) idx).1 (region_bounds (size (op_table op)) idx).2).
Proof using Hrg Htb.
  intros Hwf. unfold progress_ops. rewrite elem_of_concat. split.
  - intros (l & Hop & Hl). apply elem_of_list_fmap in Hl as ([n t] & -> & Hl). rewrite (Htb T) in Hl.
    apply elem_of_map_to_list in Hl. apply table_prepare_ops in Hop as (idx & r & w & Hr & Hs & Hw & ->).
    destruct (Hwf _ _ Hl) as (K1 & K2 & _). subst n. simpl. rewrite <- K2. exists idx. split; [|done]. by exists t, r, w.
  - intros (idx & (t & r & w & Ht & Hr & Hs & Hw) & Hk). simpl in Ht.
    exists ((table_prepare region_order t).2). split.
    + apply table_prepare_ops. exists idx, r, w. destruct (Hwf _ _ Ht) as (K1 & K2 & _).
      split_and!; try done. destruct op as [n k]. simpl in *. by rewrite Hk, K1, K2.
    + apply elem_of_list_fmap. exists (op_table op, t). split; [done|]. rewrite (Htb T). by apply elem_of_map_to_list.
Qed.

Lemma NoDup_omap_keys {A B K} (f : A -> option B) (key : A -> K) (kb : B -> K) (l : list A) :
  (forall a b, f a = Some b -> kb b = key a) -> NoDup (map key l) -> NoDup (map kb (omap f l)).
Proof using Type.
  intros Hk. induction l as [|a l IH]; intros Hn; simpl; [constructor|].
  apply NoDup_cons in Hn as [Ha Hn]. destruct (f a) as [b|] eqn:E; simpl; [|by apply IH].
  constructor; [|by apply IH]. rewrite (Hk _ _ E). intros Hx. apply Ha.
  apply elem_of_list_fmap in Hx as (b' & Hb & Hx). apply elem_of_list_omap in Hx as (a' & Ha' & Hf).
  apply elem_of_list_fmap. exists a'. split; [|done]. by rewrite Hb, (Hk _ _ Hf).
Qed.

Definition op_key (size : string -> N) (op : tablet_op) : string * N :=
  (op_table op, match op_kind_of op with Some (OpList from _) => from / size (op_table op) | _ => 0 end).
Lemma bounds_idx size idx : size <> 0 -> (region_bounds size idx).1 / size = idx.
Proof using Type. intros H. unfold region_bounds. cbn [fst]. by apply N.div_mul. Qed.
Lemma progress_ops_NoDup size reps T : tables_wf size reps T -> NoDup (map (op_key size) (progress_ops T)).
Proof using Hrg Htb.
  intros Hwf. unfold progress_ops.
  assert (NoDup (map fst (table_order T))) as Hn.
  { rewrite (Htb T). apply NoDup_fst_map_to_list. }
  assert (forall n t, (n, t) ∈ table_order T -> T !! n = Some t) as Hin.
  { intros n t H. rewrite (Htb T) in H. by apply elem_of_map_to_list in H. }
  induction (table_order T) as [|[n t] l IH]; simpl; [constructor|].
  simpl in Hn. apply NoDup_cons in Hn as [Hnn Hn]. rewrite map_app. apply NoDup_app. split_and!.
  - destruct (Hwf n t) as (K1 & K2 & K3 & _); [apply Hin; by left|]. 
    unfold table_prepare. cbn [snd].
    eapply (NoDup_omap_keys _ (fun x => (tb_name t, x.1)) (op_key size)).
    + intros [idx r] op. unfold region_bounds.
      destruct (region_prepare r _ _).2 as [k|] eqn:Ek; [|done]. simpl. intros [= <-].
      apply region_prepare_op in Ek as (-> & _). unfold op_key. simpl. rewrite K1, <- K2.
      f_equal. apply N.div_mul. congruence.
    + rewrite (Hrg (tb_regions t)). 
      replace (map (fun x : N * region => (tb_name t, x.1)) (map_to_list (tb_regions t)))
        with (map (fun i : N => (tb_name t, i)) (map fst (map_to_list (tb_regions t)))) by by rewrite map_map.
      apply NoDup_fmap_2; [by intros ?? [= ->]|]. apply NoDup_fst_map_to_list.
  - intros key H1 H2. apply Hnn. 
    apply elem_of_list_fmap in H1 as (op1 & -> & H1). apply elem_of_list_fmap in H2 as (op2 & Hk & H2).
    apply table_prepare_ops in H1 as (i1 & r1 & w1 & _ & _ & _ & ->).
    apply elem_of_concat in H2 as (l2 & H2 & Hl2). apply elem_of_list_fmap in Hl2 as ([n2 t2] & -> & Hl2).
    apply table_prepare_ops in H2 as (i2 & r2 & w2 & _ & _ & _ & ->).
    unfold op_key in Hk. simpl in Hk. injection Hk as Hk _.
    destruct (Hwf n t) as (K1 & _); [apply Hin; by left|].
    destruct (Hwf n2 t2) as (L1 & _); [apply Hin; by right|].
    apply elem_of_list_fmap. exists (n2, t2). split; [simpl; congruence|done].
  - apply IH; [done|]. intros n' t' Hx. apply Hin. by right.
Qed.

Lemma progress_sent s :
  drop (length (sent s)) (sent (Observed (mc_progress region_order table_order (ob_cache s)) (ob_taken s))) =
    match progress_ops (mc_tables (ob_cache s)) with
    | [] => []
    | ops => [(mc_correlation (ob_cache s) + 1, ops)]
    end.
Proof using Type.
  unfold sent. simpl. unfold mc_progress, progress_ops. destruct (concat _) as [|op ops]; simpl.
  - by rewrite drop_all.
  - by rewrite app_assoc, drop_app.
Qed.
Lemma progress_asked cfg s :
  concat (map snd (drop (length (sent s)) (sent (Observed (mc_progress region_order table_order (ob_cache s)) (ob_taken s))))) =
    progress_ops (mc_tables (ob_cache s)) /\
  asked_regions cfg (drop (length (sent s)) (sent (Observed (mc_progress region_order table_order (ob_cache s)) (ob_taken s)))) =
    omap (op_region cfg) (progress_ops (mc_tables (ob_cache s))).
Proof using Type.
  unfold asked_regions. rewrite progress_sent. destruct (progress_ops (mc_tables (ob_cache s))); [done|].
  simpl. by rewrite app_nil_r.
Qed.
End Listing.

(** * The regions asked for are exactly those marked so *)
Lemma update_tablet_prepared T name t m conflict key :
  T !! name = Some t ->
  prepared (<[name := table_update_tablet t m conflict]> T) key <->
  prepared T key /\ ~ (conflict = true /\ key = (name, tm_id m / tb_size t)).
Proof.
  intros Ht. destruct key as [n i]. destruct (decide (n = name)) as [->|e].
  2:{ rewrite prepared_insert_ne by done. split; [|by intros [? _]]. intros H. split; [done|]. intros [_ [= ? _]]. done. }
  rewrite prepared_insert, (prepared_lookup _ _ _ _ Ht). unfold table_update_tablet, map_region. simpl.
  destruct (tb_regions t !! (tm_id m / tb_size t)) as [r|] eqn:E.
  - destruct conflict.
    + simpl. destruct (decide (tm_id m / tb_size t = i)) as [<-|e].
      * rewrite lookup_insert. split.
        -- by intros (r' & w & [= <-] & Hs).
        -- intros [_ H]. exfalso. by apply H.
      * rewrite lookup_insert_ne by done. split; [|by intros [? _]]. intros H. split; [done|]. intros [_ ?]. congruence.
    + simpl. split; [|by intros [? _]]. intros H. split; [done|]. by intros [? _].
  - simpl. split; [|by intros [? _]]. intros H. split; [done|]. intros [_ ?].
    destruct H as (r & w & H & _). congruence.
Qed.
Lemma update_region_prepared T name t from tablets t' idx notify key :
  T !! name = Some t -> table_update_region t from tablets = (t', idx, notify) ->
  prepared (<[name := t']> T) key <-> prepared T key /\ key <> (name, from / tb_size t).
Proof.
  intros Ht Hu. destruct key as [n i]. destruct (decide (n = name)) as [->|e].
  2:{ rewrite prepared_insert_ne by done. split; [|by intros [? _]]. intros H. split; [done|]. intros [= ? _]. done. }
  rewrite prepared_insert, (prepared_lookup _ _ _ _ Ht). unfold table_update_region, map_region in Hu.
  destruct (tb_regions t !! (from / tb_size t)) as [r|] eqn:E.
  - assert (exists r', (forall w, rg_state r' <> Stale w true) /\ tb_regions t' = <[from / tb_size t := r']> (tb_regions t)) as (r' & Hr' & ->).
    { destruct tablets; injection Hu as <- <- <-; simpl; eexists; (split; [|done]); by intros w. }
    destruct (decide (from / tb_size t = i)) as [<-|e].
    + rewrite lookup_insert. split; [|by intros [_ ?]]. intros (r1 & w & [= <-] & Hs). by apply Hr' in Hs.
    + rewrite lookup_insert_ne by done. split; [|by intros [? _]]. intros H. split; [done|]. intros ?. congruence.
  - injection Hu as <- <- <-. split; [|by intros [? _]]. intros H. split; [done|]. intros ?.
    destruct H as (r & w & H & _). congruence.
Qed.
Lemma mc_result_prepared ro cfg reps c r c' key :
  tables_wf (size_of cfg) reps (mc_tables c) -> mc_result ro c r = Ok c' ->
  prepared (mc_tables c') key <-> prepared (mc_tables c) key /\ result_region cfg r <> Some key.
Proof.
  intros Hwf. unfold mc_result, result_region. destruct (or_detail r) as [[from to ts| |]|]; try done.
  destruct (mc_tables c !! or_table r) as [t|] eqn:Et.
  - destruct (table_update_region t from _) as [[t' idx] notify] eqn:Eu.
    destruct (notify_all _ _ _ _ _ _ _) as [[rs d]| |]; simpl; [|done..]. intros [= <-]. simpl.
    rewrite (update_region_prepared _ _ _ _ _ _ _ _ _ Et Eu). destruct (Hwf _ _ Et) as (_ & -> & _).
    split; intros [H1 H2]; (split; [done|]); congruence.
  - intros [= <-]. split; [|by intros [? _]]. intros H. split; [done|]. intros [= <-].
    destruct H as (t & _ & _ & Ht & _). simpl in Ht. congruence.
Qed.
Lemma mc_result_wf ro size reps c r c' :
  tables_wf size reps (mc_tables c) -> mc_result ro c r = Ok c' -> exists reps', tables_wf size reps' (mc_tables c').
Proof.
  intros Hwf. unfold mc_result. destruct (or_detail r) as [[from to ts| |]|]; try done.
  destruct (mc_tables c !! or_table r) as [t|] eqn:Et.
  - destruct (table_update_region t from _) as [[t' idx] notify] eqn:Eu.
    destruct (notify_all _ _ _ _ _ _ _) as [[rs d]| |]; simpl; [|done..]. intros [= <-]. simpl.
    pose proof (update_region_ok _ _ _ _ _ _ _ _ _ (Hwf _ _ Et) Eu) as Hok.
    match type of Hok with table_ok _ _ ?l _ =>
      exists (fun n => if decide (n = or_table r) then l else reps n) end.
    eapply tables_wf_insert; [exact Hwf| |].
    + simpl. by rewrite decide_True.
    + intros n e. simpl. by rewrite decide_False.
  - intros [= <-]. by exists reps.
Qed.
Lemma mc_response_prepared ro cfg reps rs c c' key :
  tables_wf (size_of cfg) reps (mc_tables c) -> mc_response ro c rs = Ok c' ->
  prepared (mc_tables c') key <-> prepared (mc_tables c) key /\ key ∉ omap (result_region cfg) rs.
Proof.
  revert reps c. induction rs as [|r rs IH]; intros reps c Hwf; simpl.
  - intros [= <-]. split; [|by intros [? _]]. intros H. split; [done|]. apply not_elem_of_nil.
  - destruct (mc_result ro c r) as [c1| |] eqn:E; simpl; [|done..]. intros H.
    destruct (mc_result_wf _ _ _ _ _ _ Hwf E) as [reps' Hwf'].
    rewrite (IH _ _ Hwf' H), (mc_result_prepared _ _ _ _ _ _ _ Hwf E).
    destruct (result_region cfg r) as [k|].
    + rewrite not_elem_of_cons. split; [intros [[? ?] ?]|intros [? [? ?]]]; split_and!; first [done|congruence].
    + split; [intros [[? ?] ?]|intros [? ?]]; done.
Qed.

Lemma outstanding_history ro rgo tbo counter cfg calls s o :
  outstanding ro rgo tbo counter cfg calls s o -> history ro rgo tbo counter cfg calls s.
Proof.
  intros H. induction H as [c Hi|calls s o call s' H IH Hp]; [by exists c|]. apply history_snoc. by exists s.
Qed.
Lemma history_outstanding ro rgo tbo counter cfg calls s :
  history ro rgo tbo counter cfg calls s -> exists o, outstanding ro rgo tbo counter cfg calls s o.
Proof.
  revert s. induction calls as [|call calls IH] using rev_ind; intros s H.
  - destruct H as (c & Hi & [= <-]). eexists. by apply outstanding_start.
  - apply history_snoc in H as (s0 & H1 & H2). destruct (IH _ H1) as [o Ho]. eexists. by eapply outstanding_call.
Qed.

Lemma outstanding_prepared ro rgo tbo counter cfg calls s o :
  map_order rgo -> map_order tbo -> NoDup (map fst cfg) ->
  outstanding ro rgo tbo counter cfg calls s o ->
  forall key, key ∈ o <-> prepared (mc_tables (ob_cache s)) key.
Proof.
  intros Hrg Htb Hn H. induction H as [c Hi|calls s o call s' H IH Hp]; intros key.
  - split; [set_solver|]. simpl. unfold mc_init in Hi.
    destruct (init_tables _ cfg) as [tables| |] eqn:E; simpl in Hi; [|done..]. injection Hi as <-. simpl.
    assert (forall m cfg m', init_tables m cfg = Ok m' ->
      (forall n t i r, m !! n = Some t -> tb_regions t !! i = Some r -> rg_state r = Stale [] false) ->
      forall n t i r, m' !! n = Some t -> tb_regions t !! i = Some r -> rg_state r = Stale [] false) as Hst.
    { intros m cfg0. revert m. induction cfg0 as [|[name size] cfg0 IH0]; intros m m'; simpl; [by intros [= <-]|].
      destruct (table_create name size) as [t| |] eqn:Ec; simpl; [|done..]. intros H Hm. eapply IH0; [exact H|].
      intros n t' i r. destruct (decide (name = n)) as [<-|e].
      - rewrite lookup_insert. intros [= <-]. unfold table_create in Ec. destruct (size =? 0); [done|]. injection Ec as <-.
        cbn [tb_regions]. rewrite lookup_regions0. destruct (decide _); [|done]. by intros [= <-].
      - rewrite lookup_insert_ne by done. apply Hm. }
    intros (t & r & w & Ht & Hr & Hs). exfalso.
    assert (rg_state r = Stale [] false) as Hs'; [|congruence].
    eapply (Hst _ cfg tables E); [|exact Ht|exact Hr]. simpl. intros n t' i r'. by rewrite lookup_empty.
  - pose proof (history_tables _ _ _ _ _ _ _ Hn (outstanding_history _ _ _ _ _ _ _ _ H)) as Htab.
    assert (tables_wf (size_of cfg) (fun n => reports n (size_of cfg n) calls) (mc_tables (ob_cache s))) as Hwf.
    { intros n t Ht. specialize (Htab n). rewrite Ht in Htab. destruct Htab as (sz & Hs & Hok).
      by rewrite (size_of_in _ _ _ Hn Hs). }
    destruct call as [qs kind| |table m conflict|rs|]; simpl in Hp |- *.
    + unfold mc_resolve, resolve_create in Hp.
      destruct (split_all _ _) as [parts| |] eqn:Es; simpl in Hp; [|done..].
      destruct (register_all _ _ _ _) as [[T r]| |] eqn:Er; simpl in Hp; [|done..].
      destruct (maybe_deliver ro r) as [[r' o']| |] eqn:Ed; simpl in Hp; [|done..]. injection Hp as <-. simpl.
      rewrite (register_all_prepared _ _ _ _ _ _ _ Er). apply IH.
    + injection Hp as <-. simpl. rewrite mc_progress_tables, progress_prepared.
      destruct (progress_asked rgo tbo cfg s) as [_ ->].
      rewrite elem_of_union, IH, elem_of_list_to_set, elem_of_list_omap.
      assert ((exists op, op ∈ progress_ops rgo tbo (mc_tables (ob_cache s)) /\ op_region cfg op = Some key) <->
              needed (mc_tables (ob_cache s)) key) as Hx; [|by rewrite Hx].
      split.
      * intros (op & Hop & Hr). apply (progress_ops_spec rgo tbo Hrg Htb _ _ _ _ Hwf) in Hop as (idx & Hnd & Hk).
        unfold op_region in Hr. rewrite Hk in Hr. injection Hr as <-.
        destruct Hnd as (t & r & w & Ht & ?). simpl in Ht. destruct (Hwf _ _ Ht) as (_ & _ & Hnz & _).
        rewrite ?bounds_idx, ?N.div_mul by done. by exists t, r, w.
      * intros Hnd. destruct key as [n idx].
        exists (TabletOp n (Some (OpList (region_bounds (size_of cfg n) idx).1 (region_bounds (size_of cfg n) idx).2))). split.
        -- apply (progress_ops_spec rgo tbo Hrg Htb _ _ _ _ Hwf). by exists idx.
        -- unfold op_region. simpl. destruct Hnd as (t & r & w & Ht & ?). simpl in Ht.
           destruct (Hwf _ _ Ht) as (_ & _ & Hnz & _). by rewrite ?bounds_idx, ?N.div_mul.
    + injection Hp as <-. simpl. unfold mc_update. destruct (mc_tables (ob_cache s) !! table) as [t|] eqn:Et; simpl.
      * rewrite (update_tablet_prepared _ _ _ _ _ _ Et). destruct (Hwf _ _ Et) as (_ & -> & _).
        destruct conflict; [|rewrite IH; split; [intros ?; split; [done|]; by intros [? _]|by intros [? _]]].
        rewrite elem_of_difference, IH, elem_of_singleton. split; intros [? Hx]; (split; [done|]); [|tauto].
        intros [_ ?]. by apply Hx.
      * destruct conflict; [|apply IH]. rewrite elem_of_difference, IH, elem_of_singleton. split; [by intros [? _]|].
        intros Hx. split; [done|]. intros ->. destruct Hx as (t & _ & _ & Ht & _). simpl in Ht. congruence.
    + destruct (mc_response ro (ob_cache s) rs) as [c| |] eqn:E; simpl in Hp; [|done..]. injection Hp as <-. simpl.
      rewrite (mc_response_prepared _ _ _ _ _ _ _ Hwf E), elem_of_difference, IH, elem_of_list_to_set. done.
    + injection Hp as <-. simpl. apply IH.
Qed.
