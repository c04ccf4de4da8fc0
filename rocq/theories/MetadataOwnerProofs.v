(** Proofs about resolving keys to the tablets of a listed region. *)
From Verif Require Import Base TabletModel MetadataModel MetadataSpec MetadataProofs MetadataRequestProofs.
Local Arguments region_bounds : simpl never.
Local Arguments regions_count : simpl never.
Local Arguments N.div : simpl never.
Local Arguments N.sub : simpl never.
Local Arguments N.add : simpl never.
Local Arguments N.mul : simpl never.
Local Arguments ascending : simpl never.
Local Arguments N.ltb : simpl never.
Local Arguments N.eqb : simpl never.

Lemma mc_response_app ro c a b : mc_response ro c (a ++ b) = (let! c := mc_response ro c a in mc_response ro c b).
Proof. revert c. induction a as [|r a IH]; intros c; simpl; [done|]. destruct (mc_result ro c r); simpl; [apply IH|done..]. Qed.
Lemma listing_fresh ro rgo tbo counter cfg calls rs table from to ts size s :
  NoDup (map fst cfg) -> (table, size) ∈ cfg ->
  history ro rgo tbo counter cfg
    (calls ++ [CallResponse (rs ++ [OpResult table OpSucceeded (Some (ListResult from to ts))])]) s ->
  from / size < u32_max / size ->
  exists t, mc_tables (ob_cache s) !! table = Some t /\
    tb_regions t !! (from / size) = Some (Region Fresh (list_to_set (map tm_id ts))).
Proof.
  intros Hn Hin H Hfrom. pose proof (history_tables _ _ _ _ _ _ _ Hn H table) as Htab.
  destruct (mc_tables (ob_cache s) !! table) as [t|] eqn:Et.
  2:{ exfalso. apply Htab. apply elem_of_list_fmap. by exists (table, size). }
  exists t. split; [done|]. destruct Htab as (size' & Hin' & (K1 & K2 & K3 & K4 & _)).
  assert (size' = size) as ->.
  { by rewrite <- (size_of_in _ _ _ Hn Hin), <- (size_of_in _ _ _ Hn Hin'). }
  apply history_snoc in H as (s0 & H1 & H2). simpl in H2.
  rewrite mc_response_app in H2. destruct (mc_response ro (ob_cache s0) rs) as [c1| |] eqn:E1; simpl in H2; [|done..].
  unfold mc_result in H2. simpl in H2.
  destruct (mc_tables c1 !! table) as [t1|] eqn:Et1.
  2:{ simpl in H2. injection H2 as <-. simpl in Et. congruence. }
  destruct (table_update_region t1 from (Some ts)) as [[t' idx] notify] eqn:Eu.
  destruct (notify_all _ _ _ _ _ _ _) as [[R D]| |]; simpl in H2; [|done..]. injection H2 as <-.
  simpl in Et. rewrite lookup_insert in Et. injection Et as <-.
  unfold table_update_region in Eu. 
  destruct (tb_regions t1 !! map_region (tb_size t1) from) as [rg|] eqn:Er.
  - simpl in Eu. injection Eu as <- <- <-. simpl in *. unfold map_region. rewrite K2. by rewrite lookup_insert.
  - injection Eu as <- <- <-. unfold map_region in Er. rewrite K2 in Er.
    destruct (proj2 (K4 (from / size)) Hfrom) as [? ?]. congruence.
Qed.

Lemma append_all_spec l :
  let m := foldl append_result (∅ : gmap (string * N) resolve_result) l in
  (forall key rr, m !! key = Some rr ->
    rr_table rr = key.1 /\ tm_id (rr_tablet rr) = key.2 /\
    (exists x, x ∈ l /\ rr_tablet rr = x.2 /\ rr_query rr = tq_id x.1 /\ (tq_table x.1, tm_id x.2) = key) /\
    forall h, h ∈ rr_hashes rr -> exists x, x ∈ l /\ h ∈ tq_hashes x.1 /\ (tq_table x.1, tm_id x.2) = key) /\
  (forall x h, x ∈ l -> h ∈ tq_hashes x.1 -> exists rr, m !! (tq_table x.1, tm_id x.2) = Some rr /\ h ∈ rr_hashes rr).
Proof.
  induction l as [|[q md] l IH] using rev_ind; simpl.
  { split; [intros key rr; by rewrite lookup_empty|]. intros x h Hx. by apply elem_of_nil in Hx. }
  rewrite foldl_app. simpl in *. destruct IH as [IH1 IH2].
  set (m := foldl append_result ∅ l) in *. split.
  - intros key rr. destruct (decide (key = (tq_table q, tm_id md))) as [->|e].
    + rewrite lookup_insert. intros [= <-]. simpl.
      destruct (m !! (tq_table q, tm_id md)) as [r0|] eqn:E; simpl.
      * destruct (IH1 _ _ E) as (A1 & A2 & (x & A3 & A4 & A5 & A7) & A6). simpl in *. split_and!; try done.
        -- exists x. split_and!; [set_solver|done..].
        -- intros h Hh. apply elem_of_app in Hh as [Hh|Hh].
           ++ destruct (A6 h Hh) as (y & ? & ? & ?). exists y. split_and!; [set_solver|done..].
           ++ apply elem_of_ascending in Hh. exists (q, md). split_and!; [set_solver|done..].
      * split_and!; try done.
        -- exists (q, md). split_and!; [set_solver|done..].
        -- intros h Hh. apply elem_of_ascending in Hh. exists (q, md). split_and!; [set_solver|done..].
    + rewrite lookup_insert_ne by done. intros Hr. destruct (IH1 _ _ Hr) as (A1 & A2 & (x & A3 & A4 & A5 & A7) & A6).
      split_and!; try done.
      * exists x. split_and!; [set_solver|done..].
      * intros h Hh. destruct (A6 h Hh) as (y & ? & ? & ?). exists y. split_and!; [set_solver|done..].
  - intros x h Hx Hh. destruct (decide ((tq_table x.1, tm_id x.2) = (tq_table q, tm_id md))) as [e|e].
    + rewrite e, lookup_insert. eexists. split; [done|]. simpl. apply elem_of_app.
      apply elem_of_app in Hx as [Hx|Hx].
      * destruct (IH2 x h Hx Hh) as (rr & Hr & Hhr). left. rewrite e in Hr. by rewrite Hr.
      * right. apply elem_of_list_singleton in Hx as ->. by apply elem_of_ascending.
    + rewrite lookup_insert_ne by done. apply elem_of_app in Hx as [Hx|Hx]; [by apply IH2|].
      by apply elem_of_list_singleton in Hx as ->.
Qed.

Lemma resolve_loop_keys t q all rest current hashes keys out :
  resolve_loop t q all rest current hashes keys = Ok out ->
  forall x h, x ∈ out -> h ∈ tq_hashes x.1 -> h ∈ hashes ++ keys.
Proof.
  assert (forall current hashes o, flush_result t q current hashes = Ok o ->
    forall x h, x ∈ o -> h ∈ tq_hashes x.1 -> h ∈ hashes) as Hf.
  { intros cur hs o. unfold flush_result. destruct hs as [|y hs]; [intros [= <-] x h Hx; by apply elem_of_nil in Hx|].
    destruct (tb_tablets t !! cur) as [m|]; simpl; [|done]. intros [= <-] x h Hx.
    apply elem_of_list_singleton in Hx as ->. cbn [fst]. by rewrite elem_of_query_from. }
  revert rest current hashes out. induction keys as [|k keys IH]; intros rest current hashes out; cbn [resolve_loop].
  - intros H x h Hx Hh. rewrite app_nil_r. by eapply Hf.
  - destruct (current <? k).
    + destruct (flush_result t q current hashes) as [o1| |] eqn:E1; cbn [res_bind]; [|done..].
      destruct (cycle_next all rest) as [[a rest']| |]; cbn [res_bind]; [|done..].
      destruct (resolve_loop t q all rest' a [] keys) as [o2| |] eqn:E2; cbn [res_bind]; [|done..].
      intros [= <-] x h Hx Hh. apply elem_of_app in Hx as [Hx|Hx].
      * pose proof (Hf _ _ _ E1 x h Hx Hh). set_solver.
      * pose proof (IH _ _ _ _ E2 x h Hx Hh). set_solver.
    + intros H x h Hx Hh. pose proof (IH _ _ _ _ H x h Hx Hh). set_solver.
Qed.

(** A query whose keys lie in one listed region is answered at once with the
    merged results of that region. *)
Lemma resolve_single ro t idx ids q c kind :
  values_order ro -> mc_tables c !! tq_table q = Some t ->
  0 < tb_size t <= u32_max -> (forall h, h ∈ tq_hashes q -> h <= u32_max) ->
  tb_regions t !! idx = Some (Region Fresh ids) -> ids <> ∅ -> listed t (Region Fresh ids) ->
  tq_hashes q <> ∅ -> (forall h, h ∈ tq_hashes q -> h / tb_size t = idx) ->
  exists out, try_resolve t idx q = Ok (Some out) /\
    mc_resolve ro c [q] kind = Ok (MetadataCache (mc_correlation c) (mc_resolve_counter c + 1) (mc_tables c)
      (<[mc_resolve_counter c + 1 := Resolve kind ∅ ∅ (match kind with ToSource => true | ToHandler => false end)]> (mc_resolves c))
      (mc_out c)
      (mc_delivered c ++ [(mc_resolve_counter c + 1, map take_result (ro (foldl append_result ∅ out)))])).
Proof.
  intros Hro Ht [Hs Hm] Hh Hr Hne Hl Hq Hidx.
  destruct (try_resolve_sound t idx q _ ids Hr eq_refl Hne Hl) as (out & Ho & _). exists out. split; [done|].
  unfold mc_resolve, resolve_create. simpl. rewrite Ht. simpl.
  destruct (split_query_spec t q) as (parts & P1 & P2 & P3 & P4); [lia|done|done|]. rewrite P1. simpl. rewrite app_nil_r.
  assert (parts = [(q, idx)]) as ->.
  { rewrite Forall_forall in P2.
    assert (forall p, p ∈ parts -> p = (q, idx)) as Hp.
    { intros [p i] Hp. destruct (P2 _ Hp) as (A1 & A2 & A3 & A4). simpl in *.
      apply set_choose_L in A3 as [h Hhp]. pose proof (proj1 (A4 h) Hhp) as [B1 B2]. apply elem_of_ascending in B1.
      rewrite (Hidx h B1) in B2. subst i. f_equal. destruct p as [pi pt ph], q as [qi qt qh]. simpl in *. subst.
      f_equal. apply set_eq. intros x. rewrite A4, elem_of_ascending. split; [by intros [? _]|]. intros Hx. split; [done|].
      by apply Hidx. }
    apply set_choose_L in Hq as [h Hhq]. destruct (P4 h Hhq) as (p & Hp1 & _).
    destruct parts as [|p1 [|p2 parts]]; [by apply elem_of_nil in Hp1|f_equal; apply Hp; set_solver|].
    exfalso. assert (p1 = (q, idx)) as -> by (apply Hp; set_solver).
    assert (p2 = (q, idx)) as -> by (apply Hp; set_solver).
    apply StronglySorted_inv in P3 as [_ P3]. apply Forall_cons in P3 as [P3 _]. simpl in P3. lia. }
  simpl. rewrite Ht. simpl. rewrite Ho. simpl. unfold maybe_deliver. simpl.
  rewrite decide_True by done. by destruct kind.
Qed.
