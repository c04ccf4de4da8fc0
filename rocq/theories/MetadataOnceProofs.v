(** Proofs that resolve requests are answered once, that proper calls never
    abort and that list requests are neither lost nor repeated. *)
From Verif Require Import Base TabletModel MetadataModel MetadataSpec MetadataProofs MetadataRequestProofs.
Local Arguments region_bounds : simpl never.
Local Arguments regions_count : simpl never.
Local Arguments N.div : simpl never.
Local Arguments N.sub : simpl never.
Local Arguments N.add : simpl never.
Local Arguments N.mul : simpl never.
Local Arguments ascending : simpl never.
Local Arguments N.ltb : simpl never.
Local Arguments N.eqb : simpl never.

(** Request [i] is registered for region [key], or about to be told ([L], [key0]). *)
Definition once_inv (T : gmap string table_cache) (key0 : string * N) (L : list N) (R : gmap N resolve)
    (D : list (N * list resolved)) : Prop :=
  (forall key, NoDup (waiting T key)) /\
  NoDup L /\
  (L <> [] -> waiting T key0 = []) /\
  (forall i key, i ∈ waiting T key \/ key = key0 /\ i ∈ L -> exists r, R !! i = Some r /\ is_Some (rs_pending r !! key)) /\
  NoDup (map fst D) /\
  (forall i r, i ∈ map fst D -> R !! i = Some r -> rs_pending r = ∅) /\
  (forall i, i ∈ map fst D -> is_Some (R !! i)) /\
  (forall i r, R !! i = Some r -> rs_set r = true -> i ∈ map fst D).

Lemma maybe_deliver_once ro r D i :
  rs_set r = false -> i ∉ map fst D -> NoDup (map fst D) ->
  exists r' o, maybe_deliver ro r = Ok (r', o) /\ rs_pending r' = rs_pending r /\
    NoDup (map fst (deliver D i o)) /\
    (forall j, j ∈ map fst (deliver D i o) <-> j ∈ map fst D \/ j = i /\ rs_pending r = ∅) /\
    (rs_set r' = true -> i ∈ map fst (deliver D i o)).
Proof.
  intros Hs Hi Hn. unfold maybe_deliver. destruct (decide (rs_pending r = ∅)) as [He|He].
  - destruct (rs_kind r); rewrite ?Hs; eexists _, _; (split; [reflexivity|]); simpl; rewrite map_app; simpl;
      (split_and!; [done| | |]).
    + apply NoDup_app. split_and!; [done|intros x Hx Hy; apply elem_of_list_singleton in Hy; by subst|apply NoDup_singleton].
    + intros j. rewrite elem_of_app, elem_of_list_singleton. tauto.
    + intros _. set_solver.
    + apply NoDup_app. split_and!; [done|intros x Hx Hy; apply elem_of_list_singleton in Hy; by subst|apply NoDup_singleton].
    + intros j. rewrite elem_of_app, elem_of_list_singleton. tauto.
    + done.
  - eexists _, _. split; [done|]. simpl. split_and!; [done|done| |by rewrite Hs]. intros j. tauto.
Qed.

Lemma try_resolve_outcome reps size T name t idx q r ids :
  tables_wf size reps T -> T !! name = Some t -> tb_regions t !! idx = Some r -> region_fresh r = Some ids ->
  (exists out, try_resolve t idx q = Ok (Some out)) \/ (try_resolve t idx q = Panic /\ ids = ∅).
Proof.
  intros Hwf Ht Er Ef. destruct (Hwf _ _ Ht) as (_&_&_&_&_&K6).
  destruct (decide (ids = ∅)) as [->|Hne].
  - right. split; [|done]. unfold try_resolve. rewrite Er, Ef. reflexivity.
  - left. destruct (try_resolve_sound t idx q r ids Er Ef Hne) as (out & H & _); [by eapply K6|by eexists].
Qed.

Lemma notify_all_once ro reps size T name t idx r ids L R D :
  tables_wf size reps T -> T !! name = Some t -> tb_regions t !! idx = Some r -> region_fresh r = Some ids ->
  once_inv T (name, idx) L R D ->
  (exists R' D', notify_all ro t name idx R D L = Ok (R', D') /\ once_inv T (name, idx) [] R' D') \/
  (notify_all ro t name idx R D L = Panic /\ ids = ∅).
Proof.
  intros Hwf Ht Er Ef. revert R D. induction L as [|i L IH]; intros R D Hinv; simpl.
  - left. by exists R, D.
  - destruct Hinv as (E1 & E2 & E3 & E4 & E5 & E6 & E7 & E8).
    specialize (E3 ltac:(done)). apply NoDup_cons in E2 as [Hil E2].
    destruct (E4 i (name, idx)) as (ri & Hri & q & Hq); [right; split; [done|set_solver]|].
    rewrite Hri. unfold results_fresh. rewrite Hq.
    destruct (try_resolve_outcome reps size T name t idx q r ids Hwf Ht Er Ef) as [[out Ho]|[Ho He]].
    2:{ right. by rewrite Ho. }
    rewrite Ho. simpl.
    assert (i ∉ map fst D) as HiD.
    { intros Hx. rewrite (E6 i ri Hx Hri) in Hq. by rewrite lookup_empty in Hq. }
    assert (rs_set ri = false) as Hset.
    { destruct (rs_set ri) eqn:Es; [|done]. exfalso. by apply HiD, (E8 i ri). }
    destruct (maybe_deliver_once ro
      (append_results (Resolve (rs_kind ri) (delete (name, idx) (rs_pending ri)) (rs_partial ri) (rs_set ri)) out) D i)
      as (r' & o & M1 & M2 & M3 & M4 & M5); [done..|].
    rewrite M1. simpl. simpl in M2, M4.
    apply IH. split_and!; try done.
    + intros j key Hj.
      assert (j ∈ waiting T key \/ key = (name, idx) /\ j ∈ i :: L) as Hj' by set_solver.
      destruct (E4 j key Hj') as (rj & Hrj & Hk). destruct (decide (i = j)) as [<-|e].
      * rewrite lookup_insert. eexists. split; [done|]. rewrite M2.
        rewrite lookup_delete_ne; [congruence|]. intros <-. destruct Hj as [Hj|[_ Hj]]; [|done].
        rewrite E3 in Hj. by apply elem_of_nil in Hj.
      * rewrite lookup_insert_ne by done. by exists rj.
    + intros j rj Hj. rewrite M4 in Hj. destruct (decide (i = j)) as [<-|e].
      * rewrite lookup_insert. intros [= <-]. rewrite M2. destruct Hj as [Hj|[_ Hj]]; [done|done].
      * rewrite lookup_insert_ne by done. destruct Hj as [Hj|[-> _]]; [by apply E6|done].
    + intros j Hj. rewrite M4 in Hj. destruct (decide (i = j)) as [<-|e].
      * rewrite lookup_insert. by eexists.
      * rewrite lookup_insert_ne by done. destruct Hj as [Hj|[-> _]]; [by apply E7|done].
    + intros j rj. destruct (decide (i = j)) as [<-|e].
      * rewrite lookup_insert. intros [= <-] Hs. by apply M5.
      * rewrite lookup_insert_ne by done. intros Hrj Hs. apply M4. left. by eapply E8.
Qed.

Lemma once_inv_key T key0 key1 R D : once_inv T key0 [] R D -> once_inv T key1 [] R D.
Proof.
  intros (E1 & E2 & E3 & E4 & E5 & E6 & E7 & E8). split_and!; try done.
  intros i key [H|[_ H]]; [|by apply elem_of_nil in H]. apply E4. by left.
Qed.

Lemma notify_nil ro t name idx R D : notify_all ro t name idx R D [] = Ok (R, D).
Proof. done. Qed.

(** Every region that is up to date lists a tablet. *)
Definition nonempty_lists (T : gmap string table_cache) : Prop :=
  forall name t idx r ids, T !! name = Some t -> tb_regions t !! idx = Some r -> region_fresh r = Some ids -> ids <> ∅.
Definition proper_result (r : op_result) : Prop :=
  exists from to tablets, or_detail r = Some (ListResult from to tablets) /\ (or_status r = OpSucceeded -> tablets <> []).

Lemma mc_result_once ro size reps req c r key0 :
  values_order ro ->
  cache_sound size reps req c -> once_inv (mc_tables c) key0 [] (mc_resolves c) (mc_delivered c) ->
  (forall c', mc_result ro c r = Ok c' -> once_inv (mc_tables c') key0 [] (mc_resolves c') (mc_delivered c')) /\
  (nonempty_lists (mc_tables c) -> proper_result r ->
   exists c', mc_result ro c r = Ok c' /\ nonempty_lists (mc_tables c')).
Proof.
  intros Hro Hsound Hinv. unfold mc_result, proper_result.
  destruct (or_detail r) as [[from to ts| |]|];
    [|split; [done|intros _ (?&?&?&?&_); done]..].
  destruct (mc_tables c !! or_table r) as [t|] eqn:Et.
  2:{ split; [by intros c' [= <-]|]. intros Hne _. by exists c. }
  set (tablets := if decide (or_status r = OpSucceeded) then Some ts else None).
  destruct (table_update_region t from tablets) as [[t' idx] notify] eqn:Eu.
  pose proof (update_region_waiting _ _ _ _ _ _ _ _ (or_table r, idx) Et Eu) as Hw.
  rewrite decide_True in Hw by done.
  assert (forall key, key <> (or_table r, idx) -> waiting (<[or_table r := t']> (mc_tables c)) key = waiting (mc_tables c) key) as Hw'.
  { intros key e. rewrite (update_region_waiting _ _ _ _ _ _ _ _ key Et Eu). by rewrite decide_False. }
  destruct Hsound as [Hwf Hreq].
  pose proof (update_region_ok _ _ _ _ _ _ _ _ _ (Hwf _ _ Et) Eu) as Hok.
  set (reps' := fun n => if decide (n = or_table r) then reps (or_table r) ++
          (if decide (from / size (or_table r) < u32_max / size (or_table r)) then default [] tablets else []) else reps n).
  assert (tables_wf size reps' (<[or_table r := t']> (mc_tables c))) as Hwf'.
  { eapply tables_wf_insert; [exact Hwf| |].
    - unfold reps'. rewrite decide_True by done. exact Hok.
    - intros n e. unfold reps'. by rewrite decide_False. }
  assert (once_inv (<[or_table r := t']> (mc_tables c)) (or_table r, idx) notify (mc_resolves c) (mc_delivered c)) as Hinv'.
  { destruct Hinv as (E1 & E2 & E3 & E4 & E5 & E6 & E7 & E8).
    pose proof (E1 (or_table r, idx)) as En. rewrite Hw in En. apply NoDup_app in En as (N1 & N2 & N3).
    split_and!; try done.
    - intros key. destruct (decide (key = (or_table r, idx))) as [->|e]; [done|]. rewrite Hw' by done. apply E1.
    - intros Hne. unfold table_update_region in Eu.
      destruct (tb_regions t !! map_region (tb_size t) from) as [rg|] eqn:Eg; [|by injection Eu as <- <- <-].
      destruct tablets as [ts'|]; [|by injection Eu as <- <- <-].
      simpl in Eu. injection Eu as <- <- <-. rewrite waiting_insert. simpl. by rewrite lookup_insert.
    - intros i key Hi. apply E4. left. destruct (decide (key = (or_table r, idx))) as [->|e].
      + rewrite Hw. apply elem_of_app. destruct Hi as [Hi|[_ Hi]]; [by right|by left].
      + rewrite Hw' in Hi by done. destruct Hi as [Hi|[? _]]; done. }
  destruct notify as [|i0 notify0] eqn:Enot.
  - rewrite notify_nil. simpl. split.
    + intros c' [= <-]. simpl. by eapply once_inv_key.
    + intros Hne (from' & to' & ts' & [= <- <- <-] & Hts). eexists. split; [done|]. simpl.
      intros n tn i rg ids. destruct (decide (or_table r = n)) as [<-|e].
      * rewrite lookup_insert. intros [= <-]. unfold table_update_region in Eu.
        destruct (tb_regions t !! map_region (tb_size t) from) as [rg0|] eqn:Eg; [|injection Eu as <- <-; by apply (Hne (or_table r) t i rg ids Et)].
        unfold tablets in Eu. destruct (decide (or_status r = OpSucceeded)) as [Hst|Hst]; injection Eu as <- <-; simpl.
        -- destruct (decide (map_region (tb_size t) from = i)) as [<-|e'].
           ++ rewrite lookup_insert. intros [= <-] [= <-]. destruct ts as [|x ts]; [by apply Hts in Hst|]. simpl. set_solver.
           ++ rewrite lookup_insert_ne by done. by apply (Hne (or_table r) t i rg ids Et).
        -- destruct (decide (map_region (tb_size t) from = i)) as [<-|e'].
           ++ by rewrite lookup_insert; intros [= <-].
           ++ rewrite lookup_insert_ne by done. by apply (Hne (or_table r) t i rg ids Et).
      * rewrite lookup_insert_ne by done. by apply Hne.
  - (* somebody is told: the region was just listed *)
    assert (exists rg0, tb_regions t !! map_region (tb_size t) from = Some rg0 /\ or_status r = OpSucceeded) as (rg0 & Eg & Hst).
    { unfold table_update_region in Eu. destruct (tb_regions t !! map_region (tb_size t) from) as [rg0|]; [|done].
      exists rg0. split; [done|]. unfold tablets in Eu. destruct (decide (or_status r = OpSucceeded)); [done|]. by injection Eu. }
    assert (t' = set_regions (set_tablets t (foldl insert_latest (tb_tablets t) ts))
                  (<[map_region (tb_size t) from := Region Fresh (list_to_set (map tm_id ts))]> (tb_regions t)) /\
            idx = map_region (tb_size t) from) as [Ht' Hidx].
    { unfold table_update_region in Eu. rewrite Eg in Eu. unfold tablets in Eu. rewrite decide_True in Eu by done.
      simpl in Eu. by injection Eu as <- <- _. }
    destruct (notify_all_once ro reps' size (<[or_table r := t']> (mc_tables c)) (or_table r) t' idx
      (Region Fresh (list_to_set (map tm_id ts))) (list_to_set (map tm_id ts)) (i0 :: notify0) (mc_resolves c) (mc_delivered c))
      as [(R' & D' & H1 & H2)|[H1 H2]].
    + done.
    + by rewrite lookup_insert.
    + rewrite Ht', Hidx. simpl. by rewrite lookup_insert.
    + done.
    + done.
    + rewrite H1. simpl. split.
      * intros c' [= <-]. simpl. by eapply once_inv_key.
      * intros Hne (from' & to' & ts' & [= <- <- <-] & Hts). eexists. split; [done|]. simpl.
        intros n tn i rg ids. destruct (decide (or_table r = n)) as [<-|e].
        -- rewrite lookup_insert. intros [= <-]. rewrite Ht'. simpl.
           destruct (decide (map_region (tb_size t) from = i)) as [<-|e'].
           ++ rewrite lookup_insert. intros [= <-] [= <-]. destruct ts as [|x ts]; [by apply Hts in Hst|]. simpl. set_solver.
           ++ rewrite lookup_insert_ne by done. by apply (Hne (or_table r) t i rg ids Et).
        -- rewrite lookup_insert_ne by done. by apply Hne.
    + rewrite H1. simpl. split; [done|]. intros Hne (from' & to' & ts' & [= <- <- <-] & Hts).
      exfalso. destruct ts as [|x ts]; [by apply Hts in Hst|]. simpl in H2. set_solver.
Qed.

Lemma mc_response_once ro size reps req rs c key0 :
  values_order ro ->
  cache_sound size reps req c -> once_inv (mc_tables c) key0 [] (mc_resolves c) (mc_delivered c) ->
  (forall c', mc_response ro c rs = Ok c' -> once_inv (mc_tables c') key0 [] (mc_resolves c') (mc_delivered c')) /\
  (nonempty_lists (mc_tables c) -> Forall proper_result rs ->
   exists c', mc_response ro c rs = Ok c' /\ nonempty_lists (mc_tables c')).
Proof.
  intros Hro. revert reps c. induction rs as [|r rs IH]; intros reps c Hs Hi; simpl.
  - split; [by intros c' [= <-]|]. intros Hne _. by exists c.
  - destruct (mc_result_once ro size reps req c r key0 Hro Hs Hi) as [H1 H2]. split.
    + intros c'. destruct (mc_result ro c r) as [c1| |] eqn:E; simpl; [|done..].
      pose proof (mc_result_sound size ro Hro _ _ _ _ _ Hs E) as Hs1.
      by apply (IH _ c1 Hs1 (H1 c1 eq_refl)).
    + intros Hne Hp. apply Forall_cons in Hp as [Hp1 Hp2].
      destruct (H2 Hne Hp1) as (c1 & E & Hne1). rewrite E. simpl.
      pose proof (mc_result_sound size ro Hro _ _ _ _ _ Hs E) as Hs1.
      by apply (IH _ c1 Hs1 (H1 c1 E)).
Qed.

(** The parts of a request: different regions. *)
Definition part_key (p : table_query * N) : string * N := (tq_table p.1, p.2).
Lemma split_query_keys t q parts :
  tb_size t <> 0 -> tb_size t <= u32_max -> (forall h, h ∈ tq_hashes q -> h <= u32_max) ->
  split_query t q = Ok parts ->
  NoDup (map part_key parts) /\ (forall p, p ∈ parts -> tq_table p.1 = tq_table q).
Proof.
  intros Hs Hm Hh Hp. destruct (split_query_spec t q Hs Hm Hh) as (parts' & H1 & H2 & H3 & _).
  rewrite Hp in H1. injection H1 as <-. split.
  - clear Hp. induction H3 as [|p parts H3 IH Hf]; simpl; [constructor|].
    apply Forall_cons in H2 as [H2 H2']. constructor; [|by apply IH].
    intros Hx. apply elem_of_list_fmap in Hx as (p' & Hk & Hp'). rewrite Forall_forall in Hf. specialize (Hf p' Hp').
    unfold part_key in Hk. injection Hk as _ Hk. lia.
  - intros p Hin. rewrite Forall_forall in H2. by destruct (H2 p Hin) as (_ & H & _).
Qed.
Lemma split_all_keys size reps T qs parts :
  tables_wf size reps T -> (forall n, size n <= u32_max) -> (forall q h, q ∈ qs -> h ∈ tq_hashes q -> h <= u32_max) ->
  NoDup (map tq_table qs) -> split_all T qs = Ok parts ->
  NoDup (map part_key parts) /\ (forall p, p ∈ parts -> tq_table p.1 ∈ map tq_table qs).
Proof.
  intros Hwf Hsz. revert parts. induction qs as [|q qs IH]; intros parts Hh Hn; simpl.
  - intros [= <-]. split; [constructor|]. intros p Hp. by apply elem_of_nil in Hp.
  - destruct (T !! tq_table q) as [t|] eqn:Et; simpl; [|done].
    destruct (split_query t q) as [l| |] eqn:Es; simpl; [|done..].
    destruct (split_all T qs) as [more| |] eqn:Ea; simpl; [|done..]. intros [= <-].
    destruct (Hwf _ _ Et) as (K1&K2&K3&_). apply NoDup_cons in Hn as [Hq Hn].
    destruct (split_query_keys t q l) as [A1 A2]; [congruence|rewrite K2; apply Hsz|intros h Hx; eapply Hh; [by left|done]|done|].
    destruct (IH more) as [B1 B2]; [set_solver|done|done|].
    split.
    + rewrite map_app. apply NoDup_app. split_and!; [done| |done].
      intros key H1 H2. apply elem_of_list_fmap in H1 as (p1 & -> & H1). apply elem_of_list_fmap in H2 as (p2 & Hk & H2).
      apply Hq. specialize (B2 p2 H2). unfold part_key in Hk. injection Hk as Hk _.
      rewrite <- (A2 p1 H1), Hk. done.
    + intros p Hp. apply elem_of_app in Hp as [Hp|Hp]; [rewrite (A2 p Hp); set_solver|specialize (B2 p Hp); set_solver].
Qed.

(** While request [i] is being registered: the others are as before, and [i]
    waits exactly where it has something pending. *)
Lemma register_all_once i T r parts T' r' :
  (forall key, NoDup (waiting T key)) ->
  (forall key, i ∈ waiting T key <-> is_Some (rs_pending r !! key)) ->
  NoDup (map part_key parts) -> (forall p, p ∈ parts -> rs_pending r !! part_key p = None) ->
  register_all i T r parts = Ok (T', r') ->
  (forall key, NoDup (waiting T' key)) /\
  (forall key, i ∈ waiting T' key <-> is_Some (rs_pending r' !! key)) /\
  (forall j key, j <> i -> j ∈ waiting T' key <-> j ∈ waiting T key) /\
  rs_set r' = rs_set r.
Proof.
  revert T r. induction parts as [|[q idx] parts IH]; intros T r H1 H2 Hn Hp; simpl.
  - by intros [= <- <-].
  - simpl in Hn. apply NoDup_cons in Hn as [Hk Hn].
    destruct (T !! tq_table q) as [t|] eqn:Et; simpl; [|done].
    destruct (try_resolve t idx q) as [[l|]| |] eqn:Er; simpl; [| |done..].
    + intros H. apply IH in H; [done|done|done|done|]. intros p Hx. apply (Hp p). by right.
    + assert (is_Some (tb_regions t !! idx)) as Hi.
      { unfold try_resolve in Er. by destruct (tb_regions t !! idx). }
      destruct (table_register t i idx) as [t'| |] eqn:Eg; simpl; [|done..]. intros H.
      pose proof (table_register_waiting _ _ _ _ _ _ Et Eg Hi) as Hw.
      pose proof (Hp (q, idx) ltac:(by left)) as Hnone. unfold part_key in Hnone. simpl in Hnone.
      assert (i ∉ waiting T (tq_table q, idx)) as Hni.
      { rewrite H2, Hnone. by intros [? ?]. }
      apply IH in H as (A1 & A2 & A3 & A4).
      * split_and!; try done. intros j key e. rewrite A3 by done. rewrite Hw. destruct (decide _); [|done].
        rewrite elem_of_app, elem_of_list_singleton. tauto.
      * intros key. rewrite Hw. destruct (decide _) as [->|]; [|done]. apply NoDup_app.
        split_and!; [done| |apply NoDup_singleton]. intros x Hx Hy. apply elem_of_list_singleton in Hy. by subst.
      * intros key. rewrite Hw. simpl. destruct (decide (key = (tq_table q, idx))) as [->|e].
        -- rewrite lookup_insert. split; [by eexists|]. intros _. set_solver.
        -- rewrite lookup_insert_ne by done. apply H2.
      * done.
      * intros p Hx. simpl. rewrite lookup_insert_ne; [apply Hp; by right|].
        intros e. apply Hk. change (part_key (q, idx)) with (tq_table q, idx). rewrite e.
        apply elem_of_list_fmap. by exists p.
Qed.

Lemma register_all_ok size reps i T r parts :
  tables_wf size reps T -> nonempty_lists T ->
  Forall (fun p => is_Some (T !! tq_table p.1) /\ p.2 < u32_max / size (tq_table p.1)) parts ->
  exists T' r', register_all i T r parts = Ok (T', r').
Proof.
  intros Hwf Hne Hp. revert T r Hwf Hne Hp. induction parts as [|[q idx] parts IH]; intros T r Hwf Hne Hp; simpl; [by eexists _, _|].
  apply Forall_cons in Hp as [[[t Ht] Hidx] Hp]. simpl in Ht, Hidx. rewrite Ht. simpl.
  destruct (Hwf _ _ Ht) as (K1&K2&K3&K4&K5&K6).
  destruct (proj2 (K4 idx)) as [rg Hrg]; [done|].
  destruct (region_fresh rg) as [ids|] eqn:Ef.
  - destruct (try_resolve_outcome reps size T (tq_table q) t idx q rg ids Hwf Ht Hrg Ef) as [[out Ho]|[_ He]].
    + rewrite Ho. simpl. by apply IH.
    + by apply (Hne _ _ _ _ _ Ht Hrg) in Ef.
  - assert (try_resolve t idx q = Ok None) as ->. { unfold try_resolve. by rewrite Hrg, Ef. }
    simpl. assert (exists t', table_register t i idx = Ok t') as [t' Ht'].
    { unfold table_register. rewrite Hrg. unfold region_register. unfold region_fresh in Ef.
      destruct (rg_state rg); [|done]. simpl. by eexists. }
    rewrite Ht'. simpl. pose proof (table_register_like _ _ _ _ Ht') as Hl.
    apply IH.
    + eapply like_wf; [|exact Hwf]. by eapply tables_like_insert.
    + intros n tn j rj ids. destruct (decide (tq_table q = n)) as [<-|e].
      * rewrite lookup_insert. intros [= <-] Hj Hf. destruct Hl as (_&_&_&Hl). specialize (Hl j). rewrite Hj in Hl.
        destruct (tb_regions t !! j) as [rj0|] eqn:Ej; [|done]. simpl in Hl. injection Hl as Hl.
        apply (Hne _ _ _ _ ids Ht Ej). congruence.
      * rewrite lookup_insert_ne by done. apply Hne.
    + eapply Forall_impl; [exact Hp|]. intros p [Hs Hx]. split; [|done].
      destruct (decide (tq_table q = tq_table p.1)) as [->|e]; [rewrite lookup_insert; by eexists|].
      by rewrite lookup_insert_ne.
Qed.

Lemma like_nonempty T T' : tables_like T T' -> nonempty_lists T -> nonempty_lists T'.
Proof.
  intros Hl Hne n t i r ids Ht Hr Hf. specialize (Hl n). rewrite Ht in Hl. destruct (T !! n) as [t0|] eqn:E; [|done].
  destruct Hl as (_&_&_&Hl). specialize (Hl i). rewrite Hr in Hl.
  destruct (tb_regions t0 !! i) as [r0|] eqn:Er; [|done]. simpl in Hl. injection Hl as Hl.
  apply (Hne _ _ _ _ ids E Er). congruence.
Qed.

Definition once_cache (c : metadata_cache) : Prop :=
  once_inv (mc_tables c) ("", 0) [] (mc_resolves c) (mc_delivered c).

Lemma perform_once ro rgo tbo cfg calls s call s' :
  values_order ro -> sizes_u32 cfg -> hashes_u32 [call] -> one_query_per_table [call] ->
  cache_inv cfg calls (ob_cache s) -> once_cache (ob_cache s) ->
  perform ro rgo tbo s call = Ok s' -> once_cache (ob_cache s').
Proof.
  intros Hro Hsz Hh Ho [[Hwf Hreq] Hcnt] Hinv.
  destruct call as [qs kind| |table m conflict|rs|]; simpl.
  - unfold mc_resolve, resolve_create.
    destruct (split_all _ _) as [parts| |] eqn:Es; simpl; [|done..].
    destruct (register_all _ _ _ _) as [[T r]| |] eqn:Er; simpl; [|done..].
    destruct (maybe_deliver ro r) as [[r' o]| |] eqn:Ed; simpl; [|done..]. intros [= <-].
    set (i := mc_resolve_counter (ob_cache s) + 1) in *.
    assert (mc_resolves (ob_cache s) !! i = None) as Hnr.
    { destruct Hreq as (H1 & _ & _). destruct (mc_resolves (ob_cache s) !! i) as [x|] eqn:E; [|done].
      destruct (H1 _ _ E) as (? & Hx & _). rewrite request_None in Hx; [done|]. unfold i. lia. }
    destruct Hinv as (E1 & E2 & E3 & E4 & E5 & E6 & E7 & E8).
    assert (forall key, i ∉ waiting (mc_tables (ob_cache s)) key) as Hni.
    { intros key Hx. destruct (E4 i key) as (ri & Hri & _); [by left|]. congruence. }
    assert (i ∉ map fst (mc_delivered (ob_cache s))) as HiD.
    { intros Hx. destruct (E7 i Hx). congruence. }
    destruct (split_all_keys (size_of cfg) _ _ qs parts Hwf) as [Hk1 Hk2];
      [intros n; by apply size_of_u32|intros q h Hq; eapply Hh; [by left|done]|eapply Ho; by left|done|].
    eapply register_all_once in Er as (A1 & A2 & A3 & A4); [|done| |done|].
    2:{ intros key. simpl. rewrite lookup_empty. split; [by intros Hx; apply Hni in Hx|by intros [? ?]]. }
    2:{ intros p _. simpl. by rewrite lookup_empty. }
    simpl in A4. destruct (maybe_deliver_once ro r (mc_delivered (ob_cache s)) i) as (r1 & o1 & M1 & M2 & M3 & M4 & M5); [done..|].
    rewrite Ed in M1. injection M1 as <- <-.
    unfold once_cache. simpl. split_and!; try done; try apply NoDup_nil_2.
    + intros j key [Hj|[_ Hj]]; [|by apply elem_of_nil in Hj]. destruct (decide (j = i)) as [->|e].
      * rewrite lookup_insert. eexists. split; [done|]. rewrite M2. by apply A2.
      * rewrite lookup_insert_ne by done. apply A3 in Hj; [|done]. apply E4. by left.
    + intros j rj Hj. rewrite M4 in Hj. destruct (decide (i = j)) as [<-|e].
      * rewrite lookup_insert. intros [= <-]. rewrite M2. destruct Hj as [Hj|[_ Hj]]; done.
      * rewrite lookup_insert_ne by done. destruct Hj as [Hj|[-> _]]; [by apply E6|done].
    + intros j Hj. rewrite M4 in Hj. destruct (decide (i = j)) as [<-|e].
      * rewrite lookup_insert. by eexists.
      * rewrite lookup_insert_ne by done. destruct Hj as [Hj|[-> _]]; [by apply E7|done].
    + intros j rj. destruct (decide (i = j)) as [<-|e].
      * rewrite lookup_insert. intros [= <-]. apply M5.
      * rewrite lookup_insert_ne by done. intros Hrj Hs. apply M4. left. by eapply E8.
  - intros [= <-]. simpl.
    assert (mc_resolves (mc_progress rgo tbo (ob_cache s)) = mc_resolves (ob_cache s) /\
            mc_delivered (mc_progress rgo tbo (ob_cache s)) = mc_delivered (ob_cache s)) as [Hr Hd].
    { unfold mc_progress. by destruct (concat _). }
    destruct Hinv as (E1 & E2 & E3 & E4 & E5 & E6 & E7 & E8). unfold once_cache. rewrite Hr, Hd, mc_progress_tables.
    split_and!; try done.
    + intros key. rewrite progress_waiting. apply E1.
    + intros i key. rewrite progress_waiting. apply E4.
  - intros [= <-]. simpl. unfold mc_update. destruct (mc_tables (ob_cache s) !! table) as [t|] eqn:Et; [|done].
    destruct Hinv as (E1 & E2 & E3 & E4 & E5 & E6 & E7 & E8). unfold once_cache. simpl.
    split_and!; try done.
    + intros key. rewrite update_tablet_waiting by done. apply E1.
    + intros i key. rewrite update_tablet_waiting by done. apply E4.
  - destruct (mc_response ro (ob_cache s) rs) as [c| |] eqn:E; simpl; [|done..]. intros [= <-]. simpl.
    destruct (mc_response_once ro (size_of cfg) _ _ rs (ob_cache s) ("", 0) Hro (conj Hwf Hreq) Hinv) as [H1 _].
    by apply H1.
  - by intros [= <-].
Qed.

Lemma init_once counter cfg c : mc_init (mc_create counter) cfg = Ok c -> NoDup (map fst cfg) -> once_cache c /\ nonempty_lists (mc_tables c).
Proof.
  intros Hi Hn. unfold mc_init in Hi.
  destruct (init_tables _ cfg) as [tables| |] eqn:E; simpl in Hi; [|done..]. injection Hi as <-.
  assert (forall m cfg m', init_tables m cfg = Ok m' ->
    (forall n t i r, m !! n = Some t -> tb_regions t !! i = Some r -> rg_state r = Stale [] false) ->
    forall n t i r, m' !! n = Some t -> tb_regions t !! i = Some r -> rg_state r = Stale [] false) as Hst.
  { intros m cfg0. revert m. induction cfg0 as [|[name size] cfg0 IH]; intros m m'; simpl; [by intros [= <-]|].
    destruct (table_create name size) as [t| |] eqn:Ec; simpl; [|done..]. intros H Hm. eapply IH; [exact H|].
    intros n t' i r. destruct (decide (name = n)) as [<-|e].
    - rewrite lookup_insert. intros [= <-]. unfold table_create in Ec. destruct (size =? 0); [done|]. injection Ec as <-.
      cbn [tb_regions]. rewrite lookup_regions0. destruct (decide _); [|done]. by intros [= <-].
    - rewrite lookup_insert_ne by done. apply Hm. }
  assert (forall n t i r, tables !! n = Some t -> tb_regions t !! i = Some r -> rg_state r = Stale [] false) as Hs.
  { eapply Hst; [exact E|]. intros n t i r. simpl. by rewrite lookup_empty. }
  assert (forall key, waiting tables key = []) as Hw.
  { intros [n i]. unfold waiting. simpl. destruct (tables !! n) as [t|] eqn:Et; [|done].
    destruct (tb_regions t !! i) as [r|] eqn:Er; [|done]. unfold region_waiting. by rewrite (Hs _ _ _ _ Et Er). }
  split.
  - unfold once_cache. cbn [mc_tables mc_resolves mc_delivered mc_create]. unfold once_inv. split_and!.
    + intros key. rewrite Hw. apply NoDup_nil_2.
    + apply NoDup_nil_2.
    + done.
    + intros i key. rewrite Hw. intros [H|[_ H]]; by apply elem_of_nil in H.
    + apply NoDup_nil_2.
    + intros i r H. by apply elem_of_nil in H.
    + intros i H. by apply elem_of_nil in H.
    + intros i r. by rewrite lookup_empty.
  - simpl. intros n t i r ids Ht Hr. unfold region_fresh. by rewrite (Hs _ _ _ _ Ht Hr).
Qed.

Lemma one_query_snoc calls call : one_query_per_table (calls ++ [call]) -> one_query_per_table calls /\ one_query_per_table [call].
Proof. intros H. split; intros qs k Hc; eapply H; apply elem_of_app; [by left|by right]. Qed.

Lemma history_once ro rgo tbo counter cfg calls s :
  values_order ro -> NoDup (map fst cfg) -> sizes_u32 cfg -> hashes_u32 calls -> one_query_per_table calls ->
  history ro rgo tbo counter cfg calls s -> once_cache (ob_cache s).
Proof.
  intros Hro Hn Hsz. revert s. induction calls as [|call calls IH] using rev_ind; intros s Hh Ho H.
  - destruct H as (c & Hi & [= <-]). by eapply init_once.
  - pose proof Hh as Hh'. apply hashes_u32_snoc in Hh as [Hh1 Hh2]. apply one_query_snoc in Ho as [Ho1 Ho2].
    apply history_snoc in H as (s0 & H1 & H2).
    eapply (perform_once ro rgo tbo cfg calls s0 call s); try done; [by eapply history_inv|by apply IH].
Qed.

Lemma perform_ok ro rgo tbo cfg calls s call :
  values_order ro -> sizes_u32 cfg -> NoDup (map fst cfg) ->
  tables_ok cfg (fun n sz => reports n sz calls) (mc_tables (ob_cache s)) ->
  cache_inv cfg calls (ob_cache s) -> once_cache (ob_cache s) -> nonempty_lists (mc_tables (ob_cache s)) ->
  proper_call cfg call -> exists s', perform ro rgo tbo s call = Ok s' /\ nonempty_lists (mc_tables (ob_cache s')).
Proof.
  intros Hro Hsz Hn Htab [[Hwf Hreq] Hcnt] Hinv Hne Hp.
  destruct call as [qs kind| |table m conflict|rs|]; simpl.
  - destruct Hp as [Hp1 Hp2]. unfold mc_resolve, resolve_create.
    set (T := mc_tables (ob_cache s)) in *.
    assert (forall q, q ∈ qs -> is_Some (T !! tq_table q)) as Hin.
    { intros q Hq. destruct (Hp2 q Hq) as [Hc _]. specialize (Htab (tq_table q)).
      destruct (T !! tq_table q); [by eexists|done]. }
    assert (forall q h, q ∈ qs -> h ∈ tq_hashes q -> h / size_of cfg (tq_table q) < u32_max / size_of cfg (tq_table q)) as Htr.
    { intros q h Hq Hh. destruct (Hp2 q Hq) as [_ Hc]. by apply Hc. }
    assert (exists parts, split_all T qs = Ok parts /\
      Forall (fun p => is_Some (T !! tq_table p.1) /\ p.2 < u32_max / size_of cfg (tq_table p.1)) parts) as (parts & Hsp & Hparts).
    { clear Hp1 Hp2. induction qs as [|q qs IH]; simpl; [exists []; split; [done|constructor]|].
      destruct (Hin q) as [t Ht]; [by left|]. rewrite Ht. simpl.
      destruct (Hwf _ _ Ht) as (K1&K2&K3&_).
      destruct (split_query_spec t q) as (l & L1 & L2 & L3 & L4).
      { congruence. }
      { rewrite K2. by apply size_of_u32. }
      { intros h Hh. specialize (Htr q h ltac:(by left) Hh).
        destruct (N.lt_ge_cases u32_max h) as [Hlt|]; [|done].
        pose proof (N.div_le_mono u32_max h (size_of cfg (tq_table q)) K3 ltac:(lia)). lia. }
      rewrite L1. simpl.
      destruct IH as (more & M1 & M2); [set_solver..|]. rewrite M1. simpl. eexists. split; [done|].
      apply Forall_app. split; [|done]. eapply Forall_impl; [exact L2|].
      intros p (A1 & A2 & A3 & A4). rewrite A2. split; [by eexists|].
      apply set_choose_L in A3 as [h Hh]. apply A4 in Hh as [Hh1 Hh2]. rewrite K2 in Hh2. rewrite <- Hh2.
      apply elem_of_ascending in Hh1. apply Htr; [by left|done]. }
    rewrite Hsp. simpl.
    destruct (register_all_ok (size_of cfg) _ (mc_resolve_counter (ob_cache s) + 1) T (Resolve kind ∅ ∅ false) parts Hwf Hne Hparts)
      as (T' & r' & Hr). rewrite Hr. simpl.
    assert (rs_set r' = false) as Hset.
    { assert (forall i T r parts T' r', register_all i T r parts = Ok (T', r') -> rs_set r' = rs_set r) as Hx.
      { intros i T0 r0 parts0. revert T0 r0. induction parts0 as [|[q idx] parts0 IH]; intros T0 r0 T1 r1; simpl; [by intros [= _ <-]|].
        destruct (T0 !! tq_table q) as [t|]; simpl; [|done].
        destruct (try_resolve t idx q) as [[l|]| |]; simpl; [by intros H; apply IH in H| |done..].
        destruct (table_register t i idx); simpl; [|done..]. intros H. by apply IH in H. }
      by apply Hx in Hr. }
    destruct (maybe_deliver_once ro r' [] 0) as (r1 & o & M1 & _); [done|set_solver|constructor|]. rewrite M1. simpl.
    eexists. split; [done|]. simpl. eapply like_nonempty; [|exact Hne]. by eapply register_all_like.
  - eexists. split; [done|]. simpl. rewrite mc_progress_tables. eapply like_nonempty; [apply progress_like|done].
  - eexists. split; [done|]. simpl. unfold mc_update. destruct (mc_tables (ob_cache s) !! table) as [t|] eqn:Et; [|done].
    simpl. intros n tn i r ids. destruct (decide (table = n)) as [<-|e]; [|rewrite lookup_insert_ne by done; apply Hne].
    rewrite lookup_insert. intros [= <-]. unfold table_update_tablet. simpl.
    destruct (tb_regions t !! map_region (tb_size t) (tm_id m)) as [r0|] eqn:Er; [|by apply (Hne _ _ _ _ _ Et)].
    destruct conflict; [|by apply (Hne _ _ _ _ _ Et)]. simpl.
    destruct (decide (map_region (tb_size t) (tm_id m) = i)) as [<-|e].
    + rewrite lookup_insert. by intros [= <-].
    + rewrite lookup_insert_ne by done. by apply (Hne _ _ _ _ _ Et).
  - destruct (mc_response_once ro (size_of cfg) _ _ rs (ob_cache s) ("", 0) Hro (conj Hwf Hreq) Hinv) as [_ H2].
    destruct H2 as (c' & H & Hne'); [done| |].
    { apply Forall_forall. intros r Hr. apply (Hp r Hr). }
    rewrite H. simpl. by eexists.
  - by eexists.
Qed.

Lemma proper_hashes cfg call :
  proper_call cfg call -> (forall n, size_of cfg n <> 0) -> hashes_u32 [call] /\ one_query_per_table [call].
Proof.
  intros Hp Hnz. split.
  - intros qs k q h Hc Hq Hh. apply elem_of_list_singleton in Hc as <-. destruct Hp as [_ Hp].
    destruct (Hp q Hq) as [_ Ht]. specialize (Ht h Hh). unfold tracked in Ht.
    destruct (N.lt_ge_cases u32_max h) as [Hlt|]; [|done].
    pose proof (N.div_le_mono u32_max h _ (Hnz (tq_table q)) ltac:(lia)). lia.
  - intros qs k Hc. apply elem_of_list_singleton in Hc as <-. by destruct Hp.
Qed.
Lemma init_tables_total m cfg : Forall (fun x => x.2 <> 0) cfg -> exists m', init_tables m cfg = Ok m'.
Proof.
  revert m. induction cfg as [|[n s] cfg IH]; intros m H; simpl; [by eexists|].
  apply Forall_cons in H as [H1 H2]. simpl in H1. unfold table_create. destruct (N.eqb_spec s 0); [done|]. simpl. by apply IH.
Qed.
Lemma history_total ro rgo tbo counter cfg calls :
  values_order ro -> NoDup (map fst cfg) -> sizes_u32 cfg -> Forall (fun x => x.2 <> 0) cfg ->
  Forall (proper_call cfg) calls ->
  exists s, history ro rgo tbo counter cfg calls s /\ nonempty_lists (mc_tables (ob_cache s)) /\
    hashes_u32 calls /\ one_query_per_table calls.
Proof.
  intros Hro Hn Hsz Hnz. induction calls as [|call calls IH] using rev_ind; intros Hp.
  - destruct (init_tables_total (mc_tables (mc_create counter)) cfg Hnz) as [m Hm].
    assert (exists c, mc_init (mc_create counter) cfg = Ok c) as [c Hc].
    { unfold mc_init. rewrite Hm. simpl. by eexists. }
    exists (Observed c []). split_and!.
    + by exists c.
    + by eapply init_once.
    + intros qs k q h Hx. by apply elem_of_nil in Hx.
    + intros qs k Hx. by apply elem_of_nil in Hx.
  - apply Forall_app in Hp as [Hp1 Hp2]. apply Forall_cons in Hp2 as [Hp2 _].
    destruct (IH Hp1) as (s & Hs & Hne & Hh & Ho).
    assert (forall n, size_of cfg n <> 0) as Hnz'.
    { intros n. unfold size_of. destruct (list_find _ cfg) as [[k [n' sz]]|] eqn:E; [|done].
      apply list_find_Some in E as (H1 & _). apply elem_of_list_lookup_2 in H1. rewrite Forall_forall in Hnz. by apply (Hnz _ H1). }
    destruct (proper_hashes _ _ Hp2 Hnz') as [Hh2 Ho2].
    destruct (perform_ok ro rgo tbo cfg calls s call) as (s' & Hs' & Hne'); try done.
    + by eapply history_tables.
    + by apply (history_inv ro rgo tbo counter cfg calls).
    + by apply (history_once ro rgo tbo counter cfg calls).
    + exists s'. split_and!.
      * apply history_snoc. by exists s.
      * done.
      * intros qs k q h Hx. apply elem_of_app in Hx as [Hx|Hx]; [by eapply Hh|by eapply Hh2].
      * intros qs k Hx. apply elem_of_app in Hx as [Hx|Hx]; [by eapply Ho|by eapply Ho2].
Qed.
