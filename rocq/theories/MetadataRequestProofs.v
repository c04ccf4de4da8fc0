(** Proofs about the resolve requests of the metadata cache: what is delivered,
    to whom and how often, and who waits for what. *)
From Verif Require Import Base TabletModel MetadataModel MetadataSpec MetadataProofs.
Local Arguments region_bounds : simpl never.
Local Arguments regions_count : simpl never.
Local Arguments N.div : simpl never.
Local Arguments N.sub : simpl never.
Local Arguments N.add : simpl never.
Local Arguments N.mul : simpl never.
Local Arguments ascending : simpl never.
Local Arguments N.ltb : simpl never.
Local Arguments N.eqb : simpl never.

(** * Who waits for a region *)
Definition region_waiting (r : region) : list N :=
  match rg_state r with Stale w _ => w | Fresh => [] end.
Definition waiting (T : gmap string table_cache) (key : string * N) : list N :=
  match T !! key.1 with
  | Some t => match tb_regions t !! key.2 with Some r => region_waiting r | None => [] end
  | None => []
  end.

Lemma waiting_insert T name t idx :
  waiting (<[name := t]> T) (name, idx) =
    match tb_regions t !! idx with Some r => region_waiting r | None => [] end.
Proof. unfold waiting. simpl. by rewrite lookup_insert. Qed.
Lemma waiting_insert_ne T name t key : key.1 <> name -> waiting (<[name := t]> T) key = waiting T key.
Proof. intros H. unfold waiting. by rewrite lookup_insert_ne. Qed.
Lemma waiting_lookup T name t idx :
  T !! name = Some t ->
  waiting T (name, idx) = match tb_regions t !! idx with Some r => region_waiting r | None => [] end.
Proof. intros H. unfold waiting. simpl. by rewrite H. Qed.

Lemma table_register_waiting T name t request idx t' :
  T !! name = Some t -> table_register t request idx = Ok t' ->
  is_Some (tb_regions t !! idx) ->
  forall key, waiting (<[name := t']> T) key =
    if decide (key = (name, idx)) then waiting T key ++ [request] else waiting T key.
Proof.
  intros Ht Hr [r Er] [n i]. unfold table_register in Hr. rewrite Er in Hr.
  unfold region_register in Hr. destruct (rg_state r) as [w p|] eqn:Es; simpl in Hr; [|done].
  injection Hr as <-. destruct (decide (n = name)) as [->|e].
  - rewrite waiting_insert, (waiting_lookup _ _ _ _ Ht). simpl.
    destruct (decide (i = idx)) as [->|e].
    + rewrite decide_True by done. rewrite lookup_insert, Er. unfold region_waiting. simpl. by rewrite Es.
    + rewrite decide_False by congruence. by rewrite lookup_insert_ne.
  - rewrite waiting_insert_ne by done. by rewrite decide_False by congruence.
Qed.
Lemma region_prepare_waiting r a b : region_waiting (region_prepare r a b).1 = region_waiting r.
Proof.
  unfold region_prepare, region_waiting. destruct (rg_state r) as [[|x w] []|] eqn:E; simpl; by rewrite ?E.
Qed.
Lemma progress_waiting rgo T key :
  waiting ((fun t => (table_prepare rgo t).1) <$> T) key = waiting T key.
Proof.
  unfold waiting. rewrite lookup_fmap. destruct (T !! key.1) as [t|]; [|done]. simpl.
  rewrite map_lookup_imap. destruct (tb_regions t !! key.2) as [r|]; [|done]. simpl.
  apply region_prepare_waiting.
Qed.
Lemma mark_stale_waiting r : region_waiting (region_mark_stale r) = region_waiting r.
Proof. unfold region_mark_stale, region_waiting. simpl. done. Qed.
Lemma update_tablet_waiting T name t m conflict key :
  T !! name = Some t -> waiting (<[name := table_update_tablet t m conflict]> T) key = waiting T key.
Proof.
  intros Ht. destruct key as [n i]. destruct (decide (n = name)) as [->|e]; [|by rewrite waiting_insert_ne].
  rewrite waiting_insert, (waiting_lookup _ _ _ _ Ht). unfold table_update_tablet. simpl.
  destruct (tb_regions t !! map_region (tb_size t) (tm_id m)) as [r|] eqn:E; [|done].
  destruct conflict; [|done]. simpl. destruct (decide (map_region (tb_size t) (tm_id m) = i)) as [<-|e].
  - rewrite lookup_insert, E. apply mark_stale_waiting.
  - by rewrite lookup_insert_ne.
Qed.
Lemma update_region_waiting T name t from tablets t' idx notify key :
  T !! name = Some t -> table_update_region t from tablets = (t', idx, notify) ->
  waiting T key = (if decide (key = (name, idx)) then notify else []) ++ waiting (<[name := t']> T) key.
Proof.
  intros Ht. destruct key as [n i]. unfold table_update_region.
  destruct (decide (n = name)) as [->|e].
  - rewrite waiting_insert, (waiting_lookup _ _ _ _ Ht).
    destruct (tb_regions t !! map_region (tb_size t) from) as [r|] eqn:E.
    + destruct tablets as [ts|]; intros [= <- <- <-]; simpl.
      * destruct (decide (i = map_region (tb_size t) from)) as [->|e].
        -- rewrite decide_True by done. rewrite lookup_insert, E. unfold region_waiting. simpl.
           by rewrite app_nil_r.
        -- rewrite decide_False by congruence. by rewrite lookup_insert_ne.
      * replace (if decide ((name, i) = (name, map_region (tb_size t) from)) then [] else [])
          with (@nil N) by by destruct (decide _). simpl.
        destruct (decide (i = map_region (tb_size t) from)) as [->|e].
        -- rewrite lookup_insert, E. by rewrite mark_stale_waiting.
        -- by rewrite lookup_insert_ne.
    + intros [= <- <- <-]. by destruct (decide _).
  - intros _. rewrite waiting_insert_ne by done. by rewrite decide_False by congruence.
Qed.

(** * Soundness of pending queries, partial results and deliveries *)
Definition part_of (qs : list table_query) (q : table_query) : Prop :=
  exists q0, q0 ∈ qs /\ tq_table q = tq_table q0 /\ tq_id q = tq_id q0 /\ tq_hashes q ⊆ tq_hashes q0.

Section Soundness.
Variable size : string -> N.
Variable known_reports : string -> list tablet_metadata.

(** A delivered result: its query id is that of a query for the table, its
    hashes were asked for and are not beyond the tablet, its tablet was reported. *)
Definition answer_sound (qs : list table_query) (x : resolved) : Prop :=
  x.2 ∈ known_reports (tq_table x.1) /\
  (exists q0, q0 ∈ qs /\ tq_table q0 = tq_table x.1 /\ tq_id q0 = tq_id x.1) /\
  forall h, h ∈ tq_hashes x.1 -> asks_any qs (tq_table x.1) h /\ h <= tm_id x.2.

Definition pending_sound (qs : list table_query) (m : gmap (string * N) table_query) : Prop :=
  forall key q, m !! key = Some q ->
    key.1 = tq_table q /\ part_of qs q /\ tq_hashes q <> ∅ /\ forall h, h ∈ tq_hashes q -> h / size key.1 = key.2.
Definition partial_sound (qs : list table_query) (m : gmap (string * N) resolve_result) : Prop :=
  forall key r, m !! key = Some r ->
    rr_table r = key.1 /\ tm_id (rr_tablet r) = key.2 /\ rr_tablet r ∈ known_reports key.1 /\
    (exists q0, q0 ∈ qs /\ tq_table q0 = key.1 /\ tq_id q0 = rr_query r) /\
    forall h, h ∈ rr_hashes r -> asks_any qs key.1 h /\ h <= key.2.
Definition core_sound (W : string * N -> Prop) (qs : list table_query) (r : resolve) : Prop :=
  pending_sound qs (rs_pending r) /\ partial_sound qs (rs_partial r) /\
  forall key, is_Some (rs_pending r !! key) -> W key.

Lemma append_result_sound qs m x : partial_sound qs m -> answer_sound qs x -> partial_sound qs (append_result m x).
Proof using Type.
  intros Hm. destruct x as [q md]. intros (H1 & H2 & H3) key r. simpl in *.
  destruct (decide (key = (tq_table q, tm_id md))) as [->|e].
  - rewrite lookup_insert. intros [= <-]. simpl.
    destruct (m !! (tq_table q, tm_id md)) as [r0|] eqn:E; simpl.
    + destruct (Hm _ _ E) as (K1 & K2 & K3 & K4 & K5). simpl in *. split_and!; try done.
      intros h Hh. apply elem_of_app in Hh as [Hh|Hh]; [by apply K5|].
      apply elem_of_ascending in Hh. by apply H3.
    + split_and!; try done. intros h Hh. apply elem_of_ascending in Hh. by apply H3.
  - rewrite lookup_insert_ne by done. apply Hm.
Qed.
Lemma append_results_sound W qs r l :
  core_sound W qs r -> Forall (answer_sound qs) l -> core_sound W qs (append_results r l).
Proof using Type.
  intros (H1 & H2 & H3) Hl. split_and!; try done. simpl. clear H1 H3. revert H2. generalize (rs_partial r).
  induction Hl as [|x l Hx Hl IH]; intros m Hm; simpl; [done|]. apply IH. by apply append_result_sound.
Qed.

Definition request_sound (D : list (N * list resolved)) (W : string * N -> Prop) (i : N) (qs : list table_query)
    (r : resolve) : Prop :=
  core_sound W qs r /\ (i ∉ map fst D -> rs_pending r <> ∅).

Variable ro : gmap (string * N) resolve_result -> list resolve_result.
Hypothesis Hro : values_order ro.

Lemma maybe_deliver_sound D W i qs r r' o :
  core_sound W qs r -> maybe_deliver ro r = Ok (r', o) ->
  request_sound (deliver D i o) W i qs r' /\ rs_pending r' = rs_pending r /\
  match o with Some l => rs_pending r = ∅ /\ Forall (answer_sound qs) l | None => rs_pending r <> ∅ end.
Proof using Hro.
  intros (H1 & H2 & H3). unfold maybe_deliver. destruct (decide (rs_pending r = ∅)) as [He|He].
  - assert (Forall (answer_sound qs) (map take_result (ro (rs_partial r)))) as Hf.
    { apply Forall_forall. intros x Hx. apply elem_of_list_fmap in Hx as (rr & -> & Hx).
      rewrite (Hro (rs_partial r)) in Hx. apply elem_of_list_fmap in Hx as ([key rr'] & -> & Hx).
      apply elem_of_map_to_list in Hx. destruct (H2 _ _ Hx) as (K1 & K2 & K3 & K4 & K5). simpl.
      unfold answer_sound. simpl. rewrite K1, K2. split_and!; try done.
      intros h Hh. apply elem_of_list_to_set in Hh. by apply K5. }
    assert (forall k s, request_sound (deliver D i (Some (map take_result (ro (rs_partial r))))) W i qs
              (Resolve k (rs_pending r) ∅ s)) as Hs.
    { intros k s. split; [split_and!; [done| |done]|].
      - intros key q. simpl. by rewrite lookup_empty.
      - simpl. rewrite map_app. intros Hn. exfalso. apply Hn. set_solver. }
    destruct (rs_kind r); [destruct (rs_set r); [done|]|]; intros [= <- <-]; split_and!; try done; apply Hs.
  - intros [= <- <-]. simpl. split_and!; [|done|done]. split; [done|]. by intros _.
Qed.
End Soundness.

Section Requests.
Variable size : string -> N.
Variable ro : gmap (string * N) resolve_result -> list resolve_result.
Hypothesis Hro : values_order ro.

(** Tables with sizes [size], holding the reports. *)
Definition tables_wf (reps : string -> list tablet_metadata) (T : gmap string table_cache) : Prop :=
  forall name t, T !! name = Some t -> table_ok name (size name) (reps name) t.

Lemma try_resolve_some reps T name t idx q qs out :
  tables_wf reps T -> T !! name = Some t -> tq_table q = name -> part_of qs q ->
  try_resolve t idx q = Ok (Some out) -> Forall (answer_sound reps qs) out.
Proof using Type.
  clear Hro.
  intros Hwf Ht Hq (q0 & Hq0 & Hqt & Hqi & Hqh) Hr.
  destruct (Hwf _ _ Ht) as (K1&K2&K3&K4&K5&K6).
  pose proof Hr as Hr'. unfold try_resolve in Hr'.
  destruct (tb_regions t !! idx) as [r|] eqn:Er; [|done].
  destruct (region_fresh r) as [ids|] eqn:Ef; [|done].
  assert (ids <> ∅) as Hne.
  { intros ->. cbv in Hr'. done. }
  destruct (try_resolve_sound t idx q r ids Er Ef Hne) as (out' & H1 & H2 & _).
  { by eapply K6. }
  rewrite Hr in H1. injection H1 as <-.
  eapply Forall_impl; [exact H2|]. intros [p m] (A1 & A2 & A3 & i & A4 & A5). simpl in *.
  pose proof (K5 i) as Hi. rewrite A4 in Hi. destruct Hi as (I1 & I2 & _).
  unfold answer_sound. simpl. rewrite A2, Hq. split_and!; [done| |].
  - exists q0. split_and!; congruence.
  - intros h Hh. destruct (A5 h Hh) as [B1 (B2 & B3 & _)]. apply elem_of_ascending in B1.
    split; [|congruence]. exists (tq_id q0). exists q0. split_and!; [done|congruence|done|set_solver].
Qed.

(** The invariant about requests; [W i key]: request [i] is going to be told
    about region [key]. *)
Definition requests_sound (reps : string -> list tablet_metadata) (req : N -> option (list table_query))
    (W : N -> string * N -> Prop) (R : gmap N resolve) (D : list (N * list resolved)) : Prop :=
  (forall i r, R !! i = Some r -> exists qs, req i = Some qs /\ request_sound size reps D (W i) i qs r) /\
  (forall i, is_Some (req i) -> is_Some (R !! i)) /\
  (forall i l, (i, l) ∈ D -> exists qs, req i = Some qs /\ Forall (answer_sound reps qs) l).

Lemma core_sound_W reps (W W' : string * N -> Prop) qs r :
  (forall key, is_Some (rs_pending r !! key) -> W key -> W' key) ->
  core_sound size reps W qs r -> core_sound size reps W' qs r.
Proof using Type. clear Hro. intros HW (H1 & H2 & H3). split_and!; [done|done|]. intros key Hk. apply HW; [done|by apply H3]. Qed.

Lemma deliver_incl D i o j : j ∈ map fst D -> j ∈ map fst (deliver D i o).
Proof using Type. clear Hro. destruct o; simpl; [|done]. rewrite map_app. set_solver. Qed.

Lemma notify_all_sound reps req T name t idx L R D R' D' :
  tables_wf reps T -> T !! name = Some t ->
  requests_sound reps req (fun i key => i ∈ waiting T key \/ key = (name, idx) /\ i ∈ L) R D ->
  notify_all ro t name idx R D L = Ok (R', D') ->
  requests_sound reps req (fun i key => i ∈ waiting T key) R' D'.
Proof using Hro.
  intros Hwf Ht. revert R D. induction L as [|i L IH]; intros R D Hinv; simpl.
  - intros [= <- <-]. destruct Hinv as (H1 & H2 & H3). split_and!; try done.
    intros j r Hr. destruct (H1 j r Hr) as (qs & Hq & Hc & Hd). exists qs. split; [done|]. split; [|done].
    eapply core_sound_W; [|exact Hc]. intros key _ [?|[_ Hx]]; [done|by apply elem_of_nil in Hx].
  - destruct (R !! i) as [r|] eqn:Er.
    + destruct Hinv as (H1 & H2 & H3). destruct (H1 i r Er) as (qs & Hq & Hc & Hd).
      destruct (results_fresh ro t name idx r) as [[r' o]| |] eqn:Ef; simpl; [|done..].
      intros Hn. revert Hn. apply IH.
      (* the request that was told *)
      assert (request_sound size reps (deliver D i o)
                (fun key => i ∈ waiting T key \/ key = (name, idx) /\ i ∈ L) i qs r' /\
              match o with Some l => Forall (answer_sound reps qs) l | None => True end) as [Hr' Ho].
      { unfold results_fresh in Ef. destruct (rs_pending r !! (name, idx)) as [q|] eqn:Ep.
        - destruct (try_resolve t idx q) as [[l|]| |] eqn:Et; simpl in Ef; [|done..].
          destruct Hc as (C1 & C2 & C3). destruct (C1 _ _ Ep) as (P1 & P2 & P3 & P4). simpl in P1.
          eapply (maybe_deliver_sound size reps ro Hro D (fun key => i ∈ waiting T key \/ key = (name, idx) /\ i ∈ L) i qs) in Ef
            as (S1 & S2 & S3).
          + split; [done|]. by destruct o; [destruct S3|].
          + apply append_results_sound; [|by eapply try_resolve_some].
            split_and!; simpl; [|done|].
            * intros key q'. rewrite lookup_delete_Some. intros [_ ?]. by apply C1.
            * intros key. intros [q' Hq']. rewrite lookup_delete_Some in Hq'. destruct Hq' as [Hne Hq'].
              destruct (C3 key) as [?|[-> _]]; [by eexists|by left|done].
        - eapply (maybe_deliver_sound size reps ro Hro D (fun key => i ∈ waiting T key \/ key = (name, idx) /\ i ∈ L) i qs) in Ef
            as (S1 & S2 & S3).
          + split; [done|]. by destruct o; [destruct S3|].
          + eapply core_sound_W; [|exact Hc]. intros key [q' Hk] [?|[-> _]]; [by left|].
            rewrite Ep in Hk. done. }
      split_and!.
      * intros j rj. destruct (decide (i = j)) as [<-|e].
        -- rewrite lookup_insert. intros [= <-]. by exists qs.
        -- rewrite lookup_insert_ne by done. intros Hj. destruct (H1 j rj Hj) as (qs' & Hq' & Hc' & Hd').
           exists qs'. split; [done|]. split.
           ++ eapply core_sound_W; [|exact Hc']. intros key _ [?|[-> Hx]]; [by left|]. right. split; [done|].
              apply elem_of_cons in Hx as [->|Hx]; done.
           ++ intros Hn. apply Hd'. intros Hx. apply Hn. by apply deliver_incl.
      * intros j Hj. destruct (decide (i = j)) as [<-|e]; [rewrite lookup_insert; by eexists|].
        rewrite lookup_insert_ne by done. by apply H2.
      * intros j l Hj. destruct o as [l'|]; simpl in Hj; [|by apply H3].
        apply elem_of_app in Hj as [Hj|Hj]; [by apply H3|]. apply elem_of_list_singleton in Hj as [= -> ->].
        by exists qs.
    + intros Hn. apply (IH R D); [|done]. destruct Hinv as (H1 & H2 & H3). split_and!; try done.
      intros j r Hr. destruct (H1 j r Hr) as (qs & Hq & Hc & Hd). exists qs. split; [done|]. split; [|done].
      eapply core_sound_W; [|exact Hc]. intros key _ [?|[-> Hx]]; [by left|]. right. split; [done|].
      apply elem_of_cons in Hx as [->|Hx]; [congruence|done].
Qed.

Lemma tables_wf_insert reps reps' T name t :
  tables_wf reps T -> table_ok name (size name) (reps' name) t -> (forall n, n <> name -> reps' n = reps n) ->
  tables_wf reps' (<[name := t]> T).
Proof using Type.
  clear Hro.
  intros H Ht Hr n t'. destruct (decide (name = n)) as [<-|e].
  - rewrite lookup_insert. by intros [= <-].
  - rewrite lookup_insert_ne by done. rewrite Hr by done. apply H.
Qed.

Lemma answer_sound_mono reps reps' qs x :
  (forall n, reps n ⊆ reps' n) -> answer_sound reps qs x -> answer_sound reps' qs x.
Proof using Type. clear Hro. intros H (H1 & H2 & H3). split_and!; [by apply H|done|done]. Qed.
Lemma requests_sound_mono reps reps' req W R D :
  (forall n, reps n ⊆ reps' n) -> requests_sound reps req W R D -> requests_sound reps' req W R D.
Proof using Type.
  clear Hro.
  intros H (H1 & H2 & H3). split_and!; [|done|].
  - intros i r Hr. destruct (H1 i r Hr) as (qs & Hq & (C1 & C2 & C3) & Hd). exists qs. split; [done|].
    split; [|done]. split_and!; [done| |done]. intros key rr Hk.
    destruct (C2 key rr Hk) as (P1 & P2 & P3 & P4 & P5). split_and!; try done. by apply H.
  - intros i l Hl. destruct (H3 i l Hl) as (qs & Hq & Hf). exists qs. split; [done|].
    eapply Forall_impl; [exact Hf|]. intros x. by apply answer_sound_mono.
Qed.
Lemma requests_sound_W reps req (W W' : N -> string * N -> Prop) R D :
  (forall i key, W i key -> W' i key) -> requests_sound reps req W R D -> requests_sound reps req W' R D.
Proof using Type.
  clear Hro.
  intros H (H1 & H2 & H3). split_and!; [|done|done].
  intros i r Hr. destruct (H1 i r Hr) as (qs & Hq & Hc & Hd). exists qs. split; [done|]. split; [|done].
  eapply core_sound_W; [|exact Hc]. intros key _. apply H.
Qed.

Definition cache_sound (reps : string -> list tablet_metadata) (req : N -> option (list table_query))
    (c : metadata_cache) : Prop :=
  tables_wf reps (mc_tables c) /\
  requests_sound reps req (fun i key => i ∈ waiting (mc_tables c) key) (mc_resolves c) (mc_delivered c).

Lemma mc_result_sound reps req c r c' :
  cache_sound reps req c -> mc_result ro c r = Ok c' ->
  cache_sound (fun n => reps n ++ result_reports n (size n) r) req c'.
Proof using Hro.
  intros [Hwf Hinv]. unfold mc_result, result_reports.
  destruct (or_detail r) as [[from to ts| |]|]; try done.
  destruct (mc_tables c !! or_table r) as [t|] eqn:Et.
  - destruct (table_update_region t from _) as [[t' idx] notify] eqn:Eu.
    destruct (notify_all ro t' (or_table r) idx (mc_resolves c) (mc_delivered c) notify) as [[rs d]| |] eqn:En; simpl; [|done..].
    intros [= <-].
    assert (tables_wf (fun n => reps n ++
        (if decide (or_table r = n ∧ or_status r = OpSucceeded ∧ from / size n < u32_max / size n) then ts else []))
        (<[or_table r:=t']> (mc_tables c))) as Hwf'.
    { eapply tables_wf_insert; [exact Hwf| |].
      - pose proof (update_region_ok _ _ _ _ _ _ _ _ _ (Hwf _ _ Et) Eu) as H. simpl.
        set (sz := size (or_table r)) in *.
        replace (if decide (or_table r = or_table r ∧ or_status r = OpSucceeded ∧ from / sz < u32_max / sz) then ts else [])
          with (if decide (from / sz < u32_max / sz)
                then default [] (if decide (or_status r = OpSucceeded) then Some ts else None) else []); [done|].
        destruct (decide (from / sz < u32_max / sz)) as [H1|H1], (decide (or_status r = OpSucceeded)) as [H2|H2].
        + by rewrite decide_True.
        + rewrite decide_False by tauto. done.
        + rewrite decide_False by tauto. done.
        + rewrite decide_False by tauto. done.
      - intros n e. rewrite decide_False by (intros (e'&_); congruence). by rewrite app_nil_r. }
    split; [done|]. simpl.
    eapply notify_all_sound; [done|by rewrite lookup_insert| |exact En].
    eapply requests_sound_mono; [|eapply requests_sound_W; [|exact Hinv]].
    + intros n. set_solver.
    + intros i key Hi. simpl in Hi. rewrite (update_region_waiting _ _ _ _ _ _ _ _ key Et Eu) in Hi.
      apply elem_of_app in Hi as [Hi|Hi]; [|by left]. destruct (decide (key = (or_table r, idx))) as [->|]; [by right|by apply elem_of_nil in Hi].
  - intros [= <-]. split.
    + intros n t Ht. cbv beta. rewrite decide_False by (intros (e'&_); congruence). rewrite app_nil_r. by apply Hwf.
    + eapply requests_sound_mono; [|exact Hinv]. intros n. set_solver.
Qed.
Lemma cache_sound_ext reps reps' req c :
  (forall n, reps' n = reps n) -> cache_sound reps req c -> cache_sound reps' req c.
Proof using Type.
  clear Hro.
  intros H [H1 H2]. split.
  - intros n t Ht. rewrite H. by apply H1.
  - eapply requests_sound_mono; [|exact H2]. intros n. by rewrite H.
Qed.
Lemma mc_response_sound reps req rs c c' :
  cache_sound reps req c -> mc_response ro c rs = Ok c' ->
  cache_sound (fun n => reps n ++ concat (map (result_reports n (size n)) rs)) req c'.
Proof using Hro.
  revert reps c. induction rs as [|r rs IH]; intros reps c Hok; simpl.
  - intros [= <-]. eapply cache_sound_ext; [|exact Hok]. intros. simpl. by rewrite app_nil_r.
  - destruct (mc_result ro c r) as [c1| |] eqn:E; simpl; [|done..]. intros H.
    pose proof (mc_result_sound _ _ _ _ _ Hok E) as H1. pose proof (IH _ _ H1 H) as H2.
    eapply cache_sound_ext; [|exact H2]. intros. simpl. by rewrite app_assoc.
Qed.

Lemma like_wf reps T T' : tables_like T T' -> tables_wf reps T -> tables_wf reps T'.
Proof using Type.
  clear Hro.
  intros Hl H n t Ht. specialize (Hl n). rewrite Ht in Hl. destruct (T !! n) as [t0|] eqn:E; [|done].
  eapply table_like_ok; [done|]. by apply H.
Qed.

Lemma register_all_sound reps qs i T r parts T' r' :
  tables_wf reps T ->
  Forall (fun p => part_of qs p.1 /\ tq_hashes p.1 <> ∅ /\ forall h, h ∈ tq_hashes p.1 -> h / size (tq_table p.1) = p.2) parts ->
  core_sound size reps (fun key => i ∈ waiting T key) qs r ->
  register_all i T r parts = Ok (T', r') ->
  core_sound size reps (fun key => i ∈ waiting T' key) qs r' /\
  forall j key, j ∈ waiting T key -> j ∈ waiting T' key.
Proof using Type.
  clear Hro.
  intros Hwf Hp. revert T r Hwf. induction Hp as [|[q idx] parts (P1 & P2 & P3) Hp IH]; intros T r Hwf Hc; simpl.
  - by intros [= <- <-].
  - destruct (T !! tq_table q) as [t|] eqn:Et; simpl; [|done].
    destruct (try_resolve t idx q) as [[l|]| |] eqn:Er; simpl; [| |done..].
    + intros H. eapply IH; [done| |exact H]. apply append_results_sound; [done|]. by eapply try_resolve_some.
    + assert (is_Some (tb_regions t !! idx)) as Hi.
      { unfold try_resolve in Er. by destruct (tb_regions t !! idx). }
      destruct (table_register t i idx) as [t'| |] eqn:Eg; simpl; [|done..]. intros H.
      pose proof (table_register_waiting _ _ _ _ _ _ Et Eg Hi) as Hw.
      apply IH in H as [H1 H2].
      * split; [done|]. intros j key Hj. apply H2. rewrite Hw. destruct (decide _); set_solver.
      * eapply like_wf; [|exact Hwf]. eapply tables_like_insert; [done|]. by eapply table_register_like.
      * destruct Hc as (C1 & C2 & C3). split_and!; simpl; [|done|].
        -- intros key q'. destruct (decide (key = (tq_table q, idx))) as [->|e].
           ++ rewrite lookup_insert. by intros [= <-].
           ++ rewrite lookup_insert_ne by done. apply C1.
        -- intros key. rewrite Hw. destruct (decide (key = (tq_table q, idx))) as [->|e]; [set_solver|].
           rewrite lookup_insert_ne by done. apply C3.
Qed.

Lemma split_query_parts t q parts :
  tb_size t <> 0 -> split_query t q = Ok parts ->
  (tb_size t <= u32_max -> (forall h, h ∈ tq_hashes q -> h <= u32_max) ->
   Forall (part_ok (tb_size t) q (ascending (tq_hashes q))) parts).
Proof using Type.
  clear Hro.
  intros Hs Hp Hm Hh. destruct (split_query_spec t q Hs Hm Hh) as (parts' & H1 & H2 & _).
  rewrite Hp in H1. by injection H1 as <-.
Qed.
Lemma split_all_sound reps T all qs parts :
  tables_wf reps T -> (forall n, size n <= u32_max) -> (forall q h, q ∈ qs -> h ∈ tq_hashes q -> h <= u32_max) ->
  (forall q, q ∈ qs -> q ∈ all) ->
  split_all T qs = Ok parts ->
  Forall (fun p => part_of all p.1 /\ tq_hashes p.1 <> ∅ /\
            forall h, h ∈ tq_hashes p.1 -> h / size (tq_table p.1) = p.2) parts.
Proof using Type.
  clear Hro.
  intros Hwf Hsz. revert parts. induction qs as [|q qs IH]; intros parts Hh Hin; simpl.
  - intros [= <-]. constructor.
  - destruct (T !! tq_table q) as [t|] eqn:Et; simpl; [|done].
    destruct (split_query t q) as [l| |] eqn:Es; simpl; [|done..].
    destruct (split_all T qs) as [more| |] eqn:Ea; simpl; [|done..]. intros [= <-].
    destruct (Hwf _ _ Et) as (K1&K2&K3&_).
    apply Forall_app. split; [|apply IH; set_solver].
    assert (tb_size t <> 0) as Hnz by congruence.
    pose proof (split_query_parts t q l Hnz Es) as Hpk. rewrite K2 in Hpk.
    specialize (Hpk (Hsz _) ltac:(intros h ?; eapply Hh; [by left|done])).
    eapply Forall_impl; [exact Hpk|]. intros p (A1 & A2 & A3 & A4). split_and!; [|done|].
    + exists q. split_and!; [set_solver|done|done|]. intros h Hx. apply A4 in Hx as [Hx _].
      by apply elem_of_ascending in Hx.
    + intros h Hx. rewrite A2. by apply A4.
Qed.
End Requests.

(** * Histories *)
Lemma elem_of_app_weaken_l {A} (l k : list A) x : x ∈ l -> x ∈ l ++ k.
Proof. set_solver. Qed.
Lemma size_of_in cfg name size : NoDup (map fst cfg) -> (name, size) ∈ cfg -> size_of cfg name = size.
Proof.
  intros Hn Hin. unfold size_of.
  destruct (list_find (fun x => x.1 = name) cfg) as [[k [n s]]|] eqn:E.
  - apply list_find_Some in E as (H1 & H2 & _). simpl in H2. subst n.
    apply elem_of_list_lookup in Hin as [j Hj].
    assert (k = j) as ->.
    { eapply (NoDup_lookup (map fst cfg)); [done| |]; rewrite list_lookup_fmap; [by rewrite H1|by rewrite Hj]. }
    congruence.
  - apply list_find_None in E. rewrite Forall_forall in E. by specialize (E _ Hin).
Qed.
Lemma size_of_u32 cfg name : sizes_u32 cfg -> size_of cfg name <= u32_max.
Proof.
  intros H. unfold size_of. destruct (list_find _ cfg) as [[k [n s]]|] eqn:E; [|done].
  apply list_find_Some in E as (H1 & _). apply elem_of_list_lookup_2 in H1. by eapply H.
Qed.

Lemma request_snoc calls call i :
  request (calls ++ [call]) i =
    match call_queries call with
    | Some qs => if decide (i = Nlen (omap call_queries calls) + 2) then Some qs else request calls i
    | None => request calls i
    end.
Proof.
  unfold request. rewrite omap_app.
  replace (omap call_queries [call]) with (match call_queries call with Some qs => [qs] | None => [] end)
    by (destruct call; done).
  destruct (N.ltb_spec i 2) as [Hi|Hi].
  - destruct (call_queries call); [|done]. rewrite decide_False; [done|]. unfold Nlen. lia.
  - destruct (call_queries call) as [qs|]; [|by rewrite app_nil_r].
    destruct (decide _) as [->|e].
    + replace (N.to_nat (Nlen (omap call_queries calls) + 2 - 2)) with (length (omap call_queries calls))
        by (unfold Nlen; lia).
      by rewrite list_lookup_middle.
    + destruct (decide (N.to_nat (i - 2) < length (omap call_queries calls))%nat) as [Hl|Hl].
      * by rewrite lookup_app_l.
      * rewrite (lookup_ge_None_2 (omap call_queries calls)) by lia.
        apply lookup_ge_None_2. rewrite app_length. simpl. unfold Nlen in e. lia.
Qed.
Lemma request_None calls i : Nlen (omap call_queries calls) + 2 <= i -> request calls i = None.
Proof.
  intros Hi. unfold request. destruct (i <? 2); [done|]. apply lookup_ge_None_2. unfold Nlen in Hi. lia.
Qed.

Definition cache_inv (cfg : list (string * N)) (calls : list cache_call) (c : metadata_cache) : Prop :=
  cache_sound (size_of cfg) (fun n => reports n (size_of cfg n) calls) (request calls) c /\
  mc_resolve_counter c = Nlen (omap call_queries calls) + 1.

Lemma mc_response_counter ro rs c c' : mc_response ro c rs = Ok c' -> mc_resolve_counter c' = mc_resolve_counter c.
Proof.
  revert c. induction rs as [|r rs IH]; intros c; simpl; [by intros [= <-]|].
  destruct (mc_result ro c r) as [c1| |] eqn:E; simpl; [|done..]. intros H. rewrite (IH _ H).
  unfold mc_result in E. destruct (or_detail r) as [[from to ts| |]|]; try done.
  destruct (mc_tables c !! or_table r) as [t|]; [|by injection E as <-].
  destruct (table_update_region t from _) as [[t' idx] notify].
  destruct (notify_all _ _ _ _ _ _ _) as [[rs' d]| |]; simpl in E; [|done..]. by injection E as <-.
Qed.

Lemma perform_inv ro rgo tbo cfg calls s call s' :
  values_order ro -> sizes_u32 cfg -> hashes_u32 [call] ->
  cache_inv cfg calls (ob_cache s) -> perform ro rgo tbo s call = Ok s' ->
  cache_inv cfg (calls ++ [call]) (ob_cache s').
Proof.
  intros Hro Hsz Hh [[Hwf Hinv] Hcnt].
  assert (forall n, reports n (size_of cfg n) (calls ++ [call]) =
            reports n (size_of cfg n) calls ++ call_reports n (size_of cfg n) call) as Hrep.
  { intros n. rewrite reports_app. unfold reports at 2. simpl. by rewrite app_nil_r. }
  destruct call as [qs kind| |table m conflict|rs|]; simpl.
  - unfold mc_resolve, resolve_create.
    destruct (split_all _ _) as [parts| |] eqn:Es; simpl; [|done..].
    destruct (register_all _ _ _ _) as [[T r]| |] eqn:Er; simpl; [|done..].
    destruct (maybe_deliver ro r) as [[r' o]| |] eqn:Ed; simpl; [|done..]. intros [= <-].
    set (i := mc_resolve_counter (ob_cache s) + 1) in *.
    assert (i = Nlen (omap call_queries calls) + 2) as Hi by (unfold i; lia).
    assert (request calls i = None) as Hni by (apply request_None; lia).
    destruct Hinv as (H1 & H2 & H3).
    assert (mc_resolves (ob_cache s) !! i = None) as Hnr.
    { destruct (mc_resolves (ob_cache s) !! i) as [x|] eqn:E; [|done]. destruct (H1 _ _ E) as (? & ? & _). congruence. }
    assert (forall j, request (calls ++ [CallResolve qs kind]) j = if decide (j = i) then Some qs else request calls j) as Hreq.
    { intros j. rewrite request_snoc. simpl. by rewrite Hi. }
    pose proof (split_all_sound (size_of cfg) _ _ qs qs parts Hwf) as Hparts.
    specialize (Hparts ltac:(intros n; by apply size_of_u32)
                       ltac:(intros q h Hq; eapply Hh; [by left|done]) ltac:(done) Es).
    pose proof (register_all_like _ _ _ _ _ _ Er) as Hlike.
    eapply register_all_sound in Er as [Hc Hw]; [|exact Hwf|exact Hparts|].
    2:{ split_and!; simpl; intros key; rewrite lookup_empty; try done. intros [? ?]; done. }
    eapply (maybe_deliver_sound _ _ ro Hro (mc_delivered (ob_cache s)) _ i qs) in Ed as (S1 & S2 & S3); [|exact Hc].
    split; [|simpl; rewrite omap_app, Hi; unfold Nlen; rewrite app_length; simpl; lia].
    eapply cache_sound_ext; [intros n; rewrite Hrep; apply app_nil_r|].
    split; simpl; [by eapply like_wf|]. split_and!.
    + intros j rj. rewrite Hreq. destruct (decide (j = i)) as [->|e].
      * rewrite lookup_insert. intros [= <-]. by exists qs.
      * rewrite lookup_insert_ne by done. intros Hj. destruct (H1 _ _ Hj) as (qs' & Hq' & Hc' & Hd').
        exists qs'. split; [done|]. split.
        -- eapply core_sound_W; [|exact Hc']. intros key _. apply Hw.
        -- intros Hx. apply Hd'. intros Hy. apply Hx. by apply deliver_incl.
    + intros j. rewrite Hreq. destruct (decide (j = i)) as [->|e].
      * rewrite lookup_insert. by eexists.
      * rewrite lookup_insert_ne by done. apply H2.
    + intros j l Hj. rewrite Hreq.
      assert ((j, l) ∈ mc_delivered (ob_cache s) \/ j = i /\ Forall (answer_sound (fun n => reports n (size_of cfg n) calls) qs) l) as [Hd|[-> Hf]].
      { destruct o as [l'|]; simpl in Hj; [|by left]. apply elem_of_app in Hj as [Hj|Hj]; [by left|].
        apply elem_of_list_singleton in Hj as [= -> ->]. right. split; [done|]. by destruct S3. }
      * destruct (H3 _ _ Hd) as (qs' & Hq' & Hf). rewrite decide_False by congruence. by exists qs'.
      * rewrite decide_True by done. by exists qs.
  - intros [= <-]. split.
    + eapply cache_sound_ext; [intros n; rewrite Hrep; apply app_nil_r|]. simpl.
      assert (mc_resolves (mc_progress rgo tbo (ob_cache s)) = mc_resolves (ob_cache s) /\
              mc_delivered (mc_progress rgo tbo (ob_cache s)) = mc_delivered (ob_cache s)) as [Hr Hd].
      { unfold mc_progress. by destruct (concat _). }
      split; [rewrite mc_progress_tables; eapply like_wf; [apply progress_like|done]|].
      rewrite Hr, Hd. destruct Hinv as (H1 & H2 & H3). split_and!.
      * intros i r Hi. rewrite request_snoc. simpl. destruct (H1 i r Hi) as (qs & Hq & Hc & Hx).
        exists qs. split; [done|]. split; [|done]. eapply core_sound_W; [|exact Hc].
        intros key _. by rewrite mc_progress_tables, progress_waiting.
      * intros i. rewrite request_snoc. apply H2.
      * intros i l Hl. rewrite request_snoc. by apply H3.
    + simpl. rewrite omap_app. simpl. rewrite app_nil_r. rewrite <- Hcnt. unfold mc_progress. by destruct (concat _).
  - intros [= <-]. simpl. unfold mc_update.
    split.
    2:{ rewrite omap_app. simpl. rewrite app_nil_r. rewrite <- Hcnt. by destruct (mc_tables (ob_cache s) !! table). }
    eapply cache_sound_ext; [exact Hrep|]. destruct (mc_tables (ob_cache s) !! table) as [t|] eqn:Et.
    + split; simpl.
      * eapply tables_wf_insert; [exact Hwf| |].
        -- simpl. rewrite decide_True by done. apply update_tablet_ok. by apply Hwf.
        -- intros n e. simpl. rewrite decide_False by done. apply app_nil_r.
      * destruct Hinv as (H1 & H2 & H3). eapply requests_sound_mono; [intros n x; apply (elem_of_app_weaken_l (reports n (size_of cfg n) calls))|].
        split_and!.
        -- intros i r Hi. rewrite request_snoc. simpl. destruct (H1 i r Hi) as (qs & Hq & Hc & Hx).
           exists qs. split; [done|]. split; [|done]. eapply core_sound_W; [|exact Hc].
           intros key _. by rewrite update_tablet_waiting.
        -- intros i. rewrite request_snoc. apply H2.
        -- intros i l Hl. rewrite request_snoc. by apply H3.
    + split; simpl.
      * intros n t Ht. cbv beta. rewrite decide_False by congruence. rewrite app_nil_r. by apply Hwf.
      * destruct Hinv as (H1 & H2 & H3). eapply requests_sound_mono; [intros n x; apply (elem_of_app_weaken_l (reports n (size_of cfg n) calls))|].
        split_and!.
        -- intros i r Hi. rewrite request_snoc. simpl. by apply H1.
        -- intros i. rewrite request_snoc. apply H2.
        -- intros i l Hl. rewrite request_snoc. by apply H3.
  - destruct (mc_response ro (ob_cache s) rs) as [c| |] eqn:E; simpl; [|done..]. intros [= <-]. simpl.
    split.
    2:{ rewrite omap_app. simpl. rewrite app_nil_r. rewrite <- Hcnt. by eapply mc_response_counter. }
    eapply cache_sound_ext; [exact Hrep|].
    assert (cache_sound (size_of cfg) (fun n => reports n (size_of cfg n) calls)
              (request (calls ++ [CallResponse rs])) (ob_cache s)) as Hs.
    { split; [done|]. destruct Hinv as (H1 & H2 & H3). split_and!.
      - intros i r Hi. rewrite request_snoc. simpl. by apply H1.
      - intros i. rewrite request_snoc. apply H2.
      - intros i l Hl. rewrite request_snoc. by apply H3. }
    by apply (mc_response_sound _ ro Hro _ _ _ _ _ Hs E).
  - intros [= <-]. split.
    + eapply cache_sound_ext; [intros n; rewrite Hrep; apply app_nil_r|]. simpl.
      split; [done|]. destruct Hinv as (H1 & H2 & H3). split_and!.
      * intros i r Hi. rewrite request_snoc. simpl. by apply H1.
      * intros i. rewrite request_snoc. apply H2.
      * intros i l Hl. rewrite request_snoc. by apply H3.
    + simpl. rewrite omap_app. simpl. by rewrite app_nil_r.
Qed.

Lemma init_inv counter cfg c :
  NoDup (map fst cfg) -> mc_init (mc_create counter) cfg = Ok c -> cache_inv cfg [] c.
Proof.
  intros Hn Hi. unfold mc_init in Hi.
  destruct (init_tables _ cfg) as [tables| |] eqn:E; simpl in Hi; [|done..]. injection Hi as <-.
  eapply (init_tables_ok [] cfg) in E; [|intros n; simpl; rewrite lookup_empty; apply not_elem_of_nil|done].
  split; [|done]. split; simpl.
  - intros n t Ht. specialize (E n). rewrite Ht in E. destruct E as (sz & Hs & Hok).
    by rewrite (size_of_in _ _ _ Hn Hs).
  - split_and!.
    + intros i r. by rewrite lookup_empty.
    + intros i. unfold request. simpl. destruct (i <? 2); [by intros [? ?]|]. rewrite lookup_nil. by intros [? ?].
    + intros i l Hl. by apply elem_of_nil in Hl.
Qed.

Lemma history_snoc ro rgo tbo counter cfg calls call s' :
  history ro rgo tbo counter cfg (calls ++ [call]) s' <->
  exists s, history ro rgo tbo counter cfg calls s /\ perform ro rgo tbo s call = Ok s'.
Proof.
  split.
  - intros (c & Hi & Hp). rewrite performs_app in Hp.
    destruct (performs ro rgo tbo (Observed c []) calls) as [s| |] eqn:E; simpl in Hp; [|done..].
    destruct (perform ro rgo tbo s call) as [s1| |] eqn:E1; simpl in Hp; [|done..]. injection Hp as <-.
    exists s. split; [by exists c|done].
  - intros (s & (c & Hi & Hp) & H). exists c. split; [done|]. rewrite performs_app, Hp. simpl. by rewrite H.
Qed.
Lemma hashes_u32_snoc calls call : hashes_u32 (calls ++ [call]) -> hashes_u32 calls /\ hashes_u32 [call].
Proof.
  intros H. split; intros qs k q h Hc; eapply H; apply elem_of_app; [by left|by right].
Qed.
Lemma history_inv ro rgo tbo counter cfg calls s :
  values_order ro -> NoDup (map fst cfg) -> sizes_u32 cfg -> hashes_u32 calls ->
  history ro rgo tbo counter cfg calls s -> cache_inv cfg calls (ob_cache s).
Proof.
  intros Hro Hn Hsz. revert s. induction calls as [|call calls IH] using rev_ind; intros s Hh H.
  - destruct H as (c & Hi & [= <-]). by eapply init_inv.
  - apply hashes_u32_snoc in Hh as [Hh1 Hh2]. apply history_snoc in H as (s0 & H1 & H2).
    eapply perform_inv; [done..| |exact H2]. by apply IH.
Qed.
