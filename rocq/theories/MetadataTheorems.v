(** Theorems about the metadata cache of the tablet cache application. *)
From Verif Require Import Base TabletModel MetadataModel MetadataSpec MetadataProofs MetadataRequestProofs
  MetadataOnceProofs MetadataListProofs MetadataOwnerProofs MetadataFreshProofs.
Local Arguments region_bounds : simpl never.
Local Arguments regions_count : simpl never.
Local Arguments N.div : simpl never.
Local Arguments N.sub : simpl never.
Local Arguments N.add : simpl never.
Local Arguments N.mul : simpl never.
Local Arguments N.min : simpl never.
Local Arguments ascending : simpl never.
Local Arguments N.ltb : simpl never.
Local Arguments N.eqb : simpl never.

(** Concrete orders and a concrete history for the examples: two regions of a
    table, one query with a hash in each. *)
Definition ex_results (m : gmap (string * N) resolve_result) : list resolve_result := map snd (map_to_list m).
Definition ex_regions (m : gmap N region) : list (N * region) := map_to_list m.
Definition ex_tables (m : gmap string table_cache) : list (string * table_cache) := map_to_list m.
Definition ex_cfg : list (string * N) := [("t", 1073741824); ("u", 2147483648)].
Definition ex_tablet (i v : N) : tablet_metadata := TabletMetadata i v false [] 0 [] "".
Definition ex_query : table_query := query_create 7 "t" [5; 1073741830].
Definition ex_listed (from to : N) (l : list tablet_metadata) : op_result :=
  OpResult "t" OpSucceeded (Some (ListResult from to l)).
Definition ex_calls : list cache_call :=
  [CallResolve [ex_query] ToSource; CallProgress; CallTake;
   CallResponse [ex_listed 0 1073741823 [ex_tablet 10 1; ex_tablet 20 1]; OpResult "t" OpFailed (Some (ListResult 1073741824 2147483647 []))];
   CallUpdate "t" (ex_tablet 20 3) false; CallUpdate "t" (ex_tablet 20 2) true; CallProgress;
   CallResponse [ex_listed 1073741824 2147483647 [ex_tablet 1073741900 4]]].
Lemma ex_results_order : values_order ex_results. Proof. by intros m. Qed.
Lemma ex_regions_order : map_order ex_regions. Proof. by intros m. Qed.
Lemma ex_tables_order : map_order ex_tables. Proof. by intros m. Qed.
Definition ex_run : res unit observed :=
  let! c := mc_init (mc_create 100) ex_cfg in
  performs ex_results ex_regions ex_tables (Observed c []) ex_calls.
Definition ex_state : observed := match ex_run with Ok s => s | _ => Observed (mc_create 0) [] end.
Definition is_ok {A} (r : res unit A) : bool := match r with Ok _ => true | _ => false end.
Lemma is_ok_eq {A} (r : res unit A) d : is_ok r = true -> r = Ok (match r with Ok s => s | _ => d end).
Proof. by destruct r. Qed.
Lemma history_run ro rgo tbo counter cfg calls d :
  let run := (let! c := mc_init (mc_create counter) cfg in performs ro rgo tbo (Observed c []) calls) in
  is_ok run = true -> history ro rgo tbo counter cfg calls (match run with Ok s => s | _ => d end).
Proof.
  intros run H. unfold run in *. unfold history. destruct (mc_init (mc_create counter) cfg) as [c| |]; [|done..].
  exists c. split; [done|]. by apply is_ok_eq.
Qed.
Lemma ex_history : history ex_results ex_regions ex_tables 100 ex_cfg ex_calls ex_state.
Proof. apply history_run. by vm_compute. Qed.
Lemma ex_cfg_ok : NoDup (map fst ex_cfg) /\ sizes_u32 ex_cfg.
Proof.
  split; [by apply (bool_decide_unpack _); vm_compute|].
  intros n s H. unfold ex_cfg in H. rewrite !elem_of_cons in H. destruct H as [[= _ ->]|[[= _ ->]|H]]; [done|done|by apply elem_of_nil in H].
Qed.
Lemma ex_proper : Forall (proper_call ex_cfg) ex_calls.
Proof.
  unfold ex_calls. repeat (apply Forall_cons; split); try done; simpl.
  - split; [apply NoDup_singleton|]. intros q Hq. apply elem_of_list_singleton in Hq as ->. split; [set_solver|].
    intros h Hh. unfold ex_query in Hh. simpl in Hh. unfold tracked.
    rewrite !elem_of_union, !elem_of_singleton in Hh. destruct Hh as [->|[->|Hh]]; [done|done|set_solver].
  - intros r Hr. rewrite !elem_of_cons in Hr. destruct Hr as [->|[->|Hr]]; [| |by apply elem_of_nil in Hr]; by eexists _, _, _.
  - intros r Hr. rewrite !elem_of_cons in Hr. destruct Hr as [->|Hr]; [|by apply elem_of_nil in Hr]; by eexists _, _, _.
Qed.

(** ** C47: cached versions *)
(** After any history of calls the cache knows, for every tablet of a
    configured table, a report with the highest version reported, and knows
    nothing exactly if nothing was reported. *)
Theorem C47_cache_knows_the_newest_report :
  forall ro rgo tbo counter cfg calls s table size i,
    NoDup (map fst cfg) -> history ro rgo tbo counter cfg calls s -> (table, size) ∈ cfg ->
    newest i (reports table size calls) (known s table i).
Proof.
  intros ro rgo tbo counter cfg calls s table size i Hn Hh Hin.
  pose proof (history_tables _ _ _ _ _ _ _ Hn Hh table) as Ht. unfold known.
  destruct (mc_tables (ob_cache s) !! table) as [t|] eqn:E.
  - destruct Ht as (size' & Hin' & (_ & _ & _ & _ & H & _)). simpl.
    assert (size' = size) as ->; [|apply H].
    rewrite <- (size_of_in _ _ _ Hn Hin), <- (size_of_in _ _ _ Hn Hin'). done.
  - exfalso. apply Ht. apply elem_of_list_fmap. by exists (table, size).
Qed.
(** The version known for a tablet never decreases, and a known tablet stays known. *)
Theorem C47_known_versions_never_decrease :
  forall ro rgo tbo counter cfg calls more s s' table i m,
    NoDup (map fst cfg) ->
    history ro rgo tbo counter cfg calls s -> history ro rgo tbo counter cfg (calls ++ more) s' ->
    known s table i = Some m ->
    exists m', known s' table i = Some m' /\ tm_version m <= tm_version m'.
Proof.
  intros ro rgo tbo counter cfg calls more s s' table i m Hn H1 H2 Hm.
  assert (exists size, (table, size) ∈ cfg) as [size Hin].
  { pose proof (history_tables _ _ _ _ _ _ _ Hn H1 table) as Ht. unfold known in Hm.
    destruct (mc_tables (ob_cache s) !! table) as [t|]; [|done]. destruct Ht as (size & Hs & _). by exists size. }
  pose proof (C47_cache_knows_the_newest_report _ _ _ _ _ _ _ _ _ i Hn H1 Hin) as N1. rewrite Hm in N1.
  pose proof (C47_cache_knows_the_newest_report _ _ _ _ _ _ _ _ _ i Hn H2 Hin) as N2.
  destruct N1 as (A1 & A2 & _).
  assert (m ∈ reports table size (calls ++ more)) as Hin2 by (rewrite reports_app; set_solver).
  destruct (known s' table i) as [m'|].
  - destruct N2 as (_ & _ & N2). exists m'. split; [done|]. by apply N2.
  - by specialize (N2 m Hin2).
Qed.
Example C47_example :
  known ex_state "t" 20 = Some (ex_tablet 20 3) /\ known ex_state "t" 10 = Some (ex_tablet 10 1) /\
  known ex_state "t" 30 = None.
Proof. by vm_compute. Qed.

(** ** C48: splitting a query by region *)
(** A query is split into parts for different regions, in ascending order: each
    has the id and table of the query, and consists of exactly the hashes of
    the query that belong to its region; every hash is in a part. *)
Theorem C48_split_is_exact :
  forall t q, 0 < tb_size t <= u32_max -> (forall h, h ∈ tq_hashes q -> h <= u32_max) ->
    exists parts, split_query t q = Ok parts /\
      StronglySorted (fun a b : table_query * N => a.2 < b.2) parts /\
      (forall p idx, (p, idx) ∈ parts ->
        tq_id p = tq_id q /\ tq_table p = tq_table q /\ tq_hashes p <> ∅ /\
        forall h, h ∈ tq_hashes p <->
          h ∈ tq_hashes q /\ idx * tb_size t <= h /\ h < (idx + 1) * tb_size t) /\
      (forall h, h ∈ tq_hashes q -> exists p idx, (p, idx) ∈ parts /\ h ∈ tq_hashes p).
Proof.
  intros t q [Hs Hm] Hh. assert (tb_size t <> 0) as Hs' by lia.
  destruct (split_query_spec t q Hs' Hm Hh) as (parts & H1 & H2 & H3 & H4).
  exists parts. split_and!; try done.
  - intros p idx Hp. rewrite Forall_forall in H2. destruct (H2 _ Hp) as (A1 & A2 & A3 & A4). simpl in *.
    split_and!; try done. intros h. rewrite A4, elem_of_ascending.
    split; intros [K1 K2]; (split; [done|]).
    + subst idx. split; [by apply mul_div_le'|by apply mul_div_gt].
    + symmetry. apply (N.div_unique h (tb_size t) idx (h - idx * tb_size t)); lia.
  - intros h Hx. destruct (H4 h Hx) as ([p idx] & Hp & Hhp). by exists p, idx.
Qed.
(** A region's bounds contain exactly the hashes that map to it. *)
Theorem C48_region_bounds_are_exact :
  forall size idx h, 0 < size <= u32_max -> idx * size <= u32_max -> h <= u32_max ->
    ((region_bounds size idx).1 <= h /\ h <= (region_bounds size idx).2 <-> map_region size h = idx).
Proof.
  intros size idx h [Hs Hm] Hi Hh. assert (size <> 0) as Hs' by lia. split.
  - intros [H1 H2]. by apply bounds_region.
  - intros <-. by apply bounds_contains.
Qed.
Example C48_example :
  exists t, table_create "t" 1073741824 = Ok t /\
    split_query t (query_create 7 "t" [5; 6; 1073741830; 4294967295]) =
      Ok [(query_create 7 "t" [5; 6], 0); (query_create 7 "t" [1073741830], 1); (query_create 7 "t" [4294967295], 3)].
Proof. eexists. split; [reflexivity|]. by vm_compute. Qed.

(** ** C49: resolving keys to tablets *)
(** Every answer delivered, in any history, is for a request made: each of its
    results is metadata reported for the table, with a query id and keys of the
    request that are no greater than the tablet's id. *)
Theorem C49_delivered_answers_are_sound_partial :
  forall ro rgo tbo counter cfg calls s i l,
    values_order ro -> NoDup (map fst cfg) -> sizes_u32 cfg -> hashes_u32 calls ->
    history ro rgo tbo counter cfg calls s -> (i, l) ∈ delivered s ->
    exists qs, request calls i = Some qs /\
      forall p m, (p, m) ∈ l ->
        m ∈ reports (tq_table p) (size_of cfg (tq_table p)) calls /\
        (exists q, q ∈ qs /\ tq_table q = tq_table p /\ tq_id q = tq_id p) /\
        forall h, h ∈ tq_hashes p -> asks_any qs (tq_table p) h /\ h <= tm_id m.
Proof.
  intros ro rgo tbo counter cfg calls s i l Hro Hn Hsz Hh H Hd.
  destruct (history_inv _ _ _ _ _ _ _ Hro Hn Hsz Hh H) as [[_ (_ & _ & H3)] _].
  destruct (H3 i l Hd) as (qs & Hq & Hl). exists qs. split; [done|]. intros p m Hp.
  rewrite Forall_forall in Hl. by destruct (Hl _ Hp) as (A & B & C).
Qed.


Lemma resolve_listed :
  forall ro rgo tbo counter cfg calls rs table from to ts size s q kind,
    values_order ro -> NoDup (map fst cfg) -> sizes_u32 cfg -> hashes_u32 calls -> (table, size) ∈ cfg ->
    history ro rgo tbo counter cfg
      (calls ++ [CallResponse (rs ++ [OpResult table OpSucceeded (Some (ListResult from to ts))])]) s ->
    tracked size from -> ts <> [] ->
    tq_table q = table -> tq_hashes q <> ∅ ->
    (forall h, h ∈ tq_hashes q -> h <= u32_max /\ h / size = from / size) ->
    exists s' l, perform ro rgo tbo s (CallResolve [q] kind) = Ok s' /\
      delivered s' = delivered s ++ [(Nlen (omap call_queries calls) + 2, l)] /\
      NoDup (map (fun x : resolved => tm_id x.2) l) /\
      (forall p m, (p, m) ∈ l ->
        tq_table p = table /\ tq_id p = tq_id q /\ known s table (tm_id m) = Some m /\
        forall h, h ∈ tq_hashes p ->
          h ∈ tq_hashes q /\ tm_id m ∈ map tm_id ts /\ h <= tm_id m /\
          forall m', m' ∈ ts -> h <= tm_id m' -> tm_id m <= tm_id m') /\
      ((forall h m, h ∈ tq_hashes q -> m ∈ ts -> h <= tm_id m) ->
        forall h, h ∈ tq_hashes q -> exists p m, (p, m) ∈ l /\ h ∈ tq_hashes p) /\
      (forall k m0, k ∈ tq_hashes q -> (forall h, h ∈ tq_hashes q -> k <= h) -> m0 ∈ ts -> tm_id m0 < k ->
        forall p m, (p, m) ∈ l -> k ∉ tq_hashes p).
Proof.
  intros ro rgo tbo counter cfg calls rs table from to ts size s q kind Hro Hn Hsz Hh Hin H Hfrom Hts Hqt Hqn Hq.
  destruct (listing_fresh _ _ _ _ _ _ _ _ _ _ _ _ _ Hn Hin H Hfrom) as (t & Ht & Hr).
  set (calls' := calls ++ _) in H.
  assert (hashes_u32 calls') as Hh'.
  { intros qs k q' h Hc. apply elem_of_app in Hc as [Hc|Hc]; [by eapply Hh|]. by apply elem_of_list_singleton in Hc. }
  pose proof (history_inv _ _ _ _ _ _ _ Hro Hn Hsz Hh' H) as [_ Hcnt].
  pose proof (history_tables _ _ _ _ _ _ _ Hn H table) as Htab. rewrite Ht in Htab.
  destruct Htab as (size' & Hin' & (K1 & K2 & K3 & K4 & K5 & K6)).
  assert (size' = size) as ->.
  { by rewrite <- (size_of_in _ _ _ Hn Hin), <- (size_of_in _ _ _ Hn Hin'). }
  set (ids := list_to_set (map tm_id ts) : gset N) in *.
  assert (ids <> ∅) as Hids.
  { destruct ts as [|m ts]; [done|]. unfold ids. simpl. set_solver. }
  assert (forall i, i ∈ ascending ids <-> i ∈ map tm_id ts) as Hasc.
  { intros i. rewrite elem_of_ascending. unfold ids. by rewrite elem_of_list_to_set. }
  destruct (resolve_single ro t (from / size) ids q (ob_cache s) kind Hro) as (out & Ho & Hc); try done.
  { by rewrite Hqt. }
  { rewrite K2. split; [lia|by eapply Hsz]. }
  { intros h Hx. by apply Hq. }
  { by eapply K6. }
  { intros h Hx. rewrite K2. by apply Hq. }
  destruct (try_resolve_sound t (from / size) q _ ids Hr eq_refl Hids (K6 _ _ Hr)) as (out' & Ho' & Hok & _).
  rewrite Ho in Ho'. injection Ho' as <-. rewrite Forall_forall in Hok.
  pose proof (append_all_spec out) as [M1 M2]. set (m := foldl append_result ∅ out) in *.
  assert (forall x, x ∈ out -> tq_table x.1 = table /\ tq_id x.1 = tq_id q /\ tb_tablets t !! tm_id x.2 = Some x.2 /\
            forall h, h ∈ tq_hashes x.1 -> h ∈ tq_hashes q /\ owns (ascending ids) (tm_id x.2) h) as Hout.
  { intros x Hx. destruct (Hok x Hx) as (A1 & A2 & A3 & i & A4 & A5).
    pose proof (K5 i) as A6. rewrite A4 in A6. destruct A6 as (_ & <- & _). split_and!; try done; [congruence|].
    intros h Hhx. destruct (A5 h Hhx) as [B1 B2]. split; [by apply elem_of_ascending|done]. }
  eexists _, _. split; [simpl; rewrite Hc; simpl; done|]. split.
  { unfold delivered. simpl. rewrite Hcnt. do 3 f_equal. unfold calls'. rewrite omap_app. simpl. rewrite app_nil_r. lia. }
  assert (forall p x, (p, x) ∈ map take_result (ro m) <-> exists key rr, m !! key = Some rr /\ (p, x) = take_result rr) as Hl.
  { intros p x. rewrite elem_of_list_fmap. split.
    - intros (rr & -> & Hx). rewrite (Hro m) in Hx. apply elem_of_list_fmap in Hx as ([key rr'] & -> & Hx).
      apply elem_of_map_to_list in Hx. by exists key, rr'.
    - intros (key & rr & Hx & ->). exists rr. split; [done|]. rewrite (Hro m). apply elem_of_list_fmap.
      exists (key, rr). split; [done|]. by apply elem_of_map_to_list. }
  assert (forall key rr, m !! key = Some rr -> key = (table, tm_id (rr_tablet rr))) as Hk.
  { intros key rr Hx. destruct (M1 _ _ Hx) as (A1 & A2 & (x & A3 & A4 & A5 & A6) & _).
    destruct (Hout x A3) as (B1 & _). rewrite <- A6, A4, B1. done. }
  split_and!.
  - rewrite map_map. rewrite (Hro m), map_map. simpl.
    assert (forall key rr, (key, rr) ∈ map_to_list m -> key = (table, tm_id (rr_tablet rr))) as Hk'.
    { intros key rr Hx. apply elem_of_map_to_list in Hx. by apply Hk. }
    pose proof (NoDup_fst_map_to_list m) as Hnd. clear - Hk' Hnd.
    induction (map_to_list m) as [|[key rr] l IH]; simpl; [constructor|].
    simpl in Hnd. apply NoDup_cons in Hnd as [Hx Hnd]. constructor.
    + intros Hy. apply Hx. apply elem_of_list_fmap in Hy as ([key' rr'] & Hy & Hin). simpl in Hy.
      apply elem_of_list_fmap. exists (key', rr'). split; [|done]. simpl.
      rewrite (Hk' key rr) by by left. rewrite (Hk' key' rr') by by right. by rewrite Hy.
    + apply IH; [|done]. intros k r Hkr. apply Hk'. by right.
  - intros p x Hp. apply Hl in Hp as (key & rr & Hm & [= -> ->]). simpl.
    destruct (M1 _ _ Hm) as (A1 & A2 & (x & A3 & A4 & A5 & A6) & A7). pose proof (Hk _ _ Hm) as ->. simpl in *.
    destruct (Hout x A3) as (B1 & B2 & B3 & _). split_and!; [done|congruence|unfold known; rewrite Ht; simpl; congruence|].
    intros h Hhh. apply elem_of_list_to_set in Hhh. destruct (A7 h Hhh) as (y & Y1 & Y2 & Y3).
    destruct (Hout y Y1) as (_ & _ & _ & C). destruct (C h Y2) as (C1 & C2 & C3 & C4).
    injection Y3 as Y3 Y4. rewrite Y4 in *. split_and!; [done|by apply Hasc|done|].
    intros m' Hm'. apply C4. apply Hasc. apply elem_of_list_fmap. by exists m'.
  - intros Hall h Hhq. unfold try_resolve in Ho. rewrite Hr in Ho. simpl in Ho.
    destruct (ascending ids) as [|first rest] eqn:Ea; [done|]. cbn [cycle_next res_bind] in Ho.
    assert (first ∈ map tm_id ts) as Hfirst by (apply Hasc; by left).
    destruct (K6 _ _ Hr ids first eq_refl) as [mf Hmf]; [apply elem_of_ascending; rewrite Ea; by left|].
    rewrite (resolve_loop_complete _ _ _ _ _ _ _ mf Hmf) in Ho.
    2:{ intros k Hkq. apply elem_of_ascending in Hkq. apply elem_of_list_fmap in Hfirst as (m0 & -> & Hm0). by apply Hall. }
    cbn [res_bind app] in Ho. injection Ho as Ho.
    assert (h ∈ ascending (tq_hashes q)) as Hha by by apply elem_of_ascending.
    destruct (ascending (tq_hashes q)) as [|k ks] eqn:Ek; [by apply elem_of_nil in Hha|].
    destruct (M2 (query_from q (k :: ks), mf) h) as (rr & Hrr & Hhr).
    { rewrite <- Ho. by left. }
    { cbn [fst]. by apply elem_of_query_from. }
    exists (query_create (rr_query rr) (rr_table rr) (rr_hashes rr)), (rr_tablet rr). split.
    + apply Hl. by eexists _, rr.
    + simpl. by apply elem_of_list_to_set.
  - intros k m0 Hkq Hmin Hm0 Hlt p x Hp Hkp. apply Hl in Hp as (key & rr & Hm & [= -> ->]). simpl in Hkp.
    apply elem_of_list_to_set in Hkp. destruct (M1 _ _ Hm) as (_ & _ & _ & A7). destruct (A7 k Hkp) as (y & Y1 & Y2 & _).
    unfold try_resolve in Ho. rewrite Hr in Ho. simpl in Ho.
    pose proof (ascending_sorted ids) as Hs1. pose proof (ascending_sorted (tq_hashes q)) as Hs2.
    pose proof (ascending_NoDup (tq_hashes q)) as Hnd.
    assert (tm_id m0 ∈ ascending ids) as Hma by (apply Hasc; apply elem_of_list_fmap; by exists m0).
    assert (k ∈ ascending (tq_hashes q)) as Hka by by apply elem_of_ascending.
    assert (forall h, h ∈ ascending (tq_hashes q) -> k <= h) as Hmin' by (intros h Hx; apply Hmin; by apply elem_of_ascending).
    destruct (ascending ids) as [|first rest] eqn:Ea; [done|]. cbn [cycle_next res_bind] in Ho.
    destruct (ascending (tq_hashes q)) as [|k' ks] eqn:Ek; [by apply elem_of_nil in Hka|].
    assert (k' = k) as ->.
    { apply elem_of_cons in Hka as [->|Hka]; [done|]. apply StronglySorted_inv in Hs2 as [_ Hs2].
      rewrite Forall_forall in Hs2. specialize (Hs2 k Hka). specialize (Hmin' k' ltac:(by left)). lia. }
    assert (first <= tm_id m0) as Hf.
    { apply elem_of_cons in Hma as [->|Hma]; [done|]. apply StronglySorted_inv in Hs1 as [_ Hs1].
      rewrite Forall_forall in Hs1. specialize (Hs1 _ Hma). lia. }
    cbn [resolve_loop] in Ho. rewrite (proj2 (N.ltb_lt first k)) in Ho by lia. cbn [flush_result res_bind] in Ho.
    destruct (cycle_next (first :: rest) rest) as [[a rest']| |]; cbn [res_bind] in Ho; [|done..].
    destruct (resolve_loop t q (first :: rest) rest' a [] ks) as [o| |] eqn:El; cbn [res_bind] in Ho; [|done..].
    injection Ho as <-. pose proof (resolve_loop_keys _ _ _ _ _ _ _ _ El y k Y1 Y2) as Hx. simpl in Hx.
    by apply NoDup_cons in Hnd as [? _].
Qed.

(** After a region has been listed, a query for keys of that region is answered
    at once. Each key of the answer is attached to the first listed tablet
    clockwise from it, with the newest metadata known of it, there is one result
    for each tablet, and if no key lies beyond any listed tablet no key is lost.
    Missing: keys that lie beyond a listed tablet; some are lost, see below. *)
Theorem C49_resolved_against_listing_partial :
  forall ro rgo tbo counter cfg calls rs table from to ts size s q kind,
    values_order ro -> NoDup (map fst cfg) -> sizes_u32 cfg -> hashes_u32 calls -> (table, size) ∈ cfg ->
    history ro rgo tbo counter cfg
      (calls ++ [CallResponse (rs ++ [OpResult table OpSucceeded (Some (ListResult from to ts))])]) s ->
    tracked size from -> ts <> [] ->
    tq_table q = table -> tq_hashes q <> ∅ ->
    (forall h, h ∈ tq_hashes q -> h <= u32_max /\ h / size = from / size) ->
    exists s' l, perform ro rgo tbo s (CallResolve [q] kind) = Ok s' /\
      delivered s' = delivered s ++ [(Nlen (omap call_queries calls) + 2, l)] /\
      NoDup (map (fun x : resolved => tm_id x.2) l) /\
      (forall p m, (p, m) ∈ l ->
        tq_table p = table /\ tq_id p = tq_id q /\ known s table (tm_id m) = Some m /\
        forall h, h ∈ tq_hashes p ->
          h ∈ tq_hashes q /\ tm_id m ∈ map tm_id ts /\ h <= tm_id m /\
          forall m', m' ∈ ts -> h <= tm_id m' -> tm_id m <= tm_id m') /\
      ((forall h m, h ∈ tq_hashes q -> m ∈ ts -> h <= tm_id m) ->
        forall h, h ∈ tq_hashes q -> exists p m, (p, m) ∈ l /\ h ∈ tq_hashes p).
Proof.
  intros. edestruct resolve_listed as (s' & l & ? & ? & ? & ? & ? & _); [eassumption..|]. exists s', l. done.
Qed.
(** A query whose first key lies beyond the first tablet listed is answered without that key. *)
Theorem C49_first_key_beyond_first_tablet_is_lost_refuted :
  forall ro rgo tbo counter cfg calls rs table from to ts size s q kind,
    values_order ro -> NoDup (map fst cfg) -> sizes_u32 cfg -> hashes_u32 calls -> (table, size) ∈ cfg ->
    history ro rgo tbo counter cfg
      (calls ++ [CallResponse (rs ++ [OpResult table OpSucceeded (Some (ListResult from to ts))])]) s ->
    tracked size from -> ts <> [] ->
    tq_table q = table -> tq_hashes q <> ∅ ->
    (forall h, h ∈ tq_hashes q -> h <= u32_max /\ h / size = from / size) ->
    exists s' l, perform ro rgo tbo s (CallResolve [q] kind) = Ok s' /\
      delivered s' = delivered s ++ [(Nlen (omap call_queries calls) + 2, l)] /\
      (forall k m0, k ∈ tq_hashes q -> (forall h, h ∈ tq_hashes q -> k <= h) -> m0 ∈ ts -> tm_id m0 < k ->
        forall p m, (p, m) ∈ l -> k ∉ tq_hashes p).
Proof.
  intros. edestruct resolve_listed as (s' & l & ? & ? & ? & ? & ? & ?); [eassumption..|]. exists s', l. done.
Qed.
Definition ex_listing_calls : list cache_call :=
  [CallResolve [query_create 7 "t" [5]] ToSource; CallProgress] ++
  [CallResponse ([] ++ [OpResult "t" OpSucceeded (Some (ListResult 0 1073741823 [ex_tablet 10 1; ex_tablet 20 1]))])].
Definition ex_listing_state : observed :=
  match (let! c := mc_init (mc_create 100) ex_cfg in
    performs ex_results ex_regions ex_tables (Observed c []) ex_listing_calls) with Ok s => s | _ => ex_state end.
Example C49_example :
  history ex_results ex_regions ex_tables 100 ex_cfg ex_listing_calls ex_listing_state /\
  tracked 1073741824 0 /\ ("t", 1073741824) ∈ ex_cfg /\
  delivered ex_listing_state = [(2, [(query_create 7 "t" [5], ex_tablet 10 1)])].
Proof.
  split_and!.
  - apply history_run. by vm_compute.
  - done.
  - by left.
  - by vm_compute.
Qed.
(** For instance, keys 5, 15 and 17 and listed tablets 10 and 20: 15 is not in
    the answer although tablet 20 follows it. *)
Theorem C49_lost_key_witness_refuted :
  match perform ex_results ex_regions ex_tables ex_listing_state (CallResolve [query_create 9 "t" [5; 15; 17]] ToHandler) with
  | Ok s' => drop (length (delivered ex_listing_state)) (delivered s') =
      [(3, [(query_create 9 "t" [17], ex_tablet 20 1); (query_create 9 "t" [5], ex_tablet 10 1)])]
  | _ => False
  end.
Proof. by vm_compute. Qed.

(** ** C50: every hash belongs to a tracked region *)
Lemma register_untracked i T r parts p t :
  p ∈ parts -> T !! tq_table p.1 = Some t -> tb_regions t !! p.2 = None ->
  forall x, register_all i T r parts <> Ok x.
Proof.
  revert T r t. induction parts as [|[q idx] parts IH]; intros T r t Hp Ht Hr x; [by apply elem_of_nil in Hp|].
  simpl. apply elem_of_cons in Hp as [->|Hp].
  - simpl in Ht, Hr. rewrite Ht. simpl. unfold try_resolve. by rewrite Hr.
  - destruct (T !! tq_table q) as [t0|] eqn:E; simpl; [|done].
    destruct (try_resolve t0 idx q) as [[l|]| |] eqn:E0; simpl; [by eapply IH| |done..].
    destruct (table_register t0 i idx) as [t'| |] eqn:E1; simpl; [|done..].
    destruct (decide (tq_table q = tq_table p.1)) as [e|e].
    + eapply (IH _ _ t'); [done|by rewrite e, lookup_insert|].
      rewrite e, Ht in E. injection E as <-. unfold table_register in E1.
      unfold try_resolve in E0. destruct (tb_regions t !! idx) as [rg|] eqn:Eg; [|done].
      destruct (region_register rg i) as [rg'| |]; simpl in E1; [|done..]. injection E1 as <-. simpl.
      rewrite lookup_insert_ne; [done|]. congruence.
    + eapply (IH _ _ t); [done|by rewrite lookup_insert_ne|done].
Qed.
(** False in general: a hash in the region after the last whole one is not
    tracked, and a request for it aborts the cache in every state. *)
Theorem C50_untracked_hashes_abort_refuted :
  forall ro rgo tbo counter cfg calls s table size q kind h,
    NoDup (map fst cfg) -> sizes_u32 cfg -> (table, size) ∈ cfg ->
    history ro rgo tbo counter cfg calls s ->
    tq_table q = table -> (forall h', h' ∈ tq_hashes q -> h' <= u32_max) ->
    h ∈ tq_hashes q -> ~ tracked size h ->
    forall s', perform ro rgo tbo s (CallResolve [q] kind) <> Ok s'.
Proof.
  intros ro rgo tbo counter cfg calls s table size q kind h Hn Hsz Hin Hh Hq Hhs Hhq Htr s'. subst table.
  pose proof (history_tables _ _ _ _ _ _ _ Hn Hh (tq_table q)) as Ht. simpl.
  unfold mc_resolve, resolve_create. simpl. destruct (mc_tables (ob_cache s) !! tq_table q) as [t|] eqn:E; [|done]. simpl.
  destruct Ht as (size' & Hin' & (K1 & K2 & K3 & K4 & _)).
  assert (size' = size) as ->.
  { by rewrite <- (size_of_in _ _ _ Hn Hin), <- (size_of_in _ _ _ Hn Hin'). }
  destruct (split_query_spec t q) as (parts & P1 & P2 & P3 & P4); [congruence|rewrite K2; by eapply Hsz|done|].
  rewrite P1. simpl. rewrite app_nil_r.
  destruct (register_all _ _ _ parts) as [[T r]| |] eqn:Er; [|done..]. exfalso.
  destruct (P4 h Hhq) as (p & Hp & Hhp). rewrite Forall_forall in P2. destruct (P2 _ Hp) as (_ & Ptab & _ & Pidx).
  apply Pidx in Hhp as [_ Hidx]. rewrite K2 in Hidx.
  eapply (register_untracked _ _ _ parts p t); [done|by rewrite Ptab| |exact Er].
  rewrite <- Hidx. destruct (tb_regions t !! (h / size)) eqn:Eg; [|done]. exfalso. apply Htr. apply K4. by eexists.
Qed.
(** For every region size the largest hash is such a hash. *)
Theorem C50_largest_hash_untracked_refuted : forall size, ~ tracked size u32_max.
Proof. intros size. unfold tracked. lia. Qed.
(** Hashes in tracked regions never abort the cache: see
    [C69_proper_calls_never_abort]; the tracked hashes are those below the end
    of the last whole region. *)
Theorem C50_tracked_hashes_partial :
  forall size h, 0 < size -> (tracked size h <-> h < u32_max / size * size).
Proof.
  intros size h Hs. unfold tracked. split; intros H.
  - pose proof (mul_div_gt h size ltac:(lia)). 
    assert ((h / size + 1) * size <= u32_max / size * size) by (apply N.mul_le_mono_r; lia). lia.
  - apply N.div_lt_upper_bound; [lia|]. lia.
Qed.
Example C50_example : tracked 1073741824 3221225471 /\ ~ tracked 1073741824 3221225472 /\
  perform ex_results ex_regions ex_tables ex_state (CallResolve [query_create 1 "t" [3221225472]] ToHandler) = Panic.
Proof. split_and!; [done|done|by vm_compute]. Qed.

(** ** C68: list requests are neither lost nor repeated *)
Lemma progress_sent_app rgo tbo s :
  let s' := Observed (mc_progress rgo tbo (ob_cache s)) (ob_taken s) in
  sent s' = sent s ++ drop (length (sent s)) (sent s').
Proof.
  unfold sent, mc_progress. cbn [ob_cache ob_taken]. destruct (concat _) as [|op ops]; cbn [mc_out].
  - by rewrite drop_all, app_nil_r.
  - by rewrite app_assoc, drop_app.
Qed.
(** A progress call sends at most one message; it asks once for each region it
    asks for, for exactly that region's bounds, and for none that is waiting for
    an answer. *)
Theorem C68_no_repeated_list_requests :
  forall ro rgo tbo counter cfg calls s o s',
    map_order rgo -> map_order tbo -> NoDup (map fst cfg) -> sizes_u32 cfg ->
    outstanding ro rgo tbo counter cfg calls s o ->
    perform ro rgo tbo s CallProgress = Ok s' ->
    let new := drop (length (sent s)) (sent s') in
    let ops := concat (map snd new) in
    sent s' = sent s ++ new /\
    new = match ops with [] => [] | _ => [(mc_correlation (ob_cache s) + 1, ops)] end /\
    NoDup (asked_regions cfg new) /\
    forall op, op ∈ ops -> exists size idx,
      (op_table op, size) ∈ cfg /\ op_region cfg op = Some (op_table op, idx) /\
      (op_table op, idx) ∉ o /\ idx < u32_max / size /\
      op_kind_of op = Some (OpList (idx * size) (N.min u32_max (idx * size + size - 1))).
Proof.
  intros ro rgo tbo counter cfg calls s o s' Hrg Htb Hn Hsz Ho [= <-].
  destruct (progress_asked rgo tbo cfg s) as [H1 H2].
  pose proof (history_tables _ _ _ _ _ _ _ Hn (outstanding_history _ _ _ _ _ _ _ _ Ho)) as Htab.
  assert (tables_wf (size_of cfg) (fun n => reports n (size_of cfg n) calls) (mc_tables (ob_cache s))) as Hwf.
  { intros n t Ht. specialize (Htab n). rewrite Ht in Htab. destruct Htab as (sz & Hs & Hok).
    by rewrite (size_of_in _ _ _ Hn Hs). }
  intros new ops. fold new in H1, H2. change (concat (map snd new)) with ops in H1.
  split_and!.
  - apply progress_sent_app.
  - rewrite H1. pose proof (progress_sent rgo tbo s) as Hs. fold new in Hs. rewrite Hs.
    by destruct (progress_ops rgo tbo (mc_tables (ob_cache s))).
  - rewrite H2.
    pose proof (progress_ops_NoDup rgo tbo Hrg Htb _ _ _ Hwf) as Hnd.
    assert (forall op, op ∈ progress_ops rgo tbo (mc_tables (ob_cache s)) -> op_region cfg op = Some (op_key (size_of cfg) op)) as Hk.
    { intros op Hop. apply (progress_ops_spec rgo tbo Hrg Htb _ _ _ _ Hwf) in Hop as (idx & _ & Hk).
      unfold op_region, op_key. by rewrite Hk. }
    clear - Hnd Hk. induction (progress_ops rgo tbo (mc_tables (ob_cache s))) as [|op l IH]; simpl; [constructor|].
    rewrite (Hk op) by by left. simpl in Hnd. apply NoDup_cons in Hnd as [Hx Hnd]. constructor.
    + intros Hy. apply Hx. apply elem_of_list_omap in Hy as (op' & Hop' & Hy).
      rewrite Hk in Hy by by right. apply (inj Some) in Hy. apply elem_of_list_fmap. exists op'. split; [congruence|done].
    + apply IH; [done|]. intros op' Hop'. apply Hk. by right.
  - rewrite H1. intros op Hop. apply (progress_ops_spec rgo tbo Hrg Htb _ _ _ _ Hwf) in Hop as (idx & Hnd & Hk).
    pose proof Hnd as (t & r & w & Ht & Hr & Hs & Hw). simpl in Ht, Hr.
    specialize (Htab (op_table op)). rewrite Ht in Htab. destruct Htab as (size & Hin & (_ & _ & Hnz & Hdom & _)).
    rewrite (size_of_in _ _ _ Hn Hin) in Hk. exists size, idx.
    assert (idx < u32_max / size) as Hidx by (apply Hdom; by eexists).
    split_and!; try done.
    + unfold op_region. rewrite Hk, (size_of_in _ _ _ Hn Hin). by rewrite bounds_idx.
    + rewrite (outstanding_prepared _ _ _ _ _ _ _ _ Hrg Htb Hn Ho). intros (t' & r' & w' & Ht' & Hr' & Hs').
      simpl in *. congruence.
    + rewrite Hk. unfold region_bounds. cbn [fst snd]. do 2 f_equal.
      pose proof (Hsz _ _ Hin). destruct (N.ltb_spec (u32_max - size) (idx * size)); lia.
Qed.

(** After a progress call every request without an answer has a list request
    under way for one of the hashes it asks for. *)
Theorem C68_unanswered_requests_are_being_listed :
  forall ro rgo tbo counter cfg calls s o i qs,
    values_order ro -> map_order rgo -> map_order tbo ->
    NoDup (map fst cfg) -> sizes_u32 cfg -> hashes_u32 calls ->
    outstanding ro rgo tbo counter cfg (calls ++ [CallProgress]) s o ->
    request calls i = Some qs -> i ∉ map fst (delivered s) ->
    exists q h, q ∈ qs /\ h ∈ tq_hashes q /\ (tq_table q, h / size_of cfg (tq_table q)) ∈ o.
Proof.
  intros ro rgo tbo counter cfg calls s o i qs Hro Hrg Htb Hn Hsz Hh Ho Hreq Hd.
  assert (hashes_u32 (calls ++ [CallProgress])) as Hh'.
  { intros qs' k q h Hc. apply elem_of_app in Hc as [Hc|Hc]; [by eapply Hh|]. by apply elem_of_list_singleton in Hc. }
  pose proof (history_inv _ _ _ _ _ _ _ Hro Hn Hsz Hh' (outstanding_history _ _ _ _ _ _ _ _ Ho)) as [[Hwf (H1 & H2 & H3)] _].
  assert (request (calls ++ [CallProgress]) i = Some qs) as Hreq' by (rewrite request_snoc; done).
  destruct (H2 i) as [r Hr]; [by rewrite Hreq'|]. destruct (H1 i r Hr) as (qs' & Hq' & (C1 & C2 & C3) & Hx).
  rewrite Hreq' in Hq'. injection Hq' as <-. specialize (Hx Hd).
  apply map_choose in Hx as (key & q & Hq). destruct (C1 _ _ Hq) as (P1 & (q0 & Q1 & Q2 & Q3 & Q4) & P3 & P4).
  apply set_choose_L in P3 as [h Hhq]. exists q0, h. split_and!; [done|set_solver|].
  rewrite <- Q2, <- P1. rewrite (P4 h Hhq). replace (key.1, key.2) with key by by destruct key.
  pose proof (C3 key ltac:(by eexists)) as Hw.
  apply (outstanding_prepared _ _ _ _ _ _ _ _ Hrg Htb Hn Ho).
  inversion Ho as [|calls0 s0 o0 call0 s1 Ho0 Hp E1 E2 E3]; [by destruct calls|].
  apply app_inj_tail in E1 as [-> ->]. simpl in Hp. injection Hp as <-. simpl in *.
  rewrite mc_progress_tables in Hw |- *. rewrite progress_waiting in Hw. rewrite progress_prepared.
  unfold waiting in Hw. destruct (mc_tables (ob_cache s0) !! key.1) as [t|] eqn:Et; [|by apply elem_of_nil in Hw].
  destruct (tb_regions t !! key.2) as [rg|] eqn:Erg; [|by apply elem_of_nil in Hw].
  unfold region_waiting in Hw. destruct (rg_state rg) as [w [] |] eqn:Es; [| |by apply elem_of_nil in Hw].
  - left. by exists t, rg, w.
  - right. exists t, rg, w. split_and!; try done. intros ->. by apply elem_of_nil in Hw.
Qed.
(** A progress call asks only for regions that an unanswered request needs. *)
Theorem C68_lists_only_what_is_asked :
  forall ro rgo tbo counter cfg calls s s' op,
    values_order ro -> map_order rgo -> map_order tbo ->
    NoDup (map fst cfg) -> sizes_u32 cfg -> hashes_u32 calls -> one_query_per_table calls ->
    history ro rgo tbo counter cfg calls s ->
    perform ro rgo tbo s CallProgress = Ok s' ->
    op ∈ concat (map snd (drop (length (sent s)) (sent s'))) ->
    exists i qs q h, request calls i = Some qs /\ i ∉ map fst (delivered s) /\ q ∈ qs /\ h ∈ tq_hashes q /\
      op_region cfg op = Some (tq_table q, h / size_of cfg (tq_table q)).
Proof.
  intros ro rgo tbo counter cfg calls s s' op Hro Hrg Htb Hn Hsz Hh Hone H [= <-] Hop.
  destruct (history_inv _ _ _ _ _ _ _ Hro Hn Hsz Hh H) as [[Hwf (H1 & H2 & H3)] _].
  destruct (history_once _ _ _ _ _ _ _ Hro Hn Hsz Hh Hone H) as (_ & _ & _ & O4 & _ & O6 & _).
  rewrite (proj1 (progress_asked rgo tbo cfg s)) in Hop.
  apply (progress_ops_spec rgo tbo Hrg Htb _ _ _ _ Hwf) in Hop as (idx & (t & r & w & Ht & Hr & Hs & Hw) & Hk).
  simpl in Ht, Hr. destruct w as [|i w]; [done|].
  destruct (O4 i (op_table op, idx)) as (rv & Hrv & Hpend).
  { left. unfold waiting. simpl. rewrite Ht, Hr. unfold region_waiting. rewrite Hs. by left. }
  destruct (H1 i rv Hrv) as (qs & Hq & (C1 & _ & _) & _). destruct Hpend as [q Hpq].
  destruct (C1 _ _ Hpq) as (P1 & (q0 & Q1 & Q2 & Q3 & Q4) & P3 & P4). simpl in P1, P4.
  apply set_choose_L in P3 as [h Hhq]. exists i, qs, q0, h. split_and!; try done.
  - intros Hd. rewrite (O6 i rv Hd Hrv), lookup_empty in Hpq. done.
  - set_solver.
  - unfold op_region. rewrite Hk. destruct (Hwf _ _ Ht) as (K1 & K2 & K3 & _). rewrite bounds_idx by done.
    rewrite <- Q2, <- P1. by rewrite (P4 h Hhq).
Qed.
(** The messages with list requests are numbered one after the other from the
    number the cache was created with, there is at most one for each progress
    call, and each is handed out once: after taking messages there are none left
    to take. *)
Theorem C68_messages_are_numbered_and_taken_once :
  forall ro rgo tbo counter cfg calls s,
    history ro rgo tbo counter cfg calls s ->
    (forall k m, sent s !! k = Some m -> m.1 = counter + 1 + N.of_nat k) /\
    NoDup (map fst (sent s)) /\
    (length (sent s) <= length (progress_calls calls))%nat /\
    (last calls = Some CallTake -> ob_taken s = sent s).
Proof.
  intros ro rgo tbo counter cfg calls s H.
  assert (map fst (sent s) = map (fun k => counter + 1 + N.of_nat k) (seq 0 (length (sent s))) /\
    mc_correlation (ob_cache s) = counter + Nlen (sent s) /\
    (length (sent s) <= length (progress_calls calls))%nat /\
    (last calls = Some CallTake -> ob_taken s = sent s)) as (H1 & _ & H3 & H4).
  { revert s H. induction calls as [|call calls IH] using rev_ind; intros s H.
    - destruct H as (c & Hi & [= <-]). unfold mc_init in Hi.
      destruct (init_tables _ _) as [ts| |]; [|done..]. injection Hi as <-. simpl. split_and!; try done. unfold Nlen. simpl. lia.
    - apply history_snoc in H as (s0 & H & Hp). destruct (IH _ H) as (I1 & I2 & I3 & _). clear IH.
      assert (progress_calls (calls ++ [call]) = progress_calls calls ++ progress_calls [call]) as -> by apply omap_app.
      rewrite app_length, last_snoc.
      assert (forall s', mc_correlation (ob_cache s') = mc_correlation (ob_cache s0) -> sent s' = sent s0 ->
        map fst (sent s') = map (fun k => counter + 1 + N.of_nat k) (seq 0 (length (sent s'))) /\
        mc_correlation (ob_cache s') = counter + Nlen (sent s') /\
        (length (sent s') <= length (progress_calls calls) + length (progress_calls [call]))%nat) as Hk.
      { intros s' -> ->. split_and!; [done|done|lia]. }
      destruct call; simpl in Hp.
      + destruct (mc_resolve _ _ _ _) as [c| |] eqn:E; [|done..]. injection Hp as <-.
        unfold mc_resolve in E. destruct (resolve_create _ _ _ _ _) as [[[ts r] o]| |]; cbn [res_bind] in E; [|done..].
        injection E as <-. match goal with |- context [Observed ?c ?t] => destruct (Hk (Observed c t)) as (K1 & K2 & K3); [done|done|] end.
        by split_and!.
      + injection Hp as <-. simpl. unfold sent in *. simpl. unfold mc_progress.
        destruct (concat _) as [|op ops]; simpl; [split_and!; [done|done|lia|done]|].
        rewrite app_assoc. revert I1 I2 I3. generalize (ob_taken s0 ++ mc_out (ob_cache s0)) as l. intros l I1 I2 I3. unfold Nlen in *.
        split_and!; [|rewrite app_length; simpl; lia|rewrite app_length; simpl; lia|done].
        rewrite map_app, I1, app_length, seq_app, map_app, I2. simpl. do 2 f_equal. lia.
      + injection Hp as <-. destruct (Hk (Observed (mc_update (ob_cache s0) table m conflict) (ob_taken s0))) as (K1 & K2 & K3); [..|by split_and!];
          unfold mc_update, sent; simpl; by destruct (mc_tables _ !! _).
      + destruct (mc_response _ _ _) as [c| |] eqn:E; [|done..]. injection Hp as <-.
        assert (mc_correlation c = mc_correlation (ob_cache s0) /\ mc_out c = mc_out (ob_cache s0)) as [E1 E2].
        { clear -E. revert E. generalize (ob_cache s0) as c0. induction results as [|r rs IH]; intros c0 E; cbn [mc_response] in E; [by simplify_eq|].
          destruct (mc_result _ c0 r) as [c1| |] eqn:E1; cbn [res_bind] in E; [|done..]. destruct (IH _ E) as [-> ->].
          unfold mc_result in E1. destruct (or_detail r) as [[]|]; try done. destruct (mc_tables c0 !! _); [|by simplify_eq].
          destruct (table_update_region _ _ _) as [[t' idx] nt]. destruct (notify_all _ _ _ _ _ _ _) as [[rv d]| |]; cbn [res_bind] in E1; [|done..]. by simplify_eq. }
        destruct (Hk (Observed c (ob_taken s0))) as (K1 & K2 & K3); [done|unfold sent; simpl; by rewrite E2|by split_and!].
      + injection Hp as <-. unfold sent in *. simpl. rewrite app_nil_r. split_and!; [done|done|lia|done]. }
  split_and!; [|rewrite H1; apply (NoDup_fmap_2_strong (fun k => counter + 1 + N.of_nat k)); [intros x y _ _ Hxy; lia|apply NoDup_seq]|done|done].
  intros k m Hk. assert (map fst (sent s) !! k = Some m.1) as Hm by by rewrite list_lookup_fmap, Hk.
  rewrite H1, list_lookup_fmap in Hm. apply fmap_Some in Hm as (j & Hj & ->). apply lookup_seq in Hj as [-> _]. done.
Qed.
Example C68_example : exists o, outstanding ex_results ex_regions ex_tables 100 ex_cfg ex_calls ex_state o /\
  map snd (sent ex_state) =
    [[TabletOp "t" (Some (OpList 0 1073741823)); TabletOp "t" (Some (OpList 1073741824 2147483647))];
     [TabletOp "t" (Some (OpList 1073741824 2147483647))]] /\
  map fst (sent ex_state) = [101; 102].
Proof.
  destruct (history_outstanding _ _ _ _ _ _ _ ex_history) as [o Ho]. exists o. split; [done|]. split; by vm_compute.
Qed.

(** ** C69: every resolve request is answered once *)
(** A request is answered at most once, whatever happens, provided no request
    asks two queries of one table. *)
Theorem C69_answered_at_most_once_partial :
  forall ro rgo tbo counter cfg calls s,
    values_order ro -> NoDup (map fst cfg) -> sizes_u32 cfg -> hashes_u32 calls -> one_query_per_table calls ->
    history ro rgo tbo counter cfg calls s -> NoDup (map fst (delivered s)).
Proof.
  intros ro rgo tbo counter cfg calls s Hro Hn Hsz Hh Ho H.
  by destruct (history_once _ _ _ _ _ _ _ Hro Hn Hsz Hh Ho H) as (_ & _ & _ & _ & ? & _).
Qed.
(** Calls that keep to the rules never abort the cache. *)
Theorem C69_proper_calls_never_abort_partial :
  forall ro rgo tbo counter cfg calls,
    values_order ro -> NoDup (map fst cfg) -> sizes_u32 cfg -> Forall (fun x => x.2 <> 0) cfg ->
    Forall (proper_call cfg) calls ->
    exists s, history ro rgo tbo counter cfg calls s.
Proof.
  intros ro rgo tbo counter cfg calls Hro Hn Hsz Hnz Hp.
  destruct (history_total ro rgo tbo counter cfg calls Hro Hn Hsz Hnz Hp) as (s & Hs & _). by exists s.
Qed.
Example C69_example :
  values_order ex_results /\ NoDup (map fst ex_cfg) /\ sizes_u32 ex_cfg /\ Forall (proper_call ex_cfg) ex_calls /\
  delivered ex_state = [(2, [(query_create 7 "t" [1073741830], ex_tablet 1073741900 4);
                             (query_create 7 "t" [5], ex_tablet 10 1)])].
Proof. destruct ex_cfg_ok. split_and!; [apply ex_results_order|done..|apply ex_proper|by vm_compute]. Qed.
(** Two queries of one table in one request abort the cache when the region is listed. *)
Theorem C69_two_queries_of_one_table_refuted :
  exists queries s,
    queries = [query_create 1 "t" [5]; query_create 2 "t" [6]] /\
    history ex_results ex_regions ex_tables 100 ex_cfg [CallResolve queries ToSource; CallProgress] s /\
    perform ex_results ex_regions ex_tables s (CallResponse [ex_listed 0 1073741823 [ex_tablet 10 1]]) = Panic.
Proof.
  eexists.
  pose (run := (let! c := mc_init (mc_create 100) ex_cfg in
    performs ex_results ex_regions ex_tables (Observed c [])
      [CallResolve [query_create 1 "t" [5]; query_create 2 "t" [6]] ToSource; CallProgress])).
  exists (match run with Ok s => s | _ => ex_state end). split; [reflexivity|]. split.
  - apply history_run. by vm_compute.
  - by vm_compute.
Qed.
(** With a handler instead, the query asked first is dropped from the answer. *)
Theorem C69_second_query_replaces_first_refuted :
  exists queries s,
    queries = [query_create 1 "t" [5]; query_create 2 "t" [6]] /\
    history ex_results ex_regions ex_tables 100 ex_cfg
      [CallResolve queries ToHandler; CallProgress; CallResponse [ex_listed 0 1073741823 [ex_tablet 10 1]]] s /\
    delivered s = [(2, [(query_create 2 "t" [6], ex_tablet 10 1)]); (2, [])].
Proof.
  eexists.
  pose (run := (let! c := mc_init (mc_create 100) ex_cfg in
    performs ex_results ex_regions ex_tables (Observed c [])
      [CallResolve [query_create 1 "t" [5]; query_create 2 "t" [6]] ToHandler; CallProgress;
       CallResponse [ex_listed 0 1073741823 [ex_tablet 10 1]]])).
  exists (match run with Ok s => s | _ => ex_state end). split; [reflexivity|]. split.
  - apply history_run. by vm_compute.
  - by vm_compute.
Qed.

(** ** C82: what is answered without asking the store *)
(** A resolve request is answered at once, from what the cache holds, exactly if
    for each of the regions it asks about the last thing the cache heard is a
    successful listing: not if the region was never listed, if the last listing
    failed or if a tablet of the region was reported to be in conflict since. *)
Theorem C82_answered_from_the_cache :
  forall ro rgo tbo counter cfg calls s queries kind s',
    NoDup (map fst cfg) -> sizes_u32 cfg -> history ro rgo tbo counter cfg calls s ->
    (forall q h, q ∈ queries -> h ∈ tq_hashes q -> h <= u32_max) ->
    perform ro rgo tbo s (CallResolve queries kind) = Ok s' ->
    exists answers, delivered s' = delivered s ++ answers /\ (length answers <= 1)%nat /\
      (answers <> [] <-> forall q h, q ∈ queries -> h ∈ tq_hashes q ->
         up_to_date cfg (tq_table q, h / size_of cfg (tq_table q)) calls = true).
Proof. intros. by eapply resolve_answered. Qed.
(** Hence: after a report of a conflict nothing about the region is answered
    until it is listed successfully. *)
Theorem C82_conflicting_regions_are_listed_again :
  forall ro rgo tbo counter cfg before table m after s queries kind s' q h,
    NoDup (map fst cfg) -> sizes_u32 cfg ->
    history ro rgo tbo counter cfg (before ++ CallUpdate table m true :: after) s ->
    (forall rs r, CallResponse rs ∈ after -> r ∈ rs -> or_status r = OpSucceeded ->
       result_region cfg r <> Some (table, tm_id m / size_of cfg table)) ->
    (forall q h, q ∈ queries -> h ∈ tq_hashes q -> h <= u32_max) ->
    q ∈ queries -> h ∈ tq_hashes q -> tq_table q = table -> h / size_of cfg table = tm_id m / size_of cfg table ->
    perform ro rgo tbo s (CallResolve queries kind) = Ok s' -> delivered s' = delivered s.
Proof.
  intros ro rgo tbo counter cfg before table m after s queries kind s' q h Hn Hsz H Hno Hh Hq Hx Ht Hr Hp.
  destruct (resolve_answered _ _ _ _ Hn _ _ _ _ _ _ Hsz H Hh Hp) as (o & Ho & _ & Hiff). rewrite Ho.
  destruct o as [|x o]; [by rewrite app_nil_r|]. exfalso. pose proof (proj1 Hiff ltac:(done) q h Hq Hx) as Hup. rewrite Ht, Hr in Hup.
  unfold up_to_date in Hup. rewrite foldl_app in Hup. cbn [foldl heard] in Hup. rewrite decide_True in Hup by done.
  clear -Hno Hup. revert Hno Hup. induction after as [|call after IH]; intros Hno Hup; cbn [foldl] in Hup; [done|].
  assert (heard cfg (table, tm_id m / size_of cfg table) false call = false) as Hf.
  { destruct call as [| |t0 m0 []|rs|]; simpl; try done; [by destruct (decide _)|].
    assert (forall r, r ∈ rs -> or_status r = OpSucceeded -> result_region cfg r <> Some (table, tm_id m / size_of cfg table)) as Hrs
      by (intros r; apply Hno; by left).
    clear -Hrs. induction rs as [|r rs IH]; [done|]. simpl. unfold heard_result at 2. destruct (decide _) as [E|E].
    - rewrite bool_decide_false; [apply IH; intros r' Hr'; apply Hrs; by right|]. intros Hst. apply (Hrs r); [by left|done|done].
    - apply IH. intros r' Hr'. apply Hrs. by right. }
  rewrite Hf in Hup. apply IH; [|done]. intros rs r Hin. apply Hno. by right.
Qed.
(** In the example's history region 0 of "t" is in conflict and region 1 was listed
    successfully, after a failed listing. *)
Example C82_example :
  up_to_date ex_cfg ("t"%string, 0) ex_calls = false /\ up_to_date ex_cfg ("t"%string, 1) ex_calls = true /\
  match perform ex_results ex_regions ex_tables ex_state (CallResolve [query_create 1 "t" [5]] ToHandler) with
  | Ok s1 => delivered s1 = delivered ex_state | _ => False end /\
  match perform ex_results ex_regions ex_tables ex_state (CallResolve [query_create 1 "t" [1073741830]] ToHandler) with
  | Ok s2 => map fst (delivered s2) = map fst (delivered ex_state) ++ [3] | _ => False end.
Proof. split_and!; vm_compute; reflexivity. Qed.
