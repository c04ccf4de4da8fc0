(** Proofs about the metadata cache of the tablet cache application. *)
From Verif Require Import Base TabletModel MetadataModel MetadataSpec.
Local Arguments region_bounds : simpl never.
Local Arguments regions_count : simpl never.
Local Arguments N.div : simpl never.
Local Arguments N.sub : simpl never.
Local Arguments N.add : simpl never.
Local Arguments N.mul : simpl never.
Local Arguments ascending : simpl never.
Local Arguments N.ltb : simpl never.
Local Arguments N.leb : simpl never.
Local Arguments N.eqb : simpl never.

(** * Ascending iteration *)
Lemma elem_of_ascending s h : h ∈ ascending s <-> h ∈ s.
Proof. unfold ascending. rewrite merge_sort_Permutation. apply elem_of_elements. Qed.
Lemma ascending_NoDup s : NoDup (ascending s).
Proof. unfold ascending. rewrite merge_sort_Permutation. apply NoDup_elements. Qed.
Lemma ascending_sorted s : StronglySorted N.lt (ascending s).
Proof.
  assert (StronglySorted N.le (ascending s)) as H.
  { apply StronglySorted_merge_sort; [intros ???; lia|intros ??; lia]. }
  pose proof (ascending_NoDup s) as Hn. revert H Hn. generalize (ascending s). clear s.
  induction l as [|x l IH]; intros H Hn; [constructor|].
  apply StronglySorted_inv in H as [H1 H2]. apply NoDup_cons in Hn as [Hx Hn].
  constructor; [by apply IH|]. rewrite Forall_forall in H2 |- *. intros y Hy.
  assert (x <> y) by (intros ->; done). specialize (H2 y Hy). lia.
Qed.
Lemma elem_of_query_from q l h : h ∈ tq_hashes (query_from q l) <-> h ∈ l.
Proof. simpl. apply elem_of_list_to_set. Qed.

Lemma mul_div_le' a b : b <> 0 -> (a / b) * b <= a.
Proof. intros. rewrite N.mul_comm. by apply N.mul_div_le. Qed.
Lemma mul_div_gt a b : b <> 0 -> a < (a / b + 1) * b.
Proof. intros. pose proof (N.mul_succ_div_gt a b H). lia. Qed.

(** * Regions *)
Lemma bounds_contains size h :
  size <> 0 -> size <= u32_max -> h <= u32_max ->
  (region_bounds size (h / size)).1 <= h /\ h <= (region_bounds size (h / size)).2.
Proof.
  intros Hs Hm Hh. unfold region_bounds. cbn [fst snd].
  pose proof (mul_div_le' h size Hs). pose proof (mul_div_gt h size Hs).
  split; [done|]. destruct (N.ltb_spec (u32_max - size) (h / size * size)); [done|lia].
Qed.
Lemma bounds_region size idx h :
  size <> 0 -> size <= u32_max -> idx * size <= u32_max -> h <= u32_max ->
  (region_bounds size idx).1 <= h -> h <= (region_bounds size idx).2 -> h / size = idx.
Proof.
  intros Hs Hm Hi Hh H1 H2. unfold region_bounds in H1, H2. cbn [fst snd] in H1, H2.
  symmetry. apply (N.div_unique h size idx (h - idx * size)); [|lia].
  destruct (N.ltb_spec (u32_max - size) (idx * size)); lia.
Qed.
Lemma bounds_lt size idx h :
  size <> 0 -> h <= u32_max -> idx < h / size -> (region_bounds size idx).2 < h.
Proof.
  intros Hs Hh Hi. unfold region_bounds. cbn [fst snd].
  pose proof (mul_div_le' h size Hs).
  assert ((idx + 1) * size <= h / size * size) by (apply N.mul_le_mono_r; lia).
  destruct (N.ltb_spec (u32_max - size) (idx * size)); lia.
Qed.
Lemma bounds_eq size idx h :
  size <> 0 -> size <= u32_max -> h <= u32_max -> idx = h / size -> ((region_bounds size idx).2 <? h) = false.
Proof. intros ???->. apply N.ltb_ge. by apply bounds_contains. Qed.

Lemma region_advance_spec size q key idx hashes fuel :
  size <> 0 -> size <= u32_max -> key <= u32_max -> idx <= key / size ->
  key / size < idx + N.of_nat fuel + 1 ->
  region_advance fuel size q idx key hashes =
    Ok (key / size, if decide (idx = key / size) then hashes else [],
        if decide (idx = key / size) then [] else flush_region q idx hashes).
Proof.
  intros Hs Hm Hk. revert idx hashes. induction fuel as [|fuel IH]; intros idx hashes Hi Hf.
  - assert (idx = key / size) by lia. cbn [region_advance]. rewrite bounds_eq by done. rewrite !decide_True by done. by subst.
  - cbn [region_advance]. destruct (decide (idx = key / size)) as [e|e].
    + by rewrite bounds_eq by done; subst.
    + rewrite (proj2 (N.ltb_lt _ _)) by (apply bounds_lt; [done|done|lia]).
      rewrite IH by lia. simpl. destruct (decide (idx + 1 = key / size)); simpl; by rewrite app_nil_r.
Qed.

Definition part_ok (size : N) (q : table_query) (keys : list N) (p : table_query * N) : Prop :=
  tq_id p.1 = tq_id q /\ tq_table p.1 = tq_table q /\ tq_hashes p.1 <> ∅ /\
  forall h, h ∈ tq_hashes p.1 <-> h ∈ keys /\ h / size = p.2.

Lemma query_from_nonempty q x l : tq_hashes (query_from q (x :: l)) <> ∅.
Proof. simpl. set_solver. Qed.

Lemma split_loop_spec size q idx hashes keys all :
  size <> 0 -> size <= u32_max -> Forall (fun h => h <= u32_max) all ->
  (hashes <> [] \/ keys <> []) ->
  StronglySorted N.lt all -> (exists before, all = before ++ hashes ++ keys /\ Forall (fun h => h / size < idx) before) ->
  Forall (fun h => h / size = idx) hashes ->
  (hashes = [] -> forall k rest, keys = k :: rest -> k / size = idx) ->
  exists parts, split_loop size q idx hashes keys = Ok parts /\
    Forall (part_ok size q all) parts /\
    StronglySorted (fun a b => a.2 < b.2) parts /\
    Forall (fun p => idx <= p.2) parts /\
    (forall h, h ∈ hashes ++ keys -> exists p, p ∈ parts /\ h / size = p.2).
Proof.
  intros Hs Hm Hall Hne Hsort. revert idx hashes Hne.
  induction keys as [|k keys IH]; intros idx hashes Hne (before & Heq & Hb) Hh Hfirst; cbn [split_loop].
  - destruct hashes as [|x hashes]; [naive_solver|].
    eexists. split; [done|]. split_and!.
    + constructor; [|constructor]. split_and!; [done..|apply query_from_nonempty|].
      intros h. change (x :: hashes) with (x :: hashes) in *. simpl fst.
      rewrite elem_of_query_from. simpl snd. rewrite Heq. rewrite !app_nil_r. rewrite elem_of_app.
      rewrite Forall_forall in Hh. rewrite Forall_forall in Hb.
      split.
      * intros Hx. split; [by right|by apply Hh].
      * intros [[Hx|Hx] He]; [|done]. specialize (Hb h Hx). simpl in Hb. lia.
    + repeat constructor.
    + repeat constructor; simpl; lia.
    + intros h Hx. rewrite app_nil_r in Hx. rewrite Forall_forall in Hh. eexists.
      split; [by apply elem_of_list_singleton|]. simpl. by apply Hh.
  - assert (k <= u32_max) as Hk.
    { rewrite Forall_forall in Hall. apply Hall. subst all. set_solver. }
    assert (idx <= k / size) as Hik.
    { destruct hashes as [|x hashes]; [rewrite (Hfirst eq_refl k keys eq_refl); lia|].
      apply Forall_cons in Hh as [Hx _]. rewrite <- Hx.
      apply N.div_le_mono; [done|].
      subst all. apply StronglySorted_app_inv_r in Hsort. simpl in Hsort.
      apply StronglySorted_inv in Hsort as [_ Hf]. rewrite Forall_forall in Hf.
      specialize (Hf k ltac:(set_solver)). lia. }
    rewrite region_advance_spec; [|done..|].
    2:{ rewrite Nat2N.inj_succ, N2Nat.id. unfold regions_count.
        pose proof (N.div_le_mono k u32_max size Hs Hk). lia. }
    cbn [res_bind].
    destruct (decide (idx = k / size)) as [e|e].
    + destruct (IH idx (hashes ++ [k])) as (parts & H1 & H2 & H3 & H4 & H5).
      * left. by destruct hashes.
      * exists before. split; [|done]. by rewrite <- !app_assoc.
      * apply Forall_app. by split; [|constructor].
      * by destruct hashes.
      * rewrite <- e. rewrite H1. simpl. eexists. split; [done|]. split_and!; try done.
        intros h Hx. apply H5. rewrite <- app_assoc. done.
    + assert (idx < k / size) as Hlt by lia.
      destruct hashes as [|x hashes]; [by specialize (Hfirst eq_refl k keys eq_refl)|].
      destruct (IH (k / size) [k]) as (parts & H1 & H2 & H3 & H4 & H5).
      * by left.
      * exists (before ++ x :: hashes). split; [by rewrite <- app_assoc|].
        apply Forall_app. split.
        -- eapply Forall_impl; [exact Hb|]. simpl. intros; lia.
        -- eapply Forall_impl; [exact Hh|]. simpl. intros; lia.
      * by repeat constructor.
      * done.
      * change ([] ++ [k]) with [k]. rewrite H1. simpl. eexists. split; [done|]. split_and!.
        -- constructor; [|done]. split_and!; [done..|apply query_from_nonempty|].
           intros h. simpl fst. simpl snd. rewrite elem_of_query_from. rewrite Heq.
           rewrite !elem_of_app. rewrite Forall_forall in Hh. rewrite Forall_forall in Hb.
           split.
           ++ intros Hx. split; [by right; left|by apply Hh].
           ++ intros [[Hx|[Hx|Hx]] He]; [|done|].
              ** specialize (Hb h Hx). simpl in Hb. lia.
              ** exfalso. assert (k <= h).
                 { subst all. apply StronglySorted_app_inv_r in Hsort.
                   apply StronglySorted_app_inv_r in Hsort.
                   apply StronglySorted_inv in Hsort as [_ Hf]. rewrite Forall_forall in Hf.
                   apply elem_of_cons in Hx as [->|Hx]; [lia|]. specialize (Hf h Hx). lia. }
                 pose proof (N.div_le_mono k h size Hs H). lia.
        -- constructor; [done|]. eapply Forall_impl; [exact H4|]. simpl. intros; lia.
        -- constructor; [simpl; lia|]. eapply Forall_impl; [exact H4|]. simpl. intros; lia.
        -- intros h Hx. change (h ∈ (x :: hashes) ++ k :: keys) in Hx.
           apply elem_of_app in Hx as [Hx|Hx].
           ++ eexists. split; [by apply elem_of_cons; left|]. rewrite Forall_forall in Hh. by apply Hh.
           ++ destruct (H5 h Hx) as (p & Hp & Hpe). exists p. split; [by apply elem_of_cons; right|done].
Qed.

Lemma split_query_spec t q :
  tb_size t <> 0 -> tb_size t <= u32_max -> (forall h, h ∈ tq_hashes q -> h <= u32_max) ->
  exists parts, split_query t q = Ok parts /\
    Forall (part_ok (tb_size t) q (ascending (tq_hashes q))) parts /\
    StronglySorted (fun a b => a.2 < b.2) parts /\
    (forall h, h ∈ tq_hashes q -> exists p, p ∈ parts /\ h ∈ tq_hashes p.1).
Proof.
  intros Hs Hm Hh. unfold split_query.
  destruct (ascending (tq_hashes q)) as [|k keys] eqn:E.
  - eexists. split; [done|]. split_and!; [constructor|constructor|].
    intros h Hx. apply elem_of_ascending in Hx. rewrite E in Hx. by apply elem_of_nil in Hx.
  - assert (Forall (fun h => h <= u32_max) (k :: keys)) as Hall.
    { rewrite <- E. apply Forall_forall. intros h Hx. apply Hh. by apply elem_of_ascending. }
    pose proof (ascending_sorted (tq_hashes q)) as Hsort. rewrite E in Hsort.
    destruct (split_loop_spec (tb_size t) q (map_region (tb_size t) k) [] (k :: keys) (k :: keys))
      as (parts & H1 & H2 & H3 & H4 & H5); try done.
    + by right.
    + by exists [].
    + intros _ k' rest [= <- _]. done.
    + exists parts. split_and!; try done.
      intros h Hx. destruct (H5 h) as (p & Hp & Hpe).
      { simpl. rewrite <- E. by apply elem_of_ascending. }
      exists p. split; [done|]. rewrite Forall_forall in H2. apply (H2 p Hp).
      split; [|done]. rewrite <- E. by apply elem_of_ascending.
Qed.

(** * Resolving within a region *)
Definition owns (all : list N) (i h : N) : Prop :=
  i ∈ all /\ h <= i /\ forall x, x ∈ all -> h <= x -> i <= x.
Definition answer_ok (tablets : gmap N tablet_metadata) (q : table_query) (all keys : list N) (x : resolved) : Prop :=
  tq_id x.1 = tq_id q /\ tq_table x.1 = tq_table q /\ tq_hashes x.1 <> ∅ /\
  exists i, tablets !! i = Some x.2 /\ forall h, h ∈ tq_hashes x.1 -> h ∈ keys /\ owns all i h.
Definition answers_sorted : list resolved -> Prop :=
  StronglySorted (fun a b => forall h h', h ∈ tq_hashes a.1 -> h' ∈ tq_hashes b.1 -> h < h').

Lemma sorted_mid (a b : list N) (x : N) :
  StronglySorted N.lt (a ++ x :: b) -> (forall y, y ∈ a -> y < x) /\ (forall y, y ∈ b -> x < y).
Proof.
  intros H. split.
  - intros y Hy. induction a as [|z a IH]; [by apply elem_of_nil in Hy|]. simpl in H.
    apply StronglySorted_inv in H as [H1 H2]. apply elem_of_cons in Hy as [->|Hy]; [|by apply IH].
    rewrite Forall_forall in H2. apply H2. set_solver.
  - apply StronglySorted_app_inv_r in H. apply StronglySorted_inv in H as [_ H].
    by rewrite Forall_forall in H.
Qed.

Lemma resolve_wrapped t q all rest current keys :
  all <> [] -> current ∈ all -> (forall x, x ∈ rest -> x ∈ all) ->
  (forall x k, x ∈ all -> k ∈ keys -> x < k) ->
  resolve_loop t q all rest current [] keys = Ok [].
Proof.
  intros Hne. revert rest current. induction keys as [|k keys IH]; intros rest current Hc Hr Hk; [done|].
  simpl. rewrite (proj2 (N.ltb_lt _ _)) by (apply Hk; set_solver). simpl.
  destruct rest as [|x rest]; simpl.
  - destruct all as [|a all]; [done|]. simpl. rewrite IH; [done|set_solver..].
  - rewrite IH; [done|set_solver..].
Qed.

Lemma flush_spec t q current hashes m :
  tb_tablets t !! current = Some m ->
  flush_result t q current hashes = Ok (match hashes with [] => [] | _ => [(query_from q hashes, m)] end).
Proof. intros H. unfold flush_result. destruct hashes; [done|]. by rewrite H. Qed.

Lemma resolve_loop_spec t q all pre rest current hashes keys :
  (forall i, i ∈ all -> is_Some (tb_tablets t !! i)) ->
  StronglySorted N.lt all -> all = pre ++ current :: rest ->
  StronglySorted N.lt (hashes ++ keys) ->
  (forall h, h ∈ hashes -> h <= current) ->
  (forall x h, x ∈ pre -> h ∈ hashes ++ keys -> x < h) ->
  exists out, resolve_loop t q all rest current hashes keys = Ok out /\
    Forall (answer_ok (tb_tablets t) q all (hashes ++ keys)) out /\ answers_sorted out.
Proof.
  intros Hin Hall. revert pre rest current hashes.
  induction keys as [|k keys IH]; intros pre rest current hashes Heq Hsort Hle Hpre.
  - destruct (Hin current) as [m Hm]; [subst; set_solver|]. simpl.
    rewrite (flush_spec t q current hashes m Hm). eexists. split; [done|].
    destruct hashes as [|x hashes]; [split; constructor|].
    split; [|repeat constructor]. constructor; [|constructor].
    split_and!; [done..|apply query_from_nonempty|]. exists current. split; [done|].
    intros h Hh. simpl fst in Hh. apply elem_of_query_from in Hh.
    split; [by rewrite app_nil_r|]. split_and!; [subst; set_solver|by apply Hle|].
    intros y Hy Hhy. rewrite Heq in Hy. apply elem_of_app in Hy as [Hy|Hy].
    + specialize (Hpre y h Hy). rewrite app_nil_r in Hpre. specialize (Hpre Hh). lia.
    + rewrite Heq in Hall. apply sorted_mid in Hall as [_ Hall].
      apply elem_of_cons in Hy as [->|Hy]; [lia|]. specialize (Hall y Hy). lia.
  - cbn [resolve_loop]. destruct (N.ltb_spec current k) as [Hk|Hk].
    + destruct (Hin current) as [m Hm]; [subst; set_solver|].
      rewrite (flush_spec t q current hashes m Hm). cbn [res_bind].
      assert (Forall (answer_ok (tb_tablets t) q all (hashes ++ k :: keys))
                (match hashes with [] => [] | _ => [(query_from q hashes, m)] end)) as Hfl.
      { destruct hashes as [|x hashes]; [constructor|].
        constructor; [|constructor]. split_and!; [done..|apply query_from_nonempty|]. exists current. split; [done|].
        intros h Hh. simpl fst in Hh. apply elem_of_query_from in Hh.
        split; [set_solver|]. split_and!; [subst; set_solver|by apply Hle|].
        intros y Hy Hhy. rewrite Heq in Hy. apply elem_of_app in Hy as [Hy|Hy].
        - specialize (Hpre y h Hy). assert (y < h) by (apply Hpre; set_solver). lia.
        - rewrite Heq in Hall. apply sorted_mid in Hall as [_ Hall].
          apply elem_of_cons in Hy as [->|Hy]; [lia|]. specialize (Hall y Hy). lia. }
      pose proof (sorted_mid _ _ _ Hsort) as [Hb Ha].
      destruct rest as [|x rest].
      * (* the ring wraps around *)
        assert (exists a rest', cycle_next all [] = @Ok unit _ (a, rest') /\ a ∈ all /\ forall x, x ∈ rest' -> x ∈ all)
          as (a & rest' & Hc & Ha1 & Ha2).
        { destruct all as [|a all']; [by destruct pre|]. exists a, all'. split; [done|]. set_solver. }
        rewrite Hc. cbn [res_bind].
        rewrite resolve_wrapped; [|by destruct all; [by destruct pre|]|done|done|].
        2:{ intros y h Hy Hh. specialize (Ha h Hh). rewrite Heq in Hy.
            apply elem_of_app in Hy as [Hy|Hy]; [|set_solver by lia].
            apply Hpre; [done|set_solver]. }
        cbn [res_bind]. rewrite app_nil_r. eexists. split; [done|]. split; [done|].
        destruct hashes; repeat constructor.
      * cbn [cycle_next res_bind].
        destruct (IH (pre ++ [current]) rest x []) as (out & H1 & H2 & H3).
        -- by rewrite <- app_assoc.
        -- simpl. apply StronglySorted_app_inv_r in Hsort. by apply StronglySorted_inv in Hsort as [? _].
        -- intros h Hh. by apply elem_of_nil in Hh.
        -- intros y h Hy Hh. simpl in Hh. apply elem_of_app in Hy as [Hy|Hy].
           ++ apply Hpre; [done|set_solver].
           ++ apply elem_of_list_singleton in Hy as ->. specialize (Ha h Hh). lia.
        -- rewrite H1. cbn [res_bind]. eexists. split; [done|]. simpl in H2.
           assert (Forall (answer_ok (tb_tablets t) q all (hashes ++ k :: keys)) out) as H2'.
           { eapply Forall_impl; [exact H2|]. intros a (?&?&?&i&?&Hi). split_and!; try done.
             exists i. split; [done|]. intros h Hh. destruct (Hi h Hh). split; [set_solver|done]. }
           split; [by apply Forall_app|].
           destruct hashes as [|z hashes]; [done|]. simpl. constructor; [done|].
           rewrite Forall_forall in H2 |- *. intros b Hb' h h' Hh Hh'.
           simpl fst in Hh. apply elem_of_query_from in Hh.
           destruct (H2 b Hb') as (_&_&_&i&_&Hi). destruct (Hi h' Hh') as [Hk' _].
           specialize (Hb h Hh). specialize (Ha h' Hk'). lia.
    + destruct (IH pre rest current (hashes ++ [k]) Heq) as (out & H1 & H2 & H3).
      * by rewrite <- app_assoc.
      * intros h Hh. apply elem_of_app in Hh as [Hh|Hh]; [by apply Hle|].
        by apply elem_of_list_singleton in Hh as ->.
      * intros y h Hy Hh. apply Hpre; [done|]. by rewrite <- app_assoc in Hh.
      * rewrite H1. eexists. split; [done|]. split; [|done]. by rewrite <- app_assoc in H2.
Qed.

Lemma resolve_loop_complete t q all rest current hashes keys m :
  tb_tablets t !! current = Some m ->
  (forall h, h ∈ keys -> h <= current) ->
  resolve_loop t q all rest current hashes keys =
    Ok (match hashes ++ keys with [] => [] | l => [(query_from q l, m)] end).
Proof.
  intros Hm. revert hashes. induction keys as [|k keys IH]; intros hashes Hk.
  - simpl. rewrite (flush_spec _ _ _ _ m Hm). rewrite app_nil_r. by destruct hashes.
  - cbn [resolve_loop]. rewrite (proj2 (N.ltb_ge _ _)) by (apply Hk; set_solver).
    rewrite IH by set_solver. by rewrite <- app_assoc.
Qed.

(** A region is well formed: it lists only tablets that are cached. *)
Definition listed (t : table_cache) (r : region) : Prop :=
  forall ids i, region_fresh r = Some ids -> i ∈ ids -> is_Some (tb_tablets t !! i).

Lemma try_resolve_sound t idx q r ids :
  tb_regions t !! idx = Some r -> region_fresh r = Some ids -> ids <> ∅ -> listed t r ->
  exists out, try_resolve t idx q = Ok (Some out) /\
    Forall (answer_ok (tb_tablets t) q (ascending ids) (ascending (tq_hashes q))) out /\ answers_sorted out.
Proof.
  intros Hr Hf Hne Hl. unfold try_resolve. rewrite Hr, Hf.
  destruct (ascending ids) as [|first rest] eqn:E.
  { exfalso. apply Hne. apply set_eq. intros x. rewrite <- elem_of_ascending, E. set_solver. }
  cbn [cycle_next res_bind].
  destruct (resolve_loop_spec t q (first :: rest) [] rest first [] (ascending (tq_hashes q)))
    as (out & H1 & H2 & H3); [| |done|..].
  - intros i Hi. apply (Hl ids); [done|]. apply elem_of_ascending. by rewrite E.
  - rewrite <- E. apply ascending_sorted.
  - apply ascending_sorted.
  - set_solver.
  - set_solver.
  - rewrite H1. cbn [res_bind]. eexists. done.
Qed.

(** * What the cache knows about the tables *)
Lemma newest_add i l o t :
  newest i l o ->
  newest i (l ++ [t])
    (if decide (tm_id t = i) then
       match o with Some m => if tm_version m <? tm_version t then Some t else Some m | None => Some t end
     else o).
Proof.
  intros H. destruct (decide (tm_id t = i)) as [e|e].
  - destruct o as [m|].
    + destruct H as (H1 & H2 & H3). destruct (N.ltb_spec (tm_version m) (tm_version t)).
      * split_and!; [set_solver|done|]. intros m' Hm' Hi.
        apply elem_of_app in Hm' as [Hm'|Hm']; [specialize (H3 m' Hm' Hi); lia|].
        by apply elem_of_list_singleton in Hm' as ->.
      * split_and!; [set_solver|done|]. intros m' Hm' Hi.
        apply elem_of_app in Hm' as [Hm'|Hm']; [by apply H3|].
        by apply elem_of_list_singleton in Hm' as ->.
    + split_and!; [set_solver|done|]. intros m' Hm' Hi.
      apply elem_of_app in Hm' as [Hm'|Hm']; [by specialize (H m' Hm')|].
      by apply elem_of_list_singleton in Hm' as ->.
  - destruct o as [m|].
    + destruct H as (H1 & H2 & H3). split_and!; [set_solver|done|]. intros m' Hm' Hi.
      apply elem_of_app in Hm' as [Hm'|Hm']; [by apply H3|].
      apply elem_of_list_singleton in Hm' as ->. done.
    + intros m' Hm'. apply elem_of_app in Hm' as [Hm'|Hm']; [by apply H|].
      by apply elem_of_list_singleton in Hm' as ->.
Qed.
Lemma insert_latest_lookup m t i :
  insert_latest m t !! i =
    (if decide (tm_id t = i) then
       match m !! i with Some x => if tm_version x <? tm_version t then Some t else Some x | None => Some t end
     else m !! i).
Proof.
  unfold insert_latest. destruct (decide (tm_id t = i)) as [<-|e].
  - destruct (m !! tm_id t) as [x|] eqn:E; [|by rewrite lookup_insert].
    destruct (tm_version x <? tm_version t); [by rewrite lookup_insert|done].
  - destruct (m !! tm_id t) as [x|] eqn:E; [|by rewrite lookup_insert_ne].
    destruct (tm_version x <? tm_version t); [by rewrite lookup_insert_ne|done].
Qed.
Definition all_newest (l : list tablet_metadata) (m : gmap N tablet_metadata) : Prop :=
  forall i, newest i l (m !! i).
Lemma insert_latest_newest l m t : all_newest l m -> all_newest (l ++ [t]) (insert_latest m t).
Proof. intros H i. rewrite insert_latest_lookup. by apply newest_add. Qed.
Lemma foldl_latest_newest l m ts : all_newest l m -> all_newest (l ++ ts) (foldl insert_latest m ts).
Proof.
  revert l m. induction ts as [|t ts IH]; intros l m H; simpl; [by rewrite app_nil_r|].
  rewrite cons_middle, app_assoc. apply IH. by apply insert_latest_newest.
Qed.
Lemma insert_latest_some m t i : is_Some (m !! i) -> is_Some (insert_latest m t !! i).
Proof.
  rewrite insert_latest_lookup. intros [x Hx]. rewrite Hx.
  destruct (decide _); [|by eexists]. destruct (_ <? _); by eexists.
Qed.
Lemma foldl_latest_some ts m i :
  is_Some (m !! i) \/ i ∈ map tm_id ts -> is_Some (foldl insert_latest m ts !! i).
Proof.
  revert m. induction ts as [|t ts IH]; intros m H; simpl.
  - destruct H as [H|H]; [done|by apply elem_of_nil in H].
  - apply IH. destruct H as [H|H]; [left; by apply insert_latest_some|].
    simpl in H. apply elem_of_cons in H as [->|H]; [|by right].
    left. rewrite insert_latest_lookup, decide_True by done.
    destruct (m !! tm_id t); [|by eexists]. destruct (_ <? _); by eexists.
Qed.

Definition table_ok (name : string) (size : N) (reps : list tablet_metadata) (t : table_cache) : Prop :=
  tb_name t = name /\ tb_size t = size /\ size <> 0 /\
  (forall idx, is_Some (tb_regions t !! idx) <-> idx < regions_count size) /\
  all_newest reps (tb_tablets t) /\
  (forall idx r, tb_regions t !! idx = Some r -> listed t r).

Lemma lookup_regions0 n idx :
  (list_to_map (map (fun i => (N.of_nat i, region_create)) (seq 0 n)) : gmap N region) !! idx =
    if decide (idx < N.of_nat n) then Some region_create else None.
Proof.
  destruct (decide _) as [H|H].
  - apply elem_of_list_to_map_1'.
    + intros y Hy. apply elem_of_list_fmap in Hy as (k & [= ? ->] & _). done.
    + apply elem_of_list_fmap. exists (N.to_nat idx). split; [by rewrite N2Nat.id|]. apply elem_of_seq. lia.
  - apply not_elem_of_list_to_map_1. intros Hx. apply elem_of_list_fmap in Hx as ([k r] & -> & Hx).
    apply elem_of_list_fmap in Hx as (k' & [= -> ->] & Hx). apply elem_of_seq in Hx. simpl in H. lia.
Qed.
Lemma table_create_ok name size t : table_create name size = Ok t -> table_ok name size [] t.
Proof.
  unfold table_create. destruct (N.eqb_spec size 0) as [|Hs]; [done|]. intros [= <-].
  split_and!; [done|done|done|..].
  - intros idx. cbn [tb_regions]. rewrite lookup_regions0. rewrite N2Nat.id.
    destruct (decide _); split; intros H; try done. by destruct H.
  - intros i. cbn [tb_tablets]. rewrite lookup_empty. intros m Hm. by apply elem_of_nil in Hm.
  - intros idx r. cbn [tb_regions]. rewrite lookup_regions0. destruct (decide _); [|done]. intros [= <-].
    intros ids i. done.
Qed.

(** Two caches of a table that differ only in who waits. *)
Definition table_like (t t' : table_cache) : Prop :=
  tb_name t' = tb_name t /\ tb_size t' = tb_size t /\ tb_tablets t' = tb_tablets t /\
  forall idx, region_fresh <$> tb_regions t' !! idx = region_fresh <$> tb_regions t !! idx.
Lemma table_like_refl t : table_like t t. Proof. done. Qed.
Lemma table_like_trans a b c : table_like a b -> table_like b c -> table_like a c.
Proof.
  intros (H1&H2&H3&H4) (K1&K2&K3&K4). split_and!; [congruence..|]. intros idx. by rewrite K4, H4.
Qed.
Lemma table_like_ok name size reps t t' : table_like t t' -> table_ok name size reps t -> table_ok name size reps t'.
Proof.
  intros (H1&H2&H3&H4) (K1&K2&K3&K4&K5&K6). split_and!; [congruence..| | |].
  - intros idx. rewrite <- K4. specialize (H4 idx).
    destruct (tb_regions t' !! idx), (tb_regions t !! idx); simpl in H4; try done; split; intros [? ?]; eauto.
  - by rewrite H3.
  - intros idx r Hr ids i Hf Hi. specialize (H4 idx). rewrite Hr in H4. simpl in H4.
    destruct (tb_regions t !! idx) as [r0|] eqn:E; [|done]. simpl in H4.
    rewrite H3. apply (K6 idx r0 E ids); [|done]. injection H4 as H4. congruence.
Qed.

Lemma table_register_like t request idx t' : table_register t request idx = Ok t' -> table_like t t'.
Proof.
  unfold table_register. destruct (tb_regions t !! idx) as [r|] eqn:E; [|by intros [= <-]].
  unfold region_register. destruct (rg_state r) as [w p|] eqn:Es; simpl; [|done]. intros [= <-].
  split_and!; try done. intros i. simpl. destruct (decide (idx = i)) as [<-|e].
  - rewrite lookup_insert, E. simpl. unfold region_fresh. simpl. by rewrite Es.
  - by rewrite lookup_insert_ne.
Qed.
Lemma region_prepare_fresh r from to : region_fresh (region_prepare r from to).1 = region_fresh r.
Proof.
  unfold region_prepare, region_fresh. destruct (rg_state r) as [[|x w] []|] eqn:E; simpl; try done; by rewrite ?E.
Qed.
Lemma table_prepare_like ro t : table_like t (table_prepare ro t).1.
Proof.
  split_and!; try done. intros idx. unfold table_prepare. simpl. rewrite map_lookup_imap.
  destruct (tb_regions t !! idx) as [r|]; [|done]. simpl. f_equal. apply region_prepare_fresh.
Qed.

Lemma update_tablet_ok name size reps t m conflict :
  table_ok name size reps t -> table_ok name size (reps ++ [m]) (table_update_tablet t m conflict).
Proof.
  intros (K1&K2&K3&K4&K5&K6). unfold table_update_tablet. simpl.
  assert (table_ok name size (reps ++ [m]) (set_tablets t (insert_latest (tb_tablets t) m))) as Hok.
  { split_and!; simpl; try done; [by apply insert_latest_newest|].
    intros idx r Hr ids i Hf Hi. simpl. apply insert_latest_some. by apply (K6 idx r Hr ids). }
  destruct (tb_regions t !! map_region (tb_size t) (tm_id m)) as [r|] eqn:E; [|done].
  destruct conflict; [|done].
  destruct Hok as (L1&L2&L3&L4&L5&L6). split_and!; simpl; try done.
  - intros idx. rewrite <- K4. destruct (decide (map_region (tb_size t) (tm_id m) = idx)) as [<-|e].
    + rewrite lookup_insert, E. split; by eexists.
    + by rewrite lookup_insert_ne.
  - intros idx r'. destruct (decide (map_region (tb_size t) (tm_id m) = idx)) as [<-|e].
    + rewrite lookup_insert. intros [= <-]. intros ids i. done.
    + rewrite lookup_insert_ne by done. apply L6.
Qed.

Lemma update_region_ok name size reps t from tablets t' idx notify :
  table_ok name size reps t -> table_update_region t from tablets = (t', idx, notify) ->
  table_ok name size (reps ++ (if decide (from / size < u32_max / size) then default [] tablets else [])) t'.
Proof.
  intros Ht. pose proof Ht as (K1&K2&K3&K4&K5&K6). unfold table_update_region, map_region. rewrite K2.
  destruct (tb_regions t !! (from / size)) as [r|] eqn:E.
  - rewrite decide_True by (apply K4; by eexists).
    destruct tablets as [ts|]; simpl; intros [= <- <- <-].
    + split_and!; simpl; try done.
      * intros i. rewrite <- K4. destruct (decide (from / size = i)) as [<-|e].
        -- rewrite lookup_insert, E. split; by eexists.
        -- by rewrite lookup_insert_ne.
      * by apply foldl_latest_newest.
      * intros i r'. destruct (decide (from / size = i)) as [<-|e].
        -- rewrite lookup_insert. intros [= <-] ids j [= <-] Hj. simpl in *.
           apply foldl_latest_some. right. by apply elem_of_list_to_set in Hj.
        -- rewrite lookup_insert_ne by done. intros Hr ids j Hf Hj. simpl.
           apply foldl_latest_some. left. by apply (K6 i r' Hr ids).
    + rewrite app_nil_r. split_and!; simpl; try done.
      * intros i. rewrite <- K4. destruct (decide (from / size = i)) as [<-|e].
        -- rewrite lookup_insert, E. split; by eexists.
        -- by rewrite lookup_insert_ne.
      * intros i r'. destruct (decide (from / size = i)) as [<-|e].
        -- rewrite lookup_insert. intros [= <-] ids j. done.
        -- rewrite lookup_insert_ne by done. apply K6.
  - intros [= <- <- <-]. rewrite decide_False; [by rewrite app_nil_r|].
    intros Hx. apply K4 in Hx as [? Hx]. congruence.
Qed.

Lemma performs_app ro rgo tbo s calls calls' :
  performs ro rgo tbo s (calls ++ calls') = (let! s := performs ro rgo tbo s calls in performs ro rgo tbo s calls').
Proof.
  revert s. induction calls as [|c calls IH]; intros s; simpl; [done|].
  destruct (perform ro rgo tbo s c); simpl; [apply IH|done|done].
Qed.
Lemma reports_app table size a b : reports table size (a ++ b) = reports table size a ++ reports table size b.
Proof. unfold reports. by rewrite map_app, concat_app. Qed.

(** Tables as configured, holding what was reported. *)
Definition tables_ok (cfg : list (string * N)) (reps : string -> N -> list tablet_metadata)
    (tables : gmap string table_cache) : Prop :=
  forall name,
    match tables !! name with
    | Some t => exists size, (name, size) ∈ cfg /\ table_ok name size (reps name size) t
    | None => name ∉ map fst cfg
    end.

Lemma init_tables_ok cfg0 cfg m m' :
  tables_ok cfg0 (fun _ _ => []) m -> NoDup (map fst (cfg0 ++ cfg)) -> init_tables m cfg = Ok m' ->
  tables_ok (cfg0 ++ cfg) (fun _ _ => []) m'.
Proof.
  revert cfg0 m. induction cfg as [|[name size] cfg IH]; intros cfg0 m Hm Hn; simpl.
  - intros [= <-]. by rewrite app_nil_r.
  - destruct (table_create name size) as [t| |] eqn:E; [|done..]. simpl. intros H.
    replace (cfg0 ++ (name, size) :: cfg) with ((cfg0 ++ [(name, size)]) ++ cfg) in * by by rewrite <- app_assoc.
    apply (IH (cfg0 ++ [(name, size)]) (<[name := t]> m)); [|done|done].
    intros n. destruct (decide (name = n)) as [<-|e].
    + rewrite lookup_insert. exists size. split; [set_solver|by apply table_create_ok].
    + rewrite lookup_insert_ne by done. specialize (Hm n). destruct (m !! n) as [t'|].
      * destruct Hm as (s & Hs & Ht). exists s. split; [set_solver|done].
      * rewrite map_app. simpl. set_solver.
Qed.

Lemma tables_ok_insert cfg reps reps' tables name t t' size :
  tables_ok cfg reps tables -> tables !! name = Some t -> (name, size) ∈ cfg ->
  table_ok name size (reps' name size) t' ->
  (forall n s, n <> name -> reps' n s = reps n s) ->
  tables_ok cfg reps' (<[name := t']> tables).
Proof.
  intros H Ht Hin Hok Hr n. destruct (decide (name = n)) as [<-|e].
  - rewrite lookup_insert. by exists size.
  - rewrite lookup_insert_ne by done. specialize (H n). destruct (tables !! n); [|done].
    destruct H as (s & Hs & H). exists s. by rewrite Hr.
Qed.
Lemma tables_ok_ext cfg reps reps' tables :
  (forall n s, reps' n s = reps n s) -> tables_ok cfg reps tables -> tables_ok cfg reps' tables.
Proof.
  intros Hr H n. specialize (H n). destruct (tables !! n); [|done].
  destruct H as (s & Hs & H). exists s. by rewrite Hr.
Qed.
Lemma tables_ok_like cfg reps tables name t t' :
  tables_ok cfg reps tables -> tables !! name = Some t -> table_like t t' -> tables_ok cfg reps (<[name := t']> tables).
Proof.
  intros H Ht Hl. pose proof (H name) as Hx. rewrite Ht in Hx. destruct Hx as (size & Hs & Hok).
  eapply tables_ok_insert; try done. by eapply table_like_ok.
Qed.

(** Tables that differ only in who waits. *)
Definition tables_like (a b : gmap string table_cache) : Prop :=
  forall name, match a !! name, b !! name with
    | Some t, Some t' => table_like t t'
    | None, None => True
    | _, _ => False
    end.
Lemma tables_like_refl a : tables_like a a.
Proof. intros n. destruct (a !! n); [apply table_like_refl|done]. Qed.
Lemma tables_like_trans a b c : tables_like a b -> tables_like b c -> tables_like a c.
Proof.
  intros H1 H2 n. specialize (H1 n). specialize (H2 n).
  destruct (a !! n), (b !! n), (c !! n); try done. by eapply table_like_trans.
Qed.
Lemma tables_like_ok cfg reps a b : tables_like a b -> tables_ok cfg reps a -> tables_ok cfg reps b.
Proof.
  intros H1 H2 n. specialize (H1 n). specialize (H2 n). destruct (a !! n), (b !! n); try done.
  destruct H2 as (s & Hs & H2). exists s. split; [done|]. by eapply table_like_ok.
Qed.
Lemma tables_like_insert a name t t' : a !! name = Some t -> table_like t t' -> tables_like a (<[name := t']> a).
Proof.
  intros H1 H2 n. destruct (decide (name = n)) as [<-|e].
  - by rewrite H1, lookup_insert.
  - rewrite lookup_insert_ne by done. destruct (a !! n); [apply table_like_refl|done].
Qed.
Lemma register_all_like request tables r parts tables' r' :
  register_all request tables r parts = Ok (tables', r') -> tables_like tables tables'.
Proof.
  revert tables r. induction parts as [|[q idx] parts IH]; intros tables r; simpl.
  - intros [= <- <-]. apply tables_like_refl.
  - destruct (tables !! tq_table q) as [t|] eqn:Et; simpl; [|done].
    destruct (try_resolve t idx q) as [[l|]| |]; simpl; [by intros H; apply IH in H| |done..].
    destruct (table_register t request idx) as [t'| |] eqn:E; simpl; [|done..].
    intros H. apply IH in H. eapply tables_like_trans; [|exact H].
    eapply tables_like_insert; [done|]. by eapply table_register_like.
Qed.
Lemma progress_like rgo tables : tables_like tables ((fun t => (table_prepare rgo t).1) <$> tables).
Proof.
  intros n. rewrite lookup_fmap. destruct (tables !! n); [|done]. apply table_prepare_like.
Qed.

Lemma mc_progress_tables rgo tbo c :
  mc_tables (mc_progress rgo tbo c) = (fun t => (table_prepare rgo t).1) <$> mc_tables c.
Proof. unfold mc_progress. by destruct (concat _). Qed.

Lemma mc_result_tables ro cfg reps c r c' :
  tables_ok cfg reps (mc_tables c) -> mc_result ro c r = Ok c' ->
  tables_ok cfg (fun n s => reps n s ++ result_reports n s r) (mc_tables c').
Proof.
  intros Hok. unfold mc_result, result_reports.
  destruct (or_detail r) as [[from to ts| |]|]; try done.
  destruct (mc_tables c !! or_table r) as [t|] eqn:Et.
  - destruct (table_update_region t from _) as [[t' idx] notify] eqn:Eu.
    destruct (notify_all ro t' (or_table r) idx (mc_resolves c) (mc_delivered c) notify) as [[rs d]| |]; simpl; [|done..].
    intros [= <-]. simpl. pose proof (Hok (or_table r)) as Hx. rewrite Et in Hx. destruct Hx as (size & Hs & Ht).
    eapply tables_ok_insert; try done.
    + pose proof (update_region_ok _ _ _ _ _ _ _ _ _ Ht Eu) as H. simpl.
      replace (if decide (or_table r = or_table r ∧ or_status r = OpSucceeded ∧ from / size < u32_max / size) then ts else [])
        with (if decide (from / size < u32_max / size)
              then default [] (if decide (or_status r = OpSucceeded) then Some ts else None) else []); [done|].
      destruct (decide (from / size < u32_max / size)) as [H1|H1], (decide (or_status r = OpSucceeded)) as [H2|H2].
      * by rewrite decide_True.
      * rewrite decide_False by tauto. done.
      * rewrite decide_False by tauto. done.
      * rewrite decide_False by tauto. done.
    + intros n s e. simpl. rewrite decide_False by (intros (e'&_); congruence). by rewrite app_nil_r.
  - intros [= <-]. intros n. specialize (Hok n). destruct (mc_tables c !! n) as [t|] eqn:E; [|done].
    destruct Hok as (s & Hs & H). exists s. split; [done|]. rewrite decide_False; [by rewrite app_nil_r|].
    intros (e & _). congruence.
Qed.
Lemma mc_response_tables ro cfg reps rs c c' :
  tables_ok cfg reps (mc_tables c) -> mc_response ro c rs = Ok c' ->
  tables_ok cfg (fun n s => reps n s ++ concat (map (result_reports n s) rs)) (mc_tables c').
Proof.
  revert reps c. induction rs as [|r rs IH]; intros reps c Hok; simpl.
  - intros [= <-]. eapply tables_ok_ext; [|done]. intros. by rewrite app_nil_r.
  - destruct (mc_result ro c r) as [c1| |] eqn:E; simpl; [|done..]. intros H.
    pose proof (mc_result_tables _ _ _ _ _ _ Hok E) as H1. pose proof (IH _ _ H1 H) as H2.
    eapply tables_ok_ext; [|exact H2]. intros. simpl. by rewrite app_assoc.
Qed.

Lemma perform_tables ro rgo tbo cfg reps s call s' :
  tables_ok cfg reps (mc_tables (ob_cache s)) -> perform ro rgo tbo s call = Ok s' ->
  tables_ok cfg (fun n sz => reps n sz ++ call_reports n sz call) (mc_tables (ob_cache s')).
Proof.
  intros Hok. destruct call as [qs kind| |table m conflict|rs|]; simpl.
  - unfold mc_resolve, resolve_create. destruct (split_all _ _) as [parts| |]; simpl; [|done..].
    destruct (register_all _ _ _ _) as [[tables r]| |] eqn:E; simpl; [|done..].
    destruct (maybe_deliver ro r) as [[r' o]| |]; simpl; [|done..]. intros [= <-]. simpl.
    eapply tables_ok_ext; [|eapply tables_like_ok; [by eapply register_all_like|exact Hok]].
    intros. by rewrite app_nil_r.
  - intros [= <-]. eapply tables_ok_ext; [|eapply tables_like_ok; [|exact Hok]].
    + intros. by rewrite app_nil_r.
    + simpl. rewrite mc_progress_tables. apply progress_like.
  - intros [= <-]. simpl. unfold mc_update. destruct (mc_tables (ob_cache s) !! table) as [t|] eqn:E.
    + simpl. pose proof (Hok table) as Hx. rewrite E in Hx. destruct Hx as (size & Hs & Ht).
      eapply tables_ok_insert; try done.
      * simpl. rewrite decide_True by done. by apply update_tablet_ok.
      * intros n sz e. simpl. rewrite decide_False by done. by rewrite app_nil_r.
    + intros n. specialize (Hok n). destruct (mc_tables (ob_cache s) !! n) as [t|] eqn:En; [|done].
      destruct Hok as (sz & Hs & H). exists sz. split; [done|]. rewrite decide_False by congruence.
      by rewrite app_nil_r.
  - destruct (mc_response ro (ob_cache s) rs) as [c| |] eqn:E; simpl; [|done..]. intros [= <-]. simpl.
    by eapply mc_response_tables.
  - intros [= <-]. simpl. eapply tables_ok_ext; [|done]. intros. by rewrite app_nil_r.
Qed.
Lemma performs_tables ro rgo tbo cfg reps s calls s' :
  tables_ok cfg reps (mc_tables (ob_cache s)) -> performs ro rgo tbo s calls = Ok s' ->
  tables_ok cfg (fun n sz => reps n sz ++ reports n sz calls) (mc_tables (ob_cache s')).
Proof.
  revert reps s. induction calls as [|c calls IH]; intros reps s Hok; simpl.
  - intros [= <-]. eapply tables_ok_ext; [|done]. intros. unfold reports. simpl. by rewrite app_nil_r.
  - destruct (perform ro rgo tbo s c) as [s1| |] eqn:E; simpl; [|done..]. intros H.
    pose proof (perform_tables _ _ _ _ _ _ _ _ Hok E) as H1. pose proof (IH _ _ H1 H) as H2.
    eapply tables_ok_ext; [|exact H2]. intros. unfold reports. simpl. by rewrite app_assoc.
Qed.
Lemma history_tables ro rgo tbo counter cfg calls s :
  NoDup (map fst cfg) -> history ro rgo tbo counter cfg calls s ->
  tables_ok cfg (fun n sz => reports n sz calls) (mc_tables (ob_cache s)).
Proof.
  intros Hn (c & Hi & Hp). unfold mc_init in Hi.
  destruct (init_tables _ cfg) as [tables| |] eqn:E; simpl in Hi; [|done..]. injection Hi as <-.
  eapply (performs_tables _ _ _ _ (fun _ _ => [])) in Hp; [done|]. simpl.
  eapply (init_tables_ok [] cfg); [|done|exact E].
  intros n. simpl. rewrite lookup_empty. apply not_elem_of_nil.
Qed.
