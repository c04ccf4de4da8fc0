(** Proofs about which resolve requests are answered from what the cache holds. *)
From Verif Require Import Base TabletModel MetadataModel MetadataSpec MetadataProofs MetadataRequestProofs.
Local Arguments region_bounds : simpl never.
Local Arguments regions_count : simpl never.
Local Arguments N.div : simpl never.
Local Arguments N.sub : simpl never.
Local Arguments N.add : simpl never.
Local Arguments N.mul : simpl never.
Local Arguments ascending : simpl never.
Local Arguments N.ltb : simpl never.
Local Arguments N.eqb : simpl never.

Definition is_fresh (r : region) : bool := match rg_state r with Fresh => true | _ => false end.
Definition region_of (T : gmap string table_cache) (key : string * N) : option region :=
  T !! key.1 ≫= fun t => tb_regions t !! key.2.
Definition fresh_at (T : gmap string table_cache) (key : string * N) : bool :=
  match region_of T key with Some r => is_fresh r | None => false end.

(** ** Registering *)
Lemma register_fresh t request idx t' : table_register t request idx = Ok t' ->
  forall i, match tb_regions t' !! i with Some r => is_fresh r | None => false end =
            match tb_regions t !! i with Some r => is_fresh r | None => false end.
Proof.
  unfold table_register. destruct (tb_regions t !! idx) as [r|] eqn:Er; [|by intros [= <-]].
  unfold region_register. destruct (rg_state r) eqn:Es; simpl; [|done]. intros [= <-] i. simpl.
  destruct (decide (i = idx)) as [->|Hne].
  - rewrite lookup_insert, Er. unfold is_fresh. by rewrite Es.
  - by rewrite lookup_insert_ne.
Qed.
Lemma fresh_at_insert T name t t' key : T !! name = Some t ->
  (forall i, match tb_regions t' !! i with Some r => is_fresh r | None => false end =
             match tb_regions t !! i with Some r => is_fresh r | None => false end) ->
  fresh_at (<[name := t']> T) key = fresh_at T key.
Proof.
  intros Ht He. unfold fresh_at, region_of. destruct (decide (key.1 = name)) as [Heq|Hne].
  - rewrite Heq, lookup_insert, Ht. simpl. apply He.
  - by rewrite lookup_insert_ne by done.
Qed.
Lemma try_resolve_fresh T t name idx q o : T !! name = Some t -> try_resolve t idx q = Ok o ->
  (fresh_at T (name, idx) = true <-> o <> None).
Proof.
  intros Ht. unfold try_resolve, fresh_at, region_of. simpl. rewrite Ht. simpl.
  destruct (tb_regions t !! idx) as [r|]; [|done]. unfold region_fresh, is_fresh.
  destruct (rg_state r); [by intros [= <-]|].
  destruct (cycle_next _ _) as [[f rest]| |]; simpl; [|done..]. destruct (resolve_loop _ _ _ _ _ _ _); simpl; [|done..]. intros [= <-]. done.
Qed.
Lemma register_all_fresh request parts : forall T r T' r', register_all request T r parts = Ok (T', r') ->
  (forall key, fresh_at T' key = fresh_at T key) /\
  (rs_pending r' = ∅ <-> rs_pending r = ∅ /\ forall p, p ∈ parts -> fresh_at T (tq_table p.1, p.2) = true).
Proof.
  induction parts as [|[q idx] parts IH]; intros T r T' r' H; cbn [register_all] in H.
  - injection H as <- <-. split; [done|]. split; [|by intros [? _]]. intros Hp. split; [done|]. intros p Hx. by apply elem_of_nil in Hx.
  - destruct (T !! tq_table q) as [t|] eqn:Et; cbn [unwrap res_bind] in H; [|done].
    destruct (try_resolve t idx q) as [o| |] eqn:Eo; cbn [res_bind] in H; [|done..].
    pose proof (try_resolve_fresh _ _ _ _ _ _ Et Eo) as Hf. destruct o as [l|].
    + destruct (IH _ _ _ _ H) as [H1 H2]. split; [done|]. rewrite H2. simpl. split; intros [K1 K2]; (split; [done|]).
      * intros p [->|Hp]%elem_of_cons; [by apply Hf|by apply K2].
      * intros p Hp. apply K2. by right.
    + destruct (table_register t request idx) as [t'| |] eqn:Er; cbn [res_bind] in H; [|done..].
      destruct (IH _ _ _ _ H) as [H1 H2]. pose proof (register_fresh _ _ _ _ Er) as Hr. split.
      * intros key. rewrite H1. by eapply fresh_at_insert.
      * rewrite H2. simpl. split; intros [K1 K2]; exfalso.
        -- by apply insert_non_empty in K1.
        -- assert (fresh_at T (tq_table q, idx) = true) as Hx by (apply (K2 (q, idx)); by left). by apply Hf in Hx.
Qed.
Lemma maybe_deliver_some ro r r' o : maybe_deliver ro r = Ok (r', o) -> (o <> None <-> rs_pending r = ∅).
Proof.
  unfold maybe_deliver. destruct (decide (rs_pending r = ∅)) as [He|He]; [|intros [= <- <-]; naive_solver].
  destruct (rs_kind r); [destruct (rs_set r); [done|]|]; intros [= <- <-]; split; done.
Qed.

(** ** Splitting *)
Lemma split_all_covers T qs : forall parts, split_all T qs = Ok parts ->
  (forall q t, q ∈ qs -> T !! tq_table q = Some t -> tb_size t <> 0 /\ tb_size t <= u32_max) ->
  (forall q h, q ∈ qs -> h ∈ tq_hashes q -> h <= u32_max) ->
  (forall p, p ∈ parts -> exists q t h, q ∈ qs /\ T !! tq_table q = Some t /\ h ∈ tq_hashes q /\ tq_table p.1 = tq_table q /\ p.2 = h / tb_size t) /\
  (forall q h, q ∈ qs -> h ∈ tq_hashes q -> exists p t, p ∈ parts /\ T !! tq_table q = Some t /\ tq_table p.1 = tq_table q /\ p.2 = h / tb_size t).
Proof.
  induction qs as [|q qs IH]; intros parts H Hs Hh; cbn [split_all] in H.
  - injection H as <-. split; [intros p Hp|intros q h Hq]; by apply elem_of_nil in Hp || apply elem_of_nil in Hq.
  - destruct (T !! tq_table q) as [t|] eqn:Et; cbn [unwrap res_bind] in H; [|done].
    destruct (split_query t q) as [l| |] eqn:El; cbn [res_bind] in H; [|done..].
    destruct (split_all T qs) as [more| |] eqn:Em; cbn [res_bind] in H; [|done..]. injection H as <-.
    destruct (IH more) as [I1 I2]; [done|intros; eapply Hs; [by right|done]|intros; eapply Hh; [by right|done]|].
    destruct (Hs q t) as [Z1 Z2]; [by left|done|].
    destruct (split_query_spec t q Z1 Z2) as (parts & E & P1 & _ & P2); [intros h Hx; eapply Hh; [by left|done]|].
    rewrite El in E. injection E as <-. rewrite Forall_forall in P1. split.
    + intros p [Hp|Hp]%elem_of_app.
      * destruct (P1 _ Hp) as (A1 & A2 & A3 & A4). apply set_choose_L in A3 as [h Hx]. pose proof Hx as Hx'. apply A4 in Hx' as [B1 B2]. apply elem_of_ascending in B1.
        exists q, t, h. split_and!; [by left|done|done|done|by rewrite B2].
      * destruct (I1 _ Hp) as (q' & t' & h & J1 & J2). exists q', t', h. split; [by right|done].
    + intros q' h [->|Hq]%elem_of_cons Hx.
      * destruct (P2 h Hx) as (p & Hp & Hhp). destruct (P1 _ Hp) as (A1 & A2 & A3 & A4). apply A4 in Hhp as [_ B2].
        exists p, t. split_and!; [apply elem_of_app; by left|done|done|by rewrite B2].
      * destruct (I2 _ _ Hq Hx) as (p & t' & J1 & J2). exists p, t'. split; [apply elem_of_app; by right|done].
Qed.

(** ** Histories *)
Lemma update_region_fresh t from ts t' idx nt : table_update_region t from ts = (t', idx, nt) ->
  idx = from / tb_size t /\ forall i, match tb_regions t' !! i with Some r => is_fresh r | None => false end =
    if decide (i = idx /\ is_Some (tb_regions t !! i)) then match ts with Some _ => true | None => false end
    else match tb_regions t !! i with Some r => is_fresh r | None => false end.
Proof.
  unfold table_update_region. intros Hu. destruct (tb_regions t !! map_region (tb_size t) from) as [r|] eqn:Er.
  - destruct ts as [l|]; simpl in Hu; injection Hu as <- <- _; (split; [done|]); intros i; simpl;
      (destruct (decide (i = map_region (tb_size t) from)) as [->|Hne]; [rewrite lookup_insert, decide_True by (split; [done|by eexists]); done|
         rewrite lookup_insert_ne by done; rewrite decide_False by naive_solver; done]).
  - injection Hu as <- <- _. split; [done|]. intros i. destruct (decide _) as [[-> [? Hx]]|]; [congruence|done].
Qed.
Section Fresh.
Variable ro : gmap (string * N) resolve_result -> list resolve_result.
Variable rgo : gmap N region -> list (N * region).
Variable tbo : gmap string table_cache -> list (string * table_cache).
Variable cfg : list (string * N).
Hypothesis once : NoDup (map fst cfg).

Definition tracks (key : string * N) : Prop := key.1 ∈ map fst cfg /\ key.2 < regions_count (size_of cfg key.1).
Definition fresh_inv (b : string * N -> bool) (T : gmap string table_cache) : Prop :=
  forall key, fresh_at T key = bool_decide (is_Some (region_of T key)) && b key.

Lemma mc_result_fresh b c r c' : (forall name t, mc_tables c !! name = Some t -> tb_size t = size_of cfg name) ->
  mc_result ro c r = Ok c' -> fresh_inv b (mc_tables c) ->
  (forall name t, mc_tables c' !! name = Some t -> tb_size t = size_of cfg name) /\
  fresh_inv (fun key => heard_result cfg key (b key) r) (mc_tables c').
Proof using Type.
  intros Hs H Hi. unfold mc_result in H. destruct (or_detail r) as [[from to tablets| |]|] eqn:Ed; try done.
  destruct (mc_tables c !! or_table r) as [t|] eqn:Et.
  2:{ injection H as <-. split; [done|]. intros key. unfold heard_result, result_region. rewrite Ed, (Hi key).
      case_bool_decide as Hk; [|done]. rewrite decide_False; [done|]. intros [= E]. unfold region_of in Hk. rewrite <- E in Hk. simpl in Hk.
      rewrite Et in Hk. by destruct Hk. }
  destruct (table_update_region t from _) as [[t' idx] nt] eqn:Eu.
  destruct (notify_all _ _ _ _ _ _ _) as [[rv d]| |]; cbn [res_bind] in H; [|done..]. injection H as <-. simpl.
  assert (tb_size t' = tb_size t /\ forall i, is_Some (tb_regions t' !! i) <-> is_Some (tb_regions t !! i)) as [Hsz Hdom].
  { unfold table_update_region in Eu. destruct (tb_regions t !! map_region (tb_size t) from) as [rg|] eqn:Er; [|by injection Eu as <- _ _].
    assert (forall rg', forall i, is_Some (<[map_region (tb_size t) from := rg']> (tb_regions t) !! i) <-> is_Some (tb_regions t !! i)) as Hx.
    { intros rg' i. rewrite lookup_insert_is_Some. split; [intros [<-|[_ ?]]; [by eexists|done]|]. intros ?.
      destruct (decide (map_region (tb_size t) from = i)); [by left|by right]. }
    destruct (decide _); simpl in Eu; injection Eu as <- _ _; (split; [done|]); simpl; apply Hx. }
  apply update_region_fresh in Eu as [-> Hf]. split.
  - intros name t0. destruct (decide (name = or_table r)) as [->|Hne]; [rewrite lookup_insert; intros [= <-]; rewrite Hsz; by apply Hs|].
    rewrite lookup_insert_ne by done. apply Hs.
  - intros key. unfold fresh_at, region_of, heard_result, result_region. rewrite Ed.
    destruct (decide (key.1 = or_table r)) as [Hk|Hne].
    + rewrite Hk, lookup_insert. simpl. pose proof (Hi key) as Hkey. unfold fresh_at, region_of in Hkey. rewrite Hk, Et in Hkey. simpl in Hkey.
      rewrite (bool_decide_ext _ _ (Hdom _)), Hf, (Hs _ _ Et). destruct (decide (key.2 = _ /\ _)) as [[E1 E2]|Hno].
      * rewrite (bool_decide_true _ E2). simpl. destruct (decide (Some _ = Some key)) as [_|Hx]; [|exfalso; apply Hx; rewrite <- E1, <- Hk; by destruct key].
        destruct (decide (or_status r = OpSucceeded)); [by rewrite bool_decide_true|by rewrite bool_decide_false].
      * rewrite Hkey. case_bool_decide as Hx; [|done]. simpl. rewrite decide_False; [done|].
        intros [= E]. apply Hno. split; [by rewrite <- E|done].
    + rewrite lookup_insert_ne by done. rewrite decide_False by (intros [= E]; by rewrite <- E in Hne). apply (Hi key).
Qed.
Lemma mc_response_fresh rs : forall b c c', (forall name t, mc_tables c !! name = Some t -> tb_size t = size_of cfg name) ->
  mc_response ro c rs = Ok c' -> fresh_inv b (mc_tables c) ->
  fresh_inv (fun key => foldl (heard_result cfg key) (b key) rs) (mc_tables c').
Proof using Type.
  induction rs as [|r rs IH]; intros b c c' Hs H Hi; cbn [mc_response] in H; [by injection H as <-|].
  destruct (mc_result ro c r) as [c1| |] eqn:E; cbn [res_bind] in H; [|done..].
  destruct (mc_result_fresh _ _ _ _ Hs E Hi) as [Hs1 Hi1]. by apply (IH _ _ _ Hs1 H Hi1).
Qed.
Lemma register_all_region request parts : forall T r T' r', register_all request T r parts = Ok (T', r') ->
  forall key, is_Some (region_of T' key) <-> is_Some (region_of T key).
Proof using Type.
  induction parts as [|[q idx] parts IH]; intros T r T' r' H key; cbn [register_all] in H; [by injection H as <- <-|].
  destruct (T !! tq_table q) as [t|] eqn:Et; cbn [unwrap res_bind] in H; [|done].
  destruct (try_resolve t idx q) as [[l|]| |]; cbn [res_bind] in H; [by eapply IH| |done..].
  destruct (table_register t request idx) as [t'| |] eqn:Er; cbn [res_bind] in H; [|done..].
  rewrite (IH _ _ _ _ H key). unfold region_of. destruct (decide (key.1 = tq_table q)) as [->|Hne]; [|by rewrite lookup_insert_ne].
  rewrite lookup_insert, Et. simpl. unfold table_register in Er. destruct (tb_regions t !! idx) as [rg|] eqn:Eg; [|by injection Er as <-].
  destruct (region_register rg request) as [rg'| |]; simpl in Er; [|done..]. injection Er as <-. simpl.
  rewrite lookup_insert_is_Some. destruct (decide (idx = key.2)) as [<-|].
  - split; [by eexists|by left].
  - split; [by intros [?|[_ ?]]|by right].
Qed.
Lemma perform_fresh calls s call s' counter : history ro rgo tbo counter cfg calls s ->
  perform ro rgo tbo s call = Ok s' ->
  fresh_inv (fun key => up_to_date cfg key calls) (mc_tables (ob_cache s)) ->
  fresh_inv (fun key => up_to_date cfg key (calls ++ [call])) (mc_tables (ob_cache s')).
Proof using once.
  intros H Hp Hi. pose proof (history_tables _ _ _ _ _ _ _ once H) as Ht.
  assert (forall name t, mc_tables (ob_cache s) !! name = Some t -> tb_size t = size_of cfg name) as Hs.
  { intros name t Hx. specialize (Ht name). rewrite Hx in Ht. destruct Ht as (size & Hin & (_ & Hz & _)). by rewrite (size_of_in _ _ _ once Hin). }
  intros key. unfold up_to_date. rewrite foldl_app. simpl. revert key.
  change (fresh_inv (fun key => heard cfg key (up_to_date cfg key calls) call) (mc_tables (ob_cache s'))).
  destruct call; simpl in Hp.
  - destruct (mc_resolve _ _ _ _) as [c| |] eqn:E; cbn [res_bind] in Hp; [|done..]. injection Hp as <-.
    unfold mc_resolve in E. destruct (resolve_create _ _ _ _ _) as [[[T r] o]| |] eqn:Ec; cbn [res_bind] in E; [|done..]. injection E as <-.
    unfold resolve_create in Ec. destruct (split_all _ _) as [parts| |]; cbn [res_bind] in Ec; [|done..].
    destruct (register_all _ _ _ _) as [[T' r']| |] eqn:Er; cbn [res_bind] in Ec; [|done..].
    destruct (maybe_deliver _ _) as [[? ?]| |]; cbn [res_bind] in Ec; [|done..]. injection Ec as <- _ _. simpl.
    intros key. rewrite (proj1 (register_all_fresh _ _ _ _ _ _ Er)), (bool_decide_ext _ _ (register_all_region _ _ _ _ _ _ Er key)). apply Hi.
  - injection Hp as <-. cbn [ob_cache]. intros key. specialize (Hi key). unfold fresh_at, region_of in *. rewrite mc_progress_tables, lookup_fmap.
    destruct (mc_tables (ob_cache s) !! key.1) as [t|]; simpl in *; [|done]. rewrite map_lookup_imap.
    destruct (tb_regions t !! key.2) as [rg|]; simpl in *; [|done]. rewrite <- Hi.
    destruct (region_bounds (tb_size t) key.2) as [from to]. unfold region_prepare, is_fresh.
    destruct (rg_state rg) as [[|? ?] [] |] eqn:Es; simpl; by rewrite ?Es.
  - injection Hp as <-. simpl. unfold mc_update. destruct (mc_tables (ob_cache s) !! table) as [t|] eqn:Et.
    2:{ intros key. simpl. rewrite (Hi key). case_bool_decide as Hk; [|done]. simpl. destruct conflict; [|done].
        rewrite decide_False; [done|]. intros E. unfold region_of in Hk. rewrite <- E in Hk. simpl in Hk. rewrite Et in Hk. by destruct Hk. }
    intros key. simpl. pose proof (Hi key) as Hk. unfold fresh_at, region_of in *. destruct (decide (key.1 = table)) as [E|Hne].
    + rewrite E in *. rewrite lookup_insert. rewrite Et in Hk. simpl in *. unfold table_update_tablet. simpl.
      change (map_region (tb_size t) (tm_id m)) with (tm_id m / tb_size t). rewrite (Hs _ _ Et).
      destruct (tb_regions t !! (tm_id m / size_of cfg table)) as [rg|] eqn:Eg; [destruct conflict|destruct conflict]; simpl; try done.
      * destruct (decide (key.2 = tm_id m / size_of cfg table)) as [E2|Hne].
        -- rewrite E2, lookup_insert. simpl. rewrite decide_True by (rewrite <- E2, <- E; by destruct key). by rewrite ?andb_false_r.
        -- rewrite lookup_insert_ne by done. rewrite decide_False; [done|]. intros Ek. apply Hne. by rewrite <- Ek.
      * rewrite Hk. case_bool_decide as Hx; [|done]. simpl. rewrite decide_False; [done|]. intros Ek. rewrite <- Ek in Hx. simpl in Hx. rewrite Eg in Hx. by destruct Hx.
    + rewrite lookup_insert_ne by done. rewrite Hk. destruct conflict; [|done]. rewrite decide_False; [done|]. intros Ek. apply Hne. by rewrite <- Ek.
  - destruct (mc_response _ _ _) as [c| |] eqn:E; cbn [res_bind] in Hp; [|done..]. injection Hp as <-. by eapply mc_response_fresh.
  - injection Hp as <-. done.
Qed.
Lemma history_fresh counter calls : forall s, history ro rgo tbo counter cfg calls s ->
  fresh_inv (fun key => up_to_date cfg key calls) (mc_tables (ob_cache s)).
Proof using once.
  induction calls as [|call calls IH] using rev_ind; intros s H.
  - pose proof (history_tables _ _ _ _ _ _ _ once H) as Ht. destruct H as (c & Hi & [= <-]). simpl in *.
    intros key. unfold fresh_at. destruct (region_of (mc_tables c) key) as [rg|] eqn:Er; [|done]. rewrite andb_false_r.
    unfold mc_init in Hi. destruct (init_tables _ cfg) as [T| |] eqn:E; cbn [res_bind] in Hi; [|done..]. injection Hi as <-. simpl in Er.
    assert (forall l T0 T, init_tables T0 l = Ok T -> (forall name t idx r, T0 !! name = Some t -> tb_regions t !! idx = Some r -> r = region_create) ->
      forall name t idx r, T !! name = Some t -> tb_regions t !! idx = Some r -> r = region_create) as Hall.
    { clear. intros l. induction l as [|[n sz] l IH]; intros T0 T H H0; cbn [init_tables] in H; [by injection H as <-|].
      unfold table_create in H. destruct (sz =? 0); cbn [res_bind] in H; [done|]. eapply IH; [exact H|].
      intros name t idx r. destruct (decide (name = n)) as [->|]; [rewrite lookup_insert|rewrite lookup_insert_ne by done; apply H0].
      intros [= <-]. cbn [tb_regions]. rewrite lookup_regions0. destruct (decide _); [by intros [= <-]|done]. }
    unfold region_of in Er. destruct (T !! key.1) as [t|] eqn:Et; [|done]. simpl in Er.
    rewrite (Hall _ _ _ E ltac:(intros ? ? ? ? Hz; simpl in Hz; by rewrite lookup_empty in Hz) _ _ _ _ Et Er). done.
  - apply history_snoc in H as (s0 & H & Hp). eapply perform_fresh; [exact H|exact Hp|by apply IH].
Qed.
Lemma resolve_answered counter calls s queries kind s' : sizes_u32 cfg -> history ro rgo tbo counter cfg calls s ->
  (forall q h, q ∈ queries -> h ∈ tq_hashes q -> h <= u32_max) ->
  perform ro rgo tbo s (CallResolve queries kind) = Ok s' ->
  exists o, delivered s' = delivered s ++ o /\ (length o <= 1)%nat /\
    (o <> [] <-> forall q h, q ∈ queries -> h ∈ tq_hashes q -> up_to_date cfg (tq_table q, h / size_of cfg (tq_table q)) calls = true).
Proof using once.
  intros Hsz H Hh Hp. pose proof (history_tables _ _ _ _ _ _ _ once H) as Ht. pose proof (history_fresh _ _ _ H) as Hi.
  assert (forall name t, mc_tables (ob_cache s) !! name = Some t -> tb_size t = size_of cfg name /\ tb_size t <> 0 /\ tb_size t <= u32_max) as Hs.
  { intros name t Hx. specialize (Ht name). rewrite Hx in Ht. destruct Ht as (size & Hin & (_ & Hz & Hnz & _)). rewrite (size_of_in _ _ _ once Hin).
    split_and!; [done|by rewrite Hz|]. rewrite Hz. by eapply Hsz. }
  simpl in Hp. destruct (mc_resolve _ _ _ _) as [c| |] eqn:E; cbn [res_bind] in Hp; [|done..]. injection Hp as <-.
  unfold mc_resolve in E. destruct (resolve_create _ _ _ _ _) as [[[T r] o]| |] eqn:Ec; cbn [res_bind] in E; [|done..]. injection E as <-.
  unfold resolve_create in Ec. destruct (split_all _ _) as [parts| |] eqn:Esp; cbn [res_bind] in Ec; [|done..].
  destruct (register_all _ _ _ _) as [[T' r']| |] eqn:Er; cbn [res_bind] in Ec; [|done..].
  destruct (maybe_deliver _ _) as [[r2 o2]| |] eqn:Em; cbn [res_bind] in Ec; [|done..]. injection Ec as <- <- <-.
  destruct (split_all_covers _ _ _ Esp) as [C1 C2]; [intros q t _ Hx; by apply Hs in Hx as (_ & ? & ?)|done|].
  pose proof (maybe_deliver_some _ _ _ _ Em) as Hd. destruct (register_all_fresh _ _ _ _ _ _ Er) as [_ Hpend]. simpl in Hpend.
  assert (forall p, p ∈ parts -> is_Some (region_of (mc_tables (ob_cache s)) (tq_table p.1, p.2))) as Hreg.
  { clear -Er. revert Er. generalize (Resolve kind ∅ ∅ false) as r0. generalize (mc_tables (ob_cache s)) as T.
    induction parts as [|[q idx] parts IH]; intros T r0 Er p Hp; [by apply elem_of_nil in Hp|]. cbn [register_all] in Er.
    destruct (T !! tq_table q) as [t|] eqn:Et; cbn [unwrap res_bind] in Er; [|done].
    destruct (try_resolve t idx q) as [ox| |] eqn:Eo; cbn [res_bind] in Er; [|done..].
    assert (is_Some (region_of T (tq_table q, idx))) as Hhere.
    { unfold region_of. simpl. rewrite Et. simpl. unfold try_resolve in Eo. by destruct (tb_regions t !! idx); [eexists|]. }
    apply elem_of_cons in Hp as [->|Hp]; [done|]. destruct ox as [l|]; [by eapply IH|].
    destruct (table_register t _ idx) as [t'| |] eqn:Eg; cbn [res_bind] in Er; [|done..].
    pose proof (IH _ _ Er p Hp) as Hx. unfold region_of in *. simpl in *. destruct (decide (tq_table p.1 = tq_table q)) as [E|Hne]; [|by rewrite lookup_insert_ne in Hx].
    rewrite E, lookup_insert in Hx. rewrite E, Et. simpl in *. unfold table_register in Eg. destruct (tb_regions t !! idx) as [rg|] eqn:Egg; [|by injection Eg as <-].
    destruct (region_register rg _); simpl in Eg; [|done..]. injection Eg as <-. simpl in Hx. apply lookup_insert_is_Some in Hx as [<-|[_ ?]]; [by eexists|done]. }
  assert ((forall p, p ∈ parts -> fresh_at (mc_tables (ob_cache s)) (tq_table p.1, p.2) = true) <->
    forall q h, q ∈ queries -> h ∈ tq_hashes q -> up_to_date cfg (tq_table q, h / size_of cfg (tq_table q)) calls = true) as Hiff.
  { split.
    - intros Hf q h Hq Hx. destruct (C2 _ _ Hq Hx) as (p & t & P1 & P2 & P3 & P4). specialize (Hf _ P1).
      rewrite (Hi _) in Hf. apply andb_true_iff in Hf as [_ Hf]. rewrite P3, P4, (proj1 (Hs _ _ P2)) in Hf. done.
    - intros Hf p Hp. destruct (C1 _ Hp) as (q & t & h & P1 & P2 & P3 & P4 & P5). rewrite (Hi _), bool_decide_true by by apply Hreg. simpl.
      rewrite P4, P5, (proj1 (Hs _ _ P2)). by apply Hf. }
  unfold delivered. simpl. unfold deliver. destruct o2 as [l|].
  - eexists. split; [done|]. split; [simpl; lia|]. split; [|done]. intros _. apply Hiff. apply Hpend. by apply Hd.
  - exists []. rewrite app_nil_r. split; [done|]. split; [simpl; lia|]. split; [done|]. intros Hf. exfalso. assert (@None (list resolved) <> None) as Hx; [|done].
    apply Hd, Hpend. split; [done|]. by apply Hiff.
Qed.
End Fresh.
