(** Further facts about the tablet data cache: where returned metadata comes
    from, batches without tablets, names of blobs, calls that succeed. *)
From stdpp Require Import pretty.
From Verif Require Import Base TabletModel BlobModel BlobSpec BlobProofs BlobHistoryProofs BlobInvariantProofs.
Local Arguments N.sub : simpl never.
Local Arguments N.add : simpl never.
Local Arguments N.eqb : simpl never.

Section Blob.
Context {V : Type}.
Variable serialize : V -> option bytes.
Variable deserialize : bytes -> option V.
Variable sha256 : bytes -> bytes.
Variable base64 : bytes -> string.
Variable entry_order : gmap string (entry V) -> list (string * entry V).

Notation answers := (list (data_out * data_in)).
Notation perform := (perform serialize deserialize sha256 base64 entry_order).
Notation history := (history serialize deserialize sha256 base64 entry_order).
Notation reaches := (reaches serialize deserialize sha256 base64 entry_order).
Notation core_inv := (core_inv serialize deserialize).

(** * Requests are never taken back *)
Lemma load_entries_out ms : forall (c : data_cache V), exists new, dc_out (foldl load_entry c ms) = dc_out c ++ new.
Proof using Type.
  induction ms as [|m ms IH]; intros c; [exists []; by rewrite app_nil_r|]. simpl. destruct (IH (load_entry c m)) as [new ->].
  unfold load_entry. destruct (_ !! _); [by exists new|]. simpl. eexists. by rewrite <- app_assoc.
Qed.
Lemma store_entries_out l : forall (c c' : data_cache V), store_entries c l = Ok c' -> exists new, dc_out c' = dc_out c ++ new.
Proof using Type.
  induction l as [|[[m v] cs] l IH]; intros c c' Hs; simpl in Hs; [injection Hs as <-; exists []; by rewrite app_nil_r|].
  destruct (_ !! _); [done|]. apply IH in Hs as [new ->]. simpl. eexists. by rewrite <- app_assoc.
Qed.
Lemma start_batch_out (c : data_cache V) st keys c' h : start_batch c st keys = Ok (c', h) -> dc_out c' = dc_out c.
Proof using Type.
  unfold start_batch. destruct (register_keys _ _ _ _ _) as [[[b r] m]| |]; cbn [res_bind]; [|done..]. by intros [= <- <-].
Qed.
Lemma perform_sent s call s' : perform s call = Ok s' -> exists new, sent s' = sent s ++ new.
Proof using Type.
  unfold sent. destruct call as [ms|l|r|evicted|]; simpl; unfold load_tablets, store_tablets, dc_process, dc_progress.
  - destruct (start_batch _ _ _) as [[c1 h]| |] eqn:E; cbn [res_bind]; [|done..]. intros [= <-]. simpl.
    rewrite (start_batch_out _ _ _ _ _ E). destruct (load_entries_out ms (ob_cache s)) as [new ->]. exists new. by rewrite app_assoc.
  - destruct (prepare_all _ _ _ _) as [[ms [cs|]]| |] eqn:E1; cbn [res_bind]; try done.
    + destruct (store_entries _ _) as [c1| |] eqn:E2; cbn [res_bind]; [|done..].
      destruct (start_batch _ _ _) as [[c2 h]| |] eqn:E; cbn [res_bind]; [|done..]. intros [= <-]. simpl.
      rewrite (start_batch_out _ _ _ _ _ E). destruct (store_entries_out _ _ _ E2) as [new ->]. exists new. by rewrite app_assoc.
    + intros [= <-]. exists []. by rewrite app_nil_r.
  - destruct (_ !! _); cbn [res_bind]; [|intros [= <-]; exists []; by rewrite app_nil_r].
    destruct (_ !! _); cbn [unwrap res_bind]; [|done].
    destruct (match r with LoadResponse _ _ _ => _ | StoreResponse _ _ => _ end); cbn [res_bind]; [|done..].
    intros [= <-]. exists []. by rewrite app_nil_r.
  - destruct (notify_entries _ _ _) as [[b1 r1]| |] eqn:E; cbn [res_bind]; [|done..]. intros [= <-].
    exists []. by rewrite app_nil_r.
  - intros [= <-]. exists []. simpl. by rewrite !app_nil_r.
Qed.
Lemma history_sent counter calls s o a : history counter calls s o a -> forall q, q ∈ o -> q ∈ sent s.
Proof using Type.
  induction 1 as [|calls s o a call s' Hh IH Hal Hp]; intros q Hq; [by apply elem_of_nil in Hq|].
  destruct (perform_sent _ _ _ Hp) as [new Hn]. unfold outstanding_next in Hq. rewrite Hn in *. rewrite drop_app in Hq.
  apply elem_of_app in Hq as [Hq|Hq]; [|set_solver]. apply elem_of_list_filter in Hq as [_ Hq]. apply elem_of_app. left. by apply IH.
Qed.

(** * Metadata returned was asked for *)
Section Known.
Variable known : tablet_metadata -> Prop.
Definition batch_known (b : batch V) : Prop :=
  match bt_state b with BatchLoad l => Forall (fun x => known x.1) l | _ => True end.
Definition outcome_known (x : outcome V) : Prop :=
  match x with OutLoaded l => Forall (fun x => known x.1) l | _ => True end.
Definition results_known (r : gmap N (outcome V)) : Prop := forall i x, r !! i = Some x -> outcome_known x.
Definition entries_known (m : gmap string (entry V)) : Prop := forall k e, m !! k = Some e -> known (en_meta e).
Definition batches_known (m : gmap N (batch V)) : Prop := forall k b, m !! k = Some b -> batch_known b.

Lemma resolve_entry_known i b r e b' r' :
  resolve_entry i b r e = Ok (b', r') -> known (en_meta e) -> batch_known b -> results_known r ->
  batch_known b' /\ results_known r'.
Proof using Type.
  intros Hr He Hb Hrs.
  assert (forall x r1, set_outcome r i x = Ok r1 -> outcome_known x -> results_known r1) as Hset.
  { intros x r1 Hs Hx. unfold set_outcome in Hs. destruct (r !! i); [done|]. injection Hs as <-.
    intros j y Hy. destruct (decide (i = j)) as [<-|n].
    - rewrite lookup_insert in Hy. by injection Hy as <-.
    - rewrite lookup_insert_ne in Hy by done. by apply (Hrs j). }
  unfold resolve_entry in Hr. destruct (bt_remaining b =? 0); [done|].
  unfold batch_known in Hb.
  destruct (bt_remaining b - 1 =? 0), (en_state e) as [| |v|], (bt_state b) as [l| | |] eqn:Eb; cbn [res_bind] in Hr;
    try (injection Hr as <- <-; unfold batch_known; simpl; split; [|done]; try done;
         (apply Forall_app; split; [done|by apply Forall_singleton]));
    (destruct (set_outcome _ _ _) as [r1| |] eqn:Es; cbn [res_bind] in Hr; [|done..]; injection Hr as <- <-;
     split; [done|]; apply (Hset _ _ Es); try done; simpl;
     (apply Forall_app; split; [done|by apply Forall_singleton])).
Qed.
Lemma register_keys_known i keys : forall b r m b' r' m',
  register_keys i b r m keys = Ok (b', r', m') -> batch_known b -> results_known r -> entries_known m ->
  batch_known b' /\ results_known r' /\ entries_known m'.
Proof using Type.
  induction keys as [|k keys IH]; intros b r m b' r' m' Hr Hb Hrs Hm; simpl in Hr; [by injection Hr as <- <- <-|].
  destruct (m !! k) as [e|] eqn:Ek; [|by eapply IH].
  assert (forall e', en_meta e' = en_meta e -> entries_known (<[k := e']> m)) as Hins.
  { intros e' He' j y Hy. destruct (decide (k = j)) as [<-|n].
    - rewrite lookup_insert in Hy. injection Hy as <-. rewrite He'. by apply (Hm k).
    - rewrite lookup_insert_ne in Hy by done. by apply (Hm j). }
  unfold add_pending in Hr. destruct (en_state e) eqn:Es; cbn [res_bind] in Hr; try (eapply IH; [done|done|done|by apply Hins]).
  - destruct (resolve_entry _ _ _ _) as [[b1 r1]| |] eqn:E; cbn [res_bind] in Hr; [|done..].
    destruct (resolve_entry_known _ _ _ _ _ _ E) as [A B]; [by apply (Hm k)|done|done|].
    eapply IH; [done|done|done|by apply Hins].
  - destruct (resolve_entry _ _ _ _) as [[b1 r1]| |] eqn:E; cbn [res_bind] in Hr; [|done..].
    destruct (resolve_entry_known _ _ _ _ _ _ E) as [A B]; [by apply (Hm k)|done|done|].
    eapply IH; [done|done|done|by apply Hins].
Qed.
Lemma notify_batches_known e l : forall bs r bs' r',
  notify_batches bs r e l = Ok (bs', r') -> known (en_meta e) -> batches_known bs -> results_known r ->
  batches_known bs' /\ results_known r'.
Proof using Type.
  induction l as [|i l IH]; intros bs r bs' r' Hn He Hb Hr; simpl in Hn; [by injection Hn as <- <-|].
  destruct (bs !! i) as [b|] eqn:Eb; cbn [unwrap res_bind] in Hn; [|done].
  destruct (resolve_entry _ _ _ _) as [[b1 r1]| |] eqn:E; cbn [res_bind] in Hn; [|done..].
  destruct (resolve_entry_known _ _ _ _ _ _ E He (Hb _ _ Eb) Hr) as [A B]. eapply IH; [done|done| |done].
  intros j y Hy. destruct (decide (i = j)) as [<-|n].
  - rewrite lookup_insert in Hy. by injection Hy as <-.
  - rewrite lookup_insert_ne in Hy by done. by apply (Hb j).
Qed.
Lemma notify_entries_known (l : list (string * entry V)) : forall bs r bs' r',
  notify_entries bs r l = Ok (bs', r') -> Forall (fun x => known (en_meta x.2)) l -> batches_known bs -> results_known r ->
  batches_known bs' /\ results_known r'.
Proof using Type.
  induction l as [|[k e] l IH]; intros bs r bs' r' Hn Hl Hb Hr; simpl in Hn; [by injection Hn as <- <-|].
  apply Forall_cons in Hl as [He Hl].
  destruct (notify_batches _ _ _ _) as [[b1 r1]| |] eqn:E; cbn [res_bind] in Hn; [|done..].
  destruct (notify_batches_known _ _ _ _ _ _ E He Hb Hr) as [A B]. by eapply IH.
Qed.
Definition cache_known (c : data_cache V) : Prop :=
  entries_known (dc_entries c) /\ batches_known (dc_batches c) /\ results_known (dc_results c).
Lemma start_batch_known c st keys c' h :
  start_batch c st keys = Ok (c', h) -> batch_known (Batch st 0) -> cache_known c -> cache_known c'.
Proof using Type.
  unfold start_batch. destruct (register_keys _ _ _ _ _) as [[[b r] m]| |] eqn:E; cbn [res_bind]; [|done..].
  intros [= <- <-] Hst (A & B & C). destruct (register_keys_known _ _ _ _ _ _ _ _ E Hst C A) as (D & F & G).
  split_and!; simpl; [done| |done]. destruct (batch_ready b); [done|]. intros j y Hy.
  destruct (decide (dc_counter c + 1 = j)) as [<-|n].
  - rewrite lookup_insert in Hy. by injection Hy as <-.
  - rewrite lookup_insert_ne in Hy by done. by apply (B j).
Qed.
Lemma insert_known (m : gmap string (entry V)) k e : entries_known m -> known (en_meta e) -> entries_known (<[k := e]> m).
Proof using Type.
  intros Hm He j y Hy. destruct (decide (k = j)) as [<-|n].
  - rewrite lookup_insert in Hy. by injection Hy as <-.
  - rewrite lookup_insert_ne in Hy by done. by apply (Hm j).
Qed.
Lemma load_entries_known ms : forall c, Forall known ms -> cache_known c -> cache_known (foldl load_entry c ms).
Proof using Type.
  induction ms as [|m ms IH]; intros c Hms Hc; [done|]. apply Forall_cons in Hms as [Hm Hms]. simpl. apply IH; [done|].
  unfold load_entry. destruct (_ !! _); [done|]. destruct Hc as (A & B & C). split_and!; try done. by apply insert_known.
Qed.
Lemma store_entries_known l : forall c c', store_entries c l = Ok c' -> Forall (fun x => known x.1.1) l -> cache_known c -> cache_known c'.
Proof using Type.
  induction l as [|[[m v] cs] l IH]; intros c c' Hs Hl Hc; simpl in Hs; [by injection Hs as <-|].
  apply Forall_cons in Hl as [Hm Hl]. destruct (_ !! _); [done|]. eapply IH; [done|done|]. destruct Hc as (A & B & C).
  split_and!; try done. by apply insert_known.
Qed.
End Known.

Definition asked_for (s : observed V) (m : tablet_metadata) : Prop :=
  exists q h, (q, h) ∈ ob_handles s /\ m ∈ asked_tablets q.
Lemma cache_known_mono (P Q : tablet_metadata -> Prop) c : (forall m, P m -> Q m) -> cache_known P c -> cache_known Q c.
Proof using Type.
  intros H (A & B & C). split_and!.
  - intros k e He. by apply H, (A k e).
  - intros k b Hb. specialize (B k b Hb). unfold batch_known in *. destruct (bt_state b); try done.
    eapply Forall_impl; [exact B|]. intros x. apply H.
  - intros i x Hx. specialize (C i x Hx). unfold outcome_known in *. destruct x; try done.
    eapply Forall_impl; [exact C|]. intros y. apply H.
Qed.
Lemma perform_handles s call s' : perform s call = Ok s' -> exists new, ob_handles s' = ob_handles s ++ new.
Proof using Type.
  destruct call as [ms|l|r|evicted|]; simpl; intros Hp.
  - destruct (load_tablets _ _) as [[c h]| |]; cbn [res_bind] in Hp; [|done..]. injection Hp as <-. by eexists.
  - destruct (store_tablets _ _ _ _ _) as [[[c ms] h]| |]; cbn [res_bind] in Hp; [|done..]. injection Hp as <-. by eexists.
  - destruct (dc_process _ _ _); cbn [res_bind] in Hp; [|done..]. injection Hp as <-. exists []. by rewrite app_nil_r.
  - destruct (dc_progress _ _ _); cbn [res_bind] in Hp; [|done..]. injection Hp as <-. exists []. by rewrite app_nil_r.
  - injection Hp as <-. exists []. by rewrite app_nil_r.
Qed.
Lemma perform_known (Horder : entries_order entry_order) s call s' :
  perform s call = Ok s' -> cache_known (asked_for s) (ob_cache s) -> cache_known (asked_for s') (ob_cache s').
Proof using Type.
  intros Hp Hc. destruct (perform_handles _ _ _ Hp) as [new Hnew].
  apply (cache_known_mono _ (asked_for s')) in Hc.
  2:{ intros m (q & h & Hq & Hm). exists q, h. split; [rewrite Hnew; set_solver|done]. }
  destruct call as [ms|l|r|evicted|]; simpl in Hp; unfold load_tablets, store_tablets, dc_process, dc_progress in Hp.
  - destruct (start_batch _ _ _) as [[c1 h]| |] eqn:E; cbn [res_bind] in Hp; [|done..]. injection Hp as Hs. subst s'.
    simpl. eapply start_batch_known; [exact E|apply Forall_nil; done|]. apply load_entries_known; [|done].
    apply Forall_forall. intros m Hm. eexists _, _. split; [simpl; apply elem_of_app; right; by left|done].
  - destruct (prepare_all _ _ _ _) as [[ms [cs|]]| |] eqn:E1; cbn [res_bind] in Hp; try done.
    + destruct (store_entries _ _) as [c1| |] eqn:E2; cbn [res_bind] in Hp; [|done..].
      destruct (start_batch _ _ _) as [[c2 h]| |] eqn:E; cbn [res_bind] in Hp; [|done..]. injection Hp as Hs. subst s'.
      simpl. eapply start_batch_known; [exact E|done|]. eapply store_entries_known; [exact E2| |done].
      apply Forall_forall. intros [[m v] b] Hx. simpl. apply elem_of_zip_l in Hx. apply elem_of_zip_l in Hx.
      eexists _, _. split; [simpl; apply elem_of_app; right; by left|done].
    + by injection Hp as <-.
  - destruct (_ !! _) as [key|]; cbn [res_bind] in Hp; [|by injection Hp as <-].
    destruct (_ !! key) as [e|] eqn:Ek; cbn [unwrap res_bind] in Hp; [|done].
    destruct (match r with LoadResponse _ _ _ => _ | StoreResponse _ _ => _ end) as [e'| |] eqn:Ee; cbn [res_bind] in Hp; [|done..].
    injection Hp as Hs. rewrite <- Hs at 2. simpl. destruct Hc as (A & B & C). split_and!; simpl; try done. apply insert_known; [done|].
    assert (en_meta e' = en_meta e) as ->; [|by apply (A key)].
    destruct r; unfold entry_loaded, entry_stored in Ee; destruct (en_state e); try done;
      repeat (destruct (_ =? _) in Ee; try done); by injection Ee as <-.
  - destruct (notify_entries _ _ _) as [[b1 r1]| |] eqn:E; cbn [res_bind] in Hp; [|done..]. injection Hp as Hs.
    rewrite <- Hs at 2. simpl. destruct Hc as (A & B & C).
    destruct (notify_entries_known (asked_for s') _ _ _ _ _ E) as [D F]; [|done|done|].
    { apply Forall_forall. intros [k e] He. rewrite Horder in He. apply elem_of_map_to_list in He. by apply (A k). }
    split_and!; simpl; [| |done].
    + intros k e He. rewrite evict_lookup in He. destruct (decide (k ∈ evicted)); [done|].
      apply map_filter_lookup_Some in He as [He _]. rewrite lookup_fmap in He.
      destruct (dc_entries (ob_cache s) !! k) as [e0|] eqn:E0; [|done]. simpl in He. injection He as <-.
      rewrite entry_take_meta. by apply (A k).
    + intros k b Hb. apply map_filter_lookup_Some in Hb as [Hb _]. by apply (D k).
  - injection Hp as Hs. rewrite <- Hs at 2. simpl. destruct Hc as (A & B & C). by split_and!.
Qed.
Lemma history_known (Horder : entries_order entry_order) counter calls s o a :
  history counter calls s o a -> cache_known (asked_for s) (ob_cache s).
Proof using Type.
  induction 1; [|by eapply perform_known]. split_and!; intros ? ? Hx; simpl in Hx; by rewrite lookup_empty in Hx.
Qed.

(** * Batches without tablets *)
Lemma perform_same_cache s s1 call s' :
  perform s call = Ok s' -> ob_cache s1 = ob_cache s -> ob_taken s1 = ob_taken s ->
  exists s1', perform s1 call = Ok s1' /\ ob_cache s1' = ob_cache s' /\ ob_taken s1' = ob_taken s' /\
    exists q, forall i x, (x, HandleBatch i) ∈ ob_handles s1' ->
      (x, HandleBatch i) ∈ ob_handles s1 \/ q = HandleBatch i /\ q ∈ map snd (drop (length (ob_handles s)) (ob_handles s')).
Proof using Type.
  intros Hp Hc Ht. destruct call as [ms|l|r|evicted|]; simpl in *; rewrite ?Hc in *.
  - destruct (load_tablets (ob_cache s) ms) as [[c h]| |]; cbn [res_bind] in *; [|done..]. injection Hp as <-.
    eexists. split_and!; [done|done|done|]. simpl. exists h. intros i x Hx. rewrite drop_app. apply elem_of_app in Hx as [Hx|Hx]; [by left|].
    apply elem_of_list_singleton in Hx as [= -> <-]. right. split; [done|by left].
  - destruct (store_tablets _ _ _ (ob_cache s) l) as [[[c ms] h]| |]; cbn [res_bind] in *; [|done..]. injection Hp as <-.
    eexists. split_and!; [done|done|done|]. simpl. exists h. intros i x Hx. rewrite drop_app. apply elem_of_app in Hx as [Hx|Hx]; [by left|].
    apply elem_of_list_singleton in Hx as [= -> <-]. right. split; [done|by left].
  - destruct (dc_process deserialize (ob_cache s) r); cbn [res_bind] in *; [|done..]. injection Hp as <-.
    eexists. split_and!; [done|done|done|]. exists HandleFailed. intros i x Hx. by left.
  - destruct (dc_progress entry_order (ob_cache s) evicted); cbn [res_bind] in *; [|done..]. injection Hp as <-.
    eexists. split_and!; [done|done|done|]. exists HandleFailed. intros i x Hx. by left.
  - injection Hp as <-. eexists. split_and!; [done|simpl; congruence|simpl; congruence|]. exists HandleFailed.
    intros i x Hx. by left.
Qed.
Lemma start_batch_counter (c : data_cache V) st keys c' h :
  start_batch c st keys = Ok (c', h) -> dc_counter c' = dc_counter c + 1 /\ h = HandleBatch (dc_counter c + 1).
Proof using Type.
  unfold start_batch. destruct (register_keys _ _ _ _ _) as [[[b r] m]| |]; cbn [res_bind]; [|done..]. by intros [= <- <-].
Qed.
Lemma load_entries_counter ms : forall (c : data_cache V), dc_counter (foldl load_entry c ms) = dc_counter c.
Proof using Type.
  induction ms as [|m ms IH]; intros c; [done|]. simpl. rewrite IH. unfold load_entry. by destruct (_ !! _).
Qed.
Lemma store_entries_counter l : forall (c c' : data_cache V), store_entries c l = Ok c' -> dc_counter c' = dc_counter c.
Proof using Type.
  induction l as [|[[m v] cs] l IH]; intros c c' Hs; simpl in Hs; [by injection Hs as <-|].
  destruct (_ !! _); [done|]. by apply IH in Hs.
Qed.
Lemma perform_counter s call s' :
  perform s call = Ok s' ->
  dc_counter (ob_cache s) <= dc_counter (ob_cache s') /\
  forall i, HandleBatch i ∈ map snd (drop (length (ob_handles s)) (ob_handles s')) -> dc_counter (ob_cache s) < i.
Proof using Type.
  intros Hp. destruct call as [ms|l|r|evicted|]; simpl in Hp; unfold load_tablets, store_tablets, dc_process, dc_progress in Hp.
  - destruct (start_batch _ _ _) as [[c1 h]| |] eqn:E; cbn [res_bind] in Hp; [|done..]. injection Hp as <-.
    apply start_batch_counter in E as [E ->]. rewrite load_entries_counter in *. simpl. rewrite drop_app. split; [lia|].
    intros i Hi. simpl in Hi. apply elem_of_list_singleton in Hi as [= ->]. lia.
  - destruct (prepare_all _ _ _ _) as [[ms [cs|]]| |] eqn:E1; cbn [res_bind] in Hp; try done.
    + destruct (store_entries _ _) as [c1| |] eqn:E2; cbn [res_bind] in Hp; [|done..].
      destruct (start_batch _ _ _) as [[c2 h]| |] eqn:E; cbn [res_bind] in Hp; [|done..]. injection Hp as <-.
      apply start_batch_counter in E as [E ->]. rewrite (store_entries_counter _ _ _ E2) in *. simpl. rewrite drop_app. split; [lia|].
      intros i Hi. simpl in Hi. apply elem_of_list_singleton in Hi as [= ->]. lia.
    + injection Hp as <-. simpl. rewrite drop_app. split; [lia|]. intros i Hi. simpl in Hi. by apply elem_of_list_singleton in Hi.
  - assert (ob_handles s' = ob_handles s /\ dc_counter (ob_cache s') = dc_counter (ob_cache s)) as [-> ->].
    { destruct (_ !! _) as [key|]; cbn [res_bind] in Hp; [|by injection Hp as <-].
      destruct (_ !! key) as [e|]; cbn [unwrap res_bind] in Hp; [|done].
      destruct (match r with LoadResponse _ _ _ => _ | StoreResponse _ _ => _ end); cbn [res_bind] in Hp; [|done..].
      by injection Hp as <-. }
    rewrite drop_all. split; [lia|]. intros i Hi. by apply elem_of_nil in Hi.
  - destruct (notify_entries _ _ _) as [[b1 r1]| |] eqn:E; cbn [res_bind] in Hp; [|done..]. injection Hp as <-. simpl.
    rewrite drop_all. split; [lia|]. intros i Hi. by apply elem_of_nil in Hi.
  - injection Hp as <-. simpl. rewrite drop_all. split; [lia|]. intros i Hi. by apply elem_of_nil in Hi.
Qed.
(** A number that no batch waiting for anything has stays without a result. *)
Lemma silent_reaches (Horder : entries_order entry_order) i s o a s' o' a' :
  reaches s o a s' o' a' ->
  (exists s1, ob_cache s1 = ob_cache s /\ ob_taken s1 = ob_taken s /\ inv serialize deserialize s1 o a /\
     (forall q, (q, HandleBatch i) ∉ ob_handles s1) /\ i <= dc_counter (ob_cache s)) ->
  exists s1', ob_cache s1' = ob_cache s' /\ ob_taken s1' = ob_taken s' /\ inv serialize deserialize s1' o' a' /\
     (forall q, (q, HandleBatch i) ∉ ob_handles s1') /\ i <= dc_counter (ob_cache s').
Proof using Type.
  intros Hr H0. induction Hr as [s o a|s o a s2 o2 a2 call s3 Hr IH Hal Hp]; [done|].
  destruct (IH H0) as (s1 & A & B & C & D & E).
  destruct (perform_same_cache _ s1 _ _ Hp A B) as (s1' & P1 & P2 & P3 & q & P4).
  destruct (perform_counter _ _ _ Hp) as [Q1 Q2].
  exists s1'. split_and!; [done|done| | |lia].
  - pose proof (perform_inv serialize deserialize entry_order Horder sha256 base64 s1 o2 a2 call s1' C Hal P1) as Hi.
    unfold outstanding_next, sent in *. by rewrite A, B, P2, P3 in Hi.
  - intros x Hx. destruct (P4 i x Hx) as [?|[-> Hy]]; [by apply (D x)|]. apply Q2 in Hy. lia.
Qed.
Lemma empty_batch_inv (Horder : entries_order entry_order) counter calls s o a call s1 q h :
  history counter calls s o a -> call = CallLoad [] \/ call = CallStore [] -> perform s call = Ok s1 ->
  ob_handles s1 = ob_handles s ++ [(q, h)] ->
  forall s2 o2 a2, reaches s1 (outstanding_next s s1 call o) (answers_next call o a) s2 o2 a2 -> check s2 h = None.
Proof using Type.
  intros Hh Hcall Hp Hhs s2 o2 a2 Hr.
  pose proof (history_inv _ _ _ Horder _ _ _ _ _ _ _ Hh) as I.
  set (i := dc_counter (ob_cache s) + 1).
  assert (exists c, s1 = Observed c (ob_taken s) (ob_handles s ++ [(q, HandleBatch i)]) /\ h = HandleBatch i /\
    c = DataCache (dc_correlation (ob_cache s)) i (dc_entries (ob_cache s)) (dc_batches (ob_cache s))
        (dc_operations (ob_cache s)) (dc_out (ob_cache s)) (dc_results (ob_cache s))) as (c & -> & -> & Hc).
  { destruct Hcall as [-> | ->]; simpl in Hp; injection Hp as <-; simpl in Hhs; apply app_inv_head in Hhs;
      injection Hhs as <- <-; by eexists. }
  destruct (silent_reaches Horder i _ _ _ _ _ _ Hr) as (s3 & A & B & C & D & E).
  - exists (Observed c (ob_taken s) (ob_handles s)). split_and!; [done|done| | |by rewrite Hc].
    + assert (outstanding_next s (Observed c (ob_taken s) (ob_handles s ++ [(q, HandleBatch i)])) call o = o) as ->.
      { unfold outstanding_next. rewrite filter_all by (destruct Hcall as [-> | ->]; naive_solver).
        unfold sent. rewrite Hc. simpl. by rewrite drop_all, app_nil_r. }
      assert (answers_next call o a = a) as ->.
      { unfold answers_next. destruct Hcall as [-> | ->]; by rewrite app_nil_r. }
      destruct I as [[J1 J2 J3 J4 J5 J6 J7 J8 J9] I1 I2]. rewrite Hc. split; [|done|done].
      split; simpl; try done. intros q' j Hq'. destruct (J7 q' j Hq'). split; [done|]. unfold i. lia.
    + intros q' Hq'. simpl in Hq'. destruct I as [I _ _]. destruct (ci_batches _ _ _ _ _ _ I q' i Hq') as [_ Hi]. unfold i in Hi. lia.
  - destruct C as [C _ _]. destruct (ci_others _ _ _ _ _ _ C i D) as (_ & Hres & _). unfold check, check_result. by rewrite <- A.
Qed.

(** Where a handle was returned. *)
Lemma handle_call counter calls s o a q h : history counter calls s o a -> (q, h) ∈ ob_handles s ->
  exists calls1 s1 o1 a1 call s2, history counter calls1 s1 o1 a1 /\ perform s1 call = Ok s2 /\
    ob_handles s2 = ob_handles s1 ++ [(q, h)] /\ reaches s2 (outstanding_next s1 s2 call o1) (answers_next call o1 a1) s o a.
Proof using Type.
  induction 1 as [|calls s o a call s' Hh IH Hal Hp]; intros Hq; [by apply elem_of_nil in Hq|].
  assert ((q, h) ∈ ob_handles s \/ ob_handles s' = ob_handles s ++ [(q, h)]) as [Hold|Hnew].
  { destruct call as [l|l|r|ev|]; simpl in Hp.
    - destruct (load_tablets _ _) as [[c h']| |]; cbn [res_bind] in Hp; [|done..]. injection Hp as <-. simpl in *.
      apply elem_of_app in Hq as [Hq|Hq]; [by left|]. apply elem_of_list_singleton in Hq as [= -> ->]. by right.
    - destruct (store_tablets _ _ _ _ _) as [[[c ms] h']| |]; cbn [res_bind] in Hp; [|done..]. injection Hp as <-. simpl in *.
      apply elem_of_app in Hq as [Hq|Hq]; [by left|]. apply elem_of_list_singleton in Hq as [= -> ->]. by right.
    - destruct (dc_process _ _ _) as [c| |]; cbn [res_bind] in Hp; [|done..]. injection Hp as <-. by left.
    - destruct (dc_progress _ _ _) as [c| |]; cbn [res_bind] in Hp; [|done..]. injection Hp as <-. by left.
    - injection Hp as <-. by left. }
  - destruct (IH Hold) as (c1 & s1 & o1 & a1 & call1 & s2 & K1 & K2 & K3 & K4). exists c1, s1, o1, a1, call1, s2.
    split_and!; try done. by econstructor.
  - exists calls, s, o, a, call, s'. split_and!; try done. constructor.
Qed.
(** A request for no tablets has no result. *)
Lemma empty_unresolved (Horder : entries_order entry_order) counter calls s o a q i : history counter calls s o a ->
  (q, HandleBatch i) ∈ ob_handles s -> asked_tablets q = [] -> check s (HandleBatch i) = None.
Proof using Type.
  intros Hh Hq He. destruct (handle_call _ _ _ _ _ _ _ Hh Hq) as (c1 & s1 & o1 & a1 & call & s2 & K1 & K2 & K3 & K4).
  eapply (empty_batch_inv Horder _ _ _ _ _ call); [exact K1| |exact K2|exact K3|exact K4].
  destruct call as [l|l|r|ev|]; simpl in K2.
  - left. destruct (load_tablets _ _) as [[c h']| |]; cbn [res_bind] in K2; [|done..]. injection K2 as <-. simpl in K3.
    apply app_inv_head in K3. injection K3 as <- _. simpl in He. by subst l.
  - right. destruct (store_tablets _ _ _ _ _) as [[[c ms] h']| |] eqn:E; cbn [res_bind] in K2; [|done..]. injection K2 as <-. simpl in K3.
    apply app_inv_head in K3. injection K3 as <- ->. simpl in He. subst ms. unfold store_tablets in E.
    destruct (prepare_all serialize sha256 base64 l) as [[ms' [cs|]]| |] eqn:Ep; cbn [res_bind] in E; try done.
    destruct (store_entries _ _) as [c1'| |]; cbn [res_bind] in E; [|done..].
    destruct (start_batch _ _ _) as [[c2 h2]| |]; cbn [res_bind] in E; [|done..]. injection E as _ -> _.
    destruct (prepare_all_ok _ _ _ _ _ _ Ep) as (L1 & _ & _). by destruct l.
  - destruct (dc_process _ _ _) as [c| |]; cbn [res_bind] in K2; [|done..]. injection K2 as <-. simpl in K3.
    apply (f_equal length) in K3. rewrite app_length in K3. simpl in K3. lia.
  - destruct (dc_progress _ _ _) as [c| |]; cbn [res_bind] in K2; [|done..]. injection K2 as <-. simpl in K3.
    apply (f_equal length) in K3. rewrite app_length in K3. simpl in K3. lia.
  - injection K2 as <-. simpl in K3. apply (f_equal length) in K3. rewrite app_length in K3. simpl in K3. lia.
Qed.

(** * Calls that succeed *)
Lemma load_succeeds (Horder : entries_order entry_order) counter calls s o a ms :
  history counter calls s o a -> exists s', perform s (CallLoad ms) = Ok s'.
Proof using Type.
  intros Hh. pose proof (history_inv _ _ _ Horder _ _ _ _ _ _ _ Hh) as [I _ _]. simpl. unfold load_tablets.
  destruct (load_entries_inv serialize deserialize ms (ob_cache s) o a (ob_handles s) I) as (new & A1 & A2 & A3 & A4 & A5 & A6 & A7 & A8 & A9).
  destruct (start_batch_inv serialize deserialize (foldl load_entry (ob_cache s) ms) (o ++ new) a (ob_handles s)
                (AskedLoad ms false) (BatchLoad [])) as (c2 & B1 & _); [done| |done|done|done|].
  - intros k Hk. apply elem_of_list_fmap in Hk as (m & -> & Hm). by apply A7.
  - unfold keys_of in B1. simpl in B1. rewrite B1. by eexists.
Qed.
Lemma progress_succeeds (Horder : entries_order entry_order) counter calls s o a evicted :
  history counter calls s o a -> allowed (V := V) o (CallProgress evicted) ->
  exists s', perform s (CallProgress evicted) = Ok s'.
Proof using Type.
  intros Hh Hal. pose proof (history_inv _ _ _ Horder _ _ _ _ _ _ _ Hh) as [I _ _]. simpl.
  destruct (progress_inv _ _ _ Horder _ _ _ _ evicted I Hal) as (c1 & A & _). rewrite A. by eexists.
Qed.
Lemma progress_waiting (Horder : entries_order entry_order) counter calls s o a evicted s' q i :
  history counter calls s o a -> allowed (V := V) o (CallProgress evicted) -> perform s (CallProgress evicted) = Ok s' ->
  (q, HandleBatch i) ∈ ob_handles s' -> asked_tablets q <> [] -> dc_results (ob_cache s') !! i = None ->
  exists m, m ∈ asked_tablets q /\ tm_uri m ∈ map request_uri o.
Proof using Type.
  intros Hh Hal Hp Hq Hne Hr. pose proof (history_inv _ _ _ Horder _ _ _ _ _ _ _ Hh) as [I _ _]. simpl in Hp.
  destruct (progress_inv _ _ _ Horder _ _ _ _ evicted I Hal) as (c1 & A & B & C & D & E). rewrite A in Hp. cbn [res_bind] in Hp.
  injection Hp as <-. simpl in *. destruct (ci_batches _ _ _ _ _ _ B q i Hq) as [(F1 & F2 & F3 & F4) _].
  destruct (waits (dc_entries c1) i) as [|k w] eqn:Ew.
  { exfalso. apply F3; [done| |done]. unfold keys_of. intros Hx. by destruct (asked_tablets q). }
  assert (k ∈ waits (dc_entries c1) i) as Hk by (rewrite Ew; by left).
  apply elem_of_waits in Hk as (e & He & Hi). pose proof (F1 k ltac:(by left)) as Hkey.
  apply elem_of_list_fmap in Hkey as (m & -> & Hm). exists m. split; [done|].
  pose proof (ci_entries _ _ _ _ _ _ B _ _ He) as [_ Hg].
  destruct (entry_ready e) eqn:Er; [by rewrite (E _ _ He Er) in Hi; apply elem_of_nil in Hi|].
  unfold entry_ready in Er. destruct (en_state e); try done.
  - destruct Hg as [n Hn]. apply elem_of_list_fmap. by exists (LoadRequest n (tm_uri m)).
  - destruct Hg as (n & cs & Hn & _). apply elem_of_list_fmap. by exists (StoreRequest n (tm_uri m) cs).
Qed.
Lemma answer_succeeds (Horder : entries_order entry_order) counter calls s o a q r :
  history counter calls s o a -> q ∈ o -> valid_answer q r -> exists s', perform s (CallIn r) = Ok s'.
Proof using Type.
  intros Hh Hq [Hid Hv]. pose proof (history_inv _ _ _ Horder _ _ _ _ _ _ _ Hh) as [I _ _]. simpl. unfold dc_process.
  replace (match r with LoadResponse n _ _ => n | StoreResponse n _ => n end) with (response_id r) by by destruct r.
  assert (dc_operations (ob_cache s) !! response_id r = Some (request_uri q)) as ->.
  { apply (ci_operations _ _ _ _ _ _ I). by exists q. }
  destruct (ci_pending _ _ _ _ _ _ I q Hq) as (e & He & Hp). rewrite He. cbn [unwrap res_bind].
  destruct q as [n u|n u cs], r as [n' st cs'|n' st]; try done; simpl in *.
  - unfold entry_loaded. rewrite Hp. destruct Hv as [-> | ->]; simpl; by eexists.
  - unfold entry_stored. destruct Hp as (v & -> & _). destruct Hv as [-> | ->]; simpl; by eexists.
Qed.
Lemma unknown_ignored (Horder : entries_order entry_order) counter calls s o a r :
  history counter calls s o a -> (forall q, q ∈ o -> request_id q <> response_id r) -> perform s (CallIn r) = Ok s.
Proof using Type.
  intros Hh Hno. pose proof (history_inv _ _ _ Horder _ _ _ _ _ _ _ Hh) as [I _ _]. simpl. unfold dc_process.
  replace (match r with LoadResponse n _ _ => n | StoreResponse n _ => n end) with (response_id r) by by destruct r.
  destruct (dc_operations (ob_cache s) !! response_id r) as [k|] eqn:E.
  - apply (ci_operations _ _ _ _ _ _ I) in E as (q & Hq & Hid & _). by apply Hno in Hq.
  - cbn [res_bind]. by destruct s.
Qed.

(** * Names of blobs *)
Fixpoint no_underscore (s : string) : Prop :=
  match s with EmptyString => True | String c s => c <> Ascii.ascii_of_N 95 /\ no_underscore s end.
Lemma pretty_N_go_no_underscore x : forall s, no_underscore s -> no_underscore (pretty_N_go x s).
Proof using Type.
  induction x as [x IH] using (well_founded_induction N.lt_wf_0). intros s Hs.
  destruct (decide (0 < x)) as [Hx|Hx].
  - rewrite pretty_N_go_step by done. apply IH; [apply N.div_lt; lia|]. simpl. split; [|done].
    unfold pretty_N_char. pose proof (N.mod_lt x 10 ltac:(lia)) as Hm. destruct (x mod 10) as [|p]; [done|].
    do 4 (destruct p as [p|p|]; try done; try lia).
  - assert (x = 0) as -> by lia. by rewrite pretty_N_go_0.
Qed.
Lemma pretty_no_underscore (n : N) : no_underscore (pretty n).
Proof using Type.
  unfold pretty, pretty_N. destruct (decide (n = 0)); [done|]. by apply pretty_N_go_no_underscore.
Qed.
Lemma split_underscore s1 s2 t1 t2 :
  no_underscore s1 -> no_underscore s2 -> (s1 +:+ "_" +:+ t1 = s2 +:+ "_" +:+ t2)%string -> s1 = s2 /\ t1 = t2.
Proof using Type.
  revert s2. induction s1 as [|c s1 IH]; intros [|d s2] H1 H2 He; simpl in *.
  - by injection He.
  - injection He as <- He. by destruct H2.
  - injection He as -> He. by destruct H1.
  - injection He as <- He. destruct H1 as [_ H1], H2 as [_ H2]. destruct (IH s2 H1 H2 He) as [-> ->]. done.
Qed.
Lemma blob_uri_inj id version hash id' version' hash' :
  (forall x y, base64 x = base64 y -> x = y) ->
  blob_uri base64 id version hash = blob_uri base64 id' version' hash' -> id = id' /\ version = version' /\ hash = hash'.
Proof using Type.
  intros Hb He. unfold blob_uri in He. apply split_underscore in He as [H1 He]; [|apply pretty_no_underscore..].
  apply split_underscore in He as [H2 He]; [|apply pretty_no_underscore..].
  split_and!; [by apply (inj pretty)|by apply (inj pretty)|by apply Hb].
Qed.

(** The metadata of tablets written. *)
Definition written (x : tablet_metadata * V) (m : tablet_metadata) : Prop :=
  exists contents, serialize x.2 = Some contents /\
    tm_id m = tm_id x.1 /\ tm_version m = tm_version x.1 + 1 /\ tm_deleted m = tm_deleted x.1 /\ tm_key m = tm_key x.1 /\
    tm_size m = Nlen contents mod 2 ^ 32 /\ tm_hash m = sha256 contents /\
    tm_uri m = blob_uri base64 (tm_id x.1) (tm_version x.1 + 1) (sha256 contents).
Lemma prepare_all_written l : forall ms cs,
  prepare_all serialize sha256 base64 l = Ok (ms, Some cs) -> Forall2 written l ms.
Proof using Type.
  induction l as [|[m v] l IH]; intros ms cs Hp; simpl in Hp.
  - injection Hp as <- <-. constructor.
  - unfold prepare_write in Hp. destruct (serialize v) as [c|] eqn:E.
    + destruct (tm_version m =? u32_max); [done|]. cbn [res_bind] in Hp.
      destruct (prepare_all serialize sha256 base64 l) as [[ms' [cs'|]]| |] eqn:E1; cbn [res_bind] in Hp; try done.
      injection Hp as <- <-. constructor; [|by eapply IH]. by exists c.
    + cbn [res_bind] in Hp. done.
Qed.
Lemma prepare_all_failed l : forall ms,
  prepare_all serialize sha256 base64 l = Ok (ms, None) -> exists x, x ∈ l /\ serialize x.2 = None.
Proof using Type.
  induction l as [|[m v] l IH]; intros ms Hp; simpl in Hp; [done|].
  unfold prepare_write in Hp. destruct (serialize v) as [c|] eqn:E.
  - destruct (tm_version m =? u32_max); [done|]. cbn [res_bind] in Hp.
    destruct (prepare_all serialize sha256 base64 l) as [[ms' [cs'|]]| |] eqn:E1; cbn [res_bind] in Hp; try done.
    destruct (IH _ eq_refl) as (x & Hx & ?). exists x. split; [by right|done].
  - exists (m, v). split; [by left|done].
Qed.
End Blob.
