(** The caches inside the transaction manager only see proper histories, so that
    the theorems about them apply. *)
From Verif Require Import Base TabletModel MetadataModel BlobModel CoordinatorModel CoordinatorSpec CoordinatorProofs CoordinatorHandlerProofs.
From Verif Require MetadataSpec BlobSpec MetadataTheorems BlobTheorems.
Local Arguments N.add : simpl never.

Section Caches.
Context {V H S : Type}.
Variable serialize : V -> option bytes.
Variable deserialize : bytes -> option V.
Variable sha256 : bytes -> bytes.
Variable base64 : bytes -> string.
Variable entry_order : gmap string (entry V) -> list (string * entry V).
Variable result_order : gmap (string * N) resolve_result -> list resolve_result.
Variable region_order : gmap N region -> list (N * region).
Variable table_order : gmap string table_cache -> list (string * table_cache).
Variable tablet_order : gmap (N * N) (working V) -> list (N * N).
Variable tx_order : gmap N (tx_state V H) -> list N.
Variable handle_tablets : S -> H -> N -> list (table_query * tablet_metadata * option V) ->
  res unit (S * list (option V)).
Notation perform := (mg_call serialize deserialize sha256 base64 entry_order result_order region_order table_order
                       tablet_order tx_order handle_tablets).
Notation runs := (runs serialize deserialize sha256 base64 entry_order result_order region_order table_order
                       tablet_order tx_order handle_tablets).
Notation process_progress := (process_progress serialize sha256 base64 result_order tablet_order handle_tablets).
Notation preparing_progress := (preparing_progress serialize sha256 base64 result_order tablet_order handle_tablets).
Notation transactions_progress := (transactions_progress serialize sha256 base64 result_order tablet_order handle_tablets).
Notation trace := (list (call (H := H) * reply (V := V) (H := H))).
Notation shared := (shared (V := V) (H := H) (S := S)).

(** ** Invariants of the shared state and the processes *)
Section Lift.
Context {G : Type}.
Variable before : G -> G -> Prop.
Variable good : G -> shared -> Prop.
Variable fine : G -> process V H -> Prop.
Hypothesis before_refl : forall g, before g g.
Hypothesis before_trans : forall a b c, before a b -> before b c -> before a c.
Hypothesis fine_mono : forall g g' p, before g g' -> fine g p -> fine g' p.
Hypothesis step : forall tx g s p s' p', good g s -> fine g p -> process_progress tx s p = Ok (s', p') ->
  exists g', before g g' /\ good g' s' /\ fine g' p'.
Lemma preparing_lift tx ps : forall g s s' ps', good g s -> (forall p, p ∈ ps -> fine g p) ->
  preparing_progress tx s ps = Ok (s', ps') ->
  exists g', before g g' /\ good g' s' /\ forall p, p ∈ ps' -> fine g' p.
Proof using before_refl before_trans fine_mono step.
  induction ps as [|p ps IH]; intros g s s' ps' Hg Hf; cbn [CoordinatorModel.preparing_progress].
  - intros [= <- <-]. exists g. split_and!; [done|done|]. intros p Hp. by apply elem_of_nil in Hp.
  - destruct (process_progress tx s p) as [[s1 p1]| |] eqn:E; cbn [res_bind]; [|done..].
    destruct (preparing_progress tx s1 ps) as [[s2 ps2]| |] eqn:E2; cbn [res_bind]; [|done..]. intros [= <- <-].
    destruct (step _ _ _ _ _ _ Hg (Hf p ltac:(by left)) E) as (g1 & B1 & G1 & F1).
    destruct (IH g1 s1 s2 ps2 G1) as (g2 & B2 & G2 & F2); [|done|].
    { intros q Hq. eapply fine_mono; [exact B1|]. apply Hf. by right. }
    exists g2. split_and!; [by eapply before_trans|done|]. intros q Hq. apply elem_of_cons in Hq as [->|Hq]; [by eapply fine_mono|by apply F2].
Qed.
Definition all_fine (g : G) (txs : gmap N (tx_state V H)) : Prop :=
  forall tx ps p, txs !! tx = Some (TxPreparing ps) -> p ∈ ps -> fine g p.
Lemma transactions_lift ids : forall g s txs s' txs', good g s -> all_fine g txs ->
  transactions_progress s txs ids = Ok (s', txs') ->
  exists g', before g g' /\ good g' s' /\ all_fine g' txs'.
Proof using before_refl before_trans fine_mono step.
  induction ids as [|i ids IH]; intros g s txs s' txs' Hg Hf; cbn [CoordinatorModel.transactions_progress].
  - intros [= <- <-]. by exists g.
  - destruct (txs !! i) as [[ps| |]|] eqn:Ei; [|by apply IH..].
    destruct (preparing_progress i s ps) as [[s1 ps1]| |] eqn:E; cbn [res_bind]; [|done..]. intros Ht.
    destruct (preparing_lift _ _ _ _ _ _ Hg (fun p Hp => Hf i ps p Ei Hp) E) as (g1 & B1 & G1 & F1).
    destruct (IH g1 s1 (<[i := TxPreparing ps1]> txs) s' txs' G1) as (g2 & B2 & G2 & F2); [|done|].
    { intros tx ps' p Hx Hp. destruct (decide (tx = i)) as [->|Hne].
      - rewrite lookup_insert in Hx. injection Hx as <-. by apply F1.
      - rewrite lookup_insert_ne in Hx by done. eapply fine_mono; [exact B1|]. by eapply Hf. }
    exists g2. split_and!; [by eapply before_trans|done|done].
Qed.
End Lift.

(** ** The metadata cache *)
Variable tables : list (string * N).
Notation mhistory := (MetadataSpec.history result_order region_order table_order).
Notation mperform := (MetadataSpec.perform result_order region_order table_order).
Notation reports t := (MetadataSpec.reports t (MetadataSpec.size_of tables t)).
Notation mobserved := MetadataSpec.Observed.

Definition reported_tablet (calls : list MetadataSpec.cache_call) (q : table_query) (md : tablet_metadata) : Prop :=
  md ∈ reports (tq_table q) calls /\ forall h, h ∈ tq_hashes q -> h <= tm_id md.
Definition reported_tablets (calls : list MetadataSpec.cache_call) (t : gmap (N * N) (working V)) : Prop :=
  forall k w, t !! k = Some w -> reported_tablet calls (wk_query w) (wk_meta w).
Definition reported_event (calls : list MetadataSpec.cache_call) (ev : handled V H) : Prop :=
  forall q md c set, (q, md, c, set) ∈ hd_tablets ev -> reported_tablet calls q md.
Definition mbefore (a b : list MetadataSpec.cache_call) : Prop :=
  exists more, b = a ++ more /\ forall t size, MetadataSpec.reports t size more = [].
Definition mgood (mc : N) (taken : list (N * list tablet_op)) (calls : list MetadataSpec.cache_call) (s : shared) : Prop :=
  mhistory mc tables calls (mobserved (sh_meta s) taken) /\ MetadataSpec.hashes_u32 calls /\
  forall ev, ev ∈ sh_handled s -> reported_event calls ev.
Definition mfine (calls : list MetadataSpec.cache_call) (p : process V H) : Prop :=
  match ps_status p with
  | PsPending qs => queries_u32 qs /\ ps_tablets p = ∅
  | PsResolving _ => ps_tablets p = ∅
  | PsLoading _ => reported_tablets calls (ps_tablets p)
  | _ => True
  end.

Lemma mreports_app t size a b : MetadataSpec.reports t size (a ++ b) = MetadataSpec.reports t size a ++ MetadataSpec.reports t size b.
Proof using Type. unfold MetadataSpec.reports. by rewrite map_app, concat_app. Qed.
Lemma mbefore_refl a : mbefore a a.
Proof using Type. exists []. by rewrite app_nil_r. Qed.
Lemma mbefore_trans a b c : mbefore a b -> mbefore b c -> mbefore a c.
Proof using Type.
  intros (x & -> & Hx) (y & -> & Hy). exists (x ++ y). rewrite app_assoc. split; [done|]. intros t size. by rewrite mreports_app, Hx, Hy.
Qed.
Lemma reported_mono a more q md : reported_tablet a q md -> reported_tablet (a ++ more) q md.
Proof using Type. intros [H1 H2]. split; [|done]. rewrite mreports_app. apply elem_of_app. by left. Qed.
Lemma mfine_mono a b p : mbefore a b -> mfine a p -> mfine b p.
Proof using Type.
  intros (more & -> & _). unfold mfine. destruct (ps_status p); try done. intros Ht k w Hk. apply reported_mono. by eapply Ht.
Qed.
Lemma track_reported calls l : forall t, reported_tablets calls t -> (forall q md, (q, md) ∈ l -> reported_tablet calls q md) ->
  reported_tablets calls (foldl track_resolved t l).
Proof using Type.
  induction l as [|[q md] l IH]; intros t Ht Hl; simpl; [done|]. apply IH; [|intros q' md' Hx; apply Hl; by right].
  intros k w. unfold track_resolved. simpl. destruct (decide (k = tablet_key md)) as [->|Hne].
  - rewrite lookup_insert. intros [= <-]. simpl. apply Hl. by left.
  - rewrite lookup_insert_ne by done. apply Ht.
Qed.
Lemma init_reported calls l : forall t t', reported_tablets calls t -> init_loaded t l = Ok t' -> reported_tablets calls t'.
Proof using Type.
  induction l as [|[m v] l IH]; intros t t' Ht; simpl; [by intros [= <-]|].
  destruct (t !! tablet_key m) as [w|] eqn:E; simpl; [|done]. apply IH. intros k w'.
  destruct (decide (k = tablet_key m)) as [->|Hne].
  - rewrite lookup_insert. intros [= <-]. simpl. by apply Ht in E.
  - rewrite lookup_insert_ne by done. apply Ht.
Qed.
Lemma hashes_snoc calls call : MetadataSpec.hashes_u32 calls ->
  (forall qs kind, call = MetadataSpec.CallResolve qs kind -> queries_u32 qs) -> MetadataSpec.hashes_u32 (calls ++ [call]).
Proof using Type.
  intros Hc Hq qs kind q h Hin. apply elem_of_app in Hin as [Hin|Hin]; [by eapply Hc|]. apply elem_of_list_singleton in Hin.
  by eapply Hq.
Qed.

Hypothesis results_in_order : MetadataSpec.values_order result_order.
Hypothesis tables_once : NoDup (map fst tables).
Hypothesis tables_u32 : MetadataSpec.sizes_u32 tables.
Lemma find_in {A} (f : A -> bool) l x : List.find f l = Some x -> x ∈ l.
Proof using Type. intros Hf. apply elem_of_list_In. by apply List.find_some in Hf as [? _]. Qed.
Lemma mstep mc taken tx calls s p s' p' : mgood mc taken calls s -> mfine calls p -> process_progress tx s p = Ok (s', p') ->
  exists calls', mbefore calls calls' /\ mgood mc taken calls' s' /\ mfine calls' p'.
Proof using results_in_order tables_once tables_u32.
  intros (Gh & Gu & Ge) Hf Hp. unfold CoordinatorModel.process_progress in Hp. unfold mfine in Hf. unfold mgood, mfine.
  destruct (ps_status p) as [qs|n|h|h| |] eqn:Est.
  - destruct (mc_resolve _ _ _ _) as [c| |] eqn:E; cbn [res_bind] in Hp; [|done..]. injection Hp as <- <-.
    exists (calls ++ [MetadataSpec.CallResolve qs ToSource]). simpl. split_and!.
    + eexists. split; [done|]. done.
    + apply MetadataRequestProofs.history_snoc. eexists. split; [done|]. simpl. by rewrite E.
    + apply hashes_snoc; [done|]. intros qs' kind [= <- <-]. apply Hf.
    + intros ev Hev q md c' set Hx. apply reported_mono. by eapply Ge.
    + apply Hf.
  - destruct (resolve_outcome _ _) as [values|] eqn:Eo; [|injection Hp as <- <-; exists calls; split_and!; try done; [apply mbefore_refl|by rewrite Est]].
    destruct (load_tablets _ _) as [[dc h]| |]; cbn [res_bind] in Hp; [|done..]. injection Hp as <- <-.
    exists calls. simpl. split_and!; [apply mbefore_refl|done|done|done|].
    unfold resolve_outcome in Eo. destruct (List.find _ _) as [[i l]|] eqn:Ef; simpl in Eo; [|done]. injection Eo as <-.
    apply find_in in Ef.
    destruct (MetadataTheorems.C49_delivered_answers_are_sound_partial _ _ _ _ _ _ _ i l results_in_order tables_once tables_u32 Gu Gh) as (qs & Hq & Hl); [done|].
    apply track_reported; [rewrite Hf; intros k w Hk; by rewrite lookup_empty in Hk|]. intros q md Hx. destruct (Hl _ _ Hx) as (R1 & _ & R2).
    split; [done|]. intros h' Hh. by apply R2.
  - destruct (check_result _ _) as [[values| |]|];
      [|injection Hp as <- <-; exists calls; split_and!; try done; apply mbefore_refl..
       |injection Hp as <- <-; exists calls; split_and!; try done; [apply mbefore_refl|by rewrite Est]].
    destruct (init_loaded _ _) as [t| |] eqn:Ei; cbn [res_bind] in Hp; [|done..]. apply (init_reported calls) in Ei; [|done].
    destruct (handle_tablets _ _ _ _) as [[cl outs]| |]; cbn [res_bind] in Hp; [|done..].
    destruct (store_tablets _ _ _ _ _) as [[[dc ms] h']| |] eqn:Est'; cbn [res_bind] in Hp; [|done..]. injection Hp as <- <-.
    exists calls. simpl. split_and!; [apply mbefore_refl|done|done| |done].
    intros ev Hev. apply elem_of_app in Hev as [Hev|Hev]; [by apply Ge|]. apply elem_of_list_singleton in Hev as ->.
    intros q md c set Hx. simpl in Hx. apply elem_of_zip_l in Hx. unfold handler_input in Hx. apply elem_of_list_omap in Hx as (k & _ & Hx).
    destruct (t !! k) as [w|] eqn:Ek; simpl in Hx; [|done]. injection Hx as <- <- _. by eapply Ei.
  - exists calls. destruct (check_result _ _) as [[values| |]|]; injection Hp as <- <-; split_and!; try done; try apply mbefore_refl. by rewrite Est.
  - exists calls. injection Hp as <- <-. split_and!; try done; try apply mbefore_refl. by rewrite Est.
  - exists calls. injection Hp as <- <-. split_and!; try done; try apply mbefore_refl. by rewrite Est.
Qed.

(** ** Answers *)
Lemma complete_updates l : forall o updates, committing_complete l = Ok (o, updates) ->
  forall t md conflict, (t, md, conflict) ∈ updates -> exists i op r, l !! i = Some (op, r) /\ op_table op = t /\
    ((or_status r <> OpSucceeded /\ (or_detail r = Some (CheckResult (Some md)) \/ or_detail r = Some (UpdateResult (Some md)))) \/
     (or_status r = OpSucceeded /\ op_kind_of op = Some (OpUpdate (Some md)))).
Proof using Type.
  induction l as [|[op r] l IH]; intros o updates Hc t md conflict Hin; cbn [committing_complete] in Hc.
  - injection Hc as <- <-. by apply elem_of_nil in Hin.
  - match type of Hc with res_bind ?X _ = _ => destruct X as [us| |] eqn:Eu end; cbn [res_bind] in Hc; [|done..].
    destruct (committing_complete l) as [[o' more]| |] eqn:El; cbn [res_bind] in Hc; [|done..]. injection Hc as <- <-.
    apply elem_of_app in Hin as [Hin|Hin].
    + exists 0%nat, op, r. split; [done|].
      destruct (op_kind_of op) as [[| | |upd|]|] eqn:Ek; [done| |done| |done|done];
        destruct (or_detail r) as [[| |]|] eqn:Ed; try done; case_bool_decide as Hs.
      * injection Eu as <-. by apply elem_of_nil in Hin.
      * destruct existing as [x|]; simpl in Eu; [|done]. injection Eu as <-. apply elem_of_list_singleton in Hin as [= -> -> ->].
        split; [done|]. left. split; [done|]. by left.
      * destruct upd as [x|]; simpl in Eu; [|done]. injection Eu as <-. apply elem_of_list_singleton in Hin as [= -> -> ->].
        split; [done|]. right. done.
      * destruct existing as [x|]; simpl in Eu; [|done]. injection Eu as <-. apply elem_of_list_singleton in Hin as [= -> -> ->].
        split; [done|]. left. split; [done|]. by right.
    + destruct (IH _ _ eq_refl _ _ _ Hin) as (i & op' & r' & Hi & Hrest). by exists (Datatypes.S i), op', r'.
Qed.
Definition update_call (x : string * tablet_metadata * bool) : MetadataSpec.cache_call :=
  let '(t, m, conflict) := x in MetadataSpec.CallUpdate t m conflict.
Lemma updates_history mc taken l : forall calls c, mhistory mc tables calls (mobserved c taken) ->
  mhistory mc tables (calls ++ map update_call l) (mobserved (foldl update_meta c l) taken).
Proof using Type.
  induction l as [|[[t m] b] l IH]; intros calls c Hh; simpl; [by rewrite app_nil_r|].
  replace (calls ++ MetadataSpec.CallUpdate t m b :: map update_call l) with ((calls ++ [MetadataSpec.CallUpdate t m b]) ++ map update_call l)
    by by rewrite <- app_assoc.
  apply IH. apply MetadataRequestProofs.history_snoc. by exists (mobserved c taken).
Qed.
Lemma updates_reports t size l md : md ∈ MetadataSpec.reports t size (map update_call l) -> exists b, (t, md, b) ∈ l.
Proof using Type.
  unfold MetadataSpec.reports. rewrite map_map. intros Hx. apply elem_of_list_In, in_concat in Hx as (x & Hx & Hm).
  apply in_map_iff in Hx as ([[t' m'] b] & <- & Hin). simpl in Hm. destruct (decide (t' = t)) as [->|]; [|done].
  destruct Hm as [->|[]]. exists b. by apply elem_of_list_In.
Qed.
Lemma reports_updates t size l md b : (t, md, b) ∈ l -> md ∈ MetadataSpec.reports t size (map update_call l).
Proof using Type.
  intros Hx. unfold MetadataSpec.reports. rewrite map_map. apply elem_of_list_In, in_concat. exists [md]. split; [|by left].
  apply in_map_iff. exists (t, md, b). split; [|by apply elem_of_list_In]. simpl. by rewrite decide_True.
Qed.
Lemma complete_writes l : forall o updates i op r md, committing_complete l = Ok (o, updates) -> l !! i = Some (op, r) ->
  or_status r = OpSucceeded -> op_kind_of op = Some (OpUpdate (Some md)) -> (op_table op, md, false) ∈ updates.
Proof using Type.
  induction l as [|[op r] l IH]; intros o updates i op' r' md Hc Hi Hs Hk; cbn [committing_complete] in Hc; [done|].
  match type of Hc with res_bind ?X _ = _ => destruct X as [us| |] eqn:Eu end; cbn [res_bind] in Hc; [|done..].
  destruct (committing_complete l) as [[o' more]| |] eqn:El; cbn [res_bind] in Hc; [|done..]. injection Hc as <- <-.
  apply elem_of_app. destruct i as [|i]; simpl in Hi.
  - injection Hi as <- <-. left. rewrite Hk in Eu. destruct (or_detail r) as [[| |]|]; try done.
    rewrite bool_decide_true in Eu by done. simpl in Eu. injection Eu as <-. by left.
  - right. by eapply IH.
Qed.
Lemma response_reports t size rs md : md ∈ MetadataSpec.reports t size [MetadataSpec.CallResponse rs] ->
  exists r from to l, r ∈ rs /\ or_table r = t /\ or_status r = OpSucceeded /\ or_detail r = Some (ListResult from to l) /\ md ∈ l.
Proof using Type.
  unfold MetadataSpec.reports. simpl. rewrite app_nil_r. intros Hx. apply elem_of_list_In, in_concat in Hx as (x & Hx & Hm).
  apply in_map_iff in Hx as (r & <- & Hin). unfold MetadataSpec.result_reports in Hm. destruct (or_detail r) as [[from to l| |]|] eqn:Ed; try done.
  destruct (decide _) as [(H1 & H2 & _)|]; [|done]. exists r, from, to, l. split_and!; try done; by apply elem_of_list_In.
Qed.
Lemma hashes_updates calls l : MetadataSpec.hashes_u32 calls -> MetadataSpec.hashes_u32 (calls ++ map update_call l).
Proof using Type.
  intros Hc qs kind q h Hin. apply elem_of_app in Hin as [Hin|Hin]; [by eapply Hc|].
  apply elem_of_list_fmap in Hin as ([[t m] b] & Hx & _). done.
Qed.
(** The answer used in case of an error never completes a transaction. *)
Lemma error_completes_none co tr (m : manager V H) n r tx ops x : inv co tr m -> mg_errors m !! n = Some r ->
  co_correlations (mg_coordinator m) !! n = Some tx -> co_transactions (mg_coordinator m) !! tx = Some (TxCommitting ops) ->
  executed r <> [] -> committing_complete (zip ops (executed r)) = Ok x -> False.
Proof using Type.
  intros I En F1 F2 F3 F4. destruct x as [o upd].
  destruct (i_committing _ _ _ I _ _ F2) as (n' & a & r1 & b & Ha & -> & Hin).
  destruct (i_correlations _ _ _ I _ _ F1) as (a' & r2 & b' & Ha' & ->).
  assert (commits a = commits a') as Hca.
  { eapply number_determined; [|rewrite <- Ha; exact Ha']. rewrite <- Ha. apply I. }
  assert (number co a' = number co a) as Hnn by (unfold number; by rewrite Hca). rewrite Hnn in *.
  destruct (i_errors _ _ _ I _ _ En) as (ops' & Ho & ->).
  destruct (i_kinds _ _ _ I) as (_ & _ & K3). rewrite Forall_forall in K3. destruct (K3 _ Ho) as [Hl|He]; simpl in *.
  + apply F3. unfold executed, failed_response. simpl. apply filter_all_false. apply Forall_fmap.
    destruct Hl as [_ Hl]. eapply Forall_impl; [exact Hl|]. intros op (f & to & Hk). simpl. unfold is_exec_result, failed_op_result. simpl. by rewrite Hk.
  + assert (ops' = ops) as ->.
    { eapply (commit_request_unique _ _ _ _ _ _ I); [|exact Hin]. rewrite commit_requests_eq by apply I. apply elem_of_app. left.
      apply elem_of_list_In, filter_In. split; [by apply elem_of_list_In|]. simpl. by rewrite exec_request_lists. }
    eapply (failed_complete _ _ _ _ He); [|done|exact F4]. intros ->. done.
Qed.
(** The requests a completing transaction belongs to. *)
Lemma completing_request co tr (m : manager V H) n tx ops : inv co tr m ->
  co_correlations (mg_coordinator m) !! n = Some tx -> co_transactions (mg_coordinator m) !! tx = Some (TxCommitting ops) ->
  (n, ops) ∈ commit_requests tr m.
Proof using Type.
  intros I F1 F2. destruct (i_committing _ _ _ I _ _ F2) as (n' & a & r1 & b & Ha & -> & Hin).
  destruct (i_correlations _ _ _ I _ _ F1) as (a' & r2 & b' & Ha' & ->).
  assert (commits a = commits a') as Hca.
  { eapply number_determined; [|rewrite <- Ha; exact Ha']. rewrite <- Ha. apply I. }
  unfold number in *. by rewrite <- Hca.
Qed.
(** What a response does to the metadata cache. *)
Lemma response_meta mc taken calls (m m' : manager V H) n r : mg_tablets_response result_order m n r = Ok m' ->
  mhistory mc tables calls (mobserved (mg_meta m) taken) ->
  exists lists updates, lists = List.filter is_list_result (rs_results r) /\
    mhistory mc tables (calls ++ match lists with [] => [] | _ => [MetadataSpec.CallResponse lists] end ++ map update_call updates) (mobserved (mg_meta m') taken) /\
    (updates = [] /\ (executed r = [] \/ forall tx ops, co_correlations (mg_coordinator m) !! n = Some tx ->
       co_transactions (mg_coordinator m) !! tx <> Some (TxCommitting ops)) \/
     exists tx ops o, co_correlations (mg_coordinator m) !! n = Some tx /\
       co_transactions (mg_coordinator m) !! tx = Some (TxCommitting ops) /\ executed r <> [] /\
       committing_complete (zip ops (executed r)) = Ok (o, updates)).
Proof using Type.
  unfold mg_tablets_response. fold (executed r). intros Hr Hh. set (lists := List.filter is_list_result (rs_results r)) in *.
  destruct (match lists with [] => Ok (mg_meta m) | _ => _ end) as [c| |] eqn:El; cbn [res_bind] in Hr; [|done..].
  assert (mhistory mc tables (calls ++ match lists with [] => [] | _ => [MetadataSpec.CallResponse lists] end) (mobserved c taken)) as H1.
  { destruct lists as [|x l]; [injection El as <-; by rewrite app_nil_r|]. apply MetadataRequestProofs.history_snoc. eexists. split; [done|].
    unfold MetadataSpec.perform. simpl MetadataSpec.ob_cache. by rewrite El. }
  destruct (executed r) as [|x l] eqn:Ee.
  - cbn [res_bind] in Hr. injection Hr as <-. exists lists, []. split_and!; [done| |left; split; [done|by left]]. simpl. by rewrite app_nil_r.
  - destruct (co_response (mg_coordinator m) c n (x :: l)) as [[c' mc']| |] eqn:Ec; cbn [res_bind] in Hr; [|done..]. injection Hr as <-.
    unfold co_response in Ec. destruct (co_correlations (mg_coordinator m) !! n) as [tx|] eqn:En;
      [|injection Ec as <- <-; exists lists, []; split_and!; [done|simpl; by rewrite app_nil_r|left; split; [done|right; intros; congruence]]].
    destruct (co_transactions (mg_coordinator m) !! tx) as [[ps|ops|out]|] eqn:Et;
      try (injection Ec as <- <-; exists lists, []; split_and!; [done|simpl; by rewrite app_nil_r|left; split; [done|right; intros; congruence]]).
    destruct (committing_complete (zip ops (x :: l))) as [[o updates]| |] eqn:Ecc; cbn [res_bind] in Ec; [|done..]. injection Ec as <- <-.
    exists lists, updates. split_and!; [done| |right; by exists tx, ops, o]. rewrite app_assoc. by apply updates_history.
Qed.

(** ** Histories *)
Record minv (mc : N) (tr : trace) (m : manager V H) (calls : list MetadataSpec.cache_call) (taken : list (N * list tablet_op)) : Prop := {
  mi_history : mhistory mc tables calls (mobserved (mg_meta m) taken);
  mi_hashes : MetadataSpec.hashes_u32 calls;
  mi_told : forall t size md, md ∈ MetadataSpec.reports t size calls -> told tr m t md;
  mi_fine : all_fine mfine calls (co_transactions (mg_coordinator m));
  mi_handled : forall tx ev, ev ∈ handler_calls tr tx -> reported_event calls ev;
}.
Lemma told_mono (tr tr' : trace) (m m' : manager V H) t md : (forall x, x ∈ commit_requests tr m -> x ∈ commit_requests (tr ++ tr') m') ->
  told tr m t md -> told (tr ++ tr') m' t md.
Proof using Type.
  intros Hr. destruct 1.
  - eapply told_listed; [apply elem_of_app; left|..]; done.
  - eapply told_existing; [apply elem_of_app; left; done|by apply Hr|done..].
  - eapply told_written; [apply elem_of_app; left; done|by apply Hr|done..].
Qed.
(** A call that does not touch the metadata cache. *)
Lemma mcall_minv mc co tr (m m' : manager V H) c r s s' calls taken more taken' : inv co tr m -> minv mc tr m calls taken ->
  perform m s c = Ok (m', s', r) ->
  mhistory mc tables (calls ++ more) (mobserved (mg_meta m') taken') -> MetadataSpec.hashes_u32 (calls ++ more) ->
  (forall t size md, md ∈ MetadataSpec.reports t size more -> told (tr ++ [(c, r)]) m' t md) ->
  (forall tx ps p, co_transactions (mg_coordinator m') !! tx = Some (TxPreparing ps) -> p ∈ ps ->
     (exists ps', co_transactions (mg_coordinator m) !! tx = Some (TxPreparing ps') /\ p ∈ ps') \/ mfine (calls ++ more) p) ->
  (forall tx ev, ev ∈ handler_calls [(c, r)] tx -> reported_event (calls ++ more) ev) ->
  minv mc (tr ++ [(c, r)]) m' (calls ++ more) taken'.
Proof using Type.
  intros I [] Hc Hh Hu Ht Htx Hev. constructor; [done|done| | |].
  - intros t size md Hx. rewrite mreports_app in Hx. apply elem_of_app in Hx as [Hx|Hx]; [|by eapply Ht].
    eapply told_mono; [|by eapply mi_told0]. by eapply requests_grow.
  - intros tx ps p Hx Hp. destruct (Htx _ _ _ Hx Hp) as [(ps' & H1 & H2)|Hf]; [|done].
    pose proof (mi_fine0 _ _ _ H1 H2) as Hf. unfold mfine in *. destruct (ps_status p); try done.
    intros k w Hk. apply reported_mono. by eapply Hf.
  - intros tx ev Hx. rewrite handler_calls_app in Hx. apply elem_of_app in Hx as [Hx|Hx]; [|by eapply Hev].
    intros q md c' set Hy. apply reported_mono. by eapply mi_handled0.
Qed.
Lemma mg_call_minv mc co tr m s c m' s' r calls taken : inv co tr m -> minv mc tr m calls taken -> call_u32 c ->
  perform m s c = Ok (m', s', r) -> exists more taken', minv mc (tr ++ [(c, r)]) m' (calls ++ more) taken' /\
    match c with
    | CIn (InOps n resp) => forall tx ops, co_correlations (mg_coordinator m) !! n = Some tx ->
        co_transactions (mg_coordinator m) !! tx = Some (TxCommitting ops) ->
        forall i op res md, ops !! i = Some op -> executed resp !! i = Some res -> or_status res = OpSucceeded ->
          op_kind_of op = Some (OpUpdate (Some md)) -> md ∈ MetadataSpec.reports (op_table op) (MetadataSpec.size_of tables (op_table op)) more
    | _ => True
    end.
Proof using results_in_order tables_once tables_u32.
  intros I MI Hu Hc. pose proof Hc as Hperf.
  destruct c as [evicted|queries| |tx queries h|tx|tx|tx|tx|x|]; cbn [mg_call] in Hc.
  - unfold mg_progress in Hc. destruct (dc_progress entry_order (mg_data m) evicted) as [dc| |]; cbn [res_bind] in Hc; [|done..].
    unfold co_progress in Hc.
    destruct (transactions_progress _ _ _) as [[s1 txs]| |] eqn:Et; cbn [res_bind] in Hc; [|done..]. injection Hc as <- <- <-.
    assert (mgood mc taken (calls ++ [MetadataSpec.CallProgress]) (Shared s (mc_progress region_order table_order (mg_meta m)) dc [])) as Hg.
    { split_and!.
      - apply MetadataRequestProofs.history_snoc. exists (mobserved (mg_meta m) taken). split; [apply MI|done].
      - apply hashes_snoc; [apply MI|done].
      - intros ev Hev. by apply elem_of_nil in Hev. }
    destruct (transactions_lift mbefore (mgood mc taken) mfine mbefore_refl mbefore_trans mfine_mono (mstep mc taken) (tx_order (co_transactions (mg_coordinator m)))
      _ _ (co_transactions (mg_coordinator m)) s1 txs Hg)
      as (calls' & (more & -> & Hmore) & (G1 & G2 & G3) & F); [|exact Et|].
    { intros tx ps p Hx Hp. eapply mfine_mono; [|by eapply (mi_fine _ _ _ _ _ MI)]. eexists. split; [done|]. done. }
    rewrite <- app_assoc in *. exists (MetadataSpec.CallProgress :: more), taken. split; [|done].
    eapply mcall_minv; [exact I|exact MI|exact Hperf|exact G1|exact G2| | |].
    + intros t size md Hx. rewrite (mreports_app _ _ [MetadataSpec.CallProgress] more), Hmore in Hx. by apply elem_of_nil in Hx.
    + intros tx ps p Hx Hp. right. by eapply F.
    + intros tx ev Hx. apply G3. unfold handler_calls in Hx. simpl in Hx. rewrite app_nil_r in Hx.
      apply elem_of_list_In, filter_In in Hx as [Hx _]. by apply elem_of_list_In.
  - unfold mg_resolve in Hc. destruct (mc_resolve _ _ _ _) as [c| |] eqn:E; cbn [res_bind] in Hc; [|done..]. injection Hc as <- <- <-.
    exists [MetadataSpec.CallResolve queries ToHandler], taken. split; [|done]. eapply mcall_minv; [exact I|exact MI|exact Hperf| | | | |].
    + apply MetadataRequestProofs.history_snoc. eexists. split; [apply MI|]. simpl. by rewrite E.
    + apply hashes_snoc; [apply MI|]. by intros qs kind [= <- <-].
    + intros t size md Hx. by apply elem_of_nil in Hx.
    + intros tx ps p Hx Hp. left. by exists ps.
    + intros tx ev Hx. by apply elem_of_nil in Hx.
  - exists [], taken. split; [|done]. injection Hc as <- <- <-. eapply mcall_minv; [exact I|exact MI|exact Hperf| | | | |]; rewrite ?app_nil_r; try apply MI.
    + intros t size md Hx. by apply elem_of_nil in Hx.
    + intros tx ps p Hx Hp. simpl in Hx. left. destruct (decide (tx = co_counter (mg_coordinator m) + 1)) as [->|Hne].
      * rewrite lookup_insert in Hx. injection Hx as <-. by apply elem_of_nil in Hp.
      * rewrite lookup_insert_ne in Hx by done. by exists ps.
    + intros tx ev Hx. by apply elem_of_nil in Hx.
  - exists [], taken. split; [|done]. unfold co_process in Hc. destruct (co_transactions (mg_coordinator m) !! tx) as [[ps| |]|] eqn:Et; cbn [res_bind] in Hc; [|done..].
    injection Hc as <- <- <-. eapply mcall_minv; [exact I|exact MI|exact Hperf| | | | |]; rewrite ?app_nil_r; try apply MI.
    + intros t size md Hx. by apply elem_of_nil in Hx.
    + intros tx' ps' p Hx Hp. simpl in Hx. destruct (decide (tx' = tx)) as [->|Hne].
      * rewrite lookup_insert in Hx. injection Hx as <-. apply elem_of_app in Hp as [Hp|Hp]; [left; by exists ps|].
        apply elem_of_list_singleton in Hp as ->. right. done.
      * rewrite lookup_insert_ne in Hx by done. left. by exists ps'.
    + intros tx' ev Hx. by apply elem_of_nil in Hx.
  - exists [], taken. split; [|done]. destruct (co_pending (mg_coordinator m) tx) as [b| |]; cbn [res_bind] in Hc; [|done..]. injection Hc as <- <- <-.
    eapply mcall_minv; [exact I|exact MI|exact Hperf| | | | |]; rewrite ?app_nil_r; try apply MI.
    + intros t size md Hx. by apply elem_of_nil in Hx.
    + intros tx' ps p Hx Hp. left. by exists ps.
    + intros tx' ev Hx. by apply elem_of_nil in Hx.
  - exists [], taken. split; [|done]. destruct (co_commit tablet_order (mg_coordinator m) tx) as [c'| |] eqn:E; cbn [res_bind] in Hc; [|done..]. injection Hc as <- <- <-.
    apply co_commit_ok in E as (ps & ops & Htx & Ha & Hops & He & ->).
    eapply mcall_minv; [exact I|exact MI|exact Hperf| | | | |]; rewrite ?app_nil_r; try apply MI.
    + intros t size md Hx. by apply elem_of_nil in Hx.
    + intros tx' ps' p Hx Hp. simpl in Hx. destruct (decide (tx' = tx)) as [->|Hne]; [by rewrite lookup_insert in Hx|].
      rewrite lookup_insert_ne in Hx by done. left. by exists ps'.
    + intros tx' ev Hx. by apply elem_of_nil in Hx.
  - exists [], taken. split; [|done]. injection Hc as <- <- <-. eapply mcall_minv; [exact I|exact MI|exact Hperf| | | | |]; rewrite ?app_nil_r; try apply MI.
    + intros t size md Hx. by apply elem_of_nil in Hx.
    + intros tx' ps' p Hx Hp. simpl in Hx. apply lookup_delete_Some in Hx as [_ Hx]. left. by exists ps'.
    + intros tx' ev Hx. by apply elem_of_nil in Hx.
  - exists [], taken. split; [|done]. unfold co_check in Hc.
    destruct (co_transactions (mg_coordinator m) !! tx) as [[ps|ops|out]|] eqn:Ht; cbn [res_bind] in Hc; [done| | |done];
      injection Hc as <- <- <-; (eapply mcall_minv; [exact I|exact MI|exact Hperf| | | | |]; rewrite ?app_nil_r; try apply MI).
    + intros t size md Hx. by apply elem_of_nil in Hx.
    + intros tx' ps' p Hx Hp. simpl in Hx. left. by exists ps'.
    + intros tx' ev Hx. by apply elem_of_nil in Hx.
    + intros t size md Hx. by apply elem_of_nil in Hx.
    + intros tx' ps' p Hx Hp. simpl in Hx. apply lookup_delete_Some in Hx as [_ Hx]. left. by exists ps'.
    + intros tx' ev Hx. by apply elem_of_nil in Hx.
  - destruct (mg_in deserialize result_order m x) as [m1| |] eqn:E; cbn [res_bind] in Hc; [|done..]. injection Hc as <- <- <-.
    destruct x as [d|n resp|n]; simpl in E.
    + exists [], taken. split; [|done]. destruct (dc_process deserialize (mg_data m) d); simpl in E; [|done..]. injection E as <-.
      eapply mcall_minv; [exact I|exact MI|exact Hperf| | | | |]; rewrite ?app_nil_r; try apply MI.
      * intros t size md Hx. by apply elem_of_nil in Hx.
      * intros tx' ps p Hx Hp. left. by exists ps.
      * intros tx' ev Hx. by apply elem_of_nil in Hx.
    + pose proof E as Er. apply (response_meta mc taken calls) in Er as (lists & updates & -> & Hh & Hupd); [|apply MI]. simpl in Hupd.
      set (lists := List.filter is_list_result (rs_results resp)) in *.
      exists (match lists with [] => [] | _ => [MetadataSpec.CallResponse lists] end ++ map update_call updates), taken. split.
      * eapply mcall_minv; [exact I|exact MI|exact Hperf|exact Hh| | | |].
        -- rewrite app_assoc. apply hashes_updates. destruct lists; [rewrite app_nil_r; apply MI|]. apply hashes_snoc; [apply MI|done].
        -- intros t size md Hx. rewrite mreports_app in Hx. apply elem_of_app in Hx as [Hx|Hx].
           ++ assert (md ∈ MetadataSpec.reports t size [MetadataSpec.CallResponse lists]) as Hx' by (destruct lists; [by apply elem_of_nil in Hx|exact Hx]).
              apply response_reports in Hx' as (r & from & to & l & R1 & R2 & R3 & R4 & R5).
              eapply (told_listed _ _ _ n resp RNone r); try done; [apply elem_of_app; right; by left|].
              apply elem_of_list_In. apply elem_of_list_In, filter_In in R1 as [? _]. done.
           ++ apply updates_reports in Hx as [b Hx]. destruct Hupd as [[-> _]|(tx & ops & o & U1 & U2 & U3 & U4)]; [by apply elem_of_nil in Hx|].
              destruct (complete_updates _ _ _ U4 _ _ _ Hx) as (i & op & r & Hi & Hop & Hcase).
              apply lookup_zip_with_Some in Hi as (op' & r' & [= <- <-] & Hi1 & Hi2).
              assert ((n, ops) ∈ commit_requests (tr ++ [(CIn (InOps n resp), RNone)]) m1) as Hin.
              { eapply requests_grow; [exact I|exact Hperf|]. by eapply completing_request. }
              destruct Hcase as [[K1 K2]|[K1 K2]].
              ** eapply (told_existing _ _ _ n resp RNone ops i op r); try done. apply elem_of_app; right; by left.
              ** eapply (told_written _ _ _ n resp RNone ops i op r); try done. apply elem_of_app; right; by left.
        -- intros tx ps p Hx Hp. left. exists ps. split; [|done]. by eapply response_preparing in E; [|exact Hx].
        -- intros tx ev Hx. by apply elem_of_nil in Hx.
      * intros tx ops F1 F2 i op res md Hi Hr Hs Hk.
        assert (executed resp <> []) as Hne by (intros He; by rewrite He in Hr).
        destruct Hupd as [[_ [He|Hx]]|(tx' & ops' & o & U1 & U2 & U3 & U4)]; [done|by eapply Hx in F2|].
        rewrite F1 in U1. injection U1 as <-. rewrite F2 in U2. injection U2 as <-.
        rewrite mreports_app. apply elem_of_app. right. eapply reports_updates.
        eapply complete_writes; [exact U4| |exact Hs|exact Hk]. apply lookup_zip_with_Some. by exists op, res.
    + destruct (mg_errors m !! n) as [resp|] eqn:En.
      2:{ exists [], taken. split; [|done]. injection E as <-. eapply mcall_minv; [exact I|exact MI|exact Hperf| | | | |]; rewrite ?app_nil_r; try apply MI.
          - intros t size md Hx. by apply elem_of_nil in Hx.
          - intros tx' ps p Hx Hp. left. by exists ps.
          - intros tx' ev Hx. by apply elem_of_nil in Hx. }
      pose proof E as Er. apply (response_meta mc taken calls) in Er as (lists & updates & -> & Hh & Hupd); [|apply MI]. simpl in Hupd.
      set (lists := List.filter is_list_result (rs_results resp)) in *.
      exists (match lists with [] => [] | _ => [MetadataSpec.CallResponse lists] end ++ map update_call updates), taken. split; [|done].
      eapply mcall_minv; [exact I|exact MI|exact Hperf|exact Hh| | | |].
      * rewrite app_assoc. apply hashes_updates. destruct lists; [rewrite app_nil_r; apply MI|]. apply hashes_snoc; [apply MI|done].
      * intros t size md Hx. rewrite mreports_app in Hx. apply elem_of_app in Hx as [Hx|Hx].
        -- assert (md ∈ MetadataSpec.reports t size [MetadataSpec.CallResponse lists]) as Hx' by (destruct lists; [by apply elem_of_nil in Hx|exact Hx]).
           apply response_reports in Hx' as (r & from & to & l & R1 & R2 & R3 & R4 & R5).
           apply elem_of_list_In, filter_In in R1 as [R1 _]. destruct (i_errors _ _ _ I _ _ En) as (ops' & Ho & ->).
           simpl in R1. apply in_map_iff in R1 as (op & <- & _). done.
        -- apply updates_reports in Hx as [b Hx]. destruct Hupd as [[-> _]|(tx & ops & o & U1 & U2 & U3 & U4)]; [by apply elem_of_nil in Hx|].
           exfalso. by eapply error_completes_none.
      * intros tx ps p Hx Hp. left. exists ps. split; [|done]. by eapply response_preparing in E; [|exact Hx].
      * intros tx ev Hx. by apply elem_of_nil in Hx.
  - unfold mg_take, co_take, mc_take, dc_take in Hc.
    destruct (record_errors _ _) as [errors| |]; cbn [res_bind] in Hc; [|done..]. injection Hc as <- <- <-.
    exists [MetadataSpec.CallTake], (taken ++ mc_out (mg_meta m)). split; [|done]. eapply mcall_minv; [exact I|exact MI|exact Hperf| | | | |].
    + apply MetadataRequestProofs.history_snoc. eexists. split; [apply MI|done].
    + apply hashes_snoc; [apply MI|done].
    + intros t size md Hx. by apply elem_of_nil in Hx.
    + intros tx ps p Hx Hp. left. by exists ps.
    + intros tx ev Hx. by apply elem_of_nil in Hx.
Qed.
Lemma runs_minv co mc dc client tr m s : runs co mc dc tables client tr m s -> Forall (fun x => call_u32 x.1) tr ->
  exists calls taken, minv mc tr m calls taken.
Proof using results_in_order tables_once tables_u32.
  induction 1 as [m Hi|tr m s c m' s' r Hr IH Hc]; intros Hu.
  - unfold mg_init in Hi. destruct (mc_init _ _) as [c| |] eqn:E; simpl in Hi; [|done..]. injection Hi as <-. exists [], []. constructor; simpl.
    + by exists c.
    + intros qs kind q h Hx. by apply elem_of_nil in Hx.
    + intros t size md Hx. by apply elem_of_nil in Hx.
    + intros tx ps p Hx. simpl in Hx. by rewrite lookup_empty in Hx.
    + intros tx ev Hx. by apply elem_of_nil in Hx.
  - apply Forall_app in Hu as [Hu1 Hu2]. apply Forall_cons in Hu2 as [Hu2 _]. destruct (IH Hu1) as (calls & taken & MI).
    destruct (mg_call_minv mc co tr m s c m' s' r calls taken) as (more & taken' & H1 & _); [by eapply runs_inv|exact MI|exact Hu2|exact Hc|].
    by exists (calls ++ more), taken'.
Qed.
End Caches.
