(** Proofs about the key value store: one batch of requests, and what happens to
    the requests accepted in any history. *)
From Verif Require Import Base ActorModel TabletModel MetadataModel BlobModel CoordinatorModel CoordinatorSpec.
From Verif Require Import KeyvalueModel KeyvalueSpec.

Lemma res_bind_ok {E A B} (r : res E A) (k : A -> res E B) y :
  res_bind r k = Ok y -> exists x, r = Ok x /\ k x = Ok y.
Proof. destruct r; simpl; [eauto|done..]. Qed.

(** * One batch *)
Section Batch.
Variable hash_key : string -> N.
Notation mine q := (fun r => hash_key (kv_key r) ∈ tq_hashes q).

Lemma value_after_app o k l1 l2 : value_after o k (l1 ++ l2) = value_after (value_after o k l1) k l2.
Proof. revert o. induction l1 as [|[]]; intros; simpl; auto. Qed.

Lemma execute_request_spec q d r d' o : execute_request hash_key q d r = (d', o) ->
  (hash_key (kv_key r) ∈ tq_hashes q -> o = Some (right_answer r (d !! kv_key r)) /\
     forall key, d' !! key = value_after (d !! key) key [r]) /\
  (hash_key (kv_key r) ∉ tq_hashes q -> o = None /\ d' = d).
Proof.
  unfold execute_request. destruct decide as [Hm|Hm].
  - destruct r as [n key v|n key]; intros [= <- <-]; (split; [|done]); intros _; simpl.
    + split.
      * do 2 f_equal. apply bool_decide_ext. rewrite <- not_eq_None_Some. done.
      * intros k. destruct decide as [->|]; by rewrite ?lookup_insert, ?lookup_insert_ne by done.
    + split; [|done]. by destruct (d !! key).
  - intros [= <- <-]. done.
Qed.

Lemma execute_all_spec q d l d' updated results kept :
  execute_all hash_key q d l = (d', updated, results, kept) ->
  map fst results = filter (mine q) l /\ kept = filter (fun r => ~ mine q r) l /\
  updated = existsb writes (filter (mine q) l) /\
  right_answers d (map fst results) (map snd results) /\
  forall key, d' !! key = value_after (d !! key) key (map fst results).
Proof.
  revert d d' updated results kept. induction l as [|r l IH]; intros d d' updated results kept; simpl.
  { intros [= <- <- <- <-]. split_and!; auto. split; [done|]. intros i r'. simpl. by rewrite lookup_nil. }
  destruct (execute_request hash_key q d r) as [d1 o] eqn:Hr.
  destruct (execute_all hash_key q d1 l) as [[[d2 u2] r2] k2] eqn:Hl.
  destruct (IH _ _ _ _ _ Hl) as (H1 & H2 & H3 & [H4 H4'] & H5).
  destruct (execute_request_spec _ _ _ _ _ Hr) as [Hy Hn].
  destruct (decide (hash_key (kv_key r) ∈ tq_hashes q)) as [Hm|Hm].
  - destruct (Hy Hm) as [-> Hd]. intros [= <- <- <- <-].
    rewrite !filter_cons. destruct (decide (hash_key (kv_key r) ∈ tq_hashes q)); [|done].
    destruct (decide (~ _)) as [Hc|_]; [done|]. simpl. rewrite H1 in *. split_and!; auto.
    + destruct r; simpl; auto.
    + split; [simpl; lia|]. intros i r' Hi. destruct i as [|i]; simpl in Hi |- *.
      * injection Hi as <-. done.
      * rewrite (H4' _ _ Hi). do 2 f_equal. rewrite Hd. simpl. destruct r; done.
    + intros key. rewrite H5, Hd. simpl. destruct r; done.
  - destruct (Hn Hm) as [-> ->]. intros [= <- <- <- <-].
    rewrite !filter_cons. destruct (decide (hash_key (kv_key r) ∈ tq_hashes q)); [done|].
    destruct (decide (~ _)) as [_|Hc]; [|done]. split_and!; auto. { by rewrite H2. } by split.
Qed.
End Batch.

(** * Where requests are *)
Section Total.
Context {K A B : Type} `{Countable K}.
Variable f : A -> list B.

Definition total (m : gmap K A) : list B := concat (map (fun x => f x.2) (map_to_list m)).
Lemma total_empty : total ∅ = [].
Proof. unfold total. by rewrite map_to_list_empty. Qed.
Lemma concat_perm (l1 l2 : list (list B)) : l1 ≡ₚ l2 -> concat l1 ≡ₚ concat l2.
Proof.
  induction 1; simpl; [done|by f_equiv| |by etrans]. rewrite !(assoc app). by rewrite (comm app x y).
Qed.
Lemma total_fresh m i x : m !! i = None -> total (<[i := x]> m) ≡ₚ f x ++ total m.
Proof.
  intros Hi. unfold total. etrans.
  { apply concat_perm. by rewrite (map_to_list_insert m i x Hi). }
  done.
Qed.
Lemma total_insert m i x : total (<[i := x]> m) ≡ₚ f x ++ total (delete i m).
Proof. rewrite <- insert_delete_insert. apply total_fresh. apply lookup_delete. Qed.
Lemma total_lookup m i x : m !! i = Some x -> total m ≡ₚ f x ++ total (delete i m).
Proof. intros Hi. rewrite <- (insert_id m i x Hi) at 1. apply total_insert. Qed.
Lemma total_delete m i : total (delete i m) ⊆+ total m.
Proof.
  destruct (m !! i) as [x|] eqn:Hi.
  - rewrite (total_lookup m i x Hi). apply submseteq_inserts_l. done.
  - by rewrite delete_notin.
Qed.
Lemma total_insert_sub m i x : total (<[i := x]> m) ⊆+ f x ++ total m.
Proof. rewrite total_insert. apply submseteq_app; [done|apply total_delete]. Qed.
Lemma total_update m i x y : m !! i = Some x -> f y ≡ₚ f x -> total (<[i := y]> m) ≡ₚ total m.
Proof. intros Hi Hf. by rewrite total_insert, (total_lookup m i x Hi), Hf. Qed.
Lemma total_update_sub m i x y : m !! i = Some x -> f y ⊆+ f x -> total (<[i := y]> m) ⊆+ total m.
Proof. intros Hi Hf. rewrite total_insert, (total_lookup m i x Hi). by apply submseteq_app. Qed.
Lemma total_alter m i g : (forall x, f (g x) = f x) -> total (alter g i m) ≡ₚ total m.
Proof.
  intros Hg. destruct (m !! i) as [x|] eqn:Hi.
  - unfold total at 1. rewrite <- (insert_id m i x Hi) at 1. rewrite alter_insert.
    fold (total (<[i := g x]> m)). apply total_update with x; auto. by rewrite Hg.
  - by rewrite alter_id by (intros y; congruence).
Qed.
Lemma elem_of_total m i x b : m !! i = Some x -> b ∈ f x -> b ∈ total m.
Proof. intros Hi Hb. rewrite (total_lookup m i x Hi). set_solver. Qed.
End Total.

Definition pool (m : gmap N (list kv_request)) : list kv_request := total (fun l => l) m.
Definition tracker_requests (t : tablet_tracker) : list kv_request := tk_pending t ++ pool (tk_waiting t).
Definition all_requests (s : kv_store) : list kv_request :=
  st_pending s ++ pool (st_waiting s) ++ total tracker_requests (st_tablets s) ++ total tt_requests (st_txs s).

(** Permutation and inclusion of lists put together. *)
Ltac sub_tac :=
  repeat match goal with |- context [?a ++ ?b ++ ?c] => rewrite (assoc app a b c) end.

Lemma resolved_one_requests s x : all_requests (resolved_one s x) ⊆+ all_requests s.
Proof.
  destruct x as [q i]. unfold all_requests, resolved_one. simpl.
  set (l := match st_waiting s !! q with Some l => l | None => [] end).
  assert (Hl : l ++ pool (delete q (st_waiting s)) ≡ₚ pool (st_waiting s)).
  { subst l. unfold pool. destruct (st_waiting s !! q) eqn:Hq.
    - symmetry. apply (total_lookup (fun l => l) _ q _ Hq).
    - simpl. by rewrite delete_notin. }
  assert (Ht : total tracker_requests (<[i := tracker_append
      (match st_tablets s !! i with Some t => t | None => tracker_create (st_min_process s) end) l]> (st_tablets s))
    ≡ₚ l ++ total tracker_requests (st_tablets s)).
  { rewrite total_insert. destruct (st_tablets s !! i) as [t|] eqn:Hi.
    - rewrite (total_lookup tracker_requests _ i _ Hi). unfold tracker_requests at 1 3. simpl.
      solve_Permutation.
    - unfold tracker_requests at 1. simpl. rewrite (delete_notin _ _ Hi). unfold pool at 1. rewrite total_empty.
      by rewrite app_nil_r. }
  rewrite Ht, <- Hl. apply Permutation_submseteq. solve_Permutation.
Qed.
Lemma resolved_requests s l : all_requests (kv_resolved s l) ⊆+ all_requests s.
Proof.
  revert s. induction l as [|x l IH]; intros s; simpl; [done|]. etrans; [apply IH|apply resolved_one_requests].
Qed.

Lemma foldl_delete_lookup {A} (m : gmap N A) ids i :
  foldl (fun m i => delete i m) m ids !! i = if decide (i ∈ ids) then None else m !! i.
Proof.
  revert m. induction ids as [|j ids IH]; intros m; cbn [foldl].
  { destruct decide as [Hi|]; [|done]. by apply elem_of_nil in Hi. }
  rewrite IH. destruct (decide (i = j)) as [->|].
  - rewrite lookup_delete. repeat destruct decide; try done; set_solver.
  - rewrite lookup_delete_ne by done. repeat destruct decide; try done; set_solver.
Qed.
Lemma filter_perm {A} (P : A -> Prop) `{forall x, Decision (P x)} l : filter P l ++ filter (fun x => ~ P x) l ≡ₚ l.
Proof.
  induction l as [|x l IH]; [done|]. rewrite !filter_cons.
  destruct (decide (P x)); destruct (decide (~ P x)); try tauto; simpl.
  - by rewrite IH.
  - rewrite <- Permutation_middle. by rewrite IH.
Qed.

Section Steps.
Variable hash_key : string -> N.
Variable decode_contents : bytes -> option (gmap string bytes).
Variable encode_contents : gmap string bytes -> bytes.
Variable tracker_order : gmap N tablet_tracker -> list N.
Variable txt_order : gmap N tx_tracker -> list N.

Lemma append_requests s r : all_requests (kv_append s r) ≡ₚ r :: all_requests s.
Proof. unfold all_requests, kv_append. simpl. solve_Permutation. Qed.

Lemma collect_resolve_requests s : all_requests (collect_resolve hash_key s).1 ⊆+ all_requests s.
Proof.
  unfold collect_resolve. destruct (_ <=? _); simpl; [|done]. unfold all_requests. simpl.
  rewrite (assoc_L app (st_pending s)). apply submseteq_app; [|done]. etrans; [apply total_insert_sub|done].
Qed.

Lemma collect_process_requests counter table t t' q : collect_process hash_key counter table t = Some (t', q) ->
  tracker_requests t' ⊆+ tracker_requests t /\ tk_busy t = false /\ tk_busy t' = true.
Proof.
  unfold collect_process. destruct (_ && _) eqn:Hb; [|done]. intros [= <- <-]. simpl.
  apply andb_prop in Hb as [_ Hb%negb_true_iff]. split_and!; auto.
  unfold tracker_requests. simpl. etrans; [apply total_insert_sub|done].
Qed.

Lemma collect_all_requests counter table m ids counter' m' l :
  collect_all hash_key counter table m ids = (counter', m', l) ->
  total tracker_requests m' ⊆+ total tracker_requests m.
Proof.
  revert counter m counter' m' l. induction ids as [|i ids IH]; intros counter m counter' m' l; simpl.
  { by intros [= <- <- <-]. }
  destruct (m !! i ≫= collect_process hash_key counter table) as [[t q]|] eqn:Hi; [|by apply IH].
  apply bind_Some in Hi as (t0 & Hi & Ht).
  destruct (collect_all _ _ _ _ ids) as [[c2 m2] l2] eqn:Hr. intros [= <- <- <-].
  etrans; [by eapply IH|]. apply total_update_sub with t0; auto. by eapply collect_process_requests.
Qed.

Section Context.
Context {C : Type}.
Variable cx : context C.

Lemma resolve_progress_requests s c s' c' : resolve_progress hash_key cx s c = Ok (s', c') ->
  all_requests s' ⊆+ all_requests s /\ st_txs s' = st_txs s /\ st_responses s' = st_responses s /\ st_tablets s' = st_tablets s.
Proof.
  unfold resolve_progress. pose proof (collect_resolve_requests s) as Hc.
  assert (Hs : st_txs (collect_resolve hash_key s).1 = st_txs s /\ st_responses (collect_resolve hash_key s).1 = st_responses s
    /\ st_tablets (collect_resolve hash_key s).1 = st_tablets s).
  { unfold collect_resolve. by destruct (_ <=? _). }
  destruct (collect_resolve hash_key s) as [s1 qs]. simpl in *.
  destruct qs; [intros [= <- <-]; done|]. destruct cx_resolve as [[c1 b]| |]; simpl; [|done..].
  destruct b; [done|]. intros [= <- <-]. done.
Qed.

Lemma start_progress_requests s c s' c' : start_progress hash_key tracker_order cx s c = Ok (s', c') ->
  all_requests s' ⊆+ all_requests s /\ st_responses s' = st_responses s /\
  (forall tx t, st_txs s' !! tx = Some t -> st_txs s !! tx = Some t \/ tt_requests t = [] /\ tt_responses t = [] /\ tt_committed t = false).
Proof.
  unfold start_progress. destruct (collect_all _ _ _ _ _) as [[counter m] l] eqn:Hl.
  pose proof (collect_all_requests _ _ _ _ _ _ _ Hl) as Hm.
  destruct l as [|x l]; [intros [= <- <-]; split_and!; auto|].
  destruct cx_start as [[c1 tx]| |]; simpl; [|done..].
  destruct cx_process as [c2| |]; simpl; [|done..]. intros [= <- <-]. simpl. split_and!; [|done|].
  - unfold all_requests. simpl. do 2 (apply submseteq_app; [done|]).
    apply submseteq_app; [done|]. etrans; [apply total_insert_sub|done].
  - intros i t Ht. apply lookup_insert_Some in Ht as [[<- <-]|[_ ?]]; auto.
Qed.

Lemma commit_progress_requests m c ids m' c' : commit_progress cx m c ids = Ok (m', c') ->
  total tt_requests m' ≡ₚ total tt_requests m /\
  (forall tx t', m' !! tx = Some t' -> exists t, m !! tx = Some t /\ tt_requests t' = tt_requests t /\
     tt_responses t' = tt_responses t /\ tt_tablets t' = tt_tablets t /\ (tt_committed t -> tt_committed t')) /\
  (forall tx, is_Some (m !! tx) -> is_Some (m' !! tx)).
Proof.
  revert m c. induction ids as [|i ids IH]; intros m c; simpl.
  { intros [= <- <-]. split_and!; auto. intros tx t ?. exists t. auto. }
  destruct (m !! i) as [t|] eqn:Hi; [|apply IH]. destruct (tt_committed t) eqn:Ht; [apply IH|].
  destruct cx_pending as [b| |]; simpl; [|done..]. destruct b; [apply IH|].
  destruct cx_commit as [c1| |]; simpl; [|done..]. intros (H1 & H2 & H3)%IH. split_and!.
  - rewrite H1. by apply total_update with t.
  - intros tx t' Hx. destruct (H2 _ _ Hx) as (t1 & Hx1 & He).
    apply lookup_insert_Some in Hx1 as [[<- <-]|[_ Hx1]]; [exists t|exists t1; auto].
    simpl in He. destruct He as (-> & -> & -> & Hcm). split_and!; auto.
  - intros tx Hx. apply H3. apply lookup_insert_is_Some'. auto.
Qed.

Lemma finalize_ext m m' c ids : (forall i, i ∈ ids -> m !! i = m' !! i) ->
  finalize_progress cx m c ids = finalize_progress cx m' c ids.
Proof.
  revert c. induction ids as [|i ids IH]; intros c Hm; simpl; [done|].
  assert (Hids : forall c, finalize_progress cx m c ids = finalize_progress cx m' c ids)
    by (intros c1; apply IH; intros j Hj; apply Hm; set_solver).
  rewrite (Hm i) by set_solver. destruct (m' !! i) as [t|]; [|done]. destruct (tt_committed t); [|done].
  destruct cx_check as [[c1 o]| |]; simpl; [|done..]. by rewrite Hids.
Qed.

(** The transactions completed, with their outcomes. *)
Lemma finalize_spec m c ids completed tablets responses c' : NoDup ids ->
  finalize_progress cx m c ids = Ok (completed, tablets, responses, c') ->
  exists l : list (N * tx_tracker * tx_outcome),
    completed = map (fun x => x.1.1) l /\ NoDup completed /\ (forall i, i ∈ completed -> i ∈ ids) /\
    Forall (fun x => m !! x.1.1 = Some x.1.2 /\ tt_committed x.1.2) l /\
    tablets = concat (map (fun x => tt_tablets x.1.2) l) /\
    responses = concat (map (fun x => match x.2 with TxSucceeded => tt_responses x.1.2 | TxFailed => [] end) l).
Proof.
  intros Hnd. revert c completed tablets responses c'.
  induction Hnd as [|i ids Hi Hnd IH]; intros c completed tablets responses c'; simpl.
  { intros [= <- <- <- <-]. exists []. split_and!; auto using NoDup_nil_2. }
  assert (Hskip : finalize_progress cx m c ids = Ok (completed, tablets, responses, c') ->
    exists l : list (N * tx_tracker * tx_outcome),
    completed = map (fun x => x.1.1) l /\ NoDup completed /\ (forall j, j ∈ completed -> j ∈ i :: ids) /\
    Forall (fun x => m !! x.1.1 = Some x.1.2 /\ tt_committed x.1.2) l /\
    tablets = concat (map (fun x => tt_tablets x.1.2) l) /\
    responses = concat (map (fun x => match x.2 with TxSucceeded => tt_responses x.1.2 | TxFailed => [] end) l)).
  { intros (l & ? & ? & Hin & ?)%IH. exists l. split_and!; try done; try naive_solver. set_solver. }
  destruct (m !! i) as [t|] eqn:Hm; [|done]. destruct (tt_committed t) eqn:Ht; [|done].
  destruct cx_check as [[c1 o]| |]; simpl; [|done..].
  destruct (finalize_progress cx m c1 ids) as [[[[cs ts] rs] c2]| |] eqn:Hf; simpl; [|done..].
  destruct (IH _ _ _ _ _ Hf) as (l & H1 & H2 & H3 & H4 & H5 & H6).
  destruct o as [o|]; intros [= <- <- <- <-].
  - exists ((i, t, o) :: l). simpl. rewrite H1, H5, H6 in *. split_and!; [done| | | |done|by destruct o].
    + constructor; auto.
    + set_solver.
    + constructor; [|done]. simpl. by rewrite Ht.
  - exists l. split_and!; try done. set_solver.
Qed.

(** Requests of completed transactions leave the store. *)
Lemma completed_requests (m : gmap N tx_tracker) (l : list (N * tx_tracker * tx_outcome)) : NoDup (map (fun x => x.1.1) l) ->
  Forall (fun x => m !! x.1.1 = Some x.1.2 /\ tt_committed x.1.2) l ->
  total tt_requests m ≡ₚ concat (map (fun x => tt_requests x.1.2) l) ++
    total tt_requests (foldl (fun m i => delete i m) m (map (fun x => x.1.1) l)).
Proof.
  revert m. induction l as [|[[i t] o] l IH]; intros m; simpl; [done|].
  intros [Hi Hnd]%NoDup_cons [[Hm _] Hl]%Forall_cons. simpl in *.
  rewrite (total_lookup _ _ _ _ Hm). rewrite (IH (delete i m)); auto.
  - solve_Permutation.
  - eapply Forall_impl; [apply Forall_and; split; [exact Hl|]|].
    + apply Forall_forall. intros x Hx. exact (elem_of_list_fmap_1 (fun x => x.1.1) _ _ Hx).
    + intros x [[Hx Hc] He]. split; [|done]. rewrite lookup_delete_ne; [done|].
      intros ->. apply Hi. apply He.
Qed.
End Context.

(** The process handler. *)
Lemma process_query_spec t q o t' results set : process_query hash_key decode_contents encode_contents t q o = Ok (t', results, set) ->
  exists bs d, o = Some bs /\ decode_contents bs = Some d /\
    (results = [] /\ set = None /\ t' = t /\ tk_waiting t !! tq_id q = None \/
     exists l d', tk_waiting t !! tq_id q = Some l /\
       map fst results = filter (fun r => hash_key (kv_key r) ∈ tq_hashes q) l /\
       t' = TabletTracker (tk_min t) (tk_busy t) (tk_pending t)
              (<[tq_id q := filter (fun r => ~ hash_key (kv_key r) ∈ tq_hashes q) l]> (tk_waiting t)) /\
       set = (if existsb writes (map fst results) then Some (encode_contents d') else None) /\
       (forall key, d' !! key = value_after (d !! key) key (map fst results)) /\
       right_answers d (map fst results) (map snd results)).
Proof.
  unfold process_query. destruct o as [bs|]; simpl; [|done].
  destruct (decode_contents bs) as [d|] eqn:Hd; simpl; [|done]. intros Hr. exists bs, d. split_and!; auto.
  destruct (tk_waiting t !! tq_id q) as [l|] eqn:Hw; [right|left; injection Hr as <- <- <-; auto].
  destruct (execute_all hash_key q d l) as [[[d' u] done] kept] eqn:He.
  destruct (execute_all_spec _ _ _ _ _ _ _ _ He) as (H1 & H2 & H3 & H4 & H5).
  injection Hr as <- <- <-. exists l, d'. split_and!; auto; [by rewrite H2|by rewrite H3, H1].
Qed.
Lemma process_query_requests t q o t' results set :
  process_query hash_key decode_contents encode_contents t q o = Ok (t', results, set) ->
  tracker_requests t ≡ₚ map fst results ++ tracker_requests t'.
Proof.
  intros Hp. destruct (process_query_spec _ _ _ _ _ _ Hp) as (bs & d & -> & Hd & [(-> & _ & -> & _)|Hr]); [done|].
  destruct Hr as (l & d' & Hw & Hf & -> & _). unfold tracker_requests. simpl. unfold pool.
  rewrite total_insert, (total_lookup (fun l => l) _ _ _ Hw), Hf.
  rewrite <- (filter_perm (fun r => hash_key (kv_key r) ∈ tq_hashes q) l) at 1. solve_Permutation.
Qed.

Definition pairs_of (tx : tx_tracker) : list (kv_request * kv_response) := zip (tt_requests tx) (tt_responses tx).

Lemma process_all_spec m tx l m' tx' outs :
  process_all hash_key decode_contents encode_contents m tx l = Ok (m', tx', outs) ->
  exists results : list (kv_request * kv_response),
    tx' = txt_append tx results /\ length outs = length l /\
    total tracker_requests m ≡ₚ map fst results ++ total tracker_requests m' /\
    Forall (fun x => forall t, executed_by hash_key decode_contents encode_contents (total tracker_requests m)
                                 (EvProcess t l outs) t x.1 x.2) results.
Proof.
  clear tracker_order txt_order.
  revert m tx m' tx' outs. induction l as [|[[q md] o] l IH]; intros m tx m' tx' outs; simpl.
  { intros [= <- <- <-]. exists []. split_and!; auto. destruct tx; unfold txt_append; simpl. by rewrite !app_nil_r. }
  assert (Hmono : forall e (y : option bytes) (m m2 : gmap N tablet_tracker) (outs : list (option bytes)) (results : list (kv_request * kv_response)),
    total tracker_requests m2 ⊆+ total tracker_requests m ->
    Forall (fun x => forall t, executed_by hash_key decode_contents encode_contents (total tracker_requests m2) (EvProcess t l outs) t x.1 x.2) results ->
    Forall (fun x => forall t, executed_by hash_key decode_contents encode_contents (total tracker_requests m) (EvProcess t (e :: l) (y :: outs)) t x.1 x.2) results).
  { intros e y m1 m2 outs1 results Hsub Hf. eapply Forall_impl; [apply Hf|]. intros x Hx t. specialize (Hx t).
    destruct Hx as (tablets & set & k & q' & md' & bs & d & l' & answers & d' & i & [= <- <-] & H1 & H2 & H3 & H4 & H5 & H6 & H7 & H8 & H9).
    exists (e :: l), (y :: outs1), (S k), q', md', bs, d, l', answers, d', i.
    split; [done|]. split; [exact H1|]. split; [done|]. split; [by etrans|]. by split_and!. }
  destruct (m !! tm_id md) as [t|] eqn:Hm.
  - destruct (process_query _ _ _ t q o) as [[[t1 r1] set1]| |] eqn:Hp; simpl; [|done..].
    destruct (process_all _ _ _ _ _ l) as [[[m2 tx2] o2]| |] eqn:Hl; simpl; [|done..]. intros [= <- <- <-].
    destruct (IH _ _ _ _ _ Hl) as (results & -> & H2 & H3 & H4).
    assert (Htot : total tracker_requests m ≡ₚ map fst r1 ++ total tracker_requests (<[tm_id md := t1]> m)).
    { by rewrite (total_lookup _ _ _ _ Hm), (process_query_requests _ _ _ _ _ _ Hp), <- (assoc app), <- total_insert. }
    exists (r1 ++ results). split_and!.
    + unfold txt_append. simpl. by rewrite !map_app, !(assoc app).
    + simpl. by rewrite H2.
    + by rewrite Htot, H3, map_app, (assoc app).
    + apply Forall_app. split; [|eapply Hmono; [|exact H4]; rewrite Htot; by apply submseteq_inserts_l].
      destruct (process_query_spec _ _ _ _ _ _ Hp) as (bs & d & -> & Hd & [(-> & _)|Hr]); [by constructor|].
      destruct Hr as (lw & d' & Hw & Hf & _ & Hset & Hd' & Hans). apply Forall_lookup. intros i [r a] Hi tx0.
      assert (Hi1 : map fst r1 !! i = Some r) by (rewrite list_lookup_fmap, Hi; done).
      assert (Hi2 : map snd r1 !! i = Some a) by (rewrite list_lookup_fmap, Hi; done).
      exists ((q, md, Some bs) :: l), (set1 :: o2), 0%nat, q, md, bs, d, (map fst r1), (map snd r1), d', i.
      split_and!; [done|done|done| | |done|done|done|done|by rewrite Hset].
      * rewrite Htot. by apply submseteq_inserts_r.
      * rewrite Hf. apply Forall_forall. intros x [? _]%elem_of_list_filter. done.
  - destruct (process_all _ _ _ _ _ l) as [[[m2 tx2] o2]| |] eqn:Hl; simpl; [|done..]. intros [= <- <- <-].
    destruct (IH _ _ _ _ _ Hl) as (results & -> & H2 & H3 & H4).
    exists results. split_and!; auto; [simpl; by rewrite H2|]. by eapply Hmono.
Qed.
End Steps.
