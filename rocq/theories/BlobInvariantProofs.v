(** The invariant of the tablet data cache holds along every history. *)
From Verif Require Import Base TabletModel BlobModel BlobSpec BlobProofs BlobHistoryProofs.
Local Arguments N.sub : simpl never.
Local Arguments N.add : simpl never.
Local Arguments N.eqb : simpl never.

Section Blob.
Context {V : Type}.
Variable serialize : V -> option bytes.
Variable deserialize : bytes -> option V.

Notation answers := (list (data_out * data_in)).
Notation entry_good := (entry_good serialize deserialize).
Notation batch_good := (batch_good serialize deserialize).
Notation ready_good := (ready_good serialize deserialize).
Notation core_inv := (core_inv serialize deserialize).

(** * Storing *)
Lemma store_entries_inv l : forall c o a H c',
  core_inv c o a H -> Forall (fun x => serialize x.1.2 = Some x.2) l -> store_entries c l = Ok c' ->
  exists new, core_inv c' (o ++ new) a H /\ dc_out c' = dc_out c ++ new /\
    (forall q, q ∈ new -> dc_correlation c < request_id q) /\ dc_correlation c <= dc_correlation c' /\
    NoDup (map request_id new) /\ dc_results c' = dc_results c /\
    dc_counter c' = dc_counter c /\
    (forall x, x ∈ l -> exists e, dc_entries c' !! tm_uri x.1.1 = Some e /\ exists v, en_state e = EntryStore v) /\
    (forall k e, dc_entries c !! k = Some e -> dc_entries c' !! k = Some e).
Proof using Type.
  induction l as [|[[m v] cs] l IH]; intros c o a H c' I Hl Hs; simpl in Hs.
  - injection Hs as <-. exists []. rewrite !app_nil_r. split_and!; try done; try (by apply NoDup_nil); set_solver.
  - apply Forall_cons in Hl as [Hv Hl]. simpl in Hv. destruct (dc_entries c !! tm_uri m) eqn:E; [done|].
    assert (core_inv (DataCache (dc_correlation c + 1) (dc_counter c)
        (<[tm_uri m := Entry m (EntryStore v) []]> (dc_entries c)) (dc_batches c)
        (<[dc_correlation c + 1 := tm_uri m]> (dc_operations c))
        (dc_out c ++ [StoreRequest (dc_correlation c + 1) (tm_uri m) cs]) (dc_results c))
        (o ++ [StoreRequest (dc_correlation c + 1) (tm_uri m) cs]) a H) as I1.
    { apply new_entry_inv; try done.
      - split; [done|]. simpl. exists (dc_correlation c + 1), cs. split; [set_solver|done].
      - simpl. by exists v. }
    destruct (IH _ _ _ _ _ I1 Hl Hs) as (n2 & B1 & B2 & B3 & B4 & B5 & B6 & B7 & B8 & B9). simpl in *.
    exists (StoreRequest (dc_correlation c + 1) (tm_uri m) cs :: n2). split_and!.
    + by rewrite <- app_assoc in B1.
    + by rewrite <- app_assoc in B2.
    + intros q Hq. apply elem_of_cons in Hq as [->|Hq]; [simpl; lia|]. specialize (B3 q Hq). lia.
    + lia.
    + simpl. constructor; [|done]. intros Hn. apply elem_of_list_fmap in Hn as (q & Hn & Hq). specialize (B3 q Hq). lia.
    + done.
    + done.
    + intros x Hx. apply elem_of_cons in Hx as [->|Hx]; [|by apply B8]. simpl.
      eexists. split; [apply B9, lookup_insert|]. by exists v.
    + intros k e He. apply B9. rewrite lookup_insert_ne; [done|congruence].
Qed.

Lemma prepare_all_ok sha256 base64 (l : list (tablet_metadata * V)) : forall ms cs,
  prepare_all serialize sha256 base64 l = Ok (ms, Some cs) ->
  length ms = length l /\ length cs = length l /\ Forall (fun x => serialize x.1.2 = Some x.2) (zip (zip ms (map snd l)) cs).
Proof using Type.
  induction l as [|[m v] l IH]; intros ms cs Hp; simpl in Hp.
  - injection Hp as <- <-. split_and!; [done|done|constructor].
  - unfold prepare_write in Hp. destruct (serialize v) as [c|] eqn:E.
    + destruct (tm_version m =? u32_max); [done|]. cbn [res_bind] in Hp.
      destruct (prepare_all serialize sha256 base64 l) as [[ms' [cs'|]]| |] eqn:E1; cbn [res_bind] in Hp; try done.
      injection Hp as <- <-. destruct (IH _ _ eq_refl) as (A & B & C). simpl. split_and!; [by f_equal|by f_equal|].
      constructor; [done|]. done.
    + cbn [res_bind] in Hp. done.
Qed.

(** * Progress *)
Lemma notify_batches_good a (H : list (asked * handle)) k (e : entry V) l : forall batches results (other : N -> list string),
  (forall q i, (q, HandleBatch i) ∈ H ->
     batch_good a q (keys_of q) (batches !! i) (results !! i) (map (fun _ => k) (filter (fun j => j = i) l) ++ other i)) ->
  (forall i, i ∈ l -> exists q, (q, HandleBatch i) ∈ H) ->
  (forall q i, (q, HandleBatch i) ∈ H -> i ∈ l -> ready_good a q k e) ->
  exists batches' results', notify_batches batches results e l = Ok (batches', results') /\
    (forall q i, (q, HandleBatch i) ∈ H -> batch_good a q (keys_of q) (batches' !! i) (results' !! i) (other i)) /\
    (forall i, (forall q, (q, HandleBatch i) ∉ H) -> batches' !! i = batches !! i /\ results' !! i = results !! i).
Proof using Type.
  induction l as [|i l IH]; intros batches results other Hb Hin Hr.
  - eexists _, _. split; [done|]. done.
  - destruct (Hin i) as [q0 Hq0]; [by left|].
    pose proof (Hb q0 i Hq0) as Hb0. rewrite filter_cons_True in Hb0 by done. simpl in Hb0.
    destruct (batches !! i) as [b|] eqn:Ebi; [|by destruct Hb0 as (_ & _ & _ & ?)].
    destruct (resolve_good serialize deserialize a q0 (keys_of q0) i b results k e _ Hb0) as (b' & results' & R1 & R2 & R3).
    { apply (Hr q0 i); [done|by left]. }
    simpl. rewrite Ebi. cbn [unwrap res_bind]. rewrite R1. cbn [res_bind].
    destruct (IH (<[i := b']> batches) results' other) as (bs & rs & N1 & N2 & N3).
    + intros q j Hq. destruct (decide (i = j)) as [<-|n].
      * rewrite lookup_insert. pose proof (Hb q i Hq) as Hb1. rewrite filter_cons_True, Ebi in Hb1 by done. simpl in Hb1.
        destruct (resolve_good serialize deserialize a q (keys_of q) i b results k e _ Hb1) as (b1 & r1 & S1 & S2 & S3).
        { apply (Hr q i); [done|by left]. }
        rewrite R1 in S1. injection S1 as <- <-. done.
      * rewrite lookup_insert_ne by done. rewrite R3 by done. pose proof (Hb q j Hq) as Hb1.
        by rewrite filter_cons_False in Hb1 by done.
    + intros j Hj. apply Hin. by right.
    + intros q j Hq Hj. eapply Hr; [done|by right].
    + eexists _, _. split; [exact N1|]. split; [done|]. intros j Hj. destruct (N3 j Hj) as [A B].
      assert (i <> j) as Hne. { intros <-. by apply (Hj q0). }
      by rewrite A, B, lookup_insert_ne, R3 by done.
Qed.

Notation is_pending x := (entry_ready x.2 = false).
Lemma notify_entries_good a (H : list (asked * handle)) (L : list (string * entry V)) : forall batches results (other : N -> list string),
  (forall q i, (q, HandleBatch i) ∈ H ->
     batch_good a q (keys_of q) (batches !! i) (results !! i) ((L ≫= waits_of i) ++ other i)) ->
  (forall k e i, (k, e) ∈ L -> i ∈ en_waiting e -> exists q, (q, HandleBatch i) ∈ H) ->
  (forall k e q i, (k, e) ∈ L -> entry_ready e = true -> (q, HandleBatch i) ∈ H -> i ∈ en_waiting e -> ready_good a q k e) ->
  exists batches' results', notify_entries batches results L = Ok (batches', results') /\
    (forall q i, (q, HandleBatch i) ∈ H ->
       batch_good a q (keys_of q) (batches' !! i) (results' !! i) ((filter (fun x : string * entry V => is_pending x) L ≫= waits_of i) ++ other i)) /\
    (forall i, (forall q, (q, HandleBatch i) ∉ H) -> batches' !! i = batches !! i /\ results' !! i = results !! i).
Proof using Type.
  induction L as [|[k e] L IH]; intros batches results other Hb Hin Hr.
  - eexists _, _. split; [done|]. done.
  - simpl notify_entries. unfold taken_batches. destruct (entry_ready e) eqn:Er.
    + destruct (notify_batches_good a H k e (en_waiting e) batches results (fun i => (L ≫= waits_of i) ++ other i))
        as (b1 & r1 & N1 & N2 & N3).
      * intros q i Hq. pose proof (Hb q i Hq) as Hb1. rewrite bind_cons, <- app_assoc in Hb1. exact Hb1.
      * intros i Hi. eapply Hin; [by left|done].
      * intros q i Hq Hi. eapply Hr; [by left|done..].
      * rewrite N1. cbn [res_bind].
        destruct (IH b1 r1 other) as (bs & rs & M1 & M2 & M3); [done| | |].
        { intros k' e' i Hx. eapply Hin. right. exact Hx. }
        { intros k' e' q i Hx. eapply Hr. right. exact Hx. }
        eexists _, _. split; [exact M1|]. split.
        -- intros q i Hq. rewrite filter_cons_False; [by apply M2|]. simpl. by rewrite Er.
        -- intros i Hi. destruct (M3 i Hi) as [-> ->]. by apply N3.
    + simpl notify_batches. cbn [res_bind].
      destruct (IH batches results (fun i => waits_of i (k, e) ++ other i)) as (bs & rs & M1 & M2 & M3).
      * intros q i Hq. pose proof (Hb q i Hq) as Hb1. rewrite bind_cons in Hb1. eapply batch_good_perm; [|exact Hb1].
        rewrite (Permutation_app_comm (waits_of i (k, e))), <- app_assoc. done.
      * intros k' e' i Hx. eapply Hin. right. exact Hx.
      * intros k' e' q i Hx. eapply Hr. right. exact Hx.
      * eexists _, _. split; [exact M1|]. split; [|done].
        intros q i Hq. rewrite filter_cons_True by (simpl; by rewrite Er). rewrite bind_cons.
        eapply batch_good_perm; [|exact (M2 q i Hq)]. rewrite app_assoc.
        by rewrite (Permutation_app_comm _ (waits_of i (k, e))).
Qed.

(** What is left waiting. *)
Lemma take_waits (m : gmap string (entry V)) L i :
  L ≡ₚ map_to_list m -> waits (entry_take <$> m) i ≡ₚ filter (fun x : string * entry V => is_pending x) L ≫= waits_of i.
Proof using Type.
  intros HL. transitivity (filter (fun x : string * entry V => is_pending x) (map_to_list m) ≫= waits_of i); [|by rewrite HL].
  clear L HL. unfold waits. rewrite map_to_list_fmap.
  generalize (map_to_list m) as L. induction L as [|[k e] L IH]; [done|].
  rewrite fmap_cons, bind_cons. destruct (entry_ready e) eqn:Er.
  - rewrite filter_cons_False by (simpl; by rewrite Er). rewrite <- IH.
    unfold waits_of at 1. simpl. unfold entry_take. rewrite Er. done.
  - rewrite filter_cons_True by (simpl; by rewrite Er). rewrite bind_cons, <- IH.
    simpl. unfold entry_take. rewrite Er. done.
Qed.
(** Dropping entries that nothing waits for. *)
Lemma delete_waits (m : gmap string (entry V)) k i :
  (forall e, m !! k = Some e -> en_waiting e = []) -> waits (delete k m) i ≡ₚ waits m i.
Proof using Type.
  intros Hm. destruct (m !! k) as [e|] eqn:E; [|by rewrite delete_notin].
  rewrite (waits_lookup m k e i E). unfold waits_of. simpl. by rewrite Hm.
Qed.
Lemma filter_waits (P : string * entry V -> Prop) `{!forall x, Decision (P x)} (m : gmap string (entry V)) i :
  (forall k e, m !! k = Some e -> ~ P (k, e) -> en_waiting e = []) -> waits (filter P m) i ≡ₚ waits m i.
Proof using Type.
  induction m as [|k e m Hk IH] using map_ind; intros Hm; [done|].
  assert (waits (filter P m) i ≡ₚ waits m i) as Hi.
  { apply IH. intros k' e' He'. apply Hm. rewrite lookup_insert_ne; [done|congruence]. }
  destruct (decide (P (k, e))).
  - rewrite map_filter_insert_True by done. rewrite !waits_fresh; [by rewrite Hi|done|].
    apply map_filter_lookup_None. by left.
  - rewrite map_filter_insert_False by done.
    rewrite delete_notin by done. rewrite waits_fresh by done. unfold waits_of. simpl.
    rewrite (Hm k e); [by rewrite Hi|by rewrite lookup_insert|done].
Qed.

Global Instance handle_eq_dec : EqDecision handle.
Proof. solve_decision. Defined.
Lemma logged_dec (H : list (asked * handle)) i :
  (exists q, (q, HandleBatch i) ∈ H) \/ (forall q, (q, HandleBatch i) ∉ H).
Proof using Type.
  destruct (decide (HandleBatch i ∈ map snd H)) as [Hi|Hi].
  - left. apply elem_of_list_fmap in Hi as ([q h] & Hx & Hi). simpl in Hx. subst h. by exists q.
  - right. intros q Hq. apply Hi. apply elem_of_list_fmap. by exists (q, HandleBatch i).
Qed.

Lemma evict_lookup (evicted : list string) : forall (m : gmap string (entry V)) k,
  foldl (fun m k => delete k m) m evicted !! k = if decide (k ∈ evicted) then None else m !! k.
Proof using Type.
  induction evicted as [|x l IH]; intros m k; cbn [foldl].
  - rewrite decide_False; [done|set_solver].
  - rewrite IH. destruct (decide (k ∈ l)) as [H1|H1].
    + rewrite decide_True; [done|by right].
    + destruct (decide (x = k)) as [->|n].
      * rewrite lookup_delete, decide_True; [done|by left].
      * rewrite lookup_delete_ne by done. rewrite decide_False; [done|]. intros [->|]%elem_of_cons; done.
Qed.
Lemma evict_waits (evicted : list string) i : forall (m : gmap string (entry V)),
  (forall k e, k ∈ evicted -> m !! k = Some e -> en_waiting e = []) ->
  waits (foldl (fun m k => delete k m) m evicted) i ≡ₚ waits m i.
Proof using Type.
  induction evicted as [|x l IH]; intros m Hm; simpl; [done|]. rewrite IH.
  - apply delete_waits. intros e. apply Hm. by left.
  - intros k e Hk He. apply lookup_delete_Some in He as [_ He]. eapply Hm; [by right|done].
Qed.

Variable entry_order : gmap string (entry V) -> list (string * entry V).
Hypothesis Horder : entries_order entry_order.

Lemma entry_take_meta (e : entry V) : en_meta (entry_take e) = en_meta e.
Proof using Type. unfold entry_take. by destruct (entry_ready e). Qed.
Lemma entry_take_state (e : entry V) : en_state (entry_take e) = en_state e.
Proof using Type. unfold entry_take. by destruct (entry_ready e). Qed.

Lemma progress_inv c o a H evicted :
  core_inv c o a H -> (forall k, k ∈ evicted -> k ∉ map request_uri o) ->
  exists c', dc_progress entry_order c evicted = Ok c' /\ core_inv c' o a H /\
    dc_correlation c' = dc_correlation c /\ dc_out c' = dc_out c /\
    (forall k e, dc_entries c' !! k = Some e -> entry_ready e = true -> en_waiting e = []).
Proof using Horder.
  intros I Hev. unfold dc_progress.
  pose proof (Horder (dc_entries c)) as HL.
  assert (forall k e, (k, e) ∈ entry_order (dc_entries c) -> dc_entries c !! k = Some e) as Hin.
  { intros k e Hk. rewrite HL in Hk. by apply elem_of_map_to_list. }
  destruct (notify_entries_good a H (entry_order (dc_entries c)) (dc_batches c) (dc_results c) (fun _ => []))
    as (bs & rs & N1 & N2 & N3).
  - intros q i Hq. rewrite app_nil_r. destruct (ci_batches _ _ _ _ _ _ I q i Hq) as [Hb _].
    eapply batch_good_perm; [|exact Hb]. unfold waits. by rewrite HL.
  - intros k e i Hk Hi. destruct (logged_dec H i) as [?|Hno]; [done|]. exfalso.
    destruct (ci_others _ _ _ _ _ _ I i Hno) as (_ & _ & Hw).
    assert (k ∈ waits (dc_entries c) i) as Hx by (apply elem_of_waits; exists e; auto). rewrite Hw in Hx. by apply elem_of_nil in Hx.
  - intros k e q i Hk Hr Hq Hi. specialize (Hin k e Hk). pose proof (ci_entries _ _ _ _ _ _ I k e Hin) as [A B].
    split; [done|]. unfold entry_ready in Hr. destruct (en_state e) eqn:Es; try done.
    + split; [by apply B|]. intros Hl. pose proof (ci_stores _ _ _ _ _ _ I q i k e Hq Hl Hin Hi) as Hs. by rewrite Es in Hs.
    + by apply B.
  - rewrite N1. cbn [res_bind]. eexists. split; [done|].
    set (m1 := entry_take <$> dc_entries c).
    set (m2 := filter (fun x : string * entry V => entry_failed x.2 = false) m1).
    set (m3 := foldl (fun m k => delete k m) m2 evicted).
    assert (forall k e', m1 !! k = Some e' -> exists e, dc_entries c !! k = Some e /\ e' = entry_take e) as Hm1.
    { intros k e' He'. unfold m1 in He'. rewrite lookup_fmap in He'. destruct (dc_entries c !! k) as [e|]; [|done].
      simpl in He'. injection He' as <-. by exists e. }
    assert (forall k e', m1 !! k = Some e' -> entry_ready e' = true -> en_waiting e' = []) as Hm1r.
    { intros k e' He' Hr. destruct (Hm1 k e' He') as (e & He & ->). unfold entry_take in *.
      destruct (entry_ready e) eqn:Er; [done|]. congruence. }
    assert (forall k e', m2 !! k = Some e' -> m1 !! k = Some e' /\ entry_failed e' = false) as Hm2.
    { intros k e' He'. by apply map_filter_lookup_Some in He'. }
    assert (forall k e', m3 !! k = Some e' -> m2 !! k = Some e' /\ k ∉ evicted) as Hm3.
    { intros k e' He'. unfold m3 in He'. rewrite evict_lookup in He'. by destruct (decide (k ∈ evicted)). }
    assert (forall k e', m3 !! k = Some e' -> exists e, dc_entries c !! k = Some e /\ e' = entry_take e) as Hm31.
    { intros k e' He'. apply Hm1. by apply Hm2, Hm3. }
    assert (forall i, waits m3 i ≡ₚ filter (fun x : string * entry V => is_pending x) (entry_order (dc_entries c)) ≫= waits_of i) as Hw.
    { intros i. rewrite <- (take_waits (dc_entries c) _ i HL). unfold m3. rewrite evict_waits.
      - unfold m2. apply filter_waits. intros k e He Hf. apply (Hm1r k e He). simpl in Hf.
        unfold entry_ready, entry_failed in *. by destruct (en_state e).
      - intros k e Hk He. apply Hm2 in He as [He _]. destruct (entry_ready e) eqn:Er; [by apply (Hm1r k e He)|].
        exfalso. apply (Hev k Hk). destruct (Hm1 k e He) as (e0 & He0 & ->).
        pose proof (ci_entries _ _ _ _ _ _ I k e0 He0) as [_ Hg]. unfold entry_ready in Er. rewrite entry_take_state in Er.
        destruct (en_state e0); try done.
        + destruct Hg as [n Hn]. apply elem_of_list_fmap. by exists (LoadRequest n k).
        + destruct Hg as (n & cs & Hn & _). apply elem_of_list_fmap. by exists (StoreRequest n k cs). }
    split_and!; try done.
    2:{ simpl. intros k e He Hr. eapply Hm1r; [|done]. by apply Hm2, Hm3. }
    split; simpl.
    + intros k e' He'. destruct (Hm31 k e' He') as (e & He & ->).
      pose proof (ci_entries _ _ _ _ _ _ I k e He) as [A B]. split; [by rewrite entry_take_meta|].
      by rewrite entry_take_state, entry_take_meta.
    + apply I.
    + apply I.
    + apply I.
    + apply I.
    + intros q Hq. destruct (ci_pending _ _ _ _ _ _ I q Hq) as (e & He & Hp). exists (entry_take e). split.
      * unfold m3. rewrite evict_lookup, decide_False.
        2:{ intros Hx. apply (Hev _ Hx). apply elem_of_list_fmap. by exists q. }
        apply map_filter_lookup_Some. split; [unfold m1; by rewrite lookup_fmap, He|].
        simpl. unfold entry_failed. rewrite entry_take_state. apply pending_not_ready in Hp. unfold entry_ready in Hp.
        by destruct (en_state e).
      * unfold pending_for. rewrite entry_take_state. done.
    + intros q i Hq. destruct (ci_batches _ _ _ _ _ _ I q i Hq) as [_ Hi]. split; [|done].
      specialize (N2 q i Hq). rewrite app_nil_r in N2.
      assert (batch_good a q (keys_of q) (bs !! i) (rs !! i) (waits m3 i)) as Hb.
      { eapply batch_good_perm; [|exact N2]. by rewrite Hw. }
      destruct (filter (fun x : N * batch V => batch_ready x.2 = false) bs !! i) as [b|] eqn:Eb.
      * apply map_filter_lookup_Some in Eb as [Eb _]. by rewrite Eb in Hb.
      * destruct Hb as (A & B & C & D). split_and!; try done. destruct (bs !! i) as [b|] eqn:Ebi; [|done].
        apply map_filter_lookup_None in Eb as [Eb|Eb]; [congruence|]. specialize (Eb b Ebi). simpl in Eb.
        unfold batch_ready in Eb. destruct (N.eqb_spec (bt_remaining b) 0) as [E0|]; [|done].
        destruct D as [D _]. rewrite E0 in D. destruct (waits m3 i); [done|]. unfold Nlen in D. simpl in D. lia.
    + intros i Hi. destruct (ci_others _ _ _ _ _ _ I i Hi) as (A & B & C). destruct (N3 i Hi) as [D E]. split_and!.
      * apply map_filter_lookup_None. left. by rewrite D.
      * by rewrite E.
      * apply Permutation_nil. rewrite Hw, <- (take_waits (dc_entries c) _ i HL).
        match goal with |- _ ≡ₚ ?w => assert (w = []) as ->; [|done] end. apply waits_nil. intros k e' He' Hx. destruct (Hm1 k e' He') as (e & He & ->).
        assert (k ∈ waits (dc_entries c) i) as Hy; [|rewrite C in Hy; by apply elem_of_nil in Hy].
        apply elem_of_waits. exists e. split; [done|]. unfold entry_take in Hx. destruct (entry_ready e); [|done].
        simpl in Hx. by apply elem_of_nil in Hx.
    + intros q i k e' Hq Hl He' Hi. destruct (Hm31 k e' He') as (e & He & ->). rewrite entry_take_state.
      apply (ci_stores _ _ _ _ _ _ I q i k e Hq Hl He). unfold entry_take in Hi. destruct (entry_ready e); [|done].
      simpl in Hi. by apply elem_of_nil in Hi.
Qed.

(** * Histories *)
Variable sha256 : bytes -> bytes.
Variable base64 : bytes -> string.
Notation perform := (perform serialize deserialize sha256 base64 entry_order).
Notation history := (history serialize deserialize sha256 base64 entry_order).
Notation reaches := (reaches serialize deserialize sha256 base64 entry_order).

Record inv (s : observed V) (o : list data_out) (a : answers) : Prop := {
  in_core : core_inv (ob_cache s) o a (ob_handles s);
  in_ids : NoDup (map request_id (sent s));
  in_bound : forall q, q ∈ sent s -> request_id q <= dc_correlation (ob_cache s);
}.

Lemma inv_start counter : inv (Observed (dc_create counter) [] []) [] [].
Proof using Type.
  split; [|by apply NoDup_nil|intros q Hq; by apply elem_of_nil in Hq].
  split; simpl.
  - intros k e He. by rewrite lookup_empty in He.
  - by apply NoDup_nil.
  - by apply NoDup_nil.
  - intros q Hq. by apply elem_of_nil in Hq.
  - intros n k. rewrite lookup_empty. split; [done|]. intros (q & Hq & _). by apply elem_of_nil in Hq.
  - intros q Hq. by apply elem_of_nil in Hq.
  - intros q i Hq. by apply elem_of_nil in Hq.
  - intros i _. by rewrite !lookup_empty.
  - intros q i k e Hq. by apply elem_of_nil in Hq.
Qed.

Lemma filter_all (call : data_call V) (o : list data_out) :
  (forall q, ~ answered_by call q) -> filter (fun q => ~ answered_by call q) o = o.
Proof using Type.
  intros Hq. induction o as [|q o IH]; [done|]. rewrite filter_cons_True by done. by rewrite IH.
Qed.
Lemma drop_sent (taken out new : list data_out) : drop (length (taken ++ out)) (taken ++ out ++ new) = new.
Proof using Type. rewrite app_assoc. by rewrite drop_app. Qed.
Lemma sent_grows (taken out new : list data_out) (n m : N) :
  NoDup (map request_id (taken ++ out)) -> (forall q, q ∈ taken ++ out -> request_id q <= n) ->
  (forall q, q ∈ new -> n < request_id q) -> NoDup (map request_id new) ->
  NoDup (map request_id (taken ++ out ++ new)).
Proof using Type.
  intros H1 H2 H3 H4. rewrite app_assoc, map_app. apply NoDup_app. split_and!; [done| |done].
  intros x Hx Hy. apply elem_of_list_fmap in Hx as (q & -> & Hq). apply elem_of_list_fmap in Hy as (q' & Hy & Hq').
  specialize (H2 q Hq). specialize (H3 q' Hq'). lia.
Qed.

Lemma perform_inv s o a call s' :
  inv s o a -> allowed o call -> perform s call = Ok s' ->
  inv s' (outstanding_next s s' call o) (answers_next call o a).
Proof using Horder.
  intros [I I1 I2] Hal Hp. unfold outstanding_next, answers_next, sent in *.
  destruct call as [ms|l|r|evicted|]; simpl in Hp.
  - rewrite filter_all by naive_solver. rewrite app_nil_r.
    unfold load_tablets in Hp.
    destruct (load_entries_inv serialize deserialize ms (ob_cache s) o a (ob_handles s) I) as (new & A1 & A2 & A3 & A4 & A5 & A6 & A7 & A8 & A9).
    set (c1 := foldl load_entry (ob_cache s) ms) in *.
    destruct (start_batch_inv serialize deserialize c1 (o ++ new) a (ob_handles s)
                (AskedLoad ms (waits_for_first s ms)) (BatchLoad [])) as (c2 & B1 & B2 & B3 & B4 & _).
    + done.
    + intros k Hk. apply elem_of_list_fmap in Hk as (m & -> & Hm). by apply A7.
    + done.
    + done.
    + intros ms' [= <- Hw]. destruct ms as [|m ms]; [done|]. simpl in Hw. unfold ready in Hw.
      destruct (A7 m) as [e He]; [by left|]. exists (tm_uri m), (map tm_uri ms), e. split_and!; [done|done|].
      destruct (dc_entries (ob_cache s) !! tm_uri m) as [e0|] eqn:E0.
      * rewrite (A8 _ _ E0) in He. injection He as <-. by apply negb_true_iff in Hw.
      * by apply (A9 _ _ E0 He).
    + unfold keys_of in B1. simpl in B1. rewrite B1 in Hp. cbn [res_bind] in Hp. injection Hp as <-. simpl.
      rewrite B4, A2, drop_sent. split; unfold sent; simpl.
      * exact B2.
      * rewrite B4, A2. by eapply (sent_grows _ _ _ _ 0).
      * intros q Hq. rewrite B4, A2, app_assoc in Hq. rewrite B3. apply elem_of_app in Hq as [Hq|Hq].
        -- specialize (I2 q Hq). lia.
        -- apply (ci_correlation _ _ _ _ _ _ A1). set_solver.
  - rewrite filter_all by naive_solver. rewrite app_nil_r.
    unfold store_tablets in Hp.
    destruct (prepare_all serialize sha256 base64 l) as [[ms cs]| |] eqn:Epr; cbn [res_bind] in Hp; [|done..].
    destruct cs as [cs|].
    + destruct (prepare_all_ok _ _ _ _ _ Epr) as (L1 & L2 & L3).
      destruct (store_entries (ob_cache s) (zip (zip ms (map snd l)) cs)) as [c1| |] eqn:Est; cbn [res_bind] in Hp; [|done..].
      destruct (store_entries_inv _ _ _ _ _ _ I L3 Est) as (new & A1 & A2 & A3 & A4 & A5 & A6 & A7 & A8 & A9).
      assert (forall k, k ∈ map tm_uri ms -> exists e, dc_entries c1 !! k = Some e /\ exists v, en_state e = EntryStore v) as Hk.
      { intros k Hk. apply elem_of_list_fmap in Hk as (m & -> & Hm). apply elem_of_list_lookup in Hm as [n Hn].
        destruct (lookup_lt_is_Some_2 (map snd l) n) as [v Hv].
        { rewrite map_length, <- L1. by eapply lookup_lt_Some. }
        destruct (lookup_lt_is_Some_2 cs n) as [b Hb]. { rewrite L2, <- L1. by eapply lookup_lt_Some. }
        apply (A8 (m, v, b)). apply elem_of_list_lookup. exists n. rewrite lookup_zip_with, lookup_zip_with, Hn, Hv, Hb. done. }
      destruct (start_batch_inv serialize deserialize c1 (o ++ new) a (ob_handles s) (AskedStore ms) BatchStore)
        as (c2 & B1 & B2 & B3 & B4 & _).
      * done.
      * intros k Hk'. destruct (Hk k Hk') as (e & He & _). by exists e.
      * intros _. split; [done|]. intros k e Hk' He. destruct (Hk k Hk') as (e' & He' & ?). by simplify_eq.
      * done.
      * done.
      * unfold keys_of in B1. simpl in B1. rewrite B1 in Hp. cbn [res_bind] in Hp. injection Hp as <-. simpl.
        rewrite B4, A2, drop_sent. split; unfold sent; simpl.
        -- exact B2.
        -- rewrite B4, A2. by eapply (sent_grows _ _ _ _ 0).
        -- intros q Hq. rewrite B4, A2, app_assoc in Hq. rewrite B3. apply elem_of_app in Hq as [Hq|Hq].
           ++ specialize (I2 q Hq). lia.
           ++ apply (ci_correlation _ _ _ _ _ _ A1). set_solver.
    + injection Hp as <-. simpl. rewrite drop_all, app_nil_r. split; unfold sent; simpl; [|done|done].
      destruct I as [J1 J2 J3 J4 J5 J6 J7 J8 J9]. split; try done.
      * intros q i Hq. apply J7. apply elem_of_app in Hq as [Hq|Hq]; [done|]. by apply elem_of_list_singleton in Hq.
      * intros i Hi. apply J8. intros q Hq. apply (Hi q). set_solver.
      * intros q i k e Hq. apply J9. apply elem_of_app in Hq as [Hq|Hq]; [done|]. by apply elem_of_list_singleton in Hq.
  - destruct (dc_process deserialize (ob_cache s) r) as [c1| |] eqn:Ed; cbn [res_bind] in Hp; [|done..]. injection Hp as <-.
    destruct (process_inv _ _ _ _ _ _ _ _ I Ed) as (A & B & C & D). simpl. rewrite C, drop_all, app_nil_r.
    split; unfold sent; simpl; [exact A|by rewrite C|by rewrite B, C].
  - rewrite filter_all by naive_solver. rewrite app_nil_r.
    destruct (progress_inv _ _ _ _ evicted I Hal) as (c1 & A & B & C & D & _). rewrite A in Hp. cbn [res_bind] in Hp.
    injection Hp as <-. simpl. rewrite D, drop_all, app_nil_r.
    split; unfold sent; simpl; [exact B|by rewrite D|by rewrite C, D].
  - rewrite filter_all by naive_solver. rewrite app_nil_r. injection Hp as <-. simpl.
    rewrite app_nil_r, drop_all, app_nil_r. split; unfold sent; simpl.
    + destruct I as [J1 J2 J3 J4 J5 J6 J7 J8 J9]. split; done.
    + by rewrite app_nil_r.
    + by rewrite app_nil_r.
Qed.

Lemma history_inv counter calls s o a : history counter calls s o a -> inv s o a.
Proof using Horder. induction 1; [apply inv_start|by eapply perform_inv]. Qed.
Lemma reaches_history counter calls s o a s' o' a' :
  history counter calls s o a -> reaches s o a s' o' a' -> exists more, history counter (calls ++ more) s' o' a'.
Proof using Type.
  intros Hh Hr. induction Hr as [s o a|s o a s1 o1 a1 call s2 Hr IH Hal Hp].
  - exists []. by rewrite app_nil_r.
  - destruct (IH Hh) as [more Hm]. exists (more ++ [call]). rewrite app_assoc. by apply history_call.
Qed.

(** * Results never change *)
Definition keeps (r r' : gmap N (outcome V)) : Prop := forall i x, r !! i = Some x -> r' !! i = Some x.
Lemma set_outcome_keeps (r : gmap N (outcome V)) i x r' : set_outcome r i x = Ok r' -> keeps r r'.
Proof using Type.
  unfold set_outcome. destruct (r !! i) eqn:E; [done|]. intros [= <-] j y Hj. rewrite lookup_insert_ne; [done|congruence].
Qed.
Lemma resolve_entry_keeps i (b : batch V) r e b' r' : resolve_entry i b r e = Ok (b', r') -> keeps r r'.
Proof using Type.
  unfold resolve_entry. destruct (bt_remaining b =? 0); [done|].
  destruct (bt_remaining b - 1 =? 0), (en_state e), (bt_state b); cbn [res_bind]; try (intros [= <- <-]; by intros ? ?);
    try (destruct (set_outcome _ _ _) eqn:E; cbn [res_bind]; [|done..]; intros [= <- <-]; by eapply set_outcome_keeps).
Qed.
Lemma register_keys_keeps i keys : forall (b : batch V) r m b' r' m', register_keys i b r m keys = Ok (b', r', m') -> keeps r r'.
Proof using Type.
  induction keys as [|k keys IH]; intros b r m b' r' m' Hr; simpl in Hr; [injection Hr as <- <- <-; by intros ? ?|].
  destruct (m !! k) as [e|]; [|by eapply IH].
  unfold add_pending in Hr. destruct (en_state e) eqn:Es; cbn [res_bind] in Hr; try (by eapply IH).
  - destruct (resolve_entry _ _ _ _) as [[b1 r1]| |] eqn:E; cbn [res_bind] in Hr; [|done..].
    intros j x Hj. eapply IH; [done|]. by eapply resolve_entry_keeps.
  - destruct (resolve_entry _ _ _ _) as [[b1 r1]| |] eqn:E; cbn [res_bind] in Hr; [|done..].
    intros j x Hj. eapply IH; [done|]. by eapply resolve_entry_keeps.
Qed.
Lemma notify_batches_keeps (e : entry V) l : forall bs r bs' r', notify_batches bs r e l = Ok (bs', r') -> keeps r r'.
Proof using Type.
  induction l as [|i l IH]; intros bs r bs' r' Hn; simpl in Hn; [injection Hn as <- <-; by intros ? ?|].
  destruct (bs !! i); cbn [unwrap res_bind] in Hn; [|done].
  destruct (resolve_entry _ _ _ _) as [[b1 r1]| |] eqn:E; cbn [res_bind] in Hn; [|done..].
  intros j x Hj. eapply IH; [done|]. by eapply resolve_entry_keeps.
Qed.
Lemma notify_entries_keeps (l : list (string * entry V)) : forall bs r bs' r', notify_entries bs r l = Ok (bs', r') -> keeps r r'.
Proof using Type.
  induction l as [|[k e] l IH]; intros bs r bs' r' Hn; simpl in Hn; [injection Hn as <- <-; by intros ? ?|].
  destruct (notify_batches _ _ _ _) as [[b1 r1]| |] eqn:E; cbn [res_bind] in Hn; [|done..].
  intros j x Hj. eapply IH; [done|]. by eapply notify_batches_keeps.
Qed.
Lemma load_entries_results ms : forall (c : data_cache V), dc_results (foldl load_entry c ms) = dc_results c.
Proof using Type.
  induction ms as [|m ms IH]; intros c; [done|]. simpl. rewrite IH. unfold load_entry. by destruct (_ !! _).
Qed.
Lemma store_entries_results l : forall (c c' : data_cache V), store_entries c l = Ok c' -> dc_results c' = dc_results c.
Proof using Type.
  induction l as [|[[m v] cs] l IH]; intros c c' Hs; simpl in Hs; [by injection Hs as <-|].
  destruct (_ !! _); [done|]. by apply IH in Hs.
Qed.
Lemma start_batch_keeps (c : data_cache V) st keys c' h : start_batch c st keys = Ok (c', h) -> keeps (dc_results c) (dc_results c').
Proof using Type.
  unfold start_batch. destruct (register_keys _ _ _ _ _) as [[[b r] m]| |] eqn:E; cbn [res_bind]; [|done..].
  intros [= <- <-]. by eapply register_keys_keeps.
Qed.
Lemma perform_keeps s call s' : perform s call = Ok s' -> keeps (dc_results (ob_cache s)) (dc_results (ob_cache s')).
Proof using Type.
  destruct call as [ms|l|r|evicted|]; simpl; unfold load_tablets, store_tablets, dc_process, dc_progress.
  - destruct (start_batch _ _ _) as [[c1 h]| |] eqn:E; cbn [res_bind]; [|done..]. intros [= <-].
    apply start_batch_keeps in E. by rewrite load_entries_results in E.
  - destruct (prepare_all _ _ _ _) as [[ms [cs|]]| |] eqn:E1; cbn [res_bind]; try done.
    + destruct (store_entries _ _) as [c1| |] eqn:E2; cbn [res_bind]; [|done..].
      destruct (start_batch _ _ _) as [[c2 h]| |] eqn:E; cbn [res_bind]; [|done..]. intros [= <-].
      apply start_batch_keeps in E. by rewrite (store_entries_results _ _ _ E2) in E.
    + intros [= <-]. by intros ? ?.
  - destruct (_ !! _); cbn [res_bind]; [|intros [= <-]; by intros ? ?].
    destruct (_ !! _); cbn [unwrap res_bind]; [|done].
    destruct (match r with LoadResponse _ _ _ => _ | StoreResponse _ _ => _ end); cbn [res_bind]; [|done..].
    intros [= <-]. by intros ? ?.
  - destruct (notify_entries _ _ _) as [[b1 r1]| |] eqn:E; cbn [res_bind]; [|done..]. intros [= <-].
    by apply notify_entries_keeps in E.
  - intros [= <-]. by intros ? ?.
Qed.
Lemma reaches_keeps s o a s' o' a' : reaches s o a s' o' a' -> keeps (dc_results (ob_cache s)) (dc_results (ob_cache s')).
Proof using Type.
  induction 1 as [s o a|s o a s1 o1 a1 call s2 Hr IH Hal Hp]; [by intros ? ?|].
  intros i x Hi. apply (perform_keeps _ _ _ Hp). by apply IH.
Qed.
Lemma reaches_handles s o a s' o' a' : reaches s o a s' o' a' -> exists more, ob_handles s' = ob_handles s ++ more.
Proof using Type.
  induction 1 as [s o a|s o a s1 o1 a1 call s2 Hr [more IH] Hal Hp]; [exists []; by rewrite app_nil_r|].
  assert (exists m, ob_handles s2 = ob_handles s1 ++ m) as [m Hm].
  { destruct call as [ms|l|r|evicted|]; simpl in Hp.
    - destruct (load_tablets _ _) as [[c h]| |]; cbn [res_bind] in Hp; [|done..]. injection Hp as <-. by eexists.
    - destruct (store_tablets _ _ _ _ _) as [[[c ms] h]| |]; cbn [res_bind] in Hp; [|done..]. injection Hp as <-. by eexists.
    - destruct (dc_process _ _ _); cbn [res_bind] in Hp; [|done..]. injection Hp as <-. exists []. by rewrite app_nil_r.
    - destruct (dc_progress _ _ _); cbn [res_bind] in Hp; [|done..]. injection Hp as <-. exists []. by rewrite app_nil_r.
    - injection Hp as <-. exists []. by rewrite app_nil_r. }
  exists (more ++ m). by rewrite Hm, IH, app_assoc.
Qed.
End Blob.
