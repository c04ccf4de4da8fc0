(** Proofs about histories of the tablet data cache. *)
From Verif Require Import Base TabletModel BlobModel BlobSpec BlobProofs.
Local Arguments N.sub : simpl never.
Local Arguments N.add : simpl never.
Local Arguments N.eqb : simpl never.

Section Blob.
Context {V : Type}.
Variable serialize : V -> option bytes.
Variable deserialize : bytes -> option V.

Notation answers := (list (data_out * data_in)).
Notation entry_good := (entry_good serialize deserialize).
Notation batch_good := (batch_good serialize deserialize).
Notation ready_good := (ready_good serialize deserialize).
Notation provided := (provided serialize deserialize).
Notation refused := (refused deserialize).

Definition keys_of (q : asked) : list string := map tm_uri (asked_tablets q).
(** A pending entry of a blob with a request under way. *)
Definition pending_for (q : data_out) (e : entry V) : Prop :=
  match q with
  | LoadRequest _ _ => en_state e = EntryLoad
  | StoreRequest _ _ contents => exists v, en_state e = EntryStore v /\ serialize v = Some contents
  end.

Record core_inv (c : data_cache V) (o : list data_out) (a : answers) (H : list (asked * handle)) : Prop := {
  ci_entries : forall k e, dc_entries c !! k = Some e -> entry_good o a k e;
  ci_ids : NoDup (map request_id o);
  ci_uris : NoDup (map request_uri o);
  ci_correlation : forall q, q ∈ o -> request_id q <= dc_correlation c;
  ci_operations : forall n k, dc_operations c !! n = Some k <-> exists q, q ∈ o /\ request_id q = n /\ request_uri q = k;
  ci_pending : forall q, q ∈ o -> exists e, dc_entries c !! request_uri q = Some e /\ pending_for q e;
  ci_batches : forall q i, (q, HandleBatch i) ∈ H ->
    batch_good a q (keys_of q) (dc_batches c !! i) (dc_results c !! i) (waits (dc_entries c) i) /\ i <= dc_counter c;
  ci_others : forall i, (forall q, (q, HandleBatch i) ∉ H) ->
    dc_batches c !! i = None /\ dc_results c !! i = None /\ waits (dc_entries c) i = [];
  ci_stores : forall q i k e, (q, HandleBatch i) ∈ H -> is_load q = false -> dc_entries c !! k = Some e ->
    i ∈ en_waiting e ->
    match en_state e with EntryLoad => False | EntryCache _ => was_stored a k | _ => True end;
}.

Lemma entry_good_mono o o' a k e :
  (forall q, q ∈ o -> q ∈ o') -> (forall q, q ∈ o' -> q ∈ o \/ request_uri q <> k) ->
  entry_good o a k e -> entry_good o' a k e.
Proof using Type.
  intros H1 H2 [Hu He]. split; [done|].
  assert (k ∉ map request_uri o -> k ∉ map request_uri o') as Hx.
  { intros Hn Hk. apply elem_of_list_fmap in Hk as (q & -> & Hq). destruct (H2 q Hq); [|done]. apply Hn.
    apply elem_of_list_fmap. by exists q. }
  destruct (en_state e) as [|v|v|].
  - destruct He as [n Hn]. exists n. by apply H1.
  - destruct He as (n & cs & Hn & ?). exists n, cs. split; [by apply H1|done].
  - destruct He as [Ha ?]. split; [by apply Hx|done].
  - destruct He as [Ha ?]. split; [by apply Hx|done].
Qed.

Lemma pending_not_ready q e : pending_for q e -> entry_ready e = false.
Proof using Type. destruct q; simpl; unfold entry_ready; [by intros ->|]. by intros (v & -> & _). Qed.

(** A new entry with a request for it. *)
Lemma new_entry_inv c o a H q m st :
  core_inv c o a H ->
  dc_entries c !! tm_uri m = None -> request_id q = dc_correlation c + 1 -> request_uri q = tm_uri m ->
  entry_good [q] a (tm_uri m) (Entry m st []) -> pending_for q (Entry m st []) ->
  core_inv (DataCache (dc_correlation c + 1) (dc_counter c) (<[tm_uri m := Entry m st []]> (dc_entries c)) (dc_batches c)
      (<[dc_correlation c + 1 := tm_uri m]> (dc_operations c)) (dc_out c ++ [q]) (dc_results c)) (o ++ [q]) a H.
Proof using Type.
  intros I Hnone Hid Huri Hgood Hpend.
  assert (forall q', q' ∈ o -> request_uri q' <> tm_uri m) as Hfresh.
  { intros q' Hq' Hx. destruct (ci_pending _ _ _ _ I q' Hq') as (e & He & _). rewrite Hx in He. congruence. }
  assert (forall i, waits (<[tm_uri m := Entry m st []]> (dc_entries c)) i ≡ₚ waits (dc_entries c) i) as Hw.
  { intros i. by rewrite waits_fresh. }
  split; simpl.
  - intros k e He. destruct (decide (tm_uri m = k)) as [<-|n].
    + rewrite lookup_insert in He. injection He as <-. eapply entry_good_mono; [| |exact Hgood]; [set_solver|].
      intros q' Hq'. apply elem_of_app in Hq' as [Hq'|Hq']; [right; by apply Hfresh|by left].
    + rewrite lookup_insert_ne in He by done. eapply entry_good_mono; [| |by apply (ci_entries _ _ _ _ I)]; [set_solver|].
      intros q' Hq'. apply elem_of_app in Hq' as [Hq'|Hq']; [by left|]. apply elem_of_list_singleton in Hq' as ->.
      right. congruence.
  - rewrite map_app. apply NoDup_app. split_and!; [apply I| |apply NoDup_singleton].
    intros n Hn. apply elem_of_list_fmap in Hn as (q' & -> & Hq'). simpl. rewrite elem_of_list_singleton, Hid.
    pose proof (ci_correlation _ _ _ _ I q' Hq'). lia.
  - rewrite map_app. apply NoDup_app. split_and!; [apply I| |apply NoDup_singleton].
    intros n Hn. apply elem_of_list_fmap in Hn as (q' & -> & Hq'). simpl. rewrite elem_of_list_singleton, Huri.
    by apply Hfresh.
  - intros q' Hq'. apply elem_of_app in Hq' as [Hq'|Hq'].
    + pose proof (ci_correlation _ _ _ _ I q' Hq'). lia.
    + apply elem_of_list_singleton in Hq' as ->. lia.
  - intros n k. destruct (decide (dc_correlation c + 1 = n)) as [<-|e].
    + rewrite lookup_insert. split.
      * intros [= <-]. exists q. set_solver.
      * intros (q' & Hq' & Hn & Hk). apply elem_of_app in Hq' as [Hq'|Hq'].
        -- pose proof (ci_correlation _ _ _ _ I q' Hq'). lia.
        -- apply elem_of_list_singleton in Hq' as ->. congruence.
    + rewrite lookup_insert_ne by done. rewrite (ci_operations _ _ _ _ I). split.
      * intros (q' & Hq' & ?). exists q'. split; [set_solver|done].
      * intros (q' & Hq' & Hn & Hk). apply elem_of_app in Hq' as [Hq'|Hq']; [by exists q'|].
        apply elem_of_list_singleton in Hq' as ->. congruence.
  - intros q' Hq'. apply elem_of_app in Hq' as [Hq'|Hq'].
    + rewrite lookup_insert_ne by (intros Hx; symmetry in Hx; by apply Hfresh in Hx). by apply (ci_pending _ _ _ _ I).
    + apply elem_of_list_singleton in Hq' as ->. rewrite Huri, lookup_insert. by eexists.
  - intros q' i Hq'. destruct (ci_batches _ _ _ _ I q' i Hq') as [Hb Hi]. split; [|done].
    eapply batch_good_perm; [|exact Hb]. by rewrite Hw.
  - intros i Hi. destruct (ci_others _ _ _ _ I i Hi) as (A & B & C). split_and!; try done.
    apply Permutation_nil. by rewrite Hw, C.
  - intros q' i k e Hq' Hl He Hi. destruct (decide (tm_uri m = k)) as [<-|n].
    + rewrite lookup_insert in He. injection He as <-. by apply elem_of_nil in Hi.
    + rewrite lookup_insert_ne in He by done. by eapply (ci_stores _ _ _ _ I).
Qed.

Lemma load_entry_inv c o a H m :
  core_inv c o a H ->
  exists new, core_inv (load_entry c m) (o ++ new) a H /\ dc_out (load_entry c m) = dc_out c ++ new /\
    (forall q, q ∈ new -> dc_correlation c < request_id q) /\ dc_correlation c <= dc_correlation (load_entry c m) /\
    NoDup (map request_id new) /\
    dc_counter (load_entry c m) = dc_counter c /\ is_Some (dc_entries (load_entry c m) !! tm_uri m) /\
    (forall k e, dc_entries c !! k = Some e -> dc_entries (load_entry c m) !! k = Some e) /\
    (forall k e, dc_entries c !! k = None -> dc_entries (load_entry c m) !! k = Some e -> entry_ready e = false).
Proof using Type.
  intros I. unfold load_entry. destruct (dc_entries c !! tm_uri m) as [e|] eqn:E.
  - exists []. rewrite !app_nil_r. split_and!; try done; try (by apply NoDup_nil); try (by eexists); try congruence; set_solver.
  - exists [LoadRequest (dc_correlation c + 1) (tm_uri m)]. simpl. split_and!; try done.
    + apply new_entry_inv; try done. split; [done|]. simpl. exists (dc_correlation c + 1). set_solver.
    + intros q Hq. apply elem_of_list_singleton in Hq as ->. simpl. lia.
    + lia.
    + apply NoDup_singleton.
    + rewrite lookup_insert. by eexists.
    + intros k e He. rewrite lookup_insert_ne; [done|]. congruence.
    + intros k e Hk He. destruct (decide (tm_uri m = k)) as [<-|n].
      * rewrite lookup_insert in He. by injection He as <-.
      * rewrite lookup_insert_ne in He by done. congruence.
Qed.
Lemma load_entries_inv ms : forall c o a H,
  core_inv c o a H ->
  let c' := foldl load_entry c ms in
  exists new, core_inv c' (o ++ new) a H /\ dc_out c' = dc_out c ++ new /\
    (forall q, q ∈ new -> dc_correlation c < request_id q) /\ dc_correlation c <= dc_correlation c' /\
    NoDup (map request_id new) /\
    dc_counter c' = dc_counter c /\ (forall m, m ∈ ms -> is_Some (dc_entries c' !! tm_uri m)) /\
    (forall k e, dc_entries c !! k = Some e -> dc_entries c' !! k = Some e) /\
    (forall k e, dc_entries c !! k = None -> dc_entries c' !! k = Some e -> entry_ready e = false).
Proof using Type.
  induction ms as [|m ms IH]; intros c o a H I; simpl.
  - exists []. rewrite !app_nil_r. split_and!; try done; try (by apply NoDup_nil); try congruence; set_solver.
  - destruct (load_entry_inv c o a H m I) as (n1 & A1 & A2 & A3 & A4 & A5 & A6 & A7 & A8 & A9).
    destruct (IH _ _ _ _ A1) as (n2 & B1 & B2 & B3 & B4 & B5 & B6 & B7 & B8 & B9).
    exists (n1 ++ n2). rewrite app_assoc. split_and!; try done.
    + by rewrite B2, A2, app_assoc.
    + intros q Hq. apply elem_of_app in Hq as [Hq|Hq]; [by apply A3|]. specialize (B3 q Hq). lia.
    + lia.
    + rewrite map_app. apply NoDup_app. split_and!; try done. intros n Hn Hn'.
      apply elem_of_list_fmap in Hn as (q & -> & Hq). apply elem_of_list_fmap in Hn' as (q' & Hn' & Hq').
      specialize (B3 q' Hq').
      pose proof (ci_correlation _ _ _ _ A1 q ltac:(set_solver)). lia.
    + congruence.
    + intros m' Hm'. apply elem_of_cons in Hm' as [->|Hm']; [|by apply B7]. destruct A7 as [e He]. exists e. by apply B8.
    + intros k e Hk. by apply B8, A8.
    + intros k e Hk He. destruct (dc_entries (load_entry c m) !! k) as [e1|] eqn:E1; [|by eapply B9].
      rewrite (B8 _ _ E1) in He. injection He as <-. by eapply A9.
Qed.

(** The stay-open condition of a new batch. *)
Lemma start_batch_inv c o a H q st :
  core_inv c o a H -> (forall k, k ∈ keys_of q -> is_Some (dc_entries c !! k)) ->
  (is_load q = false -> st = BatchStore /\ forall k e, k ∈ keys_of q -> dc_entries c !! k = Some e -> exists v, en_state e = EntryStore v) ->
  (is_load q = true -> st = BatchLoad []) ->
  (forall ms, q = AskedLoad ms true -> exists k ks e, keys_of q = k :: ks /\ dc_entries c !! k = Some e /\ entry_ready e = false) ->
  exists c', start_batch c st (keys_of q) = Ok (c', HandleBatch (dc_counter c + 1)) /\
    core_inv c' o a (H ++ [(q, HandleBatch (dc_counter c + 1))]) /\
    dc_correlation c' = dc_correlation c /\ dc_out c' = dc_out c /\
    (forall i, i <> dc_counter c + 1 -> dc_results c' !! i = dc_results c !! i).
Proof using Type.
  intros I Hin Hst Hld Hw. unfold start_batch. set (i := dc_counter c + 1).
  assert (forall q', (q', HandleBatch i) ∉ H) as Hnew.
  { intros q' Hq'. destruct (ci_batches _ _ _ _ I q' i Hq') as [_ Hi]. unfold i in Hi. lia. }
  destruct (ci_others _ _ _ _ I i Hnew) as (N1 & N2 & N3).
  destruct (register_good serialize deserialize a o q i (keys_of q) [] (Batch st 0) (dc_results c) (dc_entries c))
    as (b & results & entries & R1 & R2 & R3 & R4).
  - apply I.
  - done.
  - intros Hq. simpl. by apply Hst.
  - simpl. intros Hf Hc. destruct q as [ms w|ms]; [|done]. by rewrite Hld in Hc.
  - intros Hf. destruct q as [ms w|ms]; [|done]. destruct w.
    + right. right. split; [done|]. right. destruct (Hw ms eq_refl) as (k & ks & e & ? & ? & ?). by exists k, ks, e.
    + destruct Hf as [Hf|Hf]; [done|]. right. right. split; [done|]. left. simpl. unfold keys_of. simpl.
      by rewrite map_length.
  - rewrite N2, N3. split_and!; try done; try set_solver. simpl. destruct (is_load q) eqn:El.
    + rewrite Hld by done. split_and!; try done.
    + destruct (Hst eq_refl) as [-> _]. split_and!; try done. set_solver.
  - rewrite R1. simpl. eexists. split; [done|]. simpl in R2. split; [|by split_and!; try done; intros j Hj; apply R3].
    assert (forall k e', entries !! k = Some e' -> exists e, dc_entries c !! k = Some e /\ en_meta e' = en_meta e /\
      en_state e' = en_state e /\ forall j, j ∈ en_waiting e' -> j ∈ en_waiting e \/ j = i /\ k ∈ keys_of q) as Hlike.
    { intros k e' He'. specialize (R4 k). rewrite He' in R4. destruct (dc_entries c !! k) as [e|]; [|done]. by exists e. }
    split; simpl.
    + intros k e' He'. destruct (Hlike k e' He') as (e & He & Hm & Hs & _).
      pose proof (ci_entries _ _ _ _ I k e He) as [A B]. split; [congruence|]. rewrite Hs, Hm. done.
    + apply I.
    + apply I.
    + apply I.
    + apply I.
    + intros q' Hq'. destruct (ci_pending _ _ _ _ I q' Hq') as (e & He & Hp). specialize (R4 (request_uri q')).
      rewrite He in R4. destruct (entries !! request_uri q') as [e'|]; [|done]. exists e'. split; [done|].
      destruct R4 as (_ & Hs & _). unfold pending_for. rewrite Hs. done.
    + intros q' j Hq'. apply elem_of_app in Hq' as [Hq'|Hq'].
      * destruct (ci_batches _ _ _ _ I q' j Hq') as [Hb Hj]. split; [|unfold i; lia].
        assert (j <> i) as Hji by (unfold i; lia). destruct (R3 j Hji) as [A B]. rewrite A.
        assert ((if batch_ready b then dc_batches c else <[i := b]> (dc_batches c)) !! j = dc_batches c !! j) as ->.
        { destruct (batch_ready b); [done|]. by rewrite lookup_insert_ne. }
        eapply batch_good_perm; [by symmetry; apply B|done].
      * apply elem_of_list_singleton in Hq' as [= -> ->]. split; [|done].
        destruct (batch_ready b) eqn:Er; [|by rewrite lookup_insert].
        rewrite N1. destruct R2 as (A & B & C & D & E). split_and!; try done.
        unfold batch_ready in Er. apply N.eqb_eq in Er. rewrite Er in D. destruct (waits entries i); [done|].
        unfold Nlen in D. simpl in D. lia.
    + intros j Hj.
      assert (j <> i) as Hji. { intros ->. apply (Hj q). set_solver. }
      destruct (R3 j Hji) as [A B]. destruct (ci_others _ _ _ _ I j) as (C & D & E).
      { intros q' Hq'. apply (Hj q'). set_solver. }
      split_and!.
      * destruct (batch_ready b); [done|]. by rewrite lookup_insert_ne.
      * by rewrite A.
      * apply Permutation_nil. by rewrite B, E.
    + intros q' j k e' Hq' Hl He' Hj. destruct (Hlike k e' He') as (e & He & _ & Hs & Hwt). rewrite Hs.
      destruct (Hwt j Hj) as [Hj'|[-> Hk]].
      * apply elem_of_app in Hq' as [Hq'|Hq']; [by eapply (ci_stores _ _ _ _ I)|].
        apply elem_of_list_singleton in Hq' as [= -> ->]. exfalso.
        assert (k ∈ waits (dc_entries c) i) as Hx by (apply elem_of_waits; by exists e). rewrite N3 in Hx. by apply elem_of_nil in Hx.
      * apply elem_of_app in Hq' as [Hq'|Hq']; [by apply Hnew in Hq'|].
        apply elem_of_list_singleton in Hq' as [= ->]. destruct (Hst Hl) as [_ Hst'].
        destruct (Hst' k e Hk He) as [v ->]. done.
Qed.

Lemma NoDup_map_filter {A B} (f : A -> B) (P : A -> Prop) `{!forall x, Decision (P x)} (l : list A) :
  NoDup (map f l) -> NoDup (map f (filter P l)).
Proof using Type.
  intros Hn. induction l as [|x l IH]; [done|]. simpl in Hn. apply NoDup_cons in Hn as [Hx Hn].
  destruct (decide (P x)); [rewrite filter_cons_True by done|rewrite filter_cons_False by done; by apply IH].
  simpl. constructor; [|by apply IH]. intros Hy. apply Hx. apply elem_of_list_fmap in Hy as (y & -> & Hy).
  apply elem_of_list_filter in Hy as [_ Hy]. apply elem_of_list_fmap. by exists y.
Qed.
(** A storage response. *)
Lemma filter_one (o : list data_out) q :
  NoDup (map request_id o) -> q ∈ o -> filter (fun x => request_id q = request_id x) o = [q].
Proof using Type.
  induction o as [|x o IH]; intros Hn Hq; [by apply elem_of_nil in Hq|]. simpl in Hn. apply NoDup_cons in Hn as [Hx Hn].
  apply elem_of_cons in Hq as [->|Hq].
  - rewrite filter_cons_True by done. f_equal.
    assert (forall y, y ∈ o -> request_id x <> request_id y) as Hy.
    { intros y Hy Heq. apply Hx. apply elem_of_list_fmap. by exists y. }
    clear -Hy. induction o as [|y o IH]; [done|]. rewrite filter_cons_False by (apply Hy; by left).
    apply IH. intros z Hz. apply Hy. by right.
  - rewrite filter_cons_False; [by apply IH|]. intros Heq. apply Hx. apply elem_of_list_fmap. by exists q.
Qed.

Lemma process_inv c o a H r c' :
  core_inv c o a H -> dc_process deserialize c r = Ok c' ->
  core_inv c' (filter (fun q => ~ response_id r = request_id q) o)
    (a ++ map (fun q => (q, r)) (filter (fun q => response_id r = request_id q) o)) H /\
  dc_correlation c' = dc_correlation c /\ dc_out c' = dc_out c /\ dc_results c' = dc_results c.
Proof using Type.
  intros I. unfold dc_process.
  replace (match r with LoadResponse n _ _ => n | StoreResponse n _ => n end) with (response_id r) by by destruct r.
  destruct (dc_operations c !! response_id r) as [key|] eqn:Eop.
  2:{ intros [= <-]. 
      assert (forall q, q ∈ o -> ~ response_id r = request_id q) as Hno.
      { intros q Hq Hx. assert (dc_operations c !! response_id r = Some (request_uri q)) as Hy; [|congruence].
        apply (ci_operations _ _ _ _ I). by exists q. }
      assert (filter (fun q => ~ response_id r = request_id q) o = o) as ->.
      { clear -Hno. induction o as [|q o IH]; [done|]. rewrite filter_cons_True by (apply Hno; by left). f_equal. apply IH.
        intros q' Hq'. apply Hno. by right. }
      assert (filter (fun q => response_id r = request_id q) o = []) as ->.
      { clear -Hno. induction o as [|q o IH]; [done|]. rewrite filter_cons_False by (apply Hno; by left). apply IH.
        intros q' Hq'. apply Hno. by right. }
      simpl. rewrite app_nil_r. done. }
  apply (ci_operations _ _ _ _ I) in Eop as Hq. destruct Hq as (q & Hq & Hid & <-).
  destruct (ci_pending _ _ _ _ I q Hq) as (e & He & Hpend). rewrite He. cbn [unwrap res_bind].
  destruct (match r with LoadResponse _ status contents => entry_loaded e status (deserialize contents)
            | StoreResponse _ status => entry_stored e status end) as [e'| |] eqn:Ee; cbn [res_bind]; [|done..].
  intros [= <-]. split; [|done].
  assert (filter (fun x => response_id r = request_id x) o = [q]) as ->.
  { rewrite <- Hid. apply filter_one; [apply I|done]. }
  simpl map.
  set (o' := filter _ o).
  assert (forall q', q' ∈ o' <-> q' ∈ o /\ q' <> q) as Ho'.
  { intros q'. unfold o'. rewrite elem_of_list_filter. split.
    - intros [Hx Hq']. split; [done|]. intros ->. congruence.
    - intros [Hq' Hx]. split; [|done]. intros Heq. apply Hx.
      pose proof (filter_one o q (ci_ids _ _ _ _ I) Hq) as Hf.
      assert (q' ∈ filter (fun x => request_id q = request_id x) o) as Hy by (apply elem_of_list_filter; split; [congruence|done]).
      rewrite Hf in Hy. by apply elem_of_list_singleton in Hy. }
  assert (forall q', q' ∈ o' -> request_uri q' <> request_uri q) as Hu'.
  { intros q' Hq' Hx. apply Ho' in Hq' as [Hq' Hne]. apply Hne.
    pose proof (ci_uris _ _ _ _ I) as Hnd. apply elem_of_list_lookup in Hq' as [x1 H1]. apply elem_of_list_lookup in Hq as [x2 H2].
    assert (x1 = x2) as ->; [|congruence]. eapply (NoDup_lookup _ x1 x2 (request_uri q)); [exact Hnd| |].
    - rewrite list_lookup_fmap, H1. simpl. congruence.
    - by rewrite list_lookup_fmap, H2. }
  assert (forall y, y ∈ a -> y ∈ a ++ [(q, r)]) as Ha by set_solver.
  assert (en_meta e' = en_meta e /\ en_waiting e' = en_waiting e /\ entry_good o' (a ++ [(q, r)]) (request_uri q) e' /\
    (entry_ready e' = true) /\
    (forall v, en_state e = EntryStore v -> forall v', en_state e' = EntryCache v' -> was_stored (a ++ [(q, r)]) (request_uri q)) /\
    (en_state e' <> EntryLoad))
    as (Hm & Hwt & Hg & Hrd & Hs & Hnl).
  { assert (request_uri q ∉ map request_uri o') as Hni.
    { intros Hx. apply elem_of_list_fmap in Hx as (q' & Hx & Hq'). symmetry in Hx. by apply Hu' in Hx. }
    pose proof (ci_entries _ _ _ _ I _ _ He) as [Hku _].
    destruct r as [n status contents|n status]; simpl in *.
    - unfold entry_loaded in Ee. destruct (en_state e) eqn:Es; try done.
      destruct q as [nq uq|nq uq cq]; simpl in *; [|by destruct Hpend as (v & Hv & _); congruence].
      destruct (N.eqb_spec status 2) as [->|].
      + injection Ee as <-. destruct (deserialize contents) as [v|] eqn:Ed; (split_and!; [done|done| |done| |done]).
        * split; [done|]. simpl. split; [done|]. exists (LoadRequest nq uq, LoadResponse n 2 contents). split; [set_solver|].
          split; [done|]. done.
        * done.
        * split; [done|]. simpl. split; [done|]. exists (LoadRequest nq uq, LoadResponse n 2 contents). split; [set_solver|].
          split; [done|]. right. done.
        * done.
      + destruct (N.eqb_spec status 1) as [->|]; [|done]. injection Ee as <-. split_and!; try done.
        split; [done|]. split; [done|]. exists (LoadRequest nq uq, LoadResponse n 1 contents). split; [set_solver|]. split; [done|]. by left.
    - unfold entry_stored in Ee. destruct (en_state e) eqn:Es; try done.
      destruct q as [nq uq|nq uq cq]; simpl in *; [congruence|]. destruct Hpend as (v' & Hv' & Hser).
      rewrite Es in Hv'. injection Hv' as <-.
      destruct (N.eqb_spec status 2) as [->|].
      + injection Ee as <-. split_and!; try done.
        * split; [done|]. split; [done|]. exists (StoreRequest nq uq cq, StoreResponse n 2). split; [set_solver|]. done.
        * intros _ _. exists (StoreRequest nq uq cq, StoreResponse n 2). split; [set_solver|]. done.
      + destruct (N.eqb_spec status 1) as [->|]; [|done]. injection Ee as <-. split_and!; try done.
        split; [done|]. split; [done|]. exists (StoreRequest nq uq cq, StoreResponse n 1). split; [set_solver|]. done. }
  assert (forall i, waits (<[request_uri q := e']> (dc_entries c)) i ≡ₚ waits (dc_entries c) i) as Hw.
  { intros i. rewrite waits_insert, (waits_lookup (dc_entries c) _ e i He). unfold waits_of. simpl. by rewrite Hwt. }
  split; simpl.
  - intros k e1 He1. destruct (decide (request_uri q = k)) as [<-|n].
    + rewrite lookup_insert in He1. by injection He1 as <-.
    + rewrite lookup_insert_ne in He1 by done. pose proof (ci_entries _ _ _ _ I k e1 He1) as [A B]. split; [done|].
      assert (k ∉ map request_uri o -> k ∉ map request_uri o') as Hx.
      { intros Hk Hk'. apply Hk. apply elem_of_list_fmap in Hk' as (q' & -> & Hq'). apply Ho' in Hq' as [Hq' _].
        apply elem_of_list_fmap. by exists q'. }
      destruct (en_state e1) as [|v|v|].
      * destruct B as [x Hx']. exists x. apply Ho'. split; [done|]. intros <-. done.
      * destruct B as (x & cs & Hx' & ?). exists x, cs. split; [|done]. apply Ho'. split; [done|]. intros <-. done.
      * destruct B as [B1 (y & Hy & ?)]. split; [by apply Hx|]. exists y. split; [by apply Ha|done].
      * destruct B as [B1 (y & Hy & ?)]. split; [by apply Hx|]. exists y. split; [by apply Ha|done].
  - apply NoDup_map_filter. apply I.
  - apply NoDup_map_filter. apply I.
  - intros q' Hq'. apply (ci_correlation _ _ _ _ I). by apply Ho'.
  - intros n k. destruct (decide (response_id r = n)) as [<-|Hne].
    + rewrite lookup_delete. split; [done|]. intros (q' & Hq' & Hn & _). exfalso. unfold o' in Hq'.
      apply elem_of_list_filter in Hq' as [Hx _]. congruence.
    + rewrite lookup_delete_ne by done. rewrite (ci_operations _ _ _ _ I). split.
      * intros (q' & Hq' & Hn & Hk). exists q'. split_and!; try done. unfold o'. apply elem_of_list_filter. split; [congruence|done].
      * intros (q' & Hq' & Hn & Hk). apply Ho' in Hq' as [Hq' _]. by exists q'.
  - intros q' Hq'. rewrite lookup_insert_ne by (intros Hx; symmetry in Hx; by apply Hu' in Hx).
    apply (ci_pending _ _ _ _ I). by apply Ho'.
  - intros q' i Hq'. destruct (ci_batches _ _ _ _ I q' i Hq') as [Hb Hi]. split; [|done].
    eapply batch_good_mono; [exact Ha|]. eapply batch_good_perm; [|exact Hb]. by rewrite Hw.
  - intros i Hi. destruct (ci_others _ _ _ _ I i Hi) as (A & B & C). split_and!; try done.
    apply Permutation_nil. by rewrite Hw, C.
  - intros q' i k e1 Hq' Hl He1 Hi. destruct (decide (request_uri q = k)) as [<-|n].
    + rewrite lookup_insert in He1. injection He1 as <-. rewrite Hwt in Hi.
      pose proof (ci_stores _ _ _ _ I q' i _ e Hq' Hl He Hi) as Hst.
      destruct (en_state e') as [|v'|v'|] eqn:Es'; try done.
      destruct q as [nq uq|nq uq cq]; simpl in *; [by rewrite Hpend in Hst|]. destruct Hpend as (v & Hv & _).
      by eapply Hs.
    + rewrite lookup_insert_ne in He1 by done. pose proof (ci_stores _ _ _ _ I q' i _ e1 Hq' Hl He1 Hi) as Hst.
      destruct (en_state e1); try done. destruct Hst as (y & Hy & ?). exists y. split; [by apply Ha|done].
Qed.
End Blob.
