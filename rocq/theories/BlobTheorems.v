(** Theorems about the tablet data cache of the tablet cache application.

    Every theorem is about an arbitrary type of tablet values with an arbitrary
    serialiser, hash and text encoding, an arbitrary order of iteration, and an
    arbitrary history of calls: [o] are the storage requests without an answer and
    [a] the answers received so far, each with its request (BlobSpec). *)
From stdpp Require Import pretty.
From Verif Require Import Base TabletModel BlobModel BlobSpec BlobProofs BlobHistoryProofs BlobInvariantProofs BlobKnownProofs.

(** ** A concrete history *)
Definition ex_serialize (v : N) : option bytes := if v =? 0 then None else Some [v].
Definition ex_deserialize (b : bytes) : option N := match b with [v] => Some v | _ => None end.
Definition ex_hash (b : bytes) : bytes := b.
Definition ex_text (b : bytes) : string := match b with [] => "" | _ => "x" end.
Definition ex_order : gmap string (entry N) -> list (string * entry N) := map_to_list.
Definition ex_meta (id version : N) (uri : string) : tablet_metadata := TabletMetadata id version false [] 1 [7] uri.
Notation ex_perform := (perform ex_serialize ex_deserialize ex_hash ex_text ex_order).
Notation ex_history := (history ex_serialize ex_deserialize ex_hash ex_text ex_order).
Notation ex_reaches := (reaches ex_serialize ex_deserialize ex_hash ex_text ex_order).
Lemma ex_order_ok : entries_order ex_order.
Proof. by intros m. Qed.
(** Running calls without evictions. *)
Fixpoint ex_run (s : observed N) (o : list data_out) (a : list (data_out * data_in)) (calls : list (data_call N))
  : option (observed N * list data_out * list (data_out * data_in)) :=
  match calls with
  | [] => Some (s, o, a)
  | call :: calls =>
    match ex_perform s call with
    | Ok s' => ex_run s' (outstanding_next s s' call o) (answers_next call o a) calls
    | _ => None
    end
  end.
Definition keeps_all (call : data_call N) : Prop := match call with CallProgress (_ :: _) => False | _ => True end.
Lemma ex_run_history counter calls : forall before s o a s' o' a',
  ex_history counter before s o a -> ex_run s o a calls = Some (s', o', a') -> Forall keeps_all calls ->
  ex_history counter (before ++ calls) s' o' a'.
Proof.
  induction calls as [|call calls IH]; intros before s o a s' o' a' Hh Hr Hk; simpl in Hr.
  - injection Hr as <- <- <-. by rewrite app_nil_r.
  - apply Forall_cons in Hk as [Hc Hk]. destruct (ex_perform s call) as [s1| |] eqn:E; [|done..].
    replace (before ++ call :: calls) with ((before ++ [call]) ++ calls) by by rewrite <- app_assoc.
    eapply IH; [|exact Hr|done]. apply history_call; [done| |done].
    destruct call as [| | |[|]|]; try done. intros k Hx. by apply elem_of_nil in Hx.
Qed.
Definition ex_start : observed N := Observed (dc_create 100) [] [].
Definition ex_final (calls : list (data_call N)) : observed N * list data_out * list (data_out * data_in) :=
  default (ex_start, [], []) (ex_run ex_start [] [] calls).
Lemma ex_final_history calls :
  (if ex_run ex_start [] [] calls then true else false) = true -> Forall keeps_all calls ->
  ex_history 100 calls (ex_final calls).1.1 (ex_final calls).1.2 (ex_final calls).2.
Proof.
  intros Hr Hk. unfold ex_final. destruct (ex_run ex_start [] [] calls) as [[[s o] a]|] eqn:E; [|done]. simpl.
  apply (ex_run_history 100 calls [] ex_start [] []); [apply history_start|done|done].
Qed.
(** Two loads sharing a blob, a store, their answers; the second load waits on. *)
Definition ex_calls : list (data_call N) :=
  [CallLoad [ex_meta 1 3 "a"; ex_meta 2 3 "b"]; CallLoad [ex_meta 2 3 "b"; ex_meta 3 1 "c"];
   CallStore [(ex_meta 4 8 "d", 44)]; CallTake;
   CallIn (LoadResponse 102 2 [22]); CallIn (StoreResponse 104 2); CallProgress [];
   CallIn (LoadResponse 101 2 [11]); CallProgress []].
Definition ex_state : observed N := (ex_final ex_calls).1.1.
Definition ex_open : list data_out := (ex_final ex_calls).1.2.
Definition ex_answers : list (data_out * data_in) := (ex_final ex_calls).2.
Definition ex_written : tablet_metadata := TabletMetadata 4 9 false [] 1 [44] "4_9_x".
Lemma ex_calls_history : ex_history 100 ex_calls ex_state ex_open ex_answers.
Proof. apply ex_final_history; [by vm_compute|]. repeat constructor. Qed.

(** ** C51: one request per blob, and the results of batches *)
(** At most one request for a blob is under way; requests have different
    numbers; every request under way was sent. *)
Theorem C51_one_outstanding_request :
  forall V serialize deserialize sha256 base64 order counter (calls : list (data_call V)) s o a,
    entries_order order -> history serialize deserialize sha256 base64 order counter calls s o a ->
    NoDup (map request_uri o) /\ NoDup (map request_id (sent s)) /\ forall q, q ∈ o -> q ∈ sent s.
Proof.
  intros V se de sh ba order counter calls s o a Ho Hh. pose proof (history_inv _ _ _ Ho _ _ _ _ _ _ _ Hh) as [I I1 I2].
  split_and!; [apply I|done|]. by eapply history_sent.
Qed.
(** A store has succeeded only if each of its tablets was stored, and has failed
    only if one could not be serialised or stored. *)
Theorem C51_result_of_store :
  forall V serialize deserialize sha256 base64 order counter (calls : list (data_call V)) s o a tablets i,
    entries_order order -> history serialize deserialize sha256 base64 order counter calls s o a ->
    (AskedStore tablets, HandleBatch i) ∈ ob_handles s ->
    match check s (HandleBatch i) with
    | Some OutStored => forall m, m ∈ tablets -> exists x, x ∈ a /\ stored x (tm_uri m)
    | Some OutFailed => exists m x, m ∈ tablets /\ x ∈ a /\ refuses deserialize x (tm_uri m)
    | Some (OutLoaded _) => False
    | None => True
    end.
Proof.
  intros V se de sh ba order counter calls s o a ms i Ho Hh Hq. pose proof (history_inv _ _ _ Ho _ _ _ _ _ _ _ Hh) as [I _ _].
  destruct (ci_batches _ _ _ _ _ _ I _ _ Hq) as [(_ & Hg & _) _]. simpl.
  destruct (dc_results (ob_cache s) !! i) as [[l| |]|]; simpl in Hg; [by destruct Hg| | |done].
  - destruct Hg as [_ Hg]. intros m Hm. destruct (Hg (tm_uri m)) as (x & ? & ?); [|by exists x].
    apply elem_of_list_fmap. by exists m.
  - destruct Hg as (k & Hk & x & Hx & ?). apply elem_of_list_fmap in Hk as (m & -> & Hm). by exists m, x.
Qed.
(** The values a load returns are those loaded from, or stored to, blobs asked
    for; a load has failed only if a blob could not be loaded. Missing: that all
    tablets are returned, see C51_complete_load_partial and the refutation. *)
Theorem C51_result_of_load_partial :
  forall V serialize deserialize sha256 base64 order counter (calls : list (data_call V)) s o a tablets w i,
    entries_order order -> history serialize deserialize sha256 base64 order counter calls s o a ->
    (AskedLoad tablets w, HandleBatch i) ∈ ob_handles s ->
    match check s (HandleBatch i) with
    | Some (OutLoaded l) => forall m v, (m, v) ∈ l ->
        exists m' x, m' ∈ tablets /\ tm_uri m' = tm_uri m /\ x ∈ a /\ provides serialize deserialize x (tm_uri m) v
    | Some OutFailed => exists m x, m ∈ tablets /\ x ∈ a /\ refuses deserialize x (tm_uri m)
    | Some OutStored => False
    | None => True
    end.
Proof.
  intros V se de sh ba order counter calls s o a ms w i Ho Hh Hq. pose proof (history_inv _ _ _ Ho _ _ _ _ _ _ _ Hh) as [I _ _].
  destruct (ci_batches _ _ _ _ _ _ I _ _ Hq) as [(_ & Hg & _) _]. simpl.
  destruct (dc_results (ob_cache s) !! i) as [[l| |]|]; simpl in Hg; [|by destruct Hg| |done].
  - destruct Hg as (_ & Hg & _). intros m v Hm. rewrite Forall_forall in Hg. destruct (Hg _ Hm) as (Hk & x & Hx & Hp).
    apply elem_of_list_fmap in Hk as (m' & Hk & Hm'). exists m', x. done.
  - destruct Hg as (k & Hk & x & Hx & ?). apply elem_of_list_fmap in Hk as (m & -> & Hm). by exists m, x.
Qed.
(** A load of one tablet, or whose first tablet had to be waited for, returns one
    value for every tablet asked for. *)
Theorem C51_complete_load_partial :
  forall V serialize deserialize sha256 base64 order counter (calls : list (data_call V)) s o a tablets w i l,
    entries_order order -> history serialize deserialize sha256 base64 order counter calls s o a ->
    (AskedLoad tablets w, HandleBatch i) ∈ ob_handles s -> w = true \/ length tablets = 1%nat ->
    check s (HandleBatch i) = Some (OutLoaded l) ->
    map (fun x => tm_uri x.1) l ≡ₚ map tm_uri tablets.
Proof.
  intros V se de sh ba order counter calls s o a ms w i l Ho Hh Hq Hw Hc. pose proof (history_inv _ _ _ Ho _ _ _ _ _ _ _ Hh) as [I _ _].
  destruct (ci_batches _ _ _ _ _ _ I _ _ Hq) as [(_ & Hg & _) _]. unfold check, check_result in Hc. rewrite Hc in Hg.
  destruct Hg as (_ & _ & Hg). by apply Hg.
Qed.
(** After the cache has made progress, a batch of at least one tablet is without
    result only while a request for one of its blobs is under way. *)
Theorem C51_batches_resolve :
  forall V serialize deserialize sha256 base64 order counter (calls : list (data_call V)) s o a evicted s' q h,
    entries_order order -> history serialize deserialize sha256 base64 order counter calls s o a ->
    allowed (V := V) o (CallProgress evicted) ->
    perform serialize deserialize sha256 base64 order s (CallProgress evicted) = Ok s' ->
    (q, h) ∈ ob_handles s' -> asked_tablets q <> [] -> check s' h = None ->
    exists m, m ∈ asked_tablets q /\ tm_uri m ∈ map request_uri o.
Proof.
  intros V se de sh ba order counter calls s o a ev s' q h Ho Hh Hal Hp Hq Hne Hc. destruct h as [i|]; [|done].
  by eapply progress_waiting.
Qed.
(** A result, once there, never changes. *)
Theorem C51_results_never_change :
  forall V serialize deserialize sha256 base64 order (s : observed V) o a s' o' a' h x,
    reaches serialize deserialize sha256 base64 order s o a s' o' a' ->
    check s h = Some x -> check s' h = Some x.
Proof.
  intros V se de sh ba order s o a s' o' a' h x Hr. destruct h as [i|]; [|done]. simpl. by apply (reaches_keeps _ _ _ _ _ _ _ _ _ _ _ Hr).
Qed.
(** The cache is never aborted by loads, by progress or by proper answers, and
    ignores responses to no request. *)
Theorem C51_never_aborts :
  forall V serialize deserialize sha256 base64 order counter (calls : list (data_call V)) s o a,
    entries_order order -> history serialize deserialize sha256 base64 order counter calls s o a ->
    (forall tablets, exists s', perform serialize deserialize sha256 base64 order s (CallLoad tablets) = Ok s') /\
    (forall evicted, allowed (V := V) o (CallProgress evicted) ->
       exists s', perform serialize deserialize sha256 base64 order s (CallProgress evicted) = Ok s') /\
    (forall q r, q ∈ o -> valid_answer q r ->
       exists s', perform serialize deserialize sha256 base64 order s (CallIn r) = Ok s') /\
    (forall r, (forall q, q ∈ o -> request_id q <> response_id r) ->
       perform serialize deserialize sha256 base64 order s (CallIn r) = Ok s).
Proof.
  intros V se de sh ba order counter calls s o a Ho Hh. split_and!.
  - intros ms. by eapply load_succeeds.
  - intros ev. by eapply progress_succeeds.
  - intros q r. by eapply answer_succeeds.
  - intros r. by eapply unknown_ignored.
Qed.
Example C51_example :
  entries_order ex_order /\ ex_history 100 ex_calls ex_state ex_open ex_answers /\
  sent ex_state = [LoadRequest 101 "a"; LoadRequest 102 "b"; LoadRequest 103 "c"; StoreRequest 104 "4_9_x" [44]] /\
  ex_open = [LoadRequest 103 "c"] /\
  ob_handles ex_state = [(AskedLoad [ex_meta 1 3 "a"; ex_meta 2 3 "b"] true, HandleBatch 1);
                         (AskedLoad [ex_meta 2 3 "b"; ex_meta 3 1 "c"] true, HandleBatch 2);
                         (AskedStore [ex_written], HandleBatch 3)] /\
  check ex_state (HandleBatch 1) = Some (OutLoaded [(ex_meta 2 3 "b", 22); (ex_meta 1 3 "a", 11)]) /\
  check ex_state (HandleBatch 2) = None /\
  check ex_state (HandleBatch 3) = Some OutStored.
Proof. split; [apply ex_order_ok|]. split; [apply ex_calls_history|]. split_and!; by vm_compute. Qed.
(** A load of two tablets whose first is in the cache completes at once, without
    the second; its result never changes. *)
Definition ex_early_calls : list (data_call N) :=
  [CallLoad [ex_meta 1 3 "a"]; CallIn (LoadResponse 101 2 [11]); CallProgress [];
   CallLoad [ex_meta 1 3 "a"; ex_meta 2 3 "b"]].
Theorem C51_incomplete_load_refuted :
  exists s o a,
    ex_history 100 ex_early_calls s o a /\
    (AskedLoad [ex_meta 1 3 "a"; ex_meta 2 3 "b"] false, HandleBatch 2) ∈ ob_handles s /\
    forall s' o' a', ex_reaches s o a s' o' a' -> check s' (HandleBatch 2) = Some (OutLoaded [(ex_meta 1 3 "a", 11)]).
Proof.
  exists (ex_final ex_early_calls).1.1, (ex_final ex_early_calls).1.2, (ex_final ex_early_calls).2. split_and!.
  - apply ex_final_history; [by vm_compute|]. repeat constructor.
  - apply elem_of_list_lookup. exists 1%nat. by vm_compute.
  - intros s' o' a' Hr. eapply C51_results_never_change; [exact Hr|]. by vm_compute.
Qed.

(** ** C52: storing (or loading) no tablets *)
(** After any history, a request for no tablets never gets a result. *)
Theorem C52_empty_batch_refuted :
  forall V serialize deserialize sha256 base64 order counter (calls : list (data_call V)) s o a,
    entries_order order -> history serialize deserialize sha256 base64 order counter calls s o a ->
    forall call, call = CallStore [] \/ call = CallLoad [] ->
    exists s1 q h,
      perform serialize deserialize sha256 base64 order s call = Ok s1 /\ ob_handles s1 = ob_handles s ++ [(q, h)] /\
      asked_tablets q = [] /\
      forall s2 o2 a2,
        reaches serialize deserialize sha256 base64 order s1 (outstanding_next s s1 call o) (answers_next call o a) s2 o2 a2 ->
        check s2 h = None.
Proof.
  intros V se de sh ba order counter calls s o a Ho Hh call Hcall.
  assert (exists s1 q h, perform se de sh ba order s call = Ok s1 /\ ob_handles s1 = ob_handles s ++ [(q, h)] /\ asked_tablets q = [])
    as (s1 & q & h & Hp & Hs1 & Hq).
  { destruct Hcall as [-> | ->]; simpl; eexists _, _, _; by split_and!. }
  exists s1, q, h. split_and!; [done|done|done|].
  eapply empty_batch_inv; [done|done| |done|done]. destruct Hcall as [-> | ->]; [by right|by left].
Qed.

(** ** C53: loaded data is not checked against the hash *)
(** Whatever the storage answers is returned, whatever hash the metadata records. *)
Theorem C53_hash_not_checked_refuted :
  forall V serialize deserialize sha256 base64 order (m : tablet_metadata) contents (v : V) counter,
    entries_order order -> deserialize contents = Some v ->
    exists s o a,
      history serialize deserialize sha256 base64 order counter
        [CallLoad [m]; CallIn (LoadResponse (counter + 1) 2 contents); CallProgress []] s o a /\
      ob_handles s = [(AskedLoad [m] true, HandleBatch 1)] /\
      check s (HandleBatch 1) = Some (OutLoaded [(m, v)]).
Proof.
  intros V se de sh ba order m contents v counter Ho Hd.
  pose (s0 := Observed (V := V) (dc_create counter) [] []).
  pose (s1 := Observed (V := V) (DataCache (counter + 1) 1 (<[tm_uri m := Entry m EntryLoad [1]]> (<[tm_uri m := Entry m EntryLoad []]> ∅))
     (<[1 := Batch (BatchLoad []) 1]> ∅) (<[counter + 1 := tm_uri m]> ∅) [LoadRequest (counter + 1) (tm_uri m)] ∅)
     [] [(AskedLoad [m] true, HandleBatch 1)]).
  pose (e2 := Entry m (EntryCache v) [1]).
  pose (s2 := Observed (V := V) (DataCache (counter + 1) 1 (<[tm_uri m := e2]> (dc_entries (ob_cache s1)))
     (<[1 := Batch (BatchLoad []) 1]> ∅) (delete (counter + 1) (<[counter + 1 := tm_uri m]> ∅))
     [LoadRequest (counter + 1) (tm_uri m)] ∅)
     [] [(AskedLoad [m] true, HandleBatch 1)]).
  assert (perform se de sh ba order s0 (CallLoad [m]) = Ok s1) as H1.
  { simpl. unfold load_tablets. simpl. unfold load_entry, dc_create, start_batch. simpl.
    rewrite lookup_empty. simpl. rewrite lookup_insert. simpl. unfold waits_for_first, ready. simpl. by rewrite lookup_empty. }
  assert (perform se de sh ba order s1 (CallIn (LoadResponse (counter + 1) 2 contents)) = Ok s2) as H2.
  { simpl. unfold dc_process. simpl. rewrite !lookup_insert. simpl. unfold entry_loaded. simpl.
    by rewrite Hd. }
  assert (order (dc_entries (ob_cache s2)) = [(tm_uri m, e2)]) as Hord.
  { pose proof (Ho (dc_entries (ob_cache s2))) as Hp. unfold s2, s1 in *. simpl in *. rewrite !insert_insert in *.
    rewrite insert_empty, map_to_list_singleton in Hp. rewrite insert_empty. by apply Permutation_singleton_r in Hp. }
  assert (exists s3, perform se de sh ba order s2 (CallProgress []) = Ok s3 /\ ob_handles s3 = ob_handles s2 /\
    check s3 (HandleBatch 1) = Some (OutLoaded [(m, v)])) as (s3 & H3 & H4 & H5).
  { unfold perform, dc_progress. rewrite Hord. simpl. rewrite lookup_insert. simpl.
    eexists. split_and!; [done|done|]. by vm_compute. }
  assert (allowed (V := V) (outstanding_next s1 s2 (CallIn (LoadResponse (counter + 1) 2 contents))
             (outstanding_next s0 s1 (CallLoad [m]) [])) (CallProgress [])) as Hal by (intros k Hk; by apply elem_of_nil in Hk).
  eexists s3, _, _. split_and!; [|by rewrite H4|done].
  pose proof (history_call se de sh ba order counter [] s0 [] [] (CallLoad [m]) s1 (history_start _ _ _ _ _ _) I H1) as Hh1.
  pose proof (history_call se de sh ba order counter _ s1 _ _ (CallIn (LoadResponse (counter + 1) 2 contents)) s2 Hh1 I H2) as Hh2.
  exact (history_call se de sh ba order counter _ s2 _ _ (CallProgress []) s3 Hh2 Hal H3).
Qed.
Example C53_example :
  entries_order ex_order /\ ex_deserialize [99] = Some 99 /\ ex_hash [99] <> tm_hash (ex_meta 1 3 "a").
Proof. split_and!; [apply ex_order_ok|done|]. by intros [=]. Qed.

(** ** C70: a load returns the tablets asked for *)
(** If blobs are named uniquely, a load of one tablet, or whose first tablet had to be
    waited for, returns exactly the tablets asked for. Missing: other loads, see C51. *)
Theorem C70_tablets_asked_for_partial :
  forall V serialize deserialize sha256 base64 order counter (calls : list (data_call V)) s o a tablets w i l,
    entries_order order -> history serialize deserialize sha256 base64 order counter calls s o a ->
    (forall q h q' h' m m', (q, h) ∈ ob_handles s -> (q', h') ∈ ob_handles s -> m ∈ asked_tablets q -> m' ∈ asked_tablets q' ->
       tm_uri m = tm_uri m' -> m = m') ->
    (AskedLoad tablets w, HandleBatch i) ∈ ob_handles s -> w = true \/ length tablets = 1%nat ->
    check s (HandleBatch i) = Some (OutLoaded l) ->
    map fst l ≡ₚ tablets.
Proof.
  intros V se de sh ba order counter calls s o a ms w i l Ho Hh Hu Hq Hw Hc.
  pose proof (C51_complete_load_partial _ _ _ _ _ _ _ _ _ _ _ _ _ _ _ Ho Hh Hq Hw Hc) as Hp.
  destruct (history_known _ _ _ _ _ Ho _ _ _ _ _ Hh) as (_ & _ & Hk). unfold check, check_result in Hc.
  specialize (Hk i _ Hc). simpl in Hk.
  replace (map (fun x : tablet_metadata * V => tm_uri x.1) l) with (map tm_uri (map fst l)) in Hp by by rewrite map_map.
  apply Permutation_map_inv in Hp as (l3 & He & Hp). rewrite Hp.
  assert (forall m, m ∈ l3 -> m ∈ ms) as Hl3 by (intros m Hm; by rewrite Hp).
  assert (map fst l = l3) as ->; [|done]. clear Hp Hc. revert l3 He Hl3. induction Hk as [|[m v] l Hm Hk IH]; intros [|m3 l3] He Hl3;
    try done. simpl in *. injection He as He1 He2. f_equal.
  - destruct Hm as (q & h & Hqh & Hm). eapply (Hu q h _ _ m m3 Hqh Hq Hm); [|done]. simpl. apply Hl3. by left.
  - apply IH; [done|]. intros m' Hm'. apply Hl3. by right.
Qed.
Example C70_example :
  (forall q h q' h' m m', (q, h) ∈ ob_handles ex_state -> (q', h') ∈ ob_handles ex_state ->
     m ∈ asked_tablets q -> m' ∈ asked_tablets q' -> tm_uri m = tm_uri m' -> m = m') /\
  (AskedLoad [ex_meta 1 3 "a"; ex_meta 2 3 "b"] true, HandleBatch 1) ∈ ob_handles ex_state /\
  check ex_state (HandleBatch 1) = Some (OutLoaded [(ex_meta 2 3 "b", 22); (ex_meta 1 3 "a", 11)]).
Proof.
  destruct C51_example as (_ & _ & _ & _ & Hs & Hc & _). rewrite Hs. split; [|split; [by left|exact Hc]]. clear Hs Hc.
  assert (forall q h m, (q, h) ∈ [(AskedLoad [ex_meta 1 3 "a"; ex_meta 2 3 "b"] true, HandleBatch 1);
                         (AskedLoad [ex_meta 2 3 "b"; ex_meta 3 1 "c"] true, HandleBatch 2);
                         (AskedStore [ex_written], HandleBatch 3)] -> m ∈ asked_tablets q ->
    m ∈ [ex_meta 1 3 "a"; ex_meta 2 3 "b"; ex_meta 3 1 "c"; ex_written]) as Hin.
  { intros q h m Hq Hm. repeat (apply elem_of_cons in Hq as [[= -> ->]|Hq]); [..|by apply elem_of_nil in Hq];
      simpl in Hm; repeat (apply elem_of_cons in Hm as [->|Hm]); try (by apply elem_of_nil in Hm);
      apply elem_of_list_In; simpl; tauto. }
  intros q h q' h' m m' H1 H2 H3 H4 He. pose proof (Hin _ _ _ H1 H3) as A. pose proof (Hin _ _ _ H2 H4) as B.
  clear -A B He.
  repeat (apply elem_of_cons in A as [->|A]); try (by apply elem_of_nil in A);
    repeat (apply elem_of_cons in B as [->|B]); try (by apply elem_of_nil in B); try done.
Qed.
(** Tablets never written yet all have the same (empty) blob name: a load of two of
    them returns one of them twice. *)
Definition ex_fresh_calls : list (data_call N) :=
  [CallLoad [fresh_tablet 10; fresh_tablet 20]; CallIn (LoadResponse 101 2 [11]); CallProgress []].
Theorem C70_fresh_tablets_refuted :
  exists s o a,
    ex_history 100 ex_fresh_calls s o a /\
    ob_handles s = [(AskedLoad [fresh_tablet 10; fresh_tablet 20] true, HandleBatch 1)] /\
    check s (HandleBatch 1) = Some (OutLoaded [(fresh_tablet 10, 11); (fresh_tablet 10, 11)]).
Proof.
  exists (ex_final ex_fresh_calls).1.1, (ex_final ex_fresh_calls).1.2, (ex_final ex_fresh_calls).2. split_and!; [|by vm_compute..].
  apply ex_final_history; [by vm_compute|]. repeat constructor.
Qed.

(** ** C71: names of written blobs *)
(** A store gives every tablet its next version, the size and hash of the
    contents, and a name made of id, version and hash; nothing else changes. *)
Theorem C71_written_metadata :
  forall V serialize deserialize sha256 base64 order (s : observed V) l s' ms i,
    perform serialize deserialize sha256 base64 order s (CallStore l) = Ok s' ->
    ob_handles s' = ob_handles s ++ [(AskedStore ms, HandleBatch i)] ->
    Forall2 (fun x m => exists contents, serialize x.2 = Some contents /\
      m = TabletMetadata (tm_id x.1) (tm_version x.1 + 1) (tm_deleted x.1) (tm_key x.1) (Nlen contents mod 2 ^ 32)
            (sha256 contents) (String.concat "_" [pretty (tm_id x.1); pretty (tm_version x.1 + 1); base64 (sha256 contents)])) l ms.
Proof.
  intros V se de sh ba order s l s' ms i Hp Hs. simpl in Hp. unfold store_tablets in Hp.
  destruct (prepare_all se sh ba l) as [[ms' [cs|]]| |] eqn:E; cbn [res_bind] in Hp; try done.
  - destruct (store_entries _ _) as [c1| |]; cbn [res_bind] in Hp; [|done..].
    destruct (start_batch _ _ _) as [[c2 h]| |]; cbn [res_bind] in Hp; [|done..]. injection Hp as <-. simpl in Hs.
    apply app_inv_head in Hs. injection Hs as <- _. apply prepare_all_written in E. eapply Forall2_impl; [exact E|].
    intros x m (c & Hc & A1 & A2 & A3 & A4 & A5 & A6 & A7). exists c. split; [done|]. destruct m; simpl in *; subst; done.
  - injection Hp as <-. simpl in Hs. by apply app_inv_head in Hs.
Qed.
(** Blobs of different tablets, versions or hashes have different names. *)
Theorem C71_names_differ :
  forall base64 id version hash id' version' hash',
    (forall x y, base64 x = base64 y -> x = y) ->
    blob_uri base64 id version hash = blob_uri base64 id' version' hash' ->
    id = id' /\ version = version' /\ hash = hash'.
Proof. intros. by eapply blob_uri_inj. Qed.
Example C71_example :
  blob_uri ex_text 12 3 [] = "12_3_"%string /\ blob_uri ex_text 1 23 [] = "1_23_"%string /\
  exists s', ex_perform ex_start (CallStore [(ex_meta 4 8 "d", 44)]) = Ok s' /\
    ob_handles s' = [(AskedStore [ex_written], HandleBatch 1)].
Proof. split_and!; [by vm_compute..|]. eexists. split; [by vm_compute|by vm_compute]. Qed.

(** ** C72: storing the same contents twice *)
(** A store aborts the cache if a tablet it writes is, with the same next version and
    the same contents, already in the cache: two transactions that make the same
    change to one tablet stop the replica. *)
Theorem C72_same_change_twice_refuted :
  exists s o a,
    ex_history 100 [CallStore [(ex_meta 4 8 "d", 44)]] s o a /\
    ex_perform s (CallStore [(ex_meta 4 8 "d", 44)]) = Panic.
Proof.
  exists (ex_final [CallStore [(ex_meta 4 8 "d", 44)]]).1.1, (ex_final [CallStore [(ex_meta 4 8 "d", 44)]]).1.2,
    (ex_final [CallStore [(ex_meta 4 8 "d", 44)]]).2. split; [|by vm_compute].
  apply ex_final_history; [by vm_compute|]. repeat constructor.
Qed.
(** A store whose tablets get names that are different and not in use succeeds. *)
Theorem C72_stores_of_new_names_partial :
  forall V serialize deserialize sha256 base64 order counter (calls : list (data_call V)) s o a l ms,
    entries_order order -> history serialize deserialize sha256 base64 order counter calls s o a ->
    Forall2 (fun x m => tm_version x.1 < u32_max /\ exists contents, serialize x.2 = Some contents /\
      tm_uri m = blob_uri base64 (tm_id x.1) (tm_version x.1 + 1) (sha256 contents)) l ms ->
    NoDup (map tm_uri ms) ->
    (forall q h m m', (q, h) ∈ ob_handles s -> m' ∈ asked_tablets q -> m ∈ ms -> tm_uri m <> tm_uri m') ->
    exists s', perform serialize deserialize sha256 base64 order s (CallStore l) = Ok s'.
Proof.
  intros V se de sh ba order counter calls s o a l ms Ho Hh Hl Hn Hnew.
  pose proof (history_inv _ _ _ Ho _ _ _ _ _ _ _ Hh) as [I _ _].
  destruct (history_known _ _ _ _ _ Ho _ _ _ _ _ Hh) as (Hk & _ & _).
  assert (exists ms' cs, prepare_all se sh ba l = Ok (ms', Some cs) /\ map tm_uri ms' = map tm_uri ms) as (ms' & cs & Hp & Hu).
  { clear Hn Hnew. induction Hl as [|[m v] m' l ms (Hv & c & Hc & Hm) Hl (ms' & cs & IH & IHu)]; [by eexists [], []|].
    simpl in *. unfold prepare_write. rewrite Hc. destruct (N.eqb_spec (tm_version m) u32_max); [lia|]. cbn [res_bind].
    rewrite IH. cbn [res_bind]. eexists _, _. split; [done|]. simpl. by rewrite IHu, Hm. }
  simpl. unfold store_tablets. rewrite Hp. cbn [res_bind].
  destruct (prepare_all_ok _ _ _ _ _ _ Hp) as (L1 & L2 & L3).
  assert (forall (c : data_cache V) x, NoDup (map (fun y : tablet_metadata * V * bytes => tm_uri y.1.1) x) ->
    (forall y, y ∈ x -> dc_entries c !! tm_uri y.1.1 = None) -> exists c', store_entries c x = Ok c') as Hst.
  { intros c x. revert c. induction x as [|[[m v] b] x IH]; intros c Hd Hx; [by eexists|]. simpl in *.
    pose proof (Hx (m, v, b) ltac:(by left)) as Hx0. simpl in Hx0. rewrite Hx0. apply NoDup_cons in Hd as [Hm Hd]. apply IH; [done|]. simpl. intros y Hy.
    rewrite lookup_insert_ne; [apply Hx; by right|]. intros He. apply Hm. simpl. rewrite He. apply elem_of_list_fmap. by exists y. }
  assert (map (fun y : tablet_metadata * V * bytes => tm_uri y.1.1) (zip (zip ms' (map snd l)) cs) = map tm_uri ms') as Hz.
  { transitivity (map tm_uri (map fst (map fst (zip (zip ms' (map snd l)) cs)))); [by rewrite !map_map|]. f_equal.
    assert (map fst (zip (zip ms' (map snd l)) cs) = zip ms' (map snd l)) as ->.
    { apply fst_zip. rewrite zip_with_length, map_length, L1, L2. lia. }
    apply fst_zip. rewrite map_length, L1. lia. }
  destruct (Hst (ob_cache s) (zip (zip ms' (map snd l)) cs)) as [c1 Hc1].
  - by rewrite Hz, Hu.
  - intros y Hy. destruct (dc_entries (ob_cache s) !! tm_uri y.1.1) as [e|] eqn:E; [|done]. exfalso.
    destruct (Hk _ _ E) as (q & h & Hq & Hm). pose proof (ci_entries _ _ _ _ _ _ I _ _ E) as [He _].
    assert (tm_uri y.1.1 ∈ map tm_uri ms) as Hy'.
    { rewrite <- Hu, <- Hz. apply elem_of_list_fmap. by exists y. }
    apply elem_of_list_fmap in Hy' as (m & Hm' & Hin). apply (Hnew q h m (en_meta e) Hq Hm Hin). congruence.
  - rewrite Hc1. cbn [res_bind].
    destruct (store_entries_inv _ _ _ _ _ _ _ _ I L3 Hc1) as (new & A1 & A2 & A3 & A4 & A5 & A6 & A7 & A8 & A9).
    assert (forall k, k ∈ map tm_uri ms' -> exists e, dc_entries c1 !! k = Some e /\ exists v, en_state e = EntryStore v) as Hk'.
    { intros k Hk'. rewrite <- Hz in Hk'. apply elem_of_list_fmap in Hk' as (y & -> & Hy). by apply A8. }
    destruct (start_batch_inv se de c1 (o ++ new) a (ob_handles s) (AskedStore ms') BatchStore) as (c2 & B1 & _); try done.
    + intros k Hx. destruct (Hk' k Hx) as (e & He & _). by exists e.
    + intros _. split; [done|]. intros k e Hx He. destruct (Hk' k Hx) as (e' & He' & ?). by simplify_eq.
    + unfold keys_of in B1. simpl in B1. rewrite B1. by eexists.
Qed.
Example C72_example :
  exists s', ex_perform ex_state (CallStore [(ex_meta 4 9 "d", 44); (ex_meta 5 9 "e", 45)]) = Ok s' /\
    check s' (HandleBatch 4) = None.
Proof. eexists. split; [by vm_compute|by vm_compute]. Qed.
