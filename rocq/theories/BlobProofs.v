(** Proofs about the tablet data cache of the tablet cache application. *)
From Verif Require Import Base TabletModel BlobModel BlobSpec.
Local Arguments N.sub : simpl never.
Local Arguments N.add : simpl never.
Local Arguments N.eqb : simpl never.

Section Blob.
Context {V : Type}.
Variable serialize : V -> option bytes.
Variable deserialize : bytes -> option V.

(** * The batches waiting for entries *)
Definition waits_of (i : N) (x : string * entry V) : list string :=
  map (fun _ => x.1) (filter (fun j => j = i) (en_waiting x.2)).
Definition waits (m : gmap string (entry V)) (i : N) : list string := map_to_list m ≫= waits_of i.

Lemma waits_lookup m k e i : m !! k = Some e -> waits m i ≡ₚ waits_of i (k, e) ++ waits (delete k m) i.
Proof using Type. intros H. unfold waits. by rewrite <- (map_to_list_delete m k e H). Qed.
Lemma waits_insert m k e i : waits (<[k := e]> m) i ≡ₚ waits_of i (k, e) ++ waits (delete k m) i.
Proof using Type.
  rewrite (waits_lookup _ k e) by apply lookup_insert. by rewrite delete_insert_delete.
Qed.
Lemma waits_fresh m k e i : m !! k = None -> waits (<[k := e]> m) i ≡ₚ waits_of i (k, e) ++ waits m i.
Proof using Type. intros H. by rewrite waits_insert, delete_notin. Qed.
Lemma elem_of_waits_of i k e k' : k' ∈ waits_of i (k, e) <-> k' = k /\ i ∈ en_waiting e.
Proof using Type.
  unfold waits_of. rewrite elem_of_list_fmap. simpl. split.
  - intros (j & -> & Hj). apply elem_of_list_filter in Hj as [-> ?]. done.
  - intros [-> Hi]. exists i. split; [done|]. by apply elem_of_list_filter.
Qed.
Lemma elem_of_waits m i k : k ∈ waits m i <-> exists e, m !! k = Some e /\ i ∈ en_waiting e.
Proof using Type.
  unfold waits. rewrite elem_of_list_bind. split.
  - intros ([k' e] & H1 & H2). apply elem_of_waits_of in H1 as [-> ?]. apply elem_of_map_to_list in H2. by exists e.
  - intros (e & H1 & H2). exists (k, e). split; [by apply elem_of_waits_of|by apply elem_of_map_to_list].
Qed.
Lemma waits_nil m i : (forall k e, m !! k = Some e -> i ∉ en_waiting e) -> waits m i = [].
Proof using Type.
  intros H. destruct (waits m i) as [|k w] eqn:E; [done|]. exfalso.
  assert (k ∈ waits m i) as Hk by (rewrite E; by left). apply elem_of_waits in Hk as (e & He & Hi). by eapply H.
Qed.
Lemma waits_of_snoc i j k e : waits_of j (k, Entry (en_meta e) (en_state e) (en_waiting e ++ [i])) =
  waits_of j (k, e) ++ (if decide (i = j) then [k] else []).
Proof using Type.
  unfold waits_of. simpl. rewrite filter_app, map_app. f_equal. destruct (decide (i = j)) as [->|e'].
  - rewrite filter_cons_True by done. done.
  - rewrite filter_cons_False by done. done.
Qed.

(** * The result of one batch *)
Notation answers := (list (data_out * data_in)).
Definition provided (a : answers) (x : tablet_metadata * V) : Prop :=
  exists y, y ∈ a /\ provides serialize deserialize y (tm_uri x.1) x.2.
Definition refused (a : answers) (k : string) : Prop := exists y, y ∈ a /\ refuses deserialize y k.
Definition was_stored (a : answers) (k : string) : Prop := exists y, y ∈ a /\ stored y k.

Definition is_load (q : asked) : bool := match q with AskedLoad _ _ => true | _ => false end.
(** The load cannot complete early. *)
Definition full (q : asked) : Prop :=
  match q with AskedLoad ms w => w = true \/ length ms = 1%nat | AskedStore _ => False end.
Definition uris (l : list (tablet_metadata * V)) : list string := map (fun x => tm_uri x.1) l.
Definition loaded_ok (a : answers) (keys : list string) (x : tablet_metadata * V) : Prop :=
  tm_uri x.1 ∈ keys /\ provided a x.
Definition outcome_good (a : answers) (q : asked) (keys : list string) (r : option (outcome V)) : Prop :=
  match r with
  | None => True
  | Some OutFailed => exists k, k ∈ keys /\ refused a k
  | Some (OutLoaded l) => is_load q = true /\ Forall (loaded_ok a keys) l /\ (full q -> uris l ≡ₚ keys)
  | Some OutStored => is_load q = false /\ forall k, k ∈ keys -> was_stored a k
  end.
Definition batch_good (a : answers) (q : asked) (keys : list string) (ob : option (batch V)) (r : option (outcome V))
    (w : list string) : Prop :=
  (forall k, k ∈ w -> k ∈ keys) /\ outcome_good a q keys r /\
  (w = [] -> keys <> [] -> r <> None) /\
  match ob with
  | None => w = []
  | Some b =>
    bt_remaining b = Nlen w /\
    match bt_state b with
    | BatchLoad l => is_load q = true /\ r = None /\ Forall (loaded_ok a keys) l /\ (full q -> uris l ++ w ≡ₚ keys)
    | BatchStore => is_load q = false /\ r = None /\ forall k, k ∈ keys -> k ∈ w \/ was_stored a k
    | BatchError => r = Some OutFailed
    | BatchCompleted => is_Some r /\ (full q -> w = [])
    end
  end.

Lemma loaded_ok_mono a a' keys keys' x :
  (forall y, y ∈ a -> y ∈ a') -> (forall k, k ∈ keys -> k ∈ keys') -> loaded_ok a keys x -> loaded_ok a' keys' x.
Proof using Type. intros H1 H2 (Hk & y & Hy & Hp). split; [by apply H2|]. exists y. split; [by apply H1|done]. Qed.
Lemma Forall_loaded_mono a a' keys keys' l :
  (forall y, y ∈ a -> y ∈ a') -> (forall k, k ∈ keys -> k ∈ keys') ->
  Forall (loaded_ok a keys) l -> Forall (loaded_ok a' keys') l.
Proof using Type. intros H1 H2 H. eapply Forall_impl; [exact H|]. intros x. by apply loaded_ok_mono. Qed.
Lemma outcome_good_mono a a' q keys r :
  (forall y, y ∈ a -> y ∈ a') -> outcome_good a q keys r -> outcome_good a' q keys r.
Proof using Type.
  intros H. destruct r as [[l| |]|]; simpl; [| | |done].
  - intros (H1 & H2 & H3). split_and!; [done|by eapply Forall_loaded_mono|done].
  - intros [H1 H2]. split; [done|]. intros k Hk. destruct (H2 k Hk) as (y & Hy & ?). exists y. split; [by apply H|done].
  - intros (k & Hk & y & Hy & ?). exists k. split; [done|]. exists y. split; [by apply H|done].
Qed.
Lemma batch_good_mono a a' q keys ob r w :
  (forall y, y ∈ a -> y ∈ a') -> batch_good a q keys ob r w -> batch_good a' q keys ob r w.
Proof using Type.
  intros H (H1 & H2 & H3 & H4). split_and!; [done|by eapply outcome_good_mono|done|].
  destruct ob as [b|]; [|done]. destruct H4 as [H4 H5]. split; [done|]. destruct (bt_state b); try done.
  - destruct H5 as (? & ? & ? & ?). split_and!; try done. by apply (Forall_loaded_mono a _ keys).
  - destruct H5 as (? & ? & H6). split_and!; try done. intros k Hk. destruct (H6 k Hk) as [?|(y & Hy & ?)]; [by left|].
    right. exists y. split; [by apply H|done].
Qed.
Lemma batch_good_perm a q keys ob r w w' : w ≡ₚ w' -> batch_good a q keys ob r w -> batch_good a q keys ob r w'.
Proof using Type.
  intros Hp (H1 & H2 & H3 & H4).
  assert (w' = [] -> w = []) as Hnil by (intros e; rewrite e in Hp; apply Permutation_nil; by symmetry).
  assert (w = [] -> w' = []) as Hnil' by (intros e; rewrite e in Hp; apply Permutation_nil; by symmetry).
  split_and!.
  - intros k Hk. apply H1. by rewrite Hp.
  - done.
  - intros Hw. by apply H3, Hnil.
  - destruct ob as [b|]; [|by apply Hnil']. destruct H4 as [H4 H5].
    split; [rewrite H4; unfold Nlen; by rewrite Hp|]. destruct (bt_state b); try done.
    + destruct H5 as (? & ? & ? & H6). split_and!; try done. intros Hf. rewrite <- Hp. by apply H6.
    + destruct H5 as (? & ? & H6). split_and!; try done. intros k Hk. rewrite <- Hp. by apply H6.
    + destruct H5 as (? & H6). split; [done|]. intros Hf. by apply Hnil', H6.
Qed.

(** What an entry that became ready rests on. *)
Definition ready_good (a : answers) (q : asked) (k : string) (e : entry V) : Prop :=
  tm_uri (en_meta e) = k /\
  match en_state e with
  | EntryCache v => provided a (en_meta e, v) /\ (is_load q = false -> was_stored a k)
  | EntryError => refused a k
  | _ => False
  end.

Lemma set_outcome_ok (results : gmap N (outcome V)) i o :
  results !! i = None -> set_outcome results i o = Ok (<[i := o]> results).
Proof using Type. intros H. unfold set_outcome. by rewrite H. Qed.

(** An entry becoming ready is passed to a batch waiting for it. *)
Lemma resolve_good a q keys i b results k e w :
  batch_good a q keys (Some b) (results !! i) (k :: w) -> ready_good a q k e ->
  exists b' results', resolve_entry i b results e = Ok (b', results') /\
    batch_good a q keys (Some b') (results' !! i) w /\ forall j, j <> i -> results' !! j = results !! j.
Proof using Type.
  intros (H1 & H2 & H3 & H4 & H5) [Hu He]. unfold resolve_entry.
  assert (bt_remaining b <> 0) as Hnz by (rewrite H4; unfold Nlen; simpl; lia).
  assert (bt_remaining b - 1 = Nlen w) as Hrem by (rewrite H4; unfold Nlen; simpl length; lia).
  rewrite (proj2 (N.eqb_neq _ _) Hnz), Hrem.
  assert (forall k', k' ∈ w -> k' ∈ keys) as H1' by set_solver.
  assert (k ∈ keys) as Hk by (apply H1; by left).
  assert ((Nlen w =? 0) = true -> w = []) as Hw0.
  { intros Hx. apply N.eqb_eq in Hx. destruct w; [done|]. by unfold Nlen in Hx. }
  assert ((Nlen w =? 0) = false -> w <> []) as Hw1.
  { intros Hx. apply N.eqb_neq in Hx. by intros ->. }
  destruct (en_state e) as [|v|v|] eqn:Ee; [done|done| |].
  - destruct He as [Hp Hst]. destruct (bt_state b) as [l| | |] eqn:Eb.
    + destruct H5 as (Hq & Hr & Hl & Hf).
      assert (Forall (loaded_ok a keys) (l ++ [(en_meta e, v)])) as Hl'.
      { apply Forall_app. split; [done|]. constructor; [|constructor]. split; [simpl; congruence|done]. }
      assert (full q -> uris (l ++ [(en_meta e, v)]) ++ w ≡ₚ keys) as Hf'.
      { intros Hx. rewrite <- (Hf Hx). unfold uris. rewrite map_app. simpl. rewrite Hu, <- app_assoc. done. }
      destruct (Nlen w =? 0) eqn:Ew.
      * rewrite (set_outcome_ok _ _ _ Hr). simpl. eexists _, _. split; [done|].
        specialize (Hw0 eq_refl). subst w. split.
        -- rewrite lookup_insert. split_and!; try done.
           simpl. split_and!; try done. intros Hx. rewrite <- (Hf' Hx). by rewrite app_nil_r.
        -- intros j Hj. by rewrite lookup_insert_ne.
      * eexists _, _. split; [done|]. split; [|done]. rewrite Hr in *. split_and!; try done.
        intros ->. by specialize (Hw1 eq_refl).
    + destruct H5 as (Hq & Hr & Hs).
      assert (forall k', k' ∈ keys -> k' ∈ w \/ was_stored a k') as Hs'.
      { intros k' Hk'. destruct (Hs k' Hk') as [Hx|]; [|by right]. apply elem_of_cons in Hx as [->|]; [|by left].
        right. by apply Hst. }
      destruct (Nlen w =? 0) eqn:Ew.
      * rewrite (set_outcome_ok _ _ _ Hr). simpl. eexists _, _. split; [done|].
        specialize (Hw0 eq_refl). subst w. split.
        -- rewrite lookup_insert. split_and!; try done.
           simpl. split; [done|]. intros k' Hk'. destruct (Hs' k' Hk') as [Hx|]; [by apply elem_of_nil in Hx|done].
        -- intros j Hj. by rewrite lookup_insert_ne.
      * eexists _, _. split; [done|]. split; [|done]. rewrite Hr in *. split_and!; try done.
        intros ->. by specialize (Hw1 eq_refl).
    + eexists _, _. split; [done|]. split; [|done]. rewrite H5 in *. split_and!; done.
    + destruct H5 as [[x Hx] Hf]. eexists _, _. split; [done|]. split; [|done]. rewrite Hx in *. split_and!; try done.
      simpl. split; [by eexists|]. intros Hfull. by specialize (Hf Hfull).
  - destruct (bt_state b) as [l| | |] eqn:Eb.
    + destruct H5 as (Hq & Hr & Hl & Hf). rewrite (set_outcome_ok _ _ _ Hr). simpl. eexists _, _. split; [done|]. split.
      * rewrite lookup_insert. split_and!; try done. simpl. by exists k.
      * intros j Hj. by rewrite lookup_insert_ne.
    + destruct H5 as (Hq & Hr & Hs). rewrite (set_outcome_ok _ _ _ Hr). simpl. eexists _, _. split; [done|]. split.
      * rewrite lookup_insert. split_and!; try done. simpl. by exists k.
      * intros j Hj. by rewrite lookup_insert_ne.
    + eexists _, _. split; [done|]. split; [|done]. rewrite H5 in *. split_and!; done.
    + destruct H5 as [[x Hx] Hf]. eexists _, _. split; [done|]. split; [|done]. rewrite Hx in *. split_and!; try done.
      simpl. split; [by eexists|]. intros Hfull. by specialize (Hf Hfull).
Qed.

(** Adding a key to what a batch asks for. *)
Definition open_batch (q : asked) (b : batch V) : Prop :=
  full q \/ is_load q = false -> bt_state b <> BatchCompleted.
Lemma add_key_good a q p b r w k :
  open_batch q b -> batch_good a q p (Some b) r w ->
  batch_good a q (p ++ [k]) (Some (Batch (bt_state b) (bt_remaining b + 1))) r (k :: w).
Proof using Type.
  intros Ho (H1 & H2 & H3 & H4 & H5).
  assert (forall k', k' ∈ p -> k' ∈ p ++ [k]) as Hp by set_solver.
  split_and!.
  - intros k' Hk'. apply elem_of_cons in Hk' as [->|Hk']; [set_solver|]. by apply Hp, H1.
  - destruct r as [[l| |]|]; simpl in *; [| | |done].
    + destruct H2 as (A & B & C). split_and!; [done|by eapply Forall_loaded_mono|].
      intros Hf. exfalso. destruct (bt_state b) eqn:Eb; [by destruct H5 as (_ & [=] & _)|by destruct H5 as (_ & [=] & _)|done|].
      apply Ho; [by left|done].
    + destruct H2 as (A & B). exfalso.
      destruct (bt_state b) eqn:Eb; [by destruct H5 as (_ & [=] & _)|by destruct H5 as (_ & [=] & _)|done|].
      apply Ho; [by right|done].
    + destruct H2 as (k' & Hk' & ?). exists k'. split; [by apply Hp|done].
  - done.
  - simpl. rewrite H4. unfold Nlen. simpl. lia.
  - simpl. destruct (bt_state b) as [l| | |] eqn:Eb.
    + destruct H5 as (A & B & C & D). split_and!; [done|done|by eapply Forall_loaded_mono|].
      intros Hf. rewrite <- (D Hf). rewrite <- app_assoc. by apply Permutation_app_head, Permutation_cons_append.
    + destruct H5 as (A & B & C). split_and!; [done|done|]. intros k' Hk'.
      apply elem_of_app in Hk' as [Hk'|Hk'].
      * destruct (C k' Hk'); [left; by right|by right].
      * apply elem_of_list_singleton in Hk' as ->. left. by left.
    + done.
    + destruct H5 as (A & B). split; [done|]. intros Hf. exfalso. apply Ho; [by left|done].
Qed.

(** * Entries *)
Definition entry_good (o : list data_out) (a : answers) (k : string) (e : entry V) : Prop :=
  tm_uri (en_meta e) = k /\
  match en_state e with
  | EntryLoad => exists n, LoadRequest n k ∈ o
  | EntryStore v => exists n contents, StoreRequest n k contents ∈ o /\ serialize v = Some contents
  | EntryCache v => k ∉ map request_uri o /\ provided a (en_meta e, v)
  | EntryError => k ∉ map request_uri o /\ refused a k
  end.
Definition entries_like (i : N) (keys : list string) (m m' : gmap string (entry V)) : Prop :=
  forall k, match m !! k, m' !! k with
            | Some e, Some e' => en_meta e' = en_meta e /\ en_state e' = en_state e /\
                forall j, j ∈ en_waiting e' -> j ∈ en_waiting e \/ j = i /\ k ∈ keys
            | None, None => True
            | _, _ => False
            end.
Lemma entries_like_refl i keys m : entries_like i keys m m.
Proof using Type. intros k. destruct (m !! k); [|done]. split_and!; try done. by left. Qed.
Lemma entries_like_trans i keys m1 m2 m3 :
  entries_like i keys m1 m2 -> entries_like i keys m2 m3 -> entries_like i keys m1 m3.
Proof using Type.
  intros H1 H2 k. specialize (H1 k). specialize (H2 k).
  destruct (m1 !! k), (m2 !! k), (m3 !! k); try done. destruct H1 as (A & B & C), H2 as (A' & B' & C').
  split_and!; [congruence..|]. intros j Hj. destruct (C' j Hj) as [Hx|Hx]; [|by right]. by apply C.
Qed.
Lemma entries_like_weaken i keys keys' m m' :
  (forall k, k ∈ keys -> k ∈ keys') -> entries_like i keys m m' -> entries_like i keys' m m'.
Proof using Type.
  intros H H1 k. specialize (H1 k). destruct (m !! k), (m' !! k); try done. destruct H1 as (A & B & C). split_and!; try done.
  intros j Hj. destruct (C j Hj) as [?|[-> ?]]; [by left|right; by split; [|apply H]].
Qed.

(** The first key keeps the batch open, or the batch has one key. *)
Definition stays_open (q : asked) (p w : list string) (keys : list string) (m : gmap string (entry V)) : Prop :=
  full q -> w <> [] \/ keys = [] \/
    (p = [] /\ (length keys = 1%nat \/ exists k keys' e, keys = k :: keys' /\ m !! k = Some e /\ entry_ready e = false)).

Lemma register_good a o q i keys : forall p b results m,
  (forall k e, m !! k = Some e -> entry_good o a k e) ->
  (forall k, k ∈ keys -> is_Some (m !! k)) ->
  (is_load q = false -> bt_state b = BatchStore /\ forall k e, k ∈ keys -> m !! k = Some e -> exists v, en_state e = EntryStore v) ->
  (full q -> bt_state b = BatchCompleted -> keys = []) ->
  stays_open q p (waits m i) keys m ->
  batch_good a q p (Some b) (results !! i) (waits m i) ->
  exists b' results' m', register_keys i b results m keys = Ok (b', results', m') /\
    batch_good a q (p ++ keys) (Some b') (results' !! i) (waits m' i) /\
    (forall j, j <> i -> results' !! j = results !! j /\ waits m' j ≡ₚ waits m j) /\
    entries_like i keys m m'.
Proof using Type.
  induction keys as [|k keys IH]; intros p b results m Hm Hin Hst Hfc Hopen Hb.
  { eexists _, _, _. split; [done|]. rewrite app_nil_r. split_and!; [done|done|apply entries_like_refl]. }
  simpl. destruct (Hin k) as [e He]; [by left|]. rewrite He. unfold add_pending.
  assert (open_batch q b) as Ho.
  { intros [Hf|Hq] Hc; [by specialize (Hfc Hf Hc)|]. destruct (Hst Hq) as [Hs _]. congruence. }
  pose proof (add_key_good _ _ _ _ _ _ k Ho Hb) as Hb1.
  assert (entry_ready e = false ->
    exists b' results' m', register_keys i (Batch (bt_state b) (bt_remaining b + 1)) results
       (<[k := Entry (en_meta e) (en_state e) (en_waiting e ++ [i])]> m) keys = Ok (b', results', m') /\
    batch_good a q (p ++ k :: keys) (Some b') (results' !! i) (waits m' i) /\
    (forall j, j <> i -> results' !! j = results !! j /\ waits m' j ≡ₚ waits m j) /\
    entries_like i (k :: keys) m m') as Hpending.
  { intros Hready. set (m1 := <[k := _]> m).
    assert (forall j, waits m1 j ≡ₚ (if decide (i = j) then [k] else []) ++ waits m j) as Hw.
    { intros j. unfold m1. rewrite waits_insert, waits_of_snoc, (waits_lookup m k e j He).
      rewrite (Permutation_app_comm (waits_of j (k, e))). by rewrite <- app_assoc. }
    assert (entries_like i (k :: keys) m m1) as Hlike.
    { intros k'. unfold m1. destruct (decide (k = k')) as [<-|n].
      - rewrite lookup_insert, He. split_and!; [done|done|]. intros j Hj. apply elem_of_app in Hj as [?|Hj]; [by left|].
        apply elem_of_list_singleton in Hj as ->. right. split; [done|by left].
      - rewrite lookup_insert_ne by done. destruct (m !! k'); [|done]. split_and!; try done. by left. }
    destruct (IH (p ++ [k]) (Batch (bt_state b) (bt_remaining b + 1)) results m1) as (b' & results' & m' & R1 & R2 & R3 & R4).
    - intros k' e' He'. unfold m1 in He'. destruct (decide (k = k')) as [<-|n].
      + rewrite lookup_insert in He'. injection He' as <-. by apply (Hm k e).
      + rewrite lookup_insert_ne in He' by done. by apply Hm.
    - intros k' Hk'. unfold m1. destruct (decide (k = k')) as [<-|n]; [rewrite lookup_insert; by eexists|].
      rewrite lookup_insert_ne by done. apply Hin. by right.
    - intros Hq. destruct (Hst Hq) as [Hs1 Hs2]. split; [done|]. intros k' e' Hk' He'. unfold m1 in He'.
      destruct (decide (k = k')) as [<-|n].
      + rewrite lookup_insert in He'. injection He' as <-. simpl. eapply Hs2; [by left|done].
      + rewrite lookup_insert_ne in He' by done. eapply Hs2; [by right|done].
    - simpl. intros Hf Hc. by specialize (Hfc Hf Hc).
    - intros Hf. left. intros Hx. specialize (Hw i). rewrite Hx, decide_True in Hw by done.
      by apply Permutation_nil in Hw.
    - eapply batch_good_perm; [|exact Hb1]. rewrite (Hw i), decide_True by done. done.
    - rewrite <- app_assoc in R2. simpl in R2. eexists _, _, _. split_and!; try done.
      + intros j Hj. destruct (R3 j Hj) as [A B]. split; [done|]. rewrite B, (Hw j), decide_False by done. done.
      + eapply entries_like_trans; [exact Hlike|]. eapply entries_like_weaken; [|exact R4]. set_solver. }
  assert (entry_ready e = true -> ready_good a q k e ->
    exists b' results' m', 
      (let! (b, results, e) := (let! (b, results) := resolve_entry i (Batch (bt_state b) (bt_remaining b + 1)) results e in Ok (b, results, e))
       in register_keys i b results (<[k := e]> m) keys) = Ok (b', results', m') /\
    batch_good a q (p ++ k :: keys) (Some b') (results' !! i) (waits m' i) /\
    (forall j, j <> i -> results' !! j = results !! j /\ waits m' j ≡ₚ waits m j) /\
    entries_like i (k :: keys) m m') as Hready.
  { intros Hr Hrg. destruct (resolve_good _ _ _ _ _ _ _ _ _ Hb1 Hrg) as (b1 & results1 & R0 & Rb & Rj).
    rewrite R0. simpl. rewrite insert_id by done.
    destruct (IH (p ++ [k]) b1 results1 m) as (b' & results' & m' & R1 & R2 & R3 & R4).
    - done.
    - intros k' Hk'. apply Hin. by right.
    - intros Hq. destruct (Hst Hq) as [_ Hs2]. destruct (Hs2 k e) as [v Hv]; [by left|done|].
      exfalso. unfold entry_ready in Hr. by rewrite Hv in Hr.
    - intros Hf Hc. destruct (Hopen Hf) as [Hw|[Hw|(_ & Hw)]]; [|done|].
      + destruct Rb as (_ & _ & _ & _ & Rb). rewrite Hc in Rb. destruct Rb as [_ Rb]. by specialize (Rb Hf).
      + destruct Hw as [Hw|(k' & keys' & e' & [= <- <-] & He' & Hne)]; [by destruct keys|congruence].
    - intros Hf. destruct (Hopen Hf) as [Hw|[Hw|(_ & Hw)]]; [by left|done|].
      destruct Hw as [Hw|(k' & keys' & e' & [= <- <-] & He' & Hne)]; [right; left; by destruct keys|congruence].
    - done.
    - rewrite <- app_assoc in R2. simpl in R2. eexists _, _, _. split_and!; try done.
      + intros j Hj. destruct (R3 j Hj) as [A B]. split; [|done]. rewrite A. by apply Rj.
      + eapply entries_like_weaken; [|exact R4]. set_solver. }
  pose proof (Hm k e He) as [Hu Hg].
  destruct (en_state e) as [|v|v|] eqn:Es.
  - apply Hpending. unfold entry_ready. by rewrite Es.
  - apply Hpending. unfold entry_ready. by rewrite Es.
  - apply Hready; [unfold entry_ready; by rewrite Es|]. split; [done|]. rewrite Es. split; [by destruct Hg|].
    intros Hq. destruct (Hst Hq) as [_ Hs2]. destruct (Hs2 k e) as [v' Hv']; [by left|done|]. congruence.
  - apply Hready; [unfold entry_ready; by rewrite Es|]. split; [done|]. rewrite Es. by destruct Hg.
Qed.
End Blob.
