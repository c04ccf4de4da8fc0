From Verif Require Import Base StorageModel StorageSpec.

Record inv (s : storage) : Prop := {
  inv_idx : forall k e, st_entries s !! k = Some e -> re_index e = first_index s + N.of_nat k;
  inv_first : st_entries s = [] \/ first_index s = snap_index s \/ first_index s = snap_index s + 1;
}.

Lemma consecutive_idx e0 l : consecutive (e0 :: l) ->
  forall k e, (e0 :: l) !! k = Some e -> re_index e = re_index e0 + N.of_nat k.
Proof.
  intros H k. induction k as [|k IH]; intros e He.
  - simpl in He. injection He as <-. lia.
  - destruct ((e0 :: l) !! k) as [e1|] eqn:E1.
    + rewrite (H _ _ _ E1 He), (IH _ eq_refl). lia.
    + apply lookup_ge_None_1 in E1. apply lookup_lt_Some in He. simpl in *; lia.
Qed.

Lemma last_index_len s : inv s ->
  last_index s + 1 = (match st_entries s with [] => snap_index s + 1
                      | _ => first_index s + Nlen (st_entries s) end).
Proof.
  intros [Hi Hf]. unfold last_index. destruct (last (st_entries s)) as [e|] eqn:E.
  - rewrite last_lookup in E. pose proof (lookup_lt_Some _ _ _ E).
    rewrite (Hi _ _ E). destruct (st_entries s); simpl in *; [lia|]. unfold Nlen; simpl. lia.
  - apply last_None in E. rewrite E. done.
Qed.

Lemma last_index_nonempty s : inv s -> st_entries s <> [] ->
  last_index s + 1 = first_index s + Nlen (st_entries s).
Proof. intros H Hn. pose proof (last_index_len s H). destruct (st_entries s); done. Qed.

Lemma first_empty s : st_entries s = [] -> first_index s = snap_index s + 1.
Proof. unfold first_index. by intros ->. Qed.

Lemma last_empty s : st_entries s = [] -> last_index s = snap_index s.
Proof. unfold last_index. by intros ->. Qed.

Lemma Nlen_pos {A} (l : list A) : l <> [] -> 1 <= Nlen l.
Proof. destruct l; unfold Nlen; simpl; [done|lia]. Qed.

Lemma first_le s : inv s -> first_index s <= last_index s + 1 /\ snap_index s <= last_index s.
Proof.
  intros H. destruct (decide (st_entries s = [])) as [E|E].
  - rewrite (first_empty _ E), (last_empty _ E). lia.
  - pose proof (last_index_nonempty _ H E). pose proof (Nlen_pos _ E).
    destruct H as [_ [?|[?|?]]]; [done|lia|lia].
Qed.

Lemma last_first_len s : inv s -> last_index s + 1 = first_index s + Nlen (st_entries s).
Proof.
  intros H. destruct (decide (st_entries s = [])) as [E|E].
  - rewrite (first_empty _ E), (last_empty _ E), E. unfold Nlen; simpl; lia.
  - by apply last_index_nonempty.
Qed.

(** Characterisation of a single read. *)
Lemma take1_drop {A} (l : list A) k : take 1 (drop k l) = match l !! k with Some x => [x] | None => [] end.
Proof.
  revert k; induction l as [|x l IH]; intros [|k]; simpl; done.
Qed.

Lemma reads_lookup s i e : inv s ->
  reads s i e <-> first_index s <= i /\ st_entries s !! N.to_nat (i - first_index s) = Some e.
Proof.
  intros H. unfold reads, storage_entries.
  destruct (decide (st_entries s = [])) as [E|E].
  { rewrite E. split; [done|]. intros [_ ?]. done. }
  assert (Hm : forall A (a b : A), match st_entries s with [] => a | _ => b end = b).
  { intros. destruct (st_entries s); done. }
  rewrite Hm. pose proof (last_index_nonempty s H E) as Hl.
  destruct (N.ltb_spec i (first_index s)) as [L|L].
  { split; [done|]. lia. }
  destruct (N.ltb_spec (last_index s + 1) (i + 1)) as [L2|L2].
  { split; [done|]. intros [_ Hx]. apply lookup_lt_Some in Hx. unfold Nlen in Hl. lia. }
  destruct (N.ltb_spec (i + 1) (first_index s)); [lia|].
  replace (N.to_nat (i + 1 - first_index s)) with (S (N.to_nat (i - first_index s))) by lia.
  destruct (Nat.ltb_spec (S (N.to_nat (i - first_index s))) (N.to_nat (i - first_index s))); [lia|].
  destruct (Nat.ltb_spec (length (st_entries s)) (S (N.to_nat (i - first_index s)))) as [L3|L3].
  { unfold Nlen in Hl. lia. }
  replace (S (N.to_nat (i - first_index s)) - N.to_nat (i - first_index s))%nat with 1%nat by lia.
  rewrite take1_drop.
  destruct (st_entries s !! N.to_nat (i - first_index s)) as [x|] eqn:Hx.
  - unfold limit_size; simpl. split; [intros [= ->]; done|]. by intros [_ [= ->]].
  - apply lookup_ge_None_1 in Hx. lia.
Qed.

Lemma reads_exists s i : inv s ->
  (first_index s <= i /\ i <= last_index s <-> exists e, reads s i e).
Proof.
  intros H. pose proof (last_first_len s H) as Hl. unfold Nlen in Hl. split.
  - intros [? ?].
    destruct (st_entries s !! N.to_nat (i - first_index s)) as [x|] eqn:Hx.
    + exists x. apply reads_lookup; auto.
    + apply lookup_ge_None_1 in Hx. lia.
  - intros [e He]. apply reads_lookup in He as [? Hx]; [|done].
    apply lookup_lt_Some in Hx. lia.
Qed.

Lemma reads_index s i e : inv s -> reads s i e -> re_index e = i.
Proof.
  intros H Hr. apply reads_lookup in Hr as [? Hx]; [|done].
  rewrite (inv_idx _ H _ _ Hx). lia.
Qed.

Lemma reads_fun s i e e' : reads s i e -> reads s i e' -> e = e'.
Proof. unfold reads. intros -> [= ->]. done. Qed.

(** ** Preservation *)

Lemma inv_new d : inv (storage_new d).
Proof. split; [by intros [|k] e|by left]. Qed.

Lemma inv_set_hard_state s h : inv s -> inv (set_hard_state s h).
Proof. intros [H1 H2]. split; done. Qed.

Lemma append_cases s e0 es : inv s ->
  append_entries s (e0 :: es) =
    (if decide (first_index s <= re_index e0 <= last_index s + 1)
     then Ok (with_entries s (take (N.to_nat (re_index e0 - first_index s)) (st_entries s) ++ e0 :: es))
     else Panic).
Proof.
  intros H. pose proof (last_first_len s H) as Hl. unfold Nlen in Hl. unfold append_entries.
  destruct (N.ltb_spec (re_index e0) (first_index s)).
  { destruct (decide _); [lia|done]. }
  destruct (N.ltb_spec (last_index s + 1) (re_index e0)).
  { destruct (decide _); [lia|done]. }
  destruct (decide _); [|lia].
  destruct (Nat.ltb_spec (length (st_entries s)) (N.to_nat (re_index e0 - first_index s))); [lia|done].
Qed.

Lemma append_first s e0 es : inv s -> first_index s <= re_index e0 <= last_index s + 1 ->
  first_index (with_entries s (take (N.to_nat (re_index e0 - first_index s)) (st_entries s) ++ e0 :: es))
  = first_index s.
Proof.
  intros H Hr. pose proof (last_first_len s H) as Hl. unfold Nlen in Hl.
  unfold first_index at 1. simpl.
  destruct (st_entries s) as [|x l] eqn:E.
  - rewrite take_nil. simpl. pose proof (first_empty s E). pose proof (last_empty s E). lia.
  - destruct (N.to_nat (re_index e0 - first_index s)) as [|n] eqn:Hn; simpl; [|].
    + unfold first_index in *. rewrite E in *. simpl in *. lia.
    + unfold first_index. rewrite E. done.
Qed.

Lemma inv_append s es s' : inv s -> consecutive es -> append_entries s es = Ok s' -> inv s'.
Proof.
  intros H Hc Ha. destruct es as [|e0 es]; [by injection Ha as <-|].
  rewrite append_cases in Ha by done. destruct (decide _) as [Hr|]; [|done].
  injection Ha as <-. pose proof (append_first s e0 es H Hr) as Hf.
  pose proof (last_first_len s H) as Hl. unfold Nlen in Hl.
  set (s' := with_entries _ _) in *. split.
  - intros k e He. rewrite Hf. simpl in He.
    apply lookup_app_Some in He as [He|[Hk He]].
    + apply lookup_take_Some in He as [He _]. by apply inv_idx.
    + rewrite take_length in *.
      rewrite (consecutive_idx _ _ Hc _ _ He). lia.
  - rewrite Hf. change (snap_index s') with (snap_index s). right.
    destruct (inv_first _ H) as [E|?]; [|done]. rewrite (first_empty _ E). lia.
Qed.

Lemma inv_set_snapshot_empty s sn : st_entries s = [] -> inv (set_snapshot s sn).
Proof.
  intros E. split; [intros k e; simpl; rewrite E; done|]. left. simpl. done.
Qed.

Lemma apply_cases s sn :
  apply_snapshot s sn =
   (if decide (first_index s <= sn_index sn)
    then Ok (set_snapshot (Storage (HardState (N.max (hs_term (st_state s)) (sn_term sn))
                       (hs_vote (st_state s)) (sn_index sn)) [] (st_max_diff s) (st_snap s) (st_reqs s)) sn)
    else Err SnapshotOutOfDate).
Proof.
  unfold apply_snapshot. destruct (N.ltb_spec (sn_index sn) (first_index s)), (decide _); try done; lia.
Qed.

Lemma inv_apply s sn s' : inv s -> apply_snapshot s sn = Ok s' -> inv s'.
Proof.
  intros H. rewrite apply_cases. destruct (decide _); [|done]. intros [= <-].
  by apply inv_set_snapshot_empty.
Qed.

Lemma entry_term_ok s i : inv s -> first_index s <= i <= last_index s ->
  exists e, reads s i e /\
    entry_term s i = Ok (if i =? snap_index s then snap_term s else re_term e).
Proof.
  intros H Hr. destruct (proj1 (reads_exists s i H) Hr) as [e He].
  exists e. split; [done|]. apply reads_lookup in He as [? Hx]; [|done].
  unfold entry_term. destruct (N.eqb_spec i (snap_index s)); [done|].
  destruct (N.ltb_spec i (first_index s)); [lia|].
  destruct (N.ltb_spec (last_index s) i); [lia|]. by rewrite Hx.
Qed.

Lemma create_cases s a c d : inv s ->
  create_snapshot s a c d =
   (if decide (last_index s < a) then Panic
    else if decide (a < first_index s) then Err SnapshotOutOfDate
    else let! t := entry_term s a in
         Ok (with_entries (set_snapshot s (Snapshot a t c d))
              (drop (N.to_nat (a - first_index s)) (st_entries s)))).
Proof.
  intros H. unfold create_snapshot.
  destruct (N.ltb_spec (last_index s) a); destruct (decide (last_index s < a)); try done; try lia.
  destruct (N.ltb_spec a (first_index s)); destruct (decide (a < first_index s)); try done; try lia.
  destruct (entry_term_ok s a H ltac:(lia)) as (e & He & ->). simpl.
  generalize (if a =? snap_index s then snap_term s else re_term e). intros t.
  pose proof (last_first_len s H) as Hl. unfold Nlen in Hl.
  unfold compact_entries. destruct (st_entries s) as [|x l] eqn:E.
  { rewrite (first_empty s E) in *. rewrite (last_empty s E) in *. lia. }
  assert (Hf : first_index (set_snapshot s (Snapshot a t c d)) = first_index s).
  { unfold first_index. simpl. rewrite E. done. }
  assert (Hla : last_index (set_snapshot s (Snapshot a t c d)) = last_index s).
  { unfold last_index. simpl. rewrite E. rewrite last_cons. destruct (last l); done. }
  rewrite Hf, Hla. destruct (N.leb_spec a (first_index s)).
  { replace (N.to_nat (a - first_index s)) with 0%nat by lia.
    unfold with_entries, set_snapshot; simpl. rewrite E. done. }
  destruct (N.ltb_spec (last_index s + 1) a); [lia|]. simpl st_entries. rewrite E.
  assert (Hfx : first_index s = re_index x) by (unfold first_index; rewrite E; done).
  rewrite <- Hfx.
  destruct (Nat.ltb_spec (length (x :: l)) (N.to_nat (a - first_index s))); [lia|]. done.
Qed.

Lemma create_first s a t c d : inv s -> first_index s <= a <= last_index s ->
  first_index (with_entries (set_snapshot s (Snapshot a t c d))
              (drop (N.to_nat (a - first_index s)) (st_entries s))) = a.
Proof.
  intros H Hr. pose proof (last_first_len s H) as Hl. unfold Nlen in Hl.
  unfold first_index at 1. simpl.
  destruct (drop (N.to_nat (a - first_index s)) (st_entries s)) as [|x l] eqn:E.
  - apply (f_equal length) in E. rewrite drop_length in E. simpl in E. lia.
  - assert (Hx : st_entries s !! N.to_nat (a - first_index s) = Some x).
    { rewrite <- (Nat.add_0_r (N.to_nat _)), <- lookup_drop, E. done. }
    rewrite (inv_idx _ H _ _ Hx). lia.
Qed.

Lemma inv_create s a c d s' : inv s -> create_snapshot s a c d = Ok s' -> inv s'.
Proof.
  intros H. rewrite create_cases by done.
  destruct (decide _); [done|]. destruct (decide _); [done|].
  destruct (entry_term s a) as [t| |]; simpl; [|done|done]. intros [= <-].
  pose proof (create_first s a t c d H ltac:(lia)) as Hf.
  split.
  - intros k e He. rewrite Hf. simpl in He. rewrite lookup_drop in He.
    rewrite (inv_idx _ H _ _ He). lia.
  - right; left. rewrite Hf. done.
Qed.

Lemma inv_snapshot s r p : inv s -> inv (fst (storage_snapshot s r p)).
Proof.
  intros [H1 H2]. unfold storage_snapshot, try_satisfy_request.
  destruct (satisfies_request _ _ _ _); simpl; split; done.
Qed.

Lemma inv_step s op s' : inv s -> op_ok op -> storage_step s op = Some s' -> inv s'.
Proof.
  intros H Hop Hs. destruct op as [h|es|sn|a c d|r p]; simpl in Hs.
  - injection Hs as <-. by apply inv_set_hard_state.
  - destruct (append_entries s es) eqn:E; simplify_eq; eauto using inv_append.
  - destruct (apply_snapshot s sn) eqn:E; simplify_eq; eauto using inv_apply.
  - destruct (create_snapshot s a c d) eqn:E; simplify_eq; eauto using inv_create.
  - injection Hs as <-. by apply inv_snapshot.
Qed.

Lemma inv_run ops : forall s s', inv s -> Forall op_ok ops -> storage_run s ops = Some s' -> inv s'.
Proof.
  induction ops as [|op ops IH]; simpl; intros s s' H Hf Hr.
  - by injection Hr as <-.
  - apply Forall_cons in Hf as [Ho Hf].
    destruct (storage_step s op) as [s1|] eqn:E; [|done].
    eauto using inv_step.
Qed.

Lemma reachable_inv s : reachable s -> inv s.
Proof. intros (d & ops & Hf & Hr). eauto using inv_run, inv_new. Qed.

Lemma reachable_step s op s' : reachable s -> op_ok op -> storage_step s op = Some s' -> reachable s'.
Proof.
  intros (d & ops & Hf & Hr) Ho Hs. exists d, (ops ++ [op]). split.
  - apply Forall_app; auto.
  - clear Hf. revert Hr. generalize (storage_new d). induction ops as [|o ops IH]; simpl; intros s0 Hr.
    + injection Hr as ->. by rewrite Hs.
    + destruct (storage_step s0 o); [|done]. by apply IH.
Qed.

(** ** Effects *)

Lemma contiguous s : reachable s ->
  (first_index s = snap_index s \/ first_index s = snap_index s + 1) /\
  first_index s <= last_index s + 1 /\ snap_index s <= last_index s /\
  (forall i, first_index s <= i <= last_index s <-> exists e, reads s i e) /\
  (forall i e, reads s i e -> re_index e = i).
Proof.
  intros H%reachable_inv. destruct (first_le s H). split_and!; try done.
  - destruct (inv_first _ H) as [E|?]; [|done]. rewrite (first_empty _ E). auto.
  - intros i. by apply reads_exists.
  - intros i e. by apply reads_index.
Qed.

Lemma append_effect s e0 es : reachable s -> consecutive (e0 :: es) ->
  first_index s <= re_index e0 <= last_index s + 1 ->
  exists s', append_entries s (e0 :: es) = Ok s' /\
    first_index s' = first_index s /\
    last_index s' = re_index e0 + Nlen es /\
    (forall i e, i < re_index e0 -> reads s' i e <-> reads s i e) /\
    (forall k e, reads s' (re_index e0 + N.of_nat k) e <-> (e0 :: es) !! k = Some e) /\
    st_snap s' = st_snap s /\ st_state s' = st_state s /\ st_reqs s' = st_reqs s /\
    st_max_diff s' = st_max_diff s.
Proof.
  intros H%reachable_inv Hc Hr.
  pose proof (append_cases s e0 es H) as Ha. destruct (decide _); [|done].
  pose proof (inv_append _ _ _ H Hc Ha) as H'.
  pose proof (append_first s e0 es H Hr) as Hf.
  pose proof (last_first_len s H) as Hl. unfold Nlen in Hl.
  set (s' := with_entries _ _) in *. exists s'.
  split_and!; try done.
  - pose proof (last_first_len s' H') as Hl'. unfold Nlen in *. simpl in Hl'.
    rewrite app_length, take_length in Hl'. simpl in Hl'. lia.
  - intros i e Hi. rewrite !reads_lookup by done. rewrite Hf. simpl.
    destruct (decide (first_index s <= i)); [|naive_solver].
    rewrite lookup_app_l by (rewrite take_length; lia).
    rewrite lookup_take by lia. done.
  - intros k e. rewrite reads_lookup by done. rewrite Hf. simpl st_entries.
    rewrite lookup_app_r by (rewrite take_length; lia). rewrite take_length.
    replace (N.to_nat (re_index e0 + N.of_nat k - first_index s) -
      N.to_nat (re_index e0 - first_index s) `min` length (st_entries s))%nat with k by lia.
    split; [intros [_ ?]; done|]. intros; split; [lia|done].
Qed.

Lemma append_refused s e0 es : reachable s ->
  ~ (first_index s <= re_index e0 <= last_index s + 1) ->
  append_entries s (e0 :: es) = Panic.
Proof. intros H%reachable_inv Hr. rewrite append_cases by done. by destruct (decide _). Qed.

Lemma limit_count_le esize m es : forall size, (limit_count esize size m es <= length es)%nat.
Proof.
  induction es as [|e es IH]; intros size; simpl; [lia|].
  destruct (_ =? _); [|destruct (_ <=? _)]; specialize (IH (size + esize e)); lia.
Qed.

Lemma total_app esize l1 l2 : total esize (l1 ++ l2) = total esize l1 + total esize l2.
Proof. induction l1 as [|x l1 IH]; simpl; [done|]. unfold total in *. simpl. lia. Qed.

Lemma limit_count_pos esize m es : (forall e, e ∈ es -> 0 < esize e) -> forall size, 0 < size ->
  let r := take (limit_count esize size m es) es in
  (size + total esize r <= m \/ r = []) /\
  (forall e rest, es = r ++ e :: rest -> m < size + total esize (r ++ [e])).
Proof.
  intros Hp. induction es as [|e es IH]; intros size Hs; simpl.
  { split; [by right|]. intros; done. }
  destruct (N.eqb_spec size 0); [lia|].
  destruct (N.leb_spec (size + esize e) m).
  - simpl. destruct (IH ltac:(set_solver) (size + esize e) ltac:(lia)) as [I1 I2]. split.
    + left. destruct I1 as [I1|I1]; [|rewrite I1]; simpl; lia.
    + intros e' rest [= Hx]. specialize (I2 _ _ Hx). simpl. lia.
  - simpl. split; [by right|]. intros e' rest [= <- <-]. unfold total; simpl. lia.
Qed.

Lemma limit_size_longest esize m full : m <> u64_max ->
  (forall e, e ∈ full -> 0 < esize e) ->
  longest_fitting esize m full (limit_size esize full (Some m)).
Proof.
  intros Hm Hp. unfold limit_size, longest_fitting.
  destruct full as [|e full]; simpl.
  { split_and!; [by exists []|done|by right; right|]. by intros. }
  destruct full as [|e2 full'].
  { simpl. split_and!; [by exists []|done|by right; left|]. intros ? ? [=]. }
  set (full := e2 :: full') in *. assert (length full <> 0)%nat by (unfold full; simpl; lia).
  destruct (length full) eqn:?; [done|]. destruct (N.eqb_spec m u64_max); [done|].
  simpl. assert (0 < esize e) by (apply Hp; set_solver).
  destruct (limit_count_pos esize m full ltac:(set_solver) (esize e) ltac:(done)) as [I1 I2].
  set (r := take _ _) in *.
  split_and!.
  - exists (drop (limit_count esize (esize e) m full) full). unfold r. by rewrite take_drop.
  - done.
  - destruct I1 as [I1|I1]; [left; simpl; lia|]. right; left. rewrite I1. done.
  - intros e' rest [= Hx]. specialize (I2 _ _ Hx). simpl. lia.
Qed.

Lemma entries_effect esize s low high max : reachable s ->
  (forall e, 0 < esize e) ->
  match storage_entries esize s low high max with
  | Ok r =>
      first_index s <= low <= high /\ high <= last_index s + 1 /\
      exists full, length full = N.to_nat (high - low) /\
        (forall k e, full !! k = Some e -> reads s (low + N.of_nat k) e) /\
        match max with
        | None => r = full
        | Some m => if m =? u64_max then r = full else longest_fitting esize m full r
        end
  | Err Unavailable => st_entries s = []
  | Err Compacted => st_entries s <> [] /\ low < first_index s
  | Err _ => False
  | Panic => st_entries s <> [] /\ first_index s <= low /\ (high < low \/ last_index s + 1 < high)
  end.
Proof.
  intros H%reachable_inv Hp. unfold storage_entries.
  destruct (decide (st_entries s = [])) as [E|E].
  { rewrite E. done. }
  assert (Hm : forall A (a b : A), match st_entries s with [] => a | _ => b end = b).
  { intros. destruct (st_entries s); done. }
  rewrite Hm. pose proof (last_index_nonempty s H E) as Hl. unfold Nlen in Hl.
  destruct (N.ltb_spec low (first_index s)) as [L|L]; [done|].
  destruct (N.ltb_spec (last_index s + 1) high) as [L2|L2]; [auto|].
  destruct (N.ltb_spec high (first_index s)); [split_and!; auto; lia|].
  destruct (Nat.ltb_spec (N.to_nat (high - first_index s)) (N.to_nat (low - first_index s))).
  { split_and!; auto; lia. }
  destruct (Nat.ltb_spec (length (st_entries s)) (N.to_nat (high - first_index s))); [lia|].
  split; [lia|]. split; [lia|].
  set (full := take _ _). exists full.
  split_and!.
  - unfold full. rewrite take_length, drop_length. lia.
  - intros k e Hk. unfold full in Hk. apply lookup_take_Some in Hk as [Hk _].
    rewrite lookup_drop in Hk. apply reads_lookup; [done|]. split; [lia|].
    rewrite <- Hk. f_equal. lia.
  - destruct max as [m|].
    + destruct (N.eqb_spec m u64_max) as [->|Hne].
      * unfold limit_size. destruct (Nat.leb _ _); [done|]. by rewrite N.eqb_refl.
      * apply limit_size_longest; auto.
    + unfold limit_size. by destruct (Nat.leb _ _).
Qed.

Lemma entries_complete esize s low high max : reachable s -> st_entries s <> [] ->
  first_index s <= low <= high -> high <= last_index s + 1 ->
  exists r, storage_entries esize s low high max = Ok r.
Proof.
  intros H%reachable_inv E Hr Hr2. unfold storage_entries.
  assert (Hm : forall A (a b : A), match st_entries s with [] => a | _ => b end = b).
  { intros. destruct (st_entries s); done. }
  rewrite Hm. pose proof (last_index_nonempty s H E) as Hl. unfold Nlen in Hl.
  destruct (N.ltb_spec low (first_index s)); [lia|].
  destruct (N.ltb_spec (last_index s + 1) high); [lia|].
  destruct (N.ltb_spec high (first_index s)); [lia|].
  destruct (Nat.ltb_spec (N.to_nat (high - first_index s)) (N.to_nat (low - first_index s))); [lia|].
  destruct (Nat.ltb_spec (length (st_entries s)) (N.to_nat (high - first_index s))); [lia|].
  eauto.
Qed.

Lemma term_effect s i : reachable s ->
  (i = snap_index s -> entry_term s i = Ok (snap_term s)) /\
  (i <> snap_index s -> forall e, reads s i e -> entry_term s i = Ok (re_term e)) /\
  (i <> snap_index s -> i < first_index s -> entry_term s i = Err Compacted) /\
  (last_index s < i -> entry_term s i = Err Unavailable).
Proof.
  intros H%reachable_inv. destruct (first_le s H) as [? ?]. split_and!.
  - intros ->. unfold entry_term. by rewrite N.eqb_refl.
  - intros Hi e He. apply reads_lookup in He as Hx; [|done]. destruct Hx as [? Hx].
    assert (first_index s <= i <= last_index s) by (apply reads_exists; eauto).
    unfold entry_term. destruct (N.eqb_spec i (snap_index s)); [done|].
    destruct (N.ltb_spec i (first_index s)); [lia|].
    destruct (N.ltb_spec (last_index s) i); [lia|]. by rewrite Hx.
  - intros Hi Hlt. unfold entry_term. destruct (N.eqb_spec i (snap_index s)); [done|].
    destruct (N.ltb_spec i (first_index s)); [done|lia].
  - intros Hi. unfold entry_term. destruct (N.eqb_spec i (snap_index s)); [lia|].
    destruct (N.ltb_spec i (first_index s)); [lia|].
    destruct (N.ltb_spec (last_index s) i); [done|lia].
Qed.

Lemma create_effect s a c d : reachable s -> first_index s <= a <= last_index s ->
  exists s' t, create_snapshot s a c d = Ok s' /\
    entry_term s a = Ok t /\
    st_snap s' = Snapshot a t c d /\
    first_index s' = a /\
    last_index s' = last_index s /\
    (forall i e, a <= i -> reads s' i e <-> reads s i e) /\
    (forall i e, i < a -> ~ reads s' i e) /\
    (forall i, a <= i -> entry_term s' i = entry_term s i) /\
    st_state s' = st_state s /\ st_max_diff s' = st_max_diff s.
Proof.
  intros Hreach Hr. pose proof (reachable_inv _ Hreach) as H.
  destruct (entry_term_ok s a H Hr) as (e & He & Ht).
  pose proof (create_cases s a c d H) as Hc. rewrite Ht in Hc. simpl in Hc.
  destruct (decide _); [lia|]. destruct (decide _); [lia|].
  set (t := if a =? snap_index s then snap_term s else re_term e) in *.
  pose proof (create_first s a t c d H Hr) as Hf.
  pose proof (last_first_len s H) as Hl. unfold Nlen in Hl.
  assert (H' := inv_create _ _ _ _ _ H Hc).
  set (s' := with_entries _ _) in *. exists s', t.
  assert (Hla : last_index s' = last_index s).
  { pose proof (last_first_len s' H') as Hl'. unfold Nlen in *. simpl in Hl'.
    rewrite drop_length in Hl'. lia. }
  assert (Hreads : forall i e, a <= i -> reads s' i e <-> reads s i e).
  { intros i e' Hi. rewrite !reads_lookup by done. rewrite Hf. simpl. rewrite lookup_drop.
    replace (N.to_nat (a - first_index s) + N.to_nat (i - a))%nat
      with (N.to_nat (i - first_index s)) by lia.
    split; intros [? ?]; split; auto; lia. }
  split_and!; try done.
  - intros i e' Hi Hrd. apply reads_lookup in Hrd as [? _]; [|done]. lia.
  - intros i Hi. unfold entry_term at 1. change (snap_index s') with a.
    change (snap_term s') with t.
    destruct (N.eqb_spec i a) as [->|Hne]; [done|].
    rewrite Hf, Hla. destruct (N.ltb_spec i a); [lia|].
    unfold entry_term.
    destruct (N.eqb_spec i (snap_index s)) as [Hs|Hs].
    { destruct (inv_first _ H) as [E|[E|E]]; [|lia|lia].
      rewrite (first_empty _ E) in *. rewrite (last_empty _ E) in *. lia. }
    destruct (N.ltb_spec i (first_index s)); [lia|].
    destruct (N.ltb_spec (last_index s) i); [done|]. simpl. rewrite lookup_drop.
    replace (N.to_nat (a - first_index s) + N.to_nat (i - a))%nat
      with (N.to_nat (i - first_index s)) by lia. done.
Qed.

Lemma create_refused s a c d : reachable s ->
  (last_index s < a -> create_snapshot s a c d = Panic) /\
  (a < first_index s -> a <= last_index s -> create_snapshot s a c d = Err SnapshotOutOfDate).
Proof.
  intros H%reachable_inv. rewrite create_cases by done. split; intros.
  - by destruct (decide _).
  - destruct (decide _); [lia|]. by destruct (decide _).
Qed.

Lemma apply_effect s sn : reachable s -> first_index s <= sn_index sn ->
  exists s', apply_snapshot s sn = Ok s' /\
    st_snap s' = sn /\
    first_index s' = sn_index sn + 1 /\ last_index s' = sn_index sn /\
    (forall i e, ~ reads s' i e) /\
    entry_term s' (sn_index sn) = Ok (sn_term sn) /\
    hs_commit (st_state s') = sn_index sn /\
    hs_term (st_state s') = N.max (hs_term (st_state s)) (sn_term sn) /\
    hs_vote (st_state s') = hs_vote (st_state s) /\
    initial_state s' = (st_state s', sn_conf sn) /\ st_max_diff s' = st_max_diff s.
Proof.
  intros H%reachable_inv Hi. rewrite apply_cases. destruct (decide _); [|done].
  eexists. split; [done|]. split_and!; try done.
  unfold entry_term, snap_index. simpl. by rewrite N.eqb_refl.
Qed.

Lemma apply_refused s sn : sn_index sn < first_index s -> apply_snapshot s sn = Err SnapshotOutOfDate.
Proof. intros. rewrite apply_cases. destruct (decide _); [lia|done]. Qed.

(** Requests *)

Lemma member_contains c p : conf_contains c p = true <-> member p c.
Proof.
  unfold conf_contains, member. rewrite existsb_exists. split.
  - intros (x & Hx & He). apply N.eqb_eq in He as ->. apply elem_of_list_In in Hx.
    rewrite !elem_of_app in Hx. done.
  - intros Hm. exists p. split; [|by apply N.eqb_eq]. apply elem_of_list_In. by rewrite !elem_of_app.
Qed.

Lemma satisfies_serves i c p r : satisfies_request i c p r = true <-> serves i c p r.
Proof.
  unfold satisfies_request, serves. rewrite andb_true_iff, N.leb_le, member_contains. done.
Qed.

Lemma satisfies_serves_false i c p r : satisfies_request i c p r = false <-> ~ serves i c p r.
Proof.
  rewrite <- satisfies_serves. destruct (satisfies_request i c p r); split; done.
Qed.

Lemma snapshot_effect s r p :
  (serves (snap_index s) (sn_conf (st_snap s)) p r ->
     storage_snapshot s r p = (s, Ok (st_snap s))) /\
  (~ serves (snap_index s) (sn_conf (st_snap s)) p r ->
     snd (storage_snapshot s r p) = Err SnapshotTemporarilyUnavailable /\
     st_reqs (fst (storage_snapshot s r p)) = <[p := r]> (st_reqs s) /\
     st_snap (fst (storage_snapshot s r p)) = st_snap s /\
     st_entries (fst (storage_snapshot s r p)) = st_entries s /\
     st_state (fst (storage_snapshot s r p)) = st_state s /\
     st_max_diff (fst (storage_snapshot s r p)) = st_max_diff s).
Proof.
  unfold storage_snapshot, try_satisfy_request, config_state. split.
  - intros ->%satisfies_serves. done.
  - intros ->%satisfies_serves_false. done.
Qed.

Lemma should_snapshot_iff s a c :
  should_snapshot s a c = true <->
  snap_index s + st_max_diff s < a \/ exists p r, st_reqs s !! p = Some r /\ serves a c p r.
Proof.
  unfold should_snapshot. rewrite orb_true_iff, N.ltb_lt, existsb_exists. f_equiv. split.
  - intros ([p r] & Hin & Hs). exists p, r.
    apply elem_of_list_In, elem_of_map_to_list in Hin. by apply satisfies_serves in Hs.
  - intros (p & r & Hl & Hs). exists (p, r). split.
    + by apply elem_of_list_In, elem_of_map_to_list.
    + by apply satisfies_serves.
Qed.

Lemma set_snapshot_reqs s sn p r :
  st_reqs (set_snapshot s sn) !! p = Some r <->
  st_reqs s !! p = Some r /\ ~ serves (sn_index sn) (sn_conf sn) p r.
Proof.
  simpl. rewrite map_filter_lookup_Some. by rewrite satisfies_serves_false.
Qed.

Lemma create_no_loop s a c d s' : reachable s -> create_snapshot s a c d = Ok s' ->
  forall b, b <= a -> should_snapshot s' b c = false.
Proof.
  intros H%reachable_inv. rewrite create_cases by done.
  destruct (decide _); [done|]. destruct (decide _); [done|].
  destruct (entry_term s a) as [t| |]; simpl; [|done|done]. intros [= <-] b Hb.
  apply not_true_is_false. intros Hss%should_snapshot_iff. destruct Hss as [Hlt|(p & r & Hl & Hsv)].
  - unfold snap_index in Hlt; simpl in Hlt. lia.
  - change (st_reqs (set_snapshot s (Snapshot a t c d)) !! p = Some r) in Hl.
    apply set_snapshot_reqs in Hl as [_ Hn]. apply Hn. simpl.
    destruct Hsv. split; [lia|done].
Qed.

Lemma apply_no_loop s sn s' : apply_snapshot s sn = Ok s' ->
  forall b, b <= sn_index sn -> should_snapshot s' b (sn_conf sn) = false.
Proof.
  rewrite apply_cases. destruct (decide _); [|done]. intros [= <-] b Hb.
  apply not_true_is_false. intros Hss%should_snapshot_iff. destruct Hss as [Hlt|(p & r & Hl & Hsv)].
  - unfold snap_index in Hlt; simpl in Hlt. lia.
  - apply set_snapshot_reqs in Hl as [_ Hn]. apply Hn. destruct Hsv. split; [lia|done].
Qed.

Lemma reqs_step s op s' p r : inv s -> storage_step s op = Some s' ->
  (st_reqs s' !! p = Some r <->
   (st_reqs s !! p = Some r /\ ~ installs s op p r /\
      (forall r', op = OpSnapshot r' p -> serves (snap_index s) (sn_conf (st_snap s)) p r' \/ r' = r)) \/
   (op = OpSnapshot r p /\ ~ serves (snap_index s) (sn_conf (st_snap s)) p r)).
Proof.
  intros Hinv Hs. destruct op as [h|es|sn|a c d|r0 p0]; simpl in Hs.
  - injection Hs as <-. simpl. naive_solver.
  - assert (st_reqs s' = st_reqs s) as ->; [|naive_solver].
    destruct (append_entries s es) eqn:E; simplify_eq; [|done].
    destruct es as [|e0 es]; [by injection E as <-|].
    rewrite append_cases in E by done. destruct (decide _); simplify_eq. done.
  - unfold installs. pose proof (apply_cases s sn) as Hc. destruct (decide _).
    + rewrite Hc in *. simplify_eq. rewrite set_snapshot_reqs. simpl. naive_solver.
    + rewrite Hc in *. simplify_eq. naive_solver.
  - unfold installs. pose proof (create_cases s a c d Hinv) as Hc.
    destruct (decide _); [rewrite Hc in *; done|].
    destruct (decide _); [rewrite Hc in *; simplify_eq; naive_solver|].
    destruct (entry_term s a) as [t|t|]; simpl in Hc; rewrite Hc in *; simplify_eq; [|naive_solver].
    match goal with |- context [st_reqs ?x !! p] =>
      change (st_reqs x) with (st_reqs (set_snapshot s (Snapshot a t c d))) end.
    rewrite set_snapshot_reqs. simpl. naive_solver.
  - injection Hs as <-. pose proof (snapshot_effect s r0 p0) as [H1 H2].
    destruct (satisfies_request (snap_index s) (sn_conf (st_snap s)) p0 r0) eqn:Es.
    + apply satisfies_serves in Es. rewrite (H1 Es). simpl. split.
      * intros Hl. left. split_and!; [done|by intros ?|]. intros r' [= <- <-]. auto.
      * intros [(?&?&?)|[[= -> ->] ?]]; done.
    + apply satisfies_serves_false in Es. destruct (H2 Es) as (_ & -> & _).
      destruct (decide (p = p0)) as [->|Hne].
      * rewrite lookup_insert. split.
        -- intros [= ->]. right. done.
        -- intros [(?&?&Hx)|[[= ->] ?]]; [|done].
           destruct (Hx _ eq_refl) as [?| ->]; done.
      * rewrite lookup_insert_ne by done. simpl. naive_solver.
Qed.

Lemma request_persists ops : forall s s' p r, inv s -> Forall op_ok ops ->
  st_reqs s !! p = Some r -> quiet s ops p r -> storage_run s ops = Some s' ->
  st_reqs s' !! p = Some r.
Proof.
  induction ops as [|op ops IH]; simpl; intros s s' p r Hi Hf Hl Hq Hr.
  - by injection Hr as <-.
  - apply Forall_cons in Hf as [Ho Hf]. destruct Hq as (Hq1 & Hq2 & Hq3).
    destruct (storage_step s op) as [s1|] eqn:E; [|done].
    apply (IH s1 s' p r); [by eapply inv_step|done| |by apply Hq3|done].
    apply (reqs_step s op s1); [done|done|]. left. split_and!; [done|done|].
    intros r' Hop. left. by apply Hq2.
Qed.

(** Snapshot index only grows. *)
Lemma snap_mono_step s op s' : inv s -> storage_step s op = Some s' -> snap_index s <= snap_index s'.
Proof.
  intros Hi Hs. destruct op as [h|es|sn|a c d|r0 p0]; simpl in Hs.
  - injection Hs as <-. done.
  - destruct (append_entries s es) eqn:E; simplify_eq; [|done].
    destruct es as [|e0 es]; [by injection E as <-|].
    rewrite append_cases in E by done. destruct (decide _); simplify_eq. done.
  - rewrite apply_cases in Hs. destruct (decide _) as [Hle|]; simplify_eq; [|done].
    unfold snap_index at 2; simpl.
    destruct (inv_first _ Hi) as [E|[E|E]]; [rewrite (first_empty _ E) in *|..]; lia.
  - rewrite create_cases in Hs by done. destruct (decide _); [done|].
    destruct (decide _); simplify_eq; [done|].
    destruct (entry_term s a); simpl in Hs; simplify_eq; [|done].
    unfold snap_index at 2; simpl.
    destruct (inv_first _ Hi) as [E|[E|E]]; [rewrite (first_empty _ E) in *|..]; lia.
  - injection Hs as <-. unfold storage_snapshot, try_satisfy_request.
    by destruct (satisfies_request _ _ _ _).
Qed.

Lemma snap_mono ops : forall s s', inv s -> Forall op_ok ops -> storage_run s ops = Some s' ->
  snap_index s <= snap_index s'.
Proof.
  induction ops as [|op ops IH]; simpl; intros s s' Hi Hf Hr.
  - by injection Hr as <-.
  - apply Forall_cons in Hf as [Ho Hf].
    destruct (storage_step s op) as [s1|] eqn:E; [|done].
    etrans; [by eapply snap_mono_step|]. eauto using inv_step.
Qed.

Lemma run_app ops1 : forall s ops2, storage_run s (ops1 ++ ops2) =
  match storage_run s ops1 with Some s1 => storage_run s1 ops2 | None => None end.
Proof.
  induction ops1 as [|o ops1 IH]; simpl; intros s ops2; [done|].
  destruct (storage_step s o); [apply IH|done].
Qed.

Lemma quiet_snoc post : forall s op s1 p r, quiet s post p r -> storage_run s post = Some s1 ->
  ~ installs s1 op p r ->
  (forall r', op = OpSnapshot r' p -> serves (snap_index s1) (sn_conf (st_snap s1)) p r') ->
  quiet s (post ++ [op]) p r.
Proof.
  induction post as [|o post IH]; simpl; intros s op s1 p r Hq Hr Hn Hs.
  - injection Hr as ->. done.
  - destruct Hq as (?&?&Hq). split_and!; [done|done|]. intros s' Hs'. rewrite Hs' in Hr.
    eapply IH; eauto.
Qed.

Lemma outstanding_iff d ops : forall s, Forall op_ok ops ->
  storage_run (storage_new d) ops = Some s ->
  forall p r, st_reqs s !! p = Some r <-> outstanding d ops p r.
Proof.
  induction ops as [|op ops IH] using rev_ind; intros s Hf Hr p r.
  - injection Hr as <-. split; [done|]. intros (pre & post & s1 & s2 & He & _).
    by destruct pre.
  - apply Forall_app in Hf as [Hf _].
    rewrite run_app in Hr. destruct (storage_run (storage_new d) ops) as [s0|] eqn:E; [|done].
    simpl in Hr. destruct (storage_step s0 op) as [s1|] eqn:Es; [|done]. injection Hr as <-.
    assert (Hi : inv s0) by eauto using inv_run, inv_new.
    specialize (IH s0 Hf eq_refl). rewrite (reqs_step s0 op s1 p r Hi Es). split.
    + intros [(Hl & Hn & Hs)|[-> Hn]].
      * assert (op = OpSnapshot r p \/ op <> OpSnapshot r p) as [->|Hne].
        { destruct op as [| | | |r0 p0]; try (right; congruence).
          destruct (decide (r0 = r)), (decide (p0 = p)); subst; try (right; congruence). by left. }
        { destruct (satisfies_request (snap_index s0) (sn_conf (st_snap s0)) p r) eqn:Esat.
          - apply satisfies_serves in Esat. apply IH in Hl as (pre & post & sa & sb & -> & Ha & Hb & Hc & Hd).
            exists pre, (post ++ [OpSnapshot r p]), sa, sb. rewrite <- app_assoc. split_and!; try done.
            rewrite run_app, Ha in E. simpl in E. simpl in Hc. injection Hc as Hc. rewrite Hc in E.
            eapply quiet_snoc; eauto. intros r' [= <-]. done.
          - apply satisfies_serves_false in Esat. exists ops, [], s0, s1. done. }
        apply IH in Hl as (pre & post & sa & sb & -> & Ha & Hb & Hc & Hd).
        exists pre, (post ++ [op]), sa, sb. rewrite <- app_assoc. split_and!; try done.
        rewrite run_app, Ha in E. simpl in E. simpl in Hc. injection Hc as Hc. rewrite Hc in E.
        eapply quiet_snoc; eauto. intros r' Hop. destruct (Hs _ Hop); [done|]. by subst.
      * exists ops, [], s0, s1. done.
    + intros (pre & post & sa & sb & He & Ha & Hb & Hc & Hd).
      destruct post as [|o post _] using rev_ind.
      * apply app_inj_tail in He as [<- ->]. simplify_eq. right. done.
      * rewrite app_comm_cons, app_assoc in He. apply app_inj_tail in He as [-> ->].
        rewrite run_app, Ha in E. simpl in E. simpl in Hc. injection Hc as Hc. rewrite Hc in E.
        assert (Hq : quiet sb post p r /\ ~ installs s0 o p r /\
          (forall r', o = OpSnapshot r' p -> serves (snap_index s0) (sn_conf (st_snap s0)) p r')).
        { clear -Hd E. revert sb Hd E. induction post as [|o' post IH]; simpl; intros sb Hd E.
          - injection E as ->. destruct Hd as (?&?&?). done.
          - destruct Hd as (?&?&Hd). destruct (storage_step sb o') as [s'|] eqn:Es; [|done].
            destruct (IH s' (Hd _ eq_refl) E) as (?&?&?). split_and!; try done.
            intros s'' [= <-]. done. }
        destruct Hq as (Hq1 & Hq2 & Hq3). left. split_and!; [|done|].
        -- apply IH. exists pre, post, sa, sb. split_and!; try done. simpl. by rewrite Hc.
        -- intros r' Hop. left. by apply Hq3.
Qed.
