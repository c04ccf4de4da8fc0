(** Properties C01-C07: the replicated log storage. *)
From Verif Require Import Base StorageModel StorageSpec StorageProofs.

(** A concrete history used to show that the hypotheses below are met: five
    entries, a snapshot at 3, two overwritten entries, one unserved request. *)
Definition ent (i t : N) : rentry := REntry EntryNormal t i [i].
Definition demo_ops : list storage_op :=
  [ OpSetHardState (HardState 1 2 3);
    OpAppend [ent 1 1; ent 2 1; ent 3 1; ent 4 1; ent 5 1];
    OpCreateSnapshot 3 (ConfState [1; 2] [] [] [] false) [7; 7];
    OpAppend [ent 5 2; ent 6 2];
    OpSnapshot 5 2 ].
Definition demo : storage :=
  match storage_run (storage_new 10) demo_ops with Some s => s | None => storage_new 0 end.

Example demo_run : storage_run (storage_new 10) demo_ops = Some demo.
Proof. vm_compute. reflexivity. Qed.

Example demo_reachable : reachable demo.
Proof.
  exists 10, demo_ops. split; [|exact demo_run].
  unfold demo_ops. repeat (apply List.Forall_cons; [try done|]); [..|apply List.Forall_nil].
  all: intros [|[|[|[|[|k]]]]] e e'; simpl; intros ??; simplify_eq; try done.
Qed.

Example demo_shape :
  first_index demo = 3 /\ last_index demo = 6 /\ snap_index demo = 3 /\
  reads demo 4 (ent 4 1) /\ reads demo 5 (ent 5 2).
Proof. vm_compute. done. Qed.

(** C01 *)
Theorem C01_log_has_no_holes s : reachable s ->
  (first_index s = snap_index s \/ first_index s = snap_index s + 1) /\
  first_index s <= last_index s + 1 /\ snap_index s <= last_index s /\
  (forall i, first_index s <= i <= last_index s <-> exists e, reads s i e) /\
  (forall i e, reads s i e -> re_index e = i).
Proof. exact (contiguous s). Qed.

Theorem C01_fresh_log_is_empty d :
  reachable (storage_new d) /\ first_index (storage_new d) = 1 /\
  last_index (storage_new d) = 0 /\ snap_index (storage_new d) = 0 /\
  entry_term (storage_new d) 0 = Ok 0 /\
  initial_state (storage_new d) = (HardState 0 0 0, ConfState [] [] [] [] false).
Proof. split; [by exists d, []|done]. Qed.

(** Every single call keeps the caller inside the reachable states. *)
Theorem C01_reachable_closed s op s' :
  reachable s -> op_ok op -> storage_step s op = Some s' -> reachable s'.
Proof. exact (reachable_step s op s'). Qed.

(** C02 *)
Theorem C02_append_overwrites_conflicting_suffix s e0 es :
  reachable s -> consecutive (e0 :: es) ->
  first_index s <= re_index e0 <= last_index s + 1 ->
  exists s', append_entries s (e0 :: es) = Ok s' /\
    first_index s' = first_index s /\
    last_index s' = re_index e0 + Nlen es /\
    (forall i e, i < re_index e0 -> reads s' i e <-> reads s i e) /\
    (forall k e, reads s' (re_index e0 + N.of_nat k) e <-> (e0 :: es) !! k = Some e) /\
    st_snap s' = st_snap s /\ st_state s' = st_state s /\ st_reqs s' = st_reqs s /\
    st_max_diff s' = st_max_diff s.
Proof. exact (append_effect s e0 es). Qed.

Theorem C02_append_elsewhere_aborts s e0 es : reachable s ->
  ~ (first_index s <= re_index e0 <= last_index s + 1) ->
  append_entries s (e0 :: es) = Panic.
Proof. exact (append_refused s e0 es). Qed.

Theorem C02_append_nothing s : append_entries s [] = Ok s.
Proof. done. Qed.

Theorem C02_set_hard_state s h :
  st_state (set_hard_state s h) = h /\
  (forall i e, reads (set_hard_state s h) i e <-> reads s i e) /\
  st_snap (set_hard_state s h) = st_snap s /\ st_reqs (set_hard_state s h) = st_reqs s.
Proof. done. Qed.

Example C02_example :
  exists s', append_entries demo [ent 5 3] = Ok s' /\ reads s' 4 (ent 4 1) /\
    reads s' 5 (ent 5 3) /\ last_index s' = 5.
Proof. eexists. vm_compute. split; [reflexivity|]. done. Qed.

(** C03 *)
Theorem C03_range_reads_are_exact esize s low high max :
  reachable s -> (forall e, 0 < esize e) ->
  match storage_entries esize s low high max with
  | Ok r =>
      first_index s <= low <= high /\ high <= last_index s + 1 /\
      exists full, length full = N.to_nat (high - low) /\
        (forall k e, full !! k = Some e -> reads s (low + N.of_nat k) e) /\
        match max with
        | None => r = full
        | Some m => if m =? u64_max then r = full else longest_fitting esize m full r
        end
  | Err Unavailable => st_entries s = []
  | Err Compacted => st_entries s <> [] /\ low < first_index s
  | Err _ => False
  | Panic => st_entries s <> [] /\ first_index s <= low /\ (high < low \/ last_index s + 1 < high)
  end.
Proof. exact (entries_effect esize s low high max). Qed.

Theorem C03_available_ranges_are_served esize s low high max :
  reachable s -> st_entries s <> [] ->
  first_index s <= low <= high -> high <= last_index s + 1 ->
  exists r, storage_entries esize s low high max = Ok r.
Proof. exact (entries_complete esize s low high max). Qed.

Theorem C03_term_reads_agree s i : reachable s ->
  (i = snap_index s -> entry_term s i = Ok (snap_term s)) /\
  (i <> snap_index s -> forall e, reads s i e -> entry_term s i = Ok (re_term e)) /\
  (i <> snap_index s -> i < first_index s -> entry_term s i = Err Compacted) /\
  (last_index s < i -> entry_term s i = Err Unavailable).
Proof. exact (term_effect s i). Qed.

Example C03_example :
  storage_entries (fun _ => 10) demo 3 7 (Some 25) = Ok [ent 3 1; ent 4 1] /\
  storage_entries (fun _ => 10) demo 4 7 (Some 0) = Ok [ent 4 1] /\
  storage_entries (fun _ => 10) demo 2 7 None = Err Compacted /\
  entry_term demo 5 = Ok 2 /\ entry_term demo 7 = Err Unavailable.
Proof. vm_compute. done. Qed.

(** C04 *)
Theorem C04_snapshot_loses_no_unapplied_entry s a c d :
  reachable s -> first_index s <= a <= last_index s ->
  exists s' t, create_snapshot s a c d = Ok s' /\
    entry_term s a = Ok t /\
    st_snap s' = Snapshot a t c d /\
    first_index s' = a /\
    last_index s' = last_index s /\
    (forall i e, a <= i -> reads s' i e <-> reads s i e) /\
    (forall i e, i < a -> ~ reads s' i e) /\
    (forall i, a <= i -> entry_term s' i = entry_term s i) /\
    st_state s' = st_state s /\ st_max_diff s' = st_max_diff s.
Proof. exact (create_effect s a c d). Qed.

Theorem C04_snapshot_elsewhere_is_refused s a c d : reachable s ->
  (last_index s < a -> create_snapshot s a c d = Panic) /\
  (a < first_index s -> a <= last_index s -> create_snapshot s a c d = Err SnapshotOutOfDate).
Proof. exact (create_refused s a c d). Qed.

(** The snapshot index never moves backwards, whatever the calls. *)
Theorem C04_snapshot_index_never_moves_back s ops s' : reachable s -> Forall op_ok ops ->
  storage_run s ops = Some s' -> snap_index s <= snap_index s'.
Proof. intros H. exact (snap_mono ops s s' (reachable_inv s H)). Qed.

Theorem C04_latest_snapshot_size s a c d s' : reachable s ->
  create_snapshot s a c d = Ok s' -> latest_snapshot_size s' = Nlen d.
Proof.
  intros H%reachable_inv. rewrite create_cases by done.
  destruct (decide _); [done|]. destruct (decide _); [done|].
  destruct (entry_term s a); simpl; [|done|done]. by intros [= <-].
Qed.

Example C04_example :
  exists s', create_snapshot demo 5 (ConfState [1] [] [] [] false) [9] = Ok s' /\
    sn_term (st_snap s') = 2 /\ reads s' 6 (ent 6 2) /\ first_index s' = 5.
Proof. eexists. vm_compute. split; [reflexivity|]. done. Qed.

(** C05 *)
Theorem C05_installing_replaces_the_log s sn :
  reachable s -> first_index s <= sn_index sn ->
  exists s', apply_snapshot s sn = Ok s' /\
    st_snap s' = sn /\
    first_index s' = sn_index sn + 1 /\ last_index s' = sn_index sn /\
    (forall i e, ~ reads s' i e) /\
    entry_term s' (sn_index sn) = Ok (sn_term sn) /\
    hs_commit (st_state s') = sn_index sn /\
    hs_term (st_state s') = N.max (hs_term (st_state s)) (sn_term sn) /\
    hs_vote (st_state s') = hs_vote (st_state s) /\
    initial_state s' = (st_state s', sn_conf sn) /\ st_max_diff s' = st_max_diff s.
Proof. exact (apply_effect s sn). Qed.

Theorem C05_stale_snapshot_is_refused s sn :
  sn_index sn < first_index s -> apply_snapshot s sn = Err SnapshotOutOfDate.
Proof. exact (apply_refused s sn). Qed.

(** Finding: nothing stops an installed snapshot from moving the commit index
    back and dropping committed entries; Raft itself has to avoid it. *)
Theorem C05_commit_never_regresses_refuted :
  exists s sn s', reachable s /\ apply_snapshot s sn = Ok s' /\
    hs_commit (st_state s') < hs_commit (st_state s).
Proof.
  exists (set_hard_state demo (HardState 2 1 6)), (Snapshot 4 2 (conf_of_voters [1]) []).
  eexists. split; [|split; [vm_compute; reflexivity|done]].
  apply (C01_reachable_closed demo (OpSetHardState (HardState 2 1 6))); [apply demo_reachable|done|done].
Qed.

Example C05_example :
  exists s', apply_snapshot demo (Snapshot 9 4 (conf_of_voters [1; 2]) [1]) = Ok s' /\
    first_index s' = 10 /\ st_reqs s' = ∅ /\ st_reqs demo = {[2 := 5]}.
Proof. eexists. vm_compute. split; [reflexivity|]. done. Qed.

(** C06 *)
Theorem C06_snapshot_served_iff_satisfiable s r p :
  (serves (snap_index s) (sn_conf (st_snap s)) p r ->
     storage_snapshot s r p = (s, Ok (st_snap s))) /\
  (~ serves (snap_index s) (sn_conf (st_snap s)) p r ->
     snd (storage_snapshot s r p) = Err SnapshotTemporarilyUnavailable /\
     st_reqs (fst (storage_snapshot s r p)) = <[p := r]> (st_reqs s) /\
     st_snap (fst (storage_snapshot s r p)) = st_snap s /\
     st_entries (fst (storage_snapshot s r p)) = st_entries s /\
     st_state (fst (storage_snapshot s r p)) = st_state s /\
     st_max_diff (fst (storage_snapshot s r p)) = st_max_diff s).
Proof. exact (snapshot_effect s r p). Qed.

(** A snapshot is asked for exactly when the log outgrew the threshold or a
    request outstanding in the history would be served. *)
Theorem C06_snapshot_wanted_iff_threshold_or_outstanding d ops s a c :
  Forall op_ok ops -> storage_run (storage_new d) ops = Some s ->
  (should_snapshot s a c = true <->
   snap_index s + d < a \/ exists p r, outstanding d ops p r /\ serves a c p r).
Proof.
  intros Hf Hr. rewrite should_snapshot_iff.
  assert (st_max_diff s = d) as ->.
  { assert (Hg : forall ops s0, inv s0 -> Forall op_ok ops -> storage_run s0 ops = Some s ->
      st_max_diff s = st_max_diff s0); [|by rewrite (Hg _ _ (inv_new d) Hf Hr)].
    clear. induction ops as [|op ops IH]; simpl; intros s0 Hi Hf Hr; [by simplify_eq|].
    apply Forall_cons in Hf as [Ho Hf].
    destruct (storage_step s0 op) as [s1|] eqn:E; [|done].
    rewrite (IH _ (inv_step _ _ _ Hi Ho E) Hf Hr). clear IH Hr.
    destruct op as [h|es|sn|a c dd|r0 p0]; simpl in E.
    - by simplify_eq.
    - destruct (append_entries s0 es) eqn:Ea; simplify_eq; [|done].
      destruct es as [|e0 es]; [by simplify_eq/=|].
      rewrite append_cases in Ea by done. by destruct (decide _); simplify_eq.
    - rewrite apply_cases in E. by destruct (decide _); simplify_eq.
    - rewrite create_cases in E by done. destruct (decide _); [done|].
      destruct (decide _); [by simplify_eq|].
      destruct (entry_term s0 a); simpl in E; by simplify_eq.
    - simplify_eq. unfold storage_snapshot, try_satisfy_request.
      by destruct (satisfies_request _ _ _ _). }
  f_equiv. f_equiv; intros p. f_equiv; intros r. f_equiv. by apply outstanding_iff.
Qed.

Example C06_example :
  outstanding 10 demo_ops 2 5 /\
  should_snapshot demo 5 (conf_of_voters [1; 2]) = true /\
  should_snapshot demo 5 (conf_of_voters [1]) = false /\
  should_snapshot demo 4 (conf_of_voters [1; 2]) = false.
Proof.
  split; [|vm_compute; done].
  apply (outstanding_iff 10 demo_ops demo); [|exact demo_run|vm_compute; done].
  unfold demo_ops. repeat (apply List.Forall_cons; [try done|]); [..|apply List.Forall_nil].
  all: intros [|[|[|[|[|k]]]]] e e'; simpl; intros ??; simplify_eq; try done.
Qed.

(** C07 *)
Theorem C07_snapshotting_does_not_loop s a c d s' :
  reachable s -> create_snapshot s a c d = Ok s' ->
  forall b, b <= a -> should_snapshot s' b c = false.
Proof. exact (create_no_loop s a c d s'). Qed.

Theorem C07_no_snapshot_right_after_install s sn s' :
  apply_snapshot s sn = Ok s' ->
  forall b, b <= sn_index sn -> should_snapshot s' b (sn_conf sn) = false.
Proof. exact (apply_no_loop s sn s'). Qed.

Example C07_example :
  should_snapshot demo 6 (conf_of_voters [2]) = true /\
  exists s', create_snapshot demo 6 (conf_of_voters [2]) [] = Ok s' /\
    should_snapshot s' 6 (conf_of_voters [2]) = false.
Proof. split; [vm_compute; done|]. eexists. vm_compute. split; reflexivity. Qed.

Print Assumptions C01_log_has_no_holes.
Print Assumptions C06_snapshot_wanted_iff_threshold_or_outstanding.
