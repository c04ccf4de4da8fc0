(** Model of the in-memory Raft log storage, runtime/src/storage.rs.

    Simplifications, for the whole file:
    - u64 arithmetic is unbounded ([N]); index arithmetic in the code never
      subtracts below zero on the paths modelled, and additions overflow only
      for indices near 2^64;
    - [RaftSnapshot.metadata] and [metadata.conf_state] are [Option]s in the
      protobuf but always set by the code (util.rs 89-110), so they are plain
      fields here;
    - logging is omitted; the [RefCell] wrapper [MemoryStorage] (storage.rs
      338-440) only delegates. *)
From Verif Require Import Base.

(** raft eraftpb::ConfState. *)
Record conf_state := ConfState {
  cs_voters : list N;
  cs_learners : list N;
  cs_voters_outgoing : list N;
  cs_learners_next : list N;
  cs_auto_leave : bool;
}.

(** raft eraftpb::HardState. *)
Record hard_state := HardState { hs_term : N; hs_vote : N; hs_commit : N }.

(** raft eraftpb::EntryType. *)
Inductive entry_type := EntryNormal | EntryConfChange | EntryConfChangeV2.

(** raft eraftpb::Entry. Simplification: [context] and [sync_log] dropped. *)
Record rentry := REntry {
  re_type : entry_type;
  re_term : N;
  re_index : N;
  re_data : bytes;
}.

(** raft eraftpb::Snapshot with its metadata inlined. *)
Record snapshot := Snapshot {
  sn_index : N;
  sn_term : N;
  sn_conf : conf_state;
  sn_data : bytes;
}.

(** raft StorageError variants the code produces. *)
Inductive serror :=
| SnapshotOutOfDate
| Compacted
| Unavailable
| SnapshotTemporarilyUnavailable.

(** storage.rs 45-52. *)
Record storage := Storage {
  st_state : hard_state;
  st_entries : list rentry;
  st_max_diff : N;
  st_snap : snapshot;
  st_reqs : gmap N N;
}.

(** util.rs 169-176 config_state_contains_node. *)
Definition conf_contains (c : conf_state) (node : N) : bool :=
  existsb (fun id => id =? node)
    (cs_voters c ++ cs_learners c ++ cs_voters_outgoing c).

(** storage.rs 36-43 statisfies_snapshot_request. *)
Definition satisfies_request (snap_index : N) (c : conf_state) (peer req_index : N) : bool :=
  (req_index <=? snap_index) && conf_contains c peer.

(** util.rs 112-117 create_raft_config_state. *)
Definition conf_of_voters (voters : list N) : conf_state :=
  ConfState voters [] [] [] false.

(** storage.rs 55-67 new. *)
Definition storage_new (max_diff : N) : storage :=
  Storage (HardState 0 0 0) [] max_diff
          (Snapshot 0 0 (conf_of_voters []) []) ∅.

(** storage.rs 69-71 snapshot_index. *)
Definition snap_index (s : storage) : N := sn_index (st_snap s).

(** storage.rs 73-75 snapshot_term. *)
Definition snap_term (s : storage) : N := sn_term (st_snap s).

(** storage.rs 77-79 config_state. *)
Definition config_state (s : storage) : conf_state := sn_conf (st_snap s).

(** storage.rs 81-86 first_entry_index. *)
Definition first_index (s : storage) : N :=
  match st_entries s with
  | e :: _ => re_index e
  | [] => snap_index s + 1
  end.

(** storage.rs 88-93 last_entry_index. *)
Definition last_index (s : storage) : N :=
  match last (st_entries s) with
  | Some e => re_index e
  | None => snap_index s
  end.

(** storage.rs 95-97 set_hard_state. *)
Definition set_hard_state (s : storage) (h : hard_state) : storage :=
  Storage h (st_entries s) (st_max_diff s) (st_snap s) (st_reqs s).

Definition with_entries (s : storage) (es : list rentry) : storage :=
  Storage (st_state s) es (st_max_diff s) (st_snap s) (st_reqs s).

(** storage.rs 99-133 append_entries. [drain(k..)] panics when [k] exceeds
    the length. *)
Definition append_entries (s : storage) (es : list rentry) : res serror storage :=
  match es with
  | [] => Ok s
  | e0 :: _ =>
    let first_append := re_index e0 in
    if first_append <? first_index s then Panic
    else if last_index s + 1 <? first_append then Panic
    else
      let overwritten := N.to_nat (first_append - first_index s) in
      if Nat.ltb (length (st_entries s)) overwritten then Panic
      else Ok (with_entries s (take overwritten (st_entries s) ++ es))
  end.

(** storage.rs 135-157 compact_entries. [drain(..k)] panics when [k] exceeds
    the length. *)
Definition compact_entries (s : storage) (compact_index : N) : res serror storage :=
  if compact_index <=? first_index s then Ok s
  else if last_index s + 1 <? compact_index then Panic
  else
    match st_entries s with
    | e :: _ =>
      let offset := N.to_nat (compact_index - re_index e) in
      if Nat.ltb (length (st_entries s)) offset then Panic
      else Ok (with_entries s (drop offset (st_entries s)))
    | [] => Ok s
    end.

(** storage.rs 232-242 set_snapshot: store it and forget the requests it
    satisfies. *)
Definition set_snapshot (s : storage) (sn : snapshot) : storage :=
  Storage (st_state s) (st_entries s) (st_max_diff s) sn
    (filter (fun '(peer, req) =>
               satisfies_request (sn_index sn) (sn_conf sn) peer req = false)
            (st_reqs s)).

(** storage.rs 159-176 apply_snapshot. *)
Definition apply_snapshot (s : storage) (sn : snapshot) : res serror storage :=
  if sn_index sn <? first_index s then Err SnapshotOutOfDate
  else
    let h := HardState (N.max (hs_term (st_state s)) (sn_term sn))
                       (hs_vote (st_state s)) (sn_index sn) in
    Ok (set_snapshot (Storage h [] (st_max_diff s) (st_snap s) (st_reqs s)) sn).

(** storage.rs 304-321 entry_term. *)
Definition entry_term (s : storage) (index : N) : res serror N :=
  if index =? snap_index s then Ok (snap_term s)
  else
    let offset := first_index s in
    if index <? offset then Err Compacted
    else if last_index s <? index then Err Unavailable
    else
      match st_entries s !! N.to_nat (index - offset) with
      | Some e => Ok (re_term e)
      | None => Panic
      end.

(** storage.rs 178-213 create_snapshot. *)
Definition create_snapshot (s : storage) (applied : N) (c : conf_state) (data : bytes)
  : res serror storage :=
  if last_index s <? applied then Panic
  else if applied <? first_index s then Err SnapshotOutOfDate
  else
    let! term := entry_term s applied in
    compact_entries (set_snapshot s (Snapshot applied term c data)) applied.

(** storage.rs 215-230 try_satisfy_request. *)
Definition try_satisfy_request (s : storage) (peer req_index : N)
  : storage * option snapshot :=
  if satisfies_request (snap_index s) (config_state s) peer req_index
  then (s, Some (st_snap s))
  else (Storage (st_state s) (st_entries s) (st_max_diff s) (st_snap s)
                (<[peer := req_index]> (st_reqs s)), None).

(** storage.rs 244-256 should_snapshot. The order in which the hash map is
    scanned does not influence an existential. *)
Definition should_snapshot (s : storage) (applied : N) (c : conf_state) : bool :=
  (snap_index s + st_max_diff s <? applied)
  || existsb (fun '(peer, req) => satisfies_request applied c peer req)
             (map_to_list (st_reqs s)).

(** storage.rs 258-263 initial_state. *)
Definition initial_state (s : storage) : hard_state * conf_state :=
  (st_state s, config_state s).

(** storage.rs 323-335 snapshot. *)
Definition storage_snapshot (s : storage) (req_index peer : N)
  : storage * res serror snapshot :=
  match try_satisfy_request s peer req_index with
  | (s', Some sn) => (s', Ok sn)
  | (s', None) => (s', Err SnapshotTemporarilyUnavailable)
  end.

(** storage.rs 391-393 latest_snapshot_size. *)
Definition latest_snapshot_size (s : storage) : N := Nlen (sn_data (st_snap s)).

Section Sizes.
(** Protobuf-encoded size of an entry; any function. *)
Variable esize : rentry -> N.

(** raft util::limit_size (external crate, behaviour as documented there): the
    number of leading entries kept while their accumulated size does not
    exceed the limit; an entry is always kept while nothing has been counted
    yet. *)
Fixpoint limit_count (size : N) (max : N) (es : list rentry) : nat :=
  match es with
  | [] => 0
  | e :: es' =>
    if size =? 0 then S (limit_count (size + esize e) max es')
    else if size + esize e <=? max then S (limit_count (size + esize e) max es')
    else 0
  end.

(** raft util::limit_size: [None] and [u64::MAX] mean no limit; a vector of at
    most one entry is left alone. *)
Definition limit_size (es : list rentry) (max : option N) : list rentry :=
  if Nat.leb (length es) 1 then es
  else
    match max with
    | None => es
    | Some m => if m =? u64_max then es else take (limit_count 0 m es) es
    end.

(** storage.rs 265-302 entries. Slicing [lo..hi] panics when [lo > hi] or
    [hi] exceeds the length. *)
Definition storage_entries (s : storage) (low high : N) (max : option N)
  : res serror (list rentry) :=
  match st_entries s with
  | [] => Err Unavailable
  | _ =>
    if low <? first_index s then Err Compacted
    else if last_index s + 1 <? high then Panic
    else if high <? first_index s then Panic
    else
      let lo := N.to_nat (low - first_index s) in
      let hi := N.to_nat (high - first_index s) in
      if Nat.ltb hi lo then Panic
      else if Nat.ltb (length (st_entries s)) hi then Panic
      else Ok (limit_size (take (hi - lo) (drop lo (st_entries s))) max)
  end.
End Sizes.

(** The calls of the [Store]/[Storage] interface that change the storage
    (storage.rs 361-440). *)
Inductive storage_op :=
| OpSetHardState (h : hard_state)
| OpAppend (es : list rentry)
| OpApplySnapshot (sn : snapshot)
| OpCreateSnapshot (applied : N) (c : conf_state) (data : bytes)
| OpSnapshot (req_index peer : N).

(** One call. A refused call ([Err]) leaves the storage as it was; [None]
    means that the process aborted. *)
Definition storage_step (s : storage) (op : storage_op) : option storage :=
  match op with
  | OpSetHardState h => Some (set_hard_state s h)
  | OpAppend es =>
    match append_entries s es with Ok s' => Some s' | Err _ => Some s | Panic => None end
  | OpApplySnapshot sn =>
    match apply_snapshot s sn with Ok s' => Some s' | Err _ => Some s | Panic => None end
  | OpCreateSnapshot a c d =>
    match create_snapshot s a c d with Ok s' => Some s' | Err _ => Some s | Panic => None end
  | OpSnapshot r p => Some (fst (storage_snapshot s r p))
  end.

Fixpoint storage_run (s : storage) (ops : list storage_op) : option storage :=
  match ops with
  | [] => Some s
  | op :: ops' =>
    match storage_step s op with
    | Some s' => storage_run s' ops'
    | None => None
    end
  end.
