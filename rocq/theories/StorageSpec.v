(** Vocabulary in which the storage properties are stated. Nothing here is
    used by the model. *)
From Verif Require Import Base StorageModel.

(** The indices of the entries of [l] increase by exactly one: what Raft hands
    to [append]. *)
Definition consecutive (l : list rentry) : Prop :=
  forall k e e', l !! k = Some e -> l !! S k = Some e' -> re_index e' = re_index e + 1.

(** [reads s i e]: asking the storage for the range [i, i+1) returns [e]. *)
Definition reads (s : storage) (i : N) (e : rentry) : Prop :=
  storage_entries (fun _ => 1) s i (i + 1) None = Ok [e].

(** A node is a member of a configuration. *)
Definition member (p : N) (c : conf_state) : Prop :=
  p ∈ cs_voters c \/ p ∈ cs_learners c \/ p ∈ cs_voters_outgoing c.

(** A snapshot at [index] with configuration [c] serves the request of peer
    [p] for a snapshot at or above [r]. *)
Definition serves (index : N) (c : conf_state) (p r : N) : Prop :=
  r <= index /\ member p c.

(** The only obligation on the caller: appended entries are consecutive. *)
Definition op_ok (op : storage_op) : Prop :=
  match op with
  | OpAppend es => consecutive es
  | _ => True
  end.

(** The states an arbitrary history of calls leads to. *)
Definition reachable (s : storage) : Prop :=
  exists max_diff ops, Forall op_ok ops /\ storage_run (storage_new max_diff) ops = Some s.

(** Sum of the sizes of some entries. *)
Definition total (esize : rentry -> N) (l : list rentry) : N :=
  foldr (fun e acc => esize e + acc) 0 l.

(** [r] is the longest prefix of [full] whose sizes fit [limit], but never
    fewer than one entry. *)
Definition longest_fitting (esize : rentry -> N) (limit : N) (full r : list rentry) : Prop :=
  (exists rest, full = r ++ rest) /\
  (full <> [] -> r <> []) /\
  (total esize r <= limit \/ length r = 1%nat \/ full = []) /\
  (forall e rest, full = r ++ e :: rest -> limit < total esize (r ++ [e])).

(** A call installs a snapshot serving (p, r). *)
Definition installs (s : storage) (op : storage_op) (p r : N) : Prop :=
  match op with
  | OpApplySnapshot sn => (exists s', apply_snapshot s sn = Ok s') /\ serves (sn_index sn) (sn_conf sn) p r
  | OpCreateSnapshot a c d => (exists s', create_snapshot s a c d = Ok s') /\ serves a c p r
  | _ => False
  end.

(** History of calls that neither install a snapshot serving the request
    (p, r) nor replace it by another unsatisfied request of [p]. *)
Fixpoint quiet (s : storage) (ops : list storage_op) (p r : N) : Prop :=
  match ops with
  | [] => True
  | op :: ops' =>
    ~ installs s op p r /\
    (forall r', op = OpSnapshot r' p -> serves (snap_index s) (sn_conf (st_snap s)) p r') /\
    (forall s', storage_step s op = Some s' -> quiet s' ops' p r)
  end.


(** In the history [ops] on a fresh storage, peer [p] asked for a snapshot at
    [r], was turned away, and since then no snapshot serving it was stored and
    [p] was not turned away with another request. *)
Definition outstanding (max_diff : N) (ops : list storage_op) (p r : N) : Prop :=
  exists pre post s1 s2,
    ops = pre ++ OpSnapshot r p :: post /\
    storage_run (storage_new max_diff) pre = Some s1 /\
    ~ serves (snap_index s1) (sn_conf (st_snap s1)) p r /\
    storage_step s1 (OpSnapshot r p) = Some s2 /\
    quiet s2 post p r.
