(** Model of the replica's consensus, runtime/src/consensus.rs: [RaftSimple], the
    implementation of the interface that [DriverModel.raft_ops] stands for, over a
    node of the raft crate and the storage of [StorageModel].

    Simplifications, for the whole file:
    - the node of the raft crate is external: any functions ([node_ops]);
    - calls of the interface that cannot report an error abort the process when
      the node is missing (consensus.rs 235-247) or the batch is unknown (358);
      [rs_aborted] records that. Calls that only read give some value then;
    - the loggers are left out. *)
From Verif Require Import Base StorageModel SnapshotModel CommModel ActorModel DriverModel.

(** raft crate: RawNode, its storage, its status and its batches. [NR]: a Ready
    after its contents have been taken (consensus.rs 340-349). *)
Record node_ops (ND NR : Type) := NodeOps {
  nd_new : N -> option raft_config -> storage -> res raft_error ND;
  nd_store : ND -> storage;
  nd_with_store : ND -> storage -> ND;
  nd_leads : ND -> bool;
  nd_leader : ND -> N;
  nd_term : ND -> N;
  nd_pending : ND -> bool;
  nd_step : ND -> rmsg -> ND * bool;
  nd_propose : ND -> bytes -> res raft_error ND;
  nd_propose_change : ND -> conf_change -> ND * option raft_error;
  nd_tick : ND -> ND;
  nd_apply_change : ND -> conf_change -> res raft_error (ND * conf_state);
  nd_has_ready : ND -> bool;
  nd_ready : ND -> ND * (ready * NR);
  nd_advance : ND -> NR -> ND * light_ready;
  nd_advance_apply : ND -> ND;
  nd_report : ND -> N -> snap_status -> ND;
}.
Arguments nd_new {ND NR}. Arguments nd_store {ND NR}. Arguments nd_with_store {ND NR}. Arguments nd_leads {ND NR}.
Arguments nd_leader {ND NR}. Arguments nd_term {ND NR}. Arguments nd_pending {ND NR}. Arguments nd_step {ND NR}.
Arguments nd_propose {ND NR}. Arguments nd_propose_change {ND NR}. Arguments nd_tick {ND NR}.
Arguments nd_apply_change {ND NR}. Arguments nd_has_ready {ND NR}. Arguments nd_ready {ND NR}.
Arguments nd_advance {ND NR}. Arguments nd_advance_apply {ND NR}. Arguments nd_report {ND NR}.

Section Consensus.
Context {ND NR : Type}.
Variable nops : node_ops ND NR.

(** consensus.rs 222-225 RaftSimple. *)
Record simple := Simple { rs_node : option ND; rs_ready : gmap N NR; rs_aborted : bool }.
(** consensus.rs 228-233 new. *)
Definition simple_new : simple := Simple None ∅ false.
Definition aborted (s : simple) : simple := Simple (rs_node s) (rs_ready s) true.
Definition with_node (s : simple) (n : ND) : simple := Simple (Some n) (rs_ready s) (rs_aborted s).

(** consensus.rs 235-247 mut_raft_node and raft_node. *)
Definition on_node {A} (s : simple) (otherwise : A) (f : ND -> ND * A) : simple * A :=
  match rs_node s with
  | Some n => let '(n, a) := f n in (with_node s n, a)
  | None => (aborted s, otherwise)
  end.
Definition on_node' (s : simple) (f : ND -> ND) : simple :=
  match rs_node s with Some n => with_node s (f n) | None => aborted s end.

(** consensus.rs 253-255 initialized. *)
Definition simple_initialized (s : simple) : bool := bool_decide (is_Some (rs_node s)).
(** consensus.rs 257-259 leader. *)
Definition simple_leader (s : simple) : bool :=
  match rs_node s with Some n => nd_leads nops n | None => false end.
(** consensus.rs 261-278 state. *)
Definition simple_state (s : simple) : raft_st :=
  match rs_node s with
  | Some n => if nd_leads nops n then RaftSt (nd_leader nops n) (nd_term nops n) [] (nd_pending nops n) else raft_st0
  | None => raft_st0
  end.

(** Errors of the storage as errors of the raft crate. *)
Definition from_store {A} (r : res serror A) : res raft_error A :=
  match r with Ok a => Ok a | Err _ => Err RaftOther | Panic => Panic end.

(** consensus.rs 284-305 init; driver.rs 287-298 creates the storage. *)
Definition simple_init (s : simple) (id : N) (config : option raft_config) (data : bytes) (leader : bool) (count : N)
  : res raft_error simple :=
  let! store :=
    if leader then from_store (apply_snapshot (storage_new count) (Snapshot 1 1 (conf_of_voters [id]) data))
    else Ok (storage_new count) in
  let! n := nd_new nops id config store in
  Ok (with_node s n).

(** consensus.rs 307-309 make_step. *)
Definition simple_step (s : simple) (m : rmsg) : simple * bool := on_node s false (fun n => nd_step nops n m).
(** consensus.rs 311-313 make_proposal. *)
Definition simple_propose (s : simple) (p : bytes) : res raft_error simple :=
  match rs_node s with Some n => let! n := nd_propose nops n p in Ok (with_node s n) | None => Panic end.
(** consensus.rs 315-321 make_config_change_proposal. *)
Definition simple_propose_change (s : simple) (c : conf_change) : simple * option raft_error :=
  on_node s None (fun n => nd_propose_change nops n c).
(** consensus.rs 323-325 make_tick. *)
Definition simple_tick (s : simple) : simple := on_node' s (nd_tick nops).
(** consensus.rs 327-333 apply_config_change. *)
Definition simple_apply_change (s : simple) (c : conf_change) : res raft_error (simple * conf_state) :=
  match rs_node s with
  | Some n => let! (n, conf) := nd_apply_change nops n c in Ok (with_node s n, conf)
  | None => Panic
  end.
(** consensus.rs 335-337 has_ready. *)
Definition simple_has_ready (s : simple) : bool :=
  match rs_node s with Some n => nd_has_ready nops n | None => false end.
(** consensus.rs 339-355 get_ready. *)
Definition no_ready : ready := Ready [] [] [] [] None (Snapshot 0 0 (conf_of_voters []) []) 0.
Definition simple_get_ready (s : simple) : simple * ready :=
  match rs_node s with
  | Some n => let '(n, (rd, rest)) := nd_ready nops n in (Simple (Some n) (<[rd_number rd := rest]> (rs_ready s)) (rs_aborted s), rd)
  | None => (aborted s, no_ready)
  end.
(** consensus.rs 357-364 advance_ready. *)
Definition simple_advance (s : simple) (number : N) : simple * light_ready :=
  match rs_ready s !! number, rs_node s with
  | Some rest, Some n =>
    let '(n, lr) := nd_advance nops n rest in (Simple (Some n) (delete number (rs_ready s)) (rs_aborted s), lr)
  | _, _ => (aborted s, LightReady [] [])
  end.
(** consensus.rs 366-368 advance_apply. *)
Definition simple_advance_apply (s : simple) : simple := on_node' s (nd_advance_apply nops).
(** consensus.rs 370-372 report_snapshot. *)
Definition simple_report (s : simple) (replica : N) (st : snap_status) : simple :=
  on_node' s (fun n => nd_report nops n replica st).

(** consensus.rs 280-282 mut_store, with the calls of the storage that the driver
    makes (consensus.rs 38-70). *)
Definition on_store (s : simple) (f : storage -> res serror storage) : res raft_error simple :=
  match rs_node s with
  | Some n => let! store := from_store (f (nd_store nops n)) in Ok (with_node s (nd_with_store nops n store))
  | None => Panic
  end.
Definition simple_set_hard (s : simple) (h : hard_state) : simple :=
  on_node' s (fun n => nd_with_store nops n (set_hard_state (nd_store nops n) h)).
Definition simple_append (s : simple) (es : list rentry) : res raft_error simple := on_store s (fun st => append_entries st es).
Definition simple_install (s : simple) (sn : snapshot) : res raft_error simple := on_store s (fun st => apply_snapshot st sn).
Definition simple_should_snapshot (s : simple) (applied : N) (c : conf_state) : bool :=
  match rs_node s with Some n => should_snapshot (nd_store nops n) applied c | None => false end.
Definition simple_create_snapshot (s : simple) (applied : N) (c : conf_state) (data : bytes) : res raft_error simple :=
  on_store s (fun st => create_snapshot st applied c data).
Definition simple_snapshot_size (s : simple) : N :=
  match rs_node s with Some n => latest_snapshot_size (nd_store nops n) | None => 0 end.

(** consensus.rs 250-374: the interface. *)
Definition simple_ops : raft_ops simple := RaftOps simple
  simple_initialized simple_leader simple_state simple_init simple_step simple_propose simple_propose_change simple_tick
  simple_apply_change simple_has_ready simple_get_ready simple_advance simple_advance_apply simple_report
  simple_set_hard simple_append simple_install simple_should_snapshot simple_create_snapshot simple_snapshot_size.
End Consensus.
Arguments simple : clear implicits.
