(** A node of the raft crate that needs no one else. *)
From Verif Require Import Base StorageModel SnapshotModel CommModel ActorModel DriverModel DriverSpec ConsensusModel DriverReplySpec.

(** As [agrees_alone], for a node of the raft crate on top of the store of the
    platform: what a batch leaves to be done is in what the crate keeps of it. *)
Record node_agrees_alone {ND NR} (o : node_ops ND NR) (holds : ND -> bytes -> Prop) (due : ND -> NR -> list rentry -> bytes -> Prop)
    (stored : ND -> NR -> bytes -> Prop) : Prop := NodeAgreesAlone {
  na_accepted : forall n p n', nd_propose o n p = Ok n' -> holds n' p;
  na_ready : forall n p, holds n p -> nd_has_ready o n = true;
  na_proposal : forall n p q n', holds n p -> nd_propose o n q = Ok n' -> holds n' p;
  na_message : forall n p m, holds n p -> holds (nd_step o n m).1 p;
  na_report : forall n p i st, holds n p -> holds (nd_report o n i st) p;
  na_tick : forall n p, holds n p -> holds (nd_tick o n) p;
  na_batch : forall n p n' rd rest, holds n p -> nd_ready o n = (n', (rd, rest)) ->
    among p (rd_committed rd) \/ rd_entries rd <> [] /\ due n' rest (rd_entries rd) p;
  na_hard : forall n rest es p h, due n rest es p -> due (nd_with_store o n (set_hard_state (nd_store o n) h)) rest es p;
  na_install : forall n rest es p sn st, due n rest es p -> apply_snapshot (nd_store o n) sn = Ok st -> due (nd_with_store o n st) rest es p;
  na_change : forall n rest es p ch n' cf, due n rest es p -> nd_apply_change o n ch = Ok (n', cf) -> due n' rest es p;
  na_append : forall n rest es p st, due n rest es p -> append_entries (nd_store o n) es = Ok st -> stored (nd_with_store o n st) rest p;
  na_stored : forall n rest p n' lr, stored n rest p -> nd_advance o n rest = (n', lr) -> among p (lr_committed lr);
}.
