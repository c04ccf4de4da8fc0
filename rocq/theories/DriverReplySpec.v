(** Requests that consensus agrees on, and their answers: what a client of one
    replica can count on. *)
From Verif Require Import Base StorageModel SnapshotModel CommModel ActorModel DriverModel DriverSpec.

(** Applications that answer every request: a request is answered at once under
    its number, or becomes an event under its number; and such an event is answered
    under its number when the replica it comes from applies it. *)
Record answers_all {ST} (app : actor ST) : Prop := AnswersAll {
  aa_request : forall cx st m st' out, a_command app cx st (Some m) = Ok (st', out) ->
    (exists y, y ∈ co_commands out /\ ac_correlation y = ac_correlation m) \/
    (exists ev, co_event out = Some ev /\ ae_correlation ev = ac_correlation m);
  aa_event : forall cx0 st0 m st0' out0 st cx ev st' out,
    a_command app cx0 st0 m = Ok (st0', out0) -> co_event out0 = Some ev ->
    a_apply app st cx ev = Ok (st', out) -> ec_owned cx = true ->
    exists y, y ∈ out /\ ac_correlation y = ae_correlation ev;
}.

(** Among the messages of the call number [b] to the host is one of the
    application with the number [n]. *)
Definition replies {REQ RESP} (outs : list (list (host_out REQ RESP))) (b : nat) (n : N) : Prop :=
  exists out y, outs !! b = Some out /\ OApp y ∈ out /\ ac_correlation y = n.

Section Spec.
Context {RS SP CS ST REQ RESP : Type}.
Variable codec : driver_codec.
Variable rops : raft_ops RS.
Variable sops : snap_ops SP.
Variable cops : comm_ops CS REQ RESP.
Variable app : actor ST.
Variable r : RS.
Variable s : SP.
Variable c : CS.
(** The calls to consensus, with their results, that a replica makes in the call
    number [b] of its history. *)
Definition consensus_calls (xs : list (delivery REQ RESP)) (b : nat) (calls : list raft_call) : Prop :=
  exists d1 o1 d2 o2, (b < length xs)%nat /\
    reaches codec rops sops cops app r s c (take b xs) d1 o1 /\ reaches codec rops sops cops app r s c (take (S b) xs) d2 o2 /\
    raft_calls d2 = raft_calls d1 ++ calls.
(** In this call, this is proposed to consensus. *)
Definition proposes (xs : list (delivery REQ RESP)) (b : nat) (p : bytes) : Prop :=
  exists calls, consensus_calls xs b calls /\ KPropose p ∈ calls.
(** In this call, consensus hands over this entry as agreed on. *)
Definition is_given (xs : list (delivery REQ RESP)) (b : nat) (e : rentry) : Prop :=
  exists calls es, consensus_calls xs b calls /\ inr es ∈ handed calls /\ e ∈ es.
End Spec.

(** Among these entries is one with this content. *)
Definition among (p : bytes) (es : list rentry) : Prop := exists e, e ∈ es /\ re_type e = EntryNormal /\ re_data e = p.
(** Consensus that needs no one else, as in a cluster of one replica: what it has
    accepted it [holds] until its next batch, which is ready from then on. It is
    agreed on in this batch; or the batch, with its number and the entries to be
    stored, makes it [due], and it is agreed on once these entries are [stored] and
    the batch with this number is acknowledged. *)
Record agrees_alone {RS} (o : raft_ops RS) (holds : RS -> bytes -> Prop) (due : RS -> N -> list rentry -> bytes -> Prop)
    (stored : RS -> N -> bytes -> Prop) : Prop := AgreesAlone {
  al_accepted : forall r p r', ra_propose o r p = Ok r' -> holds r' p;
  al_ready : forall r p, holds r p -> ra_initialized o r = true /\ ra_has_ready o r = true;
  al_proposal : forall r p q r', holds r p -> ra_propose o r q = Ok r' -> holds r' p;
  al_message : forall r p m, holds r p -> holds (ra_step o r m).1 p;
  al_report : forall r p i st, holds r p -> holds (ra_report o r i st) p;
  al_tick : forall r p, holds r p -> holds (ra_tick o r) p;
  al_batch : forall r p r' rd, holds r p -> ra_get_ready o r = (r', rd) ->
    among p (rd_committed rd) \/ rd_entries rd <> [] /\ due r' (rd_number rd) (rd_entries rd) p;
  al_hard : forall r n es p h, due r n es p -> due (ra_set_hard o r h) n es p;
  al_install : forall r n es p sn r', due r n es p -> ra_apply_snapshot o r sn = Ok r' -> due r' n es p;
  al_change : forall r n es p ch r' cf, due r n es p -> ra_apply_change o r ch = Ok (r', cf) -> due r' n es p;
  al_append : forall r n es p r', due r n es p -> ra_append o r es = Ok r' -> stored r' n p;
  al_stored : forall r n p r' lr, stored r n p -> ra_advance o r n = (r', lr) -> among p (lr_committed lr);
}.
