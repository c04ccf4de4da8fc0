(** What the decryptor properties talk about. *)
From Verif Require Import Base ActorModel ActorSpec WillowModel.

Record willow_codec_ok (c : willow_codec) : Prop := WillowCodecOk {
  wevent_round_trip : forall e, dec_wevent c (enc_wevent c e) = Some (Some e);
  wsnapshot_round_trip : forall s, dec_wsnapshot c (enc_wsnapshot c s) = Some s;
}.

(** The message that gives a response to the request with this number. *)
Definition w_answer (c : willow_codec) (n : N) (r : w_response) : actor_command := ActorCommand n (enc_wresponse c r) [].

Section Spec.
Variable codec : willow_codec.
Variable keygen : bytes -> N -> bytes * bytes.
Variable decrypt : bytes -> bytes -> bytes -> N -> res w_code bytes.

(** The key store after a log of events, starting from nothing. *)
Definition replay (log : list actor_event) : key_store :=
  foldl (fun st ev => match willow_apply codec st (EventContext 0 false) ev with
                      | Ok (st', _) => st' | _ => st end) ∅ log.

(** The decryptor service as its clients see it: the log of the current leader,
    and how many of its entries that leader has applied. *)
Record service := Service { sv_log : list actor_event; sv_applied : nat }.
Definition service0 : service := Service [] 0.

(** What can happen: the leader processes a command, with some randomness; it
    applies the next entry; another replica becomes leader, whose log is a prefix
    and who has applied fewer entries. *)
Inductive service_step :=
| SCommand (entropy : N) (cmd : actor_command)
| SApply
| SLeader (kept applied : nat).

Definition leader_context : actor_context := ActorCtx 1 0 [] true.
Definition step (s : service) (x : service_step) : service :=
  match x with
  | SCommand entropy cmd =>
    match willow_command codec keygen decrypt entropy leader_context
            (replay (take (sv_applied s) (sv_log s))) (Some cmd) with
    | Ok (_, out) => Service (sv_log s ++ option_list (co_event out)) (sv_applied s)
    | _ => s
    end
  | SApply => Service (sv_log s) (Nat.min (S (sv_applied s)) (length (sv_log s)))
  | SLeader kept applied => Service (take kept (sv_log s)) (Nat.min applied (Nat.min kept (length (sv_log s))))
  end.
Definition run_service (xs : list service_step) : service := foldl step service0 xs.

(** The event an entry stands for. *)
Definition event_of (ev : actor_event) : option w_event := mjoin (dec_wevent codec (ae_contents ev)).
Definition generates (key : bytes) (ev : actor_event) : Prop :=
  exists pub priv o, event_of ev = Some (GenerateKeyEvent key pub priv o).
Definition decrypts (key : bytes) (ev : actor_event) : Prop :=
  exists r, event_of ev = Some (DecryptEvent key r).

(** Commands are not overlapping: a command about a key id is processed only when
    no earlier proposal of the same kind about it is still waiting to be
    applied. *)
Definition waiting (s : service) : list actor_event := drop (sv_applied s) (sv_log s).
Definition no_overlap_step (s : service) (x : service_step) : Prop :=
  match x with
  | SCommand _ cmd =>
    match dec_wrequest codec (ac_header cmd) with
    | Some (Some (WGenerate key)) => forall ev, ev ∈ waiting s -> ~ generates key ev
    | Some (Some (WDecrypt key _)) => forall ev, ev ∈ waiting s -> ~ decrypts key ev
    | _ => True
    end
  | _ => True
  end.
Fixpoint no_overlap (s : service) (xs : list service_step) : Prop :=
  match xs with
  | [] => True
  | x :: xs => no_overlap_step s x /\ no_overlap (step s x) xs
  end.
End Spec.

(** An entry with the smallest sequence number. *)
Definition is_oldest (st : key_store) (key : bytes) : Prop :=
  exists kp, st !! key = Some kp /\ forall k' kp', st !! k' = Some kp' -> (kp_order kp <= kp_order kp')%Z.
