(** Vocabulary about applications. *)
From Verif Require Import Base ActorModel.

(** A log of events, each with the flag whether this replica proposed it.
    [apply_all] is what a replica that applies them in order ends with:
    the state and the commands sent, entry by entry. *)
Fixpoint apply_all {ST} (a : actor ST) (st : ST) (log : list (event_context * actor_event))
  : res actor_error (ST * list (list actor_command)) :=
  match log with
  | [] => Ok (st, [])
  | (cx, ev) :: log' =>
    let! (st', out) := a_apply a st cx ev in
    let! (st'', outs) := apply_all a st' log' in
    Ok (st'', out :: outs)
  end.

(** A sample serialisation of any countable type, used by the examples. *)
Definition sample_enc {A} `{Countable A} (x : A) : bytes := [Npos (encode x)].
Definition sample_dec {A} `{Countable A} (b : bytes) : option A :=
  match b with
  | [Npos p] => decode p
  | _ => None
  end.
Lemma sample_dec_enc {A} `{Countable A} (x : A) : sample_dec (sample_enc x) = Some x.
Proof. unfold sample_dec, sample_enc. apply decode_encode. Qed.
