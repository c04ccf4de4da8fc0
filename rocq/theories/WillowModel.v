(** Model of the Willow decryptor application:
    apps/willow/decryptor/actor/src/actor.rs.

    Simplifications: serialisation is a record of functions; the cryptographic
    library is a pair of functions, key generation and decryption, that also
    take the randomness of the call; error messages are left out; sequence
    numbers are integers without the 32-bit bound (it takes 2^31 generations to
    overflow). *)
From Verif Require Import Base ActorModel.

(** actor.rs 51-58 KeyPair. *)
Record key_pair := KeyPair { kp_public : bytes; kp_private : bytes; kp_order : Z }.
(** actor.rs 60-64 DecryptorActor: the key pairs. *)
Notation key_store := (gmap bytes key_pair).

(** actor.rs 71. *)
Definition max_key_pairs : nat := 1000.

(** DecryptorRequest. *)
Inductive w_request := WGenerate (key : bytes) | WDecrypt (key : bytes) (request : bytes).
(** StatusCode of the errors that are used. *)
Inductive w_code := WFailedPrecondition | WInvalidArgument | WCrypto (code : Z).
(** DecryptorResponse; the key of a generated key is a [KeyProto] of the key id
    and the public key share. *)
Inductive w_response :=
| WGenerated (key public : bytes)
| WDecrypted (response : bytes)
| WError (code : w_code).
(** DecryptorEvent. *)
Inductive w_event :=
| GenerateKeyEvent (key public private : bytes) (order : Z)
| DecryptEvent (key response : bytes).
(** DecryptorSnapshot: SnapshotKeyPair. *)
Record w_pair := WPair { wp_key : bytes; wp_pair : key_pair }.

Record willow_codec := WillowCodec {
  (** None: cannot be parsed; Some None: the message is not set *)
  dec_wrequest : bytes -> option (option w_request);
  enc_wevent : w_event -> bytes;
  dec_wevent : bytes -> option (option w_event);
  enc_wresponse : w_response -> bytes;
  enc_wsnapshot : list w_pair -> bytes;
  dec_wsnapshot : bytes -> option (list w_pair);
}.

(** The order of byte strings in a [BTreeMap]: lexicographic. *)
Fixpoint bytes_leb (a b : bytes) : bool :=
  match a, b with
  | [], _ => true
  | _ :: _, [] => false
  | x :: a, y :: b => (x <? y) || ((x =? y) && bytes_leb a b)
  end.
Definition pair_le (x y : bytes * key_pair) : Prop := bytes_leb x.1 y.1 = true.
Global Instance pair_le_dec x y : Decision (pair_le x y).
Proof. unfold pair_le. apply _. Defined.
Definition key_list (st : key_store) : list (bytes * key_pair) := merge_sort pair_le (map_to_list st).

(** actor.rs 141-142: the largest sequence number, 0 if there is none. *)
Definition highest_order (st : key_store) : Z :=
  match map (fun x => kp_order x.2) (key_list st) with
  | [] => 0
  | o :: os => foldl Z.max o os
  end%Z.

(** actor.rs 213-217: [min_by_key], the first of the smallest. *)
Definition min_entry (l : list (bytes * key_pair)) : option (bytes * key_pair) :=
  foldl (fun best x =>
           match best with
           | None => Some x
           | Some b => if (kp_order x.2 <? kp_order b.2)%Z then Some x else Some b
           end) None l.
Definition oldest_key (st : key_store) : option bytes := fst <$> min_entry (key_list st).

(** actor.rs 204-230, the change of the key store by process_generate_key_event. *)
Definition store_key (st : key_store) (key public private : bytes) (order : Z) : key_store :=
  let st :=
    if (size st =? max_key_pairs)%nat
    then match oldest_key st with Some k => delete k st | None => st end
    else st in
  <[key := KeyPair public private order]> st.

Section Model.
Variable codec : willow_codec.
(** actor.rs 270-286 create_public_key_share: public and private share. *)
Variable keygen : bytes -> N -> bytes * bytes.
(** actor.rs 292-313 decrypt: key id, request, private share, randomness; it
    aborts when the request cannot be parsed. *)
Variable decrypt : bytes -> bytes -> bytes -> N -> res w_code bytes.

Definition respond (correlation : N) (r : w_response) : actor_command :=
  with_header correlation (enc_wresponse codec r).

(** actor.rs 118-155 process_generate_key_command. *)
Definition generate_command (entropy : N) (st : key_store) (correlation : N) (key : bytes) : command_outcome :=
  match st !! key with
  | Some kp => outcome_command (respond correlation (WGenerated key (kp_public kp)))
  | None =>
    let '(public, private) := keygen key entropy in
    outcome_event (ActorEvent correlation
      (enc_wevent codec (GenerateKeyEvent key public private (highest_order st + 1))))
  end.

(** actor.rs 157-196 process_decrypt_command. *)
Definition decrypt_command (entropy : N) (st : key_store) (correlation : N) (key request : bytes)
  : res actor_error command_outcome :=
  match st !! key with
  | None => Ok (outcome_command (respond correlation (WError WFailedPrecondition)))
  | Some kp =>
    match decrypt key request (kp_private kp) entropy with
    | Ok response => Ok (outcome_event (ActorEvent correlation (enc_wevent codec (DecryptEvent key response))))
    | Err code => Ok (outcome_command (respond correlation (WError code)))
    | Panic => Panic
    end
  end.

(** actor.rs 198-246 process_generate_key_event. *)
Definition generate_event (st : key_store) (owned : bool) (correlation : N) (key public private : bytes) (order : Z)
  : key_store * list actor_command :=
  (store_key st key public private order,
   if owned then [respond correlation (WGenerated key public)] else []).

(** actor.rs 248-268 process_decrypt_event. *)
Definition decrypt_event (st : key_store) (owned : bool) (correlation : N) (key response : bytes)
  : key_store * list actor_command :=
  (delete key st, if owned then [respond correlation (WDecrypted response)] else []).

(** actor.rs 351-357 on_init. *)
Definition willow_init (cx : actor_context) : res actor_error key_store := Ok ∅.

(** actor.rs 360-373 on_save_snapshot. *)
Definition willow_save (st : key_store) : res actor_error bytes :=
  Ok (enc_wsnapshot codec (map (fun '(k, kp) => WPair k kp) (key_list st))).

(** actor.rs 375-394 on_load_snapshot. *)
Definition willow_load (st : key_store) (snapshot : bytes) : res actor_error key_store :=
  match dec_wsnapshot codec snapshot with
  | None => Err ASnapshotLoading
  | Some pairs => Ok (foldl (fun m p => <[wp_key p := wp_pair p]> m) ∅ pairs)
  end.

(** actor.rs 396-454 on_process_command. *)
Definition willow_command (entropy : N) (cx : actor_context) (st : key_store) (c : option actor_command)
  : res actor_error (key_store * command_outcome) :=
  match c with
  | None => Ok (st, outcome_none)
  | Some c =>
    match dec_wrequest codec (ac_header c) with
    | None => Err AInternal
    | Some request =>
      if negb (cx_leader cx)
      then Ok (st, outcome_command (respond (ac_correlation c) (WError WFailedPrecondition)))
      else
        match request with
        | Some (WGenerate key) => Ok (st, generate_command entropy st (ac_correlation c) key)
        | Some (WDecrypt key request) =>
          let! out := decrypt_command entropy st (ac_correlation c) key request in Ok (st, out)
        | None => Ok (st, outcome_command (respond (ac_correlation c) (WError WInvalidArgument)))
        end
    end
  end.

(** actor.rs 456-498 on_apply_event. *)
Definition willow_apply (st : key_store) (cx : event_context) (ev : actor_event)
  : res actor_error (key_store * list actor_command) :=
  match dec_wevent codec (ae_contents ev) with
  | None => Err AInternal
  | Some (Some (GenerateKeyEvent key public private order)) =>
    Ok (generate_event st (ec_owned cx) (ae_correlation ev) key public private order)
  | Some (Some (DecryptEvent key response)) =>
    Ok (decrypt_event st (ec_owned cx) (ae_correlation ev) key response)
  | Some None => Ok (st, [respond (ae_correlation ev) (WError WInvalidArgument)])
  end.

(** The application, for the randomness each call uses. *)
Definition willow_actor (entropy : actor_context -> key_store -> option actor_command -> N) : actor key_store :=
  Actor _ willow_init willow_save willow_load
    (fun cx st c => willow_command (entropy cx st c) cx st c) willow_apply.
End Model.
