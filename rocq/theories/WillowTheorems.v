(** Theorems about the Willow decryptor application (C43-C46, C62). *)
From Verif Require Import Base ActorModel ActorSpec WillowModel WillowSpec WillowProofs.

(** A sample serialisation, key generation (the randomness is the key) and
    decryption (it lists its inputs). *)
#[local] Instance key_pair_eq : EqDecision key_pair. Proof. solve_decision. Defined.
#[local] Instance key_pair_countable : Countable key_pair :=
  inj_countable' (fun p => (kp_public p, kp_private p, kp_order p)) (fun '(a, b, c) => KeyPair a b c) ltac:(by intros []).
#[local] Instance w_pair_eq : EqDecision w_pair. Proof. solve_decision. Defined.
#[local] Instance w_pair_countable : Countable w_pair :=
  inj_countable' (fun p => (wp_key p, wp_pair p)) (fun '(a, b) => WPair a b) ltac:(by intros []).
#[local] Instance w_event_eq : EqDecision w_event. Proof. solve_decision. Defined.
#[local] Instance w_event_countable : Countable w_event :=
  inj_countable' (fun e => match e with GenerateKeyEvent k p q o => inl (k, p, q, o) | DecryptEvent k r => inr (k, r) end)
    (fun x => match x with inl (k, p, q, o) => GenerateKeyEvent k p q o | inr (k, r) => DecryptEvent k r end)
    ltac:(by intros []).
#[local] Instance w_request_eq : EqDecision w_request. Proof. solve_decision. Defined.
#[local] Instance w_request_countable : Countable w_request :=
  inj_countable' (fun e => match e with WGenerate k => inl k | WDecrypt k r => inr (k, r) end)
    (fun x => match x with inl k => WGenerate k | inr (k, r) => WDecrypt k r end)
    ltac:(by intros []).
Definition sample_codec : willow_codec := WillowCodec
  sample_dec (fun e => sample_enc (Some e)) sample_dec
  (fun r => match r with WGenerated k p => 1 :: Nlen k :: k ++ p | WDecrypted r => 2 :: r | WError _ => [3] end)
  sample_enc sample_dec.
Example sample_codec_ok : willow_codec_ok sample_codec.
Proof. constructor; intros; apply sample_dec_enc. Qed.
Definition sample_keygen (key : bytes) (e : N) : bytes * bytes := ([e], [100 + e]).
Definition sample_decrypt (key request private : bytes) (e : N) : res w_code bytes :=
  match request with [] => Panic | _ => Ok (request ++ private) end.
Definition ask (correlation : N) (r : w_request) : actor_command := ActorCommand correlation (sample_enc (Some r)) [].

(** * C43 *)
(** No log of events makes the store grow over the maximum. *)
Theorem C43_store_is_bounded codec log :
  (size (replay codec log) <= 1000)%nat.
Proof.
  change 1000%nat with max_key_pairs.
  induction log as [|ev log IH] using rev_ind.
  { unfold replay. simpl. rewrite map_size_empty. unfold max_key_pairs. lia. }
  rewrite replay_snoc, effect_spec. destruct (event_of codec ev) as [[k pub priv o|k r]|]; [| |done].
  - by apply store_key_size.
  - destruct (replay codec log !! k) eqn:E.
    + rewrite map_size_delete_Some by eauto. lia.
    + by rewrite delete_notin.
Qed.
(** Storing a key under a new id: when the store is full, the pair of exactly
    one other id is removed, one with the smallest sequence number; otherwise
    nothing is removed. *)
Theorem C43_oldest_key_is_evicted codec st cx ev key pub priv o st' out :
  dec_wevent codec (ae_contents ev) = Some (Some (GenerateKeyEvent key pub priv o)) ->
  st !! key = None ->
  willow_apply codec st cx ev = Ok (st', out) ->
  st' !! key = Some (KeyPair pub priv o) /\
  (size st <> 1000%nat -> forall k', k' <> key -> st' !! k' = st !! k') /\
  (size st = 1000%nat -> exists victim, is_oldest st victim /\
     forall k', k' <> key -> st' !! k' = if decide (k' = victim) then None else st !! k').
Proof.
  intros Hd Hn. unfold willow_apply. rewrite Hd. intros [= <- _]. apply store_key_spec.
Qed.
(** Of two keys whose generation did not overlap, the one generated later has
    the larger sequence number, so "smallest sequence number" means "oldest". *)
Theorem C43_later_keys_have_larger_numbers codec keygen decrypt e cx st cmd key st' out ev k kp :
  willow_codec_ok codec ->
  dec_wrequest codec (ac_header cmd) = Some (Some (WGenerate key)) ->
  willow_command codec keygen decrypt e cx st (Some cmd) = Ok (st', out) -> co_event out = Some ev ->
  st !! k = Some kp ->
  exists pub priv o, dec_wevent codec (ae_contents ev) = Some (Some (GenerateKeyEvent key pub priv o)) /\
    (kp_order kp < o)%Z.
Proof.
  intros Hc Hd. unfold willow_command. rewrite Hd. destruct (cx_leader cx); simpl; [|by intros [= <- <-]].
  unfold generate_command. destruct (st !! key); [by intros [= <- <-]|].
  destruct (keygen key e) as [pub priv]. intros [= <- <-] [= <-] Hk. simpl.
  rewrite (wevent_round_trip _ Hc). eexists _, _, _. split; [done|].
  pose proof (highest_order_spec _ _ _ Hk). lia.
Qed.
Example C43_example :
  let gen k e := SCommand e (ask 1 (WGenerate k)) in
  let s := run_service sample_codec sample_keygen sample_decrypt [gen [7] 1; SApply; gen [8] 2; SApply] in
  map (fun x => (x.1, kp_order x.2)) (key_list (replay sample_codec (sv_log s))) = [([7], 1%Z); ([8], 2%Z)] /\
  (oldest_key (replay sample_codec (sv_log s))) = Some [7].
Proof. vm_compute. done. Qed.

(** * C44 *)
(** Two decryption requests that overlap are both answered, with the same
    generated key pair. *)
Theorem C44_key_is_used_once_refuted :
  exists codec keygen decrypt xs key,
    willow_codec_ok codec /\
    let log := sv_log (run_service codec keygen decrypt xs) in
    (* one generation, two decryptions *)
    (exists g d1 d2, log = [g; d1; d2] /\ generates codec key g /\ decrypts codec key d1 /\ decrypts codec key d2) /\
    (* both answered by the replica that proposed them *)
    match apply_all (willow_actor codec keygen decrypt (fun _ _ _ => 0)) ∅
            (map (fun ev => (EventContext 0 true, ev)) log) with
    | Ok (_, [[_]; [a1]; [a2]]) =>
        exists r1 r2, a1 = w_answer codec 2 (WDecrypted r1) /\ a2 = w_answer codec 3 (WDecrypted r2) /\ r1 <> r2
    | _ => False
    end.
Proof.
  exists sample_codec, sample_keygen, sample_decrypt,
    [SCommand 5 (ask 1 (WGenerate [7])); SApply;
     SCommand 0 (ask 2 (WDecrypt [7] [1])); SCommand 0 (ask 3 (WDecrypt [7] [2])); SApply; SApply], [7].
  split; [exact sample_codec_ok|].
  assert (Hl : sv_log (run_service sample_codec sample_keygen sample_decrypt
     [SCommand 5 (ask 1 (WGenerate [7])); SApply;
     SCommand 0 (ask 2 (WDecrypt [7] [1])); SCommand 0 (ask 3 (WDecrypt [7] [2])); SApply; SApply])
     = [ActorEvent 1 (enc_wevent sample_codec (GenerateKeyEvent [7] [5] [105] 1));
        ActorEvent 2 (enc_wevent sample_codec (DecryptEvent [7] [1; 105]));
        ActorEvent 3 (enc_wevent sample_codec (DecryptEvent [7] [2; 105]))]).
  { vm_compute. reflexivity. }
  rewrite Hl. cbn zeta. split.
  - eexists _, _, _. split; [reflexivity|].
    unfold generates, decrypts, event_of; cbn [ae_contents].
    rewrite !(wevent_round_trip _ sample_codec_ok). simpl. split_and!; eauto 10.
  - unfold willow_actor, willow_apply. cbn [map apply_all a_apply ae_contents ae_correlation ec_owned].
    pose proof (wevent_round_trip _ sample_codec_ok) as Hr.
    repeat (rewrite Hr; unfold generate_event, decrypt_event; cbn [bind ec_owned ae_contents ae_correlation]).
    exists [1; 105], [2; 105]. done.
Qed.
(** What holds: if no decryption command for a key id is processed while an
    earlier decryption for it waits to be applied, then between any two
    decryptions for a key id there is a generation of a new key pair, and each
    uses the pair of a generation before it. *)
Theorem C44_key_is_used_once_partial codec keygen decrypt xs key i j ev1 ev2 :
  willow_codec_ok codec ->
  no_overlap codec keygen decrypt service0 xs ->
  let log := sv_log (run_service codec keygen decrypt xs) in
  (i < j)%nat -> log !! i = Some ev1 -> log !! j = Some ev2 ->
  decrypts codec key ev1 -> decrypts codec key ev2 ->
  exists m ev, (i < m < j)%nat /\ log !! m = Some ev /\ generates codec key ev.
Proof.
  intros Hc Hno log Hij Hi Hj [r1 D1] [r2 D2].
  destruct (run_inv_no codec keygen decrypt Hc xs Hno j ev2 Hj) as (a&Haj&Ha).
  rewrite D2 in Ha. destruct Ha as [Hpres Hnone].
  assert (Hai : (i < a)%nat).
  { destruct (decide (i < a)%nat) as [|Hge]; [done|]. destruct (Hnone i ev1); [lia|done|]. unfold decrypts. eauto. }
  apply lookup_lt_Some in Hj as Hlen. fold log in Hpres.
  destruct (generated_between codec log key (S i) a) as (m&ev&Hm&Hlm&Hg).
  - unfold log in *. lia.
  - eapply delete_after; [done|]. unfold decrypts. eauto.
  - done.
  - exists m, ev. split_and!; [lia|lia|done..].
Qed.
(** Even with overlaps, a decryption never happens without a key: every
    decryption in the log comes after a generation of its key id, and its answer
    was computed with the private share of a pair the store held under that id. *)
Theorem C44_decryption_needs_a_stored_key codec keygen decrypt xs key j ev r :
  willow_codec_ok codec ->
  let log := sv_log (run_service codec keygen decrypt xs) in
  log !! j = Some ev -> event_of codec ev = Some (DecryptEvent key r) ->
  exists m g a kp req e, (m < a <= j)%nat /\ log !! m = Some g /\ generates codec key g /\
    replay codec (take a log) !! key = Some kp /\ decrypt key req (kp_private kp) e = Ok r.
Proof.
  intros Hc log Hj Hev. destruct (run_inv codec keygen decrypt Hc xs) as [_ H].
  destruct (H j ev Hj) as (a&Ha&Ho). rewrite Hev in Ho. destruct Ho as (kp&req&e&Hk&Hd). fold log in Hk.
  apply lookup_lt_Some in Hj as Hlen.
  destruct (generated_between codec log key 0 a) as (m&g&Hm&Hlm&Hg).
  - unfold log in *. lia.
  - rewrite take_0. apply lookup_empty.
  - eauto.
  - exists m, g, a, kp, req, e. split_and!; [lia|lia|done..].
Qed.
(** A history without overlap in which the same key id is used twice. *)
Definition sequential_history : list service_step :=
  [SCommand 5 (ask 1 (WGenerate [7])); SApply; SCommand 0 (ask 2 (WDecrypt [7] [1])); SApply;
   SCommand 6 (ask 3 (WGenerate [7])); SApply; SCommand 0 (ask 4 (WDecrypt [7] [2])); SApply].
Example C44_example :
  no_overlap sample_codec sample_keygen sample_decrypt service0 sequential_history /\
  map (event_of sample_codec) (sv_log (run_service sample_codec sample_keygen sample_decrypt sequential_history))
  = [Some (GenerateKeyEvent [7] [5] [105] 1); Some (DecryptEvent [7] [1; 105]);
     Some (GenerateKeyEvent [7] [6] [106] 1); Some (DecryptEvent [7] [2; 106])].
Proof.
  split; [|vm_compute; reflexivity].
  unfold sequential_history. cbn [no_overlap].
  split_and!; try exact I; unfold no_overlap_step.
  - vm_compute. intros ev Hev. by apply elem_of_nil in Hev.
  - vm_compute. intros ev Hev. by apply elem_of_nil in Hev.
  - vm_compute. intros ev Hev. by apply elem_of_nil in Hev.
  - vm_compute. intros ev Hev. by apply elem_of_nil in Hev.
Qed.

(** * C45 *)
(** Two generation requests that overlap: both are answered, with different
    public keys, and the pair of the first is gone although it was neither used
    nor evicted. *)
Theorem C45_published_key_is_usable_refuted :
  exists codec keygen decrypt xs key,
    willow_codec_ok codec /\
    let log := sv_log (run_service codec keygen decrypt xs) in
    (forall ev, ev ∈ log -> ~ decrypts codec key ev) /\ length log = 2%nat /\
    match apply_all (willow_actor codec keygen decrypt (fun _ _ _ => 0)) ∅
            (map (fun ev => (EventContext 0 true, ev)) log) with
    | Ok (st, [[a1]; [a2]]) =>
        exists p1 p2, a1 = w_answer codec 1 (WGenerated key p1) /\ a2 = w_answer codec 2 (WGenerated key p2) /\
          p1 <> p2 /\ kp_public <$> st !! key = Some p2
    | _ => False
    end.
Proof.
  exists sample_codec, sample_keygen, sample_decrypt,
    [SCommand 5 (ask 1 (WGenerate [7])); SCommand 6 (ask 2 (WGenerate [7])); SApply; SApply], [7].
  split; [exact sample_codec_ok|].
  assert (Hl : sv_log (run_service sample_codec sample_keygen sample_decrypt
     [SCommand 5 (ask 1 (WGenerate [7])); SCommand 6 (ask 2 (WGenerate [7])); SApply; SApply])
     = [ActorEvent 1 (enc_wevent sample_codec (GenerateKeyEvent [7] [5] [105] 1));
        ActorEvent 2 (enc_wevent sample_codec (GenerateKeyEvent [7] [6] [106] 1))]).
  { vm_compute. reflexivity. }
  rewrite Hl. cbn zeta. split; [|split; [done|]].
  - intros ev Hev [r Hr]. unfold event_of in Hr.
    apply elem_of_cons in Hev as [->|Hev]; [|apply elem_of_list_singleton in Hev as ->];
      cbn [ae_contents] in Hr; rewrite (wevent_round_trip _ sample_codec_ok) in Hr; done.
  - unfold willow_actor, willow_apply. cbn [map apply_all a_apply ae_contents ae_correlation ec_owned].
    pose proof (wevent_round_trip _ sample_codec_ok) as Hr.
    repeat (rewrite Hr; unfold generate_event, decrypt_event; cbn [bind ec_owned ae_contents ae_correlation]).
    exists [5], [6]. split_and!; done.
Qed.
(** What holds: without overlapping generations, a generation never replaces a
    pair that is stored, so a stored pair stays the same as long as its key id
    stays in the store, that is until it is used or evicted. *)
Theorem C45_stored_pair_is_not_replaced_partial codec keygen decrypt xs key i j :
  willow_codec_ok codec ->
  no_overlap codec keygen decrypt service0 xs ->
  let log := sv_log (run_service codec keygen decrypt xs) in
  (i <= j <= length log)%nat ->
  (forall n, (i <= n <= j)%nat -> is_Some (replay codec (take n log) !! key)) ->
  replay codec (take j log) !! key = replay codec (take i log) !! key.
Proof.
  intros Hc Hno log [Hij Hj] Hpres. induction Hij as [|j Hij IH]; [done|].
  rewrite <- IH; [|lia|intros n Hn; apply Hpres; lia].
  destruct (lookup_lt_is_Some_2 log j) as [ev Hev]; [lia|].
  destruct (Hpres (S j)) as [kp Hkp]; [lia|]. rewrite Hkp.
  rewrite (take_S_replay codec _ _ _ Hev) in Hkp. symmetry. eapply effect_keeps; [|done].
  intros (pub&priv&o&Hg).
  destruct (run_inv_no codec keygen decrypt Hc xs Hno j ev Hev) as (a&Haj&Ha). rewrite Hg in Ha.
  destruct Ha as [Habs Hnone].
  assert (Hn : replay codec (take j log) !! key = None)
    by (eapply (absent_without_generation codec log key a j); [lia|done|done]).
  destruct (Hpres j) as [kp' Hkp']; [lia|]. congruence.
Qed.
(** A published key is the public half of the pair stored at that moment: by the
    event that generated it, or by an immediate answer. *)
Theorem C45_published_key_is_the_stored_one codec keygen decrypt :
  (forall st cx ev key pub priv o st' out,
     dec_wevent codec (ae_contents ev) = Some (Some (GenerateKeyEvent key pub priv o)) ->
     willow_apply codec st cx ev = Ok (st', out) ->
     st' !! key = Some (KeyPair pub priv o) /\
     out = if ec_owned cx then [w_answer codec (ae_correlation ev) (WGenerated key pub)] else []) /\
  (forall e cx st cmd key kp,
     dec_wrequest codec (ac_header cmd) = Some (Some (WGenerate key)) -> cx_leader cx = true ->
     st !! key = Some kp ->
     willow_command codec keygen decrypt e cx st (Some cmd)
     = Ok (st, CommandOutcome [w_answer codec (ac_correlation cmd) (WGenerated key (kp_public kp))] None)).
Proof.
  split.
  - intros st cx ev key pub priv o st' out Hd. unfold willow_apply. rewrite Hd. intros [= <- <-].
    split; [apply store_key_spec|done].
  - intros e cx st cmd key kp Hd Hl Hk. unfold willow_command, generate_command. by rewrite Hd, Hl, Hk.
Qed.
(** Public and private half of a stored pair were generated together. *)
Theorem C45_stored_pairs_match codec keygen decrypt xs key kp :
  willow_codec_ok codec ->
  let log := sv_log (run_service codec keygen decrypt xs) in
  replay codec log !! key = Some kp -> exists e, keygen key e = (kp_public kp, kp_private kp).
Proof.
  intros Hc log. destruct (run_inv codec keygen decrypt Hc xs) as [_ H]. fold log in H.
  assert (Hn : forall n, (n <= length log)%nat -> replay codec (take n log) !! key = Some kp ->
     exists e, keygen key e = (kp_public kp, kp_private kp)).
  { induction n as [|n IH]; intros Hn Hk.
    - rewrite take_0 in Hk. unfold replay in Hk. simpl in Hk. by rewrite lookup_empty in Hk.
    - destruct (lookup_lt_is_Some_2 log n) as [ev Hev]; [lia|].
      rewrite (take_S_replay codec _ _ _ Hev) in Hk.
      destruct (event_of codec ev) as [[k pub priv o|k r]|] eqn:Ee.
      + destruct (decide (k = key)) as [->|Hne].
        * rewrite effect_spec, Ee in Hk. destruct (store_key_spec (replay codec (take n log)) key pub priv o) as [E _].
          rewrite E in Hk. injection Hk as <-. simpl.
          destruct (H n ev Hev) as (a&_&Ho). rewrite Ee in Ho. by destruct Ho as (_&He&_).
        * apply IH; [lia|]. eapply effect_keeps; [|done]. intros (?&?&?&Hg). congruence.
      + apply IH; [lia|]. eapply effect_keeps; [|done]. intros (?&?&?&Hg). congruence.
      + apply IH; [lia|]. eapply effect_keeps; [|done]. intros (?&?&?&Hg). congruence. }
  intros Hk. apply (Hn (length log)); [done|]. by rewrite firstn_all.
Qed.
(** While the pair is stored, a decryption command is run with its private half. *)
Theorem C45_decryption_uses_the_stored_pair codec keygen decrypt e cx st cmd key req kp r :
  willow_codec_ok codec ->
  dec_wrequest codec (ac_header cmd) = Some (Some (WDecrypt key req)) -> cx_leader cx = true ->
  st !! key = Some kp -> decrypt key req (kp_private kp) e = Ok r ->
  exists ev, willow_command codec keygen decrypt e cx st (Some cmd) = Ok (st, CommandOutcome [] (Some ev)) /\
    ae_correlation ev = ac_correlation cmd /\
    (forall st1 cx1, exists st2, willow_apply codec st1 cx1 ev
       = Ok (st2, if ec_owned cx1 then [w_answer codec (ac_correlation cmd) (WDecrypted r)] else []) /\
       st2 = delete key st1).
Proof.
  intros Hc Hd Hl Hk Hr. unfold willow_command, decrypt_command. rewrite Hd, Hl, Hk, Hr. simpl.
  eexists. split; [reflexivity|]. split; [done|]. intros st1 cx1. unfold willow_apply; simpl.
  rewrite (wevent_round_trip _ Hc). eexists. split; reflexivity.
Qed.
Example C45_example :
  let log := sv_log (run_service sample_codec sample_keygen sample_decrypt
     [SCommand 5 (ask 1 (WGenerate [7])); SApply; SCommand 6 (ask 2 (WGenerate [7])); SCommand 8 (ask 3 (WGenerate [9])); SApply]) in
  map (fun n => replay sample_codec (take n log) !! [7]) [1; 2]%nat
  = [Some (KeyPair [5] [105] 1); Some (KeyPair [5] [105] 1)] /\ length log = 2%nat.
Proof. vm_compute. done. Qed.

(** * C46 *)
Theorem C46_snapshot_restores_state codec st old :
  willow_codec_ok codec ->
  exists b, willow_save codec st = Ok b /\ willow_load codec old b = Ok st.
Proof.
  intros Hc. eexists. split; [reflexivity|]. unfold willow_load. rewrite (wsnapshot_round_trip _ Hc). f_equal.
  assert (H : forall l (acc : key_store), NoDup (map fst l) -> (forall k, k ∈ map fst l -> acc !! k = None) ->
     foldl (fun m p => <[wp_key p := wp_pair p]> m) acc (map (fun '(k, kp) => WPair k kp) l) = list_to_map l ∪ acc).
  { induction l as [|[k kp] l IH]; intros acc Hn Hacc; simpl.
    - by rewrite (left_id_L ∅ (∪)).
    - simpl in Hn. apply NoDup_cons in Hn as [Hk Hn]. rewrite IH; [|done|].
      + rewrite <- insert_union_r, insert_union_l; [done|]. by apply not_elem_of_list_to_map_1.
      + intros k' Hk'. rewrite lookup_insert_ne; [apply Hacc; by right|]. by intros ->. }
  rewrite H.
  - rewrite (right_id_L ∅ (∪)). apply map_eq. intros k. apply option_eq. intros kp.
    rewrite <- (elem_of_key_list st). symmetry. apply elem_of_list_to_map.
    change (NoDup (key_list st).*1). rewrite key_list_perm. apply NoDup_fst_map_to_list.
  - change (NoDup (key_list st).*1). rewrite key_list_perm. apply NoDup_fst_map_to_list.
  - intros. apply lookup_empty.
Qed.
(** Asking again for a key that is stored answers at once with the same public
    key and changes nothing. *)
Theorem C46_generation_is_idempotent codec keygen decrypt e cx st cmd key kp :
  dec_wrequest codec (ac_header cmd) = Some (Some (WGenerate key)) -> cx_leader cx = true ->
  st !! key = Some kp ->
  willow_command codec keygen decrypt e cx st (Some cmd)
  = Ok (st, CommandOutcome [w_answer codec (ac_correlation cmd) (WGenerated key (kp_public kp))] None).
Proof. apply C45_published_key_is_the_stored_one. Qed.
(** A replica that is not leader refuses every command it can read. *)
Theorem C46_followers_refuse codec keygen decrypt e cx st cmd request :
  dec_wrequest codec (ac_header cmd) = Some request -> cx_leader cx = false ->
  willow_command codec keygen decrypt e cx st (Some cmd)
  = Ok (st, CommandOutcome [w_answer codec (ac_correlation cmd) (WError WFailedPrecondition)] None).
Proof. intros Hd Hl. unfold willow_command. by rewrite Hd, Hl. Qed.
(** The other commands: what a leader does with a key id that is not stored, and
    with a request that says nothing; the keys never change. *)
Theorem C46_commands_do_not_change_keys codec keygen decrypt e cx st cmd st' out :
  willow_command codec keygen decrypt e cx st cmd = Ok (st', out) -> st' = st.
Proof.
  unfold willow_command. destruct cmd as [cmd|]; [|by intros [= <- _]].
  destruct (dec_wrequest codec (ac_header cmd)) as [[[k|k r]|]|]; [| | |done];
    (destruct (cx_leader cx); simpl; [|by intros [= <- _]]); try by intros [= <- _].
  destruct (decrypt_command _ _ _ _ _ _ _) as [o| |]; simpl; [|done..]. by intros [= <- _].
Qed.
Theorem C46_missing_keys_are_reported codec keygen decrypt e cx st cmd key req :
  dec_wrequest codec (ac_header cmd) = Some (Some (WDecrypt key req)) -> cx_leader cx = true ->
  st !! key = None ->
  willow_command codec keygen decrypt e cx st (Some cmd)
  = Ok (st, CommandOutcome [w_answer codec (ac_correlation cmd) (WError WFailedPrecondition)] None).
Proof. intros Hd Hl Hk. unfold willow_command, decrypt_command. by rewrite Hd, Hl, Hk. Qed.
Example C46_example :
  let st := {[ [7] := KeyPair [5] [105] 3; [7; 1] := KeyPair [6] [106] 2 ]} : key_store in
  match willow_save sample_codec st with
  | Ok b => match willow_load sample_codec {[ [9] := KeyPair [] [] 0 ]} b with
            | Ok st' => key_list st' = [([7], KeyPair [5] [105] 3); ([7; 1], KeyPair [6] [106] 2)]
            | _ => False end
  | _ => False end /\
  dec_wrequest sample_codec (ac_header (ask 1 (WGenerate [7]))) = Some (Some (WGenerate [7])).
Proof. split; [vm_compute; done|]. apply sample_dec_enc. Qed.

Theorem C46_unreadable_snapshots_are_refused codec st b : dec_wsnapshot codec b = None -> willow_load codec st b = Err ASnapshotLoading.
Proof. unfold willow_load. by intros ->. Qed.
Example C46_unreadable : dec_wsnapshot sample_codec [] = None.
Proof. vm_compute. reflexivity. Qed.

(** * C62 *)
(** A client can bring the decryptor down: bytes that cannot be read are not
    answered but end the call with an error, and a decryption request the
    cryptographic library cannot read aborts the process. *)
Theorem C62_every_command_is_answered_or_proposed_refuted :
  exists codec keygen decrypt cx st cmd1 cmd2,
    willow_codec_ok codec /\ cx_leader cx = true /\
    willow_command codec keygen decrypt 0 cx st (Some cmd1) = Err AInternal /\
    willow_command codec keygen decrypt 0 cx st (Some cmd2) = Panic.
Proof.
  exists sample_codec, sample_keygen, sample_decrypt, (ActorCtx 1 0 [] true),
    {[ [7] := KeyPair [5] [105] 1 ]}, (ActorCommand 1 [] []), (ask 2 (WDecrypt [7] [])).
  split; [exact sample_codec_ok|]. vm_compute. done.
Qed.
(** A command that can be read, and whose decryption request the library
    accepts, is answered at once or proposed, exactly once and under its own
    correlation id; what is proposed can be applied by every replica, which
    answers if it is the one that proposed it. *)
Theorem C62_every_command_is_answered_or_proposed_partial codec keygen decrypt e cx st cmd request :
  willow_codec_ok codec ->
  dec_wrequest codec (ac_header cmd) = Some request ->
  (forall key req kp, request = Some (WDecrypt key req) -> st !! key = Some kp ->
     decrypt key req (kp_private kp) e <> Panic) ->
  exists out, willow_command codec keygen decrypt e cx st (Some cmd) = Ok (st, out) /\
    ((exists r, out = CommandOutcome [w_answer codec (ac_correlation cmd) r] None) \/
     (exists ev, out = CommandOutcome [] (Some ev) /\ cx_leader cx = true /\
        forall st1 cx1, exists st2 r, willow_apply codec st1 cx1 ev
          = Ok (st2, if ec_owned cx1 then [w_answer codec (ac_correlation cmd) r] else []))).
Proof.
  intros Hc Hd Hp. unfold willow_command. rewrite Hd.
  destruct (cx_leader cx); simpl; [|eexists; split; [done|]; left; eexists; reflexivity].
  destruct request as [[key|key req]|].
  - unfold generate_command. destruct (st !! key) as [kp|].
    + eexists; split; [done|]; left; eexists; reflexivity.
    + destruct (keygen key e) as [pub priv]. eexists; split; [done|]. right. eexists; split_and!; [done..|].
      intros st1 cx1. unfold willow_apply; simpl. rewrite (wevent_round_trip _ Hc). eexists _, _. reflexivity.
  - unfold decrypt_command. destruct (st !! key) as [kp|] eqn:Ek; simpl.
    + specialize (Hp key req kp eq_refl Ek).
      destruct (decrypt key req (kp_private kp) e) as [r|code|]; simpl; [| |done].
      * eexists; split; [done|]. right. eexists; split_and!; [done..|].
        intros st1 cx1. unfold willow_apply; simpl. rewrite (wevent_round_trip _ Hc). eexists _, _. reflexivity.
      * eexists; split; [done|]; left; eexists; reflexivity.
    + eexists; split; [done|]; left; eexists; reflexivity.
  - eexists; split; [done|]; left; eexists; reflexivity.
Qed.
(** A new decryptor knows no key. *)
Theorem C62_a_new_decryptor_knows_no_key cx : exists st, willow_init cx = Ok st /\ forall key, st !! key = None.
Proof. eexists. split; [reflexivity|]. intros key. apply lookup_empty. Qed.
Example C62_example :
  dec_wrequest sample_codec (ac_header (ask 2 (WDecrypt [7] [1]))) = Some (Some (WDecrypt [7] [1])) /\
  sample_decrypt [7] [1] [105] 0 <> Panic.
Proof. split; [apply sample_dec_enc|done]. Qed.
