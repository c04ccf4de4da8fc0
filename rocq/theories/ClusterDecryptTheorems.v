(** Theorems about the decryptor in a cluster (C99). *)
From Verif Require Import Base StorageModel SnapshotModel CommModel ActorModel ActorSpec DriverModel DriverSpec DriverProofs DriverTheorems
  ClusterSpec ClusterProofs ClusterTheorems ClusterOrderSpec ClusterOrderProofs WillowModel WillowSpec WillowProofs WillowTheorems
  ClusterDecryptSpec ClusterDecryptProofs.

(** * C99 *)
Section Theorems.
Context {RS SP CS REQ RESP : Type}.
Variable c : willow_codec.
Variable keygen : bytes -> N -> bytes * bytes.
Variable decrypt : bytes -> bytes -> bytes -> N -> res w_code bytes.
Variable entropy : nat -> actor_context -> key_store -> option actor_command -> N.
Variable codec : driver_codec.
Variable rops : raft_ops RS.
Variable sops : snap_ops SP.
Variable cops : comm_ops CS REQ RESP.
Variable begin : nat -> RS * SP * CS.
Notation apps := (fun k : nat => willow_actor c keygen decrypt (entropy k)).
Notation events := (list (nat * delivery REQ RESP)).
Notation answers := (answers c keygen decrypt entropy codec rops sops cops begin).
Notation had_reached := (had_reached c keygen decrypt entropy codec rops sops cops begin).
Notation in_log := (in_log c keygen decrypt entropy codec rops sops cops begin).
Notation unused_pair := (unused_pair c keygen decrypt entropy codec rops sops cops begin).
Hypothesis Hc : willow_codec_ok c.
Hypothesis Hi : forall r r', enc_wresponse c r = enc_wresponse c r' -> r = r'.
Hypothesis Hd : driver_codec_ok codec.
Variable log : N -> rentry.
Variable H : events.
Hypothesis AG : agrees codec rops sops cops apps begin log H.
Hypothesis CF : one_configuration H.
Variable origin : N -> nat.
Hypothesis PO : proposals_in_order codec rops sops cops apps begin log H origin.

(** A decryption a client is told was made for a request asked under this number
    of a replica with this id, with the private share of a pair that the log
    generated for the key of the request; in the log up to where the asked member
    was, this pair was neither used nor replaced; and the use is in the log, where
    the member that tells the client got it. *)
Theorem C99_decryptions_use_unused_pairs b k id n r : answers H b k id n (WDecrypted r) ->
  exists a k' i j j' g key req public private e, (a <= b)%nat /\ asks c H a k' id n (WDecrypt key req) /\ origin i = a /\
    in_log log H i (DecryptEvent key r) /\ had_reached H (S b) k j' /\ i <= j' /\
    had_reached H a k' j /\ j < i /\ unused_pair log H g j key public private /\ decrypt key req private e = Ok r.
Proof using AG CF Hc Hd Hi PO. by apply decrypted_from. Qed.

(** So a member that has got a use of a key from the log does not use it again:
    the log generates another pair in between. *)
Theorem C99_members_do_not_use_a_key_again i1 i2 key r1 r2 k x j :
  in_log log H i1 (DecryptEvent key r1) -> in_log log H i2 (DecryptEvent key r2) ->
  H !! origin i2 = Some (k, x) -> had_reached H (origin i2) k j -> i1 <= j ->
  exists g public private o, i1 < g <= j /\ j < i2 /\ in_log log H g (GenerateKeyEvent key public private o).
Proof using AG CF Hc Hd PO. by apply used_again. Qed.

(** A public key a client is told is one that the log generated, with the library,
    for the key it asked for; its pair was unused at some point the member that
    tells it has reached. *)
Theorem C99_published_keys_are_in_the_log b k id n key public : answers H b k id n (WGenerated key public) ->
  exists a k' g j j' private e, (a <= b)%nat /\ asks c H a k' id n (WGenerate key) /\
    had_reached H (S b) k j' /\ g <= j <= j' /\ unused_pair log H g j key public private /\ keygen key e = (public, private).
Proof using AG CF Hc Hd Hi PO. intros Ha. by eapply generated_from. Qed.

(** A member that has got the pair of a key from the log generates another only
    after a use of the key, or after the pair, the oldest of a full store, made
    room for another key. *)
Theorem C99_members_keep_published_pairs i1 i2 key public1 private1 o1 public2 private2 o2 k x j :
  in_log log H i1 (GenerateKeyEvent key public1 private1 o1) -> in_log log H i2 (GenerateKeyEvent key public2 private2 o2) ->
  H !! origin i2 = Some (k, x) -> had_reached H (origin i2) k j -> i1 <= j ->
  exists i, i1 < i <= j /\ j < i2 /\
    ((exists r, in_log log H i (DecryptEvent key r)) \/
     exists key' public private o st, in_log log H i (GenerateKeyEvent key' public private o) /\ key' <> key /\
       state_at codec apps log ∅ (i - 1) st /\ size st = max_key_pairs /\ is_oldest st key).
Proof using AG CF Hc Hd PO. by apply replaced. Qed.
End Theorems.

(** ** A cluster that meets the hypotheses *)
(** Consensus that commits what is proposed to it, or delivered to it as an entry
    (kind 0) or as a snapshot (kind 3). An entry of kind 5 makes it the leader; it
    is handed over only with the next one (its term is 0 until then). *)
Definition lag_ops : raft_ops fed := RaftOps fed
  fd_init fd_leader (fun _ => raft_st0)
  (fun r id c data leader n => Ok (Fed true leader (if leader then 2 else 1) [] no_snap))
  (fun r m => match rm_type m, rm_rest m with
              | MsgOther 0, data => (fed_add r data, true)
              | MsgOther 5, data => (Fed (fd_init r) true (fd_next r + 1) (fd_ready r ++ [REntry EntryNormal 0 (fd_next r) data]) (fd_snap r), true)
              | MsgOther 3, i :: data => (Fed (fd_init r) (fd_leader r) (i + 1) [] (Snapshot i 1 (conf_of_voters [1]) data), true)
              | _, _ => (r, true)
              end)
  (fun r p => Ok (fed_add r p))
  (fun r c => (r, None))
  (fun r => r)
  (fun r c => Ok (r, conf_of_voters []))
  (fun r => negb (sn_index (fd_snap r) =? 0) || existsb (fun e => re_term e =? 1) (fd_ready r))
  (fun r => (Fed (fd_init r) (fd_leader r) (fd_next r) [] no_snap,
     Ready [] [] [] (map (fun e => REntry (re_type e) 1 (re_index e) (re_data e)) (fd_ready r)) None (fd_snap r) 1))
  (fun r n => (r, LightReady [] []))
  (fun r => r)
  (fun r _ _ => r)
  (fun r _ => r)
  (fun r _ => Ok r)
  (fun r _ => Ok r)
  (fun r i _ => false)
  (fun r _ _ _ => Ok r)
  (fun r => 0).
#[local] Existing Instances key_pair_eq key_pair_countable w_pair_eq w_pair_countable w_event_eq w_event_countable w_request_eq w_request_countable.
Definition lag_codec : willow_codec := WillowCodec
  sample_dec (fun e => sample_enc (Some e)) sample_dec
  (fun r => match r with
            | WGenerated k p => 1 :: Nlen k :: k ++ p
            | WDecrypted r => 2 :: r
            | WError WFailedPrecondition => [3]
            | WError WInvalidArgument => [4]
            | WError (WCrypto z) => 5 :: sample_enc z
            end)
  sample_enc sample_dec.
Lemma lag_codec_ok : willow_codec_ok lag_codec.
Proof. constructor; intros; apply sample_dec_enc. Qed.
Lemma lag_codec_injective r r' : enc_wresponse lag_codec r = enc_wresponse lag_codec r' -> r = r'.
Proof.
  destruct r as [k p|d|[| |z]], r' as [k' p'|d'|[| |z']]; cbn [enc_wresponse lag_codec]; intros E; try discriminate E; try reflexivity.
  - injection E as El E. unfold Nlen in El. apply app_inj_1 in E as [-> ->]; [done|lia].
  - by injection E as ->.
  - injection E as E. by apply (inj encode) in E as ->.
Qed.
Definition lag_entropy (k : nat) (cx : actor_context) (st : key_store) (m : option actor_command) : N := cx_instant cx.
Definition lag_apps : nat -> actor key_store := fun k => willow_actor lag_codec sample_keygen sample_decrypt (lag_entropy k).
Definition lag_request (n : N) (w : w_request) : option (option (host_in unit unit)) := Some (Some (HApp (ask n w))).
Definition lag_entry (n id : N) (e : w_event) : bytes := [1; n; id] ++ sample_enc (Some e).
(** The leader (member 0) generates a key and uses it; the next leader (member 1)
    has the use in its log, but not yet in its state. Then member 0 is the leader
    again, generates the key anew and uses it. *)
Definition lag_history : list (nat * delivery unit unit) :=
  [(0%nat, (5, other_start true 1 []));
   (0%nat, (6, lag_request 21 (WGenerate [7])));
   (1%nat, (5, other_start false 2 []));
   (1%nat, (7, toy_peer 3 2 1 (1 :: enc_wsnapshot lag_codec [])));
   (1%nat, (8, toy_peer 0 2 1 (lag_entry 21 1 (GenerateKeyEvent [7] [6] [106] 1))));
   (0%nat, (9, lag_request 22 (WDecrypt [7] [1])));
   (1%nat, (10, toy_peer 5 2 1 (lag_entry 22 1 (DecryptEvent [7] [1; 106]))));
   (1%nat, (11, lag_request 31 (WDecrypt [7] [2])));
   (0%nat, (12, toy_peer 0 1 2 (lag_entry 31 2 (DecryptEvent [7] [2; 106]))));
   (0%nat, (13, lag_request 24 (WGenerate [7])));
   (0%nat, (14, lag_request 25 (WDecrypt [7] [3])))].
Definition lag_log (i : N) : rentry :=
  REntry EntryNormal 1 i
    (if i =? 2 then lag_entry 21 1 (GenerateKeyEvent [7] [6] [106] 1) else
     if i =? 3 then lag_entry 22 1 (DecryptEvent [7] [1; 106]) else
     if i =? 4 then lag_entry 31 2 (DecryptEvent [7] [2; 106]) else
     if i =? 5 then lag_entry 24 1 (GenerateKeyEvent [7] [13] [113] 1) else
     if i =? 6 then lag_entry 25 1 (DecryptEvent [7] [3; 113]) else []).
Definition lag_origin (i : N) : nat :=
  if i =? 2 then 1%nat else if i =? 3 then 5%nat else if i =? 4 then 7%nat else if i =? 5 then 9%nat else 10%nat.
Notation lag_member := (member toy_codec lag_ops toy_snap toy_comm lag_apps cluster_begin).
Definition lag_in (k : nat) (H : list (nat * delivery unit unit)) :=
  match run toy_codec lag_ops toy_snap toy_comm (lag_apps k) (fresh fed0 tt tt) (calls_of k H) with
  | Ok (d, _) => Some d | _ => None end.
Lemma lag_in_member k H d : lag_member k H d <-> lag_in k H = Some d.
Proof.
  unfold lag_in, member, reaches, cluster_begin. simpl. split.
  - intros (outs&_&->). done.
  - destruct (run _ _ _ _ _ _ _) as [[d' o]| |]; try done. intros [= <-]. by exists o.
Qed.
Example lag_outputs :
  match run toy_codec lag_ops toy_snap toy_comm (lag_apps 0) (fresh fed0 tt tt) (calls_of 0%nat lag_history),
        run toy_codec lag_ops toy_snap toy_comm (lag_apps 1) (fresh fed0 tt tt) (calls_of 1%nat lag_history) with
  | Ok (d0, o0), Ok (d1, o1) =>
    map (omap app_out) o0 = [[]; [w_answer lag_codec 21 (WGenerated [7] [6])]; [w_answer lag_codec 22 (WDecrypted [1; 106])];
      []; [w_answer lag_codec 24 (WGenerated [7] [13])]; [w_answer lag_codec 25 (WDecrypted [3; 113])]] /\
    map (omap app_out) o1 = [[]; []; []; []; [w_answer lag_codec 31 (WDecrypted [2; 106])]] /\
    handed (raft_calls d0) = [inr [lag_log 2]; inr []; inr [lag_log 3]; inr []; inr [lag_log 4]; inr []; inr [lag_log 5]; inr []; inr [lag_log 6]; inr []] /\
    handed (raft_calls d1) = [inl (Snapshot 1 1 (conf_of_voters [1]) (enc_wsnapshot lag_codec []));
       inr []; inr []; inr [lag_log 2]; inr []; inr [lag_log 3; lag_log 4]; inr []]
  | _, _ => False
  end.
Proof. vm_compute. split_and!; reflexivity. Qed.
Lemma lag_none k : k <> 0%nat -> k <> 1%nat -> calls_of k lag_history = [].
Proof. intros H0 H1. apply calls_of_none. unfold lag_history. repeat (constructor; [simpl; congruence|]). constructor. Qed.
Lemma lag_start k q : started_with k lag_history q ->
  (k = 0%nat /\ sr_leader q = true \/ k = 1%nat /\ sr_leader q = false) /\ sr_config q = [].
Proof.
  intros [[t D] _]. destruct (decide (k = 0%nat)) as [->|]; [|destruct (decide (k = 1%nat)) as [->|]].
  - unfold calls_of, lag_history in D. cbn [omap list_omap decide decide_rel Nat.eq_dec] in D.
    repeat (apply elem_of_cons in D as [D|D]; [first [discriminate D|injection D as _ ->; split; [by left|reflexivity]]|]). by apply elem_of_nil in D.
  - unfold calls_of, lag_history in D. cbn [omap list_omap decide decide_rel Nat.eq_dec] in D.
    repeat (apply elem_of_cons in D as [D|D]; [first [discriminate D|injection D as _ ->; split; [by right|reflexivity]]|]). by apply elem_of_nil in D.
  - rewrite lag_none in D by done. by apply elem_of_nil in D.
Qed.
Local Ltac lag_fed := vm_compute;
  repeat match goal with |- _ /\ _ => split end;
  first [exact Logic.I|left; reflexivity|right; discriminate|apply Permutation_refl|discriminate].
Notation lag_agrees := (agrees toy_codec lag_ops toy_snap toy_comm lag_apps cluster_begin lag_log lag_history).
Example lag_hypothesis_agrees : lag_agrees.
Proof.
  constructor.
  - done.
  - intros k. destruct (lag_in k lag_history) as [d|] eqn:E; [exists d; by apply lag_in_member|]. exfalso.
    destruct (decide (k = 0%nat)) as [->|]; [by vm_compute in E|]. destruct (decide (k = 1%nat)) as [->|]; [by vm_compute in E|].
    unfold lag_in in E. by rewrite lag_none in E.
  - intros k1 k2 q1 q2 S1 S2 L1 L2. destruct (lag_start _ _ S1) as [[[-> _]|[_ E]] _]; [|congruence].
    by destruct (lag_start _ _ S2) as [[[-> _]|[_ E]] _]; [|congruence].
  - intros k d q M Sq. apply lag_in_member in M. destruct (lag_start _ _ Sq) as [[[-> L]|[-> L]] _]; unfold start_index; rewrite L.
    + assert (E : handed (raft_calls d) = [inr [lag_log 2]; inr []; inr [lag_log 3]; inr []; inr [lag_log 4]; inr []; inr [lag_log 5]; inr []; inr [lag_log 6]; inr []]) by (vm_compute in M; by injection M as <-).
      rewrite E. clear. lag_fed.
    + assert (E : handed (raft_calls d) = [inl (Snapshot 1 1 (conf_of_voters [1]) (enc_wsnapshot lag_codec []));
       inr []; inr []; inr [lag_log 2]; inr []; inr [lag_log 3; lag_log 4]; inr []]) by (vm_compute in M; by injection M as <-).
      rewrite E. clear. lag_fed.
  - intros H1 k x H2 d d' calls s E M M' Ec Hs. apply lag_in_member in M, M'.
    set (handed_of k H := match lag_in k H with Some d => handed (raft_calls d) | None => [] end).
    assert (Z : inl s ∈ drop (length (handed_of k H1)) (handed_of k (H1 ++ [(k, x)]))).
    { unfold handed_of. rewrite M, M', Ec. unfold handed. rewrite map_app, concat_app, drop_app. done. }
    clear M M' Ec Hs calls d d'. unfold handed_of in Z. clear handed_of.
    unfold lag_history in E.
    let rec go := first [by apply (f_equal length) in E; rewrite app_length in E; simpl in E; lia|
      destruct H1 as [|? H1];
      [injection E as <- <- <-; vm_compute in Z;
       repeat (apply elem_of_cons in Z as [Z|Z]; [first [discriminate Z|injection Z as ->]|]); try (by apply elem_of_nil in Z)|
       injection E as <- E; go]] in go.
    exists 0%nat. eexists. split; [apply lag_in_member; vm_compute; reflexivity|].
    right. split; [done|]. by exists 1.
Qed.
Example lag_hypothesis_configuration : one_configuration lag_history.
Proof. intros k1 k2 q1 q2 S1 S2. by rewrite (proj2 (lag_start _ _ S1)), (proj2 (lag_start _ _ S2)). Qed.
Lemma lag_index i ev : logged toy_codec lag_log i = Some ev -> i ∈ [2; 3; 4; 5; 6].
Proof.
  unfold logged, event_of_entry, lag_log. cbn [re_data re_type re_index].
  destruct (N.eqb_spec i 2) as [->|_]; [by left|]. destruct (N.eqb_spec i 3) as [->|_]; [by do 1 right; left|].
  destruct (N.eqb_spec i 4) as [->|_]; [by do 2 right; left|]. destruct (N.eqb_spec i 5) as [->|_]; [by do 3 right; left|].
  destruct (N.eqb_spec i 6) as [->|_]; [by do 4 right; left|]. done.
Qed.
Definition lag_reached (k : nat) (n : nat) : N :=
  match lag_in k (take n lag_history) with
  | Some d => position (if (k =? 0)%nat then 1 else 0) (handed (raft_calls d))
  | None => 0
  end.
Lemma lag_reached_at H1 H2 k j : lag_history = H1 ++ H2 -> reached toy_codec lag_ops toy_snap toy_comm lag_apps cluster_begin k H1 j ->
  (k = 0%nat \/ k = 1%nat) /\ j = lag_reached k (length H1).
Proof.
  intros E (d&q&M&Sq&->). apply lag_in_member in M. unfold lag_reached. rewrite E, take_app, M.
  assert (S2 : started_with k lag_history q) by (rewrite E; by apply started_prefix).
  destruct (lag_start _ _ S2) as [[[-> L]|[-> L]] _]; unfold start_index; rewrite L; split; auto.
Qed.
Local Ltac lag_indices Hl := apply lag_index in Hl; rewrite !elem_of_cons, elem_of_nil in Hl; destruct Hl as [->|[->|[->|[->|[->|[]]]]]].
Local Ltac lag_proposal n k := exists (take n lag_history), k; eexists; exists (drop (S n) lag_history); do 3 eexists;
  split; [reflexivity|]; split; [reflexivity|];
  split; [apply lag_in_member; vm_compute; reflexivity|]; split; [apply lag_in_member; vm_compute; reflexivity|];
  split; [cbn; reflexivity|]; left.
Example lag_hypothesis_order : proposals_in_order toy_codec lag_ops toy_snap toy_comm lag_apps cluster_begin lag_log lag_history lag_origin.
Proof.
  constructor.
  - intros i ev (_&Hl&_). lag_indices Hl.
    + lag_proposal 1%nat 0%nat.
    + lag_proposal 5%nat 0%nat.
    + lag_proposal 7%nat 1%nat.
    + lag_proposal 9%nat 0%nat.
    + lag_proposal 10%nat 0%nat.
  - intros i j ev ev' (_&Hl1&_) (_&Hl2&_) E. lag_indices Hl1; lag_indices Hl2; first [reflexivity|discriminate E].
  - intros i ev H1 H2 k j (_&Hl&_) E Hle Hr. destruct (lag_reached_at _ _ _ _ E Hr) as [Hk ->]. clear Hr E.
    lag_indices Hl; unfold lag_origin in Hle; cbn in Hle;
      generalize dependent (length H1); intros n Hle; repeat (destruct n as [|n]; [destruct Hk as [->| ->]; by vm_compute|]); lia.
Qed.
Notation lag_answers := (answers lag_codec sample_keygen sample_decrypt lag_entropy toy_codec lag_ops toy_snap toy_comm cluster_begin lag_history).
Notation lag_in_log := (in_log lag_codec sample_keygen sample_decrypt lag_entropy toy_codec lag_ops toy_snap toy_comm cluster_begin lag_log lag_history).
Notation lag_had_reached := (had_reached lag_codec sample_keygen sample_decrypt lag_entropy toy_codec lag_ops toy_snap toy_comm cluster_begin lag_history).
Definition lag_request0 : start_request := StartRequest true 1 (Some (RaftConfig 10 5 2 0 None 1)) [] false true.
Definition lag_request1 : start_request := StartRequest false 2 (Some (RaftConfig 10 5 2 0 None 1)) [] false true.
Lemma lag_started0 : started_with 0 lag_history lag_request0.
Proof. split; [exists 5; left|done]. Qed.
Lemma lag_started1 : started_with 1 lag_history lag_request1.
Proof. split; [exists 5; left|done]. Qed.
Local Ltac lag_answer n q := exists (take n lag_history); eexists; exists (drop (S n) lag_history), q; do 3 eexists;
  split; [reflexivity|]; split; [reflexivity|]; split; [first [exact lag_started0|exact lag_started1]|]; split; [reflexivity|];
  split; [apply lag_in_member; vm_compute; reflexivity|]; split; [vm_compute; reflexivity|]; vm_compute; left.
Example lag_told_22 : lag_answers 5 0 1 22 (WDecrypted [1; 106]).
Proof. lag_answer 5%nat lag_request0. Qed.
Example lag_told_31 : lag_answers 7 1 2 31 (WDecrypted [2; 106]).
Proof. lag_answer 7%nat lag_request1. Qed.
Example lag_told_24 : lag_answers 9 0 1 24 (WGenerated [7] [13]).
Proof. lag_answer 9%nat lag_request0. Qed.
Lemma lag_asked_22 : asks lag_codec lag_history 5 0 1 22 (WDecrypt [7] [1]).
Proof. exists 9, (ask 22 (WDecrypt [7] [1])), lag_request0. split; [reflexivity|]. split; [exact lag_started0|]. split_and!; reflexivity. Qed.
Lemma lag_asked_31 : asks lag_codec lag_history 7 1 2 31 (WDecrypt [7] [2]).
Proof. exists 11, (ask 31 (WDecrypt [7] [2])), lag_request1. split; [reflexivity|]. split; [exact lag_started1|]. split_and!; reflexivity. Qed.
Lemma lag_top : reached toy_codec lag_ops toy_snap toy_comm lag_apps cluster_begin 0 lag_history 6.
Proof. eexists. exists lag_request0. split; [apply lag_in_member; vm_compute; reflexivity|]. split; [exact lag_started0|]. vm_compute. reflexivity. Qed.
Lemma lag_event i e n id : i ∈ [2; 3; 4; 5; 6] -> re_data (lag_log i) = lag_entry n id e -> lag_in_log i e.
Proof.
  intros Hi E. exists (ActorEvent n (sample_enc (Some e))). split.
  - split; [|split; [|exists 0%nat, 6; split; [exact lag_top|]]]; rewrite !elem_of_cons, elem_of_nil in Hi; [naive_solver lia| |naive_solver lia].
    unfold logged, event_of_entry. rewrite E. destruct Hi as [->|[->|[->|[->|[->|[]]]]]]; reflexivity.
  - unfold event_of. cbn [ae_contents dec_wevent lag_codec]. by rewrite sample_dec_enc.
Qed.
Lemma lag_has (k n : nat) j : (k = 0%nat \/ k = 1%nat) -> (3 <= n)%nat -> lag_reached k n = j -> lag_had_reached n k j.
Proof.
  intros Hk Hn E. unfold had_reached. change (reached toy_codec lag_ops toy_snap toy_comm lag_apps cluster_begin k (take n lag_history) j).
  unfold lag_reached in E. destruct (lag_in k (take n lag_history)) as [d|] eqn:Ed; [|].
  - exists d, (if (k =? 0)%nat then lag_request0 else lag_request1). split; [by apply lag_in_member|]. split; [|by destruct Hk as [->| ->]].
    destruct n as [|[|[|n]]]; [lia..|]. destruct Hk as [->| ->]; (split; [|reflexivity]; exists 5; left).
  - exfalso. do 12 (destruct n as [|n]; [destruct Hk as [->| ->]; [by vm_compute in Ed|by vm_compute in Ed]|]).
    destruct Hk as [->| ->]; by vm_compute in Ed.
Qed.

(** A key is not used only once, even by requests that do not overlap: a leader
    that has the use in its log but has not applied it uses the key again. *)
Theorem C99_key_is_used_once_refuted :
  exists c keygen decrypt entropy codec (rops : raft_ops fed) (sops : snap_ops unit) (cops : comm_ops unit unit unit) begin log H origin,
  let apps := fun k : nat => willow_actor c keygen decrypt (entropy k) in
  let answers := answers c keygen decrypt entropy codec rops sops cops begin in
  let in_log := in_log c keygen decrypt entropy codec rops sops cops begin log H in
  willow_codec_ok c /\ (forall r r', enc_wresponse c r = enc_wresponse c r' -> r = r') /\ driver_codec_ok codec /\
  agrees codec rops sops cops apps begin log H /\ one_configuration H /\
  proposals_in_order codec rops sops cops apps begin log H origin /\
  exists key b1 k1 id1 n1 req1 r1 a2 b2 k2 id2 n2 req2 r2 i1 i2,
    asks c H b1 k1 id1 n1 (WDecrypt key req1) /\ answers H b1 k1 id1 n1 (WDecrypted r1) /\ (b1 < a2)%nat /\
    asks c H a2 k2 id2 n2 (WDecrypt key req2) /\ answers H b2 k2 id2 n2 (WDecrypted r2) /\ r1 <> r2 /\
    in_log i1 (DecryptEvent key r1) /\ in_log i2 (DecryptEvent key r2) /\ i1 < i2 /\
    forall g e, i1 < g < i2 -> ~ in_log g e.
Proof.
  exists lag_codec, sample_keygen, sample_decrypt, lag_entropy, toy_codec, lag_ops, toy_snap, toy_comm, cluster_begin, lag_log, lag_history, lag_origin.
  cbn zeta. split; [exact lag_codec_ok|]. split; [exact lag_codec_injective|]. split; [exact toy_codec_ok|].
  split; [exact lag_hypothesis_agrees|]. split; [exact lag_hypothesis_configuration|]. split; [exact lag_hypothesis_order|].
  exists [7], 5%nat, 0%nat, 1, 22, [1], [1; 106], 7%nat, 7%nat, 1%nat, 2, 31, [2], [2; 106], 3, 4.
  split; [exact lag_asked_22|]. split; [exact lag_told_22|]. split; [lia|]. split; [exact lag_asked_31|]. split; [exact lag_told_31|].
  split; [discriminate|]. split; [apply (lag_event 3 _ 22 1); [by right; left|reflexivity]|].
  split; [apply (lag_event 4 _ 31 2); [by right; right; left|reflexivity]|]. split; [lia|]. intros g e Hg. lia.
Qed.

(** What the theorems say about this cluster. *)
Example C99_example_decryption : exists k' i j g key req public private e,
  (* of a request to the same replica *) asks lag_codec lag_history 7 k' 2 31 (WDecrypt key req) /\
  lag_in_log i (DecryptEvent key [2; 106]) /\ lag_had_reached 7 k' j /\ j < i /\
  unused_pair lag_codec sample_keygen sample_decrypt lag_entropy toy_codec lag_ops toy_snap toy_comm cluster_begin lag_log lag_history g j key public private /\
  sample_decrypt key req private e = Ok [2; 106].
Proof.
  destruct (C99_decryptions_use_unused_pairs lag_codec sample_keygen sample_decrypt lag_entropy toy_codec lag_ops toy_snap toy_comm cluster_begin
    lag_codec_ok lag_codec_injective toy_codec_ok lag_log lag_history lag_hypothesis_agrees lag_hypothesis_configuration lag_origin lag_hypothesis_order
    _ _ _ _ _ lag_told_31) as (a&k'&i&j&j'&g&key&req&pub&priv&e&_&Ha&_&Hl&_&_&Hh&Hji&Hu&Hd).
  assert (a = 7%nat) as ->.
  { destruct Ha as (t&m&q&Hx&_&_&Hn&_). destruct Hl as (ev&_&_).
    do 11 (destruct a as [|a]; [simpl in Hx; first [discriminate Hx|injection Hx as _ _ <-; first [discriminate Hn|reflexivity]]|]). by destruct a. }
  exists k', i, j, g, key, req, pub, priv, e. done.
Qed.
(** The third use of the key (index 6) by member 0, which had got the first (index
    3), comes after another generation. *)
Example C99_example_again : exists g public private o, 3 < g <= 5 /\ 5 < 6 /\ lag_in_log g (GenerateKeyEvent [7] public private o).
Proof.
  eapply (C99_members_do_not_use_a_key_again lag_codec sample_keygen sample_decrypt lag_entropy toy_codec lag_ops toy_snap toy_comm cluster_begin
    lag_codec_ok toy_codec_ok lag_log lag_history lag_hypothesis_agrees lag_hypothesis_configuration lag_origin lag_hypothesis_order 3 6 [7]).
  - apply (lag_event 3 _ 22 1); [by right; left|reflexivity].
  - apply (lag_event 6 _ 25 1); [by do 4 right; left|reflexivity].
  - reflexivity.
  - apply lag_has; [by left|cbn; lia|vm_compute; reflexivity].
  - lia.
Qed.
(** The second pair (index 5) was generated after the first (index 2) was used. *)
Example C99_example_kept : exists i, 2 < i <= 4 /\ 4 < 5 /\
  ((exists r, lag_in_log i (DecryptEvent [7] r)) \/
   exists key' public private o st, lag_in_log i (GenerateKeyEvent key' public private o) /\ key' <> [7] /\
     state_at toy_codec lag_apps lag_log ∅ (i - 1) st /\ size st = max_key_pairs /\ is_oldest st [7]).
Proof.
  eapply (C99_members_keep_published_pairs lag_codec sample_keygen sample_decrypt lag_entropy toy_codec lag_ops toy_snap toy_comm cluster_begin
    lag_codec_ok toy_codec_ok lag_log lag_history lag_hypothesis_agrees lag_hypothesis_configuration lag_origin lag_hypothesis_order 2 5 [7]).
  - apply (lag_event 2 _ 21 1); [by left|reflexivity].
  - apply (lag_event 5 _ 24 1); [by do 3 right; left|reflexivity].
  - reflexivity.
  - apply lag_has; [by left|cbn; lia|vm_compute; reflexivity].
  - lia.
Qed.
Example C99_example_published : exists k' g j private e, asks lag_codec lag_history 9 k' 1 24 (WGenerate [7]) /\
  unused_pair lag_codec sample_keygen sample_decrypt lag_entropy toy_codec lag_ops toy_snap toy_comm cluster_begin lag_log lag_history g j [7] [13] private /\
  sample_keygen [7] e = ([13], private).
Proof.
  destruct (C99_published_keys_are_in_the_log lag_codec sample_keygen sample_decrypt lag_entropy toy_codec lag_ops toy_snap toy_comm cluster_begin
    lag_codec_ok lag_codec_injective toy_codec_ok lag_log lag_history lag_hypothesis_agrees lag_hypothesis_configuration lag_origin lag_hypothesis_order
    _ _ _ _ _ _ lag_told_24) as (a&k'&g&j&j'&priv&e&_&Ha&_&_&Hu&Hk).
  assert (a = 9%nat) as ->.
  { destruct Ha as (t&m&q&Hx&_&_&Hn&_).
    do 11 (destruct a as [|a]; [simpl in Hx; first [discriminate Hx|injection Hx as _ _ <-; first [discriminate Hn|reflexivity]]|]). by destruct a. }
  exists k', g, j, priv, e. done.
Qed.
