(** Theorems about linearizability (C97). *)
From Verif Require Import Base StorageModel SnapshotModel CommModel ActorModel ActorSpec DriverModel DriverSpec DriverProofs DriverTheorems
  ClusterSpec ClusterProofs ClusterTheorems CounterModel CounterSpec CounterProofs CounterTheorems ClusterOrderSpec ClusterOrderProofs.

Section Theorems.
Context {RS SP CS ST REQ RESP : Type}.
Variable codec : driver_codec.
Variable rops : raft_ops RS.
Variable sops : snap_ops SP.
Variable cops : comm_ops CS REQ RESP.
Variable begin : nat -> RS * SP * CS.

(** * C97 *)
(** Whatever replicated application runs: every event that any member applies at
    any moment is the event of the log at the index it is told, which the member
    has reached, and it is applied to the state the log defines just before. *)
Theorem C97_events_act_on_the_state_of_the_log (apps : nat -> actor ST) good older log H H1 k d q cx ev out :
  replicated apps good older -> agrees codec rops sops cops apps begin log H -> one_configuration H -> H1 `prefix_of` H ->
  member codec rops sops cops apps begin k H1 d -> started_with k H1 q -> AApply cx ev out ∈ app_calls d ->
  2 <= ec_index cx /\ event_of_entry codec (sr_id q) (log (ec_index cx)) = Some (cx, ev) /\
  (exists j, reached codec rops sops cops apps begin k H1 j /\ ec_index cx <= j) /\
  exists first before after, first_state codec rops sops cops apps begin H first /\
    state_at codec apps log first (ec_index cx - 1) before /\ a_apply (apps k) before cx ev = Ok (after, out).
Proof using.
  intros RP AG CF [H2 E] M Sq Ha. apply elem_of_list_split in Ha as (t1&t2&Et).
  destruct (event_found codec rops sops cops apps begin good older RP log H AG CF k H1 H2 d q t1 cx ev out t2 E M Sq Et) as (K1&K2&K3&K4).
  split; [done|]. split; [done|]. split; [|done]. eexists. split; [by exists d, q|done].
Qed.

(** Counters as the clients of the whole cluster see them are atomic registers:
    the responses are those of one sequential execution of the requests, which
    keeps the order of requests that were answered before others were made.
    Consensus is assumed to hand over one log of the proposed entries, each
    proposal at most once and after what was handed over before it was proposed. *)
Theorem C97_counters_are_linearizable c log H origin k q values :
  CounterSpec.codec_ok c -> driver_codec_ok codec ->
  agrees codec rops sops cops (fun _ => counter_actor c) begin log H -> one_configuration H ->
  proposals_in_order codec rops sops cops (fun _ => counter_actor c) begin log H origin ->
  started_with k H q -> dec_config c (sr_config q) = Some values ->
  linearizable c codec rops sops cops begin values H.
Proof using.
  intros Hc Hd AG CF PO Sq Hv.
  eapply (counters_linearizable c codec rops sops cops begin _ _ (replicated_counter c Hc) Hc Hd log H AG CF origin PO); done.
Qed.
End Theorems.

(** ** A cluster that meets the hypotheses *)
(** The leader (member 0) carries out a compare-and-swap, then one that fails;
    the follower (member 1) refuses one, and gets the first from the leader. *)
Notation oc := CounterTheorems.sample_codec.
#[local] Existing Instances cas_request_eq cas_request_countable counter_request_eq counter_request_countable.
Definition order_request (n : N) (expected new : Z) : option (option (host_in unit unit)) :=
  Some (Some (HApp (ActorCommand n (sample_enc (Some (CounterRequest "a" (Some (CasRequest expected new)) [3] [4]))) []))).
Definition order_config : bytes := sample_enc ({[ "a"%string := 5%Z ]} : gmap string Z).
Definition order_entry (n : N) (expected new : Z) : bytes :=
  [1; n; 1] ++ sample_enc (CounterRequest "a" (Some (CasRequest expected new)) [] [4]).
Definition order_history : list (nat * delivery unit unit) :=
  [(0%nat, (5, other_start true 1 order_config));
   (0%nat, (6, order_request 21 5 6));
   (1%nat, (5, other_start false 2 order_config));
   (1%nat, (7, toy_peer 3 2 1 (1 :: enc_snapshot oc {[ "a"%string := CounterValue 5 [] ]})));
   (0%nat, (8, order_request 22 5 7));
   (1%nat, (8, toy_peer 0 2 1 (order_entry 21 5 6)));
   (1%nat, (9, order_request 31 6 8))].
Definition order_log (i : N) : rentry :=
  REntry EntryNormal 1 i (if i =? 2 then order_entry 21 5 6 else if i =? 3 then order_entry 22 5 7 else []).
Definition order_origin (i : N) : nat := if i =? 2 then 1%nat else 4%nat.
Definition order_apps : nat -> actor counters := fun _ => counter_actor oc.
Example order_outputs :
  match run toy_codec fed_ops toy_snap toy_comm (counter_actor oc) (fresh fed0 tt tt) (calls_of 0%nat order_history),
        run toy_codec fed_ops toy_snap toy_comm (counter_actor oc) (fresh fed0 tt tt) (calls_of 1%nat order_history) with
  | Ok (d0, o0), Ok (d1, o1) =>
    map (omap app_out) o0 = [[]; [response_command oc 21 (CounterResponse CsSuccess (Some (CasResponse 5 6)))];
      [response_command oc 22 (CounterResponse CsInvalidArgument (Some (CasResponse 6 0)))]] /\
    map (omap app_out) o1 = [[]; []; []; [response_command oc 31 (CounterResponse CsRejected None)]] /\
    handed (raft_calls d0) = [inr [order_log 2]; inr []; inr [order_log 3]; inr []] /\
    handed (raft_calls d1) = [inl (Snapshot 1 1 (conf_of_voters [1]) (enc_snapshot oc {[ "a"%string := CounterValue 5 [] ]}));
       inr []; inr []; inr [order_log 2]; inr []]
  | _, _ => False
  end.
Proof. vm_compute. split_and!; reflexivity. Qed.
Lemma order_none k : k <> 0%nat -> k <> 1%nat -> calls_of k order_history = [].
Proof. intros H0 H1. apply calls_of_none. unfold order_history. repeat (constructor; [simpl; congruence|]). constructor. Qed.
Lemma order_start k q : started_with k order_history q ->
  (k = 0%nat /\ sr_leader q = true \/ k = 1%nat /\ sr_leader q = false) /\ sr_config q = order_config.
Proof.
  intros [[t D] _]. destruct (decide (k = 0%nat)) as [->|]; [|destruct (decide (k = 1%nat)) as [->|]].
  - unfold calls_of, order_history in D. cbn [omap list_omap decide decide_rel Nat.eq_dec] in D.
    repeat (apply elem_of_cons in D as [D|D]; [first [discriminate D|injection D as _ ->; split; [by left|reflexivity]]|]). by apply elem_of_nil in D.
  - unfold calls_of, order_history in D. cbn [omap list_omap decide decide_rel Nat.eq_dec] in D.
    repeat (apply elem_of_cons in D as [D|D]; [first [discriminate D|injection D as _ ->; split; [by right|reflexivity]]|]). by apply elem_of_nil in D.
  - rewrite order_none in D by done. by apply elem_of_nil in D.
Qed.
Local Ltac fed_log := vm_compute;
  repeat match goal with |- _ /\ _ => split end;
  first [exact Logic.I|left; reflexivity|right; discriminate|apply Permutation_refl|discriminate].
Notation order_agrees := (agrees toy_codec fed_ops toy_snap toy_comm order_apps cluster_begin order_log order_history).
Example order_hypothesis_agrees : order_agrees.
Proof.
  constructor.
  - done.
  - intros k. destruct (state_in order_apps k order_history) as [d|] eqn:E; [exists d; by apply state_in_member|]. exfalso.
    destruct (decide (k = 0%nat)) as [->|]; [by vm_compute in E|]. destruct (decide (k = 1%nat)) as [->|]; [by vm_compute in E|].
    unfold state_in in E. by rewrite order_none in E.
  - intros k1 k2 q1 q2 S1 S2 L1 L2. destruct (order_start _ _ S1) as [[[-> _]|[_ E]] _]; [|congruence].
    by destruct (order_start _ _ S2) as [[[-> _]|[_ E]] _]; [|congruence].
  - intros k d q M Sq. apply state_in_member in M. destruct (order_start _ _ Sq) as [[[-> L]|[-> L]] _]; unfold start_index; rewrite L.
    + assert (E : handed (raft_calls d) = [inr [order_log 2]; inr []; inr [order_log 3]; inr []]) by (vm_compute in M; by injection M as <-).
      rewrite E. clear. fed_log.
    + assert (E : handed (raft_calls d) = [inl (Snapshot 1 1 (conf_of_voters [1]) (enc_snapshot oc {[ "a"%string := CounterValue 5 [] ]}));
       inr []; inr []; inr [order_log 2]; inr []]) by (vm_compute in M; by injection M as <-).
      rewrite E. clear. fed_log.
  - intros H1 k x H2 d d' calls s E M M' Ec Hs. apply (state_in_member order_apps) in M, M'.
    set (handed_of k H := match state_in order_apps k H with Some d => handed (raft_calls d) | None => [] end).
    assert (Z : inl s ∈ drop (length (handed_of k H1)) (handed_of k (H1 ++ [(k, x)]))).
    { unfold handed_of. rewrite M, M', Ec. unfold handed. rewrite map_app, concat_app, drop_app. done. }
    clear M M' Ec Hs calls d d'. unfold handed_of in Z. clear handed_of.
    unfold order_history in E.
    let rec go := first [by apply (f_equal length) in E; rewrite app_length in E; simpl in E; lia|
      destruct H1 as [|? H1];
      [injection E as <- <- <-; vm_compute in Z;
       repeat (apply elem_of_cons in Z as [Z|Z]; [first [discriminate Z|injection Z as ->]|]); try (by apply elem_of_nil in Z)|
       injection E as <- E; go]] in go.
    exists 0%nat. eexists. split; [apply (state_in_member order_apps); vm_compute; reflexivity|].
    right. split; [done|]. by exists 1.
Qed.
Example order_hypothesis_configuration : one_configuration order_history.
Proof. intros k1 k2 q1 q2 S1 S2. by rewrite (proj2 (order_start _ _ S1)), (proj2 (order_start _ _ S2)). Qed.
Lemma order_index i ev : logged toy_codec order_log i = Some ev -> i = 2 \/ i = 3.
Proof.
  unfold logged, event_of_entry, order_log. cbn [re_data re_type re_index].
  destruct (N.eqb_spec i 2) as [|_]; [by left|]. destruct (N.eqb_spec i 3) as [|_]; [by right|]. done.
Qed.
Definition order_reached (k : nat) (n : nat) : N :=
  match state_in order_apps k (take n order_history) with
  | Some d => position (if (k =? 0)%nat then 1 else 0) (handed (raft_calls d))
  | None => 0
  end.
Lemma order_reached_at H1 H2 k j : order_history = H1 ++ H2 -> reached toy_codec fed_ops toy_snap toy_comm order_apps cluster_begin k H1 j ->
  (k = 0%nat \/ k = 1%nat) /\ j = order_reached k (length H1).
Proof.
  intros E (d&q&M&Sq&->). apply state_in_member in M. unfold order_reached. rewrite E, take_app, M.
  assert (S2 : started_with k order_history q) by (rewrite E; by apply started_prefix).
  destruct (order_start _ _ S2) as [[[-> L]|[-> L]] _]; unfold start_index; rewrite L; split; auto.
Qed.
Example order_hypothesis_order : proposals_in_order toy_codec fed_ops toy_snap toy_comm order_apps cluster_begin order_log order_history order_origin.
Proof.
  constructor.
  - intros i ev (_&Hl&_). destruct (order_index _ _ Hl) as [->| ->].
    + exists (take 1 order_history), 0%nat, (6, order_request 21 5 6), (drop 2 order_history). do 3 eexists.
      split; [reflexivity|]. split; [reflexivity|].
      split; [apply state_in_member; vm_compute; reflexivity|]. split; [apply state_in_member; vm_compute; reflexivity|].
      split; [cbn; reflexivity|]. left.
    + exists (take 4 order_history), 0%nat, (8, order_request 22 5 7), (drop 5 order_history). do 3 eexists.
      split; [reflexivity|]. split; [reflexivity|].
      split; [apply state_in_member; vm_compute; reflexivity|]. split; [apply state_in_member; vm_compute; reflexivity|].
      split; [cbn; reflexivity|]. left.
  - intros i j ev ev' (_&Hi&_) (_&Hj&_) E. destruct (order_index _ _ Hi) as [->| ->], (order_index _ _ Hj) as [->| ->]; done.
  - intros i ev H1 H2 k j (_&Hl&_) E Hle Hr. destruct (order_reached_at _ _ _ _ E Hr) as [Hk ->]. clear Hr E.
    destruct (order_index _ _ Hl) as [->| ->]; clear Hl; unfold order_origin in Hle; cbn in Hle;
      generalize dependent (length H1); intros n Hle; repeat (destruct n as [|n]; [destruct Hk as [->| ->]; by vm_compute|]); lia.
Qed.
(** So what the clients saw is explained by a sequential execution: the
    responses 21 (success, old value 5) and 22 (failure, old value 6). *)
Example C97_example : linearizable oc toy_codec fed_ops toy_snap toy_comm cluster_begin {[ "a"%string := 5%Z ]} order_history.
Proof.
  apply (C97_counters_are_linearizable toy_codec fed_ops toy_snap toy_comm cluster_begin oc order_log order_history order_origin 0%nat
    (StartRequest true 1 (Some (RaftConfig 10 5 2 0 None 1)) order_config false true)).
  - apply CounterTheorems.sample_codec_ok.
  - apply toy_codec_ok.
  - apply order_hypothesis_agrees.
  - apply order_hypothesis_configuration.
  - apply order_hypothesis_order.
  - split; [|done]. exists 5. left.
  - by vm_compute.
Qed.
Example C97_example_told :
  told oc toy_codec fed_ops toy_snap toy_comm cluster_begin order_history 4 1 22 (CounterResponse CsInvalidArgument (Some (CasResponse 6 0))).
Proof.
  exists (take 4 order_history), 0%nat, (8, order_request 22 5 7), (drop 5 order_history),
    (StartRequest true 1 (Some (RaftConfig 10 5 2 0 None 1)) order_config false true). do 3 eexists.
  split; [reflexivity|]. split; [reflexivity|]. split; [split; [exists 5; left|done]|]. split; [done|].
  split; [apply (state_in_member order_apps); vm_compute; reflexivity|]. split; [vm_compute; reflexivity|]. vm_compute. left.
Qed.
