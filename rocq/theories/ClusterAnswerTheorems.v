(** Theorems about requests and answers in a cluster (C101). *)
From Verif Require Import Base StorageModel SnapshotModel CommModel ActorModel ActorSpec DriverModel DriverSpec DriverProofs DriverTheorems
  ClusterSpec ClusterProofs ClusterTheorems ClusterOrderSpec ClusterOrderProofs CounterModel CounterSpec CounterProofs CounterTheorems
  TabletModel TabletSpec TabletProofs TabletTheorems WillowModel WillowSpec WillowProofs WillowTheorems
  ClusterOrderTheorems ClusterTabletTheorems ClusterAnswerSpec ClusterAnswerProofs.

(** * C101 *)
Section Theorems.
Context {RS SP CS REQ RESP : Type}.
Variable codec : driver_codec.
Variable rops : raft_ops RS.
Variable sops : snap_ops SP.
Variable cops : comm_ops CS REQ RESP.
Variable begin : nat -> RS * SP * CS.
Notation events := (list (nat * delivery REQ RESP)).

(** Each message that a member of a cluster hands out for its clients is the answer
    to a request of its own: handed to a replica with the same id under the same
    number, not after the answer. *)
Theorem C101_requests_are_answered_once {ST} (apps : nat -> actor ST) good older log (H : events) origin k q l :
  replicated apps good older -> answers_once apps -> driver_codec_ok codec ->
  agrees codec rops sops cops apps begin log H -> one_configuration H ->
  proposals_in_order codec rops sops cops apps begin log H origin ->
  started_with k H q -> tells codec rops sops cops apps begin k H l ->
  answered_once H (sr_id q) l.
Proof using. intros RP AO Hd AG CF PO. by eapply member_answers_once. Qed.
(** So if clients give their requests different numbers, no member uses a number
    twice. *)
Theorem C101_no_number_is_answered_twice {ST} (apps : nat -> actor ST) good older log (H : events) origin k q l :
  replicated apps good older -> answers_once apps -> driver_codec_ok codec ->
  agrees codec rops sops cops apps begin log H -> one_configuration H ->
  proposals_in_order codec rops sops cops apps begin log H origin ->
  started_with k H q -> tells codec rops sops cops apps begin k H l -> new_numbers H (sr_id q) ->
  NoDup (map (fun y => ac_correlation y.2) l).
Proof using.
  intros RP AO Hd AG CF PO Sq T Hnew.
  destruct (member_answers_once _ _ _ _ _ _ _ _ RP AO Hd _ _ AG CF _ PO _ _ _ Sq T) as (rs&Hn&F). clear T.
  induction F as [|[b y] a l rs [Ha _] F IH]; [constructor|]. apply NoDup_cons in Hn as [Hni Hn]. simpl. constructor; [|by apply IH].
  intros Hin. apply elem_of_list_In, in_map_iff in Hin as ([b' y']&Ey&Hin). simpl in Ey. apply elem_of_list_In in Hin.
  apply elem_of_list_lookup in Hin as [j Hj]. destruct (Forall2_lookup_l _ _ _ _ _ F Hj) as (a'&Ha'&Hc&_).
  rewrite Ey in Hc. rewrite (Hnew _ _ _ Ha Hc) in Hni. apply Hni. by eapply elem_of_list_lookup_2.
Qed.

End Theorems.

(** ** The applications of the platform answer requests once *)
Local Ltac by_cases := repeat first
  [done|match goal with E : res_bind _ _ = Ok _ |- _ => apply bind_ok in E as (?&?&E) end|progress simplify_eq/=|case_match
  |left; eexists; split_and!; done|right; split; [done|]; intros ? [= <-]; done|right; split; [done|]; eexists; split; done|by left].
Lemma counter_answers_once c : answers_once (fun _ : nat => counter_actor c).
Proof.
  constructor.
  - intros k cx st st' out E. cbn in E. by injection E as <- <-.
  - intros k cx st m st' out E. cbn in E. unfold counter_command in E. by_cases.
  - intros k st cx ev st' out _ E. cbn in E. unfold counter_apply in E. by_cases.
Qed.
Lemma tablet_answers_once c generate order : answers_once (fun k : nat => tablet_actor c (generate k) (order k)).
Proof.
  constructor.
  - intros k cx st st' out E. cbn in E. by injection E as <- <-.
  - intros k cx st m st' out E. cbn in E. unfold tablet_command in E. by_cases.
  - intros k st cx ev st' out _ E. cbn [a_apply tablet_actor] in E. unfold tablet_apply in E. by_cases.
Qed.
Lemma willow_answers_once c keygen decrypt entropy : willow_codec_ok c ->
  answers_once (fun k : nat => willow_actor c keygen decrypt (entropy k)).
Proof.
  intros Hc. constructor.
  - intros k cx st st' out E. cbn in E. by injection E as <- <-.
  - intros k cx st m st' out E. cbn [a_command willow_actor] in E. unfold willow_command, generate_command, decrypt_command in E. by_cases.
  - intros k st cx ev st' out (k'&cx'&st0&m&st0'&out0&D&Ev) E. cbn [a_apply willow_actor] in E.
    assert (exists e, ae_contents ev = enc_wevent c e) as [e Ee].
    { cbn [a_command willow_actor] in D. unfold willow_command, generate_command, decrypt_command in D. clear E Hc.
      repeat first [done|match goal with E : res_bind _ _ = Ok _ |- _ => apply bind_ok in E as (?&?&E) end|progress simplify_eq/=|case_match];
        by eexists. }
    unfold willow_apply, generate_event, decrypt_event in E. rewrite Ee, (wevent_round_trip _ Hc) in E.
    destruct e; injection E as <- <-; destruct (ec_owned cx); try (by left); right; (split; [done|]); eexists; split; done.
Qed.

Section Applications.
Context {RS SP CS REQ RESP : Type}.
Variable codec : driver_codec.
Variable rops : raft_ops RS.
Variable sops : snap_ops SP.
Variable cops : comm_ops CS REQ RESP.
Variable begin : nat -> RS * SP * CS.
Notation events := (list (nat * delivery REQ RESP)).
Hypothesis Hd : driver_codec_ok codec.

Theorem C101_counters_answer_once c log (H : events) origin k q l :
  let apps := fun _ : nat => counter_actor c in
  CounterSpec.codec_ok c -> agrees codec rops sops cops apps begin log H -> one_configuration H ->
  proposals_in_order codec rops sops cops apps begin log H origin ->
  started_with k H q -> tells codec rops sops cops apps begin k H l -> answered_once H (sr_id q) l.
Proof using Hd. intros apps Hc AG CF PO. eapply C101_requests_are_answered_once; try done; [by apply replicated_counter|apply counter_answers_once]. Qed.
Theorem C101_tablet_stores_answer_once c generate order log (H : events) origin k q l :
  let apps := fun k : nat => tablet_actor c (generate k) (order k) in
  tablet_codec_ok c -> (forall k : nat, order_ok (order k)) -> agrees codec rops sops cops apps begin log H -> one_configuration H ->
  proposals_in_order codec rops sops cops apps begin log H origin ->
  started_with k H q -> tells codec rops sops cops apps begin k H l -> answered_once H (sr_id q) l.
Proof using Hd. intros apps Hc Ho AG CF PO. eapply C101_requests_are_answered_once; try done; [by apply replicated_tablets|apply tablet_answers_once]. Qed.
Theorem C101_decryptors_answer_once c keygen decrypt entropy log (H : events) origin k q l :
  let apps := fun k : nat => willow_actor c keygen decrypt (entropy k) in
  willow_codec_ok c -> agrees codec rops sops cops apps begin log H -> one_configuration H ->
  proposals_in_order codec rops sops cops apps begin log H origin ->
  started_with k H q -> tells codec rops sops cops apps begin k H l -> answered_once H (sr_id q) l.
Proof using Hd. intros apps Hc AG CF PO. eapply C101_requests_are_answered_once; try done; [by apply replicated_willow|by apply willow_answers_once]. Qed.
End Applications.

(** ** A cluster that meets the hypotheses *)
(** What a member of the sample clusters hands out in the call number [a]. *)
Definition says {ST} (apps : nat -> actor ST) (k : nat) (H : list (nat * delivery unit unit)) (a : nat) : option (list (nat * actor_command)) :=
  match H !! a with
  | Some (k', x) =>
    if decide (k' = k)
    then d ← state_in apps k (take a H);
      match receive toy_codec fed_ops toy_snap toy_comm (apps k) d x with
      | Ok (_, out) => Some (map (pair a) (omap app_out out)) | _ => None end
    else Some []
  | None => None
  end.
Lemma tells_all {ST} (apps : nat -> actor ST) k H n : forall l, (n <= length H)%nat -> mapM (says apps k H) (seq 0 n) = Some l ->
  tells toy_codec fed_ops toy_snap toy_comm apps cluster_begin k (take n H) (concat l).
Proof.
  induction n as [|n IH]; intros l Hn Hm; apply mapM_Some in Hm.
  - inversion Hm; subst. constructor.
  - rewrite seq_S in Hm. apply Forall2_app_inv_l in Hm as (l1&l2&F1&F2&->). apply mapM_Some in F1.
    inversion F2 as [|? y ? ? Hy F3]; subst. inversion F3; subst. rewrite concat_app. cbn [concat]. rewrite app_nil_r.
    cbn [Nat.add] in Hy. specialize (IH l1 ltac:(lia) F1). unfold says in Hy.
    destruct (H !! n) as [[k' x]|] eqn:Ex; [|done]. rewrite (take_S_r _ _ _ Ex).
    destruct (decide (k' = k)) as [->|Hk].
    + destruct (state_in apps k (take n H)) as [d|] eqn:Ed; [|done]. cbn [mbind option_bind] in Hy.
      destruct (receive _ _ _ _ _ d x) as [[d' out]| |] eqn:Er; [|done..]. injection Hy as <-.
      replace (map (pair n) (omap app_out out)) with (map (pair (length (take n H))) (omap app_out out)) by (f_equal; f_equal; rewrite take_length; lia).
      eapply tells_messages; [done|by apply state_in_member|exact Er].
    + injection Hy as <-. rewrite app_nil_r. by apply tells_not.
Qed.
(** The leader of the tablet store of C100 hands out three messages: the answers
    to the requests 21, 22 and 23 of the calls 1, 4 and 7. *)
Definition store_answers : list (nat * actor_command) :=
  [(1%nat, store_answer 21 (TabletsResponse true [OpResult "a" OpSucceeded (Some (UpdateResult (Some (tm 10 0))))]));
   (4%nat, store_answer 22 (TabletsResponse false [OpResult "a" OpFailed (Some (UpdateResult (Some (tm 10 1))))]));
   (7%nat, store_answer 23 (TabletsResponse false [OpResult "a" OpFailed (Some (CheckResult (Some (tm 10 1))))]))].
Example C101_example_tells :
  tells toy_codec fed_ops toy_snap toy_comm store_apps cluster_begin 0 store_history store_answers.
Proof.
  apply (tells_all store_apps 0 store_history 8 [[]; take 1 store_answers; []; []; take 1 (drop 1 store_answers); []; []; drop 2 store_answers]);
    [vm_compute; lia|vm_compute; reflexivity].
Qed.
Notation store_start0 := (StartRequest true 1 (Some (RaftConfig 10 5 2 0 None 1)) store_config false true).
Example C101_example : answered_once store_history 1 store_answers.
Proof.
  destruct store_codecs_met as (Hc&Ho&Hd&_).
  apply (C101_tablet_stores_answer_once toy_codec fed_ops toy_snap toy_comm cluster_begin Hd store_codec store_generate store_order
    store_log store_history store_origin 0%nat store_start0).
  - exact Hc.
  - exact Ho.
  - apply store_hypothesis_agrees.
  - apply store_hypothesis_configuration.
  - apply store_hypothesis_order.
  - split; [exists 5; left|done].
  - apply C101_example_tells.
Qed.
(** The clients of the replica 1 gave every request a new number. *)
Example C101_example_numbers : new_numbers store_history 1.
Proof.
  assert (Z : forall a n, client_asks store_history a 1 n -> a = 1%nat /\ n = 21 \/ a = 4%nat /\ n = 22 \/ a = 6%nat /\ n = 31 \/ a = 7%nat /\ n = 23).
  { intros a n (k&t&m&q&E&_&_&<-). unfold store_history in E.
    do 8 (destruct a as [|a]; [cbn [lookup list_lookup] in E; first [discriminate E|injection E as _ _ <-; cbn [ac_correlation]; auto 10]|]). done. }
  intros a1 a2 n H1 H2. destruct (Z _ _ H1) as [[-> ->]|[[-> ->]|[[-> ->]|[-> ->]]]];
    destruct (Z _ _ H2) as [[-> E]|[[-> E]|[[-> E]|[-> E]]]]; first [done|discriminate E].
Qed.

(** ** Replicas that are started again *)
(** A replica that is started again under its old id, and gets the log from the
    beginning, answers the requests of its predecessor again. *)
Definition again_history : list (nat * delivery unit unit) :=
  [(0%nat, (5, other_start true 1 order_config));
   (0%nat, (6, order_request 21 5 6));
   (1%nat, (5, other_start false 1 order_config));
   (1%nat, (7, toy_peer 3 1 2 (1 :: enc_snapshot oc {[ "a"%string := CounterValue 5 [] ]})));
   (1%nat, (8, toy_peer 0 1 2 (order_entry 21 5 6)))].
Definition again_log (i : N) : rentry := REntry EntryNormal 1 i (if i =? 2 then order_entry 21 5 6 else []).
Lemma again_none k : k <> 0%nat -> k <> 1%nat -> calls_of k again_history = [].
Proof. intros H0 H1. apply calls_of_none. unfold again_history. repeat (constructor; [simpl; congruence|]). constructor. Qed.
Lemma again_start k q : started_with k again_history q ->
  (k = 0%nat /\ sr_leader q = true \/ k = 1%nat /\ sr_leader q = false) /\ sr_config q = order_config.
Proof.
  intros [[t D] _]. destruct (decide (k = 0%nat)) as [->|]; [|destruct (decide (k = 1%nat)) as [->|]].
  - unfold calls_of, again_history in D. cbn [omap list_omap decide decide_rel Nat.eq_dec] in D.
    repeat (apply elem_of_cons in D as [D|D]; [first [discriminate D|injection D as _ ->; split; [by left|reflexivity]]|]). by apply elem_of_nil in D.
  - unfold calls_of, again_history in D. cbn [omap list_omap decide decide_rel Nat.eq_dec] in D.
    repeat (apply elem_of_cons in D as [D|D]; [first [discriminate D|injection D as _ ->; split; [by right|reflexivity]]|]). by apply elem_of_nil in D.
  - rewrite again_none in D by done. by apply elem_of_nil in D.
Qed.
Local Ltac fed_log := vm_compute;
  repeat match goal with |- _ /\ _ => split end;
  first [exact Logic.I|left; reflexivity|right; discriminate|apply Permutation_refl|discriminate].
Example again_agrees : agrees toy_codec fed_ops toy_snap toy_comm order_apps cluster_begin again_log again_history.
Proof.
  constructor.
  - done.
  - intros k. destruct (state_shows order_apps k again_history (fun _ => tt) tt) as (d&M&_); [|by exists d].
    destruct (decide (k = 0%nat)) as [->|]; [vm_compute; reflexivity|]. destruct (decide (k = 1%nat)) as [->|]; [vm_compute; reflexivity|].
    unfold state_in. rewrite again_none by done. done.
  - intros k1 k2 q1 q2 S1 S2 L1 L2. destruct (again_start _ _ S1) as [[[-> _]|[_ E]] _]; [|congruence].
    by destruct (again_start _ _ S2) as [[[-> _]|[_ E]] _]; [|congruence].
  - intros k d q M Sq. destruct (again_start _ _ Sq) as [[[-> L]|[-> L]] _]; unfold start_index; rewrite L.
    + rewrite (state_of_member order_apps 0%nat again_history (fun d => handed (raft_calls d)) d
        [inr [again_log 2]; inr []] M) by (vm_compute; reflexivity).
      clear. fed_log.
    + rewrite (state_of_member order_apps 1%nat again_history (fun d => handed (raft_calls d)) d
        [inl (Snapshot 1 1 (conf_of_voters [1]) (enc_snapshot oc {[ "a"%string := CounterValue 5 [] ]})); inr []; inr []; inr [again_log 2]; inr []] M)
        by (vm_compute; reflexivity).
      clear. fed_log.
  - intros H1 k x H2 d d' calls s E M M' Ec Hs. apply (state_in_member order_apps) in M, M'.
    set (handed_of k H := match state_in order_apps k H with Some d => handed (raft_calls d) | None => [] end).
    assert (Z : inl s ∈ drop (length (handed_of k H1)) (handed_of k (H1 ++ [(k, x)]))).
    { unfold handed_of. rewrite M, M', Ec. unfold handed. rewrite map_app, concat_app, drop_app. done. }
    clear M M' Ec Hs calls d d'. unfold handed_of in Z. clear handed_of.
    unfold again_history in E.
    let rec go := first [by apply (f_equal length) in E; rewrite app_length in E; simpl in E; lia|
      destruct H1 as [|? H1];
      [injection E as <- <- <-;
       match type of Z with _ ∈ ?l => let l' := eval vm_compute in l in
         let El := fresh in assert (El : l = l') by (vm_compute; reflexivity); rewrite El in Z; clear El end;
       repeat (apply elem_of_cons in Z as [Z|Z]; [first [discriminate Z|injection Z as ->]|]); try (by apply elem_of_nil in Z)|
       injection E as <- E; go]] in go.
    match goal with |- created _ _ _ _ _ _ ?h (Snapshot _ _ _ ?data) =>
      destruct (state_shows order_apps 0%nat h (fun d => head (raft_calls d)) (Some (KInit 1 true data))) as (d&M&Ed); [vm_compute; reflexivity|] end.
    exists 0%nat, d. split; [done|]. right. split; [done|]. by exists 1.
Qed.
Lemma again_index i ev : logged toy_codec again_log i = Some ev -> i = 2.
Proof.
  unfold logged, event_of_entry, again_log. cbn [re_data re_type re_index]. by destruct (N.eqb_spec i 2) as [|_].
Qed.
Definition again_reached (k : nat) (n : nat) : N :=
  match state_in order_apps k (take n again_history) with
  | Some d => position (if (k =? 0)%nat then 1 else 0) (handed (raft_calls d))
  | None => 0
  end.
Lemma again_reached_at H1 H2 k j : again_history = H1 ++ H2 -> reached toy_codec fed_ops toy_snap toy_comm order_apps cluster_begin k H1 j ->
  (k = 0%nat \/ k = 1%nat) /\ j = again_reached k (length H1).
Proof.
  intros E (d&q&M&Sq&->). apply state_in_member in M. unfold again_reached. rewrite E, take_app, M.
  assert (S2 : started_with k again_history q) by (rewrite E; by apply started_prefix).
  destruct (again_start _ _ S2) as [[[-> L]|[-> L]] _]; unfold start_index; rewrite L; split; auto.
Qed.
Example again_order : proposals_in_order toy_codec fed_ops toy_snap toy_comm order_apps cluster_begin again_log again_history (fun _ => 1%nat).
Proof.
  constructor.
  - intros i ev (_&Hl&_). rewrite (again_index _ _ Hl).
    exists (take 1 again_history), 0%nat, (6, order_request 21 5 6), (drop 2 again_history). do 3 eexists.
    split; [reflexivity|]. split; [reflexivity|].
    split; [apply state_in_member; vm_compute; reflexivity|]. split; [apply state_in_member; vm_compute; reflexivity|].
    split; [cbn; reflexivity|]. left.
  - intros i j ev ev' (_&Hi&_) (_&Hj&_) E. by rewrite (again_index _ _ Hi), (again_index _ _ Hj).
  - intros i ev H1 H2 k j (_&Hl&_) E Hle Hr. destruct (again_reached_at _ _ _ _ E Hr) as [Hk ->]. clear Hr E.
    rewrite (again_index _ _ Hl). clear Hl.
    generalize dependent (length H1); intros n Hle; repeat (destruct n as [|n]; [destruct Hk as [->| ->]; by vm_compute|]); lia.
Qed.
Theorem C101_restarted_replicas_answer_again_refuted :
  exists log H k1 k2 q1 q2 y b1 b2,
    agrees toy_codec fed_ops toy_snap toy_comm order_apps cluster_begin log H /\ one_configuration H /\
    (exists origin, proposals_in_order toy_codec fed_ops toy_snap toy_comm order_apps cluster_begin log H origin) /\
    started_with k1 H q1 /\ started_with k2 H q2 /\ sr_id q1 = sr_id q2 /\ new_numbers H (sr_id q1) /\
    k1 <> k2 /\ tells toy_codec fed_ops toy_snap toy_comm order_apps cluster_begin k1 H [(b1, y)] /\
    tells toy_codec fed_ops toy_snap toy_comm order_apps cluster_begin k2 H [(b2, y)].
Proof.
  exists again_log, again_history, 0%nat, 1%nat,
    (StartRequest true 1 (Some (RaftConfig 10 5 2 0 None 1)) order_config false true),
    (StartRequest false 1 (Some (RaftConfig 10 5 2 0 None 1)) order_config false true),
    (response_command oc 21 (CounterResponse CsSuccess (Some (CasResponse 5 6)))), 1%nat, 4%nat.
  split; [apply again_agrees|]. split; [intros k1 k2 q1 q2 S1 S2; by rewrite (proj2 (again_start _ _ S1)), (proj2 (again_start _ _ S2))|].
  split; [exists (fun _ => 1%nat); apply again_order|].
  split; [split; [exists 5; left|done]|]. split; [split; [exists 5; left|done]|]. split; [done|]. split.
  { assert (Z : forall a n, client_asks again_history a 1 n -> a = 1%nat).
    { intros a n (k&t&m&q&E&_). unfold again_history in E.
      do 5 (destruct a as [|a]; [cbn [lookup list_lookup] in E; first [discriminate E|reflexivity]|]). done. }
    intros a1 a2 n Ha1 Ha2. by rewrite (Z _ _ Ha1), (Z _ _ Ha2). }
  split; [done|]. split.
  - apply (tells_all order_apps 0 again_history 5 [[]; [(1%nat, response_command oc 21 (CounterResponse CsSuccess (Some (CasResponse 5 6))))]; []; []; []]);
      [vm_compute; lia|vm_compute; reflexivity].
  - apply (tells_all order_apps 1 again_history 5 [[]; []; []; []; [(4%nat, response_command oc 21 (CounterResponse CsSuccess (Some (CasResponse 5 6))))]]);
      [vm_compute; lia|vm_compute; reflexivity].
Qed.
