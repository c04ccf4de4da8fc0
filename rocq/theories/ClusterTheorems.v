(** Theorems about clusters (C24, C81). *)
From Verif Require Import Base StorageModel SnapshotModel CommModel ActorModel ActorSpec DriverModel DriverSpec DriverProofs DriverTheorems
  ClusterSpec ClusterProofs CounterModel CounterSpec CounterProofs CounterTheorems TabletModel TabletSpec TabletProofs TabletTheorems
  WillowModel WillowSpec WillowProofs WillowTheorems.

Section Theorems.
Context {RS SP CS ST REQ RESP : Type}.
Variable codec : driver_codec.
Variable rops : raft_ops RS.
Variable sops : snap_ops SP.
Variable cops : comm_ops CS REQ RESP.
Variable apps : nat -> actor ST.
Variable begin : nat -> RS * SP * CS.
Notation cluster_agrees := (agrees codec rops sops cops apps begin).
Notation member_holds := (holds codec rops sops cops apps begin).

(** * C24 *)
(** At any moment, every member that is anywhere in the log holds the state the
    log defines at its position, whether it got there through entries, through
    snapshots that whichever member created whenever, or both, and whether it was
    there from the beginning or started (again) later. *)
Theorem C24_state_is_that_of_the_log good older log H H1 k i st :
  replicated apps good older -> cluster_agrees log H -> one_configuration H -> H1 `prefix_of` H ->
  member_holds k H1 i st -> 1 <= i ->
  exists first, first_state codec rops sops cops apps begin H first /\ state_at codec apps log first i st.
Proof using.
  intros RP AG CF [H2 E] (d&q&t&M&S&->&Ha) Hi.
  destruct (recorded_now _ _ _ _ _ _ _ _ _ _ M S) as (st'&Ha'&Hc). rewrite Ha in Ha'. injection Ha' as <- _.
  destruct (all_placed _ _ _ _ _ _ _ _ RP _ _ AG CF (length H1) H1 H2 k d q st) as [[Hz _]|Hp]; try done. lia.
Qed.
(** So two members at the same position hold the same state, no matter when. *)
Theorem C24_replicas_converge good older log H H1 H2 k1 k2 i st1 st2 :
  replicated apps good older -> cluster_agrees log H -> one_configuration H -> H1 `prefix_of` H -> H2 `prefix_of` H ->
  member_holds k1 H1 i st1 -> member_holds k2 H2 i st2 -> 1 <= i -> st1 = st2.
Proof using.
  intros RP AG CF P1 P2 S1 S2 Hi.
  destruct (C24_state_is_that_of_the_log _ _ _ _ _ _ _ _ RP AG CF P1 S1 Hi) as (f1&F1&A1).
  destruct (C24_state_is_that_of_the_log _ _ _ _ _ _ _ _ RP AG CF P2 S2 Hi) as (f2&F2&A2).
  rewrite (first_unique _ _ _ _ _ _ _ _ AG _ _ F1 F2) in A1. by eapply sat_unique.
Qed.
End Theorems.

(** The three replicated applications are such applications. *)
Lemma replicated_counter c : CounterSpec.codec_ok c ->
  replicated (fun _ => counter_actor c) (fun _ => True) (fun old st => dom old ⊆ dom st).
Proof.
  intros Hc. constructor; simpl; try done.
  - intros _ cx st [m|] st' out H; simpl in H; [|by injection H as <- <-].
    destruct (dec_in c (ac_header m)) as [[r|]|]; [|by injection H as <- <-..].
    destruct (cx_leader cx); [|by injection H as <- <-]. simpl in H. destruct (cr_op r); by injection H as <- <-.
  - intros _ _ i own1 own2 st ev st1 st2 out1 out2 H1 H2. unfold counter_apply in *.
    destruct (dec_request c (ae_contents ev)) as [r|]; [|done]. destruct (cr_op r) as [cas|]; [|done].
    destruct (apply_compare_and_swap st (cr_name r) cas (cr_payload r)) as [st' resp].
    simpl in *. destruct own1, own2; by simplify_eq.
  - intros _ _ cx1 cx2 st1 st2 E H1 H2. unfold counter_init in *. rewrite E in H1.
    destruct (dec_config c (cx_config cx2)); [|done]. by simplify_eq.
  - intros _ cx st0 st ev st' out Ho H. unfold counter_apply in H.
    destruct (dec_request c (ae_contents ev)) as [r|]; [|done]. destruct (cr_op r) as [cas|]; [|done].
    assert (Hd : dom st ⊆ dom (apply_compare_and_swap st (cr_name r) cas (cr_payload r)).1).
    { unfold apply_compare_and_swap. destruct (_ =? _)%Z; simpl; rewrite !dom_insert_L; set_solver. }
    destruct (apply_compare_and_swap st (cr_name r) cas (cr_payload r)) as [st'' resp].
    simpl in *. destruct (ec_owned cx); injection H as <- <-; set_solver.
  - intros _ _ st data old st' _ Ho Hs Hl.
    assert (E : counter_load c old data = Ok st).
    { apply C35_snapshot_restores_state_partial; [done|done|]. intros n. rewrite <- !elem_of_dom. auto. }
    rewrite E in Hl. by injection Hl as <-.
Qed.
Lemma replicated_willow c keygen decrypt entropy : willow_codec_ok c ->
  replicated (fun k => willow_actor c keygen decrypt (entropy k)) (fun _ => True) (fun _ _ => True).
Proof.
  intros Hc. constructor; simpl; try done.
  - intros k cx st [m|] st' out H; simpl in H; [|by injection H as <- <-].
    destruct (dec_wrequest c (ac_header m)) as [r|]; [|done].
    destruct (cx_leader cx); [|by injection H as <- <-]. simpl in H.
    destruct r as [[key|key req]|]; try by injection H as <- <-.
    unfold decrypt_command in H. destruct (st !! key) as [kp|]; [|by injection H as <- <-].
    destruct (decrypt _ _ _ _); [|by injection H as <- <-|done]. by injection H as <- <-.
  - intros _ _ i own1 own2 st ev st1 st2 out1 out2 H1 H2. unfold willow_apply in *.
    destruct (dec_wevent c (ae_contents ev)) as [[[key public private order|key r]|]|]; simpl in *; by simplify_eq.
  - intros k1 k2 st data old st' _ _ Hs Hl.
    destruct (C46_snapshot_restores_state c st old Hc) as (b&Hb&Hl2). rewrite Hb in Hs. injection Hs as <-.
    rewrite Hl2 in Hl. by injection Hl as <-.
Qed.
Lemma replicated_tablets c generate order : tablet_codec_ok c -> (forall k : nat, order_ok (order k)) ->
  replicated (fun k => tablet_actor c (generate k) (order k)) well_keyed (fun old st => dom old = dom st).
Proof.
  intros Hc Ho. constructor; simpl; try done.
  - intros k cx st [m|] st' out H; simpl in H; [|by injection H as <- <-].
    destruct (cx_leader cx); [|by injection H as <- <-]. simpl in H.
    destruct (dec_header c (ac_header m)) as [[u|]|]; [|by injection H as <- <-..].
    destruct (dec_ops c (ac_payload m)); by injection H as <- <-.
  - intros _ _ i own1 own2 st ev st1 st2 out1 out2 H1 H2. unfold tablet_apply in *.
    destruct (dec_ops c (ae_contents ev)) as [ops|]; [|done].
    destruct (apply_tablets_request st ops) as [[ts' resp]| |]; [|done..]. simpl in *. destruct own1, own2; by simplify_eq.
  - intros k cx st H. unfold tablet_init in H. destruct (dec_tables_config c (cx_config cx)); [|done]. injection H as <-.
    apply create_tables_keyed.
  - intros k cx st ev st' out Hg H. unfold tablet_apply in H. destruct (dec_ops c (ae_contents ev)) as [ops|]; [|done].
    destruct (apply_tablets_request st ops) as [[ts' resp]| |] eqn:E; [|done..]. simpl in H.
    assert (st' = ts') as -> by (destruct (ec_owned cx); by injection H as <- <-). by eapply request_well_keyed.
  - intros k1 k2 cx1 cx2 st1 st2 E H1 H2. apply set_eq. intros n. rewrite !elem_of_dom.
    by eapply C42_same_configuration_same_tables.
  - intros k cx st0 st ev st' out Hd H. unfold tablet_apply in H. destruct (dec_ops c (ae_contents ev)) as [ops|]; [|done].
    destruct (apply_tablets_request st ops) as [[ts' resp]| |] eqn:E; [|done..]. simpl in H.
    assert (st' = ts') as -> by (destruct (ec_owned cx); by injection H as <- <-). rewrite Hd.
    apply set_eq. intros n. rewrite !elem_of_dom.
    assert (Hr : run_requests st [ops] = Ok (ts', [resp])) by (simpl; by rewrite E).
    symmetry. by eapply run_tables.
  - intros k1 k2 st data old st' Hg Hd Hs Hl.
    destruct (C42_snapshot_restores_state c (order k1) st old Hc (Ho k1) Hg) as (b&Hb&Hl2).
    { intros n. rewrite <- !elem_of_dom. by rewrite Hd. }
    rewrite Hb in Hs. injection Hs as <-. rewrite Hl2 in Hl. by injection Hl as <-.
Qed.

Section Applications.
Context {RS SP CS REQ RESP : Type}.
Variable codec : driver_codec.
Variable rops : raft_ops RS.
Variable sops : snap_ops SP.
Variable cops : comm_ops CS REQ RESP.
Variable begin : nat -> RS * SP * CS.

Theorem C24_atomic_counters_converge c log H H1 H2 k1 k2 i st1 st2 :
  let apps := fun _ : nat => counter_actor c in
  CounterSpec.codec_ok c -> agrees codec rops sops cops apps begin log H -> one_configuration H ->
  H1 `prefix_of` H -> H2 `prefix_of` H ->
  holds codec rops sops cops apps begin k1 H1 i st1 -> holds codec rops sops cops apps begin k2 H2 i st2 -> 1 <= i -> st1 = st2.
Proof using. intros apps Hc. eapply C24_replicas_converge. by apply replicated_counter. Qed.
(** The tablet store: whatever tablet ids each member generates, and in whatever
    order it visits its tables. *)
Theorem C24_tablet_stores_converge c generate order log H H1 H2 k1 k2 i st1 st2 :
  let apps := fun k : nat => tablet_actor c (generate k) (order k) in
  tablet_codec_ok c -> (forall k : nat, order_ok (order k)) ->
  agrees codec rops sops cops apps begin log H -> one_configuration H -> H1 `prefix_of` H -> H2 `prefix_of` H ->
  holds codec rops sops cops apps begin k1 H1 i st1 -> holds codec rops sops cops apps begin k2 H2 i st2 -> 1 <= i -> st1 = st2.
Proof using. intros apps Hc Ho. eapply C24_replicas_converge. by apply replicated_tablets. Qed.
(** The decryptor: whatever randomness each member uses. *)
Theorem C24_decryptors_converge c keygen decrypt entropy log H H1 H2 k1 k2 i st1 st2 :
  let apps := fun k : nat => willow_actor c keygen decrypt (entropy k) in
  willow_codec_ok c ->
  agrees codec rops sops cops apps begin log H -> one_configuration H -> H1 `prefix_of` H -> H2 `prefix_of` H ->
  holds codec rops sops cops apps begin k1 H1 i st1 -> holds codec rops sops cops apps begin k2 H2 i st2 -> 1 <= i -> st1 = st2.
Proof using. intros apps Hc. eapply C24_replicas_converge. by apply replicated_willow. Qed.
End Applications.

(** * A cluster that meets the hypotheses *)

(** Consensus that commits what is proposed to it, or delivered to it as an entry
    (kind 0) or as a snapshot (kind 3: its index, then its data). *)
Record fed := Fed { fd_init : bool; fd_leader : bool; fd_next : N; fd_ready : list rentry; fd_snap : snapshot }.
Definition no_snap : snapshot := Snapshot 0 0 (conf_of_voters []) [].
Definition fed0 : fed := Fed false false 1 [] no_snap.
Definition fed_add (r : fed) (data : bytes) : fed :=
  Fed (fd_init r) (fd_leader r) (fd_next r + 1) (fd_ready r ++ [REntry EntryNormal 1 (fd_next r) data]) (fd_snap r).
Definition fed_ops : raft_ops fed := RaftOps fed
  fd_init fd_leader (fun _ => raft_st0)
  (fun r id c data leader n => Ok (Fed true leader (if leader then 2 else 1) [] no_snap))
  (fun r m => match rm_type m, rm_rest m with
              | MsgOther 0, data => (fed_add r data, true)
              | MsgOther 3, i :: data => (Fed (fd_init r) (fd_leader r) (i + 1) [] (Snapshot i 1 (conf_of_voters [1]) data), true)
              | _, _ => (r, true)
              end)
  (fun r p => Ok (fed_add r p))
  (fun r c => (r, None))
  (fun r => r)
  (fun r c => Ok (r, conf_of_voters []))
  (fun r => negb ((sn_index (fd_snap r) =? 0) && match fd_ready r with [] => true | _ => false end))
  (fun r => (Fed (fd_init r) (fd_leader r) (fd_next r) [] no_snap, Ready [] [] [] (reverse (fd_ready r)) None (fd_snap r) 1))
  (fun r n => (r, LightReady [] []))
  (fun r => r)
  (fun r _ _ => r)
  (fun r _ => r)
  (fun r _ => Ok r)
  (fun r _ => Ok r)
  (fun r i _ => i =? 3)
  (fun r _ _ _ => Ok r)
  (fun r => 0).

(** A leader (member 0) proposes two events and creates a snapshot at index 3. A
    follower (member 1) gets the snapshot of the initial state, then the entries.
    It restarts (member 2) with the same id, is given the snapshot of index 3, and
    an entry of its own. *)
Definition cluster_apps : nat -> actor bytes := fun _ => toy_app.
Definition cluster_begin : nat -> fed * unit * unit := fun _ => (fed0, tt, tt).
Definition e2 : bytes := [1; 21; 1; 4; 4].
Definition e3 : bytes := [1; 22; 1; 5].
Definition e4 : bytes := [1; 23; 2; 6].
Definition cluster_history : list (nat * delivery unit unit) :=
  [(0%nat, (5, toy_start true false 1)); (0%nat, (6, toy_app_msg 21 [4; 4])); (1%nat, (6, toy_start false false 2));
   (1%nat, (7, toy_peer 3 2 1 [1; 7])); (0%nat, (7, toy_app_msg 22 [5])); (1%nat, (8, toy_peer 0 2 1 e2));
   (2%nat, (1, toy_start false false 2)); (2%nat, (2, toy_peer 3 2 1 [3; 7; 4; 4; 5])); (2%nat, (3, toy_peer 0 2 1 e4));
   (1%nat, (9, toy_peer 0 2 1 e3)); (1%nat, (9, toy_peer 0 2 1 e4))].
Definition cluster_log (i : N) : rentry :=
  REntry EntryNormal 1 i (if i =? 2 then e2 else if i =? 3 then e3 else if i =? 4 then e4 else []).
Definition state_in {ST} (apps : nat -> actor ST) (k : nat) (H : list (nat * delivery unit unit)) :=
  match run toy_codec fed_ops toy_snap toy_comm (apps k) (fresh fed0 tt tt) (calls_of k H) with
  | Ok (d, _) => Some d | _ => None end.
Lemma state_in_member {ST} (apps : nat -> actor ST) k H d :
  member toy_codec fed_ops toy_snap toy_comm apps cluster_begin k H d <-> state_in apps k H = Some d.
Proof.
  unfold state_in, member, reaches, cluster_begin. simpl. split.
  - intros (outs&_&->). done.
  - destruct (run _ _ _ _ _ _ _) as [[d' o]| |]; try done. intros [= <-]. by exists o.
Qed.
Lemma state_in_holds {ST} (apps : nat -> actor ST) k H i st t q :
  delivered (HStart q) (calls_of k H) -> sr_ephemeral q = false ->
  (match state_in apps k H with Some d => (position (start_index q) (handed (raft_calls d)), d_actor d) | None => (0, None) end) = (i, Some (st, t)) ->
  holds toy_codec fed_ops toy_snap toy_comm apps cluster_begin k H i st.
Proof.
  intros Hd He E. destruct (state_in apps k H) as [d|] eqn:Es; [|done]. injection E as <- E.
  exists d, q, t. split_and!; [by apply state_in_member|by split|done|done].
Qed.
Notation state_of := (state_in cluster_apps).
Notation cluster_member := (member toy_codec fed_ops toy_snap toy_comm cluster_apps cluster_begin).
Notation cluster_holds := (holds toy_codec fed_ops toy_snap toy_comm cluster_apps cluster_begin).
Lemma calls_of_none {REQ RESP} (k : nat) (H : list (nat * delivery REQ RESP)) : Forall (fun x => x.1 <> k) H -> calls_of k H = [].
Proof. induction 1 as [|[k' x] H Hx _ IH]; [done|]. unfold calls_of in *. simpl in *. by rewrite decide_False. Qed.
Lemma cluster_known k H : H `prefix_of` cluster_history -> k <> 0%nat -> k <> 1%nat -> k <> 2%nat -> calls_of k H = [].
Proof.
  intros [H2 E] H0 H1 H3. apply calls_of_none. assert (Hf : Forall (fun x => x.1 <> k) cluster_history).
  { unfold cluster_history. repeat (constructor; [simpl; congruence|]). constructor. }
  rewrite E in Hf. by apply Forall_app in Hf as [Hf _].
Qed.
Definition handed_of (k : nat) (H : list (nat * delivery unit unit)) :=
  match state_of k H with Some d => handed (raft_calls d) | None => [] end.
Local Ltac fed_log := vm_compute;
  repeat match goal with |- _ /\ _ => split end;
  first [exact Logic.I|left; reflexivity|right; discriminate|apply Permutation_refl|discriminate].
Local Ltac fed_created k := exists k; eexists; split; [apply state_in_member; vm_compute; reflexivity|].
Example cluster_agrees : agrees toy_codec fed_ops toy_snap toy_comm cluster_apps cluster_begin cluster_log cluster_history.
Proof.
  constructor.
  - done.
  - intros k. destruct (state_of k cluster_history) as [d|] eqn:E; [exists d; by apply state_in_member|]. exfalso.
    destruct (decide (k = 0%nat)) as [->|]; [by vm_compute in E|]. destruct (decide (k = 1%nat)) as [->|]; [by vm_compute in E|].
    destruct (decide (k = 2%nat)) as [->|]; [by vm_compute in E|]. unfold state_of in E. by rewrite cluster_known in E.
  - intros k1 k2 q1 q2 [[t1 D1] _] [[t2 D2] _] L1 L2.
    assert (Z : forall k q t, (t, Some (Some (HStart q))) ∈ calls_of k cluster_history -> sr_leader q = true -> k = 0%nat).
    { intros k q t D L. destruct (decide (k = 0%nat)) as [->|]; [done|].
      destruct (decide (k = 1%nat)) as [->|]; [|destruct (decide (k = 2%nat)) as [->|]].
      - vm_compute in D. repeat (apply elem_of_cons in D as [D|D]; [by simplify_eq|]). by apply elem_of_nil in D.
      - vm_compute in D. repeat (apply elem_of_cons in D as [D|D]; [by simplify_eq|]). by apply elem_of_nil in D.
      - rewrite cluster_known in D by done. by apply elem_of_nil in D. }
    rewrite (Z _ _ _ D1 L1), (Z _ _ _ D2 L2). done.
  - intros k d q M [[t D] _]. apply state_in_member in M.
    destruct (decide (k = 0%nat)) as [->|]; [|destruct (decide (k = 1%nat)) as [->|]; [|destruct (decide (k = 2%nat)) as [->|]]].
    + assert (E : handed (raft_calls d) = [inr [cluster_log 2]; inr []; inr [cluster_log 3]; inr []]) by (vm_compute in M; by injection M as <-).
      clear M. vm_compute in D. repeat (apply elem_of_cons in D as [D|D]; [first [discriminate D|injection D as _ ->]|]); [|by apply elem_of_nil in D].
      rewrite E. fed_log.
    + assert (E : handed (raft_calls d) = [inl (Snapshot 1 1 (conf_of_voters [1]) [7]); inr []; inr []; inr [cluster_log 2]; inr [];
        inr [cluster_log 3]; inr []; inr [cluster_log 4]; inr []]) by (vm_compute in M; by injection M as <-).
      clear M. vm_compute in D. repeat (apply elem_of_cons in D as [D|D]; [first [discriminate D|injection D as _ ->]|]); [|by apply elem_of_nil in D].
      rewrite E. fed_log.
    + assert (E : handed (raft_calls d) = [inl (Snapshot 3 1 (conf_of_voters [1]) [7; 4; 4; 5]); inr []; inr [];
        inr [cluster_log 4]; inr []]) by (vm_compute in M; by injection M as <-).
      clear M. vm_compute in D. repeat (apply elem_of_cons in D as [D|D]; [first [discriminate D|injection D as _ ->]|]); [|by apply elem_of_nil in D].
      rewrite E. fed_log.
    + rewrite cluster_known in D by done. by apply elem_of_nil in D.
  - intros H1 k x H2 d d' calls s E M M' Ec Hs. apply state_in_member in M, M'.
    assert (Z : inl s ∈ drop (length (handed_of k H1)) (handed_of k (H1 ++ [(k, x)]))).
    { unfold handed_of. rewrite M, M', Ec. unfold handed. rewrite map_app, concat_app, drop_app. done. }
    clear M M' Ec Hs calls d d'.
    unfold cluster_history in E.
    let rec go := first [by apply (f_equal length) in E; rewrite app_length in E; simpl in E; lia|
      destruct H1 as [|? H1];
      [injection E as <- <- <-; vm_compute in Z;
       repeat (apply elem_of_cons in Z as [Z|Z]; [first [discriminate Z|injection Z as ->]|]); try (by apply elem_of_nil in Z)|
       injection E as <- E; go]] in go.
    + fed_created 0%nat. right. split; [done|]. by exists 1.
    + fed_created 0%nat. left. eexists. repeat first [by left|right].
Qed.
Example cluster_configuration : one_configuration cluster_history.
Proof.
  assert (Z : forall k q, started_with k cluster_history q -> sr_config q = [7]).
  { intros k q [[t D] _].
    destruct (decide (k = 0%nat)) as [->|]; [|destruct (decide (k = 1%nat)) as [->|]; [|destruct (decide (k = 2%nat)) as [->|]]];
      [vm_compute in D..|rewrite cluster_known in D by done; by apply elem_of_nil in D];
      repeat (apply elem_of_cons in D as [D|D]; [first [discriminate D|by injection D as _ ->]|]); by apply elem_of_nil in D. }
  intros k1 k2 q1 q2 S1 S2. by rewrite (Z _ _ S1), (Z _ _ S2).
Qed.
Example cluster_app_replicated : replicated cluster_apps (fun _ => True) (fun _ _ => True).
Proof.
  constructor; try done.
  - intros k cx st m st' out H. by injection H as <- <-.
  - intros k1 k2 i own1 own2 st ev st1 st2 out1 out2 H1 H2. injection H1 as <- <-. by injection H2 as <- <-.
  - intros k1 k2 st data old st' _ _ H1 H2. injection H1 as <-. by injection H2 as <-.
Qed.
(** The members that applied entries and the one that restarted from a snapshot
    are at the same position. *)
Example cluster_positions :
  cluster_holds 0%nat (take 9 cluster_history) 3 [7; 4; 4; 5] /\ cluster_holds 2%nat (take 8 cluster_history) 3 [7; 4; 4; 5] /\
  cluster_holds 1%nat cluster_history 4 [7; 4; 4; 5; 6] /\ cluster_holds 2%nat cluster_history 4 [7; 4; 4; 5; 6].
Proof.
  split; [|split; [|split]];
    (eapply state_in_holds; [eexists; vm_compute; by left|reflexivity|vm_compute; reflexivity]).
Qed.

(** * C81 *)
(** Members started with different configurations may differ for good: a counter
    only the follower was configured with survives the snapshot of the leader. *)
Definition other_start (leader : bool) (id : N) (config : bytes) : option (option (host_in unit unit)) :=
  Some (Some (HStart (StartRequest leader id (Some (RaftConfig 10 5 2 0 None 1)) config false true))).
Definition other_history : list (nat * delivery unit unit) :=
  [(0%nat, (5, other_start true 1 (sample_enc (∅ : gmap string Z))));
   (1%nat, (5, other_start false 2 (sample_enc ({[ "a"%string := 5%Z ]} : gmap string Z))));
   (1%nat, (7, toy_peer 3 2 1 (1 :: enc_snapshot CounterTheorems.sample_codec ∅)))].
Definition other_apps : nat -> actor counters := fun _ => counter_actor CounterTheorems.sample_codec.
Theorem C81_different_configurations_refuted :
  exists c log H st1 st2, let apps := fun _ : nat => counter_actor c in
    CounterSpec.codec_ok c /\ agrees toy_codec fed_ops toy_snap toy_comm apps cluster_begin log H /\
    holds toy_codec fed_ops toy_snap toy_comm apps cluster_begin 0 H 1 st1 /\
    holds toy_codec fed_ops toy_snap toy_comm apps cluster_begin 1 H 1 st2 /\
    current st1 "a" = (0%Z, []) /\ current st2 "a" = (5%Z, []).
Proof.
  exists CounterTheorems.sample_codec, cluster_log, other_history. eexists _, _. cbn zeta.
  split; [apply CounterTheorems.sample_codec_ok|]. split; [|split; [|split; [|split]]].
  2: { eapply state_in_holds; [eexists; vm_compute; by left|reflexivity|vm_compute; reflexivity]. }
  2: { eapply state_in_holds; [eexists; vm_compute; by left|reflexivity|vm_compute; reflexivity]. }
  2: vm_compute; reflexivity.
  2: vm_compute; reflexivity.
  assert (None : forall k, k <> 0%nat -> k <> 1%nat -> calls_of k other_history = []).
  { intros k H0 H1. apply calls_of_none. unfold other_history. repeat (constructor; [simpl; congruence|]). constructor. }
  constructor.
  - done.
  - intros k. change (exists d, member toy_codec fed_ops toy_snap toy_comm other_apps cluster_begin k other_history d).
    destruct (state_in other_apps k other_history) as [d|] eqn:E; [exists d; by apply state_in_member|]. exfalso.
    destruct (decide (k = 0%nat)) as [->|]; [by vm_compute in E|]. destruct (decide (k = 1%nat)) as [->|]; [by vm_compute in E|].
    unfold state_in in E. by rewrite None in E.
  - intros k1 k2 q1 q2 [[t1 D1] _] [[t2 D2] _] L1 L2.
    assert (Z : forall k q t, (t, Some (Some (HStart q))) ∈ calls_of k other_history -> sr_leader q = true -> k = 0%nat).
    { intros k q t D L. destruct (decide (k = 0%nat)) as [->|]; [done|].
      destruct (decide (k = 1%nat)) as [->|]; [|rewrite None in D by done; by apply elem_of_nil in D].
      vm_compute in D. repeat (apply elem_of_cons in D as [D|D]; [by simplify_eq|]). by apply elem_of_nil in D. }
    rewrite (Z _ _ _ D1 L1), (Z _ _ _ D2 L2). done.
  - intros k d q M [[t D] _]. apply (state_in_member other_apps) in M.
    destruct (decide (k = 0%nat)) as [->|]; [|destruct (decide (k = 1%nat)) as [->|]].
    + assert (E : handed (raft_calls d) = []) by (vm_compute in M; by injection M as <-). by rewrite E.
    + assert (E : handed (raft_calls d) =
        [inl (Snapshot 1 1 (conf_of_voters [1]) (enc_snapshot CounterTheorems.sample_codec ∅)); inr []; inr []]) by (vm_compute in M; by injection M as <-).
      clear M. vm_compute in D. repeat (apply elem_of_cons in D as [D|D]; [first [discriminate D|injection D as _ ->]|]); [|by apply elem_of_nil in D].
      rewrite E. fed_log.
    + rewrite None in D by done. by apply elem_of_nil in D.
  - intros H1 k x H2 d d' calls s E M M' Ec Hs. apply (state_in_member other_apps) in M, M'.
    set (handed_of k H := match state_in other_apps k H with Some d => handed (raft_calls d) | None => [] end).
    assert (Z : inl s ∈ drop (length (handed_of k H1)) (handed_of k (H1 ++ [(k, x)]))).
    { unfold handed_of. rewrite M, M', Ec. unfold handed. rewrite map_app, concat_app, drop_app. done. }
    clear M M' Ec Hs calls d d'. unfold handed_of in Z. clear handed_of.
    unfold other_history in E.
    let rec go := first [by apply (f_equal length) in E; rewrite app_length in E; simpl in E; lia|
      destruct H1 as [|? H1];
      [injection E as <- <- <-; vm_compute in Z;
       repeat (apply elem_of_cons in Z as [Z|Z]; [first [discriminate Z|injection Z as ->]|]); try (by apply elem_of_nil in Z)|
       injection E as <- E; go]] in go.
    exists 0%nat. eexists. split; [apply (state_in_member other_apps); vm_compute; reflexivity|].
    right. split; [done|]. by exists 1.
Qed.
