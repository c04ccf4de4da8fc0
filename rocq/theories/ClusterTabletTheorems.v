(** Theorems about the tablet store in a cluster (C100). *)
From Verif Require Import Base StorageModel SnapshotModel CommModel ActorModel ActorSpec DriverModel DriverSpec DriverProofs DriverTheorems
  ClusterSpec ClusterProofs ClusterTheorems ClusterOrderSpec ClusterOrderProofs TabletModel TabletSpec TabletProofs TabletTheorems
  ClusterTabletSpec ClusterTabletProofs.

Section Theorems.
Context {RS SP CS REQ RESP : Type}.
Variable c : tablet_codec.
Variable generate : nat -> nat -> N -> list N.
Variable order : nat -> tables -> list (string * table).
Variable codec : driver_codec.
Variable rops : raft_ops RS.
Variable sops : snap_ops SP.
Variable cops : comm_ops CS REQ RESP.
Variable begin : nat -> RS * SP * CS.
Notation apps := (fun k : nat => tablet_actor c (generate k) (order k)).
Notation events := (list (nat * delivery REQ RESP)).
Notation responded := (responded c generate order codec rops sops cops begin).
(** The serialisations round-trip, and responses can be told apart; the order in
    which a member visits its tables covers each once. *)
Definition store_codecs : Prop :=
  tablet_codec_ok c /\ (forall k : nat, order_ok (order k)) /\ driver_codec_ok codec /\
  (forall r r', enc_results c r = enc_results c r' -> r = r') /\ (forall s, enc_out c (OutError s) <> enc_out c OutResponse).

(** * C100 *)
(** Requests to the stores of a whole cluster are strictly serializable: the
    responses are those of one sequential execution of whole requests, which
    begins with the tables of the initial leader and keeps the order of requests
    that were answered before others were made; refused requests have no effect. *)
Theorem C100_stores_are_serializable log (H : events) origin first :
  store_codecs -> agrees codec rops sops cops apps begin log H -> one_configuration H ->
  proposals_in_order codec rops sops cops apps begin log H origin ->
  first_state codec rops sops cops apps begin H first ->
  serializable c generate order codec rops sops cops begin first H.
Proof using.
  intros (Hc&Ho&Hd&Hr&He) AG CF PO Hf.
  exact (store_serializable c generate order codec rops sops cops begin Hc Ho Hr He Hd log H AG CF origin PO first Hf).
Qed.

(** So of the requests that update a tablet to the same version, sent by any
    clients to any members at any time, one at most is answered with success. *)
Theorem C100_no_update_is_lost log (H : events) origin first b1 id1 n1 r1 b2 id2 n2 r2 name i v :
  store_codecs -> agrees codec rops sops cops apps begin log H -> one_configuration H ->
  proposals_in_order codec rops sops cops apps begin log H origin ->
  first_state codec rops sops cops apps begin H first ->
  responded H b1 id1 n1 r1 -> rs_succeeded r1 = true -> updates_to c H id1 n1 name i v ->
  responded H b2 id2 n2 r2 -> rs_succeeded r2 = true -> updates_to c H id2 n2 name i v ->
  id1 = id2 /\ n1 = n2.
Proof using.
  intros HC AG CF PO Hf T1 Ok1 U1 T2 Ok2 U2. pose proof (first_keyed _ _ _ _ _ _ _ _ _ _ Hf) as Hw.
  destruct (C100_stores_are_serializable _ _ _ _ HC AG CF PO Hf) as (S&rs&last&_&_&Hs&Ht&_).
  destruct (Ht _ _ _ _ T1) as (j1&a1&ops1&S1&A1&_&R1&_). destruct (Ht _ _ _ _ T2) as (j2&a2&ops2&S2&A2&_&R2&_).
  destruct (U1 _ _ A1) as (op1&u1&In1&Up1&<-&Ev1). destruct (U2 _ _ A2) as (op2&u2&In2&Up2&Ei&Ev2).
  assert (L : forall (ja jb : nat) opsa opsb ra rb opa opb ua ub, (ja < jb)%nat -> map snd S !! ja = Some opsa -> rs !! ja = Some ra ->
    map snd S !! jb = Some opsb -> rs !! jb = Some rb -> rs_succeeded ra = true -> rs_succeeded rb = true ->
    opa ∈ opsa -> update_of opa = Some (name, ua) -> opb ∈ opsb -> update_of opb = Some (name, ub) ->
    tm_id ua = tm_id ub -> tm_version ua = tm_version ub -> False).
  { intros ja jb opsa opsb ra rb opa opb ua ub Hlt Qa Ra Qb Rb Oa Ob Ia Va Ib Vb Eid Ev.
    destruct (serial_later _ _ _ _ _ _ _ _ _ _ _ _ _ Hw Hs Hlt Qa Ra Qb Rb Oa Ia Va) as (t&t'&m&_&He&Hm&Hle).
    destruct (executes_update _ _ _ _ _ _ _ He Ob Ib Vb) as (m'&_&Hm'&Hv&_). rewrite <- Eid, Hm in Hm'. injection Hm' as <-. lia. }
  assert (Q1 : map snd S !! j1 = Some ops1) by (by rewrite list_lookup_fmap, S1).
  assert (Q2 : map snd S !! j2 = Some ops2) by (by rewrite list_lookup_fmap, S2).
  destruct (lt_eq_lt_dec j1 j2) as [[Hlt|<-]|Hlt].
  - exfalso. eapply (L j1 j2); eauto; lia.
  - rewrite S1 in S2. injection S2 as <- <-.
    destruct A1 as (k&t&m&q&u&E1&Sq1&<-&<-&_). destruct A2 as (k2&t2&m2&q2&u'&E2&Sq2&<-&<-&_).
    rewrite E1 in E2. injection E2 as <- <- <-. split; [|done].
    destruct (ag_runs _ _ _ _ _ _ _ _ AG k) as [dH (oH&BH)]. pose proof (born_life _ _ _ _ _ _ _ _ _ _ _ BH) as LH.
    destruct (life_request _ _ LH _ (proj1 Sq1)) as (I1&_). destruct (life_request _ _ LH _ (proj1 Sq2)) as (I2&_). congruence.
  - exfalso. eapply (L j2 j1); eauto; lia.
Qed.

(** And nobody is shown an old version: what is shown in response to a request
    that was sent after an update had been answered with success is not older
    than that update, whichever members were asked. *)
Theorem C100_reads_are_not_stale log (H : events) origin first b1 id1 n1 r1 b2 id2 n2 r2 name i v m :
  store_codecs -> agrees codec rops sops cops apps begin log H -> one_configuration H ->
  proposals_in_order codec rops sops cops apps begin log H origin ->
  first_state codec rops sops cops apps begin H first ->
  responded H b1 id1 n1 r1 -> rs_succeeded r1 = true -> updates_to c H id1 n1 name i v ->
  responded H b2 id2 n2 r2 -> (forall a ops, requested c H a id2 n2 ops -> (b1 < a)%nat) ->
  shows r2 name m -> tm_id m = i -> v <= tm_version m.
Proof using.
  intros HC AG CF PO Hf T1 Ok1 U1 T2 Hl Hsh Hi. pose proof (first_keyed _ _ _ _ _ _ _ _ _ _ Hf) as Hw.
  destruct (C100_stores_are_serializable _ _ _ _ HC AG CF PO Hf) as (S&rs&last&_&_&Hs&Ht&_).
  destruct (Ht _ _ _ _ T1) as (j1&a1&ops1&S1&A1&_&R1&Ord). destruct (Ht _ _ _ _ T2) as (j2&a2&ops2&S2&A2&_&R2&_).
  destruct (U1 _ _ A1) as (op1&u1&In1&Up1&Ei1&Ev1).
  pose proof (Ord _ _ _ S2 (Hl _ _ A2)) as Hlt.
  assert (Q1 : map snd S !! j1 = Some ops1) by (by rewrite list_lookup_fmap, S1).
  assert (Q2 : map snd S !! j2 = Some ops2) by (by rewrite list_lookup_fmap, S2).
  destruct (serial_later _ _ _ _ _ _ _ _ _ _ _ _ _ Hw Hs Hlt Q1 R1 Q2 R2 Ok1 In1 Up1) as (t&t'&m'&Hw'&He&Hm&Hle).
  pose proof (executes_shows _ _ _ _ _ _ Hw' He Hsh) as Hm2. rewrite Hi, <- Ei1, Hm in Hm2. injection Hm2 as ->. lia.
Qed.
End Theorems.

(** ** A cluster that meets the hypotheses *)
(** A serialisation of all responses. *)
#[local] Existing Instances tm_eq tm_countable op_kind_eq op_kind_countable tablet_op_eq tablet_op_countable table_snapshot_eq table_snapshot_countable.
#[local] Instance op_status_countable : Countable op_status :=
  inj_countable' (fun s => match s with OpUnspecified => 0 | OpSucceeded => 1 | OpFailed => 2 | OpAborted => 3 | OpInvalid => 4 end)
    (fun n => match n with 0 => OpUnspecified | 1 => OpSucceeded | 2 => OpFailed | 3 => OpAborted | _ => OpInvalid end) ltac:(by intros []).
#[local] Instance op_detail_eq : EqDecision op_detail. Proof. solve_decision. Defined.
#[local] Instance op_detail_countable : Countable op_detail :=
  inj_countable' (fun d => match d with ListResult a b l => inl (a, b, l) | CheckResult m => inr (inl m) | UpdateResult m => inr (inr m) end)
    (fun x => match x with inl (a, b, l) => ListResult a b l | inr (inl m) => CheckResult m | inr (inr m) => UpdateResult m end) ltac:(by intros []).
#[local] Instance op_result_eq : EqDecision op_result. Proof. solve_decision. Defined.
#[local] Instance op_result_countable : Countable op_result :=
  inj_countable' (fun r => (or_table r, or_status r, or_detail r)) (fun '(a, b, d) => OpResult a b d) ltac:(by intros []).
#[local] Instance tablets_response_eq : EqDecision tablets_response. Proof. solve_decision. Defined.
#[local] Instance tablets_response_countable : Countable tablets_response :=
  inj_countable' (fun r => (rs_succeeded r, rs_results r)) (fun '(a, b) => TabletsResponse a b) ltac:(by intros []).
Definition store_codec : tablet_codec := TabletCodec
  sample_dec sample_enc sample_dec sample_enc
  (fun o => match o with OutResponse => [0] | OutError OpsRejected => [1] | OutError OpsInvalidOperation => [2] end)
  sample_enc sample_dec sample_dec.
(** The tablets the two members generate differ. *)
Definition store_generate (k _ : nat) (_ : N) : list N := if (k =? 0)%nat then [10; 20] else [15].
Definition store_order (_ : nat) : tables -> list (string * table) := map_to_list.
Definition store_apps : nat -> actor tables := fun k => tablet_actor store_codec (store_generate k) (store_order k).
Definition store_first : tables := create_tables (store_generate 0) [("a"%string, 2)].
Example store_codecs_met : store_codecs store_codec store_order toy_codec.
Proof.
  split; [constructor; intros; apply sample_dec_enc|]. split; [by intros k ts|]. split; [apply toy_codec_ok|]. split.
  - intros r r' E. assert (X : @sample_dec tablets_response _ _ (sample_enc r) = sample_dec (sample_enc r')) by (f_equal; exact E).
    rewrite !sample_dec_enc in X. by injection X as ->.
  - by intros [].
Qed.
(** The leader (member 0) carries out an update, and refuses as a conflict a
    second one of the same version, then checks the tablet; the follower (member
    1) is given the tables of the leader and the first entry, and refuses. *)
Definition store_request (n : N) (ops : list tablet_op) : option (option (host_in unit unit)) :=
  Some (Some (HApp (ActorCommand n (sample_enc (Some tt)) (sample_enc ops)))).
Definition store_config : bytes := sample_enc [("a"%string, 2)].
Definition store_entry (n : N) (ops : list tablet_op) : bytes := [1; n; 1] ++ sample_enc ops.
Definition store_history : list (nat * delivery unit unit) :=
  [(0%nat, (5, other_start true 1 store_config));
   (0%nat, (6, store_request 21 [upd "a" 10 1]));
   (1%nat, (5, other_start false 2 store_config));
   (1%nat, (7, toy_peer 3 2 1 (1 :: sample_enc [save_table "a" {[ 10 := tm 10 0; 20 := tm 20 0 ]}])));
   (0%nat, (8, store_request 22 [upd "a" 10 1]));
   (1%nat, (8, toy_peer 0 2 1 (store_entry 21 [upd "a" 10 1])));
   (1%nat, (9, store_request 31 [upd "a" 20 1]));
   (0%nat, (9, store_request 23 [chk "a" 10 0]))].
Definition store_log (i : N) : rentry :=
  REntry EntryNormal 1 i (if i =? 2 then store_entry 21 [upd "a" 10 1] else if i =? 3 then store_entry 22 [upd "a" 10 1]
    else if i =? 4 then store_entry 23 [chk "a" 10 0] else []).
Definition store_origin (i : N) : nat := if i =? 2 then 1%nat else if i =? 3 then 4%nat else 7%nat.
Definition store_answer (n : N) (r : tablets_response) : actor_command := ActorCommand n [0] (sample_enc r).
Example store_outputs :
  match run toy_codec fed_ops toy_snap toy_comm (store_apps 0%nat) (fresh fed0 tt tt) (calls_of 0%nat store_history),
        run toy_codec fed_ops toy_snap toy_comm (store_apps 1%nat) (fresh fed0 tt tt) (calls_of 1%nat store_history) with
  | Ok (d0, o0), Ok (d1, o1) =>
    map (omap app_out) o0 = [[];
      [store_answer 21 (TabletsResponse true [OpResult "a" OpSucceeded (Some (UpdateResult (Some (tm 10 0))))])];
      [store_answer 22 (TabletsResponse false [OpResult "a" OpFailed (Some (UpdateResult (Some (tm 10 1))))])];
      [store_answer 23 (TabletsResponse false [OpResult "a" OpFailed (Some (CheckResult (Some (tm 10 1))))])]] /\
    map (omap app_out) o1 = [[]; []; []; [ActorCommand 31 [1] []]] /\
    handed (raft_calls d0) = [inr [store_log 2]; inr []; inr [store_log 3]; inr []; inr [store_log 4]; inr []] /\
    handed (raft_calls d1) = [inl (Snapshot 1 1 (conf_of_voters [1]) (sample_enc [save_table "a" {[ 10 := tm 10 0; 20 := tm 20 0 ]}]));
       inr []; inr []; inr [store_log 2]; inr []]
  | _, _ => False
  end.
Proof. vm_compute. split_and!; reflexivity. Qed.
Lemma store_none k : k <> 0%nat -> k <> 1%nat -> calls_of k store_history = [].
Proof. intros H0 H1. apply calls_of_none. unfold store_history. repeat (constructor; [simpl; congruence|]). constructor. Qed.
Lemma store_start k q : started_with k store_history q ->
  (k = 0%nat /\ sr_leader q = true \/ k = 1%nat /\ sr_leader q = false) /\ sr_config q = store_config.
Proof.
  intros [[t D] _]. destruct (decide (k = 0%nat)) as [->|]; [|destruct (decide (k = 1%nat)) as [->|]].
  - unfold calls_of, store_history in D. cbn [omap list_omap decide decide_rel Nat.eq_dec] in D.
    repeat (apply elem_of_cons in D as [D|D]; [first [discriminate D|injection D as _ ->; split; [by left|reflexivity]]|]). by apply elem_of_nil in D.
  - unfold calls_of, store_history in D. cbn [omap list_omap decide decide_rel Nat.eq_dec] in D.
    repeat (apply elem_of_cons in D as [D|D]; [first [discriminate D|injection D as _ ->; split; [by right|reflexivity]]|]). by apply elem_of_nil in D.
  - rewrite store_none in D by done. by apply elem_of_nil in D.
Qed.
Lemma state_shows {ST A} (apps : nat -> actor ST) k H (f : rdriver fed unit unit ST unit unit -> A) y :
  f <$> state_in apps k H = Some y -> exists d, member toy_codec fed_ops toy_snap toy_comm apps cluster_begin k H d /\ f d = y.
Proof. intros E. destruct (state_in apps k H) as [d|] eqn:Es; [|done]. injection E as E. exists d. split; [by apply state_in_member|done]. Qed.
Lemma state_of_member {ST A} (apps : nat -> actor ST) k H (f : rdriver fed unit unit ST unit unit -> A) d y :
  member toy_codec fed_ops toy_snap toy_comm apps cluster_begin k H d -> f <$> state_in apps k H = Some y -> f d = y.
Proof. intros M E. apply state_in_member in M. rewrite M in E. by injection E as ->. Qed.
Local Ltac fed_log := vm_compute;
  repeat match goal with |- _ /\ _ => split end;
  first [exact Logic.I|left; reflexivity|right; discriminate|apply Permutation_refl|discriminate].
Example store_hypothesis_agrees : agrees toy_codec fed_ops toy_snap toy_comm store_apps cluster_begin store_log store_history.
Proof.
  constructor.
  - done.
  - intros k. destruct (state_shows store_apps k store_history (fun _ => tt) tt) as (d&M&_); [|by exists d].
    destruct (decide (k = 0%nat)) as [->|]; [vm_compute; reflexivity|]. destruct (decide (k = 1%nat)) as [->|]; [vm_compute; reflexivity|].
    unfold state_in. rewrite store_none by done. done.
  - intros k1 k2 q1 q2 S1 S2 L1 L2. destruct (store_start _ _ S1) as [[[-> _]|[_ E]] _]; [|congruence].
    by destruct (store_start _ _ S2) as [[[-> _]|[_ E]] _]; [|congruence].
  - intros k d q M Sq. destruct (store_start _ _ Sq) as [[[-> L]|[-> L]] _]; unfold start_index; rewrite L.
    + rewrite (state_of_member store_apps 0%nat store_history (fun d => handed (raft_calls d)) d
        [inr [store_log 2]; inr []; inr [store_log 3]; inr []; inr [store_log 4]; inr []] M) by (vm_compute; reflexivity).
      clear. fed_log.
    + rewrite (state_of_member store_apps 1%nat store_history (fun d => handed (raft_calls d)) d
        [inl (Snapshot 1 1 (conf_of_voters [1]) (sample_enc [save_table "a" {[ 10 := tm 10 0; 20 := tm 20 0 ]}]));
         inr []; inr []; inr [store_log 2]; inr []] M) by (vm_compute; reflexivity).
      clear. fed_log.
  - intros H1 k x H2 d d' calls s E M M' Ec Hs. apply (state_in_member store_apps) in M, M'.
    set (handed_of k H := match state_in store_apps k H with Some d => handed (raft_calls d) | None => [] end).
    assert (Z : inl s ∈ drop (length (handed_of k H1)) (handed_of k (H1 ++ [(k, x)]))).
    { unfold handed_of. rewrite M, M', Ec. unfold handed. rewrite map_app, concat_app, drop_app. done. }
    clear M M' Ec Hs calls d d'. unfold handed_of in Z. clear handed_of.
    unfold store_history in E.
    let rec go := first [by apply (f_equal length) in E; rewrite app_length in E; simpl in E; lia|
      destruct H1 as [|? H1];
      [injection E as <- <- <-;
       match type of Z with _ ∈ ?l => let l' := eval vm_compute in l in
         let El := fresh in assert (El : l = l') by (vm_compute; reflexivity); rewrite El in Z; clear El end;
       repeat (apply elem_of_cons in Z as [Z|Z]; [first [discriminate Z|injection Z as ->]|]); try (by apply elem_of_nil in Z)|
       injection E as <- E; go]] in go.
    match goal with |- created _ _ _ _ _ _ ?h (Snapshot _ _ _ ?data) =>
      destruct (state_shows store_apps 0%nat h (fun d => head (raft_calls d)) (Some (KInit 1 true data))) as (d&M&Ed); [vm_compute; reflexivity|] end.
    exists 0%nat, d. split; [done|]. right. split; [done|]. by exists 1.
Qed.
Example store_hypothesis_configuration : one_configuration store_history.
Proof. intros k1 k2 q1 q2 S1 S2. by rewrite (proj2 (store_start _ _ S1)), (proj2 (store_start _ _ S2)). Qed.
Example store_hypothesis_first : first_state toy_codec fed_ops toy_snap toy_comm store_apps cluster_begin store_history store_first.
Proof.
  destruct (state_shows store_apps 0%nat store_history (fun d => head (app_calls d)) (Some (AInit (ActorCtx 1 5 store_config false))))
    as (d&M&Ed); [vm_compute; reflexivity|].
  exists 0%nat, (StartRequest true 1 (Some (RaftConfig 10 5 2 0 None 1)) store_config false true), d, (ActorCtx 1 5 store_config false).
  split; [split; [exists 5; left|done]|]. split; [done|]. split; [done|]. split; [done|].
  cbn [a_init store_apps tablet_actor]. unfold tablet_init. cbn [cx_config dec_tables_config store_codec].
  unfold store_config. rewrite sample_dec_enc. reflexivity.
Qed.
Lemma store_index i ev : logged toy_codec store_log i = Some ev -> i = 2 \/ i = 3 \/ i = 4.
Proof.
  unfold logged, event_of_entry, store_log. cbn [re_data re_type re_index].
  destruct (N.eqb_spec i 2) as [|_]; [by left|]. destruct (N.eqb_spec i 3) as [|_]; [by right; left|].
  destruct (N.eqb_spec i 4) as [|_]; [by right; right|]. done.
Qed.
Definition store_reached (k : nat) (n : nat) : N :=
  match state_in store_apps k (take n store_history) with
  | Some d => position (if (k =? 0)%nat then 1 else 0) (handed (raft_calls d))
  | None => 0
  end.
Lemma store_reached_at H1 H2 k j : store_history = H1 ++ H2 -> reached toy_codec fed_ops toy_snap toy_comm store_apps cluster_begin k H1 j ->
  (k = 0%nat \/ k = 1%nat) /\ j = store_reached k (length H1).
Proof.
  intros E (d&q&M&Sq&->). apply state_in_member in M. unfold store_reached. rewrite E, take_app, M.
  assert (S2 : started_with k store_history q) by (rewrite E; by apply started_prefix).
  destruct (store_start _ _ S2) as [[[-> L]|[-> L]] _]; unfold start_index; rewrite L; split; auto.
Qed.
Lemma store_proposed (a : nat) k x p : store_history !! a = Some (k, x) ->
  (l1 ← raft_calls <$> state_in store_apps k (take a store_history); l2 ← raft_calls <$> state_in store_apps k (take (S a) store_history);
   Some (take (length l1) l2, omap proposal_of (drop (length l1) l2)))
  = (l1 ← raft_calls <$> state_in store_apps k (take a store_history); Some (l1, [p])) ->
  state_in store_apps k (take a store_history) <> None ->
  exists H1 k x H2 d d' calls, store_history = H1 ++ (k, x) :: H2 /\ length H1 = a /\
    member toy_codec fed_ops toy_snap toy_comm store_apps cluster_begin k H1 d /\
    member toy_codec fed_ops toy_snap toy_comm store_apps cluster_begin k (H1 ++ [(k, x)]) d' /\
    raft_calls d' = raft_calls d ++ calls /\ KPropose p ∈ calls.
Proof.
  intros Hx E Hn. pose proof (take_drop_middle _ _ _ Hx) as Et. pose proof (lookup_lt_Some _ _ _ Hx) as Hlt.
  rewrite (take_S_r _ _ _ Hx) in E.
  destruct (state_in store_apps k (take a store_history)) as [d|] eqn:E1; [|done].
  destruct (state_in store_apps k (take a store_history ++ [(k, x)])) as [d'|] eqn:E2; [|done]. cbn in E. injection E as Ea Eb.
  exists (take a store_history), k, x, (drop (S a) store_history), d, d', (drop (length (raft_calls d)) (raft_calls d')).
  split; [done|]. split; [rewrite take_length; lia|]. split; [by apply state_in_member|]. split; [by apply state_in_member|].
  split; [rewrite <- (take_drop (length (raft_calls d)) (raft_calls d')) at 1; by rewrite Ea|].
  assert (Hp : p ∈ omap proposal_of (drop (length (raft_calls d)) (raft_calls d'))) by (rewrite Eb; left).
  apply elem_of_list_omap in Hp as (y&Hy&Ey). destruct y; try done. by injection Ey as ->.
Qed.
Local Ltac proposed_here := eapply store_proposed; [reflexivity|vm_compute; reflexivity|vm_compute; discriminate].
Example store_hypothesis_order : proposals_in_order toy_codec fed_ops toy_snap toy_comm store_apps cluster_begin store_log store_history store_origin.
Proof.
  constructor.
  - intros i ev (_&Hl&_). destruct (store_index _ _ Hl) as [->|[->| ->]].
    + proposed_here.
    + proposed_here.
    + proposed_here.
  - intros i j ev ev' (_&Hi&_) (_&Hj&_) E. destruct (store_index _ _ Hi) as [->|[->| ->]], (store_index _ _ Hj) as [->|[->| ->]]; done.
  - intros i ev H1 H2 k j (_&Hl&_) E Hle Hr. destruct (store_reached_at _ _ _ _ E Hr) as [Hk ->]. clear Hr E.
    destruct (store_index _ _ Hl) as [->|[->| ->]]; clear Hl; unfold store_origin in Hle; cbn in Hle;
      generalize dependent (length H1); intros n Hle; repeat (destruct n as [|n]; [destruct Hk as [->| ->]; by vm_compute|]); lia.
Qed.
(** So the theorems apply, and these are responses of the history. *)
Example C100_example : serializable store_codec store_generate store_order toy_codec fed_ops toy_snap toy_comm cluster_begin store_first store_history.
Proof.
  apply (C100_stores_are_serializable store_codec store_generate store_order toy_codec fed_ops toy_snap toy_comm cluster_begin store_log store_history store_origin store_first).
  - apply store_codecs_met.
  - apply store_hypothesis_agrees.
  - apply store_hypothesis_configuration.
  - apply store_hypothesis_order.
  - apply store_hypothesis_first.
Qed.
Lemma store_sent (a : nat) k x q t y : store_history !! a = Some (k, x) ->
  (t, Some (Some (HStart q))) ∈ calls_of k store_history -> sr_ephemeral q = false ->
  (d ← state_in store_apps k (take a store_history);
   match receive toy_codec fed_ops toy_snap toy_comm (store_apps k) d x with Ok (_, out) => Some (omap app_out out) | _ => None end) = Some [y] ->
  sent_out store_codec store_generate store_order toy_codec fed_ops toy_snap toy_comm cluster_begin store_history a (sr_id q) y.
Proof.
  intros Hx Hq He E. pose proof (take_drop_middle _ _ _ Hx) as Et. pose proof (lookup_lt_Some _ _ _ Hx) as Hlt.
  destruct (state_in store_apps k (take a store_history)) as [d|] eqn:E1; [|done]. cbn [mbind option_bind] in E.
  destruct (receive _ _ _ _ _ d x) as [[d' out]| |] eqn:Er; [|done..]. injection E as E.
  exists (take a store_history), k, x, (drop (S a) store_history), q, d, d', out.
  split; [done|]. split; [rewrite take_length; lia|]. split; [split; [by exists t|done]|]. split; [done|].
  split; [by apply (state_in_member store_apps)|]. split; [done|].
  assert (Hy : y ∈ omap app_out out) by (rewrite E; left). apply elem_of_list_omap in Hy as (z&Hz&Ez). destruct z; try done. by injection Ez as ->.
Qed.
Notation store_responded := (responded store_codec store_generate store_order toy_codec fed_ops toy_snap toy_comm cluster_begin store_history).
Example C100_responses :
  store_responded 1%nat 1 21 (TabletsResponse true [OpResult "a" OpSucceeded (Some (UpdateResult (Some (tm 10 0))))]) /\
  store_responded 4%nat 1 22 (TabletsResponse false [OpResult "a" OpFailed (Some (UpdateResult (Some (tm 10 1))))]) /\
  store_responded 7%nat 1 23 (TabletsResponse false [OpResult "a" OpFailed (Some (CheckResult (Some (tm 10 1))))]) /\
  refused store_codec store_generate store_order toy_codec fed_ops toy_snap toy_comm cluster_begin store_history 6%nat 2 31 OpsRejected.
Proof.
  split; [eapply (store_sent 1%nat 0%nat _ (StartRequest true 1 (Some (RaftConfig 10 5 2 0 None 1)) store_config false true) 5);
    [reflexivity|left|reflexivity|vm_compute; reflexivity]|].
  split; [eapply (store_sent 4%nat 0%nat _ (StartRequest true 1 (Some (RaftConfig 10 5 2 0 None 1)) store_config false true) 5);
    [reflexivity|left|reflexivity|vm_compute; reflexivity]|].
  split; [eapply (store_sent 7%nat 0%nat _ (StartRequest true 1 (Some (RaftConfig 10 5 2 0 None 1)) store_config false true) 5);
    [reflexivity|left|reflexivity|vm_compute; reflexivity]|].
  eapply (store_sent 6%nat 1%nat _ (StartRequest false 2 (Some (RaftConfig 10 5 2 0 None 1)) store_config false true) 5);
    [reflexivity|left|reflexivity|vm_compute; reflexivity].
Qed.
Lemma store_requested a id n ops : requested store_codec store_history a id n ops ->
  (a = 1%nat /\ n = 21 /\ ops = [upd "a" 10 1]) \/ (a = 4%nat /\ n = 22 /\ ops = [upd "a" 10 1]) \/
  (a = 6%nat /\ n = 31 /\ ops = [upd "a" 20 1]) \/ (a = 7%nat /\ n = 23 /\ ops = [chk "a" 10 0]).
Proof.
  intros (k&t&m&q&u&E&_&_&<-&_&Ho).
  assert (Z : forall l, m = ActorCommand (ac_correlation m) (sample_enc (Some tt)) (sample_enc l) -> ops = l).
  { intros l Em. rewrite Em in Ho. cbn [ac_payload dec_ops store_codec] in Ho. rewrite sample_dec_enc in Ho. by injection Ho as ->. }
  unfold store_history in E.
  do 8 (destruct a as [|a]; [cbn [lookup list_lookup] in E; first [discriminate E|injection E as _ _ <-; cbn [ac_correlation];
    rewrite (Z _ eq_refl); auto 10]|]). done.
Qed.
(** The update to version 1 that was answered with success (21) is not followed
    by another to the same version, and later requests (23) are not shown less. *)
Example C100_example_updates : updates_to store_codec store_history 1 21 "a" 10 1 /\
  (forall a ops, requested store_codec store_history a 1 23 ops -> (1 < a)%nat) /\
  shows (TabletsResponse false [OpResult "a" OpFailed (Some (CheckResult (Some (tm 10 1))))]) "a" (tm 10 1).
Proof.
  split; [|split].
  - intros a ops R. destruct (store_requested _ _ _ _ R) as [(_&_&->)|[(_&E&_)|[(_&E&_)|(_&E&_)]]]; [|discriminate E..].
    exists (upd "a" 10 1), (tm 10 1). split; [left|done].
  - intros a ops R. destruct (store_requested _ _ _ _ R) as [(_&E&_)|[(_&E&_)|[(_&E&_)|(->&_)]]]; [discriminate E..|lia].
  - eexists. split; [left|]. split; [done|]. right. left. done.
Qed.
