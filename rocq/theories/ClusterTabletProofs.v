(** Proofs about the tablet store in a cluster. *)
From Verif Require Import Base StorageModel SnapshotModel CommModel ActorModel DriverModel DriverSpec DriverProofs DriverTheorems
  ClusterSpec ClusterProofs ClusterTheorems ClusterOrderSpec ClusterOrderProofs ClusterDecryptProofs
  TabletModel TabletSpec TabletProofs TabletTheorems ClusterTabletSpec.

(** ** Parts of a log *)
Section Parts.
Context {A : Type}.
Variable at_index : N -> option A.
(** What the first [n] entries after the first hold. *)
Fixpoint upto (n : nat) : list A :=
  match n with O => [] | S m => upto m ++ option_list (at_index (N.of_nat m + 2)) end.

Lemma upto_grow n m : (n <= m)%nat -> exists l, upto m = upto n ++ l.
Proof using.
  induction 1 as [|m _ [l IH]]; [by exists []; rewrite app_nil_r|]. cbn [upto]. rewrite IH, <- (assoc_L app). by eexists.
Qed.
Lemma upto_lookup n m x : (n < m)%nat -> at_index (N.of_nat n + 2) = Some x -> upto m !! length (upto n) = Some x.
Proof using.
  intros Hl Hx. destruct (upto_grow (S n) m Hl) as [l ->]. cbn [upto]. rewrite Hx, <- (assoc_L app). simpl.
  by rewrite list_lookup_middle.
Qed.
Lemma upto_inv m j x : upto m !! j = Some x ->
  exists n, (n < m)%nat /\ at_index (N.of_nat n + 2) = Some x /\ j = length (upto n).
Proof using.
  induction m as [|m IH]; cbn [upto]; [done|]. intros Hj. apply lookup_app_Some in Hj as [Hj|[Hj1 Hj2]].
  - destruct (IH Hj) as (n&?&?&?). exists n. split_and!; [lia|done..].
  - destruct (at_index (N.of_nat m + 2)) as [y|] eqn:E; [|done]. simpl in Hj2. apply list_lookup_singleton_Some in Hj2 as [Hz <-].
    exists m. split_and!; [lia|done|lia].
Qed.
Lemma upto_order n m : (n < m)%nat -> at_index (N.of_nat n + 2) <> None -> (length (upto n) < length (upto m))%nat.
Proof using.
  intros Hl Hx. destruct (at_index (N.of_nat n + 2)) as [x|] eqn:E; [|done].
  apply lookup_lt_is_Some. eexists. by apply upto_lookup.
Qed.
End Parts.

(** ** A call that proposes and answers *)
Section Generic.
Context {RS SP CS ST REQ RESP : Type}.
Variable codec : driver_codec.
Variable rops : raft_ops RS.
Variable sops : snap_ops SP.
Variable cops : comm_ops CS REQ RESP.
Variable apps : nat -> actor ST.
Variable begin : nat -> RS * SP * CS.
Notation events := (list (nat * delivery REQ RESP)).
Notation mem := (member codec rops sops cops apps begin).
Implicit Types (d : rdriver RS SP CS ST REQ RESP) (H : events).
Variable good : ST -> Prop.
Variable older : ST -> ST -> Prop.
Hypothesis RP : replicated apps good older.
Variable log : N -> rentry.
Variable H : events.
Hypothesis AG : agrees codec rops sops cops apps begin log H.
Hypothesis CF : one_configuration H.

Lemma proposed_and_answered k H1 x H2 d d' d2 out calls p y : H = H1 ++ (k, x) :: H2 -> mem k H1 d ->
  receive codec rops sops cops (apps k) d x = Ok (d', out) -> mem k (H1 ++ [(k, x)]) d2 ->
  raft_calls d2 = raft_calls d ++ calls -> KPropose p ∈ calls -> OApp y ∈ out ->
  (exists cx m st st2 co ev, a_command (apps k) cx st m = Ok (st2, co) /\ co_event co = Some ev /\ y ∈ co_commands co) \/
  (exists cx ev o st1 st2, a_apply (apps k) st1 cx ev = Ok (st2, o) /\ y ∈ o).
Proof using AG CF RP.
  intros E M Hr M2 Er Hp Hout. pose proof M as (o&B).
  destruct (receive_call _ _ _ _ _ _ _ _ _ (born_inv _ _ _ _ _ _ _ _ _ _ _ B) Hr) as (rt&mt&tr&C).
  assert (M' : mem k (H1 ++ [(k, x)]) d').
  { exists (o ++ [out]). rewrite calls_of_app, calls_of_one. by eapply born_next. }
  rewrite (member_unique _ _ _ _ _ _ _ _ _ _ M2 M') in *. clear M2 d2.
  assert (calls = rt) as ->. { pose proof (call_raft _ _ _ _ _ _ _ _ _ _ C) as E2. rewrite Er in E2. by apply app_inv_head in E2. }
  destruct (proposed_by codec rops sops cops apps begin H k H1 x H2 d d' rt _ E M M' Er Hp) as (q'&_&_&_&_&_&_&Sq'&_).
  pose proof M' as (o'&B').
  destruct (life_request _ _ (born_life _ _ _ _ _ _ _ _ _ _ _ B') _ (proj1 Sq')) as (_&Eep&_). rewrite (proj2 Sq') in Eep.
  assert (Hp' : p ∈ omap proposal_of rt) by (apply elem_of_list_omap; by eexists).
  rewrite (call_proposals _ _ _ _ _ _ _ _ _ _ C Eep) in Hp'. apply elem_of_list_omap in Hp' as (a&Ha&Hpa).
  destruct a as [| |cx m co|]; try done. simpl in Hpa. destruct (co_event co) as [ev'|] eqn:Ev; [|done]. clear Hpa.
  destruct (recorded_now _ _ _ _ _ _ _ _ _ _ M' Sq') as (st&_&Hrec).
  assert (Hin : y ∈ omap app_out out) by (apply elem_of_list_omap; by eexists).
  rewrite (call_outputs _ _ _ _ _ _ _ _ _ _ C) in Hin. apply elem_of_list_In, in_concat in Hin as (l&Hl&Hin).
  apply in_map_iff in Hl as (a2&<-&Ha2). apply elem_of_list_In in Ha2, Hin.
  destruct a2 as [| |cx2 m2 co2|cx2 ev2 o2]; simpl in Hin; try (by apply elem_of_nil in Hin).
  - left. assert (X : ACommand cx m co = ACommand cx2 m2 co2).
    { eapply one_command; [exact (call_commands _ _ _ _ _ _ _ _ _ _ C)| |done|done].
      destruct (decide _) as [_|_]; [|simpl; lia]. destruct x as [t [[[]|]|]]; simpl; lia. }
    injection X as <- <- <-.
    assert (Ha' : ACommand cx m co ∈ app_calls d') by (rewrite (call_app _ _ _ _ _ _ _ _ _ _ C); apply elem_of_app; by right).
    destruct (recorded_command apps k st (app_calls d') cx m co Hrec Ha') as (s1&s2&Hcmd). by exists cx, m, s1, s2, co, ev'.
  - right. assert (Ha' : AApply cx2 ev2 o2 ∈ app_calls d') by (rewrite (call_app _ _ _ _ _ _ _ _ _ _ C); apply elem_of_app; by right).
    apply elem_of_list_split in Ha' as (t1&t2&Et).
    assert (E' : H = (H1 ++ [(k, x)]) ++ H2) by (by rewrite <- (assoc_L app)).
    destruct (event_found codec rops sops cops apps begin good older RP log H AG CF k _ H2 d' q' t1 cx2 ev2 o2 t2 E' M' Sq' Et)
      as (_&_&_&f&s1&s2&_&_&Hap). by exists cx2, ev2, o2, s1, s2.
Qed.
End Generic.

(** ** Requests *)
Lemma request_executes ts ops ts' r : well_keyed ts -> apply_tablets_request ts ops = Ok (ts', r) -> executes ts ops r ts'.
Proof.
  intros Hw Hr. destruct (apply_request_spec _ _ _ _ Hr) as (HP&Hs&Hok&Hno). split; [done|]. split; [|done].
  pose proof (prepare_all_spec _ _ _ HP) as F.
  apply Forall2_same_length_lookup_2; [by eapply Forall2_length|]. intros j op x Hop Hx.
  pose proof (Forall2_lookup_lr _ _ _ _ _ _ F Hop Hx) as Hpr. destruct (prepare_op_spec _ _ _ Hpr) as (K1&K2&_&K4).
  split; [done|]. split; [done|]. split; [done|]. intros from to l Hl Hmax.
  destruct op as [name k]. unfold prepare_op in Hpr. cbn [op_table op_kind_of] in *.
  destruct (ts !! name) as [t|] eqn:Et; [|by injection Hpr as <-].
  destruct k as [k|]; [|by injection Hpr as <-].
  assert (Z : exists from' to', k = OpList from' to').
  { unfold expected_detail in K4. cbn [op_table op_kind_of] in K4. rewrite Et in K4. rewrite Hl in K4.
    destruct k as [f' t'| | |[u|]|]; try done. by eexists _, _. }
  destruct Z as (f'&t'&->). simpl in Hpr. injection Hpr as <-. injection Hl as -> -> <-.
  assert (Hk : forall i m, t !! i = Some m -> tm_id m = i).
  { intros i m Hm. apply (Hw name). unfold tablet. by rewrite Et. }
  destruct (find_tablets_spec t from to Hk Hmax) as (L1&L2&L3). split; [done|]. split.
  - intros m Hm. unfold tablet. rewrite Et. by apply L2.
  - intros t2 h i [= <-] Hh Ho. apply L3. exists h. split; [|done]. unfold half_open_range, closed_range in *. destruct (_ <? _); lia.
Qed.
Lemma run_serial reqs : forall ts ts' rs, well_keyed ts -> run_requests ts reqs = Ok (ts', rs) -> serial ts reqs rs ts'.
Proof.
  induction reqs as [|ops reqs IH]; intros ts ts' rs Hw Hr; simpl in Hr; [injection Hr as <- <-; constructor|].
  destruct (apply_tablets_request ts ops) as [[ts1 r]| |] eqn:E1; try done. simpl in Hr.
  destruct (run_requests ts1 reqs) as [[ts2 rs']| |] eqn:E2; try done. simpl in Hr. injection Hr as <- <-.
  econstructor; [by apply request_executes|]. apply IH; [|done]. by eapply request_well_keyed.
Qed.

(** ** The tablet store *)
Section Tablets.
Context {RS SP CS REQ RESP : Type}.
Variable c : tablet_codec.
Variable generate : nat -> nat -> N -> list N.
Variable order : nat -> tables -> list (string * table).
Variable codec : driver_codec.
Variable rops : raft_ops RS.
Variable sops : snap_ops SP.
Variable cops : comm_ops CS REQ RESP.
Variable begin : nat -> RS * SP * CS.
Notation apps := (fun k : nat => tablet_actor c (generate k) (order k)).
Notation events := (list (nat * delivery REQ RESP)).
Notation mem := (member codec rops sops cops apps begin).
Hypothesis Hc : tablet_codec_ok c.
Hypothesis Ho : forall k : nat, order_ok (order k).
Hypothesis Hres : forall r r', enc_results c r = enc_results c r' -> r = r'.
Hypothesis Hout : forall s, enc_out c (OutError s) <> enc_out c OutResponse.
Hypothesis Hd : driver_codec_ok codec.
Variable log : N -> rentry.
Variable H : events.
Hypothesis AG : agrees codec rops sops cops apps begin log H.
Hypothesis CF : one_configuration H.
Variable origin : N -> nat.
Hypothesis PO : proposals_in_order codec rops sops cops apps begin log H origin.
Notation isfirst := (first_state codec rops sops cops apps begin H).
Notation reach := (reached codec rops sops cops apps begin).
Notation sat := (state_at codec apps log).
Notation committed := (committed_event codec rops sops cops apps begin log H).
Notation requested := (requested c).
Notation responded := (responded c generate order codec rops sops cops begin).
Notation refused := (refused c generate order codec rops sops cops begin).

Definition request_at (i : N) : option (nat * list tablet_op) :=
  ev ← logged codec log i; ops ← dec_ops c (ae_contents ev); Some (origin i, ops).
Notation requests := (upto request_at).

Lemma store_quiet (k : nat) cx st st2 out : a_command (apps k) cx st None = Ok (st2, out) -> out = outcome_none.
Proof using. simpl. by intros [= <- <-]. Qed.
Lemma first_keyed first : isfirst first -> well_keyed first.
Proof using.
  intros (k&q&d&cx&_&_&_&_&Hi). simpl in Hi. unfold tablet_init in Hi. destruct (dec_tables_config c (cx_config cx)); [|done].
  injection Hi as <-. apply create_tables_keyed.
Qed.

Lemma applied_request st cx ev st' out : tablet_apply c st cx ev = Ok (st', out) ->
  exists ops r, dec_ops c (ae_contents ev) = Some ops /\ apply_tablets_request st ops = Ok (st', r) /\
    out = if ec_owned cx then [ActorCommand (ae_correlation ev) (enc_out c OutResponse) (enc_results c r)] else [].
Proof using.
  unfold tablet_apply. destruct (dec_ops c (ae_contents ev)) as [ops|]; [|done].
  destruct (apply_tablets_request st ops) as [[ts' r]| |] eqn:E; [|done..]. simpl. intros Hx. exists ops, r. split; [done|].
  destruct (ec_owned cx); by injection Hx as <- <-.
Qed.
Lemma tables_at first i st : sat first i st ->
  exists rs, run_requests first (map snd (requests (N.to_nat (i - 1)))) = Ok (st, rs).
Proof using.
  induction 1 as [|i st H1 IH Hn|i st k owned ev st' out H1 IH Hl Ha]; [by exists []| |].
  - pose proof (sat_pos _ _ _ _ _ _ H1) as Hp. replace (N.to_nat (i + 1 - 1)) with (S (N.to_nat (i - 1))) by lia. cbn [upto].
    replace (N.of_nat (N.to_nat (i - 1)) + 2) with (i + 1) by lia. unfold request_at at 2. rewrite Hn. simpl. rewrite app_nil_r. apply IH.
  - pose proof (sat_pos _ _ _ _ _ _ H1) as Hp. replace (N.to_nat (i + 1 - 1)) with (S (N.to_nat (i - 1))) by lia. cbn [upto].
    replace (N.of_nat (N.to_nat (i - 1)) + 2) with (i + 1) by lia. simpl in Ha. destruct (applied_request _ _ _ _ _ Ha) as (ops&r&Hs&Hr&_).
    destruct IH as [rs IH]. exists (rs ++ [r]). unfold request_at at 2. rewrite Hl. simpl. rewrite Hs. simpl. rewrite map_app. simpl.
    rewrite run_requests_app, IH. simpl. rewrite Hr. done.
Qed.

(** What a committed event is. *)
Lemma committed_request i ev : committed i ev ->
  exists id ops, requested H (origin i) id (ae_correlation ev) ops /\ request_at i = Some (origin i, ops) /\
    forall id', event_of_entry codec id' (log i) = Some (EventContext i (id =? id'), ev).
Proof using AG Hd PO.
  intros CE. pose proof CE as (Hi&Hl&_).
  destruct (pi_source _ _ _ _ _ _ _ _ _ PO _ _ CE) as (H1&k&x&H2&d&d'&calls&E&El&M&M'&Er&Hp).
  destruct (proposed_in codec rops sops cops apps begin store_quiet H k H1 x H2 d d' calls _ E M M' Er Hp)
    as (q&m&cx&co&pe&st&t&st2&Sq&Hx&_&Hcmd&Hev&Ep).
  simpl in Hcmd. destruct (cx_leader cx); [|injection Hcmd as <- <-; done]. simpl in Hcmd.
  destruct (dec_header c (ac_header m)) as [[u|]|] eqn:Eh; [|injection Hcmd as <- <-; done..].
  destruct (dec_ops c (ac_payload m)) as [ops|] eqn:Eop; injection Hcmd as <- <-; [|done]. simpl in Hev. injection Hev as <-.
  assert (Hev : forall id', event_of_entry codec id' (log i) = Some (EventContext i (sr_id q =? id'), ActorEvent (ac_correlation m) (ac_payload m))).
  { intros id'. unfold logged, event_of_entry in *. rewrite Ep in *. simpl in *. rewrite (entry_round_trip _ Hd) in *.
    rewrite (ag_index _ _ _ _ _ _ _ _ AG) in *.
    destruct (enc_entry _ _) as [|b bs] eqn:Ee; [by apply (entry_not_empty _ Hd) in Ee|]. by destruct (re_type (log i)). }
  unfold logged in Hl. rewrite (Hev 0) in Hl. simpl in Hl. injection Hl as <-.
  exists (sr_id q), ops. split_and!.
  - destruct x as [t' x]. simpl in Hx. subst x. exists k, t', m, q, u. simpl. split_and!; try done.
    + by rewrite E, <- El, list_lookup_middle.
    + rewrite E. by apply started_prefix.
  - unfold request_at, logged. rewrite (Hev 0). simpl. by rewrite Eop.
  - exact Hev.
Qed.

(** A response answers an event of the log. *)
Lemma responded_event b id n r : responded H b id n r ->
  exists H1 H2 k j cx ev ops first st st', H = H1 ++ H2 /\ length H1 = S b /\ reach k H1 j /\ ec_index cx <= j /\ 2 <= ec_index cx /\
    ae_correlation ev = n /\ event_of_entry codec id (log (ec_index cx)) = Some (cx, ev) /\ ec_owned cx = true /\
    isfirst first /\ sat first (ec_index cx - 1) st /\ dec_ops c (ae_contents ev) = Some ops /\ apply_tablets_request st ops = Ok (st', r).
Proof using AG CF Hc Ho Hout Hres.
  intros (H1&k&x&H2&q&d&d'&out&E&El&Sq&Eid&M&Hr&Hin).
  destruct (answered_from codec rops sops cops apps begin _ _ (replicated_tablets c generate order Hc Ho) store_quiet log H AG CF
    k H1 x H2 q d d' out _ E M Sq Hr Hin)
    as [(q'&m&cx&co&st&t&st2&_&_&_&_&Hcmd&Hy)|(j&cx&ev&o&first&st1&st2&Hre&Hj&Hi&Hev&Hf&Hs&Hap&Hy)].
  - exfalso. simpl in Hcmd.
    assert (K : forall n' s, ActorCommand n (enc_out c OutResponse) (enc_results c r) ∈ co_commands (error_outcome c n' s) -> False).
    { intros n' s K. simpl in K. apply elem_of_list_singleton in K. unfold with_header in K. injection K as _ K _. by eapply Hout. }
    destruct (cx_leader cx); simpl in Hcmd; [|injection Hcmd as <- <-; exact (K _ _ Hy)].
    destruct (dec_header c (ac_header m)) as [[u|]|]; [|injection Hcmd as <- <-; exact (K _ _ Hy)..].
    destruct (dec_ops c (ac_payload m)); injection Hcmd as <- <-; [by apply elem_of_nil in Hy|exact (K _ _ Hy)].
  - simpl in Hap. destruct (applied_request _ _ _ _ _ Hap) as (ops&r'&Hops&Hr'&->).
    destruct (ec_owned cx) eqn:Eo; [|by apply elem_of_nil in Hy]. apply elem_of_list_singleton in Hy. injection Hy as -> Hy.
    apply Hres in Hy as ->. subst id.
    exists (H1 ++ [(k, x)]), H2, k, j, cx, ev, ops, first, st1, st2. split_and!; try done.
    + by rewrite E, <- (assoc_L app).
    + rewrite app_length. simpl. lia.
Qed.
Lemma refused_not_committed b id n s i ev : refused H b id n s -> committed i ev -> origin i <> b.
Proof using AG CF Hc Ho Hout PO.
  intros (H1&k&x&H2&q&d&d'&out&E&El&Sq&Eid&M&Hr&Hin) CE Eb.
  destruct (pi_source _ _ _ _ _ _ _ _ _ PO _ _ CE) as (H1'&k'&x'&H2'&d1&d2&calls&E2&El2&M1&M2&Er&Hp).
  rewrite E in E2. apply app_inj_1 in E2 as [<- E2]; [|lia]. injection E2 as <- <- <-.
  rewrite (member_unique _ _ _ _ _ _ _ _ _ _ M1 M) in *. clear M1 d1.
  destruct (proposed_and_answered codec rops sops cops apps begin _ _ (replicated_tablets c generate order Hc Ho) log H AG CF
    k H1 x H2 d d' d2 out calls _ _ E M Hr M2 Er Hp Hin) as [(cx&m&st&st2&co&ev'&Hcmd&Hev&Hy)|(cx&ev'&o&st1&st2&Hap&Hy)].
  - simpl in Hcmd. unfold tablet_command in Hcmd. destruct m as [m|]; [|injection Hcmd as <- <-; done].
    destruct (cx_leader cx); simpl in Hcmd; [|injection Hcmd as <- <-; done].
    destruct (dec_header c (ac_header m)) as [[u|]|]; [|injection Hcmd as <- <-; done..].
    destruct (dec_ops c (ac_payload m)); injection Hcmd as <- <-; [by apply elem_of_nil in Hy|done].
  - simpl in Hap. destruct (applied_request _ _ _ _ _ Hap) as (ops&r'&_&_&->).
    destruct (ec_owned cx) eqn:Eo; [|by apply elem_of_nil in Hy]. apply elem_of_list_singleton in Hy.
    unfold with_header in Hy. injection Hy as _ Hy _. by eapply Hout.
Qed.

Theorem store_serializable first : isfirst first -> serializable c generate order codec rops sops cops begin first H.
Proof using AG CF Hc Hd Ho Hout Hres PO.
  intros Hfirst. destruct (reach_top codec rops sops cops apps begin log H AG) as (top&Htop&Hex).
  assert (CE : forall i ev, 2 <= i -> i <= top -> logged codec log i = Some ev -> committed i ev).
  { intros i ev H1 H2 H3. split; [done|]. split; [done|]. destruct Hex as [Hx|[k Hk]]; [lia|]. by exists k, top. }
  assert (CI : forall n x, (n < N.to_nat (top - 1))%nat -> request_at (N.of_nat n + 2) = Some x ->
    exists ev, committed (N.of_nat n + 2) ev /\ x.1 = origin (N.of_nat n + 2)).
  { intros n x Hn Hx. unfold request_at in Hx. destruct (logged codec log (N.of_nat n + 2)) as [ev|] eqn:El; [|done]. simpl in Hx.
    exists ev. split; [apply CE; [lia|lia|done]|]. destruct (dec_ops c (ae_contents ev)); [|done]. by injection Hx as <-. }
  assert (RUN : exists last rs, run_requests first (map snd (requests (N.to_nat (top - 1)))) = Ok (last, rs)).
  { destruct Hex as [Hx|[k Hk]]; [replace (N.to_nat (top - 1)) with O by lia; by exists first, []|].
    destruct (decide (top <= 1)) as [Hx|Hx]; [replace (N.to_nat (top - 1)) with O by lia; by exists first, []|].
    pose proof Hk as (d&q&M&Sq&Ep). destruct (recorded_now _ _ _ _ _ _ _ _ _ _ M Sq) as (st&Ha&_).
    destruct (C24_state_is_that_of_the_log codec rops sops cops apps begin _ _ log H H k top st
      (replicated_tablets c generate order Hc Ho) AG CF) as (f&Hf&Hs); [done| |lia|].
    - eexists d, q, _. done.
    - rewrite (first_unique _ _ _ _ _ _ _ _ AG _ _ Hfirst Hf). destruct (tables_at _ _ _ Hs) as [rs Hrs]. by exists st, rs. }
  destruct RUN as (last&rs&RUN).
  exists (requests (N.to_nat (top - 1))), rs, last. split; [|split; [|split; [|split]]].
  - apply NoDup_alt. intros j1 j2 a H1 H2. rewrite list_lookup_fmap in H1, H2.
    destruct (requests _ !! j1) as [x1|] eqn:E1; [|done]. destruct (requests _ !! j2) as [x2|] eqn:E2; [|done].
    simpl in H1, H2. injection H1 as H1. injection H2 as H2.
    apply upto_inv in E1 as (n1&L1&S1&->). apply upto_inv in E2 as (n2&L2&S2&->).
    destruct (CI _ _ L1 S1) as (ev1&C1&O1). destruct (CI _ _ L2 S2) as (ev2&C2&O2).
    assert (N.of_nat n1 + 2 = N.of_nat n2 + 2) by (eapply (pi_once _ _ _ _ _ _ _ _ _ PO); [done|done|congruence]).
    assert (n1 = n2) as -> by lia. done.
  - intros a s Hin. apply elem_of_list_lookup in Hin as [j Hj]. apply upto_inv in Hj as (n&L&Sn&_).
    destruct (CI _ _ L Sn) as (ev&C1&O1). destruct (committed_request _ _ C1) as (id&s'&Ha&Hs&_). simpl in O1. subst a.
    rewrite Hs in Sn. injection Sn as <-. by exists id, (ae_correlation ev).
  - apply run_serial; [by apply first_keyed|done].
  - intros b id n r Ht.
    destruct (responded_event _ _ _ _ Ht) as (H1&H2&k&j&cx&ev&ops&f&st&st'&E&El&Hre&Hj&Hi&Hn&Hevt&Hown&Hf&Hs&Hops&Hr).
    rewrite <- (first_unique _ _ _ _ _ _ _ _ AG _ _ Hfirst Hf) in *. clear Hf f.
    destruct (reached_grows codec rops sops cops apps begin log H AG k H1 H2 j E Hre) as (j'&Hre'&Hjj).
    pose proof (Htop _ _ Hre') as Hjt. set (i := ec_index cx) in *.
    assert (Hlg : logged codec log i = Some ev).
    { unfold logged. revert Hevt. unfold event_of_entry. destruct (re_data (log i)); [done|]. destruct (re_type _); [|done|];
      (destruct (dec_entry codec _) as [[[i'|] cs]|]; try done); intros K; injection K as _ <-; done. }
    assert (Cev : committed i ev) by (apply CE; [done|lia|done]).
    destruct (committed_request _ _ Cev) as (id0&s'&Ha&Hsa&Hall). rewrite Hall in Hevt. injection Hevt as Hcx.
    assert (id0 = id) as -> by (rewrite <- Hcx in Hown; simpl in Hown; by apply N.eqb_eq).
    assert (ops = s') as ->. { unfold request_at in Hsa. rewrite Hlg in Hsa. simpl in Hsa. rewrite Hops in Hsa. by injection Hsa as <-. }
    assert (Ei : N.of_nat (N.to_nat (i - 2)) + 2 = i) by lia.
    assert (Hlt : (N.to_nat (i - 2) < N.to_nat (top - 1))%nat) by lia.
    exists (length (requests (N.to_nat (i - 2)))), (origin i), s'. split_and!.
    + apply upto_lookup; [done|]. by rewrite Ei.
    + by rewrite <- Hn.
    + destruct (decide (origin i <= b)%nat) as [|Hgt]; [done|]. exfalso.
      pose proof (pi_order _ _ _ _ _ _ _ _ _ PO i ev H1 H2 k j Cev E ltac:(lia) Hre). lia.
    + destruct (upto_grow request_at (S (N.to_nat (i - 2))) (N.to_nat (top - 1)) Hlt) as [l El2]. rewrite El2 in RUN. cbn [upto] in RUN.
      rewrite Ei, Hsa in RUN. simpl in RUN. rewrite !map_app in RUN. simpl in RUN. rewrite <- (assoc_L app), run_requests_app in RUN.
      destruct (tables_at _ _ _ Hs) as [rs1 Hrs]. replace (i - 1 - 1) with (i - 2) in Hrs by lia.
      pose proof (run_requests_length _ _ _ _ Hrs) as Hlen. rewrite map_length in Hlen.
      rewrite Hrs in RUN. simpl in RUN. rewrite Hr in RUN. simpl in RUN.
      destruct (run_requests st' (map snd l)) as [[ts2 rs2]| |]; try done. simpl in RUN. injection RUN as _ <-.
      rewrite <- Hlen. by rewrite list_lookup_middle.
    + intros jj a' s2 Hjj2 Hba. apply upto_inv in Hjj2 as (n2&L2&S2&->). destruct (CI _ _ L2 S2) as (ev2&C2&O2). simpl in O2.
      pose proof (pi_order _ _ _ _ _ _ _ _ _ PO (N.of_nat n2 + 2) ev2 H1 H2 k j C2 E ltac:(lia) Hre).
      apply upto_order; [lia|]. by rewrite Ei, Hsa.
  - intros b id n s Ht Hin. apply elem_of_list_fmap in Hin as ([a ops]&->&Hin). simpl in *.
    apply elem_of_list_lookup in Hin as [j Hj]. apply upto_inv in Hj as (m&L&Sn&_).
    destruct (CI _ _ L Sn) as (ev&C1&O1). simpl in O1. by eapply refused_not_committed.
Qed.
End Tablets.

(** ** What follows from a serial execution *)
Lemma serial_split reqs : forall ts rs last (j : nat) ops r, serial ts reqs rs last -> reqs !! j = Some ops -> rs !! j = Some r ->
  exists ts1 ts2, serial ts (take j reqs) (take j rs) ts1 /\ executes ts1 ops r ts2 /\ serial ts2 (drop (S j) reqs) (drop (S j) rs) last.
Proof.
  induction reqs as [|ops0 reqs IH]; intros ts rs last j ops r Hs Hq Hr; [done|]. inversion Hs; subst. destruct j as [|j]; simpl in *.
  - injection Hq as ->. injection Hr as ->. eexists ts, _. split; [constructor|]. done.
  - destruct (IH _ _ _ _ _ _ H5 Hq Hr) as (t1&t2&A1&A2&A3). exists t1, t2. split; [by econstructor|]. done.
Qed.
Lemma executes_tablet ts ops r ts' name i m : executes ts ops r ts' -> tablet ts name i = Some m ->
  exists m', tablet ts' name i = Some m' /\ tm_version m <= tm_version m'.
Proof.
  intros (Hs&_&Hok&Hno) Hm. destruct (rs_succeeded r) eqn:Er; [|rewrite (Hno eq_refl); by exists m].
  destruct (Hok eq_refl) as [_ Ht]. rewrite Ht. destruct (last_update ops name i) as [u|] eqn:El; [|by exists m].
  exists u. split; [done|]. apply last_update_in in El as (op&Hin&Hu&<-).
  assert (HF : Forall (precondition ts) ops) by by apply Hs. rewrite Forall_forall in HF.
  destruct (update_precondition _ _ _ _ Hu (HF _ Hin)) as (m0&Hm0&Hv). rewrite Hm in Hm0. injection Hm0 as <-. lia.
Qed.
Lemma serial_tablet ts reqs rs last name i m : serial ts reqs rs last -> tablet ts name i = Some m ->
  exists m', tablet last name i = Some m' /\ tm_version m <= tm_version m'.
Proof.
  intros Hs. revert m. induction Hs as [ts|ts ops r ts1 reqs rs ts2 He Hs IH]; intros m Hm; [by exists m|].
  destruct (executes_tablet _ _ _ _ _ _ _ He Hm) as (m1&Hm1&L1). destruct (IH _ Hm1) as (m2&Hm2&L2). exists m2. split; [done|lia].
Qed.
Lemma executes_keyed ts ops r ts' : executes ts ops r ts' -> well_keyed ts -> well_keyed ts'.
Proof.
  intros (_&_&Hok&Hno) Hw name i m Hm. destruct (rs_succeeded r) eqn:Er; [|rewrite (Hno eq_refl) in Hm; by eapply Hw].
  destruct (Hok eq_refl) as [_ Ht]. rewrite Ht in Hm. destruct (last_update ops name i) as [u|] eqn:El; [|by eapply Hw].
  injection Hm as <-. by apply last_update_in in El as (op&_&_&?).
Qed.
Lemma serial_keyed ts reqs rs last : serial ts reqs rs last -> well_keyed ts -> well_keyed last.
Proof. induction 1 as [ts|ts ops r ts1 reqs rs ts2 He Hs IH]; [done|]. intros Hw. apply IH. by eapply executes_keyed. Qed.
Lemma executes_update ts ops r ts' op name u : executes ts ops r ts' -> rs_succeeded r = true -> op ∈ ops -> update_of op = Some (name, u) ->
  exists m u', tablet ts name (tm_id u) = Some m /\ tm_version u = tm_version m + 1 /\
    tablet ts' name (tm_id u) = Some u' /\ tm_version u' = tm_version u.
Proof.
  intros (Hs&_&Hok&_) Er Hin Hu. destruct (Hok Er) as [_ Ht].
  assert (HF : Forall (precondition ts) ops) by by apply Hs. rewrite Forall_forall in HF.
  destruct (update_precondition _ _ _ _ Hu (HF _ Hin)) as (m&Hm&Hv).
  destruct (last_update_some _ _ _ _ Hin Hu) as [u' El]. exists m, u'. split; [done|]. split; [done|]. rewrite Ht, El. split; [done|].
  apply last_update_in in El as (op'&Hin'&Hu'&Ei).
  destruct (update_precondition _ _ _ _ Hu' (HF _ Hin')) as (m'&Hm'&Hv'). rewrite Ei, Hm in Hm'. injection Hm' as <-. lia.
Qed.
Lemma executes_shows ts ops r ts' name m : well_keyed ts -> executes ts ops r ts' -> shows r name m -> tablet ts name (tm_id m) = Some m.
Proof.
  intros Hw (_&HF&_) (x&Hx&Hn&Hd). apply elem_of_list_lookup in Hx as [j Hx].
  destruct (Forall2_lookup_r _ _ _ _ _ HF Hx) as (op&_&K1&_&K3&K4). rewrite Hn in K1.
  destruct Hd as [(from&to&l&Hl&Hmax&Hm)|Hd].
  - destruct (K4 _ _ _ Hl Hmax) as (_&L2&_). rewrite K1. by apply L2.
  - unfold expected_detail in K3. rewrite <- K1 in K3. destruct (ts !! name) as [t|] eqn:Et; [|destruct Hd as [Hd|Hd]; by rewrite K3 in Hd].
    assert (Z : forall i, t !! i = Some m -> tablet ts name (tm_id m) = Some m).
    { intros i Hi. assert (tm_id m = i) as -> by (apply (Hw name); unfold tablet; by rewrite Et). unfold tablet. by rewrite Et. }
    destruct (op_kind_of op) as [[f to|i v|a|[u|]|i v]|].
    + destruct K3 as [l K3]. rewrite K3 in Hd. by destruct Hd.
    + rewrite K3 in Hd. destruct Hd as [Hd|Hd]; [|done]. injection Hd as Hd. destruct (t !! i) as [m'|] eqn:Em; [|done]. simpl in Hd.
      destruct (decide (tm_version m' = v)); [done|]. injection Hd as ->. by eapply Z.
    + rewrite K3 in Hd. by destruct Hd.
    + rewrite K3 in Hd. destruct Hd as [Hd|Hd]; [done|]. injection Hd as Hd. by eapply Z.
    + rewrite K3 in Hd. by destruct Hd.
    + rewrite K3 in Hd. by destruct Hd.
    + rewrite K3 in Hd. by destruct Hd.
Qed.
(** A version that was written is seen by everything that is executed later. *)
Lemma serial_later ts reqs rs last (j1 j2 : nat) ops1 r1 ops2 r2 op name u :
  well_keyed ts -> serial ts reqs rs last -> (j1 < j2)%nat ->
  reqs !! j1 = Some ops1 -> rs !! j1 = Some r1 -> reqs !! j2 = Some ops2 -> rs !! j2 = Some r2 ->
  rs_succeeded r1 = true -> op ∈ ops1 -> update_of op = Some (name, u) ->
  exists before after m, well_keyed before /\ executes before ops2 r2 after /\ tablet before name (tm_id u) = Some m /\ tm_version u <= tm_version m.
Proof.
  intros Hw Hs Hlt Q1 R1 Q2 R2 Ok1 Hin Hu.
  destruct (serial_split _ _ _ _ _ _ _ Hs Q1 R1) as (t1&t2&A1&A2&A3).
  destruct (serial_split _ _ _ _ (j2 - S j1) ops2 r2 A3) as (t3&t4&B1&B2&B3).
  { rewrite lookup_drop. by replace (S j1 + (j2 - S j1))%nat with j2 by lia. }
  { rewrite lookup_drop. by replace (S j1 + (j2 - S j1))%nat with j2 by lia. }
  destruct (executes_update _ _ _ _ _ _ _ A2 Ok1 Hin Hu) as (m&u'&_&_&Hu'&Ev).
  destruct (serial_tablet _ _ _ _ _ _ _ B1 Hu') as (m3&Hm3&L3).
  exists t3, t4, m3. split_and!; [|done|done|lia]. eapply serial_keyed; [exact B1|]. eapply executes_keyed; [exact A2|]. by eapply serial_keyed.
Qed.
