(** Proofs about linearizability. *)
From Verif Require Import Base StorageModel SnapshotModel CommModel ActorModel DriverModel DriverSpec DriverProofs DriverTheorems ClusterSpec ClusterProofs
  CounterModel CounterSpec CounterProofs ClusterOrderSpec.

Section Generic.
Context {RS SP CS ST REQ RESP : Type}.
Variable codec : driver_codec.
Variable rops : raft_ops RS.
Variable sops : snap_ops SP.
Variable cops : comm_ops CS REQ RESP.
Variable apps : nat -> actor ST.
Variable begin : nat -> RS * SP * CS.
Notation events := (list (nat * delivery REQ RESP)).
Notation rlog := (N -> rentry).
Notation mem := (member codec rops sops cops apps begin).
Notation sat := (state_at codec apps).
Notation lran := (lran apps).
Implicit Types (d : rdriver RS SP CS ST REQ RESP) (H : events) (log : rlog).
Variable good : ST -> Prop.
Variable older : ST -> ST -> Prop.
Hypothesis RP : replicated apps good older.

(** ** An event in the middle of a history *)
Lemma recorded_event k st t1 cx ev out t2 : called_as_recorded (apps k) (st, t1 ++ AApply cx ev out :: t2) ->
  exists cx0 st0 st1 st2, head (t1 ++ AApply cx ev out :: t2) = Some (AInit cx0) /\ a_init (apps k) cx0 = Ok st0 /\
    lran k st0 (omap from_log t1) st1 /\ a_apply (apps k) st1 cx ev = Ok (st2, out).
Proof using RP.
  intros (cx0&st0&Hi&Hm).
  assert (G : forall a b, rtc (app_move (apps k)) a b -> exists l, b.2 = a.2 ++ l /\ forall l1 l2, l = l1 ++ AApply cx ev out :: l2 ->
    exists st1 st2, lran k a.1 (omap from_log l1) st1 /\ a_apply (apps k) st1 cx ev = Ok (st2, out)).
  { induction 1 as [a|a b b' Hb _ (l&El&IH)].
    - exists []. rewrite app_nil_r. split; [done|]. by intros [] ?.
    - inversion Hb; subst; simpl in *.
      + exists (ALoad data :: l). rewrite El, <- (assoc_L app). split; [done|]. intros [|x l1] l2 E; [done|].
        injection E as <- E. destruct (IH _ _ E) as (sx&sy&H1&H2). exists sx, sy. split; [by econstructor|done].
      + exists (ACommand cx1 m out0 :: l). rewrite El, <- (assoc_L app). split; [done|]. intros [|x l1] l2 E; [done|].
        injection E as <- E. destruct (IH _ _ E) as (sx&sy&H1&H2). exists sx, sy. split; [|done]. simpl.
        match goal with Hc : a_command _ _ _ _ = _ |- _ => apply (rp_command _ _ _ RP) in Hc; subst end. done.
      + exists (AApply cx1 ev0 out0 :: l). rewrite El, <- (assoc_L app). split; [done|]. intros [|x l1] l2 E.
        * injection E as -> -> -> ->. eexists _, _. split; [constructor|done].
        * injection E as <- E. destruct (IH _ _ E) as (sx&sy&H1&H2). exists sx, sy. split; [by econstructor|done]. }
  apply G in Hm as (l&El&Hl). simpl in *. destruct t1 as [|x t1]; [done|]. injection El as -> El.
  destruct (Hl _ _ (eq_sym El)) as (st1&st2&H1&H2). by exists cx0, st0, st1, st2.
Qed.
Lemma recorded_command k st t cx m out : called_as_recorded (apps k) (st, t) -> ACommand cx m out ∈ t ->
  exists st1 st2, a_command (apps k) cx st1 m = Ok (st2, out).
Proof using.
  intros (cx0&st0&Hi&Hm) Hin.
  assert (G : forall a b, rtc (app_move (apps k)) a b ->
    (ACommand cx m out ∈ a.2 -> exists st1 st2, a_command (apps k) cx st1 m = Ok (st2, out)) ->
    ACommand cx m out ∈ b.2 -> exists st1 st2, a_command (apps k) cx st1 m = Ok (st2, out)).
  { induction 1 as [a|a b b' Hb _ IH]; intros H1 H2; [by apply H1|]. apply IH; [|done]. intros H3.
    inversion Hb; subst; simpl in *; apply elem_of_app in H3 as [H3|H3]; try (by apply H1); apply elem_of_list_singleton in H3; try done.
    injection H3 as -> -> ->. by eexists _, _. }
  eapply G; [exact Hm| |exact Hin]. simpl. intros H3. by apply elem_of_list_singleton in H3.
Qed.

(** ** The state an event finds *)
Lemma next_mid log id first k n : (forall i, re_index (log i) = i) -> forall pos st st1 l1 cx ev l2,
  map inr (omap (event_of_entry codec id) (next_entries log pos n)) = l1 ++ inr (cx, ev) :: l2 ->
  lran k st l1 st1 -> sat log first pos st ->
  pos < ec_index cx <= pos + N.of_nat n /\ event_of_entry codec id (log (ec_index cx)) = Some (cx, ev) /\
  sat log first (ec_index cx - 1) st1.
Proof using.
  intros Hi. induction n as [|n IH]; intros pos st st1 l1 cx ev l2 E Hl Hs; [by destruct l1|].
  rewrite next_S in E. cbn [omap list_omap] in E. rewrite (logged_of codec log id) in E.
  destruct (logged codec log (pos + 1)) as [ev'|] eqn:El; cbn [fmap option_fmap option_map map] in E.
  - destruct l1 as [|y l1].
    + injection E as <- <- _. cbn [ec_index]. rewrite Hi. inversion Hl; subst. split; [lia|]. split.
      * rewrite (logged_of codec log id) at 1. rewrite El, Hi. done.
      * by replace (pos + 1 - 1) with pos by lia.
    + injection E as <- E. inversion Hl; subst. rewrite Hi in *.
      destruct (IH (pos + 1) _ _ _ _ _ _ E ltac:(eassumption)) as (H1&H2&H3); [by eapply at_event|]. split; [lia|]. done.
  - destruct (IH (pos + 1) _ _ _ _ _ _ E Hl) as (H1&H2&H3); [by apply at_nothing|]. split; [lia|]. done.
Qed.

Lemma max_ge pos l : pos <= foldr (fun e p => N.max (re_index e) p) pos l.
Proof using. induction l; simpl; lia. Qed.
Lemma position_ge log os : (forall i, re_index (log i) = i) -> forall pos, of_log log pos os -> pos <= position pos os.
Proof using.
  intros Hi. induction os as [|[s|es] os IH]; intros pos Ho; cbn [position]; [lia| |].
  - destruct Ho as (H1&_&H3). specialize (IH _ H3). lia.
  - destruct Ho as (_&H2&H3). rewrite (max_perm _ _ _ H2), max_next by done. specialize (IH _ H3). lia.
Qed.

Lemma replay_mid log (isfirst : ST -> Prop) id k os l : (forall i, re_index (log i) = i) ->
  (forall f1 f2, isfirst f1 -> isfirst f2 -> f1 = f2) -> (forall f, isfirst f -> good f) ->
  hands_over codec id os l -> forall pos st l1 st1 cx ev l2, l = l1 ++ inr (cx, ev) :: l2 -> lran k st l1 st1 -> of_log log pos os ->
  (forall s, inl s ∈ os -> saved codec apps log isfirst s) ->
  placed codec apps older log isfirst pos st ->
  pos < ec_index cx <= position pos os /\ event_of_entry codec id (log (ec_index cx)) = Some (cx, ev) /\
  exists first, isfirst first /\ sat log first (ec_index cx - 1) st1.
Proof using RP.
  intros Hi Hu Hg. induction 1 as [|s os l Ho IH|es sorted os l Hp Hs Ho IH]; intros pos st l1 st1 cx ev l2 E Hl Hlog Hsv P.
  - by destruct l1.
  - destruct l1 as [|y l1]; [done|]. injection E as <- E. inversion Hl; subst. destruct Hlog as (Hle&H1&Hlog). cbn [position].
    match goal with HL : a_load _ _ _ = Ok ?s2 |- _ => rename HL into Hld; set (sl := s2) in * end.
    assert (P' : placed codec apps older log isfirst (sn_index s) sl).
    { eapply (replay codec apps good older RP log isfirst id k [inl s] [inl (sn_data s)] Hi Hu Hg) with (pos := pos) (st := st).
      - apply over_snapshot. constructor.
      - econstructor; [exact Hld|constructor].
      - by split_and!.
      - intros s' Hs'. apply elem_of_list_singleton in Hs' as [= ->]. apply Hsv. by left.
      - done. }
    destruct (IH (sn_index s) sl l1 st1 cx ev l2 eq_refl ltac:(eassumption) Hlog) as (K1&K2&K3); [intros s' Hs'; apply Hsv; by right|done|].
    split; [lia|]. done.
  - destruct Hlog as (Hne&Hperm&Hlog). cbn [position]. rewrite (max_perm _ _ _ Hperm), max_next by done.
    assert (Es : sorted = next_entries log pos (length es)) by (apply sorted_next; [done|by rewrite Hp|done]).
    rewrite Es in E.
    assert (Hin : (exists l2', map inr (omap (event_of_entry codec id) (next_entries log pos (length es))) = l1 ++ inr (cx, ev) :: l2') \/
      (exists l1', l1 = map inr (omap (event_of_entry codec id) (next_entries log pos (length es))) ++ l1' /\ l = l1' ++ inr (cx, ev) :: l2)).
    { apply app_eq_app in E as (k0&[[E1 E2]|[E1 E2]]).
      - destruct k0 as [|y k0]; [right; exists []; rewrite app_nil_r in *; by rewrite E1|]. injection E2 as <- E2. left. by exists k0.
      - right. by exists k0. }
    destruct Hin as [[l2' E1]|(l1'&->&E2)].
    + assert (exists f, isfirst f /\ sat log f pos st) as (f&Hf&Hsat).
      { destruct P as [[-> Hold]|Pf]; [|done]. destruct Hne as [->|]; [by destruct l1|lia]. }
      destruct (next_mid log id f k (length es) Hi pos st st1 l1 cx ev l2' E1 Hl Hsat) as (K1&K2&K3).
      pose proof (position_ge log os Hi _ Hlog). split; [lia|]. split; [done|]. by exists f.
    + apply lran_app in Hl as (st2&Hl1&Hl2).
      assert (P' : placed codec apps older log isfirst (pos + N.of_nat (length es)) st2).
      { destruct P as [[-> Hold]|(f2&Hf2&Hsat)].
        - destruct Hne as [->|]; [|lia]. simpl in Hl1. inversion Hl1; subst. by left.
        - right. exists f2. split; [done|]. by eapply replay_next. }
      destruct (IH _ _ _ _ _ _ _ E2 Hl2 Hlog) as (K1&K2&K3); [intros s' Hs'; apply Hsv; by right|done|]. split; [lia|]. done.
Qed.

(** ** In a cluster *)
Section Cluster.
Variable log : rlog.
Variable H : events.
Hypothesis AG : agrees codec rops sops cops apps begin log H.
Hypothesis CF : one_configuration H.
Notation isfirst := (first_state codec rops sops cops apps begin H).
Notation reach := (reached codec rops sops cops apps begin).

Lemma all_saved k H1 H2 d q s : H = H1 ++ H2 -> mem k H1 d -> started_with k H1 q -> inl s ∈ handed (raft_calls d) ->
  saved codec apps log isfirst s.
Proof using AG CF RP.
  intros E M S Hs.
  pose proof (handed_index _ _ _ _ _ _ _ _ AG _ _ _ _ _ _ E M S Hs) as Hge.
  destruct (handed_created _ _ _ _ _ _ _ _ AG _ _ _ _ _ E M Hs) as (H0&H3&->&Hne&Hcr).
  eapply (created_saved _ _ _ _ _ _ _ _ RP _ _ AG H0 (H3 ++ H2)); [by rewrite E, (assoc_L app)|done|done|].
  intros H4 H5 k' d' q' st' -> M' S' Hc'.
  eapply (all_placed _ _ _ _ _ _ _ _ RP _ _ AG CF (length H4) H4 (H5 ++ H3 ++ H2)); [lia| |done|done|done]. by rewrite E, !(assoc_L app).
Qed.
Lemma event_found k H1 H2 d q t1 cx ev out t2 : H = H1 ++ H2 -> mem k H1 d -> started_with k H1 q ->
  app_calls d = t1 ++ AApply cx ev out :: t2 ->
  ec_index cx <= position (start_index q) (handed (raft_calls d)) /\ 2 <= ec_index cx /\
  event_of_entry codec (sr_id q) (log (ec_index cx)) = Some (cx, ev) /\
  exists first st1 st2, isfirst first /\ sat log first (ec_index cx - 1) st1 /\ a_apply (apps k) st1 cx ev = Ok (st2, out).
Proof using AG CF RP.
  intros E M S Et. destruct (recorded_now _ _ _ _ _ _ _ _ _ _ M S) as (st&_&Hc). rewrite Et in Hc.
  destruct (recorded_event _ _ _ _ _ _ _ Hc) as (cx0&st0&st1&st2&Hh&Hi&Hl&Ha). rewrite <- Et in Hh.
  destruct (started_facts _ _ _ _ _ _ _ _ _ _ M S) as (cx'&st0'&data&Hh'&Hcf&Hi'&Hsv&Hk).
  rewrite Hh in Hh'. injection Hh' as <-. rewrite Hi in Hi'. injection Hi' as <-.
  pose proof M as (o&B). pose proof S as (Hd&He).
  destruct (replay_mid log isfirst (sr_id q) k (handed (raft_calls d)) (omap from_log (app_calls d))
    (ag_index _ _ _ _ _ _ _ _ AG) (first_unique _ _ _ _ _ _ _ _ AG) (first_good _ _ _ _ _ _ _ _ RP H)
    (C22_events_of_the_log _ _ _ _ _ _ _ _ _ _ _ _ B Hd He) (start_index q) st0 (omap from_log t1) st1 cx ev (omap from_log t2)) as (K1&K2&f&Hf&Hs).
  - rewrite Et, omap_app. done.
  - done.
  - by eapply (log_prefix _ _ _ _ _ _ _ _ AG).
  - intros s Hs. by eapply all_saved.
  - unfold start_index. destruct (sr_leader q) eqn:El.
    + right. exists st0. split; [|constructor].
      destruct (prefix_member _ _ _ _ _ _ _ _ AG k H []) as [dH MH]; [by rewrite app_nil_r|].
      pose proof MH as M2. rewrite E in M2. destruct (extends codec rops sops cops apps begin k H1 H2 d dH M M2) as (rt&tr&_&Ea).
      exists k, q, dH, cx0. split_and!; try done.
      * rewrite E. by apply started_prefix.
      * rewrite Ea. by destruct (app_calls d).
    + left. split; [done|]. intros f (k2&q2&d2&cx2&S2&L2&M2&A2&I2).
      eapply (rp_older_init _ _ _ RP); [|exact Hi|exact I2].
      destruct (started_facts _ _ _ _ _ _ _ _ _ _ M2 S2) as (cx2'&_&_&A2'&C2&_). rewrite A2 in A2'. injection A2' as <-.
      rewrite Hcf, C2. eapply CF; [|exact S2]. rewrite E. by apply started_prefix.
  - pose proof (sat_pos _ _ _ _ _ _ Hs). split; [lia|]. split; [lia|]. split; [done|]. by exists f, st1, st2.
Qed.

(** A call that proposes something was made with a command that led to it. *)
Lemma proposed_by k H1 x H2 d d' calls p : H = H1 ++ (k, x) :: H2 -> mem k H1 d -> mem k (H1 ++ [(k, x)]) d' ->
  raft_calls d' = raft_calls d ++ calls -> KPropose p ∈ calls ->
  exists q cx m out ev st1 st2, started_with k (H1 ++ [(k, x)]) q /\
    (x.2 = Some (Some (HApp m)) /\ a_command (apps k) cx st1 (Some m) = Ok (st2, out) \/ a_command (apps k) cx st1 None = Ok (st2, out)) /\
    co_event out = Some ev /\ p = enc_entry codec (Entry (Some (EntryId (ae_correlation ev) (sr_id q))) (ae_contents ev)).
Proof using.
  intros E M M' Ec Hp. pose proof M as (o&B). pose proof M' as (o'&B').
  pose proof B' as B2. rewrite calls_of_app, calls_of_one in B2. apply born_snoc in B2 as (d1&o1&out0&B1&Hr&->).
  assert (d1 = d) as -> by (destruct B, B1; congruence).
  destruct (receive_call _ _ _ _ _ _ _ _ _ (born_inv _ _ _ _ _ _ _ _ _ _ _ B) Hr) as (rt&mt&tr&C).
  assert (calls = rt) as ->. { pose proof (call_raft _ _ _ _ _ _ _ _ _ _ C) as E2. rewrite Ec in E2. by apply app_inv_head in E2. }
  pose proof (born_life _ _ _ _ _ _ _ _ _ _ _ B') as L. pose proof (call_inv _ _ _ _ _ _ _ _ _ _ C) as I.
  assert (Hin : KPropose p ∈ raft_calls d') by (rewrite Ec; apply elem_of_app; by right).
  assert (exists q, started_with k (H1 ++ [(k, x)]) q) as [q S].
  { assert (Ha : d_actor d' <> None).
    { intros Ha. destruct (core_absent _ _ (inv_core _ _ I) Ha) as (_&Hr'&_). rewrite Hr' in Hin. by apply elem_of_nil in Hin. }
    destruct (delivered_start (calls_of k (H1 ++ [(k, x)]))) as [[q Hd]|Hno].
    - exists q. split; [done|]. destruct (sr_ephemeral q) eqn:Ee; [|done].
      destruct (life_request _ _ L _ Hd) as (_&_&_&Hr'). rewrite Ee in Hr'. rewrite Hr' in Hin. by apply elem_of_nil in Hin.
    - by rewrite (life_none _ _ L Hno) in Ha. }
  destruct (life_request _ _ L _ (proj1 S)) as (Eid&Eep&_). rewrite (proj2 S) in Eep.
  assert (Hp' : p ∈ omap proposal_of rt) by (apply elem_of_list_omap; by eexists).
  rewrite (call_proposals _ _ _ _ _ _ _ _ _ _ C Eep), Eid in Hp'. apply elem_of_list_omap in Hp' as (a&Ha&Hpa).
  destruct a as [| |cx m out|]; try done. simpl in Hpa. destruct (co_event out) as [ev|] eqn:Ev; [|done]. injection Hpa as <-.
  destruct (recorded_now _ _ _ _ _ _ _ _ _ _ M' S) as (st&_&Hc).
  destruct (recorded_command k st (app_calls d') cx m out Hc) as (st1&st2&Hcmd).
  { rewrite (call_app _ _ _ _ _ _ _ _ _ _ C). apply elem_of_app. by right. }
  assert (Hm : m ∈ omap command_of tr) by (apply elem_of_list_omap; by exists (ACommand cx m out)).
  rewrite (call_commands _ _ _ _ _ _ _ _ _ _ C) in Hm. destruct (decide _) as [_|_]; [|by apply elem_of_nil in Hm].
  destruct m as [m|]; [|exists q, cx, (ActorCommand 0 [] []), out, ev, st1, st2; split; [done|]; split; [by right|done]].
  exists q, cx, m, out, ev, st1, st2. split; [done|]. split; [|done]. left. split; [|done].
  destruct x as [t [[y|]|]]; simpl in Hm; [|by apply elem_of_nil in Hm|by apply elem_of_list_singleton in Hm].
  destruct y; apply elem_of_list_singleton in Hm; try done. by injection Hm as ->.
Qed.

(** The end of the log. *)
Lemma reach_top : exists top, (forall k j, reach k H j -> j <= top) /\ (top <= 1 \/ exists k, reach k H top).
Proof using AG.
  assert (G : forall ks : list nat, exists top, (forall k j, k ∈ ks -> reach k H j -> j <= top) /\ (top <= 1 \/ exists k, reach k H top)).
  { induction ks as [|k ks (top&H1&H2)].
    - exists 0. split; [by intros k j Hk%elem_of_nil|left; lia].
    - destruct (ag_runs _ _ _ _ _ _ _ _ AG k) as [d Md].
      assert ((exists q, started_with k H q) \/ (forall q, ~ started_with k H q)) as [[q S]|Hno].
      { destruct (delivered_start (calls_of k H)) as [[q Hd]|Hno].
        - destruct (sr_ephemeral q) eqn:Ee; [|left; by exists q]. right. intros q' [Hd' He'].
          destruct Md as (o&B). destruct (life_request _ _ (born_life _ _ _ _ _ _ _ _ _ _ _ B) _ Hd) as (_&E1&_).
          destruct (life_request _ _ (born_life _ _ _ _ _ _ _ _ _ _ _ B) _ Hd') as (_&E2&_). congruence.
        - right. intros q [Hd _]. by eapply Hno. }
      + assert (R : reach k H (position (start_index q) (handed (raft_calls d)))) by by exists d, q.
        assert (U : forall j, reach k H j -> j = position (start_index q) (handed (raft_calls d))).
        { intros j (d2&q2&M2&S2&->). rewrite (member_unique _ _ _ _ _ _ _ _ _ _ M2 Md). f_equal. unfold start_index.
          destruct (started_facts _ _ _ _ _ _ _ _ _ _ Md S) as (?&?&?&_&_&_&_&K1).
          destruct (started_facts _ _ _ _ _ _ _ _ _ _ Md S2) as (?&?&?&_&_&_&_&K2). rewrite K1 in K2. by injection K2 as _ -> _. }
        exists (N.max top (position (start_index q) (handed (raft_calls d)))). split.
        * intros k' j Hk Hj. apply elem_of_cons in Hk as [->|Hk]; [rewrite (U _ Hj); lia|]. specialize (H1 _ _ Hk Hj). lia.
        * destruct (N.max_spec top (position (start_index q) (handed (raft_calls d)))) as [[_ ->]|[_ ->]]; [right; by exists k|done].
      + exists top. split; [|done]. intros k' j Hk Hj. apply elem_of_cons in Hk as [->|Hk]; [|by eapply H1].
        destruct Hj as (d2&q2&_&S2&_). by apply Hno in S2. }
  destruct (G (map fst H)) as (top&H1&H2). exists top. split; [|done]. intros k j Hj. apply (H1 k j); [|done].
  destruct Hj as (d&q&_&[[t Hd] _]&_). unfold calls_of in Hd. apply elem_of_list_omap in Hd as ([k' y]&Hin&Hy).
  destruct (decide (k' = k)) as [->|]; [|done]. apply elem_of_list_fmap. by exists (k, y).
Qed.

Lemma position_grows os os' : forall pos, of_log log pos (os ++ os') -> position pos os <= position pos (os ++ os').
Proof using AG.
  pose proof (ag_index _ _ _ _ _ _ _ _ AG) as Hi.
  induction os as [|[s|es] os IH]; intros pos Ho; cbn [position app] in *.
  - by apply (position_ge log).
  - destruct Ho as (_&_&Ho). by apply IH.
  - destruct Ho as (_&H2&Ho). rewrite (max_perm _ _ _ H2), max_next by done. by apply IH.
Qed.
Lemma reached_grows k H1 H2 j : H = H1 ++ H2 -> reach k H1 j -> exists j', reach k H j' /\ j <= j'.
Proof using AG.
  intros E (d&q&M&S&->). destruct (ag_runs _ _ _ _ _ _ _ _ AG k) as [dH MH]. pose proof MH as M2. rewrite E in M2.
  destruct (extends codec rops sops cops apps begin k H1 H2 d dH M M2) as (rt&tr&Er&_).
  assert (S2 : started_with k H q) by (rewrite E; by apply started_prefix).
  eexists. split; [by exists dH, q|]. rewrite Er, handed_app. apply position_grows. rewrite <- handed_app, <- Er.
  exact (ag_log _ _ _ _ _ _ _ _ AG k dH q MH S2).
Qed.
End Cluster.
End Generic.

(** ** The counters *)
Section Counters.
Context {RS SP CS REQ RESP : Type}.
Variable c : counter_codec.
Variable codec : driver_codec.
Variable rops : raft_ops RS.
Variable sops : snap_ops SP.
Variable cops : comm_ops CS REQ RESP.
Variable begin : nat -> RS * SP * CS.
Notation apps := (fun _ : nat => counter_actor c).
Notation events := (list (nat * delivery REQ RESP)).
Notation rlog := (N -> rentry).
Notation mem := (member codec rops sops cops apps begin).
Variable good : counters -> Prop.
Variable older : counters -> counters -> Prop.
Hypothesis RP : replicated apps good older.
Hypothesis Hc : CounterSpec.codec_ok c.
Hypothesis Hd : driver_codec_ok codec.
Variable log : rlog.
Variable H : events.
Hypothesis AG : agrees codec rops sops cops apps begin log H.
Hypothesis CF : one_configuration H.
Variable origin : N -> nat.
Hypothesis PO : proposals_in_order codec rops sops cops apps begin log H origin.
Notation isfirst := (first_state codec rops sops cops apps begin H).
Notation reach := (reached codec rops sops cops apps begin).
Notation sat := (state_at codec apps).

Definition swap_of (ev : actor_event) : option swap :=
  match dec_request c (ae_contents ev) with
  | Some r => (fun cas => Swap (cr_name r) (cas_expected cas) (cas_new cas) (cr_payload r)) <$> cr_op r
  | None => None
  end.
Definition swap_at (i : N) : option (nat * swap) := ev ← logged codec log i; s ← swap_of ev; Some (origin i, s).
(** The swaps of the first [n] entries after the first. *)
Fixpoint swaps (n : nat) : list (nat * swap) :=
  match n with O => [] | S m => swaps m ++ option_list (swap_at (N.of_nat m + 2)) end.

Lemma swaps_grow n m : (n <= m)%nat -> exists l, swaps m = swaps n ++ l.
Proof using.
  induction 1 as [|m _ [l IH]]; [by exists []; rewrite app_nil_r|]. cbn [swaps]. rewrite IH, <- (assoc_L app). by eexists.
Qed.
Lemma swaps_lookup n m x : (n < m)%nat -> swap_at (N.of_nat n + 2) = Some x -> swaps m !! length (swaps n) = Some x.
Proof using.
  intros Hl Hx. destruct (swaps_grow (S n) m Hl) as [l ->]. cbn [swaps]. rewrite Hx, <- (assoc_L app). simpl.
  by rewrite list_lookup_middle.
Qed.
Lemma swaps_inv m j x : swaps m !! j = Some x ->
  exists n, (n < m)%nat /\ swap_at (N.of_nat n + 2) = Some x /\ j = length (swaps n).
Proof using.
  induction m as [|m IH]; cbn [swaps]; [done|]. intros Hj. apply lookup_app_Some in Hj as [Hj|[Hj1 Hj2]].
  - destruct (IH Hj) as (n&?&?&?). exists n. split_and!; [lia|done..].
  - destruct (swap_at (N.of_nat m + 2)) as [y|] eqn:E; [|done]. simpl in Hj2. apply list_lookup_singleton_Some in Hj2 as [Hz <-].
    exists m. split_and!; [lia|done|lia].
Qed.
Lemma swaps_order n m : (n < m)%nat -> swap_at (N.of_nat n + 2) <> None -> (length (swaps n) < length (swaps m))%nat.
Proof using.
  intros Hl Hx. destruct (swap_at (N.of_nat n + 2)) as [x|] eqn:E; [|done].
  apply lookup_lt_is_Some. eexists. by apply swaps_lookup.
Qed.

Lemma spec_run_snoc m l s :
  spec_run m (l ++ [s]) = (let '(m', r) := spec_run m l in let '(m'', a) := spec_step m' s in (m'', r ++ [a])).
Proof using.
  revert m. induction l as [|x l IH]; intros m; simpl; [by destruct (spec_step m s)|].
  destruct (spec_step m x) as [m1 a1]. rewrite IH. destruct (spec_run m1 l) as [m2 r2]. by destruct (spec_step m2 s).
Qed.
Lemma spec_run_length m l : length (spec_run m l).2 = length l.
Proof using.
  revert m. induction l as [|x l IH]; intros m; simpl; [done|]. destruct (spec_step m x) as [m1 a1]. specialize (IH m1).
  destruct (spec_run m1 l). simpl in *. by f_equal.
Qed.
Lemma spec_run_grow m l l' : exists l2, (spec_run m (l ++ l')).2 = (spec_run m l).2 ++ l2.
Proof using.
  revert m. induction l as [|x l IH]; intros m; simpl; [by eexists|]. destruct (spec_step m x) as [m1 a1].
  destruct (IH m1) as [l2 E]. destruct (spec_run m1 (l ++ l')), (spec_run m1 l). simpl in *. exists l2. by rewrite E.
Qed.

Lemma applied_swap st cx ev st' out : counter_apply c st cx ev = Ok (st', out) ->
  exists s, swap_of ev = Some s /\ st' = swapped st s /\
    out = if ec_owned cx then [response_command c (ae_correlation ev) (swap_response st s)] else [].
Proof using.
  unfold counter_apply, swap_of. destruct (dec_request c (ae_contents ev)) as [r|]; [|done]. destruct (cr_op r) as [[e n]|]; [|done].
  intros E. eexists. split; [done|]. unfold swapped, swap_response. simpl.
  destruct (apply_compare_and_swap st (cr_name r) (CasRequest e n) (cr_payload r)) as [st1 r1]. simpl.
  destruct (ec_owned cx); by injection E as <- <-.
Qed.

Lemma registers_at first i st : sat log first i st -> forall n,
  current st n = (spec_run (current first) (map snd (swaps (N.to_nat (i - 1))))).1 n.
Proof using.
  induction 1 as [|i st H1 IH Hn|i st k owned ev st' out H1 IH Hl Ha]; intros n; [done| |].
  - pose proof (sat_pos _ _ _ _ _ _ H1) as Hp. replace (N.to_nat (i + 1 - 1)) with (S (N.to_nat (i - 1))) by lia. cbn [swaps].
    replace (N.of_nat (N.to_nat (i - 1)) + 2) with (i + 1) by lia. unfold swap_at. rewrite Hn. simpl. rewrite app_nil_r. apply IH.
  - pose proof (sat_pos _ _ _ _ _ _ H1) as Hp. replace (N.to_nat (i + 1 - 1)) with (S (N.to_nat (i - 1))) by lia. cbn [swaps].
    replace (N.of_nat (N.to_nat (i - 1)) + 2) with (i + 1) by lia. simpl in Ha. destruct (applied_swap _ _ _ _ _ Ha) as (s&Hs&->&_).
    unfold swap_at. rewrite Hl. simpl. rewrite Hs. simpl. rewrite map_app. simpl. rewrite spec_run_snoc.
    rewrite (proj1 (step_refines st s) n).
    destruct (spec_run (current first) (map snd (swaps (N.to_nat (i - 1))))) as [m r]. simpl in IH.
    destruct (spec_step_ext _ _ s IH) as [_ E]. rewrite E. by destruct (spec_step m s).
Qed.

Lemma first_registers k q values first : started_with k H q -> dec_config c (sr_config q) = Some values -> isfirst first ->
  forall n, current first n = configured values n.
Proof using CF.
  intros Sq Hv (k'&q'&d&cx&S'&L'&M'&A'&I') n.
  destruct (started_facts _ _ _ _ _ _ _ _ _ _ M' S') as (cx'&_&_&A2&C2&_). rewrite A' in A2. injection A2 as <-.
  simpl in I'. unfold counter_init in I'. rewrite C2, (CF _ _ _ _ S' Sq), Hv in I'. injection I' as <-.
  unfold current, configured. rewrite lookup_fmap. by destruct (values !! n).
Qed.

(** What a committed event is. *)
Lemma committed_origin i ev : committed_event codec rops sops cops apps begin log H i ev ->
  exists id s, asked c H (origin i) id (ae_correlation ev) s /\ swap_at i = Some (origin i, s) /\
    forall id', event_of_entry codec id' (log i) = Some (EventContext i (id =? id'), ev).
Proof using AG Hc Hd PO.
  intros CE. pose proof CE as (Hi&Hl&_).
  destruct (pi_source _ _ _ _ _ _ _ _ _ PO _ _ CE) as (H1&k&x&H2&d&d'&calls&E&El&M&M'&Er&Hp).
  destruct (proposed_by codec rops sops cops apps begin H k H1 x H2 d d' calls _ E M M' Er Hp) as (q&cx&m&out&pe&st1&st2&Sq&Hx&Hev&Ep).
  destruct Hx as [[Hx Hcmd]|Hcmd]; [|simpl in Hcmd; injection Hcmd as <- <-; done].
  simpl in Hcmd. destruct (dec_in c (ac_header m)) as [[r|]|] eqn:Er2; [|injection Hcmd as <- <-; done..].
  destruct (cx_leader cx); [|injection Hcmd as <- <-; done]. simpl in Hcmd.
  destruct (cr_op r) as [cas|] eqn:Eop; injection Hcmd as <- <-; [|done]. simpl in Hev. injection Hev as <-.
  assert (Hev : forall id', event_of_entry codec id' (log i) = Some (EventContext i (sr_id q =? id'),
    ActorEvent (ac_correlation m) (enc_request c (CounterRequest (cr_name r) (Some cas) [] (cr_payload r))))).
  { intros id'. unfold logged, event_of_entry in *. rewrite Ep in *. simpl in *. rewrite (entry_round_trip _ Hd) in *.
    rewrite (ag_index _ _ _ _ _ _ _ _ AG) in *.
    destruct (enc_entry _ _) as [|b bs] eqn:Ee; [by apply (entry_not_empty _ Hd) in Ee|]. by destruct (re_type (log i)). }
  unfold logged in Hl. rewrite (Hev 0) in Hl. simpl in Hl. injection Hl as <-.
  exists (sr_id q), (Swap (cr_name r) (cas_expected cas) (cas_new cas) (cr_payload r)). split_and!.
  - destruct x as [t x]. simpl in Hx. subst x. exists k, t, m, r, cas, q. simpl. split_and!; try done.
    + by rewrite E, <- El, list_lookup_middle.
    + rewrite E. replace (H1 ++ (k, (t, Some (Some (HApp m)))) :: H2) with ((H1 ++ [(k, (t, Some (Some (HApp m))))]) ++ H2)
        by (by rewrite <- (assoc_L app)). by apply started_prefix.
  - unfold swap_at, logged. rewrite (Hev 0). simpl. unfold swap_of. simpl. rewrite (request_round_trip _ Hc). done.
  - exact Hev.
Qed.

(** A response about a value answers an event of the log. *)
Lemma told_event b id n r op : told c codec rops sops cops begin H b id n r -> crs_op r = Some op ->
  exists H1 H2 k j cx s first st, H = H1 ++ H2 /\ length H1 = S b /\ reach k H1 j /\ ec_index cx <= j /\ 2 <= ec_index cx /\
    logged codec log (ec_index cx) = Some (s) /\ ae_correlation s = n /\ (event_of_entry codec id (log (ec_index cx)) = Some (cx, s)) /\ ec_owned cx = true /\
    isfirst first /\ sat log first (ec_index cx - 1) st /\ exists sw, swap_of s = Some sw /\ r = swap_response st sw.
Proof using AG CF Hc RP.
  intros (H1&k&x&H2&q&d&d'&out&E&El&Sq&Eid&M&Hr&Hout) Hop.
  pose proof M as (o&B).
  destruct (receive_call _ _ _ _ _ _ _ _ _ (born_inv _ _ _ _ _ _ _ _ _ _ _ B) Hr) as (rt&mt&tr&C).
  assert (M' : mem k (H1 ++ [(k, x)]) d').
  { exists (o ++ [out]). rewrite calls_of_app, calls_of_one. by eapply born_next. }
  assert (Hin : response_command c n r ∈ omap app_out out) by (apply elem_of_list_omap; by eexists).
  rewrite (call_outputs _ _ _ _ _ _ _ _ _ _ C) in Hin. apply elem_of_list_In, in_concat in Hin as (l&Hl&Hin).
  apply in_map_iff in Hl as (a&<-&Ha). apply elem_of_list_In in Ha, Hin.
  assert (E' : H = (H1 ++ [(k, x)]) ++ H2) by (by rewrite <- (assoc_L app)).
  assert (exists q', started_with k (H1 ++ [(k, x)]) q' /\ sr_id q' = id) as (q'&Sq'&Eid').
  { destruct (ag_runs _ _ _ _ _ _ _ _ AG k) as [dH (oH&BH)]. pose proof (born_life _ _ _ _ _ _ _ _ _ _ _ BH) as LH.
    destruct (life_request _ _ LH _ (proj1 Sq)) as (I1&E1&_). pose proof M' as (o2&B').
    pose proof (born_life _ _ _ _ _ _ _ _ _ _ _ B') as L.
    destruct (delivered_start (calls_of k (H1 ++ [(k, x)]))) as [[q' Hq]|Hno].
    - assert (Hq2 : delivered (HStart q') (calls_of k H)).
      { destruct Hq as [t Hq]. exists t. rewrite E', calls_of_app. apply elem_of_app. by left. }
      destruct (life_request _ _ LH _ Hq2) as (I2&E2&_). exists q'. split; [split; [done|]|congruence]. rewrite <- E2, E1. apply Sq.
    - exfalso. pose proof (life_none _ _ L Hno) as Hn. pose proof (call_app _ _ _ _ _ _ _ _ _ _ C) as Ec.
      unfold app_calls at 1 in Ec. rewrite Hn in Ec. symmetry in Ec. apply app_nil in Ec as [_ ->]. by apply elem_of_nil in Ha. }
  destruct (recorded_now _ _ _ _ _ _ _ _ _ _ M' Sq') as (st&_&Hrec).
  assert (Ha' : a ∈ app_calls d') by (rewrite (call_app _ _ _ _ _ _ _ _ _ _ C); apply elem_of_app; by right).
  destruct a as [| |cx m co|cx ev o']; simpl in Hin; try (by apply elem_of_nil in Hin).
  - exfalso. destruct (recorded_command apps k st (app_calls d') cx m co Hrec Ha') as (s1&s2&Hcmd).
    simpl in Hcmd. unfold counter_command in Hcmd.
    assert (K : forall stt, response_command c n r ∈ [with_header (match m with Some m => ac_correlation m | None => 0 end) (enc_response c (CounterResponse stt None))] -> False).
    { intros stt K. apply elem_of_list_singleton in K. unfold response_command, with_header in K. injection K as _ K.
      apply (response_injective _ Hc) in K. by rewrite K in Hop. }
    destruct m as [m|]; [|injection Hcmd as <- <-; by apply elem_of_nil in Hin].
    destruct (dec_in c (ac_header m)) as [[r'|]|]; [|injection Hcmd as <- <-; exact (K _ Hin)..].
    destruct (cx_leader cx); simpl in Hcmd; [|injection Hcmd as <- <-; exact (K _ Hin)].
    destruct (cr_op r'); injection Hcmd as <- <-; [by apply elem_of_nil in Hin|exact (K _ Hin)].
  - apply elem_of_list_split in Ha' as (t1&t2&Et).
    destruct (event_found codec rops sops cops apps begin good older RP log H AG CF k _ H2 d' q' t1 cx ev o' t2 E' M' Sq' Et)
      as (K1&K2&K3&f&s1&s2&Hf&Hs&Hap).
    simpl in Hap. destruct (applied_swap _ _ _ _ _ Hap) as (sw&Hsw&_&->).
    destruct (ec_owned cx) eqn:Eo; [|by apply elem_of_nil in Hin]. apply elem_of_list_singleton in Hin.
    unfold response_command in Hin. injection Hin as -> Hin. apply (response_injective _ Hc) in Hin.
    exists (H1 ++ [(k, x)]), H2, k, (position (start_index q') (handed (raft_calls d'))), cx, ev, f, s1. rewrite <- Eid'. split_and!; try done.
    + rewrite app_length. simpl. lia.
    + by exists d', q'.
    + unfold logged. revert K3. unfold event_of_entry. destruct (re_data (log (ec_index cx))); [done|]. destruct (re_type _); [|done|];
      (destruct (dec_entry codec _) as [[[i|] cs]|]; try done); intros K; injection K as <- <-; done.
    + exists sw. done.
Qed.

Lemma recorded_applied (k : nat) st t cx ev out : called_as_recorded (counter_actor c) (st, t) -> AApply cx ev out ∈ t ->
  exists st1 st2, counter_apply c st1 cx ev = Ok (st2, out).
Proof using.
  intros (cx0&st0&Hi&Hm) Hin.
  assert (G : forall a b, rtc (app_move (counter_actor c)) a b ->
    (AApply cx ev out ∈ a.2 -> exists st1 st2, counter_apply c st1 cx ev = Ok (st2, out)) ->
    AApply cx ev out ∈ b.2 -> exists st1 st2, counter_apply c st1 cx ev = Ok (st2, out)).
  { induction 1 as [a|a b b' Hb _ IH]; intros H1 H2; [by apply H1|]. apply IH; [|done]. intros H3.
    inversion Hb; subst; simpl in *; apply elem_of_app in H3 as [H3|H3]; try (by apply H1); apply elem_of_list_singleton in H3; try done.
    injection H3 as -> -> ->. by eexists _, _. }
  eapply G; [exact Hm| |exact Hin]. simpl. intros H3. by apply elem_of_list_singleton in H3.
Qed.
Lemma one_command tr l cx1 m1 o1 cx2 m2 o2 : omap command_of tr = l -> (length l <= 1)%nat ->
  ACommand cx1 m1 o1 ∈ tr -> ACommand cx2 m2 o2 ∈ tr -> ACommand cx1 m1 o1 = ACommand cx2 m2 o2.
Proof using.
  intros <- Hl H1 H2. apply elem_of_list_split in H1 as (t1&t2&->). rewrite omap_app in Hl.
  change (omap command_of (ACommand cx1 m1 o1 :: t2)) with (m1 :: omap command_of t2) in Hl. rewrite app_length in Hl. cbn [length] in Hl.
  apply elem_of_app in H2 as [H2|H2]; [|apply elem_of_cons in H2 as [H2|H2]; [done|]]; exfalso.
  - assert (m2 ∈ omap command_of t1) as Hx by (apply elem_of_list_omap; by eexists). apply elem_of_list_lookup in Hx as [j Hx].
    apply lookup_lt_Some in Hx. lia.
  - assert (m2 ∈ omap command_of t2) as Hx by (apply elem_of_list_omap; by eexists). apply elem_of_list_lookup in Hx as [j Hx].
    apply lookup_lt_Some in Hx. lia.
Qed.
Lemma refused_not_proposed b id n r i ev : told c codec rops sops cops begin H b id n r -> crs_op r = None ->
  committed_event codec rops sops cops apps begin log H i ev -> origin i <> b.
Proof using AG Hc PO.
  intros (H1&k&x&H2&q&d&d'&out&E&El&Sq&Eid&M&Hr&Hout) Hop CE Eb.
  destruct (pi_source _ _ _ _ _ _ _ _ _ PO _ _ CE) as (H1'&k'&x'&H2'&d1&d2&calls&E2&El2&M1&M2&Er&Hp).
  rewrite E in E2. apply app_inj_1 in E2 as [<- E2]; [|lia]. injection E2 as <- <- <-.
  rewrite (member_unique _ _ _ _ _ _ _ _ _ _ M1 M) in *. clear M1 d1.
  pose proof M as (o&B).
  destruct (receive_call _ _ _ _ _ _ _ _ _ (born_inv _ _ _ _ _ _ _ _ _ _ _ B) Hr) as (rt&mt&tr&C).
  assert (M' : mem k (H1 ++ [(k, x)]) d').
  { exists (o ++ [out]). rewrite calls_of_app, calls_of_one. by eapply born_next. }
  rewrite (member_unique _ _ _ _ _ _ _ _ _ _ M2 M') in *. clear M2 d2.
  assert (calls = rt) as ->. { pose proof (call_raft _ _ _ _ _ _ _ _ _ _ C) as E2. rewrite Er in E2. by apply app_inv_head in E2. }
  destruct (proposed_by codec rops sops cops apps begin H k H1 x H2 d d' rt _ E M M' Er Hp) as (q'&_&_&_&_&_&_&Sq'&_).
  pose proof M' as (o'&B').
  destruct (life_request _ _ (born_life _ _ _ _ _ _ _ _ _ _ _ B') _ (proj1 Sq')) as (_&Eep&_). rewrite (proj2 Sq') in Eep.
  assert (Hp' : re_data (log i) ∈ omap proposal_of rt) by (apply elem_of_list_omap; by eexists).
  rewrite (call_proposals _ _ _ _ _ _ _ _ _ _ C Eep) in Hp'. apply elem_of_list_omap in Hp' as (a&Ha&Hpa).
  destruct a as [| |cx m co|]; try done. simpl in Hpa. destruct (co_event co) as [ev'|] eqn:Ev; [|done]. clear Hpa.
  destruct (recorded_now _ _ _ _ _ _ _ _ _ _ M' Sq') as (st&_&Hrec).
  assert (Hin : response_command c n r ∈ omap app_out out) by (apply elem_of_list_omap; by eexists).
  rewrite (call_outputs _ _ _ _ _ _ _ _ _ _ C) in Hin. apply elem_of_list_In, in_concat in Hin as (l&Hl&Hin).
  apply in_map_iff in Hl as (a2&<-&Ha2). apply elem_of_list_In in Ha2, Hin.
  destruct a2 as [| |cx2 m2 co2|cx2 ev2 o2]; simpl in Hin; try (by apply elem_of_nil in Hin).
  - assert (X : ACommand cx m co = ACommand cx2 m2 co2).
    { eapply one_command; [exact (call_commands _ _ _ _ _ _ _ _ _ _ C)| |done|done].
      destruct (decide _) as [_|_]; [|simpl; lia]. destruct x as [t [[[]|]|]]; simpl; lia. }
    injection X as <- <- <-.
    assert (Ha' : ACommand cx m co ∈ app_calls d') by (rewrite (call_app _ _ _ _ _ _ _ _ _ _ C); apply elem_of_app; by right).
    destruct (recorded_command apps k st (app_calls d') cx m co Hrec Ha') as (s1&s2&Hcmd).
    simpl in Hcmd. unfold counter_command in Hcmd.
    destruct m as [m|]; [|injection Hcmd as <- <-; done].
    destruct (dec_in c (ac_header m)) as [[r'|]|]; [|injection Hcmd as <- <-; done..].
    destruct (cx_leader cx); simpl in Hcmd; [|injection Hcmd as <- <-; done].
    destruct (cr_op r'); injection Hcmd as <- <-; [by apply elem_of_nil in Hin|done].
  - assert (Ha' : AApply cx2 ev2 o2 ∈ app_calls d') by (rewrite (call_app _ _ _ _ _ _ _ _ _ _ C); apply elem_of_app; by right).
    destruct (recorded_applied k st (app_calls d') cx2 ev2 o2 Hrec Ha') as (s1&s2&Hap).
    destruct (applied_swap _ _ _ _ _ Hap) as (sw&_&_&->).
    destruct (ec_owned cx2); [|by apply elem_of_nil in Hin]. apply elem_of_list_singleton in Hin.
    unfold response_command in Hin. injection Hin as _ Hin. apply (response_injective _ Hc) in Hin.
    rewrite Hin, response_of in Hop. by destruct (decide _) in Hop.
Qed.

Theorem counters_linearizable k0 q0 values : started_with k0 H q0 -> dec_config c (sr_config q0) = Some values ->
  linearizable c codec rops sops cops begin values H.
Proof using AG CF Hc Hd PO RP.
  intros Sq0 Hv. destruct (reach_top codec rops sops cops apps begin log H AG) as (top&Htop&Hex).
  assert (CE : forall i ev, 2 <= i -> i <= top -> logged codec log i = Some ev -> committed_event codec rops sops cops apps begin log H i ev).
  { intros i ev H1 H2 H3. split; [done|]. split; [done|]. destruct Hex as [Hx|[k Hk]]; [lia|]. by exists k, top. }
  assert (CI : forall n x, (n < N.to_nat (top - 1))%nat -> swap_at (N.of_nat n + 2) = Some x ->
    exists ev, committed_event codec rops sops cops apps begin log H (N.of_nat n + 2) ev /\ x.1 = origin (N.of_nat n + 2)).
  { intros n x Hn Hx. unfold swap_at in Hx. destruct (logged codec log (N.of_nat n + 2)) as [ev|] eqn:El; [|done]. simpl in Hx.
    exists ev. split; [apply CE; [lia|lia|done]|]. destruct (swap_of ev); [|done]. by injection Hx as <-. }
  exists (swaps (N.to_nat (top - 1))). split; [|split; [|split]].
  - apply NoDup_alt. intros j1 j2 a H1 H2. rewrite list_lookup_fmap in H1, H2.
    destruct (swaps _ !! j1) as [x1|] eqn:E1; [|done]. destruct (swaps _ !! j2) as [x2|] eqn:E2; [|done].
    simpl in H1, H2. injection H1 as H1. injection H2 as H2.
    apply swaps_inv in E1 as (n1&L1&S1&->). apply swaps_inv in E2 as (n2&L2&S2&->).
    destruct (CI _ _ L1 S1) as (ev1&C1&O1). destruct (CI _ _ L2 S2) as (ev2&C2&O2).
    assert (N.of_nat n1 + 2 = N.of_nat n2 + 2) by (eapply (pi_once _ _ _ _ _ _ _ _ _ PO); [done|done|congruence]).
    assert (n1 = n2) as -> by lia. done.
  - intros a s Hin. apply elem_of_list_lookup in Hin as [j Hj]. apply swaps_inv in Hj as (n&L&Sn&_).
    destruct (CI _ _ L Sn) as (ev&C1&O1). destruct (committed_origin _ _ C1) as (id&s'&Ha&Hs&_). simpl in O1. subst a.
    rewrite Hs in Sn. injection Sn as <-. by exists id, (ae_correlation ev).
  - intros b id n r op Ht Hop.
    destruct (told_event _ _ _ _ _ Ht Hop) as (H1&H2&k&j&cx&ev&first&st&E&El&Hre&Hj&Hi&Hlg&Hn&Hevt&Hown&Hf&Hs&sw&Hsw&->).
    destruct (reached_grows codec rops sops cops apps begin log H AG k H1 H2 j E Hre) as (j'&Hre'&Hjj).
    pose proof (Htop _ _ Hre') as Hjt. set (i := ec_index cx) in *.
    assert (Cev : committed_event codec rops sops cops apps begin log H i ev) by (apply CE; [done|lia|done]).
    destruct (committed_origin _ _ Cev) as (id0&s'&Ha&Hsa&Hall). rewrite Hall in Hevt. injection Hevt as Hcx.
    assert (id0 = id) as -> by (rewrite <- Hcx in Hown; simpl in Hown; by apply N.eqb_eq).
    assert (sw = s') as ->. { unfold swap_at in Hsa. rewrite Hlg in Hsa. simpl in Hsa. rewrite Hsw in Hsa. by injection Hsa as <-. }
    assert (Ei : N.of_nat (N.to_nat (i - 2)) + 2 = i) by lia.
    assert (Hlt : (N.to_nat (i - 2) < N.to_nat (top - 1))%nat) by lia.
    exists (length (swaps (N.to_nat (i - 2)))), (origin i), s', (spec_step (current st) s').2. split_and!.
    + apply swaps_lookup; [done|]. by rewrite Ei.
    + by rewrite <- Hn.
    + destruct (decide (origin i <= b)%nat) as [|Hgt]; [done|]. exfalso.
      pose proof (pi_order _ _ _ _ _ _ _ _ _ PO i ev H1 H2 k j Cev E ltac:(lia) Hre). lia.
    + destruct (swaps_grow (S (N.to_nat (i - 2))) (N.to_nat (top - 1)) Hlt) as [l ->]. cbn [swaps]. rewrite Ei, Hsa. simpl.
      rewrite !map_app. simpl. destruct (spec_run_grow (configured values) (map snd (swaps (N.to_nat (i - 2))) ++ [s']) (map snd l)) as [l2 ->].
      rewrite spec_run_snoc.
      pose proof (registers_at _ _ _ Hs) as Hreg. replace (i - 1 - 1) with (i - 2) in Hreg by lia.
      destruct (spec_run_ext (map snd (swaps (N.to_nat (i - 2)))) (current first) (configured values)) as [_ Hx].
      { by eapply first_registers. }
      pose proof (spec_run_length (configured values) (map snd (swaps (N.to_nat (i - 2))))) as Hlen.
      destruct (spec_run (configured values) (map snd (swaps (N.to_nat (i - 2))))) as [m rr]. simpl in Hx, Hlen.
      destruct (spec_step_ext (current st) m s') as [Ea _]; [intros nm; by rewrite Hreg, Hx|]. rewrite Ea.
      destruct (spec_step m s') as [m2 a2]. simpl. rewrite lookup_app_l by (rewrite app_length; simpl; rewrite Hlen, map_length; lia).
      rewrite lookup_app_r by (rewrite Hlen, map_length; lia). rewrite Hlen, map_length, Nat.sub_diag. done.
    + apply step_refines.
    + intros jj a' s2 Hjj2 Hba. apply swaps_inv in Hjj2 as (n2&L2&S2&->). destruct (CI _ _ L2 S2) as (ev2&C2&O2). simpl in O2.
      pose proof (pi_order _ _ _ _ _ _ _ _ _ PO (N.of_nat n2 + 2) ev2 H1 H2 k j C2 E ltac:(lia) Hre).
      apply swaps_order; [lia|]. by rewrite Ei, Hsa.
  - intros b id n r Ht Hop Hin. apply elem_of_list_fmap in Hin as ([a s]&->&Hin). simpl in *.
    apply elem_of_list_lookup in Hin as [j Hj]. apply swaps_inv in Hj as (m&L&Sn&_).
    destruct (CI _ _ L Sn) as (ev&C1&O1). simpl in O1. by eapply refused_not_proposed.
Qed.
End Counters.
