(** Proofs about clusters. *)
From Verif Require Import Base StorageModel SnapshotModel CommModel ActorModel DriverModel DriverSpec DriverProofs DriverTheorems ClusterSpec.

Section Proofs.
Context {RS SP CS ST REQ RESP : Type}.
Variable codec : driver_codec.
Variable rops : raft_ops RS.
Variable sops : snap_ops SP.
Variable cops : comm_ops CS REQ RESP.
Variable apps : nat -> actor ST.
Variable begin : nat -> RS * SP * CS.
Notation events := (list (nat * delivery REQ RESP)).
Notation rlog := (N -> rentry).
Notation mem := (member codec rops sops cops apps begin).
Notation sat := (state_at codec apps).
Implicit Types (d : rdriver RS SP CS ST REQ RESP) (H : events) (log : rlog).

(** ** The log *)
Lemma next_length log pos n : length (next_entries log pos n) = n.
Proof using. unfold next_entries. by rewrite map_length, seq_length. Qed.
Lemma next_S log pos n : next_entries log pos (S n) = log (pos + 1) :: next_entries log (pos + 1) n.
Proof using.
  unfold next_entries. simpl. f_equal; [f_equal; lia|]. rewrite <- seq_shift, map_map. apply map_ext. intros j. f_equal. lia.
Qed.
Lemma next_sorted log pos n : (forall i, re_index (log i) = i) ->
  StronglySorted (fun a b => re_index a <= re_index b) (next_entries log pos n) /\
  Forall (fun e => pos < re_index e) (next_entries log pos n).
Proof using.
  intros Hi. revert pos. induction n as [|n IH]; intros pos; [split; constructor|].
  rewrite next_S. destruct (IH (pos + 1)) as [H1 H2]. split.
  - constructor; [done|]. eapply Forall_impl; [exact H2|]. intros e He. simpl in *. rewrite Hi. lia.
  - constructor; [rewrite Hi; lia|]. eapply Forall_impl; [exact H2|]. intros e He. simpl in *. lia.
Qed.
Lemma next_member log pos n e : e ∈ next_entries log pos n -> exists i, e = log i.
Proof using. unfold next_entries. intros (j&->&_)%elem_of_list_fmap. by eexists. Qed.
Lemma sorted_next log pos n l : (forall i, re_index (log i) = i) ->
  l ≡ₚ next_entries log pos n -> StronglySorted (fun a b => re_index a <= re_index b) l -> l = next_entries log pos n.
Proof using.
  intros Hi. revert pos l. induction n as [|n IH]; intros pos l Hp Hs.
  { by apply Permutation_nil_r in Hp. }
  destruct (next_sorted log pos (S n) Hi) as [_ Hf]. pose proof (Permutation_length Hp) as Hlen. rewrite next_length in Hlen.
  destruct l as [|e l]; [done|].
  assert (He : e ∈ next_entries log pos (S n)) by (rewrite <- Hp; by left).
  assert (Ee : e = log (pos + 1)).
  { rewrite Forall_forall in Hf. specialize (Hf _ He). destruct (next_member _ _ _ _ He) as [i ->]. rewrite Hi in Hf.
    assert (Hle : re_index (log i) <= re_index (log (pos + 1))).
    { assert (Hin : log (pos + 1) ∈ log i :: l) by (rewrite Hp, next_S; by left).
      apply elem_of_cons in Hin as [->|Hin]; [done|]. inversion Hs as [|? ? ? Hall]; subst. rewrite Forall_forall in Hall. by apply Hall. }
    rewrite !Hi in Hle. f_equal. lia. }
  rewrite next_S in *. subst e. f_equal. apply IH; [by apply (Permutation_cons_inv (a := log (pos + 1)))|]. by inversion Hs.
Qed.
Lemma max_next log pos n : (forall i, re_index (log i) = i) ->
  foldr (fun e p => N.max (re_index e) p) pos (next_entries log pos n) = pos + N.of_nat n.
Proof using.
  intros Hi. assert (G : forall n q, pos <= q -> foldr (fun e p => N.max (re_index e) p) pos (next_entries log q n) = match n with O => pos | _ => q + N.of_nat n end).
  { intros n0; induction n0 as [|m IH]; intros q Hq; [done|]. rewrite next_S. cbn [foldr]. rewrite IH by lia. rewrite Hi. destruct m; lia. }
  rewrite G by lia. destruct n; lia.
Qed.
Lemma max_perm pos l l' : l ≡ₚ l' ->
  foldr (fun e p => N.max (re_index e) p) pos l = foldr (fun e p => N.max (re_index e) p) pos l'.
Proof using. induction 1; simpl; lia. Qed.
Lemma of_log_in_order log os : (forall i, re_index (log i) = i) -> forall pos, of_log log pos os -> in_order_from pos os.
Proof using.
  intros Hi. induction os as [|[s|es] os IH]; intros pos H; [done| |].
  - destruct H as (H1&H2&H3). split; [done|]. by apply IH.
  - destruct H as (_&H2&H3). cbn [in_order_from].
    destruct (next_sorted log pos (length es) Hi) as [Hs Hf].
    split; [|split].
    + rewrite H2. unfold next_entries. rewrite map_map. rewrite (map_ext _ (fun j => pos + 1 + N.of_nat j)) by (intros; apply Hi).
      apply NoDup_fmap_2_strong; [|apply NoDup_seq]. intros x y _ _ E. lia.
    + by rewrite H2.
    + rewrite (max_perm _ _ _ H2), max_next by done. by apply IH.
Qed.

(** ** What the application goes through *)
(** The calls of the log only. *)
Inductive lran (k : nat) : ST -> list (bytes + event_context * actor_event) -> ST -> Prop :=
| lran_nil st : lran k st [] st
| lran_load st data st1 l st' : a_load (apps k) st data = Ok st1 -> lran k st1 l st' -> lran k st (inl data :: l) st'
| lran_event st cx ev st1 out l st' : a_apply (apps k) st cx ev = Ok (st1, out) -> lran k st1 l st' -> lran k st (inr (cx, ev) :: l) st'.
Lemma lran_app k st l1 l2 st' : lran k st (l1 ++ l2) st' <-> exists st1, lran k st l1 st1 /\ lran k st1 l2 st'.
Proof using.
  revert st. induction l1 as [|i l1 IH]; intros st; simpl.
  - split; [intros Hl; exists st; split; [constructor|done]|]. intros (st1&H1&H2). by inversion H1; subst.
  - split.
    + intros Hl. inversion Hl as [|? ? ? ? ? ? Hr|? ? ? ? ? ? ? ? Hr]; subst;
        apply IH in Hr as (st2&Hr1&Hr2); exists st2; split; [by econstructor|done|by econstructor|done].
    + intros (st1&H1&H2). inversion H1; subst; econstructor; try done; apply IH; by eexists.
Qed.

Variable good : ST -> Prop.
Variable older : ST -> ST -> Prop.
Hypothesis RP : replicated apps good older.

Lemma recorded_lran k st t : called_as_recorded (apps k) (st, t) ->
  exists cx st0, head t = Some (AInit cx) /\ a_init (apps k) cx = Ok st0 /\ lran k st0 (omap from_log t) st.
Proof using RP.
  intros (cx&st0&Hi&Hm). exists cx, st0.
  assert (G : forall a b, rtc (app_move (apps k)) a b -> exists l, b.2 = a.2 ++ l /\ lran k a.1 (omap from_log l) b.1).
  { induction 1 as [a|a b c Hb _ (l&El&Hl)].
    - exists []. rewrite app_nil_r. split; [done|constructor].
    - inversion Hb; subst; simpl in *.
      + exists (ALoad data :: l). rewrite El, <- (assoc_L app). split; [done|]. by econstructor.
      + exists (ACommand cx0 m out :: l). rewrite El, <- (assoc_L app). split; [done|].
        match goal with Hc : a_command _ _ _ _ = _ |- _ => apply (rp_command _ _ _ RP) in Hc; subst end. done.
      + exists (AApply cx0 ev out :: l). rewrite El, <- (assoc_L app). split; [done|]. by econstructor. }
  apply G in Hm as (l&El&Hl). simpl in *. subst t. by split_and!.
Qed.

(** ** The state the log defines *)
Lemma sat_pos log first i st : sat log first i st -> 1 <= i.
Proof using. induction 1; lia. Qed.
Lemma sat_unique log first i st1 st2 : sat log first i st1 -> sat log first i st2 -> st1 = st2.
Proof using RP.
  intros H1. revert st2. induction H1 as [|i st H1 IH Hn|i st k owned ev st' out H1 IH Hl Ha]; intros st2 H2.
  - inversion H2 as [|j ? Hj ? E|j ? ? ? ? ? ? Hj ? ? E]; subst; [done| |]; apply sat_pos in Hj; lia.
  - pose proof (sat_pos _ _ _ _ H1). inversion H2 as [E|j ? Hj ? E|j ? ? ? ? ? ? Hj ? ? E]; subst; [lia| |];
      assert (j = i) as -> by lia; [by apply IH|congruence].
  - pose proof (sat_pos _ _ _ _ H1). inversion H2 as [E|j ? Hj ? E|j ? ? ? ev2 ? ? Hj Hl2 ? E]; subst; [lia| |];
      assert (j = i) as -> by lia; [congruence|].
    rewrite Hl in Hl2. injection Hl2 as <-. rewrite <- (IH _ Hj) in *. by eapply (rp_event _ _ _ RP).
Qed.
Lemma sat_good log first i st : good first -> sat log first i st -> good st.
Proof using RP. intros Hg. induction 1; [done..|]. by eapply (rp_good_event _ _ _ RP). Qed.
Lemma sat_older log first i st old : older old first -> sat log first i st -> older old st.
Proof using RP. intros Hg. induction 1; [done..|]. by eapply (rp_older_event _ _ _ RP). Qed.
Lemma sat_older_at log first i j st old : sat log first i old -> sat log first j st -> i <= j -> older old st.
Proof using RP.
  intros Hi. induction 1 as [|j st H1 IH Hn|j st k owned ev st' out H1 IH Hl Ha]; intros Hle.
  - pose proof (sat_pos _ _ _ _ Hi). assert (i = 1) as -> by lia. rewrite (sat_unique _ _ _ _ _ Hi (at_first _ _ _ _)).
    apply (rp_older_same _ _ _ RP).
  - destruct (decide (i = j + 1)) as [->|]; [|apply IH; lia].
    rewrite (sat_unique _ _ _ _ _ Hi (at_nothing _ _ _ _ _ _ H1 Hn)). apply (rp_older_same _ _ _ RP).
  - destruct (decide (i = j + 1)) as [->|].
    + rewrite (sat_unique _ _ _ _ _ Hi (at_event _ _ _ _ _ _ _ _ _ _ _ H1 Hl Ha)). apply (rp_older_same _ _ _ RP).
    + eapply (rp_older_event _ _ _ RP); [|exact Ha]. apply IH. lia.
Qed.

(** Where a member is: before the log, or at the state the log defines. *)
Definition placed log (isfirst : ST -> Prop) (pos : N) (st : ST) : Prop :=
  (pos = 0 /\ forall first, isfirst first -> older st first) \/
  (exists first, isfirst first /\ sat log first pos st).
Definition saved log (isfirst : ST -> Prop) (s : snapshot) : Prop :=
  exists first k st, isfirst first /\ sat log first (sn_index s) st /\ a_save (apps k) st = Ok (sn_data s).

Lemma logged_of log id i : event_of_entry codec id (log i) =
  (fun ev => (EventContext (re_index (log i)) (match event_of_entry codec id (log i) with Some (cx, _) => ec_owned cx | None => false end), ev)) <$> logged codec log i.
Proof using.
  unfold logged, event_of_entry. destruct (re_data (log i)) as [|b data]; [done|].
  destruct (re_type (log i)); try done; destruct (dec_entry codec (b :: data)) as [[[j|] contents]|]; done.
Qed.
Lemma replay_next log id first k n : (forall i, re_index (log i) = i) -> forall pos st st',
  lran k st (map inr (omap (event_of_entry codec id) (next_entries log pos n))) st' ->
  sat log first pos st -> sat log first (pos + N.of_nat n) st'.
Proof using.
  intros Hi. induction n as [|n IH]; intros pos st st' Hl Hs.
  - inversion Hl; subst. by replace (pos + N.of_nat 0) with pos by lia.
  - rewrite next_S in Hl. cbn [omap list_omap] in Hl. rewrite (logged_of log id) in Hl.
    replace (pos + N.of_nat (S n)) with (pos + 1 + N.of_nat n) by lia.
    destruct (logged codec log (pos + 1)) as [ev|] eqn:El; cbn [fmap option_fmap option_map map] in Hl.
    + inversion Hl; subst. rewrite Hi in *. eapply IH; [done|]. by eapply at_event.
    + eapply IH; [exact Hl|]. by apply at_nothing.
Qed.

Lemma replay log (isfirst : ST -> Prop) id k os l : (forall i, re_index (log i) = i) ->
  (forall f1 f2, isfirst f1 -> isfirst f2 -> f1 = f2) -> (forall f, isfirst f -> good f) ->
  hands_over codec id os l -> forall pos st st', lran k st l st' -> of_log log pos os ->
  (forall s, inl s ∈ os -> saved log isfirst s) ->
  placed log isfirst pos st -> placed log isfirst (position pos os) st'.
Proof using RP.
  intros Hi Hu Hg. induction 1 as [|s os l Ho IH|es sorted os l Hp Hs Ho IH]; intros pos st st' Hl Hlog Hsv P.
  - by inversion Hl; subst.
  - inversion Hl; subst. destruct Hlog as (Hle&H1&Hlog).
    match goal with HL : a_load _ _ _ = _ |- _ => rename HL into Hld end.
    match goal with HL : lran _ _ l _ |- _ => rename HL into Hrest end.
    cbn [position]. eapply IH; [exact Hrest|exact Hlog|intros s' Hs'; apply Hsv; by right|].
    destruct (Hsv s) as (first&k'&sts&Hf&Hst&Hsave); [by left|].
    right. exists first. split; [done|].
    assert (Hold : older st sts).
    { destruct P as [[-> Hold]|(f2&Hf2&Hsat)].
      - eapply sat_older; [by apply Hold|done].
      - rewrite (Hu _ _ Hf2 Hf) in Hsat. by eapply sat_older_at. }
    match type of Hld with _ = Ok ?s2 => assert (E : s2 = sts) end.
    { eapply (rp_load _ _ _ RP); [|exact Hold|exact Hsave|exact Hld]. eapply sat_good; [by apply Hg|done]. }
    by rewrite E.
  - destruct Hlog as (Hne&Hperm&Hlog). cbn [position]. rewrite (max_perm _ _ _ Hperm), max_next by done.
    apply lran_app in Hl as (st1&Hl1&Hl2).
    assert (E : sorted = next_entries log pos (length es)).
    { apply sorted_next; [done| |done]. by rewrite Hp. }
    eapply IH; [exact Hl2|exact Hlog|intros s' Hs'; apply Hsv; by right|].
    destruct P as [[-> Hold]|(f2&Hf2&Hsat)].
    + destruct Hne as [->|]; [|lia]. rewrite E in Hl1. simpl in Hl1. inversion Hl1; subst. by left.
    + right. exists f2. split; [done|]. rewrite E in Hl1. by eapply replay_next.
Qed.

(** ** One member *)
Lemma member_unique k H d1 d2 : mem k H d1 -> mem k H d2 -> d1 = d2.
Proof using. intros (o1&_&H1) (o2&_&H2). congruence. Qed.
Lemma calls_of_app k H1 H2 : calls_of k (H1 ++ H2) = calls_of k H1 ++ calls_of k H2.
Proof using. unfold calls_of. apply omap_app. Qed.
Lemma calls_of_one k x : calls_of k [(k, x)] = [x : delivery REQ RESP].
Proof using. unfold calls_of. simpl. by rewrite decide_True. Qed.
Lemma calls_of_other k k' x : k' <> k -> calls_of k [(k', x)] = ([] : list (delivery REQ RESP)).
Proof using. intros Hn. unfold calls_of. simpl. by rewrite decide_False. Qed.
Lemma member_prefix k H1 H2 d : mem k (H1 ++ H2) d -> exists d1, mem k H1 d1.
Proof using.
  intros (o&Hr&Hm). rewrite calls_of_app in Hm. apply run_app_split in Hm as (d1&o1&o2&Hm&_). by exists d1, o1.
Qed.
Lemma started_prefix k H1 H2 q : started_with k H1 q -> started_with k (H1 ++ H2) q.
Proof using.
  intros ((t&Ht)&He). split; [|done]. exists t. rewrite calls_of_app. apply elem_of_app. by left.
Qed.
Lemma step_extends k H x d d' : mem k H d -> mem k (H ++ [(k, x)]) d' ->
  exists out rt tr, receive codec rops sops cops (apps k) d x = Ok (d', out) /\
    raft_calls d' = raft_calls d ++ rt /\ app_calls d' = app_calls d ++ tr.
Proof using.
  intros (o&B) (o'&B'). rewrite calls_of_app, calls_of_one in B'. apply born_snoc in B' as (d1&o1&out&B1&Hr&->).
  assert (d1 = d) as -> by (destruct B, B1; congruence).
  destruct (receive_call _ _ _ _ _ _ _ _ _ (born_inv _ _ _ _ _ _ _ _ _ _ _ B) Hr) as (rt&mt&tr&C).
  exists out, rt, tr. split_and!; [done|by apply C|by apply C].
Qed.
Lemma step_other k k' H x d d' : k' <> k -> mem k H d -> mem k (H ++ [(k', x)]) d' -> d' = d.
Proof using.
  intros Hn (o&_&B) (o'&_&B'). rewrite calls_of_app, calls_of_other, app_nil_r in B' by done. congruence.
Qed.
Lemma delivered_start (xs : list (delivery REQ RESP)) :
  (exists q, delivered (HStart q) xs) \/ (forall q, ~ delivered (HStart q) xs).
Proof using.
  induction xs as [|[t m] xs [[q [t' Hq]]|Hno]].
  - right. intros q [t Ht]. by apply elem_of_nil in Ht.
  - left. exists q, t'. by right.
  - destruct m as [[[q| | | | | | | | |]|]|];
      try (right; intros q' [t' Ht]; apply elem_of_cons in Ht as [Ht|Ht]; [done|by apply (Hno q'); exists t']).
    left. exists q, t. by left.
Qed.
(** How a member starts. *)
Lemma started_facts k H d q : mem k H d -> started_with k H q ->
  exists cx st data, head (app_calls d) = Some (AInit cx) /\ cx_config cx = sr_config q /\ a_init (apps k) cx = Ok st /\
    a_save (apps k) st = Ok data /\ head (raft_calls d) = Some (KInit (sr_id q) (sr_leader q) data).
Proof using.
  intros (o&B) (Hd&He). revert d o B Hd. generalize (calls_of k H). intros xs.
  induction xs as [|x xs IH] using rev_ind; intros d o B Hd.
  { destruct Hd as [t Ht]. by apply elem_of_nil in Ht. }
  apply born_snoc in B as (d1&o1&out&B&Hr&->). destruct Hd as [t Ht]. apply elem_of_app in Ht as [Ht|Ht].
  - destruct (IH _ _ B) as (cx&st&data&Ha&Hc&Hi&Hs&Hk); [by exists t|].
    destruct (receive_call _ _ _ _ _ _ _ _ _ (born_inv _ _ _ _ _ _ _ _ _ _ _ B) Hr) as (rt&mt&tr&C).
    exists cx, st, data. rewrite (call_app _ _ _ _ _ _ _ _ _ _ C), (call_raft _ _ _ _ _ _ _ _ _ _ C).
    destruct (app_calls d1); [done|]. destruct (raft_calls d1); [done|]. by split_and!.
  - apply elem_of_list_singleton in Ht as <-.
    destruct (C67_initialisation _ _ _ _ _ _ _ _ _ _ _ _ _ _ _ B Hr) as (cx&st&Ha&_&Hc&_&Hi&Hk).
    rewrite He in Hk. destruct Hk as (data&Hs&Hk). exists cx, st, data. by split_and!.
Qed.

(** ** The cluster *)
Section Cluster.
Variable log : rlog.
Variable H : events.
Hypothesis AG : agrees codec rops sops cops apps begin log H.
Hypothesis CF : one_configuration H.
Notation isfirst := (first_state codec rops sops cops apps begin H).

Lemma first_unique f1 f2 : isfirst f1 -> isfirst f2 -> f1 = f2.
Proof using AG.
  intros (k1&q1&d1&cx1&S1&L1&M1&A1&I1) (k2&q2&d2&cx2&S2&L2&M2&A2&I2).
  assert (k1 = k2) as -> by by eapply (ag_leader _ _ _ _ _ _ _ _ AG).
  rewrite (member_unique _ _ _ _ M1 M2) in A1. congruence.
Qed.
Lemma first_good f : isfirst f -> good f.
Proof using RP. intros (k&q&d&cx&_&_&_&_&Hi). by eapply (rp_good_init _ _ _ RP). Qed.

Lemma prefix_member k H1 H2 : H = H1 ++ H2 -> exists d, mem k H1 d.
Proof using AG. intros E. destruct (ag_runs _ _ _ _ _ _ _ _ AG k) as [d Hd]. rewrite E in Hd. by eapply member_prefix. Qed.
Lemma extends k H1 H2 d d' : mem k H1 d -> mem k (H1 ++ H2) d' ->
  exists rt tr, raft_calls d' = raft_calls d ++ rt /\ app_calls d' = app_calls d ++ tr.
Proof using.
  revert d'. induction H2 as [|[k' x] H2 IH] using rev_ind; intros d' M M'.
  - rewrite app_nil_r in M'. rewrite (member_unique _ _ _ _ M M'). exists [], []. by rewrite !app_nil_r.
  - rewrite (assoc_L app) in M'. destruct (member_prefix _ _ _ _ M') as [d1 M1].
    destruct (IH _ M M1) as (rt&tr&E1&E2).
    destruct (decide (k' = k)) as [->|Hn].
    + destruct (step_extends _ _ _ _ _ M1 M') as (out&rt'&tr'&_&E3&E4). exists (rt ++ rt'), (tr ++ tr').
      rewrite E3, E4, E1, E2. by rewrite !(assoc_L app).
    + rewrite (step_other _ _ _ _ _ _ Hn M1 M'). by exists rt, tr.
Qed.
Lemma handed_app t1 t2 : handed (t1 ++ t2) = handed t1 ++ handed t2.
Proof using. unfold handed. by rewrite map_app, concat_app. Qed.
Lemma of_log_prefix os1 os2 : forall pos, of_log log pos (os1 ++ os2) -> of_log log pos os1.
Proof using.
  induction os1 as [|[s|es] os1 IH]; intros pos Ho; [done| |].
  - destruct Ho as (H1&H2&H3). split_and!; [done..|]. by apply IH.
  - destruct Ho as (H1&H2&H3). split_and!; [done..|]. by apply IH.
Qed.
Lemma log_prefix k H1 H2 d q : H = H1 ++ H2 -> mem k H1 d -> started_with k H1 q ->
  of_log log (start_index q) (handed (raft_calls d)).
Proof using AG.
  intros E M S. destruct (prefix_member k H [] ) as [d' M']; [by rewrite app_nil_r|].
  pose proof M' as M2. rewrite E in M2. destruct (extends _ _ _ _ _ M M2) as (rt&tr&E1&_).
  apply (of_log_prefix _ (handed rt)). rewrite <- handed_app, <- E1. eapply (ag_log _ _ _ _ _ _ _ _ AG); [done|].
  rewrite E. by apply started_prefix.
Qed.
(** A snapshot handed over was created before. *)
Lemma handed_created k H1 : forall H2 d s, H = H1 ++ H2 -> mem k H1 d -> inl s ∈ handed (raft_calls d) ->
  exists H0 H3, H1 = H0 ++ H3 /\ H3 <> [] /\ created codec rops sops cops apps begin H0 s.
Proof using AG.
  induction H1 as [|[k' x] H1 IH] using rev_ind; intros H2 d s E M Hs.
  - destruct M as (o&_&M). injection M as <- <-. by apply elem_of_nil in Hs.
  - destruct (member_prefix _ _ _ _ M) as [d1 M1].
    assert (E' : H = H1 ++ (k', x) :: H2) by by rewrite E, <- (assoc_L app).
    destruct (decide (k' = k)) as [->|Hn].
    + destruct (step_extends _ _ _ _ _ M1 M) as (out&rt&tr&_&E1&_). rewrite E1, handed_app in Hs.
      apply elem_of_app in Hs as [Hs|Hs].
      * destruct (IH _ _ _ E' M1 Hs) as (H0&H3&->&Hne&Hc). exists H0, (H3 ++ [(k, x)]). rewrite (assoc_L app).
        split_and!; [done|by destruct H3|done].
      * exists H1, [(k, x)]. split_and!; [done..|]. by eapply (ag_snapshots _ _ _ _ _ _ _ _ AG).
    + rewrite (step_other _ _ _ _ _ _ Hn M1 M) in Hs.
      destruct (IH _ _ _ E' M1 Hs) as (H0&H3&->&Hne&Hc). exists H0, (H3 ++ [(k', x)]). rewrite (assoc_L app).
      split_and!; [done|by destruct H3|done].
Qed.

(** A member whose snapshots are fine is where the log says. *)
Lemma member_placed k H1 H2 d q st : H = H1 ++ H2 -> mem k H1 d -> started_with k H1 q ->
  called_as_recorded (apps k) (st, app_calls d) ->
  (forall s, inl s ∈ handed (raft_calls d) -> saved log isfirst s) ->
  placed log isfirst (position (start_index q) (handed (raft_calls d))) st.
Proof using AG CF RP.
  intros E M S Hc Hs. destruct (recorded_lran _ _ _ Hc) as (cx&st0&Hh&Hi&Hl).
  destruct (started_facts _ _ _ _ M S) as (cx'&st0'&data&Hh'&Hcf&Hi'&Hsv&Hk).
  rewrite Hh in Hh'. injection Hh' as <-. rewrite Hi in Hi'. injection Hi' as <-.
  destruct M as (o&B). destruct S as (Hd&He).
  eapply replay; [apply (ag_index _ _ _ _ _ _ _ _ AG)|apply first_unique|apply first_good|
    eapply C22_events_of_the_log; [exact B|exact Hd|exact He]|exact Hl| |exact Hs|].
  - eapply log_prefix; [exact E|by exists o|done].
  - unfold start_index. destruct (sr_leader q) eqn:El.
    + right. exists st0. split; [|constructor].
      destruct (prefix_member k H []) as [dH MH]; [by rewrite app_nil_r|].
      pose proof MH as M2. rewrite E in M2. destruct (extends k H1 H2 d dH) as (rt&tr&_&Ea); [by exists o|done|].
      exists k, q, dH, cx. split_and!; try done.
      * rewrite E. by apply started_prefix.
      * rewrite Ea. by destruct (app_calls d).
    + left. split; [done|]. intros f (k2&q2&d2&cx2&S2&L2&M2&A2&I2).
      eapply (rp_older_init _ _ _ RP); [|exact Hi|exact I2].
      destruct (started_facts _ _ _ _ M2 S2) as (cx2'&_&_&A2'&C2&_). rewrite A2 in A2'. injection A2' as <-.
      rewrite Hcf, C2. eapply CF; [|exact S2]. rewrite E. by apply started_prefix.
Qed.

Lemma recorded_now k H1 d q : mem k H1 d -> started_with k H1 q -> exists st, d_actor d = Some (st, app_calls d) /\
  called_as_recorded (apps k) (st, app_calls d).
Proof using.
  intros (o&B) (Hd&He). destruct (life_request _ _ (born_life _ _ _ _ _ _ _ _ _ _ _ B) _ Hd) as (_&_&Ha&_).
  destruct (d_actor d) as [[st t]|] eqn:Ea; [|done]. exists st.
  assert (Et : app_calls d = t) by (unfold app_calls; by rewrite Ea). rewrite Et. split; [done|].
  by apply (hist_actor _ _ _ _ (born_history _ _ _ _ _ _ _ _ _ _ _ B)).
Qed.

(** What was created is a saved state of the log, if members are where the log
    says. *)
Lemma save_step k H1 : forall H2 d i conf data, H = H1 ++ H2 -> mem k H1 d -> KSave i conf data ∈ raft_calls d ->
  (exists q, started_with k H1 q) /\
  exists H0 H3 d0 q st, H1 = H0 ++ H3 /\ mem k H0 d0 /\ started_with k H0 q /\
    i = position (start_index q) (handed (raft_calls d0)) /\ called_as_recorded (apps k) (st, app_calls d0) /\
    a_save (apps k) st = Ok data.
Proof using AG.
  induction H1 as [|[k' x] H1 IH] using rev_ind; intros H2 d i conf data E M Hs.
  - destruct M as (o&_&M). injection M as <- <-. by apply elem_of_nil in Hs.
  - destruct (member_prefix _ _ _ _ M) as [d1 M1].
    assert (E' : H = H1 ++ (k', x) :: H2) by by rewrite E, <- (assoc_L app).
    assert (Old : KSave i conf data ∈ raft_calls d1 ->
      (exists q, started_with k (H1 ++ [(k', x)]) q) /\
      exists H0 H3 d0 q st, H1 ++ [(k', x)] = H0 ++ H3 /\ mem k H0 d0 /\ started_with k H0 q /\
      i = position (start_index q) (handed (raft_calls d0)) /\ called_as_recorded (apps k) (st, app_calls d0) /\
      a_save (apps k) st = Ok data).
    { intros Hin. destruct (IH _ _ _ _ _ E' M1 Hin) as ([q0 S0]&H0&H3&d0&q&st&->&M0&S&Hi&Hc&Hv).
      split; [exists q0; by apply started_prefix|].
      exists H0, (H3 ++ [(k', x)]), d0, q, st. rewrite (assoc_L app). by split_and!. }
    destruct (decide (k' = k)) as [->|Hn]; [|rewrite (step_other _ _ _ _ _ _ Hn M1 M) in Hs; by apply Old].
    destruct (step_extends _ _ _ _ _ M1 M) as (out&rt&tr&Hr&E1&_). pose proof Hs as Hs0. rewrite E1 in Hs.
    apply elem_of_app in Hs as [Hs|Hs]; [by apply Old|].
    pose proof M as (o&B). pose proof (born_life _ _ _ _ _ _ _ _ _ _ _ B) as L.
    pose proof (born_inv _ _ _ _ _ _ _ _ _ _ _ B) as I.
    assert (Hq : exists q, started_with k (H1 ++ [(k, x)]) q).
    { assert (Ha : d_actor d <> None).
      { intros Ha. destruct (core_absent _ _ (inv_core _ _ I) Ha) as (_&Hr'&_). rewrite Hr' in Hs0. by apply elem_of_nil in Hs0. }
      destruct (delivered_start (calls_of k (H1 ++ [(k, x)]))) as [[q Hd]|Hno].
      - exists q. split; [done|]. destruct (sr_ephemeral q) eqn:Ee; [|done].
        destruct (life_request _ _ L _ Hd) as (_&_&_&Hr'). rewrite Ee in Hr'. rewrite Hr' in Hs0. by apply elem_of_nil in Hs0.
      - by rewrite (life_none _ _ L Hno) in Ha. }
    split; [done|]. destruct Hq as [q S]. destruct M1 as (o1&B1). destruct S as (Hd&He).
    pose proof Hd as Hd'. rewrite calls_of_app, calls_of_one in Hd'.
    destruct (C65_snapshots _ _ _ _ _ _ _ _ _ _ _ _ _ _ _ B1 Hr Hd' He) as (rt'&E2&Hall).
    { apply (of_log_in_order log); [apply (ag_index _ _ _ _ _ _ _ _ AG)|]. eapply log_prefix; [exact E|exact M|by split]. }
    assert (rt' = rt) as -> by (rewrite E1 in E2; by apply app_inv_head in E2).
    destruct (Hall _ _ _ Hs) as (Hi&_&st&Hc&Hv&_).
    exists (H1 ++ [(k, x)]), [], d, q, st. rewrite app_nil_r. by split_and!.
Qed.

Lemma created_saved H1 H2 s : H = H1 ++ H2 -> 1 <= sn_index s -> created codec rops sops cops apps begin H1 s ->
  (forall H0 H3 k d q st, H1 = H0 ++ H3 -> mem k H0 d -> started_with k H0 q -> called_as_recorded (apps k) (st, app_calls d) ->
     placed log isfirst (position (start_index q) (handed (raft_calls d))) st) ->
  saved log isfirst s.
Proof using AG RP.
  intros E H1s (k&d&M&[[conf Hs]|[Hi [id Hk]]]) Hpl.
  - destruct (save_step _ _ _ _ _ _ _ E M Hs) as (_&H0&H3&d0&q&st&E0&M0&S0&Hi&Hc&Hv).
    specialize (Hpl _ _ _ _ _ _ E0 M0 S0 Hc). rewrite <- Hi in Hpl. destruct Hpl as [[Hz _]|(f&Hf&Hsat)]; [lia|].
    by exists f, k, st.
  - pose proof M as (o&B). pose proof (born_life _ _ _ _ _ _ _ _ _ _ _ B) as L.
    pose proof (born_inv _ _ _ _ _ _ _ _ _ _ _ B) as I.
    assert (Hne : raft_calls d <> []) by (intros Hr; by rewrite Hr in Hk).
    assert (Hq : exists q, started_with k H1 q).
    { assert (Ha : d_actor d <> None).
      { intros Ha. by destruct (core_absent _ _ (inv_core _ _ I) Ha) as (_&Hr'&_). }
      destruct (delivered_start (calls_of k H1)) as [[q Hd]|Hno].
      - exists q. split; [done|]. destruct (sr_ephemeral q) eqn:Ee; [|done].
        destruct (life_request _ _ L _ Hd) as (_&_&_&Hr'). by rewrite Ee in Hr'.
      - by rewrite (life_none _ _ L Hno) in Ha. }
    destruct Hq as [q S]. destruct (started_facts _ _ _ _ M S) as (cx&st&data&Ha&Hc&Hi'&Hv&Hk').
    rewrite Hk in Hk'. injection Hk' as _ Hl Hdat. subst data.
    exists st, k, st. rewrite Hi. split_and!; [|constructor|done].
    destruct (prefix_member k H []) as [dH MH]; [by rewrite app_nil_r|].
    pose proof MH as M2. rewrite E in M2. destruct (extends k H1 H2 d dH) as (rt&tr&_&Ea); [done..|].
    exists k, q, dH, cx. split_and!; try done.
    + rewrite E. by apply started_prefix.
    + rewrite Ea. by destruct (app_calls d).
Qed.
Lemma handed_index k H1 H2 d q s : H = H1 ++ H2 -> mem k H1 d -> started_with k H1 q -> inl s ∈ handed (raft_calls d) -> 1 <= sn_index s.
Proof using AG.
  intros E M S Hs. pose proof (log_prefix _ _ _ _ _ E M S) as Ho. revert Hs Ho. generalize (start_index q) (handed (raft_calls d)).
  intros pos os. revert pos. induction os as [|[s'|es] os IH]; intros pos Hs Ho; [by apply elem_of_nil in Hs| |].
  - destruct Ho as (_&Ho&Hr). apply elem_of_cons in Hs as [Hs|Hs]; [assert (s = s') as -> by congruence; done|by eapply IH].
  - destruct Ho as (_&_&Hr). apply elem_of_cons in Hs as [Hs|Hs]; [done|by eapply IH].
Qed.
Lemma all_placed n : forall H1 H2 k d q st, (length H1 <= n)%nat -> H = H1 ++ H2 -> mem k H1 d -> started_with k H1 q ->
  called_as_recorded (apps k) (st, app_calls d) ->
  placed log isfirst (position (start_index q) (handed (raft_calls d))) st.
Proof using AG CF RP.
  induction n as [|n IH]; intros H1 H2 k d q st Hn E M S Hc.
  { destruct H1; [|simpl in Hn; lia]. destruct S as [[t Ht] _]. by apply elem_of_nil in Ht. }
  eapply member_placed; [done..|]. intros s Hs.
  pose proof (handed_index _ _ _ _ _ _ E M S Hs) as Hge.
  destruct (handed_created _ _ _ _ _ E M Hs) as (H0&H3&->&Hne&Hcr).
  assert (Hlen : (length H0 <= n)%nat).
  { rewrite app_length in Hn. destruct H3; [done|]. simpl in Hn. lia. }
  eapply (created_saved H0 (H3 ++ H2)); [by rewrite E, (assoc_L app)|done|done|].
  intros H4 H5 k' d' q' st' -> M' S' Hc'. rewrite app_length in Hlen.
  eapply (IH H4 (H5 ++ H3 ++ H2)); [lia| |done|done|done]. by rewrite E, !(assoc_L app).
Qed.
End Cluster.
End Proofs.
