(** Proofs about a replica whose consensus needs no one else. *)
From Verif Require Import Base StorageModel SnapshotModel CommModel ActorModel DriverModel DriverSpec DriverProofs DriverTheorems
  ConsensusModel DriverReplySpec DriverReplyProofs DriverSoloSpec.

Section Proofs.
Context {RS SP CS ST REQ RESP : Type}.
Variable codec : driver_codec.
Variable rops : raft_ops RS.
Variable sops : snap_ops SP.
Variable cops : comm_ops CS REQ RESP.
Variable app : actor ST.
Variable holds : RS -> bytes -> Prop.
Variable due : RS -> N -> list rentry -> bytes -> Prop.
Variable stored : RS -> N -> bytes -> Prop.
Hypothesis A : agrees_alone rops holds due stored.
Notation rr := (rec_raft rops).
Notation rc := (rec_comm cops).
Notation ra := (rec_actor app).
Notation DR := (rdriver RS SP CS ST REQ RESP).

(** [b] is a later state than [a], and what is due is still due. *)
Definition later (a b : RS * list raft_call) : Prop := a.2 `prefix_of` b.2 /\ forall n es p, due a.1 n es p -> due b.1 n es p.
Lemma later_refl a : later a a.
Proof using. by split. Qed.
Lemma later_trans a b c : later a b -> later b c -> later a c.
Proof using. intros [P1 D1] [P2 D2]. split; [by etrans|]. intros n es p Hp. by apply D2, D1. Qed.

Lemma send_later ms : forall (d d' : DR), send_raft_messages codec rc d ms = Ok d' -> d_raft d' = d_raft d.
Proof using.
  induction ms as [|m ms IH]; intros d d' H; simpl in H; [by injection H as <-|].
  destruct (decide _); [by apply IH in H|]. apply bind_ok in H as (c&_&H). by apply IH in H.
Qed.
Lemma restore_later (d d' : DR) sn : restore_raft_snapshot rr ra d sn = Ok d' -> later (d_raft d) (d_raft d').
Proof using A.
  unfold restore_raft_snapshot. intros H. destruct (sn_index sn =? 0); [injection H as <-; apply later_refl|].
  apply bind_ok in H as (r&Hr&H). apply bind_ok in H as (st&_&H). apply bind_ok in H as (st'&_&H). injection H as <-. simpl.
  simpl in Hr. destruct (ra_apply_snapshot rops (d_raft d).1 sn) as [r'| |] eqn:E; try done. injection Hr as <-.
  split; [by apply prefix_app_r|]. intros n es p Hp. simpl. by eapply (al_install _ _ _ _ A).
Qed.
Lemma entries_later es : forall (d d' : DR), apply_entries codec rr ra d es = Ok d' -> later (d_raft d) (d_raft d').
Proof using A.
  induction es as [|e es IH]; intros d d' H; simpl in H; [injection H as <-; apply later_refl|].
  apply bind_ok in H as (d1&H1&H). apply IH in H. eapply later_trans; [|exact H]. clear H.
  unfold apply_entry in H1.
  assert (Hev : apply_event_entry codec ra (set_applied d (re_index e)) e = Ok d1 -> later (d_raft d) (d_raft d1)).
  { unfold apply_event_entry. destruct (dec_entry _ _) as [en|]; [|done]. intros H.
    apply bind_ok in H as (i&_&H). apply bind_ok in H as (st&_&H). apply bind_ok in H as ([st' o]&_&H). injection H as <-. apply later_refl. }
  assert (Hch : apply_change_entry codec rr (set_applied d (re_index e)) e = Ok d1 -> later (d_raft d) (d_raft d1)).
  { unfold apply_change_entry. destruct (dec_change _ _) as [ch|]; [|done]. intros H.
    apply bind_ok in H as ([r cf]&Hr&H). injection H as <-. simpl in Hr |- *.
    destruct (ra_apply_change rops (d_raft d).1 ch) as [[r' cf']| |] eqn:E; try done. injection Hr as <- <-.
    split; [by apply prefix_app_r|]. intros n es0 p Hp. simpl. by eapply (al_change _ _ _ _ A). }
  destruct (re_data e); [injection H1 as <-; apply later_refl|]. destruct (re_type e); auto.
Qed.

(** A call of consensus that hands over this. *)
Definition gives (p : bytes) (c : raft_call) : Prop := exists es, inr es ∈ handed_by c /\ among p es.

Lemma advance_gives (d d' : DR) p : advance_raft codec rr rc ra d = Ok d' -> holds (d_raft d).1 p ->
  exists k, gives p k /\ exists t, raft_calls d' = raft_calls d ++ t /\ k ∈ t.
Proof using A.
  unfold advance_raft. intros H Hp.
  set (d0 := if negb (d_lameduck d) then trigger_raft_tick rr d else d) in *.
  assert (H0 : holds (d_raft d0).1 p /\ raft_calls d `prefix_of` raft_calls d0).
  { unfold d0, trigger_raft_tick, raft_calls. destruct (negb _); [|by split]. destruct (_ <=? _); [|by split]. simpl.
    split; [by apply (al_tick _ _ _ _ A)|by apply prefix_app_r]. }
  destruct H0 as [Hp0 Hpre]. clearbody d0. clear Hp.
  destruct (al_ready _ _ _ _ A _ _ Hp0) as [_ Hrd]. simpl in H. rewrite Hrd in H. simpl in H.
  destruct (ra_get_ready rops (d_raft d0).1) as [r1 rd] eqn:Eg.
  pose proof (al_batch _ _ _ _ A _ _ _ _ Hp0 Eg) as Hb.
  apply bind_ok in H as (d1&H1&H). apply send_later in H1. simpl in H1.
  set (d2 := match rd_hard rd with Some h => _ | None => d1 end) in H.
  assert (L2 : later (d_raft d1) (d_raft d2)).
  { unfold d2. destruct (rd_hard rd); [|apply later_refl]. simpl. split; [by apply prefix_app_r|].
    intros n es q Hq. simpl. by apply (al_hard _ _ _ _ A). }
  clearbody d2. rewrite H1 in L2. clear H1.
  apply bind_ok in H as (d3&H3&H). apply restore_later in H3.
  apply bind_ok in H as (d4&H4&H). apply entries_later in H4.
  apply bind_ok in H as (d5&H5&H). apply send_later in H5.
  apply bind_ok in H as (d6&H6&H).
  pose proof (later_trans _ _ _ L2 (later_trans _ _ _ H3 H4)) as [P D]. simpl in P, D. rewrite <- H5 in P, D.
  clear L2 H3 H4 H5.
  assert (L6 : (d_raft d5).2 `prefix_of` (d_raft d6).2 /\
    (rd_entries rd <> [] -> due (d_raft d5).1 (rd_number rd) (rd_entries rd) p -> stored (d_raft d6).1 (rd_number rd) p)).
  { destruct (rd_entries rd) as [|e es]; [by injection H6 as <-|].
    apply bind_ok in H6 as (r&Hr&H6). injection H6 as <-. simpl in Hr |- *.
    destruct (ra_append rops (d_raft d5).1 (e :: es)) as [r'| |] eqn:E; try done. injection Hr as <-.
    split; [by apply prefix_app_r|]. intros _ Hq. simpl. by eapply (al_append _ _ _ _ A). }
  destruct L6 as [P6 D6]. clear H6.
  destruct (ra_advance rops (d_raft d6).1 (rd_number rd)) as [r7 lr] eqn:El.
  apply bind_ok in H as (d8&H8&H). apply send_later in H8. simpl in H8.
  apply bind_ok in H as (d9&H9&H). apply entries_later in H9 as [P9 _]. injection H as <-.
  rewrite H8 in P9. simpl in P9. unfold raft_calls in *. simpl.
  destruct Hpre as [ta Ea], P as [tb Eb], P6 as [te Ee], P9 as [tc Ec]. rewrite Ec, Ee, Eb, Ea.
  destruct Hb as [Hb|[Hne Hb]].
  - exists (KReady rd). split.
    + exists (rd_committed rd). split; [|done]. simpl. apply elem_of_app. right. left.
    + eexists. split; [by rewrite <- !app_assoc|]. rewrite !elem_of_app. right. left. left.
  - exists (KLight (rd_number rd) lr). split.
    + exists (lr_committed lr). split; [by left|]. eapply (al_stored _ _ _ _ A); [|exact El]. by apply D6, D.
    + eexists. split; [by rewrite <- !app_assoc|]. rewrite !elem_of_app. do 4 right. left. left.
Qed.

Lemma proposals_held ps : forall (d d' : DR), propose_all rr d ps = Ok d' ->
  (forall p, holds (d_raft d).1 p -> holds (d_raft d').1 p) /\ (forall p, p ∈ ps -> holds (d_raft d').1 p).
Proof using A.
  induction ps as [|q ps IH]; intros d d' H; simpl in H; [injection H as <-; split; [done|]; intros p Hp; by apply elem_of_nil in Hp|].
  apply bind_ok in H as (d1&H1&H). apply IH in H as [K1 K2]. unfold make_raft_proposal in H1. apply bind_ok in H1 as (r&Hr&H1).
  injection H1 as <-. simpl in *. destruct (ra_propose rops (d_raft d).1 q) as [r'| |] eqn:E; try done. injection Hr as <-. simpl in *.
  split.
  - intros p Hp. apply K1. by eapply (al_proposal _ _ _ _ A).
  - intros p [->|Hp]%elem_of_cons; [|by apply K2]. apply K1. by eapply (al_accepted _ _ _ _ A).
Qed.
Lemma progress_held (d d' : DR) p : process_snapshot_progress rr sops d = Ok d' -> holds (d_raft d).1 p -> holds (d_raft d').1 p.
Proof using A.
  unfold process_snapshot_progress. intros H Hp. destruct (decide _); [|by injection H as <-].
  apply bind_ok in H as (role&_&H). destruct role.
  - apply bind_ok in H as ([s r]&_&H). destruct r as [[i st]|]; injection H as <-; simpl; [by apply (al_report _ _ _ _ A)|done].
  - apply bind_ok in H as ([s r]&_&H). destruct r as [[[i sn]|]|]; injection H as <-; simpl; try done.
    pose proof (al_message _ _ _ _ A _ _ (snapshot_message i (d_id d) sn) Hp) as Hm.
    by destruct (ra_step rops (d_raft d).1 _) as [r' b].
Qed.

Lemma replication_gives (d d' : DR) p rt : run_replication codec rr sops rc ra d = Ok d' -> d_ephemeral d = false ->
  d_stashed d = [] -> raft_calls d' = raft_calls d ++ rt -> KPropose p ∈ rt -> exists k, gives p k /\ k ∈ rt.
Proof using A.
  intros H He Hst Er Hin.
  assert (Hps : p ∈ d_proposals d).
  { destruct (run_replication_ext _ _ _ _ _ _ _ H He Hst) as (_&_&_&rt1&tk&body&rt3&mt&tr&ms&X&F1&_&Htk&Fb&F3&_).
    rewrite (ext_raft _ _ _ _ _ _ _ _ X) in Er. apply app_inv_head in Er as <-.
    rewrite !elem_of_app in Hin. rewrite Forall_forall in F1, Fb, F3.
    destruct Hin as [Hin|[Hin|[Hin|[Hin|Hin]]]].
    - apply elem_of_list_In, in_map_iff in Hin as (q&[= ->]&Hq). by apply elem_of_list_In.
    - by specialize (F1 _ Hin).
    - destruct Htk as [[-> _]|[-> _]]; [by apply elem_of_nil in Hin|]. by apply elem_of_list_singleton in Hin.
    - by specialize (Fb _ Hin).
    - by specialize (F3 _ Hin). }
  unfold run_replication in H. rewrite He in H.
  apply bind_ok in H as (d1&H1&H). apply bind_ok in H as (d2&H2&H). apply bind_ok in H as (d5&H3&H).
  unfold process_proposals in H1. pose proof (proj2 (proposals_held _ _ _ H1) _ Hps) as Hh.
  pose proof (progress_held _ _ _ H2 Hh) as Hh2.
  destruct (propose_all_ext rops app _ _ _ H1) as (_&_&_&_&_&X1). destruct (progress_ext rops sops app _ _ H2) as (_&_&_&_&_&_&rt2&X2&_).
  destruct (sending_ext rops sops cops app _ _ H) as (_&_&_&_&_&_&rt6&mt6&X6&_).
  unfold process_state_machine in H3. destruct (al_ready _ _ _ _ A _ _ Hh2) as [Hi _]. simpl in H3. rewrite Hi in H3.
  apply bind_ok in H3 as (d3&H3&H4). apply bind_ok in H4 as (d4&H4&H5).
  destruct (advance_gives _ _ _ H3 Hh2) as (k&Hk&t3&E3&Hin3).
  destruct (maybe_create_ext rops app _ _ H4) as (_&_&_&_&rt4&X4&_). destruct (stash_leader_ext rops sops cops app _ _ H5) as (_&_&_&_&_&_&_&_&rt5&mt5&ms5&X5&_).
  exists k. split; [done|].
  rewrite (ext_raft _ _ _ _ _ _ _ _ X6), (ext_raft _ _ _ _ _ _ _ _ X5), (ext_raft _ _ _ _ _ _ _ _ X4), E3,
    (ext_raft _ _ _ _ _ _ _ _ X2), (ext_raft _ _ _ _ _ _ _ _ X1), <- !app_assoc in Er.
  unfold raft_calls in Er. simpl in Er. apply app_inv_head in Er as <-. rewrite !elem_of_app. do 2 right. by left.
Qed.

Variables (r : RS) (s : SP) (c : CS).
Notation reach := (reaches codec rops sops cops app r s c).
Hypothesis AA : answers_all app.
Hypothesis Hd : driver_codec_ok codec.
Lemma answered_at_once xs d outs q a t m :
  reach xs d outs -> xs !! a = Some (t, Some (Some (HApp m))) ->
  delivered (HStart q) (take a xs) -> sr_ephemeral q = false -> ~ delivered HStop (take a xs) ->
  replies outs a (ac_correlation m).
Proof using A AA Hd.
  intros B Hx Hq He Hs.
  destruct (request_is_answered codec rops sops cops app r s c AA Hd _ _ _ _ _ _ _ B Hx Hq He Hs) as [G|(p&(calls&Hc&Hin)&G)]; [done|].
  destruct Hc as (d1&o1&d2&o2&Hlt&B1&B2&Er).
  destruct (call_at codec rops sops cops app r s c _ _ _ _ _ B Hx) as (d1'&o1'&d2'&out&B1'&Hr&B2'&_).
  pose proof (reach_unique _ _ _ _ _ _ _ _ _ _ _ _ _ B1 B1') as <-. pose proof (reach_unique _ _ _ _ _ _ _ _ _ _ _ _ _ B2 B2') as <-.
  destruct (born_inv _ _ _ _ _ _ _ _ _ _ _ B1) as [_ _ _ Hst _].
  destruct (life_request _ _ (born_life _ _ _ _ _ _ _ _ _ _ _ B1) _ Hq) as (_&E1&_). rewrite He in E1.
  destruct (receive_parts _ _ _ _ _ _ _ _ _ _ Hr ltac:(discriminate)) as (da&db&dc&c'&ws&Ha&Hb&Hrep&_&Ed2&_).
  cbn [dispatch] in Ha. injection Ha as <-.
  destruct (run_app_ext codec rops cops app _ _ _ Hb) as (Sm&_&_&_&Eraft&Est&_).
  destruct (replication_gives db dc p calls Hrep) as (k&Hk&Hkin); [| | |done|].
  - rewrite (same_ephemeral _ _ Sm). done.
  - rewrite Est. done.
  - unfold raft_calls in *. rewrite Eraft. rewrite Ed2 in Er. simpl in Er |- *. done.
  - destruct Hk as (es&Hes&e&He1&Hty&Hda). apply (G a e); try done.
    exists calls, es. split; [by exists d1, o1, d2, o2|]. split; [|done].
    unfold handed. apply elem_of_list_In, in_concat. exists (handed_by k). split; [|by apply elem_of_list_In].
    apply in_map. by apply elem_of_list_In.
Qed.
End Proofs.

(** ** From the node of the raft crate to the interface of the driver *)
Section Node.
Context {ND NR : Type}.
Variable nops : node_ops ND NR.
Variable holds : ND -> bytes -> Prop.
Variable due : ND -> NR -> list rentry -> bytes -> Prop.
Variable stored : ND -> NR -> bytes -> Prop.
Hypothesis A : node_agrees_alone nops holds due stored.
Definition s_holds (s : simple ND NR) p := exists n, rs_node s = Some n /\ holds n p.
Definition s_due (s : simple ND NR) k es p := exists n rest, rs_node s = Some n /\ rs_ready s !! k = Some rest /\ due n rest es p.
Definition s_stored (s : simple ND NR) k p := exists n rest, rs_node s = Some n /\ rs_ready s !! k = Some rest /\ stored n rest p.
Lemma simple_agrees_alone : agrees_alone (simple_ops nops) s_holds s_due s_stored.
Proof using A.
  constructor; simpl.
  - intros s p s' E. unfold simple_propose in E. destruct (rs_node s) as [n|]; [|done]. apply bind_ok in E as (n'&E&[= <-]).
    exists n'. split; [done|]. by eapply (na_accepted _ _ _ _ A).
  - intros s p (n&Hn&Hp). unfold simple_initialized, simple_has_ready. rewrite Hn. split; [done|]. by eapply (na_ready _ _ _ _ A).
  - intros s p q s' (n&Hn&Hp) E. unfold simple_propose in E. rewrite Hn in E. apply bind_ok in E as (n'&E&[= <-]).
    exists n'. split; [done|]. by eapply (na_proposal _ _ _ _ A).
  - intros s p m (n&Hn&Hp). unfold simple_step, on_node. rewrite Hn. pose proof (na_message _ _ _ _ A _ _ m Hp) as Hm.
    destruct (nd_step nops n m) as [n' b]. by exists n'.
  - intros s p i st (n&Hn&Hp). unfold simple_report, on_node'. rewrite Hn. eexists. split; [done|]. by apply (na_report _ _ _ _ A).
  - intros s p (n&Hn&Hp). unfold simple_tick, on_node'. rewrite Hn. eexists. split; [done|]. by apply (na_tick _ _ _ _ A).
  - intros s p s' rd (n&Hn&Hp) E. unfold simple_get_ready in E. rewrite Hn in E. destruct (nd_ready nops n) as [n' [rd' rest]] eqn:Er.
    injection E as <- <-. destruct (na_batch _ _ _ _ A _ _ _ _ _ Hp Er) as [H|[Hne H]]; [by left|right]. split; [done|].
    exists n', rest. simpl. by rewrite lookup_insert.
  - intros s k es p h (n&rest&Hn&Hr&Hp). unfold simple_set_hard, on_node'. rewrite Hn. eexists _, rest. split; [done|]. split; [done|].
    by apply (na_hard _ _ _ _ A).
  - intros s k es p sn s' (n&rest&Hn&Hr&Hp) E. unfold simple_install, on_store in E. rewrite Hn in E.
    destruct (apply_snapshot (nd_store nops n) sn) as [st| |] eqn:Es; try done. injection E as <-.
    eexists _, rest. split; [done|]. split; [done|]. by eapply (na_install _ _ _ _ A).
  - intros s k es p ch s' cf (n&rest&Hn&Hr&Hp) E. unfold simple_apply_change in E. rewrite Hn in E.
    apply bind_ok in E as ([n' cf']&E&[= <- <-]). eexists _, rest. split; [done|]. split; [done|]. by eapply (na_change _ _ _ _ A).
  - intros s k es p s' (n&rest&Hn&Hr&Hp) E. unfold simple_append, on_store in E. rewrite Hn in E.
    destruct (append_entries (nd_store nops n) es) as [st| |] eqn:Es; try done. injection E as <-.
    eexists _, rest. split; [done|]. split; [done|]. by eapply (na_append _ _ _ _ A).
  - intros s k p s' lr (n&rest&Hn&Hr&Hp) E. unfold simple_advance in E. rewrite Hn, Hr in E.
    destruct (nd_advance nops n rest) as [n' lr'] eqn:Ea. injection E as <- <-. by eapply (na_stored _ _ _ _ A).
Qed.
End Node.
