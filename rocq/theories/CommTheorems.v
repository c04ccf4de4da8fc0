(** Theorems C15-C21: secure channels between replicas.

    The theorems range over every implementation [ops] of handshake sessions and
    encryptors, every history of calls on the communication module of replica
    [id] (outgoing messages, incoming messages, handing out, cluster changes,
    ticks, in any order and number), every answer of the session provider and
    every iteration order over the peers. [secured] and [provided] specialise
    them to the sessions of the code. *)
From Verif Require Import Base CommModel CommSpec CommProofs CommTraceProofs CommOakProofs.

Section Theorems.
Context {REQ RESP HS EN : Type}.
Variable ops : session_ops REQ RESP HS EN.
Notation comm := (comm REQ RESP HS EN).
Notation history id retry timeout := (comm_trace ops (comm_init comm_new id retry timeout)).

(** C15. Whatever is handed out to the network is a handshake message made by
    a session with the peer, or a message passed in for that peer whose contents
    were replaced by the output of an encryptor obtained from a completed session
    with that peer. *)
Theorem C15_only_ciphertext_leaves : forall id retry timeout t s t1 s1 op ws t2 w,
  id <> 0 -> history id retry timeout t s ->
  t = t1 ++ (s1, op, RTake ws) :: t2 -> w ∈ ws ->
  exists r,
    (exists hm, w = WHandshake hm /\ made_by ops t1 r hm) \/
    (exists m p p' e e' s0 g ret,
       w = WPeer (carrying (om_msg m) p') /\
       (s0, COut g m, ret) ∈ t1 /\ pm_recipient (om_msg m) = r /\ pm_payload (om_msg m) = Some p /\
       encryptor_from ops t1 r e /\ en_encrypt ops e (pl_contents p) = (e', Some p')).
Proof.
  intros id retry timeout t s t1 s1 op ws t2 w Hid Ht E Hw.
  destruct (trace_split ops _ _ _ Ht _ _ _ _ _ E) as (H1 & Hok & s2 & Hs).
  pose proof (trace_inv ops _ _ _ _ _ Hid H1) as V.
  destruct op as [g m|g m|ord|ids|].
  - simpl in Hs. destruct (comm_out ops s1 g m) as [? []]; done.
  - simpl in Hs. destruct (comm_in ops s1 g m) as [? []]; done.
  - destruct (step_take ops _ _ _ _ _ _ _ _ Hid V Hok Hs) as (_ & _ & f & [= ->] & Hf).
    apply elem_of_list_In, in_concat in Hw as (l & Hl & Hw). apply in_map_iff in Hl as (r & <- & Hr).
    apply elem_of_list_In in Hw. apply elem_of_list_In in Hr. exists r. specialize (Hf r).
    destruct (handshake_waiting s1 r) as [hm|].
    { destruct Hf as [Hm Hf]. rewrite Hf in Hw. apply elem_of_list_singleton in Hw as ->. left. eauto. }
    destruct (phase s1 r); try (rewrite Hf in Hw by done; by apply elem_of_nil in Hw).
    destruct Hf as (e & e' & os & F1 & F2 & F3). rewrite F3 in Hw. apply elem_omap_id in Hw.
    destruct (encrypted_elem ops _ _ _ _ F2 r t1 w F1 Hw) as (m & p & p' & e1 & e2 & G1 & G2 & G3 & G4 & G5).
    apply collapse_elem, unsent_accepted, accepted_out in G1 as (Hr1 & s0 & g & ret & Hin).
    right. exists m, p, p', e1, e2, s0, g, ret. done.
  - simpl in Hs. done.
  - simpl in Hs. done.
Qed.

(** C16. A message reaches the replica only over a completed channel: it is the
    received message with its contents replaced by what an encryptor obtained
    from a completed session with the sender made of them. *)
Theorem C16_only_authenticated_messages_are_delivered : forall id retry timeout t s t1 s1 g m m' t2,
  id <> 0 -> history id retry timeout t s ->
  t = t1 ++ (s1, CIn g m, RIn (Ok (Some m'))) :: t2 ->
  exists pm p e e' plain,
    m = IPeer pm /\ pm_payload pm = Some p /\ phase s1 (pm_sender pm) = PhCompleted /\
    encryptor_from ops t1 (pm_sender pm) e /\ en_decrypt ops e p = (e', Some plain) /\
    m' = IPeer (carrying pm (Payload plain [])).
Proof.
  intros id retry timeout t s t1 s1 g m m' t2 Hid Ht E.
  destruct (trace_split ops _ _ _ Ht _ _ _ _ _ E) as (H1 & Hok & s2 & Hs).
  pose proof (trace_inv ops _ _ _ _ _ Hid H1) as V.
  simpl in Hs. unfold comm_in in Hs. rewrite (v_id _ _ _ _ _ _ V), (proj2 (N.eqb_neq _ _) Hid) in Hs.
  destruct (in_sender m) as [r|] eqn:Es; [|done].
  destruct (get_channel s1 r (g Recipient)) as [s3 rc] eqn:Eg.
  destruct (get_channel_spec _ _ _ _ _ Eg) as [-> Hrc].
  destruct rc as [c|e|]; [|done..].
  destruct (chan_in ops c m) as [[c' b]|e|] eqn:Eo; [|done..]. injection Hs as <- ->.
  destruct (chan0_inv ops _ _ _ _ _ r V) as (K & _ & P).
  destruct Hrc as [[Hp ->]|(Hp & h & _ & ->)].
  2:{ unfold chan_in in Eo. simpl in Eo. repeat (case_match; simplify_eq/=; try done). }
  unfold chan_in in Eo. rewrite P in Eo. pose proof (k_phase _ _ _ _ _ K) as Kp. rewrite P in Kp.
  destruct (phase s1 r) eqn:Ep; try done; [repeat (case_match; simplify_eq/=; try done)|].
  unfold chan_decrypt in Eo. destruct (ch_encryptor (chan0 s1 r)) as [e|] eqn:Ee; [|done].
  destruct m as [hm|pm|]; [done| |done]. simpl in Es. injection Es as Es.
  destruct (pm_payload pm) as [p|] eqn:Epl; [|done].
  destruct (en_decrypt ops e p) as [e' [plain|]] eqn:Ed; [|done]. injection Eo as <- <-.
  exists pm, p, e, e', plain. rewrite Es. split_and!; try done. by apply (k_encryptor _ _ _ _ _ K).
Qed.

(** C17. At every handing out, each peer gets its waiting handshake message, or
    else, over a completed channel, the encryptions, in order, of everything
    accepted for it and not handed out before (older heartbeats superseded), or
    else nothing. *)
Theorem C17_what_a_peer_gets : forall id retry timeout t s ord s' ret,
  id <> 0 -> history id retry timeout t s ->
  ord ≡ₚ (map_to_list (cm_replicas s)).*1 ->
  comm_step ops s (CTake ord) = Some (s', ret) ->
  exists f, ret = RTake (concat (map f ord)) /\ forall r, r ∈ ord ->
    phase s' r = phase s r /\ handshake_waiting s' r = None /\
    match handshake_waiting s r, phase s r with
    | Some hm, _ => f r = [WHandshake hm] /\ queue s' r = queue s r
    | None, PhCompleted => exists e e' os, encryptor_from ops t r e /\
         encrypted ops e (collapse (unsent ops r t)) os e' /\ f r = omap (fun o => o) os /\ queue s' r = []
    | None, _ => f r = [] /\ queue s' r = queue s r
    end.
Proof.
  intros id retry timeout t s ord s' ret Hid Ht Hok Hs.
  pose proof (trace_inv ops _ _ _ _ _ Hid Ht) as V.
  assert (exists ws, ret = RTake ws) as [ws ->].
  { simpl in Hs. destruct (comm_take ops s ord) as [[? ?]| |]; simplify_eq. eauto. }
  destruct (take_chan ops _ _ _ _ Hok Hs) as (f & -> & Hf).
  exists f. split; [done|]. intros r Hr. destruct (Hf r) as [Hd Hc]. apply Hd in Hr as [c Hr].
  destruct (Hc c Hr) as (c' & T1 & T2). destruct (v_chan _ _ _ _ _ _ V _ _ Hr) as [K Q].
  destruct (chan_take_spec ops _ _ _ _ _ _ K T1) as (_ & P & M).
  unfold phase, handshake_waiting, queue. rewrite Hr, T2. split; [done|].
  assert (ch_pending c' = None) as Hp.
  { unfold chan_take in T1. destruct (ch_pending c) eqn:Epe; [by simplify_eq/=|].
    destruct (ch_phase c); try (simplify_eq; done). destruct (ch_encryptor c); [|done].
    destruct (encrypt_all _ _ _) as [[? ?]| |]; by simplify_eq/=. }
  split; [done|]. destruct (ch_pending c); [by destruct M as (_ & ? & ?)|].
  destruct (ch_phase c); try (destruct M as [? ->]; done).
  destruct M as (e & e' & os & _ & M2 & M3 & M4 & M5). exists e, e', os. rewrite <- Q. done.
Qed.

(** C17. Superseding heartbeats touches nothing else: all other messages stay,
    in order, and one heartbeat, the newest, is left. *)
Theorem C17_only_heartbeats_are_superseded : forall l,
  without_heartbeats (collapse l) = without_heartbeats l /\
  filter is_hb (collapse l) = match last (filter is_hb l) with Some m => [m] | None => [] end.
Proof. intros l. split; [apply collapse_without|apply collapse_heartbeats]. Qed.

(** C17. Over a whole history: what peer [r] was sent is the encryption of a
    list of accepted messages ([None]: the encryptor rejected the message) which,
    heartbeats aside, followed by what still waits, is in the order of acceptance
    and without repetition; nothing is missing if [r] was never removed. *)
Theorem C17_order_is_kept : forall id retry timeout t s r,
  id <> 0 -> history id retry timeout t s ->
  exists sent : list (out_msg * option payload),
    handed_out r t = omap (fun '(m, o) => carrying (om_msg m) <$> o) sent /\
    (forall m, m ∈ sent.*1 -> m ∈ accepted_for ops r t) /\
    without_heartbeats sent.*1 ++ without_heartbeats (unsent ops r t)
      `sublist_of` without_heartbeats (accepted_for ops r t) /\
    (keeps r t ->
      without_heartbeats sent.*1 ++ without_heartbeats (unsent ops r t)
        = without_heartbeats (accepted_for ops r t)).
Proof.
  intros id retry timeout t s r Hid Ht.
  destruct (handed_out_order ops _ _ _ _ _ r Hid Ht) as (sent & A & B & C & D).
  exists sent. split_and!; try done. intros Hk. apply C. intros s1 ids ret Hin.
  unfold stays. apply bool_decide_eq_true. by eapply Hk.
Qed.

(** C18. The queue of a peer always holds everything accepted for it and not
    handed out since, whatever handshakes fail, time out or restart. *)
Theorem C18_nothing_queued_is_lost : forall id retry timeout t s r,
  id <> 0 -> history id retry timeout t s ->
  queue s r = collapse (unsent ops r t).
Proof.
  intros id retry timeout t s r Hid Ht. pose proof (trace_inv ops _ _ _ _ _ Hid Ht) as V.
  unfold queue. destruct (cm_replicas s !! r) as [c|] eqn:E.
  - by apply (v_chan _ _ _ _ _ _ V).
  - by rewrite (v_none _ _ _ _ _ _ V _ E).
Qed.

(** C18. A failed channel stays failed for exactly the configured number of
    ticks, whatever else happens, and then starts afresh. *)
Theorem C18_failed_channels_are_retried : forall id retry timeout t0 s0 t s r n,
  id <> 0 -> history id retry timeout t0 s0 -> comm_trace ops s0 t s -> keeps r t ->
  phase s0 r = PhFailed n ->
  (n + ticks t < retry -> phase s r = PhFailed (n + ticks t)) /\
  (n + ticks t + 1 = retry -> exists s', comm_step ops s CTick = Some (s', RUnit (Ok tt)) /\
     phase s' r = PhUnknown /\ handshake_waiting s' r = None /\ queue s' r = queue s r).
Proof.
  intros id retry timeout t0 s0 t s r n Hid H0 H Hk Hp.
  pose proof (init_pinv ops _ _ _ _ _ r Hid H0) as V0.
  destruct (trace_keeps_id ops _ _ _ H0) as (I1 & I2 & I3). simpl in I1, I2, I3.
  destruct (trace_keeps_id ops _ _ _ H) as (J1 & J2 & J3).
  destruct (wait_run ops _ _ _ _ _ _ n V0 H Hk) as [W _]. rewrite I2 in W.
  split; [auto|]. intros Hn.
  assert (exists t', pinv ops t' timeout r s) as [t' V'].
  { clear -V0 H. induction H as [|t s op s' ret Ht [t' IH] Hok Hs]; [eauto|]. eexists. by eapply pinv_step. }
  eexists. split; [done|].
  assert (comm_step ops s CTick = Some (comm_tick s, RUnit (Ok tt))) as Hs by done.
  destruct (tick_phase ops _ _ _ r Hs) as [P Q].
  { intros c Hc. destruct V' as (A & B & C). rewrite A. apply (C c Hc). }
  rewrite W in P by (done || lia). rewrite J2, I2, (proj2 (N.leb_le _ _)) in P by lia.
  split_and!; [done| |done].
  pose proof (pinv_step ops _ _ _ _ CTick _ _ V' I Hs) as (_ & _ & V2).
  unfold handshake_waiting. unfold phase in P.
  destruct (cm_replicas (comm_tick s) !! r) as [c|] eqn:Ec; [|done].
  pose proof (k_phase _ _ _ _ _ (V2 c eq_refl)) as Kp. rewrite P in Kp. apply Kp.
Qed.

(** C18. A handshake the peer does not answer times out after exactly the
    configured number of ticks. *)
Theorem C18_unanswered_handshakes_time_out : forall id retry timeout t0 s0 t s r n,
  id <> 0 -> 0 < retry -> history id retry timeout t0 s0 -> comm_trace ops s0 t s -> keeps r t -> silent r t ->
  phase s0 r = PhInitiated n ->
  (n + ticks t < timeout -> phase s r = PhInitiated (n + ticks t)) /\
  (n + ticks t + 1 = timeout -> exists s', comm_step ops s CTick = Some (s', RUnit (Ok tt)) /\
     phase s' r = PhFailed 0 /\ queue s' r = queue s r).
Proof.
  intros id retry timeout t0 s0 t s r n Hid Hr H0 H Hk Hq Hp.
  pose proof (init_pinv ops _ _ _ _ _ r Hid H0) as V0.
  destruct (trace_keeps_id ops _ _ _ H0) as (I1 & I2 & I3). simpl in I1, I2, I3.
  destruct (trace_keeps_id ops _ _ _ H) as (J1 & J2 & J3).
  destruct (wait_run ops _ _ _ _ _ _ n V0 H Hk) as [_ W]. rewrite I3 in W.
  split; [auto|]. intros Hn.
  assert (exists t', pinv ops t' timeout r s) as [t' V'].
  { clear -V0 H. induction H as [|t s op s' ret Ht [t' IH] Hok Hs]; [eauto|]. eexists. by eapply pinv_step. }
  eexists. split; [done|].
  assert (comm_step ops s CTick = Some (comm_tick s, RUnit (Ok tt))) as Hs by done.
  destruct (tick_phase ops _ _ _ r Hs) as [P Q].
  { intros c Hc. destruct V' as (A & B & C). rewrite A. apply (C c Hc). }
  rewrite W in P by (done || lia). rewrite J3, I3, (proj2 (N.leb_le _ _)) in P by lia.
  rewrite J2, I2, (proj2 (N.leb_gt _ _)) in P by lia. done.
Qed.

(** C18. When the channel is not in use, the next outgoing message starts a
    handshake: the new session's first message waits to be handed out and the
    message is queued behind the ones already there. *)
Theorem C18_next_message_restarts_handshake : forall id retry timeout t s g m h h' hm,
  id <> 0 -> history id retry timeout t s ->
  phase s (pm_recipient (om_msg m)) = PhUnknown ->
  g Initiator = Some h -> hs_take ops h = (h', Some (Some hm)) ->
  exists s', comm_step ops s (COut g m) = Some (s', RUnit (Ok tt)) /\
    phase s' (pm_recipient (om_msg m)) = PhInitiated 0 /\
    handshake_waiting s' (pm_recipient (om_msg m)) = Some hm /\
    queue s' (pm_recipient (om_msg m)) = collapse (unsent ops (pm_recipient (om_msg m)) t ++ [m]).
Proof.
  intros id retry timeout t s g m h h' hm Hid Ht Hp Hg Hh.
  pose proof (trace_inv ops _ _ _ _ _ Hid Ht) as V. set (r := pm_recipient (om_msg m)) in *.
  destruct (chan0_inv ops _ _ _ _ _ r V) as (K & Q & P).
  simpl. unfold comm_out. rewrite (v_id _ _ _ _ _ _ V), (proj2 (N.eqb_neq _ _) Hid). fold r.
  destruct (get_channel s r (g Initiator)) as [s3 rc] eqn:Eg.
  destruct (get_channel_spec _ _ _ _ _ Eg) as [-> Hrc].
  destruct rc as [c|e|]; [|destruct Hrc as (_ & ? & _); congruence|done].
  destruct Hrc as [[Hp' _]|(_ & h1 & Hg1 & ->)]; [done|]. assert (h1 = h) as -> by congruence.
  unfold chan_out. simpl. rewrite Hh. eexists. split; [done|].
  rewrite insert_insert. unfold phase, handshake_waiting, queue. simpl. rewrite lookup_insert. simpl.
  split_and!; try done. by rewrite Q, push_collapse.
Qed.

(** C19. After a cluster change, channels to replicas outside the cluster are
    gone, and all of them if this replica is outside; other channels are
    untouched. *)
Theorem C19_removed_peers_lose_their_channels : forall id retry timeout t s ids s' ret r,
  id <> 0 -> history id retry timeout t s ->
  comm_step ops s (CCluster ids) = Some (s', ret) ->
  ret = RUnit (Ok tt) /\
  ((r ∈ ids /\ id ∈ ids) -> cm_replicas s' !! r = cm_replicas s !! r) /\
  (~ (r ∈ ids /\ id ∈ ids) ->
     cm_replicas s' !! r = None /\ phase s' r = PhUnknown /\ queue s' r = [] /\ handshake_waiting s' r = None).
Proof.
  intros id retry timeout t s ids s' ret r Hid Ht Hs. pose proof (trace_inv ops _ _ _ _ _ Hid Ht) as V.
  pose proof (cluster_phase ops _ _ _ _ r Hs) as HL. unfold stays in HL. rewrite (v_id _ _ _ _ _ _ V) in HL.
  split_and!.
  - simpl in Hs. by injection Hs as _ <-.
  - intros H. by rewrite bool_decide_eq_true_2 in HL.
  - intros H. rewrite bool_decide_eq_false_2 in HL by done. unfold phase, queue, handshake_waiting. by rewrite HL.
Qed.

(** C19. Once a peer has no channel in use (it was removed, or its failed
    handshake was given up), the sessions and keys used with it from then on are
    obtained from then on: no old key is ever used again, in either direction. *)
Theorem C19_no_old_keys_after_removal : forall id retry timeout t0 s0 t s r,
  id <> 0 -> history id retry timeout t0 s0 -> phase s0 r = PhUnknown -> comm_trace ops s0 t s ->
  (forall g pm m' s', comm_step ops s (CIn g (IPeer pm)) = Some (s', RIn (Ok (Some m'))) -> pm_sender pm = r ->
     exists p e e' plain, pm_payload pm = Some p /\ encryptor_from ops t r e /\
       en_decrypt ops e p = (e', Some plain) /\ m' = IPeer (carrying pm (Payload plain []))) /\
  (forall ord s' ws m, cop_ok s (CTake ord : comm_op REQ RESP HS) ->
     comm_step ops s (CTake ord) = Some (s', RTake ws) -> WPeer m ∈ ws -> pm_recipient m = r ->
     exists e e' b p, encryptor_from ops t r e /\ en_encrypt ops e b = (e', Some p) /\ pm_payload m = Some p) /\
  (forall ord s' ws hm, cop_ok s (CTake ord : comm_op REQ RESP HS) ->
     comm_step ops s (CTake ord) = Some (s', RTake ws) ->
     handshake_waiting s r = Some hm -> made_by ops t r hm /\ WHandshake hm ∈ ws).
Proof.
  intros id retry timeout t0 s0 t s r Hid H0 Hp H.
  pose proof (fresh_pinv ops _ _ _ _ _ _ _ r Hid H0 Hp H) as V.
  assert (exists tt, history id retry timeout tt s) as [tt Htt].
  { clear -H0 H. induction H as [|t s op s' ret Ht [tt IH] Hok Hs]; [eauto|].
    eexists. by eapply ctrace_snoc. }
  pose proof (trace_inv ops _ _ _ _ _ Hid Htt) as VV.
  split_and!.
  - intros g pm m' s' Hs Hr.
    destruct (C16_only_authenticated_messages_are_delivered id retry timeout
                (tt ++ [(s, CIn g (IPeer pm), RIn (Ok (Some m')))]) s' tt s g (IPeer pm) m' [] Hid)
      as (pm' & p & e & e' & plain & [= <-] & A & B & _ & _ & _); [by eapply ctrace_snoc|done|].
    simpl in Hs. unfold comm_in in Hs. rewrite (v_id _ _ _ _ _ _ VV), (proj2 (N.eqb_neq _ _) Hid) in Hs. simpl in Hs.
    rewrite Hr in *. destruct (get_channel s r (g Recipient)) as [s3 rc] eqn:Eg.
    destruct (get_channel_spec _ _ _ _ _ Eg) as [-> Hrc].
    destruct rc as [c|x|]; [|done..].
    destruct Hrc as [[_ ->]|(Hu & _)]; [|congruence].
    destruct (pinv_chan0 ops _ _ _ _ V) as [K P].
    unfold chan_in in Hs. rewrite P, B in Hs. unfold chan_decrypt in Hs.
    destruct (ch_encryptor (chan0 s r)) as [e1|] eqn:Ee; [|done]. rewrite A in Hs.
    destruct (en_decrypt ops e1 p) as [e2 [pl|]] eqn:Ed; [|done]. injection Hs as _ <-.
    exists p, e1, e2, pl. split_and!; try done. by apply (k_encryptor _ _ _ _ _ K).
  - intros ord s' ws m Hok Hs Hw Hr.
    destruct (take_chan ops _ _ _ _ Hok Hs) as (f & -> & Hf).
    destruct (step_take ops _ _ _ _ _ _ _ _ Hid VV Hok Hs) as (_ & _ & f2 & _ & _).
    apply elem_of_list_In, in_concat in Hw as (l & Hl & Hw). apply in_map_iff in Hl as (r1 & <- & Hr1).
    apply elem_of_list_In in Hw. apply elem_of_list_In in Hr1.
    destruct (Hf r1) as [Hd Hc]. apply Hd in Hr1 as [c Hc1]. destruct (Hc c Hc1) as (c' & T1 & T2).
    destruct (v_chan _ _ _ _ _ _ VV _ _ Hc1) as [K Q].
    destruct (chan_take_spec ops _ _ _ _ _ _ K T1) as (_ & _ & M).
    assert (ch_pending c = None /\ ch_phase c = PhCompleted) as [Epe Eph].
    { destruct (ch_pending c); [destruct M as (_ & M & _); rewrite M in Hw; by apply elem_of_list_singleton in Hw|].
      split; [done|]. destruct (ch_phase c); try done; destruct M as [M _]; rewrite M in Hw; by apply elem_of_nil in Hw. }
    rewrite Epe, Eph in M. destruct M as (e & e' & os & M1 & M2 & M3 & M4 & _).
    rewrite M4 in Hw. apply elem_omap_id in Hw.
    destruct (encrypted_elem ops _ _ _ _ M3 r1 tt _ M2 Hw) as (m1 & p1 & p2 & e1 & e2 & G1 & _ & _ & _ & G5).
    injection G5 as ->. simpl in Hr. rewrite Q in G1. apply collapse_elem in G1.
    pose proof (v_recipient _ _ _ _ _ _ VV _ _ G1) as Hrr. rewrite Hr in Hrr. subst r1.
    assert (kinv ops t timeout r c) as Kt by (by apply V).
    pose proof (k_encryptor _ _ _ _ _ Kt _ M1) as Hef.
    destruct (encrypted_elem ops _ _ _ _ M3 r t _ Hef Hw) as (m2 & p3 & p4 & e3 & e4 & _ & _ & N3 & N4 & N5).
    exists e3, e4, (pl_contents p3), p4. split_and!; try done. simpl. unfold carrying, with_payload in *. congruence.
  - intros ord s' ws hm Hok Hs Hh.
    destruct (step_take ops _ _ _ _ _ _ _ _ Hid VV Hok Hs) as (_ & _ & f & [= ->] & Hf).
    specialize (Hf r). rewrite Hh in Hf. destruct Hf as [_ Hf].
    unfold handshake_waiting in Hh. destruct (cm_replicas s !! r) as [c|] eqn:Ec; [|done].
    assert (kinv ops t timeout r c) as Kt by (by apply V).
    split; [by apply (k_pending _ _ _ _ _ Kt)|].
    destruct (take_chan ops _ _ _ _ Hok Hs) as (f' & _ & Hdom).
    apply elem_of_list_In, in_concat. exists (f r). split.
    + apply in_map_iff. exists r. split; [done|]. apply elem_of_list_In. apply Hdom. eauto.
    + rewrite Hf. by left.
Qed.

(** C20. A channel becomes usable only by a handshake message from the peer that
    completes its session. *)
Theorem C20_completed_only_by_a_completed_session : forall id retry timeout t s op s' ret r,
  id <> 0 -> history id retry timeout t s -> cop_ok s op -> comm_step ops s op = Some (s', ret) ->
  phase s r <> PhCompleted -> phase s' r = PhCompleted ->
  exists g hm h h1 h2 o, op = CIn g (IHandshake hm) /\ hm_sender hm = r /\
    session_from ops (t ++ [(s, op, ret)]) r h /\
    hs_process ops h hm = (h1, true) /\ hs_take ops h1 = (h2, Some o) /\ hs_completed ops h2 = true.
Proof.
  intros id retry timeout t s op s' ret r Hid Ht Hok Hs Hn Hc.
  pose proof (init_pinv ops _ _ _ _ _ r Hid Ht) as V.
  pose proof (trace_inv ops _ _ _ _ _ Hid Ht) as VV.
  destruct op as [g m|g m|ord|ids|].
  - exfalso. simpl in Hs. unfold comm_out in Hs. rewrite (v_id _ _ _ _ _ _ VV), (proj2 (N.eqb_neq _ _) Hid) in Hs.
    destruct (get_channel s _ _) as [s1 rc] eqn:Eg. destruct (get_channel_spec _ _ _ _ _ Eg) as [-> Hrc].
    destruct rc as [c|e|]; [|injection Hs as <- <-|done].
    + destruct (chan_out ops c m) as [[c' b]|e|] eqn:Eo; [| |done].
      * injection Hs as <- <-. rewrite with_with in Hc. simpl in Hc. rewrite insert_insert, phase_insert in Hc.
        destruct (N.eqb_spec (pm_recipient (om_msg m)) r) as [Er|Hne]; [|done]. rewrite Er in Hrc.
        destruct Hrc as [[_ ->]|(Hp' & h & Hg & ->)].
        -- unfold chan_out in Eo. rewrite phase_chan0 in Eo.
           destruct (pinv_chan0 ops _ _ _ _ V) as [K P]. pose proof (k_phase _ _ _ _ _ K) as Kp. rewrite P in Kp.
           destruct (phase s r) eqn:Ep; try done; injection Eo as <- <-; simpl in Hc; rewrite ?phase_chan0 in Hc; congruence.
        -- unfold chan_out in Eo. simpl in Eo. destruct (hs_take ops h) as [h' [[|]|]]; injection Eo as <- <-; done.
      * clear -Eo. unfold chan_out in Eo. repeat (case_match; try done).
    + rewrite phase_insert in Hc. destruct (N.eqb_spec (pm_recipient (om_msg m)) r) as [Er|Hne]; [|done].
      rewrite Er, phase_chan0 in Hc. done.
  - simpl in Hs. unfold comm_in in Hs. rewrite (v_id _ _ _ _ _ _ VV), (proj2 (N.eqb_neq _ _) Hid) in Hs.
    destruct (in_sender m) as [r1|] eqn:Es; [|by injection Hs as <- <-].
    destruct (get_channel s _ _) as [s1 rc] eqn:Eg. destruct (get_channel_spec _ _ _ _ _ Eg) as [-> Hrc].
    destruct rc as [c|e|]; [|injection Hs as <- <-|done].
    + destruct (chan_in ops c m) as [[c' b]|e|] eqn:Eo; [| |done].
      * injection Hs as <- <-. rewrite with_with in Hc. simpl in Hc. rewrite insert_insert, phase_insert in Hc.
        destruct (N.eqb_spec r1 r) as [->|Hne]; [|done].
        destruct (pinv_chan0 ops _ _ _ _ V) as [K P].
        assert (exists s0 g0 ret0, (s0, CIn g0 m, ret0) ∈ t ++ [(s, CIn g m, RIn (Ok b))]) as Hin.
        { exists s, g, (RIn (Ok b)). apply elem_of_app. right. by apply elem_of_list_singleton. }
        destruct Hrc as [[Hp ->]|(Hp & h & Hg & ->)].
        -- destruct (kinv_in ops (t ++ [(s, CIn g m, RIn (Ok b))]) timeout r (chan0 s r) m c' b)
             as (_ & _ & _ & _ & M & _); [left; by apply kinv_mono|by rewrite P|done..|].
           destruct M as (hm & h & h1 & h2 & o & -> & M2 & M3 & M4 & M5 & _); [by rewrite P|done|].
           exists g, hm, h, h1, h2, o. split_and!; try done; [by injection Es|].
           apply session_mono. by apply (k_session _ _ _ _ _ K).
        -- assert (session_from ops (t ++ [(s, CIn g m, RIn (Ok b))]) r h) as Hsf.
           { eapply sf_recipient; [|done|done]. apply elem_of_app. right. by apply elem_of_list_singleton. }
           destruct (kinv_in ops (t ++ [(s, CIn g m, RIn (Ok b))]) timeout r
                       (with_phase (with_session (chan0 s r) (Some h)) PhInitialized) m c' b)
             as (_ & _ & _ & _ & M & _); [|done..|].
           { right. exists h, (chan0 s r). split_and!; [by apply kinv_mono|done|congruence|done]. }
           destruct M as (hm & h' & h1 & h2 & o & -> & M2 & M3 & M4 & M5 & _); [done|done|].
           simpl in M2. injection M2 as <-.
           exists g, hm, h, h1, h2, o. split_and!; try done. by injection Es.
      * exfalso. clear -Eo. unfold chan_in, chan_decrypt in Eo. repeat (case_match; try done).
    + exfalso. rewrite phase_insert in Hc. destruct (N.eqb_spec r1 r) as [->|Hne]; [|done].
      rewrite phase_chan0 in Hc. done.
  - exfalso. rewrite (take_phase ops _ _ _ _ r Hs) in Hc. done.
  - exfalso. pose proof (cluster_phase ops _ _ _ _ r Hs) as HL. unfold phase in *. rewrite HL in Hc.
    destruct (stays s r ids); done.
  - exfalso. destruct (tick_phase ops _ _ _ r Hs) as [P _].
    { intros c Hc'. destruct V as (A & B & C). rewrite A. apply (C c Hc'). }
    rewrite P in Hc. destruct (phase s r); try done; repeat (case_match; try done).
Qed.

(** C20. On a completed channel, a handshake message ends the channel: it is
    failed, nothing is delivered; an undecipherable message is dropped and the
    channel goes on. *)
Theorem C20_handshake_message_ends_a_completed_channel : forall id retry timeout t s g m s' ret r,
  id <> 0 -> history id retry timeout t s -> phase s r = PhCompleted -> in_sender m = Some r ->
  comm_step ops s (CIn g m) = Some (s', ret) ->
  (forall hm, m = IHandshake hm -> phase s' r = PhFailed 0 /\ ret = RIn (Ok None)) /\
  (forall pm, m = IPeer pm -> phase s' r = PhCompleted /\
     exists p e e' o, pm_payload pm = Some p /\ encryptor_from ops t r e /\ en_decrypt ops e p = (e', o) /\
       ret = RIn (Ok ((fun b => IPeer (carrying pm (Payload b []))) <$> o))) /\
  queue s' r = queue s r.
Proof.
  intros id retry timeout t s g m s' ret r Hid Ht Hp Hr Hs.
  pose proof (trace_inv ops _ _ _ _ _ Hid Ht) as V.
  destruct (chan0_inv ops _ _ _ _ _ r V) as (K & Q & P).
  simpl in Hs. unfold comm_in in Hs. rewrite (v_id _ _ _ _ _ _ V), (proj2 (N.eqb_neq _ _) Hid), Hr in Hs.
  destruct (get_channel s r (g Recipient)) as [s3 rc] eqn:Eg.
  destruct (get_channel_spec _ _ _ _ _ Eg) as [-> Hrc].
  destruct rc as [c|x|]; [|by destruct Hrc as (? & _); congruence|done].
  destruct Hrc as [[_ ->]|(Hu & _)]; [|congruence].
  assert (queue s r = ch_queue (chan0 s r)) as Hq.
  { unfold queue, chan0. by destruct (cm_replicas s !! r). }
  unfold chan_in in Hs. rewrite P, Hp in Hs. unfold chan_decrypt in Hs.
  destruct (ch_encryptor (chan0 s r)) as [e|] eqn:Ee; [|done].
  destruct m as [hm|pm|]; [| |done].
  - injection Hs as <- <-. rewrite with_with. simpl. rewrite insert_insert. rewrite phase_insert, N.eqb_refl.
    split_and!; try done. unfold queue at 1. simpl. by rewrite lookup_insert.
  - destruct (pm_payload pm) as [p|] eqn:Epl; [|done].
    destruct (en_decrypt ops e p) as [e' [b|]] eqn:Ed; injection Hs as <- <-; rewrite with_with; simpl; rewrite insert_insert.
    + split_and!; [done| |].
      * intros pm' [= <-]. rewrite phase_insert, N.eqb_refl. simpl. split; [congruence|].
        exists p, e, e', (Some b). split_and!; try done. by apply (k_encryptor _ _ _ _ _ K).
      * rewrite Hq. unfold queue. simpl. by rewrite lookup_insert.
    + split_and!; [done| |].
      * intros pm' [= <-]. rewrite phase_insert, N.eqb_refl. simpl. split; [congruence|].
        exists p, e, e', None. split_and!; try done. by apply (k_encryptor _ _ _ _ _ K).
      * rewrite Hq. unfold queue. simpl. by rewrite lookup_insert.
Qed.

(** C20. Until a channel is completed nothing is delivered and only handshake
    messages are handed out for it. *)
Theorem C20_nothing_before_completion : forall id retry timeout t s r,
  id <> 0 -> history id retry timeout t s -> phase s r <> PhCompleted ->
  (forall g m s' o, comm_step ops s (CIn g m) = Some (s', RIn (Ok o)) -> in_sender m = Some r -> o = None) /\
  (forall ord s' ws m, cop_ok s (CTake ord : comm_op REQ RESP HS) ->
     comm_step ops s (CTake ord) = Some (s', RTake ws) -> WPeer m ∈ ws -> pm_recipient m <> r).
Proof.
  intros id retry timeout t s r Hid Ht Hp. split.
  - intros g m s' [m'|] Hs Hr; [|done]. exfalso.
    destruct (C16_only_authenticated_messages_are_delivered id retry timeout
                (t ++ [(s, CIn g m, RIn (Ok (Some m')))]) s' t s g m m' [] Hid)
      as (pm & p & e & e' & plain & -> & _ & B & _); [by eapply ctrace_snoc|done|].
    simpl in Hr. congruence.
  - intros ord s' ws m Hok Hs Hw Hr. pose proof (trace_inv ops _ _ _ _ _ Hid Ht) as V.
    destruct (step_take ops _ _ _ _ _ _ _ _ Hid V Hok Hs) as (_ & _ & f & [= ->] & Hf).
    apply elem_of_list_In, in_concat in Hw as (l & Hl & Hw). apply in_map_iff in Hl as (r1 & <- & Hr1).
    apply elem_of_list_In in Hw. apply elem_of_list_In in Hr1. specialize (Hf r1).
    destruct (handshake_waiting s r1) as [hm|].
    { destruct Hf as [_ Hf]. rewrite Hf in Hw. by apply elem_of_list_singleton in Hw. }
    destruct (phase s r1) eqn:Ep; try (rewrite Hf in Hw by done; by apply elem_of_nil in Hw).
    destruct Hf as (e & e' & os & F1 & F2 & F3). rewrite F3 in Hw. apply elem_omap_id in Hw.
    destruct (encrypted_elem ops _ _ _ _ F2 r1 t _ F1 Hw) as (m1 & p & p' & e1 & e2 & G1 & _ & _ & _ & [= ->]).
    apply collapse_elem in G1. apply (v_recipient _ _ _ _ _ _ V) in G1. simpl in Hr. congruence.
Qed.

(** C20. The role of a new session is decided by who speaks first: calls with
    outgoing messages only ask the provider for an initiator, calls with incoming
    messages only for a recipient, and neither asks while a channel is in use. *)
Theorem C20_role_follows_direction : forall (s : comm) (g g' : hs_role -> option HS) mo mi r,
  (phase s (pm_recipient (om_msg mo)) <> PhUnknown \/ g Initiator = g' Initiator ->
     comm_step ops s (COut g mo) = comm_step ops s (COut g' mo)) /\
  (in_sender mi = Some r -> phase s r <> PhUnknown \/ g Recipient = g' Recipient ->
     comm_step ops s (CIn g mi) = comm_step ops s (CIn g' mi)).
Proof.
  intros s g g' mo mi r.
  assert (forall r a b, phase s r <> PhUnknown \/ a = b -> get_channel s r a = get_channel s r b) as HG.
  { intros r1 a b [H| ->]; [|done]. unfold get_channel. fold (chan0 s r1). unfold chan_initialized.
    rewrite phase_chan0. by destruct (phase s r1). }
  split.
  - intros H. simpl. unfold comm_out. destruct (_ =? 0); [done|]. by rewrite (HG _ _ _ H).
  - intros Hr H. simpl. unfold comm_in. destruct (_ =? 0); [done|]. rewrite Hr. by rewrite (HG _ _ _ H).
Qed.

(** C20. Before it is initialised with the replica's id the module takes no
    messages. *)
Theorem C20_uninitialised_module_refuses : forall (s : comm) g mo mi,
  cm_id s = 0 ->
  comm_step ops s (COut g mo) = Some (s, RUnit (Err InvalidOperation)) /\
  comm_step ops s (CIn g mi) = Some (s, RIn (Err InvalidOperation)).
Proof. intros s g mo mi H. simpl. unfold comm_out, comm_in. by rewrite H. Qed.

(** C20. If completed sessions yield encryptors and messages have contents, no
    history aborts the process. *)
Theorem C20_no_history_aborts : forall id retry timeout t s op,
  id <> 0 ->
  (forall h, hs_completed ops h = true -> is_Some (hs_encryptor ops h)) ->
  history id retry timeout t s ->
  (forall s1 op1 ret1, (s1, op1, ret1) ∈ t -> op_has_payload op1) ->
  cop_ok s op -> op_has_payload op ->
  is_Some (comm_step ops s op).
Proof. intros id retry timeout t s op. apply no_abort. Qed.
End Theorems.

Section OakTheorems.
Context {REQ RESP CS SS : Type}.
Variable client : oak_ops CS REQ RESP.
Variable server : oak_ops SS RESP REQ.
Notation ops := (default_ops client server).

(** C16. With the sessions of the code, the keys that decrypt a delivered
    message, and those that encrypt a message handed out, belong to an Oak session
    with that peer that reported being open (the peer was attested). *)
Theorem C16_delivered_messages_come_from_attested_peers : forall id retry timeout t s t1 s1 g m m' t2,
  id <> 0 -> comm_trace ops (comm_init comm_new id retry timeout) t s -> provided id t ->
  t = t1 ++ (s1, CIn g m, RIn (Ok (Some m'))) :: t2 ->
  exists pm p e e' plain, m = IPeer pm /\ pm_payload pm = Some p /\
    encryptor_from ops t1 (pm_sender pm) e /\ secured client server e /\
    en_decrypt ops e p = (e', Some plain) /\ m' = IPeer (carrying pm (Payload plain [])).
Proof.
  intros id retry timeout t s t1 s1 g m m' t2 Hid Ht [HP1 HP2] E.
  destruct (C16_only_authenticated_messages_are_delivered _ _ _ _ _ _ _ _ _ _ _ _ Hid Ht E)
    as (pm & p & e & e' & plain & -> & A & _ & B & C & ->).
  exists pm, p, e, e', plain. split_and!; try done. eapply (good_encryptor _ _ id); [|done].
  split.
  - intros. eapply HP1. rewrite E. apply elem_of_app. by left.
  - intros. eapply HP2; [|done]. rewrite E. apply elem_of_app. by left.
Qed.

Theorem C15_sent_messages_go_to_attested_peers : forall id retry timeout t s t1 s1 op ws t2 m,
  id <> 0 -> comm_trace ops (comm_init comm_new id retry timeout) t s -> provided id t ->
  t = t1 ++ (s1, op, RTake ws) :: t2 -> WPeer m ∈ ws ->
  exists e e' b p, encryptor_from ops t1 (pm_recipient m) e /\ secured client server e /\
    en_encrypt ops e b = (e', Some p) /\ pm_payload m = Some p.
Proof.
  intros id retry timeout t s t1 s1 op ws t2 m Hid Ht [HP1 HP2] E Hw.
  destruct (C15_only_ciphertext_leaves _ _ _ _ _ _ _ _ _ _ _ _ Hid Ht E Hw)
    as (r & [(hm & ? & _)|(m1 & p & p' & e & e' & s0 & g & ret & [= ->] & _ & Hr & _ & He & Hen)]); [done|].
  simpl. rewrite Hr. exists e, e', (pl_contents p), p'. split_and!; try done.
  eapply (good_encryptor _ _ id); [|done]. split.
  - intros. eapply HP1. rewrite E. apply elem_of_app. by left.
  - intros. eapply HP2; [|done]. rewrite E. apply elem_of_app. by left.
Qed.

(** C15, C16. The encryptors of the code do nothing but pass the contents
    through their Oak session: what is sent is the encrypted message the session
    produced right after accepting the plaintext, what is delivered is what the
    session read from the received encrypted message. *)
Theorem C15_contents_are_encrypted_by_the_session : forall e b e' p,
  en_encrypt ops e b = (e', Some p) ->
  match e, e' with
  | inl s, inl s' => exists s1 m, oak_write _ _ _ client s b = (s1, true) /\
      oak_out _ _ _ client s1 = (s', Some (Some m)) /\
      oak_carried _ _ _ client m = Some (pl_contents p, Some (pl_nonce p))
  | inr s, inr s' => exists s1 m, oak_write _ _ _ server s b = (s1, true) /\
      oak_out _ _ _ server s1 = (s', Some (Some m)) /\
      oak_carried _ _ _ server m = Some (pl_contents p, Some (pl_nonce p))
  | _, _ => False
  end.
Proof.
  intros [s|s] b e' p; simpl; unfold oak_encrypt.
  - destruct (oak_write _ _ _ client s b) as [s1 []] eqn:Ew; [|by intros [=]].
    destruct (oak_out _ _ _ client s1) as [s2 [[m|]|]] eqn:Eo; [|by intros [=]..].
    destruct (oak_carried _ _ _ client m) as [[c [n|]]|] eqn:Ec; [|by intros [=]..].
    intros [= <- <-]. simpl. eauto.
  - destruct (oak_write _ _ _ server s b) as [s1 []] eqn:Ew; [|by intros [=]].
    destruct (oak_out _ _ _ server s1) as [s2 [[m|]|]] eqn:Eo; [|by intros [=]..].
    destruct (oak_carried _ _ _ server m) as [[c [n|]]|] eqn:Ec; [|by intros [=]..].
    intros [= <- <-]. simpl. eauto.
Qed.

Theorem C16_contents_are_decrypted_by_the_session : forall e p e' b,
  en_decrypt ops e p = (e', Some b) ->
  match e, e' with
  | inl s, inl s' => exists s1,
      oak_in _ _ _ client s (oak_carry _ _ _ client (pl_contents p) (pl_nonce p)) = (s1, true) /\
      oak_read _ _ _ client s1 = (s', Some (Some b))
  | inr s, inr s' => exists s1,
      oak_in _ _ _ server s (oak_carry _ _ _ server (pl_contents p) (pl_nonce p)) = (s1, true) /\
      oak_read _ _ _ server s1 = (s', Some (Some b))
  | _, _ => False
  end.
Proof.
  intros [s|s] p e' b; simpl; unfold oak_decrypt.
  - destruct (oak_in _ _ _ client s _) as [s1 []] eqn:Ei; [|by intros [=]].
    destruct (oak_read _ _ _ client s1) as [s2 [[m|]|]] eqn:Eo; [|by intros [=]..].
    intros [= <- <-]. eauto.
  - destruct (oak_in _ _ _ server s _) as [s1 []] eqn:Ei; [|by intros [=]].
    destruct (oak_read _ _ _ server s1) as [s2 [[m|]|]] eqn:Eo; [|by intros [=]..].
    intros [= <- <-]. eauto.
Qed.

(** C20. With the sessions of the code, handshake messages are addressed to the
    peer and signed with this replica's id. *)
Theorem C20_handshake_messages_are_addressed_to_the_peer : forall id t r hm,
  provided id t -> made_by ops t r hm -> hm_recipient hm = r /\ hm_sender hm = id.
Proof.
  intros id t r hm HP (h & h' & Hs & Ht).
  pose proof (good_session _ _ _ _ _ _ HP Hs) as G.
  destruct (good_take _ _ _ _ _ _ _ G Ht) as [_ M]. by apply M.
Qed.

(** C20. With the sessions of the code, no history of calls whose messages have
    contents aborts. *)
Theorem C20_default_sessions_never_abort : forall id retry timeout t s op,
  id <> 0 -> comm_trace ops (comm_init comm_new id retry timeout) t s ->
  (forall s1 op1 ret1, (s1, op1, ret1) ∈ t -> op_has_payload op1) ->
  cop_ok s op -> op_has_payload op -> is_Some (comm_step ops s op).
Proof.
  intros id retry timeout t s op Hid Ht Hp Hok Hop. eapply no_abort; try done.
  apply default_completed_encryptor.
Qed.

(** C21. A handshake session is completed, and yields an encryptor, only when its
    Oak session reports being open; the encryptor is that session. *)
Theorem C21_completed_only_when_open : forall self peer,
  (forall s l h, hs_history (client_process client) (client_take client) (hsession_new self peer s) l h ->
     (h_completed h = true -> oak_open _ _ _ client (h_session _ h) = true) /\
     h_encryptor h = if h_completed h then Some (h_session _ h) else None) /\
  (forall s l h, hs_history (server_process server) (server_take server) (hsession_new self peer s) l h ->
     (h_completed h = true -> oak_open _ _ _ server (h_session _ h) = true) /\
     h_encryptor h = if h_completed h then Some (h_session _ h) else None).
Proof.
  intros self peer. split; intros s l h H.
  - destruct (client_history _ _ _ _ _ _ H) as (_ & _ & C & _). split; [|done].
    unfold h_completed. intros Hc. apply C. by destruct (h_state _ h).
  - destruct (server_history _ _ _ _ _ _ H) as (_ & _ & C & _). split; [|done].
    unfold h_completed. intros Hc. apply C. by destruct (h_state _ h).
Qed.

(** C21. Client sessions send requests, server sessions send responses, to the
    peer and in this replica's name. *)
Theorem C21_messages_of_a_session : forall self peer,
  (forall s l h m, hs_history (client_process client) (client_take client) (hsession_new self peer s) l h ->
     EvTake (Some (Some m)) ∈ l -> hm_recipient m = peer /\ hm_sender m = self /\ exists r, hm_body m = BRequest r) /\
  (forall s l h m, hs_history (server_process server) (server_take server) (hsession_new self peer s) l h ->
     EvTake (Some (Some m)) ∈ l -> hm_recipient m = peer /\ hm_sender m = self /\ exists r, hm_body m = BResponse r).
Proof.
  intros self peer. split; intros s l h m H Hin.
  - destruct (client_history _ _ _ _ _ _ H) as (_ & _ & _ & D). by apply D.
  - destruct (server_history _ _ _ _ _ _ H) as (_ & _ & _ & D). by apply D.
Qed.

(** C21. A session that completed or failed never changes again and sends
    nothing more; in particular a failed one never completes. *)
Theorem C21_finished_sessions_stay_finished :
  (forall h l h', h_state CS h = HCompleted \/ h_state _ h = HFailed ->
     hs_history (client_process client) (client_take client) h l h' ->
     h' = h /\ forall m, EvTake (Some (Some m)) ∉ l) /\
  (forall h l h', h_state SS h = HCompleted \/ h_state _ h = HFailed ->
     hs_history (server_process server) (server_take server) h l h' ->
     h' = h /\ forall m, EvTake (Some (Some m)) ∉ l).
Proof.
  split; intros h l h' Hst H.
  - induction H as [|l h1 m h2 b _ [-> IH] Hp|l h1 h2 o _ [-> IH] Ht].
    + split; [done|]. intros m Hm. by apply elem_of_nil in Hm.
    + destruct (client_process_spec _ _ _ _ _ Hp) as (_ & _ & _ & P & _). split; [by apply P|].
      intros m1 [Hm|Hm]%elem_of_app; [by eapply IH|]. by apply elem_of_list_singleton in Hm.
    + destruct (client_take_spec _ _ _ _ Ht) as (_ & _ & _ & P & _). destruct (P Hst) as [-> ->]. split; [done|].
      intros m1 [Hm|Hm]%elem_of_app; [by eapply IH|]. by apply elem_of_list_singleton in Hm.
  - induction H as [|l h1 m h2 b _ [-> IH] Hp|l h1 h2 o _ [-> IH] Ht].
    + split; [done|]. intros m Hm. by apply elem_of_nil in Hm.
    + destruct (server_process_spec _ _ _ _ _ Hp) as (_ & _ & _ & P). split; [by apply P|].
      intros m1 [Hm|Hm]%elem_of_app; [by eapply IH|]. by apply elem_of_list_singleton in Hm.
    + destruct (server_take_spec _ _ _ _ Ht) as (_ & _ & _ & P & _). destruct (P Hst) as [-> ->]. split; [done|].
      intros m1 [Hm|Hm]%elem_of_app; [by eapply IH|]. by apply elem_of_list_singleton in Hm.
Qed.

(** C21. In an unfinished session every message that is not the expected kind,
    or that the Oak session refuses, and every failure of the Oak session to
    produce its next message, is an error that fails the session for good. *)
Theorem C21_unexpected_messages_fail_the_session : forall self peer,
  (forall s l h m h' ok,
     hs_history (client_process client) (client_take client) (hsession_new self peer s) l h ->
     h_state _ h = HUnknown \/ h_state _ h = HInitiated -> client_process client h m = (h', ok) ->
     (ok = true /\ h_state _ h = HInitiated /\ h_state _ h' = HInitiated /\
        exists r, hm_body m = BResponse r /\ oak_in _ _ _ client (h_session _ h) r = (h_session _ h', true)) \/
     (ok = false /\ h_state _ h' = HFailed)) /\
  (forall s l h m h' ok,
     hs_history (server_process server) (server_take server) (hsession_new self peer s) l h ->
     h_state _ h = HUnknown \/ h_state _ h = HInitiated -> server_process server h m = (h', ok) ->
     (ok = true /\ h_state _ h' = HInitiated /\
        exists r, hm_body m = BRequest r /\ oak_in _ _ _ server (h_session _ h) r = (h_session _ h', true)) \/
     (ok = false /\ h_state _ h' = HFailed)) /\
  (forall s l h h',
     hs_history (client_process client) (client_take client) (hsession_new self peer s) l h ->
     client_take client h = (h', None) -> h_state _ h' = HFailed) /\
  (forall s l h h',
     hs_history (server_process server) (server_take server) (hsession_new self peer s) l h ->
     server_take server h = (h', None) -> h_state _ h' = HFailed).
Proof.
  intros self peer. split_and!.
  - intros s l [sf pr x st] m h' ok _ Hst H. unfold client_process in H. simpl in *.
    destruct Hst as [-> | ->]; [right; by simplify_eq/=|].
    destruct (hm_body m) as [r|r|]; [right; by simplify_eq/=| |right; by simplify_eq/=].
    destruct (oak_in _ _ _ client x r) as [x' []] eqn:E; simplify_eq/=; [left|by right]. eauto 10.
  - intros s l [sf pr x st] m h' ok _ Hst H. unfold server_process in H. simpl in *.
    assert (match hm_body m with
      | BRequest r => match oak_in _ _ _ server x r with
        | (s', true) => (h_with (HSession _ sf pr x st) s' HInitiated, true)
        | (s', false) => (h_with (HSession _ sf pr x st) s' HFailed, false) end
      | _ => (h_with (HSession _ sf pr x st) x HFailed, false) end = (h', ok)) as H'.
    { by destruct Hst as [-> | ->]. }
    clear H. destruct (hm_body m) as [r|r|]; [|right; by simplify_eq/=..].
    destruct (oak_in _ _ _ server x r) as [x' []] eqn:E; simplify_eq/=; [left|by right]. eauto 10.
  - intros s l [sf pr x st] h' _ H. unfold client_take in H. simpl in *.
    destruct st; try done; destruct (oak_out _ _ _ client x) as [x' [|]]; by simplify_eq/=.
  - intros s l [sf pr x st] h' _ H. unfold server_take in H. simpl in *.
    destruct st; try done; destruct (oak_out _ _ _ server x) as [x' [|]]; by simplify_eq/=.
Qed.

(** C21. A session that has not finished goes on exactly as its Oak session
    does: a message of the wrong direction, or one the Oak session refuses, fails
    it; when the Oak session is open after an outgoing step, it completes. *)
Theorem C21_progress : forall self peer,
  (forall s m, snd (client_process client (hsession_new self peer s) m) = false) /\
  (forall s r s' x,
     oak_in _ _ _ client s r = (s', true) -> oak_out _ _ _ client s' = (x, Some None) -> oak_open _ _ _ client x = true ->
     let h := HSession CS self peer s HInitiated in
     forall from to, let '(h1, ok) := client_process client h (HsMsg from to (BResponse r)) in
     ok = true /\ let '(h2, o) := client_take client h1 in
       o = Some None /\ h_completed h2 = true /\ h_encryptor h2 = Some x) /\
  (forall s r s' x y,
     oak_in _ _ _ server s r = (s', true) -> oak_out _ _ _ server s' = (x, Some (Some y)) -> oak_open _ _ _ server x = true ->
     let h := hsession_new self peer s in
     forall from to, let '(h1, ok) := server_process server h (HsMsg from to (BRequest r)) in
     ok = true /\ let '(h2, o) := server_take server h1 in
       o = Some (Some (HsMsg peer self (BResponse y))) /\ h_completed h2 = true /\ h_encryptor h2 = Some x).
Proof.
  intros self peer. split_and!.
  - done.
  - intros s r s' x H1 H2 H3 h from to. unfold client_process. simpl. rewrite H1. split; [done|].
    unfold client_take. simpl. rewrite H2, H3. done.
  - intros s r s' x y H1 H2 H3 h from to. unfold server_process. simpl. rewrite H1. split; [done|].
    unfold server_take. simpl. rewrite H2, H3. done.
Qed.
End OakTheorems.

(** ** A concrete case: two replicas with toy Oak sessions *)

(** A session: stage of the handshake (2: open), plaintext to send, plaintext
    received. The client sends a hello ([None]), the server answers it, both are
    open; an encrypted message is the plaintext with 1 added to each byte. *)
Definition toy_state : Type := N * option bytes * option bytes.
Definition toy (is_client : bool) : oak_ops toy_state (option bytes) (option bytes) :=
  OakOps _ _ _
    (fun '(st, o, i) =>
       if st =? 2 then
         match o with
         | Some b => ((st, None, i), Some (Some (Some (map (N.add 1) b))))
         | None => ((st, None, i), Some None)
         end
       else if is_client then
         if st =? 0 then ((1, o, i), Some (Some None)) else ((st, o, i), Some None)
       else if st =? 1 then ((2, o, i), Some (Some None)) else ((st, o, i), Some None))
    (fun '(st, o, i) m =>
       match m with
       | None => if is_client then if st =? 1 then ((2, o, i), true) else ((st, o, i), false)
                 else if st =? 0 then ((1, o, i), true) else ((st, o, i), false)
       | Some c => if st =? 2 then ((st, o, Some (map N.pred c)), true) else ((st, o, i), false)
       end)
    (fun '(st, o, i) => st =? 2)
    (fun '(st, o, i) b => ((st, Some b, i), st =? 2))
    (fun '(st, o, i) => ((st, o, None), Some i))
    (fun m => match m with Some c => Some (c, Some [7]) | None => None end)
    (fun c n => Some c).

Definition toy_ops := default_ops (toy true) (toy false).
Definition toy_provider (self peer : N) : hs_role -> option (hsession toy_state + hsession toy_state) :=
  provider_get self peer (Some (0, None, None)) (Some (0, None, None)).
Definition toy_comm := comm (option bytes) (option bytes) (hsession toy_state + hsession toy_state) (toy_state + toy_state).
Definition toy_op := comm_op (option bytes) (option bytes) (hsession toy_state + hsession toy_state).
Definition toy_trace := @ctrace (option bytes) (option bytes) (hsession toy_state + hsession toy_state) (toy_state + toy_state).

(** Runs calls, handing out in the map's own order. *)
Fixpoint toy_run (s : toy_comm) (l : list toy_op) : option (toy_trace * toy_comm) :=
  match l with
  | [] => Some ([], s)
  | op :: l' =>
    let op := match op with CTake _ => CTake (map_to_list (cm_replicas s)).*1 | _ => op end in
    match comm_step toy_ops s op with
    | None => None
    | Some (s', ret) => match toy_run s' l' with
                        | Some (t, s'') => Some ((s, op, ret) :: t, s'')
                        | None => None
                        end
    end
  end.

Lemma comm_trace_cons s op s' ret t s'' : cop_ok s op -> comm_step toy_ops s op = Some (s', ret) ->
  comm_trace toy_ops s' t s'' -> comm_trace toy_ops s ((s, op, ret) :: t) s''.
Proof.
  intros Hok Hs. induction 1 as [|t s1 op1 s2 ret1 Ht IH Hok1 Hs1].
  - exact (ctrace_snoc _ _ [] _ _ _ _ (ctrace_nil _ _) Hok Hs).
  - rewrite app_comm_cons. by eapply ctrace_snoc.
Qed.

Lemma toy_run_trace l : forall s t s', toy_run s l = Some (t, s') -> comm_trace toy_ops s t s'.
Proof.
  induction l as [|op l IH]; intros s t s' H; simpl in H.
  { injection H as <- <-. constructor. }
  destruct (comm_step _ _ _) as [[s1 ret]|] eqn:Es; [|done].
  destruct (toy_run s1 l) as [[t1 s2]|] eqn:Er; [|done]. injection H as <- <-.
  eapply comm_trace_cons; [|done|by apply IH]. destruct op; simpl; try done; reflexivity.
Qed.

Definition msg_to (from to : N) (b : bytes) : out_msg :=
  OutMsg (PeerMsg KSystem to from 0 (Some (Payload b []))) false.
Definition beat_to (from to : N) (b : bytes) : out_msg :=
  OutMsg (PeerMsg KSystem to from 0 (Some (Payload b []))) true.

Definition hello : hs_msg (option bytes) (option bytes) := HsMsg 2 1 (BRequest None).
Definition reply : hs_msg (option bytes) (option bytes) := HsMsg 1 2 (BResponse None).

(** Replica 1 sends to replica 2: two messages with heartbeats between them, the
    handshake, the queue, another message. *)
Definition sender_calls : list toy_op :=
  [COut (toy_provider 1 2) (msg_to 1 2 [10]); COut (toy_provider 1 2) (beat_to 1 2 [20]);
   COut (toy_provider 1 2) (msg_to 1 2 [30]); COut (toy_provider 1 2) (beat_to 1 2 [40]);
   CTake []; CTick; CIn (toy_provider 1 2) (IHandshake reply); CTake [];
   COut (toy_provider 1 2) (msg_to 1 2 [50]); CTake []].
Definition takes (t : toy_trace) : list (list (wire (option bytes) (option bytes))) :=
  omap (fun '(_, _, ret) => match ret with RTake ws => Some ws | _ => None end) t.
Definition delivered (t : toy_trace) : list (in_msg (option bytes) (option bytes)) :=
  omap (fun '(_, _, ret) => match ret with RIn (Ok (Some m)) => Some m | _ => None end) t.
Definition cipher (from to : N) (b : bytes) : peer_msg := PeerMsg KSystem to from 0 (Some (Payload b [7])).
Definition plain (from to : N) (b : bytes) : peer_msg := PeerMsg KSystem to from 0 (Some (Payload b [])).

Example C15_C17_example :
  (fun '(t, s) => (takes t, phase s 2)) <$> toy_run (comm_init comm_new 1 3 5) sender_calls =
  Some ([[WHandshake hello];
         [WPeer (cipher 1 2 [11]); WPeer (cipher 1 2 [41]); WPeer (cipher 1 2 [31])];
         [WPeer (cipher 1 2 [51])]], PhCompleted).
Proof. vm_compute. reflexivity. Qed.

(** ... and replica 2 receives them. *)
Definition receiver_calls : list toy_op :=
  [CIn (toy_provider 2 1) (IHandshake hello); CTake [];
   CIn (toy_provider 2 1) (IPeer (cipher 1 2 [11])); CIn (toy_provider 2 1) (IPeer (cipher 1 2 [41]));
   CIn (toy_provider 2 1) (IPeer (cipher 1 2 [31]))].
Example C16_example :
  (fun '(t, s) => (takes t, delivered t, phase s 1)) <$> toy_run (comm_init comm_new 2 3 5) receiver_calls =
  Some ([[WHandshake reply]],
        [IPeer (plain 1 2 [10]); IPeer (plain 1 2 [40]); IPeer (plain 1 2 [30])], PhCompleted).
Proof. vm_compute. reflexivity. Qed.

(** These histories meet the hypotheses of the theorems. *)
Lemma toy_provided self peer l : forall s t s', toy_run s l = Some (t, s') ->
  Forall (fun op => match op with
                    | COut g m => g = toy_provider self peer /\ pm_recipient (om_msg m) = peer
                    | CIn g m => g = toy_provider self peer /\ in_sender m = Some peer
                    | _ => True
                    end) l ->
  provided self t.
Proof.
  assert (forall s t s', toy_run s l = Some (t, s') -> forall x, x ∈ t -> match x.1.2 with CTake _ => True | op => op ∈ l end) as Hin.
  { induction l as [|op l IH]; intros s t s' H; simpl in H.
    { injection H as <- <-. intros x Hx. by apply elem_of_nil in Hx. }
    destruct (comm_step _ _ _) as [[s1 ret]|] eqn:Es; [|done].
    destruct (toy_run s1 l) as [[t1 s2]|] eqn:Er; [|done]. injection H as <- <-.
    intros x [->|Hx]%elem_of_cons; simpl.
    - destruct op; try done; left.
    - specialize (IH _ _ _ Er x Hx). destruct (x.1.2); try done; by right. }
  intros s t s' H HF. rewrite Forall_forall in HF. split.
  - intros s1 g m ret Hx. specialize (HF _ (Hin _ _ _ H _ Hx)). simpl in HF. destruct HF as [-> <-].
    eexists _, _. done.
  - intros s1 g m ret r Hx Hr. specialize (HF _ (Hin _ _ _ H _ Hx)). simpl in HF. destruct HF as [-> E].
    assert (r = peer) as -> by congruence. eexists _, _. done.
Qed.

Example C15_C16_hypotheses_met : exists t s t' s',
  comm_trace toy_ops (comm_init comm_new 1 3 5) t s /\ provided 1 t /\ takes t <> [] /\
  comm_trace toy_ops (comm_init comm_new 2 3 5) t' s' /\ provided 2 t' /\ delivered t' <> [].
Proof.
  pose proof C15_C17_example as H. pose proof C16_example as H'.
  destruct (toy_run (comm_init comm_new 1 3 5) sender_calls) as [[t s]|] eqn:E; [|done].
  destruct (toy_run (comm_init comm_new 2 3 5) receiver_calls) as [[t' s']|] eqn:E'; [|done].
  cbn [fmap option_fmap option_map] in H, H'.
  assert (takes t <> []) as Ht by (intros X; rewrite X in H; discriminate H).
  assert (delivered t' <> []) as Ht' by (intros X; rewrite X in H'; discriminate H').
  clear H H'. exists t, s, t', s'. split_and!; [| |done| | |done].
  - exact (toy_run_trace _ _ _ _ E).
  - apply (toy_provided 1 2 _ _ _ _ E). unfold sender_calls. repeat constructor.
  - exact (toy_run_trace _ _ _ _ E').
  - apply (toy_provided 2 1 _ _ _ _ E'). unfold receiver_calls. repeat constructor.
Qed.

(** The peer does not answer: the handshake times out after 5 ticks, is given up
    after 3 more, the message waits all the while and a second attempt starts
    with the next message; when the peer is removed, all is forgotten. *)
Definition unanswered_calls : list toy_op :=
  [COut (toy_provider 1 2) (msg_to 1 2 [10]); CTake []; CTick; CTick; CTick; CTick; CTick].
Example C18_C19_example :
  (fun '(t, s) => (phase s 2, queue s 2, ticks t)) <$> toy_run (comm_init comm_new 1 3 5) unanswered_calls =
    Some (PhFailed 0, [msg_to 1 2 [10]], 5) /\
  (fun '(_, s) => (phase s 2, queue s 2)) <$>
    toy_run (comm_init comm_new 1 3 5) (unanswered_calls ++ [CTick; CTick; CTick]) =
    Some (PhUnknown, [msg_to 1 2 [10]]) /\
  (fun '(_, s) => (phase s 2, queue s 2, handshake_waiting s 2)) <$> toy_run (comm_init comm_new 1 3 5)
      (unanswered_calls ++ [CTick; CTick; CTick; COut (toy_provider 1 2) (msg_to 1 2 [20])]) =
    Some (PhInitiated 0, [msg_to 1 2 [10]; msg_to 1 2 [20]], Some hello) /\
  (fun '(_, s) => (phase s 2, queue s 2)) <$>
    toy_run (comm_init comm_new 1 3 5) (unanswered_calls ++ [CCluster [1; 3]]) =
    Some (PhUnknown, []).
Proof. split_and!; vm_compute; reflexivity. Qed.

(** A handshake message on a completed channel fails it; and when both replicas
    speak first at the same time, both handshakes fail. *)
Example C20_example :
  (fun '(t, s) => (phase s 1, length (delivered t))) <$> toy_run (comm_init comm_new 2 3 5)
       (receiver_calls ++ [CIn (toy_provider 2 1) (IHandshake hello); CIn (toy_provider 2 1) (IPeer (cipher 1 2 [51]))]) =
    Some (PhFailed 0, 3%nat) /\
  (fun '(_, s) => (phase s 1, queue s 1)) <$> toy_run (comm_init comm_new 2 3 5)
       [COut (toy_provider 2 1) (msg_to 2 1 [60]); CTake []; CIn (toy_provider 2 1) (IHandshake hello)] =
    Some (PhFailed 0, [msg_to 2 1 [60]]).
Proof. split; vm_compute; reflexivity. Qed.

Example C21_example : exists h,
  hs_history (client_process (toy true)) (client_take (toy true)) (hsession_new 1 2 (0, None, None))
    [EvTake (Some (Some hello)); EvProcess reply true; EvTake (Some None)] h /\
  h_completed h = true.
Proof.
  eexists. split.
  - apply (hh_take _ _ _ [EvTake (Some (Some hello)); EvProcess reply true] (HSession _ 1 2 (2, None, None) HInitiated)); [|reflexivity].
    apply (hh_process _ _ _ [EvTake (Some (Some hello))] (HSession _ 1 2 (1, None, None) HInitiated)); [|reflexivity].
    apply (hh_take _ _ _ [] (hsession_new 1 2 (0, None, None))); [constructor|reflexivity].
  - reflexivity.
Qed.
