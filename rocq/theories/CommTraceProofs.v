(** Proofs about histories of the secure channels. *)
From Verif Require Import Base CommModel CommSpec CommProofs.

Section Hist.
Context {REQ RESP HS EN : Type}.
Variable ops : session_ops REQ RESP HS EN.
Notation comm := (comm REQ RESP HS EN).
Notation chan := (chan REQ RESP HS EN).
Notation ctrace := (@ctrace REQ RESP HS EN).

Lemma trace_split s0 t s : comm_trace ops s0 t s ->
  forall t1 s1 op ret t2, t = t1 ++ (s1, op, ret) :: t2 ->
  comm_trace ops s0 t1 s1 /\ cop_ok s1 op /\ exists s2, comm_step ops s1 op = Some (s2, ret).
Proof.
  induction 1 as [|t s op s' ret Ht IH Hok Hs]; intros t1 s1 op1 ret1 t2 E.
  - by destruct t1.
  - destruct t2 as [|x t2] using rev_ind.
    + apply app_inj_tail in E as [<- [= <- <- <-]]. eauto.
    + rewrite app_comm_cons, app_assoc in E. apply app_inj_tail in E as [E _]. eauto.
Qed.

(** ** Sessions are fresh *)
Definition pinv (t : ctrace) (to r : N) (s : comm) : Prop :=
  cm_timeout s = to /\ cm_id s <> 0 /\ forall c, cm_replicas s !! r = Some c -> kinv ops t to r c.

Lemma pinv_chan0 t to r s : pinv t to r s -> kinv ops t to r (chan0 s r) /\ ch_phase (chan0 s r) = phase s r.
Proof.
  intros (T & _ & V). unfold chan0, phase. destruct (cm_replicas s !! r) as [c|] eqn:E.
  - split; [by apply V|done].
  - rewrite T. split; [apply kinv_new|done].
Qed.

Lemma pinv_lookup t to r (s s' : comm) x : pinv t to r s -> cm_timeout s' = cm_timeout s -> cm_id s' = cm_id s ->
  (forall c, cm_replicas s' !! r = Some c -> cm_replicas s !! r = Some c \/ kinv ops (t ++ [x]) to r c) ->
  pinv (t ++ [x]) to r s'.
Proof.
  intros (A & B & C) HT HI HL. split_and!; try congruence. intros c Hc.
  destruct (HL c Hc) as [H|H]; [|done]. apply kinv_mono. by apply C.
Qed.

Lemma pinv_step t to r s op s' ret : pinv t to r s -> cop_ok s op ->
  comm_step ops s op = Some (s', ret) -> pinv (t ++ [(s, op, ret)]) to r s'.
Proof.
  intros V Hok H. destruct op as [g m|g m|ord|ids|]; simpl in H.
  - unfold comm_out in H. destruct (N.eqb_spec (cm_id s) 0) as [E|E]; [by destruct V as (_ & ? & _)|].
    remember (pm_recipient (om_msg m)) as r1 eqn:Hr1.
    destruct (get_channel s r1 (g Initiator)) as [s1 rc] eqn:Eg.
    destruct (get_channel_spec _ _ _ _ _ Eg) as [-> Hrc].
    destruct rc as [c|e|]; [|injection H as <- <-|done].
    + destruct (chan_out ops c m) as [[c' b]|e|] eqn:Eo; [| |done].
      * injection H as <- <-. rewrite with_with. simpl. rewrite insert_insert.
        apply (pinv_lookup _ _ _ s); [done..|]. intros c1. rewrite lookup_with.
        destruct (N.eqb_spec r1 r) as [->|Hne]; [|by left]. intros [= <-]. right.
        destruct (pinv_chan0 _ _ _ _ V) as [K P].
        destruct Hrc as [[Hp ->]|(Hp & h & Hg & ->)]; try clear Eg.
        -- refine (proj1 (kinv_out ops _ _ _ _ m c' b _ _ Eo)); [|by rewrite P]. left. by apply kinv_mono.
        -- refine (proj1 (kinv_out ops _ _ _ _ m c' b _ _ Eo)); [|done]. right. exists h, (chan0 s r).
           split_and!; [by apply kinv_mono| |congruence|done].
           eapply sf_initiator; [|done|done]. apply elem_of_app. right. by apply elem_of_list_singleton.
      * exfalso. clear -Eo. unfold chan_out in Eo. repeat (case_match; try done).
    + apply (pinv_lookup _ _ _ s); [done..|]. intros c1. rewrite lookup_with.
      destruct (N.eqb_spec r1 r) as [<-|Hne]; [|by left]. intros [= <-]. right.
      apply kinv_mono. by apply pinv_chan0.
  - unfold comm_in in H. destruct (N.eqb_spec (cm_id s) 0) as [E|E]; [by destruct V as (_ & ? & _)|].
    destruct (in_sender m) as [r1|] eqn:Es.
    2:{ injection H as <- <-. apply (pinv_lookup _ _ _ s); [done..|]. by left. }
    destruct (get_channel s r1 (g Recipient)) as [s1 rc] eqn:Eg.
    destruct (get_channel_spec _ _ _ _ _ Eg) as [-> Hrc].
    destruct rc as [c|e|]; [|injection H as <- <-|done].
    + destruct (chan_in ops c m) as [[c' b]|e|] eqn:Eo; [| |done].
      * injection H as <- <-. rewrite with_with. simpl. rewrite insert_insert.
        apply (pinv_lookup _ _ _ s); [done..|]. intros c1. rewrite lookup_with.
        destruct (N.eqb_spec r1 r) as [->|Hne]; [|by left]. intros [= <-]. right.
        destruct (pinv_chan0 _ _ _ _ V) as [K P].
        assert (exists s0 g0 ret0, (s0, CIn g0 m, ret0) ∈ t ++ [(s, CIn g m, RIn (Ok b))]) as Hin.
        { exists s, g, (RIn (Ok b)). apply elem_of_app. right. by apply elem_of_list_singleton. }
        destruct Hrc as [[Hp ->]|(Hp & h & Hg & ->)]; try clear Eg.
        -- refine (proj1 (kinv_in ops _ _ _ _ m c' b _ _ Hin Es Eo)); [|by rewrite P]. left. by apply kinv_mono.
        -- refine (proj1 (kinv_in ops _ _ _ _ m c' b _ _ Hin Es Eo)); [|done]. right. exists h, (chan0 s r).
           split_and!; [by apply kinv_mono| |congruence|done].
           eapply sf_recipient; [|done|done]. apply elem_of_app. right. by apply elem_of_list_singleton.
      * exfalso. clear -Eo. unfold chan_in, chan_decrypt in Eo. repeat (case_match; try done).
    + apply (pinv_lookup _ _ _ s); [done..|]. intros c1. rewrite lookup_with.
      destruct (N.eqb_spec r1 r) as [<-|Hne]; [|by left]. intros [= <-]. right.
      apply kinv_mono. by apply pinv_chan0.
  - unfold comm_take in H. destruct (take_all ops (cm_replicas s) ord) as [[m' ws]|x|] eqn:Et; try done.
    simpl in H. injection H as <- <-. simpl in Hok.
    assert (NoDup ord) as Hnd. { rewrite Hok. apply NoDup_fst_map_to_list. }
    destruct (take_all_spec _ _ _ _ _ Hnd Et) as (f & -> & F1 & F2 & F3).
    apply (pinv_lookup _ _ _ s); [done..|]. intros c Hc. simpl in Hc.
    destruct (decide (r ∈ ord)) as [Hin|Hni]; [|left; by rewrite <- F1].
    right. destruct (cm_replicas s !! r) as [c0|] eqn:Ec; [|destruct (F2 r Ec); congruence].
    destruct (F3 _ _ Hin Ec) as (c1 & T1 & T2). assert (c1 = c) as -> by congruence.
    apply kinv_mono. destruct V as (_ & _ & V). by eapply chan_take_spec; [apply V|].
  - injection H as <- <-. apply (pinv_lookup _ _ _ s); [done| | |].
    + unfold comm_cluster_change. by destruct (existsb _ _).
    + unfold comm_cluster_change. by destruct (existsb _ _).
    + intros c Hc. left. unfold comm_cluster_change in Hc. destruct (existsb _ _); simpl in Hc; [|done].
      by apply map_filter_lookup_Some in Hc as [? _].
  - injection H as <- <-. apply (pinv_lookup _ _ _ s); [done..|]. intros c. simpl. rewrite lookup_fmap.
    destruct (cm_replicas s !! r) as [c0|] eqn:Ec; [|done]. simpl. intros [= <-]. right. apply kinv_mono.
    destruct V as (_ & _ & V). by apply kinv_tick, V.
Qed.

Lemma pinv_trace s0 t s r : cm_id s0 <> 0 -> pinv [] (cm_timeout s0) r s0 -> comm_trace ops s0 t s ->
  pinv t (cm_timeout s0) r s.
Proof. intros Hid H0. induction 1; [done|]. by apply pinv_step. Qed.

(** A channel that is unknown holds nothing. *)
Lemma pinv_unknown t to r s : pinv t to r s -> phase s r = PhUnknown -> pinv [] to r s.
Proof.
  intros (A & B & C) P. split_and!; try done. intros c Hc. specialize (C c Hc).
  unfold phase in P. rewrite Hc in P. destruct C as [D E F G I]. rewrite P in I. destruct I as (I1 & I2 & I3).
  constructor; [done|..]; rewrite ?I1, ?I2, ?I3; try done. by rewrite P.
Qed.

Lemma init_pinv id retry timeout t s r : id <> 0 ->
  comm_trace ops (comm_init comm_new id retry timeout) t s -> pinv t timeout r s.
Proof. intros Hid H. by apply (pinv_trace (comm_init comm_new id retry timeout)). Qed.

Lemma fresh_pinv id retry timeout t0 s0 t s r : id <> 0 ->
  comm_trace ops (comm_init comm_new id retry timeout) t0 s0 -> phase s0 r = PhUnknown ->
  comm_trace ops s0 t s -> pinv t timeout r s.
Proof.
  intros Hid H0 P H. pose proof (init_pinv _ _ _ _ _ r Hid H0) as V.
  assert (cm_timeout s0 = timeout) as <- by apply V.
  apply (pinv_trace s0); [apply V| |done]. by eapply pinv_unknown.
Qed.

(** ** What is handed out *)
Lemma encrypted_elem e q os e' : encrypted ops e q os e' -> forall r t w, encryptor_from ops t r e ->
  Some w ∈ os -> exists m p p' e1 e2, m ∈ q /\ pm_payload (om_msg m) = Some p /\
    encryptor_from ops t r e1 /\ en_encrypt ops e1 (pl_contents p) = (e2, Some p') /\
    w = WPeer (with_payload (om_msg m) p').
Proof.
  induction 1 as [e|e m p e1 o e2 q ws Hp He Hq IH]; intros r t w Hf Hin; [by apply elem_of_nil in Hin|].
  apply elem_of_cons in Hin as [Hin|Hin].
  - destruct o as [p'|]; [|done]. simpl in Hin. injection Hin as ->.
    exists m, p, p', e, e1. split_and!; try done. left.
  - destruct (IH r t w) as (m' & p1 & p' & e3 & e4 & ? & ?); [by eapply ef_encrypt|done|].
    exists m', p1, p', e3, e4. split; [by right|done].
Qed.

Lemma elem_omap_id {A} (os : list (option A)) w : w ∈ omap id os <-> Some w ∈ os.
Proof.
  rewrite elem_of_list_omap. split; [intros (x & Hx & Hw)|intros H; exists (Some w); done].
  by rewrite <- Hw.
Qed.

(** The part of a handing out that concerns [r], with sessions since [r] was
    unknown. *)
Lemma take_chan (s : comm) ord s' ws : cop_ok s (CTake ord : comm_op REQ RESP HS) ->
  comm_step ops s (CTake ord) = Some (s', RTake ws) ->
  exists f, ws = concat (map f ord) /\
    forall r, (r ∈ ord <-> is_Some (cm_replicas s !! r)) /\
      forall c, cm_replicas s !! r = Some c -> exists c', chan_take ops c = Ok (c', f r) /\ cm_replicas s' !! r = Some c'.
Proof.
  intros Hok H. simpl in H, Hok. unfold comm_take in H.
  destruct (take_all ops (cm_replicas s) ord) as [[m' ws']|x|] eqn:Et; try done. simpl in H. injection H as <- ->.
  assert (NoDup ord) as Hnd. { rewrite Hok. apply NoDup_fst_map_to_list. }
  assert (forall k, k ∈ ord <-> is_Some (cm_replicas s !! k)) as Hdom.
  { intros k. rewrite Hok. rewrite elem_of_list_fmap. split.
    - intros ([k' c] & -> & Hin). apply elem_of_map_to_list in Hin. eauto.
    - intros [c Hc]. exists (k, c). split; [done|]. by apply elem_of_map_to_list. }
  destruct (take_all_spec _ _ _ _ _ Hnd Et) as (f & -> & F1 & F2 & F3).
  exists f. split; [done|]. intros r. split; [done|]. intros c Hc. apply F3; [apply Hdom; eauto|done].
Qed.

Lemma unsent_accepted r (t : ctrace) m : m ∈ unsent ops r t -> m ∈ accepted_for ops r t.
Proof.
  revert m. induction t as [|[[s op] ret] t IH] using rev_ind; intros m.
  { intros H. by apply elem_of_nil in H. }
  rewrite unsent_snoc. unfold accepted_for. rewrite flat_map_app. fold (accepted_for ops r t).
  rewrite elem_of_app. destruct op as [g m1|g m1|ord|ids|]; simpl.
  - destruct (_ && _); [|naive_solver]. rewrite elem_of_app. naive_solver.
  - naive_solver.
  - destruct (flushes s r); [|naive_solver]. intros H. by apply elem_of_nil in H.
  - destruct (stays s r ids); [naive_solver|]. intros H. by apply elem_of_nil in H.
  - naive_solver.
Qed.

Lemma accepted_out r (t : ctrace) m : m ∈ accepted_for ops r t ->
  pm_recipient (om_msg m) = r /\ exists s g ret, (s, COut g m, ret) ∈ t.
Proof.
  unfold accepted_for. rewrite elem_of_list_In, in_flat_map. intros ([[s op] ret] & Hin & H).
  apply elem_of_list_In in Hin. destruct op; simpl in H; try done.
  destruct (N.eqb_spec (pm_recipient (om_msg m0)) r); [|done]. simpl in H.
  destruct (accepted ops s r g); [|done]. destruct H as [<-|[]]. split; [done|]. eauto.
Qed.

(** ** Order *)
Lemma collapse_without l : without_heartbeats (collapse l) = without_heartbeats l.
Proof.
  unfold without_heartbeats. destruct (hb_split l) as [Hn|(a & x & b & -> & Ha & Hx)].
  - by rewrite collapse_none.
  - rewrite collapse_split by done. destruct (last_filter_hb x b Hx) as (y & -> & Hy). simpl.
    rewrite !filter_app, (filter_cons_False _ y), (filter_cons_False _ x) by tauto.
    f_equal. clear. induction b as [|z b IH]; [done|].
    destruct (decide (is_hb z)) as [Hz|Hz].
    + rewrite !(filter_cons_False (fun m => ~ is_hb m)) by tauto. done.
    + rewrite !(filter_cons_True (fun m => ~ is_hb m)) by tauto. by rewrite IH.
Qed.

Lemma collapse_heartbeats l :
  filter is_hb (collapse l) = match last (filter is_hb l) with Some m => [m] | None => [] end.
Proof.
  destruct (hb_split l) as [Hn|(a & x & b & -> & Ha & Hx)].
  - rewrite collapse_none by done. assert (filter is_hb l = []) as ->; [|done].
    induction Hn; [done|]. by rewrite filter_cons_False.
  - rewrite collapse_split by done. destruct (last_filter_hb x b Hx) as (y & E & Hy). rewrite E. simpl.
    rewrite !filter_app. assert (filter is_hb a = []) as ->.
    { clear -Ha. induction Ha; [done|]. by rewrite filter_cons_False. }
    simpl. rewrite filter_cons_True by done. rewrite E.
    assert (filter is_hb (filter (fun m => ~ is_hb m) b) = []) as ->; [|done].
    clear. induction b as [|z b IH]; [done|]. destruct (decide (is_hb z)) as [Hz|Hz].
    + rewrite filter_cons_False by tauto. done.
    + rewrite filter_cons_True by tauto. by rewrite filter_cons_False.
Qed.

Definition wires_of (r : N) (ws : list (wire REQ RESP)) : list peer_msg :=
  flat_map (fun w => match w with
                     | WPeer m => if pm_recipient m =? r then [m] else []
                     | _ => []
                     end) ws.

Lemma wires_of_app r a b : wires_of r (a ++ b) = wires_of r a ++ wires_of r b.
Proof. apply flat_map_app. Qed.

Lemma wires_of_none r ws : (forall m, WPeer m ∈ ws -> pm_recipient m <> r) -> wires_of r ws = [].
Proof.
  induction ws as [|w ws IH]; intros H; [done|]. change (w :: ws) with ([w] ++ ws). rewrite wires_of_app.
  rewrite IH by (intros m Hm; apply H; by right). rewrite app_nil_r. simpl.
  destruct w as [hm|m]; [done|]. destruct (N.eqb_spec (pm_recipient m) r) as [E|]; [|done].
  exfalso. apply (H m); [left|done].
Qed.

(** Messages with what they became. *)
Definition shipped (m : out_msg) (o : option payload) : option peer_msg :=
  with_payload (om_msg m) <$> o.

Lemma encrypted_shipped e q os e' r : encrypted ops e q os e' ->
  (forall m, m ∈ q -> pm_recipient (om_msg m) = r) ->
  exists ps, length ps = length q /\
    wires_of r (omap id os) = omap (fun '(m, o) => shipped m o) (zip q ps).
Proof.
  induction 1 as [e|e m p e1 o e2 q ws Hp He Hq IH]; intros Hr; [by exists []|].
  destruct IH as (ps & Hl & Hps); [intros x Hx; apply Hr; by right|].
  exists (o :: ps). split; [simpl; by rewrite Hl|].
  destruct o as [p'|]; simpl; [|done]. rewrite (Hr m), N.eqb_refl by left. simpl. f_equal. exact Hps.
Qed.

Lemma concat_wires r (f : N -> list (wire REQ RESP)) ord : NoDup ord ->
  (forall r', r' ∈ ord -> r' <> r -> wires_of r (f r') = []) ->
  wires_of r (concat (map f ord)) = if decide (r ∈ ord) then wires_of r (f r) else [].
Proof.
  intros Hn Ho. induction Hn as [|k ord Hk Hn IH]; [done|]. simpl. rewrite wires_of_app, IH.
  2:{ intros r' Hr'. apply Ho. by right. }
  destruct (decide (r = k)) as [->|Hne].
  - rewrite decide_False by done. rewrite decide_True by left. by rewrite app_nil_r.
  - rewrite (Ho k) by (done || left). simpl.
    destruct (decide (r ∈ ord)) as [Hi|Hi].
    + by rewrite decide_True by (by right).
    + rewrite decide_False; [done|]. intros [?|?]%elem_of_cons; done.
Qed.

(** Everything handed out to [r] so far is the encryption of a list of
    messages which, heartbeats aside, is made of accepted messages in their
    order. *)
Lemma handed_out_order id retry timeout t s r : id <> 0 ->
  comm_trace ops (comm_init comm_new id retry timeout) t s ->
  exists sent : list (out_msg * option payload),
    handed_out r t = omap (fun '(m, o) => shipped m o) sent /\
    without_heartbeats sent.*1 ++ without_heartbeats (unsent ops r t)
      `sublist_of` without_heartbeats (accepted_for ops r t) /\
    ((forall s1 ids ret, (s1, CCluster ids, ret) ∈ t -> stays s1 r ids = true) ->
      without_heartbeats sent.*1 ++ without_heartbeats (unsent ops r t)
        = without_heartbeats (accepted_for ops r t)) /\
    (forall m, m ∈ sent.*1 -> m ∈ accepted_for ops r t).
Proof.
  intros Hid. induction 1 as [|t s op s' ret Ht IH Hok Hs].
  { exists []. split_and!; done. }
  destruct IH as (sent & S1 & S2 & S3 & S4).
  pose proof (trace_inv ops _ _ _ _ _ Hid Ht) as V.
  assert (handed_out r (t ++ [(s, op, ret)]) = handed_out r t ++
    match ret with RTake ws => wires_of r ws | _ => [] end) as HO.
  { unfold handed_out. rewrite flat_map_app. simpl. by rewrite app_nil_r. }
  assert (accepted_for ops r (t ++ [(s, op, ret)]) = accepted_for ops r t ++
    match op with COut g m => if (pm_recipient (om_msg m) =? r) && accepted ops s r g then [m] else [] | _ => [] end) as HA.
  { unfold accepted_for. rewrite flat_map_app. simpl. by rewrite app_nil_r. }
  assert (forall P : Prop, (forall s1 ids ret', (s1, CCluster ids, ret') ∈ t ++ [(s, op, ret)] -> P) ->
     forall s1 ids ret', (s1, CCluster ids, ret') ∈ t -> P) as Hsub.
  { intros P HP s1 ids ret' Hin. eapply HP. apply elem_of_app. by left. }
  assert (forall a b, without_heartbeats (a ++ b) = without_heartbeats a ++ without_heartbeats b) as Hwa.
  { intros a b. apply filter_app. }
  destruct op as [g m|g m|ord|ids|].
  - exists sent. rewrite HO, HA, unsent_snoc.
    assert (exists x, ret = RUnit x) as [x ->].
    { simpl in Hs. destruct (comm_out ops s g m) as [? []]; simplify_eq; eauto. }
    rewrite app_nil_r. destruct (_ && _).
    + rewrite !Hwa, app_assoc. split_and!; [done| | |].
      * by apply sublist_app.
      * intros Hc. rewrite S3; [done|]. intros s1 ids ret Hin. eapply Hc. apply elem_of_app. by left.
      * intros m' Hm'. apply elem_of_app. left. by apply S4.
    + rewrite app_nil_r. split_and!; try done.
      intros Hc. apply S3. intros s1 ids ret Hin. eapply Hc. apply elem_of_app. by left.
  - exists sent. rewrite HO, HA, unsent_snoc.
    assert (exists x, ret = RIn x) as [x ->].
    { simpl in Hs. destruct (comm_in ops s g m) as [? []]; simplify_eq; eauto. }
    rewrite !app_nil_r. split_and!; try done.
    intros Hc. apply S3. intros s1 ids ret Hin. eapply Hc. apply elem_of_app. by left.
  - destruct (step_take ops _ _ _ _ _ _ _ _ Hid V Hok Hs) as (_ & _ & f & -> & Hf).
    destruct (take_chan _ _ _ _ Hok Hs) as (f' & _ & Hdom).
    simpl in Hok. assert (NoDup ord) as Hnd. { rewrite Hok. apply NoDup_fst_map_to_list. }
    assert (forall r', r' ∈ ord -> exists ps, (forall x, x ∈ wires_of r (f r') -> pm_recipient x = r) /\
       length ps = length (if flushes s r' then collapse (unsent ops r' t) else []) /\
       (r' <> r -> wires_of r (f r') = []) /\
       wires_of r' (f r') = omap (fun '(m, o) => shipped m o) (zip (if flushes s r' then collapse (unsent ops r' t) else []) ps)) as Hw.
    { intros r' Hr'. specialize (Hf r'). unfold flushes.
      assert (forall w x, x ∈ wires_of r w -> pm_recipient x = r) as Hx.
      { intros w x. unfold wires_of. rewrite elem_of_list_In, in_flat_map. intros (y & _ & Hy).
        destruct y; [done|]. destruct (N.eqb_spec (pm_recipient m) r); [|done]. by destruct Hy as [<-|[]]. }
      destruct (handshake_waiting s r') as [hm|].
      { destruct Hf as [_ ->]. exists []. split; [by apply Hx|done]. }
      destruct (phase s r') eqn:Ep; try (rewrite Hf by done; exists []; split; [by apply Hx|done]).
      destruct Hf as (e & e' & os & F1 & F2 & F3).
      destruct (encrypted_shipped _ _ _ _ r' F2) as (ps & P1 & P2).
      { intros m Hm. apply collapse_elem in Hm. by apply (v_recipient _ _ _ _ _ _ V). }
      exists ps. split_and!; [by apply Hx|done| |by rewrite F3].
      intros Hne. apply wires_of_none. intros m Hm. rewrite F3 in Hm. apply elem_omap_id in Hm.
      destruct (encrypted_elem _ _ _ _ F2 r' t (WPeer m) F1 Hm) as (m1 & p1 & p2 & e1 & e2 & G1 & _ & _ & _ & [= ->]).
      simpl. apply collapse_elem in G1. rewrite (v_recipient _ _ _ _ _ _ V _ _ G1). done. }
    rewrite HO, HA, unsent_snoc, app_nil_r.
    rewrite (concat_wires r f ord Hnd).
    2:{ intros r' Hr' Hne. destruct (Hw r' Hr') as (ps & _ & _ & H & _). by apply H. }
    assert (forall P : Prop, ((forall s1 ids ret, (s1, CCluster ids, ret) ∈ t -> stays s1 r ids = true) -> P) ->
      (forall s1 ids ret, (s1, CCluster ids, ret) ∈ t ++ [(s, CTake ord, RTake (concat (map f ord)))] -> stays s1 r ids = true) -> P) as Hcl.
    { intros P HP Hc. apply HP. intros s1 ids ret Hin. eapply Hc. apply elem_of_app. by left. }
    destruct (decide (r ∈ ord)) as [Hin|Hni].
    + destruct (Hw r Hin) as (ps & _ & P2 & _ & P4). rewrite P4.
      destruct (flushes s r).
      * exists (sent ++ zip (collapse (unsent ops r t)) ps).
        rewrite omap_app, S1. split; [done|].
        assert ((zip (collapse (unsent ops r t)) ps).*1 = collapse (unsent ops r t)) as Hz.
        { apply fst_zip. lia. }
        rewrite fmap_app, Hz, Hwa, collapse_without.
        assert (without_heartbeats [] = []) as -> by done. rewrite app_nil_r. split_and!; [done|by apply Hcl|].
        intros m [Hm|Hm]%elem_of_app; [by apply S4|]. apply collapse_elem in Hm. by apply unsent_accepted.
      * exists sent. rewrite app_nil_r. split_and!; try done. by apply Hcl.
    + assert (flushes s r = false) as ->.
      { unfold flushes, handshake_waiting, phase. destruct (cm_replicas s !! r) as [c|] eqn:Ec; [|done].
        exfalso. apply Hni, Hdom. eauto. }
      exists sent. rewrite app_nil_r. split_and!; try done. by apply Hcl.
  - exists sent. rewrite HO, HA, unsent_snoc. simpl in Hs. injection Hs as <- <-. rewrite !app_nil_r.
    destruct (stays s r ids) eqn:Est.
    + split_and!; try done.
      intros Hc. apply S3. intros s1 ids1 ret Hin. eapply Hc. apply elem_of_app. by left.
    + split_and!; try done.
      * assert (without_heartbeats [] = []) as -> by done. rewrite app_nil_r. etrans; [|exact S2]. apply sublist_inserts_r. done.
      * intros Hc. exfalso. assert (stays s r ids = true) as H; [|congruence].
        eapply Hc. apply elem_of_app. right. by apply elem_of_list_singleton.
  - exists sent. rewrite HO, HA, unsent_snoc. simpl in Hs. injection Hs as <- <-. rewrite !app_nil_r. split_and!; try done.
    intros Hc. apply S3. intros s1 ids1 ret Hin. eapply Hc. apply elem_of_app. by left.
Qed.

(** ** Waiting and retrying *)
Lemma phase_insert (s : comm) r c r' :
  phase (with_replicas s (<[r := c]> (cm_replicas s))) r' = if r =? r' then ch_phase c else phase s r'.
Proof. unfold phase. rewrite lookup_with. by destruct (r =? r'). Qed.

Lemma phase_chan0 (s : comm) r : ch_phase (chan0 s r) = phase s r.
Proof. unfold chan0, phase. by destruct (cm_replicas s !! r). Qed.

Lemma step_keeps_id s op s' ret : comm_step ops s op = Some (s', ret) ->
  cm_id s' = cm_id s /\ cm_retry s' = cm_retry s /\ cm_timeout s' = cm_timeout s.
Proof.
  intros H. destruct op as [g m|g m|ord|ids|]; simpl in H.
  - unfold comm_out in H. destruct (_ =? 0); [by injection H as <- <-|].
    destruct (get_channel s _ _) as [s1 rc] eqn:Eg. destruct (get_channel_spec _ _ _ _ _ Eg) as [-> _].
    destruct rc as [c|e|]; [|by injection H as <- <-|done].
    destruct (chan_out ops c m) as [[c' b]|e|]; [| |done]; by injection H as <- <-.
  - unfold comm_in in H. destruct (_ =? 0); [by injection H as <- <-|].
    destruct (in_sender m); [|by injection H as <- <-].
    destruct (get_channel s _ _) as [s1 rc] eqn:Eg. destruct (get_channel_spec _ _ _ _ _ Eg) as [-> _].
    destruct rc as [c|e|]; [|by injection H as <- <-|done].
    destruct (chan_in ops c m) as [[c' b]|e|]; [| |done]; by injection H as <- <-.
  - unfold comm_take in H. destruct (take_all _ _ _) as [[m' ws]|e|]; try done. by injection H as <- <-.
  - injection H as <- <-. unfold comm_cluster_change. by destruct (existsb _ _).
  - by injection H as <- <-.
Qed.

Lemma take_all_phase ord : forall (m m' : gmap N chan) ws, take_all ops m ord = Ok (m', ws) ->
  forall r, (ch_phase <$> m' !! r) = (ch_phase <$> m !! r).
Proof.
  induction ord as [|k ord IH]; intros m m' ws H r; simpl in H; [by injection H as <- <-|].
  destruct (m !! k) as [c|] eqn:Ek; [|by apply (IH _ _ _ H)].
  destruct (chan_take ops c) as [[c' w]|e|] eqn:Ec; try done. simpl in H.
  destruct (take_all ops (<[k:=c']> m) ord) as [[m1 ws1]|e|] eqn:Et; try done. simpl in H. injection H as <- <-.
  rewrite (IH _ _ _ Et r). destruct (decide (k = r)) as [<-|Hne].
  - rewrite lookup_insert, Ek. simpl. f_equal. unfold chan_take in Ec.
    repeat (case_match; simplify_eq/=; try done). destruct (encrypt_all _ _ _) as [[]| |]; by simplify_eq/=.
  - by rewrite lookup_insert_ne.
Qed.

Lemma take_phase s ord s' ret r : comm_step ops s (CTake ord) = Some (s', ret) -> phase s' r = phase s r.
Proof.
  intros H. simpl in H. unfold comm_take in H.
  destruct (take_all ops (cm_replicas s) ord) as [[m' ws]|e|] eqn:Et; try done. simpl in H. injection H as <- <-.
  pose proof (take_all_phase _ _ _ _ Et r) as Hp. unfold phase. simpl.
  destruct (m' !! r), (cm_replicas s !! r); simpl in Hp; congruence.
Qed.

Lemma cluster_phase (s : comm) ids s' ret r : comm_step ops s (CCluster ids) = Some (s', ret) ->
  cm_replicas s' !! r = if stays s r ids then cm_replicas s !! r else None.
Proof.
  intros H. simpl in H. injection H as <- <-. unfold comm_cluster_change, stays.
  assert (forall x, existsb (fun i => i =? x) ids = true <-> x ∈ ids) as Hex.
  { intros x. rewrite existsb_exists. setoid_rewrite N.eqb_eq. rewrite elem_of_list_In. naive_solver. }
  destruct (existsb (fun i => i =? cm_id s) ids) eqn:Ex; simpl.
  - apply Hex in Ex. case_bool_decide as Hb.
    + destruct Hb as [Hb _]. destruct (cm_replicas s !! r) as [c|] eqn:Ec.
      * apply map_filter_lookup_Some. split; [done|]. by apply Hex.
      * apply map_filter_lookup_None. by left.
    + apply map_filter_lookup_None. right. intros c Hc Hf. apply Hex in Hf. naive_solver.
  - rewrite lookup_empty. case_bool_decide as Hb; [|done]. destruct Hb as [_ Hb]. apply Hex in Hb. congruence.
Qed.

Lemma quiet_step (s : comm) op s' ret r n : comm_step ops s op = Some (s', ret) ->
  op <> CTick -> (forall ids, op = CCluster ids -> r ∈ ids /\ cm_id s ∈ ids) ->
  phase s r = PhFailed n \/
    (phase s r = PhInitiated n /\ forall g m, op = CIn g m -> in_sender m <> Some r) ->
  phase s' r = phase s r.
Proof.
  intros H Hnt Hcl Hp. destruct op as [g m|g m|ord|ids|]; [| | | |done].
  - simpl in H. unfold comm_out in H. destruct (_ =? 0); [by injection H as <- <-|].
    destruct (get_channel s _ _) as [s1 rc] eqn:Eg. destruct (get_channel_spec _ _ _ _ _ Eg) as [-> Hrc].
    destruct rc as [c|e|]; [|injection H as <- <-|done].
    + destruct (chan_out ops c m) as [[c' b]|e|] eqn:Eo; [| |done].
      * injection H as <- <-. rewrite with_with. simpl. rewrite insert_insert, phase_insert.
        destruct (N.eqb_spec (pm_recipient (om_msg m)) r) as [Er|Hne]; [|done]. rewrite Er in Hrc.
        destruct Hrc as [[_ ->]|(Hp' & _)]; [|destruct Hp as [Hp|[Hp _]]; congruence].
        unfold chan_out in Eo. rewrite phase_chan0 in Eo.
        destruct Hp as [Hp|[Hp _]]; rewrite Hp in Eo; injection Eo as <- <-; simpl; rewrite phase_chan0; congruence.
      * exfalso. clear -Eo. unfold chan_out in Eo. repeat (case_match; try done).
    + rewrite phase_insert. destruct (N.eqb_spec (pm_recipient (om_msg m)) r) as [Er|Hne]; [|done].
      rewrite Er. apply phase_chan0.
  - simpl in H. unfold comm_in in H. destruct (_ =? 0); [by injection H as <- <-|].
    destruct (in_sender m) as [r1|] eqn:Es; [|by injection H as <- <-].
    destruct (get_channel s _ _) as [s1 rc] eqn:Eg. destruct (get_channel_spec _ _ _ _ _ Eg) as [-> Hrc].
    destruct rc as [c|e|]; [|injection H as <- <-|done].
    + destruct (chan_in ops c m) as [[c' b]|e|] eqn:Eo; [| |done].
      * injection H as <- <-. rewrite with_with. simpl. rewrite insert_insert, phase_insert.
        destruct (N.eqb_spec r1 r) as [->|Hne]; [|done].
        destruct Hp as [Hp|[Hp Hno]]; [|by destruct (Hno g m eq_refl)].
        destruct Hrc as [[_ ->]|(Hp' & _)]; [|congruence].
        unfold chan_in in Eo. rewrite phase_chan0, Hp in Eo. injection Eo as <- <-. by rewrite phase_chan0.
      * exfalso. clear -Eo. unfold chan_in, chan_decrypt in Eo. repeat (case_match; try done).
    + rewrite phase_insert. destruct (N.eqb_spec r1 r) as [->|Hne]; [|done]. apply phase_chan0.
  - by eapply take_phase.
  - pose proof (cluster_phase _ _ _ _ r H) as HL. unfold phase. rewrite HL.
    unfold stays. rewrite bool_decide_eq_true_2; [done|]. by apply Hcl.
Qed.

Lemma tick_phase (s : comm) s' ret r : comm_step ops s CTick = Some (s', ret) ->
  (forall c, cm_replicas s !! r = Some c -> ch_timeout c = cm_timeout s) ->
  phase s' r = match phase s r with
               | PhInitiated n => if cm_timeout s <=? n + 1
                                  then if cm_retry s <=? 0 then PhUnknown else PhFailed 0
                                  else PhInitiated (n + 1)
               | PhFailed n => if cm_retry s <=? n + 1 then PhUnknown else PhFailed (n + 1)
               | p => p
               end /\ queue s' r = queue s r.
Proof.
  intros H Ht. simpl in H. injection H as <- <-. unfold phase, queue. simpl. rewrite lookup_fmap.
  destruct (cm_replicas s !! r) as [c|] eqn:Ec; [|done]. simpl. specialize (Ht c eq_refl).
  unfold comm_tick_chan, chan_tick. destruct (ch_phase c) eqn:Ep; rewrite ?Ep; try done.
  - rewrite Ht. destruct (cm_timeout s <=? ticks + 1); simpl; [|done]. by destruct (cm_retry s <=? 0).
  - simpl. by destruct (cm_retry s <=? ticks + 1).
Qed.

Lemma ticks_snoc (t : ctrace) s op ret :
  ticks (t ++ [(s, op, ret)]) = ticks t + (if is_tick op then 1 else 0).
Proof.
  unfold ticks, Nlen. rewrite List.filter_app, app_length. simpl. destruct (is_tick op); simpl; lia.
Qed.

Lemma keeps_app r (t t' : ctrace) : keeps r (t ++ t') -> keeps r t.
Proof. intros H s ids ret Hin. eapply H. apply elem_of_app. by left. Qed.
Lemma silent_app r (t t' : ctrace) : silent r (t ++ t') -> silent r t.
Proof. intros H s g m ret Hin. eapply H. apply elem_of_app. by left. Qed.

Lemma trace_keeps_id s0 t s : comm_trace ops s0 t s ->
  cm_id s = cm_id s0 /\ cm_retry s = cm_retry s0 /\ cm_timeout s = cm_timeout s0.
Proof.
  induction 1 as [|t s op s' ret Ht IH Hok Hs]; [done|].
  destruct (step_keeps_id _ _ _ _ Hs) as (-> & -> & ->). done.
Qed.

Lemma wait_run s0 t s t0 to r n : pinv t0 to r s0 -> comm_trace ops s0 t s -> keeps r t ->
  (phase s0 r = PhFailed n -> n + ticks t < cm_retry s0 -> phase s r = PhFailed (n + ticks t)) /\
  (phase s0 r = PhInitiated n -> silent r t ->
     n + ticks t < cm_timeout s0 -> phase s r = PhInitiated (n + ticks t)).
Proof.
  intros V H. assert (exists t', pinv t' to r s) as Hp.
  { induction H as [|t s op s' ret Ht [t' IH] Hok Hs]; [eauto|]. eexists. by eapply pinv_step. }
  revert Hp. induction H as [|t s op s' ret Ht IH Hok Hs]; intros Hp Hk.
  { change (ticks []) with 0. rewrite N.add_0_r. done. }
  destruct (trace_keeps_id _ _ _ Ht) as (I1 & I2 & I3).
  assert (exists t', pinv t' to r s) as [t' V'].
  { clear -V Ht. induction Ht as [|t s op s' ret Ht [t' IH] Hok Hs]; [eauto|]. eexists. by eapply pinv_step. }
  destruct (IH (ex_intro _ t' V') (keeps_app _ _ _ Hk)) as [IH1 IH2]. clear IH.
  assert (forall ids, op = CCluster ids -> r ∈ ids /\ cm_id s ∈ ids) as Hcl.
  { intros ids ->. eapply Hk. apply elem_of_app. right. by apply elem_of_list_singleton. }
  rewrite ticks_snoc. destruct (is_tick op) eqn:Et.
  - destruct op; try done.
    destruct (tick_phase _ _ _ r Hs) as [Hph _].
    { intros c Hc. destruct V' as (A & B & C). rewrite A. apply (C c Hc). }
    split.
    + intros HF Hlt. rewrite IH1 in Hph by (done || lia). rewrite I2, (proj2 (N.leb_gt _ _)) in Hph by lia.
      rewrite Hph. f_equal. lia.
    + intros HF Hno Hlt. rewrite IH2 in Hph; [|done|by eapply silent_app|lia].
      rewrite I3, (proj2 (N.leb_gt _ _)) in Hph by lia. rewrite Hph. f_equal. lia.
  - assert (op <> CTick) as Hnt by (by intros ->). rewrite !N.add_0_r. split.
    + intros HF Hlt. rewrite <- IH1 by (done || lia).
      eapply (quiet_step s op s' ret r (n + ticks t)); [done..|]. left. apply IH1; [done|lia].
    + intros HF Hno Hlt. assert (phase s r = PhInitiated (n + ticks t)) as Hph.
      { apply IH2; [done|by eapply silent_app|lia]. }
      rewrite <- Hph. eapply (quiet_step s op s' ret r (n + ticks t)); [done..|]. right. split; [done|].
      intros g m ->. eapply Hno. apply elem_of_app. right. by apply elem_of_list_singleton.
Qed.

(** ** No aborts *)
Lemma encrypt_all_total q : forall e, (forall m, m ∈ q -> is_Some (pm_payload (om_msg m))) ->
  exists e' ws, encrypt_all ops e q = Ok (e', ws).
Proof.
  induction q as [|m q IH]; intros e H; simpl; [eauto|].
  destruct (H m) as [p ->]; [left|]. destruct (en_encrypt ops e (pl_contents p)) as [e1 o].
  destruct (IH e1) as (e' & ws & ->); [intros x Hx; apply H; by right|]. simpl. eauto.
Qed.

Lemma take_all_total ord : forall (m : gmap N chan),
  NoDup ord -> (forall k c, k ∈ ord -> m !! k = Some c -> exists c' ws, chan_take ops c = Ok (c', ws)) ->
  exists m' ws, take_all ops m ord = Ok (m', ws).
Proof.
  induction ord as [|k ord IH]; intros m Hn H; simpl; [eauto|]. apply NoDup_cons in Hn as [Hk Hn].
  destruct (m !! k) as [c|] eqn:Ek.
  - destruct (H k c) as (c' & w & ->); [left|done|]. simpl.
    destruct (IH (<[k:=c']> m)) as (m' & ws & ->); [done| |simpl; eauto].
    intros k' c1 Hin. rewrite lookup_insert_ne by (by intros <-). intros Hl. eapply H; [by right|done].
  - apply IH; [done|]. intros k' c1 Hin Hl. eapply H; [by right|done].
Qed.

Lemma no_abort id retry timeout t s op : id <> 0 ->
  (forall h, hs_completed ops h = true -> is_Some (hs_encryptor ops h)) ->
  comm_trace ops (comm_init comm_new id retry timeout) t s ->
  (forall s1 op1 ret1, (s1, op1, ret1) ∈ t -> op_has_payload op1) ->
  cop_ok s op -> op_has_payload op -> is_Some (comm_step ops s op).
Proof.
  intros Hid Hlaw Ht Hpay Hok Hop.
  pose proof (trace_inv ops _ _ _ _ _ Hid Ht) as V.
  destruct op as [g m|g m|ord|ids|]; simpl; [| | |eauto|eauto].
  - unfold comm_out. destruct (_ =? 0); [eauto|].
    destruct (get_channel s _ _) as [s1 rc] eqn:Eg. destruct (get_channel_spec _ _ _ _ _ Eg) as [-> Hrc].
    destruct rc as [c|e|]; [|eauto|done].
    assert (chan_out ops c m <> Panic) as Hnp.
    { destruct (chan0_inv ops _ _ _ _ _ (pm_recipient (om_msg m)) V) as (K & _ & P).
      destruct Hrc as [[Hp ->]|(Hp & h & _ & ->)].
      - unfold chan_out. pose proof (k_phase _ _ _ _ _ K) as Kp. destruct (ch_phase (chan0 s (pm_recipient (om_msg m)))); done.
      - unfold chan_out. simpl. destruct (hs_take ops h) as [h' [[|]|]]; done. }
    destruct (chan_out ops c m) as [[c' b]|e|]; [eauto|eauto|done].
  - unfold comm_in. destruct (_ =? 0); [eauto|]. destruct (in_sender m) as [r|] eqn:Es; [|eauto].
    destruct (get_channel s _ _) as [s1 rc] eqn:Eg. destruct (get_channel_spec _ _ _ _ _ Eg) as [-> Hrc].
    destruct rc as [c|e|]; [|eauto|done].
    assert (chan_in ops c m <> Panic) as Hnp.
    { destruct (chan0_inv ops _ _ _ _ _ r V) as (K & _ & P). simpl in Hop.
      destruct Hrc as [[Hp ->]|(Hp & h & _ & ->)].
      - unfold chan_in. pose proof (k_phase _ _ _ _ _ K) as Kp. rewrite <- P in Hp.
        destruct (ch_phase (chan0 s r)); try done.
        + destruct m; try done. destruct Kp as [[h ->] _].
          destruct (hs_process ops h m) as [h1 []]; [|done]. destruct (hs_take ops h1) as [h2 [|]]; [|done].
          simpl. by destruct (hs_completed ops h2).
        + destruct Kp as (h & _ & Hc & He). destruct (He (Hlaw h Hc)) as [e Ee].
          unfold chan_decrypt. rewrite Ee. destruct m as [hm|pm|]; try done.
          destruct Hop as [p ->]. destruct (en_decrypt ops e p) as [e' [|]]; done.
      - unfold chan_in. simpl. destruct m; try done.
        destruct (hs_process ops h m) as [h1 []]; [|done]. destruct (hs_take ops h1) as [h2 [|]]; [|done].
        simpl. by destruct (hs_completed ops h2). }
    destruct (chan_in ops c m) as [[c' b]|e|]; [eauto|eauto|done].
  - simpl in Hok. assert (NoDup ord) as Hnd. { rewrite Hok. apply NoDup_fst_map_to_list. }
    unfold comm_take. destruct (take_all_total ord (cm_replicas s) Hnd) as (m' & ws & ->); [|simpl; eauto].
    intros k c _ Hc. destruct (v_chan _ _ _ _ _ _ V _ _ Hc) as [K Q].
    unfold chan_take. destruct (ch_pending c); [eauto|]. pose proof (k_phase _ _ _ _ _ K) as Kp.
    destruct (ch_phase c); [eauto..| |eauto].
    destruct Kp as (h & _ & Hco & He). destruct (He (Hlaw h Hco)) as [e ->].
    destruct (encrypt_all_total (ch_queue c) e) as (e' & ws & ->); [|simpl; eauto].
    intros x Hx. rewrite Q in Hx. apply collapse_elem, unsent_accepted, accepted_out in Hx as (_ & s1 & g & ret & Hin).
    apply (Hpay _ _ _ Hin).
Qed.
End Hist.
