(** Proofs about requests and answers in a cluster. *)
From Verif Require Import Base StorageModel SnapshotModel CommModel ActorModel DriverModel DriverSpec DriverProofs DriverTheorems
  ClusterSpec ClusterProofs ClusterTheorems ClusterOrderSpec ClusterOrderProofs ClusterDecryptProofs ClusterAnswerSpec.

(** Where an answer comes from: the call in which it is given, or an entry of the
    log. *)
Notation source := (nat + N)%type.
Definition source_call (s : source) : option nat := match s with inl b => Some b | inr _ => None end.
Definition source_index (s : source) : option N := match s with inl _ => None | inr i => Some i end.

Lemma nodup_sources (l : list source) : NoDup (omap source_call l) -> NoDup (omap source_index l) -> NoDup l.
Proof.
  induction l as [|s l IH]; [constructor|]. intros H1 H2.
  destruct s as [b|i].
  - change (NoDup (b :: omap source_call l)) in H1. apply NoDup_cons in H1 as [Hb H1]. constructor; [|by apply IH].
    intros Hin. apply Hb, elem_of_list_omap. by exists (inl b).
  - change (NoDup (i :: omap source_index l)) in H2. apply NoDup_cons in H2 as [Hb H2]. constructor; [|by apply IH].
    intros Hin. apply Hb, elem_of_list_omap. by exists (inr i).
Qed.
Lemma nodup_map {A B} (f : A -> B) l : NoDup l -> (forall x y, x ∈ l -> y ∈ l -> f x = f y -> x = y) -> NoDup (map f l).
Proof.
  induction 1 as [|x l Hx _ IH]; intros Hf; [constructor|]. simpl. constructor.
  - intros Hin. apply elem_of_list_In, in_map_iff in Hin as (y&E&Hy). apply elem_of_list_In in Hy.
    apply Hx. rewrite <- (Hf y x); [done|by right|by left|done].
  - apply IH. intros y z Hy Hz. apply Hf; by right.
Qed.
Lemma sorted_nodup (l : list N) : StronglySorted N.lt l -> NoDup l.
Proof.
  induction 1 as [|x l _ IH Hx]; constructor; [|done]. intros Hin. rewrite Forall_forall in Hx. apply Hx in Hin. lia.
Qed.
Lemma nodup_sublist {A} (l l' : list A) : l `sublist_of` l' -> NoDup l' -> NoDup l.
Proof.
  induction 1 as [|x l l' S IH|x l l' _ IH]; intros Hn; [done| |].
  - apply NoDup_cons in Hn as [Hx Hn]. constructor; [|by apply IH]. intros Hin. apply Hx. by eapply elem_of_submseteq, sublist_submseteq.
  - apply NoDup_cons in Hn as [_ Hn]. by apply IH.
Qed.

Section Generic.
Context {RS SP CS ST REQ RESP : Type}.
Variable codec : driver_codec.
Variable rops : raft_ops RS.
Variable sops : snap_ops SP.
Variable cops : comm_ops CS REQ RESP.
Variable apps : nat -> actor ST.
Variable begin : nat -> RS * SP * CS.
Notation events := (list (nat * delivery REQ RESP)).
Notation mem := (member codec rops sops cops apps begin).
Implicit Types (d : rdriver RS SP CS ST REQ RESP) (H : events).
Variable good : ST -> Prop.
Variable older : ST -> ST -> Prop.
Hypothesis RP : replicated apps good older.
Hypothesis AO : answers_once apps.
Hypothesis Hd : driver_codec_ok codec.
Variable log : N -> rentry.
Variable H : events.
Hypothesis AG : agrees codec rops sops cops apps begin log H.
Hypothesis CF : one_configuration H.
Variable origin : N -> nat.
Hypothesis PO : proposals_in_order codec rops sops cops apps begin log H origin.
Notation reach := (reached codec rops sops cops apps begin).
Notation committed := (committed_event codec rops sops cops apps begin log H).

Lemma is_quiet (k : nat) cx st st2 out : a_command (apps k) cx st None = Ok (st2, out) -> out = outcome_none.
Proof using AO. apply (ao_quiet _ AO). Qed.

(** An event of the log stems from the request of a client. *)
Lemma committed_asked i ev id cx : committed i ev -> event_of_entry codec id (log i) = Some (cx, ev) ->
  decided apps ev /\ (ec_owned cx = true -> client_asks H (origin i) id (ae_correlation ev)).
Proof using AG AO Hd PO.
  intros CE He. pose proof CE as (Hi&Hl&_).
  destruct (pi_source _ _ _ _ _ _ _ _ _ PO _ _ CE) as (H1&k&x&H2&d&d'&calls&E&El&M&M'&Er&Hp).
  destruct (proposed_in codec rops sops cops apps begin is_quiet H k H1 x H2 d d' calls _ E M M' Er Hp)
    as (q&m&cx'&co&pe&st&t&st2&Sq&Hx&_&Hcmd&Hev&Ep).
  assert (Hev' : event_of_entry codec id (log i) = Some (EventContext i (sr_id q =? id), ActorEvent (ae_correlation pe) (ae_contents pe))).
  { clear He. unfold logged, event_of_entry in *. rewrite Ep in *. simpl in *. rewrite (entry_round_trip _ Hd) in *.
    rewrite (ag_index _ _ _ _ _ _ _ _ AG) in *.
    destruct (enc_entry _ _) as [|b bs] eqn:Ee; [by apply (entry_not_empty _ Hd) in Ee|]. by destruct (re_type (log i)). }
  rewrite Hev' in He. injection He as <- <-.
  split; [exists k, cx', st, (Some m), st2, co; split; [done|by destruct pe]|].
  intros Hown. simpl in Hown. apply N.eqb_eq in Hown as <-.
  assert (Ec : ae_correlation pe = ac_correlation m).
  { destruct (ao_request _ AO _ _ _ _ _ _ Hcmd) as [(y&_&_&Hn)|[_ Hc]]; [congruence|by apply Hc]. }
  destruct x as [t' x]. simpl in Hx. subst x. exists k, t', m, q. simpl. split_and!; try done.
  - by rewrite E, <- El, list_lookup_middle.
  - rewrite E. by apply started_prefix.
Qed.

(** What is known about the source of an answer of the member [k]. *)
Definition explains (k : nat) (id : N) (by_ : nat * actor_command) (s : source) : Prop :=
  match s with
  | inl b => b = by_.1 /\ client_asks H b id (ac_correlation by_.2) /\
      forall H1 k' x H2 d d' calls p, H = H1 ++ (k', x) :: H2 -> length H1 = b -> mem k' H1 d -> mem k' (H1 ++ [(k', x)]) d' ->
        raft_calls d' = raft_calls d ++ calls -> KPropose p ∈ calls -> False
  | inr i => exists cx ev j H1 H2, event_of_entry codec id (log i) = Some (cx, ev) /\ ec_owned cx = true /\ committed i ev /\
      ac_correlation by_.2 = ae_correlation ev /\ H = H1 ++ H2 /\ length H1 = S by_.1 /\ reach k H1 j /\ i <= j
  end.

Lemma explained k id l srcs : Forall2 (explains k id) l srcs -> NoDup srcs -> answered_once H id l.
Proof using AG AO Hd PO.
  intros F Hn. set (f := fun s : source => match s with inl b => b | inr i => origin i end). exists (map f srcs). split.
  - apply nodup_map; [done|]. intros s1 s2 Hs1 Hs2.
    assert (G : forall s, s ∈ srcs -> exists y, explains k id y s).
    { intros s Hs. apply elem_of_list_lookup in Hs as [j Hj]. destruct (Forall2_lookup_r _ _ _ _ _ F Hj) as (y&_&Hy). by exists y. }
    destruct (G _ Hs1) as (y1&E1), (G _ Hs2) as (y2&E2). clear G.
    assert (X : forall b i y y', explains k id y (inl b) -> explains k id y' (inr i) -> b = origin i -> False).
    { intros b i y y' (_&_&X) (cx&ev&_&_&_&_&_&CE&_) Eb.
      destruct (pi_source _ _ _ _ _ _ _ _ _ PO _ _ CE) as (H1&k'&x&H2&d&d'&calls&E&El&M&M'&Er&Hp).
      eapply (X H1 k' x H2 d d' calls); try done. by rewrite Eb. }
    destruct s1 as [b1|i1], s2 as [b2|i2]; simpl; intros Ef.
    + by subst.
    + destruct (X _ _ _ _ E1 E2 Ef).
    + destruct (X _ _ _ _ E2 E1). done.
    + destruct E1 as (?&?&_&_&_&_&_&C1&_), E2 as (?&?&_&_&_&_&_&C2&_). f_equal. by eapply (pi_once _ _ _ _ _ _ _ _ _ PO).
  - rewrite Forall2_fmap_r. eapply Forall2_impl; [exact F|]. intros [b y] s Hs. destruct s as [b'|i]; simpl in *.
    + destruct Hs as (->&Ha&_). done.
    + destruct Hs as (cx&ev&j&H1&H2&He&Ho&CE&->&E&El&Hr&Hij). split; [by eapply (proj2 (committed_asked _ _ _ _ CE He))|].
      destruct (decide (origin i <= b)%nat) as [|Hlt]; [done|].
      pose proof (pi_order _ _ _ _ _ _ _ _ _ PO i ev H1 H2 k j CE E ltac:(lia) Hr). lia.
Qed.

(** The sources of the answers that a list of calls of the application gives. *)
Lemma call_sources k id b tr :
  (forall cx ev o y, AApply cx ev o ∈ tr -> y ∈ o -> o = [y] /\ explains k id (b, y) (inr (ec_index cx))) ->
  (forall cx m co y, ACommand cx m co ∈ tr -> y ∈ co_commands co -> co_commands co = [y] /\ explains k id (b, y) (inl b)) ->
  exists srcs, Forall2 (explains k id) (map (pair b) (concat (map emitted tr))) srcs /\
    omap source_index srcs `sublist_of` omap event_index tr /\
    Forall (eq b) (omap source_call srcs) /\ (length (omap source_call srcs) <= length (omap command_of tr))%nat.
Proof using.
  induction tr as [|a tr IH]; intros Ha Hc.
  - exists []. split; [constructor|]. split; [constructor|]. split; [constructor|done].
  - destruct IH as (srcs&F&Hi&Hb&Hl).
    { intros cx ev o y Hin. apply (Ha cx ev). by right. } { intros cx m co y Hin. apply (Hc cx m). by right. }
    cbn [map concat]. rewrite map_app.
    destruct a as [cx|r|cx m co|cx ev o]; cbn [emitted].
    + exists srcs. by split_and!.
    + exists srcs. by split_and!.
    + destruct (co_commands co) as [|y ys] eqn:Eco.
      { exists srcs. split_and!; try done. change (omap command_of (ACommand cx m co :: tr)) with (m :: omap command_of tr). simpl. lia. }
      destruct (Hc cx m co y) as [E Hy]; [by left|rewrite Eco; by left|]. rewrite Eco in E. injection E as ->.
      exists (inl b :: srcs). split_and!; try done.
      * by constructor.
      * change (omap source_call (inl b :: srcs)) with (b :: omap source_call srcs). by constructor.
      * change (omap source_call (inl b :: srcs)) with (b :: omap source_call srcs).
        change (omap command_of (ACommand cx m co :: tr)) with (m :: omap command_of tr). simpl. lia.
    + change (omap event_index (AApply cx ev o :: tr)) with (ec_index cx :: omap event_index tr).
      destruct o as [|y ys].
      { exists srcs. split_and!; try done. by constructor. }
      destruct (Ha cx ev (y :: ys) y) as [E Hy]; [by left|by left|]. injection E as ->.
      exists (inr (ec_index cx) :: srcs). split_and!; try done.
      * by constructor.
      * change (omap source_index (inr (ec_index cx) :: srcs)) with (ec_index cx :: omap source_index srcs). by constructor.
Qed.

(** A member that called its application was started. *)
Lemma started_at k q H1 H2 d : H = H1 ++ H2 -> mem k H1 d -> started_with k H q -> app_calls d <> [] ->
  exists q', started_with k H1 q' /\ sr_id q' = sr_id q.
Proof using AG.
  intros E (o2&B') Sq Hne.
  destruct (ag_runs _ _ _ _ _ _ _ _ AG k) as [dH (oH&BH)]. pose proof (born_life _ _ _ _ _ _ _ _ _ _ _ BH) as LH.
  destruct (life_request _ _ LH _ (proj1 Sq)) as (I1&E1&_).
  pose proof (born_life _ _ _ _ _ _ _ _ _ _ _ B') as L.
  destruct (delivered_start (calls_of k H1)) as [[q' Hq]|Hno].
  - assert (Hq2 : delivered (HStart q') (calls_of k H)).
    { destruct Hq as [t Hq]. exists t. rewrite E, calls_of_app. apply elem_of_app. by left. }
    destruct (life_request _ _ LH _ Hq2) as (I2&E2&_). exists q'. split; [split; [done|]|congruence]. rewrite <- E2, E1. apply Sq.
  - exfalso. pose proof (life_none _ _ L Hno) as Hn. unfold app_calls in Hne. by rewrite Hn in Hne.
Qed.

Lemma one_call k q H1 x H2 d d' out : H = H1 ++ (k, x) :: H2 -> mem k H1 d -> started_with k H q ->
  receive codec rops sops cops (apps k) d x = Ok (d', out) ->
  exists srcs tr, app_calls d' = app_calls d ++ tr /\
    Forall2 (explains k (sr_id q)) (map (pair (length H1)) (omap app_out out)) srcs /\
    omap source_index srcs `sublist_of` omap event_index tr /\
    Forall (eq (length H1)) (omap source_call srcs) /\ (length (omap source_call srcs) <= 1)%nat.
Proof using AG AO CF PO RP Hd.
  intros E M Sq Hr. pose proof M as (o&B).
  destruct (receive_call _ _ _ _ _ _ _ _ _ (born_inv _ _ _ _ _ _ _ _ _ _ _ B) Hr) as (rt&mt&tr&C).
  assert (M' : mem k (H1 ++ [(k, x)]) d').
  { exists (o ++ [out]). rewrite calls_of_app, calls_of_one. by eapply born_next. }
  assert (E' : H = (H1 ++ [(k, x)]) ++ H2) by (by rewrite <- (assoc_L app)).
  assert (Hone : (length (omap command_of tr) <= 1)%nat).
  { rewrite (call_commands _ _ _ _ _ _ _ _ _ _ C). destruct (decide _) as [_|_]; [|simpl; lia]. destruct x as [t [[[]|]|]]; simpl; lia. }
  destruct tr as [|a0 tr0] eqn:Etr.
  { exists [], []. rewrite (call_outputs _ _ _ _ _ _ _ _ _ _ C). split; [by apply C|]. split; [apply Forall2_nil; done|].
    split; [constructor|]. split; [constructor|]. simpl. lia. }
  rewrite <- Etr in *.
  destruct (started_at k q (H1 ++ [(k, x)]) H2 d' E' M' Sq) as (q'&Sq'&Eid).
  { rewrite (call_app _ _ _ _ _ _ _ _ _ _ C), Etr. by destruct (app_calls d). }
  clear a0 tr0 Etr.
  destruct (call_sources k (sr_id q) (length H1) tr) as (srcs&F&Hi&Hb&Hl).
  - intros cx ev oy y Hin Hy.
    assert (Ha' : AApply cx ev oy ∈ app_calls d') by (rewrite (call_app _ _ _ _ _ _ _ _ _ _ C); apply elem_of_app; by right).
    apply elem_of_list_split in Ha' as (t1&t2&Et).
    destruct (event_found codec rops sops cops apps begin good older RP log H AG CF k _ H2 d' q' t1 cx ev oy t2 E' M' Sq' Et)
      as (K1&K2&K3&f&s1&s2&_&_&Hap).
    rewrite Eid in K3.
    assert (Hre : reach k (H1 ++ [(k, x)]) (position (start_index q') (handed (raft_calls d')))) by (by exists d', q').
    assert (CE : committed (ec_index cx) ev).
    { split; [done|]. split.
      { pose proof (logged_of codec log (sr_id q) (ec_index cx)) as L. rewrite K3 in L.
        destruct (logged codec log (ec_index cx)) as [ev'|]; simpl in L; [|done]. by injection L as _ ->. }
      destruct (reached_grows codec rops sops cops apps begin log H AG k (H1 ++ [(k, x)]) H2 _ E' Hre) as (j'&Hj'&Hle).
      exists k, j'. split; [done|]. lia. }
    destruct (committed_asked _ _ _ _ CE K3) as [Hdec _].
    destruct (ao_event _ AO _ _ _ _ _ _ Hdec Hap) as [->|(Ho&y'&->&Ec)]; [by apply elem_of_nil in Hy|].
    apply elem_of_list_singleton in Hy as ->. split; [done|]. simpl.
    exists cx, ev, (position (start_index q') (handed (raft_calls d'))), (H1 ++ [(k, x)]), H2. split_and!; try done.
    rewrite app_length. simpl. lia.
  - intros cx m co y Hin Hy.
    destruct (made_command codec rops sops cops apps begin is_quiet k H1 x d d' out rt mt tr q' cx m co M M' Sq' Hr C Hin)
      as [->|(m'&st&t&st2&->&Hx&S0&_&Hcmd)]; [by apply elem_of_nil in Hy|].
    destruct (ao_request _ AO _ _ _ _ _ _ Hcmd) as [(y'&Ey&Ec&Hnone)|[Hno _]]; [|rewrite Hno in Hy; by apply elem_of_nil in Hy].
    rewrite Ey in Hy. apply elem_of_list_singleton in Hy as ->. split; [done|]. simpl. split; [done|]. split.
    + destruct x as [t' x]. simpl in Hx. subst x. exists k, t', m', q'. split_and!; try done.
      * by rewrite E, list_lookup_middle.
      * rewrite E. by apply started_prefix.
    + intros H1' k' x' H2' d1 d2 calls p E2 El M1 M2 Er Hp. rewrite E in E2. apply app_inj_1 in E2 as [<- E2]; [|lia].
      injection E2 as <- <- <-.
      rewrite (member_unique _ _ _ _ _ _ _ _ _ _ M1 M), (member_unique _ _ _ _ _ _ _ _ _ _ M2 M') in *.
      assert (calls = rt) as ->. { pose proof (call_raft _ _ _ _ _ _ _ _ _ _ C) as E2. rewrite Er in E2. by apply app_inv_head in E2. }
      pose proof M' as (o'&B').
      destruct (life_request _ _ (born_life _ _ _ _ _ _ _ _ _ _ _ B') _ (proj1 Sq')) as (_&Eep&_). rewrite (proj2 Sq') in Eep.
      assert (Hp' : p ∈ omap proposal_of rt) by (apply elem_of_list_omap; by eexists).
      rewrite (call_proposals _ _ _ _ _ _ _ _ _ _ C Eep) in Hp'. apply elem_of_list_omap in Hp' as (a&Ha&Hpa).
      destruct a as [| |cx2 m2 co2|]; try done.
      assert (X : ACommand cx (Some m') co = ACommand cx2 m2 co2) by (eapply one_command; [reflexivity|exact Hone|done|done]).
      injection X as <- <- <-. simpl in Hpa. by rewrite Hnone in Hpa.
  - exists srcs, tr. split_and!; try done; [by apply C| |lia]. by rewrite (call_outputs _ _ _ _ _ _ _ _ _ _ C).
Qed.

Lemma all_sources k q : started_with k H q -> forall H1 l, tells codec rops sops cops apps begin k H1 l -> forall H2, H = H1 ++ H2 ->
  exists srcs d, mem k H1 d /\ Forall2 (explains k (sr_id q)) l srcs /\ omap source_index srcs `sublist_of` omap event_index (app_calls d) /\
    NoDup (omap source_call srcs) /\ Forall (fun b => (b < length H1)%nat) (omap source_call srcs).
Proof using AG AO CF PO RP Hd.
  intros Sq H1 l T. induction T as [|H1 l k' x Hk T IH|H1 l x d d' out T IH M Hr]; intros H2 E.
  - destruct (prefix_member codec rops sops cops apps begin log H AG k [] H2 E) as [d M]. exists [], d. split_and!; simpl; try done; [apply sublist_nil_l|constructor].
  - rewrite <- (assoc_L app) in E. destruct (IH _ E) as (srcs&d&M&F&Hi&Hn&Hb). exists srcs, d. split_and!; try done.
    + destruct M as (o&B). exists o. rewrite calls_of_app, calls_of_other, app_nil_r by done. done.
    + eapply Forall_impl; [exact Hb|]. simpl. intros b Hlt. rewrite app_length. simpl. lia.
  - rewrite <- (assoc_L app) in E. destruct (IH _ E) as (srcs&d0&M0&F&Hi&Hn&Hb).
    rewrite (member_unique _ _ _ _ _ _ _ _ _ _ M0 M) in *. clear M0 d0.
    destruct (one_call k q H1 x H2 d d' out E M Sq Hr) as (s2&tr&Et&F2&Hi2&Hb2&Hl2).
    exists (srcs ++ s2), d'. split_and!.
    + destruct M as (o&B). exists (o ++ [out]). rewrite calls_of_app, calls_of_one. by eapply born_next.
    + by apply Forall2_app.
    + rewrite omap_app, Et, omap_app. by apply sublist_app.
    + rewrite omap_app. apply NoDup_app. split_and!; [done| |].
      * intros b Hin1 Hin2. rewrite Forall_forall in Hb. rewrite Forall_forall in Hb2. apply Hb in Hin1. apply Hb2 in Hin2. lia.
      * destruct (omap source_call s2) as [|b [|]]; [constructor|apply NoDup_singleton|simpl in Hl2; lia].
    + rewrite omap_app, Forall_app. split.
      * eapply Forall_impl; [exact Hb|]. simpl. intros b Hlt. rewrite app_length. simpl. lia.
      * eapply Forall_impl; [exact Hb2|]. simpl. intros b <-. rewrite app_length. simpl. lia.
Qed.

Theorem member_answers_once k q l : started_with k H q -> tells codec rops sops cops apps begin k H l -> answered_once H (sr_id q) l.
Proof using AG AO CF PO RP Hd.
  intros Sq T. destruct (all_sources k q Sq H l T []) as (srcs&d&M&F&Hi&Hn&_); [by rewrite app_nil_r|].
  eapply explained; [exact F|]. apply nodup_sources; [done|]. eapply nodup_sublist; [exact Hi|]. apply sorted_nodup.
  pose proof M as (o&B). eapply (C22_indices_increase _ _ _ _ _ _ _ _ _ _ _ _ B (proj1 Sq) (proj2 Sq)).
  eapply of_log_in_order; [by apply AG|]. by apply (ag_log _ _ _ _ _ _ _ _ AG _ _ _ M Sq).
Qed.
End Generic.
