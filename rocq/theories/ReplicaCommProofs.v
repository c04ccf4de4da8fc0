From Verif Require Import Base StorageModel SnapshotModel CommModel CommOakProofs ActorModel DriverModel DriverProofs SessionModel SessionSpec
  ReplicaModel ReplicaSpec ReplicaProofs.

#[local] Arguments h_session {S}.
#[local] Arguments h_state {S}.

(** ** The sessions of the communication module *)
Section Sessions.
Context {REQ RESP CSN SSN : Type}.
Variable client : oak_ops CSN REQ RESP.
Variable server : oak_ops SSN RESP REQ.
Variable create_client : session_config -> N -> option CSN.
Variable create_server : session_config -> N -> option SSN.
Variable attest bind : N -> option bytes.
Variable values : ref_values.
Variable own_clock : option clock.
Variable endorsements : bytes.
Notation HSN := (hsession CSN + hsession SSN)%type.
Notation ENN := (CSN + SSN)%type.
Variable order : N -> gmap N (chan REQ RESP HSN ENN) -> list N.
Notation ops := (default_ops client server).
Notation cops := (real_comm client server create_client create_server attest bind values own_clock endorsements order).
Notation MS := (@messenger REQ RESP CSN SSN).
Notation the_clock := (default HostClock own_clock).
Notation move := (oak_move client server).
Notation made := (made_for client server create_client create_server values the_clock).
Notation att := (attested client server create_client create_server values the_clock).

Definition inner (h : HSN) : ENN :=
  match h with inl h => inl (h_session h) | inr h => inr (h_session h) end.
Definition completed (h : HSN) : bool :=
  match h with inl h => h_completed h | inr h => h_completed h end.
(** A session in a handshake. *)
Definition session_ok (h : HSN) : Prop := made (inner h) /\ (completed h = true -> att (inner h)).

Lemma made_moves e e' : made e -> rtc move e e' -> made e'.
Proof using. intros (cfg & e0 & H1 & H2 & H3) H. exists cfg, e0. split_and!; try done. by etrans. Qed.
Lemma att_moves e e' : att e -> rtc move e e' -> att e'.
Proof using. intros (e1 & H1 & H2 & H3) H. exists e1. split_and!; try done. by etrans. Qed.
Lemma att_open e : made e -> is_open client server e = true -> att e.
Proof using. intros H1 H2. by exists e. Qed.

Lemma process_ok h m h' b : hs_process ops h m = (h', b) -> session_ok h -> session_ok h'.
Proof using.
  destruct h as [h|h]; simpl; intros H [Hm Ha].
  - destruct (client_process client h m) as [h1 b1] eqn:E. injection H as <- <-. unfold client_process in E.
    destruct (h_state h) eqn:S.
    + injection E as <- <-. by split.
    + destruct (hm_body m); try (injection E as <- <-; by split).
      destruct (oak_in _ _ _ client (h_session h) r) as [s' [|]] eqn:I; injection E as <- <-;
        (split; [|done]); (eapply made_moves; [done|]); apply rtc_once; by econstructor.
    + injection E as <- <-. by split.
    + injection E as <- <-. by split.
  - destruct (server_process server h m) as [h1 b1] eqn:E. injection H as <- <-. unfold server_process in E.
    destruct (h_state h) eqn:S.
    3,4: injection E as <- <-; by split.
    all: destruct (hm_body m); try (injection E as <- <-; by split);
      (destruct (oak_in _ _ _ server (h_session h) r) as [s' [|]] eqn:I); injection E as <- <-;
        (split; [|done]); (eapply made_moves; [done|]); apply rtc_once; by econstructor.
Qed.
Lemma take_ok h h' o : hs_take ops h = (h', o) -> session_ok h -> session_ok h'.
Proof using.
  destruct h as [h|h]; simpl; intros H [Hm Ha].
  - destruct (client_take client h) as [h1 b1] eqn:E. injection H as <- <-. unfold client_take in E.
    destruct (h_state h) eqn:S; try (injection E as <- <-; by split).
    + destruct (oak_out _ _ _ client (h_session h)) as [s' [o'|]] eqn:I; injection E as <- <-;
        (split; [|done]); (eapply made_moves; [done|]); apply rtc_once; by econstructor.
    + destruct (oak_out _ _ _ client (h_session h)) as [s' [o'|]] eqn:I; injection E as <- <-.
      * assert (made (inl s')) as Hs. { eapply made_moves; [done|]. apply rtc_once. by econstructor. }
        split; [done|]. intros Hc. apply att_open; [done|]. cbn in *. unfold h_completed in Hc. cbn in Hc. by destruct (oak_open _ _ _ client s').
      * split; [|done]. eapply made_moves; [done|]. apply rtc_once. by econstructor.
  - destruct (server_take server h) as [h1 b1] eqn:E. injection H as <- <-. unfold server_take in E.
    destruct (h_state h) eqn:S; try (injection E as <- <-; by split).
    destruct (oak_out _ _ _ server (h_session h)) as [s' [o'|]] eqn:I; injection E as <- <-.
    + assert (made (inr s')) as Hs. { eapply made_moves; [done|]. apply rtc_once. by econstructor. }
      split; [done|]. intros Hc. apply att_open; [done|]. cbn in *. unfold h_completed in Hc. cbn in Hc. by destruct (oak_open _ _ _ server s').
    + split; [|done]. eapply made_moves; [done|]. apply rtc_once. by econstructor.
Qed.
Lemma encryptor_ok h e : hs_encryptor ops h = Some e -> session_ok h -> att e.
Proof using.
  intros H [Hm Ha]. destruct h as [h|h]; simpl in *; unfold h_encryptor in H;
    destruct (h_completed h); try done; injection H as <-; by apply Ha.
Qed.
Lemma encrypt_moves e x e' r : en_encrypt ops e x = (e', r) -> rtc move e e'.
Proof using.
  destruct e as [s|s]; simpl; unfold oak_encrypt; intros H.
  - destruct (oak_write _ _ _ client s x) as [s1 [|]] eqn:W.
    + destruct (oak_out _ _ _ client s1) as [s2 o] eqn:O.
      assert (e' = inl s2) as ->. { destruct o as [[m|]|]; [destruct (oak_carried _ _ _ client m) as [[c [n|]]|]|..]; congruence. }
      eapply rtc_l; [by econstructor|]. apply rtc_once. by econstructor.
    + injection H as <- <-. apply rtc_once. by econstructor.
  - destruct (oak_write _ _ _ server s x) as [s1 [|]] eqn:W.
    + destruct (oak_out _ _ _ server s1) as [s2 o] eqn:O.
      assert (e' = inr s2) as ->. { destruct o as [[m|]|]; [destruct (oak_carried _ _ _ server m) as [[c [n|]]|]|..]; congruence. }
      eapply rtc_l; [by econstructor|]. apply rtc_once. by econstructor.
    + injection H as <- <-. apply rtc_once. by econstructor.
Qed.
Lemma decrypt_moves e x e' r : en_decrypt ops e x = (e', r) -> rtc move e e'.
Proof using.
  destruct e as [s|s]; simpl; unfold oak_decrypt; intros H.
  - destruct (oak_in _ _ _ client s _) as [s1 [|]] eqn:W.
    + destruct (oak_read _ _ _ client s1) as [s2 o] eqn:O.
      assert (e' = inl s2) as ->. { destruct o as [[m|]|]; congruence. }
      eapply rtc_l; [by econstructor|]. apply rtc_once. by econstructor.
    + injection H as <- <-. apply rtc_once. by econstructor.
  - destruct (oak_in _ _ _ server s _) as [s1 [|]] eqn:W.
    + destruct (oak_read _ _ _ server s1) as [s2 o] eqn:O.
      assert (e' = inr s2) as ->. { destruct o as [[m|]|]; congruence. }
      eapply rtc_l; [by econstructor|]. apply rtc_once. by econstructor.
    + injection H as <- <-. apply rtc_once. by econstructor.
Qed.

(** A channel. *)
Notation chn := (chan REQ RESP HSN ENN).
Record chan_ok (peer : N) (c : chn) : Prop := ChanOk {
  ck_session : forall h, ch_session c = Some h -> session_ok h;
  ck_encryptor : forall e, ch_encryptor c = Some e -> att e;
  ck_completed : ch_phase c = PhCompleted -> is_Some (ch_encryptor c);
  ck_waiting : (ch_phase c = PhInitialized \/ exists n, ch_phase c = PhInitiated n) -> is_Some (ch_session c);
  ck_queue : Forall (fun m => pm_recipient (om_msg m) = peer) (ch_queue c);
}.
Lemma chan_new_ok peer timeout : chan_ok peer (chan_new timeout).
Proof using. constructor; cbn; try done; by intros [?|[]]. Qed.
Lemma replace_recipient peer q m q' : replace_heartbeat q m = Some q' -> pm_recipient (om_msg m) = peer ->
  Forall (fun m => pm_recipient (om_msg m) = peer) q -> Forall (fun m => pm_recipient (om_msg m) = peer) q'.
Proof using.
  intros H Hm. revert q' H. induction q as [|x q IH]; intros q' H Hq; simpl in H; [done|]. apply Forall_cons in Hq as [Hx Hq].
  destruct (om_heartbeat x); [injection H as <-; by constructor|].
  destruct (replace_heartbeat q m) as [q''|]; [|done]. injection H as <-. constructor; [done|]. by apply IH.
Qed.
Lemma push_recipient peer q m : pm_recipient (om_msg m) = peer ->
  Forall (fun m => pm_recipient (om_msg m) = peer) q -> Forall (fun m => pm_recipient (om_msg m) = peer) (push_or_replace q m).
Proof using.
  intros Hm Hq. unfold push_or_replace. destruct (om_heartbeat m); [|apply Forall_app; split; [done|]; by constructor].
  destruct (replace_heartbeat q m) as [q'|] eqn:E; [by eapply replace_recipient|]. apply Forall_app; split; [done|]; by constructor.
Qed.
Lemma init_ok peer c h c' : chan_init c h = Ok c' -> chan_ok peer c -> session_ok h -> chan_ok peer c'.
Proof using.
  unfold chan_init. destruct (ch_phase c); try done. intros [= <-] [] Hh. constructor; cbn; try done. by intros ? [= <-].
Qed.
Lemma out_ok peer c m c' b : chan_out ops c m = Ok (c', b) -> pm_recipient (om_msg m) = peer -> chan_ok peer c -> chan_ok peer c'.
Proof using.
  unfold chan_out. intros H Hm [K1 K2 K3 K4 K5].
  destruct (ch_phase c) eqn:P; try (injection H as <- <-; constructor; cbn; rewrite ?P; auto using push_recipient; try done; by intros [?|[]]).
  destruct (ch_session c) as [h|] eqn:S; [|done]. destruct (hs_take ops h) as [h' o] eqn:T.
  pose proof (take_ok _ _ _ T (K1 _ eq_refl)).
  destruct o as [[hm|]|]; injection H as <- <-; constructor; cbn; auto using push_recipient;
    try (by intros ? [= <-]); try done; by intros [?|[]].
Qed.
Lemma in_ok peer c m c' r : chan_in ops c m = Ok (c', r) -> chan_ok peer c -> chan_ok peer c'.
Proof using.
  intros H [K1 K2 K3 K4 K5].
  assert (chan_ok peer (with_phase c (PhFailed 0))) as Hf.
  { constructor; cbn; auto; try done. by intros [?|[]]. }
  assert (forall hm, chan_in ops c (IHandshake hm) = Ok (c', r) ->
    (ch_phase c = PhInitialized \/ exists n, ch_phase c = PhInitiated n) -> chan_ok peer c') as Hh.
  { clear H. intros hm H Hp. unfold chan_in in H.
    destruct (ch_session c) as [h|] eqn:S; [|by destruct (K4 Hp)].
    destruct (hs_process ops h hm) as [h1 b1] eqn:T; pose proof (process_ok _ _ _ _ T (K1 _ eq_refl)) as Hok1.
    destruct (hs_take ops h1) as [h2 p2] eqn:T2; pose proof (take_ok _ _ _ T2 Hok1) as Hok2.
    assert (forall p, chan_ok peer (with_hs_pending (with_session c (Some h2)) p)) as Hc.
    { intros p. constructor; cbn; auto; try (by intros ? [= <-]); intros; by eexists. }
    assert (forall p, chan_ok peer (with_phase (with_hs_pending (with_session c (Some h2)) p) (PhInitiated 0))) as Hi.
    { intros p. destruct (Hc p). constructor; cbn; auto; try done; intros; by eexists. }
    assert (hs_completed ops h2 = true -> forall p,
      chan_ok peer (with_phase (with_encryptor (with_session (with_hs_pending (with_session c (Some h2)) p) None) (hs_encryptor ops h2)) PhCompleted)) as Hd.
    { intros C p. constructor; cbn; auto; try done; try (by intros [?|[]]).
      - intros e He. apply (encryptor_ok h2 e); [exact He|done].
      - intros _. destruct (default_completed_encryptor client server h2 C) as [e He]. exists e. exact He. }
    assert (forall h', session_ok h' -> chan_ok peer (with_phase (with_session c (Some h')) (PhFailed 0))) as Hx.
    { intros h' Hh'. constructor; cbn; auto; try done; try (by intros ? [= <-]); by intros [?|[]]. }
    destruct Hp as [P|[n P]]; rewrite P in H; (destruct b1; [|injection H as <- <-; by apply Hx]);
      (destruct p2 as [p2|]; [|injection H as <- <-; by apply Hx]); cbv zeta in H;
      destruct (hs_completed ops h2) eqn:C; injection H as <- <-; auto. }
  pose proof H as H0. unfold chan_in in H. destruct (ch_phase c) eqn:P.
  - by injection H as <- <-.
  - destruct m as [hm| |]; try (by injection H as <- <-). apply (Hh hm H0). by left.
  - destruct m as [hm| |]; try (by injection H as <- <-). apply (Hh hm H0). right. by eexists.
  - unfold chan_decrypt in H. destruct (ch_encryptor c) as [e|] eqn:E; [|done].
    destruct m as [hm|pm|].
    + by injection H as <- <-.
    + destruct (pm_payload pm) as [p|]; [|done]. destruct (en_decrypt ops e p) as [e' o] eqn:D.
      assert (chan_ok peer (with_encryptor c (Some e'))).
      { constructor; cbn; auto; rewrite ?P.
        - intros ? [= <-]. eapply att_moves; [by apply K2|]. by eapply decrypt_moves.
        - intros [|[]]; done. }
      by destruct o; injection H as <- <-.
    + injection H as <- <-. constructor; rewrite ?P, ?E; auto.
  - injection H as <- <-. constructor; rewrite ?P; auto; done.
Qed.
Lemma reset_ok peer c : chan_ok peer c -> chan_ok peer (chan_reset c).
Proof using. intros []. constructor; cbn; try done. by intros [?|[]]. Qed.
Lemma tick_ok peer retry c : chan_ok peer c -> chan_ok peer (comm_tick_chan retry c).
Proof using.
  intros K. unfold comm_tick_chan. set (c' := chan_tick c).
  assert (chan_ok peer c') as K'.
  { unfold c', chan_tick. destruct K as [K1 K2 K3 K4 K5]. destruct (ch_phase c) eqn:P; try done; try (constructor; rewrite ?P; auto; done).
    - case_match; constructor; cbn; auto; try done; [by intros [?|[]]|]. intros _. apply K4. right. by eexists.
    - constructor; cbn; auto; try done. by intros [?|[]]. }
  clearbody c'. destruct (ch_phase c'); try done. case_match; [by apply reset_ok|done].
Qed.

(** Handing out messages. *)
Definition sent_by (e : ENN) (w : wire REQ RESP) (e' : ENN) : Prop :=
  match w with
  | WPeer m => exists plain p e1 e2, rtc move e e1 /\ en_encrypt ops e1 plain = (e2, Some p) /\ pm_payload m = Some p /\ rtc move e2 e'
  | WHandshake _ => True
  end.
Lemma encrypt_all_moves q : forall e e' ws, encrypt_all ops e q = Ok (e', ws) -> rtc move e e'.
Proof using.
  induction q as [|m q IH]; intros e e' ws H; cbn [encrypt_all] in H; [by injection H as <- <-|].
  destruct (pm_payload (om_msg m)); [|done]. destruct (en_encrypt ops e (pl_contents p)) as [e1 r] eqn:E.
  apply bind_ok in H as ([e2 ws'] & H1 & H). injection H as <- <-. etrans; [by eapply encrypt_moves|]. by eapply IH.
Qed.
Lemma encrypt_all_sent peer q : forall e e' ws, encrypt_all ops e q = Ok (e', ws) ->
  Forall (fun m => pm_recipient (om_msg m) = peer) q ->
  Forall (fun w => sent_by e w e' /\ exists m, w = WPeer m /\ pm_recipient m = peer) ws.
Proof using.
  induction q as [|m q IH]; intros e e' ws H Hq; cbn [encrypt_all] in H; [injection H as <- <-; constructor|]. apply Forall_cons in Hq as [Hm Hq].
  destruct (pm_payload (om_msg m)); [|done]. destruct (en_encrypt ops e (pl_contents p)) as [e1 r] eqn:E.
  apply bind_ok in H as ([e2 ws'] & H1 & H). injection H as <- <-. pose proof (encrypt_moves _ _ _ _ E) as Hmv.
  assert (Forall (fun w => sent_by e w e2 /\ exists m, w = WPeer m /\ pm_recipient m = peer) ws') as Hws.
  { eapply Forall_impl; [by eapply IH|]. intros w (H & x & -> & Hx). split; [|by exists x].
    destruct H as (plain & p' & f1 & f2 & A1 & A2 & A3 & A4). exists plain, p', f1, f2. split_and!; try done. by etrans. }
  destruct r as [p'|]; [|done]. constructor; [|done]. split; [|by eexists].
  eexists _, p', e, e1. split_and!; [done|exact E|done|]. by eapply encrypt_all_moves.
Qed.
(** What handing out does to a channel, with what it hands out. *)
Definition chan_moves (c c' : chn) : Prop :=
  ch_phase c' = ch_phase c /\
  (forall e, ch_encryptor c = Some e -> exists e', ch_encryptor c' = Some e' /\ rtc move e e').
Lemma chan_moves_refl c : chan_moves c c.
Proof using. split; [done|]. intros e. by exists e. Qed.
Lemma chan_take_ok peer c c' ws : chan_take ops c = Ok (c', ws) -> chan_ok peer c -> chan_ok peer c' /\ chan_moves c c' /\
  Forall (fun w => match w with
    | WHandshake _ => True
    | WPeer m => pm_recipient m = peer /\ ch_phase c' = PhCompleted /\
      exists e e', ch_encryptor c = Some e /\ ch_encryptor c' = Some e' /\ att e /\ sent_by e w e'
    end) ws.
Proof using.
  unfold chan_take. intros H K. pose proof K as [K1 K2 K3 K4 K5]. destruct (ch_pending c) as [hm|].
  { injection H as <- <-. split_and!; [by constructor|split; [done|]; intros e; by exists e|by repeat constructor]. }
  destruct (ch_phase c) eqn:P; try (injection H as <- <-; split_and!; [done|apply chan_moves_refl|constructor]).
  destruct (ch_encryptor c) as [e|] eqn:E; [|done]. apply bind_ok in H as ([e' ws'] & H1 & H). injection H as <- <-.
  pose proof (encrypt_all_moves _ _ _ _ H1) as Hmv. split_and!.
  - constructor; cbn; rewrite ?P; auto.
    intros ? [= <-]. eapply att_moves; [by apply K2|done].
  - split; [by cbn|]. intros e0 He0. rewrite E in He0. injection He0 as <-. by exists e'.
  - eapply Forall_impl; [by eapply encrypt_all_sent|]. intros w (H & m & -> & Hm). split_and!; try done.
    exists e, e'. split_and!; try done. by apply K2.
Qed.

(** ** The module *)
Record sound (s : MS) : Prop := Sound {
  so_chans : map_Forall chan_ok (cm_replicas (ms_comm s));
  so_factory : fa_chosen (ms_factory s) = Some (choose values the_clock);
}.
Definition untouched (s : MS) : Prop := cm_id (ms_comm s) = 0 /\ cm_replicas (ms_comm s) = ∅.

Lemma provide_ok (s : MS) peer r h : provide create_client create_server attest bind s peer r = Some h ->
  fa_chosen (ms_factory s) = Some (choose values the_clock) -> session_ok h.
Proof using.
  unfold provide. intros H Hf. destruct r; simpl in H.
  - unfold get_client, get_config in H. rewrite Hf in H. destruct (choose values the_clock) as [v x] eqn:C.
    destruct (attest (ms_calls s)) as [ev|]; [|done]. destruct (bind (ms_calls s)) as [b|]; [|done]. cbn in H.
    destruct (create_client _ _) as [y|] eqn:E; [|done]. injection H as <-. split; [|done].
    eexists _, (inl y). split_and!; [|eexists; exact E|done]. cbn. by rewrite C.
  - unfold get_server, get_config in H. rewrite Hf in H. destruct (choose values the_clock) as [v x] eqn:C.
    destruct (attest (ms_calls s)) as [ev|]; [|done]. destruct (bind (ms_calls s)) as [b|]; [|done]. cbn in H.
    destruct (create_server _ _) as [y|] eqn:E; [|done]. injection H as <-. split; [|done].
    eexists _, (inr y). split_and!; [|eexists; exact E|done]. cbn. by rewrite C.
Qed.
Lemma get_channel_ok (s s' : comm REQ RESP HSN ENN) peer g r : get_channel s peer g = (s', r) ->
  map_Forall chan_ok (cm_replicas s) -> (forall h, g = Some h -> session_ok h) ->
  map_Forall chan_ok (cm_replicas s') /\ (forall c, r = Ok c -> chan_ok peer c) /\
  (forall p, p <> peer -> cm_replicas s' !! p = cm_replicas s !! p).
Proof using.
  unfold get_channel. intros H Hs Hg.
  set (c := match cm_replicas s !! peer with Some c => c | None => chan_new (cm_timeout s) end) in *.
  assert (chan_ok peer c) as Hc.
  { unfold c. destruct (cm_replicas s !! peer) eqn:E; [by apply (Hs _ _ E)|apply chan_new_ok]. }
  clearbody c.
  assert (map_Forall chan_ok (<[peer:=c]> (cm_replicas s))) as Hm by (by apply map_Forall_insert_2).
  assert (forall p, p <> peer -> <[peer:=c]> (cm_replicas s) !! p = cm_replicas s !! p) as Hp
    by (intros; by rewrite lookup_insert_ne).
  destruct (chan_initialized c); [injection H as <- <-; split_and!; try done; by intros ? [= <-]|].
  destruct g as [h|]; injection H as <- <-; split_and!; try done.
  intros c' H. by eapply init_ok; [|..]; eauto.
Qed.
Lemma take_all_ok ord : forall (m m' : gmap N chn) ws, take_all ops m ord = Ok (m', ws) -> map_Forall chan_ok m ->
  map_Forall chan_ok m' /\ (forall p c, m !! p = Some c -> exists c', m' !! p = Some c' /\ chan_moves c c') /\
  Forall (fun w => match w with
    | WHandshake _ => True
    | WPeer x => exists c' e e', m' !! pm_recipient x = Some c' /\ ch_phase c' = PhCompleted /\
        ch_encryptor c' = Some e' /\ att e /\ sent_by e w e'
    end) ws.
Proof using.
  induction ord as [|k ord IH]; intros m m' ws H Hm; simpl in H.
  { injection H as <- <-. split_and!; [done| |constructor]. intros p c Hc. exists c. split; [done|apply chan_moves_refl]. }
  destruct (m !! k) as [c|] eqn:E; [|by apply IH].
  apply bind_ok in H as ([c1 ws1] & H1 & H). apply bind_ok in H as ([m2 ws2] & H2 & H). injection H as <- <-.
  destruct (chan_take_ok k _ _ _ H1 (Hm _ _ E)) as (K1 & M1 & W1).
  destruct (IH _ _ _ H2 ltac:(by apply map_Forall_insert_2)) as (K2 & M2 & W2). split_and!; [done| |].
  - intros p c0 Hp. destruct (decide (p = k)) as [->|Hne].
    + rewrite E in Hp. injection Hp as <-. destruct (M2 k c1) as (c2 & A & B); [by rewrite lookup_insert|].
      exists c2. split; [done|]. destruct M1 as [X1 X2], B as [Y1 Y2]. split; [congruence|]. intros e He.
      destruct (X2 e He) as (e1 & He1 & R1). destruct (Y2 e1 He1) as (e2 & He2 & R2). exists e2. split; [done|by etrans].
    + apply M2. by rewrite lookup_insert_ne.
  - apply Forall_app. split; [|done]. eapply Forall_impl; [exact W1|]. intros [hm|x]; [done|].
    intros (Hr & Hph & e & e1 & He & He1 & Ha & Hs).
    destruct (M2 k c1) as (c2 & A & Y1 & Y2); [by rewrite lookup_insert|]. destruct (Y2 e1 He1) as (e2 & He2 & R2).
    exists c2, e, e2. rewrite Hr. split_and!; try done; [congruence|].
    destruct Hs as (plain & p & f1 & f2 & A1 & A2 & A3 & A4). exists plain, p, f1, f2. split_and!; try done. by etrans.
Qed.

Lemma untouched_move s s' : untouched s -> cmove cops s s' -> untouched s'.
Proof using.
  intros [H1 H2] Hmv. destruct Hmv as [c m c' H|c m c' r H|c c' ws H|c ids|c]; try (cbn in H).
  - unfold comm_out in H. rewrite H1 in H. done.
  - unfold comm_in in H. rewrite H1 in H. done.
  - apply bind_ok in H as ([m ws'] & H & E). injection E as <- <-. unfold comm_take in H.
    apply bind_ok in H as ([m2 ws2] & H & E). injection E as <- <-. split; cbn; [done|].
    rewrite H2 in H. generalize dependent (order (ms_calls c) ∅). clear. intros ord.
    assert (forall m' ws, take_all ops ∅ ord = Ok (m', ws) -> m' = ∅) as X.
    { induction ord as [|k ord IH]; intros m' ws H; simpl in H; [by injection H as <- <-|]. rewrite lookup_empty in H. by eapply IH. }
    by eapply X.
  - split; cbn; unfold comm_cluster_change; case_match; cbn; try done. by rewrite H2, map_filter_empty.
  - split; cbn; [done|]. by rewrite H2, fmap_empty.
Qed.
Lemma sound_out c m c' : co_out cops c m = Ok c' -> sound c -> sound c'.
Proof using.
  cbn. intros H [Hs Hf]. unfold comm_out in H. destruct (cm_id (ms_comm c) =? 0); [done|].
  destruct (get_channel _ _ _) as [s1 r] eqn:G.
  destruct (get_channel_ok _ _ _ _ _ G Hs) as (A & B & _). { intros h Hh. by eapply provide_ok. }
  destruct r as [ch| |]; try done. destruct (chan_out ops ch m) as [[ch' b]| |] eqn:O; try done.
  injection H as <-. constructor; [|done]. cbn. apply map_Forall_insert_2; [|done]. by eapply out_ok; [|..]; eauto.
Qed.
Lemma sound_in c m c' r : co_in cops c m = Ok (c', r) -> sound c -> sound c' /\
  (forall p, in_sender m <> Some p -> channel c' p = channel c p) /\
  (r = None \/ exists pm ch e e' p plain, m = IPeer pm /\ channel c (pm_sender pm) = Some ch /\ ch_phase ch = PhCompleted /\
     ch_encryptor ch = Some e /\ att e /\ pm_payload pm = Some p /\ en_decrypt ops e p = (e', Some plain) /\
     r = Some (IPeer (with_payload pm (Payload plain [])))).
Proof using.
  cbn. intros H [Hs Hf]. unfold comm_in in H. destruct (cm_id (ms_comm c) =? 0); [done|].
  destruct (in_sender m) as [peer|] eqn:Sm; [|done]. change (default 0 (Some peer)) with peer in H.
  destruct (get_channel _ _ _) as [s1 r1] eqn:G.
  destruct (get_channel_ok _ _ _ _ _ G Hs) as (A & B & C). { intros h Hh. by eapply provide_ok. }
  destruct r1 as [ch| |]; try done. destruct (chan_in ops ch m) as [[ch' r']| |] eqn:O; try done.
  injection H as <- <-. split; [|split].
  - constructor; [|done]. cbn. apply map_Forall_insert_2; [|done]. by eapply in_ok; [|..]; eauto.
  - intros p Hp. unfold channel. cbn. rewrite lookup_insert_ne by congruence. apply C. congruence.
  - unfold chan_in in O. destruct (ch_phase ch) eqn:P.
    + injection O as <- <-. by left.
    + left. repeat case_match; congruence.
    + left. repeat case_match; congruence.
    + unfold chan_decrypt in O. destruct (ch_encryptor ch) as [e|] eqn:E; [|done]. destruct m as [hm|pm|]; [injection O as <- <-; by left| |done].
      cbn in Sm. injection Sm as <-. destruct (pm_payload pm) as [p|] eqn:Pl; [|done].
      destruct (en_decrypt ops e p) as [e' [plain|]] eqn:D; injection O as <- <-; [right|by left].
      assert (channel c (pm_sender pm) = Some ch) as Hch.
      { unfold channel. unfold get_channel in G. destruct (cm_replicas (ms_comm c) !! pm_sender pm) as [c0|] eqn:L.
        - destruct (chan_initialized c0) eqn:I; [congruence|]. unfold chan_initialized in I. destruct (ch_phase c0) eqn:P0; try done.
          destruct (provide _ _ _ _ _ _ _) as [h|]; [|done]. unfold chan_init in G. rewrite P0 in G. injection G as <- <-. done.
        - cbn [chan_initialized chan_new ch_phase] in G. destruct (provide _ _ _ _ _ _ _) as [h|]; [|done]. by injection G as <- <-. }
      exists pm, ch, e, e', p, plain. split_and!; try done. by eapply ck_encryptor; [apply (B ch)|].
    + injection O as <- <-. by left.
Qed.
Lemma sound_take c c' ws : co_take cops c = Ok (c', ws) -> sound c -> sound c' /\
  Forall (fun w => match w with
    | WHandshake _ => True
    | WPeer x => exists ch e e', channel c' (pm_recipient x) = Some ch /\ ch_phase ch = PhCompleted /\
        ch_encryptor ch = Some e' /\ att e /\ sent_by e w e'
    end) ws.
Proof using.
  cbn. intros H [Hs Hf]. apply bind_ok in H as ([m ws'] & H & E). injection E as <- <-. unfold comm_take in H.
  apply bind_ok in H as ([m2 ws2] & H & E). injection E as <- <-. destruct (take_all_ok _ _ _ _ H Hs) as (A & _ & B).
  split; [by constructor|done].
Qed.
Lemma sound_move s s' : sound s -> cmove cops s s' -> sound s'.
Proof using.
  intros S H. destruct H as [c m c' H|c m c' r H|c c' ws H|c ids|c].
  - by eapply sound_out.
  - by eapply sound_in.
  - by eapply sound_take.
  - destruct S as [Hs Hf]. constructor; [|done]. cbn. unfold comm_cluster_change. case_match; cbn; [|by apply map_Forall_empty].
    intros k ch Hk. apply map_filter_lookup_Some in Hk as [Hk _]. by apply Hs.
  - destruct S as [Hs Hf]. constructor; [|done]. cbn. intros k ch Hk. rewrite lookup_fmap in Hk.
    destruct (cm_replicas (ms_comm c) !! k) as [c0|] eqn:E; [|done]. injection Hk as <-. apply tick_ok. by apply (Hs _ _ E).
Qed.
Lemma id_move s s' : cmove cops s s' -> cm_id (ms_comm s') = cm_id (ms_comm s).
Proof using.
  assert (forall (c c' : comm REQ RESP HSN ENN) peer g r, get_channel c peer g = (c', r) -> cm_id c' = cm_id c) as G.
  { unfold get_channel. intros c c' peer g r H. destruct (chan_initialized _); [by injection H as <- <-|].
    destruct g; by injection H as <- <-. }
  intros Hm. destruct Hm as [c m c' H|c m c' r H|c c' ws H|c ids|c].
  - cbn in H. unfold comm_out in H. destruct (cm_id (ms_comm c) =? 0); [done|].
    destruct (get_channel _ _ _) as [s1 r] eqn:E. apply G in E.
    destruct r as [ch| |]; try done. destruct (chan_out ops ch m) as [[ch' b]| |]; try done. by injection H as <-.
  - cbn in H. unfold comm_in in H. destruct (cm_id (ms_comm c) =? 0); [done|]. destruct (in_sender m); [|done].
    destruct (get_channel _ _ _) as [s1 r1] eqn:E. apply G in E.
    destruct r1 as [ch| |]; try done. destruct (chan_in ops ch m) as [[ch' b]| |]; try done. by injection H as <- <-.
  - cbn in H. apply bind_ok in H as ([m ws'] & H & E). injection E as <- <-. unfold comm_take in H.
    apply bind_ok in H as ([m2 ws2] & H & E). by injection E as <- <-.
  - cbn. unfold comm_cluster_change. by case_match.
  - done.
Qed.
Lemma sound_init s id retry timeout : untouched s -> sound (co_init cops s id retry timeout).
Proof using. intros [_ H]. constructor; cbn; [|done]. rewrite H. apply map_Forall_empty. Qed.

(** With sessions available, a message with contents never fails. *)
Lemma in_total c m : sound c -> cm_id (ms_comm c) <> 0 ->
  (forall n, is_Some (attest n)) -> (forall n, is_Some (bind n)) ->
  (forall cfg n, is_Some (create_server cfg n)) ->
  (match m with IPeer pm => is_Some (pm_payload pm) | IHandshake _ => True | IOther => False end) ->
  exists c' r, co_in cops c m = Ok (c', r).
Proof using.
  intros [Hs Hf] Hid Ha Hb Hc Hm. cbn. unfold comm_in. destruct (N.eqb_spec (cm_id (ms_comm c)) 0) as [|_]; [done|].
  destruct (in_sender m) as [peer|] eqn:Sm; [|by destruct m]. change (default 0 (Some peer)) with peer.
  destruct (provide create_client create_server attest bind c peer Recipient) as [h|] eqn:P.
  2:{ exfalso. unfold provide, get_server, get_config in P. cbn in P. rewrite Hf in P. destruct (Ha (ms_calls c)) as [ev Eev].
      destruct (Hb (ms_calls c)) as [b Eb]. rewrite Eev, Eb in P. destruct (choose values the_clock) as [v x]. cbn in P.
      destruct (create_server _ (ms_calls c)) eqn:Ec; [done|]. destruct (Hc (SessionConfig ev (fa_endorsements (ms_factory c)) b v x) (ms_calls c)). congruence. }
  destruct (get_channel (ms_comm c) peer (Some h)) as [s1 r1] eqn:G.
  destruct (get_channel_ok _ _ _ _ _ G Hs) as (A & B & C). { intros h' [= <-]. by eapply provide_ok. }
  assert (exists ch, r1 = Ok ch) as [ch ->].
  { unfold get_channel in G. destruct (chan_initialized _) eqn:I; [injection G as <- <-; by eexists|].
    injection G as <- <-. unfold chan_init. unfold chan_initialized in I. destruct (ch_phase _); try done. by eexists. }
  specialize (B ch eq_refl). destruct B as [K1 K2 K3 K4 K5].
  assert (exists ch' r, chan_in ops ch m = Ok (ch', r)) as (ch' & r & ->).
  { unfold chan_in. destruct (ch_phase ch) eqn:Ph.
    - by do 2 eexists.
    - destruct m; try (by do 2 eexists). destruct (K4 ltac:(by left)) as [x ->]. 
      destruct (hs_process ops x m) as [h1 []]; [|by do 2 eexists]. destruct (hs_take ops h1) as [h2 [p|]]; [|by do 2 eexists].
      cbv zeta. destruct (hs_completed ops h2); by do 2 eexists.
    - destruct m; try (by do 2 eexists). destruct (K4 ltac:(right; by eexists)) as [x ->]. 
      destruct (hs_process ops x m) as [h1 []]; [|by do 2 eexists]. destruct (hs_take ops h1) as [h2 [p|]]; [|by do 2 eexists].
      cbv zeta. destruct (hs_completed ops h2); by do 2 eexists.
    - unfold chan_decrypt. destruct (K3 eq_refl) as [e ->]. destruct m as [hm|pm|]; [by do 2 eexists| |by do 2 eexists].
      destruct Hm as [p ->]. destruct (en_decrypt ops e p) as [e' []]; by do 2 eexists.
    - by do 2 eexists. }
  by do 2 eexists.
Qed.
End Sessions.
