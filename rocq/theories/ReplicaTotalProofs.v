From Verif Require Import Base StorageModel SnapshotModel CommModel CommOakProofs ActorModel DriverModel DriverProofs SessionModel SessionSpec
  ReplicaModel ReplicaSpec ReplicaProofs ReplicaCommProofs.

(** ** When the calls of the communication module succeed *)
Section Total.
Context {REQ RESP CSN SSN : Type}.
Variable client : oak_ops CSN REQ RESP.
Variable server : oak_ops SSN RESP REQ.
Variable create_client : session_config -> N -> option CSN.
Variable create_server : session_config -> N -> option SSN.
Variable attest bind : N -> option bytes.
Variable values : ref_values.
Variable own_clock : option clock.
Variable endorsements : bytes.
Notation HSN := (hsession CSN + hsession SSN)%type.
Notation ENN := (CSN + SSN)%type.
Variable order : N -> gmap N (chan REQ RESP HSN ENN) -> list N.
Notation ops := (default_ops client server).
Notation cops := (real_comm client server create_client create_server attest bind values own_clock endorsements order).
Notation MS := (@messenger REQ RESP CSN SSN).
Notation the_clock := (default HostClock own_clock).
Notation chan_ok := (chan_ok client server create_client create_server values own_clock).
Notation sound := (sound client server create_client create_server values own_clock).
Hypothesis attests : forall n, is_Some (attest n).
Hypothesis binds : forall n, is_Some (bind n).
Hypothesis creates_client : forall cfg n, is_Some (create_client cfg n).
Hypothesis creates_server : forall cfg n, is_Some (create_server cfg n).

Definition contents (m : out_msg) : Prop := is_Some (pm_payload (om_msg m)).
Definition full (c : chan REQ RESP HSN ENN) : Prop := Forall contents (ch_queue c).
Record fit (s : MS) : Prop := Fit {
  ft_sound : sound s;
  ft_id : cm_id (ms_comm s) <> 0;
  ft_full : map_Forall (fun _ => full) (cm_replicas (ms_comm s));
}.

Lemma push_full q m : contents m -> Forall contents q -> Forall contents (push_or_replace q m).
Proof using.
  intros Hm Hq. unfold push_or_replace.
  assert (Forall contents (q ++ [m])) by (apply Forall_app; split; [done|by constructor]).
  destruct (om_heartbeat m); [|done]. destruct (replace_heartbeat q m) as [q'|] eqn:E; [|done].
  clear H. revert q' E. induction q as [|x q IH]; intros q' E; simpl in E; [done|]. apply Forall_cons in Hq as [Hx Hq].
  destruct (om_heartbeat x); [injection E as <-; by constructor|].
  destruct (replace_heartbeat q m) as [q''|]; [|done]. injection E as <-. constructor; [done|]. by apply IH.
Qed.
Lemma provide_some (s : MS) peer r : fa_chosen (ms_factory s) = Some (choose values the_clock) ->
  exists h, provide create_client create_server attest bind s peer r = Some h.
Proof using attests binds creates_client creates_server.
  intros Hf. unfold provide, get_server, get_client, get_config. rewrite Hf.
  destruct (attests (ms_calls s)) as [ev ->]. destruct (binds (ms_calls s)) as [b ->]. destruct (choose values the_clock) as [v x]. cbn.
  destruct (creates_client (SessionConfig ev (fa_endorsements (ms_factory s)) b v x) (ms_calls s)) as [y1 ->].
  destruct (creates_server (SessionConfig ev (fa_endorsements (ms_factory s)) b v x) (ms_calls s)) as [y2 ->].
  destruct r; by eexists.
Qed.
Lemma get_channel_full (s s' : comm REQ RESP HSN ENN) peer g r : get_channel s peer g = (s', r) ->
  map_Forall (fun _ => full) (cm_replicas s) ->
  map_Forall (fun _ => full) (cm_replicas s') /\ (forall c, r = Ok c -> full c).
Proof using.
  unfold get_channel. intros H Hs.
  set (c := match cm_replicas s !! peer with Some c => c | None => chan_new (cm_timeout s) end) in *.
  assert (full c) as Hc. { unfold c. destruct (cm_replicas s !! peer) eqn:E; [by apply (Hs _ _ E)|constructor]. }
  clearbody c.
  assert (map_Forall (fun _ => full) (<[peer:=c]> (cm_replicas s))) as Hm by (by apply map_Forall_insert_2).
  destruct (chan_initialized c); [injection H as <- <-; split; [done|]; by intros ? [= <-]|].
  destruct g as [h|]; injection H as <- <-; (split; [done|]); [|done].
  intros c' H. unfold chan_init in H. destruct (ch_phase c); try done. by injection H as <-.
Qed.
Lemma get_channel_some (s : comm REQ RESP HSN ENN) peer h : exists s' ch, get_channel s peer (Some h) = (s', Ok ch).
Proof using.
  unfold get_channel. destruct (chan_initialized _) eqn:I; [by eexists _, _|].
  unfold chan_init. unfold chan_initialized in I. destruct (ch_phase _); try done. by eexists _, _.
Qed.
Lemma out_total c m : fit c -> contents m -> exists c', co_out cops c m = Ok c' /\ fit c'.
Proof using attests binds creates_client creates_server.
  intros [Hs Hid Hf] Hm.
  assert (exists c', co_out cops c m = Ok c' /\ map_Forall (fun _ => full) (cm_replicas (ms_comm c'))) as (c' & E & F).
  { cbn. unfold comm_out. destruct (N.eqb_spec (cm_id (ms_comm c)) 0) as [|_]; [done|].
    destruct (provide_some c (pm_recipient (om_msg m)) Initiator (so_factory _ _ _ _ _ _ _ Hs)) as [h Hh]. rewrite Hh.
    destruct (get_channel_some (ms_comm c) (pm_recipient (om_msg m)) h) as (s1 & ch & G). rewrite G.
    destruct (get_channel_ok _ _ _ _ _ _ _ _ _ _ _ G (so_chans _ _ _ _ _ _ _ Hs)) as (A & B & _).
    { intros h' [= <-]. eapply provide_ok; [exact Hh|apply Hs]. }
    destruct (get_channel_full _ _ _ _ _ G Hf) as [C D]. specialize (B ch eq_refl). specialize (D ch eq_refl).
    assert (exists ch' b, chan_out ops ch m = Ok (ch', b) /\ full ch') as (ch' & b & -> & Hf').
    { unfold chan_out. destruct B as [K1 K2 K3 K4 K5]. destruct (ch_phase ch) eqn:P.
      2:{ destruct K4 as [x ->]; [by left|]. destruct (hs_take ops x) as [h' [[hm|]|]]; eexists _, _; (split; [done|]); try done. by apply push_full. }
      all: eexists _, _; (split; [done|]); try done; by apply push_full. }
    eexists. split; [done|]. cbn. by apply map_Forall_insert_2. }
  exists c'. split; [done|]. constructor; [by eapply sound_out| |done].
  erewrite id_move; [done|]. by eapply cm_out.
Qed.
Lemma in_full c m c' r : co_in cops c m = Ok (c', r) -> fit c -> fit c'.
Proof using.
  intros E [Hs Hid Hf]. constructor; [by eapply sound_in|erewrite id_move; [done|]; by eapply cm_in|].
  cbn in E. unfold comm_in in E. destruct (cm_id (ms_comm c) =? 0); [done|]. destruct (in_sender m) as [peer|]; [|done].
  destruct (get_channel _ _ _) as [s1 [ch| |]] eqn:G; try done. destruct (get_channel_full _ _ _ _ _ G Hf) as [C D]. specialize (D ch eq_refl).
  destruct (chan_in ops ch m) as [[ch' b]| |] eqn:I; try done. injection E as <- <-. cbn. apply map_Forall_insert_2; [|done].
  assert (ch_queue ch' = ch_queue ch) as Q; [|unfold full; by rewrite Q].
  unfold chan_in, chan_decrypt in I. repeat case_match; simplify_eq; done.
Qed.
Lemma in_fit c m : fit c ->
  (match m with IPeer pm => is_Some (pm_payload pm) | IHandshake _ => True | IOther => False end) ->
  exists c' r, co_in cops c m = Ok (c', r) /\ fit c'.
Proof using attests binds creates_server.
  intros F Hm.
  destruct (in_total client server create_client create_server attest bind values own_clock endorsements order c m
    (ft_sound _ F) (ft_id _ F) attests binds creates_server Hm) as (c' & r & E).
  exists c', r. split; [exact E|]. by eapply in_full.
Qed.
(** What is heard keeps its kind and has contents. *)
Lemma in_peer c m c' x : co_in cops c (IPeer m) = Ok (c', Some x) ->
  exists m', x = IPeer m' /\ pm_kind m' = pm_kind m /\ is_Some (pm_payload m').
Proof using.
  intros E. cbn in E. unfold comm_in in E. destruct (cm_id (ms_comm c) =? 0); [done|]. cbn in E.
  destruct (get_channel _ _ _) as [s1 [ch| |]]; try done. destruct (chan_in ops ch (IPeer m)) as [[ch' b]| |] eqn:I; try done. injection E as <- ->.
  unfold chan_in in I. destruct (ch_phase ch); try done. unfold chan_decrypt in I. destruct (ch_encryptor ch) as [e|]; [|done].
  destruct (pm_payload m) as [p|] eqn:P; [|done]. destruct (en_decrypt ops e p) as [e' [plain|]]; [|done]. injection I as <- <-. eexists. split; [done|]. split; [done|]. by eexists.
Qed.
Lemma encrypt_all_total q : forall e, Forall contents q -> exists e' ws, encrypt_all ops e q = Ok (e', ws).
Proof using.
  induction q as [|m q IH]; intros e Hq; cbn [encrypt_all]; [by eexists _, _|]. apply Forall_cons in Hq as [[p Hp] Hq]. rewrite Hp.
  destruct (en_encrypt ops e (pl_contents p)) as [e1 r]. destruct (IH e1 Hq) as (e' & ws & ->). by eexists _, _.
Qed.
Lemma chan_take_total peer ch : chan_ok peer ch -> full ch -> exists ch' ws, chan_take ops ch = Ok (ch', ws) /\ full ch'.
Proof using.
  intros [K1 K2 K3 K4 K5] F. unfold chan_take. destruct (ch_pending ch); [by eexists _, _|].
  destruct (ch_phase ch) eqn:P; try (by eexists _, _). destruct (K3 eq_refl) as [e ->].
  destruct (encrypt_all_total (ch_queue ch) e F) as (e' & ws & ->). eexists _, _. split; [done|]. constructor.
Qed.
Lemma take_total c : fit c -> exists c' ws, co_take cops c = Ok (c', ws) /\ fit c'.
Proof using.
  intros [Hs Hid Hf].
  assert (exists c' ws, co_take cops c = Ok (c', ws) /\ map_Forall (fun _ => full) (cm_replicas (ms_comm c'))) as (c' & ws & E & F).
  { cbn. unfold comm_take. generalize (order (ms_calls c) (cm_replicas (ms_comm c))). intros ord.
    assert (forall m, map_Forall chan_ok m -> map_Forall (fun _ => full) m ->
      exists m' ws, take_all ops m ord = Ok (m', ws) /\ map_Forall (fun _ => full) m') as X.
    { induction ord as [|k ord IH]; intros m Hm Hfm; simpl; [by eexists _, _|].
      destruct (m !! k) as [ch|] eqn:L; [|by apply IH].
      destruct (chan_take_total k ch (Hm _ _ L) (Hfm _ _ L)) as (ch' & ws & E & F'). rewrite E. simpl.
      destruct (chan_take_ok _ _ _ _ _ _ k _ _ _ E (Hm _ _ L)) as (K & _ & _).
      destruct (IH (<[k:=ch']> m)) as (m' & ws' & -> & F''); [by apply map_Forall_insert_2..|]. simpl. by eexists _, _. }
    destruct (X (cm_replicas (ms_comm c)) (so_chans _ _ _ _ _ _ _ Hs) Hf) as (m' & ws & -> & F). simpl. by eexists _, _. }
  exists c', ws. split; [done|]. constructor; [by eapply sound_take|erewrite id_move; [done|]; by eapply cm_take|done].
Qed.
Lemma tick_fit c : fit c -> fit (co_tick cops c).
Proof using.
  intros [Hs Hid Hf]. constructor; [eapply sound_move; [exact Hs|]; apply (cm_tick cops)|done|].
  cbn. intros k ch Hk. rewrite lookup_fmap in Hk. destruct (cm_replicas (ms_comm c) !! k) as [c0|] eqn:E; [|done]. injection Hk as <-.
  specialize (Hf _ _ E). unfold full, comm_tick_chan, chan_tick. repeat case_match; done.
Qed.
Lemma cluster_fit c ids : fit c -> fit (co_cluster cops c ids).
Proof using.
  intros [Hs Hid Hf]. constructor; [eapply sound_move; [exact Hs|]; apply (cm_cluster cops)|cbn; unfold comm_cluster_change; by case_match|].
  cbn. unfold comm_cluster_change. case_match; cbn; [|by apply map_Forall_empty].
  intros k ch Hk. apply map_filter_lookup_Some in Hk as [Hk _]. by apply (Hf k).
Qed.
Lemma init_fit c id retry timeout : untouched c -> id <> 0 -> fit (co_init cops c id retry timeout).
Proof using.
  intros U Hid. constructor; [by apply sound_init|done|]. cbn. destruct U as [_ ->]. apply map_Forall_empty.
Qed.
End Total.
