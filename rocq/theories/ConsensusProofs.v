From Verif Require Import Base StorageModel SnapshotModel CommModel ActorModel DriverModel DriverSpec DriverProofs DriverBatchProofs ConsensusModel ConsensusSpec.

Section Calls.
Context {RS : Type}.
Variable rops : raft_ops RS.
Lemma runs_app t1 : forall t2 r r', consensus_runs rops r (t1 ++ t2) r' <->
  exists r1, consensus_runs rops r t1 r1 /\ consensus_runs rops r1 t2 r'.
Proof using.
  induction t1 as [|c t1 IH]; intros t2 r r'; simpl.
  - split; [intros H; by exists r|]. by intros (r1&->&H).
  - split.
    + intros (r1&H1&H2). apply IH in H2 as (r2&H2&H3). exists r2. split; [|done]. by exists r1.
    + intros (r2&(r1&H1&H2)&H3). exists r1. split; [done|]. apply IH. by exists r2.
Qed.

(** The recorded state [s'] results from [s] by calls of consensus. *)
Definition follows (s s' : RS * list raft_call) : Prop :=
  exists t, s'.2 = s.2 ++ t /\ consensus_runs rops s.1 t s'.1.
Lemma follows_refl s : follows s s.
Proof using. exists []. by rewrite app_nil_r. Qed.
Lemma follows_trans s1 s2 s3 : follows s1 s2 -> follows s2 s3 -> follows s1 s3.
Proof using.
  intros (t1&E1&H1) (t2&E2&H2). exists (t1 ++ t2). split; [by rewrite E2, E1, app_assoc|]. apply runs_app. by exists s2.1.
Qed.
Lemma follows_one s r c : consensus_does rops s.1 c r -> follows s (r, s.2 ++ [c]).
Proof using. intros H. exists [c]. split; [done|]. exists r. split; [done|]. done. Qed.
End Calls.

Section Proofs.
Context {RS SP CS ST REQ RESP : Type}.
Variable codec : driver_codec.
Variable rops : raft_ops RS.
Variable sops : snap_ops SP.
Variable cops : comm_ops CS REQ RESP.
Variable app : actor ST.
Notation DR := (rdriver RS SP CS ST REQ RESP).
Notation rr := (rec_raft rops).
Notation rc := (rec_comm cops).
Notation ra := (rec_actor app).
Implicit Types d : DR.
Notation fol d d' := (follows rops (d_raft d) (d_raft d')).

(** Each call of the recorded interface is one call of consensus. *)
Lemma rec_init s id c data l n s' : ra_init rr s id c data l n = Ok s' -> follows rops s s'.
Proof using. simpl. intros (r&H&[= <-])%bind_ok. apply follows_one. by econstructor. Qed.
Lemma rec_step s m s' b : ra_step rr s m = (s', b) -> follows rops s s'.
Proof using. simpl. destruct (ra_step rops s.1 m) as [r x] eqn:E. intros [= <- <-]. apply follows_one. by econstructor. Qed.
Lemma rec_propose s p s' : ra_propose rr s p = Ok s' -> follows rops s s'.
Proof using. simpl. intros (r&H&[= <-])%bind_ok. apply follows_one. by econstructor. Qed.
Lemma rec_change s c s' e : ra_propose_change rr s c = (s', e) -> follows rops s s'.
Proof using. simpl. destruct (ra_propose_change rops s.1 c) as [r x] eqn:E. intros [= <- <-]. apply follows_one. by econstructor. Qed.
Lemma rec_tick s : follows rops s (ra_tick rr s).
Proof using. apply follows_one. constructor. Qed.
Lemma rec_apply s c s' conf : ra_apply_change rr s c = Ok (s', conf) -> follows rops s s'.
Proof using. simpl. intros ([r x]&H&[= <- <-])%bind_ok. apply follows_one. by econstructor. Qed.
Lemma rec_ready s s' rd : ra_has_ready rr s = true -> ra_get_ready rr s = (s', rd) -> follows rops s s'.
Proof using. simpl. destruct (ra_get_ready rops s.1) as [r x] eqn:E. intros Hr [= <- <-]. apply follows_one. by econstructor. Qed.
Lemma rec_advance s n s' lr : ra_advance rr s n = (s', lr) -> follows rops s s'.
Proof using. simpl. destruct (ra_advance rops s.1 n) as [r x] eqn:E. intros [= <- <-]. apply follows_one. by econstructor. Qed.
Lemma rec_applied s : follows rops s (ra_advance_apply rr s).
Proof using. apply follows_one. constructor. Qed.
Lemma rec_report s i st : follows rops s (ra_report rr s i st).
Proof using. apply follows_one. constructor. Qed.
Lemma rec_hard s h : follows rops s (ra_set_hard rr s h).
Proof using. apply follows_one. constructor. Qed.
Lemma rec_append s es s' : ra_append rr s es = Ok s' -> follows rops s s'.
Proof using. simpl. intros (r&H&[= <-])%bind_ok. apply follows_one. by econstructor. Qed.
Lemma rec_install s sn s' : ra_apply_snapshot rr s sn = Ok s' -> follows rops s s'.
Proof using. simpl. intros (r&H&[= <-])%bind_ok. apply follows_one. by econstructor. Qed.
Lemma rec_save s i c data s' : ra_should_snapshot rr s i c = true -> ra_create_snapshot rr s i c data = Ok s' -> follows rops s s'.
Proof using. simpl. intros Hs (r&H&[= <-])%bind_ok. apply follows_one. by econstructor. Qed.
Lemma rec_reports {A} (f : RS * list raft_call -> A -> RS * list raft_call) l : (forall s x, follows rops s (f s x)) ->
  forall s, follows rops s (foldl f s l).
Proof using.
  intros Hf. induction l as [|x l IH]; intros s; simpl; [apply follows_refl|]. eapply follows_trans; [apply Hf|apply IH].
Qed.
Opaque rec_raft.

Lemma apply_entry_follows d e d' : apply_entry codec rr ra d e = Ok d' -> fol d d'.
Proof using.
  unfold apply_entry, apply_event_entry, apply_change_entry. intros H.
  assert (Hev : apply_event_entry codec ra (set_applied d (re_index e)) e = Ok d' -> fol d d').
  { unfold apply_event_entry. clear H. intros H. destruct (dec_entry codec (re_data e)); [|done].
    apply bind_ok in H as (i&_&H). apply bind_ok in H as (st&_&H). apply bind_ok in H as ([st' out]&_&[= <-]). apply follows_refl. }
  destruct (re_data e) as [|x l] eqn:Ed; [injection H as <-; apply follows_refl|].
  destruct (re_type e); try by apply Hev; unfold apply_event_entry; rewrite Ed.
  destruct (dec_change codec (x :: l)); [|done]. apply bind_ok in H as ([r conf]&H&[= <-]).
  apply or_fail_ok in H. by apply rec_apply in H.
Qed.
Lemma apply_entries_follows es : forall d d', apply_entries codec rr ra d es = Ok d' -> fol d d'.
Proof using.
  induction es as [|e es IH]; intros d d' H; simpl in H; [injection H as <-; apply follows_refl|].
  apply bind_ok in H as (d1&H1&H2). eapply follows_trans; [by eapply apply_entry_follows|by apply IH].
Qed.
Lemma send_follows ms : forall d d', send_raft_messages codec rc d ms = Ok d' -> d_raft d' = d_raft d.
Proof using.
  induction ms as [|m ms IH]; intros d d' H; simpl in H; [by injection H as <-|].
  destruct (decide _); [by apply IH in H|]. apply bind_ok in H as (c&_&H). by apply IH in H.
Qed.
Lemma restore_follows d s d' : restore_raft_snapshot rr ra d s = Ok d' -> fol d d'.
Proof using.
  unfold restore_raft_snapshot. intros H. destruct (sn_index s =? 0); [injection H as <-; apply follows_refl|].
  apply bind_ok in H as (r&H1&H). apply bind_ok in H as (st&_&H). apply bind_ok in H as (st'&_&[= <-]).
  apply or_fail_ok in H1. by apply rec_install in H1.
Qed.
Lemma advance_follows d d' : advance_raft codec rr rc ra d = Ok d' -> fol d d'.
Proof using.
  unfold advance_raft. set (d0 := if negb (d_lameduck d) then trigger_raft_tick rr d else d). intros H.
  assert (H0 : fol d d0).
  { clear H. subst d0. unfold trigger_raft_tick. destruct (negb (d_lameduck d)); [|apply follows_refl].
    destruct (d_tick_period d <=? _); [|apply follows_refl]. apply rec_tick. }
  clearbody d0. destruct (ra_has_ready rr (d_raft d0)) eqn:Er; simpl in H; [|by injection H as <-].
  destruct (ra_get_ready rr (d_raft d0)) as [r rd] eqn:E. apply rec_ready in E; [|done].
  apply bind_ok in H as (d1&S1&H). apply send_follows in S1. simpl in S1.
  apply bind_ok in H as (d2&S2&H). apply restore_follows in S2.
  apply bind_ok in H as (d3&S3&H). apply apply_entries_follows in S3.
  apply bind_ok in H as (d4&S4&H). apply send_follows in S4.
  apply bind_ok in H as (d5&S5&H).
  destruct (ra_advance rr (d_raft d5) (rd_number rd)) as [r' lr] eqn:E'. apply rec_advance in E'.
  apply bind_ok in H as (d6&S6&H). apply send_follows in S6. simpl in S6.
  apply bind_ok in H as (d7&S7&[= <-]). apply apply_entries_follows in S7. simpl.
  eapply follows_trans; [exact H0|]. eapply follows_trans; [exact E|].
  eapply (follows_trans _ _ (d_raft d2)).
  { rewrite <- S1. eapply follows_trans; [|exact S2]. destruct (rd_hard rd); [apply rec_hard|apply follows_refl]. }
  eapply follows_trans; [exact S3|]. rewrite <- S4.
  eapply (follows_trans _ _ (d_raft d5)).
  { destruct (rd_entries rd); [injection S5 as <-; apply follows_refl|].
    apply bind_ok in S5 as (r2&S5&[= <-]). apply or_fail_ok in S5. by apply rec_append in S5. }
  eapply follows_trans; [exact E'|]. rewrite <- S6. eapply follows_trans; [exact S7|]. apply rec_applied.
Qed.
Lemma state_machine_follows d d' : process_state_machine codec rr sops rc ra d = Ok d' -> fol d d'.
Proof using.
  unfold process_state_machine. destruct (ra_initialized rr (d_raft d)); [|intros [= <-]; apply follows_refl].
  intros H. apply bind_ok in H as (d1&H1&H). apply bind_ok in H as (d2&H2&H).
  eapply follows_trans; [by apply advance_follows|]. eapply (follows_trans _ _ (d_raft d2)).
  - unfold maybe_create_snapshot in H2. destruct (ra_should_snapshot rr _ _ _) eqn:Es; simpl in H2; [|injection H2 as <-; apply follows_refl].
    apply bind_ok in H2 as (st&_&H2). apply bind_ok in H2 as (data&_&H2). apply bind_ok in H2 as (r&H2&[= <-]).
    apply or_fail_ok in H2. by apply rec_save in H2.
  - unfold stash_leader_state in H. destruct (decide _); [injection H as <-; apply follows_refl|].
    apply bind_ok in H as (d3&H3&[= <-]). simpl. unfold update_snapshot_cluster in H3.
    destruct (decide _); [|injection H3 as <-; apply follows_refl].
    apply bind_ok in H3 as ([s l]&H3&[= <-]). simpl. apply rec_reports. intros s0 [i x]. apply rec_report.
Qed.
Lemma progress_follows d d' : process_snapshot_progress rr sops d = Ok d' -> fol d d'.
Proof using.
  unfold process_snapshot_progress. intros H. destruct (decide _); [|injection H as <-; apply follows_refl].
  apply bind_ok in H as (role&_&H). destruct role.
  - apply bind_ok in H as ([s r]&_&H). destruct r as [[i x]|]; injection H as <-; [apply rec_report|apply follows_refl].
  - apply bind_ok in H as ([s r]&_&H). destruct r as [[[i x]|]|]; injection H as <-; [|apply follows_refl..].
    cbn [set_raft d_raft set_snap]. destruct (ra_step rr (d_raft d) _) as [r b] eqn:E. by apply rec_step in E.
Qed.
Lemma sending_follows d d' : process_snapshot_sending rr sops rc d = Ok d' -> fol d d'.
Proof using.
  unfold process_snapshot_sending. intros H. apply bind_ok in H as (role&_&H). destruct role.
  - apply bind_ok in H as (s&_&H). apply bind_ok in H as ([s' out]&_&H). apply bind_ok in H as (c&_&[= <-]). apply follows_refl.
  - injection H as <-. simpl. apply rec_reports. intros. apply rec_report.
Qed.
Lemma propose_follows ps : forall d d', propose_all rr d ps = Ok d' -> fol d d'.
Proof using.
  induction ps as [|p ps IH]; intros d d' H; simpl in H; [injection H as <-; apply follows_refl|].
  apply bind_ok in H as (d1&H1&H2). unfold make_raft_proposal in H1. apply bind_ok in H1 as (r&H1&[= <-]).
  apply or_abort_ok in H1. apply rec_propose in H1. apply IH in H2. by eapply follows_trans.
Qed.

Lemma replication_follows d d' : run_replication codec rr sops rc ra d = Ok d' -> fol d d'.
Proof using.
  unfold run_replication. destruct (d_ephemeral d); [intros [= <-]; apply follows_refl|]. intros H.
  apply bind_ok in H as (d1&H1&H). apply bind_ok in H as (d2&H2&H). apply bind_ok in H as (d3&H3&H).
  unfold process_proposals in H1. apply propose_follows in H1. apply progress_follows in H2.
  apply state_machine_follows in H3. apply sending_follows in H.
  eapply follows_trans; [exact H1|]. eapply follows_trans; [exact H2|]. by eapply follows_trans.
Qed.
Lemma run_app_follows d m d' : run_app codec rc ra d m = Ok d' -> d_raft d' = d_raft d.
Proof using rops. intros H. by apply (run_app_ext codec rops cops app) in H as (_&_&_&_&R&_). Qed.

Lemma dispatch_follows d m d' : dispatch codec rr sops rc ra d m = Ok d' -> fol d d'.
Proof using.
  intros H. destruct m as [q| | |q| |p| | |h|a]; try by rewrite (dispatch_raft _ _ _ _ _ _ _ _ H); [apply follows_refl|].
  - simpl in H. apply process_start_ext in H as (_&_&_&_&_&_&_&_&_&_&_&_&_&_&_&H). destruct (sr_ephemeral q).
    + destruct H as [-> _]. apply follows_refl.
    + destruct H as (data&r&n&st&_&_&Hi&->&_). apply follows_one. by econstructor.
  - simpl in H. unfold process_change in H. apply bind_ok in H as (?&_&H). apply bind_ok in H as (?&_&H).
    apply bind_ok in H as ([d1 st]&H1&[= <-]). simpl.
    assert (Hm : forall n t, make_config_change rr d n t = Ok (d1, st) -> fol d d1).
    { clear H1. intros n t H1. unfold make_config_change in H1.
      destruct (ra_propose_change rr (d_raft d) (ConfChange t n)) as [r [[]|]] eqn:E; try done;
        injection H1 as <- _; by apply rec_change in E. }
    destruct (cr_type q =? 1); [by eapply Hm|]. destruct (cr_type q =? 2); [by eapply Hm|].
    injection H1 as <- _. apply follows_refl.
  - destruct (pm_kind p) eqn:Ek; try by rewrite (dispatch_raft _ _ _ _ _ _ _ _ H); [apply follows_refl|by rewrite Ek].
    simpl in H. rewrite Ek in H. unfold process_system in H.
    apply bind_ok in H as (?&_&H). apply bind_ok in H as (?&_&H). apply bind_ok in H as ([c o]&_&H).
    destruct o as [[|m|]|]; try done; [|injection H as <-; apply follows_refl].
    destruct (pm_kind m); try done. apply bind_ok in H as (pl&_&H). unfold make_raft_step in H.
    destruct (dec_rmsg codec (pl_contents pl)) as [rm|]; [|injection H as <-; apply follows_refl]. simpl in H.
    destruct (ra_step rr (d_raft d) rm) as [r [|]] eqn:E; [|done]. injection H as <-. by apply rec_step in E.
Qed.
Lemma receive_follows d x d' out : receive codec rops sops cops app d x = Ok (d', out) -> fol d d'.
Proof using.
  intros H. destruct x as [t m].
  assert (Hm : m = Some None \/ m <> Some None) by (destruct m as [[]|]; [by right|by left|by right]).
  destruct Hm as [->|Hm]; [injection H as <- <-; apply follows_refl|].
  apply receive_parts in H as (d1&d2&d3&c&ws&H1&H2&H3&_&->&_); [|done]. simpl.
  apply run_app_follows in H2. apply replication_follows in H3. rewrite H2 in H3.
  eapply follows_trans; [|exact H3]. destruct m as [[m|]|]; [|done|subst d1; apply follows_refl].
  by apply dispatch_follows in H1.
Qed.
Lemma reaches_follows r s c xs : forall d outs, reaches codec rops sops cops app r s c xs d outs ->
  consensus_runs rops r (raft_calls d) (d_raft d).1.
Proof using.
  induction xs as [|x xs IH] using rev_ind; intros d outs B.
  - destruct B as [_ [= <- <-]]. done.
  - apply born_snoc in B as (d1&o1&out&B&H&->). apply IH in B. apply receive_follows in H as (t&E&H).
    unfold raft_calls in *. rewrite E. apply runs_app. by exists (d_raft d1).1.
Qed.
End Proofs.
Transparent rec_raft.

Section Contract.
Context {RS SP CS ST REQ RESP : Type}.
Variable codec : driver_codec.
Variable rops : raft_ops RS.
Variable sops : snap_ops SP.
Variable cops : comm_ops CS REQ RESP.
Variable app : actor ST.
Notation plain := (fun c => ~ batch_call c).
Notation not_init := (fun c => match c with KInit _ _ _ => False | _ => True end).

Lemma contract_calls t l : keeps_contract codec t -> t <> [] -> Forall plain l -> Forall not_init l -> keeps_contract codec (t ++ l).
Proof using.
  intros H Hn. induction l as [|c l IH] using rev_ind; intros Hp Hi; [by rewrite app_nil_r|].
  apply Forall_app in Hp as [Hp Hc]. apply Forall_app in Hi as [Hi Hc'].
  rewrite app_assoc. apply contract_call; [by apply IH|by destruct t|by inversion Hc|].
  inversion Hc' as [|? ? Hx _]; subst. by intros ? ? ? ->.
Qed.
Lemma reaches_contract r s c xs : forall d outs, reaches codec rops (rec_snap sops) cops app r s c xs d outs ->
  keeps_contract codec (raft_calls d).
Proof using.
  induction xs as [|x xs IH] using rev_ind; intros d outs B.
  - destruct B as [_ [= <- <-]]. constructor.
  - pose proof (born_inv _ _ _ _ _ _ _ _ _ _ _ B) as I'.
    apply born_snoc in B as (d1&o1&out&B&H&->). pose proof (IH _ _ B) as K.
    pose proof (born_inv _ _ _ _ _ _ _ _ _ _ _ B) as I.
    destruct (receive_call _ _ _ _ _ _ _ _ _ I H) as (rt&mt&tr&C).
    pose proof (call_raft _ _ _ _ _ _ _ _ _ _ C) as E.
    assert (Hx : x.2 = Some None \/ x.2 <> Some None) by (destruct x.2 as [[]|]; [by right|by left|by right]).
    destruct Hx as [Hx|Hx].
    { destruct x as [t m]. simpl in Hx. subst m. injection H as <- <-. done. }
    destruct (d_ephemeral d) eqn:Ee.
    { rewrite (core_ephemeral _ _ (inv_core _ _ I') Ee). constructor. }
    destruct (receive_batch _ _ _ _ _ _ _ _ _ I H Ee Hx) as (rt'&mt'&l&E'&_&_&Hb).
    assert (rt' = rt) as -> by (rewrite E in E'; by apply app_inv_head in E'). clear E'.
    destruct (decide (d_actor d = None)) as [Hn|Hn].
    { destruct (core_absent _ _ (inv_core _ _ I') Hn) as (_&->&_). constructor. }
    destruct (core_present _ _ (inv_core _ _ I') Hn Ee) as (le&data&Hh).
    (* the first call initialises *)
    assert (Hc : exists t0 rest, keeps_contract codec t0 /\ t0 <> [] /\ raft_calls d = t0 ++ rest /\ Forall not_init rest /\
      exists pre0, rt = pre0 ++ rest /\ Forall plain pre0 /\ (pre0 = [] \/ exists c, pre0 = [c])).
    { destruct (raft_calls d1) as [|k t1] eqn:E1.
      - simpl in E. destruct rt as [|k rt]; [by rewrite E in Hh|]. rewrite E in Hh. simpl in Hh. injection Hh as ->.
        exists [KInit (d_id d) le data], rt. split_and!; [constructor|done|done| |].
        + pose proof (call_inits _ _ _ _ _ _ _ _ _ _ C) as Hi. simpl in Hi. by rewrite drop_0 in Hi.
        + eexists [_]. split_and!; [done|repeat constructor; by intros []|right; by eexists].
      - exists (k :: t1), rt. split_and!; [done|done|done| |].
        + apply (call_first _ _ _ _ _ _ _ _ _ _ C). intros Hp. destruct (created_empty _ _ I Hp) as (_&Hr&_). by rewrite E1 in Hr.
        + exists []. split_and!; [done|constructor|by left]. }
    destruct Hc as (t0&rest&K0&Hn0&->&Hi&pre0&Er&Hp0&H1).
    assert (Hcall : forall b lr body, carries_out codec b lr body -> exists x tl, body = KReady x :: tl).
    { intros b lr body (t1&t2&_&_&->). by eexists _, _. }
    destruct Hb as [(O&_&_)|(b&lr&pre&body&post&pre'&post'&Er'&Hcar&O1&O2&_)].
    + apply contract_calls; try done. rewrite Er in O. by apply Forall_app in O as [_ ?].
    + rewrite Er in Er'. destruct (Hcall _ _ _ Hcar) as (rd&tl&Eb).
      assert (Hrest : exists pre1, rest = pre1 ++ body ++ post /\ Forall plain pre1).
      { destruct H1 as [->|[k ->]]; [by exists pre|]. destruct pre as [|k' pre].
        - simpl in Er'. rewrite Eb in Er'. injection Er' as -> _. inversion Hp0 as [|? ? Hk]; subst. by destruct Hk.
        - injection Er' as -> ->. exists pre. split; [done|]. by inversion O1. }
      destruct Hrest as (pre1&->&Hp1). apply Forall_app in Hi as [Hi1 Hi2]. apply Forall_app in Hi2 as [_ Hi2].
      rewrite !app_assoc. apply contract_calls; [|by destruct t0|done|done].
      apply (contract_batch _ _ b lr); [|by destruct t0|done]. by apply contract_calls.
Qed.
End Contract.

Section Simple.
Context {ND NR : Type}.
Variable codec : driver_codec.
Variable nops : node_ops ND NR.
Notation sops := (simple_ops nops).
Notation runs := (consensus_runs sops).
(** Initialised, with these batches outstanding. *)
Definition sound (m : gmap N NR) (s : simple ND NR) : Prop := is_Some (rs_node s) /\ rs_ready s = m /\ rs_aborted s = false.

Definition plain_call (c : raft_call) : Prop :=
  match c with KReady _ | KLight _ _ => False | KInit _ _ _ => False | _ => True end.
Lemma sound_call m s c s' : sound m s -> consensus_does sops s c s' -> plain_call c -> sound m s'.
Proof using.
  intros ([n Hn]&Hm&Ha) H Hc. inversion H; subst; simpl in *; try done;
    unfold simple_step, simple_propose, simple_propose_change, simple_tick, simple_apply_change, simple_advance_apply,
      simple_report, simple_set_hard, simple_append, simple_install, simple_create_snapshot, on_node, on_node', on_store in *;
    rewrite Hn in *.
  all: try by split_and!.
  all: repeat match goal with
  | H : (let '(_, _) := ?x in _) = _ |- _ => destruct x as [? ?] eqn:?
  | H : _ = Ok _ |- _ => apply bind_ok in H as (?&?&H)
  | x : (_ * _)%type |- _ => destruct x
  end; simplify_eq; by split_and!.
Qed.
Lemma sound_calls m t : forall s s', sound m s -> runs s t s' -> Forall plain_call t -> sound m s'.
Proof using.
  induction t as [|c t IH]; simpl; intros s s' Hs H Hf; [by subst|].
  destruct H as (s1&H1&H2). inversion Hf as [|? ? Hc Hf']; subst. apply (IH s1); [|done|done]. by eapply sound_call.
Qed.
Lemma hands_back_plain es t : hands_back codec es t -> Forall plain_call t.
Proof using.
  intros (l&_&_&E). clear -E. revert E. generalize (omap (change_of_entry codec) l). induction t as [|c t IH]; intros l'; [constructor|].
  destruct l' as [|x l']; [done|]. simpl. intros [= E1 E2]. constructor; [by destruct c|by eapply IH].
Qed.
Lemma sound_batch s b lr t s' : sound ∅ s -> carries_out codec b lr t -> runs s t s' -> sound ∅ s'.
Proof using.
  intros ([n Hn]&Hm&Ha) (t1&t2&H1&H2&->) H.
  destruct H as (s1&D&H). inversion D as [| | | | | |r' rd Hr E| | | | | | |]; subst. simpl in E. unfold simple_get_ready in E. rewrite Hn in E.
  destruct (nd_ready nops n) as [n1 [rd rest]] eqn:En. injection E as <- <-.
  assert (S1 : sound {[rd_number rd := rest]} (Simple (Some n1) (<[rd_number rd := rest]> (rs_ready s)) (rs_aborted s))).
  { split_and!; [by eexists|by rewrite Hm|done]. }
  revert H S1. generalize (Simple (Some n1) (<[rd_number rd := rest]> (rs_ready s)) (rs_aborted s)). clear s Hr Hn Hm Ha D. intros s H S1.
  change (map KHard ?a ++ ?x ++ t1 ++ ?y ++ ?z) with (map KHard a ++ x ++ t1 ++ y ++ z) in H.
  assert (Hf : forall y l z u v, runs u (y ++ l :: z) v -> Forall plain_call y -> sound {[rd_number rd := rest]} u ->
    exists u1 u2, sound {[rd_number rd := rest]} u1 /\ consensus_does sops u1 l u2 /\ runs u2 z v).
  { intros y l z u v R Fy Su. apply runs_app in R as (u1&R1&(u2&R2&R3)). exists u1, u2. split_and!; [by eapply sound_calls|done|done]. }
  rewrite !app_assoc in H. rewrite <- (app_assoc _ t2 [KApplied]) in H. rewrite <- (app_assoc _ [KLight _ _] (t2 ++ _)) in H.
  apply (Hf _ (KLight (rd_number rd) lr) (t2 ++ [KApplied])) in H as (u1&u2&(X1&X2&X3)&D&R); [| |done].
  - inversion D as [| | | | | | |k r' lr' E| | | | | |]; subst. simpl in E. unfold simple_advance in E.
    rewrite X2, lookup_singleton in E. destruct X1 as [nn X1]. rewrite X1 in E.
    destruct (nd_advance nops nn rest) as [n2 lr'] eqn:Ea. injection E as <- <-.
    apply (sound_calls ∅) in R; [done| |].
    + split_and!; [by eexists| |done]. simpl. by rewrite delete_singleton.
    + apply Forall_app. split; [by eapply hands_back_plain|repeat constructor].
  - apply Forall_app; split; [apply Forall_app; split; [apply Forall_app; split|]|].
    + rewrite app_nil_l, Forall_map. by apply Forall_true.
    + destruct (sn_index (rd_snapshot rd) =? 0); repeat constructor.
    + by eapply hands_back_plain.
    + destruct (rd_entries rd); repeat constructor.
Qed.
Lemma sound_contract t : keeps_contract codec t -> forall s, runs simple_new t s -> match t with [] => s = simple_new | _ => sound ∅ s end.
Proof using.
  intros K. assert (Hg : forall s, runs simple_new t s -> (t = [] -> s = simple_new) /\ (t <> [] -> sound ∅ s)).
  { induction K as [|id le data|t c K IH Hn Hb Hi|t b lr body K IH Hn Hc]; intros s H.
    - split; [done|]. done.
    - split; [done|]. intros _. destruct H as (s1&D&->). inversion D as [? c ? ? ? r' E| | | | | | | | | | | | |]; subst.
      simpl in E. unfold simple_init in E. apply bind_ok in E as (st&_&E). apply bind_ok in E as (nn&_&[= <-]).
      split_and!; [by eexists|done|done].
    - apply runs_app in H as (s1&H1&(s2&D&->)). destruct (IH _ H1) as [_ S]. specialize (S Hn).
      split; [by destruct t|]. intros _. eapply sound_call; [exact S|exact D|].
      destruct c; try done; simpl in *; try (by apply Hb); by eapply Hi.
    - apply runs_app in H as (s1&H1&H2). destruct (IH _ H1) as [_ S]. specialize (S Hn).
      split; [by destruct t|]. intros _. by eapply sound_batch. }
  intros s H. destruct (Hg s H) as [H1 H2]. destruct t; [by apply H1|by apply H2].
Qed.
End Simple.
