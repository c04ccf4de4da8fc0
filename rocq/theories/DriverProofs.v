From Verif Require Import Base StorageModel SnapshotModel CommModel ActorModel DriverModel DriverSpec.

(** ** General facts *)
Lemma bind_ok {E A B} (r : res E A) (f : A -> res E B) b :
  res_bind r f = Ok b -> exists a, r = Ok a /\ f a = Ok b.
Proof. destruct r; simpl; intros H; try done. eauto. Qed.
Lemma or_fail_ok {E A} e (r : res E A) a : or_fail e r = Ok a -> r = Ok a.
Proof. destruct r; simpl; intros H; try done. by injection H as ->. Qed.
Lemma or_abort_ok {E A} (r : res E A) a : or_abort r = Ok a -> r = Ok a.
Proof. destruct r; simpl; intros H; try done. by injection H as ->. Qed.
Lemma unwrap_ok {E A} (o : option A) a : unwrap (E:=E) o = Ok a -> o = Some a.
Proof. destruct o; simpl; intros H; try done. by injection H as ->. Qed.

Lemma forall_to {A} (P Q : A -> Prop) l : Forall P l -> (forall x, P x -> Q x) -> Forall Q l.
Proof. intros H ?. by eapply Forall_impl. Qed.

(** Takes apart a successful sequence of calls. *)
Ltac oks1 :=
  match goal with
  | H : res_bind _ _ = Ok _ |- _ => apply bind_ok in H as (?&?&H)
  | H : or_fail _ _ = Ok _ |- _ => apply or_fail_ok in H
  | H : or_abort _ = Ok _ |- _ => apply or_abort_ok in H
  | H : unwrap _ = Ok _ |- _ => apply unwrap_ok in H
  | H : Ok _ = Ok _ |- _ => injection H as H
  | H : Err _ = Ok _ |- _ => discriminate H
  | H : Panic = Ok _ |- _ => discriminate H
  | H : (let '(_, _) := ?x in _) = Ok _ |- _ => destruct x as [? ?] eqn:?
  | H : (if ?b then _ else _) = Ok _ |- _ => destruct b eqn:?
  | H : (match ?x with _ => _ end) = Ok _ |- _ => destruct x eqn:?
  end.
Ltac oks := repeat (oks1; simplify_eq/=).

Section Proofs.
Context {RS SP CS ST REQ RESP : Type}.
Variable codec : driver_codec.
Variable rops : raft_ops RS.
Variable sops : snap_ops SP.
Variable cops : comm_ops CS REQ RESP.
Variable app : actor ST.
Notation DR := (rdriver RS SP CS ST REQ RESP).
Notation rr := (rec_raft rops).
Notation rc := (rec_comm cops).
Notation ra := (rec_actor app).
Implicit Types d : DR.

(** What stays the same in the parts of a call after the dispatch. *)
Record same d d' : Prop := Same {
  same_id : d_id d' = d_id d;
  same_phase : d_phase d' = d_phase d;
  same_ephemeral : d_ephemeral d' = d_ephemeral d;
  same_lameduck : d_lameduck d' = d_lameduck d;
  same_instant : d_instant d' = d_instant d;
  same_period : d_tick_period d' = d_tick_period d;
  same_context : context d' = context d;
  same_actor : is_Some (d_actor d') <-> is_Some (d_actor d);
}.
Lemma same_refl d : same d d.
Proof using. by constructor. Qed.
Lemma same_trans d1 d2 d3 : same d1 d2 -> same d2 d3 -> same d1 d3.
Proof using. intros [] []; constructor; try congruence. tauto. Qed.

Record keep d d' : Prop := Keep {
  keep_same : same d d';
  keep_tick : d_tick_instant d' = d_tick_instant d;
  keep_rstate : d_rstate d' = d_rstate d;
  keep_prev : d_prev d' = d_prev d;
  keep_proposals : d_proposals d' = d_proposals d;
}.
Lemma keep_refl d : keep d d.
Proof using. constructor; [apply same_refl|done..]. Qed.
Lemma keep_trans d1 d2 d3 : keep d1 d2 -> keep d2 d3 -> keep d1 d3.
Proof using. intros [] []; constructor; [by eapply same_trans|congruence..]. Qed.

Ltac keep0 := (constructor; [by constructor|done..]).

Notation moves := (rtc (raft_move rops)).
Lemma one_move r r' : raft_move rops r r' -> moves r r'.
Proof using. apply rtc_once. Qed.
Ltac mv := simpl; solve [ apply rtc_refl | eassumption | apply one_move; econstructor; eassumption | apply one_move; constructor ].

Notation amoves := (rtc (app_move app)).
Definition arel (a a' : option (ST * list app_call)) : Prop :=
  match a, a' with
  | Some a, Some a' => amoves a a'
  | None, None => True
  | None, Some a' => called_as_recorded app a'
  | Some _, None => False
  end.
Lemma arel_refl a : arel a a.
Proof using. destruct a; simpl; [apply rtc_refl|done]. Qed.
Lemma arel_trans a b c : arel a b -> arel b c -> arel a c.
Proof using.
  destruct a, b, c; simpl; try done; [by intros; etrans|].
  intros (cx&st&Hi&Hm) H. exists cx, st. split; [done|]. by etrans.
Qed.
Ltac av := simpl; try (match goal with H : d_actor _ = Some _ |- _ => rewrite H end); solve [ apply arel_refl | apply rtc_once; econstructor; eassumption ].

(** What was added to the records and to the pending messages. *)
Record ext d d' (rt : list raft_call) (mt : list (comm_call REQ RESP)) (tr : list app_call)
  (ms : list (host_out REQ RESP)) : Prop := Ext {
  ext_raft : raft_calls d' = raft_calls d ++ rt;
  ext_comm : comm_calls d' = comm_calls d ++ mt;
  ext_app : app_calls d' = app_calls d ++ tr;
  ext_msgs : d_messages d' = d_messages d ++ ms;
  ext_conf : d_conf d' = foldl config_step (d_conf d) rt;
  ext_moves : moves (d_raft d).1 (d_raft d').1;
  ext_amoves : arel (d_actor d) (d_actor d');
}.
Lemma ext_refl d : ext d d [] [] [] [].
Proof using. constructor; rewrite ?app_nil_r; try done. apply arel_refl. Qed.
Lemma ext_trans d1 d2 d3 rt mt tr ms rt' mt' tr' ms' :
  ext d1 d2 rt mt tr ms -> ext d2 d3 rt' mt' tr' ms' ->
  ext d1 d3 (rt ++ rt') (mt ++ mt') (tr ++ tr') (ms ++ ms').
Proof using. intros [] []; constructor; rewrite ?app_assoc, ?foldl_app; try congruence; [by etrans|by eapply arel_trans]. Qed.

Ltac ext0 := constructor; simpl; first [by rewrite ?app_nil_r | mv | av].

(** ** Applying entries *)
Definition conf_only (t : list raft_call) : Prop :=
  Forall (fun c => match c with KApplyChange _ _ => True | _ => False end) t.
Definition outputs (tr : list app_call) : list actor_command := concat (map emitted tr).
Lemma outputs_app t1 t2 : outputs (t1 ++ t2) = outputs t1 ++ outputs t2.
Proof using. unfold outputs. by rewrite map_app, concat_app. Qed.
Lemma conf_only_handed t : conf_only t -> handed t = [].
Proof using. induction 1 as [|[] t Hc _ IH]; try done. Qed.

Lemma apply_entry_ext d e d' : apply_entry codec rr ra d e = Ok d' ->
  keep d d' /\ d_applied d' = re_index e /\
  exists rt tr, ext d d' rt [] tr (map OApp (outputs tr)) /\ conf_only rt /\
    omap from_log tr = option_list (inr <$> event_of_entry codec (d_id d) e) /\
    Forall (fun c => match c with AApply _ _ _ => True | _ => False end) tr.
Proof using.
  unfold apply_entry, event_of_entry. intros H.
  destruct (re_data e) as [|x data] eqn:Edata.
  { injection H as <-. split; [by repeat constructor|]. split_and!; try done. exists [], []. split_and!; [ext0|constructor|done|constructor]. }
  assert (Hev : apply_event_entry codec ra (set_applied d (re_index e)) e = Ok d' ->
     keep d d' /\ d_applied d' = re_index e /\
     exists rt tr, ext d d' rt [] tr (map OApp (outputs tr)) /\ conf_only rt /\
    omap from_log tr = option_list (inr <$>
      match dec_entry codec (re_data e) with
      | Some (Entry (Some i) contents) =>
          Some (EventContext (re_index e) (ei_replica i =? d_id d), ActorEvent (ei_entry i) contents)
      | _ => None end) /\
    Forall (fun c => match c with AApply _ _ _ => True | _ => False end) tr).
  { clear H. intros H. unfold apply_event_entry in H. oks.
    split; [constructor; [|done..]; constructor; [done..|]; simpl; split; intros _; by eexists|].
    split_and!; try done.
    destruct e0 as [eid contents]; simpl in *; subst.
    match goal with Ha : d_actor d = Some ?p, Hb : a_apply app _ ?cx ?ev = Ok (_, ?o) |- _ =>
      destruct p as [st0 tr0]; exists [], [AApply cx ev o]; simpl in *; rename Ha into Hact end.
    split_and!; [|constructor|done|repeat constructor].
    constructor; unfold app_calls, outputs; simpl; rewrite ?app_nil_r, ?Hact; first [done|mv|av]. }
  destruct (re_type e) eqn:Et; rewrite ?Edata in Hev; rewrite <- ?Edata in *; try exact (Hev H).
  clear Hev. unfold apply_change_entry in H. oks.
  split; [by repeat constructor|]. split_and!; try done.
  eexists [_], []. split_and!; [ext0|repeat constructor|done|constructor].
Qed.

Definition apply_only (tr : list app_call) : Prop :=
  Forall (fun c => match c with AApply _ _ _ => True | _ => False end) tr.
Definition last_index (a : N) (es : list rentry) : N := foldl (fun _ e => re_index e) a es.
Lemma apply_entries_ext es : forall d d', apply_entries codec rr ra d es = Ok d' ->
  keep d d' /\ d_applied d' = last_index (d_applied d) es /\
  exists rt tr, ext d d' rt [] tr (map OApp (outputs tr)) /\ conf_only rt /\
    omap from_log tr = map inr (omap (event_of_entry codec (d_id d)) es) /\ apply_only tr.
Proof using.
  induction es as [|e es IH]; intros d d' H; simpl in H.
  { injection H as <-. split; [apply keep_refl|]. split; [done|]. exists [], [].
    split_and!; [apply ext_refl|constructor|done|constructor]. }
  apply bind_ok in H as (d1&H1&H2).
  apply apply_entry_ext in H1 as (K1&A1&rt1&tr1&X1&C1&O1&P1).
  apply IH in H2 as (K2&A2&rt2&tr2&X2&C2&O2&P2).
  split; [by eapply keep_trans|]. split; [by rewrite A2, A1|].
  exists (rt1 ++ rt2), (tr1 ++ tr2). split_and!.
  - rewrite outputs_app, map_app. exact (ext_trans _ _ _ _ _ _ _ _ _ _ _ X1 X2).
  - by apply Forall_app.
  - rewrite omap_app, O1, O2. rewrite (same_id _ _ (keep_same _ _ K1)). simpl.
    by destruct (event_of_entry codec (d_id d) e).
  - by apply Forall_app.
Qed.

Lemma send_ext ms : forall d d', send_raft_messages codec rc d ms = Ok d' ->
  keep d d' /\ d_applied d' = d_applied d /\ d_raft d' = d_raft d /\ d_actor d' = d_actor d /\ d_conf d' = d_conf d /\
  exists mt, ext d d' [] mt [] [] /\
    mt = map (fun m => MOut (system_message codec d m)) (filter (fun m => rm_type m <> MsgSnapshot) ms).
Proof using.
  induction ms as [|m ms IH]; intros d d' H; simpl in H.
  { injection H as <-. split; [apply keep_refl|]. split_and!; [done..|]. exists []. split; [apply ext_refl|done]. }
  rewrite filter_cons.
  destruct (decide (rm_type m = MsgSnapshot)) as [Hm|Hm].
  - rewrite decide_False by tauto. apply IH in H as (K&A&R&P&F&mt&X&Hmt).
    split; [eapply keep_trans; [|exact K]; keep0|]. split_and!; [done..|].
    exists mt. split; [destruct X; constructor; done|done].
  - rewrite decide_True by done. oks.
    apply IH in H as (K&A&R&P&F&mt&X&Hmt).
    split; [eapply keep_trans; [|exact K]; keep0|]. split_and!; [done..|].
    eexists. split; [|simpl; f_equal; done].
    destruct X as [X1 X2 X3 X4]. constructor; try done.
    rewrite X2, Hmt. unfold comm_calls; simpl. by rewrite <- app_assoc.
Qed.

Definition expected (id : N) (o : snapshot + list rentry) : list (bytes + event_context * actor_event) :=
  match o with
  | inl s => [inl (sn_data s)]
  | inr es => map inr (omap (event_of_entry codec id) (merge_sort entry_le es))
  end.
Definition after (a : N) (o : snapshot + list rentry) : N :=
  match o with inl s => sn_index s | inr es => last_index a (merge_sort entry_le es) end.

Lemma apply_committed_ext d es d' : apply_committed codec rr ra d es = Ok d' ->
  keep d d' /\ d_applied d' = after (d_applied d) (inr es) /\
  exists rt tr, ext d d' rt [] tr (map OApp (outputs tr)) /\ conf_only rt /\
    omap from_log tr = expected (d_id d) (inr es) /\ apply_only tr.
Proof using. apply apply_entries_ext. Qed.

Lemma restore_ext d s d' : restore_raft_snapshot rr ra d s = Ok d' ->
  keep d d' /\ d_applied d' = (if sn_index s =? 0 then d_applied d else sn_index s) /\
  exists rt tr, ext d d' rt [] tr [] /\ Forall (fun c => match c with KInstall _ => True | _ => False end) rt /\
    omap from_log tr = (if sn_index s =? 0 then [] else [inl (sn_data s)]) /\
    Forall (fun c => match c with ALoad _ => True | _ => False end) tr.
Proof using.
  unfold restore_raft_snapshot. destruct (sn_index s =? 0).
  { intros [= <-]. split; [apply keep_refl|]. split; [done|]. exists [], [].
    split_and!; [apply ext_refl|constructor|done|constructor]. }
  intros H. oks. split.
  { constructor; [|done..]. constructor; [done..|]. simpl. split; intros _; by eexists. }
  split; [done|]. exists [KInstall s], [ALoad (sn_data s)]. split_and!; [|repeat constructor|done|repeat constructor].
  match goal with Ha : d_actor d = Some ?p |- _ => destruct p as [st0 tr0]; rename Ha into Hact end.
  constructor; unfold app_calls; simpl; rewrite ?app_nil_r, ?Hact; first [done|mv|av].
Qed.

(** ** Advancing consensus *)
Definition advance_call (c : raft_call) : Prop :=
  match c with
  | KReady _ | KLight _ _ | KApplied | KHard _ | KAppend _ | KInstall _ | KApplyChange _ _ => True
  | _ => False
  end.
Definition due d : bool := negb (d_lameduck d) && (d_tick_period d <=? d_instant d - d_tick_instant d).
Lemma handed_app t1 t2 : handed (t1 ++ t2) = handed t1 ++ handed t2.
Proof using. unfold handed. by rewrite map_app, concat_app. Qed.
Lemma conf_only_advance t : conf_only t -> Forall advance_call t.
Proof using. intros H. eapply Forall_impl; [exact H|]. by intros []. Qed.
Definition log_only (tr : list app_call) : Prop :=
  Forall (fun c => match c with AApply _ _ _ | ALoad _ => True | _ => False end) tr.

Lemma advance_ext d d' : advance_raft codec rr rc ra d = Ok d' ->
  same d d' /\ d_rstate d' = d_rstate d /\ d_prev d' = d_prev d /\ d_proposals d' = d_proposals d /\
  d_tick_instant d' = (if due d then d_instant d else d_tick_instant d) /\
  exists body mt tr, ext d d' ((if due d then [KTick] else []) ++ body) mt tr (map OApp (outputs tr)) /\
    Forall advance_call body /\ log_only tr /\
    omap from_log tr = concat (map (expected (d_id d)) (handed body)) /\
    d_applied d' = foldl after (d_applied d) (handed body) /\
    Forall (fun c => match c with MOut m => pm_kind (om_msg m) = KSystem | _ => False end) mt.
Proof using.
  unfold advance_raft. intros H.
  set (d1 := if negb (d_lameduck d) then trigger_raft_tick rr d else d) in *.
  assert (H1 : same d d1 /\ d_rstate d1 = d_rstate d /\ d_prev d1 = d_prev d /\ d_proposals d1 = d_proposals d /\
    d_applied d1 = d_applied d /\
    d_tick_instant d1 = (if due d then d_instant d else d_tick_instant d) /\
    ext d d1 (if due d then [KTick] else []) [] [] []).
  { unfold d1, due, trigger_raft_tick. destruct (d_lameduck d) eqn:El; simpl.
    { split; [by constructor|]. split_and!; try done. apply ext_refl. }
    destruct (d_tick_period d <=? _); simpl; (split; [by constructor|]; split_and!; try done); ext0. }
  clearbody d1. destruct H1 as (S1&R1&V1&P1&A1&T1&X1).
  destruct (ra_has_ready rr (d_raft d1)); simpl in H.
  2:{ injection H as <-. split_and!; try done. exists [], [], [].
      split_and!; [by rewrite app_nil_r|apply Forall_nil; done|apply Forall_nil; done|done|done|by apply Forall_nil]. }
  destruct (ra_get_ready rops (d_raft d1).1) as [r rd] eqn:Er. simpl in H. cbn zeta in H.
  apply bind_ok in H as (d2&H2&H).
  apply send_ext in H2 as (K2&A2&R2&C2&_&mt2&X2&M2).
  set (d3 := match rd_hard rd with Some h => set_raft d2 (ra_set_hard rops (d_raft d2).1 h, (d_raft d2).2 ++ [KHard h]) | None => d2 end) in *.
  assert (H3 : keep d2 d3 /\ d_applied d3 = d_applied d2 /\ exists rt, ext d2 d3 rt [] [] [] /\
    Forall advance_call rt /\ handed rt = []).
  { unfold d3. destruct (rd_hard rd) as [h|].
    - split; [keep0|]. split; [done|]. exists [KHard h]. split_and!; [ext0|repeat constructor|done].
    - split; [apply keep_refl|]. split; [done|]. exists []. split_and!; [apply ext_refl|constructor|done]. }
  clearbody d3. destruct H3 as (K3&A3&rt3&X3&F3&D3).
  apply bind_ok in H as (d4&H4&H). apply restore_ext in H4 as (K4&A4&rt4&tr4&X4&F4&O4&L4).
  apply bind_ok in H as (d5&H5&H). apply apply_committed_ext in H5 as (K5&A5&rt5&tr5&X5&F5&O5&L5).
  apply bind_ok in H as (d6&H6&H). apply send_ext in H6 as (K6&A6&R6&C6&_&mt6&X6&M6).
  apply bind_ok in H as (d7&H7&H).
  assert (H7' : keep d6 d7 /\ d_applied d7 = d_applied d6 /\ exists rt, ext d6 d7 rt [] [] [] /\
    Forall advance_call rt /\ handed rt = []).
  { destruct (rd_entries rd) as [|e es].
    - injection H7 as <-. split; [apply keep_refl|]. split; [done|]. exists []. split_and!; [apply ext_refl|constructor|done].
    - clear H. oks. split; [keep0|]. split; [done|]. exists [KAppend (e :: es)].
      split_and!; [ext0|repeat constructor|done]. }
  clear H7. destruct H7' as (K7&A7&rt7&X7&F7&D7).
  destruct (ra_advance rops (d_raft d7).1 (rd_number rd)) as [r' lr] eqn:Er'. simpl in H. cbn zeta in H.
  apply bind_ok in H as (d8&H8&H). apply send_ext in H8 as (K8&A8&R8&C8&_&mt8&X8&M8).
  apply bind_ok in H as (d9&H9&H). apply apply_committed_ext in H9 as (K9&A9&rt9&tr9&X9&F9&O9&L9).
  injection H as <-.
  set (b := [KReady rd] ++ rt3 ++ rt4 ++ rt5 ++ rt7 ++ [KLight (rd_number rd) lr] ++ rt9 ++ [KApplied]).
  assert (Hh4 : handed rt4 = []).
  { clear -F4. induction F4 as [|[] ? ? ? IH]; done. }
  assert (Hh5 := conf_only_handed _ F5). assert (Hh9 := conf_only_handed _ F9).
  assert (Hb : handed b = (if sn_index (rd_snapshot rd) =? 0 then [] else [inl (rd_snapshot rd)]) ++
    [inr (rd_committed rd); inr (lr_committed lr)]).
  { unfold b. rewrite !handed_app, D3, Hh4, Hh5, D7, Hh9. 
    unfold handed. simpl. by destruct (sn_index (rd_snapshot rd) =? 0). }
  assert (S9 : same d d9).
  { eapply same_trans; [exact S1|].
    eapply same_trans; [|exact (keep_same _ _ K9)]. eapply same_trans; [|exact (keep_same _ _ K8)].
    eapply same_trans; [|eapply (same_trans _ d7); [exact (keep_same _ _ K7)|by constructor]].
    eapply same_trans; [|exact (keep_same _ _ K6)].
    eapply same_trans; [|exact (keep_same _ _ K5)]. eapply same_trans; [|exact (keep_same _ _ K4)].
    eapply same_trans; [|exact (keep_same _ _ K3)]. eapply same_trans; [|exact (keep_same _ _ K2)].
    by constructor. }
  assert (Hid4 : d_id d4 = d_id d).
  { rewrite (same_id _ _ (keep_same _ _ K4)), (same_id _ _ (keep_same _ _ K3)), (same_id _ _ (keep_same _ _ K2)). simpl.
    apply (same_id _ _ S1). }
  assert (Hid8 : d_id d8 = d_id d).
  { rewrite <- (same_id _ _ S9). symmetry. apply (same_id _ _ (keep_same _ _ K9)). }
  split; [destruct S9; by constructor|].
  assert (E : forall {X} (f : DR -> X), (forall x y, keep x y -> f y = f x) -> (forall x r, f (set_raft x r) = f x) ->
    f (set_raft d9 (ra_advance_apply rr (d_raft d9))) = f d1).
  { intros X f Hk Hs. rewrite Hs, (Hk _ _ K9), (Hk _ _ K8), Hs, (Hk _ _ K7), (Hk _ _ K6), (Hk _ _ K5), (Hk _ _ K4),
      (Hk _ _ K3), (Hk _ _ K2). apply Hs. }
  split_and!.
  - etransitivity; [apply (E _ d_rstate); [by intros x y []|done]|done].
  - etransitivity; [apply (E _ d_prev); [by intros x y []|done]|done].
  - etransitivity; [apply (E _ d_proposals); [by intros x y []|done]|done].
  - etransitivity; [apply (E _ d_tick_instant); [by intros x y []|done]|done].
  - exists b, (mt2 ++ mt6 ++ mt8), (tr4 ++ tr5 ++ tr9). split_and!.
    + assert (Xr : ext d1 (set_raft d1 (r, (d_raft d1).2 ++ [KReady rd])) [KReady rd] [] [] []) by ext0.
      assert (Xl : ext d7 (set_raft d7 (r', (d_raft d7).2 ++ [KLight (rd_number rd) lr])) [KLight (rd_number rd) lr] [] [] []) by ext0.
      assert (Xa : ext d9 (set_raft d9 (ra_advance_apply rr (d_raft d9))) [KApplied] [] [] []) by ext0.
      pose proof (ext_trans _ _ _ _ _ _ _ _ _ _ _ X1 (ext_trans _ _ _ _ _ _ _ _ _ _ _ Xr
       (ext_trans _ _ _ _ _ _ _ _ _ _ _ X2 (ext_trans _ _ _ _ _ _ _ _ _ _ _ X3
       (ext_trans _ _ _ _ _ _ _ _ _ _ _ X4 (ext_trans _ _ _ _ _ _ _ _ _ _ _ X5
       (ext_trans _ _ _ _ _ _ _ _ _ _ _ X6 (ext_trans _ _ _ _ _ _ _ _ _ _ _ X7
       (ext_trans _ _ _ _ _ _ _ _ _ _ _ Xl (ext_trans _ _ _ _ _ _ _ _ _ _ _ X8
       (ext_trans _ _ _ _ _ _ _ _ _ _ _ X9 Xa))))))))))) as X.
      assert (Ho4 : outputs tr4 = []).
      { clear -L4. induction L4 as [|[] ? ? ? IH]; done. }
      rewrite !outputs_app, Ho4. unfold b. rewrite !app_nil_l, !app_nil_r, ?map_app in X. rewrite !app_nil_l, map_app.
      exact X.
    + unfold b. rewrite !Forall_app. split_and!; [repeat constructor|done| | |done|repeat constructor| |repeat constructor].
      * eapply Forall_impl; [exact F4|]. by intros [].
      * by apply conf_only_advance.
      * by apply conf_only_advance.
    + unfold log_only. rewrite !Forall_app. split_and!; (eapply Forall_impl; [eassumption|]); by intros [].
    + rewrite !omap_app, O4, O5, O9, Hb, Hid4, Hid8. rewrite map_app, concat_app. simpl.
      rewrite app_nil_r. f_equal. by destruct (sn_index (rd_snapshot rd) =? 0).
    + simpl. rewrite A9, A8. simpl. rewrite A7, A6, A5, A4, A3, A2. simpl. rewrite A1, Hb, foldl_app. simpl.
      by destruct (sn_index (rd_snapshot rd) =? 0).
    + subst mt2 mt6 mt8. rewrite !Forall_app, !Forall_map. split_and!; apply Forall_true; done.
Qed.

(** ** The steps around it *)
Lemma maybe_create_ext d d' : maybe_create_snapshot rr ra d = Ok d' ->
  keep d d' /\ d_applied d' = d_applied d /\ d_actor d' = d_actor d /\ d_conf d' = d_conf d /\
  exists rt, ext d d' rt [] [] [] /\
    (rt = [] \/ exists st data, d_actor d = Some st /\ a_save app st.1 = Ok data /\ rt = [KSave (d_applied d) (d_conf d) data]).
Proof using.
  unfold maybe_create_snapshot. destruct (negb _) eqn:E.
  { intros [= <-]. split; [apply keep_refl|]. split_and!; try done. exists []. split; [apply ext_refl|by left]. }
  intros H. oks. split; [keep0|]. split_and!; try done.
  eexists [_]. split; [ext0|]. right. eauto.
Qed.

Definition is_report (c : raft_call) : Prop := match c with KReport _ _ => True | _ => False end.
Definition no_config (c : raft_call) : Prop := forall conf, config_step conf c = conf.
Lemma config_neutral t conf : Forall no_config t -> foldl config_step conf t = conf.
Proof using. intros F. revert conf. induction F as [|c t Hc _ IH]; intros conf; simpl; [done|]. by rewrite Hc. Qed.
Lemma reports_config t conf : Forall is_report t -> foldl config_step conf t = conf.
Proof using. intros F. apply config_neutral. eapply Forall_impl; [exact F|]. by intros []. Qed.
Lemma report_all_calls l : forall r, (report_all rr r l).2 = r.2 ++ map (fun x => KReport x.1 x.2) l.
Proof using.
  unfold report_all. induction l as [|[i st] l IH]; intros r; simpl; [by rewrite app_nil_r|].
  rewrite IH. simpl. by rewrite <- app_assoc.
Qed.
Lemma report_all_moves l : forall r, moves r.1 (report_all rr r l).1.
Proof using.
  unfold report_all. induction l as [|[i st] l IH]; intros r; simpl; [apply rtc_refl|].
  eapply rtc_l; [|apply IH]. simpl. constructor.
Qed.
Lemma report_all_app r l l' : report_all rr r (l ++ l') = report_all rr (report_all rr r l) l'.
Proof using. unfold report_all. by rewrite foldl_app. Qed.

Lemma stash_leader_ext d d' : stash_leader_state rr sops rc d = Ok d' ->
  same d d' /\ d_tick_instant d' = d_tick_instant d /\ d_proposals d' = d_proposals d /\
  d_applied d' = d_applied d /\ d_actor d' = d_actor d /\ d_conf d' = d_conf d /\
  d_rstate d' = get_raft_state rr d /\ (exists l, d_raft d' = report_all rr (d_raft d) l) /\
  exists rt mt ms, ext d d' rt mt [] ms /\ Forall is_report rt /\
    if decide (d_prev d = get_raft_state rr d) then rt = [] /\ mt = [] /\ ms = []
    else mt = [MCluster (cs_voters (d_conf d))] /\
      let s := get_raft_state rr d in ms = [OCluster (rf_leader s) (rf_term s) (rf_config s) (rf_pending s)].
Proof using.
  unfold stash_leader_state. intros H. simpl in H.
  destruct (decide (d_prev d = get_raft_state rr d)) as [Hd|Hd].
  { injection H as <-. split; [by constructor|]. split_and!; try done; [by exists []|]. exists [], [], [].
    split_and!; [ext0|constructor|done..]. }
  apply bind_ok in H as (d1&H1&H). unfold update_snapshot_cluster in H1. simpl in H1.
  assert (Hx : exists rt, Forall is_report rt /\ exists r s, r.2 = (d_raft d).2 ++ rt /\ (exists l, r = report_all rr (d_raft d) l) /\
     d1 = set_raft (set_snap (set_prev (set_rstate d (get_raft_state rr d)) (get_raft_state rr d)) s) r).
  { destruct (decide (d_phase d = Started)).
    - oks. eexists. split; [|do 2 eexists; split; [apply report_all_calls|split; [by eexists|done]]].
      rewrite Forall_map. apply Forall_true. done.
    - injection H1 as <-. exists []. split; [constructor|]. exists (d_raft d), (d_snap d). rewrite app_nil_r. split; [done|].
      split; [by exists []|by destruct d]. }
  destruct Hx as (rt&F&r&sn&Hr&[l Hl]&->). injection H as <-. simpl.
  split; [by constructor|]. split_and!; try done; [by exists l|].
  exists rt, [MCluster (cs_voters (d_conf d))], [OCluster (rf_leader (get_raft_state rr d)) (rf_term (get_raft_state rr d))
     (rf_config (get_raft_state rr d)) (rf_pending (get_raft_state rr d))].
  split_and!; try done. constructor; unfold raft_calls, comm_calls, app_calls; simpl; rewrite ?app_nil_r, ?reports_config; try done.
  { subst r. apply report_all_moves. } apply arel_refl.
Qed.

Lemma progress_ext d d' : process_snapshot_progress rr sops d = Ok d' ->
  keep d d' /\ d_applied d' = d_applied d /\ d_actor d' = d_actor d /\ d_conf d' = d_conf d /\
  d_stashed d' = d_stashed d /\ (d_phase d <> Started -> d' = d) /\
  exists rt, ext d d' rt [] [] [] /\
    Forall (fun c => match c with KReport _ _ => True | KStep m => rm_type m = MsgSnapshot | _ => False end) rt /\
    (d_phase d <> Started -> rt = []).
Proof using.
  unfold process_snapshot_progress. intros H.
  assert (Hn : forall s r rt, r.2 = (d_raft d).2 ++ rt -> moves (d_raft d).1 r.1 ->
    Forall (fun c => match c with KReport _ _ => True | KStep m => rm_type m = MsgSnapshot | _ => False end) rt ->
    (d_phase d <> Started -> rt = []) ->
    (d_phase d <> Started -> d' = d) ->
    d' = set_raft (set_snap d s) r -> 
    keep d d' /\ d_applied d' = d_applied d /\ d_actor d' = d_actor d /\ d_conf d' = d_conf d /\
    d_stashed d' = d_stashed d /\ (d_phase d <> Started -> d' = d) /\
    exists rt, ext d d' rt [] [] [] /\
    Forall (fun c => match c with KReport _ _ => True | KStep m => rm_type m = MsgSnapshot | _ => False end) rt /\
    (d_phase d <> Started -> rt = [])).
  { intros s r rt Hr Hmv F HP HP' ->. split; [keep0|]. split_and!; try done. exists rt. split; [|done].
    constructor; unfold raft_calls, comm_calls, app_calls; simpl; rewrite ?app_nil_r; try done; try apply arel_refl.
    rewrite config_neutral; [done|]. eapply Forall_impl; [exact F|]. by intros []. }
  destruct (decide (d_phase d = Started)) as [HS|HS].
  2:{ injection H as <-. apply (Hn (d_snap d) (d_raft d) []); [by rewrite app_nil_r|mv|constructor|done|done|by destruct d]. }
  assert (H0 : forall s, d' = set_snap d s -> exists s r, d' = set_raft (set_snap d s) r /\ moves (d_raft d).1 r.1 /\ r.2 = (d_raft d).2 ++ []).
  { intros s ->. exists s, (d_raft d). split; [by destruct d|split; [mv|by rewrite app_nil_r]]. }
  assert (Hc : exists s r, (d' = set_raft (set_snap d s) r) /\ moves (d_raft d).1 r.1 /\
    (r.2 = (d_raft d).2 ++ [] \/ (exists i st, r.2 = (d_raft d).2 ++ [KReport i st]) \/
     exists m, rm_type m = MsgSnapshot /\ r.2 = (d_raft d).2 ++ [KStep m])).
  { apply bind_ok in H as (role&_&H). destruct role.
    - apply bind_ok in H as ([s r]&_&H). destruct r as [[i st]|].
      + injection H as <-. eexists s, _. split; [done|]. split; [mv|]. right. left. exists i, st. done.
      + injection H as <-. destruct (H0 s eq_refl) as (?&?&?&?&?). eauto 6.
    - apply bind_ok in H as ([s r]&_&H). destruct r as [[[i sn]|]|].
      + injection H as <-. eexists s, _. split; [done|].
        destruct (ra_step rops (d_raft d).1 (snapshot_message i (d_id d) sn)) as [r' b] eqn:E0. simpl.
        split; [mv|]. right. right.
        exists (snapshot_message i (d_id d) sn). split; [done|]. done.
      + injection H as <-. destruct (H0 s eq_refl) as (?&?&?&?&?). eauto 6.
      + injection H as <-. destruct (H0 s eq_refl) as (?&?&?&?&?). eauto 6. }
  destruct Hc as (s&r&He&Hmv&[Hr|[(i&st&Hr)|(m&Hm&Hr)]]); eapply Hn; try exact Hr; try exact He; try done; by repeat constructor.
Qed.

Lemma send_all_calls ms : forall c c', send_all rc c ms = Ok c' ->
  c'.2 = c.2 ++ map (fun m => MOut (OutMsg m false)) ms.
Proof using.
  induction ms as [|m ms IH]; intros c c' H; simpl in H; [injection H as <-; by rewrite app_nil_r|].
  oks. apply IH in H. rewrite H. simpl. by rewrite <- app_assoc.
Qed.
Lemma sending_ext d d' : process_snapshot_sending rr sops rc d = Ok d' ->
  keep d d' /\ d_applied d' = d_applied d /\ d_actor d' = d_actor d /\ d_conf d' = d_conf d /\ d_stashed d' = [] /\
  (exists l, d_raft d' = report_all rr (d_raft d) l) /\
  exists rt mt, ext d d' rt mt [] [] /\ Forall is_report rt /\
    (d_stashed d = [] -> rt = [] /\ d_raft d' = d_raft d) /\
    Forall (fun c => match c with MOut _ => True | _ => False end) mt.
Proof using.
  unfold process_snapshot_sending. intros H. oks.
  - split; [keep0|]. split_and!; try done; [by exists []|].
    match goal with Hs : send_all _ _ ?ms = Ok _ |- _ => apply send_all_calls in Hs; rename Hs into Hc; exists [], (map (fun m => MOut (OutMsg m false)) ms) end.
    split_and!; [|constructor|done|].
    + constructor; unfold raft_calls, comm_calls, app_calls; simpl; rewrite ?app_nil_r; try done; first [exact Hc|apply arel_refl].
    + rewrite Forall_map. by apply Forall_true.
  - assert (Hl : foldl (fun r m => ra_report rr r (rm_to m) Failure) (d_raft d) (d_stashed d) =
      report_all rr (d_raft d) (map (fun m => (rm_to m, Failure)) (d_stashed d))).
    { generalize (d_raft d). unfold report_all. induction (d_stashed d) as [|m ms IH]; intros r; simpl; [done|]. apply IH. }
    simpl in Hl. rewrite Hl. split; [keep0|]. split_and!; try done; [by eexists|].
    exists (map (fun m => KReport (rm_to m) Failure) (d_stashed d)), [].
    split_and!; [|rewrite Forall_map; by apply Forall_true|by intros ->|constructor].
    constructor; unfold raft_calls, comm_calls, app_calls; simpl; rewrite ?app_nil_r; try done; try apply arel_refl.
    + rewrite report_all_calls. by rewrite map_map.
    + rewrite reports_config; [done|]; rewrite Forall_map; by apply Forall_true.
    + apply report_all_moves.
Qed.

Lemma propose_all_ext ps : forall d d', propose_all rr d ps = Ok d' ->
  keep d d' /\ d_applied d' = d_applied d /\ d_actor d' = d_actor d /\ d_conf d' = d_conf d /\
  d_stashed d' = d_stashed d /\ ext d d' (map KPropose ps) [] [] [].
Proof using.
  induction ps as [|p ps IH]; intros d d' H; simpl in H.
  { injection H as <-. split; [apply keep_refl|]. split_and!; try done. apply ext_refl. }
  unfold make_raft_proposal in H. oks. apply IH in H as (K&A&C&F&S&X).
  split; [eapply keep_trans; [|exact K]; keep0|]. split_and!; try done.
  eapply (ext_trans _ _ _ [KPropose p] [] [] [] _ [] [] [] _ X).
  Unshelve. ext0.
Qed.

(** ** A command *)
Notation produced := (event_proposal codec).
Lemma run_app_ext d m d' : run_app codec rc ra d m = Ok d' ->
  same d d' /\ d_tick_instant d' = d_tick_instant d /\ d_rstate d' = d_rstate d /\ d_prev d' = d_prev d /\
  d_raft d' = d_raft d /\ d_stashed d' = d_stashed d /\ d_applied d' = d_applied d /\ d_snap d' = d_snap d /\
  exists mt tr ps, ext d d' [] mt tr (map OApp (outputs tr)) /\ d_proposals d' = d_proposals d ++ ps /\
    if decide (d_phase d = Started) then
      mt = [MTick] /\ d_actor d <> None /\ exists out, 
      if d_ephemeral d then
        ps = [] /\
        match co_event out with
        | None => tr = [ACommand (context d) m out]
        | Some ev => exists o, tr = [ACommand (context d) m out; AApply (EventContext 0 true) ev o]
        end
      else tr = [ACommand (context d) m out] /\ ps = omap (produced (d_id d)) tr
    else tr = [] /\ mt = [] /\ ps = [].
Proof using.
  unfold run_app, process_app, check_phase. intros H.
  destruct (decide (d_phase d = Started)) as [Hs|Hs].
  2:{ injection H as <-. split; [by constructor|]. split_and!; try done. exists [], [], [].
      split; [apply ext_refl|]. by rewrite app_nil_r. }
  apply bind_ok in H as (d1&H&He). injection He as <-. simpl in H.
  apply bind_ok in H as ([st tr0]&Ha&H). apply unwrap_ok in Ha.
  apply bind_ok in H as ([s1 out]&Hc&H). apply or_fail_ok in Hc. simpl in Hc.
  apply bind_ok in Hc as ([s2 o2]&Hc&He). injection He as <- <-.
  destruct (co_event o2) as [ev|] eqn:Eo.
  2:{ injection H as <-. split; [constructor; simpl; try done; rewrite Ha; split; intros _; by eexists|].
      split_and!; try done. exists [MTick], [ACommand (context d) m o2], [].
      split; [constructor; unfold app_calls, outputs; simpl; rewrite ?app_nil_r, ?Ha; first [done|mv|av]|].
      split; [simpl; by rewrite app_nil_r|]. split; [done|]. split; [by rewrite Ha|]. exists o2. rewrite Eo.
      destruct (d_ephemeral d); [done|]. simpl. by rewrite Eo. }
  simpl in H. destruct (d_ephemeral d) eqn:Ee.
  - apply bind_ok in H as ([s3 o3]&Hc'&H). apply or_fail_ok in Hc'.
    apply bind_ok in Hc' as ([s4 o4]&Hc'&He). injection He as <- <-. injection H as <-.
    split; [constructor; simpl; try done; rewrite Ha; split; intros _; by eexists|].
    split_and!; try done. exists [MTick], [ACommand (context d) m o2; AApply (EventContext 0 true) ev o4], [].
    split; [constructor; [..|simpl; rewrite Ha; eapply rtc_l; [eapply move_command; exact Hc|]; apply rtc_once; eapply move_event; exact Hc']; unfold app_calls, outputs; simpl; rewrite ?app_nil_r, ?Ha, ?map_app, <- ?app_assoc; first [done|mv|av]|].
    split; [simpl; by rewrite app_nil_r|]. split; [done|]. split; [by rewrite Ha|]. exists o2. rewrite Eo. eauto.
  - injection H as <-.
    split; [constructor; simpl; try done; rewrite Ha; split; intros _; by eexists|].
    split_and!; try done. exists [MTick], [ACommand (context d) m o2], (omap (produced (d_id d)) [ACommand (context d) m o2]).
    split; [constructor; unfold app_calls, outputs; simpl; rewrite ?app_nil_r, ?Ha; first [done|mv|av]|].
    simpl. rewrite Eo. simpl. split; [done|]. split; [done|]. split; [by rewrite Ha|]. exists o2. done.
Qed.

(** ** Replication *)
Definition is_cluster (m : host_out REQ RESP) : Prop := match m with OCluster _ _ _ _ => True | _ => False end.
Definition state_msg (s : raft_st) : host_out REQ RESP :=
  OCluster (rf_leader s) (rf_term s) (rf_config s) (rf_pending s).
Definition progress_call (c : raft_call) : Prop :=
  match c with KReport _ _ => True | KStep m => rm_type m = MsgSnapshot | _ => False end.
Definition save_call (c : raft_call) : Prop := match c with KReport _ _ | KSave _ _ _ => True | _ => False end.
Lemma no_cluster (mt : list (comm_call REQ RESP)) : Forall (fun c => match c with MCluster _ => False | _ => True end) mt -> omap cluster_call mt = [].
Proof using. induction 1 as [|[] mt Hx _ IH]; done. Qed.
Lemma run_replication_ext d d' : run_replication codec rr sops rc ra d = Ok d' -> d_ephemeral d = false ->
  d_stashed d = [] ->
  same d d' /\ d_proposals d' = [] /\ d_stashed d' = [] /\
  exists rt1 tk body rt3 mt tr ms,
    ext d d' (map KPropose (d_proposals d) ++ rt1 ++ tk ++ body ++ rt3) mt tr (map OApp (outputs tr) ++ ms) /\
    Forall progress_call rt1 /\ (d_phase d <> Started -> rt1 = []) /\
    (tk = [] /\ d_tick_instant d' = d_tick_instant d \/
     tk = [KTick] /\ due d = true /\ d_tick_instant d' = d_instant d) /\
    Forall advance_call body /\ Forall save_call rt3 /\ log_only tr /\
    (forall i cf data, KSave i cf data ∈ rt3 -> i = d_applied d' /\ cf = d_conf d' /\
      exists st, d_actor d' = Some st /\ a_save app st.1 = Ok data) /\
    omap from_log tr = concat (map (expected (d_id d)) (handed body)) /\
    d_applied d' = foldl after (d_applied d) (handed body) /\
    omap cluster_call mt = map (fun _ => cs_voters (d_conf d')) ms /\
    exists r, moves (d_raft d).1 r.1 /\
      (d_proposals d = [] -> d_phase d <> Started -> r.1 = (d_raft d).1) /\
      (if ra_initialized rr r then
         tk = (if due d then [KTick] else []) /\
         exists ds : DR, d_id ds = d_id d /\ d_conf ds = d_conf d' /\
         (exists l, d_raft d' = report_all rr (d_raft ds) l) /\ d_rstate d' = get_raft_state rr ds /\
         (ms = if decide (d_prev d = get_raft_state rr ds) then [] else [state_msg (get_raft_state rr ds)])
       else d_rstate d' = d_rstate d /\ ms = [] /\ tr = [] /\ tk = [] /\ body = [] /\ rt3 = [] /\ d_raft d' = r).
Proof using.
  unfold run_replication, process_proposals. intros H He Hst. rewrite He in H.
  apply bind_ok in H as (d1&H1&H). apply bind_ok in H as (d2&H2&H). apply bind_ok in H as (d5&H3&H).
  pose proof H1 as H1'. apply propose_all_ext in H1' as (K1&A1&C1&F1&S1&X1). simpl in A1, C1, F1, S1.
  assert (K1' : same d d1 /\ d_tick_instant d1 = d_tick_instant d /\ d_rstate d1 = d_rstate d /\ d_prev d1 = d_prev d /\
    d_proposals d1 = []).
  { destruct K1 as [Ks ? ? ? ?]; simpl in *. split_and!; try done. destruct Ks; by constructor. }
  assert (X1' : ext d d1 (map KPropose (d_proposals d)) [] [] []) by (destruct X1; by constructor).
  clear K1 X1. destruct K1' as (Ss1&T1&R1&V1&P1).
  apply progress_ext in H2 as (K2&A2&C2&F2&Z2&E2&rt1&X2&G2&N2).
  apply sending_ext in H as (K6&A6&C6&F6&Z6&[l6 L6]&rt6&mt6&X6&G6&N6&M6).
  assert (Hdue : due d2 = due d).
  { unfold due. rewrite (keep_tick _ _ K2), T1, (same_lameduck _ _ (keep_same _ _ K2)), (same_lameduck _ _ Ss1),
     (same_period _ _ (keep_same _ _ K2)), (same_period _ _ Ss1), (same_instant _ _ (keep_same _ _ K2)), (same_instant _ _ Ss1). done. }
  assert (Ss2 : same d d2) by (eapply same_trans; [exact Ss1|exact (keep_same _ _ K2)]).
  assert (Hr2 : d_proposals d = [] -> d_phase d <> Started -> (d_raft d2).1 = (d_raft d).1).
  { intros Hp Hph. rewrite E2 by by rewrite (same_phase _ _ Ss1). rewrite Hp in H1. simpl in H1. by injection H1 as <-. }
  pose proof (ext_trans _ _ _ _ _ _ _ _ _ _ _ X1' X2) as X02.
  assert (Hmv2 : moves (d_raft d).1 (d_raft d2).1) by exact (ext_moves _ _ _ _ _ _ X02).
  unfold process_state_machine in H3.
  destruct (ra_initialized rr (d_raft d2)) eqn:Ei.
  - apply bind_ok in H3 as (d3&H3&H4). apply bind_ok in H4 as (d4&H4&H5).
    apply advance_ext in H3 as (S3&R3&V3&P3&T3&body&mt3&tr3&X3&G3&L3&O3&A3&M3).
    apply maybe_create_ext in H4 as (K4&A4&C4&F4&rt4&X4&G4).
    apply stash_leader_ext in H5 as (S5&T5&P5&A5&C5&F5&R5&[l5 L5]&rt5&mt5&ms5&X5&G5&D5).
    assert (Sall : same d d').
    { eapply same_trans; [exact Ss2|]. eapply same_trans; [exact S3|]. eapply same_trans; [exact (keep_same _ _ K4)|].
      eapply same_trans; [exact S5|exact (keep_same _ _ K6)]. }
    assert (Hid4 : d_id d4 = d_id d).
    { rewrite (same_id _ _ (keep_same _ _ K4)), (same_id _ _ S3). apply (same_id _ _ Ss2). }
    split; [done|]. split; [by rewrite (keep_proposals _ _ K6), P5, (keep_proposals _ _ K4), P3, (keep_proposals _ _ K2)|].
    split; [done|].
    exists rt1, (if due d then [KTick] else []), body, (rt4 ++ rt5 ++ rt6), (mt3 ++ mt5 ++ mt6), tr3, ms5.
    rewrite Hdue in X3, T3.
    pose proof (ext_trans _ _ _ _ _ _ _ _ _ _ _ X02 (ext_trans _ _ _ _ _ _ _ _ _ _ _ X3
      (ext_trans _ _ _ _ _ _ _ _ _ _ _ X4 (ext_trans _ _ _ _ _ _ _ _ _ _ _ X5 X6)))) as X.
    rewrite ?app_nil_r, ?app_nil_l, <- ?app_assoc in X.
    split; [exact X|]. split; [exact G2|]. split.
    { intros Hp. apply N2. by rewrite (same_phase _ _ Ss1). }
    split.
    { rewrite (keep_tick _ _ K6), T5, (keep_tick _ _ K4), T3, (keep_tick _ _ K2), T1.
      destruct (due d); [right|left]; [|done]. split_and!; try done. by rewrite (same_instant _ _ Ss2). }
    split; [exact G3|]. split.
    { rewrite !Forall_app. split_and!.
      - destruct G4 as [->|(?&?&_&_&->)]; repeat constructor.
      - eapply Forall_impl; [exact G5|]. by intros [].
      - eapply Forall_impl; [exact G6|]. by intros []. }
    split; [exact L3|]. split.
    { intros i cf data. rewrite !elem_of_app. intros [Hin|[Hin|Hin]].
      - destruct G4 as [->|(st&dt&Hstx&Hsv&->)]; [by apply elem_of_nil in Hin|]. apply elem_of_list_singleton in Hin.
        injection Hin as -> -> ->. rewrite A6, A5, A4, F6, F5, F4, C6, C5, C4. eauto.
      - rewrite Forall_forall in G5. by specialize (G5 _ Hin).
      - rewrite Forall_forall in G6. by specialize (G6 _ Hin). }
    split; [by rewrite O3, (same_id _ _ Ss2)|].
    split; [by rewrite A6, A5, A4, A3, A2, A1|].
    split.
    { rewrite !omap_app, (no_cluster mt3), (no_cluster mt6), app_nil_r; [|eapply forall_to; [exact M6|]; by intros []|eapply forall_to; [exact M3|]; by intros []].
      rewrite F6, F5. destruct (decide _); [destruct D5 as (_&->&->); done|]. by destruct D5 as (->&->). }
    exists (d_raft d2). split; [done|]. split; [done|]. rewrite Ei. split; [done|].
    exists d4. split; [done|]. split; [by rewrite F6, F5|].
    split; [exists (l5 ++ l6); by rewrite report_all_app, <- L5|].
    split; [by rewrite (keep_rstate _ _ K6), R5|].
    rewrite (keep_prev _ _ K4), V3, (keep_prev _ _ K2), V1 in D5.
    destruct (decide _); [by destruct D5 as (_&_&->)|]. by destruct D5 as (_&->).
  - injection H3 as <-.
    assert (Hz : d_stashed d2 = []).
    { by rewrite Z2, S1. }
    destruct (N6 Hz) as [-> Hz6].
    split; [by eapply same_trans; [|exact (keep_same _ _ K6)]|].
    split; [by rewrite (keep_proposals _ _ K6), (keep_proposals _ _ K2)|]. split; [done|].
    exists rt1, [], [], [], mt6, [], [].
    pose proof (ext_trans _ _ _ _ _ _ _ _ _ _ _ X02 X6) as X. rewrite ?app_nil_r, ?app_nil_l in X.
    split; [by rewrite ?app_nil_l, ?app_nil_r|]. split; [exact G2|]. split.
    { intros Hp. apply N2. by rewrite (same_phase _ _ Ss1). }
    split; [left; split; [done|by rewrite (keep_tick _ _ K6), (keep_tick _ _ K2)]|].
    split; [constructor|]. split; [constructor|]. split; [constructor|].
    split; [intros i cf data Hin; by apply elem_of_nil in Hin|]. split; [done|].
    split; [simpl; by rewrite A6, A2, A1|].
    split; [rewrite (no_cluster mt6); [done|eapply forall_to; [exact M6|]; by intros []]|].
    exists (d_raft d2). split; [done|]. split; [done|]. rewrite Ei. split_and!; try done.
    by rewrite (keep_rstate _ _ K6), (keep_rstate _ _ K2).
Qed.

(** ** The dispatch *)
Definition is_start (m : host_in REQ RESP) : bool := match m with HStart _ => true | _ => false end.
Definition is_stop (m : host_in REQ RESP) : bool := match m with HStop => true | _ => false end.
Definition is_lameduck (m : host_in REQ RESP) : bool := match m with HLameduck => true | _ => false end.
Definition is_check (m : host_in REQ RESP) : bool := match m with HCheck => true | _ => false end.
Record disp d d' : Prop := Disp {
  disp_id : d_id d' = d_id d;
  disp_ephemeral : d_ephemeral d' = d_ephemeral d;
  disp_instant : d_instant d' = d_instant d;
  disp_period : d_tick_period d' = d_tick_period d;
  disp_context : context d' = context d;
  disp_tick : d_tick_instant d' = d_tick_instant d;
  disp_rstate : d_rstate d' = d_rstate d;
  disp_applied : d_applied d' = d_applied d;
  disp_actor : d_actor d' = d_actor d;
  disp_proposals : d_proposals d' = d_proposals d;
  disp_stashed : d_stashed d' = d_stashed d;
}.
Definition dispatch_call (c : raft_call) : Prop := match c with KStep _ | KProposeChange _ => True | _ => False end.
Definition plain_answer (m : host_out REQ RESP) : Prop :=
  match m with OStarted _ | OStopped | OChange _ _ | OState _ _ => True | _ => False end.
Definition in_call (c : comm_call REQ RESP) : Prop := match c with MIn _ | MOut _ => True | _ => False end.
Definition handshake_call (c : comm_call REQ RESP) : Prop := match c with MIn (IHandshake _) => True | _ => False end.
Definition dispatched (check lameduck stop : bool) d d' : Prop :=
  disp d d' /\
  d_prev d' = (if check then raft_st0 else d_prev d) /\
  d_lameduck d' = d_lameduck d || lameduck /\
  d_phase d' = (if stop then Stopped else d_phase d) /\
  exists rt mt ms, ext d d' rt mt [] ms /\ Forall dispatch_call rt /\ Forall plain_answer ms /\
    (d_phase d <> Started \/ d_ephemeral d = true -> rt = [] /\ d_raft d' = d_raft d) /\
    Forall in_call mt /\ (d_ephemeral d = true -> Forall handshake_call mt).
Lemma dispatched_intro d d' rt mt ms : disp d d' -> d_prev d' = d_prev d -> d_lameduck d' = d_lameduck d ->
  d_phase d' = d_phase d -> ext d d' rt mt [] ms -> Forall dispatch_call rt -> Forall plain_answer ms ->
  (d_phase d <> Started \/ d_ephemeral d = true -> rt = [] /\ d_raft d' = d_raft d) ->
  Forall in_call mt -> (d_ephemeral d = true -> Forall handshake_call mt) -> dispatched false false false d d'.
Proof using. intros. split_and!; try done; [by rewrite orb_false_r|]. by exists rt, mt, ms. Qed.
Lemma checked_phase d p a : check_phase d p = Ok a -> d_phase d = p.
Proof using. unfold check_phase. by destruct (decide _). Qed.
Lemma checked_ephemeral d a : check_non_ephemeral d = Ok a -> d_ephemeral d = false.
Proof using. unfold check_non_ephemeral. by destruct (d_ephemeral d). Qed.

Ltac disp0 := try done; try (by repeat constructor); try ext0; try apply ext_refl; try (intros []; congruence); try congruence.
Lemma make_change_ext d n t d' st : make_config_change rr d n t = Ok (d', st) ->
  exists r e, ra_propose_change rops (d_raft d).1 (ConfChange t n) = (r, e) /\ 
    d' = set_raft d (r, (d_raft d).2 ++ [KProposeChange (ConfChange t n)]) /\
    (e = None /\ st = ChangePending \/ e = Some ProposalDropped /\ st = ChangeRejected).
Proof using.
  unfold make_config_change. simpl. destruct (ra_propose_change rops _ _) as [r [[]|]]; intros H; simplify_eq; eauto 8.
Qed.
Definition change_of (q : change_request) : option conf_change :=
  if cr_type q =? 1 then Some (ConfChange AddNode (cr_replica q))
  else if cr_type q =? 2 then Some (ConfChange RemoveNode (cr_replica q)) else None.
Lemma process_change_ext d q d' : process_change rr d q = Ok d' ->
  d_phase d = Started /\ d_ephemeral d = false /\
  match change_of q with
  | None => d' = stash d (OChange (cr_id q) ChangeRejected)
  | Some c => exists r e, ra_propose_change rops (d_raft d).1 c = (r, e) /\ e <> Some RaftOther /\
     d' = stash (set_raft d (r, (d_raft d).2 ++ [KProposeChange c]))
       (OChange (cr_id q) (match e with None => ChangePending | Some _ => ChangeRejected end))
  end.
Proof using.
  unfold process_change, change_of. intros H. apply bind_ok in H as (?&?%checked_phase&H).
  apply bind_ok in H as (?&?%checked_ephemeral&H). split; [done|]. split; [done|].
  apply bind_ok in H as ([d1 st]&H&Hd). injection Hd as <-.
  destruct (cr_type q =? 1); [|destruct (cr_type q =? 2)].
  - apply make_change_ext in H as (r&e&He&->&[[-> ->]|[-> ->]]); eauto 8.
  - apply make_change_ext in H as (r&e&He&->&[[-> ->]|[-> ->]]); eauto 8.
  - by injection H as <- <-.
Qed.
Lemma process_change_dispatched d q d' : process_change rr d q = Ok d' -> dispatched false false false d d'.
Proof using.
  intros (Hp&He&H)%process_change_ext. destruct (change_of q) as [c|].
  - destruct H as (r&e&Hr&_&->). eapply (dispatched_intro _ _ [KProposeChange c] [] [_]); disp0.
  - subst d'. eapply (dispatched_intro _ _ [] [] [_]); disp0.
Qed.

Lemma raft_step_ext d a b c d' : make_raft_step codec rr d a b c = Ok d' ->
  (dec_rmsg codec c = None /\ d' = d) \/
  exists m r, dec_rmsg codec c = Some m /\ ra_step rops (d_raft d).1 m = (r, true) /\
     d' = set_raft d (r, (d_raft d).2 ++ [KStep m]).
Proof using.
  unfold make_raft_step. destruct (dec_rmsg codec c) as [m|]; [|intros [= <-]; by left].
  simpl. destruct (ra_step rops _ m) as [r []] eqn:E; intros H; simplify_eq. right. eauto.
Qed.
(** A message of another replica: what the communication module makes of it. *)
Lemma process_system_ext d m d' : process_system codec rr rc d m = Ok d' ->
  d_phase d = Started /\ d_ephemeral d = false /\
  exists c o, co_in cops (d_comm d).1 (IPeer m) = Ok (c, o) /\
  let d1 := set_comm d (c, (d_comm d).2 ++ [MIn (IPeer m)]) in
  match o with
  | None => d' = d1
  | Some (IPeer m') => pm_kind m' = KSystem /\ exists p, pm_payload m' = Some p /\
    ((dec_rmsg codec (pl_contents p) = None /\ d' = d1) \/
    exists x r, dec_rmsg codec (pl_contents p) = Some x /\ ra_step rops (d_raft d).1 x = (r, true) /\
      d' = set_raft d1 (r, (d_raft d).2 ++ [KStep x]))
  | Some _ => False
  end.
Proof using.
  unfold process_system. intros H. apply bind_ok in H as (?&?%checked_phase&H).
  apply bind_ok in H as (?&?%checked_ephemeral&H). split; [done|]. split; [done|].
  apply bind_ok in H as ([c o]&Hc&H). simpl in Hc. apply bind_ok in Hc as ([c1 o1]&Hc&He). injection He as <- <-.
  exists c1, o1. split; [done|]. simpl. destruct o1 as [[h|m'|]|]; [done| |done|by injection H as <-].
  destruct (pm_kind m') eqn:Ek; try done. split; [done|]. apply bind_ok in H as (p&Hp%unwrap_ok&H).
  exists p. split; [done|]. apply raft_step_ext in H as [[? ->]|(mm&r&?&?&->)]; [by left|right; eauto].
Qed.
Lemma process_system_dispatched d m d' : process_system codec rr rc d m = Ok d' -> dispatched false false false d d'.
Proof using.
  intros (Hp&He&c&o&_&H)%process_system_ext. simpl in H.
  assert (H1 : d' = set_comm d (c, (d_comm d).2 ++ [MIn (IPeer m)]) -> dispatched false false false d d').
  { intros ->. eapply (dispatched_intro _ _ [] [MIn (IPeer m)] []); disp0. }
  destruct o as [[h|m'|]|]; [done| |done|by apply H1].
  destruct H as (_&p&_&[[_ H]|(x&r&_&Hst&->)]); [by apply H1|].
  eapply (dispatched_intro _ _ [KStep x] [MIn (IPeer m)] []); disp0.
Qed.

Lemma dispatched_comm d c ms s : ms <> [] -> Forall in_call ms -> d_ephemeral d = false ->
  dispatched false false false d (set_snap (set_comm d (c, (d_comm d).2 ++ ms)) s).
Proof using.
  intros Hne F He. eapply (dispatched_intro _ _ [] ms []); disp0.
Qed.
Lemma dispatched_comm' d c ms : ms <> [] -> Forall in_call ms -> d_ephemeral d = false ->
  dispatched false false false d (set_comm d (c, (d_comm d).2 ++ ms)).
Proof using.
  intros Hne F He. eapply (dispatched_intro _ _ [] ms []); disp0.
Qed.
Lemma snapshot_request_dispatched d m d' : process_snapshot_request sops rc d m = Ok d' -> dispatched false false false d d'.
Proof using.
  unfold process_snapshot_request. intros H. apply bind_ok in H as (?&He%checked_ephemeral&H).
  apply bind_ok in H as ([c o]&Hc&H). simpl in Hc. apply bind_ok in Hc as ([c1 o1]&_&E). injection E as <- <-.
  destruct o1 as [[h|m'|]|]; [done| |done|].
  2:{ injection H as <-. by apply dispatched_comm'; [|repeat constructor|]. }
  destruct (pm_kind m'); try done. apply bind_ok in H as (role&_&H).
  apply bind_ok in H as ([d1 answer]&H1&H). apply bind_ok in H as ([c2 t2]&Hc&E). injection E as <-.
  assert (Hd1 : exists s, d1 = set_snap (set_comm d (c1, (d_comm d).2 ++ [MIn (IPeer m)])) s).
  { destruct role.
    - apply bind_ok in H1 as (?&_&E). injection E as <- <-. exists (d_snap d). by destruct d.
    - apply bind_ok in H1 as ([s a]&_&E). injection E as <- <-. by exists s. }
  destruct Hd1 as (s&->). simpl in Hc. apply bind_ok in Hc as (cc&_&E). injection E as <- <-.
  rewrite <- app_assoc.
  pose proof (dispatched_comm d cc ([MIn (IPeer m)] ++ [MOut (OutMsg answer false)]) s) as Hx.
  apply Hx; [done|repeat constructor|done].
Qed.
Lemma snapshot_response_dispatched d m d' : process_snapshot_response sops rc d m = Ok d' -> dispatched false false false d d'.
Proof using.
  unfold process_snapshot_response. intros H. apply bind_ok in H as (?&He%checked_ephemeral&H).
  apply bind_ok in H as ([c o]&Hc&H). simpl in Hc. apply bind_ok in Hc as ([c1 o1]&_&E). injection E as <- <-.
  destruct o1 as [[h|m'|]|]; [done| |done|].
  2:{ injection H as <-. by apply dispatched_comm'; [|repeat constructor|]. }
  destruct (pm_kind m'); try done. apply bind_ok in H as (role&_&H). destruct role.
  - apply bind_ok in H as (s&_&E). injection E as <-. by apply dispatched_comm; [|repeat constructor|].
  - injection H as <-. by apply dispatched_comm'; [|repeat constructor|].
Qed.
Lemma snapshot_failure_dispatched d i n d' : process_snapshot_failure sops d i n = Ok d' -> dispatched false false false d d'.
Proof using.
  unfold process_snapshot_failure. intros H. apply bind_ok in H as (?&He%checked_ephemeral&H).
  apply bind_ok in H as (role&_&H). destruct role.
  - apply bind_ok in H as (s&_&E). injection E as <-.
    eapply (dispatched_intro _ _ [] [] []); disp0.
  - injection H as <-. eapply (dispatched_intro _ _ [] [] []); disp0.
Qed.

Lemma dispatch_ext d m d' : dispatch codec rr sops rc ra d m = Ok d' -> is_start m = false ->
  dispatched (is_check m) (is_lameduck m) (is_stop m) d d'.
Proof using.
  intros H Hs. destruct m as [q| | |q| |m|sender delivery| |m|m]; cbn [dispatch] in H; try done; cbn [is_check is_lameduck is_stop].
  - unfold process_stop in H. destruct (decide (d_phase d = Stopped)) as [E|E]; injection H as <-.
    + split; [by constructor|]. rewrite orb_false_r. split_and!; try done. exists [], [], [].
      split; [apply ext_refl|]. repeat split; try constructor; done.
    + split; [by constructor|]. rewrite orb_false_r. split_and!; try done. exists [], [], [OStopped].
      split; [ext0|]. repeat split; try constructor; done.
  - injection H as <-. split; [by constructor|]. rewrite orb_true_r. split_and!; try done. exists [], [], [].
    split; [ext0|]. repeat split; try constructor; done.
  - by eapply process_change_dispatched.
  - unfold process_check in H. apply bind_ok in H as (?&Hp%checked_phase&H). apply bind_ok in H as (?&He%checked_ephemeral&H).
    injection H as <-. split; [by constructor|]. rewrite orb_false_r. split_and!; try done. exists [], [], [].
    split; [ext0|]. repeat split; try constructor; done.
  - destruct (pm_kind m).
    + by eapply process_system_dispatched.
    + by eapply snapshot_request_dispatched.
    + by eapply snapshot_response_dispatched.
  - by eapply snapshot_failure_dispatched.
  - unfold process_get_state in H. apply bind_ok in H as (?&Hp%checked_phase&H).
    destruct (d_ephemeral d); injection H as <-;
      (eapply (dispatched_intro _ _ [] [] [_]); disp0).
  - unfold process_handshake in H. apply bind_ok in H as (?&Hp%checked_phase&H).
    apply bind_ok in H as ([c o]&Hc&H). injection H as <-. simpl in Hc. apply bind_ok in Hc as ([c1 o1]&_&E). injection E as <- <-.
    eapply (dispatched_intro _ _ [] [MIn (IHandshake m)] []); disp0.
  - injection H as <-. eapply (dispatched_intro _ _ [] [] []); disp0.
Qed.

(** ** The start *)
Definition period_of (q : start_request) d : N :=
  match sr_raft q with Some c => rc_tick_period c | None => d_tick_period d end.
Lemma initialize_ext d q data d' : initialize_raft_node rr d (sr_raft q) data (sr_leader q) = Ok d' ->
  d_phase d' = d_phase d /\ d_id d' = d_id d /\ d_ephemeral d' = d_ephemeral d /\ d_instant d' = d_instant d /\
  d_lameduck d' = d_lameduck d /\ d_proposals d' = d_proposals d /\ d_stashed d' = d_stashed d /\ d_rstate d' = d_rstate d /\
  context d' = context d /\ d_messages d' = d_messages d /\ d_comm d' = d_comm d /\ d_actor d' = d_actor d /\
  d_conf d' = (if sr_leader q then conf_of_voters [d_id d] else d_conf d) /\
  (exists r n, ra_init rops (d_raft d).1 (d_id d) (sr_raft q) data (sr_leader q) n = Ok r /\
    d_raft d' = (r, (d_raft d).2 ++ [KInit (d_id d) (sr_leader q) data])) /\
  d_applied d' = (if sr_leader q then 1 else d_applied d) /\ d_tick_instant d' = d_instant d /\
  d_tick_period d' = period_of q d /\ d_prev d' = get_raft_state rr d'.
Proof using.
  unfold initialize_raft_node. intros H.
  assert (Hd : exists v w, (match sr_raft q with
    | Some c => match rc_snapshot c with Some s => set_snapshot_count (set_tick_period d (rc_tick_period c)) (sc_count s) | None => set_tick_period d (rc_tick_period c) end
    | None => d end) = set_snapshot_count (set_tick_period d v) w /\ v = period_of q d).
  { unfold period_of. destruct (sr_raft q) as [c|]; [destruct (rc_snapshot c)|]; do 2 eexists; (split; [|done]); [done|..].
    - by instantiate (1 := d_snapshot_count d).
    - instantiate (1 := d_snapshot_count d). by destruct d. }
  destruct Hd as (v&w&E&Ev). rewrite E in H. clear E.
  apply bind_ok in H as (r&Hr%or_fail_ok&H). simpl in Hr. apply bind_ok in Hr as (r1&Hr&E). injection E as <-.
  injection H as <-.
  destruct (sr_leader q); simpl; (split_and!; try done; by eauto).
Qed.
Lemma process_start_ext d q d' : process_start rr sops rc ra d q = Ok d' ->
  d_phase d = Created /\ sr_endorsements q = true /\
  d_phase d' = Started /\ d_id d' = sr_id q /\ d_ephemeral d' = sr_ephemeral q /\ d_instant d' = d_instant d /\
  d_lameduck d' = d_lameduck d /\ d_proposals d' = d_proposals d /\ d_stashed d' = d_stashed d /\ d_rstate d' = d_rstate d /\
  context d' = ActorCtx (sr_id q) (d_core_instant d) (sr_config q) (d_core_leader d) /\
  d_messages d' = d_messages d ++ [OStarted (sr_id q)] /\
  comm_calls d' = comm_calls d ++ [MInit (sr_id q)] /\
  (exists st, a_init app (context d') = Ok st /\ d_actor d' = Some (st, [AInit (context d')])) /\
  d_conf d' = foldl config_step (d_conf d) (drop (length (raft_calls d)) (raft_calls d')) /\
  if sr_ephemeral q then
    d_raft d' = d_raft d /\ d_applied d' = d_applied d /\ d_tick_instant d' = d_tick_instant d /\ d_tick_period d' = d_tick_period d
  else
    exists data r n st, a_init app (context d') = Ok st /\ a_save app st = Ok data /\
      ra_init rops (d_raft d).1 (sr_id q) (sr_raft q) data (sr_leader q) n = Ok r /\
      d_raft d' = (r, (d_raft d).2 ++ [KInit (sr_id q) (sr_leader q) data]) /\
      d_applied d' = (if sr_leader q then 1 else d_applied d) /\ d_tick_instant d' = d_instant d /\
      d_tick_period d' = period_of q d /\ d_prev d' = get_raft_state rr d'.
Proof using.
  unfold process_start. intros H. apply bind_ok in H as (?&Hp%checked_phase&H). split; [done|].
  apply bind_ok in H as ([st tr]&Hi%or_fail_ok&H). simpl in Hi. apply bind_ok in Hi as (st'&Hi&E). injection E as -> <-.
  apply bind_ok in H as (d1&H1&H).
  destruct (sr_endorsements q) eqn:Een.
  2:{ destruct (sr_raft q); done. }
  split; [done|].
  assert (Hd' : exists c, d' = stash (set_phase (set_comm d1 (c, (d_comm d1).2 ++ [MInit (d_id d1)])) Started) (OStarted (d_id d1))).
  { destruct (sr_raft q); simpl in H; injection H as <-; by eexists. }
  destruct Hd' as (c&->). clear H. simpl in H1. destruct (sr_ephemeral q) eqn:Eph.
  - injection H1 as <-. simpl. split_and!; try done.
    + eauto.
    + unfold raft_calls. simpl. rewrite drop_all. done.
  - apply bind_ok in H1 as (data&Hdata%or_fail_ok&H1). apply bind_ok in H1 as (sp&_&H1).
    apply initialize_ext in H1 as (E1&E2&E3&E4&E5&E6&E7&E8&E9&E10&E11&E12&E13&(r&n&Hr&E14)&E15&E16&E17&E18).
    set (d0 := set_snap _ _) in *.
    assert (Hdr : forall t (c : raft_call), drop (length t) (t ++ [c]) = [c]).
    { intros t c0. rewrite drop_app_le by lia. by rewrite drop_all. }
    assert (Hx : context d0 = ActorCtx (sr_id q) (d_core_instant d) (sr_config q) (d_core_leader d)) by done.
    assert (Ecx : context (stash (set_phase (set_comm d1 (c, (d_comm d1).2 ++ [MInit (d_id d1)])) Started) (OStarted (d_id d1))) = context d0).
    { rewrite <- E9. done. }
    rewrite !Ecx. unfold comm_calls, raft_calls. simpl. change (d_raft (stash _ _)) with (d_raft d1).
    change (d_conf (stash _ _)) with (d_conf d1). change (get_raft_state rr (stash _ _)) with (get_raft_state rr d1). simpl.
    rewrite E2, E3, E4, E5, E6, E7, E8, E10, E11, E12, E13, E14, E15, E16, E17, E18. simpl.
    split_and!; try done; [by eauto|..].
    + rewrite Hdr. simpl. by destruct (sr_leader q).
    + exists data, r, n, st. done.
Qed.

(** ** A whole call *)
Lemma receive_parts d t m d' out : receive codec rops sops cops app d (t, m) = Ok (d', out) -> m <> Some None ->
  exists d1 d2 d3 c ws,
    match m with Some (Some m) => dispatch codec rr sops rc ra (preset rr d t) m = Ok d1 | _ => d1 = preset rr d t end /\
    run_app codec rc ra d1 (match m with Some (Some m) => app_message m | _ => None end) = Ok d2 /\
    run_replication codec rr sops rc ra d2 = Ok d3 /\
    co_take cops (d_comm d3).1 = Ok (c, ws) /\
    d' = set_messages (set_comm d3 (c, (d_comm d3).2 ++ [MTake])) [] /\ out = d_messages d3 ++ map OWire ws.
Proof using.
  unfold receive, receive_message. simpl fst. simpl snd. intros H Hm.
  assert (H' : res_bind (match m with Some (Some m) => dispatch codec rr sops rc ra (preset rr d t) m | _ => Ok (preset rr d t) end)
    (fun d => let! d := run_app codec rc ra d (match m with Some (Some m) => app_message m | _ => None end) in
    let! d := run_replication codec rr sops rc ra d in flush rc d) = Ok (d', out)).
  { destruct m as [[m|]|]; done. }
  clear H. apply bind_ok in H' as (d1&H1&H). apply bind_ok in H as (d2&H2&H). apply bind_ok in H as (d3&H3&H).
  unfold flush in H. apply bind_ok in H as ([c ws]&H4&H). injection H as <- <-. simpl in H4.
  apply bind_ok in H4 as ([c1 w1]&H4&E). injection E as <- <-.
  exists d1, d2, d3, c1, w1. split_and!; try done. destruct m as [[m|]|]; try done; by injection H1 as <-.
Qed.

Record core d : Prop := Core {
  core_id : d_core_id d = d_id d;
  core_instant : d_core_instant d = d_instant d;
  core_created : d_phase d = Created -> d_actor d = None;
  core_absent : d_actor d = None -> d_phase d <> Started /\ raft_calls d = [] /\ d_ephemeral d = false /\ d_applied d = 0 /\
    ra_initialized rops (d_raft d).1 = false /\ d_rstate d = raft_st0;
  core_present : d_actor d <> None -> d_ephemeral d = false ->
    exists leader data, head (raft_calls d) = Some (KInit (d_id d) leader data);
  core_ephemeral : d_ephemeral d = true -> raft_calls d = [];
  core_conf : d_conf d = config_of (raft_calls d);
  core_init : consensus_ok rops -> d_actor d <> None -> d_ephemeral d = false -> ra_initialized rops (d_raft d).1 = true;
}.
Record inv d : Prop := Inv {
  inv_core : core d;
  inv_messages : d_messages d = [];
  inv_proposals : d_proposals d = [];
  inv_stashed : d_stashed d = [];
  inv_known : consensus_ok rops -> d_actor d <> None -> d_ephemeral d = false -> d_rstate d = get_raft_state rr d;
}.

Definition start_position (a : N) (t : list raft_call) : N :=
  match t with KInit _ true _ :: _ => 1 | _ => a end.
Lemma same_present d d' : same d d' -> d_actor d' = None <-> d_actor d = None.
Proof using. intros [? ? ? ? ? ? ? Hs]. rewrite <- !not_eq_None_Some in Hs. destruct (d_actor d), (d_actor d'); naive_solver. Qed.

(** The first part: time and dispatch. *)
Definition first_call (c : raft_call) : Prop :=
  match c with KStep _ | KProposeChange _ | KInit _ _ _ => True | _ => False end.
Record mid d (t : N) d1 rt0 mt0 tr0 ms0 : Prop := Mid {
  mid_core : core d1;
  mid_ext : ext d d1 rt0 mt0 tr0 ms0;
  mid_cluster : omap cluster_call mt0 = [];
  mid_leader : d_core_leader d1 = ra_leader rops (d_raft d).1;
  mid_instant : d_instant d1 = N.max (d_instant d) t;
  mid_proposals : d_proposals d1 = [];
  mid_stashed : d_stashed d1 = [];
  mid_calls : Forall first_call rt0;
  mid_apps : Forall (fun c => match c with AInit cx => cx = context d1 | _ => False end) tr0;
  mid_answers : Forall plain_answer ms0;
  mid_applied : d_applied d1 = start_position (d_applied d) rt0;
  mid_started : d_phase d <> Created ->
    d_id d1 = d_id d /\ d_ephemeral d1 = d_ephemeral d /\ d_tick_period d1 = d_tick_period d;
  mid_first : d_phase d <> Created -> Forall (fun c => match c with KInit _ _ _ => False | _ => True end) rt0;
  mid_inits : Forall (fun c => match c with KInit _ _ _ => False | _ => True end) (drop 1 rt0);
  mid_tick : d_tick_instant d1 = match rt0 with KInit _ _ _ :: _ => d_instant d1 | _ => d_tick_instant d end;
  mid_comm : d_ephemeral d1 = true -> Forall (fun c => match c with MOut _ => False | _ => True end) mt0;
}.
Lemma core_preset d t : core d -> core (preset rr d t).
Proof using. intros []. by constructor. Qed.
Lemma mid_start d t q d1 : inv d -> process_start rr sops rc ra (preset rr d t) q = Ok d1 ->
  exists rt mt tr ms, mid d t d1 rt mt tr ms.
Proof using.
  intros [C M P S _] H. apply process_start_ext in H as (Hp&_&Hp'&Hid&Hep&Hin&Hl&Hpr&Hst&Hrs&Hcx&Hm&Hcm&(st&Hai&Ha)&Hcf&H).
  simpl in *. destruct C as [C1 C2 C3 C4 C5 C6 C7 C8]. specialize (C3 Hp). destruct (C4 C3) as (_&Z1&Z2&Z3&Z4&Z5).
  assert (Hid' : d_core_id d1 = d_id d1 /\ d_core_instant d1 = d_instant d1).
  { unfold context in Hcx. injection Hcx as E1 E2 _ _. rewrite E1, E2, Hid, Hin. done. }
  assert (Hld : d_core_leader d1 = ra_leader rops (d_raft d).1) by (unfold context in Hcx; by injection Hcx as _ _ _ ->).
  assert (Happ : app_calls d = []) by (unfold app_calls; by rewrite C3).
  assert (Hcf' : d_conf d1 = config_of (raft_calls d1)).
  { rewrite Hcf, C7. unfold raft_calls at 2. simpl. fold (raft_calls d). rewrite Z1. done. }
  destruct (sr_ephemeral q).
  - destruct H as (Hr&Hap&Htk&Hpe). exists [], [MInit (sr_id q)], [AInit (context d1)], [OStarted (sr_id q)].
    assert (Hrc : raft_calls d1 = []) by (unfold raft_calls; by rewrite Hr).
    constructor; simpl; try done; try congruence.
    + constructor; try tauto; try congruence.
    + constructor; simpl; try done.
      * by rewrite Hrc, Z1.
      * rewrite Happ. unfold app_calls. by rewrite Ha.
      * rewrite Hcf', Hrc, C7, Z1. done.
      * rewrite Hr. apply rtc_refl.
      * rewrite C3, Ha. exists (context d1), st. split; [done|apply rtc_refl].
    + by constructor.
    + by repeat constructor.
    + intros _. by repeat constructor.
  - destruct H as (data&r&n&st'&_&_&Hinit&Hr&Hap&Htk&Hpe&_).
    exists [KInit (sr_id q) (sr_leader q) data], [MInit (sr_id q)], [AInit (context d1)], [OStarted (sr_id q)].
    assert (Hrc : raft_calls d1 = [KInit (sr_id q) (sr_leader q) data]).
    { unfold raft_calls. rewrite Hr. simpl. fold (raft_calls d). by rewrite Z1. }
    constructor; simpl; try done; try congruence.
    + constructor; try tauto; try congruence; [intros _ _; rewrite Hrc, Hid; simpl; eauto|].
      intros K _ _. rewrite Hr. by eapply init_initialises.
    + constructor; simpl; try done.
      * by rewrite Hrc, Z1.
      * rewrite Happ. unfold app_calls. by rewrite Ha.
      * rewrite Hcf', Hrc, C7, Z1. done.
      * rewrite Hr. mv.
      * rewrite C3, Ha. exists (context d1), st. split; [done|apply rtc_refl].
    + by repeat constructor.
    + by repeat constructor.
    + by repeat constructor.
Qed.
Lemma moves_init r r' : consensus_ok rops -> moves r r' -> ra_initialized rops r = true -> ra_initialized rops r' = true.
Proof using. intros K. induction 1 as [|r r1 r2 Hm _ IH]; [done|]. intros H. apply IH. by eapply stays_initialised. Qed.
Lemma mid_dispatched d t c l s d1 : inv d -> dispatched c l s (preset rr d t) d1 -> exists rt mt ms, mid d t d1 rt mt [] ms /\
  Forall dispatch_call rt.
Proof using.
  intros [C M P S _] (D&Hprev&Hl&Hph&rt&mt&ms&X&F&G&Hrt&Hmt&He). exists rt, mt, ms. split; [|done].
  destruct D as [D1 D2 D3 D4 D5 D6 D7 D8 D9 D10 D11]. simpl in *.
  destruct C as [C1 C2 C3 C4 C5 C6 C7 C8].
  assert (X' : ext d d1 rt mt [] ms) by (destruct X; by constructor).
  unfold context in D5. injection D5 as E1 E2 E3 E4. simpl in *.
  assert (Hd : forall x, rt = x :: drop 1 rt -> dispatch_call x).
  { intros x Hx. rewrite Hx in F. by inversion F. }
  constructor; simpl; try done; try congruence.
  - constructor; try congruence.
    + rewrite Hph, D9. destruct s; [done|]. tauto.
    + intros Ha. rewrite D9 in Ha. specialize (C4 Ha) as (Z1&Z2&Z3&Z4&Z5&Z6).
      destruct Hrt as [Hrt' Hrr]; [by left|]. 
      split_and!; try congruence.
      * rewrite Hph. by destruct s.
      * rewrite (ext_raft _ _ _ _ _ _ X'), Z2, Hrt'. done.

    + intros Ha He'. rewrite D9 in Ha. rewrite D2 in He'. destruct (C5 Ha He') as (ld&data&Hh).
      exists ld, data. rewrite (ext_raft _ _ _ _ _ _ X'), D1. by destruct (raft_calls d).
    + intros He'. rewrite D2 in He'. rewrite (ext_raft _ _ _ _ _ _ X'), (C6 He'). by destruct Hrt as [-> _]; [by right|].
    + rewrite (ext_conf _ _ _ _ _ _ X'), (ext_raft _ _ _ _ _ _ X'), C7. unfold config_of. by rewrite foldl_app.
    + intros K Ha He'. rewrite D9 in Ha. rewrite D2 in He'.
      apply (moves_init (d_raft d).1); [done|exact (ext_moves _ _ _ _ _ _ X')|]. by apply C8.
  - apply no_cluster. eapply forall_to; [exact Hmt|]. by intros [].
  - eapply Forall_impl; [exact F|]. by intros [].
  - rewrite D8. destruct rt as [|x rt]; [done|]. specialize (Hd x eq_refl). by destruct x.
  - intros _. eapply forall_to; [exact F|]. by intros [].
  - apply Forall_drop. eapply forall_to; [exact F|]. by intros [].
  - rewrite D6. destruct rt as [|x rt]; [done|]. specialize (Hd x eq_refl). by destruct x.
  - intros He'. rewrite D2 in He'. eapply Forall_impl; [exact (He He')|]. by intros [].
Qed.

Definition message_of (x : option (option (host_in REQ RESP))) : option actor_command :=
  match x with Some (Some m) => app_message m | _ => None end.
Definition commands_in (x : option (option (host_in REQ RESP))) : list (option actor_command) :=
  match x with Some None => [] | _ => [message_of x] end.
Definition sends_out (c : comm_call REQ RESP) : Prop := match c with MOut _ => True | _ => False end.
Definition is_check_msg (x : option (option (host_in REQ RESP))) : bool :=
  match x with Some (Some HCheck) => true | _ => false end.
Record call d (x : delivery REQ RESP) d' (out : list (host_out REQ RESP)) (rt : list raft_call)
  (mt : list (comm_call REQ RESP)) (tr : list app_call) : Prop := Call {
  call_inv : inv d';
  call_raft : raft_calls d' = raft_calls d ++ rt;
  call_comm : comm_calls d' = comm_calls d ++ mt;
  call_app : app_calls d' = app_calls d ++ tr;
  call_instant : d_instant d' = N.max (d_instant d) x.1;
  call_started : d_phase d <> Created ->
    d_id d' = d_id d /\ d_ephemeral d' = d_ephemeral d /\ d_tick_period d' = d_tick_period d;
  call_first : d_phase d <> Created -> Forall (fun c => match c with KInit _ _ _ => False | _ => True end) rt;
  call_inits : Forall (fun c => match c with KInit _ _ _ => False | _ => True end) (drop 1 rt);
  call_due : consensus_ok rops -> d_actor d' <> None -> d_ephemeral d' = false -> x.2 <> Some None -> d_lameduck d' = false ->
    d_tick_period d' <= d_instant d' - (match rt with KInit _ _ _ :: _ => d_instant d' | _ => d_tick_instant d end) -> ticks rt = 1%nat;
  call_proposals : d_ephemeral d' = false -> omap proposal_of rt = omap (event_proposal codec (d_id d')) tr;
  call_log : d_ephemeral d' = false -> omap from_log tr = concat (map (expected (d_id d')) (handed rt));
  call_applied : d_ephemeral d' = false -> d_applied d' = foldl after (start_position (d_applied d) rt) (handed rt);
  call_context : forall a cx, a ∈ tr -> context_of a = Some cx -> cx_id cx = d_id d' /\ cx_instant cx = d_instant d' /\
    cx_leader cx = ra_leader rops (d_raft d).1;
  call_commands : omap command_of tr = if decide (d_phase d' = Started) then commands_in x.2 else [];
  call_outputs : omap app_out out = concat (map emitted tr);
  call_moves : moves (d_raft d).1 (d_raft d').1;
  call_actor : arel (d_actor d) (d_actor d');
  call_saves : forall i cf data, KSave i cf data ∈ rt -> i = d_applied d' /\ cf = config_of (raft_calls d') /\
    exists st, d_actor d' = Some st /\ a_save app st.1 = Ok data;
  call_ticks : let last := match rt with KInit _ _ _ :: _ => d_instant d' | _ => d_tick_instant d end in
    ticks rt = O /\ d_tick_instant d' = last \/
    ticks rt = 1%nat /\ d_tick_period d' <= d_instant d' - last /\ d_tick_instant d' = d_instant d' /\ d_lameduck d' = false;
  call_status : consensus_ok rops -> d_actor d' <> None -> d_ephemeral d' = false ->
    exists prev, (d_phase d <> Created -> prev = if is_check_msg x.2 then raft_st0 else d_rstate d) /\
    omap cluster_out out = if decide (prev = get_raft_state rr d') then [] else [get_raft_state rr d'];
  call_cluster : omap cluster_call mt = map (fun _ => cs_voters (config_of (raft_calls d'))) (omap cluster_out out);
  call_at_once : d_ephemeral d' = true -> applied_at_once tr /\ Forall (fun c => ~ sends_out c) mt;
}.

Lemma omap_none {A B} (f : A -> option B) l : Forall (fun x => f x = None) l -> omap f l = [].
Proof using. induction 1 as [|x l Hx _ IH]; simpl; [done|]. by rewrite Hx. Qed.
Lemma handed_none t : Forall (fun c => handed_by c = []) t -> handed t = [].
Proof using. induction 1 as [|x l Hx _ IH]; [done|]. unfold handed in *. simpl. by rewrite Hx. Qed.
Ltac none := (eapply forall_to; [eassumption|]); by intros [].

Lemma report_state l : forall r, consensus_ok rops -> ra_state rr (report_all rr r l) = ra_state rr r.
Proof using.
  unfold report_all. induction l as [|[i st] l IH]; intros r K; simpl; [done|].
  pose proof (IH (ra_report rops r.1 i st, r.2 ++ [KReport i st]) K) as E. simpl in E. rewrite E.
  by apply report_keeps_state.
Qed.

Lemma call_unset d t : inv d -> call d (t, Some None) (preset rr d t) [] [] [] [].
Proof using.
  intros [C M P S K]. constructor; simpl; try done; try (by rewrite app_nil_r); try (by left); try apply arel_refl.
  - constructor; [by apply core_preset|done..].
  - intros a cx H. by apply elem_of_nil in H.
  - by destruct (decide _).
  - intros i cf data H. by apply elem_of_nil in H.
  - intros Kc Ha He. exists (d_rstate d). split; [done|].
    rewrite decide_True; [done|]. by rewrite K.
Qed.

Lemma receive_call d x d' out : inv d -> receive codec rops sops cops app d x = Ok (d', out) ->
  exists rt mt tr, call d x d' out rt mt tr.
Proof using.
  intros I H. destruct x as [t m].
  assert (Hm : m = Some None \/ m <> Some None) by (destruct m as [[]|]; [by right|by left|by right]).
  destruct Hm as [->|Hm].
  { injection H as <- <-. exists [], [], []. by apply call_unset. }
  apply receive_parts in H as (d1&d2&d3&c&ws&H1&H2&H3&_&->&->); [|done].
  assert (Hmid : exists rt0 mt0 tr0 ms0, mid d t d1 rt0 mt0 tr0 ms0 /\
     (d_phase d <> Created -> d_prev d1 = if is_check_msg m then raft_st0 else d_rstate d)).
  { destruct m as [[m|]|]; [|done|].
    - destruct (is_start m) eqn:Es.
      + destruct m as [q| | | | | | | | | ]; try done. cbn [dispatch] in H1.
        pose proof H1 as H1'. apply process_start_ext in H1' as (Hp&_).
        apply (mid_start d) in H1 as (rt&mt&tr&ms&Hx); [|done].
        exists rt, mt, tr, ms. split; [done|]. intros Hc. by destruct Hc.
      + apply dispatch_ext in H1; [|done]. pose proof H1 as (_&Hpv&_).
        apply mid_dispatched in H1 as (rt&mt&ms&Hx&_); [|done]. exists rt, mt, [], ms. split; [done|].
        intros _. rewrite Hpv. by destruct m.
    - subst d1. destruct (mid_dispatched d t false false false (preset rr d t) I) as (rt&mt&ms&Hx&_).
      { eapply (dispatched_intro _ _ [] [] []); try done; try (by repeat constructor). apply ext_refl. }
      exists rt, mt, [], ms. done. }
  clear H1. destruct Hmid as (rt0&mt0&tr0&ms0&[C1 X1 Cl1 Ld1 In1 P1 S1 F1 T1 G1 A1 St1 Fi1 In1' Tk1 Cm1]&Hprev).
  apply run_app_ext in H2 as (Ss2&Tk2&R2&V2&Rf2&S2&A2&_&mt1&tr1&ps&X2&P2&H2).
  assert (N0 : omap proposal_of rt0 = [] /\ handed rt0 = [] /\ ticks rt0 = O).
  { split_and!; [apply omap_none; none|apply handed_none; none|]. unfold ticks. rewrite omap_none; [done|none]. }
  assert (N1 : omap from_log tr0 = [] /\ omap (event_proposal codec (d_id d1)) tr0 = [] /\ omap command_of tr0 = [] /\ concat (map emitted tr0) = []).
  { split_and!; try (apply omap_none; none). clear -T1. induction T1 as [|[] ? ? ? IH]; done. }
  assert (N2 : omap app_out ms0 = [] /\ omap cluster_out ms0 = []).
  { split_and!; apply omap_none; none. }
  destruct N0 as (N01&N02&N03), N1 as (N11&N12&N13&N14), N2 as (N21&N22).
  assert (Hout : forall l, omap app_out (map (@OApp REQ RESP) l) = l /\ omap cluster_out (map (@OApp REQ RESP) l) = []).
  { intros l. split; [|apply omap_none; rewrite Forall_map; by apply Forall_true].
    induction l as [|? ? IH]; [done|]. simpl. f_equal. exact IH. }
  assert (Hwire : omap app_out (map (@OWire REQ RESP) ws) = [] /\ omap cluster_out (map (@OWire REQ RESP) ws) = []).
  { split; apply omap_none; rewrite Forall_map; by apply Forall_true. }
  assert (Hctx : forall a cx, a ∈ tr0 ++ tr1 -> context_of a = Some cx -> cx_id cx = d_id d1 /\ cx_instant cx = d_instant d1 /\
    cx_leader cx = ra_leader rops (d_raft d).1).
  { intros a cx. rewrite elem_of_app. intros Hin Hcx. assert (cx = context d1).
    { destruct Hin as [Hin|Hin].
      { rewrite Forall_forall in T1. specialize (T1 _ Hin). destruct a; try done. simpl in Hcx. congruence. }
      destruct (decide (d_phase d1 = Started)).
      - destruct H2 as (_&_&o2&H2). destruct (d_ephemeral d1).
        + destruct H2 as (_&H2). destruct (co_event o2).
          * destruct H2 as (o3&->). rewrite !elem_of_cons, elem_of_nil in Hin. destruct Hin as [->|[->|[]]]; simpl in Hcx; congruence.
          * subst tr1. apply elem_of_list_singleton in Hin as ->. simpl in Hcx. congruence.
        + destruct H2 as (->&_). apply elem_of_list_singleton in Hin as ->. simpl in Hcx. congruence.
      - destruct H2 as (->&_). by apply elem_of_nil in Hin. }
    subst cx. simpl. split_and!; [apply (core_id _ C1)|apply (core_instant _ C1)|done]. }
  assert (Hcmd : omap command_of (tr0 ++ tr1) = if decide (d_phase d1 = Started) then commands_in m else []).
  { rewrite omap_app, N13. simpl. destruct (decide (d_phase d1 = Started)) as [E|E].
    - assert (Hc : commands_in m = [message_of m]) by (by destruct m as [[]|]). rewrite Hc.
      destruct H2 as (_&_&o2&H2). destruct (d_ephemeral d1).
      + destruct H2 as (_&H2). destruct (co_event o2); [destruct H2 as (o3&->)|subst tr1]; done.
      + by destruct H2 as (->&_).
    - by destruct H2 as (->&_). }
  pose proof (ext_trans _ _ _ _ _ _ _ _ _ _ _ X1 X2) as X12. rewrite app_nil_r in X12.
  destruct I as [C0 M0 P0 S0 K0].
  destruct (d_ephemeral d1) eqn:Ee.
  - (* ephemeral *)
    unfold run_replication in H3. rewrite (same_ephemeral _ _ Ss2), Ee in H3. injection H3 as <-.
    assert (Hr0 : raft_calls d = [] /\ rt0 = []).
    { apply app_nil. rewrite <- (ext_raft _ _ _ _ _ _ X1). by apply (core_ephemeral _ C1). }
    destruct Hr0 as [Hr0 ->].
    assert (Hps : ps = []).
    { destruct (decide (d_phase d1 = Started)); [by destruct H2 as (_&_&o2&->&_)|by destruct H2 as (_&_&->)]. }
    assert (Hact : d_actor d1 <> None).
    { intros Hn. pose proof (core_absent _ C1 Hn) as (_&_&Hx&_). congruence. }
    exists [], (mt0 ++ mt1 ++ [MTake]), (tr0 ++ tr1). constructor.
    + constructor; simpl.
      * pose proof (same_context _ _ Ss2) as Hcx. unfold context in Hcx. injection Hcx as E1 E2 E3 E4.
        constructor; simpl.
        -- rewrite E1, (same_id _ _ Ss2). apply C1.
        -- rewrite E2, (same_instant _ _ Ss2). apply C1.
        -- intros Hp. rewrite (same_phase _ _ Ss2) in Hp. apply (core_created _ C1) in Hp. done.
        -- intros Hp. apply (same_present _ _ Ss2) in Hp. done.
        -- intros _ Hx. by rewrite (same_ephemeral _ _ Ss2), Ee in Hx.
        -- intros _. unfold raft_calls. simpl. rewrite Rf2. by apply (core_ephemeral _ C1).
        -- rewrite (ext_conf _ _ _ _ _ _ X2). simpl. rewrite (core_conf _ C1). unfold raft_calls. simpl. by rewrite Rf2.
        -- intros _ _ Hx. by rewrite (same_ephemeral _ _ Ss2), Ee in Hx.
      * done.
      * by rewrite P2, P1, Hps.
      * by rewrite S2.
      * intros _ _ Hx. by rewrite (same_ephemeral _ _ Ss2), Ee in Hx.
    + unfold raft_calls. simpl. rewrite Rf2. apply (ext_raft _ _ _ _ _ _ X1).
    + pose proof (ext_comm _ _ _ _ _ _ X12) as Hcm. unfold comm_calls in *. simpl. rewrite Hcm. by rewrite <- !app_assoc.
    + apply (ext_app _ _ _ _ _ _ X12).
    + simpl. by rewrite (same_instant _ _ Ss2).
    + simpl. intros Hx. rewrite (same_id _ _ Ss2), (same_ephemeral _ _ Ss2), (same_period _ _ Ss2). destruct (St1 Hx) as (?&?&?). split_and!; congruence.
    + intros _. constructor.
    + constructor.
    + simpl. rewrite (same_ephemeral _ _ Ss2), Ee. done.
    + simpl. rewrite (same_ephemeral _ _ Ss2), Ee. done.
    + simpl. rewrite (same_ephemeral _ _ Ss2), Ee. done.
    + simpl. rewrite (same_ephemeral _ _ Ss2), Ee. done.
    + simpl. rewrite (same_id _ _ Ss2), (same_instant _ _ Ss2). exact Hctx.
    + simpl. rewrite (same_phase _ _ Ss2). exact Hcmd.
    + rewrite (ext_msgs _ _ _ _ _ _ X12), M0. simpl. rewrite !omap_app, N21. destruct Hwire as [-> _].
      destruct (Hout (outputs tr1)) as [-> _]. rewrite map_app, concat_app, N14. simpl. by rewrite app_nil_r.
    + exact (ext_moves _ _ _ _ _ _ X12).
    + exact (ext_amoves _ _ _ _ _ _ X12).
    + intros i cf data Hin. by apply elem_of_nil in Hin.
    + simpl. left. split; [done|]. by rewrite Tk2, Tk1.
    + simpl. rewrite (same_ephemeral _ _ Ss2), Ee. done.
    + rewrite !omap_app, Cl1. rewrite (ext_msgs _ _ _ _ _ _ X12), M0. simpl. rewrite !omap_app, N22. destruct Hwire as [_ ->].
      destruct (Hout (outputs tr1)) as [_ ->]. simpl. rewrite app_nil_r.
      destruct (decide (d_phase d1 = Started)); [destruct H2 as (->&_)|destruct H2 as (_&->&_)]; done.
    + intros _. split.
      * assert (Hao : forall t1 t2, Forall (fun c => match c with AInit _ => True | _ => False end) t1 -> applied_at_once t2 -> applied_at_once (t1 ++ t2)).
        { intros t1 t2 F. induction F as [|[] ? ? ? IH]; simpl; tauto. }
        apply Hao; [eapply forall_to; [exact T1|]; by intros []|]. destruct (decide (d_phase d1 = Started)); [|by destruct H2 as (->&_)].
        destruct H2 as (_&_&o2&_&H2). destruct (co_event o2) eqn:Eo.
        -- destruct H2 as (o3&->). simpl. by rewrite Eo.
        -- subst tr1. simpl. by rewrite Eo.
      * rewrite !Forall_app. split_and!.
        -- eapply forall_to; [by apply Cm1|]. intros []; simpl; tauto.
        -- destruct (decide (d_phase d1 = Started)); [destruct H2 as (->&_)|destruct H2 as (_&->&_)]; repeat constructor. tauto.
        -- repeat constructor. tauto.
  - (* replicated *)
    assert (Ee2 : d_ephemeral d2 = false) by by rewrite (same_ephemeral _ _ Ss2).
    assert (Sz2 : d_stashed d2 = []) by by rewrite S2.
    apply run_replication_ext in H3; [|done|done].
    destruct H3 as (S3&P3&Z3&rt1&tk&body&rt3&mt3&tr3&ms3&X3&G1'&G2&Tk3&G3&G4&L3&Sv3&O3&A3&M3&r&Mr&Hr&Hcase).
    assert (Hps : ps = omap (event_proposal codec (d_id d1)) tr1).
    { destruct (decide (d_phase d1 = Started)); [by destruct H2 as (_&_&o2&_&->)|by destruct H2 as (->&_&->)]. }
    assert (Hlog1 : omap from_log tr1 = []).
    { destruct (decide (d_phase d1 = Started)); [by destruct H2 as (_&_&o2&->&_)|by destruct H2 as (->&_&_)]. }
    assert (Ss3 : same d1 d3) by by eapply same_trans.
    assert (Hpr : omap (event_proposal codec (d_id d1)) tr3 = []) by (apply omap_none; none).
    assert (Hcm3 : omap command_of tr3 = []) by (apply omap_none; none).
    set (rt := rt0 ++ map KPropose (d_proposals d2) ++ rt1 ++ tk ++ body ++ rt3) in *.
    pose proof (ext_trans _ _ _ _ _ _ _ _ _ _ _ X12 X3) as X. rewrite <- !app_assoc in X.
    fold rt in X.
    assert (Hpp : omap proposal_of (map KPropose (d_proposals d2)) = d_proposals d2).
    { generalize (d_proposals d2). induction l as [|? ? IH]; [done|]. simpl. f_equal. exact IH. }
    assert (Htk : omap proposal_of tk = [] /\ handed tk = []) by (destruct Tk3 as [(->&_)|(->&_)]; done).
    assert (Hrp : omap proposal_of rt = d_proposals d2).
    { unfold rt. rewrite !omap_app, N01, Hpp. destruct Htk as [-> _].
      rewrite (omap_none proposal_of rt1), (omap_none proposal_of body), (omap_none proposal_of rt3); [|none|none|].
      - simpl. by rewrite app_nil_r.
      - eapply forall_to; [exact G1'|]. by intros []. }
    assert (Hrh : handed rt = handed body).
    { unfold rt. rewrite !handed_app, N02. destruct Htk as [_ ->].
      rewrite (handed_none (map _ _)), (handed_none rt1), (handed_none rt3); [|none|eapply forall_to; [exact G1'|]; by intros []|].
      - simpl. by rewrite app_nil_r.
      - rewrite Forall_map. by apply Forall_true. }
    assert (Hrk : ticks rt = ticks tk).
    { unfold rt, ticks. rewrite !omap_app, !app_length. unfold ticks in N03. rewrite N03.
      rewrite (omap_none tick_of (map _ _)), (omap_none tick_of rt1), (omap_none tick_of body), (omap_none tick_of rt3); 
        [|none|none|eapply forall_to; [exact G1'|]; by intros []|].
      - simpl. lia.
      - rewrite Forall_map. by apply Forall_true. }
    assert (Hhd : forall {A} (a b : A) (f : A), match rt with KInit _ _ _ :: _ => a | _ => b end = match rt0 with KInit _ _ _ :: _ => a | _ => b end).
    { intros A a b _. unfold rt. destruct rt0 as [|[] rt0]; try done. simpl.
      destruct (d_proposals d2) as [|p ps']; [|done]. simpl.
      destruct rt1 as [|[] rt1]; try done.
      - simpl. destruct Tk3 as [(->&_)|(->&_)]; [|done]. simpl.
        destruct body as [|[] body]; try done.
        + simpl. destruct rt3 as [|[] rt3]; try done. by inversion G4.
        + by inversion G3.
      - by inversion G1'. }
    assert (Hsp : start_position (d_applied d) rt = start_position (d_applied d) rt0).
    { unfold rt. destruct rt0 as [|[] rt0]; try done. simpl.
      destruct (d_proposals d2) as [|p ps']; [|done]. simpl.
      destruct rt1 as [|[] rt1]; try done.
      - simpl. destruct Tk3 as [(->&_)|(->&_)]; [|done]. simpl.
        destruct body as [|[] body]; try done.
        + simpl. destruct rt3 as [|[] rt3]; try done. by inversion G4.
        + by inversion G3.
      - by inversion G1'. }
    assert (Hknown : consensus_ok rops -> d_actor d3 <> None ->
      ra_initialized rops (d_raft d1).1 = true /\ ra_initialized rops r.1 = true).
    { intros K Ha. assert (Hi : ra_initialized rops (d_raft d1).1 = true).
      { apply (core_init _ C1); [done| |done]. intros Hn. apply Ha. by apply (same_present _ _ Ss3). }
      split; [done|]. apply (moves_init (d_raft d2).1); [done|done|]. by rewrite Rf2. }
    assert (Hstat : consensus_ok rops -> d_actor d3 <> None ->
      d_rstate d3 = get_raft_state rr d3 /\ ms3 = if decide (d_prev d1 = get_raft_state rr d3) then [] else [state_msg (get_raft_state rr d3)]).
    { intros K Ha. destruct (Hknown K Ha) as [_ Hi]. simpl in Hcase. rewrite Hi in Hcase.
      destruct Hcase as (_&ds&Hid&Hcf&[l Hl]&Hrs&Hms).
      assert (Hg : get_raft_state rr ds = get_raft_state rr d3).
      { unfold get_raft_state. rewrite Hl, report_state by done. rewrite Hid, Hcf, (same_id _ _ S3). done. }
      rewrite Hg in *. rewrite V2 in Hms. done. }
    exists rt, (mt0 ++ mt1 ++ mt3 ++ [MTake]), (tr0 ++ tr1 ++ tr3). constructor.
    + constructor; simpl.
      * pose proof (same_context _ _ Ss3) as Hcx. unfold context in Hcx. injection Hcx as E1 E2 E3 E4.
        constructor; simpl.
        -- rewrite E1, (same_id _ _ Ss3). apply C1.
        -- rewrite E2, (same_instant _ _ Ss3). apply C1.
        -- intros Hp. rewrite (same_phase _ _ Ss3) in Hp. apply (core_created _ C1) in Hp. by apply (same_present _ _ Ss3).
        -- intros Hp. apply (same_present _ _ Ss3) in Hp. pose proof (core_absent _ C1 Hp) as (Y1&Y2&Y3&Y4&Y5&Y6).
           rewrite decide_False in H2 by done. destruct H2 as (->&->&->).
           rewrite app_nil_r in P2. rewrite P1 in P2.
           assert (Hp2 : d_phase d2 <> Started) by by rewrite (same_phase _ _ Ss2).
           specialize (Hr P2 Hp2). simpl in Hcase. rewrite Hr, Rf2, Y5 in Hcase.
           destruct Hcase as (Q1&->&->&->&->&->&Q2). specialize (G2 Hp2). subst rt1.
           split_and!.
           ++ by rewrite (same_phase _ _ Ss3).
           ++ pose proof (ext_raft _ _ _ _ _ _ X3) as Q3. rewrite P2 in Q3. simpl in Q3. rewrite app_nil_r in Q3.
              unfold raft_calls in *. simpl. rewrite Q3, Rf2. done.
           ++ by rewrite (same_ephemeral _ _ Ss3).
           ++ rewrite A3. simpl. by rewrite A2.
           ++ by rewrite Q2, Hr, Rf2.
           ++ by rewrite Q1, R2.
        -- intros Ha _. assert (Ha1 : d_actor d1 <> None) by (intros Hn; apply Ha; by apply (same_present _ _ Ss3)).
           destruct (core_present _ C1 Ha1 Ee) as (ld&data&Hh). exists ld, data.
           pose proof (ext_raft _ _ _ _ _ _ X3) as Q3. unfold raft_calls in *. simpl. rewrite Q3, Rf2, (same_id _ _ Ss3).
           by destruct (d_raft d1).2.
        -- rewrite (same_ephemeral _ _ Ss3). congruence.
        -- rewrite (ext_conf _ _ _ _ _ _ X3), (ext_conf _ _ _ _ _ _ X2). simpl. rewrite (core_conf _ C1).
           pose proof (ext_raft _ _ _ _ _ _ X3) as Q3. unfold raft_calls in *. simpl. rewrite Q3, Rf2.
           unfold config_of. by rewrite (foldl_app _ (d_raft d1).2).
        -- intros K Ha _. destruct (Hknown K Ha) as [Hi _]. apply (moves_init (d_raft d2).1); [done|exact (ext_moves _ _ _ _ _ _ X3)|].
           by rewrite Rf2.
      * done.
      * done.
      * done.
      * intros K Ha _. by apply Hstat.
    + apply (ext_raft _ _ _ _ _ _ X).
    + pose proof (ext_comm _ _ _ _ _ _ X) as Hcm. unfold comm_calls in *. simpl. rewrite Hcm. by rewrite <- !app_assoc.
    + apply (ext_app _ _ _ _ _ _ X).
    + simpl. by rewrite (same_instant _ _ Ss3).
    + simpl. intros Hx. rewrite (same_id _ _ Ss3), (same_ephemeral _ _ Ss3), (same_period _ _ Ss3). destruct (St1 Hx) as (?&?&?). split_and!; congruence.
    + intros Hx. unfold rt. rewrite !Forall_app. split_and!; try none.
      * by apply Fi1.
      * rewrite Forall_map. by apply Forall_true.
      * destruct Tk3 as [(->&_)|(->&_)]; by repeat constructor.
    + unfold rt. assert (Hno : Forall (fun c => match c with KInit _ _ _ => False | _ => True end)
        (map KPropose (d_proposals d2) ++ rt1 ++ tk ++ body ++ rt3)).
      { rewrite !Forall_app. split_and!; try none.
        - rewrite Forall_map. by apply Forall_true.
        - destruct Tk3 as [(->&_)|(->&_)]; by repeat constructor. }
      destruct rt0; [simpl; by apply Forall_drop|]. simpl in *. rewrite drop_0 in *. by apply Forall_app.
    + simpl. rewrite (Hhd N) by exact 0. rewrite Hrk, (same_instant _ _ Ss3), (same_period _ _ Ss3), (same_lameduck _ _ Ss3).
      rewrite <- Tk1, <- Tk2. intros K Ha _ _ Hld Hpd. destruct (Hknown K Ha) as [_ Hi]. simpl in Hcase. rewrite Hi in Hcase.
      destruct Hcase as (->&_). unfold due. rewrite (same_lameduck _ _ Ss2), Hld, (same_period _ _ Ss2), (same_instant _ _ Ss2).
      simpl. by apply N.leb_le in Hpd as ->.
    + simpl. intros _. rewrite Hrp, P2, P1, Hps, (same_id _ _ Ss3), !omap_app, N12, Hpr. simpl. by rewrite app_nil_r.
    + simpl. intros _. by rewrite !omap_app, N11, Hlog1, Hrh, O3, (same_id _ _ Ss3), (same_id _ _ Ss2).
    + simpl. intros _. by rewrite A3, A2, A1, Hsp, Hrh.
    + simpl. rewrite (same_id _ _ Ss3), (same_instant _ _ Ss3). intros a cx Hin Hcx.
      apply (Hctx a cx); [|done]. rewrite app_assoc, elem_of_app in Hin. destruct Hin as [Hin|Hin]; [done|].
      unfold log_only in L3. rewrite Forall_forall in L3. specialize (L3 _ Hin). by destruct a.
    + simpl. rewrite (same_phase _ _ Ss3), <- Hcmd, !omap_app, Hcm3. by rewrite app_nil_r.
    + rewrite (ext_msgs _ _ _ _ _ _ X), M0. simpl. rewrite !omap_app, N21. destruct Hwire as [-> _].
      destruct (Hout (outputs tr1)) as [-> _]. destruct (Hout (outputs tr3)) as [-> _].
      assert (Hm3 : omap app_out ms3 = []).
      { destruct (ra_initialized rr r).
        - destruct Hcase as (_&ds&_&_&_&_&Hms). rewrite Hms.
          destruct (decide (d_prev d2 = get_raft_state rr ds)); done.
        - by destruct Hcase as (_&->&_). }
      unfold outputs. rewrite Hm3, !map_app, !concat_app, N14. simpl. by rewrite ?app_nil_r.
    + exact (ext_moves _ _ _ _ _ _ X).
    + exact (ext_amoves _ _ _ _ _ _ X).
    + intros i cf data Hin. simpl.
      assert (Hin3 : KSave i cf data ∈ rt3).
      { unfold rt in Hin. rewrite !elem_of_app in Hin. destruct Hin as [Hin|[Hin|[Hin|[Hin|[Hin|Hin]]]]]; [..|done].
        - rewrite Forall_forall in F1. by specialize (F1 _ Hin).
        - apply elem_of_list_fmap in Hin as (?&?&_). done.
        - rewrite Forall_forall in G1'. by specialize (G1' _ Hin).
        - destruct Tk3 as [(->&_)|(->&_)]; [by apply elem_of_nil in Hin|]. by apply elem_of_list_singleton in Hin.
        - rewrite Forall_forall in G3. by specialize (G3 _ Hin). }
      destruct (Sv3 _ _ _ Hin3) as (->&->&Hst). split; [done|]. split; [|done].
      change (raft_calls (set_messages (set_comm d3 (c, (d_comm d3).2 ++ [MTake])) [])) with (raft_calls d3).
      rewrite (ext_conf _ _ _ _ _ _ X), (ext_raft _ _ _ _ _ _ X), (core_conf _ C0). unfold config_of. by rewrite foldl_app.
    + simpl. rewrite (Hhd N) by exact 0. rewrite Hrk, (same_instant _ _ Ss3), (same_period _ _ Ss3), (same_lameduck _ _ Ss3).
      rewrite <- Tk1, <- Tk2. destruct Tk3 as [(->&->)|(->&Hdue&->)]; [by left|right].
      split; [done|]. unfold due in Hdue. apply andb_true_iff in Hdue as [Hd1 Hd2].
      rewrite (same_lameduck _ _ Ss2) in Hd1. rewrite (same_period _ _ Ss2), (same_instant _ _ Ss2) in Hd2.
      split_and!; [by apply N.leb_le|by rewrite (same_instant _ _ Ss2)|by destruct (d_lameduck d1)].
    + simpl. intros K Ha _. destruct (Hstat K Ha) as [_ Hms]. exists (d_prev d1). split; [exact Hprev|].
      rewrite (ext_msgs _ _ _ _ _ _ X), M0. simpl. rewrite !omap_app, N22. destruct Hwire as [_ ->].
      destruct (Hout (outputs tr1)) as [_ ->]. destruct (Hout (outputs tr3)) as [_ ->]. simpl. rewrite app_nil_r, Hms.
      change (get_raft_state rr (set_messages (set_comm d3 (c, (d_comm d3).2 ++ [MTake])) [])) with (get_raft_state rr d3).
      destruct (decide (d_prev d1 = get_raft_state rr d3)); [done|]. simpl. by destruct (get_raft_state rr d3).
    + rewrite !omap_app, Cl1, M3, (ext_msgs _ _ _ _ _ _ X), M0. simpl. rewrite !omap_app, N22. destruct Hwire as [_ ->].
      destruct (Hout (outputs tr1)) as [_ ->]. destruct (Hout (outputs tr3)) as [_ ->]. simpl. rewrite !app_nil_r.
      assert (Hmt1 : omap cluster_call mt1 = []).
      { destruct (decide (d_phase d1 = Started)); [destruct H2 as (->&_)|destruct H2 as (_&->&_)]; done. }
      change (raft_calls (set_messages (set_comm d3 (c, (d_comm d3).2 ++ [MTake])) [])) with (raft_calls d3).
      assert (Hcf3 : d_conf d3 = config_of (raft_calls d3)).
      { rewrite (ext_conf _ _ _ _ _ _ X), (ext_raft _ _ _ _ _ _ X), (core_conf _ C0). unfold config_of. by rewrite foldl_app. }
      rewrite Hmt1, <- Hcf3. simpl.
      destruct (ra_initialized rr r).
      * destruct Hcase as (_&ds&_&_&_&_&Hms). rewrite Hms. destruct (decide (d_prev d2 = get_raft_state rr ds)); done.
      * by destruct Hcase as (_&->&_).
    + simpl. rewrite (same_ephemeral _ _ Ss3), Ee. done.
Qed.

(** ** Histories *)
Notation rcv := (receive codec rops sops cops app).
Notation hist := (run codec rops sops cops app).
Lemma run_snoc xs : forall d x d2 outs, hist d (xs ++ [x]) = Ok (d2, outs) ->
  exists d1 o1 out, hist d xs = Ok (d1, o1) /\ rcv d1 x = Ok (d2, out) /\ outs = o1 ++ [out].
Proof using.
  induction xs as [|y xs IH]; intros d x d2 outs H; simpl in H.
  - apply bind_ok in H as ([d1 out]&H1&H). injection H as <- <-. exists d, [], out. done.
  - apply bind_ok in H as ([d1 out]&H1&H). apply bind_ok in H as ([d3 o3]&H2&H). injection H as <- <-.
    apply IH in H2 as (d4&o4&out'&H4&H5&->). exists d4, (out :: o4), out'. split_and!; try done.
    simpl. rewrite H1. simpl. by rewrite H4.
Qed.
Lemma run_ok_snoc xs : forall d x d1 o1 d2 out, hist d xs = Ok (d1, o1) -> rcv d1 x = Ok (d2, out) ->
  hist d (xs ++ [x]) = Ok (d2, o1 ++ [out]).
Proof using.
  induction xs as [|y xs IH]; intros d x d1 o1 d2 out H1 H2; simpl in *.
  - injection H1 as <- <-. by rewrite H2.
  - apply bind_ok in H1 as ([d3 o3]&H3&H). apply bind_ok in H as ([d4 o4]&H4&H). injection H as <- <-.
    rewrite H3. simpl. by rewrite (IH _ _ _ _ _ _ H4 H2).
Qed.
Lemma run_app_split xs : forall ys d d2 outs, hist d (xs ++ ys) = Ok (d2, outs) ->
  exists d1 o1 o2, hist d xs = Ok (d1, o1) /\ hist d1 ys = Ok (d2, o2) /\ outs = o1 ++ o2.
Proof using.
  induction xs as [|y xs IH]; intros ys d d2 outs H; simpl in H.
  - by exists d, [], outs.
  - apply bind_ok in H as ([d1 out]&H1&H). apply bind_ok in H as ([d3 o3]&H2&H). injection H as <- <-.
    apply IH in H2 as (d4&o4&o5&H4&H5&->). exists d4, (out :: o4), o5. split_and!; try done.
    simpl. rewrite H1. simpl. by rewrite H4.
Qed.
Lemma inv_fresh r s c : ra_initialized rops r = false -> inv (fresh r s c).
Proof using. intros Hr. constructor; try done. Qed.
Lemma run_inv xs : forall d d' outs, inv d -> hist d xs = Ok (d', outs) -> inv d'.
Proof using.
  induction xs as [|x xs IH]; intros d d' outs I H; simpl in H; [by injection H as <- <-|].
  apply bind_ok in H as ([d1 out]&H1&H). apply bind_ok in H as ([d2 o2]&H2&H). injection H as <- <-.
  eapply IH; [|exact H2]. destruct (receive_call _ _ _ _ I H1) as (rt&mt&tr&Hc). apply Hc.
Qed.
Lemma now_snoc (xs : list (delivery REQ RESP)) x : now (xs ++ [x]) = N.max (now xs) x.1.
Proof using. unfold now. rewrite map_app. induction (map fst xs) as [|y l IH]; simpl; [lia|]. simpl in *. lia. Qed.

Record history d : Prop := History {
  hist_inv : inv d;
  hist_proposals : d_ephemeral d = false -> omap proposal_of (raft_calls d) = omap (event_proposal codec (d_id d)) (app_calls d);
  hist_log : d_ephemeral d = false -> omap from_log (app_calls d) = concat (map (expected (d_id d)) (handed (raft_calls d)));
  hist_applied : d_ephemeral d = false -> d_applied d = foldl after (start_of (raft_calls d)) (handed (raft_calls d));
  hist_at_once : d_ephemeral d = true -> applied_at_once (app_calls d);
  hist_actor : forall a, d_actor d = Some a -> called_as_recorded app a;
}.
Lemma at_once_app t1 : forall t2, applied_at_once t1 -> applied_at_once t2 -> applied_at_once (t1 ++ t2).
Proof using.
  assert (Hn : forall n t1 t2, (length t1 <= n)%nat -> applied_at_once t1 -> applied_at_once t2 -> applied_at_once (t1 ++ t2)).
  { induction n as [|n IH]; intros s1 t2 Hl H1 H2.
    - destruct s1; [done|]. simpl in Hl. lia.
    - destruct s1 as [|[] s1]; simpl in *; try done.
      + apply IH; [lia|done|done].
      + destruct (co_event out); [|apply IH; [lia|done|done]].
        destruct s1 as [|[] s1]; try done. simpl in *. destruct H1 as (?&?&?). split_and!; try done. apply IH; [lia|done|done]. }
  intros t2. by apply (Hn (length t1)).
Qed.

Lemma created_empty d : inv d -> d_phase d = Created -> d_actor d = None /\ raft_calls d = [] /\ app_calls d = [] /\ d_ephemeral d = false /\ d_applied d = 0.
Proof using.
  intros [C _ _ _ _] H. pose proof (core_created _ C H) as Ha. destruct (core_absent _ C Ha) as (_&?&?&?&_).
  split_and!; try done. unfold app_calls. by rewrite Ha.
Qed.
Lemma history_fresh r s c : ra_initialized rops r = false -> history (fresh r s c).
Proof using. intros H. constructor; try done. Qed.
Lemma history_step d x d' out : history d -> rcv d x = Ok (d', out) -> history d'.
Proof using.
  intros [I P L A O Q] H. destruct (receive_call _ _ _ _ I H) as (rt&mt&tr&C).
  assert (Hact : forall a, d_actor d' = Some a -> called_as_recorded app a).
  { intros a Ha. pose proof (call_actor _ _ _ _ _ _ _ C) as R. unfold arel in R.
    rewrite Ha in R. destruct (d_actor d) as [a0|].
    - destruct (Q _ eq_refl) as (cx&st&H1&H2). exists cx, st. split; [done|]. by etrans.
    - done. }
  destruct (decide (d_phase d = Created)) as [E|E].
  - destruct (created_empty _ I E) as (Ha&Hr&Hp&He&Hz).
    constructor; try done; try apply C.
    + intros He'. rewrite (call_raft _ _ _ _ _ _ _ C), (call_app _ _ _ _ _ _ _ C), Hr, Hp. by apply C.
    + intros He'. rewrite (call_raft _ _ _ _ _ _ _ C), (call_app _ _ _ _ _ _ _ C), Hr, Hp. by apply C.
    + intros He'. rewrite (call_applied _ _ _ _ _ _ _ C He'), (call_raft _ _ _ _ _ _ _ C), Hr, Hz. simpl. by destruct rt as [|[] ?].
    + intros He'. rewrite (call_app _ _ _ _ _ _ _ C), Hp. by apply C.
  - destruct (call_started _ _ _ _ _ _ _ C E) as (Ei&Ee&_).
    constructor; try done; try apply C.
    + intros He'. rewrite (call_raft _ _ _ _ _ _ _ C), (call_app _ _ _ _ _ _ _ C), !omap_app, Ei, P by congruence.
      f_equal. rewrite <- Ei. by apply C.
    + intros He'. rewrite (call_raft _ _ _ _ _ _ _ C), (call_app _ _ _ _ _ _ _ C), omap_app, handed_app, map_app, concat_app, Ei, L by congruence.
      f_equal. rewrite <- Ei. by apply C.
    + intros He'. rewrite (call_applied _ _ _ _ _ _ _ C He'), (call_raft _ _ _ _ _ _ _ C), handed_app, foldl_app.
      pose proof (call_first _ _ _ _ _ _ _ C E) as F.
      assert (Hs : start_position (d_applied d) rt = d_applied d) by (destruct F as [|[] ? Hx]; done).
      rewrite Hs, A by congruence. do 2 f_equal. unfold start_of.
      destruct (raft_calls d) as [|c0 t0]; [|done]. destruct F as [|[] ? Hx]; done.
    + intros He'. rewrite (call_app _ _ _ _ _ _ _ C). apply at_once_app; [apply O; congruence|]. by apply C.
Qed.
Lemma run_history xs : forall d d' outs, history d -> hist d xs = Ok (d', outs) -> history d'.
Proof using.
  induction xs as [|x xs IH]; intros d d' outs I H; simpl in H; [by injection H as <- <-|].
  apply bind_ok in H as ([d1 out]&H1&H). apply bind_ok in H as ([d2 o2]&H2&H). injection H as <- <-.
  eapply IH; [|exact H2]. by eapply history_step.
Qed.
Lemma run_instant xs : forall d d' outs, inv d -> hist d xs = Ok (d', outs) -> d_instant d' = N.max (d_instant d) (now xs).
Proof using.
  induction xs as [|x xs IH]; intros d d' outs I H; simpl in H; [injection H as <- <-; unfold now; simpl; lia|].
  apply bind_ok in H as ([d1 out]&H1&H). apply bind_ok in H as ([d2 o2]&H2&H). injection H as <- <-.
  destruct (receive_call _ _ _ _ I H1) as (rt&mt&tr&C).
  rewrite (IH _ _ _ (call_inv _ _ _ _ _ _ _ C) H2), (call_instant _ _ _ _ _ _ _ C). unfold now. simpl. lia.
Qed.

(** The part of a call after the dispatch. *)
Definition later_call (c : raft_call) : Prop :=
  match c with KInit _ _ _ | KProposeChange _ => False | KStep m => rm_type m = MsgSnapshot | _ => True end.
Lemma rest_call d t m d' out : inv d -> rcv d (t, m) = Ok (d', out) -> m <> Some None ->
  exists d1 rest rt,
    match m with Some (Some m) => dispatch codec rr sops rc ra (preset rr d t) m = Ok d1 | _ => d1 = preset rr d t end /\
    d_phase d' = d_phase d1 /\ d_lameduck d' = d_lameduck d1 /\ d_ephemeral d' = d_ephemeral d1 /\ 
    d_id d' = d_id d1 /\ d_tick_period d' = d_tick_period d1 /\
    out = d_messages d1 ++ rest /\ Forall (fun o => ~ plain_answer o) rest /\
    raft_calls d' = raft_calls d1 ++ rt /\ Forall later_call rt.
Proof using.
  intros I H Hm. apply receive_parts in H as (d1&d2&d3&c&ws&H1&H2&H3&_&->&->); [|done].
  assert (Hs : d_stashed d1 = []).
  { destruct m as [[m|]|]; [|done|by subst d1; apply I].
    destruct (is_start m) eqn:Es.
    - destruct m as [q| | | | | | | | | ]; try done. apply process_start_ext in H1 as (_&_&_&_&_&_&_&_&->&_). apply I.
    - apply dispatch_ext in H1; [|done]. destruct H1 as ([]&_). simpl in *. rewrite disp_stashed0. apply I. }
  apply run_app_ext in H2 as (Ss2&Tk2&R2&V2&Rf2&S2&A2&_&mt1&tr1&ps&X2&P2&H2).
  assert (Hw : Forall (fun o => ~ plain_answer o) (map OWire ws)) by (rewrite Forall_map; apply Forall_true; by intros ? []).
  assert (Ho : forall l, Forall (fun o => ~ plain_answer o) (map OApp l)) by (intros; rewrite Forall_map; apply Forall_true; by intros ? []).
  destruct (d_ephemeral d2) eqn:Ee.
  - unfold run_replication in H3. rewrite Ee in H3. injection H3 as <-.
    exists d1, (map OApp (outputs tr1) ++ map OWire ws), []. split; [done|]. destruct Ss2. simpl. split_and!; try congruence; try done.
    + rewrite (ext_msgs _ _ _ _ _ _ X2). by rewrite <- app_assoc.
    + apply Forall_app. split; done.
    + unfold raft_calls. simpl. by rewrite Rf2, app_nil_r.
  - apply run_replication_ext in H3; [|done|by rewrite S2].
    destruct H3 as (S3&P3&Z3&rt1&tk&body&rt3&mt3&tr3&ms3&X3&G1'&G2&Tk3&G3&G4&L3&Sv3&O3&A3&M3&r&Mr&Hr&Hcase).
    exists d1, (map OApp (outputs tr1) ++ map OApp (outputs tr3) ++ ms3 ++ map OWire ws),
      (map KPropose (d_proposals d2) ++ rt1 ++ tk ++ body ++ rt3).
    pose proof (same_trans _ _ _ Ss2 S3) as []. simpl. split_and!; try congruence; try done.
    + rewrite (ext_msgs _ _ _ _ _ _ X3), (ext_msgs _ _ _ _ _ _ X2). by rewrite <- !app_assoc.
    + rewrite !Forall_app. split_and!; try done. destruct (ra_initialized rr r).
      * destruct Hcase as (_&ds&_&_&_&_&Hms). rewrite Hms. destruct (decide (d_prev d2 = get_raft_state rr ds)); by repeat constructor; intros [].
      * by destruct Hcase as (_&->&_).
    + pose proof (ext_raft _ _ _ _ _ _ X3) as Q3. unfold raft_calls in *. simpl. by rewrite Q3, Rf2.
    + rewrite !Forall_app. split_and!.
      * rewrite Forall_map. by apply Forall_true.
      * eapply forall_to; [exact G1'|]. by intros [].
      * destruct Tk3 as [(->&_)|(->&_)]; by repeat constructor.
      * eapply forall_to; [exact G3|]. by intros [].
      * eapply forall_to; [exact G4|]. by intros [].
Qed.
(** The internal description of what is handed over is that of the specification. *)
Lemma entry_le_sorted es : StronglySorted (fun a b => re_index a <= re_index b) (merge_sort entry_le es).
Proof using.
  assert (T : Transitive entry_le) by (unfold entry_le; intros ???; lia).
  assert (T2 : Total entry_le) by (unfold entry_le; intros ??; lia).
  apply (StronglySorted_merge_sort entry_le es).
Qed.
Lemma expected_over id os : hands_over codec id os (concat (map (expected id) os)).
Proof using.
  induction os as [|[s|es] os IH]; simpl; [constructor|by constructor|].
  econstructor; [apply merge_sort_Permutation|apply entry_le_sorted|done].
Qed.
Lemma sorted_last l : forall pos, StronglySorted (fun a b => re_index a <= re_index b) l -> Forall (fun e => pos <= re_index e) l ->
  last_index pos l = foldr (fun e p => N.max (re_index e) p) pos l.
Proof using.
  induction l as [|e l IH]; intros pos Hs Hf; simpl; [done|].
  apply StronglySorted_inv in Hs as [Hs He]. inversion_clear Hf as [|? ? H1 H2].
  assert (E : foldr (fun e p => N.max (re_index e) p) pos l = foldr (fun e p => N.max (re_index e) p) pos l) by done.
  unfold last_index in *. simpl.
  assert (Hm : forall q, q <= re_index e -> Forall (fun x => q <= re_index x) l -> foldr (fun e p => N.max (re_index e) p) (re_index e) l = N.max (re_index e) (foldr (fun e p => N.max (re_index e) p) q l)).
  { clear. intros q Hq Hf. induction Hf as [|y l Hy _ IH]; simpl; lia. }
  rewrite <- (Hm pos) by done. apply IH; [done|]. exact He.
Qed.
Lemma max_perm l l' pos : l ≡ₚ l' -> foldr (fun e p => N.max (re_index e) p) pos l = foldr (fun e p => N.max (re_index e) p) pos l'.
Proof using. induction 1; simpl; lia. Qed.
Lemma after_position os : forall pos, in_order_from pos os -> foldl after pos os = position pos os.
Proof using.
  induction os as [|[s|es] os IH]; intros pos H; simpl in *; [done|by apply IH; destruct H|].
  destruct H as (_&H1&H2). rewrite sorted_last; [|apply entry_le_sorted|].
  - rewrite (max_perm _ es) by apply merge_sort_Permutation. by apply IH.
  - rewrite merge_sort_Permutation. eapply Forall_impl; [exact H1|]. simpl. lia.
Qed.

(** ** Life of a replica *)
Lemma receive_unset d t : rcv d (t, Some None) = Ok (preset rr d t, []).
Proof using. done. Qed.
Definition lifts (m : option (option (host_in REQ RESP))) (p : driver_phase) : driver_phase :=
  match m with Some (Some (HStart _)) => Started | Some (Some HStop) => Stopped | _ => p end.
Lemma phase_step d t m d' out : inv d -> rcv d (t, m) = Ok (d', out) ->
  d_phase d' = lifts m (d_phase d) /\ (forall q, m = Some (Some (HStart q)) -> d_phase d = Created) /\
  d_lameduck d' = d_lameduck d || (match m with Some (Some HLameduck) => true | _ => false end) /\
  (d_phase d' = Created -> d_tick_period d' = d_tick_period d).
Proof using.
  intros I H. assert (Hm : m = Some None \/ m <> Some None) by (destruct m as [[]|]; [by right|by left|by right]).
  destruct Hm as [->|Hm].
  { injection H as <- <-. simpl. by rewrite orb_false_r. }
  apply rest_call in H as (d1&rest&rt&H&Hp&Hl&He&Hid&Hper&_); [|done|done].
  destruct m as [[m|]|]; [|done|].
  - destruct (is_start m) eqn:Es.
    + destruct m as [q| | | | | | | | | ]; try done. apply process_start_ext in H as (P1&_&P2&_&_&_&P3&_).
      split_and!; simpl in *; try congruence; try by rewrite orb_false_r; congruence. 
    + pose proof H as H'. apply dispatch_ext in H; [|done]. destruct H as ([]&_&Hl'&Hp'&_). simpl in *.
      split_and!; try congruence.
      * rewrite Hp, Hp'. by destruct m.
      * intros q [= ->]. done.
      * rewrite Hl, Hl'. by destruct m.
  - subst d1. simpl in *. rewrite orb_false_r. done.
Qed.
Lemma delivered_snoc (m : host_in REQ RESP) xs x : delivered m (xs ++ [x]) <-> delivered m xs \/ x.2 = Some (Some m).
Proof using.
  unfold delivered. split.
  - intros [t Ht]. rewrite elem_of_app, elem_of_list_singleton in Ht. destruct Ht as [Ht|<-]; eauto.
  - intros [[t Ht]|Hx]; [exists t|exists x.1]; rewrite elem_of_app, elem_of_list_singleton; [by left|right].
    destruct x. simpl in *. by subst.
Qed.
Notation born := (reaches codec rops sops cops app).
Lemma born_inv r s c xs d outs : born r s c xs d outs -> inv d.
Proof using. intros [Hr H]. eapply run_inv; [|exact H]. by apply inv_fresh. Qed.
Lemma born_history r s c xs d outs : born r s c xs d outs -> history d.
Proof using. intros [Hr H]. eapply run_history; [|exact H]. by apply history_fresh. Qed.
Lemma born_now r s c xs d outs : born r s c xs d outs -> d_instant d = now xs.
Proof using. intros [Hr H]. rewrite (run_instant _ _ _ _ (inv_fresh r s c Hr) H). simpl. lia. Qed.
Lemma born_snoc r s c xs x d outs : born r s c (xs ++ [x]) d outs ->
  exists d1 o1 out, born r s c xs d1 o1 /\ rcv d1 x = Ok (d, out) /\ outs = o1 ++ [out].
Proof using. intros [Hr H]. apply run_snoc in H as (d1&o1&out&H1&H2&->). exists d1, o1, out. by split_and!. Qed.
Lemma born_next r s c xs x d outs d' out : born r s c xs d outs -> rcv d x = Ok (d', out) -> born r s c (xs ++ [x]) d' (outs ++ [out]).
Proof using. intros [Hr H] H2. split; [done|]. by eapply run_ok_snoc. Qed.

Record life (xs : list (delivery REQ RESP)) d : Prop := Life {
  life_stopped : d_phase d = Stopped <-> delivered HStop xs;
  life_started : d_phase d = Started -> exists q, delivered (HStart q) xs;
  life_created : d_phase d = Created -> (forall q, ~ delivered (HStart q) xs) /\ d_tick_period d = 100;
  life_lameduck : d_lameduck d = true <-> delivered HLameduck xs;
  life_request : forall q, delivered (HStart q) xs ->
    d_id d = sr_id q /\ d_ephemeral d = sr_ephemeral q /\ d_actor d <> None /\
    if sr_ephemeral q then raft_calls d = []
    else d_tick_period d = period q /\ exists data, head (raft_calls d) = Some (KInit (sr_id q) (sr_leader q) data);
  life_none : (forall q, ~ delivered (HStart q) xs) -> d_actor d = None;
}.
Lemma born_life r s c xs : forall d outs, born r s c xs d outs -> life xs d.
Proof using.
  induction xs as [|x xs IH] using rev_ind; intros d outs H.
  - destruct H as [Hr [= <- <-]]. unfold fresh. constructor; simpl; try done.
    + split; [done|]. intros [t Ht]. by apply elem_of_nil in Ht.
    + intros _. split; [|done]. intros q [t Ht]. by apply elem_of_nil in Ht.
    + split; [done|]. intros [t Ht]. by apply elem_of_nil in Ht.
    + intros q [t Ht]. by apply elem_of_nil in Ht.
  - apply born_snoc in H as (d1&o1&out&B&H&->). specialize (IH _ _ B). destruct x as [t m].
    pose proof (born_inv _ _ _ _ _ _ B) as I.
    destruct (phase_step _ _ _ _ _ I H) as (Hp&Hq&Hl&Hper).
    destruct (receive_call _ _ _ _ I H) as (rt&mt&tr&C).
    destruct IH as [L1 L2 L3 L4 L5 L6].
    constructor.
    + rewrite Hp, delivered_snoc. simpl. destruct m as [[m|]|]; simpl; [|rewrite L1; naive_solver..].
      destruct m; simpl; try (rewrite L1; naive_solver).
      * split; [done|]. intros [Hs|?]; [|done]. apply L1 in Hs. by rewrite (Hq _ eq_refl) in Hs.
      * split; [by right|done].
    + intros Hs. rewrite Hp in Hs. destruct m as [[[q| | | | | | | | | ]|]|]; simpl in Hs;
        try done; try (destruct (L2 Hs) as [q' Hq']; exists q'; apply delivered_snoc; by left).
      exists q. apply delivered_snoc. by right.
    + intros Hs. split; [|rewrite Hper by done; apply L3; rewrite Hp in Hs; by destruct m as [[[]|]|]].
      intros q Hd. apply delivered_snoc in Hd. rewrite Hp in Hs.
      destruct Hd as [Hd|Hd]; [|by simpl in Hd; subst m].
      assert (Hs' : d_phase d1 = Created) by by destruct m as [[[]|]|]. destruct (L3 Hs') as [Hn _]. by apply (Hn q).
    + rewrite Hl, delivered_snoc, orb_true_iff, L4. simpl. destruct m as [[[]|]|]; naive_solver.
    + intros q Hd. apply delivered_snoc in Hd. simpl in Hd.
      assert (Hm : (exists q', m = Some (Some (HStart q'))) \/ forall q', m <> Some (Some (HStart q'))).
      { destruct m as [[[]|]|]; [left; by eexists|right..]; done. }
      destruct Hm as [[q' ->]|Hm].
      * pose proof (Hq _ eq_refl) as Hc. destruct (L3 Hc) as [Hn Hper'].
        destruct Hd as [Hd|[= ->]]; [by destruct (Hn q)|].
        destruct (created_empty _ I Hc) as (_&Hrc&_).
        apply rest_call in H as (d2&rest&rt2&H&Hp2&Hl2&He2&Hid2&Hpe2&_&_&Hr2&_); [|done|done].
        simpl in H. apply process_start_ext in H as (_&_&_&E1&E2&_&_&_&_&_&_&_&_&_&_&H).
        split_and!; [by rewrite Hid2|by rewrite He2| |].
        { intros Hn'. pose proof (core_absent _ (inv_core _ (call_inv _ _ _ _ _ _ _ C)) Hn') as (Hx&_).
          by rewrite Hp in Hx. }
        destruct (sr_ephemeral q).
        -- apply (core_ephemeral _ (inv_core _ (call_inv _ _ _ _ _ _ _ C))). by rewrite He2.
        -- destruct H as (data&r0&n&st&_&_&_&Hr&_&_&Hpe&_). rewrite Hpe2, Hpe. split.
           ++ unfold period_of, period. simpl. rewrite Hper'. done.
           ++ exists data. rewrite Hr2. unfold raft_calls at 1. rewrite Hr. simpl. fold (raft_calls d1). by rewrite Hrc.
      * destruct Hd as [Hd|Hd]; [|by destruct (Hm q)]. destruct (L5 _ Hd) as (E1&E2&E3&E4).
        assert (Hc : d_phase d1 <> Created) by (intros Hc; destruct (L3 Hc) as [Hn _]; by apply (Hn q)).
        destruct (call_started _ _ _ _ _ _ _ C Hc) as (F1&F2&F3).
        split_and!; try congruence.
        { intros Hn'. pose proof (call_actor _ _ _ _ _ _ _ C) as A. unfold arel in A. rewrite Hn' in A. by destruct (d_actor d1). }
        destruct (sr_ephemeral q).
        -- apply (core_ephemeral _ (inv_core _ (call_inv _ _ _ _ _ _ _ C))). congruence.
        -- destruct E4 as [E4 (data&E5)]. split; [congruence|]. exists data. rewrite (call_raft _ _ _ _ _ _ _ C).
           by destruct (raft_calls d1).
    + intros Hn. assert (Hm : forall q', m <> Some (Some (HStart q'))).
      { intros q' ->. apply (Hn q'). apply delivered_snoc. by right. }
      assert (Hn' : d_actor d1 = None) by (apply L6; intros q Hd; apply (Hn q), delivered_snoc; by left).
      clear C. assert (Hm0 : m = Some None \/ m <> Some None) by (destruct m as [[]|]; [by right|by left|by right]).
      destruct Hm0 as [->|Hm0].
      { injection H as <- <-. done. }
      apply receive_parts in H as (e1&e2&e3&c0&ws&H1&H2&H3&_&->&->); [|done].
      assert (N1 : d_actor e1 = None /\ d_phase e1 <> Started).
      { destruct (core_absent _ (inv_core _ I) Hn') as (Hph&_).
        destruct m as [[m|]|]; [|done|by subst e1].
        destruct (is_start m) eqn:Es; [by destruct m; [destruct (Hm r0)|..]|].
        apply dispatch_ext in H1; [|done]. destruct H1 as ([]&_&_&Hph'&_). simpl in *.
        split; [congruence|]. rewrite Hph'. by destruct (is_stop m). }
      destruct N1 as [N1 N2].
      apply run_app_ext in H2 as (Ss2&Tk2&R2&V2&Rf2&S2&A2&_&mt1&tr1&ps&X2&P2&H2).
      apply (same_present _ _ Ss2) in N1. simpl.
      destruct (d_ephemeral e2) eqn:Ee.
      { unfold run_replication in H3. rewrite Ee in H3. by injection H3 as <-. }
      apply run_replication_ext in H3; [|done|].
      { destruct H3 as (S3&_). by apply (same_present _ _ S3). }
      rewrite S2. destruct m as [[m|]|]; [|done|by subst e1; apply I].
      destruct (is_start m) eqn:Es; [by destruct m; [destruct (Hm r0)|..]|].
      apply dispatch_ext in H1; [|done]. destruct H1 as ([]&_). simpl in *. rewrite disp_stashed0. apply I.
Qed.
Lemma born_start_of r s c xs d outs q : born r s c xs d outs -> delivered (HStart q) xs -> sr_ephemeral q = false ->
  start_of (raft_calls d) = start_index q.
Proof using.
  intros B Hd He. destruct (life_request _ _ (born_life _ _ _ _ _ _ B) _ Hd) as (_&_&_&H). rewrite He in H.
  destruct H as (_&data&Hh). unfold start_of. rewrite Hh. done.
Qed.

(** ** The clock *)
Lemma clock_of d x d' out rt : inv d -> rcv d x = Ok (d', out) -> raft_calls d' = raft_calls d ++ rt ->
  (Exists clock_call rt -> d_tick_instant d' = d_instant d') /\ (~ Exists clock_call rt -> d_tick_instant d' = d_tick_instant d).
Proof using.
  intros I H Hrt. destruct (receive_call _ _ _ _ I H) as (rt'&mt&tr&C).
  rewrite (call_raft _ _ _ _ _ _ _ C) in Hrt. apply app_inv_head in Hrt as ->.
  assert (Hh : (exists i l dt tl, rt = KInit i l dt :: tl) \/ Forall (fun c => match c with KInit _ _ _ => False | _ => True end) rt).
  { pose proof (call_inits _ _ _ _ _ _ _ C) as Hi. destruct rt as [|k rt]; [by right|]. simpl in Hi. rewrite drop_0 in Hi.
    destruct k; [left; by eauto|right; by constructor..]. }
  assert (Ht : ticks rt = O -> Forall (fun c => c <> KTick) rt).
  { unfold ticks. clear. induction rt as [|[] rt IH]; simpl; intros Ht; try done; constructor; try done; by apply IH. }
  pose proof (call_ticks _ _ _ _ _ _ _ C) as Ck. simpl in Ck.
  destruct Hh as [(i&l&dt&tl&->)|Hno].
  - split.
    + intros _. destruct Ck as [(_&->)|(_&_&->&_)]; done.
    + intros Hn. destruct Hn. by left.
  - assert (Hm : match rt with KInit _ _ _ :: _ => d_instant d' | _ => d_tick_instant d end = d_tick_instant d).
    { destruct Hno as [|[] ? ?]; done. }
    rewrite Hm in Ck. split.
    + intros He. destruct Ck as [(Hz&_)|(_&_&->&_)]; [|done]. exfalso. specialize (Ht Hz).
      apply Exists_exists in He as (k&Hin&Hk). rewrite Forall_forall in Ht, Hno. specialize (Ht _ Hin). specialize (Hno _ Hin).
      by destruct k.
    + intros Hn. destruct Ck as [(_&->)|(Hone&_)]; [done|]. exfalso. apply Hn.
      unfold ticks in Hone. clear -Hone. induction rt as [|k rt IH]; [done|].
      destruct k; simpl in Hone; try (by left); right; by apply IH.
Qed.
Lemma last_advance_instant r s c xs t : ra_initialized rops r = false ->
  last_advance codec rops sops cops app (fresh r s c) xs t -> forall d outs, born r s c xs d outs -> d_tick_instant d = t.
Proof using.
  intros Hr. induction 1 as [xs x d o d' out rt H1 H2 Hrt Hex|xs x t d o d' out rt _ IH H1 H2 Hrt Hex]; intros d2 o2 B.
  - pose proof (born_now _ _ _ _ _ _ B) as Hnow. apply born_snoc in B as (d1&o1&out'&B&H3&->).
    pose proof B as [_ B']. rewrite H1 in B'. injection B' as <- <-. rewrite H2 in H3. injection H3 as <- <-.
    rewrite <- Hnow. eapply clock_of; [by eapply born_inv|done..].
  - apply born_snoc in B as (d1&o1&out'&B&H3&->).
    pose proof B as [_ B']. rewrite H1 in B'. injection B' as <- <-. rewrite H2 in H3. injection H3 as <- <-.
    rewrite <- (IH _ _ B). eapply clock_of; [by eapply born_inv|done..].
Qed.

(** ** Lemmas for the theorems *)
Definition index_of (x : bytes + event_context * actor_event) : option N :=
  match x with inr (cx, _) => Some (ec_index cx) | inl _ => None end.
Lemma indices_from_log (t : list app_call) : omap index_of (omap from_log t) = omap event_index t.
Proof using. induction t as [|[] t IH]; simpl; [done|exact IH|exact IH|exact IH|]. f_equal. exact IH. Qed.
Lemma batch_increases id l pos top : StronglySorted (fun a b => re_index a <= re_index b) l -> NoDup (map re_index l) ->
  Forall (fun e => pos < re_index e <= top) l ->
  let is := omap index_of (map inr (omap (event_of_entry codec id) l)) in
  StronglySorted N.lt is /\ Forall (fun i => pos < i <= top) is.
Proof using.
  intros Hs Hn Hf. assert (Hi : forall e x, event_of_entry codec id e = Some x -> ec_index x.1 = re_index e).
  { intros e x. unfold event_of_entry. destruct (re_data e); [done|]. destruct (re_type e); try done;
      destruct (dec_entry codec _) as [[[]]|]; try done; intros [= <-]; done. }
  induction Hs as [|e l Hs IH He]; [by repeat constructor|].
  simpl in Hn. apply NoDup_cons in Hn as [Hni Hn]. inversion_clear Hf as [|? ? Hp Hf'].
  specialize (IH Hn Hf'). simpl in *. destruct (event_of_entry codec id e) as [x|] eqn:Ex; [|done].
  simpl. destruct x as [cx ev]. pose proof (Hi _ _ Ex) as Hx. simpl in Hx. rewrite Hx.
  destruct IH as [IH1 IH2]. split; [|by constructor]. constructor; [done|].
  apply Forall_forall. intros i Hin. apply elem_of_list_omap in Hin as (y&Hy&Hiy).
  apply elem_of_list_fmap in Hy as (z&->&Hz). apply elem_of_list_omap in Hz as (e'&He'&Hz). apply Hi in Hz.
  destruct z as [cx' ev']. simpl in *. injection Hiy as <-. rewrite Hz.
  rewrite Forall_forall in He. specialize (He _ He'). assert (re_index e <> re_index e'); [|lia].
  intros E. apply Hni. rewrite E. apply elem_of_list_fmap. by exists e'.
Qed.
Lemma max_bounds es pos : pos <= foldr (fun e p => N.max (re_index e) p) pos es /\
  Forall (fun e => re_index e <= foldr (fun e p => N.max (re_index e) p) pos es) es.
Proof using.
  induction es as [|e es [IH1 IH2]]; simpl; [split; [lia|constructor]|]. split; [lia|]. constructor; [lia|].
  eapply Forall_impl; [exact IH2|]. simpl. intros; lia.
Qed.
Lemma position_above os : forall pos, in_order_from pos os -> pos <= position pos os.
Proof using.
  induction os as [|[s|es] os IH]; intros pos H; simpl in *; [lia| |].
  - destruct H as [H1 H2]. apply IH in H2. lia.
  - destruct H as (_&_&H). apply IH in H. pose proof (max_bounds es pos) as [? _]. lia.
Qed.
Lemma sorted_app (l1 l2 : list N) : (forall x1 x2, x1 ∈ l1 -> x2 ∈ l2 -> x1 < x2) -> StronglySorted N.lt l1 -> StronglySorted N.lt l2 ->
  StronglySorted N.lt (l1 ++ l2).
Proof using.
  intros Hx H1 H2. induction H1 as [|a l1 _ IH Ha]; simpl; [done|]. constructor.
  - apply IH. intros x1 x2 I1 I2. apply Hx; [by apply elem_of_cons; right|done].
  - apply Forall_app. split; [done|]. apply Forall_forall. intros y Hy. apply Hx; [by apply elem_of_cons; left|done].
Qed.
Lemma over_increases id os l : hands_over codec id os l -> forall pos, in_order_from pos os ->
  StronglySorted N.lt (omap index_of l) /\ Forall (fun i => pos < i <= position pos os) (omap index_of l).
Proof using.
  induction 1 as [|s os l _ IH|es sorted os l Hp Hs _ IH]; intros pos Ho; simpl in *; [by repeat constructor| |].
  - destruct Ho as [H1 H2]. specialize (IH _ H2) as [IH1 IH2]. split; [done|]. eapply Forall_impl; [exact IH2|]. simpl. intros; lia.
  - destruct Ho as (Hn&Hf&Ho). set (top := foldr (fun e p => N.max (re_index e) p) pos es) in *.
    specialize (IH _ Ho) as [IH1 IH2]. pose proof (max_bounds es pos) as [Hb1 Hb2]. fold top in Hb1, Hb2.
    pose proof (position_above _ _ Ho) as Hab.
    destruct (batch_increases id sorted pos top) as [B1 B2]; [done|by rewrite Hp| |].
    { rewrite Hp. apply Forall_forall. intros e He. rewrite Forall_forall in Hf, Hb2. split; [by apply Hf|by apply Hb2]. }
    rewrite omap_app. split.
    + apply sorted_app; [|done|done]. intros x1 x2 H1 H2. rewrite Forall_forall in B2, IH2.
      specialize (B2 _ H1). specialize (IH2 _ H2). lia.
    + apply Forall_app. split; (eapply Forall_impl; [eassumption|]); simpl; intros; lia.
Qed.
Lemma over_member id os l es e x : hands_over codec id os l -> inr es ∈ os -> e ∈ es -> event_of_entry codec id e = Some x ->
  inr x ∈ l.
Proof using.
  induction 1 as [|s os l _ IH|es' sorted os l Hp Hs _ IH]; intros Hes He Hx.
  - by apply elem_of_nil in Hes.
  - apply elem_of_cons in Hes as [?|Hes]; [done|]. apply elem_of_cons. right. by apply IH.
  - apply elem_of_app. apply elem_of_cons in Hes as [[= <-]|Hes]; [left|right; by apply IH].
    apply elem_of_list_fmap. exists x. split; [done|]. apply elem_of_list_omap. exists e. by rewrite Hp.
Qed.
Lemma over_source id os l x : hands_over codec id os l -> inr x ∈ l ->
  exists es e, inr es ∈ os /\ e ∈ es /\ event_of_entry codec id e = Some x.
Proof using.
  induction 1 as [|s os l _ IH|es' sorted os l Hp Hs _ IH]; intros Hin.
  - by apply elem_of_nil in Hin.
  - apply elem_of_cons in Hin as [?|Hin]; [done|]. destruct (IH Hin) as (es&e&?&?&?). exists es, e. rewrite elem_of_cons. auto.
  - apply elem_of_app in Hin as [Hin|Hin].
    + apply elem_of_list_fmap in Hin as (y&[= <-]&Hy). apply elem_of_list_omap in Hy as (e&He&Hy).
      rewrite Hp in He. exists es', e. rewrite elem_of_cons. auto.
    + destruct (IH Hin) as (es&e&?&?&?). exists es, e. rewrite elem_of_cons. auto.
Qed.
Lemma get_state_ext d d' : dispatch codec rr sops rc ra d HGetState = Ok d' -> d_phase d = Started /\
  d_messages d' = d_messages d ++ [if d_ephemeral d then OState 0 0 else OState (d_applied d) (ra_snapshot_size rops (d_raft d).1)].
Proof using.
  simpl. unfold process_get_state, check_phase. destruct (decide (d_phase d = Started)); [|done]. simpl.
  destruct (d_ephemeral d); intros [= <-]; done.
Qed.
Lemma answers_none (l : list (host_out REQ RESP)) : Forall (fun o => ~ plain_answer o) l -> omap answer_out l = [].
Proof using. intros H. apply omap_none. eapply forall_to; [exact H|]. intros []; simpl; tauto. Qed.
Lemma refused d t m : d_phase d <> Started ->
  match m with
  | HStart _ => d_phase d <> Created
  | HChange _ | HCheck | HGetState | HHandshake _ => True
  | HPeer p => pm_kind p = KSystem
  | _ => False
  end -> rcv d (t, Some (Some m)) = Err InvalidOperation.
Proof using.
  intros Hp Hm. unfold receive, receive_message. simpl.
  destruct m as [q| | |q| |p| | |h|a]; try done; simpl;
    [unfold process_start|unfold process_change|unfold process_check|rewrite Hm; unfold process_system|unfold process_get_state|unfold process_handshake];
    unfold check_phase; simpl; by rewrite decide_False.
Qed.
Lemma refused_start d t q : d_phase d <> Created -> rcv d (t, Some (Some (HStart q))) = Err InvalidOperation.
Proof using. intros Hp. unfold receive, receive_message. simpl. unfold process_start, check_phase. simpl. by rewrite decide_False. Qed.
Lemma known_state d : inv d -> get_raft_state rr d = known rops (d_id d) (d_raft d).
Proof using. intros I. unfold get_raft_state, known. rewrite (core_conf _ (inv_core _ I)). done. Qed.
Lemma dispatch_raft d m d' : dispatch codec rr sops rc ra d m = Ok d' ->
  match m with HStart _ | HChange _ => False | HPeer p => pm_kind p <> KSystem | _ => True end -> d_raft d' = d_raft d.
Proof using.
  intros H Hm. destruct m as [q| | |q| |p| | |h|a]; try done; simpl in H.
  - unfold process_stop in H. destruct (decide (d_phase d = Stopped)); injection H as <-; done.
  - by injection H as <-.
  - unfold process_check in H. apply bind_ok in H as (?&_&H). apply bind_ok in H as (?&_&H). by injection H as <-.
  - destruct (pm_kind p); [done| |].
    + unfold process_snapshot_request in H. apply bind_ok in H as (?&_&H). apply bind_ok in H as ([c o]&_&H).
      destruct o as [[| |]|]; try done; [|by injection H as <-]. destruct (pm_kind m); try done.
      apply bind_ok in H as (ro&_&H). apply bind_ok in H as ([d2 an]&H2&H). apply bind_ok in H as (c2&_&H). injection H as <-.
      simpl. destruct ro; [apply bind_ok in H2 as (?&_&H2)|apply bind_ok in H2 as ([? ?]&_&H2)]; by injection H2 as <- <-.
    + unfold process_snapshot_response in H. apply bind_ok in H as (?&_&H). apply bind_ok in H as ([c o]&_&H).
      destruct o as [[| |]|]; try done; [|by injection H as <-]. destruct (pm_kind m); try done.
      apply bind_ok in H as (ro&_&H). destruct ro; [apply bind_ok in H as (?&_&H)|]; by injection H as <-.
  - unfold process_snapshot_failure in H. apply bind_ok in H as (?&_&H). apply bind_ok in H as (ro&_&H).
    destruct ro; [apply bind_ok in H as (?&_&H)|]; by injection H as <-.
  - unfold process_get_state in H. apply bind_ok in H as (?&_&H). destruct (d_ephemeral d); by injection H as <-.
  - unfold process_handshake in H. apply bind_ok in H as (?&_&H). apply bind_ok in H as ([? ?]&_&H). by injection H as <-.
  - by injection H as <-.
Qed.
Lemma moves_calls st t st' t' : amoves (st, t) (st', t') ->
  exists l, t' = t ++ l /\ Forall (fun c => match c with AInit _ => False | _ => True end) l.
Proof using.
  remember (st, t) as a eqn:Ea. remember (st', t') as b eqn:Eb. intros H. revert st t Ea st' t' Eb.
  induction H as [x|x y z Hm _ IH]; intros st t Ea st' t' Eb; subst.
  - injection Eb as -> ->. exists []. by rewrite app_nil_r.
  - destruct y as [sy ty]. destruct (IH _ _ eq_refl _ _ eq_refl) as (l&->&Hl).
    inversion Hm; subst; eexists; rewrite <- app_assoc; split; try done; by constructor.
Qed.
End Proofs.
