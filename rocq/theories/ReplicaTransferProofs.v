From Verif Require Import Base StorageModel SnapshotModel SnapshotSpec SnapshotProofs SnapshotRecvProofs SnapshotTraceProofs
  CommModel ActorModel DriverModel DriverSpec DriverProofs ReplicaModel ReplicaTransferSpec.

(** ** The calls of the snapshot processor in a driver *)
Section Accounts.
Context {RS SP CS ST REQ RESP : Type}.
Variable codec : driver_codec.
Variable rops : raft_ops RS.
Variable sops : snap_ops SP.
Variable cops : comm_ops CS REQ RESP.
Variable app : actor ST.
Notation DR := (rdriver RS (SP * list snap_call) CS ST REQ RESP).
Notation rr := (rec_raft rops).
Notation rs := (log_snap sops).
Notation rc := (rec_comm cops).
Notation ra := (rec_actor app).
Implicit Types d : DR.

(** A call of the processor, and the calls since it was made; between a call and the
    next it is in a state in which its role is known, unless it is new. *)
Variable s0 : SP.
Variable live : SP -> Prop.
Definition called (s : SP) (c : snap_call) (s' : SP) : Prop :=
  match c with
  | CInit id cf => sp_init sops s id cf = Ok s'
  | CCluster l t ids g => sp_cluster sops s l t ids = Ok (s', g)
  | CStart to sn => sp_start sops s to sn = Ok s'
  | CNext r => sp_next sops s = Ok (s', r)
  | CResponse i n m => sp_response sops s i n m = Ok s'
  | CSent r => sp_sent sops s = Ok (s', r)
  | CRequest m a => sp_request sops s m = Ok (s', a)
  | CReceived r => sp_received sops s = Ok (s', r)
  end.
Inductive logged : list snap_call -> SP -> Prop :=
| logged_nil : logged [] s0
| logged_snoc l s c s' : logged l s -> (match c with CInit _ _ => True | _ => live s end) -> called s c s' -> logged (l ++ [c]) s'.
Lemma logged_split l1 : forall l2 s, logged (l1 ++ l2) s -> exists s1, logged l1 s1.
Proof using.
  intros l2. induction l2 as [|c l2 IH] using rev_ind; intros s H; [rewrite app_nil_r in H; by exists s|].
  rewrite app_assoc in H. inversion H as [E|l s1 c1 s2 Hl Hc Hcl E]; [symmetry in E; by apply app_nil in E as [_ ?]|]. apply app_inj_tail in E as [-> ->]. by eapply IH.
Qed.
Lemma logged_at l1 c l2 s : logged (l1 ++ c :: l2) s -> exists s1 s2, logged l1 s1 /\ called s1 c s2.
Proof using.
  intros H. rewrite (app_assoc l1 [c] l2 : l1 ++ c :: l2 = (l1 ++ [c]) ++ l2) in H. apply logged_split in H as (s2 & H).
  inversion H as [E|l s1 c1 s3 Hl Hc Hcl E]; [symmetry in E; by apply app_nil in E as [_ ?]|]. apply app_inj_tail in E as [-> ->]. by exists s1, s2.
Qed.
Hypothesis live_role : forall s t r, sp_role sops s t = Ok r -> live s.
Hypothesis live_cluster : forall s l t ids x, sp_cluster sops s l t ids = Ok x -> live s.
Hypothesis live_called : forall s c s', live s -> called s c s' -> live s'.

Definition no_report (c : raft_call) : Prop := match c with KReport _ _ => False | _ => True end.
Definition to_stash d (m : rmsg) : Prop := asked_to_send (raft_calls d) m /\ rm_type m = MsgSnapshot.
Record tied xs d : Prop := Tied {
  ti_calls : forall c, c ∈ snap_calls d -> accounted_for cops xs d c;
  ti_reports : forall r s, KReport r s ∈ raft_calls d -> report_explained d r s;
  ti_stash : forall m, m ∈ d_stashed d -> to_stash d m;
  ti_created : d_phase d = Created -> forall c, c ∈ snap_calls d ->
    match c with CInit _ _ | CReceived _ => False | _ => True end;
  ti_logged : logged (snap_calls d) (d_snap d).1;
}.

Lemma asked_grows t t' m : asked_to_send t m -> asked_to_send (t ++ t') m.
Proof using. intros (c & Hc & H). exists c. split; [|done]. apply elem_of_app. by left. Qed.
Lemma asked_snapshot_grows t t' to sn : asked_for_snapshot t to sn -> asked_for_snapshot (t ++ t') to sn.
Proof using. intros (m & Hm & H). exists m. split; [by apply asked_grows|done]. Qed.
Lemma delivered_more (m : host_in REQ RESP) xs x : delivered m xs -> delivered m (xs ++ [x]).
Proof using. intros (t & H). exists t. apply elem_of_app. by left. Qed.
Lemma over_more xs x m : handed_over cops xs m -> handed_over cops (xs ++ [x]) m.
Proof using. intros (m0 & c & c' & H & E). exists m0, c, c'. split; [by apply delivered_more|done]. Qed.

(** Records only grow. *)
Record longer d d' : Prop := Longer {
  lo_id : d_id d' = d_id d;
  lo_raft : exists rt, raft_calls d' = raft_calls d ++ rt;
  lo_comm : exists ct, comm_calls d' = comm_calls d ++ ct;
}.
Lemma longer_refl d : longer d d.
Proof using. constructor; [done|exists []; by rewrite app_nil_r..]. Qed.
Lemma longer_trans d1 d2 d3 : longer d1 d2 -> longer d2 d3 -> longer d1 d3.
Proof using.
  intros [A1 (r1 & A2) (c1 & A3)] [B1 (r2 & B2) (c2 & B3)]. constructor; [congruence|exists (r1 ++ r2)|exists (c1 ++ c2)]; rewrite app_assoc; congruence.
Qed.
Lemma accounted_longer xs d d' c : longer d d' -> accounted_for cops xs d c -> accounted_for cops xs d' c.
Proof using.
  intros [Hi (rt & Hr) (ct & Hc)]. unfold accounted_for. rewrite Hi, Hr, Hc.
  destruct c as [id cf|l t ids g|to sn|[m|]|i n [m|]|[[r s]|]|m a|[[[f s]|]|]]; try done.
  - intros H r s Hg. apply elem_of_app. left. by apply H.
  - apply asked_snapshot_grows.
  - intros. apply elem_of_app. by left.
  - intros. apply elem_of_app. by left.
  - intros (? & ? & ?). split_and!; try done. apply elem_of_app. by left.
  - intros. apply elem_of_app. by left.
Qed.
Lemma tied_more xs x d : tied xs d -> tied (xs ++ [x]) d.
Proof using.
  intros [H1 H2 H3 H4 H5]. constructor; try done. intros c Hc. specialize (H1 c Hc). unfold accounted_for in *.
  destruct c as [id cf|l t ids g|to sn|[m|]|i n [m|]|[[r s]|]|m a|[[[f s]|]|]]; try done.
  - destruct H1 as (? & ? & ? & ?). split_and!; try done. by apply over_more.
  - by apply delivered_more.
  - destruct H1 as (? & ? & ?). split_and!; try done. by apply over_more.
Qed.

(** Steps that do not concern the processor. *)
Record grow d d' : Prop := Grow {
  gr_id : d_id d' = d_id d;
  gr_phase : d_phase d' = Created -> d_phase d = Created;
  gr_raft : exists rt, raft_calls d' = raft_calls d ++ rt /\ Forall no_report rt;
  gr_comm : exists ct, comm_calls d' = comm_calls d ++ ct;
  gr_snap : d_snap d' = d_snap d;
  gr_stash : forall m, m ∈ d_stashed d' -> m ∈ d_stashed d \/ to_stash d' m;
}.
Lemma grow_longer d d' : grow d d' -> longer d d'.
Proof using. intros [H1 _ (rt & H2 & _) H3 _ _]. constructor; [done|by exists rt|done]. Qed.
Lemma stash_longer d d' m : longer d d' -> to_stash d m -> to_stash d' m.
Proof using. intros [_ (rt & Hr) _] [H ?]. split; [|done]. rewrite Hr. by apply asked_grows. Qed.
Lemma grow_refl d : grow d d.
Proof using. constructor; [done..|exists []|exists []|done|by left]; by rewrite ?app_nil_r. Qed.
Lemma grow_trans d1 d2 d3 : grow d1 d2 -> grow d2 d3 -> grow d1 d3.
Proof using.
  intros G1 G2. pose proof (grow_longer _ _ G2) as L. destruct G1 as [A1 A2 (r1 & A3 & A3') (c1 & A4) A5 A6], G2 as [B1 B2 (r2 & B3 & B3') (c2 & B4) B5 B6].
  constructor; [congruence|tauto| | |congruence|].
  - exists (r1 ++ r2). rewrite app_assoc. split; [congruence|]. by apply Forall_app.
  - exists (c1 ++ c2). rewrite app_assoc. congruence.
  - intros m Hm. destruct (B6 m Hm) as [H|H]; [|by right]. destruct (A6 m H) as [H'|H']; [by left|right]. by eapply stash_longer.
Qed.
Lemma explained_longer d d' r s : longer d d' -> (forall c, c ∈ snap_calls d -> c ∈ snap_calls d') -> report_explained d r s -> report_explained d' r s.
Proof using.
  intros [_ (rt & Hr) _] Hs [H|[(l & t & ids & g & H & Hg)|(-> & m & H & H1 & H2)]].
  - left. by apply Hs.
  - right. left. exists l, t, ids, g. split; [by apply Hs|done].
  - right. right. split; [done|]. exists m. rewrite Hr. split_and!; [by apply asked_grows|done..].
Qed.
Lemma grow_tied xs d d' : grow d d' -> tied xs d -> tied xs d'.
Proof using.
  intros G [H1 H2 H3 H4 H5]. pose proof (grow_longer _ _ G) as L. destruct G as [A1 A2 (r1 & A3 & A3') (c1 & A4) A5' A6].
  assert (snap_calls d' = snap_calls d) as A5 by (unfold snap_calls; by rewrite A5'). constructor.
  - intros c Hc. rewrite A5 in Hc. eapply accounted_longer; [exact L|by apply H1].
  - intros r s Hr. rewrite A3, elem_of_app in Hr. destruct Hr as [Hr|Hr].
    + apply (explained_longer d); [exact L|by rewrite A5|by apply H2].
    + rewrite Forall_forall in A3'. by apply A3' in Hr.
  - intros m Hm. destruct (A6 m Hm) as [Hm'|Hm']; [|done]. eapply stash_longer; [exact L|by apply H3].
  - intros Hp c Hc. rewrite A5 in Hc. apply H4; [by apply A2|done].
  - by rewrite A5, A5'.
Qed.

Ltac calls := unfold raft_calls, comm_calls, snap_calls; cbn; first [ exists []; rewrite ?app_nil_r; first [ done | split; done ] | eexists; first [ split; [reflexivity|] | reflexivity ]; by repeat constructor ].
Ltac gr := constructor; [ done | done | calls | calls | done | by left ].

Lemma step_grow d a b c d' : make_raft_step codec rr d a b c = Ok d' -> grow d d'.
Proof using. unfold make_raft_step. cbn. intros H. oks; [|gr..]. destruct (ra_step rops _ _). simplify_eq. gr. Qed.
Lemma entry_grow d e d' : apply_entry codec rr ra d e = Ok d' -> grow d d'.
Proof using.
  unfold apply_entry, apply_change_entry, apply_event_entry. intros H. oks; gr.
Qed.
Lemma entries_grow es : forall d d', apply_entries codec rr ra d es = Ok d' -> grow d d'.
Proof using.
  induction es as [|e es IH]; intros d d' H; simpl in H; [oks; apply grow_refl|]. apply bind_ok in H as (d1 & H1 & H).
  eapply grow_trans; [by eapply entry_grow|by apply IH].
Qed.
Lemma send_grow ms : forall d d', send_raft_messages codec rc d ms = Ok d' ->
  (forall m, m ∈ ms -> asked_to_send (raft_calls d) m) -> grow d d' /\ raft_calls d' = raft_calls d.
Proof using.
  induction ms as [|m ms IH]; intros d d' H Hm; simpl in H; [oks; split; [apply grow_refl|done]|].
  destruct (decide (rm_type m = MsgSnapshot)) as [Ht|_].
  - apply IH in H as [G E]; [|intros; apply Hm; by right]. split; [|exact E]. eapply grow_trans; [|exact G].
    constructor; [done|done|calls|calls|done|]. cbn. intros m' [Hm'|Hm']%elem_of_app; [by left|right]. apply elem_of_list_singleton in Hm' as ->.
    split; [|done]. apply Hm. by left.
  - apply bind_ok in H as (c & Hc & H). cbn in Hc. apply bind_ok in Hc as (c' & _ & Hc). injection Hc as <-.
    apply IH in H as [G E]; [|intros; apply Hm; by right]. split; [|exact E]. eapply grow_trans; [|exact G]. gr.
Qed.
Lemma restore_grow d s d' : restore_raft_snapshot rr ra d s = Ok d' -> grow d d'.
Proof using. unfold restore_raft_snapshot. intros H. oks; gr. Qed.
Lemma create_grow d d' : maybe_create_snapshot rr ra d = Ok d' -> grow d d'.
Proof using. unfold maybe_create_snapshot. intros H. oks; gr. Qed.
Lemma ready_asked t rd m : m ∈ rd_messages rd \/ m ∈ rd_persisted rd -> KReady rd ∈ t -> asked_to_send t m.
Proof using. intros H Hi. by exists (KReady rd). Qed.
Lemma light_asked t n lr m : m ∈ lr_messages lr -> KLight n lr ∈ t -> asked_to_send t m.
Proof using. intros H Hi. by exists (KLight n lr). Qed.
Lemma raft_keeps d d' c : grow d d' -> c ∈ raft_calls d -> c ∈ raft_calls d'.
Proof using. intros [_ _ (rt & -> & _) _ _ _] H. apply elem_of_app. by left. Qed.
Lemma advance_grow d d' : advance_raft codec rr rc ra d = Ok d' -> grow d d'.
Proof using.
  unfold advance_raft. intros H.
  set (d1 := if negb (d_lameduck d) then trigger_raft_tick rr d else d) in *.
  assert (grow d d1) as F1. { unfold d1, trigger_raft_tick. destruct (negb (d_lameduck d)); [|apply grow_refl]. destruct (_ <=? _); gr. }
  clearbody d1. eapply grow_trans; [exact F1|]. clear F1.
  destruct (negb _); [injection H as <-; apply grow_refl|].
  destruct (ra_get_ready rops (d_raft d1).1) as [r rd] eqn:Eg. cbn [ra_get_ready rec_raft] in H. rewrite Eg in H. cbn zeta beta iota in H.
  apply bind_ok in H as (d2 & H2 & H).
  set (d1' := set_raft d1 (r, (d_raft d1).2 ++ [KReady rd])) in *.
  assert (grow d1 d1') as F1 by gr. assert (KReady rd ∈ raft_calls d1') as K1. { apply elem_of_app. right. by left. }
  clearbody d1'. apply send_grow in H2 as [H2 _]; [|intros m Hm; eapply ready_asked; [by left|exact K1]].
  pose proof (raft_keeps _ _ _ H2 K1) as K2. eapply grow_trans; [exact F1|]. eapply grow_trans; [exact H2|]. clear dependent d1 d1'.
  apply bind_ok in H as (d3 & H3 & H). set (d2' := match rd_hard rd with Some _ => _ | None => _ end) in *.
  assert (grow d2 d2') as F2 by (unfold d2'; destruct (rd_hard rd); gr). clearbody d2'. apply restore_grow in H3.
  pose proof (raft_keeps _ _ _ H3 (raft_keeps _ _ _ F2 K2)) as K3. eapply grow_trans; [exact F2|]. eapply grow_trans; [exact H3|]. clear dependent d2 d2'.
  apply bind_ok in H as (d4 & H4 & H). apply entries_grow in H4.
  pose proof (raft_keeps _ _ _ H4 K3) as K4. eapply grow_trans; [exact H4|]. clear dependent d3.
  apply bind_ok in H as (d5 & H5 & H). apply send_grow in H5 as [H5 _]; [|intros m Hm; eapply ready_asked; [by right|exact K4]].
  eapply grow_trans; [exact H5|]. clear dependent d4.
  apply bind_ok in H as (d6 & H6 & H).
  eapply (grow_trans _ d6); [destruct (rd_entries rd); oks; gr|]. clear H6.
  destruct (ra_advance rops (d_raft d6).1 (rd_number rd)) as [r' lr] eqn:Ea. cbn [ra_advance rec_raft] in H. rewrite Ea in H. cbn zeta beta iota in H.
  apply bind_ok in H as (d7 & H7 & H).
  set (d6' := set_raft d6 (r', (d_raft d6).2 ++ [KLight (rd_number rd) lr])) in *.
  assert (grow d6 d6') as F6 by gr. assert (KLight (rd_number rd) lr ∈ raft_calls d6') as K6. { apply elem_of_app. right. by left. }
  clearbody d6'. apply send_grow in H7 as [H7 _]; [|intros m Hm; eapply light_asked; [exact Hm|exact K6]].
  eapply grow_trans; [exact F6|]. eapply grow_trans; [exact H7|]. clear dependent d6 d6'.
  apply bind_ok in H as (d8 & H8 & H). apply entries_grow in H8.
  eapply grow_trans; [exact H8|]. injection H as <-. gr.
Qed.
Lemma propose_grow ps : forall d d', propose_all rr d ps = Ok d' -> grow d d'.
Proof using.
  induction ps as [|p ps IH]; intros d d' H; simpl in H; [oks; apply grow_refl|].
  apply bind_ok in H as (d1 & H1 & H). eapply grow_trans; [|by apply IH]. unfold make_raft_proposal in H1. oks. gr.
Qed.
Lemma app_grow d m d' : run_app codec rc ra d m = Ok d' -> grow d d'.
Proof using.
  unfold run_app. destruct (decide _) as [_|_]; intros H; [|oks; apply grow_refl].
  apply bind_ok in H as (d1 & H1 & H). injection H as <-. eapply grow_trans; [|].
  - unfold process_app in H1. instantiate (1 := d1). oks; gr.
  - gr.
Qed.
Lemma preset_grow d t : grow d (preset rr d t).
Proof using. gr. Qed.
Lemma flush_grow d d' out : flush rc d = Ok (d', out) -> grow d d'.
Proof using. unfold flush. intros H. oks. gr. Qed.
Lemma change_grow d q d' : process_change rr d q = Ok d' -> grow d d'.
Proof using.
  unfold process_change, make_config_change. intros H. cbn in H.
  apply bind_ok in H as (? & _ & H). apply bind_ok in H as (? & _ & H). apply bind_ok in H as ([d1 st] & H1 & H). injection H as <-.
  destruct (cr_type q =? 1); [|destruct (cr_type q =? 2)]; [| |injection H1 as <- <-; gr];
    (destruct (ra_propose_change rops _ _) as [r e]; destruct e as [[]|]; simplify_eq; gr).
Qed.
Lemma system_grow d m d' : process_system codec rr rc d m = Ok d' -> grow d d'.
Proof using.
  unfold process_system. intros H. apply bind_ok in H as (? & _ & H). apply bind_ok in H as (? & _ & H).
  apply bind_ok in H as ([c r] & Hc & H). cbn in Hc. apply bind_ok in Hc as ([c1 r1] & _ & Hc). injection Hc as <- <-.
  destruct r1 as [[?|m1|]|]; [done| |done|oks; gr]. destruct (pm_kind m1); try done. apply bind_ok in H as (p & _ & H).
  apply step_grow in H. eapply grow_trans; [|exact H]. gr.
Qed.

(** ** Steps with the processor *)
(** One call, and what it is about is in the records. *)
Lemma tied_call xs d d' l : tied xs d -> longer d d' -> snap_calls d' = snap_calls d ++ l ->
  (d_phase d' = Created -> d_phase d = Created /\ Forall (fun c => match c with CInit _ _ | CReceived _ => False | _ => True end) l) ->
  Forall (accounted_for cops xs d') l ->
  (forall r s, KReport r s ∈ raft_calls d' -> KReport r s ∈ raft_calls d \/ report_explained d' r s) ->
  (forall m, m ∈ d_stashed d' -> m ∈ d_stashed d) -> logged (snap_calls d') (d_snap d').1 -> tied xs d'.
Proof using.
  intros [H1 H2 H3 H4 H5] L Hs Hp Hl Hr Hst Hlog. rewrite Forall_forall in Hl. constructor.
  - intros c Hc. rewrite Hs, elem_of_app in Hc. destruct Hc as [Hc|Hc]; [|by apply Hl]. eapply accounted_longer; [exact L|by apply H1].
  - intros r s Hx. destruct (Hr r s Hx) as [Hx'|Hx']; [|done]. apply (explained_longer d); [exact L| |by apply H2].
    rewrite Hs. intros c Hc. apply elem_of_app. by left.
  - intros m Hm. eapply stash_longer; [exact L|]. by apply H3, Hst.
  - intros Hc c Hin. destruct (Hp Hc) as [Hp1 Hp2]. rewrite Forall_forall in Hp2. rewrite Hs, elem_of_app in Hin. destruct Hin; [by apply H4|by apply Hp2].
  - done.
Qed.
Lemma log_one xs d c s' : tied xs d -> live (d_snap d).1 -> called (d_snap d).1 c s' -> logged (snap_calls d ++ [c]) s'.
Proof using. intros T Hl Hc. eapply logged_snoc; [apply (ti_logged _ _ T)|by destruct c|done]. Qed.
Ltac lo := constructor; [done|calls|calls].

Lemma progress_tied xs d d' : process_snapshot_progress rr rs d = Ok d' -> tied xs d -> tied xs d' /\ (d_phase d' = d_phase d).
Proof using live_role.
  unfold process_snapshot_progress. destruct (decide _) as [Hp|_]; [|by intros [= <-]].
  intros H T. apply bind_ok in H as (role & Hl%or_abort_ok%live_role & H). cbn in Hl. destruct role.
  - apply bind_ok in H as ([s x] & H1%or_abort_ok & H). cbn in H1. apply bind_ok in H1 as ([s1 x1] & Ex & E). injection E as <- <-.
    destruct x1 as [[i st]|]; injection H as <-; (split; [|done]).
    + eapply (tied_call _ d _ [CSent (Some (i, st))]); [done|lo|done|by cbn; rewrite Hp| | |done|by eapply log_one; [exact T|exact Hl|exact Ex]].
      * repeat constructor. cbn. apply elem_of_app. right. by left.
      * intros r s [Hr|Hr]%elem_of_app; [by left|]. apply elem_of_list_singleton in Hr. simplify_eq. right. left. apply elem_of_app. right. by left.
    + eapply (tied_call _ d _ [CSent None]); [done|lo|done|by cbn; rewrite Hp|by repeat constructor|by left|done|by eapply log_one; [exact T|exact Hl|exact Ex]].
  - apply bind_ok in H as ([s x] & H1%or_abort_ok & H). cbn in H1. apply bind_ok in H1 as ([s1 x1] & Ex & E). injection E as <- <-.
    destruct x1 as [[[i st]|]|]; injection H as <-; (split; [|done]).
    + cbn. destruct (ra_step rops _ _) as [r b] eqn:Er. cbn.
      eapply (tied_call _ d _ [CReceived (Some (Some (i, st)))]); [done|lo|done|by cbn; rewrite Hp| | |done|by eapply log_one; [exact T|exact Hl|exact Ex]].
      * repeat constructor. cbn. apply elem_of_app. right. by left.
      * intros r' s [Hr|Hr]%elem_of_app; [by left|]. apply elem_of_list_singleton in Hr. done.
    + eapply (tied_call _ d _ [CReceived (Some None)]); [done|lo|done|by cbn; rewrite Hp|by repeat constructor|by left|done|by eapply log_one; [exact T|exact Hl|exact Ex]].
    + eapply (tied_call _ d _ [CReceived None]); [done|lo|done|by cbn; rewrite Hp|by repeat constructor|by left|done|by eapply log_one; [exact T|exact Hl|exact Ex]].
Qed.
Lemma leader_tied xs d d' : stash_leader_state rr rs rc d = Ok d' -> tied xs d -> tied xs d'.
Proof using live_cluster.
  unfold stash_leader_state. set (d1 := set_rstate d (get_raft_state rr d)). intros H T.
  assert (tied xs d1) as T1 by (eapply grow_tied; [|exact T]; unfold d1; gr). clearbody d1. clear T d.
  destruct (decide _) as [_|_]; [by injection H as <-|]. apply bind_ok in H as (d2 & H2 & H). injection H as <-.
  assert (tied xs d2) as T2.
  { unfold update_snapshot_cluster in H2. destruct (decide _) as [Hp|_]; [|injection H2 as <-; by eapply grow_tied; [|exact T1]; gr].
    apply bind_ok in H2 as ([s l] & H1%or_abort_ok & E). injection E as <-. cbn in H1. apply bind_ok in H1 as ([s1 l1] & Ex & E). injection E as <- <-.
    cbn in Hp. eapply (tied_call _ d1 _ [CCluster _ _ _ _]); [done| |done|by cbn; rewrite Hp| | |done|eapply log_one; [exact T1|exact (live_cluster _ _ _ _ _ Ex)|exact Ex]].
    - constructor; [done|eexists; apply report_all_calls|calls].
    - repeat constructor. unfold accounted_for. intros r s Hin. unfold raft_calls. cbn [set_raft set_snap d_raft]. rewrite report_all_calls. apply elem_of_app. right.
      apply elem_of_list_fmap. by exists (r, s).
    - intros r s Hr. unfold raft_calls in Hr. cbn [set_raft set_snap d_raft] in Hr. rewrite report_all_calls, elem_of_app in Hr. destruct Hr as [Hr|Hr]; [by left|]. right. right. left.
      apply elem_of_list_fmap in Hr as ([r' s'] & [= -> ->] & Hin). do 4 eexists. split; [|exact Hin]. apply elem_of_app. right. by left. }
  eapply grow_tied; [|exact T2]. gr.
Qed.
Lemma machine_tied xs d d' : process_state_machine codec rr rs rc ra d = Ok d' -> tied xs d -> tied xs d'.
Proof using live_cluster.
  unfold process_state_machine. destruct (ra_initialized _ _); intros H T; [|by injection H as <-].
  apply bind_ok in H as (d1 & H1 & H). apply bind_ok in H as (d2 & H2 & H).
  eapply leader_tied; [exact H|]. eapply grow_tied; [by eapply create_grow|]. eapply grow_tied; [by eapply advance_grow|]. done.
Qed.
Lemma start_all_log ms : forall s s', start_all rs s ms = Ok s' -> live s.1 -> logged s.2 s.1 ->
  live s'.1 /\ logged s'.2 s'.1 /\
  exists l, s'.2 = s.2 ++ l /\ forall c, c ∈ l -> exists m sn, m ∈ ms /\ rm_snapshot m = Some sn /\ c = CStart (rm_to m) sn.
Proof using live_called.
  induction ms as [|m ms IH]; intros s s' H Hl Hlog; simpl in H.
  { injection H as <-. split; [done|]. split; [done|]. exists []. rewrite app_nil_r. split; [done|]. by intros ? ?%elem_of_nil. }
  apply bind_ok in H as (sn & Hsn%unwrap_ok & H). apply bind_ok in H as (s1 & H1%or_abort_ok & H).
  cbn in H1. apply bind_ok in H1 as (s2 & Ex & E). injection E as <-.
  assert (called s.1 (CStart (rm_to m) sn) s2) as Hc by exact Ex.
  apply IH in H as (Hl' & Hlog' & l & El & Hin); [|by eapply live_called|by eapply logged_snoc]. cbn in El.
  split; [done|]. split; [done|].
  exists (CStart (rm_to m) sn :: l). split; [by rewrite El, <- app_assoc|]. intros c [->|Hx]%elem_of_cons.
  - exists m, sn. split; [by left|done].
  - apply Hin in Hx as (m' & sn' & Hm & ?). exists m', sn'. split; [by right|done].
Qed.
Lemma drain_log n : forall s s' ms, drain rs n s = Ok (s', ms) -> live s.1 -> logged s.2 s.1 ->
  logged s'.2 s'.1 /\
  exists l, s'.2 = s.2 ++ l /\ forall c, c ∈ l -> c = CNext None \/ exists m, m ∈ ms /\ c = CNext (Some m).
Proof using live_called.
  induction n as [|n IH]; intros s s' ms H Hl Hlog; simpl in H.
  { injection H as <- <-. split; [done|]. exists []. rewrite app_nil_r. split; [done|]. by intros ? ?%elem_of_nil. }
  apply bind_ok in H as ([s1 x] & H1%or_abort_ok & H). cbn in H1. apply bind_ok in H1 as ([s2 x2] & Ex & E). injection E as <- <-.
  assert (called s.1 (CNext x2) s2) as Hc by exact Ex.
  destruct x2 as [m|].
  - apply bind_ok in H as ([s3 ms3] & H3 & E). injection E as <- <-. apply IH in H3 as (Hlog' & l & El & Hin); [|by eapply live_called|by eapply logged_snoc]. cbn in El.
    split; [done|].
    exists (CNext (Some m) :: l). split; [by rewrite El, <- app_assoc|]. intros c [->|Hx]%elem_of_cons; [right; exists m; split; [by left|done]|].
    destruct (Hin c Hx) as [->|(m' & Hm & ->)]; [by left|right]. exists m'. split; [by right|done].
  - injection H as <- <-. split; [by eapply logged_snoc|]. exists [CNext None]. split; [done|]. intros c Hx. apply elem_of_list_singleton in Hx as ->. by left.
Qed.
Lemma sending_tied xs d d' : process_snapshot_sending rr rs rc d = Ok d' -> tied xs d -> tied xs d'.
Proof using live_role live_called.
  unfold process_snapshot_sending. intros H T. apply bind_ok in H as (role & Hlive%or_abort_ok%live_role & H). cbn in Hlive. destruct role.
  - apply bind_ok in H as (s & Hs & H). apply bind_ok in H as ([s2 ms] & Hd & H). apply bind_ok in H as (c & Hc & H). injection H as <-.
    apply start_all_log in Hs as (Hlive' & Hlog & l & El & Hl); [|done|apply (ti_logged _ _ T)]. apply drain_log in Hd as (Hlog2 & l2 & El2 & Hl2); [|done..]. apply send_all_calls in Hc.
    cbn in El, Hc.
    eapply (tied_call _ d _ (l ++ l2)); [done| | | | |by left| |exact Hlog2].
    + constructor; [done|calls|]. eexists. unfold comm_calls. cbn. exact Hc.
    + unfold snap_calls. cbn. rewrite El2, El. by rewrite <- app_assoc.
    + cbn. intros Hp. split; [done|]. apply Forall_app. split; apply Forall_forall.
      * intros x Hx. apply Hl in Hx as (? & ? & _ & _ & ->). done.
      * intros x Hx. apply Hl2 in Hx as [->|(? & _ & ->)]; done.
    + apply Forall_app. split; apply Forall_forall.
      * intros x Hx. apply Hl in Hx as (m & sn & Hm & Hsn & ->). apply (ti_stash _ _ T) in Hm as [Hm Ht]. exists m. done.
      * intros x Hx. apply Hl2 in Hx as [->|(m & Hm & ->)]; [done|]. cbn. unfold comm_calls. cbn. rewrite Hc. apply elem_of_app. right.
        apply elem_of_list_fmap. by exists m.
    + cbn. by intros m ?%elem_of_nil.
  - injection H as <-.
    assert (forall (ms : list rmsg) (r : RS * list raft_call), (foldl (fun r m => ra_report rr r (rm_to m) Failure) r ms).2 = r.2 ++ map (fun m => KReport (rm_to m) Failure) ms) as F.
    { clear. induction ms as [|m ms IH]; intros r; simpl; [by rewrite app_nil_r|]. rewrite IH. simpl. by rewrite <- app_assoc. }
    eapply (tied_call _ d _ []); [done| | | |done| | |apply (ti_logged _ _ T)].
    + constructor; [done| |calls]. eexists. unfold raft_calls. cbn. apply F.
    + unfold snap_calls. cbn. by rewrite app_nil_r.
    + done.
    + intros r s Hr. unfold raft_calls in Hr. cbn [set_raft set_stashed d_raft] in Hr. rewrite F, elem_of_app in Hr. destruct Hr as [Hr|Hr]; [by left|]. right. right. right.
      apply elem_of_list_fmap in Hr as (m & [= -> ->] & Hin). split; [done|]. exists m. apply (ti_stash _ _ T) in Hin as [Hm Ht]. split_and!; try done.
      unfold raft_calls. cbn [set_raft set_stashed d_raft]. rewrite F. by apply asked_grows.
    + cbn. by intros m ?%elem_of_nil.
Qed.
Lemma replication_tied xs d d' : run_replication codec rr rs rc ra d = Ok d' -> tied xs d -> tied xs d'.
Proof using live_role live_called live_cluster.
  unfold run_replication. destruct (d_ephemeral d); intros H T; [by injection H as <-|].
  apply bind_ok in H as (d1 & H1 & H). apply bind_ok in H as (d2 & H2 & H). apply bind_ok in H as (d3 & H3 & H).
  eapply sending_tied; [exact H|]. eapply machine_tied; [exact H3|]. eapply progress_tied; [exact H2|].
  eapply grow_tied; [eapply propose_grow; exact H1|]. eapply grow_tied; [|exact T]. gr.
Qed.

Lemma request_tied xs d m d' : delivered (HPeer m) xs -> process_snapshot_request rs rc d m = Ok d' -> tied xs d -> tied xs d'.
Proof using live_role.
  unfold process_snapshot_request. intros Hd H T. apply bind_ok in H as (? & _ & H).
  apply bind_ok in H as ([c r] & Hc & H). cbn in Hc. apply bind_ok in Hc as ([c1 r1] & Hin & Hc). injection Hc as <- <-.
  destruct r1 as [[?|m1|]|]; [done| |done|injection H as <-; eapply grow_tied; [|exact T]; gr]. destruct (pm_kind m1) eqn:Ek; try done.
  apply bind_ok in H as (role & Hlive%or_abort_ok%live_role & H). cbn in Hlive. apply bind_ok in H as ([d1 a] & H1 & H). apply bind_ok in H as (c2 & Hc2 & H). injection H as <-.
  cbn in Hc2. apply bind_ok in Hc2 as (c3 & _ & Hc2). injection Hc2 as <-.
  destruct role.
  - apply bind_ok in H1 as (a1 & _ & H1). injection H1 as <- <-. eapply grow_tied; [|exact T].
    constructor; [done|done|calls| |done|by left]. eexists. unfold comm_calls. cbn. by rewrite <- app_assoc.
  - apply bind_ok in H1 as ([s a1] & H1%or_abort_ok & E). injection E as <- <-. cbn in H1. apply bind_ok in H1 as ([s1 a2] & Ex & E). injection E as <- <-.
    eapply (tied_call _ d _ [CRequest m1 a2]); [done| |done|by repeat constructor| |by left|done|by eapply log_one; [exact T|exact Hlive|exact Ex]].
    + constructor; [done|calls|]. eexists. unfold comm_calls. cbn. by rewrite <- app_assoc.
    + repeat constructor; [done|by exists m, (d_comm d).1, c1|]. unfold comm_calls. cbn. apply elem_of_app. right. by left.
Qed.
Lemma response_tied xs d m d' : delivered (HPeer m) xs -> process_snapshot_response rs rc d m = Ok d' -> tied xs d -> tied xs d'.
Proof using live_role.
  unfold process_snapshot_response. intros Hd H T. apply bind_ok in H as (? & _ & H).
  apply bind_ok in H as ([c r] & Hc & H). cbn in Hc. apply bind_ok in Hc as ([c1 r1] & Hin & Hc). injection Hc as <- <-.
  destruct r1 as [[?|m1|]|]; [done| |done|injection H as <-; eapply grow_tied; [|exact T]; gr]. destruct (pm_kind m1) eqn:Ek; try done.
  apply bind_ok in H as (role & Hlive%or_abort_ok%live_role & H). cbn in Hlive. destruct role; [|injection H as <-; eapply grow_tied; [|exact T]; gr].
  apply bind_ok in H as (s & H1%or_abort_ok & E). injection E as <-. cbn in H1. apply bind_ok in H1 as (s1 & Ex & E). injection E as <-.
  eapply (tied_call _ d _ [CResponse _ _ _]); [done|lo|done|by repeat constructor| |by left|done|by eapply log_one; [exact T|exact Hlive|exact Ex]].
  repeat constructor; [done|]. by exists m, (d_comm d).1, c1.
Qed.
Lemma failure_tied xs d i n d' : delivered (HSnapshotFailure i n) xs -> process_snapshot_failure rs d i n = Ok d' -> tied xs d -> tied xs d'.
Proof using live_role.
  unfold process_snapshot_failure. intros Hd H T. apply bind_ok in H as (? & _ & H).
  apply bind_ok in H as (role & Hlive%or_abort_ok%live_role & H). cbn in Hlive. destruct role; [|by injection H as <-].
  apply bind_ok in H as (s & H1%or_abort_ok & E). injection E as <-. cbn in H1. apply bind_ok in H1 as (s1 & Ex & E). injection E as <-.
  eapply (tied_call _ d _ [CResponse _ _ _]); [done|lo|done|by repeat constructor| |by left|done|by eapply log_one; [exact T|exact Hlive|exact Ex]]. by repeat constructor.
Qed.
Lemma initialize_grow d cf data leader d' : initialize_raft_node rr d cf data leader = Ok d' -> grow d d'.
Proof using.
  unfold initialize_raft_node. intros H. set (d1 := match cf with Some _ => _ | None => d end) in *.
  assert (grow d d1) as F1. { unfold d1. destruct cf as [c|]; [destruct (rc_snapshot c)|]; gr. }
  eapply grow_trans; [exact F1|]. clearbody d1. destruct leader; oks; gr.
Qed.
Lemma grow_started d d' : grow d d' -> grow (set_phase d Started) (set_phase d' Started).
Proof using. intros [H1 H2 H3 H4 H5 H6]. by constructor. Qed.
Lemma start_tied xs d q d' : process_start rr rs rc ra d q = Ok d' -> tied xs d -> tied xs d'.
Proof using.
  unfold process_start. intros H T. apply bind_ok in H as (? & Hp%checked_phase & H).
  apply bind_ok in H as (st & _ & H).
  set (d1 := set_ephemeral _ _) in *.
  assert (tied xs d1) as T1.
  { destruct T as [H1 H2 H3 H4 H5]. constructor; try done. intros c Hc. pose proof (H4 Hp c Hc) as Hno. specialize (H1 c Hc).
    destruct c as [id cf|l t ids g|to sn|[m|]|i n [m|]|[[r s]|]|m a|[[[f s]|]|]]; done. }
  assert (d_phase d1 = Created) as Hp1 by exact Hp. clearbody d1. clear T d Hp.
  apply bind_ok in H as (d2 & H2 & H).
  assert (tied xs (set_phase d2 Started)) as T2.
  { destruct (d_ephemeral d1).
    - injection H2 as <-. eapply grow_tied; [|exact T1]. gr.
    - apply bind_ok in H2 as (data & _ & H2). apply bind_ok in H2 as (s & H3%or_abort_ok & H2). cbn in H3. apply bind_ok in H3 as (s1 & Ex & E). injection E as <-.
      eapply grow_tied; [eapply grow_started, initialize_grow; exact H2|].
      eapply (tied_call _ d1 _ [CInit _ _]); [done|lo|done|done|by repeat constructor|by left|done|eapply logged_snoc; [apply (ti_logged _ _ T1)|done|exact Ex]]. }
  clear H2. eapply grow_tied; [|exact T2]. oks; gr.
Qed.
Lemma dispatch_tied xs d m d' : delivered m xs -> dispatch codec rr rs rc ra d m = Ok d' -> tied xs d -> tied xs d'.
Proof using live_role live_called live_cluster.
  intros Hd H T. destruct m as [q| | |q| |m|i n| |m|m]; cbn [dispatch] in H.
  - by eapply start_tied.
  - unfold process_stop in H. destruct (decide _) as [_|_]; injection H as <-; eapply grow_tied; [|exact T| |exact T]; gr.
  - injection H as <-. eapply grow_tied; [|exact T]. gr.
  - eapply grow_tied; [by eapply change_grow|done].
  - unfold process_check in H. oks. eapply grow_tied; [|exact T]. gr.
  - destruct (pm_kind m).
    + eapply grow_tied; [by eapply system_grow|done].
    + by eapply request_tied.
    + by eapply response_tied.
  - by eapply failure_tied.
  - unfold process_get_state in H. eapply grow_tied; [|exact T]. oks; gr.
  - unfold process_handshake in H. eapply grow_tied; [|exact T]. oks; gr.
  - by injection H as <-.
Qed.
Lemma receive_tied xs d x d' out : receive codec rops rs cops app d x = Ok (d', out) -> tied xs d -> tied (xs ++ [x]) d'.
Proof using live_role live_called live_cluster.
  intros H T. apply (tied_more _ x) in T. destruct x as [t m]. unfold receive, receive_message in H. cbn in H.
  pose proof (grow_tied _ _ _ (preset_grow d t) T) as T1. set (d1 := preset rr d t) in *. clearbody d1.
  destruct m as [[m|]|].
  - apply bind_ok in H as (d2 & H2 & H). apply bind_ok in H as (d3 & H3 & H). apply bind_ok in H as (d4 & H4 & H).
    eapply grow_tied; [by eapply flush_grow|]. eapply replication_tied; [exact H4|]. eapply grow_tied; [by eapply app_grow|].
    eapply dispatch_tied; [|exact H2|exact T1]. exists t. apply elem_of_app. right. by left.
  - injection H as <- <-. done.
  - apply bind_ok in H as (d2 & H2 & H). injection H2 as <-. apply bind_ok in H as (d3 & H3 & H). apply bind_ok in H as (d4 & H4 & H).
    eapply grow_tied; [by eapply flush_grow|]. eapply replication_tied; [exact H4|]. eapply grow_tied; [by eapply app_grow|]. done.
Qed.
Lemma reaches_tied r c xs : forall d outs, reaches codec rops rs cops app r (s0, []) c xs d outs -> tied xs d.
Proof using live_role live_called live_cluster.
  induction xs as [|x xs IH] using rev_ind; intros d outs [Hi H].
  - injection H as <- <-. constructor; cbn; [by intros ? ?%elem_of_nil| |by intros ? ?%elem_of_nil|by intros _ ? ?%elem_of_nil|constructor].
    by intros ? ? ?%elem_of_nil.
  - apply run_snoc in H as (d1 & o1 & out & H1 & H2 & _). eapply receive_tied; [exact H2|]. by eapply IH.
Qed.
End Accounts.

(** ** The calls of the snapshot processor of the code *)
Section Real.
Variable enc_meta : snap_meta -> bytes.
Variable dec_meta : bytes -> option snap_meta.
Variable enc_content : content -> bytes.
Variable dec_content : bytes -> option content.
Variable enc_ack : ack -> bytes.
Variable dec_ack : bytes -> option ack.
Variable order : N -> gmap N sender_state -> list N.
Hypothesis orders : forall n m, order n m ≡ₚ (map_to_list m).*1.
Notation sops := (real_snap enc_meta dec_meta enc_content dec_content enc_ack dec_ack order).
Definition known_role (s : snapper) : Prop := pr_state (sp_processor s) <> RUnknown.
Notation rlogged := (logged sops snapper_new known_role).
Notation rcalled := (called sops).

Lemma no_error_ok {A} (r : pan A) a : no_error r = Ok a -> r = Ok a.
Proof using. destruct r as [|e|]; cbn; intros; simplify_eq; done. Qed.
Lemma real_role s t r : sp_role sops s t = Ok r -> known_role s.
Proof using. cbn. unfold processor_role, known_role. by destruct (pr_state _). Qed.
Lemma real_cluster s l t ids x : sp_cluster sops s l t ids = Ok x -> known_role s.
Proof using. cbn. unfold process_cluster_change, known_role. by destruct (pr_state _). Qed.
Lemma real_called s c s' : known_role s -> rcalled s c s' -> known_role s'.
Proof using.
  unfold known_role. intros Hs H. destruct c; cbn in H.
  - apply bind_ok in H as (p & Hp%no_error_ok & E). unfold processor_init in Hp. by destruct (pr_state (sp_processor s)).
  - apply bind_ok in H as ([p g] & Hp%no_error_ok & E). injection E as <- <-. unfold process_cluster_change in Hp.
    destruct (pr_state (sp_processor s)); [done|by destruct (pr_replica_id (sp_processor s) =? leader); simplify_eq/=|].
    destruct (if _ || _ then _ else _) as [x y]. injection Hp as <- <-. cbn. by destruct (negb _).
  - by apply bind_ok in H as (p & _ & [= <-]).
  - by apply bind_ok in H as ([p g] & _ & [= <- _]).
  - by apply bind_ok in H as (p & _ & [= <-]).
  - destruct (sender_try_complete _ _). by injection H as <- _.
  - by apply bind_ok in H as ([p g] & _ & [= <- _]).
  - by apply bind_ok in H as ([p g] & _ & [= <- _]).
Qed.

(** The call of the sender, or of the receiver, a call of the processor stands
    for. *)
Definition sender_view (c : snap_call) (es : strace) : Prop :=
  match c with
  | CStart to sn => es = [(SStart to sn, ONone)]
  | CNext r => exists ord q, es = [(SNext ord, OReq q)] /\ r = of_request enc_content <$> q
  | CResponse i n m => es = [(SResp i n (response_of dec_ack <$> m), ONone)]
  | CSent r => exists ord, es = [(SComplete ord, ODone r)]
  | CCluster _ _ _ g => (es = [] /\ g = []) \/ exists ord, es = [(SReset ord, OCancel g)]
  | CRequest _ _ | CReceived _ => es = []
  | CInit _ _ => False
  end.
Definition receiver_view (c : snap_call) (es : list rop) : Prop :=
  match c with
  | CRequest m _ => es = [RReq (request_of dec_content m)]
  | CReceived _ => es = [RPoll]
  | CCluster _ _ _ _ => es = [] \/ es = [RReset]
  | _ => es = []
  end.
Definition views (l : list snap_call) (t : strace) (ops : list rop) : Prop :=
  exists ts os, Forall2 sender_view l ts /\ t = concat ts /\ Forall2 receiver_view l os /\ ops = concat os.
Lemma views_nil : views [] [] [].
Proof using. by exists [], []. Qed.
Lemma views_snoc l c t ops es os : views l t ops -> sender_view c es -> receiver_view c os -> views (l ++ [c]) (t ++ es) (ops ++ os).
Proof using.
  intros (ts & os' & H1 & -> & H2 & ->) Hc Ho. exists (ts ++ [es]), (os' ++ [os]).
  rewrite !concat_app. cbn. rewrite !app_nil_r. split_and!; [|done| |done]; (apply Forall2_app; [done|by constructor]).
Qed.
Lemma views_split l1 l2 t ops : views (l1 ++ l2) t ops -> exists t1 t2 o1 o2, t = t1 ++ t2 /\ ops = o1 ++ o2 /\ views l1 t1 o1 /\ views l2 t2 o2.
Proof using.
  intros (ts & os & H1 & -> & H2 & ->). apply Forall2_app_inv_l in H1 as (ts1 & ts2 & Ha & Hb & ->). apply Forall2_app_inv_l in H2 as (os1 & os2 & Hc & Hd & ->).
  exists (concat ts1), (concat ts2), (concat os1), (concat os2). rewrite !concat_app. split_and!; try done; [by exists ts1, os1|by exists ts2, os2].
Qed.

(** What is known of the processor after these calls. *)
Definition in_state (l : list snap_call) (s : snapper) : Prop :=
  (l = [] /\ s = snapper_new) \/
  exists id cfg rest t ops, l = CInit id cfg :: rest /\ known_role s /\ views rest t ops /\
    sender_trace enc_meta (sender_init id cfg) t (pr_sender (sp_processor s)) /\
    receiver_run dec_meta None ops = Ok (pr_receiver (sp_processor s)).
Lemma run_one ops op st st' : receiver_run dec_meta None ops = Ok st -> receiver_step dec_meta st op = Ok st' ->
  receiver_run dec_meta None (ops ++ [op]) = Ok st'.
Proof using. intros H1 H2. rewrite receiver_run_app, H1. cbn. by rewrite H2. Qed.
Lemma logged_state l s : (forall to sn, CStart to sn ∈ l -> to <> 0) -> rlogged l s -> in_state l s.
Proof using orders.
  intros Hto H. induction H as [|l s c s' Hl IH Hc Hcl]; [by left|].
  destruct IH as [[-> ->]|(id & cfg & rest & t & ops & -> & Hk & V & Ht & Ho)].
  { intros to sn Hi. apply (Hto to sn). apply elem_of_app. by left. }
  - destruct c; try done. right. exists id, config, [], [], []. cbn in Hcl. injection Hcl as <-.
    split_and!; [done|done|apply views_nil|constructor|done].
  - right. exists id, cfg, (rest ++ [c]).
    assert (known_role s') as Hk' by (by eapply real_called).
    assert (forall t' os, sender_view c t' -> receiver_view c os ->
      sender_trace enc_meta (sender_init id cfg) (t ++ t') (pr_sender (sp_processor s')) ->
      receiver_run dec_meta None (ops ++ os) = Ok (pr_receiver (sp_processor s')) ->
      exists t ops, (CInit id cfg :: rest) ++ [c] = CInit id cfg :: rest ++ [c] /\ known_role s' /\ views (rest ++ [c]) t ops /\
        sender_trace enc_meta (sender_init id cfg) t (pr_sender (sp_processor s')) /\
        receiver_run dec_meta None ops = Ok (pr_receiver (sp_processor s'))) as Go.
    { intros t' os H1 H2 H3 H4. exists (t ++ t'), (ops ++ os). split_and!; try done. by apply views_snoc. }
    clear Hk'. destruct c; cbn in Hcl.
    + apply bind_ok in Hcl as (p & Hp%no_error_ok & E). unfold processor_init in Hp. unfold known_role in Hk. by destruct (pr_state (sp_processor s)).
    + apply bind_ok in Hcl as ([p g] & Hp%no_error_ok & E). injection E as <- <-. unfold process_cluster_change in Hp.
      unfold known_role in Hk. destruct (pr_state (sp_processor s)); [done| |].
      * destruct (_ || _).
        -- injection Hp as <- <-. apply (Go [] [RReset]); cbn; [by left|by right|by rewrite app_nil_r|by eapply run_one].
        -- injection Hp as <- <-. apply (Go [] []); cbn; [by left|by left|by rewrite app_nil_r|by rewrite app_nil_r].
      * destruct (_ || _).
        -- cbn in Hp. injection Hp as <- <-.
           apply (Go [(SReset (the_order order s), OCancel (sender_reset (pr_sender (sp_processor s)) (the_order order s)).2)] []); cbn;
             [right; by eexists|by left| |by rewrite app_nil_r].
           eapply trace_snoc; [exact Ht|apply orders|done].
        -- injection Hp as <- <-. apply (Go [] []); cbn; [by left|by left|by rewrite app_nil_r|by rewrite app_nil_r].
    + apply bind_ok in Hcl as (x & Hx%no_error_ok & E). injection E as <-.
      apply (Go [(SStart to sn, ONone)] []); cbn; [done|done| |by rewrite app_nil_r].
      eapply trace_snoc; [exact Ht|cbn; apply (Hto to sn); apply elem_of_app; right; by left|cbn; by rewrite Hx].
    + apply bind_ok in Hcl as ([x q] & Hx%no_error_ok & E). injection E as <- <-.
      apply (Go [(SNext (the_order order s), OReq q)] []); cbn; [by do 2 eexists|done| |by rewrite app_nil_r].
      eapply trace_snoc; [exact Ht|apply orders|cbn; by rewrite Hx].
    + apply bind_ok in Hcl as (x & Hx%no_error_ok & E). injection E as <-.
      apply (Go [(SResp from delivery (response_of dec_ack <$> response), ONone)] []); cbn; [done|done| |by rewrite app_nil_r].
      eapply trace_snoc; [exact Ht|done|cbn; by rewrite Hx].
    + destruct (sender_try_complete _ _) as [x r] eqn:Hx. injection Hcl as <- <-.
      apply (Go [(SComplete (the_order order s), ODone r)] []); cbn; [by eexists|done| |by rewrite app_nil_r].
      eapply trace_snoc; [exact Ht|apply orders|cbn; by rewrite Hx].
    + apply bind_ok in Hcl as ([x a] & Hx%no_error_ok & E). injection E as <- <-.
      apply (Go [] [RReq (request_of dec_content request)]); cbn; [done|done|by rewrite app_nil_r|].
      eapply run_one; [exact Ho|]. cbn. by rewrite Hx.
    + apply bind_ok in Hcl as ([x a] & Hx%no_error_ok & E). injection E as <- <-.
      apply (Go [] [RPoll]); cbn; [done|done|by rewrite app_nil_r|].
      eapply run_one; [exact Ho|]. cbn. by rewrite Hx.
Qed.

(** Back and forth between the calls of the processor and those of its sender. *)
Lemma views_starts l t ops : views l t ops -> nstarts t = transfers l.
Proof using.
  intros (ts & os & H & -> & _). induction H as [|c es l ts Hc H IH]; [done|].
  unfold nstarts, transfers, Nlen in *. cbn [concat]. rewrite omap_app, app_length.
  assert (length (omap (λ '(op, _), match op with SStart r _ => Some r | _ => None end) es) =
    length (omap (fun c => match c with CStart to sn => Some to | _ => None end) [c]))%nat as E.
  { destruct c; cbn in Hc; try done; [..|by subst|by subst].
    - destruct Hc as [[-> _]|(ord & ->)]; done.
    - by subst.
    - destruct Hc as (ord & q & -> & _). done.
    - by subst.
    - by destruct Hc as (ord & ->). }
  rewrite E. change (c :: l) with ([c] ++ l). rewrite omap_app, app_length. rewrite !Nat2N.inj_add. by rewrite IH.
Qed.
Lemma views_find l : forall t1 r sn out t2 ops, views l (t1 ++ (SStart r sn, out) :: t2) ops ->
  exists l1 l2 o1 o2, l = l1 ++ CStart r sn :: l2 /\ views l1 t1 o1 /\ views l2 t2 o2.
Proof using.
  induction l as [|c l IH]; intros t1 r sn out t2 ops (ts & os & H1 & E & H2 & ->).
  - inversion H1; subst. by destruct t1.
  - inversion H1 as [|? es ? ts' Hc Hts]; subst. inversion H2 as [|? o ? os' Ho Hos]; subst. cbn [concat] in E.
    assert (es = [] \/ exists e, es = [e]) as [->|([op out'] & ->)].
    { destruct c; cbn in Hc; try done; [..|by left|by left].
      - destruct Hc as [[-> _]|(ord & ->)]; [by left|right; by eexists].
      - right; by eexists.
      - destruct Hc as (ord & q & -> & _). right; by eexists.
      - right; by eexists.
      - destruct Hc as (ord & ->). right; by eexists. }
    + cbn in E. destruct (IH t1 r sn out t2 (concat os')) as (l1 & l2 & o1 & o2 & -> & V1 & V2); [by exists ts', os'|].
      exists (c :: l1), l2, (o ++ o1), o2. split; [done|]. split; [|done].
      destruct V1 as (ts1 & os1 & A1 & -> & A2 & ->). exists ([] :: ts1), (o :: os1). split_and!; [by constructor|done|by constructor|done].
    + cbn in E. destruct t1 as [|e t1].
      * cbn in E. injection E as <- <- ->. exists [], l, [], (concat os'). split_and!; [|apply views_nil|by exists ts', os'].
        destruct c; cbn in Hc; try done.
        -- destruct Hc as [[? _]|(ord & ?)]; simplify_eq.
        -- by simplify_eq.
        -- destruct Hc as (ord & q & ? & _). simplify_eq.
        -- destruct Hc as (ord & ?). simplify_eq.
      * cbn in E. injection E as -> E. destruct (IH t1 r sn out t2 (concat os')) as (l1 & l2 & o1 & o2 & -> & V1 & V2); [by exists ts', os'|].
        exists (c :: l1), l2, (o ++ o1), o2. split; [done|]. split; [|done].
        destruct V1 as (ts1 & os1 & A1 & -> & A2 & ->). exists ([(op, out')] :: ts1), (o :: os1). split_and!; [by constructor|done|by constructor|done].
Qed.
Lemma views_call l t ops c : views l t ops -> c ∈ l -> exists es, sender_view c es /\ forall e, e ∈ es -> e ∈ t.
Proof using.
  intros (ts & os & H1 & -> & _). induction H1 as [|c' es l ts Hc H1 IH]; [by intros ?%elem_of_nil|].
  intros [->|Hin]%elem_of_cons; [exists es; split; [done|]; cbn; intros; apply elem_of_app; by left|].
  destruct (IH Hin) as (es' & ? & He). exists es'. split; [done|]. cbn. intros. apply elem_of_app. right. by apply He.
Qed.
Lemma views_event l t ops e : views l t ops -> e ∈ t -> exists c es, c ∈ l /\ sender_view c es /\ e ∈ es.
Proof using.
  intros (ts & os & H1 & -> & _). induction H1 as [|c' es l ts Hc H1 IH]; [by intros ?%elem_of_nil|].
  cbn. intros [He|He]%elem_of_app; [exists c', es; split; [by left|done]|]. destruct (IH He) as (c & es' & ? & ?). exists c, es'. split; [by right|done].
Qed.
Lemma views_request l t ops q : views l t ops -> RReq q ∈ ops -> exists m a, CRequest m a ∈ l /\ q = request_of dec_content m.
Proof using.
  intros (ts & os & _ & _ & H1 & ->). induction H1 as [|c es l os Hc H1 IH]; [by intros ?%elem_of_nil|].
  cbn. intros [He|He]%elem_of_app.
  - destruct c; cbn in Hc; subst; try (by apply elem_of_nil in He).
    + destruct Hc as [->| ->]; [by apply elem_of_nil in He|]. by apply elem_of_list_singleton in He.
    + apply elem_of_list_singleton in He. injection He as ->. exists request, answer. split; [by left|done].
    + by apply elem_of_list_singleton in He.
  - destruct (IH He) as (m & a & ? & ?). exists m, a. split; [by right|done].
Qed.

Notation rtrace id cfg := (sender_trace enc_meta (sender_init id cfg)).
(** A transfer that goes on is in progress. *)
Lemma live_view id cfg pre r sn out post : forall t ops s, rtrace id cfg (pre ++ (SStart r sn, out) :: t) s ->
  views post t ops -> goes_on r post -> live_since r t.
Proof using.
  induction post as [|c post IH] using rev_ind; intros t ops s Ht V Hg.
  { destruct V as (ts & os & H1 & -> & _). inversion H1; subst. by intros ? ? ?%elem_of_nil. }
  apply views_split in V as (t1 & t2 & o1 & o2 & -> & -> & V1 & V2).
  assert (goes_on r post) as Hg1 by (intros c' Hc'; apply Hg; apply elem_of_app; by left).
  assert (exists s1, rtrace id cfg (pre ++ (SStart r sn, out) :: t1) s1) as (s1 & Ht1).
  { eapply (trace_prefix _ t2). rewrite <- app_assoc. exact Ht. }
  specialize (IH _ _ _ Ht1 V1 Hg1). specialize (Hg c (proj2 (elem_of_app _ _ _) (or_intror (elem_of_list_here _ _)))).
  intros op o [Hin|Hin]%elem_of_app; [by apply IH|].
  destruct V2 as (ts & os & H1 & -> & _). inversion H1 as [|? es ? ? Hc Hn]; subst. inversion Hn; subst. cbn in Hin. rewrite app_nil_r in Hin.
  cbn [concat] in Ht. rewrite app_nil_r in Ht.
  destruct c; cbn in Hc; try done; [..|subst; by apply elem_of_nil in Hin|subst; by apply elem_of_nil in Hin].
  - destruct Hc as [[-> _]|(ord & ->)]; [by apply elem_of_nil in Hin|]. exfalso.
    rewrite app_comm_cons, app_assoc in Ht. apply trace_inv in Ht as (s2 & Ht2 & Hok & Hst). cbn in Hok, Hst.
    pose proof (reset_cancels _ _ _ _ _ ord Ht2 Hok) as Hr. unfold sender_reset in Hr. destruct Hr as (_ & _ & _ & Hr).
    injection Hst as _ Hst. rewrite Hst in Hr. apply Hg. apply Hr. by exists pre, sn, out, t1.
  - subst. apply elem_of_list_singleton in Hin. simplify_eq. split_and!; [|done|done]. congruence.
  - destruct Hc as (ord & q & -> & _). apply elem_of_list_singleton in Hin. by simplify_eq.
  - subst. apply elem_of_list_singleton in Hin. by simplify_eq.
  - destruct Hc as (ord & ->). apply elem_of_list_singleton in Hin. simplify_eq. split_and!; [done|done|]. intros x [= ->]. cbn in Hg. done.
Qed.
Lemma live_goes r l t ops : views l t ops -> live_since r t -> goes_on r l.
Proof using.
  intros V Hl c Hc. destruct (views_call _ _ _ _ V Hc) as (es & Hv & He). destruct c as [| |to sn|  | |[[to x]|]| |]; cbn in Hv; try done.
  - destruct Hv as [[_ ->]|(ord & ->)]; [by apply not_elem_of_nil|]. specialize (He _ (elem_of_list_here _ _)). apply Hl in He as (_ & He & _). by destruct (He ord).
  - subst. specialize (He _ (elem_of_list_here _ _)). apply Hl in He as (He & _). intros ->. by destruct (He sn).
  - destruct Hv as (ord & ->). specialize (He _ (elem_of_list_here _ _)). apply Hl in He as (_ & _ & He). intros ->. by destruct (He x).
Qed.
(** Requests carry something, and are known by their numbers. *)
Lemma trace_request id cfg t : forall s op q, rtrace id cfg t s -> (op, OReq (Some q)) ∈ t ->
  dq_sender q = id /\ (exists c, dq_payload q = Some (Some c)) /\ exists sn out, (SStart (dq_recipient q) sn, out) ∈ t.
Proof using.
  induction t as [|e t IH] using rev_ind; intros s op q H Hin; [by apply elem_of_nil in Hin|].
  apply trace_inv in H as (s1 & Ht & Hok & Hst). apply elem_of_app in Hin as [Hin|Hin].
  - destruct (IH _ _ _ Ht Hin) as (? & ? & sn & o & Ho). split; [done|]. split; [done|]. exists sn, o. apply elem_of_app. by left.
  - apply elem_of_list_singleton in Hin. subst e. cbn in Hok, Hst. pose proof (sinv_trace _ _ _ _ _ Ht) as Hi.
    destruct op as [r0 sn0|ord|r0 d resp|ord|ord]; cbn in Hst.
    + destruct (sender_start _ _ _); simpl in Hst; by simplify_eq.
    + destruct (next_request_cases _ _ _ _ _ _ _ Hi Hok) as [[Hn Hc]|(r' & st0 & st' & c & Hf & Hr & Hv & Hmin & Hch & Hn)]; rewrite Hn in Hst; cbn in Hst; simplify_eq.
      cbn. split; [done|]. split; [by eexists|].
      destruct (si_recv _ _ _ _ _ _ Hi _ _ Hr) as [_ _ _ _ (pre & sn & o & post & He & _)]. exists sn, o. rewrite He. apply elem_of_app. left. apply elem_of_app. right. by left.
    + destruct (sender_process_response _ _ _ _); simpl in Hst; by simplify_eq.
    + destruct (sender_try_complete _ _); by simplify_eq.
    + by simplify_eq.
Qed.
Lemma sent_elem t q : q ∈ sent_requests t <-> exists op, (op, OReq (Some q)) ∈ t.
Proof using.
  unfold sent_requests. rewrite elem_of_list_omap. split.
  - intros ([op o] & Hin & E). destruct o as [|[q'|]| |]; simplify_eq. by exists op.
  - intros (op & Hin). by exists (op, OReq (Some q)).
Qed.
Lemma trace_deliveries id cfg t s : rtrace id cfg t s -> NoDup (dq_delivery <$> sent_requests t).
Proof using.
  intros H. rewrite (si_dels _ _ _ _ _ _ (sinv_trace _ _ _ _ _ H)). apply NoDup_fmap_2; [intros x y; lia|].
  unfold range. apply (NoDup_fmap_2 N.of_nat). apply NoDup_ListNoDup, seq_NoDup.
Qed.
Lemma same_delivery id cfg t s op1 op2 q1 q2 : rtrace id cfg t s -> (op1, OReq (Some q1)) ∈ t -> (op2, OReq (Some q2)) ∈ t ->
  dq_delivery q1 = dq_delivery q2 -> q1 = q2.
Proof using.
  intros Ht H1 H2 E. assert (q1 ∈ sent_requests t /\ q2 ∈ sent_requests t) as [[i Hi]%elem_of_list_lookup [j Hj]%elem_of_list_lookup].
  { split; apply sent_elem; by eexists. }
  pose proof (trace_deliveries _ _ _ _ Ht) as Hnd.
  assert (i = j) as ->; [|congruence]. eapply NoDup_lookup; [exact Hnd| |]; rewrite list_lookup_fmap; [by rewrite Hi|by rewrite Hj, E].
Qed.
Hypothesis content_codec : forall c, dec_content (enc_content c) = Some c.
Lemma request_round q c : dq_payload q = Some (Some c) -> request_of dec_content (of_request enc_content q) = q.
Proof using content_codec. intros H. destruct q. cbn in *. subst. unfold request_of. cbn. by rewrite content_codec. Qed.

(** What a call of the log says. *)
Lemma log_answer l s m a : rlogged l s -> CRequest m a ∈ l -> exists st st' resp,
  process_request st (request_of dec_content m) = Ok (st', resp) /\ a = of_response enc_ack resp.
Proof using.
  intros H (l1 & l2 & ->)%elem_of_list_split. apply logged_at in H as (s1 & s2 & _ & Hc). cbn in Hc.
  apply bind_ok in Hc as ([x r] & Hx%no_error_ok & E). injection E as _ <-. by exists (pr_receiver (sp_processor s1)), x, r.
Qed.
Lemma log_given_up l s ld t ids g r x : rlogged l s -> CCluster ld t ids g ∈ l -> (r, x) ∈ g -> x = Failure.
Proof using.
  intros H (l1 & l2 & ->)%elem_of_list_split Hg. apply logged_at in H as (s1 & s2 & _ & Hc). cbn in Hc.
  apply bind_ok in Hc as ([p g'] & Hp%no_error_ok & E). injection E as _ <-. unfold process_cluster_change in Hp.
  destruct (pr_state _); [done|injection Hp as _ <-; by apply elem_of_nil in Hg|].
  destruct (_ || _); cbn in Hp; injection Hp as _ <-; [|by apply elem_of_nil in Hg].
  apply elem_of_list_fmap in Hg as ([k v] & [= _ ->] & _). done.
Qed.
Lemma log_next l s m : (forall to sn, CStart to sn ∈ l -> to <> 0) -> rlogged l s -> CNext (Some m) ∈ l ->
  exists id cfg rest t ops q op, l = CInit id cfg :: rest /\ views rest t ops /\ rtrace id cfg t (pr_sender (sp_processor s)) /\
    (op, OReq (Some q)) ∈ t /\ m = of_request enc_content q.
Proof using orders.
  intros Hto H Hin. destruct (logged_state _ _ Hto H) as [[-> _]|(id & cfg & rest & t & ops & -> & Hk & V & Ht & _)]; [by apply elem_of_nil in Hin|].
  apply elem_of_cons in Hin as [?|Hin]; [done|]. destruct (views_call _ _ _ _ V Hin) as (es & (ord & [q|] & -> & E) & He); [|done].
  cbn in E. injection E as ->. exists id, cfg, rest, t, ops, q, (SNext ord). split_and!; try done. apply He. by left.
Qed.
End Real.
