(** Theorems about snapshots on their way from one assembled replica to another
    (C98). *)
From Verif Require Import Base StorageModel SnapshotModel SnapshotSpec SnapshotProofs SnapshotRecvProofs SnapshotTraceProofs SnapshotTheorems
  CommModel ActorModel DriverModel DriverSpec DriverProofs DriverTheorems ReplicaModel ReplicaTransferSpec ReplicaTransferProofs.

(** * C98 *)
(** Whatever the snapshot processor is told comes from the communication module,
    from consensus or from the host, and whatever it answers is passed on to
    communication or to consensus; nothing else is reported to consensus, but for
    snapshots that were to be sent by a replica that may not send any. *)
Theorem C98_processor_is_connected {RS SP CS ST REQ RESP} codec (rops : raft_ops RS) (sops : snap_ops SP)
  (cops : comm_ops CS REQ RESP) (app : actor ST) r s c xs d outs :
  reaches codec rops (log_snap sops) cops app r (s, []) c xs d outs ->
  (forall k, k ∈ snap_calls d -> accounted_for cops xs d k) /\
  (forall to x, KReport to x ∈ raft_calls d -> report_explained d to x).
Proof.
  intros H. eapply (reaches_tied codec rops sops cops app s (fun _ => True)) in H as [H1 H2 _ _ _]; try done.
Qed.

Section Theorems.
Variable enc_meta : snap_meta -> bytes.
Variable dec_meta : bytes -> option snap_meta.
Variable enc_content : content -> bytes.
Variable dec_content : bytes -> option content.
Variable enc_ack : ack -> bytes.
Variable dec_ack : bytes -> option ack.
(** What is encoded can be decoded. *)
Definition codecs_agree : Prop :=
  (forall m, dec_meta (enc_meta m) = Some m) /\ (forall c, dec_content (enc_content c) = Some c) /\
  (forall a, dec_ack (enc_ack a) = Some a).
(** A replica [d] with the snapshot processor of the code, whose hash maps may be
    iterated in any order, and whose consensus sends nothing to a replica 0. *)
Definition replica_in {RS CS ST REQ RESP} (d : rdriver RS (snapper * list snap_call) CS ST REQ RESP) : Prop :=
  (exists codec rops cops app order r c xs outs,
     (forall n m, order n m ≡ₚ (map_to_list m).*1) /\
     reaches codec rops (log_snap (real_snap enc_meta dec_meta enc_content dec_content enc_ack dec_ack order))
       cops app r (snapper_new, []) c xs d outs) /\
  forall to sn, asked_for_snapshot (raft_calls d) to sn -> to <> 0.

Section One.
Context {RS CS ST REQ RESP : Type}.
Variable d : rdriver RS (snapper * list snap_call) CS ST REQ RESP.
Notation rlogged order := (logged (real_snap enc_meta dec_meta enc_content dec_content enc_ack dec_ack order) snapper_new known_role).
Lemma replica_facts : replica_in d ->
  (exists order, (forall n m, order n m ≡ₚ (map_to_list m).*1) /\ rlogged order (snap_calls d) (d_snap d).1) /\
  (forall id cfg, CInit id cfg ∈ snap_calls d -> id = d_id d) /\
  (forall from n m, CResponse from n (Some m) ∈ snap_calls d -> from = pm_sender m /\ n = pm_delivery m) /\
  (forall from sn, CReceived (Some (Some (from, sn))) ∈ snap_calls d -> KStep (RMsg MsgSnapshot (d_id d) from (Some sn) []) ∈ raft_calls d) /\
  (forall to sn, CStart to sn ∈ snap_calls d -> asked_for_snapshot (raft_calls d) to sn) /\
  (forall to x, KReport to x ∈ raft_calls d -> report_explained d to x) /\
  (forall to sn, CStart to sn ∈ snap_calls d -> to <> 0).
Proof using.
  intros [(codec & rops & cops & app & order & r & c & xs & outs & Ho & H) Hto].
  eapply (reaches_tied codec rops _ cops app snapper_new known_role) in H as [H1 H2 _ _ H5];
    [|apply real_role|apply real_cluster|apply real_called].
  split_and!; [by exists order| | | | |done|].
  - intros id cfg Hi. exact (H1 _ Hi).
  - intros from n m Hi. apply H1 in Hi as (? & ? & _). done.
  - intros from sn Hi. exact (H1 _ Hi).
  - intros to sn Hi. exact (H1 _ Hi).
  - intros to sn Hi. apply H1 in Hi. by eapply Hto.
Qed.

(** The messages of the processor are requests for the replicas snapshots are to be
    sent to, and answers to those who asked. They say so, they are sent in the name
    of this replica, and no two requests have the same number. *)
Theorem C98_messages_are_addressed : codecs_agree -> replica_in d ->
  (forall m, CNext (Some m) ∈ snap_calls d ->
     pm_kind m = KSnapshotRequest /\ pm_sender m = d_id d /\ (exists c, carries dec_content m c) /\
     exists sn, asked_for_snapshot (raft_calls d) (pm_recipient m) sn) /\
  (forall m m', CNext (Some m) ∈ snap_calls d -> CNext (Some m') ∈ snap_calls d -> pm_delivery m = pm_delivery m' -> m = m') /\
  (forall m answer, CRequest m answer ∈ snap_calls d ->
     pm_kind answer = KSnapshotResponse /\ pm_sender answer = pm_recipient m /\ pm_recipient answer = pm_sender m /\
     pm_delivery answer = pm_delivery m /\ exists a, carries dec_ack answer a).
Proof using.
  intros (_ & Hc & Ha) Hd. destruct (replica_facts Hd) as ((order & Ho & Hl) & Hi & _ & _ & Hs & _ & Hto).
  split_and!.
  - intros m Hm. destruct (log_next _ _ _ _ _ _ _ Ho _ _ _ Hto Hl Hm) as (id & cfg & rest & t & ops & q & op & E & V & Ht & Hq & ->).
    destruct (trace_request _ _ _ _ _ _ _ Ht Hq) as (<- & (k & Hk) & sn & out & Hst).
    split; [done|]. split; [apply (Hi _ cfg); rewrite E; by left|]. split.
    + exists k. unfold carries, of_request, encoded. cbn. rewrite Hk. eexists. split; [done|]. cbn. auto.
    + exists sn. apply Hs. rewrite E. right. destruct (views_event _ _ _ _ _ _ _ V Hst) as (c & es & Hin & Hv & He). cbn.
      destruct c; cbn in Hv; try done.
      * destruct Hv as [[-> _]|(ord & ->)]; [by apply elem_of_nil in He|by apply elem_of_list_singleton in He].
      * subst. apply elem_of_list_singleton in He. by simplify_eq.
      * destruct Hv as (? & ? & -> & _). by apply elem_of_list_singleton in He.
      * subst. by apply elem_of_list_singleton in He.
      * destruct Hv as (? & ->). by apply elem_of_list_singleton in He.
      * subst. by apply elem_of_nil in He.
      * subst. by apply elem_of_nil in He.
  - intros m m' Hm Hm' E. destruct (log_next _ _ _ _ _ _ _ Ho _ _ _ Hto Hl Hm) as (id & cfg & rest & t & ops & q & op & El & V & Ht & Hq & ->).
    rewrite El in Hm'. apply elem_of_cons in Hm' as [?|Hm']; [done|]. destruct (views_call _ _ _ _ _ _ _ V Hm') as (es & (ord & [q'|] & -> & E') & He); [|done].
    cbn in E'. injection E' as ->. specialize (He _ (elem_of_list_here _ _)). cbn in E. by rewrite (same_delivery _ _ _ _ _ _ _ _ _ Ht Hq He E).
  - intros m a Hm. destruct (log_answer _ _ _ _ _ _ _ _ _ _ _ Hl Hm) as (st & st' & resp & Hr & ->).
    apply process_request_ack in Hr as (E1 & E2 & E3 & k & Hk & _). cbn. split_and!; try done.
    exists k. unfold carries, of_response, encoded. cbn. rewrite Hk. eexists. split; [done|]. cbn. auto.
Qed.
End One.

Section Two.
Context {RS CS ST REQ RESP RS' CS' ST' REQ' RESP' : Type}.
Variable a : rdriver RS (snapper * list snap_call) CS ST REQ RESP.
Variable b : rdriver RS' (snapper * list snap_call) CS' ST' REQ' RESP'.

(** If all that replica [b] hears from replica [a] about snapshots are requests of
    one transfer, then the only snapshot that [b] receives from [a] is the one
    consensus of [a] asked to be sent in that transfer, and consensus of [b] is given
    it. Requests may be lost, repeated, and arrive in any order, and others
    may send requests as well. *)
Theorem C98_snapshots_arrive_as_sent : forall before r sn after later got,
  codecs_agree -> replica_in a -> replica_in b ->
  snap_calls a = before ++ CStart r sn :: after ++ later -> goes_on r after ->
  (forall m answer, CRequest m answer ∈ snap_calls b -> pm_sender m = d_id a -> pm_recipient m = r /\ CNext (Some m) ∈ after) ->
  CReceived (Some (Some (d_id a, got))) ∈ snap_calls b ->
  got = sn /\ asked_for_snapshot (raft_calls a) r sn /\ KStep (RMsg MsgSnapshot (d_id b) (d_id a) (Some sn) []) ∈ raft_calls b.
Proof using.
  intros before r sn after later got (Hcm & Hcc & Hca) Ha Hb Hlog Hgo Hheard Hgot.
  destruct (replica_facts a Ha) as ((order & Ho & Hl) & Hi & _ & _ & Hs & _ & Hto).
  destruct (replica_facts b Hb) as ((order' & Ho' & Hl') & Hi' & _ & Hrec & _ & _ & Hto').
  assert (got = sn) as ->; [|split_and!; [done|apply Hs; rewrite Hlog; apply elem_of_app; right; by left|by apply Hrec]].
  pose proof Hl as Hl0. rewrite Hlog in Hl0.
  assert (forall to sn', CStart to sn' ∈ before ++ CStart r sn :: after ++ later -> to <> 0) as Hto0 by (intros to sn'; rewrite <- Hlog; apply Hto).
  destruct (logged_state _ _ _ _ _ _ _ Ho _ _ Hto0 Hl0) as [[E _]|(id & cfg & rest & t & ops & E & _ & V & Ht & _)]; [by apply app_nil in E as [_ ?]|].
  assert (id = d_id a) as ->. { apply (Hi id cfg). rewrite Hlog, E. by left. }
  destruct before as [|c0 before]; [done|]. cbn in E. injection E as -> <-.
  apply views_split in V as (t1 & t2 & o1 & o2 & -> & -> & V1 & V2).
  change (CStart r sn :: after ++ later) with ([CStart r sn] ++ after ++ later) in V2. apply views_split in V2 as (t3 & t45 & o3 & o45 & -> & -> & V3 & V45).
  apply views_split in V45 as (t4 & t5 & o4 & o5 & -> & -> & V4 & V5).
  destruct V3 as (ts & os & F1 & -> & _). inversion F1 as [|? es ? ? Hv Hn]; subst. inversion Hn; subst. cbn in Hv. subst es. cbn [concat app] in Ht.
  rewrite (app_assoc t1 (_ :: t4) t5 : t1 ++ (SStart r sn, ONone) :: t4 ++ t5 = (t1 ++ _ :: t4) ++ t5) in Ht.
  apply trace_prefix in Ht as (s0 & Ht).
  pose proof (live_view _ _ _ _ _ _ _ _ _ _ _ _ _ _ Ht V4 Hgo) as Hlive.
  apply elem_of_list_split in Hgot as (l1 & l2 & Hb2). rewrite Hb2 in Hl'. apply logged_at in Hl' as (s1 & s2 & Hl1 & Hcall).
  cbn in Hcall. apply bind_ok in Hcall as ([x res] & Hres%no_error_ok & E). injection E as _ ->.
  assert (forall to sn', CStart to sn' ∈ l1 -> to <> 0) as Hto1.
  { intros to sn' Hin. apply (Hto' to sn'). rewrite Hb2. apply elem_of_app. by left. }
  destruct (logged_state _ _ _ _ _ _ _ Ho' _ _ Hto1 Hl1) as [[-> ->]|(id & cfg' & rest & t' & ops & -> & _ & V & _ & Hrun)]; [done|].
  eapply (end_to_end enc_meta dec_meta Hcm); [exact Ht|done|exact Hlive|exact Hrun| |exact Hres].
  intros q Hq Hsend. destruct (views_request _ _ _ _ _ _ _ V Hq) as (m & ans & Hm & ->).
  destruct (Hheard m ans) as [Hrp Hnx]; [rewrite Hb2; apply elem_of_app; left; by right|exact Hsend|].
  destruct (views_call _ _ _ _ _ _ _ V4 Hnx) as (es & (ord & [q|] & -> & Eq) & He); [|done]. cbn in Eq. injection Eq as ->.
  specialize (He _ (elem_of_list_here _ _)).
  destruct (trace_request _ _ _ _ _ (SNext ord) q Ht) as (_ & (k & Hk) & _).
  { apply elem_of_app. right. by right. }
  rewrite (request_round _ _ Hcc _ _ Hk). unfold requests_to. apply elem_of_list_omap. exists (SNext ord, OReq (Some q)).
  split; [done|]. cbn in Hrp. by rewrite Hrp, N.eqb_refl.
Qed.

(** If consensus of replica [a] is told that sending a snapshot to [r] has succeeded,
    it had asked for that, and all pieces of the snapshot have been given to replica
    [b], one by one, and accepted: provided that the acceptances which [a] hears from
    [r] are answers of [b], and that all that [b] hears from [a] about snapshots is
    what [a] sent. *)
Theorem C98_success_means_accepted : forall r,
  codecs_agree -> replica_in a -> replica_in b ->
  (forall n m id k, CResponse r n (Some m) ∈ snap_calls a -> carries dec_ack m (Ack id k AckAccepted) ->
     exists request, CRequest request m ∈ snap_calls b /\ pm_sender request = d_id a) ->
  (forall m answer, CRequest m answer ∈ snap_calls b -> pm_sender m = d_id a -> CNext (Some m) ∈ snap_calls a) ->
  KReport r Finish ∈ raft_calls a ->
  exists config before sn after last n,
    snap_calls a = CInit (d_id a) config :: before ++ CStart r sn :: after ++ CSent (Some (r, Finish)) :: last /\
    goes_on r after /\ asked_for_snapshot (raft_calls a) r sn /\
    let size := match config with Some (size, _) => size | None => 1024 * 1024 end in
    is_piece_count size (sn_data sn) n /\
    forall k, k < n -> exists request answer,
      CRequest request answer ∈ snap_calls b /\ pm_sender request = d_id a /\ pm_recipient request = r /\
      carries dec_content request (transfer_content enc_meta size (transfers before + 1) sn k) /\
      carries dec_ack answer (Ack (transfers before + 1) k AckAccepted).
Proof using.
  intros r (Hcm & Hcc & Hca) Ha Hb Hresp Hreq Hrep.
  destruct (replica_facts a Ha) as ((order & Ho & Hl) & Hi & Hrs & _ & Hs & Hex & Hto).
  destruct (replica_facts b Hb) as ((order' & Ho' & Hl') & Hi' & _ & _ & _ & _ & Hto').
  apply Hex in Hrep as [Hsent|[(ld & tm & ids & g & Hcl & Hg)|[? _]]]; [|by eapply log_given_up in Hl; [|exact Hcl|exact Hg]|done].
  apply elem_of_list_split in Hsent as (l1 & last & Hlog).
  destruct (logged_state _ _ _ _ _ _ _ Ho _ _ Hto Hl) as [[E _]|(id & cfg & rest & t & ops & E & _ & V & Ht & _)]; [rewrite E in Hlog; by destruct l1|].
  assert (id = d_id a) as ->. { apply (Hi id cfg). rewrite E. by left. }
  destruct l1 as [|c0 l1]; [rewrite E in Hlog; done|]. pose proof Hlog as Hlog'. rewrite E in Hlog'. cbn in Hlog'. injection Hlog' as <- Erest. subst rest.
  pose proof V as Vall. pose proof Ht as Htall.
  apply views_split in V as (t1 & t2 & o1 & o2 & -> & -> & V1 & V2).
  change (CSent (Some (r, Finish)) :: last) with ([CSent (Some (r, Finish))] ++ last) in V2. apply views_split in V2 as (t3 & t4 & o3 & o4 & -> & -> & V3 & V4).
  destruct V3 as (ts & os & F1 & -> & _). inversion F1 as [|? es ? ? Hv Hn]; subst. inversion Hn; subst. cbn in Hv. destruct Hv as (ord & ->). cbn [concat app] in Ht, Htall.
  rewrite (app_assoc t1 [_] t4 : t1 ++ (SComplete ord, ODone (Some (r, Finish))) :: t4 = (t1 ++ [_]) ++ t4) in Ht.
  apply trace_prefix in Ht as (s1 & Ht). destruct (reported_transfer _ _ _ _ _ _ _ _ Ht) as (pre & sn & out & post & n & -> & Hlive & Hpc & Hack & _ & Hpay).
  apply views_find in V1 as (before & after & ob & oa & -> & Vb & Va).
  assert (Hsize : sd_chunk_size (sender_init (d_id a) cfg) = match cfg with Some (size, _) => size | None => 1024 * 1024 end).
  { by destruct cfg as [[]|]. }
  rewrite Hsize in Hpc, Hpay.
  exists cfg, before, sn, after, last, n. cbv zeta. split_and!.
  - rewrite E. by rewrite <- app_assoc.
  - by eapply live_goes.
  - apply Hs. rewrite E. right. apply elem_of_app. left. apply elem_of_app. right. by left.
  - exact Hpc.
  - intros k Hk. destruct (Hack k Hk) as (ta & tb & tc & op & q & resp & o & it & Epost & Hqr & Hqp & Hit & Hrp).
    assert ((SResp r (dq_delivery q) (Some resp), o) ∈ post) as Hin1. { rewrite Epost. apply elem_of_app. right. right. apply elem_of_app. right. by left. }
    assert ((op, OReq (Some q)) ∈ post) as Hin2. { rewrite Epost. apply elem_of_app. right. by left. }
    destruct (views_event _ _ _ _ _ _ _ Va Hin1) as (c & es & Hc & Hv & He).
    assert (exists m, c = CResponse r (dq_delivery q) (Some m) /\ response_of dec_ack m = resp) as (m & -> & Em).
    { clear -Hv He. destruct c; cbn in Hv; try done.
      - destruct Hv as [[-> _]|(? & ->)]; [by apply elem_of_nil in He|by apply elem_of_list_singleton in He].
      - subst. by apply elem_of_list_singleton in He.
      - destruct Hv as (? & ? & -> & _). by apply elem_of_list_singleton in He.
      - subst. apply elem_of_list_singleton in He. injection He as <- <- He _. destruct response as [m|]; [|done]. cbn in He. injection He as He. by exists m.
      - destruct Hv as (? & ->). by apply elem_of_list_singleton in He.
      - subst. by apply elem_of_nil in He.
      - subst. by apply elem_of_nil in He. }
    assert (CResponse r (dq_delivery q) (Some m) ∈ snap_calls a) as Hca1.
    { rewrite E. right. apply elem_of_app. left. apply elem_of_app. right. by right. }
    assert (carries dec_ack m (Ack (nstarts pre + 1) k AckAccepted)) as Hcar.
    { rewrite <- Em in Hrp. cbn in Hrp. destruct (pm_payload m) as [p|] eqn:Ep; [|done]. cbn in Hrp. injection Hrp as Hrp. by exists p. }
    destruct (Hresp _ _ _ _ Hca1 Hcar) as (q0 & Hq0 & Hs0).
    destruct (Hrs _ _ _ Hca1) as [_ Hdl].
    destruct (log_answer _ _ _ _ _ _ _ _ _ _ _ Hl' Hq0) as (st & st' & resp0 & Hpr & ->).
    apply process_request_ack in Hpr as (_ & _ & E3 & ak & Hak & _).
    pose proof (Hreq _ _ Hq0 Hs0) as Hnx. rewrite E in Hnx. apply elem_of_cons in Hnx as [?|Hnx]; [done|].
    destruct (views_call _ _ _ _ _ _ _ Vall Hnx) as (es' & (ord' & [q1|] & -> & E1) & He1); [|done]. cbn in E1. injection E1 as ->.
    specialize (He1 _ (elem_of_list_here _ _)).
    assert (q1 = q) as ->.
    { eapply (same_delivery _ _ _ _ _ _ _ _ _ Htall); [exact He1| |].
      - apply elem_of_app. left. apply elem_of_app. right. right. exact Hin2.
      - cbn in E3. cbn in Hdl. congruence. }
    exists (of_request enc_content q), (of_response enc_ack resp0). rewrite <- (views_starts _ _ _ _ _ _ Vb).
    split_and!; [exact Hq0|exact Hs0|exact Hqr| |exact Hcar].
    assert (dq_payload q ∈ dq_payload <$> requests_to r post) as Hp.
    { apply elem_of_list_fmap. exists q. split; [done|]. unfold requests_to. apply elem_of_list_omap. exists (op, OReq (Some q)). split; [done|]. by rewrite Hqr, N.eqb_refl. }
    rewrite Hpay in Hp. apply elem_of_list_fmap in Hp as (k' & Hk' & _).
    assert (k' = k) as ->.
    { rewrite Hk' in Hqp. unfold transfer_content in Hqp. injection Hqp as Hqp. rewrite <- Hit, <- Hqp. destruct (k' =? 0) eqn:E0; [by apply N.eqb_eq in E0|done]. }
    unfold carries, of_request, encoded. cbn. rewrite Hk'. eexists. split; [done|]. cbn. apply Hcc.
Qed.
End Two.
End Theorems.

(** ** Two replicas *)
Definition tiny_enc_content (c : content) : bytes :=
  ct_snapshot_id c :: match ct_it c with
  | None => []
  | Some (CHeader size m b) => 0 :: size :: Nlen m :: m ++ b
  | Some (CChunk i b) => 1 :: i :: b
  end.
Definition tiny_dec_content (l : bytes) : option content :=
  match l with
  | [id] => Some (Content id None)
  | id :: 0 :: size :: n :: l => Some (Content id (Some (CHeader size (take (N.to_nat n) l) (drop (N.to_nat n) l))))
  | id :: 1 :: i :: b => Some (Content id (Some (CChunk i b)))
  | _ => None
  end.
Definition tiny_enc_ack (a : ack) : bytes :=
  [ak_snapshot_id a; ak_chunk_index a;
   match ak_status a with AckUnspecified => 0 | AckAccepted => 1 | AckRejected => 2 | AckCorrupted => 3 end].
Definition tiny_dec_ack (l : bytes) : option ack :=
  match l with
  | [s; c; 0] => Some (Ack s c AckUnspecified)
  | [s; c; 1] => Some (Ack s c AckAccepted)
  | [s; c; 2] => Some (Ack s c AckRejected)
  | [s; c; 3] => Some (Ack s c AckCorrupted)
  | _ => None
  end.
Lemma tiny_agree : codecs_agree toy_enc toy_dec tiny_enc_content tiny_dec_content tiny_enc_ack tiny_dec_ack.
Proof.
  split_and!.
  - apply SnapshotTheorems.toy_codec.
  - intros [i [[s m b|j b]|]]; cbn; try done. unfold Nlen. by rewrite Nat2N.id, take_app, drop_app.
  - by intros [i c []].
Qed.
(** Replica 1 leads replica 2. In its first tick it asks for a snapshot of five bytes
    to be sent to replica 2. *)
Definition pair_sent : snapshot := demo_snap [1; 2; 3; 4; 5].
Definition pair_ready : ready :=
  Ready [RMsg MsgSnapshot 2 1 (Some pair_sent) []] [] [] [] None (Snapshot 0 0 (conf_of_voters []) []) 1.
Definition pair_ops : raft_ops (bool * N) := RaftOps (bool * N)
  (fun r => negb (r.2 =? 0)) fst (fun r => if r.2 =? 0 then raft_st0 else RaftSt 1 1 [1; 2] false)
  (fun _ _ _ _ leader _ => Ok (leader, 1)) (fun r _ => (r, true)) (fun r _ => Ok r) (fun r _ => (r, None)) (fun r => (r.1, r.2 + 1))
  (fun r c => Ok (r, conf_of_voters [1; 2])) (fun r => r.1 && (r.2 =? 2))
  (fun r => ((r.1, 3), pair_ready)) (fun r _ => (r, LightReady [] [])) (fun r => r)
  (fun r _ _ => r) (fun r _ => r) (fun r _ => Ok r) (fun r _ => Ok r) (fun _ _ _ => false) (fun r _ _ _ => Ok r) (fun _ => 0).
Definition pair_start (leader : bool) (id : N) : option (option (host_in unit unit)) :=
  Some (Some (HStart (StartRequest leader id (Some (RaftConfig 10 5 2 0 (Some (SnapshotConfig 100 2 2)) 1)) [7] false true))).
Notation pair_snap := (log_snap (real_snap toy_enc toy_dec tiny_enc_content tiny_dec_content tiny_enc_ack tiny_dec_ack (fun _ m => (map_to_list m).*1))).
Notation pair_run := (run toy_codec pair_ops pair_snap toy_comm toy_app (fresh (false, 0) (snapper_new, []) tt)).
(** The three requests and the answers to them. *)
Definition pair_request (k : N) : peer_msg :=
  PeerMsg KSnapshotRequest 2 1 (k + 1) (Some (Payload (tiny_enc_content (transfer_content toy_enc 2 1 pair_sent k)) [])).
Definition pair_answer (k : N) : peer_msg :=
  PeerMsg KSnapshotResponse 1 2 (k + 1) (Some (Payload (tiny_enc_ack (Ack 1 k AckAccepted)) [])).
Definition pair_peer (m : peer_msg) : option (option (host_in unit unit)) := Some (Some (HPeer m)).
Definition pair_history1 : list (delivery unit unit) :=
  [(5, pair_start true 1); (20, Some (Some HCheck)); (21, pair_peer (pair_answer 0)); (22, pair_peer (pair_answer 1));
   (23, pair_peer (pair_answer 2))].
Definition pair_history2 : list (delivery unit unit) :=
  [(5, pair_start false 2); (20, Some (Some HCheck)); (21, pair_peer (pair_request 0)); (22, pair_peer (pair_request 1));
   (23, pair_peer (pair_request 2))].
(** What the processors of the two are told and answer. *)
Definition pair_before : list snap_call := [CReceived None; CReceived None; CCluster 1 1 [1] []].
Definition pair_after : list snap_call :=
  [CNext (Some (pair_request 0)); CNext (Some (pair_request 1)); CNext None;
   CResponse 2 1 (Some (pair_answer 0)); CSent None; CNext (Some (pair_request 2)); CNext None;
   CResponse 2 2 (Some (pair_answer 1)); CSent None; CNext None; CResponse 2 3 (Some (pair_answer 2))].
Definition pair_log1 : list snap_call :=
  CInit 1 (Some (2, 2)) :: pair_before ++ CStart 2 pair_sent :: pair_after ++ CSent (Some (2, Finish)) :: [CNext None].
Definition pair_log2 : list snap_call :=
  [CInit 2 (Some (2, 2)); CReceived None; CReceived None; CCluster 1 1 [1; 2] [];
   CRequest (pair_request 0) (pair_answer 0); CReceived None; CRequest (pair_request 1) (pair_answer 1); CReceived None;
   CRequest (pair_request 2) (pair_answer 2); CReceived (Some (Some (1, pair_sent)))].
Lemma pair_run1 : match pair_run pair_history1 with
  | Ok (d, _) => d_id d = 1 /\ snap_calls d = pair_log1 /\
      raft_calls d = [KInit 1 true [7]; KTick; KReady pair_ready; KLight 1 (LightReady [] []); KApplied; KReport 2 Finish]
  | _ => False end.
Proof. vm_compute. split_and!; reflexivity. Qed.
Lemma pair_run2 : match pair_run pair_history2 with
  | Ok (d, _) => d_id d = 2 /\ snap_calls d = pair_log2 /\
      raft_calls d = [KInit 2 false [7]; KTick; KStep (snapshot_message 1 2 pair_sent)]
  | _ => False end.
Proof. vm_compute. split_and!; reflexivity. Qed.
Notation pair_replica := (rdriver (bool * N) (snapper * list snap_call) unit bytes unit unit).
Notation pair_in := (replica_in toy_enc toy_dec tiny_enc_content tiny_dec_content tiny_enc_ack tiny_dec_ack).
Lemma pair_reaches1 : exists d outs,
  reaches toy_codec pair_ops pair_snap toy_comm toy_app (false, 0) (snapper_new, []) tt pair_history1 d outs /\
  d_id d = 1 /\ snap_calls d = pair_log1 /\
  raft_calls d = [KInit 1 true [7]; KTick; KReady pair_ready; KLight 1 (LightReady [] []); KApplied; KReport 2 Finish].
Proof.
  pose proof pair_run1 as H1. destruct (pair_run pair_history1) as [[d o]| |] eqn:R; [|destruct H1|destruct H1].
  exists d, o. split; [|exact H1]. split; [reflexivity|exact R].
Qed.
Lemma pair_reaches2 : exists d outs,
  reaches toy_codec pair_ops pair_snap toy_comm toy_app (false, 0) (snapper_new, []) tt pair_history2 d outs /\
  d_id d = 2 /\ snap_calls d = pair_log2 /\ raft_calls d = [KInit 2 false [7]; KTick; KStep (snapshot_message 1 2 pair_sent)].
Proof.
  pose proof pair_run2 as H1. destruct (pair_run pair_history2) as [[d o]| |] eqn:R; [|destruct H1|destruct H1].
  exists d, o. split; [|exact H1]. split; [reflexivity|exact R].
Qed.
(** All hypotheses of the theorems of this property are met by these two replicas:
    the snapshot is transferred in three pieces, the other replica hands it to its
    consensus and the first replica reports that it was sent. *)
Example C98_example : exists a b : pair_replica,
  pair_in a /\ pair_in b /\
  (snap_calls a = (CInit 1 (Some (2, 2)) :: pair_before) ++ CStart 2 pair_sent :: pair_after ++ CSent (Some (2, Finish)) :: [CNext None]) /\
  goes_on 2 pair_after /\
  (forall m answer, CRequest m answer ∈ snap_calls b -> pm_sender m = d_id a -> pm_recipient m = 2 /\ CNext (Some m) ∈ pair_after) /\
  CReceived (Some (Some (d_id a, pair_sent))) ∈ snap_calls b /\
  (forall n m id k, CResponse 2 n (Some m) ∈ snap_calls a -> carries tiny_dec_ack m (Ack id k AckAccepted) ->
     exists request, CRequest request m ∈ snap_calls b /\ pm_sender request = d_id a) /\
  (forall m answer, CRequest m answer ∈ snap_calls b -> pm_sender m = d_id a -> CNext (Some m) ∈ snap_calls a) /\
  KReport 2 Finish ∈ raft_calls a.
Proof.
  destruct pair_reaches1 as (a & oa & R1 & I1 & L1 & K1). destruct pair_reaches2 as (b & ob & R2 & I2 & L2 & K2).
  exists a, b.
  assert (Ha : pair_in a).
  { split; [exists toy_codec, pair_ops, toy_comm, toy_app, (fun _ m => (map_to_list m).*1), (false, 0), tt, pair_history1, oa; split; [intros; reflexivity|exact R1]|].
    clear R1 R2. intros to sn (m & (c & Hc & Hm) & T & <- & _). rewrite K1 in Hc.
    repeat (apply elem_of_cons in Hc as [->|Hc]; [cbn in Hm; try done|]); [| |by apply elem_of_nil in Hc].
    + destruct Hm as [Hm|Hm]; [|by apply elem_of_nil in Hm]. apply elem_of_list_singleton in Hm. by subst m.
    + by apply elem_of_nil in Hm. }
  assert (Hb : pair_in b).
  { split; [exists toy_codec, pair_ops, toy_comm, toy_app, (fun _ m => (map_to_list m).*1), (false, 0), tt, pair_history2, ob; split; [intros; reflexivity|exact R2]|].
    clear R1 R2. intros to sn (m & (c & Hc & Hm) & T & <- & _). rewrite K2 in Hc.
    repeat (apply elem_of_cons in Hc as [->|Hc]; [cbn in Hm; try done|]). by apply elem_of_nil in Hc. }
  clear R1 R2. split; [exact Ha|]. split; [exact Hb|]. clear Ha Hb.
  assert (Hreq : forall m answer, CRequest m answer ∈ snap_calls b -> CNext (Some m) ∈ pair_after /\ pm_recipient m = 2).
  { intros m answer. rewrite L2. unfold pair_log2, pair_after. intros Hm.
    repeat (apply elem_of_cons in Hm as [Hm|Hm]; [first [discriminate Hm|injection Hm as -> _; split; [|reflexivity]; repeat (first [by left|right])]|]); by apply elem_of_nil in Hm. }
  split_and!.
  - rewrite L1. reflexivity.
  - intros c Hc. unfold pair_after in Hc. repeat (apply elem_of_cons in Hc as [->|Hc]; [exact I|]). by apply elem_of_nil in Hc.
  - intros m answer Hm _. by destruct (Hreq _ _ Hm).
  - rewrite L2, I1. unfold pair_log2. repeat (first [by left|right]).
  - intros n m id k Hc _. rewrite I1, L2. rewrite L1 in Hc. unfold pair_log1, pair_before, pair_after in Hc. cbn [app] in Hc.
    repeat (apply elem_of_cons in Hc as [Hc|Hc];
      [first [discriminate Hc|injection Hc as _ ->; eexists; split; [unfold pair_log2; repeat (first [by left|right])|reflexivity]]|]).
    by apply elem_of_nil in Hc.
  - intros m answer Hm _. destruct (Hreq _ _ Hm) as [Hin _]. rewrite L1. unfold pair_log1. right. apply elem_of_app. right. right.
    apply elem_of_app. by left.
  - rewrite K1. repeat (first [by left|right]).
Qed.
