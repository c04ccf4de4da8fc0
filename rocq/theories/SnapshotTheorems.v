(** Properties C08-C14: the chunked snapshot transfer. *)
From Verif Require Import Base StorageModel SnapshotModel SnapshotSpec SnapshotProofs
  SnapshotRecvProofs SnapshotTraceProofs.

(** A toy codec for the metadata of the examples: it round-trips. *)
Definition toy_enc (m : snap_meta) : bytes :=
  let c := sm_conf m in
  [sm_index m; sm_term m; Nlen (cs_voters c); Nlen (cs_learners c);
   Nlen (cs_voters_outgoing c); Nlen (cs_learners_next c); if cs_auto_leave c then 1 else 0]
  ++ cs_voters c ++ cs_learners c ++ cs_voters_outgoing c ++ cs_learners_next c.
Definition toy_dec (b : bytes) : option snap_meta :=
  match b with
  | i :: t :: a :: b :: c :: d :: al :: l =>
    let '(a, b, c, d) := (N.to_nat a, N.to_nat b, N.to_nat c, N.to_nat d) in
    Some (SnapMeta i t (ConfState (take a l) (take b (drop a l)) (take c (drop b (drop a l)))
            (take d (drop c (drop b (drop a l)))) (al =? 1)))
  | _ => None
  end.

Example toy_codec m : toy_dec (toy_enc m) = Some m.
Proof.
  destruct m as [i t [v l o n a]]. simpl. unfold Nlen. rewrite !Nat2N.id. do 3 f_equal.
  - by rewrite take_app.
  - by rewrite drop_app, take_app.
  - by rewrite !drop_app, take_app.
  - by rewrite !drop_app, take_ge.
  - by destruct a.
Qed.

Definition demo_snap (data : bytes) : snapshot := Snapshot 5 2 (ConfState [1; 2] [] [] [] false) data.

(** A trace of a sender with chunk size 2: transfers of 5 bytes to replica 2 and
    of 1 byte to replica 3 run side by side and complete. *)
Definition acc (r s d id k : N) : option dresponse :=
  Some (DResponse r s d (Some (Some (Ack id k AckAccepted)))).
Definition demo_sops : list sop :=
  [ SStart 2 (demo_snap [10; 11; 12; 13; 14]); SNext [2]; SStart 3 (demo_snap [9]); SNext [3; 2];
    SNext [2; 3]; SResp 2 1 (acc 1 2 1 1 0); SResp 3 2 (acc 1 3 2 2 0); SComplete [2; 3];
    SNext [2]; SNext [2]; SResp 2 4 (acc 1 2 4 1 2); SResp 2 3 (acc 1 2 3 1 1); SComplete [2] ].
Definition sop_okb (s : sender) (op : sop) : bool :=
  match op with
  | SStart r _ => negb (r =? 0)
  | SNext ord | SComplete ord | SReset ord =>
      bool_decide (ord ≡ₚ (map_to_list (sd_receivers s)).*1)
  | _ => true
  end.
Fixpoint run_sender (s : sender) (ops : list sop) : option (strace * sender) :=
  match ops with
  | [] => Some ([], s)
  | op :: ops' =>
    if negb (sop_okb s op) then None else
    match sender_step toy_enc s op with
    | Ok (s', o) => match run_sender s' ops' with
                    | Some (t, s'') => Some ((op, o) :: t, s'')
                    | None => None
                    end
    | _ => None
    end
  end.

Lemma run_sender_trace s0 ops : forall s t0 t s',
  sender_trace toy_enc s0 t0 s -> run_sender s ops = Some (t, s') ->
  sender_trace toy_enc s0 (t0 ++ t) s'.
Proof.
  induction ops as [|op ops IH]; intros s t0 t s' Ht Hrun; simpl in Hrun.
  - injection Hrun as <- <-. by rewrite app_nil_r.
  - destruct (sop_okb s op) eqn:Eok; [|done]. simpl in Hrun.
    destruct (sender_step toy_enc s op) as [[s1 o]| |] eqn:E; [|done..].
    destruct (run_sender s1 ops) as [[t1 s2]|] eqn:E2; [|done]. injection Hrun as <- <-.
    assert (t0 ++ (op, o) :: t1 = (t0 ++ [(op, o)]) ++ t1) as -> by by rewrite <- app_assoc.
    apply (IH s1); [|done]. econstructor; [done| |done].
    destruct op; simpl in *; try done; try (by apply bool_decide_eq_true in Eok).
    intros ->. done.
Qed.

Definition demo_trace : strace :=
  match run_sender (sender_init 1 (Some (2, 2))) demo_sops with Some (t, _) => t | None => [] end.
Definition demo_sender : sender :=
  match run_sender (sender_init 1 (Some (2, 2))) demo_sops with Some (_, s) => s | None => sender_init 0 None end.

Example demo_is_trace : sender_trace toy_enc (sender_init 1 (Some (2, 2))) demo_trace demo_sender.
Proof.
  assert (run_sender (sender_init 1 (Some (2, 2))) demo_sops = Some (demo_trace, demo_sender)) as H
    by (vm_compute; reflexivity).
  exact (run_sender_trace _ _ _ [] _ _ (trace_nil _ _) H).
Qed.

(** What the sender returned, call by call: replica 2 gets header and two
    chunks, replica 3 a header; both are reported as finished. *)
Example demo_outcome :
  (dq_payload <$> requests_to 2 demo_trace) =
    [Some (Some (Content 1 (Some (CHeader 5 (toy_enc (meta_of (demo_snap []))) [10; 11]))));
     Some (Some (Content 1 (Some (CChunk 1 [12; 13]))));
     Some (Some (Content 1 (Some (CChunk 2 [14]))))] /\
  omap (fun '(_, o) => match o with ODone (Some x) => Some x | _ => None end) demo_trace =
    [(3, Finish); (2, Finish)].
Proof. vm_compute. done. Qed.

(** C08 *)
Theorem C08_pieces_partition_the_payload cs data : 0 < cs ->
  exists n, chunk_count (Nlen data) cs = Ok n /\ is_piece_count cs data n /\
    concat (map (piece cs data) (range n)) = data /\
    (forall k, k + 1 < n -> Nlen (piece cs data k) = cs) /\
    Nlen (piece cs data (n - 1)) <= cs /\ (data <> [] -> piece cs data (n - 1) <> []).
Proof. exact (pieces_partition cs data). Qed.

(** The requests of a transfer that is still in progress: the header and the
    chunks in order, up to some point. *)
Theorem C08_requests_of_a_transfer enc_meta rid cfg t s pre r sn out post :
  sender_trace enc_meta (sender_init rid cfg) t s ->
  t = pre ++ (SStart r sn, out) :: post -> live_since r post ->
  let cs := sd_chunk_size (sender_init rid cfg) in
  exists n m, is_piece_count cs (sn_data sn) n /\ m <= n /\
    dq_payload <$> requests_to r post =
      (fun k => Some (Some (transfer_content enc_meta cs (nstarts pre + 1) sn k))) <$> range m /\
    forall q, q ∈ requests_to r post -> dq_sender q = rid /\ dq_recipient q = r.
Proof. exact (transfer_requests enc_meta rid cfg t s pre r sn out post). Qed.

Example C08_example : exists n,
  chunk_count 5 2 = Ok n /\ n = 3 /\ map (piece 2 [10; 11; 12; 13; 14]) (range 3) = [[10; 11]; [12; 13]; [14]].
Proof. by exists 3. Qed.

(** C09. Whatever requests reach a receiver, in whatever order and however
    often: if all those coming from the sender [rid] belong to one transfer of
    it, a snapshot completed from [rid] is the one that was sent. *)
Theorem C09_completed_snapshot_is_the_one_sent enc_meta dec_meta
  rid cfg t s pre r sn out post ops st0 st1 snap :
  (forall m, dec_meta (enc_meta m) = Some m) ->
  sender_trace enc_meta (sender_init rid cfg) t s ->
  t = pre ++ (SStart r sn, out) :: post -> live_since r post ->
  receiver_run dec_meta None ops = Ok st0 ->
  (forall q, RReq q ∈ ops -> dq_sender q = rid -> q ∈ requests_to r post) ->
  receiver_try_complete dec_meta st0 = Ok (st1, Some (Some (rid, snap))) ->
  snap = sn.
Proof. intros H. exact (end_to_end enc_meta dec_meta H rid cfg t s pre r sn out post ops st0 st1 snap). Qed.

(** Once the header and every chunk have arrived the snapshot is complete. *)
Theorem C09_all_chunks_complete_the_snapshot enc_meta dec_meta sid cs id sn n st0 h post :
  (forall m, dec_meta (enc_meta m) = Some m) ->
  is_piece_count cs (sn_data sn) n ->
  dq_sender h = sid -> dq_payload h = Some (Some (transfer_content enc_meta cs id sn 0)) ->
  (forall q, q ∈ post -> ~ is_header q /\ dq_payload q <> None) ->
  (forall q, q ∈ post -> dq_sender q = sid -> belongs enc_meta sid cs id sn n q) ->
  (forall k, k < n -> k <> 0 -> exists q, q ∈ post /\ dq_sender q = sid /\
     dq_payload q = Some (Some (transfer_content enc_meta cs id sn k))) ->
  exists st, receiver_run dec_meta st0 (RReq h :: (RReq <$> post)) = Ok st /\
    receiver_try_complete dec_meta st = Ok (None, Some (Some (sid, sn))).
Proof. intros H. by apply transfer_completes. Qed.

(** In general a completed snapshot consists of the last header and of chunks
    received after it from the same sender, and completion never aborts. *)
Theorem C09_completion_uses_received_chunks_only dec_meta ops st0 : 
  receiver_run dec_meta None ops = Ok st0 ->
  (exists r, receiver_try_complete dec_meta st0 = Ok r) /\
  forall st1 sid snap,
  receiver_try_complete dec_meta st0 = Ok (st1, Some (Some (sid, snap))) ->
  st1 = None /\
  exists pre h post id size meta c0 m n chunks,
    ops = pre ++ RReq h :: post /\
    dq_sender h = sid /\
    dq_payload h = Some (Some (Content id (Some (CHeader size meta c0)))) /\
    (forall q, RReq q ∈ post -> ~ is_header q) /\ RReset ∉ post /\
    dec_meta meta = Some m /\ snap = snapshot_of m (concat chunks) /\
    chunk_count size (Nlen c0) = Ok n /\ Nlen chunks = n /\
    (forall k b, chunks !! k = Some b ->
       ((k = 0)%nat /\ b = c0) \/
       exists q id', RReq q ∈ post /\ dq_sender q = sid /\
         dq_payload q = Some (Some (Content id' (Some (CChunk (N.of_nat k) b))))).
Proof.
  intros H. split; [exact (try_complete_no_panic dec_meta ops st0 H)|].
  intros st1 sid snap. exact (completion_exact dec_meta ops st0 st1 sid snap H).
Qed.

(** An acknowledgement names the request it answers, and [Accepted] means that
    the receiver now holds exactly the bytes of that request. *)
Theorem C09_acknowledgements_are_truthful state q state' resp :
  process_request state q = Ok (state', resp) ->
  dp_sender resp = dq_recipient q /\ dp_recipient resp = dq_sender q /\ dp_delivery resp = dq_delivery q /\
  exists a, dp_payload resp = Some (Some a) /\
  match dq_payload q with
  | Some (Some (Content id (Some it))) =>
      ak_snapshot_id a = id /\
      ak_chunk_index a = (match it with CHeader _ _ _ => 0 | CChunk i _ => i end) /\
      ((ak_status a = AckAccepted /\ exists st, state' = Some st /\ rs_sender st = dq_sender q /\
          rs_chunks st !! ak_chunk_index a =
            Some (match it with CHeader _ _ c => c | CChunk _ c => c end)) \/
       (ak_status a = AckRejected /\ state' = state))
  | _ => ak_status a <> AckAccepted /\ state' = state
  end.
Proof. exact (process_request_ack state q state' resp). Qed.

(** A request that reaches a replica which is not receiving is answered with a
    rejection of exactly that chunk. *)
Theorem C09_unexpected_requests_are_rejected q :
  match dq_payload q with
  | None => process_unexpected_request q = Panic
  | Some c => exists a, process_unexpected_request q =
      Ok (DResponse (dq_sender q) (dq_recipient q) (dq_delivery q) (Some (Some a))) /\
      ak_status a = AckRejected /\
      forall id it, c = Some (Content id (Some it)) ->
        ak_snapshot_id a = id /\
        ak_chunk_index a = (match it with CHeader _ _ _ => 0 | CChunk i _ => i end)
  end.
Proof.
  unfold process_unexpected_request.
  destruct (dq_payload q) as [[[id [[]|]]|]|]; try done;
    (eexists; split; [reflexivity|]; split; [done|]; intros; by simplify_eq).
Qed.

(** The five bytes of the demo transfer, delivered out of order and with a
    duplicate, with another replica interfering. *)
Definition demo_requests : list drequest :=
  match requests_to 2 demo_trace with
  | [h; c1; c2] => [h; c2; DRequest 2 7 1 (Some (Some (Content 1 (Some (CChunk 1 [0; 0]))))); c2; c1]
  | _ => []
  end.
Example C09_example : exists st,
  receiver_run toy_dec None (RReq <$> demo_requests) = Ok st /\
  receiver_try_complete toy_dec st = Ok (None, Some (Some (1, demo_snap [10; 11; 12; 13; 14]))).
Proof. eexists. split; [vm_compute; reflexivity|vm_compute; reflexivity]. Qed.

(** C10 is false: the snapshot id of a chunk is not compared with the id of the
    header. A late chunk of transfer 1 ends up in the snapshot of transfer 2. *)
Theorem C10_no_mixing_refuted :
  exists h2 c1 st,
    (* header of transfer 2 and a chunk of transfer 1 of the same sender *)
    dq_payload h2 = Some (Some (transfer_content toy_enc 2 2 (demo_snap [20; 21; 22; 23]) 0)) /\
    dq_payload c1 = Some (Some (transfer_content toy_enc 2 1 (demo_snap [10; 11; 12; 13]) 1)) /\
    receiver_run toy_dec None [RReq h2; RReq c1] = Ok st /\
    receiver_try_complete toy_dec st = Ok (None, Some (Some (1, demo_snap [20; 21; 12; 13]))).
Proof.
  exists (DRequest 2 1 5 (Some (Some (transfer_content toy_enc 2 2 (demo_snap [20; 21; 22; 23]) 0)))).
  exists (DRequest 2 1 2 (Some (Some (transfer_content toy_enc 2 1 (demo_snap [10; 11; 12; 13]) 1)))).
  eexists. split_and!; [done|done|vm_compute; reflexivity|vm_compute; reflexivity].
Qed.

(** What holds: nothing is mixed as long as, after the last header of a sender,
    only requests of that header's transfer (or undecodable ones) arrive from
    that sender. *)
Theorem C10_no_mixing_within_one_transfer_partial enc_meta dec_meta
  ops st0 st1 sid snap cs id sn n :
  (forall m, dec_meta (enc_meta m) = Some m) ->
  is_piece_count cs (sn_data sn) n ->
  receiver_run dec_meta None ops = Ok st0 ->
  receiver_try_complete dec_meta st0 = Ok (st1, Some (Some (sid, snap))) ->
  (forall pre h post, ops = pre ++ RReq h :: post -> is_header h -> dq_sender h = sid ->
     (forall q, RReq q ∈ post -> ~ is_header q) ->
     belongs enc_meta sid cs id sn n h /\
     forall q, RReq q ∈ post -> dq_sender q = sid ->
       belongs enc_meta sid cs id sn n q \/ forall c, dq_payload q <> Some (Some c)) ->
  snap = sn.
Proof. intros H. exact (integrity_since_header enc_meta dec_meta H ops st0 st1 sid snap cs id sn n). Qed.

(** C11 *)
Theorem C11_in_flight_bounded enc_meta rid cfg t s l :
  sender_trace enc_meta (sender_init rid cfg) t s -> NoDup l ->
  (forall r d, (r, d) ∈ l -> outstanding enc_meta (sd_chunk_size (sender_init rid cfg)) t r d) ->
  Nlen l <= sd_max_pending (sender_init rid cfg).
Proof. exact (outstanding_bounded enc_meta rid cfg t s l). Qed.

Theorem C11_delivery_ids_count_up enc_meta rid cfg t s :
  sender_trace enc_meta (sender_init rid cfg) t s ->
  dq_delivery <$> sent_requests t = (fun k => k + 1) <$> range (Nlen (sent_requests t)).
Proof. intros H. exact (si_dels _ _ _ _ _ _ (sinv_trace _ _ _ _ _ H)). Qed.

Theorem C11_configuration rid cfg :
  (sd_chunk_size (sender_init rid cfg), sd_max_pending (sender_init rid cfg)) =
  match cfg with Some (cs, mp) => (cs, mp) | None => (1048576, 2) end.
Proof. by destruct cfg as [[]|]. Qed.

(** In the demo, after the third [next] call two deliveries were outstanding
    and no further request was handed out. *)
Example C11_example : exists t s,
  run_sender (sender_init 1 (Some (2, 2))) (take 5 demo_sops) = Some (t, s) /\
  (dq_delivery <$> sent_requests t) = [1; 2] /\ in_flight s = 2.
Proof. eexists _, _. split; [vm_compute; reflexivity|]. vm_compute. done. Qed.

(** C12. A report of a transfer refers to the transfer in progress; success
    means that every chunk was sent and acknowledged, failure that some
    response was an error, a rejection or did not match its delivery. *)
Theorem C12_reports_are_justified enc_meta rid cfg t op r x s :
  sender_trace enc_meta (sender_init rid cfg) (t ++ [(op, ODone (Some (r, x)))]) s ->
  let cs := sd_chunk_size (sender_init rid cfg) in
  exists pre sn out post n,
    t = pre ++ (SStart r sn, out) :: post /\ live_since r post /\
    is_piece_count cs (sn_data sn) n /\
    match x with
    | Finish =>
        (forall k, k < n -> acknowledged r (nstarts pre + 1) k post) /\
        all_harmless enc_meta r cs (nstarts pre + 1) sn n post /\
        dq_payload <$> requests_to r post =
          (fun k => Some (Some (transfer_content enc_meta cs (nstarts pre + 1) sn k))) <$> range n
    | Failure => some_harmful enc_meta r cs (nstarts pre + 1) sn n post
    end.
Proof. exact (reported_transfer enc_meta rid cfg t op r x s). Qed.

(** A transfer that failed, or whose chunks were all sent and answered, is
    reported: polling reports some transfer as long as there is one. *)
Theorem C12_finished_transfers_are_reported enc_meta rid cfg t s ord pre r sn out post n :
  sender_trace enc_meta (sender_init rid cfg) t s ->
  ord ≡ₚ (map_to_list (sd_receivers s)).*1 ->
  let cs := sd_chunk_size (sender_init rid cfg) in
  let id := nstarts pre + 1 in
  t = pre ++ (SStart r sn, out) :: post -> live_since r post ->
  is_piece_count cs (sn_data sn) n ->
  (some_harmful enc_meta r cs id sn n post \/
   (Nlen (requests_to r post) = n /\ forall d k, ~ waiting enc_meta r cs id sn n post d k)) ->
  exists s' r' x, sender_step enc_meta s (SComplete ord) = Ok (s', ODone (Some (r', x))) /\
    sd_receivers s' = delete r' (sd_receivers s) /\ is_Some (sd_receivers s !! r').
Proof. exact (complete_reports enc_meta rid cfg t s ord pre r sn out post n). Qed.

Example C12_example :
  exists t op, demo_trace = t ++ [(op, ODone (Some (2, Finish)))].
Proof. exists (removelast demo_trace), (SComplete [2]). vm_compute. reflexivity. Qed.

(** C13. Histories of the processor of replica [rid]. *)
Theorem C13_sender_iff_leader enc_meta dec_meta rid cfg p0 t p : rid <> 0 ->
  processor_init processor_new rid cfg = Ok p0 ->
  processor_trace enc_meta dec_meta p0 t p ->
  processor_role p = Ok (if fst (last_notified t (0, 0)) =? rid then RoleSender else RoleReceiver).
Proof.
  intros Hr H0 Ht. destruct (pinv_trace _ _ _ _ _ _ _ Hr H0 Ht) as [Hrid Hl Hs _ _ _].
  rewrite <- Hl. unfold processor_role. rewrite Hs. simpl. by destruct (_ =? _).
Qed.

Theorem C13_changes_abort_transfers enc_meta dec_meta rid cfg p0 t p ord l tm rs : rid <> 0 ->
  processor_init processor_new rid cfg = Ok p0 ->
  processor_trace enc_meta dec_meta p0 t p ->
  ord ≡ₚ (map_to_list (sd_receivers (pr_sender p))).*1 ->
  exists p' c, processor_step enc_meta dec_meta p (PChange ord l tm rs) = Ok (p', PCancelled c) /\
    if decide ((l, tm) = last_notified t (0, 0) /\ rid ∈ rs)
    then c = [] /\ pr_sender p' = pr_sender p /\ pr_receiver p' = pr_receiver p
    else c ≡ₚ map (fun r => (r, Failure)) (map_to_list (sd_receivers (pr_sender p))).*1 /\
         sd_receivers (pr_sender p') = ∅ /\ pr_receiver p' = None.
Proof. exact (change_effect enc_meta dec_meta rid cfg p0 t p ord l tm rs). Qed.

(** The processor's sender and receiver only ever go through the histories that
    the other theorems are about, and only one of them is active. *)
Theorem C13_processor_histories enc_meta dec_meta rid cfg p0 t p : rid <> 0 ->
  processor_init processor_new rid cfg = Ok p0 ->
  processor_trace enc_meta dec_meta p0 t p ->
  (exists st, sender_trace enc_meta (sender_init rid cfg) st (pr_sender p)) /\
  (exists ops, receiver_run dec_meta None ops = Ok (pr_receiver p)) /\
  (processor_role p = Ok RoleReceiver -> sd_receivers (pr_sender p) = ∅) /\
  (processor_role p = Ok RoleSender -> pr_receiver p = None).
Proof.
  intros Hr H0 Ht. destruct (pinv_trace _ _ _ _ _ _ _ Hr H0 Ht) as [Hrid Hl Hs A B [C D]].
  split_and!; try done; unfold processor_role; intros Hx; [apply C|apply D]; by destruct (pr_state p).
Qed.

(** Cancelling reports each transfer in progress exactly once, as failed. *)
Theorem C13_cancelled_once enc_meta rid cfg t s ord :
  sender_trace enc_meta (sender_init rid cfg) t s ->
  ord ≡ₚ (map_to_list (sd_receivers s)).*1 ->
  let '(s', l) := sender_reset s ord in
  sd_receivers s' = ∅ /\ NoDup l.*1 /\ (forall r x, (r, x) ∈ l -> x = Failure) /\
  forall r, r ∈ l.*1 <->
    exists pre sn out post, t = pre ++ (SStart r sn, out) :: post /\ live_since r post.
Proof. exact (reset_cancels enc_meta rid cfg t s ord). Qed.

Theorem C13_uninitialised_aborts ord l tm rs :
  process_cluster_change processor_new ord l tm rs = Panic /\ processor_role processor_new = Panic.
Proof. done. Qed.

(** Replica 1 becomes leader, starts two transfers, and loses its leadership. *)
Example C13_example : exists p0 p1 p2 p3 p4,
  processor_init processor_new 1 None = Ok p0 /\
  processor_step toy_enc toy_dec p0 (PChange [] 1 3 [1; 2; 3]) = Ok (p1, PCancelled []) /\
  processor_step toy_enc toy_dec p1 (PSend (SStart 2 (demo_snap [1]))) = Ok (p2, PSent ONone) /\
  processor_step toy_enc toy_dec p2 (PSend (SStart 3 (demo_snap [1]))) = Ok (p3, PSent ONone) /\
  processor_step toy_enc toy_dec p3 (PChange [3; 2] 2 4 [1; 2; 3]) =
    Ok (p4, PCancelled [(3, Failure); (2, Failure)]) /\
  processor_role p3 = Ok RoleSender /\ processor_role p4 = Ok RoleReceiver.
Proof.
  eexists _, _, _, _, _. split; [vm_compute; reflexivity|]. split; [vm_compute; reflexivity|].
  split; [vm_compute; reflexivity|]. split; [vm_compute; reflexivity|].
  split; [vm_compute; reflexivity|]. vm_compute. done.
Qed.

(** C14 *)
Theorem C14_least_advanced_first enc_meta rid cfg t s ord :
  sender_trace enc_meta (sender_init rid cfg) t s ->
  ord ≡ₚ (map_to_list (sd_receivers s)).*1 ->
  exists s' o, sender_step enc_meta s (SNext ord) = Ok (s', OReq o) /\
    (o = None <-> sd_max_pending (sender_init rid cfg) <= in_flight s \/
                  forall r st, sd_receivers s !! r = Some st -> ~ viable st) /\
    (forall q, o = Some q -> dq_delivery q = Nlen (sent_requests t) + 1 /\ dq_sender q = rid /\
       exists st, sd_receivers s !! dq_recipient q = Some st /\ viable st /\
         forall r st', sd_receivers s !! r = Some st' -> viable st' ->
           (ss_sent st + pending_count st) * ss_count st' <= (ss_sent st' + pending_count st') * ss_count st).
Proof. exact (next_request_effect enc_meta rid cfg t s ord). Qed.

(** In the demo the second transfer, which had sent nothing, went first. *)
Example C14_example : exists t s s' q,
  run_sender (sender_init 1 (Some (2, 2))) (take 3 demo_sops) = Some (t, s) /\
  sender_step toy_enc s (SNext [3; 2]) = Ok (s', OReq (Some q)) /\ dq_recipient q = 3.
Proof.
  eexists _, _, _, _. split; [vm_compute; reflexivity|]. split; [vm_compute; reflexivity|]. done.
Qed.
