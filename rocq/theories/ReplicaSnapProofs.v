From Verif Require Import Base StorageModel SnapshotModel SnapshotSpec SnapshotProofs SnapshotRecvProofs SnapshotTraceProofs
  CommModel ActorModel DriverModel DriverProofs ReplicaModel ReplicaRunSpec ReplicaRunProofs.

(** ** The snapshot processor never aborts *)
Section Snap.
Variable enc_meta : snap_meta -> bytes.
Variable dec_meta : bytes -> option snap_meta.
Variable enc_content : content -> bytes.
Variable dec_content : bytes -> option content.
Variable enc_ack : ack -> bytes.
Variable dec_ack : bytes -> option ack.
Variable order : N -> gmap N sender_state -> list N.
Hypothesis orders : forall n m, order n m ≡ₚ (map_to_list m).*1.
Variable loads : bytes -> Prop.
Notation sops := (real_snap enc_meta dec_meta enc_content dec_content enc_ack dec_ack order).

Record snap_ok (s : snapper) : Prop := SnapOk {
  so_state : pr_state (sp_processor s) <> RUnknown;
  so_sender : exists rid cfg t, sender_trace enc_meta (sender_init rid cfg) t (pr_sender (sp_processor s)) /\ sd_chunk_size (sender_init rid cfg) <> 0;
  so_receiver : exists ops, receiver_run dec_meta None ops = Ok (pr_receiver (sp_processor s));
  so_loads : forall x from sn, receiver_try_complete dec_meta (pr_receiver (sp_processor s)) = Ok (x, Some (Some (from, sn))) -> loads (sn_data sn);
}.
Lemma with_sender_ok s op x out : snap_ok s -> sop_ok (pr_sender (sp_processor s)) op ->
  sender_step enc_meta (pr_sender (sp_processor s)) op = Ok (x, out) -> snap_ok (with_sender s x).
Proof.
  intros [H1 (rid & cfg & t & H2 & H3) H4 H5] Hok Hs. constructor; try done. exists rid, cfg, (t ++ [(op, out)]). split; [|done].
  by eapply trace_snoc.
Qed.
Lemma with_receiver_ok s op x : snap_ok s -> receiver_step dec_meta (pr_receiver (sp_processor s)) op = Ok x ->
  (forall y from sn, receiver_try_complete dec_meta x = Ok (y, Some (Some (from, sn))) -> loads (sn_data sn)) -> snap_ok (with_receiver s x).
Proof.
  intros [H1 H2 (ops & H4) H5] Hs Hx. constructor; try done. exists (ops ++ [op]). rewrite receiver_run_app, H4. cbn. by rewrite Hs.
Qed.
Lemma snap_init id cfg : id <> 0 -> (forall size pending, cfg = Some (size, pending) -> size <> 0) ->
  exists s', sp_init sops snapper_new id cfg = Ok s' /\ snap_ok s'.
Proof.
  intros Hid Hc. cbn. eexists. split; [done|]. constructor; cbn; [done| |by exists []|done].
  exists id, cfg, []. split; [constructor|]. destruct cfg as [[size pending]|]; cbn; [by eapply Hc|done].
Qed.
Lemma snap_cluster s l t ids : snap_ok s -> exists s' out, sp_cluster sops s l t ids = Ok (s', out) /\ snap_ok s'.
Proof using orders.
  intros Hs. pose proof Hs as [H1 (rid & cfg & tr & H2 & H3) (ops & H4) H5]. cbn. unfold process_cluster_change.
  destruct (pr_state (sp_processor s)) eqn:Es; [done| |].
  - cbn. eexists _, _. split; [done|]. constructor; cbn; [by destruct (_ =? _)|by exists rid, cfg, tr| |].
    + destruct (_ || _ || _); [by exists []|by exists ops].
    + destruct (_ || _ || _); [done|exact H5].
  - destruct (_ || _ || _).
    + cbn. eexists _, _. split; [done|]. constructor; cbn; [by destruct (negb _)| |by exists ops|done].
      exists rid, cfg, (tr ++ [(SReset (the_order order s), OCancel (snd (sender_reset (pr_sender (sp_processor s)) (the_order order s))))]). split; [|done].
      eapply trace_snoc; [exact H2|apply orders|done].
    + cbn. eexists _, _. split; [done|]. constructor; cbn; [by destruct (negb _)|by exists rid, cfg, tr|by exists ops|done].
Qed.
Lemma snap_role s t : snap_ok s -> exists r, sp_role sops s t = Ok r.
Proof. intros [H1 _ _ _]. cbn. unfold processor_role. destruct (pr_state _); [done|by eexists..]. Qed.
Lemma snap_start s to sn : snap_ok s -> to <> 0 -> exists s', sp_start sops s to sn = Ok s' /\ snap_ok s'.
Proof.
  intros Hs Hto. pose proof Hs as [H1 (rid & cfg & tr & H2 & H3) H4 H5]. cbn.
  pose proof (si_cs _ _ _ _ _ _ (sinv_trace _ _ _ _ _ H2)) as Hcs.
  assert (exists x, sender_start (pr_sender (sp_processor s)) to sn = Ok x) as (x & Ex).
  { unfold sender_start, sender_state_new. destruct (chunk_count_ok (Nlen (sn_data sn)) (sd_chunk_size (pr_sender (sp_processor s)))) as (n & ->); [lia|]. cbn. by eexists. }
  rewrite Ex. cbn. eexists. split; [done|]. eapply (with_sender_ok _ (SStart to sn)); [done|done|]. cbn. by rewrite Ex.
Qed.
(** The next request, and the number of chunks on their way. *)
Lemma snap_next_full s : snap_ok s -> exists s' r, sp_next sops s = Ok (s', r) /\ snap_ok s' /\
  sd_max_pending (pr_sender (sp_processor s')) = sd_max_pending (pr_sender (sp_processor s)) /\
  match r with
  | Some m => filled m /\ in_flight (pr_sender (sp_processor s)) < sd_max_pending (pr_sender (sp_processor s)) /\
      in_flight (pr_sender (sp_processor s')) = in_flight (pr_sender (sp_processor s)) + 1
  | None => True
  end.
Proof using orders.
  intros Hs. pose proof Hs as [H1 (rid & cfg & tr & H2 & H3) H4 H5]. cbn.
  pose proof (sinv_trace _ _ _ _ _ H2) as Hi. pose proof (si_mp _ _ _ _ _ _ Hi) as Hmp.
  destruct (next_request_cases _ _ _ _ _ _ (the_order order s) Hi (orders _ _)) as [[Hn Hc]|(r & st & st' & c & Hf & Hst & Hv & _ & Hch & Hn)].
  - rewrite Hn. cbn. eexists _, _. split; [done|]. split; [|done]. eapply (with_sender_ok _ (SNext (the_order order s))); [done|apply orders|]. cbn. by rewrite Hn.
  - rewrite Hn. cbn. eexists _, _. split; [done|]. split; [eapply (with_sender_ok _ (SNext (the_order order s))); [done|apply orders|]; cbn; by rewrite Hn|].
    cbn. split; [by rewrite Hmp|]. split; [by eexists|]. split; [by rewrite Hmp|].
    destruct Hv as [Hv1 Hv2]. pose proof (si_recv _ _ _ _ _ _ Hi _ _ Hst) as Hr.
    assert (Hnc : ss_next st < ss_count st). { pose proof (ri_balance _ _ _ _ _ _ _ Hr Hv1). lia. }
    destruct (rinv_next _ _ _ _ _ _ _ _ _ (the_order order s) Hr Hv1 Hnc Hch) as (c' & [= <-] & Hpc & Hr').
    rewrite !in_flight_sum. cbn. pose proof (sum_map_insert _ _ _ st' Hst). lia.
Qed.
Lemma snap_next s : snap_ok s -> exists s' r, sp_next sops s = Ok (s', r) /\ snap_ok s' /\ (forall m, r = Some m -> filled m).
Proof using orders.
  intros Hs. destruct (snap_next_full s Hs) as (s' & r & E & Hs' & _ & Hr). exists s', r. split; [done|]. split; [done|]. intros m ->. apply Hr.
Qed.
(** The loop that collects requests ends because there are no more. *)
Lemma next_none s s' : snap_ok s -> sp_next sops s = Ok (s', None) -> nothing_to_send (pr_sender (sp_processor s')).
Proof using orders.
  intros [H1 (rid & cfg & tr & H2 & H3) H4 H5] E. cbn in E.
  pose proof (sinv_trace _ _ _ _ _ H2) as Hi. pose proof (si_mp _ _ _ _ _ _ Hi) as Hmp.
  destruct (next_request_cases _ _ _ _ _ _ (the_order order s) Hi (orders _ _)) as [[Hn Hc]|(r & st & st' & c & Hf & Hst & Hv & _ & Hch & Hn)].
  - rewrite Hn in E. cbn in E. injection E as <-. unfold nothing_to_send. cbn. by rewrite Hmp.
  - rewrite Hn in E. done.
Qed.
Lemma drain_ends n : forall s s' out, snap_ok s -> drain sops n s = Ok (s', out) ->
  sd_max_pending (pr_sender (sp_processor s)) < in_flight (pr_sender (sp_processor s)) + N.of_nat n ->
  nothing_to_send (pr_sender (sp_processor s')).
Proof using orders.
  induction n as [|n IH]; intros s s' out Hs Hd Hlt.
  - destruct Hs as [_ (rid & cfg & tr & H2 & _) _ _]. pose proof (sinv_trace _ _ _ _ _ H2) as Hi.
    pose proof (si_flight _ _ _ _ _ _ Hi). pose proof (si_mp _ _ _ _ _ _ Hi). lia.
  - cbn [drain] in Hd. destruct (snap_next_full s Hs) as (s1 & r & E & Hs1 & Hmp & Hr). rewrite E in Hd. cbn [res_bind or_abort] in Hd.
    destruct r as [m|].
    + destruct (drain sops n s1) as [[s2 ms]| |] eqn:D; try done. cbn in Hd. injection Hd as <- <-. apply (IH s1 s2 ms Hs1 D). rewrite Hmp. destruct Hr as (_ & _ & ->). lia.
    + injection Hd as <- <-. exact (next_none _ _ Hs E).
Qed.
Lemma drained s s' out : snap_ok s -> drain sops (sp_drain sops s) s = Ok (s', out) -> nothing_to_send (pr_sender (sp_processor s')).
Proof using orders. intros Hs Hd. eapply drain_ends; [exact Hs|exact Hd|]. cbn [sp_drain]. cbn. lia. Qed.
Lemma snap_response s to n m : snap_ok s -> (forall x, m = Some x -> filled x) -> exists s', sp_response sops s to n m = Ok s' /\ snap_ok s'.
Proof.
  intros Hs Hm. pose proof Hs as [H1 (rid & cfg & tr & H2 & H3) H4 H5]. cbn.
  assert (exists x, sender_process_response (pr_sender (sp_processor s)) to n (response_of dec_ack <$> m) = Ok x) as (x & Ex).
  { unfold sender_process_response. destruct (_ !! to) as [st|]; [|by eexists].
    assert (exists st', ss_process_response st n (response_of dec_ack <$> m) = Ok st') as (st' & ->); [|by eexists].
    unfold ss_process_response. destruct m as [m|]; cbn; [|by eexists]. destruct (Hm m eq_refl) as [p ->]. cbn. destruct (dec_ack _); repeat case_match; by eexists. }
  rewrite Ex. cbn. eexists. split; [done|]. eapply (with_sender_ok _ (SResp to n (response_of dec_ack <$> m))); [done|done|]. cbn. by rewrite Ex.
Qed.
Lemma snap_unexpected (s : snapper) m : snap_ok s -> filled m -> exists a, sp_unexpected sops s m = Ok a /\ filled a.
Proof.
  intros _ [p Hp]. cbn. unfold process_unexpected_request. cbn. rewrite Hp. cbn. eexists. split; [done|]. by eexists.
Qed.
Lemma snap_sent s : snap_ok s -> exists s' r, sp_sent sops s = Ok (s', r) /\ snap_ok s'.
Proof using orders.
  intros Hs. cbn. destruct (sender_try_complete _ _) as [x r] eqn:E. eexists _, _. split; [done|].
  eapply (with_sender_ok _ (SComplete (the_order order s))); [done|apply orders|]. cbn. by rewrite E.
Qed.
Lemma snap_request s m : snap_ok s -> filled m -> chunks_ok sops dec_content loads s m -> exists s' a, sp_request sops s m = Ok (s', a) /\ snap_ok s' /\ filled a.
Proof.
  intros Hs [p Hp] [Hm Hc].
  assert (exists x a k, process_request (pr_receiver (sp_processor s)) (request_of dec_content m) = Ok (x, a) /\ dp_payload a = Some (Some k)) as (x & a & k & Ex & Ea).
  { unfold process_request, receiver_state_new. cbn. rewrite Hp. cbn. destruct (dec_content (pl_contents p)) as [[id [[size meta first|i b]|]]|] eqn:Ed; try (by do 3 eexists).
    - unfold chunk_count. specialize (Hm p id size meta first Hp Ed). destruct (N.ltb_spec 0 size) as [Hsz|]; [|by do 3 eexists].
      destruct (N.eqb_spec (Nlen first) 0) as [Hz|]; [|by do 3 eexists]. destruct first; [by destruct Hm; [lia|]|done].
    - repeat case_match; by do 3 eexists. }
  assert (sp_request sops s m = Ok (with_receiver s x, of_response enc_ack a)) as E by (cbn; by rewrite Ex).
  eexists _, _. split; [exact E|]. split; [eapply (with_receiver_ok _ (RReq (request_of dec_content m))); [done|cbn; by rewrite Ex|]|].
  { intros y from sn Ey. eapply (Hc _ _ (with_receiver (with_receiver s x) y)); [exact E|]. cbn. rewrite Ey. done. }
  unfold filled, of_response, encoded. cbn. rewrite Ea. by eexists.
Qed.
Lemma snap_received s : snap_ok s -> exists s' r, sp_received sops s = Ok (s', r) /\ snap_ok s' /\
  (forall from sn, r = Some (Some (from, sn)) -> loads (sn_data sn)).
Proof.
  intros Hs. pose proof Hs as [_ _ (ops & H4) H5]. cbn. destruct (try_complete_no_panic _ _ _ H4) as ([x r] & Ex). rewrite Ex. cbn.
  eexists _, _. split; [done|]. split; [eapply (with_receiver_ok _ RPoll); [done|cbn; by rewrite Ex|]|].
  - intros y from sn Ey. unfold receiver_try_complete in Ex. destruct (pr_receiver (sp_processor s)) as [st|] eqn:Er; [|injection Ex as <- <-; done].
    destruct (rs_try_complete dec_meta st) as [[o|]| |] eqn:Et; cbn in Ex; try done; injection Ex as <- <-; [done|]. by eapply H5.
  - intros from sn ->. by eapply H5.
Qed.
End Snap.
