(** Consequences of the sender and receiver invariants, stated on traces. *)
From Verif Require Import Base StorageModel SnapshotModel SnapshotSpec SnapshotProofs SnapshotRecvProofs.

Section Trace.
Variable enc_meta : snap_meta -> bytes.
Variable dec_meta : bytes -> option snap_meta.

Lemma piece_count_unique cs data n n' :
  is_piece_count cs data n -> is_piece_count cs data n' -> n = n'.
Proof.
  intros (A & B & C) (A' & B' & C').
  assert (forall a b, 1 <= a -> 1 <= b -> Nlen data <= a * cs -> (b <> 1 -> (b - 1) * cs < Nlen data) -> b <= a) as H.
  { intros a b Ha Hb Hd Hx. destruct (decide (b = 1)) as [->|Hb1]; [lia|]. specialize (Hx Hb1).
    destruct (decide (b <= a)) as [|Hn]; [done|]. assert (a <= b - 1) by lia. nia. }
  apply N.le_antisymm; eauto.
Qed.

Lemma pieces_partition cs data : 0 < cs ->
  exists n, chunk_count (Nlen data) cs = Ok n /\ is_piece_count cs data n /\
    concat (map (piece cs data) (range n)) = data /\
    (forall k, k + 1 < n -> Nlen (piece cs data k) = cs) /\
    Nlen (piece cs data (n - 1)) <= cs /\ (data <> [] -> piece cs data (n - 1) <> []).
Proof.
  intros Hcs. destruct (chunk_count_ok (Nlen data) cs Hcs) as [n Hn].
  exists n. pose proof (proj1 (chunk_count_spec _ _ _ Hcs) Hn) as Hp.
  split_and!; try done; [by apply concat_all_pieces|..].
  - intros k Hk. rewrite piece_length. destruct Hp as (A & B & C).
    assert ((n - 1) * cs < Nlen data) by (apply C; lia). nia.
  - rewrite piece_length. lia.
  - intros Hd He. assert (Nlen (piece cs data (n - 1)) = 0) as Hz by by rewrite He.
    rewrite piece_length in Hz. destruct Hp as (A & B & C).
    assert (0 < Nlen data) by (destruct data; [done|unfold Nlen; simpl; lia]).
    destruct (decide (n = 1)) as [->|]; [lia|]. specialize (C n0). lia.
Qed.

Lemma transfer_requests rid cfg t s pre r sn out post :
  sender_trace enc_meta (sender_init rid cfg) t s ->
  t = pre ++ (SStart r sn, out) :: post -> live_since r post ->
  let cs := sd_chunk_size (sender_init rid cfg) in
  exists n m, is_piece_count cs (sn_data sn) n /\ m <= n /\
    dq_payload <$> requests_to r post =
      (fun k => Some (Some (transfer_content enc_meta cs (nstarts pre + 1) sn k))) <$> range m /\
    forall q, q ∈ requests_to r post -> dq_sender q = rid /\ dq_recipient q = r.
Proof.
  intros Ht He Hl cs.
  destruct (segment_state _ _ _ _ _ _ _ _ _ _ Ht He Hl) as (st & Hst & Hid & Hn & Hpc & _ & Hreq & Hs & _).
  exists (ss_count st), (ss_next st). split_and!; try done.
  intros q Hq. split; [by apply Hs|].
  unfold requests_to in Hq. apply elem_of_list_omap in Hq as ([op o] & _ & Hq).
  destruct o as [|[q'|]| |]; try done. destruct (N.eqb_spec (dq_recipient q') r); by simplify_eq.
Qed.

Lemma trace_inv t e s0 s : sender_trace enc_meta s0 (t ++ [e]) s ->
  exists s1, sender_trace enc_meta s0 t s1 /\ sop_ok s1 (fst e) /\ sender_step enc_meta s1 (fst e) = Ok (s, snd e).
Proof.
  inversion 1 as [H1|t' s1 op s' out Ht Hok Hst H1]; [by destruct t|].
  apply app_inj_tail in H1 as [-> <-]. eauto.
Qed.

Lemma trace_prefix t2 : forall t1 s0 s, sender_trace enc_meta s0 (t1 ++ t2) s ->
  exists s1, sender_trace enc_meta s0 t1 s1.
Proof.
  induction t2 as [|e t2 IH] using rev_ind; intros t1 s0 s H.
  - rewrite app_nil_r in H. eauto.
  - rewrite app_assoc in H. apply trace_inv in H as (s1 & H & _). eauto.
Qed.

(** Who is told that a transfer is over. *)
Lemma done_state rid cfg t s op s' r x :
  sender_trace enc_meta (sender_init rid cfg) t s -> sop_ok s op ->
  sender_step enc_meta s op = Ok (s', ODone (Some (r, x))) ->
  exists st, sd_receivers s !! r = Some st /\ ss_try_complete st = Some x /\
    sd_receivers s' = delete r (sd_receivers s).
Proof.
  intros Ht Hok Hstep. destruct op as [r0 sn0|ord|r0 d resp|ord|ord]; simpl in Hstep.
  - destruct (sender_start _ _ _); simpl in Hstep; by simplify_eq.
  - destruct (next_request _ _ _) as [[? ?]| |]; simpl in Hstep; by simplify_eq.
  - destruct (sender_process_response _ _ _ _); simpl in Hstep; by simplify_eq.
  - unfold sender_try_complete in Hstep.
    destruct (first_completed _) as [[id y]|] eqn:E; simplify_eq.
    apply first_completed_spec in E as (st & Hin & Hc).
    apply in_order_elem in Hin; [|done]. by exists st.
  - by simplify_eq.
Qed.

Lemma reported_transfer rid cfg t op r x s :
  sender_trace enc_meta (sender_init rid cfg) (t ++ [(op, ODone (Some (r, x)))]) s ->
  let cs := sd_chunk_size (sender_init rid cfg) in
  exists pre sn out post n,
    t = pre ++ (SStart r sn, out) :: post /\ live_since r post /\
    is_piece_count cs (sn_data sn) n /\
    match x with
    | Finish =>
        (forall k, k < n -> acknowledged r (nstarts pre + 1) k post) /\
        all_harmless enc_meta r cs (nstarts pre + 1) sn n post /\
        dq_payload <$> requests_to r post =
          (fun k => Some (Some (transfer_content enc_meta cs (nstarts pre + 1) sn k))) <$> range n
    | Failure => some_harmful enc_meta r cs (nstarts pre + 1) sn n post
    end.
Proof.
  intros H cs. apply trace_inv in H as (s1 & Ht & Hok & Hst). simpl in *.
  destruct (done_state _ _ _ _ _ _ _ _ Ht Hok Hst) as (st & Hr & Hc & _).
  pose proof (si_recv _ _ _ _ _ _ (sinv_trace _ _ _ _ _ Ht) _ _ Hr) as Hi.
  destruct Hi as [H0 H2 H3 H4 (pre & sn & o & post & He & Hl & Hid & Hm & Hd & Hcs & Hpc & Hreq & Hsnd & Hpend & Hver & Hack)].
  exists pre, sn, o, post, (ss_count st). split_and!; try done. rewrite <- Hid.
  unfold ss_try_complete in Hc. destruct (ss_status st) as [y|] eqn:E.
  - destruct Hver as [[Hx _]|[Hx Hy]]; [congruence|]. assert (x = Failure) as -> by congruence. done.
  - destruct (N.eqb_spec (ss_sent st) (ss_count st)) as [Hs|]; [|done]. injection Hc as <-.
    specialize (H4 eq_refl). assert (pending_count st = 0 /\ ss_next st = ss_count st) as [Hp Hn] by lia.
    assert (ss_pending st = ∅) as Hemp.
    { apply map_size_empty_inv. unfold pending_count in Hp. lia. }
    destruct Hver as [[_ Hh]|[? _]]; [|congruence].
    split_and!; [|done|by rewrite <- Hn].
    intros k Hk. rewrite <- Hn in Hk. destruct (Hack eq_refl k Hk) as [[d Hdd]|]; [|done].
    rewrite Hemp, lookup_empty in Hdd. done.
Qed.

(** A cancelled transfer was in progress. *)
Lemma reset_cancels rid cfg t s ord : sender_trace enc_meta (sender_init rid cfg) t s ->
  ord ≡ₚ (map_to_list (sd_receivers s)).*1 ->
  let '(s', l) := sender_reset s ord in
  sd_receivers s' = ∅ /\ NoDup l.*1 /\ (forall r x, (r, x) ∈ l -> x = Failure) /\
  forall r, r ∈ l.*1 <->
    exists pre sn out post, t = pre ++ (SStart r sn, out) :: post /\ live_since r post.
Proof.
  intros Ht Hord. unfold sender_reset. split_and!; try done.
  - assert ((map (fun '(k, _) => (k, Failure)) (in_order ord (sd_receivers s))).*1
            = (in_order ord (sd_receivers s)).*1) as ->.
    { rewrite map_map. apply map_ext. by intros []. }
    rewrite (in_order_perm (sd_receivers s) ord Hord). apply NoDup_fst_map_to_list.
  - intros r x Hin. apply elem_of_list_fmap in Hin as ([k v] & Hx & _). by simplify_eq.
  - intros r. split.
    + intros Hin. apply elem_of_list_fmap in Hin as ([k v] & Hx & Hin). simpl in Hx. subst.
      apply elem_of_list_fmap in Hin as ([k' v'] & Hx & Hin). simplify_eq.
      apply in_order_elem in Hin; [|done].
      pose proof (si_recv _ _ _ _ _ _ (sinv_trace _ _ _ _ _ Ht) _ _ Hin) as Hi.
      destruct Hi as [H0 H2 H3 H4 (pre & sn & o & post & He & Hl & _)]. eauto 10.
    + intros (pre & sn & o & post & He & Hl).
      destruct (live_exists _ _ _ _ _ Ht _ _ _ _ _ He Hl) as [st Hst].
      apply elem_of_list_fmap. exists (r, Failure). split; [done|].
      apply elem_of_list_fmap. exists (r, st). split; [done|]. by apply in_order_elem.
Qed.

Lemma complete_reports rid cfg t s ord pre r sn out post n :
  sender_trace enc_meta (sender_init rid cfg) t s ->
  ord ≡ₚ (map_to_list (sd_receivers s)).*1 ->
  let cs := sd_chunk_size (sender_init rid cfg) in
  let id := nstarts pre + 1 in
  t = pre ++ (SStart r sn, out) :: post -> live_since r post ->
  is_piece_count cs (sn_data sn) n ->
  (some_harmful enc_meta r cs id sn n post \/
   (Nlen (requests_to r post) = n /\ forall d k, ~ waiting enc_meta r cs id sn n post d k)) ->
  exists s' r' x, sender_step enc_meta s (SComplete ord) = Ok (s', ODone (Some (r', x))) /\
    sd_receivers s' = delete r' (sd_receivers s) /\ is_Some (sd_receivers s !! r').
Proof.
  intros Ht Hord cs id He Hl Hpc Hcase.
  destruct (segment_state _ _ _ _ _ _ _ _ _ _ Ht He Hl)
    as (st & Hst & Hid & Hn & Hpc' & Hbal & Hreq & _ & Hpend & Hver & Hack).
  pose proof (piece_count_unique _ _ _ _ Hpc Hpc') as ->.
  assert (exists x, ss_try_complete st = Some x) as [x Hx].
  { unfold ss_try_complete. destruct (ss_status st) as [y|] eqn:E; [eauto|].
    destruct Hver as [[_ Hh]|[? _]]; [|congruence].
    destruct Hcase as [(t1 & d & resp & o & t2 & Hp & Hn1)|[Hlen Hw]].
    { destruct Hn1. eapply Hh, Hp. }
    assert (ss_pending st = ∅) as Hemp.
    { apply map_empty. intros d. destruct (ss_pending st !! d) as [k|] eqn:Ed; [|done].
      apply Hpend in Ed. by destruct (Hw d k). }
    assert (ss_next st = ss_count st) as Hc.
    { apply (f_equal length) in Hreq. rewrite !fmap_length, range_length in Hreq.
      unfold Nlen in Hlen. lia. }
    specialize (Hbal eq_refl). unfold pending_count in Hbal. rewrite Hemp, map_size_empty in Hbal.
    destruct (N.eqb_spec (ss_sent st) (ss_count st)); [eauto|lia]. }
  simpl. unfold sender_try_complete.
  destruct (first_completed _) as [[r' y]|] eqn:E.
  - apply first_completed_spec in E as (st' & Hin & _). apply in_order_elem in Hin; [|done].
    eexists _, r', y. split; [done|]. split; [done|eauto].
  - eapply first_completed_none in E; [|by apply in_order_elem]. congruence.
Qed.

(** Flow control. *)
Definition flat_pending (m : gmap N sender_state) : list (N * N) :=
  flat_map (fun '(r, st) => map (fun '(d, _) => (r, d)) (map_to_list (ss_pending st))) (map_to_list m).

Lemma flat_pending_length m : N.of_nat (length (flat_pending m)) = sum_map m.
Proof.
  unfold flat_pending, sum_map. induction (map_to_list m) as [|[r st] l IH]; [done|]. simpl.
  rewrite app_length, map_length, Nat2N.inj_add, IH. done.
Qed.

Lemma outstanding_bounded rid cfg t s l :
  sender_trace enc_meta (sender_init rid cfg) t s -> NoDup l ->
  (forall r d, (r, d) ∈ l -> outstanding enc_meta (sd_chunk_size (sender_init rid cfg)) t r d) ->
  Nlen l <= sd_max_pending (sender_init rid cfg).
Proof.
  intros Ht Hnd Hl. pose proof (sinv_trace _ _ _ _ _ Ht) as Hi.
  pose proof (si_flight _ _ _ _ _ _ Hi) as Hf. rewrite in_flight_sum, <- flat_pending_length in Hf.
  assert (l ⊆+ flat_pending (sd_receivers s)) as Hsub.
  { apply NoDup_submseteq; [done|]. intros [r d] Hin.
    destruct (Hl _ _ Hin) as (pre & sn & o & post & n & k & He & Hlv & Hpc & Hw).
    destruct (segment_state _ _ _ _ _ _ _ _ _ _ Ht He Hlv)
      as (st & Hst & Hid & Hn & Hpc' & _ & _ & _ & Hpend & _).
    pose proof (piece_count_unique _ _ _ _ Hpc Hpc') as ->. apply Hpend in Hw.
    unfold flat_pending. rewrite elem_of_list_In, in_flat_map. exists (r, st). split.
    - rewrite <- elem_of_list_In. by apply elem_of_map_to_list.
    - apply in_map_iff. exists (d, k). split; [done|].
      rewrite <- elem_of_list_In. by apply elem_of_map_to_list. }
  apply submseteq_length in Hsub. unfold Nlen. lia.
Qed.

(** What [next_request] does. *)
Lemma next_request_effect rid cfg t s ord :
  sender_trace enc_meta (sender_init rid cfg) t s ->
  ord ≡ₚ (map_to_list (sd_receivers s)).*1 ->
  exists s' o, sender_step enc_meta s (SNext ord) = Ok (s', OReq o) /\
    (o = None <-> sd_max_pending (sender_init rid cfg) <= in_flight s \/
                  forall r st, sd_receivers s !! r = Some st -> ~ viable st) /\
    (forall q, o = Some q -> dq_delivery q = Nlen (sent_requests t) + 1 /\ dq_sender q = rid /\
       exists st, sd_receivers s !! dq_recipient q = Some st /\ viable st /\
         forall r st', sd_receivers s !! r = Some st' -> viable st' ->
           (ss_sent st + pending_count st) * ss_count st' <= (ss_sent st' + pending_count st') * ss_count st).
Proof.
  intros Ht Hord. pose proof (sinv_trace _ _ _ _ _ Ht) as Hi.
  destruct (next_request_cases _ _ _ _ _ _ _ Hi Hord) as
    [[Hn Hc]|(r' & st0 & st' & c & Hf & Hst & Hv & Hmin & Hch & Hn)]; simpl; rewrite Hn; simpl.
  - exists s, None. split; [done|]. split; [done|]. done.
  - eexists _, _. split; [done|]. split.
    + split; [done|]. intros [?|Hno]; [lia|]. by destruct (Hno _ _ Hst).
    + intros q [= <-]. cbn [dq_delivery dq_sender dq_recipient]. split_and!; [apply (si_del _ _ _ _ _ _ Hi)|done|].
      exists st0. split_and!; [done|done|]. intros r st1 H1 [Hs1 Hv1].
      specialize (Hmin _ _ H1). unfold frac_le, progress in Hmin.
      destruct Hv as [Hs0 _]. rewrite Hs1, Hs0 in Hmin. cbn [fst snd] in Hmin. lia.
Qed.

(** End to end: whatever part of one transfer's requests reaches a receiver, in
    whatever order, with requests of others in between. *)
Hypothesis codec : forall m, dec_meta (enc_meta m) = Some m.

Lemma end_to_end rid cfg t s pre r sn out post ops st0 st1 snap :
  sender_trace enc_meta (sender_init rid cfg) t s ->
  t = pre ++ (SStart r sn, out) :: post -> live_since r post ->
  receiver_run dec_meta None ops = Ok st0 ->
  (forall q, RReq q ∈ ops -> dq_sender q = rid -> q ∈ requests_to r post) ->
  receiver_try_complete dec_meta st0 = Ok (st1, Some (Some (rid, snap))) ->
  snap = sn.
Proof.
  intros Ht He Hl Hrun Hfrom Hc.
  destruct (transfer_requests _ _ _ _ _ _ _ _ _ Ht He Hl) as (n & m & Hpc & Hm & Hreq & Hsr).
  assert (forall q, q ∈ requests_to r post ->
            belongs enc_meta rid (sd_chunk_size (sender_init rid cfg)) (nstarts pre + 1) sn n q) as Hb.
  { intros q Hq. split; [by apply Hsr|].
    assert (dq_payload q ∈ dq_payload <$> requests_to r post) as Hp by (apply elem_of_list_fmap; eauto).
    rewrite Hreq in Hp. apply elem_of_list_fmap in Hp as (k & Hk & Hin). apply range_elem in Hin.
    exists k. split; [lia|done]. }
  eapply (integrity_since_header enc_meta dec_meta codec); [exact Hpc|exact Hrun|exact Hc|].
  intros pre' h post' -> Hh Hs _. split.
  - apply Hb, Hfrom; [|done]. set_solver.
  - intros q Hq Hqs. left. apply Hb, Hfrom; [|done]. set_solver.
Qed.
End Trace.

(** ** What an acknowledgement means *)
Lemma process_request_ack state q state' resp :
  process_request state q = Ok (state', resp) ->
  dp_sender resp = dq_recipient q /\ dp_recipient resp = dq_sender q /\ dp_delivery resp = dq_delivery q /\
  exists a, dp_payload resp = Some (Some a) /\
  match dq_payload q with
  | Some (Some (Content id (Some it))) =>
      ak_snapshot_id a = id /\
      ak_chunk_index a = (match it with CHeader _ _ _ => 0 | CChunk i _ => i end) /\
      ((ak_status a = AckAccepted /\ exists st, state' = Some st /\ rs_sender st = dq_sender q /\
          rs_chunks st !! ak_chunk_index a =
            Some (match it with CHeader _ _ c => c | CChunk _ c => c end)) \/
       (ak_status a = AckRejected /\ state' = state))
  | _ => ak_status a <> AckAccepted /\ state' = state
  end.
Proof.
  unfold process_request. destruct (dq_payload q) as [[[id [it|]]|]|]; [|intros [= <- <-]; split_and!; try done; by eexists ..|done].
  destruct it as [size meta c|i c].
  - unfold receiver_state_new. destruct (chunk_count _ _) as [n| |]; simpl; [|done|done].
    intros [= <- <-]. split_and!; try done. eexists. split; [done|]. simpl. split_and!; try done.
    left. split; [done|]. eexists. split; [done|]. simpl. split; [done|]. by rewrite lookup_singleton.
  - destruct state as [st|].
    + unfold accept_chunk. destruct (N.eqb_spec (dq_sender q) (rs_sender st)) as [Es|]; simpl.
      * destruct (_ || _ || _); intros [= <- <-]; split_and!; try done; (eexists; split; [done|]; simpl; split_and!; try done).
        -- by right.
        -- left. split; [done|]. eexists. split; [done|]. simpl. split; [done|]. by rewrite lookup_insert.
      * intros [= <- <-]. split_and!; try done; (eexists; split; [done|]; simpl; split_and!; try done). by right.
    + intros [= <- <-]. split_and!; try done; (eexists; split; [done|]; simpl; split_and!; try done). by right.
Qed.

(** ** The processor *)
Section Processor.
Variable enc_meta : snap_meta -> bytes.
Variable dec_meta : bytes -> option snap_meta.

Lemma last_notified_app t1 : forall t2 acc,
  last_notified (t1 ++ t2) acc = last_notified t2 (last_notified t1 acc).
Proof. induction t1 as [|[[] ?] t1 IH]; intros; simpl; auto. Qed.

Record pinv (rid : N) (cfg : option (N * N)) (t : list (pop * pout)) (p : processor) : Prop := {
  pi_rid : pr_replica_id p = rid;
  pi_last : (pr_leader_id p, pr_leader_term p) = last_notified t (0, 0);
  pi_state : pr_state p = if pr_leader_id p =? rid then RLeader else RFollower;
  pi_sender : exists st, sender_trace enc_meta (sender_init rid cfg) st (pr_sender p);
  pi_receiver : exists ops, receiver_run dec_meta None ops = Ok (pr_receiver p);
  pi_idle : (pr_state p = RFollower -> sd_receivers (pr_sender p) = ∅) /\
            (pr_state p = RLeader -> pr_receiver p = None);
}.

Lemma pinv_init rid cfg p : rid <> 0 ->
  processor_init processor_new rid cfg = Ok p -> pinv rid cfg [] p.
Proof.
  intros Hr [= <-]. constructor; simpl; try done.
  - by destruct rid.
  - exists []. constructor.
  - by exists [].
  - split; [|done]. by destruct cfg as [[]|].
Qed.

Lemma pinv_step rid cfg t p op p' out : pinv rid cfg t p -> pop_ok p op ->
  processor_step enc_meta dec_meta p op = Ok (p', out) -> pinv rid cfg (t ++ [(op, out)]) p'.
Proof.
  intros [Hrid Hlast Hstate (ts & Hts) (ops & Hops) [Hif Hil]] Hok Hstep.
  destruct op as [ord l tm rs|sop|rop]; cbn [processor_step] in Hstep.
  - unfold process_cluster_change in Hstep. rewrite Hrid, Hstate in Hstep.
    destruct (N.eqb_spec (pr_leader_id p) rid) as [Hl|Hl]; simpl in Hstep.
    + rewrite Hstate in Hil.
      set (nr := negb (pr_leader_id p =? l) || negb (pr_leader_term p =? tm) || negb (existsb (fun r => r =? rid) rs)) in *.
      destruct (sender_reset (pr_sender p) ord) as [s' c] eqn:Er.
      assert (exists ts', sender_trace enc_meta (sender_init rid cfg) ts' s') as Hs'.
      { exists (ts ++ [(SReset ord, OCancel c)]). econstructor; [exact Hts|exact Hok|]. cbn [sender_step]. by rewrite Er. }
      assert (sd_receivers s' = ∅) as He by by (unfold sender_reset in Er; simplify_eq).
      destruct nr eqn:En; simpl in Hstep; simplify_eq; constructor; simpl; try done.
      * by rewrite last_notified_app.
      * rewrite (N.eqb_sym l). by destruct (pr_replica_id p =? l).
      * by exists ops.
      * split; [done|]. intros _. by apply Hil.
      * by rewrite last_notified_app.
      * rewrite (N.eqb_sym l). by destruct (pr_replica_id p =? l).
      * by exists ts.
      * by exists ops.
      * split; [|intros _; by apply Hil].
        destruct (N.eqb_spec (pr_replica_id p) l) as [|Hne]; [done|]. intros _.
        rewrite Hl, (proj2 (N.eqb_neq _ _) Hne) in En. done.
    + rewrite Hstate in Hif.
      simplify_eq. constructor; simpl; try done.
      * by rewrite last_notified_app.
      * by rewrite N.eqb_sym.
      * by exists ts.
      * destruct (_ || _ || _); [by exists []|by exists ops].
      * split; [by intros _; apply Hif|].
        destruct (N.eqb_spec (pr_replica_id p) l) as [<-|]; [|done]. intros _.
        destruct (N.eqb_spec (pr_leader_id p) (pr_replica_id p)); [done|]. done.
  - unfold processor_role in Hstep. destruct (pr_state p) eqn:Es; [done|done|]. 
    destruct (sender_step enc_meta (pr_sender p) sop) as [[s' o]| |] eqn:Ess; [|by destruct sop..].
    assert (Ok (Processor (pr_replica_id p) (pr_leader_id p) (pr_leader_term p) RLeader s' (pr_receiver p), PSent o) = Ok (p', out) :> res unit _) as Heq
      by (destruct sop; done).
    injection Heq as <- <-. constructor; simpl; try done.
    + by rewrite last_notified_app.
    + exists (ts ++ [(sop, o)]). econstructor; [exact Hts|exact Hok|done].
    + by exists ops.
  - unfold processor_role in Hstep. destruct (pr_state p) eqn:Es; [done| |done].
    destruct (receiver_step dec_meta (pr_receiver p) rop) as [r'| |] eqn:Ess; [|by destruct rop..].
    assert (Ok (Processor (pr_replica_id p) (pr_leader_id p) (pr_leader_term p) RFollower (pr_sender p) r', PReceived) = Ok (p', out) :> res unit _) as Heq
      by (destruct rop; done).
    injection Heq as <- <-. constructor; simpl; try done.
    + by rewrite last_notified_app.
    + by exists ts.
    + exists (ops ++ [rop]). rewrite receiver_run_app, Hops. simpl. by rewrite Ess.
Qed.

Lemma pinv_trace rid cfg p0 t p : rid <> 0 -> processor_init processor_new rid cfg = Ok p0 ->
  processor_trace enc_meta dec_meta p0 t p -> pinv rid cfg t p.
Proof.
  intros Hr H0. induction 1; [by eapply pinv_init|]. by eapply pinv_step.
Qed.

Lemma change_effect rid cfg p0 t p ord l tm rs : rid <> 0 ->
  processor_init processor_new rid cfg = Ok p0 ->
  processor_trace enc_meta dec_meta p0 t p ->
  ord ≡ₚ (map_to_list (sd_receivers (pr_sender p))).*1 ->
  exists p' c, processor_step enc_meta dec_meta p (PChange ord l tm rs) = Ok (p', PCancelled c) /\
    if decide ((l, tm) = last_notified t (0, 0) /\ rid ∈ rs)
    then c = [] /\ pr_sender p' = pr_sender p /\ pr_receiver p' = pr_receiver p
    else c ≡ₚ map (fun r => (r, Failure)) (map_to_list (sd_receivers (pr_sender p))).*1 /\
         sd_receivers (pr_sender p') = ∅ /\ pr_receiver p' = None.
Proof.
  intros Hr H0 Ht Hord. pose proof (pinv_trace _ _ _ _ _ Hr H0 Ht) as [Hrid Hlast Hstate _ _ [Hif Hil]].
  assert (negb (pr_leader_id p =? l) || negb (pr_leader_term p =? tm)
          || negb (existsb (fun r => r =? pr_replica_id p) rs) =
          negb (bool_decide ((l, tm) = last_notified t (0, 0) /\ rid ∈ rs))) as Hnr.
  { assert (existsb (fun r => r =? pr_replica_id p) rs = bool_decide (rid ∈ rs)) as ->.
    { rewrite Hrid. apply Bool.eq_true_iff_eq. rewrite existsb_exists, bool_decide_eq_true.
      split; [intros (x & Hx & ?%N.eqb_eq); subst; by apply elem_of_list_In|].
      intros Hx. exists rid. split; [by apply elem_of_list_In|apply N.eqb_refl]. }
    rewrite <- Hlast. case_bool_decide as A; case_bool_decide as B; simpl.
    - destruct B as [[= -> ->] _]. by rewrite !N.eqb_refl.
    - destruct (N.eqb_spec (pr_leader_id p) l); [|done].
      destruct (N.eqb_spec (pr_leader_term p) tm); [|done]. destruct B. by subst.
    - by destruct B.
    - by rewrite !orb_true_r. }
  cbn [processor_step]. unfold process_cluster_change. rewrite Hnr, Hstate.
  assert ((map (fun '(k, _) => (k, Failure)) (in_order ord (sd_receivers (pr_sender p)))) ≡ₚ
    map (fun r => (r, Failure)) (map_to_list (sd_receivers (pr_sender p))).*1) as Hperm.
  { rewrite (in_order_perm _ _ Hord). match goal with |- ?a ≡ₚ ?b => assert (a = b) as -> end; [|done]. rewrite map_map. apply map_ext. by intros []. }
  destruct (N.eqb_spec (pr_leader_id p) rid) as [Hl|Hl]; simpl.
  - destruct (decide _) as [Hd|Hd].
    + rewrite bool_decide_true by done. eexists _, _. split; [done|]. done.
    + rewrite bool_decide_false by done. unfold sender_reset. simpl. eexists _, _. split; [done|].
      split; [done|]. split; [done|]. by apply Hil.
  - destruct (decide _) as [Hd|Hd].
    + rewrite bool_decide_true by done. eexists _, _. split; [done|]. done.
    + rewrite bool_decide_false by done. eexists _, _. split; [done|]. simpl.
      assert (sd_receivers (pr_sender p) = ∅) as He.
      { by apply Hif. }
      rewrite He, map_to_list_empty. done.
Qed.
End Processor.
