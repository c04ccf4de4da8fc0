From Verif Require Import Base StorageModel SnapshotModel SnapshotSpec SnapshotProofs.

(** ** Receiver *)

Lemma full_map {A} (m : gmap N A) n :
  (forall k v, m !! k = Some v -> k < n) -> N.of_nat (size m) = n ->
  forall k, k < n -> is_Some (m !! k).
Proof.
  intros Hb Hs k Hk.
  assert (Hnd : NoDup (map_to_list m).*1) by apply NoDup_fst_map_to_list.
  assert (Hsub : (map_to_list m).*1 ⊆+ range n).
  { apply NoDup_submseteq; [done|]. intros x Hx. apply range_elem.
    apply elem_of_list_fmap in Hx as ([k' v] & -> & Hx). apply elem_of_map_to_list in Hx. eauto. }
  assert (Hperm : (map_to_list m).*1 ≡ₚ range n).
  { apply submseteq_Permutation_length_eq; [|done].
    rewrite fmap_length, range_length. unfold size, map_size in Hs. lia. }
  assert (Hin : k ∈ (map_to_list m).*1) by (rewrite Hperm; by apply range_elem).
  apply elem_of_list_fmap in Hin as ([k' v] & -> & Hx). apply elem_of_map_to_list in Hx. eauto.
Qed.

Lemma assemble_ok n : forall i chunks data, assemble n i chunks = Ok data ->
  exists l, length l = n /\ data = concat l /\
    forall k b, l !! k = Some b -> chunks !! (i + N.of_nat k) = Some b.
Proof.
  induction n as [|n IH]; simpl; intros i chunks data H.
  - injection H as <-. exists []. split_and!; try done.
  - destruct (chunks !! i) as [b|] eqn:E; [|done].
    destruct (assemble n (i + 1) chunks) as [rest| |] eqn:E2; simpl in H; [|done|done].
    injection H as <-. destruct (IH _ _ _ E2) as (l & Hl & -> & Hk).
    exists (b :: l). split_and!; [simpl; lia|done|].
    intros [|k] b' Hb; simpl in Hb.
    + injection Hb as <-. replace (i + N.of_nat 0) with i by lia. done.
    + specialize (Hk _ _ Hb). rewrite <- Hk. f_equal. lia.
Qed.

Lemma assemble_pieces n : forall i chunks (f : N -> bytes),
  (forall k, i <= k -> k < i + N.of_nat n -> chunks !! k = Some (f k)) ->
  assemble n i chunks = Ok (concat (map (fun k => f (i + N.of_nat k)) (seq 0 n))).
Proof.
  induction n as [|n IH]; simpl; intros i chunks f H; [done|].
  assert (Hi : chunks !! i = Some (f i)) by (apply H; lia). rewrite Hi. rewrite (IH (i + 1) chunks f); [|intros; apply H; lia].
  simpl. rewrite N.add_0_r, <- seq_shift, map_map. do 3 f_equal. apply map_ext. intros. f_equal. lia.
Qed.

Section Receiver.
Variable dec_meta : bytes -> option snap_meta.

(** Completed polls are visible in a history as [RPoll]s that empty the state;
    the invariant only records what was received since the last header. *)
Record cinv (ops : list rop) (st : receiver_state) : Prop := {
  ci_hist : exists pre h post c0,
    ops = pre ++ RReq h :: post /\
    dq_sender h = rs_sender st /\
    dq_payload h = Some (Some (Content (rs_id st) (Some (CHeader (rs_size st) (rs_meta st) c0)))) /\
    rs_chunk_size st = Nlen c0 /\
    (forall q, RReq q ∈ post -> ~ is_header q) /\ RReset ∉ post /\
    (forall k b, rs_chunks st !! k = Some b ->
       (k = 0 /\ b = c0) \/
       exists q id, RReq q ∈ post /\ dq_sender q = rs_sender st /\
         dq_payload q = Some (Some (Content id (Some (CChunk k b)))));
  ci_count : chunk_count (rs_size st) (rs_chunk_size st) = Ok (rs_count st);
  ci_zero : is_Some (rs_chunks st !! 0);
  ci_bound : forall k b, rs_chunks st !! k = Some b -> k < rs_count st;
  ci_len : forall k b, rs_chunks st !! k = Some b -> k < rs_count st - 1 -> Nlen b = rs_chunk_size st;
}.

Lemma chunk_count_pos size cs n : chunk_count size cs = Ok n -> 1 <= n.
Proof.
  unfold chunk_count. destruct (0 <? size); [destruct (cs =? 0); [done|]|]; intros [= <-]; [generalize ((size - 1) / cs); intros; lia|lia].
Qed.

Lemma cinv_extend ops st op :
  cinv ops st -> (forall q, op = RReq q -> ~ is_header q) -> op <> RReset -> cinv (ops ++ [op]) st.
Proof.
  intros [(pre & h & post & c0 & -> & H1 & H2 & H3 & H4 & H5 & H6) I2 I3 I4 I5] Hq Hr.
  split; try done. exists pre, h, (post ++ [op]), c0. split_and!; try done.
  - by rewrite <- app_assoc.
  - intros q [Hin|Hin]%elem_of_app; [eauto|]. apply elem_of_list_singleton in Hin. eauto.
  - intros [Hin|Hin]%elem_of_app; [done|]. apply elem_of_list_singleton in Hin. done.
  - intros k b Hb. destruct (H6 k b Hb) as [?|(q & id & ? & ? & ?)]; [by left|right].
    exists q, id. split_and!; try done. set_solver.
Qed.

Lemma cinv_step ops st0 op st :
  (forall st', st0 = Some st' -> cinv ops st') ->
  receiver_step dec_meta st0 op = Ok (Some st) -> cinv (ops ++ [op]) st.
Proof.
  intros Hinv Hs. destruct op as [q| |]; simpl in Hs; [| |done].
  - unfold process_request in Hs.
    destruct (dq_payload q) as [[[id [[size meta c|i c]|]]|]|] eqn:Ep; simpl in Hs; try done.
    + (* header *)
      unfold receiver_state_new in Hs.
      destruct (chunk_count size (Nlen c)) as [n| |] eqn:Ec; simpl in Hs; [|done|done].
      injection Hs as <-. split; simpl.
      * exists ops, q, [], c. split_and!; try done.
        -- intros q' Hq'. by apply elem_of_nil in Hq'.
        -- apply not_elem_of_nil.
        -- intros k b Hb. apply lookup_singleton_Some in Hb as [<- <-]. by left.
      * done.
      * rewrite lookup_singleton. eauto.
      * intros k b Hb. apply lookup_singleton_Some in Hb as [<- <-].
        apply chunk_count_pos in Ec. lia.
      * intros k b Hb. apply lookup_singleton_Some in Hb as [<- <-]. done.
    + (* chunk *)
      destruct st0 as [st0|]; [|done].
      assert (Hnh : forall q', RReq q = RReq q' -> ~ is_header q').
      { intros q' [= <-] (id' & ? & ? & ? & Hx). congruence. }
      specialize (Hinv _ eq_refl).
      destruct (accept_chunk st0 (dq_sender q) i c) as [st1|] eqn:Ea; injection Hs as <-;
        [|by apply cinv_extend].
      unfold accept_chunk in Ea.
      destruct (N.eqb_spec (dq_sender q) (rs_sender st0)) as [Es|]; simpl in Ea; [|done].
      destruct (N.leb_spec (rs_count st0) i); simpl in Ea; [done|].
      destruct ((i <? rs_count st0 - 1) && negb (Nlen c =? rs_chunk_size st0)) eqn:E1; simpl in Ea; [done|].
      destruct ((i =? rs_count st0 - 1) && _) eqn:E2; simpl in Ea; [done|].
      injection Ea as <-.
      assert (Hlen : i < rs_count st0 - 1 -> Nlen c = rs_chunk_size st0).
      { intros Hi. apply andb_false_iff in E1 as [E1|E1]; [apply N.ltb_ge in E1; lia|].
        apply negb_false_iff, N.eqb_eq in E1. done. }
      apply (cinv_extend _ _ (RReq q)) in Hinv; [|done|done].
      destruct Hinv as [(pre & h & post & c0 & Hops & H1 & H2 & H3 & H4 & H5 & H6) I2 I3 I4 I5].
      assert (Hin : RReq q ∈ post).
      { destruct post as [|o post _] using rev_ind.
        - apply app_inj_tail in Hops as [_ [= <-]]. congruence.
        - rewrite app_comm_cons, app_assoc in Hops. apply app_inj_tail in Hops as [_ <-]. set_solver. }
      split; simpl.
      * exists pre, h, post, c0. split_and!; try done.
        intros k b Hb. apply lookup_insert_Some in Hb as [[<- <-]|[_ Hb]]; [|by apply H6].
        right. exists q, id. done.
      * done.
      * destruct (decide (i = 0)) as [->|]; [rewrite lookup_insert|rewrite lookup_insert_ne by done]; eauto.
      * intros k b Hb. apply lookup_insert_Some in Hb as [[<- <-]|[_ Hb]]; [lia|]. eauto.
      * intros k b Hb. apply lookup_insert_Some in Hb as [[<- <-]|[_ Hb]]; [done|]. eauto.
    + injection Hs as ->. apply cinv_extend; [by apply Hinv| |done].
      intros q' [= <-] (id' & ? & ? & ? & Hx). congruence.
    + injection Hs as ->. apply cinv_extend; [by apply Hinv| |done].
      intros q' [= <-] (id' & ? & ? & ? & Hx). congruence.
  - unfold receiver_try_complete in Hs. destruct st0 as [st0|]; [|done].
    destruct (rs_try_complete dec_meta st0) as [[x|]| |]; simpl in Hs; try done.
    injection Hs as <-. apply cinv_extend; [by apply Hinv|done|done].
Qed.

Lemma receiver_run_app ops1 : forall st ops2,
  receiver_run dec_meta st (ops1 ++ ops2) =
  (let! st' := receiver_run dec_meta st ops1 in receiver_run dec_meta st' ops2).
Proof.
  induction ops1 as [|o ops1 IH]; simpl; intros st ops2; [done|].
  destruct (receiver_step dec_meta st o); simpl; [apply IH|done|done].
Qed.

Lemma cinv_run ops st : receiver_run dec_meta None ops = Ok (Some st) -> cinv ops st.
Proof.
  revert st. induction ops as [|op ops IH] using rev_ind; intros st H; [done|].
  rewrite receiver_run_app in H.
  destruct (receiver_run dec_meta None ops) as [st0| |] eqn:E; simpl in H; [|done|done].
  eapply (cinv_step ops st0); [by intros st' ->; apply IH|].
  destruct (receiver_step dec_meta st0 op) as [x| |]; simpl in H; [|done|done]. by injection H as ->.
Qed.

(** Exact shape of a completed snapshot. *)
Lemma completion_exact ops st0 st1 sid snap :
  receiver_run dec_meta None ops = Ok st0 ->
  receiver_try_complete dec_meta st0 = Ok (st1, Some (Some (sid, snap))) ->
  st1 = None /\
  exists pre h post id size meta c0 m n chunks,
    ops = pre ++ RReq h :: post /\
    dq_sender h = sid /\
    dq_payload h = Some (Some (Content id (Some (CHeader size meta c0)))) /\
    (forall q, RReq q ∈ post -> ~ is_header q) /\ RReset ∉ post /\
    dec_meta meta = Some m /\ snap = snapshot_of m (concat chunks) /\
    chunk_count size (Nlen c0) = Ok n /\ Nlen chunks = n /\
    (forall k b, chunks !! k = Some b ->
       ((k = 0)%nat /\ b = c0) \/
       exists q id', RReq q ∈ post /\ dq_sender q = sid /\
         dq_payload q = Some (Some (Content id' (Some (CChunk (N.of_nat k) b))))).
Proof.
  intros Hr Hc. unfold receiver_try_complete in Hc. destruct st0 as [st|]; [|done].
  pose proof (cinv_run _ _ Hr) as [(pre & h & post & c0 & -> & H1 & H2 & H3 & H4 & H5 & H6) I2 I3 I4 I5].
  unfold rs_try_complete in Hc.
  destruct (N.eqb_spec (N.of_nat (size (rs_chunks st))) (rs_count st)) as [Esz|]; simpl in Hc; [|done].
  destruct (dec_meta (rs_meta st)) as [m|] eqn:Em; [|done].
  destruct (assemble _ 0 _) as [data| |] eqn:Ea; simpl in Hc; [|done|done].
  injection Hc as <- <- <-. split; [done|].
  destruct (assemble_ok _ _ _ _ Ea) as (l & Hl & -> & Hk).
  exists pre, h, post, (rs_id st), (rs_size st), (rs_meta st), c0, m, (rs_count st), l.
  split_and!; try done.
  - by rewrite <- H3.
  - unfold Nlen. lia.
  - intros k b Hb. specialize (Hk _ _ Hb). rewrite N.add_0_l in Hk.
    destruct (H6 _ _ Hk) as [[? ->]|?]; [left; split; [lia|done]|by right].
Qed.

(** No completion aborts: all pieces are there. *)
Lemma try_complete_no_panic ops st0 : receiver_run dec_meta None ops = Ok st0 ->
  exists r, receiver_try_complete dec_meta st0 = Ok r.
Proof.
  intros Hr. destruct st0 as [st|]; [|by eexists].
  pose proof (cinv_run _ _ Hr) as [_ I2 I3 I4 I5]. unfold receiver_try_complete, rs_try_complete.
  destruct (N.eqb_spec (N.of_nat (size (rs_chunks st))) (rs_count st)) as [Esz|]; simpl; [|eauto].
  destruct (dec_meta (rs_meta st)); [|simpl; eauto].
  rewrite (assemble_pieces _ _ _ (fun k => default [] (rs_chunks st !! k))).
  - simpl. eauto.
  - intros k _ Hk. destruct (full_map _ _ I4 Esz k ltac:(lia)) as [b Hb]. by rewrite Hb.
Qed.
End Receiver.

Lemma first_piece_count cs data n n' : is_piece_count cs data n ->
  chunk_count (Nlen data) (Nlen (piece cs data 0)) = Ok n' -> n' = n.
Proof.
  intros Hp Hc. apply chunk_count_is_piece in Hc. rewrite piece_length in Hc.
  destruct Hp as (P1 & P2 & P3), Hc as (Q1 & Q2 & Q3).
  destruct (N.eq_dec n 1) as [->|Hn], (N.eq_dec n' 1) as [->|Hn']; try done.
  - specialize (Q3 Hn'). nia.
  - specialize (P3 Hn). nia.
  - specialize (P3 Hn). specialize (Q3 Hn').
    destruct (N.le_gt_cases cs (Nlen data)).
    + replace (N.min cs (Nlen data - 0 * cs)) with cs in * by lia.
      assert (~ n < n') by nia. assert (~ n' < n) by nia. lia.
    + nia.
Qed.

Lemma transfer_header enc_meta cs id sn k id' size meta c :
  transfer_content enc_meta cs id sn k = Content id' (Some (CHeader size meta c)) ->
  k = 0 /\ id' = id /\ size = Nlen (sn_data sn) /\ meta = enc_meta (meta_of sn) /\
  c = piece cs (sn_data sn) 0.
Proof. unfold transfer_content. destruct (N.eqb_spec k 0); intros; by simplify_eq. Qed.

Lemma transfer_chunk enc_meta cs id sn k id' i c :
  transfer_content enc_meta cs id sn k = Content id' (Some (CChunk i c)) ->
  k <> 0 /\ id' = id /\ i = k /\ c = piece cs (sn_data sn) k.
Proof. unfold transfer_content. destruct (N.eqb_spec k 0); intros; by simplify_eq. Qed.

Lemma concat_map_pieces (l : list bytes) cs data n :
  is_piece_count cs data n -> Nlen l = n ->
  (forall k b, l !! k = Some b -> b = piece cs data (N.of_nat k)) -> concat l = data.
Proof.
  intros Hp Hl Hk. rewrite <- (concat_all_pieces cs data n Hp). f_equal.
  apply list_eq. intros k. rewrite list_lookup_fmap, range_lookup.
  destruct (l !! k) as [b|] eqn:E.
  - pose proof (lookup_lt_Some _ _ _ E). unfold Nlen in Hl. destruct (decide _); [|lia].
    simpl. f_equal. by apply Hk.
  - apply lookup_ge_None_1 in E. unfold Nlen in Hl. destruct (decide _); [lia|done].
Qed.

Lemma snapshot_eta sn : snapshot_of (meta_of sn) (sn_data sn) = sn.
Proof. by destruct sn. Qed.

(** The requests since the header, from the sender of the header, all belong to
    one transfer: what completes is what was sent. *)
Lemma integrity_since_header enc_meta dec_meta :
  (forall m, dec_meta (enc_meta m) = Some m) ->
  forall ops st0 st1 sid snap cs id sn n,
  is_piece_count cs (sn_data sn) n ->
  receiver_run dec_meta None ops = Ok st0 ->
  receiver_try_complete dec_meta st0 = Ok (st1, Some (Some (sid, snap))) ->
  (forall pre h post, ops = pre ++ RReq h :: post -> is_header h -> dq_sender h = sid ->
     (forall q, RReq q ∈ post -> ~ is_header q) ->
     belongs enc_meta sid cs id sn n h /\
     forall q, RReq q ∈ post -> dq_sender q = sid -> belongs enc_meta sid cs id sn n q \/ forall c, dq_payload q <> Some (Some c)) ->
  snap = sn.
Proof.
  intros Hcodec ops st0 st1 sid snap cs id sn n Hp Hr Hc Hb.
  destruct (completion_exact _ _ _ _ _ _ Hr Hc) as
    (_ & pre & h & post & id0 & size & meta & c0 & m & n0 & chunks & -> & Hs & Hh & Hnh & Hnr & Hm & -> & Hn0 & Hlen & Hch).
  destruct (Hb pre h post eq_refl) as [Hbh Hbp]; [by eexists _, _, _, _|done|done|].
  destruct Hbh as (_ & k & Hk & Hpay). rewrite Hh in Hpay. symmetry in Hpay.
  apply (inj Some), (inj Some) in Hpay.
  apply transfer_header in Hpay as (-> & -> & -> & -> & ->).
  rewrite Hcodec in Hm. injection Hm as <-.
  pose proof (first_piece_count _ _ _ _ Hp Hn0) as ->.
  transitivity (snapshot_of (meta_of sn) (sn_data sn)); [f_equal|apply snapshot_eta].
  apply (concat_map_pieces _ cs _ n Hp); [done|].
  intros j b Hj. destruct (Hch _ _ Hj) as [[-> ->]|(q & id' & Hin & Hqs & Hq)]; [done|].
  destruct (Hbp q Hin Hqs) as [(_ & k' & Hk' & Hpay)|Hbad]; [|by destruct (Hbad _ Hq)].
  rewrite Hq in Hpay. symmetry in Hpay.
  apply (inj Some), (inj Some) in Hpay.
  apply transfer_chunk in Hpay as (_ & _ & -> & ->). done.
Qed.

(** Completion does happen. *)
Section Live.
Variable enc_meta : snap_meta -> bytes.
Variable dec_meta : bytes -> option snap_meta.
Hypothesis codec : forall m, dec_meta (enc_meta m) = Some m.

Lemma accept_good cs id sn n k st q :
  is_piece_count cs (sn_data sn) n -> k < n -> k <> 0 ->
  rs_sender st = dq_sender q -> rs_size st = Nlen (sn_data sn) ->
  rs_chunk_size st = Nlen (piece cs (sn_data sn) 0) -> rs_count st = n ->
  dq_payload q = Some (Some (transfer_content enc_meta cs id sn k)) ->
  exists resp, process_request (Some st) q =
    Ok (Some (ReceiverState (rs_sender st) (rs_id st) (rs_size st) (rs_meta st)
               (rs_chunk_size st) (rs_count st) (<[k := piece cs (sn_data sn) k]> (rs_chunks st))),
        resp).
Proof.
  intros Hp Hk Hk0 Hs Hsz Hcs Hn Hq. unfold process_request. rewrite Hq.
  unfold transfer_content. destruct (N.eqb_spec k 0); [done|]. simpl.
  unfold accept_chunk. rewrite Hs, N.eqb_refl. simpl. rewrite Hn.
  destruct Hp as (P1 & P2 & P3). assert (Hn1 : n <> 1) by lia. specialize (P3 Hn1).
  pose proof (piece_length cs (sn_data sn) k) as Hl.
  assert (Hc0 : rs_chunk_size st = cs).
  { rewrite Hcs, piece_length. assert (1 * cs <= (n - 1) * cs) by (apply N.mul_le_mono_r; lia). lia. }
  destruct (N.leb_spec n k); [lia|]. simpl.
  destruct (N.ltb_spec k (n - 1)).
  - assert (k * cs + cs <= (n - 1) * cs).
    { replace (k * cs + cs) with ((k + 1) * cs) by lia. apply N.mul_le_mono_r. lia. }
    assert (Nlen (piece cs (sn_data sn) k) = cs) as -> by lia.
    rewrite Hc0, N.eqb_refl. simpl.
    destruct (N.eqb_spec k (n - 1)); [lia|]. simpl. eauto.
  - simpl. assert (k = n - 1) as -> by lia. rewrite N.eqb_refl. simpl. rewrite Hc0, Hsz, Hl.
    assert (n * cs = (n - 1) * cs + cs) by (replace (n * cs) with ((n - 1 + 1) * cs) by (f_equal; lia); lia).
    replace (N.min cs (Nlen (sn_data sn) - (n - 1) * cs)) with (Nlen (sn_data sn) - (n - 1) * cs) by lia.
    rewrite N.eqb_refl. simpl. eauto.
Qed.

Lemma reject_foreign st q : dq_sender q <> rs_sender st -> ~ is_header q -> dq_payload q <> None ->
  exists resp, process_request (Some st) q = Ok (Some st, resp).
Proof.
  intros Hs Hh Hp. unfold process_request.
  destruct (dq_payload q) as [[[id [[size meta c|i c]|]]|]|] eqn:Ep; try done; try (eexists; done).
  - destruct Hh. by eexists _, _, _, _.
  - unfold accept_chunk. destruct (N.eqb_spec (dq_sender q) (rs_sender st)); [done|]. eexists; done.
Qed.

Lemma live_run sid cs id sn n post :
  is_piece_count cs (sn_data sn) n ->
  (forall q, q ∈ post -> ~ is_header q /\ dq_payload q <> None) ->
  (forall q, q ∈ post -> dq_sender q = sid -> belongs enc_meta sid cs id sn n q) ->
  forall st, rs_sender st = sid -> rs_size st = Nlen (sn_data sn) ->
  rs_chunk_size st = Nlen (piece cs (sn_data sn) 0) -> rs_count st = n ->
  (forall k b, rs_chunks st !! k = Some b -> k < n /\ b = piece cs (sn_data sn) k) ->
  exists st', receiver_run dec_meta (Some st) (RReq <$> post) = Ok (Some st') /\
    rs_sender st' = sid /\ rs_count st' = n /\ rs_meta st' = rs_meta st /\
    (forall k b, rs_chunks st' !! k = Some b -> k < n /\ b = piece cs (sn_data sn) k) /\
    (forall k, is_Some (rs_chunks st !! k) -> is_Some (rs_chunks st' !! k)) /\
    (forall q k, q ∈ post -> dq_sender q = sid ->
       dq_payload q = Some (Some (transfer_content enc_meta cs id sn k)) -> is_Some (rs_chunks st' !! k)).
Proof.
  intros Hp. induction post as [|q post IH]; intros Hh Hb st Hs Hsz Hcs Hn Hch.
  - exists st. simpl. split_and!; try done. intros q k Hq. by apply elem_of_nil in Hq.
  - destruct (Hh q) as [Hq1 Hq2]; [set_solver|].
    destruct (decide (dq_sender q = sid)) as [Hqs|Hqs].
    + destruct (Hb q) as (_ & k & Hk & Hpay); [set_solver|done|].
      assert (Hk0 : k <> 0).
      { intros ->. apply Hq1. rewrite <- Hpay || idtac. unfold is_header. rewrite Hpay.
        unfold transfer_content. simpl. by eexists _, _, _, _. }
      destruct (accept_good cs id sn n k st q Hp Hk Hk0) as [resp Ha]; try done; [congruence|].
      set (st1 := ReceiverState _ _ _ _ _ _ _) in Ha.
      destruct (IH ltac:(set_solver) ltac:(set_solver) st1) as (st' & Hrun & J1 & J2 & J3 & J4 & J5 & J6); try done.
      { simpl. intros k' b' Hl. apply lookup_insert_Some in Hl as [[<- <-]|[_ Hl]]; [done|]. by apply Hch. }
      exists st'. simpl. rewrite Ha. simpl. split_and!; try done.
      * intros k' Hk'. apply J5. simpl. destruct (decide (k = k')) as [->|];
          [rewrite lookup_insert|rewrite lookup_insert_ne by done]; eauto.
      * intros q' k' [->|Hin]%elem_of_cons Hqs' Hpay'; [|by eapply J6].
        rewrite Hpay in Hpay'. apply (inj Some), (inj Some) in Hpay'.
        assert (k' = k) as ->.
        { unfold transfer_content in Hpay'. destruct (N.eqb_spec k 0), (N.eqb_spec k' 0); by simplify_eq. }
        apply J5. simpl. rewrite lookup_insert. eauto.
    + destruct (reject_foreign st q) as [resp Hrej]; [congruence|done|done|].
      destruct (IH ltac:(set_solver) ltac:(set_solver) st) as (st' & Hrun & J1 & J2 & J3 & J4 & J5 & J6); try done.
      exists st'. simpl. rewrite Hrej. simpl. split_and!; try done.
      intros q' k' [->|Hin]%elem_of_cons Hqs' Hpay'; [done|by eapply J6].
Qed.

Lemma transfer_completes sid cs id sn n st0 h post :
  is_piece_count cs (sn_data sn) n ->
  dq_sender h = sid -> dq_payload h = Some (Some (transfer_content enc_meta cs id sn 0)) ->
  (forall q, q ∈ post -> ~ is_header q /\ dq_payload q <> None) ->
  (forall q, q ∈ post -> dq_sender q = sid -> belongs enc_meta sid cs id sn n q) ->
  (forall k, k < n -> k <> 0 -> exists q, q ∈ post /\ dq_sender q = sid /\
     dq_payload q = Some (Some (transfer_content enc_meta cs id sn k))) ->
  exists st, receiver_run dec_meta st0 (RReq h :: (RReq <$> post)) = Ok st /\
    receiver_try_complete dec_meta st = Ok (None, Some (Some (sid, sn))).
Proof.
  intros Hp Hs Hh Hnh Hb Hall.
  assert (Hcc : chunk_count (Nlen (sn_data sn)) (Nlen (piece cs (sn_data sn) 0)) = Ok n).
  { destruct (chunk_count (Nlen (sn_data sn)) (Nlen (piece cs (sn_data sn) 0))) as [n'| |] eqn:E.
    - f_equal. by eapply first_piece_count.
    - done.
    - unfold chunk_count in E. destruct (N.ltb_spec 0 (Nlen (sn_data sn))); [|done].
      destruct (N.eqb_spec (Nlen (piece cs (sn_data sn) 0)) 0) as [E0|]; [|done].
      rewrite piece_length in E0. destruct Hp as (P1 & P2 & P3). nia. }
  set (st1 := ReceiverState sid id (Nlen (sn_data sn)) (enc_meta (meta_of sn))
                (Nlen (piece cs (sn_data sn) 0)) n {[0 := piece cs (sn_data sn) 0]}).
  destruct (live_run sid cs id sn n post Hp Hnh Hb st1) as (st' & Hrun & J1 & J2 & J3 & J4 & J5 & J6); try done.
  { simpl. intros k b Hl. apply lookup_singleton_Some in Hl as [<- <-]. destruct Hp. split; [lia|done]. }
  exists (Some st'). split.
  - simpl. unfold process_request. rewrite Hh. unfold transfer_content. simpl.
    unfold receiver_state_new. rewrite Hcc. simpl. rewrite Hs. done.
  - unfold receiver_try_complete, rs_try_complete.
    assert (Hsome : forall k, k < n -> is_Some (rs_chunks st' !! k)).
    { intros k Hk. destruct (N.eq_dec k 0) as [->|Hk0].
      - apply J5. simpl. rewrite lookup_singleton. eauto.
      - destruct (Hall k Hk Hk0) as (q & ? & ? & ?). eapply J6; eauto. }
    assert (Hsz : N.of_nat (size (rs_chunks st')) = n).
    { assert (Hperm : (map_to_list (rs_chunks st')).*1 ≡ₚ range n).
      { apply NoDup_Permutation.
        - apply NoDup_fst_map_to_list.
        - unfold range. apply NoDup_fmap; [intros x y Hxy; lia|apply NoDup_seq].
        - intros x. rewrite range_elem, elem_of_list_fmap. split.
          + intros ([k v] & -> & Hx). apply elem_of_map_to_list in Hx. by apply J4 in Hx as [? _].
          + intros Hx. destruct (Hsome x Hx) as [b Hb']. exists (x, b). split; [done|].
            by apply elem_of_map_to_list. }
      apply Permutation_length in Hperm. rewrite fmap_length, range_length in Hperm. unfold size, map_size. lia. }
    rewrite J2, Hsz, N.eqb_refl. simpl. rewrite J3. simpl. rewrite codec.
    rewrite (assemble_pieces _ _ _ (piece cs (sn_data sn))).
    + simpl. rewrite J1. do 5 f_equal.
      transitivity (snapshot_of (meta_of sn) (sn_data sn)); [f_equal|apply snapshot_eta].
      etransitivity; [|apply (concat_all_pieces cs (sn_data sn) n Hp)]. f_equal.
      unfold range. rewrite map_map. apply map_ext. intros. f_equal.
    + intros k _ Hk. destruct (Hsome k ltac:(lia)) as [b Hb']. rewrite Hb'. f_equal. by apply J4.
Qed.
End Live.
