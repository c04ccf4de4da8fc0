From Verif Require Import Base StorageModel SnapshotModel SnapshotSpec.

(** ** Chunk arithmetic *)

Lemma chunk_count_spec cs data n : 0 < cs ->
  chunk_count (Nlen data) cs = Ok n <-> is_piece_count cs data n.
Proof.
  intros Hcs. unfold chunk_count, is_piece_count.
  destruct (N.ltb_spec 0 (Nlen data)) as [H|H].
  - destruct (N.eqb_spec cs 0); [lia|].
    pose proof (N.div_mod (Nlen data - 1) cs ltac:(lia)) as Hd.
    pose proof (N.mod_lt (Nlen data - 1) cs ltac:(lia)) as Hm.
    set (q := (Nlen data - 1) / cs) in *. set (m := (Nlen data - 1) mod cs) in *. split.
    + intros [= <-]. nia.
    + intros (H1 & H2 & H3). f_equal.
      destruct (N.eq_dec n 1) as [->|Hn]; [nia|]. specialize (H3 Hn).
      assert (n - 1 <= q) by nia. assert (q < n) by nia. lia.
  - split; [intros [= <-]; lia|]. intros (H1 & H2 & H3).
    destruct (N.eq_dec n 1) as [->|Hn]; [done|]. specialize (H3 Hn). lia.
Qed.

Lemma chunk_count_ok size cs : 0 < cs -> exists n, chunk_count size cs = Ok n.
Proof. intros. unfold chunk_count. destruct (0 <? size); [|eauto]. destruct (N.eqb_spec cs 0); [lia|eauto]. Qed.

Lemma piece_length cs data k :
  Nlen (piece cs data k) = N.min cs (Nlen data - k * cs).
Proof. unfold piece, Nlen. rewrite take_length, drop_length. lia. Qed.

Lemma range_S n : range (n + 1) = range n ++ [n].
Proof.
  unfold range. replace (N.to_nat (n + 1)) with (S (N.to_nat n)) by lia.
  rewrite seq_S, map_app. simpl. by rewrite N2Nat.id.
Qed.

Lemma range_0 : range 0 = [].
Proof. done. Qed.

Lemma range_elem n k : k ∈ range n <-> k < n.
Proof.
  unfold range. rewrite elem_of_list_fmap. split.
  - intros (x & -> & Hx). apply elem_of_seq in Hx. lia.
  - intros H. exists (N.to_nat k). split; [lia|]. apply elem_of_seq. lia.
Qed.

Lemma range_lookup n k : range n !! k = (if decide (N.of_nat k < n) then Some (N.of_nat k) else None).
Proof.
  unfold range. rewrite list_lookup_fmap.
  destruct (decide _).
  - rewrite lookup_seq_lt by lia. done.
  - rewrite lookup_seq_ge by lia. done.
Qed.

Lemma range_length n : length (range n) = N.to_nat n.
Proof. unfold range. by rewrite map_length, seq_length. Qed.

Lemma concat_pieces cs data k :
  concat (map (piece cs data) (range k)) = take (N.to_nat (k * cs)) data.
Proof.
  induction k as [|k IH] using N.peano_ind; [done|].
  rewrite <- N.add_1_r, range_S, map_app, concat_app, IH. simpl. rewrite app_nil_r.
  unfold piece.
  replace (N.to_nat ((k + 1) * cs)) with (N.to_nat (k * cs) + N.to_nat cs)%nat by lia.
  by rewrite take_take_drop.
Qed.

Lemma concat_all_pieces cs data n : is_piece_count cs data n ->
  concat (map (piece cs data) (range n)) = data.
Proof.
  intros (_ & H & _). rewrite concat_pieces. apply take_ge. unfold Nlen in H. lia.
Qed.

(** ** Selection *)

Lemma in_order_perm {A} (m : gmap N A) ord : ord ≡ₚ (map_to_list m).*1 ->
  in_order ord m ≡ₚ map_to_list m.
Proof.
  intros Hord. unfold in_order. rewrite Hord. clear Hord.
  assert (H : forall l, (forall k v, (k, v) ∈ l -> m !! k = Some v) ->
    omap (fun k => match m !! k with Some v => Some (k, v) | None => None end) l.*1 = l).
  { induction l as [|[k v] l IH]; intros Hl; [done|]. simpl.
    rewrite (Hl k v) by set_solver. f_equal. apply IH. set_solver. }
  rewrite H; [done|]. intros k v. apply elem_of_map_to_list.
Qed.

Lemma in_order_elem {A} (m : gmap N A) ord k v : ord ≡ₚ (map_to_list m).*1 ->
  (k, v) ∈ in_order ord m <-> m !! k = Some v.
Proof. intros H. rewrite (in_order_perm m ord H). apply elem_of_map_to_list. Qed.

Definition sum_pending (l : list (N * sender_state)) : N :=
  foldr (fun '(_, st) acc => pending_count st + acc) 0 l.

Lemma sum_pending_perm l l' : l ≡ₚ l' -> sum_pending l = sum_pending l'.
Proof.
  induction 1 as [|[]|[] []|]; simpl in *; try lia.
Qed.

Lemma frac_lt_spec a b : frac_lt a b = true <-> fst a * snd b < fst b * snd a.
Proof. unfold frac_lt. apply N.ltb_lt. Qed.

Definition frac_le (a b : N * N) : Prop := fst a * snd b <= fst b * snd a.

Lemma frac_lt_false a b : frac_lt a b = false <-> frac_le b a.
Proof. unfold frac_lt, frac_le. rewrite N.ltb_ge. done. Qed.

Lemma frac_le_trans a b c : 0 < snd b -> frac_le a b -> frac_le b c -> frac_le a c.
Proof. unfold frac_le. destruct a as [a1 a2], b as [b1 b2], c as [c1 c2]; simpl. intros. nia. Qed.

Lemma frac_lt_le a b : frac_lt a b = true -> frac_le a b.
Proof. rewrite frac_lt_spec. unfold frac_le. lia. Qed.

Lemma select_spec l : (forall id st, (id, st) ∈ l -> 0 < snd (progress st)) ->
  forall sel min pend, 0 < snd min ->
  let '(sel', min', pend') := select_receiver l (sel, min, pend) in
  pend' = pend + sum_pending l /\
  0 < snd min' /\
  frac_le min' min /\
  (forall id st, (id, st) ∈ l -> frac_le min' (progress st)) /\
  ((sel' = sel /\ min' = min /\ (forall id st, (id, st) ∈ l -> frac_lt (progress st) min = false)) \/
   (exists st, (sel', st) ∈ l /\ min' = progress st /\ frac_lt (progress st) min = true)).
Proof.
  induction l as [|[id st] l IH]; intros Hl sel min pend Hmin; simpl.
  { split_and!; try done; try lia.
    - unfold frac_le; lia.
    - intros ??; by rewrite elem_of_nil.
    - left. split_and!; try done. intros ??; by rewrite elem_of_nil. }
  assert (Hp : 0 < snd (progress st)) by (apply (Hl id); set_solver).
  destruct (frac_lt (progress st) min) eqn:E.
  - specialize (IH ltac:(set_solver) id (progress st) (pend + pending_count st) Hp).
    destruct (select_receiver l _) as [[sel' min'] pend'].
    destruct IH as (H1 & H2 & H3 & H4 & H5). split_and!.
    + lia.
    + done.
    + eapply frac_le_trans; [|exact H3|by apply frac_lt_le]. done.
    + intros id' st' [[= -> ->]|Hin]%elem_of_cons; [done|]. by apply (H4 id').
    + right. destruct H5 as [(-> & -> & _)|(st' & Hin & -> & Hlt)].
      * exists st. split_and!; [set_solver|done|done].
      * exists st'. split_and!; [set_solver|done|].
        rewrite frac_lt_spec in *. destruct (progress st'), (progress st), min; simpl in *. nia.
  - specialize (IH ltac:(set_solver) sel min (pend + pending_count st) Hmin).
    destruct (select_receiver l _) as [[sel' min'] pend'].
    destruct IH as (H1 & H2 & H3 & H4 & H5). split_and!.
    + lia.
    + done.
    + done.
    + intros id' st' [[= -> ->]|Hin]%elem_of_cons; [|by apply (H4 id')].
      eapply frac_le_trans; [|exact H3|by apply frac_lt_false]. done.
    + destruct H5 as [(-> & -> & H5)|(st' & Hin & -> & Hlt)].
      * left. split_and!; try done. intros id' st' [[= -> ->]|Hin]%elem_of_cons; [done|eauto].
      * right. exists st'. split_and!; [set_solver|done|done].
Qed.

(** ** In-flight accounting *)

Definition sum_map (m : gmap N sender_state) : N := sum_pending (map_to_list m).

Lemma in_flight_sum s : in_flight s = sum_map (sd_receivers s).
Proof. done. Qed.

Lemma sum_map_insert_fresh m r st : m !! r = None ->
  sum_map (<[r := st]> m) = pending_count st + sum_map m.
Proof.
  intros H. unfold sum_map.
  rewrite (sum_pending_perm _ _ (map_to_list_insert m r st H)). done.
Qed.

Lemma sum_map_delete m r st : m !! r = Some st ->
  sum_map m = pending_count st + sum_map (delete r m).
Proof.
  intros H. unfold sum_map.
  rewrite <- (sum_pending_perm _ _ (map_to_list_delete m r st H)). done.
Qed.

Lemma sum_map_insert m r st st' : m !! r = Some st ->
  sum_map (<[r := st']> m) + pending_count st = sum_map m + pending_count st'.
Proof.
  intros H. rewrite (sum_map_delete m r st H).
  rewrite <- insert_delete_insert. rewrite sum_map_insert_fresh by apply lookup_delete. lia.
Qed.

Lemma sum_map_insert_le m r st' : pending_count st' = 0 -> sum_map (<[r := st']> m) <= sum_map m.
Proof.
  intros H. destruct (m !! r) as [st|] eqn:E.
  - pose proof (sum_map_insert m r st st' E). lia.
  - rewrite sum_map_insert_fresh by done. lia.
Qed.

Lemma sum_map_delete_le m r : sum_map (delete r m) <= sum_map m.
Proof.
  destruct (m !! r) as [st|] eqn:E.
  - rewrite (sum_map_delete m r st E). lia.
  - by rewrite delete_notin.
Qed.

(** ** Trace invariant of the sender *)

Lemma nstarts_app t1 t2 : nstarts (t1 ++ t2) = nstarts t1 + nstarts t2.
Proof. unfold nstarts. rewrite omap_app. unfold Nlen. rewrite app_length. lia. Qed.

Lemma sent_requests_app t1 t2 : sent_requests (t1 ++ t2) = sent_requests t1 ++ sent_requests t2.
Proof. apply omap_app. Qed.

Lemma requests_to_app r t1 t2 : requests_to r (t1 ++ t2) = requests_to r t1 ++ requests_to r t2.
Proof. apply omap_app. Qed.

Lemma live_since_app r t1 t2 : live_since r t1 -> live_since r t2 -> live_since r (t1 ++ t2).
Proof. intros H1 H2 op out [H|H]%elem_of_app; eauto. Qed.

Lemma live_since_nil r : live_since r [].
Proof. intros op out H. by apply elem_of_nil in H. Qed.

Lemma live_since_single r op out :
  (forall sn, op <> SStart r sn) -> (forall ord, op <> SReset ord) ->
  (forall x, out <> ODone (Some (r, x))) -> live_since r [(op, out)].
Proof. intros ??? op' out' H. apply elem_of_list_singleton in H. by simplify_eq. Qed.

Lemma acknowledged_app r id k t t' : acknowledged r id k t -> acknowledged r id k (t ++ t').
Proof.
  intros (t1 & t2 & t3 & op & q & resp & out & it & -> & H).
  exists t1, t2, (t3 ++ t'), op, q, resp, out, it. split; [|done].
  repeat (rewrite <- app_assoc; simpl). done.
Qed.

Section Inv.
Variable enc_meta : snap_meta -> bytes.

Definition quiet_entry (r id : N) (e : sop * sout) : Prop :=
  forall d resp, fst e = SResp r d resp ->
    exists rp a, resp = Some rp /\ dp_payload rp = Some (Some a) /\ ak_snapshot_id a <> id.

Lemma waiting_snoc r cs id sn n t e d k :
  (forall q, snd e = OReq (Some q) -> dq_recipient q = r -> dq_delivery q <> d) ->
  (forall resp out, e = (SResp r d (Some resp), out) -> ~ answers id n resp) ->
  waiting enc_meta r cs id sn n (t ++ [e]) d k <-> waiting enc_meta r cs id sn n t d k.
Proof.
  intros Hq Hr. split.
  - intros (t1 & op & q & t2 & He & H1 & H2 & H3 & H4).
    destruct t2 as [|e' t2 _] using rev_ind.
    + apply app_inj_tail in He as [-> ->]. by destruct (Hq q).
    + rewrite app_comm_cons, app_assoc in He. apply app_inj_tail in He as [-> ->].
      exists t1, op, q, t2. split_and!; try done. intros resp out Hin. apply (H4 resp out). set_solver.
  - intros (t1 & op & q & t2 & -> & H1 & H2 & H3 & H4).
    exists t1, op, q, (t2 ++ [e]). rewrite <- app_assoc. split_and!; try done.
    intros resp out [Hin|Hin]%elem_of_app; [eauto|]. apply elem_of_list_singleton in Hin.
    by apply (Hr resp out).
Qed.

Lemma waiting_snoc_req r cs id sn n t op q k :
  dq_recipient q = r -> dq_payload q = Some (Some (transfer_content enc_meta cs id sn k)) ->
  waiting enc_meta r cs id sn n (t ++ [(op, OReq (Some q))]) (dq_delivery q) k.
Proof.
  intros H1 H2. exists t, op, q, []. split_and!; try done. intros resp out Hin. by apply elem_of_nil in Hin.
Qed.

Lemma waiting_request r cs id sn n t d k : waiting enc_meta r cs id sn n t d k ->
  exists q, q ∈ requests_to r t /\ dq_delivery q = d /\
    dq_payload q = Some (Some (transfer_content enc_meta cs id sn k)).
Proof.
  intros (t1 & op & q & t2 & -> & H1 & H2 & H3 & H4). exists q. split_and!; try done.
  unfold requests_to. apply elem_of_list_omap. eexists. split; [apply elem_of_app; right; left|].
  simpl. by rewrite H1, N.eqb_refl.
Qed.

Lemma transfer_content_inj cs id sn k k' :
  transfer_content enc_meta cs id sn k = transfer_content enc_meta cs id sn k' -> k = k'.
Proof. unfold transfer_content. destruct (N.eqb_spec k 0), (N.eqb_spec k' 0); intros; by simplify_eq. Qed.

Lemma all_harmless_snoc r cs id sn n t e :
  all_harmless enc_meta r cs id sn n (t ++ [e]) <->
  all_harmless enc_meta r cs id sn n t /\
  (forall d resp, fst e = SResp r d resp -> harmless enc_meta r cs id sn n t d resp).
Proof.
  split.
  - intros H. split.
    + intros t1 d resp out t2 ->. eapply H. rewrite <- app_assoc. done.
    + intros d resp He. destruct e as [op out]. simpl in He. subst. by eapply (H t d resp out []).
  - intros [H1 H2] t1 d resp out t2 He. destruct t2 as [|e' t2 _] using rev_ind.
    + apply app_inj_tail in He as [-> ->]. by apply H2.
    + rewrite app_comm_cons, app_assoc in He. apply app_inj_tail in He as [-> ->]. by eapply H1.
Qed.

Lemma some_harmful_app r cs id sn n t t' :
  some_harmful enc_meta r cs id sn n t -> some_harmful enc_meta r cs id sn n (t ++ t').
Proof.
  intros (t1 & d & resp & out & t2 & -> & H). exists t1, d, resp, out, (t2 ++ t').
  rewrite <- app_assoc. done.
Qed.

Lemma some_harmful_snoc r cs id sn n t d resp out :
  ~ harmless enc_meta r cs id sn n t d resp ->
  some_harmful enc_meta r cs id sn n (t ++ [(SResp r d resp, out)]).
Proof. intros H. by exists t, d, resp, out, []. Qed.

Definition verdict (st : sender_state) r cs id sn n t : Prop :=
  (ss_status st = None /\ all_harmless enc_meta r cs id sn n t) \/
  (ss_status st = Some Failure /\ some_harmful enc_meta r cs id sn n t).

Record rinv (rid cs nd : N) (t : strace) (r : N) (st : sender_state) : Prop := {
  ri_nonzero : r <> 0;
  ri_next : ss_next st <= ss_count st;
  ri_pending : forall d k, ss_pending st !! d = Some k -> d < nd /\ k < ss_next st;
  ri_balance : ss_status st = None -> ss_next st = ss_sent st + pending_count st;
  ri_hist : exists pre sn out post,
    t = pre ++ (SStart r sn, out) :: post /\
    live_since r post /\
    ss_id st = nstarts pre + 1 /\
    ss_meta st = meta_of sn /\ ss_data st = sn_data sn /\ ss_chunk_size st = cs /\
    is_piece_count cs (sn_data sn) (ss_count st) /\
    dq_payload <$> requests_to r post =
      (fun k => Some (Some (transfer_content enc_meta cs (ss_id st) sn k))) <$> range (ss_next st) /\
    (forall q, q ∈ requests_to r post ->
       dq_sender q = rid /\ dq_recipient q = r /\ dq_delivery q < nd) /\
    (forall d k, ss_pending st !! d = Some k <->
       waiting enc_meta r cs (ss_id st) sn (ss_count st) post d k) /\
    verdict st r cs (ss_id st) sn (ss_count st) post /\
    (ss_status st = None -> forall k, k < ss_next st ->
       (exists d, ss_pending st !! d = Some k) \/ acknowledged r (ss_id st) k post);
}.

Lemma chunk_count_is_piece cs data n : chunk_count (Nlen data) cs = Ok n -> is_piece_count cs data n.
Proof.
  intros H. destruct (N.eq_dec cs 0) as [->|Hc].
  - unfold chunk_count in H. destruct (N.ltb_spec 0 (Nlen data)); [done|]. injection H as <-.
    unfold is_piece_count. lia.
  - apply chunk_count_spec; [lia|done].
Qed.

Lemma requests_to_single_none r e q :
  requests_to r [e] = [] -> snd e = OReq (Some q) -> dq_recipient q = r -> False.
Proof. destruct e as [op out]; simpl. intros H -> Hr. unfold requests_to in H. simpl in H. by rewrite Hr, N.eqb_refl in H. Qed.

Lemma rinv_extend rid cs nd nd' t r st op out :
  rinv rid cs nd t r st -> nd <= nd' ->
  live_since r [(op, out)] -> requests_to r [(op, out)] = [] -> quiet_entry r (ss_id st) (op, out) ->
  rinv rid cs nd' (t ++ [(op, out)]) r st.
Proof.
  intros [H0 H2 H3 H4 (pre & sn & o & post & -> & Hl & Hid & Hm & Hd & Hcs & Hpc & Hreq & Hsnd & Hpend & Hver & Hack)]
    Hnd Hlive Hnone Hquiet.
  split; try done.
  - intros d k Hx. specialize (H3 _ _ Hx). lia.
  - exists pre, sn, o, (post ++ [(op, out)]). rewrite requests_to_app, Hnone, app_nil_r.
    rewrite <- app_assoc. split_and!; try done.
    + by apply live_since_app.
    + intros q Hq. destruct (Hsnd q Hq) as (?&?&?). split_and!; try done. lia.
    + intros d k. rewrite waiting_snoc; [done| |].
      * intros q Hq Hr. by destruct (requests_to_single_none _ _ _ Hnone Hq Hr).
      * intros resp out' [= -> ->] (a & Ha & Hai & _). destruct (Hquiet d (Some resp) eq_refl) as (rp & a' & [= <-] & ? & ?).
        congruence.
    + destruct Hver as [[? Hah]|[? ?]]; [left|right; split; [done|by apply some_harmful_app]].
      split; [done|]. apply all_harmless_snoc. split; [done|]. intros d resp Hx.
      destruct (Hquiet d resp Hx) as (rp & a & ? & ? & ?). exists rp, a. auto.
    + intros Hs k Hk. destruct (Hack Hs k Hk) as [?|?]; [by left|right]. by apply acknowledged_app.
Qed.

Lemma piece_slice cs data k n : is_piece_count cs data n -> k < n ->
  k * cs <= N.min (Nlen data) (k * cs + cs) /\
  take (N.to_nat (N.min (Nlen data) (k * cs + cs) - k * cs)) (drop (N.to_nat (k * cs)) data)
  = piece cs data k.
Proof.
  intros (H1 & H2 & H3) Hk.
  assert (k * cs <= Nlen data).
  { destruct (N.eq_dec n 1) as [->|Hn]; [assert (k = 0) as -> by lia; lia|].
    specialize (H3 Hn). nia. }
  split; [lia|]. unfold piece. unfold Nlen in *.
  destruct (N.le_gt_cases (k * cs + cs) (N.of_nat (length data))).
  - f_equal. lia.
  - rewrite !take_ge; [done|..]; rewrite drop_length; lia.
Qed.

Lemma rinv_next rid cs nd t r st st' c ord :
  rinv rid cs nd t r st -> ss_status st = None -> ss_next st < ss_count st ->
  next_chunk enc_meta st nd = Ok (st', c) ->
  exists content, c = Some content /\ pending_count st' = pending_count st + 1 /\
  rinv rid cs (nd + 1)
    (t ++ [(SNext ord, OReq (Some (DRequest r rid nd (Some (Some content)))))]) r st'.
Proof.
  intros [H0 H2 H3 H4 (pre & sn & o & post & -> & Hl & Hid & Hm & Hd & Hcs & Hpc & Hreq & Hsnd & Hpend & Hver & Hack)]
    Hst Hlt Hn.
  unfold next_chunk in Hn. rewrite Hst in Hn.
  destruct (piece_slice cs (sn_data sn) (ss_next st) (ss_count st) Hpc Hlt) as [Hp1 Hp2].
  rewrite Hcs, Hd in Hn.
  destruct (N.ltb_spec (N.min (Nlen (sn_data sn)) (ss_next st * cs + cs)) (ss_next st * cs)); [lia|].
  rewrite Hp2 in Hn.
  set (cc := Content _ _) in Hn.
  assert (Hcc : cc = transfer_content enc_meta cs (ss_id st) sn (ss_next st)).
  { unfold cc, transfer_content. rewrite Hm. destruct (N.eqb_spec (ss_next st) 0) as [E|E]; [|done].
    rewrite E. done. }
  injection Hn as <- <-. exists cc. split; [done|].
  assert (Hfresh : ss_pending st !! nd = None).
  { destruct (ss_pending st !! nd) eqn:E; [|done]. specialize (H3 _ _ E). lia. }
  assert (Hps : size (<[nd := ss_next st]> (ss_pending st)) = S (size (ss_pending st))).
  { by rewrite map_size_insert_None. }
  split; [unfold pending_count; simpl; lia|]. split; simpl; try done.
  - lia.
  - intros d k Hx. apply lookup_insert_Some in Hx as [[<- <-]|[_ Hx]]; [lia|]. specialize (H3 _ _ Hx). lia.
  - intros _. unfold pending_count in *. simpl. rewrite Hps. specialize (H4 Hst). lia.
  - set (q := DRequest r rid nd (Some (Some cc))).
    exists pre, sn, o, (post ++ [(SNext ord, OReq (Some q))]).
    assert (Hq : requests_to r [(SNext ord, OReq (Some q))] = [q]).
    { unfold requests_to; simpl. by rewrite N.eqb_refl. }
    rewrite requests_to_app, Hq. rewrite <- app_assoc.
    split_and!; try done.
    + by apply live_since_app; [|apply live_since_single].
    + rewrite fmap_app, Hreq, range_S, fmap_app. simpl. by rewrite Hcc.
    + intros q' [Hin|Hin]%elem_of_app; [destruct (Hsnd q' Hin) as (?&?&?); split_and!; try done; lia|].
      apply elem_of_list_singleton in Hin as ->. split_and!; try done. simpl; lia.
    + intros d k. destruct (decide (d = nd)) as [->|Hne].
      * rewrite lookup_insert. split.
        -- intros [= <-]. apply (waiting_snoc_req r cs _ sn _ post (SNext ord) q); [done|]. simpl. by rewrite Hcc.
        -- intros Hw. apply waiting_request in Hw as (q' & Hin & Hdq & Hpay).
           rewrite requests_to_app, Hq in Hin. apply elem_of_app in Hin as [Hin|Hin].
           { destruct (Hsnd q' Hin) as (?&?&?). lia. }
           apply elem_of_list_singleton in Hin as ->. simpl in Hpay. rewrite Hcc in Hpay.
           apply (inj Some), (inj Some), transfer_content_inj in Hpay. by rewrite Hpay.
      * rewrite lookup_insert_ne by done. rewrite waiting_snoc; [apply Hpend| |done].
        intros q' [= <-] _. simpl. done.
    + destruct Hver as [[? Hah]|[? ?]]; [left|congruence]. split; [done|].
      apply all_harmless_snoc. done.
    + intros _ k Hk. destruct (N.eq_dec k (ss_next st)) as [->|Hne].
      * left. exists nd. by rewrite lookup_insert.
      * destruct (Hack Hst k ltac:(lia)) as [[d Hx]|?].
        -- left. exists d. rewrite lookup_insert_ne; [done|]. intros <-. by rewrite Hfresh in Hx.
        -- right. by apply acknowledged_app.
Qed.

(** The response fails the transfer; [del] tells whether it consumed the entry. *)
Lemma rinv_resp_fail rid cs nd t r st st' d resp (del : bool) :
  rinv rid cs nd t r st ->
  ss_id st' = ss_id st -> ss_meta st' = ss_meta st -> ss_data st' = ss_data st ->
  ss_chunk_size st' = ss_chunk_size st -> ss_count st' = ss_count st -> ss_next st' = ss_next st ->
  ss_status st' = Some Failure ->
  ss_pending st' = (if del then delete d (ss_pending st) else ss_pending st) ->
  (forall rp, resp = Some rp -> if del then answers (ss_id st) (ss_count st) rp
                                else ~ answers (ss_id st) (ss_count st) rp) ->
  (if del then exists rp, resp = Some rp else True) ->
  (forall rp a, resp = Some rp -> dp_payload rp = Some (Some a) -> ak_snapshot_id a = ss_id st /\
     (ak_status a = AckAccepted -> ss_pending st !! d <> Some (ak_chunk_index a) \/ ss_count st <= ak_chunk_index a)) ->
  rinv rid cs nd (t ++ [(SResp r d resp, ONone)]) r st'.
Proof.
  intros [H0 H2 H3 H4 (pre & sn & o & post & -> & Hl & Hid & Hm & Hd & Hcs & Hpc & Hreq & Hsnd & Hpend & Hver & Hack)]
    E1 E2 E3 E4 E5 E6 Es Ep Hans Hdel Hbad.
  assert (Hlive : live_since r [(SResp r d resp, ONone)]) by by apply live_since_single.
  assert (Hnone : requests_to r [(SResp r d resp, ONone)] = []) by done.
  assert (Esub : ss_pending st' ⊆ ss_pending st).
  { rewrite Ep. destruct del; [apply delete_subseteq|done]. }
  split; try done; try congruence.
  - intros d' k Hx. rewrite E6. apply (H3 d' k). by eapply lookup_weaken.
  - exists pre, sn, o, (post ++ [(SResp r d resp, ONone)]). rewrite requests_to_app, Hnone, app_nil_r.
    rewrite <- app_assoc. rewrite E1, E5. split_and!; try done; try congruence.
    + by apply live_since_app.
    + intros d' k. destruct (decide (d' = d)) as [->|Hne].
      * destruct del.
        -- destruct Hdel as [rp ->]. rewrite Ep, lookup_delete. split; [done|].
           intros (t1 & op & q & t2 & He & _ & _ & _ & Hno).
           destruct t2 as [|e' t2 _] using rev_ind; [apply app_inj_tail in He as [_ ?]; done|].
           rewrite app_comm_cons, app_assoc in He. apply app_inj_tail in He as [_ <-].
           destruct (Hno rp ONone); [set_solver|]. by apply Hans.
        -- rewrite Ep. rewrite waiting_snoc; [apply Hpend|done|]. intros rp out [= -> _]. by apply Hans.
      * rewrite waiting_snoc; [rewrite <- Hpend|done|intros rp out [= ? ?]; congruence].
        rewrite Ep. destruct del; [by rewrite lookup_delete_ne|done].
    + right. split; [done|]. apply some_harmful_snoc.
      intros (rp & a & -> & Hpay & [Hne|[Hacc Hw]]).
      * by destruct (Hbad rp a eq_refl Hpay) as [? _].
      * destruct (Hbad rp a eq_refl Hpay) as [_ [Hx|Hx]]; [done| |].
        -- apply Hx. by apply Hpend.
        -- apply Hpend in Hw. destruct (H3 _ _ Hw). lia.
Qed.

Lemma rinv_resp rid cs nd t r st st' d resp :
  rinv rid cs nd t r st -> ss_process_response st d resp = Ok st' ->
  pending_count st' <= pending_count st /\
  rinv rid cs nd (t ++ [(SResp r d resp, ONone)]) r st'.
Proof.
  intros Hinv Hr.
  assert (Hlive : live_since r [(SResp r d resp, ONone)]) by by apply live_since_single.
  assert (Hnone : requests_to r [(SResp r d resp, ONone)] = []) by done.
  assert (Hsub : delete d (ss_pending st) ⊆ ss_pending st) by apply delete_subseteq.
  assert (Hsz : (size (delete d (ss_pending st)) <= size (ss_pending st))%nat).
  { rewrite map_size_delete. destruct (ss_pending st !! d); simpl; lia. }
  unfold ss_process_response in Hr.
  destruct resp as [rp|];
    [|injection Hr as <-; split; [done|]; by apply (rinv_resp_fail _ _ _ _ _ st _ _ _ false)].
  destruct (dp_payload rp) as [[a|]|] eqn:Epay;
    [|injection Hr as <-; split; [done|]; apply (rinv_resp_fail _ _ _ _ _ st _ _ _ false); try done|done].
  2: { intros rp' [= <-] (a & ? & _). congruence. }
  2: { intros rp' a [= <-] ?. congruence. }
  destruct (N.eqb_spec (ss_id st) (ak_snapshot_id a)) as [Eid|Eid]; simpl in Hr.
  2: { injection Hr as <-. split; [done|]. apply (rinv_extend _ _ nd nd); try done.
       intros d' resp' [= <- <-]. exists rp, a. done. }
  destruct (N.leb_spec (ss_count st) (ak_chunk_index a)) as [Ec|Ec].
  { injection Hr as <-; split; [done|]. apply (rinv_resp_fail _ _ _ _ _ st _ _ _ false); try done.
    - intros rp' [= <-] (a' & ? & _ & ?). assert (a' = a) as -> by congruence. lia.
    - intros rp' a' [= <-] ?. assert (a' = a) as -> by congruence. split; [done|]. by right. }
  assert (Hansw : answers (ss_id st) (ss_count st) rp) by by exists a.
  case_bool_decide as Ep.
  2: { injection Hr as <-; split; [unfold pending_count; simpl; lia|].
       apply (rinv_resp_fail _ _ _ _ _ st _ _ _ true); try done.
       - intros rp' [= <-]. done.
       - eauto.
       - intros rp' a' [= <-] ?. assert (a' = a) as -> by congruence. split; [done|]. by left. }
  destruct (ak_status a) eqn:Ea; injection Hr as <-;
    (split; [unfold pending_count; simpl; lia|]);
    try (apply (rinv_resp_fail _ _ _ _ _ st _ _ _ true); try done;
         [intros rp' [= <-]; done|eauto|
          intros rp' a' [= <-] ?; assert (a' = a) as -> by congruence; split; [done|congruence]]).
  assert (Hdel : size (ss_pending st) = S (size (delete d (ss_pending st)))).
  { rewrite map_size_delete_Some; [|eauto].
    assert (size (ss_pending st) <> 0%nat); [|lia].
    intros Hz. apply map_size_empty_inv in Hz. rewrite Hz in Ep. done. }
  destruct Hinv as [H0 H2 H3 H4 (pre & sn & o & post & -> & Hl & Hid & Hm & Hd & Hcs & Hpc & Hreq & Hsnd & Hpend & Hver & Hack)].
  split; simpl; try done.
  - intros d' k Hx. apply (H3 d' k). by eapply lookup_weaken.
  - intros Hs. unfold pending_count in *. simpl. specialize (H4 Hs). lia.
  - exists pre, sn, o, (post ++ [(SResp r d (Some rp), ONone)]).
    rewrite requests_to_app, Hnone, app_nil_r.
    rewrite <- app_assoc. split_and!; try done.
    + by apply live_since_app.
    + intros d' k. destruct (decide (d' = d)) as [->|Hne].
      * rewrite lookup_delete. split; [done|].
        intros (t1 & op & q & t2 & He & _ & _ & _ & Hno).
        destruct t2 as [|e' t2 _] using rev_ind; [apply app_inj_tail in He as [_ ?]; done|].
        rewrite app_comm_cons, app_assoc in He. apply app_inj_tail in He as [_ <-].
        destruct (Hno rp ONone); [set_solver|done].
      * rewrite lookup_delete_ne by done.
        rewrite waiting_snoc; [apply Hpend|done|intros rp' out [= ? ?]; congruence].
    + destruct Hver as [[? Hah]|[? ?]]; [left|right; split; [done|by apply some_harmful_app]].
      split; [done|]. apply all_harmless_snoc. split; [done|]. intros d' resp' [= <- <-].
      exists rp, a. split_and!; try done. right. split; [done|]. by apply Hpend.
    + intros Hs k Hk. destruct (decide (k = ak_chunk_index a)) as [->|Hne].
      * right. apply Hpend in Ep as Hw. apply waiting_request in Hw as (q & Hin & Hqd & Hqp).
        unfold requests_to in Hin. apply elem_of_list_omap in Hin as ([op0 out0] & Hin & Hout).
        destruct out0 as [|[q0|]| |]; try done.
        destruct (N.eqb_spec (dq_recipient q0) r) as [Hrec|]; [|done]. injection Hout as ->.
        apply elem_of_list_split in Hin as (p1 & p2 & ->).
        eexists p1, p2, [], op0, q, rp, ONone, _. split_and!.
        -- rewrite Hqd. rewrite <- app_assoc. done.
        -- done.
        -- rewrite Hqp. unfold transfer_content. done.
        -- destruct (N.eqb_spec (ak_chunk_index a) 0); [congruence|done].
        -- rewrite Epay. destruct a; simpl in *. by subst.
      * destruct (Hack Hs k Hk) as [[d' Hx]|?].
        -- left. exists d'. rewrite lookup_delete_ne; [done|]. intros <-. congruence.
        -- right. by apply acknowledged_app.
Qed.

Record sinv (rid cs mp : N) (t : strace) (s : sender) : Prop := {
  si_rid : sd_replica_id s = rid;
  si_cs : sd_chunk_size s = cs;
  si_mp : sd_max_pending s = mp;
  si_ids : sd_next_snapshot_id s = nstarts t + 1;
  si_del : sd_next_delivery_id s = Nlen (sent_requests t) + 1;
  si_dels : dq_delivery <$> sent_requests t = (fun k => k + 1) <$> range (Nlen (sent_requests t));
  si_flight : in_flight s <= mp;
  si_recv : forall r st, sd_receivers s !! r = Some st -> rinv rid cs (sd_next_delivery_id s) t r st;
}.

Lemma sinv_init rid cfg s : s = sender_init rid cfg ->
  sinv rid (sd_chunk_size s) (sd_max_pending s) [] s.
Proof.
  intros ->. destruct cfg as [[cs mp]|]; simpl; split; simpl; try done.
  all: unfold in_flight; simpl; rewrite ?map_to_list_empty; simpl; lia.
Qed.

Lemma progress_den rid cs nd t r st : rinv rid cs nd t r st -> 0 < snd (progress st).
Proof.
  intros [_ _ _ _ (pre & sn & o & post & _ & _ & _ & _ & _ & _ & Hpc & _)].
  destruct Hpc as [? _]. unfold progress. destruct (ss_status st); simpl; lia.
Qed.

Lemma viable_progress st : frac_lt (progress st) (1, 1) = true <-> viable st.
Proof.
  rewrite frac_lt_spec. unfold progress, viable. destruct (ss_status st); cbn [fst snd]; split; intros H.
  - lia.
  - by destruct H.
  - split; [done|lia].
  - destruct H. lia.
Qed.

Lemma next_request_cases rid cs mp t s ord :
  sinv rid cs mp t s -> ord ≡ₚ (map_to_list (sd_receivers s)).*1 ->
  (next_request enc_meta s ord = Ok (s, None) /\
     (mp <= in_flight s \/ forall r st, sd_receivers s !! r = Some st -> ~ viable st)) \/
  (exists r st st' c,
     in_flight s < mp /\ sd_receivers s !! r = Some st /\ viable st /\
     (forall r' st0, sd_receivers s !! r' = Some st0 -> frac_le (progress st) (progress st0)) /\
     next_chunk enc_meta st (sd_next_delivery_id s) = Ok (st', Some c) /\
     next_request enc_meta s ord =
       Ok (Sender cs mp rid (sd_next_snapshot_id s) (sd_next_delivery_id s + 1)
             (<[r := st']> (sd_receivers s)),
           Some (DRequest r rid (sd_next_delivery_id s) (Some (Some c))))).
Proof.
  intros Hinv Hord. unfold next_request.
  assert (Hden : forall id st, (id, st) ∈ in_order ord (sd_receivers s) -> 0 < snd (progress st)).
  { intros id st Hin. apply in_order_elem in Hin; [|done]. eapply progress_den, si_recv; eauto. }
  pose proof (select_spec _ Hden 0 (1,1) 0 ltac:(simpl; lia)) as Hsel.
  destruct (select_receiver _ _) as [[sel min] pend].
  destruct Hsel as (Hpend & _ & _ & Hmin & Hcase).
  rewrite (sum_pending_perm _ _ (in_order_perm _ _ Hord)) in Hpend.
  assert (Hp : pend = in_flight s) by (rewrite in_flight_sum; unfold sum_map; lia).
  rewrite Hp, (si_mp _ _ _ _ _ Hinv).
  destruct (N.leb_spec mp (in_flight s)) as [Hle|Hlt]; simpl; [left; auto|].
  destruct Hcase as [(-> & -> & Hnone)|(st & Hin & -> & Hlt1)].
  { simpl. left. split; [done|]. right. intros r st Hl.
    rewrite <- viable_progress. apply (in_order_elem _ ord) in Hl; [|exact Hord]. by rewrite (Hnone _ _ Hl). }
  pose proof Hin as Hin'. apply in_order_elem in Hin'; [|done].
  pose proof (si_recv _ _ _ _ _ Hinv _ _ Hin') as Hr.
  destruct (N.eqb_spec sel 0) as [->|Hnz]; [by destruct (ri_nonzero _ _ _ _ _ _ Hr)|].
  right. apply viable_progress in Hlt1 as Hv. destruct Hv as [Hv1 Hv2].
  assert (Hnc : ss_next st < ss_count st).
  { pose proof (ri_balance _ _ _ _ _ _ Hr Hv1). lia. }
  assert (exists st' c, next_chunk enc_meta st (sd_next_delivery_id s) = Ok (st', Some c)) as (st' & c & Hn).
  { destruct Hr as [_ _ _ _ (pre & sn & o & post & _ & _ & _ & _ & Hd & Hcs & Hpc & _)].
    destruct (piece_slice cs (sn_data sn) (ss_next st) (ss_count st) Hpc Hnc) as [Hp1 Hp2].
    unfold next_chunk. rewrite Hv1, Hd, Hcs.
    destruct (N.ltb_spec (N.min (Nlen (sn_data sn)) (ss_next st * cs + cs)) (ss_next st * cs)); [lia|].
    eauto. }
  exists sel, st, st', c. rewrite Hin', Hn. simpl.
  rewrite (si_rid _ _ _ _ _ Hinv), (si_cs _ _ _ _ _ Hinv).
  split_and!; try done.
  intros r' st0 Hl. apply (Hmin r'). by apply in_order_elem.
Qed.

Lemma first_completed_spec l id x : first_completed l = Some (id, x) ->
  exists st, (id, st) ∈ l /\ ss_try_complete st = Some x.
Proof.
  induction l as [|[id' st'] l IH]; simpl; [done|].
  destruct (ss_try_complete st') eqn:E.
  - intros [= <- <-]. exists st'. split; [set_solver|done].
  - intros H. destruct (IH H) as (st & ? & ?). exists st. split; [set_solver|done].
Qed.

Lemma first_completed_none l : first_completed l = None ->
  forall id st, (id, st) ∈ l -> ss_try_complete st = None.
Proof.
  induction l as [|[id' st'] l IH]; simpl; [intros _ ?? H; by apply elem_of_nil in H|].
  destruct (ss_try_complete st') eqn:E; [done|].
  intros H id st [[= -> ->]|Hin]%elem_of_cons; [done|eauto].
Qed.

Lemma sinv_step rid cs mp t s op s' out :
  sinv rid cs mp t s -> sop_ok s op -> sender_step enc_meta s op = Ok (s', out) ->
  sinv rid cs mp (t ++ [(op, out)]) s'.
Proof.
  intros Hinv Hok Hstep. pose proof Hinv as [I1 I2 I3 I4 I5 I6 I7 I8].
  destruct op as [r sn|ord|r d resp|ord|ord]; simpl in Hstep, Hok.
  - (* start *)
    unfold sender_start, sender_state_new in Hstep.
    destruct (chunk_count (Nlen (sn_data sn)) (sd_chunk_size s)) as [n| |] eqn:Ec; [|done|done].
    simpl in Hstep. injection Hstep as <- <-.
    split; simpl; rewrite ?nstarts_app, ?sent_requests_app, ?app_nil_r; try done.
    + rewrite I4. unfold nstarts, Nlen at 3; simpl. lia.
    + rewrite in_flight_sum in *. simpl. etrans; [apply sum_map_insert_le|done].
      unfold pending_count; simpl. by rewrite map_size_empty.
    + intros r' st' Hl. apply lookup_insert_Some in Hl as [[<- <-]|[Hne Hl]].
      * split; simpl; try done; try lia.
        exists t, sn, ONone, []. split_and!; try done; try lia.
        -- apply live_since_nil.
        -- rewrite <- I2. by apply chunk_count_is_piece.
        -- intros q Hq. by apply elem_of_nil in Hq.
        -- intros d k. rewrite lookup_empty. split; [done|].
           intros (t1 & op & q & t2 & He & _). by destruct t1.
        -- left. split; [done|]. intros t1 d resp out t2 He. by destruct t1.
      * apply (rinv_extend _ _ (sd_next_delivery_id s)); [by apply I8|done| |done|done].
        apply live_since_single; try done. intros sn' [= ? ?]; done.
  - (* next *)
    destruct (next_request_cases _ _ _ _ _ _ Hinv Hok) as
      [[Hn _]|(r & st & st' & c & Hfl & Hl & Hv & _ & Hc & Hn)]; rewrite Hn in Hstep; simpl in Hstep.
    + injection Hstep as <- <-. split; rewrite ?nstarts_app, ?sent_requests_app, ?app_nil_r; try done.
      * rewrite I4. unfold nstarts at 3; simpl. unfold Nlen; simpl; lia.
      * intros r st Hl. apply (rinv_extend _ _ (sd_next_delivery_id s)); [by apply I8|done| |done|done].
        by apply live_since_single.
    + injection Hstep as <- <-.
      pose proof (I8 _ _ Hl) as Hr. destruct Hv as [Hv1 Hv2].
      assert (Hnc : ss_next st < ss_count st).
      { pose proof (ri_balance _ _ _ _ _ _ Hr Hv1). lia. }
      destruct (rinv_next _ _ _ _ _ _ _ _ ord Hr Hv1 Hnc Hc) as (c' & [= <-] & Hpc & Hr').
      set (q := DRequest r rid (sd_next_delivery_id s) (Some (Some c))) in *.
      assert (Hsr : sent_requests [(SNext ord, OReq (Some q))] = [q]) by done.
      split; simpl; rewrite ?nstarts_app, ?sent_requests_app, ?Hsr; try done.
      * rewrite I4. unfold nstarts at 3; simpl. unfold Nlen; simpl; lia.
      * unfold Nlen in *. rewrite app_length. simpl. lia.
      * unfold Nlen in *. rewrite app_length. simpl length.
        replace (N.of_nat (length (sent_requests t) + 1)) with (N.of_nat (length (sent_requests t)) + 1) by lia.
        rewrite range_S, !fmap_app, I6. f_equal. simpl. by rewrite I5.
      * rewrite in_flight_sum in *. simpl. pose proof (sum_map_insert _ _ _ st' Hl). lia.
      * intros r' st0 Hl'. apply lookup_insert_Some in Hl' as [[<- <-]|[Hne Hl']]; [done|].
        apply (rinv_extend _ _ (sd_next_delivery_id s)); [by apply I8|lia|by apply live_since_single| |done].
        unfold requests_to; simpl. destruct (N.eqb_spec r r'); done.
  - (* response *)
    unfold sender_process_response in Hstep.
    destruct (sd_receivers s !! r) as [st|] eqn:El.
    + destruct (ss_process_response st d resp) as [st'| |] eqn:Ep; simpl in Hstep; [|done|done].
      injection Hstep as <- <-.
      destruct (rinv_resp _ _ _ _ _ _ _ _ _ (I8 _ _ El) Ep) as [Hpc Hr].
      split; simpl; rewrite ?nstarts_app, ?sent_requests_app, ?app_nil_r; try done.
      * rewrite I4. unfold nstarts at 3; simpl. unfold Nlen; simpl; lia.
      * rewrite in_flight_sum in *. simpl. pose proof (sum_map_insert _ _ _ st' El). lia.
      * intros r' st0 Hl'. apply lookup_insert_Some in Hl' as [[<- <-]|[Hne Hl']]; [done|].
        apply (rinv_extend _ _ (sd_next_delivery_id s)); [by apply I8|done|by apply live_since_single|done|intros d' rr ?; by simplify_eq/=].
    + injection Hstep as <- <-.
      split; simpl; rewrite ?nstarts_app, ?sent_requests_app, ?app_nil_r; try done.
      * rewrite I4. unfold nstarts at 3; simpl. unfold Nlen; simpl; lia.
      * intros r' st0 Hl'.
        apply (rinv_extend _ _ (sd_next_delivery_id s)); [by apply I8|done|by apply live_since_single|done|intros d' rr ?; by simplify_eq/=].
  - (* complete *)
    unfold sender_try_complete in Hstep.
    destruct (first_completed _) as [[id x]|] eqn:Ef.
    + injection Hstep as <- <-.
      split; simpl; rewrite ?nstarts_app, ?sent_requests_app, ?app_nil_r; try done.
      * rewrite I4. unfold nstarts at 3; simpl. unfold Nlen; simpl; lia.
      * rewrite in_flight_sum in *. simpl. etrans; [apply sum_map_delete_le|done].
      * intros r' st0 Hl'. apply lookup_delete_Some in Hl' as [Hne Hl'].
        apply (rinv_extend _ _ (sd_next_delivery_id s)); [by apply I8|done| |done|done].
        apply live_since_single; try done. intros x' [= ? ?]; done.
    + injection Hstep as <- <-.
      split; simpl; rewrite ?nstarts_app, ?sent_requests_app, ?app_nil_r; try done.
      * rewrite I4. unfold nstarts at 3; simpl. unfold Nlen; simpl; lia.
      * intros r' st0 Hl'.
        apply (rinv_extend _ _ (sd_next_delivery_id s)); [by apply I8|done|by apply live_since_single|done|intros d' rr ?; by simplify_eq/=].
  - (* reset *)
    injection Hstep as <- <-.
    split; simpl; rewrite ?nstarts_app, ?sent_requests_app, ?app_nil_r; try done.
    + rewrite I4. unfold nstarts at 3; simpl. unfold Nlen; simpl; lia.
    + unfold in_flight; simpl. rewrite map_to_list_empty. simpl. lia.
Qed.

Lemma sinv_trace rid cfg t s : sender_trace enc_meta (sender_init rid cfg) t s ->
  sinv rid (sd_chunk_size (sender_init rid cfg)) (sd_max_pending (sender_init rid cfg)) t s.
Proof.
  induction 1 as [|t s op s' out Ht IH Hok Hstep].
  - by eapply sinv_init.
  - by eapply sinv_step.
Qed.
End Inv.


(** ** The transfer a live segment of the trace belongs to *)

Lemma last_split {A} (P : A -> Prop) (l2 : list A) : forall l1 x l1' x' l2',
  l1 ++ x :: l2 = l1' ++ x' :: l2' -> P x -> P x' ->
  (forall y, y ∈ l2 -> ~ P y) -> (forall y, y ∈ l2' -> ~ P y) ->
  l1 = l1' /\ x = x' /\ l2 = l2'.
Proof.
  induction l2 as [|y l2 IH] using rev_ind; intros l1 x l1' x' l2' He Hx Hx' H H'.
  - destruct l2' as [|y' l2' _] using rev_ind.
    + apply app_inj_tail in He as [-> ->]. done.
    + rewrite app_comm_cons, app_assoc in He. apply app_inj_tail in He as [_ ->].
      destruct (H' y'); [set_solver|done].
  - destruct l2' as [|y' l2' _] using rev_ind.
    + rewrite app_comm_cons, app_assoc in He. apply app_inj_tail in He as [_ ->].
      destruct (H x'); [set_solver|done].
    + rewrite !app_comm_cons, !app_assoc in He. apply app_inj_tail in He as [He ->].
      destruct (IH _ _ _ _ _ He) as (-> & -> & ->); try done; set_solver.
Qed.

Section Segment.
Variable enc_meta : snap_meta -> bytes.

Lemma live_exists rid cfg t s : sender_trace enc_meta (sender_init rid cfg) t s ->
  forall pre r sn out post, t = pre ++ (SStart r sn, out) :: post -> live_since r post ->
  exists st, sd_receivers s !! r = Some st.
Proof.
  induction 1 as [|t s op s' out0 Ht IH Hok Hstep]; intros pre r sn out post He Hl; [by destruct pre|].
  destruct post as [|e post _] using rev_ind.
  - apply app_inj_tail in He as [-> [= -> ->]]. simpl in Hstep.
    unfold sender_start in Hstep. destruct (sender_state_new _ _ _) as [st| |]; simpl in Hstep; [|done|done].
    injection Hstep as <- _. exists st. simpl. by rewrite lookup_insert.
  - rewrite app_comm_cons, app_assoc in He. apply app_inj_tail in He as [-> <-].
    destruct (IH pre r sn out post eq_refl) as [st Hst].
    { intros ?? ?. apply Hl. set_solver. }
    destruct (Hl op out0) as (L1 & L2 & L3); [set_solver|].
    pose proof (sinv_trace _ _ _ _ _ Ht) as Hinv.
    destruct op as [r0 sn0|ord|r0 d resp|ord|ord]; simpl in Hstep.
    + unfold sender_start in Hstep. destruct (sender_state_new _ _ _) as [st0| |]; simpl in Hstep; [|done|done].
      injection Hstep as <- _. simpl. destruct (decide (r0 = r)) as [->|];
        [rewrite lookup_insert|rewrite lookup_insert_ne by done]; eauto.
    + destruct (next_request_cases _ _ _ _ _ _ _ Hinv Hok) as
        [[Hn _]|(r' & st0 & st' & c & _ & _ & _ & _ & _ & Hn)]; rewrite Hn in Hstep; simpl in Hstep;
        injection Hstep as <- _; [eauto|]. simpl.
      destruct (decide (r' = r)) as [->|]; [rewrite lookup_insert|rewrite lookup_insert_ne by done]; eauto.
    + unfold sender_process_response in Hstep. destruct (sd_receivers s !! r0) as [st0|] eqn:E.
      * destruct (ss_process_response st0 d resp) as [st1| |]; simpl in Hstep; [|done|done].
        injection Hstep as <- _. simpl.
        destruct (decide (r0 = r)) as [->|]; [rewrite lookup_insert|rewrite lookup_insert_ne by done]; eauto.
      * injection Hstep as <- _. eauto.
    + unfold sender_try_complete in Hstep. destruct (first_completed _) as [[id x]|]; injection Hstep as <- <-; [|eauto].
      simpl. destruct (decide (id = r)) as [->|]; [by destruct (L3 x)|]. rewrite lookup_delete_ne by done. eauto.
    + by destruct (L2 ord).
Qed.

Lemma segment_state rid cfg t s pre r sn out post :
  sender_trace enc_meta (sender_init rid cfg) t s ->
  t = pre ++ (SStart r sn, out) :: post -> live_since r post ->
  let cs := sd_chunk_size (sender_init rid cfg) in
  let id := nstarts pre + 1 in
  exists st, sd_receivers s !! r = Some st /\
    ss_id st = id /\ ss_next st <= ss_count st /\
    is_piece_count cs (sn_data sn) (ss_count st) /\
    (ss_status st = None -> ss_next st = ss_sent st + pending_count st) /\
    dq_payload <$> requests_to r post =
      (fun k => Some (Some (transfer_content enc_meta cs id sn k))) <$> range (ss_next st) /\
    (forall q, q ∈ requests_to r post -> dq_sender q = rid) /\
    (forall d k, ss_pending st !! d = Some k <->
       waiting enc_meta r cs id sn (ss_count st) post d k) /\
    verdict enc_meta st r cs id sn (ss_count st) post /\
    (ss_status st = None -> forall k, k < ss_next st ->
       (exists d, ss_pending st !! d = Some k) \/ acknowledged r id k post).
Proof.
  intros Ht He Hl cs id.
  destruct (live_exists _ _ _ _ Ht _ _ _ _ _ He Hl) as [st Hst].
  pose proof (si_recv _ _ _ _ _ _ (sinv_trace _ _ _ _ _ Ht) _ _ Hst) as Hr.
  destruct Hr as [H0 H2 H3 H4 (pre' & sn' & o' & post' & He' & Hl' & Hid & Hm & Hd & Hcs & Hpc & Hreq & Hsnd & Hpend & Hver & Hack)].
  rewrite He in He'.
  destruct (last_split (fun e => exists sn, fst e = SStart r sn) post pre (SStart r sn, out) pre' (SStart r sn', o') post')
    as (-> & [= -> ->] & ->); try done.
  - simpl; eauto.
  - simpl; eauto.
  - intros [op o] Hin [sn0 Hx]. simpl in Hx. subst. by destruct (Hl _ _ Hin) as [? _]; eapply H.
  - intros [op o] Hin [sn0 Hx]. simpl in Hx. subst. by destruct (Hl' _ _ Hin) as [? _]; eapply H.
  - exists st. unfold id. rewrite <- Hid. split_and!; try done.
    intros q Hq. by destruct (Hsnd q Hq).
Qed.
End Segment.
