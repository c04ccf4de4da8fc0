(** Proofs about the key value store: requests that are never answered. *)
From Verif Require Import Base ActorModel TabletModel MetadataModel BlobModel CoordinatorModel CoordinatorSpec.
From Verif Require Import KeyvalueModel KeyvalueSpec KeyvalueProofs KeyvalueHistoryProofs.

Definition without (n : N) (l : list kv_request) : Prop := Forall (fun r => request_number r <> n) l.
Definition unanswered (n : N) (l : list kv_response) : Prop := Forall (fun a => response_number a <> n) l.

(** The request number [n] occurs nowhere in the store, except among the requests
    waiting on a tablet for one of the queries. *)
Record gone (queries : list N) (n : N) (s : kv_store) : Prop := {
  gone_pending : without n (st_pending s);
  gone_waiting : map_Forall (fun _ l => without n l) (st_waiting s);
  gone_tablets : map_Forall (fun _ t => without n (tk_pending t) /\
    map_Forall (fun q l => q ∉ queries -> without n l) (tk_waiting t)) (st_tablets s);
  gone_txs : map_Forall (fun _ t => without n (tt_requests t) /\ unanswered n (tt_responses t)) (st_txs s);
  gone_responses : unanswered n (st_responses s);
}.

Section Loss.
Variable hash_key : string -> N.
Variable decode_contents : bytes -> option (gmap string bytes).
Variable encode_contents : gmap string bytes -> bytes.
Variable tracker_order : gmap N tablet_tracker -> list N.
Variable txt_order : gmap N tx_tracker -> list N.
Variable queries : list N.
Variable n : N.
Notation tablet_gone t := (without n (tk_pending t) /\ map_Forall (fun q l => q ∉ queries -> without n l) (tk_waiting t)).

Lemma right_answers_number d l a : right_answers d l a -> Forall2 (fun r x => request_number r = response_number x) l a.
Proof.
  intros [Hlen Ha]. apply Forall2_same_length_lookup_2; [done|]. intros i r x Hr Hx.
  rewrite (Ha _ _ Hr) in Hx. injection Hx as <-. destruct r; simpl; [done|]. by destruct (value_after _ _ _).
Qed.

Lemma collect_all_gone counter table m ids counter' m' l :
  map_Forall (fun _ t => tablet_gone t) m -> collect_all hash_key counter table m ids = (counter', m', l) ->
  map_Forall (fun _ t => tablet_gone t) m'.
Proof.
  clear decode_contents encode_contents tracker_order txt_order.
  revert counter m counter' m' l. induction ids as [|i ids IH]; intros counter m counter' m' l Hm; simpl.
  { by intros [= <- <- <-]. }
  destruct (m !! i ≫= collect_process hash_key counter table) as [[t q]|] eqn:Hi; [|by apply IH].
  destruct (collect_all _ _ _ _ ids) as [[c2 m2] l2] eqn:Hr. intros [= <- <- <-].
  eapply IH; [|exact Hr]. apply map_Forall_insert_2; [|done].
  apply bind_Some in Hi as (t0 & Hi & Ht). destruct (Hm _ _ Hi) as [Hp Hw].
  unfold collect_process in Ht. destruct (_ && _); [|done]. injection Ht as <- <-. simpl.
  split; [constructor|]. apply map_Forall_insert_2; auto.
Qed.

Lemma process_all_gone m tx l m' tx' outs :
  map_Forall (fun _ t => tablet_gone t) m -> without n (tt_requests tx) -> unanswered n (tt_responses tx) ->
  (forall q md o, (q, md, o) ∈ l -> tq_id q ∉ queries) ->
  process_all hash_key decode_contents encode_contents m tx l = Ok (m', tx', outs) ->
  map_Forall (fun _ t => tablet_gone t) m' /\ without n (tt_requests tx') /\ unanswered n (tt_responses tx').
Proof.
  clear tracker_order txt_order.
  revert m tx m' tx' outs. induction l as [|[[q md] o] l IH]; intros m tx m' tx' outs Hm Hr Ha Hq; simpl.
  { by intros [= <- <- <-]. }
  destruct (m !! tm_id md) as [t|] eqn:Ht.
  - destruct (process_query _ _ _ t q o) as [[[t1 r1] set1]| |] eqn:Hp; simpl; [|done..].
    destruct (process_all _ _ _ _ _ l) as [[[m2 tx2] o2]| |] eqn:Hl; simpl; [|done..]. intros [= <- <- <-].
    assert (Hqq : tq_id q ∉ queries) by (eapply Hq; left).
    destruct (Hm _ _ Ht) as [Hp0 Hw0].
    assert (H1 : tablet_gone t1 /\ without n (map fst r1) /\ unanswered n (map snd r1)).
    { destruct (process_query_spec _ _ _ _ _ _ _ _ _ Hp) as (bs & d & -> & Hd & [(-> & _ & -> & _)|Hx]).
      - split_and!; auto; constructor.
      - destruct Hx as (lw & d' & Hw & Hf & -> & _ & _ & Hans). simpl.
        pose proof (Hw0 _ _ Hw Hqq) as Hlw.
        assert (Hr1 : without n (map fst r1)).
        { rewrite Hf. apply Forall_forall. intros r [_ Hin]%elem_of_list_filter.
          unfold without in Hlw. rewrite Forall_forall in Hlw. by apply Hlw. }
        split_and!; auto.
        + apply map_Forall_insert_2; auto. intros _. apply Forall_forall. intros r [_ Hin]%elem_of_list_filter.
          unfold without in Hlw. rewrite Forall_forall in Hlw. by apply Hlw.
        + apply right_answers_number in Hans. unfold unanswered, without in *.
          eapply Forall2_Forall_r; [exact Hans|]. eapply Forall_impl; [exact Hr1|]. intros r Hne a Heq. congruence. }
    destruct H1 as (H1 & H2 & H3). eapply IH; [| | | |exact Hl].
    + by apply map_Forall_insert_2.
    + simpl. by apply Forall_app_2.
    + simpl. by apply Forall_app_2.
    + intros q' md' o' Hin. eapply Hq. right. exact Hin.
  - destruct (process_all _ _ _ _ _ l) as [[[m2 tx2] o2]| |] eqn:Hl; simpl; [|done..]. intros [= <- <- <-].
    eapply IH; [done..| |exact Hl]. intros q' md' o' Hin. eapply Hq. right. exact Hin.
Qed.

Lemma resolved_gone s l : gone queries n s -> gone queries n (kv_resolved s l).
Proof.
  clear.
  revert s. induction l as [|[q i] l IH]; intros s Hg; [done|].
  change (kv_resolved s ((q, i) :: l)) with (kv_resolved (resolved_one s (q, i)) l). apply IH.
  destruct Hg as [H1 H2 H3 H4 H5]. unfold resolved_one. constructor; simpl; auto.
  - by apply map_Forall_delete.
  - apply map_Forall_insert_2; [|done]. simpl. split.
    + apply Forall_app_2.
      * destruct (st_tablets s !! i) eqn:Hi; [by apply (H3 _ _ Hi)|constructor].
      * destruct (st_waiting s !! q) eqn:Hq; [by apply (H2 _ _ Hq)|constructor].
    + destruct (st_tablets s !! i) eqn:Hi; [by apply (H3 _ _ Hi)|]. simpl. intros ? ?. by rewrite lookup_empty.
Qed.

Section Context.
Context {C : Type}.
Variable cx : context C.

Lemma progress_gone s c s' c' calls : keys_order txt_order -> gone queries n s ->
  kv_progress hash_key tracker_order txt_order (recording cx) s (c, []) = Ok (s', (c', calls)) -> gone queries n s'.
Proof.
  clear decode_contents encode_contents.
  intros Hord Hg Hp. pose proof Hg as [G1 G2 G3 G4 G5].
  destruct (progress_spec _ _ _ _ _ _ _ _ _ Hord Hp) as (l & _ & HP & HW & _ & HT & _).
  unfold kv_progress in Hp. apply res_bind_ok in Hp as ([s1 [c1 g1]] & H1 & Hr).
  apply res_bind_ok in Hr as ([s2 [c2 g2]] & H2 & Hr).
  apply res_bind_ok in Hr as ([txs [c3 g3]] & H3 & Hr).
  apply res_bind_ok in Hr as ([[[completed tablets] responses] [c4 g4]] & H4 & Hr).
  assert (Hs1 : without n (st_pending s1) /\ map_Forall (fun _ l => without n l) (st_waiting s1) /\ st_tablets s1 = st_tablets s).
  { unfold resolve_progress, collect_resolve in H1. destruct (_ <=? _).
    - destruct (cx_resolve _ _ _) as [[? []]| |]; simpl in H1; try done. injection H1 as <- _. simpl.
      split_and!; [constructor| |done]. by apply map_Forall_insert_2.
    - injection H1 as <- _. auto. }
  destruct Hs1 as (P1 & W1 & T1).
  assert (Hs2 : without n (st_pending s2) /\ map_Forall (fun _ l => without n l) (st_waiting s2) /\
    map_Forall (fun _ t => tablet_gone t) (st_tablets s2)).
  { unfold start_progress in H2. destruct (collect_all _ _ _ _ _) as [[counter m] [|x l0]] eqn:Hl.
    { injection H2 as <- _. rewrite T1. auto. }
    destruct (cx_start _ _) as [[c5 tx]| |]; simpl in H2; [|done..].
    destruct (cx_process _ _ _ _) as [c6| |]; simpl in H2; [|done..]. injection H2 as <- _. simpl. split_and!; auto.
    eapply collect_all_gone; [|exact Hl]. by rewrite T1. }
  destruct Hs2 as (P2 & W2 & T2). injection Hr as <- _. simpl in *.
  assert (Hwork : forall tx t, same_work (st_txs s) tx t -> without n (tt_requests t) /\ unanswered n (tt_responses t)).
  { intros tx t [(t0 & Ht0 & -> & ->)|[-> ->]]; [by apply (G4 _ _ Ht0)|]. split; constructor. }
  constructor; simpl; auto.
  - revert T2. generalize (st_tablets s2). clear. induction tablets as [|i l IH]; intros m Hm; simpl; [done|].
    apply IH. intros j t. rewrite lookup_alter_Some. intros [(<- & t0 & Ht0 & ->)|[_ Ht]].
    + apply (Hm _ _ Ht0).
    + apply (Hm _ _ Ht).
  - intros tx t Ht. apply (Hwork tx). by apply HT.
  - rewrite HP. apply Forall_app_2; [done|]. apply Forall_forall. intros a Ha.
    apply elem_of_list_In, in_concat in Ha as (la & Hla & Ha). apply in_map_iff in Hla as ([[tx t] o] & <- & Hx).
    rewrite Forall_forall in HW. apply elem_of_list_In in Hx. specialize (HW _ Hx). destruct o; [|done].
    apply Hwork in HW as [_ HW]. simpl in *. unfold unanswered in HW. rewrite Forall_forall in HW.
    apply HW. by apply elem_of_list_In.
Qed.

Lemma step_gone s e s' : keys_order txt_order -> gone queries n s -> unrelated queries n e ->
  store_step hash_key decode_contents encode_contents tracker_order txt_order cx s e s' ->
  gone queries n s' /\ match e with EvTake l => unanswered n l | _ => True end.
Proof.
  intros Hord Hg Hu Hs. destruct Hs as [s r|s c s' c' calls Hp|s results|s tx tablets s' set Hp|s]; simpl in Hu.
  - split; [|done]. destruct Hg. constructor; simpl; auto. apply Forall_app_2; auto.
  - split; [|done]. by eapply progress_gone.
  - split; [|done]. by apply resolved_gone.
  - split; [|done]. unfold kv_process in Hp. destruct (st_txs s !! tx) as [t|] eqn:Htx; [|by injection Hp as <- <-].
    apply res_bind_ok in Hp as ([[m t'] outs] & Hp & [= <- <-]). destruct Hg as [G1 G2 G3 G4 G5].
    destruct (G4 _ _ Htx) as [Hr Ha].
    destruct (process_all_gone _ _ _ _ _ _ G3 Hr Ha Hu Hp) as (Hm & Hr' & Ha').
    constructor; simpl; auto. by apply map_Forall_insert_2.
  - destruct Hg as [G1 G2 G3 G4 G5]. split; [|exact G5]. constructor; simpl; auto. constructor.
Qed.
Lemma steps_gone s tr s' : keys_order txt_order -> gone queries n s -> Forall (unrelated queries n) tr ->
  store_steps hash_key decode_contents encode_contents tracker_order txt_order cx s tr s' ->
  unanswered n (answers_of tr s') /\ gone queries n s'.
Proof.
  intros Hord Hg Hu. induction 1 as [s|s tr s1 e s2 Hr IH Hs].
  - split; [|done]. apply gone_responses in Hg. done.
  - apply Forall_app in Hu as [Hu He]. apply Forall_cons in He as [He _]. destruct (IH Hg Hu) as [Ha1 Hg1].
    destruct (step_gone _ _ _ Hord Hg1 He Hs) as [Hg2 He2]. split; [|done].
    unfold answers_of in *. rewrite given_app. apply Forall_app in Ha1 as [Ha1 _].
    apply Forall_app_2; [|by apply gone_responses in Hg2]. apply Forall_app_2; [done|]. destruct e; try constructor. done.
Qed.
End Context.
End Loss.

(** A request number that occurs in no request held anywhere is gone. *)
Lemma gone_intro n s : n ∉ map request_number (all_requests s) ->
  map_Forall (fun _ t => unanswered n (tt_responses t)) (st_txs s) -> unanswered n (st_responses s) -> gone [] n s.
Proof.
  intros Hn Ht Ha.
  assert (Hr : forall r, r ∈ all_requests s -> request_number r <> n).
  { intros r Hr <-. apply Hn. by apply elem_of_list_fmap_1. }
  unfold all_requests in Hr.
  constructor; auto.
  - apply Forall_forall. intros r ?. apply Hr. set_solver.
  - intros q l Hq. apply Forall_forall. intros r Hx. apply Hr. apply elem_of_app. right. apply elem_of_app. left.
    by apply (elem_of_total (fun l => l) _ q l).
  - intros i t Hi.
    assert (Hti : forall r, r ∈ tracker_requests t -> request_number r <> n).
    { intros r Hx. apply Hr. apply elem_of_app. right. apply elem_of_app. right. apply elem_of_app. left.
      by apply (elem_of_total tracker_requests _ i t). }
    unfold tracker_requests in Hti. split.
    + apply Forall_forall. intros r ?. apply Hti. set_solver.
    + intros q l Hq _. apply Forall_forall. intros r Hx. apply Hti. apply elem_of_app. right.
      by apply (elem_of_total (fun l => l) _ q l).
  - intros tx t Hx. split; [|by apply (Ht _ _ Hx)]. apply Forall_forall. intros r Hin. apply Hr.
    do 3 (apply elem_of_app; right). by apply (elem_of_total tt_requests _ tx t).
Qed.

Lemma NoDup_sub {A} (l1 l2 : list A) : l1 ⊆+ l2 -> NoDup l2 -> NoDup l1.
Proof. intros [k Hk]%submseteq_Permutation Hnd. rewrite Hk in Hnd. by apply NoDup_app in Hnd as [? _]. Qed.

(** A request executed in a transaction that fails is dropped. *)
Lemma failed_gone {C} hash_key decode_contents encode_contents tracker_order txt_order (cx : context C) table mr mp tr s e s' tx r :
  keys_order txt_order ->
  store_runs hash_key decode_contents encode_contents tracker_order txt_order cx table mr mp tr s ->
  NoDup (map request_number (accepted tr)) ->
  carries s tx r ->
  store_step hash_key decode_contents encode_contents tracker_order txt_order cx s e s' ->
  fails e tx -> ~ begins e tx ->
  gone [] (request_number r) s' /\ unanswered (request_number r) (answers_of (tr ++ [e]) s').
Proof.
  intros Hord Hruns Hnd (t & Htx & Hr) Hstep (calls & -> & Hf) Hbeg.
  assert (Hns : AskStart tx ∉ calls). { intros Hin. apply Hbeg. exists calls. done. }
  pose proof (store_inv_steps _ _ _ _ _ _ _ _ _ _ _ Hord Hruns) as (Ho & answered & Ha & Hsub).
  inversion Hstep as [|? c ? c' ? Hp| | |]; subst.
  destruct (progress_spec _ _ _ _ _ _ _ _ _ Hord Hp) as (l & R & HP & HW & HND & HT & HO & HK).
  assert (Hexec : forall asked ev tx0 r0 a, executed_by hash_key decode_contents encode_contents asked ev tx0 r0 a ->
    request_number r0 = response_number a).
  { intros asked ev tx0 r0 a (tb & set & k & q & md & bs & d & lr & answers & d' & i & _ & _ & _ & _ & _ & Hra & Hi & Hai & _).
    apply right_answers_number in Hra. eapply Forall2_lookup_lr in Hra; eauto. }
  assert (Hnum : forall tx0 t0, st_txs s !! tx0 = Some t0 ->
    Forall2 (fun r a => request_number r = response_number a) (tt_requests t0) (tt_responses t0)).
  { intros tx0 t0 Ht0. eapply Forall2_impl; [by apply (Ho _ _ Ht0)|].
    intros r0 a (tr1 & e & tr2 & _ & He). by eapply Hexec. }
  assert (Hsame : forall tx0 t0, same_work (st_txs s) tx0 t0 ->
    Forall2 (fun r a => request_number r = response_number a) (tt_requests t0) (tt_responses t0)).
  { intros tx0 t0 [(t1 & Ht1 & -> & ->)|[-> ->]]; [by eapply Hnum|constructor]. }
  assert (Hanum : map request_number answered = map response_number (answers_of tr s)).
  { clear -Ha Hexec. induction Ha as [|r0 a l1 l2 H0 _ IH]; simpl; [done|]. f_equal; [|exact IH].
    destruct H0 as (tx0 & tr1 & e1 & tr2 & e2 & tr3 & _ & He & _). by eapply Hexec. }
  assert (Hpos : forall (l1 : list kv_request) l2, Forall2 (fun r a => request_number r = response_number a) l1 l2 ->
    request_number r ∉ map request_number l1 -> unanswered (request_number r) l2).
  { intros l1 l2 H12. induction H12 as [|r0 a l1 l2 Heq _ IH]; [constructor|]. simpl. intros Hn.
    constructor; [|apply IH; set_solver]. rewrite <- Heq. set_solver. }
  set (work := concat (map (fun x : N * tx_tracker * tx_outcome => tt_requests x.1.2) l)) in *.
  assert (Hall : NoDup (map request_number (answered ++ work ++ all_requests s'))).
  { eapply NoDup_sub; [|exact Hnd]. apply fmap_submseteq. etrans; [|exact Hsub].
    by apply submseteq_app. }
  rewrite !map_app in Hall. apply NoDup_app in Hall as (_ & Hd1 & Hall). apply NoDup_app in Hall as (Hwork & Hd2 & _).
  (* the request is among those of the transactions completed *)
  apply HO in Hf as [t' Hl].
  assert (Ht' : tt_requests t' = tt_requests t /\ tt_responses t' = tt_responses t).
  { destruct (HK _ _ Htx Hns) as [(t1 & Ht1 & _)|(t1 & o & Hl1 & Hq1 & Hq2)].
    - apply HT in Ht1 as [_ Hn]. exfalso. apply Hn. apply elem_of_list_fmap. exists (tx, t', TxFailed). done.
    - assert ((tx, t1, o) = (tx, t', TxFailed)) as [= -> ->]; [|done].
      revert HND Hl Hl1. clear. induction l as [|x l IH]; simpl; [by intros _ ?%elem_of_nil|].
      intros [Hx HND]%NoDup_cons Ha Hb. apply elem_of_cons in Ha as [Ha|Ha]; apply elem_of_cons in Hb as [Hb|Hb]; [congruence| | |auto].
      + subst x. exfalso. apply Hx. apply elem_of_list_fmap. by exists (tx, t1, o).
      + subst x. exfalso. apply Hx. apply elem_of_list_fmap. by exists (tx, t', TxFailed). }
  destruct Ht' as [Hq1 Hq2].
  assert (Hin : request_number r ∈ map request_number work).
  { apply elem_of_list_fmap_1. apply elem_of_list_In, in_concat. exists (tt_requests t'). split.
    - apply in_map_iff. exists (tx, t', TxFailed). split; [done|]. by apply elem_of_list_In.
    - apply elem_of_list_In. by rewrite Hq1. }
  assert (Hresp : unanswered (request_number r) (st_responses s')).
  { rewrite HP. apply Forall_app_2.
    - assert (Hx : unanswered (request_number r) (answers_of tr s)).
      { apply Forall_forall. intros a Hia Heq. eapply Hd1; [|apply elem_of_app; left; exact Hin].
        rewrite Hanum. rewrite <- Heq. by apply elem_of_list_fmap_1. }
      apply Forall_app in Hx as [_ Hx]. exact Hx.
    - subst work. revert HND Hwork HW Hl. clear -Hsame Hpos Hr Hq1.
      induction l as [|[[tx1 t1] o1] l IH]; simpl; [by intros _ _ _ ?%elem_of_nil|].
      intros [Hx HND]%NoDup_cons Hwork [Hs1 HW]%Forall_cons Hl. rewrite map_app in Hwork.
      apply NoDup_app in Hwork as (W1 & W2 & W3). apply elem_of_cons in Hl as [[= <- <- <-]|Hl].
      + simpl. apply (Hpos (concat (map (fun x => match x.2 with TxSucceeded => tt_requests x.1.2 | TxFailed => [] end) l))).
        * apply Forall2_concat_2. intros [[i ti] o] Hi. simpl. destruct o; [|constructor].
          rewrite Forall_forall in HW. apply (Hsame i). apply (HW _ Hi).
        * intros Hc. eapply (W2 (request_number r)); [apply elem_of_list_fmap_1; by rewrite Hq1|].
          assert (Hss : concat (map (fun x : N * tx_tracker * tx_outcome => match x.2 with TxSucceeded => tt_requests x.1.2 | TxFailed => [] end) l) ⊆+
            concat (map (fun x : N * tx_tracker * tx_outcome => tt_requests x.1.2) l)).
          { apply concat_sub. intros [[i ti] [|]] _; simpl; [done|apply submseteq_nil_l]. }
          apply (fmap_submseteq request_number) in Hss. by eapply elem_of_submseteq.
      + apply Forall_app_2; [|apply IH; auto]. destruct o1; [|constructor].
        apply (Hpos (tt_requests t1)); [by apply (Hsame tx1)|]. intros Hc. apply (W2 _ Hc).
        apply elem_of_list_fmap_1. apply elem_of_list_In, in_concat. exists (tt_requests t'). split.
        * apply in_map_iff. exists (tx, t', TxFailed). split; [done|]. by apply elem_of_list_In.
        * apply elem_of_list_In. by rewrite Hq1. }
  assert (Hout : request_number r ∉ map request_number (all_requests s')) by (intros Hc; by apply (Hd2 _ Hin)).
  split.
  - apply gone_intro; auto. intros tx0 t0 Ht0. apply HT in Ht0 as Hs0. destruct Hs0 as [Hs0 _].
    apply (Hpos (tt_requests t0)); [by apply (Hsame tx0)|]. intros Hc. apply Hout.
    apply elem_of_list_fmap in Hc as (r0 & -> & Hc). apply elem_of_list_fmap_1. unfold all_requests.
    do 3 (apply elem_of_app; right). by apply (elem_of_total tt_requests _ tx0 t0).
  - unfold answers_of. rewrite given_app, app_nil_r. apply Forall_app_2; [|done].
    assert (Hx : unanswered (request_number r) (answers_of tr s)).
    { apply Forall_forall. intros a Hia Heq. eapply Hd1; [|apply elem_of_app; left; exact Hin].
      rewrite Hanum. rewrite <- Heq. by apply elem_of_list_fmap_1. }
    apply Forall_app in Hx as [Hx _]. exact Hx.
Qed.
