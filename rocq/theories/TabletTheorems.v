(** Theorems about the tablet store application (C37-C42, C60, C61). *)
From Verif Require Import Base Btree ActorModel ActorSpec TabletModel TabletSpec TabletProofs.

(** Sample tables and requests for the examples. *)
Definition tm (i v : N) : tablet_metadata := TabletMetadata i v false [] 0 [] "".
Definition sample_table : table := {[ 10 := tm 10 3; 20 := tm 20 0; 30 := tm 30 7 ]}.
Definition sample_tables : tables := {[ "a"%string := sample_table; "b"%string := {[ 5 := tm 5 1 ]} ]}.
Definition upd (name : string) (i v : N) : tablet_op := TabletOp name (Some (OpUpdate (Some (tm i v)))).
Definition chk (name : string) (i v : N) : tablet_op := TabletOp name (Some (OpCheck i v)).
Lemma sample_tables_versions : versions_below_max sample_tables.
Proof.
  intros name i m. unfold tablet, sample_tables, sample_table.
  destruct (decide (name = "a"%string)) as [->|Ha].
  - rewrite lookup_insert. simpl. rewrite !lookup_insert_Some, lookup_singleton_Some.
    intros [[? <-]|[? [[? <-]|[? [? <-]]]]]; done.
  - rewrite lookup_insert_ne by done. destruct (decide (name = "b"%string)) as [->|Hb].
    + rewrite lookup_singleton. simpl. rewrite lookup_singleton_Some. intros [? <-]. done.
    + rewrite lookup_singleton_ne by done. done.
Qed.
Lemma sample_tables_keyed : well_keyed sample_tables.
Proof.
  intros name i m. unfold tablet, sample_tables, sample_table.
  destruct (decide (name = "a"%string)) as [->|Ha].
  - rewrite lookup_insert. simpl. rewrite !lookup_insert_Some, lookup_singleton_Some.
    intros [[? <-]|[? [[? <-]|[? [? <-]]]]]; done.
  - rewrite lookup_insert_ne by done. destruct (decide (name = "b"%string)) as [->|Hb].
    + rewrite lookup_singleton. simpl. rewrite lookup_singleton_Some. intros [? <-]. done.
    + rewrite lookup_singleton_ne by done. done.
Qed.

(** * C37 *)
(** A request of supported operations never aborts; it succeeds exactly when the
    precondition of every operation holds in the state before the request; then
    every tablet holds what its last update in the request says, and the others
    are unchanged; otherwise nothing changes at all. There is one result per
    operation, in order, which succeeded exactly when its own precondition held,
    and which reports the existing tablet. *)
Theorem C37_all_or_nothing ts ops :
  Forall supported ops -> versions_below_max ts ->
  exists ts' resp,
    apply_tablets_request ts ops = Ok (ts', resp) /\
    (rs_succeeded resp = true <-> Forall (precondition ts) ops) /\
    (rs_succeeded resp = true ->
       (forall name, is_Some (ts' !! name) <-> is_Some (ts !! name)) /\
       forall name i, tablet ts' name i =
         match last_update ops name i with Some u => Some u | None => tablet ts name i end) /\
    (rs_succeeded resp = false -> ts' = ts) /\
    length (rs_results resp) = length ops /\
    forall k op r, ops !! k = Some op -> rs_results resp !! k = Some r ->
      or_table r = op_table op /\ (or_status r = OpSucceeded <-> precondition ts op) /\
      expected_detail ts op (or_detail r).
Proof.
  intros Hs Hv. destruct (apply_request_ok ts ops Hs Hv) as (ts'&resp&H).
  exists ts', resp. split; [done|].
  destruct (apply_request_spec _ _ _ _ H) as (HP&H1&H2&H3). split; [done|]. split; [done|]. split; [done|]. split.
  - symmetry. apply prepare_all_spec in HP. by eapply Forall2_length.
  - intros k op r Hk Hr. apply prepare_all_spec in HP.
    destruct (prepare_op_spec _ _ _ (Forall2_lookup_lr _ _ _ _ _ _ HP Hk Hr)) as (A&B&_&D). auto.
Qed.
(** A request with two updates and a check, and the same with a wrong version. *)
Example C37_example :
  let run ops := match apply_tablets_request sample_tables ops with
     | Ok (ts', resp) => Some (rs_succeeded resp, map or_status (rs_results resp),
         tm_version <$> tablet ts' "a" 10, tm_version <$> tablet ts' "b" 5)
     | _ => None end in
  run [upd "a" 10 4; chk "a" 20 0; upd "b" 5 2]
    = Some (true, [OpSucceeded; OpSucceeded; OpSucceeded], Some 4, Some 2) /\
  run [upd "a" 10 4; chk "a" 20 1; upd "b" 5 2; TabletOp "z" None]
    = Some (false, [OpSucceeded; OpFailed; OpSucceeded; OpInvalid], Some 3, Some 1) /\
  Forall supported [upd "a" 10 4; chk "a" 20 0; upd "b" 5 2] /\ versions_below_max sample_tables.
Proof.
  split_and!; [vm_compute; done|vm_compute; done| |apply sample_tables_versions].
  by repeat constructor.
Qed.

(** The answer goes to the replica that proposed the request, once, with the
    correlation id of the request, and carries the outcome. *)
Theorem C37_outcome_is_answered c ts cx correlation ops ts' out :
  tablet_codec_ok c ->
  tablet_apply c ts cx (ActorEvent correlation (enc_ops c ops)) = Ok (ts', out) ->
  exists resp, apply_tablets_request ts ops = Ok (ts', resp) /\
    out = if ec_owned cx then [ActorCommand correlation (enc_out c OutResponse) (enc_results c resp)] else [].
Proof.
  intros Hc. unfold tablet_apply; simpl. rewrite (ops_round_trip _ Hc).
  destruct (apply_tablets_request ts ops) as [[ts1 resp]| |]; simpl; try done.
  destruct (ec_owned cx); intros [= <- <-]; eauto.
Qed.

(** A sample serialisation of requests: the number of a table [a] to check, so
    that the hypotheses about serialisations can be shown to be met. *)
#[local] Instance tm_eq : EqDecision tablet_metadata. Proof. solve_decision. Defined.
#[local] Instance tm_countable : Countable tablet_metadata :=
  inj_countable' (fun m => (tm_id m, tm_version m, tm_deleted m, tm_key m, tm_size m, tm_hash m, tm_uri m))
    (fun '(a, b, c, d, e, f, g) => TabletMetadata a b c d e f g) ltac:(by intros []).
#[local] Instance op_kind_eq : EqDecision op_kind. Proof. solve_decision. Defined.
#[local] Instance op_kind_countable : Countable op_kind :=
  inj_countable' (fun k => match k with
     | OpList a b => inl (a, b) | OpCheck a b => inr (inl (a, b)) | OpAdd m => inr (inr (inl m))
     | OpUpdate m => inr (inr (inr (inl m))) | OpRemove a b => inr (inr (inr (inr (a, b)))) end)
    (fun x => match x with
     | inl (a, b) => OpList a b | inr (inl (a, b)) => OpCheck a b | inr (inr (inl m)) => OpAdd m
     | inr (inr (inr (inl m))) => OpUpdate m | inr (inr (inr (inr (a, b)))) => OpRemove a b end)
    ltac:(by intros []).
#[local] Instance tablet_op_eq : EqDecision tablet_op. Proof. solve_decision. Defined.
#[local] Instance tablet_op_countable : Countable tablet_op :=
  inj_countable' (fun o => (op_table o, op_kind_of o)) (fun '(a, b) => TabletOp a b) ltac:(by intros []).
#[local] Instance table_snapshot_eq : EqDecision table_snapshot. Proof. solve_decision. Defined.
#[local] Instance table_snapshot_countable : Countable table_snapshot :=
  inj_countable' (fun o => (ts_name o, ts_tablets o)) (fun '(a, b) => TableSnapshot a b) ltac:(by intros []).
Definition sample_codec : tablet_codec := TabletCodec
  sample_dec sample_enc sample_dec
  (fun r => [if rs_succeeded r then 1 else 0; Nlen (rs_results r)])
  (fun o => match o with OutResponse => [0] | OutError OpsRejected => [1] | OutError OpsInvalidOperation => [2] end)
  sample_enc sample_dec sample_dec.
Example sample_codec_ok : tablet_codec_ok sample_codec.
Proof. constructor; intros; apply sample_dec_enc. Qed.
Example C37_answer_example :
  match tablet_apply sample_codec sample_tables (EventContext 7 true)
          (ActorEvent 42 (enc_ops sample_codec [upd "a" 10 4])) with
  | Ok (_, out) => out = [ActorCommand 42 [0] [1; 1]] | _ => False end.
Proof. vm_compute. done. Qed.

(** * C38 *)
(** One request: a tablet it updates with success goes up by exactly one
    version, to the metadata of one of the updates; any other tablet is
    unchanged. *)
Theorem C38_updates_raise_version_by_one ts ops ts' resp name i :
  apply_tablets_request ts ops = Ok (ts', resp) ->
  let updated := exists op u, op ∈ ops /\ update_of op = Some (name, u) /\ tm_id u = i in
  (rs_succeeded resp = true -> updated ->
     exists m op u, tablet ts name i = Some m /\ tablet ts' name i = Some u /\
       op ∈ ops /\ update_of op = Some (name, u) /\ tm_version u = tm_version m + 1) /\
  (rs_succeeded resp = false \/ ~ updated -> tablet ts' name i = tablet ts name i).
Proof.
  intros H updated.
  destruct (request_tablet _ _ _ _ name i H) as [(Hs&op&u&m&Hin&Hu&Hi&Hm&Hm'&Hv)|[Hsame Hno]].
  - split; [intros _ _; eauto 10|]. intros [Hf|Hnu]; [congruence|]. destruct Hnu. exists op, u. auto.
  - split; [|done]. intros Hs (op&u&Hin&Hu&Hi). by destruct (Hno Hs op u Hin Hu).
Qed.
(** Any history: no version ever goes down, and tables and tablets are neither
    created nor deleted. *)
Theorem C38_versions_never_go_down ts reqs ts' rs name i :
  run_requests ts reqs = Ok (ts', rs) ->
  (is_Some (ts' !! name) <-> is_Some (ts !! name)) /\
  match tablet ts name i with
  | None => tablet ts' name i = None
  | Some m => exists m', tablet ts' name i = Some m' /\ tm_version m <= tm_version m'
  end.
Proof. intros H. split; [by eapply run_tables|by eapply run_tablet]. Qed.
(** The version of a tablet counts the successful requests that update it. *)
Definition updates_tablet (name : string) (i : N) (op : tablet_op) : bool :=
  match update_of op with
  | Some (n, u) => bool_decide (n = name /\ tm_id u = i)
  | None => false
  end.
Fixpoint successful_updates (name : string) (i : N) (reqs : list (list tablet_op)) (rs : list tablets_response) : N :=
  match reqs, rs with
  | ops :: reqs, r :: rs =>
    (if rs_succeeded r && existsb (updates_tablet name i) ops then 1 else 0) + successful_updates name i reqs rs
  | _, _ => 0
  end.
Theorem C38_version_counts_updates reqs : forall ts ts' rs name i m,
  run_requests ts reqs = Ok (ts', rs) -> tablet ts name i = Some m ->
  exists m', tablet ts' name i = Some m' /\
    tm_version m' = tm_version m + successful_updates name i reqs rs.
Proof.
  induction reqs as [|ops reqs IH]; intros ts ts' rs name i m H Hm; simpl in H.
  { injection H as <- <-. exists m. split; [done|]. simpl. lia. }
  destruct (apply_tablets_request ts ops) as [[ts1 r]| |] eqn:E1; try done. simpl in H.
  destruct (run_requests ts1 reqs) as [[ts2 rs']| |] eqn:E2; try done. simpl in H. injection H as <- <-.
  destruct (C38_updates_raise_version_by_one _ _ _ _ name i E1) as [Hup Hsame]. simpl.
  destruct (rs_succeeded r) eqn:Er; simpl.
  - destruct (existsb (updates_tablet name i) ops) eqn:Ex.
    + apply existsb_exists in Ex as (op&Hin&Hop). apply elem_of_list_In in Hin.
      unfold updates_tablet in Hop. destruct (update_of op) as [[n u]|] eqn:Eu; [|done].
      apply bool_decide_eq_true in Hop as [-> Hi].
      destruct Hup as (m0&op'&u'&H1&H2&_&_&H5); [done|eauto 10|].
      destruct (IH _ _ _ _ _ _ E2 H2) as (m'&Hm'&Hv). exists m'. split; [done|].
      assert (m0 = m) by congruence. subst. lia.
    + rewrite <- Hsame in Hm.
      * destruct (IH _ _ _ _ _ _ E2 Hm) as (m'&Hm'&Hv). exists m'. split; [done|lia].
      * right. intros (op&u&Hin&Hu&Hi). apply not_true_iff_false in Ex. apply Ex.
        apply existsb_exists. exists op. split; [by apply elem_of_list_In|].
        unfold updates_tablet. rewrite Hu. by apply bool_decide_eq_true.
  - rewrite <- Hsame in Hm by auto.
    destruct (IH _ _ _ _ _ _ E2 Hm) as (m'&Hm'&Hv). exists m'. split; [done|lia].
Qed.
(** What a replica that applies a log of requests does is to run them in order. *)
Theorem C38_log_is_run_in_order c generate order log : forall ts ts' outs,
  tablet_codec_ok c ->
  apply_all (tablet_actor c generate order) ts
    (map (fun '(cx, correlation, ops) => (cx, ActorEvent correlation (enc_ops c ops))) log) = Ok (ts', outs) ->
  exists rs, run_requests ts (map snd log) = Ok (ts', rs).
Proof.
  induction log as [|[[cx correlation] ops] log IH]; intros ts ts' outs Hc H.
  { injection H as <- _. exists []. done. }
  cbn [map apply_all] in H. cbn [map run_requests snd].
  destruct (a_apply _ ts cx _) as [[ts1 out]| |] eqn:E; try done. simpl in H.
  apply (C37_outcome_is_answered c) in E as (resp&E&_); [|done]. rewrite E. simpl.
  destruct (apply_all _ ts1 _) as [[ts2 outs']| |] eqn:F in H; try done. simpl in H. injection H as <- _.
  destruct (IH _ _ _ Hc F) as [rs ->]. simpl. eauto.
Qed.
Example C38_example :
  match run_requests sample_tables [[upd "a" 10 4]; [upd "a" 10 4]; [upd "a" 10 5; upd "b" 5 2]] with
  | Ok (ts', rs) => map rs_succeeded rs = [true; false; true] /\ tm_version <$> tablet ts' "a" 10 = Some 5
  | _ => False end.
Proof. vm_compute. done. Qed.

(** * C39 *)
(** Of two requests of a history that update the same tablet to the same
    version, at most one succeeds. *)
Theorem C39_no_two_conflicting_updates ts reqs ts' rs a b ops1 ops2 r1 r2 op1 op2 name u1 u2 :
  run_requests ts reqs = Ok (ts', rs) ->
  (a < b)%nat -> reqs !! a = Some ops1 -> reqs !! b = Some ops2 ->
  rs !! a = Some r1 -> rs !! b = Some r2 ->
  op1 ∈ ops1 -> op2 ∈ ops2 -> update_of op1 = Some (name, u1) -> update_of op2 = Some (name, u2) ->
  tm_id u1 = tm_id u2 -> tm_version u1 = tm_version u2 ->
  rs_succeeded r1 = true -> rs_succeeded r2 = true -> False.
Proof.
  revert ts rs a b. induction reqs as [|ops reqs IH]; intros ts rs a b H Hab Ha Hb Hra Hrb Hin1 Hin2 Hu1 Hu2 Hi Hv S1 S2; [done|].
  simpl in H. destruct (apply_tablets_request ts ops) as [[ts1 r]| |] eqn:E1; try done. simpl in H.
  destruct (run_requests ts1 reqs) as [[ts2 rs']| |] eqn:E2; try done. simpl in H. injection H as <- <-.
  destruct b as [|b]; [lia|]. simpl in Hb, Hrb. destruct a as [|a]; simpl in Ha, Hra.
  2: { eapply (IH ts1 rs' a b); eauto. lia. }
  injection Ha as ->. injection Hra as ->.
  destruct (request_tablet _ _ _ _ name (tm_id u1) E1) as [(_&op&u&m&Hin&Hu&Hid&Hm&Hm1&Hver)|[_ Hno]].
  2: { by destruct (Hno S1 op1 u1 Hin1 Hu1). }
  (* the version right after the first request is that of [u1] *)
  destruct (apply_request_spec _ _ _ _ E1) as (_&Hs&_&_). apply Hs in S1.
  rewrite Forall_forall in S1. destruct (update_precondition _ _ _ _ Hu1 (S1 _ Hin1)) as (m1&Hm1'&Hv1).
  assert (tm_version u = tm_version u1) as Eu by (rewrite Hm in Hm1'; injection Hm1' as <-; lia).
  (* split the rest of the history at the second request *)
  rewrite <- (take_drop_middle _ _ _ Hb) in E2. rewrite run_requests_app in E2.
  destruct (run_requests ts1 (take b reqs)) as [[ts3 rs3]| |] eqn:E3; try done. simpl in E2.
  destruct (apply_tablets_request ts3 ops2) as [[ts4 r4]| |] eqn:E4; try done. simpl in E2.
  destruct (run_requests ts4 (drop (S b) reqs)) as [[ts5 rs5]| |] eqn:E5; try done. simpl in E2.
  injection E2 as <- <-.
  pose proof (run_requests_length _ _ _ _ E3) as Hl. rewrite take_length in Hl.
  apply lookup_lt_Some in Hb as Hlb. rewrite Nat.min_l in Hl by lia.
  rewrite lookup_app_r in Hrb by lia. rewrite Hl, Nat.sub_diag in Hrb. simpl in Hrb. injection Hrb as ->.
  destruct (apply_request_spec _ _ _ _ E4) as (_&Hs4&_&_). apply Hs4 in S2. rewrite Forall_forall in S2.
  destruct (update_precondition _ _ _ _ Hu2 (S2 _ Hin2)) as (m2&Hm2&Hv2).
  pose proof (run_tablet _ _ _ _ name (tm_id u1) E3) as Hmono. rewrite Hm1 in Hmono.
  destruct Hmono as (m3&Hm3&Hle). rewrite Hi in Hm3. rewrite Hm2 in Hm3. injection Hm3 as <-. lia.
Qed.
Example C39_example :
  match run_requests sample_tables [[upd "a" 10 4]; [chk "a" 20 0]; [upd "a" 10 4; upd "b" 5 2]] with
  | Ok (_, rs) => map rs_succeeded rs = [true; true; false] | _ => False end.
Proof. vm_compute. done. Qed.

(** * C40 *)
(** A request that updates one tablet twice is not treated as a conflict: both
    operations are reported to have succeeded, and the first is lost. *)
Theorem C40_duplicate_update_is_a_conflict_refuted :
  exists ts ops ts' resp name u1 u2,
    well_keyed ts /\ versions_below_max ts /\
    ops = [TabletOp name (Some (OpUpdate (Some u1))); TabletOp name (Some (OpUpdate (Some u2)))] /\
    tm_id u1 = tm_id u2 /\ u1 <> u2 /\
    apply_tablets_request ts ops = Ok (ts', resp) /\
    rs_succeeded resp = true /\ map or_status (rs_results resp) = [OpSucceeded; OpSucceeded] /\
    tablet ts' name (tm_id u1) = Some u2.
Proof.
  set (u1 := TabletMetadata 10 4 false [] 0 [] "x"). set (u2 := TabletMetadata 10 4 false [] 0 [] "y").
  set (ops := [TabletOp "a" (Some (OpUpdate (Some u1))); TabletOp "a" (Some (OpUpdate (Some u2)))]).
  assert (H : match apply_tablets_request sample_tables ops with
     | Ok (ts', resp) => rs_succeeded resp = true /\ map or_status (rs_results resp) = [OpSucceeded; OpSucceeded] /\
                         tablet ts' "a" (tm_id u1) = Some u2
     | _ => False end) by (vm_compute; done).
  destruct (apply_tablets_request sample_tables ops) as [[ts' resp]| |] eqn:E; [|done..].
  destruct H as (H1&H2&H3).
  exists sample_tables, ops, ts', resp, "a"%string, u1, u2.
  split; [apply sample_tables_keyed|]. split; [apply sample_tables_versions|]. done.
Qed.
(** What holds: if the two updates do not carry the same version, the request
    fails. *)
Theorem C40_duplicate_update_is_a_conflict_partial ts ops ts' resp op1 op2 name u1 u2 :
  apply_tablets_request ts ops = Ok (ts', resp) ->
  op1 ∈ ops -> op2 ∈ ops -> update_of op1 = Some (name, u1) -> update_of op2 = Some (name, u2) ->
  tm_id u1 = tm_id u2 -> tm_version u1 <> tm_version u2 ->
  rs_succeeded resp = false /\ ts' = ts.
Proof.
  intros H Hin1 Hin2 Hu1 Hu2 Hi Hv. destruct (apply_request_spec _ _ _ _ H) as (_&Hs&_&Hno).
  destruct (rs_succeeded resp); [|auto]. exfalso. destruct Hs as [Hs _]. specialize (Hs eq_refl).
  rewrite Forall_forall in Hs.
  destruct (update_precondition _ _ _ _ Hu1 (Hs _ Hin1)) as (m1&H1&?).
  destruct (update_precondition _ _ _ _ Hu2 (Hs _ Hin2)) as (m2&H2&?).
  rewrite Hi in H1. rewrite H1 in H2. injection H2 as <-. lia.
Qed.
Example C40_example :
  match apply_tablets_request sample_tables [upd "a" 10 4; upd "a" 10 5] with
  | Ok (_, resp) => rs_succeeded resp = false | _ => False end.
Proof. vm_compute. done. Qed.

(** * C41 *)
(** The documented range excludes its end, and the listing does not: with
    tablets 10 and 20, listing [5, 11) returns both, and 20 owns no hash of it. *)
Theorem C41_listing_is_exact_refuted :
  exists t from to m,
    (forall i m, t !! i = Some m -> tm_id m = i) /\ from < to /\ to <= u32_max /\
    m ∈ find_tablets t from to /\
    forall h, half_open_range from to h -> ~ owner t h (tm_id m).
Proof.
  exists sample_table, 5, 11, (tm 20 0).
  split. { intros i m Hm. apply (sample_tables_keyed "a"). unfold tablet. vm_compute in *. done. }
  split; [lia|]. split; [vm_compute; done|]. split; [vm_compute; right; left|].
  intros h Hh [_ [[Hle Hmin]|[Hall _]]]; vm_compute in Hh.
  - simpl in *. assert (20 <= 10); [|done]. apply Hmin; [vm_compute; eauto|].
    unfold half_open_range in *. destruct Hh as [_ Hh]. apply N.lt_succ_r. apply Hh.
  - specialize (Hall 30 ltac:(vm_compute; eauto)). destruct Hh as [_ Hh].
    change (h < 11) in Hh. lia.
Qed.
(** With the end included, the listing is exact: no duplicates, current
    metadata, and exactly the tablets that own a hash of the range. *)
Theorem C41_listing_is_exact_for_closed_ranges t from to :
  (forall i m, t !! i = Some m -> tm_id m = i) -> from <= u32_max ->
  NoDup (map tm_id (find_tablets t from to)) /\
  (forall m, m ∈ find_tablets t from to -> t !! tm_id m = Some m) /\
  (forall i, i ∈ map tm_id (find_tablets t from to) <-> exists h, closed_range from to h /\ owner t h i).
Proof. apply find_tablets_spec. Qed.
(** So no tablet responsible for the documented range is missing. *)
Theorem C41_no_responsible_tablet_is_missing_partial t from to h i :
  (forall i m, t !! i = Some m -> tm_id m = i) -> from <= u32_max ->
  half_open_range from to h -> owner t h i ->
  exists m, m ∈ find_tablets t from to /\ tm_id m = i /\ t !! i = Some m.
Proof.
  intros Hk Hmax Hh Ho. destruct (find_tablets_spec t from to Hk Hmax) as (_&H2&H3).
  destruct (H3 i) as [_ Hi].
  assert (Hin : i ∈ map tm_id (find_tablets t from to)).
  { apply Hi. exists h. split; [|done]. unfold half_open_range, closed_range in *.
    destruct (from <? to); lia. }
  apply elem_of_list_In, in_map_iff in Hin as (m&<-&Hm). apply elem_of_list_In in Hm.
  exists m. auto.
Qed.
(** The result of a listing operation is this listing, of the state before the
    request. *)
Theorem C41_list_operation ts ops ts' resp k name from to r :
  apply_tablets_request ts ops = Ok (ts', resp) ->
  ops !! k = Some (TabletOp name (Some (OpList from to))) -> rs_results resp !! k = Some r ->
  match ts !! name with
  | Some t => r = OpResult name OpSucceeded (Some (ListResult from to (find_tablets t from to)))
  | None => r = OpResult name OpInvalid None
  end.
Proof.
  intros H Hk Hr. destruct (apply_request_spec _ _ _ _ H) as (HP&_). apply prepare_all_spec in HP.
  pose proof (Forall2_lookup_lr _ _ _ _ _ _ HP Hk Hr) as Hp. unfold prepare_op in Hp. simpl in Hp.
  destruct (ts !! name); by injection Hp as <-.
Qed.
(** Every hash has exactly one owner, so a listing never leaves a hole. *)
Theorem C41_every_hash_has_one_owner t h :
  t <> ∅ -> exists i, owner t h i /\ forall j, owner t h j -> j = i.
Proof.
  intros Hne.
  assert (Hmin : forall l : list N, l <> [] -> exists x, x ∈ l /\ forall y, y ∈ l -> x <= y).
  { clear. induction l as [|x l IH]; [done|]. intros _. destruct l as [|y l].
    - exists x. split; [by left|]. intros z Hz. apply elem_of_list_singleton in Hz. lia.
    - destruct IH as (m&Hm&Hall); [done|]. destruct (N.le_gt_cases x m).
      + exists x. split; [by left|]. intros z [->|Hz]%elem_of_cons; [lia|]. specialize (Hall z Hz). lia.
      + exists m. split; [by right|]. intros z [->|Hz]%elem_of_cons; [lia|auto]. }
  set (ids := elements (dom t)).
  assert (Hids : forall i, i ∈ ids <-> is_Some (t !! i)) by (intros i; unfold ids; by rewrite elem_of_elements, elem_of_dom).
  destruct (List.filter (fun i => h <=? i) ids) as [|y l] eqn:Ef.
  - assert (Hall : forall j, is_Some (t !! j) -> j < h).
    { intros j Hj. destruct (N.lt_ge_cases j h) as [|Hge]; [done|].
      assert (In j []) as []. rewrite <- Ef. apply filter_In. split; [by apply elem_of_list_In, Hids|by apply N.leb_le]. }
    destruct (Hmin ids) as (x&Hx&Hxm).
    { intros E. apply Hne. apply dom_empty_inv_L. by apply elements_empty_inv, leibniz_equiv in E. }
    exists x. split; [split; [by apply Hids|]; right; split; [done|]; intros j Hj; by apply Hxm, Hids|].
    intros j [Hj [[Hle _]|[_ Hj']]]; [specialize (Hall j Hj); lia|].
    apply N.le_antisymm; [by apply Hj', Hids|by apply Hxm, Hids].
  - destruct (Hmin (y :: l)) as (x&Hx&Hxm); [done|]. rewrite <- Ef in Hx, Hxm.
    assert (Hf : forall z, z ∈ List.filter (fun i => h <=? i) ids <-> is_Some (t !! z) /\ h <= z).
    { intros z. rewrite elem_of_list_In, filter_In, <- elem_of_list_In, Hids, N.leb_le. done. }
    apply Hf in Hx as [Hx1 Hx2].
    exists x. split; [split; [done|]; left; split; [done|]; intros j Hj Hle; apply Hxm, Hf; done|].
    intros j [Hj [[Hle Hj']|[Hall _]]]; [|specialize (Hall x Hx1); lia].
    apply N.le_antisymm; [by apply Hj'|]. apply Hxm, Hf. done.
Qed.
Example C41_example :
  map tm_id (find_tablets sample_table 15 25) = [20; 30] /\
  map tm_id (find_tablets sample_table 25 15) = [30; 10; 20] /\
  map tm_id (find_tablets sample_table 31 40) = [10].
Proof. vm_compute. done. Qed.

(** * C42 *)
(** A saved state is restored exactly, on any replica configured with the same
    tables, whatever its tablets were and in whatever order the tables were
    saved. *)
Theorem C42_snapshot_restores_state c order ts old :
  tablet_codec_ok c -> order_ok order -> well_keyed ts ->
  (forall name, is_Some (old !! name) <-> is_Some (ts !! name)) ->
  exists b, tablet_save c order ts = Ok b /\ tablet_load c old b = Ok ts.
Proof.
  intros Hc Ho Hw Hd. apply load_save; [done..|]. apply set_eq. intros name. by rewrite !elem_of_dom.
Qed.
(** All states reached from an initial one are filed by id, so this covers every
    state a replica can save. *)
Theorem C42_reachable_states_can_be_saved c order generate cx ts reqs ts' rs old :
  tablet_codec_ok c -> order_ok order ->
  tablet_init c generate cx = Ok ts -> run_requests ts reqs = Ok (ts', rs) ->
  (forall name, is_Some (old !! name) <-> is_Some (ts !! name)) ->
  exists b, tablet_save c order ts' = Ok b /\ tablet_load c old b = Ok ts'.
Proof.
  intros Hc Ho Hi Hr Hd. apply C42_snapshot_restores_state; [done..| |].
  - eapply run_well_keyed; [exact Hr|]. unfold tablet_init in Hi.
    destruct (dec_tables_config c (cx_config cx)) as [configs|]; [|done]. injection Hi as <-.
    apply create_tables_keyed.
  - intros name. rewrite Hd. symmetry. by eapply run_tables.
Qed.
(** Two replicas configured alike have the same tables, whatever their
    configurators generated. *)
Theorem C42_same_configuration_same_tables c generate1 generate2 cx1 cx2 ts1 ts2 name :
  cx_config cx1 = cx_config cx2 ->
  tablet_init c generate1 cx1 = Ok ts1 -> tablet_init c generate2 cx2 = Ok ts2 ->
  is_Some (ts1 !! name) <-> is_Some (ts2 !! name).
Proof.
  unfold tablet_init. intros -> H1 H2. destruct (dec_tables_config c (cx_config cx2)) as [configs|]; [|done].
  injection H1 as <-. injection H2 as <-. unfold create_tables.
  generalize (imap (fun n c => (n, c)) configs) as l. intros l.
  assert (H : forall (a b : tables), (forall n, is_Some (a !! n) <-> is_Some (b !! n)) ->
    is_Some (foldl (fun ts '(n, (name, count)) => <[name := create_table (generate1 n count)]> ts) a l !! name) <->
    is_Some (foldl (fun ts '(n, (name, count)) => <[name := create_table (generate2 n count)]> ts) b l !! name)).
  { induction l as [|[n [nm count]] l IH]; intros a b Hab; simpl; [done|]. apply IH.
    intros x. destruct (decide (x = nm)) as [->|Hx]; [rewrite !lookup_insert; split; eauto|].
    by rewrite !lookup_insert_ne. }
  by apply H.
Qed.
(** A snapshot that names a table that is not configured is refused. *)
Theorem C42_unknown_tables_are_refused c ts b snapshots s :
  dec_tables c b = Some snapshots -> s ∈ snapshots -> ts !! ts_name s = None ->
  tablet_load c ts b = Err ASnapshotLoading.
Proof. intros Hd Hin Hn. unfold tablet_load. rewrite Hd. by apply (load_tables_unknown _ s). Qed.
Theorem C42_unreadable_snapshots_are_refused c ts b : dec_tables c b = None -> tablet_load c ts b = Err ASnapshotLoading.
Proof. unfold tablet_load. by intros ->. Qed.
Example C42_unreadable : dec_tables sample_codec [] = None.
Proof. vm_compute. reflexivity. Qed.
Example C42_example :
  order_ok map_to_list /\
  match tablet_save sample_codec map_to_list sample_tables with
  | Ok b => match tablet_load sample_codec {[ "a"%string := {[ 77 := tm 77 1 ]}; "b"%string := ∅ ]} b with
            | Ok ts => tablet ts "a" 10 = Some (tm 10 3) /\ tablet ts "a" 77 = None /\ tablet ts "b" 5 = Some (tm 5 1)
            | _ => False end /\
            tablet_load sample_codec {[ "a"%string := ∅ ]} b = Err ASnapshotLoading
  | _ => False end.
Proof. split; [by intros ts|]. vm_compute. done. Qed.

(** * C60 *)
(** A leader accepts a request with an operation that is not implemented; it is
    replicated, and every replica that applies it aborts, in every state that
    has the table. *)
Theorem C60_no_request_aborts_the_store_refuted :
  exists c cx cmd ev,
    tablet_codec_ok c /\
    (forall ts, tablet_command c cx ts (Some cmd) = Ok (ts, CommandOutcome [] (Some ev))) /\
    forall ts ecx, is_Some (ts !! "a"%string) -> tablet_apply c ts ecx ev = Panic.
Proof.
  set (ops := [TabletOp "a" (Some (OpRemove 10 3))]).
  exists sample_codec, (ActorCtx 1 0 [] true),
    (ActorCommand 42 (sample_enc (Some tt)) (enc_ops sample_codec ops)),
    (ActorEvent 42 (enc_ops sample_codec ops)).
  split; [apply sample_codec_ok|]. split; [intros ts; vm_compute; done|].
  intros ts ecx [t Ht]. unfold tablet_apply. cbn [ae_contents].
  pose proof (ops_round_trip _ sample_codec_ok ops) as Hr. rewrite Hr.
  unfold apply_tablets_request, prepare_all, prepare_op; simpl. by rewrite Ht.
Qed.
(** A request of implemented operations never aborts or fails a replica. *)
Theorem C60_no_request_aborts_the_store_partial c ts ecx correlation ops :
  tablet_codec_ok c -> Forall supported ops -> versions_below_max ts ->
  exists ts' out, tablet_apply c ts ecx (ActorEvent correlation (enc_ops c ops)) = Ok (ts', out).
Proof.
  intros Hc Hs Hv. unfold tablet_apply; simpl. rewrite (ops_round_trip _ Hc).
  destruct (apply_request_ok ts ops Hs Hv) as (ts'&resp&->). simpl. destruct (ec_owned ecx); eauto.
Qed.
(** The examples of C37 meet these hypotheses. *)

(** * C61 *)
(** Processing a command never fails and never changes the tables. On a replica
    that is not leader every command is rejected; on the leader a well-formed
    request is proposed once, unchanged and with its correlation id, and anything
    else is refused. *)
Theorem C61_commands c cx ts cmd :
  (cx_leader cx = false ->
     tablet_command c cx ts (Some cmd) =
     Ok (ts, CommandOutcome [ActorCommand (ac_correlation cmd) (enc_out c (OutError OpsRejected)) []] None)) /\
  (cx_leader cx = true -> dec_header c (ac_header cmd) = Some (Some tt) -> is_Some (dec_ops c (ac_payload cmd)) ->
     tablet_command c cx ts (Some cmd) =
     Ok (ts, CommandOutcome [] (Some (ActorEvent (ac_correlation cmd) (ac_payload cmd))))) /\
  (cx_leader cx = true -> dec_header c (ac_header cmd) <> Some (Some tt) \/ dec_ops c (ac_payload cmd) = None ->
     tablet_command c cx ts (Some cmd) =
     Ok (ts, CommandOutcome [ActorCommand (ac_correlation cmd) (enc_out c (OutError OpsInvalidOperation)) []] None)) /\
  tablet_command c cx ts None = Ok (ts, CommandOutcome [] None).
Proof.
  unfold tablet_command. split_and!.
  - by intros ->.
  - intros -> -> [ops ->]. done.
  - intros -> H. simpl. destruct (dec_header c (ac_header cmd)) as [[[]|]|]; [|done..].
    destruct H as [H| ->]; done.
  - done.
Qed.
Example C61_example :
  let cmd := ActorCommand 42 (sample_enc (Some tt)) (enc_ops sample_codec [upd "a" 10 4]) in
  dec_header sample_codec (ac_header cmd) = Some (Some tt) /\ dec_ops sample_codec (ac_payload cmd) = Some [upd "a" 10 4].
Proof. split; apply sample_dec_enc. Qed.
