(** Theorems about the atomic counter application (C32-C36). *)
From Verif Require Import Base ActorModel ActorSpec CounterModel CounterSpec CounterProofs.

(** A sample serialisation, to show that the hypothesis on it can be met. *)
#[local] Instance cas_request_eq : EqDecision cas_request. Proof. solve_decision. Defined.
#[local] Instance cas_request_countable : Countable cas_request :=
  inj_countable' (fun r => (cas_expected r, cas_new r)) (fun '(a, b) => CasRequest a b) ltac:(by intros []).
#[local] Instance counter_request_eq : EqDecision counter_request. Proof. solve_decision. Defined.
#[local] Instance counter_request_countable : Countable counter_request :=
  inj_countable' (fun r => (cr_name r, cr_op r, cr_context r, cr_payload r))
    (fun '(a, b, c, d) => CounterRequest a b c d) ltac:(by intros []).
#[local] Instance cas_response_eq : EqDecision cas_response. Proof. solve_decision. Defined.
#[local] Instance cas_response_countable : Countable cas_response :=
  inj_countable' (fun r => (csr_old r, csr_new r)) (fun '(a, b) => CasResponse a b) ltac:(by intros []).
#[local] Instance counter_status_eq : EqDecision counter_status. Proof. solve_decision. Defined.
Definition status_code (s : counter_status) : N :=
  match s with CsUnspecified => 0 | CsSuccess => 1 | CsRejected => 2 | CsInvalidArgument => 3 | CsInvalidOperation => 4 end.
Definition code_status (n : N) : option counter_status :=
  match n with 0 => Some CsUnspecified | 1 => Some CsSuccess | 2 => Some CsRejected
             | 3 => Some CsInvalidArgument | 4 => Some CsInvalidOperation | _ => None end.
#[local] Instance counter_status_countable : Countable counter_status :=
  inj_countable status_code code_status ltac:(by intros []).
#[local] Instance counter_response_eq : EqDecision counter_response. Proof. solve_decision. Defined.
#[local] Instance counter_response_countable : Countable counter_response :=
  inj_countable' (fun r => (crs_status r, crs_op r)) (fun '(a, b) => CounterResponse a b) ltac:(by intros []).
#[local] Instance counter_value_eq : EqDecision counter_value. Proof. solve_decision. Defined.
#[local] Instance counter_value_countable : Countable counter_value :=
  inj_countable' (fun r => (cv_value r, cv_payload r)) (fun '(a, b) => CounterValue a b) ltac:(by intros []).

Definition sample_codec : counter_codec := CounterCodec
  sample_dec sample_enc sample_dec sample_enc sample_enc sample_dec sample_dec.
Example sample_codec_ok : codec_ok sample_codec.
Proof.
  constructor; simpl; intros.
  - apply sample_dec_enc.
  - apply sample_dec_enc.
  - apply (f_equal (sample_dec (A:=counter_response))) in H. rewrite !sample_dec_enc in H. congruence.
Qed.

(** * C32 *)
(** One request: it never fails to apply; it succeeds exactly when the current
    value is the expected one; what each counter holds afterwards; what the
    proposer is told. *)
Theorem C32_compare_and_swap c st cx correlation s :
  codec_ok c ->
  exists st' r,
    counter_apply c st cx (swap_event c correlation s)
      = Ok (st', if ec_owned cx then [response_command c correlation r] else []) /\
    ((current st (sw_name s)).1 = sw_expected s ->
       current st' (sw_name s) = (sw_new s, sw_payload s) /\
       r = CounterResponse CsSuccess (Some (CasResponse (sw_expected s) (sw_new s)))) /\
    ((current st (sw_name s)).1 <> sw_expected s ->
       current st' (sw_name s) = current st (sw_name s) /\
       crs_status r = CsInvalidArgument /\
       exists op, crs_op r = Some op /\ csr_old op = (current st (sw_name s)).1) /\
    (forall n, n <> sw_name s -> st' !! n = st !! n).
Proof.
  intros Hc. exists (swapped st s), (swap_response st s). rewrite (apply_swap c Hc).
  split; [done|]. rewrite current_swapped, response_of. split_and!.
  - intros He. rewrite !decide_True; auto.
  - intros He. rewrite !decide_False by naive_solver. simpl. eauto.
  - intros n Hn. by apply swapped_other.
Qed.
(** A swap of an existing counter, one that fails, and one of a new counter. *)
Example C32_example :
  let st := {[ "a"%string := CounterValue 5 [7] ]} : counters in
  let run s := (fun '(st', out) => (current st' "a", current st' "b", length out)) <$>
               (match counter_apply sample_codec st (EventContext 3 true) (swap_event sample_codec 9 s) with
                | Ok x => Some x | _ => None end) in
  run (Swap "a" 5 6 [8]) = Some ((6%Z, [8]), (0%Z, []), 1%nat) /\
  run (Swap "a" 4 6 [8]) = Some ((5%Z, [7]), (0%Z, []), 1%nat) /\
  run (Swap "b" 0 6 [8]) = Some ((5%Z, [7]), (6%Z, [8]), 1%nat).
Proof. vm_compute. done. Qed.

(** A counter starts with the value the configuration gives it, or 0, and no
    payload. *)
Theorem C32_initial_values c cx values :
  dec_config c (cx_config cx) = Some values ->
  exists st, counter_init c cx = Ok st /\
    forall name, current st name = (default 0%Z (values !! name), []).
Proof.
  intros Hd. unfold counter_init. rewrite Hd. eexists. split; [done|].
  intros name. unfold current. rewrite lookup_fmap. by destruct (values !! name).
Qed.
Example C32_initial_example :
  exists st, counter_init sample_codec (ActorCtx 1 0 (sample_enc ({[ "a"%string := 7%Z ]} : gmap string Z)) false) = Ok st /\
    current st "a" = (7%Z, []) /\ current st "b" = (0%Z, []).
Proof. vm_compute. eauto. Qed.

(** * C33 *)
(** A replica that applies any log of requests ends with the registers the
    sequential specification gives, and answers the requests it owns with the
    answers of the sequential specification, in order, each once. *)
Theorem C33_log_order c st l :
  codec_ok c ->
  exists st' outs,
    apply_all (counter_actor c) st (to_log c l) = Ok (st', outs) /\
    let '(m, answers) := spec_run (current st) (map le_swap l) in
    (forall n, current st' n = m n) /\
    length answers = length l /\ length outs = length l /\
    forall i e out a, l !! i = Some e -> outs !! i = Some out -> answers !! i = Some a ->
      exists r, reads_as r (le_swap e) a /\
                out = if le_owned e then [response_command c (le_correlation e) r] else [].
Proof.
  intros Hc. exists (states st (map le_swap l)), (responses c st l).
  rewrite (apply_all_log c Hc). split; [done|].
  destruct (run_refines c l st) as (H1&H2&H3&H4).
  destruct (spec_run (current st) (map le_swap l)) as [m answers]. simpl in *.
  split_and!; [done..|].
  intros i e out a Hl Ho Ha.
  assert (Hz : zip (responses c st l) answers !! i = Some (out, a))
    by (apply lookup_zip_with_Some; eauto).
  apply (Forall2_lookup_lr _ _ _ _ _ _ H2 Hl Hz).
Qed.

(** Which replica proposed what, and at which index, has no influence on the
    counters. *)
Theorem C33_replicas_agree c st l1 l2 :
  codec_ok c -> map le_swap l1 = map le_swap l2 ->
  exists st' outs1 outs2,
    apply_all (counter_actor c) st (to_log c l1) = Ok (st', outs1) /\
    apply_all (counter_actor c) st (to_log c l2) = Ok (st', outs2).
Proof.
  intros Hc H. rewrite !(apply_all_log c Hc), H. eauto.
Qed.

(** Two requests that expect the same value can both succeed only if a third
    one between them put that value back. *)
Theorem C33_one_winner c st l st' outs i j e1 e2 out1 out2 :
  codec_ok c ->
  apply_all (counter_actor c) st (to_log c l) = Ok (st', outs) ->
  (i < j)%nat -> l !! i = Some e1 -> l !! j = Some e2 ->
  sw_name (le_swap e1) = sw_name (le_swap e2) ->
  sw_expected (le_swap e1) = sw_expected (le_swap e2) ->
  sw_new (le_swap e1) <> sw_expected (le_swap e1) ->
  le_owned e1 = true -> le_owned e2 = true ->
  outs !! i = Some out1 -> outs !! j = Some out2 ->
  (exists op, out1 = [response_command c (le_correlation e1) (CounterResponse CsSuccess op)]) ->
  (exists op, out2 = [response_command c (le_correlation e2) (CounterResponse CsSuccess op)]) ->
  exists k e, (i < k < j)%nat /\ l !! k = Some e /\
    sw_name (le_swap e) = sw_name (le_swap e1) /\ sw_new (le_swap e) = sw_expected (le_swap e1).
Proof.
  intros Hc Hrun Hij H1 H2 Hn He Hne Ho1 Ho2 Hx1 Hx2 [op1 ->] [op2 ->].
  rewrite (apply_all_log c Hc) in Hrun. injection Hrun as <- <-.
  destruct (run_refines c l st) as (_&HF&Hl1&Hl2).
  destruct (spec_run (current st) (map le_swap l)) as [m answers] eqn:E. simpl in *.
  assert (Ha : forall (x : nat) e out op, l !! x = Some e -> le_owned e = true ->
     responses c st l !! x = Some out ->
     out = [response_command c (le_correlation e) (CounterResponse CsSuccess op)] ->
     exists o, answers !! x = Some (Answer true o)).
  { intros x e out op Hl Ho Hr ->.
    destruct (lookup_lt_is_Some_2 answers x) as [a Hla].
    { rewrite Hl1. by eapply lookup_lt_Some. }
    assert (Hz : zip (responses c st l) answers !! x = Some ([response_command c (le_correlation e) (CounterResponse CsSuccess op)], a))
      by (apply lookup_zip_with_Some; eauto).
    destruct (Forall2_lookup_lr _ _ _ _ _ _ HF Hl Hz) as (r&Hra&Hout).
    rewrite Ho in Hout. injection Hout as Hout. apply (response_injective _ Hc) in Hout. subst r.
    unfold reads_as in Hra. destruct a as [[] o]; simpl in *; [eauto|]. by destruct Hra. }
  destruct (Ha _ _ _ _ H1 Ho1 Hx1 eq_refl) as [o1 A1].
  destruct (Ha _ _ _ _ H2 Ho2 Hx2 eq_refl) as [o2 A2].
  destruct (two_winners (map le_swap l) (current st) i j (le_swap e1) (le_swap e2) o1 o2)
    as (k&s&o&Hk&Hs&Hs1&Hs2&_); [done|..|done|done|done| | |].
  { by rewrite list_lookup_fmap, H1. }
  { by rewrite list_lookup_fmap, H2. }
  { by rewrite E. } { by rewrite E. }
  apply list_lookup_fmap_Some in Hs as (e&Hle&->). eauto 10.
Qed.
(** Three swaps 0 -> 1, 1 -> 0, 0 -> 2: both requests that expect 0 succeed. *)
Example C33_example :
  let l := [LogEntry (Swap "a" 0 1 []) 1 true 1; LogEntry (Swap "a" 1 0 []) 2 false 2;
            LogEntry (Swap "a" 0 2 []) 3 true 3; LogEntry (Swap "a" 0 3 []) 4 true 4] in
  (spec_run (current ∅) (map le_swap l)).2
    = [Answer true 0; Answer true 1; Answer true 0; Answer false 2] /\
  match apply_all (counter_actor sample_codec) ∅ (to_log sample_codec l) with
  | Ok (st, outs) => current st "a" = (2%Z, []) /\
      outs !! 0%nat = Some [response_command sample_codec 1 (CounterResponse CsSuccess (Some (CasResponse 0 1)))] /\
      outs !! 2%nat = Some [response_command sample_codec 3 (CounterResponse CsSuccess (Some (CasResponse 0 2)))] /\
      map length outs = [1; 0; 1; 1]%nat
  | _ => False
  end.
Proof. vm_compute. done. Qed.

(** * C34 *)
(** The documented answer to a failed request is not what is sent: the counter
    holds 5, and the answer says that the new value is 0. *)
Theorem C34_failed_swap_reports_old_value_refuted :
  exists c st cx correlation s st' r,
    codec_ok c /\
    counter_apply c st cx (swap_event c correlation s) = Ok (st', [response_command c correlation r]) /\
    crs_status r = CsInvalidArgument /\
    exists op, crs_op r = Some op /\ csr_new op <> csr_old op.
Proof.
  exists sample_codec, {[ "a"%string := CounterValue 5 [] ]}, (EventContext 1 true), 1, (Swap "a" 4 6 []).
  eexists _, (CounterResponse CsInvalidArgument (Some (CasResponse 5 0))).
  split; [exact sample_codec_ok|]. split.
  { rewrite (apply_swap sample_codec sample_codec_ok). simpl. reflexivity. }
  split; [done|]. exists (CasResponse 5 0). done.
Qed.
(** What holds: the reported new value of a failed request is 0, so the
    documented statement holds exactly for counters whose value is 0. *)
Theorem C34_failed_swap_reports_zero_partial c st cx correlation s :
  codec_ok c -> ec_owned cx = true -> (current st (sw_name s)).1 <> sw_expected s ->
  exists st' op,
    counter_apply c st cx (swap_event c correlation s)
      = Ok (st', [response_command c correlation (CounterResponse CsInvalidArgument (Some op))]) /\
    csr_old op = (current st' (sw_name s)).1 /\ csr_new op = 0%Z /\
    (csr_new op = csr_old op <-> (current st' (sw_name s)).1 = 0%Z).
Proof.
  intros Hc Ho He. rewrite (apply_swap c Hc), Ho, response_of, decide_False by done.
  eexists _, _. split; [reflexivity|]. simpl.
  rewrite current_swapped. rewrite decide_False by naive_solver. naive_solver.
Qed.
Example C34_hypotheses_met :
  let st := {[ "a"%string := CounterValue 5 [] ]} : counters in
  (current st "a").1 <> sw_expected (Swap "a" 4 6 []).
Proof. vm_compute. done. Qed.

(** * C35 *)
(** Whatever state the loading replica was in is not true: a counter it has and
    the snapshot has not stays. *)
Theorem C35_snapshot_restores_state_refuted :
  exists c st old snapshot st',
    codec_ok c /\ counter_save c st = Ok snapshot /\ counter_load c old snapshot = Ok st' /\
    exists name, current st' name <> current st name.
Proof.
  exists sample_codec, ∅, {[ "a"%string := CounterValue 5 [] ]}. eexists _, _.
  split; [exact sample_codec_ok|]. split; [reflexivity|].
  unfold counter_load. rewrite (snapshot_round_trip _ sample_codec_ok). split; [reflexivity|].
  exists "a"%string. vm_compute. done.
Qed.
(** It is true for every loading replica whose counters all occur in the
    snapshot. *)
Theorem C35_snapshot_restores_state_partial c st old snapshot :
  codec_ok c -> counter_save c st = Ok snapshot ->
  (forall name, is_Some (old !! name) -> is_Some (st !! name)) ->
  counter_load c old snapshot = Ok st.
Proof.
  intros Hc Hs Hsub. injection Hs as <-. unfold counter_load. rewrite (snapshot_round_trip _ Hc).
  f_equal. apply (union_covers c Hc). intros n. rewrite !elem_of_dom. auto.
Qed.
(** In particular for a replica that started from the same configuration and
    applied a prefix of the log the snapshot covers, which is the only case in
    which consensus installs a snapshot. *)
Theorem C35_snapshot_restores_lagging_replica c st0 prefix rest mine theirs lagging o1 ahead o2 snapshot :
  codec_ok c ->
  map le_swap mine = prefix -> map le_swap theirs = prefix ++ rest ->
  apply_all (counter_actor c) st0 (to_log c mine) = Ok (lagging, o1) ->
  apply_all (counter_actor c) st0 (to_log c theirs) = Ok (ahead, o2) ->
  counter_save c ahead = Ok snapshot ->
  counter_load c lagging snapshot = Ok ahead.
Proof.
  intros Hc Hm Ht H1 H2 Hs. rewrite (apply_all_log c Hc) in H1, H2.
  injection H1 as <- _. injection H2 as <- _.
  eapply C35_snapshot_restores_state_partial; [done..|].
  intros n. rewrite <- !elem_of_dom. rewrite Hm, Ht, states_app. by apply (states_dom c Hc).
Qed.
Example C35_example :
  let mine := [LogEntry (Swap "a" 0 1 [3]) 1 true 1] in
  let theirs := [LogEntry (Swap "a" 0 1 [3]) 1 false 1; LogEntry (Swap "a" 1 2 [4]) 5 true 2; LogEntry (Swap "b" 7 2 [4]) 5 true 2] in
  match apply_all (counter_actor sample_codec) ∅ (to_log sample_codec mine),
        apply_all (counter_actor sample_codec) ∅ (to_log sample_codec theirs) with
  | Ok (lagging, _), Ok (ahead, _) =>
      current lagging "a" = (1%Z, [3]) /\ current ahead "a" = (2%Z, [4]) /\
      (match counter_save sample_codec ahead with
       | Ok s => match counter_load sample_codec lagging s with
                 | Ok st => Some (current st "a", current st "b") | _ => None end
       | _ => None end) = Some ((2%Z, [4]), (0%Z, []))
  | _, _ => False
  end.
Proof. vm_compute. done. Qed.
(** A snapshot that cannot be read is refused. *)
Theorem C35_unreadable_snapshot_is_refused c st b :
  dec_snapshot c b = None -> counter_load c st b = Err ASnapshotLoading.
Proof. unfold counter_load. by intros ->. Qed.
Example C35_unreadable_example : dec_snapshot sample_codec [] = None.
Proof. reflexivity. Qed.

(** * C36 *)
(** A request that reaches a replica that is not leader is answered with a
    rejection, and nothing is proposed. *)
Theorem C36_followers_reject c cx st cmd request :
  dec_in c (ac_header cmd) = Some (Some request) -> cx_leader cx = false ->
  counter_command c cx st (Some cmd)
  = Ok (st, CommandOutcome
              [response_command c (ac_correlation cmd) (CounterResponse CsRejected None)] None).
Proof. intros Hd Hl. unfold counter_command. by rewrite Hd, Hl. Qed.
(** On the leader a request with an operation is proposed once, with the same
    correlation id and everything but its context. *)
Theorem C36_leader_proposes c cx st cmd request cas :
  codec_ok c ->
  dec_in c (ac_header cmd) = Some (Some request) -> cx_leader cx = true -> cr_op request = Some cas ->
  exists ev, counter_command c cx st (Some cmd) = Ok (st, CommandOutcome [] (Some ev)) /\
    ev = swap_event c (ac_correlation cmd)
           (Swap (cr_name request) (cas_expected cas) (cas_new cas) (cr_payload request)).
Proof.
  intros Hc Hd Hl Ho. unfold counter_command. rewrite Hd, Hl, Ho. simpl. eexists. split; [done|].
  unfold swap_event. simpl. by destruct cas.
Qed.
(** Anything else is answered as an invalid operation, whoever leads. *)
Theorem C36_malformed_commands_are_refused c cx st cmd :
  (dec_in c (ac_header cmd) = None \/ dec_in c (ac_header cmd) = Some None \/
   exists request, dec_in c (ac_header cmd) = Some (Some request) /\ cr_op request = None /\ cx_leader cx = true) ->
  counter_command c cx st (Some cmd)
  = Ok (st, CommandOutcome
              [response_command c (ac_correlation cmd) (CounterResponse CsInvalidOperation None)] None).
Proof.
  unfold counter_command. intros [->|[->|(request&->&->&->)]]; done.
Qed.
(** Processing never fails, never changes the counters, and every command gets
    exactly one of: one answer now, or one proposal. What is proposed always
    applies later, on every replica and in every state. *)
Theorem C36_every_command_is_taken_care_of c cx st cmd :
  codec_ok c ->
  exists out, counter_command c cx st cmd = Ok (st, out) /\
    match cmd with
    | None => out = CommandOutcome [] None
    | Some cmd =>
        (exists r, out = CommandOutcome [response_command c (ac_correlation cmd) r] None) \/
        (exists ev, out = CommandOutcome [] (Some ev) /\ ae_correlation ev = ac_correlation cmd /\
           cx_leader cx = true /\
           forall st1 cx1, exists st2 r, counter_apply c st1 cx1 ev
             = Ok (st2, if ec_owned cx1 then [response_command c (ac_correlation cmd) r] else []))
    end.
Proof.
  intros Hc. unfold counter_command. destruct cmd as [cmd|]; [|eauto].
  destruct (dec_in c (ac_header cmd)) as [[request|]|] eqn:E.
  - destruct (cx_leader cx) eqn:El; simpl.
    + destruct (cr_op request) as [cas|] eqn:Eo; simpl; [|eexists; split; [done|left; eexists; reflexivity]].
      eexists; split; [done|]. right. eexists; split_and!; [done..|]. intros st1 cx1.
      unfold counter_apply; simpl. rewrite (request_round_trip _ Hc); simpl.
      destruct (apply_compare_and_swap _ _ _ _) as [st2 r]. exists st2, r. by destruct (ec_owned cx1).
    + eexists; split; [done|left; eexists; reflexivity].
  - eexists; split; [done|left; eexists; reflexivity].
  - eexists; split; [done|left; eexists; reflexivity].
Qed.
Example C36_example :
  let request := CounterRequest "a" (Some (CasRequest 0 1)) [1;2] [3] in
  let cmd := ActorCommand 42 (sample_enc (Some request)) [] in
  dec_in sample_codec (ac_header cmd) = Some (Some request) /\
  match counter_command sample_codec (ActorCtx 1 0 [] true) ∅ (Some cmd) with
  | Ok (_, out) => match co_event out with
                   | Some ev => ae_correlation ev = 42 /\
                       dec_request sample_codec (ae_contents ev)
                       = Some (CounterRequest "a" (Some (CasRequest 0 1)) [] [3])
                   | None => False end
  | _ => False end.
Proof. vm_compute. done. Qed.
