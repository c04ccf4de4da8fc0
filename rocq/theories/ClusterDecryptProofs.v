(** Proofs about the decryptor in a cluster. *)
From Verif Require Import Base StorageModel SnapshotModel CommModel ActorModel DriverModel DriverSpec DriverProofs DriverTheorems
  ClusterSpec ClusterProofs ClusterTheorems ClusterOrderSpec ClusterOrderProofs WillowModel WillowSpec WillowProofs ClusterDecryptSpec.

(** ** The state a command is processed in *)
Section Call.
Context {RS SP CS ST REQ RESP : Type}.
Variable codec : driver_codec.
Variable rops : raft_ops RS.
Variable sops : snap_ops SP.
Variable cops : comm_ops CS REQ RESP.
Variable app : actor ST.
Implicit Types (d : rdriver RS SP CS ST REQ RESP).

Lemma command_state d t m d' out : inv rops d ->
  receive codec rops sops cops app d (t, Some (Some (HApp m))) = Ok (d', out) -> d_ephemeral d = false ->
  exists tr, app_calls d' = app_calls d ++ tr /\ forall cx m' co, ACommand cx m' co ∈ tr ->
    exists st t0 st2, d_actor d = Some (st, t0) /\ a_command app cx st m' = Ok (st2, co).
Proof using.
  intros I Hr He. apply receive_parts in Hr as (d1&d2&d3&c&ws&H1&H2&H3&_&->&_); [|done].
  cbn [dispatch] in H1. injection H1 as <-. cbn [app_message] in H2.
  set (dp := preset (rec_raft rops) d t) in *.
  assert (Ep : app_calls dp = app_calls d /\ d_actor dp = d_actor d /\ d_ephemeral dp = false /\ d_stashed dp = []).
  { split_and!; try done. apply I. }
  destruct Ep as (Ep1&Ep2&Ep3&Ep4).
  pose proof H2 as H2'. destruct (run_app_ext codec rops cops app dp (Some m) d2 H2) as (Ss&_&_&_&_&Es&_&_&mt&tr&ps&X&_&Htr).
  assert (Ee2 : d_ephemeral d2 = false) by (by rewrite (same_ephemeral _ _ Ss)). assert (Es2 : d_stashed d2 = []) by (by rewrite Es).
  destruct (run_replication_ext codec rops sops cops app d2 d3 H3 Ee2 Es2) as (_&_&_&rt1&tk&body&rt3&mt3&tr3&ms&X3&_&_&_&_&_&Hlog&_).
  exists (tr ++ tr3). split.
  { change (app_calls (set_messages _ _)) with (app_calls d3). rewrite (ext_app _ _ _ _ _ _ _ _ X3), (ext_app _ _ _ _ _ _ _ _ X), Ep1. by rewrite (assoc_L List.app). }
  intros cx m' co Hin. apply elem_of_app in Hin as [Hin|Hin].
  2:{ unfold log_only in Hlog. rewrite Forall_forall in Hlog. by apply Hlog in Hin. }
  rewrite Ep3 in Htr. destruct (decide (d_phase dp = Started)) as [Hs|_]; [|destruct Htr as (->&_); by apply elem_of_nil in Hin].
  destruct Htr as (_&_&co'&->&_). apply elem_of_list_singleton in Hin as [= -> -> ->].
  unfold run_app, process_app, check_phase in H2'. destruct (decide (d_phase dp = Started)) as [_|]; [|done].
  apply bind_ok in H2' as (dq&H2'&Hdq). simpl in H2'. apply bind_ok in H2' as ([st t0]&Ha&H2'). apply unwrap_ok in Ha.
  apply bind_ok in H2' as ([s1 o1]&Hc&H2'). apply or_fail_ok in Hc. simpl in Hc. apply bind_ok in Hc as ([s2 o2]&Hc&Hx). injection Hx as <- <-.
  exists st, t0, s2. split; [congruence|].
  assert (Eo : app_calls d2 = app_calls dp ++ [ACommand (context dp) (Some m) o2]).
  { injection Hdq as <-. change (app_calls (set_comm dq _)) with (app_calls dq).
    destruct (co_event o2); [simpl in H2'; rewrite He in H2'|];
      injection H2' as <-; unfold app_calls; simpl; by rewrite Ha. }
  rewrite (ext_app _ _ _ _ _ _ _ _ X) in Eo. apply app_inv_head in Eo. injection Eo as ->. done.
Qed.
End Call.

(** ** Where what a member proposes and answers comes from *)
Section Generic.
Context {RS SP CS ST REQ RESP : Type}.
Variable codec : driver_codec.
Variable rops : raft_ops RS.
Variable sops : snap_ops SP.
Variable cops : comm_ops CS REQ RESP.
Variable apps : nat -> actor ST.
Variable begin : nat -> RS * SP * CS.
Notation events := (list (nat * delivery REQ RESP)).
Notation rlog := (N -> rentry).
Notation mem := (member codec rops sops cops apps begin).
Notation sat := (state_at codec apps).
Implicit Types (d : rdriver RS SP CS ST REQ RESP) (H : events) (log : rlog).
Variable good : ST -> Prop.
Variable older : ST -> ST -> Prop.
Hypothesis RP : replicated apps good older.
Hypothesis quiet : forall k cx st st2 out, a_command (apps k) cx st None = Ok (st2, out) -> out = outcome_none.
Variable log : rlog.
Variable H : events.
Hypothesis AG : agrees codec rops sops cops apps begin log H.
Hypothesis CF : one_configuration H.
Notation isfirst := (first_state codec rops sops cops apps begin H).
Notation reach := (reached codec rops sops cops apps begin).

Lemma started_before k H1 x q m : started_with k (H1 ++ [(k, x)]) q -> x.2 = Some (Some (HApp m)) -> started_with k H1 q.
Proof using.
  intros [[t D] He] Hx. split; [|done]. exists t. rewrite calls_of_app, calls_of_one in D.
  apply elem_of_app in D as [D|D]; [done|]. apply elem_of_list_singleton in D. subst x. done.
Qed.
Lemma made_command k H1 x d d' out rt mt tr q cx m co : mem k H1 d -> mem k (H1 ++ [(k, x)]) d' -> started_with k (H1 ++ [(k, x)]) q ->
  receive codec rops sops cops (apps k) d x = Ok (d', out) -> call codec rops (apps k) d x d' out rt mt tr ->
  ACommand cx m co ∈ tr ->
  co = outcome_none \/ exists m' st t st2, m = Some m' /\ x.2 = Some (Some (HApp m')) /\ started_with k H1 q /\ d_actor d = Some (st, t) /\
    a_command (apps k) cx st (Some m') = Ok (st2, co).
Proof using quiet.
  intros M M' Sq Hr C Ha. pose proof M as (o&B). pose proof M' as (o'&B').
  destruct (recorded_now _ _ _ _ _ _ _ _ _ _ M' Sq) as (st&_&Hrec).
  destruct (recorded_command apps k st (app_calls d') cx m co Hrec) as (st1&st2&Hcmd).
  { rewrite (call_app _ _ _ _ _ _ _ _ _ _ C). apply elem_of_app. by right. }
  destruct m as [m|]; [|left; by eapply quiet]. right.
  assert (Hm : Some m ∈ omap command_of tr) by (apply elem_of_list_omap; by exists (ACommand cx (Some m) co)).
  rewrite (call_commands _ _ _ _ _ _ _ _ _ _ C) in Hm. destruct (decide _) as [_|_]; [|by apply elem_of_nil in Hm].
  assert (Hx : x.2 = Some (Some (HApp m))).
  { destruct x as [t [[y|]|]]; simpl in Hm; [|by apply elem_of_nil in Hm|by apply elem_of_list_singleton in Hm].
    destruct y; apply elem_of_list_singleton in Hm; try done. by injection Hm as ->. }
  pose proof (started_before _ _ _ _ _ Sq Hx) as S0.
  destruct (life_request _ _ (born_life _ _ _ _ _ _ _ _ _ _ _ B) _ (proj1 S0)) as (_&Eep&_). rewrite (proj2 S0) in Eep.
  destruct x as [t y]. simpl in Hx. subst y.
  destruct (command_state codec rops sops cops (apps k) d t m d' out (born_inv _ _ _ _ _ _ _ _ _ _ _ B) Hr Eep) as (tr'&Et&Htr).
  rewrite (call_app _ _ _ _ _ _ _ _ _ _ C) in Et. apply app_inv_head in Et as <-.
  destruct (Htr _ _ _ Ha) as (st0&t0&st3&Hd&Hc). by exists m, st0, t0, st3.
Qed.

Lemma proposed_in k H1 x H2 d d' calls p : H = H1 ++ (k, x) :: H2 -> mem k H1 d -> mem k (H1 ++ [(k, x)]) d' ->
  raft_calls d' = raft_calls d ++ calls -> KPropose p ∈ calls ->
  exists q m cx co ev st t st2, started_with k H1 q /\ x.2 = Some (Some (HApp m)) /\ d_actor d = Some (st, t) /\
    a_command (apps k) cx st (Some m) = Ok (st2, co) /\ co_event co = Some ev /\
    p = enc_entry codec (Entry (Some (EntryId (ae_correlation ev) (sr_id q))) (ae_contents ev)).
Proof using quiet.
  intros E M M' Ec Hp. pose proof M as (o&B). pose proof M' as (o'&B').
  destruct (proposed_by codec rops sops cops apps begin H k H1 x H2 d d' calls _ E M M' Ec Hp) as (q&_&_&_&_&_&_&Sq&_).
  pose proof B' as B2. rewrite calls_of_app, calls_of_one in B2. apply born_snoc in B2 as (d1&o1&out0&B1&Hr&->).
  assert (d1 = d) as -> by (destruct B, B1; congruence).
  destruct (receive_call _ _ _ _ _ _ _ _ _ (born_inv _ _ _ _ _ _ _ _ _ _ _ B) Hr) as (rt&mt&tr&C).
  assert (calls = rt) as ->. { pose proof (call_raft _ _ _ _ _ _ _ _ _ _ C) as E2. rewrite Ec in E2. by apply app_inv_head in E2. }
  destruct (life_request _ _ (born_life _ _ _ _ _ _ _ _ _ _ _ B') _ (proj1 Sq)) as (Eid&Eep&_). rewrite (proj2 Sq) in Eep.
  assert (Hp' : p ∈ omap proposal_of rt) by (apply elem_of_list_omap; by eexists).
  rewrite (call_proposals _ _ _ _ _ _ _ _ _ _ C Eep), Eid in Hp'. apply elem_of_list_omap in Hp' as (a&Ha&Hpa).
  destruct a as [| |cx m out|]; try done. simpl in Hpa. destruct (co_event out) as [ev|] eqn:Ev; [|done]. injection Hpa as <-.
  destruct (made_command _ _ _ _ _ _ _ _ _ _ _ _ _ M M' Sq Hr C Ha) as [->|(m'&st&t&st2&->&Hx&S0&Hd&Hc)]; [done|].
  by exists q, m', cx, out, ev, st, t, st2.
Qed.

Lemma answered_from k H1 x H2 q d d' out y : H = H1 ++ (k, x) :: H2 -> mem k H1 d -> started_with k H q ->
  receive codec rops sops cops (apps k) d x = Ok (d', out) -> OApp y ∈ out ->
  (exists q' m cx co st t st2, sr_id q' = sr_id q /\ x.2 = Some (Some (HApp m)) /\ started_with k H1 q' /\ d_actor d = Some (st, t) /\
    a_command (apps k) cx st (Some m) = Ok (st2, co) /\ y ∈ co_commands co) \/
  (exists j cx ev o first st1 st2, reach k (H1 ++ [(k, x)]) j /\ ec_index cx <= j /\ 2 <= ec_index cx /\
    event_of_entry codec (sr_id q) (log (ec_index cx)) = Some (cx, ev) /\ isfirst first /\ sat log first (ec_index cx - 1) st1 /\
    a_apply (apps k) st1 cx ev = Ok (st2, o) /\ y ∈ o).
Proof using AG CF RP quiet.
  intros E M Sq Hr Hout. pose proof M as (o&B).
  destruct (receive_call _ _ _ _ _ _ _ _ _ (born_inv _ _ _ _ _ _ _ _ _ _ _ B) Hr) as (rt&mt&tr&C).
  assert (M' : mem k (H1 ++ [(k, x)]) d').
  { exists (o ++ [out]). rewrite calls_of_app, calls_of_one. by eapply born_next. }
  assert (Hin : y ∈ omap app_out out) by (apply elem_of_list_omap; by eexists).
  rewrite (call_outputs _ _ _ _ _ _ _ _ _ _ C) in Hin. apply elem_of_list_In, in_concat in Hin as (l&Hl&Hin).
  apply in_map_iff in Hl as (a&<-&Ha). apply elem_of_list_In in Ha, Hin.
  assert (E' : H = (H1 ++ [(k, x)]) ++ H2) by (by rewrite <- (assoc_L app)).
  assert (exists q', started_with k (H1 ++ [(k, x)]) q' /\ sr_id q' = sr_id q) as (q'&Sq'&Eid').
  { destruct (ag_runs _ _ _ _ _ _ _ _ AG k) as [dH (oH&BH)]. pose proof (born_life _ _ _ _ _ _ _ _ _ _ _ BH) as LH.
    destruct (life_request _ _ LH _ (proj1 Sq)) as (I1&E1&_). pose proof M' as (o2&B').
    pose proof (born_life _ _ _ _ _ _ _ _ _ _ _ B') as L.
    destruct (delivered_start (calls_of k (H1 ++ [(k, x)]))) as [[q' Hq]|Hno].
    - assert (Hq2 : delivered (HStart q') (calls_of k H)).
      { destruct Hq as [t Hq]. exists t. rewrite E', calls_of_app. apply elem_of_app. by left. }
      destruct (life_request _ _ LH _ Hq2) as (I2&E2&_). exists q'. split; [split; [done|]|congruence]. rewrite <- E2, E1. apply Sq.
    - exfalso. pose proof (life_none _ _ L Hno) as Hn. pose proof (call_app _ _ _ _ _ _ _ _ _ _ C) as Ec.
      unfold app_calls at 1 in Ec. rewrite Hn in Ec. symmetry in Ec. apply app_nil in Ec as [_ ->]. by apply elem_of_nil in Ha. }
  destruct a as [| |cx m co|cx ev o']; simpl in Hin; try (by apply elem_of_nil in Hin).
  - left. destruct (made_command _ _ _ _ _ _ _ _ _ _ _ _ _ M M' Sq' Hr C Ha) as [->|(m'&st&t&st2&->&Hx&S0&Hd&Hc)]; [by apply elem_of_nil in Hin|].
    by exists q', m', cx, co, st, t, st2.
  - right. assert (Ha' : AApply cx ev o' ∈ app_calls d') by (rewrite (call_app _ _ _ _ _ _ _ _ _ _ C); apply elem_of_app; by right).
    apply elem_of_list_split in Ha' as (t1&t2&Et).
    destruct (event_found codec rops sops cops apps begin good older RP log H AG CF k _ H2 d' q' t1 cx ev o' t2 E' M' Sq' Et)
      as (K1&K2&K3&f&s1&s2&Hf&Hs&Hap).
    exists (position (start_index q') (handed (raft_calls d'))), cx, ev, o', f, s1, s2. rewrite <- Eid'. split_and!; try done. by exists d', q'.
Qed.

(** The state of a member: that of the log, or the one it was started with. *)
Lemma nothing_handed os l id : hands_over codec id os l -> forall pos, of_log log pos os -> position pos os = 0 -> l = [].
Proof using AG.
  pose proof (ag_index _ _ _ _ _ _ _ _ AG) as Hi.
  induction 1 as [|s os l Ho IH|es sorted os l Hp Hs Ho IH]; intros pos Hl E; [done| |]; cbn [position] in E.
  - destruct Hl as (_&H1&Hl). pose proof (position_ge log os Hi _ Hl). lia.
  - destruct Hl as (Hne&Hperm&Hl). rewrite (max_perm _ _ _ Hperm), max_next in E by done.
    pose proof (position_ge log os Hi _ Hl). assert (pos = 0) as -> by lia. destruct Hne as [->|]; [|lia].
    apply Permutation_nil_r in Hp as ->. simpl. by eapply IH.
Qed.
Lemma member_state k H1 H2 d q st t : H = H1 ++ H2 -> mem k H1 d -> started_with k H1 q -> d_actor d = Some (st, t) ->
  exists j, reach k H1 j /\ (j = 0 /\ (exists cx, a_init (apps k) cx = Ok st) \/ exists first, isfirst first /\ sat log first j st).
Proof using AG CF RP.
  intros E M Sq Ha. destruct (recorded_now _ _ _ _ _ _ _ _ _ _ M Sq) as (st'&Ha'&Hc). rewrite Ha in Ha'. injection Ha' as <- _.
  exists (position (start_index q) (handed (raft_calls d))). split; [by exists d, q|].
  destruct (all_placed _ _ _ _ _ _ _ _ RP _ _ AG CF (length H1) H1 H2 k d q st) as [[Hz _]|Hp]; try done; [|by right].
  left. split; [done|]. destruct (recorded_lran _ _ _ RP _ _ _ Hc) as (cx&st0&Hh&Hi&Hl). pose proof M as (o&B).
  rewrite (nothing_handed _ _ _ (C22_events_of_the_log _ _ _ _ _ _ _ _ _ _ _ _ B (proj1 Sq) (proj2 Sq)) (start_index q)) in Hl; [|by eapply (log_prefix _ _ _ _ _ _ _ _ AG)|done].
  inversion Hl; subst. by exists cx.
Qed.
End Generic.

(** ** The decryptor *)
Section Decryptor.
Context {RS SP CS REQ RESP : Type}.
Variable c : willow_codec.
Variable keygen : bytes -> N -> bytes * bytes.
Variable decrypt : bytes -> bytes -> bytes -> N -> res w_code bytes.
Variable entropy : nat -> actor_context -> key_store -> option actor_command -> N.
Variable codec : driver_codec.
Variable rops : raft_ops RS.
Variable sops : snap_ops SP.
Variable cops : comm_ops CS REQ RESP.
Variable begin : nat -> RS * SP * CS.
Notation apps := (fun k : nat => willow_actor c keygen decrypt (entropy k)).
Notation events := (list (nat * delivery REQ RESP)).
Hypothesis Hc : willow_codec_ok c.
Hypothesis Hi : forall r r', enc_wresponse c r = enc_wresponse c r' -> r = r'.
Hypothesis Hd : driver_codec_ok codec.
Variable log : N -> rentry.
Variable H : events.
Hypothesis AG : agrees codec rops sops cops apps begin log H.
Hypothesis CF : one_configuration H.
Variable origin : N -> nat.
Hypothesis PO : proposals_in_order codec rops sops cops apps begin log H origin.
Notation isfirst := (first_state codec rops sops cops apps begin H).
Notation reach := (reached codec rops sops cops apps begin).
Notation sat := (state_at codec apps log).
Notation asks := (asks c).
Notation answers := (answers c keygen decrypt entropy codec rops sops cops begin).
Notation had_reached := (had_reached c keygen decrypt entropy codec rops sops cops begin).
Notation in_log := (in_log c keygen decrypt entropy codec rops sops cops begin log H).
Notation unused_pair := (unused_pair c keygen decrypt entropy codec rops sops cops begin log H).
Notation committed := (committed_event codec rops sops cops apps begin log H).

Lemma decryptor_quiet (k : nat) cx st st2 out : a_command (apps k) cx st None = Ok (st2, out) -> out = outcome_none.
Proof using. simpl. by intros [= <- <-]. Qed.
Lemma first_empty first : isfirst first -> first = ∅.
Proof using. intros (k&q&d&cx&_&_&_&_&Hin). simpl in Hin. by injection Hin as <-. Qed.

Lemma command_of_event e cx st cmd st' out ev : willow_command c keygen decrypt e cx st (Some cmd) = Ok (st', out) -> co_event out = Some ev ->
  ae_correlation ev = ac_correlation cmd /\ cx_leader cx = true /\ exists w we, dec_wrequest c (ac_header cmd) = Some (Some w) /\ event_of c ev = Some we /\
  match w with
  | WGenerate key => st !! key = None /\ we = GenerateKeyEvent key (keygen key e).1 (keygen key e).2 (highest_order st + 1)
  | WDecrypt key req => exists kp r, st !! key = Some kp /\ decrypt key req (kp_private kp) e = Ok r /\ we = DecryptEvent key r
  end.
Proof using Hc.
  unfold willow_command, event_of.
  destruct (dec_wrequest c (ac_header cmd)) as [w|]; [|done]. destruct (cx_leader cx) eqn:El; simpl; [|by intros [= <- <-]].
  destruct w as [[key|key req]|]; [| |by intros [= <- <-]].
  - unfold generate_command. destruct (st !! key) as [kp|] eqn:E; [by intros [= <- <-]|].
    destruct (keygen key e) as [pub priv] eqn:Ek. intros [= <- <-] [= <-]. simpl. split; [done|]. split; [done|].
    eexists _, _. split; [done|]. rewrite (wevent_round_trip _ Hc). split; [done|]. rewrite Ek. done.
  - unfold decrypt_command. destruct (st !! key) as [kp|] eqn:E; simpl; [|by intros [= <- <-]].
    destruct (decrypt key req (kp_private kp) e) as [r|cc|] eqn:Ed; simpl; [|by intros [= <- <-]|done].
    intros [= <- <-] [= <-]. simpl. split; [done|]. split; [done|]. eexists _, _. split; [done|].
    rewrite (wevent_round_trip _ Hc). split; [done|]. by exists kp, r.
Qed.
Lemma command_answer e cx st cmd st' out n r : willow_command c keygen decrypt e cx st (Some cmd) = Ok (st', out) -> w_answer c n r ∈ co_commands out ->
  n = ac_correlation cmd /\ (exists code, r = WError code) \/
  n = ac_correlation cmd /\ exists key kp, dec_wrequest c (ac_header cmd) = Some (Some (WGenerate key)) /\ st !! key = Some kp /\ r = WGenerated key (kp_public kp).
Proof using Hi.
  assert (K : forall n' r', w_answer c n r ∈ co_commands (outcome_command (respond c n' r')) -> n = n' /\ r = r').
  { intros n' r' K. simpl in K. apply elem_of_list_singleton in K. unfold w_answer, respond, with_header in K. injection K as -> K. by apply Hi in K as ->. }
  unfold willow_command.
  destruct (dec_wrequest c (ac_header cmd)) as [w|]; [|done].
  destruct (cx_leader cx); simpl; [|intros [= <- <-] Hin; apply K in Hin as [-> ->]; left; split; [done|]; by eexists].
  destruct w as [[key|key req]|]; [| |intros [= <- <-] Hin; apply K in Hin as [-> ->]; left; split; [done|]; by eexists].
  - unfold generate_command. destruct (st !! key) as [kp|] eqn:E.
    + intros [= <- <-] Hin. apply K in Hin as [-> ->]. right. split; [done|]. by exists key, kp.
    + destruct (keygen key e) as [pub priv]. intros [= <- <-] Hin. by apply elem_of_nil in Hin.
  - unfold decrypt_command. destruct (st !! key) as [kp|] eqn:E; simpl.
    + destruct (decrypt key req (kp_private kp) e) as [r'|cc|]; simpl; [| |done].
      * intros [= <- <-] Hin. by apply elem_of_nil in Hin.
      * intros [= <- <-] Hin. apply K in Hin as [-> ->]. left. split; [done|]. by eexists.
    + intros [= <- <-] Hin. apply K in Hin as [-> ->]. left. split; [done|]. by eexists.
Qed.
Lemma apply_answer st cx ev st' out n r : willow_apply c st cx ev = Ok (st', out) -> w_answer c n r ∈ out ->
  n = ae_correlation ev /\
  match r with
  | WGenerated key pub => ec_owned cx = true /\ exists priv o, event_of c ev = Some (GenerateKeyEvent key pub priv o)
  | WDecrypted r => ec_owned cx = true /\ exists key, event_of c ev = Some (DecryptEvent key r)
  | WError _ => True
  end.
Proof using Hi.
  assert (K : forall n' r', w_answer c n r ∈ [respond c n' r'] -> n = n' /\ r = r').
  { intros n' r' K. simpl in K. apply elem_of_list_singleton in K. unfold w_answer, respond, with_header in K. injection K as -> K. by apply Hi in K as ->. }
  unfold willow_apply, event_of. destruct (dec_wevent c (ae_contents ev)) as [[[key pub priv o|key r']|]|]; simpl; [| | |done].
  - intros [= <- <-] Hin. destruct (ec_owned cx); [|by apply elem_of_nil in Hin]. apply K in Hin as [-> ->]. split; [done|]. split; [done|]. by eexists _, _.
  - intros [= <- <-] Hin. destruct (ec_owned cx); [|by apply elem_of_nil in Hin]. apply K in Hin as [-> ->]. split; [done|]. split; [done|]. by eexists.
  - intros [= <- <-] Hin. by apply K in Hin as [-> ->].
Qed.
Lemma apply_effect st cx ev st' out : willow_apply c st cx ev = Ok (st', out) -> st' = effect c st ev.
Proof using.
  unfold effect, willow_apply. destruct (dec_wevent c (ae_contents ev)) as [[[]|]|]; simpl; try done; by intros [= <- _].
Qed.

(** A pair that the log's state has was generated, and nothing happened to it since. *)
Lemma stored_since i st key kp : sat ∅ i st -> st !! key = Some kp ->
  exists g ev, 2 <= g <= i /\ logged codec log g = Some ev /\ event_of c ev = Some (GenerateKeyEvent key (kp_public kp) (kp_private kp) (kp_order kp)) /\
  forall i' ev' e', g < i' <= i -> logged codec log i' = Some ev' -> event_of c ev' = Some e' -> about e' <> key.
Proof using.
  intros Hs. revert kp. induction Hs as [|i st Hs IH Hn|i st k owned ev st' out Hs IH Hl Ha]; intros kp Hk.
  - by rewrite lookup_empty in Hk.
  - destruct (IH _ Hk) as (g&ev&Hg&H1&H2&H3). exists g, ev. split; [lia|]. split; [done|]. split; [done|].
    intros i' ev' e' Hi' Hl' He'. destruct (decide (i' = i + 1)) as [->|]; [congruence|]. apply (H3 i' ev' e'); [lia|done..].
  - pose proof (sat_pos _ _ _ _ _ _ Hs) as Hp. simpl in Ha. apply apply_effect in Ha as ->.
    assert (Dg : generates c key ev \/ ~ generates c key ev).
    { unfold generates. destruct (event_of c ev) as [[key' pub priv o|key' r]|]; [|right; by intros (?&?&?&?)..].
      destruct (decide (key' = key)) as [->|Hn]; [left; by eexists _, _, _|right; by intros (?&?&?&[= ?])]. }
    destruct Dg as [(pub&priv&o&Ee)|Hng].
    + exists (i + 1), ev. split; [lia|]. split; [done|]. rewrite effect_spec, Ee in Hk.
      rewrite (proj1 (store_key_spec st key pub priv o)) in Hk. injection Hk as <-. split; [done|]. intros i' ev' e' Hi'. lia.
    + pose proof (effect_keeps _ _ _ _ _ Hng Hk) as Hk'. destruct (IH _ Hk') as (g&ev0&Hg&H1&H2&H3).
      exists g, ev0. split; [lia|]. split; [done|]. split; [done|]. intros i' ev' e' Hi' Hl' He'.
      destruct (decide (i' = i + 1)) as [->|]; [|apply (H3 i' ev' e'); [lia|done..]]. rewrite Hl in Hl'. injection Hl' as <-.
      rewrite effect_spec, He' in Hk. destruct e' as [key' pub priv o|key' r]; simpl; intros ->.
      * apply Hng. by eexists _, _, _.
      * by rewrite lookup_delete in Hk.
Qed.
(** A pair that the log's state no longer has was used or made room for another. *)
Lemma lost_since i st key g ev : sat ∅ i st -> generates c key ev -> logged codec log g = Some ev -> 2 <= g <= i -> st !! key = None ->
  exists i' ev', g < i' <= i /\ logged codec log i' = Some ev' /\
    (decrypts c key ev' \/ exists key' pub priv o st0, key' <> key /\ event_of c ev' = Some (GenerateKeyEvent key' pub priv o) /\
       sat ∅ (i' - 1) st0 /\ size st0 = max_key_pairs /\ is_oldest st0 key).
Proof using.
  intros Hs Hg Hlg Hgi. induction Hs as [|i st Hs IH Hn|i st k owned ev0 st' out Hs IH Hl Ha]; intros Hk.
  - lia.
  - destruct (decide (g = i + 1)) as [->|]; [congruence|]. destruct IH as (i'&ev'&Hi'&H1&H2); [lia|done|].
    exists i', ev'. split; [lia|]. done.
  - simpl in Ha. apply apply_effect in Ha as ->. destruct (decide (g = i + 1)) as [->|Hne].
    { rewrite Hl in Hlg. injection Hlg as ->. destruct Hg as (pub&priv&o&Ee). rewrite effect_spec, Ee in Hk.
      by rewrite (proj1 (store_key_spec st key pub priv o)) in Hk. }
    destruct (st !! key) as [kp|] eqn:Ek.
    2:{ destruct IH as (i'&ev'&Hi'&H1&H2); [lia|done|]. exists i', ev'. split; [lia|]. done. }
    exists (i + 1), ev0. split; [lia|]. split; [done|]. rewrite effect_spec in Hk.
    destruct (event_of c ev0) as [[key' pub priv o|key' r]|] eqn:Ee; [| |congruence].
    + right. destruct (store_key_spec st key' pub priv o) as (Z1&Z2&Z3).
      destruct (decide (key' = key)) as [->|Hkk]; [congruence|].
      destruct (decide (size st = max_key_pairs)) as [Hsz|Hsz]; [|rewrite Z2 in Hk by done; congruence].
      destruct (Z3 Hsz) as (v&Hv&Hv2). rewrite Hv2 in Hk by done. destruct (decide (key = v)) as [->|]; [|congruence].
      exists key', pub, priv, o, st. replace (i + 1 - 1) with i by lia. done.
    + left. destruct (decide (key' = key)) as [->|Hkk]; [by eexists|]. rewrite lookup_delete_ne in Hk by done. congruence.
Qed.

(** An event of the log, and the request it comes from. *)
Lemma source i ev : committed i ev ->
  exists k id w we j st en, asks H (origin i) k id (ae_correlation ev) w /\ event_of c ev = Some we /\ had_reached H (origin i) k j /\ j < i /\
    (j = 0 /\ st = ∅ \/ sat ∅ j st) /\
    match w with
    | WGenerate key => st !! key = None /\ we = GenerateKeyEvent key (keygen key en).1 (keygen key en).2 (highest_order st + 1)
    | WDecrypt key req => exists kp r, st !! key = Some kp /\ decrypt key req (kp_private kp) en = Ok r /\ we = DecryptEvent key r
    end /\
    forall id', event_of_entry codec id' (log i) = Some (EventContext i (id =? id'), ev).
Proof using AG CF Hc Hd PO.
  intros CE. pose proof CE as (Hge&Hl&_).
  destruct (pi_source _ _ _ _ _ _ _ _ _ PO _ _ CE) as (H1&k&x&H2&d&d'&calls&E&El&M&M'&Er&Hp).
  destruct (proposed_in codec rops sops cops apps begin decryptor_quiet H k H1 x H2 d d' calls _ E M M' Er Hp)
    as (q&m&cx&co&pe&st&t&st2&Sq&Hx&Hact&Hcmd&Hev&Ep).
  destruct (member_state codec rops sops cops apps begin _ _ (replicated_willow c keygen decrypt entropy Hc) log H AG CF k H1 ((k, x) :: H2) d q st t E M Sq Hact)
    as (j&Hre&Hst).
  assert (Hevt : forall id', event_of_entry codec id' (log i) = Some (EventContext i (sr_id q =? id'), pe)).
  { intros id'. unfold logged, event_of_entry in *. rewrite Ep in *. rewrite (entry_round_trip _ Hd) in *.
    rewrite (ag_index _ _ _ _ _ _ _ _ AG) in *.
    destruct (enc_entry _ _) as [|b bs] eqn:Ee; [by apply (entry_not_empty _ Hd) in Ee|]. destruct pe. by destruct (re_type (log i)). }
  assert (pe = ev) as ->. { unfold logged in Hl. rewrite (Hevt 0) in Hl. simpl in Hl. by injection Hl as <-. }
  simpl in Hcmd. destruct (command_of_event _ _ _ _ _ _ _ Hcmd Hev) as (En&_&w&we&Hw&Hwe&Hfacts).
  assert (Et : take (origin i) H = H1) by (rewrite E, <- El; apply take_app).
  exists k, (sr_id q), w, we, j, st, (entropy k cx st (Some m)). split_and!; try done.
  - destruct x as [tt x]. simpl in Hx. subst x. exists tt, m, q. split_and!; try done.
    + by rewrite E, <- El, list_lookup_middle.
    + rewrite E. by apply started_prefix.
  - unfold ClusterDecryptSpec.had_reached. by rewrite Et.
  - eapply (pi_order _ _ _ _ _ _ _ _ _ PO i ev H1); [done|exact E|lia|exact Hre].
  - destruct Hst as [[-> [cx0 Hin]]|(first&Hf&Hs)]; [left; split; [done|]; simpl in Hin; by injection Hin as <-|].
    right. by rewrite (first_empty _ Hf) in Hs.
Qed.

(** A pair of a member's state, in terms of the log. *)
Lemma reached_committed a k j i ev : had_reached H a k j -> 2 <= i <= j -> logged codec log i = Some ev -> committed i ev.
Proof using AG.
  intros Hr Hij Hl. split; [lia|]. split; [done|].
  destruct (reached_grows codec rops sops cops apps begin log H AG k (take a H) (drop a H) j) as (j'&Hr'&Hle); [by rewrite take_drop|done|].
  exists k, j'. split; [done|lia].
Qed.
Lemma pair_in_log a k j st key kp : had_reached H a k j -> (j = 0 /\ st = ∅ \/ sat ∅ j st) -> st !! key = Some kp ->
  exists g, unused_pair g j key (kp_public kp) (kp_private kp).
Proof using AG.
  intros Hr Hst Hk. destruct Hst as [[_ ->]|Hs]; [by rewrite lookup_empty in Hk|].
  destruct (stored_since _ _ _ _ Hs Hk) as (g&ev&Hg&Hl&He&Hno). exists g. split; [lia|]. split.
  - exists (kp_order kp), ev. split; [|done]. eapply reached_committed; [exact Hr|lia|done].
  - intros i e Hi' (ev'&(_&Hl'&_)&He'). by eapply Hno.
Qed.
Lemma owned_event id i cx ev : 2 <= i -> event_of_entry codec id (log i) = Some (cx, ev) -> logged codec log i = Some ev.
Proof using.
  intros _ K3. unfold logged. revert K3. unfold event_of_entry. destruct (re_data (log i)); [done|]. destruct (re_type _); [|done|];
    (destruct (dec_entry codec _) as [[[i0|] cs]|]; try done); intros K; injection K as <- <-; done.
Qed.

Theorem decrypted_from b k id n r : answers H b k id n (WDecrypted r) ->
  exists a k' i j j' g key req pub priv en, (a <= b)%nat /\ asks H a k' id n (WDecrypt key req) /\ origin i = a /\
    in_log i (DecryptEvent key r) /\ had_reached H (S b) k j' /\ i <= j' /\
    had_reached H a k' j /\ j < i /\ unused_pair g j key pub priv /\ decrypt key req priv en = Ok r.
Proof using AG CF Hc Hd Hi PO.
  intros (H1&x&H2&q&d&d'&out&E&El&Sq&Eid&M&Hr&Hout).
  destruct (answered_from codec rops sops cops apps begin _ _ (replicated_willow c keygen decrypt entropy Hc) decryptor_quiet log H AG CF
    k H1 x H2 q d d' out _ E M Sq Hr Hout) as [(q'&m&cx&co&st&t&st2&_&_&_&_&Hcmd&Hin)|(j'&cx&ev&o&first&st1&st2&Hre&Hj&H2i&Hev&Hf&Hs&Ha&Hin)].
  { simpl in Hcmd. destruct (command_answer _ _ _ _ _ _ _ _ Hcmd Hin) as [(_&code&Hr')|(_&key&kp&_&_&Hr')]; discriminate Hr'. }
  simpl in Ha. destruct (apply_answer _ _ _ _ _ _ _ Ha Hin) as (->&Hown&key&He).
  assert (Et : take (S b) H = H1 ++ [(k, x)]).
  { rewrite E, <- El. replace (H1 ++ (k, x) :: H2) with ((H1 ++ [(k, x)]) ++ H2) by (by rewrite <- (assoc_L app)).
    replace (S (length H1)) with (length (H1 ++ [(k, x)])) by (rewrite app_length; simpl; lia). apply take_app. }
  assert (Hre' : had_reached H (S b) k j') by (unfold ClusterDecryptSpec.had_reached; by rewrite Et).
  pose proof (owned_event _ _ _ _ H2i Hev) as Hl. set (i := ec_index cx) in *.
  assert (CE : committed i ev) by (eapply reached_committed; [exact Hre'|lia|done]).
  destruct (source i ev CE) as (k'&id0&w&we&j&st&en&Hask&Hwe&Hhad&Hji&Hst&Hfacts&Hall). rewrite He in Hwe. injection Hwe as <-.
  destruct w as [key'|key' req]; [by destruct Hfacts as [_ ?]|]. destruct Hfacts as (kp&r'&Hk&Hdec&[= -> ->]).
  rewrite Hall in Hev. injection Hev as Hcx. assert (id0 = id) as ->. { rewrite <- Hcx in Hown. simpl in Hown. apply N.eqb_eq in Hown. congruence. }
  destruct (pair_in_log _ _ _ _ _ _ Hhad Hst Hk) as (g&Hg).
  exists (origin i), k', i, j, j', g, key', req, (kp_public kp), (kp_private kp), en. split_and!; try done.
  - destruct (decide (origin i <= b)%nat) as [|Hgt]; [done|]. exfalso.
    pose proof (pi_order _ _ _ _ _ _ _ _ _ PO i ev (H1 ++ [(k, x)]) H2 k j' CE) as Ho.
    assert (j' < i); [|lia]. apply Ho; [by rewrite E, <- (assoc_L app)|rewrite app_length; simpl; lia|done].
  - by exists ev.
Qed.

Theorem used_again i1 i2 key r1 r2 k x j : in_log i1 (DecryptEvent key r1) -> in_log i2 (DecryptEvent key r2) ->
  H !! origin i2 = Some (k, x) -> had_reached H (origin i2) k j -> i1 <= j ->
  exists g pub priv o, i1 < g <= j /\ j < i2 /\ in_log g (GenerateKeyEvent key pub priv o).
Proof using AG CF Hc Hd PO.
  intros (ev1&C1&E1) (ev2&C2&E2) Hx Hr Hle.
  destruct (source i2 ev2 C2) as (k'&id&w&we&j0&st&en&Hask&Hwe&Hhad&Hji&Hst&Hfacts&_). rewrite E2 in Hwe. injection Hwe as <-.
  destruct w as [key'|key' req]; [by destruct Hfacts as [_ ?]|]. destruct Hfacts as (kp&r'&Hk&Hdec&[= <- <-]).
  destruct Hask as (t&m&q&Hx'&_). rewrite Hx in Hx'. injection Hx' as <- _.
  assert (j0 = j) as ->.
  { destruct Hhad as (d1&q1&M1&S1&->), Hr as (d2&q2&M2&S2&->). rewrite (member_unique _ _ _ _ _ _ _ _ _ _ M1 M2) in *. f_equal. unfold start_index.
    destruct (started_facts _ _ _ _ _ _ _ _ _ _ M2 S1) as (?&?&?&_&_&_&_&K1).
    destruct (started_facts _ _ _ _ _ _ _ _ _ _ M2 S2) as (?&?&?&_&_&_&_&K2). rewrite K1 in K2. by injection K2 as _ -> _. }
  destruct (pair_in_log _ _ _ _ _ _ Hhad Hst Hk) as (g&Hgj&(o&Hg)&Hno).
  exists g, (kp_public kp), (kp_private kp), o. split; [|done]. split; [|done].
  destruct (decide (g < i1)) as [Hlt|Hge]; [exfalso; eapply (Hno i1); [lia|by exists ev1|done]|].
  destruct (decide (g = i1)) as [->|]; [|lia]. destruct Hg as (ev'&(_&Hl'&_)&E'). destruct C1 as (_&Hl1&_). congruence.
Qed.

Theorem replaced i1 i2 key pub1 priv1 o1 pub2 priv2 o2 k x j :
  in_log i1 (GenerateKeyEvent key pub1 priv1 o1) -> in_log i2 (GenerateKeyEvent key pub2 priv2 o2) ->
  H !! origin i2 = Some (k, x) -> had_reached H (origin i2) k j -> i1 <= j ->
  exists i, i1 < i <= j /\ j < i2 /\
    ((exists r, in_log i (DecryptEvent key r)) \/
     exists key' pub priv o st, in_log i (GenerateKeyEvent key' pub priv o) /\ key' <> key /\
       sat ∅ (i - 1) st /\ size st = max_key_pairs /\ is_oldest st key).
Proof using AG CF Hc Hd PO.
  intros (ev1&C1&E1) (ev2&C2&E2) Hx Hr Hle.
  destruct (source i2 ev2 C2) as (k'&id&w&we&j0&st&en&Hask&Hwe&Hhad&Hji&Hst&Hfacts&_). rewrite E2 in Hwe. injection Hwe as <-.
  destruct w as [key'|key' req]; [|by destruct Hfacts as (?&?&_&_&?)]. destruct Hfacts as [Hk [= <- _ _ _]].
  destruct Hask as (t&m&q&Hx'&_). rewrite Hx in Hx'. injection Hx' as <- _.
  assert (j0 = j) as ->.
  { destruct Hhad as (d1&q1&M1&S1&->), Hr as (d2&q2&M2&S2&->). rewrite (member_unique _ _ _ _ _ _ _ _ _ _ M1 M2) in *. f_equal. unfold start_index.
    destruct (started_facts _ _ _ _ _ _ _ _ _ _ M2 S1) as (?&?&?&_&_&_&_&K1).
    destruct (started_facts _ _ _ _ _ _ _ _ _ _ M2 S2) as (?&?&?&_&_&_&_&K2). rewrite K1 in K2. by injection K2 as _ -> _. }
  pose proof C1 as (H2i&Hl1&_). destruct Hst as [[-> _]|Hs]; [lia|].
  destruct (lost_since j st key i1 ev1 Hs ltac:(by eexists _, _, _) Hl1 ltac:(lia) Hk) as (i&ev&Hij&Hl&Hcase).
  assert (CE : committed i ev) by (eapply reached_committed; [exact Hhad|lia|done]).
  exists i. split; [done|]. split; [done|]. destruct Hcase as [[r Er]|(key'&pub&priv&o&st0&Hne&Ee&Hs0&Hsz&Hold)].
  - left. exists r, ev. done.
  - right. exists key', pub, priv, o, st0. split_and!; try done. by exists ev.
Qed.

Theorem generated_from b k id n key pub : answers H b k id n (WGenerated key pub) ->
  exists a k' g j j' priv en, (a <= b)%nat /\ asks H a k' id n (WGenerate key) /\
    had_reached H (S b) k j' /\ g <= j <= j' /\ unused_pair g j key pub priv /\ keygen key en = (pub, priv).
Proof using AG CF Hc Hd Hi PO.
  intros (H1&x&H2&q&d&d'&out&E&El&Sq&Eid&M&Hr&Hout).
  assert (Kg : forall g o p1 p2, in_log g (GenerateKeyEvent key p1 p2 o) -> exists en, keygen key en = (p1, p2)).
  { intros g o p1 p2 (ev&CE&Ee). destruct (source g ev CE) as (k'&id'&w&we&j&st&en&_&Hwe&_&_&_&Hfacts&_). rewrite Ee in Hwe. injection Hwe as <-.
    destruct w as [key'|key' req]; [|by destruct Hfacts as (?&?&_&_&?)]. destruct Hfacts as [_ [= -> -> -> _]]. exists en. by destruct (keygen key' en). }
  assert (M' : member codec rops sops cops apps begin k (H1 ++ [(k, x)]) d').
  { destruct M as (o&B). exists (o ++ [out]). rewrite calls_of_app, calls_of_one. by eapply born_next. }
  assert (Et : take (S b) H = H1 ++ [(k, x)]).
  { rewrite E, <- El. replace (H1 ++ (k, x) :: H2) with ((H1 ++ [(k, x)]) ++ H2) by (by rewrite <- (assoc_L app)).
    replace (S (length H1)) with (length (H1 ++ [(k, x)])) by (rewrite app_length; simpl; lia). apply take_app. }
  assert (Eb : take b H = H1) by (rewrite E, <- El; apply take_app).
  destruct (answered_from codec rops sops cops apps begin _ _ (replicated_willow c keygen decrypt entropy Hc) decryptor_quiet log H AG CF
    k H1 x H2 q d d' out _ E M Sq Hr Hout) as [(q'&m&cx&co&st&t&st2&Eq&Hx&Sq'&Hact&Hcmd&Hin)|(j'&cx&ev&o&first&st1&st2&Hre&Hj&H2i&Hev&Hf&Hs&Ha&Hin)].
  - simpl in Hcmd. destruct (command_answer _ _ _ _ _ _ _ _ Hcmd Hin) as [(_&code&Hr')|(->&key'&kp&Hw&Hk&[= -> ->])]; [discriminate Hr'|].
    destruct (member_state codec rops sops cops apps begin _ _ (replicated_willow c keygen decrypt entropy Hc) log H AG CF k H1 ((k, x) :: H2) d q' st t E M Sq' Hact)
      as (j&Hre&Hst).
    assert (Hhad : had_reached H b k j) by (unfold ClusterDecryptSpec.had_reached; by rewrite Eb).
    destruct (pair_in_log b k j st key' kp Hhad) as (g&Hg); [|done|].
    { destruct Hst as [[-> [cx0 Hini]]|(first&Hf&Hs)]; [left; split; [done|]; simpl in Hini; by injection Hini as <-|]. right. by rewrite (first_empty _ Hf) in Hs. }
    pose proof Hg as (Hgj&(o&Hlg)&_). destruct (Kg _ _ _ _ Hlg) as [en Hen].
    assert (exists j', had_reached H (S b) k j' /\ j <= j') as (j'&Hre'&Hjj).
    { unfold ClusterDecryptSpec.had_reached. rewrite Et. destruct Hre as (d1&q1&M1&S1&->).
      destruct (extends codec rops sops cops apps begin k H1 [(k, x)] d1 d' M1 M') as (rt&tr&Er&_).
      assert (S2 : started_with k (H1 ++ [(k, x)]) q1) by (by apply started_prefix).
      eexists. split; [by exists d', q1|]. rewrite Er, handed_app. apply (position_grows codec rops sops cops apps begin log H AG).
      rewrite <- handed_app, <- Er. eapply (log_prefix _ _ _ _ _ _ _ _ AG k (H1 ++ [(k, x)]) H2); [|done|done]. by rewrite E, <- (assoc_L app). }
    exists b, k, g, j, j', (kp_private kp), en. split_and!; try done.
    destruct x as [tt x]. simpl in Hx. subst x. exists tt, m, q. split_and!; try done. by rewrite E, <- El, list_lookup_middle.
  - simpl in Ha. destruct (apply_answer _ _ _ _ _ _ _ Ha Hin) as (->&Hown&priv&oo&He).
    assert (Hre' : had_reached H (S b) k j') by (unfold ClusterDecryptSpec.had_reached; by rewrite Et).
    pose proof (owned_event _ _ _ _ H2i Hev) as Hl. set (i := ec_index cx) in *.
    assert (CE : committed i ev) by (eapply reached_committed; [exact Hre'|lia|done]).
    destruct (source i ev CE) as (k'&id0&w&we&j&st&en&Hask&Hwe&Hhad&Hji&Hst&Hfacts&Hall). rewrite He in Hwe. injection Hwe as <-.
    destruct w as [key'|key' req]; [|by destruct Hfacts as (?&?&_&_&?)]. destruct Hfacts as [_ [= -> -> -> _]].
    rewrite Hall in Hev. injection Hev as Hcx. assert (id0 = id) as ->. { rewrite <- Hcx in Hown. simpl in Hown. apply N.eqb_eq in Hown. congruence. }
    exists (origin i), k', i, i, j', (keygen key' en).2, en. split_and!; try done.
    + destruct (decide (origin i <= b)%nat) as [|Hgt]; [done|]. exfalso.
      pose proof (pi_order _ _ _ _ _ _ _ _ _ PO i ev (H1 ++ [(k, x)]) H2 k j' CE) as Ho.
      assert (j' < i); [|lia]. apply Ho; [by rewrite E, <- (assoc_L app)|rewrite app_length; simpl; lia|done].
    + split; [lia|]. split; [exists oo; by exists ev|]. intros i' e' Hi'. lia.
    + by destruct (keygen key' en).
Qed.
End Decryptor.
