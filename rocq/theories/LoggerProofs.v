(** Proofs about the logger. *)
From stdpp Require Import pretty.
From Verif Require Import Base CommModel ActorModel DriverModel LoggerModel LoggerSpec.
#[local] Arguments String.append !_ _ /.

Lemma app_empty_r (s : string) : s +:+ "" = s.
Proof. induction s; simpl; [done|]. by f_equal. Qed.
Lemma app_assoc_s (a b c : string) : a +:+ (b +:+ c) = (a +:+ b) +:+ c.
Proof. induction a; simpl; [done|]. by f_equal. Qed.

Lemma rfind_none s : rfind slash s = None -> forall a b, s <> a +:+ "/" +:+ b.
Proof.
  induction s as [|x s IH]; intros H a b Heq.
  - by destruct a.
  - simpl in H. destruct (rfind slash s) eqn:E; [done|]. destruct (decide (x = slash)) as [|Hx]; [done|].
    destruct a as [|y a]; simpl in Heq; injection Heq as -> Heq.
    + by apply Hx.
    + by eapply (IH eq_refl a b).
Qed.
Lemma rfind_some s i : rfind slash s = Some i ->
  (exists dir, s = dir +:+ "/" +:+ rest_from (i + 1) s) /\ rfind slash (rest_from (i + 1) s) = None.
Proof.
  revert i. induction s as [|x s IH]; intros i H; [done|]. simpl in H.
  destruct (rfind slash s) as [j|] eqn:E.
  - injection H as <-. destruct (IH j eq_refl) as [[dir Hd] Hn]. simpl. split; [|done].
    exists (String x dir). simpl. by f_equal.
  - destruct (decide (x = slash)) as [->|]; [|done]. injection H as <-. simpl.
    split; [by exists ""|]. by destruct s.
Qed.
Lemma bare_file path :
  bare path (match rfind slash path with Some pos => rest_from (pos + 1) path | None => path end).
Proof.
  destruct (rfind slash path) as [i|] eqn:E.
  - destruct (rfind_some _ _ E) as [Hd Hn]. split; [by right|]. by apply rfind_none.
  - split; [by left|]. by apply rfind_none.
Qed.

Lemma concat_cons_s x l : String.concat "" (x :: l) = x +:+ String.concat "" l.
Proof. destruct l; [symmetry; apply app_empty_r|done]. Qed.
Lemma concat_app_s l1 l2 : String.concat "" (l1 ++ l2) = String.concat "" l1 +:+ String.concat "" l2.
Proof.
  induction l1 as [|x l1 IH]; [done|]. change ((x :: l1) ++ l2) with (x :: (l1 ++ l2)).
  rewrite !concat_cons_s, IH. by rewrite app_assoc_s.
Qed.
Lemma serialize_eq kvs out : serialize kvs out = out +:+ String.concat "" (map printed kvs).
Proof.
  revert out. induction kvs as [|[k v] kvs IH]; intros out; simpl map.
  - simpl. by rewrite app_empty_r.
  - rewrite concat_cons_s. cbn [serialize]. rewrite IH. symmetry. apply app_assoc_s.
Qed.

Lemma create_reports show r vs : reports show (r, vs) (create_log_message show r vs).
Proof.
  split.
  - unfold create_log_message. simpl. by destruct (rec_level r).
  - exists (match rfind slash (rec_file r) with Some pos => rest_from (pos + 1) (rec_file r) | None => rec_file r end).
    split; [apply bare_file|]. unfold create_log_message. cbn [lm_text fst snd].
    rewrite !serialize_eq, map_app, concat_app_s. done.
Qed.

Notation message_of show := (fun x : logged => create_log_message show x.1 x.2).
Lemma drain_log_all show xs d : foldl (drain_log show) d xs = d ++ map (message_of show) xs.
Proof.
  revert d. induction xs as [|x xs IH]; intros d; simpl; [by rewrite app_nil_r|].
  rewrite IH. unfold drain_log, append_entry. by rewrite <- (assoc_L app).
Qed.
Lemma reports_all show xs : Forall2 (reports show) xs (map (message_of show) xs).
Proof. induction xs as [|[r vs] xs IH]; constructor; [apply create_reports|done]. Qed.

Section Out.
Context {REQ RESP : Type}.
Lemma logs_others l : logs (map (@OutMessage REQ RESP) l) = [].
Proof. by induction l. Qed.
Lemma logs_wires l : logs (map (fun w => @OutMessage REQ RESP (OWire w)) l) = [].
Proof. by induction l. Qed.
Lemma logs_logs l : logs (map (@OutLog REQ RESP) l) = l.
Proof. induction l as [|m l IH]; [done|]. unfold logs in *. simpl. by f_equal. Qed.
Lemma others_others l : others (map (@OutMessage REQ RESP) l) = l.
Proof. induction l as [|m l IH]; [done|]. unfold others in *. simpl. by f_equal. Qed.
Lemma others_wires l : others (map (fun w => @OutMessage REQ RESP (OWire w)) l) = map OWire l.
Proof. induction l as [|m l IH]; [done|]. unfold others in *. simpl. by f_equal. Qed.
Lemma others_logs l : others (map (@OutLog REQ RESP) l) = [].
Proof. by induction l. Qed.
Lemma logs_app (a b : list (out_message REQ RESP)) : logs (a ++ b) = logs a ++ logs b.
Proof. apply omap_app. Qed.
Lemma others_app (a b : list (out_message REQ RESP)) : others (a ++ b) = others a ++ others b.
Proof. apply omap_app. Qed.
End Out.

Section Driver.
Context {RS SP CS ST REQ RESP : Type}.
Variable show : level -> string.
Variable codec : driver_codec.
Variable rops : raft_ops RS.
Variable sops : snap_ops SP.
Variable cops : comm_ops CS REQ RESP.
Variable app : actor ST.
Notation receive := (receive_message codec rops sops cops app).
Notation receive_logged := (receive_logged show codec rops sops cops app).
Notation run_logged := (run_logged show codec rops sops cops app).

(** What a call does, in terms of the driver without its logger. *)
Lemma receive_logged_inv d o x d' o' out :
  receive_logged d o x = Ok (d', o', out) ->
  exists msgs ws ms, receive d (ca_instant x) (ca_message x) = Ok (d', msgs ++ map OWire ws) /\
    out = map OutMessage msgs ++ map OutLog ms ++ map (fun w => OutMessage (OWire w)) ws /\
    ((unset x /\ ms = [] /\ o' = output_log show (output_log show o (ca_before x)) (ca_after x)) \/
     (~ unset x /\ ms = (output_take (output_log show o (ca_before x))).2 /\
      o' = output_log show (output_take (output_log show o (ca_before x))).1 (ca_after x))).
Proof using.
  unfold LoggerModel.receive_logged, receive_message, unset. intros H.
  destruct (ca_message x) as [[m|]|] eqn:Em.
  2:{ injection H as <- <- <-. exists [], [], []. split; [done|]. split; [done|]. by left. }
  all: destruct (output_take (output_log show o (ca_before x))) as [o1 ms] eqn:Eo.
  1: destruct (dispatch codec rops sops cops app (preset rops d (ca_instant x)) m) as [d1|e|]; simpl in H |- *; [|done|done].
  1: destruct (run_app codec cops app d1 (app_message m)) as [d2|e|]; simpl in H |- *; [|done|done].
  2: simpl in H |- *; destruct (run_app codec cops app (preset rops d (ca_instant x)) None) as [d2|e|]; simpl in H |- *; [|done|done].
  all: destruct (run_replication codec rops sops cops app d2) as [d3|e|]; simpl in H |- *; [|done|done].
  all: unfold flush_logged in H; rewrite Eo in H; unfold flush.
  all: destruct (co_take cops (d_comm d3)) as [[c ws]|e|]; simpl in H |- *; [|done|done].
  all: injection H as <- <- <-.
  all: exists (d_messages d3), ws, ms; split; [done|]; split; [by rewrite <- (assoc_L (++))|]; by right.
Qed.

Lemma receive_logged_same d o x :
  match receive_logged d o x with
  | Ok (d', _, out) => receive d (ca_instant x) (ca_message x) = Ok (d', others out)
  | Err e => receive d (ca_instant x) (ca_message x) = Err e
  | Panic => receive d (ca_instant x) (ca_message x) = Panic
  end.
Proof using.
  destruct (receive_logged d o x) as [[[d' o'] out]|e|] eqn:E.
  - destruct (receive_logged_inv _ _ _ _ _ _ E) as (msgs & ws & ms & -> & -> & _).
    by rewrite !others_app, others_others, others_logs, others_wires.
  - unfold LoggerModel.receive_logged, receive_message in *.
    destruct (ca_message x) as [[m|]|]; [|done|].
    1: destruct (dispatch codec rops sops cops app (preset rops d (ca_instant x)) m) as [d1|e1|]; simpl in E |- *; [|congruence|done].
    1: destruct (run_app codec cops app d1 (app_message m)) as [d2|e2|]; simpl in E |- *; [|congruence|done].
    2: simpl in E |- *; destruct (run_app codec cops app (preset rops d (ca_instant x)) None) as [d2|e2|]; simpl in E |- *; [|congruence|done].
    all: destruct (run_replication codec rops sops cops app d2) as [d3|e3|]; simpl in E |- *; [|congruence|done].
    all: unfold flush_logged, flush in *; destruct (output_take _).
    all: destruct (co_take cops (d_comm d3)) as [[c ws]|e4|]; simpl in E |- *; congruence.
  - unfold LoggerModel.receive_logged, receive_message in *.
    destruct (ca_message x) as [[m|]|]; [|done|].
    1: destruct (dispatch codec rops sops cops app (preset rops d (ca_instant x)) m) as [d1|e1|]; simpl in E |- *; [|congruence|done].
    1: destruct (run_app codec cops app d1 (app_message m)) as [d2|e2|]; simpl in E |- *; [|congruence|done].
    2: simpl in E |- *; destruct (run_app codec cops app (preset rops d (ca_instant x)) None) as [d2|e2|]; simpl in E |- *; [|congruence|done].
    all: destruct (run_replication codec rops sops cops app d2) as [d3|e3|]; simpl in E |- *; [|congruence|done].
    all: unfold flush_logged, flush in *; destruct (output_take _).
    all: destruct (co_take cops (d_comm d3)) as [[c ws]|e4|]; simpl in E |- *; congruence.
Qed.

Lemma receive_logged_logs d l x d' o' out :
  receive_logged d (Some l) x = Ok (d', o', out) ->
  exists kept, o' = Some kept /\ logs out ++ kept = l ++ map (message_of show) (ca_before x ++ ca_after x) /\
    (~ unset x -> kept = map (message_of show) (ca_after x)).
Proof using.
  intros H. destruct (receive_logged_inv _ _ _ _ _ _ H) as (msgs & ws & ms & _ & -> & Hc).
  rewrite !logs_app, logs_others, logs_logs, logs_wires, app_nil_l, app_nil_r. cbn [output_log output_take take_entries fst snd] in Hc.
  rewrite !drain_log_all in Hc. destruct Hc as [(Hu & -> & ->)|(Hu & -> & ->)]; eexists; split; try done.
  - rewrite app_nil_l, map_app, <- (assoc_L (++)). split; [done|]. intros Hn. by destruct (Hn Hu).
  - rewrite app_nil_l, map_app, <- (assoc_L (++)). by split.
Qed.

Lemma run_logged_app d o xs x d' o' outs :
  run_logged d o (xs ++ [x]) = Ok (d', o', outs) ->
  exists d1 o1 outs1 out, run_logged d o xs = Ok (d1, o1, outs1) /\ receive_logged d1 o1 x = Ok (d', o', out) /\ outs = outs1 ++ [out].
Proof using.
  revert d o outs. induction xs as [|y xs IH]; intros d o outs H.
  - simpl in H. destruct (receive_logged d o x) as [[[d1 o1] out]|e|] eqn:E; simpl in H; [|done|done]. injection H as <- <- <-.
    by exists d, o, [], out.
  - simpl in H. destruct (receive_logged d o y) as [[[d1 o1] out]|e|] eqn:E; simpl in H; [|done|done].
    destruct (run_logged d1 o1 (xs ++ [x])) as [[[d2 o2] outs2]|e|] eqn:E2; simpl in H; [|done|done].
    injection H as <- <- <-. destruct (IH _ _ _ E2) as (d3 & o3 & outs3 & out3 & H1 & H2 & ->).
    exists d3, o3, (out :: outs3), out3. simpl. rewrite E. simpl. by rewrite H1.
Qed.

Lemma records_snoc (xs : list (call REQ RESP)) x : records (xs ++ [x]) = records xs ++ (ca_before x ++ ca_after x).
Proof using. unfold records. rewrite map_app, concat_app. cbn [map concat]. by rewrite app_nil_r. Qed.
Lemma run_logged_logs d l xs d' o' outs :
  run_logged d (Some l) xs = Ok (d', o', outs) ->
  exists kept, o' = Some kept /\ logs (concat outs) ++ kept = l ++ map (message_of show) (records xs).
Proof using.
  revert d' o' outs. induction xs as [|x xs IH] using rev_ind; intros d' o' outs H.
  - injection H as <- <- <-. exists l. split; [done|]. simpl. by rewrite app_nil_r.
  - destruct (run_logged_app _ _ _ _ _ _ _ H) as (d1 & o1 & outs1 & out & H1 & H2 & ->).
    destruct (IH _ _ _ H1) as (k1 & -> & He). destruct (receive_logged_logs _ _ _ _ _ _ H2) as (k2 & -> & He2 & _).
    exists k2. split; [done|]. rewrite concat_app. cbn [concat]. rewrite app_nil_r, logs_app, <- (assoc_L (++)), He2, (assoc_L (++)), He.
    by rewrite records_snoc, (map_app _ (records xs)), (assoc_L (++)).
Qed.

Lemma run_logged_none d xs d' o' outs :
  run_logged d None xs = Ok (d', o', outs) -> o' = None /\ logs (concat outs) = [].
Proof using.
  revert d' o' outs. induction xs as [|x xs IH] using rev_ind; intros d' o' outs H.
  - by injection H as <- <- <-.
  - destruct (run_logged_app _ _ _ _ _ _ _ H) as (d1 & o1 & outs1 & out & H1 & H2 & ->).
    destruct (IH _ _ _ H1) as (-> & He). destruct (receive_logged_inv _ _ _ _ _ _ H2) as (msgs & ws & ms & _ & -> & Hc).
    rewrite concat_app. cbn [concat]. rewrite app_nil_r, !logs_app, He, logs_others, logs_logs, logs_wires, app_nil_r.
    simpl in Hc. by destruct Hc as [(_ & -> & ->)|(_ & -> & ->)].
Qed.
End Driver.
