(** Theorems about log records (C102). They hold for every consensus
    implementation, snapshot processor, communication module and application, for
    every history of calls, and for whatever is logged during them. *)
From stdpp Require Import pretty.
From Verif Require Import Base CommModel ActorModel DriverModel DriverSpec DriverTheorems LoggerModel LoggerSpec LoggerProofs.

Section Theorems.
Context {RS SP CS ST REQ RESP : Type}.
Variable show : level -> string.
Variable codec : driver_codec.
Variable rops : raft_ops RS.
Variable sops : snap_ops SP.
Variable cops : comm_ops CS REQ RESP.
Variable app : actor ST.
Notation run_logged := (run_logged show codec rops sops cops app).
Notation receive_logged := (receive_logged show codec rops sops cops app).
Notation receive := (receive_message codec rops sops cops app).

(** Every record logged is handed to the host once, in order, or still kept. *)
Theorem C102_records_reach_the_host_once (d : driver RS SP CS ST REQ RESP) xs d' o outs :
  run_logged d (Some drain_new) xs = Ok (d', o, outs) ->
  exists kept, o = Some kept /\ Forall2 (reports show) (records xs) (logs (concat outs) ++ kept).
Proof using.
  intros H. destruct (run_logged_logs _ _ _ _ _ _ _ _ _ _ _ _ H) as (kept & -> & He).
  exists kept. split; [done|]. rewrite He. apply reports_all.
Qed.

(** After a call, no record is kept for longer than that: all that was logged
    before the messages of the communication module were collected has been handed
    over. Only a call with a message that is not set hands over nothing. *)
Theorem C102_records_are_handed_over_by_their_call (d : driver RS SP CS ST REQ RESP) xs x d' o outs :
  run_logged d (Some drain_new) (xs ++ [x]) = Ok (d', o, outs) -> ~ unset x ->
  Forall2 (reports show) (records xs ++ ca_before x) (logs (concat outs)).
Proof using.
  intros H Hu. destruct (run_logged_app _ _ _ _ _ _ _ _ _ _ _ _ _ H) as (d1 & o1 & outs1 & out & H1 & H2 & ->).
  destruct (run_logged_logs _ _ _ _ _ _ _ _ _ _ _ _ H1) as (k1 & -> & He).
  destruct (receive_logged_logs _ _ _ _ _ _ _ _ _ _ _ _ H2) as (k2 & -> & He2 & Hk).
  rewrite (Hk Hu), map_app, (assoc_L (++)) in He2. apply app_inj_2 in He2 as [He2 _]; [|done].
  rewrite concat_app. cbn [concat]. rewrite app_nil_r, logs_app, He2, (assoc_L (++)), He, app_nil_l, <- map_app.
  apply reports_all.
Qed.

(** The log messages of a call come after what the replica itself sends and
    before the messages of the communication module. *)
Theorem C102_log_messages_come_in_between (d : driver RS SP CS ST REQ RESP) o x d' o' out :
  receive_logged d o x = Ok (d', o', out) ->
  exists msgs wires, receive d (ca_instant x) (ca_message x) = Ok (d', msgs ++ map OWire wires) /\
    out = map OutMessage msgs ++ map OutLog (logs out) ++ map (fun w => OutMessage (OWire w)) wires.
Proof using.
  intros H. destruct (receive_logged_inv _ _ _ _ _ _ _ _ _ _ _ _ H) as (msgs & ws & ms & Hr & -> & _).
  exists msgs, ws. split; [done|]. by rewrite !logs_app, logs_others, logs_logs, logs_wires, app_nil_l, app_nil_r.
Qed.

(** What is logged, and where it goes, makes no difference to what the replica
    does. *)
Theorem C102_logging_changes_nothing_else (d : driver RS SP CS ST REQ RESP) o x :
  match receive_logged d o x with
  | Ok (d', _, out) => receive d (ca_instant x) (ca_message x) = Ok (d', others out)
  | Err e => receive d (ca_instant x) (ca_message x) = Err e
  | Panic => receive d (ca_instant x) (ca_message x) = Panic
  end.
Proof using. apply receive_logged_same. Qed.

(** A replica that was created with a logger hands no records to the host. *)
Theorem C102_no_records_with_a_logger (d : driver RS SP CS ST REQ RESP) xs d' o outs :
  run_logged d None xs = Ok (d', o, outs) -> logs (concat outs) = [].
Proof using. intros H. by destruct (run_logged_none _ _ _ _ _ _ _ _ _ _ _ H). Qed.
End Theorems.

(** * A history with records *)
Definition sample_level (l : level) : string :=
  match l with LCritical => "Critical" | LError => "Error" | LWarning => "Warning" | LInfo => "Info" | LDebug => "Debug" | LTrace => "Trace" end.
Definition sample_record (l : level) (text : string) : logged :=
  (LogRecord l "runtime/src/driver.rs" 1287 21 text [("raft", "1")], [("id", "7")]).
Definition sample_calls : list (call unit unit) :=
  [Call 5 (toy_start true false 1) [sample_record LInfo "Starting"; sample_record LDebug "Started"] [];
   Call 6 (Some None) [sample_record LWarning "Rejecting message: unknown"] [];
   Call 7 (toy_app_msg 21 [4; 4]) [] [sample_record LTrace "Late"];
   Call 8 None [sample_record LCritical "Last"] []].
Notation toy_logged := (run_logged sample_level toy_codec toy_ops toy_snap toy_comm toy_app (driver_new toy0 tt tt)).
Example sample_calls_are_logged :
  match toy_logged (Some drain_new) sample_calls with
  | Ok (d, o, outs) =>
      o = Some [] /\ map (fun out => lm_severity <$> logs out) outs = [[1; 5]; []; [2]; [6; 4]] /\
      head (lm_text <$> logs (concat outs)) = Some "Info driver.rs @ 1287 : 21 / Starting // raft: 1, id: 7, "%string /\
      map others outs = [[OStarted 1]; []; [OApp (ActorCommand 21 [] [4; 4])]; []]
  | _ => False
  end.
Proof. vm_compute. done. Qed.
Example sample_calls_with_a_logger :
  match toy_logged None sample_calls with
  | Ok (d, o, outs) => map others outs = [[OStarted 1]; []; [OApp (ActorCommand 21 [] [4; 4])]; []]
  | _ => False
  end.
Proof. vm_compute. done. Qed.

(** "Every record that is logged is handed to the host" is false: a call that
    fails sends nothing, and the replica ends with it (C33). A replica that is
    started a second time logs why it refuses, and the host does not get to know;
    neither does it get the records kept from the call before. *)
Definition sample_failing : list (call unit unit) :=
  [Call 5 (toy_start true false 1) [] [];
   Call 6 (Some None) [sample_record LWarning "Rejecting message: unknown"] [];
   Call 7 (toy_start true false 1) [sample_record LError "Already started"] []].
Theorem C102_records_of_failing_calls_are_lost_refuted :
  (exists d o outs, toy_logged (Some drain_new) (take 2 sample_failing) = Ok (d, o, outs) /\ logs (concat outs) = [] /\
     records (take 2 sample_failing) <> []) /\
  toy_logged (Some drain_new) sample_failing = Err InvalidOperation.
Proof.
  split; [|vm_compute; reflexivity].
  eexists _, _, _. split; [vm_compute; reflexivity|]. split; [vm_compute; reflexivity|done].
Qed.
