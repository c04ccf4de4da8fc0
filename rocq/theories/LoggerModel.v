(** Model of the logger, runtime/src/logger.rs, and of the part of the driver that
    hands log messages to the host (driver.rs 213-226, 1242-1246, 1271-1370).

    Simplifications, for the whole file:
    - which records are logged during a call is not modelled: they are an input
      of the call, so that the theorems hold for all of them;
    - text is a string of characters; how slog prints a level is a parameter; the
      [unwrap]s of [serialize] (logger.rs 62-67) cannot fail as [emit_arguments]
      returns [Ok] only;
    - the terminal that gets a copy of every record (logger.rs 140-146) is left
      out, and with it the abort if it cannot be written to. *)
From stdpp Require Import pretty.
From Verif Require Import Base CommModel ActorModel DriverModel.

(** slog::Level and endpoint.proto LogSeverity. *)
Inductive level := LCritical | LError | LWarning | LInfo | LDebug | LTrace.
Inductive severity := SCritical | SError | SWarning | SInfo | SDebug | STrace.
(** slog::Record: where and what is logged, with its keys and values. *)
Record record := LogRecord {
  rec_level : level;
  rec_file : string;
  rec_line : N;
  rec_column : N;
  rec_text : string;
  rec_values : list (string * string);
}.
(** endpoint.proto LogMessage. *)
Record log_message := LogMessage { lm_severity : N; lm_text : string }.
(** endpoint.proto 201-209. *)
Definition severity_code (s : severity) : N :=
  match s with SInfo => 1 | SWarning => 2 | SError => 3 | SCritical => 4 | SDebug => 5 | STrace => 6 end.

(** logger.rs 38-44 ValueSerializer. *)
Fixpoint serialize (kvs : list (string * string)) (output : string) : string :=
  match kvs with
  | [] => output
  | (k, v) :: kvs => serialize kvs (output +:+ (k +:+ ": " +:+ v +:+ ", "))
  end.
(** str::rfind of a character. *)
Fixpoint rfind (c : Ascii.ascii) (s : string) : option nat :=
  match s with
  | EmptyString => None
  | String x s =>
    match rfind c s with
    | Some i => Some (S i)
    | None => if decide (x = c) then Some O else None
    end
  end.
(** The rest of a string from a position on, [s[i..]]. *)
Fixpoint rest_from (i : nat) (s : string) : string :=
  match i, s with
  | S i, String _ s => rest_from i s
  | _, _ => s
  end.
Definition slash : Ascii.ascii := Ascii.ascii_of_nat 47.

Section Message.
(** How slog prints a level. *)
Variable show_level : level -> string.
(** logger.rs 47-88 create_log_message; [values] are those of the logger. *)
Definition create_log_message (r : record) (values : list (string * string)) : log_message :=
  let severity := match rec_level r with
    | LCritical => SCritical
    | LError => SError
    | LWarning => SWarning
    | LInfo => SInfo
    | LDebug => SDebug
    | LTrace => STrace
    end in
  let output := serialize values (serialize (rec_values r) EmptyString) in
  let file := match rfind slash (rec_file r) with
    | Some pos => rest_from (pos + 1) (rec_file r)
    | None => rec_file r
    end in
  LogMessage (severity_code severity)
    (show_level (rec_level r) +:+ " " +:+ file +:+ " @ " +:+ pretty (rec_line r) +:+ " : " +:+ pretty (rec_column r)
       +:+ " / " +:+ rec_text r +:+ " // " +:+ output).

(** logger.rs 97-101, 171-175 RemoteDrainCore, shared by the logger and the
    driver; both variants (std, no_std) are the same. The lock orders the
    records. *)
Definition drain := list log_message.
(** logger.rs 104-108, 178-182. *)
Definition drain_new : drain := [].
(** logger.rs 110-113, 184-187 append_entry. *)
Definition append_entry (d : drain) (m : log_message) : drain := d ++ [m].
(** logger.rs 129-136, 205-213 log. *)
Definition drain_log (d : drain) (x : record * list (string * string)) : drain :=
  append_entry d (create_log_message x.1 x.2).
(** logger.rs 117-120, 191-194 take_entries. *)
Definition take_entries (d : drain) : drain * list log_message := ([], d).

(** driver.rs 213-226: the output of the logger that the driver has. [None]: the
    driver was given a logger, and [EmptyDrainOutput] (logger.rs 28-33) is its
    output. *)
Definition output := option drain.
Definition output_log (o : output) (xs : list (record * list (string * string))) : output :=
  match o with Some d => Some (foldl drain_log d xs) | None => None end.
Definition output_take (o : output) : output * list log_message :=
  match o with Some d => let '(d, ms) := take_entries d in (Some d, ms) | None => (None, []) end.

Section Driver.
Context {RS SP CS ST REQ RESP : Type}.
Variable codec : driver_codec.
Variable rops : raft_ops RS.
Variable sops : snap_ops SP.
Variable cops : comm_ops CS REQ RESP.
Variable app : actor ST.

(** endpoint.proto OutMessage, with log messages. *)
Inductive out_message := OutLog (m : log_message) | OutMessage (m : host_out REQ RESP).

(** A call, with the records logged before the output of the logger is taken, and
    those logged while the communication module hands over its messages. *)
Record call := Call {
  ca_instant : N;
  ca_message : option (option (host_in REQ RESP));
  ca_before : list (record * list (string * string));
  ca_after : list (record * list (string * string));
}.

(** driver.rs 1242-1246 stash_log_entries, 1248-1251 stash_comms_module_entries
    and 1237-1240 take_out_messages, at the end of a call (1364-1368). *)
Definition flush_logged (d : driver RS SP CS ST REQ RESP) (o : output) (after : list (record * list (string * string)))
  : res pal_error (driver RS SP CS ST REQ RESP * output * list out_message) :=
  let '(o, ms) := output_take o in
  let stashed := map OutMessage (d_messages d) ++ map OutLog ms in
  let! (c, ws) := co_take cops (d_comm d) in
  let d := set_comm d c in
  Ok (set_messages d [], output_log o after, stashed ++ map (fun w => OutMessage (OWire w)) ws).
(** driver.rs 1271-1370 receive_message, with its logger. *)
Definition receive_logged (d : driver RS SP CS ST REQ RESP) (o : output) (x : call)
  : res pal_error (driver RS SP CS ST REQ RESP * output * list out_message) :=
  let d := preset rops d (ca_instant x) in
  let o := output_log o (ca_before x) in
  match ca_message x with
  | Some None => Ok (d, output_log o (ca_after x), [])
  | m =>
    let! d := match m with Some (Some m) => dispatch codec rops sops cops app d m | _ => Ok d end in
    let! d := run_app codec cops app d (match m with Some (Some m) => app_message m | _ => None end) in
    let! d := run_replication codec rops sops cops app d in
    flush_logged d o (ca_after x)
  end.
(** The calls of a host, one after the other, with what each of them sends. *)
Fixpoint run_logged (d : driver RS SP CS ST REQ RESP) (o : output) (xs : list call)
  : res pal_error (driver RS SP CS ST REQ RESP * output * list (list out_message)) :=
  match xs with
  | [] => Ok (d, o, [])
  | x :: xs =>
    let! (d, o, out) := receive_logged d o x in
    let! (d, o, outs) := run_logged d o xs in
    Ok (d, o, out :: outs)
  end.
End Driver.
End Message.
Arguments out_message : clear implicits.
Arguments call : clear implicits.
