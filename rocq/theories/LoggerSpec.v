(** Vocabulary of the theorems about log records. *)
From stdpp Require Import pretty.
From Verif Require Import Base DriverModel LoggerModel.

(** The name of a file without its directories. *)
Definition bare (path file : string) : Prop :=
  (path = file \/ exists dir, path = dir +:+ "/" +:+ file) /\
  forall a b, file <> a +:+ "/" +:+ b.
(** The numbers of endpoint.proto for the levels. *)
Definition severity_number (l : level) : N :=
  match l with LInfo => 1 | LWarning => 2 | LError => 3 | LCritical => 4 | LDebug => 5 | LTrace => 6 end.
(** A record with the values of the logger it is logged with. *)
Notation logged := (record * list (string * string))%type.
Definition printed (kv : string * string) : string := kv.1 +:+ ": " +:+ kv.2 +:+ ", ".

Section Spec.
Variable show_level : level -> string.
(** The log message reports the record: its severity, where it was logged and all
    that was logged. *)
Definition reports (x : logged) (m : log_message) : Prop :=
  lm_severity m = severity_number (rec_level x.1) /\
  exists file, bare (rec_file x.1) file /\
    lm_text m = show_level (rec_level x.1) +:+ " " +:+ file +:+ " @ " +:+ pretty (rec_line x.1) +:+ " : " +:+ pretty (rec_column x.1)
      +:+ " / " +:+ rec_text x.1 +:+ " // " +:+ String.concat "" (map printed (rec_values x.1 ++ x.2)).
End Spec.

Section Messages.
Context {REQ RESP : Type}.
(** The log messages among the messages to the host, and the others. *)
Definition logs (out : list (out_message REQ RESP)) : list log_message :=
  omap (fun m => match m with OutLog m => Some m | _ => None end) out.
Definition others (out : list (out_message REQ RESP)) : list (host_out REQ RESP) :=
  omap (fun m => match m with OutMessage m => Some m | _ => None end) out.
(** All that is logged during calls. *)
Definition records (xs : list (call REQ RESP)) : list logged := concat (map (fun x => ca_before x ++ ca_after x) xs).
(** The call delivers a message that is not set. *)
Definition unset (x : call REQ RESP) : Prop := ca_message x = Some None.
End Messages.
