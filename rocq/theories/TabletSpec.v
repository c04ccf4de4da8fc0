(** What the tablet store properties talk about. *)
From Verif Require Import Base ActorModel ActorSpec TabletModel.

(** What the serialisations have to satisfy. *)
Record tablet_codec_ok (c : tablet_codec) : Prop := TabletCodecOk {
  ops_round_trip : forall ops, dec_ops c (enc_ops c ops) = Some ops;
  tables_round_trip : forall s, dec_tables c (enc_tables c s) = Some s;
}.
(** The iteration order of the hash map visits every table once. *)
Definition order_ok (order : tables -> list (string * table)) : Prop :=
  forall ts, order ts ≡ₚ map_to_list ts.

(** The metadata of one tablet of one table. *)
Definition tablet (ts : tables) (name : string) (i : N) : option tablet_metadata :=
  t ← ts !! name; t !! i.

(** Every tablet is filed under its own id. *)
Definition well_keyed (ts : tables) : Prop :=
  forall name i m, tablet ts name i = Some m -> tm_id m = i.

(** When an operation may go ahead. *)
Definition precondition (ts : tables) (op : tablet_op) : Prop :=
  is_Some (ts !! op_table op) /\
  match op_kind_of op with
  | Some (OpList _ _) => True
  | Some (OpCheck i v) => exists m, tablet ts (op_table op) i = Some m /\ tm_version m = v
  | Some (OpUpdate (Some u)) =>
      exists m, tablet ts (op_table op) (tm_id u) = Some m /\ tm_version u = tm_version m + 1
  | _ => False
  end.

(** Operations the store implements, and states in which no version can be
    exhausted. *)
Definition supported (op : tablet_op) : Prop :=
  match op_kind_of op with
  | Some (OpAdd _) | Some (OpRemove _ _) => False
  | _ => True
  end.
Definition versions_below_max (ts : tables) : Prop :=
  forall name i m, tablet ts name i = Some m -> tm_version m <> u32_max.

(** The update an operation asks for. *)
Definition update_of (op : tablet_op) : option (string * tablet_metadata) :=
  match op_kind_of op with
  | Some (OpUpdate (Some u)) => Some (op_table op, u)
  | _ => None
  end.
Definition updates (ops : list tablet_op) : list (string * tablet_metadata) := omap update_of ops.
(** The last update of a tablet in a request. *)
Definition last_update (ops : list tablet_op) (name : string) (i : N) : option tablet_metadata :=
  last (omap (fun '(n, u) => if decide (n = name /\ tm_id u = i) then Some u else None) (updates ops)).

(** What each operation is told, given the state before the request. *)
Definition expected_detail (ts : tables) (op : tablet_op) (d : option op_detail) : Prop :=
  match ts !! op_table op, op_kind_of op with
  | Some t, Some (OpList from to) => exists l, d = Some (ListResult from to l)
  | Some t, Some (OpCheck i v) =>
      d = Some (CheckResult (m ← t !! i; if decide (tm_version m = v) then None else Some m))
  | Some t, Some (OpUpdate (Some u)) => d = Some (UpdateResult (t !! tm_id u))
  | Some t, Some (OpUpdate None) => d = Some (UpdateResult None)
  | _, _ => d = None
  end.

(** Requests applied one after the other. *)
Fixpoint run_requests (ts : tables) (reqs : list (list tablet_op))
  : res actor_error (tables * list tablets_response) :=
  match reqs with
  | [] => Ok (ts, [])
  | ops :: reqs =>
    let! (ts', r) := apply_tablets_request ts ops in
    let! (ts'', rs) := run_requests ts' reqs in
    Ok (ts'', r :: rs)
  end.

(** The consistent hashing ring: the owner of a hash is the first tablet at or
    after it, or the first tablet of all when there is none. *)
Definition owner (t : table) (h i : N) : Prop :=
  is_Some (t !! i) /\
  ((h <= i /\ forall j, is_Some (t !! j) -> h <= j -> i <= j) \/
   ((forall j, is_Some (t !! j) -> j < h) /\ forall j, is_Some (t !! j) -> i <= j)).
(** Ring ranges with an inclusive and with an exclusive end; a range whose end
    is not after its start wraps around zero. *)
Definition closed_range (from to h : N) : Prop :=
  if from <? to then from <= h <= to else from <= h <= u32_max \/ h <= to.
Definition half_open_range (from to h : N) : Prop :=
  if from <? to then from <= h < to else from <= h <= u32_max \/ h < to.
