(** Vocabulary of the theorems about the endpoint services. *)
From Verif Require Import Base CommModel ServiceModel.

Section Spec.
Context {D IN OUT : Type}.
Variable receive : D -> N -> option IN -> res pal_error (D * list OUT).

(** The driver handles requests one after the other, with these outputs. *)
Inductive handles : D -> list (request IN * list OUT) -> D -> Prop :=
| handles_none d : handles d [] d
| handles_more d l d' q out d'' :
    handles d l d' -> receive d' (rq_instant q) (rq_message q) = Ok (d'', out) ->
    handles d (l ++ [(q, out)]) d''.

(** [order] explains what callers have seen: it is a sequence of calls, each with
    its request and reply, such that
    - the driver replies so if it handles these requests in this order and
      nothing else happens;
    - every call in it was made, with this request, and none is in it twice;
    - every reply a caller got is the one of its call in the sequence;
    - a call that was made after another one had returned comes after it. *)
Record explains (d0 : D) (order : list (N * request IN * list OUT)) (tr : list (event IN OUT)) : Prop := Explains {
  ex_handled : exists d, handles d0 (map (fun x => (x.1.2, x.2)) order) d;
  ex_made : forall i q out, (i, q, out) ∈ order -> Called i q ∈ tr;
  ex_once : NoDup (map (fun x => x.1.1) order);
  ex_replies : forall i out, Returned i (Some out) ∈ tr -> exists q, (i, q, out) ∈ order;
  ex_real_time : forall t1 i r t2 j q t3 o1 o2 qj outj, tr = t1 ++ Returned i r :: t2 ++ Called j q :: t3 ->
    order = o1 ++ (j, qj, outj) :: o2 -> i ∉ map (fun x => x.1.1) o2;
}.
End Spec.

(** The calls made, in order. *)
Definition calls_made {IN OUT} (tr : list (event IN OUT)) : list N :=
  omap (fun e => match e with Called i _ => Some i | _ => None end) tr.
(** A call that was made, and neither returned nor was cancelled. *)
Definition outstanding {IN OUT} (tr : list (event IN OUT)) (i : N) : Prop :=
  i ∈ calls_made tr /\ (forall r, Returned i r ∉ tr) /\ Cancelled i ∉ tr.
