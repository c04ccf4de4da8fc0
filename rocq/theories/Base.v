(** Shared vocabulary of the model: results of Rust calls and bytes. *)
From stdpp Require Export base list gmap sorting fin_maps strings.
From Coq Require Export NArith Lia.
Open Scope N_scope.

(** Result of a Rust function returning [Result<A, E>]: [Ok], [Err], or the
    process aborting ([panic!], [unwrap] on [None], failed [assert!], slice
    index out of range, arithmetic underflow). *)
Inductive res (E A : Type) : Type :=
| Ok (a : A)
| Err (e : E)
| Panic.
Arguments Ok {E A} a.
Arguments Err {E A} e.
Arguments Panic {E A}.

Definition res_bind {E A B} (r : res E A) (f : A -> res E B) : res E B :=
  match r with
  | Ok a => f a
  | Err e => Err e
  | Panic => Panic
  end.
Notation "'let!' x := r 'in' k" := (res_bind r (fun x => k))
  (at level 200, x pattern, r at level 100, k at level 200).

Definition res_map {E A B} (f : A -> B) (r : res E A) : res E B :=
  match r with
  | Ok a => Ok (f a)
  | Err e => Err e
  | Panic => Panic
  end.

(** [Option::unwrap] / [expect]. *)
Definition unwrap {E A} (o : option A) : res E A :=
  match o with
  | Some a => Ok a
  | None => Panic
  end.

(** [prost::bytes::Bytes]; a byte is a number (0..255 in the code, the model
    does not use the bound). *)
Notation bytes := (list N).

(** Length of a list as a number, Rust's [len() as u64]. *)
Definition Nlen {A} (l : list A) : N := N.of_nat (length l).

Definition u32_max : N := 4294967295.
Definition i32_max : N := 2147483647.
Definition u64_max : N := 18446744073709551615.
