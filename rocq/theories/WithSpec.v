(** Specification of with() and single(). *)

From Coq Require Import ZArith Arith Bool List.
Import ListNotations.

(** [t'] equals [t] except that element [i] is [x]. *)
Definition replaced {E : Type} (t : list E) (i : nat) (x : E) (t' : list E) : Prop :=
  length t' = length t /\ nth_error t' i = Some x /\ forall j, j <> i -> nth_error t' j = nth_error t j.

(** The elements with a type that satisfies [pred]. *)
Definition matches {T V : Type} (pred : T -> bool) (t : list (T * V)) : list (T * V) := filter (fun e => pred (fst e)) t.
