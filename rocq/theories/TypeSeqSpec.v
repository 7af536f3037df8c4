(** Specification of operations on type lists. *)

From Coq Require Import ZArith Arith List.
Import ListNotations.

(** [p] is the only position of an element satisfying [Q]. *)
Definition only_position {T} (Q : T -> Prop) (ts : list T) (p : nat) : Prop :=
  (exists t, nth_error ts p = Some t /\ Q t) /\
  forall j t, nth_error ts j = Some t -> Q t -> j = p.

(** [p] is the first position of an element satisfying [Q]. *)
Definition first_position {T} (Q : T -> Prop) (ts : list T) (p : nat) : Prop :=
  (exists t, nth_error ts p = Some t /\ Q t) /\
  forall j t, j < p -> nth_error ts j = Some t -> ~ Q t.

(** [p] is the last position of [t]. *)
Definition last_position {T} (ts : list T) (t : T) (p : nat) : Prop :=
  nth_error ts p = Some t /\ forall j, p < j -> nth_error ts j <> Some t.

(** [a] comes before [b] in [ts]. *)
Definition before {T} (ts : list T) (a b : T) : Prop :=
  exists i j, i < j /\ nth_error ts i = Some a /\ nth_error ts j = Some b.

(** [us] is obtained by deleting elements of [ts], keeping the order. *)
Inductive sublist {T} : list T -> list T -> Prop :=
| sub_nil : sublist [] []
| sub_keep : forall x us ts, sublist us ts -> sublist (x :: us) (x :: ts)
| sub_drop : forall x us ts, sublist us ts -> sublist us (x :: ts).
