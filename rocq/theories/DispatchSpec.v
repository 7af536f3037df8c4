(** Specification of dispatching runtime values to constants. *)

From Coq Require Import ZArith Arith List Permutation.
From Verif Require Import Base ExpandSpec.
Import ListNotations.
Local Open Scope Z_scope.

(** [order] lists the positions of [n] arguments, each once. *)
Definition evaluation_order (n : nat) (order : list nat) : Prop := Permutation order (seq 0 n).

(** A runtime value of a type with [bits] bits, and the distinct constants of that type to choose from, for which expand() is
    exact (C13). *)
Definition expandable (bits : Z) (signed : bool) (values : list Z) (value : Z) : Prop :=
  standard_width bits /\ int_value bits signed value /\ Forall (int_value bits signed) values /\
  array_size_ok values /\ NoDup values /\ values <> [] /\
  largest_last bits signed values /\ distance_ok bits signed value values.
