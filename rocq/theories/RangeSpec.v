(** Specification of ranges. *)

From Coq Require Import ZArith Arith Bool List.
From Verif Require Import Base.
Import ListNotations.
Local Open Scope Z_scope.

(** Values of std::ptrdiff_t. *)
Definition representable (z : Z) : Prop := - 2 ^ 63 <= z < 2 ^ 63.

(** first, first + 1, ..., last - 1. *)
Definition interval (first last : Z) : list Z :=
  map (fun k => first + Z.of_nat k) (seq 0 (Z.to_nat (last - first))).

(** The elements at positions first, ..., last - 1 of a sequence. *)
Definition window {A : Type} (mem : list A) (first last : Z) : list A :=
  firstn (Z.to_nat (last - first)) (skipn (Z.to_nat first) mem).
