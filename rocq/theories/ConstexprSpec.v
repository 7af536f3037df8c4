(** Specification of evaluation in constant expressions. *)

From Coq Require Import ZArith Arith List.
From Verif Require Import Base ZipModel ZipSpec.
Import ListNotations.
Local Open Scope Z_scope.

(** Some range has a size() or a compile-time size. *)
Definition sized (rs : list rng) : Prop := exists r, In r rs /\ holds_elements r /\ r_known r <> KUnknown.

(** A constant expression has the value the evaluation at run time has, and is rejected if that does not return. *)
Definition same_as_run {S A : Type} (c : outcome (S * A)) (r : S * outcome A) : Prop :=
  (forall s a, c = Ok (s, a) <-> r = (s, Ok a)) /\ ((forall a, snd r <> Ok a) -> snd r <> OutOfFuel -> c = IllFormed).

(** The first [n] of a list of indices are their own positions. *)
Definition in_place (n : nat) (idx : list Z) : Prop := forall k, (k < n)%nat -> nth_error idx k = Some (Z.of_nat k).

(** All draws n, n-1, ..., 1 yield the upper bound. *)
Fixpoint draws_bound {S : Type} (dist : S -> Z -> Z -> S * Z) (n : nat) (s s' : S) : Prop :=
  match n with
  | O => s' = s
  | Datatypes.S n' => snd (dist s 0 (Z.of_nat n)) = Z.of_nat n /\ draws_bound dist n' (fst (dist s 0 (Z.of_nat n))) s'
  end.
