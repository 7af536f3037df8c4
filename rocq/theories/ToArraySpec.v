(** Specification of constval_range_to_array(). *)

From Coq Require Import Arith Bool List.
From Verif Require Import Base ToArrayModel.
Import ListNotations.

(** The array holds the elements of the range, in order and one by one; further elements are default. *)
Definition holds {A T : Type} (assign : A -> outcome T) (d : T) (l : list A) (out : list T) : Prop :=
  (forall i a, nth_error l i = Some a -> exists x, assign a = Ok x /\ nth_error out i = Some x) /\
  (forall i x, length l <= i -> nth_error out i = Some x -> x = d).

(** The range says how many elements it has. *)
Definition honest {A : Type} (r : rng A) : Prop := size_of r = Some (length (yields r)).
