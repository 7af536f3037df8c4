(** Specification of type enumerations: an object stands for one of the types. *)

From Coq Require Import ZArith Arith List.
Import ListNotations.

(** The object [e] stands for the type [t]: the one at position [e]. *)
Definition stands_for {T : Type} (ts : list T) (e : Z) (t : T) : Prop := (0 <= e)%Z /\ nth_error ts (Z.to_nat e) = Some t.
