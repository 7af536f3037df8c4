(** Specification of swaps and of rearrangements that were interrupted. *)

From Coq Require Import ZArith Arith List Permutation.
From Verif Require Import Base.
Import ListNotations.
Local Open Scope Z_scope.

(** [es'] is [es] with the elements at positions a and b exchanged. *)
Definition exchanged {A} (es : list A) (a b : Z) (es' : list A) : Prop :=
  length es' = length es /\
  nth_error es' (Z.to_nat a) = nth_error es (Z.to_nat b) /\
  nth_error es' (Z.to_nat b) = nth_error es (Z.to_nat a) /\
  forall k, Z.of_nat k <> a -> Z.of_nat k <> b -> nth_error es' k = nth_error es k.

(** What a swap that throws leaves behind: *)
(** everything as it was (strong guarantee), *)
Definition untouched {A} (es : list A) (a b : Z) (es' : list A) : Prop := es' = es.
(** or the two elements in any state, but all others as they were. *)
Definition two_damaged {A} (es : list A) (a b : Z) (es' : list A) : Prop :=
  length es' = length es /\ forall k, Z.of_nat k <> a -> Z.of_nat k <> b -> nth_error es' k = nth_error es k.

(** A swap operation for the [n] elements that [elems] reads off the state.  It is to work for two different positions; it
    may throw.  [inv] is whatever it relies on. *)
Definition swap_operation {St A} (inv : St -> Prop) (elems : St -> list A) (damage : list A -> Z -> Z -> list A -> Prop) (n : Z)
    (swap : St -> Z -> Z -> St * outcome unit) : Prop :=
  forall st, inv st -> Z.of_nat (length (elems st)) = n ->
  forall a b, 0 <= a < n -> 0 <= b < n -> a <> b ->
    let '(st', o) := swap st a b in
    inv st' /\
    ((o = Ok tt /\ exchanged (elems st) a b (elems st')) \/
     (exists e, o = Throw e /\ damage (elems st) a b (elems st'))).

(** Calls that did not return normally, one after the other, each starting from what the previous one left behind. *)
Inductive attempted {S} (call : S -> S * outcome unit) : S -> S -> Prop :=
| no_attempt : forall s, attempted call s s
| failed_attempt : forall s s1 s2 o, call s = (s1, o) -> o <> Ok tt -> attempted call s1 s2 -> attempted call s s2.

(** A swap that never throws. *)
Definition no_throw {A} (es : list A) (a b : Z) (es' : list A) : Prop := False.

(** A source of draws in the requested range, which may throw. *)
Definition draws_in_range {G} (dist : G -> Z -> Z -> G * outcome Z) : Prop :=
  forall g i, 0 < i -> match snd (dist g 0 i) with Ok j => 0 <= j <= i | Throw _ => True | _ => False end.

(** The source that delivers a given list of draws. *)
Definition scripted_draws (ds : list Z) (_ _ : Z) : list Z * outcome Z :=
  match ds with [] => ([], Ok 0) | d :: r => (r, Ok d) end.
