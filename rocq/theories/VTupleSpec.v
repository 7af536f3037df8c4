(** Specification of the value categories of value_tuple<>. *)

From Coq Require Import Arith Bool List.
From Verif Require Import Base VTupleModel.
Import ListNotations.

(** The argument is moved from: a non-const rvalue whose class has a move constructor. *)
Definition moved_from (a : carg) : Prop := a_lvalue a = false /\ a_const a = false /\ move (a_class a) = MoveYes.
(** The argument can be passed: it is moved, or copied by a copy constructor that rvalues may use. *)
Definition passable (a : carg) : Prop :=
  moved_from a \/ (copyable (a_class a) = true /\ (a_lvalue a = true \/ a_const a = true \/ move (a_class a) = MoveNone)).
(** No object is used after it has been moved from. *)
Definition no_use_after_move (args : list carg) : Prop :=
  forall j k a b, j < k -> nth_error args j = Some a -> nth_error args k = Some b -> moved_from a -> a_obj b <> a_obj a.

(** What happens to parameter and element [i]. *)
Definition once (es : list event) (p : event -> bool) : Prop := length (filter p es) = 1.
Definition is_param (i : nat) (e : event) : bool := match e with CopyParam j | MoveParam j => Nat.eqb i j | _ => false end.
Definition is_elem (i : nat) (e : event) : bool := match e with CopyElem j => Nat.eqb i j | _ => false end.
Definition is_destroy (i : nat) (e : event) : bool := match e with DestroyParam j => Nat.eqb i j | _ => false end.

(** Whether an element of this type can be modified through a tuple that is not const: not if the element is const or refers to
    something const. *)
Definition modifiable (e : ety) : bool :=
  match e with EObj true | ELRef true | ERRef true => false | EObj false | ELRef false | ERRef false => true end.
