(** Specification of overload: which call operator is to be called. *)

From Coq Require Import Arith Bool List.
From Verif Require Import Base OverloadModel.
Import ListNotations.

Section Spec.
  Variable ty : Type.
  Variable conv : ty -> ty -> option nat.

  (** An argument of type [t] is passed to parameter [p] with rank [r]. *)
  Definition passes (t : ty) (p : param ty) (r : nat) : Prop :=
    (p = Auto /\ r = 0) \/ exists u, p = Of u /\ conv t u = Some r.

  (** The operator can be called with these arguments on an object that is const or not. *)
  Definition callable (obj_const : bool) (args : list ty) (o : op ty) : Prop :=
    (obj_const = true -> op_const o = true) /\ Forall2 (fun t p => exists r, passes t p r) args (op_params o).

  (** No argument (or the object) is passed to [o] with a worse conversion than to [o']. *)
  Definition as_good (obj_const : bool) (args : list ty) (o o' : op ty) : Prop :=
    (obj_const = false -> op_const o = true -> op_const o' = true) /\
    forall i t p p' r r', nth_error args i = Some t -> nth_error (op_params o) i = Some p -> nth_error (op_params o') i = Some p' ->
      passes t p r -> passes t p' r' -> r <= r'.

  (** The object or some argument is passed to [o] with a better conversion than to [o']. *)
  Definition better_somewhere (obj_const : bool) (args : list ty) (o o' : op ty) : Prop :=
    (obj_const = false /\ op_const o = false /\ op_const o' = true) \/
    exists i t p p' r r', nth_error args i = Some t /\ nth_error (op_params o) i = Some p /\ nth_error (op_params o') i = Some p' /\
      passes t p r /\ passes t p' r' /\ r < r'.

  Definition generic (o : op ty) : Prop := In Auto (op_params o).

  (** Whatever [o] accepts exactly, [o'] accepts exactly. *)
  Definition covered_by (o o' : op ty) : Prop := Forall2 (fun p q => q = Auto \/ p = q) (op_params o) (op_params o').

  Definition preferred (obj_const : bool) (args : list ty) (o o' : op ty) : Prop :=
    as_good obj_const args o o' /\
    (better_somewhere obj_const args o o' \/
     (~ generic o /\ generic o') \/
     (generic o /\ generic o' /\ covered_by o o' /\ ~ covered_by o' o)).

  (** [o] is the [k]-th call operator of class [id], which is the functor or among its base classes. *)
  Inductive has_operator : functor ty -> nat -> nat -> op ty -> Prop :=
  | has_own : forall id ops k o, nth_error ops k = Some o -> has_operator (Class id ops) id k o
  | has_inherited : forall fs f id k o, In f fs -> has_operator f id k o -> has_operator (Over fs) id k o.

  (** The operator that a call selects. *)
  Definition selected (f : functor ty) (obj_const : bool) (args : list ty) (id k : nat) (o : op ty) : Prop :=
    has_operator f id k o /\ callable obj_const args o /\
    forall id' k' o', has_operator f id' k' o' -> callable obj_const args o' -> (id', k') <> (id, k) -> preferred obj_const args o o'.

  (** A list of functors that overload() is meant for: classes with call operators, all different. *)
  Definition usable (fs : list (functor ty)) : Prop :=
    Forall (fun f => exists id ops, f = Class id ops /\ ops <> []) fs /\ NoDup (flat_map classes fs).
End Spec.
Arguments generic {ty}. Arguments covered_by {ty}. Arguments has_operator {ty}. Arguments usable {ty}.
