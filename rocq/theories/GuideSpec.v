(** Specification of declarations with deduced template arguments. *)

From Coq Require Import Arith List.
From Verif Require Import Base GuideModel.
Import ListNotations.

(** Which type an argument stands for. *)
Inductive stands_for : template -> arg -> ty -> Prop :=
| stands_itself : forall k a, k = Overload \/ k = Composition \/ k = YCombinator \/ k = ValueTuple -> stands_for k a (a_ty a)
| stands_identity : forall a t, a_ty a = Identity t -> stands_for TypeSequence a t
| stands_span : forall a t, a_ty a = Span t -> stands_for SoaSpan a t.

(** The argument is an object of the same class template. *)
Definition same_template (k : template) (args : list arg) : Prop := exists a ts, args = [a] /\ a_ty a = Inst k ts.

(** Objects that can be copied: what they consist of can be. *)
Inductive can_copy : ty -> Prop :=
| copy_class : forall i c f, can_copy (Class i c f true)
| copy_scalar : forall i, can_copy (Scalar i)
| copy_integer : can_copy Integer
| copy_identity : forall t, can_copy (Identity t)
| copy_span : forall t, can_copy (Span t)
| copy_pointers : forall ts, can_copy (Pointers ts)
| copy_parts : forall k ts, Forall can_copy ts -> can_copy (Inst k ts)
| copy_no_parts : forall k ts, k = Composition \/ k = TypeSequence \/ k = SoaSpan -> can_copy (Inst k ts).
(** The argument can be passed by value. *)
Definition can_pass (a : arg) : Prop := a_copy a = true -> can_copy (a_ty a).

(** Classes with a call operator that can be base classes. *)
Inductive functor : ty -> Prop :=
| functor_class : forall i y, functor (Class i true false y)
| functor_overload : forall t ts, functor (Inst Overload (t :: ts))
| functor_y : forall ts, functor (Inst YCombinator ts)
| functor_sequence : forall ts, functor (Inst TypeSequence ts).
(** What overload can be made of. *)
Definition functors (args : list arg) : Prop :=
  (forall a, In a args -> functor (a_ty a) /\ can_pass a) /\ NoDup (map a_ty args).

(** Number of copies made of an argument. *)
Fixpoint copies (l : list op) : nat := match l with [] => 0 | Copy :: r => S (copies r) | Move :: r => copies r end.
(** An lvalue is copied once, an rvalue is only moved. *)
Definition passed (a : arg) (l : list op) : Prop := copies l = if a_copy a then 1 else 0.
