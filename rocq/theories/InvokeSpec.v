(** Specification of invoke() and apply(): the operation INVOKE of the C++ standard ([func.require]). *)

From Coq Require Import List.
From Verif Require Import Base InvokeModel.
Import ListNotations.

Section Spec.
  Variables (C O V S : Type) (base_of : C -> C -> bool) (class_of : O -> C).
  Notation argument := (argument O V).

  (** What INVOKE(f, args...) means; the first argument of a member pointer denotes an object, directly or not. *)
  Inductive denotes : argument -> O -> Prop :=
  | denotes_object : forall o, denotes (Object o) o
  | denotes_wrapper : forall o, denotes (Wrapper o) o
  | denotes_pointer : forall o, denotes (Pointer o) o.
  Inductive invokes : callable C O V S -> list argument -> S -> S * outcome argument -> Prop :=
  | invokes_function : forall f args s, invokes (Function f) args s (f s args)
  | invokes_member_function : forall c f t1 args o s, denotes t1 o -> base_of c (class_of o) = true ->
      invokes (MemberFunction c f) (t1 :: args) s (f s o args)
  | invokes_data_member : forall c f t1 o s, denotes t1 o -> base_of c (class_of o) = true ->
      invokes (DataMember c f) [t1] s (f s o).
End Spec.
