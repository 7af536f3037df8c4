(** Which values determine the type of a constant. *)

From Coq Require Import List.
From Verif Require Import CtypeModel.
Import ListNotations.

(** Values made of non-type template arguments with std::array<> and std::tuple<> only. *)
Inductive structural : cval -> Prop :=
| struct_int : forall k z, structural (VN k z)
| struct_array : forall t l, (forall x, In x l -> structural x) -> structural (VA t l)
| struct_tuple : forall l, (forall x, In x l -> structural x) -> structural (VT l).

(** Values that the type system of C++ admits: all elements of an array have its element type. *)
Inductive well_typed : cval -> Prop :=
| typed_int : forall k z, well_typed (VN k z)
| typed_array : forall t l, (forall x, In x l -> well_typed x /\ type_of x = t) -> well_typed (VA t l)
| typed_tuple : forall l, (forall x, In x l -> well_typed x) -> well_typed (VT l)
| typed_like : forall k z l, (forall x, In x l -> well_typed x) -> well_typed (VL k z l)
| typed_other : forall k z, well_typed (VO k z).
