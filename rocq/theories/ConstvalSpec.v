(** Specification of constvals. *)

From Coq Require Import ZArith Arith Bool List.
From Verif Require Import Base ConstvalModel.
Import ListNotations.

Section Spec.
  (** The value of a constval. *)
  Variable value_of : cv -> value -> Prop.
  Variable constval_class : cv -> Prop.

  (** The value without constvals that a value stands for: constvals, alone or as elements of tuples, stand for their values. *)
  Inductive stands_for : value -> value -> Prop :=
  | sf_constval : forall c w, constval_class c -> value_of c w -> stands_for (VConst c) w
  | sf_tuple : forall vs ws, Forall2 stands_for vs ws -> stands_for (VTuple vs) (VTuple ws)
  | sf_plain : forall v, has_tag v = false -> stands_for v v.
End Spec.

(** The documented representation of a value (constval.hpp:46-54). *)
Inductive represents : value -> cv -> Prop :=
| rep_nttp : forall k z, represents (VNttp k z) (CInt k z)
| rep_array : forall b l, represents (VArray b l) (CArr b l)
| rep_tuple : forall l cs, Forall2 represents l cs -> represents (VTuple l) (CTup cs)
| rep_like : forall k l F, represents (VLike k l) (CLike F)
| rep_other : forall k z F, represents (VOther k z) (CConstval F)
| rep_ref : forall k z, represents (VOther k z) (CRef (VOther k z))
| rep_object : forall c F, is_tag c = false -> represents (VConst c) (CConstval F)
| rep_object_ref : forall c, is_tag c = false -> represents (VConst c) (CRef (VConst c)).

(** Objects without state: of empty class.  [ebo]: a tuple of such objects is one, too. *)
Inductive stateless (ebo : bool) : value -> Prop :=
| sl_object : forall c, stateless ebo (VConst c)
| sl_empty : stateless ebo (VTuple [])
| sl_tuple : forall l, ebo = true -> Forall (stateless ebo) l -> stateless ebo (VTuple l).
