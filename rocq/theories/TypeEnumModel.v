(** Model of type enumerations: /repo/include/makeshift/experimental/enum.hpp:137-175,
    /repo/include/makeshift/experimental/detail/enum.hpp:35-154, /repo/include/makeshift/experimental/utility.hpp:29-69.

    A type enumeration is the list of its types; an object of it is its value_.  Objects are only produced by the
    functions below (value_t has the fixed underlying type std::int32_t, so that casts between the two keep the value). *)

From Coq Require Import ZArith Arith Bool List.
From Verif Require Import Base ExpandModel TypeSeqModel.
Import ListNotations.

Section TypeEnum.
  Context {T : Type}.
  Variable eq_dec : forall a b : T, {a = b} + {a <> b}.

  (** The static_assert of define_type_enum_base<>: experimental/detail/enum.hpp:38. *)
  Definition type_enum_ok (ts : list T) : bool := Nat.ltb (length ts) 24.

  (** The constructor from std::int32_t, experimental/detail/enum.hpp:70-73, which delegates to the one from value_t, 65-69 (gsl_Expects).
      The specialisation for an empty list, 91-112, has neither. *)
  Definition enum_of_int (ts : list T) (v : Z) : outcome Z :=
    if negb (type_enum_ok ts) then IllFormed
    else match ts with
         | [] => IllFormed
         | _ => do _ <- expects ((0 <=? v)%Z && (v <? cast int32 (Z.of_nat (length ts)))%Z); Ok v
         end.

  (** type_tag<T>::operator EnumT() for a type enumeration or its value_t: experimental/utility.hpp:37-45 (enable_if), which calls
      the constructor from int for the former. *)
  Definition enum_of_type (ts : list T) (t : T) : outcome Z :=
    if negb (type_enum_ok ts) then IllFormed
    else if Z.eqb (search_type_pack_index eq_dec t ts) (-1) then IllFormed
    else enum_of_int ts (cast int32 (search_type_pack_index eq_dec t ts)).
  (** A case label type_c<T> in a switch statement over an object: conversion to value_t, experimental/utility.hpp:37-45. *)
  Definition case_label (ts : list T) (t : T) : outcome Z :=
    if negb (type_enum_ok ts) then IllFormed
    else if Z.eqb (search_type_pack_index eq_dec t ts) (-1) then IllFormed
    else Ok (cast int32 (search_type_pack_index eq_dec t ts)).

  (** Conversion to std::int32_t: experimental/detail/enum.hpp:80. *)
  Definition enum_to_int (e : Z) : Z := e.
  (** ==, != of two objects: experimental/detail/enum.hpp:82-89. *)
  Definition enum_eq (a b : Z) : bool := Z.eqb a b.
  (** experimental/detail/enum.hpp:86-89. *)
  Definition enum_ne (a b : Z) : bool := negb (enum_eq a b).
  (** ==, != of an object and type_c<T>, in both orders: experimental/detail/enum.hpp:131-154 (enable_if). *)
  Definition enum_eq_type (ts : list T) (e : Z) (t : T) : outcome bool :=
    if Z.eqb (search_type_pack_index eq_dec t ts) (-1) then IllFormed
    else Ok (Z.eqb (cast int32 (search_type_pack_index eq_dec t ts)) e).
  (** experimental/detail/enum.hpp:131-154. *)
  Definition type_eq_enum (ts : list T) (t : T) (e : Z) : outcome bool := enum_eq_type ts e t.
  (** experimental/detail/enum.hpp:131-154. *)
  Definition enum_ne_type (ts : list T) (e : Z) (t : T) : outcome bool := do b <- enum_eq_type ts e t; Ok (negb b).
  (** experimental/detail/enum.hpp:131-154. *)
  Definition type_ne_enum (ts : list T) (t : T) (e : Z) : outcome bool := do b <- enum_eq_type ts e t; Ok (negb b).
  (** ==, != of type_c<T1> and type_c<T2>: experimental/utility.hpp:58-69. *)
  Definition type_eq (a b : T) : bool := same eq_dec a b.
  (** experimental/utility.hpp:64-69. *)
  Definition type_ne (a b : T) : bool := negb (same eq_dec a b).

  (** type_enum_default_values<>: experimental/detail/enum.hpp:114-129. *)
  Definition default_values (ts : list T) : outcome (list Z) := mapM (enum_of_type ts) ts.
End TypeEnum.
