(** Specification of structured bindings. *)

From Coq Require Import ZArith Arith List.
From Verif Require Import Base BindModel.
Import ListNotations.

(** A tuple-like type has [n] elements. *)
Inductive has_elements : tuple_like -> nat -> Prop :=
| buffer_elements : forall t n, has_elements (Buffer t (Z.of_nat n)) n
| reference_elements : forall ts, has_elements (SoaReference ts) (length ts)
| span_elements : forall ts, has_elements (SoaSpan ts) (length ts)
| sequence_elements : forall ts, has_elements (TypeSequence ts) (length ts)
| constants_elements : forall n, has_elements (Constants n) n.

(** The type of element number I. *)
Inductive element_type : tuple_like -> nat -> ty -> Prop :=
| buffer_type : forall t n I, I < n -> element_type (Buffer t (Z.of_nat n)) I t
| reference_type : forall ts I t, nth_error ts I = Some t -> element_type (SoaReference ts) I t
| span_type : forall ts I t, nth_error ts I = Some t -> element_type (SoaSpan ts) I (TSpan t)
| sequence_type : forall ts I t, nth_error ts I = Some t -> element_type (TypeSequence ts) I (TIdentity t)
| constants_type : forall n I, I < n -> element_type (Constants n) I (TConstval I).

(** Const versions of types; there is only one level of const. *)
Inductive const_version : ty -> ty -> Prop :=
| const_already : forall t, const_version (TConst t) (TConst t)
| const_added : forall t, (forall t', t <> TConst t') -> const_version t (TConst t).
(** The type of a name: const if declared so. *)
Definition declared_type (f : form) (t t' : ty) : Prop :=
  match f with ByConstValue | ByConstRef => const_version t t' | _ => t' = t end.

(** What the name number I should denote: the element itself; an element of a copy when declared by value; references stay references to the arrays. *)
Inductive names_element (f : form) : tuple_like -> nat -> denoted -> Prop :=
| names_copy : forall t e I t', f = ByValue \/ f = ByConstValue -> declared_type f t t' -> names_element f (Buffer t e) I (InCopy I t')
| names_object : forall t e I t', f = ByRef \/ f = ByConstRef \/ f = ByRvalueRef -> declared_type f t t' -> names_element f (Buffer t e) I (InObject I t')
| names_array : forall ts I t t', nth_error ts I = Some t -> declared_type f t t' -> names_element f (SoaReference ts) I (InArrays I t')
| names_span : forall ts I t t', nth_error ts I = Some t -> declared_type f (TSpan t) t' -> names_element f (SoaSpan ts) I (Own I t')
| names_identity : forall ts I t t', nth_error ts I = Some t -> declared_type f (TIdentity t) t' -> names_element f (TypeSequence ts) I (Own I t')
| names_constant : forall n I t', declared_type f (TConstval I) t' -> names_element f (Constants n) I (Own I t').
(** All names. *)
Definition names_all (f : form) (u : tuple_like) (n : nat) (l : list denoted) : Prop :=
  length l = n /\ forall I d, nth_error l I = Some d -> names_element f u I d.

(** A buffer of objects that are not const, declared by value or as rvalue reference. *)
Definition modifiable_rvalue (f : form) (u : tuple_like) : Prop :=
  exists t e, u = Buffer t e /\ (forall t', t <> TConst t') /\ (f = ByValue \/ f = ByRvalueRef).
