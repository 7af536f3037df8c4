(** Model of single(), single_or_default() and with(): /repo/include/makeshift/experimental/tuple.hpp,
    /repo/include/makeshift/experimental/detail/tuple.hpp.

    A tuple is the list of its elements, each with its type; types are the elements of a type [T].  [convert t u v]
    is the value of an element of type [t] converted to type [u] ([None]: not convertible).  Elements of
    reference types are not modelled. *)

From Coq Require Import ZArith Arith Bool List.
From Verif Require Import Base TypeSeqModel.
Import ListNotations.

Section With.
  Context {T V : Type}.
  Variable eq_dec : forall a b : T, {a = b} + {a <> b}.
  Variable convert : T -> T -> V -> option V.
  (** Whether overload resolution ranks the two overloads of get_or_replace<I>(), experimental/detail/tuple.hpp:32-42, for
      J = I.  By the language rules it does not: explicitly specified template arguments do not take part in partial
      ordering, which then sees std::integral_constant<std::size_t, J> and std::integral_constant<std::size_t, I>,
      each with one parameter to be deduced; the call is ambiguous. *)
  Variable ranks_explicit : bool.

  Local Notation elem := (T * V)%type.

  (** get<I>() of a tuple, called in experimental/tuple.hpp:42, experimental/detail/tuple.hpp:22, 36. *)
  Definition tget (t : list elem) (i : nat) : outcome elem := match nth_error t i with Some e => Ok e | None => IllFormed end.

  (** get_or_replace<I>(): experimental/detail/tuple.hpp:32-42. *)
  Definition get_or_replace (i : nat) (t : list elem) (newElement : elem) (j : nat) : outcome elem :=
    if Nat.eqb j i then (if ranks_explicit then Ok newElement else IllFormed) else tget t j.

  (** replace_element<I, NewT, J, TupleT>: experimental/detail/tuple.hpp:44-45; note tuple_element<I, ...>. *)
  Definition replace_element (i : nat) (newT : T) (j : nat) (types : list T) : outcome T :=
    if Nat.eqb j i then Ok newT else nth_type i types.
  (** with_element<>: experimental/detail/tuple.hpp:47-49. *)
  Definition with_element (i : nat) (newT : T) (types : list T) : outcome (list T) :=
    mapM (fun j => replace_element i newT j types) (seq 0 (length types)).

  (** Initialising an element of type [u] of the result: experimental/detail/tuple.hpp:56. *)
  Definition init_element (u : T) (e : elem) : outcome elem :=
    match convert (fst e) u (snd e) with Some v => Ok (u, v) | None => IllFormed end.
  (** RTuple{ ... }: experimental/detail/tuple.hpp:55-56. *)
  Fixpoint init_elements (us : list T) (es : list elem) : outcome (list elem) :=
    match us, es with
    | [], [] => Ok []
    | u :: us', e :: es' => do x <- init_element u e; do r <- init_elements us' es'; Ok (x :: r)
    | _, _ => IllFormed
    end.
  (** with<I>(): experimental/detail/tuple.hpp:51-57, experimental/tuple.hpp:70-76. *)
  Definition with_index (i : nat) (t : list elem) (newElement : elem) : outcome (list elem) :=
    do us <- with_element i (fst newElement) (map fst t);
    do es <- mapM (get_or_replace i t newElement) (seq 0 (length t));
    init_elements us es.
  (** with<T>(): experimental/tuple.hpp:84-91; with(pred): experimental/tuple.hpp:99-105. *)
  Definition with_type (ty : T) (t : list elem) (newElement : elem) : outcome (list elem) :=
    do i <- tuple_element_index true (same eq_dec ty) (map fst t); with_index (Z.to_nat i) t newElement.
  (** with(pred): experimental/tuple.hpp:99-105. *)
  Definition with_pred (pred : T -> bool) (t : list elem) (newElement : elem) : outcome (list elem) :=
    do i <- tuple_element_index true pred (map fst t); with_index (Z.to_nat i) t newElement.

  (** single(): experimental/tuple.hpp:32-43.  [tuple_type] and [pred_type] are the types of the arguments: search_type_pack_index<>
      looks for the first of them in the list of the second. *)
  Definition single (tuple_type : T) (t : list elem) (pred_type : T) : outcome elem :=
    let index := search_type_pack_index eq_dec tuple_type [pred_type] in
    if Z.eqb index (-1) then IllFormed else if Z.eqb index (-2) then IllFormed else tget t (Z.to_nat index).
  (** single_or_default(): experimental/tuple.hpp:52-61, experimental/detail/tuple.hpp:17-29.  The first overload there has a template parameter
      of type std::size_t where the argument has one of type std::ptrdiff_t, so that its deduction always fails. *)
  Definition single_or_default (tuple_type : T) (t : list elem) (pred_type : T) (default : elem) : outcome elem :=
    let index := search_type_pack_index eq_dec tuple_type [pred_type] in
    if Z.eqb index (-2) then IllFormed else if Z.eqb index (-1) then Ok default else IllFormed.

  (** The calls, with the value category of the tuple.  single(), single_or_default(), with<I>() and with<T>() are constrained by
      is_tuple_like_v<TupleT>, experimental/tuple.hpp:33, 53, 71, 85, where TupleT is a reference type if the argument is an lvalue;
      std::tuple_size<> has no value for reference types (detail/type_traits.hpp:202-203).  with(pred), 99-105, is not constrained
      but passes the tuple on to with<I>(). *)
  Definition is_tuple_like (lvalue : bool) : bool := negb lvalue.
  (** experimental/tuple.hpp:33. *)
  Definition single_call (lvalue : bool) (tuple_type : T) (t : list elem) (pred_type : T) : outcome elem :=
    if is_tuple_like lvalue then single tuple_type t pred_type else IllFormed.
  (** experimental/tuple.hpp:53. *)
  Definition single_or_default_call (lvalue : bool) (tuple_type : T) (t : list elem) (pred_type : T) (default : elem) : outcome elem :=
    if is_tuple_like lvalue then single_or_default tuple_type t pred_type default else IllFormed.
  (** experimental/tuple.hpp:71. *)
  Definition with_index_call (lvalue : bool) (i : nat) (t : list elem) (newElement : elem) : outcome (list elem) :=
    if is_tuple_like lvalue then with_index i t newElement else IllFormed.
  (** experimental/tuple.hpp:85-91. *)
  Definition with_type_call (lvalue : bool) (ty : T) (t : list elem) (newElement : elem) : outcome (list elem) :=
    if is_tuple_like lvalue then do i <- tuple_element_index true (same eq_dec ty) (map fst t); with_index_call lvalue (Z.to_nat i) t newElement
    else IllFormed.
  (** experimental/tuple.hpp:99-105. *)
  Definition with_pred_call (lvalue : bool) (pred : T -> bool) (t : list elem) (newElement : elem) : outcome (list elem) :=
    do i <- tuple_element_index true pred (map fst t); with_index_call lvalue (Z.to_nat i) t newElement.
End With.
