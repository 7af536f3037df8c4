(** Model of the metafunctions on type lists: /repo/include/makeshift/detail/type_traits.hpp:35-170,222-228,
    /repo/include/makeshift/type_traits.hpp:24-194, /repo/include/makeshift/utility.hpp:71-102,
    /repo/include/makeshift/experimental/detail/variant.hpp:34-45.

    Types are the elements of a type [T] with decidable equality; a template instantiation X<Ts...> is the list of
    its arguments (the template itself is kept by all functions modelled here). *)

From Coq Require Import ZArith Arith Bool List.
From Verif Require Import Base.
Import ListNotations.

Section TypeSeq.
  Context {T : Type}.
  Variable eq_dec : forall a b : T, {a = b} + {a <> b}.

  (** std::is_same<>.  As used in detail/type_traits.hpp:111-112, 133, 169. *)
  Definition same (a b : T) : bool := if eq_dec a b then true else false.

  (** is_in_<T, Ts...>: detail/type_traits.hpp:128-133 (T is a leaf of the set of bases). *)
  Definition is_in (t : T) (ts : list T) : bool := existsb (same t) ts.

  (** is_in_v<T, Ts...>: type_traits.hpp:179-181; the argument list is dropped. *)
  Definition is_in_v (t : T) (ts : list T) : bool := is_in t [].

  (** unique_sequence_0_, unique_sequence_1_: detail/type_traits.hpp:135-140. *)
  Fixpoint unique_sequence_0 (rs ts : list T) : list T :=
    match ts with
    | [] => rs
    | t0 :: ts' => if is_in t0 ts' then unique_sequence_0 rs ts' else unique_sequence_0 (rs ++ [t0]) ts'
    end.
  (** unique_sequence_<>: detail/type_traits.hpp:141-142, type_traits.hpp:187-194. *)
  Definition unique_sequence (ts : list T) : list T := unique_sequence_0 [] ts.

  (** filter_sequence_0_, filter_sequence_1_: detail/type_traits.hpp:144-158. *)
  Fixpoint filter_sequence_0 (pred : T -> bool) (rs ts : list T) : list T :=
    match ts with
    | [] => rs
    | t0 :: ts' => if pred t0 then filter_sequence_0 pred (rs ++ [t0]) ts' else filter_sequence_0 pred rs ts'
    end.
  (** filter_sequence_<>: detail/type_traits.hpp:160-163. *)
  Definition filter_sequence (pred : T -> bool) (ts : list T) : list T := filter_sequence_0 pred [] ts.

  (** type_sequence_cat_<>: detail/type_traits.hpp:222-228; type_sequence_cat<>: utility.hpp:95-102. *)
  Fixpoint type_sequence_cat_0 (rs : list T) (seqs : list (list T)) : list T :=
    match seqs with
    | [] => rs
    | s :: r => type_sequence_cat_0 (rs ++ s) r
    end.
  (** detail/type_traits.hpp:222-228, utility.hpp:95-102. *)
  Definition type_sequence_cat (seqs : list (list T)) : list T := type_sequence_cat_0 [] seqs.

  (** equal_types_<>: detail/type_traits.hpp:165-169; the common type if there is one. *)
  Fixpoint equal_types_0 (t : T) (ts : list T) : option T :=
    match ts with
    | [] => Some t
    | t1 :: r => if same t t1 then equal_types_0 t r else None
    end.
  (** detail/type_traits.hpp:165-169. *)
  Definition equal_types (ts : list T) : option T :=
    match ts with [] => None | t :: r => equal_types_0 t r end.

  (** The bases type_pack_index_base<I, T> of type_pack_indexer<> for the given T:
      detail/type_traits.hpp:40-51. *)
  Fixpoint bases_of (t : T) (i : nat) (ts : list T) : list nat :=
    match ts with
    | [] => []
    | t0 :: r => if same t t0 then i :: bases_of t (S i) r else bases_of t (S i) r
    end.

  (** try_type_pack_index_<>: detail/type_traits.hpp:54-57,66-71.  Template argument deduction from a derived class
      succeeds iff exactly one base matches; otherwise the variadic overload is chosen. *)
  Definition search_type_pack_index (t : T) (ts : list T) : Z :=
    match bases_of t 0 ts with
    | [i] => Z.of_nat i
    | _ => (-1)%Z
    end.

  (** type_pack_index_<>: detail/type_traits.hpp:73-78, and get<T>(type_sequence<>): utility.hpp:82-89, type_traits.hpp:87-95. *)
  Definition type_pack_index (t : T) (ts : list T) : outcome Z :=
    if Z.eqb (search_type_pack_index t ts) (-1) then IllFormed else Ok (search_type_pack_index t ts).

  (** type_pack_element_<>, nth_type_<>: detail/type_traits.hpp:52-53,59-64,86-92; get<I>(type_sequence<>):
      utility.hpp:71-77. *)
  Definition nth_type (n : nat) (ts : list T) : outcome T :=
    match nth_error ts n with Some t => Ok t | None => IllFormed end.

  (** search_tuple_element_index_0/1: detail/type_traits.hpp:98-113, for any predicate on element types
      (same_as_pred<T> is [same t]).  [i] is the first index of the remaining index sequence. *)
  Fixpoint search_tuple_element_index_0 (unique : bool) (pred : T -> bool) (i : nat) (ts : list T) : Z :=
    match ts with
    | [] => (-1)%Z
    | t0 :: r =>
        if pred t0 then
          if unique then
            if Z.eqb (search_tuple_element_index_0 true pred (S i) r) (-1) then Z.of_nat i else (-2)%Z
          else Z.of_nat i
        else search_tuple_element_index_0 unique pred (S i) r
    end.
  (** type_traits.hpp:56-81, detail/type_traits.hpp:113. *)
  Definition search_tuple_element_index (t : T) (ts : list T) : Z :=
    search_tuple_element_index_0 true (same t) 0 ts.
  (** type_traits.hpp:56-65. *)
  Definition search_first_tuple_element_index (t : T) (ts : list T) : Z :=
    search_tuple_element_index_0 false (same t) 0 ts.

  (** tuple_element_index<>: detail/type_traits.hpp:115-121 (two static_asserts). *)
  Definition tuple_element_index (unique : bool) (pred : T -> bool) (ts : list T) : outcome Z :=
    let v := search_tuple_element_index_0 unique pred 0 ts in
    if Z.eqb v (-1) then IllFormed else if Z.eqb v (-2) then IllFormed else Ok v.

  (** variant_cat_<>: experimental/detail/variant.hpp:34-45.  No specialisation for an empty list; the recursive case
      does not pass on the remaining variants. *)
  Definition variant_cat (vs : list (list T)) : outcome (list T) :=
    match vs with
    | [] => IllFormed
    | [v] => Ok v
    | v0 :: v1 :: _ => Ok (v0 ++ v1)
    end.
End TypeSeq.
