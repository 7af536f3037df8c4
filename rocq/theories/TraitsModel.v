(** Model of the traits and concepts that examine a type: detail/type_traits.hpp:172-219, type_traits.hpp:155-258,
    concepts.hpp:26-92.

    A type is described by the types of the expressions that the traits and concepts form with it; [None] stands for an
    expression that is not well-formed. *)

From Coq Require Import Arith Bool List.
From Verif Require Import Base.
Import ListNotations.

(** A C++ type: a number for the unqualified type, whether it is const, and whether it is a reference.
    As far as detail/type_traits.hpp:177-219 and concepts.hpp:26-92 can tell types apart. *)
Inductive refkind := NoRef | LRef | RRef.
(** Ditto: detail/type_traits.hpp:177-219, concepts.hpp:26-92. *)
Record cty := mk_cty { c_type : nat; c_const : bool; c_ref : refkind }.
(** T in detail/type_traits.hpp:207. *)
Definition plain (t : nat) : cty := mk_cty t false NoRef.
(** T& in detail/type_traits.hpp:207. *)
Definition lref (t : cty) : cty := mk_cty (c_type t) (c_const t) LRef.
(** For std::is_same<> in detail/type_traits.hpp:188-189. *)
Definition refkind_eqb (a b : refkind) : bool :=
  match a, b with NoRef, NoRef | LRef, LRef | RRef, RRef => true | _, _ => false end.
(** std::is_same<>, std::same_as<>.  detail/type_traits.hpp:188-189, concepts.hpp:38-68, 91-92. *)
Definition same (a b : cty) : bool :=
  Nat.eqb (c_type a) (c_type b) && Bool.eqb (c_const a) (c_const b) && refkind_eqb (c_ref a) (c_ref b).

(** std::size_t.  concepts.hpp:36-39. *)
Definition size_type : nat := 0.

(** What detail/type_traits.hpp:177-219 and concepts.hpp:36-78 ask about a type. *)
Record class := mk_class {
  (** The type itself. *)
  cls : nat;
  (** Types of `~m`, `m | m`, `m & m`, `m ^ m` for const and non-const lvalues m. *)
  op_not : bool -> option cty; op_or : bool -> option cty; op_and : bool -> option cty; op_xor : bool -> option cty;
  (** Types of `m |= n`, `m &= n`, `m ^= n` for non-const lvalues m and for const and non-const lvalues n. *)
  op_or_eq : bool -> option cty; op_and_eq : bool -> option cty; op_xor_eq : bool -> option cty;
  (** Declared type of std::tuple_size<T>::value, a static data member. *)
  tuple_size_value : option cty;
  (** T::value_type; declared type of T::value, a static data member; type of `c()` for an rvalue and for an lvalue c. *)
  value_type : option cty; value_member : option cty; call_rvalue : option cty; call_lvalue : option cty;
  (** std::is_convertible<T, U>. *)
  converts : cty -> bool;
  (** Derived from constval_tag; an std::integral_constant<>. *)
  tagged : bool; integral_constant : bool
}.

(** decltype(m) for a variable or data member m is its declared type; decltype((m)) is an lvalue reference to it.  detail/type_traits.hpp:188. *)
Definition decltype_name (declared : cty) : cty := declared.
(** concepts.hpp:38-68. *)
Definition decltype_expr (declared : cty) : cty := lref declared.

(** `{ E } -> std::same_as<U>`: concepts.hpp:47-68. *)
Definition is_some_same (o : option cty) (t : cty) : bool := match o with Some u => same u t | None => false end.
(** detail/type_traits.hpp:31-32, 177-184. *)
Definition is_some {A} (o : option A) : bool := match o with Some _ => true | None => false end.

(** * Traits *)
(** is_bitmask_r<>, is_bitmask_result<>, is_bitmask<>: detail/type_traits.hpp:206-219, type_traits.hpp:159-167.  std::conjunction<> does not look at the second condition
    unless the first one holds. *)
Definition is_bitmask (c : class) : bool :=
  let t := plain (cls c) in
  match op_not c true, op_or c true, op_and c true, op_xor c true, op_or_eq c true, op_and_eq c true, op_xor_eq c true with
  | Some v1, Some v2, Some v3, Some v4, Some r1, Some r2, Some r3 =>
      same v1 t && same v2 t && same v3 t && same v4 t && same r1 (lref t) && same r2 (lref t) && same r3 (lref t)
  | _, _, _, _, _, _, _ => false
  end.

(** is_tuple_like<>: detail/type_traits.hpp:202-203, type_traits.hpp:202-212. *)
Definition is_tuple_like (c : class) : bool := is_some (tuple_size_value c).

(** is_constval_1_<>, is_constval_0_<>, is_constval_<>: detail/type_traits.hpp:177-196, type_traits.hpp:218-226. *)
Definition is_constval_1 (c : class) (vt : cty) (vm : cty) (cr : cty) : bool :=
  converts c vt && same (decltype_name vm) vt && same cr vt.
(** detail/type_traits.hpp:190-194. *)
Definition is_constval_0 (c : class) : bool :=
  match value_type c, value_member c, call_rvalue c with
  | Some vt, Some vm, Some cr => is_constval_1 c vt vm cr
  | _, _, _ => false
  end.
(** detail/type_traits.hpp:195-196. *)
Definition is_constval (c : class) : bool := integral_constant c || tagged c || is_constval_0 c.

(** is_constval_<T const>: detail/type_traits.hpp:177-196.  std::is_base_of<> ignores the qualifier; the specialisation for std::integral_constant<> is
    not selected; [call_const] is the type of `c()` for a const rvalue c.  The other expressions are the same. *)
Definition is_constval_const (c : class) (converts_const : cty -> bool) (call_const : option cty) : bool :=
  tagged c ||
  match value_type c, value_member c, call_const with
  | Some vt, Some vm, Some cr => converts_const vt && same (decltype_name vm) vt && same cr vt
  | _, _, _ => false
  end.

(** is_constval_of_<>, is_constval_convertible_<>: detail/type_traits.hpp:198-199, type_traits.hpp:232-240.  std::conjunction<> does not instantiate the second condition unless
    the first one holds; then a missing value_type is an error.  [convertible] is std::is_convertible<>. *)
Definition is_constval_of (convertible : cty -> cty -> bool) (c : class) (r : cty) : outcome bool :=
  if is_constval c then match value_type c with Some vt => Ok (convertible vt r) | None => IllFormed end else Ok false.

(** * Concepts *)
(** `{ E } -> std::same_as<U>`: E is well-formed, and decltype((E)) is U. *)
(** tuple_like: concepts.hpp:36-39. *)
Definition concept_tuple_like (c : class) : bool :=
  match tuple_size_value c with
  | Some v => same (decltype_expr v) (plain size_type)
  | None => false
  end.

(** bitmask: concepts.hpp:45-54; m is a non-const lvalue. *)
Definition concept_bitmask (c : class) : bool :=
  let t := plain (cls c) in
  is_some_same (op_not c false) t && is_some_same (op_or c false) t && is_some_same (op_and c false) t && is_some_same (op_xor c false) t &&
  is_some_same (op_or_eq c false) (lref t) && is_some_same (op_and_eq c false) (lref t) && is_some_same (op_xor_eq c false) (lref t).

(** constval: concepts.hpp:62-69. *)
Definition concept_constval (c : class) : bool :=
  match value_type c with
  | Some vt =>
      converts c vt &&
      match value_member c with Some v => same (decltype_expr v) vt | None => false end &&
      is_some_same (call_lvalue c) vt
  | None => false
  end.

(** constval_of: concepts.hpp:76-78.  A missing value_type is not reached, because constval requires it. *)
Definition concept_constval_of (convertible : cty -> cty -> bool) (c : class) (r : cty) : bool :=
  concept_constval c && match value_type c with Some vt => convertible vt r | None => false end.

(** distinct_from: concepts.hpp:91-92. *)
Definition concept_distinct_from (a b : cty) : bool := negb (same a b).
