(** Model of expand(), try_expand() and expand_failfast():
    /repo/include/makeshift/variant.hpp:43-192, /repo/include/makeshift/detail/variant.hpp:46-181.

    The result variant has one alternative per array element; it is modelled by the position of the
    alternative.  std::ptrdiff_t and std::size_t are 64 bits wide. *)

From Coq Require Import ZArith Arith Bool List.
From Verif Require Import Base.
Import ListNotations.
Local Open Scope Z_scope.

(* ------------------------------------------------------------------------ *)
(** ** Integral types *)

(** An integral type by width and signedness; [bool] is [mk_ity 1 false].  The types RepT, T and CT of detail/variant.hpp:83-181. *)
Record ity := mk_ity { ity_bits : Z; ity_signed : bool }.

(** Range of such a type; used for detail/variant.hpp:129-130, 148. *)
Definition ity_min (t : ity) : Z := if ity_signed t then - 2 ^ (ity_bits t - 1) else 0.
(** Range of such a type; used for detail/variant.hpp:129-130, 148. *)
Definition ity_max (t : ity) : Z := if ity_signed t then 2 ^ (ity_bits t - 1) - 1 else 2 ^ ity_bits t - 1.
(** Range of such a type; used for detail/variant.hpp:129-130, 148. *)
Definition in_ity (t : ity) (x : Z) : bool := (ity_min t <=? x) && (x <=? ity_max t).

(** static_cast to an integral type (modular).  detail/variant.hpp:127-129, 144, 147. *)
Definition cast (t : ity) (x : Z) : Z :=
  let m := x mod 2 ^ ity_bits t in
  if ity_signed t && (2 ^ (ity_bits t - 1) <=? m) then m - 2 ^ ity_bits t else m.

(** The type int, detail/variant.hpp:175. *)
Definition int32 : ity := mk_ity 32 true.
(** std::ptrdiff_t, detail/variant.hpp:124. *)
Definition ptrdiff_ty : ity := mk_ity 64 true.
(** std::size_t, detail/variant.hpp:129. *)
Definition size_ty : ity := mk_ity 64 false.

(** Integral promotion (int has 32 bits).  In detail/variant.hpp:129-130, 148. *)
Definition promote (t : ity) : ity := if ity_bits t <? 32 then int32 else t.

(** Usual arithmetic conversions.  In detail/variant.hpp:68, 92, 96, 108, 118, 129, 148. *)
Definition common_type (a b : ity) : ity :=
  let a := promote a in
  let b := promote b in
  if Bool.eqb (ity_signed a) (ity_signed b) then (if ity_bits a <? ity_bits b then b else a)
  else
    let '(u, s) := if ity_signed a then (b, a) else (a, b) in
    if ity_bits s <=? ity_bits u then u else s.

(** Built-in comparison of operands of types [a] and [b].  detail/variant.hpp:68, 92, 96, 129. *)
Definition int_lt (a b : ity) (x y : Z) : bool := cast (common_type a b) x <? cast (common_type a b) y.
(** detail/variant.hpp:108, 118, 148. *)
Definition int_eq (a b : ity) (x y : Z) : bool := cast (common_type a b) x =? cast (common_type a b) y.

(** Built-in addition and subtraction in type [t] (already promoted): signed overflow is undefined,
    unsigned arithmetic wraps.  detail/variant.hpp:129-130, 148. *)
Definition int_arith (t : ity) (r : Z) : outcome Z :=
  if ity_signed t then (if in_ity t r then Ok r else UB) else Ok (cast t r).

(** Access to a constant array by a ptrdiff_t index.  detail/variant.hpp:92, 96, 108, 118; variant.hpp:49, 104, 159. *)
Definition aget {A} (l : list A) (i : Z) : outcome A :=
  if i <? 0 then UB else arr_get l (Z.to_nat i).

(* ------------------------------------------------------------------------ *)
(** ** Searching with comparison operators: detail/variant.hpp:59-121 *)

Section Search.
  (** [A]: element type CT; [B]: type T of the runtime value. *)
  Context {A B : Type}.
  Variable can_order : bool.            (* can_order<CT>: detail/variant.hpp:59-60 *)
  Variable lt_AA : A -> A -> bool.      (* CT < CT *)
  Variable lt_AB : A -> B -> bool.      (* values[half] < value *)
  Variable lt_BA : B -> A -> bool.      (* value < values[half] *)
  Variable eq_AB : A -> B -> bool.      (* values[i] == value *)

  (** are_values_sorted(): detail/variant.hpp:62-81. *)
  Fixpoint sorted_loop (prev : A) (rest : list A) : bool :=
    match rest with
    | [] => true
    | x :: r => if lt_AA x prev then false else sorted_loop x r
    end.
  (** detail/variant.hpp:72-81. *)
  Definition are_values_sorted (values : list A) : bool :=
    if can_order then match values with [] => true | x :: r => sorted_loop x r end else false.

  (** Binary search: detail/variant.hpp:83-111; [fuel] bounds the iterations. *)
  Fixpoint binary_loop (fuel : nat) (value : B) (values : list A) (first last : Z) : outcome Z :=
    if last - first >? 1 then
      match fuel with
      | O => OutOfFuel
      | S fuel' =>
          let half := first + (last - first) / 2 in
          do x <- aget values half;
          if lt_AB x value then binary_loop fuel' value values (half + 1) last
          else if lt_BA value x then binary_loop fuel' value values first half
          else if half + 1 =? last then Ok half
          else binary_loop fuel' value values first (half + 1)
      end
    else if last - first =? 1 then
      do x <- aget values first;
      Ok (if eq_AB x value then first else -1)
    else Ok (-1).
  (** detail/variant.hpp:83-88. *)
  Definition binary_search (value : B) (values : list A) : outcome Z :=
    binary_loop (length values) value values 0 (Z.of_nat (length values)).

  (** Linear search: detail/variant.hpp:112-121. *)
  Fixpoint linear_loop (value : B) (rest : list A) (i : Z) : Z :=
    match rest with
    | [] => -1
    | x :: r => if eq_AB x value then i else linear_loop value r (i + 1)
    end.
  (** detail/variant.hpp:112-121. *)
  Definition linear_search (value : B) (values : list A) : Z := linear_loop value values 0.

  (** search_value_index_1(false_type): detail/variant.hpp:132-137. *)
  Definition search_ordered (value : B) (values : list A) : outcome Z :=
    if are_values_sorted values then binary_search value values
    else Ok (linear_search value values).
End Search.

(* ------------------------------------------------------------------------ *)
(** ** Offset lookup for integral types: detail/variant.hpp:123-181 *)

(** are_values_contiguous<RepT>(): detail/variant.hpp:139-157.  Evaluated in a constant expression. *)
Fixpoint contiguous_loop (rep : ity) (r : Z) (rest : list Z) : outcome bool :=
  match rest with
  | [] => Ok true
  | x :: rest' =>
      let rNext := cast rep x in
      do r1 <- int_arith (promote rep) (r + 1);
      if negb (int_eq rep (promote rep) rNext r1) then Ok false
      else contiguous_loop rep rNext rest'
  end.
(** detail/variant.hpp:139-157. *)
Definition are_values_contiguous (rep : ity) (values : list Z) : outcome bool :=
  match values with
  | [] => Ok false
  | x :: r => contiguous_loop rep (cast rep x) r
  end.

(** search_value_index_1(true_type): detail/variant.hpp:123-131. *)
Definition search_contiguous (rep : ity) (value : Z) (values : list Z) : outcome Z :=
  do v0 <- arr_get values 0;
  let r0 := cast rep v0 in
  let r := cast rep value in
  if int_lt rep rep r r0 then Ok (-1)
  else
    do d <- int_arith (promote rep) (r - r0);
    if cast size_ty d >=? Z.of_nat (length values) then Ok (-1)
    else do d' <- int_arith (promote rep) (r - r0); Ok (cast ptrdiff_ty d').

(** The representation type of an integral or enum type: has_integral_rep_, detail/variant.hpp:171-175.
    [t] is the type itself or the underlying type of the enum. *)
Definition rep_of (t : ity) (is_bool : bool) : ity := if is_bool then int32 else t.

(** search_value_index() for integral and enum types: detail/variant.hpp:159-164,177-181.
    [t]: type of the runtime value; [ct]: element type of the array. *)
Definition search_int (t : ity) (is_bool : bool) (ct : ity) (value : Z) (values : list Z) : outcome Z :=
  let rep := rep_of t is_bool in
  do contiguous <- constexpr_init (are_values_contiguous rep values);
  if contiguous then search_contiguous rep value values
  else search_ordered true (int_lt ct ct) (int_lt ct t) (int_lt t ct) (int_eq ct t) value values.

(** search_value_index() for all other types: detail/variant.hpp:165-169,177-181. *)
Definition search_other {A B} (can_order : bool) (lt_AA : A -> A -> bool) (lt_AB : A -> B -> bool)
    (lt_BA : B -> A -> bool) (eq_AB : A -> B -> bool) (value : B) (values : list A) : outcome Z :=
  search_ordered can_order lt_AA lt_AB lt_BA eq_AB value values.

(* ------------------------------------------------------------------------ *)
(** ** The variants: detail/variant.hpp:46-57, variant.hpp:43-192 *)

(** Whether all constants differ (equal constants are the same type).  detail/variant.hpp:51-53. *)
Fixpoint all_distinct (values : list Z) : bool :=
  match values with
  | [] => true
  | x :: r => negb (existsb (Z.eqb x) r) && all_distinct r
  end.

(** constval_variant_map<>::type and ::values: detail/variant.hpp:46-57.  A variant without alternatives is
    ill-formed; [ok] tells whether all alternative types differ (otherwise the converting constructor used in
    line 53 is ambiguous). *)
Definition variant_map_ok {A} (ok : bool) (values : list A) : bool :=
  match values with [] => false | _ => ok end.

(** values[index].  variant.hpp:49, 104, 159. *)
Definition select {A} (values : list A) (index : Z) : outcome nat :=
  do _ <- aget values index; Ok (Z.to_nat index).

Section Expand.
  Context {A : Type}.
  Variable ok : bool.                  (* see variant_map_ok *)
  Variable index : outcome Z.          (* result of search_value_index(value, values) *)
  Variable values : list A.

  (** expand_failfast(): variant.hpp:43-50. *)
  Definition expand_failfast : outcome nat :=
    if variant_map_ok ok values then
      do i <- index;
      do _ <- expects (i >=? 0);
      select values i
    else IllFormed.

  (** try_expand(): variant.hpp:98-105. *)
  Definition try_expand : outcome (option nat) :=
    if variant_map_ok ok values then
      do i <- index;
      if i <? 0 then Ok None else do k <- select values i; Ok (Some k)
    else IllFormed.

  (** expand(): variant.hpp:153-160. *)
  Definition expand : outcome nat :=
    if variant_map_ok ok values then
      do i <- index;
      if i <? 0 then Throw UnsupportedRuntimeValue else select values i
    else IllFormed.
End Expand.

(** The three functions for integral and enum types.  variant.hpp:153-160, detail/variant.hpp:159-164. *)
Definition expand_int t is_bool ct value values :=
  expand (all_distinct values) (search_int t is_bool ct value values) values.
(** variant.hpp:98-105, detail/variant.hpp:159-164. *)
Definition try_expand_int t is_bool ct value values :=
  try_expand (all_distinct values) (search_int t is_bool ct value values) values.
(** variant.hpp:43-50, detail/variant.hpp:159-164. *)
Definition expand_failfast_int t is_bool ct value values :=
  expand_failfast (all_distinct values) (search_int t is_bool ct value values) values.

(** The three functions for other types, if all alternatives differ: so for classes and floating-point numbers, which are referred to by
    address or by accessor type; CtypeModel.v tells when they do in general.  variant.hpp:153-160, detail/variant.hpp:165-169. *)
Definition expand_other {A B} can_order lt_AA lt_AB lt_BA eq_AB (value : B) (values : list A) :=
  expand true (search_other can_order lt_AA lt_AB lt_BA eq_AB value values) values.
(** variant.hpp:98-105, detail/variant.hpp:165-169. *)
Definition try_expand_other {A B} can_order lt_AA lt_AB lt_BA eq_AB (value : B) (values : list A) :=
  try_expand true (search_other can_order lt_AA lt_AB lt_BA eq_AB value values) values.
(** variant.hpp:43-50, detail/variant.hpp:165-169. *)
Definition expand_failfast_other {A B} can_order lt_AA lt_AB lt_BA eq_AB (value : B) (values : list A) :=
  expand_failfast true (search_other can_order lt_AA lt_AB lt_BA eq_AB value values) values.

(** The one-argument forms: variant.hpp:69-81,124-137,180-192.  [values] is the result of
    metadata::values<T>(); without it a static_assert fails.  The element type is T itself. *)
Definition expand_meta (t : ity) (is_bool : bool) (value : Z) (values : option (list Z)) : outcome nat :=
  match values with Some vs => expand_int t is_bool t value vs | None => IllFormed end.
(** variant.hpp:124-137. *)
Definition try_expand_meta (t : ity) (is_bool : bool) (value : Z) (values : option (list Z)) : outcome (option nat) :=
  match values with Some vs => try_expand_int t is_bool t value vs | None => IllFormed end.
(** variant.hpp:69-81. *)
Definition expand_failfast_meta (t : ity) (is_bool : bool) (value : Z) (values : option (list Z)) : outcome nat :=
  match values with Some vs => expand_failfast_int t is_bool t value vs | None => IllFormed end.
