(** Model of index_iterator: /repo/include/makeshift/iterator.hpp:22-200, and of index_range and range<>:
    /repo/include/makeshift/ranges.hpp:28-129, detail/ranges.hpp:24-175. *)

From Coq Require Import ZArith Arith Bool List.
From Verif Require Import Base ExpandModel.
Import ListNotations.
Local Open Scope Z_scope.

(** * index_iterator: iterator.hpp:22-200; the state is i_, of type gsl::index (std::ptrdiff_t). *)
Definition index_iterator := Z.
(** The default constructor: iterator.hpp:28-31. *)
Definition ii_default : index_iterator := -1.
(** operator *: iterator.hpp:37-41. *)
Definition ii_deref (it : index_iterator) : Z := it.
(** Prefix ++: iterator.hpp:43-48.  Signed overflow is undefined. *)
Definition ii_incr (it : index_iterator) : outcome index_iterator := int_arith ptrdiff_ty (it + 1).
(** Prefix --: iterator.hpp:118-123. *)
Definition ii_decr (it : index_iterator) : outcome index_iterator := int_arith ptrdiff_ty (it - 1).
(** Postfix ++: iterator.hpp:76-82; returns the result and the new state. *)
Definition ii_post_incr (it : index_iterator) : outcome (index_iterator * index_iterator) :=
  let result := it in do it' <- ii_incr it; Ok (result, it').
(** Postfix --: iterator.hpp:125-131. *)
Definition ii_post_decr (it : index_iterator) : outcome (index_iterator * index_iterator) :=
  let result := it in do it' <- ii_decr it; Ok (result, it').
(** operator +=, +: iterator.hpp:137-142, 150-161. *)
Definition ii_add (it : index_iterator) (offset : Z) : outcome index_iterator := int_arith ptrdiff_ty (it + offset).
(** operator -=, -: iterator.hpp:143-148, 162-167. *)
Definition ii_sub (it : index_iterator) (offset : Z) : outcome index_iterator := int_arith ptrdiff_ty (it - offset).
(** Difference of two iterators: iterator.hpp:168-172. *)
Definition ii_diff (lhs rhs : index_iterator) : outcome Z := int_arith ptrdiff_ty (lhs - rhs).
(** operator ==: iterator.hpp:50-54. *)
Definition ii_eq (lhs rhs : index_iterator) : bool := lhs =? rhs.
(** operator !=: iterator.hpp:55-59. *)
Definition ii_ne (lhs rhs : index_iterator) : bool := negb (lhs =? rhs).
(** operator <: iterator.hpp:174-178. *)
Definition ii_lt (lhs rhs : index_iterator) : bool := lhs <? rhs.
(** operator <=: iterator.hpp:179-183. *)
Definition ii_le (lhs rhs : index_iterator) : bool := lhs <=? rhs.
(** operator >: iterator.hpp:184-188. *)
Definition ii_gt (lhs rhs : index_iterator) : bool := lhs >? rhs.
(** operator >=: iterator.hpp:189-193. *)
Definition ii_ge (lhs rhs : index_iterator) : bool := lhs >=? rhs.
(** operator []: iterator.hpp:195-199. *)
Definition ii_subscript (it : index_iterator) (offset : Z) : outcome Z := int_arith ptrdiff_ty (it + offset).

(** * index_range: ranges.hpp:89-119 *)
Record index_range := mk_index_range { ir_first : Z; ir_last : Z }.
(** index_range(num): ranges.hpp:99-103. *)
Definition index_range_num (num : Z) : outcome index_range :=
  do _ <- expects (num >=? 0); Ok (mk_index_range 0 num).
(** index_range(first, last): ranges.hpp:104-108. *)
Definition index_range_bounds (first last : Z) : outcome index_range :=
  do _ <- expects (first <=? last); Ok (mk_index_range first last).
(** begin(): ranges.hpp:109-113. *)
Definition ir_begin (r : index_range) : index_iterator := ir_first r.
(** end(): ranges.hpp:114-118. *)
Definition ir_end (r : index_range) : index_iterator := ir_last r.

(** A range-based for loop (the language's) collecting the elements; [fuel] bounds the iterations.
    The loop of the documentation, ranges.hpp:82-87. *)
Fixpoint ii_for (fuel : nat) (it last : index_iterator) : outcome (list Z) :=
  if ii_ne it last then
    match fuel with
    | O => OutOfFuel
    | S fuel' => do it' <- ii_incr it; do r <- ii_for fuel' it' last; Ok (ii_deref it :: r)
    end
  else Ok [].
(** The loop of the documentation, ranges.hpp:82-87. *)
Definition index_range_for (fuel : nat) (r : index_range) : outcome (list Z) := ii_for fuel (ir_begin r) (ir_end r).

(** * Random access iterators into a sequence [mem]: positions; leaving the sequence is undefined. *)
Section Sequence.
  Context {A : Type}.
  Variable mem : list A.

  (** Not in the code: the positions an iterator "It" of ranges.hpp:31 may have. *)
  Definition valid_pos (p : Z) : bool := (0 <=? p) && (p <=? Z.of_nat (length mem)).
  (** "first_ + Extent", "start + extentC": detail/ranges.hpp:83, ranges.hpp:44. *)
  Definition pos_add (p n : Z) : outcome Z := if valid_pos p && valid_pos (p + n) then Ok (p + n) else UB.
  (** Dereferencing an iterator, as in "first_[i]": detail/ranges.hpp:63, 91. *)
  Definition pos_deref (p : Z) : outcome A := aget mem p.
  (** It::operator [](difference_type).  "first_[i]": detail/ranges.hpp:63, 91. *)
  Definition pos_subscript (p n : Z) : outcome A := do q <- pos_add p n; pos_deref q.

  (** range<>: ranges.hpp:31-50.  Dynamic extent: random_access_range_base, detail/ranges.hpp:41-65; static extent:
      static_random_access_range_base, 66-93. *)
  Inductive range : Type :=
  | RDyn (first last : Z)
  | RStatic (first extent : Z).

  (** [Extent]: the class template argument, -1 for a dynamic extent. *)
  (** range(It first, EndIt last): ranges.hpp:37-40; with a static extent the second argument is dropped
      (detail/ranges.hpp:77-80). *)
  Definition range_of (Extent first last : Z) : outcome range :=
    if Extent =? -1 then Ok (RDyn first last)
    else if Extent <? 0 then IllFormed else Ok (RStatic first Extent).
  (** An extent argument: a run-time value or an integral constant.  The type ExtentC of ranges.hpp:41, 53, 71. *)
  Inductive extent_arg : Type := ExtentValue (n : Z) | ExtentConst (n : Z).
  (** Its conversion in ranges.hpp:44, 48. *)
  Definition extent_value (e : extent_arg) : Z := match e with ExtentValue n | ExtentConst n => n end.
  (** range_extent_from_constval(): detail/ranges.hpp:135-144. *)
  Definition range_extent_from_constval (e : extent_arg) : Z := match e with ExtentValue _ => -1 | ExtentConst n => n end.
  (** range(It start, ExtentC extentC): ranges.hpp:41-49. *)
  Definition range_of_extent (Extent start : Z) (e : extent_arg) : outcome range :=
    let rhs := range_extent_from_constval e in
    if (Extent =? -1) || (rhs =? -1) || (Extent =? rhs) then
      do last <- pos_add start (extent_value e);
      do r <- range_of Extent start last;
      do _ <- expects ((Extent =? -1) || (extent_value e =? Extent));
      Ok r
    else IllFormed.
  (** Deduction guides: ranges.hpp:51-52. *)
  Definition deduced_range (first last : Z) : outcome range := range_of (-1) first last.
  (** ranges.hpp:53-54. *)
  Definition deduced_range_extent (start : Z) (e : extent_arg) : outcome range :=
    range_of_extent (range_extent_from_constval e) start e.

  (** make_range(It, EndIt) and make_range(It, ExtentC): ranges.hpp:59-76.  [MIter d p]: an iterator that refers to position
      p; d: its type has a constexpr default constructor (pointers, and the iterators of std::vector<>).  Iterators are
      not convertible to std::size_t.  The return type of the second overload needs range_extent_from_constval(ExtentC{ })
      to be a constant expression. *)
  Inductive range_arg : Type := MIter (constexpr_default : bool) (p : Z) | MExtent (e : extent_arg).
  (** std::is_convertible<..., std::size_t>: ranges.hpp:60, 72. *)
  Definition converts_to_size (a : range_arg) : bool := match a with MIter _ _ => false | MExtent _ => true end.
  (** range_extent_from_constval(ExtentC{ }): ranges.hpp:72. *)
  Definition extent_constant (a : range_arg) : option Z :=
    match a with
    | MIter d _ => if d then Some (-1) else None
    | MExtent e => Some (range_extent_from_constval e)
    end.
  (** The constructor of range<It, EndIt, Extent> that the return statement selects.  ranges.hpp:65, 75. *)
  Definition range_from (Extent start : Z) (a : range_arg) : outcome range :=
    match a with MIter _ last => range_of Extent start last | MExtent e => range_of_extent Extent start e end.
  (** The first overload, if viable: ranges.hpp:59-66. *)
  Definition make_range_1 (start : Z) (a : range_arg) : list (outcome range) :=
    if negb (converts_to_size a) then [range_from (-1) start a] else [].
  (** The second overload, if viable: ranges.hpp:71-76. *)
  Definition make_range_2 (start : Z) (a : range_arg) : list (outcome range) :=
    if negb (converts_to_size a) then
      match extent_constant a with Some Extent => [range_from Extent start a] | None => [] end
    else [].
  (** Overload resolution: neither overload is more specialised than the other.  ranges.hpp:59-76. *)
  Definition make_range (start : Z) (a : range_arg) : outcome range :=
    match make_range_1 start a ++ make_range_2 start a with
    | [r] => r
    | _ => IllFormed
    end.

  (** begin(): detail/ranges.hpp:54, 82. *)
  Definition range_begin (r : range) : Z := match r with RDyn f _ => f | RStatic f _ => f end.
  (** end(): detail/ranges.hpp:55, 83. *)
  Definition range_end (r : range) : outcome Z := match r with RDyn _ l => Ok l | RStatic f n => pos_add f n end.
  (** size(): detail/ranges.hpp:56-59, 84-87; conversion to std::size_t. *)
  Definition range_size (r : range) : Z := match r with RDyn f l => cast size_ty (l - f) | RStatic _ n => n end.
  (** operator [](std::size_t): detail/ranges.hpp:60-64, 88-92; for a dynamic extent, a std::size_t is compared with a std::ptrdiff_t. *)
  Definition range_subscript (r : range) (i : Z) : outcome A :=
    match r with
    | RDyn f l => do _ <- expects (int_lt size_ty ptrdiff_ty i (l - f)); pos_subscript f (cast ptrdiff_ty i)
    | RStatic f n => do _ <- expects (i <? cast size_ty n); pos_subscript f (cast ptrdiff_ty i)
    end.
  (** get<I>(): detail/ranges.hpp:162-175. *)
  Definition range_get (I : Z) (r : range) : outcome A :=
    match r with
    | RDyn _ _ => IllFormed
    | RStatic _ n => if I <? cast size_ty n then range_subscript r I else IllFormed
    end.

  (** A range-based for loop.  The language's; for begin() and end() of detail/ranges.hpp:54-55, 82-83. *)
  Fixpoint pos_for (fuel : nat) (p last : Z) : outcome (list A) :=
    if p =? last then Ok []
    else
      match fuel with
      | O => OutOfFuel
      | S fuel' => do x <- pos_deref p; do p' <- pos_add p 1; do r <- pos_for fuel' p' last; Ok (x :: r)
      end.
  (** The same for a range<>: detail/ranges.hpp:54-55, 82-83. *)
  Definition range_for (fuel : nat) (r : range) : outcome (list A) :=
    do last <- range_end r; pos_for fuel (range_begin r) last.
End Sequence.
