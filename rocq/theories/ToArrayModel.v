(** Model of constval_range_to_array(): /repo/include/makeshift/constval.hpp:260-278, detail/constval.hpp:316-327 (C++20).

    [A]: the references the range yields; [T]: its value type, std::iter_value_t<>. *)

From Coq Require Import Arith Bool List.
From Verif Require Import Base.
Import ListNotations.

(** A range: what it yields, and what std::size() says ([None]: no size).
    The parameter of constval.hpp:272 and what detail/constval.hpp:316-327 asks of it. *)
Record rng (A : Type) := mk_rng { yields : list A; size_of : option nat }.
Arguments mk_rng {A} _ _.
Arguments yields {A} _.
Arguments size_of {A} _.

Section ToArray.
  Context {A T : Type}.
  (** T{ }, if T has a default constructor. *)
  Variable default : option T.
  (** Assigning a reference to an element; may throw. *)
  Variable assign : A -> outcome T.
  (** ProjT{ }(C{ }()).  Functions can find out whether they are evaluated at compile time ([true]), with
      std::is_constant_evaluated(). *)
  Variable projected : bool -> outcome (rng A).

  (** std::ranges::copy(range, result.begin()): detail/constval.hpp:325; writing beyond the end is undefined. *)
  Fixpoint copy_to (l : list A) (i : nat) (result : list T) : outcome (list T) :=
    match l with
    | [] => Ok result
    | a :: r => do x <- assign a; do result' <- arr_set result i x; copy_to r (S i) result'
    end.
  (** constval_range_to_array_impl<N>(): detail/constval.hpp:317-327. *)
  Definition range_to_array_impl (N : nat) (range : rng A) : outcome (list T) :=
    match default with
    | None => IllFormed
    | Some d => copy_to (yields range) 0 (repeat d N)
    end.
  (** constval_range_to_array(): constval.hpp:270-277.  [transportable]: ProjT is an empty, default-constructible class (static
      assertion); [constructible]: C has a default constructor; [constant]: the call itself is evaluated at compile time, where
      undefined behaviour and exceptions make the program ill-formed.  The same goes for the initialisation of N. *)
  Definition range_to_array (transportable constructible constant : bool) : outcome (list T) :=
    if transportable then
      if constructible then
        do r <- constexpr_init (projected true);
        match size_of r with
        | None => IllFormed
        | Some N =>
            let result := do r <- projected constant; range_to_array_impl N r in
            if constant then constexpr_init result else result
        end
      else IllFormed
    else IllFormed.
End ToArray.
