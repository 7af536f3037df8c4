(** Model of the copying done by the references of soa_span<> with element types of any behaviour:
    /repo/include/makeshift/experimental/detail/span.hpp:53-107.

    SoaModel.v describes where the elements are, for element types whose operations only copy values.  Here these operations are the caller's: they
    change the state of the program and may throw.  Pointers are assumed valid; the destruction of temporaries is not modelled. *)

From Coq Require Import ZArith Arith Bool List.
From Verif Require Import Base ThrowModel.
Import ListNotations.
Local Open Scope Z_scope.

Section SoaCopy.
  (** State of the program, data pointers, elements (objects in the caller's arrays), and values (temporaries). *)
  Context {S P E V : Type}.
  (** p[i]: experimental/detail/span.hpp:59, 70, 81, 90. *)
  Variable at_ : P -> Z -> E.
  (** The caller's operations: assignment of an element to an element, experimental/detail/span.hpp:59; of a value to an element,
      experimental/detail/span.hpp:70; copy construction from an element, experimental/detail/span.hpp:81; move construction of the elements of the
      tuple returned, detail/tuple.hpp:141; and swap() as found at experimental/detail/span.hpp:104. *)
  Variable assign : S -> E -> E -> S * outcome unit.
  Variable assign_value : S -> E -> V -> S * outcome unit.
  Variable copy : S -> E -> S * outcome V.
  Variable move : S -> V -> S * outcome V.
  Variable swap : S -> E -> E -> S * outcome unit.

  (** template_for() with a function that returns nothing: detail/tuple-transform.hpp:83-92. *)
  Fixpoint for_each {X : Type} (f : S -> X -> S * outcome unit) (xs : list X) (s : S) : S * outcome unit :=
    match xs with
    | [] => (s, Ok tt)
    | x :: r => match f s x with (s', Ok _) => for_each f r s' | (s', o) => (s', o) end
    end.
  (** A function declared noexcept: experimental/detail/span.hpp:53, 64, 75, 96. *)
  Definition noexcept_result {A : Type} (r : S * outcome A) : S * outcome A := (fst r, noexcept (snd r)).

  (** operator =(soa_reference const&): experimental/detail/span.hpp:53-63. *)
  Definition assign_reference (dst : list P) (dstIndex : Z) (src : list P) (srcIndex : Z) (s : S) : S * outcome unit :=
    noexcept_result (for_each (fun s p => assign s (at_ (fst p) dstIndex) (at_ (snd p) srcIndex)) (combine dst src) s).
  (** operator =(std::tuple<> const&): experimental/detail/span.hpp:64-74. *)
  Definition assign_tuple (dst : list P) (index : Z) (vals : list V) (s : S) : S * outcome unit :=
    noexcept_result (for_each (fun s p => assign_value s (at_ (fst p) index) (snd p)) (combine dst vals) s).
  (** operator std::tuple<>(): experimental/detail/span.hpp:75-84.  The calls of the function in detail/tuple.hpp:141 are evaluated in any order
      [order]; std::tuple<> may initialise its elements in any order [order'], too. *)
  Definition to_tuple (order order' : list nat) (src : list P) (index : Z) (s : S) : S * outcome (list V) :=
    noexcept_result
      match gets copy order (map (fun p => at_ p index) src) s with
      | (s', Ok vs) => gets move order' vs s'
      | (s', o) => (s', o)
      end.
  (** swap(): experimental/detail/span.hpp:94-107; [consts]: which of the element types are const. *)
  Definition swap_references (consts : list bool) (lhs : list P) (lhsIndex : Z) (rhs : list P) (rhsIndex : Z) (s : S) : S * outcome unit :=
    if existsb (fun c => c) consts then (s, IllFormed)
    else noexcept_result (for_each (fun s p => swap s (at_ (fst p) lhsIndex) (at_ (snd p) rhsIndex)) (combine lhs rhs) s).

  (** swap() of element types without their own: std::swap(), experimental/detail/span.hpp:102-104. *)
  Definition std_swap (move_from : S -> E -> S * outcome V) (move_assign : S -> E -> E -> S * outcome unit) (s : S) (a b : E) : S * outcome unit :=
    match move_from s a with
    | (s1, Ok tmp) => match move_assign s1 a b with (s2, Ok _) => assign_value s2 b tmp | (s2, o) => (s2, o) end
    | (s1, o) => (s1, do _ <- o; Ok tt)
    end.
End SoaCopy.
