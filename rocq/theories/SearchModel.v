(** Model of expand(), try_expand() and expand_failfast() for types with comparison operators of the caller's:
    /repo/include/makeshift/variant.hpp:43-50, 98-105, 153-160, /repo/include/makeshift/detail/variant.hpp:59-121, 132-137, 165-169,
    177-181.

    Unlike in ExpandModel, the operators that take the runtime value may have effects (on a state [S]) and may throw.  The
    operator < of the constants is evaluated by the compiler and hence a pure function; it may be missing, and so may be the
    operators that take the runtime value.  The result variant is modelled by the position of the alternative. *)

From Coq Require Import ZArith Arith Bool List.
From Verif Require Import Base ExpandModel.
Import ListNotations.
Local Open Scope Z_scope.

(** The comparison operators.  [A]: element type CT; [B]: type T of the runtime value.  In detail/variant.hpp:59-118. *)
Record operators (S A B : Type) := mk_operators {
  op_order : option (A -> A -> bool);                    (* CT < CT: detail/variant.hpp:59-60, 68 *)
  op_less : option (S -> A -> B -> S * outcome bool);    (* values[half] < value: detail/variant.hpp:92 *)
  op_greater : option (S -> B -> A -> S * outcome bool); (* value < values[half]: detail/variant.hpp:96 *)
  op_equal : option (S -> A -> B -> S * outcome bool)    (* values[i] == value: detail/variant.hpp:108, 118 *)
}.
Arguments mk_operators {S A B}.
Arguments op_order {S A B}.
Arguments op_less {S A B}.
Arguments op_greater {S A B}.
Arguments op_equal {S A B}.

(** Statements with effects on [S].  For detail/variant.hpp:83-121. *)
Definition eff (S R : Type) : Type := S -> S * outcome R.
(** ";" in detail/variant.hpp:83-121, variant.hpp:43-50, 98-105, 153-160. *)
Definition then_ {S R Q} (m : eff S R) (f : R -> eff S Q) : eff S Q := fun s =>
  let '(s', o) := m s in
  match o with
  | Ok x => f x s'
  | Contract => (s', Contract)
  | Throw e => (s', Throw e)
  | UB => (s', UB)
  | IllFormed => (s', IllFormed)
  | OutOfFuel => (s', OutOfFuel)
  end.
(** A statement without effects.  For detail/variant.hpp:83-121. *)
Definition pure {S R} (o : outcome R) : eff S R := fun s => (s, o).
Notation "'let!' x := m 'in' f" := (then_ m (fun x => f)) (at level 200, x name, m at level 100, f at level 200).

Section Search.
  Context {S A B : Type}.

  (** Binary search: detail/variant.hpp:83-111; [fuel] bounds the iterations. *)
  Fixpoint eff_binary_loop (less : S -> A -> B -> S * outcome bool) (greater : S -> B -> A -> S * outcome bool) (equal : S -> A -> B -> S * outcome bool)
      (fuel : nat) (value : B) (values : list A) (first last : Z) : eff S Z :=
    if last - first >? 1 then
      match fuel with
      | O => pure OutOfFuel
      | Datatypes.S fuel' =>
          let half := first + (last - first) / 2 in
          let! x := pure (aget values half) in
          let! b := (fun s => less s x value) in
          if b : bool then eff_binary_loop less greater equal fuel' value values (half + 1) last
          else
            let! c := (fun s => greater s value x) in
            if c : bool then eff_binary_loop less greater equal fuel' value values first half
            else if half + 1 =? last then pure (Ok half)
            else eff_binary_loop less greater equal fuel' value values first (half + 1)
      end
    else if last - first =? 1 then
      let! x := pure (aget values first) in
      let! b := (fun s => equal s x value) in
      pure (Ok (if b : bool then first else -1))
    else pure (Ok (-1)).

  (** Linear search: detail/variant.hpp:112-121. *)
  Fixpoint eff_linear_loop (equal : S -> A -> B -> S * outcome bool) (value : B) (rest : list A) (i : Z) : eff S Z :=
    match rest with
    | [] => pure (Ok (-1))
    | x :: r =>
        let! b := (fun s => equal s x value) in
        if b : bool then pure (Ok i) else eff_linear_loop equal value r (i + 1)
    end.

  (** are_values_sorted(): detail/variant.hpp:62-81. *)
  Definition values_sorted (ops : operators S A B) (values : list A) : bool :=
    match op_order ops with
    | Some lt => are_values_sorted true lt values
    | None => false
    end.

  (** search_value_index() for class types: detail/variant.hpp:165-169, 177-181, 132-137.  Only the overload that is called is
      instantiated; a missing operator is an error there even if it would not be executed. *)
  Definition eff_search (ops : operators S A B) (value : B) (values : list A) : eff S Z :=
    if values_sorted ops values then
      match op_less ops, op_greater ops, op_equal ops with
      | Some less, Some greater, Some equal => eff_binary_loop less greater equal (length values) value values 0 (Z.of_nat (length values))
      | _, _, _ => pure IllFormed
      end
    else
      match op_equal ops with
      | Some equal => eff_linear_loop equal value values 0
      | None => pure IllFormed
      end.

  (** expand_failfast(): variant.hpp:43-50. *)
  Definition eff_expand_failfast (ops : operators S A B) (value : B) (values : list A) : eff S nat :=
    match values with
    | [] => pure IllFormed
    | _ =>
        let! i := eff_search ops value values in
        let! _ := pure (expects (i >=? 0)) in
        pure (select values i)
    end.
  (** try_expand(): variant.hpp:98-105. *)
  Definition eff_try_expand (ops : operators S A B) (value : B) (values : list A) : eff S (option nat) :=
    match values with
    | [] => pure IllFormed
    | _ =>
        let! i := eff_search ops value values in
        if i <? 0 then pure (Ok None) else (let! k := pure (select values i) in pure (Ok (Some k)))
    end.
  (** expand(): variant.hpp:153-160. *)
  Definition eff_expand (ops : operators S A B) (value : B) (values : list A) : eff S nat :=
    match values with
    | [] => pure IllFormed
    | _ =>
        let! i := eff_search ops value values in
        if i <? 0 then pure (Throw UnsupportedRuntimeValue) else pure (select values i)
    end.
End Search.
