(** Model of the accumulators of reductions over ranges and tuples: algorithm.hpp:164-203, tuple.hpp:229-259 and
    detail/tuple.hpp:145-164.  Over a range the accumulator is one variable, which is assigned to after every call of the reducer; over
    a tuple it is an expression, whose type may change with every call.

    Types are numbers, and [V] comprises the values of all types.  What the elements are, and in which order they are visited, is taken
    from ZipModel and TupleModel.  The construction of the variable from the initial value and that of the returned object, and copies
    of the elements, are not modelled here; see MoveModel and RefTupleModel. *)

From Coq Require Import ZArith Arith Bool List.
From Verif Require Import Base TupleModel ZipModel.
From Verif Require RefTupleModel.
Import ListNotations.

(** Value categories and return types, as in RefTupleModel: detail/tuple.hpp:152-163, algorithm.hpp:176, 200. *)
Notation category := RefTupleModel.category.
Notation rty := RefTupleModel.rty.

(** What the reducer returns: a value that is not in the accumulator, or a reference to the accumulator it was passed.
    algorithm.hpp:176, 200, detail/tuple.hpp:156. *)
Inductive answer (V : Type) := Fresh (v : V) | Itself.
Arguments Fresh {V}. Arguments Itself {V}.

Section Accumulators.
  Context {S V : Type}.
  (** "x = y" for an object of type [T] and an expression of type [U] and the given category; the function takes the old and the new
      value.  [None] if there is no such operator.  Used in algorithm.hpp:176, 200. *)
  Variable assign : nat -> nat -> category -> option (V -> V -> outcome V).
  (** The same operator for "x = x" or "x = std::move(x)".  algorithm.hpp:176, 200. *)
  Variable self_assign : nat -> category -> V -> outcome V.
  (** The reducer: the type of a call with an accumulator of given type and category and an element of given type; what a call leaves
      in the accumulator, and what it returns.  ReduceFuncT in algorithm.hpp:164-203, tuple.hpp:229-259. *)
  Variable red_type : nat * category -> nat -> option rty.
  Variable red : S -> nat -> V -> nat * V -> S * outcome (V * answer V).

  (** The expression that a call is: its type and category; not if it is void.  algorithm.hpp:176, 200, detail/tuple.hpp:155-157. *)
  Definition expression_of (r : rty) : option (nat * category) :=
    match r with
    | RefTupleModel.RVoid => None
    | RefTupleModel.RVal T => Some (T, RefTupleModel.Xvalue false)
    | RefTupleModel.RLRef c T => Some (T, RefTupleModel.Lvalue c)
    | RefTupleModel.RRRef c T => Some (T, RefTupleModel.Xvalue c)
    end.

  (** ** Ranges *)
  (** The assignment "result = reduce(std::move(result), ...)", if it compiles: the type and category of the right-hand side, and the
      operator.  algorithm.hpp:176, 200. *)
  Definition assignment (T X : nat) : option (rty * (nat * category) * (V -> V -> outcome V)) :=
    match red_type (T, RefTupleModel.Xvalue false) X with
    | Some r =>
        match expression_of r with
        | Some (U, c) => match assign T U c with Some f => Some (r, (U, c), f) | None => None end
        | None => None
        end
    | None => None
    end.
  (** One step: algorithm.hpp:176, 200.  A reference to the accumulator is of its type; references to subobjects are not modelled. *)
  Definition range_step (T X : nat) (s : S) (result : V) (x : V) : S * outcome V :=
    match assignment T X with
    | Some (r, (U, c), f) =>
        let '(s', o) := red s T result (X, x) in
        (s', do ' p <- o;
             let '(rest, a) := p in
             match a, r with
             | Fresh v, _ => f rest v
             | Itself, RefTupleModel.RVal _ => IllFormed
             | Itself, _ => if U =? T then self_assign T c rest else IllFormed
             end)
    | None => (s, IllFormed)
    end.

  (** range_reduce(): algorithm.hpp:191-203; [T]: the type of "result", [X]: the element type, [elem]: the elements.  The result has
      the type of "result". *)
  Definition range_reduce (T X : nat) (init : V) (elem : ref -> V) (r : rng) (s : S) : S * outcome (nat * V) :=
    match assignment T X with
    | Some _ =>
        let '(s', o) := ZipModel.range_reduce init (fun s a x => range_step T X s a (elem x)) r s in (s', do v <- o; Ok (T, v))
    | None => (s, IllFormed)
    end.
  (** range_transform_reduce(): algorithm.hpp:164-179; [X]: the type of a call of the transformer.  The return type std::decay_t<T> is
      that of "result". *)
  Definition range_transform_reduce (T X : nat) (init : V) (transform : S -> list ref -> S * outcome V) (rs : list rng) (s : S)
      : S * outcome (nat * V) :=
    match assignment T X with
    | Some _ =>
        let '(s', o) := ZipModel.range_transform_reduce init (range_step T X) transform rs s in (s', do v <- o; Ok (T, v))
    | None => (s, IllFormed)
    end.

  (** ** Tuples *)
  (** The accumulator: an expression of a type and category, and its value.  "V&& value" in detail/tuple.hpp:152, 160. *)
  Definition acc : Type := (nat * category) * V.
  (** The types V of all steps, given the types of the elements: detail/tuple.hpp:151-163. *)
  Fixpoint acc_types (a : nat * category) (Xs : list nat) : option (nat * category) :=
    match Xs with
    | [] => Some a
    | X :: r =>
        match red_type a X with
        | Some t => match expression_of t with Some a' => acc_types a' r | None => None end
        | None => None
        end
    end.
  (** One step: detail/tuple.hpp:155-157. *)
  Definition tuple_step (s : S) (a : acc) (x : nat * V) : S * outcome acc :=
    match red_type (fst a) (fst x) with
    | Some r =>
        match expression_of r with
        | Some e =>
            let '(s', o) := red s (fst (fst a)) (snd a) x in
            (s', do ' p <- o;
                 let '(rest, y) := p in
                 match y, r with
                 | Fresh v, _ => Ok (e, v)
                 | Itself, RefTupleModel.RVal _ => IllFormed
                 | Itself, _ => if fst e =? fst (fst a) then Ok (e, rest) else IllFormed
                 end)
        | None => (s, IllFormed)
        end
    | None => (s, IllFormed)
    end.
  (** template_reduce(): tuple.hpp:250-259; the elements with their types.  The result has the type of the last accumulator. *)
  Definition template_reduce (init : acc) (elems : list (nat * V)) (s : S) : S * outcome (nat * V) :=
    match acc_types (fst init) (map fst elems) with
    | Some _ =>
        let '(s', o) :=
          TupleModel.template_reduce init
            (fun s a e => match e with Elem x => tuple_step s a x | _ => (s, IllFormed) end) (ATuple elems) s in
        (s', do a <- o; Ok (fst (fst a), snd a))
    | None => (s, IllFormed)
    end.
End Accumulators.
