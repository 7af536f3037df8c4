(** Value categories in the tuple and array algorithms: the functions of TupleModel.v applied to references to elements
    that can be moved from.

    TupleModel.v is parametric in the type of elements and in the state of the functor.  Here elements are references
    with a value category, as get<I>(std::forward<T>(arg)) returns them (detail/tuple-transform.hpp:62-67), and the
    state is the memory with the tuples.  Tuples of references are not modelled. *)

From Coq Require Import ZArith Arith Bool List.
From Verif Require Import Base TupleModel.
Import ListNotations.

Section Move.
  Context {V : Type}.

  (** The tuples that exist; [None] is an element that has been moved from.
      Not in the code: the state in which detail/tuple.hpp:135-142, 260-266 and detail/array.hpp:103-118 run. *)
  Definition memory := list (list (option V)).

  (** A reference to element [r_idx] of tuple [r_obj]; [r_rvalue]: an rvalue reference.  What get<I>() returns in detail/tuple-transform.hpp:66. *)
  Record ref := mk_ref { r_obj : nat; r_idx : nat; r_rvalue : bool }.

  (** Reading such an element, as the constructors called in detail/tuple.hpp:265 do. *)
  Definition cell (m : memory) (o i : nat) : option (option V) :=
    match nth_error m o with Some t => nth_error t i | None => None end.
  (** Writing one; the move constructors called in detail/tuple.hpp:265 do so. *)
  Definition set_cell (m : memory) (o i : nat) (c : option V) : memory :=
    match nth_error m o with Some t => upd m o (upd t i c) | None => m end.

  (** Arguments of the algorithms: a tuple passed as lvalue or rvalue, or an index placeholder.  The function arguments of tuple.hpp:118, 156, 340. *)
  Inductive marg := MTuple (o : nat) (rvalue : bool) | MRangeIndex | MTupleIndex.

  (** get<0>(std::forward<T>(arg)), get<1>(std::forward<T>(arg)), ...  detail/tuple-transform.hpp:66, detail/tuple.hpp:265. *)
  Definition refs_of (m : memory) (o : nat) (rvalue : bool) : list ref :=
    match nth_error m o with
    | Some t => map (fun i => mk_ref o i rvalue) (seq 0 (length t))
    | None => []
    end.
  (** The argument as TupleModel.v takes it, detail/tuple-transform.hpp:35-46. *)
  Definition arg_of (m : memory) (a : marg) : arg ref :=
    match a with
    | MTuple o rv => ATuple (refs_of m o rv)
    | MRangeIndex => ARangeIndex
    | MTupleIndex => ATupleIndex
    end.

  (** Initialisation of an object from a reference: copy or move construction.  Reading what was moved from is reported
      as [UB].  The language's; in detail/tuple.hpp:265 and detail/array.hpp:117. *)
  Definition construct (m : memory) (r : ref) : memory * outcome V :=
    match cell m (r_obj r) (r_idx r) with
    | Some (Some v) => (if r_rvalue r then set_cell m (r_obj r) (r_idx r) None else m, Ok v)
    | _ => (m, UB)
    end.
  (** The braces from left to right: detail/tuple.hpp:265, detail/array.hpp:117. *)
  Fixpoint construct_all (m : memory) (rs : list ref) : memory * outcome (list V) :=
    match rs with
    | [] => (m, Ok [])
    | r :: rest =>
        match construct m r with
        | (m, Ok v) => let '(m, o) := construct_all m rest in (m, do vs <- o; Ok (v :: vs))
        | (m, Contract) => (m, Contract) | (m, Throw e) => (m, Throw e) | (m, UB) => (m, UB)
        | (m, IllFormed) => (m, IllFormed) | (m, OutOfFuel) => (m, OutOfFuel)
        end
    end.

  (** tuple_cat_impl_1(): detail/tuple.hpp:259-266, array_cat_impl_1(): detail/array.hpp:112-118: the result is
      list-initialized from get<col>(get<row>(std::move(tupleOfTuples)))..., where tupleOfTuples is a tuple of
      (lvalue and rvalue) references to the arguments. *)
  Definition cat_from (m : memory) (args : list (nat * bool)) : memory * outcome (list V) :=
    match tuple_cat (map (fun a => refs_of m (fst a) (snd a)) args) with
    | Ok rs => construct_all m rs
    | _ => (m, IllFormed)
    end.

  (** A functor that takes its parameters by value and computes [g]; parameters are initialised from left to right
      (the order is not specified and makes no difference for different elements).  It is the caller's; called in detail/tuple-transform.hpp:74. *)
  Definition by_value {R : Type} (g : list V -> R) (m : memory) (row : list (element ref)) : memory * outcome R :=
    let '(m, o) := construct_all m (flat_map (fun e => match e with Elem r => [r] | _ => [] end) row) in
    (m, do vs <- o; Ok (g vs)).
End Move.
Arguments memory V : clear implicits.
