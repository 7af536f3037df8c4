(** Model of include/makeshift/iomanip.hpp:25-88 and include/makeshift/detail/iomanip.hpp: manipulators made from
    functors, and the objects they refer to.

    What as_enum() and as_flags() do to a stream once their functors are called is in StreamModel.v; here the
    functors are arbitrary. *)

From Coq Require Import Arith Bool List.
From Verif Require Import Base.
Import ListNotations.

Section Manip.
  (** [F]: what a pair of functors captures; [V]: values of objects; [St]: streams.  The function call operators of the
      two functors are called on a const functor (the captured values cannot change), and get the stream and references
      to objects. *)
  Variables (F V St : Type).
  (** What the arguments of detail/iomanip.hpp:62-67, 99-104 refer to. *)
  Definition objects := list V.
  (** ToStreamFuncT, FromStreamFuncT as called in detail/iomanip.hpp:38, 50, 87. *)
  Definition functor := F -> list nat -> objects -> St -> outcome (objects * St).
  (** ToStreamFuncT and FromStreamFuncT; [None] is "void", a manipulator made from one functor
      (detail/iomanip.hpp:21-22, 69-70). *)
  Record functors := mk_functors { put : functor; get : option functor }.

  (** Manipulators that have been created, with [None] for those destroyed.  detail/iomanip.hpp:21-22, 69-70. *)
  Definition manipulators := list (option F).

  (** make_manipulator (iomanip.hpp:25-36): the functors are moved into base class subobjects
      (detail/iomanip.hpp:57-60, 94-97).  The result is the new manipulator. *)
  Definition make_manipulator (ms : manipulators) (f : F) : manipulators * nat := (ms ++ [Some f], length ms).
  (** The destructor of detail/iomanip.hpp:21-22, 69-70. *)
  Definition destroy (ms : manipulators) (a : nat) : manipulators := upd ms a None.

  (** The arguments of operator (): lvalues and rvalues.  detail/iomanip.hpp:62-67, 99-104. *)
  Inductive arg := LValue (i : nat) | RValue (v : V).

  (** bound_manipulator (detail/iomanip.hpp:24-28, 74-78): a reference to the manipulator, and a tuple of references
      to the lvalues and of objects made from the rvalues. *)
  Record bound := mk_bound { b_manip : nat; b_args : list nat }.

  (** The tuple args_: ArgsT is an lvalue reference for lvalues, which are referred to; objects are moved.
      The objects in the tuple come after those that existed before.  detail/iomanip.hpp:28, 66, 78, 103. *)
  Fixpoint tuple_of (os : objects) (args : list arg) : objects * list nat :=
    match args with
    | [] => (os, [])
    | LValue i :: r => let '(os, l) := tuple_of os r in (os, i :: l)
    | RValue v :: r => let '(os', l) := tuple_of (os ++ [v]) r in (os', length os :: l)
    end.

  (** operator () (detail/iomanip.hpp:62-67, 99-104): { *this, { std::forward<ArgsT>(args)... } }. *)
  Definition call (a : nat) (args : list arg) (os : objects) : objects * bound :=
    let '(os, l) := tuple_of os args in (os, mk_bound a l).

  (** operator << and operator >> (detail/iomanip.hpp:30-53, 80-90): std::apply passes the elements of args_ as
      lvalues (m.args_ is an lvalue).  A manipulator that does not exist any more cannot be used. *)
  Definition stream_with (f : functor) (ms : manipulators) (b : bound) (os : objects) (s : St)
      : outcome (objects * St) :=
    match nth_error ms (b_manip b) with
    | Some (Some c) => f c (b_args b) os s
    | _ => UB
    end.
  (** With ToStreamFuncT and FromStreamFuncT; there is no operator >> for a manipulator made from one functor.  detail/iomanip.hpp:30-41, 80-90. *)
  Definition op_insert (fs : functors) := stream_with (put fs).
  (** detail/iomanip.hpp:42-53. *)
  Definition op_extract (fs : functors) (ms : manipulators) (b : bound) (os : objects) (s : St) : outcome (objects * St) :=
    match get fs with
    | Some f => stream_with f ms b os s
    | None => IllFormed
    end.

  (** `stream << manip(args...);` and `stream >> manip(args...);`: the bound manipulator, and so the tuple, ends with
      the expression.  User code for detail/iomanip.hpp:30-53, 62-67. *)
  Definition use_with (op : manipulators -> bound -> objects -> St -> outcome (objects * St))
      (ms : manipulators) (a : nat) (args : list arg) (os : objects) (s : St) : outcome (objects * St) :=
    let '(os', b) := call a args os in
    do ' (os', s) <- op ms b os' s;
    Ok (firstn (length os) os', s).
  (** User code for detail/iomanip.hpp:30-41, 80-90. *)
  Definition insert (fs : functors) := use_with (op_insert fs).
  (** User code for detail/iomanip.hpp:42-53. *)
  Definition extract (fs : functors) := use_with (op_extract fs).
  (** For a given functor.  User code for detail/iomanip.hpp:30-53. *)
  Definition use (f : functor) := use_with (stream_with f).

  (** `stream << make_manipulator(f...)(args...);`: the temporary manipulator lives as long as the expression.  User code for iomanip.hpp:25-36. *)
  Definition use_temporary (f : functor) (ms : manipulators) (c : F) (args : list arg) (os : objects) (s : St)
      : outcome (objects * St) :=
    let '(ms, a) := make_manipulator ms c in
    use f ms a args os s.

  (** as_enum and as_flags (iomanip.hpp:39-62, 65-88): `return make_manipulator(...)(std::forward<T>(value));`, that is
      the temporary manipulator ends with the return statement.  The functors are lambda expressions. *)
  Definition as_manipulator (ms : manipulators) (c : F) (value : arg) (os : objects) : manipulators * objects * bound :=
    let '(ms, a) := make_manipulator ms c in
    let '(os, b) := call a [value] os in
    (destroy ms a, os, b).
End Manip.

Arguments LValue {V} i.
Arguments RValue {V} v.
