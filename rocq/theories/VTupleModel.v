(** The value categories of value_tuple<>: construction, element access and structured bindings.
    /repo/include/makeshift/tuple.hpp:73-104, 433-435, /repo/include/makeshift/detail/tuple.hpp:42-68.

    The comparison operators are in TupleModel.v. *)

From Coq Require Import ZArith Arith Bool List.
From Verif Require Import Base TupleModel MoveModel.
Import ListNotations.

(** * Construction *)
(** What objects of a class can do: be copied; be moved ([MoveNone]: no move constructor, so rvalues are copied; [MoveDeleted]:
    rvalues are rejected).  The element types of tuple.hpp:76-81 are the caller's. *)
Inductive move_kind := MoveYes | MoveNone | MoveDeleted.
(** A class of the caller's, as element type in tuple.hpp:76-81. *)
Record class := mk_class { copyable : bool; move : move_kind }.

(** Argument: object [a_obj] of class [a_class], as an lvalue or rvalue, const or not.  Arrays and functions decay to pointers,
    which are copied; this is left out.  The parameter "Ts&&... args" of tuple.hpp:101. *)
Record carg := mk_carg { a_obj : nat; a_class : class; a_lvalue : bool; a_const : bool }.

(** What happens to objects: parameter or element [i] is constructed by copying or moving, or a parameter is destroyed.
    Parameters and elements: detail/tuple.hpp:64-65. *)
Inductive event := CopyParam (i : nat) | MoveParam (i : nat) | CopyElem (i : nat) | DestroyParam (i : nat).

Section Construction.
  Context {V : Type}.
  (** What remains of an object that is moved from. *)
  Variable moved : V -> V.
  (** The constructors copy and move values faithfully; they do not throw. *)

  (** Initialising parameter [i] from an argument: the language's overload resolution between copy and move constructor.
      The parameters of detail/tuple.hpp:64, initialised in tuple.hpp:103. *)
  Definition init_param (objs : list V) (i : nat) (a : carg) : outcome (list V * V * event) :=
    do v <- arr_get objs (a_obj a);
    if a_lvalue a || a_const a then
      (if copyable (a_class a) then Ok (objs, v, CopyParam i) else IllFormed)
    else
      match move (a_class a) with
      | MoveYes => do objs' <- arr_set objs (a_obj a) (moved v); Ok (objs', v, MoveParam i)
      | MoveNone => if copyable (a_class a) then Ok (objs, v, CopyParam i) else IllFormed
      | MoveDeleted => IllFormed
      end.
  (** make_value_tuple(): tuple.hpp:99-104: an initialiser list, so from left to right. *)
  Fixpoint init_params (objs : list V) (i : nat) (args : list carg) : outcome (list V * list V * list event) :=
    match args with
    | [] => Ok (objs, [], [])
    | a :: r =>
        do ' (objs1, v, e) <- init_param objs i a;
        do ' (objs2, vs, es) <- init_params objs1 (S i) r;
        Ok (objs2, v :: vs, e :: es)
    end.
  (** value_tuple_base<>::value_tuple_base(): detail/tuple.hpp:64-67: the elements are initialised with the parameters, which are
      lvalues. *)
  Fixpoint init_elems (i : nat) (args : list carg) (params : list V) : outcome (list V * list event) :=
    match args, params with
    | [], [] => Ok ([], [])
    | a :: args', v :: params' =>
        if copyable (a_class a) then do ' (vs, es) <- init_elems (S i) args' params'; Ok (v :: vs, CopyElem i :: es)
        else IllFormed
    | _, _ => IllFormed
    end.
  (** The whole call; at the end, the parameters are destroyed (in an order that is up to the implementation).  [Ok (objs, tuple,
      events)]: the objects after the call, the elements, and what happened.  tuple.hpp:99-104. *)
  Definition make_value_tuple (objs : list V) (args : list carg) : outcome (list V * list V * list event) :=
    do ' (objs', params, es) <- init_params objs 0 args;
    do ' (elems, es') <- init_elems 0 args params;
    Ok (objs', elems, es ++ es' ++ map DestroyParam (rev (seq 0 (length args)))).
End Construction.

(** * Element access *)
(** Element types: objects, const or not; references.  The types "Ts..." of tuple.hpp:76. *)
Inductive ety := EObj (const : bool) | ELRef (const : bool) | ERRef (const : bool).
(** An expression that denotes an element: an lvalue of const or non-const type, or an xvalue.
    The type of the call of get<I>() in tuple.hpp:84-97. *)
Inductive category := Lvalue (const : bool) | Xvalue (const : bool).

(** An element of rvalue reference type cannot be initialised with a parameter, which is an lvalue: detail/tuple.hpp:65. *)
Definition constructible (e : ety) : bool := match e with ERRef _ => false | _ => true end.
(** get<I>(): tuple.hpp:84-97, _tuple_get(): detail/tuple.hpp:48-57; for a tuple that is an lvalue or rvalue, const or not.
    Rvalues select the overload for const lvalues.  "auto const&" adds const to the element type, also to what a reference refers
    to.  The types named in detail/tuple.hpp:48, 53: whether what the element or reference denotes is const. *)
Definition element_const (e : ety) : bool := match e with EObj c | ELRef c | ERRef c => c end.
(** get<I>(): tuple.hpp:84-97. *)
Definition vt_get (ts : list ety) (I : nat) (lvalue const : bool) : outcome category :=
  match nth_error ts I with
  | None => IllFormed
  | Some e => if lvalue && negb const then Ok (Lvalue (element_const e)) else Ok (Lvalue true)
  end.
(** std::tuple_size<>, std::tuple_element<>: 433-435; for "E const", const is added to object types, by the standard library.  tuple.hpp:434. *)
Definition vt_size (ts : list ety) : nat := length ts.
(** std::tuple_element<>: tuple.hpp:435. *)
Definition vt_element (ts : list ety) (I : nat) (const : bool) : outcome ety :=
  match nth_error ts I with
  | None => IllFormed
  | Some (EObj c) => Ok (EObj (c || const))
  | Some e => Ok e
  end.

(** Structured bindings (the language's): by value, auto&, auto const&, auto&& of an lvalue (like auto&) or rvalue (like by
    value).  A name stands for a variable of type "reference to std::tuple_element_t<I, E>", initialised with get<I>(): an lvalue
    reference, since that is an lvalue (references collapse); it cannot drop const.  The result is what the name denotes.
    The language's use of tuple.hpp:84-97, 434-435. *)
Inductive binding := ByValue | ByRef | ByConstRef.
(** One name; the language's, with get<I>() of tuple.hpp:84-97 and std::tuple_element<> of tuple.hpp:435. *)
Definition bind_name (ts : list ety) (how : binding) (I : nat) : outcome category :=
  let const := match how with ByConstRef => true | _ => false end in
  do e <- vt_element ts I const;
  do g <- vt_get ts I (match how with ByValue => false | _ => true end) const;
  match g with
  | Lvalue gc => if gc && negb (element_const e) then IllFormed else Ok (Lvalue (element_const e))
  | Xvalue gc => IllFormed
  end.
(** All names; the number has to be std::tuple_size<>: tuple.hpp:434.  (A binding without names is a syntax error.). *)
Definition vt_binding (ts : list ety) (how : binding) (names : nat) : outcome (list category) :=
  if Nat.eqb names (vt_size ts) && (0 <? names) then mapM (bind_name ts how) (seq 0 names) else IllFormed.

(** * In the tuple algorithms *)
(** get<I>(std::forward<T>(arg)) of value tuples in tuple_cat(), tuple_transform() and so on (detail/tuple-transform.hpp:62-67,
    detail/tuple.hpp:259-266): always an lvalue, so an rvalue tuple gives the references an lvalue gives (const is left out as in
    MoveModel.v). *)
Definition vt_arg (a : nat * bool) : nat * bool := (fst a, false).
(** tuple_cat(): tuple.hpp:338-345, detail/tuple.hpp:260-273. *)
Definition vt_cat {V : Type} (m : memory V) (args : list (nat * bool)) : memory V * outcome (list V) := cat_from m (map vt_arg args).
