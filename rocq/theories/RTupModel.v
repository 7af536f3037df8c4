(** Model of the tuple functions with value_tuple<> or std::tuple<> as the template of the result: which objects are copied and moved when the result is
    made, and what is rejected.  tuple_transform<TupleT>(): /repo/include/makeshift/tuple.hpp:200-217, detail/tuple.hpp:129-142; tuple_cat<TupleT>():
    tuple.hpp:338-363, detail/tuple.hpp:260-273; tie_members<TupleT>(): tuple.hpp:366-408, detail/tuple.hpp:276-287; value_tuple<>: tuple.hpp:76-97,
    detail/tuple.hpp:41-67.

    Which elements are combined, and the values, are treated in TupleModel.v and RefTupleModel.v.  Elements that are references to const are left out, and
    std::tuple<> is that of the standard. *)

From Coq Require Import Arith Bool List.
From Verif Require Import Base.
Import ListNotations.

(** The template TupleT of tuple.hpp:209, 356, 379: std::tuple<> or value_tuple<>. *)
Inductive template := StdTuple | ValueTuple.
(** A class of the caller's: has it a copy constructor, a move constructor.  The results of the functor and elements in detail/tuple.hpp:140, 261. *)
Record class := mk_class { copyable : bool; movable : bool }.
(** Element types: objects, const or not; lvalue and rvalue references.  The arguments of TupleT in detail/tuple.hpp:140, 261, 286. *)
Inductive ety := EObj (c : class) (const : bool) | ELRef (c : class) | ERRef (c : class).
(** Value categories; the language's, for the initialisers of detail/tuple.hpp:141, 265, 286. *)
Inductive category := Prvalue | Xvalue | Lvalue.
(** An initialiser: detail/tuple.hpp:141, 265, 286. *)
Record expr := mk_expr { x_cat : category; x_const : bool; x_class : class }.
(** What is done to an object: detail/tuple.hpp:64-65 and the constructor of std::tuple<>, called in detail/tuple.hpp:141. *)
Inductive op := Copy | Move.

(** Initialises an object with an expression of the same class: a prvalue is the object; a move constructor is chosen for rvalues that are not const.
    The language's, for detail/tuple.hpp:64-65. *)
Definition init (e : expr) : outcome (list op) :=
  match x_cat e with
  | Prvalue => Ok []
  | Xvalue => if negb (x_const e) && movable (x_class e) then Ok [Move] else if copyable (x_class e) then Ok [Copy] else IllFormed
  | Lvalue => if copyable (x_class e) then Ok [Copy] else IllFormed
  end.
(** The parameter "UTypes&&" of the constructor of std::tuple<>, forwarded: a prvalue becomes an xvalue.  Called in detail/tuple.hpp:141, 265, 286. *)
Definition forwarded (e : expr) : expr := mk_expr (match x_cat e with Prvalue => Xvalue | c => c end) (x_const e) (x_class e).
(** Initialises a reference of type T& or T&&: detail/tuple.hpp:64-65, and the constructor of std::tuple<>, called in detail/tuple.hpp:265, 286. *)
Definition bind_lref (e : expr) : outcome (list op) :=
  match x_cat e with Lvalue => if x_const e then IllFormed else Ok [] | _ => IllFormed end.
(** See above: detail/tuple.hpp:265. *)
Definition bind_rref (e : expr) : outcome (list op) :=
  match x_cat e with Lvalue => IllFormed | _ => if x_const e then IllFormed else Ok [] end.
(** One element of the result.  The constructor of value_tuple<> takes parameters by value, and the elements are initialised with the parameters, which
    are lvalues: detail/tuple.hpp:64-65, tuple.hpp:77-81. *)
Definition make_element (rt : template) (t : ety) (e : expr) : outcome (list op) :=
  match rt, t with
  | StdTuple, EObj _ _ => init (forwarded e)
  | StdTuple, ELRef _ => bind_lref e
  | StdTuple, ERRef _ => bind_rref e
  | ValueTuple, EObj c const => do l <- init e; do l' <- init (mk_expr Lvalue const c); Ok (l ++ l')
  | ValueTuple, ELRef c => do l <- bind_lref e; do l' <- bind_lref (mk_expr Lvalue false c); Ok (l ++ l')
  | ValueTuple, ERRef c => do l <- bind_rref e; do l' <- bind_rref (mk_expr Lvalue false c); Ok (l ++ l')
  end.
(** All elements, with their types; [rt] is TupleT.  detail/tuple.hpp:141, 265, 286. *)
Definition make_tuple (rt : template) (l : list (ety * expr)) : outcome (list (ety * list op)) :=
  mapM (fun p => do ops <- make_element rt (fst p) (snd p); Ok (fst p, ops)) l.

(** tuple_transform<TupleT>(): detail/tuple.hpp:129-142, given the results of the functor; the element types are decayed. *)
Definition transform (rt : template) (results : list expr) : outcome (list (ety * list op)) :=
  make_tuple rt (map (fun e => (EObj (x_class e) false, e)) results).

(** An argument of tuple_cat(): tuple template, value category, const, element types.  tuple.hpp:356-363. *)
Record source := mk_source { s_template : template; s_lvalue : bool; s_const : bool; s_types : list ety }.
(** get<I>() of an element of the given type: for std::tuple<>, the standard's; for value_tuple<>, tuple.hpp:84-97, detail/tuple.hpp:46-55, an rvalue is
    passed as const lvalue, and "auto const&" makes what references refer to const.  Called in detail/tuple.hpp:265. *)
Definition get (s : source) (t : ety) : expr :=
  match s_template s, t with
  | StdTuple, EObj c const => mk_expr (if s_lvalue s then Lvalue else Xvalue) (const || s_const s) c
  | StdTuple, ELRef c => mk_expr Lvalue false c
  | StdTuple, ERRef c => mk_expr (if s_lvalue s then Lvalue else Xvalue) false c
  | ValueTuple, EObj c const => mk_expr Lvalue (const || s_const s || negb (s_lvalue s)) c
  | ValueTuple, (ELRef c | ERRef c) => mk_expr Lvalue (s_const s || negb (s_lvalue s)) c
  end.
(** tuple_cat<TupleT>(): detail/tuple.hpp:260-273, tuple.hpp:356-363; the element types are those of the arguments. *)
Definition cat (rt : template) (args : list source) : outcome (list (ety * list op)) :=
  make_tuple rt (flat_map (fun s => map (fun t => (t, get s t)) (s_types s)) args).

(** tie_members<TupleT>(): detail/tuple.hpp:276-287, tuple.hpp:379-408; "x.*member" is an lvalue, so its decltype is a reference. *)
Definition tie (rt : template) (members : list class) : outcome (list (ety * list op)) :=
  make_tuple rt (map (fun c => (ELRef c, mk_expr Lvalue false c)) members).
