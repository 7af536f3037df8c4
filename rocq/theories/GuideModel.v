(** Model of declarations with deduced template arguments, such as "overload{ f, g }", and of the functions make_...() that do the same:
    overload<> and y_combinator<> (/repo/include/makeshift/functional.hpp:22-98), composition<> and type_sequence<> (/repo/include/makeshift/utility.hpp:24-66,
    104-115), value_tuple<> (/repo/include/makeshift/tuple.hpp:72-83, 99-104, detail/tuple.hpp:58-67), soa_span<>
    (/repo/include/makeshift/experimental/span.hpp:34-61, 157-177).

    The deduction guides of array_constant<> and tuple_constant<> are in CtypeModel.v, those of range<> in RangeModel.v.  All classes can be moved.
    An rvalue is an existing object; for a prvalue, the first move is left out by the language.  A class that is both a direct and an indirect base of an
    overload<> is not treated here. *)

From Coq Require Import Arith Bool List.
From Verif Require Import Base.
Import ListNotations.

(** Language version: CMakeLists.txt of the tests has both; functional.hpp:31 is an aggregate in both. *)
Inductive std := Cpp17 | Cpp20.
(** "X{ args... }" or "X(args...)"; functional.hpp:26 and experimental/functional.hpp:46 show the latter. *)
Inductive syntax := Braces | Parens.
(** The class templates: functional.hpp:31-38, utility.hpp:109-114, functional.hpp:53-78, tuple.hpp:77-83, utility.hpp:27-49, experimental/span.hpp:34-161. *)
Inductive template := Overload | Composition | YCombinator | ValueTuple | TypeSequence | SoaSpan.
(** Equality of class templates; for the copy deduction candidates of functional.hpp:37 and so on. *)
Definition template_eq_dec (a b : template) : {a = b} + {a <> b}. Proof. decide equality. Defined.

(** Types of arguments: a class of the caller's, which may have a call operator, be final, or be copyable; something that is no class, such as a function
    pointer; an integer; gsl::type_identity<T>; gsl::span<T>; std::tuple<Ts*...>; an instance of one of the class templates.
    The arguments of functional.hpp:37, 78, utility.hpp:49, 114, tuple.hpp:83, experimental/span.hpp:159-161. *)
Inductive ty :=
| Class (id : nat) (callable final copyable : bool)
| Scalar (id : nat)
| Integer
| Identity (t : ty)
| Span (t : ty)
| Pointers (ts : list ty)
| Inst (k : template) (ts : list ty).

(** Whether two types are the same; for the base classes of functional.hpp:32. *)
Fixpoint ty_eqb (a b : ty) : bool :=
  let list_eqb := fix list_eqb (l l' : list ty) : bool :=
    match l, l' with
    | [], [] => true
    | x :: r, y :: r' => ty_eqb x y && list_eqb r r'
    | _, _ => false
    end in
  match a, b with
  | Class i c f y, Class j c' f' y' => Nat.eqb i j && Bool.eqb c c' && Bool.eqb f f' && Bool.eqb y y'
  | Scalar i, Scalar j => Nat.eqb i j
  | Integer, Integer => true
  | Identity t, Identity u => ty_eqb t u
  | Span t, Span u => ty_eqb t u
  | Pointers l, Pointers l' => list_eqb l l'
  | Inst k l, Inst k' l' => (if template_eq_dec k k' then true else false) && list_eqb l l'
  | _, _ => false
  end.
(** No type occurs twice; the language's rule for the direct base classes of functional.hpp:32. *)
Fixpoint distinct (l : list ty) : bool :=
  match l with [] => true | t :: r => negb (existsb (ty_eqb t) r) && distinct r end.

(** Whether objects can be copied: the implicit copy constructors of functional.hpp:31-35, 53-57, tuple.hpp:77-81, which copy the bases or members;
    the other types hold nothing but pointers. *)
Fixpoint copyable (t : ty) : bool :=
  match t with
  | Class _ _ _ c => c
  | Inst (Overload | YCombinator | ValueTuple) ts => (fix all (l : list ty) : bool := match l with [] => true | x :: r => copyable x && all r end) ts
  | _ => true
  end.
(** Whether "using F::operator ()" and a base class F are possible: functional.hpp:32, 34.  overload<> without arguments has no call operator; those of
    y_combinator<> and type_sequence<> are in functional.hpp:66-77, utility.hpp:33-36. *)
Definition functor_base (t : ty) : bool :=
  match t with
  | Class _ callable final _ => callable && negb final
  | Inst Overload ts => match ts with [] => false | _ => true end
  | Inst (YCombinator | TypeSequence) _ => true
  | _ => false
  end.

(** An argument: its type without reference and const, and whether initialising an object with it copies (an lvalue, or const) or moves.
    The arguments of functional.hpp:37, 78 and so on. *)
Record arg := mk_arg { a_ty : ty; a_copy : bool }.
(** What is done with an object: functional.hpp:60, 96 and so on. *)
Inductive op := Copy | Move.
(** Initialises an object by value: parameters and bases of functional.hpp:32, 59, 94, tuple.hpp:103, detail/tuple.hpp:64. *)
Definition init (a : arg) : outcome op :=
  if a_copy a then if copyable (a_ty a) then Ok Copy else IllFormed else Ok Move.

(** The argument is an instance of the class template itself: the copy deduction candidate is chosen then, as it is more specialised than the guides of
    functional.hpp:37, 78, utility.hpp:49, 114, tuple.hpp:83, experimental/span.hpp:161. *)
Definition copied (k : template) (args : list arg) : option (list ty) :=
  match args with
  | [a] => match a_ty a with Inst k' ts => if template_eq_dec k k' then Some ts else None | _ => None end
  | _ => None
  end.
(** The T of gsl::type_identity<T>: utility.hpp:49, 61. *)
Definition identity_arg (a : arg) : outcome ty := match a_ty a with Identity t => Ok t | _ => IllFormed end.
(** The T of gsl::span<T>: experimental/span.hpp:161, 174. *)
Definition span_arg (a : arg) : outcome ty := match a_ty a with Span t => Ok t | _ => IllFormed end.
(** The arguments of the constructor that takes pointers and a size: experimental/span.hpp:41-44, 159. *)
Definition pointers_and_size (args : list arg) : option (list ty) :=
  match args with
  | [p; n] => match a_ty p, a_ty n with Pointers ts, Integer => Some ts | _, _ => None end
  | _ => None
  end.
(** The deduction guides: functional.hpp:36-37, 77-78, utility.hpp:48-49, 113-114, tuple.hpp:82-83, experimental/span.hpp:158-161. *)
Definition guide (k : template) (args : list arg) : outcome (list ty) :=
  match k with
  | Overload | Composition | ValueTuple => Ok (map a_ty args)
  | YCombinator => match args with [a] => Ok [a_ty a] | _ => IllFormed end
  | TypeSequence => mapM identity_arg args
  | SoaSpan => match pointers_and_size args with Some ts => Ok ts | None => mapM span_arg args end
  end.
(** Initialisation of an object of type k<ts...> with the arguments, for each of which the operations on it and its copies are listed:
    overload<> is an aggregate, functional.hpp:31-35, which can be initialised with parentheses since C++20 (without arguments before, too);
    composition<> is an aggregate without elements, utility.hpp:109-112; y_combinator(F): functional.hpp:59-62; value_tuple_base(): detail/tuple.hpp:64-67;
    type_sequence(): utility.hpp:30-31; soa_span(): experimental/span.hpp:41-44 (private), 56-61 (a span is copied like a pointer, this is left out). *)
Definition construct (s : std) (x : syntax) (k : template) (ts : list ty) (args : list arg) : outcome (list (list op)) :=
  match k with
  | Overload =>
      if forallb functor_base ts && distinct ts then
        match x, s, args with
        | Parens, Cpp17, _ :: _ => IllFormed
        | _, _, _ => mapM (fun a => do e <- init a; Ok [e]) args
        end
      else IllFormed
  | Composition => match args with [] => Ok [] | _ => IllFormed end
  | YCombinator => mapM (fun a => do e <- init a; Ok [e; Move]) args
  | ValueTuple => mapM (fun a => do e <- init a; if copyable (a_ty a) then Ok [e; Copy] else IllFormed) args
  | TypeSequence => mapM (fun a => do e <- init a; Ok [e]) args
  | SoaSpan => match pointers_and_size args with Some _ => IllFormed | None => mapM (fun a => do e <- init a; Ok [e]) args end
  end.
(** A declaration with deduced template arguments: the type of the object, and what is done with the arguments.
    functional.hpp:36-37, 77-78, utility.hpp:48-49, 113-114, tuple.hpp:82-83, experimental/span.hpp:158-161. *)
Definition declare (s : std) (x : syntax) (k : template) (args : list arg) : outcome (ty * list (list op)) :=
  match copied k args with
  | Some ts => do es <- mapM (fun a => do e <- init a; Ok [e]) args; Ok (Inst k ts, es)
  | None => do ts <- guide k args; do es <- construct s x k ts args; Ok (Inst k ts, es)
  end.

(** make_y_combinator(): functional.hpp:91-97: the parameter, the parameter of the constructor, and the member. *)
Definition make_y_combinator (args : list arg) : outcome (ty * list (list op)) :=
  match args with
  | [a] => do e <- init a; Ok (Inst YCombinator [a_ty a], [[e; Move; Move]])
  | _ => IllFormed
  end.
(** make_value_tuple(): tuple.hpp:99-104. *)
Definition make_value_tuple (args : list arg) : outcome (ty * list (list op)) :=
  do es <- mapM (fun a => do e <- init a; if copyable (a_ty a) then Ok [e; Copy] else IllFormed) args; Ok (Inst ValueTuple (map a_ty args), es).
(** make_type_sequence(): utility.hpp:61-66. *)
Definition make_type_sequence (args : list arg) : outcome (ty * list (list op)) :=
  do ts <- mapM identity_arg args; do es <- mapM (fun a => do e <- init a; Ok [e]) args; Ok (Inst TypeSequence ts, es).
(** make_soa_span(): experimental/span.hpp:172-177. *)
Definition make_soa_span (args : list arg) : outcome (ty * list (list op)) :=
  do ts <- mapM span_arg args; do es <- mapM (fun a => do e <- init a; Ok [e]) args; Ok (Inst SoaSpan ts, es).
(** All of them; overload<> and composition<> have no such function.  functional.hpp:91-97, tuple.hpp:99-104, utility.hpp:61-66, experimental/span.hpp:172-177. *)
Definition make (k : template) (args : list arg) : outcome (ty * list (list op)) :=
  match k with
  | YCombinator => make_y_combinator args
  | ValueTuple => make_value_tuple args
  | TypeSequence => make_type_sequence args
  | SoaSpan => make_soa_span args
  | Overload | Composition => IllFormed
  end.
