(** Model of structured bindings of the library's tuple-like types, and of tuple_elements<>: buffer<> and fixed_buffer<>
    (/repo/include/makeshift/experimental/buffer.hpp:218-262), the references of soa_span<> and soa_span<> itself
    (/repo/include/makeshift/experimental/detail/span.hpp:86-91, 254-261, experimental/span.hpp:149-155), type_sequence<>
    (/repo/include/makeshift/utility.hpp:27-77, 131-133), tuple and array constants (/repo/include/makeshift/constval.hpp:336-344, 396-404, 470-476,
    detail/constval.hpp:107-119, 369-376); /repo/include/makeshift/tuple.hpp:60-70, detail/tuple.hpp:29-39.

    range<> is treated in ClassModel.v, value_tuple<> in VTupleModel.v.  The initialiser of a structured binding is an object of the type itself. *)

From Coq Require Import ZArith Arith Bool List.
From Verif Require Import Base.
Import ListNotations.

(** Types: objects of the caller's types; const; gsl::span<T>; gsl::type_identity<T>; the type of the constant number k of a tuple or array constant.
    The types that experimental/buffer.hpp:257, experimental/detail/span.hpp:256, 261, utility.hpp:133 and constval.hpp:472, 476 are about. *)
Inductive ty := TObj (n : nat) | TConst (t : ty) | TSpan (t : ty) | TIdentity (t : ty) | TConstval (k : nat).
(** Equality of types, as in the partial specialisations of experimental/buffer.hpp:257 and so on. *)
Definition ty_eq_dec (a b : ty) : {a = b} + {a <> b}. Proof. decide equality; apply Nat.eq_dec. Defined.
(** std::add_const<>, as applied by std::tuple_element<I, T const> to experimental/buffer.hpp:257, experimental/detail/span.hpp:256, 261, utility.hpp:133. *)
Definition add_const (t : ty) : ty := match t with TConst _ => t | _ => TConst t end.
(** std::remove_const<>; used to compare types in the initialisation of variables from experimental/buffer.hpp:219-248. *)
Definition remove_const (t : ty) : ty := match t with TConst t' => t' | _ => t end.
(** std::is_const<>; likewise. *)
Definition is_const (t : ty) : bool := match t with TConst _ => true | _ => false end.

(** Tuple-like types: buffer<T, Extent, ...> and fixed_buffer<T, Extent, ...>, experimental/buffer.hpp:48-50; soa_reference<Ts...>,
    experimental/detail/span.hpp:36-37; soa_span<Ts...>, experimental/span.hpp:34-35; type_sequence<Ts...>, utility.hpp:27-28; array_constant<>,
    tuple_constant<> and tuple_like_constval<> with n elements, constval.hpp:284-285, 365-366, detail/constval.hpp:108-109. *)
Inductive tuple_like :=
| Buffer (t : ty) (extent : Z)
| SoaReference (ts : list ty)
| SoaSpan (ts : list ty)
| TypeSequence (ts : list ty)
| Constants (n : nat).

(** std::tuple_size<>: experimental/buffer.hpp:255-256, 260-261, experimental/detail/span.hpp:255, 260, utility.hpp:132, constval.hpp:471, 475,
    detail/constval.hpp:370; [None] if it is incomplete. *)
Definition tuple_size (u : tuple_like) : option nat :=
  match u with
  | Buffer _ extent => if (extent =? -1)%Z then None else Some (Z.to_nat extent)
  | SoaReference ts | SoaSpan ts | TypeSequence ts => Some (length ts)
  | Constants n => Some n
  end.
(** nth_type_t<>, used in experimental/detail/span.hpp:256, 261 and utility.hpp:133. *)
Definition nth_type (ts : list ty) (I : nat) : outcome ty := match nth_error ts I with Some t => Ok t | None => IllFormed end.
(** std::tuple_element<>: experimental/buffer.hpp:257, 262 (which does not look at I), experimental/detail/span.hpp:256, 261, utility.hpp:133,
    constval.hpp:472, 476, detail/constval.hpp:371-376. *)
Definition tuple_element (I : nat) (u : tuple_like) : outcome ty :=
  match u with
  | Buffer t _ => Ok t
  | SoaReference ts => nth_type ts I
  | SoaSpan ts => do t <- nth_type ts I; Ok (TSpan t)
  | TypeSequence ts => do t <- nth_type ts I; Ok (TIdentity t)
  | Constants n => if I <? n then Ok (TConstval I) else IllFormed
  end.
(** std::tuple_element<> of T const (the standard library's): applied to experimental/buffer.hpp:257 and so on. *)
Definition tuple_element_cv (I : nat) (const : bool) (u : tuple_like) : outcome ty :=
  do t <- tuple_element I u; Ok (if const then add_const t else t).

(** What get<I>() returns: an lvalue, naming an element of the tuple-like object itself or of the arrays of the caller, or a prvalue.
    experimental/buffer.hpp:219-248, experimental/detail/span.hpp:87-91, experimental/span.hpp:150-155, utility.hpp:71-77. *)
Inductive result := OwnElement (t : ty) | ArrayElement (t : ty) | Prvalue (t : ty).
(** get<I>() of an lvalue or rvalue, const or not: experimental/buffer.hpp:219-248 (an rvalue can only be passed to the overload for const),
    experimental/detail/span.hpp:87-91, experimental/span.hpp:150-155, utility.hpp:71-77, constval.hpp:337-344, 397-404, detail/constval.hpp:112-119. *)
Definition get (I : nat) (lvalue const : bool) (u : tuple_like) : outcome result :=
  match u with
  | Buffer t extent =>
      if (extent =? -1)%Z then IllFormed
      else if (Z.of_nat I <? extent)%Z then Ok (OwnElement (if lvalue && negb const then t else add_const t)) else IllFormed
  | SoaReference ts => do t <- nth_type ts I; Ok (ArrayElement t)
  | SoaSpan ts => do t <- nth_type ts I; Ok (Prvalue (TSpan t))
  | TypeSequence ts => do t <- nth_type ts I; Ok (Prvalue (TIdentity t))
  | Constants n => if I <? n then Ok (Prvalue (TConstval I)) else IllFormed
  end.

(** Structured bindings (the language's): "auto [...] = u", "auto const [...] = u", "auto& [...] = u", "auto const& [...] = u" (for an lvalue u), and
    "auto&& [...]" with an rvalue.  They use experimental/buffer.hpp:218-262 and so on. *)
Inductive form := ByValue | ByConstValue | ByRef | ByConstRef | ByRvalueRef.
(** Whether the hidden object is const; the language's, for get<I>() of experimental/buffer.hpp:219-248. *)
Definition form_const (f : form) : bool := match f with ByConstValue | ByConstRef => true | _ => false end.
(** Whether the hidden variable is an lvalue reference; otherwise get<I>() is called with an xvalue.  Likewise, experimental/buffer.hpp:219-248. *)
Definition form_lvalue (f : form) : bool := match f with ByRef | ByConstRef => true | _ => false end.
(** What a name denotes, with its type: element [I] of a copy of the tuple-like object; of the object itself; of the caller's arrays; or an object of
    its own.  Referred to by the variables initialised from experimental/buffer.hpp:219-248, experimental/detail/span.hpp:87-91 and so on. *)
Inductive denoted := InCopy (I : nat) (t : ty) | InObject (I : nat) (t : ty) | InArrays (I : nat) (t : ty) | Own (I : nat) (t : ty).
(** A variable of type "reference to E" can be initialised with an object of type t: experimental/buffer.hpp:219-248 and so on. *)
Definition binds (E t : ty) : bool := (if ty_eq_dec (remove_const E) (remove_const t) then true else false) && (negb (is_const t) || is_const E).
(** One name; the language's, with experimental/buffer.hpp:218-262 and so on. *)
Definition bind_name (f : form) (u : tuple_like) (I : nat) : outcome denoted :=
  do E <- tuple_element_cv I (form_const f) u;
  do r <- get I (form_lvalue f) (form_const f) u;
  match r with
  | OwnElement t => if binds E t then Ok ((match f with ByValue | ByConstValue => InCopy | _ => InObject end) I E) else IllFormed
  | ArrayElement t => if binds E t then Ok (InArrays I E) else IllFormed
  | Prvalue t => if binds E t then Ok (Own I E) else IllFormed
  end.
(** All names; there must be as many as std::tuple_size<> says, and at least one: experimental/buffer.hpp:255-256, experimental/detail/span.hpp:255, 260,
    utility.hpp:132. *)
Definition structured_binding (f : form) (u : tuple_like) (names : nat) : outcome (list denoted) :=
  match tuple_size u with
  | Some n => if Nat.eqb names n && (0 <? names) then mapM (bind_name f u) (seq 0 names) else IllFormed
  | None => IllFormed
  end.

(** The argument of tuple_elements<>: a tuple-like type, const or not, or a reference to one.  tuple.hpp:63-70. *)
Inductive argument := Plain (u : tuple_like) | ConstOf (u : tuple_like) | RefTo (u : tuple_like).
(** tuple_elements<T>, tuple_elements_t<T>: tuple.hpp:63-70, detail/tuple.hpp:29-39; the type_sequence<> is the list of its arguments.
    std::tuple_size<> of a reference is incomplete. *)
Definition tuple_elements (a : argument) : outcome (list ty) :=
  match a with
  | Plain u => match tuple_size u with Some n => mapM (fun I => tuple_element_cv I false u) (seq 0 n) | None => IllFormed end
  | ConstOf u => match tuple_size u with Some n => mapM (fun I => tuple_element_cv I true u) (seq 0 n) | None => IllFormed end
  | RefTo _ => IllFormed
  end.
