(** The class template range<> as the compiler sees it: /repo/include/makeshift/ranges.hpp:31-54, 125-129,
    /repo/include/makeshift/detail/ranges.hpp:25-175.

    Types are first-order terms.  Which partial specialisation of a class template is used is determined by the language rules:
    matching, and the ordering of specialisations.  RangeModel.v has the values; here are types and value categories. *)

From Coq Require Import ZArith Arith Bool List.
From Verif Require Import Base.
Import ListNotations.

(** A type, or a value as a template argument; [Var] is a template parameter.  [App f args]: class template [f] (or an
    ordinary type, if there are no arguments).  The arguments of the templates of detail/ranges.hpp:95-122 and ranges.hpp:31, 126-129. *)
Inductive tm : Type := Var (n : nat) | Num (z : Z) | App (f : nat) (args : list tm).

(** Whether two types are the same, as "It" in detail/ranges.hpp:113-122 has to be. *)
Fixpoint tm_eqb (a b : tm) : bool :=
  match a, b with
  | Var n, Var m => Nat.eqb n m
  | Num z, Num w => Z.eqb z w
  | App f l, App g l' =>
      Nat.eqb f g &&
      (fix list_eqb (l l' : list tm) : bool :=
         match l, l' with
         | [], [] => true
         | x :: r, y :: r' => tm_eqb x y && list_eqb r r'
         | _, _ => false
         end) l l'
  | _, _ => false
  end.

(** Deduction of the template arguments of a partial specialisation: [bs] are the parameters deduced so far.
    The language's; for detail/ranges.hpp:95-122, ranges.hpp:126-129. *)
Fixpoint lookup (n : nat) (bs : list (nat * tm)) : option tm :=
  match bs with
  | [] => None
  | (m, t) :: r => if Nat.eqb n m then Some t else lookup n r
  end.
(** Matches pattern [p] with [t]; the language's, for detail/ranges.hpp:95-122, ranges.hpp:126-129. *)
Fixpoint deduce (p t : tm) (bs : list (nat * tm)) : option (list (nat * tm)) :=
  match p with
  | Var n =>
      match lookup n bs with
      | Some u => if tm_eqb u t then Some bs else None
      | None => Some ((n, t) :: bs)
      end
  | Num z => match t with Num w => if Z.eqb z w then Some bs else None | _ => None end
  | App f ps =>
      match t with
      | App g ts =>
          if Nat.eqb f g then
            (fix deduce_list (ps ts : list tm) (bs : list (nat * tm)) : option (list (nat * tm)) :=
               match ps, ts with
               | [], [] => Some bs
               | p' :: ps', t' :: ts' => match deduce p' t' bs with Some bs' => deduce_list ps' ts' bs' | None => None end
               | _, _ => None
               end) ps ts bs
          else None
      | _ => None
      end
  end.
(** Whether a specialisation matches; the language's, for detail/ranges.hpp:95-122, ranges.hpp:126-129. *)
Definition matches (p t : tm) : bool := match deduce p t [] with Some _ => true | None => false end.
(** Partial ordering: [p] is at least as specialised as [q] if [q] matches [p], whose parameters are taken as unique types.
    The language's; for detail/ranges.hpp:95-122, ranges.hpp:126-129. *)
Definition at_least_as_specialised (p q : tm) : bool := matches q p.
(** The language's; for detail/ranges.hpp:95-122, ranges.hpp:126-129. *)
Definition more_specialised (p q : tm) : bool := at_least_as_specialised p q && negb (at_least_as_specialised q p).

(** The specialisation that is instantiated; specialisations are numbered by their position.
    The language's; for detail/ranges.hpp:95-122, ranges.hpp:126-129. *)
Inductive selection : Type := Primary | Selected (i : nat) | Ambiguous.
(** The specialisations that match, of detail/ranges.hpp:95-122, ranges.hpp:126-129. *)
Fixpoint positions (specs : list tm) (t : tm) (i : nat) : list (nat * tm) :=
  match specs with
  | [] => []
  | p :: r => if matches p t then (i, p) :: positions r t (S i) else positions r t (S i)
  end.
(** The most specialised of those that match; the language's, for detail/ranges.hpp:95-122, ranges.hpp:126-129. *)
Definition select (specs : list tm) (t : tm) : selection :=
  match positions specs t 0 with
  | [] => Primary
  | ms =>
      match filter (fun p => forallb (fun q => Nat.eqb (fst p) (fst q) || more_specialised (snd p) (snd q)) ms) ms with
      | [p] => Selected (fst p)
      | _ => Ambiguous
      end
  end.

(** Names of the templates and tag types.  ranges.hpp:31. *)
Definition n_range : nat := 0.
(** detail/ranges.hpp:95-96. *)
Definition n_range_base : nat := 1.
(** std::random_access_iterator_tag in detail/ranges.hpp:106, 114, 122, 132. *)
Definition n_random_access : nat := 2.
(** std::input_iterator_tag in detail/ranges.hpp:133. *)
Definition n_input : nat := 3.
(** detail/ranges.hpp:106, 114, 122, 132. *)
Definition random_access_iterator_tag : tm := App n_random_access [].
(** detail/ranges.hpp:133. *)
Definition input_iterator_tag : tm := App n_input [].

(** Classes of iterators, as far as they matter: std::iterator_traits<It>::iterator_category is derived from
    std::random_access_iterator_tag; and the type of *it: an lvalue (of const type), or not an lvalue (the const-ness of rvalues is left out).
    detail/ranges.hpp:163, 170. *)
Inductive deref_type : Type := DLvalue (const : bool) | DPrvalue.
(** What detail/ranges.hpp:130-133, 163, 170 look at. *)
Record iterator_class := mk_iterator_class { legacy_random_access : bool; deref : deref_type }.

(** range_iterator_tag<It>: detail/ranges.hpp:130-133. *)
Definition range_iterator_tag (c : iterator_class) : tm :=
  if legacy_random_access c then random_access_iterator_tag else input_iterator_tag.

(** range_base<> and its partial specialisations: detail/ranges.hpp:95-128. *)
Definition range_base_specs : list tm :=
  [ App n_range_base [Var 0; Var 1; Var 2; Num (-1)];
    App n_range_base [Var 0; Var 1; random_access_iterator_tag; Num (-1)];
    App n_range_base [Var 0; Var 0; random_access_iterator_tag; Num (-1)];
    App n_range_base [Var 0; Var 0; random_access_iterator_tag; Var 3] ].
(** The base classes of these: general_range_base<>, detail/ranges.hpp:24-40, random_access_range_base<>, 41-65, static_random_access_range_base<>,
    66-93, which asserts a non-negative extent. *)
Inductive range_kind : Type := General | RandomAccess | Static (extent : Z).
(** The base class of range<>: ranges.hpp:31-34, detail/ranges.hpp:95-128. *)
Definition range_class (c : iterator_class) (It EndIt : tm) (extent : Z) : outcome range_kind :=
  match select range_base_specs (App n_range_base [It; EndIt; range_iterator_tag c; Num extent]) with
  | Selected 0 => Ok General
  | Selected 1 | Selected 2 => Ok RandomAccess
  | Selected 3 => if (0 <=? extent)%Z then Ok (Static extent) else IllFormed
  | _ => IllFormed
  end.
(** size() and operator [].  detail/ranges.hpp:56-59, 84-87. *)
Definition has_size (k : range_kind) : bool := match k with General => false | _ => true end.
(** detail/ranges.hpp:60-64, 88-92. *)
Definition has_subscript (k : range_kind) : bool := match k with General => false | _ => true end.

(** std::tuple_size<range<...>>: ranges.hpp:126-127; [Ok None]: the type is incomplete.  The second specialisation is declared but
    not defined.  A negative extent is not a std::size_t. *)
Definition tuple_specs : list tm :=
  [ App n_range [Var 0; Var 0; Var 1]; App n_range [Var 0; Var 1; Num (-1)] ].
(** ranges.hpp:126-127. *)
Definition tuple_size (It EndIt : tm) (extent : Z) : outcome (option Z) :=
  match select tuple_specs (App n_range [It; EndIt; Num extent]) with
  | Primary => Ok None
  | Selected 0 => if (0 <=? extent)%Z then Ok (Some extent) else IllFormed
  | Selected _ => Ok None
  | Ambiguous => IllFormed
  end.
(** std::tuple_element<I, range<...>>: ranges.hpp:128-129: the decayed type of what an iterator refers to, that is, the element type, not const; I is not
    checked.  [true]: it exists. *)
Definition tuple_element (It EndIt : tm) (extent : Z) : outcome bool :=
  match select tuple_specs (App n_range [It; EndIt; Num extent]) with
  | Primary => Ok false
  | Selected 0 => Ok true
  | Selected _ => Ok false
  | Ambiguous => IllFormed
  end.

(** get<I>(): detail/ranges.hpp:162-175.  [lvalue], [const]: the argument is a (const) lvalue or rvalue.  The first overload takes
    non-const lvalues; for these, it is better than the second.  The second needs *it to be an lvalue (as_const(): 157-161) and
    returns a reference to const.  The result is what *it is, or that reference. *)
Definition range_get_type (k : range_kind) (d : deref_type) (lvalue const : bool) (I : Z) : outcome deref_type :=
  match k with
  | Static extent =>
      if lvalue && negb const then if (I <? extent)%Z then Ok d else IllFormed
      else match d with
           | DLvalue _ => if (I <? extent)%Z then Ok (DLvalue true) else IllFormed
           | DPrvalue => IllFormed
           end
  | _ => IllFormed
  end.

(** Structured bindings (the language's): "auto [...] = r" (by value), "auto& [...] = r", "auto const& [...] = r" with the given
    number of names, of which there must be one at least.  The variables are references to std::tuple_element_t<I, E>, where E is the range type (const if declared so),
    initialised with get<I>() of the range, as an rvalue if declared by value: lvalue references if this is an lvalue, rvalue
    references otherwise.  A reference to non-const cannot refer to a const object.  They use detail/ranges.hpp:162-175 and ranges.hpp:126-129. *)
Inductive binding : Type := ByValue | ByRef | ByConstRef.
(** One variable; the language's, with detail/ranges.hpp:162-175 and ranges.hpp:128-129. *)
Definition bind_variable (const_element : bool) (g : deref_type) : outcome deref_type :=
  match g with
  | DLvalue c => if c && negb const_element then IllFormed else Ok (DLvalue const_element)
  | DPrvalue => Ok DPrvalue
  end.
(** All variables; the language's, with detail/ranges.hpp:162-175 and ranges.hpp:126-129. *)
Definition structured_binding (c : iterator_class) (It EndIt : tm) (extent : Z) (how : binding) (names : nat) : outcome (list deref_type) :=
  do k <- range_class c It EndIt extent;
  do n <- tuple_size It EndIt extent;
  match n with
  | None => IllFormed
  | Some n =>
      if Z.eqb n (Z.of_nat names) && (0 <? names)%nat then
        mapM (fun I =>
          do e <- tuple_element It EndIt extent;
          if e then
            do g <- range_get_type k (deref c) (match how with ByValue => false | _ => true end) (match how with ByConstRef => true | _ => false end) (Z.of_nat I);
            bind_variable (match how with ByConstRef => true | _ => false end) g
          else IllFormed) (seq 0 names)
      else IllFormed
  end.

(** is_tuple_like<R>: detail/type_traits.hpp:202-203; is R a tuple for the range algorithms and tuple functions?  An ambiguity
    makes the program ill-formed (some compilers treat it as "no"). *)
Definition is_tuple_like (It EndIt : tm) (extent : Z) : outcome bool :=
  do n <- tuple_size It EndIt extent; Ok (match n with Some _ => true | None => false end).

(** Iterators: pointers (to const), index_iterator (iterator.hpp:63-74) and soa_span_iterator<> (experimental/detail/span.hpp:111-131),
    which have the C++17 category std::input_iterator_tag. *)
Definition pointer_class (const : bool) : iterator_class := mk_iterator_class true (DLvalue const).
(** iterator.hpp:63-74. *)
Definition index_iterator_class : iterator_class := mk_iterator_class false DPrvalue.
(** experimental/detail/span.hpp:111-131. *)
Definition soa_iterator_class : iterator_class := mk_iterator_class false DPrvalue.
