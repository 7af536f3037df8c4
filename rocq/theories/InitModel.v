(** Element types of arrays: array_transform(), array_fill(), array_cat(): /repo/include/makeshift/array.hpp:26-279,
    detail/array.hpp:25-130, detail/tuple-transform.hpp:62-75.

    TupleModel.v says which calls are made and in which order; there, the types of elements and the conversion of results
    to the element type of the array are left out.  Here are the types: how the element type is deduced, and how the array is
    initialised with the results, "ArrayT<R, N>{ results... }", with the rules of the language for aggregate initialisation
    (implicit conversions, narrowing, brace elision).  The functor and the classes are unknown. *)

From Coq Require Import ZArith Arith Bool List.
From Verif Require Import Base ExpandModel TupleModel.
Import ListNotations.
Local Open Scope Z_scope.

(** Object types: integral types, floating-point types by rank, classes and enumerations, index_constant<I>, std::array<>.
    The types "R" and "T" of detail/array.hpp:79-125. *)
Inductive ty : Type :=
| Int (t : ity)
| Flt (rank : nat)
| Cls (c : nat)
| Idx (i : nat)
| Arr (t : ty) (n : nat).
(** Values of these types: the results of detail/tuple-transform.hpp:74. *)
Inductive val : Type := VInt (z : Z) | VFlt (x : Z) | VObj (x : nat) | VArr (l : list val).

(** Whether two integral types are the same, for detail/type_traits.hpp:168-169. *)
Definition ity_eqb (a b : ity) : bool := (ity_bits a =? ity_bits b) && Bool.eqb (ity_signed a) (ity_signed b).
(** Whether two types are the same, for detail/type_traits.hpp:168-169. *)
Fixpoint ty_eqb (a b : ty) : bool :=
  match a, b with
  | Int s, Int t => ity_eqb s t
  | Flt r, Flt s => Nat.eqb r s
  | Cls c, Cls d => Nat.eqb c d
  | Idx i, Idx j => Nat.eqb i j
  | Arr s n, Arr t m => ty_eqb s t && Nat.eqb n m
  | _, _ => false
  end.

(** Types of expressions as a functor sees them: a possibly const lvalue or rvalue.  The types in detail/array.hpp:35, 56. *)
Record pty := mk_pty { p_const : bool; p_lvalue : bool; p_ty : ty }.
(** Return types of functors: a value or a reference.  The types in detail/array.hpp:35, 56. *)
Record rty := mk_rty { r_ref : bool; r_const : bool; r_ty : ty }.
(** Whether two of them are the same: detail/type_traits.hpp:168-169. *)
Definition rty_eqb (a b : rty) : bool := Bool.eqb (r_ref a) (r_ref b) && Bool.eqb (r_const a) (r_const b) && ty_eqb (r_ty a) (r_ty b).

(** std::ptrdiff_t, the type of detail/zip.hpp:63 and detail/array.hpp:32 (64 bits). *)
Definition ptrdiff_it : ity := mk_ity 64 true.

(** Arguments: tuples (with the types and constness of their elements), arrays, range_index, tuple_index; and how they are
    passed: "Ts&&" with Ts deduced.  array.hpp:45. *)
Inductive akind : Type :=
| KTuple (elems : list (bool * ty * val))
| KArray (const : bool) (t : ty) (vs : list val)
| KRange
| KTupleIndex.
(** array.hpp:45. *)
Record targ := mk_targ { a_kind : akind; a_const : bool; a_lvalue : bool }.

Section Types.
  (** Conversions from and to classes; default constructors of classes. *)
  Variable user : ty -> ty -> option (val -> val).
  Variable default_of : nat -> option val.
  (** The functor: its return type, if it can be called as an lvalue ([false]) or rvalue ([true]), and its results. *)
  Variable call_type : bool -> list pty -> option rty.
  Variable call : list (pty * val) -> val.

  (** ** Initialisation *)

  (** Implicit conversions; narrowing as in the C++ standard, [dcl.init.list] (the sources are not constants).
      The language's; they take place in detail/array.hpp:95, 108, 117. *)
  Inductive conversion : Type := Conv (f : val -> val) | Narrow | NoConv.
  (** Whether the second type can represent all values of the first; the language's rule for detail/array.hpp:95, 108, 117. *)
  Definition fits (a b : ity) : bool := (ity_min b <=? ity_min a) && (ity_max a <=? ity_max b).
  (** The conversion from [s] to [t] in detail/array.hpp:95, 108, 117. *)
  Definition implicit (s t : ty) : conversion :=
    if ty_eqb s t then Conv (fun v => v)
    else
      match s, t with
      | Int a, Int b => if fits a b then Conv (fun v => v) else Narrow
      | Flt a, Flt b => if Nat.leb a b then Conv (fun v => v) else Narrow
      | Int _, Flt _ | Flt _, Int _ => Narrow
      | Idx i, Int b => if fits ptrdiff_it b then Conv (fun _ => VInt (Z.of_nat i)) else Narrow
      | Idx _, Flt _ => Narrow
      | Cls _, _ | _, Cls _ => match user s t with Some f => Conv f | None => NoConv end
      | _, _ => NoConv
      end.

  (** Value-initialisation of the elements for which there is no initialiser.  The language's; for detail/array.hpp:95, 108, 117. *)
  Fixpoint zero (t : ty) : outcome val :=
    match t with
    | Int _ => Ok (VInt 0)
    | Flt _ => Ok (VFlt 0)
    | Cls c => match default_of c with Some v => Ok v | None => IllFormed end
    | Idx _ => Ok (VObj 0)
    | Arr u n => do vs <- mapM (fun _ => zero u) (seq 0 n); Ok (VArr vs)
    end.

  (** Repeats [f] for [n] elements, each of which takes some of the initialisers.  The language's; for detail/array.hpp:95, 108, 117. *)
  Fixpoint init_elems (f : list (ty * val) -> outcome (val * list (ty * val))) (n : nat) (cs : list (ty * val))
      : outcome (list val * list (ty * val)) :=
    match n with
    | O => Ok ([], cs)
    | S n' => do ' (v, cs1) <- f cs; do ' (vs, cs2) <- init_elems f n' cs1; Ok (v :: vs, cs2)
    end.
  (** Initialisation of an object of type [t] within a braced list: from the next initialiser, if it can be converted; otherwise
      the braces of the subaggregate are taken to be left out, which they cannot be if it has no elements.
      The language's; for detail/array.hpp:95, 108, 117. *)
  Fixpoint init (t : ty) (cs : list (ty * val)) : outcome (val * list (ty * val)) :=
    match cs with
    | [] => do v <- zero t; Ok (v, [])
    | (s, v) :: rest =>
        match implicit s t with
        | Conv f => Ok (f v, rest)
        | Narrow => IllFormed
        | NoConv =>
            match t with
            | Arr u (S n) => do ' (vs, rest') <- init_elems (init u) (S n) cs; Ok (VArr vs, rest')
            | _ => IllFormed
            end
        end
    end.
  (** "ArrayT<R, N>{ cs... }": a single initialiser of the same type is copied.  detail/array.hpp:95, 108, 117. *)
  Definition braced (t : ty) (n : nat) (cs : list (ty * val)) : outcome val :=
    match cs with
    | [(s, v)] => if ty_eqb s (Arr t n) then Ok v
                  else do ' (vs, rest) <- init_elems (init t) n cs; match rest with [] => Ok (VArr vs) | _ => IllFormed end
    | _ => do ' (vs, rest) <- init_elems (init t) n cs; match rest with [] => Ok (VArr vs) | _ => IllFormed end
    end.

  (** ** Arguments *)

  (** The argument as TupleModel.v has it.  Its size is all that matters: detail/tuple-transform.hpp:44-46. *)
  Definition to_arg (a : targ) : arg val :=
    match a_kind a with
    | KTuple es => ATuple (map snd es)
    | KArray _ _ vs => ATuple vs
    | KRange => ARangeIndex
    | KTupleIndex => ATupleIndex
    end.
  (** get_element<I>(): detail/tuple-transform.hpp:62-67; get<I>() of range_index and tuple_index: detail/zip.hpp:62-67, 85-90. *)
  Definition element_type (i : nat) (a : targ) : option pty :=
    match a_kind a with
    | KTuple es => match nth_error es i with
                   | Some (c, t, _) => Some (mk_pty (a_const a || c) (a_lvalue a) t)
                   | None => None
                   end
    | KArray c t vs => match nth_error vs i with
                       | Some _ => Some (mk_pty (a_const a || c) (a_lvalue a) t)
                       | None => None
                       end
    | KRange => Some (mk_pty false false (Int ptrdiff_it))
    | KTupleIndex => Some (mk_pty false false (Idx i))
    end.
  (** The values that go with [element_type]: detail/tuple-transform.hpp:62-67, detail/zip.hpp:66, 89. *)
  Definition element_value (i : nat) (a : targ) : val :=
    match a_kind a with
    | KTuple es => match nth_error es i with Some (_, _, v) => v | None => VObj 0 end
    | KArray _ _ vs => match nth_error vs i with Some v => v | None => VObj 0 end
    | KRange => VInt (Z.of_nat i)
    | KTupleIndex => VObj 0
    end.
  (** A missing type is a compile error: detail/array.hpp:35, 65. *)
  Definition to_outcome {A : Type} (o : option A) : outcome A := match o with Some a => Ok a | None => IllFormed end.
  (** "get_element<I>(args)...": detail/tuple-transform.hpp:74, detail/array.hpp:35. *)
  Definition element_types (i : nat) (args : list targ) : outcome (list pty) := mapM (fun a => to_outcome (element_type i a)) args.
  (** transform_element<I>(): detail/tuple-transform.hpp:70-75.  The functor is called as an lvalue; "auto" drops references
      and const. *)
  Definition transform_element (i : nat) (args : list targ) : outcome (ty * val) :=
    do ps <- element_types i args;
    match call_type false ps with
    | Some r => Ok (r_ty r, call (combine ps (map (element_value i) args)))
    | None => IllFormed
    end.

  (** ** Deduction of the element type *)

  (** is_homogeneous_arg_<>: detail/array.hpp:25-29. *)
  Definition is_homogeneous (a : targ) : bool :=
    match a_kind a with KArray _ _ _ | KRange => true | KTuple _ | KTupleIndex => false end.
  (** transfer_ref_<Ts, homogeneous_arg_type_<decay_t<Ts>>>: detail/array.hpp:31-32, 45-48.  The element type is decayed, and the const of an
      rvalue is lost. *)
  Definition transferred_type (a : targ) : pty :=
    let t := match a_kind a with KArray _ t _ => t | _ => Int ptrdiff_it end in
    if a_lvalue a then mk_pty (a_const a) true t else mk_pty false false t.
  (** homogeneous_result_<N, true, F, Ts...>: detail/array.hpp:50-57, the result of std::declval<F>()(...), decayed; [rvalue]: F is not a
      reference. *)
  Definition homogeneous_result (rvalue : bool) (args : list targ) : outcome rty :=
    match call_type rvalue (map transferred_type args) with
    | Some r => Ok (mk_rty false false (r_ty r))
    | None => IllFormed
    end.
  (** result_type_<F, I, Ts...>: detail/array.hpp:35-43. *)
  Definition result_type (rvalue : bool) (args : list targ) (i : nat) : outcome rty :=
    do ps <- element_types i args; to_outcome (call_type rvalue ps).
  (** equal_types_<>, check_homogeneous_result_<>: detail/type_traits.hpp:165-169, detail/array.hpp:58-66. *)
  Fixpoint equal_types (rs : list rty) : option rty :=
    match rs with
    | [] => None
    | [r] => Some r
    | r :: ((s :: _) as rest) => if rty_eqb r s then equal_types rest else None
    end.
  (** homogeneous_result_<N, false, F, Ts...>: detail/array.hpp:67-72. *)
  Definition heterogeneous_result (rvalue : bool) (n : nat) (args : list targ) : outcome rty :=
    do rs <- mapM (result_type rvalue args) (seq 0 n); to_outcome (equal_types rs).

  (** array_transform_impl(): detail/array.hpp:79-96.  The result: the element type, possibly const, and the elements. *)
  Definition array_transform_impl (rvalue : bool) (n : nat) (args : list targ) : outcome (bool * ty * val) :=
    match n with
    | O =>
        if forallb is_homogeneous args then
          do r <- homogeneous_result rvalue args; Ok (false, r_ty r, VArr [])
        else IllFormed
    | S _ =>
        do r <- (if forallb is_homogeneous args then homogeneous_result rvalue args else heterogeneous_result rvalue n args);
        if r_ref r then IllFormed
        else
          do cs <- mapM (fun i => transform_element i args) (seq 0 n);
          do v <- braced (r_ty r) n cs;
          Ok (r_const r, r_ty r, v)
    end.
  (** array_transform_to_impl(): detail/array.hpp:97-109. *)
  Definition array_transform_to_impl (R : ty) (n : nat) (args : list targ) : outcome val :=
    match n with
    | O => Ok (VArr [])
    | S _ => do cs <- mapM (fun i => transform_element i args) (seq 0 n); braced R n cs
    end.

  (** array_transform(), array_transform<N>(), and with an element type: array.hpp:34-177 ([N]: -1 if not given). *)
  Definition array_transform_deduced (rvalue : bool) (N : Z) (args : list targ) : outcome (bool * ty * val) :=
    do n <- tuple_transform_size N (map to_arg args); array_transform_impl rvalue n args.
  (** With an element type: array.hpp:74-105, 139-177. *)
  Definition array_transform_to (R : ty) (N : Z) (args : list targ) : outcome val :=
    do n <- tuple_transform_size N (map to_arg args); array_transform_to_impl R n args.

  (** array_cat<T>(): array.hpp:245-279, array_cat_impl(): detail/array.hpp:112-125.  "return { ... }" follows the same rules. *)
  Definition array_cat_to (T : ty) (tuples : list (list (ty * val))) : outcome val :=
    do cs <- cat_impl tuples; braced T (length cs) cs.
  (** array_fill<N>(): array.hpp:178-204; fill_fn<T>: detail/zip.hpp:32-41. *)
  Definition array_fill_to (N : nat) (T : ty) (v : val) : outcome val :=
    match N with O => Ok (VArr []) | S _ => braced T N (repeat (T, v) N) end.
  (** mdarray<T, Dims...>: array.hpp:24-31, detail/array.hpp:128-130. *)
  Fixpoint mdarray (T : ty) (dims : list nat) : ty :=
    match dims with [] => T | d :: r => Arr (mdarray T r) d end.
End Types.
