(** Model of constvals: /repo/include/makeshift/constval.hpp, detail/constval.hpp, detail/type_traits.hpp:175-199. *)

From Coq Require Import ZArith Arith Bool List.
From Verif Require Import Base ExpandModel.
Import ListNotations.

(** Values, and the types of proto-constvals: default-constructible functor types that return a value known at compile
    time.  Functor classes are identified by numbers, see [call] below.  For detail/constval.hpp:68-201, constval.hpp:284-390. *)
Inductive value : Type :=
| VNttp (k : nat) (z : Z)                     (* of a valid non-type template parameter type k: integral, enum, member pointer *)
| VArray (nttp : bool) (l : list value)       (* std::array<T, N>; of T we keep only whether it is a valid NTTP type *)
| VTuple (l : list value)                     (* std::tuple<Ts...> *)
| VLike (k : nat) (l : list value)            (* another tuple-like class, e.g. std::pair<>, value_tuple<> *)
| VOther (k : nat) (z : Z)                    (* any other type, e.g. floating-point numbers and structures *)
| VConst (c : cv)                             (* an object of an empty functor class, e.g. a constval *)
(** detail/constval.hpp:68-76, 97-111, 122-138, 149-156, 251-258, 272-279; constval.hpp:284-390; utility.hpp:27-47. *)
with cv : Type :=
| CInt (k : nat) (z : Z)                      (* std::integral_constant<T, V> *)
| CTypeId (t : nat)                           (* gsl::type_identity<T>, which is not callable *)
| CSeq (ts : list nat)                        (* type_sequence<Ts...>, which returns itself: utility.hpp:27-46 *)
| CArr (nttp : bool) (l : list value)         (* array_constant<T, Vs...>; T is a const reference if not a valid NTTP type *)
| CTup (l : list cv)                          (* tuple_constant<Cs...> *)
| CConstval (F : cv)                          (* constval<T, F> *)
| CLike (F : cv)                              (* tuple_like_constval<T, F> *)
| CRef (v : value)                            (* ref_constval<T, Ref> *)
| CForeign (k : nat) (z : Z)                  (* a class derived from std::integral_constant<>, e.g. std::is_void<int> *)
| CFun (f : nat)                              (* any other empty functor class, e.g. a lambda without captures *)
| CTransform (f : nat) (Cs : list cv)         (* constval_transform_functor<F, Cs...> *)
| CExtend (f : nat) (args : list value)       (* constval_extend_functor<CF, Cs...>; args: objects Cs{ }... of empty class *)
| CTupleAcc (I : nat) (C : cv)                (* tuple_accessor_functor<I, C> *)
| CArrayAcc (I : nat) (C : cv).               (* array_accessor_functor<I, C> *)

(** get<I>() for tuple-like values.  detail/constval.hpp:103. *)
Definition get_value (I : nat) (v : value) : outcome value :=
  match v with
  | VArray _ l | VTuple l | VLike _ l => match nth_error l I with Some x => Ok x | None => IllFormed end
  | _ => IllFormed
  end.
(** std::get<I>() for std::array<>: detail/constval.hpp:154. *)
Definition get_array (I : nat) (v : value) : outcome value :=
  match v with VArray _ _ => get_value I v | _ => IllFormed end.

(** std::is_base_of<constval_tag, C>.
    detail/type_traits.hpp:175; detail/constval.hpp:69, 109, 123; constval.hpp:285, 311, 366; utility.hpp:28, 39. *)
Definition is_tag (c : cv) : bool :=
  match c with CArr _ _ | CTup _ | CConstval _ | CLike _ | CRef _ | CSeq _ => true | _ => false end.
(** is_constval_<>: detail/type_traits.hpp:186-196.  For classes that are not tagged nor std::integral_constant<> itself,
    is_constval_1_<> requires decltype(T::value), which is "value_type const" for a constexpr member, to be value_type. *)
Definition is_constval (c : cv) : bool := match c with CInt _ _ => true | CForeign _ _ => false | _ => is_tag c end.

(** Constvals with a member value_type.  tuple_constant<Cs...> requires it: constval.hpp:370. *)
Definition has_value_type (c : cv) : bool := match c with CSeq _ => false | _ => is_constval c end.

(** Tagged constvals inside a value of array or tuple type.  For detail/constval.hpp:169, 189. *)
Fixpoint has_tag (v : value) : bool :=
  match v with
  | VArray _ l | VTuple l | VLike _ l => existsb has_tag l
  | VConst c => is_tag c
  | _ => false
  end.

Section Functors.
  (** operator () of the functor class [f]; arguments of empty class are passed as [VConst]. *)
  Variable call : nat -> list value -> outcome value.

  (** C{ }(): detail/constval.hpp:73-76, 97-105, 137, 149-156, 251-258, 272-279; constval.hpp:290-306, 316-329, 372-389.
      constval_value<C> (line 60), C::value and the conversion to value_type give the same value. *)
  Fixpoint eval (c : cv) : outcome value :=
    let eval_all := fix eval_all (l : list cv) : outcome (list value) :=
      match l with [] => Ok [] | c :: r => do v <- eval c; do vs <- eval_all r; Ok (v :: vs) end in
    match c with
    | CInt k z => Ok (VNttp k z)
    | CTypeId _ => IllFormed
    | CSeq ts => Ok (VConst (CSeq ts))
    | CArr b l => Ok (VArray b l)
    | CTup l => if forallb has_value_type l then do vs <- eval_all l; Ok (VTuple vs) else IllFormed
    | CConstval F => eval F
    | CLike F => eval F
    | CRef v => Ok v
    | CForeign k z => Ok (VNttp k z)
    | CFun f => call f []
    | CTransform f Cs => do vs <- eval_all Cs; call f vs
    | CExtend f args => call f args
    | CTupleAcc i C => do v <- eval C; get_value i v
    | CArrayAcc i C => do v <- eval C; get_array i v
    end.

  (** make_constval_1_ ... make_constval_4_, make_array_constval_, make_tuple_constval_: detail/constval.hpp:158-201, for
      T = decltype(C{ }()); [v] is the value of C{ }().  The shortcut for T = C (199) gives what the general case gives. *)
  Fixpoint make_constval_1 (v : value) (C : cv) : outcome cv :=
    match v with
    | VArray true l => Ok (CArr true l)
    | VArray false l =>
        (* A T const& argument must refer to an object of type T, so the normalized element must not change its type. *)
        do ws <- (fix go (I : nat) (l : list value) : outcome (list value) :=
          match l with
          | [] => Ok []
          | x :: r =>
              if has_tag x then IllFormed
              else do c <- make_constval_1 x (CArrayAcc I C); do w <- eval c; do ws <- go (S I) r; Ok (w :: ws)
          end) 0 l;
        Ok (CArr false ws)
    | VTuple l =>
        do cs <- (fix go (I : nat) (l : list value) : outcome (list cv) :=
          match l with
          | [] => Ok []
          | x :: r => do c <- make_constval_1 x (CTupleAcc I C); do cs <- go (S I) r; Ok (c :: cs)
          end) 0 l;
        if forallb has_value_type cs then Ok (CTup cs) else IllFormed
    | VNttp k z => Ok (CInt k z)
    | VConst c => if is_tag c then Ok c else match C with CRef _ => Ok C | _ => Ok (CConstval C) end
    | VLike _ _ => Ok (CLike C)
    | VOther _ _ => match C with CRef _ => Ok C | _ => Ok (CConstval C) end
    end.
  (** Known constval types: detail/constval.hpp:205-211. *)
  Definition is_known (c : cv) : bool :=
    match c with CInt _ _ | CTypeId _ | CArr _ _ | CTup _ | CConstval _ | CRef _ | CLike _ => true | _ => false end.
  (** make_constval_<>, constval_t<>, make_constval(): detail/constval.hpp:204-211, 330-334; MAKESHIFT_CONSTVAL(): detail/constval.hpp:20-43. *)
  Definition make_constval (C : cv) : outcome cv :=
    if is_known C then Ok C else do v <- eval C; make_constval_1 v C.

  (** constant<T, V>: detail/constval.hpp:213-226. *)
  Definition constant_ref (v : value) : outcome cv := make_constval_1 v (CRef v).

  (** get<I>() of constvals: detail/constval.hpp:112-119, constval.hpp:337-344, 397-404. *)
  Definition get_constval (I : nat) (c : cv) : outcome cv :=
    match c with
    | CLike F => make_constval (CTupleAcc I c)
    | CArr _ l => if I <? length l then make_constval (CArrayAcc I c) else IllFormed
    | CTup l => if I <? length l then make_constval (CTupleAcc I c) else IllFormed
    | CSeq ts => match nth_error ts I with Some t => Ok (CTypeId t) | None => IllFormed end  (* utility.hpp:71-77 *)
    | _ => IllFormed
    end.

  (** make_tuple_constant(): constval.hpp:416-422.  make_array_constant() (constval.hpp:354-359) for elements of NTTP type. *)
  Definition make_tuple_constant (cs : list cv) : outcome cv :=
    if forallb is_constval cs && forallb has_value_type cs then Ok (CTup cs) else IllFormed.
  (** constval.hpp:354-359. *)
  Definition make_array_constant (k : nat) (zs : list Z) : outcome cv :=
    match zs with [] => IllFormed | _ => Ok (CArr true (map (VNttp k) zs)) end.

  (** Whether std::tuple<Ts...> is an empty class if all Ts are (the empty base optimisation): so in libstdc++ and libc++. *)
  Variable ebo : bool.
  (** is_type_transportable<T>: type_traits.hpp:249; std::tuple<> is an empty class as well.  std::array<T, 0> is taken not to be. *)
  Fixpoint transportable (v : value) : bool :=
    match v with VConst _ => true | VTuple [] => true | VTuple l => ebo && forallb transportable l | _ => false end.
  (** The functor type that an object of empty class is an instance of.  detail/constval.hpp:256. *)
  Definition functor_of (v : value) : outcome cv := match v with VConst c => Ok c | _ => IllFormed end.

  (** get_hvalue(): detail/constval.hpp:234-248. *)
  Definition get_hvalue (v : value) : outcome value :=
    match v with VConst c => if is_constval c then eval c else Ok v | _ => Ok v end.
  (** constval_transform(): constval.hpp:229-235, detail/constval.hpp:251-269. *)
  Definition constval_transform (f : nat) (args : list value) : outcome value :=
    if forallb transportable args then
      do cs <- mapM functor_of args; do c <- make_constval (CTransform f cs); Ok (VConst c)
    else do vs <- mapM get_hvalue args; call f vs.
  (** constval_extend(): constval.hpp:252-258, detail/constval.hpp:272-290. *)
  Definition constval_extend (f : nat) (args : list value) : outcome value :=
    if forallb transportable args then
      do c <- make_constval (CExtend f args); Ok (VConst c)
    else call f args.
  (** constval_extract(): constval.hpp:213-218, detail/constval.hpp:293-302. *)
  Definition constval_extract (v : value) : outcome value :=
    match v with VConst c => if is_constval c then eval c else Ok v | _ => Ok v end.
End Functors.

(** * csize() and cssize() *)
(** Something with elements: a tuple-like object or C array, a tuple-like constval, or a container whose size() is of
    integral type [t].  For constval.hpp:428-465. *)
Inductive sized : Type :=
| SStatic (l : list value)
| SConstval (c : cv)
| SDynamic (t : ity) (l : list value).

(** The result: an integral constant, or a run-time value; of integral type [t].  detail/constval.hpp:338, 345, 351, 357. *)
Inductive size_result : Type :=
| SizeConst (t : ity) (z : Z)
| SizeValue (t : ity) (z : Z).

(** std::tuple_size<>: constval.hpp:470-477, detail/constval.hpp:370; [None] if not tuple-like. *)
Definition static_size (call : nat -> list value -> outcome value) (c : sized) : option (outcome Z) :=
  match c with
  | SStatic l => Some (Ok (Z.of_nat (length l)))
  | SConstval (CArr _ l) => Some (Ok (Z.of_nat (length l)))
  | SConstval (CTup l) => Some (Ok (Z.of_nat (length l)))
  | SConstval (CSeq ts) => Some (Ok (Z.of_nat (length ts)))  (* utility.hpp:132 *)
  | SConstval (CLike F) =>
      Some (do v <- eval call F; match v with VArray _ l | VTuple l | VLike _ l => Ok (Z.of_nat (length l)) | _ => IllFormed end)
  | _ => None
  end.
(** c.size() in detail/constval.hpp:347, 360. *)
Definition dynamic_size (c : sized) : outcome (ity * Z) :=
  match c with SDynamic t l => Ok (t, cast t (Z.of_nat (length l))) | _ => IllFormed end.

(** csize(): constval.hpp:428-443, detail/constval.hpp:337-348. *)
Definition csize (call : nat -> list value -> outcome value) (c : sized) : outcome size_result :=
  match static_size call c with
  | Some s => do n <- s; Ok (SizeConst size_ty n)
  | None => do ' (t, n) <- dynamic_size c; Ok (SizeValue t n)
  end.
(** std::make_signed_t<> in detail/constval.hpp:357, 359. *)
Definition make_signed (t : ity) : ity := mk_ity (ity_bits t) true.
(** cssize(): constval.hpp:449-464, detail/constval.hpp:350-361.  A template argument must not be narrowed. *)
Definition cssize (call : nat -> list value -> outcome value) (c : sized) : outcome size_result :=
  match static_size call c with
  | Some s => do n <- s; if in_ity ptrdiff_ty n then Ok (SizeConst ptrdiff_ty n) else IllFormed
  | None => do ' (t, n) <- dynamic_size c; let R := common_type ptrdiff_ty (make_signed t) in Ok (SizeValue R (cast R n))
  end.
