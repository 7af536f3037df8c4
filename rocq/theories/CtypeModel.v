(** Model of the identity of constval types: when do two constants have the same type?
    /repo/include/makeshift/detail/constval.hpp:68-232, constval.hpp:281-422, detail/variant.hpp:46-57, variant.hpp:43-192.

    Unlike ConstvalModel.v, which follows the values, this model keeps the functors and the objects that occur in the names of
    constval types, and the types of values.  Constvals inside of values (tagged classes) are left out. *)

From Coq Require Import ZArith Arith Bool List.
From Verif Require Import Base ExpandModel.
Import ListNotations.

(** Types of values: those valid as non-type template parameters (is_valid_nttp_<>, detail/constval.hpp:141), std::array<>, std::tuple<>, other
    tuple-like classes, and all others (detail/constval.hpp:159-202). *)
Inductive ty : Type :=
| TyN (k : nat)
| TyA (t : ty) (n : nat)
| TyT (ts : list ty)
| TyL (k : nat)
| TyO (k : nat).

(** Values of these types.  An array states its element type, which is not determined by the elements if there are none.
    detail/constval.hpp:159-202. *)
Inductive cval : Type :=
| VN (k : nat) (z : Z)
| VA (t : ty) (l : list cval)
| VT (l : list cval)
| VL (k : nat) (z : Z) (l : list cval)        (* [l]: what get<I>() returns *)
| VO (k : nat) (z : Z).

(** Constval types: the classes, functors and objects that their names consist of. *)
Inductive ctype : Type :=
| CInt (k : nat) (z : Z)                       (* std::integral_constant<T, V> *)
| CArrN (k : nat) (zs : list Z)                (* array_constant<T, Vs...>: constval.hpp:284-333 *)
| CArrR (t : ty) (os : list object)            (* array_constant<T const&, Refs...>: constval.hpp:284-333 *)
| CTup (cs : list ctype)                       (* tuple_constant<Cs...>: constval.hpp:365-394 *)
| CConstval (F : functor)                      (* constval<T, F>: detail/constval.hpp:68-95 *)
| CLike (F : functor)                          (* tuple_like_constval<T, F>: detail/constval.hpp:108-111 *)
| CRef (o : object)                            (* ref_constval<T, Ref>: detail/constval.hpp:122-138 *)
(** Functor types.  detail/constval.hpp:97-105, 148-155. *)
with functor : Type :=
| FUser (n : nat)                              (* a functor class of the caller's, e.g. a lambda *)
| FTupAcc (I : nat) (F : functor)              (* tuple_accessor_functor<I, C> *)
| FArrAcc (I : nat) (F : functor)              (* array_accessor_functor<I, C> *)
| FConst (c : ctype)                           (* a constval type used as functor *)
(** Objects with static storage duration, to which template arguments refer.  detail/constval.hpp:127, 171. *)
with object : Type :=
| OUser (n : nat)                              (* a constexpr object of the caller's *)
| OValue (c : ctype).                          (* the static member value of a constval type *)

(** Types of values.  detail/constval.hpp:205. *)
Fixpoint type_of (v : cval) : ty :=
  match v with
  | VN k _ => TyN k
  | VA t l => TyA t (length l)
  | VT l => TyT (map type_of l)
  | VL k _ _ => TyL k
  | VO k _ => TyO k
  end.

(** get<I>(): detail/constval.hpp:103, 154; constval.hpp:337-344.  Never called out of range here; then the value is arbitrary. *)
Definition elements (v : cval) : list cval := match v with VA _ l | VT l | VL _ _ l => l | _ => [] end.
(** detail/constval.hpp:103, 154. *)
Definition get (I : nat) (v : cval) : cval := nth I (elements v) (VN 0 0).

(** Equality of types.  std::is_same<>, as used by the language to tell template specialisations apart; also detail/type_traits.hpp:169. *)
Fixpoint ty_eqb (a b : ty) : bool :=
  match a, b with
  | TyN k, TyN k' | TyL k, TyL k' | TyO k, TyO k' => Nat.eqb k k'
  | TyA t n, TyA t' n' => ty_eqb t t' && Nat.eqb n n'
  | TyT ts, TyT ts' =>
      (fix go (l l' : list ty) : bool := match l, l' with [], [] => true | x :: r, x' :: r' => ty_eqb x x' && go r r' | _, _ => false end) ts ts'
  | _, _ => false
  end.

(** Lists of equal length with equal elements. *)
Fixpoint list_eqb {A B} (eqb : A -> B -> bool) (l : list A) (l' : list B) : bool :=
  match l, l' with [], [] => true | x :: r, x' :: r' => eqb x x' && list_eqb eqb r r' | _, _ => false end.

(** Two template specialisations are the same type if they have the same arguments; references as arguments are the same if
    they refer to the same object.  As needed in detail/variant.hpp:51-53. *)
Fixpoint ctype_eqb (a b : ctype) {struct a} : bool :=
  match a, b with
  | CInt k z, CInt k' z' => Nat.eqb k k' && Z.eqb z z'
  | CArrN k zs, CArrN k' zs' => Nat.eqb k k' && list_eqb Z.eqb zs zs'
  | CArrR t os, CArrR t' os' =>
      ty_eqb t t' && (fix go (l l' : list object) : bool := match l, l' with [], [] => true | x :: r, x' :: r' => object_eqb x x' && go r r' | _, _ => false end) os os'
  | CTup cs, CTup cs' =>
      (fix go (l l' : list ctype) : bool := match l, l' with [], [] => true | x :: r, x' :: r' => ctype_eqb x x' && go r r' | _, _ => false end) cs cs'
  | CConstval F, CConstval F' | CLike F, CLike F' => functor_eqb F F'
  | CRef o, CRef o' => object_eqb o o'
  | _, _ => false
  end
(** Ditto for functors: detail/variant.hpp:51-53. *)
with functor_eqb (a b : functor) {struct a} : bool :=
  match a, b with
  | FUser n, FUser n' => Nat.eqb n n'
  | FTupAcc i F, FTupAcc i' F' | FArrAcc i F, FArrAcc i' F' => Nat.eqb i i' && functor_eqb F F'
  | FConst c, FConst c' => ctype_eqb c c'
  | _, _ => false
  end
(** Ditto for objects: detail/variant.hpp:51-53. *)
with object_eqb (a b : object) {struct a} : bool :=
  match a, b with
  | OUser n, OUser n' => Nat.eqb n n'
  | OValue c, OValue c' => ctype_eqb c c'
  | _, _ => false
  end.

(** The integral value of a value of NTTP type.  detail/constval.hpp:165. *)
Definition int_of (v : cval) : Z := match v with VN _ z => z | _ => 0%Z end.

(** [f] applied to the positions and elements of a list: the pack expansions in detail/constval.hpp:165, 171, 180. *)
Fixpoint map_index {A B} (f : nat -> A -> B) (i : nat) (l : list A) : list B :=
  match l with [] => [] | x :: r => f i x :: map_index f (S i) r end.

(** make_constval_1_<T, C>::type: detail/constval.hpp:157-202, for T = decltype(C{ }()) and the value [v] of C{ }(). *)
Fixpoint make_constval_1 (v : cval) (C : functor) {struct v} : ctype :=
  match v with
  | VN k z => CInt k z
  | VA (TyN k) l => CArrN k (map int_of l)
  | VA t l =>
      CArrR t ((fix go (i : nat) (l : list cval) : list object :=
        match l with [] => [] | x :: r => OValue (make_constval_1 x (FArrAcc i C)) :: go (S i) r end) 0 l)
  | VT l =>
      CTup ((fix go (i : nat) (l : list cval) : list ctype :=
        match l with [] => [] | x :: r => make_constval_1 x (FTupAcc i C) :: go (S i) r end) 0 l)
  | VL _ _ _ => CLike C
  | VO _ _ => match C with FConst (CRef o) => CRef o | _ => CConstval C end
  end.

Section Values.
  Variable ufun : nat -> cval.      (* what the caller's functors return *)
  Variable uobj : nat -> cval.      (* the values of the caller's constexpr objects *)

  (** C{ }(), C::value: detail/constval.hpp:73-86, 127, 137; constval.hpp:290-306, 372-389. *)
  Fixpoint eval (c : ctype) : cval :=
    match c with
    | CInt k z => VN k z
    | CArrN k zs => VA (TyN k) (map (VN k) zs)
    | CArrR t os => VA t (map eval_object os)
    | CTup cs => VT (map eval cs)
    | CConstval F | CLike F => eval_functor F
    | CRef o => eval_object o
    end
  (** detail/constval.hpp:97-105, 148-155. *)
  with eval_functor (F : functor) : cval :=
    match F with
    | FUser n => ufun n
    | FTupAcc i F | FArrAcc i F => get i (eval_functor F)
    | FConst c => eval c
    end
  (** detail/constval.hpp:127. *)
  with eval_object (o : object) : cval :=
    match o with OUser n => uobj n | OValue c => eval c end.

  (** make_constval_<C>, MAKESHIFT_CONSTVAL() for the caller's functors: detail/constval.hpp:204-211, 20-43. *)
  Definition make_constval (n : nat) : ctype := make_constval_1 (ufun n) (FUser n).

  (** constant<T const&, Ref>, constant_0_<>: detail/constval.hpp:213-226. *)
  Definition constant_ref (o : object) : ctype := make_constval_1 (eval_object o) (FConst (CRef o)).

  (** The alternatives constant_<T, Vs>::type... of constval_variant_map<>: detail/variant.hpp:46-55. *)
  Definition alternatives (c : ctype) : option (list ctype) :=
    match c with
    | CArrN k zs => Some (map (CInt k) zs)
    | CArrR _ os => Some (map constant_ref os)
    | _ => None
    end.

  (** Whether all types in a list differ.  detail/variant.hpp:51-53: otherwise the converting constructor of the variant is ambiguous. *)
  Fixpoint all_differ (l : list ctype) : bool :=
    match l with [] => true | c :: r => negb (existsb (ctype_eqb c) r) && all_differ r end.

  (** expand(), try_expand(), expand_failfast() for elements of any type other than integral and enum types:
      variant.hpp:43-50, 98-105, 153-160, detail/variant.hpp:165-169.  [values]: the values in valuesC(), which the comparison operators are applied to. *)
  Definition expand_const {B} can_order lt_AA lt_AB lt_BA eq_AB (value : B) (valuesC : ctype) : outcome nat :=
    match alternatives valuesC with
    | Some alts => expand (all_differ alts) (search_other can_order lt_AA lt_AB lt_BA eq_AB value (elements (eval valuesC))) (elements (eval valuesC))
    | None => IllFormed
    end.
  (** variant.hpp:98-105, detail/variant.hpp:165-169. *)
  Definition try_expand_const {B} can_order lt_AA lt_AB lt_BA eq_AB (value : B) (valuesC : ctype) : outcome (option nat) :=
    match alternatives valuesC with
    | Some alts => try_expand (all_differ alts) (search_other can_order lt_AA lt_AB lt_BA eq_AB value (elements (eval valuesC))) (elements (eval valuesC))
    | None => IllFormed
    end.
  (** variant.hpp:43-50, detail/variant.hpp:165-169. *)
  Definition expand_failfast_const {B} can_order lt_AA lt_AB lt_BA eq_AB (value : B) (valuesC : ctype) : outcome nat :=
    match alternatives valuesC with
    | Some alts => expand_failfast (all_differ alts) (search_other can_order lt_AA lt_AB lt_BA eq_AB value (elements (eval valuesC))) (elements (eval valuesC))
    | None => IllFormed
    end.

  (** typename equal_types_<typename Cs::value_type...>::common_type: detail/type_traits.hpp:165-169, constval.hpp:333, 355. *)
  Definition common_value_type (cs : list ctype) : option ty :=
    match cs with
    | [] => None
    | c :: r => if forallb (fun d => ty_eqb (type_of (eval c)) (type_of (eval d))) r then Some (type_of (eval c)) else None
    end.
  (** array_constant<element_type, Cs::value...>: constval.hpp:333, 355, detail/constval.hpp:229-232. *)
  Definition array_of (t : ty) (cs : list ctype) : ctype :=
    match t with
    | TyN k => CArrN k (map (fun c => int_of (eval c)) cs)
    | _ => CArrR t (map OValue cs)
    end.
  (** make_array_constant(cs...): constval.hpp:354-359. *)
  Definition make_array_constant (cs : list ctype) : outcome ctype :=
    match common_value_type cs with Some t => Ok (array_of t cs) | None => IllFormed end.

  (** The parameter types of the constructor of array_constant<>: constval.hpp:293.  None of the special case without elements. *)
  Definition parameters (c : ctype) : list ctype := match alternatives c with Some l => l | None => [] end.

  (** array_constant{ cs... } without template arguments: constval.hpp:292-295, 332-333.  A single argument that is an array_constant<> itself is copied
      (the copy deduction candidate is more specialised than the deduction guide).  Otherwise the guide names the type, and the
      arguments have to be those that its constructor takes; constvals of different types do not convert to each other. *)
  Definition deduce_array (cs : list ctype) : outcome ctype :=
    match cs with
    | [CArrN _ _ as c] | [CArrR _ _ as c] => Ok c
    | _ =>
        do c <- make_array_constant cs;
        if list_eqb ctype_eqb cs (parameters c) then Ok c else IllFormed
    end.

  (** tuple_constant{ cs... } without template arguments: constval.hpp:374-378, 393-394. *)
  Definition deduce_tuple (cs : list ctype) : outcome ctype :=
    match cs with [CTup _ as c] => Ok c | _ => Ok (CTup cs) end.
  (** make_tuple_constant(cs...): constval.hpp:416-422. *)
  Definition make_tuple_constant (cs : list ctype) : outcome ctype := Ok (CTup cs).
End Values.
