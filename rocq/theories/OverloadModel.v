(** Model of overload: /repo/include/makeshift/functional.hpp:23-38.
    The class template consists of its base classes and using-declarations; what a call does follows from the rules of
    C++ for overload resolution ([over.match], [over.best.ics]), which are modelled here as far as they concern call
    operators with parameters passed by value, of a given type or of any type ("auto").  Reference parameters, parameter
    packs, default arguments and constraints are not modelled.  Functors with operators of equal parameters and equal const
    are rejected here only in calls which are ambiguous because of them; compilers may reject the using-declarations. *)

From Coq Require Import Arith Bool List.
From Verif Require Import Base.
Import ListNotations.

Section Overload.
  (** Types of arguments and parameters.  [conv t u]: whether an argument of type [t] can be passed to a parameter of type
      [u], and the rank of the conversion: 0 for an exact match, larger numbers for worse conversions (promotion,
      conversion, user-defined conversion). *)
  Variable ty : Type.
  Variable ty_eqb : ty -> ty -> bool.
  Variable conv : ty -> ty -> option nat.

  (** A parameter: "auto" or a type.  Of the call operators named in functional.hpp:34. *)
  Inductive param := Auto | Of (t : ty).

  (** A call operator: parameters, and whether it is const (not so for mutable lambdas).  The call operators named in functional.hpp:34. *)
  Record op := mk_op { op_params : list param; op_const : bool }.

  (** Functor types.  A class with its own call operators (for a lambda, one), distinguished by [id]; an instance of
      overload<>; a type that cannot be a base class (function pointers, final classes).  The template arguments Fs of functional.hpp:31-32. *)
  Inductive functor :=
  | Class (id : nat) (ops : list op)
  | Over (fs : list functor)
  | NotABase (id : nat).

  (** Equality of functor types.  For the base classes of functional.hpp:32. *)
  Fixpoint same_type (f g : functor) : bool :=
    match f, g with
    | Class i _, Class j _ => i =? j
    | NotABase i, NotABase j => i =? j
    | Over fs, Over gs =>
        (fix go (fs gs : list functor) : bool :=
           match fs, gs with
           | [], [] => true
           | f :: fs, g :: gs => same_type f g && go fs gs
           | _, _ => false
           end) fs gs
    | _, _ => false
    end.

  (** The list contains no type twice.  For the base classes of functional.hpp:32. *)
  Fixpoint distinct (fs : list functor) : bool :=
    match fs with
    | [] => true
    | f :: fs => negb (existsb (same_type f) fs) && distinct fs
    end.

  (** The call operators of a functor, with the class each of them comes from and its number there;
      functional.hpp:34: using Fs::operator ()... *)
  Fixpoint number {A} (k : nat) (l : list A) : list (nat * A) :=
    match l with [] => [] | a :: l => (k, a) :: number (S k) l end.
  (** functional.hpp:31-35. *)
  Fixpoint operators (f : functor) : list (nat * nat * op) :=
    match f with
    | Class id ops => map (fun p => (id, fst p, snd p)) (number 0 ops)
    | Over fs => flat_map operators fs
    | NotABase _ => []
    end.

  (** The classes with own operators among the direct and indirect base classes.  functional.hpp:32. *)
  Fixpoint classes (f : functor) : list nat :=
    match f with
    | Class id _ => [id]
    | Over fs => flat_map classes fs
    | NotABase _ => []
    end.

  (** Whether the type is well-formed: functional.hpp:31-35.  The base classes must be distinct classes with call operators. *)
  Fixpoint well_formed (f : functor) : bool :=
    match f with
    | Class _ _ => true
    | NotABase _ => true
    | Over fs =>
        forallb well_formed fs && distinct fs &&
        forallb (fun f => match f with NotABase _ => false | _ => match operators f with [] => false | _ => true end end) fs
    end.

  (** Implicit conversion sequences of the arguments; None: not viable.  Calls of the operators of functional.hpp:34. *)
  Definition rank1 (t : ty) (p : param) : option nat := match p with Auto => Some 0 | Of u => conv t u end.
  (** Calls of the operators of functional.hpp:34. *)
  Fixpoint ranks (args : list ty) (ps : list param) : option (list nat) :=
    match args, ps with
    | [], [] => Some []
    | t :: args, p :: ps =>
        match rank1 t p, ranks args ps with
        | Some r, Some rs => Some (r :: rs)
        | _, _ => None
        end
    | _, _ => None
    end.

  (** The same with the implicit object parameter in front: a const object can only be bound by const operators; for
      others, binding without adding const is better ([over.ics.rank]).  All operators count as members of the derived
      class ([over.match.funcs.general]).  Calls of the operators of functional.hpp:34. *)
  Definition all_ranks (obj_const : bool) (args : list ty) (o : op) : option (list nat) :=
    if obj_const && negb (op_const o) then None
    else
      match ranks args (op_params o) with
      | Some rs => Some ((if negb obj_const && op_const o then 1 else 0) :: rs)
      | None => None
      end.

  (** Templates, and partial ordering of templates ([temp.func.order]).  Of the operators of functional.hpp:34. *)
  Definition is_template (o : op) : bool := existsb (fun p => match p with Auto => true | Of _ => false end) (op_params o).
  (** Of the operators of functional.hpp:34. *)
  Fixpoint at_least_as_specialized (ps qs : list param) : bool :=
    match ps, qs with
    | [], [] => true
    | p :: ps, q :: qs =>
        match p, q with
        | _, Auto => true
        | Of t, Of u => ty_eqb t u
        | Auto, Of _ => false
        end && at_least_as_specialized ps qs
    | _, _ => false
    end.

  (** Whether [o] is a better candidate than [o'] ([over.match.best]); conversions of the same rank are taken to be
      indistinguishable.  For the operators of functional.hpp:34. *)
  Definition not_worse (rs rs' : list nat) : bool := forallb (fun p => fst p <=? snd p) (combine rs rs').
  (** For the operators of functional.hpp:34. *)
  Definition somewhere_better (rs rs' : list nat) : bool := existsb (fun p => fst p <? snd p) (combine rs rs').
  (** For the operators of functional.hpp:34. *)
  Definition better (obj_const : bool) (args : list ty) (o o' : op) : bool :=
    match all_ranks obj_const args o, all_ranks obj_const args o' with
    | Some rs, Some rs' =>
        not_worse rs rs' &&
        (somewhere_better rs rs' ||
         (negb (is_template o) && is_template o') ||
         (is_template o && is_template o' &&
          at_least_as_specialized (op_params o) (op_params o') && negb (at_least_as_specialized (op_params o') (op_params o))))
    | _, _ => false
    end.

  (** Overload resolution: the viable candidate that is better than all other viable candidates.  For the operators of functional.hpp:34. *)
  Definition viable (obj_const : bool) (args : list ty) (o : op) : bool := match all_ranks obj_const args o with Some _ => true | None => false end.
  (** For the operators of functional.hpp:34. *)
  Definition same_operator (c d : nat * nat * op) : bool := (fst (fst c) =? fst (fst d)) && (snd (fst c) =? snd (fst d)).
  (** For the operators of functional.hpp:34. *)
  Definition resolve (obj_const : bool) (args : list ty) (cs : list (nat * nat * op)) : outcome (nat * nat * op) :=
    match filter (fun c => viable obj_const args (snd c) &&
                           forallb (fun d => same_operator c d || negb (viable obj_const args (snd d)) || better obj_const args (snd c) (snd d)) cs) cs with
    | [c] => Ok c
    | _ => IllFormed
    end.

  (** Calling an overload object (or any functor).  [S]: states of functors (captures), by class; [body]: what the
      operators do; const operators cannot change the captures.  The object is converted to the base class of the operator, which must be unambiguous. *)
  Variables S V R : Type.
  Variable body : nat -> nat -> list V -> S -> outcome (S * R).
  Variable type_of : V -> ty.

  (** The base class subobjects of functional.hpp:32. *)
  Definition objects := nat -> S.
  (** The base class subobjects of functional.hpp:32. *)
  Definition set_object (st : objects) (id : nat) (s : S) : objects := fun j => if j =? id then s else st j.
  (** functional.hpp:31-35. *)
  Definition call (f : functor) (obj_const : bool) (args : list V) (st : objects) : outcome (objects * R) :=
    if well_formed f then
      do ' (id, k, o) <- resolve obj_const (map type_of args) (operators f);
      if count_occ Nat.eq_dec (classes f) id =? 1 then
        do ' (s, r) <- body id k args (st id);
        Ok (if op_const o then st else set_object st id s, r)
      else IllFormed
    else IllFormed.
End Overload.
Arguments Auto {ty}. Arguments Of {ty}. Arguments mk_op {ty}. Arguments Class {ty}. Arguments Over {ty}. Arguments NotABase {ty}.
Arguments op_params {ty}. Arguments op_const {ty}. Arguments operators {ty}. Arguments classes {ty}. Arguments same_type {ty}. Arguments distinct {ty}.
Arguments well_formed {ty}. Arguments set_object {S}.
