(** Model of overload for call operators with reference parameters: functional.hpp:31-37.  OverloadModel has parameters passed by
    value and conversions between types; here, parameters may be references, and arguments have value categories, but an argument can
    only be passed to a parameter of its own type or to a generic one.  The functors are lambdas of distinct types, with one call
    operator each; parameter packs, default arguments and constraints are not modelled, and all types can be copied. *)

From Coq Require Import Arith Bool List.
From Verif Require Import Base ForwardModel.
Import ListNotations.

(** "T", "T&", "T const&", "T&&", "T const&&"; with "auto" for T, "auto&&" takes arguments of all value categories.
    Parameters of the call operators named in functional.hpp:34. *)
Inductive form := ByValue | LRef | CLRef | RRef | CRRef.
(** Parameters: of a type, or generic.  Of the call operators named in functional.hpp:34. *)
Inductive param := Param (t : nat) (f : form) | Generic (f : form).
(** A lambda: its parameters, and whether its call operator is const (not so if it is declared mutable).  A base class of
    functional.hpp:32. *)
Record lambda := mk_lambda { l_params : list param; l_const : bool }.
(** Arguments of a call: type and value category.  Of the operators of functional.hpp:34. *)
Definition arg_type : Type := nat * cat.

(** The type of a generic parameter once it has been deduced for an argument: [temp.deduct.call].  Of the operators of
    functional.hpp:34. *)
Definition deduced (g : form) (c : cat) : form :=
  match g, c with
  | ByValue, _ => ByValue
  | LRef, (Lv | Rv) => LRef
  | LRef, (CLv | CRv) => CLRef
  | CLRef, _ => CLRef
  | RRef, Lv => LRef
  | RRef, CLv => CLRef
  | RRef, Rv => RRef
  | RRef, CRv => CRRef
  | CRRef, _ => CRRef
  end.
(** The form in which a parameter takes an argument, unless the types differ.  Calls of the operators of functional.hpp:34. *)
Definition takes (p : param) (a : arg_type) : option form :=
  match p with
  | Param t f => if t =? fst a then Some f else None
  | Generic g => Some (deduced g (snd a))
  end.
(** Whether a reference can be bound: [dcl.init.ref].  Calls of the operators of functional.hpp:34. *)
Definition binds (f : form) (c : cat) : bool :=
  match f, c with
  | ByValue, _ | CLRef, _ => true
  | LRef, Lv => true
  | RRef, Rv => true
  | CRRef, (Rv | CRv) => true
  | _, _ => false
  end.

(** Kinds of references; [over.ics.rank], for the operators of functional.hpp:34. *)
Definition is_lref (f : form) : bool := match f with LRef | CLRef => true | _ => false end.
(** Likewise, functional.hpp:34. *)
Definition is_rref (f : form) : bool := match f with RRef | CRRef => true | _ => false end.
(** Likewise, functional.hpp:34. *)
Definition is_cref (f : form) : bool := match f with CLRef | CRRef => true | _ => false end.
(** Whether binding [f] is a better conversion than binding [f']; rvalue references bind rvalues only: [over.ics.rank]/3.2.3, 3.2.6.
    For the operators of functional.hpp:34. *)
Definition better_binding (f f' : form) : bool :=
  if is_rref f && is_lref f' then true
  else if is_lref f && is_rref f' then false
  else (is_lref f || is_rref f) && (is_lref f' || is_rref f') && negb (is_cref f) && is_cref f'.

(** The conversions for all arguments; None: not viable.  Calls of the operators of functional.hpp:34. *)
Fixpoint conversions (ps : list param) (args : list arg_type) : option (list form) :=
  match ps, args with
  | [], [] => Some []
  | p :: ps, a :: args =>
      match takes p a, conversions ps args with
      | Some f, Some fs => if binds f (snd a) then Some (f :: fs) else None
      | _, _ => None
      end
  | _, _ => None
  end.
(** With the implicit object parameter in front: a const object needs a const operator.  Calls of the operators of
    functional.hpp:34. *)
Definition all_conversions (obj_const : bool) (l : lambda) (args : list arg_type) : option (list form) :=
  if obj_const && negb (l_const l) then None
  else match conversions (l_params l) args with Some fs => Some ((if l_const l then CLRef else LRef) :: fs) | None => None end.
(** Calls of the operators of functional.hpp:34. *)
Definition viable (obj_const : bool) (args : list arg_type) (l : lambda) : bool :=
  match all_conversions obj_const l args with Some _ => true | None => false end.

(** Templates and their partial ordering: [temp.deduct.partial]/5-11, for the operators of functional.hpp:34. *)
Definition is_template (l : lambda) : bool := existsb (fun p => match p with Generic _ => true | Param _ _ => false end) (l_params l).
(** [temp.deduct.partial]/9: the parameter written [f] is not as specialised as that written [g], although the types are the same once
    references and const are removed.  For the operators of functional.hpp:34. *)
Definition loses_to (f g : form) : bool :=
  (is_lref f || is_rref f) && (is_lref g || is_rref g) &&
  (if is_lref g && negb (is_lref f) then true else is_cref g && negb (is_cref f)).
(** [temp.deduct.partial]/8-9 for one parameter.  For the operators of functional.hpp:34. *)
Definition at_least (p q : param) : bool :=
  match p, q with
  | Param _ _, Generic _ => true
  | Generic _, Param _ _ => false
  | Generic f, Generic g => negb (loses_to f g)
  | Param t f, Param u g => (t =? u) && negb (loses_to f g)
  end.
(** [temp.deduct.partial]/10.  For the operators of functional.hpp:34. *)
Definition at_least_as_specialized (ps qs : list param) : bool := forallb (fun x => at_least (fst x) (snd x)) (combine ps qs).

(** [over.match.best]: conversions, then templates.  For the operators of functional.hpp:34. *)
Definition better (obj_const : bool) (args : list arg_type) (l l' : lambda) : bool :=
  match all_conversions obj_const l args, all_conversions obj_const l' args with
  | Some fs, Some fs' =>
      forallb (fun x => negb (better_binding (snd x) (fst x))) (combine fs fs') &&
      (existsb (fun x => better_binding (fst x) (snd x)) (combine fs fs') ||
       (negb (is_template l) && is_template l') ||
       (is_template l && is_template l' && at_least_as_specialized (l_params l) (l_params l') &&
        negb (at_least_as_specialized (l_params l') (l_params l))))
  | _, _ => false
  end.

(** The functor that is called: functional.hpp:31-35. *)
Definition select (ls : list lambda) (obj_const : bool) (args : list arg_type) : outcome nat :=
  match filter (fun x => viable obj_const args (snd x) &&
                         forallb (fun y => (fst x =? fst y) || negb (viable obj_const args (snd y)) || better obj_const args (snd x) (snd y))
                           (combine (seq 0 (length ls)) ls))
               (combine (seq 0 (length ls)) ls) with
  | [x] => Ok (fst x)
  | _ => IllFormed
  end.
