(** Model of experimental/functional.hpp and experimental/detail/functional.hpp: functor wrappers that restrict or forward the
    value category of the functor.

    The class derived from the functor hides its function call operators.  Exceptions and other outcomes of the functor are
    passed on. *)

From Coq Require Import Bool List.
From Verif Require Import Base.
Import ListNotations.

(** How an object expression may be called: lvalue, const lvalue, rvalue, const rvalue; for the operators () with
    ref-qualifiers in experimental/functional.hpp:57, 79, 101 and experimental/detail/functional.hpp:73, 79, 85. *)
Inductive cat := Lv | CLv | Rv | CRv.

Section Forward.
  (** [St]: what the functor captured; [A]: argument lists; [R]: results. *)
  Variables (St A R : Type).
  (** What a call of the functor F, experimental/functional.hpp:60, 82, 104, does. *)
  Definition behaviour := St -> A -> outcome (R * St).
  (** A functor for given argument types: [None] if it cannot be called with that value category (the trailing decltype
      of experimental/functional.hpp:58, 80, 102). *)
  Definition functor := cat -> option behaviour.

  (** Overload resolution among function call operators with the ref-qualifiers &, const & and &&, each of which takes part
      only if its body is well-formed (trailing decltype): [&] is viable for non-const lvalues, [const &] for everything,
      [&&] for non-const rvalues; the more specific one is better.  experimental/detail/functional.hpp:72-89, experimental/functional.hpp:56-61, 78-83,
      100-105. *)
  Definition or_else (a b : option behaviour) : option behaviour := match a with Some _ => a | None => b end.
  (** The overload sets of the same lines: experimental/detail/functional.hpp:72-89, experimental/functional.hpp:56-61, 78-83, 100-105. *)
  Definition resolve (amp cref rref : option behaviour) (c : cat) : option behaviour :=
    match c with
    | Lv => or_else amp cref
    | CLv | CRv => cref
    | Rv => or_else rref cref
    end.

  (** A call of a wrapper in an object of category [c] whose captured state is [s]: experimental/functional.hpp:57-61, 79-83,
      101-105, experimental/detail/functional.hpp:73-89. *)
  Definition call (w : functor) (c : cat) (s : St) (a : A) : outcome (R * St) :=
    match w c with Some b => b s a | None => IllFormed end.

  (** rvalue_ref_fn: experimental/functional.hpp:52-72. *)
  Definition rvalue_ref_fn (f : functor) : functor := resolve None None (f Rv).
  (** lvalue_ref_fn: experimental/functional.hpp:74-94. *)
  Definition lvalue_ref_fn (f : functor) : functor := resolve (f Lv) None None.
  (** lvalue_const_ref_fn: experimental/functional.hpp:96-116. *)
  Definition lvalue_const_ref_fn (f : functor) : functor := resolve None (f CLv) None.

  (** forward_to(): experimental/functional.hpp:33-38, experimental/detail/functional.hpp:37-90.  The functor [f] is called without
      arguments and gives another functor [G] (a temporary, which may refer to what [f] captured), which is then called:
      [inner c = None] if the result of the call with category [c] cannot be called with the arguments. *)
  Variable G : Type.
  (** The call without arguments, experimental/detail/functional.hpp:65, 76, 82, 88. *)
  Definition maker := cat -> option (St -> outcome (G * St)).
  (** One function call operator of forward_to_impl<>: experimental/detail/functional.hpp:72-77, 78-83, 84-89. *)
  Definition then_call (m : option (St -> outcome (G * St))) (g : option (G -> behaviour)) : option behaviour :=
    match m, g with
    | Some m, Some g => Some (fun s a => do ' (x, s) <- m s; g x s a)
    | _, _ => None
    end.
  (** The partial specialization for functors that can be called, as rvalues, without arguments:
      experimental/detail/functional.hpp:64-90.  The primary
      template initialises the class F although it is not a base class (37-43), so there is no such object. *)
  Definition forward_to (m : maker) (inner : cat -> option (G -> behaviour)) : outcome functor :=
    match m Rv with
    | Some _ => Ok (resolve (then_call (m Lv) (inner Lv)) (then_call (m CLv) (inner CLv)) (then_call (m Rv) (inner Rv)))
    | None => IllFormed
    end.
End Forward.
