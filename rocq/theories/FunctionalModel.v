(** Model of y_combinator<>: /repo/include/makeshift/functional.hpp:39-98, /repo/include/makeshift/detail/functional.hpp:14-32.

    Functors live in a memory, which is the list of the states of all functor objects (their captures); references are
    positions in it.  The body of a functor's call operator is a program that may read and write the functor's own
    state and call the callable that it was given, any number of times, with arguments that depend on everything before;
    a call returns a value or throws an exception, which the body may catch. *)

From Coq Require Import ZArith Arith Bool List.
From Verif Require Import Base.
Import ListNotations.

(** [A]: arguments, [R]: results, [St]: states of the functor.  The body of the functor called in functional.hpp:68, 74, detail/functional.hpp:30. *)
Inductive prog (A R St : Type) :=
| Done (r : R + exn)                                 (* return or throw *)
| Get (k : St -> prog A R St)                        (* read the captures *)
| Put (s : St) (p : prog A R St)                     (* write the captures *)
| Rec (a : A) (k : R + exn -> prog A R St).          (* call the callable *)
Arguments Done {A R St}. Arguments Get {A R St}. Arguments Put {A R St}. Arguments Rec {A R St}.

Section YCombinator.
  Context {A R St : Type}.
  Variable body : A -> prog A R St.   (* F::operator () *)

  (** The members func_ of functional.hpp:56 and what detail/functional.hpp:18 refers to. *)
  Definition memory := list St.

  (** Objects of y_combinator_func_ref<F&>: detail/functional.hpp:14-24; of y_combinator<F>: functional.hpp:52-62. *)
  Record func_ref := mk_func_ref { ref_func : nat }.
  (** functional.hpp:52-62. *)
  Record y_comb := mk_y_comb { y_func : nat }.

  (** Execution of the body of a functor's call operator.  functional.hpp:68, 74, detail/functional.hpp:30. *)
  Fixpoint exec (call : A -> memory -> memory * outcome (R + exn)) (self : nat) (p : prog A R St) (m : memory) : memory * outcome (R + exn) :=
    match p with
    | Done r => (m, Ok r)
    | Get k => match nth_error m self with Some s => exec call self (k s) m | None => (m, UB) end
    | Put s p' => match nth_error m self with Some _ => exec call self p' (upd m self s) | None => (m, UB) end
    | Rec a k => let '(m', r) := call a m in
                 match r with Ok r' => exec call self (k r') m' | UB => (m', UB) | Contract => (m', Contract) | Throw e => (m', Throw e) | IllFormed => (m', IllFormed) | OutOfFuel => (m', OutOfFuel) end
    end.

  (** func_(callee, args...); callee(args...) is y_combinator_func_ref<>::operator (), detail/functional.hpp:25-31. *)
  Fixpoint call_functor (fuel : nat) (self : nat) (callee : func_ref) (a : A) (m : memory) : memory * outcome (R + exn) :=
    match fuel with
    | O => (m, OutOfFuel)
    | S k => exec (call_functor k (ref_func callee) callee) self (body a) m
    end.
  (** y_combinator<>::operator (): functional.hpp:64-75 (both overloads; the second one applies to functors with a const
      call operator, whose body does not write). *)
  Definition y_call (fuel : nat) (y : y_comb) (a : A) (m : memory) : memory * outcome (R + exn) :=
    call_functor fuel (y_func y) (mk_func_ref (y_func y)) a m.

  (** make_y_combinator(): functional.hpp:92-98; the functor becomes a subobject of the new object. *)
  Definition make_y_combinator (func : St) (m : memory) : memory * y_comb := (m ++ [func], mk_y_comb (length m)).
  (** The implicit copy constructor.  functional.hpp:52-56 (implicit). *)
  Definition copy_y_combinator (y : y_comb) (m : memory) : memory * outcome y_comb :=
    match nth_error m (y_func y) with Some s => (m ++ [s], Ok (mk_y_comb (length m))) | None => (m, UB) end.
End YCombinator.
