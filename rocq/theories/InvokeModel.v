(** Model of invoke() and apply() for member pointers: include/makeshift/detail/tuple.hpp:183-257,
    include/makeshift/tuple.hpp:322-327.  (In C++20 mode std::invoke() is used instead.) *)

From Coq Require Import Arith Bool List.
From Verif Require Import Base.
Import ListNotations.

Section Invoke.
  (** [C]: classes; [base_of c d]: std::is_base_of_v<c, d>; [O]: objects, with the class they were declared with;
      [S]: memory. *)
  Variables (C O V S : Type) (base_of : C -> C -> bool) (class_of : O -> C).

  (** An argument: an object of class type; a std::reference_wrapper<>; a pointer or an object of a class with
      operator * that does not derive from the class in question; or anything else.  The cases of detail/tuple.hpp:193-204, 209-220. *)
  Inductive argument := Object (o : O) | Wrapper (o : O) | Pointer (o : O) | Other (v : V).

  (** Callables: function objects; pointers to member functions and to data members of a class.  The cases of detail/tuple.hpp:191, 206, 228-235. *)
  Inductive callable :=
  | Function (f : S -> list argument -> S * outcome argument)
  | MemberFunction (c : C) (f : S -> O -> list argument -> S * outcome argument)
  | DataMember (c : C) (f : S -> O -> S * outcome argument).

  (** "o.*f" for a pointer to a member of class c.  detail/tuple.hpp:195, 199, 203, 211, 215, 219. *)
  Definition select (c : C) (o : O) : outcome O := if base_of c (class_of o) then Ok o else IllFormed.

  (** The three branches of invoke_memptr() (detail/tuple.hpp:192-204, 209-220): t1 itself if its class derives from c;
      t1.get() for wrappers; *t1 for everything else. *)
  Definition designated (c : C) (t1 : argument) : outcome O :=
    match t1 with
    | Object o => if base_of c (class_of o) then select c o else IllFormed   (* no operator * *)
    | Wrapper o => select c o
    | Pointer o => select c o
    | Other _ => IllFormed
    end.

  (** invoke(): detail/tuple.hpp:223-236. *)
  Definition invoke (f : callable) (args : list argument) (s : S) : S * outcome argument :=
    match f with
    | Function f => f s args
    | MemberFunction c f =>
        match args with
        | t1 :: rest => match designated c t1 with Ok o => f s o rest | _ => (s, IllFormed) end
        | [] => (s, IllFormed)
        end
    | DataMember c f =>
        match args with
        | [t1] => match designated c t1 with Ok o => f s o | _ => (s, IllFormed) end
        | _ => (s, IllFormed)   (* static_assert() *)
        end
    end.

  (** apply(): tuple.hpp:322-327, apply_impl(), apply_impl_1(): detail/tuple.hpp:240-257: get<Is>(t)... for
      Is = 0, ..., size - 1. *)
  Definition apply (f : callable) (t : list argument) (s : S) : S * outcome argument :=
    match mapM (fun i => match nth_error t i with Some v => Ok v | None => IllFormed end) (seq 0 (length t)) with
    | Ok args => invoke f args s
    | _ => (s, IllFormed)
    end.
End Invoke.
Arguments Object {O V} o.
Arguments Wrapper {O V} o.
Arguments Pointer {O V} o.
Arguments Other {O V} v.
Arguments Function {C O V S} f.
Arguments MemberFunction {C O V S} c f.
Arguments DataMember {C O V S} c f.
