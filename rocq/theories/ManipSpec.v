(** Specification of manipulators. *)

From Coq Require Import Arith List.
From Verif Require Import Base ManipModel.
Import ListNotations.

Section Spec.
  Variable V : Type.

  (** What the functor gets for the arguments: for an lvalue, that object; for an rvalue, an object of its own (not one
      of the first [n]) with that value. *)
  Definition gets (n : nat) (os : list V) (a : arg V) (i : nat) : Prop :=
    match a with
    | LValue j => i = j
    | RValue v => n <= i /\ nth_error os i = Some v
    end.

  (** No two rvalues share an object. *)
  Definition apart (args : list (arg V)) (l : list nat) : Prop :=
    forall j k v w i, nth_error args j = Some (RValue v) -> nth_error args k = Some (RValue w) ->
      nth_error l j = Some i -> nth_error l k = Some i -> j = k.

  (** A functor that changes only the objects it was given. *)
  Definition changes_only_given {F St} (f : functor F V St) : Prop :=
    forall c l os s os' s', f c l os s = Ok (os', s') ->
      length os' = length os /\ forall i, ~ In i l -> nth_error os' i = nth_error os i.
End Spec.
