(** Specification of the tuple and array algorithms. *)

From Coq Require Import ZArith Arith List.
From Verif Require Import Base TupleModel.
Import ListNotations.

(** * Arguments *)
Section Args.
  Context {V : Type}.

  (** The element of one argument at index [i]: that of a tuple, or the index itself. *)
  Inductive element_at (i : nat) : arg V -> element V -> Prop :=
  | at_tuple : forall l v, nth_error l i = Some v -> element_at i (ATuple l) (Elem v)
  | at_range_index : element_at i ARangeIndex (Index i)
  | at_tuple_index : element_at i ATupleIndex (IndexConstant i).

  (** [rows] are the elements of all arguments at the indices 0, ..., n - 1. *)
  Definition rows_of (args : list (arg V)) (n : nat) (rows : list (list (element V))) : Prop :=
    length rows = n /\
    forall i row, nth_error rows i = Some row -> Forall2 (element_at i) args row.

  (** All tuples among the arguments have [n] elements, and there is one. *)
  Definition common_size (args : list (arg V)) (n : nat) : Prop :=
    (exists l, In (ATuple l) args) /\ forall l, In (ATuple l) args -> length l = n.
End Args.

(** * Sequences of calls that all return: [rs] are the results. *)
Inductive called {S X R : Type} (f : S -> X -> S * outcome R) : S -> list X -> list R -> S -> Prop :=
| called_nil : forall s, called f s [] [] s
| called_cons : forall s x r s1 l rs s2, f s x = (s1, Ok r) -> called f s1 l rs s2 -> called f s (x :: l) (r :: rs) s2.

(** A call ends with [o], which is not a return. *)
Definition ends_with {A B : Type} (o : outcome A) (o' : outcome B) : Prop :=
  match o with
  | Ok _ => False
  | Contract => o' = Contract | Throw e => o' = Throw e | UB => o' = UB
  | IllFormed => o' = IllFormed | OutOfFuel => o' = OutOfFuel
  end.

(** * Lexicographic order *)
Section Lex.
  Context {V : Type}.
  Variable lt : V -> V -> bool.

  Definition equivalent (x y : V) : Prop := lt x y = false /\ lt y x = false.
  Inductive lex : list V -> list V -> Prop :=
  | lex_here : forall x y a b, lt x y = true -> lex (x :: a) (y :: b)
  | lex_next : forall x y a b, equivalent x y -> lex a b -> lex (x :: a) (y :: b).
End Lex.

Definition strict_weak_order {A : Type} (P : A -> Prop) (lt : A -> A -> bool) : Prop :=
  (forall x, P x -> lt x x = false) /\
  (forall x y, P x -> P y -> lt x y = true -> lt y x = false) /\
  (forall x y z, P x -> P y -> P z -> lt x y = true -> lt y z = true -> lt x z = true) /\
  (forall x y z, P x -> P y -> P z -> lt x y = false -> lt y x = false -> lt y z = false -> lt z y = false ->
     lt x z = false /\ lt z x = false).
