(** Specification of the copying done by references of soa_span<>. *)

From Coq Require Import ZArith Arith List.
From Verif Require Import Base.
Import ListNotations.

Section Perform.
  Context {S X : Type}.
  Variable op : S -> X -> S * outcome unit.
  (** An operation is performed on each of a list of operands, one after another, and all return. *)
  Inductive performed : S -> list X -> S -> Prop :=
  | performed_none : forall s, performed s [] s
  | performed_more : forall s x s1 xs s2, op s x = (s1, Ok tt) -> performed s1 xs s2 -> performed s (x :: xs) s2.
End Perform.

(** The k-th operand consists of the k-th elements of two lists. *)
Definition paired {A B X : Type} (f : A -> B -> X) (l1 : list A) (l2 : list B) (xs : list X) : Prop :=
  length xs = length l1 /\ forall k a b, nth_error l1 k = Some a -> nth_error l2 k = Some b -> nth_error xs k = Some (f a b).

(** An operation returns or throws. *)
Definition total {S X A : Type} (op : S -> X -> S * outcome A) : Prop := forall s x, (exists s' a, op s x = (s', Ok a)) \/ exists s' e, op s x = (s', Throw e).
