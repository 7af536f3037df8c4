(** Specification of permutation algorithms. *)

From Coq Require Import ZArith Arith List Permutation.
Import ListNotations.
Local Open Scope Z_scope.

(** 0, 1, ..., n-1. *)
Definition identity (n : nat) : list Z := map Z.of_nat (seq 0 n).

(** [idx] lists each of 0..n-1 exactly once. *)
Definition is_permutation (n : nat) (idx : list Z) : Prop := Permutation idx (identity n).

(** Position i of [es'] holds what was at position idx[i] of [es]. *)
Definition gathered {A} (es : list A) (idx : list Z) (es' : list A) : Prop :=
  length es' = length es /\
  forall i k, nth_error idx i = Some (Z.of_nat k) -> nth_error es' i = nth_error es k.

(** Position idx[i] of [es'] holds what was at position i of [es]. *)
Definition scattered {A} (es : list A) (idx : list Z) (es' : list A) : Prop :=
  length es' = length es /\
  forall i k, nth_error idx i = Some (Z.of_nat k) -> nth_error es' k = nth_error es i.

(** Draw sequences of a shuffle of n elements: one draw below k+1 for each k = n-1, ..., 1. *)
Fixpoint draws_ok (n : nat) (ds : list Z) : Prop :=
  match n with
  | O => ds = []
  | S n' => exists d r, ds = d :: r /\ 0 <= d <= Z.of_nat n /\ draws_ok n' r
  end.

(** The source that delivers a given list of draws. *)
Definition scripted (ds : list Z) (_ _ : Z) : list Z * Z :=
  match ds with [] => ([], 0) | d :: r => (r, d) end.
