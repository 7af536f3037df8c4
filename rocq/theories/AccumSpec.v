(** Specification of accumulators: one object that is assigned to, or expressions of changing type. *)

From Coq Require Import ZArith Arith List.
From Verif Require Import Base TupleModel ZipModel TupleSpec RefTupleModel AccumModel.
Import ListNotations.

(** The type and value category of a call, by the return type. *)
Inductive is_expression : rty -> nat * category -> Prop :=
| expression_value : forall T, is_expression (RVal T) (T, Xvalue false)
| expression_lvalue : forall c T, is_expression (RLRef c T) (T, Lvalue c)
| expression_xvalue : forall c T, is_expression (RRRef c T) (T, Xvalue c).
(** The call returns a reference. *)
Inductive is_reference : rty -> Prop :=
| reference_lvalue : forall c T, is_reference (RLRef c T)
| reference_xvalue : forall c T, is_reference (RRRef c T).

Section Accumulators.
  Context {S V : Type}.
  Variable assign : nat -> nat -> category -> option (V -> V -> outcome V).
  Variable self_assign : nat -> category -> V -> outcome V.
  Variable red_type : nat * category -> nat -> option rty.
  Variable red : S -> nat -> V -> nat * V -> S * outcome (V * answer V).

  (** ** One object of type [T], and elements of type [X] *)
  (** The result of a call with the object, as an rvalue, can be assigned to the object. *)
  Definition assignable (T X : nat) (r : rty) (U : nat) (c : category) (f : V -> V -> outcome V) : Prop :=
    red_type (T, Xvalue false) X = Some r /\ is_expression r (U, c) /\ assign T U c = Some f.
  (** What is in the object after the assignment, if the call has left [rest] in it. *)
  Inductive stored (T X : nat) (rest : V) : answer V -> outcome V -> Prop :=
  | stored_fresh : forall r U c f v, assignable T X r U c f -> stored T X rest (Fresh v) (f rest v)
  | stored_itself : forall r c f, assignable T X r T c f -> is_reference r -> stored T X rest Itself (self_assign T c rest).
  (** The calls for a list of elements, after [transform]. *)
  Inductive accumulates {E : Type} (transform : S -> E -> S * outcome V) (T X : nat) : S -> V -> list E -> S -> outcome V -> Prop :=
  | accumulates_end : forall s v, accumulates transform T X s v [] s (Ok v)
  | accumulates_transform_throws : forall s v e l s' o o', transform s e = (s', o) -> ends_with o o' ->
      accumulates transform T X s v (e :: l) s' o'
  | accumulates_throws : forall s v e l s1 x s' o o', transform s e = (s1, Ok x) -> red s1 T v (X, x) = (s', o) -> ends_with o o' ->
      accumulates transform T X s v (e :: l) s' o'
  | accumulates_not_stored : forall s v e l s1 x s' rest a o, transform s e = (s1, Ok x) -> red s1 T v (X, x) = (s', Ok (rest, a)) ->
      stored T X rest a o -> (forall v', o <> Ok v') -> accumulates transform T X s v (e :: l) s' o
  | accumulates_next : forall s v e l s1 x s2 rest a v' s3 o, transform s e = (s1, Ok x) -> red s1 T v (X, x) = (s2, Ok (rest, a)) ->
      stored T X rest a (Ok v') -> accumulates transform T X s2 v' l s3 o -> accumulates transform T X s v (e :: l) s3 o.

  (** ** Expressions: [a] is the type and category of the accumulator *)
  Definition next_type (a : nat * category) (X : nat) (r : rty) (a' : nat * category) : Prop :=
    red_type a X = Some r /\ is_expression r a'.
  (** The calls compile. *)
  Inductive chain : nat * category -> list nat -> nat * category -> Prop :=
  | chain_end : forall a, chain a [] a
  | chain_next : forall a X r a' l a'', next_type a X r a' -> chain a' l a'' -> chain a (X :: l) a''.
  (** The next accumulator. *)
  Inductive passed (T : nat) (r : rty) (a' : nat * category) (rest : V) : answer V -> V -> Prop :=
  | passed_fresh : forall v, passed T r a' rest (Fresh v) v
  | passed_itself : is_reference r -> fst a' = T -> passed T r a' rest Itself rest.
  Inductive passes : S -> nat * category -> V -> list (nat * V) -> S -> outcome (nat * V) -> Prop :=
  | passes_end : forall s a v, passes s a v [] s (Ok (fst a, v))
  | passes_throws : forall s a v x l s' o o', red s (fst a) v x = (s', o) -> ends_with o o' -> passes s a v (x :: l) s' o'
  | passes_next : forall s a v x l s1 rest y r a' v' s2 o, red s (fst a) v x = (s1, Ok (rest, y)) -> next_type a (fst x) r a' ->
      passed (fst a) r a' rest y v' -> passes s1 a' v' l s2 o -> passes s a v (x :: l) s2 o.
End Accumulators.
