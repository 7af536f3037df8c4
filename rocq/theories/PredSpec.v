(** Specification of the use of predicates' results: what a result means, independently of the algorithms. *)

From Coq Require Import ZArith Arith Bool List.
From Verif Require Import Base ForwardModel TupleModel ZipModel PredModel.
Import ListNotations.

Section Results.
  Context {V : Type}.

  (** The conversion to bool that an "if" uses, and that an initialisation of a bool uses. *)
  Inductive converts : conversion V -> (V -> outcome bool) -> Prop :=
  | converts_explicit : forall f, converts (Explicit f) f
  | converts_implicit : forall f, converts (Implicit f) f.

  (** The expression a predicate's call is: its type and value category. *)
  Inductive expression : rtype V -> rclass V -> cat -> Prop :=
  | expression_object : forall k, expression (RVal k) k Rv
  | expression_reference : forall c k, expression (RRef c k) k c.

  (** An object initialised by that expression: [f] makes its value. *)
  Inductive kept : rtype V -> rclass V -> (V -> outcome V) -> Prop :=
  | kept_object : forall k, kept (RVal k) k (fun v => Ok v)
  | kept_reference : forall c k f, r_copy k c = Some f -> kept (RRef c k) k f.

  (** [f v] tells whether "if (x)" is taken for an expression [x] of a class with the value [v]. *)
  Definition taken (k : rclass V) (c : cat) (f : V -> outcome bool) : Prop := converts (r_conv k c) f.
  (** [f v] tells whether "if (!x)" is taken. *)
  Inductive taken_not (k : rclass V) (c : cat) : (V -> outcome bool) -> Prop :=
  | not_own : forall q f, r_not k c = Some q -> converts q f -> taken_not k c f
  | not_built_in : forall f, r_not k c = None -> converts (r_conv k c) f -> taken_not k c (fun v => do b <- f v; Ok (negb b)).

  (** A type whose values are true or false, as told by [f], for whatever expression and wherever bool is expected. *)
  Record ordinary (k : rclass V) (f : V -> outcome bool) : Prop := {
    ordinary_conv : forall c, exists g, r_conv k c = Implicit g /\ forall v, g v = f v;
    ordinary_not : forall c, r_not k c = None \/
      exists q g, r_not k c = Some q /\ converts q g /\ forall v, g v = (do b <- f v; Ok (negb b));
    ordinary_copy : forall c, exists g, r_copy k c = Some g /\ forall v, exists v', g v = Ok v' /\ f v' = f v }.
  (** The class of a return type. *)
  Inductive of_class : rtype V -> rclass V -> Prop :=
  | of_object : forall k, of_class (RVal k) k
  | of_reference : forall c k, of_class (RRef c k) k.
End Results.

(** The predicate that calls [func] and answers with [f]. *)
Definition answer {S X V : Type} (func : S -> X -> S * outcome V) (f : V -> outcome bool) (s : S) (x : X) : S * outcome bool :=
  match func s x with (s', Ok v) => (s', f v) | (s', o) => (s', do _ <- o; UB) end.
(** Likewise if [f] depends on the arguments. *)
Definition answer_at {S X V : Type} (func : S -> X -> S * outcome V) (f : X -> V -> outcome bool) (s : S) (x : X) : S * outcome bool :=
  answer func (f x) s x.

(** The types of the elements of a row. *)
Definition typed {E : Type} (row : list (element (nat * E))) (ts : list (element nat)) : Prop :=
  Forall2 (fun e t => match e, t with
                      | Elem (n, _), Elem m => n = m
                      | Index i, Index j => i = j
                      | IndexConstant i, IndexConstant j => i = j
                      | _, _ => False
                      end) row ts.
