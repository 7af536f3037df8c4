(** Specification of overload for handlers with reference parameters (C99): which handlers can be called, and which of them is meant. *)

From Coq Require Import Arith Bool List.
From Verif Require Import Base ForwardModel OverRefModel.
Import ListNotations.

(** The arguments a parameter accepts. *)
Inductive accepts : param -> arg_type -> Prop :=
| acc_value : forall t c, accepts (Param t ByValue) (t, c)
| acc_lref : forall t, accepts (Param t LRef) (t, Lv)
| acc_clref : forall t c, accepts (Param t CLRef) (t, c)
| acc_rref : forall t, accepts (Param t RRef) (t, Rv)
| acc_crref : forall t c, In c [Rv; CRv] -> accepts (Param t CRRef) (t, c)
| acc_auto : forall t c, accepts (Generic ByValue) (t, c)
| acc_auto_lref : forall t c, In c [Lv; CLv; CRv] -> accepts (Generic LRef) (t, c)
| acc_auto_clref : forall t c, accepts (Generic CLRef) (t, c)
| acc_auto_rref : forall t c, accepts (Generic RRef) (t, c)
| acc_auto_crref : forall t c, In c [Rv; CRv] -> accepts (Generic CRRef) (t, c).

(** A handler can be called with the arguments. *)
Definition callable (obj_const : bool) (l : lambda) (args : list arg_type) : Prop :=
  (obj_const = true -> l_const l = true) /\ Forall2 accepts (l_params l) args.

(** The reference type that preserves an argument's value category and constness. *)
Definition own_ref (c : cat) : form := match c with Lv => LRef | CLv => CLRef | Rv => RRef | CRv => CRRef end.
(** A parameter written for exactly this argument. *)
Inductive exact : param -> arg_type -> Prop :=
| exact_value : forall t c, exact (Param t ByValue) (t, c)
| exact_ref : forall t c, exact (Param t (own_ref c)) (t, c).

(** A handler with a generic parameter, and one with a reference parameter of the argument's type that loses its value category or adds
    const. *)
Definition generic (l : lambda) : Prop := exists f, In (Generic f) (l_params l).
Inductive loses_category : param -> param -> arg_type -> Prop :=
| lc_intro : forall t c f, f <> ByValue -> f <> own_ref c -> loses_category (Param t (own_ref c)) (Param t f) (t, c).

(** Calling [l] rather than [l'] does not change the object to a less preferred constness. *)
Definition same_object (obj_const : bool) (l l' : lambda) : Prop := l_const l = true -> obj_const = true \/ l_const l' = true.

(** The generic reference forms, best first. *)
Definition preference (c : cat) : list form :=
  match c with
  | Lv => [LRef; RRef; CLRef]
  | CLv => [CLRef; LRef; RRef]
  | Rv => [RRef; CRRef; CLRef]
  | CRv => [CRRef; RRef; CLRef; LRef]
  end.
Definition before {A} (x y : A) (l : list A) : Prop := exists a b, l = a ++ x :: b /\ In y b.

(** Three elements, one from each list. *)
Inductive Exists3 {A B C} (R : A -> B -> C -> Prop) : list A -> list B -> list C -> Prop :=
| ex3_here : forall a b c la lb lc, R a b c -> Exists3 R (a :: la) (b :: lb) (c :: lc)
| ex3_later : forall a b c la lb lc, Exists3 R la lb lc -> Exists3 R (a :: la) (b :: lb) (c :: lc).
Inductive Forall3 {A B C} (R : A -> B -> C -> Prop) : list A -> list B -> list C -> Prop :=
| fa3_nil : Forall3 R [] [] []
| fa3_cons : forall a b c la lb lc, R a b c -> Forall3 R la lb lc -> Forall3 R (a :: la) (b :: lb) (c :: lc).

(** A parameter that does as well as another one for an argument: it is exact, or takes a reference to const while the other one takes
    a value or a reference to const. *)
Inductive no_worse : param -> param -> arg_type -> Prop :=
| nw_exact : forall p q a, exact p a -> no_worse p q a
| nw_value : forall t q c, q = Generic ByValue \/ q = Param t ByValue -> no_worse (Param t CLRef) q (t, c)
| nw_const : forall t q c, q = Generic CLRef \/ q = Param t CLRef -> no_worse (Param t CLRef) q (t, c).

(** A parameter written like another one, or exactly for this argument where the other one is generic. *)
Inductive refines : param -> param -> arg_type -> Prop :=
| ref_same : forall p a, refines p p a
| ref_exact : forall p f a, exact p a -> refines p (Generic f) a.
