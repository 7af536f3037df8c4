(** Specification of the choice of partial specialisations, and of what range<> offers. *)

From Coq Require Import ZArith Arith Bool List.
From Verif Require Import Base ClassModel.
Import ListNotations.

(** Replacing template parameters by arguments. *)
Fixpoint subst (sigma : nat -> tm) (p : tm) : tm :=
  match p with
  | Var n => sigma n
  | Num z => Num z
  | App f l => App f (map (subst sigma) l)
  end.
(** The template arguments a specialisation is for. *)
Definition instance (p t : tm) : Prop := exists sigma, subst sigma p = t.
(** [p] is for fewer arguments than [q]. *)
Definition special_case (p q : tm) : Prop :=
  (forall t, instance p t -> instance q t) /\ exists t, instance q t /\ ~ instance p t.
(** Specialisation [i] is for the arguments, and of all those that are, it is for the fewest. *)
Definition best (specs : list tm) (t : tm) (i : nat) : Prop :=
  exists p, nth_error specs i = Some p /\ instance p t /\
    forall j q, j <> i -> nth_error specs j = Some q -> instance q t -> special_case p q.

(** The interface of range<It, EndIt, Extent>; [ra]: It is a random-access iterator (C++17 category). *)
Inductive interface (ra : bool) (It EndIt : tm) : Z -> range_kind -> Prop :=
| iface_general : ra = false -> interface ra It EndIt (-1) General
| iface_random : ra = true -> interface ra It EndIt (-1) RandomAccess
| iface_static : forall n, ra = true -> It = EndIt -> (0 <= n)%Z -> interface ra It EndIt n (Static n).
