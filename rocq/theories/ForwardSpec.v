(** Specification of functor wrappers. *)

From Coq Require Import Bool List.
From Verif Require Import Base ForwardModel.
Import ListNotations.

Section Spec.
  Variables (St A R : Type).

  (** A sequence of calls on one object, each with its category; the results. *)
  Fixpoint calls (w : functor St A R) (s : St) (l : list (cat * A)) : outcome (list R * St) :=
    match l with
    | [] => Ok ([], s)
    | (c, a) :: l => do ' (r, s) <- call St A R w c s a; do ' (rs, s) <- calls w s l; Ok (r :: rs, s)
    end.

  (** A functor does not change what it captured when it is called as const. *)
  Definition const_correct (f : functor St A R) : Prop :=
    forall c b s a r s', (c = CLv \/ c = CRv) -> f c = Some b -> b s a = Ok (r, s') -> s' = s.
End Spec.

(** The category with which the wrapped functor is called. *)
Definition forwarded (c : cat) : cat := match c with CRv => CLv | _ => c end.

(** A sequence of calls of a function that was made by another one just before: [make] without arguments, [use] with the
    arguments.  The effects of both are kept. *)
Section Forwarded.
  Variables (St A R G : Type) (make : cat -> St -> outcome (G * St)) (use : cat -> G -> St -> A -> outcome (R * St)).
  Fixpoint forwarded_calls (s : St) (l : list (cat * A)) : outcome (list R * St) :=
    match l with
    | [] => Ok ([], s)
    | (c, a) :: l =>
        do ' (g, s1) <- make (forwarded c) s;
        do ' (r, s2) <- use (forwarded c) g s1 a;
        do ' (rs, s3) <- forwarded_calls s2 l; Ok (r :: rs, s3)
    end.
End Forwarded.
