(** Specification of recursion: the least relation that satisfies the equation f(a) = body(f, a), with the functor's
    state threaded through all calls. *)

From Coq Require Import List.
From Verif Require Import Base FunctionalModel.
Import ListNotations.

Section Spec.
  Context {A R St : Type}.
  Variable body : A -> prog A R St.

  (** [computes p s s' r]: [p], started in state [s], ends in state [s'] with result [r]. *)
  Inductive computes : prog A R St -> St -> St -> R + exn -> Prop :=
  | computes_done : forall r s, computes (Done r) s s r
  | computes_get : forall k s s' r, computes (k s) s s' r -> computes (Get k) s s' r
  | computes_put : forall s0 p s s' r, computes p s0 s' r -> computes (Put s0 p) s s' r
  | computes_rec : forall a k s s1 s' r1 r, computes (body a) s s1 r1 -> computes (k r1) s1 s' r -> computes (Rec a k) s s' r.
  (** The recursive function defined by the body, as a relation. *)
  Definition recursive_function (a : A) (s s' : St) (r : R + exn) : Prop := computes (body a) s s' r.

  (** A body that does not write. *)
  Inductive reads_only : prog A R St -> Prop :=
  | ro_done : forall r, reads_only (Done r)
  | ro_get : forall k, (forall s, reads_only (k s)) -> reads_only (Get k)
  | ro_rec : forall a k, (forall r, reads_only (k r)) -> reads_only (Rec a k).

  (** The value of a program if recursive calls are answered by the function [g] (state [s] is only read), and the
      arguments of these calls. *)
  Fixpoint value (g : A -> R) (s : St) (p : prog A R St) : R + exn :=
    match p with
    | Done r => r
    | Get k => value g s (k s)
    | Put s0 p' => value g s0 p'
    | Rec a k => value g s (k (inl (g a)))
    end.
  Fixpoint calls (g : A -> R) (s : St) (p : prog A R St) : list A :=
    match p with
    | Done _ => []
    | Get k => calls g s (k s)
    | Put s0 p' => calls g s0 p'
    | Rec a k => a :: calls g s (k (inl (g a)))
    end.
End Spec.
