(** Specification of transformations of variants. *)

From Coq Require Import ZArith Arith List.
From Verif Require Import Base.
Import ListNotations.

(** [ts] selects one alternative from every variant. *)
Definition combination {T} (alts : list (list T)) (ts : list T) : Prop := Forall2 (fun t a => In t a) ts alts.

(** [is_] picks the types [ts] from the alternatives by position. *)
Inductive selects {T} : list nat -> list (list T) -> list T -> Prop :=
| selects_nil : selects [] [] []
| selects_cons : forall i a t is_ alts ts, nth_error a i = Some t -> selects is_ alts ts ->
    selects (i :: is_) (a :: alts) (t :: ts).

(** The number of combinations. *)
Definition number_of_combinations {T} (alts : list (list T)) : Z :=
  fold_right (fun a n => (Z.of_nat (length a) * n)%Z) 1%Z alts.

(** Every variant type has at least one alternative. *)
Definition inhabited_variants {T} (alts : list (list T)) : Prop := Forall (fun a => a <> []) alts.

(** The variants [vs] with alternatives [alts] hold [args] (types and values). *)
Definition holding {T V} (alts : list (list T)) (vs : list (option (nat * V))) (args : list (T * V)) : Prop :=
  Forall2 (fun a vh => exists i, fst vh = Some (i, snd (snd vh)) /\ nth_error a i = Some (fst (snd vh)))
    alts (combine vs args) /\ length vs = length alts /\ length args = length alts.

(** [v] is a proper object of the variant type with alternatives [a]. *)
Definition is_variant {T V} (a : list T) (v : option (nat * V)) : Prop :=
  match v with None => True | Some (i, _) => i < length a end.
