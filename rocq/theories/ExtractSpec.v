(** Specification of metadata extraction. *)

From Coq Require Import Arith Bool List.
From Verif Require Import Base MetaModel MetaSpec.
Import ListNotations.

(** The number of entries that satisfy a predicate. *)
Inductive number {A : Type} (P : A -> Prop) : list A -> nat -> Prop :=
| number_nil : number P [] 0
| number_yes : forall x l n, P x -> number P l n -> number P (x :: l) (S n)
| number_no : forall x l n, ~ P x -> number P l n -> number P (x :: l) n.

(** Entry [x] satisfies the predicate, and [occ] entries before it do. *)
Definition occurrence {A : Type} (P : A -> Prop) (l : list A) (occ : nat) (x : A) : Prop :=
  exists pre post, l = pre ++ x :: post /\ P x /\ number P pre occ.

(** What metadata [m] hold under a predicate on types: [m] itself, if it qualifies (occurrence 0), or an entry. *)
Definition found (P : mty -> Prop) (m : md) (occ : nat) (x : md) : Prop :=
  m <> MNullopt /\
  ((occ = 0 /\ P (type_of m) /\ x = m) \/
   (~ (occ = 0 /\ P (type_of m)) /\ exists l, tuple_or_array m l /\ occurrence (fun y => P (type_of y)) l occ x)).

(** String literals are returned as views. *)
Definition as_view (x y : md) : Prop :=
  (exists s, x = MStr true s /\ y = MStr false s) \/ ((forall s, x <> MStr true s) /\ y = x).

(** Implicit conversion to a type. *)
Definition converted (convert : mty -> mty -> option (md -> md)) (V : mty) (x y : md) : Prop :=
  (type_of x = V /\ y = x) \/ (type_of x <> V /\ exists f, convert (type_of x) V = Some f /\ y = f x).

(** What record [r] says: its entry, as a view if it is a string literal, converted to the type asked for. *)
Definition says (convert : mty -> mty -> option (md -> md)) (P : mty -> Prop) (occ : nat) (V : mty) (r y : md) : Prop :=
  exists x v, occurrence (fun y => P (type_of y)) (elements r) occ x /\ as_view x v /\ converted convert V v y.
Definition silent (P : mty -> Prop) (occ : nat) (r : md) : Prop :=
  forall x, ~ occurrence (fun y => P (type_of y)) (elements r) occ x.
