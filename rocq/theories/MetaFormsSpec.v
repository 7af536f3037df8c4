(** Specification of the forms in which metadata may list bases, values and members. *)

From Coq Require Import String Ascii ZArith Arith Bool List.
From Verif Require Import Base MetaModel MetaSpec.
Import ListNotations.

(** [x] is the metadata itself if that qualifies, else the first of its entries that does. *)
Definition first_entry (Q : md -> Prop) (m x : md) : Prop :=
  (Q m /\ x = m) \/
  (~ Q m /\ exists l pre post, tuple_or_array m l /\ l = pre ++ x :: post /\ Q x /\ forall y, In y pre -> ~ Q y).
(** Neither the metadata itself nor any of its entries qualifies. *)
Definition no_entry (Q : md -> Prop) (m : md) : Prop :=
  ~ Q m /\ forall l x, tuple_or_array m l -> In x l -> ~ Q x.

(** A base class tag of [T]. *)
Definition base_of (is_base_of : nat -> nat -> bool) (T : nat) (x : md) : Prop :=
  exists u, x = MBase u /\ is_base_of u T = true.

Section Listing.
  (** [P]: a subject; [L]: a plain list of subjects; [LR]: a list of records about subjects; [compiles]: the lists of records
      whose first column can be taken; [none]: the result when nothing is listed. *)
  Variables (P : md -> Prop) (L LR : md -> list md -> Prop) (compiles : md -> Prop) (none : option (list md)).
  Let record (x : md) : Prop := exists y, P y /\ record_about x y.
  Let plain (x : md) : Prop := exists l, L x l.
  Let records (x : md) : Prop := exists l, LR x l.

  (** In order of precedence: a list of records, a list of subjects, one record, one subject, nothing. *)
  Inductive listing (m : md) : option (list md) -> Prop :=
  | listing_records : forall x rs xs, first_entry records m x -> LR x rs -> compiles x -> Forall2 record_about rs xs -> listing m (Some xs)
  | listing_plain : forall x xs, no_entry records m -> first_entry plain m x -> L x xs -> listing m (Some xs)
  | listing_record : forall x y, no_entry records m -> no_entry plain m -> first_entry record m x -> record_about x y -> listing m (Some [y])
  | listing_single : forall x, no_entry records m -> no_entry plain m -> no_entry record m -> first_entry P m x -> listing m (Some [x])
  | listing_none : no_entry records m -> no_entry plain m -> no_entry record m -> no_entry P m -> listing m none.
End Listing.

(** Any tuple or array of subjects, or of records about subjects; also an empty one. *)
Definition any_list (P : md -> Prop) (x : md) (l : list md) : Prop := tuple_or_array x l /\ Forall P l.
Definition any_record_list (P : md -> Prop) (x : md) (l : list md) : Prop :=
  any_list (fun r => exists y, P y /\ record_about r y) x l.
Definition is_tuple (x : md) : Prop := exists l, x = MTuple l.

(** For values, an array counts by the type of its elements, and a plain list has to be an array. *)
Definition value_record_type (T : nat) (r : mty) : Prop :=
  (exists ts, r = TTuple (TVal T :: ts)) \/ (exists n, r = TArray (TVal T) (S n)).
Definition value_list (T : nat) (x : md) (l : list md) : Prop := x = MArray (TVal T) l.
Definition value_record_list (T : nat) (x : md) (l : list md) : Prop :=
  (x = MTuple l /\ Forall (fun r => exists y, value_of T y /\ record_about r y) l) \/
  (exists r, x = MArray r l /\ value_record_type T r).

(** Reading of "nothing is listed". *)
Definition if_class (is_class : nat -> bool) (T : nat) (m : md) : option (list md) :=
  if is_class T then match m with MNullopt => None | _ => Some [] end else None.
Definition if_reflected (m : md) : option (list md) := match m with MNullopt => None | _ => Some [] end.
