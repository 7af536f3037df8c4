(** Specification of reflection metadata. *)

From Coq Require Import String Ascii ZArith Arith Bool List.
From Verif Require Import Base MetaModel.
Import ListNotations.

(** Arrays hold elements of their type. *)
Inductive well_typed : md -> Prop :=
| wt_str : forall b s, well_typed (MStr b s)
| wt_val : forall t v, well_typed (MVal t v)
| wt_member : forall c d i, well_typed (MMember c d i)
| wt_base : forall c, well_typed (MBase c)
| wt_other : forall k, well_typed (MOther k)
| wt_nullopt : well_typed MNullopt
| wt_tuple : forall l, Forall well_typed l -> well_typed (MTuple l)
| wt_array : forall r l, Forall well_typed l -> Forall (fun x => type_of x = r) l -> well_typed (MArray r l).

(** The strings among a list of entries. *)
Definition strings (l : list md) : list str :=
  flat_map (fun x => match x with MStr _ s => [s] | _ => [] end) l.

Definition tuple_or_array (m : md) (l : list md) : Prop := m = MTuple l \/ exists r, m = MArray r l.

(** A record: its first entry is the subject, the others describe it. *)
Definition record_about (r x : md) : Prop := exists l, tuple_or_array r (x :: l).
Definition record_name (r : md) (n : str) : Prop := nth_error (strings (elements r)) 0 = Some n.
Definition record_description (r : md) (n : str) : Prop := nth_error (strings (elements r)) 1 = Some n.

(** A list of records about subjects of a kind. *)
Definition record_list (kind : md -> Prop) (m : md) (rs : list md) : Prop :=
  tuple_or_array m rs /\ rs <> [] /\ Forall (fun r => exists x, kind x /\ record_about r x) rs.
(** Metadata have [rs] as the first list of such records among their entries, or consist of it.  (No explicitly empty
    tuple or array comes before it, see C39_empty_list_refuted.) *)
Definition lists_records (kind : md -> Prop) (m : md) (rs : list md) : Prop :=
  record_list kind m rs \/
  exists l pre x post, tuple_or_array m l /\ l = pre ++ x :: post /\ record_list kind x rs /\
    forall y, In y pre -> ~ tuple_or_array y [] /\ forall rs', ~ record_list kind y rs'.

Definition value_of (T : nat) (x : md) : Prop := exists v, x = MVal T v.
Definition member_of (T : nat) (x : md) : Prop := exists d i, x = MMember T d i.

(** * Lookup *)
Definition least_index {A : Type} (P : A -> Prop) (l : list A) (i : nat) : Prop :=
  (exists a, nth_error l i = Some a /\ P a) /\ forall j a, j < i -> nth_error l j = Some a -> ~ P a.

(** * Hierarchies, in terms of bases<>() and exclusive_members<>(). *)
Section Hierarchy.
  Variables (bases_are : nat -> list nat -> Prop) (exclusive_are : nat -> list md -> Prop).

  (** The members of the bases, in order, and then those of the class. *)
  Inductive member_list : nat -> list md -> Prop :=
  | ml_intro : forall T bs ms mss, bases_are T bs -> exclusive_are T ms -> member_lists bs mss -> member_list T (concat mss ++ ms)
  with member_lists : list nat -> list (list md) -> Prop :=
  | mls_nil : member_lists [] []
  | mls_cons : forall b bs l ls, member_list b l -> member_lists bs ls -> member_lists (b :: bs) (l :: ls).

  (** A class and its direct and indirect bases. *)
  Inductive class_of : nat -> nat -> Prop :=
  | co_self : forall T, class_of T T
  | co_base : forall T bs b C, bases_are T bs -> In b bs -> class_of b C -> class_of T C.
End Hierarchy.
