(** Specification of result tuples. *)

From Coq Require Import Arith Bool List.
From Verif Require Import Base RTupModel.
Import ListNotations.

(** Number of copies. *)
Definition copies (l : list op) : nat := length (filter (fun o => match o with Copy => true | Move => false end) l).
(** A result can be kept in an object: it can be moved or copied from there. *)
Definition can_keep (e : expr) : Prop :=
  copyable (x_class e) = true \/ (movable (x_class e) = true /\ x_const e = false /\ x_cat e <> Lvalue).
(** Copies that cannot be avoided: of lvalues, of const objects, and of objects that cannot be moved. *)
Definition must_copy (e : expr) : Prop := x_cat e = Lvalue \/ x_const e = true \/ movable (x_class e) = false.

(** Elements of the arguments of tuple_cat(), in order. *)
Definition elements (args : list source) : list (source * ety) := flat_map (fun s => map (fun t => (s, t)) (s_types s)) args.
(** An element that is an object whose class can be copied. *)
Definition copyable_object (t : ety) : Prop := exists c const, t = EObj c const /\ copyable c = true.
(** Lvalues that are not const give access to the elements as they are. *)
Definition plain_lvalue (s : source) : Prop := s_lvalue s = true /\ s_const s = false.
