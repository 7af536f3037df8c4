(** Specification of value categories of the arguments of range_zip() and the range algorithms. *)

From Coq Require Import ZArith Arith Bool List.
From Verif Require Import Base VCatModel ZipCatModel.
Import ListNotations.

Section Spec.
  Context {V : Type}.
  Implicit Types (m : memory (V := V)) (a : arg).

  (** The container with the elements of a range, and the elements. *)
  Inductive contents m a : nat -> list V -> Prop :=
  | contents_container : forall xs, t_view (a_type a) = false -> m_objs m (a_loc a) = Some (Elems xs) -> contents m a (a_loc a) xs
  | contents_view : forall k xs, t_view (a_type a) = true -> m_objs m (a_loc a) = Some (View k) -> m_objs m k = Some (Elems xs) ->
      contents m a k xs.

  (** Classes with begin() and end(); range_index.  Nothing has data() but no size(). *)
  Definition class_type (t : range_type) : Prop := t_array t = false /\ (t_data t = true -> t_size t = true).
  Definition usable (t : range_type) : Prop := t_index t = true \/ class_type t.
  Definition knows_size (t : range_type) : Prop := t_index t = false /\ (t_tuple t = true \/ t_size t = true).

  (** All ranges exist and have [n] elements (range_index has none). *)
  Definition have_length m (args : list arg) (n : Z) : Prop :=
    forall a, In a args -> exists k xs, contents m a k xs /\ (t_index (a_type a) = false -> Z.of_nat (length xs) = n).
  Definition well_formed m : Prop := forall k, m_next m <= k -> m_objs m k = None.

  (** A reference to element [j] of container [k], reached through the expression [a]: const if the expression is const and
      not a view. *)
  Definition element_in a (k : nat) (j : Z) : element :=
    if t_index (a_type a) then EIdx j
    else ERef k j (match a_cat a with CL | CX => negb (t_view (a_type a)) | L | X => false end).
  (** References to the elements [j] of the arguments. *)
  Definition elements_at m (args : list arg) (j : Z) (es : list element) : Prop :=
    Forall2 (fun a e => exists k xs, contents m a k xs /\ e = element_in a k j) args es.

  (** The references for all positions, in order. *)
  Definition all_elements m (args : list arg) (n : Z) (ts : list (list element)) : Prop :=
    length ts = Z.to_nat n /\ forall j es, nth_error ts j = Some es -> elements_at m args (Z.of_nat j) es.

  (** Arguments that differ in whether they are lvalues or rvalues, but not in constness. *)
  Definition same_but_rvalue (a b : arg) : Prop :=
    a_type a = a_type b /\ a_loc a = a_loc b /\
    match a_cat a, a_cat b with L, L | L, X | X, L | X, X | CL, CL | CL, CX | CX, CL | CX, CX => True | _, _ => False end.

  (** The types of two zipped ranges have the same size in them, or none. *)
  Definition same_size_type (z1 z2 : zip_object) : Prop :=
    match z_dim z1, z_dim z2 with
    | ZipModel.SStatic n, ZipModel.SStatic k => n = k
    | ZipModel.SDyn _, ZipModel.SDyn _ => True
    | _, _ => False
    end.

  (** The references a zipped range of [args] gives for position [j]; [m] is the memory before, [m'] after the call.  An
      lvalue argument is referred to; a const rvalue is copied. *)
  Definition zipped_at m m' (args : list arg) (j : Z) (es : list element) : Prop :=
    Forall2 (fun a e => exists k xs, contents m a k xs /\
      match a_cat a with
      | L | CL => e = element_in a k j
      | X | CX =>
          if t_view (a_type a) then e = element_in a k j
          else exists k', m_next m <= k' /\ m_objs m' k' = Some (Elems xs) /\ e = element_in a k' j
      end) args es.
End Spec.
