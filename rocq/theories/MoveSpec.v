(** Specification of value categories in the tuple and array algorithms. *)

From Coq Require Import Arith List.
From Verif Require Import Base TupleModel MoveModel.
Import ListNotations.

Section Spec.
  Context {V : Type}.

  (** Element [i] of tuple [o] is among the elements of a row (as an rvalue). *)
  Definition refers (row : list (element ref)) (o i : nat) : Prop :=
    exists rv, In (Elem (mk_ref o i rv)) row.
  Definition may_move (row : list (element ref)) (o i : nat) : Prop := In (Elem (mk_ref o i true)) row.

  (** A functor that keeps to its arguments: its result depends on nothing else in memory, and it changes nothing but
      its rvalue arguments (which it may or may not move from). *)
  Definition keeps_to_arguments {R : Type} (f : memory V -> list (element ref) -> memory V * outcome R) : Prop :=
    (forall m m' row, (forall o i, refers row o i -> cell m o i = cell m' o i) -> snd (f m row) = snd (f m' row)) /\
    (forall m row o i, ~ may_move row o i -> cell (fst (f m row)) o i = cell m o i).

  (** The memory afterwards: only elements of tuples that were passed as rvalues may have changed. *)
  Definition only_rvalues_changed (args : list marg) (m m' : memory V) : Prop :=
    forall o, ~ In (MTuple o true) args -> forall i, cell m' o i = cell m o i.

  (** [rows] are the rows of references: the i-th has element i of every tuple, in the order of the arguments. *)
  Definition ref_element (i : nat) (a : marg) (e : element ref) : Prop :=
    match a with
    | MTuple o rv => e = Elem (mk_ref o i rv)
    | MRangeIndex => e = Index i
    | MTupleIndex => e = IndexConstant i
    end.
  Definition ref_rows (args : list marg) (n : nat) (rows : list (list (element ref))) : Prop :=
    length rows = n /\ forall i row, nth_error rows i = Some row -> Forall2 (ref_element i) args row.

  (** All tuples among the arguments exist and have [n] elements, and there is one. *)
  Definition tuples_of_size (m : memory V) (args : list marg) (n : nat) : Prop :=
    (exists o rv, In (MTuple o rv) args) /\
    forall o rv, In (MTuple o rv) args -> exists t, nth_error m o = Some t /\ length t = n.

  (** A tuple that is moved from is passed only once. *)
  Definition moved_once (args : list (nat * bool)) : Prop :=
    forall j k o rv, nth_error args j = Some (o, true) -> nth_error args k = Some (o, rv) -> j = k.
End Spec.
