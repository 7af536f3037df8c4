(** Specification for tuples of references and for results returned by reference. *)

From Coq Require Import ZArith Arith Bool List.
From Verif Require Import Base TupleModel RefTupleModel.
Import ListNotations.

(** * Expressions *)
Definition is_lvalue (c : category) : Prop := exists k, c = Lvalue k.
Definition is_const (c : category) : Prop := c = Lvalue true \/ c = Xvalue true.
Definition of_lvalue_reference (e : ety) : Prop := exists k T, e = ELRef k T.
(** Declared const: objects as well as what is referred to. *)
Definition declared_const (e : ety) : Prop := exists T, e = EVal true T \/ e = ELRef true T \/ e = ERRef true T.
Definition an_object (e : ety) : Prop := exists k T, e = EVal k T.

Section Spec.
  Context {V : Type}.
  Variable copyable : nat -> bool.
  Variable move_of : nat -> move_kind.
  Variable left_over : nat -> V -> V.

  (** Whether an rvalue of type [T] that is not const can be used to make another object. *)
  Definition movable (T : nat) : Prop := move_of T = Moves \/ (move_of T = CopiesInstead /\ copyable T = true).

  (** * Concatenation *)
  (** The elements of all tuples, with the tuples they are from. *)
  Fixpoint elements (args : list targ) : list (targ * ety * nat) :=
    match args with
    | [] => []
    | a :: r => map (fun e => (a, fst e, snd e)) (t_elems a) ++ elements r
    end.

  (** Elements that are moved rather than copied: objects in tuples passed as rvalues, nothing being const. *)
  Definition given_away (x : targ * ety * nat) : Prop :=
    exists a T l, x = (a, EVal false T, l) /\ t_lvalue a = false /\ t_const a = false /\ move_of T = Moves.
  Definition kept (x : targ * ety * nat) : Prop := exists a k T l, x = (a, EVal k T, l) /\ ~ given_away x.
  (** Elements that can be passed on. *)
  Definition can_be_passed_on (x : targ * ety * nat) : Prop :=
    match x with
    | (a, EVal k T, _) =>
        if t_lvalue a || t_const a || k then copyable T = true else movable T
    | (_, ELRef _ _, _) => True
    | (a, ERRef _ _, _) => t_lvalue a = false
    end.
  (** Objects exist, and none that is given away is passed twice. *)
  Definition passed_properly (args : list targ) (os : list V) : Prop :=
    (forall a k T l, In (a, EVal k T, l) (elements args) -> l < length os) /\
    forall i j x y, nth_error (elements args) i = Some x -> nth_error (elements args) j = Some y -> i <> j -> given_away x ->
      an_object (snd (fst y)) -> snd x <> snd y.

  (** What an element of the result holds: the value of the object, or a reference to the same object. *)
  Definition holds (os : list V) (x : targ * ety * nat) (s : ety * slot V) : Prop :=
    fst s = snd (fst x) /\
    match snd (fst x) with
    | EVal _ _ => exists v, nth_error os (snd x) = Some v /\ snd s = Own v
    | _ => snd s = Refers (snd x)
    end.

  (** * Results of functors *)
  Definition returnable (r : rty) : Prop :=
    match r with
    | RVoid | RVal _ => True
    | RLRef _ T | RRRef true T => copyable T = true
    | RRRef false T => movable T
    end.
  (** The object made from a result ([None]: void), and the effects on the objects. *)
  Inductive yields : rty -> result V -> store V -> store V -> option (nat * V) -> Prop :=
  | yields_void : forall st, yields RVoid Nothing st st None
  | yields_value : forall T v st, yields (RVal T) (Value v) st st (Some (T, v))
  | yields_copy : forall r T l v st, (exists c, r = RLRef c T) \/ r = RRRef true T \/ (r = RRRef false T /\ move_of T <> Moves) ->
      nth_error (objs st) l = Some v -> yields r (Ref l) st (mk_store (objs st) (log st ++ [Copied l])) (Some (T, v))
  | yields_move : forall T l v st, move_of T = Moves -> nth_error (objs st) l = Some v ->
      yields (RRRef false T) (Ref l) st (mk_store (upd (objs st) l (left_over T v)) (log st ++ [Moved l])) (Some (T, v)).

  Section Functor.
    Variable returns : list (element (ety * category)) -> option rty.
    Variable func : list V -> list (element xarg) -> list V * outcome (result V).

    (** Calls for the given rows that all return, and the objects made from the results. *)
    Inductive evaluates : store V -> list (list (element xarg)) -> list (option (nat * V)) -> store V -> Prop :=
    | evaluates_nil : forall st, evaluates st [] [] st
    | evaluates_cons : forall st row r os y st1 x rows xs st2, returns (row_types row) = Some r ->
        func (objs st) row = (os, Ok y) -> yields r y (mk_store os (log st)) st1 x -> evaluates st1 rows xs st2 ->
        evaluates st (row :: rows) (x :: xs) st2.

    (** The calls alone, with nothing done to the results. *)
    Fixpoint calls_alone (os : list V) (rows : list (list (element xarg))) : list V * list (result V) * outcome unit :=
      match rows with
      | [] => (os, [], Ok tt)
      | row :: r =>
          match func os row with
          | (os1, Ok y) => let '(os2, ys, o) := calls_alone os1 r in (os2, y :: ys, o)
          | (os1, o) => (os1, [], do _ <- o; Ok tt)
          end
      end.
    (** The functor returns what its return type says, and references to objects that exist. *)
    Definition returns_properly : Prop :=
      forall os row os' y r, func os row = (os', Ok y) -> returns (row_types row) = Some r ->
        match r with
        | RVoid => y = Nothing
        | RVal _ => exists v, y = Value v
        | RLRef _ _ | RRRef _ _ => exists l, y = Ref l /\ l < length os'
        end.
  End Functor.
  (** Return types of functors whose results are not moved from. *)
  Definition not_moved (r : rty) : Prop := forall T, r = RRRef false T -> move_of T <> Moves.
  Definition copies_of (ys : list (result V)) : list event :=
    flat_map (fun y => match y with Ref l => [Copied l] | _ => [] end) ys.

  (** * Reduction *)
  Section Reducer.
    Variable returns : list (element (ety * category)) -> option rty.
    Variable func : list V -> list (element xarg) -> list V * outcome (result V).
    Variable red_returns : nat * category -> nat -> option rty.
    Variable red : list V -> acc V -> V -> list V * outcome (result V).

    (** How an accumulator is passed: a temporary is an rvalue. *)
    Definition passed_as (a : acc V) : nat * category := match a with AObj T c _ => (T, c) | ATemp T _ => (T, Xvalue false) end.
    (** What the next call gets: a temporary with the value returned, or a reference to the object referred to. *)
    Inductive becomes : rty -> result V -> acc V -> Prop :=
    | becomes_temporary : forall T v, becomes (RVal T) (Value v) (ATemp T v)
    | becomes_lvalue : forall c T l, becomes (RLRef c T) (Ref l) (AObj T (Lvalue c) l)
    | becomes_xvalue : forall c T l, becomes (RRRef c T) (Ref l) (AObj T (Xvalue c) l).
    Inductive reduces : store V -> acc V -> list (list (element xarg)) -> store V -> acc V -> Prop :=
    | reduces_nil : forall st a, reduces st a [] st a
    | reduces_cons : forall st a row T v st1 t os y a1 rows st2 a2,
        evaluates returns func st [row] [Some (T, v)] st1 ->
        red_returns (passed_as a) T = Some t -> red (objs st1) a v = (os, Ok y) -> becomes t y a1 ->
        reduces (mk_store os (log st1)) a1 rows st2 a2 -> reduces st a (row :: rows) st2 a2.
    (** The value returned to the caller. *)
    Inductive delivers : acc V -> store V -> store V -> nat * V -> Prop :=
    | delivers_temporary : forall T v st, delivers (ATemp T v) st st (T, v)
    | delivers_object : forall T c l st st' x, yields (match c with Lvalue k => RLRef k T | Xvalue k => RRRef k T end) (Ref l) st st' (Some x) ->
        delivers (AObj T c l) st st' x.

    (** Which reductions compile: every call of the transformer and the reducer does, none returns void, and the last result can be
        returned by value. *)
    Inductive types_reduce : nat * category -> list (list (element xarg)) -> nat * category -> Prop :=
    | types_nil : forall a, types_reduce a [] a
    | types_cons : forall a row r T t a1 rows a2, returns (row_types row) = Some r -> returnable r ->
        (r = RVal T \/ (exists c, r = RLRef c T) \/ (exists c, r = RRRef c T)) ->
        red_returns a T = Some t ->
        (exists U, (t = RVal U /\ a1 = (U, Xvalue false)) \/ (exists c, t = RLRef c U /\ a1 = (U, Lvalue c)) \/ (exists c, t = RRRef c U /\ a1 = (U, Xvalue c))) ->
        types_reduce a1 rows a2 -> types_reduce a (row :: rows) a2.
    Definition returned_by_value (a : nat * category) : Prop :=
      match snd a with Xvalue false => movable (fst a) | _ => copyable (fst a) = true end.
  End Reducer.
End Spec.
