(** Element types of result tuples, tuples of references, and results returned by reference: tuple_cat(), tuple_transform(),
    template_for(), template_reduce(), template_transform_reduce(): /repo/include/makeshift/tuple.hpp:116-259, 338-363,
    detail/tuple.hpp:129-164, 260-273, detail/tuple-transform.hpp:62-92.

    TupleModel.v says which calls are made, and in which order; here, elements have declared types and are objects in a store or
    references to such objects.  The tuples are std::tuple<>, whose get<>() and constructors are the standard library's.  Copy and move
    constructors do not throw.  Arrays and functions, which decay to pointers, are left out. *)

From Coq Require Import ZArith Arith Bool List.
From Verif Require Import Base TupleModel.
Import ListNotations.

(** Declared types of elements: objects, const or not, and references; [T] identifies the object type.
    The types named in detail/tuple.hpp:263-265. *)
Inductive ety := EVal (const : bool) (T : nat) | ELRef (const : bool) (T : nat) | ERRef (const : bool) (T : nat).
(** Expressions: lvalues and xvalues, const or not.  The types of the expressions in detail/tuple.hpp:265, detail/tuple-transform.hpp:66, 74. *)
Inductive category := Lvalue (const : bool) | Xvalue (const : bool).

(** How an rvalue initializes another object: by moving, by copying as no move constructor is declared, or not at all.
    The move constructors called in detail/tuple.hpp:141, 162, 265. *)
Inductive move_kind := Moves | CopiesInstead | MoveDeleted.

(** What std::get<I>() gives for an element of a tuple that is an lvalue or rvalue, const or not (the standard library's): references
    collapse, and const does not reach through references.  Called in detail/tuple.hpp:265, detail/tuple-transform.hpp:66. *)
Definition get_category (e : ety) (lvalue const : bool) : category :=
  match e with
  | EVal c _ => if lvalue then Lvalue (c || const) else Xvalue (c || const)
  | ELRef c _ => Lvalue c
  | ERRef c _ => if lvalue then Lvalue c else Xvalue c
  end.

(** Return types of functors, and what they return: a value, or a reference to an object.
    The type of the calls in detail/tuple-transform.hpp:74, detail/tuple.hpp:156. *)
Inductive rty := RVoid | RVal (T : nat) | RLRef (const : bool) (T : nat) | RRRef (const : bool) (T : nat).
(** What the call in detail/tuple-transform.hpp:74 or detail/tuple.hpp:156 returns. *)
Inductive result (V : Type) := Nothing | Value (v : V) | Ref (l : nat).
Arguments Nothing {V}. Arguments Value {V}. Arguments Ref {V}.

(** Copies and moves made by the library from objects that are not temporaries.  In detail/tuple.hpp:141, 162, 265, detail/tuple-transform.hpp:74. *)
Inductive event := Copied (l : nat) | Moved (l : nat).

(** An element of a result tuple: an object of its own, or a reference.  The elements of detail/tuple.hpp:141, 265. *)
Inductive slot (V : Type) := Own (v : V) | Refers (l : nat).
Arguments Own {V}. Arguments Refers {V}.

Section Store.
  Context {V : Type}.
  (** Copy and move constructors of the object types; what is left of an object that is moved from. *)
  Variable copyable : nat -> bool.
  Variable move_of : nat -> move_kind.
  Variable left_over : nat -> V -> V.

  (** Objects by location, and what the library has copied and moved.  Not in the code: the state in which detail/tuple.hpp:129-164, 260-273 runs. *)
  Record store := mk_store { objs : list V; log : list event }.

  (** Whether an object of type [T] can be constructed from an expression of that type, and the construction.
      The language's; for detail/tuple.hpp:141, 162, 265, detail/tuple-transform.hpp:74. *)
  Definition constructible (T : nat) (c : category) : bool :=
    match c with
    | Xvalue false => match move_of T with Moves => true | CopiesInstead => copyable T | MoveDeleted => false end
    | _ => copyable T
    end.
  (** Whether that construction moves: detail/tuple.hpp:141, 162, 265, detail/tuple-transform.hpp:74. *)
  Definition moves (T : nat) (c : category) : bool :=
    match c, move_of T with Xvalue false, Moves => true | _, _ => false end.
  (** The construction: detail/tuple.hpp:162, 265, detail/tuple-transform.hpp:74. *)
  Definition construct (T : nat) (c : category) (l : nat) (st : store) : store * outcome V :=
    match nth_error (objs st) l with
    | Some v =>
        if moves T c then (mk_store (upd (objs st) l (left_over T v)) (log st ++ [Moved l]), Ok v)
        else (mk_store (objs st) (log st ++ [Copied l]), Ok v)
    | None => (st, UB)
    end.

  (** ** Concatenation *)
  (** A tuple argument: element types and where the elements, or what they refer to, are; and how it is passed.
      The arguments of tuple.hpp:118, 156, 231, 340. *)
  Record targ := mk_targ { t_elems : list (ety * nat); t_lvalue : bool; t_const : bool }.

  (** The elements of an argument as expressions: get<col>(get<row>(std::move(tupleOfTuples))) (detail/tuple.hpp:265), where
      tupleOfTuples is a tuple of references to the arguments, and get_element<I>() (detail/tuple-transform.hpp:62-67). *)
  Definition xarg := (ety * category * nat)%type.
  (** All elements: detail/tuple.hpp:265, detail/tuple-transform.hpp:66. *)
  Definition expressions (a : targ) : list xarg :=
    map (fun e => (fst e, get_category (fst e) (t_lvalue a) (t_const a), snd e)) (t_elems a).

  (** Initialization of an element of declared type [e] with an expression of category [c].  The language's; for detail/tuple.hpp:265. *)
  Definition init_ok (e : ety) (c : category) : bool :=
    match e, c with
    | EVal _ T, _ => constructible T c
    | ELRef k _, Lvalue c => k || negb c
    | ELRef k _, Xvalue _ => k
    | ERRef k _, Xvalue c => k || negb c
    | ERRef _ _, Lvalue _ => false
    end.
  (** The initialization itself: detail/tuple.hpp:265. *)
  Definition init_element (x : xarg) (st : store) : store * outcome (ety * slot V) :=
    let '(e, c, l) := x in
    match e with
    | EVal _ T => let '(st', o) := construct T c l st in (st', do v <- o; Ok (e, Own v))
    | _ => (st, Ok (e, Refers l))
    end.
  (** The constructor of std::tuple<>; the order in which it initializes the elements is unspecified.  Called in detail/tuple.hpp:265. *)
  Fixpoint init_in (order : list nat) (xs : list xarg) (st : store) (elems : nat -> option (ety * slot V))
      : store * outcome (nat -> option (ety * slot V)) :=
    match order with
    | [] => (st, Ok elems)
    | i :: r =>
        match nth_error xs i with
        | Some x =>
            match init_element x st with
            | (st1, Ok e) => init_in r xs st1 (fun j => if Nat.eqb j i then Some e else elems j)
            | (st1, o) => (st1, do _ <- o; Ok elems)
            end
        | None => (st, UB)
        end
    end.

  (** tuple_cat(): tuple.hpp:338-345, tuple_cat_impl(), tuple_cat_impl_1(): detail/tuple.hpp:260-273: the element types are those of the
      arguments without const and reference (std::tuple_element_t<>). *)
  Definition tuple_cat (order : list nat) (args : list targ) (st : store) : store * outcome (list (ety * slot V)) :=
    match TupleModel.tuple_cat (map expressions args) with
    | Ok xs =>
        if forallb (fun x => init_ok (fst (fst x)) (snd (fst x))) xs then
          let '(st', o) := init_in order xs st (fun _ => None) in
          (st', do elems <- o; mapM (fun i => match elems i with Some e => Ok e | None => UB end) (seq 0 (length xs)))
        else (st, IllFormed)
    | _ => (st, IllFormed)
    end.

  (** ** Functors *)
  (** Arguments of algorithms: tuples and indices.  tuple.hpp:118, 156, 231. *)
  Inductive farg := FTuple (a : targ) | FRangeIndex | FTupleIndex.
  (** The argument as TupleModel.v takes it, detail/tuple-transform.hpp:35-46. *)
  Definition arg_of (a : farg) : arg xarg :=
    match a with FTuple a => ATuple (expressions a) | FRangeIndex => ARangeIndex | FTupleIndex => ATupleIndex end.
  (** The types of a row, on which the return type of the functor depends: detail/tuple-transform.hpp:74. *)
  Definition type_of (e : element xarg) : element (ety * category) :=
    match e with Elem x => Elem (fst x) | Index _ => Index 0 | IndexConstant i => IndexConstant i end.
  (** detail/tuple-transform.hpp:74. *)
  Definition row_types (row : list (element xarg)) : list (element (ety * category)) := map type_of row.

  (** "return ..." with return type "auto" (detail/tuple-transform.hpp:70-75, detail/tuple.hpp:152, 160): a value is the result, no copy
      is made; what is returned by reference is copied or moved from. *)
  Definition return_ok (r : rty) : bool :=
    match r with
    | RVoid | RVal _ => true
    | RLRef c T => constructible T (Lvalue c)
    | RRRef c T => constructible T (Xvalue c)
    end.
  (** The copy or move itself: detail/tuple-transform.hpp:74, detail/tuple.hpp:155, 162. *)
  Definition return_auto (r : rty) (x : result V) (st : store) : store * outcome (option V) :=
    match r, x with
    | RVoid, Nothing => (st, Ok None)
    | RVal _, Value v => (st, Ok (Some v))
    | RLRef c T, Ref l => let '(st', o) := construct T (Lvalue c) l st in (st', do v <- o; Ok (Some v))
    | RRRef c T, Ref l => let '(st', o) := construct T (Xvalue c) l st in (st', do v <- o; Ok (Some v))
    | _, _ => (st, IllFormed)
    end.
  (** The type of the returned object; [None] for void.  The "auto" of detail/tuple-transform.hpp:71. *)
  Definition decayed (r : rty) : option nat :=
    match r with RVoid => None | RVal T | RLRef _ T | RRRef _ T => Some T end.

  Section Functor.
    (** The functor: its return type ([None]: it cannot be called), and its behaviour. *)
    Variable returns : list (element (ety * category)) -> option rty.
    Variable func : list V -> list (element xarg) -> list V * outcome (result V).

    (** transform_element(): detail/tuple-transform.hpp:70-75. *)
    Definition call (st : store) (row : list (element xarg)) : store * outcome (option V) :=
      match returns (row_types row) with
      | Some r =>
          match func (objs st) row with
          | (os, Ok x) => return_auto r x (mk_store os (log st))
          | (os, o) => (mk_store os (log st), do _ <- o; Ok None)
          end
      | None => (st, IllFormed)
      end.
    (** Whether it compiles, and the type of the result.  detail/tuple-transform.hpp:70-75. *)
    Definition call_ok (row : list (element xarg)) : bool :=
      match returns (row_types row) with Some r => return_ok r | None => false end.
    (** The type of transform_element(): detail/tuple-transform.hpp:70-75. *)
    Definition call_type (row : list (element xarg)) : option nat :=
      match returns (row_types row) with Some r => decayed r | None => None end.

    (** The rows, all of which the compiler sees: detail/tuple-transform.hpp:90-92, detail/tuple.hpp:140. *)
    Definition all_rows (N : Z) (args : list farg) : outcome (list (list (element xarg))) :=
      do n <- tuple_transform_size N (map arg_of args);
      mapM (fun i => get_elements i (map arg_of args)) (seq 0 n).

    (** template_for(), template_for<N>(): tuple.hpp:116-142; the results are discarded. *)
    Definition template_for (N : Z) (args : list farg) (st : store) : store * outcome unit :=
      match all_rows N args with
      | Ok rows => if forallb call_ok rows then TupleModel.template_for N call (map arg_of args) st else (st, IllFormed)
      | _ => (st, IllFormed)
      end.

    (** tuple_transform(), tuple_transform<N>(): tuple.hpp:154-216, tuple_transform_impl(): detail/tuple.hpp:129-142: the element types
        are the decayed types of the calls, which cannot be void, and the elements are constructed from the results, which are
        temporaries. *)
    Definition transform_ok (row : list (element xarg)) : bool :=
      call_ok row && match call_type row with Some T => constructible T (Xvalue false) | None => false end.
    (** An element of the result: detail/tuple.hpp:140-141. *)
    Definition element_of (p : list (element xarg) * option V) : outcome (ety * slot V) :=
      match call_type (fst p), snd p with Some T, Some v => Ok (EVal false T, Own v) | _, _ => IllFormed end.
    (** tuple.hpp:154-216, detail/tuple.hpp:129-142. *)
    Definition tuple_transform (order : list nat) (N : Z) (args : list farg) (st : store) : store * outcome (list (ety * slot V)) :=
      match all_rows N args with
      | Ok rows =>
          if forallb transform_ok rows then
            let '(st', o) := TupleModel.tuple_transform order N call (map arg_of args) st in
            (st', do vs <- o; mapM element_of (combine rows vs))
          else (st, IllFormed)
      | _ => (st, IllFormed)
      end.
  End Functor.

  (** ** Reduction *)
  (** The accumulator as an expression: an object, or a temporary with the result of the last call.
      The parameter "V&& value" of detail/tuple.hpp:152, 160. *)
  Inductive acc := AObj (T : nat) (c : category) (l : nat) | ATemp (T : nat) (v : V).
  (** The type V of detail/tuple.hpp:152, 160. *)
  Definition acc_type (a : acc) : nat * category :=
    match a with AObj T c _ => (T, c) | ATemp T _ => (T, Xvalue false) end.

  Section Reducer.
    (** The transformer. *)
    Variable returns : list (element (ety * category)) -> option rty.
    Variable func : list V -> list (element xarg) -> list V * outcome (result V).
    (** The reducer: called with the accumulator and a temporary. *)
    Variable red_returns : nat * category -> nat -> option rty.
    Variable red : list V -> acc -> V -> list V * outcome (result V).

    (** The type of the next accumulator; detail/tuple.hpp:151-158: the result of the reducer is passed on as V&&, references stay
        references, and the result cannot be void. *)
    Definition passed_on (r : rty) : option (nat * category) :=
      match r with
      | RVoid => None
      | RVal T => Some (T, Xvalue false)
      | RLRef c T => Some (T, Lvalue c)
      | RRRef c T => Some (T, Xvalue c)
      end.
    (** The types V of all steps: detail/tuple.hpp:151-163. *)
    Fixpoint acc_types (rows : list (list (element xarg))) (a : nat * category) : option (nat * category) :=
      match rows with
      | [] => Some a
      | row :: r =>
          match call_type returns row with
          | Some T =>
              match red_returns a T with
              | Some t => match passed_on t with Some a' => acc_types r a' | None => None end
              | None => None
              end
          | None => None
          end
      end.

    (** One step: detail/tuple.hpp:151-158. *)
    Definition reduce_step (st : store) (a : acc) (x : nat * V) : store * outcome acc :=
      match red_returns (acc_type a) (fst x) with
      | Some t =>
          match red (objs st) a (snd x) with
          | (os, Ok y) =>
              (mk_store os (log st),
               match t, y with
               | RVal T, Value v => Ok (ATemp T v)
               | RLRef c T, Ref l => Ok (AObj T (Lvalue c) l)
               | RRRef c T, Ref l => Ok (AObj T (Xvalue c) l)
               | _, _ => IllFormed
               end)
          | (os, o) => (mk_store os (log st), do _ <- o; Ok a)
          end
      | None => (st, IllFormed)
      end.
    (** The call of transform_element() in detail/tuple.hpp:156. *)
    Definition call_typed (st : store) (row : list (element xarg)) : store * outcome (nat * V) :=
      let '(st', o) := call returns func st row in
      (st', do v <- o; match call_type returns row, v with Some T, Some v => Ok (T, v) | _, _ => IllFormed end).

    (** template_transform_reduce(): tuple.hpp:229-238, transform_reduce_fn<>: detail/tuple.hpp:145-164; the last accumulator is
        returned with "return std::forward<V>(value)" and return type "auto". *)
    Definition return_acc (a : acc) (st : store) : store * outcome (nat * V) :=
      match a with
      | AObj T c l => let '(st', o) := construct T c l st in (st', do v <- o; Ok (T, v))
      | ATemp T v => (st, Ok (T, v))
      end.
    (** tuple.hpp:229-238, detail/tuple.hpp:145-164. *)
    Definition template_transform_reduce (init : acc) (args : list farg) (st : store) : store * outcome (nat * V) :=
      match all_rows (-1) args with
      | Ok rows =>
          if forallb (call_ok returns) rows &&
             match acc_types rows (acc_type init) with Some (T, c) => constructible T c | None => false end
          then
            match TupleModel.template_transform_reduce init reduce_step call_typed (map arg_of args) st with
            | (st', Ok a) => return_acc a st'
            | (st', o) => (st', do _ <- o; UB)
            end
          else (st, IllFormed)
      | _ => (st, IllFormed)
      end.
  End Reducer.

  (** gsl::identity: returns its argument, which is a reference, as T&&.  Used in tuple.hpp:256. *)
  Definition identity_returns (row : list (element (ety * category))) : option rty :=
    match row with
    | [Elem (e, c)] =>
        let T := match e with EVal _ T | ELRef _ T | ERRef _ T => T end in
        Some (match c with Lvalue k => RLRef k T | Xvalue k => RRRef k T end)
    | _ => None
    end.
  (** The call: tuple.hpp:256. *)
  Definition identity (os : list V) (row : list (element xarg)) : list V * outcome (result V) :=
    match row with [Elem x] => (os, Ok (Ref (snd x))) | _ => (os, IllFormed) end.
  (** template_reduce(): tuple.hpp:250-259. *)
  Definition template_reduce (red_returns : nat * category -> nat -> option rty)
      (red : list V -> acc -> V -> list V * outcome (result V)) (init : acc) (a : targ) (st : store) : store * outcome (nat * V) :=
    template_transform_reduce identity_returns identity red_returns red init [FTuple a] st.
End Store.
Arguments store V : clear implicits.
Arguments acc V : clear implicits.
