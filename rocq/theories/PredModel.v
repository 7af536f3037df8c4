(** Model of how the algorithms over tuples and ranges use the results of predicates that are not plainly bool: tuple.hpp:270-319,
    detail/tuple.hpp:165-181, detail/tuple-transform.hpp:70-75, detail/zip.hpp:24-30, algorithm.hpp:214-304 and
    detail/algorithm.hpp:257-261.

    Which elements the predicates are called with, and in which order, is taken from TupleModel and ZipModel.  Predicates read and
    change the state of the program; the conversions, negations and copies of their results may fail but change nothing. *)

From Coq Require Import ZArith Arith Bool List.
From Verif Require Import Base ForwardModel TupleModel ZipModel.
Import ListNotations.

(** * Types of results *)
(** How an expression converts to bool: not at all, only where bool is expected ("explicit operator bool"), or anywhere.
    For the conditions of detail/tuple.hpp:173, algorithm.hpp:226, 251, 276, 301 and the parameter of detail/zip.hpp:26. *)
Inductive conversion (V : Type) := NoConversion | Explicit (f : V -> outcome bool) | Implicit (f : V -> outcome bool).
Arguments NoConversion {V}. Arguments Explicit {V}. Arguments Implicit {V}.

(** The type of a result; each of the operations may depend on the value category and constness of the expression.
    [r_conv]: the conversion to bool; [r_not]: an "operator !" of its own, and how its result converts to bool; the functions take
    the operand of the operator; [r_copy]: the copy or move constructor, unless deleted.
    For the results of "func" in detail/tuple-transform.hpp:74 and detail/algorithm.hpp:260. *)
Record rclass (V : Type) := mk_rclass {
  r_conv : cat -> conversion V;
  r_not : cat -> option (conversion V);
  r_copy : cat -> option (V -> outcome V) }.
Arguments mk_rclass {V}. Arguments r_conv {V}. Arguments r_not {V}. Arguments r_copy {V}.

(** The return type of the predicate: void, an object, or a reference.  detail/tuple-transform.hpp:74, detail/algorithm.hpp:260. *)
Inductive rtype (V : Type) := RVoid | RVal (k : rclass V) | RRef (c : cat) (k : rclass V).
Arguments RVoid {V}. Arguments RVal {V}. Arguments RRef {V}.

Section Use.
  Context {V : Type}.

  (** "if (x)": the language's contextual conversion to bool ([conv.general]/4); algorithm.hpp:226, 276, 301. *)
  Definition contextually (q : conversion V) : option (V -> outcome bool) :=
    match q with NoConversion => None | Explicit f | Implicit f => Some f end.
  (** Initialisation of a parameter of type bool: the language's implicit conversion ([over.match.conv]/1); detail/zip.hpp:26. *)
  Definition implicitly (q : conversion V) : option (V -> outcome bool) :=
    match q with Implicit f => Some f | NoConversion | Explicit _ => None end.
  (** "if (!x)": the operator of the class if there is one that can be called, otherwise the built-in operator ([over.match.oper]/4);
      detail/tuple.hpp:173, algorithm.hpp:251. *)
  Definition negated (k : rclass V) (c : cat) : option (V -> outcome bool) :=
    match r_not k c with
    | Some q => contextually q
    | None => option_map (fun f v => do b <- f v; Ok (negb b)) (contextually (r_conv k c))
    end.

  (** ** Ranges: apply() returns what the predicate returns, detail/algorithm.hpp:257-261. *)
  (** "if (it.apply(predicate))": algorithm.hpp:226, 276, 301. *)
  Definition condition (R : rtype V) : option (V -> outcome bool) :=
    match R with RVoid => None | RVal k => contextually (r_conv k Rv) | RRef c k => contextually (r_conv k c) end.
  (** "if (!it.apply(predicate))": algorithm.hpp:251. *)
  Definition not_condition (R : rtype V) : option (V -> outcome bool) :=
    match R with RVoid => None | RVal k => negated k Rv | RRef c k => negated k c end.

  (** ** Tuples *)
  (** The object returned by transform_element(), whose return type is "auto": a reference is copied or moved from, an object is
      not.  detail/tuple-transform.hpp:70-75. *)
  Definition transform_element_result (R : rtype V) : option (rclass V * (V -> outcome V)) :=
    match R with
    | RVoid => None
    | RVal k => Some (k, fun v => Ok v)
    | RRef c k => match r_copy k c with Some f => Some (k, f) | None => None end
    end.
  (** "!PredFuncT{ }(transform_element(...))": detail/tuple.hpp:173.  gsl::identity (tuple.hpp:276) returns its argument as T&&;
      negation_fn (tuple.hpp:296, 316) has a parameter of type bool and returns its negation, detail/zip.hpp:24-30. *)
  Definition conjunction_condition (neg : bool) (R : rtype V) : option (V -> outcome bool) :=
    match transform_element_result R with
    | None => None
    | Some (k, copy) =>
        if neg then option_map (fun f v => do x <- copy v; do cond <- f x; let r := negb cond in Ok (negb r)) (implicitly (r_conv k Rv))
        else option_map (fun f v => do x <- copy v; f x) (negated k Rv)
    end.
End Use.

Section Tuples.
  Context {S E V : Type}.
  (** The predicate: its return type for arguments of given types, and the call.  PredicateT in tuple.hpp:270-319. *)
  Variable returns : list (element nat) -> option (rtype V).
  Variable func : S -> list (element (nat * E)) -> S * outcome V.

  (** The types of the arguments of a call: detail/tuple-transform.hpp:74. *)
  Definition row_types (row : list (element (nat * E))) : list (element nat) :=
    map (fun e => match e with Elem x => Elem (fst x) | Index i => Index i | IndexConstant i => IndexConstant i end) row.
  (** The condition for a call: detail/tuple.hpp:173. *)
  Definition row_condition (neg : bool) (row : list (element (nat * E))) : option (V -> outcome bool) :=
    match returns (row_types row) with Some R => conjunction_condition neg R | None => None end.
  (** A call and the condition.  The predicate for TupleModel is what PredFuncT makes of the result, or, if PredFuncT negates, what
      it is passed.  detail/tuple.hpp:173. *)
  Definition call (neg : bool) (s : S) (row : list (element (nat * E))) : S * outcome bool :=
    match row_condition neg row with
    | Some stops => let '(s', o) := func s row in (s', do v <- o; do b <- stops v; Ok (if neg then b else negb b))
    | None => (s, IllFormed)
    end.
  (** The calls, all of which the compiler sees: detail/tuple.hpp:170-175. *)
  Definition all_rows (args : list (arg (nat * E))) : outcome (list (list (element (nat * E)))) :=
    do n <- tuple_transform_size (-1) args; mapM (fun i => get_elements i args) (seq 0 n).
  (** Whether they all compile: detail/tuple.hpp:170-175. *)
  Definition compiles (neg : bool) (args : list (arg (nat * E))) : bool :=
    match all_rows args with
    | Ok rows => forallb (fun row => match row_condition neg row with Some _ => true | None => false end) rows
    | _ => false
    end.

  (** template_all_of(): tuple.hpp:270-279. *)
  Definition template_all_of (args : list (arg (nat * E))) (s : S) : S * outcome bool :=
    if compiles false args then TupleModel.template_all_of (call false) args s else (s, IllFormed).
  (** template_any_of(): tuple.hpp:290-299. *)
  Definition template_any_of (args : list (arg (nat * E))) (s : S) : S * outcome bool :=
    if compiles true args then TupleModel.template_any_of (call true) args s else (s, IllFormed).
  (** template_none_of(): tuple.hpp:310-319. *)
  Definition template_none_of (args : list (arg (nat * E))) (s : S) : S * outcome bool :=
    if compiles true args then TupleModel.template_none_of (call true) args s else (s, IllFormed).
End Tuples.

Section Ranges.
  Context {S V : Type}.
  (** The predicate: its return type, if it can be called with the elements, and the call.  PredicateT in algorithm.hpp:214-304. *)
  Variable returns : option (rtype V).
  Variable func : S -> list ref -> S * outcome V.

  (** A call and the condition: algorithm.hpp:226, 276, 301. *)
  Definition call_if (f : V -> outcome bool) (s : S) (args : list ref) : S * outcome bool :=
    let '(s', o) := func s args in (s', do v <- o; f v).
  (** Likewise with "!": algorithm.hpp:251. *)
  Definition call_if_not (f : V -> outcome bool) (s : S) (args : list ref) : S * outcome bool :=
    let '(s', o) := func s args in (s', do v <- o; do b <- f v; Ok (negb b)).
  (** The condition, if it compiles; whether it does depends on neither the number of elements nor their values:
      algorithm.hpp:226, 251, 276, 301. *)
  Definition with_condition {A : Type} (c : rtype V -> option (V -> outcome bool)) (k : (V -> outcome bool) -> S -> S * outcome A)
      (s : S) : S * outcome A :=
    match returns with
    | Some R => match c R with Some f => k f s | None => (s, IllFormed) end
    | None => (s, IllFormed)
    end.

  (** range_count_if(): algorithm.hpp:214-229. *)
  Definition range_count_if (rs : list rng) : S -> S * outcome Z :=
    with_condition condition (fun f => ZipModel.range_count_if (call_if f) rs).
  (** range_all_of(): algorithm.hpp:240-254. *)
  Definition range_all_of (rs : list rng) : S -> S * outcome bool :=
    with_condition not_condition (fun f => ZipModel.range_all_of (call_if_not f) rs).
  (** range_any_of(): algorithm.hpp:265-279. *)
  Definition range_any_of (rs : list rng) : S -> S * outcome bool :=
    with_condition condition (fun f => ZipModel.range_any_of (call_if f) rs).
  (** range_none_of(): algorithm.hpp:290-304. *)
  Definition range_none_of (rs : list rng) : S -> S * outcome bool :=
    with_condition condition (fun f => ZipModel.range_none_of (call_if f) rs).
End Ranges.
