(** Model of how the algorithms over tuples, arrays and ranges hold and call the functors passed to them: tuple.hpp:116-319,
    detail/tuple.hpp:129-181, detail/tuple-transform.hpp:70-92, array.hpp:43-177, detail/array.hpp:35-109, algorithm.hpp:90-304 and
    detail/algorithm.hpp:257-261.

    What the algorithms compute with the functors is taken from TupleModel and ZipModel.  The call operators of a functor class
    all have the same parameters and may differ in const and in the ref-qualifier.  Functors read and change the state of their
    own object only.  Conversions of results and the value categories of the arguments are not modelled here. *)

From Coq Require Import ZArith Arith Bool List.
From Verif Require Import Base ForwardModel TupleModel ZipModel.
Import ListNotations.

(** * Functor classes.  Ref-qualifiers of call operators; the functors passed to tuple.hpp:116-319 and algorithm.hpp:90-304 are the caller's. *)
Inductive refq := NoRef | Amp | AmpAmp.
(** Whether two are the same; for the calls in detail/tuple-transform.hpp:74 and detail/algorithm.hpp:260. *)
Definition refq_eqb (a b : refq) : bool :=
  match a, b with NoRef, NoRef | Amp, Amp | AmpAmp, AmpAmp => true | _, _ => false end.

(** How an rvalue initialises another object: by the move constructor, which leaves something behind, by the copy constructor if
    no move constructor is declared, or not at all if the move constructor is deleted.
    Used where functors become members: tuple.hpp:235-236, 257, 277, 297, 317. *)
Inductive move_ctor (St : Type) := Moves (f : St -> St * St) | NoMoveDeclared | MoveDeleted.
Arguments Moves {St}. Arguments NoMoveDeclared {St}. Arguments MoveDeleted {St}.

(** A call operator, and a class with such operators, a copy constructor unless deleted, and a move constructor.
    Called in detail/tuple-transform.hpp:74, detail/tuple.hpp:156, detail/algorithm.hpp:260. *)
Record operator (St A R : Type) := mk_operator { q_const : bool; q_ref : refq; q_body : St -> A -> St * outcome R }.
Arguments mk_operator {St A R}. Arguments q_const {St A R}. Arguments q_ref {St A R}. Arguments q_body {St A R}.
(** The types F, PredicateT, ReduceFuncT, TransformFuncT of tuple.hpp:116-319 and algorithm.hpp:90-304. *)
Record class (St A R : Type) := mk_class { c_ops : list (operator St A R); c_copy : option (St -> St); c_move : move_ctor St }.
Arguments mk_class {St A R}. Arguments c_ops {St A R}. Arguments c_copy {St A R}. Arguments c_move {St A R}.

(** Value categories of the functor arguments of tuple.hpp:116-319: whether const. *)
Definition is_const (c : cat) : bool := match c with CLv | CRv => true | Lv | Rv => false end.
(** Likewise for tuple.hpp:116-319: whether an rvalue. *)
Definition is_rvalue (c : cat) : bool := match c with Rv | CRv => true | Lv | CLv => false end.
(** The name of a variable or parameter of type "F&&" or "F const&" is an lvalue.
    So with "func" in detail/tuple-transform.hpp:74 and detail/algorithm.hpp:260, "generate" in algorithm.hpp:143. *)
Definition named (c : cat) : cat := if is_const c then CLv else Lv.

Section Call.
  Context {St A R : Type}.
  Local Notation operator := (operator St A R).
  Local Notation class := (class St A R).

  (** Overload resolution over the implicit object parameter (the language's: [over.match.funcs]/4-5, [over.ics.rank]/3.2).
      For the calls in detail/tuple-transform.hpp:74, detail/tuple.hpp:156, detail/algorithm.hpp:260. *)
  Definition viable (c : cat) (o : operator) : bool :=
    (q_const o || negb (is_const c)) &&
    match q_ref o with
    | NoRef => true
    | Amp => negb (is_rvalue c) || q_const o
    | AmpAmp => is_rvalue c
    end.
  (** Whether two operators are qualified alike; for the same calls, detail/tuple-transform.hpp:74, detail/algorithm.hpp:260. *)
  Definition same_qualifiers (o o' : operator) : bool := Bool.eqb (q_const o) (q_const o') && refq_eqb (q_ref o) (q_ref o').
  (** Which of two viable operators is better; the language's, for the calls in detail/tuple-transform.hpp:74, detail/algorithm.hpp:260. *)
  Definition better (c : cat) (o o' : operator) : bool :=
    match q_ref o, q_ref o' with
    | AmpAmp, Amp => true
    | Amp, AmpAmp => false
    | _, _ => negb (q_const o) && q_const o'
    end.
  (** The best viable operator; the language's, for the calls in detail/tuple-transform.hpp:74, detail/algorithm.hpp:260. *)
  Definition resolve (c : cat) (l : list operator) : option operator :=
    match filter (fun o => viable c o && forallb (fun o' => same_qualifiers o o' || negb (viable c o') || better c o o') l) l with
    | [o] => Some o
    | _ => None
    end.
  (** The call operator for an object expression of category [c], as a function that is ill-formed if there is none.
      detail/tuple-transform.hpp:74, detail/tuple.hpp:156, detail/algorithm.hpp:260. *)
  Definition call_as (k : class) (c : cat) : St -> A -> St * outcome R :=
    match resolve c (c_ops k) with Some o => q_body o | None => fun s _ => (s, IllFormed) end.
  (** Whether there is one: detail/tuple-transform.hpp:74, detail/array.hpp:35, 56, detail/algorithm.hpp:260. *)
  Definition callable (k : class) (c : cat) : bool := match resolve c (c_ops k) with Some _ => true | None => false end.
End Call.

(** * Objects: those of the caller, and the functor members of an algorithm's function object.
    The members are those of detail/tuple.hpp:148-149, 168. *)
Inductive place := Caller (n : nat) | ReduceMember | TransformMember.
(** Whether two places are the same; for the members of detail/tuple.hpp:148-149, 168. *)
Definition place_eqb (a b : place) : bool :=
  match a, b with
  | Caller n, Caller m => Nat.eqb n m
  | ReduceMember, ReduceMember | TransformMember, TransformMember => true
  | _, _ => false
  end.
(** The state of every object, the caller's and detail/tuple.hpp:148-149, 168. *)
Definition memory (St : Type) := place -> St.
(** Writing to an object, as a call in detail/tuple-transform.hpp:74 may do. *)
Definition store {St : Type} (m : memory St) (p : place) (s : St) : memory St := fun q => if place_eqb q p then s else m q.

(** A functor argument: class, value category of the argument, and the caller's object.
    The functor arguments of tuple.hpp:118, 231, 272, algorithm.hpp:92, 166. *)
Record farg (St A R : Type) := mk_farg { f_class : class St A R; f_cat : cat; f_obj : nat }.
Arguments mk_farg {St A R}. Arguments f_class {St A R}. Arguments f_cat {St A R}. Arguments f_obj {St A R}.

Section Use.
  Context {St A R : Type}.

  (** A call of the object in [p] as an expression of category [c].  detail/tuple-transform.hpp:74, detail/tuple.hpp:156, detail/algorithm.hpp:260. *)
  Definition call_at (k : class St A R) (c : cat) (p : place) (m : memory St) (a : A) : memory St * outcome R :=
    let '(s, o) := call_as k c (m p) a in (store m p s, o).

  (** A parameter "F&& func" called by its name: template_for_impl(), tuple_transform_impl(), array_transform_impl() and
      transform_element() (detail/tuple-transform.hpp:70-92, detail/tuple.hpp:135-142, detail/array.hpp:89-109), "it.apply(func)"
      and "reduce(...)" (algorithm.hpp:90-304, detail/algorithm.hpp:257-261). *)
  Definition call_param (f : farg St A R) : memory St -> A -> memory St * outcome R :=
    call_at (f_class f) (named (f_cat f)) (Caller (f_obj f)).
  (** Whether such a call compiles.  detail/tuple-transform.hpp:74, detail/algorithm.hpp:260. *)
  Definition param_callable (f : farg St A R) : bool := callable (f_class f) (named (f_cat f)).

  (** A data member declared with the deduced type of a forwarding reference and initialised with std::forward<>():
      transform_reduce_fn<>, conjunction_fn<> (detail/tuple.hpp:145-181; tuple.hpp:235-237, 256-258, 276-278).  For an lvalue the member is
      a reference, otherwise an object, which is moved or copied into [p]. *)
  Definition initialise (f : farg St A R) (p : place) (m : memory St) : outcome (memory St) :=
    let s := m (Caller (f_obj f)) in
    match f_cat f with
    | Lv | CLv => Ok m
    | Rv =>
        match c_move (f_class f), c_copy (f_class f) with
        | Moves move, _ => let '(s', remains) := move s in Ok (store (store m (Caller (f_obj f)) remains) p s')
        | NoMoveDeclared, Some copy => Ok (store m p (copy s))
        | _, _ => IllFormed
        end
    | CRv => match c_copy (f_class f) with Some copy => Ok (store m p (copy s)) | None => IllFormed end
    end.
  (** The member is called in a const member function, "operator () (...) const" (detail/tuple.hpp:152, 160, 171, 177): a reference
      member refers to the object as it is, an object member is const. *)
  Definition call_member (f : farg St A R) (p : place) : memory St -> A -> memory St * outcome R :=
    match f_cat f with
    | Lv => call_at (f_class f) Lv (Caller (f_obj f))
    | CLv => call_at (f_class f) CLv (Caller (f_obj f))
    | Rv | CRv => call_at (f_class f) CLv p
    end.
End Use.

(** Errors are found by the compiler, before anything is called.  So with all calls in detail/tuple-transform.hpp:74 and detail/algorithm.hpp:260. *)
Definition compiled {St X : Type} (m : memory St) (res : memory St * outcome X) : memory St * outcome X :=
  match snd res with IllFormed => (m, IllFormed) | _ => res end.
(** The two arguments of the reducer, detail/tuple.hpp:156, algorithm.hpp:176. *)
Definition uncurry {S A B R : Type} (f : S -> A * B -> R) : S -> A -> B -> R := fun s a b => f s (a, b).

(** * Algorithms over tuples *)
Section Tuples.
  Context {V St R : Type}.
  Local Notation fn := (farg St (list (element V)) R).

  (** template_for(): tuple.hpp:116-142. *)
  Definition template_for (N : Z) (f : fn) (args : list (arg V)) (m : memory St) : memory St * outcome unit :=
    compiled m (TupleModel.template_for N (call_param f) args m).
  (** tuple_transform(): tuple.hpp:154-216. *)
  Definition tuple_transform (order : list nat) (N : Z) (f : fn) (args : list (arg V)) (m : memory St) : memory St * outcome (list R) :=
    compiled m (TupleModel.tuple_transform order N (call_param f) args m).
  (** array_transform<R>(): array.hpp:79-106, 152-177, detail/array.hpp:97-109. *)
  Definition array_transform_to (N : Z) (f : fn) (args : list (arg V)) (m : memory St) : memory St * outcome (list R) :=
    compiled m (TupleModel.array_transform N (call_param f) args m).
  (** array_transform(): array.hpp:43-70, 116-143, detail/array.hpp:79-96.  The element type is the type of a call of
      "std::declval<F>()", i.e. of a functor of the value category of the argument (detail/array.hpp:35, 56); empty tuples, for
      which there is no such type, are left out. *)
  Definition array_transform (N : Z) (f : fn) (args : list (arg V)) (m : memory St) : memory St * outcome (list R) :=
    if callable (f_class f) (f_cat f) then compiled m (TupleModel.array_transform N (call_param f) args m) else (m, IllFormed).
End Tuples.

Section Reductions.
  Context {V St A B : Type}.

  (** template_transform_reduce(): tuple.hpp:229-238; the members are initialised in the order of their declaration. *)
  Definition template_transform_reduce (init : A) (reduce : farg St (A * B) A) (transform : farg St (list (element V)) B)
      (args : list (arg V)) (m : memory St) : memory St * outcome A :=
    match (do m1 <- initialise reduce ReduceMember m; initialise transform TransformMember m1) with
    | Ok m1 => compiled m (TupleModel.template_transform_reduce init (uncurry (call_member reduce ReduceMember)) (call_member transform TransformMember) args m1)
    | _ => (m, IllFormed)
    end.
  (** template_reduce(): tuple.hpp:250-259. *)
  Definition template_reduce (init : A) (reduce : farg St (A * element V) A) (a : arg V) (m : memory St) : memory St * outcome A :=
    match initialise reduce ReduceMember m with
    | Ok m1 => compiled m (TupleModel.template_reduce init (uncurry (call_member reduce ReduceMember)) a m1)
    | _ => (m, IllFormed)
    end.

  (** template_all_of(), template_any_of(), template_none_of(): tuple.hpp:270-319. *)
  Definition with_member {X : Type} (f : farg St (list (element V)) bool)
      (run : (memory St -> list (element V) -> memory St * outcome bool) -> memory St -> memory St * outcome X) (m : memory St)
      : memory St * outcome X :=
    match initialise f TransformMember m with
    | Ok m1 => compiled m (run (call_member f TransformMember) m1)
    | _ => (m, IllFormed)
    end.
  (** tuple.hpp:270-279. *)
  Definition template_all_of (f : farg St (list (element V)) bool) (args : list (arg V)) : memory St -> memory St * outcome bool :=
    with_member f (fun pred => TupleModel.template_all_of pred args).
  (** tuple.hpp:290-299. *)
  Definition template_any_of (f : farg St (list (element V)) bool) (args : list (arg V)) : memory St -> memory St * outcome bool :=
    with_member f (fun pred => TupleModel.template_any_of pred args).
  (** tuple.hpp:310-319. *)
  Definition template_none_of (f : farg St (list (element V)) bool) (args : list (arg V)) : memory St -> memory St * outcome bool :=
    with_member f (fun pred => TupleModel.template_none_of pred args).
End Reductions.

(** * Algorithms over ranges: the calls in the loop have to compile even if the ranges are empty. *)
Section Ranges.
  Context {St : Type}.
  (** algorithm.hpp:98-102 and the like. *)
  Definition if_callable {X : Type} (b : bool) (run : memory St -> memory St * outcome X) (m : memory St) : memory St * outcome X :=
    if b then compiled m (run m) else (m, IllFormed).

  (** range_for(): algorithm.hpp:90-103; range_count_if(), range_all_of(), range_any_of(), range_none_of(): 214-304. *)
  Definition range_for (f : farg St (list ref) unit) (rs : list rng) : memory St -> memory St * outcome unit :=
    if_callable (param_callable f) (ZipModel.range_for (call_param f) rs).
  (** algorithm.hpp:214-229. *)
  Definition range_count_if (f : farg St (list ref) bool) (rs : list rng) : memory St -> memory St * outcome Z :=
    if_callable (param_callable f) (ZipModel.range_count_if (call_param f) rs).
  (** algorithm.hpp:240-254. *)
  Definition range_all_of (f : farg St (list ref) bool) (rs : list rng) : memory St -> memory St * outcome bool :=
    if_callable (param_callable f) (ZipModel.range_all_of (call_param f) rs).
  (** algorithm.hpp:265-279. *)
  Definition range_any_of (f : farg St (list ref) bool) (rs : list rng) : memory St -> memory St * outcome bool :=
    if_callable (param_callable f) (ZipModel.range_any_of (call_param f) rs).
  (** algorithm.hpp:290-304. *)
  Definition range_none_of (f : farg St (list ref) bool) (rs : list rng) : memory St -> memory St * outcome bool :=
    if_callable (param_callable f) (ZipModel.range_none_of (call_param f) rs).

  (** range_transform_reduce(): algorithm.hpp:164-179; range_reduce(): 191-203. *)
  Definition range_transform_reduce {A B : Type} (init : A) (reduce : farg St (A * B) A) (transform : farg St (list ref) B)
      (rs : list rng) : memory St -> memory St * outcome A :=
    if_callable (param_callable reduce && param_callable transform)
      (ZipModel.range_transform_reduce init (uncurry (call_param reduce)) (call_param transform) rs).
  (** algorithm.hpp:191-203. *)
  Definition range_reduce {A : Type} (init : A) (reduce : farg St (A * ref) A) (r : rng) : memory St -> memory St * outcome A :=
    if_callable (param_callable reduce) (ZipModel.range_reduce init (uncurry (call_param reduce)) r).

  (** range_generate(): algorithm.hpp:141-151; the parameter is "F const& generate". *)
  Definition range_generate {A : Type} (f : farg St unit A) (elems : list A) (m : memory St) : memory St * list A * outcome unit :=
    if callable (f_class f) CLv
    then ZipModel.range_generate (fun m => call_at (f_class f) CLv (Caller (f_obj f)) m tt) elems m
    else (m, elems, IllFormed).
End Ranges.
