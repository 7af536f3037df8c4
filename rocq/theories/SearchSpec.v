(** Specification of lookups with comparison operators of the caller's. *)

From Coq Require Import ZArith Arith Bool List.
From Verif Require Import Base SearchModel.
Import ListNotations.

(** A call of an operator with the runtime value: constant < value, value < constant, constant == value. *)
Inductive comparison_call (A : Type) := Less (a : A) | Greater (a : A) | Equal (a : A).
Arguments Less {A}.
Arguments Greater {A}.
Arguments Equal {A}.

(** The operators, which keep a record of their calls and of what came of them. *)
Definition recorded_ops {S A B} (ops : operators S A B) : operators (S * list (comparison_call A * outcome bool)) A B :=
  mk_operators (op_order ops)
    (option_map (fun f s a v => let '(st, o) := f (fst s) a v in ((st, snd s ++ [(Less a, o)]), o)) (op_less ops))
    (option_map (fun f s v a => let '(st, o) := f (fst s) v a in ((st, snd s ++ [(Greater a, o)]), o)) (op_greater ops))
    (option_map (fun f s a v => let '(st, o) := f (fst s) a v in ((st, snd s ++ [(Equal a, o)]), o)) (op_equal ops)).

(** Operators that compare by given functions, without effects. *)
Definition pure_ops {A B} (order : option (A -> A -> bool)) (less : A -> B -> bool) (greater : B -> A -> bool) (equal : A -> B -> bool) : operators unit A B :=
  mk_operators order (Some (fun s a v => (s, Ok (less a v)))) (Some (fun s v a => (s, Ok (greater v a)))) (Some (fun s a v => (s, Ok (equal a v)))).

(** Operators that return or throw. *)
Definition returns_or_throws {S A B} (ops : operators S A B) : Prop :=
  (forall f s a v, op_less ops = Some f -> match snd (f s a v) with Ok _ | Throw _ => True | _ => False end) /\
  (forall f s v a, op_greater ops = Some f -> match snd (f s v a) with Ok _ | Throw _ => True | _ => False end) /\
  (forall f s a v, op_equal ops = Some f -> match snd (f s a v) with Ok _ | Throw _ => True | _ => False end).

(** No constant is less than its predecessor. *)
Definition in_order {A} (lt : A -> A -> bool) (values : list A) : Prop :=
  forall i x y, nth_error values i = Some x -> nth_error values (S i) = Some y -> lt y x = false.

Definition count_calls {A} (p : comparison_call A -> bool) (log : list (comparison_call A * outcome bool)) : nat :=
  length (filter (fun e => p (fst e)) log).
Definition is_less {A} (c : comparison_call A) : bool := match c with Less _ => true | _ => false end.
Definition is_greater {A} (c : comparison_call A) : bool := match c with Greater _ => true | _ => false end.
Definition is_equal {A} (c : comparison_call A) : bool := match c with Equal _ => true | _ => false end.

(** The record supports the choice of the constant [x]: the last answer was that it equals the value, or the last two were
    that neither is less than the other. *)
Definition supported {A} (log : list (comparison_call A * outcome bool)) (x : A) : Prop :=
  (exists pre, log = pre ++ [(Equal x, Ok true)]) \/ (exists pre, log = pre ++ [(Less x, Ok false); (Greater x, Ok false)]).

(** What a lookup can come to. *)
Inductive lookup := Chosen (k : nat) | Missing | Failed (e : exn).

(** What the three functions make of it. *)
Definition reported_by_expand (r : lookup) : outcome nat :=
  match r with Chosen k => Ok k | Missing => Throw UnsupportedRuntimeValue | Failed e => Throw e end.
Definition reported_by_try_expand (r : lookup) : outcome (option nat) :=
  match r with Chosen k => Ok (Some k) | Missing => Ok None | Failed e => Throw e end.
Definition reported_by_failfast (r : lookup) : outcome nat :=
  match r with Chosen k => Ok k | Missing => Contract | Failed e => Throw e end.

(** The calls concern listed constants; all of them returned, except that the last one threw if the lookup failed; and a
    chosen constant is one that the answers support. *)
Definition justified {A} (values : list A) (log : list (comparison_call A * outcome bool)) (r : lookup) : Prop :=
  (forall c o, In (c, o) log -> In (match c with Less a => a | Greater a => a | Equal a => a end) values) /\
  match r with
  | Chosen k => (forall c o, In (c, o) log -> exists b, o = Ok b) /\ exists x, nth_error values k = Some x /\ supported log x
  | Missing => forall c o, In (c, o) log -> exists b, o = Ok b
  | Failed e => exists pre c, log = pre ++ [(c, Throw e)] /\ forall c' o, In (c', o) pre -> exists b, o = Ok b
  end.

(** The list is sorted, as far as the compiler can tell. *)
Definition known_sorted {S A B} (ops : operators S A B) (values : list A) : Prop :=
  exists lt, op_order ops = Some lt /\ in_order lt values.

(** The program is accepted. *)
Definition acceptable {S A B} (ops : operators S A B) (values : list A) : Prop :=
  values <> [] /\ op_equal ops <> None /\ (known_sorted ops values -> op_less ops <> None /\ op_greater ops <> None).

(** One question about each constant in the order of the list, up to the answer that decides. *)
Definition one_after_the_other {A} (values : list A) (log : list (comparison_call A * outcome bool)) (r : lookup) : Prop :=
  match r with
  | Chosen k => exists x, nth_error values k = Some x /\ log = map (fun a => (Equal a, Ok false)) (firstn k values) ++ [(Equal x, Ok true)]
  | Missing => log = map (fun a => (Equal a, Ok false)) values
  | Failed e => exists k x, nth_error values k = Some x /\ log = map (fun a => (Equal a, Ok false)) (firstn k values) ++ [(Equal x, Throw e)]
  end.

(** The three functions, called in state [s], leave state [s'] and report [r]. *)
Definition all_three {S A B} (ops : operators S A B) (value : B) (values : list A) (s s' : S) (r : lookup) : Prop :=
  eff_expand ops value values s = (s', reported_by_expand r) /\ eff_try_expand ops value values s = (s', reported_by_try_expand r) /\
  eff_expand_failfast ops value values s = (s', reported_by_failfast r).

(** The largest number of constants that a binary search among [n] compares with < . *)
Definition most_probes (n : nat) : nat := if (n <=? 1)%nat then 0%nat else S (Nat.log2_up (n - 1)).
