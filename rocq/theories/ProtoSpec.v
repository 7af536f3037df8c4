(** Specification for the operations that the range algorithms perform on their arguments, as a small protocol for every
    range.  It refers to the operations and their answers only, not to how the functions are written. *)

From Coq Require Import ZArith Arith Bool List.
From Verif Require Import Base ZipModel ProtoModel.
Import ListNotations.

Local Open Scope Z_scope.

(** How a range is used.
    [Guarded]: through an iterator that is compared with the end before it is dereferenced;
    [Counted]: through an iterator that is not compared with the end (the number of elements is known);
    [Direct]: through a pointer to the first element;
    [Counter]: not at all (range_index). *)
Inductive style : Type := Guarded | Counted | Direct | Counter.

(** [Setup l]: the operations [l] have to come next.
    [Fresh]: the iterator may be at the end; only a comparison is allowed.
    [Valid]: there is an element; it may be dereferenced.
    [Read x]: it has been dereferenced, with the result [x]; it must not be dereferenced again.
    [Called y]: the functor has been called with [x] and returned [y]; the reducer is next and gets [y].
    [Used]: done with the element; the iterator may be incremented.
    [AtEnd]: the comparison said so.
    [Ready i], [Pending i y]: the same without iterator operations; [i] calls have been made.
    [Stopped]: an operation failed. *)
Inductive phase : Type :=
| Setup (l : list event) | Fresh | Valid | Read (x : Z) | Called (y : Z) | Used | AtEnd | Ready (i : Z)
| Pending (i y : Z) | Stopped.

Definition event_eqb (a b : event) : bool :=
  match a, b with
  | ESize j, ESize k | EBegin j, EBegin k | EEnd j, EEnd k | EData j, EData k => Nat.eqb j k
  | _, _ => false
  end.

Definition start (st : style) : phase :=
  match st with Guarded => Fresh | Counted => Valid | Direct | Counter => Ready 0 end.
Definition setup (st : style) (l : list event) : phase := match l with [] => start st | _ => Setup l end.

Definition arg_eqb (a b : arg) : bool :=
  match a, b with
  | ADeref x, ADeref y => x =? y
  | AElem k i, AElem l j => Nat.eqb k l && (i =? j)
  | AIdx i, AIdx j => i =? j
  | _, _ => false
  end.
Definition has_arg (args : list arg) (k : nat) (a : arg) : bool :=
  match nth_error args k with Some b => arg_eqb a b | None => false end.

Section Protocol.
  Variable st : style.
  (** Whether every call of the functor is followed by a call of a reducer. *)
  Variable reducing : bool.
  (** The position of the range among the arguments. *)
  Variable k : nat.

  (** Operation [e] with answer [z] in phase [s]; [None]: not allowed.  Operations on other ranges do not matter. *)
  Definition next (s : phase) (e : event) (z : Z) : option phase :=
    match e with
    | ESize j | EBegin j | EEnd j | EData j =>
        if Nat.eqb j k then
          match s with
          | Setup (e' :: l) => if event_eqb e' e then Some (setup st l) else None
          | _ => None
          end
        else Some s
    | ECmp j =>
        if Nat.eqb j k then
          match s, st with Fresh, Guarded => Some (if z =? 0 then Valid else AtEnd) | _, _ => None end
        else Some s
    | EDeref j => if Nat.eqb j k then match s with Valid => Some (Read z) | _ => None end else Some s
    | EInc j => if Nat.eqb j k then match s with Used => Some (start st) | _ => None end else Some s
    | EFunc args =>
        match s with
        | Read x => if has_arg args k (ADeref x) then Some (if reducing then Called z else Used) else None
        | Ready i =>
            if has_arg args k (match st with Direct => AElem k i | _ => AIdx i end)
            then Some (if reducing then Pending (i + 1) z else Ready (i + 1)) else None
        | _ => None
        end
    | EReduce _ x =>
        match s with
        | Called y => if x =? y then Some Used else None
        | Pending i y => if x =? y then Some (Ready i) else None
        | _ => None
        end
    | EGen | EAssign _ => None
    end.

  (** The phase after the operations [h]; [None] if one of them was not allowed.  A failing operation is the last one. *)
  Fixpoint follows (s : phase) (h : history) : option phase :=
    match h with
    | [] => Some s
    | (e, Ok z) :: r => match next s e z with Some s' => follows s' r | None => None end
    | (e, _) :: r => match next s e 0, r with Some _, [] => Some Stopped | _, _ => None end
    end.
End Protocol.

(** The style of a range in the algorithms and in range_zip_sentinel(), and in range_zip(). *)
Definition style_of (r : rng) : style :=
  match r_mode r with MPair => Guarded | MIter => Counted | MIndex => Direct | MRangeIndex => Counter end.
Definition zip_style_of (r : rng) : style :=
  match r_mode r with MPair | MIter => Counted | MIndex => Direct | MRangeIndex => Counter end.

(** The operations before the first round. *)
Definition sizing (k : nat) (r : rng) : list event :=
  match r_mode r, r_known r with
  | MRangeIndex, _ => []
  | _, KDynamic => [ESize k]
  | _, _ => []
  end.
Definition opening (k : nat) (r : rng) : list event :=
  match r_mode r with
  | MPair => [EBegin k; EEnd k] | MIter => [EBegin k] | MIndex => [EData k] | MRangeIndex => []
  end.
(** range_zip() makes a second iterator, for the end. *)
Definition zip_opening (k : nat) (r : rng) : list event :=
  match r_mode r with
  | MPair => [EBegin k; EEnd k; EEnd k] | MIter => [EBegin k; EBegin k] | MIndex => [EData k; EData k] | MRangeIndex => []
  end.

(** The phase after all elements have been used / after the function has been left early. *)
Definition exhausted (st : style) (s : phase) : Prop :=
  match st with Guarded => s = AtEnd | Counted => s = Valid | Direct | Counter => exists i, s = Ready i end.
Definition left_early (st : style) (s : phase) : Prop :=
  match st with Guarded | Counted => s = Used | Direct | Counter => exists i, s = Ready i end.

(** Evaluation orders are permutations of the arguments. *)
Definition evaluation_order (ord : history -> nat -> list nat) : Prop :=
  forall h n, NoDup (ord h n) /\ (forall j, In j (ord h n) <-> (j < n)%nat).

(** Numbers of operations. *)
Definition is_inc (k : nat) (e : event) : bool := match e with EInc j => Nat.eqb j k | _ => false end.
Definition is_deref (k : nat) (e : event) : bool := match e with EDeref j => Nat.eqb j k | _ => false end.
Definition is_call (e : event) : bool := match e with EFunc _ => true | _ => false end.
Definition count (f : event -> bool) (h : history) : nat := length (filter (fun x => f (fst x)) h).

(** No operation failed. *)
Definition all_ok (h : history) : Prop := Forall (fun x => exists z, snd x = Ok z) h.
(** [o] is what becomes of the failure [x] of the operation [e]. *)
Definition same_failure {A : Type} (x : outcome Z) (o : outcome A) : Prop :=
  match x, o with
  | Contract, Contract | UB, UB | IllFormed, IllFormed | OutOfFuel, OutOfFuel => True
  | Throw e, Throw e' => e = e'
  | _, _ => False
  end.
Definition failure_of {A : Type} (e : event) (x : outcome Z) (o : outcome A) : Prop :=
  match e, x with
  | ESize _, Throw _ => o = Contract
  | _, _ => same_failure x o
  end.

(** No size is negative; [n] is the size of range [k], as part of its type or as told by size(). *)
Definition sane (env : history -> event -> outcome Z) (rs : list rng) : Prop :=
  (forall h k n, env h (ESize k) = Ok n -> 0 <= n) /\
  (forall r, In r rs -> r_known r = KStatic -> 0 <= r_len r).
Definition size_is (h : history) (k : nat) (r : rng) (n : Z) : Prop :=
  r_mode r <> MRangeIndex /\
  ((r_known r = KStatic /\ n = r_len r) \/ (r_known r = KDynamic /\ In (ESize k, Ok n) h)).

(** What the calls of a predicate and the comparisons of range 0 with its end answered. *)
Definition answer (x : outcome Z) : list bool := match x with Ok z => [negb (z =? 0)] | _ => [] end.
Definition answers (h : history) : list bool :=
  flat_map (fun x => match fst x with EFunc _ => answer (snd x) | _ => [] end) h.
Definition comparisons (h : history) : list bool :=
  flat_map (fun x => match fst x with ECmp O => answer (snd x) | _ => [] end) h.
(** The result of a reduction that starts with [acc]: every call of the reducer gets the result so far, and the last
    answer is the result; [None] if one got something else. *)
Fixpoint reduced (acc : Z) (h : history) : option Z :=
  match h with
  | [] => Some acc
  | (EReduce a _, x) :: r =>
      if a =? acc then reduced (match x with Ok z => z | _ => acc end) r else None
  | _ :: r => reduced acc r
  end.

(** What the functions on one range do in every round, and all they do in [n] rounds. *)
Definition rounds (round : list event) (n : nat) : list event :=
  [EBegin 0; EEnd 0] ++ concat (repeat (ECmp 0 :: round ++ [EInc 0]) n) ++ [ECmp 0].
(** The same for a reduction; the arguments of the reducer are left out. *)
Definition forget (e : event) : event := match e with EReduce _ _ => EReduce 0 0 | _ => e end.
(** Every call of the reducer gets what was obtained by the dereferencing before it. *)
Fixpoint fed (last : option Z) (h : history) : Prop :=
  match h with
  | [] => True
  | (e, x) :: r =>
      match e with
      | EDeref _ => fed (match x with Ok z => Some z | _ => None end) r
      | EReduce _ y => last = Some y /\ fed None r
      | _ => fed last r
      end
  end.

(** * Ordinary ranges *)

(** How many times the iterator of range [k] has been incremented. *)
Definition position (k : nat) (h : history) : Z := Z.of_nat (count (is_inc k) h).
(** The ranges [rs] behave as sequences of elements: their operations do what the number of increments says, and going
    beyond the end is undefined.  Nothing is said about the functors. *)
Definition positional (rs : list rng) (env : history -> event -> outcome Z) : Prop :=
  forall k r h, nth_error rs k = Some r ->
    env h (ESize k) = Ok (r_len r) /\
    (exists z, env h (EBegin k) = Ok z) /\ (exists z, env h (EEnd k) = Ok z) /\ (exists z, env h (EData k) = Ok z) /\
    (exists z, env h (ECmp k) = Ok z /\ (z <> 0 <-> position k h = r_len r)) /\
    env h (EDeref k) = (if position k h <? r_len r then Ok (position k h) else UB) /\
    (if position k h <? r_len r then exists z, env h (EInc k) = Ok z else env h (EInc k) = UB).

(** The arguments of a call as references in the sense of ZipModel.v. *)
Definition arg_ref (k : nat) (a : arg) : ref :=
  match a with ADeref x => RElem k x | AElem j i => RElem j i | AIdx i => RIdx i end.
Definition arg_refs (args : list arg) : list ref := mapi arg_ref 0 args.

(** [alpha] extracts the state of the functors from the history: other operations do not change it. *)
Definition functor_state {S : Type} (alpha : history -> S) : Prop :=
  forall h e o, match e with EFunc _ | EReduce _ _ => True | _ => alpha (h ++ [(e, o)]) = alpha h end.
(** The functor [f] of ZipModel.v does what the calls in the history do. *)
Definition acts_as {S B : Type} (alpha : history -> S) (env : history -> event -> outcome Z) (conv : Z -> B)
    (f : S -> list ref -> S * outcome B) : Prop :=
  forall h args, f (alpha h) (arg_refs args) =
    (alpha (h ++ [(EFunc args, env h (EFunc args))]), do z <- env h (EFunc args); Ok (conv z)).
Definition reduces_as {S : Type} (alpha : history -> S) (env : history -> event -> outcome Z)
    (f : S -> Z -> Z -> S * outcome Z) : Prop :=
  forall h a b, f (alpha h) a b = (alpha (h ++ [(EReduce a b, env h (EReduce a b))]), env h (EReduce a b)).
