(** Model of what the range algorithms do to the ranges they are given, operation by operation:
    /repo/include/makeshift/algorithm.hpp:64-304, /repo/include/makeshift/detail/algorithm.hpp:25-462,
    /repo/include/makeshift/detail/zip.hpp:205-568, /repo/include/makeshift/experimental/algorithm.hpp:99-107.

    ZipModel.v treats iterators as positions.  Here begin(), end(), size(), data(), the comparison with the end,
    dereferencing and increment of every range, and the functors, are operations of an unknown program: [env] answers
    every operation with a value or a failure, depending on everything that happened before.  The history of a call is
    the list of operations it performed with their answers, oldest first.

    Answers are numbers; the comparison with the end and predicates answer "true" with any number other than 0; the
    answer to dereferencing stands for the reference it returns.

    Where C++ leaves the order of evaluation of function arguments open, [ord] chooses it, again depending on the
    history.

    Simplifications: copies and moves of the result variable of the reductions and of the value of range_iota() are not
    operations; iterators are not copied by the modelled functions. *)

From Coq Require Import ZArith Arith Bool List.
From Verif Require Import Base ZipModel.
Import ListNotations.

Local Open Scope Z_scope.

(** Arguments of the functor: the reference obtained by "*pos" (answer [x]), "data[i]" of the [k]-th range, and the index
    for range_index: detail/zip.hpp:336-339, 378-381, 400-403, 418-421. *)
Inductive arg : Type :=
| ADeref (x : Z)
| AElem (k : nat) (i : Z)
| AIdx (i : Z).

(** Operations; the number tells which range argument is concerned.  [EFunc] is the call of the functor (of the
    transformer in range_transform_reduce()), [EReduce] that of the reducer with the
    result so far and the value to be reduced, [EGen] that of the generator (in
    range_iota() "value++"), [EAssign] the assignment "*it = ...".
    These occur in algorithm.hpp:90-304, detail/algorithm.hpp:129-156, 257-261, detail/zip.hpp:306-426, 540-568. *)
Inductive event : Type :=
| ESize (k : nat)
| EBegin (k : nat)
| EEnd (k : nat)
| EData (k : nat)
| ECmp (k : nat)
| EDeref (k : nat)
| EInc (k : nat)
| EFunc (args : list arg)
| EReduce (acc x : Z)
| EGen
| EAssign (k : nat).

(** Not in the code: a record of what algorithm.hpp:64-304 does. *)
Definition history : Type := list (event * outcome Z).

(** A value that is known, or the result of one operation.
    The arguments in algorithm.hpp:96 and detail/algorithm.hpp:106, 148, 260 are of this kind. *)
Inductive act (A : Type) : Type :=
| APure (a : A)
| AEmit (e : event) (f : Z -> A).
Arguments APure {A} a.
Arguments AEmit {A} e f.

Section World.
  Variable env : history -> event -> outcome Z.
  Variable ord : history -> nat -> list nat.

  (** Not in the code: executions of algorithm.hpp:64-304, which extend the history and end in an outcome. *)
  Definition M (A : Type) : Type := history -> history * outcome A.

  (** Not in the code: an execution without operations, in terms of which algorithm.hpp:64-304 is stated. *)
  Definition ret {A : Type} (a : A) : M A := fun h => (h, Ok a).
  (** Not in the code: an execution without operations and with the given outcome, for algorithm.hpp:64-304. *)
  Definition lift {A : Type} (o : outcome A) : M A := fun h => (h, o).
  (** ";" in algorithm.hpp:64-304: what follows is executed unless there was a failure. *)
  Definition bindM {A B : Type} (m : M A) (f : A -> M B) : M B :=
    fun h =>
      match m h with
      | (h', Ok a) => f a h'
      | (h', Contract) => (h', Contract) | (h', Throw e) => (h', Throw e) | (h', UB) => (h', UB)
      | (h', IllFormed) => (h', IllFormed) | (h', OutOfFuel) => (h', OutOfFuel)
      end.
  (** One operation of algorithm.hpp:64-304 on a range or functor. *)
  Definition emit (e : event) : M Z := fun h => let o := env h e in (h ++ [(e, o)], o).

  (** Evaluates an argument of algorithm.hpp:96, detail/algorithm.hpp:106, 148, 260. *)
  Definition perform {A : Type} (a : act A) : M A :=
    match a with
    | APure x => ret x
    | AEmit e f => bindM (emit e) (fun z => ret (f z))
    end.

  (** Evaluation of the expressions [l] in the order [p]; [acc] are the values obtained so far.
      For algorithm.hpp:96, detail/algorithm.hpp:106, 148, 260. *)
  Fixpoint perform_in (p : list nat) {A : Type} (l : list (act A)) (acc : list (nat * A)) : M (list (nat * A)) :=
    match p with
    | [] => ret acc
    | j :: p' =>
        match nth_error l j with
        | None => lift IllFormed
        | Some a => bindM (perform a) (fun x => perform_in p' l ((j, x) :: acc))
        end
    end.
  (** The values in the order of the parameters: algorithm.hpp:96, detail/algorithm.hpp:106, 148, 260. *)
  Definition collect {A : Type} (n : nat) (acc : list (nat * A)) : outcome (list A) :=
    mapM (fun j => match find (fun q => Nat.eqb (fst q) j) acc with Some q => Ok (snd q) | None => IllFormed end) (seq 0 n).
  (** Function arguments: any order.  Braced lists: left to right.  The former: algorithm.hpp:96, detail/algorithm.hpp:106, 260. *)
  Definition unordered {A : Type} (l : list (act A)) : M (list A) :=
    fun h => bindM (perform_in (ord h (length l)) l []) (fun acc => lift (collect (length l) acc)) h.
  (** The latter: detail/algorithm.hpp:148. *)
  Definition ordered {A : Type} (l : list (act A)) : M (list A) :=
    bindM (perform_in (seq 0 (length l)) l []) (fun acc => lift (collect (length l) acc)).

  (** An exception that leaves a function declared noexcept terminates the program.  detail/zip.hpp:541-565. *)
  Definition noexcept {A : Type} (m : M A) : M A :=
    fun h => match m h with (h', Throw _) => (h', Contract) | other => other end.

  (** range_size(): detail/zip.hpp:540-568; all overloads are noexcept. *)
  Definition size_act (k : nat) (r : rng) : act dim :=
    match r_mode r, r_known r with
    | MRangeIndex, _ => APure (SStatic unknown_size)
    | _, KStatic => APure (SStatic (r_len r))
    | _, KDynamic => AEmit (ESize k) SDyn
    | _, KUnknown => APure (SStatic unknown_size)
    end.
  (** "merge_sizes(range_size(ranges)...)": algorithm.hpp:96 and its copies. *)
  Definition merged_size (rs : list rng) : M dim :=
    bindM (noexcept (unordered (mapi size_act 0 rs))) (fun ds => lift (merge_sizes ds)).

  (** Constructors of the leaves, detail/zip.hpp:316-323, 362-365, 396-399, 415-417; the bases are initialised in order. *)
  Definition begin_events (k : nat) (r : rng) : list event :=
    match r_mode r with
    | MPair => [EBegin k; EEnd k] | MIter => [EBegin k] | MIndex => [EData k] | MRangeIndex => []
    end.
  (** The constructors with end_tag: detail/zip.hpp:320-323, 362-365, 396-399, 415-417. *)
  Definition end_events (k : nat) (r : rng) : list event :=
    match r_mode r with
    | MPair => [EEnd k] | MIter => [EBegin k] | MIndex => [EData k] | MRangeIndex => []
    end.
  (** A sequence of operations, as in detail/algorithm.hpp:130, 134, 153. *)
  Fixpoint emit_all (l : list event) : M unit :=
    match l with
    | [] => ret tt
    | e :: r => bindM (emit e) (fun _ => emit_all r)
    end.
  (** detail/algorithm.hpp:129-132, 271-275. *)
  Definition make_begin (rs : list rng) : M unit := emit_all (concat (mapi begin_events 0 rs)).
  (** detail/algorithm.hpp:133-136, 276-280. *)
  Definition make_end (rs : list rng) : M unit := emit_all (concat (mapi end_events 0 rs)).

  (** _deref(), _inc(), _is_end(), _check_end() of the leaves: detail/zip.hpp:284-454. *)
  Definition deref_act (i : Z) (k : nat) (r : rng) : act arg :=
    match r_mode r with
    | MPair | MIter => AEmit (EDeref k) ADeref
    | MIndex => APure (AElem k i)
    | MRangeIndex => APure (AIdx i)
    end.
  (** _inc(): detail/zip.hpp:286-288, 324-327, 366-369. *)
  Definition inc_events (k : nat) (r : rng) : list event :=
    match r_mode r with MPair | MIter => [EInc k] | MIndex | MRangeIndex => [] end.
  (** The contextual conversion to bool in algorithm.hpp:226, 251, 276, 301 and of "pos == end" in detail/zip.hpp:346, 350. *)
  Definition truth (z : Z) : bool := negb (z =? 0).
  (** _is_end(): detail/zip.hpp:298-301, 348-351. *)
  Definition is_end_act (k : nat) (r : rng) : act (option bool) :=
    match r_mode r with
    | MPair => AEmit (ECmp k) (fun z => Some (truth z))
    | _ => APure None
    end.
  (** _check_end(): detail/algorithm.hpp:139-143, detail/zip.hpp:295-297, 344-347. *)
  Fixpoint check_end_from (isEnd : bool) (k : nat) (rs : list rng) : M unit :=
    match rs with
    | [] => ret tt
    | r :: rest =>
        bindM (match r_mode r with
               | MPair => bindM (emit (ECmp k)) (fun z => lift (expects (Bool.eqb (truth z) isEnd)))
               | _ => ret tt
               end) (fun _ => check_end_from isEnd (S k) rest)
    end.

  (** "it == end" for the sentinel: detail/algorithm.hpp:25-71, 104-107, 138-143; the arguments of is_end() are evaluated in any
      order, the leaves are checked in order. *)
  Definition at_sentinel (N : dim) (rs : list rng) (i : Z) : M bool :=
    let known n := let isEnd := i =? n in bindM (check_end_from isEnd 0 rs) (fun _ => ret isEnd) in
    match N with
    | SDyn n => known n
    | SStatic n =>
        if n =? unknown_size then
          bindM (unordered (mapi is_end_act 0 rs)) (fun os =>
          bindM (lift (is_end os)) (fun o => match o with Some e => ret e | None => lift IllFormed end))
        else known n
    end.

  (** "for (; it != end; ++it) { ... }".  The body gets the arguments and either goes on with a new value of the
      function's variables or leaves the function.  operator ++: detail/algorithm.hpp:150-156. *)
  Section Loop.
    Context {A R : Type}.
    Variable rs : list rng.
    Variable stop : Z -> M bool.
    Variable get : Z -> M (list arg).
    Variable body : A -> list arg -> M (A + R).

    (** algorithm.hpp:99-102 and its copies. *)
    Fixpoint loop (fuel : nat) (i : Z) (a : A) : M (A + R) :=
      match fuel with
      | O => lift OutOfFuel
      | S fuel' =>
          bindM (stop i) (fun e =>
            if e then ret (inl a)
            else
              bindM (get i) (fun args =>
              bindM (body a args) (fun x =>
                match x with
                | inr r => ret (inr r)
                | inl a' => bindM (emit_all (concat (mapi inc_events 0 rs))) (fun _ => loop fuel' (i + 1) a')
                end)))
      end.
  End Loop.

  (** What the compiler checks, whatever the values of the sizes are: the static_assert of the algorithms
      (algorithm.hpp:94 and its copies), merge_sizes(), and, with no known size, the loop condition. *)
  Definition accepted (rs : list rng) : outcome unit :=
    if forallb is_range_index rs then IllFormed
    else
      do N <- merge_sizes_n (S (length rs)) false (map range_size rs);
      match N with
      | SStatic n =>
          if n =? unknown_size then
            do o <- is_end_type (map leaf_is_end (z_leaves (zip_begin rs)));
            match o with Some _ => Ok tt | None => IllFormed end
          else Ok tt
      | SDyn _ => Ok tt
      end.
  (** The same for range_zip() and range_zip_sentinel(), which need a known size: algorithm.hpp:72,
      experimental/algorithm.hpp:104. *)
  Definition zip_accepted (rs : list rng) : outcome unit :=
    do N <- merge_sizes_n (S (length rs)) false (map range_size rs);
    match N with
    | SStatic n => if n =? unknown_size then IllFormed else Ok tt
    | SDyn _ => Ok tt
    end.

  (** The frame of the algorithms: algorithm.hpp:94-102 and its copies.  [apply()] evaluates the arguments of the call
      in any order (detail/algorithm.hpp:257-261). *)
  Definition algorithm {A R : Type} (fuel : nat) (body : A -> list arg -> M (A + R)) (a : A) (rs : list rng) : M (A + R) :=
    bindM (lift (accepted rs)) (fun _ =>
    bindM (merged_size rs) (fun N =>
    bindM (make_begin rs) (fun _ =>
    loop rs (at_sentinel N rs) (fun i => unordered (mapi (deref_act i) 0 rs)) body fuel 0 a))).

  (** range_for(): algorithm.hpp:90-103. *)
  Definition range_for (fuel : nat) (rs : list rng) : M unit :=
    bindM (algorithm (R := Empty_set) fuel (fun _ args => bindM (emit (EFunc args)) (fun _ => ret (inl tt))) tt rs)
          (fun _ => ret tt).
  (** range_transform_reduce(): algorithm.hpp:164-179; the result is the answer of the last call of the reducer. *)
  Definition range_transform_reduce (fuel : nat) (init : Z) (rs : list rng) : M Z :=
    bindM (algorithm (R := Empty_set) fuel
             (fun acc args => bindM (emit (EFunc args)) (fun x => bindM (emit (EReduce acc x)) (fun z => ret (inl z)))) init rs)
          (fun x => match x with inl a => ret a | inr r => match r with end end).
  (** range_count_if(): algorithm.hpp:214-229. *)
  Definition range_count_if (fuel : nat) (rs : list rng) : M Z :=
    bindM (algorithm (R := Empty_set) fuel
             (fun n args => bindM (emit (EFunc args)) (fun z => ret (inl (if truth z then n + 1 else n)))) 0 rs)
          (fun x => match x with inl a => ret a | inr r => match r with end end).
  (** range_all_of(): algorithm.hpp:240-254. *)
  Definition range_all_of (fuel : nat) (rs : list rng) : M bool :=
    bindM (algorithm fuel
             (fun _ args => bindM (emit (EFunc args)) (fun z => ret (if negb (truth z) then inr false else inl tt))) tt rs)
          (fun x => match x with inl _ => ret true | inr r => ret r end).
  (** range_any_of(): algorithm.hpp:265-279. *)
  Definition range_any_of (fuel : nat) (rs : list rng) : M bool :=
    bindM (algorithm fuel
             (fun _ args => bindM (emit (EFunc args)) (fun z => ret (if truth z then inr true else inl tt))) tt rs)
          (fun x => match x with inl _ => ret false | inr r => ret r end).
  (** range_none_of(): algorithm.hpp:290-304. *)
  Definition range_none_of (fuel : nat) (rs : list rng) : M bool :=
    bindM (algorithm fuel
             (fun _ args => bindM (emit (EFunc args)) (fun z => ret (if truth z then inr false else inl tt))) tt rs)
          (fun x => match x with inl _ => ret true | inr r => ret r end).

  (** "for (auto&& e : range_zip_sentinel(...)) func(e)": experimental/algorithm.hpp:99-107 with
      detail/algorithm.hpp:146-149 (operator *, a braced list), 289-400, 428-439. *)
  Definition zip_sentinel_for (fuel : nat) (rs : list rng) : M unit :=
    bindM (lift (zip_accepted rs)) (fun _ =>
    bindM (merged_size rs) (fun N =>
    bindM (make_begin rs) (fun _ =>
    bindM (loop (R := Empty_set) rs (at_sentinel N rs) (fun i => ordered (mapi (deref_act i) 0 rs))
             (fun _ args => bindM (emit (EFunc args)) (fun _ => ret (inl tt))) fuel 0 tt)
          (fun _ => ret tt)))).
  (** "for (auto&& e : range_zip(...)) func(e)": algorithm.hpp:64-75 with detail/algorithm.hpp:165-172 (the comparison
      looks at the indices only), 395-399, 452-456 (end()), 441-462. *)
  Definition zip_for (fuel : nat) (rs : list rng) : M unit :=
    bindM (lift (zip_accepted rs)) (fun _ =>
    bindM (merged_size rs) (fun N =>
    bindM (make_begin rs) (fun _ =>
    bindM (make_end rs) (fun _ =>
    bindM (loop (R := Empty_set) rs (fun i => ret (i =? dim_value N)) (fun i => ordered (mapi (deref_act i) 0 rs))
             (fun _ args => bindM (emit (EFunc args)) (fun _ => ret (inl tt))) fuel 0 tt)
          (fun _ => ret tt))))).

  (** The loops over one range with its own iterators: range_iota(), range_fill(), range_generate() (algorithm.hpp:109-151;
      the right-hand side of an assignment is evaluated first).  [round] are the operations between the comparison and the
      increment. *)
  Fixpoint single_loop (fuel : nat) (round : list event) : M unit :=
    match fuel with
    | O => lift OutOfFuel
    | S fuel' =>
        bindM (emit (ECmp 0)) (fun z =>
          if truth z then ret tt
          else bindM (emit_all round) (fun _ => bindM (emit (EInc 0)) (fun _ => single_loop fuel' round)))
    end.
  (** algorithm.hpp:113-118, 129-134, 145-150. *)
  Definition single (fuel : nat) (round : list event) : M unit :=
    bindM (emit (EBegin 0)) (fun _ => bindM (emit (EEnd 0)) (fun _ => single_loop fuel round)).
  (** range_iota(): algorithm.hpp:109-119. *)
  Definition range_iota (fuel : nat) : M unit := single fuel [EGen; EDeref 0; EAssign 0].
  (** range_fill(): algorithm.hpp:125-135. *)
  Definition range_fill (fuel : nat) : M unit := single fuel [EDeref 0; EAssign 0].
  (** range_generate(): algorithm.hpp:141-151. *)
  Definition range_generate (fuel : nat) : M unit := single fuel [EGen; EDeref 0; EAssign 0].

  (** range_reduce(): algorithm.hpp:191-203. *)
  Fixpoint reduce_loop (fuel : nat) (acc : Z) : M Z :=
    match fuel with
    | O => lift OutOfFuel
    | S fuel' =>
        bindM (emit (ECmp 0)) (fun z =>
          if truth z then ret acc
          else bindM (emit (EDeref 0)) (fun x => bindM (emit (EReduce acc x)) (fun acc' =>
               bindM (emit (EInc 0)) (fun _ => reduce_loop fuel' acc'))))
    end.
  (** range_reduce(): algorithm.hpp:191-203. *)
  Definition range_reduce (fuel : nat) (init : Z) : M Z :=
    bindM (emit (EBegin 0)) (fun _ => bindM (emit (EEnd 0)) (fun _ => reduce_loop fuel init)).
End World.
