(** Model of apply_permutation(), apply_reverse_permutation() and shuffle():
    /repo/include/makeshift/experimental/algorithm.hpp:26-88, /repo/include/makeshift/algorithm.hpp:34-53.

    Element and index ranges are arrays; access out of bounds is [UB].  [swap] of two elements is one step (the
    element type's move operations are not modelled).  All element states after each swap are recorded in a log, and
    a contract violation is reported together with the state it leaves behind. *)

From Coq Require Import ZArith Arith Bool List.
From Verif Require Import Base ExpandModel.
Import ListNotations.
Local Open Scope Z_scope.

(** l[i] = x.  experimental/algorithm.hpp:49, 53, 56. *)
Definition aset {A} (l : list A) (i : Z) (x : A) : outcome (list A) :=
  if i <? 0 then UB else arr_set l (Z.to_nat i) x.

(** swap(l[a], l[b]): experimental/algorithm.hpp:52, 84-85, algorithm.hpp:50. *)
Definition swap_at {A} (l : list A) (a b : Z) : outcome (list A) :=
  do x <- aget l a;
  do y <- aget l b;
  do l1 <- aset l a y;
  aset l1 b x.

(** How an algorithm ends: normally or with a failed gsl_Expects().  experimental/algorithm.hpp:50, 82-83. *)
Inductive ending := Finished | Violation.

(** What experimental/algorithm.hpp:26-88 change, and the log. *)
Record pstate (A : Type) := mk_ps { ps_elems : list A; ps_idx : list Z; ps_log : list (list A) }.
Arguments mk_ps {A}.
Arguments ps_elems {A}.
Arguments ps_idx {A}.
Arguments ps_log {A}.

(** The inner loop of apply_permutation(): experimental/algorithm.hpp:43-55. *)
Fixpoint apply_inner {A} (fuel : nat) (i length current : Z) (st : pstate A) : outcome (ending * Z * pstate A) :=
  do x <- aget (ps_idx st) current;
  if i =? x then Ok (Finished, current, st)
  else
    match fuel with
    | O => OutOfFuel
    | S fuel' =>
        let next := x in
        if (next <? 0) || (next >=? length) || (next =? current) then
          do idx <- aset (ps_idx st) i next;
          Ok (Violation, current, mk_ps (ps_elems st) idx (ps_log st))
        else
          do es <- swap_at (ps_elems st) current next;
          do idx <- aset (ps_idx st) current current;
          apply_inner fuel' i length next (mk_ps es idx (ps_log st ++ [es]))
    end.

(** The outer loop: experimental/algorithm.hpp:40-57; [count] iterations remain. *)
Fixpoint apply_outer {A} (fuel count : nat) (i length : Z) (st : pstate A) : outcome (ending * pstate A) :=
  match count with
  | O => Ok (Finished, st)
  | S count' =>
      do ' (e, current, st) <- apply_inner fuel i length i st;
      match e with
      | Violation => Ok (Violation, st)
      | Finished =>
          do idx <- aset (ps_idx st) current current;
          apply_outer fuel count' (i + 1) length (mk_ps (ps_elems st) idx (ps_log st))
      end
  end.

(** apply_permutation(): experimental/algorithm.hpp:26-58.  [diff] is the value type of the index range, to which the
    number of elements is converted in line 38. *)
Definition apply_permutation {A} (diff : ity) (es : list A) (idx : list Z) : outcome (ending * pstate A) :=
  let len := cast diff (Z.of_nat (length es)) in
  apply_outer (S (length es)) (Z.to_nat len) 0 len (mk_ps es idx []).

(** The inner loop of apply_reverse_permutation(): experimental/algorithm.hpp:79-86. *)
Fixpoint reverse_inner {A} (fuel : nat) (i length : Z) (st : pstate A) : outcome (ending * pstate A) :=
  do x <- aget (ps_idx st) i;
  if i =? x then Ok (Finished, st)
  else
    match fuel with
    | O => OutOfFuel
    | S fuel' =>
        let next := x in
        if negb ((next >=? 0) && (next <? length)) then Ok (Violation, st)
        else
          do y <- aget (ps_idx st) next;
          if next =? y then Ok (Violation, st)
          else
            do es <- swap_at (ps_elems st) i next;
            do idx <- swap_at (ps_idx st) i next;
            reverse_inner fuel' i length (mk_ps es idx (ps_log st ++ [es]))
    end.

(** experimental/algorithm.hpp:77-87. *)
Fixpoint reverse_outer {A} (fuel count : nat) (i length : Z) (st : pstate A) : outcome (ending * pstate A) :=
  match count with
  | O => Ok (Finished, st)
  | S count' =>
      do ' (e, st) <- reverse_inner fuel i length st;
      match e with
      | Violation => Ok (Violation, st)
      | Finished => reverse_outer fuel count' (i + 1) length st
      end
  end.

(** apply_reverse_permutation(): experimental/algorithm.hpp:63-88. *)
Definition apply_reverse_permutation {A} (diff : ity) (es : list A) (idx : list Z) : outcome (ending * pstate A) :=
  let len := cast diff (Z.of_nat (length es)) in
  reverse_outer (S (length es)) (Z.to_nat len) 0 len (mk_ps es idx []).

(** The loop of shuffle(): algorithm.hpp:43-52; [n] is the loop variable i.  [dist s lo hi] is
    dist(rng, Param(lo, hi)); the requested bounds are recorded. *)
Fixpoint shuffle_loop {A S} (dist : S -> Z -> Z -> S * Z) (n : nat) (s : S) (es : list A) (log : list (Z * Z))
    : outcome (S * list A * list (Z * Z)) :=
  match n with
  | O => Ok (s, es, log)
  | Datatypes.S n' =>
      let i := Z.of_nat n in
      let '(s, j) := dist s 0 i in
      do es <- (if negb (i =? j) then swap_at es i j else Ok es);
      shuffle_loop dist n' s es (log ++ [(0, i)])
  end.

(** shuffle(): algorithm.hpp:34-53.  For an empty range the loop starts at -1 and ends at once. *)
Definition shuffle {A S} (dist : S -> Z -> Z -> S * Z) (s : S) (es : list A) : outcome (S * list A * list (Z * Z)) :=
  shuffle_loop dist (length es - 1) s es [].
