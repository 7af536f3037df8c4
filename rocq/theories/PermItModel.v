(** Model of shuffle(), apply_permutation() and apply_reverse_permutation() for iterators of any kind, with swaps that may
    throw: /repo/include/makeshift/algorithm.hpp:26-53, /repo/include/makeshift/experimental/algorithm.hpp:23-88.

    Unlike in PermModel, the elements are not an array but whatever state [St] the iterators refer to; the algorithms change
    it by swap(first[a], first[b]) only, which is a parameter and may end with an exception.  The index range is an array of
    integers, whose swap does not throw.  What the algorithms leave behind is returned in any case. *)

From Coq Require Import ZArith Arith Bool List.
From Verif Require Import Base ExpandModel PermModel SoaModel.
Import ListNotations.
Local Open Scope Z_scope.

Section Generic.
  Context {St : Type}.
  (** swap(first[a], first[b]), found by argument-dependent lookup or std::swap(): experimental/algorithm.hpp:52, 84,
      algorithm.hpp:49-50. *)
  Variable swap : St -> Z -> Z -> St * outcome unit.

  (** Statements that act on the elements and the index range.  For experimental/algorithm.hpp:26-88. *)
  Definition prog (R : Type) : Type := St * list Z -> (St * list Z) * outcome R.
  (** For experimental/algorithm.hpp:26-88. *)
  Definition ret {R} (x : R) : prog R := fun s => (s, Ok x).
  (** For experimental/algorithm.hpp:50, 82-83. *)
  Definition fail {R} (o : outcome R) : prog R := fun s => (s, o).
  (** ";" in experimental/algorithm.hpp:40-57, 77-87. *)
  Definition seq_ {R Q} (m : prog R) (f : R -> prog Q) : prog Q := fun s =>
    let '(s', o) := m s in
    match o with
    | Ok x => f x s'
    | Contract => (s', Contract)
    | Throw e => (s', Throw e)
    | UB => (s', UB)
    | IllFormed => (s', IllFormed)
    | OutOfFuel => (s', OutOfFuel)
    end.
  (** indices[z].  experimental/algorithm.hpp:43, 45, 79, 81, 83. *)
  Definition idx_get (z : Z) : prog Z := fun s => (s, aget (snd s) z).
  (** An operation on the index range.  experimental/algorithm.hpp:49, 53, 56, 85. *)
  Definition idx_do (f : list Z -> outcome (list Z)) : prog unit := fun s =>
    let o := f (snd s) in
    ((fst s, match o with Ok l => l | _ => snd s end), do _ <- o; Ok tt).
  (** swap(first[a], first[b]).  experimental/algorithm.hpp:52, 84. *)
  Definition elem_swap (a b : Z) : prog unit := fun s =>
    let '(st, o) := swap (fst s) a b in ((st, snd s), o).

  Notation "'let*' x := m 'in' f" := (seq_ m (fun x => f)) (at level 200, x name, m at level 100, f at level 200).

  (** The inner loop of apply_permutation(): experimental/algorithm.hpp:42-55. *)
  Fixpoint it_apply_inner (fuel : nat) (i length current : Z) : prog Z :=
    let* x := idx_get current in
    if i =? x then ret current
    else
      match fuel with
      | O => fail OutOfFuel
      | S fuel' =>
          let next := x in
          if (next <? 0) || (next >=? length) || (next =? current) then
            let* _ := idx_do (fun l => aset l i next) in
            fail Contract
          else
            let* _ := elem_swap current next in
            let* _ := idx_do (fun l => aset l current current) in
            it_apply_inner fuel' i length next
      end.
  (** The outer loop: experimental/algorithm.hpp:40-57. *)
  Fixpoint it_apply_outer (fuel count : nat) (i length : Z) : prog unit :=
    match count with
    | O => ret tt
    | S count' =>
        let* current := it_apply_inner fuel i length i in
        let* _ := idx_do (fun l => aset l current current) in
        it_apply_outer fuel count' (i + 1) length
    end.
  (** apply_permutation(): experimental/algorithm.hpp:26-58; [n] is last - first, [diff] the value type of the index range. *)
  Definition it_apply_permutation (diff : ity) (n : Z) : prog unit :=
    let len := cast diff n in
    it_apply_outer (S (Z.to_nat n)) (Z.to_nat len) 0 len.

  (** The inner loop of apply_reverse_permutation(): experimental/algorithm.hpp:79-86. *)
  Fixpoint it_reverse_inner (fuel : nat) (i length : Z) : prog unit :=
    let* x := idx_get i in
    if i =? x then ret tt
    else
      match fuel with
      | O => fail OutOfFuel
      | S fuel' =>
          let next := x in
          if negb ((next >=? 0) && (next <? length)) then fail Contract
          else
            let* y := idx_get next in
            if next =? y then fail Contract
            else
              let* _ := elem_swap i next in
              let* _ := idx_do (fun l => swap_at l i next) in
              it_reverse_inner fuel' i length
      end.
  (** The outer loop: experimental/algorithm.hpp:77-87. *)
  Fixpoint it_reverse_outer (fuel count : nat) (i length : Z) : prog unit :=
    match count with
    | O => ret tt
    | S count' =>
        let* _ := it_reverse_inner fuel i length in
        it_reverse_outer fuel count' (i + 1) length
    end.
  (** apply_reverse_permutation(): experimental/algorithm.hpp:63-88. *)
  Definition it_apply_reverse_permutation (diff : ity) (n : Z) : prog unit :=
    let len := cast diff n in
    it_reverse_outer (S (Z.to_nat n)) (Z.to_nat len) 0 len.

  (** The loop of shuffle(): algorithm.hpp:44-52.  [dist g lo hi] is dist(rng, Param(lo, hi)), which may throw, too;
      [g] is the state of the generator and of the distribution. *)
  Fixpoint it_shuffle_loop {G} (dist : G -> Z -> Z -> G * outcome Z) (n : nat) (g : G) (st : St) : G * St * outcome unit :=
    match n with
    | O => (g, st, Ok tt)
    | S n' =>
        let i := Z.of_nat n in
        let '(g, j) := dist g 0 i in
        match j with
        | Ok j =>
            if negb (i =? j) then
              let '(st, o) := swap st i j in
              match o with
              | Ok _ => it_shuffle_loop dist n' g st
              | o => (g, st, o)
              end
            else it_shuffle_loop dist n' g st
        | o => (g, st, do _ <- o; Ok tt)
        end
    end.
  (** shuffle(): algorithm.hpp:34-53; [n] is last - first. *)
  Definition it_shuffle {G} (dist : G -> Z -> Z -> G * outcome Z) (n : Z) (g : G) (st : St) : G * St * outcome unit :=
    it_shuffle_loop dist (Z.to_nat (n - 1)) g st.
End Generic.
Arguments prog : clear implicits.

(** ** Arrays *)

(** Iterators of an array of which swap() does not throw.  For experimental/algorithm.hpp:52, 84 and algorithm.hpp:50. *)
Definition array_swap {A} (es : list A) (a b : Z) : list A * outcome unit :=
  match swap_at es a b with
  | Ok es' => (es', Ok tt)
  | o => (es, do _ <- o; Ok tt)
  end.

(** ** soa_span<> *)

Section Soa.
  Context {V : Type}.
  Notation state := (state (V := V)).

  (** swap(first[a], first[b]): experimental/detail/span.hpp:145-148 and 94-107. *)
  Definition soa_swap (first : iterator) (st : state) (a b : Z) : state * outcome unit :=
    match (do r <- it_subscript first a; do r' <- it_subscript first b; ref_swap st r r') with
    | Ok st' => (st', Ok tt)
    | o => (st, do _ <- o; Ok tt)
    end.

  (** The algorithms for two iterators of the same type.  swap() of references is not declared if one of the element types
      is const (experimental/detail/span.hpp:95), and std::swap() does not accept rvalues; this is an error even if no
      swap would be executed. *)
  Definition swappable (first : iterator) : bool := negb (existsb (fun c => c) (it_const first)).
  (** experimental/algorithm.hpp:26-58. *)
  Definition soa_apply_permutation (diff : ity) (first last : iterator) : prog state unit := fun s =>
    if swappable first then
      match it_diff last first with
      | Ok n => it_apply_permutation (soa_swap first) diff n s
      | o => (s, do _ <- o; Ok tt)
      end
    else (s, IllFormed).
  (** experimental/algorithm.hpp:63-88. *)
  Definition soa_apply_reverse_permutation (diff : ity) (first last : iterator) : prog state unit := fun s =>
    if swappable first then
      match it_diff last first with
      | Ok n => it_apply_reverse_permutation (soa_swap first) diff n s
      | o => (s, do _ <- o; Ok tt)
      end
    else (s, IllFormed).
  (** algorithm.hpp:34-53. *)
  Definition soa_shuffle {G} (dist : G -> Z -> Z -> G * outcome Z) (first last : iterator) (g : G) (st : state)
      : G * state * outcome unit :=
    if swappable first then
      match it_diff last first with
      | Ok n => it_shuffle (soa_swap first) dist n g st
      | o => (g, st, do _ <- o; Ok tt)
      end
    else (g, st, IllFormed).
End Soa.
