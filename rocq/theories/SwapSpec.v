(** Specification of the number of swaps and draws a rearrangement needs. *)

From Coq Require Import ZArith List.
From Verif Require Import Base PermItSpec.
Import ListNotations.
Local Open Scope Z_scope.

(** A swap operation that also keeps a record of the calls, including one that throws. *)
Definition recorded {St} (swap : St -> Z -> Z -> St * outcome unit) (s : St * list (Z * Z)) (a b : Z) : (St * list (Z * Z)) * outcome unit :=
  let '(st, o) := swap (fst s) a b in ((st, snd s ++ [(a, b)]), o).

(** A source of draws that also keeps a record of the requested ranges. *)
Definition recorded_draws {G} (dist : G -> Z -> Z -> G * outcome Z) (s : G * list (Z * Z)) (lo hi : Z) : (G * list (Z * Z)) * outcome Z :=
  let '(g, o) := dist (fst s) lo hi in ((g, snd s ++ [(lo, hi)]), o).

(** Exchanging the elements at the given pairs of positions, one pair after the other, turns [es] into [es']. *)
Inductive exchanges {A} : list (Z * Z) -> list A -> list A -> Prop :=
| no_exchange : forall es, exchanges [] es es
| one_exchange : forall a b sw es es1 es2,
    0 <= a < Z.of_nat (length es) -> 0 <= b < Z.of_nat (length es) ->
    exchanged es a b es1 -> exchanges sw es1 es2 -> exchanges ((a, b) :: sw) es es2.

(** [count] exchanges are the fewest that turn distinguishable elements [es] into [es']. *)
Definition fewest_exchanges {A} (count : nat) (es es' : list A) : Prop :=
  (exists sw, exchanges sw es es' /\ length sw = count) /\
  forall sw, exchanges sw es es' -> (count <= length sw)%nat.

(** What a shuffle of k + 1 elements draws: a position for each of the last k elements, the last one first. *)
Fixpoint draw_ranges (k : nat) : list (Z * Z) :=
  match k with
  | O => []
  | S k' => (0, Z.of_nat k) :: draw_ranges k'
  end.
