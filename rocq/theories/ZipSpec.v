(** Specification of zipped ranges and range algorithms. *)

From Coq Require Import ZArith Arith List.
From Verif Require Import Base ZipModel.
Import ListNotations.

Local Open Scope Z_scope.

(** * Sizes *)
(** [n] is a size known at compile time / at all. *)
Definition static_size (ds : list dim) (n : Z) : Prop := In (SStatic n) ds /\ n <> -1.
Definition known_size (ds : list dim) (n : Z) : Prop := static_size ds n \/ In (SDyn n) ds.

(** * Ranges *)
(** Ranges as they exist: only ranges with iterator pairs may lack a size. *)
Definition proper_range (r : rng) : Prop :=
  0 <= r_len r /\
  match r_mode r with
  | MIter | MIndex => r_known r <> KUnknown
  | _ => True
  end.
Definition holds_elements (r : rng) : Prop := r_mode r <> MRangeIndex.

(** The references to position [j] of all ranges. *)
Definition tuple_at (rs : list rng) (j : Z) : list ref :=
  map (fun kr => match r_mode (snd kr) with MRangeIndex => RIdx j | _ => RElem (fst kr) j end)
      (combine (seq 0 (length rs)) rs).
(** All of them in order. *)
Definition tuples (rs : list rng) (n : nat) : list (list ref) := map (fun j => tuple_at rs (Z.of_nat j)) (seq 0 n).

Definition all_length (rs : list rng) (n : Z) : Prop := forall r, In r rs -> holds_elements r -> r_len r = n.
Definition shortest_length (rs : list rng) (m : Z) : Prop :=
  (exists r, In r rs /\ holds_elements r /\ r_len r = m) /\
  forall r, In r rs -> holds_elements r -> m <= r_len r.
(** The ranges with known sizes agree. *)
Definition known_agree (rs : list rng) : Prop :=
  forall r1 r2, In r1 rs -> In r2 rs -> holds_elements r1 -> holds_elements r2 ->
    r_known r1 <> KUnknown -> r_known r2 <> KUnknown -> r_len r1 = r_len r2.
(** Some range has a known size, or there are at most two range_index arguments.  (With more, the end test does not
    compile; see C25_index_arguments.) *)
Definition enough_known (rs : list rng) : Prop :=
  (exists r, In r rs /\ holds_elements r /\ r_known r <> KUnknown) \/
  (length (filter (fun r => match r_mode r with MRangeIndex => true | _ => false end) rs) <= 2)%nat.

(** The result once a length mismatch shows up. *)
Definition then_fail {S A B : Type} (res : S * outcome A) : S * outcome B :=
  match res with
  | (s, Ok _) => (s, Contract)
  | (s, Contract) => (s, Contract) | (s, Throw e) => (s, Throw e) | (s, UB) => (s, UB)
  | (s, IllFormed) => (s, IllFormed) | (s, OutOfFuel) => (s, OutOfFuel)
  end.

(** * Sequences of calls *)
Section Calls.
  Context {S X : Type}.

  (** Calling [f] for every argument in order; the first call that does not return normally ends the sequence. *)
  Fixpoint call_each (f : S -> X -> S * outcome unit) (s : S) (l : list X) : S * outcome unit :=
    match l with
    | [] => (s, Ok tt)
    | x :: r => match f s x with (s', Ok _) => call_each f s' r | other => other end
    end.

  (** Left fold with stateful transformer and reducer. *)
  Fixpoint fold_calls {A B : Type} (reduce : S -> A -> B -> S * outcome A) (transform : S -> X -> S * outcome B)
      (s : S) (a : A) (l : list X) : S * outcome A :=
    match l with
    | [] => (s, Ok a)
    | x :: r =>
        match transform s x with
        | (s1, Ok b) => match reduce s1 a b with (s2, Ok a') => fold_calls reduce transform s2 a' r | other => other end
        | (s1, Contract) => (s1, Contract) | (s1, Throw e) => (s1, Throw e) | (s1, UB) => (s1, UB)
        | (s1, IllFormed) => (s1, IllFormed) | (s1, OutOfFuel) => (s1, OutOfFuel)
        end
    end.

  (** The results of a predicate that is called for every argument in order and always returns. *)
  Inductive answers (p : S -> X -> S * outcome bool) : S -> list X -> list bool -> S -> Prop :=
  | answers_nil : forall s, answers p s [] [] s
  | answers_cons : forall s x b s1 l bs s2, p s x = (s1, Ok b) -> answers p s1 l bs s2 ->
      answers p s (x :: l) (b :: bs) s2.
End Calls.

(** * Iterators *)
(** Iterators obtained from [b] by moving within the first [n] elements and one past, with the resulting position. *)
Inductive reach (b : zip_iterator) (n : Z) : zip_iterator -> Z -> Prop :=
| reach_start : reach b n b 0
| reach_move : forall it k d it', reach b n it k -> 0 <= k + d <= n -> zip_advance it d = Ok it' -> reach b n it' (k + d).

(** * Iterator categories, from weakest to strongest. *)
Definition provides (c : category) (d : category) : Prop :=
  match c, d with
  | COutput, COutput => True
  | COutput, _ | _, COutput => False
  | CRandomAccess, _ => True
  | CBidirectional, (CInput | CForward | CBidirectional) => True
  | CForward, (CInput | CForward) => True
  | CInput, CInput => True
  | _, _ => False
  end.

(** * The values of a number of calls of a generator. *)
Inductive generated {A S : Type} (gen : S -> S * outcome A) : S -> list A -> S -> Prop :=
| generated_nil : forall s, generated gen s [] s
| generated_cons : forall s v s1 vs s2, gen s = (s1, Ok v) -> generated gen s1 vs s2 -> generated gen s (v :: vs) s2.
