(** Specification of expand(). *)

From Coq Require Import ZArith Arith Bool List.
From Coq.Floats Require Import SpecFloat.
From Verif Require Import Base.
Import ListNotations.
Local Open Scope Z_scope.

(** Values of an integral type with [bits] bits. *)
Definition int_value (bits : Z) (signed : bool) (x : Z) : Prop :=
  if signed then - 2 ^ (bits - 1) <= x < 2 ^ (bits - 1) else 0 <= x < 2 ^ bits.

Definition largest (bits : Z) (signed : bool) : Z :=
  if signed then 2 ^ (bits - 1) - 1 else 2 ^ bits - 1.

(** The array lists consecutive values. *)
Definition consecutive (values : list Z) : Prop :=
  forall x0, nth_error values 0 = Some x0 ->
  forall i x, nth_error values i = Some x -> x = x0 + Z.of_nat i.

(** What a user expects of the three functions: [found] is the set of acceptable alternatives. *)
Definition behaves (found : nat -> Prop)
    (e : outcome nat) (t : outcome (option nat)) (f : outcome nat) : Prop :=
  (exists k, found k /\ e = Ok k /\ t = Ok (Some k) /\ f = Ok k) \/
  ((forall k, ~ found k) /\ e = Throw UnsupportedRuntimeValue /\ t = Ok None /\ f = Contract).

(** Never a wrong alternative. *)
Definition sound (found : nat -> Prop)
    (e : outcome nat) (t : outcome (option nat)) (f : outcome nat) : Prop :=
  (forall k, e = Ok k -> found k) /\ (forall k, t = Ok (Some k) -> found k) /\ (forall k, f = Ok k -> found k).

(** A comparison is consistent on the elements satisfying [P] and the runtime value [v]: < is a strict
    weak order and == is its equivalence. *)
Record consistent {A B : Type} (lt_AA : A -> A -> bool) (lt_AB : A -> B -> bool)
    (lt_BA : B -> A -> bool) (eq_AB : A -> B -> bool) (P : A -> Prop) (v : B) : Prop := mk_consistent {
  cons_trans : forall a b c, P a -> P b -> P c ->
    lt_AA b a = false -> lt_AA c b = false -> lt_AA c a = false;
  cons_left : forall a b, P a -> P b -> lt_AA b a = false -> lt_AB b v = true -> lt_AB a v = true;
  cons_right : forall a b, P a -> P b -> lt_AA b a = false -> lt_BA v a = true -> lt_BA v b = true;
  cons_excl : forall a, P a -> eq_AB a v = true -> lt_AB a v = false /\ lt_BA v a = false;
  cons_trichotomy : forall a, P a -> lt_AB a v = false -> lt_BA v a = false -> eq_AB a v = true
}.

(** The widths of integral types (1 is bool). *)
Definition standard_width (bits : Z) : Prop := bits = 1 \/ bits = 8 \/ bits = 16 \/ bits = 32 \/ bits = 64.

(** Size limit of arrays. *)
Definition array_size_ok {A} (l : list A) : Prop := Z.of_nat (length l) < 2 ^ 63.

(** The largest value of the type, if it is at least as wide as int, is listed in last position or not at all. *)
Definition largest_last (bits : Z) (signed : bool) (values : list Z) : Prop :=
  32 <= bits -> forall i, (S i < length values)%nat -> nth_error values i <> Some (largest bits signed).

(** In a signed type at least as wide as int, the distance from the first listed value is representable
    (only relevant if consecutive values are listed). *)
Definition distance_ok (bits : Z) (signed : bool) (value : Z) (values : list Z) : Prop :=
  signed = true -> 32 <= bits -> consecutive values ->
  forall x0, nth_error values 0 = Some x0 -> value - x0 <= largest bits signed.

(** *** All lists of integral constants *)

(** The three functions are rejected, or undefined. *)
Definition all_of_them (o : forall A, outcome A) (e : outcome nat) (t : outcome (option nat)) (f : outcome nat) : Prop :=
  e = o nat /\ t = o (option nat) /\ f = o nat.

(** The list begins with consecutive values of a wide signed type which reach its largest value, and goes on. *)
Definition passes_largest (bits : Z) (signed : bool) (values : list Z) : Prop :=
  signed = true /\ 32 <= bits /\
  exists k, (S k < length values)%nat /\ consecutive (firstn (S k) values) /\ nth_error values k = Some (largest bits signed).

(** Consecutive values of a wide signed type, and a value that is too far from the first one. *)
Definition too_far (bits : Z) (signed : bool) (value : Z) (values : list Z) : Prop :=
  signed = true /\ 32 <= bits /\ consecutive values /\ exists x0, nth_error values 0 = Some x0 /\ value - x0 > largest bits signed.

(** Values of a wide unsigned type, the largest of which is followed by 0 as if it were the next. *)
Definition wraps_around (bits : Z) (signed : bool) (values : list Z) : Prop :=
  signed = false /\ 32 <= bits /\ ~ consecutive values /\
  exists x0, nth_error values 0 = Some x0 /\ forall i x, nth_error values i = Some x -> x = (x0 + Z.of_nat i) mod 2 ^ bits.
