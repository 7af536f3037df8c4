(** Specification of soa_span<>: a sequence of rows. *)

From Coq Require Import ZArith Arith Bool List.
From Verif Require Import Base SoaModel.
Import ListNotations.
Local Open Scope Z_scope.

Section Spec.
  Context {V : Type}.

  (** The content of element [i] of array [b]. *)
  Definition cell (m : memory (V := V)) (b : nat) (i : Z) : option V :=
    if i <? 0 then None else match nth_error m b with Some bl => nth_error (b_elems bl) (Z.to_nat i) | None => None end.
  (** Arrays keep their sizes. *)
  Definition same_layout (m m' : memory (V := V)) : Prop :=
    map (fun bl => (b_const bl, length (b_elems bl))) m = map (fun bl => (b_const bl, length (b_elems bl))) m'.

  (** A span denotes a part of an array, of elements that may be modified unless its element type is const. *)
  Definition span_ok (m : memory (V := V)) (s : span) : Prop :=
    0 <= s_size s < 2 ^ 63 /\
    match s_data s with
    | PNull => s_size s = 0
    | PAt b i => exists bl, nth_error m b = Some bl /\ 0 <= i /\ i + s_size s <= Z.of_nat (length (b_elems bl)) /\
                            (s_const s = false -> b_const bl = false)
    end.
  (** Its elements. *)
  Definition column (m : memory (V := V)) (s : span) : list V :=
    match s_data s with
    | PNull => []
    | PAt b i => match nth_error m b with
                 | Some bl => firstn (Z.to_nat (s_size s)) (skipn (Z.to_nat i) (b_elems bl))
                 | None => []
                 end
    end.
  (** Cell [i] of array [b] is element [k] of the span. *)
  Definition at_index (s : span) (k : Z) (b : nat) (i : Z) : Prop :=
    match s_data s with PNull => False | PAt b' i' => b' = b /\ i' + k = i end.
  Definition covers (s : span) (b : nat) (i : Z) : Prop := exists k, 0 <= k < s_size s /\ at_index s k b i.
  (** Different spans of a list have no element in common. *)
  Definition disjoint (spans : list span) : Prop :=
    forall x y s s' b i, nth_error spans x = Some s -> nth_error spans y = Some s' -> covers s b i -> covers s' b i -> x = y.

  (** Row [k] of a list of columns; all rows. *)
  Definition row (cols : list (list V)) (k : nat) : list (option V) := map (fun col => nth_error col k) cols.
  Definition rows (m : memory (V := V)) (spans : list span) (n : Z) : list (list (option V)) :=
    map (row (map (column m) spans)) (seq 0 (Z.to_nat n)).

  (** Elements o..o+c-1 of a span. *)
  Definition window (o c : Z) (s : span) : span :=
    mk_span (s_const s) (match s_data s with PNull => PNull | PAt b i => PAt b (i + o) end) c.

  (** Exchanging positions [j] and [k]. *)
  Definition exchange (j k i : nat) : nat := if Nat.eqb i j then k else if Nat.eqb i k then j else i.
End Spec.
