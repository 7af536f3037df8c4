(** Specification of threads that work on disjoint parts: data races, executions, and the contents of a part. *)

From Coq Require Import ZArith Arith Bool List Permutation Relations.
From Verif Require Import Base ExpandModel ExpandSpec PermModel PermSpec SoaModel SoaSpec ConcModel.
Import ListNotations.
Local Open Scope Z_scope.

Section Spec.
  Context {V : Type}.

  (** ** Executions *)
  (** The next access of a thread: to which object, and whether it writes. *)
  Inductive next_access {R} : act V R -> loc -> bool -> Prop :=
  | next_read : forall l k, next_access (Read l k) l false
  | next_write : forall l w k, next_access (Write l w k) l true.
  (** Two threads are about to access the same object, and one of them is going to write. *)
  Definition race {R} (ps : list (act V R)) : Prop :=
    exists t u p q l x y, t <> u /\ nth_error ps t = Some p /\ nth_error ps u = Some q /\
      next_access p l x /\ next_access q l y /\ (x = true \/ y = true).
  (** All threads have ended. *)
  Definition finished {R} (ps : list (act V R)) : Prop := Forall (fun p => exists o, p = Done o) ps.
  Definition reachable {R} : heap V * list (act V R) -> heap V * list (act V R) -> Prop := clos_refl_trans_1n _ step.

  (** ** What is in memory *)
  (** The arrays [m]. *)
  Definition holds_arrays (m : memory (V := V)) (h : heap V) : Prop :=
    forall b i, h (LElem b i) =
      match nth_error m b with
      | Some bl => match cell m b i with Some v => Some (negb (b_const bl), VElem v) | None => None end
      | None => None
      end.
  (** The index range [arr] with the elements [idx]. *)
  Definition holds_indices (arr : nat) (idx : list Z) (h : heap V) : Prop :=
    forall z, h (LIdx arr z) = if z <? 0 then None else match nth_error idx (Z.to_nat z) with Some x => Some (true, VIdx x) | None => None end.

  (** ** Parts *)
  (** Tuples a..b-1 of a span object, or an array of n elements. *)
  Inductive place := InSoa (spans : list span) (o : nat) (a b : Z) | InArray (p : ptr) (n : Z).
  Definition spans_of (x : place) : list span := match x with InSoa spans _ _ _ => spans | InArray p n => [mk_span false p n] end.
  Definition from (x : place) : Z := match x with InSoa _ _ a _ => a | InArray _ _ => 0 end.
  Definition count (x : place) : Z := match x with InSoa _ _ a b => b - a | InArray _ n => n end.
  (** The call. *)
  Definition program (m : memory (V := V)) (x : place) (j : job) : act V unit :=
    match x with
    | InSoa spans o a b => soa_call m j (mk_it (map s_const spans) o a) (mk_it (map s_const spans) o b)
    | InArray p n => ptr_call m j p n
    end.
  (** Cell [i] of array [b] belongs to the part. *)
  Definition inside (x : place) (b : nat) (i : Z) : Prop :=
    exists s k, In s (spans_of x) /\ 0 <= k < count x /\ at_index s (from x + k) b i.
  (** The tuples of the part. *)
  Definition content (h : heap V) (s : span) (k : Z) : option (bool * value V) :=
    match s_data s with PNull => None | PAt b i => h (LElem b (i + k)) end.
  Definition tuples (h : heap V) (x : place) : list (list (option (bool * value V))) :=
    map (fun k => map (fun s => content h s (from x + Z.of_nat k)) (spans_of x)) (seq 0 (Z.to_nat (count x))).

  (** A part that can be rearranged. *)
  Definition place_ok (m : memory (V := V)) (h : heap V) (x : place) : Prop :=
    Forall (span_ok m) (spans_of x) /\ Forall (fun s => s_const s = false) (spans_of x) /\ disjoint (spans_of x) /\
    match x with
    | InSoa spans o a b => exists s c, soa_span spans = Ok s /\ h (LObj o) = Some (c, VObj s) /\ 0 <= a <= b /\ b <= soa_size s
    | InArray _ _ => True
    end.

  (** ** What a call does to a part, depending on the elements of its index range *)
  Definition indices_of (j : job) : option (ity * nat) :=
    match j with Apply d a => Some (d, a) | Reverse d a => Some (d, a) | Shuffle _ => None end.
  Definition job_ok (h : heap V) (n : Z) (idx : list Z) (j : job) : Prop :=
    match j with
    | Apply d a | Reverse d a =>
        1 <= ity_bits d /\ int_value (ity_bits d) (ity_signed d) n /\ Z.of_nat (length idx) = n /\ holds_indices a idx h
    | Shuffle ds => draws_ok (Z.to_nat n - 1) ds
    end.
  Inductive result {A} (j : job) (idx : list Z) (h' : heap V) (es : list A) : outcome unit -> list A -> Prop :=
  | res_apply : forall d a es', j = Apply d a -> is_permutation (length idx) idx -> gathered es idx es' ->
      holds_indices a (identity (length idx)) h' -> result j idx h' es (Ok tt) es'
  | res_reverse : forall d a es', j = Reverse d a -> is_permutation (length idx) idx -> scattered es idx es' ->
      holds_indices a (identity (length idx)) h' -> result j idx h' es (Ok tt) es'
  | res_shuffle : forall ds es' log, j = Shuffle ds -> shuffle scripted ds es = Ok ([], es', log) -> result j idx h' es (Ok tt) es'
  | res_violation : forall d a es', indices_of j = Some (d, a) -> ~ is_permutation (length idx) idx -> Permutation es es' ->
      result j idx h' es Contract es'.

  (** Different threads: no element in common, and different index ranges. *)
  Definition apart (x : place * job) (y : place * job) : Prop :=
    (forall b i, inside (fst x) b i -> ~ inside (fst y) b i) /\
    (forall d a d' a', indices_of (snd x) = Some (d, a) -> indices_of (snd y) = Some (d', a') -> a <> a').
  (** Objects that a thread may write to. *)
  Inductive writes_to (x : place * job) : loc -> Prop :=
  | writes_elem : forall b i, inside (fst x) b i -> writes_to x (LElem b i)
  | writes_idx : forall d a i, indices_of (snd x) = Some (d, a) -> writes_to x (LIdx a i).
End Spec.

(** ** Several threads: each has a part, a call, and the elements of its index range. *)
Notation thread := (place * job * list Z)%type.
Section Threads.
  Context {V : Type}.
  Definition programs (m : memory (V := V)) (ts : list thread) : list (act V unit) := map (fun t => program m (fst (fst t)) (snd (fst t))) ts.
  Definition threads_ok (m : memory (V := V)) (h : heap V) (ts : list thread) : Prop :=
    holds_arrays m h /\
    (forall x j idx, In (x, j, idx) ts -> place_ok m h x /\ job_ok h (count x) idx j) /\
    (forall t u x y, nth_error ts t = Some x -> nth_error ts u = Some y -> t <> u -> apart (fst x) (fst y)).
End Threads.
