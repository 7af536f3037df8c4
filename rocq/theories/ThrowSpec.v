(** Specification for exceptions thrown by the caller's types. *)

From Coq Require Import ZArith Arith List Permutation.
From Verif Require Import Base TupleModel ThrowModel.
Import ListNotations.

(** * Tuple-like types *)
Section Get.
  Context {S V : Type}.
  Variable user_get : S -> nat -> nat -> S * outcome V.

  (** The elements of all arguments for one index, and for all indices. *)
  Definition row_of (l : list targ) (i : nat) (row : list (element (nat * nat))) : Prop :=
    length row = length l /\
    forall k t, nth_error l k = Some t ->
      nth_error row k = Some (match t with TTuple _ => Elem (k, i) | TRangeIndex => Index i | TTupleIndex => IndexConstant i end).
  Definition all_rows (l : list targ) (n : nat) (rows : list (list (element (nat * nat)))) : Prop :=
    length rows = n /\ forall i row, nth_error rows i = Some row -> row_of l i row.
  (** All tuples have [n] elements, and there is one. *)
  Definition sizes (l : list targ) (n : nat) : Prop := In (TTuple n) l /\ forall m, In (TTuple m) l -> m = n.

  (** Reading one element. *)
  Inductive reads : S -> element (nat * nat) -> S -> outcome (element V) -> Prop :=
  | reads_value : forall s a i s' v, user_get s a i = (s', Ok v) -> reads s (Elem (a, i)) s' (Ok (Elem v))
  | reads_throws : forall s a i s' e, user_get s a i = (s', Throw e) -> reads s (Elem (a, i)) s' (Throw e)
  | reads_index : forall s i, reads s (Index i) s (Ok (Index i))
  | reads_constant : forall s i, reads s (IndexConstant i) s (Ok (IndexConstant i)).
  (** Reading elements of a row in some order, each without exception. *)
  Inductive all_read {E X : Type} (reads : S -> E -> S -> outcome X -> Prop) (row : list E) : S -> list nat -> list (nat * X) -> S -> Prop :=
  | all_read_nil : forall s, all_read reads row s [] [] s
  | all_read_cons : forall s p e s1 x ps l s2, nth_error row p = Some e -> reads s e s1 (Ok x) -> all_read reads row s1 ps l s2 ->
      all_read reads row s (p :: ps) ((p, x) :: l) s2.
  (** The list of the values read. *)
  Definition values {X : Type} (n : nat) (l : list (nat * X)) (xs : list X) : Prop :=
    length xs = n /\ forall p x, In (p, x) l -> nth_error xs p = Some x.

  (** A call with the elements of a row: when all elements could be read, it is a call of the function; when one could not, the program is
      terminated there. *)
  Inductive row_call {R : Type} (order : list (element (nat * nat)) -> list nat) (func : S -> list (element V) -> S * outcome R)
      : S -> list (element (nat * nat)) -> S -> outcome R -> Prop :=
  | row_calls : forall s row l s1 xs s2 o, all_read reads row s (order row) l s1 -> values (length row) l xs ->
      func s1 xs = (s2, o) -> row_call order func s row s2 o
  | row_terminates : forall s row ps p qs l s1 e s2 ex, order row = ps ++ p :: qs -> all_read reads row s ps l s1 ->
      nth_error row p = Some e -> reads s1 e s2 (Throw ex) -> row_call order func s row s2 Contract.

  (** Calls in sequence until one does not return. *)
  Inductive calls {X R : Type} (f : S -> X -> S -> outcome R -> Prop) : S -> list X -> S -> outcome (list R) -> Prop :=
  | calls_nil : forall s, calls f s [] s (Ok [])
  | calls_cons : forall s x s1 r xs s2 rs, f s x s1 (Ok r) -> calls f s1 xs s2 (Ok rs) -> calls f s (x :: xs) s2 (Ok (r :: rs))
  | calls_contract_later : forall s x s1 r xs s2, f s x s1 (Ok r) -> calls f s1 xs s2 Contract -> calls f s (x :: xs) s2 Contract
  | calls_throw_later : forall s x s1 r xs s2 e, f s x s1 (Ok r) -> calls f s1 xs s2 (Throw e) -> calls f s (x :: xs) s2 (Throw e)
  | calls_contract : forall s x s1 xs, f s x s1 Contract -> calls f s (x :: xs) s1 Contract
  | calls_throw : forall s x s1 xs e, f s x s1 (Throw e) -> calls f s (x :: xs) s1 (Throw e).
  (** A left fold until something does not return. *)
  Inductive folds {X A B : Type} (reduce : S -> A -> B -> S * outcome A) (f : S -> X -> S -> outcome B -> Prop)
      : S -> A -> list X -> S -> outcome A -> Prop :=
  | folds_nil : forall s a, folds reduce f s a [] s (Ok a)
  | folds_cons : forall s a x xs s1 b s2 a' s3 o, f s x s1 (Ok b) -> reduce s1 a b = (s2, Ok a') -> folds reduce f s2 a' xs s3 o ->
      folds reduce f s a (x :: xs) s3 o
  | folds_reduce_throws : forall s a x xs s1 b s2 e, f s x s1 (Ok b) -> reduce s1 a b = (s2, Throw e) -> folds reduce f s a (x :: xs) s2 (Throw e)
  | folds_throw : forall s a x xs s1 e, f s x s1 (Throw e) -> folds reduce f s a (x :: xs) s1 (Throw e)
  | folds_contract : forall s a x xs s1, f s x s1 Contract -> folds reduce f s a (x :: xs) s1 Contract.
  (** A conjunction. *)
  Inductive conjoins {X : Type} (f : S -> X -> S -> outcome bool -> Prop) : S -> list X -> S -> outcome bool -> Prop :=
  | conjoins_nil : forall s, conjoins f s [] s (Ok true)
  | conjoins_true : forall s x s1 xs s2 o, f s x s1 (Ok true) -> conjoins f s1 xs s2 o -> conjoins f s (x :: xs) s2 o
  | conjoins_false : forall s x s1 xs, f s x s1 (Ok false) -> conjoins f s (x :: xs) s1 (Ok false)
  | conjoins_throw : forall s x s1 xs e, f s x s1 (Throw e) -> conjoins f s (x :: xs) s1 (Throw e)
  | conjoins_contract : forall s x s1 xs, f s x s1 Contract -> conjoins f s (x :: xs) s1 Contract.

  (** Reading directly. *)
  Definition reads_directly (s : S) (p : nat * nat) (s' : S) (o : outcome V) : Prop := user_get s (fst p) (snd p) = (s', o).
  (** The positions of a concatenation of tuples with the given sizes, the first with number [k]. *)
  Fixpoint positions (k : nat) (sizes : list nat) : list (nat * nat) :=
    match sizes with [] => [] | n :: r => map (fun i => (k, i)) (seq 0 n) ++ positions (Datatypes.S k) r end.

  (** The order in which elements are read covers each once. *)
  Definition orders (order : list (element (nat * nat)) -> list nat) : Prop := forall row, Permutation (order row) (seq 0 (length row)).
  (** get<I>() either returns or throws. *)
  Definition returns_or_throws : Prop := forall s a i, exists s' o, user_get s a i = (s', o) /\ ((exists v, o = Ok v) \/ exists e, o = Throw e).
End Get.

(** * Zip iterators *)
Section Zip.
  Variable env : history -> nat -> zop -> Z -> Z * outcome Z.

  Local Open Scope Z_scope.

  (** How far an operation moves an iterator. *)
  Definition moves_by (op : zop) : Z := match op with OInc => 1 | ODec => -1 | OAdd d => d | _ => 0 end.
  (** Iterators move as they should when no exception is thrown. *)
  Definition well_behaved : Prop := forall h k op pos pos' x, env h k op pos = (pos', Ok x) -> pos' = pos + moves_by op.

  (** A zip iterator of the given kinds of components ([Some b] for an iterator that began at [b], and data pointers and indices) after [i]
      steps. *)
  Inductive kind := KIter (begin : Z) | KData | KIndex.
  Definition at_step (kinds : list kind) (i : Z) (z : zip_iterator) : Prop :=
    snd z = i /\ fst z = map (fun k => match k with KIter b => LIter (b + i) | KData => LData | KIndex => LIndex end) kinds.
  (** The numbers of the iterators among the components. *)
  Definition iterators (kinds : list kind) : list nat :=
    filter (fun k => match nth_error kinds k with Some (KIter _) => true | _ => false end) (seq 0 (length kinds)).

  (** What a client's operation should do with every iterator, and where it should lead. *)
  Definition operations (c : step) : list zop :=
    match c with
    | SInc => [OInc] | SDec => [ODec] | SAdd d => [OAdd d] | SSub d => [OAdd (- d)]
    | SPostInc => [OCopy; OInc] | SPostDec => [OCopy; ODec] | SDeref => [ODeref] | SAt d => [OAt d]
    end.
  Definition leads (c : step) : Z :=
    match c with SInc | SPostInc => 1 | SDec | SPostDec => -1 | SAdd d => d | SSub d => - d | SDeref | SAt _ => 0 end.
  Definition expected_history (kinds : list kind) (cs : list step) : history :=
    flat_map (fun c => flat_map (fun op => map (fun k => (k, op)) (iterators kinds)) (operations c)) cs.
  Definition expected_position (i : Z) (cs : list step) : Z := fold_left (fun i c => i + leads c) cs i.
End Zip.
