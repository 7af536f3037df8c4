(** Model of the tuple and array algorithms: /repo/include/makeshift/tuple.hpp:76-363, array.hpp:43-279,
    detail/tuple.hpp, detail/tuple-transform.hpp, detail/array.hpp, detail/indices-2d.hpp.

    A tuple is the list of its elements; [V] comprises the values of all element types.  Value categories and the types
    of the results are not modelled, except that tuples are accessed with constant indices: an index out of range is a
    compile error, which is found before any call is made. *)

From Coq Require Import ZArith Arith Bool List.
From Verif Require Import Base.
Import ListNotations.

Local Open Scope Z_scope.

(** * Arguments: tuples, range_index, tuple_index (detail/zip.hpp:50-90, detail/tuple-transform.hpp:35-42). *)
Inductive arg (V : Type) : Type :=
| ATuple (elems : list V)
| ARangeIndex
| ATupleIndex.
Arguments ATuple {V}. Arguments ARangeIndex {V}. Arguments ATupleIndex {V}.

(** What get_element<I>() yields: an element, the index as ptrdiff_t, or the index as index_constant<I>.  detail/tuple-transform.hpp:62-67. *)
Inductive element (V : Type) : Type :=
| Elem (v : V)
| Index (i : nat)
| IndexConstant (i : nat).
Arguments Elem {V}. Arguments Index {V}. Arguments IndexConstant {V}.

Section Args.
  Context {V : Type}.

  (** maybe_tuple_size_<>: detail/tuple-transform.hpp:44-46. *)
  Definition maybe_tuple_size (a : arg V) : Z :=
    match a with ATuple l => Z.of_nat (length l) | _ => -1 end.

  (** equal_sizes_0_<>: detail/tuple-transform.hpp:48-58.  [None] is the false_type. *)
  Fixpoint equal_sizes_0 (mismatch : bool) (N : Z) (args : list (arg V)) : option Z :=
    if mismatch then None
    else
      match args with
      | [] => Some N
      | a :: r =>
          let n := maybe_tuple_size a in
          equal_sizes_0 (negb (N =? -1) && negb (n =? -1) && negb (N =? n)) (if negb (N =? -1) then N else n) r
      end.
  (** equal_sizes_<>: detail/tuple-transform.hpp:59. *)
  Definition equal_sizes (args : list (arg V)) : option Z := equal_sizes_0 false (-1) args.

  (** tuple_transform_size<N>(): detail/tuple-transform.hpp:94-103, with the three static_assert()s as they are. *)
  Definition tuple_transform_size (N : Z) (args : list (arg V)) : outcome nat :=
    match equal_sizes args with
    | None => IllFormed
    | Some n =>
        if negb (N =? -1) || negb (n =? -1) || (N =? n) then
          if negb (N =? -1) || negb (n =? -1) then Ok (Z.to_nat (if negb (N =? -1) then N else n)) else IllFormed
        else IllFormed
    end.

  (** get_element<I>(): detail/tuple-transform.hpp:62-67. *)
  Definition get_element (i : nat) (a : arg V) : outcome (element V) :=
    match a with
    | ATuple l => match nth_error l i with Some v => Ok (Elem v) | None => IllFormed end
    | ARangeIndex => Ok (Index i)
    | ATupleIndex => Ok (IndexConstant i)
    end.
  (** The arguments "get_element<I>(args)...": detail/tuple-transform.hpp:74; they do not depend on one another. *)
  Definition get_elements (i : nat) (args : list (arg V)) : outcome (list (element V)) := mapM (get_element i) args.

  Section Functors.
    Context {S R : Type}.

    (** transform_element<I>(): detail/tuple-transform.hpp:70-75. *)
    Definition transform_element (i : nat) (func : S -> list (element V) -> S * outcome R) (args : list (arg V)) (s : S)
        : S * outcome R :=
      match get_elements i args with
      | Ok es => func s es
      | _ => (s, IllFormed)
      end.
    (** Whether the instantiations transform_element<Is>(...)... compile.
        detail/tuple-transform.hpp:90, detail/tuple.hpp:140-141, detail/array.hpp:95, 108. *)
    Definition well_formed_for (indices : list nat) (args : list (arg V)) : outcome unit :=
      do _ <- mapM (fun i => get_elements i args) indices; Ok tt.

    (** template_for_impl(): detail/tuple-transform.hpp:77-92; the initializer list of an array is evaluated from left
        to right. *)
    Fixpoint swallow (indices : list nat) (func : S -> list (element V) -> S * outcome R) (args : list (arg V)) (s : S)
        : S * outcome unit :=
      match indices with
      | [] => (s, Ok tt)
      | i :: r =>
          match transform_element i func args s with
          | (s', Ok _) => swallow r func args s'
          | (s', o) => (s', do _ <- o; Ok tt)
          end
      end.
    (** template_for(), template_for<N>(): tuple.hpp:116-142; [N] is -1 for the former. *)
    Definition template_for (N : Z) (func : S -> list (element V) -> S * outcome R) (args : list (arg V)) (s : S)
        : S * outcome unit :=
      match tuple_transform_size N args with
      | Ok n =>
          match well_formed_for (seq 0 n) args with
          | Ok _ => swallow (seq 0 n) func args s
          | _ => (s, IllFormed)
          end
      | _ => (s, IllFormed)
      end.

    (** "{ transform_element<Is>(func, args...)... }": from left to right.  detail/array.hpp:95, 108. *)
    Fixpoint init_list (indices : list nat) (func : S -> list (element V) -> S * outcome R) (args : list (arg V)) (s : S)
        : S * outcome (list R) :=
      match indices with
      | [] => (s, Ok [])
      | i :: r =>
          match transform_element i func args s with
          | (s', Ok x) => let '(s'', o) := init_list r func args s' in (s'', do xs <- o; Ok (x :: xs))
          | (s', o) => (s', do _ <- o; Ok [])
          end
      end.
    (** array_transform(), array_transform<N>() and the overloads for element type and array template:
        array.hpp:43-177, array_transform_impl(), array_transform_to_impl(): detail/array.hpp:79-110.  The conversion
        of the results to the element type is not modelled. *)
    Definition array_transform (N : Z) (func : S -> list (element V) -> S * outcome R) (args : list (arg V)) (s : S)
        : S * outcome (list R) :=
      match tuple_transform_size N args with
      | Ok n =>
          match well_formed_for (seq 0 n) args with
          | Ok _ => init_list (seq 0 n) func args s
          | _ => (s, IllFormed)
          end
      | _ => (s, IllFormed)
      end.

    (** "RTuple(transform_element<Is>(func, args...)...)": the order in which the arguments of a call are evaluated is
        unspecified; [order] is the order chosen by the compiler.  The result holds the value for each index.  detail/tuple.hpp:141. *)
    Fixpoint evaluate_in (order : list nat) (func : S -> list (element V) -> S * outcome R) (args : list (arg V)) (s : S)
        (values : nat -> option R) : S * outcome (nat -> option R) :=
      match order with
      | [] => (s, Ok values)
      | i :: r =>
          match transform_element i func args s with
          | (s', Ok x) => evaluate_in r func args s' (fun j => if Nat.eqb j i then Some x else values j)
          | (s', o) => (s', do _ <- o; Ok values)
          end
      end.
    (** tuple_transform() and overloads: tuple.hpp:154-216; tuple_transform_impl(): detail/tuple.hpp:129-142. *)
    Definition tuple_transform (order : list nat) (N : Z) (func : S -> list (element V) -> S * outcome R) (args : list (arg V)) (s : S)
        : S * outcome (list R) :=
      match tuple_transform_size N args with
      | Ok n =>
          match well_formed_for (seq 0 n) args with
          | Ok _ =>
              let '(s', o) := evaluate_in order func args s (fun _ => None) in
              (s', do values <- o; mapM (fun i => match values i with Some x => Ok x | None => UB end) (seq 0 n))
          | _ => (s, IllFormed)
          end
      | _ => (s, IllFormed)
      end.
  End Functors.

  (** transform_reduce_fn<true, N, ...>: detail/tuple.hpp:145-164; [k] is the number of remaining indices. *)
  Fixpoint transform_reduce_fn {S A B : Type} (k I N : nat) (reduce : S -> A -> B -> S * outcome A)
      (transform : S -> list (element V) -> S * outcome B) (args : list (arg V)) (s : S) (value : A) : S * outcome A :=
    match k with
    | O => (s, Ok value)
    | Datatypes.S k' =>
        match transform_element I transform args s with
        | (s1, Ok b) =>
            match reduce s1 value b with
            | (s2, Ok a) => transform_reduce_fn k' (Datatypes.S I) N reduce transform args s2 a
            | other => other
            end
        | (s1, o) => (s1, do _ <- o; Ok value)
        end
    end.
  (** template_transform_reduce(), template_reduce(): tuple.hpp:229-259 (the latter with gsl::identity for one tuple). *)
  Definition template_transform_reduce {S A B : Type} (init : A) (reduce : S -> A -> B -> S * outcome A)
      (transform : S -> list (element V) -> S * outcome B) (args : list (arg V)) (s : S) : S * outcome A :=
    match tuple_transform_size (-1) args with
    | Ok n =>
        match well_formed_for (seq 0 n) args with
        | Ok _ => transform_reduce_fn n 0 n reduce transform args s init
        | _ => (s, IllFormed)
        end
    | _ => (s, IllFormed)
    end.
  (** template_reduce(): tuple.hpp:250-259. *)
  Definition template_reduce {S A : Type} (init : A) (reduce : S -> A -> element V -> S * outcome A) (a : arg V) (s : S)
      : S * outcome A :=
    template_transform_reduce init reduce (fun s es => (s, match es with [e] => Ok e | _ => IllFormed end)) [a] s.

  (** conjunction_fn<>: detail/tuple.hpp:165-181; [neg]: PredFuncT is negation_fn (detail/zip.hpp:24-30) rather than
      gsl::identity. *)
  Fixpoint conjunction_fn {S : Type} (k I : nat) (neg : bool) (pred : S -> list (element V) -> S * outcome bool)
      (args : list (arg V)) (s : S) : S * outcome bool :=
    match k with
    | O => (s, Ok true)
    | Datatypes.S k' =>
        match transform_element I pred args s with
        | (s', Ok b) =>
            if negb (if neg then negb b else b) then (s', Ok false)
            else conjunction_fn k' (Datatypes.S I) neg pred args s'
        | other => other
        end
    end.
  (** The common part of template_all_of(), template_any_of() and template_none_of(): tuple.hpp:274-278, 294-298, 314-318. *)
  Definition conjunction {S : Type} (neg : bool) (pred : S -> list (element V) -> S * outcome bool) (args : list (arg V)) (s : S)
      : S * outcome bool :=
    match tuple_transform_size (-1) args with
    | Ok n =>
        match well_formed_for (seq 0 n) args with
        | Ok _ => conjunction_fn n 0 neg pred args s
        | _ => (s, IllFormed)
        end
    | _ => (s, IllFormed)
    end.
  (** template_all_of(), template_any_of(), template_none_of(): tuple.hpp:270-319. *)
  Definition template_all_of {S : Type} (pred : S -> list (element V) -> S * outcome bool) := conjunction (S := S) false pred.
  (** tuple.hpp:290-299. *)
  Definition template_any_of {S : Type} (pred : S -> list (element V) -> S * outcome bool) (args : list (arg V)) (s : S) :=
    let '(s', o) := conjunction (S := S) true pred args s in (s', do b <- o; Ok (negb b)).
  (** tuple.hpp:310-319. *)
  Definition template_none_of {S : Type} (pred : S -> list (element V) -> S * outcome bool) := conjunction (S := S) true pred.

  (** apply(): tuple.hpp:322-327, detail/tuple.hpp:240-257 (the second loop-free half of invoke() is not modelled). *)
  Definition apply {S R : Type} (func : S -> list V -> S * outcome R) (t : list V) (s : S) : S * outcome R :=
    match mapM (fun i => match nth_error t i with Some v => Ok v | None => IllFormed end) (seq 0 (length t)) with
    | Ok vs => func s vs
    | _ => (s, IllFormed)
    end.
End Args.

(** * Concatenation *)

(** The range of std::size_t in detail/indices-2d.hpp:14-48, for a 64-bit platform. *)
Definition size_t_modulus : Z := 2 ^ 64.

(** cadd<size_t>(): detail/indices-2d.hpp:14-19, a right fold. *)
Fixpoint cadd (vs : list Z) : Z := match vs with [] => 0 | v :: r => (v + cadd r) mod size_t_modulus end.

(** indices_2d_<Ns...>: detail/indices-2d.hpp:22-48.  The loop of row() and col(), evaluated by the compiler: reading
    sizes[r] past the end makes the program ill-formed.  Returns (r, i). *)
Fixpoint indices_loop (sizes : list Z) (r : nat) (i : Z) : outcome (nat * Z) :=
  match sizes with
  | [] => IllFormed
  | n :: rest => if n <=? i then indices_loop rest (S r) (i - n) else Ok (r, i)
  end.
(** size: detail/indices-2d.hpp:25. *)
Definition indices_size (sizes : list Z) : Z := cadd sizes.
(** row(): detail/indices-2d.hpp:26-36. *)
Definition indices_row (sizes : list Z) (i : Z) : outcome nat := do p <- indices_loop sizes 0 i; Ok (fst p).
(** col(): detail/indices-2d.hpp:37-47. *)
Definition indices_col (sizes : list Z) (i : Z) : outcome Z := do p <- indices_loop sizes 0 i; Ok (snd p).

(** tuple_cat(): tuple.hpp:338-363, tuple_cat_impl(): detail/tuple.hpp:260-273; array_cat(): array.hpp:254-279,
    array_cat_impl(): detail/array.hpp:112-127, which are identical up to the result type. *)
Definition cat_impl {V : Type} (tuples : list (list V)) : outcome (list V) :=
  let sizes := map (fun t => Z.of_nat (length t)) tuples in
  mapM (fun i =>
          do c <- indices_col sizes (Z.of_nat i);
          do r <- indices_row sizes (Z.of_nat i);
          match nth_error tuples r with
          | Some t => match nth_error t (Z.to_nat c) with Some v => Ok v | None => IllFormed end
          | None => IllFormed
          end) (seq 0 (Z.to_nat (indices_size sizes))).
(** tuple_cat(): tuple.hpp:338-363; the tuple template is not modelled. *)
Definition tuple_cat {V : Type} (tuples : list (list V)) : outcome (list V) := cat_impl tuples.
(** array_cat(): array.hpp:254-279; the array template and the conversion to the element type are not modelled. *)
Definition array_cat {V : Type} (tuples : list (list V)) : outcome (list V) := cat_impl tuples.

(** array_fill(): array.hpp:186-204 with fill_fn<> (detail/functional.hpp). *)
Definition array_fill {V : Type} (N : nat) (value : V) : outcome (list V) :=
  snd (init_list (V := V) (S := unit) (seq 0 N) (fun s _ => (s, Ok value)) [] tt).

(** array_iota(): array.hpp:213-243; [dflt] is the value of value-initialized elements. *)
Fixpoint array_iota_loop {V : Type} (n i : nat) (inc : V -> outcome V) (value : V) (result : list V) : outcome (list V) :=
  match n with
  | O => Ok result
  | S n' =>
      do result' <- arr_set result i value;
      do value' <- inc value;
      array_iota_loop n' (S i) inc value' result'
  end.
(** array_iota(): array.hpp:213-243, "result" starts value-initialized. *)
Definition array_iota {V : Type} (N : nat) (inc : V -> outcome V) (dflt value : V) : outcome (list V) :=
  array_iota_loop N 0 inc value (repeat dflt N).

(** * value_tuple<>: tuple.hpp:76-104, detail/tuple.hpp:40-126.  [eq], [ne], [lt] are the operators of the elements. *)
Section ValueTuple.
  Context {V : Type}.
  Variables eq ne lt : V -> V -> bool.

  (** operator ==: 69-75, operator !=: 76-82: fold expressions over &&.  detail/tuple.hpp:69-75. *)
  Fixpoint vt_eq (a b : list V) : bool :=
    match a, b with x :: a', y :: b' => eq x y && vt_eq a' b' | _, _ => true end.
  (** operator !=: detail/tuple.hpp:76-82, as it is. *)
  Fixpoint vt_ne (a b : list V) : bool :=
    match a, b with x :: a', y :: b' => ne x y && vt_ne a' b' | _, _ => true end.
  (** operator <: 83-105: the fold over || stops at the first element for which apply() returns true.  The lambda: detail/tuple.hpp:89-102. *)
  Definition vt_apply (result : bool) (x y : V) : bool * bool :=
    if lt x y then (true, true) else if lt y x then (false, true) else (result, false).
  (** The fold: detail/tuple.hpp:103. *)
  Fixpoint vt_lt_fold (result : bool) (a b : list V) : bool :=
    match a, b with
    | x :: a', y :: b' => let '(result', stop) := vt_apply result x y in if stop then result' else vt_lt_fold result' a' b'
    | _, _ => result
    end.
  (** operator <: detail/tuple.hpp:83-105. *)
  Definition vt_lt (a b : list V) : bool := vt_lt_fold false a b.
  (** operator >, <=, >=: 106-126.  operator >: detail/tuple.hpp:106-112. *)
  Definition vt_gt (a b : list V) : bool := vt_lt b a.
  (** operator <=: detail/tuple.hpp:113-119. *)
  Definition vt_le (a b : list V) : bool := negb (vt_lt b a).
  (** operator >=: detail/tuple.hpp:120-126. *)
  Definition vt_ge (a b : list V) : bool := negb (vt_lt a b).
End ValueTuple.
