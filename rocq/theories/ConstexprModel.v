(** Which of the functions can be evaluated in constant expressions: the functions declared constexpr in
    /repo/include/makeshift/algorithm.hpp, /repo/include/makeshift/experimental/algorithm.hpp,
    /repo/include/makeshift/variant.hpp and /repo/include/makeshift/string.hpp call functions that are not.

    A constant expression that evaluates a call of a function that is not constexpr, a failed gsl_Expects(), a throw, or
    undefined behaviour is rejected: [IllFormed].  A call that is not evaluated does no harm.

    Simplifications: the operations of the ranges and the comparisons are constexpr (so for std::array<>, gsl::span<>,
    std::string_view, range_index); functors are, too, unless said otherwise.  The templates themselves are assumed to be
    accepted, although one of which no instance can be a constant expression is ill-formed, no diagnostic required. *)

From Coq Require Import ZArith NArith Arith Bool List.
From Verif Require Import Base ZipModel ExpandModel PermModel SerializeModel.
Import ListNotations.
Local Open Scope Z_scope.

(** The language mode: makeshift requires C++17 (algorithm.hpp:20-22) and can be used with C++20. *)
Inductive lang := Cpp17 | Cpp20.

(** The functions called by functions declared constexpr.  [FIsEnd]: zip_iterator_base<>::_is_end(), detail/algorithm.hpp:104;
    [FCheckEnd]: _check_end(), 139; [FSearch]: search_value_index() and its parts, detail/variant.hpp:83-181;
    [FStdSwap]: std::swap(), used in algorithm.hpp:50 and experimental/algorithm.hpp:52, 84-85; [FErrorText]:
    enum_from_string_error(), detail/serialize.hpp:142-144; [FFlagsFromString]: flags_from_string(), 326-327;
    [FParseFlags]: parse_flags(), string.hpp:47-54; [FParseEnum]: parse_enum(), string.hpp:32-37;
    [FEnumToString]: enum_to_string(), string.hpp:25-30; [FFlagsToString]: flags_to_string(), 40-45. *)
Inductive fn :=
| FIsEnd | FCheckEnd | FSearch | FStdSwap | FErrorText | FFlagsFromString | FParseFlags | FParseEnum
| FEnumToString | FFlagsToString.

(** Whether they are constexpr functions.  std::swap() has been since C++20; parse_flags() defines a variable without
    initialization (string.hpp:51), which a constexpr function must not do before C++20.
    detail/algorithm.hpp:104, 139; detail/variant.hpp:83-181; detail/serialize.hpp:142-144, 326-327; string.hpp:25-54. *)
Definition is_constexpr (l : lang) (f : fn) : bool :=
  match f with
  | FIsEnd => false
  | FCheckEnd => true
  | FSearch => false
  | FStdSwap => match l with Cpp17 => false | Cpp20 => true end
  | FErrorText => false
  | FFlagsFromString => true
  | FParseFlags => match l with Cpp17 => false | Cpp20 => true end
  | FParseEnum => true
  | FEnumToString => false
  | FFlagsToString => false
  end.

(** A call evaluated in a constant expression, e.g. that of detail/algorithm.hpp:70. *)
Definition const_call {A : Type} (l : lang) (f : fn) (m : outcome A) : outcome A :=
  if is_constexpr l f then m else IllFormed.

(** A constant expression with a state: what it evaluates to and the state it leaves (that of the functors, and the
    elements), as in "constexpr auto x = [] { std::array<int, 3> a{ }; range_for(..., a); return a; }();" with
    algorithm.hpp:90-103. *)
Definition constant {S A : Type} (p : S * outcome A) : outcome (S * A) := constexpr_init (do a <- snd p; Ok (fst p, a)).

(** * Range algorithms: algorithm.hpp:90-304 *)

(** zip_iterator_sentinel<>::_is_end(): detail/algorithm.hpp:25-71. *)
Definition const_sentinel_is_end (l : lang) (N : dim) (it : zip_iterator) : outcome bool :=
  match N with
  | SDyn n => let isEnd := z_i it =? n in do _ <- const_call l FCheckEnd (zip_check_end isEnd it); Ok isEnd
  | SStatic n =>
      if n =? unknown_size then
        do o <- const_call l FIsEnd (is_end (map leaf_is_end (z_leaves it)));
        match o with Some e => Ok e | None => IllFormed end
      else let isEnd := z_i it =? n in do _ <- const_call l FCheckEnd (zip_check_end isEnd it); Ok isEnd
  end.

(** What the algorithms have in common: algorithm.hpp:94-102, 168-177, 218-227. *)
Definition const_algorithm {St R : Type} (l : lang) (body : St -> list ref -> St * outcome (option R)) (rs : list rng) (s : St)
    : St * outcome (option R) :=
  match algorithm_size rs with
  | Ok N => zip_loop body (loop_fuel rs) (const_sentinel_is_end l N) (zip_begin rs) s
  | Contract => (s, Contract) | Throw e => (s, Throw e) | UB => (s, UB)
  | IllFormed => (s, IllFormed) | OutOfFuel => (s, OutOfFuel)
  end.

Section Algorithms.
  Context {S : Type}.
  Variable l : lang.

  (** range_for(): algorithm.hpp:90-103. *)
  Definition const_range_for (func : S -> list ref -> S * outcome unit) (rs : list rng) (s : S) : outcome (S * unit) :=
    constant
      (let '(s', o) :=
         const_algorithm l (R := unit) (fun s args => let '(s', o) := func s args in (s', do _ <- o; Ok None)) rs s in
       (s', do _ <- o; Ok tt)).

  (** range_transform_reduce(): algorithm.hpp:164-179. *)
  Definition const_range_transform_reduce {A B : Type} (init : A) (reduce : S -> A -> B -> S * outcome A)
      (transform : S -> list ref -> S * outcome B) (rs : list rng) (s : S) : outcome (S * A) :=
    constant
      (let '((s', result), o) :=
         const_algorithm l (R := unit)
           (fun '(s, result) args =>
              match transform s args with
              | (s1, Ok b) =>
                  match reduce s1 result b with
                  | (s2, Ok a) => ((s2, a), Ok None)
                  | (s2, o) => ((s2, result), do _ <- o; Ok None)
                  end
              | (s1, o) => ((s1, result), do _ <- o; Ok None)
              end) rs (s, init) in
       (s', do _ <- o; Ok result)).

  (** range_count_if(): algorithm.hpp:214-229. *)
  Definition const_range_count_if (pred : S -> list ref -> S * outcome bool) (rs : list rng) (s : S) : outcome (S * Z) :=
    constant
      (let '((s', result), o) :=
         const_algorithm l (R := unit)
           (fun '(s, result) args =>
              match pred s args with
              | (s1, Ok b) => ((s1, if b then result + 1 else result), Ok None)
              | (s1, o) => ((s1, result), do _ <- o; Ok None)
              end) rs (s, 0) in
       (s', do _ <- o; Ok result)).

  (** range_all_of(): algorithm.hpp:240-254. *)
  Definition const_range_all_of (pred : S -> list ref -> S * outcome bool) (rs : list rng) (s : S) : outcome (S * bool) :=
    constant
      (let '(s', o) :=
         const_algorithm l (fun s args => let '(s', o) := pred s args in
                                          (s', do b <- o; if negb b then Ok (Some false) else Ok None)) rs s in
       (s', do r <- o; match r with Some b => Ok b | None => Ok true end)).
  (** range_any_of(): algorithm.hpp:265-279. *)
  Definition const_range_any_of (pred : S -> list ref -> S * outcome bool) (rs : list rng) (s : S) : outcome (S * bool) :=
    constant
      (let '(s', o) :=
         const_algorithm l (fun s args => let '(s', o) := pred s args in
                                          (s', do b <- o; if b then Ok (Some true) else Ok None)) rs s in
       (s', do r <- o; match r with Some b => Ok b | None => Ok false end)).
  (** range_none_of(): algorithm.hpp:290-304. *)
  Definition const_range_none_of (pred : S -> list ref -> S * outcome bool) (rs : list rng) (s : S) : outcome (S * bool) :=
    constant
      (let '(s', o) :=
         const_algorithm l (fun s args => let '(s', o) := pred s args in
                                          (s', do b <- o; if b then Ok (Some false) else Ok None)) rs s in
       (s', do r <- o; match r with Some b => Ok b | None => Ok true end)).
End Algorithms.

(** * expand(), try_expand(), expand_failfast(): variant.hpp:43-192 *)

Section Expand.
  Context {A : Type}.
  Variable l : lang.
  Variable ok : bool.              (* see variant_map_ok *)
  Variable index : outcome Z.      (* the result of search_value_index(value, values) *)
  Variable values : list A.

  (** expand_failfast(): variant.hpp:43-50. *)
  Definition const_expand_failfast : outcome nat := constexpr_init (expand_failfast ok (const_call l FSearch index) values).
  (** try_expand(): variant.hpp:98-105. *)
  Definition const_try_expand : outcome (option nat) := constexpr_init (try_expand ok (const_call l FSearch index) values).
  (** expand(): variant.hpp:153-160. *)
  Definition const_expand : outcome nat := constexpr_init (expand ok (const_call l FSearch index) values).
End Expand.

(** * apply_permutation(), apply_reverse_permutation(), shuffle() *)

(** swap() of elements: [own] if the element type comes with a constexpr swap() found by argument-dependent lookup,
    otherwise std::swap().  experimental/algorithm.hpp:33, 52, 70, 84; algorithm.hpp:49-50. *)
Definition const_swap_at {X} (l : lang) (own : bool) (es : list X) (a b : Z) : outcome (list X) :=
  if own then swap_at es a b else const_call l FStdSwap (swap_at es a b).

(** The inner loop of apply_permutation(): experimental/algorithm.hpp:43-55. *)
Fixpoint const_apply_inner {X} (l : lang) (own : bool) (fuel : nat) (i length current : Z) (st : pstate X)
    : outcome (Z * pstate X) :=
  do x <- aget (ps_idx st) current;
  if i =? x then Ok (current, st)
  else
    match fuel with
    | O => OutOfFuel
    | S fuel' =>
        let next := x in
        if (next <? 0) || (next >=? length) || (next =? current) then
          do _ <- aset (ps_idx st) i next;
          Contract
        else
          do es <- const_swap_at l own (ps_elems st) current next;
          do idx <- aset (ps_idx st) current current;
          const_apply_inner l own fuel' i length next (mk_ps es idx (ps_log st ++ [es]))
    end.

(** The outer loop: experimental/algorithm.hpp:40-57. *)
Fixpoint const_apply_outer {X} (l : lang) (own : bool) (fuel count : nat) (i length : Z) (st : pstate X) : outcome (pstate X) :=
  match count with
  | O => Ok st
  | S count' =>
      do ' (current, st) <- const_apply_inner l own fuel i length i st;
      do idx <- aset (ps_idx st) current current;
      const_apply_outer l own fuel count' (i + 1) length (mk_ps (ps_elems st) idx (ps_log st))
  end.

(** apply_permutation(): experimental/algorithm.hpp:26-58. *)
Definition const_apply_permutation {X} (l : lang) (own : bool) (diff : ity) (es : list X) (idx : list Z)
    : outcome (list X * list Z) :=
  let len := cast diff (Z.of_nat (length es)) in
  constexpr_init
    (do st <- const_apply_outer l own (S (length es)) (Z.to_nat len) 0 len (mk_ps es idx []);
     Ok (ps_elems st, ps_idx st)).

(** The inner loop of apply_reverse_permutation(): experimental/algorithm.hpp:79-86.  The indices are numbers: they are
    exchanged with std::swap(). *)
Fixpoint const_reverse_inner {X} (l : lang) (own : bool) (fuel : nat) (i length : Z) (st : pstate X) : outcome (pstate X) :=
  do x <- aget (ps_idx st) i;
  if i =? x then Ok st
  else
    match fuel with
    | O => OutOfFuel
    | S fuel' =>
        let next := x in
        do _ <- expects ((next >=? 0) && (next <? length));
        do y <- aget (ps_idx st) next;
        do _ <- expects (negb (next =? y));
        do es <- const_swap_at l own (ps_elems st) i next;
        do idx <- const_swap_at l false (ps_idx st) i next;
        const_reverse_inner l own fuel' i length (mk_ps es idx (ps_log st ++ [es]))
    end.

(** experimental/algorithm.hpp:77-87. *)
Fixpoint const_reverse_outer {X} (l : lang) (own : bool) (fuel count : nat) (i length : Z) (st : pstate X) : outcome (pstate X) :=
  match count with
  | O => Ok st
  | S count' => do st <- const_reverse_inner l own fuel i length st; const_reverse_outer l own fuel count' (i + 1) length st
  end.

(** apply_reverse_permutation(): experimental/algorithm.hpp:63-88. *)
Definition const_apply_reverse_permutation {X} (l : lang) (own : bool) (diff : ity) (es : list X) (idx : list Z)
    : outcome (list X * list Z) :=
  let len := cast diff (Z.of_nat (length es)) in
  constexpr_init
    (do st <- const_reverse_outer l own (S (length es)) (Z.to_nat len) 0 len (mk_ps es idx []);
     Ok (ps_elems st, ps_idx st)).

(** The loop of shuffle(): algorithm.hpp:43-52, with a distribution and a generator that are constexpr (those of the
    standard library are not). *)
Fixpoint const_shuffle_loop {X S} (l : lang) (own : bool) (dist : S -> Z -> Z -> S * Z) (n : nat) (s : S) (es : list X)
    : outcome (S * list X) :=
  match n with
  | O => Ok (s, es)
  | Datatypes.S n' =>
      let i := Z.of_nat n in
      let '(s, j) := dist s 0 i in
      do es <- (if negb (i =? j) then const_swap_at l own es i j else Ok es);
      const_shuffle_loop l own dist n' s es
  end.

(** shuffle(): algorithm.hpp:34-53. *)
Definition const_shuffle {X S} (l : lang) (own : bool) (dist : S -> Z -> Z -> S * Z) (s : S) (es : list X) : outcome (S * list X) :=
  constexpr_init (const_shuffle_loop l own dist (length es - 1) s es).

(** * Strings: string.hpp:25-54, detail/serialize.hpp:115-185, 326-367 *)

(** enum_from_string(): detail/serialize.hpp:175-185. *)
Definition const_enum_from_string (l : lang) (s : str) (md : enum_metadata Z) : outcome Z :=
  let '(rc, result) := try_enum_from_string 0 (trim s) md in
  if negb (Z.eqb rc 0)
  then do msg <- const_call l FErrorText (Ok (enum_from_string_error s md false)); Throw (RuntimeError msg)
  else Ok result.
(** parse_enum(): string.hpp:32-37. *)
Definition const_parse_enum (l : lang) (src : enum_source Z) (s : str) : outcome Z :=
  do md <- static_enum_metadata src; constexpr_init (const_call l FParseEnum (const_enum_from_string l s md)).
(** parse_flags(): string.hpp:47-54; the error text is only evaluated before a throw. *)
Definition const_parse_flags (l : lang) (src : enum_source N) (s : str) : outcome N :=
  do md <- static_flags_metadata src;
  constexpr_init
    (const_call l FParseFlags
       (do ' (_, result) <- const_call l FFlagsFromString (flags_from_string 0%N s (fmd_base md) true); Ok result)).
(** enum_to_string(): string.hpp:25-30. *)
Definition const_enum_to_string (l : lang) (src : enum_source Z) (value : Z) : outcome str :=
  constexpr_init (const_call l FEnumToString (api_enum_to_string src value)).
(** flags_to_string(): string.hpp:40-45. *)
Definition const_flags_to_string (l : lang) (w : N) (src : enum_source N) (value : N) : outcome str :=
  constexpr_init (const_call l FFlagsToString (api_flags_to_string w src value)).
