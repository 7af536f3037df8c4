(** Model of zipped ranges and of the range algorithms: /repo/include/makeshift/detail/zip.hpp:44-568,
    /repo/include/makeshift/detail/algorithm.hpp:25-462, /repo/include/makeshift/algorithm.hpp:64-304,
    /repo/include/makeshift/experimental/algorithm.hpp:99-107.

    Dereferencing yields references, not values: [RElem k p] refers to element [p] of the [k]-th range, [RIdx i] is the
    index produced by range_index.  Functors are state-passing; their state contains the elements, so a functor may
    change elements through the references it is given.

    Simplifications: iterators are positions, and begin(), end(), size() of a range do not fail (ProtoModel.v models the
    operations on the ranges one by one, without these assumptions, and refines this model: C81_sequences); values of gsl::index do not overflow (they stay within [0, length]). *)

From Coq Require Import ZArith NArith Arith Bool List.
From Verif Require Import Base.
Import ListNotations.

Local Open Scope Z_scope.

(** * Sizes *)

(** gsl::dim and dim_constant<N>: detail/zip.hpp:44-48. *)
Inductive dim : Type :=
| SStatic (n : Z)
| SDyn (n : Z).

(** detail/zip.hpp:457. *)
Definition unknown_size : Z := -1.

(** merge_sizes_0(): detail/zip.hpp:467-493.  [run] is false when only the types matter (the compiler instantiates the
    call whether or not it is executed), in which case gsl_Expects() is not evaluated. *)
Definition merge_sizes_0 (run : bool) (a b : dim) : outcome dim :=
  match a, b with
  | SStatic n, SStatic m =>
      if (n =? unknown_size) || (m =? unknown_size) || (n =? m)
      then Ok (SStatic (if n =? unknown_size then m else n)) else IllFormed
  | SStatic n, SDyn m | SDyn m, SStatic n =>
      if n =? unknown_size then Ok (SDyn m)
      else do _ <- (if run then expects ((m =? n) || (m =? unknown_size)) else Ok tt); Ok (SStatic n)
  | SDyn n, SDyn m =>
      if (n =? unknown_size) || (m =? unknown_size) then Ok (SDyn unknown_size)
      else do _ <- (if run then expects (n =? m) else Ok tt); Ok (SDyn n)
  end.

(** static_range_size_type_<>: detail/zip.hpp:459-461. *)
Definition is_known_static (d : dim) : bool :=
  match d with SStatic n => negb (n =? unknown_size) | SDyn _ => false end.
(** dynamic_range_size_type_<>: detail/zip.hpp:462-463. *)
Definition is_dyn (d : dim) : bool := match d with SDyn _ => true | SStatic _ => false end.
(** The types dim_constant<N> and gsl::dim as results of detail/zip.hpp:465. *)
Inductive dim_type : Type := TStatic (n : Z) | TDyn.
(** range_size_type<>: detail/zip.hpp:459-465: the first known static size, else gsl::dim if any, else unknown. *)
Definition range_size_type (ds : list dim) : dim_type :=
  match find is_known_static ds with
  | Some (SStatic n) => TStatic n
  | _ => if existsb is_dyn ds then TDyn else TStatic unknown_size
  end.
(** Conversion of the result to the declared return type: integral_constant converts to gsl::dim, not vice versa.
    The "return" in detail/zip.hpp:519, 525, 531, 537. *)
Definition convert_dim (t : dim_type) (d : dim) : outcome dim :=
  match t, d with
  | TStatic n, SStatic m => if n =? m then Ok d else IllFormed
  | TStatic _, SDyn _ => IllFormed
  | TDyn, SStatic m => Ok (SDyn m)
  | TDyn, SDyn _ => Ok d
  end.

(** merge_sizes(): detail/zip.hpp:495-538. *)
Fixpoint merge_sizes_n (fuel : nat) (run : bool) (ds : list dim) : outcome dim :=
  match fuel with
  | O => OutOfFuel
  | S fuel' =>
      match ds with
      | [] => Ok (SStatic unknown_size)
      | [d] => Ok d
      | (SStatic n) :: (SStatic m) :: r =>
          do x <- merge_sizes_0 run (SStatic n) (SStatic m);
          do y <- merge_sizes_n fuel' run (x :: r); convert_dim (range_size_type ds) y
      | (SStatic n) :: (SDyn m) :: r =>
          do x <- merge_sizes_n fuel' run (r ++ [SDyn m]);
          do y <- merge_sizes_0 run (SStatic n) x; convert_dim (range_size_type ds) y
      | (SDyn n) :: (SStatic m) :: r =>
          do x <- merge_sizes_n fuel' run (r ++ [SDyn n]);
          do y <- merge_sizes_0 run (SStatic m) x; convert_dim (range_size_type ds) y
      | (SDyn n) :: (SDyn m) :: r =>
          do x <- merge_sizes_n fuel' run (r ++ [SDyn n]);
          do y <- merge_sizes_0 run x (SDyn m); convert_dim (range_size_type ds) y
      end
  end.
(** merge_sizes(): detail/zip.hpp:495-538: the types first, as the compiler does, then the call. *)
Definition merge_sizes (ds : list dim) : outcome dim :=
  do _ <- merge_sizes_n (S (length ds)) false ds; merge_sizes_n (S (length ds)) true ds.

(** * Ranges *)

(** iterator_mode and range_iterator_leaf_mode_<>: detail/zip.hpp:99-107,234-240 (tuple modes are in TupleModel.v). *)
Inductive mode : Type := MPair | MIter | MIndex | MRangeIndex.
(** What range_size() knows about a range: detail/zip.hpp:540-568. *)
Inductive size_kind : Type := KStatic | KDynamic | KUnknown.
(** A range: how it is accessed, what is known about its size, and how many elements it has.
    The template parameters "Rs" of algorithm.hpp:90 and what detail/zip.hpp:93-97, 540-568 find out about them. *)
Record rng : Type := { r_mode : mode; r_known : size_kind; r_len : Z }.

(** range_size(): detail/zip.hpp:540-568. *)
Definition range_size (r : rng) : dim :=
  match r_mode r, r_known r with
  | MRangeIndex, _ => SStatic unknown_size
  | _, KStatic => SStatic (r_len r)
  | _, KDynamic => SDyn (r_len r)
  | _, KUnknown => SStatic unknown_size
  end.

(** What _deref() returns: detail/zip.hpp:336-343, 378-385, 400-407, 418-425. *)
Inductive ref : Type :=
| RElem (k : nat) (p : Z)
| RIdx (i : Z).

(** * Leaves: detail/zip.hpp:284-454.  [l_pos], [l_end] are not used by the modes that do not have them. *)
Record leaf : Type := { l_k : nat; l_rng : rng; l_pos : Z; l_end : Z }.

(** The constructors from a range: detail/zip.hpp:316-319, 362-365, 396-399, 415-417. *)
Definition leaf_begin (k : nat) (r : rng) : leaf :=
  {| l_k := k; l_rng := r; l_pos := 0; l_end := match r_mode r with MPair => r_len r | _ => 0 end |}.
(** The end_tag constructors: detail/zip.hpp:320-323 (pos = end), 362-365 (pos = begin), 396-399, 415-417. *)
Definition leaf_end (k : nat) (r : rng) : leaf :=
  match r_mode r with
  | MPair => {| l_k := k; l_rng := r; l_pos := r_len r; l_end := r_len r |}
  | _ => {| l_k := k; l_rng := r; l_pos := 0; l_end := 0 |}
  end.

(** Assigning the member "pos": detail/zip.hpp:324-335, 366-377. *)
Definition set_pos (l : leaf) (p : Z) : leaf := {| l_k := l_k l; l_rng := l_rng l; l_pos := p; l_end := l_end l |}.

(** Moving an iterator of a range with [n] elements to position [p] (one past the last element is allowed).
    "++pos", "--pos", "pos += d": detail/zip.hpp:326, 330, 334, 368, 372, 376. *)
Definition move_to (l : leaf) (p : Z) : outcome leaf :=
  if (0 <=? p) && (p <=? r_len (l_rng l)) then Ok (set_pos l p) else UB.

(** _inc(), _dec(), _advance(): detail/zip.hpp:286-294, 324-335, 366-377. *)
Definition leaf_advance (d : Z) (l : leaf) : outcome leaf :=
  match r_mode (l_rng l) with
  | MPair | MIter => move_to l (l_pos l + d)
  | MIndex | MRangeIndex => Ok l
  end.

(** _deref(i, d); _deref(i) is the case d = 0: detail/zip.hpp:336-343, 378-385, 400-407, 418-425. *)
Definition leaf_deref (i d : Z) (l : leaf) : outcome ref :=
  match r_mode (l_rng l) with
  | MPair | MIter =>
      if (0 <=? l_pos l + d) && (l_pos l + d <? r_len (l_rng l)) then Ok (RElem (l_k l) (l_pos l + d)) else UB
  | MIndex => if (0 <=? i + d) && (i + d <? r_len (l_rng l)) then Ok (RElem (l_k l) (i + d)) else UB
  | MRangeIndex => Ok (RIdx (i + d))
  end.

(** _check_end(): detail/zip.hpp:344-347, 295-297. *)
Definition leaf_check_end (isEnd : bool) (l : leaf) : outcome unit :=
  match r_mode (l_rng l) with
  | MPair => expects (Bool.eqb (l_pos l =? l_end l) isEnd)
  | _ => Ok tt
  end.

(** _is_end(): detail/zip.hpp:348-351, 298-301; [None] is nullopt_bool. *)
Definition leaf_is_end (l : leaf) : option bool :=
  match r_mode (l_rng l) with
  | MPair => Some (l_pos l =? l_end l)
  | _ => None
  end.

(** is_end(): detail/zip.hpp:249-282.  The overload for more than two arguments returns bool. *)
Definition is_end2 (a b : option bool) : outcome (option bool) :=
  match a, b with
  | Some x, Some y => do _ <- expects (Bool.eqb x y); Ok (Some x)
  | Some x, None => Ok (Some x)
  | None, Some y => Ok (Some y)
  | None, None => Ok None
  end.
(** is_end() for any number of arguments: detail/zip.hpp:249-282. *)
Fixpoint is_end (l : list (option bool)) : outcome (option bool) :=
  match l with
  | [] => Ok None
  | a :: t =>
      match t with
      | [] => Ok a
      | b :: es =>
          match es with
          | [] => is_end2 a b
          | _ :: _ =>
              do x <- is_end2 a b;
              do y <- is_end es;
              do z <- is_end2 x y;
              match z with Some e => Ok (Some e) | None => IllFormed end
          end
      end
  end.
(** Whether the expression is well-formed depends on the types only.  detail/zip.hpp:249-282, called in detail/algorithm.hpp:106. *)
Definition is_end_type (l : list (option bool)) : outcome (option bool) := is_end (map (option_map (fun _ => false)) l).

(** * Iterators: zip_iterator_base<>, detail/algorithm.hpp:92-262. *)
Record zip_iterator : Type := { z_i : Z; z_leaves : list leaf }.

(** The pack expansions "zip_iterator_leaf<Is, Rs>(ranges)..." of detail/algorithm.hpp:130, 134. *)
Fixpoint mapi {A B : Type} (f : nat -> A -> B) (k : nat) (l : list A) : list B :=
  match l with [] => [] | a :: r => f k a :: mapi f (S k) r end.

(** The constructor from ranges: detail/algorithm.hpp:129-132, 271-275. *)
Definition zip_begin (rs : list rng) : zip_iterator := {| z_i := 0; z_leaves := mapi leaf_begin 0 rs |}.
(** The conversion to gsl::index in detail/algorithm.hpp:134, 41, 55. *)
Definition dim_value (d : dim) : Z := match d with SStatic n => n | SDyn n => n end.
(** The constructor with end_tag: detail/algorithm.hpp:133-136, 276-280. *)
Definition zip_end (size : dim) (rs : list rng) : zip_iterator := {| z_i := dim_value size; z_leaves := mapi leaf_end 0 rs |}.

(** _check_end(): detail/algorithm.hpp:139-143. *)
Definition zip_check_end (isEnd : bool) (it : zip_iterator) : outcome unit :=
  do _ <- mapM (leaf_check_end isEnd) (z_leaves it); Ok tt.
(** operator *, operator [](d), apply(): detail/algorithm.hpp:146-149, 206-209, 257-261. *)
Definition zip_subscript (it : zip_iterator) (d : Z) : outcome (list ref) := mapM (leaf_deref (z_i it) d) (z_leaves it).
(** operator *, apply(): detail/algorithm.hpp:146-149, 257-261. *)
Definition zip_deref (it : zip_iterator) : outcome (list ref) := zip_subscript it 0.
(** operator +=: detail/algorithm.hpp:210-216; operator ++ and -- move all leaves by one. *)
Definition zip_advance (it : zip_iterator) (d : Z) : outcome zip_iterator :=
  do ls <- mapM (leaf_advance d) (z_leaves it); Ok {| z_i := z_i it + d; z_leaves := ls |}.
(** operator ++: detail/algorithm.hpp:150-156. *)
Definition zip_inc (it : zip_iterator) : outcome zip_iterator := zip_advance it 1.
(** operator --: detail/algorithm.hpp:191-197. *)
Definition zip_dec (it : zip_iterator) : outcome zip_iterator := zip_advance it (-1).
(** operator -=: detail/algorithm.hpp:217-220; it - d: 231-235. *)
Definition zip_retreat (it : zip_iterator) (d : Z) : outcome zip_iterator := zip_advance it (- d).
(** it - it': detail/algorithm.hpp:236-239. *)
Definition zip_diff (a b : zip_iterator) : Z := z_i a - z_i b.
(** operator ==: detail/algorithm.hpp:165-168. *)
Definition zip_eqb (a b : zip_iterator) : bool := z_i a =? z_i b.
(** operator <: detail/algorithm.hpp:240-243. *)
Definition zip_ltb (a b : zip_iterator) : bool := z_i a <? z_i b.

(** zip_iterator_sentinel<>::_is_end(): detail/algorithm.hpp:25-71. *)
Definition sentinel_is_end (N : dim) (it : zip_iterator) : outcome bool :=
  match N with
  | SDyn n =>
      let isEnd := z_i it =? n in do _ <- zip_check_end isEnd it; Ok isEnd
  | SStatic n =>
      if n =? unknown_size then
        do o <- is_end (map leaf_is_end (z_leaves it));
        match o with Some e => Ok e | None => IllFormed end
      else let isEnd := z_i it =? n in do _ <- zip_check_end isEnd it; Ok isEnd
  end.

(** * Loops "for (; it != end; ++it) { ... it.apply(...) ... }".  The body may leave the function with a result
    ([Some]).  [fuel] bounds the number of tests; the callers below pass enough. *)
Section Loops.
  Context {St R : Type}.
  Variable body : St -> list ref -> St * outcome (option R).

  (** algorithm.hpp:99-102, 174-177, 224-227, 249-252, 274-277, 299-302. *)
  Fixpoint zip_loop (fuel : nat) (at_end : zip_iterator -> outcome bool) (it : zip_iterator) (s : St)
      : St * outcome (option R) :=
    match fuel with
    | O => (s, OutOfFuel)
    | S fuel' =>
        match at_end it with
        | Ok true => (s, Ok None)
        | Ok false =>
            match zip_deref it with
            | Ok refs =>
                match body s refs with
                | (s', Ok None) =>
                    match zip_inc it with
                    | Ok it' => zip_loop fuel' at_end it' s'
                    | Contract => (s', Contract) | Throw e => (s', Throw e) | UB => (s', UB)
                    | IllFormed => (s', IllFormed) | OutOfFuel => (s', OutOfFuel)
                    end
                | other => other
                end
            | Contract => (s, Contract) | Throw e => (s, Throw e) | UB => (s, UB)
            | IllFormed => (s, IllFormed) | OutOfFuel => (s, OutOfFuel)
            end
        | Contract => (s, Contract) | Throw e => (s, Throw e) | UB => (s, UB)
        | IllFormed => (s, IllFormed) | OutOfFuel => (s, OutOfFuel)
        end
    end.
End Loops.

(** Not in the code: a bound on the number of tests in algorithm.hpp:99, 174. *)
Definition loop_fuel (rs : list rng) : nat := S (Z.to_nat (fold_right Z.max 0 (map r_len rs))).

(** std::is_same<std::decay_t<Rs>, range_index_t>: algorithm.hpp:94. *)
Definition is_range_index (r : rng) : bool := match r_mode r with MRangeIndex => true | _ => false end.

(** What all algorithms do first (algorithm.hpp:94-98 and its copies): static_assert that not all arguments are
    range_index; merge the sizes; with no known size, the loop condition has to be well-formed. *)
Definition algorithm_size (rs : list rng) : outcome dim :=
  if forallb is_range_index rs then IllFormed
  else
    do N <- merge_sizes (map range_size rs);
    match N with
    | SStatic n =>
        if n =? unknown_size then
          do o <- is_end_type (map leaf_is_end (z_leaves (zip_begin rs)));
          match o with Some _ => Ok N | None => IllFormed end
        else Ok N
    | SDyn _ => Ok N
    end.

(** What the algorithms have in common: algorithm.hpp:94-102, 168-177, 218-227. *)
Definition algorithm {St R : Type} (body : St -> list ref -> St * outcome (option R)) (rs : list rng) (s : St)
    : St * outcome (option R) :=
  match algorithm_size rs with
  | Ok N => zip_loop body (loop_fuel rs) (sentinel_is_end N) (zip_begin rs) s
  | Contract => (s, Contract) | Throw e => (s, Throw e) | UB => (s, UB)
  | IllFormed => (s, IllFormed) | OutOfFuel => (s, OutOfFuel)
  end.

Section Algorithms.
  Context {S : Type}.

  (** range_for(): algorithm.hpp:90-103. *)
  Definition range_for (func : S -> list ref -> S * outcome unit) (rs : list rng) (s : S) : S * outcome unit :=
    let '(s', o) := algorithm (R := unit) (fun s args => let '(s', o) := func s args in (s', do _ <- o; Ok None)) rs s in
    (s', do _ <- o; Ok tt).

  (** range_transform_reduce(): algorithm.hpp:164-179; the transformer is called before the reducer.  The state of the
      loop is the state of the functors and the variable "result". *)
  Definition range_transform_reduce {A B : Type} (init : A) (reduce : S -> A -> B -> S * outcome A)
      (transform : S -> list ref -> S * outcome B) (rs : list rng) (s : S) : S * outcome A :=
    let '((s', result), o) :=
      algorithm (R := unit)
        (fun '(s, result) args =>
           match transform s args with
           | (s1, Ok b) =>
               match reduce s1 result b with
               | (s2, Ok a) => ((s2, a), Ok None)
               | (s2, o) => ((s2, result), do _ <- o; Ok None)
               end
           | (s1, o) => ((s1, result), do _ <- o; Ok None)
           end) rs (s, init) in
    (s', do _ <- o; Ok result).

  (** range_count_if(): algorithm.hpp:214-229. *)
  Definition range_count_if (pred : S -> list ref -> S * outcome bool) (rs : list rng) (s : S) : S * outcome Z :=
    let '((s', result), o) :=
      algorithm (R := unit)
        (fun '(s, result) args =>
           match pred s args with
           | (s1, Ok b) => ((s1, if b then result + 1 else result), Ok None)
           | (s1, o) => ((s1, result), do _ <- o; Ok None)
           end) rs (s, 0) in
    (s', do _ <- o; Ok result).

  (** range_all_of(): algorithm.hpp:240-254. *)
  Definition range_all_of (pred : S -> list ref -> S * outcome bool) (rs : list rng) (s : S) : S * outcome bool :=
    let '(s', o) :=
      algorithm (fun s args => let '(s', o) := pred s args in
                               (s', do b <- o; if negb b then Ok (Some false) else Ok None)) rs s in
    (s', do r <- o; match r with Some b => Ok b | None => Ok true end).
  (** range_any_of(): algorithm.hpp:265-279. *)
  Definition range_any_of (pred : S -> list ref -> S * outcome bool) (rs : list rng) (s : S) : S * outcome bool :=
    let '(s', o) :=
      algorithm (fun s args => let '(s', o) := pred s args in
                               (s', do b <- o; if b then Ok (Some true) else Ok None)) rs s in
    (s', do r <- o; match r with Some b => Ok b | None => Ok false end).
  (** range_none_of(): algorithm.hpp:290-304. *)
  Definition range_none_of (pred : S -> list ref -> S * outcome bool) (rs : list rng) (s : S) : S * outcome bool :=
    let '(s', o) :=
      algorithm (fun s args => let '(s', o) := pred s args in
                               (s', do b <- o; if b then Ok (Some false) else Ok None)) rs s in
    (s', do r <- o; match r with Some b => Ok b | None => Ok true end).

  (** range_reduce(): algorithm.hpp:191-203; an ordinary loop over the [n] elements of one range. *)
  Fixpoint range_reduce_loop {A : Type} (n : nat) (p : Z) (result : A) (reduce : S -> A -> ref -> S * outcome A) (s : S)
      : S * outcome A :=
    match n with
    | O => (s, Ok result)
    | Datatypes.S n' =>
        match reduce s result (RElem 0 p) with
        | (s', Ok a) => range_reduce_loop n' (p + 1) a reduce s'
        | other => other
        end
    end.
  (** range_reduce(): algorithm.hpp:191-203. *)
  Definition range_reduce {A : Type} (init : A) (reduce : S -> A -> ref -> S * outcome A) (r : rng) (s : S) : S * outcome A :=
    if is_range_index r then (s, IllFormed)
    else range_reduce_loop (Z.to_nat (r_len r)) 0 init reduce s.
End Algorithms.

(** * range_zip(), range_zip_sentinel() *)

(** algorithm.hpp:64-75 and experimental/algorithm.hpp:99-107; the size must be known.  The range object is its size
    and its arguments. *)
Definition range_zip (rs : list rng) : outcome (dim * list rng) :=
  do N <- merge_sizes (map range_size rs);
  match N with
  | SStatic n => if n =? unknown_size then IllFormed else Ok (N, rs)
  | SDyn _ => Ok (N, rs)
  end.

(** size(): detail/algorithm.hpp:308-312, 337-341. *)
Definition zip_size (z : dim * list rng) : Z := dim_value (fst z).
(** begin(): detail/algorithm.hpp:390-394. *)
Definition zip_range_begin (z : dim * list rng) : zip_iterator := zip_begin (snd z).
(** end(), common_end(): detail/algorithm.hpp:395-399, 452-456. *)
Definition zip_common_end (z : dim * list rng) : zip_iterator := zip_end (fst z) (snd z).
(** operator []: detail/algorithm.hpp:421-425. *)
Definition zip_at (z : dim * list rng) (i : Z) : outcome (list ref) := zip_subscript (zip_range_begin z) i.

(** "for (auto&& e : range_zip(...)) body(e)" and the same with range_zip_sentinel().  The first: detail/algorithm.hpp:390-399, 452-456. *)
Definition zip_traverse {St R : Type} (body : St -> list ref -> St * outcome (option R)) (z : dim * list rng) (s : St) :=
  zip_loop body (S (Z.to_nat (zip_size z))) (fun it => Ok (zip_eqb it (zip_common_end z))) (zip_range_begin z) s.
(** The second, with the end() of detail/algorithm.hpp:318-322, 347-351. *)
Definition zip_sentinel_traverse {St R : Type} (body : St -> list ref -> St * outcome (option R)) (z : dim * list rng) (s : St) :=
  zip_loop body (S (Z.to_nat (zip_size z))) (sentinel_is_end (fst z)) (zip_range_begin z) s.

(** * Iterator categories: detail/zip.hpp:136-203. *)
Inductive category : Type := CInput | CForward | CBidirectional | CRandomAccess | COutput.

Local Open Scope N_scope.
(** input_iterator_tag_bit(), output_iterator_tag_bit(): detail/zip.hpp:137-149 (contiguous tags derive from random access). *)
Definition input_bit (c : category) : N :=
  match c with CInput => 1 | CForward => 2 | CBidirectional => 3 | CRandomAccess => 4 | COutput => 0 end.
(** output_iterator_tag_bit(): detail/zip.hpp:147-149. *)
Definition output_bit (c : category) : N := match c with COutput => 1 | _ => 0 end.
(** fill_mask(): detail/zip.hpp:151-154; unsigned has 32 bits. *)
Definition fill_mask (bit : N) : N := N.shiftl 1 bit - 1.
(** cbitand(): detail/zip.hpp:156-164. *)
Definition cbitand (values : list N) : N := fold_left N.land values (2 ^ 32 - 1).
(** The loop of bit_width(): detail/zip.hpp:169-173. *)
Fixpoint bit_width_loop (fuel : nat) (bit mask : N) : outcome N :=
  match fuel with
  | O => OutOfFuel
  | S fuel' => if mask =? 0 then Ok bit else bit_width_loop fuel' (bit + 1) (N.shiftr mask 1)
  end.
(** bit_width(): detail/zip.hpp:166-175. *)
Definition bit_width (mask : N) : outcome N := bit_width_loop 33 0 mask.
(** common_iterator_tag<>: detail/zip.hpp:177-203; the standard category implemented, if any, and whether output_iterator_tag is
    among the bases. *)
Definition common_iterator_tag (cs : list category) : outcome (option category * bool) :=
  do i <- bit_width (cbitand (map (fun c => fill_mask (input_bit c)) cs));
  do o <- bit_width (cbitand (map (fun c => fill_mask (output_bit c)) cs));
  do ic <- match i with
           | 0 => Ok None | 1 => Ok (Some CInput) | 2 => Ok (Some CForward) | 3 => Ok (Some CBidirectional)
           | 4 => Ok (Some CRandomAccess) | _ => IllFormed
           end;
  do oc <- match o with 0 => Ok false | 1 => Ok true | _ => IllFormed end;
  Ok (ic, oc).
Local Close Scope N_scope.

(** * Generators: algorithm.hpp:109-151.  The range is the list of its elements. *)
Section Generators.
  Context {A T S : Type}.

  (** range_iota(): algorithm.hpp:109-119; "*it = value++" with the increment and the conversion of the value type. *)
  Fixpoint range_iota_loop (n : nat) (p : nat) (inc : T -> outcome T) (conv : T -> A) (value : T) (elems : list A) : outcome (list A) :=
    match n with
    | O => Ok elems
    | Datatypes.S n' =>
        do value' <- inc value;
        do elems' <- arr_set elems p (conv value);
        range_iota_loop n' (Datatypes.S p) inc conv value' elems'
    end.
  (** range_iota(): algorithm.hpp:109-119. *)
  Definition range_iota (inc : T -> outcome T) (conv : T -> A) (elems : list A) (value : T) : outcome (list A) :=
    range_iota_loop (length elems) 0 inc conv value elems.

  (** range_fill(): algorithm.hpp:125-135. *)
  Fixpoint range_fill_loop (n p : nat) (value : A) (elems : list A) : outcome (list A) :=
    match n with
    | O => Ok elems
    | Datatypes.S n' => do elems' <- arr_set elems p value; range_fill_loop n' (Datatypes.S p) value elems'
    end.
  (** range_fill(): algorithm.hpp:125-135. *)
  Definition range_fill (elems : list A) (value : A) : outcome (list A) := range_fill_loop (length elems) 0 value elems.

  (** range_generate(): algorithm.hpp:141-151; on an exception the elements written so far stay. *)
  Fixpoint range_generate_loop (n p : nat) (gen : S -> S * outcome A) (s : S) (elems : list A) : S * list A * outcome unit :=
    match n with
    | O => (s, elems, Ok tt)
    | Datatypes.S n' =>
        match gen s with
        | (s', Ok a) =>
            match arr_set elems p a with
            | Ok elems' => range_generate_loop n' (Datatypes.S p) gen s' elems'
            | _ => (s', elems, UB)
            end
        | (s', o) => (s', elems, do _ <- o; Ok tt)
        end
    end.
  (** range_generate(): algorithm.hpp:141-151. *)
  Definition range_generate (gen : S -> S * outcome A) (elems : list A) (s : S) : S * list A * outcome unit :=
    range_generate_loop (length elems) 0 gen s elems.
End Generators.
