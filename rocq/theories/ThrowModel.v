(** Exceptions thrown by operations of the caller's types: get<I>() of tuple-like types in the tuple algorithms, iterators of range<>,
    and iterators in zip iterators: /repo/include/makeshift/detail/tuple-transform.hpp:62-92, detail/tuple.hpp:240-273,
    detail/array.hpp:112-125, detail/ranges.hpp:24-175, detail/zip.hpp:284-426, detail/algorithm.hpp:74-262.

    An exception that leaves a function declared noexcept terminates the program; this is the outcome [Contract] here. *)

From Coq Require Import ZArith Arith Bool List.
From Verif Require Import Base TupleModel.
Import ListNotations.

(** A function declared noexcept, as in detail/tuple-transform.hpp:63 and detail/ranges.hpp:56, 60, 83, 88, 164, 171. *)
Definition noexcept {A : Type} (o : outcome A) : outcome A := match o with Throw _ => Contract | _ => o end.

(** * Tuple-like types *)
(** Elements are named by the number of the argument and the index; get<I>() is an operation of the caller's program with state [S]. *)
Section Get.
  Context {S V : Type}.
  Variable user_get : S -> nat -> nat -> S * outcome V.

  (** get_element<I>(), declared noexcept: detail/tuple-transform.hpp:62-67; the indices of range_index and tuple_index are the library's. *)
  Definition get_element (s : S) (e : element (nat * nat)) : S * outcome (element V) :=
    match e with
    | Elem (a, i) => let '(s', o) := user_get s a i in (s', do v <- noexcept o; Ok (Elem v))
    | Index i => (s, Ok (Index i))
    | IndexConstant i => (s, Ok (IndexConstant i))
    end.
  (** The arguments of a call are evaluated in any order: [order].  detail/tuple-transform.hpp:74, detail/tuple.hpp:265, detail/array.hpp:117. *)
  Fixpoint gets_in {E X : Type} (get : S -> E -> S * outcome X) (order : list nat) (row : list E) (s : S) (xs : nat -> option X)
      : S * outcome (nat -> option X) :=
    match order with
    | [] => (s, Ok xs)
    | p :: r =>
        match nth_error row p with
        | Some e =>
            match get s e with
            | (s', Ok x) => gets_in get r row s' (fun q => if Nat.eqb q p then Some x else xs q)
            | (s', o) => (s', do _ <- o; Ok xs)
            end
        | None => (s, IllFormed)
        end
    end.
  (** The values in the order of the parameters: detail/tuple-transform.hpp:74, detail/tuple.hpp:265. *)
  Definition collect {X : Type} (n : nat) (xs : nat -> option X) : outcome (list X) :=
    mapM (fun p => match xs p with Some x => Ok x | None => IllFormed end) (seq 0 n).
  (** All arguments of a call: detail/tuple-transform.hpp:74, detail/tuple.hpp:265, detail/array.hpp:117. *)
  Definition gets {E X : Type} (get : S -> E -> S * outcome X) (order : list nat) (row : list E) (s : S) : S * outcome (list X) :=
    let '(s', o) := gets_in get order row s (fun _ => None) in (s', do xs <- o; collect (length row) xs).

  (** transform_element<I>(): detail/tuple-transform.hpp:70-75; the order may differ between calls. *)
  Definition call {R : Type} (order : list (element (nat * nat)) -> list nat) (func : S -> list (element V) -> S * outcome R) (s : S) (row : list (element (nat * nat)))
      : S * outcome R :=
    match gets get_element (order row) row s with
    | (s', Ok xs) => func s' xs
    | (s', o) => (s', do _ <- o; UB)
    end.

  (** Arguments: tuple-like objects of the given sizes, numbered, and indices.  tuple.hpp:118, 156, 231, 272, array.hpp:45. *)
  Inductive targ := TTuple (size : nat) | TRangeIndex | TTupleIndex.
  (** The arguments as TupleModel.v takes them, detail/tuple-transform.hpp:35-46. *)
  Fixpoint args_from (k : nat) (l : list targ) : list (arg (nat * nat)) :=
    match l with
    | [] => []
    | TTuple n :: r => ATuple (map (fun i => (k, i)) (seq 0 n)) :: args_from (Datatypes.S k) r
    | TRangeIndex :: r => ARangeIndex :: args_from (Datatypes.S k) r
    | TTupleIndex :: r => ATupleIndex :: args_from (Datatypes.S k) r
    end.

  (** The algorithms of TupleModel.v with these calls: tuple.hpp:116-319, array.hpp:43-177; [order] is the order within calls,
      [order'] that of the calls. *)
  Definition template_for {R : Type} (order : list (element (nat * nat)) -> list nat) (func : S -> list (element V) -> S * outcome R) (l : list targ) (s : S) : S * outcome unit :=
    TupleModel.template_for (-1) (call order func) (args_from 0 l) s.
  (** array.hpp:43-177. *)
  Definition array_transform {R : Type} (order : list (element (nat * nat)) -> list nat) (func : S -> list (element V) -> S * outcome R) (l : list targ) (s : S) : S * outcome (list R) :=
    TupleModel.array_transform (-1) (call order func) (args_from 0 l) s.
  (** tuple.hpp:154-216. *)
  Definition tuple_transform {R : Type} (order' : list nat) (order : list (element (nat * nat)) -> list nat) (func : S -> list (element V) -> S * outcome R) (l : list targ) (s : S) : S * outcome (list R) :=
    TupleModel.tuple_transform order' (-1) (call order func) (args_from 0 l) s.
  (** tuple.hpp:229-238. *)
  Definition template_transform_reduce {A B : Type} (order : list (element (nat * nat)) -> list nat) (init : A) (reduce : S -> A -> B -> S * outcome A)
      (transform : S -> list (element V) -> S * outcome B) (l : list targ) (s : S) : S * outcome A :=
    TupleModel.template_transform_reduce init reduce (call order transform) (args_from 0 l) s.
  (** tuple.hpp:270-279. *)
  Definition template_all_of (order : list (element (nat * nat)) -> list nat) (pred : S -> list (element V) -> S * outcome bool) (l : list targ) (s : S) : S * outcome bool :=
    TupleModel.template_all_of (call order pred) (args_from 0 l) s.

  (** apply(): detail/tuple.hpp:240-257, tuple_cat(): detail/tuple.hpp:260-273 and array_cat(): detail/array.hpp:112-125 call get<I>()
      outside of noexcept functions; the latter two from left to right. *)
  Definition get_directly (s : S) (e : nat * nat) : S * outcome V := user_get s (fst e) (snd e).
  (** tuple.hpp:322-327, detail/tuple.hpp:240-257. *)
  Definition apply {R : Type} (order : list nat) (func : S -> list V -> S * outcome R) (n : nat) (s : S) : S * outcome R :=
    match gets get_directly order (map (fun i => (0, i)) (seq 0 n)) s with
    | (s', Ok xs) => func s' xs
    | (s', o) => (s', do _ <- o; UB)
    end.
  (** tuple.hpp:338-363, detail/tuple.hpp:260-273; array.hpp:254-279, detail/array.hpp:112-125. *)
  Definition tuple_cat (sizes : list nat) (s : S) : S * outcome (list V) :=
    match TupleModel.tuple_cat (map (fun p => map (fun i => (fst p, i)) (seq 0 (snd p))) (combine (seq 0 (length sizes)) sizes)) with
    | Ok es => gets get_directly (seq 0 (length es)) es s
    | _ => (s, IllFormed)
    end.
End Get.

(** * range<> *)
(** Operations of the iterators of a random-access range: difference, subscript, sum; they may depend on and change the state of the
    program, and throw. *)
Section Range.
  Context {S V It : Type}.
  Variable diff : S -> It -> It -> S * outcome Z.
  Variable subscript : S -> It -> Z -> S * outcome V.
  Variable plus : S -> It -> Z -> S * outcome It.

  (** random_access_range_base<>: detail/ranges.hpp:41-65.  The bounds are compared as unsigned numbers, see RangeModel.v; here, sizes
      are not negative. *)
  Definition range_size (first last : It) (s : S) : S * outcome Z :=
    let '(s', o) := diff s last first in (s', noexcept o).
  (** operator [](): detail/ranges.hpp:60-64. *)
  Definition range_at (first last : It) (i : Z) (s : S) : S * outcome V :=
    match diff s last first with
    | (s', Ok n) =>
        if (0 <=? i)%Z && (i <? n)%Z then let '(s'', o) := subscript s' first i in (s'', noexcept o) else (s', Contract)
    | (s', o) => (s', do _ <- noexcept o; Contract)
    end.
  (** static_random_access_range_base<>: detail/ranges.hpp:66-93, get<I>(): detail/ranges.hpp:162-175. *)
  Definition static_range_end (extent : Z) (first : It) (s : S) : S * outcome It :=
    let '(s', o) := plus s first extent in (s', noexcept o).
  (** operator [](): detail/ranges.hpp:88-92. *)
  Definition static_range_at (extent : Z) (first : It) (i : Z) (s : S) : S * outcome V :=
    if (0 <=? i)%Z && (i <? extent)%Z then let '(s', o) := subscript s first i in (s', noexcept o) else (s, Contract).
  (** get<I>(): detail/ranges.hpp:162-175. *)
  Definition static_range_get (I : nat) (extent : Z) (first : It) (s : S) : S * outcome V :=
    if (Z.of_nat I <? extent)%Z then let '(s', o) := static_range_at extent first (Z.of_nat I) s in (s', noexcept o) else (s, IllFormed).
End Range.

(** * Zip iterators *)
(** Operations on the iterators in a zip iterator.  Called in detail/zip.hpp:324-343, 366-385; copies in detail/algorithm.hpp:159, 200, 221, 231. *)
Inductive zop := OInc | ODec | OAdd (d : Z) | ODeref | OAt (d : Z) | OCopy.
(** The components: iterators, with their positions (iterator_mode::iterator and iterator_pair), data pointers and range_index:
    detail/zip.hpp:303-426. *)
Inductive leaf := LIter (pos : Z) | LData | LIndex.
(** What dereferencing gives: the answer of an iterator, the element of the range with that number, an index.
    detail/zip.hpp:336-343, 378-385, 400-407, 418-425. *)
Inductive item := IAnswer (x : Z) | IElem (k : nat) (i : Z) | IIndex (i : Z).
(** A zip iterator: its components and i_: detail/algorithm.hpp:92-101. *)
Definition zip_iterator := (list leaf * Z)%type.

Section Zip.
  (** What happened: component and operation.  The iterators are the caller's: given what happened before, the component, the operation
      and the position of the iterator, [env] gives the new position and the answer or an exception.
      Not in the code: a record of what detail/algorithm.hpp:146-235 does. *)
  Definition history := list (nat * zop).
  Variable env : history -> nat -> zop -> Z -> Z * outcome Z.

  (** An operation on all components from left to right: "Swallow{ 1, (get_leaf<Is>(*this)._inc(), ...)... }": detail/algorithm.hpp:152-153, 193-194, 212-213. *)
  Definition on_leaf (k : nat) (op : zop) (l : leaf) (h : history) : history * leaf * outcome Z :=
    match l with
    | LIter pos => let '(pos', o) := env h k op pos in (h ++ [(k, op)], LIter pos', o)
    | _ => (h, l, Ok 0%Z)
    end.
  (** detail/algorithm.hpp:152-153, 193-194, 212-213. *)
  Fixpoint on_leaves (k : nat) (op : zop) (ls : list leaf) (h : history) : history * list leaf * outcome unit :=
    match ls with
    | [] => (h, [], Ok tt)
    | l :: r =>
        let '(h1, l1, o1) := on_leaf k op l h in
        match o1 with
        | Ok _ => let '(h2, r2, o2) := on_leaves (S k) op r h1 in (h2, l1 :: r2, o2)
        | _ => (h1, l1 :: r, do _ <- o1; Ok tt)
        end
    end.
  (** ++, --, +=: detail/algorithm.hpp:150-156, 191-197, 210-216; the counter is changed last. *)
  Definition move_by (op : zop) (d : Z) (z : zip_iterator) (h : history) : history * zip_iterator * outcome unit :=
    let '(h', ls, o) := on_leaves 0 op (fst z) h in
    match o with
    | Ok _ => (h', (ls, (snd z + d)%Z), Ok tt)
    | _ => (h', (ls, snd z), o)
    end.
  (** detail/algorithm.hpp:150-156. *)
  Definition pre_inc := move_by OInc 1.
  (** detail/algorithm.hpp:191-197. *)
  Definition pre_dec := move_by ODec (-1).
  (** detail/algorithm.hpp:210-216. *)
  Definition add_assign (d : Z) := move_by (OAdd d) d.
  (** detail/algorithm.hpp:217-220. *)
  Definition sub_assign (d : Z) := add_assign (- d).
  (** Postfix forms copy the iterator first: detail/algorithm.hpp:157-162, 198-203; + and - work on a copy: 221-235.  Copying leaves
      the original as it is. *)
  Definition copy (z : zip_iterator) (h : history) : history * outcome zip_iterator :=
    let '(h', ls, o) := on_leaves 0 OCopy (fst z) h in (h', do _ <- o; Ok (ls, snd z)).
  (** detail/algorithm.hpp:157-162, 198-203. *)
  Definition post (f : zip_iterator -> history -> history * zip_iterator * outcome unit) (z : zip_iterator) (h : history)
      : history * zip_iterator * outcome zip_iterator :=
    match copy z h with
    | (h1, Ok c) => let '(h2, z', o) := f z h1 in (h2, z', do _ <- o; Ok c)
    | (h1, o) => (h1, z, o)
    end.
  (** detail/algorithm.hpp:221-235. *)
  Definition plus_iterator (d : Z) (z : zip_iterator) (h : history) : history * outcome zip_iterator :=
    match copy z h with
    | (h1, Ok c) => let '(h2, c', o) := add_assign d c h1 in (h2, do _ <- o; Ok c')
    | (h1, o) => (h1, o)
    end.
  (** * and []: detail/algorithm.hpp:146-149, 206-209; braces: from left to right. *)
  Definition item_of (k : nat) (i d : Z) (l : leaf) (x : Z) : item :=
    match l with LIter _ => IAnswer x | LData => IElem k (i + d)%Z | LIndex => IIndex (i + d)%Z end.
  (** detail/algorithm.hpp:148, 208. *)
  Fixpoint deref_leaves (k : nat) (op : zop) (i d : Z) (ls : list leaf) (h : history) : history * list leaf * outcome (list item) :=
    match ls with
    | [] => (h, [], Ok [])
    | l :: r =>
        let '(h1, l1, o1) := on_leaf k op l h in
        match o1 with
        | Ok x => let '(h2, r2, o2) := deref_leaves (S k) op i d r h1 in (h2, l1 :: r2, do xs <- o2; Ok (item_of k i d l x :: xs))
        | _ => (h1, l1 :: r, do _ <- o1; Ok [])
        end
    end.
  (** detail/algorithm.hpp:146-149. *)
  Definition deref (z : zip_iterator) (h : history) : history * zip_iterator * outcome (list item) :=
    let '(h', ls, o) := deref_leaves 0 ODeref (snd z) 0 (fst z) h in (h', (ls, snd z), o).
  (** detail/algorithm.hpp:206-209. *)
  Definition subscript_at (d : Z) (z : zip_iterator) (h : history) : history * zip_iterator * outcome (list item) :=
    let '(h', ls, o) := deref_leaves 0 (OAt d) (snd z) d (fst z) h in (h', (ls, snd z), o).
  (** ==, <, -: detail/algorithm.hpp:165-172, 236-255: the counters only. *)
  Definition equal (z1 z2 : zip_iterator) : bool := (snd z1 =? snd z2)%Z.
  (** detail/algorithm.hpp:240-243. *)
  Definition less (z1 z2 : zip_iterator) : bool := (snd z1 <? snd z2)%Z.
  (** detail/algorithm.hpp:236-239. *)
  Definition distance (z1 z2 : zip_iterator) : Z := (snd z1 - snd z2)%Z.

  (** What a client does with an iterator; ends at the first exception.  Uses of detail/algorithm.hpp:146-220. *)
  Inductive step := SInc | SDec | SAdd (d : Z) | SSub (d : Z) | SPostInc | SPostDec | SDeref | SAt (d : Z).
  (** One use of detail/algorithm.hpp:146-220. *)
  Definition do_step (c : step) (z : zip_iterator) (h : history) : history * zip_iterator * outcome unit :=
    match c with
    | SInc => pre_inc z h
    | SDec => pre_dec z h
    | SAdd d => add_assign d z h
    | SSub d => sub_assign d z h
    | SPostInc => let '(h', z', o) := post pre_inc z h in (h', z', do _ <- o; Ok tt)
    | SPostDec => let '(h', z', o) := post pre_dec z h in (h', z', do _ <- o; Ok tt)
    | SDeref => let '(h', z', o) := deref z h in (h', z', do _ <- o; Ok tt)
    | SAt d => let '(h', z', o) := subscript_at d z h in (h', z', do _ <- o; Ok tt)
    end.
  (** A sequence of uses of detail/algorithm.hpp:146-220. *)
  Fixpoint do_steps (cs : list step) (z : zip_iterator) (h : history) : history * zip_iterator * outcome unit :=
    match cs with
    | [] => (h, z, Ok tt)
    | c :: r =>
        match do_step c z h with
        | (h1, z1, Ok _) => do_steps r z1 h1
        | other => other
        end
    end.
End Zip.
