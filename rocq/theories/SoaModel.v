(** Model of soa_span<>, its references and iterators: /repo/include/makeshift/experimental/span.hpp,
    /repo/include/makeshift/experimental/detail/span.hpp.

    The components of a soa_span<> are pointers into arrays of the caller; references and iterators hold a reference
    (pointer) to the data member of the soa_span<> object they were obtained from, so span objects have an identity
    here.  Values of all element types are in one type [V]; whether a component type is const is kept.  Copying
    elements is assumed not to throw (the operators are noexcept). *)

From Coq Require Import ZArith Arith Bool List.
From Verif Require Import Base ExpandModel.
Import ListNotations.
Local Open Scope Z_scope.

Section Soa.
  Context {V : Type}.

  (** Arrays and pointers into them (the language's).  [b_const]: the elements are const objects.
      The arrays that the data pointers of experimental/span.hpp:38 point to. *)
  Record block := mk_block { b_const : bool; b_elems : list V }.
  (** All such arrays; experimental/span.hpp:38. *)
  Definition memory := list block.
  (** A data pointer, experimental/span.hpp:38, and its position in the array. *)
  Inductive ptr : Type := PNull | PAt (b : nat) (i : Z).
  (** Pointer arithmetic, used in experimental/span.hpp:130, experimental/detail/span.hpp:59, 70, 81, 90. *)
  Definition ptr_add (m : memory) (p : ptr) (n : Z) : outcome ptr :=
    match p with
    | PNull => if n =? 0 then Ok PNull else UB
    | PAt b i =>
        match nth_error m b with
        | Some bl => if (0 <=? i + n) && (i + n <=? Z.of_nat (length (b_elems bl))) then Ok (PAt b (i + n)) else UB
        | None => UB
        end
    end.
  (** Reading the element a pointer points to: experimental/detail/span.hpp:59, 81. *)
  Definition load (m : memory) (p : ptr) : outcome V :=
    match p with
    | PNull => UB
    | PAt b i => match nth_error m b with Some bl => aget (b_elems bl) i | None => UB end
    end.
  (** Assigning to it: experimental/detail/span.hpp:59, 70. *)
  Definition store (m : memory) (p : ptr) (v : V) : outcome memory :=
    match p with
    | PNull => UB
    | PAt b i =>
        match nth_error m b with
        | Some bl =>
            if b_const bl || (i <? 0) || (Z.of_nat (length (b_elems bl)) <=? i) then UB
            else Ok (upd m b (mk_block false (upd (b_elems bl) (Z.to_nat i) v)))
        | None => UB
        end
    end.
  (** p[n].  experimental/detail/span.hpp:59, 81. *)
  Definition load_at (m : memory) (p : ptr) (n : Z) : outcome V := do q <- ptr_add m p n; load m q.
  (** experimental/detail/span.hpp:59, 70. *)
  Definition store_at (m : memory) (p : ptr) (n : Z) (v : V) : outcome memory := do q <- ptr_add m p n; store m q v.

  (** gsl::span<T>: data(), size() and whether T is const.
      The arguments of experimental/span.hpp:56 and the result of get<>, experimental/span.hpp:151. *)
  Record span := mk_span { s_const : bool; s_data : ptr; s_size : Z }.

  (** soa_span<Ts...>: experimental/span.hpp:34-44; [soa_const]: which of the Ts are const. *)
  Record soa := mk_soa { soa_const : list bool; soa_data : list ptr; soa_size : Z }.

  (** check_all_equal<R>(): experimental/detail/span.hpp:230-246. *)
  Fixpoint check_all_equal (vs : list Z) : outcome Z :=
    match vs with
    | [] => Ok 0
    | [v0] => Ok v0
    | v0 :: vs' => do result <- check_all_equal vs'; do _ <- expects (v0 =? result); Ok result
    end.
  (** soa_span(gsl::span<Ts>...): experimental/span.hpp:56-61; make_soa_span(): 172-177. *)
  Definition soa_span (spans : list span) : outcome soa :=
    do n <- check_all_equal (map s_size spans);
    Ok (mk_soa (map s_const spans) (map s_data spans) n).

  (** size(), empty(): 63-72.  experimental/span.hpp:63-67. *)
  Definition size (s : soa) : Z := soa_size s.
  (** experimental/span.hpp:68-72; note the comparison !=. *)
  Definition empty (s : soa) : bool := negb (soa_size s =? 0).

  (** soa_reference<Ts...>: experimental/detail/span.hpp:36-49: a reference to the data member of object [r_obj], and an index. *)
  Record reference := mk_ref { r_const : list bool; r_obj : nat; r_index : Z }.
  (** soa_span_iterator<Ts...>: experimental/detail/span.hpp:110-123. *)
  Record iterator := mk_it { it_const : list bool; it_obj : nat; it_index : Z }.

  (** Span objects: [None] once destroyed.
      Needed for experimental/detail/span.hpp:43, 117 (a reference and a pointer to the data member of the span object). *)
  Record state := mk_state { mem : memory; objs : list (option soa) }.
  (** The object that experimental/detail/span.hpp:43, 117 refer to; UB if it is gone. *)
  Definition get_obj (st : state) (o : nat) : outcome soa :=
    match nth_error (objs st) o with Some (Some s) => Ok s | _ => UB end.
  (** Storing a soa_span<> in a new object, assigning to one (the implicit copy assignment), destroying one.
      The implicit copy constructor of experimental/span.hpp:34-35. *)
  Definition new_obj (st : state) (s : soa) : state * nat := (mk_state (mem st) (objs st ++ [Some s]), length (objs st)).
  (** The implicit copy assignment of experimental/span.hpp:34-35. *)
  Definition assign_obj (st : state) (o : nat) (s : soa) : outcome state :=
    do _ <- get_obj st o; Ok (mk_state (mem st) (upd (objs st) o (Some s))).
  (** The implicit destructor of experimental/span.hpp:34-35. *)
  Definition destroy_obj (st : state) (o : nat) : outcome state :=
    do _ <- get_obj st o; Ok (mk_state (mem st) (upd (objs st) o None)).

  (** begin(), end(): 74-83; cbegin(), cend() of the const types: 84-93.  experimental/span.hpp:74-78. *)
  Definition begin_ (st : state) (o : nat) : outcome iterator := do s <- get_obj st o; Ok (mk_it (soa_const s) o 0).
  (** experimental/span.hpp:79-83. *)
  Definition end_ (st : state) (o : nat) : outcome iterator :=
    do s <- get_obj st o; Ok (mk_it (soa_const s) o (cast ptrdiff_ty (soa_size s))).
  (** experimental/span.hpp:84-88. *)
  Definition cbegin (st : state) (o : nat) : outcome iterator := do s <- get_obj st o; Ok (mk_it (map (fun _ => true) (soa_const s)) o 0).
  (** experimental/span.hpp:89-93. *)
  Definition cend (st : state) (o : nat) : outcome iterator :=
    do s <- get_obj st o; Ok (mk_it (map (fun _ => true) (soa_const s)) o (cast ptrdiff_ty (soa_size s))).

  (** operator [], front(), back(): 95-115.  experimental/span.hpp:95-101. *)
  Definition subscript (st : state) (o : nat) (i : Z) : outcome reference :=
    do s <- get_obj st o; do _ <- expects (i <? soa_size s); Ok (mk_ref (soa_const s) o (cast ptrdiff_ty i)).
  (** experimental/span.hpp:102-108. *)
  Definition front (st : state) (o : nat) : outcome reference :=
    do s <- get_obj st o; do _ <- expects (negb (empty s)); Ok (mk_ref (soa_const s) o 0).
  (** experimental/span.hpp:109-115. *)
  Definition back (st : state) (o : nat) : outcome reference :=
    do s <- get_obj st o; do _ <- expects (negb (empty s));
    do i <- int_arith size_ty (soa_size s - 1); Ok (mk_ref (soa_const s) o (cast ptrdiff_ty i)).

  (** subspan(), first(), last(): 117-147.  The default argument of [count] is std::size_t(-1).  experimental/span.hpp:118. *)
  Definition npos : Z := 2 ^ 64 - 1.
  (** experimental/span.hpp:117-135. *)
  Definition subspan (m : memory) (s : soa) (offset count : Z) : outcome soa :=
    do rest <- int_arith size_ty (soa_size s - offset);
    do _ <- expects ((offset <=? size s) && ((count =? npos) || (count <=? rest)));
    let newSize := if negb (count =? npos) then count else rest in
    do data <- mapM (fun p => ptr_add m p (cast ptrdiff_ty offset)) (soa_data s);
    Ok (mk_soa (soa_const s) data newSize).
  (** experimental/span.hpp:136-140. *)
  Definition first (m : memory) (s : soa) (count : Z) : outcome soa := subspan m s 0 count.
  (** experimental/span.hpp:141-147. *)
  Definition last (m : memory) (s : soa) (count : Z) : outcome soa :=
    do _ <- expects (count <=? size s);
    do offset <- int_arith size_ty (size s - count); subspan m s offset count.

  (** get<I>(soa_span const&): 150-155.  experimental/span.hpp:150-155. *)
  Definition soa_get (s : soa) (i : nat) : outcome span :=
    match nth_error (soa_const s) i, nth_error (soa_data s) i with
    | Some c, Some p => Ok (mk_span c p (soa_size s))
    | _, _ => IllFormed
    end.

  (** get<I>(soa_reference const&): experimental/detail/span.hpp:87-91: the element, as an lvalue. *)
  Definition ref_get (st : state) (r : reference) (i : nat) : outcome ptr :=
    do s <- get_obj st (r_obj r);
    match nth_error (soa_data s) i with Some p => ptr_add (mem st) p (r_index r) | None => IllFormed end.
  (** Reading and assigning that element; the latter needs a component type that is not const.  experimental/detail/span.hpp:87-91. *)
  Definition ref_get_read (st : state) (r : reference) (i : nat) : outcome V := do p <- ref_get st r i; load (mem st) p.
  (** experimental/detail/span.hpp:87-91. *)
  Definition ref_get_write (st : state) (r : reference) (i : nat) (v : V) : outcome state :=
    match nth_error (r_const r) i with
    | Some false => do p <- ref_get st r i; do m <- store (mem st) p v; Ok (mk_state m (objs st))
    | _ => IllFormed
    end.

  (** operator std::tuple<...>(): 75-84; the order in which the elements are read does not matter.  experimental/detail/span.hpp:75-84. *)
  Definition ref_read (st : state) (r : reference) : outcome (list V) :=
    do s <- get_obj st (r_obj r); mapM (fun p => load_at (mem st) p (r_index r)) (soa_data s).
  (** operator =(std::tuple<...> const&): 64-74.  The pointers are to non-const even if the Ts are const, so that
      this is well-formed for any [r_const].  experimental/detail/span.hpp:66-72. *)
  Fixpoint assign_values (m : memory) (data : list ptr) (index : Z) (vals : list V) : outcome memory :=
    match data, vals with
    | [], [] => Ok m
    | dst :: data', val :: vals' => do m' <- store_at m dst index val; assign_values m' data' index vals'
    | _, _ => IllFormed
    end.
  (** experimental/detail/span.hpp:64-74. *)
  Definition ref_assign_tuple (st : state) (r : reference) (vals : list V) : outcome state :=
    do s <- get_obj st (r_obj r); do m <- assign_values (mem st) (soa_data s) (r_index r) vals; Ok (mk_state m (objs st)).
  (** operator =(soa_reference const&): 53-63.  experimental/detail/span.hpp:55-61. *)
  Fixpoint assign_elements (m : memory) (dsts : list ptr) (dstIndex : Z) (srcs : list ptr) (srcIndex : Z) : outcome memory :=
    match dsts, srcs with
    | [], [] => Ok m
    | dst :: dsts', src :: srcs' =>
        do v <- load_at m src srcIndex; do m' <- store_at m dst dstIndex v; assign_elements m' dsts' dstIndex srcs' srcIndex
    | _, _ => IllFormed
    end.
  (** experimental/detail/span.hpp:53-63. *)
  Definition ref_assign (st : state) (r rhs : reference) : outcome state :=
    do s <- get_obj st (r_obj r); do s' <- get_obj st (r_obj rhs);
    do m <- assign_elements (mem st) (soa_data s) (r_index r) (soa_data s') (r_index rhs); Ok (mk_state m (objs st)).

  (** std::swap() of two elements.  Called in experimental/detail/span.hpp:104. *)
  Definition swap_elems (m : memory) (p q : ptr) : outcome memory :=
    do tmp <- load m p; do w <- load m q; do m' <- store m p w; store m' q tmp.
  (** swap(soa_reference const&, soa_reference const&): 94-107.  The loop of experimental/detail/span.hpp:98-106. *)
  Fixpoint swap_from (st : state) (lhs rhs : reference) (iC n : nat) : outcome state :=
    match n with
    | O => Ok st
    | S n' =>
        do p <- ref_get st lhs iC; do q <- ref_get st rhs iC;
        do m <- swap_elems (mem st) p q; swap_from (mk_state m (objs st)) lhs rhs (S iC) n'
    end.
  (** experimental/detail/span.hpp:94-107. *)
  Definition ref_swap (st : state) (lhs rhs : reference) : outcome state :=
    if existsb (fun c => c) (r_const lhs) then IllFormed
    else swap_from st lhs rhs 0 (length (r_const lhs)).

  (** soa_span_iterator<>: experimental/detail/span.hpp:133-226. *)
  (** Conversion to the iterator of const element types: 133-138, which needs that none of the Ts is const; if all are,
      this is the copy constructor: 139.  experimental/detail/span.hpp:133-139. *)
  Definition it_to_const (it : iterator) : outcome iterator :=
    if forallb (fun c => c) (it_const it) then Ok it
    else if existsb (fun c => c) (it_const it) then IllFormed
    else Ok (mk_it (map (fun _ => true) (it_const it)) (it_obj it) (it_index it)).
  (** experimental/detail/span.hpp:142-145. *)
  Definition it_deref (it : iterator) : reference := mk_ref (it_const it) (it_obj it) (it_index it).
  (** experimental/detail/span.hpp:146-149. *)
  Definition it_subscript (it : iterator) (n : Z) : outcome reference :=
    do i <- int_arith ptrdiff_ty (it_index it + n); Ok (mk_ref (it_const it) (it_obj it) i).
  (** The updates of index_ in experimental/detail/span.hpp:152, 158, 163, 168, 174, 179, 184, 189. *)
  Definition it_move (it : iterator) (i : Z) : outcome iterator :=
    do i' <- int_arith ptrdiff_ty i; Ok (mk_it (it_const it) (it_obj it) i').
  (** experimental/detail/span.hpp:150-154. *)
  Definition it_incr (it : iterator) : outcome iterator := it_move it (it_index it + 1).
  (** experimental/detail/span.hpp:166-170. *)
  Definition it_decr (it : iterator) : outcome iterator := it_move it (it_index it - 1).
  (** experimental/detail/span.hpp:155-160. *)
  Definition it_post_incr (it : iterator) : outcome (iterator * iterator) := let result := it in do it' <- it_incr it; Ok (result, it').
  (** experimental/detail/span.hpp:171-176. *)
  Definition it_post_decr (it : iterator) : outcome (iterator * iterator) := let result := it in do it' <- it_decr it; Ok (result, it').
  (** operator += and both operators +; operator - (there is no operator -=).  experimental/detail/span.hpp:161-165, 177-186. *)
  Definition it_add (it : iterator) (n : Z) : outcome iterator := it_move it (it_index it + n).
  (** experimental/detail/span.hpp:187-191. *)
  Definition it_sub (it : iterator) (n : Z) : outcome iterator := it_move it (it_index it - n).
  (** experimental/detail/span.hpp:192-195. *)
  Definition it_diff (lhs rhs : iterator) : outcome Z := int_arith ptrdiff_ty (it_index lhs - it_index rhs).
  (** experimental/detail/span.hpp:203-206. *)
  Definition it_eq (lhs rhs : iterator) : bool := it_index lhs =? it_index rhs.
  (** experimental/detail/span.hpp:207-210. *)
  Definition it_ne (lhs rhs : iterator) : bool := negb (it_eq lhs rhs).
  (** experimental/detail/span.hpp:211-214. *)
  Definition it_lt (lhs rhs : iterator) : bool := it_index lhs <? it_index rhs.
  (** experimental/detail/span.hpp:215-218. *)
  Definition it_gt (lhs rhs : iterator) : bool := it_lt rhs lhs.
  (** experimental/detail/span.hpp:219-222. *)
  Definition it_le (lhs rhs : iterator) : bool := negb (it_lt rhs lhs).
  (** experimental/detail/span.hpp:223-226. *)
  Definition it_ge (lhs rhs : iterator) : bool := negb (it_lt lhs rhs).

  (** The language's range-based for loop, with a body that gets the reference; [fuel] bounds the iterations.
      It uses experimental/detail/span.hpp:142-145, 150-154, 207-210. *)
  Fixpoint for_loop {A : Type} (body : A -> state -> reference -> outcome (A * state)) (fuel : nat) (a : A) (st : state) (it last : iterator)
      : outcome (A * state) :=
    if it_ne it last then
      match fuel with
      | O => OutOfFuel
      | S fuel' => do ' (a', st') <- body a st (it_deref it); do it' <- it_incr it; for_loop body fuel' a' st' it' last
      end
    else Ok (a, st).
  (** The loop over experimental/span.hpp:74-83. *)
  Definition soa_for {A : Type} (body : A -> state -> reference -> outcome (A * state)) (fuel : nat) (a : A) (st : state) (o : nat)
      : outcome (A * state) :=
    do f <- begin_ st o; do l <- end_ st o; for_loop body fuel a st f l.
End Soa.
