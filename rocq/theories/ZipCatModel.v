(** Model of the value categories of the arguments of range_zip(), range_zip_sentinel() and the range algorithms:
    /repo/include/makeshift/algorithm.hpp:64-304, /repo/include/makeshift/experimental/algorithm.hpp:99-107,
    /repo/include/makeshift/detail/algorithm.hpp:263-462, /repo/include/makeshift/detail/zip.hpp:205-240, 284-426.

    Ranges are objects in a memory, arguments are expressions that refer to them.  The loops are those of ZipModel.

    Simplifications: containers hold their elements in the object itself, so that copying one copies the elements; a view
    refers to all elements of a container; the iterators of a range are invalidated by the end of the lifetime of the
    container only (no reallocation); arguments of a constructor are initialised from left to right. *)

From Coq Require Import ZArith Arith Bool List.
From Verif Require Import Base ZipModel VCatModel.
Import ListNotations.

(** * Types of ranges *)

(** What the library asks of a type R (without reference and const): whether it is range_index_t, a built-in array, has
    gsl::data(), gsl::size(), std::tuple_size<>, is a view (const objects of which give non-const elements), and can be
    copied.  detail/zip.hpp:93-97, 205-240, 540-568. *)
Record range_type := {
  t_index : bool; t_array : bool; t_data : bool; t_size : bool; t_tuple : bool; t_view : bool; t_copy : bool }.

(** range_iterator_category_<std::decay_t<R>>: detail/zip.hpp:205-221.  A built-in array decays to a pointer, for which
    there is no std::begin(). *)
Definition category_ok (t : range_type) : bool := t_index t || negb (t_array t).
(** range_iterator_leaf_mode_<std::decay_t<R>>: detail/zip.hpp:234-240.  There is no specialization for a type with data()
    but without size(). *)
Definition leaf_mode (t : range_type) : outcome mode :=
  if t_index t then Ok MRangeIndex
  else
    match t_data t && negb (t_array t), t_size t && negb (t_array t) with
    | false, false => Ok MPair
    | false, true => Ok MIter
    | true, true => Ok MIndex
    | true, false => IllFormed
    end.
(** range_size(): detail/zip.hpp:540-568; the array type itself is asked here. *)
Definition known_of (t : range_type) : size_kind :=
  if t_index t then KUnknown else if t_tuple t then KStatic else if t_size t then KDynamic else KUnknown.
(** The constructors of all types exist for these types only.  detail/zip.hpp:218-240, used in detail/algorithm.hpp:76, 123, 287. *)
Definition type_ok (t : range_type) : bool :=
  category_ok t && match leaf_mode t with Ok _ => true | _ => false end.

(** Value categories of the arguments of algorithm.hpp:66, 92: whether const. *)
Definition is_const (c : vcat) : bool := match c with CL | CX => true | L | X => false end.
(** Value categories of the arguments of algorithm.hpp:66, 92: whether lvalues. *)
Definition is_lvalue (c : vcat) : bool := match c with L | CL => true | X | CX => false end.

Section Objects.
  Context {V : Type}.

  (** Containers with their elements, and views of all elements of a container.  The arguments of algorithm.hpp:66, 92. *)
  Inductive object := Elems (l : list V) | View (target : nat).
  (** Objects that are alive; new ones are created from [m_next] on.  Not in the code: the state in which algorithm.hpp:64-304 runs. *)
  Record memory := { m_objs : nat -> option object; m_next : nat }.

  (** An argument "Rs&& ranges" of algorithm.hpp:66, 92: type, value category, object. *)
  Record arg := mk_arg { a_type : range_type; a_cat : vcat; a_loc : nat }.

  (** Assigning to an object, as in the initialisation of detail/algorithm.hpp:386. *)
  Definition set_obj (m : memory) (l : nat) (o : option object) : memory :=
    {| m_objs := fun k => if k =? l then o else m_objs m k; m_next := m_next m |}.
  (** Creating an object, as in detail/algorithm.hpp:386. *)
  Definition new_obj (m : memory) (o : object) : nat * memory :=
    (m_next m, {| m_objs := fun k => if k =? m_next m then Some o else m_objs m k; m_next := S (m_next m) |}).

  (** The container with the elements of a range object: the object itself or the one it is a view of.
      What begin(), end() and data() refer to: detail/zip.hpp:317, 363, 397. *)
  Definition elements_of (t : range_type) (m : memory) (l : nat) : outcome (nat * list V) :=
    match t_view t, m_objs m l with
    | false, Some (Elems xs) => Ok (l, xs)
    | true, Some (View k) => match m_objs m k with Some (Elems xs) => Ok (k, xs) | _ => UB end
    | _, _ => UB
    end.

  (** A range of ZipModel for an argument.  algorithm.hpp:71, 96. *)
  Definition arg_rng (m : memory) (a : arg) : outcome rng :=
    do md <- leaf_mode (a_type a);
    do ' (_, xs) <- elements_of (a_type a) m (a_loc a);
    Ok {| r_mode := md; r_known := known_of (a_type a); r_len := Z.of_nat (length xs) |}.
  (** All arguments: algorithm.hpp:71, 96. *)
  Definition arg_rngs (args : list arg) (m : memory) : outcome (list rng) :=
    if forallb (fun a => type_ok (a_type a)) args then mapM (arg_rng m) args else IllFormed.

  (** * References and iterators *)

  (** A reference to an element: the container, the position and whether the reference is to const; or an index.
      What _deref() gives: detail/zip.hpp:336-343, 378-385, 400-407, 418-425. *)
  Inductive element := ERef (l : nat) (p : Z) (const : bool) | EIdx (i : Z).

  (** What a leaf iterator keeps of an object of type [t] given as an lvalue that is const or not:
      `range.data()`, `begin(range)`: detail/zip.hpp:316-323, 362-365, 396-399. *)
  Definition handle (m : memory) (t : range_type) (const : bool) (l : nat) : outcome (nat * bool) :=
    do ' (k, _) <- elements_of t m l; Ok (k, const && negb (t_view t)).
  (** The element a reference of ZipModel denotes: detail/zip.hpp:336-343, 378-385, 400-407, 418-425. *)
  Definition resolve (hs : list (nat * bool)) (r : ref) : outcome element :=
    match r with
    | RElem k p => match nth_error hs k with Some (l, c) => Ok (ERef l p c) | None => UB end
    | RIdx i => Ok (EIdx i)
    end.

  (** * Algorithms *)

  (** "f(elements...)" for the references of ZipModel.  detail/algorithm.hpp:257-261. *)
  Definition call_with {S Res : Type} (hs : list (nat * bool)) (f : S -> list element -> S * outcome Res)
      (s : S) (refs : list ref) : S * outcome Res :=
    match mapM (resolve hs) refs with Ok es => f s es | _ => (s, UB) end.
  (** What the algorithms do with their arguments `ranges`: make_zip_begin_iterator(mergedSize, ranges...), where the
      arguments are lvalues: algorithm.hpp:96-97 and copies, detail/algorithm.hpp:271-275.  The state is what the functor
      captured, and the memory. *)
  Definition on_args {F Res : Type} (run : list rng -> list (nat * bool) -> F * memory -> (F * memory) * outcome Res)
      (args : list arg) (s : F * memory) : (F * memory) * outcome Res :=
    match (do rs <- arg_rngs args (snd s);
           do hs <- mapM (fun a => handle (snd s) (a_type a) (is_const (a_cat a)) (a_loc a)) args; Ok (rs, hs)) with
    | Ok (rs, hs) => run rs hs s
    | Contract => (s, Contract) | Throw e => (s, Throw e) | UB => (s, UB)
    | IllFormed => (s, IllFormed) | OutOfFuel => (s, OutOfFuel)
    end.

  Section Algorithms.
    Context {F : Type}.
    (** The functors of algorithm.hpp:92, 166, 216, 242, 267, 292. *)
    Definition functor (Res : Type) := F * memory -> list element -> (F * memory) * outcome Res.

    (** algorithm.hpp:90-103. *)
    Definition range_for (func : functor unit) : list arg -> F * memory -> (F * memory) * outcome unit :=
      on_args (fun rs hs => ZipModel.range_for (call_with hs func) rs).
    (** algorithm.hpp:164-179. *)
    Definition range_transform_reduce {A B : Type} (init : A) (reduce : F * memory -> A -> B -> (F * memory) * outcome A)
        (transform : functor B) : list arg -> F * memory -> (F * memory) * outcome A :=
      on_args (fun rs hs => ZipModel.range_transform_reduce init reduce (call_with hs transform) rs).
    (** algorithm.hpp:214-229. *)
    Definition range_count_if (pred : functor bool) : list arg -> F * memory -> (F * memory) * outcome Z :=
      on_args (fun rs hs => ZipModel.range_count_if (call_with hs pred) rs).
    (** algorithm.hpp:240-254. *)
    Definition range_all_of (pred : functor bool) : list arg -> F * memory -> (F * memory) * outcome bool :=
      on_args (fun rs hs => ZipModel.range_all_of (call_with hs pred) rs).
    (** algorithm.hpp:265-279. *)
    Definition range_any_of (pred : functor bool) : list arg -> F * memory -> (F * memory) * outcome bool :=
      on_args (fun rs hs => ZipModel.range_any_of (call_with hs pred) rs).
    (** algorithm.hpp:290-304. *)
    Definition range_none_of (pred : functor bool) : list arg -> F * memory -> (F * memory) * outcome bool :=
      on_args (fun rs hs => ZipModel.range_none_of (call_with hs pred) rs).
  End Algorithms.

  (** * range_zip(), range_zip_sentinel() *)

  (** The state a container is left in when its elements have been moved to another one. *)
  Variable moved : list V -> list V.
  (** The move constructor called in detail/algorithm.hpp:386. *)
  Definition move_from (o : object) : object := match o with Elems l => Elems (moved l) | View k => View k end.

  (** A range object: its size and std::tuple<Rs...> ranges_, where an element is a reference for an lvalue argument and an
      object for an rvalue argument: detail/algorithm.hpp:372-388. *)
  Record zip_object := { z_dim : dim; z_ranges : list arg }.

  (** The initialisation of an element of the tuple: `std::forward<Rs>(_ranges)`; const rvalues are copied.  detail/algorithm.hpp:386. *)
  Definition store (a : arg) (m : memory) : outcome (arg * memory) :=
    match a_cat a with
    | L | CL => Ok (a, m)
    | X =>
        match m_objs m (a_loc a) with
        | Some o => let '(k, m') := new_obj (set_obj m (a_loc a) (Some (move_from o))) o in Ok (mk_arg (a_type a) X k, m')
        | None => UB
        end
    | CX =>
        match m_objs m (a_loc a) with
        | Some o => let '(k, m') := new_obj m o in Ok (mk_arg (a_type a) CX k, m')
        | None => UB
        end
    end.
  (** Whether the type has the constructor.  detail/algorithm.hpp:386. *)
  Definition storable (a : arg) : bool := match a_cat a with CX => t_copy (a_type a) | _ => true end.
  (** The constructor of zip_range_base<>: detail/algorithm.hpp:384-388. *)
  Fixpoint store_all (args : list arg) (m : memory) : outcome (list arg * memory) :=
    match args with
    | [] => Ok ([], m)
    | a :: r =>
        do ' (a', m1) <- store a m;
        do ' (r', m2) <- store_all r m1;
        Ok (a' :: r', m2)
    end.

  (** algorithm.hpp:64-75: the sizes are looked at first. *)
  Definition range_zip (args : list arg) (m : memory) : outcome (zip_object * memory) :=
    if forallb storable args then
      do rs <- arg_rngs args m;
      do ' (N, _) <- ZipModel.range_zip rs;
      do ' (stored, m') <- store_all args m;
      Ok ({| z_dim := N; z_ranges := stored |}, m')
    else IllFormed.

  (** size(): detail/algorithm.hpp:308-312, 337-341. *)
  Definition size (z : zip_object) : Z := dim_value (z_dim z).

  (** An iterator: that of ZipModel and the containers its leaves refer to.  detail/algorithm.hpp:379. *)
  Record iterator := { it_pos : zip_iterator; it_handles : list (nat * bool) }.

  (** `iterator(std::get<Is>(ranges_)...)` in a const member function, where iterator is zip_iterator<N, Rs&...>, the
      constructor of which has parameters `Rs&...`: detail/algorithm.hpp:379, 390-399.  std::get<>() of a const tuple gives a
      const lvalue for an element that is an object; this cannot be bound to `R&`. *)
  Definition get_binds (c : vcat) : bool := match c with L | CL | CX => true | X => false end.
  (** detail/algorithm.hpp:390-399. *)
  Definition begin_with (start : list rng -> zip_iterator) (z : zip_object) (m : memory) : outcome iterator :=
    if forallb (fun a => get_binds (a_cat a)) (z_ranges z) then
      do rs <- arg_rngs (z_ranges z) m;
      do hs <- mapM (fun a => handle m (a_type a) (is_const (a_cat a)) (a_loc a)) (z_ranges z);
      Ok {| it_pos := start rs; it_handles := hs |}
    else IllFormed.
  (** begin() and common_end().  detail/algorithm.hpp:390-394. *)
  Definition begin (z : zip_object) : memory -> outcome iterator := begin_with zip_begin z.
  (** detail/algorithm.hpp:395-399, 452-456. *)
  Definition common_end (z : zip_object) : memory -> outcome iterator := begin_with (zip_end (z_dim z)) z.

  (** Moving an iterator: ZipModel.  detail/algorithm.hpp:150-156, 191-197, 210-220. *)
  Definition advance (it : iterator) (d : Z) : outcome iterator :=
    do p <- zip_advance (it_pos it) d; Ok {| it_pos := p; it_handles := it_handles it |}.

  (** Forming a reference to an element of a container that is not alive is undefined.
      The language's, for detail/zip.hpp:338, 342, 380, 384, 402, 406. *)
  Definition alive (m : memory) (e : element) : outcome element :=
    match e with
    | ERef l p _ =>
        match m_objs m l with
        | Some (Elems xs) => if ((0 <=? p) && (p <? Z.of_nat (length xs)))%Z then Ok e else UB
        | _ => UB
        end
    | EIdx _ => Ok e
    end.
  (** it[d]; *it for d = 0.  detail/algorithm.hpp:146-149, 206-209. *)
  Definition subscript (it : iterator) (d : Z) (m : memory) : outcome (list element) :=
    do refs <- zip_subscript (it_pos it) d;
    do es <- mapM (resolve (it_handles it)) refs;
    mapM (alive m) es.
  (** operator []: detail/algorithm.hpp:421-425. *)
  Definition at_index (z : zip_object) (i : Z) (m : memory) : outcome (list element) :=
    do it <- begin z m; subscript it i m.

  (** ** Copies, assignment and the end of the lifetime of a range object: implicitly defined members. *)

  (** Copying an element of "ranges_": detail/algorithm.hpp:381. *)
  Definition copy_item (a : arg) (m : memory) : outcome (arg * memory) :=
    if is_lvalue (a_cat a) then Ok (a, m)
    else
      match m_objs m (a_loc a) with
      | Some o => let '(k, m') := new_obj m o in Ok (mk_arg (a_type a) (a_cat a) k, m')
      | None => UB
      end.
  (** Copying "ranges_": detail/algorithm.hpp:381. *)
  Fixpoint copy_items (args : list arg) (m : memory) : outcome (list arg * memory) :=
    match args with
    | [] => Ok ([], m)
    | a :: r =>
        do ' (a', m1) <- copy_item a m;
        do ' (r', m2) <- copy_items r m1;
        Ok (a' :: r', m2)
    end.
  (** The implicit copy constructor of the classes of detail/algorithm.hpp:289-457. *)
  Definition copy (z : zip_object) (m : memory) : outcome (zip_object * memory) :=
    if forallb (fun a => is_lvalue (a_cat a) || t_copy (a_type a)) (z_ranges z) then
      do ' (items, m') <- copy_items (z_ranges z) m; Ok ({| z_dim := z_dim z; z_ranges := items |}, m')
    else IllFormed.

  (** The types of two range objects agree.  The template parameters of detail/algorithm.hpp:428, 441. *)
  Definition type_eqb (t u : range_type) : bool :=
    Bool.eqb (t_index t) (t_index u) && Bool.eqb (t_array t) (t_array u) && Bool.eqb (t_data t) (t_data u) &&
    Bool.eqb (t_size t) (t_size u) && Bool.eqb (t_tuple t) (t_tuple u) && Bool.eqb (t_view t) (t_view u) &&
    Bool.eqb (t_copy t) (t_copy u).
  (** The template parameter N of detail/algorithm.hpp:428, 441. *)
  Definition dim_eqb (a b : dim) : bool :=
    match a, b with SStatic n, SStatic k => (n =? k)%Z | SDyn _, SDyn _ => true | _, _ => false end.
  (** std::tuple<>::operator =(): every element has to be assignable, which `R const` and `R const&` are not; assignment to
      a reference assigns to what it refers to.  Used by the implicit assignment operator for the member of detail/algorithm.hpp:381. *)
  Definition assignable (x y : arg) : bool :=
    type_eqb (a_type x) (a_type y) && vcat_eqb (a_cat x) (a_cat y) && negb (is_const (a_cat x)) && t_copy (a_type x).
  (** Assigning to "ranges_": detail/algorithm.hpp:381. *)
  Fixpoint assign_items (xs ys : list arg) (m : memory) : outcome memory :=
    match xs, ys with
    | x :: xs, y :: ys =>
        match m_objs m (a_loc x), m_objs m (a_loc y) with
        | Some _, Some o => assign_items xs ys (set_obj m (a_loc x) (Some o))
        | _, _ => UB
        end
    | _, _ => Ok m
    end.
  (** z1 = z2; the range object z1 afterwards, and the memory.  The implicit assignment operator of the classes of detail/algorithm.hpp:289-457. *)
  Definition assign (z1 z2 : zip_object) (m : memory) : outcome (zip_object * memory) :=
    if dim_eqb (z_dim z1) (z_dim z2) && (length (z_ranges z1) =? length (z_ranges z2)) &&
       forallb (fun xy => assignable (fst xy) (snd xy)) (combine (z_ranges z1) (z_ranges z2)) then
      do m' <- assign_items (z_ranges z1) (z_ranges z2) m;
      Ok ({| z_dim := z_dim z2; z_ranges := z_ranges z1 |}, m')
    else IllFormed.

  (** The implicit destructor of the classes of detail/algorithm.hpp:289-457. *)
  Definition destroy (z : zip_object) (m : memory) : memory :=
    fold_left (fun m a => if is_lvalue (a_cat a) then m else set_obj m (a_loc a) None) (z_ranges z) m.
End Objects.
