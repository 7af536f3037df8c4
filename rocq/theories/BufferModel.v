(** Model of buffer<> and fixed_buffer<>: /repo/include/makeshift/experimental/buffer.hpp,
    /repo/include/makeshift/experimental/detail/buffer.hpp.

    Buffers live in a machine with a heap and a table of objects.  Pointers to storage are pointers to
    the first element of a heap block or of the array member of an object.  A history is a list of
    operations on objects; the environment's choices (whether memory is available, at which element a
    copy throws) are part of the operation. *)

From Coq Require Import ZArith Arith Bool List.
From Verif Require Import Base ExpandModel.
Import ListNotations.
Local Open Scope Z_scope.

(** buffer<T, Extent, MaxStaticBufferExtent>: experimental/buffer.hpp:48-82; fixed_buffer<T, Extent, MaxBufferExtent>:
    experimental/buffer.hpp:140-178.  dynamic_extent is -1 (experimental/buffer.hpp:27). *)
Inductive shape : Type :=
| Buffer (Extent MaxStaticBufferExtent : Z)
| FixedBuffer (Extent MaxBufferExtent : Z).
(** experimental/buffer.hpp:27. *)
Definition dynamic_extent : Z := -1.
(** The template parameter Extent: experimental/buffer.hpp:48, 140. *)
Definition shape_extent (sh : shape) : Z := match sh with Buffer E _ | FixedBuffer E _ => E end.

(** memory_location: experimental/detail/buffer.hpp:270-275. *)
Inductive memory_location : Type := always_on_stack | dynamic | never_on_stack.
(** experimental/detail/buffer.hpp:277-284. *)
Definition determine_memory_location (bufExtent maxStaticBufferExtent : Z) : memory_location :=
  if maxStaticBufferExtent <? 0 then (if bufExtent <? 0 then never_on_stack else always_on_stack)
  else if maxStaticBufferExtent =? 0 then never_on_stack
  else if bufExtent <? 0 then dynamic
  else if bufExtent <=? maxStaticBufferExtent then always_on_stack
  else never_on_stack.

(** The data members of the four base classes: experimental/detail/buffer.hpp:97-267.
    [LStatic E]: static_buffer_base<T, E, ...>, 97-144: std::array<T, E>.
    [LFixed M]:  static_buffer_base<T, -1, M>, 145-171: std::array<T, M>, size_.
    [LDynamic B]: dynamic_buffer_base<T, B>, 173-222: data_, size_, std::array<T, B>.
    [LHeap]:     dynamic_buffer_base<T, 0>, 224-267: data_, size_. *)
Inductive layout : Type := LStatic (E : Z) | LFixed (M : Z) | LDynamic (B : Z) | LHeap.
(** Which specialisation is selected: experimental/detail/buffer.hpp:97-98, 145-146. *)
Definition static_buffer_base (Extent MaxExtent : Z) : layout :=
  if Extent =? -1 then LFixed MaxExtent else LStatic Extent.
(** Which specialisation is selected: experimental/detail/buffer.hpp:173-174, 224-225. *)
Definition dynamic_buffer_base (BufExtent : Z) : layout := if BufExtent =? 0 then LHeap else LDynamic BufExtent.
(** buffer_base<>: experimental/detail/buffer.hpp:287-318; base classes of buffer<> and fixed_buffer<>: experimental/buffer.hpp:50,142. *)
Definition layout_of (sh : shape) : layout :=
  match sh with
  | Buffer E M =>
      match determine_memory_location E M with
      | always_on_stack => static_buffer_base E (-1)
      | dynamic => dynamic_buffer_base M
      | never_on_stack => dynamic_buffer_base 0
      end
  | FixedBuffer E M => static_buffer_base E M
  end.
(** The static_asserts on the class templates: experimental/detail/buffer.hpp:100, experimental/buffer.hpp:144-145. *)
Definition shape_ok (sh : shape) : bool :=
  match layout_of sh with LStatic E => 0 <=? E | _ => true end &&
  match sh with FixedBuffer E M => (0 <=? M) && (E <=? M) | _ => true end.

(** The argument of a size constructor: a value of integral type, or an integral constant (a class
    whose value is part of its type).  experimental/buffer.hpp:56-58, 151-153. *)
Record size_arg := mk_size { sa_type : ity; sa_const : bool; sa_value : Z }.
(** buffer_extent_from_constval(): experimental/detail/buffer.hpp:320-329. *)
Definition buffer_extent_from_constval (a : size_arg) : Z := if sa_const a then cast ptrdiff_ty (sa_value a) else -1.

(** check_buffer_extents(), check_fixed_buffer_extents(): experimental/detail/buffer.hpp:331-350.  The literal 0 is an int. *)
Definition check_buffer_extents (expectedExtent : Z) (a : size_arg) : bool :=
  if expectedExtent =? dynamic_extent then negb (int_lt (sa_type a) int32 (sa_value a) 0)
  else int_eq (sa_type a) ptrdiff_ty (sa_value a) expectedExtent.
(** experimental/detail/buffer.hpp:341-350. *)
Definition check_fixed_buffer_extents (expectedExtent : Z) (a : size_arg) (maxBufferExtent : Z) : bool :=
  if expectedExtent =? dynamic_extent then
    negb (int_lt (sa_type a) int32 (sa_value a) 0) && negb (int_lt ptrdiff_ty (sa_type a) maxBufferExtent (sa_value a))
  else int_eq (sa_type a) ptrdiff_ty (sa_value a) expectedExtent.
(** The calls in experimental/buffer.hpp:63, 159. *)
Definition check_extents (sh : shape) (a : size_arg) : bool :=
  match sh with
  | Buffer E _ => check_buffer_extents E a
  | FixedBuffer E M => check_fixed_buffer_extents E a M
  end.
(** static_asserts of the size constructors: experimental/buffer.hpp:61-62, 156-158. *)
Definition size_ctor_ok (sh : shape) (a : size_arg) : bool :=
  let rhsExtent := buffer_extent_from_constval a in
  ((shape_extent sh =? dynamic_extent) || (rhsExtent =? -1) || (shape_extent sh =? rhsExtent)) &&
  match sh with FixedBuffer _ M => (rhsExtent =? -1) || (rhsExtent <=? M) | _ => true end.

(** What can go wrong.  [Rejected]: does not compile; [Violated]: gsl_Expects() fired; [Thrown]: an exception
    (std::bad_alloc, std::bad_array_new_length, or thrown by an element) leaves the operation; [Indet]: an
    indeterminate value is read; [MemErr]: access outside of live storage, invalid or repeated delete.
    gsl_Expects(): experimental/buffer.hpp:78, 174, experimental/detail/buffer.hpp:77-92, 334-349; allocations: experimental/detail/buffer.hpp:188, 233, 206, 251. *)
Inductive fault : Type := Rejected | Violated | Thrown | Indet | MemErr.

(** A value of the member data_ (experimental/detail/buffer.hpp:177, 228) or of data() (136-143, 163-170). *)
Inductive ptr : Type := PNull | PHeap (b : nat) | PObj (o : nat).
(** The comparison in experimental/detail/buffer.hpp:205. *)
Definition ptr_eqb (p q : ptr) : bool :=
  match p, q with
  | PNull, PNull => true
  | PHeap a, PHeap b | PObj a, PObj b => Nat.eqb a b
  | _, _ => false
  end.

Section Machine.
  Context {V : Type}.
  (** The element type: [v0] a value-initialised element; [trivial] whether default initialisation leaves an
      element indeterminate (scalars); [moved v] what moving from [v] leaves behind. *)
  Variable v0 : V.
  Variable trivial : bool.
  Variable moved : V -> V.

  (** An element of storage; [None]: indeterminate. *)
  Local Notation cell := (option V).
  (** The arrays allocated in experimental/detail/buffer.hpp:188, 233. *)
  Inductive block : Type := Live (cs : list cell) | Freed.
  (** The data members: experimental/detail/buffer.hpp:103, 149-150, 177-179, 228-229. *)
  Record object := mk_object { o_shape : shape; o_data : ptr; o_size : Z; o_buf : list cell }.
  (** Destroyed objects (and objects whose construction failed) are [None].  The heap has the arrays of experimental/detail/buffer.hpp:188, 233. *)
  Record state := mk_state { heap : list block; objs : list (option object) }.
  (** Before any of the constructors, experimental/buffer.hpp:56-72, 151-168, has run. *)
  Definition initial : state := mk_state [] [].

  (** Control flow of the language (no lines of its own): the bodies in experimental/detail/buffer.hpp:97-267 change the state and may fail. *)
  Definition M (A : Type) : Type := state -> state * (A + fault).
  (** As [M]: experimental/detail/buffer.hpp:97-267. *)
  Definition ret {A} (a : A) : M A := fun st => (st, inl a).
  (** As [M]: experimental/detail/buffer.hpp:97-267. *)
  Definition fail {A} (f : fault) : M A := fun st => (st, inr f).
  (** As [M]: experimental/detail/buffer.hpp:97-267. *)
  Definition bindM {A B} (m : M A) (f : A -> M B) : M B :=
    fun st => match m st with (st', inl a) => f a st' | (st', inr e) => (st', inr e) end.
  Notation "'let*' x := m 'in' f" := (bindM m (fun x => f)) (at level 200, x name, m at level 100, f at level 200).
  (** An exception (or a throwing contract violation) leaves [m]: stack unwinding runs [cleanup].
      For the constructors in experimental/buffer.hpp:58-72, 153-168 and the delegating ones in experimental/detail/buffer.hpp:190-195, 236-241. *)
  Definition unwind {A} (m : M A) (cleanup : M unit) : M A :=
    fun st => match m st with
              | (st', inr Thrown) => (let* _ := cleanup in fail Thrown) st'
              | (st', inr Violated) => (let* _ := cleanup in fail Violated) st'
              | r => r
              end.

  (** ** Storage.  Access to the data members, experimental/detail/buffer.hpp:103, 149-150, 177-179, 228-229. *)
  Definition get_obj (o : nat) : M object :=
    fun st => match nth_error (objs st) o with Some (Some ob) => (st, inl ob) | _ => (st, inr MemErr) end.
  (** Changing them, experimental/detail/buffer.hpp:103, 149-150, 177-179, 228-229. *)
  Definition set_obj (o : nat) (ob : option object) : M unit :=
    fun st => (mk_state (heap st) (upd (objs st) o ob), inl tt).
  (** The object being constructed gets the next free number.  experimental/detail/buffer.hpp:109, 153, 182, 232. *)
  Definition push_obj (ob : option object) : M nat :=
    fun st => (mk_state (heap st) (objs st ++ [ob]), inl (length (objs st))).
  (** The value of &buf_ (experimental/detail/buffer.hpp:186) in terms of that number. *)
  Definition next_obj : M nat := fun st => (st, inl (length (objs st))).

  (** The elements of the array a pointer points into.  experimental/detail/buffer.hpp:138, 165, 186, 188, 233. *)
  Definition region (st : state) (p : ptr) : option (list cell) :=
    match p with
    | PNull => None
    | PHeap b => match nth_error (heap st) b with Some (Live cs) => Some cs | _ => None end
    | PObj o => match nth_error (objs st) o with Some (Some ob) => Some (o_buf ob) | _ => None end
    end.
  (** experimental/detail/buffer.hpp:138, 165, 186, 188, 233. *)
  Definition set_region (st : state) (p : ptr) (cs : list cell) : state :=
    match p with
    | PNull => st
    | PHeap b => mk_state (upd (heap st) b (Live cs)) (objs st)
    | PObj o =>
        match nth_error (objs st) o with
        | Some (Some ob) => mk_state (heap st) (upd (objs st) o (Some (mk_object (o_shape ob) (o_data ob) (o_size ob) cs)))
        | _ => st
        end
    end.
  (** Reading and writing p[i].  experimental/detail/buffer.hpp:68, 72, 78, 83, 88, 93. *)
  Definition load (p : ptr) (i : Z) : M V :=
    fun st =>
      match region st p with
      | Some cs =>
          if i <? 0 then (st, inr MemErr)
          else match nth_error cs (Z.to_nat i) with
               | Some (Some v) => (st, inl v)
               | Some None => (st, inr Indet)
               | None => (st, inr MemErr)
               end
      | None => (st, inr MemErr)
      end.
  (** experimental/detail/buffer.hpp:68, and std::copy() in experimental/detail/buffer.hpp:194, 240. *)
  Definition store (p : ptr) (i : Z) (v : V) : M unit :=
    fun st =>
      match region st p with
      | Some cs =>
          if (i <? 0) || (Z.of_nat (length cs) <=? i) then (st, inr MemErr)
          else (set_region st p (upd cs (Z.to_nat i) (Some v)), inl tt)
      | None => (st, inr MemErr)
      end.

  (** new T[n]{ }: value-initialises; throws if no memory is available or if the array would be larger than
      the address space ([T] is at least one byte).  experimental/detail/buffer.hpp:188, 233. *)
  Definition new_array (avail : bool) (n : Z) : M ptr :=
    fun st =>
      if avail && (n <? 2 ^ 63) then
        (mk_state (heap st ++ [Live (repeat (Some v0) (Z.to_nat n))]) (objs st), inl (PHeap (length (heap st))))
      else (st, inr Thrown).
  (** delete[] p.  experimental/detail/buffer.hpp:206, 251. *)
  Definition delete_array (p : ptr) : M unit :=
    fun st =>
      match p with
      | PNull => (st, inl tt)
      | PHeap b => match nth_error (heap st) b with
                   | Some (Live _) => (mk_state (upd (heap st) b Freed) (objs st), inl tt)
                   | _ => (st, inr MemErr)
                   end
      | PObj _ => (st, inr MemErr)
      end.

  (** std::copy() of [n] elements from [src] to [dst], from element [i] on; the copy of element [throw_at] throws.
      The choice of the environment for std::copy(): experimental/detail/buffer.hpp:194, 240, experimental/buffer.hpp:71, 79, 167, 175. *)
  Definition throws (throw_at : option nat) (i : nat) : bool :=
    match throw_at with Some k => Nat.eqb k i | None => false end.
  (** experimental/detail/buffer.hpp:194, 240. *)
  Fixpoint copy_elements (src dst : ptr) (throw_at : option nat) (i n : nat) : M unit :=
    match n with
    | O => ret tt
    | S n' =>
        let* v := load src (Z.of_nat i) in
        if throws throw_at i then fail Thrown
        else let* _ := store dst (Z.of_nat i) v in copy_elements src dst throw_at (S i) n'
    end.
  (** std::copy() from a C array (moving from its elements, which belong to the caller).  experimental/buffer.hpp:71, 79, 167, 175. *)
  Fixpoint copy_values (vs : list V) (dst : ptr) (throw_at : option nat) (i : nat) : M unit :=
    match vs with
    | [] => ret tt
    | v :: vs' =>
        if throws throw_at i then fail Thrown
        else let* _ := store dst (Z.of_nat i) v in copy_values vs' dst throw_at (S i)
    end.
  (** A loop over the elements, experimental/detail/buffer.hpp:44-59. *)
  Fixpoint load_all (p : ptr) (i n : nat) : M (list V) :=
    match n with
    | O => ret []
    | S n' => let* v := load p (Z.of_nat i) in let* r := load_all p (S i) n' in ret (v :: r)
    end.

  (** ** Base classes *)

  (** std::array<T, N> data_{ } and std::array<T, N> buf_ without initialiser.  experimental/detail/buffer.hpp:110, 154. *)
  Definition value_init (n : Z) : list cell := repeat (Some v0) (Z.to_nat n).
  (** experimental/detail/buffer.hpp:179, 182-183. *)
  Definition default_init (n : Z) : list cell := repeat (if trivial then None else Some v0) (Z.to_nat n).

  (** The constructors from std::size_t: experimental/detail/buffer.hpp:109-112, 153-156, 182-189, 232-235.  An object whose
      constructor throws never comes to life. *)
  Definition construct_base (sh : shape) (n : Z) (avail : bool) : M nat :=
    let* self := next_obj in
    match layout_of sh with
    | LStatic E => push_obj (Some (mk_object sh PNull E (value_init E)))
    | LFixed Max => push_obj (Some (mk_object sh PNull n (value_init Max)))
    | LDynamic B =>
        if n <=? cast size_ty B then push_obj (Some (mk_object sh (PObj self) n (default_init B)))
        else unwind (let* p := new_array avail n in push_obj (Some (mk_object sh p n (default_init B))))
                    (let* _ := push_obj None in ret tt)
    | LHeap =>
        unwind (let* p := (if n >? 0 then new_array avail n else ret PNull) in push_obj (Some (mk_object sh p n [])))
               (let* _ := push_obj None in ret tt)
    end.
  (** Destructors: 203-207, 249-252; implicit otherwise.  experimental/detail/buffer.hpp:203-207, 249-252. *)
  Definition destroy_base (o : nat) : M unit :=
    let* ob := get_obj o in
    match layout_of (o_shape ob) with
    | LStatic _ | LFixed _ => set_obj o None
    | LDynamic _ =>
        let* _ := (if negb (ptr_eqb (o_data ob) (PObj o)) then delete_array (o_data ob) else ret tt) in
        set_obj o None
    | LHeap => let* _ := delete_array (o_data ob) in set_obj o None
    end.
  (** data() and size(): 131-143, 158-170, 209-221, 254-266.  experimental/detail/buffer.hpp:136-143, 163-170, 214-221, 259-266. *)
  Definition data_of (o : nat) (ob : object) : ptr :=
    match layout_of (o_shape ob) with LStatic _ | LFixed _ => PObj o | _ => o_data ob end.
  (** experimental/detail/buffer.hpp:131-134, 158-161, 209-212, 254-257. *)
  Definition size_of (ob : object) : Z :=
    match layout_of (o_shape ob) with LStatic E => E | _ => o_size ob end.

  (** Elementwise copy (or move) of the std::array member by an implicitly defined copy (move) operation:
      the first [k] elements are copied, and the copy is complete or an exception is thrown.
      The implicit operations of experimental/detail/buffer.hpp:97-98, 145-146. *)
  Fixpoint copy_cells (cs : list cell) (throw_at : option nat) (i : nat) : list cell * option fault :=
    match cs with
    | [] => ([], None)
    | None :: _ => ([], Some Indet)
    | Some v :: cs' =>
        if throws throw_at i then ([], Some Thrown)
        else let (r, e) := copy_cells cs' throw_at (S i) in (Some v :: r, e)
    end.

  (** ** Operations *)

  (** Size constructor: experimental/buffer.hpp:56-64, 151-160.  The base class is constructed (with the argument converted to
      std::size_t) before the argument is checked. *)
  Definition construct (sh : shape) (a : size_arg) (avail : bool) : M nat :=
    if shape_ok sh && size_ctor_ok sh a then
      let* o := construct_base sh (cast size_ty (sa_value a)) avail in
      unwind (if check_extents sh a then ret o else fail Violated) (destroy_base o)
    else fail Rejected.

  (** Array constructor: experimental/buffer.hpp:65-72, 161-168.  There are no arrays without elements. *)
  Definition construct_from_array (sh : shape) (vs : list V) (avail : bool) (throw_at : option nat) : M nat :=
    let RExtent := Z.of_nat (length vs) in
    if shape_ok sh && (0 <? RExtent) && ((shape_extent sh =? dynamic_extent) || (RExtent =? shape_extent sh)) then
      let* o := construct_base sh (cast size_ty RExtent) avail in
      unwind (let* ob := get_obj o in
              let* _ := copy_values vs (data_of o ob) throw_at 0 in
              ret o) (destroy_base o)
    else fail Rejected.

  (** Copy constructor: experimental/detail/buffer.hpp:190-195, 236-241 (delegating, so the object counts as constructed when
      the copying starts); implicit for the static base classes. *)
  Definition copy_construct (src : nat) (avail : bool) (throw_at : option nat) : M nat :=
    let* rhs := get_obj src in
    match layout_of (o_shape rhs) with
    | LStatic _ | LFixed _ =>
        match copy_cells (o_buf rhs) throw_at 0 with
        | (cs, None) => push_obj (Some (mk_object (o_shape rhs) (o_data rhs) (o_size rhs) cs))
        | (_, Some e) => let* _ := push_obj None in fail e
        end
    | LDynamic _ | LHeap =>
        let* o := construct_base (o_shape rhs) (o_size rhs) avail in
        unwind (let* ob := get_obj o in
                let* _ := copy_elements (data_of src rhs) (o_data ob) throw_at 0 (Z.to_nat (size_of rhs)) in
                ret o) (destroy_base o)
    end.
  (** Initialisation from an rvalue: implicit move constructor for the static base classes; for the dynamic ones the
      move constructor of the base is deleted (201, 247), hence the implicit move constructor of buffer<> is ignored
      by overload resolution, and the copy constructor is called.  experimental/detail/buffer.hpp:97-98, 145-146 (implicit), 201, 247. *)
  Definition move_construct (src : nat) (avail : bool) (throw_at : option nat) : M nat :=
    let* rhs := get_obj src in
    match layout_of (o_shape rhs) with
    | LStatic _ | LFixed _ =>
        let (cs, e) := copy_cells (o_buf rhs) throw_at 0 in
        let k := length cs in
        let* _ := set_obj src (Some (mk_object (o_shape rhs) (o_data rhs) (o_size rhs)
                                      (map (option_map moved) (firstn k (o_buf rhs)) ++ skipn k (o_buf rhs)))) in
        match e with
        | None => push_obj (Some (mk_object (o_shape rhs) (o_data rhs) (o_size rhs) cs))
        | Some e => let* _ := push_obj None in fail e
        end
    | LDynamic _ | LHeap => copy_construct src avail throw_at
    end.
  (** Copy assignment: implicit, memberwise for the static base classes; ill-formed when used for the dynamic ones,
      because `*this = dynamic_buffer_base(rhs)` selects the deleted move assignment operator: 196-202, 242-248.
      experimental/detail/buffer.hpp:97-98, 145-146 (implicit), 196-202, 242-248. *)
  Definition copy_assign (dst src : nat) (throw_at : option nat) : M unit :=
    let* lhs := get_obj dst in
    let* rhs := get_obj src in
    if match o_shape lhs, o_shape rhs with
       | Buffer E Mx, Buffer E' Mx' | FixedBuffer E Mx, FixedBuffer E' Mx' => (E =? E') && (Mx =? Mx')
       | _, _ => false
       end then
      match layout_of (o_shape lhs) with
      | LStatic _ | LFixed _ =>
          let (cs, e) := copy_cells (o_buf rhs) throw_at 0 in
          match e with
          | None => set_obj dst (Some (mk_object (o_shape lhs) (o_data rhs) (o_size rhs) cs))
          | Some e =>
              let* _ := set_obj dst (Some (mk_object (o_shape lhs) (o_data lhs) (o_size lhs)
                                            (cs ++ skipn (length cs) (o_buf lhs)))) in
              fail e
          end
      | LDynamic _ | LHeap => fail Rejected
      end
    else fail Rejected.
  (** Assignment from an array: experimental/buffer.hpp:73-81, 169-177. *)
  Definition assign_array (o : nat) (vs : list V) (throw_at : option nat) : M unit :=
    let RExtent := Z.of_nat (length vs) in
    let* ob := get_obj o in
    if (0 <? RExtent) && ((shape_extent (o_shape ob) =? dynamic_extent) || (RExtent =? shape_extent (o_shape ob))) then
      if cast size_ty RExtent =? size_of ob then copy_values vs (data_of o ob) throw_at 0
      else fail Violated
    else fail Rejected.

  (** buffer_interface_mixin<>: experimental/detail/buffer.hpp:23-95.  operator [] is not checked. *)
  Definition is_empty (ob : object) : bool := size_of ob =? 0.
  (** experimental/detail/buffer.hpp:66-73. *)
  Definition read (o : nat) (i : Z) : M V := let* ob := get_obj o in load (data_of o ob) i.
  (** experimental/detail/buffer.hpp:66-69. *)
  Definition write (o : nat) (i : Z) (v : V) : M unit := let* ob := get_obj o in store (data_of o ob) i v.
  (** experimental/detail/buffer.hpp:75-84. *)
  Definition front (o : nat) : M V :=
    let* ob := get_obj o in if negb (is_empty ob) then load (data_of o ob) 0 else fail Violated.
  (** experimental/detail/buffer.hpp:85-94. *)
  Definition back (o : nat) : M V :=
    let* ob := get_obj o in
    if negb (is_empty ob) then load (data_of o ob) (cast size_ty (size_of ob - 1)) else fail Violated.
  (** A loop over [begin(), end()): 44-59, 114-129.  experimental/detail/buffer.hpp:44-59, 114-129. *)
  Definition iterate (o : nat) : M (list V) :=
    let* ob := get_obj o in load_all (data_of o ob) 0 (Z.to_nat (size_of ob)).
  (** get<I>(): experimental/buffer.hpp:219-248. *)
  Definition get_elem (o : nat) (i : Z) : M V :=
    let* ob := get_obj o in
    let E := shape_extent (o_shape ob) in
    if negb (E =? dynamic_extent) && int_lt size_ty ptrdiff_ty i E then load (data_of o ob) i else fail Rejected.

  (** The operations: experimental/buffer.hpp:56-81, 151-177, 219-248, experimental/detail/buffer.hpp:23-267. *)
  Inductive op : Type :=
  | ONew (sh : shape) (a : size_arg) (avail : bool)
  | OFromArray (sh : shape) (vs : list V) (avail : bool) (throw_at : option nat)
  | OCopy (src : nat) (avail : bool) (throw_at : option nat)
  | OMove (src : nat) (avail : bool) (throw_at : option nat)
  | OAssign (dst src : nat) (throw_at : option nat)
  | OAssignArray (o : nat) (vs : list V) (throw_at : option nat)
  | OWrite (o : nat) (i : Z) (v : V)
  | ORead (o : nat) (i : Z)
  | OFront (o : nat)
  | OBack (o : nat)
  | OGet (o : nat) (i : Z)
  | OIterate (o : nat)
  | OSize (o : nat)
  | OEmpty (o : nat)
  | ODestroy (o : nat).

  (** Their results: experimental/buffer.hpp:56-81, 151-177, 219-248, experimental/detail/buffer.hpp:23-95. *)
  Inductive result : Type := RUnit | RObj (o : nat) | RVal (v : V) | RVals (vs : list V) | RSize (n : Z) | RBool (b : bool).

  (** For [step]; the operations of experimental/buffer.hpp:56-81, 151-177, 219-248. *)
  Definition as_res {A} (f : A -> result) (m : M A) : M result := let* a := m in ret (f a).
  (** experimental/buffer.hpp:56-81, 151-177, 219-248, experimental/detail/buffer.hpp:23-267. *)
  Definition step (c : op) : M result :=
    match c with
    | ONew sh a avail => as_res RObj (construct sh a avail)
    | OFromArray sh vs avail t => as_res RObj (construct_from_array sh vs avail t)
    | OCopy src avail t => as_res RObj (copy_construct src avail t)
    | OMove src avail t => as_res RObj (move_construct src avail t)
    | OAssign dst src t => as_res (fun _ => RUnit) (copy_assign dst src t)
    | OAssignArray o vs t => as_res (fun _ => RUnit) (assign_array o vs t)
    | OWrite o i v => as_res (fun _ => RUnit) (write o i v)
    | ORead o i => as_res RVal (read o i)
    | OFront o => as_res RVal (front o)
    | OBack o => as_res RVal (back o)
    | OGet o i => as_res RVal (get_elem o i)
    | OIterate o => as_res RVals (iterate o)
    | OSize o => as_res (fun ob => RSize (size_of ob)) (get_obj o)
    | OEmpty o => as_res (fun ob => RBool (is_empty ob)) (get_obj o)
    | ODestroy o => as_res (fun _ => RUnit) (destroy_base o)
    end.

  (** A history; undefined behaviour ends it.  Any sequence of the operations of experimental/buffer.hpp:56-81, 151-177, 219-248. *)
  Fixpoint run (h : list op) (st : state) : state * list (result + fault) :=
    match h with
    | [] => (st, [])
    | c :: h' =>
        match step c st with
        | (st', inr MemErr) => (st', [inr MemErr])
        | (st', inr Indet) => (st', [inr Indet])
        | (st', r) => let (st'', rs) := run h' st' in (st'', r :: rs)
        end
    end.

  (** make_buffer(), make_fixed_buffer(): experimental/buffer.hpp:98-105 (the others below).  The last one takes an integral constant. *)
  Definition make_buffer (a : size_arg) (avail : bool) : op := ONew (Buffer (buffer_extent_from_constval a) (-1)) a avail.
  (** experimental/buffer.hpp:118-125. *)
  Definition make_buffer_max (Mx : Z) (a : size_arg) (avail : bool) : op :=
    ONew (Buffer (buffer_extent_from_constval a) Mx) a avail.
  (** experimental/buffer.hpp:208-215. *)
  Definition make_fixed_buffer_max (Mx : Z) (a : size_arg) (avail : bool) : op :=
    ONew (FixedBuffer (buffer_extent_from_constval a) Mx) a avail.
  (** experimental/buffer.hpp:190-196. *)
  Definition make_fixed_buffer (a : size_arg) : op := ONew (FixedBuffer (sa_value a) (sa_value a)) a true.
End Machine.
