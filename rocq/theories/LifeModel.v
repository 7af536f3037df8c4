(** Lifetimes of the elements of buffer<> and fixed_buffer<>: /repo/include/makeshift/experimental/buffer.hpp,
    /repo/include/makeshift/experimental/detail/buffer.hpp.

    BufferModel.v is about the values of elements, and only copies of elements can throw there.  Here elements have no
    values, but every element is an object that is constructed and destroyed, and every operation of the element type
    other than its destructor, and every allocation, may throw: [oracle] decides it for the n-th such operation.

    The elements of an array are constructed in order; if one of the constructors throws, those already constructed are
    destroyed in reverse order, and so are the members and base classes constructed so far, and the memory obtained by a
    new expression is released (rules of the language).  Contract violations throw, too (gsl_CONFIG_CONTRACT_VIOLATION_THROWS);
    if they terminate instead, nothing that happens afterwards matters. *)

From Coq Require Import ZArith Arith Bool List.
From Verif Require Import Base ExpandModel BufferModel.
Import ListNotations.
Local Open Scope Z_scope.

(** What can go wrong.  [Rejected]: does not compile; [Violated]: gsl_Expects() fired; [Thrown]: an exception leaves the
    operation; [Misuse]: the caller uses an object that does not exist or an index out of bounds; [LifeErr]: an element
    is constructed where there is one, or used or destroyed where there is none, or memory is released that is not
    allocated, or while elements in it are alive.
    gsl_Expects(): experimental/buffer.hpp:78, 174, experimental/detail/buffer.hpp:334-349; static_assert: experimental/buffer.hpp:62, 69, 76, 144-145, 157-158, 165, 172. *)
Inductive fault : Type := Rejected | Violated | Thrown | Misuse | LifeErr.

(** Arrays of elements: a heap block or the member of an object; whether each of the elements is alive.
    experimental/detail/buffer.hpp:188, 233 and 103, 149, 179. *)
Inductive kind : Type := Heap | Member.
(** experimental/detail/buffer.hpp:103, 149, 179, 188, 233. *)
Record region := mk_region { r_kind : kind; r_cells : list bool }.
(** Buffers: data_ ([None]: a null pointer), size_, and the array member (empty for dynamic_buffer_base<T, 0>).
    experimental/detail/buffer.hpp:103, 149-150, 177-179, 228-229. *)
Record object := mk_object { o_shape : shape; o_data : option nat; o_size : Z; o_buf : nat }.
(** [clock] counts the operations that may throw; [made], [gone]: numbers of constructor and destructor calls.
    The objects of experimental/buffer.hpp:48-82, 140-178 and their elements. *)
Record state := mk_state {
  clock : nat; made : nat; gone : nat;
  regions : list (option region);
  objs : list (option object)
}.
(** Before any constructor of experimental/buffer.hpp:56-72, 151-168 has run. *)
Definition initial : state := mk_state 0 0 0 [] [].

Section Lifetimes.
  Variable oracle : nat -> bool.

  (** Control flow of the language (no lines of its own) in the bodies of experimental/detail/buffer.hpp:97-267. *)
  Definition M (A : Type) : Type := state -> state * (A + fault).
  (** As [M]: experimental/detail/buffer.hpp:97-267. *)
  Definition ret {A} (a : A) : M A := fun st => (st, inl a).
  (** As [M]: experimental/detail/buffer.hpp:97-267. *)
  Definition fail {A} (f : fault) : M A := fun st => (st, inr f).
  (** As [M]: experimental/detail/buffer.hpp:97-267. *)
  Definition bindM {A B} (m : M A) (f : A -> M B) : M B :=
    fun st => match m st with (st', inl a) => f a st' | (st', inr e) => (st', inr e) end.
  Notation "'let*' x := m 'in' f" := (bindM m (fun x => f)) (at level 200, x name, m at level 100, f at level 200).
  (** An exception leaves [m]: stack unwinding runs [cleanup].
      For experimental/buffer.hpp:58-72, 153-168, experimental/detail/buffer.hpp:182-195, 232-241. *)
  Definition unwind {A} (m : M A) (cleanup : M unit) : M A :=
    fun st => match m st with
              | (st', inr Thrown) => (let* _ := cleanup in fail Thrown) st'
              | (st', inr Violated) => (let* _ := cleanup in fail Violated) st'
              | r => r
              end.

  (** An operation that may throw.
      Operations of the element type and allocations in experimental/detail/buffer.hpp:110, 154, 179, 188, 194, 233, 240, experimental/buffer.hpp:71, 79, 167, 175. *)
  Definition may_throw : M unit :=
    fun st =>
      let st' := mk_state (S (clock st)) (made st) (gone st) (regions st) (objs st) in
      if oracle (clock st) then (st', inr Thrown) else (st', inl tt).

  (** The elements of experimental/detail/buffer.hpp:103, 149, 179, 188, 233. *)
  Definition cells_of (r : nat) (st : state) : option (kind * list bool) :=
    match nth_error (regions st) r with Some (Some g) => Some (r_kind g, r_cells g) | _ => None end.
  (** Constructor, assignment and destructor of element [i] of array [r].  experimental/detail/buffer.hpp:110, 154, 179, 188, 233. *)
  Definition construct_cell (r i : nat) : M unit :=
    let* _ := may_throw in
    fun st =>
      match cells_of r st with
      | Some (k, cs) =>
          match nth_error cs i with
          | Some false => (mk_state (clock st) (S (made st)) (gone st) (upd (regions st) r (Some (mk_region k (upd cs i true)))) (objs st), inl tt)
          | _ => (st, inr LifeErr)
          end
      | None => (st, inr LifeErr)
      end.
  (** experimental/detail/buffer.hpp:68, 72, 78, 83, 88, 93, 194, 240. *)
  Definition use_cell (r i : nat) : M unit :=
    fun st =>
      match cells_of r st with
      | Some (_, cs) => match nth_error cs i with Some true => (st, inl tt) | _ => (st, inr LifeErr) end
      | None => (st, inr LifeErr)
      end.
  (** experimental/detail/buffer.hpp:194, 240, experimental/buffer.hpp:71, 79, 167, 175. *)
  Definition assign_cell (r i : nat) : M unit := let* _ := use_cell r i in may_throw.
  (** experimental/detail/buffer.hpp:206, 251, and the implicit destruction of 103, 149, 179. *)
  Definition destroy_cell (r i : nat) : M unit :=
    fun st =>
      match cells_of r st with
      | Some (k, cs) =>
          match nth_error cs i with
          | Some true => (mk_state (clock st) (made st) (S (gone st)) (upd (regions st) r (Some (mk_region k (upd cs i false)))) (objs st), inl tt)
          | _ => (st, inr LifeErr)
          end
      | None => (st, inr LifeErr)
      end.

  (** Memory for [n] elements.  experimental/detail/buffer.hpp:188, 233 or the member 103, 149, 179. *)
  Definition acquire (k : kind) (n : nat) : M nat :=
    fun st => (mk_state (clock st) (made st) (gone st) (regions st ++ [Some (mk_region k (repeat false n))]) (objs st),
               inl (length (regions st))).
  (** experimental/detail/buffer.hpp:206, 251 or the end of the member 103, 149, 179. *)
  Definition release (k : kind) (r : nat) : M unit :=
    fun st =>
      match cells_of r st with
      | Some (k', cs) =>
          if match k, k' with Heap, Heap | Member, Member => true | _, _ => false end && forallb negb cs then
            (mk_state (clock st) (made st) (gone st) (upd (regions st) r None) (objs st), inl tt)
          else (st, inr LifeErr)
      | None => (st, inr LifeErr)
      end.

  (** Destruction of the elements n - 1, ..., 0.  experimental/detail/buffer.hpp:206, 251. *)
  Fixpoint destroy_cells (r n : nat) : M unit :=
    match n with
    | O => ret tt
    | S n' => let* _ := destroy_cell r n' in destroy_cells r n'
    end.
  (** Construction of the elements i, ..., i + n - 1; [before]: what else the constructor of an element does, such as
      reading the element it is copied from.  experimental/detail/buffer.hpp:110, 154, 179, 188, 233. *)
  Fixpoint construct_cells (before : nat -> M unit) (r i n : nat) : M unit :=
    match n with
    | O => ret tt
    | S n' =>
        let* _ := unwind (let* _ := before i in construct_cell r i) (destroy_cells r i) in
        construct_cells before r (S i) n'
    end.
  (** Value or default initialisation: experimental/detail/buffer.hpp:110, 154, 179, 188, 233. *)
  Definition from_nothing (i : nat) : M unit := ret tt.
  (** The implicit copy of the member: experimental/detail/buffer.hpp:103, 149. *)
  Definition from_cell (src : nat) (i : nat) : M unit := use_cell src i.

  (** new T[n]{ } and delete[] p.  experimental/detail/buffer.hpp:188, 233. *)
  Definition new_array (n : Z) : M nat :=
    let* _ := may_throw in
    if n <? 2 ^ 63 then
      let* r := acquire Heap (Z.to_nat n) in
      let* _ := unwind (construct_cells from_nothing r 0 (Z.to_nat n)) (release Heap r) in
      ret r
    else fail Thrown.
  (** What the array of experimental/detail/buffer.hpp:188, 233 was allocated with. *)
  Definition array_length (r : nat) : M nat :=
    fun st => match cells_of r st with Some (_, cs) => (st, inl (length cs)) | None => (st, inr LifeErr) end.
  (** experimental/detail/buffer.hpp:206, 251. *)
  Definition delete_array (p : option nat) : M unit :=
    match p with
    | None => ret tt
    | Some r =>
        let* n := array_length r in
        let* _ := destroy_cells r n in
        release Heap r
    end.

  (** The array member of a new object, and its end.  experimental/detail/buffer.hpp:103, 149, 179. *)
  Definition make_member (before : nat -> M unit) (n : nat) : M nat :=
    let* b := acquire Member n in
    let* _ := unwind (construct_cells before b 0 n) (release Member b) in
    ret b.
  (** experimental/detail/buffer.hpp:103, 149, 179. *)
  Definition end_member (b : nat) : M unit :=
    let* n := array_length b in
    let* _ := destroy_cells b n in
    release Member b.

  (** ** Base classes: experimental/detail/buffer.hpp:97-267 *)

  (** An object of experimental/buffer.hpp:48-82, 140-178. *)
  Definition get_obj (o : nat) : M object :=
    fun st => match nth_error (objs st) o with Some (Some ob) => (st, inl ob) | _ => (st, inr Misuse) end.
  (** The end of such an object, experimental/detail/buffer.hpp:203-207, 249-252. *)
  Definition drop_obj (o : nat) : M unit :=
    fun st => (mk_state (clock st) (made st) (gone st) (regions st) (upd (objs st) o None), inl tt).
  (** The beginning of such an object, experimental/detail/buffer.hpp:109, 153, 182, 232. *)
  Definition push_obj (ob : object) : M nat :=
    fun st => (mk_state (clock st) (made st) (gone st) (regions st) (objs st ++ [Some ob]), inl (length (objs st))).

  (** Number of elements of the array member.  experimental/detail/buffer.hpp:103, 149, 179. *)
  Definition member_length (sh : shape) : nat :=
    Z.to_nat (match layout_of sh with LStatic E => E | LFixed Max => Max | LDynamic B => B | LHeap => 0 end).
  (** The constructors from std::size_t: experimental/detail/buffer.hpp:109-112, 153-156, 182-189, 232-235. *)
  Definition construct_base (sh : shape) (n : Z) : M nat :=
    let* b := make_member from_nothing (member_length sh) in
    let* p :=
      unwind
        match layout_of sh with
        | LStatic _ | LFixed _ => ret None
        | LDynamic B => if n <=? cast size_ty B then ret (Some b) else let* p := new_array n in ret (Some p)
        | LHeap => if n >? 0 then let* p := new_array n in ret (Some p) else ret None
        end (end_member b) in
    push_obj (mk_object sh p n b).
  (** Destructors: 203-207, 249-252; implicit otherwise.  The comparison in experimental/detail/buffer.hpp:205. *)
  Definition same_array (p : option nat) (b : nat) : bool := match p with Some r => Nat.eqb r b | None => false end.
  (** experimental/detail/buffer.hpp:203-207, 249-252. *)
  Definition destroy_base (o : nat) : M unit :=
    let* ob := get_obj o in
    let* _ :=
      match layout_of (o_shape ob) with
      | LStatic _ | LFixed _ => ret tt
      | LDynamic _ => if negb (same_array (o_data ob) (o_buf ob)) then delete_array (o_data ob) else ret tt
      | LHeap => delete_array (o_data ob)
      end in
    let* _ := end_member (o_buf ob) in
    drop_obj o.
  (** data() and size(): 131-143, 158-170, 209-221, 254-266.  experimental/detail/buffer.hpp:136-143, 163-170, 214-221, 259-266. *)
  Definition data_of (ob : object) : option nat :=
    match layout_of (o_shape ob) with LStatic _ | LFixed _ => Some (o_buf ob) | _ => o_data ob end.
  (** experimental/detail/buffer.hpp:131-134, 158-161, 209-212, 254-257. *)
  Definition size_of (ob : object) : Z :=
    match layout_of (o_shape ob) with LStatic E => E | _ => o_size ob end.
  (** The pointer is dereferenced: experimental/detail/buffer.hpp:68, 194, 240. *)
  Definition at_data (p : option nat) (f : nat -> M unit) : M unit := match p with Some r => f r | None => fail LifeErr end.

  (** std::copy() to elements i, ..., i + n - 1 of [dst] (from elements of [src] or from elsewhere).
      experimental/detail/buffer.hpp:194, 240, experimental/buffer.hpp:71, 79, 167, 175. *)
  Fixpoint assign_cells (src : option (option nat)) (dst : option nat) (i n : nat) : M unit :=
    match n with
    | O => ret tt
    | S n' =>
        let* _ := match src with Some p => at_data p (fun r => use_cell r i) | None => ret tt end in
        let* _ := at_data dst (fun r => assign_cell r i) in
        assign_cells src dst (S i) n'
    end.

  (** ** Operations *)

  (** Size constructor: experimental/buffer.hpp:56-64, 151-160. *)
  Definition construct (sh : shape) (a : size_arg) : M nat :=
    if shape_ok sh && size_ctor_ok sh a then
      let* o := construct_base sh (cast size_ty (sa_value a)) in
      unwind (if check_extents sh a then ret o else fail Violated) (destroy_base o)
    else fail Rejected.
  (** Array constructor: experimental/buffer.hpp:65-72, 161-168. *)
  Definition construct_from_array (sh : shape) (len : nat) : M nat :=
    let RExtent := Z.of_nat len in
    if shape_ok sh && (0 <? RExtent) && ((shape_extent sh =? dynamic_extent) || (RExtent =? shape_extent sh)) then
      let* o := construct_base sh (cast size_ty RExtent) in
      unwind (let* ob := get_obj o in let* _ := assign_cells None (data_of ob) 0 len in ret o) (destroy_base o)
    else fail Rejected.
  (** Copy constructor: experimental/detail/buffer.hpp:190-195, 236-241 (delegating); memberwise for the static base classes. *)
  Definition copy_construct (src : nat) : M nat :=
    let* rhs := get_obj src in
    match layout_of (o_shape rhs) with
    | LStatic _ | LFixed _ =>
        let* b := make_member (from_cell (o_buf rhs)) (member_length (o_shape rhs)) in
        push_obj (mk_object (o_shape rhs) (o_data rhs) (o_size rhs) b)
    | LDynamic _ | LHeap =>
        let* o := construct_base (o_shape rhs) (o_size rhs) in
        unwind (let* ob := get_obj o in
                let* _ := assign_cells (Some (data_of rhs)) (o_data ob) 0 (Z.to_nat (size_of rhs)) in
                ret o) (destroy_base o)
    end.
  (** Initialisation from an rvalue: elements are moved instead of copied, or the copy constructor is called; see
      BufferModel.v.  In either case the source keeps its elements.  experimental/detail/buffer.hpp:97-98, 145-146 (implicit), 201, 247. *)
  Definition move_construct (src : nat) : M nat := copy_construct src.
  (** Copy (and move) assignment: memberwise for the static base classes, ill-formed for the others.
      Objects of the same type only: experimental/detail/buffer.hpp:97-98, 145-146 (implicit), 196, 242. *)
  Definition same_shape (a b : shape) : bool :=
    match a, b with
    | Buffer E Mx, Buffer E' Mx' | FixedBuffer E Mx, FixedBuffer E' Mx' => (E =? E') && (Mx =? Mx')
    | _, _ => false
    end.
  (** experimental/detail/buffer.hpp:97-98, 145-146 (implicit), 196-202, 242-248. *)
  Definition copy_assign (dst src : nat) : M unit :=
    let* lhs := get_obj dst in
    let* rhs := get_obj src in
    if same_shape (o_shape lhs) (o_shape rhs) then
      match layout_of (o_shape lhs) with
      | LStatic _ | LFixed _ =>
          let* _ := assign_cells (Some (Some (o_buf rhs))) (Some (o_buf lhs)) 0 (member_length (o_shape lhs)) in
          fun st => (mk_state (clock st) (made st) (gone st) (regions st)
                       (upd (objs st) dst (Some (mk_object (o_shape lhs) (o_data rhs) (o_size rhs) (o_buf lhs)))), inl tt)
      | LDynamic _ | LHeap => fail Rejected
      end
    else fail Rejected.
  (** Assignment from an array: experimental/buffer.hpp:73-81, 169-177. *)
  Definition assign_array (o : nat) (len : nat) : M unit :=
    let RExtent := Z.of_nat len in
    let* ob := get_obj o in
    if (0 <? RExtent) && ((shape_extent (o_shape ob) =? dynamic_extent) || (RExtent =? shape_extent (o_shape ob))) then
      if cast size_ty RExtent =? size_of ob then assign_cells None (data_of ob) 0 len
      else fail Violated
    else fail Rejected.
  (** Access to an element by operator [], get<>(), or an iterator: reading, or assigning to it.
      experimental/detail/buffer.hpp:44-95, 114-129, experimental/buffer.hpp:219-248. *)
  Definition access (o : nat) (i : Z) (assign : bool) : M unit :=
    let* ob := get_obj o in
    if (0 <=? i) && (i <? size_of ob) then
      at_data (data_of ob) (fun r => if assign then assign_cell r (Z.to_nat i) else use_cell r (Z.to_nat i))
    else fail Misuse.

  (** experimental/buffer.hpp:56-81, 151-177, 219-248, experimental/detail/buffer.hpp:23-267. *)
  Inductive op : Type :=
  | ONew (sh : shape) (a : size_arg)
  | OFromArray (sh : shape) (len : nat)
  | OCopy (src : nat)
  | OMove (src : nat)
  | OAssign (dst src : nat)
  | OAssignArray (o : nat) (len : nat)
  | OAccess (o : nat) (i : Z) (assign : bool)
  | ODestroy (o : nat).

  (** experimental/buffer.hpp:56-81, 151-177, 219-248, experimental/detail/buffer.hpp:23-267. *)
  Definition step (c : op) : M (option nat) :=
    let made (m : M nat) : M (option nat) := let* o := m in ret (Some o) in
    let done (m : M unit) : M (option nat) := let* _ := m in ret None in
    match c with
    | ONew sh a => made (construct sh a)
    | OFromArray sh len => made (construct_from_array sh len)
    | OCopy src => made (copy_construct src)
    | OMove src => made (move_construct src)
    | OAssign dst src => done (copy_assign dst src)
    | OAssignArray o len => done (assign_array o len)
    | OAccess o i assign => done (access o i assign)
    | ODestroy o => done (destroy_base o)
    end.
  (** A history; operations that fail have no further effect on what follows.
      Any sequence of the operations of experimental/buffer.hpp:56-81, 151-177, 219-248. *)
  Fixpoint run (h : list op) (st : state) : state * list (option nat + fault) :=
    match h with
    | [] => (st, [])
    | c :: h' => let (st1, r) := step c st in let (st2, rs) := run h' st1 in (st2, r :: rs)
    end.
End Lifetimes.
