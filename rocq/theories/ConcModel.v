(** Model of several threads that rearrange parts of the same arrays: apply_permutation(), apply_reverse_permutation()
    (experimental/algorithm.hpp:26-88) and shuffle() (algorithm.hpp:34-53), on iterators of soa_span<>
    (experimental/detail/span.hpp:36-226) and on pointers, as sequences of accesses to memory.

    Every read and write of an object in memory is a step of its own, and the steps of different threads are interleaved in any
    order; by the language's memory model, programs without data races behave like this.  Objects are the elements of arrays, the
    elements of index ranges and the data members of span objects.  Iterators, indices, random number generators and distributions are
    objects of a thread of its own and not seen by others.  Copying elements does not throw. *)

From Coq Require Import ZArith Arith Bool List.
From Verif Require Import Base ExpandModel PermModel SoaModel.
Import ListNotations.
Local Open Scope Z_scope.

Section Threads.
  Context {V : Type}.

  (** Objects in memory: an element of an array, the data member of a span object (experimental/span.hpp:38), an element of an index
      range ("indices" in experimental/algorithm.hpp:28, 65). *)
  Inductive loc := LElem (b : nat) (i : Z) | LObj (o : nat) | LIdx (a : nat) (i : Z).
  (** Their values, respectively: experimental/span.hpp:38, experimental/algorithm.hpp:32, 69. *)
  Inductive value := VElem (v : V) | VObj (s : soa) | VIdx (z : Z).
  (** What a thread does, access by access, in experimental/algorithm.hpp:26-88, algorithm.hpp:34-53. *)
  Inductive act (R : Type) :=
  | Done (o : outcome R)
  | Read (l : loc) (k : value -> act R)
  | Write (l : loc) (w : value) (k : act R).
  Arguments Done {R}. Arguments Read {R}. Arguments Write {R}.
  (** ";" in experimental/algorithm.hpp:40-57, 77-87, algorithm.hpp:44-52. *)
  Fixpoint then_ {R Q : Type} (p : act R) (f : R -> act Q) : act Q :=
    match p with
    | Done (Ok x) => f x
    | Done Contract => Done Contract
    | Done (Throw e) => Done (Throw e)
    | Done UB => Done UB
    | Done IllFormed => Done IllFormed
    | Done OutOfFuel => Done OutOfFuel
    | Read l k => Read l (fun w => then_ (k w) f)
    | Write l w k => Write l w (then_ k f)
    end.
  Notation "'let!' x := p 'in' f" := (then_ p (fun x => f)) (at level 200, x name, p at level 100, f at level 200).

  (** ** Memory, and programs that run in it *)
  (** Each object may be modified or not, and has a value; [None]: there is no such object.
      What experimental/algorithm.hpp:26-88 and experimental/detail/span.hpp:53-107 access. *)
  Definition heap : Type := loc -> option (bool * value).
  (** Objects are compared by identity: experimental/span.hpp:38, experimental/algorithm.hpp:28. *)
  Definition loc_eqb (x y : loc) : bool :=
    match x, y with
    | LElem b i, LElem b' i' => (b =? b')%nat && (i =? i')
    | LObj o, LObj o' => (o =? o')%nat
    | LIdx a i, LIdx a' i' => (a =? a')%nat && (i =? i')
    | _, _ => false
    end.
  (** An assignment: experimental/algorithm.hpp:49, 53, 56, 85 and those of swap(). *)
  Definition set (h : heap) (l : loc) (w : value) : heap := fun l' => if loc_eqb l l' then Some (true, w) else h l'.
  (** One thread on its own, e.g. a call of experimental/algorithm.hpp:26-58. *)
  Fixpoint run {R} (p : act R) (h : heap) : heap * outcome R :=
    match p with
    | Done o => (h, o)
    | Read l k => match h l with Some (_, w) => run (k w) h | None => (h, UB) end
    | Write l w k => match h l with Some (true, _) => run k (set h l w) | _ => (h, UB) end
    end.
  (** The next access of one of the threads, which run e.g. experimental/algorithm.hpp:26-88. *)
  Inductive step {R} : heap * list (act R) -> heap * list (act R) -> Prop :=
  | step_read : forall h ps t l k c w, nth_error ps t = Some (Read l k) -> h l = Some (c, w) -> step (h, ps) (h, upd ps t (k w))
  | step_no_read : forall h ps t l k, nth_error ps t = Some (Read l k) -> h l = None -> step (h, ps) (h, upd ps t (Done UB))
  | step_write : forall h ps t l w k w', nth_error ps t = Some (Write l w k) -> h l = Some (true, w') -> step (h, ps) (set h l w, upd ps t k)
  | step_no_write : forall h ps t l w k, nth_error ps t = Some (Write l w k) -> (forall w', h l <> Some (true, w')) ->
      step (h, ps) (h, upd ps t (Done UB)).

  (** ** References and iterators of soa_span<>; [m] tells the sizes of the arrays *)
  Variable m : memory (V := V).
  (** Reading an element: std::swap(), called in experimental/detail/span.hpp:104. *)
  Definition p_load (p : ptr) : act V :=
    match p with
    | PNull => Done UB
    | PAt b i => Read (LElem b i) (fun w => match w with VElem v => Done (Ok v) | _ => Done UB end)
    end.
  (** Assigning to one: std::swap(), called in experimental/detail/span.hpp:104. *)
  Definition p_store (p : ptr) (v : V) : act unit :=
    match p with
    | PNull => Done UB
    | PAt b i => Write (LElem b i) (VElem v) (Done (Ok tt))
    end.
  (** get<I>(soa_reference const&), which reads the data member of the span object: experimental/detail/span.hpp:87-91. *)
  Definition p_ref_get (r : reference) (i : nat) : act ptr :=
    Read (LObj (r_obj r)) (fun w =>
      match w with
      | VObj s => match nth_error (soa_data s) i with Some p => Done (ptr_add m p (r_index r)) | None => Done IllFormed end
      | _ => Done UB
      end).
  (** std::swap() of two elements: experimental/detail/span.hpp:104. *)
  Definition p_swap_elems (p q : ptr) : act unit :=
    let! tmp := p_load p in let! w := p_load q in let! _ := p_store p w in p_store q tmp.
  (** The loop of swap(): experimental/detail/span.hpp:98-106. *)
  Fixpoint p_swap_from (lhs rhs : reference) (iC n : nat) : act unit :=
    match n with
    | O => Done (Ok tt)
    | S n' =>
        let! p := p_ref_get lhs iC in let! q := p_ref_get rhs iC in
        let! _ := p_swap_elems p q in p_swap_from lhs rhs (S iC) n'
    end.
  (** swap(soa_reference const&, soa_reference const&): experimental/detail/span.hpp:94-107. *)
  Definition p_ref_swap (lhs rhs : reference) : act unit :=
    if existsb (fun c => c) (r_const lhs) then Done IllFormed else p_swap_from lhs rhs 0 (length (r_const lhs)).
  (** swap(first[a], first[b]) for iterators of soa_span<>: experimental/detail/span.hpp:94-107, 146-149. *)
  Definition p_soa_swap (first : iterator) (a b : Z) : act unit :=
    let! r := Done (it_subscript first a) in let! r' := Done (it_subscript first b) in p_ref_swap r r'.
  (** swap(first[a], first[b]) for pointers: experimental/algorithm.hpp:52, 84, algorithm.hpp:50. *)
  Definition p_ptr_swap (first : ptr) (a b : Z) : act unit :=
    let! p := Done (ptr_add m first a) in let! q := Done (ptr_add m first b) in p_swap_elems p q.

  (** ** The algorithms; [arr] is the index range *)
  Section Algorithms.
    Variable swap : Z -> Z -> act unit.
    Variable arr : nat.
    (** indices[z]: experimental/algorithm.hpp:43, 45, 79, 81, 83. *)
    Definition p_idx (z : Z) : act Z := Read (LIdx arr z) (fun w => match w with VIdx x => Done (Ok x) | _ => Done UB end).
    (** indices[z] = x: experimental/algorithm.hpp:49, 53, 56. *)
    Definition p_idx_set (z x : Z) : act unit := Write (LIdx arr z) (VIdx x) (Done (Ok tt)).
    (** swap(indices[a], indices[b]): experimental/algorithm.hpp:85. *)
    Definition p_idx_swap (a b : Z) : act unit :=
      let! x := p_idx a in let! y := p_idx b in let! _ := p_idx_set a y in p_idx_set b x.

    (** The inner loop of apply_permutation(): experimental/algorithm.hpp:43-55.  Lines 43 and 45 both read indices[current]. *)
    Fixpoint p_apply_inner (fuel : nat) (i length current : Z) : act Z :=
      let! x := p_idx current in
      if i =? x then Done (Ok current)
      else
        match fuel with
        | O => Done OutOfFuel
        | S fuel' =>
            let! next := p_idx current in
            if (next <? 0) || (next >=? length) || (next =? current) then
              let! _ := p_idx_set i next in Done Contract
            else
              let! _ := swap current next in
              let! _ := p_idx_set current current in
              p_apply_inner fuel' i length next
        end.
    (** The outer loop: experimental/algorithm.hpp:40-57. *)
    Fixpoint p_apply_outer (fuel count : nat) (i length : Z) : act unit :=
      match count with
      | O => Done (Ok tt)
      | S count' =>
          let! current := p_apply_inner fuel i length i in
          let! _ := p_idx_set current current in
          p_apply_outer fuel count' (i + 1) length
      end.
    (** apply_permutation(): experimental/algorithm.hpp:26-58; [n] is last - first. *)
    Definition p_apply_permutation (diff : ity) (n : Z) : act unit :=
      let len := cast diff n in p_apply_outer (S (Z.to_nat n)) (Z.to_nat len) 0 len.

    (** The inner loop of apply_reverse_permutation(): experimental/algorithm.hpp:79-86. *)
    Fixpoint p_reverse_inner (fuel : nat) (i length : Z) : act unit :=
      let! x := p_idx i in
      if i =? x then Done (Ok tt)
      else
        match fuel with
        | O => Done OutOfFuel
        | S fuel' =>
            let! next := p_idx i in
            if negb ((next >=? 0) && (next <? length)) then Done Contract
            else
              let! y := p_idx next in
              if next =? y then Done Contract
              else
                let! _ := swap i next in
                let! _ := p_idx_swap i next in
                p_reverse_inner fuel' i length
        end.
    (** The outer loop: experimental/algorithm.hpp:77-87. *)
    Fixpoint p_reverse_outer (fuel count : nat) (i length : Z) : act unit :=
      match count with
      | O => Done (Ok tt)
      | S count' => let! _ := p_reverse_inner fuel i length in p_reverse_outer fuel count' (i + 1) length
      end.
    (** apply_reverse_permutation(): experimental/algorithm.hpp:63-88. *)
    Definition p_apply_reverse_permutation (diff : ity) (n : Z) : act unit :=
      let len := cast diff n in p_reverse_outer (S (Z.to_nat n)) (Z.to_nat len) 0 len.

    (** The loop of shuffle(): algorithm.hpp:44-52; [g] is the thread's generator and distribution. *)
    Fixpoint p_shuffle_loop {G} (dist : G -> Z -> Z -> G * outcome Z) (n : nat) (g : G) : act unit :=
      match n with
      | O => Done (Ok tt)
      | S n' =>
          let i := Z.of_nat n in
          let '(g', j) := dist g 0 i in
          let! j := Done j in
          if negb (i =? j) then let! _ := swap i j in p_shuffle_loop dist n' g' else p_shuffle_loop dist n' g'
      end.
    (** shuffle(): algorithm.hpp:34-53; [n] is last - first. *)
    Definition p_shuffle {G} (dist : G -> Z -> Z -> G * outcome Z) (n : Z) (g : G) : act unit := p_shuffle_loop dist (Z.to_nat (n - 1)) g.
  End Algorithms.

  (** ** Threads *)
  (** What a thread calls: the functions of experimental/algorithm.hpp:26-58, 63-88 with an index range and the type of its elements,
      or that of algorithm.hpp:34-53 with the draws it gets. *)
  Inductive job := Apply (diff : ity) (arr : nat) | Reverse (diff : ity) (arr : nat) | Shuffle (draws : list Z).
  (** The draws: dist(rng, ...) in algorithm.hpp:46. *)
  Definition draw (ds : list Z) (_ _ : Z) : list Z * outcome Z := match ds with [] => ([], Ok 0) | d :: r => (r, Ok d) end.
  (** The call for [n] elements: experimental/algorithm.hpp:26-88, algorithm.hpp:34-53. *)
  Definition call (swap : Z -> Z -> act unit) (j : job) (n : Z) : act unit :=
    match j with
    | Apply diff arr => p_apply_permutation swap arr diff n
    | Reverse diff arr => p_apply_reverse_permutation swap arr diff n
    | Shuffle ds => p_shuffle swap draw n ds
    end.
  (** The call with two iterators of a soa_span<>: the difference is experimental/detail/span.hpp:192-195; elements of const type are
      rejected as in PermItModel (experimental/detail/span.hpp:95). *)
  Definition soa_call (j : job) (first last : iterator) : act unit :=
    if existsb (fun c => c) (it_const first) then Done IllFormed
    else let! n := Done (it_diff last first) in call (p_soa_swap first) j n.
  (** The call with two pointers [first] and [first + n]: experimental/algorithm.hpp:26-88, algorithm.hpp:34-53. *)
  Definition ptr_call (j : job) (first : ptr) (n : Z) : act unit := call (p_ptr_swap first) j n.
  (** Assignment to a span object, the implicit copy assignment of experimental/span.hpp:34-35. *)
  Definition p_assign_span (o : nat) (s : soa) : act unit := Write (LObj o) (VObj s) (Done (Ok tt)).
End Threads.
Arguments Done {V R}. Arguments Read {V R}. Arguments Write {V R}. Arguments VElem {V}. Arguments VObj {V}. Arguments VIdx {V}.
Arguments act : clear implicits. Arguments value : clear implicits. Arguments heap : clear implicits.
