(** Specification of buffers: value semantics.  A buffer is a sequence of elements; there is no heap and there are
    no pointers, so buffers cannot alias.  What a history of operations must return is defined by a machine whose
    state is just the contents of each buffer. *)

From Coq Require Import ZArith Arith Bool List.
From Verif Require Import Base ExpandModel BufferModel.
Import ListNotations.
Local Open Scope Z_scope.

(** Documented placement: buffer.hpp:37-46, 110-111.  [None]: any number of elements is stored in-place. *)
Definition documented_limit (Extent Max : Z) : option Z :=
  if Max <? 0 then (if Extent =? -1 then Some 0 else None) else Some Max.

(** The number of elements beyond which the constructor of a buffer class asks for heap memory.  For a static extent
    this does not depend on the argument unless it is wrong, and is either no or any positive number. *)
Definition heap_limit (sh : shape) : option Z :=
  match sh with
  | Buffer E Mx =>
      if E =? -1 then Some (Z.max 0 Mx)
      else if (Mx <? 0) || ((0 <? Mx) && (E <=? Mx)) then None else Some 0
  | FixedBuffer _ _ => None
  end.
Definition uses_heap (sh : shape) (n : Z) : bool := match heap_limit sh with Some l => l <? n | None => false end.
Definition heap_fails (sh : shape) (n : Z) (avail : bool) : bool := uses_heap sh n && negb (avail && (n <? 2 ^ 63)).

(** Class template arguments that make sense. *)
Definition sensible (sh : shape) : Prop :=
  match sh with
  | Buffer E Mx => -1 <= E < 2 ^ 63 /\ Mx < 2 ^ 63
  | FixedBuffer E Mx => -1 <= E <= Mx /\ 0 <= Mx < 2 ^ 63
  end.

(** Arguments that denote a number: of an integral type of at most 64 bits. *)
Definition proper_size (a : size_arg) : Prop :=
  1 <= ity_bits (sa_type a) <= 64 /\ in_ity (sa_type a) (sa_value a) = true /\
  (sa_const a = true -> sa_value a < 2 ^ 63).

Section Values.
  Context {V : Type}.
  Variable v0 : V.
  Variable trivial : bool.
  Variable moved : V -> V.

  (** Contents of a buffer: the first [a_size] of [a_cells] are its elements (fixed_buffer<> has further ones). *)
  Record abuf := mk_abuf { a_shape : shape; a_size : nat; a_cells : list (option V) }.
  Definition astate := list (option abuf).

  Definition capacity (sh : shape) (n : Z) : Z := match sh with FixedBuffer (-1) Mx => Mx | _ => n end.
  (** Elements of a new buffer are value-initialised, except trivial ones in the small buffer (see C51). *)
  Definition new_cell (sh : shape) (n : Z) : option V :=
    match sh with
    | Buffer (-1) Mx => if trivial && (0 <? Mx) && (n <=? Mx) then None else Some v0
    | _ => Some v0
    end.
  Definition new_cells (sh : shape) (n : Z) : list (option V) := repeat (new_cell sh n) (Z.to_nat (capacity sh n)).

  (** What constructing from a size does: a buffer of that size, or a failure. *)
  Definition a_construct (sh : shape) (a : size_arg) (avail : bool) : abuf + fault :=
    let E := shape_extent sh in
    let n := sa_value a in
    if sa_const a && negb (n =? -1) &&
       ((negb (E =? -1) && negb (n =? E)) || match sh with FixedBuffer _ Mx => Mx <? n | _ => false end) then inr Rejected
    else if heap_fails sh (n mod 2 ^ 64) avail then inr Thrown
    else if (if E =? -1 then (0 <=? n) && match sh with FixedBuffer _ Mx => n <=? Mx | _ => true end else n =? E)
    then inl (mk_abuf sh (Z.to_nat n) (new_cells sh n))
    else inr Violated.

  (** Copying elements in order until one throws (or is indeterminate). *)
  Fixpoint first_indet (cs : list (option V)) : option nat :=
    match cs with [] => None | None :: _ => Some 0%nat | Some _ :: r => option_map S (first_indet r) end.
  Definition first_bad (cs : list (option V)) (throw_at : option nat) : option (nat * fault) :=
    let indet := first_indet cs in
    let thrown := match throw_at with Some k => if Nat.ltb k (length cs) then Some k else None | None => None end in
    match indet, thrown with
    | None, None => None
    | Some i, None => Some (i, Indet)
    | None, Some k => Some (k, Thrown)
    | Some i, Some k => if Nat.leb i k then Some (i, Indet) else Some (k, Thrown)
    end.

  Definition a_from_array (sh : shape) (vs : list V) (avail : bool) (throw_at : option nat) : abuf + fault :=
    let E := shape_extent sh in
    let n := Z.of_nat (length vs) in
    if (n =? 0) || (negb (E =? -1) && negb (n =? E)) then inr Rejected
    else if heap_fails sh n avail then inr Thrown
    else if match sh with FixedBuffer _ Mx => Mx <? n | _ => false end then inr Violated
    else match first_bad (map Some vs) throw_at with
         | Some (_, e) => inr e
         | None => inl (mk_abuf sh (length vs) (map Some vs ++ skipn (length vs) (new_cells sh n)))
         end.

  (** Whether the class can be copy-assigned and moved. *)
  Definition never_heap (sh : shape) : bool := match heap_limit sh with Some _ => false | None => true end.
  Definition shape_eqb (a b : shape) : bool :=
    match a, b with
    | Buffer E Mx, Buffer E' Mx' | FixedBuffer E Mx, FixedBuffer E' Mx' => (E =? E') && (Mx =? Mx')
    | _, _ => false
    end.

  Definition a_copy (b : abuf) (avail : bool) (throw_at : option nat) : abuf + fault :=
    if heap_fails (a_shape b) (Z.of_nat (a_size b)) avail then inr Thrown
    else match first_bad (a_cells b) throw_at with Some (_, e) => inr e | None => inl b end.

  Definition a_live (s : astate) (o : nat) : option abuf := match nth_error s o with Some (Some b) => Some b | _ => None end.
  Definition a_set (s : astate) (o : nat) (b : abuf) : astate := upd s o (Some b).
  (** A construction takes the next object number, also if it fails at run time. *)
  Definition a_add (s : astate) (r : abuf + fault) : astate * (result (V := V) + fault) :=
    match r with
    | inl b => (s ++ [Some b], inl (RObj (length s)))
    | inr Rejected => (s, inr Rejected)
    | inr e => (s ++ [None], inr e)
    end.
  Definition a_elem (b : abuf) (i : Z) : option (option V) :=
    if (0 <=? i) && (i <? Z.of_nat (a_size b)) then nth_error (a_cells b) (Z.to_nat i) else None.
  Definition elements (b : abuf) : list (option V) := firstn (a_size b) (a_cells b).
  Definition a_read (c : option (option V)) : option (result (V := V) + fault) :=
    match c with Some (Some v) => Some (inl (RVal v)) | Some None => Some (inr Indet) | None => None end.
  Definition overwrite (cs new : list (option V)) : list (option V) := new ++ skipn (length new) cs.

  (** One operation; [None]: the program breaks the rules (uses an object that does not exist, or a subscript that is
      not less than the size). *)
  Definition astep (c : op (V := V)) (s : astate) : option (astate * (result (V := V) + fault)) :=
    match c with
    | ONew sh a avail => Some (a_add s (a_construct sh a avail))
    | OFromArray sh vs avail t => Some (a_add s (a_from_array sh vs avail t))
    | OCopy src avail t =>
        match a_live s src with None => None | Some b => Some (a_add s (a_copy b avail t)) end
    | OMove src avail t =>
        match a_live s src with
        | None => None
        | Some b =>
            if never_heap (a_shape b) then
              let k := match first_bad (a_cells b) t with Some (k, _) => k | None => length (a_cells b) end in
              Some (a_add (a_set s src (mk_abuf (a_shape b) (a_size b)
                             (overwrite (a_cells b) (map (option_map moved) (firstn k (a_cells b)))))) (a_copy b avail t))
            else Some (a_add s (a_copy b avail t))
        end
    | OAssign dst src t =>
        match a_live s dst, a_live s src with
        | Some b, Some b' =>
            if shape_eqb (a_shape b) (a_shape b') && never_heap (a_shape b) then
              match first_bad (a_cells b') t with
              | None => Some (a_set s dst b', inl RUnit)
              | Some (k, e) =>
                  Some (a_set s dst (mk_abuf (a_shape b) (a_size b) (overwrite (a_cells b) (firstn k (a_cells b')))), inr e)
              end
            else Some (s, inr Rejected)
        | _, _ => None
        end
    | OAssignArray o vs t =>
        match a_live s o with
        | None => None
        | Some b =>
            let E := shape_extent (a_shape b) in
            let n := Z.of_nat (length vs) in
            if (n =? 0) || (negb (E =? -1) && negb (n =? E)) then Some (s, inr Rejected)
            else if negb (n =? Z.of_nat (a_size b)) then Some (s, inr Violated)
            else match first_bad (map Some vs) t with
                 | None => Some (a_set s o (mk_abuf (a_shape b) (a_size b) (overwrite (a_cells b) (map Some vs))), inl RUnit)
                 | Some (k, e) =>
                     Some (a_set s o (mk_abuf (a_shape b) (a_size b) (overwrite (a_cells b) (firstn k (map Some vs)))), inr e)
                 end
        end
    | OWrite o i v =>
        match a_live s o with
        | None => None
        | Some b =>
            match a_elem b i with
            | None => None
            | Some _ => Some (a_set s o (mk_abuf (a_shape b) (a_size b) (upd (a_cells b) (Z.to_nat i) (Some v))), inl RUnit)
            end
        end
    | ORead o i =>
        match a_live s o with
        | None => None
        | Some b => match a_read (a_elem b i) with Some r => Some (s, r) | None => None end
        end
    | OFront o =>
        match a_live s o with
        | None => None
        | Some b => if Nat.eqb (a_size b) 0 then Some (s, inr Violated)
                    else match a_read (a_elem b 0) with Some r => Some (s, r) | None => None end
        end
    | OBack o =>
        match a_live s o with
        | None => None
        | Some b => if Nat.eqb (a_size b) 0 then Some (s, inr Violated)
                    else match a_read (a_elem b (Z.of_nat (a_size b) - 1)) with Some r => Some (s, r) | None => None end
        end
    | OGet o i =>
        match a_live s o with
        | None => None
        | Some b =>
            if shape_extent (a_shape b) =? -1 then Some (s, inr Rejected)
            else if i <? 0 then None   (* not a std::size_t *)
            else if Z.of_nat (a_size b) <=? i then Some (s, inr Rejected)
            else match a_read (a_elem b i) with Some r => Some (s, r) | None => None end
        end
    | OIterate o =>
        match a_live s o with
        | None => None
        | Some b =>
            Some (s, match first_bad (elements b) None with
                     | Some (_, e) => inr e
                     | None => inl (RVals (flat_map (fun c => match c with Some v => [v] | None => [] end) (elements b)))
                     end)
        end
    | OSize o => match a_live s o with None => None | Some b => Some (s, inl (RSize (Z.of_nat (a_size b)))) end
    | OEmpty o => match a_live s o with None => None | Some b => Some (s, inl (RBool (Nat.eqb (a_size b) 0))) end
    | ODestroy o => match a_live s o with None => None | Some b => Some (upd s o None, inl RUnit) end
    end.

  Fixpoint arun (h : list (op (V := V))) (s : astate) : option (astate * list (result (V := V) + fault)) :=
    match h with
    | [] => Some (s, [])
    | c :: h' =>
        match astep c s with
        | None => None
        | Some (s', inr Indet) => Some (s', [inr Indet])
        | Some (s', inr MemErr) => Some (s', [inr MemErr])
        | Some (s', r) => match arun h' s' with None => None | Some (s'', rs) => Some (s'', r :: rs) end
        end
    end.

  (** Operations considered: sensible classes and sizes, arrays that fit into memory, std::size_t subscripts; and (see
      C52) no fixed_buffer<> constructed from an array that exceeds its capacity. *)
  Definition op_ok (c : op (V := V)) : Prop :=
    match c with
    | ONew sh a _ => sensible sh /\ proper_size a
    | OFromArray sh vs _ _ =>
        sensible sh /\ Z.of_nat (length vs) < 2 ^ 63 /\
        match sh with FixedBuffer (-1) Mx => Z.of_nat (length vs) <= Mx | _ => True end
    | OAssignArray _ vs _ => Z.of_nat (length vs) < 2 ^ 63
    | OGet _ i => i < 2 ^ 64
    | _ => True
    end.

  (** The heap after a history: the blocks that have not been freed. *)
  Definition live_blocks (st : state (V := V)) : nat :=
    length (filter (fun b => match b with Live _ => true | Freed => false end) (heap st)).
  Definition buffers_on_heap (s : astate) : nat :=
    length (filter (fun ob => match ob with Some b => uses_heap (a_shape b) (Z.of_nat (a_size b)) | None => false end) s).
End Values.
