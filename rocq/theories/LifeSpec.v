(** Specification of the lifetimes of the elements of buffers: how many elements a buffer holds. *)

From Coq Require Import ZArith Arith Bool List.
From Verif Require Import Base ExpandModel BufferModel BufferSpec LifeModel.
Import ListNotations.
Local Open Scope Z_scope.

(** Elements stored within the object: the whole capacity of a fixed_buffer<>; for buffer<>, the small buffer if the size is
    dynamic (buffer.hpp:37-46), all elements if the size is static and they are stored in-place. *)
Definition in_place (sh : shape) : Z :=
  match sh with
  | FixedBuffer E Mx => if E =? -1 then Mx else E
  | Buffer E Mx => if E =? -1 then Z.max 0 Mx else match heap_limit sh with None => E | Some _ => 0 end
  end.
(** All elements that exist in a buffer with [n] elements. *)
Definition held (sh : shape) (n : Z) : nat :=
  (Z.to_nat (in_place sh) + if uses_heap sh n then Z.to_nat n else 0)%nat.

Definition live (st : state) (o : nat) : option object :=
  match nth_error (objs st) o with Some (Some ob) => Some ob | _ => None end.
Definition held_by (ob : object) : nat := held (o_shape ob) (o_size ob).
(** Elements in all buffers that exist. *)
Definition total (st : state) : nat := list_sum (map (fun x => match x with Some ob => held_by ob | None => 0%nat end) (objs st)).

(** Operations with arguments that make sense; array constructors of fixed_buffer<> with dynamic size do not check the
    capacity (C52). *)
Definition op_ok (c : op) : Prop :=
  match c with
  | ONew sh a => sensible sh /\ proper_size a
  | OFromArray sh len =>
      sensible sh /\ Z.of_nat len < 2 ^ 63 /\ match sh with FixedBuffer (-1) Mx => Z.of_nat len <= Mx | _ => True end
  | OAssignArray _ len => Z.of_nat len < 2 ^ 63
  | _ => True
  end.

(** States that a program can reach. *)
Definition reachable (oracle : nat -> bool) (st : state) : Prop := exists h, Forall op_ok h /\ st = fst (run oracle h initial).

(** Sizes that a buffer can have. *)
Definition admissible (sh : shape) (v : Z) : Prop :=
  if shape_extent sh =? -1 then 0 <= v < 2 ^ 63 /\ match sh with FixedBuffer _ Mx => v <= Mx | Buffer _ _ => True end
  else v = shape_extent sh.

(** Type and size of the buffer that an operation is to create. *)
Definition wanted (st : state) (c : op) : option (shape * Z) :=
  match c with
  | ONew sh a => Some (sh, sa_value a)
  | OFromArray sh len => Some (sh, Z.of_nat len)
  | OCopy src | OMove src => match live st src with Some ob => Some (o_shape ob, size_of ob) | None => None end
  | _ => None
  end.
