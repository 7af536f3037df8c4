(** Specification of the element types of arrays. *)

From Coq Require Import ZArith Arith Bool List.
From Verif Require Import Base ExpandModel InitModel.
Import ListNotations.
Local Open Scope Z_scope.

(** ** Conversions without loss *)

Definition is_class (t : ty) : Prop := exists c, t = Cls c.
Definition is_array (t : ty) : Prop := exists u n, t = Arr u n.

(** A value [v] of type [s] becomes the value [w] of type [t]: the same value, whatever the value of type [s] may be; or the
    result of a conversion that a class defines. *)
Inductive converted (user : ty -> ty -> option (val -> val)) : ty -> ty -> val -> val -> Prop :=
| converted_same : forall t v, converted user t t v v
| converted_int : forall a b v, a <> b -> (forall z, in_ity a z = true -> in_ity b z = true) -> converted user (Int a) (Int b) v v
| converted_flt : forall a b v, (a < b)%nat -> converted user (Flt a) (Flt b) v v
| converted_idx : forall i b v, (forall z, in_ity ptrdiff_it z = true -> in_ity b z = true) ->
    converted user (Idx i) (Int b) v (VInt (Z.of_nat i))
| converted_user : forall s t f v, s <> t -> is_class s \/ is_class t -> user s t = Some f -> converted user s t v (f v).
Definition convertible (user : ty -> ty -> option (val -> val)) (s t : ty) : Prop := exists v w, converted user s t v w.

(** All types of integers here have at least one value; this excludes only meaningless ones. *)
Fixpoint proper (t : ty) : Prop :=
  match t with Int a => 1 <= ity_bits a | Arr u _ => proper u | _ => True end.

(** ** Arguments and results *)

Definition length_of (a : targ) : option nat :=
  match a_kind a with
  | KTuple es => Some (length es)
  | KArray _ _ vs => Some (length vs)
  | KRange | KTupleIndex => None
  end.
(** The number of results: that of the elements of the tuples and arrays, or the number given. *)
Definition sized (N : Z) (args : list targ) (n : nat) : Prop :=
  (forall a b m k, In a args -> In b args -> length_of a = Some m -> length_of b = Some k -> m = k) /\
  (N = Z.of_nat n \/ N = -1 /\ exists a, In a args /\ length_of a = Some n).

(** The [i]-th element of an argument: the type of the expression, and the value. *)
Inductive element_of (i : nat) : targ -> pty -> val -> Prop :=
| element_tuple : forall es ac al c t v, nth_error es i = Some (c, t, v) ->
    element_of i (mk_targ (KTuple es) ac al) (mk_pty (ac || c) al t) v
| element_array : forall c t vs ac al v, nth_error vs i = Some v ->
    element_of i (mk_targ (KArray c t vs) ac al) (mk_pty (ac || c) al t) v
| element_range : forall ac al, element_of i (mk_targ KRange ac al) (mk_pty false false (Int ptrdiff_it)) (VInt (Z.of_nat i))
| element_index : forall ac al, element_of i (mk_targ KTupleIndex ac al) (mk_pty false false (Idx i)) (VObj 0).

(** What a call of the functor with the [i]-th elements returns. *)
Definition result_of (call_type : bool -> list pty -> option rty) (call : list (pty * val) -> val)
    (args : list targ) (i : nat) (r : rty) (v : val) : Prop :=
  exists es, Forall2 (fun a e => element_of i a (fst e) (snd e)) args es /\
    call_type false (map fst es) = Some r /\ v = call es.
(** The results of all calls. *)
Definition results (call_type : bool -> list pty -> option rty) (call : list (pty * val) -> val)
    (args : list targ) (n : nat) (rs : list (rty * val)) : Prop :=
  length rs = n /\ forall i r v, nth_error rs i = Some (r, v) -> result_of call_type call args i r v.

(** The functor does not care whether it is an lvalue. *)
Definition unqualified (call_type : bool -> list pty -> option rty) : Prop :=
  forall ps, call_type true ps = call_type false ps.

(** Arguments that are arrays of non-const elements and, unless lvalues, not const; or range_index as an rvalue. *)
Definition plain_array (a : targ) : Prop :=
  match a_kind a with
  | KArray c _ _ => c = false /\ (a_lvalue a = false -> a_const a = false)
  | KRange => a_lvalue a = false
  | _ => False
  end.
Definition array_or_index (a : targ) : Prop :=
  (exists c t vs, a_kind a = KArray c t vs) \/ a_kind a = KRange.

(** ** Arrays of arrays *)

(** The value at a multi-dimensional index, and its position in row-major order. *)
Fixpoint at_index (v : val) (idx : list nat) : option val :=
  match idx with
  | [] => Some v
  | i :: r => match v with
              | VArr l => match nth_error l i with Some w => at_index w r | None => None end
              | _ => None
              end
  end.
Fixpoint position (dims idx : list nat) (acc : nat) : nat :=
  match dims, idx with
  | d :: dims', i :: idx' => position dims' idx' (acc * d + i)
  | _, _ => acc
  end%nat.
Definition volume (dims : list nat) : nat := fold_right Nat.mul 1%nat dims.

(** The value of elements for which there is no initialiser. *)
Inductive zero_value (default_of : nat -> option val) : ty -> val -> Prop :=
| zero_int : forall a, zero_value default_of (Int a) (VInt 0)
| zero_flt : forall r, zero_value default_of (Flt r) (VFlt 0)
| zero_cls : forall c v, default_of c = Some v -> zero_value default_of (Cls c) v.

(** Arguments of the same types: they differ only in the values and numbers of elements. *)
Definition same_kind (a b : targ) : Prop :=
  a_const a = a_const b /\ a_lvalue a = a_lvalue b /\
  match a_kind a, a_kind b with
  | KArray c t _, KArray d u _ => c = d /\ t = u
  | KRange, KRange => True
  | _, _ => False
  end.
