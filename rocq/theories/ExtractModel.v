(** Extraction of metadata of any type: metadata::extract(), extract_for_values(), extract_for_exclusive_members(),
    extract_for_members(): /repo/include/makeshift/metadata.hpp:54-160; and metadata of const-qualified types.

    The functions of MetaModel.v find the metadata; here they are converted to the type that the caller names, and the type whose
    metadata are asked for may be const-qualified. *)

From Coq Require Import ZArith Arith Bool List.
From Verif Require Import Base TupleModel MetaModel.
Import ListNotations.

(** std::is_same<>.  As used in metadata.hpp:71, 78, 98, 105. *)
Fixpoint mty_eqb (a b : mty) : bool :=
  match a, b with
  | TStr x, TStr y => Bool.eqb x y
  | TVal s, TVal t => Nat.eqb s t
  | TMember c d, TMember c' d' => Nat.eqb c c' && Nat.eqb d d'
  | TBase c, TBase c' => Nat.eqb c c'
  | TTuple l, TTuple l' =>
      (fix list_eqb (l l' : list mty) : bool :=
         match l, l' with
         | [], [] => true
         | x :: r, y :: r' => mty_eqb x y && list_eqb r r'
         | _, _ => false
         end) l l'
  | TArray r n, TArray r' n' => mty_eqb r r' && Nat.eqb n n'
  | TOther k, TOther k' => Nat.eqb k k'
  | TNullopt, TNullopt => true
  | _, _ => false
  end.

Section Extract.
  Variable is_base_of : nat -> nat -> bool.
  Variable is_class : nat -> bool.
  (** The reflector: what it returns for the type and for the const-qualified type. *)
  Variable reflect : bool -> nat -> md.
  (** Implicit conversions (without narrowing) between different types. *)
  Variable convert : mty -> mty -> option (md -> md).

  (** The initialisation of the result: metadata.hpp:71, 78, detail/metadata.hpp:187, 201. *)
  Definition init_from (V : mty) (m : md) : outcome md :=
    if mty_eqb (type_of m) V then Ok m
    else match convert (type_of m) V with Some f => Ok (f m) | None => IllFormed end.

  (** extract<T, PredT, ...>(), extract<T, Occurrence, PredT, ...>(): metadata.hpp:54-66.  [None] is nullopt. *)
  Definition extract_if (pred : mty -> bool) (occ : nat) (const : bool) (T : nat) : option md :=
    extract_metadata pred occ (reflect const T).
  (** extract<T, V>(), extract<T, Occurrence, V>(): metadata.hpp:67-79.  They return V: what is found, or nullopt, is converted. *)
  Definition extract_as (V : mty) (occ : nat) (const : bool) (T : nat) : outcome md :=
    match extract_metadata (fun M => mty_eqb M V) occ (reflect const T) with
    | Some x => init_from V x
    | None => init_from V MNullopt
    end.

  (** "std::array<V, N>{ promote(...)... }": detail/metadata.hpp:182-208. *)
  Definition to_array (V : mty) (o : option (list md)) : outcome (option (list md)) :=
    match o with
    | Some l => do l' <- mapM (init_from V) l; Ok (Some l')
    | None => Ok None
    end.
  (** extract_for_values<T, V, [Occurrence,] PredT, ...>(): metadata.hpp:81-93. *)
  Definition extract_for_values (V : mty) (pred : mty -> bool) (occ : nat) (const : bool) (T : nat) : outcome (option (list md)) :=
    do o <- extract_value_metadata pred occ T (reflect const T); to_array V o.
  (** metadata.hpp:94-106. *)
  Definition extract_for_values_as (V : mty) := extract_for_values V (fun M => mty_eqb M V).
  (** extract_for_exclusive_members<>(): metadata.hpp:108-120. *)
  Definition extract_for_exclusive_members (V : mty) (pred : mty -> bool) (occ : nat) (const : bool) (T : nat)
      : outcome (option (list md)) :=
    do o <- extract_member_metadata is_class pred occ T (reflect const T); to_array V o.
  (** metadata.hpp:121-133. *)
  Definition extract_for_exclusive_members_as (V : mty) := extract_for_exclusive_members V (fun M => mty_eqb M V).
  (** extract_for_members<>(): metadata.hpp:135-147, extract_all_member_metadata(): detail/metadata.hpp:522-548.  The metadata are those of the
      type without const. *)
  Definition extract_for_members (V : mty) (pred : mty -> bool) (occ : nat) (T : nat) : outcome (option (list md)) :=
    do direct <- extract_for_exclusive_members V pred occ false T;
    match direct with
    | None => Ok None
    | Some ns =>
        do bs <- extract_bases is_base_of is_class T (reflect false T);
        do bs <- must_be_tuple bs;
        do nss <- mapM (fun b => do u <- base_class b; do l <- extract_for_exclusive_members V pred occ false u; must_be_tuple l) bs;
        do l <- array_cat (nss ++ [ns]);
        Ok (Some l)
    end.
  (** metadata.hpp:148-160. *)
  Definition extract_for_members_as (V : mty) := extract_for_members V (fun M => mty_eqb M V).

  (** name() ... member_descriptions() for types that may be const-qualified: metadata.hpp:163-258, and the stores:
      detail/metadata.hpp:550-584.  Those with a store ask for the metadata of the type without const. *)
  Definition name_of (const : bool) (T : nat) : option md := extract_if is_string 0 const T.
  (** metadata.hpp:170-175. *)
  Definition description_of (const : bool) (T : nat) : option md := extract_if is_string 1 const T.
  (** metadata.hpp:177-182. *)
  Definition bases_of (const : bool) (T : nat) := extract_bases is_base_of is_class T (reflect const T).
  (** metadata.hpp:184-190, detail/metadata.hpp:550-554. *)
  Definition values_of (const : bool) (T : nat) := extract_values T (reflect false T).
  (** metadata.hpp:192-198, detail/metadata.hpp:555-561. *)
  Definition value_names_of (const : bool) (T : nat) := extract_value_metadata is_string 0 T (reflect false T).
  (** metadata.hpp:200-205. *)
  Definition value_descriptions_of (const : bool) (T : nat) := extract_for_values (TStr false) is_string 1 const T.
  (** metadata.hpp:207-213, detail/metadata.hpp:562-566. *)
  Definition exclusive_members_of (const : bool) (T : nat) := extract_members is_class T (reflect false T).
  (** metadata.hpp:215-221, detail/metadata.hpp:567-573. *)
  Definition exclusive_member_names_of (const : bool) (T : nat) := extract_member_metadata is_class is_string 0 T (reflect false T).
  (** metadata.hpp:223-228. *)
  Definition exclusive_member_descriptions_of (const : bool) (T : nat) := extract_for_exclusive_members (TStr false) is_string 1 const T.
  (** metadata.hpp:253-258. *)
  Definition member_descriptions_of (const : bool) (T : nat) := extract_for_members (TStr false) is_string 1 T.
End Extract.
