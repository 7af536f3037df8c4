(** Model of reflection metadata: /repo/include/makeshift/metadata.hpp, detail/metadata.hpp, and of tie_members():
    tuple.hpp:37-55, 366-426, detail/tuple.hpp:276-287.

    Types (classes, enumerations) are numbers.  Metadata are trees: strings, values, member pointers, base class tags,
    and tuples (std::tuple<>, std::pair<>, value_tuple<> alike) and arrays of these.  The predicates that select
    metadata look at types only, so there is a type of metadata, too. *)

From Coq Require Import String Ascii ZArith NArith Arith Bool List.
From Verif Require Import Base TupleModel.
Import ListNotations.

(** The type of a metadatum.  [TStr]: char const* ([cstr]) or std::string_view; [TVal t]: the type [t] itself;
    [TMember c d]: d c::*; [TBase c]: gsl::type_identity<c>; [TArray r n]: std::array<r, n>.
    What the predicates of detail/metadata.hpp:78-138 tell apart. *)
Inductive mty : Type :=
| TStr (cstr : bool)
| TVal (t : nat)
| TMember (c d : nat)
| TBase (c : nat)
| TTuple (ts : list mty)
| TArray (r : mty) (n : nat)
| TOther (k : nat)
| TNullopt.

(** A metadatum.  [MMember c d i]: the member [i], of type [d], of class [c].  What a reflector may return: detail/metadata.hpp:38-57, 166-172. *)
Inductive md : Type :=
| MStr (cstr : bool) (s : str)
| MVal (t : nat) (v : Z)
| MMember (c d i : nat)
| MBase (c : nat)
| MTuple (l : list md)
| MArray (r : mty) (l : list md)
| MOther (k : nat)
| MNullopt.

(** decltype() of a metadatum, as in detail/metadata.hpp:262, 282. *)
Fixpoint type_of (m : md) : mty :=
  match m with
  | MStr b _ => TStr b
  | MVal t _ => TVal t
  | MMember c d _ => TMember c d
  | MBase c => TBase c
  | MTuple l => TTuple (map type_of l)
  | MArray r l => TArray r (length l)
  | MOther k => TOther k
  | MNullopt => TNullopt
  end.

(** std::tuple_size<>, std::tuple_element<> and get<>().  detail/metadata.hpp:91-99, 151, 157, 162-164. *)
Definition element_types (M : mty) : option (list mty) :=
  match M with
  | TTuple ts => Some ts
  | TArray r n => Some (repeat r n)
  | _ => None
  end.
(** get<>(): detail/metadata.hpp:187, 201, 215, 246. *)
Definition elements (m : md) : list md :=
  match m with MTuple l => l | MArray _ l => l | _ => [] end.

(** promote(): detail/metadata.hpp:174-180. *)
Definition promote (m : md) : md := match m with MStr true s => MStr false s | _ => m end.

(** is_available(): detail/metadata.hpp:70-75, metadata.hpp:41-51. *)
Definition is_available (m : md) : bool := match m with MNullopt => false | _ => true end.

(** * Predicates: detail/metadata.hpp:78-138. *)
Section Predicates.
  (** std::is_base_of_v<b, t>. *)
  Variable is_base_of : nat -> nat -> bool.

  (** std::is_convertible<M, std::string_view>.  detail/metadata.hpp:78-79; metadata.hpp:167, 174. *)
  Definition is_string (M : mty) : bool := match M with TStr _ => true | _ => false end.
  (** detail/metadata.hpp:106-107. *)
  Definition is_value (T : nat) (M : mty) : bool := match M with TVal t => Nat.eqb t T | _ => false end.
  (** detail/metadata.hpp:81-82. *)
  Definition is_value_array (T : nat) (M : mty) : bool :=
    match M with TArray r _ => is_value T r | _ => false end.
  (** detail/metadata.hpp:87-88. *)
  Definition is_base (T : nat) (M : mty) : bool := match M with TBase u => is_base_of u T | _ => false end.
  (** detail/metadata.hpp:121-122. *)
  Definition is_member (T : nat) (M : mty) : bool := match M with TMember c _ => Nat.eqb c T | _ => false end.

  (** is_..._record<>: a non-empty tuple whose first element qualifies.  detail/metadata.hpp:90-94, 109-113, 124-128. *)
  Definition is_record (p : mty -> bool) (M : mty) : bool :=
    match element_types M with Some (e :: _) => p e | _ => false end.
  (** is_..._tuple<>, is_..._record_tuple<>: a tuple all of whose elements qualify (also an empty one).
      detail/metadata.hpp:96-104, 115-119, 130-138. *)
  Definition is_tuple_of (p : mty -> bool) (M : mty) : bool :=
    match element_types M with Some es => forallb p es | None => false end.

  (** detail/metadata.hpp:90-94. *)
  Definition is_base_record (T : nat) := is_record (is_base T).
  (** detail/metadata.hpp:96-99. *)
  Definition is_base_record_tuple (T : nat) := is_tuple_of (is_base_record T).
  (** detail/metadata.hpp:101-104. *)
  Definition is_base_tuple (T : nat) := is_tuple_of (is_base T).
  (** detail/metadata.hpp:109-113. *)
  Definition is_value_record (T : nat) := is_record (is_value T).
  (** is_value_record_tuple<>: detail/metadata.hpp:115-119, with a partial specialization for arrays. *)
  Definition is_value_record_tuple (T : nat) (M : mty) : bool :=
    match M with
    | TArray r _ => is_value_record T r
    | _ => is_tuple_of (is_value_record T) M
    end.
  (** detail/metadata.hpp:124-128. *)
  Definition is_member_record (T : nat) := is_record (is_member T).
  (** detail/metadata.hpp:130-133. *)
  Definition is_member_record_tuple (T : nat) := is_tuple_of (is_member_record T).
  (** detail/metadata.hpp:135-138. *)
  Definition is_member_tuple (T : nat) := is_tuple_of (is_member T).
End Predicates.

(** * Extraction *)
(** record_index_0_<>, record_index_1_<>: detail/metadata.hpp:140-153; [None] is size_t(-1). *)
Fixpoint record_index_0 (pred : mty -> bool) (es : list mty) (I : nat) (occ : nat) : option nat :=
  match es with
  | [] => None
  | e :: r =>
      if pred e then match occ with O => Some I | S occ' => record_index_0 pred r (S I) occ' end
      else record_index_0 pred r (S I) occ
  end.
(** record_index<>: detail/metadata.hpp:154-157. *)
Definition record_index (pred : mty -> bool) (occ : nat) (M : mty) : option nat :=
  match element_types M with Some es => record_index_0 pred es 0 occ | None => None end.
(** record_indices<>: detail/metadata.hpp:159-164. *)
Definition record_indices (pred : mty -> bool) (occ : nat) (M : mty) : list (option nat) :=
  match element_types M with Some es => map (record_index pred occ) es | None => [] end.

(** extract_metadata(): detail/metadata.hpp:238-276; [None] is nullopt. *)
Definition extract_metadata (pred : mty -> bool) (occ : nat) (m : md) : option md :=
  if is_available m then
    if Nat.eqb occ 0 && pred (type_of m) then Some (promote m)
    else
      match record_index pred occ (type_of m) with
      | Some i => option_map promote (nth_error (elements m) i)
      | None => None
      end
  else None.

(** get<i>(r), then promote(): detail/metadata.hpp:187, 201, 215. *)
Definition get_promoted (i : nat) (r : md) : outcome md :=
  match nth_error (elements r) i with Some x => Ok (promote x) | None => IllFormed end.
(** extract_column<V, I>(): detail/metadata.hpp:182-194.  The conversion to V is the identity for the promoted types used here. *)
Definition extract_column (i : nat) (m : md) : outcome (list md) := mapM (get_promoted i) (elements m).
(** extract_column<V>(arg, index_sequence): detail/metadata.hpp:196-208. *)
Definition extract_column_seq (js : list nat) (m : md) : outcome (list md) :=
  mapM (fun p => get_promoted (fst p) (snd p)) (combine js (elements m)).
(** extract_heterogeneous_column<0>(): detail/metadata.hpp:210-222; only for tuples proper, an array does not match TupleT<Ts...>. *)
Definition extract_heterogeneous_column (i : nat) (m : md) : outcome (list md) :=
  match m with MTuple l => mapM (get_promoted i) l | _ => IllFormed end.

(** any_index_invalid(): detail/metadata.hpp:391-396. *)
Definition any_index_invalid (js : list (option nat)) : bool :=
  existsb (fun j => match j with None => true | Some _ => false end) js.
(** The index_sequence passed on by detail/metadata.hpp:405. *)
Definition valid_indices (js : list (option nat)) : list nat :=
  flat_map (fun j => match j with Some i => [i] | None => [] end) js.
(** try_extract_column(): detail/metadata.hpp:379-389, 398-408. *)
Definition try_extract_column (pred : mty -> bool) (occ : nat) (m : md) : outcome (option (list md)) :=
  match m with
  | MArray r l =>
      match record_index pred occ r with
      | Some j => do c <- extract_column j m; Ok (Some c)
      | None => Ok None
      end
  | _ =>
      let js := record_indices pred occ (type_of m) in
      if negb (any_index_invalid js) then do c <- extract_column_seq (valid_indices js) m; Ok (Some c)
      else Ok None
  end.

Section Reflection.
  Variable is_base_of : nat -> nat -> bool.
  (** std::is_class_v<t>. *)
  Variable is_class : nat -> bool.

  (** metadata::extract<T, Occurrence, std::is_convertible, string_view>(): metadata.hpp:54-66; name(): 163-168;
      description(): 170-175. *)
  Definition name (m : md) : option md := extract_metadata is_string 0 m.
  (** metadata.hpp:170-175. *)
  Definition description (m : md) : option md := extract_metadata is_string 1 m.

  (** extract_bases(): detail/metadata.hpp:278-310. *)
  Definition extract_bases (T : nat) (m : md) : outcome (option (list md)) :=
    match extract_metadata (is_base_record_tuple is_base_of T) 0 m with
    | Some l => do c <- extract_heterogeneous_column 0 l; Ok (Some c)
    | None =>
        match extract_metadata (is_base_tuple is_base_of T) 0 m with
        | Some l => Ok (Some (elements l))
        | None =>
            match extract_metadata (is_base_record is_base_of T) 0 m with
            | Some r => match nth_error (elements r) 0 with Some x => Ok (Some [x]) | None => IllFormed end
            | None =>
                match extract_metadata (is_base is_base_of T) 0 m with
                | Some b => Ok (Some [b])
                | None =>
                    if is_base is_base_of T (type_of m) then Ok (Some [m])
                    else if is_available m && is_class T then Ok (Some []) else Ok None
                end
            end
        end
    end.

  (** extract_values(): detail/metadata.hpp:312-343. *)
  Definition extract_values (T : nat) (m : md) : outcome (option (list md)) :=
    match extract_metadata (is_value_record_tuple T) 0 m with
    | Some l => do c <- extract_column 0 l; Ok (Some c)
    | None =>
        match extract_metadata (is_value_array T) 0 m with
        | Some l => Ok (Some (elements l))
        | None =>
            match extract_metadata (is_value_record T) 0 m with
            | Some r => match nth_error (elements r) 0 with Some x => Ok (Some [x]) | None => IllFormed end
            | None =>
                match extract_metadata (is_value T) 0 m with
                | Some v => Ok (Some [v])
                | None =>
                    if is_value T (type_of m) then Ok (Some [m])
                    else if is_available m then Ok (Some []) else Ok None
                end
            end
        end
    end.

  (** extract_members(): detail/metadata.hpp:345-377. *)
  Definition extract_members (T : nat) (m : md) : outcome (option (list md)) :=
    match extract_metadata (is_member_record_tuple T) 0 m with
    | Some l => do c <- extract_heterogeneous_column 0 l; Ok (Some c)
    | None =>
        match extract_metadata (is_member_tuple T) 0 m with
        | Some l => Ok (Some (elements l))
        | None =>
            match extract_metadata (is_member_record T) 0 m with
            | Some r => match nth_error (elements r) 0 with Some x => Ok (Some [x]) | None => IllFormed end
            | None =>
                match extract_metadata (is_member T) 0 m with
                | Some v => Ok (Some [v])
                | None =>
                    if is_member T (type_of m) then Ok (Some [m])
                    else if is_available m && is_class T then Ok (Some []) else Ok None
                end
            end
        end
    end.

  (** extract_value_metadata(): detail/metadata.hpp:422-449. *)
  Definition extract_value_metadata (pred : mty -> bool) (occ : nat) (T : nat) (m : md) : outcome (option (list md)) :=
    match extract_metadata (is_value_record_tuple T) 0 m with
    | Some l => try_extract_column pred occ l
    | None =>
        if is_available m then
          do vs <- extract_values T m;
          match vs with None => Ok (Some []) | Some _ => Ok None end
        else Ok None
    end.

  (** extract_member_metadata(): detail/metadata.hpp:451-479. *)
  Definition extract_member_metadata (pred : mty -> bool) (occ : nat) (T : nat) (m : md) : outcome (option (list md)) :=
    match extract_metadata (is_member_record_tuple T) 0 m with
    | Some l => try_extract_column pred occ l
    | None =>
        if is_available m && is_class T then
          do ms <- extract_members T m;
          match ms with None => Ok (Some []) | Some _ => Ok None end
        else Ok None
    end.

  (** The reflector: get_metadata<T>(): detail/metadata.hpp:166-172. *)
  Variable reflect : nat -> md.

  (** bases(), values(), value_names(), value_descriptions(), exclusive_members(), exclusive_member_names(),
      exclusive_member_descriptions(): metadata.hpp:177-228. *)
  Definition bases (T : nat) := extract_bases T (reflect T).
  (** metadata.hpp:184-190, detail/metadata.hpp:550-554. *)
  Definition values (T : nat) := extract_values T (reflect T).
  (** metadata.hpp:192-198, detail/metadata.hpp:555-561. *)
  Definition value_names (T : nat) := extract_value_metadata is_string 0 T (reflect T).
  (** metadata.hpp:200-205. *)
  Definition value_descriptions (T : nat) := extract_value_metadata is_string 1 T (reflect T).
  (** metadata.hpp:207-213, detail/metadata.hpp:562-566. *)
  Definition exclusive_members (T : nat) := extract_members T (reflect T).
  (** metadata.hpp:215-221, detail/metadata.hpp:567-573. *)
  Definition exclusive_member_names (T : nat) := extract_member_metadata is_string 0 T (reflect T).
  (** metadata.hpp:223-228. *)
  Definition exclusive_member_descriptions (T : nat) := extract_member_metadata is_string 1 T (reflect T).

  (** The class named by a base tag.  detail/metadata.hpp:506-507, 534-535. *)
  Definition base_class (b : md) : outcome nat := match b with MBase u => Ok u | _ => IllFormed end.
  (** An unavailable list (nullopt) is not a tuple: passing it to tuple_cat_impl() or array_cat_impl() does not compile.
      detail/metadata.hpp:503-518, 530-545. *)
  Definition must_be_tuple (o : option (list md)) : outcome (list md) :=
    match o with Some l => Ok l | None => IllFormed end.

  (** all_members(): detail/metadata.hpp:496-521; [fuel] bounds the depth of the template instantiation. *)
  Fixpoint all_members (fuel : nat) (T : nat) : outcome (option (list md)) :=
    match fuel with
    | O => OutOfFuel
    | S fuel' =>
        do direct <- exclusive_members T;
        match direct with
        | None => Ok None
        | Some ms =>
            do bs <- bases T;
            do bs <- must_be_tuple bs;
            do mss <- mapM (fun b => do u <- base_class b; do l <- all_members fuel' u; must_be_tuple l) bs;
            do l <- tuple_cat (mss ++ [ms]);
            Ok (Some l)
        end
    end.
  (** members(): metadata.hpp:230-243. *)
  Definition members := all_members.

  (** extract_all_member_metadata(): detail/metadata.hpp:522-548; member_names(): metadata.hpp:245-251. *)
  Definition extract_all_member_metadata (pred : mty -> bool) (occ : nat) (T : nat) : outcome (option (list md)) :=
    do direct <- extract_member_metadata pred occ T (reflect T);
    match direct with
    | None => Ok None
    | Some ns =>
        do bs <- bases T;
        do bs <- must_be_tuple bs;
        do nss <- mapM (fun b => do u <- base_class b; do l <- extract_member_metadata pred occ u (reflect u); must_be_tuple l) bs;
        do l <- array_cat (nss ++ [ns]);
        Ok (Some l)
    end.
  (** metadata.hpp:245-251, detail/metadata.hpp:579-584. *)
  Definition member_names (T : nat) := extract_all_member_metadata is_string 0 T.
  (** metadata.hpp:253-258. *)
  Definition member_descriptions (T : nat) := extract_all_member_metadata is_string 1 T.

  (** * Lookup *)
  (** search_index(): detail/metadata.hpp:482-493. *)
  Fixpoint search_index_loop {A : Type} (eqb : A -> A -> bool) (value : A) (rest : list A) (i : Z) : Z :=
    match rest with
    | [] => -1
    | v :: r => if eqb v value then i else search_index_loop eqb value r (i + 1)
    end.
  (** detail/metadata.hpp:482-493. *)
  Definition search_index {A : Type} (eqb : A -> A -> bool) (value : A) (vs : list A) : Z := search_index_loop eqb value vs 0.

  (** operator == of string_views, as in detail/metadata.hpp:490. *)
  Definition str_eqb (a b : str) : bool := if list_eq_dec ascii_dec a b then true else false.
  (** operator == of values of the type and of string_views.  detail/metadata.hpp:490. *)
  Definition md_eqb (a b : md) : bool :=
    match a, b with
    | MVal t v, MVal t' v' => Nat.eqb t t' && Z.eqb v v'
    | MStr _ s, MStr _ s' => str_eqb s s'
    | _, _ => false
    end.

  (** "static_assert(metadata::is_available(names))" followed by search_index().  metadata.hpp:265-267, 282-284, 299-301, 316-318. *)
  Definition search_in (o : outcome (option (list md))) (x : md) : outcome Z :=
    do l <- o; match l with Some vs => Ok (search_index md_eqb x vs) | None => IllFormed end.
  (** "if (i >= 0) return i; gsl_FailFast();": metadata.hpp:273-275, 290-292, 307-309, 324-326. *)
  Definition find_in (o : outcome (option (list md))) (x : md) : outcome Z :=
    do i <- search_in o x; if (0 <=? i)%Z then Ok i else Contract.

  (** search_value_index() ... find_member_index_by_name(): metadata.hpp:261-327. *)
  Definition search_value_index (T : nat) (v : Z) := search_in (values T) (MVal T v).
  (** metadata.hpp:269-276. *)
  Definition find_value_index (T : nat) (v : Z) := find_in (values T) (MVal T v).
  (** metadata.hpp:278-285. *)
  Definition search_value_index_by_name (T : nat) (s : str) := search_in (value_names T) (MStr false s).
  (** metadata.hpp:286-293. *)
  Definition find_value_index_by_name (T : nat) (s : str) := find_in (value_names T) (MStr false s).
  (** metadata.hpp:295-302. *)
  Definition search_exclusive_member_index_by_name (T : nat) (s : str) := search_in (exclusive_member_names T) (MStr false s).
  (** metadata.hpp:303-310. *)
  Definition find_exclusive_member_index_by_name (T : nat) (s : str) := find_in (exclusive_member_names T) (MStr false s).
  (** metadata.hpp:312-319. *)
  Definition search_member_index_by_name (T : nat) (s : str) := search_in (member_names T) (MStr false s).
  (** metadata.hpp:320-327. *)
  Definition find_member_index_by_name (T : nat) (s : str) := find_in (member_names T) (MStr false s).

  (** search_exclusive_member_by_name(), search_member_by_name(): metadata.hpp:330-374. *)
  Definition member_by_index (ms : outcome (option (list md))) (io : outcome Z) : outcome (option md) :=
    do l <- ms;
    match l with
    | None => IllFormed
    | Some l =>
        do i <- io;
        if (0 <=? i)%Z then match nth_error l (Z.to_nat i) with Some m => Ok (Some m) | None => IllFormed end
        else Ok None
    end.
  (** metadata.hpp:330-343. *)
  Definition search_exclusive_member_by_name (T : nat) (s : str) : outcome (option md) :=
    member_by_index (exclusive_members T) (search_exclusive_member_index_by_name T s).
  (** metadata.hpp:353-366. *)
  Definition search_member_by_name (fuel : nat) (T : nat) (s : str) : outcome (option md) :=
    member_by_index (members fuel T) (search_member_index_by_name T s).
  (** find_exclusive_member_by_name(), find_member_by_name(): metadata.hpp:344-351, 367-374; static_assert(is_available(member)). *)
  Definition find_exclusive_member_by_name (T : nat) (s : str) : outcome md :=
    do m <- search_exclusive_member_by_name T s; match m with Some m => Ok m | None => IllFormed end.
  (** metadata.hpp:367-374. *)
  Definition find_member_by_name (fuel : nat) (T : nat) (s : str) : outcome md :=
    do m <- search_member_by_name fuel T s; match m with Some m => Ok m | None => IllFormed end.

  (** * tie_members().  An object maps its members (as pointers to members) to values; a tie is the list of the members
      it refers to.  The x of detail/tuple.hpp:279, tuple.hpp:40. *)
  Definition object := md -> Z.
  (** tie_members_functor: detail/tuple.hpp:276-287; tie_members(): tuple.hpp:366-390. *)
  Definition tie_members (fuel : nat) (T : nat) : outcome (list md) :=
    do ms <- members fuel T;
    match ms with Some l => Ok l | None => IllFormed end.
  (** tie_members_by_name_functor: tuple.hpp:37-55; tie_members_by_name(): tuple.hpp:409-426. *)
  Definition tie_members_by_name (fuel : nat) (T : nat) (names : list str) : outcome (list md) :=
    mapM (find_member_by_name fuel T) names.
End Reflection.

(** Reading a tie, and assigning to it: std::tuple<Ts&...>::operator =() assigns element by element, in order; sizes
    must agree (otherwise it does not compile).
    Whether two pointers to members are the same, for "x.*member" in detail/tuple.hpp:285, tuple.hpp:47. *)
Definition member_eqb (a b : md) : bool :=
  match a, b with MMember c d i, MMember c' d' i' => Nat.eqb c c' && Nat.eqb d d' && Nat.eqb i i' | _, _ => false end.
(** Reading what detail/tuple.hpp:285, tuple.hpp:53 return. *)
Definition read_tie (tie : list md) (x : object) : list Z := map x tie.
(** Assigning to what detail/tuple.hpp:285, tuple.hpp:53 return. *)
Fixpoint assign_tie (tie : list md) (vs : list Z) (x : object) : outcome object :=
  match tie, vs with
  | [], [] => Ok x
  | m :: tie', v :: vs' => assign_tie tie' vs' (fun m' => if member_eqb m m' then v else x m')
  | _, _ => IllFormed
  end.
