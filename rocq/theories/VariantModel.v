(** Model of variant_transform(), variant_transform_many(), visit(): /repo/include/makeshift/variant.hpp:200-335 and
    /repo/include/makeshift/detail/variant.hpp:183-277; and of the monostate helpers in
    /repo/include/makeshift/experimental/variant.hpp:22-100, experimental/detail/variant.hpp:15-32.

    A variant type is the list of its alternatives; a variant object is [Some (i, x)] (alternative [i] holding [x]) or
    [None] (valueless by exception).  Simplification: values are untyped [V]; value categories (lvalue, rvalue) of the
    arguments are not distinguished, so a functor's result type depends on the alternatives only. *)

From Coq Require Import ZArith Arith Bool List.
From Verif Require Import Base TypeSeqModel.
Import ListNotations.

(** PTRDIFF_MAX, the bound of the std::ptrdiff_t computations in detail/variant.hpp:195-206; ptrdiff_t has 64 bits. *)
Definition ptrdiff_max : Z := (2 ^ 63 - 1)%Z.

(** Multiplication of ptrdiff_t values in a constant expression: detail/variant.hpp:195 ("Using a signed type here means
    we get a compile error on overflow"). *)
Definition pd_mul (a b : Z) : outcome Z := if (a * b <=? ptrdiff_max)%Z then Ok (a * b)%Z else IllFormed.

(** compute_strides_0_<>, compute_strides_<>: detail/variant.hpp:196-202. *)
Fixpoint compute_strides_0 (cur : Z) (strides : list Z) (shape : list Z) : outcome (list Z) :=
  match shape with
  | [] => Ok strides
  | d :: ds => do c <- pd_mul cur d; compute_strides_0 c (strides ++ [cur]) ds
  end.
(** compute_strides_<>: detail/variant.hpp:201-202. *)
Definition compute_strides (shape : list Z) : outcome (list Z) := compute_strides_0 1 [] shape.

(** compute_size_<>: detail/variant.hpp:204-210 (right fold). *)
Fixpoint compute_size (shape : list Z) : outcome Z :=
  match shape with
  | [] => Ok 1%Z
  | d :: ds => do s <- compute_size ds; pd_mul d s
  end.

(** (I / Strides) % Dims: detail/variant.hpp:220. *)
Fixpoint alternative_indices (i : Z) (strides dims : list Z) : list Z :=
  match strides, dims with
  | s :: ss, d :: ds => ((i / s) mod d)%Z :: alternative_indices i ss ds
  | _, _ => []
  end.

Section Transform.
  Context {T : Type}.
  Variable eq_dec : forall a b : T, {a = b} + {a <> b}.

  (** seq_size_<> for all variants: detail/variant.hpp:192-193, 236. *)
  Definition shape (alts : list (list T)) : list Z := map (fun ts => Z.of_nat (length ts)) alts.

  (** nth_variant_type<> for all variants: detail/variant.hpp:184-190, 220. *)
  Fixpoint argument_types (idx : list Z) (alts : list (list T)) : outcome (list T) :=
    match idx, alts with
    | i :: is', ts :: r => do t <- nth_type (Z.to_nat i) ts; do l <- argument_types is' r; Ok (t :: l)
    | _, _ => Ok []
    end.

  (** The combinations of alternatives in the order of the linear index: detail/variant.hpp:224-240. *)
  Definition combinations (alts : list (list T)) : outcome (list (list T)) :=
    do strides <- compute_strides (shape alts);
    do n <- compute_size (shape alts);
    mapM (fun k => argument_types (alternative_indices (Z.of_nat k) strides (shape alts)) alts) (seq 0 (Z.to_nat n)).

  (** Instantiating std::variant<> requires at least one alternative; detail/variant.hpp:250, 274 with
      instantiate_<> (detail/type_traits.hpp:124-125). *)
  Definition instantiate_variant (ts : list T) : outcome (list T) :=
    match ts with [] => IllFormed | _ => Ok ts end.

  (** filter_sequence_<is_not_void, ...>: the result sequence with void ([None]) removed; detail/variant.hpp:242,248.
      The accumulator-passing recursion is that of filter_sequence_0_<> (detail/type_traits.hpp:144-158). *)
  Fixpoint non_void_0 (rs : list T) (ts : list (option T)) : list T :=
    match ts with
    | [] => rs
    | Some t :: r => non_void_0 (rs ++ [t]) r
    | None :: r => non_void_0 rs r
    end.

  (** variant_transform_result<>: detail/variant.hpp:244-253.  [fres] gives the result type of the functor for a
      combination of argument types; [None] is void. *)
  Definition variant_transform_result (fres : list T -> option T) (alts : list (list T)) : outcome (list T) :=
    do cs <- combinations alts;
    instantiate_variant (unique_sequence eq_dec (non_void_0 [] (map fres cs))).

  (** flatten_variant_<>: detail/variant.hpp:255-266; [None] is a result type that is not a std::variant<>. *)
  Fixpoint flatten_variant (rs : list T) (vs : list (option (list T))) : outcome (list T) :=
    match vs with
    | [] => Ok rs
    | Some v :: r => flatten_variant (rs ++ v) r
    | None :: _ => IllFormed
    end.

  (** variant_transform_many_result<>: detail/variant.hpp:268-277. *)
  Definition variant_transform_many_result (fres : list T -> option (list T)) (alts : list (list T)) : outcome (list T) :=
    do cs <- combinations alts;
    do flat <- flatten_variant [] (map fres cs);
    instantiate_variant (unique_sequence eq_dec flat).

  (** Runtime. *)
  Context {V S : Type}.

  (** A variant object, as passed to the functions in variant.hpp:200-335. *)
  Definition variant_value := option (nat * V).

  (** The held alternative, as std::visit() (called in variant.hpp:210, 229, 266, 308, 321) finds it. *)
  Definition held (ts : list T) (v : variant_value) : outcome (T * V) :=
    match v with
    | None => Throw BadVariantAccess
    | Some (i, x) => match nth_error ts i with Some t => Ok (t, x) | None => UB end
    end.

  (** The same for all arguments of std::visit(), variant.hpp:210, 229. *)
  Fixpoint held_all (alts : list (list T)) (vs : list variant_value) : outcome (list (T * V)) :=
    match alts, vs with
    | [], [] => Ok []
    | ts :: ar, v :: vr => do h <- held ts v; do hs <- held_all ar vr; Ok (h :: hs)
    | _, _ => IllFormed
    end.

  (** std::visit(): the callable is applied to the held alternatives; std::bad_variant_access without a call if any
      variant is valueless.  Called in variant.hpp:210, 229, 266, 308, 321. *)
  Definition std_visit {R : Type} (func : S -> list (T * V) -> S * outcome R) (alts : list (list T))
      (vs : list variant_value) (s : S) : S * outcome R :=
    match held_all alts vs with
    | Ok args => func s args
    | Contract => (s, Contract)
    | Throw e => (s, Throw e)
    | UB => (s, UB)
    | IllFormed => (s, IllFormed)
    | OutOfFuel => (s, OutOfFuel)
    end.

  (** makeshift::visit<R>(): variant.hpp:219-238 (wraps the functor in a forwarding lambda); makeshift::visit():
      variant.hpp:200-212. *)
  Definition visit {R : Type} (func : S -> list (T * V) -> S * outcome R) (alts : list (list T))
      (vs : list variant_value) (s : S) : S * outcome R :=
    std_visit (fun s' args => func s' args) alts vs s.

  (** Conversion of a [t] to std::variant<R...>: the converting constructor selects the alternative of exactly that
      type.  Simplification: if the type is not among the alternatives exactly once, the conversion is taken as
      ill-formed (implicit conversions to another alternative are not modelled; for the two callers the type is always
      there): variant.hpp:282, 315, 328; experimental/variant.hpp:47, 54. *)
  Definition into_alternative (t : T) (R : list T) (x : V) : outcome (nat * V) :=
    match bases_of eq_dec t 0 R with
    | [i] => Ok (i, x)
    | _ => IllFormed
    end.

  (** variant_transform(): variant.hpp:249-289. *)
  Definition variant_transform (fres : list T -> option T) (func : S -> list (T * V) -> S * outcome V)
      (alts : list (list T)) (vs : list variant_value) (s : S) : S * outcome (nat * V) :=
    match variant_transform_result fres alts with
    | Ok R =>
        std_visit
          (fun s args =>
             match fres (map fst args) with
             | None => let '(s', o) := func s args in (s', do _ <- o; Contract)
             | Some t => let '(s', o) := func s args in (s', do x <- o; into_alternative t R x)
             end)
          alts vs s
    | _ => (s, IllFormed)
    end.

  (** variant_transform_many(): variant.hpp:299-335.  The functor returns a variant object. *)
  Definition variant_transform_many (fres : list T -> option (list T))
      (func : S -> list (T * V) -> S * outcome variant_value)
      (alts : list (list T)) (vs : list variant_value) (s : S) : S * outcome (nat * V) :=
    match variant_transform_many_result fres alts with
    | Ok R =>
        std_visit
          (fun s args =>
             match fres (map fst args) with
             | None => (s, IllFormed)
             | Some rts =>
                 let '(s', o) := func s args in
                 (s', do rv <- o; do ' (t, x) <- held rts rv; into_alternative t R x)
             end)
          alts vs s
    | _ => (s, IllFormed)
    end.

  (** with_monostate<>, without_monostate<>: experimental/detail/variant.hpp:15-18. *)
  Definition with_monostate (mono : T) (ts : list T) : list T := mono :: ts.
  (** experimental/detail/variant.hpp:17-18. *)
  Definition without_monostate (mono : T) (ts : list T) : outcome (list T) :=
    match ts with
    | t :: r => if eq_dec t mono then Ok r else IllFormed
    | [] => IllFormed
    end.

  (** variant_cast<>(): experimental/variant.hpp:38-59; all conversions have to be well-formed. *)
  Definition castable (dst src : list T) : bool :=
    forallb (fun t => match bases_of eq_dec t 0 dst with [_] => true | _ => false end) src.
  (** experimental/variant.hpp:38-59. *)
  Definition variant_cast (dst src : list T) (v : variant_value) : outcome (nat * V) :=
    if castable dst src then do ' (t, x) <- held src v; into_alternative t dst x else IllFormed.

  (** variant_to_optional(): experimental/variant.hpp:64-84 with monostate_filtering_visitor<>
      (experimental/detail/variant.hpp:20-32).  std::holds_alternative<monostate>() requires monostate to occur exactly
      once.  The visitor calls std::terminate() for monostate ([Contract]).  Every alternative other than monostate is
      converted to the variant without monostate. *)
  Definition variant_to_optional (mono : T) (ts : list T) (v : variant_value) : outcome (option (nat * V)) :=
    do r <- without_monostate mono ts;
    do r' <- instantiate_variant r;
    match bases_of eq_dec mono 0 ts with
    | [_] =>
        if castable r' (filter (fun t => negb (same eq_dec mono t)) ts) then
          let visited :=
            do ' (t, x) <- held ts v;
            (if eq_dec t mono then Contract else do a <- into_alternative t r' x; Ok (Some a)) in
          match v with
          | Some (i, _) =>
              match nth_error ts i with
              | Some t => if eq_dec t mono then Ok None else visited
              | None => UB
              end
          | None => visited
          end
        else IllFormed
    | _ => IllFormed
    end.

  (** optional_to_variant(): experimental/variant.hpp:89-99; [unit_value] is the only value of std::monostate. *)
  Definition optional_to_variant (mono : T) (unit_value : V) (ts : list T) (o : option variant_value) : outcome (nat * V) :=
    if castable (with_monostate mono ts) ts then
      match o with
      | None => into_alternative mono (with_monostate mono ts) unit_value
      | Some v => variant_cast (with_monostate mono ts) ts v
      end
    else IllFormed.
End Transform.
