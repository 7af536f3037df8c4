(** Model of dispatching runtime values to constants: visit(f, expand(v1, values1), expand(v2, values2), ...), the use shown in
    /repo/include/makeshift/variant.hpp:30-192, and of the same with variant_transform() (variant.hpp:249-289).

    The arguments of a function call are evaluated in an unspecified order; the order is a parameter.  The result of
    expand() is the position of the alternative (ExpandModel); as a variant object it holds that alternative, an object of an
    empty class, by constval_variant_map<>::values (detail/variant.hpp:46-57). *)

From Coq Require Import ZArith Arith Bool List.
From Verif Require Import Base TypeSeqModel ExpandModel VariantModel.
Import ListNotations.

(** A runtime value of an integral or enum type and the constants it is expanded to: arguments of expand(), variant.hpp:153-160. *)
Record choice := mk_choice { ch_type : ity; ch_bool : bool; ch_values : list Z; ch_value : Z }.

(** std::integral_constant<T, V>, the type of an alternative: detail/variant.hpp:46-57. *)
Definition constant : Type := (ity * Z)%type.

(** constval_variant_map<>::type: detail/variant.hpp:48-50. *)
Definition alternatives (c : choice) : list constant := map (fun x => (ch_type c, x)) (ch_values c).

(** expand(value, valuesC) as an argument of visit(): variant.hpp:153-160. *)
Definition expanded (c : choice) : outcome (option (nat * unit)) :=
  do k <- expand_int (ch_type c) (ch_bool c) (ch_type c) (ch_value c) (ch_values c); Ok (Some (k, tt)).

(** expand_failfast(value, valuesC) as an argument of visit(): variant.hpp:43-50. *)
Definition expanded_failfast (c : choice) : outcome (option (nat * unit)) :=
  do k <- expand_failfast_int (ch_type c) (ch_bool c) (ch_type c) (ch_value c) (ch_values c); Ok (Some (k, tt)).

(** Evaluation of the arguments of a call in the order [order] (positions): the first one that does not yield a value ends
    the evaluation.  The arguments of calls as in variant.hpp:36-41, 59-67. *)
Definition evaluate_arguments {A : Type} (order : list nat) (es : list (outcome A)) : outcome (list A) :=
  do _ <- mapM (fun i => match nth_error es i with Some e => e | None => IllFormed end) order;
  mapM (fun e => e) es.

(** Continuing with the arguments; without them the call does not take place.  The calls in variant.hpp:36-41, 59-67. *)
Definition call_with {A S R : Type} (args : outcome A) (f : A -> S -> S * outcome R) (s : S) : S * outcome R :=
  match args with
  | Ok a => f a s
  | Contract => (s, Contract)
  | Throw e => (s, Throw e)
  | UB => (s, UB)
  | IllFormed => (s, IllFormed)
  | OutOfFuel => (s, OutOfFuel)
  end.

Section Dispatch.
  Context {S R : Type}.
  Variable order : list nat.

  (** visit(f, expand(v1, V1), ...): variant.hpp:153-160,200-238. *)
  Definition dispatch (f : S -> list (constant * unit) -> S * outcome R) (cs : list choice) (s : S) : S * outcome R :=
    call_with (evaluate_arguments order (map expanded cs)) (fun vs s => visit f (map alternatives cs) vs s) s.

  (** visit(f, expand_failfast(v1, V1), ...): variant.hpp:43-50,200-238. *)
  Definition dispatch_failfast (f : S -> list (constant * unit) -> S * outcome R) (cs : list choice) (s : S) : S * outcome R :=
    call_with (evaluate_arguments order (map expanded_failfast cs)) (fun vs s => visit f (map alternatives cs) vs s) s.
End Dispatch.

(** variant_transform(f, expand(v1, V1), ...): variant.hpp:153-160,249-289.  [of_constant]
    embeds the types of the constants in the types of all arguments and results; values of results are not distinguished. *)
Definition dispatch_transform {T S : Type} (eq_dec : forall a b : T, {a = b} + {a <> b}) (order : list nat) (of_constant : constant -> T)
    (fres : list T -> option T) (f : S -> list (T * unit) -> S * outcome unit) (cs : list choice) (s : S) : S * outcome (nat * unit) :=
  call_with (evaluate_arguments order (map expanded cs))
    (fun vs s => variant_transform eq_dec fres f (map (fun c => map of_constant (alternatives c)) cs) vs s) s.

(** bool has the values false and true: reflect(type_identity<bool>), detail/metadata.hpp:43-47; expand(b) of a bool:
    variant.hpp:180-192. *)
Definition bool_choice (b : bool) : choice := mk_choice (mk_ity 1 false) true [0%Z; 1%Z] (if b then 1%Z else 0%Z).
