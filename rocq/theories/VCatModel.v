(** Model of visit(), visit<R>(), variant_transform() and variant_transform_many() with value categories:
    /repo/include/makeshift/variant.hpp:196-335, /repo/include/makeshift/detail/variant.hpp:183-277.

    Variants are objects in a memory; arguments are expressions that refer to them, with a value category.  The functor
    receives references to the alternatives that the variants hold and may change the memory; what it captured is its own
    state.  The computation of the combinations of alternatives is that of VariantModel. *)

From Coq Require Import ZArith Arith Bool List.
From Verif Require Import Base TypeSeqModel VariantModel.
Import ListNotations.

(** Lvalue, const lvalue, rvalue, const rvalue.  For a forwarding reference `Vs&&`, Vs is deduced as `V&`, `V const&`, `V`
    and `V const`, respectively.  variant.hpp:202, 221, 251, 301. *)
Inductive vcat := L | CL | X | CX.
(** Which specialisation of detail/variant.hpp:185-189 is chosen. *)
Definition vcat_eqb (a b : vcat) : bool := match a, b with L, L | CL, CL | X, X | CX, CX => true | _, _ => false end.

Section Category.
  Context {T : Type}.
  Variable eq_dec : forall a b : T, {a = b} + {a <> b}.
  (** Whether a type can be an alternative of std::variant<>: references, arrays and void cannot. *)
  Variable storable : T -> bool.

  (** The result type of a call: none if the call is not well-formed; void is [Returns None].  detail/variant.hpp:220. *)
  Inductive call_type := NotCallable | Returns (t : option T).
  (** The types of function call expressions for the value category of the functor and the types of the arguments.
      detail/variant.hpp:220; variant.hpp:210, 233, 274, 317. *)
  Definition signature := vcat -> list (T * vcat) -> call_type.

  (** nth_variant_type_<I, V>: detail/variant.hpp:184-190.  There is no specialization for `V const`. *)
  Definition nth_variant_type_ok (c : vcat) : bool := negb (vcat_eqb c CX).

  (** The types of the arguments for a combination of alternatives: variant_transform_result_1_<>, detail/variant.hpp:214-223. *)
  Definition call_result (sig : signature) (fc : vcat) (cats : list vcat) (ts : list T) : call_type := sig fc (combine ts cats).
  (** detail/variant.hpp:220. *)
  Definition callable (r : call_type) : bool := match r with NotCallable => false | _ => true end.
  (** detail/variant.hpp:220, 242. *)
  Definition result_type (r : call_type) : option T := match r with NotCallable => None | Returns t => t end.

  (** variant_transform_result<>: every call has to be well-formed, every result has to be storable: detail/variant.hpp:224-253.  detail/variant.hpp:224-253. *)
  Definition transform_type (sig : signature) (fc : vcat) (alts : list (list T)) (cats : list vcat) : outcome (list T) :=
    if forallb nth_variant_type_ok cats then
      do cs <- combinations alts;
      if forallb (fun ts => callable (call_result sig fc cats ts)) cs then
        do R <- variant_transform_result eq_dec (fun ts => result_type (call_result sig fc cats ts)) alts;
        if forallb storable R then Ok R else IllFormed
      else IllFormed
    else IllFormed.

  (** variant_transform_many_result<>: detail/variant.hpp:255-277; [variant_of t] are the alternatives if the type is an std::variant<> (and
      neither a reference to it nor const). *)
  Variable variant_of : T -> option (list T).
  (** detail/variant.hpp:255-277. *)
  Definition many_type (sig : signature) (fc : vcat) (alts : list (list T)) (cats : list vcat) : outcome (list T) :=
    if forallb nth_variant_type_ok cats then
      do cs <- combinations alts;
      if forallb (fun ts => callable (call_result sig fc cats ts)) cs then
        variant_transform_many_result eq_dec
          (fun ts => match result_type (call_result sig fc cats ts) with Some t => variant_of t | None => None end) alts
      else IllFormed
    else IllFormed.

  (** ** Run time *)
  Context {F V : Type}.
  (** A variant object: its index and the value of the alternative, or valueless.  What the arguments of variant.hpp:202, 221, 251, 301 refer to. *)
  Definition memory := nat -> option (nat * V).
  (** The arguments of variant.hpp:202, 221, 251, 301. *)
  Record arg := mk_arg { a_alts : list T; a_cat : vcat; a_loc : nat }.
  (** A reference to the alternative held by a variant object: its type, value category and the object.
      The arguments of the calls in variant.hpp:210, 233, 277, 282, 317, 330. *)
  Definition reference : Type := T * vcat * nat.
  (** [f fc s refs]: a call of the functor (an object of category [fc]) with references to alternatives; [s] is what the
      functor captured, and the memory.  The functors of variant.hpp:202, 221, 251, 301. *)
  Definition body (Res : Type) := vcat -> F * memory -> list reference -> (F * memory) * outcome Res.

  (** std::get<I>(std::forward<V>(v)) for all arguments, as done by std::visit().  variant.hpp:210, 229, 266, 308, 321. *)
  Definition references (args : list arg) (held : list (T * nat)) : list reference :=
    map (fun ' (a, (t, l)) => (t, a_cat a, l)) (combine args held).
  (** std::visit(): looks at the index of every variant.  Called in variant.hpp:210, 229, 266, 308, 321. *)
  Definition visit_refs {Res : Type} (f : F * memory -> list reference -> (F * memory) * outcome Res) (args : list arg)
      (s : F * memory) : (F * memory) * outcome Res :=
    std_visit (V := nat) (fun s held => f s (references args held)) (map a_alts args)
      (map (fun a => option_map (fun p => (fst p, a_loc a)) (snd s (a_loc a))) args) s.
  (** variant.hpp:231, 272, 310, 323. *)
  Definition types_of (refs : list reference) : list (T * vcat) := map fst refs.

  (** visit(): variant.hpp:196-212.  All calls have to have the same type (including value category), which the types here
      stand for. *)
  Definition same_results (rs : list call_type) : bool :=
    match rs with
    | [] => true
    | r :: rs => callable r && forallb (fun q => match result_type r, result_type q with
                                                  | Some t, Some u => if eq_dec t u then callable q else false
                                                  | None, None => callable q
                                                  | _, _ => false
                                                  end) rs
    end.
  (** variant.hpp:200-212. *)
  Definition visit (sig : signature) (f : body V) (fc : vcat) (args : list arg) (s : F * memory) : (F * memory) * outcome V :=
    match combinations (map a_alts args) with
    | Ok cs => if same_results (map (call_result sig fc (map a_cat args)) cs) then visit_refs (f fc) args s else (s, IllFormed)
    | _ => (s, IllFormed)
    end.

  (** visit<R>(): variant.hpp:214-238.  `return expr;` in a lambda expression with result R: an expression of type other than
      void cannot be returned for R = void; [conv t R] converts a result if that is possible. *)
  Variable conv : T -> T -> option (V -> V).
  (** variant.hpp:231-233. *)
  Definition returnable (R : option T) (r : call_type) : option (V -> V) :=
    match R, r with
    | None, Returns None => Some (fun x => x)
    | Some R, Returns (Some t) => conv t R
    | _, _ => None
    end.
  (** variant.hpp:219-238. *)
  Definition visit_as (R : option T) (sig : signature) (f : body V) (fc : vcat) (args : list arg) (s : F * memory) : (F * memory) * outcome V :=
    match combinations (map a_alts args) with
    | Ok cs =>
        if forallb (fun ts => match returnable R (call_result sig fc (map a_cat args) ts) with Some _ => true | None => false end) cs then
          visit_refs (fun s refs =>
            match returnable R (sig fc (types_of refs)) with
            | Some g => let '(s', o) := f fc s refs in (s', do x <- o; Ok (g x))
            | None => (s, IllFormed)
            end) args s
        else (s, IllFormed)
    | _ => (s, IllFormed)
    end.

  (** variant_transform(): variant.hpp:249-289.  The functor is captured by reference and called with its own category. *)
  Definition variant_transform (sig : signature) (f : body V) (fc : vcat) (args : list arg) (s : F * memory) : (F * memory) * outcome (nat * V) :=
    match transform_type sig fc (map a_alts args) (map a_cat args) with
    | Ok R =>
        visit_refs (fun s refs =>
          match sig fc (types_of refs) with
          | NotCallable => (s, IllFormed)
          | Returns None => let '(s', o) := f fc s refs in (s', do _ <- o; Contract)
          | Returns (Some t) => let '(s', o) := f fc s refs in (s', do x <- o; into_alternative eq_dec t R x)
          end) args s
    | _ => (s, IllFormed)
    end.

  (** variant_transform_many(): variant.hpp:299-335.  The closure has a copy of the functor, and its function call operator is
      const, hence the copy is called as const lvalue, whatever the type of the result was computed from.  The copy is
      destroyed afterwards.  [moved] is what moving from the functor leaves behind; the functor is moved from even if no
      variant has a value.  Copying the functor is assumed to be well-formed and not to throw. *)
  Variable moved : F -> F.
  (** variant.hpp:308-333. *)
  Definition many_callable (sig : signature) (alts : list (list T)) (cats : list vcat) (R : list T) : bool :=
    match combinations alts with
    | Ok cs => forallb (fun ts => match call_result sig CL cats ts with
                                  | Returns (Some t) => match variant_of t with Some us => castable eq_dec R us | None => false end
                                  | _ => false
                                  end) cs
    | _ => false
    end.
  (** variant.hpp:299-335. *)
  Definition variant_transform_many (sig : signature) (f : body (option (nat * V))) (fc : vcat) (args : list arg) (s : F * memory)
      : (F * memory) * outcome (nat * V) :=
    match many_type sig fc (map a_alts args) (map a_cat args) with
    | Ok R =>
        if many_callable sig (map a_alts args) (map a_cat args) R then
          let original := match fc with X => moved (fst s) | _ => fst s end in
          let '((_, m), o) :=
            visit_refs (fun s refs =>
              match sig CL (types_of refs) with
              | Returns (Some t) =>
                  match variant_of t with
                  | Some us => let '(s', o) := f CL s refs in (s', do v <- o; do ' (u, x) <- held us v; into_alternative eq_dec u R x)
                  | None => (s, IllFormed)
                  end
              | _ => (s, IllFormed)
              end) args s in
          ((original, m), o)
        else (s, IllFormed)
    | _ => (s, IllFormed)
    end.
End Category.
Arguments mk_arg {T}.
Arguments NotCallable {T}.
Arguments Returns {T}.
