(** Model of the detection traits: /repo/include/makeshift/type_traits.hpp:126-153, detail/type_traits.hpp:31-32,
    concepts.hpp:79-86 (can_instantiate<>, is_instantiation_of<>, the concept instantiation_of), and of what the language says
    about substitution into alias templates and implicit instantiation of class templates, on which they rely. *)

From Coq Require Import Arith Bool List.
From Verif Require Import Base.
Import ListNotations.

(** Types.  [Basic n]: fundamental types, classes that are no specialisations of a template, and specialisations of templates
    with other than type parameters, which cannot be passed to the traits; [Spec C args]: C<args...>.
    What T and Ts of detail/type_traits.hpp:31-32, type_traits.hpp:126-153 range over. *)
Inductive ty : Type :=
| Void
| Basic (n : nat)
| Const (t : ty)
| Ref (t : ty)                               (* T&; rvalue references are left out *)
| Ptr (t : ty)
| Spec (C : nat) (args : list ty).

(** Class and alias templates with type parameters.  Default arguments are left out.
    What Z of detail/type_traits.hpp:31-32 and U of type_traits.hpp:143-153 range over. *)
Inductive tmpl : Type := Class (C : nat) | Alias (A : nat).

(** Types in the body of a template, with its parameters.  For "Z<Ts...>" of detail/type_traits.hpp:32. *)
Inductive texpr : Type :=
| XParam (i : nat)
| XType (t : ty)                                          (* a type that does not depend on parameters *)
| XConst (x : texpr)                                      (* x const *)
| XRef (x : texpr)                                        (* x& *)
| XPtr (x : texpr)                                        (* x* *)
| XUse (Z : tmpl) (xs : list texpr) (pack : option nat)   (* Z<xs..., Ts...>; [Some k]: all parameters from the k-th on *)
| XMember (x : texpr) (m : nat).                          (* typename x::m *)

(** Template parameters: a number of them, and a pack or not.  The language's; for detail/type_traits.hpp:32. *)
Record signature := mk_sig { sig_fixed : nat; sig_pack : bool }.
(** The language's; for detail/type_traits.hpp:32. *)
Definition accepts (s : signature) (n : nat) : bool := if sig_pack s then sig_fixed s <=? n else Nat.eqb (sig_fixed s) n.

(** What choosing and looking at the definition of a class gives: it is only declared; the partial specialisations are
    ambiguous; or it has these member types.  The language's; for detail/type_traits.hpp:32. *)
Inductive class_def : Type := Incomplete | Ambiguous | Members (ms : list (nat * texpr)).

(** Result of a substitution: a value; failure in the immediate context, which is no error; an error elsewhere; or nothing
    within the given instantiation depth.  The language's; for detail/type_traits.hpp:31-32. *)
Inductive answer (A : Type) : Type := Named (a : A) | Failed | Broken | Deeper.
Arguments Named {A} _. Arguments Failed {A}. Arguments Broken {A}. Arguments Deeper {A}.
(** The language's; for detail/type_traits.hpp:32. *)
Definition bindA {A B : Type} (m : answer A) (f : A -> answer B) : answer B :=
  match m with Named a => f a | Failed => Failed | Broken => Broken | Deeper => Deeper end.
(** Substitution proceeds in lexical order and stops at the first failure.  The language's; for detail/type_traits.hpp:32. *)
Fixpoint all_named {A B : Type} (f : A -> answer B) (l : list A) : answer (list B) :=
  match l with [] => Named [] | x :: r => bindA (f x) (fun b => bindA (all_named f r) (fun bs => Named (b :: bs))) end.

(** Compound types; const does not apply to references, references to references collapse.  The language's; for detail/type_traits.hpp:32. *)
Definition add_const (t : ty) : ty := match t with Ref _ | Const _ => t | _ => Const t end.
(** The language's; for detail/type_traits.hpp:32. *)
Definition add_ref (t : ty) : answer ty := match t with Void | Const Void => Failed | Ref _ => Named t | _ => Named (Ref t) end.
(** The language's; for detail/type_traits.hpp:32. *)
Definition add_ptr (t : ty) : answer ty := match t with Ref _ => Failed | _ => Named (Ptr t) end.
(** The class of which a member is named; the language's, for detail/type_traits.hpp:32. *)
Definition class_of (t : ty) : option (nat * list ty) :=
  match t with Spec C args | Const (Spec C args) => Some (C, args) | _ => None end.

Section Program.
  (** The templates of the program. *)
  Variable class_sig : nat -> signature.
  Variable define : nat -> list ty -> class_def.
  Variable alias_sig : nat -> signature.
  Variable alias_body : nat -> texpr.

  (** The member types of a class are declared when it is instantiated, all of them, in order; this is not part of the immediate
      context.  [depth] bounds the nesting.  The language's; for detail/type_traits.hpp:32. *)
  Definition find_member (m : nat) (ms : list (nat * texpr)) (ts : list ty) : answer ty :=
    match find (fun e => Nat.eqb (fst e) m) (combine (map fst ms) ts) with Some (_, t) => Named t | None => Failed end.
  (** The language's; for "Z<Ts...>" in detail/type_traits.hpp:32. *)
  Fixpoint subst (depth : nat) (x : texpr) (params : list ty) : answer ty :=
    match depth with
    | O => Deeper
    | S d =>
        match x with
        | XParam i => match nth_error params i with Some t => Named t | None => Failed end
        | XType t => Named t
        | XConst x => bindA (subst d x params) (fun t => Named (add_const t))
        | XRef x => bindA (subst d x params) add_ref
        | XPtr x => bindA (subst d x params) add_ptr
        | XUse Z xs pack =>
            bindA (all_named (fun x => subst d x params) xs) (fun ts =>
              let args := ts ++ match pack with Some k => skipn k params | None => [] end in
              match Z with
              | Class C => if accepts (class_sig C) (length args) then Named (Spec C args) else Failed
              | Alias A => if accepts (alias_sig A) (length args) then subst d (alias_body A) args else Failed
              end)
        | XMember x m =>
            bindA (subst d x params) (fun t =>
              match class_of t with
              | None => Failed
              | Some (C, args) =>
                  match define C args with
                  | Incomplete => Failed
                  | Ambiguous => Broken
                  | Members ms =>
                      match all_named (fun e => subst d (snd e) args) ms with
                      | Named ts => find_member m ms ts
                      | Failed | Broken => Broken
                      | Deeper => Deeper
                      end
                  end
              end)
        end
    end.

  (** std::void_t<>.  As used in detail/type_traits.hpp:32. *)
  Definition void_t (t : ty) : ty := Void.
  (** "void" of type_traits.hpp:130 matches detail/type_traits.hpp:32. *)
  Definition ty_is_void (t : ty) : bool := match t with Void => true | _ => false end.

  (** detail::can_instantiate_<Z, V, Ts...>: detail/type_traits.hpp:31-32; the partial specialisation is chosen if
      std::void_t<Z<Ts...>> can be formed and is V. *)
  Definition can_instantiate_ (depth : nat) (Z : tmpl) (V : ty) (Ts : list ty) : outcome bool :=
    match subst depth (XUse Z (map XType Ts) None) [] with
    | Named t => Ok (ty_is_void V && ty_is_void (void_t t))
    | Failed => Ok false
    | Broken => IllFormed
    | Deeper => OutOfFuel
    end.
  (** can_instantiate<Z, Ts...>, can_instantiate_v: type_traits.hpp:126-137. *)
  Definition can_instantiate (depth : nat) (Z : tmpl) (Ts : list ty) : outcome bool := can_instantiate_ depth Z Void Ts.

  (** Two template arguments are the same template if they are the same class template or the same alias template.  Whether an
      alias template that only renames a class template is the same template as that one (core language issue 1286) depends on the
      implementation: [renames A] is the class template that it takes [A] for. *)
  Variable renames : nat -> option nat.
  (** For type_traits.hpp:145-146. *)
  Definition names_class (U : tmpl) : option nat := match U with Class C => Some C | Alias A => renames A end.

  (** is_instantiation_of<T, U>: type_traits.hpp:143-153; the partial specialisation <U<Ts...>, U> deduces U twice.  The concept
      instantiation_of: concepts.hpp:84-85. *)
  Definition is_instantiation_of (T : ty) (U : tmpl) : bool :=
    match T with
    | Spec C _ => match names_class U with Some C' => Nat.eqb C C' | None => false end
    | _ => false
    end.
  (** concepts.hpp:84-85. *)
  Definition instantiation_of (T : ty) (U : tmpl) : bool := is_instantiation_of T U.
End Program.
