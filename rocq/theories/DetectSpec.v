(** Specification for the detection traits: when a template-id names a type, and where the error is if it does not. *)

From Coq Require Import Arith Bool List.
From Verif Require Import Base DetectModel.
Import ListNotations.

(** The number of arguments fits. *)
Definition fits (s : signature) (n : nat) : Prop := sig_fixed s = n \/ sig_pack s = true /\ sig_fixed s <= n.

Definition pack_args (pack : option nat) (params : list ty) : list ty :=
  match pack with Some k => skipn k params | None => [] end.

(** A class type, const or not. *)
Inductive class_type : ty -> nat -> list ty -> Prop :=
| ct_plain : forall C args, class_type (Spec C args) C args
| ct_const : forall C args, class_type (Const (Spec C args)) C args.

Section Program.
  Variable class_sig : nat -> signature.
  Variable define : nat -> list ty -> class_def.
  Variable alias_sig : nat -> signature.
  Variable alias_body : nat -> texpr.

  (** [names x ps t]: with its parameters replaced by [ps], [x] is well-formed and is the type [t]. *)
  Inductive names : texpr -> list ty -> ty -> Prop :=
  | n_param : forall i ps t, nth_error ps i = Some t -> names (XParam i) ps t
  | n_type : forall t ps, names (XType t) ps t
  | n_const_ref : forall x ps t, names x ps (Ref t) -> names (XConst x) ps (Ref t)
  | n_const_const : forall x ps t, names x ps (Const t) -> names (XConst x) ps (Const t)
  | n_const : forall x ps t, names x ps t -> (forall u, t <> Ref u) -> (forall u, t <> Const u) -> names (XConst x) ps (Const t)
  | n_ref_ref : forall x ps t, names x ps (Ref t) -> names (XRef x) ps (Ref t)
  | n_ref : forall x ps t, names x ps t -> (forall u, t <> Ref u) -> t <> Void -> t <> Const Void -> names (XRef x) ps (Ref t)
  | n_ptr : forall x ps t, names x ps t -> (forall u, t <> Ref u) -> names (XPtr x) ps (Ptr t)
  | n_class : forall C xs pack ps ts, names_all xs ps ts -> fits (class_sig C) (length (ts ++ pack_args pack ps)) ->
      names (XUse (Class C) xs pack) ps (Spec C (ts ++ pack_args pack ps))
  | n_alias : forall A xs pack ps ts t, names_all xs ps ts -> fits (alias_sig A) (length (ts ++ pack_args pack ps)) ->
      names (alias_body A) (ts ++ pack_args pack ps) t -> names (XUse (Alias A) xs pack) ps t
  | n_member : forall x m ps c C args ms ts t, names x ps c -> class_type c C args ->
      define C args = Members ms -> names_all (map snd ms) args ts ->
      (exists i e, nth_error ms i = Some e /\ fst e = m /\ nth_error ts i = Some t /\
         forall j e', j < i -> nth_error ms j = Some e' -> fst e' <> m) ->
      names (XMember x m) ps t
  with names_all : list texpr -> list ty -> list ty -> Prop :=
  | na_nil : forall ps, names_all [] ps []
  | na_cons : forall x xs ps t ts, names x ps t -> names_all xs ps ts -> names_all (x :: xs) ps (t :: ts).

  (** [faulty immediate x ps]: the first error in [x] with parameters [ps] is in the immediate context, or in a class that is
      instantiated on the way. *)
  Inductive faulty : bool -> texpr -> list ty -> Prop :=
  | f_no_param : forall i ps, length ps <= i -> faulty true (XParam i) ps
  | f_ref_void : forall x ps t, names x ps t -> t = Void \/ t = Const Void -> faulty true (XRef x) ps
  | f_ptr_ref : forall x ps t, names x ps (Ref t) -> faulty true (XPtr x) ps
  | f_const : forall b x ps, faulty b x ps -> faulty b (XConst x) ps
  | f_ref : forall b x ps, faulty b x ps -> faulty b (XRef x) ps
  | f_ptr : forall b x ps, faulty b x ps -> faulty b (XPtr x) ps
  | f_arg : forall b Z xs pack ps ts x ys, names_all xs ps ts -> faulty b x ps -> faulty b (XUse Z (xs ++ x :: ys) pack) ps
  | f_class_number : forall C xs pack ps ts, names_all xs ps ts -> ~ fits (class_sig C) (length (ts ++ pack_args pack ps)) ->
      faulty true (XUse (Class C) xs pack) ps
  | f_alias_number : forall A xs pack ps ts, names_all xs ps ts -> ~ fits (alias_sig A) (length (ts ++ pack_args pack ps)) ->
      faulty true (XUse (Alias A) xs pack) ps
  | f_alias : forall b A xs pack ps ts, names_all xs ps ts -> fits (alias_sig A) (length (ts ++ pack_args pack ps)) ->
      faulty b (alias_body A) (ts ++ pack_args pack ps) -> faulty b (XUse (Alias A) xs pack) ps
  | f_prefix : forall b x m ps, faulty b x ps -> faulty b (XMember x m) ps
  | f_no_class : forall x m ps t, names x ps t -> (forall C args, ~ class_type t C args) -> faulty true (XMember x m) ps
  | f_incomplete : forall x m ps t C args, names x ps t -> class_type t C args -> define C args = Incomplete -> faulty true (XMember x m) ps
  | f_no_member : forall x m ps t C args ms ts, names x ps t -> class_type t C args -> define C args = Members ms ->
      names_all (map snd ms) args ts -> ~ In m (map fst ms) -> faulty true (XMember x m) ps
  | f_ambiguous : forall x m ps t C args, names x ps t -> class_type t C args -> define C args = Ambiguous -> faulty false (XMember x m) ps
  | f_instantiation : forall b x m ps t C args ms1 e ms2 ts, names x ps t -> class_type t C args -> define C args = Members (ms1 ++ e :: ms2) ->
      names_all (map snd ms1) args ts -> faulty b (snd e) args -> faulty false (XMember x m) ps.

  (** Z<Ts...>. *)
  Definition template_id (Z : tmpl) (Ts : list ty) : texpr := XUse Z (map XType Ts) None.
End Program.

(** Bodies that use no members of types that depend on parameters, and only aliases declared before. *)
Inductive plain (A : nat) : texpr -> Prop :=
| p_param : forall i, plain A (XParam i)
| p_type : forall t, plain A (XType t)
| p_const : forall x, plain A x -> plain A (XConst x)
| p_ref : forall x, plain A x -> plain A (XRef x)
| p_ptr : forall x, plain A x -> plain A (XPtr x)
| p_class : forall C xs pack, plains A xs -> plain A (XUse (Class C) xs pack)
| p_alias : forall B xs pack, plains A xs -> B < A -> plain A (XUse (Alias B) xs pack)
with plains (A : nat) : list texpr -> Prop :=
| ps_nil : plains A []
| ps_cons : forall x xs, plain A x -> plains A xs -> plains A (x :: xs).
