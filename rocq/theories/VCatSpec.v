(** Specification of value categories in transformations of variants. *)

From Coq Require Import List.
From Verif Require Import Base VariantSpec VCatModel.
Import ListNotations.

Section Spec.
  Context {T F V : Type}.

  (** The arguments [args] refer to variant objects that hold alternatives; [refs] are references to these, with the value
      categories of the arguments. *)
  Definition refers (m : memory (V := V)) (args : list (arg (T := T))) (refs : list (T * vcat * nat)) : Prop :=
    Forall2 (fun a r => exists i x t, m (a_loc a) = Some (i, x) /\ nth_error (a_alts a) i = Some t /\ r = (t, a_cat a, a_loc a)) args refs.

  (** Some argument refers to a valueless variant, the others to proper ones. *)
  Definition valueless (m : memory (V := V)) (args : list (arg (T := T))) : Prop :=
    (exists a, In a args /\ m (a_loc a) = None) /\
    (forall a i x, In a args -> m (a_loc a) = Some (i, x) -> i < length (a_alts a)).

  (** A functor that changes no variant objects but those it was given non-const references to. *)
  Definition writes_through_references {Res} (f : body (T := T) (F := F) (V := V) Res) : Prop :=
    forall fc s refs s' o l, f fc s refs = (s', o) ->
      (forall t c, In (t, c, l) refs -> c = CL \/ c = CX) -> snd s' l = snd s l.

  (** The types of the calls for all combinations of alternatives. *)
  Definition every_call (sig : signature (T := T)) (fc : vcat) (args : list (arg (T := T))) (P : call_type (T := T) -> Prop) : Prop :=
    forall ts, combination (map a_alts args) ts -> P (sig fc (combine ts (map a_cat args))).
End Spec.
