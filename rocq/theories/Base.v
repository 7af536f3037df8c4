(** Common vocabulary of the model.

    Everything the modelled code can do at a call is an [outcome].  The
    constructors other than [Ok] are kept apart so that a theorem can say
    which one happens (and never hides one of them in a default value). *)

From Coq Require Import String Ascii ZArith NArith Arith Bool Lia List.
Import ListNotations.

(** Exceptions thrown by the library.
    [RuntimeError]: std::runtime_error, /repo/include/makeshift/detail/serialize.hpp:182,360.
    [UnsupportedRuntimeValue]: /repo/include/makeshift/detail/variant.hpp:25-29 (thrown by
    expand(), /repo/include/makeshift/variant.hpp:153-192).
    [BadVariantAccess]: std::bad_variant_access, thrown by std::visit() for a valueless variant.
    [UserException]: an exception that escapes a user-supplied functor. *)
Inductive exn : Type :=
| RuntimeError (msg : list ascii)
| UnsupportedRuntimeValue
| BadVariantAccess
| UserException (code : Z).

(** [Ok v]        normal return;
    [Contract]    gsl_Expects / gsl_Assert / gsl_FailFast fired;
    [Throw e]     a C++ exception leaves the call;
    [UB]          undefined behaviour (out-of-bounds access, signed overflow,
                  use of an indeterminate value, ...);
    [IllFormed]   the program is rejected by the compiler;
    [OutOfFuel]   the model's recursion bound was too small (never the
                  behaviour of the code; the theorems exclude it). *)
Inductive outcome (A : Type) : Type :=
| Ok (a : A)
| Contract
| Throw (e : exn)
| UB
| IllFormed
| OutOfFuel.

Arguments Ok {A} a.
Arguments Contract {A}.
Arguments Throw {A} e.
Arguments UB {A}.
Arguments IllFormed {A}.
Arguments OutOfFuel {A}.

(** Sequencing: the first outcome that is not [Ok] wins. *)
Definition bind {A B : Type} (m : outcome A) (f : A -> outcome B) : outcome B :=
  match m with
  | Ok a => f a
  | Contract => Contract
  | Throw e => Throw e
  | UB => UB
  | IllFormed => IllFormed
  | OutOfFuel => OutOfFuel
  end.

Notation "'do' x <- m ; f" := (bind m (fun x => f))
  (at level 200, x name, m at level 100, f at level 200).
Notation "'do' ' p <- m ; f" := (bind m (fun p => f))
  (at level 200, p strict pattern, m at level 100, f at level 200).

(** gsl_Expects(cond) / gsl_Assert(cond). *)
Definition expects (b : bool) : outcome unit := if b then Ok tt else Contract.

(** Evaluation of the initializer of a [constexpr] variable: whatever is not a
    normal result makes the program ill-formed. *)
Definition constexpr_init {A : Type} (m : outcome A) : outcome A :=
  match m with
  | Ok a => Ok a
  | OutOfFuel => OutOfFuel
  | _ => IllFormed
  end.

(** Applying [f] to every element in order; the first outcome that is not [Ok] wins. *)
Fixpoint mapM {A B : Type} (f : A -> outcome B) (l : list A) : outcome (list B) :=
  match l with
  | [] => Ok []
  | a :: r => do b <- f a; do bs <- mapM f r; Ok (b :: bs)
  end.

(** Strings are sequences of 8-bit characters. *)
Definition str := list ascii.
Definition lit (s : string) : str := list_ascii_of_string s.

(** Reading element [i] of an array: out of range is undefined behaviour. *)
Definition arr_get {A : Type} (l : list A) (i : nat) : outcome A :=
  match nth_error l i with
  | Some a => Ok a
  | None => UB
  end.

(** Overwriting element [i] of a list (unchanged if out of range). *)
Fixpoint upd {A : Type} (l : list A) (i : nat) (a : A) : list A :=
  match l, i with
  | [], _ => []
  | _ :: r, O => a :: r
  | x :: r, S j => x :: upd r j a
  end.

(** Writing element [i] of an array: out of range is undefined behaviour. *)
Definition arr_set {A : Type} (l : list A) (i : nat) (a : A) : outcome (list A) :=
  if Nat.ltb i (length l) then Ok (upd l i a) else UB.

(** Writing and reading lemmas shared by several areas. *)
Lemma upd_length : forall (A : Type) (l : list A) i a, length (upd l i a) = length l.
Proof.
  induction l as [|x r IH]; intros i a; simpl; auto.
  destruct i; simpl; auto.
Qed.

Lemma nth_error_upd_same : forall (A : Type) (l : list A) i a,
  i < length l -> nth_error (upd l i a) i = Some a.
Proof.
  induction l as [|x r IH]; intros i a H; simpl in *; [lia|].
  destruct i; simpl; auto. apply IH; lia.
Qed.

Lemma nth_error_upd_other : forall (A : Type) (l : list A) i j a,
  i <> j -> nth_error (upd l i a) j = nth_error l j.
Proof.
  induction l as [|x r IH]; intros i j a H; simpl; auto.
  destruct i, j; simpl; auto; try congruence.
Qed.

Lemma bind_ok_inv : forall (A B : Type) (m : outcome A) (f : A -> outcome B) b,
  bind m f = Ok b -> exists a, m = Ok a /\ f a = Ok b.
Proof. intros A B m f b H; destruct m; simpl in H; try discriminate; eauto. Qed.

Lemma expects_ok : forall b u, expects b = Ok u <-> b = true.
Proof. intros [|] []; simpl; split; intro H; try discriminate; auto. Qed.

Lemma mapM_ok : forall (A B : Type) (f : A -> outcome B) (g : A -> B) l,
  (forall a, In a l -> f a = Ok (g a)) -> mapM f l = Ok (map g l).
Proof.
  intros A B f g. induction l as [|a r IH]; intro H; cbn; auto.
  rewrite H by (left; auto). cbn. rewrite IH; auto. intros; apply H; right; auto.
Qed.

Lemma mapM_inv : forall (A B : Type) (f : A -> outcome B) l bs,
  mapM f l = Ok bs <-> Forall2 (fun a b => f a = Ok b) l bs.
Proof.
  intros A B f. induction l as [|a r IH]; intros bs; cbn.
  - split; intro H; inversion H; auto.
  - split.
    + intro H. apply bind_ok_inv in H as [b [Hb H]]. apply bind_ok_inv in H as [bs' [Hr H]].
      inversion H; subst. constructor; auto. apply IH; auto.
    + intro H. inversion H as [|? b ? bs' Hb Hr]; subst. rewrite Hb. cbn. apply IH in Hr. rewrite Hr. auto.
Qed.
