(** Specification for functors passed to algorithms. *)

From Coq Require Import Arith Bool List.
From Verif Require Import Base ForwardModel FunctorModel.
Import ListNotations.

Section Class.
  Context {St A R : Type}.

  Definition qualifiers (o : operator St A R) : bool * refq := (q_const o, q_ref o).
  (** Call operators with the same parameters that a class may have: they differ in their qualifiers, and either all or none have
      a ref-qualifier. *)
  Definition declarable (ops : list (operator St A R)) : Prop :=
    NoDup (map qualifiers ops) /\ ((forall o, In o ops -> q_ref o = NoRef) \/ (forall o, In o ops -> q_ref o <> NoRef)).

  (** The operators that can be called on an object expression, best first. *)
  Definition preference (c : cat) : list (bool * refq) :=
    match c with
    | Lv => [(false, NoRef); (false, Amp); (true, NoRef); (true, Amp)]
    | CLv => [(true, NoRef); (true, Amp)]
    | Rv => [(false, NoRef); (false, AmpAmp); (true, NoRef); (true, AmpAmp); (true, Amp)]
    | CRv => [(true, NoRef); (true, AmpAmp); (true, Amp)]
    end.
  Definition chosen (k : class St A R) (c : cat) (o : operator St A R) : Prop :=
    In o (c_ops k) /\
    exists before after, preference c = before ++ qualifiers o :: after /\ forall o', In o' (c_ops k) -> ~ In (qualifiers o') before.
  Definition not_callable (k : class St A R) (c : cat) : Prop := forall o, In o (c_ops k) -> ~ In (qualifiers o) (preference c).
End Class.

(** The outcome of an algorithm is the one of the reference run, which works on the state of one object: afterwards the object in
    [p] has the state of the reference run, and all others are as in [m].  Nothing happens if the call does not compile. *)
Definition works_on {St X : Type} (p : place) (m : memory St) (res : memory St * outcome X) (reference : St * outcome X) : Prop :=
  snd res = snd reference /\
  (snd reference <> IllFormed -> fst res p = fst reference /\ forall q, q <> p -> fst res q = m q) /\
  (snd reference = IllFormed -> forall q, fst res q = m q).

(** The same for two objects. *)
Definition works_on_both {St X : Type} (p1 p2 : place) (m : memory St) (res : memory St * outcome X) (reference : (St * St) * outcome X) : Prop :=
  snd res = snd reference /\
  (snd reference <> IllFormed -> fst res p1 = fst (fst reference) /\ fst res p2 = snd (fst reference) /\
    forall q, q <> p1 -> q <> p2 -> fst res q = m q) /\
  (snd reference = IllFormed -> forall q, fst res q = m q).

(** Functions on the first and on the second of two states. *)
Definition on_first {S T X Y : Type} (f : S -> X -> S * Y) (s : S * T) (x : X) : (S * T) * Y := ((fst (f (fst s) x), snd s), snd (f (fst s) x)).
Definition on_second {S T X Y : Type} (f : T -> X -> T * Y) (s : S * T) (x : X) : (S * T) * Y := ((fst s, fst (f (snd s) x)), snd (f (snd s) x)).
Definition two_arguments {S X Y Z : Type} (f : S -> X * Y -> Z) (s : S) (x : X) (y : Y) : Z := f s (x, y).

Definition is_lvalue (c : cat) : Prop := c = Lv \/ c = CLv.
(** An argument as an lvalue of the same constness. *)
Definition as_lvalue (c : cat) : cat := match c with Lv | Rv => Lv | CLv | CRv => CLv end.

(** What initialising another object with an rvalue gives: the state of the new object and what is left behind. *)
Inductive transferred {St A R : Type} (k : class St A R) (s : St) : cat -> St -> St -> Prop :=
| by_move : forall f s' l, c_move k = Moves f -> f s = (s', l) -> transferred k s Rv s' l
| by_copy_instead : forall f, c_move k = NoMoveDeclared -> c_copy k = Some f -> transferred k s Rv (f s) s
| by_copy : forall f, c_copy k = Some f -> transferred k s CRv (f s) s.

(** How a functor argument is held by an algorithm's function object: as what it is called, with which state it starts, and what
    the caller's object is afterwards if the functor that was called has the state [x]. *)
Inductive held {St A R : Type} (k : class St A R) (s : St) (c : cat) : cat -> St -> (St -> St) -> Prop :=
| held_reference : is_lvalue c -> held k s c c s (fun x => x)
| held_object : forall s' l, transferred k s c s' l -> held k s c CLv s' (fun _ => l).

(** The outcome is the one of the reference run, the caller's objects are as described by [after], all others unchanged. *)
Definition works_with {St X : Type} (n : nat) (after : St -> St) (m : memory St) (res : memory St * outcome X) (reference : St * outcome X) : Prop :=
  snd res = snd reference /\
  (snd reference <> IllFormed -> fst res (Caller n) = after (fst reference) /\ forall k, k <> n -> fst res (Caller k) = m (Caller k)) /\
  (snd reference = IllFormed -> forall q, fst res q = m q).
Definition works_with_both {St X : Type} (n1 n2 : nat) (after1 after2 : St -> St) (m : memory St) (res : memory St * outcome X)
    (reference : (St * St) * outcome X) : Prop :=
  snd res = snd reference /\
  (snd reference <> IllFormed -> fst res (Caller n1) = after1 (fst (fst reference)) /\ fst res (Caller n2) = after2 (snd (fst reference)) /\
     forall k, k <> n1 -> k <> n2 -> fst res (Caller k) = m (Caller k)) /\
  (snd reference = IllFormed -> forall q, fst res q = m q).
