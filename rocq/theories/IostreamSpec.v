(** What is said about to_stream<> and from_stream<>. *)

From Coq Require Import Arith Bool List.
From Verif Require Import Base ForwardModel OverRefModel IostreamModel.
Import ListNotations.

(** [n] is the one operator that is viable and better than all other viable ones. *)
Definition best (conv : nat -> nat -> bool) (ops : list op) (s : sclass) (a : arg_type) (n : nat) : Prop :=
  exists o, nth_error ops n = Some o /\ op_viable conv s a o = true /\
    forall m o', nth_error ops m = Some o' -> m <> n -> op_viable conv s a o' = true -> better_op conv s a o o' = true.

(** The stream as an argument: an lvalue that is not const, of the stream class or a derived class. *)
Definition stream_arg (s : sclass) : arg_type := (match s with BaseStream => 0 | DerivedStream => 1 end, Lv).

(** Operators that do not care about derived streams. *)
Definition for_base (o : op) : Prop := o_stream o = BaseStream.
(** Operators that take the argument by value or by const reference. *)
Definition reads_only (o : op) : Prop := o_form o = ByValue \/ o_form o = CLRef.

(** What an expression that may be valid gives when it is used as a constraint. *)
Definition as_query (r : option call) (q : query) : Prop :=
  match r with Some c => q = Valid c | None => q = Invalid end.

(** Which arguments an operator takes: those that its reference can be bound to, and those that can be converted unless the reference is
    to a non-const lvalue. *)
Definition takes_arg (conv : nat -> nat -> bool) (s : sclass) (a : arg_type) (o : op) : Prop :=
  (o_stream o = BaseStream \/ s = DerivedStream) /\
  ((o_type o = fst a /\
    match o_form o with ByValue | CLRef => True | LRef => snd a = Lv | RRef => snd a = Rv | CRRef => snd a = Rv \/ snd a = CRv end) \/
   (o_type o <> fst a /\ conv (fst a) (o_type o) = true /\ o_form o <> LRef)).
(** Which of two operators is preferred because of the stream, or because of the argument. *)
Definition prefers_stream (o o' : op) : Prop := o_stream o = DerivedStream /\ o_stream o' = BaseStream.
Definition prefers_arg (t : nat) (o o' : op) : Prop :=
  (o_type o = t /\ o_type o' <> t) \/
  (o_type o = o_type o' /\
   (((o_form o = RRef \/ o_form o = CRRef) /\ (o_form o' = LRef \/ o_form o' = CLRef)) \/
    (o_form o = LRef /\ o_form o' = CLRef) \/ (o_form o = RRef /\ o_form o' = CRRef))).
