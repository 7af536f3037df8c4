(** C105: function objects for streaming. *)

From Coq Require Import Arith Bool List.
From Verif Require Import Base ForwardModel OverRefModel IostreamModel IostreamSpec IostreamProofs.
Import ListNotations.

(** Full statement: to_stream<>{ }(stream, arg) is what "stream << arg" is, and from_stream<>{ }(stream, arg) is what "stream >> arg" is.

    What an expression calls: the one best operator. *)
Theorem C105_expression : forall conv ops s a,
  (forall n, (exists b, expression conv ops s a = Some (mk_call n b)) <-> best conv ops s a n) /\
  (expression conv ops s a = None <-> forall n, ~ best conv ops s a n) /\
  (forall n m, best conv ops s a n -> best conv ops s a m -> n = m).
Proof.
  intros conv ops s a. split; [|split].
  - intro n. apply expression_best.
  - apply expression_none.
  - intros n m. apply best_unique.
Qed.
Print Assumptions C105_expression.
(** The operator for the type is better than that for a type to which it can be converted; two conversions are ambiguous. *)
Example C105_expression_ex :
  expression (fun _ _ => true) [mk_op BaseStream 5 CLRef; mk_op BaseStream 7 ByValue] BaseStream (7, Rv) = Some (mk_call 1 false) /\
  expression (fun _ _ => true) [mk_op BaseStream 5 CLRef; mk_op BaseStream 6 ByValue] BaseStream (7, Rv) = None.
Proof. split; reflexivity. Qed.

(** Viable and better operators, for each argument separately. *)
Theorem C105_overloads : forall conv s a,
  (forall o, op_viable conv s a o = true <-> takes_arg conv s a o) /\
  (forall o o', takes_arg conv s a o -> takes_arg conv s a o' ->
    (better_op conv s a o o' = true <->
     (prefers_stream o o' \/ prefers_arg (fst a) o o') /\ ~ prefers_stream o' o /\ ~ prefers_arg (fst a) o' o)).
Proof.
  intros conv s a. split; [intro o; apply viable_takes|].
  intros o o' T T'. apply better_prefers; apply viable_takes; assumption.
Qed.
Print Assumptions C105_overloads.
Example C105_overloads_ex : takes_arg (fun _ _ => false) DerivedStream (5, Lv) (mk_op BaseStream 5 LRef).
Proof. split; [left; reflexivity|left; split; reflexivity]. Qed.
(** What the operator is given: the object itself iff it is passed by reference without conversion. *)
Theorem C105_same : forall conv ops s a c, expression conv ops s a = Some c ->
  exists o, nth_error ops (c_op c) = Some o /\ (c_same c = true <-> o_type o = fst a /\ o_form o <> ByValue).
Proof. intros conv ops s [t k] c E. apply (expression_same conv ops s t k c E). Qed.
Print Assumptions C105_same.
Example C105_same_ex : exists c, expression (fun _ _ => false) [mk_op BaseStream 5 LRef] DerivedStream (5, Lv) = Some c.
Proof. eexists. reflexivity. Qed.

(** to_stream<> writes to a std::ostream what a const lvalue argument is: the same operator, given the same object. *)
Theorem C105_to_stream_partial : forall conv ops s t c,
  as_query (expression conv ops BaseStream (t, CLv)) (call_to_stream conv ops TVoid (stream_arg s) (t, c)).
Proof.
  intros conv ops s t c. unfold as_query, call_to_stream, sfinae. cbn.
  destruct (expression conv ops BaseStream (t, CLv)); reflexivity.
Qed.
Print Assumptions C105_to_stream_partial.
Example C105_to_stream_partial_ex :
  call_to_stream (fun _ _ => false) [mk_op BaseStream 5 CLRef] TVoid (1, Lv) (5, Rv) = Valid (mk_call 0 true).
Proof. reflexivity. Qed.

(** Hence, for operators that take std::ostream& and the argument by value or const reference, and all arguments and streams, it does
    what the expression does, and is a valid call iff the expression is valid. *)
Theorem C105_to_stream_direct_partial : forall conv ops s a, Forall for_base ops -> Forall reads_only ops ->
  as_query (expression conv ops s a) (call_to_stream conv ops TVoid (stream_arg s) a).
Proof.
  intros conv ops s [t c] F R. rewrite (base_stream conv ops s _ F), (reads_cat conv ops BaseStream t c CLv R).
  apply C105_to_stream_partial.
Qed.
Print Assumptions C105_to_stream_direct_partial.
Example C105_to_stream_direct_partial_ex :
  let ops := [mk_op BaseStream 5 CLRef; mk_op BaseStream 6 ByValue] in Forall for_base ops /\ Forall reads_only ops.
Proof. cbn. split; [repeat constructor|]. constructor; [right; reflexivity|]. constructor; [left; reflexivity|constructor]. Qed.

(** Refuted: an operator for lvalues, for rvalues, or for a derived stream class is not called. *)
Theorem C105_to_stream_refuted : exists conv,
  (exists ops, expression conv ops BaseStream (5, Lv) = Some (mk_call 1 true) /\
     call_to_stream conv ops TVoid (stream_arg BaseStream) (5, Lv) = Valid (mk_call 0 true)) /\
  (exists ops, expression conv ops BaseStream (5, Rv) = Some (mk_call 1 true) /\
     call_to_stream conv ops TVoid (stream_arg BaseStream) (5, Rv) = Valid (mk_call 0 true)) /\
  (exists ops, expression conv ops DerivedStream (5, CLv) = Some (mk_call 1 true) /\
     call_to_stream conv ops TVoid (stream_arg DerivedStream) (5, CLv) = Valid (mk_call 0 true)) /\
  (exists ops, expression conv ops BaseStream (5, Lv) = Some (mk_call 0 true) /\
     call_to_stream conv ops TVoid (stream_arg BaseStream) (5, Lv) = Invalid).
Proof.
  exists (fun _ _ => false). split; [|split; [|split]].
  - exists [mk_op BaseStream 5 CLRef; mk_op BaseStream 5 LRef]. split; reflexivity.
  - exists [mk_op BaseStream 5 CLRef; mk_op BaseStream 5 RRef]. split; reflexivity.
  - exists [mk_op BaseStream 5 CLRef; mk_op DerivedStream 5 CLRef]. split; reflexivity.
  - exists [mk_op BaseStream 5 LRef]. split; reflexivity.
Qed.
Print Assumptions C105_to_stream_refuted.

(** from_stream<>: lvalues, of any constness, are read as in the expression; const rvalues as const lvalues; other rvalues are
    rejected whatever the operators are. *)
Theorem C105_from_stream_partial : forall conv ops s t,
  as_query (expression conv ops BaseStream (t, Lv)) (call_from_stream conv ops TVoid (stream_arg s) (t, Lv)) /\
  as_query (expression conv ops BaseStream (t, CLv)) (call_from_stream conv ops TVoid (stream_arg s) (t, CLv)) /\
  as_query (expression conv ops BaseStream (t, CLv)) (call_from_stream conv ops TVoid (stream_arg s) (t, CRv)) /\
  call_from_stream conv ops TVoid (stream_arg s) (t, Rv) = Invalid.
Proof.
  intros conv ops s t. unfold as_query, call_from_stream, sfinae. cbn.
  repeat split; destruct (expression conv ops BaseStream (t, _)); reflexivity.
Qed.
Print Assumptions C105_from_stream_partial.
Example C105_from_stream_partial_ex :
  call_from_stream (fun _ _ => false) [mk_op BaseStream 5 LRef] TVoid (0, Lv) (5, Lv) = Valid (mk_call 0 true) /\
  call_from_stream (fun _ _ => false) [mk_op BaseStream 5 LRef] TVoid (0, Lv) (5, CLv) = Invalid.
Proof. split; reflexivity. Qed.
(** For operators that take std::istream&, lvalues are read as in the expression from streams of any class. *)
Theorem C105_from_stream_direct_partial : forall conv ops s t c, Forall for_base ops -> c = Lv \/ c = CLv ->
  as_query (expression conv ops s (t, c)) (call_from_stream conv ops TVoid (stream_arg s) (t, c)).
Proof.
  intros conv ops s t c F [E|E]; rewrite E, (base_stream conv ops s _ F);
    destruct (C105_from_stream_partial conv ops s t) as [H1 [H2 _]]; assumption.
Qed.
Print Assumptions C105_from_stream_direct_partial.
Example C105_from_stream_direct_partial_ex : Forall for_base [mk_op BaseStream 5 LRef; mk_op BaseStream 6 RRef].
Proof. repeat constructor. Qed.
(** Refuted: manipulators such as as_enum(value), which are rvalues whose operator >> takes a const reference, can be read by
    "stream >> as_enum(value)" but not by from_stream<>{ }(stream, as_enum(value)). *)
Theorem C105_from_stream_refuted : exists conv ops,
  expression conv ops BaseStream (5, Rv) = Some (mk_call 0 true) /\
  call_from_stream conv ops TVoid (stream_arg BaseStream) (5, Rv) = Invalid.
Proof. exists (fun _ _ => false), [mk_op BaseStream 5 CLRef]. split; reflexivity. Qed.
Print Assumptions C105_from_stream_refuted.

(** to_stream<> and from_stream<> can be used in constraints; to_stream<T> and from_stream<T> cannot be if there is no operator. *)
Theorem C105_constraint : forall conv ops sa a,
  call_to_stream conv ops TVoid sa a <> HardError /\ call_from_stream conv ops TVoid sa a <> HardError.
Proof.
  intros conv ops sa [t c]. unfold call_to_stream, call_from_stream, sfinae. cbn.
  split; destruct (stream_param sa); try discriminate; destruct c; try discriminate;
    match goal with |- context [expression ?v ?o ?s ?x] => destruct (expression v o s x) end; discriminate.
Qed.
Print Assumptions C105_constraint.
Theorem C105_constraint_refuted : exists conv ops t sa a,
  expression conv ops BaseStream (t, CLv) = None /\
  call_to_stream conv ops (TPlain t) sa a = HardError /\ call_from_stream conv ops (TPlain t) sa a = HardError /\
  call_to_stream conv ops TVoid sa a = Invalid /\ call_from_stream conv ops TVoid sa a = Invalid.
Proof. exists (fun _ _ => false), [], 5, (0, Lv), (5, Lv). repeat split. Qed.
Print Assumptions C105_constraint_refuted.

(** to_stream<U>, and likewise for U const and U const&: the operator is that for a const lvalue of U, whatever the argument is; the
    argument must be a U, which is passed on, or convertible to it.  An error unless there is such an operator. *)
Theorem C105_to_stream_fixed : forall conv ops t u s a, t = TPlain u \/ t = TConst u \/ t = TCLref u ->
  match expression conv ops BaseStream (u, CLv) with
  | None => call_to_stream conv ops t (stream_arg s) a = HardError
  | Some c =>
      call_to_stream conv ops t (stream_arg s) a =
        if u =? fst a then Valid c else if conv (fst a) u then Valid (mk_call (c_op c) false) else Invalid
  end.
Proof.
  intros conv ops t u s [v k] T. unfold call_to_stream.
  assert (C : const_ref t = Some (u, true)) by (destruct T as [T|[T|T]]; rewrite T; reflexivity).
  rewrite C. unfold call_fixed. destruct (expression conv ops BaseStream (u, CLv)) as [c|]; [|reflexivity].
  unfold arg_ics. cbn. destruct (u =? v); [reflexivity|]. rewrite andb_true_r. destruct (conv v u); reflexivity.
Qed.
Print Assumptions C105_to_stream_fixed.
Example C105_to_stream_fixed_ex :
  call_to_stream (fun v u => (v =? 6) && (u =? 5)) [mk_op BaseStream 5 CLRef; mk_op BaseStream 6 CLRef] (TPlain 5) (0, Lv) (6, Rv) =
    Valid (mk_call 0 false).
Proof. reflexivity. Qed.
(** from_stream<U>, and likewise for U& and U&&: the operator is that for an lvalue of U, and the argument must be such an lvalue. *)
Theorem C105_from_stream_fixed : forall conv ops t u s a, t = TPlain u \/ t = TLref u \/ t = TRref u ->
  match expression conv ops BaseStream (u, Lv) with
  | None => call_from_stream conv ops t (stream_arg s) a = HardError
  | Some c =>
      (call_from_stream conv ops t (stream_arg s) a = Valid c <-> a = (u, Lv)) /\
      (call_from_stream conv ops t (stream_arg s) a = Invalid <-> a <> (u, Lv))
  end.
Proof.
  intros conv ops t u s [v k] T. unfold call_from_stream.
  assert (C : lvalue_ref t = Some (u, false)) by (destruct T as [T|[T|T]]; rewrite T; reflexivity).
  rewrite C. unfold call_fixed. destruct (expression conv ops BaseStream (u, Lv)) as [c|]; [|reflexivity].
  unfold arg_ics. cbn. destruct (Nat.eqb_spec u v) as [E|E].
  - subst v. destruct k; cbn; split; split; intro H; try reflexivity; try discriminate; try congruence; exfalso; apply H; reflexivity.
  - rewrite andb_false_r. split; split; intro H; try discriminate; try reflexivity; congruence.
Qed.
Print Assumptions C105_from_stream_fixed.
(** With references to non-const as template arguments of to_stream, and const types as those of from_stream, it is the other way round. *)
Theorem C105_fixed_forms : forall conv ops u sa a,
  call_to_stream conv ops (TLref u) sa a = call_from_stream conv ops (TPlain u) sa a /\
  call_to_stream conv ops (TRref u) sa a = call_from_stream conv ops (TPlain u) sa a /\
  call_from_stream conv ops (TConst u) sa a = call_to_stream conv ops (TPlain u) sa a /\
  call_from_stream conv ops (TCLref u) sa a = call_to_stream conv ops (TPlain u) sa a.
Proof. intros. repeat split. Qed.
Print Assumptions C105_fixed_forms.

(** Streams must be lvalues that are not const; the class of the stream makes no difference. *)
Theorem C105_stream : forall conv ops t n k a,
  (k <> Lv -> (forall c, call_to_stream conv ops t (n, k) a <> Valid c) /\ (forall c, call_from_stream conv ops t (n, k) a <> Valid c)) /\
  call_to_stream conv ops t (n, Lv) a = call_to_stream conv ops t (0, Lv) a /\
  call_from_stream conv ops t (n, Lv) a = call_from_stream conv ops t (0, Lv) a.
Proof.
  intros conv ops t n k a. split.
  - intro K. assert (S : stream_param (n, k) = None) by (destruct k; [congruence|reflexivity|reflexivity|reflexivity]).
    split; intros c; unfold call_to_stream, call_from_stream, call_fixed; rewrite S.
    + destruct (const_ref t) as [[u b]|]; [|discriminate]. destruct (expression conv ops BaseStream _); discriminate.
    + destruct (lvalue_ref t) as [[u b]|]; [|discriminate]. destruct (expression conv ops BaseStream _); discriminate.
  - split; destruct t; reflexivity.
Qed.
Print Assumptions C105_stream.
Example C105_stream_ex : CRv <> Lv.
Proof. discriminate. Qed.
