(** Properties of constvals: C44 - C46. *)

From Coq Require Import ZArith Arith Bool Lia List.
From Verif Require Import Base ExpandModel ExpandSpec ExpandProofs ConstvalModel ConstvalSpec ConstvalProofs.
Import ListNotations.

(** * C44 *)
(** Normalization preserves the value, for values nested to any depth. *)
Theorem C44_value : forall call C v, eval call C = Ok v -> has_tag v = false ->
  exists c, make_constval call C = Ok c /\ eval call c = Ok v /\ is_constval c = true.
Proof.
  intros call C v E T.
  assert (G : exists c, make_constval call C = Ok c /\ eval call c = Ok v).
  { unfold make_constval. destruct (is_known C); [exists C; auto|]. rewrite E. cbn [bind].
    destruct (norm_value call v C v E (sf_plain _ _ v T)) as [c [H1 [H2 _]]]. exists c. auto. }
  destruct G as [c [H1 H2]]. exists c. split; [assumption|]. split; [assumption|].
  eapply normal_constval; [eapply make_is_normal; eassumption|eassumption].
Qed.
Print Assumptions C44_value.

(** Values that are constvals (for type sequences see below) or tuples of constvals: normalization yields a constval of the values they stand for; a constval
    itself is returned unaltered. *)
Theorem C44_nested_constvals : forall call C v w, is_known C = false -> eval call C = Ok v ->
  stands_for (value_is call) tagged v w ->
  exists c, make_constval call C = Ok c /\ eval call c = Ok w /\ is_constval c = true /\ forall c', v = VConst c' -> is_tag c' = true -> c = c'.
Proof.
  intros call C v w K E S. destruct (norm_value call v C w E S) as [c [H1 [H2 _]]].
  assert (M : make_constval call C = Ok c) by (unfold make_constval; rewrite K, E; exact H1).
  exists c. split; [assumption|]. split; [assumption|]. split.
  - eapply normal_constval; [eapply make_is_normal; eassumption|eassumption].
  - intros c' -> T. cbn in H1. rewrite T in H1. injection H1 as <-. reflexivity.
Qed.
Print Assumptions C44_nested_constvals.

(** Normalizing again changes nothing. *)
Theorem C44_idempotent : forall call C c, make_constval call C = Ok c -> make_constval call c = Ok c.
Proof. intros call C c H. apply make_normal. eapply make_is_normal. exact H. Qed.
Print Assumptions C44_idempotent.

(** Type sequences are constvals: the value of a type sequence is the type sequence itself, whichever way it is made. *)
Theorem C44_type_sequence : forall call ts,
  eval call (CSeq ts) = Ok (VConst (CSeq ts)) /\ is_constval (CSeq ts) = true /\
  (forall C, is_known C = false -> eval call C = Ok (VConst (CSeq ts)) -> make_constval call C = Ok (CSeq ts)) /\
  constval_extract call (VConst (CSeq ts)) = Ok (VConst (CSeq ts)) /\
  (forall i t, nth_error ts i = Some t -> get_constval call i (CSeq ts) = Ok (CTypeId t)) /\
  (forall i, length ts <= i -> get_constval call i (CSeq ts) = IllFormed).
Proof.
  intros call ts. split; [reflexivity|]. split; [reflexivity|]. split; [|split; [reflexivity|split]].
  - intros C K E. unfold make_constval. rewrite K, E. reflexivity.
  - intros i t H. cbn. rewrite H. reflexivity.
  - intros i H. cbn. apply nth_error_None in H. rewrite H. reflexivity.
Qed.
Print Assumptions C44_type_sequence.

(** But unlike other constvals they cannot be elements of tuple constants: a tuple with type sequences has no constval. *)
Theorem C44_tuple_of_type_sequences_rejected : forall call C vs ts, is_known C = false -> eval call C = Ok (VTuple vs) -> In (VConst (CSeq ts)) vs ->
  forall c, make_constval call C <> Ok c.
Proof.
  intros call C vs ts K E I c H. unfold make_constval in H. rewrite K, E in H. cbn [bind] in H. rewrite norm_tuple in H.
  apply bind_ok_inv in H. destruct H as [cs [H Hc]]. destruct (forallb has_value_type cs) eqn:A; [|discriminate]. clear Hc E.
  revert H. generalize 0. revert cs A. induction vs as [|x vs IH]; intros cs A n H; [destruct I|]. cbn [tuple_elements] in H.
  apply bind_ok_inv in H. destruct H as [c' [H1 H]]. apply bind_ok_inv in H. destruct H as [cs' [H2 H]]. injection H as <-.
  cbn [forallb] in A. apply andb_true_iff in A. destruct A as [A1 A2]. destruct I as [->|I]; [|eapply IH; eassumption].
  injection H1 as <-. discriminate.
Qed.
Print Assumptions C44_tuple_of_type_sequences_rejected.
Theorem C44_tuple_of_type_sequences_refuted : exists (call : nat -> list value -> outcome value) C v, eval call C = Ok (VTuple [v]) /\
  (exists c, v = VConst c /\ is_constval c = true) /\ make_constval call C = IllFormed.
Proof.
  exists (fun _ _ => Ok (VTuple [VConst (CSeq [0; 1])])), (CFun 0), (VConst (CSeq [0; 1])). split; [reflexivity|]. split; [|reflexivity].
  eexists. split; reflexivity.
Qed.
Print Assumptions C44_tuple_of_type_sequences_refuted.

(** The representation is the documented one: integral constants, array constants, tuple constants, and so on. *)
Theorem C44_representation : forall call C v c, is_known C = false -> eval call C = Ok v -> has_tag v = false ->
  make_constval call C = Ok c -> represents v c.
Proof.
  intros call C v c K E T H. unfold make_constval in H. rewrite K, E in H. cbn [bind] in H. eapply norm_represents; eassumption.
Qed.
Print Assumptions C44_representation.

(** The constval of a constexpr object given by reference. *)
Theorem C44_reference : forall call v, has_tag v = false ->
  exists c, constant_ref call v = Ok c /\ eval call c = Ok v /\ represents v c /\ make_constval call c = Ok c.
Proof.
  intros call v T. destruct (norm_value call v (CRef v) v eq_refl (sf_plain _ _ v T)) as [c [H1 [H2 _]]]. exists c. split; [exact H1|]. split; [assumption|].
  split; [eapply (norm_represents call v (CRef v)); [reflexivity|assumption|assumption]|]. apply make_normal. eapply norm_normal. exact H1.
Qed.
Print Assumptions C44_reference.

(** get<I>() of a tuple-like constval is a constval of the I-th element. *)
Theorem C44_get : forall call c v i x, is_known c = true -> eval call c = Ok v ->
  (match c with CConstval _ | CRef _ | CInt _ _ => False | _ => True end) ->
  get_value i v = Ok x -> has_tag x = false ->
  exists e, get_constval call i c = Ok e /\ eval call e = Ok x /\ is_constval e = true.
Proof.
  intros call c v i x K E N G T. destruct c as [k z|t|ts|b l|cs|F|F|v0| | | | | | ]; try discriminate; try contradiction.
  - cbn in E. injection E as <-. cbn in G. destruct (nth_error l i) as [y|] eqn:Ny; [|discriminate]. injection G as ->.
    assert (L : i < length l) by (apply nth_error_Some; congruence). cbn [get_constval]. rewrite (proj2 (Nat.ltb_lt _ _) L).
    apply C44_value; [|assumption]. cbn. rewrite Ny. reflexivity.
  - assert (E' := E). rewrite eval_tup in E. destruct (forallb has_value_type cs); [|discriminate]. apply bind_ok_inv in E. destruct E as [vs [E Ev]]. injection Ev as <-.
    cbn in G. destruct (nth_error vs i) as [y|] eqn:Ny; [|discriminate]. injection G as ->.
    assert (L : length cs = length vs).
    { apply mapM_inv in E. clear - E. induction E; cbn; congruence. }
    assert (L' : i < length cs) by (rewrite L; apply nth_error_Some; congruence). cbn [get_constval]. rewrite (proj2 (Nat.ltb_lt _ _) L').
    apply C44_value; [|assumption].
    assert (Q : eval call (CTupleAcc i (CTup cs)) = do v <- eval call (CTup cs); get_value i v) by reflexivity.
    rewrite Q, E'. cbn. rewrite Ny. reflexivity.
  - cbn [get_constval]. apply C44_value; [|assumption]. cbn [eval]. cbn [eval] in E. rewrite E. exact G.
Qed.
Print Assumptions C44_get.

(** Functors 0 .. : constant expressions of the examples. *)
Definition call_ex (f : nat) (args : list value) : outcome value :=
  match f, args with
  | 0, [] => Ok (VTuple [VNttp 0 42; VArray false [VTuple [VOther 1 3; VNttp 0 1]; VTuple [VOther 1 4; VNttp 0 2]]; VTuple []])
  | 1, [] => Ok (VTuple [VConst (CArr true [VNttp 0 1]); VLike 5 [VNttp 0 7; VOther 1 8]])
  | 2, [VNttp k a; VNttp k' b] => Ok (VNttp 0 (a + b))
  | 3, [VConst (CInt k z)] => Ok (VOther 1 z)
  | 3, [VNttp k z] => Ok (VOther 1 z)
  | 4, [] => Ok (VNttp 0 5)
  | 5, [VNttp k z] => Ok (VNttp k z)
  | 5, [VNttp k z; _] => Ok (VNttp k z)
  | 5, [VConst _; _] => Ok (VNttp 0 (-1))
  | _, _ => IllFormed
  end.
Example C44_nested : exists c, make_constval call_ex (CFun 0) = Ok c /\ eval call_ex c = eval call_ex (CFun 0) /\
  (exists t, c = CTup [CInt 0 42; CArr false [VTuple [VOther 1 3; VNttp 0 1]; VTuple [VOther 1 4; VNttp 0 2]]; t]) /\
  get_constval call_ex 0 c = Ok (CInt 0 42).
Proof. eexists. split; [vm_compute; reflexivity|]. split; [vm_compute; reflexivity|]. split; [eexists; reflexivity|vm_compute; reflexivity]. Qed.
Example C44_of_constvals : make_constval call_ex (CFun 1) = Ok (CTup [CArr true [VNttp 0 1]; CLike (CTupleAcc 1 (CFun 1))]) /\
  stands_for (value_is call_ex) tagged (VTuple [VConst (CArr true [VNttp 0 1]); VLike 5 [VNttp 0 7; VOther 1 8]])
    (VTuple [VArray true [VNttp 0 1]; VLike 5 [VNttp 0 7; VOther 1 8]]) /\
  get_constval call_ex 1 (CLike (CTupleAcc 1 (CFun 1))) = Ok (CConstval (CTupleAcc 1 (CLike (CTupleAcc 1 (CFun 1))))).
Proof.
  split; [vm_compute; reflexivity|]. split; [|vm_compute; reflexivity].
  constructor. constructor; [apply sf_constval; [split|]; reflexivity|]. constructor; [apply sf_plain; reflexivity|constructor].
Qed.

(** * C45 *)
(** With constvals only, constval_transform() gives a constval of the function's result (or of what it stands for, if it is made
    of constvals). *)
Theorem C45_transform_constvals : forall call ebo f cs vs v w, mapM (eval call) cs = Ok vs -> call f vs = Ok v ->
  stands_for (value_is call) tagged v w ->
  exists c, constval_transform call ebo f (map VConst cs) = Ok (VConst c) /\ is_constval c = true /\ eval call c = Ok w.
Proof.
  intros call ebo f cs vs v w E1 E2 S. unfold constval_transform. rewrite transportable_consts, mapM_functor. cbn [bind].
  destruct (C44_nested_constvals call (CTransform f cs) v w eq_refl) as [c [H1 [H2 [H3 _]]]].
  - rewrite eval_transform, E1. exact E2.
  - assumption.
  - exists c. rewrite H1. auto.
Qed.
Print Assumptions C45_transform_constvals.
(** If the result is a type sequence, that type sequence. *)
Theorem C45_transform_type_sequence : forall call ebo f cs vs ts, mapM (eval call) cs = Ok vs -> call f vs = Ok (VConst (CSeq ts)) ->
  constval_transform call ebo f (map VConst cs) = Ok (VConst (CSeq ts)).
Proof.
  intros call ebo f cs vs ts E1 E2. unfold constval_transform. rewrite transportable_consts, mapM_functor. cbn [bind].
  unfold make_constval. cbn [is_known]. rewrite eval_transform, E1. cbn [bind]. rewrite E2. reflexivity.
Qed.
Print Assumptions C45_transform_type_sequence.

(** The values of arguments: constvals count as their values.  Other arguments must not be without state here,
    see C45_transform_functors_refuted. *)
Inductive argument (call : nat -> list value -> outcome value) (ebo : bool) : value -> value -> Prop :=
| arg_constval : forall c v, is_constval c = true -> eval call c = Ok v -> argument call ebo (VConst c) v
| arg_value : forall v, ~ stateless ebo v -> argument call ebo v v.

Theorem C45_transform_values : forall call ebo f args vs, Forall2 (argument call ebo) args vs ->
  (exists a, In a args /\ ~ stateless ebo a) -> constval_transform call ebo f args = call f vs.
Proof.
  intros call ebo f args vs F [a [Ha Ta]]. unfold constval_transform. rewrite (transportable_not_all ebo args a Ha Ta).
  replace (mapM (get_hvalue call) args) with (Ok vs); [reflexivity|]. symmetry. apply mapM_inv. clear - F.
  induction F as [|x v args vs A F IH]; constructor; [|assumption]. destruct A as [c v K E|v T].
  + cbn. rewrite K. assumption.
  + destruct v; try reflexivity. destruct (T (sl_object _ _)).
Qed.
Print Assumptions C45_transform_values.

(** With constvals only (or other objects without state), constval_extend() gives a constval of the function's result. *)
Theorem C45_extend_constvals : forall call ebo f args v w, Forall (stateless ebo) args ->
  call f args = Ok v -> stands_for (value_is call) tagged v w ->
  exists c, constval_extend call ebo f args = Ok (VConst c) /\ is_constval c = true /\ eval call c = Ok w.
Proof.
  intros call ebo f args v w A E S. unfold constval_extend. rewrite (proj2 (transportable_all ebo args) A).
  destruct (C44_nested_constvals call (CExtend f args) v w eq_refl E S) as [c [H1 [H2 [H3 _]]]].
  exists c. rewrite H1. auto.
Qed.
Print Assumptions C45_extend_constvals.

(** With at least one run-time value it gives the result itself. *)
Theorem C45_extend_values : forall call ebo f args a, In a args -> ~ stateless ebo a -> constval_extend call ebo f args = call f args.
Proof.
  intros call ebo f args a Ha Ta. unfold constval_extend. rewrite (transportable_not_all ebo args a Ha Ta). reflexivity.
Qed.
Print Assumptions C45_extend_values.

(** constval_extract() returns the value of a constval and passes on other values. *)
Theorem C45_extract : forall call ebo a v, argument call ebo a v -> constval_extract call a = Ok v.
Proof.
  intros call ebo a v [c v' K E|v' T].
  - cbn. rewrite K. assumption.
  - destruct v'; try reflexivity. destruct (T (sl_object _ _)).
Qed.
Print Assumptions C45_extract.

(** Hence, for plain results, extracting commutes with lifting. *)
Theorem C45_commutes : forall call ebo f args vs v, Forall2 (argument call ebo) args vs -> call f vs = Ok v -> has_tag v = false -> ~ stateless ebo v ->
  exists r, constval_transform call ebo f args = Ok r /\ constval_extract call r = Ok v.
Proof.
  intros call ebo f args vs v F E T Tv. destruct (forallb (transportable ebo) args) eqn:A.
  - assert (G : exists cs, args = map VConst cs /\ mapM (eval call) cs = Ok vs).
    { rewrite transportable_all in A. clear - F A. induction F as [|x w args vs X F IH]; [exists []; split; reflexivity|].
      inversion A as [|? ? A1 A2]; subst. destruct (IH A2) as [cs [-> G]].
      destruct X as [c w K E|w Tw]; [|destruct (Tw A1)]. exists (c :: cs). split; [reflexivity|]. cbn [mapM]. rewrite E. cbn [bind]. rewrite G. reflexivity. }
    destruct G as [cs [-> G]]. destruct (C45_transform_constvals call ebo f cs vs v v G E (sf_plain _ _ v T)) as [c [H1 [H2 H3]]].
    exists (VConst c). split; [assumption|]. apply (C45_extract call ebo). apply arg_constval; assumption.
  - exists v. split.
    + rewrite (C45_transform_values call ebo f args vs F); [assumption|]. clear - A. induction args as [|x args IH]; [discriminate|].
      cbn [forallb] in A. destruct (transportable ebo x) eqn:Tx.
      * destruct (IH A) as [a [H1 H2]]. exists a. split; [right; assumption|assumption].
      * exists x. split; [left; reflexivity|]. rewrite <- transportable_iff. congruence.
    + apply (C45_extract call ebo). apply arg_value. assumption.
Qed.
Print Assumptions C45_commutes.

(** A functor that is not a constval, e.g. a lambda, is called if all arguments are without state, and passed on as it is otherwise:
    the same function sees different arguments. *)
Theorem C45_transform_functors_refuted : exists call f g c v, forall ebo,
  (exists r, constval_transform call ebo f [VConst (CFun g); VConst c] = Ok (VConst r) /\ eval call r = Ok (VNttp 0 5)) /\
  is_constval c = true /\ eval call c = Ok v /\ ~ stateless ebo v /\
  constval_transform call ebo f [VConst (CFun g); v] = Ok (VNttp 0 (-1)).
Proof.
  exists call_ex, 5, 4, (CInt 0 9), (VNttp 0 9). intro ebo. split; [exists (CInt 0 5); split; reflexivity|].
  split; [reflexivity|]. split; [reflexivity|]. split; [intro H; inversion H|reflexivity].
Qed.
Print Assumptions C45_transform_functors_refuted.

(** Classes derived from std::integral_constant<>, such as std::is_void<int>, are not recognised as constvals: constval_extract()
    passes them on. *)
Theorem C45_extract_derived_refuted : exists call c k z, eval call c = Ok (VNttp k z) /\
  constval_extract call (VConst c) <> Ok (VNttp k z).
Proof. exists call_ex, (CForeign 0 1), 0, 1%Z. split; [reflexivity|discriminate]. Qed.
Print Assumptions C45_extract_derived_refuted.

Example C45_plus : forall ebo, constval_transform call_ex ebo 2 [VConst (CInt 0 42); VConst (CInt 0 3)] = Ok (VConst (CInt 0 45)) /\
  constval_transform call_ex ebo 2 [VConst (CInt 0 42); VNttp 0 3] = Ok (VNttp 0 45) /\
  Forall2 (argument call_ex ebo) [VConst (CInt 0 42); VNttp 0 3] [VNttp 0 42; VNttp 0 3] /\ ~ stateless ebo (VNttp 0 45).
Proof.
  intro ebo. split; [vm_compute; reflexivity|]. split; [vm_compute; reflexivity|]. split; [|intro H; inversion H].
  constructor; [apply arg_constval; reflexivity|]. constructor; [apply arg_value; intro H; inversion H|constructor].
Qed.
Example C45_extend : forall ebo, exists c, constval_extend call_ex ebo 3 [VConst (CInt 0 42)] = Ok (VConst c) /\ eval call_ex c = Ok (VOther 1 42) /\
  constval_extend call_ex ebo 3 [VNttp 0 42] = Ok (VOther 1 42).
Proof. intro ebo. eexists. split; [vm_compute; reflexivity|]. split; vm_compute; reflexivity. Qed.

(** * C46 *)
(** For all sizes that fit in std::ptrdiff_t (as all object sizes do) and in the container's size type. *)
Theorem C46_sizes : forall call l t, (Z.of_nat (length l) <= 2 ^ 63 - 1)%Z -> (1 <= ity_bits t <= 64)%Z -> in_ity t (Z.of_nat (length l)) = true ->
  let n := Z.of_nat (length l) in
  csize call (SStatic l) = Ok (SizeConst size_ty n) /\ cssize call (SStatic l) = Ok (SizeConst ptrdiff_ty n) /\
  csize call (SDynamic t l) = Ok (SizeValue t n) /\ cssize call (SDynamic t l) = Ok (SizeValue ptrdiff_ty n).
Proof.
  intros call l t Hn Ht It n.
  assert (J : in_ity ptrdiff_ty n = true) by (apply in_ity_iff; unfold int_value, n; cbn [ity_bits ity_signed ptrdiff_ty]; lia).
  split; [reflexivity|]. split; [unfold cssize; cbn [static_size bind]; fold n; rewrite J; reflexivity|].
  unfold csize, cssize, dynamic_size. cbn [static_size]. fold n. rewrite (cast_id t n) by (try assumption; lia). split; [reflexivity|].
  cbv beta iota zeta delta [bind]; rewrite (common_ptrdiff t Ht). rewrite cast_id; [reflexivity|cbn; lia|assumption].
Qed.
Print Assumptions C46_sizes.

(** The size of an array, tuple or tuple-like constval is that of its value. *)
Theorem C46_constvals : forall call c v l, eval call c = Ok v -> (v = VArray true l \/ v = VArray false l \/ v = VTuple l \/ exists k, v = VLike k l) ->
  (match c with CArr _ _ | CTup _ | CLike _ => True | _ => False end) -> (Z.of_nat (length l) <= 2 ^ 63 - 1)%Z ->
  csize call (SConstval c) = Ok (SizeConst size_ty (Z.of_nat (length l))) /\ cssize call (SConstval c) = Ok (SizeConst ptrdiff_ty (Z.of_nat (length l))).
Proof.
  intros call c v l E V Hc Hn.
  assert (J : in_ity ptrdiff_ty (Z.of_nat (length l)) = true) by (apply in_ity_iff; unfold int_value; cbn [ity_bits ity_signed ptrdiff_ty]; lia).
  assert (G : static_size call (SConstval c) = Some (Ok (Z.of_nat (length l)))).
  { destruct c as [k z|t|ts|b l0|cs|F|F|v0| | | | | | ]; try contradiction; unfold static_size.
    - cbn in E. injection E as <-. assert (l0 = l) by (destruct V as [V|[V|[V|[k V]]]]; congruence). subst. reflexivity.
    - rewrite eval_tup in E. destruct (forallb has_value_type cs); [|discriminate]. apply bind_ok_inv in E. destruct E as [vs [E Ev]]. injection Ev as <-.
      assert (vs = l) by (destruct V as [V|[V|[V|[k V]]]]; congruence). subst.
      assert (L : length cs = length l) by (apply mapM_inv in E; clear - E; induction E; cbn; congruence). rewrite L. reflexivity.
    - cbn [eval] in E. rewrite E. destruct V as [->|[->|[->|[k ->]]]]; reflexivity. }
  unfold csize, cssize. rewrite G. cbn [bind]. rewrite J. split; reflexivity.
Qed.
Print Assumptions C46_constvals.

(** The size of a type sequence is the number of its types, repeated ones included. *)
Theorem C46_type_sequence : forall call ts, (Z.of_nat (length ts) <= 2 ^ 63 - 1)%Z ->
  csize call (SConstval (CSeq ts)) = Ok (SizeConst size_ty (Z.of_nat (length ts))) /\
  cssize call (SConstval (CSeq ts)) = Ok (SizeConst ptrdiff_ty (Z.of_nat (length ts))).
Proof.
  intros call ts Hn. split; [reflexivity|]. unfold cssize. cbn [static_size bind].
  assert (J : in_ity ptrdiff_ty (Z.of_nat (length ts)) = true) by (apply in_ity_iff; unfold int_value; cbn [ity_bits ity_signed ptrdiff_ty]; lia).
  rewrite J. reflexivity.
Qed.
Print Assumptions C46_type_sequence.

Example C46_vector : let l := repeat (VNttp 0 1) 5 in cssize call_ex (SDynamic (mk_ity 8 false) l) = Ok (SizeValue ptrdiff_ty 5) /\
  csize call_ex (SDynamic size_ty l) = Ok (SizeValue size_ty 5) /\ cssize call_ex (SStatic l) = Ok (SizeConst ptrdiff_ty 5) /\
  csize call_ex (SConstval (CLike (CTupleAcc 1 (CFun 1)))) = Ok (SizeConst size_ty 2).
Proof. vm_compute. repeat split. Qed.
