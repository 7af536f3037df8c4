(** Properties of functors passed to algorithms over tuples, arrays and ranges: C90. *)

From Coq Require Import ZArith Arith Bool Lia List.
From Verif Require Import Base ForwardModel TupleModel TupleSpec TupleProofs ZipModel FunctorModel FunctorSpec FunctorProofs.
Import ListNotations.

(** Overload resolution selects the best call operator in the order of preference, and fails only if none can be called. *)
Theorem C90_resolution : forall (St A R : Type) (k : class St A R) c, declarable (c_ops k) ->
  (forall o, resolve c (c_ops k) = Some o <-> chosen k c o) /\
  (resolve c (c_ops k) = None <-> not_callable k c).
Proof.
  intros St A R k c D. split; [intro o; now apply resolve_chosen|]. split.
  - intros E o I P.
    (* there is a first preference that is declared *)
    assert (Z : exists o', chosen k c o').
    { assert (G : forall pre l, preference c = pre ++ l -> (forall o', In o' (c_ops k) -> ~ In (qualifiers o') pre) -> In (qualifiers o) l -> exists o', chosen k c o').
      { intros pre l. revert pre. induction l as [|q l IH]; intros pre Ep N Iq; [destruct Iq|].
        assert (Dec : (exists o', In o' (c_ops k) /\ qualifiers o' = q) \/ forall o', In o' (c_ops k) -> qualifiers o' <> q).
        { clear. induction (c_ops k) as [|x r IHr]; [right; intros o' []|].
          destruct (same_qualifiers x (mk_operator (fst q) (snd q) (fun s _ => (s, IllFormed)))) eqn:Q.
          - left. exists x. split; [now left|]. apply same_qualifiers_eq in Q. rewrite Q. now destruct q.
          - destruct IHr as [(o' & Io & Eo)|IHr]; [left; exists o'; split; [now right|assumption]|]. right. intros o' [<-|Io]; [|now apply IHr].
            intro X. assert (T : qualifiers x = qualifiers (mk_operator (St := St) (A := A) (R := R) (fst q) (snd q) (fun s _ => (s, IllFormed)))) by (rewrite X; now destruct q).
            apply same_qualifiers_eq in T. congruence. }
        destruct Dec as [(o' & Io & Eo)|Dec].
        - exists o'. split; [exact Io|]. exists pre, l. rewrite Eo. auto.
        - apply (IH (pre ++ [q])); [now rewrite <- app_assoc| |].
          + intros o' Io X. apply in_app_or in X. destruct X as [X|[X|[]]]; [now apply (N o' Io)|]. apply (Dec o' Io). now symmetry.
          + destruct Iq as [Iq|Iq]; [|exact Iq]. destruct (Dec o I). now symmetry. }
      apply (G [] (preference c)); auto. }
    destruct Z as [o' Z]. apply resolve_chosen in Z; [|exact D]. congruence.
  - intro N. destruct (resolve c (c_ops k)) as [o|] eqn:E; [|reflexivity]. apply resolve_chosen in E; [|exact D].
    destruct E as (I & be & af & P & _). destruct (N o I). rewrite P. apply in_or_app. right. now left.
Qed.
Print Assumptions C90_resolution.

(** A class with const and non-const operators with ref-qualifiers: operators 0 .. 2. *)
Definition ex_op (c : bool) (r : refq) (n : nat) : operator nat unit nat := mk_operator c r (fun s _ => (s, Ok n)).
Definition ex_qualified : class nat unit nat := mk_class [ex_op true Amp 0; ex_op false AmpAmp 1; ex_op false Amp 2] None MoveDeleted.
Example C90_resolution_example :
  declarable (c_ops ex_qualified) /\
  map (fun c => snd (call_as ex_qualified c 0 tt)) [Lv; CLv; Rv; CRv] = [Ok 2; Ok 0; Ok 1; Ok 0].
Proof.
  split; [|reflexivity]. split; [cbn; repeat constructor; cbn; intuition discriminate|]. right. cbn. intuition (subst; discriminate).
Qed.

(** * Functors used in place *)
(** template_for(), tuple_transform() and array_transform<T>() call the caller's functor object, whether passed as lvalue or as
    rvalue, as an lvalue of the constness of the argument. *)
Theorem C90_tuples_partial : forall (V St R : Type) (f : farg St (list (element V)) R) o, declarable (c_ops (f_class f)) ->
  chosen (f_class f) (as_lvalue (f_cat f)) o ->
  forall N order args (m : memory St), let s := m (Caller (f_obj f)) in
  works_on (Caller (f_obj f)) m (FunctorModel.template_for N f args m) (TupleModel.template_for N (q_body o) args s) /\
  works_on (Caller (f_obj f)) m (FunctorModel.tuple_transform order N f args m) (TupleModel.tuple_transform order N (q_body o) args s) /\
  works_on (Caller (f_obj f)) m (FunctorModel.array_transform_to N f args m) (TupleModel.array_transform N (q_body o) args s).
Proof.
  intros V St R f o D C N order args m s. rewrite <- named_as_lvalue in C. apply resolve_chosen in C; [|exact D].
  pose proof (call_one _ _ (f_class f) _ (Caller (f_obj f)) o m C) as F.
  assert (H0 : one m (Caller (f_obj f)) m s) by (split; auto).
  split; [|split]; apply works_on_sim;
    [apply template_for_sim | apply tuple_transform_sim | apply array_transform_sim]; assumption.
Qed.
Print Assumptions C90_tuples_partial.

(** array_transform() with deduced element type: the same, if the functor can be called with the value category of the argument as
    well. *)
Theorem C90_array_transform_partial : forall (V St R : Type) (f : farg St (list (element V)) R), declarable (c_ops (f_class f)) ->
  forall N args (m : memory St),
  (forall o o', chosen (f_class f) (as_lvalue (f_cat f)) o -> chosen (f_class f) (f_cat f) o' ->
     works_on (Caller (f_obj f)) m (FunctorModel.array_transform N f args m) (TupleModel.array_transform N (q_body o) args (m (Caller (f_obj f))))) /\
  (not_callable (f_class f) (f_cat f) -> FunctorModel.array_transform N f args m = (m, IllFormed)).
Proof.
  intros V St R f D N args m. split.
  - intros o o' C C'. destruct (C90_tuples_partial V St R f o D C N [] args m) as (_ & _ & W).
    apply resolve_chosen in C'; [|exact D]. unfold FunctorModel.array_transform, callable. rewrite C'. exact W.
  - intro H. apply (C90_resolution _ _ _ (f_class f) (f_cat f) D) in H. unfold FunctorModel.array_transform, callable. rewrite H. reflexivity.
Qed.
Print Assumptions C90_array_transform_partial.

(** The algorithms over ranges, likewise. *)
Theorem C90_ranges_partial : forall (St : Type) (f : farg St (list ref) unit) o, declarable (c_ops (f_class f)) ->
  chosen (f_class f) (as_lvalue (f_cat f)) o ->
  forall rs (m : memory St),
  works_on (Caller (f_obj f)) m (FunctorModel.range_for f rs m) (ZipModel.range_for (q_body o) rs (m (Caller (f_obj f)))).
Proof.
  intros St f o D C rs m. rewrite <- named_as_lvalue in C. apply resolve_chosen in C; [|exact D].
  unfold FunctorModel.range_for, if_callable, param_callable, callable. rewrite C. apply works_on_sim, range_for_sim; [|split; auto].
  apply call_one. exact C.
Qed.
Print Assumptions C90_ranges_partial.
Theorem C90_range_predicates_partial : forall (St : Type) (f : farg St (list ref) bool) o, declarable (c_ops (f_class f)) ->
  chosen (f_class f) (as_lvalue (f_cat f)) o ->
  forall rs (m : memory St), let s := m (Caller (f_obj f)) in
  works_on (Caller (f_obj f)) m (FunctorModel.range_count_if f rs m) (ZipModel.range_count_if (q_body o) rs s) /\
  works_on (Caller (f_obj f)) m (FunctorModel.range_all_of f rs m) (ZipModel.range_all_of (q_body o) rs s) /\
  works_on (Caller (f_obj f)) m (FunctorModel.range_any_of f rs m) (ZipModel.range_any_of (q_body o) rs s) /\
  works_on (Caller (f_obj f)) m (FunctorModel.range_none_of f rs m) (ZipModel.range_none_of (q_body o) rs s).
Proof.
  intros St f o D C rs m s. rewrite <- named_as_lvalue in C. apply resolve_chosen in C; [|exact D].
  unfold FunctorModel.range_count_if, FunctorModel.range_all_of, FunctorModel.range_any_of, FunctorModel.range_none_of, if_callable, param_callable, callable. rewrite C.
  pose proof (call_one _ _ (f_class f) _ (Caller (f_obj f)) o m C) as F.
  assert (H0 : one m (Caller (f_obj f)) m s) by (split; auto).
  split; [|split; [|split]]; apply works_on_sim; [now apply range_count_if_sim | | | ].
  - exact (early_sim _ _ _ (fun b => if negb b then Ok (Some false) else Ok None) (fun r => match r with Some b => Ok b | None => Ok true end) rs m s F H0).
  - exact (early_sim _ _ _ (fun b => if b then Ok (Some true) else Ok None) (fun r => match r with Some b => Ok b | None => Ok false end) rs m s F H0).
  - exact (early_sim _ _ _ (fun b => if b then Ok (Some false) else Ok None) (fun r => match r with Some b => Ok b | None => Ok true end) rs m s F H0).
Qed.
Print Assumptions C90_range_predicates_partial.
(** Reductions with two functor objects, and with the same object passed as reducer and transformer. *)
Theorem C90_range_reductions_partial : forall (St A B : Type) (init : A) (reduce : farg St (A * B) A) (transform : farg St (list ref) B) ro to,
  declarable (c_ops (f_class reduce)) -> declarable (c_ops (f_class transform)) ->
  chosen (f_class reduce) (as_lvalue (f_cat reduce)) ro -> chosen (f_class transform) (as_lvalue (f_cat transform)) to ->
  forall rs (m : memory St), let s := m (Caller (f_obj reduce)) in let t := m (Caller (f_obj transform)) in
  (f_obj reduce <> f_obj transform ->
     works_on_both (Caller (f_obj reduce)) (Caller (f_obj transform)) m (FunctorModel.range_transform_reduce init reduce transform rs m)
       (ZipModel.range_transform_reduce init (two_arguments (on_first (q_body ro))) (on_second (q_body to)) rs (s, t))) /\
  (f_obj reduce = f_obj transform ->
     works_on (Caller (f_obj reduce)) m (FunctorModel.range_transform_reduce init reduce transform rs m)
       (ZipModel.range_transform_reduce init (two_arguments (q_body ro)) (q_body to) rs s)).
Proof.
  intros St A B init reduce transform ro to DR DT CR CT rs m s t. rewrite <- named_as_lvalue in CR, CT.
  apply resolve_chosen in CR; [|exact DR]. apply resolve_chosen in CT; [|exact DT].
  unfold FunctorModel.range_transform_reduce, if_callable, param_callable, callable. rewrite CR, CT. cbn [andb]. split.
  - intro Ne. apply works_on_both_sim, range_transform_reduce_sim; [| |repeat split; auto].
    + intros s1 s2 a b H. apply (call_first _ _ (f_class reduce) _ _ _ ro m); [congruence|exact CR|exact H].
    + apply (call_second _ _ (f_class transform) _ _ _ to m); [congruence|exact CT].
  - intro E. apply works_on_sim, range_transform_reduce_sim; [| |split; auto].
    + intros s1 s2 a b H. apply (call_one _ _ (f_class reduce) _ _ ro m CR). exact H.
    + unfold call_param. rewrite <- E. apply call_one. exact CT.
Qed.
Print Assumptions C90_range_reductions_partial.
Theorem C90_range_reduce_partial : forall (St A : Type) (init : A) (reduce : farg St (A * ref) A) o, declarable (c_ops (f_class reduce)) ->
  chosen (f_class reduce) (as_lvalue (f_cat reduce)) o ->
  forall r (m : memory St),
  works_on (Caller (f_obj reduce)) m (FunctorModel.range_reduce init reduce r m) (ZipModel.range_reduce init (two_arguments (q_body o)) r (m (Caller (f_obj reduce)))).
Proof.
  intros St A init reduce o D C r m. rewrite <- named_as_lvalue in C. apply resolve_chosen in C; [|exact D].
  unfold FunctorModel.range_reduce, if_callable, param_callable, callable. rewrite C. apply works_on_sim, range_reduce_sim; [|split; auto].
  intros s1 s2 a b H. apply (call_one _ _ (f_class reduce) _ _ o m C). exact H.
Qed.
Print Assumptions C90_range_reduce_partial.
(** range_generate() calls the caller's object, but always as const. *)
Theorem C90_generate_partial : forall (St A : Type) (f : farg St unit A) o, declarable (c_ops (f_class f)) -> chosen (f_class f) CLv o ->
  forall elems (m : memory St) s' elems' r,
  ZipModel.range_generate (fun s => q_body o s tt) elems (m (Caller (f_obj f))) = (s', elems', r) ->
  exists m', FunctorModel.range_generate f elems m = (m', elems', r) /\ m' (Caller (f_obj f)) = s' /\ forall q, q <> Caller (f_obj f) -> m' q = m q.
Proof.
  intros St A f o D C elems m s' elems' r E. apply resolve_chosen in C; [|exact D]. unfold FunctorModel.range_generate, callable. rewrite C.
  pose proof (range_generate_sim (one m (Caller (f_obj f))) A (fun m => call_at (f_class f) CLv (Caller (f_obj f)) m tt) (fun s => q_body o s tt) elems m (m (Caller (f_obj f)))) as H.
  rewrite E in H. destruct (ZipModel.range_generate _ elems m) as [[m' e'] r']. destruct H as ([H1 H2] & -> & ->).
  - intros s1 s2 H. now apply (call_one _ _ (f_class f) CLv (Caller (f_obj f)) o m C).
  - split; auto.
  - exists m'. auto.
Qed.
Print Assumptions C90_generate_partial.

(** * Functors held by an algorithm's function object *)
(** Predicates and reducers over tuples, passed as lvalues: the caller's objects are used in place. *)
Theorem C90_predicates_partial : forall (V St : Type) (f : farg St (list (element V)) bool) o, declarable (c_ops (f_class f)) ->
  is_lvalue (f_cat f) -> chosen (f_class f) (f_cat f) o ->
  forall args (m : memory St), let s := m (Caller (f_obj f)) in
  works_on (Caller (f_obj f)) m (FunctorModel.template_all_of f args m) (TupleModel.template_all_of (q_body o) args s) /\
  works_on (Caller (f_obj f)) m (FunctorModel.template_any_of f args m) (TupleModel.template_any_of (q_body o) args s) /\
  works_on (Caller (f_obj f)) m (FunctorModel.template_none_of f args m) (TupleModel.template_none_of (q_body o) args s).
Proof.
  intros V St f o D Lc C args m s. apply resolve_chosen in C; [|exact D].
  assert (E : initialise f TransformMember m = Ok m) by (unfold initialise; destruct Lc as [->| ->]; reflexivity).
  assert (F : simf (one m (Caller (f_obj f))) (call_member f TransformMember) (q_body o)).
  { unfold call_member. destruct Lc as [Ec|Ec]; rewrite Ec in *; now apply call_one. }
  assert (H0 : one m (Caller (f_obj f)) m s) by (split; auto).
  unfold FunctorModel.template_all_of, FunctorModel.template_any_of, FunctorModel.template_none_of, with_member. rewrite E.
  assert (Cj : forall neg, sim (one m (Caller (f_obj f))) (conjunction neg (call_member f TransformMember) args m) (conjunction neg (q_body o) args s)) by (intro neg; now apply conjunction_sim).
  split; [|split]; apply works_on_sim; [apply Cj | | apply Cj].
  unfold TupleModel.template_any_of. pose proof (Cj true) as [H1 H2]. destruct (conjunction true (call_member f TransformMember) args m), (conjunction true (q_body o) args s).
  cbn [fst snd] in *. subst. split; [exact H1|reflexivity].
Qed.
Print Assumptions C90_predicates_partial.
Theorem C90_reductions_partial : forall (V St A B : Type) (init : A) (reduce : farg St (A * B) A) (transform : farg St (list (element V)) B) ro to,
  declarable (c_ops (f_class reduce)) -> declarable (c_ops (f_class transform)) ->
  is_lvalue (f_cat reduce) -> is_lvalue (f_cat transform) -> chosen (f_class reduce) (f_cat reduce) ro -> chosen (f_class transform) (f_cat transform) to ->
  forall args (m : memory St), let s := m (Caller (f_obj reduce)) in let t := m (Caller (f_obj transform)) in
  (f_obj reduce <> f_obj transform ->
     works_on_both (Caller (f_obj reduce)) (Caller (f_obj transform)) m (FunctorModel.template_transform_reduce init reduce transform args m)
       (TupleModel.template_transform_reduce init (two_arguments (on_first (q_body ro))) (on_second (q_body to)) args (s, t))) /\
  (f_obj reduce = f_obj transform ->
     works_on (Caller (f_obj reduce)) m (FunctorModel.template_transform_reduce init reduce transform args m)
       (TupleModel.template_transform_reduce init (two_arguments (q_body ro)) (q_body to) args s)).
Proof.
  intros V St A B init reduce transform ro to DR DT LR LT CR CT args m s t.
  apply resolve_chosen in CR; [|exact DR]. apply resolve_chosen in CT; [|exact DT].
  assert (E1 : initialise reduce ReduceMember m = Ok m) by (unfold initialise; destruct LR as [->| ->]; reflexivity).
  assert (E2 : initialise transform TransformMember m = Ok m) by (unfold initialise; destruct LT as [->| ->]; reflexivity).
  assert (M1 : call_member reduce ReduceMember = call_at (f_class reduce) (f_cat reduce) (Caller (f_obj reduce))) by (unfold call_member; destruct LR as [->| ->]; reflexivity).
  assert (M2 : call_member transform TransformMember = call_at (f_class transform) (f_cat transform) (Caller (f_obj transform))) by (unfold call_member; destruct LT as [->| ->]; reflexivity).
  unfold FunctorModel.template_transform_reduce. rewrite E1. cbn [bind]. rewrite E2, M1, M2. split.
  - intro Ne. apply works_on_both_sim, reduce_sim; [| |repeat split; auto].
    + intros s1 s2 a b H. apply (call_first _ _ (f_class reduce) _ _ _ ro m); [congruence|exact CR|exact H].
    + apply (call_second _ _ (f_class transform) _ _ _ to m); [congruence|exact CT].
  - intro E. apply works_on_sim, reduce_sim; [| |split; auto].
    + intros s1 s2 a b H. apply (call_one _ _ (f_class reduce) _ _ ro m CR). exact H.
    + rewrite <- E. apply call_one. exact CT.
Qed.
Print Assumptions C90_reductions_partial.
Theorem C90_reduce_partial : forall (V St A : Type) (init : A) (reduce : farg St (A * element V) A) o, declarable (c_ops (f_class reduce)) ->
  is_lvalue (f_cat reduce) -> chosen (f_class reduce) (f_cat reduce) o ->
  forall a (m : memory St),
  works_on (Caller (f_obj reduce)) m (FunctorModel.template_reduce init reduce a m) (TupleModel.template_reduce init (two_arguments (q_body o)) a (m (Caller (f_obj reduce)))).
Proof.
  intros V St A init reduce o D Lc C a m. apply resolve_chosen in C; [|exact D].
  assert (E : initialise reduce ReduceMember m = Ok m) by (unfold initialise; destruct Lc as [->| ->]; reflexivity).
  unfold FunctorModel.template_reduce. rewrite E. apply works_on_sim. unfold TupleModel.template_reduce. apply reduce_sim; [| |split; auto].
  - intros s1 s2 x y H. unfold uncurry, call_member. destruct Lc as [Ec|Ec]; rewrite Ec in *; now apply (call_one _ _ (f_class reduce) _ _ o m C).
  - intros s1 s2 x H. split; [exact H|reflexivity].
Qed.
Print Assumptions C90_reduce_partial.

(** The same for lvalues and rvalues: rvalues are moved (or copied) and called as const, and the caller's object has the state left
    behind by the move, whatever the calls do. *)
Theorem C90_held_predicates_partial : forall (V St : Type) (f : farg St (list (element V)) bool) o cc s' after args (m : memory St), declarable (c_ops (f_class f)) ->
  held (f_class f) (m (Caller (f_obj f))) (f_cat f) cc s' after -> chosen (f_class f) cc o ->
  works_with (f_obj f) after m (FunctorModel.template_all_of f args m) (TupleModel.template_all_of (q_body o) args s') /\
  works_with (f_obj f) after m (FunctorModel.template_any_of f args m) (TupleModel.template_any_of (q_body o) args s') /\
  works_with (f_obj f) after m (FunctorModel.template_none_of f args m) (TupleModel.template_none_of (q_body o) args s').
Proof.
  intros V St f o cc s' after args m D T C. apply resolve_chosen in C; [|exact D].
  destruct (initialise_held _ _ _ f TransformMember m cc s' after ltac:(discriminate) T) as (m1 & p' & EI & EC & H1 & Fr & Pl).
  assert (F : simf (one m1 p') (call_member f TransformMember) (q_body o)) by (rewrite EC; now apply call_one).
  assert (H0 : one m1 p' m1 s') by (split; auto).
  assert (Cj : forall neg, sim (one m1 p') (conjunction neg (call_member f TransformMember) args m1) (conjunction neg (q_body o) args s')) by (intro neg; now apply conjunction_sim).
  unfold FunctorModel.template_all_of, FunctorModel.template_any_of, FunctorModel.template_none_of, with_member. rewrite EI.
  split; [|split]; (eapply works_with_sim; [| exact Fr | exact Pl |]; [discriminate|]); [apply Cj| |apply Cj].
  unfold TupleModel.template_any_of. pose proof (Cj true) as [G1 G2]. destruct (conjunction true (call_member f TransformMember) args m1), (conjunction true (q_body o) args s').
  cbn [fst snd] in *. subst. split; [exact G1|reflexivity].
Qed.
Print Assumptions C90_held_predicates_partial.
Theorem C90_held_reduce_partial : forall (V St A : Type) (init : A) (reduce : farg St (A * element V) A) o cc s' after a (m : memory St), declarable (c_ops (f_class reduce)) ->
  held (f_class reduce) (m (Caller (f_obj reduce))) (f_cat reduce) cc s' after -> chosen (f_class reduce) cc o ->
  works_with (f_obj reduce) after m (FunctorModel.template_reduce init reduce a m) (TupleModel.template_reduce init (two_arguments (q_body o)) a s').
Proof.
  intros V St A init reduce o cc s' after a m D T C. apply resolve_chosen in C; [|exact D].
  destruct (initialise_held _ _ _ reduce ReduceMember m cc s' after ltac:(discriminate) T) as (m1 & p' & EI & EC & H1 & Fr & Pl).
  unfold FunctorModel.template_reduce. rewrite EI. eapply works_with_sim; [| exact Fr | exact Pl |]; [discriminate|].
  unfold TupleModel.template_reduce. apply reduce_sim; [| |split; auto].
  - intros s1 s2 x y H. unfold uncurry. rewrite EC. now apply (call_one _ _ (f_class reduce) _ _ o m1 C).
  - intros s1 s2 x H. split; [exact H|reflexivity].
Qed.
Print Assumptions C90_held_reduce_partial.
Theorem C90_held_reductions_partial : forall (V St A B : Type) (init : A) (reduce : farg St (A * B) A) (transform : farg St (list (element V)) B) ro to cr ct s t ar at_ args (m : memory St),
  declarable (c_ops (f_class reduce)) -> declarable (c_ops (f_class transform)) -> f_obj reduce <> f_obj transform ->
  held (f_class reduce) (m (Caller (f_obj reduce))) (f_cat reduce) cr s ar -> chosen (f_class reduce) cr ro ->
  held (f_class transform) (m (Caller (f_obj transform))) (f_cat transform) ct t at_ -> chosen (f_class transform) ct to ->
  works_with_both (f_obj reduce) (f_obj transform) ar at_ m (FunctorModel.template_transform_reduce init reduce transform args m)
    (TupleModel.template_transform_reduce init (two_arguments (on_first (q_body ro))) (on_second (q_body to)) args (s, t)).
Proof.
  intros V St A B init reduce transform ro to cr ct s t ar at_ args m DR DT Ne HR CR HT CT.
  apply resolve_chosen in CR; [|exact DR]. apply resolve_chosen in CT; [|exact DT].
  destruct (initialise_held _ _ _ reduce ReduceMember m cr s ar ltac:(discriminate) HR) as (m1 & p1 & EI1 & EC1 & S1 & F1 & P1).
  assert (Eq : m1 (Caller (f_obj transform)) = m (Caller (f_obj transform))) by (apply F1; congruence).
  rewrite <- Eq in HT.
  destruct (initialise_held _ _ _ transform TransformMember m1 ct t at_ ltac:(discriminate) HT) as (m2 & p2 & EI2 & EC2 & S2 & F2 & P2).
  assert (Q1 : p1 = Caller (f_obj reduce) \/ p1 = ReduceMember) by tauto.
  assert (Q2 : p2 = Caller (f_obj transform) \/ p2 = TransformMember) by tauto.
  assert (Np : p1 <> p2) by (destruct Q1 as [-> | ->], Q2 as [-> | ->]; congruence).
  assert (T1 : m2 p1 = s). { rewrite F2; [exact S1| |]; destruct Q1 as [-> | ->]; congruence. }
  unfold FunctorModel.template_transform_reduce. rewrite EI1. cbn [bind]. rewrite EI2, EC1, EC2.
  assert (Sm : sim (two m2 p1 p2)
     (TupleModel.template_transform_reduce init (uncurry (call_at (f_class reduce) cr p1)) (call_at (f_class transform) ct p2) args m2)
     (TupleModel.template_transform_reduce init (two_arguments (on_first (q_body ro))) (on_second (q_body to)) args (s, t))).
  { apply reduce_sim; [| |repeat split; auto].
    - intros s1 s2 a b H. now apply (call_first _ _ (f_class reduce) _ _ _ ro m2).
    - now apply call_second. }
  destruct (TupleModel.template_transform_reduce init _ (call_at _ _ _) args m2) as [m3 o1].
  destruct (TupleModel.template_transform_reduce init (two_arguments _) _ args (s, t)) as [[s3 t3] o2].
  destruct Sm as [(X1 & X2 & X3) X4]. cbn [fst snd] in *. subst o1.
  assert (K : m3 (Caller (f_obj reduce)) = ar s3 /\ m3 (Caller (f_obj transform)) = at_ t3 /\
              forall k, k <> f_obj reduce -> k <> f_obj transform -> m3 (Caller k) = m (Caller k)).
  { split; [|split].
    - destruct P1 as [[-> Ea]|[-> Ea]]; rewrite Ea; [exact X1|]. rewrite X3; [|congruence|destruct Q2 as [-> | ->]; congruence]. apply F2; congruence.
    - destruct P2 as [[-> Ea]|[-> Ea]]; rewrite Ea; [exact X2|]. rewrite X3; [reflexivity|destruct Q1 as [-> | ->]; congruence|congruence].
    - intros k K1 K2. rewrite X3; [|destruct Q1 as [-> | ->]; congruence|destruct Q2 as [-> | ->]; congruence]. rewrite F2 by congruence. apply F1; congruence. }
  unfold works_with_both, compiled. cbn [fst snd]. destruct o2; cbn [fst snd]; (split; [reflexivity|]); split; intros N; try congruence; auto.
Qed.
Print Assumptions C90_held_reductions_partial.

(** * Rejected calls *)
Lemma not_callable_call : forall (St A R : Type) (k : class St A R) c, declarable (c_ops k) -> not_callable k c ->
  callable k c = false /\ forall p (m : memory St) a, snd (call_at k c p m a) = IllFormed.
Proof.
  intros St A R k c D H. apply (C90_resolution _ _ _ k c D) in H. unfold callable, call_at, call_as. rewrite H. auto.
Qed.

(** A functor that cannot be called as such an lvalue is rejected by the algorithms over ranges, and by those over tuples unless the
    tuples are empty. *)
Theorem C90_rejected : forall (V St R : Type) (f : farg St (list (element V)) R) n args (m : memory St) i order, declarable (c_ops (f_class f)) ->
  not_callable (f_class f) (as_lvalue (f_cat f)) -> common_size args (S n) ->
  FunctorModel.template_for (-1) f args m = (m, IllFormed) /\
  FunctorModel.tuple_transform (i :: order) (-1) f args m = (m, IllFormed) /\
  FunctorModel.array_transform_to (-1) f args m = (m, IllFormed) /\ FunctorModel.array_transform (-1) f args m = (m, IllFormed).
Proof.
  intros V St R f n args m i order D H Z. rewrite <- named_as_lvalue in H. destruct (not_callable_call _ _ _ _ _ D H) as [Cf Ca].
  assert (W : TupleProofs.within args (S n)) by (intros l Hl; rewrite (proj2 Z l Hl); auto).
  destruct (TupleProofs.rows_within args (S n) W) as [rows Hr].
  assert (T : forall j m, snd (transform_element j (call_param f) args m) = IllFormed).
  { intros j m0. unfold transform_element. destruct (get_elements j args); try reflexivity. apply Ca. }
  assert (A3 : FunctorModel.array_transform_to (-1) f args m = (m, IllFormed)).
  { unfold FunctorModel.array_transform_to, TupleModel.array_transform. rewrite (TupleProofs.size_common args (S n) Z), (TupleProofs.well_formed_rows args (S n) rows Hr).
    cbn [seq init_list]. specialize (T 0 m). destruct (transform_element 0 (call_param f) args m) as [m' o']. cbn [snd] in T. subst o'. reflexivity. }
  split; [|split; [|split]].
  - unfold FunctorModel.template_for, TupleModel.template_for. rewrite (TupleProofs.size_common args (S n) Z), (TupleProofs.well_formed_rows args (S n) rows Hr).
    cbn [seq swallow]. specialize (T 0 m). destruct (transform_element 0 (call_param f) args m) as [m' o']. cbn [snd] in T. subst o'. reflexivity.
  - unfold FunctorModel.tuple_transform, TupleModel.tuple_transform. rewrite (TupleProofs.size_common args (S n) Z), (TupleProofs.well_formed_rows args (S n) rows Hr).
    cbn [evaluate_in]. specialize (T i m). destruct (transform_element i (call_param f) args m) as [m' o']. cbn [snd] in T. subst o'. reflexivity.
  - exact A3.
  - unfold FunctorModel.array_transform. destruct (callable (f_class f) (f_cat f)); [exact A3|reflexivity].
Qed.
Print Assumptions C90_rejected.
Theorem C90_ranges_rejected : forall (St A B : Type) (f : farg St (list ref) unit) (p : farg St (list ref) bool) (init : A)
    (reduce : farg St (A * ref) A) (reduce2 : farg St (A * B) A) (transform : farg St (list ref) B) (g : farg St unit A) rs r elems (m : memory St),
  declarable (c_ops (f_class f)) -> declarable (c_ops (f_class p)) -> declarable (c_ops (f_class reduce)) ->
  declarable (c_ops (f_class reduce2)) -> declarable (c_ops (f_class transform)) -> declarable (c_ops (f_class g)) ->
  (not_callable (f_class f) (as_lvalue (f_cat f)) -> FunctorModel.range_for f rs m = (m, IllFormed)) /\
  (not_callable (f_class p) (as_lvalue (f_cat p)) -> FunctorModel.range_count_if p rs m = (m, IllFormed) /\ FunctorModel.range_all_of p rs m = (m, IllFormed) /\
     FunctorModel.range_any_of p rs m = (m, IllFormed) /\ FunctorModel.range_none_of p rs m = (m, IllFormed)) /\
  (not_callable (f_class reduce) (as_lvalue (f_cat reduce)) -> FunctorModel.range_reduce init reduce r m = (m, IllFormed)) /\
  (not_callable (f_class reduce2) (as_lvalue (f_cat reduce2)) \/ not_callable (f_class transform) (as_lvalue (f_cat transform)) ->
     FunctorModel.range_transform_reduce init reduce2 transform rs m = (m, IllFormed)) /\
  (not_callable (f_class g) CLv -> FunctorModel.range_generate g elems m = (m, elems, IllFormed)).
Proof.
  intros St A B f p init reduce reduce2 transform g rs r elems m D1 D2 D3 D4 D5 D6. rewrite <- !named_as_lvalue.
  unfold FunctorModel.range_for, FunctorModel.range_count_if, FunctorModel.range_all_of, FunctorModel.range_any_of, FunctorModel.range_none_of,
    FunctorModel.range_reduce, FunctorModel.range_transform_reduce, FunctorModel.range_generate, if_callable, param_callable.
  split; [|split; [|split; [|split]]].
  - intro H. now rewrite (proj1 (not_callable_call _ _ _ _ _ D1 H)).
  - intro H. now rewrite (proj1 (not_callable_call _ _ _ _ _ D2 H)).
  - intro H. now rewrite (proj1 (not_callable_call _ _ _ _ _ D3 H)).
  - intros [H|H]; [now rewrite (proj1 (not_callable_call _ _ _ _ _ D4 H))|]. rewrite (proj1 (not_callable_call _ _ _ _ _ D5 H)). now rewrite andb_false_r.
  - intro H. now rewrite (proj1 (not_callable_call _ _ _ _ _ D6 H)).
Qed.
Print Assumptions C90_ranges_rejected.
(** Predicates over tuples: rejected if they cannot be called as they are held (unless the tuples are empty), and if they cannot be
    transferred, even if the tuples are empty. *)
Theorem C90_predicates_rejected : forall (V St : Type) (f : farg St (list (element V)) bool) n args (m : memory St), declarable (c_ops (f_class f)) ->
  ((exists cc s' after, held (f_class f) (m (Caller (f_obj f))) (f_cat f) cc s' after /\ not_callable (f_class f) cc) /\ common_size args (S n) \/
   (forall cc s' after, ~ held (f_class f) (m (Caller (f_obj f))) (f_cat f) cc s' after)) ->
  FunctorModel.template_all_of f args m = (m, IllFormed) /\ FunctorModel.template_any_of f args m = (m, IllFormed) /\
  FunctorModel.template_none_of f args m = (m, IllFormed).
Proof.
  intros V St f n args m D [[(cc & s' & after & Hh & H) Z]|H].
  - destruct (not_callable_call _ _ _ _ _ D H) as [_ Ca].
    destruct (initialise_held _ _ _ f TransformMember m cc s' after ltac:(discriminate) Hh) as (m1 & p' & EI & EC & _).
    assert (W : TupleProofs.within args (S n)) by (intros l Hl; rewrite (proj2 Z l Hl); auto).
    destruct (TupleProofs.rows_within args (S n) W) as [rows Hr].
    assert (Cj : forall neg, snd (conjunction neg (call_member f TransformMember) args m1) = IllFormed).
    { intro neg. unfold conjunction. rewrite (TupleProofs.size_common args (S n) Z), (TupleProofs.well_formed_rows args (S n) rows Hr). cbn [conjunction_fn].
      assert (T : snd (transform_element 0 (call_member f TransformMember) args m1) = IllFormed).
      { rewrite EC. unfold transform_element. destruct (get_elements 0 args); try reflexivity. apply Ca. }
      destruct (transform_element 0 (call_member f TransformMember) args m1) as [m' o']. cbn [snd] in T. subst o'. reflexivity. }
    unfold FunctorModel.template_all_of, FunctorModel.template_any_of, FunctorModel.template_none_of, with_member. rewrite EI.
    unfold TupleModel.template_all_of, TupleModel.template_any_of, TupleModel.template_none_of.
    pose proof (Cj true) as Ct. pose proof (Cj false) as Cf.
    destruct (conjunction true _ args m1) as [mt ot], (conjunction false _ args m1) as [mf of]. cbn [snd] in Ct, Cf. subst. auto.
  - assert (E : initialise f TransformMember m = IllFormed).
    { unfold initialise. destruct (f_cat f) eqn:Ec.
      - destruct (H Lv (m (Caller (f_obj f))) (fun x => x)). constructor. now left.
      - destruct (H CLv (m (Caller (f_obj f))) (fun x => x)). constructor. now right.
      - destruct (c_move (f_class f)) as [g| |] eqn:Em; [| |reflexivity].
        + destruct (g (m (Caller (f_obj f)))) as [s' l] eqn:Eg. destruct (H CLv s' (fun _ => l)). constructor. now apply by_move with g.
        + destruct (c_copy (f_class f)) as [g|] eqn:Eg; [|reflexivity]. destruct (H CLv (g (m (Caller (f_obj f)))) (fun _ => m (Caller (f_obj f)))). constructor. now apply by_copy_instead.
      - destruct (c_copy (f_class f)) as [g|] eqn:Eg; [|reflexivity]. destruct (H CLv (g (m (Caller (f_obj f)))) (fun _ => m (Caller (f_obj f)))). constructor. now apply by_copy. }
    unfold FunctorModel.template_all_of, FunctorModel.template_any_of, FunctorModel.template_none_of, with_member. rewrite E. auto.
Qed.
Print Assumptions C90_predicates_rejected.

(** * Examples and refutations *)
(** [n](auto&&...) mutable { return ++n < 3; }, movable and copyable; the state moved from is 0. *)
Definition ex_mutable (A : Type) : class nat A bool :=
  mk_class [mk_operator false NoRef (fun s _ => (S s, Ok (S s <? 3)))] (Some (fun s => s)) (Moves (fun s => (s, 0))).
(** The same without copy and move constructors. *)
Definition ex_pinned (A : Type) : class nat A bool :=
  mk_class [mk_operator true NoRef (fun s _ => (s, Ok true))] None MoveDeleted.
(** Operators of both kinds: only the non-const one counts. *)
Definition ex_both (A : Type) : class nat A bool :=
  mk_class [mk_operator true NoRef (fun s _ => (s, Ok true)); mk_operator false NoRef (fun s _ => (S s, Ok (S s <? 3)))] (Some (fun s => s)) (Moves (fun s => (s, 0))).
Definition ex_memory : memory nat := fun _ => 0.
Definition ex_tuple : list (arg nat) := [ATuple [7; 8; 9; 6]].
Definition ex_range : list rng := [Build_rng MPair KDynamic 4].

Lemma ex_declarable : forall A, declarable (c_ops (ex_mutable A)) /\ declarable (c_ops (ex_pinned A)) /\ declarable (c_ops (ex_both A)).
Proof.
  intro A. repeat split; cbn; try (repeat constructor; cbn; intuition discriminate); left; cbn; intuition (subst; reflexivity).
Qed.

Example C90_in_place_example :
  let f := mk_farg (ex_mutable (list (element nat))) Rv 5 in let g := mk_farg (ex_mutable (list ref)) Rv 5 in
  chosen (f_class f) (as_lvalue Rv) (mk_operator false NoRef (fun s _ => (S s, Ok (S s <? 3)))) /\
  (let '(m, o) := FunctorModel.array_transform (-1) f ex_tuple ex_memory in (m (Caller 5), m (Caller 4), o)) = (4, 0, Ok [true; true; false; false]) /\
  (let '(m, o) := FunctorModel.range_all_of g ex_range ex_memory in (m (Caller 5), o)) = (3, Ok false) /\
  (let '(m, o) := FunctorModel.template_all_of (mk_farg (ex_mutable (list (element nat))) Lv 5) ex_tuple ex_memory in (m (Caller 5), o)) = (3, Ok false).
Proof.
  split; [|repeat split; vm_compute; reflexivity].
  split; [now left|]. exists [], [(false, Amp); (true, NoRef); (true, Amp)]. split; [reflexivity|]. intros o' _ [].
Qed.
Example C90_held_example :
  let f := mk_farg (ex_both (list (element nat))) Rv 5 in let m := store ex_memory (Caller 5) 2 in
  held (f_class f) (m (Caller 5)) (f_cat f) CLv 2 (fun _ => 0) /\
  (let '(m, o) := FunctorModel.template_all_of f ex_tuple m in (m (Caller 5), o)) = (0, Ok true).
Proof.
  split; [|vm_compute; reflexivity]. constructor. apply by_move with (fun s => (s, 0)); reflexivity.
Qed.
(** The sum of the calls so far: [n](int acc, ...) mutable { return acc + ++n; }; the transformer counts too. *)
Definition ex_sum (A : Type) : class nat (nat * A) nat :=
  mk_class [mk_operator false NoRef (fun s p => (S s, Ok (fst p + S s)))] None MoveDeleted.
Definition ex_count (A : Type) : class nat A nat := mk_class [mk_operator true NoRef (fun s _ => (s, Ok s))] (Some (fun s => s)) NoMoveDeclared.
Example C90_reductions_example :
  (let '(m, o) := FunctorModel.template_transform_reduce 0 (mk_farg (ex_sum nat) Lv 1) (mk_farg (ex_count (list (element nat))) Rv 2) ex_tuple ex_memory in
   (m (Caller 1), m (Caller 2), o)) = (4, 0, Ok 10) /\
  (let '(m, o) := FunctorModel.range_transform_reduce 0 (mk_farg (ex_sum nat) Rv 1) (mk_farg (ex_count (list ref)) CLv 2) ex_range ex_memory in
   (m (Caller 1), m (Caller 2), o)) = (4, 0, Ok 10) /\
  (let '(m, o) := FunctorModel.range_reduce 0 (mk_farg (ex_sum ref) Rv 1) (Build_rng MPair KDynamic 3) ex_memory in (m (Caller 1), o)) = (3, Ok 6) /\
  (let '(m, o) := FunctorModel.template_reduce 0 (mk_farg (ex_sum (element nat)) Lv 1) (ATuple [7; 8; 9]) ex_memory in (m (Caller 1), o)) = (3, Ok 6) /\
  snd (FunctorModel.template_reduce 0 (mk_farg (ex_sum (element nat)) Rv 1) (ATuple [7; 8; 9]) ex_memory) = IllFormed /\
  snd (FunctorModel.range_generate (mk_farg (ex_count unit) Rv 2) [3; 4; 5] ex_memory) = Ok tt.
Proof. repeat split; vm_compute; reflexivity. Qed.
Example C90_rejected_example :
  let c := mk_class [ex_op false AmpAmp 1] (Some (fun s : nat => s)) NoMoveDeclared in
  not_callable c (as_lvalue Rv) /\ not_callable (ex_mutable (list ref)) (as_lvalue CRv) /\
  snd (FunctorModel.range_all_of (mk_farg (ex_mutable (list ref)) CLv 0) [Build_rng MPair KDynamic 0] ex_memory) = IllFormed /\
  snd (FunctorModel.template_all_of (mk_farg (ex_mutable (list (element nat))) CLv 0) [ATuple []] ex_memory) = Ok true.
Proof.
  split; [intros o [<-|[]] H; vm_compute in H; intuition congruence|]. split; [intros o [<-|[]] H; vm_compute in H; intuition congruence|].
  split; vm_compute; reflexivity.
Qed.

(** A mutable functor accepted by template_for() as rvalue, and by template_all_of() as lvalue, is rejected by template_all_of() as
    rvalue. *)
Theorem C90_mutable_rvalue_refuted : exists (k : class nat (list (element nat)) bool) args m,
  declarable (c_ops k) /\ (exists o, chosen k (as_lvalue Rv) o) /\
  snd (FunctorModel.template_for (-1) (mk_farg k Rv 0) args m) = Ok tt /\ snd (FunctorModel.template_all_of (mk_farg k Lv 0) args m) = Ok false /\
  FunctorModel.template_all_of (mk_farg k Rv 0) args m = (m, IllFormed).
Proof.
  exists (ex_mutable _), ex_tuple, ex_memory. split; [apply ex_declarable|]. split; [|split; [|split]]; try (vm_compute; reflexivity).
  exists (mk_operator false NoRef (fun s _ => (S s, Ok (S s <? 3)))). split; [now left|].
  exists [], [(false, Amp); (true, NoRef); (true, Amp)]. split; [reflexivity|]. intros o' _ [].
Qed.
Print Assumptions C90_mutable_rvalue_refuted.
(** The const operator is called on a functor passed as rvalue that has both, contrary to the other algorithms. *)
Theorem C90_const_overload_refuted : exists (k : class nat (list (element nat)) bool) (k' : class nat (list ref) bool) args rs m,
  k = ex_both _ /\ k' = ex_both _ /\
  snd (FunctorModel.template_all_of (mk_farg k Lv 0) args m) = Ok false /\ snd (FunctorModel.range_all_of (mk_farg k' Rv 0) rs m) = Ok false /\
  snd (FunctorModel.template_all_of (mk_farg k Rv 0) args m) = Ok true.
Proof.
  exists (ex_both _), (ex_both _), ex_tuple, ex_range, ex_memory. repeat split; vm_compute; reflexivity.
Qed.
Print Assumptions C90_const_overload_refuted.
(** A functor that can be neither copied nor moved cannot be passed to template_all_of() as rvalue. *)
Theorem C90_not_movable_refuted : exists (k : class nat (list (element nat)) bool) args m,
  declarable (c_ops k) /\ (exists o, chosen k CLv o) /\
  snd (FunctorModel.template_for (-1) (mk_farg k Rv 0) args m) = Ok tt /\ snd (FunctorModel.template_all_of (mk_farg k Lv 0) args m) = Ok true /\
  FunctorModel.template_all_of (mk_farg k Rv 0) args m = (m, IllFormed).
Proof.
  exists (ex_pinned _), ex_tuple, ex_memory. split; [apply ex_declarable|]. split; [|split; [|split]]; try (vm_compute; reflexivity).
  exists (mk_operator true NoRef (fun s _ => (s, Ok true))). split; [now left|].
  exists [], [(true, Amp)]. split; [reflexivity|]. intros o' _ [].
Qed.
Print Assumptions C90_not_movable_refuted.
(** range_generate() rejects generators whose state changes from call to call, however they are passed. *)
Theorem C90_generate_refuted : exists (k : class nat unit nat), declarable (c_ops k) /\ (exists o, chosen k Lv o) /\
  forall c elems m, FunctorModel.range_generate (mk_farg k c 0) elems m = (m, elems, IllFormed).
Proof.
  exists (mk_class [mk_operator false NoRef (fun s _ => (S s, Ok s))] (Some (fun s => s)) NoMoveDeclared).
  split; [|split].
  - split; [cbn; repeat constructor; cbn; intuition discriminate|]. left. cbn. intuition (subst; reflexivity).
  - eexists. split; [now left|]. exists [], [(false, Amp); (true, NoRef); (true, Amp)]. split; [reflexivity|]. intros o' _ [].
  - reflexivity.
Qed.
Print Assumptions C90_generate_refuted.
(** array_transform() rejects a functor whose operator has the ref-qualifier & if it is passed as rvalue, while array_transform<T>()
    calls it as an lvalue. *)
Theorem C90_array_transform_refuted : exists (k : class nat (list (element nat)) nat) args m,
  declarable (c_ops k) /\ snd (FunctorModel.array_transform_to (-1) (mk_farg k Rv 0) args m) = Ok [0; 1; 2; 3] /\
  FunctorModel.array_transform (-1) (mk_farg k Rv 0) args m = (m, IllFormed).
Proof.
  exists (mk_class [mk_operator false Amp (fun s _ => (S s, Ok s))] (Some (fun s => s)) NoMoveDeclared), ex_tuple, ex_memory.
  split; [|split; vm_compute; reflexivity]. split; [cbn; repeat constructor; cbn; intuition discriminate|]. right. cbn. intuition (subst; discriminate).
Qed.
Print Assumptions C90_array_transform_refuted.
