(** Property C70: concepts and traits. *)

From Coq Require Import Arith Bool List.
From Verif Require Import Base TraitsModel.
Import ListNotations.

Lemma same_ok : forall a b, same a b = true <-> a = b.
Proof.
  intros [t c r] [t' c' r']. unfold same. cbn. rewrite !andb_true_iff, Nat.eqb_eq, eqb_true_iff. split.
  - intros [[-> ->] R]. destruct r, r'; try discriminate; reflexivity.
  - intro E. injection E as -> -> ->. destruct r'; auto.
Qed.
Lemma is_some_same_ok : forall o t, is_some_same o t = true <-> o = Some t.
Proof.
  intros [u|] t; cbn; [rewrite same_ok|]; split; intro H; congruence.
Qed.

(** C70, full statement: each concept holds for exactly the types for which the trait of the same name does.

    A bitmask type is one whose seven operators, applied to const lvalues (and assigning to a non-const one), all exist and give
    the type itself or an lvalue reference to it. *)
Definition bitmask_operators (c : class) (k : bool) : Prop :=
  let t := plain (cls c) in
  (forall op, In op [op_not; op_or; op_and; op_xor] -> op c k = Some t) /\
  (forall op, In op [op_or_eq; op_and_eq; op_xor_eq] -> op c k = Some (lref t)).

Lemma bitmask_operators_ok : forall c k, bitmask_operators c k <->
  let t := plain (cls c) in
  is_some_same (op_not c k) t && is_some_same (op_or c k) t && is_some_same (op_and c k) t && is_some_same (op_xor c k) t &&
  is_some_same (op_or_eq c k) (lref t) && is_some_same (op_and_eq c k) (lref t) && is_some_same (op_xor_eq c k) (lref t) = true.
Proof.
  intros c k. cbn zeta. rewrite !andb_true_iff, !is_some_same_ok. unfold bitmask_operators. cbn [In]. split.
  - intros [H1 H2]. repeat split; first [apply H1 | apply H2]; auto 6.
  - intros H. decompose [and] H. split; intros op Hop; decompose [or] Hop; subst; try assumption; contradiction.
Qed.

Theorem C70_is_bitmask_partial : forall c, is_bitmask c = true <-> bitmask_operators c true.
Proof.
  intro c. rewrite bitmask_operators_ok. unfold is_bitmask, is_some_same. cbn zeta.
  destruct (op_not c true), (op_or c true), (op_and c true), (op_xor c true), (op_or_eq c true), (op_and_eq c true), (op_xor_eq c true);
    rewrite ?andb_false_r; cbn; try reflexivity; split; intro H; discriminate H.
Qed.
Print Assumptions C70_is_bitmask_partial.

(** The concept looks at non-const lvalues instead; it agrees with the trait unless an operator tells the two apart. *)
Theorem C70_bitmask_partial : forall c,
  (concept_bitmask c = true <-> bitmask_operators c false) /\
  ((forall op, In op [op_not; op_or; op_and; op_xor; op_or_eq; op_and_eq; op_xor_eq] -> op c true = op c false) ->
   concept_bitmask c = is_bitmask c).
Proof.
  intro c. assert (G : concept_bitmask c = true <-> bitmask_operators c false) by (rewrite bitmask_operators_ok; reflexivity).
  split; [exact G|]. intro H. apply eq_true_iff_eq. rewrite G, C70_is_bitmask_partial. unfold bitmask_operators.
  cbn [In] in *. split; intros [H1 H2]; split; intros op Hop; [rewrite H by tauto|rewrite H by tauto|rewrite <- H by tauto|rewrite <- H by tauto]; auto.
Qed.
Print Assumptions C70_bitmask_partial.

(** Otherwise they may differ, either way. *)
Definition only_mutable (k : bool) (o : cty) : option cty := if k then None else Some o.
Definition bits (f g : bool -> option cty) : class :=
  mk_class 7 f f f f g g g None None None None None (fun _ => false) false false.
Theorem C70_bitmask_refuted : exists c, concept_bitmask c = true /\ is_bitmask c = false.
Proof.
  exists (bits (fun k => only_mutable k (plain 7)) (fun _ => Some (lref (plain 7)))). split; reflexivity.
Qed.
Print Assumptions C70_bitmask_refuted.
Example C70_bitmask_example : is_bitmask (bits (fun _ => Some (plain 7)) (fun _ => Some (lref (plain 7)))) = true /\
  concept_bitmask (bits (fun _ => Some (plain 7)) (fun _ => Some (lref (plain 7)))) = true /\
  is_bitmask (bits (fun _ => Some (plain 3)) (fun _ => Some (lref (plain 7)))) = false /\
  is_bitmask (bits (fun _ => Some (plain 7)) (fun _ => None)) = false.
Proof. repeat split. Qed.

(** No type satisfies tuple_like: an lvalue is of reference type. *)
Theorem C70_tuple_like_never_partial : forall c, concept_tuple_like c = false.
Proof.
  intro c. unfold concept_tuple_like. destruct (tuple_size_value c) as [v|]; [|reflexivity].
  apply not_true_iff_false. rewrite same_ok. unfold decltype_expr, lref, plain. discriminate.
Qed.
Print Assumptions C70_tuple_like_never_partial.

(** The trait is_tuple_like only asks whether std::tuple_size<T>::value exists. *)
Theorem C70_is_tuple_like_partial : forall c, is_tuple_like c = true <-> exists v, tuple_size_value c = Some v.
Proof.
  intro c. unfold is_tuple_like, is_some. destruct (tuple_size_value c) as [v|]; split; intro H; try discriminate; eauto.
  destruct H; discriminate.
Qed.
Print Assumptions C70_is_tuple_like_partial.

(** The concept constval, exactly: value_type has to be an lvalue reference type. *)
Theorem C70_constval_concept_partial : forall c, concept_constval c = true <->
  exists vt vm, value_type c = Some vt /\ converts c vt = true /\ value_member c = Some vm /\
    vt = mk_cty (c_type vm) (c_const vm) LRef /\ call_lvalue c = Some vt.
Proof.
  intro c. unfold concept_constval, is_some_same. split.
  - destruct (value_type c) as [vt|]; [|discriminate]. rewrite !andb_true_iff. intros [[H1 H2] H3].
    destruct (value_member c) as [vm|]; [|discriminate]. destruct (call_lvalue c) as [cl|]; [|discriminate].
    apply same_ok in H2. apply same_ok in H3. subst cl. exists vt, vm. repeat split; auto.
  - intros [vt [vm [-> [-> [-> [E ->]]]]]]. rewrite (proj2 (same_ok (decltype_expr vm) vt)) by (symmetry; exact E).
    rewrite (proj2 (same_ok vt vt) eq_refl). reflexivity.
Qed.
Print Assumptions C70_constval_concept_partial.

(** No type with an object type as value_type satisfies the concept constval. *)
Theorem C70_constval_never_partial : forall c vt, value_type c = Some vt -> c_ref vt = NoRef -> concept_constval c = false.
Proof.
  intros c vt E N. unfold concept_constval. rewrite E. destruct (value_member c) as [v|]; [|rewrite andb_false_r; reflexivity].
  replace (same (decltype_expr v) vt) with false; [rewrite andb_false_r; reflexivity|].
  symmetry. apply not_true_iff_false. rewrite same_ok. intros <-. discriminate.
Qed.
Print Assumptions C70_constval_never_partial.

(** The trait is_constval holds for std::integral_constant<> and for the constvals of this library, and for no other class
    whose member value is const but whose value_type is not. *)
Theorem C70_is_constval_partial : forall c,
  (integral_constant c = true \/ tagged c = true -> is_constval c = true) /\
  (integral_constant c = false -> tagged c = false -> forall vt vm, value_type c = Some vt -> value_member c = Some vm -> c_const vm <> c_const vt ->
   is_constval c = false) /\
  (forall vt, value_type c = Some vt -> value_member c = Some vt -> call_rvalue c = Some vt -> converts c vt = true -> is_constval c = true).
Proof.
  intro c. unfold is_constval. split; [|split].
  - intros [-> | ->]; rewrite ?orb_true_r; reflexivity.
  - intros -> -> vt vm E1 E2 Ne. cbn. unfold is_constval_0. rewrite E1, E2. destruct (call_rvalue c) as [cr|]; [|reflexivity].
    unfold is_constval_1, decltype_name. replace (same vm vt) with false; [rewrite andb_false_r; reflexivity|].
    symmetry. apply not_true_iff_false. rewrite same_ok. intros ->. apply Ne. reflexivity.
  - intros vt E1 E2 E3 E4. unfold is_constval_0. rewrite E1, E2, E3. unfold is_constval_1, decltype_name. rewrite E4, (proj2 (same_ok vt vt) eq_refl).
    apply orb_true_r.
Qed.
Print Assumptions C70_is_constval_partial.

(** std::array<>-like: tuple_size is a const std::size_t; and a class derived from std::integral_constant<int, 3>. *)
Definition no_ops : bool -> option cty := fun _ => None.
Definition array_like : class := mk_class 5 no_ops no_ops no_ops no_ops no_ops no_ops no_ops (Some (mk_cty size_type true NoRef)) None None None None (fun _ => false) false false.
Definition constant_like (ic : bool) : class :=
  mk_class 6 no_ops no_ops no_ops no_ops no_ops no_ops no_ops None (Some (plain 1)) (Some (mk_cty 1 true NoRef)) (Some (plain 1)) (Some (plain 1)) (fun t => same t (plain 1)) false ic.
Theorem C70_tuple_like_refuted : exists c, is_tuple_like c = true /\ concept_tuple_like c = false.
Proof. exists array_like. split; [reflexivity|apply C70_tuple_like_never_partial]. Qed.
Print Assumptions C70_tuple_like_refuted.
Theorem C70_constval_refuted : exists c, is_constval c = true /\ concept_constval c = false.
Proof. exists (constant_like true). split; [reflexivity|]. apply (C70_constval_never_partial _ (plain 1)); reflexivity. Qed.
Print Assumptions C70_constval_refuted.
Example C70_examples : is_tuple_like array_like = true /\ concept_tuple_like array_like = false /\
  is_constval (constant_like true) = true /\ concept_constval (constant_like true) = false /\ is_constval (constant_like false) = false.
Proof. repeat split. Qed.

(** is_constval_of tells whether a constval has a value type that is convertible; it cannot be asked about constvals of this
    library without value_type. *)
Theorem C70_is_constval_of_partial : forall convertible c r,
  (is_constval c = false -> is_constval_of convertible c r = Ok false) /\
  (forall vt, is_constval c = true -> value_type c = Some vt -> is_constval_of convertible c r = Ok (convertible vt r)) /\
  (is_constval c = true -> value_type c = None -> is_constval_of convertible c r = IllFormed).
Proof.
  intros convertible c r. unfold is_constval_of. split; [intros ->; reflexivity|]. split; [intros vt -> ->; reflexivity|intros -> ->; reflexivity].
Qed.
Print Assumptions C70_is_constval_of_partial.

(** A const-qualified std::integral_constant<> is not taken for a constval, whereas the constvals of this library are. *)
Theorem C70_is_constval_const_partial : forall c conv call,
  (tagged c = true -> is_constval_const c conv call = true) /\
  (tagged c = false -> forall vt vm, value_type c = Some vt -> value_member c = Some vm -> c_const vm <> c_const vt ->
   is_constval_const c conv call = false).
Proof.
  intros c conv call. unfold is_constval_const. split; [intros ->; reflexivity|].
  intros -> vt vm -> -> Ne. destruct call as [cr|]; [|reflexivity]. cbn.
  replace (same (decltype_name vm) vt) with false; [rewrite andb_false_r; reflexivity|].
  symmetry. apply not_true_iff_false. rewrite same_ok. intros E. apply Ne. unfold decltype_name in E. subst. reflexivity.
Qed.
Print Assumptions C70_is_constval_const_partial.
Theorem C70_is_constval_const_refuted : exists c conv call, is_constval c = true /\ conv = converts c /\ call = call_rvalue c /\
  is_constval_const c conv call = false.
Proof. exists (constant_like true), (converts (constant_like true)), (call_rvalue (constant_like true)). repeat split. Qed.
Print Assumptions C70_is_constval_const_refuted.

(** constval_of refines constval; distinct_from. *)
Theorem C70_constval_of_partial : forall convertible c r, concept_constval_of convertible c r = true <->
  concept_constval c = true /\ exists vt, value_type c = Some vt /\ convertible vt r = true.
Proof.
  intros convertible c r. unfold concept_constval_of. rewrite andb_true_iff. split; intros [H1 H2]; split; auto.
  - destruct (value_type c) as [vt|]; [|discriminate]. exists vt. auto.
  - destruct H2 as [vt [-> E]]. exact E.
Qed.
Print Assumptions C70_constval_of_partial.
Theorem C70_distinct_from : forall a b, concept_distinct_from a b = true <-> a <> b.
Proof.
  intros a b. unfold concept_distinct_from. rewrite negb_true_iff. split.
  - intros H ->. rewrite (proj2 (same_ok b b) eq_refl) in H. discriminate.
  - intro H. apply not_true_iff_false. rewrite same_ok. exact H.
Qed.
Print Assumptions C70_distinct_from.

(** A class whose value_type is an lvalue reference satisfies the concept; a tag class without value_type. *)
Definition reference_like : class :=
  mk_class 8 no_ops no_ops no_ops no_ops no_ops no_ops no_ops None (Some (mk_cty 1 true LRef)) (Some (mk_cty 1 true NoRef))
    (Some (mk_cty 1 true LRef)) (Some (mk_cty 1 true LRef)) (fun t => same t (mk_cty 1 true LRef)) false false.
Definition tag_like : class :=
  mk_class 9 no_ops no_ops no_ops no_ops no_ops no_ops no_ops None None None None None (fun _ => false) true false.
Example C70_more_examples :
  concept_constval reference_like = true /\ is_constval reference_like = false /\
  concept_constval_of same reference_like (mk_cty 1 true LRef) = true /\ concept_constval_of same reference_like (plain 1) = false /\
  is_constval_of same (constant_like true) (plain 1) = Ok true /\ is_constval_of same (constant_like true) (plain 2) = Ok false /\
  is_constval tag_like = true /\ is_constval_of same tag_like (plain 1) = IllFormed /\
  is_constval_const tag_like (fun _ => false) None = true /\
  concept_distinct_from (plain 1) (mk_cty 1 true NoRef) = true /\ concept_distinct_from (plain 1) (plain 1) = false.
Proof. repeat split. Qed.
