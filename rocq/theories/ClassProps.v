(** C85: a range<> has the interface its iterators allow, and is a tuple if its extent is static. *)

From Coq Require Import ZArith Arith Bool Lia List.
From Verif Require Import Base ClassModel ClassSpec ClassProofs.
Import ListNotations.

(** The language rules: a specialisation matches exactly the arguments it is for, one is more specialised than another exactly
    if it is for fewer arguments, and the one that is for the fewest is chosen, if there is one. *)
Theorem C85_matching : forall p t, matches p t = true <-> instance p t.
Proof. exact matches_instance. Qed.
Print Assumptions C85_matching.
Theorem C85_ordering : forall p q, more_specialised p q = true <-> special_case p q.
Proof. exact more_specialised_spec. Qed.
Print Assumptions C85_ordering.
Theorem C85_selection : forall specs t,
  (select specs t = Primary <-> forall p, In p specs -> ~ instance p t) /\
  (forall i, select specs t = Selected i <-> best specs t i) /\
  (select specs t = Ambiguous <-> (exists p, In p specs /\ instance p t) /\ forall i, ~ best specs t i).
Proof. intros. split; [apply select_primary|]. split; [intros; apply select_selected|apply select_ambiguous]. Qed.
Print Assumptions C85_selection.

Definition int_pointer : tm := App 10 [App 11 []].
Definition sentinel : tm := App 12 [].
(** Two parameters that must be equal, two that need not be, and a nested pattern. *)
Example C85_selection_example :
  matches (App 5 [Var 0; Var 0]) (App 5 [int_pointer; int_pointer]) = true /\
  matches (App 5 [Var 0; Var 0]) (App 5 [int_pointer; sentinel]) = false /\
  more_specialised (App 5 [Var 0; Var 0]) (App 5 [Var 0; Var 1]) = true /\
  more_specialised (App 5 [Var 0; Var 1]) (App 5 [Var 0; Var 0]) = false /\
  select [App 5 [Var 0; Var 1]; App 5 [Var 0; Var 0]; App 5 [App 10 [Var 3]; Var 1]] (App 5 [sentinel; sentinel]) = Selected 1 /\
  select [App 5 [Var 0; Var 1]; App 5 [Var 0; Var 0]; App 5 [App 10 [Var 3]; Var 1]] (App 5 [int_pointer; sentinel]) = Selected 2 /\
  select [App 5 [Var 0; Var 1]; App 5 [Var 0; Var 0]; App 5 [App 10 [Var 3]; Var 1]] (App 5 [int_pointer; int_pointer]) = Ambiguous /\
  select [App 5 [Var 0; Var 0]] (App 5 [int_pointer; sentinel]) = Primary.
Proof. vm_compute. repeat split. Qed.

(** The interface. *)
Theorem C85_interface : forall c It EndIt extent k,
  range_class c It EndIt extent = Ok k <-> interface (legacy_random_access c) It EndIt extent k.
Proof.
  intros. rewrite range_class_eval. split.
  - destruct (Z.eqb_spec extent (-1)) as [->|N].
    + destruct (legacy_random_access c) eqn:E; intros H; injection H as <-; constructor; reflexivity.
    + destruct (legacy_random_access c) eqn:E; [|discriminate]. destruct (tm_eqb It EndIt) eqn:F; [|discriminate].
      destruct (Z.leb_spec 0 extent) as [L|L]; [|discriminate]. cbn. intros H. injection H as <-.
      apply tm_eqb_eq in F. constructor; auto.
  - intros H. destruct H as [E|E|n E F L]; rewrite E; cbn; try reflexivity.
    destruct (Z.eqb_spec n (-1)) as [->|N]; [lia|]. subst EndIt. rewrite tm_eqb_refl. cbn.
    destruct (Z.leb_spec 0 n) as [L'|L']; [reflexivity|lia].
Qed.
Print Assumptions C85_interface.
Theorem C85_interface_rejected : forall c It EndIt extent,
  range_class c It EndIt extent = IllFormed <-> forall k, ~ interface (legacy_random_access c) It EndIt extent k.
Proof.
  intros. split.
  - intros H k K. apply C85_interface in K. congruence.
  - intros H. rewrite range_class_eval.
    destruct (range_class c It EndIt extent) as [k| | | | |] eqn:E; rewrite range_class_eval in E;
      try (destruct (Z.eqb extent (-1)), (legacy_random_access c); destruct (tm_eqb It EndIt); destruct (0 <=? extent)%Z; discriminate);
      [|exact E].
    exfalso. apply (H k), C85_interface. rewrite range_class_eval. exact E.
Qed.
Print Assumptions C85_interface_rejected.
(** size() and [] exist exactly for random-access iterators, whether or not the end has the same type. *)
Theorem C85_size_and_subscript : forall c It EndIt extent k, range_class c It EndIt extent = Ok k ->
  has_size k = legacy_random_access c /\ has_subscript k = legacy_random_access c.
Proof. intros c It EndIt extent k H. apply C85_interface in H. destruct H as [E|E|n E _ _]; rewrite E; split; reflexivity. Qed.
Print Assumptions C85_size_and_subscript.
Example C85_interface_example :
  range_class (pointer_class true) int_pointer int_pointer (-1) = Ok RandomAccess /\
  range_class (pointer_class true) int_pointer sentinel (-1) = Ok RandomAccess /\
  range_class (pointer_class true) int_pointer int_pointer 3 = Ok (Static 3) /\
  range_class (pointer_class true) int_pointer int_pointer 0 = Ok (Static 0) /\
  range_class (pointer_class true) int_pointer int_pointer (-2) = IllFormed /\
  range_class (pointer_class true) int_pointer sentinel 3 = IllFormed /\
  range_class (mk_iterator_class false (DLvalue false)) (App 13 []) sentinel (-1) = Ok General /\
  range_class (mk_iterator_class false (DLvalue false)) (App 13 []) (App 13 []) 3 = IllFormed.
Proof. vm_compute. repeat split. Qed.

(** A range of static extent is a tuple of that many elements. *)
Theorem C85_static_tuple : forall c It EndIt extent n, range_class c It EndIt extent = Ok (Static n) ->
  tuple_size It EndIt extent = Ok (Some n) /\ tuple_element It EndIt extent = Ok true /\ is_tuple_like It EndIt extent = Ok true.
Proof.
  intros c It EndIt extent n H. apply C85_interface in H. inversion H; subst.
  unfold is_tuple_like. rewrite tuple_size_eval, tuple_element_eval, tm_eqb_refl.
  destruct (Z.eqb_spec n (-1)) as [->|N]; [lia|]. destruct (Z.leb_spec 0 n); [|lia]. repeat split.
Qed.
Print Assumptions C85_static_tuple.
(** get<I>() of a non-const range gives what the iterator gives; through a const range, the element is const. *)
Theorem C85_get : forall n d lvalue const I g, range_get_type (Static n) d lvalue const I = Ok g <->
  (I < n)%Z /\ ((lvalue = true /\ const = false /\ g = d) \/ (~ (lvalue = true /\ const = false) /\ (exists e, d = DLvalue e) /\ g = DLvalue true)).
Proof.
  intros. cbn. destruct (Z.ltb_spec I n) as [L|L].
  - destruct lvalue, const; cbn.
    + destruct d as [e|]; split.
      * injection 1 as <-. split; [assumption|]. right. split; [intros [? ?]; discriminate|eauto].
      * intros [_ [[_ [F _]]|[_ [_ ->]]]]; [discriminate|reflexivity].
      * discriminate.
      * intros [_ [[_ [F _]]|[_ [[e F] _]]]]; discriminate.
    + split.
      * injection 1 as <-. auto.
      * intros [_ [[_ [_ ->]]|[F _]]]; [reflexivity|]. destruct F. auto.
    + destruct d as [e|]; split.
      * injection 1 as <-. split; [assumption|]. right. split; [intros [? ?]; discriminate|eauto].
      * intros [_ [[F _]|[_ [_ ->]]]]; [discriminate|reflexivity].
      * discriminate.
      * intros [_ [[F _]|[_ [[e F] _]]]]; discriminate.
    + destruct d as [e|]; split.
      * injection 1 as <-. split; [assumption|]. right. split; [intros [? ?]; discriminate|eauto].
      * intros [_ [[F _]|[_ [_ ->]]]]; [discriminate|reflexivity].
      * discriminate.
      * intros [_ [[F _]|[_ [[e F] _]]]]; discriminate.
  - split; [|lia]. destruct (lvalue && negb const); [discriminate|]. destruct d; discriminate.
Qed.
Print Assumptions C85_get.
(** No get<I>() for dynamic extents. *)
Theorem C85_get_dynamic_rejected : forall c It EndIt k d lvalue const I, range_class c It EndIt (-1) = Ok k ->
  range_get_type k d lvalue const I = IllFormed.
Proof.
  intros c It EndIt k d lvalue const I H. apply C85_interface in H. inversion H; subst; try reflexivity. lia.
Qed.
Print Assumptions C85_get_dynamic_rejected.
Example C85_get_example :
  range_get_type (Static 3) (DLvalue false) true false 2 = Ok (DLvalue false) /\
  range_get_type (Static 3) (DLvalue false) true true 2 = Ok (DLvalue true) /\
  range_get_type (Static 3) (DLvalue false) false false 2 = Ok (DLvalue true) /\
  range_get_type (Static 3) (DLvalue false) true false 3 = IllFormed /\
  range_get_type (Static 3) DPrvalue true false 0 = Ok DPrvalue /\ range_get_type (Static 3) DPrvalue false false 0 = IllFormed.
Proof. repeat split. Qed.

(** Structured bindings. *)
Lemma binding_eval : forall c It extent how names, legacy_random_access c = true -> (0 <= extent)%Z ->
  structured_binding c It It extent how names =
  if Z.eqb extent (Z.of_nat names) && (0 <? names)%nat then
    mapM (fun I =>
      do g <- range_get_type (Static extent) (deref c) (match how with ByValue => false | _ => true end) (match how with ByConstRef => true | _ => false end) (Z.of_nat I);
      bind_variable (match how with ByConstRef => true | _ => false end) g) (seq 0 names)
  else IllFormed.
Proof.
  intros c It extent how names R L. unfold structured_binding.
  rewrite range_class_eval, tuple_size_eval, tuple_element_eval, tm_eqb_refl, R.
  destruct (Z.eqb_spec extent (-1)) as [->|N]; [lia|]. destruct (Z.leb_spec 0 extent); [|lia]. reflexivity.
Qed.
(** What can be declared for the elements of a range of static extent: as many references as there are elements, to non-const
    elements by auto&, to const elements (of non-const or const type) by auto const&; and auto& works if the iterators return
    temporary objects. *)
Theorem C85_bindings_partial : forall c It extent names, legacy_random_access c = true -> (0 < extent)%Z ->
  (forall how l, structured_binding c It It extent how names = Ok l ->
     extent = Z.of_nat names /\
     ((how = ByRef /\ deref c <> DLvalue true /\ l = repeat (deref c) names) \/
      (how = ByConstRef /\ (exists e, deref c = DLvalue e) /\ l = repeat (DLvalue true) names))) /\
  (extent = Z.of_nat names ->
     (deref c <> DLvalue true -> structured_binding c It It extent ByRef names = Ok (repeat (deref c) names)) /\
     ((exists e, deref c = DLvalue e) -> structured_binding c It It extent ByConstRef names = Ok (repeat (DLvalue true) names))).
Proof.
  intros c It extent names R L.
  assert (P : extent = Z.of_nat names -> names = S (pred names)) by lia.
  assert (RefOk : extent = Z.of_nat names -> deref c <> DLvalue true -> structured_binding c It It extent ByRef names = Ok (repeat (deref c) names)).
  { intros E N. rewrite binding_eval by (auto; lia). rewrite E, Z.eqb_refl.
    destruct (Nat.ltb_spec 0 names) as [Q|Q]; [|lia]. cbn [andb].
    rewrite (mapM_const _ _ _ _ (deref c)); [rewrite seq_length; reflexivity|].
    intros x Hx. apply in_seq in Hx. cbn. destruct (Z.ltb_spec (Z.of_nat x) (Z.of_nat names)); [|lia]. cbn.
    destruct (deref c) as [[|]|]; try reflexivity. contradiction. }
  assert (ConstOk : extent = Z.of_nat names -> (exists e, deref c = DLvalue e) -> structured_binding c It It extent ByConstRef names = Ok (repeat (DLvalue true) names)).
  { intros E [e D]. rewrite binding_eval by (auto; lia). rewrite E, Z.eqb_refl.
    destruct (Nat.ltb_spec 0 names) as [Q|Q]; [|lia]. cbn [andb].
    rewrite (mapM_const _ _ _ _ (DLvalue true)); [rewrite seq_length; reflexivity|].
    intros x Hx. apply in_seq in Hx. cbn. rewrite D. destruct (Z.ltb_spec (Z.of_nat x) (Z.of_nat names)); [|lia]. reflexivity. }
  split; [|auto].
  intros how l H.
  assert (E : extent = Z.of_nat names).
  { rewrite binding_eval in H by (auto; lia). destruct (Z.eqb_spec extent (Z.of_nat names)); [assumption|discriminate]. }
  split; [assumption|]. specialize (P E). destruct how.
  - exfalso. rewrite binding_eval in H by (auto; lia). rewrite E, Z.eqb_refl, P in H. cbn in H.
    destruct (deref c) as [e|]; [|discriminate]. cbn in H. discriminate.
  - left. split; [reflexivity|].
    assert (N : deref c <> DLvalue true).
    { intros D. rewrite binding_eval in H by (auto; lia). rewrite E, Z.eqb_refl, P in H. cbn in H. rewrite D in H.
      cbn in H. discriminate. }
    split; [assumption|]. rewrite (RefOk E N) in H. injection H as <-. reflexivity.
  - right. split; [reflexivity|].
    assert (N : exists e, deref c = DLvalue e).
    { rewrite binding_eval in H by (auto; lia). rewrite E, Z.eqb_refl, P in H. cbn in H.
      destruct (deref c) as [e|]; [eauto|discriminate]. }
    split; [assumption|]. rewrite (ConstOk E N) in H. injection H as <-. reflexivity.
Qed.
Print Assumptions C85_bindings_partial.
Example C85_bindings_example :
  structured_binding (pointer_class false) int_pointer int_pointer 2 ByRef 2 = Ok [DLvalue false; DLvalue false] /\
  structured_binding (pointer_class false) int_pointer int_pointer 2 ByConstRef 2 = Ok [DLvalue true; DLvalue true] /\
  structured_binding (pointer_class true) int_pointer int_pointer 2 ByConstRef 2 = Ok [DLvalue true; DLvalue true] /\
  structured_binding (mk_iterator_class true DPrvalue) int_pointer int_pointer 2 ByRef 2 = Ok [DPrvalue; DPrvalue] /\
  structured_binding (pointer_class false) int_pointer int_pointer 2 ByRef 3 = IllFormed.
Proof. vm_compute. repeat split. Qed.

(** The elements cannot be bound by value ("auto [a, b] = r"), whatever the iterators. *)
Theorem C85_bindings_by_value_rejected : forall c It EndIt extent names,
  structured_binding c It EndIt extent ByValue names = IllFormed.
Proof.
  intros. unfold structured_binding. rewrite range_class_eval, tuple_size_eval, tuple_element_eval.
  destruct (Z.eqb extent (-1)).
  { destruct (legacy_random_access c), (tm_eqb It EndIt); reflexivity. }
  destruct (legacy_random_access c); [|reflexivity]. destruct (tm_eqb It EndIt); [|reflexivity]. cbn [andb].
  destruct (0 <=? extent)%Z; [|reflexivity]. cbn [bind].
  destruct names as [|names]; [rewrite andb_false_r; reflexivity|]. destruct (Z.eqb extent (Z.of_nat (S names))); [|reflexivity].
  cbn. destruct (deref c); [|reflexivity]. destruct (0 <? extent)%Z; reflexivity.
Qed.
Print Assumptions C85_bindings_by_value_rejected.
Theorem C85_bindings_by_value_refuted : exists c It n,
  range_class c It It n = Ok (Static n) /\ structured_binding c It It n ByRef (Z.to_nat n) = Ok [DLvalue false; DLvalue false] /\
  structured_binding c It It n ByValue (Z.to_nat n) = IllFormed.
Proof. exists (pointer_class false), int_pointer, 2%Z. vm_compute. repeat split. Qed.
Print Assumptions C85_bindings_by_value_refuted.
(** Nor can const elements be bound by auto&. *)
Theorem C85_bindings_const_refuted : exists c It n,
  range_class c It It n = Ok (Static n) /\ range_get_type (Static n) (deref c) true false 0 = Ok (DLvalue true) /\
  structured_binding c It It n ByRef (Z.to_nat n) = IllFormed.
Proof. exists (pointer_class true), int_pointer, 2%Z. vm_compute. repeat split. Qed.
Print Assumptions C85_bindings_const_refuted.
(** get<I>() of a const range is rejected if the iterators return temporary objects, although [] works. *)
Theorem C85_get_const_refuted : exists c It n I,
  range_class c It It n = Ok (Static n) /\ has_subscript (Static n) = true /\ range_get_type (Static n) (deref c) true false I = Ok DPrvalue /\
  range_get_type (Static n) (deref c) true true I = IllFormed.
Proof. exists (mk_iterator_class true DPrvalue), int_pointer, 2%Z, 0%Z. vm_compute. repeat split. Qed.
Print Assumptions C85_get_const_refuted.

(** Ranges of dynamic extent are no tuples, if iterator and end have different types. *)
Theorem C85_dynamic_partial : forall It EndIt extent, It <> EndIt ->
  tuple_size It EndIt extent = Ok None /\ is_tuple_like It EndIt extent = Ok false.
Proof.
  intros It EndIt extent N. unfold is_tuple_like. rewrite tuple_size_eval. destruct (tm_eqb It EndIt) eqn:E; [|split; reflexivity].
  apply tm_eqb_eq in E. contradiction.
Qed.
Print Assumptions C85_dynamic_partial.
(** If they have the same type, the question is ill-formed. *)
Theorem C85_dynamic_rejected : forall It, select tuple_specs (App n_range [It; It; Num (-1)]) = Ambiguous /\
  tuple_size It It (-1) = IllFormed /\ is_tuple_like It It (-1) = IllFormed.
Proof.
  intros It. unfold is_tuple_like. rewrite tuple_size_eval, tm_eqb_refl. split; [|split; reflexivity].
  unfold select, positions, tuple_specs, matches. cbn -[tm_eqb]. rewrite tm_eqb_refl. reflexivity.
Qed.
Print Assumptions C85_dynamic_rejected.
Theorem C85_dynamic_refuted : exists c It, range_class c It It (-1) = Ok RandomAccess /\ is_tuple_like It It (-1) = IllFormed.
Proof. exists (pointer_class false), int_pointer. split; reflexivity. Qed.
Print Assumptions C85_dynamic_refuted.
Example C85_dynamic_example : int_pointer <> sentinel /\ tuple_size int_pointer sentinel (-1) = Ok None.
Proof. split; [discriminate|reflexivity]. Qed.

(** The library's own iterators support random access, but a range of them has no size(), no [], and no static extent. *)
Theorem C85_library_iterators_refuted : exists c, c = index_iterator_class /\ forall It,
  range_class c It It (-1) = Ok General /\ forall n, n <> (-1)%Z -> range_class c It It n = IllFormed.
Proof.
  exists index_iterator_class. split; [reflexivity|]. intros It. rewrite range_class_eval. split; [reflexivity|].
  intros n N. rewrite range_class_eval. destruct (Z.eqb_spec n (-1)); [contradiction|]. reflexivity.
Qed.
Print Assumptions C85_library_iterators_refuted.
