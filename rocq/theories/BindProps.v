(** Theorems about structured bindings of the library's tuple-like types: C110. *)

From Coq Require Import ZArith Arith Bool Lia List.
From Verif Require Import Base BindModel BindSpec BindProofs.
Import ListNotations.

(** A structured binding with as many names as there are elements declares each name for its element, except for buffers of objects that are not const
    when declared by value or for an rvalue. *)
Theorem C110_bindings_partial : forall f u n, has_elements u n -> 0 < n -> ~ modifiable_rvalue f u ->
  exists l, structured_binding f u n = Ok l /\ names_all f u n l.
Proof.
  intros f u n H Hn Hm. unfold structured_binding.
  assert (E : tuple_size u = Some n) by (apply tuple_size_spec; [intros t e ->; inversion H; lia|exact H]).
  rewrite E, Nat.eqb_refl. destruct (Nat.ltb_spec 0 n); [|lia]. cbn [andb].
  destruct (mapM_seq_ok _ (bind_name f u) (fun I d => names_element f u I d) n 0) as [l [El [Ll Pl]]].
  { intros I Hi. exact (bind_name_ok f u n I H Hi Hm). }
  exists l. split; [exact El|]. split; [exact Ll|]. exact Pl.
Qed.
Print Assumptions C110_bindings_partial.

(** What a name denotes is determined by this. *)
Theorem C110_names_unique : forall f u n l l', names_all f u n l -> names_all f u n l' -> l = l'.
Proof.
  intros f u n l l' [L P] [L' P'].
  assert (G : forall (a b : list denoted), length a = length b -> (forall i x y, nth_error a i = Some x -> nth_error b i = Some y -> x = y) -> a = b).
  { induction a as [|x a IH]; intros [|y b] Hl Hp; try discriminate; [reflexivity|]. f_equal; [exact (Hp 0 x y eq_refl eq_refl)|].
    apply IH; [cbn in Hl; lia|]. intros i x' y' Hx Hy. exact (Hp (S i) x' y' Hx Hy). }
  apply G; [congruence|]. intros i x y Hx Hy. exact (names_unique f u i x y (P i x Hx) (P' i y Hy)).
Qed.
Print Assumptions C110_names_unique.

(** The others do not compile. *)
Theorem C110_rejected : forall f u n names, (forall t e, u = Buffer t e -> (-1 <= e)%Z) ->
  (names <> n \/ names = 0 -> has_elements u n -> structured_binding f u names = IllFormed) /\
  ((forall m, ~ has_elements u m) -> structured_binding f u names = IllFormed) /\
  (modifiable_rvalue f u -> structured_binding f u names = IllFormed).
Proof.
  intros f u n names Hu. unfold structured_binding. repeat split.
  - intros Hn H. apply (tuple_size_spec u n Hu) in H. rewrite H. destruct (Nat.eqb_spec names n), (Nat.ltb_spec 0 names); cbn [andb]; try reflexivity. lia.
  - intro H. destruct (tuple_size u) as [m|] eqn:E; [|reflexivity]. exfalso. apply (H m). apply (tuple_size_spec u m Hu). exact E.
  - intro Hm. destruct (tuple_size u) as [m|] eqn:E; [|reflexivity].
    destruct (Nat.eqb_spec names m), (Nat.ltb_spec 0 names); cbn [andb]; try reflexivity. subst names.
    apply mapM_seq_illformed; [assumption|]. apply (bind_name_rejected f u m 0); [apply (tuple_size_spec u m Hu); exact E|assumption|exact Hm].
Qed.
Print Assumptions C110_rejected.

(** Buffers whose extent is not known at compile time are no tuples. *)
Theorem C110_dynamic : forall t m, ~ has_elements (Buffer t (-1)) m /\ tuple_size (Buffer t (-1)) = None /\
  tuple_elements (Plain (Buffer t (-1))) = IllFormed /\ tuple_elements (ConstOf (Buffer t (-1))) = IllFormed.
Proof. intros t m. split; [|repeat split; reflexivity]. intro H. inversion H. lia. Qed.
Print Assumptions C110_dynamic.

(** tuple_elements_t<> is the list of the element types; const is added to all of them for a const tuple-like type. *)
Theorem C110_tuple_elements : forall u n, has_elements u n ->
  (exists l, tuple_elements (Plain u) = Ok l /\ length l = n /\ forall I t, nth_error l I = Some t -> element_type u I t) /\
  (exists l, tuple_elements (ConstOf u) = Ok l /\ length l = n /\ forall I t', nth_error l I = Some t' -> exists t, element_type u I t /\ const_version t t') /\
  tuple_elements (RefTo u) = IllFormed.
Proof.
  intros u n H.
  assert (E : tuple_size u = Some n) by (apply tuple_size_spec; [intros t e ->; inversion H; lia|exact H]).
  assert (T : forall I, I < n -> exists t, tuple_element I u = Ok t).
  { intros I Hi. destruct H as [t n|ts|ts|ts|n]; cbn [tuple_element]; unfold nth_type; try (destruct (nth_error ts I) eqn:En; [eexists; reflexivity|apply nth_error_None in En; lia]).
    - eexists; reflexivity.
    - destruct (Nat.ltb_spec I n); [eexists; reflexivity|lia]. }
  unfold tuple_elements. rewrite E. split; [|split; [|reflexivity]].
  - apply (mapM_seq_ok _ (fun I => tuple_element_cv I false u) (fun I t => element_type u I t) n 0). intros I Hi. destruct (T I Hi) as [t Et].
    exists t. unfold tuple_element_cv. cbn [Nat.add]. rewrite Et. split; [reflexivity|]. apply (element_spec u n I t H Hi). exact Et.
  - apply (mapM_seq_ok _ (fun I => tuple_element_cv I true u) (fun I t' => exists t, element_type u I t /\ const_version t t') n 0).
    intros I Hi. destruct (T I Hi) as [t Et]. exists (add_const t). unfold tuple_element_cv. cbn [Nat.add]. rewrite Et. split; [reflexivity|].
    exists t. split; [apply (element_spec u n I t H Hi); exact Et|apply add_const_spec; reflexivity].
Qed.
Print Assumptions C110_tuple_elements.

(** get<I>() gives what std::tuple_element<> says: an object of that type, const if the tuple-like object is const or an rvalue buffer. *)
Theorem C110_get : forall u n I t lvalue const, has_elements u n -> I < n -> element_type u I t ->
  (forall t0 e, u = Buffer t0 e -> exists t', get I lvalue const u = Ok (OwnElement t') /\ (lvalue = true /\ const = false -> t' = t) /\ (~ (lvalue = true /\ const = false) -> const_version t t')) /\
  (forall ts, u = SoaReference ts -> get I lvalue const u = Ok (ArrayElement t)) /\
  ((forall t0 e, u <> Buffer t0 e) -> (forall ts, u <> SoaReference ts) -> get I lvalue const u = Ok (Prvalue t)).
Proof.
  intros u n I t lvalue const H Hi Ht. apply (element_spec u n I t H Hi) in Ht. destruct H as [t1 n|ts|ts|ts|n]; cbn [tuple_element get] in *.
  - injection Ht as ->. split; [|split; [discriminate|intros Hb; exfalso; exact (Hb _ _ eq_refl)]]. intros t0 e E.
    destruct (Z.eqb_spec (Z.of_nat n) (-1)); [lia|]. destruct (Z.ltb_spec (Z.of_nat I) (Z.of_nat n)); [|lia].
    eexists. split; [reflexivity|]. destruct lvalue, const; cbn [andb negb]; split; intro A; try reflexivity; try (apply add_const_spec; reflexivity);
      try (exfalso; apply A; split; reflexivity); destruct A; discriminate.
  - split; [discriminate|]. split; [intros ts' _; rewrite Ht; reflexivity|]. intros _ Hb. exfalso. exact (Hb ts eq_refl).
  - split; [discriminate|]. split; [discriminate|]. intros _ _. unfold nth_type in *. destruct (nth_error ts I); cbn [bind] in *; [|discriminate]. injection Ht as <-. reflexivity.
  - split; [discriminate|]. split; [discriminate|]. intros _ _. unfold nth_type in *. destruct (nth_error ts I); cbn [bind] in *; [|discriminate]. injection Ht as <-. reflexivity.
  - split; [discriminate|]. split; [discriminate|]. intros _ _. destruct (I <? n); [|discriminate]. injection Ht as <-. reflexivity.
Qed.
Print Assumptions C110_get.

(** There is no element beyond the last. *)
Theorem C110_get_rejected : forall u n I lvalue const, has_elements u n -> n <= I -> get I lvalue const u = IllFormed.
Proof.
  intros u n I lvalue const H Hi. destruct H as [t n|ts|ts|ts|n]; cbn [get]; unfold nth_type; try (rewrite (proj2 (nth_error_None ts I) Hi); reflexivity).
  - destruct (Z.eqb_spec (Z.of_nat n) (-1)); [reflexivity|]. destruct (Z.ltb_spec (Z.of_nat I) (Z.of_nat n)); [lia|reflexivity].
  - destruct (Nat.ltb_spec I n); [lia|reflexivity].
Qed.
Print Assumptions C110_get_rejected.

(** Examples. *)
Example C110_elements_example : has_elements (Buffer (TObj 4) 2) 2 /\ has_elements (SoaReference [TObj 1; TConst (TObj 2)]) 2 /\ has_elements (Constants 3) 3.
Proof. split; [apply (buffer_elements (TObj 4) 2)|]. split; [apply (reference_elements [TObj 1; TConst (TObj 2)])|apply constants_elements]. Qed.
Example C110_not_modifiable_example : ~ modifiable_rvalue ByValue (SoaReference [TObj 1]) /\ ~ modifiable_rvalue ByConstValue (Buffer (TObj 1) 2) /\
  ~ modifiable_rvalue ByValue (Buffer (TConst (TObj 1)) 2) /\ modifiable_rvalue ByValue (Buffer (TObj 1) 2).
Proof.
  split; [intros [t [e [E _]]]; discriminate|]. split; [intros [t [e [_ [_ [E|E]]]]]; discriminate|].
  split; [intros [t [e [E [H _]]]]; injection E as <- <-; exact (H _ eq_refl)|]. exists (TObj 1), 2%Z. split; [reflexivity|]. split; [discriminate|left; reflexivity].
Qed.
Example C110_bindings_example :
  structured_binding ByRef (Buffer (TObj 4) 2) 2 = Ok [InObject 0 (TObj 4); InObject 1 (TObj 4)] /\
  structured_binding ByConstValue (Buffer (TObj 4) 2) 2 = Ok [InCopy 0 (TConst (TObj 4)); InCopy 1 (TConst (TObj 4))] /\
  structured_binding ByValue (SoaReference [TObj 1; TConst (TObj 2)]) 2 = Ok [InArrays 0 (TObj 1); InArrays 1 (TConst (TObj 2))] /\
  structured_binding ByValue (SoaSpan [TObj 1; TObj 2]) 2 = Ok [Own 0 (TSpan (TObj 1)); Own 1 (TSpan (TObj 2))] /\
  structured_binding ByValue (TypeSequence [TObj 1]) 1 = Ok [Own 0 (TIdentity (TObj 1))] /\
  structured_binding ByValue (Constants 2) 2 = Ok [Own 0 (TConstval 0); Own 1 (TConstval 1)] /\
  structured_binding ByValue (SoaSpan [TObj 1; TObj 2]) 3 = IllFormed.
Proof. vm_compute. repeat split; reflexivity. Qed.
Example C110_tuple_elements_example :
  tuple_elements (Plain (SoaSpan [TObj 1; TConst (TObj 2)])) = Ok [TSpan (TObj 1); TSpan (TConst (TObj 2))] /\
  tuple_elements (ConstOf (SoaReference [TObj 1; TConst (TObj 2)])) = Ok [TConst (TObj 1); TConst (TObj 2)] /\
  tuple_elements (Plain (TypeSequence [TObj 1; TObj 2])) = Ok [TIdentity (TObj 1); TIdentity (TObj 2)] /\
  tuple_elements (Plain (Buffer (TObj 1) (-1))) = IllFormed.
Proof. vm_compute. repeat split; reflexivity. Qed.

(** "auto [x, y] = make_buffer<T>(...)" and "auto [x, y] = buf" do not compile for buffers with two elements, because get<I>() gives access to rvalue
    buffers as if they were const. *)
Theorem C110_bindings_by_value_refuted : exists u, has_elements u 2 /\ (exists t, element_type u 0 t /\ element_type u 1 t) /\
  structured_binding ByValue u 2 = IllFormed /\ structured_binding ByRvalueRef u 2 = IllFormed.
Proof.
  exists (Buffer (TObj 0) 2). split; [apply (buffer_elements (TObj 0) 2)|].
  split; [exists (TObj 0); split; apply (buffer_type (TObj 0) 2); lia|]. vm_compute. split; reflexivity.
Qed.
Print Assumptions C110_bindings_by_value_refuted.
