(** Properties of tuples of references and of results returned by reference (C91, C92, C93, C94). *)

From Coq Require Import ZArith Arith Bool Lia List Permutation.
From Verif Require Import Base ZipSpec TupleModel TupleSpec TupleProofs RefTupleModel RefTupleSpec RefTupleProofs.
Import ListNotations.

(** * C91: concatenation *)
(** How elements of a tuple are passed on: as lvalues if the tuple is one or if they are lvalue references, as const if they are declared
    so or are objects in a const tuple. *)
Theorem C91_element_expressions : forall a i e l, nth_error (t_elems a) i = Some (e, l) ->
  exists c, nth_error (expressions a) i = Some (e, c, l) /\
    (is_lvalue c <-> t_lvalue a = true \/ of_lvalue_reference e) /\
    (is_const c <-> declared_const e \/ (an_object e /\ t_const a = true)).
Proof.
  intros a i e l H. exists (get_category e (t_lvalue a) (t_const a)). split.
  - unfold expressions. rewrite nth_error_map, H. reflexivity.
  - destruct a as [es lv k]. cbn [t_lvalue t_const].
    unfold is_lvalue, is_const, of_lvalue_reference, declared_const, an_object.
    destruct e as [c T|c T|c T]; destruct lv, k, c; cbn [get_category orb]; (split; split);
      solve [ intros [? ?]; try discriminate; (left; reflexivity) || (right; eexists; eexists; reflexivity)
            | intros [?|[? [? ?]]]; try discriminate; eexists; reflexivity
            | intros [?|?]; try discriminate; (left; eexists; auto; fail) || (left; eexists; right; auto; fail) || (left; exists T; auto; fail) || (right; split; [eexists; eexists; reflexivity|reflexivity])
            | intros [[? [?|[?|?]]]|[[? [? ?]] ?]]; try discriminate; auto ].
Qed.
Print Assumptions C91_element_expressions.

(** The result has the elements of all tuples, in order and with their declared types: references refer to the same objects, all other
    elements have the values of the originals, which are left as they are unless the tuple is passed as an rvalue; whatever the order
    in which the elements are initialized.  Rejected if and only if some element cannot be passed on. *)
Theorem C91_tuple_cat : forall V copyable move_of (left_over : nat -> V -> V) order args st,
  (Z.of_nat (length (elements args)) < 2 ^ 64)%Z -> Permutation order (seq 0 (length (elements args))) ->
  ((forall x, In x (elements args) -> can_be_passed_on copyable move_of x) -> passed_properly move_of args (objs st) ->
     exists st' t, tuple_cat copyable move_of left_over order args st = (st', Ok t) /\
       Forall2 (holds (objs st)) (elements args) t /\
       length (objs st') = length (objs st) /\
       (forall a T l v, In (a, EVal false T, l) (elements args) -> given_away move_of (a, EVal false T, l) ->
          nth_error (objs st) l = Some v -> nth_error (objs st') l = Some (left_over T v)) /\
       (forall l, (forall x, In x (elements args) -> given_away move_of x -> snd x <> l) ->
          nth_error (objs st') l = nth_error (objs st) l) /\
       exists evs, log st' = log st ++ evs /\
         forall l, (In (Moved l) evs <-> exists x, In x (elements args) /\ given_away move_of x /\ snd x = l) /\
                   (In (Copied l) evs <-> exists x, In x (elements args) /\ kept move_of x /\ snd x = l)) /\
  ((exists x, In x (elements args) /\ ~ can_be_passed_on copyable move_of x) ->
     tuple_cat copyable move_of left_over order args st = (st, IllFormed)).
Proof.
  intros V copyable move_of left_over order args st Hsize Hp.
  assert (E : TupleModel.tuple_cat (map expressions args) = Ok (map expression (elements args))).
  { rewrite <- elements_expressions. apply cat_impl_concat. rewrite elements_expressions, map_length. exact Hsize. }
  assert (Hpos : forall i x, nth_error (elements args) i = Some x -> nth_error (map expression (elements args)) i = Some (expression x)).
  { intros i x Hx. rewrite nth_error_map, Hx. reflexivity. }
  assert (Hinv : forall i y, nth_error (map expression (elements args)) i = Some y -> exists x, nth_error (elements args) i = Some x /\ y = expression x).
  { intros i y Hy. rewrite nth_error_map in Hy. destruct (nth_error (elements args) i) as [x|]; [|discriminate]. injection Hy as <-. eauto. }
  assert (Hin : forall i, In i order <-> i < length (elements args)).
  { intro i. split; intro H; [|apply (Permutation_in _ (Permutation_sym Hp)); apply in_seq; lia].
    apply (Permutation_in _ Hp) in H. apply in_seq in H. lia. }
  assert (Hval : forall x, is_value (expression x) -> exists a k T l, x = (a, EVal k T, l)).
  { intros [[a e] l] [k [T Hk]]. cbn in Hk. subst e. eauto. }
  split.
  - intros Hok [Hlive Hapart]. unfold tuple_cat. rewrite E.
    replace (forallb _ _) with true.
    2: { symmetry. apply forallb_forall. intros y Hy. apply in_map_iff in Hy. destruct Hy as [x [<- Hx]]. apply init_ok_iff. apply Hok. exact Hx. }
    assert (Hex : forall x, snd (expression x) = snd x) by (intros [[a e] l]; reflexivity).
    destruct (init_in_spec move_of left_over (map expression (elements args)) order st (fun _ => None)) as [st' [el [E2 [_ [K2 [K3 [K4 [K5 K6]]]]]]]].
    + apply (Permutation_NoDup (Permutation_sym Hp)). apply seq_NoDup.
    + intros i Hi. rewrite map_length. apply Hin. exact Hi.
    + intros i y Hi Hy Hv. apply Hinv in Hy. destruct Hy as [x [Hx ->]]. destruct (Hval x Hv) as [a [k [T [l ->]]]].
      apply (Hlive a k T l). eapply nth_error_In. exact Hx.
    + intros i j y z Hi Hj Hne Hy Hz Hm Hv. apply Hinv in Hy. apply Hinv in Hz. destruct Hy as [x [Hx ->]]. destruct Hz as [x' [Hx' ->]].
      rewrite !Hex. apply (Hapart i j x x' Hx Hx' Hne).
      * apply given_away_moved. exact Hm.
      * destruct (Hval x' Hv) as [a [k [T [l ->]]]]. exists k, T. reflexivity.
    + rewrite E2. cbn [bind]. rewrite map_length.
      destruct (mapM_values el (seq 0 (length (elements args)))) as [t [Et Ft]].
      { intros i Hi. apply in_seq in Hi. destruct (nth_error (elements args) i) as [x|] eqn:Ex; [|apply nth_error_None in Ex; lia].
        destruct (K2 i _ (proj2 (Hin i) ltac:(lia)) (Hpos i x Ex)) as [s [Hs _]]. eauto. }
      exists st', t. rewrite Et. split; [reflexivity|]. split; [|split; [exact K3|split; [|split]]].
      * (* elements *)
        assert (G : forall l2 l1 t2, elements args = l1 ++ l2 -> Forall2 (fun i r => el i = Some r) (seq (length l1) (length l2)) t2 -> Forall2 (holds (objs st)) l2 t2).
        { intro l2. induction l2 as [|x l2 IH]; intros l1 t2 El Hf; cbn [length seq] in Hf; inversion Hf as [|? s ? t2' Hs Hf']; subst; [constructor|].
          assert (Ex : nth_error (elements args) (length l1) = Some x) by (rewrite El; apply nth_error_middle).
          constructor.
          - destruct (K2 (length l1) _ (proj2 (Hin _) ltac:(apply nth_error_Some; rewrite Ex; discriminate)) (Hpos _ _ Ex)) as [s' [Es' [H1 H2]]].
            assert (s' = s) by congruence. subst s'. destruct x as [[a e] l]. cbn [expression fst snd] in H1, H2. split; [exact H1|exact H2].
          - apply (IH (l1 ++ [x])).
            + rewrite <- app_assoc. exact El.
            + rewrite app_length. cbn [length]. rewrite Nat.add_1_r. exact Hf'. }
        apply (G (elements args) [] t eq_refl). exact Ft.
      * intros a T l v Hx Hg Hv. apply In_nth_error in Hx. destruct Hx as [i Hi].
        apply given_away_moved in Hg. cbn [expression moved] in Hg.
        apply (K4 i false T (get_category (EVal false T) (t_lvalue a) (t_const a)) l v); [apply Hin; apply nth_error_Some; rewrite Hi; discriminate|apply (Hpos _ _ Hi)|exact Hg|exact Hv].
      * intros l Hno. apply K5. intros i y Hi Hy Hm. apply Hinv in Hy. destruct Hy as [x [Hx ->]]. rewrite Hex. apply Hno; [eapply nth_error_In; exact Hx|].
        apply given_away_moved. exact Hm.
      * exists (flat_map (fun i => match nth_error (map expression (elements args)) i with Some x => event_of move_of x | None => [] end) order).
        split; [exact K6|].
        assert (Hp' : Permutation order (seq 0 (length (map expression (elements args))))) by (rewrite map_length; exact Hp).
        pose proof (flat_map_order event (map expression (elements args)) (event_of move_of) order Hp') as P.
        assert (Hev : forall ev x, In ev (event_of move_of (expression x)) ->
          (given_away move_of x /\ ev = Moved (snd x)) \/ (kept move_of x /\ ev = Copied (snd x))).
        { intros ev [[a e] l] H. destruct (moved move_of (expression (a, e, l))) eqn:Em.
          - left. split; [apply given_away_moved; exact Em|]. destruct e as [k T|k T|k T]; cbn in Em, H; try contradiction.
            rewrite Em in H. destruct H as [<-|[]]. reflexivity.
          - right. destruct e as [k T|k T|k T]; try (cbn in H; contradiction). split.
            + exists a, k, T, l. split; [reflexivity|]. intro G. apply given_away_moved in G. congruence.
            + cbn in Em, H. rewrite Em in H. destruct H as [<-|[]]. reflexivity. }
        assert (Hev2 : forall x, given_away move_of x -> In (Moved (snd x)) (event_of move_of (expression x))).
        { intros [[a e] l] H. apply given_away_moved in H. destruct e as [k T|k T|k T]; try discriminate. cbn [expression moved] in H. cbn [expression event_of snd].
          rewrite H. left. reflexivity. }
        assert (Hev3 : forall x, kept move_of x -> In (Copied (snd x)) (event_of move_of (expression x))).
        { intros x [a [k [T [l [-> H]]]]]. cbn [expression event_of snd].
          destruct (moves move_of T _) eqn:Em; [|left; reflexivity]. exfalso. apply H. apply given_away_moved. exact Em. }
        intro l. split; split.
        -- intro H. apply (Permutation_in _ P) in H. apply in_flat_map in H. destruct H as [y [Hy H]]. apply in_map_iff in Hy. destruct Hy as [x [<- Hx]].
           destruct (Hev _ _ H) as [[G E']|[_ E']]; [|discriminate]. injection E' as ->. exists x. auto.
        -- intros [x [Hx [G <-]]]. apply (Permutation_in _ (Permutation_sym P)). apply in_flat_map. exists (expression x). split; [apply in_map; exact Hx|apply Hev2; exact G].
        -- intro H. apply (Permutation_in _ P) in H. apply in_flat_map in H. destruct H as [y [Hy H]]. apply in_map_iff in Hy. destruct Hy as [x [<- Hx]].
           destruct (Hev _ _ H) as [[_ E']|[G E']]; [discriminate|]. injection E' as ->. exists x. auto.
        -- intros [x [Hx [G <-]]]. apply (Permutation_in _ (Permutation_sym P)). apply in_flat_map. exists (expression x). split; [apply in_map; exact Hx|apply Hev3; exact G].
  - intros [x [Hx Hn]]. unfold tuple_cat. rewrite E. replace (forallb _ _) with false; [reflexivity|].
    symmetry. apply not_true_iff_false. intro H. rewrite forallb_forall in H. apply Hn. apply init_ok_iff. apply H. apply in_map. exact Hx.
Qed.
Print Assumptions C91_tuple_cat.

(** Tuples that hold nothing but references: nothing is touched, not even by looking whether the objects exist. *)
Theorem C91_references_only : forall V copyable move_of (left_over : nat -> V -> V) order args st,
  (Z.of_nat (length (elements args)) < 2 ^ 64)%Z -> Permutation order (seq 0 (length (elements args))) ->
  (forall a e l, In (a, e, l) (elements args) -> ~ an_object e /\ (t_lvalue a = false \/ of_lvalue_reference e)) ->
  tuple_cat copyable move_of left_over order args st = (st, Ok (map (fun x => (snd (fst x), Refers (snd x))) (elements args))).
Proof.
  intros V copyable move_of left_over order args [os lg] Hsize Hp Hr.
  destruct (C91_tuple_cat V copyable move_of left_over order args (mk_store os lg) Hsize Hp) as [H _].
  assert (Hno : forall x, In x (elements args) -> ~ given_away move_of x /\ ~ kept move_of x).
  { intros [[a e] l] Hx. destruct (Hr a e l Hx) as [H1 _]. split.
    - intros [a' [T [l' [Ex _]]]]. injection Ex as -> -> ->. apply H1. eexists. eexists. reflexivity.
    - intros [a' [k [T [l' [Ex _]]]]]. injection Ex as -> -> ->. apply H1. eexists. eexists. reflexivity. }
  destruct H as [st' [t [E [Hf [Hlen [_ [Hsame [evs [Hlog Hev]]]]]]]]].
  - intros [[a e] l] Hx. destruct (Hr a e l Hx) as [H1 H2]. destruct e as [k T|k T|k T]; cbn.
    + exfalso. apply H1. eexists. eexists. reflexivity.
    + exact I.
    + destruct H2 as [H2|[k' [T' H2]]]; [exact H2|discriminate].
  - split.
    + intros a k T l Hx. destruct (Hr _ _ _ Hx) as [H1 _]. exfalso. apply H1. eexists. eexists. reflexivity.
    + intros i j x y Hi Hj Hne Hg. exfalso. apply (proj1 (Hno x (nth_error_In _ _ Hi))). exact Hg.
  - rewrite E. destruct st' as [os' lg']. cbn [objs log] in *. f_equal; [f_equal|f_equal].
    + apply (nth_error_ext_len _ _ _ (length os) Hlen eq_refl). intros l _. apply Hsame. intros x Hx Hg. exfalso. apply (proj1 (Hno x Hx)). exact Hg.
    + destruct evs as [|ev evs]; [rewrite Hlog; apply app_nil_r|]. exfalso. destruct ev as [l|l].
      * destruct (proj1 (proj2 (Hev l)) (or_introl eq_refl)) as [x [Hx [G _]]]. apply (proj2 (Hno x Hx)). exact G.
      * destruct (proj1 (proj1 (Hev l)) (or_introl eq_refl)) as [x [Hx [G _]]]. apply (proj1 (Hno x Hx)). exact G.
    + clear - Hf Hr. revert Hr. induction Hf as [|x s xs t Hx Hf IH]; intro Hr; [reflexivity|]. cbn [map]. f_equal.
      * destruct x as [[a e] l], s as [e' s]. destruct Hx as [H1 H2]. cbn [fst snd] in *. subst e'. destruct (Hr a e l (or_introl eq_refl)) as [H3 _].
        destruct e as [k T|k T|k T]; [exfalso; apply H3; eexists; eexists; reflexivity| |]; rewrite H2; reflexivity.
      * apply IH. intros a e l Hin. apply (Hr a e l). right. exact Hin.
Qed.
Print Assumptions C91_references_only.

Section Cases.
  (** Types: 0 is like std::string, 1 like std::unique_ptr<>, 2 like std::ostream, 3 can only be copied, 4 can be neither. *)
  Let copyable (T : nat) : bool := match T with 0 | 3 => true | _ => false end.
  Let move_of (T : nat) : move_kind := match T with 0 | 1 => Moves | 3 => CopiesInstead | _ => MoveDeleted end.
  Let left_over (T : nat) (v : Z) : Z := 0%Z.
  Let st : store Z := mk_store [10; 20; 30; 40]%Z [].

  (** auto t = std::tuple<std::string, std::unique_ptr<...>>{...}; std::ostream& os; const std::string& s:
      tuple_cat(std::move(t), std::tie(os), const-tuple with a string and a string reference). *)
  Let args : list targ :=
    [mk_targ [(EVal false 0, 0); (EVal false 1, 1)] false false;
     mk_targ [(ELRef false 2, 2)] false false;
     mk_targ [(EVal false 0, 3); (ELRef false 0, 0)] true true].
  Example C91_cat_example :
    tuple_cat copyable move_of left_over [4; 2; 0; 1; 3] args st =
      (mk_store [0; 0; 30; 40]%Z [Moved 0; Moved 1; Copied 3],
       Ok [(EVal false 0, Own 10%Z); (EVal false 1, Own 20%Z); (ELRef false 2, Refers 2); (EVal false 0, Own 40%Z); (ELRef false 0, Refers 0)]) /\
    (forall x, In x (elements args) -> can_be_passed_on copyable move_of x) /\ passed_properly move_of args (objs st).
  Proof.
    split; [vm_compute; reflexivity|]. split.
    - intros x H. cbn in H. destruct H as [<-|[<-|[<-|[<-|[<-|[]]]]]]; cbn; auto; left; reflexivity.
    - split.
      + intros a k T l H. cbn in H. cbn. destruct H as [H|[H|[H|[H|[H|[]]]]]]; inversion H; lia.
      + intros i j x y Hi Hj Hne Hg Hy.
        destruct i as [|[|[|[|[|i]]]]]; cbn in Hi; try (injection Hi as <-); try (destruct i; discriminate);
          destruct j as [|[|[|[|[|j]]]]]; cbn in Hj; try (injection Hj as <-); try (destruct j; discriminate);
          try contradiction; cbn; try discriminate;
          try (destruct Hy as [? [? Hy]]; discriminate);
          destruct Hg as [? [? [? [Hg _]]]]; discriminate.
  Qed.
  (** A std::unique_ptr<> in an lvalue tuple, and an rvalue reference in an lvalue tuple (std::forward_as_tuple() stored in a variable)
      are rejected. *)
  Example C91_rejected_example :
    tuple_cat copyable move_of left_over [0] [mk_targ [(EVal false 1, 1)] true false] st = (st, IllFormed) /\
    tuple_cat copyable move_of left_over [0] [mk_targ [(ERRef false 0, 1)] true false] st = (st, IllFormed) /\
    tuple_cat copyable move_of left_over [0] [mk_targ [(ERRef false 0, 1)] false false] st = (st, Ok [(ERRef false 0, Refers 1)]).
  Proof. vm_compute. repeat split. Qed.
  (** A tuple that is moved from twice: which half of the result has the value depends on the order. *)
  Example C91_moved_twice_example :
    let twice := [mk_targ [(EVal false 0, 0)] false false; mk_targ [(EVal false 0, 0)] false false] in
    snd (tuple_cat copyable move_of left_over [0; 1] twice st) = Ok [(EVal false 0, Own 10%Z); (EVal false 0, Own 0%Z)] /\
    snd (tuple_cat copyable move_of left_over [1; 0] twice st) = Ok [(EVal false 0, Own 0%Z); (EVal false 0, Own 10%Z)].
  Proof. vm_compute. split; reflexivity. Qed.
End Cases.

(** * C92: template_for() and the results of the functor *)
(** template_for() compiles if and only if the functor can be called for every row, and what it returns can be returned by value. *)
Theorem C92_accepted : forall V copyable move_of (left_over : nat -> V -> V) returns func N args n rows st,
  tuple_transform_size N (map arg_of args) = Ok n -> rows_of (map arg_of args) n rows ->
  (exists row, In row rows /\ forall r, returns (row_types row) = Some r -> ~ returnable copyable move_of r) ->
  template_for copyable move_of left_over returns func N args st = (st, IllFormed).
Proof.
  intros V copyable move_of left_over returns func N args n rows st Hn Hr [row [Hrow Hno]].
  unfold template_for. rewrite (all_rows_of N args n rows Hn Hr). replace (forallb _ rows) with false; [reflexivity|].
  symmetry. apply not_true_iff_false. intro H. rewrite forallb_forall in H. specialize (H row Hrow). unfold call_ok in H.
  destruct (returns (row_types row)) as [r|]; [|discriminate]. apply (Hno r eq_refl). apply returnable_iff. exact H.
Qed.
Print Assumptions C92_accepted.

(** In general, every result is turned into an object of its own, that is, what is returned by reference is copied or moved from,
    before the next call is made. *)
Theorem C92_template_for : forall V copyable move_of (left_over : nat -> V -> V) returns func N args n rows st,
  tuple_transform_size N (map arg_of args) = Ok n -> rows_of (map arg_of args) n rows ->
  (forall row, In row rows -> exists r, returns (row_types row) = Some r /\ returnable copyable move_of r) ->
  forall xs st', evaluates move_of left_over returns func st rows xs st' ->
  template_for copyable move_of left_over returns func N args st = (st', Ok tt).
Proof.
  intros V copyable move_of left_over returns func N args n rows st Hn Hr Hok xs st' He.
  unfold template_for. rewrite (all_rows_of N args n rows Hn Hr). replace (forallb _ rows) with true.
  - rewrite (template_for_rows _ _ _ n rows st Hn Hr). apply (called_template_for _ _ _ _ _ _ (map (option_map snd) xs)). eapply (evaluates_called move_of left_over). exact He.
  - symmetry. apply forallb_forall. intros row Hrow. destruct (Hok row Hrow) as [r [Er Hret]]. unfold call_ok. rewrite Er. apply returnable_iff. exact Hret.
Qed.
Print Assumptions C92_template_for.

(** The full claim is that template_for() has no effects other than those of the calls.  Proved: the objects are as the calls left them,
    unless the functor returns rvalue references that are moved from; what is missing is that nothing is copied: one copy is made for
    every result returned by reference, and none if the functor returns void or values.  This includes calls that fail. *)
Theorem C92_template_for_partial : forall V copyable move_of (left_over : nat -> V -> V) returns func N args n rows st,
  tuple_transform_size N (map arg_of args) = Ok n -> rows_of (map arg_of args) n rows ->
  (forall row, In row rows -> exists r, returns (row_types row) = Some r /\ returnable copyable move_of r /\ not_moved move_of r) ->
  returns_properly returns func ->
  template_for copyable move_of left_over returns func N args st =
    (let '(os, ys, o) := calls_alone func (objs st) rows in (mk_store os (log st ++ copies_of ys), o)) /\
  ((forall row c T, In row rows -> returns (row_types row) <> Some (RLRef c T) /\ returns (row_types row) <> Some (RRRef c T)) ->
     log (fst (template_for copyable move_of left_over returns func N args st)) = log st).
Proof.
  intros V copyable move_of left_over returns func N args n rows st Hn Hr Hok Hp.
  assert (E : template_for copyable move_of left_over returns func N args st =
    (let '(os, ys, o) := calls_alone func (objs st) rows in (mk_store os (log st ++ copies_of ys), o))).
  { unfold template_for. rewrite (all_rows_of N args n rows Hn Hr). replace (forallb _ rows) with true.
    - rewrite (template_for_rows _ _ _ n rows st Hn Hr). apply calls_copy; [exact Hp|]. intros row Hrow. destruct (Hok row Hrow) as [r [H1 [_ H2]]]. eauto.
    - symmetry. apply forallb_forall. intros row Hrow. destruct (Hok row Hrow) as [r [Er [Hret _]]]. unfold call_ok. rewrite Er. apply returnable_iff. exact Hret. }
  split; [exact E|]. intro Hnoref. rewrite E.
  assert (G : forall rs os, (forall row, In row rs -> In row rows) -> copies_of (snd (fst (calls_alone func os rs))) = []).
  { intro rs. induction rs as [|row rs IH]; intros os Hin; [reflexivity|]. cbn [calls_alone].
    destruct (func os row) as [os1 o] eqn:Ef. destruct o as [y| | | | |]; try reflexivity.
    specialize (IH os1 (fun r H => Hin r (or_intror H))). destruct (calls_alone func os1 rs) as [[os2 ys] o2]. cbn [fst snd] in *.
    unfold copies_of in *. cbn [flat_map]. rewrite IH, app_nil_r. destruct (Hok row (Hin row (or_introl eq_refl))) as [r [Er _]].
    specialize (Hp os row os1 y r Ef Er). destruct (Hnoref row) with (c := true) (T := 0) as [_ _]; [apply Hin; left; reflexivity|].
    destruct r as [|T|c T|c T].
    - subst y. reflexivity.
    - destruct Hp as [v ->]. reflexivity.
    - exfalso. apply (proj1 (Hnoref row c T (Hin row (or_introl eq_refl)))). exact Er.
    - exfalso. apply (proj2 (Hnoref row c T (Hin row (or_introl eq_refl)))). exact Er. }
  specialize (G rows (objs st) (fun _ H => H)). destruct (calls_alone func (objs st) rows) as [[os ys] o]. cbn [fst snd log] in *. rewrite G. apply app_nil_r.
Qed.
Print Assumptions C92_template_for_partial.

Section ForCases.
  Let copyable (T : nat) : bool := match T with 0 | 3 => true | _ => false end.
  Let move_of (T : nat) : move_kind := match T with 0 | 1 => Moves | 3 => CopiesInstead | _ => MoveDeleted end.
  Let left_over (T : nat) (v : Z) : Z := 0%Z.
  Let st : store Z := mk_store [10; 20; 30; 40]%Z [].
  Let args : list farg := [FTuple (mk_targ [(EVal false 0, 0); (EVal false 0, 1)] true false)].
  Let location (row : list (element xarg)) : nat := match row with Elem x :: _ => snd x | _ => 0 end.

  (** [](auto& x) { x += 1; }, [](auto& x) -> auto& { x += 1; return x; }, [](auto& x) -> auto&& { return std::move(x); } and a functor
      that returns its std::ostream&. *)
  Let bump (os : list Z) (row : list (element xarg)) : list Z :=
    upd os (location row) (match nth_error os (location row) with Some v => v + 1 | None => 0 end)%Z.
  Let quiet os row : list Z * outcome (result Z) := (bump os row, Ok Nothing).
  Let chained os row : list Z * outcome (result Z) := (bump os row, Ok (Ref (location row))).
  Let moving (os : list Z) (row : list (element xarg)) : list Z * outcome (result Z) := (os, Ok (Ref (location row))).
  Let printing (os : list Z) (row : list (element xarg)) : list Z * outcome (result Z) := (os, Ok (Ref 2)).
  Let row0 : list (element xarg) := [Elem (EVal false 0, Lvalue false, 0)].
  Let row1 : list (element xarg) := [Elem (EVal false 0, Lvalue false, 1)].

  Example C92_for_example :
    template_for copyable move_of left_over (fun _ => Some RVoid) quiet (-1) args st = (mk_store [11; 21; 30; 40]%Z [], Ok tt) /\
    template_for copyable move_of left_over (fun _ => Some (RLRef false 0)) chained (-1) args st =
      (mk_store [11; 21; 30; 40]%Z [Copied 0; Copied 1], Ok tt) /\
    rows_of (map arg_of args) 2 [row0; row1] /\ tuple_transform_size (-1) (map arg_of args) = Ok 2.
  Proof.
    split; [vm_compute; reflexivity|]. split; [vm_compute; reflexivity|]. split; [|reflexivity].
    apply rows_mapM. reflexivity.
  Qed.

  (** Copies are made although nobody wants the results. *)
  Theorem C92_copies_refuted : exists returns (func : list Z -> list (element xarg) -> list Z * outcome (result Z)) args st,
    returns_properly returns func /\
    snd (template_for copyable move_of left_over returns func (-1) args st) = Ok tt /\
    log (fst (template_for copyable move_of left_over returns func (-1) args st)) <> log st.
  Proof.
    exists (fun _ => Some (RLRef false 0)), (fun os row => (os, match nth_error os (location row) with Some _ => Ok (Ref (location row)) | None => UB end)), args, st.
    split; [|split; [vm_compute; reflexivity|vm_compute; discriminate]].
    intros os row os' y r Hf Hr. injection Hr as <-. destruct (nth_error os (location row)) as [v|] eqn:E; [|discriminate].
    injection Hf as <- <-. eexists. split; [reflexivity|]. apply nth_error_Some. rewrite E. discriminate.
  Qed.

  (** Objects to which the functor returns rvalue references lose their values, although the functor does not change them. *)
  Theorem C92_moved_from_refuted : exists returns (func : list Z -> list (element xarg) -> list Z * outcome (result Z)) args st,
    (forall os row, fst (func os row) = os) /\
    snd (template_for copyable move_of left_over returns func (-1) args st) = Ok tt /\
    objs (fst (template_for copyable move_of left_over returns func (-1) args st)) <> objs st.
  Proof.
    exists (fun _ => Some (RRRef false 0)), moving, args, st. split; [reflexivity|].
    split; [vm_compute; reflexivity|vm_compute; discriminate].
  Qed.

  (** A functor that returns a reference to an object that cannot be copied, such as a stream, cannot be used at all, although it can be
      called for every row. *)
  Theorem C92_not_copyable_refuted : exists returns (func : list Z -> list (element xarg) -> list Z * outcome (result Z)) args st,
    (forall row, returns row <> None) /\
    (exists n rows, tuple_transform_size (-1) (map arg_of args) = Ok n /\ rows_of (map arg_of args) n rows) /\
    snd (calls_alone func (objs st) [row0; row1]) = Ok tt /\
    snd (template_for copyable move_of left_over returns func (-1) args st) = IllFormed.
  Proof.
    exists (fun _ => Some (RLRef false 2)), printing, args, st. split; [discriminate|]. split.
    - exists 2, [row0; row1]. split; [reflexivity|]. apply rows_mapM. reflexivity.
    - split; vm_compute; reflexivity.
  Qed.
End ForCases.
Print Assumptions C92_copies_refuted.
Print Assumptions C92_moved_from_refuted.
Print Assumptions C92_not_copyable_refuted.

(** * C93: tuple_transform() *)
(** The result holds one object per row, none of them a reference or const: what the functor returned by value, or a copy of what it
    returned a reference to; [rows'] are the rows in the order in which they are evaluated. *)
Theorem C93_tuple_transform : forall V copyable move_of (left_over : nat -> V -> V) returns func order N args n rows rows' st,
  tuple_transform_size N (map arg_of args) = Ok n -> rows_of (map arg_of args) n rows -> Permutation order (seq 0 n) ->
  Forall2 (fun i row => nth_error rows i = Some row) order rows' ->
  (forall row, In row rows -> exists r T, returns (row_types row) = Some r /\ returnable copyable move_of r /\
     (r = RVal T \/ (exists c, r = RLRef c T) \/ (exists c, r = RRRef c T)) /\ movable copyable move_of T) ->
  forall xs st', evaluates move_of left_over returns func st rows' xs st' ->
  exists t, tuple_transform copyable move_of left_over returns func order N args st = (st', Ok t) /\ length t = n /\
    forall k i x, nth_error order k = Some i -> nth_error xs k = Some x ->
      exists T v, x = Some (T, v) /\ nth_error t i = Some (EVal false T, Own v).
Proof.
  intros V copyable move_of left_over returns func order N args n rows rows' st Hn Hr Hp Hx Hok xs st' He.
  destruct (evaluates_called _ _ _ _ _ _ _ _ He) as [Hc Ht].
  destruct (tuple_transform_ok _ _ _ n rows order st rows' _ st' Hn Hr Hp Hx Hc) as [vs [E [Hlen Hval]]].
  unfold tuple_transform. rewrite (all_rows_of N args n rows Hn Hr). replace (forallb _ rows) with true.
  2: { symmetry. apply forallb_forall. intros row Hrow. destruct (Hok row Hrow) as [r [T [Er [Hret [HT HM]]]]]. unfold transform_ok, call_ok, call_type. rewrite Er.
       apply returnable_iff in Hret. rewrite Hret. replace (decayed r) with (Some T) by (destruct HT as [->|[[c ->]|[c ->]]]; reflexivity).
       cbn [andb]. apply movable_iff. exact HM. }
  rewrite E. cbn [bind].
  assert (Lr : length rows = n) by apply Hr.
  (* element i: row, its type and the value *)
  assert (Hpos : forall i, i < n -> exists k row x, nth_error order k = Some i /\ nth_error rows i = Some row /\ nth_error xs k = Some x /\
      nth_error vs i = Some (option_map snd x) /\ call_type returns row = option_map fst x /\ exists T v, x = Some (T, v)).
  { intros i Hi. assert (Hio : In i order) by (apply (Permutation_in _ (Permutation_sym Hp)); apply in_seq; lia).
    apply In_nth_error in Hio. destruct Hio as [k Hk].
    destruct (Forall2_in_pos _ _ _ _ _ k i Hx Hk) as [row [Hrow Hrow']].
    assert (Hxk : nth_error (map (call_type returns) rows') k = Some (call_type returns row)) by (rewrite nth_error_map, Hrow; reflexivity).
    rewrite Ht, nth_error_map in Hxk. destruct (nth_error xs k) as [x|] eqn:Exk; [|discriminate]. injection Hxk as Hxk.
    exists k, row, x. split; [exact Hk|]. split; [exact Hrow'|]. split; [exact Exk|]. split; [|split].
    - rewrite (Hval k i Hk), nth_error_map, Exk. reflexivity.
    - symmetry. exact Hxk.
    - destruct (Hok row (nth_error_In _ _ Hrow')) as [r [T [Er [_ [HT _]]]]]. unfold call_type in Hxk. rewrite Er in Hxk.
      replace (decayed r) with (Some T) in Hxk by (destruct HT as [->|[[c ->]|[c ->]]]; reflexivity). destruct x as [[T' v]|]; [|discriminate]. eauto. }
  assert (Hmap : forall l (rs : list (list (element xarg))) (ws : list (option V)), length rs = l -> length ws = l ->
      (forall i row w, nth_error rs i = Some row -> nth_error ws i = Some w -> exists T v, call_type returns row = Some T /\ w = Some v) ->
      exists t, mapM (element_of returns) (combine rs ws) = Ok t /\ length t = l /\
        forall i row w T v, nth_error rs i = Some row -> nth_error ws i = Some w -> call_type returns row = Some T -> w = Some v ->
          nth_error t i = Some (EVal false T, Own v)).
  { clear. intro l. induction l as [|l IH]; intros rs ws H1 H2 H3; destruct rs as [|row rs]; destruct ws as [|w ws]; try discriminate.
    - exists []. split; [reflexivity|]. split; [reflexivity|]. intros [|i]; discriminate.
    - destruct (H3 0 row w eq_refl eq_refl) as [T [v [HT Hv]]].
      destruct (IH rs ws) as [t [Et [Lt Pt]]]; [injection H1 as H1; exact H1|injection H2 as H2; exact H2|intros i; apply (H3 (S i))|].
      exists ((EVal false T, Own v) :: t). split; [|split].
      + cbn [combine mapM]. unfold element_of at 1. cbn [fst snd]. rewrite HT, Hv. cbn [bind]. rewrite Et. reflexivity.
      + cbn. congruence.
      + intros [|i] row' w' T' v' A B C D; cbn [nth_error] in *; [|apply (Pt i row' w'); assumption]. congruence. }
  destruct (Hmap n rows vs Lr Hlen) as [t [Et [Lt Pt]]].
  { intros i row w Hrow Hw. assert (Hi : i < n) by (rewrite <- Lr; apply nth_error_Some; rewrite Hrow; discriminate).
    destruct (Hpos i Hi) as [k [row' [x [Hk [Hrow' [Hxk [Hv [Hct [T [v ->]]]]]]]]]]. exists T, v.
    replace row with row' by congruence. split; [exact Hct|]. rewrite Hw in Hv. injection Hv as ->. reflexivity. }
  exists t. rewrite Et. split; [reflexivity|]. split; [exact Lt|].
  intros k i x Hk Hxk. assert (Hi : i < n).
  { assert (In i (seq 0 n)) by (apply (Permutation_in _ Hp); eapply nth_error_In; exact Hk). apply in_seq in H. lia. }
  destruct (Hpos i Hi) as [k' [row [x' [Hk' [Hrow [Hxk' [Hv [Hct [T [v Ex']]]]]]]]]].
  assert (k' = k).
  { assert (Hd : NoDup order) by (apply (Permutation_NoDup (Permutation_sym Hp)); apply seq_NoDup).
    apply (proj1 (NoDup_nth_error order) Hd); [apply nth_error_Some; rewrite Hk'; discriminate|congruence]. }
  subst k'. exists T, v. split; [congruence|].
  apply (Pt i row (option_map snd x')); [exact Hrow|exact Hv|rewrite Hct, Ex'; reflexivity|rewrite Ex'; reflexivity].
Qed.
Print Assumptions C93_tuple_transform.

(** A call that does not return ends it; no further call is made, and nothing is done to the objects. *)
Theorem C93_failure : forall V copyable move_of (left_over : nat -> V -> V) returns func order1 i order2 N args n rows rows1 row st,
  tuple_transform_size N (map arg_of args) = Ok n -> rows_of (map arg_of args) n rows ->
  Forall2 (fun i row => nth_error rows i = Some row) order1 rows1 -> nth_error rows i = Some row ->
  (forall row, In row rows -> exists r T, returns (row_types row) = Some r /\ returnable copyable move_of r /\
     (r = RVal T \/ (exists c, r = RLRef c T) \/ (exists c, r = RRRef c T)) /\ movable copyable move_of T) ->
  forall xs st1 os o o', evaluates move_of left_over returns func st rows1 xs st1 -> func (objs st1) row = (os, o) -> ends_with o o' ->
  tuple_transform copyable move_of left_over returns func (order1 ++ i :: order2) N args st = (mk_store os (log st1), o').
Proof.
  intros V copyable move_of left_over returns func order1 i order2 N args n rows rows1 row st Hn Hr Hx Hi Hok xs st1 os o o' He Hf Ho.
  unfold tuple_transform. rewrite (all_rows_of N args n rows Hn Hr). replace (forallb _ rows) with true.
  2: { symmetry. apply forallb_forall. intros row' Hrow. destruct (Hok row' Hrow) as [r [T [Er [Hret [HT HM]]]]]. unfold transform_ok, call_ok, call_type. rewrite Er.
       apply returnable_iff in Hret. rewrite Hret. replace (decayed r) with (Some T) by (destruct HT as [->|[[c ->]|[c ->]]]; reflexivity).
       cbn [andb]. apply movable_iff. exact HM. }
  unfold TupleModel.tuple_transform. rewrite Hn, (well_formed_rows _ n rows Hr).
  destruct (evaluates_called _ _ _ _ _ _ _ _ He) as [Hc _].
  assert (Hcall : call move_of left_over returns func st1 row = (mk_store os (log st1), do _ <- o; Ok None)).
  { unfold call. destruct (Hok row (nth_error_In _ _ Hi)) as [r [T [Er _]]]. rewrite Er, Hf. destruct o; [destruct Ho|reflexivity..]. }
  assert (E : forall o2, ends_with o o2 ->
    evaluate_in (order1 ++ i :: order2) (call move_of left_over returns func) (map arg_of args) st (fun _ => None) = (mk_store os (log st1), o2)).
  { intros o2 Ho2. apply (evaluate_in_fails _ _ n rows Hr order1 i order2 st rows1 row _ st1 _ (do _ <- o; Ok None) o2 (fun _ => None) Hx Hi Hc Hcall).
    destruct o; cbn [bind ends_with] in *; auto. }
  destruct o; cbn [ends_with] in Ho; subst; try contradiction; [rewrite (E Contract)|rewrite (E (Throw e))|rewrite (E UB)|rewrite (E IllFormed)|rewrite (E OutOfFuel)]; reflexivity.
Qed.
Print Assumptions C93_failure.

(** Rejected if some call cannot be made, returns void, or returns what cannot be made an element. *)
Theorem C93_rejected : forall V copyable move_of (left_over : nat -> V -> V) returns func order N args n rows st,
  tuple_transform_size N (map arg_of args) = Ok n -> rows_of (map arg_of args) n rows ->
  (exists row, In row rows /\ forall r T, returns (row_types row) = Some r -> (r = RVal T \/ (exists c, r = RLRef c T) \/ (exists c, r = RRRef c T)) ->
     ~ (returnable copyable move_of r /\ movable copyable move_of T)) ->
  tuple_transform copyable move_of left_over returns func order N args st = (st, IllFormed).
Proof.
  intros V copyable move_of left_over returns func order N args n rows st Hn Hr [row [Hrow Hno]].
  unfold tuple_transform. rewrite (all_rows_of N args n rows Hn Hr). replace (forallb _ rows) with false; [reflexivity|].
  symmetry. apply not_true_iff_false. intro H. rewrite forallb_forall in H. specialize (H row Hrow). unfold transform_ok, call_ok, call_type in H.
  destruct (returns (row_types row)) as [r|] eqn:Er; [|discriminate]. apply andb_prop in H. destruct H as [H1 H2].
  destruct (decayed r) as [T|] eqn:Ed; [|discriminate]. apply (Hno r T eq_refl).
  - destruct r; cbn in Ed; try discriminate; injection Ed as <-; eauto.
  - split; [apply returnable_iff; exact H1|apply movable_iff; exact H2].
Qed.
Print Assumptions C93_rejected.

Section TransformCases.
  Let copyable (T : nat) : bool := match T with 0 | 3 => true | _ => false end.
  Let move_of (T : nat) : move_kind := match T with 0 | 1 => Moves | 3 => CopiesInstead | _ => MoveDeleted end.
  Let left_over (T : nat) (v : Z) : Z := 0%Z.
  Let st : store Z := mk_store [10; 20; 30; 40]%Z [].
  Let location (row : list (element xarg)) : nat := match row with Elem x :: _ => snd x | _ => 0 end.
  (** [](auto&& x) -> auto&& { return std::forward<...>(x); } for a tuple of a string and a reference to a string. *)
  Let id_returns (row : list (element (ety * category))) : option rty :=
    match row with [Elem (EVal _ T, Xvalue c)] => Some (RRRef c T) | [Elem (ELRef _ T, Lvalue c)] => Some (RLRef c T) | _ => None end.
  Let id (os : list Z) (row : list (element xarg)) : list Z * outcome (result Z) := (os, Ok (Ref (location row))).
  Example C93_transform_example :
    tuple_transform copyable move_of left_over id_returns id [1; 0] (-1) [FTuple (mk_targ [(EVal false 0, 0); (ELRef true 0, 3)] false false)] st =
      (mk_store [0; 20; 30; 40]%Z [Copied 3; Moved 0], Ok [(EVal false 0, Own 10%Z); (EVal false 0, Own 40%Z)]) /\
    evaluates move_of left_over id_returns id st [[Elem (ELRef true 0, Lvalue true, 3)]; [Elem (EVal false 0, Xvalue false, 0)]]
      [Some (0, 40%Z); Some (0, 10%Z)] (mk_store [0; 20; 30; 40]%Z [Copied 3; Moved 0]).
  Proof.
    split; [vm_compute; reflexivity|].
    eapply evaluates_cons; [reflexivity|reflexivity|apply (yields_copy move_of left_over _ 0 3 40%Z); [left; exists true; reflexivity|reflexivity]|].
    eapply evaluates_cons; [reflexivity|reflexivity|apply (yields_move move_of left_over 0 0 10%Z); reflexivity|].
    apply evaluates_nil.
  Qed.
  (** An algorithm that keeps references would have std::string& as its element type; void results are rejected. *)
  Example C93_rejected_example :
    tuple_transform copyable move_of left_over (fun _ => Some RVoid) (fun os _ => (os, Ok Nothing)) [0] (-1) [FTuple (mk_targ [(EVal false 0, 0)] true false)] st = (st, IllFormed) /\
    tuple_transform copyable move_of left_over (fun _ => Some (RVal 4)) (fun os _ => (os, Ok (Value 5%Z))) [0] (-1) [FTuple (mk_targ [(EVal false 0, 0)] true false)] st = (st, IllFormed).
  Proof. vm_compute. split; reflexivity. Qed.
  (** The functor throws for the element at 0, which comes last; the copy of the other one is discarded. *)
  Example C93_failure_example :
    tuple_transform copyable move_of left_over id_returns
      (fun os row => match location row with 0 => (upd os 2 99%Z, Throw (UserException 7)) | _ => id os row end) [1; 0] (-1)
      [FTuple (mk_targ [(EVal false 0, 0); (ELRef true 0, 3)] false false)] st = (mk_store [10; 20; 99; 40]%Z [Copied 3], Throw (UserException 7)).
  Proof. vm_compute. reflexivity. Qed.
End TransformCases.

(** * C94: reductions *)
(** The reducer gets what its last call returned, a reference remaining a reference to the same object; the caller gets an object. *)
Theorem C94_template_transform_reduce : forall V copyable move_of (left_over : nat -> V -> V) returns func red_returns red init args n rows st,
  common_size (map arg_of args) n -> rows_of (map arg_of args) n rows ->
  forall a, types_reduce copyable move_of returns red_returns (passed_as init) rows a -> returned_by_value copyable move_of a ->
  forall st1 last st2 x, reduces move_of left_over returns func red_returns red st init rows st1 last -> delivers move_of left_over last st1 st2 x ->
  template_transform_reduce copyable move_of left_over returns func red_returns red init args st = (st2, Ok x).
Proof.
  intros V copyable move_of left_over returns func red_returns red init args n rows st Hn Hr a Ht Hv st1 last st2 x Hred Hdel.
  unfold template_transform_reduce. rewrite (all_rows_of (-1) args n rows (size_common _ n Hn) Hr).
  change (@passed_as V) with (@acc_type V) in *. apply types_reduce_iff in Ht. destruct Ht as [H1 H2]. rewrite H1, H2. apply returned_by_value_iff in Hv. destruct a as [T c]. cbn [fst snd] in Hv. rewrite Hv. cbn [andb].
  rewrite (template_transform_reduce_rows _ _ _ n rows init st Hn Hr).
  rewrite (reduces_fold _ _ _ _ _ _ _ _ _ _ _ Hred). apply delivers_return. exact Hdel.
Qed.
Print Assumptions C94_template_transform_reduce.

(** A transformer or reducer that does not return ends it. *)
Theorem C94_failure : forall V copyable move_of (left_over : nat -> V -> V) returns func red_returns red init args n rows1 row rows2 st,
  common_size (map arg_of args) n -> rows_of (map arg_of args) n (rows1 ++ row :: rows2) ->
  forall a, types_reduce copyable move_of returns red_returns (passed_as init) (rows1 ++ row :: rows2) a -> returned_by_value copyable move_of a ->
  forall st1 b, reduces move_of left_over returns func red_returns red st init rows1 st1 b ->
  forall os o o', ends_with o o' ->
  (func (objs st1) row = (os, o) ->
     template_transform_reduce copyable move_of left_over returns func red_returns red init args st = (mk_store os (log st1), o')) /\
  (forall T v st2, evaluates move_of left_over returns func st1 [row] [Some (T, v)] st2 -> red_returns (passed_as b) T <> None -> red (objs st2) b v = (os, o) ->
     template_transform_reduce copyable move_of left_over returns func red_returns red init args st = (mk_store os (log st2), o')).
Proof.
  intros V copyable move_of left_over returns func red_returns red init args n rows1 row rows2 st Hn Hr a Ht Hv st1 b Hred os o o' Ho.
  unfold template_transform_reduce. rewrite (all_rows_of (-1) args n _ (size_common _ n Hn) Hr).
  change (@passed_as V) with (@acc_type V) in *. pose proof Ht as Ht'. apply types_reduce_iff in Ht. destruct Ht as [H1 H2]. rewrite H1, H2. apply returned_by_value_iff in Hv. destruct a as [T0 c0]. cbn [fst snd] in Hv. rewrite Hv. cbn [andb].
  rewrite (template_transform_reduce_rows _ _ _ n _ init st Hn Hr).
  assert (G : fold_calls (reduce_step red_returns red) (call_typed move_of left_over returns func) st init (rows1 ++ row :: rows2) =
              fold_calls (reduce_step red_returns red) (call_typed move_of left_over returns func) st1 b (row :: rows2)).
  { clear - Hred. induction Hred as [|st a row' T v st1 t os y a1 rows st2 a2 He Ht Hf Hb H IH]; [reflexivity|].
    rewrite <- IH. cbn [app fold_calls]. rewrite (call_typed_step _ _ _ _ _ _ _ _ _ He). cbn [bind].
    replace (reduce_step red_returns red st1 a (T, v)) with (mk_store os (log st1), Ok a1); [reflexivity|].
    unfold reduce_step. cbn [fst snd]. change (@passed_as V) with (@acc_type V) in *. rewrite Ht, Hf. destruct Hb; reflexivity. }
  rewrite G. cbn [fold_calls].
  split.
  - intro Hf. unfold call_typed, call.
    rewrite forallb_forall in H1. specialize (H1 row ltac:(apply in_or_app; right; left; reflexivity)). unfold call_ok in H1.
    destruct (returns (row_types row)) as [r|]; [|discriminate]. rewrite Hf.
    destruct o; cbn [ends_with] in Ho; subst; try contradiction; reflexivity.
  - intros T v st2 He Hrt Hf. rewrite (call_typed_step _ _ _ _ _ _ _ _ _ He). unfold reduce_step. cbn [fst snd].
    destruct (red_returns (acc_type b) T) as [t|]; [|contradiction]. rewrite Hf.
    destruct o; cbn [ends_with] in Ho; subst; try contradiction; reflexivity.
Qed.
Print Assumptions C94_failure.

(** Accepted only if all calls compile, none returns void, and the last accumulator can be returned by value. *)
Theorem C94_rejected : forall V copyable move_of (left_over : nat -> V -> V) returns func red_returns red init args n rows st,
  common_size (map arg_of args) n -> rows_of (map arg_of args) n rows ->
  (forall a, types_reduce copyable move_of returns red_returns (passed_as init) rows a -> ~ returned_by_value copyable move_of a) ->
  template_transform_reduce copyable move_of left_over returns func red_returns red init args st = (st, IllFormed).
Proof.
  intros V copyable move_of left_over returns func red_returns red init args n rows st Hn Hr Hno.
  unfold template_transform_reduce. rewrite (all_rows_of (-1) args n rows (size_common _ n Hn) Hr).
  destruct (forallb (call_ok copyable move_of returns) rows) eqn:E1; [|reflexivity].
  change (@passed_as V) with (@acc_type V) in *. destruct (acc_types returns red_returns rows (acc_type init)) as [[T c]|] eqn:E2; [|reflexivity].
  destruct (constructible copyable move_of T c) eqn:E3; [|reflexivity]. exfalso.
  apply (Hno (T, c)); [apply types_reduce_iff; split; assumption|apply returned_by_value_iff; exact E3].
Qed.
Print Assumptions C94_rejected.

(** template_reduce(): every element of an lvalue tuple has to be copyable, whatever the reducer wants. *)
Theorem C94_elements_copied_rejected : forall V copyable move_of (left_over : nat -> V -> V) red_returns red init a st k T l,
  In (EVal k T, l) (t_elems a) -> t_lvalue a = true -> copyable T = false ->
  template_reduce copyable move_of left_over red_returns red init a st = (st, IllFormed).
Proof.
  intros V copyable move_of left_over red_returns red init a st k T l Hin Hlv Hnc.
  apply In_nth_error in Hin. destruct Hin as [i Hi].
  assert (Hn : common_size (map arg_of [FTuple a]) (length (t_elems a))).
  { split; [exists (expressions a); left; reflexivity|]. intros l' [H|[]]. injection H as <-. apply map_length. }
  destruct (rows_within (map arg_of [FTuple a]) (length (t_elems a))) as [rows Hr].
  { intros l' [H|[]]. injection H as <-. unfold expressions. rewrite map_length. lia. }
  apply (C94_rejected V copyable move_of left_over identity_returns identity red_returns red init [FTuple a] (length (t_elems a)) rows st Hn Hr).
  intros x Ht _. apply types_reduce_iff in Ht. destruct Ht as [Hok _]. rewrite forallb_forall in Hok.
  assert (Hlt : i < length (t_elems a)) by (apply nth_error_Some; rewrite Hi; discriminate).
  destruct Hr as [Hlen Hr]. destruct (nth_error rows i) as [row|] eqn:Erow; [|apply nth_error_None in Erow; lia].
  specialize (Hok row (nth_error_In _ _ Erow)). specialize (Hr i row Erow).
  inversion Hr as [|? e ? ? He Hnil]; subst. inversion Hnil; subst. inversion He as [? v Hv| |]; subst.
  unfold expressions in Hv. rewrite nth_error_map, Hi in Hv. injection Hv as <-. cbn [fst snd] in *.
  unfold call_ok in Hok. cbn [row_types map type_of fst identity_returns get_category] in Hok. rewrite Hlv in Hok. cbn in Hok. congruence.
Qed.
Print Assumptions C94_elements_copied_rejected.

Section ReduceCases.
  Let copyable (T : nat) : bool := match T with 0 | 3 => true | _ => false end.
  Let move_of (T : nat) : move_kind := match T with 0 | 1 => Moves | 3 => CopiesInstead | _ => MoveDeleted end.
  Let left_over (T : nat) (v : Z) : Z := 0%Z.
  Let st : store Z := mk_store [10; 20; 30; 40]%Z [].
  Let strings : targ := mk_targ [(EVal false 0, 0); (EVal false 0, 1)] true false.
  (** std::plus<> for values; "acc += x; return acc;" with return type std::string&. *)
  Let plus_returns (a : nat * category) (T : nat) : option rty := Some (RVal 0).
  Let value (os : list Z) (a : acc Z) : Z := match a with AObj _ _ l => match nth_error os l with Some v => v | None => 0 end | ATemp _ v => v end%Z.
  Let plus (os : list Z) (a : acc Z) (v : Z) : list Z * outcome (result Z) := (os, Ok (Value (value os a + v)%Z)).
  Let append_returns (a : nat * category) (T : nat) : option rty := match snd a with Lvalue false => Some (RLRef false (fst a)) | _ => None end.
  Let append (os : list Z) (a : acc Z) (v : Z) : list Z * outcome (result Z) :=
    match a with AObj _ _ l => (upd os l (value os a + v)%Z, Ok (Ref l)) | ATemp _ _ => (os, IllFormed) end.

  Example C94_reduce_example :
    template_reduce copyable move_of left_over plus_returns plus (ATemp 0 5%Z) strings st =
      (mk_store [10; 20; 30; 40]%Z [Copied 0; Copied 1], Ok (0, 35%Z)) /\
    template_reduce copyable move_of left_over append_returns append (AObj 0 (Lvalue false) 3) strings st =
      (mk_store [10; 20; 30; 70]%Z [Copied 0; Copied 1; Copied 3], Ok (0, 70%Z)) /\
    types_reduce copyable move_of identity_returns plus_returns (0, Xvalue false)
      [[Elem (EVal false 0, Lvalue false, 0)]; [Elem (EVal false 0, Lvalue false, 1)]] (0, Xvalue false).
  Proof.
    split; [vm_compute; reflexivity|]. split; [vm_compute; reflexivity|]. apply types_reduce_iff. split; reflexivity.
  Qed.

  Example C94_failure_example :
    template_reduce copyable move_of left_over plus_returns (fun os a v => if (v =? 20)%Z then (upd os 2 99%Z, Throw (UserException 7)) else plus os a v) (ATemp 0 5%Z) strings st =
      (mk_store [10; 20; 99; 40]%Z [Copied 0; Copied 1], Throw (UserException 7)) /\
    template_reduce copyable move_of left_over (fun _ _ => Some (RVal 0)) plus (ATemp 0 5%Z) (mk_targ [(EVal false 1, 0)] true false) st = (st, IllFormed) /\
    template_reduce copyable move_of left_over (fun _ _ => Some (RVal 0)) plus (ATemp 0 5%Z) (mk_targ [(EVal false 1, 0)] false false) st =
      (mk_store [0; 20; 30; 40]%Z [Moved 0], Ok (0, 15%Z)).
  Proof. vm_compute. repeat split. Qed.

  (** Appending to an std::ostream that is passed along by reference is rejected, though all calls would compile. *)
  Theorem C94_stream_refuted : exists red_returns (red : list Z -> acc Z -> Z -> list Z * outcome (result Z)) init a st,
    (forall T, red_returns (passed_as init) T = Some (RLRef false 2)) /\ passed_as init = (2, Lvalue false) /\
    snd (template_reduce copyable move_of left_over red_returns red init a st) = IllFormed.
  Proof.
    exists append_returns, append, (AObj 2 (Lvalue false) 2), strings, st. split; [reflexivity|]. split; [reflexivity|]. vm_compute. reflexivity.
  Qed.
  (** Elements are copied even if the reducer takes them by reference and only looks at them. *)
  Theorem C94_copies_refuted : exists red_returns (red : list Z -> acc Z -> Z -> list Z * outcome (result Z)) init a st,
    (forall os b v, fst (red os b v) = os) /\
    In (Copied 0) (log (fst (template_reduce copyable move_of left_over red_returns red init a st))) /\ ~ In (Copied 0) (log st).
  Proof.
    exists plus_returns, plus, (ATemp 0 5%Z), strings, st. split; [reflexivity|]. split; [vm_compute; left; reflexivity|intros []].
  Qed.
End ReduceCases.
Print Assumptions C94_stream_refuted.
Print Assumptions C94_copies_refuted.
