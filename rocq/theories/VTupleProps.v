(** C87: value_tuple<> stores the values of its arguments and gives access to them. *)

From Coq Require Import ZArith Arith Bool Lia List.
From Verif Require Import Base TupleModel MoveModel MoveSpec MoveProps VTupleModel VTupleSpec VTupleProofs.
Import ListNotations.

(** make_value_tuple() stores the values of the arguments, in order.  Objects passed as rvalues are moved from if they can be;
    all others are unchanged.  For every argument there is one parameter, constructed and destroyed once, and one element, which is
    copied from it once. *)
Theorem C87_construction_partial : forall (V : Type) (moved : V -> V) objs args,
  (forall a, In a args -> a_obj a < length objs) -> Forall passable args -> Forall (fun a => copyable (a_class a) = true) args ->
  no_use_after_move args ->
  exists objs' elems es, make_value_tuple moved objs args = Ok (objs', elems, es) /\
    Forall2 (fun a v => nth_error objs (a_obj a) = Some v) args elems /\
    length objs' = length objs /\
    (forall o v, nth_error objs o = Some v ->
       ((exists a, In a args /\ a_obj a = o /\ moved_from a) -> nth_error objs' o = Some (moved v)) /\
       ((forall a, In a args -> a_obj a = o -> ~ moved_from a) -> nth_error objs' o = Some v)) /\
    (forall i, i < length args -> once es (is_param i) /\ once es (is_elem i) /\ once es (is_destroy i)) /\
    length es = 3 * length args.
Proof.
  intros V moved objs args R P C N. unfold make_value_tuple.
  destruct (init_params_result moved args objs 0 R P N) as [objs' [vs [es [E [F [L [O Ees]]]]]]].
  rewrite E. cbn [bind]. rewrite init_elems_result; [|clear - F; induction F; cbn; congruence|assumption]. cbn [bind].
  assert (Les : length es = length args) by (rewrite Ees, map_length, combine_length, seq_length; lia).
  eexists _, _, _. split; [reflexivity|]. split; [assumption|]. split; [assumption|]. split; [|split].
  - intros o v Ho. rewrite (O o v Ho). split.
    + intros [a [Ha [Eo M]]]. replace (existsb _ args) with true; [reflexivity|]. symmetry. apply existsb_exists.
      exists a. split; [assumption|]. apply andb_true_iff. split; [apply moved_b_spec; assumption|apply Nat.eqb_eq; assumption].
    + intros H. replace (existsb _ args) with false; [reflexivity|]. symmetry. apply not_true_is_false. intros X. apply existsb_exists in X.
      destruct X as [a [Ha X]]. apply andb_true_iff in X. destruct X as [X1 X2]. apply moved_b_spec in X1. apply Nat.eqb_eq in X2. exact (H a Ha X2 X1).
  - intros i Hi. unfold once. rewrite !filter_app, !app_length.
    assert (P1 : length (filter (is_param i) es) = 1) by (rewrite Ees; apply count_params; lia).
    assert (P2 : filter (is_elem i) es = [] /\ filter (is_destroy i) es = []).
    { rewrite Ees. split; apply filter_none; intros x Hx; apply in_map_iff in Hx; destruct Hx as [[j c] [<- _]]; cbn; destruct (moved_b c); reflexivity. }
    assert (Q : forall p, (forall j, p (CopyElem j) = false) -> filter p (map CopyElem (seq 0 (length args))) = []).
    { intros p Hp. apply filter_none. intros x Hx. apply in_map_iff in Hx. destruct Hx as [j [<- _]]. apply Hp. }
    assert (Q' : forall p, (forall j, p (DestroyParam j) = false) -> filter p (map DestroyParam (rev (seq 0 (length args)))) = []).
    { intros p Hp. apply filter_none. intros x Hx. apply in_map_iff in Hx. destruct Hx as [j [<- _]]. apply Hp. }
    destruct P2 as [P2 P3]. rewrite P1, P2, P3. rewrite (Q (is_param i)), (Q' (is_param i)), (Q (is_destroy i)), (Q' (is_elem i)) by reflexivity.
    rewrite !filter_map, !map_length. cbn [is_elem is_destroy length].
    assert (S1 : length (filter (fun x => Nat.eqb i x) (seq 0 (length args))) = 1) by (apply count_in_seq; lia).
    assert (S2 : length (filter (fun x => Nat.eqb i x) (rev (seq 0 (length args)))) = 1) by (rewrite count_rev; assumption).
    rewrite S1, S2. auto.
  - rewrite !app_length, !map_length, rev_length, seq_length, Les. lia.
Qed.
Print Assumptions C87_construction_partial.
Definition string_class : class := mk_class true MoveYes.
Definition number_class : class := mk_class true MoveNone.
Definition unique_class : class := mk_class false MoveYes.
Definition ex_args : list carg := [mk_carg 0 string_class true false; mk_carg 1 string_class false false; mk_carg 2 string_class false true; mk_carg 0 number_class false false].
Example C87_construction_example :
  (forall a, In a ex_args -> a_obj a < length [10; 20; 30]) /\ Forall passable ex_args /\ Forall (fun a => copyable (a_class a) = true) ex_args /\
  no_use_after_move ex_args /\
  make_value_tuple (fun _ => 0) [10; 20; 30] ex_args =
    Ok ([10; 0; 30], [10; 20; 30; 10],
        [CopyParam 0; MoveParam 1; CopyParam 2; CopyParam 3; CopyElem 0; CopyElem 1; CopyElem 2; CopyElem 3;
         DestroyParam 3; DestroyParam 2; DestroyParam 1; DestroyParam 0]).
Proof.
  split; [|split; [|split; [|split]]].
  - intros a H. cbn in H. repeat (destruct H as [<-|H]; [cbn; lia|]). destruct H.
  - unfold ex_args. repeat apply Forall_cons; try apply Forall_nil; unfold passable, moved_from; cbn; auto 7.
  - repeat constructor.
  - intros j k a b L Ha Hb [M1 [M2 M3]]. destruct j as [|[|[|[|[|j]]]]]; cbn in Ha; try discriminate; injection Ha as <-; cbn in *; try discriminate.
    destruct k as [|[|[|[|[|k]]]]]; cbn in Hb; try discriminate; try lia; injection Hb as <-; cbn; lia.
  - reflexivity.
Qed.

(** Exactly those calls are accepted for which all arguments can be passed and copied. *)
Theorem C87_rejected : forall (V : Type) (moved : V -> V) objs args, (forall a, In a args -> a_obj a < length objs) ->
  ((Forall passable args /\ Forall (fun a => copyable (a_class a) = true) args) <-> exists r, make_value_tuple moved objs args = Ok r) /\
  (~ (Forall passable args /\ Forall (fun a => copyable (a_class a) = true) args) <-> make_value_tuple moved objs args = IllFormed).
Proof.
  intros V moved objs args R. unfold make_value_tuple.
  assert (D : Forall (fun a => copyable (a_class a) = true) args \/ ~ Forall (fun a => copyable (a_class a) = true) args).
  { destruct (forallb (fun a => copyable (a_class a)) args) eqn:E.
    - left. apply Forall_forall. intros a Ha. rewrite forallb_forall in E. auto.
    - right. intros F. rewrite Forall_forall in F. apply not_true_iff_false in E. apply E. apply forallb_forall. auto. }
  destruct (init_params_total moved args objs 0 R) as [[P [objs' [vs [es [E L]]]]]|[P E]]; rewrite E; cbn [bind].
  - destruct D as [C|C].
    + rewrite init_elems_result by (auto; congruence). cbn [bind]. split; split; intros H; auto; [eauto|contradict H; auto|discriminate].
    + rewrite init_elems_fails by (auto; congruence). cbn [bind]. split; split; intros H; auto; try tauto. destruct H; discriminate.
  - split; split; intros H; auto; try tauto. destruct H; discriminate.
Qed.
Print Assumptions C87_rejected.
(** Move-only objects cannot be stored, although they can be passed. *)
Theorem C87_move_only_refuted : exists a : carg, passable a /\ moved_from a /\ make_value_tuple (fun _ => 0) [7] [a] = IllFormed.
Proof. exists (mk_carg 0 unique_class false false). unfold passable, moved_from. cbn. auto 6. Qed.
Print Assumptions C87_move_only_refuted.
(** An object that is moved from and then passed again: the arguments are evaluated from left to right. *)
Theorem C87_use_after_move : forall (V : Type) (moved : V -> V) v,
  exists es, make_value_tuple moved [v] [mk_carg 0 string_class false false; mk_carg 0 string_class true false] = Ok ([moved v], [v; moved v], es).
Proof. intros. eexists. reflexivity. Qed.
Print Assumptions C87_use_after_move.

(** get<I>(): the element; const if the tuple is const or an rvalue, or the element is; rejected exactly for indices out of range. *)
Theorem C87_get : forall ts I lvalue const,
  (forall e, nth_error ts I = Some e -> vt_get ts I lvalue const = Ok (Lvalue (negb lvalue || const || negb (modifiable e)))) /\
  (length ts <= I <-> vt_get ts I lvalue const = IllFormed).
Proof.
  intros. unfold vt_get. split.
  - intros e ->. destruct lvalue, const, e as [[]|[]|[]]; reflexivity.
  - rewrite <- nth_error_None. destruct (nth_error ts I); [|split; reflexivity]. split; [discriminate|].
    destruct (lvalue && negb const); discriminate.
Qed.
Print Assumptions C87_get.
(** The type in the tuple protocol. *)
Theorem C87_element : forall ts I const e, nth_error ts I = Some e ->
  exists e', vt_element ts I const = Ok e' /\ (const = false -> e' = e) /\ (forall c, e = EObj c -> e' = EObj (c || const)) /\
    ((forall c, e <> EObj c) -> e' = e).
Proof.
  intros ts I const e H. unfold vt_element. rewrite H. destruct e as [c|c|c]; eexists; split; try reflexivity.
  - split; [intros ->; rewrite orb_false_r; reflexivity|]. split; [intros c' E; injection E as ->; reflexivity|]. intro N. destruct (N c eq_refl).
  - split; [reflexivity|]. split; [|reflexivity]. intros c' E. discriminate.
  - split; [reflexivity|]. split; [|reflexivity]. intros c' E. discriminate.
Qed.
Print Assumptions C87_element.
Example C87_get_example :
  vt_get [EObj false; EObj true] 0 true false = Ok (Lvalue false) /\ vt_get [EObj false; EObj true] 1 true false = Ok (Lvalue true) /\
  vt_get [EObj false; EObj true] 0 true true = Ok (Lvalue true) /\ vt_get [EObj false; EObj true] 0 false false = Ok (Lvalue true) /\
  vt_get [EObj false; EObj true] 2 true false = IllFormed /\ vt_element [EObj false; EObj true] 0 true = Ok (EObj true).
Proof. repeat split. Qed.

(** Structured bindings of objects: auto& and auto const& work and denote the elements; by value they work only if all elements are
    const. *)
Theorem C87_bindings_partial : forall ts how names l, (forall e, In e ts -> exists c, e = EObj c) ->
  (vt_binding ts how names = Ok l <->
   names = length ts /\ ts <> [] /\
   ((how = ByRef /\ l = map (fun e => Lvalue (negb (modifiable e))) ts) \/
    (how = ByConstRef /\ l = map (fun _ => Lvalue true) ts) \/
    (how = ByValue /\ (forall e, In e ts -> e = EObj true) /\ l = map (fun _ => Lvalue true) ts))).
Proof.
  intros ts how names l Obj. unfold vt_binding, vt_size.
  destruct (Nat.eqb_spec names (length ts)) as [->|N]; [|split; [discriminate|intros [? _]; contradiction]]. cbn [andb].
  destruct (Nat.ltb_spec 0 (length ts)) as [L|L].
  2: { split; [discriminate|]. intros [_ [T _]]. destruct ts; [contradiction|cbn in L; lia]. }
  assert (T : ts <> []) by (intros ->; cbn in L; lia).
  assert (NE : forall n, In n (seq 0 (length ts)) -> exists c, nth_error ts n = Some (EObj c)).
  { intros n Hn. apply in_seq in Hn. destruct (nth_error ts n) as [e|] eqn:E; [|apply nth_error_None in E; lia].
    destruct (Obj e) as [c ->]; [eapply nth_error_In, E|eauto]. }
  assert (G : forall g : ety -> category, (forall n c, In n (seq 0 (length ts)) -> nth_error ts n = Some (EObj c) -> bind_name ts how n = Ok (g (EObj c))) ->
    mapM (bind_name ts how) (seq 0 (length ts)) = Ok (map g ts)).
  { intros g Hg. apply mapM_inv.
    assert (X : forall pre post, ts = pre ++ post -> Forall2 (fun a b => bind_name ts how a = Ok b) (seq (length pre) (length post)) (map g post)).
    { intros pre post. revert pre. induction post as [|e post IH]; intros pre E; cbn; [constructor|]. constructor.
      - assert (En : nth_error ts (length pre) = Some e) by (rewrite E, nth_error_app2, Nat.sub_diag by lia; reflexivity).
        destruct (Obj e) as [c ->]; [eapply nth_error_In, En|]. apply Hg; [|assumption]. apply in_seq. split; [lia|]. cbn. apply nth_error_Some. congruence.
      - specialize (IH (pre ++ [e])). rewrite app_length in IH. cbn in IH. rewrite Nat.add_1_r in IH. apply IH. rewrite <- app_assoc. assumption. }
    apply (X [] ts eq_refl). }
  destruct how.
  - (* by value *)
    assert (Each : forall n c, nth_error ts n = Some (EObj c) -> bind_name ts ByValue n = if c then Ok (Lvalue true) else IllFormed).
    { intros n c E. unfold bind_name, vt_element, vt_get. rewrite E. cbn. rewrite orb_false_r. destruct c; reflexivity. }
    split.
    + intros H. assert (All : forall e, In e ts -> e = EObj true).
      { apply mapM_inv in H. intros e He. apply In_nth_error in He. destruct He as [n Hn]. destruct (Obj e) as [c ->]; [eapply nth_error_In, Hn|].
        assert (Hs : In n (seq 0 (length ts))) by (apply in_seq; split; [lia|]; cbn; apply nth_error_Some; congruence).
        assert (K : exists b, bind_name ts ByValue n = Ok b).
        { clear - H Hs. induction H as [|x y l1 l2 H1 H2 IH]; [destruct Hs|]. destruct Hs as [->|Hs]; eauto. }
        destruct K as [b Kb]. rewrite (Each n c Hn) in Kb. destruct c; [reflexivity|discriminate]. }
      split; [reflexivity|]. split; [assumption|]. right. right. split; [reflexivity|]. split; [assumption|].
      rewrite (G (fun _ => Lvalue true)) in H; [congruence|]. intros n c _ E. rewrite (Each n c E).
      assert (EObj c = EObj true) by (apply All; eapply nth_error_In, E). injection H0 as ->. reflexivity.
    + intros [_ [_ [[F _]|[[F _]|[_ [All ->]]]]]]; try discriminate. apply (G (fun _ => Lvalue true)). intros n c _ E. rewrite (Each n c E).
      assert (X : EObj c = EObj true) by (apply All; eapply nth_error_In, E). injection X as ->. reflexivity.
  - assert (Each : mapM (bind_name ts ByRef) (seq 0 (length ts)) = Ok (map (fun e => Lvalue (negb (modifiable e))) ts)).
    { apply (G (fun e => Lvalue (negb (modifiable e)))). intros n c _ E. unfold bind_name, vt_element, vt_get. rewrite E. cbn. rewrite orb_false_r. destruct c; reflexivity. }
    rewrite Each. split.
    + intros H. injection H as <-. auto 7.
    + intros [_ [_ [[_ ->]|[[F _]|[F _]]]]]; [reflexivity|discriminate|discriminate].
  - assert (Each : mapM (bind_name ts ByConstRef) (seq 0 (length ts)) = Ok (map (fun _ => Lvalue true) ts)).
    { apply (G (fun _ => Lvalue true)). intros n c _ E. unfold bind_name, vt_element, vt_get. rewrite E. cbn. rewrite orb_true_r. reflexivity. }
    rewrite Each. split.
    + intros H. injection H as <-. auto 7.
    + intros [_ [_ [[F _]|[[_ ->]|[F _]]]]]; [discriminate|reflexivity|discriminate].
Qed.
Print Assumptions C87_bindings_partial.
Example C87_bindings_example :
  vt_binding [EObj false; EObj true] ByRef 2 = Ok [Lvalue false; Lvalue true] /\ vt_binding [EObj false; EObj true] ByConstRef 2 = Ok [Lvalue true; Lvalue true] /\
  vt_binding [EObj false; EObj true] ByValue 2 = IllFormed /\ vt_binding [EObj true; EObj true] ByValue 2 = Ok [Lvalue true; Lvalue true] /\
  vt_binding [EObj false; EObj true] ByRef 1 = IllFormed.
Proof. repeat split. Qed.
(** "auto [a, b] = make_value_tuple(1, 2)" is rejected. *)
Theorem C87_bindings_by_value_refuted : exists ts, (forall e, In e ts -> constructible e = true) /\ vt_size ts = 2 /\
  vt_binding ts ByRef 2 = Ok [Lvalue false; Lvalue false] /\ vt_binding ts ByValue 2 = IllFormed.
Proof. exists [EObj false; EObj false]. split; [|repeat split]. intros e [<-|[<-|[]]]; reflexivity. Qed.
Print Assumptions C87_bindings_by_value_refuted.
(** References to non-const objects become references to const objects if the tuple is const, and cannot be bound. *)
Theorem C87_references_refuted : exists ts, (forall e, In e ts -> constructible e = true) /\
  vt_get ts 0 true false = Ok (Lvalue false) /\ vt_get ts 0 true true = Ok (Lvalue true) /\
  vt_element ts 0 true = Ok (ELRef false) /\ vt_binding ts ByConstRef 1 = IllFormed.
Proof. exists [ELRef false]. split; [|repeat split]. intros e [<-|[]]; reflexivity. Qed.
Print Assumptions C87_references_refuted.

(** Concatenation of value tuples copies all elements and changes no tuple, even those passed as rvalues. *)
Theorem C87_cat : forall V (m : memory V) args (values : list (list V)),
  Forall2 (fun a vs => nth_error m (fst a) = Some (map Some vs)) args values -> (Z.of_nat (length (concat values)) < 2 ^ 64)%Z ->
  exists m', vt_cat m args = (m', Ok (concat values)) /\ forall o i, cell m' o i = cell m o i.
Proof.
  intros V m args values F B. unfold vt_cat.
  destruct (C67_cat V m (map vt_arg args) values) as [m' [E [H _]]].
  - clear B. induction F as [|a vs args values Ha F IH]; cbn; [constructor|]. constructor; [exact Ha|exact IH].
  - intros j k o rv Hj _. apply nth_error_In in Hj. apply in_map_iff in Hj. destruct Hj as [[x y] [Hj _]]. discriminate.
  - assumption.
  - exists m'. split; [assumption|]. intros o i. apply H. intros Hin. apply in_map_iff in Hin. destruct Hin as [[x y] [Hj _]]. discriminate.
Qed.
Print Assumptions C87_cat.
Example C87_cat_example : vt_cat [[Some 1; Some 2]; [Some 3]] [(0, true); (1, false); (0, true)] = ([[Some 1; Some 2]; [Some 3]], Ok [1; 2; 3; 1; 2]).
Proof. vm_compute. reflexivity. Qed.
(** So rvalues are not moved, unlike those of std::tuple<>. *)
Theorem C87_moved_refuted : exists (m : memory nat) args, vt_cat m args = (m, Ok [1; 2]) /\ cat_from m args = ([[None; None]], Ok [1; 2]).
Proof. exists [[Some 1; Some 2]], [(0, true)]. split; vm_compute; reflexivity. Qed.
Print Assumptions C87_moved_refuted.
