(** Proofs about ProtoModel.v: the results of the algorithms, and the functions on one range. *)

From Coq Require Import ZArith Arith Bool Lia List.
From Verif Require Import Base ZipModel ZipSpec ProtoModel ProtoSpec ProtoProofs ProtoLoopProofs ProtoRunProofs ProtoCountProofs.
Import ListNotations.

Local Open Scope Z_scope.

Section Results.
  Variable env : history -> event -> outcome Z.
  Variable ord : history -> nat -> list nat.
  Hypothesis Hord : evaluation_order ord.

  Lemma count_if_result : forall rs fuel h n, range_count_if env ord fuel rs [] = (h, Ok n) ->
    n = Z.of_nat (length (filter (fun b => b) (answers h))).
  Proof.
    intros rs fuel h n H. unfold range_count_if in H. unfold bindM at 1 in H.
    destruct (algorithm env ord fuel _ 0 rs []) as [h1 o1] eqn:X.
    assert (R : match o1 with Ok (inl a') => a' = Z.of_nat (length (filter (fun b => b) (answers h1)))
                | Ok (inr _) => True | _ => True end).
    { eapply (call_track env ord Hord Z Empty_set _ rs (fun n h => n = Z.of_nat (length (filter (fun b => b) (answers h))))
                  (fun _ _ => True) (fun _ => True) fuel 0 h1 o1); [| | | | |exact X].
      - intros a h0 e x -> He _. now rewrite answers_other.
      - auto.
      - intros a args h0 h' o -> E. unfold bindM, emit in E.
        destruct (env h0 (EFunc args)) as [z| | | | |]; injection E as <- <-; auto.
        rewrite answers_call, filter_app, app_length, Nat2Z.inj_add. unfold truth. destruct (z =? 0); simpl; lia.
      - reflexivity.
      - intros a args. apply honest_call. }
    destruct o1 as [[a|[]]| | | | |]; try discriminate. unfold ret in H. injection H as <- <-. exact R.
  Qed.

  Lemma until_result : forall (goon : bool) (f : Z -> unit + bool) res rs fuel h o,
    (forall z, f z = if Bool.eqb (negb (z =? 0)) goon then inl tt else inr res) ->
    algorithm env ord fuel (fun (_ : unit) args => bindM (emit env (EFunc args)) (fun z => ret (f z))) tt rs [] = (h, o) ->
    match o with
    | Ok (inl _) => exists m, answers h = repeat goon m
    | Ok (inr r) => r = res /\ exists m, answers h = repeat goon m ++ [negb goon]
    | _ => exists m, answers h = repeat goon m
    end.
  Proof.
    intros goon f res rs fuel h o Hf H.
    eapply (call_track env ord Hord unit bool _ rs (fun _ h => exists m, answers h = repeat goon m)
              (fun r h => r = res /\ exists m, answers h = repeat goon m ++ [negb goon])
              (fun h => exists m, answers h = repeat goon m) fuel tt); [| | | | |exact H].
    - intros a h0 e x [m E] He _. exists m. now rewrite answers_other.
    - auto.
    - intros a args h0 h' o0 [m E] G. unfold bindM, emit in G.
      destruct (env h0 (EFunc args)) as [z| | | | |] eqn:Y; injection G as <- <-;
        try (exists m; rewrite answers_app, E; cbn; now rewrite app_nil_r).
      rewrite Hf. rewrite answers_call, E. destruct (Bool.eqb (negb (z =? 0)) goon) eqn:B.
      + apply eqb_prop in B. rewrite B. exists (S m). now rewrite <- repeat_cons.
      + split; auto. exists m. f_equal. f_equal. destruct (z =? 0), goon; simpl in *; congruence.
    - now exists O.
    - intros a args. apply honest_call.
  Qed.

  Lemma transform_reduce_result : forall rs fuel init h o, range_transform_reduce env ord fuel init rs [] = (h, o) ->
    exists z, reduced init h = Some z /\ (forall r, o = Ok r -> r = z).
  Proof.
    intros rs fuel init h o H. unfold range_transform_reduce in H. unfold bindM at 1 in H.
    destruct (algorithm env ord fuel _ init rs []) as [h1 o1] eqn:X.
    assert (R : match o1 with Ok (inl a') => reduced init h1 = Some a'
                | Ok (inr _) => True | _ => exists z, reduced init h1 = Some z end).
    { eapply (call_track env ord Hord Z Empty_set _ rs (fun a h => reduced init h = Some a)
                  (fun _ _ => True) (fun h => exists z, reduced init h = Some z) fuel init h1 o1); [| | | | |exact X].
      - intros a h0 e x E _ He. rewrite reduced_app, E. destruct e; auto. now destruct (He acc x0).
      - eauto.
      - intros a args h0 h' o0 E G. unfold bindM at 1 in G. unfold emit at 1 in G.
        destruct (env h0 (EFunc args)) as [y| | | | |];
          try (injection G as <- <-; exists a; rewrite reduced_app, E; reflexivity).
        unfold bindM, emit in G.
        destruct (env (h0 ++ [(EFunc args, Ok y)]) (EReduce a y)) as [z| | | | |]; injection G as <- <-;
          [|exists a ..]; rewrite !reduced_app, E; cbn; now rewrite Z.eqb_refl.
      - reflexivity.
      - intros a args. apply honest_bind; [apply honest_emit; exact I|]. intros x. apply honest_bind; [apply honest_emit; exact I | intros z; apply honest_ret]. }
    destruct o1 as [[a|[]]| | | | |]; unfold ret in H; injection H as <- <-.
    - exists a. split; auto. intros r E. now injection E.
    - destruct R as [z R]. exists z. split; auto. discriminate.
    - destruct R as [z R]. exists z. split; auto. discriminate.
    - destruct R as [z R]. exists z. split; auto. discriminate.
    - destruct R as [z R]. exists z. split; auto. discriminate.
    - destruct R as [z R]. exists z. split; auto. discriminate.
  Qed.
  (** * One range *)

  Lemma emit_all_trace : forall l h h' o, emit_all env l h = (h', o) ->
    exists t rest, h' = h ++ t /\ l = map fst t ++ rest /\ (o = Ok tt -> rest = []).
  Proof.
    induction l as [|e l IH]; intros h h' o H; simpl in H.
    - injection H as <- <-. exists [], []. rewrite app_nil_r. auto.
    - unfold bindM, emit in H. destruct (env h e) as [z| | | | |] eqn:X;
        try (injection H as <- <-; match type of X with _ = ?x => exists [(e, x)] end; exists l; split; [auto|]; split; [auto | discriminate]).
      destruct (IH _ _ _ H) as (t & rest & -> & -> & E). exists ((e, Ok z) :: t), rest.
      split; [now rewrite <- app_assoc|]. split; auto.
  Qed.

  Definition no_cmp (e : event) : Prop := match e with ECmp _ => False | _ => True end.

  Lemma comparisons_app : forall a b, comparisons (a ++ b) = comparisons a ++ comparisons b.
  Proof. intros. unfold comparisons. now rewrite flat_map_app. Qed.
  Lemma comparisons_none : forall t, Forall no_cmp (map fst t) -> comparisons t = [].
  Proof.
    induction t as [|[e x] t IH]; intros H; auto. simpl in H. inversion H; subst.
    change ((e, x) :: t) with ([(e, x)] ++ t). rewrite comparisons_app, (IH H3). destruct e; simpl in *; auto; contradiction.
  Qed.

  Lemma single_loop_trace : forall round fuel h h' o, Forall no_cmp round -> single_loop env fuel round h = (h', o) ->
    exists t n rest, h' = h ++ t /\
      concat (repeat (ECmp 0 :: round ++ [EInc 0]) n) ++ [ECmp 0] = map fst t ++ rest /\
      (o = Ok tt -> rest = [] /\ comparisons t = repeat false n ++ [true]) /\
      (o <> Ok tt -> Forall (eq false) (comparisons t)).
  Proof.
    intros round. induction fuel as [|fuel IH]; intros h h' o Hr H; simpl in H.
    - injection H as <- <-. exists [], O, [ECmp 0]. rewrite app_nil_r. split; auto. split; auto. split; [discriminate|].
      intros _. constructor.
    - unfold bindM at 1 in H. unfold emit in H. destruct (env h (ECmp 0)) as [z| | | | |] eqn:X.
      2-6: injection H as <- <-; match type of X with _ = ?x => exists [(ECmp 0, x)], O, [] end; split; [auto|]; split; [auto|];
           split; [discriminate | intros _; constructor].
      unfold truth in H. destruct (Z.eqb_spec z 0) as [->|Hz]; cbn [negb] in H.
      + unfold bindM at 1 in H. destruct (emit_all env round (h ++ [(ECmp 0, Ok 0)])) as [h1 o1] eqn:Y.
        destruct (emit_all_trace _ _ _ _ Y) as (t1 & r1 & -> & E1 & F1).
        assert (N1 : Forall no_cmp (map fst t1)) by (rewrite E1 in Hr; now apply Forall_app in Hr).
        assert (C1 : comparisons ((ECmp 0, Ok 0) :: t1) = [false]).
        { change ((ECmp 0, Ok 0) :: t1) with ([(ECmp 0, Ok 0)] ++ t1). rewrite comparisons_app, (comparisons_none _ N1). reflexivity. }
        destruct o1 as [[]| | | | |].
        2-6: injection H as <- <-; exists ((ECmp 0, Ok 0) :: t1), 1%nat, (r1 ++ [EInc 0] ++ [ECmp 0]);
             split; [now rewrite <- app_assoc|]; split; [cbn; rewrite E1, app_nil_r, <- !app_assoc; reflexivity|];
             split; [discriminate | intros _; rewrite C1; repeat constructor].
        assert (R1 : r1 = []) by auto. subst r1. rewrite app_nil_r in E1.
        unfold bindM at 1 in H. unfold emit in H.
        destruct (env ((h ++ [(ECmp 0, Ok 0)]) ++ t1) (EInc 0)) as [w| | | | |] eqn:W.
        2-6: injection H as <- <-; match type of W with _ = ?x => exists (((ECmp 0, Ok 0) :: t1) ++ [(EInc 0, x)]), 1%nat, [ECmp 0] end;
             split; [now rewrite <- !app_assoc|]; split; [cbn; rewrite E1, app_nil_r, map_app, <- !app_assoc; reflexivity|];
             split; [discriminate | intros _; rewrite comparisons_app, C1; repeat constructor].
        destruct (IH _ _ _ Hr H) as (t & n & rest & -> & E & F & G).
        exists (((ECmp 0, Ok 0) :: t1) ++ [(EInc 0, Ok w)] ++ t), (S n), rest.
        split; [now rewrite <- !app_assoc|].
        split; [cbn [repeat concat]; rewrite <- app_assoc, E, E1, !map_app; cbn; rewrite <- !app_assoc; reflexivity|].
        assert (C : comparisons (((ECmp 0, Ok 0) :: t1) ++ [(EInc 0, Ok w)] ++ t) = false :: comparisons t).
        { rewrite comparisons_app, C1. cbn [app]. change ((EInc 0, Ok w) :: t) with ([(EInc 0, Ok w)] ++ t).
          rewrite comparisons_app. reflexivity. }
        split.
        * intros Ho. destruct (F Ho) as [F1' F2]. split; auto. rewrite C, F2. reflexivity.
        * intros Ho. rewrite C. constructor; auto.
      + injection H as <- <-. exists [(ECmp 0, Ok z)], O, []. split; auto. split; auto. split; [|congruence].
        intros _. split; auto. cbn. destruct (Z.eqb_spec z 0); [contradiction | reflexivity].
  Qed.

  Lemma single_trace : forall round fuel h o, Forall no_cmp round -> single env fuel round [] = (h, o) ->
    exists n rest, rounds round n = map fst h ++ rest /\
      (o = Ok tt -> rest = [] /\ comparisons h = repeat false n ++ [true]) /\
      (o <> Ok tt -> Forall (eq false) (comparisons h)).
  Proof.
    intros round fuel h o Hr H. unfold single in H. unfold bindM at 1 in H. unfold emit in H.
    destruct (env [] (EBegin 0)) as [z| | | | |] eqn:X; cbn [app] in H.
    2-6: injection H as <- <-; exists O, ([EEnd 0; ECmp 0]); split; [reflexivity|]; split; [discriminate | intros _; constructor].
    unfold bindM at 1 in H. destruct (env [(EBegin 0, Ok z)] (EEnd 0)) as [w| | | | |] eqn:Y; cbn [app] in H.
    2-6: injection H as <- <-; exists O, ([ECmp 0]); split; [reflexivity|]; split; [discriminate | intros _; constructor].
    destruct (single_loop_trace _ _ _ _ _ Hr H) as (t & n & rest & -> & E & F & G).
    exists n, rest. unfold rounds. rewrite E. split; [reflexivity|]. split; auto.
  Qed.

  Lemma reduce_loop_trace : forall fuel acc h h' o, reduce_loop env fuel acc h = (h', o) ->
    exists t n rest z, h' = h ++ t /\
      concat (repeat (ECmp 0 :: [EDeref 0; EReduce 0 0] ++ [EInc 0]) n) ++ [ECmp 0] = map (fun x => forget (fst x)) t ++ rest /\
      (forall r, o = Ok r -> rest = [] /\ comparisons t = repeat false n ++ [true] /\ r = z) /\
      ((forall r, o <> Ok r) -> Forall (eq false) (comparisons t)) /\
      reduced acc t = Some z /\ forall l, fed l t.
  Proof.
    induction fuel as [|fuel IH]; intros acc h h' o H; simpl in H.
    - injection H as <- <-. exists [], O, [ECmp 0], acc. rewrite app_nil_r. split; auto. split; auto. split; [discriminate|].
      split; [constructor|]. split; [reflexivity | intros l; exact I].
    - unfold bindM at 1 in H. unfold emit at 1 in H. destruct (env h (ECmp 0)) as [z| | | | |] eqn:X.
      2-6: injection H as <- <-; match type of X with _ = ?x => exists [(ECmp 0, x)], O, [], acc end; split; [auto|]; split; [auto|];
           split; [discriminate|]; split; [constructor|]; split; [reflexivity | intros l; exact I].
      unfold truth in H. destruct (Z.eqb_spec z 0) as [->|Hz]; cbn [negb] in H.
      + unfold bindM at 1 in H. unfold emit at 1 in H. destruct (env _ (EDeref 0)) as [x| | | | |] eqn:Y.
        2-6: injection H as <- <-; match type of Y with _ = ?y => exists [(ECmp 0, Ok 0); (EDeref 0, y)], 1%nat, [EReduce 0 0; EInc 0; ECmp 0], acc end;
             rewrite <- app_assoc; split; [auto|]; split; [auto|];
             split; [discriminate|]; split; [repeat constructor|]; split; [reflexivity | intros l; exact I].
        unfold bindM at 1 in H. unfold emit at 1 in H. destruct (env _ (EReduce acc x)) as [acc'| | | | |] eqn:W.
        2-6: injection H as <- <-; match type of W with _ = ?y => exists [(ECmp 0, Ok 0); (EDeref 0, Ok x); (EReduce acc x, y)], 1%nat, [EInc 0; ECmp 0], acc end;
             rewrite <- !app_assoc; split; [auto|]; split; [auto|];
             split; [discriminate|]; split; [repeat constructor|]; split; [cbn; now rewrite Z.eqb_refl | intros l; cbn; auto].
        unfold bindM at 1 in H. unfold emit at 1 in H. destruct (env _ (EInc 0)) as [i| | | | |] eqn:V.
        2-6: injection H as <- <-; match type of V with _ = ?y => exists [(ECmp 0, Ok 0); (EDeref 0, Ok x); (EReduce acc x, Ok acc'); (EInc 0, y)], 1%nat, [ECmp 0], acc' end;
             rewrite <- !app_assoc; split; [auto|]; split; [auto|];
             split; [discriminate|]; split; [repeat constructor|]; split; [cbn; now rewrite Z.eqb_refl | intros l; cbn; auto].
        destruct (IH _ _ _ _ H) as (t & n & rest & z & -> & E & F & G & R1 & R2).
        exists ([(ECmp 0, Ok 0); (EDeref 0, Ok x); (EReduce acc x, Ok acc'); (EInc 0, Ok i)] ++ t), (S n), rest, z.
        split; [now rewrite <- !app_assoc|].
        split; [cbn [repeat concat]; rewrite <- app_assoc, E, map_app; reflexivity|].
        split; [|split; [|split]].
        * intros r Hr. destruct (F r Hr) as (F1 & F2 & F3). split; auto. split; auto. rewrite comparisons_app, F2. reflexivity.
        * intros Hr. rewrite comparisons_app. constructor; auto.
        * cbn. rewrite Z.eqb_refl. exact R1.
        * intros l. cbn. auto.
      + injection H as <- <-. exists [(ECmp 0, Ok z)], O, [], acc. split; auto. split; auto. split; [|split; [|split]].
        * intros r Hr. split; auto. split; [|congruence]. cbn. destruct (Z.eqb_spec z 0); [contradiction | reflexivity].
        * intros Hr. now destruct (Hr acc).
        * reflexivity.
        * intros l. exact I.
  Qed.

  Lemma reduce_trace : forall fuel init h o, range_reduce env fuel init [] = (h, o) ->
    exists n rest z, rounds [EDeref 0; EReduce 0 0] n = map (fun x => forget (fst x)) h ++ rest /\
      (forall r, o = Ok r -> rest = [] /\ comparisons h = repeat false n ++ [true] /\ r = z) /\
      ((forall r, o <> Ok r) -> Forall (eq false) (comparisons h)) /\
      reduced init h = Some z /\ fed None h.
  Proof.
    intros fuel init h o H. unfold range_reduce in H. unfold bindM at 1 in H. unfold emit in H.
    destruct (env [] (EBegin 0)) as [z| | | | |] eqn:X; cbn [app] in H.
    2-6: injection H as <- <-; exists O, ([EEnd 0; ECmp 0]), init; split; [reflexivity|]; split; [discriminate|];
         split; [constructor|]; split; [reflexivity | exact I].
    unfold bindM at 1 in H. destruct (env [(EBegin 0, Ok z)] (EEnd 0)) as [w| | | | |] eqn:Y; cbn [app] in H.
    2-6: injection H as <- <-; exists O, ([ECmp 0]), init; split; [reflexivity|]; split; [discriminate|];
         split; [constructor|]; split; [reflexivity | exact I].
    destruct (reduce_loop_trace _ _ _ _ _ H) as (t & n & rest & r & -> & E & F & G & R1 & R2).
    exists n, rest, r. unfold rounds. rewrite E. split; [reflexivity|]. split; auto. split; auto. split; auto. cbn. auto.
  Qed.
End Results.
