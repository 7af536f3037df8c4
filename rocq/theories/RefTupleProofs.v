(** Lemmas about tuples of references and results returned by reference. *)

From Coq Require Import ZArith Arith Bool Lia List Permutation.
From Verif Require Import Base ZipSpec TupleModel TupleSpec TupleProofs RefTupleModel RefTupleSpec.
Import ListNotations.

Section Proofs.
  Context {V : Type}.
  Variable copyable : nat -> bool.
  Variable move_of : nat -> move_kind.
  Variable left_over : nat -> V -> V.

  Notation construct := (construct move_of left_over).
  Notation init_in := (init_in move_of left_over).

  Lemma movable_iff : forall T, movable copyable move_of T <-> constructible copyable move_of T (Xvalue false) = true.
  Proof. clear left_over. intro T. unfold movable, constructible. destruct (move_of T); intuition discriminate. Qed.

  (** ** Concatenation *)
  Definition expression (x : targ * ety * nat) : xarg :=
    let '(a, e, l) := x in (e, get_category e (t_lvalue a) (t_const a), l).
  Lemma elements_expressions : forall args, concat (map expressions args) = map expression (elements args).
  Proof.
    intro args. induction args as [|a args IH]; [reflexivity|]. cbn [map concat elements]. rewrite map_app, IH. f_equal.
    unfold expressions. rewrite map_map. reflexivity.
  Qed.

  Lemma init_ok_iff : forall x, init_ok copyable move_of (fst (fst (expression x))) (snd (fst (expression x))) = true <->
    can_be_passed_on copyable move_of x.
  Proof.
    clear left_over. intros [[[es lv k] e] l]. cbn [expression fst snd t_lvalue t_const]. destruct e as [c T|c T|c T]; cbn [get_category init_ok can_be_passed_on t_lvalue t_const].
    - destruct lv, k, c; cbn [orb]; try apply iff_refl; symmetry; apply movable_iff.
    - destruct c; cbn; intuition.
    - destruct lv, c; cbn; intuition.
  Qed.

  Definition moved (x : xarg) : bool :=
    match x with (EVal _ T, c, _) => moves move_of T c | _ => false end.
  Definition is_value (x : xarg) : Prop := exists k T, fst (fst x) = EVal k T.
  Lemma given_away_moved : forall x, given_away move_of x <-> moved (expression x) = true.
  Proof.
    intros [[[es lv k] e] l]. split.
    - intros [a [T [l' [E [H1 [H2 H3]]]]]]. injection E as <- -> ->. cbn in H1, H2. subst. cbn. rewrite H3. reflexivity.
    - destruct e as [c T|c T|c T]; cbn; try discriminate. destruct lv, c, k; cbn; try discriminate.
      destruct (move_of T) eqn:E; try discriminate. intros _. repeat eexists. exact E.
  Qed.

  Definition event_of (x : xarg) : list event :=
    match x with (EVal _ T, c, l) => [if moves move_of T c then Moved l else Copied l] | _ => [] end.

  Definition slot_ok (os : list V) (x : xarg) (s : ety * slot V) : Prop :=
    fst s = fst (fst x) /\
    match fst (fst x) with EVal _ _ => exists v, nth_error os (snd x) = Some v /\ snd s = Own v | _ => snd s = Refers (snd x) end.

  Lemma init_in_spec : forall xs order st elems, NoDup order -> (forall i, In i order -> i < length xs) ->
    (forall i x, In i order -> nth_error xs i = Some x -> is_value x -> snd x < length (objs st)) ->
    (forall i j x y, In i order -> In j order -> i <> j -> nth_error xs i = Some x -> nth_error xs j = Some y ->
       moved x = true -> is_value y -> snd x <> snd y) ->
    exists st' elems', init_in order xs st elems = (st', Ok elems') /\
      (forall i, ~ In i order -> elems' i = elems i) /\
      (forall i x, In i order -> nth_error xs i = Some x -> exists s, elems' i = Some s /\ slot_ok (objs st) x s) /\
      length (objs st') = length (objs st) /\
      (forall i e T c l v, In i order -> nth_error xs i = Some (EVal e T, c, l) -> moves move_of T c = true -> nth_error (objs st) l = Some v ->
         nth_error (objs st') l = Some (left_over T v)) /\
      (forall l, (forall i x, In i order -> nth_error xs i = Some x -> moved x = true -> snd x <> l) ->
         nth_error (objs st') l = nth_error (objs st) l) /\
      log st' = log st ++ flat_map (fun i => match nth_error xs i with Some x => event_of x | None => [] end) order.
  Proof.
    intros xs order. induction order as [|i order IH]; intros st elems Hd Hb Hl Ha.
    - exists st, elems. cbn. rewrite app_nil_r. repeat split; try reflexivity; try (intros; contradiction).
    - inversion Hd as [|? ? Hni Hd']; subst.
      assert (Hi : i < length xs) by (apply Hb; left; reflexivity).
      destruct (nth_error xs i) as [x|] eqn:Ex; [|apply nth_error_None in Ex; lia].
      cbn [RefTupleModel.init_in]. rewrite Ex.
      assert (Hstep : exists st1 s, init_element move_of left_over x st = (st1, Ok s) /\ slot_ok (objs st) x s /\
        length (objs st1) = length (objs st) /\ log st1 = log st ++ event_of x /\
        (forall l, (moved x = true -> snd x <> l) -> nth_error (objs st1) l = nth_error (objs st) l) /\
        (forall e T c l v, x = (EVal e T, c, l) -> moves move_of T c = true -> nth_error (objs st) l = Some v -> nth_error (objs st1) l = Some (left_over T v))).
      { destruct x as [[e c] l]. destruct e as [k T|k T|k T]; cbn [init_element].
        2, 3: exists st; eexists; split; [reflexivity|]; split; [split; reflexivity|]; split; [reflexivity|]; split; [cbn; rewrite app_nil_r; reflexivity|]; split; [reflexivity|]; intros; discriminate.
        assert (Hlt : l < length (objs st)) by (apply (Hl i (EVal k T, c, l)); [left; reflexivity|assumption|exists k, T; reflexivity]).
        destruct (nth_error (objs st) l) as [v|] eqn:Ev; [|apply nth_error_None in Ev; lia].
        unfold RefTupleModel.construct. rewrite Ev. destruct (moves move_of T c) eqn:Em.
        - eexists. eexists. split; [reflexivity|]. split; [split; [reflexivity|]; cbn; exists v; split; [exact Ev|reflexivity]|].
          cbn [objs log]. split; [apply upd_length|]. split; [cbn; rewrite Em; reflexivity|]. split.
          + intros l' Hne. apply nth_error_upd_other. apply Hne. cbn. exact Em.
          + intros e' T' c' l' v' E' _ Ev'. injection E' as _ <- _ <-. rewrite Ev' in Ev. injection Ev as <-. apply nth_error_upd_same. exact Hlt.
        - eexists. eexists. split; [reflexivity|]. split; [split; [reflexivity|]; cbn; exists v; split; [exact Ev|reflexivity]|].
          cbn [objs log]. split; [reflexivity|]. split; [cbn; rewrite Em; reflexivity|]. split; [reflexivity|].
          intros e' T' c' l' v' E' Em' _. injection E' as _ <- <- _. congruence. }
      destruct Hstep as [st1 [s [E1 [Hs [Hlen [Hlog [Hsame Hmoved]]]]]]]. rewrite E1.
      destruct (IH st1 (fun j => if Nat.eqb j i then Some s else elems j) Hd') as [st' [elems' [E2 [K1 [K2 [K3 [K4 [K5 K6]]]]]]]].
      + intros j Hj. apply Hb. right. exact Hj.
      + intros j y Hj Ey Hv. rewrite Hlen. apply (Hl j y); try assumption. right. exact Hj.
      + intros j1 j2 x1 x2 H1 H2. apply Ha; right; assumption.
      + assert (Hkeep : forall j y, In j order -> nth_error xs j = Some y -> is_value y -> nth_error (objs st1) (snd y) = nth_error (objs st) (snd y)).
        { intros j y Hj Ey Hv. apply Hsame. intros Hm. apply (Ha i j x y); try assumption; [left; reflexivity|right; assumption|intros ->; contradiction]. }
        exists st', elems'. split; [exact E2|]. split; [|split; [|split; [|split; [|split]]]].
        * intros j Hj. rewrite K1 by (intro; apply Hj; right; assumption). destruct (Nat.eqb_spec j i) as [->|]; [exfalso; apply Hj; left; reflexivity|reflexivity].
        * intros j y [<-|Hj] Ey.
          -- rewrite Ex in Ey. injection Ey as <-. exists s. split; [|exact Hs]. rewrite K1 by exact Hni. rewrite Nat.eqb_refl. reflexivity.
          -- destruct (K2 j y Hj Ey) as [s' [Es [Hf Hv]]]. exists s'. split; [exact Es|]. split; [exact Hf|].
             destruct (fst (fst y)) as [k T|k T|k T] eqn:Ef; try exact Hv.
             rewrite <- (Hkeep j y Hj Ey); [exact Hv|]. exists k, T. exact Ef.
        * rewrite K3. exact Hlen.
        * intros j e T c l v [<-|Hj] Ey Hm Ev.
          -- rewrite Ex in Ey. injection Ey as ->. rewrite K5.
             ++ apply (Hmoved e T c l v eq_refl Hm Ev).
             ++ intros j y Hj Ey Hmy. intro Heq. apply (Ha j i y (EVal e T, c, l)); try assumption; [right; assumption|left; reflexivity|intros ->; contradiction|exists e, T; reflexivity].
          -- apply (K4 j e T c l v Hj Ey Hm). rewrite <- Ev. apply (Hkeep j _ Hj Ey). exists e, T. reflexivity.
        * intros l Hno. rewrite K5.
          -- apply Hsame. intro Hm. apply (Hno i x); [left; reflexivity|assumption|assumption].
          -- intros j y Hj Ey Hmy. apply (Hno j y); [right; assumption|assumption|assumption].
        * rewrite K6, Hlog, <- app_assoc. cbn [flat_map]. rewrite Ex. reflexivity.
  Qed.

  Lemma flat_map_order : forall A (xs : list xarg) (f : xarg -> list A) order, Permutation order (seq 0 (length xs)) ->
    Permutation (flat_map (fun i => match nth_error xs i with Some x => f x | None => [] end) order) (flat_map f xs).
  Proof.
    intros A xs f order H.
    transitivity (flat_map (fun i => match nth_error xs i with Some x => f x | None => [] end) (seq 0 (length xs))).
    - clear - H. revert H. generalize (seq 0 (length xs)) as l. intros l H. induction H; cbn [flat_map].
      + constructor.
      + apply Permutation_app_head. assumption.
      + rewrite !app_assoc. apply Permutation_app_tail. apply Permutation_app_comm.
      + etransitivity; eassumption.
    - replace (flat_map (fun i => match nth_error xs i with Some x => f x | None => [] end) (seq 0 (length xs))) with (flat_map f xs); [reflexivity|].
      clear. assert (G : forall l2 l1, xs = l1 ++ l2 -> flat_map f l2 = flat_map (fun i => match nth_error xs i with Some x => f x | None => [] end) (seq (length l1) (length l2))).
      { intro l2. induction l2 as [|x l2 IH]; intros l1 E; [reflexivity|]. cbn [length seq flat_map].
        rewrite E at 1. rewrite nth_error_app2 by lia. rewrite Nat.sub_diag. cbn [nth_error]. f_equal.
        specialize (IH (l1 ++ [x])). rewrite app_length in IH. cbn [length] in IH. rewrite Nat.add_1_r in IH. apply IH. rewrite <- app_assoc. exact E. }
      apply (G xs []). reflexivity.
  Qed.

  (** ** Results *)
  Lemma yields_return : forall r y st st' x, yields move_of left_over r y st st' x ->
    return_auto move_of left_over r y st = (st', Ok (option_map snd x)) /\ option_map fst x = decayed r.
  Proof.
    intros r y st st' x H. destruct H as [st|T v st|r T l v st Hr Hv|T l v st Hm Hv]; cbn; try (split; reflexivity).
    - destruct Hr as [[c ->]|[->|[-> Hm]]]; cbn; unfold RefTupleModel.construct; rewrite Hv; cbn [moves].
      1, 2: split; reflexivity. destruct (move_of T) eqn:E; try contradiction; split; reflexivity.
    - unfold RefTupleModel.construct. rewrite Hv. cbn [moves]. rewrite Hm. split; reflexivity.
  Qed.

  Lemma returnable_iff : forall r, returnable copyable move_of r <-> return_ok copyable move_of r = true.
  Proof.
    intros [|T|c T|[] T]; cbn [returnable return_ok]; try (split; reflexivity); try apply iff_refl. apply movable_iff.
  Qed.

  Section Functor.
    Variable returns : list (element (ety * category)) -> option rty.
    Variable func : list V -> list (element xarg) -> list V * outcome (result V).
    Notation call := (call move_of left_over returns func).

    Lemma call_step : forall st row r os y st1 x, returns (row_types row) = Some r -> func (objs st) row = (os, Ok y) ->
      yields move_of left_over r y (mk_store os (log st)) st1 x ->
      call st row = (st1, Ok (option_map snd x)) /\ call_type returns row = option_map fst x.
    Proof.
      intros st row r os y st1 x Hr Hf Hy. unfold RefTupleModel.call, call_type. rewrite Hr, Hf.
      destruct (yields_return _ _ _ _ _ Hy) as [E1 E2]. rewrite E1. split; [reflexivity|symmetry; exact E2].
    Qed.

    Lemma evaluates_called : forall st rows xs st', evaluates move_of left_over returns func st rows xs st' ->
      called call st rows (map (option_map snd) xs) st' /\ map (call_type returns) rows = map (option_map fst) xs.
    Proof.
      intros st rows xs st' H. induction H as [st|st row r os y st1 x rows xs st2 Hr Hf Hy H [IH1 IH2]]; [split; [constructor|reflexivity]|].
      destruct (call_step _ _ _ _ _ _ _ Hr Hf Hy) as [E1 E2]. cbn [map]. split.
      - econstructor; [exact E1|exact IH1].
      - rewrite E2, IH2. reflexivity.
    Qed.

    Lemma all_rows_of : forall N args n rows, tuple_transform_size N (map arg_of args) = Ok n ->
      rows_of (map arg_of args) n rows -> all_rows N args = Ok rows.
    Proof.
      intros N args n rows Hn Hr. unfold all_rows. rewrite Hn. cbn [bind]. apply rows_mapM. exact Hr.
    Qed.

    Lemma called_template_for : forall S X R (f : S -> list (element X) -> S * outcome R) s rows rs s', called f s rows rs s' ->
      call_each (drop_result f) s rows = (s', Ok tt).
    Proof.
      intros S X R f s rows rs s' H. induction H as [|s x r s1 l rs s2 Hx Hc IH]; [reflexivity|].
      cbn [call_each]. unfold drop_result at 1. rewrite Hx. exact IH.
    Qed.

    (** A call with its result copied. *)
    Lemma call_copies : forall st row r, returns_properly returns func -> returns (row_types row) = Some r -> not_moved move_of r ->
      drop_result call st row =
        (let '(os, o) := func (objs st) row in
         match o with
         | Ok y => (mk_store os (log st ++ copies_of [y]), Ok tt)
         | _ => (mk_store os (log st), do _ <- o; Ok tt)
         end).
    Proof.
      intros st row r Hp Hr Hm. unfold drop_result, RefTupleModel.call. rewrite Hr.
      destruct (func (objs st) row) as [os o] eqn:Ef. destruct o as [y| | | | |]; try reflexivity.
      specialize (Hp _ _ _ _ r Ef Hr). destruct r as [|T|c T|c T].
      - subst y. cbn. rewrite app_nil_r. reflexivity.
      - destruct Hp as [v ->]. cbn. rewrite app_nil_r. reflexivity.
      - destruct Hp as [l [-> Hl]]. cbn. unfold RefTupleModel.construct. cbn [objs log moves].
        destruct (nth_error os l) eqn:E; [reflexivity|apply nth_error_None in E; lia].
      - destruct Hp as [l [-> Hl]]. cbn. unfold RefTupleModel.construct. cbn [objs log].
        destruct (nth_error os l) eqn:E; [|apply nth_error_None in E; lia].
        replace (moves move_of T (Xvalue c)) with false; [reflexivity|]. destruct c; [reflexivity|]. cbn.
        specialize (Hm T eq_refl). destruct (move_of T); congruence.
    Qed.

    Lemma calls_copy : forall rows st, returns_properly returns func ->
      (forall row, In row rows -> exists r, returns (row_types row) = Some r /\ not_moved move_of r) ->
      call_each (drop_result call) st rows =
        (let '(os, ys, o) := calls_alone func (objs st) rows in (mk_store os (log st ++ copies_of ys), o)).
    Proof.
      intros rows. induction rows as [|row rows IH]; intros st Hp Hr.
      - cbn. rewrite app_nil_r. destruct st. reflexivity.
      - cbn [call_each calls_alone]. destruct (Hr row (or_introl eq_refl)) as [r [Er Hm]].
        rewrite (call_copies st row r Hp Er Hm). destruct (func (objs st) row) as [os o].
        destruct o as [y| | | | |]; cbn [bind]; try (unfold copies_of; cbn [flat_map]; rewrite app_nil_r; reflexivity).
        rewrite IH; [|assumption|intros row' Hin; apply Hr; right; exact Hin]. cbn [objs log].
        destruct (calls_alone func os rows) as [[os2 ys] o2]. f_equal. f_equal. rewrite <- app_assoc. unfold copies_of. cbn [flat_map]. rewrite app_nil_r. reflexivity.
    Qed.
  End Functor.

  (** ** Reduction *)
  Section Reducer.
    Variable returns : list (element (ety * category)) -> option rty.
    Variable func : list V -> list (element xarg) -> list V * outcome (result V).
    Variable red_returns : nat * category -> nat -> option rty.
    Variable red : list V -> acc V -> V -> list V * outcome (result V).

    Lemma call_typed_step : forall st row T v st', evaluates move_of left_over returns func st [row] [Some (T, v)] st' ->
      call_typed move_of left_over returns func st row = (st', Ok (T, v)).
    Proof.
      intros st row T v st' H. destruct (evaluates_called _ _ _ _ _ _ H) as [Hc Ht].
      inversion Hc as [|? ? ? s1 ? ? ? Hf Hn]; subst. inversion Hn; subst. unfold call_typed. rewrite Hf. cbn in Ht. injection Ht as Ht.
      cbn [option_map snd bind]. rewrite Ht. reflexivity.
    Qed.

    Lemma reduces_fold : forall st a rows st' a', reduces move_of left_over returns func red_returns red st a rows st' a' ->
      fold_calls (reduce_step red_returns red) (call_typed move_of left_over returns func) st a rows = (st', Ok a').
    Proof.
      intros st a rows st' a' H. induction H as [|st a row T v st1 t os y a1 rows st2 a2 He Ht Hf Hb H IH]; [reflexivity|].
      cbn [fold_calls]. rewrite (call_typed_step _ _ _ _ _ He). cbn [bind].
      replace (reduce_step red_returns red st1 a (T, v)) with (mk_store os (log st1), Ok a1); [exact IH|].
      unfold reduce_step. cbn [fst snd]. change passed_as with (@acc_type V) in *; rewrite Ht, Hf. destruct Hb; reflexivity.
    Qed.

    Lemma delivers_return : forall a st st' x, delivers move_of left_over a st st' x -> return_acc move_of left_over a st = (st', Ok x).
    Proof.
      intros a st st' x H. destruct H as [T v st|T c l st st' x H]; [reflexivity|].
      destruct (yields_return _ _ _ _ _ H) as [E1 E2]. cbn [return_acc].
      assert (G : return_auto move_of left_over (match c with Lvalue k => RLRef k T | Xvalue k => RRRef k T end) (Ref l) st =
        (let '(st', o) := construct T c l st in (st', do v <- o; Ok (Some v)))) by (destruct c; reflexivity).
      rewrite G in E1. destruct (construct T c l st) as [st1 o]. destruct x as [T' v']. cbn [option_map snd fst] in *.
      assert (ET : T' = T) by (destruct c; cbn in E2; congruence). subst T'.
      destruct o; cbn [bind] in E1; try discriminate. injection E1 as <- <-. reflexivity.
    Qed.

    Lemma types_reduce_iff : forall rows a a', types_reduce copyable move_of returns red_returns a rows a' <->
      (forallb (call_ok copyable move_of returns) rows = true /\ acc_types returns red_returns rows a = Some a').
    Proof.
      intros rows. induction rows as [|row rows IH]; intros a a'.
      - cbn. split; [intro H; inversion H; subst; split; reflexivity|intros [_ H]; injection H as <-; constructor].
      - split.
        + intro H. inversion H as [|? ? r T t a1 ? ? Hr Hok HT Ht Ha1 H']; subst. apply IH in H'. destruct H' as [H1 H2].
          cbn [forallb acc_types]. unfold call_ok at 1, call_type. rewrite Hr. apply returnable_iff in Hok. rewrite Hok, H1. split; [reflexivity|].
          replace (decayed r) with (Some T) by (destruct HT as [->|[[c ->]|[c ->]]]; reflexivity). rewrite Ht.
          destruct Ha1 as [U [[-> ->]|[[c [-> ->]]|[c [-> ->]]]]]; exact H2.
        + cbn [forallb acc_types]. unfold call_ok at 1, call_type. intros [H1 H2]. apply andb_prop in H1. destruct H1 as [H0 H1].
          destruct (returns (row_types row)) as [r|] eqn:Er; [|discriminate].
          destruct (decayed r) as [T|] eqn:Ed; [|discriminate]. destruct (red_returns a T) as [t|] eqn:Et; [|discriminate].
          destruct (passed_on t) as [a1|] eqn:Ep; [|discriminate].
          apply (types_cons copyable move_of returns red_returns a row r T t a1 rows a' Er).
          * apply returnable_iff. exact H0.
          * destruct r; cbn in Ed; try discriminate; injection Ed as <-; [left; reflexivity|right; left; eexists; reflexivity|right; right; eexists; reflexivity].
          * exact Et.
          * destruct t; cbn in Ep; try discriminate; injection Ep as <-; eexists; [left|right; left|right; right]; repeat eexists; reflexivity.
          * apply IH. split; assumption.
    Qed.

    Lemma returned_by_value_iff : forall a, returned_by_value copyable move_of a <-> constructible copyable move_of (fst a) (snd a) = true.
    Proof. intros [T [c|[]]]; cbn [fst snd]; unfold returned_by_value; cbn [fst snd]; try apply iff_refl. apply movable_iff. Qed.
  End Reducer.
End Proofs.
