(** Proofs about the forms of metadata. *)

From Coq Require Import String Ascii ZArith Arith Bool Lia List.
From Verif Require Import Base TupleModel TupleProofs MetaModel MetaSpec MetaProofs MetaFormsSpec.
Import ListNotations.

Lemma first_entry_unique : forall Q m x y, first_entry Q m x -> first_entry Q m y -> x = y.
Proof.
  intros Q m x y [[Hm ->]|[Hm [l [pre [post [Hl [-> [Hx Hpre]]]]]]]] [[Hm' ->]|[Hm' [l' [pre' [post' [Hl' [El [Hy Hpre']]]]]]]]; try tauto.
  subst l'. assert (E := tuple_or_array_inj _ _ _ Hl Hl'). clear Hl Hl' Hm Hm'. revert pre' Hpre' E.
  induction pre as [|a pre IH]; intros [|b pre'] Hpre' E; cbn in E.
  - congruence.
  - injection E as -> _. destruct (Hpre' b (or_introl eq_refl)). assumption.
  - injection E as -> _. destruct (Hpre y (or_introl eq_refl)). assumption.
  - injection E as -> E. apply IH with pre'; [intros; apply Hpre; right; assumption|intros; apply Hpre'; right; assumption|assumption].
Qed.

Lemma first_no_entry : forall Q m x, first_entry Q m x -> no_entry Q m -> False.
Proof.
  intros Q m x [[Hm ->]|[Hm [l [pre [post [Hl [-> [Hx _]]]]]]]] [N1 N2]; [tauto|].
  apply (N2 _ x Hl); [apply in_or_app; right; left; reflexivity|assumption].
Qed.

Lemma first_entry_q : forall Q m x, first_entry Q m x -> Q x.
Proof. intros Q m x [[Hm ->]|[Hm [l [pre [post [Hl [-> [Hx _]]]]]]]]; assumption. Qed.

Lemma first_entry_wt : forall Q m x, well_typed m -> first_entry Q m x -> well_typed x.
Proof.
  intros Q m x W [[Hm ->]|[Hm [l [pre [post [Hl [-> [Hx _]]]]]]]]; [assumption|].
  assert (We := wt_elements m W). rewrite (proj2 (element_types_ok m _ W Hl)) in We.
  apply (proj1 (Forall_forall _ _) We). apply in_or_app; right; left; reflexivity.
Qed.

Section Entry.
  Variables (Q : md -> Prop) (q : mty -> bool).
  Hypothesis HQ : forall x, well_typed x -> (Q x <-> q (type_of x) = true).
  Hypothesis Hstr : forall M, is_string M = true -> q M = false.
  Hypothesis Hnull : q TNullopt = false.

  Lemma extract_cases : forall m, well_typed m ->
    (exists x, extract_metadata q 0 m = Some x /\ first_entry Q m x) \/ (extract_metadata q 0 m = None /\ no_entry Q m).
  Proof.
    intros m W.
    assert (Pr : forall y, q (type_of y) = true -> promote y = y).
    { intros y Hy. apply promote_id. apply not_true_iff_false. intro S. apply Hstr in S. congruence. }
    destruct (q (type_of m)) eqn:E.
    - left. exists m. split; [|left; split; [apply HQ; assumption|reflexivity]].
      rewrite extract_whole; [rewrite Pr by assumption; reflexivity| |assumption]. destruct m; try reflexivity. cbn in E. congruence.
    - assert (Nm : ~ Q m) by (intro K; apply HQ in K; [congruence|assumption]).
      destruct (tuple_or_array_dec m) as [[l Hl]|Hn].
      + rewrite (extract_tuple q 0 m l W Hl (fun _ => E)).
        assert (We := wt_elements m W). rewrite (proj2 (element_types_ok m _ W Hl)) in We.
        assert (G : (exists x pre post, l = pre ++ x :: post /\ Q x /\ (forall y, In y pre -> ~ Q y) /\
                       option_map promote (nth_error (filter (fun x => q (type_of x)) l) 0) = Some x) \/
                    ((forall y, In y l -> ~ Q y) /\ option_map promote (nth_error (filter (fun x => q (type_of x)) l) 0) = None)).
        { clear Hl E Nm W. induction We as [|a l Wa We IH]; [right; split; [intros y []|reflexivity]|].
          cbn [filter]. destruct (q (type_of a)) eqn:Ea.
          - left. exists a, [], l. split; [reflexivity|]. split; [apply HQ; assumption|]. split; [intros y []|]. cbn. rewrite Pr by assumption. reflexivity.
          - assert (Na : ~ Q a) by (intro K; apply HQ in K; [congruence|assumption]).
            destruct IH as [[x [pre [post [-> [Hx [Hp He]]]]]]|[Hp He]].
            + left. exists x, (a :: pre), post. split; [reflexivity|]. split; [assumption|]. split; [|assumption]. intros y [<-|Hy]; auto.
            + right. split; [|assumption]. intros y [<-|Hy]; auto. }
        destruct G as [[x [pre [post [El [Hx [Hp He]]]]]]|[Hp He]].
        * left. exists x. split; [assumption|]. right. split; [assumption|]. exists l, pre, post. auto.
        * right. split; [assumption|]. split; [assumption|]. intros l' y Hl' Hy. rewrite (tuple_or_array_inj _ _ _ Hl' Hl) in Hy. auto.
      + right. split.
        * destruct (is_available m) eqn:A; [|unfold extract_metadata; rewrite A; reflexivity].
          rewrite (extract_leaf q 0 m Hn A), E, andb_false_r. reflexivity.
        * split; [assumption|]. intros l y Hl. destruct (Hn l Hl).
  Qed.

  Lemma extract_some : forall m x, well_typed m -> (extract_metadata q 0 m = Some x <-> first_entry Q m x).
  Proof.
    intros m x W. destruct (extract_cases m W) as [[y [E F]]|[E N]]; rewrite E; split; intro H.
    - injection H as <-. assumption.
    - f_equal. eapply first_entry_unique; eassumption.
    - discriminate.
    - destruct (first_no_entry _ _ _ H N).
  Qed.
  Lemma extract_none : forall m, well_typed m -> (extract_metadata q 0 m = None <-> no_entry Q m).
  Proof.
    intros m W. destruct (extract_cases m W) as [[y [E F]]|[E N]]; rewrite E; split; intro H; try discriminate; try assumption; try reflexivity.
    destruct (first_no_entry _ _ _ F H).
  Qed.
End Entry.

(** * The general scheme of extract_bases(), extract_values() and extract_members() *)
Section Scheme.
  Variables (P : md -> Prop) (L LR : md -> list md -> Prop) (compiles : md -> Prop) (none : option (list md)).
  Variables (p l lr : mty -> bool).
  Hypothesis HP : forall x, well_typed x -> (P x <-> p (type_of x) = true).
  Hypothesis HR : forall x, well_typed x -> ((exists y, P y /\ record_about x y) <-> is_record p (type_of x) = true).
  Hypothesis HL : forall x, well_typed x -> ((exists xs, L x xs) <-> l (type_of x) = true).
  Hypothesis HLR : forall x, well_typed x -> ((exists xs, LR x xs) <-> lr (type_of x) = true).
  Hypothesis Lel : forall x xs, L x xs -> elements x = xs.
  Hypothesis LRel : forall x xs, LR x xs -> elements x = xs.
  Hypothesis Sp : forall M, is_string M = true \/ M = TNullopt -> p M = false /\ l M = false /\ lr M = false.
  Variable column : md -> outcome (list md).
  Hypothesis Hcol : forall x rs, well_typed x -> LR x rs -> compiles x -> exists xs, column x = Ok xs /\ Forall2 record_about rs xs.
  Hypothesis Hcol' : forall x rs, well_typed x -> LR x rs -> ~ compiles x -> column x = IllFormed.
  Hypothesis compiles_dec : forall x, compiles x \/ ~ compiles x.

  Definition scheme (m : md) (rest : outcome (option (list md))) : outcome (option (list md)) :=
    match extract_metadata lr 0 m with
    | Some x => do c <- column x; Ok (Some c)
    | None =>
        match extract_metadata l 0 m with
        | Some x => Ok (Some (elements x))
        | None =>
            match extract_metadata (is_record p) 0 m with
            | Some r => match nth_error (elements r) 0 with Some x => Ok (Some [x]) | None => IllFormed end
            | None =>
                match extract_metadata p 0 m with
                | Some b => Ok (Some [b])
                | None => rest
                end
            end
        end
    end.

  Lemma about_unique : forall r x y, record_about r x -> record_about r y -> x = y.
  Proof. intros r x y [a Ha] [b Hb]. assert (E := tuple_or_array_inj _ _ _ Ha Hb). congruence. Qed.
  Lemma about_lists : forall rs xs ys, Forall2 record_about rs xs -> Forall2 record_about rs ys -> xs = ys.
  Proof.
    intros rs xs ys F. revert ys. induction F as [|r x rs xs H F IH]; intros ys G; inversion G; subst; [reflexivity|].
    f_equal; [eapply about_unique; eassumption|auto].
  Qed.
  Lemma about_head : forall r x, record_about r x -> nth_error (elements r) 0 = Some x.
  Proof. intros r x [a [->|[t ->]]]; reflexivity. Qed.

  Let record (x : md) : Prop := exists y, P y /\ record_about x y.
  Let Srec : forall M, is_string M = true -> is_record p M = false.
  Proof. intros M H. destruct M; try discriminate. reflexivity. Qed.

  Lemma scheme_ok : forall m rest, well_typed m -> (no_entry P m -> rest = Ok none) ->
    forall o, scheme m rest = Ok o <-> listing P L LR compiles none m o.
  Proof.
    intros m rest W Hrest o. unfold scheme.
    assert (D1 := extract_cases _ lr HLR (fun M H => proj2 (proj2 (Sp M (or_introl H)))) (proj2 (proj2 (Sp _ (or_intror eq_refl)))) m W).
    assert (D2 := extract_cases _ l HL (fun M H => proj1 (proj2 (Sp M (or_introl H)))) (proj1 (proj2 (Sp _ (or_intror eq_refl)))) m W).
    assert (D3 := extract_cases record (is_record p) HR Srec eq_refl m W).
    assert (D4 := extract_cases _ p HP (fun M H => proj1 (Sp M (or_introl H))) (proj1 (Sp _ (or_intror eq_refl))) m W).
    destruct D1 as [[x1 [E1 F1]]|[E1 N1]]; rewrite E1.
    { destruct (first_entry_q _ _ _ F1) as [rs Hrs]. assert (W1 := first_entry_wt _ _ _ W F1).
      assert (K : forall o, listing P L LR compiles none m o -> compiles x1 /\ exists xs, o = Some xs /\ Forall2 record_about rs xs).
      { intros o' H. destruct H as [x rs' xs H1 H2 H3 H4|x xs H1|x y H1|x H1|H1]; try (destruct (first_no_entry _ _ _ F1 H1)).
        assert (x = x1) by (eapply first_entry_unique; eassumption). subst x. split; [assumption|]. exists xs. split; [reflexivity|].
        replace rs with rs'; [assumption|]. rewrite <- (LRel _ _ H2). apply LRel. assumption. }
      destruct (compiles_dec x1) as [C|C].
      - destruct (Hcol x1 rs W1 Hrs C) as [xs [Ex Fx]]. rewrite Ex. cbn [bind]. split; intro H.
        + injection H as <-. eapply listing_records; eassumption.
        + destruct (K o H) as [_ [ys [-> Fy]]]. rewrite (about_lists _ _ _ Fx Fy). reflexivity.
      - rewrite (Hcol' x1 rs W1 Hrs C). cbn [bind]. split; intro H; [discriminate|]. destruct (K o H) as [K1 _]. contradiction. }
    destruct D2 as [[x2 [E2 F2]]|[E2 N2]]; rewrite E2.
    { destruct (first_entry_q _ _ _ F2) as [xs Hxs]. rewrite (Lel _ _ Hxs). split; intro H.
      - injection H as <-. eapply listing_plain; eassumption.
      - destruct H as [x rs' xs' H1 H2 H3 H4|x xs' H1 H2 H3|x y H1 H2|x H1 H2|H1 H2];
          try (destruct (first_no_entry _ _ _ F2 H2)); try (destruct (first_no_entry _ _ _ H1 N1)).
        assert (x = x2) by (eapply first_entry_unique; eassumption). subst x. rewrite <- (Lel _ _ H3), (Lel _ _ Hxs). reflexivity. }
    destruct D3 as [[x3 [E3 F3]]|[E3 N3]]; rewrite E3.
    { destruct (first_entry_q _ _ _ F3) as [y [Py Ry]]. rewrite (about_head _ _ Ry). split; intro H.
      - injection H as <-. eapply listing_record; eassumption.
      - destruct H as [x rs' xs' H1 H2 H3 H4|x xs' H1 H2 H3|x y' H1 H2 H3 H4|x H1 H2 H3|H1 H2 H3];
          try (destruct (first_no_entry _ _ _ F3 H3)); try (destruct (first_no_entry _ _ _ H1 N1)); try (destruct (first_no_entry _ _ _ H2 N2)).
        assert (x = x3) by (eapply first_entry_unique; eassumption). subst x. rewrite (about_unique _ _ _ Ry H4). reflexivity. }
    destruct D4 as [[x4 [E4 F4]]|[E4 N4]]; rewrite E4.
    { split; intro H.
      - injection H as <-. eapply listing_single; eassumption.
      - destruct H as [x rs' xs' H1 H2 H3 H4|x xs' H1 H2 H3|x y' H1 H2 H3 H4|x H1 H2 H3 H4|H1 H2 H3 H4];
          try (destruct (first_no_entry _ _ _ F4 H4)); try (destruct (first_no_entry _ _ _ H1 N1)); try (destruct (first_no_entry _ _ _ H2 N2));
          try (destruct (first_no_entry _ _ _ H3 N3)).
        assert (x = x4) by (eapply first_entry_unique; eassumption). subst x. reflexivity. }
    rewrite (Hrest N4). split; intro H.
    - injection H as <-. apply listing_none; assumption.
    - destruct H as [x rs' xs' H1 H2 H3 H4|x xs' H1 H2 H3|x y' H1 H2 H3 H4|x H1 H2 H3 H4|H1 H2 H3 H4];
        try (destruct (first_no_entry _ _ _ H1 N1)); try (destruct (first_no_entry _ _ _ H2 N2));
        try (destruct (first_no_entry _ _ _ H3 N3)); try (destruct (first_no_entry _ _ _ H4 N4)). reflexivity.
  Qed.
End Scheme.

(** * Lists of any subjects *)
Lemma any_list_ok : forall (P : md -> Prop) p, (forall x, well_typed x -> (P x <-> p (type_of x) = true)) ->
  forall x, well_typed x -> ((exists xs, any_list P x xs) <-> is_tuple_of p (type_of x) = true).
Proof.
  intros P p HP x W. unfold is_tuple_of. destruct (tuple_or_array_dec x) as [[l Hl]|Hn].
  - destruct (element_types_ok x l W Hl) as [E1 E2]. rewrite E1, forallb_forall. assert (We := wt_elements x W). rewrite E2 in We.
    assert (G := proj1 (Forall_forall _ _) We). split.
    + intros [xs [H1 H2]] M HM. rewrite (tuple_or_array_inj _ _ _ H1 Hl) in H2. apply in_map_iff in HM. destruct HM as [y [<- Hy]].
      apply HP; [auto|]. apply (proj1 (Forall_forall _ _) H2). assumption.
    + intro H. exists l. split; [assumption|]. apply Forall_forall. intros y Hy. apply HP; [auto|]. apply H. apply in_map. assumption.
  - rewrite (proj1 (element_types_none x Hn)). split; [|discriminate]. intros [xs [H1 _]]. destruct (Hn _ H1).
Qed.

Lemma any_list_elements : forall P x l, any_list P x l -> elements x = l.
Proof. intros P x l [[->|[r ->]] _]; reflexivity. Qed.

Lemma column_of : forall (P : md -> Prop) p, (forall x, P x <-> p (type_of x) = true) -> (forall M, is_string M = true -> p M = false) ->
  forall rs, Forall (fun r => exists y, P y /\ record_about r y) rs -> exists xs, mapM (get_promoted 0) rs = Ok xs /\ Forall2 record_about rs xs.
Proof.
  intros P p HP Hs rs F. induction F as [|r rs [y [Ky R]] F IH]; [exists []; split; [reflexivity|constructor]|].
  destruct IH as [xs [E G]]. exists (y :: xs). split; [|constructor; assumption].
  cbn [mapM]. unfold get_promoted at 1. rewrite (about_head _ _ R). cbn [bind]. rewrite promote_id.
  - rewrite E. reflexivity.
  - apply not_true_iff_false. intro S. apply Hs in S. apply HP in Ky. congruence.
Qed.

Lemma base_kind : forall ib T x, base_of ib T x <-> is_base ib T (type_of x) = true.
Proof.
  intros ib T x. split.
  - intros [u [-> H]]. exact H.
  - intro H. destruct x; try discriminate. eexists. split; [reflexivity|exact H].
Qed.

Lemma is_tuple_dec : forall x, is_tuple x \/ ~ is_tuple x.
Proof. intro x. destruct x; try (right; intros [l' E]; discriminate). left. eexists. reflexivity. Qed.

(** Bases and members are extracted alike. *)
Lemma tuple_scheme : forall (P : md -> Prop) p, (forall x, P x <-> p (type_of x) = true) -> (forall M, is_string M = true \/ M = TNullopt -> p M = false) ->
  forall m rest none, well_typed m -> (no_entry P m -> rest = Ok none) -> forall o,
  scheme p (is_tuple_of p) (is_tuple_of (is_record p)) (extract_heterogeneous_column 0) m rest = Ok o <->
  listing P (any_list P) (any_record_list P) is_tuple none m o.
Proof.
  intros P p HP Hs m rest none W Hr o.
  assert (HR := is_record_ok P p HP).
  apply scheme_ok; auto.
  - intros x Wx. rewrite HR by assumption. reflexivity.
  - apply any_list_ok. auto.
  - apply any_list_ok. intros x Wx. rewrite HR by assumption. reflexivity.
  - apply any_list_elements.
  - apply any_list_elements.
  - intros M [HM| ->]; [destruct M; try discriminate|]; (split; [apply Hs; auto|split; reflexivity]).
  - intros x rs Wx [H1 H2] [l ->]. assert (E : l = rs) by (destruct H1 as [E|[r E]]; congruence). subst l.
    destruct (column_of P p HP (fun M H => Hs M (or_introl H)) rs H2) as [xs [E G]]. exists xs. split; [exact E|assumption].
  - intros x rs Wx [[->|[r ->]] _] H; [|reflexivity]. destruct H. eexists. reflexivity.
  - apply is_tuple_dec.
Qed.

(** * Values *)
Lemma value_record_type_ok : forall T r, value_record_type T r <-> is_value_record T r = true.
Proof.
  intros T r. unfold is_value_record, is_record. split.
  - intros [[ts ->]|[n ->]]; cbn; apply Nat.eqb_refl.
  - intro H. destruct r as [| | | |[|e ts]|r [|n]| |]; try discriminate; cbn in H.
    + left. destruct e; try discriminate. cbn in H. apply Nat.eqb_eq in H. subst. eauto.
    + right. destruct r; try discriminate. cbn in H. apply Nat.eqb_eq in H. subst. eauto.
Qed.

Lemma value_list_ok : forall T x, (exists xs, value_list T x xs) <-> is_value_array T (type_of x) = true.
Proof.
  intros T x. split.
  - intros [xs ->]. cbn. apply Nat.eqb_refl.
  - intro H. destruct x as [| | | | |r l| |]; try discriminate. cbn in H. destruct r; try discriminate. cbn in H. apply Nat.eqb_eq in H. subst.
    exists l. reflexivity.
Qed.

Lemma value_record_list_ok : forall T x, well_typed x -> ((exists xs, value_record_list T x xs) <-> is_value_record_tuple T (type_of x) = true).
Proof.
  intros T x W. assert (HR := is_record_ok (value_of T) (is_value T) (value_kind T)).
  assert (A := any_list_ok (fun r => exists y, value_of T y /\ record_about r y) (is_record (is_value T)) (fun x W => iff_sym (HR x W)) x W).
  destruct x as [| | | |l|r l| |]; cbn [type_of is_value_record_tuple] in *;
    try (split; [intros [xs [[E _]|[r' [E _]]]]; discriminate|intro H; discriminate]).
  - unfold is_value_record. fold (is_tuple_of (is_record (is_value T))) in *. rewrite <- A. split.
    + intros [xs [[E F]|[r' [E _]]]]; [|discriminate]. exists xs. split; [left; assumption|assumption].
    + intros [xs [[E|[r' E]] F]]; [|discriminate]. exists xs. left. split; assumption.
  - rewrite <- value_record_type_ok. split.
    + intros [xs [[E F]|[r' [E H]]]]; [discriminate|]. congruence.
    + intro H. exists l. right. exists r. split; [reflexivity|assumption].
Qed.

Lemma value_scheme : forall T m rest none, well_typed m -> (no_entry (value_of T) m -> rest = Ok none) -> forall o,
  scheme (is_value T) (is_value_array T) (is_value_record_tuple T) (extract_column 0) m rest = Ok o <->
  listing (value_of T) (value_list T) (value_record_list T) (fun _ => True) none m o.
Proof.
  intros T m rest none W Hr o.
  assert (HR := is_record_ok (value_of T) (is_value T) (value_kind T)).
  apply scheme_ok; auto.
  - intros x Wx. apply value_kind.
  - intros x Wx. rewrite HR by assumption. reflexivity.
  - intros x Wx. apply value_list_ok.
  - apply value_record_list_ok.
  - intros x xs ->. reflexivity.
  - intros x xs [[-> _]|[r [-> _]]]; reflexivity.
  - intros M [HM| ->]; [destruct M; try discriminate|]; repeat split.
  - intros x rs Wx H _. unfold extract_column.
    assert (E : elements x = rs) by (destruct H as [[-> _]|[r [-> _]]]; reflexivity). rewrite E.
    apply (column_of (value_of T) (is_value T) (value_kind T) (value_nostr T)).
    destruct H as [[-> F]|[r [-> Hr']]]; [assumption|]. apply value_record_type_ok in Hr'.
    inversion Wx as [| | | | | | |r' l' Wl Fl]; subst.
    apply Forall_forall. intros y Hy. apply HR; [apply (proj1 (Forall_forall _ _) Wl); assumption|].
    rewrite (proj1 (Forall_forall _ _) Fl y Hy). exact Hr'.
  - intros x rs _ _ []. exact Logic.I.
Qed.
