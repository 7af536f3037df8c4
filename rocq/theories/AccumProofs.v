(** Lemmas about accumulators. *)

From Coq Require Import ZArith Arith Bool Lia List.
From Verif Require Import Base TupleModel TupleSpec TupleProofs ZipModel ZipSpec ZipAlgoProofs RefTupleModel AccumModel AccumSpec.
Import ListNotations.

Lemma expression_of_spec : forall r e, expression_of r = Some e <-> is_expression r e.
Proof. intros r e. destruct r; cbn; split; intro H; inversion H; subst; constructor. Qed.

Section Accumulators.
  Context {S V : Type}.
  Variable assign : nat -> nat -> category -> option (V -> V -> outcome V).
  Variable self_assign : nat -> category -> V -> outcome V.
  Variable red_type : nat * category -> nat -> option rty.
  Variable red : S -> nat -> V -> nat * V -> S * outcome (V * answer V).
  Local Notation assignment := (assignment assign red_type).
  Local Notation assignable := (assignable assign red_type).
  Local Notation range_step := (range_step assign self_assign red_type red).
  Local Notation stored := (stored assign self_assign red_type).
  Local Notation accumulates := (accumulates assign self_assign red_type red).

  Lemma assignment_spec : forall T X r U c f, assignment T X = Some (r, (U, c), f) <-> assignable T X r U c f.
  Proof.
    intros T X r U c f. unfold AccumModel.assignment, AccumSpec.assignable. split.
    - destruct (red_type (T, Xvalue false) X) as [r'|]; [|discriminate]. destruct (expression_of r') as [[U' c']|] eqn:E; [|discriminate].
      destruct (assign T U' c') as [f'|] eqn:A; [|discriminate]. intro H. injection H as <- <- <- <-. rewrite <- expression_of_spec. auto.
    - intros (R & E & A). apply expression_of_spec in E. rewrite R, E, A. reflexivity.
  Qed.

  Lemma range_step_stored : forall T X s v x s' rest a o, red s T v (X, x) = (s', Ok (rest, a)) -> stored T X rest a o ->
    range_step T X s v x = (s', o).
  Proof.
    intros T X s v x s' rest a o R H. unfold AccumModel.range_step. inversion H as [r U c f w A|r c f A I]; subst; apply assignment_spec in A; rewrite A, R; cbn.
    - reflexivity.
    - rewrite Nat.eqb_refl. now inversion I; subst.
  Qed.
  Lemma range_step_throws : forall T X s v x s' o o', assignment T X <> None -> red s T v (X, x) = (s', o) -> ends_with o o' ->
    range_step T X s v x = (s', o').
  Proof.
    intros T X s v x s' o o' N R H. unfold AccumModel.range_step. destruct (assignment T X) as [[[r [U c]] f]|]; [|congruence]. rewrite R.
    destruct o; cbn in *; try contradiction; subst; reflexivity.
  Qed.

  Lemma fold_accumulates : forall E (transform : S -> E -> S * outcome V) T X s v l s' o, assignment T X <> None ->
    accumulates transform T X s v l s' o -> fold_calls (range_step T X) transform s v l = (s', o).
  Proof.
    intros E transform T X s v l s' o N H. induction H as [s v|s v e l s' o o' Ht He|s v e l s1 x s' o o' Ht Hr He|s v e l s1 x s' rest a o Ht Hr Hs Hn|s v e l s1 x s2 rest a v' s3 o Ht Hr Hs H IH]; cbn.
    - reflexivity.
    - rewrite Ht. destruct o; cbn in He; try contradiction; subst; reflexivity.
    - rewrite Ht, (range_step_throws _ _ _ _ _ _ _ _ N Hr He). destruct o'; try reflexivity. destruct o; cbn in He; try contradiction; discriminate.
    - rewrite Ht, (range_step_stored _ _ _ _ _ _ _ _ _ Hr Hs). destruct o as [w| | | | |]; try reflexivity. destruct (Hn w eq_refl).
    - rewrite Ht, (range_step_stored _ _ _ _ _ _ _ _ _ Hr Hs). exact IH.
  Qed.

  Lemma acc_types_chain : forall Xs a a', acc_types red_type a Xs = Some a' <-> chain red_type a Xs a'.
  Proof.
    induction Xs as [|X Xs IH]; intros a a'; cbn.
    - split; intro H; inversion H; subst; constructor.
    - split.
      + destruct (red_type a X) as [r|] eqn:R; [|discriminate]. destruct (expression_of r) as [e|] eqn:E; [|discriminate]. intro H.
        apply IH in H. apply expression_of_spec in E. apply (chain_next _ _ _ r e); [split; assumption|exact H].
      + intro H. inversion H as [|? ? r e ? ? [R E] C]; subst. rewrite R. apply expression_of_spec in E. rewrite E. now apply IH.
  Qed.

  Local Notation tuple_step := (tuple_step red_type red).
  Definition element_step (s : S) (a : acc (V := V)) (e : element (nat * V)) : S * outcome (acc (V := V)) :=
    match e with Elem x => tuple_step s a x | _ => (s, IllFormed) end.

  Lemma fold_passes : forall s a v l s' o, acc_types red_type a (map fst l) <> None -> passes red_type red s a v l s' o ->
    (let '(s1, o1) := fold_calls element_step (fun s e => (s, Ok e)) s (a, v) (map Elem l) in
     (s1, do x <- o1; Ok (fst (fst x), snd x))) = (s', o).
  Proof.
    intros s a v l s' o N H. induction H as [s a v|s a v x l s' o o' Hr He|s a v x l s1 rest y r a' v' s2 o Hr [R E] Hp H IH]; cbn in *.
    - reflexivity.
    - unfold AccumModel.tuple_step. cbn. destruct (red_type a (fst x)) as [r|] eqn:R; [|contradiction].
      destruct (expression_of r) as [e|]; [|contradiction].
      rewrite Hr. destruct o; cbn in *; try contradiction; subst; reflexivity.
    - apply expression_of_spec in E. rewrite R, E in N. unfold AccumModel.tuple_step. cbn. rewrite R, E, Hr. cbn.
      inversion Hp as [w|I F]; subst.
      + exact (IH N).
      + inversion I; subst; rewrite F, Nat.eqb_refl; exact (IH N).
  Qed.
End Accumulators.
