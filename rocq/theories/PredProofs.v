(** Lemmas about the use of predicates' results. *)

From Coq Require Import ZArith Arith Bool Lia List.
From Verif Require Import Base ForwardModel TupleModel TupleSpec TupleProofs ZipModel ZipAlgoProofs PredModel PredSpec.
Import ListNotations.

Section Results.
  Context {V : Type}.

  Lemma contextually_converts : forall (q : conversion V) f, contextually q = Some f <-> converts q f.
  Proof. intros q f. destruct q; cbn; split; intro H; inversion H; subst; constructor. Qed.
  Lemma contextually_none : forall (q : conversion V), contextually q = None <-> q = NoConversion.
  Proof. intros []; cbn; split; intro H; congruence. Qed.

  Lemma negated_taken : forall (k : rclass V) c f, negated k c = Some f <-> taken_not k c f.
  Proof.
    intros k c f. unfold negated. split.
    - destruct (r_not k c) as [q|] eqn:E; intro H.
      + apply contextually_converts in H. exact (not_own k c q f E H).
      + destruct (contextually (r_conv k c)) as [g|] eqn:G; [|discriminate]. injection H as <-. apply contextually_converts in G.
        now apply not_built_in.
    - intro H. inversion H as [q f' E C|f' E C]; subst; rewrite E; apply contextually_converts in C; rewrite C; reflexivity.
  Qed.

  Lemma condition_taken : forall (R : rtype V) f, condition R = Some f <-> exists k c, expression R k c /\ taken k c f.
  Proof.
    intros R f. split.
    - destruct R as [|k|c k]; cbn; intro H; try discriminate; apply contextually_converts in H;
        [exists k, Rv|exists k, c]; split; auto; constructor.
    - intros (k & c & H & T). apply contextually_converts in T. inversion H; subst; exact T.
  Qed.
  Lemma not_condition_taken : forall (R : rtype V) f, not_condition R = Some f <-> exists k c, expression R k c /\ taken_not k c f.
  Proof.
    intros R f. split.
    - destruct R as [|k|c k]; cbn; intro H; try discriminate; apply negated_taken in H;
        [exists k, Rv|exists k, c]; split; auto; constructor.
    - intros (k & c & H & T). apply negated_taken in T. inversion H; subst; exact T.
  Qed.
  Lemma result_kept : forall (R : rtype V) k f, transform_element_result R = Some (k, f) <-> kept R k f.
  Proof.
    intros R k f. split.
    - destruct R as [|k'|c k']; cbn; intro H; try discriminate.
      + injection H as <- <-. constructor.
      + destruct (r_copy k' c) eqn:E; [|discriminate]. injection H as <- <-. now constructor.
    - intro H. inversion H as [|c ? ? E]; subst; cbn; [reflexivity|]. now rewrite E.
  Qed.
End Results.

(** Predicates that agree on the rows give the same results. *)
Lemma conjunction_fn_ext : forall V S (p q : S -> list (element V) -> S * outcome bool) neg args k i s,
  (forall j row s, i <= j < i + k -> get_elements j args = Ok row -> p s row = q s row) ->
  conjunction_fn k i neg p args s = conjunction_fn k i neg q args s.
Proof.
  intros V S p q neg args k. induction k as [|k IH]; intros i s H; [reflexivity|]. cbn [conjunction_fn].
  assert (E : transform_element i p args s = transform_element i q args s).
  { unfold transform_element. destruct (get_elements i args) as [row| | | | |] eqn:G; try reflexivity. apply (H i); [lia|exact G]. }
  rewrite E. destruct (transform_element i q args s) as [s' [b| | | | |]]; try reflexivity.
  destruct (negb _); [reflexivity|]. apply IH. intros j row s0 Hj. apply H. lia.
Qed.
Lemma conjunction_ext : forall V S (p q : S -> list (element V) -> S * outcome bool) neg args n rows s,
  common_size args n -> rows_of args n rows -> (forall row s, In row rows -> p s row = q s row) ->
  conjunction neg p args s = conjunction neg q args s.
Proof.
  intros V S p q neg args n rows s Hn Hr H. rewrite !(conjunction_rows _ args n rows neg s Hn Hr). apply conjunction_fn_ext.
  intros j row s0 Hj G. apply H.
  destruct (nth_error rows j) as [row'|] eqn:N; [|apply nth_error_None in N; destruct Hr as [L _]; lia].
  assert (X : get_elements j args = Ok row').
  { apply get_elements_at. apply (proj2 Hr). exact N. }
  rewrite X in G. injection G as <-. now apply nth_error_In in N.
Qed.

(** * Ranges *)
Lemma range_all_of_ext : forall S (p q : S -> list ref -> S * outcome bool) rs s, (forall s x, p s x = q s x) ->
  ZipModel.range_all_of p rs s = ZipModel.range_all_of q rs s.
Proof.
  intros S p q rs s H. unfold ZipModel.range_all_of. erewrite algorithm_ext; [reflexivity|]. intros s0 x. cbn. now rewrite H.
Qed.
Lemma range_any_of_ext : forall S (p q : S -> list ref -> S * outcome bool) rs s, (forall s x, p s x = q s x) ->
  ZipModel.range_any_of p rs s = ZipModel.range_any_of q rs s.
Proof.
  intros S p q rs s H. unfold ZipModel.range_any_of. erewrite algorithm_ext; [reflexivity|]. intros s0 x. cbn. now rewrite H.
Qed.
Lemma range_none_of_ext : forall S (p q : S -> list ref -> S * outcome bool) rs s, (forall s x, p s x = q s x) ->
  ZipModel.range_none_of p rs s = ZipModel.range_none_of q rs s.
Proof.
  intros S p q rs s H. unfold ZipModel.range_none_of. erewrite algorithm_ext; [reflexivity|]. intros s0 x. cbn. now rewrite H.
Qed.
Lemma range_count_if_ext : forall S (p q : S -> list ref -> S * outcome bool) rs s, (forall s x, p s x = q s x) ->
  ZipModel.range_count_if p rs s = ZipModel.range_count_if q rs s.
Proof.
  intros S p q rs s H. unfold ZipModel.range_count_if. erewrite algorithm_ext; [reflexivity|]. intros [s0 r] x. cbn. now rewrite H.
Qed.
Lemma call_if_answer : forall S V (func : S -> list ref -> S * outcome V) f g s x, (forall v, f v = g v) ->
  call_if func f s x = answer func g s x.
Proof. intros S V func f g s x H. unfold call_if, answer. destruct (func s x) as [s' [v| | | | |]]; try reflexivity. cbn. now rewrite H. Qed.
Lemma call_if_not_answer : forall S V (func : S -> list ref -> S * outcome V) f g s x, (forall v, (do b <- f v; Ok (negb b)) = g v) ->
  call_if_not func f s x = answer func g s x.
Proof. intros S V func f g s x H. unfold call_if_not, answer. destruct (func s x) as [s' [v| | | | |]]; try reflexivity. cbn. now rewrite H. Qed.

(** * Tuples *)
Lemma row_types_typed : forall E (row : list (element (nat * E))) ts, typed row ts <-> ts = row_types row.
Proof.
  intros E row. induction row as [|e row IH]; intro ts; split; intro H.
  - now inversion H.
  - subst. constructor.
  - inversion H as [|? t ? ts' He Ht]; subst. apply IH in Ht. subst ts'. cbn. f_equal.
    destruct e as [[n x]|i|i], t as [m|j|j]; cbn in *; try contradiction; congruence.
  - subst. cbn. constructor; [|now apply IH]. now destruct e as [[n x]|i|i].
Qed.

Section Tuples.
  Context {S E V : Type}.
  Variable returns : list (element nat) -> option (rtype V).
  Variable func : S -> list (element (nat * E)) -> S * outcome V.
  Variable args : list (arg (nat * E)).
  Variable n : nat.
  Variable rows : list (list (element (nat * E))).
  Hypothesis Hn : common_size args n.
  Hypothesis Hr : rows_of args n rows.

  Lemma compiles_rows : forall neg, compiles returns neg args = true <-> forall row, In row rows -> row_condition returns neg row <> None.
  Proof.
    intro neg. unfold compiles, all_rows. rewrite (size_common args n Hn). cbn [bind]. rewrite (proj2 (rows_mapM args n rows) Hr).
    rewrite forallb_forall. split; intros H row I; specialize (H row I); destruct (row_condition returns neg row); congruence.
  Qed.
  Lemma compiles_not : forall neg row, In row rows -> row_condition returns neg row = None -> compiles returns neg args = false.
  Proof.
    intros neg row I N. destruct (compiles returns neg args) eqn:C; [|reflexivity]. apply compiles_rows with (row := row) in C; [|exact I].
    contradiction.
  Qed.
  Lemma conjunction_answer : forall neg (f : list (element (nat * E)) -> V -> outcome bool) s,
    (forall row, In row rows -> exists g, row_condition returns neg row = Some g /\
       forall v, (do b <- g v; Ok (if neg then b else negb b)) = f row v) ->
    compiles returns neg args = true /\
    conjunction neg (call returns func neg) args s = conjunction neg (answer_at func f) args s.
  Proof.
    intros neg f s H. split.
    - apply compiles_rows. intros row I X. destruct (H row I) as (g & G & _). congruence.
    - apply (conjunction_ext _ _ _ _ neg args n rows s Hn Hr). intros row s0 I. destruct (H row I) as (g & G & Hg).
      unfold call, answer_at, answer. rewrite G. destruct (func s0 row) as [s' [v| | | | |]]; try reflexivity. cbn. now rewrite Hg.
  Qed.
End Tuples.
