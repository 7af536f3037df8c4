(** Lemmas about to_stream<> and from_stream<>. *)

From Coq Require Import Arith Bool List Lia.
From Verif Require Import Base ForwardModel OverRefModel IostreamModel IostreamSpec.
Import ListNotations.

Section Proofs.
Variable conv : nat -> nat -> bool.

Definition numbered (ops : list op) := combine (seq 0 (length ops)) ops.
Lemma combine_seq_in : forall (ops : list op) k n o,
  In (n, o) (combine (seq k (length ops)) ops) <-> k <= n /\ nth_error ops (n - k) = Some o.
Proof.
  induction ops as [|p ops IH]; intros k n o; cbn.
  - split; [tauto|]. intros [_ E]. destruct (n - k); discriminate.
  - rewrite IH. split.
    + intros [E|[L E]]; [inversion E; subst; rewrite Nat.sub_diag; auto|].
      replace (n - k) with (S (n - S k)) by lia. split; [lia|exact E].
    + intros [L E]. destruct (n - k) as [|d] eqn:D; cbn in E.
      * left. inversion E. f_equal. lia.
      * right. split; [lia|]. replace (n - S k) with d by lia. exact E.
Qed.
Lemma numbered_in : forall ops n o, In (n, o) (numbered ops) <-> nth_error ops n = Some o.
Proof. intros ops n o. unfold numbered. rewrite combine_seq_in, Nat.sub_0_r. intuition lia. Qed.
Lemma combine_seq_nodup : forall (ops : list op) k, NoDup (combine (seq k (length ops)) ops).
Proof.
  induction ops as [|p ops IH]; intro k; cbn; constructor; [|apply IH].
  intro I. apply combine_seq_in in I. lia.
Qed.

Definition wins s a ops (x : nat * op) : bool :=
  op_viable conv s a (snd x) &&
  forallb (fun y => (fst x =? fst y) || negb (op_viable conv s a (snd y)) || better_op conv s a (snd x) (snd y)) (numbered ops).

Lemma wins_best : forall s a ops n o, nth_error ops n = Some o ->
  (wins s a ops (n, o) = true <-> best conv ops s a n).
Proof.
  intros s a ops n o E. unfold wins, best. rewrite andb_true_iff, forallb_forall. cbn. split.
  - intros [V B]. exists o. split; [exact E|]. split; [exact V|]. intros m o' E' D V'.
    specialize (B (m, o') (proj2 (numbered_in ops m o') E')). cbn in B. rewrite V' in B.
    destruct (Nat.eqb_spec n m); [congruence|]. cbn in B. exact B.
  - intros [o1 [E1 [V B]]]. rewrite E in E1. inversion E1; subst o1. split; [exact V|].
    intros [m o'] I. apply numbered_in in I. cbn. destruct (Nat.eqb_spec n m); [reflexivity|]. cbn.
    destruct (op_viable conv s a o') eqn:V'; [|reflexivity]. cbn. apply B with m; auto.
Qed.

Lemma best_unique : forall s a ops n m, best conv ops s a n -> best conv ops s a m -> n = m.
Proof.
  intros s a ops n m [o [E [V B]]] [o' [E' [V' B']]].
  destruct (Nat.eq_dec n m) as [D|D]; [exact D|exfalso].
  pose proof (B m o' E' (not_eq_sym D) V') as H. pose proof (B' n o E D V) as H'.
  unfold better_op in H, H'. destruct (op_ics conv s a o) as [i|]; [|discriminate]. destruct (op_ics conv s a o') as [j|]; [|discriminate].
  rewrite !andb_true_iff, orb_true_iff, !negb_true_iff in H, H'.
  destruct H as [[H1 H2] [H3|H3]], H' as [[H4 H5] [H6|H6]]; congruence.
Qed.

Lemma filter_unique : forall (A : Type) (f : A -> bool) l x, NoDup l -> In x l -> f x = true -> (forall y, In y l -> f y = true -> y = x) ->
  filter f l = [x].
Proof.
  intros A f l x N I F U. induction l as [|y l IH]; [destruct I|].
  inversion N as [|y' l' NI N']; subst. cbn. destruct (f y) eqn:Fy.
  - assert (y = x) as -> by (apply U; [left; reflexivity|exact Fy]). f_equal.
    destruct (filter f l) as [|z t] eqn:Q; [reflexivity|].
    assert (Iz : In z (filter f l)) by (rewrite Q; left; reflexivity). apply filter_In in Iz. destruct Iz as [Iz Fz].
    rewrite (U z (or_intror Iz) Fz) in Iz. contradiction.
  - destruct I as [->|I]; [congruence|]. apply IH; auto. intros z Iz. apply U. right. exact Iz.
Qed.

Lemma expression_best : forall ops s a n,
  (exists b, expression conv ops s a = Some (mk_call n b)) <-> best conv ops s a n.
Proof.
  intros ops s a n. unfold expression.
  change (fun x => op_viable conv s a (snd x) && _) with (wins s a ops).
  fold (numbered ops). split.
  - intros [b E]. destruct (filter (wins s a ops) (numbered ops)) as [|x [|y t]] eqn:Q; try discriminate.
    assert (I : In x (filter (wins s a ops) (numbered ops))) by (rewrite Q; left; reflexivity).
    apply filter_In in I. destruct I as [I W]. destruct x as [m o]. cbn in E.
    destruct (op_ics conv s a o) as [i|] eqn:Oi; [|discriminate]. inversion E; subst m.
    apply numbered_in in I. apply (wins_best s a ops n o I). exact W.
  - intro B. pose proof B as [o [E [V _]]].
    assert (Q : filter (wins s a ops) (numbered ops) = [(n, o)]).
    { apply filter_unique.
      - apply combine_seq_nodup.
      - apply numbered_in. exact E.
      - apply wins_best; assumption.
      - intros [m o'] I W. apply numbered_in in I. apply (wins_best s a ops m o' I) in W.
        pose proof (best_unique s a ops n m B W). subst m. congruence. }
    rewrite Q. cbn. unfold op_viable in V. destruct (op_ics conv s a o) as [i|]; [|discriminate].
    exists (same_object i). reflexivity.
Qed.

Lemma expression_none : forall ops s a, expression conv ops s a = None <-> forall n, ~ best conv ops s a n.
Proof.
  intros ops s a. split.
  - intros E n B. apply expression_best in B. destruct B as [b B]. congruence.
  - intro H. destruct (expression conv ops s a) as [[n b]|] eqn:E; [|reflexivity]. exfalso. apply (H n).
    apply expression_best. exists b. exact E.
Qed.

Lemma expression_same : forall ops s t k c, expression conv ops s (t, k) = Some c ->
  exists o, nth_error ops (c_op c) = Some o /\ (c_same c = true <-> o_type o = t /\ o_form o <> ByValue).
Proof.
  intros ops s t k c. unfold expression. change (fun x => op_viable conv s (t, k) (snd x) && _) with (wins s (t, k) ops).
  fold (numbered ops). destruct (filter (wins s (t, k) ops) (numbered ops)) as [|[n o] [|y r]] eqn:Q; try discriminate.
  assert (I : In (n, o) (filter (wins s (t, k) ops) (numbered ops))) by (rewrite Q; left; reflexivity).
  apply filter_In in I. destruct I as [I _]. apply numbered_in in I. cbn.
  destruct (op_ics conv s (t, k) o) as [i|] eqn:J; [|discriminate]. intro E. inversion E; subst c. cbn. exists o. split; [exact I|].
  revert J. unfold op_ics, arg_ics. cbn. destruct (stream_binds (o_stream o) s); [|discriminate].
  destruct (Nat.eqb_spec (o_type o) t) as [D|D].
  - destruct (binds (o_form o) k); [|discriminate]. intro J. inversion J; subst i. cbn.
    destruct (o_form o); intuition (try discriminate; try congruence).
  - destruct (conv t (o_type o) && binds (o_form o) Rv); [|discriminate]. intro J. inversion J; subst i. cbn. intuition discriminate.
Qed.

(** An expression depends on conversions only. *)
Lemma expression_ext : forall ops s a s' a', (forall o, In o ops -> op_ics conv s a o = op_ics conv s' a' o) ->
  expression conv ops s a = expression conv ops s' a'.
Proof.
  intros ops s a s' a' H. unfold expression. fold (numbered ops).
  assert (I : forall x, In x (numbered ops) -> In (snd x) ops).
  { intros [n o] I. apply numbered_in in I. apply nth_error_In in I. exact I. }
  assert (F : filter (wins s a ops) (numbered ops) = filter (wins s' a' ops) (numbered ops)).
  { apply filter_ext_in. intros x X. unfold wins, op_viable. rewrite (H _ (I _ X)). f_equal.
    apply eq_true_iff_eq. rewrite !forallb_forall.
    split; intros Q y Y; specialize (Q y Y); unfold better_op in *;
      [rewrite <- !(H _ (I _ X)), <- !(H _ (I _ Y))|rewrite !(H _ (I _ X)), !(H _ (I _ Y))]; exact Q. }
  change (match filter (wins s a ops) (numbered ops) with
          | [x] => match op_ics conv s a (snd x) with Some i => Some (mk_call (fst x) (same_object i)) | None => None end
          | _ => None end =
          match filter (wins s' a' ops) (numbered ops) with
          | [x] => match op_ics conv s' a' (snd x) with Some i => Some (mk_call (fst x) (same_object i)) | None => None end
          | _ => None end).
  rewrite <- F. destruct (filter (wins s a ops) (numbered ops)) as [|x [|y t]] eqn:Q; try reflexivity.
  assert (X : In x (filter (wins s a ops) (numbered ops))) by (rewrite Q; left; reflexivity).
  apply filter_In in X. destruct X as [X _]. rewrite (H _ (I _ X)). reflexivity.
Qed.

(** Streams: operators for the base class do not distinguish. *)
Lemma base_stream : forall ops s a, Forall for_base ops -> expression conv ops s a = expression conv ops BaseStream a.
Proof.
  intros ops s a F. apply expression_ext. intros o I. rewrite Forall_forall in F. specialize (F o I). unfold for_base in F.
  unfold op_ics. rewrite F. destruct s; reflexivity.
Qed.
Lemma reads_cat : forall ops s t c c', Forall reads_only ops -> expression conv ops s (t, c) = expression conv ops s (t, c').
Proof.
  intros ops s t c c' F. apply expression_ext. intros o I. rewrite Forall_forall in F.
  unfold op_ics, arg_ics. cbn. destruct (stream_binds (o_stream o) s); [|reflexivity].
  destruct (F o I) as [E|E]; rewrite E; destruct c, c'; reflexivity.
Qed.

Lemma viable_takes : forall s a o, op_viable conv s a o = true <-> takes_arg conv s a o.
Proof.
  intros s [t c] o. unfold op_viable, op_ics, arg_ics, takes_arg. cbn.
  assert (S : stream_binds (o_stream o) s = true <-> (o_stream o = BaseStream \/ s = DerivedStream)).
  { destruct (o_stream o), s; cbn; intuition discriminate. }
  destruct (stream_binds (o_stream o) s).
  - destruct (Nat.eqb_spec (o_type o) t) as [E|E].
    + assert (B : binds (o_form o) c = true <->
        match o_form o with ByValue | CLRef => True | LRef => c = Lv | RRef => c = Rv | CRRef => c = Rv \/ c = CRv end).
      { destruct (o_form o), c; cbn; intuition discriminate. }
      destruct (binds (o_form o) c); split; intro H; try discriminate; try reflexivity.
      * split; [apply S; reflexivity|left; split; [exact E|apply B; reflexivity]].
      * destruct H as [_ [[_ H]|[H _]]]; [apply B in H; discriminate|contradiction].
    + destruct (conv t (o_type o)) eqn:K; cbn.
      * destruct (o_form o) eqn:F; cbn; split; intro H; try discriminate; try reflexivity;
          try (split; [apply S; reflexivity|right; repeat split; auto; discriminate]).
        destruct H as [_ [[H _]|[_ [_ H]]]]; congruence.
      * split; intro H; [discriminate|]. destruct H as [_ [[H _]|[_ [H _]]]]; congruence.
  - split; intro H; [discriminate|]. destruct H as [H _]. apply S in H. discriminate.
Qed.

Lemma stream_prefers : forall o o', better_stream (o_stream o) (o_stream o') = true <-> prefers_stream o o'.
Proof. intros o o'. unfold prefers_stream. destruct (o_stream o), (o_stream o'); cbn; intuition discriminate. Qed.
Lemma arg_prefers : forall s t c o o' i j, op_ics conv s (t, c) o = Some i -> op_ics conv s (t, c) o' = Some j ->
  (better_ics i j = true <-> prefers_arg t o o').
Proof.
  intros s t c o o' i j. unfold op_ics, arg_ics, prefers_arg. cbn.
  destruct (stream_binds (o_stream o) s); [|discriminate]. destruct (stream_binds (o_stream o') s); [|discriminate].
  destruct (Nat.eqb_spec (o_type o) t) as [E|E], (Nat.eqb_spec (o_type o') t) as [E'|E'].
  - destruct (binds (o_form o) c); [|discriminate]. destruct (binds (o_form o') c); [|discriminate].
    intros I J. inversion I; inversion J; subst i j. cbn. destruct (o_form o), (o_form o'); cbn; intuition (try discriminate; try congruence).
  - destruct (binds (o_form o) c); [|discriminate]. destruct (conv t (o_type o') && binds (o_form o') Rv); [|discriminate].
    intros I J. inversion I; inversion J; subst i j. cbn. intuition.
  - destruct (conv t (o_type o) && binds (o_form o) Rv); [|discriminate]. destruct (binds (o_form o') c); [|discriminate].
    intros I J. inversion I; inversion J; subst i j. cbn. intuition (try discriminate; congruence).
  - destruct (conv t (o_type o) && binds (o_form o) Rv); [|discriminate].
    destruct (conv t (o_type o') && binds (o_form o') Rv); [|discriminate].
    intros I J. inversion I; inversion J; subst i j. cbn. destruct (Nat.eqb_spec (o_type o) (o_type o')) as [D|D]; cbn.
    + destruct (o_form o), (o_form o'); cbn; intuition (try discriminate; try congruence).
    + intuition (try discriminate; try congruence).
Qed.
Lemma better_prefers : forall s a o o', op_viable conv s a o = true -> op_viable conv s a o' = true ->
  (better_op conv s a o o' = true <->
   (prefers_stream o o' \/ prefers_arg (fst a) o o') /\ ~ prefers_stream o' o /\ ~ prefers_arg (fst a) o' o).
Proof.
  intros s [t c] o o' V V'. unfold op_viable, better_op in *.
  destruct (op_ics conv s (t, c) o) as [i|] eqn:I; [|discriminate]. destruct (op_ics conv s (t, c) o') as [j|] eqn:J; [|discriminate].
  rewrite !andb_true_iff, orb_true_iff, !negb_true_iff, <- !stream_prefers. cbn [fst].
  rewrite <- (arg_prefers s t c o o' i j I J), <- (arg_prefers s t c o' o j i J I), !not_true_iff_false. tauto.
Qed.

End Proofs.
