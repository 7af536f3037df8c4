(** Lemmas about any_sink and iterator tags. *)

From Coq Require Import NArith Arith Bool List Lia.
From Verif Require Import Base ZipModel SinkModel SinkSpec.
Import ListNotations.

(** * Overloads *)

Definition numbered (ks : list candidate) := combine (seq 0 (length ks)) ks.
Lemma combine_seq_in : forall (ks : list candidate) i n k,
  In (n, k) (combine (seq i (length ks)) ks) <-> i <= n /\ nth_error ks (n - i) = Some k.
Proof.
  induction ks as [|p ks IH]; intros i n k; cbn.
  - split; [tauto|]. intros [_ E]. destruct (n - i); discriminate.
  - rewrite IH. split.
    + intros [E|[L E]]; [inversion E; subst; rewrite Nat.sub_diag; auto|].
      replace (n - i) with (S (n - S i)) by lia. split; [lia|exact E].
    + intros [L E]. destruct (n - i) as [|d] eqn:D; cbn in E.
      * left. inversion E. f_equal. lia.
      * right. split; [lia|]. replace (n - S i) with d by lia. exact E.
Qed.
Lemma numbered_in : forall ks n k, In (n, k) (numbered ks) <-> nth_error ks n = Some k.
Proof. intros ks n k. unfold numbered. rewrite combine_seq_in, Nat.sub_0_r. intuition lia. Qed.
Lemma combine_seq_nodup : forall (ks : list candidate) i, NoDup (combine (seq i (length ks)) ks).
Proof.
  induction ks as [|p ks IH]; intro i; cbn; constructor; [|apply IH].
  intro I. apply combine_seq_in in I. lia.
Qed.

Definition wins (ks : list candidate) (x : nat * candidate) : bool :=
  match k_conv (snd x) with
  | Some _ => forallb (fun y => (fst x =? fst y) || better_cand (snd x) (snd y)) (numbered ks)
  | None => false
  end.
Lemma wins_best : forall ks n k, nth_error ks n = Some k -> (wins ks (n, k) = true <-> best_of ks n).
Proof.
  intros ks n k E. unfold wins, best_of. cbn. destruct (k_conv k) as [c|] eqn:K.
  - rewrite forallb_forall. split.
    + intro B. exists k. split; [exact E|]. split; [congruence|]. intros m l El D.
      specialize (B (m, l) (proj2 (numbered_in ks m l) El)). cbn in B. destruct (Nat.eqb_spec n m); [congruence|exact B].
    + intros [k' [E' [_ B]]] [m l] I. rewrite E in E'. inversion E'; subst k'. apply numbered_in in I. cbn.
      destruct (Nat.eqb_spec n m); [reflexivity|]. cbn. apply B with m; auto.
  - split; [discriminate|]. intros [k' [E' [N _]]]. congruence.
Qed.
Lemma better_conversion_asym : forall c d, better_conversion c d = true -> better_conversion d c = false.
Proof.
  intros c d. destruct c, d; cbn; intro H; try reflexivity; try discriminate.
  - apply Nat.ltb_lt in H. apply Nat.ltb_ge. lia.
  - apply andb_true_iff in H. destruct H as [_ H]. apply Nat.ltb_lt in H. apply andb_false_intro2. apply Nat.ltb_ge. lia.
Qed.
Lemma better_cand_asym : forall k l, k_conv l <> None -> better_cand k l = true -> better_cand l k = false.
Proof.
  intros k l V H. unfold better_cand in *. destruct (k_conv k) as [c|]; [|discriminate]. destruct (k_conv l) as [d|]; [|congruence].
  apply orb_true_iff in H. destruct H as [H|H].
  - rewrite (better_conversion_asym c d H), H. reflexivity.
  - apply andb_true_iff in H. destruct H as [H T]. apply negb_true_iff in H. rewrite H. cbn.
    destruct (k_template k), (k_template l); cbn in *; try discriminate; try apply andb_false_r.
    apply andb_false_intro2. apply Nat.ltb_lt in T. apply Nat.ltb_ge. lia.
Qed.
Lemma best_unique : forall ks n m, best_of ks n -> best_of ks m -> n = m.
Proof.
  intros ks n m [k [E [V B]]] [l [E' [V' B']]]. destruct (Nat.eq_dec n m) as [D|D]; [exact D|exfalso].
  pose proof (better_cand_asym k l V' (B m l E' (not_eq_sym D))) as H. rewrite (B' n k E D) in H. discriminate.
Qed.
Lemma filter_unique : forall (A : Type) (f : A -> bool) l x, NoDup l -> In x l -> f x = true -> (forall y, In y l -> f y = true -> y = x) ->
  filter f l = [x].
Proof.
  intros A f l x N I F U. induction l as [|y l IH]; [destruct I|].
  inversion N as [|y' l' NI N']; subst. cbn. destruct (f y) eqn:Fy.
  - assert (y = x) as -> by (apply U; [left; reflexivity|exact Fy]). f_equal.
    destruct (filter f l) as [|z t] eqn:Q; [reflexivity|].
    assert (Iz : In z (filter f l)) by (rewrite Q; left; reflexivity). apply filter_In in Iz. destruct Iz as [Iz Fz].
    rewrite (U z (or_intror Iz) Fz) in Iz. contradiction.
  - destruct I as [->|I]; [congruence|]. apply IH; auto. intros z Iz. apply U. right. exact Iz.
Qed.
Lemma resolve_best : forall ks n, resolve ks = Some n <-> best_of ks n.
Proof.
  intros ks n. unfold resolve. fold (numbered ks).
  change (fun x : nat * candidate => match k_conv (snd x) with Some _ => _ | None => false end) with (wins ks). split.
  - intro E. destruct (filter (wins ks) (numbered ks)) as [|x [|y t]] eqn:Q; try discriminate.
    assert (I : In x (filter (wins ks) (numbered ks))) by (rewrite Q; left; reflexivity).
    apply filter_In in I. destruct I as [I W]. destruct x as [m k]. cbn in E. inversion E; subst m.
    apply numbered_in in I. apply (wins_best ks n k I). exact W.
  - intro B. pose proof B as [k [E [V _]]].
    assert (Q : filter (wins ks) (numbered ks) = [(n, k)]).
    { apply filter_unique.
      - apply combine_seq_nodup.
      - apply numbered_in. exact E.
      - apply wins_best; assumption.
      - intros [m l] I W. apply numbered_in in I. apply (wins_best ks m l I) in W.
        pose proof (best_unique ks n m B W). subst m. congruence. }
    rewrite Q. reflexivity.
Qed.
Lemma resolve_none : forall ks, resolve ks = None <-> forall n, ~ best_of ks n.
Proof.
  intro ks. split.
  - intros E n B. apply resolve_best in B. congruence.
  - intro H. destruct (resolve ks) as [n|] eqn:E; [|reflexivity]. exfalso. apply (H n). apply resolve_best. exact E.
Qed.

Lemma better_standard : forall k l, by_standard l -> better_cand k l = true -> by_standard k.
Proof.
  intros k l [r L] H. unfold better_cand in H. rewrite L in H. unfold by_standard. destruct (k_conv k) as [c|]; [|discriminate].
  destruct c as [q|f q| |]; cbn in H; try discriminate. exists q. reflexivity.
Qed.
Lemma standard_sink : forall k, by_standard k -> better_cand k sink = true.
Proof. intros k [r K]. unfold better_cand. rewrite K. reflexivity. Qed.
Lemma resolve_fallback_standard : forall ks, (exists k, In k ks /\ by_standard k) ->
  resolve (sink :: ks) = option_map S (resolve ks).
Proof.
  intros ks [k [I K]]. apply In_nth_error in I. destruct I as [i I].
  destruct (resolve ks) as [n|] eqn:R; cbn.
  - apply resolve_best in R. apply resolve_best. destruct R as [l [E [V B]]]. exists l. split; [exact E|]. split; [exact V|].
    intros [|m] l' E' D.
    + cbn in E'. inversion E'; subst l'. apply standard_sink. destruct (Nat.eq_dec i n) as [Q|Q].
      * subst i. rewrite E in I. inversion I. exact K.
      * apply (better_standard l k K). apply B with i; auto.
    + apply B with m; [exact E'|lia].
  - apply resolve_none. intros [|n] [l [E [V B]]].
    + cbn in E. inversion E; subst l. specialize (B (S i) k I (Nat.neq_succ_0 i)). apply (better_standard sink k K) in B. destruct B as [r B].
      discriminate.
    + revert n l E V B. intros n l E V B. apply (proj1 (resolve_none ks) R n). exists l. split; [exact E|]. split; [exact V|].
      intros m l' E' D. apply B with (S m); [exact E'|lia].
Qed.
Lemma better_sink : forall k, better_cand k sink = true -> by_standard k.
Proof.
  intros k H. unfold better_cand in H. unfold by_standard. destruct (k_conv k) as [c|]; [|discriminate].
  destruct c as [q|f q| |]; cbn in H; try (exists q; reflexivity); destruct (k_template k); discriminate.
Qed.
Lemma resolve_fallback_user : forall ks, (forall k, In k ks -> ~ by_standard k) -> (exists k, In k ks /\ by_user k /\ k_template k = None) ->
  resolve (sink :: ks) = None.
Proof.
  intros ks N [k [I [[f [r K]] T]]]. apply In_nth_error in I. destruct I as [i I]. apply resolve_none. intros [|n] [l [E [V B]]].
  - cbn in E. inversion E; subst l. specialize (B (S i) k I (Nat.neq_succ_0 i)). unfold better_cand in B. rewrite K, T in B. discriminate.
  - specialize (B 0 sink eq_refl (Nat.neq_0_succ n)). apply better_sink in B. apply (N l); [|exact B]. cbn in E. apply nth_error_In in E. exact E.
Qed.
Lemma resolve_fallback_none : forall ks, (forall k, In k ks -> not_sink k) -> (forall k, In k ks -> ~ by_standard k) ->
  (forall k, In k ks -> by_user k -> k_template k <> None) -> resolve (sink :: ks) = Some 0.
Proof.
  intros ks NS N U. apply resolve_best. exists sink. split; [reflexivity|]. split; [discriminate|]. intros [|m] l E D; [congruence|].
  cbn in E. apply nth_error_In in E. specialize (NS l E). specialize (N l E). specialize (U l E). unfold not_sink, by_standard, by_user in *.
  unfold better_cand. cbn. destruct (k_conv l) as [c|]; [|reflexivity]. destruct c as [q|f q| |]; cbn.
  - exfalso. apply N. exists q. reflexivity.
  - destruct (k_template l); [reflexivity|]. exfalso. apply U; [exists f, q; reflexivity|reflexivity].
  - congruence.
  - reflexivity.
Qed.

Lemma conversion_preferred : forall c d, better_conversion c d = true <-> preferred c d.
Proof.
  intros c d. unfold preferred. destruct c as [r|f r| |], d as [q|g q| |]; cbn; (split; [intro H; try discriminate|]).
  all: try (apply Nat.ltb_lt in H; left; eauto; fail).
  all: try (right; left; split; [eauto|discriminate]; fail).
  all: try (right; right; right; split; [discriminate|reflexivity]; fail).
  all: try (intros [[r' [q' [E1 [E2 L]]]]|[[[r' E] N]|[[f' [r' [q' [E1 [E2 L]]]]]|[N E]]]];
    try reflexivity; try discriminate; try (exfalso; apply (N q); reflexivity); try congruence;
    try (inversion E1; inversion E2; subst; apply Nat.ltb_lt; exact L);
    try (inversion E1; inversion E2; subst; rewrite Nat.eqb_refl; apply Nat.ltb_lt; exact L); fail).
  apply andb_true_iff in H. destruct H as [E L]. apply Nat.eqb_eq in E. apply Nat.ltb_lt in L. subst g. right. right. left. eauto 6.
Qed.
Lemma template_special : forall t u, better_template t u = true <-> more_special t u.
Proof.
  intros t u. unfold more_special. destruct t as [n|], u as [m|]; cbn; (split; [intro H; try discriminate|]).
  - apply Nat.ltb_lt in H. right. eauto.
  - intros [[E _]|[n' [m' [E1 [E2 L]]]]]; [discriminate|]. inversion E1; inversion E2; subst. apply Nat.ltb_lt. exact L.
  - intros [[E _]|[n' [m' [E1 [E2 L]]]]]; discriminate.
  - left. split; [reflexivity|discriminate].
  - reflexivity.
  - intros [[_ E]|[n' [m' [E1 _]]]]; [congruence|discriminate].
Qed.
Lemma better_cand_iff : forall k l, better_cand k l = true <->
  exists c, k_conv k = Some c /\
    forall d, k_conv l = Some d -> preferred c d \/ (~ preferred d c /\ more_special (k_template k) (k_template l)).
Proof.
  intros k l. unfold better_cand. destruct (k_conv k) as [c|].
  - destruct (k_conv l) as [d|].
    + rewrite orb_true_iff, andb_true_iff, negb_true_iff, conversion_preferred, template_special, <- not_true_iff_false, conversion_preferred.
      split.
      * intro H. exists c. split; [reflexivity|]. intros d' E. inversion E; subst d'. exact H.
      * intros [c' [E H]]. inversion E; subst c'. apply H. reflexivity.
    + split; [|reflexivity]. intros _. exists c. split; [reflexivity|discriminate].
  - split; [discriminate|]. intros [c [E _]]. discriminate.
Qed.

(** * Tags *)

Local Arguments Nat.ltb : simpl never.
Local Arguments Nat.sub : simpl never.

Section TagInd.
Variable P : tag -> Prop.
Hypothesis Hs : forall s, P (Std s).
Hypothesis Hc : forall bs cs, (forall t, In t bs -> P t) -> P (Class bs cs).
Fixpoint tag_ind' (t : tag) : P t :=
  match t with
  | Std s => Hs s
  | Class bs cs =>
      Hc bs cs ((fix go (l : list tag) : forall t, In t l -> P t :=
                   match l with
                   | [] => fun t I => match I with end
                   | t' :: r => fun t I => match I with or_introl E => eq_ind t' P (tag_ind' t') t E | or_intror I' => go r t I' end
                   end) bs)
  end.
End TagInd.

Lemma subobjects_class : forall bs cs b, subobjects (Class bs cs) b = fold_right (fun t n => subobjects t b + n) 0 bs.
Proof. intros bs cs b. cbn. induction bs as [|t bs IH]; [reflexivity|]. cbn. rewrite IH. reflexivity. Qed.
Lemma std_derives_iff : forall s b, std_derives s b = true <-> (b = TOutput <-> s = TOutput) /\ level b <= level s.
Proof. intros s b. destruct s, b; cbn; split; intro H; try discriminate; try reflexivity; repeat split; try discriminate; try lia; intuition (try discriminate; lia). Qed.
Lemma subobjects_derives : forall t b, 0 < subobjects t b <-> derives t b.
Proof.
  intros t b. induction t as [s|bs cs IH] using tag_ind'.
  - cbn. destruct (std_derives s b) eqn:D.
    + apply std_derives_iff in D. destruct D as [D L]. split; [intros _; constructor; assumption|lia].
    + split; [lia|]. intro H. inversion H as [s' b' E L|]; subst. assert (std_derives s b = true) by (apply std_derives_iff; auto). congruence.
  - rewrite subobjects_class. split.
    + induction bs as [|t bs IHb]; cbn; [lia|]. intro H.
      destruct (subobjects t b) as [|n] eqn:Q.
      * assert (D : derives (Class bs cs) b) by (apply IHb; [intros t' I; apply IH; right; exact I|exact H]).
        inversion D as [|t' bs' cs' b' I' D']; subst. apply derives_base with t'; [right; exact I'|exact D'].
      * apply derives_base with t; [left; reflexivity|]. apply (IH t (or_introl eq_refl)). lia.
    + intro H. inversion H as [|t' bs' cs' b' I' D']; subst. apply (IH t' I') in D'. clear H IH.
      induction bs as [|t bs IHb]; [destruct I'|]. cbn. destruct I' as [->|I']; [lia|]. specialize (IHb I'). lia.
Qed.
(** Derived from a tag, hence from its bases. *)
Lemma derives_weaker : forall t b b', derives t b -> (b' = TOutput <-> b = TOutput) -> level b' <= level b -> derives t b'.
Proof.
  intros t b b' D O L. induction D as [s b E L'|t bs cs b I D IH].
  - constructor; [rewrite O; exact E|lia].
  - apply derives_base with t; auto.
Qed.
Lemma converts_class : forall bs cs b,
  converts (Class bs cs) b = existsb (fun c => std_derives c b) cs || existsb (fun t => converts t b) bs.
Proof. reflexivity. Qed.
Lemma converts_weaker : forall t b b', converts t b = true -> (b' = TOutput <-> b = TOutput) -> level b' <= level b -> converts t b' = true.
Proof.
  intros t b b' C O L. induction t as [s|bs cs IH] using tag_ind'; [discriminate|].
  rewrite converts_class in *. apply orb_true_iff in C. apply orb_true_iff. destruct C as [C|C].
  - left. apply existsb_exists in C. destruct C as [c [I D]]. apply existsb_exists. exists c. split; [exact I|].
    apply std_derives_iff in D. destruct D as [D L']. apply std_derives_iff. split; [rewrite O; exact D|lia].
  - right. apply existsb_exists in C. destruct C as [t [I D]]. apply existsb_exists. exists t. split; [exact I|]. apply IH; assumption.
Qed.

Lemma level_input : forall b, input_tag b <-> 1 <= level b <= 4.
Proof. intro b. unfold input_tag. destruct b; cbn; intuition (try discriminate; lia). Qed.

Definition inputs := [TInput; TForward; TBidirectional; TRandomAccess].
Lemma inputs_in : forall b, In b inputs <-> input_tag b.
Proof. intro b. unfold input_tag. cbn. intuition congruence. Qed.
Lemma cand_standard : forall t b, by_standard (tag_cand t b) <-> derives t b.
Proof.
  intros t b. rewrite <- subobjects_derives. unfold by_standard, tag_cand. cbn.
  destruct (Nat.ltb_spec 0 (subobjects t b)) as [L|L].
  - split; [intros _; exact L|intros _; eexists; reflexivity].
  - split; [|lia]. intros [r E]. destruct (converts t b); discriminate.
Qed.
Lemma cand_user : forall t b, by_user (tag_cand t b) <-> ~ derives t b /\ converts t b = true.
Proof.
  intros t b. rewrite <- subobjects_derives. unfold by_user, tag_cand. cbn.
  destruct (Nat.ltb_spec 0 (subobjects t b)) as [L|L].
  - split; [intros [f [r E]]; discriminate|]. intros [H _]. lia.
  - destruct (converts t b).
    + split; [|intros _; exists 0, 0; reflexivity]. intros _. split; [lia|reflexivity].
    + split; [intros [f [r E]]; discriminate|]. intros [_ H]. discriminate.
Qed.
Lemma cand_not_sink : forall t b, not_sink (tag_cand t b).
Proof. intros t b. unfold not_sink, tag_cand. cbn. destruct (0 <? subobjects t b), (converts t b); discriminate. Qed.

(** The overload called for tags in order of strength. *)
Lemma resolve_tags : forall t bs n, (forall m, nth_error bs m <> None -> m < n -> derives t (nth m bs TOutput)) ->
  n < length bs -> derives t (nth n bs TOutput) -> (forall m, n < m -> m < length bs -> ~ derives t (nth m bs TOutput)) ->
  (forall m m', m < m' -> m' < length bs -> level (nth m bs TOutput) < level (nth m' bs TOutput) <= 5) ->
  resolve (sink :: map (tag_cand t) bs) = Some (S n).
Proof.
  intros t bs n W L D N O. apply resolve_best. exists (tag_cand t (nth n bs TOutput)).
  assert (E : nth_error (map (tag_cand t) bs) n = Some (tag_cand t (nth n bs TOutput))).
  { rewrite nth_error_map, (nth_error_nth' bs TOutput L). reflexivity. }
  split; [exact E|]. pose proof (proj2 (cand_standard t _) D) as [r R]. split; [congruence|].
  intros [|m] l El Ne.
  - cbn in El. inversion El; subst l. apply standard_sink. exists r. exact R.
  - cbn in El. rewrite nth_error_map in El. destruct (nth_error bs m) as [b|] eqn:B; [|discriminate]. cbn in El. inversion El; subst l.
    assert (Lm : m < length bs) by (apply nth_error_Some; congruence).
    assert (B' : b = nth m bs TOutput) by (symmetry; apply nth_error_nth; exact B).
    assert (Rn : k_conv (tag_cand t (nth n bs TOutput)) = Some (Standard (5 - level (nth n bs TOutput)))).
    { unfold tag_cand. cbn. apply subobjects_derives in D. destruct (Nat.ltb_spec 0 (subobjects t (nth n bs TOutput))); [reflexivity|lia]. }
    unfold better_cand. rewrite Rn. destruct (lt_dec m n) as [C|C].
    + pose proof (W m ltac:(congruence) C) as Dm. rewrite <- B' in Dm. apply subobjects_derives in Dm. unfold tag_cand. cbn.
      destruct (Nat.ltb_spec 0 (subobjects t b)); [|lia]. cbn. specialize (O m n C L). rewrite <- B' in O.
      destruct (Nat.ltb_spec (5 - level (nth n bs TOutput)) (5 - level b)); [reflexivity|lia].
    + assert (n < m) by lia. specialize (N m H Lm). rewrite <- B' in N. rewrite <- subobjects_derives in N. unfold tag_cand. cbn.
      destruct (Nat.ltb_spec 0 (subobjects t b)); [lia|]. destruct (converts t b); reflexivity.
Qed.

Lemma nth_inputs : forall m, m < 4 -> level (nth m inputs TOutput) = S m /\ input_tag (nth m inputs TOutput).
Proof. intros m L. do 4 (destruct m as [|m]; [cbn; unfold input_tag; auto|]). lia. Qed.
Lemma input_level : forall b, input_tag b -> nth (level b - 1) inputs TOutput = b /\ 1 <= level b <= 4.
Proof. intros b I. apply level_input in I as L. destruct b; cbn in *; auto; lia. Qed.
Lemma not_output : forall b, input_tag b -> b <> TOutput.
Proof. intros b [->|[->|[->| ->]]]; discriminate. Qed.

Lemma input_strongest : forall t b, strongest t b ->
  input_tag_bit t = if subobjects t b =? 1 then Ok (N.of_nat (level b)) else IllFormed.
Proof.
  intros t b [I [D M]]. unfold input_tag_bit, tag_bit. fold inputs. destruct (input_level b I) as [E L].
  rewrite (resolve_tags t inputs (level b - 1)).
  - rewrite E. replace (S (level b - 1)) with (level b) by lia. reflexivity.
  - intros m _ Lm. destruct (nth_inputs m ltac:(lia)) as [Q Im]. apply derives_weaker with b; [exact D| |lia].
    split; intro H; exfalso; [exact (not_output _ Im H)|exact (not_output _ I H)].
  - cbn. lia.
  - rewrite E. exact D.
  - intros m Lm L4 Dm. cbn in L4. destruct (nth_inputs m L4) as [Q Im]. specialize (M _ Im Dm). lia.
  - intros m m' Lm L4. cbn in L4. rewrite (proj1 (nth_inputs m ltac:(lia))), (proj1 (nth_inputs m' ltac:(lia))). lia.
Qed.
Lemma derives_dec : forall t b, derives t b \/ ~ derives t b.
Proof. intros t b. rewrite <- subobjects_derives. lia. Qed.
Lemma strongest_or_none : forall t, (exists b, strongest t b) \/ (forall b, input_tag b -> ~ derives t b).
Proof.
  intro t.
  destruct (derives_dec t TRandomAccess) as [D|N4]; [left; exists TRandomAccess; split; [unfold input_tag; auto|split; [exact D|intros b I _; apply level_input in I; cbn; lia]]|].
  destruct (derives_dec t TBidirectional) as [D|N3];
    [left; exists TBidirectional; split; [unfold input_tag; auto|split; [exact D|intros b [->|[->|[->| ->]]] H; cbn; try lia; contradiction]]|].
  destruct (derives_dec t TForward) as [D|N2];
    [left; exists TForward; split; [unfold input_tag; auto|split; [exact D|intros b [->|[->|[->| ->]]] H; cbn; try lia; contradiction]]|].
  destruct (derives_dec t TInput) as [D|N1];
    [left; exists TInput; split; [unfold input_tag; auto|split; [exact D|intros b [->|[->|[->| ->]]] H; cbn; try lia; contradiction]]|].
  right. intros b [->|[->|[->| ->]]]; assumption.
Qed.
Lemma input_none : forall t, (forall b, input_tag b -> ~ derives t b) ->
  input_tag_bit t = if converts t TInput then IllFormed else Ok 0%N.
Proof.
  intros t N. unfold input_tag_bit, tag_bit. fold inputs.
  assert (NS : forall k, In k (map (tag_cand t) inputs) -> ~ by_standard k).
  { intros k I. apply in_map_iff in I. destruct I as [b [<- I]]. rewrite cand_standard. apply N. apply inputs_in. exact I. }
  destruct (converts t TInput) eqn:C.
  - rewrite resolve_fallback_user; [reflexivity|exact NS|]. exists (tag_cand t TInput). split; [left; reflexivity|].
    split; [|reflexivity]. apply cand_user. split; [|exact C]. apply N. unfold input_tag. auto.
  - rewrite resolve_fallback_none; [reflexivity| |exact NS|].
    + intros k I. apply in_map_iff in I. destruct I as [b [<- I]]. apply cand_not_sink.
    + intros k I U. apply in_map_iff in I. destruct I as [b [<- I]]. apply cand_user in U. destruct U as [_ U]. apply inputs_in in I.
      exfalso. assert (converts t TInput = true); [|congruence]. apply converts_weaker with b; [exact U| |].
      * split; intro H; [discriminate|exfalso; exact (not_output b I H)].
      * apply level_input in I. cbn. lia.
Qed.
Lemma output_bit_of : forall t,
  output_tag_bit t =
    match subobjects t TOutput with
    | 0 => if converts t TOutput then IllFormed else Ok 0%N
    | 1 => Ok 1%N
    | _ => IllFormed
    end.
Proof.
  intro t. unfold output_tag_bit, tag_bit.
  destruct (subobjects t TOutput) as [|n] eqn:S.
  - assert (N : ~ derives t TOutput) by (rewrite <- subobjects_derives; lia).
    assert (NS : forall k, In k (map (tag_cand t) [TOutput]) -> ~ by_standard k).
    { intros k [<-|[]]. rewrite cand_standard. exact N. }
    destruct (converts t TOutput) eqn:C.
    + rewrite resolve_fallback_user; [reflexivity|exact NS|]. exists (tag_cand t TOutput). split; [left; reflexivity|].
      split; [apply cand_user; auto|reflexivity].
    + rewrite resolve_fallback_none; [reflexivity| |exact NS|].
      * intros k [<-|[]]. apply cand_not_sink.
      * intros k [<-|[]] U. apply cand_user in U. destruct U as [_ U]. congruence.
  - assert (D : derives t TOutput) by (rewrite <- subobjects_derives; lia).
    rewrite (resolve_tags t [TOutput] 0); [| |cbn; lia|exact D| |].
    + cbn [nth]. rewrite S. destruct n; reflexivity.
    + intros m _ L. lia.
    + intros m L L1. cbn in L1. lia.
    + intros m m' L L1. cbn in L1. lia.
Qed.

(** * Bits *)

Lemma fill_mask_land : forall i j, (i <= 4)%nat -> (j <= 4)%nat ->
  N.land (fill_mask (N.of_nat i)) (fill_mask (N.of_nat j)) = fill_mask (N.of_nat (min i j)).
Proof. intros i j Hi Hj. do 5 (destruct i as [|i]; [do 5 (destruct j as [|j]; [reflexivity|]); lia|]). lia. Qed.
Lemma all_land : forall i, (i <= 4)%nat -> N.land (2 ^ 32 - 1) (fill_mask (N.of_nat i)) = fill_mask (N.of_nat i).
Proof. intros i H. do 5 (destruct i as [|i]; [reflexivity|]). lia. Qed.
Lemma width_fill : forall i, (i <= 4)%nat -> bit_width (fill_mask (N.of_nat i)) = Ok (N.of_nat i).
Proof. intros i H. do 5 (destruct i as [|i]; [reflexivity|]). lia. Qed.
Definition least (l : list nat) (d : nat) : nat := fold_left min l d.
Lemma cbitand_least : forall l d, (d <= 4)%nat -> Forall (fun i => i <= 4)%nat l ->
  fold_left N.land (map fill_mask (map N.of_nat l)) (fill_mask (N.of_nat d)) = fill_mask (N.of_nat (least l d)) /\ (least l d <= 4)%nat.
Proof.
  induction l as [|i l IH]; intros d Hd F; [split; [reflexivity|exact Hd]|].
  inversion F as [|i' l' Fi Fl]; subst. cbn [map fold_left]. rewrite (fill_mask_land d i Hd Fi). apply IH; [lia|exact Fl].
Qed.
Lemma width_least : forall i l, Forall (fun i => i <= 4)%nat (i :: l) ->
  bit_width (cbitand (map fill_mask (map N.of_nat (i :: l)))) = Ok (N.of_nat (least l i)) /\ (least l i <= 4)%nat.
Proof.
  intros i l F. inversion F as [|i' l' Fi Fl]; subst. destruct (cbitand_least l i Fi Fl) as [E L].
  split; [|exact L]. unfold cbitand. cbn [map fold_left]. rewrite (all_land i Fi), E. apply width_fill. exact L.
Qed.
Lemma least_le : forall l d k, (k <= least l d <-> k <= d /\ forall i, In i l -> k <= i)%nat.
Proof.
  induction l as [|i l IH]; intros d k; cbn.
  - intuition.
  - rewrite IH. split.
    + intros [H A]. split; [lia|]. intros j [<-|J]; [lia|apply A; exact J].
    + intros [H A]. split; [|intros j J; apply A; right; exact J]. specialize (A i (or_introl eq_refl)). lia.
Qed.

Lemma mapM_ok : forall (A B : Type) (f : A -> outcome B) (g : A -> B) l, (forall x, In x l -> f x = Ok (g x)) -> mapM f l = Ok (map g l).
Proof.
  intros A B f g l H. induction l as [|x l IH]; [reflexivity|]. cbn. rewrite (H x (or_introl eq_refl)). cbn.
  rewrite IH; [reflexivity|]. intros y I. apply H. right. exact I.
Qed.
Lemma mapM_bad : forall (A B : Type) (f : A -> outcome B) l, (forall x, In x l -> (exists y, f x = Ok y) \/ f x = IllFormed) ->
  (exists x, In x l /\ f x = IllFormed) -> mapM f l = IllFormed.
Proof.
  intros A B f l H [x [I X]]. induction l as [|y l IH]; [destruct I|]. cbn. destruct (H y (or_introl eq_refl)) as [[b Y]|Y]; rewrite Y; cbn; [|reflexivity].
  rewrite IH; [reflexivity| |].
  - intros z Z. apply H. right. exact Z.
  - destruct I as [->|I]; [congruence|exact I].
Qed.

(** The bits of a tag that is accepted. *)
Definition in_bit (t : tag) : nat :=
  if 0 <? subobjects t TRandomAccess then 4 else if 0 <? subobjects t TBidirectional then 3
  else if 0 <? subobjects t TForward then 2 else if 0 <? subobjects t TInput then 1 else 0.
Definition out_bit (t : tag) : nat := if 0 <? subobjects t TOutput then 1 else 0.
Lemma in_bit_le : forall t, in_bit t <= 4.
Proof. intro t. unfold in_bit. repeat match goal with |- context [if ?c then _ else _] => destruct c end; lia. Qed.
Lemma in_bit_derives : forall t b, input_tag b -> (derives t b <-> level b <= in_bit t).
Proof.
  intros t b I. unfold in_bit.
  destruct (Nat.ltb_spec 0 (subobjects t TRandomAccess)) as [L|L4].
  { apply subobjects_derives in L. apply level_input in I as Lb. split; [lia|]. intros _.
    apply derives_weaker with TRandomAccess; [exact L|split; intro H; [exfalso; exact (not_output b I H)|discriminate]|cbn; lia]. }
  destruct (Nat.ltb_spec 0 (subobjects t TBidirectional)) as [L|L3].
  { apply subobjects_derives in L. split.
    - intro D. destruct I as [->|[->|[->| ->]]]; cbn; try lia. apply subobjects_derives in D. lia.
    - intro Lb. apply derives_weaker with TBidirectional; [exact L|split; intro H; [exfalso; exact (not_output b I H)|discriminate]|cbn; lia]. }
  destruct (Nat.ltb_spec 0 (subobjects t TForward)) as [L|L2].
  { apply subobjects_derives in L. split.
    - intro D. destruct I as [->|[->|[->| ->]]]; cbn; try lia; apply subobjects_derives in D; lia.
    - intro Lb. apply derives_weaker with TForward; [exact L|split; intro H; [exfalso; exact (not_output b I H)|discriminate]|cbn; lia]. }
  destruct (Nat.ltb_spec 0 (subobjects t TInput)) as [L|L1].
  { apply subobjects_derives in L. split.
    - intro D. destruct I as [->|[->|[->| ->]]]; cbn; try lia; apply subobjects_derives in D; lia.
    - intro Lb. apply derives_weaker with TInput; [exact L|split; intro H; [exfalso; exact (not_output b I H)|discriminate]|cbn; lia]. }
  split.
  - intro D. destruct I as [->|[->|[->| ->]]]; apply subobjects_derives in D; lia.
  - intro Lb. apply level_input in I. lia.
Qed.
Lemma out_bit_derives : forall t, derives t TOutput <-> 1 <= out_bit t.
Proof. intro t. rewrite <- subobjects_derives. unfold out_bit. destruct (Nat.ltb_spec 0 (subobjects t TOutput)); lia. Qed.
Lemma strongest_in_bit : forall t b, strongest t b -> in_bit t = level b.
Proof.
  intros t b [I [D M]]. apply (in_bit_derives t b I) in D. pose proof (in_bit_le t).
  destruct (Nat.eq_dec (in_bit t) (level b)) as [E|E]; [exact E|exfalso]. apply level_input in I as Lb.
  destruct (nth_inputs (in_bit t - 1) ltac:(lia)) as [Q Im]. specialize (M _ Im). rewrite (in_bit_derives t _ Im), Q in M. lia.
Qed.

Lemma proper_bits : forall t, proper_tag t -> input_tag_bit t = Ok (N.of_nat (in_bit t)) /\ output_tag_bit t = Ok (N.of_nat (out_bit t)).
Proof.
  intros t [H1 [H2 [H3 H4]]]. split.
  - destruct (strongest_or_none t) as [[b S]|N].
    + rewrite (input_strongest t b S), (H1 b S). cbn. rewrite (strongest_in_bit t b S). reflexivity.
    + rewrite (input_none t N), (H2 N TInput) by (unfold input_tag; auto).
      assert (E : in_bit t = 0); [|rewrite E; reflexivity].
      destruct (in_bit t) as [|k] eqn:Q; [reflexivity|exfalso]. apply (N TInput); [unfold input_tag; auto|].
      apply in_bit_derives; [unfold input_tag; auto|]. cbn. lia.
  - rewrite output_bit_of. unfold out_bit. rewrite <- subobjects_derives in H3, H4. unfold unambiguous in H3.
    destruct (subobjects t TOutput) as [|[|n]] eqn:Q.
    + rewrite H4 by lia. reflexivity.
    + reflexivity.
    + specialize (H3 ltac:(lia)). discriminate.
Qed.
Lemma improper_bits : forall t, ~ proper_tag t -> input_tag_bit t = IllFormed \/ output_tag_bit t = IllFormed.
Proof.
  intros t N. rewrite output_bit_of.
  destruct (subobjects t TOutput) as [|[|n]] eqn:Q; [|left|right; reflexivity].
  - destruct (converts t TOutput) eqn:C; [right; reflexivity|left].
    destruct (strongest_or_none t) as [[b S]|NI].
    + rewrite (input_strongest t b S). destruct (Nat.eqb_spec (subobjects t b) 1) as [E|E]; [exfalso; apply N|reflexivity].
      split; [|split; [|split]].
      * intros b' S'. assert (b' = b).
        { pose proof (strongest_in_bit t b S) as X. pose proof (strongest_in_bit t b' S') as Y. rewrite X in Y.
          destruct S as [I _], S' as [I' _]. rewrite <- (proj1 (input_level b I)), <- (proj1 (input_level b' I')), Y. reflexivity. }
        subst b'. exact E.
      * intros H. destruct S as [I [D _]]. exfalso. exact (H b I D).
      * rewrite <- subobjects_derives. lia.
      * intros _. exact C.
    + rewrite (input_none t NI). destruct (converts t TInput) eqn:CI; [reflexivity|exfalso; apply N].
      split; [|split; [|split]].
      * intros b [I [D _]]. exfalso. exact (NI b I D).
      * intros _ b I. destruct (converts t b) eqn:Cb; [|reflexivity]. rewrite <- CI. symmetry. apply converts_weaker with b; [exact Cb| |].
        -- split; intro H; [discriminate|exfalso; exact (not_output b I H)].
        -- apply level_input in I. cbn. lia.
      * rewrite <- subobjects_derives. lia.
      * intros _. exact C.
  - destruct (strongest_or_none t) as [[b S]|NI].
    + rewrite (input_strongest t b S). destruct (Nat.eqb_spec (subobjects t b) 1) as [E|E]; [exfalso; apply N|reflexivity].
      split; [|split; [|split]].
      * intros b' S'. assert (b' = b).
        { pose proof (strongest_in_bit t b S) as X. pose proof (strongest_in_bit t b' S') as Y. rewrite X in Y.
          destruct S as [I _], S' as [I' _]. rewrite <- (proj1 (input_level b I)), <- (proj1 (input_level b' I')), Y. reflexivity. }
        subst b'. exact E.
      * intros H. destruct S as [I [D _]]. exfalso. exact (H b I D).
      * intros _. exact Q.
      * rewrite <- subobjects_derives. lia.
    + rewrite (input_none t NI). destruct (converts t TInput) eqn:CI; [reflexivity|exfalso; apply N].
      split; [|split; [|split]].
      * intros b [I [D _]]. exfalso. exact (NI b I D).
      * intros _ b I. destruct (converts t b) eqn:Cb; [|reflexivity]. rewrite <- CI. symmetry. apply converts_weaker with b; [exact Cb| |].
        -- split; intro H; [discriminate|exfalso; exact (not_output b I H)].
        -- apply level_input in I. cbn. lia.
      * intros _. exact Q.
      * rewrite <- subobjects_derives. lia.
Qed.

Lemma input_base_ok : forall i, i <= 4 -> exists ib, input_tag_base (N.of_nat i) = Ok ib /\
  forall b, subobjects ib b = (if (1 <=? level b) && (level b <=? i) then 1 else 0) /\ converts ib b = false.
Proof.
  intros i H. do 5 (destruct i as [|i]; [eexists; split; [reflexivity|]; intro b; destruct b; split; reflexivity|]). lia.
Qed.
Lemma output_base_ok : forall o, o <= 1 -> exists ob, output_tag_base (N.of_nat o) = Ok ob /\
  forall b, subobjects ob b = (if (level b =? 0) && (1 <=? o) then 1 else 0) /\ converts ob b = false.
Proof.
  intros o H. do 2 (destruct o as [|o]; [eexists; split; [reflexivity|]; intro b; destruct b; split; reflexivity|]). lia.
Qed.
Lemma out_bit_le : forall t, out_bit t <= 1.
Proof. intro t. unfold out_bit. destruct (0 <? subobjects t TOutput); lia. Qed.

Lemma common_tag_ok : forall t r, (forall u, In u (t :: r) -> proper_tag u) ->
  exists c, common_tag (t :: r) = Ok c /\
    (forall b, subobjects c b <= 1 /\ converts c b = false) /\
    (forall b, derives c b <-> b <> TContiguous /\ forall u, In u (t :: r) -> derives u b).
Proof.
  intros t r P. unfold common_tag.
  rewrite (mapM_ok _ _ input_tag_bit (fun u => N.of_nat (in_bit u)) (t :: r)) by (intros u I; apply proper_bits, P, I).
  cbn [bind]. rewrite <- (map_map in_bit N.of_nat).
  destruct (width_least (in_bit t) (map in_bit r)) as [E L].
  { apply Forall_forall. intros i I. change (In i (map in_bit (t :: r))) in I. apply in_map_iff in I. destruct I as [u [<- _]]. apply in_bit_le. }
  change (in_bit t :: map in_bit r) with (map in_bit (t :: r)) in E. rewrite E. cbn [bind].
  rewrite (mapM_ok _ _ output_tag_bit (fun u => N.of_nat (out_bit u)) (t :: r)) by (intros u I; apply proper_bits, P, I).
  cbn [bind]. rewrite <- (map_map out_bit N.of_nat).
  destruct (width_least (out_bit t) (map out_bit r)) as [E' _].
  { apply Forall_forall. intros i I. change (In i (map out_bit (t :: r))) in I. apply in_map_iff in I. destruct I as [u [<- _]].
    pose proof (out_bit_le u). lia. }
  change (out_bit t :: map out_bit r) with (map out_bit (t :: r)) in E'. rewrite E'. cbn [bind].
  assert (L' : least (map out_bit r) (out_bit t) <= 1).
  { destruct (proj1 (least_le (map out_bit r) (out_bit t) _) (le_n _)) as [H _]. pose proof (out_bit_le t). lia. }
  destruct (input_base_ok _ L) as [ib [Ei Bi]]. destruct (output_base_ok _ L') as [ob [Eo Bo]]. rewrite Ei. cbn [bind]. rewrite Eo. cbn [bind].
  eexists. split; [reflexivity|].
  assert (S : forall b, subobjects (Class [ib; ob] []) b = subobjects ib b + subobjects ob b)
    by (intro b; rewrite subobjects_class; cbn [fold_right]; lia).
  assert (In1 : forall k, k <= least (map in_bit r) (in_bit t) <-> forall u, In u (t :: r) -> k <= in_bit u).
  { intro k. rewrite least_le. split.
    - intros [H A] u [<-|I]; [exact H|]. apply A. apply in_map. exact I.
    - intro A. split; [apply A; left; reflexivity|]. intros i I. apply in_map_iff in I. destruct I as [u [<- I]]. apply A. right. exact I. }
  assert (In2 : forall k, k <= least (map out_bit r) (out_bit t) <-> forall u, In u (t :: r) -> k <= out_bit u).
  { intro k. rewrite least_le. split.
    - intros [H A] u [<-|I]; [exact H|]. apply A. apply in_map. exact I.
    - intro A. split; [apply A; left; reflexivity|]. intros i I. apply in_map_iff in I. destruct I as [u [<- I]]. apply A. right. exact I. }
  split.
  - intro b. split.
    + rewrite S, (proj1 (Bi b)), (proj1 (Bo b)). destruct (level b) as [|k]; cbn; [destruct (match least _ _ with 0 => false | _ => true end); lia|].
      destruct (match least _ _ with 0 => false | S m' => k <=? m' end); lia.
    + rewrite converts_class. cbn [existsb]. rewrite (proj2 (Bi b)), (proj2 (Bo b)). reflexivity.
  - intro b. rewrite <- subobjects_derives, S, (proj1 (Bi b)), (proj1 (Bo b)). split.
    + intro H. destruct (Nat.eq_dec (level b) 0) as [Z|Z].
      * assert (b = TOutput) as -> by (destruct b; cbn in Z; congruence || reflexivity). split; [discriminate|].
        intros u I. apply out_bit_derives. apply In2; [|exact I]. cbn [level] in H.
        destruct (Nat.leb_spec 1 (least (map out_bit r) (out_bit t))) as [X|X]; [exact X|cbn in H; lia].
      * destruct (Nat.leb_spec (level b) (least (map in_bit r) (in_bit t))) as [X|X].
        -- assert (I : input_tag b) by (apply level_input; lia). split; [intros ->; cbn in X; lia|].
           intros u Iu. apply in_bit_derives; [exact I|]. apply In1; assumption.
        -- rewrite andb_false_r in H. destruct (Nat.eqb_spec (level b) 0); [contradiction|]. cbn in H. lia.
    + intros [NC A]. destruct (Nat.eq_dec (level b) 0) as [Z|Z].
      * assert (b = TOutput) as -> by (destruct b; cbn in Z; congruence || reflexivity).
        assert (X : 1 <= least (map out_bit r) (out_bit t)) by (apply In2; intros u I; apply out_bit_derives, A, I).
        cbn [level]. destruct (Nat.leb_spec 1 (least (map out_bit r) (out_bit t))); [cbn; lia|lia].
      * assert (I : input_tag b) by (clear - Z NC; unfold input_tag; destruct b; cbn in *; auto; congruence).
        assert (X : level b <= least (map in_bit r) (in_bit t)) by (apply In1; intros u Iu; apply in_bit_derives; [exact I|apply A, Iu]).
        destruct (Nat.leb_spec 1 (level b)); [|lia]. destruct (Nat.leb_spec (level b) (least (map in_bit r) (in_bit t))); [cbn; lia|lia].
Qed.

Lemma common_tag_proper : forall c, (forall b, subobjects c b <= 1 /\ converts c b = false) -> proper_tag c.
Proof.
  intros c H. split; [|split; [|split]].
  - intros b [_ [D _]]. apply subobjects_derives in D. unfold unambiguous. specialize (H b). lia.
  - intros _ b _. apply H.
  - intro D. apply subobjects_derives in D. unfold unambiguous. specialize (H TOutput). lia.
  - intros _. apply H.
Qed.

Lemma bit_cases : forall t, ((exists n, input_tag_bit t = Ok (N.of_nat n) /\ n <= 4) \/ input_tag_bit t = IllFormed) /\
  ((exists n, output_tag_bit t = Ok (N.of_nat n) /\ n <= 4) \/ output_tag_bit t = IllFormed).
Proof.
  intro t. split.
  - destruct (strongest_or_none t) as [[b S]|N].
    + rewrite (input_strongest t b S). destruct (subobjects t b =? 1); [left|right; reflexivity]. exists (level b). split; [reflexivity|].
      destruct S as [I _]. apply level_input in I. lia.
    + rewrite (input_none t N). destruct (converts t TInput); [right; reflexivity|left]. exists 0. split; [reflexivity|lia].
  - rewrite output_bit_of. destruct (subobjects t TOutput) as [|[|n]].
    + destruct (converts t TOutput); [right; reflexivity|left]. exists 0. split; [reflexivity|lia].
    + left. exists 1. split; [reflexivity|lia].
    + right. reflexivity.
Qed.
Lemma mapM_cases : forall (A : Type) (f : A -> outcome N) l, (forall x, In x l -> (exists n, f x = Ok (N.of_nat n) /\ n <= 4) \/ f x = IllFormed) ->
  (exists ns, mapM f l = Ok (map N.of_nat ns) /\ length ns = length l /\ Forall (fun i => i <= 4) ns) \/ mapM f l = IllFormed.
Proof.
  intros A f l H. induction l as [|x l IH]; [left; exists []; repeat split; constructor|]. cbn.
  destruct (H x (or_introl eq_refl)) as [[n [E L]]|E]; rewrite E; cbn [bind]; [|right; reflexivity].
  destruct IH as [[ns [M [Ln F]]]|M]; [intros y I; apply H; right; exact I| |]; rewrite M; cbn [bind]; [left|right; reflexivity].
  exists (n :: ns). split; [reflexivity|]. split; [cbn; congruence|]. constructor; assumption.
Qed.
Lemma common_tag_bad : forall ts u, In u ts -> ~ proper_tag u -> common_tag ts = IllFormed.
Proof.
  intros ts u I P. unfold common_tag. destruct (improper_bits u P) as [B|B].
  - rewrite mapM_bad; [reflexivity| |exists u; auto]. intros x _. destruct (proj1 (bit_cases x)) as [[n [E _]]|E]; eauto.
  - destruct (mapM_cases _ input_tag_bit ts (fun x _ => proj1 (bit_cases x))) as [[ns [M [Ln F]]]|M]; rewrite M; cbn [bind]; [|reflexivity].
    destruct ns as [|n ns]; [destruct ts; [destruct I|discriminate]|]. destruct (width_least n ns F) as [W _]. rewrite W. cbn [bind].
    rewrite mapM_bad; [reflexivity| |exists u; auto]. intros x _. destruct (proj2 (bit_cases x)) as [[m [E _]]|E]; eauto.
Qed.

Lemma proper_std : forall s, proper_tag (Std s).
Proof.
  intro s. assert (U : forall b, derives (Std s) b -> unambiguous (Std s) b).
  { intros b D. apply subobjects_derives in D. unfold unambiguous. cbn in *. destruct (std_derives s b); [reflexivity|lia]. }
  split; [|split; [|split]].
  - intros b [_ [D _]]. apply U. exact D.
  - reflexivity.
  - apply U.
  - reflexivity.
Qed.
Lemma proper_single : forall t, proper_tag t -> proper_tag (Class [t] []).
Proof.
  intros t [H1 [H2 [H3 H4]]].
  assert (D : forall b, derives (Class [t] []) b <-> derives t b).
  { intro b. rewrite <- !subobjects_derives, subobjects_class. cbn [fold_right]. lia. }
  assert (S : forall b, subobjects (Class [t] []) b = subobjects t b) by (intro b; rewrite subobjects_class; cbn [fold_right]; lia).
  assert (C : forall b, converts (Class [t] []) b = converts t b) by (intro b; rewrite converts_class; cbn [existsb]; apply orb_false_r).
  split; [|split; [|split]].
  - intros b [I [Db M]]. unfold unambiguous. rewrite S. apply H1. split; [exact I|]. split; [apply D; exact Db|]. intros b' I' D'. apply M; [exact I'|].
    apply D. exact D'.
  - intros N b I. rewrite C. apply H2; [|exact I]. intros b' I' D'. apply (N b' I'). apply D. exact D'.
  - intro Do. unfold unambiguous. rewrite S. apply H3, D, Do.
  - intro N. rewrite C. apply H4. intro Do. apply N, D, Do.
Qed.
