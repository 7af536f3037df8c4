(** Proofs about the choice of partial specialisations, and about the class template range<>. *)

From Coq Require Import ZArith Arith Bool Lia List.
From Verif Require Import Base ClassModel ClassSpec.
Import ListNotations.

(** Induction on terms. *)
Lemma tm_nested_ind : forall P : tm -> Prop,
  (forall n, P (Var n)) -> (forall z, P (Num z)) -> (forall f l, Forall P l -> P (App f l)) -> forall t, P t.
Proof.
  intros P HV HN HA. fix IH 1. intros [n|z|f l].
  - apply HV.
  - apply HN.
  - apply HA. induction l as [|x l IHl]; constructor; [apply IH|assumption].
Qed.

Fixpoint terms_eqb (l l' : list tm) : bool :=
  match l, l' with
  | [], [] => true
  | x :: r, y :: r' => tm_eqb x y && terms_eqb r r'
  | _, _ => false
  end.
Lemma tm_eqb_App : forall f g l l', tm_eqb (App f l) (App g l') = Nat.eqb f g && terms_eqb l l'.
Proof.
  reflexivity.
Qed.
Lemma tm_eqb_eq : forall a b, tm_eqb a b = true <-> a = b.
Proof.
  induction a as [n|z|f l IH] using tm_nested_ind; intros [m|w|g l'];
    try (cbn; split; discriminate).
  - cbn. rewrite Nat.eqb_eq. split; [intros ->; reflexivity|injection 1; auto].
  - cbn. rewrite Z.eqb_eq. split; [intros ->; reflexivity|injection 1; auto].
  - rewrite tm_eqb_App, andb_true_iff, Nat.eqb_eq.
    assert (H : terms_eqb l l' = true <-> l = l').
    { revert l'. induction IH as [|x l Hx _ IHl]; intros [|y l']; cbn; try (split; [discriminate|discriminate]).
      - split; reflexivity.
      - rewrite andb_true_iff, Hx, IHl. split; [intros [-> ->]; reflexivity|injection 1; auto]. }
    rewrite H. split; [intros [-> ->]; reflexivity|injection 1; auto].
Qed.
Lemma tm_eqb_refl : forall a, tm_eqb a a = true.
Proof. intros. apply tm_eqb_eq. reflexivity. Qed.
Lemma tm_eqb_sym : forall a b, tm_eqb a b = tm_eqb b a.
Proof.
  intros. destruct (tm_eqb b a) eqn:E.
  - apply tm_eqb_eq in E. subst. apply tm_eqb_refl.
  - destruct (tm_eqb a b) eqn:F; [|reflexivity]. apply tm_eqb_eq in F. subst. rewrite tm_eqb_refl in E. discriminate.
Qed.

(** Deduction, for lists. *)
Fixpoint deduce_list (ps ts : list tm) (bs : list (nat * tm)) : option (list (nat * tm)) :=
  match ps, ts with
  | [], [] => Some bs
  | p :: ps', t :: ts' => match deduce p t bs with Some bs' => deduce_list ps' ts' bs' | None => None end
  | _, _ => None
  end.
Lemma deduce_App : forall f g ps ts bs,
  deduce (App f ps) (App g ts) bs = if Nat.eqb f g then deduce_list ps ts bs else None.
Proof.
  reflexivity.
Qed.

Definition agrees (bs : list (nat * tm)) (sigma : nat -> tm) : Prop := forall n u, lookup n bs = Some u -> sigma n = u.
Definition extends (bs bs' : list (nat * tm)) : Prop := forall n u, lookup n bs = Some u -> lookup n bs' = Some u.

Lemma deduce_sound : forall p t bs bs', deduce p t bs = Some bs' ->
  extends bs bs' /\ forall sigma, agrees bs' sigma -> subst sigma p = t.
Proof.
  induction p as [n|z|f ps IH] using tm_nested_ind; intros t bs bs' H.
  - cbn in H. destruct (lookup n bs) as [u|] eqn:E.
    + destruct (tm_eqb u t) eqn:Eq; [|discriminate]. injection H as <-. apply tm_eqb_eq in Eq. subst u.
      split; [intros ? ? ?; assumption|]. intros sigma Hs. cbn. apply Hs. assumption.
    + injection H as <-. split.
      * intros m u Hm. cbn. destruct (Nat.eqb m n) eqn:Em; [|assumption].
        apply Nat.eqb_eq in Em. subst m. rewrite E in Hm. discriminate.
      * intros sigma Hs. cbn. apply Hs. cbn. rewrite Nat.eqb_refl. reflexivity.
  - cbn in H. destruct t as [|w|]; try discriminate. destruct (Z.eqb z w) eqn:E; [|discriminate].
    injection H as <-. apply Z.eqb_eq in E. subst w. split; [intros ? ? ?; assumption|]. reflexivity.
  - destruct t as [|w|g ts]; try discriminate. rewrite deduce_App in H.
    destruct (Nat.eqb f g) eqn:E; [|discriminate]. apply Nat.eqb_eq in E. subst g.
    assert (G : extends bs bs' /\ forall sigma, agrees bs' sigma -> map (subst sigma) ps = ts).
    { revert ts bs H. induction IH as [|p ps Hp _ IHps]; intros [|t ts] bs H; cbn in H; try discriminate.
      - injection H as <-. split; [intros ? ? ?; assumption|reflexivity].
      - destruct (deduce p t bs) as [b1|] eqn:E1; [|discriminate].
        destruct (Hp _ _ _ E1) as [X1 S1]. destruct (IHps _ _ H) as [X2 S2]. split.
        + intros n u Hn. apply X2, X1. assumption.
        + intros sigma Hs. cbn. rewrite (S2 _ Hs). rewrite S1; [reflexivity|]. intros n u Hn. apply Hs, X2. assumption. }
    destruct G as [X S]. split; [assumption|]. intros sigma Hs. cbn. rewrite (S _ Hs). reflexivity.
Qed.

Lemma deduce_complete : forall p sigma bs, agrees bs sigma ->
  exists bs', deduce p (subst sigma p) bs = Some bs' /\ agrees bs' sigma.
Proof.
  induction p as [n|z|f ps IH] using tm_nested_ind; intros sigma bs H.
  - cbn. destruct (lookup n bs) as [u|] eqn:E.
    + rewrite (H _ _ E). rewrite tm_eqb_refl. exists bs. split; [reflexivity|assumption].
    + eexists. split; [reflexivity|]. intros m u Hm. cbn in Hm. destruct (Nat.eqb m n) eqn:Em; [|auto].
      apply Nat.eqb_eq in Em. subst m. injection Hm as <-. reflexivity.
  - cbn. rewrite Z.eqb_refl. exists bs. split; [reflexivity|assumption].
  - cbn [subst]. rewrite deduce_App, Nat.eqb_refl. revert bs H. induction IH as [|p ps Hp _ IHps]; intros bs H; cbn.
    + exists bs. split; [reflexivity|assumption].
    + destruct (Hp sigma bs H) as [b1 [E1 A1]]. rewrite E1. apply IHps. assumption.
Qed.

Theorem matches_instance : forall p t, matches p t = true <-> instance p t.
Proof.
  intros. unfold matches, instance. split.
  - destruct (deduce p t []) as [bs|] eqn:E; [|discriminate]. intros _.
    exists (fun n => match lookup n bs with Some u => u | None => Num 0 end).
    apply (deduce_sound _ _ _ _ E). intros n u ->. reflexivity.
  - intros [sigma <-]. destruct (deduce_complete p sigma []) as [bs [-> _]]; [intros ? ? ?; discriminate|reflexivity].
Qed.
Lemma matches_false : forall p t, matches p t = false <-> ~ instance p t.
Proof. intros. rewrite <- matches_instance. destruct (matches p t); split; congruence. Qed.

Lemma subst_subst : forall sigma tau p, subst sigma (subst tau p) = subst (fun n => subst sigma (tau n)) p.
Proof.
  intros sigma tau. induction p as [n|z|f l IH] using tm_nested_ind; cbn; try reflexivity.
  f_equal. rewrite map_map. induction IH as [|x l Hx _ IHl]; cbn; [reflexivity|]. rewrite Hx, IHl. reflexivity.
Qed.
Lemma subst_var : forall p, subst Var p = p.
Proof.
  induction p as [n|z|f l IH] using tm_nested_ind; cbn; try reflexivity.
  f_equal. induction IH as [|x l Hx _ IHl]; cbn; [reflexivity|]. rewrite Hx, IHl. reflexivity.
Qed.
Lemma instance_self : forall p, instance p p.
Proof. intros p. exists Var. apply subst_var. Qed.

Lemma at_least_spec : forall p q, at_least_as_specialised p q = true <-> forall t, instance p t -> instance q t.
Proof.
  intros. unfold at_least_as_specialised. rewrite matches_instance. split.
  - intros [tau <-] t [sigma <-]. rewrite subst_subst. eexists. reflexivity.
  - intros H. apply H, instance_self.
Qed.
Theorem more_specialised_spec : forall p q, more_specialised p q = true <-> special_case p q.
Proof.
  intros. unfold more_specialised, special_case. rewrite andb_true_iff, negb_true_iff, at_least_spec.
  split; intros [H K]; (split; [assumption|]).
  - exists q. split; [apply instance_self|]. unfold at_least_as_specialised in K. apply matches_false in K. assumption.
  - destruct K as [t [K1 K2]]. destruct (at_least_as_specialised q p) eqn:E; [|reflexivity].
    rewrite at_least_spec in E. destruct K2. auto.
Qed.

(** Candidates. *)
Lemma positions_spec : forall specs t k i p,
  In (i, p) (positions specs t k) <-> k <= i /\ nth_error specs (i - k) = Some p /\ instance p t.
Proof.
  induction specs as [|q specs IH]; intros t k i p; cbn.
  - split; [intros []|]. intros [_ [H _]]. destruct (i - k); discriminate.
  - assert (G : In (i, p) (positions specs t (S k)) <-> k < i /\ nth_error (q :: specs) (i - k) = Some p /\ instance p t).
    { rewrite IH. split; intros [H1 [H2 H3]].
      - replace (i - k) with (S (i - S k)) by lia. auto.
      - replace (i - k) with (S (i - S k)) in H2 by lia. cbn in H2. split; [lia|auto]. }
    destruct (matches q t) eqn:E.
    + cbn. rewrite G. split.
      * intros [H|[H1 H2]].
        -- injection H as -> ->. replace (i - i) with 0 by lia. cbn. apply matches_instance in E. auto.
        -- split; [lia|assumption].
      * intros [H1 [H2 H3]]. destruct (Nat.eq_dec i k) as [->|N].
        -- left. replace (k - k) with 0 in H2 by lia. cbn in H2. injection H2 as ->. reflexivity.
        -- right. split; [lia|auto].
    + rewrite G. split; intros [H1 [H2 H3]].
      * split; [lia|auto].
      * destruct (Nat.eq_dec i k) as [->|N]; [|split; [lia|auto]].
        replace (k - k) with 0 in H2 by lia. cbn in H2. injection H2 as ->. apply matches_false in E. contradiction.
Qed.
Lemma positions_nodup : forall specs t k, NoDup (map fst (positions specs t k)).
Proof.
  induction specs as [|q specs IH]; intros t k; cbn; [constructor|].
  destruct (matches q t); [|apply IH]. cbn. constructor; [|apply IH].
  intros H. apply in_map_iff in H. destruct H as [[i p] [E H]]. cbn in E. subst i.
  apply positions_spec in H. lia.
Qed.

Lemma candidate_best : forall specs t i p,
  In (i, p) (filter (fun p => forallb (fun q => Nat.eqb (fst p) (fst q) || more_specialised (snd p) (snd q)) (positions specs t 0)) (positions specs t 0)) <->
  nth_error specs i = Some p /\ best specs t i.
Proof.
  intros. rewrite filter_In, positions_spec, forallb_forall. rewrite Nat.sub_0_r. split.
  - intros [[_ [H1 H2]] H3]. split; [assumption|]. exists p. split; [assumption|]. split; [assumption|].
    intros j q N Hj Hq. specialize (H3 (j, q)). cbn in H3. rewrite positions_spec, Nat.sub_0_r in H3.
    specialize (H3 (conj (Nat.le_0_l j) (conj Hj Hq))). apply orb_true_iff in H3. destruct H3 as [H3|H3].
    + apply Nat.eqb_eq in H3. congruence.
    + apply more_specialised_spec. assumption.
  - intros [H1 [p' [H2 [H3 H4]]]]. rewrite H1 in H2. injection H2 as <-. split; [split; [lia|auto]|].
    intros [j q] Hj. cbn. rewrite positions_spec, Nat.sub_0_r in Hj. destruct Hj as [_ [Hj Hq]].
    destruct (Nat.eqb i j) eqn:E; [reflexivity|]. cbn. apply more_specialised_spec. apply (H4 j); auto.
    apply Nat.eqb_neq in E. congruence.
Qed.
Lemma best_unique : forall specs t i j, best specs t i -> best specs t j -> i = j.
Proof.
  intros specs t i j [p [Hp [Ip Bp]]] [q [Hq [Iq Bq]]]. destruct (Nat.eq_dec i j) as [|N]; [assumption|].
  assert (N' : j <> i) by congruence.
  destruct (Bp j q N' Hq Iq) as [H1 _]. destruct (Bq i p N Hp Ip) as [_ [u [U1 U2]]]. destruct U2. auto.
Qed.

Lemma select_unfold : forall specs t, select specs t =
  match positions specs t 0 with
  | [] => Primary
  | _ => match filter (fun p => forallb (fun q => Nat.eqb (fst p) (fst q) || more_specialised (snd p) (snd q)) (positions specs t 0)) (positions specs t 0) with
         | [p] => Selected (fst p)
         | _ => Ambiguous
         end
  end.
Proof. intros. unfold select. destruct (positions specs t 0); reflexivity. Qed.

Theorem select_primary : forall specs t, select specs t = Primary <-> forall p, In p specs -> ~ instance p t.
Proof.
  intros. rewrite select_unfold. split.
  - destruct (positions specs t 0) eqn:E.
    + intros _ p Hp Hi. apply In_nth_error in Hp. destruct Hp as [i Hi'].
      assert (In (i, p) (positions specs t 0)) by (apply positions_spec; rewrite Nat.sub_0_r; split; [lia|auto]).
      rewrite E in H. destruct H.
    + destruct (filter _ _) as [|? [|]]; discriminate.
  - intros H. destruct (positions specs t 0) as [|[i p] l] eqn:E; [reflexivity|]. exfalso.
    assert (In (i, p) (positions specs t 0)) by (rewrite E; left; reflexivity).
    apply positions_spec in H0. destruct H0 as [_ [H1 H2]]. apply nth_error_In in H1. exact (H p H1 H2).
Qed.
Theorem select_selected : forall specs t i, select specs t = Selected i <-> best specs t i.
Proof.
  intros. rewrite select_unfold.
  set (F := filter (fun p => forallb (fun q => Nat.eqb (fst p) (fst q) || more_specialised (snd p) (snd q)) (positions specs t 0)) (positions specs t 0)).
  assert (HF : forall i p, In (i, p) F <-> nth_error specs i = Some p /\ best specs t i) by (intros; apply candidate_best).
  assert (ND : NoDup (map fst F)).
  { unfold F. pose proof (positions_nodup specs t 0) as N. revert N.
    generalize (fun p => forallb (fun q => Nat.eqb (fst p) (fst q) || more_specialised (snd p) (snd q)) (positions specs t 0)).
    generalize (positions specs t 0). intros l f. induction l as [|x l IH]; cbn; [auto|].
    intros N. inversion N; subst. destruct (f x); [|auto]. cbn. constructor; [|auto].
    intros H. apply H1. apply in_map_iff in H. destruct H as [y [<- Hy]]. apply in_map. apply filter_In in Hy. apply Hy. }
  clearbody F.
  split.
  - destruct (positions specs t 0) as [|x0 l0]; [discriminate|]. destruct F as [|[j p] [|]]; try discriminate.
    cbn. injection 1 as ->. apply (HF i p). left. reflexivity.
  - intros B. pose proof B as [p [Hp [Ip _]]].
    assert (Hin : In (i, p) F) by (apply HF; auto).
    destruct (positions specs t 0) eqn:E.
    { assert (X : In (i, p) (positions specs t 0)) by (apply positions_spec; rewrite Nat.sub_0_r; split; [lia|auto]).
      rewrite E in X. destruct X. }
    destruct F as [|[j q] [|[j' q'] F']].
    + destruct Hin.
    + destruct Hin as [Hin|[]]. injection Hin as -> ->. reflexivity.
    + exfalso. assert (A : In (j, q) ((j, q) :: (j', q') :: F')) by (left; reflexivity).
      assert (A' : In (j', q') ((j, q) :: (j', q') :: F')) by (right; left; reflexivity).
      apply HF in A. apply HF in A'. destruct A as [_ A]. destruct A' as [_ A'].
      pose proof (best_unique _ _ _ _ A A'). subst j'. cbn in ND. inversion ND; subst. apply H1. left. reflexivity.
Qed.
Theorem select_ambiguous : forall specs t, select specs t = Ambiguous <->
  (exists p, In p specs /\ instance p t) /\ forall i, ~ best specs t i.
Proof.
  intros. split.
  - intros H. split.
    + destruct (positions specs t 0) as [|[i p] l] eqn:E.
      * rewrite select_unfold, E in H. discriminate.
      * assert (X : In (i, p) (positions specs t 0)) by (rewrite E; left; reflexivity).
        apply positions_spec in X. destruct X as [_ [X1 X2]]. exists p. split; [|assumption]. eapply nth_error_In, X1.
    + intros i B. apply select_selected in B. congruence.
  - intros [[p [H1 H2]] H3]. destruct (select specs t) as [|i|] eqn:E; [| |reflexivity]; exfalso.
    + apply select_primary with (p := p) in E; auto.
    + apply select_selected in E. apply (H3 i E).
Qed.

(** The base classes of range<>. *)
Lemma range_class_eval : forall c It EndIt extent, range_class c It EndIt extent =
  if Z.eqb extent (-1) then if legacy_random_access c then Ok RandomAccess else Ok General
  else if legacy_random_access c && tm_eqb It EndIt && (0 <=? extent)%Z then Ok (Static extent) else IllFormed.
Proof.
  intros. unfold range_class, select, positions, range_base_specs, matches, range_iterator_tag.
  rewrite (Z.eqb_sym extent).
  destruct (legacy_random_access c); destruct (tm_eqb It EndIt) eqn:E; destruct (Z.eqb (-1) extent) eqn:F;
    repeat (cbn -[Z.eqb Z.leb tm_eqb]; rewrite ?E, ?F; cbn -[Z.eqb Z.leb]); try reflexivity.
Qed.

(** The tuple protocol. *)
Lemma tuple_size_eval : forall It EndIt extent, tuple_size It EndIt extent =
  if tm_eqb It EndIt then if Z.eqb extent (-1) then IllFormed else if (0 <=? extent)%Z then Ok (Some extent) else IllFormed
  else Ok None.
Proof.
  intros. unfold tuple_size, select, positions, tuple_specs, matches. rewrite (Z.eqb_sym extent).
  destruct (tm_eqb It EndIt) eqn:E; destruct (Z.eqb (-1) extent) eqn:F;
    repeat (cbn -[Z.eqb Z.leb tm_eqb]; rewrite ?E, ?F; cbn -[Z.eqb Z.leb]); try reflexivity.
Qed.
Lemma tuple_element_eval : forall It EndIt extent, tuple_element It EndIt extent =
  if tm_eqb It EndIt then if Z.eqb extent (-1) then IllFormed else Ok true else Ok false.
Proof.
  intros. unfold tuple_element, select, positions, tuple_specs, matches. rewrite (Z.eqb_sym extent).
  destruct (tm_eqb It EndIt) eqn:E; destruct (Z.eqb (-1) extent) eqn:F;
    repeat (cbn -[Z.eqb Z.leb tm_eqb]; rewrite ?E, ?F; cbn -[Z.eqb Z.leb]); try reflexivity.
Qed.
Lemma mapM_const : forall (A B : Type) (f : A -> outcome B) l b, (forall x, In x l -> f x = Ok b) -> mapM f l = Ok (repeat b (length l)).
Proof.
  intros A B f l b. induction l as [|x l IH]; cbn; intros H; [reflexivity|].
  rewrite H by auto. cbn. rewrite IH by auto. reflexivity.
Qed.
Lemma mapM_first_illformed : forall (A B : Type) (f : A -> outcome B) x l, f x = IllFormed -> mapM f (x :: l) = IllFormed.
Proof. intros A B f x l H. cbn. rewrite H. reflexivity. Qed.
