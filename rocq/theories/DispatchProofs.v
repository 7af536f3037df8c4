From Coq Require Import ZArith Arith Bool Lia Permutation List.
From Verif Require Import Base TypeSeqModel ExpandModel ExpandSpec ExpandProofs VariantModel VariantSpec VariantProofs DispatchModel DispatchSpec.
Import ListNotations.

Definition good (c : choice) : Prop :=
  expandable (ity_bits (ch_type c)) (ity_signed (ch_type c)) (ch_values c) (ch_value c) /\
  (ch_bool c = true -> ch_type c = (mk_ity 1 false)).

Lemma good_behaves : forall c, good c ->
  behaves (fun k => nth_error (ch_values c) k = Some (ch_value c))
    (expand_int (ch_type c) (ch_bool c) (ch_type c) (ch_value c) (ch_values c))
    (try_expand_int (ch_type c) (ch_bool c) (ch_type c) (ch_value c) (ch_values c))
    (expand_failfast_int (ch_type c) (ch_bool c) (ch_type c) (ch_value c) (ch_values c)).
Proof.
  intros c [[H1 [H2 [H3 [H4 [H5 [H6 [H7 H8]]]]]]] H9]. apply expand_same_type; assumption.
Qed.

Definition the_constant (c : choice) : constant * unit := ((ch_type c, ch_value c), tt).

Lemma listed_cases : forall c, good c -> In (ch_value c) (ch_values c) ->
  exists k, nth_error (ch_values c) k = Some (ch_value c) /\ expanded c = Ok (Some (k, tt)) /\ expanded_failfast c = Ok (Some (k, tt)).
Proof.
  intros c G I. destruct (good_behaves c G) as [[k [F [E [_ E2]]]]|[N _]].
  - exists k. unfold expanded, expanded_failfast. rewrite E, E2. auto.
  - apply In_nth_error in I as [k I]. exfalso. apply (N k I).
Qed.

Lemma unlisted_cases : forall c, good c -> ~ In (ch_value c) (ch_values c) ->
  expanded c = Throw UnsupportedRuntimeValue /\ expanded_failfast c = Contract.
Proof.
  intros c G I. destruct (good_behaves c G) as [[k [F _]]|[_ [E [_ E2]]]].
  - exfalso. apply I. apply nth_error_In in F. exact F.
  - unfold expanded, expanded_failfast. rewrite E, E2. auto.
Qed.

Lemma evaluate_ok : forall A order (es : list (outcome A)) xs, evaluation_order (length es) order ->
  Forall2 (fun e x => e = Ok x) es xs -> evaluate_arguments order es = Ok xs.
Proof.
  intros A order es xs O F. unfold evaluate_arguments.
  assert (M : mapM (fun e => e) es = Ok xs) by (apply mapM_inv; exact F).
  assert (G : forall l, (forall i, In i l -> (i < length es)%nat) ->
     exists ys, mapM (fun i => match nth_error es i with Some e => e | None => IllFormed end) l = Ok ys).
  { induction l as [|i l IH]; intro L; [exists []; reflexivity|].
    destruct IH as [ys E]; [intros j J; apply L; right; exact J|].
    assert (Li : (i < length es)%nat) by (apply L; left; reflexivity).
    destruct (nth_error es i) as [e|] eqn:Ei; [|apply nth_error_None in Ei; lia].
    assert (exists x, e = Ok x) as [x ->].
    { apply nth_error_In in Ei. clear -F Ei. induction F as [|e0 x0 es xs H F IH]; [destruct Ei|].
      destruct Ei as [->|Ei]; [exists x0; exact H|apply IH; exact Ei]. }
    exists (x :: ys). cbn [mapM]. rewrite Ei. cbn [bind]. rewrite E. reflexivity. }
  destruct (G order) as [ys E].
  { intros i I. apply (Permutation_in _ O) in I. apply in_seq in I. lia. }
  rewrite E. exact M.
Qed.

Lemma evaluate_fail : forall A order (es : list (outcome A)) (bad : outcome A) (bad' : outcome (list A)),
  evaluation_order (length es) order ->
  (forall B (f : A -> outcome B), bind bad f = match bad' with Throw e => Throw e | _ => Contract end) ->
  (bad' = Contract \/ exists e, bad' = Throw e) ->
  (forall e, In e es -> (exists x, e = Ok x) \/ e = bad) -> In bad es -> (forall x, bad <> Ok x) ->
  evaluate_arguments order es = bad'.
Proof.
  intros A order es bad bad' O B B' C I NB. unfold evaluate_arguments.
  assert (G : forall l, (forall i, In i l -> (i < length es)%nat) ->
     (exists i, In i l /\ nth_error es i = Some bad) ->
     mapM (fun i => match nth_error es i with Some e => e | None => IllFormed end) l = match bad' with Throw e => Throw e | _ => Contract end).
  { induction l as [|i l IH]; intros L [j [J Ej]]; [destruct J|]. cbn [mapM].
    assert (Li : (i < length es)%nat) by (apply L; left; reflexivity).
    destruct (nth_error es i) as [e|] eqn:Ei; [|apply nth_error_None in Ei; lia].
    destruct (C e (nth_error_In _ _ Ei)) as [[x ->]| ->]; [|apply B].
    cbn [bind]. rewrite IH.
    - destruct bad'; reflexivity.
    - intros k K. apply L. right. exact K.
    - destruct J as [-> |J]; [|exists j; auto]. rewrite Ei in Ej. injection Ej as E. exfalso. apply (NB x). auto. }
  apply In_nth_error in I as [j Ej]. rewrite G.
  - destruct B' as [->|[e ->]]; reflexivity.
  - intros i I. apply (Permutation_in _ O) in I. apply in_seq in I. lia.
  - exists j. split; [|exact Ej]. apply (Permutation_in _ (Permutation_sym O)). apply in_seq.
    assert (j < length es)%nat by (apply nth_error_Some; congruence). lia.
Qed.

Lemma all_listed : forall (ex : choice -> outcome (option (nat * unit))) cs,
  (forall c, In c cs -> exists k, nth_error (ch_values c) k = Some (ch_value c) /\ ex c = Ok (Some (k, tt))) ->
  exists vs, Forall2 (fun e x => e = Ok x) (map ex cs) vs /\
    holding (map alternatives cs) vs (map the_constant cs).
Proof.
  intros ex. induction cs as [|c cs IH]; intro H.
  - exists []. split; [constructor|]. repeat split; constructor.
  - destruct IH as [vs [F [Ho [L1 L2]]]]; [intros; apply H; right; assumption|].
    destruct (H c (or_introl eq_refl)) as [k [K E]].
    exists (Some (k, tt) :: vs). split; [constructor; auto|]. split; [|cbn; split; auto].
    constructor; [|exact Ho]. exists k. cbn. split; [reflexivity|].
    unfold alternatives. apply (map_nth_error (fun x => (ch_type c, x)) k (ch_values c) K).
Qed.

Section D.
  Context {S R : Type}.
  Variable f : S -> list (constant * unit) -> S * outcome R.

  Lemma dispatch_listed : forall order cs s, evaluation_order (length cs) order -> Forall good cs ->
    Forall (fun c => In (ch_value c) (ch_values c)) cs ->
    dispatch order f cs s = f s (map the_constant cs) /\ dispatch_failfast order f cs s = f s (map the_constant cs).
  Proof.
    intros order cs s O G L. rewrite Forall_forall in G, L. split.
    - destruct (all_listed expanded cs) as [vs [F H]].
      { intros c C. destruct (listed_cases c (G c C) (L c C)) as [k [K [E _]]]. exists k; auto. }
      unfold dispatch. rewrite (evaluate_ok _ order (map expanded cs) vs); [|rewrite map_length; exact O|exact F].
      cbn [call_with]. apply visit_spec. exact H.
    - destruct (all_listed expanded_failfast cs) as [vs [F H]].
      { intros c C. destruct (listed_cases c (G c C) (L c C)) as [k [K [_ E]]]. exists k; auto. }
      unfold dispatch_failfast. rewrite (evaluate_ok _ order (map expanded_failfast cs) vs); [|rewrite map_length; exact O|exact F].
      cbn [call_with]. apply visit_spec. exact H.
  Qed.

  Lemma dispatch_unlisted : forall order cs s, evaluation_order (length cs) order -> Forall good cs ->
    Exists (fun c => ~ In (ch_value c) (ch_values c)) cs ->
    dispatch order f cs s = (s, Throw UnsupportedRuntimeValue) /\ dispatch_failfast order f cs s = (s, Contract).
  Proof.
    intros order cs s O G L. rewrite Forall_forall in G. apply Exists_exists in L as [c0 [C0 L0]].
    assert (D : forall c, In (ch_value c) (ch_values c) \/ ~ In (ch_value c) (ch_values c)).
    { intro c. destruct (in_dec Z.eq_dec (ch_value c) (ch_values c)); auto. }
    split.
    - unfold dispatch. rewrite (evaluate_fail _ order (map expanded cs) (Throw UnsupportedRuntimeValue) (Throw UnsupportedRuntimeValue)).
      + reflexivity.
      + rewrite map_length. exact O.
      + reflexivity.
      + right. eexists. reflexivity.
      + intros e I. apply in_map_iff in I as [c [<- C]]. destruct (D c) as [I|I].
        * destruct (listed_cases c (G c C) I) as [k [_ [E _]]]. left. eexists. exact E.
        * right. apply (unlisted_cases c (G c C) I).
      + apply in_map_iff. exists c0. split; [|exact C0]. apply (unlisted_cases c0 (G c0 C0) L0).
      + discriminate.
    - unfold dispatch_failfast. rewrite (evaluate_fail _ order (map expanded_failfast cs) Contract Contract).
      + reflexivity.
      + rewrite map_length. exact O.
      + reflexivity.
      + left. reflexivity.
      + intros e I. apply in_map_iff in I as [c [<- C]]. destruct (D c) as [I|I].
        * destruct (listed_cases c (G c C) I) as [k [_ [_ E]]]. left. eexists. exact E.
        * right. apply (unlisted_cases c (G c C) I).
      + apply in_map_iff. exists c0. split; [|exact C0]. apply (unlisted_cases c0 (G c0 C0) L0).
      + discriminate.
  Qed.
End D.

Lemma bool_choice_good : forall b, good (bool_choice b) /\ In (ch_value (bool_choice b)) (ch_values (bool_choice b)).
Proof.
  intro b. split.
  - split; [|reflexivity]. unfold expandable. cbn [ch_type ch_values ch_value bool_choice ity_bits ity_signed].
    split; [left; reflexivity|]. split; [destruct b; cbn; lia|].
    split; [repeat apply Forall_cons; try apply Forall_nil; cbn; lia|].
    split; [unfold array_size_ok; cbn; lia|].
    split; [repeat constructor; cbn; intuition discriminate|]. split; [discriminate|].
    split; [intros H; lia|intros _ H; lia].
  - destruct b; cbn; auto.
Qed.

Lemma bool_constants : forall bs, map the_constant (map bool_choice bs) = map (fun b : bool => (((mk_ity 1 false), if b then 1 else 0)%Z, tt)) bs.
Proof. induction bs as [|b bs IH]; [reflexivity|]. cbn. f_equal. exact IH. Qed.

Definition in_range (c : choice) : Prop :=
  standard_width (ity_bits (ch_type c)) /\ int_value (ity_bits (ch_type c)) (ity_signed (ch_type c)) (ch_value c) /\
  Forall (int_value (ity_bits (ch_type c)) (ity_signed (ch_type c))) (ch_values c) /\ array_size_ok (ch_values c) /\
  (ch_bool c = true -> ch_type c = (mk_ity 1 false)).

Lemma expanded_sound : forall c v, in_range c -> expanded c = Ok v \/ expanded_failfast c = Ok v ->
  exists k, nth_error (ch_values c) k = Some (ch_value c) /\ v = Some (k, tt).
Proof.
  intros c v [H1 [H2 [H3 [H4 H5]]]] E.
  destruct (expand_sound_same_type _ _ _ _ H1 H5 H2 H3 H4) as [A [_ B]].
  destruct E as [E|E]; unfold expanded, expanded_failfast in E; apply bind_ok_inv in E as [k [E1 E2]]; injection E2 as <-; exists k; split; auto.
Qed.

Lemma evaluate_ok_inv : forall A order (es : list (outcome A)) xs, evaluate_arguments order es = Ok xs -> Forall2 (fun e x => e = Ok x) es xs.
Proof.
  intros A order es xs E. unfold evaluate_arguments in E. apply bind_ok_inv in E as [ys [_ E]]. apply mapM_inv in E. exact E.
Qed.

Lemma holding_of : forall (ex : choice -> outcome (option (nat * unit))) cs vs,
  (forall c v, In c cs -> ex c = Ok v -> exists k, nth_error (ch_values c) k = Some (ch_value c) /\ v = Some (k, tt)) ->
  Forall2 (fun e x => e = Ok x) (map ex cs) vs -> holding (map alternatives cs) vs (map the_constant cs).
Proof.
  intros ex. induction cs as [|c cs IH]; intros vs H F; cbn in F.
  - inversion F. repeat split; constructor.
  - inversion F as [|e v es vs' E F']; subst. clear F. destruct (H c v (or_introl eq_refl) E) as [k [K ->]].
    destruct (IH vs') as [Ho [L1 L2]]; [intros c' v' I; apply H; right; exact I|exact F'|].
    split; [|cbn; split; auto]. constructor; [|exact Ho]. exists k. cbn. split; [reflexivity|].
    unfold alternatives. apply (map_nth_error (fun x => (ch_type c, x)) k (ch_values c) K).
Qed.

Lemma call_with_cases : forall A S R (o : outcome A) (g : A -> S -> S * outcome R) s,
  (exists a, o = Ok a /\ call_with o g s = g a s) \/ (exists r, call_with o g s = (s, r) /\ forall x, r <> Ok x).
Proof.
  intros A S R o g s. destruct o as [a| |e| | |]; [left; exists a; split; reflexivity| | | | |]; right; eexists; split; try reflexivity; discriminate.
Qed.

Lemma dispatch_sound : forall S R (f : S -> list (constant * unit) -> S * outcome R) order cs s, Forall in_range cs ->
  (dispatch order f cs s = f s (map the_constant cs) \/ exists r, dispatch order f cs s = (s, r) /\ forall x, r <> Ok x) /\
  (dispatch_failfast order f cs s = f s (map the_constant cs) \/ exists r, dispatch_failfast order f cs s = (s, r) /\ forall x, r <> Ok x).
Proof.
  intros S R f order cs s G. rewrite Forall_forall in G. split.
  - unfold dispatch. destruct (call_with_cases _ _ _ (evaluate_arguments order (map expanded cs))
      (fun vs s => visit f (map alternatives cs) vs s) s) as [[vs [E ->]]|H]; [left|right; exact H].
    apply visit_spec. apply (holding_of expanded); [|apply (evaluate_ok_inv _ order); exact E].
    intros c v I Ec. apply expanded_sound; auto.
  - unfold dispatch_failfast. destruct (call_with_cases _ _ _ (evaluate_arguments order (map expanded_failfast cs))
      (fun vs s => visit f (map alternatives cs) vs s) s) as [[vs [E ->]]|H]; [left|right; exact H].
    apply visit_spec. apply (holding_of expanded_failfast); [|apply (evaluate_ok_inv _ order); exact E].
    intros c v I Ec. apply expanded_sound; auto.
Qed.

Lemma holding_map : forall T T' V (g : T -> T') (alts : list (list T)) (vs : list (option (nat * V))) args,
  holding alts vs args -> holding (map (map g) alts) vs (map (fun p => (g (fst p), snd p)) args).
Proof.
  intros T T' V g. induction alts as [|a alts IH]; intros vs args [H [L1 L2]].
  - destruct vs; [|discriminate]. destruct args; [|discriminate]. repeat split; constructor.
  - destruct vs as [|v vs]; [discriminate|]. destruct args as [|[t x] args]; [discriminate|]. cbn in H.
    inversion H as [|? ? ? ? [i [E1 E2]] F]; subst. cbn in E1, E2, L1, L2.
    destruct (IH vs args) as [Ho [M1 M2]]; [split; [exact F|split; lia]|].
    split; [|cbn; split; lia]. cbn. constructor; [|exact Ho]. exists i. cbn. split; [exact E1|]. apply map_nth_error. exact E2.
Qed.

Section T.
  Context {T S : Type}.
  Variable eq_dec : forall a b : T, {a = b} + {a <> b}.
  Variable of_constant : constant -> T.
  Variable fres : list T -> option T.
  Variable f : S -> list (T * unit) -> S * outcome unit.

  Lemma dispatch_transform_listed : forall order cs R s s', evaluation_order (length cs) order -> Forall good cs ->
    Forall (fun c => In (ch_value c) (ch_values c)) cs ->
    let ts := map (fun c => of_constant (ch_type c, ch_value c)) cs in
    variant_transform_result eq_dec fres (map (fun c => map of_constant (alternatives c)) cs) = Ok R ->
    f s (map (fun t => (t, tt)) ts) = (s', Ok tt) ->
    (forall t, fres ts = Some t ->
      exists i, dispatch_transform eq_dec order of_constant fres f cs s = (s', Ok (i, tt)) /\ nth_error R i = Some t) /\
    (fres ts = None -> dispatch_transform eq_dec order of_constant fres f cs s = (s', Contract)).
  Proof.
    intros order cs R s s' O G L ts ER Ef. assert (G' := G). rewrite Forall_forall in G, L.
    destruct (all_listed expanded cs) as [vs [F H]].
    { intros c C. destruct (listed_cases c (G c C) (L c C)) as [k [K [E _]]]. exists k; auto. }
    unfold dispatch_transform. rewrite (evaluate_ok _ order (map expanded cs) vs); [|rewrite map_length; exact O|exact F].
    cbn [call_with]. apply (holding_map _ _ _ of_constant) in H. rewrite map_map in H.
    assert (A : map (fun p : constant * unit => (of_constant (fst p), snd p)) (map the_constant cs) = map (fun t => (t, tt)) ts).
    { unfold ts. rewrite !map_map. apply map_ext. reflexivity. }
    rewrite A in H.
    assert (B : map fst (map (fun t => (t, tt)) ts) = ts) by (rewrite map_map; cbn; apply map_id).
    assert (I : inhabited_variants (map (fun c => map of_constant (alternatives c)) cs)).
    { unfold inhabited_variants. apply Forall_forall. intros a I. apply in_map_iff in I as [c [<- C]].
      specialize (L c C). unfold alternatives. destruct (ch_values c); [destruct L|discriminate]. }
    destruct (variant_transform_call eq_dec unit S fres f _ R vs _ s I ER H) as [V1 [V2 _]]. rewrite B in V1, V2.
    split.
    - intros t Et. apply (V1 s' tt t Ef Et).
    - intro En. apply (V2 s' tt Ef En).
  Qed.

  Lemma dispatch_transform_unlisted : forall order cs s, evaluation_order (length cs) order -> Forall good cs ->
    Exists (fun c => ~ In (ch_value c) (ch_values c)) cs ->
    dispatch_transform eq_dec order of_constant fres f cs s = (s, Throw UnsupportedRuntimeValue).
  Proof.
    intros order cs s O G L.
    destruct (dispatch_unlisted (fun (s : S) _ => (s, Ok tt)) order cs s O G L) as [H _].
    unfold dispatch in H. unfold dispatch_transform.
    destruct (evaluate_arguments order (map expanded cs)) as [vs| |e| | |] eqn:E; cbn [call_with] in *; try discriminate.
    - exfalso. apply evaluate_ok_inv in E. apply Exists_exists in L as [c [C N]]. rewrite Forall_forall in G.
      destruct (unlisted_cases c (G c C) N) as [U _]. assert (I : In (expanded c) (map expanded cs)) by (apply in_map; exact C).
      rewrite U in I. clear -E I. induction E as [|e x es xs H F IH]; [destruct I|]. destruct I as [->|I]; [discriminate|auto].
    - injection H as ->. reflexivity.
  Qed.
End T.
