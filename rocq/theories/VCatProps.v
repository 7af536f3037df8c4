(** Property C73: value categories of variants and functors. *)

From Coq Require Import ZArith Arith Bool Lia List.
From Verif Require Import Base TypeSeqModel TypeSeqSpec TypeSeqProofs VariantModel VariantSpec VariantProofs VCatModel VCatSpec.
Import ListNotations.

Section Lemmas.
  Context {T F V : Type}.
  Variable eq_dec : forall a b : T, {a = b} + {a <> b}.

  Lemma refers_held : forall (m : memory (V := V)) (args : list (arg (T := T))) refs, refers m args refs ->
    let vs := map (fun a => option_map (fun p => (fst p, a_loc a)) (m (a_loc a))) args in
    exists hs, held_all (V := nat) (map a_alts args) vs = Ok hs /\ references args hs = refs /\
      combination (map a_alts args) (map fst hs) /\ map fst refs = combine (map fst hs) (map a_cat args).
  Proof.
    intros m args refs H. cbn zeta. induction H as [|a r args refs (i & x & t & E1 & E2 & ->) H IH].
    - exists []. repeat split. constructor.
    - destruct IH as (hs & H1 & H2 & H3 & H4). exists ((t, a_loc a) :: hs). cbn [map held_all]. rewrite E1. cbn [option_map fst].
      unfold VariantModel.held. rewrite E2. cbn [bind]. rewrite H1. cbn [bind]. split; [reflexivity|]. split; [|split].
      + unfold references. cbn. f_equal. exact H2.
      + cbn. constructor; [eapply nth_error_In; exact E2|exact H3].
      + cbn. f_equal. exact H4.
  Qed.

  Lemma visit_refs_call : forall (Res : Type) f (args : list (arg (T := T))) refs (s : F * memory (V := V)), refers (snd s) args refs ->
    visit_refs (Res := Res) f args s = f s refs.
  Proof.
    intros Res f args refs s H. destruct (refers_held _ _ _ H) as (held & H1 & H2 & _). unfold visit_refs, std_visit. cbn zeta in H1.
    rewrite H1, H2. reflexivity.
  Qed.
  Lemma refers_types : forall (m : memory (V := V)) (args : list (arg (T := T))) refs, refers m args refs ->
    exists ts, combination (map a_alts args) ts /\ types_of refs = combine ts (map a_cat args).
  Proof. intros m args refs H. destruct (refers_held _ _ _ H) as (held & _ & _ & H3 & H4). exists (map fst held). auto. Qed.

  Lemma visit_refs_valueless : forall (Res : Type) f (args : list (arg (T := T))) (s : F * memory (V := V)), valueless (snd s) args ->
    visit_refs (Res := Res) f args s = (s, Throw BadVariantAccess).
  Proof.
    intros Res f args s [(a & I & N) P]. unfold visit_refs, std_visit. rewrite held_all_valueless; [reflexivity| |].
    - clear a I N. induction args as [|a args IH]; [constructor|]. cbn. constructor.
      + destruct (snd s (a_loc a)) as [[i x]|] eqn:E; cbn; [|exact Logic.I]. apply (P a i x); [left; reflexivity|exact E].
      + apply IH. intros b i x J. apply P. right. exact J.
    - apply in_map_iff. exists a. rewrite N. auto.
  Qed.

  Lemma forallb_combos : forall (p : list T -> bool) alts cs, inhabited_variants alts -> combinations alts = Ok cs ->
    forallb p cs = true <-> forall ts, combination alts ts -> p ts = true.
  Proof.
    intros p alts cs Hi E. rewrite forallb_forall. split; intros H ts I; apply H; [apply (combinations_in alts cs Hi E)|apply (combinations_in alts cs Hi E) in I]; auto.
  Qed.

  Lemma cats_ok : forall cats, forallb nth_variant_type_ok cats = true <-> ~ In CX cats.
  Proof.
    intro cats. rewrite forallb_forall. split.
    - intros H I. apply H in I. discriminate.
    - intros H c I. destruct c; try reflexivity. contradiction.
  Qed.

  Variable storable : T -> bool.
  Lemma transform_type_inv : forall sig fc alts cats R, inhabited_variants alts -> transform_type eq_dec storable sig fc alts cats = Ok R ->
    variant_transform_result eq_dec (fun ts => result_type (call_result sig fc cats ts)) alts = Ok R /\
    (forall ts, combination alts ts -> callable (call_result sig fc cats ts) = true) /\ (forall t, In t R -> storable t = true) /\ ~ In CX cats.
  Proof.
    intros sig fc alts cats R Hi H. unfold transform_type in H. destruct (forallb nth_variant_type_ok cats) eqn:Ec; [|discriminate].
    apply cats_ok in Ec. apply bind_ok_inv in H as (cs & Hc & H). destruct (forallb _ cs) eqn:Ef; [|discriminate].
    apply bind_ok_inv in H as (R' & HR & H). destruct (forallb storable R') eqn:Es; [|discriminate]. injection H as <-.
    rewrite (forallb_combos _ alts cs Hi Hc) in Ef. rewrite forallb_forall in Es. auto.
  Qed.
End Lemmas.

(** C73, full statement: visit(), variant_transform() and variant_transform_many() call the functor once, with its own value
    category, with references to the alternatives that the variants hold, with the value categories of the variants; they do not
    touch anything else.

    visit(): *)
Theorem C73_visit_partial : forall (T F V : Type) (eq_dec : forall a b : T, {a = b} + {a <> b}) (sig : signature) (f : body V) fc
    (args : list (arg (T := T))) (s : F * memory) refs,
  inhabited_variants (map a_alts args) -> (number_of_combinations (map a_alts args) <= 2 ^ 63 - 1)%Z -> refers (snd s) args refs ->
  forall t, every_call sig fc args (fun r => r = Returns t) -> VCatModel.visit eq_dec sig f fc args s = f fc s refs.
Proof.
  intros T F V eq_dec sig f fc args s refs Hi Hn Hr t H. unfold VCatModel.visit.
  destruct (combinations_ok _ Hi Hn) as (cs & idxs & E & _). rewrite E.
  assert (A : forall r, In r (map (call_result sig fc (map a_cat args)) cs) -> r = Returns t).
  { intros r I. apply in_map_iff in I as (ts & <- & I). apply H. apply (combinations_in _ cs Hi E). exact I. }
  replace (same_results eq_dec _) with true; [apply visit_refs_call; exact Hr|]. symmetry. unfold same_results.
  destruct (map (call_result sig fc (map a_cat args)) cs) as [|r rs]; [reflexivity|]. rewrite (A r (or_introl eq_refl)). cbn.
  rewrite forallb_forall. intros q I. rewrite (A q (or_intror I)). cbn. destruct t as [t|]; [|reflexivity]. destruct (eq_dec t t); congruence.
Qed.
Print Assumptions C73_visit_partial.

(** visit<R>(): the results are converted to R. *)
Theorem C73_visit_as_partial : forall (T F V : Type) (sig : signature) (f : body V) fc conv R
    (args : list (arg (T := T))) (s : F * memory) refs,
  inhabited_variants (map a_alts args) -> (number_of_combinations (map a_alts args) <= 2 ^ 63 - 1)%Z -> refers (snd s) args refs ->
  every_call sig fc args (fun r => exists t, r = Returns (Some t) /\ conv t R <> None) ->
  exists t g, sig fc (map fst refs) = Returns (Some t) /\ conv t R = Some g /\
    forall s' o, f fc s refs = (s', o) -> visit_as conv (Some R) sig f fc args s = (s', do x <- o; Ok (g x)).
Proof.
  intros T F V sig f fc conv R args s refs Hi Hn Hr H.
  destruct (refers_types _ _ _ Hr) as (ts & Ht & Ets). destruct (H ts Ht) as (t & E1 & E2). destruct (conv t R) as [g|] eqn:Eg; [|congruence].
  exists t, g. unfold types_of in Ets. rewrite Ets. split; [exact E1|]. split; [exact Eg|]. intros s' o Ef. unfold visit_as.
  destruct (combinations_ok _ Hi Hn) as (cs & idxs & E & _). rewrite E.
  rewrite (proj2 (forallb_combos _ _ cs Hi E)).
  - rewrite (visit_refs_call _ _ _ refs _ Hr). unfold types_of. rewrite Ets, E1. cbn [returnable]. rewrite Eg, Ef. reflexivity.
  - intros us Hu. destruct (H us Hu) as (u & U1 & U2). unfold call_result. rewrite U1. cbn. destruct (conv u R); congruence.
Qed.
Print Assumptions C73_visit_as_partial.

(** visit() is rejected if the calls for two combinations have different types or some combination cannot be called; visit<R>()
    if a result cannot be returned as R. *)
Theorem C73_visit_rejected_partial : forall (T F V : Type) (eq_dec : forall a b : T, {a = b} + {a <> b}) (sig : signature) (f : body V) fc conv
    (args : list (arg (T := T))) (s : F * memory),
  inhabited_variants (map a_alts args) ->
  (forall ts us, combination (map a_alts args) ts -> combination (map a_alts args) us ->
     sig fc (combine ts (map a_cat args)) = NotCallable \/ sig fc (combine ts (map a_cat args)) <> sig fc (combine us (map a_cat args)) ->
     VCatModel.visit eq_dec sig f fc args s = (s, IllFormed)) /\
  (forall ts R, combination (map a_alts args) ts ->
     match sig fc (combine ts (map a_cat args)), R with
     | NotCallable, _ | Returns (Some _), None | Returns None, Some _ => True
     | Returns None, None => False
     | Returns (Some t), Some R => conv t R = None
     end -> visit_as conv R sig f fc args s = (s, IllFormed)).
Proof.
  intros T F V eq_dec sig f fc conv args s Hi. destruct (combinations_cases _ Hi) as [[Hn [cs Hc]]|[Hn Hc]].
  2: { split; intros; unfold VCatModel.visit, visit_as; rewrite Hc; reflexivity. }
  split.
  - intros ts us Ht Hu H. unfold VCatModel.visit. rewrite Hc.
    replace (same_results eq_dec _) with false; [reflexivity|]. symmetry. apply not_true_iff_false. intro K.
    apply (combinations_in _ cs Hi Hc) in Ht. apply (combinations_in _ cs Hi Hc) in Hu.
    apply (in_map (call_result sig fc (map a_cat args))) in Ht. apply (in_map (call_result sig fc (map a_cat args))) in Hu. unfold call_result in Ht at 1, Hu at 1.
    assert (G : forall q, In q (map (call_result sig fc (map a_cat args)) cs) -> callable q = true /\ forall r, In r (map (call_result sig fc (map a_cat args)) cs) -> q = r).
    { unfold same_results in K. destruct (map (call_result sig fc (map a_cat args)) cs) as [|r rs]; [destruct Ht|]. apply andb_true_iff in K as [K1 K2].
      rewrite forallb_forall in K2.
      assert (G : forall q, In q (r :: rs) -> q = r).
      { intros q [<-|I]; [reflexivity|]. specialize (K2 q I). destruct r as [|[t|]], q as [|[u|]]; cbn in *; try discriminate; [|reflexivity].
        destruct (eq_dec t u); [subst; reflexivity|discriminate]. }
      intros q Iq. split; [rewrite (G q Iq); exact K1|]. intros p Ip. rewrite (G q Iq), (G p Ip). reflexivity. }
    destruct (G _ Ht) as [G1 G2]. destruct H as [N|N]; [rewrite N in G1; discriminate|]. apply N. apply G2. exact Hu.
  - intros ts R Ht H. unfold visit_as. rewrite Hc. replace (forallb _ cs) with false; [reflexivity|]. symmetry. apply not_true_iff_false.
    rewrite (forallb_combos _ _ cs Hi Hc). intro K. specialize (K ts Ht). unfold call_result in K.
    destruct (sig fc (combine ts (map a_cat args))) as [|[t|]], R as [R|]; cbn in K; try discriminate; [rewrite H in K; discriminate|contradiction].
Qed.
Print Assumptions C73_visit_rejected_partial.

(** variant_transform(): when it is well-formed; *)
Theorem C73_transform_type_partial : forall (T : Type) (eq_dec : forall a b : T, {a = b} + {a <> b}) storable (sig : signature) fc (args : list (arg (T := T))),
  inhabited_variants (map a_alts args) -> ~ In CX (map a_cat args) ->
  ((exists R, transform_type eq_dec storable sig fc (map a_alts args) (map a_cat args) = Ok R) <->
   (number_of_combinations (map a_alts args) <= 2 ^ 63 - 1)%Z /\
   every_call sig fc args (fun r => r <> NotCallable /\ forall t, r = Returns (Some t) -> storable t = true) /\
   ~ every_call sig fc args (fun r => r = Returns None)).
Proof.
  intros T eq_dec storable sig fc args Hi Hx. split.
  - intros [R H]. destruct (transform_type_inv _ _ _ _ _ _ _ Hi H) as (H1 & H2 & H3 & _).
    destruct (transform_result_wf eq_dec (fun ts => result_type (call_result sig fc (map a_cat args) ts)) _ Hi) as [W _].
    destruct (proj1 W (ex_intro _ R H1)) as (W1 & ts & t & W2 & W3). destruct (transform_result_spec eq_dec _ _ _ Hi H1) as [_ Hin].
    split; [exact W1|]. split.
    + intros us Hu. split; [intro N; specialize (H2 us Hu); unfold call_result in H2; rewrite N in H2; discriminate|].
      intros u Eu. apply H3. apply Hin. exists us. split; [exact Hu|]. unfold call_result. rewrite Eu. reflexivity.
    + intro A. specialize (A ts W2). unfold call_result in W3. rewrite A in W3. discriminate.
  - intros (Hn & Hc & Hv). unfold transform_type. rewrite (proj2 (cats_ok _) Hx).
    destruct (combinations_ok _ Hi Hn) as (cs & idxs & E & _). rewrite E. cbn [bind].
    rewrite (proj2 (forallb_combos _ _ cs Hi E)); [|intros ts Ht; destruct (Hc ts Ht) as [N _]; unfold call_result; destruct (sig fc _); [congruence|reflexivity]].
    destruct (transform_result_wf eq_dec (fun ts => result_type (call_result sig fc (map a_cat args) ts)) _ Hi) as [W [[R HR]|HR]].
    + rewrite HR. cbn [bind]. destruct (transform_result_spec eq_dec _ _ _ Hi HR) as [_ Hin].
      replace (forallb storable R) with true; [eauto|]. symmetry. apply forallb_forall. intros t It. apply Hin in It as (ts & Ht & Et).
      unfold call_result in Et. destruct (Hc ts Ht) as [_ K]. apply K. destruct (sig fc _); cbn in Et; congruence.
    + exfalso. apply Hv. intros ts Ht. destruct (Hc ts Ht) as [N _]. destruct (sig fc _) as [|[t|]] eqn:Es; [congruence| |reflexivity].
      assert (B : exists R, variant_transform_result eq_dec (fun ts => result_type (call_result sig fc (map a_cat args) ts)) (map a_alts args) = Ok R).
      { apply W. split; [exact Hn|]. exists ts, t. split; [exact Ht|]. unfold call_result. rewrite Es. reflexivity. }
      destruct B as [R B]. congruence.
Qed.
Print Assumptions C73_transform_type_partial.

(** and what it does. *)
Theorem C73_variant_transform_partial : forall (T F V : Type) (eq_dec : forall a b : T, {a = b} + {a <> b}) storable (sig : signature) (f : body V) fc
    (args : list (arg (T := T))) (s : F * memory) refs R,
  inhabited_variants (map a_alts args) -> transform_type eq_dec storable sig fc (map a_alts args) (map a_cat args) = Ok R -> refers (snd s) args refs ->
  (forall s' x t, f fc s refs = (s', Ok x) -> sig fc (map fst refs) = Returns (Some t) ->
     exists i, VCatModel.variant_transform eq_dec storable sig f fc args s = (s', Ok (i, x)) /\ nth_error R i = Some t) /\
  (forall s' x, f fc s refs = (s', Ok x) -> sig fc (map fst refs) = Returns None ->
     VCatModel.variant_transform eq_dec storable sig f fc args s = (s', Contract)) /\
  (forall s' e, f fc s refs = (s', Throw e) -> VCatModel.variant_transform eq_dec storable sig f fc args s = (s', Throw e)) /\
  sig fc (map fst refs) <> NotCallable.
Proof.
  intros T F V eq_dec storable sig f fc args s refs R Hi HR Hr.
  destruct (transform_type_inv _ _ _ _ _ _ _ Hi HR) as (H1 & H2 & _ & _). destruct (transform_result_spec eq_dec _ _ _ Hi H1) as [Hd Hin].
  destruct (refers_types _ _ _ Hr) as (ts & Ht & Ets). specialize (H2 ts Ht). unfold call_result in H2. rewrite <- Ets in H2. fold (types_of refs).
  assert (K : forall s' o, f fc s refs = (s', o) -> VCatModel.variant_transform eq_dec storable sig f fc args s =
    match sig fc (types_of refs) with
    | NotCallable => (s, IllFormed)
    | Returns None => (s', do _ <- o; Contract)
    | Returns (Some t) => (s', do x <- o; into_alternative eq_dec t R x)
    end).
  { intros s' o Ef. unfold VCatModel.variant_transform. rewrite HR, (visit_refs_call _ _ _ refs _ Hr), Ef. reflexivity. }
  split; [|split; [|split]].
  - intros s' x t Ef Es. rewrite (K _ _ Ef), Es. cbn [bind]. destruct (into_alternative_ok eq_dec V R t x Hd) as (i & I1 & I2).
    + apply Hin. exists ts. split; [exact Ht|]. unfold call_result. rewrite <- Ets, Es. reflexivity.
    + exists i. rewrite I1. auto.
  - intros s' x Ef Es. rewrite (K _ _ Ef), Es. reflexivity.
  - intros s' e Ef. rewrite (K _ _ Ef). destruct (sig fc (types_of refs)) as [|[t|]]; [discriminate|reflexivity|reflexivity].
  - intro N. rewrite N in H2. discriminate.
Qed.
Print Assumptions C73_variant_transform_partial.

(** Variants that are not passed, or are passed as const, keep their values if the functor writes only through the references
    it receives.  A valueless variant is reported before anything happens. *)
Theorem C73_frame_partial : forall (T F V : Type) (eq_dec : forall a b : T, {a = b} + {a <> b}) storable (sig : signature) (f : body V) fc
    (args : list (arg (T := T))) (s : F * memory) refs R s' o,
  inhabited_variants (map a_alts args) -> transform_type eq_dec storable sig fc (map a_alts args) (map a_cat args) = Ok R -> refers (snd s) args refs ->
  writes_through_references f -> VCatModel.variant_transform eq_dec storable sig f fc args s = (s', o) ->
  forall l, (forall a, In a args -> a_loc a = l -> a_cat a = CL) -> snd s' l = snd s l.
Proof.
  intros T F V eq_dec storable sig f fc args s refs R s' o Hi HR Hr Hw H l Hl.
  assert (Q : forall t c, In (t, c, l) refs -> c = CL \/ c = CX).
  { clear -Hr Hl. induction Hr as [|a r args refs (i & x & t & E1 & E2 & ->) H IH]; intros u c I; [destruct I|]. destruct I as [I|I].
    - injection I as <- <- Ea. left. apply Hl; [left; reflexivity|exact Ea].
    - apply (IH (fun a J => Hl a (or_intror J)) u c I). }
  unfold VCatModel.variant_transform in H. rewrite HR, (visit_refs_call _ _ _ refs _ Hr) in H. destruct (sig fc (types_of refs)) as [|[t|]].
  - injection H as <- _. reflexivity.
  - destruct (f fc s refs) as [s1 o1] eqn:Ef. injection H as <- _. exact (Hw _ _ _ _ _ l Ef Q).
  - destruct (f fc s refs) as [s1 o1] eqn:Ef. injection H as <- _. exact (Hw _ _ _ _ _ l Ef Q).
Qed.
Print Assumptions C73_frame_partial.

Theorem C73_valueless_partial : forall (T F V : Type) (eq_dec : forall a b : T, {a = b} + {a <> b}) storable (sig : signature) (f : body V) fc
    (args : list (arg (T := T))) (s : F * memory) R,
  transform_type eq_dec storable sig fc (map a_alts args) (map a_cat args) = Ok R -> valueless (snd s) args ->
  VCatModel.variant_transform eq_dec storable sig f fc args s = (s, Throw BadVariantAccess).
Proof. intros T F V eq_dec storable sig f fc args s R HR Hv. unfold VCatModel.variant_transform. rewrite HR. apply visit_refs_valueless. exact Hv. Qed.
Print Assumptions C73_valueless_partial.

(** variant_transform_many(): a copy of the functor is called as const; the functor itself is unchanged (moved from if it is an
    rvalue).  This is the same as calling the functor if that can be called as const, with the same types and effects. *)
Theorem C73_many_partial : forall (T F V : Type) (eq_dec : forall a b : T, {a = b} + {a <> b}) variant_of moved (sig : signature) (f : body (option (nat * V))) fc
    (args : list (arg (T := T))) (s : F * memory) refs R,
  inhabited_variants (map a_alts args) -> many_type eq_dec variant_of sig fc (map a_alts args) (map a_cat args) = Ok R -> refers (snd s) args refs ->
  (forall ts, combination (map a_alts args) ts -> sig CL (combine ts (map a_cat args)) = sig fc (combine ts (map a_cat args))) ->
  let run := VCatModel.variant_transform_many eq_dec variant_of moved sig f fc args s in
  (exists t us, sig fc (map fst refs) = Returns (Some t) /\ variant_of t = Some us /\
   forall s' j x u, f CL s refs = (s', Ok (Some (j, x))) -> nth_error us j = Some u ->
     exists i, snd run = Ok (i, x) /\ nth_error R i = Some u /\ snd (fst run) = snd s') /\
  (forall s', f CL s refs = (s', Ok None) -> snd run = Throw BadVariantAccess /\ snd (fst run) = snd s') /\
  (forall s' e, f CL s refs = (s', Throw e) -> snd run = Throw e /\ snd (fst run) = snd s') /\
  fst (fst run) = match fc with X => moved (fst s) | _ => fst s end.
Proof.
  intros T F V eq_dec variant_of moved sig f fc args s refs R Hi HR Hr Hsame run.
  pose proof HR as HR'. unfold many_type in HR'. destruct (forallb nth_variant_type_ok _); [|discriminate].
  apply bind_ok_inv in HR' as (cs & Hc & HR'). destruct (forallb _ cs) eqn:Ef; [|discriminate].
  destruct (many_result_spec eq_dec _ _ _ Hi HR') as (Hd & Hall & Hin).
  destruct (refers_types _ _ _ Hr) as (ts & Ht & Ets).
  assert (C : forall ts, combination (map a_alts args) ts -> exists t us, sig fc (combine ts (map a_cat args)) = Returns (Some t) /\ variant_of t = Some us /\ forall u, In u us -> In u R).
  { intros qs Hq. destruct (Hall qs Hq) as [v Ev]. unfold call_result in Ev. destruct (sig fc (combine qs (map a_cat args))) as [|[t|]] eqn:Es; cbn in Ev; try discriminate.
    exists t, v. split; [reflexivity|]. split; [exact Ev|]. intros u Iu. apply Hin. exists qs, v. split; [exact Hq|]. split; [|exact Iu].
    unfold call_result. rewrite Es. exact Ev. }
  assert (M : many_callable eq_dec variant_of sig (map a_alts args) (map a_cat args) R = true).
  { unfold many_callable. rewrite Hc. apply (forallb_combos _ _ cs Hi Hc). intros qs Hq. unfold call_result. rewrite (Hsame qs Hq).
    destruct (C qs Hq) as (t & us & E1 & E2 & E3). rewrite E1, E2. apply castable_iff. intros u Iu. apply E3 in Iu. apply In_nth_error in Iu as [p Ep].
    exists p. apply (nodup_only R p u Hd Ep). }
  destruct (C ts Ht) as (t & us & E1 & E2 & E3).
  assert (K : forall s' o, f CL s refs = (s', o) -> run = ((match fc with X => moved (fst s) | _ => fst s end, snd s'),
                 do v <- o; do ' (u, x) <- held us v; into_alternative eq_dec u R x)).
  { intros s' o Ef'. unfold run, VCatModel.variant_transform_many. rewrite HR, M, (visit_refs_call _ _ _ refs _ Hr), Ets, (Hsame ts Ht), E1, E2, Ef'.
    destruct s' as [s1 m1]. reflexivity. }
  unfold types_of in Ets. split; [|split; [|split]].
  - exists t, us. rewrite Ets. split; [exact E1|]. split; [exact E2|]. intros s' j x u Ef' Eu. rewrite (K _ _ Ef'). cbn [bind snd fst held]. rewrite Eu. cbn [bind].
    destruct (into_alternative_ok eq_dec V R u x Hd (E3 u (nth_error_In _ _ Eu))) as (i & I1 & I2). exists i. rewrite I1. auto.
  - intros s' Ef'. rewrite (K _ _ Ef'). auto.
  - intros s' e Ef'. rewrite (K _ _ Ef'). auto.
  - destruct (f CL s refs) as [s1 o1] eqn:Ef'. rewrite (K _ _ eq_refl). reflexivity.
Qed.
Print Assumptions C73_many_partial.

(** variant_transform_many() is rejected if calling the functor as const gives something other than a variant, or a variant with
    an alternative that calling the functor itself never gives, for any combination of alternatives. *)
Theorem C73_many_rejected : forall (T F V : Type) (eq_dec : forall a b : T, {a = b} + {a <> b}) variant_of moved (sig : signature) (f : body (option (nat * V))) fc
    (args : list (arg (T := T))) (s : F * memory) ts,
  inhabited_variants (map a_alts args) -> combination (map a_alts args) ts ->
  match sig CL (combine ts (map a_cat args)) with
  | Returns (Some t) =>
      match variant_of t with
      | Some us => exists u, In u us /\ forall ts' t' us', combination (map a_alts args) ts' -> sig fc (combine ts' (map a_cat args)) = Returns (Some t') ->
                     variant_of t' = Some us' -> ~ In u us'
      | None => True
      end
  | _ => True
  end ->
  VCatModel.variant_transform_many eq_dec variant_of moved sig f fc args s = (s, IllFormed).
Proof.
  intros T F V eq_dec variant_of moved sig f fc args s ts Hi Ht H. unfold VCatModel.variant_transform_many.
  destruct (many_type eq_dec variant_of sig fc (map a_alts args) (map a_cat args)) as [R| | | | |] eqn:HR; try reflexivity.
  pose proof HR as HR'. unfold many_type in HR'. destruct (forallb nth_variant_type_ok _); [|discriminate].
  apply bind_ok_inv in HR' as (cs & Hc & HR'). destruct (forallb _ cs) eqn:Ef; [|discriminate].
  destruct (many_result_spec eq_dec _ _ _ Hi HR') as (Hd & Hall & Hin).
  replace (many_callable eq_dec variant_of sig (map a_alts args) (map a_cat args) R) with false; [reflexivity|].
  symmetry. apply not_true_iff_false. unfold many_callable. rewrite Hc. intro A. apply (forallb_combos _ _ cs Hi Hc) with (ts := ts) in A; [|exact Ht].
  unfold call_result in A. destruct (sig CL (combine ts (map a_cat args))) as [|[t|]]; try discriminate.
  destruct (variant_of t) as [us|] eqn:Ev; [|discriminate]. destruct H as (u & Iu & N).
  destruct (proj1 (castable_iff eq_dec R us) A u Iu) as [p [(u' & Ep & <-) _]]. apply nth_error_In in Ep. apply Hin in Ep as (qs & v & Hq & Evq & Iv).
  unfold call_result in Evq. destruct (sig fc (combine qs (map a_cat args))) as [|[t'|]] eqn:Es; cbn in Evq; try discriminate. exact (N qs t' v Hq Es Evq Iv).
Qed.
Print Assumptions C73_many_rejected.

(** ** Where the claim fails *)

(** Types: 0, 1, 2: int, double, char; 10 + t: a reference to t; 20 + t: std::variant<t>. *)
Definition ex_storable (t : nat) : bool := negb ((10 <=? t) && (t <? 20)).
Definition ex_variant_of (t : nat) : option (list nat) := if 20 <=? t then Some [t - 20] else None.
Definition ex_sig : signature (T := nat) := fun _ args => match args with (t, _) :: _ => Returns (Some t) | [] => NotCallable end.

(** A const rvalue is accepted by visit(), but not by variant_transform() and variant_transform_many(). *)
Theorem C73_const_rvalue_rejected : forall (T F V : Type) (eq_dec : forall a b : T, {a = b} + {a <> b}) storable variant_of moved (sig : signature)
    (f : body V) (g : body (option (nat * V))) fc (args : list (arg (T := T))) (s : F * memory),
  In CX (map a_cat args) ->
  VCatModel.variant_transform eq_dec storable sig f fc args s = (s, IllFormed) /\
  VCatModel.variant_transform_many eq_dec variant_of moved sig g fc args s = (s, IllFormed).
Proof.
  intros T F V eq_dec storable variant_of moved sig f g fc args s H.
  assert (N : forallb nth_variant_type_ok (map a_cat args) = false) by (apply not_true_iff_false; rewrite cats_ok; tauto).
  unfold VCatModel.variant_transform, VCatModel.variant_transform_many, transform_type, many_type. rewrite N. auto.
Qed.
Print Assumptions C73_const_rvalue_rejected.
Definition ex_body : body (T := nat) (F := nat) (V := Z) Z := fun fc s refs =>
  match refs with
  | (_, c, l) :: _ =>
      match snd s l with
      | Some (i, x) => ((S (fst s), match c with X => fun k => if Nat.eqb k l then Some (i, 0%Z) else snd s k | _ => snd s end), Ok x)
      | None => (s, UB)
      end
  | [] => (s, UB)
  end.
Definition ex_memory : memory (V := Z) := fun l => if Nat.eqb l 0 then Some (1, 7%Z) else Some (0, 8%Z).
Theorem C73_const_rvalue_refuted : exists (args : list (arg (T := nat))) s s',
  inhabited_variants (map a_alts args) /\
  VCatModel.visit Nat.eq_dec (fun _ _ => Returns (Some 0)) ex_body L args s = (s', Ok 7%Z) /\
  VCatModel.variant_transform Nat.eq_dec ex_storable (fun _ _ => Returns (Some 0)) ex_body L args s = (s, IllFormed).
Proof. exists [mk_arg [0; 1] CX 0], (3, ex_memory). eexists. split; [repeat constructor; discriminate|]. split; reflexivity. Qed.
Print Assumptions C73_const_rvalue_refuted.
Example C73_const_rvalue : exists s',
  VCatModel.visit Nat.eq_dec (fun _ _ => Returns (Some 0)) ex_body L [mk_arg [0; 1] CX 0] (3, ex_memory) = (s', Ok 7%Z) /\
  fst s' = 4 /\ snd s' 0 = Some (1, 7%Z) /\
  VCatModel.variant_transform Nat.eq_dec ex_storable ex_sig ex_body L [mk_arg [0; 1] CX 0] (3, ex_memory) = ((3, ex_memory), IllFormed).
Proof. eexists. repeat split. Qed.

(** variant_transform_many() with a functor that can only be called as non-const does not compile, while variant_transform() does. *)
Definition ex_mutable : signature (T := nat) := fun fc args => match fc, args with L, (t, _) :: _ => Returns (Some (20 + t)) | _, _ => NotCallable end.
Theorem C73_many_mutable_refuted : exists (sig : signature (T := nat)) (args : list (arg (T := nat))) R,
  inhabited_variants (map a_alts args) /\ many_type Nat.eq_dec ex_variant_of sig L (map a_alts args) (map a_cat args) = Ok R /\
  (exists R', transform_type Nat.eq_dec ex_storable sig L (map a_alts args) (map a_cat args) = Ok R') /\
  forall (F V : Type) moved (f : body (option (nat * V))) (s : F * memory),
    VCatModel.variant_transform_many Nat.eq_dec ex_variant_of moved sig f L args s = (s, IllFormed).
Proof.
  exists ex_mutable, [mk_arg [0; 1] L 0], [0; 1]. split; [repeat constructor; discriminate|]. split; [reflexivity|]. split; [eexists; reflexivity|]. reflexivity.
Qed.
Print Assumptions C73_many_mutable_refuted.

(** A functor that returns variants as const, but not for all combinations of alternatives. *)
Example C73_many_rejected_example :
  let sig : signature (T := nat) := fun fc args => match args with (t, _) :: _ => Returns (Some (match fc, t with CL, 1 => 1 | _, _ => 20 + t end)) | [] => NotCallable end in
  let args := [mk_arg [0; 1] L 0] in
  inhabited_variants (map a_alts args) /\ many_type Nat.eq_dec ex_variant_of sig L (map a_alts args) (map a_cat args) = Ok [0; 1] /\
  combination (map a_alts args) [1] /\
  match sig CL (combine [1] (map a_cat args)) with Returns (Some t) => ex_variant_of t = None | _ => False end.
Proof. split; [repeat constructor; discriminate|]. split; [reflexivity|]. split; [|reflexivity]. constructor; [right; left; reflexivity|constructor]. Qed.

(** Functors that return references cannot be used with variant_transform(). *)
Example C73_reference_result :
  transform_type Nat.eq_dec ex_storable (fun _ args => match args with (t, _) :: _ => Returns (Some (10 + t)) | [] => NotCallable end) L [[0; 1]] [L] = IllFormed.
Proof. reflexivity. Qed.

(** An lvalue, an rvalue and the rvalue again; the functor takes the value of its first argument, moving from rvalues. *)
Example C73_nontrivial :
  let args := [mk_arg [0; 1] X 0; mk_arg [0] CL 1] in
  inhabited_variants (map a_alts args) /\ transform_type Nat.eq_dec ex_storable ex_sig CL (map a_alts args) (map a_cat args) = Ok [0; 1] /\
  refers ex_memory args [(1, X, 0); (0, CL, 1)] /\ writes_through_references ex_body /\
  exists s', VCatModel.variant_transform Nat.eq_dec ex_storable ex_sig ex_body CL args (3, ex_memory) = (s', Ok (1, 7%Z)) /\
    fst s' = 4 /\ snd s' 0 = Some (1, 0%Z) /\ snd s' 1 = Some (0, 8%Z).
Proof.
  cbn zeta. split; [repeat constructor; discriminate|]. split; [reflexivity|]. split; [|split].
  - constructor; [|constructor; [|constructor]]; do 3 eexists; repeat split.
  - intros fc s refs s' o l E H. unfold ex_body in E. destruct refs as [|[[t c] k] r]; [injection E as <- _; reflexivity|].
    destruct (snd s k) as [[i x]|]; [|injection E as <- _; reflexivity]. injection E as <- _. destruct c; try reflexivity. cbn.
    destruct (Nat.eqb_spec l k); [|reflexivity]. subst. destruct (H t X (or_introl eq_refl)); discriminate.
  - eexists. repeat split.
Qed.
Definition ex_many_body : body (T := nat) (F := nat) (V := Z) (option (nat * Z)) := fun fc s refs =>
  let '(s', o) := ex_body fc s refs in (s', match o with Ok x => Ok (Some (0, x)) | _ => UB end).
Example C73_many_nontrivial :
  let args := [mk_arg [0; 1] X 0] in
  let sig : signature (T := nat) := fun _ args => match args with (t, _) :: _ => Returns (Some (20 + t)) | [] => NotCallable end in
  many_type Nat.eq_dec ex_variant_of sig X (map a_alts args) (map a_cat args) = Ok [0; 1] /\
  exists m, VCatModel.variant_transform_many Nat.eq_dec ex_variant_of (fun _ => 0) sig ex_many_body X args (3, ex_memory) = ((0, m), Ok (1, 7%Z)) /\ m 0 = Some (1, 0%Z).
Proof. cbn zeta. split; [reflexivity|]. eexists. split; reflexivity. Qed.
Example C73_visit_as_example : exists s', visit_as (fun t R => if Nat.eqb R 1 then Some (fun x => (x + 1)%Z) else None) (Some 1) ex_sig ex_body L [mk_arg [0; 1] X 0] (3, ex_memory) = (s', Ok 8%Z) /\
  visit_as (fun t R => None) None ex_sig ex_body L [mk_arg [0; 1] X 0] (3, ex_memory) = ((3, ex_memory), IllFormed).
Proof. eexists. split; reflexivity. Qed.
