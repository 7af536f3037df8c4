(** Theorems about declarations with deduced template arguments and make_...() functions: C111. *)

From Coq Require Import Arith Bool Lia List.
From Verif Require Import Base GuideModel GuideSpec GuideProofs.
Import ListNotations.

(** Objects are of the class template named, with the types the arguments stand for. *)
Theorem C111_type : forall s x k args T es, ~ same_template k args -> declare s x k args = Ok (T, es) ->
  exists ts, T = Inst k ts /\ Forall2 (stands_for k) args ts /\ length es = length args.
Proof.
  intros s x k args T es Hn H. unfold declare in H. rewrite (not_copied k args Hn) in H.
  destruct (guide k args) as [ts| | | | |] eqn:Eg; cbn [bind] in H; try discriminate.
  destruct (construct s x k ts args) as [es'| | | | |] eqn:Ec; cbn [bind] in H; try discriminate. injection H as <- <-. exists ts. split; [reflexivity|].
  assert (M : forall f, Forall2 (fun (a : arg) (l : list op) => f a = Ok l) args es' -> length es' = length args) by (intros f F; clear - F; induction F; cbn [length]; congruence).
  assert (S : forall k', k' = Overload \/ k' = Composition \/ k' = YCombinator \/ k' = ValueTuple -> Forall2 (stands_for k') args (map a_ty args)).
  { intros k' Hk. clear - Hk. induction args; constructor; [apply stands_itself; exact Hk|assumption]. }
  destruct k; cbn [guide construct] in *.
  - injection Eg as <-. split; [apply S; auto|]. destruct (_ && _); [|discriminate]. destruct x, s, args; try discriminate; apply mapM_inv in Ec; exact (M _ Ec).
  - injection Eg as <-. split; [apply S; auto|]. destruct args; [injection Ec as <-; reflexivity|discriminate].
  - split; [|apply mapM_inv in Ec; exact (M _ Ec)]. destruct args as [|a [|b r]]; try discriminate. injection Eg as <-. apply (S YCombinator); auto.
  - injection Eg as <-. split; [apply S; auto|]. apply mapM_inv in Ec; exact (M _ Ec).
  - split; [|apply mapM_inv in Ec; exact (M _ Ec)]. apply mapM_inv in Eg. clear - Eg. induction Eg as [|a t l r E F IH]; constructor; [|exact IH].
    unfold identity_arg in E. destruct (a_ty a) eqn:Ea; try discriminate. injection E as <-. apply stands_identity; exact Ea.
  - destruct (pointers_and_size args); [discriminate|]. split; [|apply mapM_inv in Ec; exact (M _ Ec)]. apply mapM_inv in Eg. clear - Eg.
    induction Eg as [|a t l r E F IH]; constructor; [|exact IH]. unfold span_arg in E. destruct (a_ty a) eqn:Ea; try discriminate. injection E as <-. apply stands_span; exact Ea.
Qed.
Print Assumptions C111_type.

(** An object of the class template itself is copied or moved. *)
Theorem C111_copy : forall s x k a ts, a_ty a = Inst k ts -> can_pass a -> exists l, declare s x k [a] = Ok (Inst k ts, [l]) /\ passed a l.
Proof.
  intros s x k a ts E H. unfold declare. rewrite (proj2 (copied_spec k [a] ts) (ex_intro _ a (conj eq_refl E))). cbn [mapM]. rewrite (init_ok a H). cbn [bind].
  eexists. split; [reflexivity|]. unfold passed. destruct (a_copy a); reflexivity.
Qed.
Print Assumptions C111_copy.

(** overload{ f, g, ... } has the functors as base classes. *)
Theorem C111_overload_partial : forall s x args, functors args -> ~ same_template Overload args -> x = Braces \/ s = Cpp20 \/ args = [] ->
  exists es, declare s x Overload args = Ok (Inst Overload (map a_ty args), es) /\ Forall2 passed args es.
Proof.
  intros s x args [Hf Hd] Hn Hx. unfold declare. rewrite (not_copied _ _ Hn). cbn [guide bind construct].
  assert (F : forallb functor_base (map a_ty args) = true).
  { apply forallb_forall. intros t Ht. apply in_map_iff in Ht. destruct Ht as [a [<- Ha]]. apply functor_spec. apply Hf. exact Ha. }
  rewrite F, (proj2 (distinct_spec _) Hd). cbn [andb].
  destruct (mapM_ok _ _ (fun a => do e <- init a; Ok [e]) passed args) as [es [Ee Pe]].
  { intros a Ha. rewrite (init_ok a (proj2 (Hf a Ha))). cbn [bind]. eexists. split; [reflexivity|]. unfold passed. destruct (a_copy a); reflexivity. }
  exists es. split; [|exact Pe]. destruct x, s, args; try (rewrite Ee; reflexivity). destruct Hx as [A|[A|A]]; discriminate.
Qed.
Print Assumptions C111_overload_partial.

(** Nothing else can be passed to it. *)
Theorem C111_overload_only : forall s x args r, ~ same_template Overload args -> declare s x Overload args = Ok r ->
  functors args /\ (x = Braces \/ s = Cpp20 \/ args = []).
Proof.
  intros s x args r Hn H. unfold declare in H. rewrite (not_copied _ _ Hn) in H. cbn [guide bind construct] in H.
  destruct (forallb functor_base (map a_ty args)) eqn:F; [|discriminate]. destruct (distinct (map a_ty args)) eqn:D; [|discriminate]. cbn [andb] in H.
  rewrite forallb_forall in F. apply distinct_spec in D.
  assert (G : (exists es, mapM (fun a => do e <- init a; Ok [e]) args = Ok es) -> functors args).
  { intros [es E]. split; [|exact D]. intros a Ha. split; [apply functor_spec, F, in_map; exact Ha|]. apply mapM_inv in E. clear - E Ha.
    induction E as [|b l args' es' Eb E IH]; [destruct Ha|]. destruct Ha as [->|Ha]; [|exact (IH Ha)].
    destruct (init a) as [e| | | | |] eqn:Ei; cbn [bind] in Eb; try discriminate. exact (proj1 (init_inv a e Ei)). }
  destruct (mapM (fun a => do e <- init a; Ok [e]) args) as [es| | | | |] eqn:E; cbn [bind] in H;
    (split; [destruct x, s, args; try discriminate; apply G; eexists; reflexivity|destruct x, s, args; try discriminate; auto]).
Qed.
Print Assumptions C111_overload_only.

(** In C++17, "overload(f, g)" does not compile. *)
Theorem C111_overload_parentheses_refuted :
  (exists args, functors args /\ ~ same_template Overload args /\ declare Cpp17 Parens Overload args = IllFormed) /\
  (forall args, ~ same_template Overload args -> args <> [] -> declare Cpp17 Parens Overload args = IllFormed).
Proof.
  assert (G : forall args, ~ same_template Overload args -> args <> [] -> declare Cpp17 Parens Overload args = IllFormed).
  { intros args Hn He. unfold declare. rewrite (not_copied _ _ Hn). cbn [guide bind construct]. destruct (_ && _); [|reflexivity]. destruct args; [congruence|reflexivity]. }
  split; [|exact G]. exists [mk_arg (Class 0 true false true) false; mk_arg (Class 1 true false true) false].
  assert (N : ~ same_template Overload [mk_arg (Class 0 true false true) false; mk_arg (Class 1 true false true) false]) by (intros [a [ts [E _]]]; discriminate).
  split; [|split; [exact N|apply G; [exact N|discriminate]]]. split.
  - intros a [<-|[<-|[]]]; (split; [constructor|discriminate]).
  - constructor; [intros [E|[]]; discriminate|]. constructor; [intros []|constructor].
Qed.
Print Assumptions C111_overload_parentheses_refuted.

(** y_combinator(f). *)
Theorem C111_y_combinator : forall s x a, ~ same_template YCombinator [a] -> can_pass a ->
  exists l, declare s x YCombinator [a] = Ok (Inst YCombinator [a_ty a], [l]) /\ passed a l.
Proof.
  intros s x a Hn H. unfold declare. rewrite (not_copied _ _ Hn). cbn [guide bind construct mapM]. rewrite (init_ok a H). cbn [bind].
  eexists. split; [reflexivity|]. unfold passed. destruct (a_copy a); reflexivity.
Qed.
Print Assumptions C111_y_combinator.

(** type_sequence(...), soa_span(...) and value_tuple(...). *)
Theorem C111_accepted : forall s x k args ts, Forall2 (stands_for k) args ts ->
  k = TypeSequence \/ k = SoaSpan \/ (k = ValueTuple /\ (forall a, In a args -> can_copy (a_ty a)) /\ ~ same_template k args) ->
  exists es, declare s x k args = Ok (Inst k ts, es).
Proof.
  intros s x k args ts F Hk. unfold declare.
  assert (G : (forall a, In a args -> can_pass a) -> exists es, mapM (fun a => do e <- init a; Ok [e]) args = Ok es).
  { intro H. destruct (mapM_ok _ _ (fun a => do e <- init a; Ok [e]) (fun _ _ => True) args) as [es [E _]]; [|exists es; exact E].
    intros a Ha. rewrite (init_ok a (H a Ha)). eexists; split; [reflexivity|exact I]. }
  destruct Hk as [-> |[-> |[-> [Hc Hn]]]].
  - assert (N : ~ same_template TypeSequence args).
    { intros [a [us [-> E]]]. inversion F as [|? ? ? ? S _]. inversion S as [? ? [A|[A|[A|A]]]|? ? A|]; subst; congruence. }
    rewrite (not_copied _ _ N). cbn [guide construct].
    assert (E : mapM identity_arg args = Ok ts).
    { clear - F. induction F as [|a t l r S F IH]; [reflexivity|]. cbn [mapM]. inversion S as [? ? [A|[A|[A|A]]]|? ? A|]; subst; try discriminate.
      unfold identity_arg at 1. rewrite A, IH. reflexivity. }
    rewrite E. cbn [bind]. destruct G as [es Ees]; [|rewrite Ees; eexists; reflexivity]. intros a Ha _. clear - F Ha.
    induction F as [|b t l r S F IH]; [destruct Ha|]. destruct Ha as [->|Ha]; [|exact (IH Ha)].
    inversion S as [? ? [A|[A|[A|A]]]|? ? A|]; subst; try discriminate. rewrite A. constructor.
  - assert (N : ~ same_template SoaSpan args).
    { intros [a [us [-> E]]]. inversion F as [|? ? ? ? S _]. inversion S as [? ? [A|[A|[A|A]]]| |? ? A]; subst; congruence. }
    rewrite (not_copied _ _ N). cbn [guide construct].
    assert (P : pointers_and_size args = None).
    { destruct F as [|a t l r S F]; [reflexivity|]. destruct l as [|b [|c l]]; try reflexivity. cbn [pointers_and_size].
      inversion S as [? ? [A|[A|[A|A]]]| |? ? A]; subst; try discriminate. rewrite A. reflexivity. }
    rewrite P.
    assert (E : mapM span_arg args = Ok ts).
    { clear - F. induction F as [|a t l r S F IH]; [reflexivity|]. cbn [mapM]. inversion S as [? ? [A|[A|[A|A]]]| |? ? A]; subst; try discriminate.
      unfold span_arg at 1. rewrite A, IH. reflexivity. }
    rewrite E. cbn [bind]. destruct G as [es Ees]; [|rewrite Ees; eexists; reflexivity]. intros a Ha _. clear - F Ha.
    induction F as [|b t l r S F IH]; [destruct Ha|]. destruct Ha as [->|Ha]; [|exact (IH Ha)].
    inversion S as [? ? [A|[A|[A|A]]]| |? ? A]; subst; try discriminate. rewrite A. constructor.
  - rewrite (not_copied _ _ Hn). cbn [guide construct bind].
    assert (E : ts = map a_ty args).
    { clear - F. induction F as [|a t l r S F IH]; [reflexivity|]. cbn [map]. inversion S; subst. f_equal. }
    subst ts. destruct (mapM_ok _ _ (fun a => do e <- init a; if copyable (a_ty a) then Ok [e; Copy] else IllFormed) (fun _ _ => True) args) as [es [Ees _]].
    { intros a Ha. rewrite (init_ok a (fun _ => Hc a Ha)). cbn [bind]. rewrite (proj2 (copyable_spec _) (Hc a Ha)). eexists; split; [reflexivity|exact I]. }
    rewrite Ees. eexists; reflexivity.
Qed.
Print Assumptions C111_accepted.

(** composition can only be used without arguments, although it has a deduction guide for any. *)
Theorem C111_composition_refuted :
  (forall s x args r, declare s x Composition args = Ok r -> args = [] \/ same_template Composition args) /\
  (exists args, functors args /\ args <> [] /\ forall s x, declare s x Composition args = IllFormed).
Proof.
  split.
  - intros s x args r H. destruct (copied Composition args) as [ts|] eqn:E.
    + right. apply copied_spec in E. destruct E as [a [E1 E2]]. exists a, ts. auto.
    + left. unfold declare in H. rewrite E in H. cbn [guide bind construct] in H. destruct args; [reflexivity|discriminate].
  - exists [mk_arg (Class 0 true false true) false]. split; [|split; [discriminate|reflexivity]]. split.
    + intros a [<-|[]]. split; [constructor|discriminate].
    + constructor; [intros []|constructor].
Qed.
Print Assumptions C111_composition_refuted.

(** Pointers cannot be passed to soa_span, although there is a deduction guide for them. *)
Theorem C111_pointers : forall s x ts c c', declare s x SoaSpan [mk_arg (Pointers ts) c; mk_arg Integer c'] = IllFormed.
Proof. reflexivity. Qed.
Print Assumptions C111_pointers.

(** make_...() makes an object of the type that would be deduced. *)
Theorem C111_make_partial : forall s x k args T, k <> Overload -> k <> Composition -> ~ same_template k args ->
  ((exists es, declare s x k args = Ok (T, es)) <-> (exists es, make k args = Ok (T, es))).
Proof.
  intros s x k args T Ho Hc Hn. unfold declare. rewrite (not_copied _ _ Hn).
  destruct k; try congruence; cbn [guide make bind construct]; try tauto.
  - unfold make_y_combinator. destruct args as [|a [|b r]]; cbn [bind mapM]; try (split; intros [es H]; discriminate).
    destruct (init a); cbn [bind]; (split; intros [es H]; try discriminate; injection H as <- _; eexists; reflexivity).
  - unfold make_soa_span. destruct (pointers_and_size args) as [ts|] eqn:E; [|split; intro H; exact H]. cbn [bind].
    destruct args as [|p [|n [|? ?]]]; try discriminate. cbn [pointers_and_size] in E. destruct (a_ty p) eqn:Ep; try discriminate.
    cbn [mapM]. unfold span_arg at 1. rewrite Ep. split; intros [es H]; discriminate.
Qed.
Print Assumptions C111_make_partial.

(** It does not if the argument is of this class template: y_combinator(y) is a copy, make_y_combinator(y) makes y an argument. *)
Theorem C111_make_refuted : exists k a ts, (k = YCombinator \/ k = ValueTuple) /\ a_ty a = Inst k ts /\ can_pass a /\
  (forall s x, exists es, declare s x k [a] = Ok (Inst k ts, es)) /\ (exists es, make k [a] = Ok (Inst k [Inst k ts], es)).
Proof.
  exists YCombinator, (mk_arg (Inst YCombinator [Class 0 true false true]) true), [Class 0 true false true].
  split; [auto|]. split; [reflexivity|]. split; [intros _; repeat constructor|]. split; [intros s x; eexists; reflexivity|eexists; reflexivity].
Qed.
Print Assumptions C111_make_refuted.
(** In general. *)
Theorem C111_make_nested : forall k a ts, k = YCombinator \/ k = ValueTuple -> a_ty a = Inst k ts -> can_copy (a_ty a) ->
  exists es, make k [a] = Ok (Inst k [Inst k ts], es).
Proof.
  intros k a ts Hk E H. assert (P : can_pass a) by (intros _; exact H).
  destruct Hk as [-> | ->]; cbn [make]; [unfold make_y_combinator|unfold make_value_tuple; cbn [mapM map]]; rewrite (init_ok a P); cbn [bind].
  - rewrite E. eexists; reflexivity.
  - rewrite (proj2 (copyable_spec _) H). cbn [bind]. rewrite E. eexists; reflexivity.
Qed.
Print Assumptions C111_make_nested.

(** Lvalues are copied once, rvalues never. *)
Theorem C111_passed_partial : forall s x k args T es, k <> ValueTuple ->
  (declare s x k args = Ok (T, es) -> Forall2 passed args es) /\ (make k args = Ok (T, es) -> Forall2 passed args es).
Proof.
  intros s x k args T es Hk.
  assert (G : forall extra es', copies extra = 0 -> mapM (fun a => do e <- init a; Ok (e :: extra)) args = Ok es' -> Forall2 passed args es').
  { intros extra es' Hx M. apply mapM_inv in M. clear - M Hx. induction M as [|a l args' es'' E M IH]; constructor; [|exact IH].
    destruct (init a) as [e| | | | |] eqn:Ei; cbn [bind] in E; try discriminate. injection E as <-. destruct (init_inv a e Ei) as [_ ->].
    unfold passed. destruct (a_copy a); cbn [copies]; lia. }
  split; intro H.
  - unfold declare in H. destruct (copied k args) as [ts|].
    + destruct (mapM _ args) as [es'| | | | |] eqn:M; cbn [bind] in H; try discriminate. injection H as <- <-. exact (G [] es' eq_refl M).
    + destruct (guide k args) as [ts| | | | |]; cbn [bind] in H; try discriminate.
      destruct (construct s x k ts args) as [es'| | | | |] eqn:Ec; cbn [bind] in H; try discriminate. injection H as <- <-.
      destruct k; cbn [construct] in Ec; try congruence.
      * destruct (_ && _); [|discriminate]. destruct x, s, args; try discriminate; exact (G [] _ eq_refl Ec).
      * destruct args; [injection Ec as <-; constructor|discriminate].
      * exact (G [Move] _ eq_refl Ec).
      * exact (G [] _ eq_refl Ec).
      * destruct (pointers_and_size args); [discriminate|]. exact (G [] _ eq_refl Ec).
  - destruct k; cbn [make] in H; try congruence; try discriminate.
    + unfold make_y_combinator in H. destruct args as [|a [|b r]]; try discriminate. destruct (init a) as [e| | | | |] eqn:Ei; cbn [bind] in H; try discriminate.
      injection H as _ <-. apply (G [Move; Move]); [reflexivity|]. cbn [mapM]. rewrite Ei. reflexivity.
    + unfold make_type_sequence in H. destruct (mapM identity_arg args); cbn [bind] in H; try discriminate.
      destruct (mapM _ args) as [es'| | | | |] eqn:M; cbn [bind] in H; try discriminate. injection H as _ <-. exact (G [] es' eq_refl M).
    + unfold make_soa_span in H. destruct (mapM span_arg args); cbn [bind] in H; try discriminate.
      destruct (mapM _ args) as [es'| | | | |] eqn:M; cbn [bind] in H; try discriminate. injection H as _ <-. exact (G [] es' eq_refl M).
Qed.
Print Assumptions C111_passed_partial.

(** Examples. *)
Definition f0 := Class 0 true false true.
Definition f1 := Class 1 true false false.
Example C111_functors_example : functors [mk_arg f0 true; mk_arg f1 false] /\ ~ same_template Overload [mk_arg f0 true; mk_arg f1 false].
Proof.
  split; [|intros [a [ts [E _]]]; discriminate]. split.
  - intros a [<-|[<-|[]]]; (split; [constructor|intro E; try discriminate E; constructor]).
  - constructor; [intros [E|[]]; discriminate|]. constructor; [intros []|constructor].
Qed.
Example C111_declare_example :
  declare Cpp17 Braces Overload [mk_arg f0 true; mk_arg f1 false] = Ok (Inst Overload [f0; f1], [[Copy]; [Move]]) /\
  declare Cpp20 Parens Overload [mk_arg f0 true; mk_arg f1 false] = Ok (Inst Overload [f0; f1], [[Copy]; [Move]]) /\
  declare Cpp20 Braces Overload [mk_arg f0 true; mk_arg f0 false] = IllFormed /\
  declare Cpp20 Braces Overload [mk_arg (Scalar 0) true] = IllFormed /\
  declare Cpp20 Braces Overload [mk_arg f1 true] = IllFormed /\
  declare Cpp17 Parens YCombinator [mk_arg f1 false] = Ok (Inst YCombinator [f1], [[Move; Move]]) /\
  declare Cpp17 Parens TypeSequence [mk_arg (Identity f0) false; mk_arg (Identity Integer) false] = Ok (Inst TypeSequence [f0; Integer], [[Move]; [Move]]) /\
  declare Cpp17 Parens TypeSequence [mk_arg f0 false] = IllFormed /\
  declare Cpp17 Parens SoaSpan [mk_arg (Span f0) true; mk_arg (Span Integer) false] = Ok (Inst SoaSpan [f0; Integer], [[Copy]; [Move]]) /\
  declare Cpp17 Parens ValueTuple [mk_arg f1 false] = IllFormed /\
  declare Cpp17 Parens ValueTuple [mk_arg f0 false] = Ok (Inst ValueTuple [f0], [[Move; Copy]]).
Proof. vm_compute. repeat split; reflexivity. Qed.
Example C111_make_example : ~ same_template YCombinator [mk_arg f1 false] /\ can_pass (mk_arg f1 false) /\
  make YCombinator [mk_arg f1 false] = Ok (Inst YCombinator [f1], [[Move; Move; Move]]) /\
  make TypeSequence [mk_arg (Identity f1) false] = Ok (Inst TypeSequence [f1], [[Move]]) /\ make SoaSpan [mk_arg f0 false] = IllFormed /\
  make ValueTuple [mk_arg f0 true; mk_arg Integer false] = Ok (Inst ValueTuple [f0; Integer], [[Copy; Copy]; [Move; Copy]]).
Proof. split; [intros [a [ts [E1 E2]]]; injection E1 as <-; discriminate|]. split; [discriminate|]. vm_compute. repeat split; reflexivity. Qed.
Example C111_copy_example : declare Cpp17 Parens Overload [mk_arg (Inst Overload [f0]) true] = Ok (Inst Overload [f0], [[Copy]]).
Proof. reflexivity. Qed.

Example C111_accepted_example : Forall2 (stands_for SoaSpan) [mk_arg (Span f0) true; mk_arg (Span Integer) false] [f0; Integer] /\
  Forall2 (stands_for TypeSequence) [mk_arg (Identity f0) true] [f0] /\ Forall2 (stands_for ValueTuple) [mk_arg f0 true] [f0] /\ can_copy f0.
Proof.
  split; [constructor; [apply stands_span; reflexivity|constructor; [apply stands_span; reflexivity|constructor]]|].
  split; [constructor; [apply stands_identity; reflexivity|constructor]|]. split; [|constructor].
  constructor; [apply (stands_itself ValueTuple (mk_arg f0 true)); auto|constructor].
Qed.

(** value_tuple copies rvalues. *)
Theorem C111_passed_refuted : exists s x a T es, can_pass a /\ declare s x ValueTuple [a] = Ok (T, es) /\ ~ Forall2 passed [a] es.
Proof.
  exists Cpp17, Braces, (mk_arg f0 false). do 2 eexists. split; [discriminate|]. split; [reflexivity|]. intro H. inversion H as [|? ? ? ? P _]. discriminate P.
Qed.
Print Assumptions C111_passed_refuted.
