(** Theorems about y_combinator<>: C63. *)

From Coq Require Import ZArith Arith Bool Lia List Wellfounded.
From Verif Require Import Base FunctionalModel FunctionalSpec.
Import ListNotations.

Section Props.
  Context {A R St : Type}.
  Variable body : A -> prog A R St.

  Lemma upd_upd : forall X (l : list X) i x y, upd (upd l i x) i y = upd l i y.
  Proof. induction l as [|a l IH]; intros [|i] x y; cbn; auto. f_equal. apply IH. Qed.
  Lemma upd_self : forall X (l : list X) i x, nth_error l i = Some x -> upd l i x = l.
  Proof. induction l as [|a l IH]; intros [|i] x H; cbn in *; try discriminate; [congruence|]. f_equal. auto. Qed.
  Lemma upd_get : forall X (l : list X) i x y, nth_error l i = Some x -> nth_error (upd l i y) i = Some y.
  Proof. induction l as [|a l IH]; intros [|i] x y H; cbn in *; try discriminate; eauto. Qed.

  (** Soundness. *)
  Lemma sound : forall fuel y a m m' r s, nth_error m y = Some s ->
    call_functor body fuel y (mk_func_ref y) a m = (m', Ok r) -> exists s', recursive_function body a s s' r /\ m' = upd m y s'.
  Proof.
    induction fuel as [|k IH]; intros y a m m' r s Hs H; [discriminate|]. cbn [call_functor] in H.
    assert (G : forall p m m' r s, nth_error m y = Some s -> exec (call_functor body k y (mk_func_ref y)) y p m = (m', Ok r) -> exists s', computes body p s s' r /\ m' = upd m y s').
    { clear m m' r s Hs H. induction p as [r0|f IHp|s0 p IHp|a' f IHp]; intros m m' r s Hs H; cbn [exec] in H.
      - injection H as <- <-. exists s. split; [constructor|]. symmetry. apply upd_self; auto.
      - rewrite Hs in H. destruct (IHp s _ _ _ _ Hs H) as (s' & C & ->). exists s'. split; [constructor; auto|auto].
      - rewrite Hs in H. destruct (IHp _ _ _ s0 (upd_get _ _ _ _ _ Hs) H) as (s' & C & ->). exists s'. split; [constructor; auto|apply upd_upd].
      - destruct (call_functor body k y (mk_func_ref y) a' m) as [m1 r1] eqn:E. destruct r1 as [r1| | | | |]; try discriminate.
        destruct (IH y a' m m1 r1 s Hs E) as (s1 & C1 & ->). destruct (IHp r1 _ _ _ s1 (upd_get _ _ _ _ _ Hs) H) as (s' & C & ->). exists s'. split; [econstructor; eauto|apply upd_upd]. }
    eapply G; eauto.
  Qed.

  (** More fuel does no harm. *)
  Lemma fuel_mono : forall k y c a m m' r, call_functor body k y c a m = (m', Ok r) -> forall k', k <= k' -> call_functor body k' y c a m = (m', Ok r).
  Proof.
    induction k as [|k IH]; intros y c a m m' r H k' L; [discriminate|]. destruct k' as [|k']; [lia|]. cbn [call_functor] in *.
    generalize dependent H. generalize m m' r. induction (body a) as [r0|f IHp|s0 p IHp|a' f IHp]; intros n n' q H; cbn [exec] in *; auto.
    - destruct (nth_error n y); [|discriminate]. auto.
    - destruct (nth_error n y); [|discriminate]. auto.
    - destruct (call_functor body k (ref_func c) c a' n) as [m1 r1] eqn:E. destruct r1 as [r1| | | | |]; try discriminate.
      rewrite (IH _ _ _ _ _ _ E) by lia. auto.
  Qed.

  (** Completeness. *)
  Lemma complete : forall p s s' r, computes body p s s' r -> forall y m, nth_error m y = Some s ->
    exists k, exec (call_functor body k y (mk_func_ref y)) y p m = (upd m y s', Ok r).
  Proof.
    induction 1 as [r s|f s s' r C IH|s0 p s s' r C IH|a f s s1 s' r1 r C1 IH1 C2 IH2]; intros y m Hs; cbn [exec].
    - exists 0. rewrite upd_self; auto.
    - rewrite Hs. apply IH; auto.
    - rewrite Hs. destruct (IH y (upd m y s0) (upd_get _ _ _ _ _ Hs)) as [k E]. exists k. rewrite E, upd_upd. reflexivity.
    - destruct (IH1 y m Hs) as [k1 E1]. destruct (IH2 y (upd m y s1) (upd_get _ _ _ _ _ Hs)) as [k2 E2]. exists (max (S k1) k2).
      assert (E1' : call_functor body (S k1) y (mk_func_ref y) a m = (upd m y s1, Ok r1)) by exact E1.
      rewrite (fuel_mono _ _ _ _ _ _ _ E1') by lia.
      assert (M : forall q n n' z, exec (call_functor body k2 y (mk_func_ref y)) y q n = (n', Ok z) -> exec (call_functor body (max (S k1) k2) y (mk_func_ref y)) y q n = (n', Ok z)).
      { clear. induction q as [r0|f IHp|s0 p IHp|a' f IHp]; intros n n' z H; cbn [exec] in *; auto.
        - destruct (nth_error n y); [|discriminate]. auto.
        - destruct (nth_error n y); [|discriminate]. auto.
        - destruct (call_functor body k2 y (mk_func_ref y) a' n) as [m1 r1'] eqn:E. destruct r1' as [r1'| | | | |]; try discriminate. rewrite (fuel_mono _ _ _ _ _ _ _ E) by lia. auto. }
      rewrite (M _ _ _ _ E2), upd_upd. reflexivity.
  Qed.

  (** C63.  Calling the y_combinator object computes the recursive function, for every body, argument and state: it
      returns iff the recursion terminates, with its result, and only changes the state of its own functor. *)
  Theorem C63_recursion : forall y a (m : list St) s m' r, nth_error m (y_func y) = Some s ->
    ((exists fuel, y_call body fuel y a m = (m', Ok r)) <-> exists s', recursive_function body a s s' r /\ m' = upd m (y_func y) s').
  Proof.
    intros y a m s m' r Hs. split.
    - intros [fuel H]. eapply sound; eauto.
    - intros (s' & C & ->). destruct (complete _ _ _ _ C (y_func y) m Hs) as [k E]. exists (S k). exact E.
  Qed.
  (** Nothing else can happen, however long it runs; and the result does not depend on the fuel. *)
  Theorem C63_no_other_outcome : forall fuel y a (m : list St), y_func y < length m ->
    snd (y_call body fuel y a m) = OutOfFuel \/ exists r, snd (y_call body fuel y a m) = Ok r.
  Proof.
    intros fuel [y] a m L. unfold y_call. cbn [y_func] in *.
    assert (G : forall k a m, y < length m -> (snd (call_functor body k y (mk_func_ref y) a m) = OutOfFuel \/ exists r, snd (call_functor body k y (mk_func_ref y) a m) = Ok r) /\ length (fst (call_functor body k y (mk_func_ref y) a m)) = length m); [|apply G; auto].
    clear. induction k as [|k IH]; intros a m L; [split; [left|]; reflexivity|]. cbn [call_functor]. revert m L.
    induction (body a) as [r0|f IHp|s0 p IHp|a' f IHp]; intros n L; cbn [exec].
    - split; [right; eexists; reflexivity|reflexivity].
    - destruct (nth_error n y) eqn:E; [apply IHp; exact L|]. apply nth_error_None in E. lia.
    - destruct (nth_error n y) eqn:E; [|apply nth_error_None in E; lia]. rewrite <- (upd_length _ n y s0). apply IHp. rewrite upd_length. exact L.
    - cbn [ref_func]. destruct (IH a' n L) as [Q W]. destruct (call_functor body k y (mk_func_ref y) a' n) as [m1 r1]. cbn [fst snd] in *.
      destruct Q as [->|[r ->]]; [split; [left; reflexivity|exact W]|]. rewrite <- W. apply IHp. lia.
  Qed.
  Theorem C63_deterministic : forall k1 k2 y a (m m1 m2 : list St) r1 r2,
    y_call body k1 y a m = (m1, Ok r1) -> y_call body k2 y a m = (m2, Ok r2) -> m1 = m2 /\ r1 = r2.
  Proof.
    intros k1 k2 y a m m1 m2 r1 r2 H1 H2. unfold y_call in *. pose proof (fuel_mono _ _ _ _ _ _ _ H1 (max k1 k2) ltac:(lia)) as E1. pose proof (fuel_mono _ _ _ _ _ _ _ H2 (max k1 k2) ltac:(lia)) as E2.
    rewrite E1 in E2. injection E2 as -> ->. auto.
  Qed.
  (** Functors that do not write: nothing is changed. *)
  Theorem C63_const : forall fuel y a (m m' : list St) r, (forall b, reads_only (body b)) -> y_call body fuel y a m = (m', Ok r) -> m' = m.
  Proof.
    intros fuel y a m m' r RO. unfold y_call. generalize (y_func y) (mk_func_ref (y_func y)). intros self c. revert self a m m' r.
    induction fuel as [|k IH]; intros self a m m' r H; [discriminate|]. cbn [call_functor] in H.
    assert (G : forall p, reads_only p -> forall m m' r, exec (call_functor body k (ref_func c) c) self p m = (m', Ok r) -> m' = m); [|eapply G; eauto].
    clear H. induction 1 as [r0|f F IHp|a' f F IHp]; intros n n' q H; cbn [exec] in H.
    - congruence.
    - destruct (nth_error n self); [|discriminate]. eauto.
    - destruct (call_functor body k (ref_func c) c a' n) as [m1 r1] eqn:E. destruct r1 as [r1| | | | |]; try discriminate. apply IH in E. subst m1. eauto.
  Qed.
  (** The usual case: if the body, with recursive calls answered by the function [g], yields [g], and its recursive calls
      descend in a well-founded order, then the object computes [g]. *)
  Theorem C63_function : forall (g : A -> R) (lt : A -> A -> Prop) s, well_founded lt ->
    (forall a, reads_only (body a)) ->
    (forall a, value g s (body a) = inl (g a)) -> (forall a b, In b (calls g s (body a)) -> lt b a) ->
    forall y a m, nth_error m (y_func y) = Some s -> exists fuel, y_call body fuel y a m = (m, Ok (inl (g a))).
  Proof.
    intros g lt s W RO V C y a m Hs.
    assert (G : forall a, recursive_function body a s s (inl (g a))).
    { clear a. induction a as [a IH] using (well_founded_induction W). unfold recursive_function. rewrite <- (V a).
      assert (Q : forall p, reads_only p -> (forall b, In b (calls g s p) -> lt b a) -> computes body p s s (value g s p)); [|apply Q; auto].
      induction 1 as [r0|f F IHp|a' f F IHp]; intro L; cbn [value calls] in *.
      - constructor.
      - constructor. apply IHp. exact L.
      - econstructor; [apply IH; apply L; left; reflexivity|]. apply IHp. intros b I. apply L. right. exact I. }
    destruct (proj2 (C63_recursion y a m s m (inl (g a)) Hs)) as [fuel E]; [|eauto]. exists s. split; [apply G|]. symmetry. apply upd_self. exact Hs.
  Qed.
  (** Construction and copies: a new object has its own functor, in the given state or that of the original, and calls of
      one object do not affect the other. *)
  Theorem C63_objects : forall (m : list St) s,
    (let '(m1, y) := make_y_combinator s m in nth_error m1 (y_func y) = Some s /\ forall i, i < length m -> nth_error m1 i = nth_error m i) /\
    (forall y, nth_error m (y_func y) = Some s -> let '(m1, c) := copy_y_combinator y m in exists y', c = Ok y' /\
       nth_error m1 (y_func y') = Some s /\ y_func y' <> y_func y /\ forall i, i < length m -> nth_error m1 i = nth_error m i) /\
    (forall y z a k m' r, y_func y < length m -> y_func z <> y_func y -> y_call body k y a m = (m', Ok r) -> nth_error m' (y_func z) = nth_error m (y_func z)).
  Proof.
    intros m s. split; [|split].
    - cbn. split; [rewrite nth_error_app2, Nat.sub_diag by lia; reflexivity|]. intros i L. apply nth_error_app1; auto.
    - intros y Hs. unfold copy_y_combinator. rewrite Hs. exists (mk_y_comb (length m)). split; [reflexivity|]. cbn. split; [rewrite nth_error_app2, Nat.sub_diag by lia; reflexivity|].
      split; [assert (y_func y < length m) by (apply nth_error_Some; congruence); lia|]. intros i L. apply nth_error_app1; auto.
    - intros y z a k m' r L N H. destruct (nth_error m (y_func y)) as [s0|] eqn:E; [|apply nth_error_None in E; lia].
      destruct (proj1 (C63_recursion y a m s0 m' r E) (ex_intro _ k H)) as (s' & _ & ->). apply nth_error_upd_other. congruence.
  Qed.
End Props.

(** The documented example, with a counter of calls in the captures: [](auto fac, int i) mutable { ++n; return i <= 1 ? 1 : i * fac(i - 1); }. *)
Definition fac_body (i : nat) : prog nat nat nat :=
  Get (fun n => Put (n + 1) (if Nat.leb i 1 then Done (inl 1) else Rec (i - 1) (fun r => match r with inl x => Done (inl (i * x)) | inr e => Done (inr e) end))).
Definition fac_pure (i : nat) : prog nat nat unit :=
  if Nat.leb i 1 then Done (inl 1) else Rec (i - 1) (fun r => match r with inl x => Done (inl (i * x)) | inr e => Done (inr e) end).
Example C63_example : y_call fac_body 5 (mk_y_comb 1) 4 [7; 0; 9] = ([7; 4; 9], Ok (inl 24)) /\ snd (y_call fac_body 3 (mk_y_comb 1) 4 [7; 0; 9]) = OutOfFuel.
Proof. split; reflexivity. Qed.
Example C63_fac : forall i, exists fuel, y_call fac_pure fuel (mk_y_comb 0) i [tt] = ([tt], Ok (inl (fact i))).
Proof.
  intro i. apply (C63_function fac_pure fact lt tt lt_wf); auto.
  - intro a. unfold fac_pure. destruct (Nat.leb a 1); constructor. intros []; constructor.
  - intro a. unfold fac_pure. destruct (Nat.leb_spec a 1); [destruct a as [|[|]]; try reflexivity; lia|]. cbn [value]. destruct a; [lia|]. cbn [Nat.sub]. rewrite Nat.sub_0_r. reflexivity.
  - intros a b. unfold fac_pure. destruct (Nat.leb_spec a 1); cbn; [intros []|]. intros [<-|[]]. lia.
Qed.
Print Assumptions C63_recursion.
Print Assumptions C63_no_other_outcome.
Print Assumptions C63_deterministic.
Print Assumptions C63_const.
Print Assumptions C63_function.
Print Assumptions C63_objects.
