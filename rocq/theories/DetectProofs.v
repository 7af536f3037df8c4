(** Proofs about the detection traits. *)

From Coq Require Import Arith Bool Lia List.
From Verif Require Import Base DetectModel DetectSpec.
Import ListNotations.

Lemma accepts_fits s n : accepts s n = true <-> fits s n.
Proof.
  unfold accepts, fits. destruct (sig_pack s) eqn:E.
  - rewrite Nat.leb_le. split; [intro; right; auto|intros [->|[_ H]]; lia].
  - rewrite Nat.eqb_eq. split; [auto|intros [H|[H _]]; [exact H|discriminate]].
Qed.
Lemma accepts_not s n : accepts s n = false <-> ~ fits s n.
Proof. rewrite <- accepts_fits. destruct (accepts s n); split; intro H; try discriminate; try (intro; discriminate); auto. exfalso. apply H. reflexivity. Qed.

Lemma class_of_some t C args : class_of t = Some (C, args) <-> class_type t C args.
Proof.
  split.
  - destruct t; try discriminate; cbn.
    + destruct t; try discriminate. intro H. injection H as <- <-. constructor.
    + intro H. injection H as <- <-. constructor.
  - intros []; reflexivity.
Qed.
Lemma class_of_none t : class_of t = None <-> forall C args, ~ class_type t C args.
Proof.
  split.
  - intros H C args H'. apply class_of_some in H'. congruence.
  - intro H. destruct (class_of t) as [[C args]|] eqn:E; [|reflexivity]. apply class_of_some in E. destruct (H _ _ E).
Qed.

Lemma all_named_ext {A B : Type} (f g : A -> answer B) l : (forall x, In x l -> f x = g x) -> all_named f l = all_named g l.
Proof.
  induction l as [|x l IH]; intro H; [reflexivity|]. cbn. rewrite (H x) by (left; reflexivity). rewrite IH by (intros; apply H; right; assumption). reflexivity.
Qed.
Lemma all_named_map {A B C : Type} (f : B -> answer C) (g : A -> B) l : all_named (fun x => f (g x)) l = all_named f (map g l).
Proof. induction l as [|x l IH]; [reflexivity|]. cbn. rewrite IH. reflexivity. Qed.
Lemma all_named_length {A B : Type} (f : A -> answer B) l r : all_named f l = Named r -> length r = length l.
Proof.
  revert r. induction l as [|x l IH]; intros r; cbn; [intro H; injection H as <-; reflexivity|].
  destruct (f x); cbn; try discriminate. destruct (all_named f l) as [bs| | |]; cbn; try discriminate. intro H. injection H as <-. cbn. f_equal. apply IH. reflexivity.
Qed.

Lemma find_combine (m : nat) : forall (ns : list nat) (ts : list ty), length ts = length ns ->
  match find (fun e => Nat.eqb (fst e) m) (combine ns ts) with
  | Some (_, t) => exists i, nth_error ns i = Some m /\ nth_error ts i = Some t /\ forall j n, j < i -> nth_error ns j = Some n -> n <> m
  | None => ~ In m ns
  end.
Proof.
  induction ns as [|n ns IH]; intros [|t ts] L; try discriminate; cbn; [auto|].
  destruct (Nat.eqb_spec n m) as [->|NE].
  - exists 0. cbn. repeat split. intros j k H. lia.
  - specialize (IH ts ltac:(cbn in L; lia)). destruct (find _ _) as [[a u]|].
    + destruct IH as [i [H1 [H2 H3]]]. exists (S i). cbn. repeat split; auto.
      intros [|j] k H H'; cbn in H'; [congruence|]. apply (H3 j k); [lia|exact H'].
    + intros [H|H]; [congruence|contradiction].
Qed.

Section Program.
  Variable class_sig : nat -> signature.
  Variable define : nat -> list ty -> class_def.
  Variable alias_sig : nat -> signature.
  Variable alias_body : nat -> texpr.
  Local Notation subst := (subst class_sig define alias_sig alias_body).
  Local Notation names := (names class_sig define alias_sig alias_body).
  Local Notation names_all := (names_all class_sig define alias_sig alias_body).
  Local Notation faulty := (faulty class_sig define alias_sig alias_body).

  (** * Monotonicity *)
  Definition settled {A : Type} (a b : answer A) : Prop := a <> Deeper -> b = a.
  Lemma all_named_mono {A B : Type} (f g : A -> answer B) l : (forall x, settled (f x) (g x)) -> settled (all_named f l) (all_named g l).
  Proof.
    intro H. induction l as [|x l IH]; [intro; reflexivity|]. unfold settled. cbn.
    destruct (f x) eqn:E; cbn; intro ND; try (exfalso; apply ND; reflexivity); specialize (H x); unfold settled in H; rewrite H, E by (rewrite E; discriminate); cbn; try reflexivity.
    destruct (all_named f l) eqn:E'; cbn in *; try (exfalso; apply ND; reflexivity); rewrite IH by discriminate; reflexivity.
  Qed.
  (** One level of substitution, given what happens on the next. *)
  Definition level (rec : texpr -> list ty -> answer ty) (x : texpr) (params : list ty) : answer ty :=
    match x with
    | XParam i => match nth_error params i with Some t => Named t | None => Failed end
    | XType t => Named t
    | XConst x => bindA (rec x params) (fun t => Named (add_const t))
    | XRef x => bindA (rec x params) add_ref
    | XPtr x => bindA (rec x params) add_ptr
    | XUse Z xs pack =>
        bindA (all_named (fun x => rec x params) xs) (fun ts =>
          let args := ts ++ match pack with Some k => skipn k params | None => [] end in
          match Z with
          | Class C => if accepts (class_sig C) (length args) then Named (Spec C args) else Failed
          | Alias A => if accepts (alias_sig A) (length args) then rec (alias_body A) args else Failed
          end)
    | XMember x m =>
        bindA (rec x params) (fun t =>
          match class_of t with
          | None => Failed
          | Some (C, args) =>
              match define C args with
              | Incomplete => Failed
              | Ambiguous => Broken
              | Members ms =>
                  match all_named (fun e => rec (snd e) args) ms with
                  | Named ts => find_member m ms ts
                  | Failed | Broken => Broken
                  | Deeper => Deeper
                  end
              end
          end)
    end.
  Lemma subst_level d x ps : subst (S d) x ps = level (subst d) x ps.
  Proof. reflexivity. Qed.
  Lemma bindA_mono {A B : Type} (a a' : answer A) (f f' : A -> answer B) : settled a a' -> (forall t, settled (f t) (f' t)) -> settled (bindA a f) (bindA a' f').
  Proof.
    unfold settled. intros H H' ND. destruct a; cbn in *; try (rewrite H by discriminate; cbn; try reflexivity); [apply H', ND|exfalso; apply ND; reflexivity].
  Qed.
  Lemma settled_refl {A : Type} (a : answer A) : settled a a.
  Proof. intro; reflexivity. Qed.
  Lemma level_mono rec rec' x ps : (forall x ps, settled (rec x ps) (rec' x ps)) -> settled (level rec x ps) (level rec' x ps).
  Proof.
    intro H. destruct x as [i|t|x|x|x|Z xs pack|x m]; cbn; try apply settled_refl; (apply bindA_mono; [try apply H|intro; try apply settled_refl]).
    - apply all_named_mono. intro; apply H.
    - destruct Z as [C|A]; [apply settled_refl|]. destruct (accepts _ _); [apply H|apply settled_refl].
    - destruct (class_of _) as [[C args]|]; [|apply settled_refl]. destruct (define C args) as [| |ms]; try apply settled_refl.
      assert (M := all_named_mono (fun e => rec (snd e) args) (fun e => rec' (snd e) args) ms ltac:(intro; apply H)).
      unfold settled in *. destruct (all_named (fun e => rec (snd e) args) ms); intro ND; try (exfalso; apply ND; reflexivity); rewrite M by discriminate; reflexivity.
  Qed.
  Lemma subst_S d : forall x ps, settled (subst d x ps) (subst (S d) x ps).
  Proof.
    induction d as [|d IH]; intros x ps; [intro H; exfalso; apply H; reflexivity|]. rewrite !subst_level. apply level_mono, IH.
  Qed.
  Lemma subst_mono d d' x ps : d <= d' -> settled (subst d x ps) (subst d' x ps).
  Proof.
    induction 1 as [|d' L IH]; [intro; reflexivity|]. intro ND. rewrite <- (IH ND). apply subst_S. rewrite (IH ND). exact ND.
  Qed.

  (** * Soundness *)
  Definition sound (x : texpr) (ps : list ty) (a : answer ty) : Prop :=
    match a with Named t => names x ps t | Failed => faulty true x ps | Broken => faulty false x ps | Deeper => True end.
  Lemma all_named_sound (f : texpr -> answer ty) ps xs : (forall x, sound x ps (f x)) ->
    match all_named f xs with
    | Named ts => names_all xs ps ts
    | Failed => exists xs1 x xs2 ts, xs = xs1 ++ x :: xs2 /\ names_all xs1 ps ts /\ faulty true x ps
    | Broken => exists xs1 x xs2 ts, xs = xs1 ++ x :: xs2 /\ names_all xs1 ps ts /\ faulty false x ps
    | Deeper => True
    end.
  Proof.
    intro H. induction xs as [|x xs IH]; [constructor|]. cbn. specialize (H x). destruct (f x) as [t| | |]; cbn in *; auto.
    - destruct (all_named f xs) as [ts| | |]; cbn; auto.
      + constructor; assumption.
      + destruct IH as [xs1 [y [xs2 [ts [-> [N Fy]]]]]]. exists (x :: xs1), y, xs2, (t :: ts). repeat split; auto. constructor; assumption.
      + destruct IH as [xs1 [y [xs2 [ts [-> [N Fy]]]]]]. exists (x :: xs1), y, xs2, (t :: ts). repeat split; auto. constructor; assumption.
    - exists [], x, xs, []. repeat split; auto. constructor.
    - exists [], x, xs, []. repeat split; auto. constructor.
  Qed.
  Lemma map_snd_split {A B : Type} : forall (ms : list (A * B)) xs1 x xs2, map snd ms = xs1 ++ x :: xs2 ->
    exists ms1 e ms2, ms = ms1 ++ e :: ms2 /\ map snd ms1 = xs1 /\ snd e = x.
  Proof.
    induction ms as [|e ms IH]; intros [|y xs1] x xs2 H; cbn in H; try discriminate.
    - injection H as H1 H2. exists [], e, ms. auto.
    - injection H as <- H. destruct (IH _ _ _ H) as [ms1 [e' [ms2 [-> [<- <-]]]]]. exists (e :: ms1), e', ms2. auto.
  Qed.
  Lemma subst_sound d : forall x ps, sound x ps (subst d x ps).
  Proof.
    induction d as [|d IH]; intros x ps; [exact I|]. cbn. destruct x as [i|t|x|x|x|Z xs pack|x m].
    - destruct (nth_error ps i) eqn:E; cbn; constructor; [exact E|apply nth_error_None, E].
    - constructor.
    - specialize (IH x ps). destruct (subst d x ps) as [t| | |]; cbn in *; try (constructor; assumption); auto.
      destruct t; cbn; (apply n_const_ref; exact IH) || (apply n_const_const; exact IH) || (apply n_const; [exact IH|discriminate|discriminate]).
    - specialize (IH x ps). destruct (subst d x ps) as [t| | |]; cbn in *; try (constructor; assumption); auto.
      destruct t as [|n|[]|t|t|C args]; cbn; try (apply n_ref; [exact IH|discriminate|discriminate|discriminate]).
      + eapply f_ref_void; [exact IH|auto].
      + eapply f_ref_void; [exact IH|auto].
      + apply n_ref_ref, IH.
    - specialize (IH x ps). destruct (subst d x ps) as [t| | |]; cbn in *; try (constructor; assumption); auto.
      destruct t; cbn; try (apply n_ptr; [exact IH|discriminate]). eapply f_ptr_ref, IH.
    - assert (H := all_named_sound (fun x => subst d x ps) ps xs ltac:(intro; apply IH)).
      destruct (all_named (fun x => subst d x ps) xs) as [ts| | |]; cbn; auto.
      + fold (pack_args pack ps). destruct Z as [C|A]; destruct (accepts _ _) eqn:E; cbn.
        * apply accepts_fits in E. apply n_class; assumption.
        * apply accepts_not in E. eapply f_class_number; eassumption.
        * apply accepts_fits in E. specialize (IH (alias_body A) (ts ++ pack_args pack ps)).
          destruct (subst d (alias_body A) (ts ++ pack_args pack ps)); cbn in *; auto; [eapply n_alias|eapply f_alias|eapply f_alias]; eassumption.
        * apply accepts_not in E. eapply f_alias_number; eassumption.
      + destruct H as [xs1 [x [xs2 [ts [-> [N Fx]]]]]]. eapply f_arg; eassumption.
      + destruct H as [xs1 [x [xs2 [ts [-> [N Fx]]]]]]. eapply f_arg; eassumption.
    - assert (H := IH x ps). destruct (subst d x ps) as [t| | |]; cbn in *; try (constructor; assumption); auto.
      destruct (class_of t) as [[C args]|] eqn:E.
      2: { cbn. eapply f_no_class; [exact H|apply class_of_none, E]. }
      apply class_of_some in E. destruct (define C args) as [| |ms] eqn:D; cbn.
      + eapply f_incomplete; eassumption.
      + eapply f_ambiguous; eassumption.
      + rewrite (all_named_map (fun e => subst d e args) snd ms).
        assert (M := all_named_sound (fun x => subst d x args) args (map snd ms) ltac:(intro; apply IH)).
        destruct (all_named (fun x => subst d x args) (map snd ms)) as [ts| | |] eqn:An; cbn; auto.
        * apply all_named_length in An. rewrite map_length in An. unfold find_member.
          assert (Fm := find_combine m (map fst ms) ts ltac:(rewrite map_length; exact An)).
          destruct (find _ _) as [[a u]|]; cbn.
          -- destruct Fm as [i [H1 [H2 H3]]]. eapply n_member; try eassumption.
             rewrite nth_error_map in H1. destruct (nth_error ms i) as [e|] eqn:Ei; [|discriminate]. injection H1 as H1.
             exists i, e. repeat split; auto. intros j e' L Ej. apply (H3 j _ L). rewrite nth_error_map, Ej. reflexivity.
          -- eapply f_no_member; eassumption.
        * destruct M as [xs1 [y [xs2 [ts [Em [N Fy]]]]]]. destruct (map_snd_split _ _ _ _ Em) as [ms1 [e [ms2 [-> [<- <-]]]]].
          eapply f_instantiation; eassumption.
        * destruct M as [xs1 [y [xs2 [ts [Em [N Fy]]]]]]. destruct (map_snd_split _ _ _ _ Em) as [ms1 [e [ms2 [-> [<- <-]]]]].
          eapply f_instantiation; eassumption.
  Qed.

  (** * Completeness *)
  Scheme names_mut := Minimality for DetectSpec.names Sort Prop
  with names_all_mut := Minimality for DetectSpec.names_all Sort Prop.
  Definition reaches (x : texpr) (ps : list ty) (a : answer ty) : Prop := exists d, forall d', d <= d' -> subst d' x ps = a.
  Definition reaches_all (xs : list texpr) (ps : list ty) (ts : list ty) : Prop :=
    exists d, forall d', d <= d' -> all_named (fun x => subst d' x ps) xs = Named ts.
  Lemma reaches_bind x ps (wrap : texpr -> texpr) (k : ty -> answer ty) a t :
    (forall d, subst (S d) (wrap x) ps = bindA (subst d x ps) k) -> reaches x ps (Named t) -> k t = a -> reaches (wrap x) ps a.
  Proof.
    intros W [d H] K. exists (S d). intros [|d'] L; [lia|]. rewrite W, H by lia. exact K.
  Qed.
  Lemma reaches_fail x ps (wrap : texpr -> texpr) (k : ty -> answer ty) (b : bool) :
    (forall d, subst (S d) (wrap x) ps = bindA (subst d x ps) k) -> reaches x ps (if b then Failed else Broken) -> reaches (wrap x) ps (if b then Failed else Broken).
  Proof.
    intros W [d H]. exists (S d). intros [|d'] L; [lia|]. rewrite W, H by lia. destruct b; reflexivity.
  Qed.
  Lemma names_reaches : forall x ps t, names x ps t -> reaches x ps (Named t).
  Proof.
    apply (names_mut class_sig define alias_sig alias_body (fun x ps t => reaches x ps (Named t)) reaches_all).
    - intros i ps t E. exists 1. intros [|d] L; [lia|]. cbn. rewrite E. reflexivity.
    - intros t ps. exists 1. intros [|d] L; [lia|]. reflexivity.
    - intros x ps t _ H. eapply (reaches_bind x ps XConst); [reflexivity|exact H|reflexivity].
    - intros x ps t _ H. eapply (reaches_bind x ps XConst); [reflexivity|exact H|reflexivity].
    - intros x ps t _ H N1 N2. eapply (reaches_bind x ps XConst); [reflexivity|exact H|]. destruct t; cbn; try reflexivity; [exfalso; eapply N2; reflexivity|exfalso; eapply N1; reflexivity].
    - intros x ps t _ H. eapply (reaches_bind x ps XRef); [reflexivity|exact H|reflexivity].
    - intros x ps t _ H N1 N2 N3. eapply (reaches_bind x ps XRef); [reflexivity|exact H|].
      destruct t as [|n|[]|t|t|C args]; cbn; try reflexivity; try congruence.
    - intros x ps t _ H N1. eapply (reaches_bind x ps XPtr); [reflexivity|exact H|]. destruct t; cbn; try reflexivity. exfalso. eapply N1. reflexivity.
    - intros C xs pack ps ts _ [d H] Fi. exists (S d). intros [|d'] L; [lia|]. cbn. rewrite H by lia. cbn. fold (pack_args pack ps).
      apply accepts_fits in Fi. rewrite Fi. reflexivity.
    - intros A xs pack ps ts t _ [d H] Fi _ [d1 H1]. exists (S (d + d1)). intros [|d'] L; [lia|]. cbn. rewrite H by lia. cbn. fold (pack_args pack ps).
      apply accepts_fits in Fi. rewrite Fi. apply H1. lia.
    - intros x m ps c C args ms ts t _ [d H] Ct D Na [d1 H1] [i [e [Ei [Em [Et First]]]]]. exists (S (d + d1)). intros [|d'] L; [lia|]. cbn. rewrite H by lia. cbn.
      apply class_of_some in Ct. rewrite Ct, D. rewrite (all_named_map (fun e => subst d' e args) snd ms), H1 by lia.
      assert (An := H1 d' ltac:(lia)). apply all_named_length in An. rewrite map_length in An. unfold find_member.
      assert (Fm := find_combine m (map fst ms) ts ltac:(rewrite map_length; exact An)).
      destruct (find _ _) as [[a u]|].
      + destruct Fm as [k [K1 [K2 K3]]]. rewrite nth_error_map in K1. destruct (nth_error ms k) as [e'|] eqn:Ek; [|discriminate]. injection K1 as K1.
        destruct (Nat.lt_trichotomy i k) as [Lt|[->|Lt]].
        * exfalso. apply (K3 i (fst e) Lt); [rewrite nth_error_map, Ei; reflexivity|exact Em].
        * congruence.
        * exfalso. apply (First k e' Lt Ek K1).
      + exfalso. apply Fm. rewrite <- Em. apply in_map. eapply nth_error_In, Ei.
    - intros ps. exists 0. reflexivity.
    - intros x xs ps t ts _ [d H] _ [d1 H1]. exists (d + d1). intros d' L. cbn. rewrite H, H1 by lia. reflexivity.
  Qed.
  Lemma names_all_reaches xs ps ts : names_all xs ps ts -> reaches_all xs ps ts.
  Proof.
    induction 1 as [|x xs ps t ts N _ [d1 H1]]; [exists 0; reflexivity|]. destruct (names_reaches _ _ _ N) as [d H].
    exists (d + d1). intros d' L. cbn. rewrite H, H1 by lia. reflexivity.
  Qed.
  Lemma all_named_app_fail (f : texpr -> answer ty) xs1 x xs2 ts a : all_named f xs1 = Named ts -> f x = a -> a = Failed \/ a = Broken ->
    all_named f (xs1 ++ x :: xs2) = match a with Broken => Broken | _ => Failed end.
  Proof.
    revert ts. induction xs1 as [|y xs1 IH]; intros ts H E Fb; cbn in *.
    - rewrite E. destruct Fb as [-> | ->]; reflexivity.
    - destruct (f y); cbn in *; try discriminate. destruct (all_named f xs1) as [us| | |]; cbn in *; try discriminate.
      rewrite (IH us) by auto. destruct Fb as [-> | ->]; reflexivity.
  Qed.
  Lemma faulty_reaches b x ps : faulty b x ps -> reaches x ps (if b then Failed else Broken).
  Proof.
    induction 1 as [i ps L|x ps t N V|x ps t N|b x ps _ IH|b x ps _ IH|b x ps _ IH|b Z xs pack ps ts x ys N _ [d1 H1]|C xs pack ps ts N Fi|A xs pack ps ts N Fi
      |b A xs pack ps ts N Fi _ [d1 H1]|b x m ps _ IH|x m ps t N NC|x m ps t C args N Ct D|x m ps t C args ms ts N Ct D Na NI|x m ps t C args N Ct D
      |b x m ps t C args ms1 e ms2 ts N Ct D Na _ [d1 H1]].
    - exists 1. intros [|d] L'; [lia|]. cbn. apply nth_error_None in L. rewrite L. reflexivity.
    - eapply (reaches_bind x ps XRef); [reflexivity|apply names_reaches, N|]. destruct V as [-> | ->]; reflexivity.
    - eapply (reaches_bind x ps XPtr); [reflexivity|apply names_reaches, N|reflexivity].
    - eapply (reaches_fail x ps XConst); [reflexivity|exact IH].
    - eapply (reaches_fail x ps XRef); [reflexivity|exact IH].
    - eapply (reaches_fail x ps XPtr); [reflexivity|exact IH].
    - destruct (names_all_reaches _ _ _ N) as [d H]. exists (S (d + d1)). intros [|d'] L; [lia|]. cbn.
      rewrite (all_named_app_fail _ _ _ _ ts (if b then Failed else Broken)); [|apply H; lia|apply H1; lia|destruct b; auto]. destruct b; reflexivity.
    - destruct (names_all_reaches _ _ _ N) as [d H]. exists (S d). intros [|d'] L; [lia|]. cbn. rewrite H by lia. cbn. fold (pack_args pack ps).
      apply accepts_not in Fi. rewrite Fi. reflexivity.
    - destruct (names_all_reaches _ _ _ N) as [d H]. exists (S d). intros [|d'] L; [lia|]. cbn. rewrite H by lia. cbn. fold (pack_args pack ps).
      apply accepts_not in Fi. rewrite Fi. reflexivity.
    - destruct (names_all_reaches _ _ _ N) as [d H]. exists (S (d + d1)). intros [|d'] L; [lia|]. cbn. rewrite H by lia. cbn. fold (pack_args pack ps).
      apply accepts_fits in Fi. rewrite Fi. apply H1. lia.
    - destruct IH as [d H]. exists (S d). intros [|d'] L; [lia|]. cbn. rewrite H by lia. destruct b; reflexivity.
    - destruct (names_reaches _ _ _ N) as [d H]. exists (S d). intros [|d'] L; [lia|]. cbn. rewrite H by lia. cbn. apply class_of_none in NC. rewrite NC. reflexivity.
    - destruct (names_reaches _ _ _ N) as [d H]. exists (S d). intros [|d'] L; [lia|]. cbn. rewrite H by lia. cbn. apply class_of_some in Ct. rewrite Ct, D. reflexivity.
    - destruct (names_reaches _ _ _ N) as [d H]. destruct (names_all_reaches _ _ _ Na) as [d1 H1]. exists (S (d + d1)). intros [|d'] L; [lia|]. cbn. rewrite H by lia. cbn. apply class_of_some in Ct. rewrite Ct, D.
      rewrite (all_named_map (fun e => subst d' e args) snd ms), H1 by lia.
      assert (An := H1 d' ltac:(lia)). apply all_named_length in An. rewrite map_length in An. unfold find_member.
      assert (Fm := find_combine m (map fst ms) ts ltac:(rewrite map_length; exact An)).
      destruct (find _ _) as [[a u]|]; [|reflexivity]. exfalso. destruct Fm as [k [K1 _]]. apply NI. eapply nth_error_In, K1.
    - destruct (names_reaches _ _ _ N) as [d H]. exists (S d). intros [|d'] L; [lia|]. cbn. rewrite H by lia. cbn. apply class_of_some in Ct. rewrite Ct, D. reflexivity.
    - destruct (names_reaches _ _ _ N) as [d H]. destruct (names_all_reaches _ _ _ Na) as [d2 H2]. exists (S (d + d1 + d2)). intros [|d'] L; [lia|]. cbn. rewrite H by lia. cbn. apply class_of_some in Ct. rewrite Ct, D.
      rewrite (all_named_map (fun e => subst d' e args) snd (ms1 ++ e :: ms2)), map_app. cbn [map].
      rewrite (all_named_app_fail _ _ _ _ ts (if b then Failed else Broken)); [|apply H2; lia|apply H1; lia|destruct b; auto]. destruct b; reflexivity.
  Qed.

  Lemma names_iff x ps t : names x ps t <-> exists d, subst d x ps = Named t.
  Proof.
    split.
    - intro H. destruct (names_reaches _ _ _ H) as [d E]. exists d. apply E. lia.
    - intros [d E]. assert (H := subst_sound d x ps). rewrite E in H. exact H.
  Qed.
  Lemma faulty_iff b x ps : faulty b x ps <-> exists d, subst d x ps = if b then Failed else Broken.
  Proof.
    split.
    - intro H. destruct (faulty_reaches _ _ _ H) as [d E]. exists d. apply E. lia.
    - intros [d E]. assert (H := subst_sound d x ps). rewrite E in H. destruct b; exact H.
  Qed.
  Lemma subst_unique d d' x ps a b : subst d x ps = a -> subst d' x ps = b -> a <> Deeper -> b <> Deeper -> a = b.
  Proof.
    intros <- <- H H'. assert (E := subst_mono d (d + d') x ps ltac:(lia) H). assert (E' := subst_mono d' (d + d') x ps ltac:(lia) H'). congruence.
  Qed.

  Lemma all_types d Ts ps : all_named (fun x => subst (S d) x ps) (map XType Ts) = Named Ts.
  Proof. induction Ts as [|t Ts IH]; [reflexivity|]. cbn [map all_named]. cbn [DetectModel.subst bindA] in *. rewrite IH. reflexivity. Qed.
  Lemma subst_rename A Z Ts d : alias_sig A = mk_sig 0 true -> alias_body A = XUse Z [] (Some 0) ->
    subst (S (S (S d))) (template_id (Alias A) Ts) [] = subst (S (S d)) (template_id Z Ts) [].
  Proof.
    intros Hs Hb. rewrite (subst_level (S (S d))), (subst_level (S d) (template_id Z Ts)). unfold template_id, level.
    rewrite !all_types. cbn [bindA]. rewrite Hs, Hb, app_nil_r. reflexivity.
  Qed.

  (** * Plain bodies *)
  Scheme plain_mut := Minimality for DetectSpec.plain Sort Prop
  with plains_mut := Minimality for DetectSpec.plains Sort Prop.
  Definition decided (x : texpr) : Prop := forall ps, exists d, (exists t, subst d x ps = Named t) \/ subst d x ps = Failed.
  Definition decided_all (xs : list texpr) : Prop := forall ps, exists d, (exists ts, all_named (fun x => subst d x ps) xs = Named ts) \/ all_named (fun x => subst d x ps) xs = Failed.
  Lemma plain_decided : (forall A, plain A (alias_body A)) -> forall A x, plain A x -> decided x.
  Proof.
    intro PB. induction A as [A IHA] using (well_founded_induction lt_wf).
    apply (plain_mut A decided decided_all).
    - intros i ps. exists 1. cbn. destruct (nth_error ps i); eauto.
    - intros t ps. exists 1. cbn. eauto.
    - intros x _ H ps. destruct (H ps) as [d E]. exists (S d). cbn. destruct E as [[t ->] | ->]; cbn; eauto.
    - intros x _ H ps. destruct (H ps) as [d E]. exists (S d). cbn. destruct E as [[t ->] | ->]; cbn; eauto. destruct t as [|n|[]|t|t|C args]; cbn; eauto.
    - intros x _ H ps. destruct (H ps) as [d E]. exists (S d). cbn. destruct E as [[t ->] | ->]; cbn; eauto. destruct t; cbn; eauto.
    - intros C xs pack _ H ps. destruct (H ps) as [d E]. exists (S d). cbn. destruct E as [[ts ->] | ->]; cbn; eauto. destruct (accepts _ _); eauto.
    - intros B xs pack _ H L ps. destruct (H ps) as [d E]. destruct E as [[ts E]|E].
      + destruct (IHA B L (alias_body B) (PB B) (ts ++ pack_args pack ps)) as [d1 E1].
        exists (S (d + d1)). cbn. assert (M := all_named_mono (fun x => subst d x ps) (fun x => subst (d + d1) x ps) xs ltac:(intro; apply subst_mono; lia)).
        unfold settled in M. rewrite E in M. rewrite M by discriminate. cbn. fold (pack_args pack ps).
        destruct (accepts _ _); [|eauto]. assert (M1 := subst_mono d1 (d + d1) (alias_body B) (ts ++ pack_args pack ps) ltac:(lia)). unfold settled in M1.
        destruct E1 as [[t E1]|E1]; rewrite E1 in M1; rewrite M1 by discriminate; eauto.
      + exists (S d). cbn. rewrite E. cbn. eauto.
    - intro ps. exists 0. cbn. eauto.
    - intros x xs _ H _ H1 ps. destruct (H ps) as [d E], (H1 ps) as [d1 E1]. exists (d + d1). cbn.
      assert (M := subst_mono d (d + d1) x ps ltac:(lia)). unfold settled in M.
      assert (M1 := all_named_mono (fun x => subst d1 x ps) (fun x => subst (d + d1) x ps) xs ltac:(intro; apply subst_mono; lia)). unfold settled in M1.
      destruct E as [[t E]|E]; rewrite E in M; rewrite M by discriminate; cbn; eauto.
      destruct E1 as [[ts E1]|E1]; rewrite E1 in M1; rewrite M1 by discriminate; cbn; eauto.
  Qed.
End Program.
