(** Properties of the detection traits: C88 and C89. *)

From Coq Require Import Arith Bool Lia List.
From Verif Require Import Base DetectModel DetectSpec DetectProofs.
Import ListNotations.

(** * C88: can_instantiate<> *)
Section Program.
  Variable class_sig : nat -> signature.
  Variable define : nat -> list ty -> class_def.
  Variable alias_sig : nat -> signature.
  Variable alias_body : nat -> texpr.
  Local Notation can_instantiate := (can_instantiate class_sig define alias_sig alias_body).
  Local Notation names := (names class_sig define alias_sig alias_body).
  Local Notation faulty := (faulty class_sig define alias_sig alias_body).

  (** can_instantiate<Z, Ts...> is true if and only if Z<Ts...> names a type, false if and only if the first error in it is in the
      immediate context, and an error if and only if that error is in a class that has to be instantiated. *)
  Theorem C88_true : forall Z Ts, (exists depth, can_instantiate depth Z Ts = Ok true) <-> exists t, names (template_id Z Ts) [] t.
  Proof.
    intros Z Ts. unfold DetectModel.can_instantiate, can_instantiate_. fold (template_id Z Ts). split.
    - intros [d H]. destruct (subst class_sig define alias_sig alias_body d (template_id Z Ts) []) as [t| | |] eqn:E; try discriminate. exists t. apply names_iff. exists d. exact E.
    - intros [t H]. apply names_iff in H. destruct H as [d E]. exists d. rewrite E. reflexivity.
  Qed.
  Theorem C88_false : forall Z Ts, (exists depth, can_instantiate depth Z Ts = Ok false) <-> faulty true (template_id Z Ts) [].
  Proof.
    intros Z Ts. unfold DetectModel.can_instantiate, can_instantiate_. fold (template_id Z Ts). split.
    - intros [d H]. destruct (subst class_sig define alias_sig alias_body d (template_id Z Ts) []) as [t| | |] eqn:E; try discriminate. apply faulty_iff. exists d. exact E.
    - intros H. apply faulty_iff in H. destruct H as [d E]. exists d. rewrite E. reflexivity.
  Qed.
  Theorem C88_rejected : forall Z Ts, (exists depth, can_instantiate depth Z Ts = IllFormed) <-> faulty false (template_id Z Ts) [].
  Proof.
    intros Z Ts. unfold DetectModel.can_instantiate, can_instantiate_. fold (template_id Z Ts). split.
    - intros [d H]. destruct (subst class_sig define alias_sig alias_body d (template_id Z Ts) []) as [t| | |] eqn:E; try discriminate. apply faulty_iff. exists d. exact E.
    - intros H. apply faulty_iff in H. destruct H as [d E]. exists d. rewrite E. reflexivity.
  Qed.
  (** The instantiation depth does not matter, unless it is exceeded; hence the three cases exclude one another. *)
  Theorem C88_depth : forall d d' Z Ts r r', can_instantiate d Z Ts = r -> can_instantiate d' Z Ts = r' -> r <> OutOfFuel -> r' <> OutOfFuel -> r = r'.
  Proof.
    intros d d' Z Ts r r' <- <-. unfold DetectModel.can_instantiate, can_instantiate_. intros H H'.
    rewrite (subst_unique class_sig define alias_sig alias_body d d' (XUse Z (map XType Ts) None) [] _ _ eq_refl eq_refl); [reflexivity| |].
    - intro E. rewrite E in H. apply H. reflexivity.
    - intro E. rewrite E in H'. apply H'. reflexivity.
  Qed.

  (** Naming the specialisation of a class template does not instantiate it: only the number of arguments matters, whether the
      class can be used or not. *)
  Theorem C88_class_template_partial : forall C Ts, exists b, (exists depth, can_instantiate depth (Class C) Ts = Ok b) /\ (b = true <-> fits (class_sig C) (length Ts)).
  Proof.
    intros C Ts. exists (accepts (class_sig C) (length Ts)). split; [|apply accepts_fits].
    exists 2. unfold DetectModel.can_instantiate, can_instantiate_. cbn.
    assert (E : all_named (fun x : texpr => subst class_sig define alias_sig alias_body 1 x []) (map XType Ts) = Named Ts).
    { clear. induction Ts as [|t Ts IH]; [reflexivity|]. cbn [map all_named]. cbn [bindA]. rewrite IH. reflexivity. }
    cbn in E. rewrite E. cbn. rewrite app_nil_r. destruct (accepts _ _); reflexivity.
  Qed.

  (** An alias template that detects a member type: for any class that is defined without errors, the answer is whether there is
      such a member; for other types and incomplete classes it is false. *)
  Theorem C88_member : forall A m T, alias_sig A = mk_sig 1 false -> alias_body A = XMember (XParam 0) m ->
    (forall C args ms ts, class_type T C args -> define C args = Members ms ->
       names_all class_sig define alias_sig alias_body (map snd ms) args ts ->
       exists b, (exists depth, can_instantiate depth (Alias A) [T] = Ok b) /\ (b = true <-> In m (map fst ms))) /\
    (forall C args, class_type T C args -> define C args = Incomplete -> exists depth, can_instantiate depth (Alias A) [T] = Ok false) /\
    ((forall C args, ~ class_type T C args) -> exists depth, can_instantiate depth (Alias A) [T] = Ok false).
  Proof.
    intros A m T S B.
    assert (Na : names_all class_sig define alias_sig alias_body (map XType [T]) [] [T]) by (repeat constructor).
    assert (Fi : fits (alias_sig A) (length ([T] ++ pack_args None []))) by (left; rewrite S; reflexivity).
    assert (N0 : names (XParam 0) ([T] ++ pack_args None []) T) by (constructor; reflexivity).
    split; [|split].
    - intros C args ms ts Ct D Ms. destruct (in_dec Nat.eq_dec m (map fst ms)) as [I|NI].
      + exists true. split; [|tauto]. apply C88_true.
        assert (L : length ts = length ms).
        { clear - Ms. remember (map snd ms) as xs. assert (length ms = length xs) by (subst; rewrite map_length; reflexivity). rewrite H. clear Heqxs H.
          induction Ms; cbn; congruence. }
        assert (exists i e, nth_error ms i = Some e /\ fst e = m /\ forall j e', j < i -> nth_error ms j = Some e' -> fst e' <> m).
        { clear - I. induction ms as [|e ms IH]; [destruct I|]. destruct (Nat.eq_dec (fst e) m) as [E|NE].
          - exists 0, e. repeat split; auto. intros; lia.
          - destruct I as [I|I]; [contradiction|]. destruct (IH I) as [i [e' [H1 [H2 H3]]]]. exists (S i), e'. repeat split; auto.
            intros [|j] e'' Lj Ej; cbn in Ej; [injection Ej as <-; exact NE|]. apply (H3 j); [lia|exact Ej]. }
        destruct H as [i [e [H1 [H2 H3]]]]. destruct (nth_error ts i) as [t|] eqn:Et.
        2: { apply nth_error_None in Et. assert (i < length ms) by (apply nth_error_Some; congruence). lia. }
        exists t. eapply n_alias; [exact Na|exact Fi|]. rewrite B. eapply n_member; try eassumption. exists i, e. auto.
      + exists false. split; [|split; [discriminate|contradiction]]. apply C88_false. eapply f_alias; [exact Na|exact Fi|]. rewrite B. eapply f_no_member; eassumption.
    - intros C args Ct D. apply C88_false. eapply f_alias; [exact Na|exact Fi|]. rewrite B. eapply f_incomplete; eassumption.
    - intro NC. apply C88_false. eapply f_alias; [exact Na|exact Fi|]. rewrite B. eapply f_no_class; eassumption.
  Qed.

  (** Giving a template another name with an alias template does not change the answer. *)
  Theorem C88_alias : forall A Z Ts r, alias_sig A = mk_sig 0 true -> alias_body A = XUse Z [] (Some 0) -> r <> OutOfFuel ->
    ((exists depth, can_instantiate depth (Alias A) Ts = r) <-> (exists depth, can_instantiate depth Z Ts = r)).
  Proof.
    intros A Z Ts r Hs Hb Hr. unfold DetectModel.can_instantiate, can_instantiate_. fold (template_id (Alias A) Ts). fold (template_id Z Ts).
    set (k := fun a => match a with Named t => Ok (ty_is_void Void && ty_is_void (void_t t)) | Failed => Ok false | Broken => IllFormed | Deeper => OutOfFuel end).
    change ((exists depth, k (subst class_sig define alias_sig alias_body depth (template_id (Alias A) Ts) []) = r) <->
            (exists depth, k (subst class_sig define alias_sig alias_body depth (template_id Z Ts) []) = r)).
    assert (ND : forall a, k a = r -> a <> Deeper) by (intros a H ->; cbn in H; congruence).
    split; intros [d H].
    - exists (S (S d)). rewrite <- (subst_rename class_sig define alias_sig alias_body A Z Ts d Hs Hb).
      rewrite (subst_mono class_sig define alias_sig alias_body d (S (S (S d))) _ _ ltac:(lia) (ND _ H)). exact H.
    - exists (S (S (S d))). rewrite (subst_rename class_sig define alias_sig alias_body A Z Ts d Hs Hb).
      rewrite (subst_mono class_sig define alias_sig alias_body d (S (S d)) _ _ ltac:(lia) (ND _ H)). exact H.
  Qed.

  (** If the bodies of alias templates use no members, can_instantiate<> always answers. *)
  Theorem C88_answers_partial : (forall A, plain A (alias_body A)) -> forall Z Ts, exists depth b, can_instantiate depth Z Ts = Ok b.
  Proof.
    intros P Z Ts. set (A := match Z with Class _ => 0 | Alias A => S A end).
    assert (Pl : plain A (template_id Z Ts)).
    { unfold template_id. assert (plains A (map XType Ts)) by (induction Ts; constructor; [constructor|assumption]).
      destruct Z as [C|B]; [apply p_class; assumption|apply p_alias; [assumption|apply Nat.lt_succ_diag_r]]. }
    destruct (plain_decided class_sig define alias_sig alias_body P A _ Pl []) as [d E]. exists d.
    unfold DetectModel.can_instantiate, can_instantiate_. fold (template_id Z Ts). destruct E as [[t ->] | ->]; [exists true|exists false]; reflexivity.
  Qed.

  (** * C89: is_instantiation_of<> *)
  Variable renames : nat -> option nat.
  Local Notation is_instantiation_of := (is_instantiation_of renames).

  (** For class templates: exactly the specialisations, without qualification.  [T] is a type of the program: the number of
      arguments of each specialisation fits. *)
  Theorem C89_class_template : forall T C, (forall C' args, T = Spec C' args -> fits (class_sig C') (length args)) ->
    (is_instantiation_of T (Class C) = true <-> exists Ts, names (template_id (Class C) Ts) [] T).
  Proof.
    intros T C W. split.
    - destruct T as [| | | | |C' args]; try discriminate. cbn. intro H. apply Nat.eqb_eq in H. subst C'. exists args.
      rewrite <- (app_nil_r args) at 2. apply (n_class class_sig define alias_sig alias_body C (map XType args) None [] args); [|cbn; rewrite app_nil_r; apply W; reflexivity].
      clear W. induction args; constructor; [constructor|assumption].
    - intros [Ts H]. inversion H; subst. cbn. apply Nat.eqb_refl.
  Qed.
  (** The template and the arguments are determined by the type; so it is an instantiation of at most one class template. *)
  Theorem C89_unique : forall T C C', is_instantiation_of T (Class C) = true -> is_instantiation_of T (Class C') = true -> C = C'.
  Proof. intros [| | | | |D args] C C'; try discriminate. cbn. intros H H'. apply Nat.eqb_eq in H, H'. congruence. Qed.
  (** Not for const-qualified types, references and pointers. *)
  Theorem C89_qualified : forall T U, is_instantiation_of (Const T) U = false /\ is_instantiation_of (Ref T) U = false /\ is_instantiation_of (Ptr T) U = false.
  Proof. repeat split. Qed.
  (** An alias template is either taken for a class template that it renames, or no type is an instantiation of it. *)
  Theorem C89_alias : forall A,
    (forall C, renames A = Some C -> forall T, is_instantiation_of T (Alias A) = is_instantiation_of T (Class C)) /\
    (renames A = None -> forall T, is_instantiation_of T (Alias A) = false).
  Proof.
    intro A. split.
    - intros C E T. destruct T; try reflexivity. cbn. rewrite E. reflexivity.
    - intros E T. destruct T; try reflexivity. cbn. rewrite E. reflexivity.
  Qed.
  (** The concept agrees with the trait. *)
  Theorem C89_concept : forall T U, instantiation_of renames T U = is_instantiation_of T U.
  Proof. reflexivity. Qed.
End Program.
Print Assumptions C88_true.
Print Assumptions C88_false.
Print Assumptions C88_rejected.
Print Assumptions C88_depth.
Print Assumptions C88_class_template_partial.
Print Assumptions C88_member.
Print Assumptions C88_alias.
Print Assumptions C88_answers_partial.
Print Assumptions C89_class_template.
Print Assumptions C89_unique.
Print Assumptions C89_qualified.
Print Assumptions C89_alias.
Print Assumptions C89_concept.

(** A program: class template 0 is box<T> with the member type 7 = T&; 1 is only declared, 2 has ambiguous specialisations;
    3 has the member type 7 = typename T::type(8).  Alias template 0 is typename T::type(7); 1 is box<T>; 2 is T&*;
    3 is pair-like<T, T> of class template 4. *)
Definition ex_sig (n : nat) : signature := match n with 4 => mk_sig 2 false | 5 => mk_sig 0 true | _ => mk_sig 1 false end.
Definition ex_define (C : nat) (args : list ty) : class_def :=
  match C with
  | 0 => Members [(7, XRef (XParam 0))]
  | 1 => Incomplete
  | 2 => Ambiguous
  | 3 => Members [(7, XMember (XParam 0) 8)]
  | _ => Members []
  end.
Definition ex_alias_sig (n : nat) : signature := match n with 4 => mk_sig 0 true | _ => mk_sig 1 false end.
Definition ex_body (A : nat) : texpr :=
  match A with
  | 0 => XMember (XParam 0) 7
  | 1 => XUse (Class 0) [XParam 0] None
  | 2 => XPtr (XRef (XParam 0))
  | 3 => XUse (Class 4) [XParam 0; XParam 0] None
  | _ => XUse (Class 5) [] (Some 0)
  end.
Local Notation ex_can := (can_instantiate ex_sig ex_define ex_alias_sig ex_body 9).
Definition box_int : ty := Spec 0 [Basic 0].
Example C88_example :
  ex_can (Alias 0) [box_int] = Ok true /\ ex_can (Alias 0) [Const box_int] = Ok true /\ ex_can (Alias 0) [Ref box_int] = Ok false /\
  ex_can (Alias 0) [Spec 1 [Basic 0]] = Ok false /\ ex_can (Alias 0) [Spec 2 [Basic 0]] = IllFormed /\ ex_can (Alias 0) [Spec 0 [Void]] = IllFormed /\
  ex_can (Alias 0) [Spec 3 [box_int]] = IllFormed /\ ex_can (Alias 0) [Basic 0] = Ok false /\ ex_can (Alias 0) [] = Ok false /\
  ex_can (Class 0) [Void] = Ok true /\ ex_can (Class 0) [Basic 0; Basic 1] = Ok false /\
  ex_can (Alias 1) [Void] = Ok true /\ ex_can (Alias 2) [Basic 0] = Ok false /\ ex_can (Alias 4) [] = Ok true /\ ex_can (Alias 4) [Void; Void] = Ok true.
Proof. repeat split. Qed.
(** The hypotheses of C88_member, C88_alias, C88_answers_partial and C89_class_template can be met. *)
Example C88_member_example : ex_alias_sig 0 = mk_sig 1 false /\ ex_body 0 = XMember (XParam 0) 7 /\ class_type box_int 0 [Basic 0] /\
  ex_define 0 [Basic 0] = Members [(7, XRef (XParam 0))] /\ names_all ex_sig ex_define ex_alias_sig ex_body (map snd [(7, XRef (XParam 0))]) [Basic 0] [Ref (Basic 0)] /\
  ex_alias_sig 4 = mk_sig 0 true /\ ex_body 4 = XUse (Class 5) [] (Some 0) /\
  (forall A, plain A (match A with 0 => XPtr (XRef (XParam 0)) | S B => XUse (Alias B) [XParam 0] None end)) /\
  fits (ex_sig 0) (length [Basic 0]) /\ is_instantiation_of (fun _ => None) box_int (Class 0) = true.
Proof.
  split; [reflexivity|]. split; [reflexivity|]. split; [constructor|]. split; [reflexivity|]. split.
  { apply na_cons; [|constructor]. apply n_ref; [constructor; reflexivity|discriminate|discriminate|discriminate]. }
  split; [reflexivity|]. split; [reflexivity|]. split.
  { intros [|B]; [repeat constructor|]. apply p_alias; [|lia]. apply ps_cons; constructor. }
  split; [left; reflexivity|reflexivity].
Qed.

(** The claim that the answer is always true or false does not hold: errors in classes that are instantiated on the way are errors. *)
Theorem C88_hard_error_refuted : exists class_sig define alias_sig alias_body Z Ts,
  forall depth, can_instantiate class_sig define alias_sig alias_body depth Z Ts = IllFormed \/ can_instantiate class_sig define alias_sig alias_body depth Z Ts = OutOfFuel.
Proof.
  exists ex_sig, ex_define, ex_alias_sig, ex_body, (Alias 0), [Spec 0 [Void]]. intros [|[|[|[|[|d]]]]]; vm_compute; auto.
Qed.
Print Assumptions C88_hard_error_refuted.
(** That can_instantiate<Z, Ts...> is true does not mean that Z<Ts...> can be instantiated. *)
Theorem C88_class_template_refuted : exists class_sig define alias_sig alias_body C Ts t m,
  names class_sig define alias_sig alias_body (template_id (Class C) Ts) [] t /\
  can_instantiate class_sig define alias_sig alias_body 2 (Class C) Ts = Ok true /\
  faulty class_sig define alias_sig alias_body false (XMember (XType t) m) [].
Proof.
  exists ex_sig, ex_define, ex_alias_sig, ex_body, 0, [Void], (Spec 0 [Void]), 7. split; [|split].
  - apply names_iff. exists 5. reflexivity.
  - reflexivity.
  - apply faulty_iff. exists 9. reflexivity.
Qed.
Print Assumptions C88_class_template_refuted.
(** No type is an instantiation of an alias template that does more than rename, although it names types. *)
Theorem C89_alias_not_detected : exists class_sig define alias_sig alias_body (renames : nat -> option nat) A Ts T,
  (forall B C, renames B = Some C -> alias_body B = XUse (Class C) [] (Some 0)) /\
  names class_sig define alias_sig alias_body (template_id (Alias A) Ts) [] T /\ is_instantiation_of renames T (Alias A) = false.
Proof.
  exists ex_sig, ex_define, ex_alias_sig, ex_body, (fun B => if Nat.eqb B 4 then Some 5 else None), 3, [Basic 0], (Spec 4 [Basic 0; Basic 0]). split; [|split].
  - intros B C. destruct (Nat.eqb_spec B 4) as [->|]; [|discriminate]. intro H. injection H as <-. reflexivity.
  - apply names_iff. exists 9. reflexivity.
  - reflexivity.
Qed.
Print Assumptions C89_alias_not_detected.
