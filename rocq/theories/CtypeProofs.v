(** Proofs about the identity of constval types. *)

From Coq Require Import ZArith Arith Bool List Lia.
From Verif Require Import Base ExpandModel CtypeModel CtypeSpec.
Import ListNotations.

(** * Induction *)
Section CvalInd.
  Variable P : cval -> Prop.
  Hypothesis HN : forall k z, P (VN k z).
  Hypothesis HA : forall t l, Forall P l -> P (VA t l).
  Hypothesis HT : forall l, Forall P l -> P (VT l).
  Hypothesis HL : forall k z l, Forall P l -> P (VL k z l).
  Hypothesis HO : forall k z, P (VO k z).
  Fixpoint cval_ind' (v : cval) : P v :=
    let all := fix all (l : list cval) : Forall P l :=
      match l with [] => Forall_nil P | x :: r => Forall_cons x (cval_ind' x) (all r) end in
    match v with
    | VN k z => HN k z
    | VA t l => HA t l (all l)
    | VT l => HT l (all l)
    | VL k z l => HL k z l (all l)
    | VO k z => HO k z
    end.
End CvalInd.

Section TyInd.
  Variable P : ty -> Prop.
  Hypothesis HN : forall k, P (TyN k).
  Hypothesis HA : forall t n, P t -> P (TyA t n).
  Hypothesis HT : forall l, Forall P l -> P (TyT l).
  Hypothesis HL : forall k, P (TyL k).
  Hypothesis HO : forall k, P (TyO k).
  Fixpoint ty_ind' (t : ty) : P t :=
    let all := fix all (l : list ty) : Forall P l :=
      match l with [] => Forall_nil P | x :: r => Forall_cons x (ty_ind' x) (all r) end in
    match t with
    | TyN k => HN k
    | TyA t n => HA t n (ty_ind' t)
    | TyT l => HT l (all l)
    | TyL k => HL k
    | TyO k => HO k
    end.
End TyInd.

Section CtypeInd.
  Variable P : ctype -> Prop.
  Variable Q : functor -> Prop.
  Variable R : object -> Prop.
  Hypothesis H1 : forall k z, P (CInt k z).
  Hypothesis H2 : forall k zs, P (CArrN k zs).
  Hypothesis H3 : forall t os, Forall R os -> P (CArrR t os).
  Hypothesis H4 : forall cs, Forall P cs -> P (CTup cs).
  Hypothesis H5 : forall F, Q F -> P (CConstval F).
  Hypothesis H6 : forall F, Q F -> P (CLike F).
  Hypothesis H7 : forall o, R o -> P (CRef o).
  Hypothesis F1 : forall n, Q (FUser n).
  Hypothesis F2 : forall i F, Q F -> Q (FTupAcc i F).
  Hypothesis F3 : forall i F, Q F -> Q (FArrAcc i F).
  Hypothesis F4 : forall c, P c -> Q (FConst c).
  Hypothesis O1 : forall n, R (OUser n).
  Hypothesis O2 : forall c, P c -> R (OValue c).
  Fixpoint ctype_ind' (c : ctype) : P c :=
    match c with
    | CInt k z => H1 k z
    | CArrN k zs => H2 k zs
    | CArrR t os => H3 t os ((fix all (l : list object) : Forall R l :=
        match l with [] => Forall_nil R | x :: r => Forall_cons x (object_ind' x) (all r) end) os)
    | CTup cs => H4 cs ((fix all (l : list ctype) : Forall P l :=
        match l with [] => Forall_nil P | x :: r => Forall_cons x (ctype_ind' x) (all r) end) cs)
    | CConstval F => H5 F (functor_ind' F)
    | CLike F => H6 F (functor_ind' F)
    | CRef o => H7 o (object_ind' o)
    end
  with functor_ind' (F : functor) : Q F :=
    match F with
    | FUser n => F1 n
    | FTupAcc i F => F2 i F (functor_ind' F)
    | FArrAcc i F => F3 i F (functor_ind' F)
    | FConst c => F4 c (ctype_ind' c)
    end
  with object_ind' (o : object) : R o :=
    match o with OUser n => O1 n | OValue c => O2 c (ctype_ind' c) end.
  Lemma ctype_all : (forall c, P c) /\ (forall F, Q F) /\ (forall o, R o).
  Proof. split; [exact ctype_ind'|]. split; [exact functor_ind'|exact object_ind']. Qed.
End CtypeInd.

(** * Equality *)
Lemma list_eqb_ok : forall A (eqb : A -> A -> bool) l,
  Forall (fun a => forall b, eqb a b = true <-> a = b) l -> forall l', list_eqb eqb l l' = true <-> l = l'.
Proof.
  induction l as [|x r IH]; intros F [|y r']; cbn; try (split; intro; (reflexivity || discriminate)).
  inversion_clear F. rewrite andb_true_iff, H, IH by assumption. split; [intros [-> ->]; reflexivity|intro E; injection E; auto].
Qed.

Lemma ty_eqb_tup : forall l l', ty_eqb (TyT l) (TyT l') = list_eqb ty_eqb l l'.
Proof. induction l as [|x r IH]; intros [|y r']; cbn; try reflexivity; f_equal; apply IH. Qed.

Lemma ty_eqb_ok : forall a b, ty_eqb a b = true <-> a = b.
Proof.
  induction a using ty_ind'; intros []; try (cbn; split; intro; discriminate).
  - cbn. rewrite Nat.eqb_eq. split; congruence.
  - cbn. rewrite andb_true_iff, IHa, Nat.eqb_eq. split; [intros [-> ->]|intro E; injection E]; auto.
  - rewrite ty_eqb_tup, (list_eqb_ok _ _ _ H). split; congruence.
  - cbn. rewrite Nat.eqb_eq. split; congruence.
  - cbn. rewrite Nat.eqb_eq. split; congruence.
Qed.

Lemma ctype_eqb_arr : forall t os t' os', ctype_eqb (CArrR t os) (CArrR t' os') = ty_eqb t t' && list_eqb object_eqb os os'.
Proof. intros t os t' os'. cbn. f_equal. revert os'. induction os as [|x r IH]; intros [|y r']; cbn; try reflexivity. f_equal. apply IH. Qed.
Lemma ctype_eqb_tup : forall l l', ctype_eqb (CTup l) (CTup l') = list_eqb ctype_eqb l l'.
Proof. induction l as [|x r IH]; intros [|y r']; cbn; try reflexivity; f_equal; apply IH. Qed.

Lemma eqb_all : (forall a b, ctype_eqb a b = true <-> a = b) /\ (forall a b, functor_eqb a b = true <-> a = b) /\ (forall a b, object_eqb a b = true <-> a = b).
Proof.
  apply ctype_all.
  - intros k z []; try (cbn; split; intro; discriminate). cbn. rewrite andb_true_iff, Nat.eqb_eq, Z.eqb_eq. split; [intros [-> ->]|intro E; injection E]; auto.
  - intros k zs []; try (cbn; split; intro; discriminate). cbn. rewrite andb_true_iff, Nat.eqb_eq, (list_eqb_ok _ Z.eqb).
    + split; [intros [-> ->]|intro E; injection E]; auto.
    + apply Forall_forall. intros x _ b. apply Z.eqb_eq.
  - intros t os H []; try (cbn; split; intro; discriminate). rewrite ctype_eqb_arr, andb_true_iff, ty_eqb_ok, (list_eqb_ok _ _ _ H).
    split; [intros [-> ->]|intro E; injection E]; auto.
  - intros cs H []; try (cbn; split; intro; discriminate). rewrite ctype_eqb_tup, (list_eqb_ok _ _ _ H). split; congruence.
  - intros F H []; try (cbn; split; intro; discriminate). cbn. rewrite H. split; congruence.
  - intros F H []; try (cbn; split; intro; discriminate). cbn. rewrite H. split; congruence.
  - intros o H []; try (cbn; split; intro; discriminate). cbn. rewrite H. split; congruence.
  - intros n []; try (cbn; split; intro; discriminate). cbn. rewrite Nat.eqb_eq. split; congruence.
  - intros i F H []; try (cbn; split; intro; discriminate). cbn. rewrite andb_true_iff, Nat.eqb_eq, H. split; [intros [-> ->]|intro E; injection E]; auto.
  - intros i F H []; try (cbn; split; intro; discriminate). cbn. rewrite andb_true_iff, Nat.eqb_eq, H. split; [intros [-> ->]|intro E; injection E]; auto.
  - intros c H []; try (cbn; split; intro; discriminate). cbn. rewrite H. split; congruence.
  - intros n []; try (cbn; split; intro; discriminate). cbn. rewrite Nat.eqb_eq. split; congruence.
  - intros c H []; try (cbn; split; intro; discriminate). cbn. rewrite H. split; congruence.
Qed.
Definition ctype_eqb_ok : forall a b, ctype_eqb a b = true <-> a = b := proj1 eqb_all.

Lemma all_differ_ok : forall l, all_differ l = true <-> NoDup l.
Proof.
  induction l as [|c r IH]; cbn; [split; auto using NoDup_nil|].
  rewrite andb_true_iff, negb_true_iff, IH, NoDup_cons_iff, <- not_true_iff_false, existsb_exists.
  assert (E : (exists x, In x r /\ ctype_eqb c x = true) <-> In c r).
  { split; [intros [x [Hx E]]; apply ctype_eqb_ok in E; subst; exact Hx|intro H; exists c; split; [exact H|apply ctype_eqb_ok; reflexivity]]. }
  rewrite E. reflexivity.
Qed.

(** * Normalisation *)
Lemma make_arr : forall t l C, (forall k, t <> TyN k) ->
  make_constval_1 (VA t l) C = CArrR t (map_index (fun i x => OValue (make_constval_1 x (FArrAcc i C))) 0 l).
Proof.
  intros t l C Ht. destruct t as [k| | | |]; [destruct (Ht k eq_refl)| | | |]; cbn; f_equal;
    generalize 0; induction l as [|x r IH]; intros i; cbn; try reflexivity; f_equal; apply IH.
Qed.
Lemma make_tup : forall l C, make_constval_1 (VT l) C = CTup (map_index (fun i x => make_constval_1 x (FTupAcc i C)) 0 l).
Proof. intros l C. cbn. f_equal. generalize 0. induction l as [|x r IH]; intros i; cbn; try reflexivity. f_equal. apply IH. Qed.

Lemma map_index_nth : forall A B (f : nat -> A -> B) l i k, nth_error (map_index f i l) k = match nth_error l k with Some x => Some (f (i + k) x) | None => None end.
Proof.
  induction l as [|x r IH]; intros i k; [destruct k; reflexivity|].
  destruct k as [|k]; cbn; [rewrite Nat.add_0_r; reflexivity|]. rewrite IH. replace (S i + k) with (i + S k) by lia. reflexivity.
Qed.
Lemma map_index_length : forall A B (f : nat -> A -> B) l i, length (map_index f i l) = length l.
Proof. induction l as [|x r IH]; intro i; cbn; auto. Qed.

Lemma map_map_index : forall A B D (g : B -> D) (f : nat -> A -> B) l i, map g (map_index f i l) = map_index (fun i x => g (f i x)) i l.
Proof. induction l as [|x r IH]; intro i; cbn; f_equal; auto. Qed.
Lemma map_index_id : forall A (f : nat -> A -> A) l i, (forall k x, nth_error l k = Some x -> f (i + k) x = x) -> map_index f i l = l.
Proof.
  induction l as [|x r IH]; intros i H; cbn; [reflexivity|]. f_equal.
  - specialize (H 0 x eq_refl). rewrite Nat.add_0_r in H. exact H.
  - apply IH. intros k y E. specialize (H (S k) y E). replace (S i + k) with (i + S k) by lia. exact H.
Qed.

Lemma get_nth : forall v i x, nth_error (elements v) i = Some x -> get i v = x.
Proof. intros v i x H. unfold get. apply (nth_error_nth _ _ _ H). Qed.

Section Values.
  Variable ufun uobj : nat -> cval.
  Notation eval := (eval ufun uobj).
  Notation eval_functor := (eval_functor ufun uobj).
  Notation eval_object := (eval_object ufun uobj).

  Lemma int_elements : forall k l, (forall x, In x l -> well_typed x /\ type_of x = TyN k) -> map (VN k) (map int_of l) = l.
  Proof.
    intros k l H. rewrite map_map. rewrite <- (map_id l) at 2. apply map_ext_in. intros x Hx.
    destruct (H x Hx) as [_ E]. destruct x; try discriminate. cbn in *. congruence.
  Qed.

  (** Normalisation keeps the value. *)
  Lemma make_eval : forall v C, well_typed v -> eval_functor C = v -> eval (make_constval_1 v C) = v.
  Proof.
    induction v using cval_ind'; intros C W E; inversion W as [|? ? HW|? HW| |]; subst.
    - reflexivity.
    - rewrite Forall_forall in H. assert (D : (exists k, t = TyN k) \/ forall k, t <> TyN k) by (destruct t; eauto; right; discriminate).
      destruct D as [[k ->]|D].
      + cbn. rewrite int_elements by assumption. reflexivity.
      + rewrite make_arr by exact D. cbn. rewrite map_map_index. cbn. f_equal. apply map_index_id. intros k x Hx.
        apply H; [exact (nth_error_In _ _ Hx)|apply HW; exact (nth_error_In _ _ Hx)|]. cbn. rewrite E. apply get_nth. exact Hx.
    - rewrite Forall_forall in H. rewrite make_tup. cbn. rewrite map_map_index. f_equal. apply map_index_id. intros k x Hx.
      apply H; [exact (nth_error_In _ _ Hx)|apply HW; exact (nth_error_In _ _ Hx)|]. cbn. rewrite E. apply get_nth. exact Hx.
    - cbn. exact E.
    - cbn. destruct C as [| | |[]]; exact E.
  Qed.

  (** Structural values: the type does not depend on the functor. *)
  Lemma map_index_ext : forall A B (f g : nat -> A -> B) l i, (forall k x, nth_error l k = Some x -> f (i + k) x = g (i + k) x) -> map_index f i l = map_index g i l.
  Proof.
    induction l as [|x r IH]; intros i H; cbn; [reflexivity|]. f_equal.
    - specialize (H 0 x eq_refl). rewrite Nat.add_0_r in H. exact H.
    - apply IH. intros k y E. specialize (H (S k) y E). replace (S i + k) with (i + S k) by lia. exact H.
  Qed.
  Lemma structural_any : forall v C C', structural v -> make_constval_1 v C = make_constval_1 v C'.
  Proof.
    induction v using cval_ind'; intros C C' S; inversion S as [|? ? HS|? HS]; subst.
    - reflexivity.
    - rewrite Forall_forall in H. assert (D : (exists k, t = TyN k) \/ forall k, t <> TyN k) by (destruct t; eauto; right; discriminate).
      destruct D as [[k ->]|D]; [reflexivity|]. rewrite !make_arr by exact D. f_equal. apply map_index_ext. intros k x Hx. f_equal.
      apply H; [|apply HS]; exact (nth_error_In _ _ Hx).
    - rewrite Forall_forall in H. rewrite !make_tup. f_equal. apply map_index_ext. intros k x Hx.
      apply H; [|apply HS]; exact (nth_error_In _ _ Hx).
  Qed.

  (** All other values: the type names the functor. *)
  Lemma not_structural_functor : forall v C C', well_typed v -> ~ structural v -> make_constval_1 v C = make_constval_1 v C' -> C = C'.
  Proof.
    assert (Ex : forall l, Forall (fun v => forall C C', well_typed v -> ~ structural v -> make_constval_1 v C = make_constval_1 v C' -> C = C') l ->
      (forall x, In x l -> structural x) \/ exists k x, nth_error l k = Some x /\ (well_typed x -> forall C C', make_constval_1 x C = make_constval_1 x C' -> C = C')).
    { assert (dec : forall v, structural v \/ ~ structural v).
      { induction v using cval_ind'; try (right; intro S; inversion S; fail); [left; constructor| |];
          (assert (G : (forall x, In x l -> structural x) \/ ~ (forall x, In x l -> structural x));
           [induction H as [|x r [Hx|Hx] _ [IH|IH]]; [left; intros x []|left; intros y [<-|Hy]; auto|right; intro A; apply IH; intros y Hy; apply A; right; exact Hy
             |right; intro A; apply Hx; apply A; left; reflexivity|right; intro A; apply Hx; apply A; left; reflexivity]
           |destruct G as [G|G]; [left; constructor; exact G|right; intro S; inversion S; subst; auto]]). }
      induction l as [|x r IH]; intro F; [left; intros x []|]. inversion F as [|? ? Hx Hr]; subst.
      destruct (dec x) as [S|S].
      - destruct (IH Hr) as [A|[k [y [E G]]]]; [left; intros y [<-|Hy]; auto|right; exists (Datatypes.S k), y; auto].
      - right. exists 0, x. split; [reflexivity|]. intros W C C'. apply Hx; assumption. }
    induction v using cval_ind'; intros C C' W S E.
    - destruct S. constructor.
    - inversion W as [|? ? HW|? HW| |]; subst. destruct (Ex l H) as [A|[k [x [Hx G]]]]; [destruct S; constructor; exact A|].
      assert (D : (exists k, t = TyN k) \/ forall k, t <> TyN k) by (destruct t; eauto; right; discriminate).
      destruct D as [[j ->]|D].
      + destruct S. constructor. intros y Hy. destruct (HW y Hy) as [_ Ty]. destruct y; try discriminate. constructor.
      + rewrite !make_arr in E by exact D. injection E as E.
        assert (E' := f_equal (fun l => nth_error l k) E). cbn in E'. rewrite !map_index_nth, Hx in E'. injection E' as E'.
        apply G in E'; [injection E'; auto|]. apply HW. exact (nth_error_In _ _ Hx).
    - inversion W as [|? ? HW|? HW| |]; subst. destruct (Ex l H) as [A|[k [x [Hx G]]]]; [destruct S; constructor; exact A|].
      rewrite !make_tup in E. injection E as E.
      assert (E' := f_equal (fun l => nth_error l k) E). cbn in E'. rewrite !map_index_nth, Hx in E'. injection E' as E'.
      apply G in E'; [injection E'; auto|]. apply HW. exact (nth_error_In _ _ Hx).
    - cbn in E. injection E. auto.
    - cbn in E. destruct C as [| | |[]], C' as [| | |[]]; congruence.
  Qed.

  Lemma structural_dec : forall v, structural v \/ ~ structural v.
  Proof.
    induction v using cval_ind'; try (right; intro S; inversion S; fail); [left; constructor| |];
      (assert (G : (forall x, In x l -> structural x) \/ ~ (forall x, In x l -> structural x));
       [induction H as [|x r [Hx|Hx] _ [IH|IH]]; [left; intros x []|left; intros y [<-|Hy]; auto|right; intro A; apply IH; intros y Hy; apply A; right; exact Hy
         |right; intro A; apply Hx; apply A; left; reflexivity|right; intro A; apply Hx; apply A; left; reflexivity]
       |destruct G as [G|G]; [left; constructor; exact G|right; intro S; inversion S; subst; auto]]).
  Qed.

  Lemma eval_OValue : forall c, eval_object (OValue c) = eval c.
  Proof. reflexivity. Qed.

  (** * Alternatives *)
  Lemma constant_ref_eval : forall o, well_typed (eval_object o) -> eval (constant_ref ufun uobj o) = eval_object o.
  Proof. intros o W. unfold constant_ref. apply make_eval; [exact W|reflexivity]. Qed.

  Lemma constant_ref_same : forall o o', well_typed (eval_object o) -> well_typed (eval_object o') ->
    (constant_ref ufun uobj o = constant_ref ufun uobj o' <-> o = o' \/ (structural (eval_object o) /\ eval_object o = eval_object o')).
  Proof.
    intros o o' W W'. split.
    - intro E. assert (V : eval_object o = eval_object o') by (rewrite <- (constant_ref_eval o W), <- (constant_ref_eval o' W'), E; reflexivity).
      destruct (structural_dec (eval_object o)) as [S|S]; [right; auto|left].
      unfold constant_ref in E. rewrite <- V in E. apply not_structural_functor in E; auto. congruence.
    - intros [->|[S E]]; [reflexivity|]. unfold constant_ref. rewrite <- E. apply structural_any. exact S.
  Qed.

  (** The elements of an array that is not an array of NTTPs. *)
  Lemma alternatives_arr : forall t l C, (forall k, t <> TyN k) ->
    alternatives ufun uobj (make_constval_1 (VA t l) C) = Some (map_index (fun i x => constant_ref ufun uobj (OValue (make_constval_1 x (FArrAcc i C)))) 0 l).
  Proof. intros t l C Ht. rewrite make_arr by exact Ht. cbn. rewrite map_map_index. reflexivity. Qed.

  Lemma NoDup_iff : forall A (l : list A), NoDup l <-> forall i j x, nth_error l i = Some x -> nth_error l j = Some x -> i = j.
  Proof.
    intros A l. rewrite NoDup_nth_error. split; intros H i j.
    - intros x Hi Hj. apply H; [apply nth_error_Some; congruence|congruence].
    - intros Hi E. destruct (nth_error l i) as [x|] eqn:Ei; [|apply nth_error_None in Ei; lia]. apply (H i j x); congruence.
  Qed.

  Lemma alternatives_differ : forall t l C alts, well_typed (VA t l) -> eval_functor C = VA t l ->
    alternatives ufun uobj (make_constval_1 (VA t l) C) = Some alts ->
    (NoDup alts <-> forall i j x, nth_error l i = Some x -> nth_error l j = Some x -> structural x -> i = j).
  Proof.
    intros t l C alts W E A. inversion W as [|? ? H1| | |]; subst.
    assert (D : (exists k, t = TyN k) \/ forall k, t <> TyN k) by (destruct t; eauto; right; discriminate).
    destruct D as [[k ->]|D].
    - cbn in A. injection A as <-. rewrite NoDup_iff. rewrite map_map. split; intros H i j.
      + intros x Hi Hj _. apply (H i j (CInt k (int_of x))); rewrite nth_error_map, ?Hi, ?Hj; reflexivity.
      + intros x Hi Hj. rewrite !nth_error_map in Hi, Hj. destruct (nth_error l i) as [y|] eqn:Ei; [|discriminate]. destruct (nth_error l j) as [z|] eqn:Ej; [|discriminate].
        cbn in Hi, Hj. assert (y = z).
        { destruct (H1 y (nth_error_In _ _ Ei)) as [_ Ty]. destruct (H1 z (nth_error_In _ _ Ej)) as [_ Tz]. destruct y, z; try discriminate. cbn in *. congruence. }
        subst z. apply (H i j y); auto. destruct (H1 y (nth_error_In _ _ Ei)) as [_ Ty]. destruct y; try discriminate. constructor.
    - rewrite alternatives_arr in A by exact D. injection A as <-. rewrite NoDup_iff.
      assert (V : forall i x, nth_error l i = Some x -> eval (make_constval_1 x (FArrAcc i C)) = x).
      { intros i x Hx. apply make_eval; [apply H1; exact (nth_error_In _ _ Hx)|]. cbn. rewrite E. apply get_nth. exact Hx. }
      assert (Wx : forall i x, nth_error l i = Some x -> well_typed x) by (intros i x Hx; apply H1; exact (nth_error_In _ _ Hx)).
      split; intros H i j.
      + intros x Hi Hj S. apply (H i j (constant_ref ufun uobj (OValue (make_constval_1 x (FArrAcc i C))))); rewrite map_index_nth, ?Hi, ?Hj; [reflexivity|].
        f_equal. apply constant_ref_same; rewrite ?eval_OValue, ?Nat.add_0_l, ?(V _ _ Hi), ?(V _ _ Hj); eauto.
      + intros c Hi Hj. rewrite map_index_nth in Hi, Hj. destruct (nth_error l i) as [y|] eqn:Ei; [|discriminate]. destruct (nth_error l j) as [z|] eqn:Ej; [|discriminate].
        injection Hi as Hi. injection Hj as Hj. rewrite <- Hj in Hi. rewrite ?Nat.add_0_l in Hi. apply constant_ref_same in Hi; rewrite ?eval_OValue, ?(V _ _ Ei), ?(V _ _ Ej); eauto.
        rewrite !eval_OValue, (V _ _ Ei), (V _ _ Ej) in Hi. destruct Hi as [Hi|[S Hi]].
        * assert (y = z) by (injection Hi as Hi; rewrite <- (V _ _ Ei), <- (V _ _ Ej), Hi; reflexivity). subst z.
          destruct (structural_dec y) as [S|S]; [apply (H i j y); auto|]. injection Hi as Hi. apply not_structural_functor in Hi; eauto. congruence.
        * subst z. apply (H i j y); auto.
  Qed.

  (** * Sizes: no type contains itself *)
  Fixpoint csize (c : ctype) : nat :=
    match c with
    | CInt _ _ | CArrN _ _ => 1
    | CArrR _ os => S (list_sum (map osize os))
    | CTup cs => S (list_sum (map csize cs))
    | CConstval F | CLike F => S (fsize F)
    | CRef o => S (osize o)
    end
  with fsize (F : functor) : nat :=
    match F with FUser _ => 1 | FTupAcc _ F | FArrAcc _ F => S (fsize F) | FConst c => S (csize c) end
  with osize (o : object) : nat := match o with OUser _ => 1 | OValue c => S (csize c) end.

  Lemma sum_in : forall l k x, nth_error l k = Some x -> x <= list_sum l.
  Proof. induction l as [|y r IH]; unfold list_sum in *; intros [|k] x H; cbn in *; try discriminate; [injection H as ->; lia|]. specialize (IH k x H). lia. Qed.

  Lemma make_size : forall v C, well_typed v -> ~ structural v -> fsize C <= S (S (csize (make_constval_1 v C))).
  Proof.
    induction v using cval_ind'; intros C W S.
    - destruct S. constructor.
    - inversion W as [|? ? HW|? HW| |]; subst. assert (D : (exists k, t = TyN k) \/ forall k, t <> TyN k) by (destruct t; eauto; right; discriminate).
      destruct D as [[j ->]|D]; [destruct S; constructor; intros y Hy; destruct (HW y Hy) as [_ Ty]; destruct y; try discriminate; constructor|].
      rewrite make_arr by exact D. cbn. rewrite map_map_index.
      assert (Ex : exists k x, nth_error l k = Some x /\ ~ structural x).
      { clear - S. assert (N : ~ forall x, In x l -> structural x) by (intro A; apply S; constructor; exact A). clear S.
        induction l as [|x r IH]; [destruct N; intros x []|]. destruct (structural_dec x) as [Sx|Sx]; [|exists 0, x; auto].
        destruct IH as [k [y Hy]]; [intro A; apply N; intros y [<-|Hy]; auto|]. exists (Datatypes.S k), y. exact Hy. }
      destruct Ex as [k [x [Hx Sx]]]. rewrite Forall_forall in H.
      pose proof (H x (nth_error_In _ _ Hx) (FArrAcc k C) (proj1 (HW x (nth_error_In _ _ Hx))) Sx) as B. cbn [fsize] in B.
      assert (Hn : nth_error (map_index (fun i x => osize (OValue (make_constval_1 x (FArrAcc i C)))) 0 l) k = Some (osize (OValue (make_constval_1 x (FArrAcc k C)))))
        by (rewrite map_index_nth, Hx; reflexivity).
      apply sum_in in Hn. cbn [osize] in *. lia.
    - inversion W as [|? ? HW|? HW| |]; subst. rewrite make_tup. cbn. rewrite map_map_index.
      assert (Ex : exists k x, nth_error l k = Some x /\ ~ structural x).
      { clear - S. assert (N : ~ forall x, In x l -> structural x) by (intro A; apply S; constructor; exact A). clear S.
        induction l as [|x r IH]; [destruct N; intros x []|]. destruct (structural_dec x) as [Sx|Sx]; [|exists 0, x; auto].
        destruct IH as [k [y Hy]]; [intro A; apply N; intros y [<-|Hy]; auto|]. exists (Datatypes.S k), y. exact Hy. }
      destruct Ex as [k [x [Hx Sx]]]. rewrite Forall_forall in H.
      pose proof (H x (nth_error_In _ _ Hx) (FTupAcc k C) (HW x (nth_error_In _ _ Hx)) Sx) as B. cbn [fsize] in B.
      assert (Hn : nth_error (map_index (fun i x => csize (make_constval_1 x (FTupAcc i C))) 0 l) k = Some (csize (make_constval_1 x (FTupAcc k C))))
        by (rewrite map_index_nth, Hx; reflexivity).
      apply sum_in in Hn. cbn in *. lia.
    - cbn. lia.
    - cbn. destruct C as [| | |[]]; cbn; lia.
  Qed.

  (** A reference to the value of [c] is normalised to [c] itself iff the value is structural (and [c] its canonical type). *)
  Lemma constant_ref_self : forall c, well_typed (eval c) ->
    (constant_ref ufun uobj (OValue c) = c <-> structural (eval c) /\ forall C, make_constval_1 (eval c) C = c).
  Proof.
    intros c W. unfold constant_ref. rewrite eval_OValue. split.
    - intro E. destruct (structural_dec (eval c)) as [S|S].
      + split; [exact S|]. intro C. rewrite (structural_any _ C (FConst (CRef (OValue c))) S). exact E.
      + exfalso. pose proof (make_size (eval c) (FConst (CRef (OValue c))) W S) as B. rewrite E in B. cbn in B. lia.
    - intros [_ H]. apply H.
  Qed.
End Values.
