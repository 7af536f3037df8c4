(** Proofs about constvals. *)

From Coq Require Import ZArith Arith Bool Lia List.
From Verif Require Import Base ExpandModel ExpandSpec ExpandProofs ConstvalModel ConstvalSpec.
Import ListNotations.

Section ValueInd.
  Variable P : value -> Prop.
  Hypothesis H1 : forall k z, P (VNttp k z).
  Hypothesis H2 : forall b l, Forall P l -> P (VArray b l).
  Hypothesis H3 : forall l, Forall P l -> P (VTuple l).
  Hypothesis H4 : forall k l, P (VLike k l).
  Hypothesis H5 : forall k z, P (VOther k z).
  Hypothesis H6 : forall c, P (VConst c).
  Fixpoint value_ind' (v : value) : P v :=
    let all := fix all (l : list value) : Forall P l :=
      match l with [] => Forall_nil P | x :: r => Forall_cons x (value_ind' x) (all r) end in
    match v with
    | VNttp k z => H1 k z
    | VArray b l => H2 b l (all l)
    | VTuple l => H3 l (all l)
    | VLike k l => H4 k l
    | VOther k z => H5 k z
    | VConst c => H6 c
    end.
End ValueInd.

Section Proofs.
  Variable call : nat -> list value -> outcome value.

  Lemma eval_tup : forall l, eval call (CTup l) =
    if forallb has_value_type l then do vs <- mapM (eval call) l; Ok (VTuple vs) else IllFormed.
  Proof.
    intro l. cbn [eval]. destruct (forallb has_value_type l); [|reflexivity]. f_equal. induction l as [|c l IH]; [reflexivity|]. cbn [mapM]. destruct (eval call c); try reflexivity. cbn [bind]. rewrite IH. reflexivity.
  Qed.
  Lemma eval_transform : forall f l, eval call (CTransform f l) = do vs <- mapM (eval call) l; call f vs.
  Proof.
    intros f l. cbn [eval]. f_equal. induction l as [|c l IH]; [reflexivity|]. cbn [mapM]. destruct (eval call c); try reflexivity. cbn [bind]. rewrite IH. reflexivity.
  Qed.

  (** The inner loops. *)
  Fixpoint array_elements (C : cv) (I : nat) (l : list value) : outcome (list value) :=
    match l with
    | [] => Ok []
    | x :: r =>
        if has_tag x then IllFormed
        else do c <- make_constval_1 call x (CArrayAcc I C); do w <- eval call c; do ws <- array_elements C (S I) r; Ok (w :: ws)
    end.
  Fixpoint tuple_elements (C : cv) (I : nat) (l : list value) : outcome (list cv) :=
    match l with
    | [] => Ok []
    | x :: r => do c <- make_constval_1 call x (CTupleAcc I C); do cs <- tuple_elements C (S I) r; Ok (c :: cs)
    end.
  Lemma norm_array : forall C l, make_constval_1 call (VArray false l) C = do ws <- array_elements C 0 l; Ok (CArr false ws).
  Proof.
    intros C l. cbn [make_constval_1]. f_equal. generalize 0. induction l as [|x l IH]; intro I0; [reflexivity|]. cbn [array_elements].
    destruct (has_tag x); [reflexivity|]. destruct (make_constval_1 call x (CArrayAcc I0 C)); try reflexivity. cbn [bind].
    destruct (eval call a); try reflexivity. cbn [bind]. rewrite IH. reflexivity.
  Qed.
  Lemma norm_tuple : forall C l, make_constval_1 call (VTuple l) C =
    do cs <- tuple_elements C 0 l; if forallb has_value_type cs then Ok (CTup cs) else IllFormed.
  Proof.
    intros C l. cbn [make_constval_1]. f_equal. generalize 0. induction l as [|x l IH]; intro I0; [reflexivity|]. cbn [tuple_elements].
    destruct (make_constval_1 call x (CTupleAcc I0 C)); try reflexivity. cbn [bind]. rewrite IH. reflexivity.
  Qed.

  Definition value_is (c : cv) (v : value) : Prop := eval call c = Ok v.
  (** Constvals other than type sequences. *)
  Definition tagged (c : cv) : Prop := is_tag c = true /\ has_value_type c = true.

  Lemma norm_value : forall v C w, eval call C = Ok v -> stands_for value_is tagged v w ->
    exists c, make_constval_1 call v C = Ok c /\ eval call c = Ok w /\ has_value_type c = true.
  Proof.
    refine (value_ind' _ _ _ _ _ _ _).
    - intros k z C w E S. inversion S; subst. exists (CInt k z). repeat split.
    - intros b l IH C w E S. inversion S as [| |v Ht]; subst. destruct b; [exists (CArr true l); repeat split|].
      rewrite norm_array. cbn [has_tag] in Ht.
      assert (G : forall I0 pre, length pre = I0 -> eval call C = Ok (VArray false (pre ++ l)) -> array_elements C I0 l = Ok l).
      { clear E S. induction IH as [|x l Hx IHl IH]; intros I0 pre Hl E; [reflexivity|]. cbn [existsb] in Ht. apply orb_false_iff in Ht. destruct Ht as [T1 T2].
        cbn [array_elements]. rewrite T1.
        destruct (Hx (CArrayAcc I0 C) x) as [c [E1 [E2 _]]].
        - cbn [eval]. rewrite E. cbn [bind get_array get_value]. rewrite nth_error_app2 by lia. replace (I0 - length pre) with 0 by lia. reflexivity.
        - apply sf_plain. assumption.
        - rewrite E1. cbn [bind]. rewrite E2. cbn [bind]. rewrite (IH T2 (S I0) (pre ++ [x])).
          + reflexivity.
          + rewrite app_length. cbn. lia.
          + rewrite <- app_assoc. exact E. }
      rewrite (G 0 [] eq_refl E). exists (CArr false l). repeat split.
    - intros l IH C w E S. rewrite norm_tuple.
      assert (S' : exists ws, w = VTuple ws /\ Forall2 (stands_for value_is tagged) l ws).
      { inversion S as [|vs ws F|v Ht]; subst; [eauto|]. exists l. split; [reflexivity|]. cbn [has_tag] in Ht. clear - Ht.
        induction l as [|x l IH]; constructor; cbn [existsb] in Ht; apply orb_false_iff in Ht; destruct Ht as [T1 T2]; [apply sf_plain; assumption|auto]. }
      destruct S' as [ws [-> F]].
      assert (G : forall I0 pre, length pre = I0 -> eval call C = Ok (VTuple (pre ++ l)) ->
        exists cs, tuple_elements C I0 l = Ok cs /\ mapM (eval call) cs = Ok ws /\ forallb has_value_type cs = true).
      { clear E S. revert ws F. induction IH as [|x l Hx IHl IH]; intros ws F I0 pre Hl E; inversion F as [|? w0 ? ws0 Sw Fw]; subst.
        - exists []. repeat split.
        - cbn [tuple_elements]. destruct (Hx (CTupleAcc (length pre) C) w0) as [c [E1 [E2 E3]]].
          + cbn [eval]. rewrite E. cbn [bind get_value]. rewrite nth_error_app2 by lia. rewrite Nat.sub_diag. reflexivity.
          + assumption.
          + destruct (IH ws0 Fw (S (length pre)) (pre ++ [x])) as [cs [G1 [G2 G3]]].
            * rewrite app_length. cbn. lia.
            * rewrite <- app_assoc. exact E.
            * exists (c :: cs). rewrite E1. cbn [bind]. rewrite G1. split; [reflexivity|]. cbn [mapM forallb]. rewrite E2, E3. cbn [bind]. rewrite G2. split; [reflexivity|exact G3]. }
      destruct (G 0 [] eq_refl E) as [cs [G1 [G2 G3]]]. exists (CTup cs). rewrite G1. cbn [bind]. rewrite G3. split; [reflexivity|]. rewrite eval_tup, G2, G3. split; reflexivity.
    - intros k l C w E S. inversion S; subst. exists (CLike C). split; [reflexivity|]. split; [exact E|reflexivity].
    - intros k z C w E S. inversion S; subst. cbn [make_constval_1].
      destruct C; try (eexists; split; [reflexivity|]; split; [exact E|reflexivity]).
    - intros c C w E S. inversion S as [c' w' T V| |v Ht]; subst.
      + exists c. cbn [make_constval_1]. destruct T as [T T']. rewrite T. split; [reflexivity|]. split; [exact V|exact T'].
      + cbn [has_tag] in Ht. cbn [make_constval_1]. rewrite Ht. destruct C; try (eexists; split; [reflexivity|]; split; [exact E|reflexivity]).
  Qed.

  (** Constvals that normalization leaves as they are. *)
  Definition normal (c : cv) : bool := is_known c || match c with CSeq _ => true | _ => false end.
  Lemma tag_normal : forall c, is_tag c = true -> normal c = true.
  Proof. intros []; cbn; auto. Qed.
  Lemma make_normal : forall c, normal c = true -> make_constval call c = Ok c.
  Proof. intros [] H; try discriminate; reflexivity. Qed.

  Lemma norm_normal : forall v C c, make_constval_1 call v C = Ok c -> normal c = true.
  Proof.
    intros v C c. destruct v as [k z|b l|l|k l|k z|c']; intro H.
    - injection H as <-. reflexivity.
    - destruct b; [injection H as <-; reflexivity|]. rewrite norm_array in H. apply bind_ok_inv in H. destruct H as [ws [_ H]]. injection H as <-. reflexivity.
    - rewrite norm_tuple in H. apply bind_ok_inv in H. destruct H as [ws [_ H]]. destruct (forallb has_value_type ws); [|discriminate]. injection H as <-. reflexivity.
    - injection H as <-. reflexivity.
    - cbn in H. destruct C; injection H as <-; reflexivity.
    - cbn in H. destruct (is_tag c') eqn:T; [injection H as <-; apply tag_normal; assumption|]. destruct C; injection H as <-; reflexivity.
  Qed.

  Lemma make_is_normal : forall C c, make_constval call C = Ok c -> normal c = true.
  Proof.
    intros C c H. unfold make_constval in H. destruct (is_known C) eqn:K; [injection H as <-; unfold normal; rewrite K; reflexivity|].
    apply bind_ok_inv in H. destruct H as [v [_ H]]. eapply norm_normal. eassumption.
  Qed.

  (** Known constvals with a value are constvals. *)
  Lemma normal_constval : forall c v, normal c = true -> eval call c = Ok v -> is_constval c = true.
  Proof. intros c v K E. destruct c; try reflexivity; try discriminate. Qed.

  (** The shape of the representation. *)
  Lemma norm_represents : forall v C c, eval call C = Ok v -> has_tag v = false -> make_constval_1 call v C = Ok c -> represents v c.
  Proof.
    refine (value_ind' _ _ _ _ _ _ _).
    - intros k z C c _ _ H. injection H as <-. constructor.
    - intros b l _ C c E T H.
      assert (S : stands_for value_is tagged (VArray b l) (VArray b l)) by (apply sf_plain; assumption).
      destruct (norm_value _ _ _ E S) as [c' [E1 [E2 _]]]. rewrite H in E1. injection E1 as <-.
      destruct b; [injection H as <-; constructor|].
      rewrite norm_array in H. apply bind_ok_inv in H. destruct H as [ws [_ H]]. injection H as <-. injection E2 as ->. constructor.
    - intros l IH C c E T H. rewrite norm_tuple in H. apply bind_ok_inv in H. destruct H as [cs [H Hc]]. destruct (forallb has_value_type cs); [|discriminate]. injection Hc as <-. constructor.
      cbn [has_tag] in T.
      assert (G : forall I0 pre, length pre = I0 -> eval call C = Ok (VTuple (pre ++ l)) -> forall cs, tuple_elements C I0 l = Ok cs -> Forall2 represents l cs).
      { clear E H cs. induction IH as [|x l Hx IHl IH]; intros I0 pre Hl E cs H.
        - injection H as <-. constructor.
        - cbn [existsb] in T. apply orb_false_iff in T. destruct T as [T1 T2]. cbn [tuple_elements] in H.
          apply bind_ok_inv in H. destruct H as [c [Hc H]]. apply bind_ok_inv in H. destruct H as [cs' [Hcs H]]. injection H as <-. constructor.
          + apply (Hx (CTupleAcc I0 C)); [|assumption|assumption]. cbn [eval]. rewrite E. cbn [bind get_value].
            rewrite nth_error_app2 by lia. replace (I0 - length pre) with 0 by lia. reflexivity.
          + apply (IH T2 (S I0) (pre ++ [x])); [rewrite app_length; cbn; lia|rewrite <- app_assoc; exact E|assumption]. }
      apply (G 0 [] eq_refl E). assumption.
    - intros k l C c _ _ H. injection H as <-. constructor.
    - intros k z C c E _ H. cbn in H. destruct C; injection H as <-; try constructor. cbn in E. injection E as ->. constructor.
    - intros c0 C c E T H. cbn [has_tag] in T. cbn in H. rewrite T in H. destruct C; injection H as <-; try (constructor; assumption).
      cbn in E. injection E as ->. constructor. assumption.
  Qed.

  Lemma mapM_functor : forall cs, mapM functor_of (map VConst cs) = Ok cs.
  Proof. induction cs as [|c cs IH]; [reflexivity|]. cbn [map mapM functor_of bind]. rewrite IH. reflexivity. Qed.
  Lemma transportable_consts : forall cs, forall ebo, forallb (transportable ebo) (map VConst cs) = true.
  Proof. induction cs as [|c cs IH]; intro ebo; [reflexivity|]. exact (IH ebo). Qed.
End Proofs.

Lemma transportable_iff : forall ebo v, transportable ebo v = true <-> stateless ebo v.
Proof.
  intro ebo. refine (value_ind' _ _ _ _ _ _ _); try (intros; cbn; split; [discriminate|intro S0; inversion S0]).
  - intros l IH. destruct l as [|x l]; [split; [constructor|reflexivity]|]. cbn [transportable]. rewrite andb_true_iff, forallb_forall. split.
    + intros [E F]. apply sl_tuple; [assumption|]. rewrite Forall_forall in *. intros y Hy. apply IH; auto.
    + intro H. inversion H as [| |l' E F]; subst. split; [reflexivity|]. rewrite Forall_forall in *. intros y Hy. apply IH; auto.
  - intros c. split; [constructor|reflexivity].
Qed.
Lemma transportable_all : forall ebo l, forallb (transportable ebo) l = true <-> Forall (stateless ebo) l.
Proof.
  intros. rewrite forallb_forall, Forall_forall. split; intros H x Hx; apply transportable_iff; auto.
Qed.
Lemma transportable_not_all : forall ebo l a, In a l -> ~ stateless ebo a -> forallb (transportable ebo) l = false.
Proof.
  intros ebo l a I N. apply not_true_iff_false. intro H. rewrite transportable_all, Forall_forall in H. exact (N (H a I)).
Qed.

Lemma common_ptrdiff : forall t, (1 <= ity_bits t <= 64)%Z -> common_type ptrdiff_ty (make_signed t) = ptrdiff_ty.
Proof.
  intros [b s] H. cbn in H. unfold common_type, make_signed, promote. cbn [ity_bits ity_signed ptrdiff_ty]. destruct (Z.ltb_spec b 32).
  - reflexivity.
  - cbn. destruct (Z.ltb_spec 64 b); [lia|reflexivity].
Qed.
