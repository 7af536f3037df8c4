(** Proofs about overload. *)

From Coq Require Import Arith Bool Lia List Permutation.
From Verif Require Import Base OverloadModel OverloadSpec.
Import ListNotations.

Section FunctorInd.
  Variable ty : Type.
  Variable P : functor ty -> Prop.
  Hypothesis HC : forall id ops, P (Class id ops).
  Hypothesis HN : forall id, P (NotABase id).
  Hypothesis HO : forall fs, Forall P fs -> P (Over fs).
  Fixpoint functor_ind' (f : functor ty) : P f :=
    match f with
    | Class id ops => HC id ops
    | NotABase id => HN id
    | Over fs => HO fs ((fix go (fs : list (functor ty)) : Forall P fs := match fs with [] => Forall_nil _ | f :: fs => Forall_cons _ (functor_ind' f) (go fs) end) fs)
    end.
End FunctorInd.

Section Proofs.
  Variable ty : Type.
  Variable ty_eqb : ty -> ty -> bool.
  Hypothesis ty_eqb_spec : forall t u, ty_eqb t u = true <-> t = u.
  Variable conv : ty -> ty -> option nat.
  Local Notation param := (param ty).
  Local Notation op := (op ty).
  Local Notation functor := (functor ty).
  Local Notation better := (better ty ty_eqb conv).
  Local Notation viable := (viable ty conv).
  Local Notation resolve := (resolve ty ty_eqb conv).

  (** Ranks. *)
  Lemma rank1_iff : forall t p r, rank1 ty conv t p = Some r <-> passes ty conv t p r.
  Proof.
    intros t [|u] r; cbn; unfold passes.
    - split; [intros [= <-]; auto|intros [[_ ->]|(u & [=] & _)]; auto].
    - split; [eauto|intros [([=] & _)|(u' & [= <-] & E)]; auto].
  Qed.
  Lemma ranks_iff : forall args ps, (exists rs, ranks ty conv args ps = Some rs) <-> Forall2 (fun t p => exists r, passes ty conv t p r) args ps.
  Proof.
    induction args as [|t args IH]; intros [|p ps]; cbn.
    - split; eauto.
    - split; [intros [rs [=]]|intros H; inversion H].
    - split; [intros [rs [=]]|intros H; inversion H].
    - split.
      + intros [rs E]. destruct (rank1 ty conv t p) as [r|] eqn:E1; [|discriminate]. destruct (ranks ty conv args ps) as [rs'|] eqn:E2; [|discriminate].
        constructor; [exists r; apply rank1_iff; auto|]. apply IH. eauto.
      + intros H. inversion H as [|? ? ? ? [r Hr] H2]; subst. apply rank1_iff in Hr. rewrite Hr. apply IH in H2 as [rs ->]. eauto.
  Qed.
  Lemma ranks_nth : forall args ps rs, ranks ty conv args ps = Some rs -> length rs = length args /\ length ps = length args /\
    forall i r, nth_error rs i = Some r <-> exists t p, nth_error args i = Some t /\ nth_error ps i = Some p /\ passes ty conv t p r.
  Proof.
    induction args as [|t args IH]; intros [|p ps] rs E; cbn in E; try discriminate.
    - inversion E; subst. repeat split; auto; destruct i; cbn; try discriminate; intros (? & ? & [=] & _).
    - destruct (rank1 ty conv t p) as [r|] eqn:E1; [|discriminate]. destruct (ranks ty conv args ps) as [rs'|] eqn:E2; [|discriminate]. inversion E; subst.
      destruct (IH ps rs' E2) as (L1 & L2 & N). cbn. repeat split; auto.
      + destruct i as [|i]; cbn; [|apply N]. intros [= ->]. exists t, p. repeat split; auto. apply rank1_iff; auto.
      + destruct i as [|i]; cbn; [|apply N]. intros (t' & p' & [= ->] & [= ->] & H). apply rank1_iff in H. congruence.
  Qed.
  Lemma viable_iff : forall oc args o, viable oc args o = true <-> callable ty conv oc args o.
  Proof.
    intros oc args o. unfold OverloadModel.viable, all_ranks, callable. rewrite <- ranks_iff. split.
    - destruct (oc && negb (op_const o)) eqn:C; [discriminate|]. destruct (ranks ty conv args (op_params o)) as [rs|]; [|discriminate]. intros _. split; [|eauto].
      intros ->. destruct (op_const o); [auto|discriminate].
    - intros [H [rs ->]]. destruct oc; cbn; [rewrite H; auto|auto].
  Qed.

  Lemma combine_nth : forall (a b : list nat) i x y, nth_error a i = Some x -> nth_error b i = Some y -> In (x, y) (combine a b).
  Proof.
    induction a as [|p a IH]; intros [|q b] [|i] x y; cbn; try discriminate.
    - intros [= ->] [= ->]. auto.
    - intros H1 H2. right. eapply IH; eauto.
  Qed.
  Lemma combine_in : forall (a b : list nat) x y, In (x, y) (combine a b) -> exists i, nth_error a i = Some x /\ nth_error b i = Some y.
  Proof.
    induction a as [|p a IH]; intros [|q b] x y; cbn; try contradiction. intros [[= -> ->]|H]; [exists 0; auto|]. destruct (IH b x y H) as [i Hi]. exists (S i). auto.
  Qed.
  Lemma not_worse_iff : forall a b, not_worse a b = true <-> forall i x y, nth_error a i = Some x -> nth_error b i = Some y -> x <= y.
  Proof.
    intros a b. unfold not_worse. rewrite forallb_forall. split.
    - intros H i x y Hx Hy. apply Nat.leb_le. apply (H (x, y)). eapply combine_nth; eauto.
    - intros H [x y] Hi. apply combine_in in Hi as (i & Hx & Hy). apply Nat.leb_le. cbn. eauto.
  Qed.
  Lemma somewhere_better_iff : forall a b, somewhere_better a b = true <-> exists i x y, nth_error a i = Some x /\ nth_error b i = Some y /\ x < y.
  Proof.
    intros a b. unfold somewhere_better. rewrite existsb_exists. split.
    - intros ([x y] & Hi & Hl). apply combine_in in Hi as (i & Hx & Hy). apply Nat.ltb_lt in Hl. eauto 8.
    - intros (i & x & y & Hx & Hy & Hl). exists (x, y). split; [eapply combine_nth; eauto|apply Nat.ltb_lt; auto].
  Qed.
  Lemma template_iff : forall o, is_template ty o = true <-> generic o.
  Proof.
    intros o. unfold is_template, generic. rewrite existsb_exists. split.
    - intros (p & Hp & Hb). destruct p; [auto|discriminate].
    - intros H. exists Auto. auto.
  Qed.
  Lemma specialized_iff : forall ps qs, at_least_as_specialized ty ty_eqb ps qs = true <-> Forall2 (fun p q => q = Auto \/ p = q) ps qs.
  Proof.
    induction ps as [|p ps IH]; intros [|q qs]; cbn.
    - split; auto.
    - split; [discriminate|intros H; inversion H].
    - split; [discriminate|intros H; inversion H].
    - rewrite andb_true_iff, IH. split.
      + intros [H1 H2]. constructor; auto. destruct p, q; auto; try discriminate. right. f_equal. apply ty_eqb_spec; auto.
      + intros H. inversion H as [|? ? ? ? H1 H2]; subst. split; auto. destruct p, q; auto; destruct H1 as [H1|H1]; try discriminate. injection H1 as ->. apply ty_eqb_spec. auto.
  Qed.
  Lemma neg_iff : forall b P, (b = true <-> P) -> (negb b = true <-> ~ P).
  Proof. intros [] P H; cbn; intuition congruence. Qed.

  Lemma better_iff : forall oc args o o', viable oc args o = true -> viable oc args o' = true -> (better oc args o o' = true <-> preferred ty conv oc args o o').
  Proof.
    intros oc args o o' V V'. unfold OverloadModel.better, OverloadModel.viable in *.
    destruct (all_ranks ty conv oc args o) as [rs|] eqn:E; [|discriminate]. destruct (all_ranks ty conv oc args o') as [rs'|] eqn:E'; [|discriminate].
    unfold all_ranks in E, E'. destruct (oc && negb (op_const o)) eqn:C; [discriminate|]. destruct (oc && negb (op_const o')) eqn:C'; [discriminate|].
    destruct (ranks ty conv args (op_params o)) as [ks|] eqn:K; [|discriminate]. destruct (ranks ty conv args (op_params o')) as [ks'|] eqn:K'; [|discriminate].
    injection E as <-. injection E' as <-. destruct (ranks_nth _ _ _ K) as (L1 & L2 & N). destruct (ranks_nth _ _ _ K') as (L1' & L2' & N').
    rewrite andb_true_iff, !orb_true_iff, !andb_true_iff, not_worse_iff, somewhere_better_iff, !template_iff, specialized_iff.
    rewrite (neg_iff _ _ (template_iff o)), (neg_iff _ _ (specialized_iff (op_params o') (op_params o))).
    unfold preferred, covered_by.
    assert (A : (forall i x y, nth_error ((if negb oc && op_const o then 1 else 0) :: ks) i = Some x -> nth_error ((if negb oc && op_const o' then 1 else 0) :: ks') i = Some y -> x <= y) <-> as_good ty conv oc args o o').
    { unfold as_good. split.
      - intros H. split.
        + intros -> Ho. specialize (H 0 _ _ eq_refl eq_refl). rewrite Ho in H. cbn in H. destruct (op_const o'); auto. lia.
        + intros i t p p' r r' Ht Hp Hp' Hr Hr'. apply (H (S i)); cbn; [apply N|apply N']; eauto 10.
      - intros [H1 H2] [|i] x y; cbn.
        + intros [= <-] [= <-]. destruct oc; cbn; auto. destruct (op_const o); cbn; [rewrite H1; auto|lia].
        + intros Hx Hy. apply N in Hx as (t & p & X1 & X2 & X3). apply N' in Hy as (t' & p' & Y1 & Y2 & Y3). rewrite X1 in Y1. injection Y1 as <-. eapply H2; eauto. }
    assert (B : (exists i x y, nth_error ((if negb oc && op_const o then 1 else 0) :: ks) i = Some x /\ nth_error ((if negb oc && op_const o' then 1 else 0) :: ks') i = Some y /\ x < y) <-> better_somewhere ty conv oc args o o').
    { unfold better_somewhere. split.
      - intros ([|i] & x & y & Hx & Hy & Hl); cbn in Hx, Hy.
        + left. injection Hx as <-. injection Hy as <-. destruct oc, (op_const o), (op_const o'); cbn in *; try lia; auto.
        + right. apply N in Hx as (t & p & X1 & X2 & X3). apply N' in Hy as (t' & p' & Y1 & Y2 & Y3). rewrite X1 in Y1. injection Y1 as <-. exists i, t, p, p', x, y. auto 10.
      - intros [(-> & -> & ->)|(i & t & p & p' & r & r' & Ht & Hp & Hp' & Hr & Hr' & Hl)].
        + exists 0, 0, 1. cbn. auto.
        + exists (S i), r, r'. cbn. split; [apply N; eauto|]. split; [apply N'; eauto|auto]. }
    rewrite A, B. tauto.
  Qed.

  Lemma better_asym : forall oc args o o', better oc args o o' = true -> better oc args o' o = true -> False.
  Proof.
    intros oc args o o' H H'. unfold OverloadModel.better in *.
    destruct (all_ranks ty conv oc args o) as [rs|]; [|discriminate]. destruct (all_ranks ty conv oc args o') as [rs'|]; [|discriminate].
    apply andb_true_iff in H as [W S]. apply andb_true_iff in H' as [W' S']. rewrite not_worse_iff in W, W'.
    assert (X : somewhere_better rs rs' = false).
    { destruct (somewhere_better rs rs') eqn:E; auto. apply somewhere_better_iff in E as (i & x & y & Hx & Hy & Hl). specialize (W' i y x Hy Hx). lia. }
    assert (X' : somewhere_better rs' rs = false).
    { destruct (somewhere_better rs' rs) eqn:E; auto. apply somewhere_better_iff in E as (i & x & y & Hx & Hy & Hl). specialize (W i y x Hy Hx). lia. }
    rewrite X in S. rewrite X' in S'. cbn [orb] in *.
    destruct (is_template ty o), (is_template ty o'); cbn in *; try discriminate.
    apply andb_true_iff in S as [S1 S2]. apply andb_true_iff in S' as [S3 S4]. rewrite S1 in S4. discriminate.
  Qed.

  (** Resolution. *)
  Definition wins (oc : bool) (args : list ty) (cs : list (nat * nat * op)) (c : nat * nat * op) : bool :=
    viable oc args (snd c) && forallb (fun d => same_operator ty c d || negb (viable oc args (snd d)) || better oc args (snd c) (snd d)) cs.
  Lemma resolve_eq : forall oc args cs, resolve oc args cs = match filter (wins oc args cs) cs with [c] => Ok c | _ => IllFormed end.
  Proof. reflexivity. Qed.
  Lemma wins_perm : forall oc args cs cs' c, Permutation cs cs' -> wins oc args cs c = wins oc args cs' c.
  Proof.
    intros oc args cs cs' c P. unfold wins. f_equal. apply eq_true_iff_eq. rewrite !forallb_forall. split; intros H d Hd; apply H; [apply (Permutation_in _ (Permutation_sym P) Hd)|apply (Permutation_in _ P Hd)].
  Qed.
  Lemma filter_perm : forall A (p : A -> bool) l l', Permutation l l' -> Permutation (filter p l) (filter p l').
  Proof.
    intros A p l l' H. induction H; cbn; auto.
    - destruct (p x); auto.
    - destruct (p x), (p y); auto. constructor.
    - eapply perm_trans; eauto.
  Qed.
  Lemma resolve_perm : forall oc args cs cs', Permutation cs cs' -> resolve oc args cs = resolve oc args cs'.
  Proof.
    intros oc args cs cs' P. rewrite !resolve_eq.
    assert (E : filter (wins oc args cs) cs' = filter (wins oc args cs') cs') by (apply filter_ext; intros c; apply wins_perm; auto).
    pose proof (filter_perm _ (wins oc args cs) cs cs' P) as Q. rewrite E in Q.
    destruct (filter (wins oc args cs) cs) as [|c [|d r]].
    - apply Permutation_nil in Q. rewrite Q. auto.
    - apply Permutation_length_1_inv in Q. rewrite Q. auto.
    - apply Permutation_length in Q. destruct (filter (wins oc args cs') cs') as [|a [|b l]]; cbn in Q; auto; lia.
  Qed.
  Lemma same_operator_iff : forall c d, same_operator ty c d = true <-> fst c = fst d.
  Proof.
    intros [[i k] o] [[j m] o']. unfold same_operator. cbn. rewrite andb_true_iff, !Nat.eqb_eq. split; [intros [-> ->]; auto|intros [= -> ->]; auto].
  Qed.
  Lemma resolve_iff : forall oc args cs c, NoDup (map fst cs) ->
    (resolve oc args cs = Ok c <-> In c cs /\ wins oc args cs c = true) /\
    (resolve oc args cs = IllFormed \/ exists c, resolve oc args cs = Ok c).
  Proof.
    intros oc args cs c Hn. rewrite !resolve_eq.
    assert (U : forall c d, In c cs -> In d cs -> wins oc args cs c = true -> wins oc args cs d = true -> fst c = fst d).
    { intros x y Hx Hy Wx Wy. unfold wins in Wx, Wy. apply andb_true_iff in Wx as [Vx Bx]. apply andb_true_iff in Wy as [Vy By]. rewrite forallb_forall in Bx, By.
      specialize (Bx y Hy). specialize (By x Hx). rewrite Vy in Bx. rewrite Vx in By. cbn [negb] in *. rewrite !orb_false_r in *.
      apply orb_true_iff in Bx as [Bx|Bx]; [apply same_operator_iff; auto|]. apply orb_true_iff in By as [By|By]; [symmetry; apply same_operator_iff; auto|].
      exfalso. eapply better_asym; eauto. }
    assert (ND : NoDup (filter (wins oc args cs) cs)) by (apply NoDup_filter; eapply NoDup_map_inv; eauto).
    assert (IN : forall d, In d (filter (wins oc args cs) cs) <-> In d cs /\ wins oc args cs d = true) by (intros d; apply filter_In).
    assert (INJ : forall d e, In d cs -> In e cs -> fst d = fst e -> d = e).
    { clear - Hn. induction cs as [|a cs IH]; intros d e; [intros []|]. cbn in Hn. inversion Hn; subst. intros [->|Hd] [->|He] E; auto.
      - exfalso. apply H1. rewrite E. apply in_map; auto.
      - exfalso. apply H1. rewrite <- E. apply in_map; auto. }
    destruct (filter (wins oc args cs) cs) as [|a [|b l]].
    - split; auto. split; [discriminate|]. intros H. apply IN in H. destruct H.
    - split; [|eauto]. split.
      + intros [= <-]. apply IN. left; auto.
      + intros H. apply IN in H as [->|[]]. auto.
    - exfalso. assert (Ia : In a (a :: b :: l)) by (left; auto). assert (Ib : In b (a :: b :: l)) by (right; left; auto). apply IN in Ia as [Ia Wa]. apply IN in Ib as [Ib Wb].
      inversion ND; subst. apply H1. left. symmetry. apply INJ; auto.
  Qed.

  (** Operators of functors. *)
  Lemma number_in : forall A (l : list A) k i a, In (i, a) (number k l) <-> k <= i /\ nth_error l (i - k) = Some a.
  Proof.
    induction l as [|b l IH]; intros k i a; cbn.
    - split; [intros []|intros [_ H]; destruct (i - k); discriminate].
    - split.
      + intros [[= <- <-]|H]; [rewrite Nat.sub_diag; auto|]. apply IH in H as [H1 H2]. split; [lia|]. replace (i - k) with (S (i - S k)) by lia. auto.
      + intros [H1 H2]. destruct (Nat.eq_dec i k) as [->|Hk].
        * rewrite Nat.sub_diag in H2. injection H2 as ->. auto.
        * right. apply IH. split; [lia|]. replace (i - k) with (S (i - S k)) in H2 by lia. auto.
  Qed.
  Lemma operators_iff : forall (f : functor) id k o, In (id, k, o) (operators f) <-> has_operator f id k o.
  Proof.
    intros f. induction f as [i ops|i|fs IH] using functor_ind'; intros id k o; cbn [operators].
    - rewrite in_map_iff. split.
      + intros ([j a] & [= <- <- <-] & H). apply number_in in H as [_ H]. rewrite Nat.sub_0_r in H. constructor; auto.
      + intros H. inversion H; subst. exists (k, o). split; auto. apply number_in. rewrite Nat.sub_0_r. split; auto. lia.
    - split; [intros []|intros H; inversion H].
    - rewrite in_flat_map. rewrite Forall_forall in IH. split.
      + intros (f & Hf & H). econstructor; eauto. apply IH; auto.
      + intros H. inversion H; subst. exists f. split; auto. apply IH; auto.
  Qed.
  Lemma operators_classes : forall (f : functor) id k o, In (id, k, o) (operators f) -> In id (classes f).
  Proof.
    intros f id k o H. apply operators_iff in H. induction H; cbn; auto. apply in_flat_map. eauto.
  Qed.
  Lemma number_keys : forall A (l : list A) k, map fst (number k l) = seq k (length l).
  Proof. induction l; intros k; cbn; [auto|]. f_equal. auto. Qed.
  Lemma nodup_app : forall A (l l' : list A), NoDup l -> NoDup l' -> (forall a, In a l -> ~ In a l') -> NoDup (l ++ l').
  Proof.
    induction l as [|a l IH]; intros l' H H' D; cbn; auto. inversion H; subst. constructor.
    - rewrite in_app_iff. intros [Q|Q]; [auto|]. eapply D; eauto. left; auto.
    - apply IH; auto. intros b Hb. apply D. right; auto.
  Qed.
  Lemma nodup_app_inv : forall A (l l' : list A), NoDup (l ++ l') -> NoDup l /\ NoDup l' /\ (forall a, In a l -> ~ In a l').
  Proof.
    induction l as [|a l IH]; intros l' H; cbn in *; [repeat split; auto; constructor|]. inversion H; subst. destruct (IH l' H3) as (A1 & A2 & A3). repeat split; auto.
    - constructor; auto. intros Q. apply H2, in_app_iff; auto.
    - intros b [<-|Hb]; auto. intros Q. apply H2, in_app_iff; auto.
  Qed.
  Lemma operators_keys : forall f : functor, NoDup (classes f) -> NoDup (map fst (operators f)).
  Proof.
    intros f. induction f as [i ops|i|fs IH] using functor_ind'; cbn [operators classes]; intros Hn.
    - rewrite map_map. cbn. rewrite <- (map_map fst (fun k => (i, k))), number_keys. apply FinFun.Injective_map_NoDup; [|apply seq_NoDup]. intros x y [=]; auto.
    - constructor.
    - induction IH as [|f fs Hf _ IHfs]; cbn in *; [constructor|]. rewrite map_app. apply nodup_app_inv in Hn as (N1 & N2 & N3). apply nodup_app; auto.
      intros [j k] Hi Hi'. apply in_map_iff in Hi as ([[j' k'] o] & [= -> ->] & Hi). apply in_map_iff in Hi' as ([[j' k'] o'] & [= -> ->] & Hi').
      apply operators_classes in Hi. apply (N3 j Hi). apply in_flat_map in Hi' as (g & Hg & Hi'). apply in_flat_map. exists g. split; auto. eapply operators_classes; eauto.
  Qed.

  (** Well-formedness. *)
  Lemma same_type_list : forall fs gs, same_type (Over fs) (Over gs) = true <-> Forall2 (fun f g : functor => same_type f g = true) fs gs.
  Proof.
    induction fs as [|f fs IH]; intros [|g gs].
    - cbn. split; auto.
    - cbn. split; [discriminate|intros H; inversion H].
    - cbn. split; [discriminate|intros H; inversion H].
    - change (same_type (Over (f :: fs)) (Over (g :: gs))) with (same_type f g && same_type (Over fs) (Over gs)). rewrite andb_true_iff, IH. split.
      + intros []; constructor; auto.
      + intros H; inversion H; auto.
  Qed.
  Lemma same_type_sym : forall f g : functor, same_type f g = true -> same_type g f = true.
  Proof.
    intros f. induction f as [i ops|i|fs IH] using functor_ind'; intros g H; destruct g as [j ops'|gs|j]; try discriminate H.
    - cbn in *. rewrite Nat.eqb_sym; auto.
    - cbn in *. rewrite Nat.eqb_sym; auto.
    - apply same_type_list in H. apply same_type_list. revert gs H. induction IH as [|f fs Hf _ IHfs]; intros gs H; inversion H; subst; constructor; auto.
  Qed.
  Lemma same_type_classes : forall f g : functor, same_type f g = true -> classes f = classes g.
  Proof.
    intros f. induction f as [i ops|i|fs IH] using functor_ind'; intros g H; destruct g as [j ops'|gs|j]; try discriminate H; cbn [classes].
    - cbn in H. apply Nat.eqb_eq in H. congruence.
    - auto.
    - apply same_type_list in H. revert gs H. induction IH as [|f fs Hf _ IHfs]; intros gs H; inversion H; subst; cbn; auto. f_equal; auto.
  Qed.
  Lemma distinct_perm : forall fs gs : list functor, Permutation fs gs -> distinct fs = distinct gs.
  Proof.
    intros fs gs P. induction P; cbn; auto.
    - rewrite IHP. f_equal. f_equal. apply eq_true_iff_eq. rewrite !existsb_exists. split; intros (g & Hg & E); exists g; split; auto; [apply (Permutation_in _ P Hg)|apply (Permutation_in _ (Permutation_sym P) Hg)].
    - assert (S : same_type y x = same_type x y) by (apply eq_true_iff_eq; split; apply same_type_sym). rewrite S. rewrite !negb_orb. destruct (same_type x y), (existsb (same_type x) l), (existsb (same_type y) l), (distinct l); reflexivity.
    - congruence.
  Qed.
  Lemma forallb_perm : forall A (p : A -> bool) l l', Permutation l l' -> forallb p l = forallb p l'.
  Proof. intros A p l l' P. apply eq_true_iff_eq. rewrite !forallb_forall. split; intros H d Hd; apply H; [apply (Permutation_in _ (Permutation_sym P) Hd)|apply (Permutation_in _ P Hd)]. Qed.
  Lemma well_formed_perm : forall fs gs : list functor, Permutation fs gs -> well_formed (Over fs) = well_formed (Over gs).
  Proof. intros fs gs P. cbn [well_formed]. rewrite (distinct_perm fs gs P). f_equal; [f_equal|]; apply forallb_perm; auto. Qed.
  Lemma flat_map_perm : forall A B (h : A -> list B) l l', Permutation l l' -> Permutation (flat_map h l) (flat_map h l').
  Proof.
    intros A B h l l' P. induction P; cbn; auto.
    - apply Permutation_app_head; auto.
    - rewrite !app_assoc. apply Permutation_app_tail, Permutation_app_comm.
    - eapply perm_trans; eauto.
  Qed.
  Lemma distinct_nodup : forall fs : list functor, NoDup (flat_map classes fs) -> Forall (fun f => classes f <> []) fs -> distinct fs = true.
  Proof.
    induction fs as [|f fs IH]; intros Hn Hc; cbn; auto. cbn in Hn. apply nodup_app_inv in Hn as (N1 & N2 & N3). inversion Hc; subst. rewrite IH, andb_true_r; auto.
    apply negb_true_iff. destruct (existsb (same_type f) fs) eqn:E; auto. apply existsb_exists in E as (g & Hg & S). apply same_type_classes in S.
    destruct (classes f) as [|c l] eqn:Ec; [congruence|]. exfalso. apply (N3 c); [left; auto|]. apply in_flat_map. exists g. split; auto. rewrite <- S. left; auto.
  Qed.
  Lemma usable_well_formed : forall fs : list functor, usable fs -> well_formed (Over fs) = true.
  Proof.
    intros fs [Hf Hn]. cbn [well_formed]. rewrite Forall_forall in Hf. rewrite !andb_true_iff. split; [split|].
    - apply forallb_forall. intros f Hi. destruct (Hf f Hi) as (id & ops & -> & _). auto.
    - apply distinct_nodup; auto. apply Forall_forall. intros f Hi. destruct (Hf f Hi) as (id & ops & -> & _). discriminate.
    - apply forallb_forall. intros f Hi. destruct (Hf f Hi) as (id & ops & -> & Ho). cbn. destruct ops; [congruence|auto].
  Qed.

  (** The selected operator. *)
  Lemma resolve_selected : forall f oc args id k o, NoDup (classes f) ->
    (resolve oc args (operators f) = Ok (id, k, o) <-> selected ty conv f oc args id k o).
  Proof.
    intros f oc args id k o Hn. destruct (resolve_iff oc args (operators f) (id, k, o) (operators_keys f Hn)) as [R _]. rewrite R. unfold selected, wins.
    rewrite operators_iff, andb_true_iff, forallb_forall. cbn [snd]. rewrite viable_iff. split.
    - intros (H1 & H2 & H3). split; auto. split; auto. intros id' k' o' H' C' Ne. specialize (H3 (id', k', o')). rewrite operators_iff in H3. specialize (H3 H'). cbn [snd] in H3.
      apply viable_iff in C' as C2. rewrite C2 in H3. cbn [negb] in H3. rewrite orb_false_r in H3. apply orb_true_iff in H3 as [H3|H3].
      + apply same_operator_iff in H3. cbn in H3. congruence.
      + apply better_iff in H3; auto. apply viable_iff; auto.
    - intros (H1 & H2 & H3). split; auto. split; auto. intros [[id' k'] o'] H'. apply operators_iff in H'. cbn [snd].
      destruct (viable oc args o') eqn:V; [|cbn; rewrite orb_true_r; auto]. cbn [negb]. rewrite orb_false_r. apply orb_true_iff.
      destruct (same_operator ty (id, k, o) (id', k', o')) eqn:S; [auto|]. right. apply better_iff; auto; [apply viable_iff; auto|].
      apply H3 with (id' := id') (k' := k'); auto; [apply viable_iff; auto|]. intros [= -> ->].
      assert (same_operator ty (id, k, o) (id, k, o') = true) by (apply same_operator_iff; auto). congruence.
  Qed.

  Section Calls.
    Variables S V R : Type.
    Variable body : nat -> nat -> list V -> S -> outcome (S * R).
    Variable type_of : V -> ty.
    Local Notation call := (call ty ty_eqb conv S V R body type_of).

    Lemma call_perm : forall fs gs oc args st, Permutation fs gs -> call (Over fs) oc args st = call (Over gs) oc args st.
    Proof.
      intros fs gs oc args st P. unfold OverloadModel.call. rewrite (well_formed_perm fs gs P). destruct (well_formed (Over gs)); auto. cbn [operators classes].
      rewrite (resolve_perm oc (map type_of args) _ _ (flat_map_perm _ _ operators fs gs P)). destruct (resolve oc (map type_of args) (flat_map operators gs)) as [[[id k] o]| | | | |]; auto. cbn [bind].
      rewrite (proj1 (Permutation_count_occ Nat.eq_dec _ _) (flat_map_perm _ _ classes fs gs P) id). reflexivity.
    Qed.

    Lemma count_one : forall l id, NoDup l -> In id l -> count_occ Nat.eq_dec l id = 1.
    Proof. intros l id Hn Hi. apply (NoDup_count_occ' Nat.eq_dec l); auto. Qed.

    Lemma call_selected : forall f oc args st, well_formed f = true -> NoDup (classes f) ->
      (forall id k o, selected ty conv f oc (map type_of args) id k o ->
         call f oc args st = do ' (s, r) <- body id k args (st id); Ok (if op_const o then st else set_object st id s, r)) /\
      ((forall id k o, ~ selected ty conv f oc (map type_of args) id k o) -> call f oc args st = IllFormed).
    Proof.
      intros f oc args st W Hn. unfold OverloadModel.call. rewrite W. split.
      - intros id k o H. apply resolve_selected in H as E; auto. rewrite E. cbn [bind]. rewrite count_one; auto. destruct H as (H & _). apply operators_iff in H. eapply operators_classes; eauto.
      - intros H. destruct (resolve_iff oc (map type_of args) (operators f) (0, 0, mk_op [] true) (operators_keys f Hn)) as [_ [->|[[[id k] o] E]]]; [auto|].
        exfalso. apply resolve_selected in E; auto. eapply H; eauto.
    Qed.

    Lemma call_nested : forall fs gs hs oc args st, well_formed (Over (fs ++ Over gs :: hs)) = true -> NoDup (classes (Over (fs ++ Over gs :: hs))) ->
      call (Over (fs ++ Over gs :: hs)) oc args st = call (Over (fs ++ gs ++ hs)) oc args st.
    Proof.
      intros fs gs hs oc args st W Hn.
      assert (Eo : operators (Over (fs ++ Over gs :: hs)) = operators (Over (fs ++ gs ++ hs))) by (cbn [operators]; rewrite !flat_map_app; reflexivity).
      assert (Ec : classes (Over (fs ++ Over gs :: hs)) = classes (Over (fs ++ gs ++ hs))) by (cbn [classes]; rewrite !flat_map_app; reflexivity).
      assert (W' : well_formed (Over (fs ++ gs ++ hs)) = true).
      { rewrite Ec in Hn. cbn [well_formed classes] in *. rewrite !andb_true_iff in *. destruct W as [[W1 W2] W3].
        rewrite !forallb_app in *. cbn [forallb] in *. rewrite !andb_true_iff in *. destruct W1 as (A1 & A2 & A3). destruct W3 as (B1 & B2 & B3).
        cbn [well_formed] in A2. rewrite !andb_true_iff in A2. destruct A2 as [[A2 _] B2'].
        assert (B : forallb (fun f : functor => match f with NotABase _ => false | _ => match operators f with [] => false | _ => true end end) (fs ++ gs ++ hs) = true)
          by (rewrite !forallb_app, B1, B2', B3; auto).
        repeat split; auto. apply distinct_nodup; auto. apply Forall_forall. intros f Hi. rewrite forallb_forall in B. specialize (B f Hi). destruct (operators f) as [|[[i k] o] l] eqn:E; [destruct f; discriminate|].
        intros N. assert (In i (classes f)) by (eapply operators_classes; rewrite E; left; eauto). rewrite N in H. destruct H. }
      unfold OverloadModel.call. rewrite W, W', Eo, Ec. auto.
    Qed.
  End Calls.
End Proofs.
