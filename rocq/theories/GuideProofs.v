(** Proofs about declarations with deduced template arguments. *)

From Coq Require Import Arith Bool Lia List.
From Verif Require Import Base GuideModel GuideSpec.
Import ListNotations.

(** Induction over types. *)
Lemma ty_induction : forall P : ty -> Prop,
  (forall i c f y, P (Class i c f y)) -> (forall i, P (Scalar i)) -> P Integer -> (forall t, P t -> P (Identity t)) -> (forall t, P t -> P (Span t)) ->
  (forall ts, Forall P ts -> P (Pointers ts)) -> (forall k ts, Forall P ts -> P (Inst k ts)) -> forall t, P t.
Proof.
  intros P H1 H2 H3 H4 H5 H6 H7. fix IH 1. intros [i c f y|i| |t|t|ts|k ts].
  - apply H1.
  - apply H2.
  - apply H3.
  - apply H4, IH.
  - apply H5, IH.
  - apply H6. induction ts as [|t r IHr]; constructor; [apply IH|exact IHr].
  - apply H7. induction ts as [|t r IHr]; constructor; [apply IH|exact IHr].
Qed.

Lemma ty_eqb_spec : forall a b, ty_eqb a b = true <-> a = b.
Proof.
  induction a as [i c f y|i| |t IH|t IH|ts IH|k ts IH] using ty_induction; intros [j c' f' y'|j| |u|u|us|k' us]; cbn [ty_eqb]; try (split; [discriminate|intro H; discriminate H]).
  - rewrite !andb_true_iff, Nat.eqb_eq, !eqb_true_iff. split; [intros [[[-> ->] ->] ->]; reflexivity|intro H; injection H; auto].
  - rewrite Nat.eqb_eq. split; [intros ->; reflexivity|intro H; injection H; auto].
  - tauto.
  - rewrite IH. split; [intros ->; reflexivity|intro H; injection H; auto].
  - rewrite IH. split; [intros ->; reflexivity|intro H; injection H; auto].
  - revert us. induction IH as [|x r Hx Hr IHr]; intros [|y us]; try (split; [discriminate|intro H; discriminate H]); [tauto|].
    rewrite andb_true_iff, Hx, IHr. split; [intros [-> H]; injection H as ->; reflexivity|intro H; injection H as -> ->; auto].
  - rewrite andb_true_iff. destruct (template_eq_dec k k') as [<-|N]; [|split; [intros [H _]; discriminate|intro H; injection H; congruence]].
    split.
    + intros [_ H]. f_equal. revert us H. induction IH as [|x r Hx Hr IHr]; intros [|y us] H; try discriminate; [reflexivity|].
      apply andb_prop in H. destruct H as [A B]. apply Hx in A. subst. f_equal. exact (IHr us B).
    + intro H. injection H as <-. split; [reflexivity|]. induction IH as [|x r Hx Hr IHr]; [reflexivity|]. rewrite (proj2 (Hx x) eq_refl). exact IHr.
Qed.

Lemma distinct_spec : forall l, distinct l = true <-> NoDup l.
Proof.
  induction l as [|t r IH]; cbn [distinct]; [split; [constructor|reflexivity]|].
  rewrite andb_true_iff, negb_true_iff, IH. rewrite NoDup_cons_iff.
  assert (E : existsb (ty_eqb t) r = false <-> ~ In t r).
  { split.
    - intros H Hi. assert (existsb (ty_eqb t) r = true); [|congruence]. apply existsb_exists. exists t. split; [exact Hi|apply ty_eqb_spec; reflexivity].
    - intro H. destruct (existsb (ty_eqb t) r) eqn:E; [|reflexivity]. exfalso. apply H. apply existsb_exists in E. destruct E as [u [Hu Eu]].
      apply ty_eqb_spec in Eu. subst. exact Hu. }
  rewrite E. tauto.
Qed.

Lemma copyable_spec : forall t, copyable t = true <-> can_copy t.
Proof.
  assert (A : forall ts, Forall (fun t => copyable t = true <-> can_copy t) ts ->
    ((fix all (l : list ty) : bool := match l with [] => true | x :: r => copyable x && all r end) ts = true <-> Forall can_copy ts)).
  { induction 1 as [|x r Hx Hr IH]; [split; [constructor|reflexivity]|]. rewrite andb_true_iff, Hx, IH. split; [intros [? ?]; constructor; assumption|intro H; inversion H; auto]. }
  induction t as [i c f y|i| |t IH|t IH|ts IH|k ts IH] using ty_induction; cbn [copyable]; try (split; [intros _; constructor|reflexivity]).
  - split; [intros ->; constructor|intro H; inversion H; reflexivity].
  - destruct k; try (split; [intros _; apply copy_no_parts; auto|reflexivity]);
      rewrite (A ts IH); (split; [apply copy_parts|intro H; inversion H as [| | | | | |? ? F|? ? [E|[E|E]]]; [exact F|discriminate|discriminate|discriminate]]).
Qed.

Lemma functor_spec : forall t, functor_base t = true <-> functor t.
Proof.
  intros [i c f y|i| |t|t|ts|k ts]; cbn [functor_base]; try (split; [discriminate|intro H; inversion H]).
  - destruct c, f; cbn; (split; [try discriminate; constructor|intro H; inversion H; reflexivity]).
  - destruct k; try (split; [discriminate|intro H; inversion H]); try (split; [constructor|reflexivity]).
    destruct ts; (split; [try discriminate; constructor|intro H; inversion H; reflexivity]).
Qed.

Lemma init_ok : forall a, can_pass a -> init a = Ok (if a_copy a then Copy else Move).
Proof.
  intros a H. unfold init. destruct (a_copy a) eqn:E; [|reflexivity]. rewrite (proj2 (copyable_spec _) (H E)). reflexivity.
Qed.
Lemma init_inv : forall a e, init a = Ok e -> can_pass a /\ e = if a_copy a then Copy else Move.
Proof.
  intros a e H. unfold init in H. unfold can_pass. destruct (a_copy a); [|injection H as <-; split; [discriminate|reflexivity]].
  destruct (copyable (a_ty a)) eqn:E; [|discriminate]. injection H as <-. split; [intros _; apply copyable_spec; exact E|reflexivity].
Qed.
Lemma init_total : forall a, (exists e, init a = Ok e) \/ init a = IllFormed.
Proof. intro a. unfold init. destruct (a_copy a); [destruct (copyable (a_ty a))|]; eauto. Qed.

(** mapM of functions that do not depend on each other. *)
Lemma mapM_ok : forall (A B : Type) (f : A -> outcome B) (R : A -> B -> Prop) l,
  (forall a, In a l -> exists b, f a = Ok b /\ R a b) -> exists r, mapM f l = Ok r /\ Forall2 R l r.
Proof.
  intros A B f R l. induction l as [|a l IH]; intro H; cbn [mapM]; [exists []; split; [reflexivity|constructor]|].
  destruct (H a (or_introl eq_refl)) as [b [Eb Rb]]. destruct IH as [r [Er Rr]]; [intros x Hx; apply H; right; exact Hx|].
  exists (b :: r). rewrite Eb. cbn [bind]. rewrite Er. split; [reflexivity|constructor; assumption].
Qed.
Lemma mapM_inv : forall (A B : Type) (f : A -> outcome B) l r, mapM f l = Ok r -> Forall2 (fun a b => f a = Ok b) l r.
Proof.
  intros A B f l. induction l as [|a l IH]; intros r H; cbn [mapM] in H; [injection H as <-; constructor|].
  destruct (f a) as [b| | | | |] eqn:E; cbn [bind] in H; try discriminate. destruct (mapM f l) as [r'| | | | |]; cbn [bind] in H; try discriminate.
  injection H as <-. constructor; [exact E|apply IH; reflexivity].
Qed.

Lemma copied_spec : forall k args ts, copied k args = Some ts <-> exists a, args = [a] /\ a_ty a = Inst k ts.
Proof.
  intros k args ts. split.
  - destruct args as [|a [|b r]]; cbn [copied]; try discriminate. destruct (a_ty a) eqn:E; try discriminate. destruct (template_eq_dec k k0) as [<-|]; [|discriminate].
    intro H. injection H as <-. exists a. split; [reflexivity|exact E].
  - intros [a [-> E]]. cbn [copied]. rewrite E. destruct (template_eq_dec k k); [reflexivity|congruence].
Qed.
Lemma not_copied : forall k args, ~ same_template k args -> copied k args = None.
Proof.
  intros k args H. destruct (copied k args) as [ts|] eqn:E; [|reflexivity]. exfalso. apply H. apply copied_spec in E. destruct E as [a [E1 E2]]. exists a, ts. auto.
Qed.
