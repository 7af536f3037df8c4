(** Proofs about structured bindings. *)

From Coq Require Import ZArith Arith Bool Lia List.
From Verif Require Import Base BindModel BindSpec.
Import ListNotations.

Lemma mapM_seq_ok : forall (Y : Type) (f : nat -> outcome Y) (P : nat -> Y -> Prop) n k, (forall i, i < n -> exists y, f (k + i) = Ok y /\ P (k + i) y) ->
  exists l, mapM f (seq k n) = Ok l /\ length l = n /\ forall i y, nth_error l i = Some y -> P (k + i) y.
Proof.
  intros Y f P n. induction n as [|n IH]; intros k H.
  - exists []. split; [reflexivity|]. split; [reflexivity|]. intros [|i] y E; discriminate.
  - destruct (H 0 ltac:(lia)) as [y [Ey Py]]. rewrite Nat.add_0_r in Ey, Py.
    destruct (IH (S k)) as [l [El [Ll Pl]]].
    { intros i Hi. destruct (H (S i) ltac:(lia)) as [z [Ez Pz]]. exists z. replace (S k + i) with (k + S i) by lia. split; assumption. }
    exists (y :: l). cbn [seq mapM]. rewrite Ey. cbn [bind]. rewrite El. cbn [bind]. split; [reflexivity|]. split; [cbn; lia|].
    intros [|i] z E; cbn in E; [injection E as <-; rewrite Nat.add_0_r; exact Py|]. replace (k + S i) with (S k + i) by lia. apply Pl. exact E.
Qed.
Lemma mapM_seq_illformed : forall (Y : Type) (f : nat -> outcome Y) n k, 0 < n -> f k = IllFormed -> mapM f (seq k n) = IllFormed.
Proof. intros Y f [|n] k H E; [lia|]. cbn [seq mapM]. rewrite E. reflexivity. Qed.

Lemma tuple_size_spec : forall u n, (forall t e, u = Buffer t e -> (-1 <= e)%Z) -> (tuple_size u = Some n <-> has_elements u n).
Proof.
  intros u n Hu. split.
  - destruct u as [t e|ts|ts|ts|m]; cbn [tuple_size]; intro H; try (injection H as <-; constructor).
    destruct (Z.eqb_spec e (-1)); [discriminate|]. injection H as <-. generalize (Hu t e eq_refl). intro.
    rewrite <- (Z2Nat.id e) at 1 by lia. constructor.
  - intro H. destruct H; cbn [tuple_size]; try reflexivity.
    destruct (Z.eqb_spec (Z.of_nat n) (-1)); [lia|]. rewrite Nat2Z.id. reflexivity.
Qed.

Lemma element_spec : forall u n I t, has_elements u n -> I < n -> (tuple_element I u = Ok t <-> element_type u I t).
Proof.
  intros u n I t H Hi. destruct H as [t0 n|ts|ts|ts|n]; cbn [tuple_element]; unfold nth_type.
  - split; [intro E; injection E as <-; constructor; exact Hi|intro E; inversion E; subst; reflexivity].
  - destruct (nth_error ts I) eqn:En; cbn [bind]; split; intro E; try discriminate; [injection E as <-; constructor; exact En|inversion E; congruence|inversion E; congruence].
  - destruct (nth_error ts I) eqn:En; cbn [bind]; split; intro E; try discriminate; [injection E as <-; constructor; exact En|inversion E; congruence|inversion E; congruence].
  - destruct (nth_error ts I) eqn:En; cbn [bind]; split; intro E; try discriminate; [injection E as <-; constructor; exact En|inversion E; congruence|inversion E; congruence].
  - destruct (Nat.ltb_spec I n); [|lia]. split; [intro E; injection E as <-; constructor; exact Hi|intro E; inversion E; subst; reflexivity].
Qed.

Lemma add_const_spec : forall t t', add_const t = t' <-> const_version t t'.
Proof.
  intros t t'. split.
  - intros <-. destruct t; cbn; constructor; discriminate.
  - intro H. destruct H as [t|t H]; [reflexivity|]. destruct t; try reflexivity. exfalso. exact (H t eq_refl).
Qed.
Lemma declared_spec : forall f t t', (if form_const f then add_const t else t) = t' <-> declared_type f t t'.
Proof. intros f t t'. destruct f; cbn; try apply add_const_spec; split; congruence. Qed.

Lemma remove_add_const : forall t, remove_const (add_const t) = remove_const t. Proof. intros []; reflexivity. Qed.
Lemma is_const_add : forall t, is_const (add_const t) = true. Proof. intros []; reflexivity. Qed.
Lemma binds_refl : forall t, binds t t = true.
Proof. intro t. unfold binds. destruct (ty_eq_dec _ _); [|congruence]. destruct (is_const t); reflexivity. Qed.
Lemma binds_const : forall t, binds (add_const t) t = true.
Proof. intro t. unfold binds. rewrite remove_add_const, is_const_add. destruct (ty_eq_dec _ _); [|congruence]. apply orb_true_r. Qed.
Lemma binds_drops : forall t, binds t (add_const t) = is_const t.
Proof. intro t. unfold binds. rewrite remove_add_const, is_const_add. destruct (ty_eq_dec _ _); [|congruence]. reflexivity. Qed.
Lemma binds_form : forall f t, binds (if form_const f then add_const t else t) t = true.
Proof. intros f t. destruct (form_const f); [apply binds_const|apply binds_refl]. Qed.

Lemma bind_name_ok : forall f u n I, has_elements u n -> I < n -> ~ modifiable_rvalue f u -> exists d, bind_name f u I = Ok d /\ names_element f u I d.
Proof.
  intros f u n I H Hi Hm. unfold bind_name, tuple_element_cv. destruct H as [t n|ts|ts|ts|n]; cbn [tuple_element get]; unfold nth_type.
  - cbn [bind]. destruct (Z.eqb_spec (Z.of_nat n) (-1)); [lia|]. destruct (Z.ltb_spec (Z.of_nat I) (Z.of_nat n)); [|lia]. cbn [bind].
    assert (C : form_lvalue f || form_const f = false -> is_const t = true).
    { intro E. destruct (is_const t) eqn:Ec; [reflexivity|]. exfalso. apply Hm. exists t, (Z.of_nat n). split; [reflexivity|].
      split; [intros t' ->; discriminate|]. destruct f; try discriminate; [left|right]; reflexivity. }
    assert (B : binds (if form_const f then add_const t else t) (if form_lvalue f && negb (form_const f) then t else add_const t) = true).
    { destruct f; cbn in *; try apply binds_refl; rewrite binds_drops; apply C; reflexivity. }
    rewrite B. eexists. split; [reflexivity|]. destruct f; constructor; (auto; apply declared_spec; reflexivity).
  - destruct (nth_error ts I) eqn:En; [|apply nth_error_None in En; lia]. cbn [bind]. rewrite binds_form.
    eexists. split; [reflexivity|]. apply (names_array f ts I _ _ En). apply declared_spec. reflexivity.
  - destruct (nth_error ts I) eqn:En; [|apply nth_error_None in En; lia]. cbn [bind]. rewrite binds_form.
    eexists. split; [reflexivity|]. apply (names_span f ts I _ _ En). apply declared_spec. reflexivity.
  - destruct (nth_error ts I) eqn:En; [|apply nth_error_None in En; lia]. cbn [bind]. rewrite binds_form.
    eexists. split; [reflexivity|]. apply (names_identity f ts I _ _ En). apply declared_spec. reflexivity.
  - destruct (Nat.ltb_spec I n); [|lia]. cbn [bind]. rewrite binds_form.
    eexists. split; [reflexivity|]. apply names_constant. apply declared_spec. reflexivity.
Qed.

Lemma bind_name_rejected : forall f u n I, has_elements u n -> I < n -> modifiable_rvalue f u -> bind_name f u I = IllFormed.
Proof.
  intros f u n I H Hi [t [e [-> [Ht Hf]]]]. inversion H as [t0 n0 E1 E2| | | |]; subst. unfold bind_name, tuple_element_cv. cbn [tuple_element get bind].
  destruct (Z.eqb_spec (Z.of_nat n) (-1)); [lia|]. destruct (Z.ltb_spec (Z.of_nat I) (Z.of_nat n)); [|lia]. cbn [bind].
  assert (C : is_const t = false) by (destruct t; try reflexivity; exfalso; exact (Ht t eq_refl)).
  destruct Hf as [-> | ->]; cbn [form_const form_lvalue andb]; rewrite binds_drops, C; reflexivity.
Qed.

Lemma names_unique : forall f u I d d', names_element f u I d -> names_element f u I d' -> d = d'.
Proof.
  assert (U : forall f t a b, declared_type f t a -> declared_type f t b -> a = b).
  { intros f t a b Ha Hb. apply declared_spec in Ha. apply declared_spec in Hb. congruence. }
  intros f u I d d' H H'. destruct H; inversion H'; subst; try (intuition congruence);
    repeat match goal with A : nth_error ?l ?i = Some ?x, B : nth_error ?l ?i = Some ?y |- _ => rewrite A in B; injection B as <- end; f_equal; eauto.
Qed.
