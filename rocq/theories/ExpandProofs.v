(** Proofs about expand(). *)

From Coq Require Import ZArith Arith Bool List Lia.
From Coq.Floats Require Import SpecFloat.
From Verif Require Import Base SerializeModel SerializeSpec SerializeProofs ExpandModel ExpandSpec.
Import ListNotations.
Local Open Scope Z_scope.
Ltac Zify.zify_post_hook ::= idtac.

(* ------------------------------------------------------------------------ *)
(** ** Searching *)

Lemma aget_nat : forall A (l : list A) i x, nth_error l i = Some x -> aget l (Z.of_nat i) = Ok x.
Proof.
  intros A l i x H. unfold aget. destruct (Z.ltb_spec (Z.of_nat i) 0); [lia|].
  unfold arr_get. rewrite Nat2Z.id, H. auto.
Qed.

Lemma aget_ok : forall A (l : list A) i, 0 <= i < Z.of_nat (length l) ->
  exists x, aget l i = Ok x /\ nth_error l (Z.to_nat i) = Some x.
Proof.
  intros A l i H. destruct (nth_error l (Z.to_nat i)) as [x|] eqn:E.
  - exists x; split; auto. rewrite <- (Z2Nat.id i) by lia. apply aget_nat; auto.
  - apply nth_error_None in E. lia.
Qed.

Section SearchProofs.
  Context {A B : Type}.
  Variables (lt_AA : A -> A -> bool) (lt_AB : A -> B -> bool) (lt_BA : B -> A -> bool) (eq_AB : A -> B -> bool).

  (** The result of a search: -1, or the position of an element satisfying [Q]. *)
  Definition result_ok (Q : A -> Prop) (values : list A) (z : Z) : Prop :=
    z = -1 \/ (exists k x, z = Z.of_nat k /\ nth_error values k = Some x /\ Q x).

  Lemma linear_loop_spec : forall value rest i,
    (linear_loop eq_AB value rest i = -1 /\ (forall x, In x rest -> eq_AB x value = false)) \/
    (exists k x, linear_loop eq_AB value rest i = i + Z.of_nat k /\ nth_error rest k = Some x /\
       eq_AB x value = true).
  Proof.
    intros value. induction rest as [|y r IH]; intro i; cbn [linear_loop].
    - left; split; auto. intros x [].
    - destruct (eq_AB y value) eqn:E.
      + right. exists 0%nat, y. split; [lia|auto].
      + destruct (IH (i + 1)) as [[H1 H2]|[k [x [H1 [H2 H3]]]]].
        * left; split; auto. intros x [<-|Hx]; auto.
        * right. exists (S k), x. split; [lia|auto].
  Qed.

  Definition range_eq (values : list A) (v : B) (first last : Z) : Prop :=
    exists i x, first <= Z.of_nat i < last /\ nth_error values i = Some x /\ eq_AB x v = true.

  (** Soundness needs trichotomy only. *)
  Lemma binary_loop_sound : forall v values,
    (forall a, In a values -> lt_AB a v = false -> lt_BA v a = false -> eq_AB a v = true) ->
    forall fuel first last, 0 <= first -> last <= Z.of_nat (length values) -> last - first <= Z.of_nat fuel + 1 ->
    exists z, binary_loop lt_AB lt_BA eq_AB fuel v values first last = Ok z /\
      result_ok (fun x => eq_AB x v = true) values z.
  Proof.
    intros v values Htri. induction fuel as [|fuel IH]; intros first last Hf Hl Hd.
    - cbn [binary_loop]. rewrite Z.gtb_ltb. destruct (Z.ltb_spec 1 (last - first)); [lia|].
      destruct (Z.eqb_spec (last - first) 1).
      + destruct (aget_ok _ values first) as [x [E1 E2]]; [lia|]. rewrite E1. cbn [bind].
        destruct (eq_AB x v) eqn:Ex; eexists; split; try reflexivity; [right|left; auto].
        exists (Z.to_nat first), x. split; [lia|auto].
      + eexists; split; [reflexivity|left; auto].
    - cbn [binary_loop]. rewrite Z.gtb_ltb. destruct (Z.ltb_spec 1 (last - first)).
      + set (half := first + (last - first) / 2).
        assert (Hh : first < half < last).
        { unfold half. assert (1 <= (last - first) / 2) by (apply Z.div_le_lower_bound; lia).
          assert ((last - first) / 2 < last - first) by (apply Z.div_lt; lia). lia. }
        destruct (aget_ok _ values half) as [x [E1 E2]]; [lia|]. rewrite E1. cbn [bind].
        destruct (lt_AB x v) eqn:L1; [apply IH; lia|].
        destruct (lt_BA v x) eqn:L2; [apply IH; lia|].
        destruct (Z.eqb_spec (half + 1) last).
        * eexists; split; [reflexivity|]. right. exists (Z.to_nat half), x. split; [lia|]. split; auto.
          apply Htri; auto. eapply nth_error_In; eauto.
        * apply IH; lia.
      + destruct (Z.eqb_spec (last - first) 1).
        * destruct (aget_ok _ values first) as [x [E1 E2]]; [lia|]. rewrite E1. cbn [bind].
          destruct (eq_AB x v) eqn:Ex; eexists; split; try reflexivity; [right|left; auto].
          exists (Z.to_nat first), x. split; [lia|auto].
        * eexists; split; [reflexivity|left; auto].
  Qed.

  (** Completeness: an equal element within the range is found. *)
  Lemma binary_loop_complete : forall v values,
    (forall i j a b, (i <= j)%nat -> nth_error values i = Some a -> nth_error values j = Some b ->
       lt_AB b v = true -> lt_AB a v = true) ->
    (forall i j a b, (i <= j)%nat -> nth_error values i = Some a -> nth_error values j = Some b ->
       lt_BA v a = true -> lt_BA v b = true) ->
    (forall a, In a values -> eq_AB a v = true -> lt_AB a v = false /\ lt_BA v a = false) ->
    (forall a, In a values -> lt_AB a v = false -> lt_BA v a = false -> eq_AB a v = true) ->
    forall fuel first last, 0 <= first -> last <= Z.of_nat (length values) -> last - first <= Z.of_nat fuel + 1 ->
    range_eq values v first last ->
    exists k x, binary_loop lt_AB lt_BA eq_AB fuel v values first last = Ok (Z.of_nat k) /\
      nth_error values k = Some x /\ eq_AB x v = true.
  Proof.
    intros v values Hml Hmr Hex Htri. induction fuel as [|fuel IH]; intros first last Hf Hl Hd [i [y [Hi [Ey Hy]]]].
    - cbn [binary_loop]. rewrite Z.gtb_ltb. destruct (Z.ltb_spec 1 (last - first)); [lia|].
      destruct (Z.eqb_spec (last - first) 1); [|lia].
      assert (first = Z.of_nat i) by lia. subst first. rewrite (aget_nat _ _ _ _ Ey). cbn [bind].
      rewrite Hy. exists i, y; auto.
    - cbn [binary_loop]. rewrite Z.gtb_ltb. destruct (Z.ltb_spec 1 (last - first)).
      + set (half := first + (last - first) / 2).
        assert (Hh : first < half < last).
        { unfold half. assert (1 <= (last - first) / 2) by (apply Z.div_le_lower_bound; lia).
          assert ((last - first) / 2 < last - first) by (apply Z.div_lt; lia). lia. }
        destruct (aget_ok _ values half) as [x [E1 E2]]; [lia|]. rewrite E1. cbn [bind].
        destruct (Hex y (nth_error_In _ _ Ey) Hy) as [Hy1 Hy2].
        destruct (lt_AB x v) eqn:L1.
        { apply IH; try lia. exists i, y. split; auto.
          destruct (Z.le_gt_cases (Z.of_nat i) half); [|lia]. exfalso.
          assert (lt_AB y v = true); [|congruence].
          apply (Hml i (Z.to_nat half) y x); auto. lia. }
        destruct (lt_BA v x) eqn:L2.
        { apply IH; try lia. exists i, y. split; auto.
          destruct (Z.le_gt_cases half (Z.of_nat i)); [|lia]. exfalso.
          assert (lt_BA v y = true); [|congruence].
          apply (Hmr (Z.to_nat half) i x y); auto. lia. }
        assert (Hx : eq_AB x v = true) by (apply Htri; auto; eapply nth_error_In; eauto).
        destruct (Z.eqb_spec (half + 1) last).
        * exists (Z.to_nat half), x. rewrite Z2Nat.id by lia. auto.
        * apply IH; try lia. exists (Z.to_nat half), x. split; [lia|auto].
      + destruct (Z.eqb_spec (last - first) 1); [|lia].
        assert (first = Z.of_nat i) by lia. subst first. rewrite (aget_nat _ _ _ _ Ey). cbn [bind].
        rewrite Hy. exists i, y; auto.
  Qed.

  Lemma sorted_loop_nth : forall P : A -> Prop, (forall a b c, P a -> P b -> P c ->
      lt_AA b a = false -> lt_AA c b = false -> lt_AA c a = false) ->
    (forall a, P a -> lt_AA a a = false) ->
    forall rest prev, P prev -> Forall P rest -> sorted_loop lt_AA prev rest = true ->
    forall i j a b, (i <= j)%nat -> nth_error (prev :: rest) i = Some a -> nth_error (prev :: rest) j = Some b ->
    lt_AA b a = false.
  Proof.
    intros P Htr Hirr. induction rest as [|x r IH]; intros prev Hp Hr Hs i j a b Hij Ha Hb.
    - destruct i as [|i]; [|destruct i; discriminate]. destruct j as [|j]; [|destruct j; discriminate].
      cbn in *. assert (a = b) by congruence. subst. inversion Ha; subst. auto.
    - cbn [sorted_loop] in Hs. destruct (lt_AA x prev) eqn:E; [discriminate|].
      inversion Hr; subst. destruct i as [|i].
      + cbn in Ha. inversion Ha; subst. destruct j as [|j]; [cbn in Hb; inversion Hb; subst; auto|].
        cbn [nth_error] in Hb. assert (Pb : P b).
        { apply nth_error_In in Hb. destruct Hb as [<-|Hb]; auto. eapply Forall_forall; eauto. }
        apply (Htr a x b); auto. apply (IH x H1 H2 Hs 0%nat j x b); auto; lia.
      + destruct j as [|j]; [lia|]. cbn [nth_error] in *. apply (IH x H1 H2 Hs i j a b); auto; lia.
  Qed.

  (** The combined ordered search. *)
  Lemma search_ordered_sound : forall can_order v values,
    (forall a, In a values -> lt_AB a v = false -> lt_BA v a = false -> eq_AB a v = true) ->
    exists z, search_ordered can_order lt_AA lt_AB lt_BA eq_AB v values = Ok z /\
      result_ok (fun x => eq_AB x v = true) values z.
  Proof.
    intros can_order v values Htri. unfold search_ordered.
    destruct (are_values_sorted can_order lt_AA values).
    - unfold binary_search. apply binary_loop_sound; auto; lia.
    - eexists; split; [reflexivity|]. unfold linear_search.
      destruct (linear_loop_spec v values 0) as [[H _]|[k [x [H1 [H2 H3]]]]].
      + left; auto.
      + right. exists k, x; split; [lia|auto].
  Qed.

  Lemma search_unordered_total : forall v values,
    search_ordered false lt_AA lt_AB lt_BA eq_AB v values = Ok (linear_search eq_AB v values).
  Proof. reflexivity. Qed.

  Lemma search_ordered_complete : forall can_order v values,
    consistent lt_AA lt_AB lt_BA eq_AB (fun a => In a values) v ->
    (forall a, In a values -> lt_AA a a = false) ->
    exists z, search_ordered can_order lt_AA lt_AB lt_BA eq_AB v values = Ok z /\
      ((z = -1 /\ forall x, In x values -> eq_AB x v = false) \/
       (exists k x, z = Z.of_nat k /\ nth_error values k = Some x /\ eq_AB x v = true)).
  Proof.
    intros can_order v values Hc Hirr. unfold search_ordered.
    destruct (are_values_sorted can_order lt_AA values) eqn:Es.
    - assert (Hs : forall i j a b, (i <= j)%nat -> nth_error values i = Some a -> nth_error values j = Some b ->
                lt_AA b a = false).
      { unfold are_values_sorted in Es. destruct can_order; [|discriminate].
        destruct values as [|x r]; [intros i j a b _ H; destruct i; discriminate|].
        assert (HF : Forall (fun a => In a (x :: r)) r) by (apply Forall_forall; intros; right; auto).
        intros i j a b Hij Ha Hb.
        apply (sorted_loop_nth (fun a => In a (x :: r)) (cons_trans _ _ _ _ _ _ Hc) Hirr r x) with (i := i) (j := j); auto.
        left; auto. }
      unfold binary_search.
      destruct (existsb (fun x => eq_AB x v) values) eqn:Ex.
      + apply existsb_exists in Ex as [y [Hy Ey]]. apply In_nth_error in Hy as [i Hi].
        destruct (binary_loop_complete v values) with (fuel := length values) (first := 0) (last := Z.of_nat (length values))
          as [k [x [K1 [K2 K3]]]]; try lia.
        * intros i' j a b Hij Ha Hb H. eapply (cons_left _ _ _ _ _ _ Hc a b); eauto using nth_error_In.
        * intros i' j a b Hij Ha Hb H. eapply (cons_right _ _ _ _ _ _ Hc a b); eauto using nth_error_In.
        * intros a Ha. apply (cons_excl _ _ _ _ _ _ Hc); auto.
        * intros a Ha. apply (cons_trichotomy _ _ _ _ _ _ Hc); auto.
        * exists i, y. split; auto. split; [lia|]. assert (i < length values)%nat by (apply nth_error_Some; congruence). lia.
        * eexists; split; [exact K1|]. right. exists k, x; auto.
      + assert (Hno : forall x, In x values -> eq_AB x v = false).
        { intros x Hx. destruct (eq_AB x v) eqn:E; auto.
          assert (existsb (fun x => eq_AB x v) values = true); [|congruence]. apply existsb_exists; eauto. }
        destruct (binary_loop_sound v values) with (fuel := length values) (first := 0) (last := Z.of_nat (length values))
          as [z [Z1 Z2]]; try lia.
        * intros a Ha. apply (cons_trichotomy _ _ _ _ _ _ Hc); auto.
        * eexists; split; [exact Z1|]. left. destruct Z2 as [Z2|[k [x [K1 [K2 K3]]]]]; auto.
          rewrite Hno in K3; [discriminate|]. eapply nth_error_In; eauto.
    - eexists; split; [reflexivity|]. unfold linear_search.
      destruct (linear_loop_spec v values 0) as [[H1 H2]|[k [x [H1 [H2 H3]]]]].
      + left; auto.
      + right. exists k, x; split; [lia|auto].
  Qed.
End SearchProofs.

(* ------------------------------------------------------------------------ *)
(** ** Integral types *)

Definition ity_ok (t : ity) : Prop := 1 <= ity_bits t <= 64.

Lemma in_ity_iff : forall t x, in_ity t x = true <-> int_value (ity_bits t) (ity_signed t) x.
Proof.
  intros [b s] x. unfold in_ity, ity_min, ity_max, int_value. cbn [ity_bits ity_signed].
  rewrite andb_true_iff, !Z.leb_le. destruct s; lia.
Qed.

Lemma pow_split : forall b, 1 <= b -> 2 ^ b = 2 * 2 ^ (b - 1) /\ 0 < 2 ^ (b - 1).
Proof.
  intros b H. replace b with (Z.succ (b - 1)) at 1 by lia. rewrite Z.pow_succ_r by lia.
  split; auto. apply Z.pow_pos_nonneg; lia.
Qed.

Lemma cast_id : forall t x, 1 <= ity_bits t -> in_ity t x = true -> cast t x = x.
Proof.
  intros [b s] x Hb Hx. rewrite in_ity_iff in Hx. unfold int_value, cast in *. cbn [ity_bits ity_signed] in *.
  destruct (pow_split b Hb) as [P1 P2]. destruct s; cbn [andb].
  - destruct (Z.lt_ge_cases x 0).
    + replace (x mod 2 ^ b) with (x + 2 ^ b)
        by (apply Z.mod_unique with (q := -1); lia).
      destruct (Z.leb_spec (2 ^ (b - 1)) (x + 2 ^ b)); lia.
    + rewrite Z.mod_small by lia. destruct (Z.leb_spec (2 ^ (b - 1)) x); lia.
  - apply Z.mod_small; lia.
Qed.

Lemma cast_range : forall t x, 1 <= ity_bits t -> in_ity t (cast t x) = true.
Proof.
  intros [b s] x Hb. rewrite in_ity_iff. unfold int_value, cast. cbn [ity_bits ity_signed] in *.
  destruct (pow_split b Hb) as [P1 P2].
  pose proof (Z.mod_pos_bound x (2 ^ b)). destruct s; cbn [andb]; [|lia].
  destruct (Z.leb_spec (2 ^ (b - 1)) (x mod 2 ^ b)); lia.
Qed.

Lemma cast_mod : forall t x, 1 <= ity_bits t -> (cast t x) mod 2 ^ ity_bits t = x mod 2 ^ ity_bits t.
Proof.
  intros [b s] x Hb. unfold cast. cbn [ity_bits ity_signed] in *.
  destruct (pow_split b Hb) as [P1 P2].
  destruct (s && (2 ^ (b - 1) <=? x mod 2 ^ b)).
  - replace (x mod 2 ^ b - 2 ^ b) with (x mod 2 ^ b + (-1) * 2 ^ b) by lia.
    rewrite Z.mod_add by lia. apply Z.mod_mod; lia.
  - apply Z.mod_mod; lia.
Qed.

Lemma same_class_eq : forall t x y, 1 <= ity_bits t -> in_ity t x = true -> in_ity t y = true ->
  x mod 2 ^ ity_bits t = y mod 2 ^ ity_bits t -> x = y.
Proof.
  intros t x y Hb Hx Hy H. rewrite <- (cast_id t x), <- (cast_id t y) by auto.
  unfold cast. rewrite H. auto.
Qed.

Lemma promote_idem : forall t, promote (promote t) = promote t.
Proof.
  intros [b s]. unfold promote, int32. cbn [ity_bits]. destruct (Z.ltb_spec b 32); cbn [ity_bits]; auto.
  destruct (Z.ltb_spec b 32); auto. lia.
Qed.

Lemma promote_in : forall t x, ity_ok t -> in_ity t x = true -> in_ity (promote t) x = true.
Proof.
  intros [b s] x Hb H. unfold promote, int32, ity_ok in *. cbn [ity_bits] in *.
  destruct (Z.ltb_spec b 32); auto. rewrite in_ity_iff in *. unfold int_value in *. cbn [ity_bits ity_signed] in *.
  assert (2 ^ b <= 2 ^ 31) by (apply Z.pow_le_mono_r; lia).
  destruct (pow_split b) as [P1 P2]; [lia|].
  change (32 - 1) with 31. destruct s; lia.
Qed.

Lemma promote_ok : forall t, ity_ok t -> ity_ok (promote t) /\ ity_bits t <= ity_bits (promote t).
Proof.
  intros [b s] H. unfold promote, int32, ity_ok in *. cbn [ity_bits] in *.
  destruct (Z.ltb_spec b 32); cbn [ity_bits]; lia.
Qed.

Lemma common_type_same : forall t, common_type t t = promote t.
Proof.
  intro t. unfold common_type. rewrite Bool.eqb_reflx, Z.ltb_irrefl. auto.
Qed.

Lemma common_type_promote : forall t, common_type t (promote t) = promote t.
Proof.
  intro t. unfold common_type. rewrite promote_idem, Bool.eqb_reflx, Z.ltb_irrefl. auto.
Qed.

Lemma common_type_sym : forall a b, common_type a b = common_type b a.
Proof.
  intros a b. unfold common_type. set (p := promote a). set (q := promote b).
  clearbody p q. destruct p as [b1 s1], q as [b2 s2]. cbn [ity_bits ity_signed].
  destruct s1, s2; cbn [Bool.eqb]; auto;
    destruct (Z.ltb_spec b1 b2), (Z.ltb_spec b2 b1); auto; try lia;
    assert (b1 = b2) by lia; subst; auto.
Qed.

Lemma common_type_ok : forall a b, ity_ok a -> ity_ok b -> ity_ok (common_type a b).
Proof.
  intros a b Ha Hb. apply promote_ok in Ha as [Ha _]. apply promote_ok in Hb as [Hb _].
  unfold common_type. destruct (Bool.eqb _ _); [destruct (_ <? _); auto|].
  destruct (ity_signed (promote a)); destruct (_ <=? _); auto.
Qed.

Lemma int_lt_same : forall t x y, ity_ok t -> in_ity t x = true -> in_ity t y = true -> int_lt t t x y = (x <? y).
Proof.
  intros t x y Ht Hx Hy. unfold int_lt. rewrite common_type_same.
  destruct (promote_ok t Ht) as [Hp _].
  rewrite !cast_id; auto using promote_in; apply Hp.
Qed.

Lemma int_eq_same : forall t x y, ity_ok t -> in_ity t x = true -> in_ity t y = true -> int_eq t t x y = (x =? y).
Proof.
  intros t x y Ht Hx Hy. unfold int_eq. rewrite common_type_same.
  destruct (promote_ok t Ht) as [Hp _].
  rewrite !cast_id; auto using promote_in; apply Hp.
Qed.

(** Built-in comparisons between different types are trichotomous. *)
Lemma int_trichotomy : forall ct t a v,
  int_lt ct t a v = false -> int_lt t ct v a = false -> int_eq ct t a v = true.
Proof.
  intros ct t a v H1 H2. unfold int_lt, int_eq in *. rewrite (common_type_sym t ct) in H2.
  apply Z.ltb_ge in H1. apply Z.ltb_ge in H2. apply Z.eqb_eq. lia.
Qed.

Lemma int_arith_range : forall t r z, int_arith t r = Ok z ->
  (ity_signed t = true /\ z = r /\ in_ity t r = true) \/ (ity_signed t = false /\ z = cast t r).
Proof.
  intros t r z H. unfold int_arith in H. destruct (ity_signed t) eqn:E.
  - left. destruct (in_ity t r) eqn:E2; inversion H; subst; auto.
  - right. inversion H; auto.
Qed.

(** An unsigned promoted type is the type itself. *)
Lemma promote_unsigned : forall t, ity_signed (promote t) = false -> promote t = t.
Proof.
  intros t H. unfold promote in *. destruct (_ <? _); auto. discriminate.
Qed.

(** Contiguity, positively: the i-th representation is r + i modulo the width, and exactly r + i if no
    element other than the last is the largest value of the promoted type. *)
Lemma contiguous_loop_true : forall rep, ity_ok rep -> forall rest r, in_ity rep r = true ->
  contiguous_loop rep r rest = Ok true ->
  forall i x, nth_error rest i = Some x ->
    (cast rep x) mod 2 ^ ity_bits rep = (r + 1 + Z.of_nat i) mod 2 ^ ity_bits rep.
Proof.
  intros rep Hrep. destruct Hrep as [Hb Hb'].
  assert (Hp0 : 0 < 2 ^ ity_bits rep) by (apply Z.pow_pos_nonneg; lia).
  induction rest as [|y rest IH]; intros r Hr H i x Hi; [destruct i; discriminate|].
  cbn [contiguous_loop] in H. apply bind_ok_inv in H as [r1 [H1 H]].
  destruct (negb (int_eq rep (promote rep) (cast rep y) r1)) eqn:E; [discriminate|].
  apply negb_false_iff in E. unfold int_eq in E. rewrite common_type_promote in E. apply Z.eqb_eq in E.
  destruct (promote_ok rep) as [[Hq1 Hq2] Hq3]; [split; auto|].
  assert (Hy : in_ity rep (cast rep y) = true) by (apply cast_range; auto).
  rewrite (cast_id (promote rep) (cast rep y)) in E by (auto using promote_in; apply promote_in; auto; split; auto).
  assert (Hc : (cast rep y) mod 2 ^ ity_bits rep = (r + 1) mod 2 ^ ity_bits rep).
  { apply int_arith_range in H1 as [[S1 [-> S3]]|[S1 ->]].
    - rewrite (cast_id (promote rep) (r + 1)) in E by auto. rewrite E. auto.
    - apply promote_unsigned in S1 as S2. rewrite S2 in E.
      rewrite E. rewrite !cast_mod by auto. auto. }
  destruct i as [|i].
  - cbn in Hi. inversion Hi; subst. rewrite Hc. f_equal. lia.
  - cbn in Hi. rewrite (IH _ Hy H i x Hi).
    replace (cast rep y + 1 + Z.of_nat i) with (cast rep y + (1 + Z.of_nat i)) by lia.
    rewrite <- Z.add_mod_idemp_l, Hc, Z.add_mod_idemp_l by lia. f_equal. lia.
Qed.

Lemma contiguous_true : forall rep values, ity_ok rep ->
  are_values_contiguous rep values = Ok true ->
  exists x0, nth_error values 0 = Some x0 /\
    forall i x, nth_error values i = Some x ->
      (cast rep x) mod 2 ^ ity_bits rep = (cast rep x0 + Z.of_nat i) mod 2 ^ ity_bits rep.
Proof.
  intros rep [|x0 rest] Hrep H; [discriminate|]. exists x0; split; auto.
  cbn [are_values_contiguous] in H. intros [|i] x Hi; cbn in Hi.
  - inversion Hi; subst. f_equal. lia.
  - rewrite (contiguous_loop_true rep Hrep rest (cast rep x0)) with (i := i); auto.
    + f_equal. lia.
    + apply cast_range. destruct Hrep; auto.
Qed.

(** The offset lookup: either -1 or a position whose representation equals that of the value. *)
Lemma search_contiguous_sound : forall rep value values z, ity_ok rep ->
  Z.of_nat (length values) < 2 ^ 63 ->
  are_values_contiguous rep values = Ok true ->
  search_contiguous rep value values = Ok z ->
  result_ok (fun x => cast rep x = cast rep value) values z.
Proof.
  intros rep value values z Hrep Hn Hc Hs. destruct (contiguous_true _ _ Hrep Hc) as [x0 [E0 Hx]].
  unfold search_contiguous in Hs. unfold arr_get in Hs. rewrite E0 in Hs. cbn [bind] in Hs.
  pose proof Hrep as [Hb Hb']. destruct (promote_ok rep Hrep) as [Hp Hp'].
  assert (R0 : in_ity rep (cast rep x0) = true) by (apply cast_range; auto).
  assert (R : in_ity rep (cast rep value) = true) by (apply cast_range; auto).
  rewrite int_lt_same in Hs by auto.
  destruct (Z.ltb_spec (cast rep value) (cast rep x0)); [inversion Hs; left; auto|].
  apply bind_ok_inv in Hs as [d [Hd Hs]].
  assert (Ed : d = cast rep value - cast rep x0).
  { apply int_arith_range in Hd as [[S1 [-> S3]]|[S1 ->]]; auto.
    apply promote_unsigned in S1 as S2. rewrite S2 in *. apply cast_id; auto.
    rewrite in_ity_iff in *. unfold int_value in *. rewrite S1 in *. lia. }
  rewrite Hd in Hs. cbn [bind] in Hs.
  rewrite Z.geb_leb in Hs. destruct (Z.leb_spec (Z.of_nat (length values)) (cast size_ty d)); [inversion Hs; left; auto|].
  assert (D0 : 0 <= d) by lia.
  assert (Dm : d <= 2 ^ 64 - 1).
  { rewrite in_ity_iff in R, R0. unfold int_value in R, R0.
    assert (2 ^ ity_bits rep <= 2 ^ 64) by (apply Z.pow_le_mono_r; lia).
    destruct (pow_split (ity_bits rep) Hb) as [P1 P2]. destruct (ity_signed rep); lia. }
  rewrite cast_id in H0.
  2:{ cbn. lia. }
  2:{ rewrite in_ity_iff. unfold int_value, size_ty. cbn [ity_bits ity_signed]. lia. }
  rewrite cast_id in Hs.
  2:{ cbn. lia. }
  2:{ rewrite in_ity_iff. unfold int_value, ptrdiff_ty. cbn [ity_bits ity_signed]. change (64 - 1) with 63. lia. }
  inversion Hs; subst z. right.
  destruct (nth_error values (Z.to_nat d)) as [x|] eqn:Ex.
  2:{ apply nth_error_None in Ex. lia. }
  exists (Z.to_nat d), x. split; [lia|]. split; auto.
  apply (same_class_eq rep); auto. { apply cast_range; auto. }
  rewrite (Hx _ _ Ex). rewrite Z2Nat.id by lia. f_equal. lia.
Qed.

(** ** Soundness for integral types *)

Lemma rep_of_ok : forall t is_bool, ity_ok t -> ity_ok (rep_of t is_bool).
Proof. intros t [|] H; unfold rep_of; auto. unfold ity_ok, int32; cbn; lia. Qed.

Definition type_ok (t : ity) (is_bool : bool) : Prop :=
  ity_ok t /\ (is_bool = true -> t = mk_ity 1 false).

Lemma rep_in : forall t is_bool x, type_ok t is_bool -> in_ity t x = true -> in_ity (rep_of t is_bool) x = true.
Proof.
  intros t [|] x [Ht Hb] H; unfold rep_of; auto. rewrite (Hb eq_refl) in *.
  rewrite in_ity_iff in *. unfold int_value in *. cbn [ity_bits ity_signed int32] in *.
  change (2 ^ 1) with 2 in H. change (2 ^ (32 - 1)) with 2147483648. lia.
Qed.

Lemma search_int_sound : forall t is_bool ct value values z,
  type_ok t is_bool -> ity_ok ct ->
  in_ity t value = true -> Forall (fun x => in_ity ct x = true) values ->
  Forall (fun x => in_ity (rep_of t is_bool) x = true) values ->
  Z.of_nat (length values) < 2 ^ 63 ->
  search_int t is_bool ct value values = Ok z ->
  result_ok (fun x => int_eq ct t x value = true) values z.
Proof.
  intros t is_bool ct value values z [Ht Hbool] Hct Hv Hvals Hrep Hlen Hs.
  unfold search_int in Hs. apply bind_ok_inv in Hs as [c [Hc Hs]].
  destruct c.
  - assert (Hc' : are_values_contiguous (rep_of t is_bool) values = Ok true).
    { unfold constexpr_init in Hc. destruct (are_values_contiguous _ _); try discriminate. congruence. }
    pose proof (search_contiguous_sound _ _ _ _ (rep_of_ok t is_bool Ht) Hlen Hc' Hs) as R.
    destruct R as [R|[k [x [K1 [K2 K3]]]]]; [left; auto|right]. exists k, x. split; auto. split; auto.
    assert (Hx : In x values) by (eapply nth_error_In; eauto).
    rewrite Forall_forall in Hrep, Hvals.
    destruct (rep_of_ok t is_bool Ht) as [Hr1 Hr2].
    rewrite cast_id in K3 by auto.
    rewrite cast_id in K3 by (auto; apply rep_in; auto; split; auto).
    subst x. unfold int_eq. apply Z.eqb_refl.
  - destruct (search_ordered_sound (int_lt ct ct) (int_lt ct t) (int_lt t ct) (int_eq ct t) true value values) as [z' [E R]].
    + intros a _. apply int_trichotomy.
    + rewrite E in Hs. inversion Hs; subst. auto.
Qed.

Lemma select_ok : forall A (values : list A) k x, nth_error values k = Some x -> select values (Z.of_nat k) = Ok k.
Proof.
  intros A values k x H. unfold select. rewrite (aget_nat _ _ _ _ H). cbn [bind]. rewrite Nat2Z.id. auto.
Qed.

Lemma wrap_sound : forall A (ok : bool) (values : list A) index (Q : A -> Prop),
  (forall z, index = Ok z -> result_ok Q values z) ->
  sound (fun k => exists x, nth_error values k = Some x /\ Q x)
    (expand ok index values) (try_expand ok index values) (expand_failfast ok index values).
Proof.
  intros A ok values index Q H.
  assert (Hsel : forall z k, index = Ok z -> z <> -1 -> select values z = Ok k ->
            exists x, nth_error values k = Some x /\ Q x).
  { intros z k Hz Hne Hs. destruct (H z Hz) as [E|[j [x [-> [K1 K2]]]]]; [contradiction|].
    rewrite (select_ok _ _ _ _ K1) in Hs. inversion Hs; subst. eauto. }
  unfold sound, expand, try_expand, expand_failfast.
  destruct (variant_map_ok ok values); [|repeat split; intros; discriminate].
  destruct index as [z| | | | |]; cbn [bind]; try (repeat split; intros; discriminate).
  split; [|split].
  - intros k E. destruct (Z.ltb_spec z 0); [discriminate|]. apply (Hsel z); auto. lia.
  - intros k E. destruct (Z.ltb_spec z 0); [discriminate|].
    apply bind_ok_inv in E as [k' [E1 E2]]. inversion E2; subst. apply (Hsel z); auto. lia.
  - intros k E. rewrite Z.geb_leb in E. destruct (Z.leb_spec 0 z); cbn [expects bind] in E; [|discriminate].
    apply (Hsel z); auto. lia.
Qed.

Lemma expand_int_sound : forall t is_bool ct value values,
  type_ok t is_bool -> ity_ok ct ->
  in_ity t value = true -> Forall (fun x => in_ity ct x = true) values ->
  Forall (fun x => in_ity (rep_of t is_bool) x = true) values ->
  Z.of_nat (length values) < 2 ^ 63 ->
  sound (fun k => exists x, nth_error values k = Some x /\ int_eq ct t x value = true)
    (expand_int t is_bool ct value values) (try_expand_int t is_bool ct value values)
    (expand_failfast_int t is_bool ct value values).
Proof.
  intros. apply wrap_sound. intros z Hz. eapply search_int_sound; eauto.
Qed.

(** ** Completeness for integral types (element type = type of the runtime value) *)

Definition no_inner_max (t : ity) (values : list Z) : Prop :=
  forall i, (S i < length values)%nat -> nth_error values i <> Some (ity_max t).

Lemma promoted_max : forall rep x, ity_ok rep -> ity_bits rep <> 31 -> in_ity rep x = true ->
  (32 <= ity_bits rep -> x <> ity_max rep) -> in_ity (promote rep) (x + 1) = true.
Proof.
  intros [b s] x [Hb Hb'] H31 Hx Hm. unfold promote, int32. cbn [ity_bits] in *.
  rewrite in_ity_iff in *. unfold int_value in *. cbn [ity_bits ity_signed] in *.
  destruct (pow_split b Hb) as [P1 P2].
  destruct (Z.ltb_spec b 32); cbn [ity_bits ity_signed].
  - change (32 - 1) with 31. assert (2 ^ b <= 2 ^ 30) by (apply Z.pow_le_mono_r; lia).
    change (2 ^ 31) with (2 * 2 ^ 30). destruct s; lia.
  - specialize (Hm H). unfold ity_max in Hm. cbn [ity_bits ity_signed] in Hm. destruct s; lia.
Qed.

Lemma contiguous_loop_exact : forall rep, ity_ok rep -> ity_bits rep <> 31 -> forall rest r,
  in_ity rep r = true -> Forall (fun x => in_ity rep x = true) rest ->
  (32 <= ity_bits rep -> no_inner_max rep (r :: rest)) ->
  exists b, contiguous_loop rep r rest = Ok b /\
    (b = true <-> forall i x, nth_error rest i = Some x -> x = r + 1 + Z.of_nat i).
Proof.
  intros rep Hrep H31. pose proof Hrep as [Hb Hb']. destruct (promote_ok rep Hrep) as [[Hp1 Hp2] Hp3].
  induction rest as [|y rest IH]; intros r Hr Hrest Hm; cbn [contiguous_loop].
  - exists true; split; auto. split; auto. intros _ [|i] x E; discriminate.
  - inversion Hrest; subst. rewrite (cast_id rep y) by auto.
    assert (Hr1 : in_ity (promote rep) (r + 1) = true).
    { apply promoted_max; auto. intros H32 E. apply (Hm H32 0%nat); [cbn; lia|]. cbn; congruence. }
    assert (Ha : int_arith (promote rep) (r + 1) = Ok (r + 1)).
    { unfold int_arith. rewrite Hr1. destruct (ity_signed (promote rep)); auto. rewrite cast_id; auto. }
    rewrite Ha. cbn [bind]. unfold int_eq. rewrite common_type_promote.
    rewrite !cast_id by (auto; apply promote_in; auto).
    destruct (Z.eqb_spec y (r + 1)) as [->|Hne]; cbn [negb].
    + destruct (IH (r + 1) H1 H2) as [b [E1 E2]].
      { intros H32 i Hi. apply (Hm H32 (S i)). cbn in *; lia. }
      exists b; split; auto. rewrite E2. split.
      * intros H [|i] x E; cbn in E; [inversion E; lia|]. rewrite (H i x E). lia.
      * intros H i x E. rewrite (H (S i) x E). lia.
    + exists false; split; auto. split; [discriminate|].
      intro H. specialize (H 0%nat y eq_refl). lia.
Qed.

Section Contiguous.
  Variables (t : ity) (is_bool : bool) (value : Z) (values : list Z).
  Hypothesis Ht : type_ok t is_bool.
  Hypothesis H31 : ity_bits t <> 31.
  Hypothesis Hv : in_ity t value = true.
  Hypothesis Hvals : Forall (fun x => in_ity t x = true) values.
  Hypothesis Hlen : Z.of_nat (length values) < 2 ^ 63.
  Hypothesis Hmax : 32 <= ity_bits t -> no_inner_max t values.
  Let rep := rep_of t is_bool.
  Let Hrep : ity_ok rep.
  Proof. destruct Ht. apply rep_of_ok; auto. Qed.
  Let Hvr : in_ity rep value = true.
  Proof. apply rep_in; auto. Qed.
  Let Hvalsr : Forall (fun x => in_ity rep x = true) values.
  Proof. eapply Forall_impl; [|exact Hvals]. intros; apply rep_in; auto. Qed.

  Lemma rep_wide : 32 <= ity_bits rep -> no_inner_max rep values.
  Proof.
    intro H. unfold rep, rep_of in *. destruct is_bool eqn:E; auto.
    intros i Hi C. apply nth_error_In in C. rewrite Forall_forall in Hvals. apply Hvals in C.
    destruct Ht as [_ Hb]. rewrite (Hb eq_refl) in C. revert C.
    rewrite in_ity_iff. unfold int_value, ity_max, int32. cbn [ity_bits ity_signed].
    change (2 ^ 1) with 2. change (2 ^ (32 - 1)) with 2147483648. lia.
  Qed.

  Lemma contiguous_exact : exists b, are_values_contiguous rep values = Ok b /\
    (b = true <-> values <> [] /\ consecutive values).
  Proof.
    pose proof rep_wide as Hw. destruct values as [|x0 rest] eqn:Ev.
    - exists false; split; auto. split; [discriminate|]. intros [H _]; congruence.
    - cbn [are_values_contiguous]. inversion Hvalsr; subst.
      assert (Hr1 : 1 <= ity_bits rep) by (destruct Hrep; auto).
      rewrite cast_id by auto.
      assert (H31' : ity_bits rep <> 31) by (unfold rep, rep_of; destruct is_bool; cbn; lia).
      destruct (contiguous_loop_exact rep Hrep H31' rest x0) as [b [E1 E2]]; auto.
      exists b; split; auto. rewrite E2. split.
      + intro H. split; [discriminate|]. intros y0 Hy0. cbn in Hy0. inversion Hy0; subst.
        intros [|i] x Hx; cbn in Hx; [inversion Hx; lia|]. rewrite (H i x Hx). lia.
      + intros [_ H] i x Hx. rewrite (H x0 eq_refl (S i) x Hx). lia.
  Qed.

End Contiguous.

Section IntComplete.
  Variables (t : ity) (is_bool : bool) (value : Z) (values : list Z).
  Hypothesis Ht : type_ok t is_bool.
  Hypothesis H31 : ity_bits t <> 31.
  Hypothesis Hv : in_ity t value = true.
  Hypothesis Hvals : Forall (fun x => in_ity t x = true) values.
  Hypothesis Hlen : Z.of_nat (length values) < 2 ^ 63.
  Hypothesis Hcont : exists b, are_values_contiguous (rep_of t is_bool) values = Ok b /\ (b = true <-> values <> [] /\ consecutive values).
  Hypothesis Hsub : ity_signed t = true -> 32 <= ity_bits t -> consecutive values ->
    forall x0, nth_error values 0 = Some x0 -> value - x0 <= ity_max t.

  Let rep := rep_of t is_bool.
  Let Hrep : ity_ok rep.
  Proof. destruct Ht. apply rep_of_ok; auto. Qed.
  Let Hvr : in_ity rep value = true.
  Proof. apply rep_in; auto. Qed.
  Let Hvalsr : Forall (fun x => in_ity rep x = true) values.
  Proof. eapply Forall_impl; [|exact Hvals]. intros; apply rep_in; auto. Qed.

  Lemma search_int_complete : exists z, search_int t is_bool t value values = Ok z /\
    ((z = -1 /\ ~ In value values) \/ (exists k, z = Z.of_nat k /\ nth_error values k = Some value)).
  Proof.
    pose proof Ht as [Ht0 _]. pose proof Hrep as [Hb Hb']. destruct (promote_ok rep Hrep) as [[Hp1 Hp2] Hp3].
    destruct Hcont as [b [Ec Hb2]].
    unfold search_int. rewrite Ec. cbn [constexpr_init bind]. fold rep.
    destruct b.
    - destruct (proj1 Hb2 eq_refl) as [Hne Hcons].
      assert (exists x0, nth_error values 0 = Some x0) as [x0 E0].
      { destruct values as [|x0 r]; [congruence|]. exists x0; auto. }
      assert (Hx0 : in_ity rep x0 = true).
      { rewrite Forall_forall in Hvalsr. apply Hvalsr. eapply nth_error_In; eauto. }
      assert (Hdec : In value values -> x0 <= value).
      { intro Hi. apply In_nth_error in Hi as [i Hi]. rewrite (Hcons x0 E0 i _ Hi). lia. }
      assert (Hok : exists z, search_contiguous rep value values = Ok z /\
                (value < x0 -> z = -1) /\
                (x0 <= value -> z = if Z.of_nat (length values) <=? value - x0 then -1 else value - x0)).
      { unfold search_contiguous, arr_get. rewrite E0. cbn [bind]. rewrite int_lt_same by (auto; apply cast_range; auto).
        rewrite !cast_id by auto. destruct (Z.ltb_spec value x0).
        - eexists; split; [reflexivity|]. split; auto. lia.
        - assert (Ha : int_arith (promote rep) (value - x0) = Ok (value - x0)).
          { assert (Hin : in_ity (promote rep) (value - x0) = true).
            { rewrite in_ity_iff. unfold int_value. destruct (ity_signed (promote rep)) eqn:Es.
              - pose proof (pow_split _ Hp1) as [P1 P2]. split; [lia|].
                unfold rep, rep_of in *. destruct is_bool eqn:Eb.
                + cbn. assert (in_ity t x0 = true).
                  { rewrite Forall_forall in Hvals. apply Hvals. eapply nth_error_In; eauto. }
                  destruct Ht as [_ Hbb]. rewrite (Hbb eq_refl) in *.
                  rewrite in_ity_iff in *. unfold int_value in *. cbn [ity_bits ity_signed] in *.
                  change (2 ^ 1) with 2 in *. lia.
                + unfold promote in *. destruct (Z.ltb_spec (ity_bits t) 32).
                  * cbn. rewrite in_ity_iff in Hvr, Hx0. unfold int_value in Hvr, Hx0.
                    assert (2 ^ ity_bits t <= 2 ^ 31) by (apply Z.pow_le_mono_r; lia).
                    destruct (pow_split (ity_bits t)) as [P3 P4]; [lia|].
                    destruct (ity_signed t); lia.
                  * specialize (Hsub Es H0 Hcons x0 E0). unfold ity_max in Hsub. rewrite Es in Hsub. lia.
              - pose proof (promote_unsigned _ Es) as Eq. rewrite Eq in Es. rewrite Eq.
                rewrite in_ity_iff in Hvr, Hx0. unfold int_value in Hvr, Hx0.
                rewrite Es in Hvr, Hx0. lia. }
            unfold int_arith. rewrite Hin. destruct (ity_signed (promote rep)); auto. rewrite cast_id; auto. }
          rewrite Ha. cbn [bind]. rewrite Z.geb_leb.
          assert (Dm : value - x0 <= 2 ^ 64 - 1).
          { rewrite in_ity_iff in Hvr, Hx0. unfold int_value in Hvr, Hx0.
            assert (2 ^ ity_bits rep <= 2 ^ 64) by (apply Z.pow_le_mono_r; lia).
            destruct (pow_split (ity_bits rep) Hb) as [P1 P2]. destruct (ity_signed rep); lia. }
          rewrite (cast_id size_ty).
          2:{ cbn. lia. }
          2:{ rewrite in_ity_iff. unfold int_value, size_ty. cbn [ity_bits ity_signed]. lia. }
          destruct (Z.leb_spec (Z.of_nat (length values)) (value - x0)) as [Hge|Hlt].
          + eexists; split; [reflexivity|]. split; auto; lia.
          + eexists; split; [reflexivity|].
            rewrite cast_id; [split; lia|cbn; lia|].
            rewrite in_ity_iff. unfold int_value, ptrdiff_ty. cbn [ity_bits ity_signed]. change (64 - 1) with 63. lia. }
      destruct Hok as [z [Ez [Z1 Z2]]]. rewrite Ez. exists z; split; auto.
      destruct (Z.lt_ge_cases value x0) as [Hlt|Hge].
      + left. split; auto. intro Hi. apply Hdec in Hi. lia.
      + rewrite (Z2 Hge). destruct (Z.leb_spec (Z.of_nat (length values)) (value - x0)) as [H|H].
        * left; split; auto. intro Hi. apply In_nth_error in Hi as [i Hi].
          rewrite (Hcons x0 E0 i _ Hi) in H.
          assert (i < length values)%nat by (apply nth_error_Some; congruence). lia.
        * right. exists (Z.to_nat (value - x0)). split; [lia|].
          destruct (nth_error values (Z.to_nat (value - x0))) as [x|] eqn:Ex.
          -- f_equal. rewrite (Hcons x0 E0 _ _ Ex). lia.
          -- apply nth_error_None in Ex. lia.
    - assert (Hin : forall x, In x values -> in_ity t x = true) by (apply Forall_forall; auto).
      destruct (search_ordered_complete (int_lt t t) (int_lt t t) (int_lt t t) (int_eq t t) true value values)
        as [z [E [[-> Hno]|[k [x [-> [K1 K2]]]]]]].
      + constructor; intros; rewrite ?int_lt_same, ?int_eq_same in * by auto;
          rewrite ?Z.ltb_lt, ?Z.ltb_ge, ?Z.eqb_eq in *; try lia.
      + intros a Ha. rewrite int_lt_same by auto. apply Z.ltb_irrefl.
      + eexists; split; [exact E|]. left; split; auto. intro Hi. specialize (Hno _ Hi).
        rewrite int_eq_same in Hno by auto. apply Z.eqb_neq in Hno. auto.
      + eexists; split; [exact E|]. right. exists k; split; auto.
        rewrite int_eq_same in K2; auto. apply Z.eqb_eq in K2. congruence.
        apply Hin. eapply nth_error_In; eauto.
  Qed.
End IntComplete.

Lemma all_distinct_iff : forall values, all_distinct values = true <-> NoDup values.
Proof.
  induction values as [|x r IH]; cbn [all_distinct].
  - split; auto. constructor.
  - rewrite andb_true_iff, negb_true_iff, IH, NoDup_cons_iff. split; intros [H1 H2]; split; auto.
    + intro Hi. assert (existsb (Z.eqb x) r = true); [|congruence].
      apply existsb_exists. exists x; split; auto. apply Z.eqb_refl.
    + apply not_true_is_false. intro H. apply existsb_exists in H as [y [Hy E]]. apply Z.eqb_eq in E.
      subst; auto.
Qed.

Lemma wrap_behaves : forall A (ok : bool) (values : list A) (found : nat -> Prop) z,
  variant_map_ok ok values = true ->
  ((z = -1 /\ forall k, ~ found k) \/ (exists k x, z = Z.of_nat k /\ nth_error values k = Some x /\ found k)) ->
  behaves found (expand ok (Ok z) values) (try_expand ok (Ok z) values) (expand_failfast ok (Ok z) values).
Proof.
  intros A ok values found z Hok H. unfold behaves, expand, try_expand, expand_failfast. rewrite Hok. cbn [bind].
  destruct H as [[-> H]|[k [x [-> [H1 H2]]]]].
  - right. repeat split; auto.
  - left. exists k. rewrite (select_ok _ _ _ _ H1).
    destruct (Z.ltb_spec (Z.of_nat k) 0); [lia|]. rewrite Z.geb_leb.
    destruct (Z.leb_spec 0 (Z.of_nat k)); [|lia]. repeat split; auto.
Qed.

Lemma expand_int_complete_gen : forall t is_bool value values,
  type_ok t is_bool -> ity_bits t <> 31 -> in_ity t value = true -> Forall (fun x => in_ity t x = true) values ->
  Z.of_nat (length values) < 2 ^ 63 ->
  NoDup values -> values <> [] ->
  (exists b, are_values_contiguous (rep_of t is_bool) values = Ok b /\ (b = true <-> values <> [] /\ consecutive values)) ->
  (ity_signed t = true -> 32 <= ity_bits t -> consecutive values ->
    forall x0, nth_error values 0 = Some x0 -> value - x0 <= ity_max t) ->
  behaves (fun k => nth_error values k = Some value)
    (expand_int t is_bool t value values) (try_expand_int t is_bool t value values)
    (expand_failfast_int t is_bool t value values).
Proof.
  intros t is_bool value values Ht H31 Hv Hvals Hlen Hnd Hne Hmax Hsub.
  destruct (search_int_complete t is_bool value values Ht H31 Hv Hvals Hlen Hmax Hsub) as [z [E H]].
  unfold expand_int, try_expand_int, expand_failfast_int. rewrite E. apply wrap_behaves.
  - unfold variant_map_ok. destruct values; [congruence|]. apply all_distinct_iff; auto.
  - destruct H as [[-> H]|[k [-> H]]].
    + left; split; auto. intros k Hk. apply H. eapply nth_error_In; eauto.
    + right. exists k, value; auto.
Qed.

Lemma expand_int_complete : forall t is_bool value values,
  type_ok t is_bool -> ity_bits t <> 31 -> in_ity t value = true -> Forall (fun x => in_ity t x = true) values ->
  Z.of_nat (length values) < 2 ^ 63 ->
  NoDup values -> values <> [] ->
  (32 <= ity_bits t -> no_inner_max t values) ->
  (ity_signed t = true -> 32 <= ity_bits t -> consecutive values ->
    forall x0, nth_error values 0 = Some x0 -> value - x0 <= ity_max t) ->
  behaves (fun k => nth_error values k = Some value)
    (expand_int t is_bool t value values) (try_expand_int t is_bool t value values)
    (expand_failfast_int t is_bool t value values).
Proof.
  intros t is_bool value values Ht H31 Hv Hvals Hlen Hnd Hne Hmax Hsub. apply expand_int_complete_gen; auto.
  apply contiguous_exact with value; auto.
Qed.

(** ** Other types *)

Lemma expand_other_sound : forall A B can_order lt_AA lt_AB lt_BA eq_AB (value : B) (values : list A),
  (forall a, In a values -> lt_AB a value = false -> lt_BA value a = false -> eq_AB a value = true) ->
  sound (fun k => exists x, nth_error values k = Some x /\ eq_AB x value = true)
    (expand_other can_order lt_AA lt_AB lt_BA eq_AB value values)
    (try_expand_other can_order lt_AA lt_AB lt_BA eq_AB value values)
    (expand_failfast_other can_order lt_AA lt_AB lt_BA eq_AB value values).
Proof.
  intros A B co lAA lAB lBA eAB value values Htri. apply wrap_sound. intros z Hz.
  destruct (search_ordered_sound lAA lAB lBA eAB co value values Htri) as [z' [E R]].
  unfold search_other in Hz. rewrite E in Hz. inversion Hz; subst; auto.
Qed.

Lemma expand_unordered_sound : forall A B lt_AA lt_AB lt_BA eq_AB (value : B) (values : list A),
  sound (fun k => exists x, nth_error values k = Some x /\ eq_AB x value = true)
    (expand_other false lt_AA lt_AB lt_BA eq_AB value values)
    (try_expand_other false lt_AA lt_AB lt_BA eq_AB value values)
    (expand_failfast_other false lt_AA lt_AB lt_BA eq_AB value values).
Proof.
  intros A B lAA lAB lBA eAB value values. apply wrap_sound. intros z Hz.
  unfold search_other in Hz. rewrite search_unordered_total in Hz. inversion Hz; subst.
  unfold linear_search. destruct (linear_loop_spec eAB value values 0) as [[H _]|[k [x [H1 [H2 H3]]]]].
  - left; auto.
  - right. exists k, x; split; [lia|auto].
Qed.

Lemma expand_other_complete : forall A B can_order lt_AA lt_AB lt_BA eq_AB (value : B) (values : list A),
  values <> [] ->
  consistent lt_AA lt_AB lt_BA eq_AB (fun a => In a values) value ->
  (forall a, In a values -> lt_AA a a = false) ->
  behaves (fun k => exists x, nth_error values k = Some x /\ eq_AB x value = true)
    (expand_other can_order lt_AA lt_AB lt_BA eq_AB value values)
    (try_expand_other can_order lt_AA lt_AB lt_BA eq_AB value values)
    (expand_failfast_other can_order lt_AA lt_AB lt_BA eq_AB value values).
Proof.
  intros A B co lAA lAB lBA eAB value values Hne Hc Hirr.
  destruct (search_ordered_complete lAA lAB lBA eAB co value values Hc Hirr) as [z [E H]].
  unfold expand_other, try_expand_other, expand_failfast_other, search_other. rewrite E.
  apply wrap_behaves.
  - unfold variant_map_ok. destruct values; [congruence|auto].
  - destruct H as [[-> H]|[k [x [-> [K1 K2]]]]].
    + left; split; auto. intros k [x [H1 H2]]. rewrite H in H2; [discriminate|]. eapply nth_error_In; eauto.
    + right. exists k, x. repeat split; eauto.
Qed.

(* ------------------------------------------------------------------------ *)
(** ** Floating point *)

(** Order key of a number that is not NaN. *)
Definition fkey (f : spec_float) : Z * Z * Z :=
  match f with
  | S754_zero _ => (0, 0, 0)
  | S754_infinity true => (-2, 0, 0)
  | S754_infinity false => (2, 0, 0)
  | S754_nan => (3, 0, 0)
  | S754_finite true m e => (-1, - e, - Zpos m)
  | S754_finite false m e => (1, e, Zpos m)
  end.

Definition lexcmp (a b : Z * Z * Z) : comparison :=
  let '(a1, a2, a3) := a in
  let '(b1, b2, b3) := b in
  match Z.compare a1 b1 with
  | Eq => match Z.compare a2 b2 with Eq => Z.compare a3 b3 | c => c end
  | c => c
  end.

Lemma SFcompare_key : forall f g, f <> S754_nan -> g <> S754_nan ->
  SFcompare f g = Some (lexcmp (fkey f) (fkey g)).
Proof.
  intros f g Hf Hg. destruct f as [s|s| |s m e], g as [s'|s'| |s' m' e']; try congruence;
    try destruct s; try destruct s'; cbn; auto.
  - f_equal. destruct (Z.compare_spec e e'), (Z.compare_spec (- e) (- e')); try lia; auto.
Qed.

Definition lexlt (a b : Z * Z * Z) : Prop :=
  let '(a1, a2, a3) := a in
  let '(b1, b2, b3) := b in
  a1 < b1 \/ (a1 = b1 /\ (a2 < b2 \/ (a2 = b2 /\ a3 < b3))).

Lemma lexcmp_spec : forall a b,
  match lexcmp a b with Lt => lexlt a b | Eq => a = b | Gt => lexlt b a end.
Proof.
  intros [[a1 a2] a3] [[b1 b2] b3]. cbn.
  destruct (Z.compare_spec a1 b1); try lia. destruct (Z.compare_spec a2 b2); try lia.
  destruct (Z.compare_spec a3 b3); try lia. subst; auto.
Qed.

Lemma SFltb_key : forall f g, f <> S754_nan -> g <> S754_nan -> (SFltb f g = true <-> lexlt (fkey f) (fkey g)).
Proof.
  intros f g Hf Hg. unfold SFltb. rewrite SFcompare_key by auto.
  pose proof (lexcmp_spec (fkey f) (fkey g)) as H.
  destruct (lexcmp (fkey f) (fkey g)); split; auto; try discriminate; intro L; exfalso;
    destruct (fkey f) as [[a1 a2] a3], (fkey g) as [[b1 b2] b3]; cbn in *; try lia.
  inversion H; subst; lia.
Qed.

Lemma SFeqb_key : forall f g, f <> S754_nan -> g <> S754_nan -> (SFeqb f g = true <-> fkey f = fkey g).
Proof.
  intros f g Hf Hg. unfold SFeqb. rewrite SFcompare_key by auto.
  pose proof (lexcmp_spec (fkey f) (fkey g)) as H.
  destruct (lexcmp (fkey f) (fkey g)); split; auto; try discriminate; intro L; exfalso; rewrite L in H;
    destruct (fkey g) as [[b1 b2] b3]; cbn in *; lia.
Qed.

Lemma lexlt_total : forall a b, lexlt a b \/ a = b \/ lexlt b a.
Proof.
  intros a b. pose proof (lexcmp_spec a b). destruct (lexcmp a b); auto.
Qed.

Lemma lexlt_irr : forall a, ~ lexlt a a.
Proof. intros [[a1 a2] a3]; cbn; lia. Qed.

Lemma lexlt_trans : forall a b c, lexlt a b -> lexlt b c -> lexlt a c.
Proof. intros [[a1 a2] a3] [[b1 b2] b3] [[c1 c2] c3]; cbn; lia. Qed.

Lemma SFltb_false : forall f g, f <> S754_nan -> g <> S754_nan -> (SFltb f g = false <-> ~ lexlt (fkey f) (fkey g)).
Proof. intros f g Hf Hg. rewrite <- SFltb_key by auto. destruct (SFltb f g); split; congruence. Qed.

Lemma float_consistent : forall v, v <> S754_nan ->
  consistent SFltb SFltb SFltb SFeqb (fun a => a <> S754_nan) v.
Proof.
  intros v Hv. constructor.
  - intros a b c Ha Hb Hc. rewrite !SFltb_false by auto. intros H1 H2 H3.
    destruct (lexlt_total (fkey a) (fkey b)) as [L|[E|L]]; auto.
    + apply H2. eapply lexlt_trans; eauto.
    + rewrite <- E in H2. auto.
  - intros a b Ha Hb. rewrite SFltb_false, !SFltb_key by auto. intros H1 H2.
    destruct (lexlt_total (fkey a) (fkey b)) as [L|[E|L]]; try contradiction.
    + eapply lexlt_trans; eauto.
    + rewrite E; auto.
  - intros a b Ha Hb. rewrite SFltb_false, !SFltb_key by auto. intros H1 H2.
    destruct (lexlt_total (fkey a) (fkey b)) as [L|[E|L]]; try contradiction.
    + eapply lexlt_trans; eauto.
    + rewrite <- E; auto.
  - intros a Ha. rewrite SFeqb_key, !SFltb_false by auto. intro E. rewrite E. split; apply lexlt_irr.
  - intros a Ha. rewrite SFeqb_key, !SFltb_false by auto. intros H1 H2.
    destruct (lexlt_total (fkey a) (fkey v)) as [L|[E|L]]; auto; contradiction.
Qed.

Lemma consistent_weaken : forall A B lt_AA lt_AB lt_BA eq_AB (P Q : A -> Prop) (v : B),
  (forall a, Q a -> P a) -> consistent lt_AA lt_AB lt_BA eq_AB P v -> consistent lt_AA lt_AB lt_BA eq_AB Q v.
Proof.
  intros A B a b c d P Q v H [H1 H2 H3 H4 H5]. constructor; intros; eauto.
Qed.

Lemma expand_float_complete : forall (value : spec_float) (values : list spec_float),
  values <> [] -> value <> S754_nan -> (forall a, In a values -> a <> S754_nan) ->
  behaves (fun k => exists x, nth_error values k = Some x /\ SFeqb x value = true)
    (expand_other true SFltb SFltb SFltb SFeqb value values)
    (try_expand_other true SFltb SFltb SFltb SFeqb value values)
    (expand_failfast_other true SFltb SFltb SFltb SFeqb value values).
Proof.
  intros value values Hne Hv Hvs. apply expand_other_complete; auto.
  - eapply consistent_weaken; [exact Hvs|]. apply float_consistent; auto.
  - intros a Ha. apply SFltb_false; auto. apply lexlt_irr.
Qed.

(* ------------------------------------------------------------------------ *)
(** ** In terms of the specification *)

Lemma standard_ok : forall t is_bool, standard_width (ity_bits t) -> (is_bool = true -> t = mk_ity 1 false) ->
  type_ok t is_bool /\ ity_bits t <> 31.
Proof. intros t is_bool H Hb. unfold standard_width, type_ok, ity_ok in *. repeat split; auto; lia. Qed.

Lemma in_ity_forall : forall t values,
  Forall (int_value (ity_bits t) (ity_signed t)) values -> Forall (fun x => in_ity t x = true) values.
Proof. intros t values H. eapply Forall_impl; [|exact H]. intros; apply in_ity_iff; auto. Qed.

Lemma expand_same_type : forall t is_bool value values,
  standard_width (ity_bits t) -> (is_bool = true -> t = mk_ity 1 false) ->
  int_value (ity_bits t) (ity_signed t) value -> Forall (int_value (ity_bits t) (ity_signed t)) values ->
  array_size_ok values -> NoDup values -> values <> [] ->
  largest_last (ity_bits t) (ity_signed t) values ->
  distance_ok (ity_bits t) (ity_signed t) value values ->
  behaves (fun k => nth_error values k = Some value)
    (expand_int t is_bool t value values) (try_expand_int t is_bool t value values)
    (expand_failfast_int t is_bool t value values).
Proof.
  intros t is_bool value values Hw Hb Hv Hvals Hlen Hnd Hne Hl Hd.
  destruct (standard_ok _ _ Hw Hb). apply expand_int_complete; auto.
  - apply in_ity_iff; auto.
  - apply in_ity_forall; auto.
Qed.

Lemma expand_sound_same_type : forall t is_bool value values,
  standard_width (ity_bits t) -> (is_bool = true -> t = mk_ity 1 false) ->
  int_value (ity_bits t) (ity_signed t) value -> Forall (int_value (ity_bits t) (ity_signed t)) values ->
  array_size_ok values ->
  sound (fun k => nth_error values k = Some value)
    (expand_int t is_bool t value values) (try_expand_int t is_bool t value values)
    (expand_failfast_int t is_bool t value values).
Proof.
  intros t is_bool value values Hw Hb Hv Hvals Hlen. destruct (standard_ok _ _ Hw Hb) as [Ht _].
  assert (Hvals' := in_ity_forall _ _ Hvals). apply in_ity_iff in Hv. pose proof Ht as [Ht1 _].
  assert (Hfor : Forall (fun x => in_ity (rep_of t is_bool) x = true) values).
  { eapply Forall_impl; [|exact Hvals']. intros; apply rep_in; auto. }
  pose proof (expand_int_sound t is_bool t value values Ht Ht1 Hv Hvals' Hfor Hlen) as H.
  assert (Hconv : forall k, (exists x, nth_error values k = Some x /\ int_eq t t x value = true) ->
            nth_error values k = Some value).
  { intros k [x [H1 H2]]. rewrite int_eq_same in H2; auto.
    - apply Z.eqb_eq in H2. congruence.
    - rewrite Forall_forall in Hvals'. apply Hvals'. eapply nth_error_In; eauto. }
  destruct H as [H1 [H2 H3]]. repeat split; intros k E; apply Hconv; auto.
Qed.

Lemma expand_sound_representable : forall t ct value values,
  standard_width (ity_bits t) -> standard_width (ity_bits ct) ->
  int_value (ity_bits t) (ity_signed t) value -> Forall (int_value (ity_bits ct) (ity_signed ct)) values ->
  Forall (int_value (ity_bits t) (ity_signed t)) values ->
  array_size_ok values ->
  sound (fun k => nth_error values k = Some value)
    (expand_int t false ct value values) (try_expand_int t false ct value values)
    (expand_failfast_int t false ct value values).
Proof.
  intros t ct value values Hw Hw' Hv Hvals Hrep Hlen.
  destruct (standard_ok t false Hw) as [Ht _]; [discriminate|].
  destruct (standard_ok ct false Hw') as [[Hct _] _]; [discriminate|].
  assert (Hvals' := in_ity_forall _ _ Hvals). assert (Hrep' := in_ity_forall _ _ Hrep). apply in_ity_iff in Hv.
  pose proof (expand_int_sound t false ct value values Ht Hct Hv Hvals' Hrep' Hlen) as H.
  assert (Hconv : forall k, (exists x, nth_error values k = Some x /\ int_eq ct t x value = true) ->
            nth_error values k = Some value).
  { intros k [x [H1 H2]]. unfold int_eq in H2. apply Z.eqb_eq in H2.
    assert (Hx : in_ity t x = true) by (rewrite Forall_forall in Hrep'; apply Hrep'; eapply nth_error_In; eauto).
    assert (E : x = value); [|congruence].
    pose proof Ht as [Ht1 _]. pose proof (common_type_ok ct t Hct Ht1) as Hc.
    assert (Hbits : ity_bits t <= ity_bits (common_type ct t)).
    { destruct (promote_ok t Ht1) as [_ P1]. unfold common_type.
      destruct (Bool.eqb _ _); [destruct (Z.ltb_spec (ity_bits (promote ct)) (ity_bits (promote t))); lia|].
      destruct (ity_signed (promote ct)).
      - destruct (Z.leb_spec (ity_bits (promote ct)) (ity_bits (promote t))); lia.
      - destruct (Z.leb_spec (ity_bits (promote t)) (ity_bits (promote ct))); lia. }
    set (c := common_type ct t) in *. clearbody c.
    assert (Hm : x mod 2 ^ ity_bits c = value mod 2 ^ ity_bits c).
    { destruct Hc. rewrite <- (cast_mod c x), <- (cast_mod c value), H2 by lia. auto. }
    rewrite in_ity_iff in Hv, Hx. unfold int_value in Hv, Hx.
    assert (Hp : 2 ^ ity_bits t <= 2 ^ ity_bits c) by (apply Z.pow_le_mono_r; lia).
    destruct (pow_split (ity_bits t)) as [P1 P2]; [destruct Ht1; lia|].
    assert (Hpc : 0 < 2 ^ ity_bits c) by lia.
    pose proof (Z.div_mod x (2 ^ ity_bits c)) as D1. pose proof (Z.div_mod value (2 ^ ity_bits c)) as D2.
    rewrite Hm in D1. specialize (D1 ltac:(lia)). specialize (D2 ltac:(lia)).
    assert (x - value = 2 ^ ity_bits c * (x / 2 ^ ity_bits c - value / 2 ^ ity_bits c)) by lia.
    assert (x / 2 ^ ity_bits c - value / 2 ^ ity_bits c = 0); [|lia].
    set (q := x / 2 ^ ity_bits c - value / 2 ^ ity_bits c) in *. clearbody q.
    assert (- 2 ^ ity_bits c < x - value < 2 ^ ity_bits c) by (destruct (ity_signed t); lia).
    nia. }
  destruct H as [H1 [H2 H3]]. repeat split; intros k E; apply Hconv; auto.
Qed.

Lemma expand_repeated : forall t is_bool ct value values,
  values = [] \/ ~ NoDup values ->
  expand_int t is_bool ct value values = IllFormed /\ try_expand_int t is_bool ct value values = IllFormed /\
  expand_failfast_int t is_bool ct value values = IllFormed.
Proof.
  intros t is_bool ct value values H.
  assert (E : variant_map_ok (all_distinct values) values = false).
  { destruct H as [->|H]; auto. unfold variant_map_ok. destruct values; auto.
    apply not_true_is_false. rewrite all_distinct_iff. auto. }
  unfold expand_int, try_expand_int, expand_failfast_int, expand, try_expand, expand_failfast. rewrite E. auto.
Qed.

Lemma small_array : forall A (l : list A), Z.of_nat (length l) < 2 ^ 31 -> array_size_ok l.
Proof.
  intros A l H. unfold array_size_ok. assert (2 ^ 31 < 2 ^ 63) by (apply Z.pow_lt_mono_r; lia). lia.
Qed.

Lemma expand_reflected : forall t value vs,
  standard_width (ity_bits t) ->
  int_value (ity_bits t) (ity_signed t) value -> Forall (int_value (ity_bits t) (ity_signed t)) vs ->
  Z.of_nat (length vs) < 2 ^ 31 -> NoDup vs ->
  largest_last (ity_bits t) (ity_signed t) vs ->
  In value vs ->
  exists k, nth_error vs k = Some value /\
    expand_meta t false value (Some vs) = Ok k /\ try_expand_meta t false value (Some vs) = Ok (Some k) /\
    expand_failfast_meta t false value (Some vs) = Ok k.
Proof.
  intros t value vs Hw Hv Hvs Hlen Hnd Hl Hin.
  assert (Hd : distance_ok (ity_bits t) (ity_signed t) value vs).
  { intros Hs Hb Hc x0 E0. apply In_nth_error in Hin as [i Hi]. rewrite (Hc x0 E0 i value Hi).
    assert (i < length vs)%nat by (apply nth_error_Some; congruence).
    unfold largest. rewrite Hs. assert (2 ^ 31 <= 2 ^ (ity_bits t - 1)) by (apply Z.pow_le_mono_r; lia). lia. }
  destruct (expand_same_type t false value vs) as [[k [H1 [H2 [H3 H4]]]]|[H _]]; auto.
  - discriminate.
  - apply small_array; auto.
  - intro; subst; contradiction.
  - exists k; auto.
  - exfalso. apply In_nth_error in Hin as [i Hi]. exact (H i Hi).
Qed.

Lemma expand_unreflected : forall t value vs,
  standard_width (ity_bits t) ->
  int_value (ity_bits t) (ity_signed t) value -> Forall (int_value (ity_bits t) (ity_signed t)) vs ->
  Z.of_nat (length vs) < 2 ^ 31 -> NoDup vs -> vs <> [] ->
  largest_last (ity_bits t) (ity_signed t) vs ->
  distance_ok (ity_bits t) (ity_signed t) value vs ->
  ~ In value vs ->
  expand_meta t false value (Some vs) = Throw UnsupportedRuntimeValue /\
  try_expand_meta t false value (Some vs) = Ok None /\
  expand_failfast_meta t false value (Some vs) = Contract.
Proof.
  intros t value vs Hw Hv Hvs Hlen Hnd Hne Hl Hd Hin.
  destruct (expand_same_type t false value vs) as [[k [H1 [H2 [H3 H4]]]]|[_ H]]; auto.
  - discriminate.
  - apply small_array; auto.
  - exfalso. apply Hin. eapply nth_error_In; eauto.
Qed.

Lemma parse_then_expand : forall t (src : enum_source Z) vs ns,
  aligned (src_values src) (src_names src) vs ns ->
  Forall (name_ok enum_reserved) ns ->
  standard_width (ity_bits t) -> Forall (int_value (ity_bits t) (ity_signed t)) vs ->
  Z.of_nat (length vs) < 2 ^ 31 -> NoDup vs -> NoDup ns ->
  largest_last (ity_bits t) (ity_signed t) vs ->
  forall s n k, padded s n -> nth_error ns k = Some n ->
    exists v, api_parse_enum src s = Ok v /\ nth_error vs k = Some v /\
      expand_meta t false v (src_values src) = Ok k.
Proof.
  intros t src vs ns Ha Hn Hw Hvs Hlen Hnd Hnn Hl s n k Hp Hk.
  pose proof Ha as [Hv1 [_ Hl2]].
  assert (exists v, nth_error vs k = Some v) as [v Hv].
  { destruct (nth_error vs k) eqn:E; eauto. apply nth_error_None in E.
    assert (k < length ns)%nat by (apply nth_error_Some; congruence). lia. }
  exists v. destruct (parse_enum_exact src vs ns Ha Hn s) as [H1 _].
  split; [|split; auto].
  - apply H1. exists n; split; auto. exists k; split; auto. split; auto.
    intros j Hj Ej. assert (j = k); [|lia].
    apply (proj1 (NoDup_nth_error ns) Hnn); [|congruence].
    apply nth_error_Some; congruence.
  - rewrite Hv1. destruct (expand_reflected t v vs) as [k' [K1 [K2 _]]]; auto.
    + rewrite Forall_forall in Hvs. apply Hvs. eapply nth_error_In; eauto.
    + eapply nth_error_In; eauto.
    + rewrite K2. f_equal. apply (proj1 (NoDup_nth_error vs) Hnd); [|congruence].
      apply nth_error_Some; congruence.
Qed.
