(** Proofs for lists of integral constants without side conditions. *)

From Coq Require Import ZArith Arith Bool Lia List.
From Verif Require Import Base ExpandModel ExpandSpec ExpandProofs.
Import ListNotations.
Local Open Scope Z_scope.

Lemma wide_promote : forall t, 32 <= ity_bits t -> promote t = t.
Proof. intros t H. unfold promote. destruct (Z.ltb_spec (ity_bits t) 32); [lia|auto]. Qed.

Lemma largest_max : forall t, largest (ity_bits t) (ity_signed t) = ity_max t.
Proof. intros [b s]. reflexivity. Qed.

Lemma consecutive_tail : forall x y r, consecutive (x :: r) -> nth_error r 0 = Some y -> y = x + 1 /\ consecutive r.
Proof.
  intros x y r H E. assert (Hy : y = x + 1) by (specialize (H x eq_refl 1%nat y E); lia). split; auto.
  intros x0 E0 i z Ez. rewrite E in E0. injection E0 as <-. specialize (H x eq_refl (S i) z Ez). lia.
Qed.

Lemma consecutive_cons : forall x r, (forall y, nth_error r 0 = Some y -> y = x + 1) -> consecutive r -> consecutive (x :: r).
Proof.
  intros x r H Hc x0 E [|i] z Ez; cbn in *; injection E as <-; [injection Ez as <-; lia|].
  destruct r as [|y r]; [destruct i; discriminate|]. rewrite (Hc y eq_refl i z Ez), (H y eq_refl). lia.
Qed.

Lemma all_consecutive_dec : forall values, {consecutive values} + {~ consecutive values}.
Proof.
  induction values as [|x r IH]; [left; intros x0 E; discriminate|]. destruct r as [|y r].
  - left. intros x0 E [|[|i]] z Ez; cbn in *; try discriminate. injection E as <-. injection Ez as <-. lia.
  - destruct (Z.eq_dec y (x + 1)) as [E|E].
    + destruct IH as [H|H]; [left; apply consecutive_cons; auto; intros z Ez; cbn in Ez; congruence|right]. intros C. apply H. eapply consecutive_tail; [exact C|reflexivity].
    + right. intros C. apply E. eapply consecutive_tail; [exact C|reflexivity].
Qed.

(** ** Wide signed types *)

Section Signed.
  Variable t : ity.
  Hypothesis Ht : ity_ok t.
  Hypothesis Hs : ity_signed t = true.
  Hypothesis Hw : 32 <= ity_bits t.

  Lemma signed_loop : forall rest r, in_ity t r = true -> Forall (fun x => in_ity t x = true) rest ->
    (contiguous_loop t r rest = UB /\ passes_largest (ity_bits t) (ity_signed t) (r :: rest)) \/
    (exists b, contiguous_loop t r rest = Ok b /\ (b = true <-> consecutive (r :: rest)) /\ ~ passes_largest (ity_bits t) (ity_signed t) (r :: rest)).
  Proof.
    pose proof Ht as [Hb Hb']. induction rest as [|y rest IH]; intros r Hr F; cbn [contiguous_loop].
    - right. exists true. split; auto. split; [split; auto; intros _ x0 E [|[|i]] z Ez; cbn in *; try discriminate; injection E as <-; injection Ez as <-; lia|].
      intros (_ & _ & k & Hk & _). cbn in Hk. lia.
    - inversion F as [|? ? Hy F']; subst. rewrite (cast_id t y), wide_promote by auto.
      assert (Ei : int_arith t (r + 1) = if in_ity t (r + 1) then Ok (r + 1) else UB) by (unfold int_arith; rewrite Hs; auto). rewrite Ei. clear Ei.
      destruct (in_ity t (r + 1)) eqn:E1; cbn [bind].
      + unfold int_eq. rewrite common_type_same, wide_promote, !cast_id by auto. destruct (Z.eqb_spec y (r + 1)) as [->|Hne]; cbn [negb].
        * destruct (IH (r + 1) Hy F') as [[E P]|(b & E & P1 & P2)]; [left|right].
          -- split; auto. destruct P as (S1 & S2 & k & K1 & K2 & K3). split; auto. split; auto. exists (S k). split; [cbn in *; lia|]. split; [|exact K3].
             change (consecutive (r :: firstn (S k) (r + 1 :: rest))). apply consecutive_cons; auto. intros z Ez. cbn in Ez. congruence.
          -- exists b. split; auto. split.
             ++ rewrite P1. split; intros H; [apply consecutive_cons; auto; intros z Ez; cbn in Ez; congruence|]. eapply consecutive_tail; [exact H|reflexivity].
             ++ intros (S1 & S2 & k & K1 & K2 & K3). destruct k as [|k].
                ** cbn in K3. injection K3 as K3. rewrite largest_max in K3. rewrite in_ity_iff in E1. unfold int_value, ity_max in *. rewrite Hs in *. lia.
                ** apply P2. split; auto. split; auto. exists k. split; [cbn in *; lia|]. split; auto.
                   change (consecutive (r :: firstn (S k) (r + 1 :: rest))) in K2. eapply consecutive_tail; [exact K2|]. reflexivity.
        * right. exists false. split; auto. split; [split; [discriminate|]; intros H; specialize (H r eq_refl 1%nat y eq_refl); lia|].
          intros (S1 & S2 & k & K1 & K2 & K3). destruct k as [|k].
          -- cbn in K3. injection K3 as K3. rewrite largest_max in K3. rewrite in_ity_iff in E1. unfold int_value, ity_max in *. rewrite Hs in *. lia.
          -- specialize (K2 r eq_refl 1%nat y eq_refl). lia.
      + left. split; auto. split; auto. split; auto. exists 0%nat. split; [cbn; lia|]. split.
        * intros x0 E [|[|i]] z Ez; cbn in *; try discriminate; injection E as <-; injection Ez as <-; lia.
        * cbn. f_equal. rewrite largest_max. assert (E2 : ~ int_value (ity_bits t) (ity_signed t) (r + 1)) by (rewrite <- in_ity_iff; congruence).
          rewrite in_ity_iff in Hr. unfold int_value, ity_max in *. rewrite Hs in *. lia.
  Qed.

  Lemma signed_too_far : forall value values, in_ity t value = true -> Forall (fun x => in_ity t x = true) values ->
    too_far (ity_bits t) (ity_signed t) value values -> are_values_contiguous t values = Ok true /\ search_contiguous t value values = UB.
  Proof.
    pose proof Ht as [Hb Hb']. intros value values Hv F (_ & _ & Hc & x0 & E0 & Hfar). destruct values as [|x r]; [discriminate|]. injection E0 as ->.
    inversion F as [|? ? Hx F']; subst. cbn [are_values_contiguous]. rewrite cast_id by auto. split.
    - destruct (signed_loop r x0 Hx F') as [[_ (S1 & S2 & k & K1 & K2 & K3)]|(b & E & P1 & _)].
      + exfalso. destruct (nth_error (x0 :: r) (S k)) as [z|] eqn:Ez; [|apply nth_error_None in Ez; lia].
        pose proof (Hc x0 eq_refl _ _ K3) as H1. pose proof (Hc x0 eq_refl _ _ Ez) as H2. rewrite Forall_forall in F. specialize (F z (nth_error_In _ _ Ez)).
        rewrite largest_max in H1. rewrite in_ity_iff in F. unfold int_value, ity_max in *. rewrite Hs in *. lia.
      + rewrite E. f_equal. apply P1. auto.
    - unfold search_contiguous, arr_get. cbn [nth_error bind]. rewrite !cast_id by auto. rewrite int_lt_same by auto.
      assert (H0 : x0 <= value). { rewrite largest_max in Hfar. unfold ity_max in Hfar. rewrite Hs in Hfar. pose proof (pow_split _ Hb). lia. }
      destruct (Z.ltb_spec value x0); [lia|]. rewrite wide_promote by auto. unfold int_arith. rewrite Hs.
      destruct (in_ity t (value - x0)) eqn:E; auto. rewrite in_ity_iff in E. rewrite largest_max in Hfar. unfold int_value, ity_max in *. rewrite Hs in *. lia.
  Qed.
End Signed.

(** ** Wide unsigned types *)

Section Unsigned.
  Variable t : ity.
  Hypothesis Ht : ity_ok t.
  Hypothesis Hs : ity_signed t = false.
  Hypothesis Hw : 32 <= ity_bits t.
  Let M := 2 ^ ity_bits t.

  Definition follows (values : list Z) : Prop :=
    exists x0, nth_error values 0 = Some x0 /\ forall i x, nth_error values i = Some x -> x = (x0 + Z.of_nat i) mod M.

  Lemma M_pos : 0 < M.
  Proof. destruct Ht. apply Z.pow_pos_nonneg; lia. Qed.

  Lemma unsigned_value : forall x, in_ity t x = true <-> 0 <= x < M.
  Proof. intros x. rewrite in_ity_iff. unfold int_value. rewrite Hs. reflexivity. Qed.

  Lemma unsigned_cast : forall x, cast t x = x mod M.
  Proof. intros x. unfold cast. rewrite Hs. reflexivity. Qed.

  Lemma unsigned_loop : forall rest r, in_ity t r = true -> Forall (fun x => in_ity t x = true) rest ->
    exists b, contiguous_loop t r rest = Ok b /\ (b = true <-> follows (r :: rest)).
  Proof.
    pose proof Ht as [Hb Hb']. pose proof M_pos as HM. induction rest as [|y rest IH]; intros r Hr F; cbn [contiguous_loop].
    - exists true. split; auto. split; auto. intros _. exists r. split; auto. intros [|[|i]] z Ez; cbn in *; try discriminate. injection Ez as <-.
      apply unsigned_value in Hr. rewrite Z.mod_small; lia.
    - inversion F as [|? ? Hy F']; subst. rewrite (cast_id t y), wide_promote by auto. unfold int_arith. rewrite Hs. cbn [bind].
      unfold int_eq. rewrite common_type_same, wide_promote, (cast_id t y) by auto. rewrite (cast_id t (cast t (r + 1))) by (auto; apply cast_range; auto). rewrite unsigned_cast.
      destruct (Z.eqb_spec y ((r + 1) mod M)) as [Ey|Hne]; cbn [negb].
      + destruct (IH y Hy F') as (b & E & P). exists b. split; auto. rewrite P. split.
        * intros (x0 & E0 & H). injection E0 as <-. exists r. split; auto. intros [|i] z Ez; cbn in Ez.
          -- injection Ez as <-. apply unsigned_value in Hr. rewrite Z.mod_small; lia.
          -- rewrite (H i z Ez), Ey, Z.add_mod_idemp_l by lia. f_equal. lia.
        * intros (x0 & E0 & H). injection E0 as <-. exists y. split; auto. intros i z Ez. rewrite (H (S i) z Ez), Ey, Z.add_mod_idemp_l by lia. f_equal. lia.
      + exists false. split; auto. split; [discriminate|]. intros (x0 & E0 & H). injection E0 as <-. exfalso. apply Hne. exact (H 1%nat y eq_refl).
  Qed.

  Lemma consecutive_follows : forall values, values <> [] -> Forall (fun x => in_ity t x = true) values -> consecutive values -> follows values.
  Proof.
    intros [|x r] Hne F H; [congruence|]. exists x. split; auto. intros i z Ez. rewrite Forall_forall in F. specialize (F z (nth_error_In _ _ Ez)). apply unsigned_value in F.
    rewrite <- (H x eq_refl i z Ez). rewrite Z.mod_small; lia.
  Qed.

  Lemma unsigned_wraps : forall value values, in_ity t value = true -> Forall (fun x => in_ity t x = true) values -> NoDup values -> array_size_ok values ->
    forall x0, nth_error values 0 = Some x0 -> (forall i x, nth_error values i = Some x -> x = (x0 + Z.of_nat i) mod M) ->
    exists z, search_contiguous t value values = Ok z /\
      ((z = -1 /\ forall k, ~ (nth_error values k = Some value /\ x0 <= value)) \/
       (exists k x, z = Z.of_nat k /\ nth_error values k = Some x /\ nth_error values k = Some value /\ x0 <= value)).
  Proof.
    pose proof Ht as [Hb Hb']. pose proof M_pos as HM. intros value values Hv F Hnd Hlen x0 E0 H.
    assert (Hx : in_ity t x0 = true) by (rewrite Forall_forall in F; apply F; eapply nth_error_In; eauto).
    unfold search_contiguous, arr_get. rewrite E0. cbn [bind]. rewrite !cast_id by auto. rewrite int_lt_same by auto.
    apply unsigned_value in Hv as Hv'. apply unsigned_value in Hx as Hx'.
    destruct (Z.ltb_spec value x0) as [Hlt|Hge]; [exists (-1); split; auto; left; split; auto; intros k [_ C]; lia|].
    rewrite wide_promote by auto. unfold int_arith. rewrite Hs. cbn [bind].
    rewrite (cast_id t (value - x0)) by (auto; apply unsigned_value; lia).
    assert (HM64 : M <= 2 ^ 64) by (apply Z.pow_le_mono_r; lia).
    rewrite (cast_id size_ty) by (try (cbn; lia); rewrite in_ity_iff; unfold int_value, size_ty; cbn [ity_bits ity_signed]; lia).
    assert (Hsize : Z.of_nat (length values) <= M).
    { destruct (Z.le_gt_cases (Z.of_nat (length values)) M) as [|Hgt]; auto. exfalso.
      destruct (nth_error values (Z.to_nat M)) as [y|] eqn:Ey; [|apply nth_error_None in Ey; lia].
      pose proof (H _ _ Ey) as Hy. rewrite Z2Nat.id, <- (Z.mul_1_l M) in Hy by lia. rewrite Z.mul_1_l in Hy at 1. replace (x0 + M) with (x0 + 1 * M) in Hy by lia. rewrite Z.mul_1_l in Hy.
      assert (Hyx : y = x0). { rewrite Hy. rewrite <- (Z.mul_1_l M) at 1. rewrite Z.mod_add by lia. apply Z.mod_small. auto. }
      subst y. rewrite Hyx in Ey. assert (0%nat = Z.to_nat M); [|lia]. eapply NoDup_nth_error; eauto; [apply nth_error_Some; congruence|congruence]. }
    rewrite Z.geb_leb. destruct (Z.leb_spec (Z.of_nat (length values)) (value - x0)) as [Hfar|Hnear].
    - exists (-1). split; auto. left. split; auto. intros k [Ek _]. assert (Hk : (k < length values)%nat) by (apply nth_error_Some; congruence).
      pose proof (H _ _ Ek) as Hval. destruct (Z.lt_ge_cases (x0 + Z.of_nat k) M); [rewrite Z.mod_small in Hval; lia|].
      assert (Hm : (x0 + Z.of_nat k) mod M = x0 + Z.of_nat k - M). { symmetry. apply Z.mod_unique with 1; lia. } lia.
    - exists (cast ptrdiff_ty (value - x0)). split; auto.
      unfold array_size_ok in Hlen. rewrite (cast_id ptrdiff_ty) by (try (cbn; lia); rewrite in_ity_iff; unfold int_value, ptrdiff_ty; cbn [ity_bits ity_signed]; change (64 - 1) with 63; lia).
      right. destruct (nth_error values (Z.to_nat (value - x0))) as [y|] eqn:Ey; [|apply nth_error_None in Ey; lia].
      pose proof (H _ _ Ey) as Hy. rewrite Z2Nat.id in Hy by lia. replace (x0 + (value - x0)) with value in Hy by lia. rewrite Z.mod_small in Hy by lia. subst y.
      exists (Z.to_nat (value - x0)), value. split; [lia|]. auto.
  Qed.
End Unsigned.

(** ** Together *)

Section Together.
  Variables (t : ity) (is_bool : bool) (value : Z) (values : list Z).
  Hypothesis Hstd : standard_width (ity_bits t).
  Hypothesis Hbool : is_bool = true -> t = mk_ity 1 false.
  Hypothesis Hv : int_value (ity_bits t) (ity_signed t) value.
  Hypothesis Hvals : Forall (int_value (ity_bits t) (ity_signed t)) values.
  Hypothesis Hsize : array_size_ok values.
  Hypothesis Hnd : NoDup values.
  Hypothesis Hne : values <> [].

  Notation on_all P := (P (expand_int t is_bool t value values) (try_expand_int t is_bool t value values) (expand_failfast_int t is_bool t value values)).

  Let Ht : ity_ok t.
  Proof. unfold ity_ok. destruct Hstd as [->|[->|[->|[->| ->]]]]; lia. Qed.
  Let Hv' : in_ity t value = true.
  Proof. apply in_ity_iff. auto. Qed.
  Let Hvals' : Forall (fun x => in_ity t x = true) values.
  Proof. eapply Forall_impl; [|exact Hvals]. intros x Hx. apply in_ity_iff. auto. Qed.

  Lemma wide_not_bool : 32 <= ity_bits t -> is_bool = false.
  Proof. intros Hw. destruct is_bool; auto. rewrite (Hbool eq_refl) in Hw. cbn in Hw. lia. Qed.

  Lemma map_ok : variant_map_ok (all_distinct values) values = true.
  Proof. unfold variant_map_ok. destruct values; [congruence|]. apply all_distinct_iff. auto. Qed.

  Lemma rejected_largest : passes_largest (ity_bits t) (ity_signed t) values -> on_all (all_of_them (@IllFormed)).
  Proof.
    intros P. pose proof P as (Hs & Hw & _). unfold all_of_them, expand_int, try_expand_int, expand_failfast_int, expand, try_expand, expand_failfast. rewrite map_ok.
    assert (E : search_int t is_bool t value values = IllFormed); [|rewrite E; auto].
    unfold search_int. rewrite (wide_not_bool Hw). unfold rep_of. destruct values as [|x r]; [congruence|]. cbn [are_values_contiguous]. inversion Hvals' as [|? ? Hx F]; subst.
    rewrite cast_id by (auto; destruct Ht; auto). destruct (signed_loop t Ht Hs Hw r x Hx F) as [[E _]|(b & _ & _ & N)]; [|contradiction]. rewrite E. reflexivity.
  Qed.

  Lemma undefined_far : too_far (ity_bits t) (ity_signed t) value values -> on_all (all_of_them (@UB)).
  Proof.
    intros P. pose proof P as (Hs & Hw & _). unfold all_of_them, expand_int, try_expand_int, expand_failfast_int, expand, try_expand, expand_failfast. rewrite map_ok.
    destruct (signed_too_far t Ht Hs Hw value values Hv' Hvals' P) as [E1 E2].
    assert (E : search_int t is_bool t value values = UB); [|rewrite E; auto].
    unfold search_int. rewrite (wide_not_bool Hw). unfold rep_of. rewrite E1. cbn [constexpr_init bind]. exact E2.
  Qed.

  Lemma wrapped : wraps_around (ity_bits t) (ity_signed t) values ->
    on_all (behaves (fun k => nth_error values k = Some value /\ exists x0, nth_error values 0 = Some x0 /\ x0 <= value)).
  Proof.
    intros (Hs & Hw & _ & x0 & E0 & H). unfold expand_int, try_expand_int, expand_failfast_int.
    destruct (unsigned_wraps t Ht Hs Hw value values Hv' Hvals' Hnd Hsize x0 E0 H) as (z & E & R).
    assert (Es : search_int t is_bool t value values = Ok z).
    { unfold search_int. rewrite (wide_not_bool Hw). unfold rep_of. destruct values as [|x r]; [congruence|]. cbn [are_values_contiguous]. inversion Hvals' as [|? ? Hx F]; subst.
      rewrite cast_id by (auto; destruct Ht; auto). destruct (unsigned_loop t Ht Hs Hw r x Hx F) as (b & Eb & P). rewrite Eb. cbn [constexpr_init bind].
      rewrite (proj2 P); [exact E|]. exists x0. auto. }
    rewrite Es. apply wrap_behaves; [apply map_ok|]. destruct R as [[-> R]|(k & x & -> & K1 & K2 & K3)].
    - left. split; auto. intros k [K1 (y & Ey & K2)]. apply (R k). split; auto. congruence.
    - right. exists k, x. split; auto. split; auto. split; eauto.
  Qed.

  Lemma otherwise : ~ passes_largest (ity_bits t) (ity_signed t) values -> ~ too_far (ity_bits t) (ity_signed t) value values ->
    ~ wraps_around (ity_bits t) (ity_signed t) values -> on_all (behaves (fun k => nth_error values k = Some value)).
  Proof.
    intros N1 N2 N3. apply expand_int_complete_gen; auto.
    - split; auto.
    - destruct Hstd as [->|[->|[->|[->| ->]]]]; lia.
    - destruct (Z.lt_ge_cases (ity_bits t) 32) as [Hn|Hw].
      + apply contiguous_exact with value; auto; [split; auto|destruct Hstd as [->|[->|[->|[->| ->]]]]; lia|lia].
      + rewrite (wide_not_bool Hw). unfold rep_of. destruct values as [|x r] eqn:Ev; [congruence|]. cbn [are_values_contiguous]. inversion Hvals' as [|? ? Hx F]; subst.
        rewrite cast_id by (auto; destruct Ht; auto). destruct (ity_signed t) eqn:Hs.
        * destruct (signed_loop t Ht Hs Hw r x Hx F) as [[_ P]|(b & E & P & _)]; [rewrite Hs in P; contradiction|]. exists b. split; auto. rewrite P. split; [split; [discriminate|auto]|intros [_ Hc]; auto].
        * destruct (unsigned_loop t Ht Hs Hw r x Hx F) as (b & E & P). exists b. split; auto. rewrite P. split.
          -- intros Hf. split; [discriminate|]. destruct (all_consecutive_dec (x :: r)) as [Hc|Hc]; auto. exfalso. apply N3. split; auto.
          -- intros [_ Hc]. apply consecutive_follows; auto.
    - intros Hs Hw Hc x0 E0. destruct (Z.le_gt_cases (value - x0) (ity_max t)) as [|Hgt]; auto. exfalso. apply N2. split; auto. split; auto. split; auto. exists x0. split; auto. rewrite largest_max. lia.
  Qed.
End Together.

(** ** Values that are not comparable *)

Lemma sorted_loop_false : forall A (lt : A -> A -> bool) rest prev,
  sorted_loop lt prev rest = false <-> exists i x y, nth_error (prev :: rest) i = Some x /\ nth_error (prev :: rest) (S i) = Some y /\ lt y x = true.
Proof.
  intros A lt. induction rest as [|z r IH]; intros prev; cbn [sorted_loop].
  - split; [discriminate|]. intros ([|i] & x & y & _ & E & _); [discriminate|destruct i; discriminate].
  - destruct (lt z prev) eqn:E.
    + split; auto. intros _. exists 0%nat, prev, z. auto.
    + rewrite IH. split.
      * intros (i & x & y & H). exists (S i), x, y. auto.
      * intros ([|i] & x & y & H1 & H2 & H3); [cbn in *; congruence|]. exists i, x, y. auto.
Qed.

Lemma unsorted_exact : forall A B (lt : A -> A -> bool) less greater equal (value : B) (values : list A) i x y,
  nth_error values i = Some x -> nth_error values (S i) = Some y -> lt y x = true ->
  behaves (fun k => exists x, nth_error values k = Some x /\ equal x value = true)
    (expand_other true lt less greater equal value values) (try_expand_other true lt less greater equal value values)
    (expand_failfast_other true lt less greater equal value values).
Proof.
  intros A B lt less greater equal value values i x y H1 H2 H3. unfold expand_other, try_expand_other, expand_failfast_other, search_other, search_ordered.
  assert (Es : are_values_sorted true lt values = false).
  { unfold are_values_sorted. destruct values as [|z r]; [destruct i; discriminate|]. apply sorted_loop_false. exists i, x, y. auto. }
  rewrite Es. apply wrap_behaves; [destruct values; [destruct i; discriminate|reflexivity]|].
  unfold linear_search. destruct (linear_loop_spec equal value values 0) as [[E N]|(k & z & E & K1 & K2)]; rewrite E.
  - left. split; auto. intros k (z & Ez & C). rewrite N in C; [discriminate|]. eapply nth_error_In; eauto.
  - right. exists k, z. split; [lia|]. split; auto. exists z. auto.
Qed.

Lemma binary_incomparable : forall A B (less : A -> B -> bool) greater equal (value : B) (values : list A),
  (forall a, In a values -> less a value = false /\ greater value a = false) ->
  forall fuel first last, 0 <= first -> last <= Z.of_nat (length values) -> last - first <= Z.of_nat fuel -> 2 <= last - first ->
  binary_loop less greater equal fuel value values first last = Ok (first + 1).
Proof.
  intros A B less greater equal value values H. induction fuel as [|fuel IH]; intros first last Hf Hl Hm H2; [lia|]. cbn [binary_loop].
  destruct (Z.gtb_spec (last - first) 1); [|lia].
  set (half := first + (last - first) / 2). assert (Hh : first < half < last) by (unfold half; pose proof (Z.div_str_pos (last - first) 2); pose proof (Z.div_lt (last - first) 2); lia).
  destruct (aget_ok _ values half ltac:(lia)) as (x & E1 & E2). rewrite E1. cbn [bind].
  destruct (H x (nth_error_In _ _ E2)) as [-> ->].
  destruct (Z.eqb_spec (half + 1) last) as [Hlast|Hlast].
  - f_equal. unfold half in *. pose proof (Z.div_mod (last - first) 2). pose proof (Z.mod_pos_bound (last - first) 2). lia.
  - apply IH; lia.
Qed.

Lemma incomparable_exact : forall A B (lt : A -> A -> bool) less greater equal (value : B) (values : list A),
  (forall a, In a values -> less a value = false /\ greater value a = false) ->
  (forall i x y, nth_error values i = Some x -> nth_error values (S i) = Some y -> lt y x = false) -> (2 <= length values)%nat ->
  expand_other true lt less greater equal value values = Ok 1%nat /\ try_expand_other true lt less greater equal value values = Ok (Some 1%nat) /\
  expand_failfast_other true lt less greater equal value values = Ok 1%nat.
Proof.
  intros A B lt less greater equal value values H Hs Hn. unfold expand_other, try_expand_other, expand_failfast_other, search_other, search_ordered.
  assert (Es : are_values_sorted true lt values = true).
  { unfold are_values_sorted. destruct values as [|z r]; auto. destruct (sorted_loop lt z r) eqn:E; auto. apply sorted_loop_false in E. destruct E as (i & x & y & E1 & E2 & E3). rewrite (Hs i x y E1 E2) in E3. discriminate. }
  rewrite Es. unfold binary_search. rewrite binary_incomparable by (auto; lia).
  destruct values as [|a [|b r]]; [cbn in Hn; lia|cbn in Hn; lia|]. repeat split; reflexivity.
Qed.

(** ** Constants of another integral type *)

Lemma common_type_bits : forall a b, ity_bits (promote b) <= ity_bits (common_type a b).
Proof.
  intros a b. unfold common_type. destruct (Bool.eqb _ _).
  - destruct (Z.ltb_spec (ity_bits (promote a)) (ity_bits (promote b))); lia.
  - destruct (ity_signed (promote a)); match goal with |- context [?x <=? ?y] => destruct (Z.leb_spec x y) end; lia.
Qed.

Lemma mod_pow_weaken : forall a b x y, 0 <= a <= b -> x mod 2 ^ b = y mod 2 ^ b -> x mod 2 ^ a = y mod 2 ^ a.
Proof.
  intros a b x y H E. assert (Hp : 2 ^ b = 2 ^ (b - a) * 2 ^ a) by (rewrite <- Z.pow_add_r by lia; f_equal; lia).
  assert (0 < 2 ^ a) by (apply Z.pow_pos_nonneg; lia). assert (0 < 2 ^ (b - a)) by (apply Z.pow_pos_nonneg; lia).
  rewrite (Z.div_mod x (2 ^ b)), (Z.div_mod y (2 ^ b)), E by nia. rewrite Hp.
  rewrite !(Z.add_comm (_ * _ * _)). rewrite <- !(Z.mul_assoc), !(Z.mul_comm (2 ^ (b - a))), <- !Z.mul_assoc, !(Z.mul_comm (2 ^ a)), !Z.mod_add by lia. reflexivity.
Qed.

Lemma converted_sound : forall t is_bool ct value values, standard_width (ity_bits t) -> standard_width (ity_bits ct) -> (is_bool = true -> t = mk_ity 1 false) ->
  array_size_ok values ->
  let bits := if is_bool then 32 else ity_bits t in
  sound (fun k => exists x, nth_error values k = Some x /\ x mod 2 ^ bits = value mod 2 ^ bits)
    (expand_int t is_bool ct value values) (try_expand_int t is_bool ct value values) (expand_failfast_int t is_bool ct value values).
Proof.
  intros t is_bool ct value values Ht Hct Hb Hlen bits. apply wrap_sound. intros z Hz.
  assert (Hok : ity_ok t) by (unfold ity_ok; destruct Ht as [->|[->|[->|[->| ->]]]]; lia).
  assert (Hok' : ity_ok ct) by (unfold ity_ok; destruct Hct as [->|[->|[->|[->| ->]]]]; lia).
  pose proof (rep_of_ok t is_bool Hok) as [Hr1 Hr2]. assert (Eb : bits = ity_bits (rep_of t is_bool)) by (unfold bits, rep_of; destruct is_bool; reflexivity).
  unfold search_int in Hz. apply bind_ok_inv in Hz as [c [Hc Hs]]. destruct c.
  - assert (Hc' : are_values_contiguous (rep_of t is_bool) values = Ok true).
    { unfold constexpr_init in Hc. destruct (are_values_contiguous _ _); try discriminate. congruence. }
    destruct (search_contiguous_sound _ _ _ _ (rep_of_ok t is_bool Hok) Hlen Hc' Hs) as [R|(k & x & K1 & K2 & K3)]; [left; auto|right]. exists k, x. split; auto. split; auto.
    rewrite Eb, <- (cast_mod (rep_of t is_bool) x), K3, cast_mod by auto. reflexivity.
  - destruct (search_ordered_sound (int_lt ct ct) (int_lt ct t) (int_lt t ct) (int_eq ct t) true value values) as [z' [E R]].
    + intros a _. apply int_trichotomy.
    + rewrite E in Hs. injection Hs as <-. destruct R as [R|(k & x & K1 & K2 & K3)]; [left; auto|right]. exists k, x. split; auto. split; auto.
      unfold int_eq in K3. apply Z.eqb_eq in K3.
      destruct (common_type_ok ct t Hok' Hok) as [Hm1 Hm2].
      apply mod_pow_weaken with (b := ity_bits (common_type ct t)).
      * split; [rewrite Eb; lia|]. eapply Z.le_trans; [|apply common_type_bits]. rewrite Eb. unfold rep_of. destruct is_bool; [rewrite (Hb eq_refl); cbn; lia|]. apply promote_ok. auto.
      * rewrite <- (cast_mod (common_type ct t) x), K3, cast_mod by auto. reflexivity.
Qed.
