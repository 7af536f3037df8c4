(** Proofs about type lists. *)

From Coq Require Import ZArith Arith Bool List Lia.
From Verif Require Import Base TypeSeqModel TypeSeqSpec.
Import ListNotations.

Section Proofs.
  Context {T : Type}.
  Variable eq_dec : forall a b : T, {a = b} + {a <> b}.

  Lemma same_iff : forall a b, same eq_dec a b = true <-> a = b.
  Proof. intros a b. unfold same. destruct (eq_dec a b); split; congruence. Qed.

  Lemma is_in_iff : forall t ts, is_in eq_dec t ts = true <-> In t ts.
  Proof.
    intros t ts. unfold is_in. rewrite existsb_exists. split.
    - intros [x [H1 H2]]. apply same_iff in H2. congruence.
    - intro H. exists t. split; auto. apply same_iff; auto.
  Qed.

  Lemma is_in_false : forall t ts, is_in eq_dec t ts = false <-> ~ In t ts.
  Proof. intros t ts. rewrite <- is_in_iff. destruct (is_in eq_dec t ts); split; congruence. Qed.

  (** Accumulator-free form. *)
  Fixpoint uniq (ts : list T) : list T :=
    match ts with [] => [] | t :: r => if is_in eq_dec t r then uniq r else t :: uniq r end.

  Lemma unique_sequence_0_uniq : forall ts rs, unique_sequence_0 eq_dec rs ts = rs ++ uniq ts.
  Proof.
    induction ts as [|t r IH]; intro rs; cbn; [rewrite app_nil_r; auto|].
    destruct (is_in eq_dec t r); rewrite IH; auto. rewrite <- app_assoc. auto.
  Qed.

  Lemma unique_sequence_uniq : forall ts, unique_sequence eq_dec ts = uniq ts.
  Proof. intro ts. unfold unique_sequence. rewrite unique_sequence_0_uniq. auto. Qed.

  Lemma uniq_in : forall ts t, In t (uniq ts) <-> In t ts.
  Proof.
    induction ts as [|x r IH]; intro t; cbn; [tauto|].
    destruct (is_in eq_dec x r) eqn:E; cbn; rewrite IH; [|tauto].
    apply is_in_iff in E. split; auto. intros [<-|H]; auto.
  Qed.

  Lemma uniq_nodup : forall ts, NoDup (uniq ts).
  Proof.
    induction ts as [|x r IH]; cbn; [constructor|].
    destruct (is_in eq_dec x r) eqn:E; auto. constructor; auto. rewrite uniq_in. apply is_in_false; auto.
  Qed.

  Lemma uniq_sublist : forall ts, sublist (uniq ts) ts.
  Proof.
    induction ts as [|x r IH]; cbn; [constructor|]. destruct (is_in eq_dec x r); constructor; auto.
  Qed.

  (** Order of last occurrences. *)
  Lemma uniq_order : forall ts a b i j, last_position ts a i -> last_position ts b j ->
    (before (uniq ts) a b <-> i < j).
  Proof.
    induction ts as [|x r IH]; intros a b i j [Ha La] [Hb Lb].
    - destruct i; discriminate.
    - assert (Hshift : forall c k, last_position (x :: r) c (S k) -> last_position r c k).
      { intros c k [H1 H2]. split; auto. intros l Hl. apply (H2 (S l)). lia. }
      assert (Hlast0 : forall c, last_position (x :: r) c 0 -> c = x /\ ~ In c r).
      { intros c [H1 H2]. split; [inversion H1; auto|]. intro C. apply In_nth_error in C as [k Hk].
        apply (H2 (S k)); [lia|auto]. }
      cbn [uniq]. destruct i as [|i], j as [|j].
      + destruct (Hlast0 a (conj Ha La)) as [Ea Hna]; clear Ea. destruct (Hlast0 b (conj Hb Lb)) as [Eb Hnb]. assert (a = x) by (destruct (Hlast0 a (conj Ha La)); auto). subst a b.
        destruct (is_in eq_dec x r) eqn:E; [apply is_in_iff in E; contradiction|].
        split; [|lia]. intros [i [j [Hij [E1 E2]]]].
        assert (j <> 0) by lia. destruct j as [|j]; [lia|]. cbn in E2. apply nth_error_In in E2.
        apply (proj1 (uniq_in r _)) in E2. contradiction.
      + destruct (Hlast0 a (conj Ha La)) as [Ea Hna]; subst a.
        destruct (is_in eq_dec x r) eqn:E; [apply is_in_iff in E; contradiction|].
        split; [lia|]. intros _. cbn in Hb. apply nth_error_In in Hb. apply (proj2 (uniq_in r b)) in Hb.
        apply In_nth_error in Hb as [k Hk]. exists 0, (S k). repeat split; auto. lia.
      + destruct (Hlast0 b (conj Hb Lb)) as [Eb Hnb]; subst b.
        destruct (is_in eq_dec x r) eqn:E; [apply is_in_iff in E; contradiction|].
        split; [|lia]. intros [i' [j' [Hij [E1 E2]]]]. destruct j' as [|j']; [lia|].
        cbn in E2. apply nth_error_In in E2. apply (proj1 (uniq_in r _)) in E2. contradiction.
      + pose proof (Hshift _ _ (conj Ha La)) as Ha'. pose proof (Hshift _ _ (conj Hb Lb)) as Hb'.
        rewrite <- Nat.succ_lt_mono, <- (IH a b i j Ha' Hb'). destruct (is_in eq_dec x r) eqn:E; [tauto|].
        apply is_in_false in E. split.
        * intros [i' [j' [Hij [E1 E2]]]]. destruct j' as [|j']; [lia|]. destruct i' as [|i'].
          -- cbn in E1. inversion E1; subst. destruct Ha' as [Ha' _]. apply nth_error_In in Ha'. contradiction.
          -- exists i', j'. repeat split; auto. lia.
        * intros [i' [j' [Hij [E1 E2]]]]. exists (S i'), (S j'). repeat split; auto. lia.
  Qed.

  Lemma unique_sequence_spec : forall ts,
    NoDup (unique_sequence eq_dec ts) /\
    (forall t, In t (unique_sequence eq_dec ts) <-> In t ts) /\
    sublist (unique_sequence eq_dec ts) ts /\
    (forall a b i j, last_position ts a i -> last_position ts b j ->
       (before (unique_sequence eq_dec ts) a b <-> i < j)).
  Proof.
    intro ts. rewrite unique_sequence_uniq.
    split; [apply uniq_nodup|]. split; [apply uniq_in|]. split; [apply uniq_sublist|]. apply uniq_order.
  Qed.

  Lemma filter_sequence_filter : forall (pred : T -> bool) ts rs,
    filter_sequence_0 pred rs ts = rs ++ filter pred ts.
  Proof.
    intros pred. induction ts as [|t r IH]; intro rs; cbn; [rewrite app_nil_r; auto|].
    destruct (pred t); rewrite IH; auto. rewrite <- app_assoc. auto.
  Qed.

  Lemma type_sequence_cat_concat : forall (seqs : list (list T)) rs, type_sequence_cat_0 rs seqs = rs ++ concat seqs.
  Proof.
    induction seqs as [|s r IH]; intro rs; cbn; [rewrite app_nil_r; auto|]. rewrite IH, <- app_assoc. auto.
  Qed.

  Lemma filter_sequence_spec : forall (pred : T -> bool) ts,
    sublist (filter_sequence pred ts) ts /\
    (forall t, In t (filter_sequence pred ts) <-> In t ts /\ pred t = true) /\
    (forall t, pred t = true -> count_occ eq_dec (filter_sequence pred ts) t = count_occ eq_dec ts t).
  Proof.
    intros pred ts. unfold filter_sequence. rewrite filter_sequence_filter. cbn [app]. split; [|split].
    - induction ts as [|x r IH]; cbn; [constructor|]. destruct (pred x); constructor; auto.
    - intro t. apply filter_In.
    - intros t Ht. induction ts as [|x r IH]; cbn; auto.
      destruct (pred x) eqn:E; cbn; destruct (eq_dec x t); auto. congruence.
  Qed.

  Lemma cat_spec : forall seqs : list (list T), type_sequence_cat seqs = concat seqs.
  Proof. intro seqs. unfold type_sequence_cat. rewrite type_sequence_cat_concat. auto. Qed.

  (** Lookup by base class. *)
  Lemma bases_of_in : forall t ts i k, In k (bases_of eq_dec t i ts) <-> exists j, k = i + j /\ nth_error ts j = Some t.
  Proof.
    intros t. induction ts as [|x r IH]; intros i k; cbn.
    - split; [tauto|]. intros [[|j] [_ H]]; discriminate.
    - assert (Hstep : (exists j, k = S i + j /\ nth_error r j = Some t) <-> exists j, k = i + S j /\ nth_error (x :: r) (S j) = Some t).
      { split; intros [j [H1 H2]]; exists j; split; auto; lia. }
      destruct (same eq_dec t x) eqn:E.
      + apply same_iff in E. subst x. cbn. rewrite IH, Hstep. split.
        * intros [<-|[j [H1 H2]]]; [exists 0; split; auto|exists (S j); auto].
        * intros [[|j] [H1 H2]]; [left; lia|right; exists j; auto].
      + rewrite IH, Hstep. split.
        * intros [j [H1 H2]]. exists (S j). auto.
        * intros [[|j] [H1 H2]]; [|exists j; auto]. cbn in H2. inversion H2; subst.
          assert (same eq_dec t t = true) by (apply same_iff; auto). congruence.
  Qed.

  Lemma bases_of_nodup : forall t ts i, NoDup (bases_of eq_dec t i ts).
  Proof.
    intros t. induction ts as [|x r IH]; intro i; cbn; [constructor|].
    destruct (same eq_dec t x); auto. constructor; auto.
    intro C. apply bases_of_in in C as [j [H _]]. lia.
  Qed.

  Lemma search_type_pack_index_spec : forall t ts,
    (forall p, search_type_pack_index eq_dec t ts = Z.of_nat p <-> only_position (eq t) ts p) /\
    ((search_type_pack_index eq_dec t ts < 0)%Z <-> ~ exists p, only_position (eq t) ts p).
  Proof.
    intros t ts. assert (H : forall p, search_type_pack_index eq_dec t ts = Z.of_nat p <-> only_position (eq t) ts p).
    { intro p. unfold search_type_pack_index. pose proof (bases_of_in t ts 0) as Hin.
      pose proof (bases_of_nodup t ts 0) as Hnd. destruct (bases_of eq_dec t 0 ts) as [|i [|i2 r]].
      - split; [lia|]. intros [[x [H1 <-]] _]. exfalso. apply (proj2 (Hin p)). exists p; auto.
      - split.
        + intro E. assert (i = p) by lia. subst i. destruct (proj1 (Hin p) (or_introl eq_refl)) as [j [-> Hj]].
          split; [exists t; auto|]. intros k x Hk <-.
          destruct (proj2 (Hin k)) as [<-|[]]; [|auto]. exists k; auto.
        + intros [[x [H1 <-]] _]. destruct (proj2 (Hin p)) as [<-|[]]; auto. exists p; auto.
      - split; [lia|]. intros [[x [H1 <-]] H2]. exfalso.
        destruct (proj1 (Hin i)) as [j [-> Hj]]; [cbn; auto|].
        destruct (proj1 (Hin i2)) as [j2 [-> Hj2]]; [cbn; auto|].
        pose proof (H2 _ _ Hj eq_refl). pose proof (H2 _ _ Hj2 eq_refl).
        inversion Hnd; subst. cbn in *. tauto. }
    split; auto. split.
    - intros Hn [p Hp]. apply H in Hp. lia.
    - intro Hn. destruct (Z.lt_ge_cases (search_type_pack_index eq_dec t ts) 0); auto.
      exfalso. apply Hn. exists (Z.to_nat (search_type_pack_index eq_dec t ts)). apply H. lia.
  Qed.

  (** Lookup in tuples. *)
  Lemma search_first_spec : forall (pred : T -> bool) ts i,
    (search_tuple_element_index_0 false pred i ts = (-1)%Z /\ (forall t, In t ts -> pred t = false)) \/
    (exists p t, search_tuple_element_index_0 false pred i ts = Z.of_nat (i + p) /\
       nth_error ts p = Some t /\ pred t = true /\
       forall j u, j < p -> nth_error ts j = Some u -> pred u = false).
  Proof.
    intros pred. induction ts as [|x r IH]; intro i; cbn.
    - left; split; auto. tauto.
    - destruct (pred x) eqn:E.
      + right. exists 0, x. rewrite Nat.add_0_r. repeat split; auto. intros; lia.
      + destruct (IH (S i)) as [[H1 H2]|[p [t [H1 [H2 [H3 H4]]]]]].
        * left; split; auto. intros t [<-|H]; auto.
        * right. exists (S p), t. split; [rewrite H1; f_equal; lia|]. repeat split; auto.
          intros [|j] u Hj Hu; cbn in Hu; [congruence|]. apply (H4 j); auto. lia.
  Qed.

  Lemma search_unique_spec : forall (pred : T -> bool) ts i,
    (search_tuple_element_index_0 true pred i ts = (-1)%Z /\ (forall t, In t ts -> pred t = false)) \/
    (exists p, search_tuple_element_index_0 true pred i ts = Z.of_nat (i + p) /\
       only_position (fun t => pred t = true) ts p) \/
    (search_tuple_element_index_0 true pred i ts = (-2)%Z /\
       exists p q, p <> q /\ (exists t, nth_error ts p = Some t /\ pred t = true) /\ (exists t, nth_error ts q = Some t /\ pred t = true)).
  Proof.
    intros pred. induction ts as [|x r IH]; intro i; cbn.
    - left; split; auto. tauto.
    - destruct (pred x) eqn:E.
      + destruct (IH (S i)) as [[H1 H2]|[[p [H1 [[t [H2 H3]] H4]]]|[H1 [p [q [H2 [[t [H3 H4]] H5]]]]]]].
        * right; left. exists 0. rewrite H1. cbn. rewrite Nat.add_0_r. split; auto.
          split; [exists x; auto|]. intros [|j] t Hj Ht; auto. cbn in Hj. apply nth_error_In in Hj.
          rewrite H2 in Ht; auto. discriminate.
        * right; right. rewrite H1. destruct (Z.eqb_spec (Z.of_nat (S i + p)) (-1)); [lia|]. split; auto.
          exists 0, (S p). split; [lia|]. split; [exists x; auto|exists t; auto].
        * right; right. rewrite H1. cbn. split; auto. exists 0, (S p). split; [lia|]. split; [exists x; auto|exists t; auto].
      + destruct (IH (S i)) as [[H1 H2]|[[p [H1 [[t [H2 H3]] H4]]]|[H1 [p [q [H2 [H3 H5]]]]]]].
        * left; split; auto. intros t [<-|H]; auto.
        * right; left. exists (S p). split; [rewrite H1; f_equal; lia|]. split; [exists t; auto|].
          intros [|j] u Hj Hu; cbn in Hj; [congruence|]. f_equal. eapply H4; eauto.
        * right; right. split; auto. exists (S p), (S q). split; [lia|]. auto.
  Qed.

  Lemma search_tuple_element_index_spec : forall (pred : T -> bool) ts,
    (forall p, search_tuple_element_index_0 true pred 0 ts = Z.of_nat p <-> only_position (fun t => pred t = true) ts p) /\
    ((search_tuple_element_index_0 true pred 0 ts < 0)%Z <-> ~ exists p, only_position (fun t => pred t = true) ts p).
  Proof.
    intros pred ts.
    assert (H : forall p, search_tuple_element_index_0 true pred 0 ts = Z.of_nat p <-> only_position (fun t => pred t = true) ts p).
    { intro p. destruct (search_unique_spec pred ts 0) as [[H1 H2]|[[q [H1 H2]]|[H1 [q [q' [H2 [[t [H3 H4]] [t' [H5 H6]]]]]]]]]; rewrite H1.
      - split; [lia|]. intros [[t [Ht Hp]] _]. apply nth_error_In in Ht. rewrite H2 in Hp; auto. discriminate.
      - cbn. split.
        + intro E. assert (q = p) by lia. subst; auto.
        + intros [[t [Ht Hp]] _]. destruct H2 as [_ H2]. rewrite (H2 _ _ Ht Hp). auto.
      - split; [lia|]. intros [_ Hu]. exfalso. apply H2. rewrite (Hu _ _ H3 H4), (Hu _ _ H5 H6). auto. }
    split; auto. split.
    - intros Hn [p Hp]. apply H in Hp. lia.
    - intro Hn. destruct (Z.lt_ge_cases (search_tuple_element_index_0 true pred 0 ts) 0); auto.
      exfalso. apply Hn. exists (Z.to_nat (search_tuple_element_index_0 true pred 0 ts)). apply H. lia.
  Qed.

  Lemma search_first_tuple_element_index_spec : forall (pred : T -> bool) ts,
    (forall p, search_tuple_element_index_0 false pred 0 ts = Z.of_nat p <-> first_position (fun t => pred t = true) ts p) /\
    ((search_tuple_element_index_0 false pred 0 ts < 0)%Z <-> forall t, In t ts -> pred t = false).
  Proof.
    intros pred ts. destruct (search_first_spec pred ts 0) as [[H1 H2]|[q [t [H1 [H2 [H3 H4]]]]]]; rewrite H1.
    - split.
      + intro p. split; [lia|]. intros [[t [Ht Hp]] _]. apply nth_error_In in Ht. rewrite H2 in Hp; auto. discriminate.
      + split; auto. lia.
    - cbn. split.
      + intro p. split.
        * intro E. assert (q = p) by lia. subst. split; [exists t; auto|]. intros j u Hj Hu C.
          rewrite (H4 j u Hj Hu) in C. discriminate.
        * intros [[u [Hu Hp]] Hf]. f_equal. destruct (Nat.lt_trichotomy q p) as [L|[L|L]]; auto.
          -- exfalso. eapply Hf; eauto.
          -- rewrite (H4 p u L Hu) in Hp. discriminate.
      + split; [lia|]. intro H. apply nth_error_In in H2. rewrite H in H3; auto. discriminate.
  Qed.

  Lemma only_position_same : forall t ts p,
    only_position (fun u => same eq_dec t u = true) ts p <-> only_position (eq t) ts p.
  Proof.
    intros t ts p. unfold only_position. split; intros [[u [H1 H2]] H3]; split.
    - exists u. split; auto. apply same_iff; auto.
    - intros j v Hj Hv. apply (H3 j v Hj). apply same_iff; auto.
    - exists u. split; auto. apply same_iff; auto.
    - intros j v Hj Hv. apply (H3 j v Hj). apply same_iff; auto.
  Qed.

  Lemma element_index_spec : forall t ts,
    (forall p, search_tuple_element_index eq_dec t ts = Z.of_nat p <-> only_position (eq t) ts p) /\
    ((search_tuple_element_index eq_dec t ts < 0)%Z <-> ~ exists p, only_position (eq t) ts p).
  Proof.
    intros t ts. destruct (search_tuple_element_index_spec (same eq_dec t) ts) as [H1 H2].
    unfold search_tuple_element_index. split.
    - intro p. rewrite H1. apply only_position_same.
    - rewrite H2. split; intros H [p Hp]; apply H; exists p; apply only_position_same; auto.
  Qed.

  Lemma first_element_index_spec : forall t ts,
    (forall p, search_first_tuple_element_index eq_dec t ts = Z.of_nat p <-> first_position (eq t) ts p) /\
    ((search_first_tuple_element_index eq_dec t ts < 0)%Z <-> ~ In t ts).
  Proof.
    intros t ts. destruct (search_first_tuple_element_index_spec (same eq_dec t) ts) as [H1 H2].
    unfold search_first_tuple_element_index. split.
    - intro p. rewrite H1. unfold first_position. split; intros [[u [H3 H4]] H5].
      + split; [exists u; split; auto; apply same_iff; auto|]. intros j v Hj Hv E. apply (H5 j v Hj Hv). apply same_iff; auto.
      + split; [exists u; split; auto; apply same_iff; auto|]. intros j v Hj Hv E. apply (H5 j v Hj Hv). apply same_iff; auto.
    - rewrite H2. split.
      + intros H C. specialize (H t C). assert (same eq_dec t t = true) by (apply same_iff; auto). congruence.
      + intros H u Hu. destruct (same eq_dec t u) eqn:E; auto. apply same_iff in E. subst. contradiction.
  Qed.

  Lemma type_pack_index_spec : forall t ts,
    (forall z, type_pack_index eq_dec t ts = Ok z <-> exists p, z = Z.of_nat p /\ only_position (eq t) ts p) /\
    (type_pack_index eq_dec t ts = IllFormed <-> ~ exists p, only_position (eq t) ts p).
  Proof.
    intros t ts. destruct (search_type_pack_index_spec t ts) as [H1 H2]. unfold type_pack_index.
    assert (Hc : (search_type_pack_index eq_dec t ts = -1)%Z \/ exists p, search_type_pack_index eq_dec t ts = Z.of_nat p).
    { unfold search_type_pack_index. destruct (bases_of eq_dec t 0 ts) as [|i [|]]; eauto. }
    destruct Hc as [E|[p E]].
    - rewrite E in *. cbn. split.
      + intro z. split; [discriminate|]. intros [p [_ Hp]]. exfalso. apply (proj1 H2); [lia|]. eauto.
      + split; auto. intros _. apply H2. lia.
    - rewrite E in *. destruct (Z.eqb_spec (Z.of_nat p) (-1)); [lia|]. split.
      + intro z. split.
        * intro Hz. inversion Hz; subst. exists p; split; auto. apply H1; auto.
        * intros [q [-> Hq]]. apply H1 in Hq. congruence.
      + split; [discriminate|]. intro Hn. exfalso. apply Hn. exists p. apply H1. auto.
  Qed.

  Lemma equal_types_spec : forall ts t, equal_types eq_dec ts = Some t <-> ts <> [] /\ forall u, In u ts -> u = t.
  Proof.
    intros [|x r] t; cbn; [split; [discriminate|tauto]|].
    assert (H : equal_types_0 eq_dec x r = Some t <-> x = t /\ forall u, In u r -> u = x).
    { induction r as [|y r IH]; cbn.
      - split; [intro E; inversion E; split; auto; tauto|]. intros [-> _]; auto.
      - destruct (same eq_dec x y) eqn:E.
        + apply same_iff in E. subst y. rewrite IH. split.
          * intros [-> H]. split; auto. intros u [<-|Hu]; auto.
          * intros [-> H]. split; auto.
        + split; [discriminate|]. intros [-> H]. exfalso. rewrite (H y) in E by auto.
          assert (same eq_dec t t = true) by (apply same_iff; auto). congruence. }
    rewrite H. split.
    - intros [-> Hu]. split; [discriminate|]. intros u [<-|Hr]; auto.
    - intros [_ Hu]. split; [apply Hu; auto|]. intros u Hr. rewrite (Hu u) by auto. symmetry. apply Hu; auto.
  Qed.

  Lemma is_in_v_wrong : forall t ts, In t ts -> is_in_v eq_dec t ts = false.
  Proof. intros. reflexivity. Qed.
End Proofs.
