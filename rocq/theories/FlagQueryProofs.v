(** Proofs about the queries of flags. *)

From Coq Require Import ZArith Bool Lia List.
From Verif Require Import Base ExpandModel ExpandSpec ExpandProofs FlagQueryModel FlagQuerySpec.
Local Open Scope Z_scope.

Lemma bit_iff : forall w v i, bit w v i <-> 0 <= i < w /\ Z.testbit v i = true.
Proof. intros w v i. unfold bit. rewrite Z.testbit_odd. split; intros [H1 H2]; split; auto; rewrite Z.shiftr_div_pow2 in * by lia; auto. Qed.

Lemma same_bits : forall t x y, ity_ok t -> in_ity t x = true -> in_ity t y = true ->
  (forall i, 0 <= i < ity_bits t -> Z.testbit x i = Z.testbit y i) -> x = y.
Proof.
  intros t x y Ht Hx Hy H. unfold ity_ok in Ht. apply (same_class_eq t); auto; [lia|]. apply Z.bits_inj'. intros i Hi.
  destruct (Z.lt_ge_cases i (ity_bits t)); [rewrite !Z.mod_pow2_bits_low by lia; apply H; lia|rewrite !Z.mod_pow2_bits_high by lia; reflexivity].
Qed.

Lemma cast_bits : forall t x i, ity_ok t -> 0 <= i < ity_bits t -> Z.testbit (cast t x) i = Z.testbit x i.
Proof.
  intros t x i Ht Hi. unfold ity_ok in Ht. rewrite <- (Z.mod_pow2_bits_low (cast t x) (ity_bits t)) by lia. rewrite cast_mod by lia. apply Z.mod_pow2_bits_low. lia.
Qed.

Lemma bit_and_bits : forall t a b i, ity_ok t -> in_ity t a = true -> in_ity t b = true -> 0 <= i < ity_bits t ->
  Z.testbit (bit_and t a b) i = Z.testbit a i && Z.testbit b i.
Proof.
  intros t a b i Ht Ha Hb Hi. unfold bit_and. rewrite cast_bits by auto. rewrite !cast_id; auto using promote_in; [|destruct (promote_ok t Ht) as [[? ?] ?]; lia..]. apply Z.land_spec.
Qed.
Lemma bit_and_in : forall t a b, ity_ok t -> in_ity t (bit_and t a b) = true.
Proof. intros t a b Ht. apply cast_range. apply Ht. Qed.
Lemma zero_in : forall t, ity_ok t -> in_ity t 0 = true.
Proof. intros t Ht. rewrite in_ity_iff. unfold int_value. destruct (pow_split (ity_bits t)) as [P1 P2]; [apply Ht|]. destruct (ity_signed t); lia. Qed.

Section Queries.
  Variables (t : ity) (h n : Z).
  Hypothesis Ht : ity_ok t.
  Hypothesis Hh : in_ity t h = true.
  Hypothesis Hn : in_ity t n = true.
  Lemma all_spec : Z.eqb (bit_and t h n) n = true <-> all_bits (ity_bits t) h n.
  Proof.
    rewrite Z.eqb_eq. unfold all_bits. split.
    - intros E i B. rewrite bit_iff in *. destruct B as [B1 B2]. split; auto. rewrite <- E in B2. rewrite bit_and_bits in B2 by auto. apply andb_true_iff in B2. tauto.
    - intros H. apply (same_bits t); auto using bit_and_in. intros i Hi. rewrite bit_and_bits by auto. destruct (Z.testbit n i) eqn:E; [|apply andb_false_r].
      assert (B : bit (ity_bits t) n i) by (rewrite bit_iff; auto). apply H, bit_iff in B. destruct B as [_ ->]. reflexivity.
  Qed.
  Lemma none_spec : Z.eqb (bit_and t h n) 0 = true <-> ~ some_bit (ity_bits t) h n.
  Proof.
    rewrite Z.eqb_eq. split.
    - intros E (i & B1 & B2). rewrite bit_iff in *. destruct B1 as [Hi B1], B2 as [_ B2]. pose proof (bit_and_bits t h n i Ht Hh Hn Hi) as X. rewrite E, B1, B2, Z.bits_0 in X. discriminate.
    - intros H. apply (same_bits t); auto using bit_and_in, zero_in. intros i Hi. rewrite bit_and_bits, Z.bits_0 by auto.
      destruct (Z.testbit h i) eqn:E1, (Z.testbit n i) eqn:E2; auto. exfalso. apply H. exists i. rewrite !bit_iff. auto.
  Qed.
End Queries.

Lemma int_common_in : forall t v, ity_ok t -> in_ity t v = true -> in_ity (common_type t int32) v = true /\ ity_ok (common_type t int32).
Proof.
  intros t v Ht Hv. split; [|apply common_type_ok; [auto|unfold ity_ok, int32; cbn; lia]].
  pose proof (promote_in t v Ht Hv) as P. pose proof (promote_ok t Ht) as [Hp _]. unfold common_type. change (promote int32) with int32.
  assert (W : 32 <= ity_bits (promote t)). { unfold promote. destruct (Z.ltb_spec (ity_bits t) 32); cbn; lia. }
  destruct (promote t) as [b s]. cbn [ity_bits ity_signed int32] in *. destruct s; cbn [Bool.eqb].
  - destruct (Z.ltb_spec b 32); [lia|exact P].
  - change (ity_bits int32) with 32. cbn [ity_bits]. destruct (Z.leb_spec 32 b); [exact P|lia].
Qed.

Lemma land_pred : forall v, 0 < v -> (Z.land v (v - 1) = 0 <-> v = 2 ^ Z.log2 v).
Proof.
  intros v Hv. pose proof (Z.log2_nonneg v) as Hk. destruct (Z.log2_spec v Hv) as [L1 L2]. set (k := Z.log2 v) in *. split.
  - intro E. destruct (Z.eq_dec v (2 ^ k)) as [|N]; auto. exfalso.
    assert (Z.log2 (v - 1) = k) by (apply Z.log2_unique; lia).
    assert (P : 0 < 2 ^ k) by (apply Z.pow_pos_nonneg; lia).
    assert (B : Z.testbit (Z.land v (v - 1)) k = true).
    { rewrite Z.land_spec. unfold k at 1. rewrite Z.bit_log2 by lia. rewrite <- H. rewrite Z.bit_log2 by lia. reflexivity. }
    rewrite E, Z.bits_0 in B. discriminate.
  - intro E. rewrite E. replace (2 ^ k - 1) with (Z.ones k) by (rewrite Z.ones_equiv; lia). apply Z.bits_inj'. intros i Hi. rewrite Z.land_spec, Z.bits_0, Z.pow2_bits_eqb by lia.
    destruct (Z.eqb_spec k i); [subst i; rewrite Z.ones_spec_high by lia|]; reflexivity.
Qed.

Lemma flag_value : forall t v, ity_ok t -> in_ity t v = true -> is_flag_power_of_2 t v = Ok ((0 <? v) && (Z.land v (v - 1) =? 0)).
Proof.
  intros t v Ht Hv. unfold is_flag_power_of_2, int_lt. rewrite (common_type_sym int32 t).
  destruct (int_common_in t v Ht Hv) as [Hc Oc]. set (c := common_type t int32) in *.
  assert (B1 : 1 <= ity_bits c) by apply Oc.
  rewrite (cast_id c 0), (cast_id c v) by auto using zero_in. destruct (Z.ltb_spec 0 v); [|reflexivity]. cbn [andb].
  assert (I1 : in_ity c (v - 1) = true). { rewrite in_ity_iff in *. unfold int_value in *. destruct (pow_split (ity_bits c) B1). destruct (ity_signed c); lia. }
  assert (I2 : in_ity c 1 = true). { rewrite in_ity_iff in *. unfold int_value in *. destruct (pow_split (ity_bits c) B1). destruct (ity_signed c); lia. }
  rewrite (cast_id c 1) by auto. unfold int_arith. destruct (ity_signed c).
  - rewrite I1. cbn [bind]. rewrite cast_id by auto. reflexivity.
  - cbn [bind]. rewrite !(cast_id c (v - 1)) by auto. reflexivity.
Qed.

Lemma only_bit_pow : forall w v i, 0 < v < 2 ^ w -> (only_bit w v i <-> 0 <= i < w /\ v = 2 ^ i).
Proof.
  intros w v i Hv. split.
  - intros [B U]. rewrite bit_iff in B. destruct B as [Hi B]. split; auto. apply Z.bits_inj'. intros j Hj. rewrite Z.pow2_bits_eqb by lia.
    destruct (Z.eqb_spec i j) as [->|N]; auto. destruct (Z.testbit v j) eqn:E; auto. exfalso.
    destruct (Z.lt_ge_cases j w); [apply N; symmetry; apply U, bit_iff; auto|].
    rewrite <- (Z.mod_small v (2 ^ w)) in E by lia. rewrite Z.mod_pow2_bits_high in E by lia. discriminate.
  - intros [Hi ->]. split; [apply bit_iff; split; auto; apply Z.pow2_bits_true; lia|]. intros j B. apply bit_iff in B. destruct B as [Hj B]. rewrite Z.pow2_bits_eqb in B by lia. apply Z.eqb_eq in B. auto.
Qed.

Lemma log_unique : forall v i, 0 <= i -> v = 2 ^ i -> i = Z.log2 v.
Proof. intros v i Hi ->. symmetry. apply Z.log2_pow2. auto. Qed.
