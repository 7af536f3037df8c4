(** Theorems about type enumerations: C61. *)

From Coq Require Import ZArith Arith Bool Lia List.
From Verif Require Import Base ExpandModel TypeSeqModel TypeSeqSpec TypeSeqProofs TypeEnumModel TypeEnumSpec.
Import ListNotations.

Section Props.
  Context {T : Type}.
  Variable eq_dec : forall a b : T, {a = b} + {a <> b}.

  Lemma small_index : forall n, n < 24 -> cast int32 (Z.of_nat n) = Z.of_nat n.
  Proof. intros n H. do 24 (destruct n as [|n]; [reflexivity|]). lia. Qed.

  Lemma search_neg : forall (ts : list T) t, (search_type_pack_index eq_dec t ts < 0)%Z -> search_type_pack_index eq_dec t ts = (-1)%Z.
  Proof. intros ts t. unfold search_type_pack_index. destruct (bases_of eq_dec t 0 ts) as [|i [|]]; auto; lia. Qed.

  Lemma search_cases : forall (ts : list T) t, NoDup ts -> length ts < 24 ->
    (In t ts /\ exists e, search_type_pack_index eq_dec t ts = e /\ (e =? -1)%Z = false /\ cast int32 e = e /\ (0 <= e < Z.of_nat (length ts))%Z /\ stands_for ts e t) \/
    (~ In t ts /\ search_type_pack_index eq_dec t ts = (-1)%Z).
  Proof.
    intros ts t ND L. destruct (search_type_pack_index_spec eq_dec t ts) as [S1 S2]. destruct (in_dec eq_dec t ts) as [I|N]; [left|right].
    - split; auto. destruct (In_nth_error _ _ I) as [p Hp].
      assert (O : only_position (eq t) ts p). { split; [eauto|]. intros j u Hj <-. rewrite NoDup_nth_error in ND. apply ND; [apply nth_error_Some; congruence|congruence]. }
      apply S1 in O. assert (Lp : p < length ts) by (apply nth_error_Some; congruence). exists (Z.of_nat p). rewrite O. split; [reflexivity|]. split; [apply Z.eqb_neq; lia|]. split; [apply small_index; lia|]. split; [lia|]. split; [lia|]. rewrite Nat2Z.id. exact Hp.
    - split; auto. apply search_neg, S2. intros (p & (u & H1 & <-) & _). apply N. eapply nth_error_In; eauto.
  Qed.

  Lemma of_int_ok : forall (ts : list T) v, 0 < length ts < 24 -> enum_of_int ts v = if ((0 <=? v) && (v <? Z.of_nat (length ts)))%Z then Ok v else Contract.
  Proof.
    intros ts v L. unfold enum_of_int, type_enum_ok. replace (Nat.ltb (length ts) 24) with true by (symmetry; apply Nat.ltb_lt; lia). cbn [negb].
    rewrite small_index by lia. destruct ts as [|a ts]; [cbn in L; lia|]. destruct ((0 <=? v) && (v <? Z.of_nat (length (a :: ts))))%Z; reflexivity.
  Qed.

  (** C61.  For a list of fewer than 24 types without repetition. *)
  Theorem C61_construct : forall (ts : list T), NoDup ts -> length ts < 24 -> forall t,
    (In t ts -> exists e, enum_of_type eq_dec ts t = Ok e /\ stands_for ts e t /\ case_label eq_dec ts t = Ok (enum_to_int e)) /\
    (~ In t ts -> enum_of_type eq_dec ts t = IllFormed /\ case_label eq_dec ts t = IllFormed).
  Proof.
    intros ts ND L t. unfold enum_of_type, case_label, type_enum_ok. replace (Nat.ltb (length ts) 24) with true by (symmetry; apply Nat.ltb_lt; lia). cbn [negb].
    destruct (search_cases ts t ND L) as [(I & e & -> & E1 & E2 & E3 & E4)|(N & ->)].
    - split; [intros _|contradiction]. rewrite E1, E2, of_int_ok by (destruct ts; [destruct I|cbn in *; lia]). exists e. split; [|split; [exact E4|reflexivity]].
      replace ((0 <=? e) && (e <? Z.of_nat (length ts)))%Z with true; [reflexivity|]. symmetry. apply andb_true_iff. rewrite Z.leb_le, Z.ltb_lt. exact E3.
    - split; [contradiction|]. intros _. split; reflexivity.
  Qed.
  Theorem C61_from_int : forall (ts : list T) v, 0 < length ts < 24 ->
    (enum_of_int ts v = Ok v /\ (0 <= v < Z.of_nat (length ts))%Z) \/ (enum_of_int ts v = Contract /\ ~ (0 <= v < Z.of_nat (length ts))%Z).
  Proof.
    intros ts v L. rewrite of_int_ok by auto. destruct ((0 <=? v) && (v <? Z.of_nat (length ts)))%Z eqn:E; [left|right]; (split; [reflexivity|]).
    - apply andb_true_iff in E. rewrite Z.leb_le, Z.ltb_lt in E. exact E.
    - intro H. assert (((0 <=? v) && (v <? Z.of_nat (length ts)))%Z = true) by (apply andb_true_iff; rewrite Z.leb_le, Z.ltb_lt; exact H). congruence.
  Qed.
  (** Every object stands for exactly one type, and comparisons with types tell which. *)
  Theorem C61_compare_type : forall (ts : list T), NoDup ts -> length ts < 24 -> forall e t u, stands_for ts e t ->
    (In u ts -> exists b, enum_eq_type eq_dec ts e u = Ok b /\ type_eq_enum eq_dec ts u e = Ok b /\
       enum_ne_type eq_dec ts e u = Ok (negb b) /\ type_ne_enum eq_dec ts u e = Ok (negb b) /\ (b = true <-> t = u)) /\
    (~ In u ts -> enum_eq_type eq_dec ts e u = IllFormed /\ type_eq_enum eq_dec ts u e = IllFormed /\
       enum_ne_type eq_dec ts e u = IllFormed /\ type_ne_enum eq_dec ts u e = IllFormed).
  Proof.
    intros ts ND L e t u S. unfold type_eq_enum, enum_ne_type, type_ne_enum, enum_eq_type.
    destruct (search_cases ts u ND L) as [(I & x & -> & E1 & E2 & E3 & E4)|(N & ->)].
    - split; [intros _|contradiction]. rewrite E1, E2. exists (Z.eqb x e). repeat (split; [reflexivity|]). rewrite Z.eqb_eq. unfold stands_for in *. split.
      + intros ->. destruct S, E4. congruence.
      + intros ->. destruct S as [S1 S2], E4 as [E5 E6]. rewrite NoDup_nth_error in ND. assert (Z.to_nat x = Z.to_nat e); [|lia]. apply ND; [apply nth_error_Some; congruence|congruence].
    - split; [contradiction|]. intros _. repeat split; reflexivity.
  Qed.
  Theorem C61_compare_enums : forall (ts : list T), NoDup ts -> forall a b t u, stands_for ts a t -> stands_for ts b u ->
    (enum_eq a b = true <-> t = u) /\ (enum_ne a b = true <-> t <> u).
  Proof.
    intros ts ND a b t u [A1 A2] [B1 B2]. assert (Q : a = b <-> t = u).
    { split; [intros ->; congruence|]. intros ->. rewrite NoDup_nth_error in ND. assert (Z.to_nat a = Z.to_nat b); [|lia]. apply ND; [apply nth_error_Some; congruence|congruence]. }
    unfold enum_ne, enum_eq. rewrite negb_true_iff, Z.eqb_neq, Z.eqb_eq, Q. split; reflexivity.
  Qed.
  (** A switch statement over an object reaches the label of its type and no other. *)
  Theorem C61_switch : forall (ts : list T), NoDup ts -> length ts < 24 -> forall e t u, stands_for ts e t -> In u ts ->
    exists l, case_label eq_dec ts u = Ok l /\ (enum_to_int e = l <-> t = u).
  Proof.
    intros ts ND L e t u S I. destruct (C61_construct ts ND L u) as [C _]. destruct (C I) as (x & _ & Sx & Lx). exists (enum_to_int x). split; [exact Lx|].
    destruct (C61_compare_enums ts ND e x t u S Sx) as [Q _]. rewrite <- Q. unfold enum_eq, enum_to_int. rewrite Z.eqb_eq. reflexivity.
  Qed.
  (** The default list of values has one object per type, in order. *)
  Theorem C61_values : forall (ts : list T), NoDup ts -> length ts < 24 -> exists es, default_values eq_dec ts = Ok es /\ Forall2 (stands_for ts) es ts /\ NoDup es.
  Proof.
    intros ts ND L. unfold default_values. assert (G : forall l, (forall t, In t l -> In t ts) -> exists es, mapM (enum_of_type eq_dec ts) l = Ok es /\ Forall2 (stands_for ts) es l).
    { induction l as [|t l IH]; intros H; [exists []; split; [reflexivity|constructor]|]. cbn [mapM]. destruct (proj1 (C61_construct ts ND L t) (H t (or_introl eq_refl))) as (e & -> & S & _).
      destruct IH as (es & -> & F); [intros; apply H; right; auto|]. exists (e :: es). split; [reflexivity|constructor; auto]. }
    destruct (G ts (fun t I => I)) as (es & E & F). exists es. split; [exact E|]. split; [exact F|].
    assert (Q : forall es' ts', Forall2 (stands_for ts) es' ts' -> NoDup ts' -> NoDup es').
    { induction 1 as [|e t es' ts' S F' IH]; intro N; [constructor|]. apply NoDup_cons_iff in N as [N1 N2]. constructor; [|auto]. intro I. apply N1.
      assert (W : forall l1 l2, Forall2 (stands_for ts) l1 l2 -> In e l1 -> In t l2). { induction 1 as [|e' t' l1 l2 S' F'' IH']; intro I'; [destruct I'|]. destruct I' as [->|I']; [left; destruct S, S'; congruence|right; auto]. }
      eapply W; eauto. }
    eapply Q; eauto.
  Qed.
  Theorem C61_type_compare : forall a b : T, (type_eq eq_dec a b = true <-> a = b) /\ (type_ne eq_dec a b = true <-> a <> b).
  Proof. intros a b. unfold type_ne, type_eq, same. destruct (eq_dec a b); cbn; split; split; congruence. Qed.
  (** Beyond that: a type that the list contains twice can neither be converted nor be compared, and long lists are rejected. *)
  Theorem C61_repeated : forall (ts : list T) t i j e, i <> j -> nth_error ts i = Some t -> nth_error ts j = Some t ->
    enum_of_type eq_dec ts t = IllFormed /\ enum_eq_type eq_dec ts e t = IllFormed.
  Proof.
    intros ts t i j e N Hi Hj. destruct (search_type_pack_index_spec eq_dec t ts) as [_ S2].
    assert (S : search_type_pack_index eq_dec t ts = (-1)%Z). { apply search_neg, S2. intros (p & _ & U). apply N. rewrite (U i t Hi eq_refl), (U j t Hj eq_refl). reflexivity. }
    unfold enum_of_type, enum_eq_type. rewrite S. cbn. split; [destruct (negb _); reflexivity|reflexivity].
  Qed.
  Theorem C61_long : forall (ts : list T) t v, 24 <= length ts -> enum_of_type eq_dec ts t = IllFormed /\ enum_of_int ts v = IllFormed /\
    case_label eq_dec ts t = IllFormed.
  Proof. intros ts t v L. unfold enum_of_type, enum_of_int, case_label, type_enum_ok. replace (Nat.ltb (length ts) 24) with false by (symmetry; apply Nat.ltb_ge; lia). repeat split. Qed.
  (** An enumeration of no types has no values. *)
  Theorem C61_empty : forall t v, enum_of_int (T := T) [] v = IllFormed /\ enum_of_type eq_dec [] t = IllFormed /\ case_label eq_dec [] t = IllFormed.
  Proof. intros. repeat split. Qed.
End Props.

Example C61_example : let ts := [7; 3; 5] in
  NoDup ts /\ enum_of_type Nat.eq_dec ts 5 = Ok 2%Z /\ enum_eq_type Nat.eq_dec ts 2 5 = Ok true /\ enum_eq_type Nat.eq_dec ts 2 3 = Ok false /\ enum_eq_type Nat.eq_dec ts 2 4 = IllFormed /\
  enum_of_int ts 3 = Contract /\ enum_of_int ts (-1) = Contract /\ default_values Nat.eq_dec ts = Ok [0; 1; 2]%Z /\ enum_of_type Nat.eq_dec [7; 3; 7] 7 = IllFormed.
Proof. split; [repeat constructor; cbn; intuition lia|]. repeat split. Qed.
Print Assumptions C61_construct.
Print Assumptions C61_from_int.
Print Assumptions C61_compare_type.
Print Assumptions C61_compare_enums.
Print Assumptions C61_switch.
Print Assumptions C61_values.
Print Assumptions C61_type_compare.
Print Assumptions C61_repeated.
Print Assumptions C61_long.
Print Assumptions C61_empty.
