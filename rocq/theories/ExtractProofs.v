From Coq Require Import ZArith Arith Bool Lia List.
From Verif Require Import Base TupleModel TupleProofs MetaModel MetaSpec MetaProofs ExtractModel ExtractSpec.
Import ListNotations.

Fixpoint mty_size (a : mty) : nat :=
  match a with
  | TTuple l => S (fold_right (fun x n => mty_size x + n) 0 l)
  | TArray r _ => S (mty_size r)
  | _ => 1
  end.

Lemma mty_eqb_spec : forall a b, mty_eqb a b = true <-> a = b.
Proof.
  intro a. remember (mty_size a) as n eqn:Hn. assert (Hl : mty_size a <= n) by lia. clear Hn. revert a Hl.
  induction n as [|n IH]; intros a Hl; [destruct a; cbn in Hl; lia|].
  destruct a as [x|x|c d|c|l|r k|k|], b as [x'|x'|c' d'|c'|l'|r' k'|k'|]; cbn [mty_eqb];
    try (split; [discriminate|congruence]); try (rewrite ?andb_true_iff, ?Nat.eqb_eq; split; [intuition congruence|intro E; inversion E; auto]).
  - rewrite Bool.eqb_true_iff. split; congruence.
  - cbn in Hl. assert (Hs : fold_right (fun x n => mty_size x + n) 0 l <= n) by lia. clear Hl. revert l' Hs.
    induction l as [|x l IHl]; intros [|y l'] Hs; try (split; [discriminate|congruence]); [split; reflexivity|].
    cbn [fold_right] in Hs. rewrite andb_true_iff, IH by lia. assert (G := IHl l'). 
    rewrite G by lia. split; [intros [-> E]; congruence|]. intro E. injection E as -> ->. auto.
  - cbn in Hl. rewrite andb_true_iff, Nat.eqb_eq, IH by lia. split; [intros [-> ->]; reflexivity|intro E; injection E as -> ->; auto].
Qed.

(** * Occurrences *)
Lemma number_filter : forall A (P : A -> Prop) (p : A -> bool), (forall x, P x <-> p x = true) -> forall l n,
  number P l n <-> length (filter p l) = n.
Proof.
  intros A P p H l. induction l as [|x l IH]; intro n; cbn [filter length].
  - split; [intro N; inversion N; reflexivity|intros <-; constructor].
  - destruct (p x) eqn:E; cbn [length]; split.
    + intro N. inversion N as [|? ? ? Hx N'|? ? ? Hx N']; subst; [f_equal; apply IH; assumption|destruct Hx; apply H; assumption].
    + intros <-. apply number_yes; [apply H; assumption|apply IH; reflexivity].
    + intro N. inversion N as [|? ? ? Hx N'|? ? ? Hx N']; subst; [apply H in Hx; congruence|apply IH; assumption].
    + intro N. apply number_no; [rewrite H; congruence|apply IH; assumption].
Qed.

Lemma occurrence_filter : forall A (P : A -> Prop) (p : A -> bool), (forall x, P x <-> p x = true) -> forall l occ x,
  occurrence P l occ x <-> nth_error (filter p l) occ = Some x.
Proof.
  intros A P p H l occ x. split.
  - intros [pre [post [-> [Px N]]]]. apply (number_filter A P p H) in N. rewrite filter_app, nth_error_app2 by lia.
    rewrite N, Nat.sub_diag. cbn [filter]. apply H in Px. rewrite Px. reflexivity.
  - revert occ. induction l as [|y l IH]; intros occ E; [destruct occ; discriminate|]. cbn [filter] in E. destruct (p y) eqn:Py.
    + destruct occ as [|occ].
      * injection E as <-. exists [], l. split; [reflexivity|]. split; [apply H; assumption|constructor].
      * destruct (IH occ E) as [pre [post [-> [Px N]]]]. exists (y :: pre), post. split; [reflexivity|]. split; [assumption|].
        apply number_yes; [apply H|]; assumption.
    + destruct (IH occ E) as [pre [post [-> [Px N]]]]. exists (y :: pre), post. split; [reflexivity|]. split; [assumption|].
      apply number_no; [rewrite H; congruence|assumption].
Qed.

Lemma as_view_promote : forall x y, as_view x y <-> y = promote x.
Proof.
  intros x y. split.
  - intros [[s [-> ->]]|[N ->]]; [reflexivity|]. destruct x as [[] s| | | | | | |]; try reflexivity. destruct (N s eq_refl).
  - intros ->. destruct x as [[] s| | | | | | |]; [left; eauto|right; split; [discriminate|reflexivity] ..].
Qed.

Section Convert.
  Variable convert : mty -> mty -> option (md -> md).

  Lemma init_from_ok : forall V x y, init_from convert V x = Ok y <-> converted convert V x y.
  Proof.
    intros V x y. unfold init_from, converted. destruct (mty_eqb (type_of x) V) eqn:E.
    - apply mty_eqb_spec in E. split; [intro G; injection G as <-; auto|]. intros [[_ ->]|[N _]]; [reflexivity|contradiction].
    - assert (N : type_of x <> V) by (rewrite <- mty_eqb_spec; congruence). split.
      + destruct (convert (type_of x) V) as [f|]; [|discriminate]. intro G. injection G as <-. right. split; [assumption|]. eauto.
      + intros [[E' _]|[_ [f [F ->]]]]; [contradiction|]. rewrite F. reflexivity.
  Qed.
  Lemma init_from_cases : forall V x, (exists y, init_from convert V x = Ok y) \/ init_from convert V x = IllFormed.
  Proof. intros V x. unfold init_from. destruct (mty_eqb _ _); [eauto|]. destruct (convert _ _); eauto. Qed.

  (** * Whole metadata *)
  Lemma extract_metadata_found : forall pred occ m y, well_typed m ->
    (extract_metadata pred occ m = Some y <-> exists x, found (fun M => pred M = true) m occ x /\ as_view x y).
  Proof.
    intros pred occ m y W. destruct (is_available m) eqn:A.
    2:{ unfold extract_metadata. rewrite A. destruct m; try discriminate. split; [discriminate|]. intros [x [[N _] _]]. congruence. }
    assert (Am : m <> MNullopt) by (intros ->; discriminate).
    destruct (bool_dec (Nat.eqb occ 0 && pred (type_of m)) true) as [Q|Q].
    - assert (Q' := Q). apply andb_true_iff in Q'. destruct Q' as [Q1 Q2]. apply Nat.eqb_eq in Q1. subst occ.
      rewrite extract_whole by assumption. split.
      + intro E. injection E as <-. exists m. split; [|apply as_view_promote; reflexivity]. split; [assumption|]. left. auto.
      + intros [x [[_ [[_ [_ ->]]|[N _]]] V]]; [apply as_view_promote in V; congruence|]. destruct N. auto.
    - assert (Nq : ~ (occ = 0 /\ pred (type_of m) = true)) by (intros [-> Hp]; apply Q; rewrite Hp; reflexivity).
      destruct (tuple_or_array_dec m) as [[l Hl]|Hn].
      + rewrite (extract_tuple pred occ m l W Hl).
        2:{ intros ->. apply not_true_iff_false. intro G. apply Nq. auto. }
        split.
        * destruct (nth_error _ _) as [x|] eqn:E; [|discriminate]. intro G. injection G as <-. exists x. split; [|apply as_view_promote; reflexivity].
          split; [assumption|]. right. split; [assumption|]. exists l. split; [assumption|].
          eapply occurrence_filter; [|exact E]. intro; reflexivity.
        * intros [x [[_ [[Z [Hp _]]|[_ [l' [Hl' O]]]]] V]]; [destruct Nq; auto|]. rewrite (tuple_or_array_inj _ _ _ Hl Hl').
          apply (occurrence_filter _ _ (fun x => pred (type_of x))) in O; [|intro; reflexivity]. rewrite O. apply as_view_promote in V. subst y. reflexivity.
      + rewrite (extract_leaf pred occ m Hn A). apply not_true_is_false in Q. rewrite Q. split; [discriminate|].
        intros [x [[_ [[Z [Hp _]]|[_ [l' [Hl' O]]]]] V]]; [destruct Nq; auto|]. destruct (Hn l' Hl').
  Qed.

  (** * Columns *)
  Section Pred.
    Variables (pred : mty -> bool) (occ : nat).
    Let P := fun M => pred M = true.
    Definition cell (r y : md) : Prop := exists x, occurrence (fun z => P (type_of z)) (elements r) occ x /\ y = promote x.

    Lemma record_index_cell : forall r, well_typed r -> (exists l, tuple_or_array r l) ->
      match record_index pred occ (type_of r) with
      | Some j => exists y, get_promoted j r = Ok y /\ cell r y
      | None => silent P occ r
      end.
    Proof.
      intros r W [l Hl]. destruct (element_types_ok r l W Hl) as [E1 E2]. unfold record_index. rewrite E1. subst l.
      assert (G := record_index_0_filter pred (elements r) 0 occ).
      destruct (record_index_0 pred (map type_of (elements r)) 0 occ) as [j|].
      - destruct G as [_ [G [x Gx]]]. rewrite Nat.sub_0_r in *. unfold get_promoted. rewrite Gx. exists (promote x). split; [reflexivity|].
        exists x. split; [|reflexivity]. apply (occurrence_filter _ _ (fun x => pred (type_of x))); [intro; reflexivity|]. rewrite <- G. assumption.
      - intros x O. apply (occurrence_filter _ _ (fun x => pred (type_of x))) in O; [|intro; reflexivity]. congruence.
    Qed.

    Lemma cell_unique : forall r y y', cell r y -> cell r y' -> y = y'.
    Proof.
      intros r y y' [x [O ->]] [x' [O' ->]]. apply (occurrence_filter _ _ (fun x => pred (type_of x))) in O; [|intro; reflexivity].
      apply (occurrence_filter _ _ (fun x => pred (type_of x))) in O'; [|intro; reflexivity]. congruence.
    Qed.
    Lemma cell_not_silent : forall r y, cell r y -> ~ silent P occ r.
    Proof. intros r y [x [O _]] S. exact (S x O). Qed.

    Lemma try_extract_cells : forall kind x rs, well_typed x -> record_list kind x rs ->
      (exists ys, try_extract_column pred occ x = Ok (Some ys) /\ Forall2 cell rs ys) \/
      (try_extract_column pred occ x = Ok None /\ exists r, In r rs /\ silent P occ r).
    Proof.
      intros kind x rs W [Hx [Hne Hrs]].
      assert (Tl : forall r, In r rs -> exists l, tuple_or_array r l).
      { intros r Hr. apply (proj1 (Forall_forall _ _) Hrs) in Hr. destruct Hr as [y [_ [l Hl]]]. eauto. }
      assert (Wr : forall r, In r rs -> well_typed r).
      { assert (We := wt_elements x W). rewrite (proj2 (element_types_ok x rs W Hx)) in We. apply Forall_forall. assumption. }
      destruct Hx as [->|[t ->]]; cbn [try_extract_column].
      - unfold record_indices. cbn [type_of element_types]. rewrite map_map.
        destruct (any_index_invalid (map (fun r => record_index pred occ (type_of r)) rs)) eqn:E; cbn [negb].
        + right. split; [reflexivity|]. unfold any_index_invalid in E. apply existsb_exists in E. destruct E as [j [Hj Ej]].
          apply in_map_iff in Hj. destruct Hj as [r [Er Hr]]. exists r. split; [assumption|].
          assert (G := record_index_cell r (Wr r Hr) (Tl r Hr)). rewrite Er in G. destruct j; [discriminate|]. assumption.
        + left. unfold extract_column_seq. cbn [elements]. clear Hrs Hne W.
          assert (K : exists ys, mapM (fun p => get_promoted (fst p) (snd p)) (combine (valid_indices (map (fun r => record_index pred occ (type_of r)) rs)) rs)
                     = Ok ys /\ Forall2 cell rs ys).
          { induction rs as [|r rs IH]; [exists []; split; [reflexivity|constructor]|].
            cbn [map any_index_invalid existsb] in E. apply orb_false_iff in E. destruct E as [E1 E2].
            destruct IH as [ns [F1 F2]]; [intros; apply Tl; right; assumption|intros; apply Wr; right; assumption|exact E2|].
            assert (G := record_index_cell r (Wr r (or_introl eq_refl)) (Tl r (or_introl eq_refl))).
            cbn [map valid_indices flat_map]. fold (valid_indices (map (fun r => record_index pred occ (type_of r)) rs)).
            destruct (record_index pred occ (type_of r)) as [j|]; [|discriminate].
            destruct G as [s [G1 G2]]. exists (s :: ns). split; [|constructor; assumption].
            cbn [app combine mapM fst snd]. rewrite G1. cbn [bind]. rewrite F1. reflexivity. }
          destruct K as [ys [K1 K2]]. exists ys. split; [|assumption]. rewrite K1. reflexivity.
      - inversion W as [| | | | | | |t' l' _ Ft]; subst.
        assert (J : forall r, In r rs -> record_index pred occ (type_of r) = record_index pred occ t).
        { intros r Hr. apply (proj1 (Forall_forall _ _) Ft) in Hr. congruence. }
        destruct (record_index pred occ t) as [j|] eqn:Ej.
        + left. unfold extract_column. cbn [elements].
          assert (K : exists ys, mapM (get_promoted j) rs = Ok ys /\ Forall2 cell rs ys).
          { clear Ft Hrs Hne W. induction rs as [|r rs IH]; [exists []; split; [reflexivity|constructor]|].
            destruct IH as [ns [F1 F2]]; [intros; apply Tl; right; assumption|intros; apply Wr; right; assumption|intros; apply J; right; assumption|].
            assert (G := record_index_cell r (Wr r (or_introl eq_refl)) (Tl r (or_introl eq_refl))).
            rewrite (J r (or_introl eq_refl)) in G. destruct G as [s [G1 G2]].
            exists (s :: ns). split; [|constructor; assumption]. cbn [map mapM]. rewrite G1. cbn [bind]. rewrite F1. reflexivity. }
          destruct K as [ys [K1 K2]]. exists ys. split; [|assumption]. rewrite K1. reflexivity.
        + right. split; [reflexivity|]. destruct rs as [|r rs]; [congruence|]. exists r. split; [left; reflexivity|].
          assert (G := record_index_cell r (Wr r (or_introl eq_refl)) (Tl r (or_introl eq_refl))).
          rewrite (J r (or_introl eq_refl)) in G. assumption.
    Qed.

    (** What a column of records gives once converted. *)
    Definition column_result (V : mty) (rs : list md) (o : outcome (option (list md))) : Prop :=
      (exists ys, o = Ok (Some ys) /\ Forall2 (says convert P occ V) rs ys) \/
      (o = Ok None /\ exists r, In r rs /\ silent P occ r) \/
      (o = IllFormed /\ (forall r, In r rs -> ~ silent P occ r) /\ exists r, In r rs /\ forall y, ~ says convert P occ V r y).

    Lemma cell_says : forall V r y z, cell r y -> (says convert P occ V r z <-> init_from convert V y = Ok z).
    Proof.
      intros V r y z C. rewrite init_from_ok. split.
      - intros [x [v [O [Av Cv]]]]. apply as_view_promote in Av. subst v.
        rewrite (cell_unique r y (promote x) C); [assumption|]. exists x. auto.
      - intro Cv. destruct C as [x [O ->]]. exists x, (promote x). split; [assumption|]. split; [apply as_view_promote; reflexivity|assumption].
    Qed.

    Lemma to_array_result : forall V o rs,
      ((exists ys, o = Ok (Some ys) /\ Forall2 cell rs ys) \/ (o = Ok None /\ exists r, In r rs /\ silent P occ r)) ->
      column_result V rs (do l <- o; to_array convert V l).
    Proof.
      intros V o rs [[ys [-> F]]|[-> S]]; cbn [bind to_array].
      - assert (G : (exists zs, mapM (init_from convert V) ys = Ok zs /\ Forall2 (says convert P occ V) rs zs) \/
                    (mapM (init_from convert V) ys = IllFormed /\ exists r, In r rs /\ forall y, ~ says convert P occ V r y)).
        { clear - F. induction F as [|r y rs ys C F IH]; [left; exists []; split; [reflexivity|constructor]|]. cbn [mapM].
          destruct (init_from_cases V y) as [[z Ez]|Ez]; rewrite Ez; cbn [bind].
          - destruct IH as [[zs [E1 E2]]|[E1 [r' [R1 R2]]]]; rewrite E1; cbn [bind].
            + left. exists (z :: zs). split; [reflexivity|]. constructor; [apply (cell_says V r y z C); assumption|assumption].
            + right. split; [reflexivity|]. exists r'. split; [right; assumption|assumption].
          - right. split; [reflexivity|]. exists r. split; [left; reflexivity|]. intros z S. apply (cell_says V r y z C) in S. congruence. }
        destruct G as [[zs [E1 E2]]|[E1 E2]]; rewrite E1; cbn [bind].
        + left. eauto.
        + right. right. split; [reflexivity|]. split; [|assumption]. intros r Hr. clear - F Hr.
          induction F as [|a b l1 l2 C F IH]; [destruct Hr|]. destruct Hr as [->|Hr]; [eapply cell_not_silent; eassumption|auto].
      - right. left. auto.
    Qed.

    Lemma values_result : forall V T m rs, well_typed m -> lists_records (value_of T) m rs ->
      column_result V rs (do o <- extract_value_metadata pred occ T m; to_array convert V o).
    Proof.
      intros V T m rs W H.
      destruct (extract_record_list (value_of T) (value_scalar T) (is_value_record_tuple T) (value_q1 T) (value_q2 T) m rs W H) as [x [E [Wx Hx]]].
      unfold extract_value_metadata. rewrite E. apply to_array_result. apply try_extract_cells with (value_of T); assumption.
    Qed.
    Lemma members_result : forall V is_class T m rs, well_typed m -> lists_records (member_of T) m rs ->
      column_result V rs (do o <- extract_member_metadata is_class pred occ T m; to_array convert V o).
    Proof.
      intros V is_class T m rs W H.
      destruct (extract_record_list (member_of T) (member_scalar T) (is_member_record_tuple T) (member_q1 T) (member_q2 T) m rs W H) as [x [E [Wx Hx]]].
      unfold extract_member_metadata. rewrite E. apply to_array_result. apply try_extract_cells with (member_of T); assumption.
    Qed.

    (** The three cases exclude each other. *)
    Lemma says_not_silent : forall V r y, says convert P occ V r y -> ~ silent P occ r.
    Proof. intros V r y [x [v [O _]]] S. exact (S x O). Qed.
    Lemma says_unique : forall V r y y', says convert P occ V r y -> says convert P occ V r y' -> y = y'.
    Proof.
      intros V r y y' [x [v [O [A C]]]] [x' [v' [O' [A' C']]]].
      apply (occurrence_filter _ _ (fun x => pred (type_of x))) in O; [|intro; reflexivity].
      apply (occurrence_filter _ _ (fun x => pred (type_of x))) in O'; [|intro; reflexivity].
      assert (x = x') by congruence. subst x'. apply as_view_promote in A. apply as_view_promote in A'. subst v v'.
      apply init_from_ok in C. apply init_from_ok in C'. congruence.
    Qed.
    Lemma Forall2_says_unique : forall V rs ys ys', Forall2 (says convert P occ V) rs ys -> Forall2 (says convert P occ V) rs ys' -> ys = ys'.
    Proof.
      intros V rs ys ys' F. revert ys'. induction F as [|r y rs ys S F IH]; intros ys' F'; inversion F' as [|? ? ? ? S' F'']; subst; [reflexivity|].
      f_equal; [eapply says_unique; eassumption|auto].
    Qed.
    Lemma column_result_some : forall V rs o ys, column_result V rs o -> (o = Ok (Some ys) <-> Forall2 (says convert P occ V) rs ys).
    Proof.
      assert (Fin : forall V rs ys r, Forall2 (says convert P occ V) rs ys -> In r rs -> exists y, says convert P occ V r y).
      { intros V rs ys r F. induction F as [|a b l1 l2 S F IH]; intros I; [destruct I|]. destruct I as [->|I]; eauto. }
      intros V rs o ys [[zs [-> F]]|[[-> [r [Hr S]]]|[-> [N [r [Hr S]]]]]]; split; intro E.
      - injection E as <-. assumption.
      - do 2 f_equal. eapply Forall2_says_unique; eassumption.
      - discriminate.
      - destruct (Fin _ _ _ _ E Hr) as [y Sy]. destruct (says_not_silent _ _ _ Sy S).
      - discriminate.
      - destruct (Fin _ _ _ _ E Hr) as [y Sy]. destruct (S y Sy).
    Qed.
    Lemma column_result_none : forall V rs o, column_result V rs o -> (o = Ok None <-> exists r, In r rs /\ silent P occ r).
    Proof.
      intros V rs o [[zs [-> F]]|[[-> S]|[-> [N _]]]]; split; intro E; try discriminate; try reflexivity; try assumption.
      - exfalso. destruct E as [r [Hr S]]. clear - F Hr S. induction F as [|a b l1 l2 C F IH]; [destruct Hr|].
        destruct Hr as [->|Hr]; [exact (says_not_silent _ _ _ C S)|auto].
      - exfalso. destruct E as [r [Hr S]]. exact (N r Hr S).
    Qed.
  End Pred.
End Convert.

Section Members.
  Variable is_base_of : nat -> nat -> bool.
  Variable is_class : nat -> bool.
  Variable reflect : bool -> nat -> md.
  Variable convert : mty -> mty -> option (md -> md).
  Variables (pred : mty -> bool) (occ : nat).
  Let P := fun M => pred M = true.
  Definition records_of (C : nat) (rs : list md) : Prop := well_typed (reflect false C) /\ lists_records (member_of C) (reflect false C) rs.

  Lemma base_columns : forall V bs rss, Forall2 records_of bs rss ->
    (exists nss, mapM (fun b => do u <- base_class b; do l <- extract_for_exclusive_members is_class reflect convert V pred occ false u; must_be_tuple l) (map MBase bs) = Ok nss /\
       Forall2 (Forall2 (says convert P occ V)) rss nss) \/
    (mapM (fun b => do u <- base_class b; do l <- extract_for_exclusive_members is_class reflect convert V pred occ false u; must_be_tuple l) (map MBase bs) = IllFormed /\
       exists rs r, In rs rss /\ In r rs /\ forall y, ~ says convert P occ V r y).
  Proof.
    intros V bs rss F. induction F as [|b rs bs rss [W L] F IH]; [left; exists []; split; [reflexivity|constructor]|].
    cbn [map mapM base_class bind].
    assert (R := members_result convert pred occ V is_class b (reflect false b) rs W L).
    change (do o <- extract_member_metadata is_class pred occ b (reflect false b); to_array convert V o)
      with (extract_for_exclusive_members is_class reflect convert V pred occ false b) in R.
    destruct R as [[ys [-> G]]|[[-> [r [Hr S]]]|[-> [_ [r [Hr S]]]]]]; cbn [bind must_be_tuple].
    - destruct IH as [[nss [-> I]]|[-> [rs' [r [I1 I2]]]]]; cbn [bind].
      + left. exists (ys :: nss). split; [reflexivity|]. constructor; assumption.
      + right. split; [reflexivity|]. exists rs', r. split; [right; assumption|assumption].
    - right. split; [reflexivity|]. exists rs, r. split; [left; reflexivity|]. split; [assumption|].
      intros y Sy. exact (says_not_silent convert pred occ V r y Sy S).
    - right. split; [reflexivity|]. exists rs, r. split; [left; reflexivity|]. auto.
  Qed.

  Lemma Forall2_concat : forall A B (R : A -> B -> Prop) l l', Forall2 (Forall2 R) l l' -> Forall2 R (concat l) (concat l').
  Proof. intros A B R l l' F. induction F; cbn [concat]; [constructor|]. apply Forall2_app_intro; assumption. Qed.

  Lemma all_members_result : forall V T bs rs rss, bases_of is_base_of is_class reflect false T = Ok (Some (map MBase bs)) ->
    records_of T rs -> Forall2 records_of bs rss -> (Z.of_nat (length (concat rss ++ rs)) < size_t_modulus)%Z ->
    (exists ys, extract_for_members is_base_of is_class reflect convert V pred occ T = Ok (Some ys) /\ Forall2 (says convert P occ V) (concat rss ++ rs) ys) \/
    (extract_for_members is_base_of is_class reflect convert V pred occ T = Ok None /\ exists r, In r rs /\ silent P occ r) \/
    (extract_for_members is_base_of is_class reflect convert V pred occ T = IllFormed /\
      (forall r, In r rs -> ~ silent P occ r) /\ exists r, In r (concat rss ++ rs) /\ forall y, ~ says convert P occ V r y).
  Proof.
    intros V T bs rs rss Hb [W L] F Hs. unfold extract_for_members.
    assert (R := members_result convert pred occ V is_class T (reflect false T) rs W L).
    change (do o <- extract_member_metadata is_class pred occ T (reflect false T); to_array convert V o)
      with (extract_for_exclusive_members is_class reflect convert V pred occ false T) in R.
    destruct R as [[ys [-> G]]|[[-> S]|[-> [S1 [r [S2 S3]]]]]]; cbn [bind].
    - unfold bases_of in Hb. rewrite Hb. cbn [bind must_be_tuple].
      destruct (base_columns V bs rss F) as [[nss [-> I]]|[-> [rs' [r [I1 [I2 I3]]]]]]; cbn [bind].
      + left. exists (concat nss ++ ys).
        assert (Fa : Forall2 (says convert P occ V) (concat rss ++ rs) (concat nss ++ ys)) by (apply Forall2_app_intro; [apply Forall2_concat|]; assumption).
        split; [|assumption]. assert (Ln := Forall2_length Fa).
        unfold array_cat. rewrite cat_impl_concat; rewrite concat_app; cbn [concat]; rewrite app_nil_r; [reflexivity|]. rewrite <- Ln. assumption.
      + right. right. split; [reflexivity|]. split.
        * intros r' Hr'. clear - G Hr'. induction G as [|a b l1 l2 C F IH]; [destruct Hr'|].
          destruct Hr' as [->|Hr']; [exact (says_not_silent convert pred occ V _ _ C)|auto].
        * exists r. split; [|assumption]. apply in_or_app. left. apply in_concat. eauto.
    - right. left. auto.
    - right. right. split; [reflexivity|]. split; [assumption|]. exists r. split; [apply in_or_app; right; assumption|assumption].
  Qed.
End Members.
