(** Proofs about the tuple and array algorithms. *)

From Coq Require Import ZArith Arith Bool Lia List Permutation.
From Verif Require Import Base ZipSpec TupleModel TupleSpec.
Import ListNotations.

Lemma Forall2_length : forall A B (P : A -> B -> Prop) l1 l2, Forall2 P l1 l2 -> length l1 = length l2.
Proof. intros A B P l1 l2 H. induction H; cbn [length]; congruence. Qed.
Arguments Forall2_length {A B P l1 l2}.

(** * Sizes and rows *)
Section Args.
  Context {V : Type}.
  Implicit Types args : list (arg V).

  Lemma equal_sizes_0_known : forall args N, (N <> -1)%Z ->
    equal_sizes_0 false N args = if forallb (fun a => match a with ATuple l => Z.eqb N (Z.of_nat (length l)) | _ => true end) args then Some N else None.
  Proof.
    induction args as [|a r IH]; intros N HN; [reflexivity|].
    cbn [equal_sizes_0 forallb]. destruct (Z.eqb_spec N (-1)) as [|_]; [lia|]. cbn [negb andb].
    destruct a as [l| |]; cbn [maybe_tuple_size].
    - destruct (Z.eqb_spec (Z.of_nat (length l)) (-1)) as [|_]; [lia|]. cbn [negb andb].
      destruct (Z.eqb_spec N (Z.of_nat (length l))) as [E|E]; cbn [negb andb].
      + apply IH; assumption.
      + destruct r; reflexivity.
    - apply IH; assumption.
    - apply IH; assumption.
  Qed.

  Lemma equal_sizes_0_unknown_none : forall args, (forall l, ~ In (ATuple l) args) -> equal_sizes_0 false (-1) args = Some (-1)%Z.
  Proof.
    induction args as [|a r IH]; intro H; [reflexivity|].
    cbn [equal_sizes_0]. destruct a as [l| |]; cbn [maybe_tuple_size].
    - exfalso. apply (H l). left; reflexivity.
    - apply IH. intros l Hl. apply (H l). right; assumption.
    - apply IH. intros l Hl. apply (H l). right; assumption.
  Qed.

  Lemma equal_sizes_0_unknown_some : forall args n l0, In (ATuple l0) args -> (forall l, In (ATuple l) args -> length l = n) ->
    equal_sizes_0 false (-1) args = Some (Z.of_nat n).
  Proof.
    induction args as [|a r IH]; intros n l0 H0 H; [destruct H0|].
    cbn [equal_sizes_0]. destruct a as [l| |]; cbn [maybe_tuple_size].
    - change (negb (-1 =? -1)%Z) with false. cbn [andb]. cbv iota. rewrite equal_sizes_0_known by lia.
      rewrite (H l (or_introl eq_refl)).
      replace (forallb _ r) with true; [reflexivity|]. symmetry. apply forallb_forall. intros a Ha.
      destruct a as [l'| |]; try reflexivity. apply Z.eqb_eq. rewrite (H l' (or_intror Ha)). reflexivity.
    - destruct H0 as [H0|H0]; [discriminate|]. apply (IH n l0 H0). intros l Hl. apply H. right; assumption.
    - destruct H0 as [H0|H0]; [discriminate|]. apply (IH n l0 H0). intros l Hl. apply H. right; assumption.
  Qed.

  Lemma equal_sizes_0_mismatch : forall args l1 l2, In (ATuple l1) args -> In (ATuple l2) args -> length l1 <> length l2 ->
    equal_sizes_0 false (-1) args = None.
  Proof.
    induction args as [|a r IH]; intros l1 l2 H1 H2 Hn; [destruct H1|].
    cbn [equal_sizes_0]. destruct a as [l| |]; cbn [maybe_tuple_size].
    - change (negb (-1 =? -1)%Z) with false. cbn [andb]. cbv iota. rewrite equal_sizes_0_known by lia.
      replace (forallb _ r) with false; [reflexivity|]. symmetry. apply not_true_iff_false. intro F.
      rewrite forallb_forall in F.
      assert (G : forall l', In (ATuple l') (ATuple l :: r) -> length l' = length l).
      { intros l' [E|Hl]; [congruence|]. specialize (F _ Hl). cbn in F. apply Z.eqb_eq in F. lia. }
      apply Hn. rewrite (G _ H1), (G _ H2). reflexivity.
    - destruct H1 as [H1|H1]; [discriminate|]. destruct H2 as [H2|H2]; [discriminate|]. apply (IH l1 l2); assumption.
    - destruct H1 as [H1|H1]; [discriminate|]. destruct H2 as [H2|H2]; [discriminate|]. apply (IH l1 l2); assumption.
  Qed.

  Lemma size_common : forall args n, common_size args n -> tuple_transform_size (-1) args = Ok n.
  Proof.
    intros args n [[l0 H0] H]. unfold tuple_transform_size, equal_sizes. rewrite (equal_sizes_0_unknown_some args n l0 H0 H).
    destruct (Z.eqb_spec (Z.of_nat n) (-1)) as [|_]; [lia|]. cbn [negb orb]. rewrite Z.eqb_refl. cbn [negb orb].
    rewrite Nat2Z.id. reflexivity.
  Qed.

  Lemma size_mismatch : forall args N l1 l2, In (ATuple l1) args -> In (ATuple l2) args -> length l1 <> length l2 ->
    tuple_transform_size N args = IllFormed.
  Proof.
    intros args N l1 l2 H1 H2 Hn. unfold tuple_transform_size, equal_sizes. rewrite (equal_sizes_0_mismatch args l1 l2 H1 H2 Hn). reflexivity.
  Qed.

  Lemma size_none : forall args, (forall l, ~ In (ATuple l) args) -> tuple_transform_size (-1) args = IllFormed.
  Proof.
    intros args H. unfold tuple_transform_size, equal_sizes. rewrite (equal_sizes_0_unknown_none args H). reflexivity.
  Qed.

  (** Either the tuples agree, or there is none, or two differ. *)
  Lemma sizes_cases : forall args, (exists n, common_size args n) \/ (forall l, ~ In (ATuple l) args) \/
    (exists l1 l2, In (ATuple l1) args /\ In (ATuple l2) args /\ length l1 <> length l2).
  Proof.
    induction args as [|a r IH].
    - right; left. intros l [].
    - destruct a as [l| |].
      + destruct IH as [[n [[l0 H0] H]]|[H|[l1 [l2 [H1 [H2 H3]]]]]].
        * destruct (Nat.eq_dec (length l) n) as [E|E].
          -- left. exists n. split; [exists l; left; reflexivity|]. intros l' [E'|Hl]; [congruence|]. apply H; assumption.
          -- right; right. exists l, l0. split; [left; reflexivity|]. split; [right; assumption|]. rewrite (H l0 H0). assumption.
        * left. exists (length l). split; [exists l; left; reflexivity|]. intros l' [E'|Hl]; [congruence|]. destruct (H l' Hl).
        * right; right. exists l1, l2. repeat split; try (right; assumption). assumption.
      + destruct IH as [[n [[l0 H0] H]]|[H|[l1 [l2 [H1 [H2 H3]]]]]].
        * left. exists n. split; [exists l0; right; assumption|]. intros l' [E'|Hl]; [discriminate|]. apply H; assumption.
        * right; left. intros l' [E'|Hl]; [discriminate|]. apply (H l' Hl).
        * right; right. exists l1, l2. repeat split; try (right; assumption). assumption.
      + destruct IH as [[n [[l0 H0] H]]|[H|[l1 [l2 [H1 [H2 H3]]]]]].
        * left. exists n. split; [exists l0; right; assumption|]. intros l' [E'|Hl]; [discriminate|]. apply H; assumption.
        * right; left. intros l' [E'|Hl]; [discriminate|]. apply (H l' Hl).
        * right; right. exists l1, l2. repeat split; try (right; assumption). assumption.
  Qed.

  Lemma size_given : forall args N, (forall l1 l2, In (ATuple l1) args -> In (ATuple l2) args -> length l1 = length l2) ->
    (0 <= N)%Z -> tuple_transform_size N args = Ok (Z.to_nat N).
  Proof.
    intros args N H HN. unfold tuple_transform_size.
    assert (exists m, equal_sizes args = Some m) as [m ->].
    { unfold equal_sizes. destruct (sizes_cases args) as [[n [[l0 H0] Hs]]|[Hs|[l1 [l2 [H1 [H2 H3]]]]]].
      - eexists. apply (equal_sizes_0_unknown_some args n l0 H0 Hs).
      - eexists. apply (equal_sizes_0_unknown_none args Hs).
      - exfalso. apply H3. apply H; assumption. }
    destruct (Z.eqb_spec N (-1)) as [|_]; [lia|]. reflexivity.
  Qed.

  (** ** Elements *)
  Lemma get_element_at : forall i (a : arg V) (e : element V), get_element i a = Ok e <-> element_at i a e.
  Proof.
    intros i a e. destruct a as [l| |]; cbn [get_element]; split; intro H.
    - destruct (nth_error l i) eqn:E; [|discriminate]. injection H as <-. constructor; assumption.
    - inversion H; subst. rewrite H1. reflexivity.
    - injection H as <-. constructor.
    - inversion H; reflexivity.
    - injection H as <-. constructor.
    - inversion H; reflexivity.
  Qed.

  Lemma get_elements_at : forall i args row, get_elements i args = Ok row <-> Forall2 (element_at i) args row.
  Proof.
    intros i args row. unfold get_elements. rewrite mapM_inv.
    split; intro H; induction H; constructor; try assumption; apply get_element_at; assumption.
  Qed.

  (** All indices are in range. *)
  Definition within (args : list (arg V)) (n : nat) : Prop := forall l, In (ATuple l) args -> n <= length l.

  Lemma row_exists : forall args i, (forall l, In (ATuple l) args -> i < length l) -> exists row, get_elements i args = Ok row.
  Proof.
    induction args as [|a r IH]; intros i H.
    - exists []. reflexivity.
    - destruct (IH i) as [row E]; [intros l Hl; apply H; right; assumption|].
      unfold get_elements in *. cbn [mapM]. rewrite E.
      destruct a as [l| |]; cbn [get_element].
      + destruct (nth_error l i) as [v|] eqn:En.
        * eexists; reflexivity.
        * apply nth_error_None in En. specialize (H l (or_introl eq_refl)). lia.
      + eexists; reflexivity.
      + eexists; reflexivity.
  Qed.

  Lemma rows_exist : forall args n k, (forall l, In (ATuple l) args -> k + n <= length l) ->
    exists rows, mapM (fun i => get_elements i args) (seq k n) = Ok rows.
  Proof.
    intros args n. induction n as [|n IH]; intros k H.
    - exists []. reflexivity.
    - destruct (row_exists args k) as [row E]; [intros l Hl; specialize (H l Hl); lia|].
      destruct (IH (S k)) as [rows Es]; [intros l Hl; specialize (H l Hl); lia|].
      exists (row :: rows). cbn [seq mapM]. rewrite E. cbn [bind]. rewrite Es. reflexivity.
  Qed.

  Lemma rows_mapM : forall args n rows, mapM (fun i => get_elements i args) (seq 0 n) = Ok rows <-> rows_of args n rows.
  Proof.
    intros args n rows. rewrite mapM_inv. split.
    - intro H. assert (L := Forall2_length H). rewrite seq_length in L. split; [congruence|].
      intros i row Hi. apply get_elements_at.
      assert (i < n) by (rewrite L; apply nth_error_Some; congruence).
      assert (G : forall k m rs, Forall2 (fun i row => get_elements i args = Ok row) (seq k m) rs ->
                    forall i row, nth_error rs i = Some row -> get_elements (k + i) args = Ok row).
      { clear. intros k m. revert k. induction m as [|m IH]; intros k rs H i row Hi.
        - inversion H; subst. destruct i; discriminate.
        - cbn [seq] in H. inversion H as [|? ? ? ? H1 H2]; subst. destruct i as [|i]; cbn [nth_error] in Hi.
          + injection Hi as <-. rewrite Nat.add_0_r. assumption.
          + rewrite Nat.add_succ_r. apply (IH (S k) l' H2 i row Hi). }
      apply (G 0 n rows H i row Hi).
    - intros [L H]. subst n.
      assert (G : forall k rs, (forall i row, nth_error rs i = Some row -> get_elements (k + i) args = Ok row) ->
                   Forall2 (fun i row => get_elements i args = Ok row) (seq k (length rs)) rs).
      { clear. intros k rs. revert k. induction rs as [|r rs IH]; intros k H; cbn [length seq]; constructor.
        - specialize (H 0 r eq_refl). rewrite Nat.add_0_r in H. assumption.
        - apply IH. intros i row Hi. specialize (H (S i) row Hi). rewrite Nat.add_succ_r in H. assumption. }
      apply G. intros i row Hi. cbn [Nat.add]. apply get_elements_at. apply H. assumption.
  Qed.

  Lemma rows_within : forall args n, within args n -> exists rows, rows_of args n rows.
  Proof.
    intros args n H. destruct (rows_exist args n 0) as [rows E]; [intros l Hl; apply (H l Hl)|].
    exists rows. apply rows_mapM. assumption.
  Qed.

  Lemma rows_unique : forall args n r1 r2, rows_of args n r1 -> rows_of args n r2 -> r1 = r2.
  Proof. intros args n r1 r2 H1 H2. apply rows_mapM in H1. apply rows_mapM in H2. congruence. Qed.

  Lemma rows_bound : forall args n rows, rows_of args n rows -> within args n.
  Proof.
    intros args n rows [L H] l Hl. destruct n as [|n]; [lia|].
    destruct (nth_error rows n) as [row|] eqn:E; [|apply nth_error_None in E; lia].
    specialize (H n row E). clear - H Hl.
    induction H as [|a e args row H1 H2 IH]; [destruct Hl|].
    destruct Hl as [->|Hl]; [|apply IH; assumption].
    inversion H1; subst. assert (n < length l) by (apply nth_error_Some; congruence). lia.
  Qed.

  Lemma not_within : forall args n, ~ within args n -> well_formed_for (seq 0 n) args <> Ok tt.
  Proof.
    intros args n H E. unfold well_formed_for in E.
    destruct (mapM _ _) as [rows| | | | |] eqn:Em; cbn [bind] in E; try discriminate.
    apply rows_mapM in Em. apply H. eapply rows_bound; eassumption.
  Qed.

  Lemma well_formed_rows : forall args n rows, rows_of args n rows -> well_formed_for (seq 0 n) args = Ok tt.
  Proof. intros args n rows H. unfold well_formed_for. apply rows_mapM in H. rewrite H. reflexivity. Qed.

  Lemma transform_element_row : forall S R (f : S -> list (element V) -> S * outcome R) args n rows i row s,
    rows_of args n rows -> nth_error rows i = Some row -> transform_element i f args s = f s row.
  Proof.
    intros S R f args n rows i row s [_ H] Hi. unfold transform_element. rewrite (proj2 (get_elements_at i args row) (H i row Hi)). reflexivity.
  Qed.

  (** Induction over the remaining rows. *)
  Lemma nth_error_middle : forall A (l1 : list A) x l2, nth_error (l1 ++ x :: l2) (length l1) = Some x.
  Proof. intros A l1 x l2. rewrite nth_error_app2 by lia. rewrite Nat.sub_diag. reflexivity. Qed.

  (** ** template_for *)
  Section Functor.
    Context {S R : Type}.
    Variable f : S -> list (element V) -> S * outcome R.

    Definition drop_result : S -> list (element V) -> S * outcome unit :=
      fun s row => let '(s', o) := f s row in (s', do _ <- o; Ok tt).

    Lemma swallow_rows : forall args n rows, rows_of args n rows ->
      forall l2 l1 s, rows = l1 ++ l2 -> swallow (seq (length l1) (length l2)) f args s = call_each drop_result s l2.
    Proof.
      intros args n rows Hr l2. induction l2 as [|row l2 IH]; intros l1 s E; [reflexivity|].
      cbn [length seq swallow call_each].
      rewrite (transform_element_row S R f args n rows (length l1) row s Hr) by (rewrite E; apply nth_error_middle).
      unfold drop_result at 1. destruct (f s row) as [s' o]. destruct o; cbn [bind]; try reflexivity.
      specialize (IH (l1 ++ [row]) s'). rewrite app_length in IH. cbn [length] in IH. rewrite Nat.add_1_r in IH.
      apply IH. rewrite <- app_assoc. exact E.
    Qed.

    Lemma template_for_rows : forall args N n rows s, tuple_transform_size N args = Ok n -> rows_of args n rows ->
      template_for N f args s = call_each drop_result s rows.
    Proof.
      intros args N n rows s Hn Hr. unfold template_for. rewrite Hn, (well_formed_rows args n rows Hr).
      assert (L := proj1 Hr). subst n. apply (swallow_rows args (length rows) rows Hr rows [] s eq_refl).
    Qed.

    Lemma init_list_rows : forall args n rows, rows_of args n rows ->
      forall l2 l1 s rs s', rows = l1 ++ l2 -> called f s l2 rs s' ->
      init_list (seq (length l1) (length l2)) f args s = (s', Ok rs).
    Proof.
      intros args n rows Hr l2. induction l2 as [|row l2 IH]; intros l1 s rs s' E Hc; inversion Hc; subst; [reflexivity|].
      cbn [length seq init_list].
      rewrite (transform_element_row S R f args n (l1 ++ row :: l2) (length l1) row s Hr) by apply nth_error_middle.
      rewrite H2. specialize (IH (l1 ++ [row]) s1 rs0 s'). rewrite app_length in IH. cbn [length] in IH. rewrite Nat.add_1_r in IH.
      rewrite IH; [reflexivity| |assumption]. rewrite <- app_assoc. reflexivity.
    Qed.

    Lemma init_list_fails : forall args n rows, rows_of args n rows ->
      forall l2 l1 x l3 s rs s1 s2 o (o' : outcome (list R)), rows = l1 ++ l2 ++ x :: l3 -> called f s l2 rs s1 ->
      f s1 x = (s2, o) -> ends_with o o' ->
      init_list (seq (length l1) (length (l2 ++ x :: l3))) f args s = (s2, o').
    Proof.
      intros args n rows Hr l2. induction l2 as [|row l2 IH]; intros l1 x l3 s rs s1 s2 o o' E Hc Hx Ho; inversion Hc as [|? ? r0 s0 ? rs0 ? Hf0 Hc0]; subst.
      - cbn [app length seq init_list].
        rewrite (transform_element_row S R f args n (l1 ++ [] ++ x :: l3) (length l1) x s1 Hr) by apply nth_error_middle.
        rewrite Hx. destruct o; cbn [ends_with bind] in *; try contradiction; subst; reflexivity.
      - cbn [app length seq init_list].
        rewrite (transform_element_row S R f args n (l1 ++ row :: l2 ++ x :: l3) (length l1) row s Hr) by apply nth_error_middle.
        rewrite Hf0. specialize (IH (l1 ++ [row]) x l3 s0 rs0 s1 s2 o o').
        rewrite (app_length l1) in IH. cbn [length] in IH. rewrite Nat.add_1_r in IH.
        rewrite IH; try assumption.
        + destruct o; cbn [ends_with] in Ho; try contradiction; subst; reflexivity.
        + rewrite <- app_assoc. reflexivity.
    Qed.

    Lemma array_transform_rows : forall args N n rows s, tuple_transform_size N args = Ok n -> rows_of args n rows ->
      array_transform N f args s = init_list (seq 0 (length rows)) f args s.
    Proof.
      intros args N n rows s Hn Hr. unfold array_transform. rewrite Hn, (well_formed_rows args n rows Hr).
      rewrite (proj1 Hr). reflexivity.
    Qed.

    (** ** Arbitrary order *)
    Lemma evaluate_in_ok : forall args n rows, rows_of args n rows ->
      forall order s xs rs s' values, Forall2 (fun i x => nth_error rows i = Some x) order xs -> called f s xs rs s' ->
      NoDup order ->
      exists values', evaluate_in order f args s values = (s', Ok values') /\
        (forall i, ~ In i order -> values' i = values i) /\ Forall2 (fun i r => values' i = Some r) order rs.
    Proof.
      intros args n rows Hr order. induction order as [|i order IH]; intros s xs rs s' values Hx Hc Hn;
        inversion Hx as [|? y ? l' H1 H3]; subst; inversion Hc as [|? ? r s1 ? rs0 ? H4 H7]; subst.
      - exists values. split; [reflexivity|]. split; [reflexivity|constructor].
      - inversion Hn as [|? ? Hni Hn']; subst.
        destruct (IH s1 l' rs0 s' (fun j => if Nat.eqb j i then Some r else values j) H3 H7 Hn') as [v' [E1 [E2 E3]]].
        exists v'. split; [|split].
        + cbn [evaluate_in]. rewrite (transform_element_row S R f args n rows i y s Hr H1). rewrite H4. exact E1.
        + intros j Hj. rewrite E2 by (intro; apply Hj; right; assumption).
          destruct (Nat.eqb_spec j i) as [->|]; [exfalso; apply Hj; left; reflexivity|reflexivity].
        + constructor; [|assumption]. rewrite E2 by assumption. rewrite Nat.eqb_refl. reflexivity.
    Qed.

    Lemma Forall2_in_pos : forall A B (P : A -> B -> Prop) l1 l2 k x, Forall2 P l1 l2 -> nth_error l1 k = Some x ->
      exists y, nth_error l2 k = Some y /\ P x y.
    Proof.
      intros A B P l1 l2 k x H. revert k. induction H as [|a b l1 l2 H1 H2 IH]; intros k Hk.
      - destruct k; discriminate.
      - destruct k as [|k]; cbn [nth_error] in *; [injection Hk as <-; eauto|]. apply IH. assumption.
    Qed.

    Lemma mapM_values : forall (values : nat -> option R) l, (forall i, In i l -> exists r, values i = Some r) ->
      exists rs, mapM (fun i => match values i with Some x => Ok x | None => UB end) l = Ok rs /\
        Forall2 (fun i r => values i = Some r) l rs.
    Proof.
      intros values l. induction l as [|i l IH]; intro H.
      - exists []. split; [reflexivity|constructor].
      - destruct IH as [rs [E F]]; [intros j Hj; apply H; right; assumption|].
        destruct (H i (or_introl eq_refl)) as [r Er]. exists (r :: rs). split.
        + cbn [mapM]. rewrite Er. cbn [bind]. rewrite E. reflexivity.
        + constructor; assumption.
    Qed.

    Lemma nth_error_seq0 : forall n i, i < n -> nth_error (seq 0 n) i = Some i.
    Proof.
      intros n i H. rewrite nth_error_nth' with (d := 0) by (rewrite seq_length; assumption).
      rewrite seq_nth by assumption. reflexivity.
    Qed.

    Lemma tuple_transform_ok : forall args N n rows order s xs rs s',
      tuple_transform_size N args = Ok n -> rows_of args n rows -> Permutation order (seq 0 n) ->
      Forall2 (fun i x => nth_error rows i = Some x) order xs -> called f s xs rs s' ->
      exists result, tuple_transform order N f args s = (s', Ok result) /\ length result = n /\
        (forall k i, nth_error order k = Some i -> nth_error result i = nth_error rs k).
    Proof.
      intros args N n rows order s xs rs s' Hn Hr Hp Hx Hc.
      assert (Hd : NoDup order) by (apply (Permutation_NoDup (Permutation_sym Hp)); apply seq_NoDup).
      destruct (evaluate_in_ok args n rows Hr order s xs rs s' (fun _ => None) Hx Hc Hd) as [v [E1 [_ E3]]].
      destruct (mapM_values v (seq 0 n)) as [result [E4 E5]].
      { intros i Hi. assert (Hi' : In i order) by (apply (Permutation_in _ (Permutation_sym Hp)); assumption).
        apply In_nth_error in Hi'. destruct Hi' as [k Hk]. destruct (Forall2_in_pos _ _ _ _ _ k i E3 Hk) as [r [_ Er]]. eauto. }
      exists result. unfold tuple_transform. rewrite Hn, (well_formed_rows args n rows Hr), E1. cbn [bind]. rewrite E4.
      split; [reflexivity|]. split.
      - rewrite <- (Forall2_length E5), seq_length. reflexivity.
      - intros k i Hk. destruct (Forall2_in_pos _ _ _ _ _ k i E3 Hk) as [r [Er1 Er2]]. rewrite Er1.
        assert (Hi : i < n).
        { assert (G : In i (seq 0 n)) by (apply (Permutation_in _ Hp); eapply nth_error_In; eassumption). apply in_seq in G. lia. }
        destruct (Forall2_in_pos _ _ _ _ _ i i E5 (nth_error_seq0 n i Hi)) as [r' [Er3 Er4]]. congruence.
    Qed.

    Lemma evaluate_in_fails : forall args n rows, rows_of args n rows ->
      forall order1 i order2 s xs x rs s1 s2 o o' values, Forall2 (fun i x => nth_error rows i = Some x) order1 xs ->
      nth_error rows i = Some x -> called f s xs rs s1 -> f s1 x = (s2, o) -> ends_with o o' ->
      evaluate_in (order1 ++ i :: order2) f args s values = (s2, o').
    Proof.
      intros args n rows Hr order1. induction order1 as [|j order1 IH]; intros i order2 s xs x rs s1 s2 o o' values Hx Hi Hc He Ho;
        inversion Hx as [|? y ? l' H1 H3]; subst; inversion Hc as [|? ? r0 s0 ? rs0 ? Hf0 Hc0]; subst; cbn [app evaluate_in].
      - rewrite (transform_element_row S R f args n rows i x s1 Hr Hi), He.
        destruct o; cbn [ends_with bind] in *; try contradiction; subst; reflexivity.
      - rewrite (transform_element_row S R f args n rows j y s Hr H1), Hf0. apply (IH i order2 s0 l' x rs0 s1 s2 o o'); assumption.
    Qed.
  End Functor.

  (** ** Reductions *)
  Section Reduce.
    Context {S A B : Type}.
    Variables (reduce : S -> A -> B -> S * outcome A) (transform : S -> list (element V) -> S * outcome B).

    Lemma transform_reduce_rows : forall args n rows, rows_of args n rows ->
      forall l2 l1 s a, rows = l1 ++ l2 ->
      transform_reduce_fn (length l2) (length l1) n reduce transform args s a = fold_calls reduce transform s a l2.
    Proof.
      intros args n rows Hr l2. induction l2 as [|row l2 IH]; intros l1 s a E; [reflexivity|].
      cbn [length transform_reduce_fn fold_calls].
      rewrite (transform_element_row S B transform args n rows (length l1) row s Hr) by (rewrite E; apply nth_error_middle).
      destruct (transform s row) as [s1 o]. destruct o; cbn [bind]; try reflexivity.
      destruct (reduce s1 a a0) as [s2 o2]. destruct o2; try reflexivity.
      specialize (IH (l1 ++ [row]) s2 a1). rewrite app_length in IH. cbn [length] in IH. rewrite Nat.add_1_r in IH.
      apply IH. rewrite <- app_assoc. exact E.
    Qed.

    Lemma template_transform_reduce_rows : forall args n rows init s, common_size args n -> rows_of args n rows ->
      template_transform_reduce init reduce transform args s = fold_calls reduce transform s init rows.
    Proof.
      intros args n rows init s Hn Hr. unfold template_transform_reduce. rewrite (size_common args n Hn), (well_formed_rows args n rows Hr).
      replace n with (length rows) at 1 by apply (proj1 Hr).
      apply (transform_reduce_rows args n rows Hr rows [] s init eq_refl).
    Qed.
  End Reduce.

  (** ** Predicates *)
  Section Pred.
    Context {S : Type}.
    Variable pred : S -> list (element V) -> S * outcome bool.

    (** [neg = false]: continues with true; [neg = true]: continues with false. *)
    Lemma conjunction_never : forall args n rows neg, rows_of args n rows ->
      forall l2 l1 s s', rows = l1 ++ l2 -> answers pred s l2 (repeat (negb neg) (length l2)) s' ->
      conjunction_fn (length l2) (length l1) neg pred args s = (s', Ok true).
    Proof.
      intros args n rows neg Hr l2. induction l2 as [|row l2 IH]; intros l1 s s' E Ha; inversion Ha as [|? ? b0 s1 ? bs0 ? H4 Ha0]; subst; [reflexivity|].
      cbn [length conjunction_fn].
      rewrite (transform_element_row S bool pred args n (l1 ++ row :: l2) (length l1) row s Hr) by apply nth_error_middle.
      rewrite H4. replace (if neg then negb (negb neg) else negb neg) with true by (destruct neg; reflexivity). cbn [negb].
      specialize (IH (l1 ++ [row]) s1 s'). rewrite app_length in IH. cbn [length] in IH. rewrite Nat.add_1_r in IH.
      apply IH; [rewrite <- app_assoc; reflexivity|assumption].
    Qed.

    Lemma conjunction_stops : forall args n rows neg, rows_of args n rows ->
      forall l2 l1 x l3 s s1 s2, rows = l1 ++ l2 ++ x :: l3 -> answers pred s l2 (repeat (negb neg) (length l2)) s1 ->
      pred s1 x = (s2, Ok neg) ->
      conjunction_fn (length (l2 ++ x :: l3)) (length l1) neg pred args s = (s2, Ok false).
    Proof.
      intros args n rows neg Hr l2. induction l2 as [|row l2 IH]; intros l1 x l3 s s1 s2 E Ha Hx; inversion Ha as [|? ? b0 s0 ? bs0 ? H4 Ha0]; subst.
      - cbn [app length conjunction_fn].
        rewrite (transform_element_row S bool pred args n (l1 ++ [] ++ x :: l3) (length l1) x s1 Hr) by apply nth_error_middle.
        rewrite Hx. destruct neg; reflexivity.
      - cbn [app length conjunction_fn].
        rewrite (transform_element_row S bool pred args n (l1 ++ row :: l2 ++ x :: l3) (length l1) row s Hr) by apply nth_error_middle.
        rewrite H4. replace (if neg then negb (negb neg) else negb neg) with true by (destruct neg; reflexivity). cbn [negb].
        specialize (IH (l1 ++ [row]) x l3 s0 s1 s2). rewrite (app_length l1) in IH. cbn [length] in IH. rewrite Nat.add_1_r in IH.
        apply IH; try assumption. rewrite <- app_assoc. reflexivity.
    Qed.

    Lemma conjunction_fails : forall args n rows neg, rows_of args n rows ->
      forall l2 l1 x l3 s s1 s2 o, rows = l1 ++ l2 ++ x :: l3 -> answers pred s l2 (repeat (negb neg) (length l2)) s1 ->
      pred s1 x = (s2, o) -> (forall b, o <> Ok b) ->
      conjunction_fn (length (l2 ++ x :: l3)) (length l1) neg pred args s = (s2, o).
    Proof.
      intros args n rows neg Hr l2. induction l2 as [|row l2 IH]; intros l1 x l3 s s1 s2 o E Ha Hx Ho; inversion Ha as [|? ? b0 s0 ? bs0 ? H4 Ha0]; subst.
      - cbn [app length conjunction_fn].
        rewrite (transform_element_row S bool pred args n (l1 ++ [] ++ x :: l3) (length l1) x s1 Hr) by apply nth_error_middle.
        rewrite Hx. destruct o; try reflexivity. exfalso. apply (Ho a). reflexivity.
      - cbn [app length conjunction_fn].
        rewrite (transform_element_row S bool pred args n (l1 ++ row :: l2 ++ x :: l3) (length l1) row s Hr) by apply nth_error_middle.
        rewrite H4. replace (if neg then negb (negb neg) else negb neg) with true by (destruct neg; reflexivity). cbn [negb].
        specialize (IH (l1 ++ [row]) x l3 s0 s1 s2 o). rewrite (app_length l1) in IH. cbn [length] in IH. rewrite Nat.add_1_r in IH.
        apply IH; try assumption. rewrite <- app_assoc. reflexivity.
    Qed.

    Lemma conjunction_rows : forall args n rows neg s, common_size args n -> rows_of args n rows ->
      conjunction neg pred args s = conjunction_fn (length rows) 0 neg pred args s.
    Proof.
      intros args n rows neg s Hn Hr. unfold conjunction. rewrite (size_common args n Hn), (well_formed_rows args n rows Hr).
      rewrite (proj1 Hr). reflexivity.
    Qed.
  End Pred.
End Args.

(** * Concatenation *)
Local Open Scope Z_scope.

Lemma cadd_sum : forall sizes, (forall n, In n sizes -> 0 <= n) -> fold_right Z.add 0 sizes < size_t_modulus ->
  cadd sizes = fold_right Z.add 0 sizes /\ 0 <= fold_right Z.add 0 sizes.
Proof.
  induction sizes as [|n r IH]; intros Hn Hs; [cbn; split; [reflexivity|lia]|].
  cbn [fold_right cadd] in *. assert (0 <= n) by (apply Hn; left; reflexivity).
  destruct IH as [E P]; [intros m Hm; apply Hn; right; assumption|lia|]. rewrite E. split; [|lia].
  apply Z.mod_small. lia.
Qed.

(** The loop finds (r, c) iff the sizes before r add up to i - c and c is below size r. *)
Lemma indices_loop_spec : forall sizes r0 i r c, 0 <= i -> (forall n, In n sizes -> 0 <= n) ->
  (indices_loop sizes r0 i = Ok (r, c) <->
   exists k n, r = (r0 + k)%nat /\ nth_error sizes k = Some n /\ 0 <= c < n /\ i = fold_right Z.add 0 (firstn k sizes) + c).
Proof.
  induction sizes as [|m rest IH]; intros r0 i r c Hi Hs; cbn [indices_loop].
  - split; [discriminate|]. intros [k [n [_ [H _]]]]. destruct k; discriminate.
  - assert (Hm : 0 <= m) by (apply Hs; left; reflexivity).
    destruct (Z.leb_spec m i) as [L|L].
    + rewrite IH by (try lia; intros n Hn; apply Hs; right; assumption). split.
      * intros [k [n [E1 [E2 [E3 E4]]]]]. exists (S k), n. split; [lia|]. split; [assumption|]. split; [lia|].
        cbn [firstn fold_right]. lia.
      * intros [k [n [E1 [E2 [E3 E4]]]]]. destruct k as [|k].
        -- cbn in E2, E4. injection E2 as <-. lia.
        -- exists k, n. split; [lia|]. split; [assumption|]. split; [lia|]. cbn [firstn fold_right] in E4. lia.
    + split.
      * intro E. injection E as <- <-. exists 0%nat, m. split; [lia|]. split; [reflexivity|]. cbn. lia.
      * intros [k [n [E1 [E2 [E3 E4]]]]]. destruct k as [|k].
        -- cbn in E2, E4. injection E2 as <-. f_equal. f_equal; lia.
        -- exfalso. cbn [firstn fold_right] in E4.
           assert (0 <= fold_right Z.add 0 (firstn k rest)); [|lia].
           clear - Hs. assert (H : forall n, In n (firstn k rest) -> 0 <= n).
           { intros n Hn. apply Hs. right. clear - Hn. revert rest Hn. induction k as [|k IH]; intros rest Hn; [destruct Hn|].
             destruct rest as [|x rest]; [destruct Hn|]. destruct Hn as [->|Hn]; [left; reflexivity|right; apply IH; assumption]. }
           induction (firstn k rest) as [|x l IHl]; cbn [fold_right]; [lia|].
           assert (0 <= x) by (apply H; left; reflexivity). assert (0 <= fold_right Z.add 0 l) by (apply IHl; intros y Hy; apply H; right; assumption). lia.
Qed.

Lemma indices_loop_beyond : forall sizes r0 i, (forall n, In n sizes -> 0 <= n) -> fold_right Z.add 0 sizes <= i ->
  indices_loop sizes r0 i = IllFormed.
Proof.
  induction sizes as [|m rest IH]; intros r0 i Hs Hi; cbn [indices_loop fold_right] in *; [reflexivity|].
  assert (0 <= fold_right Z.add 0 rest).
  { clear - Hs. induction rest as [|x l IHl]; cbn [fold_right]; [lia|].
    assert (0 <= x) by (apply Hs; right; left; reflexivity).
    assert (0 <= fold_right Z.add 0 l) by (apply IHl; intros y [<-|Hy]; apply Hs; [left; reflexivity|right; right; assumption]). lia. }
  destruct (Z.leb_spec m i); [|lia]. apply IH; [intros n Hn; apply Hs; right; assumption|lia].
Qed.

Lemma indices_loop_total : forall sizes r0 i, (forall n, In n sizes -> 0 <= n) -> 0 <= i < fold_right Z.add 0 sizes ->
  exists r c, indices_loop sizes r0 i = Ok (r, c).
Proof.
  induction sizes as [|m rest IH]; intros r0 i Hs Hi; cbn [indices_loop fold_right] in *; [lia|].
  destruct (Z.leb_spec m i); [|eauto]. apply IH; [intros n Hn; apply Hs; right; assumption|lia].
Qed.

Lemma concat_pick : forall V (tuples : list (list V)) r0 i, (i < length (concat tuples))%nat ->
  exists r c t v, indices_loop (map (fun t => Z.of_nat (length t)) tuples) r0 (Z.of_nat i) = Ok ((r0 + r)%nat, Z.of_nat c) /\
    nth_error tuples r = Some t /\ nth_error t c = Some v /\ nth_error (concat tuples) i = Some v.
Proof.
  intros V tuples. induction tuples as [|t rest IH]; intros r0 i Hi; cbn [concat length] in Hi; [lia|].
  rewrite app_length in Hi. cbn [map indices_loop concat].
  destruct (Z.leb_spec (Z.of_nat (length t)) (Z.of_nat i)) as [L|L].
  - destruct (IH (S r0) (i - length t)%nat) as [r [c [t' [v [E1 [E2 [E3 E4]]]]]]]; [lia|].
    exists (S r), c, t', v. rewrite <- Nat2Z.inj_sub by lia. rewrite E1. split; [f_equal; f_equal; lia|].
    split; [assumption|]. split; [assumption|]. rewrite nth_error_app2 by lia. assumption.
  - destruct (nth_error t i) as [v|] eqn:E; [|apply nth_error_None in E; lia].
    exists 0%nat, i, t, v. split; [f_equal; f_equal; lia|]. split; [reflexivity|]. split; [assumption|].
    rewrite nth_error_app1 by lia. assumption.
Qed.

Lemma concat_length_sum : forall V (tuples : list (list V)),
  fold_right Z.add 0 (map (fun t => Z.of_nat (length t)) tuples) = Z.of_nat (length (concat tuples)).
Proof. intros V tuples. induction tuples as [|t r IH]; cbn [map fold_right concat length]; [reflexivity|]. rewrite app_length, IH. lia. Qed.

Lemma mapM_nth : forall V (f : nat -> outcome V) (l : list V) k, (forall i v, nth_error l i = Some v -> f (k + i)%nat = Ok v) ->
  mapM f (seq k (length l)) = Ok l.
Proof.
  intros V f l. induction l as [|x l IH]; intros k H; [reflexivity|].
  cbn [length seq mapM]. assert (E := H 0%nat x eq_refl). rewrite Nat.add_0_r in E. rewrite E. cbn [bind].
  rewrite IH; [reflexivity|]. intros i v Hi. rewrite Nat.add_succ_comm. apply H. assumption.
Qed.

Lemma cat_impl_concat : forall V (tuples : list (list V)), Z.of_nat (length (concat tuples)) < size_t_modulus ->
  cat_impl tuples = Ok (concat tuples).
Proof.
  intros V tuples H. unfold cat_impl, indices_size.
  destruct (cadd_sum (map (fun t => Z.of_nat (length t)) tuples)) as [E _].
  - intros n Hn. apply in_map_iff in Hn. destruct Hn as [t [<- _]]. lia.
  - rewrite concat_length_sum. assumption.
  - rewrite E, concat_length_sum, Nat2Z.id. apply mapM_nth. intros i v Hi. cbn [Nat.add].
    assert (Hl : (i < length (concat tuples))%nat) by (apply nth_error_Some; congruence).
    destruct (concat_pick V tuples 0 i Hl) as [r [c [t [v' [E1 [E2 [E3 E4]]]]]]].
    unfold indices_col, indices_row. rewrite E1. cbn [bind fst snd Nat.add]. rewrite E2, Nat2Z.id, E3. congruence.
Qed.

Lemma init_list_const : forall V (value : V) idx, init_list (V := V) (S := unit) idx (fun s _ => (s, Ok value)) [] tt = (tt, Ok (repeat value (length idx))).
Proof. intros V value idx. induction idx as [|i r IH]; [reflexivity|]. cbn [init_list transform_element get_elements mapM]. rewrite IH. reflexivity. Qed.

(** * array_iota *)
Lemma arr_set_middle : forall V (l1 : list V) x l2 v, arr_set (l1 ++ x :: l2) (length l1) v = Ok (l1 ++ v :: l2).
Proof.
  intros V l1 x l2 v. unfold arr_set. rewrite app_length. cbn [length].
  destruct (Nat.ltb_spec (length l1) (length l1 + S (length l2))) as [_|?]; [|lia].
  f_equal. induction l1 as [|y l1 IH]; [reflexivity|]. cbn [app length upd]. rewrite IH. reflexivity.
Qed.

Lemma array_iota_loop_ok : forall V (inc : V -> outcome V) (dflt : V) n (w : nat -> V) done,
  (forall i, (i < n)%nat -> inc (w i) = Ok (w (S i))) ->
  array_iota_loop n (length done) inc (w 0%nat) (done ++ repeat dflt n) = Ok (done ++ map w (seq 0 n)).
Proof.
  intros V inc dflt n. induction n as [|n IH]; intros w done H.
  - cbn. reflexivity.
  - cbn [array_iota_loop repeat]. rewrite arr_set_middle. cbn [bind]. rewrite (H 0%nat) by lia. cbn [bind].
    specialize (IH (fun i => w (S i)) (done ++ [w 0%nat])). rewrite app_length in IH. cbn [length] in IH. rewrite Nat.add_1_r in IH.
    rewrite <- app_assoc in IH. cbn [app] in IH. rewrite IH.
    + rewrite <- app_assoc. cbn [app seq map]. rewrite <- seq_shift, map_map. reflexivity.
    + intros i Hi. apply H. lia.
Qed.

(** * value_tuple *)
Section ValueTuple.
  Context {V : Type}.
  Variables eq ne lt : V -> V -> bool.

  Lemma vt_eq_iff : forall a b, length a = length b -> (vt_eq eq a b = true <-> Forall2 (fun x y => eq x y = true) a b).
  Proof.
    induction a as [|x a IH]; intros [|y b] L; cbn [length] in L; try discriminate; cbn [vt_eq].
    - split; [constructor|reflexivity].
    - rewrite andb_true_iff, IH by congruence. split.
      + intros [H1 H2]. constructor; assumption.
      + intro H; inversion H; subst; auto.
  Qed.

  Lemma vt_ne_iff : forall a b, length a = length b -> (vt_ne ne a b = true <-> Forall2 (fun x y => ne x y = true) a b).
  Proof.
    induction a as [|x a IH]; intros [|y b] L; cbn [length] in L; try discriminate; cbn [vt_ne].
    - split; [constructor|reflexivity].
    - rewrite andb_true_iff, IH by congruence. split.
      + intros [H1 H2]. constructor; assumption.
      + intro H; inversion H; subst; auto.
  Qed.

  Lemma vt_lt_iff : forall a b, length a = length b -> (vt_lt lt a b = true <-> lex lt a b).
  Proof.
    unfold vt_lt. induction a as [|x a IH]; intros [|y b] L; cbn [length] in L; try discriminate; cbn [vt_lt_fold].
    - split; [discriminate|]. intro H; inversion H.
    - unfold vt_apply. destruct (lt x y) eqn:E1.
      + split; [intros _; apply lex_here; assumption|reflexivity].
      + destruct (lt y x) eqn:E2.
        * split; [discriminate|]. intro H; inversion H as [? ? ? ? H1|? ? ? ? [H1 H2] H3]; subst; congruence.
        * rewrite IH by congruence. split.
          -- intro H. apply lex_next; [split; assumption|assumption].
          -- intro H; inversion H as [? ? ? ? H1|? ? ? ? [H1 H2] H3]; subst; [congruence|assumption].
  Qed.

  Section Order.
    Hypothesis Hlt : strict_weak_order (fun _ => True) lt.

    Lemma lt_irrefl : forall x, lt x x = false. Proof. destruct Hlt as [H _]. auto. Qed.
    Lemma lt_asym : forall x y, lt x y = true -> lt y x = false. Proof. destruct Hlt as [_ [H _]]. auto. Qed.
    Lemma lt_trans : forall x y z, lt x y = true -> lt y z = true -> lt x z = true. Proof. destruct Hlt as [_ [_ [H _]]]. eauto. Qed.
    Lemma eqv_trans : forall x y z, equivalent lt x y -> equivalent lt y z -> equivalent lt x z.
    Proof. destruct Hlt as [_ [_ [_ H]]]. intros x y z [A B] [C D]. apply (H x y z I I I A B C D). Qed.
    Lemma eqv_sym : forall x y, equivalent lt x y -> equivalent lt y x.
    Proof. intros x y [A B]. split; assumption. Qed.
    Lemma lt_eqv : forall x y z, lt x y = true -> equivalent lt y z -> lt x z = true.
    Proof.
      intros x y z H E. destruct (lt x z) eqn:E1; [reflexivity|]. destruct (lt z x) eqn:E2.
      - assert (lt z y = true) by (eapply lt_trans; eassumption). destruct E; congruence.
      - assert (equivalent lt x y) as [? ?]; [|congruence]. apply (eqv_trans x z y); [split; assumption|apply eqv_sym; assumption].
    Qed.
    Lemma eqv_lt : forall x y z, equivalent lt x y -> lt y z = true -> lt x z = true.
    Proof.
      intros x y z E H. destruct (lt x z) eqn:E1; [reflexivity|]. destruct (lt z x) eqn:E2.
      - assert (lt y x = true) by (eapply lt_trans; eassumption). destruct E; congruence.
      - assert (equivalent lt y z) as [? ?]; [|congruence]. apply (eqv_trans y x z); [apply eqv_sym; assumption|split; assumption].
    Qed.

    Lemma lex_irrefl : forall a, ~ lex lt a a.
    Proof. induction a as [|x a IH]; intro H; inversion H; subst; [rewrite lt_irrefl in *; discriminate|auto]. Qed.
    Lemma lex_asym : forall a b, lex lt a b -> ~ lex lt b a.
    Proof.
      intros a b H. induction H as [x y a b H|x y a b E H IH]; intro G; inversion G as [? ? ? ? H1|? ? ? ? [H1 H2] H3]; subst.
      - rewrite (lt_asym x y H) in H1. discriminate.
      - congruence.
      - destruct E; congruence.
      - auto.
    Qed.
    Lemma lex_trans : forall a b c, lex lt a b -> lex lt b c -> lex lt a c.
    Proof.
      intros a b c H. revert c. induction H as [x y a b H|x y a b E H IH]; intros c G; inversion G as [? z ? c' H1|? z ? c' E1 H3]; subst.
      - apply lex_here. eapply lt_trans; eassumption.
      - apply lex_here. eapply lt_eqv; eassumption.
      - apply lex_here. eapply eqv_lt; eassumption.
      - apply lex_next; [eapply eqv_trans; eassumption|auto].
    Qed.
    (** Neither is less: all elements are equivalent. *)
    Lemma lex_incomparable : forall a b, length a = length b ->
      (~ lex lt a b /\ ~ lex lt b a <-> Forall2 (equivalent lt) a b).
    Proof.
      induction a as [|x a IH]; intros [|y b] L; cbn [length] in L; try discriminate.
      - split; [constructor|]. intros _. split; intro H; inversion H.
      - split.
        + intros [H1 H2]. assert (E : equivalent lt x y).
          { split; apply not_true_iff_false; intro; [apply H1|apply H2]; apply lex_here; assumption. }
          constructor; [assumption|]. apply IH; [congruence|]. split; intro.
          * apply H1. apply lex_next; assumption.
          * apply H2. apply lex_next; [apply eqv_sym|]; assumption.
        + intro H; inversion H as [|? ? ? ? [E1 E2] F]; subst. apply IH in F; [|congruence]. destruct F as [F1 F2].
          split; intro G; inversion G as [? ? ? ? H1|? ? ? ? [H1 H2] H3]; subst; try congruence; auto.
    Qed.

    Lemma Forall2_eqv_trans : forall a b c, Forall2 (equivalent lt) a b -> Forall2 (equivalent lt) b c -> Forall2 (equivalent lt) a c.
    Proof.
      intros a b c H. revert c. induction H as [|x y a b H1 H2 IH]; intros c G; inversion G; subst; constructor; eauto using eqv_trans.
    Qed.

    Lemma vt_lt_swo : forall n, strict_weak_order (fun a : list V => length a = n) (vt_lt lt).
    Proof.
      intro n. split; [|split; [|split]].
      - intros a La. apply not_true_iff_false. intro H. apply vt_lt_iff in H; [|reflexivity]. apply (lex_irrefl a H).
      - intros a b La Lb H. apply vt_lt_iff in H; [|congruence]. apply not_true_iff_false. intro G. apply vt_lt_iff in G; [|congruence].
        apply (lex_asym a b H G).
      - intros a b c La Lb Lc H G. apply vt_lt_iff in H; [|congruence]. apply vt_lt_iff in G; [|congruence]. apply vt_lt_iff; [congruence|].
        eapply lex_trans; eassumption.
      - assert (K : forall a b, length a = n -> length b = n -> vt_lt lt a b = false /\ vt_lt lt b a = false <-> Forall2 (equivalent lt) a b).
        { intros a b La Lb. rewrite <- !not_true_iff_false, !vt_lt_iff by congruence. apply lex_incomparable. congruence. }
        intros a b c La Lb Lc H1 H2 H3 H4. apply K; [assumption|assumption|]. apply Forall2_eqv_trans with b; apply K; auto.
    Qed.
  End Order.
End ValueTuple.

Lemma nth_error_ext_len : forall A (l1 l2 : list A) n, length l1 = n -> length l2 = n ->
  (forall i, (i < n)%nat -> nth_error l1 i = nth_error l2 i) -> l1 = l2.
Proof.
  intros A l1. induction l1 as [|x l1 IH]; intros [|y l2] n L1 L2 H; cbn [length] in *; subst n; try discriminate; [reflexivity|].
  injection L2 as L2. assert (E := H 0%nat (Nat.lt_0_succ _)). cbn in E. injection E as ->. f_equal. apply (IH l2 (length l1) eq_refl L2).
  intros i Hi. apply (H (S i)). lia.
Qed.
