(** Proofs about exceptions thrown by the caller's types. *)

From Coq Require Import ZArith Arith Bool Lia Permutation List.
From Verif Require Import Base TupleModel TupleSpec ZipSpec TupleProofs ThrowModel ThrowSpec.
Import ListNotations.

(** * Reading elements *)
Lemma collect_ok : forall X (xs : list X) f, (forall p, p < length xs -> f p = nth_error xs p) -> collect (length xs) f = Ok xs.
Proof.
  intros X xs f H. unfold collect.
  assert (G : forall l k, (forall p, p < length l -> f (k + p) = nth_error l p) ->
    mapM (fun p => match f p with Some x => Ok x | None => IllFormed end) (seq k (length l)) = Ok l).
  { induction l as [|x l IH]; intros k Hk; [reflexivity|]. cbn [length seq mapM].
    generalize (Hk 0 ltac:(cbn; lia)). rewrite Nat.add_0_r. cbn [nth_error]. intro E. rewrite E. cbn [bind].
    rewrite IH; [reflexivity|]. intros p Hp. generalize (Hk (S p) ltac:(cbn; lia)). cbn [nth_error].
    replace (k + S p) with (S k + p) by lia. auto. }
  apply (G xs 0). exact H.
Qed.

Section Gets.
  Context {S E X : Type}.
  Variable get : S -> E -> S * outcome X.
  Variable rd : S -> E -> S -> outcome X -> Prop.
  Hypothesis get_rd : forall s e s1 x, rd s e s1 (Ok x) -> get s e = (s1, Ok x).

  Lemma gets_in_app : forall row ps s l s1, all_read rd row s ps l s1 -> NoDup ps ->
    forall xs qs, exists xs', gets_in get (ps ++ qs) row s xs = gets_in get qs row s1 xs' /\
      (forall p, ~ In p ps -> xs' p = xs p) /\ (forall p x, In (p, x) l -> xs' p = Some x).
  Proof.
    intros row ps s l s1 H. induction H as [s|s p e s1 x ps l s2 Hp Hr Ha IH]; intros Hn xs qs.
    - exists xs. cbn [app]. split; [reflexivity|]. split; [reflexivity|]. intros p x [].
    - inversion Hn as [|? ? Hni Hnd]; subst. cbn [app gets_in]. rewrite Hp, (get_rd _ _ _ _ Hr).
      destruct (IH Hnd (fun q => if Nat.eqb q p then Some x else xs q) qs) as [xs' [E1 [E2 E3]]].
      exists xs'. split; [exact E1|]. split.
      + intros q Hq. rewrite E2 by (intro; apply Hq; right; assumption).
        destruct (Nat.eqb_spec q p); [subst; exfalso; apply Hq; left; reflexivity|reflexivity].
      + intros q y [Hq|Hq]; [|apply E3; assumption]. injection Hq as <- <-. rewrite E2 by assumption. rewrite Nat.eqb_refl. reflexivity.
  Qed.

  Lemma all_read_positions : forall row s ps l s1, all_read rd row s ps l s1 -> map fst l = ps.
  Proof. intros row s ps l s1 H. induction H as [|s p e s1 x ps l s2 Hp Hr Ha IH]; [reflexivity|]. cbn. rewrite IH. reflexivity. Qed.

  Lemma gets_ok : forall row order s l s1 xs, Permutation order (seq 0 (length row)) -> all_read rd row s order l s1 ->
    values (length row) l xs -> gets get order row s = (s1, Ok xs).
  Proof.
    intros row order s l s1 xs Hp Ha [Hl Hv]. unfold gets.
    assert (Hn : NoDup order) by (apply (Permutation_NoDup (Permutation_sym Hp)); apply seq_NoDup).
    destruct (gets_in_app row order s l s1 Ha Hn (fun _ => None) []) as [xs' [E1 [_ E3]]].
    rewrite app_nil_r in E1. cbn [gets_in] in E1. rewrite E1. cbn [bind]. rewrite <- Hl, collect_ok; [reflexivity|].
    intros p Hlt. assert (Hin : In p order). { apply (Permutation_in _ (Permutation_sym Hp)). apply in_seq. lia. }
    rewrite <- (all_read_positions _ _ _ _ _ Ha) in Hin. apply in_map_iff in Hin. destruct Hin as [[q x] [Hq Hin]]. cbn in Hq. subst q.
    rewrite (E3 p x Hin). symmetry. apply Hv. exact Hin.
  Qed.

  Lemma gets_fails : forall row ps p qs s l s1 e s2 o, NoDup (ps ++ p :: qs) -> all_read rd row s ps l s1 -> nth_error row p = Some e ->
    get s1 e = (s2, o) -> (forall x, o <> Ok x) ->
    forall o', ends_with o o' -> gets get (ps ++ p :: qs) row s = (s2, o').
  Proof.
    intros row ps p qs s l s1 e s2 o Hn Ha Hp Hg Ho o' Hend. unfold gets.
    assert (Hn' : NoDup ps). { clear -Hn. induction ps as [|q ps IH]; [constructor|]. inversion Hn; subst. constructor; [|auto]. intro; apply H1; apply in_or_app; auto. }
    destruct (gets_in_app row ps s l s1 Ha Hn' (fun _ => None) (p :: qs)) as [xs' [E1 _]]. rewrite E1. cbn [gets_in]. rewrite Hp, Hg.
    destruct o; cbn in Hend; subst; try reflexivity. destruct (Ho a). reflexivity.
  Qed.
End Gets.

Section Calls.
  Context {S V : Type}.
  Variable user_get : S -> nat -> nat -> S * outcome V.

  Lemma reads_get : forall s e s1 x, reads user_get s e s1 (Ok x) -> get_element user_get s e = (s1, Ok x).
  Proof. intros s e s1 x H. inversion H; subst; cbn; try reflexivity. match goal with E : user_get _ _ _ = _ |- _ => rewrite E end. reflexivity. Qed.

  Lemma reads_get_throws : forall s e s1 ex, reads user_get s e s1 (Throw ex) -> get_element user_get s e = (s1, Contract).
  Proof. intros s e s1 x H. inversion H; subst; cbn. match goal with E : user_get _ _ _ = _ |- _ => rewrite E end. reflexivity. Qed.

  Lemma call_spec : forall R order (func : S -> list (element V) -> S * outcome R) s row s' o, orders order ->
    row_call user_get order func s row s' o -> call user_get order func s row = (s', o).
  Proof.
    intros R order func s row s' o Hord H. unfold call.
    destruct H as [s row l s1 xs s2 o Ha Hv Hf|s row ps p qs l s1 e s2 ex Heq Ha Hp Hr].
    - rewrite (gets_ok _ _ reads_get row (order row) s l s1 xs (Hord row) Ha Hv). exact Hf.
    - assert (Hn : NoDup (order row)) by (apply (Permutation_NoDup (Permutation_sym (Hord row))); apply seq_NoDup).
      rewrite Heq in *.
      rewrite (gets_fails _ _ reads_get row ps p qs s l s1 e s2 Contract Hn Ha Hp (reads_get_throws _ _ _ _ Hr) ltac:(discriminate) Contract eq_refl).
      reflexivity.
  Qed.

  (** Every row is read one way or the other. *)
  Lemma all_read_or_stops : forall row, returns_or_throws user_get -> forall order s, (forall p, In p order -> p < length row) ->
    (exists l s1, all_read (reads user_get) row s order l s1) \/
    (exists ps p qs l s1 e s2 ex, order = ps ++ p :: qs /\ all_read (reads user_get) row s ps l s1 /\ nth_error row p = Some e /\
       reads user_get s1 e s2 (Throw ex)).
  Proof.
    intros row Hrt order. induction order as [|p order IH]; intros s Hin; [left; exists [], s; constructor|].
    destruct (nth_error row p) as [e|] eqn:Ep; [|apply nth_error_None in Ep; specialize (Hin p (or_introl eq_refl)); lia].
    assert (Hone : (exists s1 x, reads user_get s e s1 (Ok x)) \/ exists s1 ex, reads user_get s e s1 (Throw ex)).
    { destruct e as [[a i]|i|i].
      - destruct (Hrt s a i) as [s' [o [Eg [[v Hv]|[ex Hex]]]]]; subst; [left|right]; eexists; eexists; constructor; exact Eg.
      - left. eexists; eexists; constructor.
      - left. eexists; eexists; constructor. }
    destruct Hone as [[s1 [x Hx]]|[s1 [ex Hx]]].
    - destruct (IH s1) as [[l [s2 Ha]]|[ps [q [qs [l [s2 [e' [s3 [ex [E [Ha [Eq Hr]]]]]]]]]]]]; [intros q Hq; apply Hin; right; assumption| |].
      + left. exists ((p, x) :: l), s2. econstructor; eassumption.
      + right. exists (p :: ps), q, qs, ((p, x) :: l), s2, e', s3, ex. split; [subst; reflexivity|]. split; [econstructor; eassumption|]. split; assumption.
    - right. exists [], p, order, [], s, e, s1, ex. split; [reflexivity|]. split; [constructor|]. split; assumption.
  Qed.

  Lemma values_exist : forall X n (l : list (nat * X)), Permutation (map fst l) (seq 0 n) -> exists xs, values n l xs.
  Proof.
    intros X n l Hp.
    assert (Hn : NoDup (map fst l)) by (apply (Permutation_NoDup (Permutation_sym Hp)); apply seq_NoDup).
    assert (G : forall m, m <= n -> exists xs, length xs = m /\ forall p x, p < m -> In (p, x) l -> nth_error xs p = Some x).
    { induction m as [|m IH]; intro Hm.
      - exists []. split; [reflexivity|]. intros; lia.
      - destruct IH as [xs [L Hxs]]; [lia|].
        assert (Hin : In m (map fst l)) by (apply (Permutation_in _ (Permutation_sym Hp)); apply in_seq; lia).
        apply in_map_iff in Hin. destruct Hin as [[q x] [Hq Hin]]. cbn in Hq. subst q.
        exists (xs ++ [x]). split; [rewrite app_length; cbn; lia|]. intros p y Hlt Hy.
        destruct (Nat.eq_dec p m) as [->|Hne].
        + rewrite nth_error_app2, L, Nat.sub_diag by lia. cbn. f_equal.
          clear -Hn Hin Hy. induction l as [|[q z] l IH]; [destruct Hin|]. cbn in Hn. inversion Hn; subst.
          destruct Hin as [Hin|Hin], Hy as [Hy|Hy]; try congruence.
          * injection Hin as -> ->. exfalso. apply H1. apply (in_map fst) in Hy. exact Hy.
          * injection Hy as -> ->. exfalso. apply H1. apply (in_map fst) in Hin. exact Hin.
          * apply IH; assumption.
        + rewrite nth_error_app1 by lia. apply Hxs; [lia|assumption]. }
    destruct (G n (le_n n)) as [xs [L H]]. exists xs. split; [exact L|]. intros p x Hin. apply H; [|exact Hin].
    apply (in_map fst) in Hin. apply (Permutation_in _ Hp) in Hin. apply in_seq in Hin. cbn in Hin. lia.
  Qed.

  Lemma row_call_exists : forall R order (func : S -> list (element V) -> S * outcome R) row s, orders order -> returns_or_throws user_get ->
    exists s' o, row_call user_get order func s row s' o.
  Proof.
    intros R order func row s Hord Hrt.
    destruct (all_read_or_stops row Hrt (order row) s) as [[l [s1 Ha]]|[ps [p [qs [l [s1 [e [s2 [ex [E [Ha [Ep Hr]]]]]]]]]]]].
    - intros p Hp. apply (Permutation_in _ (Hord row)) in Hp. apply in_seq in Hp. lia.
    - destruct (values_exist _ (length row) l) as [xs Hxs]; [rewrite (all_read_positions _ _ _ _ _ _ Ha); apply Hord|].
      destruct (func s1 xs) as [s2 o] eqn:Ef. exists s2, o. eapply row_calls; eassumption.
    - exists s2, Contract. eapply row_terminates; eassumption.
  Qed.

  (** An exception can only come from the function. *)
  Lemma call_throws : forall R order (func : S -> list (element V) -> S * outcome R) row s s' ex, orders order -> returns_or_throws user_get ->
    call user_get order func s row = (s', Throw ex) -> exists s1 xs, func s1 xs = (s', Throw ex).
  Proof.
    intros R order func row s s' ex Hord Hrt H.
    destruct (row_call_exists R order func row s Hord Hrt) as [s2 [o Hc]]. assert (E := call_spec _ _ _ _ _ _ _ Hord Hc).
    rewrite E in H. injection H as -> ->. inversion Hc; subst. eexists; eexists; eassumption.
  Qed.

  (** ** Rows *)
  Lemma args_from_nth : forall l k j, nth_error (args_from k l) j =
    match nth_error l j with
    | Some (TTuple n) => Some (ATuple (map (fun i => (k + j, i)) (seq 0 n)))
    | Some TRangeIndex => Some ARangeIndex
    | Some TTupleIndex => Some ATupleIndex
    | None => None
    end.
  Proof.
    induction l as [|t l IH]; intros k j; [destruct j; reflexivity|].
    destruct j as [|j].
    - destruct t; cbn; try reflexivity. rewrite Nat.add_0_r. reflexivity.
    - replace (k + Datatypes.S j) with (Datatypes.S k + j) by lia. destruct t; cbn [args_from nth_error]; apply IH.
  Qed.

  Lemma args_from_length : forall l k, length (args_from k l) = length l.
  Proof. induction l as [|[]]; intro k; cbn; [reflexivity| | |]; f_equal; auto. Qed.

  Lemma sizes_common : forall l n, sizes l n -> common_size (args_from 0 l) n.
  Proof.
    intros l n [Hi Ha]. split.
    - apply In_nth_error in Hi. destruct Hi as [j Hj]. exists (map (fun i => (0 + j, i)) (seq 0 n)). apply (nth_error_In _ j).
      rewrite args_from_nth, Hj. reflexivity.
    - intros e He. apply In_nth_error in He. destruct He as [j Hj]. rewrite args_from_nth in Hj.
      destruct (nth_error l j) as [[m| |]|] eqn:Ej; try discriminate. injection Hj as <-. rewrite map_length, seq_length.
      apply Ha. apply (nth_error_In _ j Ej).
  Qed.

  Lemma Forall2_nth : forall A B (P : A -> B -> Prop) l1 l2, length l1 = length l2 ->
    (forall j x y, nth_error l1 j = Some x -> nth_error l2 j = Some y -> P x y) -> Forall2 P l1 l2.
  Proof.
    intros A B P l1. induction l1 as [|a l1 IH]; intros [|b l2] L H; try discriminate; constructor.
    - apply (H 0); reflexivity.
    - apply IH; [injection L; auto|]. intros j x y Hx Hy. apply (H (Datatypes.S j)); assumption.
  Qed.

  Lemma all_rows_of : forall l n rows, sizes l n -> all_rows l n rows -> rows_of (args_from 0 l) n rows.
  Proof.
    intros l n rows [Hi Ha] [L H]. split; [exact L|]. intros i row Hr. destruct (H i row Hr) as [Lr Hrow].
    assert (Hin : i < n) by (rewrite <- L; apply nth_error_Some; congruence).
    apply Forall2_nth; [rewrite args_from_length; congruence|].
    intros j x y Hx Hy. rewrite args_from_nth in Hx. destruct (nth_error l j) as [t|] eqn:Ej; [|discriminate].
    rewrite (Hrow j t Ej) in Hy. injection Hy as <-.
    destruct t as [m| |]; injection Hx as <-; constructor. rewrite nth_error_map.
    rewrite (Ha m) by (apply (nth_error_In _ j Ej)).
    rewrite (nth_error_nth' (seq 0 n) 0) by (rewrite seq_length; exact Hin). rewrite seq_nth by exact Hin. reflexivity.
  Qed.

  Lemma all_rows_exist : forall l n, exists rows, all_rows l n rows.
  Proof.
    intros l n. exists (map (fun i => map (fun p => match snd p with TTuple _ => Elem (fst p, i) | TRangeIndex => Index i | TTupleIndex => IndexConstant i end)
      (combine (seq 0 (length l)) l)) (seq 0 n)).
    split; [rewrite map_length, seq_length; reflexivity|]. intros i row Hr.
    assert (Hin : i < n) by (assert (H : nth_error (seq 0 n) i <> None) by (rewrite nth_error_map in Hr; destruct (nth_error (seq 0 n) i); discriminate); apply nth_error_Some in H; rewrite seq_length in H; exact H).
    rewrite nth_error_map in Hr. rewrite (nth_error_nth' (seq 0 n) 0) in Hr by (rewrite seq_length; exact Hin). rewrite seq_nth in Hr by exact Hin.
    injection Hr as <-. split; [rewrite map_length, combine_length, seq_length; apply Nat.min_id|].
    intros k t Hk. rewrite nth_error_map.
    assert (Ec : nth_error (combine (seq 0 (length l)) l) k = Some (k, t)).
    { assert (G : forall m j, nth_error l k = Some t -> nth_error (combine (seq j (length l)) l) m = match nth_error l m with Some u => Some (j + m, u) | None => None end).
      { clear. induction l as [|u l IH]; intros m j H; [destruct m; reflexivity|]. destruct m as [|m]; cbn; [rewrite Nat.add_0_r; reflexivity|].
        clear H. revert m j. assert (G : forall (l : list targ) m j, nth_error (combine (seq j (length l)) l) m = match nth_error l m with Some u => Some (j + m, u) | None => None end).
        { clear. induction l as [|u l IH]; intros m j; [destruct m; reflexivity|]. destruct m as [|m]; cbn; [rewrite Nat.add_0_r; reflexivity|].
          rewrite IH. replace (j + Datatypes.S m) with (Datatypes.S j + m) by lia. reflexivity. }
        intros m j. rewrite G. replace (j + Datatypes.S m) with (Datatypes.S j + m) by lia. reflexivity. }
      rewrite (G k 0 Hk), Hk. reflexivity. }
    rewrite Ec. destruct t; reflexivity.
  Qed.

  (** ** Sequences *)
  Lemma calls_impl : forall X R (f g : S -> X -> S -> outcome R -> Prop), (forall s x s' o, f s x s' o -> g s x s' o) ->
    forall s xs s' o, calls f s xs s' o -> calls g s xs s' o.
  Proof. 
    intros X R f g H s xs s' o Hc. induction Hc;
      [apply calls_nil|eapply calls_cons|eapply calls_contract_later|eapply calls_throw_later|apply calls_contract|apply calls_throw]; eauto.
  Qed.

  Lemma calls_split : forall X R (f : S -> X -> S * outcome R) s xs s' o, calls (fun s x s' o => f s x = (s', o)) s xs s' o ->
    match o with
    | Ok rs => called f s xs rs s'
    | _ => exists l1 x l2 rs s1 o1, xs = l1 ++ x :: l2 /\ called f s l1 rs s1 /\ f s1 x = (s', o1) /\ ends_with o1 o
    end.
  Proof.
    intros X R f s xs s' o H. induction H as [s|s x s1 r xs s2 rs Hf Hc IH|s x s1 r xs s2 Hf Hc IH|s x s1 r xs s2 e Hf Hc IH|s x s1 xs Hf|s x s1 xs e Hf].
    - constructor.
    - econstructor; eassumption.
    - destruct IH as [l1 [y [l2 [rs [s3 [o1 [E [Hcd [Hy Ho]]]]]]]]]. exists (x :: l1), y, l2, (r :: rs), s3, o1. subst.
      split; [reflexivity|]. split; [econstructor; eassumption|]. split; assumption.
    - destruct IH as [l1 [y [l2 [rs [s3 [o1 [E [Hcd [Hy Ho]]]]]]]]]. exists (x :: l1), y, l2, (r :: rs), s3, o1. subst.
      split; [reflexivity|]. split; [econstructor; eassumption|]. split; assumption.
    - exists [], x, xs, [], s, Contract. split; [reflexivity|]. split; [constructor|]. split; [exact Hf|reflexivity].
    - exists [], x, xs, [], s, (Throw e). split; [reflexivity|]. split; [constructor|]. split; [exact Hf|reflexivity].
  Qed.

  Section Fun.
    Context {R : Type}.
    Variable order : list (element (nat * nat)) -> list nat.
    Variable func : S -> list (element V) -> S * outcome R.
    Hypothesis Hord : orders order.

    Lemma calls_call : forall s xs s' o, calls (row_call user_get order func) s xs s' o ->
      calls (fun s x s' o => call user_get order func s x = (s', o)) s xs s' o.
    Proof. apply calls_impl. intros. apply call_spec; assumption. Qed.

    Lemma array_transform_spec : forall l n rows s s' o, sizes l n -> all_rows l n rows ->
      calls (row_call user_get order func) s rows s' o -> array_transform user_get order func l s = (s', o).
    Proof.
      intros l n rows s s' o Hs Hr Hc. apply calls_call, calls_split in Hc. assert (Hrows := all_rows_of _ _ _ Hs Hr).
      unfold array_transform. rewrite (array_transform_rows _ _ (-1) n rows s (size_common _ _ (sizes_common _ _ Hs)) Hrows).
      destruct o as [rs| | | | |]; [apply (init_list_rows _ _ n rows Hrows rows [] s rs s' eq_refl Hc)| | | | |];
        destruct Hc as [l1 [x [l2 [rs [s1 [o1 [E [Hcd [Hx Ho]]]]]]]]]; rewrite E;
        apply (init_list_fails _ _ n rows Hrows l1 [] x l2 s rs s1 s' o1 _ E Hcd Hx Ho).
    Qed.

    Lemma template_for_spec : forall l n rows s s' o, sizes l n -> all_rows l n rows ->
      calls (row_call user_get order func) s rows s' o -> template_for user_get order func l s = (s', do _ <- o; Ok tt).
    Proof.
      intros l n rows s s' o Hs Hr Hc. apply calls_call in Hc. assert (Hrows := all_rows_of _ _ _ Hs Hr).
      unfold template_for. rewrite (template_for_rows _ _ (-1) n rows s (size_common _ _ (sizes_common _ _ Hs)) Hrows).
      clear Hs Hr Hrows. induction Hc as [s|s x s1 r xs s2 rs Hf Hc IH|s x s1 r xs s2 Hf Hc IH|s x s1 r xs s2 e Hf Hc IH|s x s1 xs Hf|s x s1 xs e Hf];
        cbn [call_each]; try reflexivity; unfold drop_result at 1; rewrite Hf; try reflexivity; rewrite IH; reflexivity.
    Qed.

    Lemma tuple_transform_spec : forall l n rows order' picked s s' o, sizes l n -> all_rows l n rows -> Permutation order' (seq 0 n) ->
      Forall2 (fun i row => nth_error rows i = Some row) order' picked -> calls (row_call user_get order func) s picked s' o ->
      match o with
      | Ok rs => exists result, tuple_transform user_get order' order func l s = (s', Ok result) /\ length result = n /\
          (forall k i, nth_error order' k = Some i -> nth_error result i = nth_error rs k)
      | _ => tuple_transform user_get order' order func l s = (s', o)
      end.
    Proof.
      intros l n rows order' picked s s' o Hs Hr Hp Hf Hc. apply calls_call, calls_split in Hc. assert (Hrows := all_rows_of _ _ _ Hs Hr).
      assert (Hsz := size_common _ _ (sizes_common _ _ Hs)). unfold tuple_transform.
      destruct o as [rs| | | | |]; [apply (tuple_transform_ok _ _ (-1) n rows order' s picked rs s' Hsz Hrows Hp Hf Hc)| | | | |];
        destruct Hc as [l1 [x [l2 [rs [s1 [o1 [E [Hcd [Hx Ho]]]]]]]]]; subst picked;
        apply Forall2_app_inv_r in Hf; destruct Hf as [p1 [p2 [F1 [F2 ->]]]]; inversion F2 as [|i ? p3 ? Hi F3]; subst;
        unfold TupleModel.tuple_transform; rewrite Hsz, (well_formed_rows _ n rows Hrows);
        destruct o1; cbn in Ho; try discriminate Ho; try contradiction; try (injection Ho as <-);
        rewrite (evaluate_in_fails _ _ n rows Hrows p1 i p3 s l1 x rs s1 s' _ _ (fun _ => None) F1 Hi Hcd Hx eq_refl); reflexivity.
    Qed.

    Lemma reduce_spec : forall A (init : A) (reduce : S -> A -> R -> S * outcome A) l n rows s s' o, sizes l n -> all_rows l n rows ->
      folds reduce (row_call user_get order func) s init rows s' o ->
      template_transform_reduce user_get order init reduce func l s = (s', o).
    Proof.
      intros A init reduce l n rows s s' o Hs Hr Hc. unfold template_transform_reduce.
      rewrite (template_transform_reduce_rows _ _ _ n rows init s (sizes_common _ _ Hs) (all_rows_of _ _ _ Hs Hr)).
      clear Hs Hr. induction Hc; cbn [fold_calls]; try reflexivity;
        match goal with H : row_call _ _ _ _ _ _ _ |- _ => rewrite (call_spec _ _ _ _ _ _ _ Hord H) end;
        try match goal with H : reduce _ _ _ = _ |- _ => rewrite H end; auto.
    Qed.
  End Fun.

  Lemma all_of_spec : forall order (pred : S -> list (element V) -> S * outcome bool) l n rows s s' o, orders order -> sizes l n -> all_rows l n rows ->
    conjoins (row_call user_get order pred) s rows s' o -> template_all_of user_get order pred l s = (s', o).
  Proof.
    intros order pred l n rows s s' o Hord Hs Hr Hc. assert (Hrows := all_rows_of _ _ _ Hs Hr). unfold template_all_of, TupleModel.template_all_of.
    rewrite (conjunction_rows _ _ n rows false s (sizes_common _ _ Hs) Hrows).
    assert (G : forall l2 s s' o, conjoins (row_call user_get order pred) s l2 s' o -> forall l1, rows = l1 ++ l2 ->
      conjunction_fn (length l2) (length l1) false (call user_get order pred) (args_from 0 l) s = (s', o)).
    { clear Hc s s' o. intros l2 s s' o Hc. induction Hc; intros l1 E; cbn [length conjunction_fn]; try reflexivity;
        rewrite (transform_element_row S bool _ (args_from 0 l) n rows (length l1) x s Hrows) by (rewrite E; apply nth_error_middle);
        match goal with H : row_call _ _ _ _ _ _ _ |- _ => rewrite (call_spec _ _ _ _ _ _ _ Hord H) end; cbn [negb]; try reflexivity.
      replace (Datatypes.S (length l1)) with (length (l1 ++ [x])) by (rewrite app_length; cbn; lia).
      apply IHHc. rewrite E, <- app_assoc. reflexivity. }
    apply (G rows s s' o Hc []). reflexivity.
  Qed.

  (** ** Exceptions that reach the caller *)
  Lemma call_each_throws : forall X (f : S -> X -> S * outcome unit) xs s s' e, call_each f s xs = (s', Throw e) ->
    exists s1 x, f s1 x = (s', Throw e).
  Proof.
    intros X f xs. induction xs as [|x xs IH]; intros s s' e H; [discriminate|]. cbn in H. destruct (f s x) as [s1 [u| | | | |]] eqn:E; try discriminate; eauto.
    injection H as -> ->. eauto.
  Qed.

  Lemma template_for_throws : forall R order (func : S -> list (element V) -> S * outcome R) l n s s' e, orders order -> returns_or_throws user_get -> sizes l n ->
    template_for user_get order func l s = (s', Throw e) -> exists s1 xs, func s1 xs = (s', Throw e).
  Proof.
    intros R order func l n s s' e Hord Hrt Hs H. destruct (all_rows_exist l n) as [rows Hr]. unfold template_for in H.
    rewrite (template_for_rows _ _ (-1) n rows s (size_common _ _ (sizes_common _ _ Hs)) (all_rows_of _ _ _ Hs Hr)) in H.
    apply call_each_throws in H. destruct H as [s1 [row H]]. unfold drop_result in H. destruct (call user_get order func s1 row) as [s2 o] eqn:E.
    destruct o; try discriminate. injection H as -> ->. apply (call_throws _ _ _ _ _ _ _ Hord Hrt E).
  Qed.

  Lemma init_list_throws : forall U R (f : S -> list (element U) -> S * outcome R) idx args s s' e, init_list idx f args s = (s', Throw e) ->
    exists s1 x, f s1 x = (s', Throw e).
  Proof.
    intros U R f idx args. induction idx as [|i idx IH]; intros s s' e H; [discriminate|]. cbn in H.
    destruct (transform_element i f args s) as [s1 o] eqn:E. destruct o as [r| |e1| | |]; try discriminate.
    - destruct (init_list idx f args s1) as [s2 o2] eqn:E2. destruct o2; try discriminate. injection H as -> ->. eapply IH; eassumption.
    - injection H as -> ->. unfold transform_element in E. destruct (get_elements i args); try discriminate. eauto.
  Qed.

  Lemma array_transform_throws : forall R order (func : S -> list (element V) -> S * outcome R) l s s' e, orders order -> returns_or_throws user_get ->
    array_transform user_get order func l s = (s', Throw e) -> exists s1 xs, func s1 xs = (s', Throw e).
  Proof.
    intros R order func l s s' e Hord Hrt H. unfold array_transform, TupleModel.array_transform in H.
    destruct (tuple_transform_size (-1) (args_from 0 l)); try discriminate. destruct (well_formed_for (seq 0 a) (args_from 0 l)); try discriminate.
    apply init_list_throws in H. destruct H as [s1 [x H]]. apply (call_throws _ _ _ _ _ _ _ Hord Hrt H).
  Qed.

  (** ** Reading directly *)
  Lemma direct_get : forall s e s1 x, reads_directly user_get s e s1 (Ok x) -> get_directly user_get s e = (s1, Ok x).
  Proof. intros s e s1 x H. exact H. Qed.

  Lemma apply_spec : forall R order (func : S -> list V -> S * outcome R) n s, Permutation order (seq 0 n) ->
    (forall l s1 xs, all_read (reads_directly user_get) (positions 0 [n]) s order l s1 -> values n l xs -> apply user_get order func n s = func s1 xs) /\
    (forall ps p qs l s1 e s2 ex, order = ps ++ p :: qs -> all_read (reads_directly user_get) (positions 0 [n]) s ps l s1 ->
       nth_error (positions 0 [n]) p = Some e -> reads_directly user_get s1 e s2 (Throw ex) -> apply user_get order func n s = (s2, Throw ex)).
  Proof.
    intros R order func n s Hp. cbn [positions]. rewrite app_nil_r.
    assert (L : length (map (fun i => (0, i)) (seq 0 n)) = n) by (rewrite map_length, seq_length; reflexivity). split.
    - intros l s1 xs Ha Hv. unfold apply. rewrite (gets_ok _ _ direct_get _ order s l s1 xs); [reflexivity|rewrite L; exact Hp|exact Ha|rewrite L; exact Hv].
    - intros ps p qs l s1 e s2 ex E Ha Hpos Hr. subst order. unfold apply.
      assert (Hn : NoDup (ps ++ p :: qs)) by (apply (Permutation_NoDup (Permutation_sym Hp)); apply seq_NoDup).
      rewrite (gets_fails _ _ direct_get _ ps p qs s l s1 e s2 (Throw ex) Hn Ha Hpos Hr ltac:(discriminate) (Throw ex) eq_refl). reflexivity.
  Qed.

  Lemma positions_combine : forall szs k,
    concat (map (fun p => map (fun i => (fst p, i)) (seq 0 (snd p))) (combine (seq k (length szs)) szs)) = positions k szs.
  Proof. induction szs as [|n szs IH]; intro k; [reflexivity|]. cbn [length seq combine map concat positions fst snd]. rewrite IH. reflexivity. Qed.

  Lemma tuple_cat_gets : forall szs s, (Z.of_nat (length (positions 0 szs)) < size_t_modulus)%Z ->
    tuple_cat user_get szs s = gets (get_directly user_get) (seq 0 (length (positions 0 szs))) (positions 0 szs) s.
  Proof.
    intros szs s H. unfold tuple_cat, TupleModel.tuple_cat. rewrite cat_impl_concat; rewrite positions_combine; [reflexivity|exact H].
  Qed.

  Lemma tuple_cat_spec : forall szs s, (Z.of_nat (length (positions 0 szs)) < size_t_modulus)%Z ->
    (forall l s1 xs, all_read (reads_directly user_get) (positions 0 szs) s (seq 0 (length (positions 0 szs))) l s1 ->
       values (length (positions 0 szs)) l xs -> tuple_cat user_get szs s = (s1, Ok xs)) /\
    (forall p l s1 e s2 ex, all_read (reads_directly user_get) (positions 0 szs) s (seq 0 p) l s1 ->
       nth_error (positions 0 szs) p = Some e -> reads_directly user_get s1 e s2 (Throw ex) -> tuple_cat user_get szs s = (s2, Throw ex)).
  Proof.
    intros szs s H. rewrite (tuple_cat_gets szs s H). split.
    - intros l s1 xs Ha Hv. apply (gets_ok _ _ direct_get _ _ s l s1 xs (Permutation_refl _) Ha Hv).
    - intros p l s1 e s2 ex Ha Hp Hr.
      assert (Hlt : p < length (positions 0 szs)) by (apply nth_error_Some; congruence).
      assert (E : seq 0 (length (positions 0 szs)) = seq 0 p ++ p :: seq (Datatypes.S p) (length (positions 0 szs) - Datatypes.S p)).
      { replace (length (positions 0 szs)) with (p + Datatypes.S (length (positions 0 szs) - Datatypes.S p)) at 1 by lia. rewrite seq_app. reflexivity. }
      rewrite E.
      apply (gets_fails _ _ direct_get _ (seq 0 p) p _ s l s1 e s2 (Throw ex)) with (o' := Throw ex); auto; try discriminate; try reflexivity.
      rewrite <- E. apply seq_NoDup.
  Qed.
End Calls.

(** * Zip iterators *)
Section Zip.
  Local Open Scope Z_scope.
  Variable env : history -> nat -> zop -> Z -> Z * outcome Z.

  Definition leaf_of (i : Z) (k : kind) : leaf := match k with KIter b => LIter (b + i) | KData => LData | KIndex => LIndex end.
  Fixpoint iters_from (k : nat) (kinds : list kind) : list nat :=
    match kinds with [] => [] | KIter _ :: r => k :: iters_from (S k) r | _ :: r => iters_from (S k) r end.

  Lemma iters_from_filter : forall kinds pre,
    iters_from (length pre) kinds =
    filter (fun k => match nth_error (pre ++ kinds) k with Some (KIter _) => true | _ => false end) (seq (length pre) (length kinds)).
  Proof.
    induction kinds as [|q kinds IH]; intro pre; [reflexivity|]. cbn [length seq filter]. rewrite nth_error_middle.
    specialize (IH (pre ++ [q])). rewrite app_length in IH. cbn [length] in IH. rewrite Nat.add_1_r, <- app_assoc in IH. cbn [app] in IH.
    destruct q; cbn [iters_from]; rewrite IH; reflexivity.
  Qed.

  Lemma iterators_from : forall kinds, iterators kinds = iters_from 0 kinds.
  Proof. intro kinds. symmetry. apply (iters_from_filter kinds []). Qed.

  Lemma on_leaves_ok : well_behaved env -> forall op kinds k i h h' ls, on_leaves env k op (map (leaf_of i) kinds) h = (h', ls, Ok tt) ->
    ls = map (leaf_of (i + moves_by op)) kinds /\ h' = h ++ map (fun c => (c, op)) (iters_from k kinds).
  Proof.
    intros Hw op kinds. induction kinds as [|q kinds IH]; intros k i h h' ls H; cbn in H.
    - injection H as <- <-. split; [reflexivity|]. cbn. rewrite app_nil_r. reflexivity.
    - destruct q as [b| |]; cbn [leaf_of on_leaf] in H.
      + destruct (env h k op (b + i)) as [pos' [x| | | | |]] eqn:E; cbn in H; try discriminate.
        destruct (on_leaves env (S k) op (map (leaf_of i) kinds) (h ++ [(k, op)])) as [[h2 r2] o2] eqn:E2.
        injection H as <- <- ->. destruct (IH _ _ _ _ _ E2) as [-> ->]. split.
        * cbn [map leaf_of]. rewrite (Hw _ _ _ _ _ _ E). f_equal. f_equal. lia.
        * cbn [iters_from map]. rewrite <- app_assoc. reflexivity.
      + destruct (on_leaves env (S k) op (map (leaf_of i) kinds) h) as [[h2 r2] o2] eqn:E2.
        injection H as <- <- ->. destruct (IH _ _ _ _ _ E2) as [-> ->]. split; reflexivity.
      + destruct (on_leaves env (S k) op (map (leaf_of i) kinds) h) as [[h2 r2] o2] eqn:E2.
        injection H as <- <- ->. destruct (IH _ _ _ _ _ E2) as [-> ->]. split; reflexivity.
  Qed.

  Lemma on_leaves_fails : well_behaved env -> forall op kinds k i h h' ls o, on_leaves env k op (map (leaf_of i) kinds) h = (h', ls, o) -> o <> Ok tt ->
    exists pre b post pos o1, kinds = pre ++ KIter b :: post /\
      env (h ++ map (fun c => (c, op)) (iters_from k pre)) (k + length pre) op (b + i) = (pos, o1) /\ ends_with o1 o /\
      h' = h ++ map (fun c => (c, op)) (iters_from k pre ++ [(k + length pre)%nat]) /\
      ls = map (leaf_of (i + moves_by op)) pre ++ LIter pos :: map (leaf_of i) post.
  Proof.
    intros Hw op kinds. induction kinds as [|q kinds IH]; intros k i h h' ls o H Ho; cbn in H; [congruence|].
    destruct q as [b| |]; cbn [leaf_of on_leaf] in H.
    - destruct (env h k op (b + i)) as [pos' o1] eqn:E. cbn in H.
      assert (Hbad : (forall x, o1 <> Ok x) -> (h ++ [(k, op)], LIter pos' :: map (leaf_of i) kinds, do _ <- o1; Ok tt) = (h', ls, o) ->
        exists pre b0 post pos o2, KIter b :: kinds = pre ++ KIter b0 :: post /\
          env (h ++ map (fun c => (c, op)) (iters_from k pre)) (k + length pre) op (b0 + i) = (pos, o2) /\ ends_with o2 o /\
          h' = h ++ map (fun c => (c, op)) (iters_from k pre ++ [(k + length pre)%nat]) /\
          ls = map (leaf_of (i + moves_by op)) pre ++ LIter pos :: map (leaf_of i) post).
      { intros Hn Heq. injection Heq as <- <- <-. exists [], b, kinds, pos', o1. cbn [iters_from map app length]. rewrite app_nil_r, Nat.add_0_r.
        split; [reflexivity|]. split; [exact E|]. split; [destruct o1; try reflexivity; destruct (Hn a); reflexivity|]. split; reflexivity. }
      destruct o1 as [x| |e| | |]; try (apply Hbad; [discriminate|exact H]).
      destruct (on_leaves env (S k) op (map (leaf_of i) kinds) (h ++ [(k, op)])) as [[h2 r2] o2] eqn:E2. injection H as <- <- <-.
      destruct (IH _ _ _ _ _ _ E2 Ho) as [pre [b0 [post [pos [o1 [-> [Ee [Hend [-> ->]]]]]]]]].
      exists (KIter b :: pre), b0, post, pos, o1. cbn [iters_from map app length leaf_of]. rewrite Nat.add_succ_r. cbn [plus] in Ee.
      split; [reflexivity|]. split; [rewrite <- Ee, <- app_assoc; reflexivity|]. split; [exact Hend|]. split; [rewrite <- app_assoc; reflexivity|].
      rewrite (Hw _ _ _ _ _ _ E). f_equal. f_equal. lia.
    - destruct (on_leaves env (S k) op (map (leaf_of i) kinds) h) as [[h2 r2] o2] eqn:E2. injection H as <- <- <-.
      destruct (IH _ _ _ _ _ _ E2 Ho) as [pre [b0 [post [pos [o1 [-> [Ee [Hend [-> ->]]]]]]]]].
      exists (KData :: pre), b0, post, pos, o1. cbn [iters_from map app length leaf_of]. rewrite Nat.add_succ_r. cbn [plus] in Ee.
      split; [reflexivity|]. split; [exact Ee|]. split; [exact Hend|]. split; reflexivity.
    - destruct (on_leaves env (S k) op (map (leaf_of i) kinds) h) as [[h2 r2] o2] eqn:E2. injection H as <- <- <-.
      destruct (IH _ _ _ _ _ _ E2 Ho) as [pre [b0 [post [pos [o1 [-> [Ee [Hend [-> ->]]]]]]]]].
      exists (KIndex :: pre), b0, post, pos, o1. cbn [iters_from map app length leaf_of]. rewrite Nat.add_succ_r. cbn [plus] in Ee.
      split; [reflexivity|]. split; [exact Ee|]. split; [exact Hend|]. split; reflexivity.
  Qed.

  Lemma deref_leaves_ok : well_behaved env -> forall op, moves_by op = 0 -> forall kinds k i d h h' ls xs,
    deref_leaves env k op i d (map (leaf_of i) kinds) h = (h', ls, Ok xs) ->
    ls = map (leaf_of i) kinds /\ h' = h ++ map (fun c => (c, op)) (iters_from k kinds) /\ length xs = length kinds /\
    forall j q, nth_error kinds j = Some q ->
      match q with
      | KIter b => exists x pos, env (h ++ map (fun c => (c, op)) (iters_from k (firstn j kinds))) (k + j) op (b + i) = (pos, Ok x) /\ nth_error xs j = Some (IAnswer x)
      | KData => nth_error xs j = Some (IElem (k + j) (i + d))
      | KIndex => nth_error xs j = Some (IIndex (i + d))
      end.
  Proof.
    intros Hw op Hm kinds. induction kinds as [|q kinds IH]; intros k i d h h' ls xs H; cbn in H.
    - injection H as <- <- <-. cbn. rewrite app_nil_r. split; [reflexivity|]. split; [reflexivity|]. split; [reflexivity|]. intros [|j]; discriminate.
    - destruct q as [b| |]; cbn [leaf_of on_leaf] in H.
      + destruct (env h k op (b + i)) as [pos' [x| | | | |]] eqn:E; cbn in H; try discriminate.
        destruct (deref_leaves env (S k) op i d (map (leaf_of i) kinds) (h ++ [(k, op)])) as [[h2 r2] o2] eqn:E2.
        destruct o2 as [xs2| | | | |]; try discriminate. injection H as <- <- <-. destruct (IH _ _ _ _ _ _ _ E2) as [-> [-> [L Hx]]].
        split; [cbn [map leaf_of]; rewrite (Hw _ _ _ _ _ _ E), Hm; f_equal; f_equal; lia|].
        split; [cbn [iters_from map]; rewrite <- app_assoc; reflexivity|]. split; [cbn; congruence|].
        intros [|j] q Hq; cbn [nth_error firstn iters_from map] in *.
        * injection Hq as <-. rewrite app_nil_r, Nat.add_0_r. eauto.
        * specialize (Hx j q Hq). rewrite Nat.add_succ_r. cbn [plus] in Hx. destruct q; [|exact Hx|exact Hx].
          destruct Hx as [y [pos [Ey Hy]]]. exists y, pos. split; [|exact Hy]. rewrite <- Ey, <- app_assoc. reflexivity.
      + destruct (deref_leaves env (S k) op i d (map (leaf_of i) kinds) h) as [[h2 r2] o2] eqn:E2.
        destruct o2 as [xs2| | | | |]; try discriminate. injection H as <- <- <-. destruct (IH _ _ _ _ _ _ _ E2) as [-> [-> [L Hx]]].
        split; [reflexivity|]. split; [reflexivity|]. split; [cbn; congruence|].
        intros [|j] q Hq; cbn [nth_error firstn iters_from map] in *.
        * injection Hq as <-. rewrite Nat.add_0_r. reflexivity.
        * specialize (Hx j q Hq). rewrite Nat.add_succ_r. exact Hx.
      + destruct (deref_leaves env (S k) op i d (map (leaf_of i) kinds) h) as [[h2 r2] o2] eqn:E2.
        destruct o2 as [xs2| | | | |]; try discriminate. injection H as <- <- <-. destruct (IH _ _ _ _ _ _ _ E2) as [-> [-> [L Hx]]].
        split; [reflexivity|]. split; [reflexivity|]. split; [cbn; congruence|].
        intros [|j] q Hq; cbn [nth_error firstn iters_from map] in *.
        * injection Hq as <-. reflexivity.
        * specialize (Hx j q Hq). rewrite Nat.add_succ_r. exact Hx.
  Qed.

  (** ** Whole iterators *)
  Lemma at_step_leaves : forall kinds i z, at_step kinds i z <-> z = (map (leaf_of i) kinds, i).
  Proof. intros kinds i [ls j]. unfold at_step. cbn. split; [intros [-> ->]; reflexivity|]. intro H. injection H as -> ->. split; reflexivity. Qed.

  Lemma move_by_ok : well_behaved env -> forall op d kinds i z h h' z', moves_by op = d -> at_step kinds i z -> move_by env op d z h = (h', z', Ok tt) ->
    at_step kinds (i + d) z' /\ h' = h ++ map (fun c => (c, op)) (iterators kinds).
  Proof.
    intros Hw op d kinds i z h h' z' Hd Hz H. apply at_step_leaves in Hz. subst z. unfold move_by in H. cbn [fst snd] in H.
    destruct (on_leaves env 0 op (map (leaf_of i) kinds) h) as [[h1 ls] o] eqn:E. destruct o as [[]| | | | |]; try discriminate. injection H as <- <-.
    destruct (on_leaves_ok Hw _ _ _ _ _ _ _ E) as [-> ->]. rewrite iterators_from, Hd. split; [apply at_step_leaves|]; reflexivity.
  Qed.

  Lemma move_by_fails : well_behaved env -> forall op d kinds i z h h' z' o, moves_by op = d -> at_step kinds i z -> move_by env op d z h = (h', z', o) -> o <> Ok tt ->
    exists pre b post pos o1, kinds = pre ++ KIter b :: post /\
      env (h ++ map (fun c => (c, op)) (iterators pre)) (length pre) op (b + i) = (pos, o1) /\ ends_with o1 o /\
      h' = h ++ map (fun c => (c, op)) (iterators pre ++ [length pre]) /\
      snd z' = i /\ fst z' = map (leaf_of (i + d)) pre ++ LIter pos :: map (leaf_of i) post.
  Proof.
    intros Hw op d kinds i z h h' z' o Hd Hz H Ho. apply at_step_leaves in Hz. subst z. unfold move_by in H. cbn [fst snd] in H.
    destruct (on_leaves env 0 op (map (leaf_of i) kinds) h) as [[h1 ls] o1] eqn:E.
    assert (Ho1 : o1 <> Ok tt) by (intros ->; injection H as _ _ <-; congruence).
    destruct (on_leaves_fails Hw _ _ _ _ _ _ _ _ E Ho1) as [pre [b [post [pos [o2 [-> [Ee [Hend [-> ->]]]]]]]]].
    assert (Heq : (h ++ map (fun c => (c, op)) (iters_from 0 pre ++ [(0 + length pre)%nat]), (map (leaf_of (i + moves_by op)) pre ++ LIter pos :: map (leaf_of i) post, i), o1) = (h', z', o)).
    { destruct o1 as [[]| | | | |]; try exact H. congruence. }
    injection Heq as <- <- <-. exists pre, b, post, pos, o2. rewrite iterators_from. rewrite Hd. auto 10.
  Qed.

  Lemma copy_ok : well_behaved env -> forall kinds i z h h' c, at_step kinds i z -> copy env z h = (h', Ok c) ->
    c = z /\ h' = h ++ map (fun k => (k, OCopy)) (iterators kinds).
  Proof.
    intros Hw kinds i z h h' c Hz H. apply at_step_leaves in Hz. subst z. unfold copy in H. cbn [fst snd] in H.
    destruct (on_leaves env 0 OCopy (map (leaf_of i) kinds) h) as [[h1 ls] o] eqn:E. destruct o as [[]| | | | |]; try discriminate. injection H as <- <-.
    destruct (on_leaves_ok Hw _ _ _ _ _ _ _ E) as [-> ->]. rewrite iterators_from. cbn [moves_by]. rewrite Z.add_0_r. split; reflexivity.
  Qed.

  Lemma post_ok : well_behaved env -> forall op d f kinds i z h h' z' c, moves_by op = d -> f = move_by env op d -> at_step kinds i z ->
    post env f z h = (h', z', Ok c) ->
    c = z /\ at_step kinds (i + d) z' /\ h' = h ++ map (fun k => (k, OCopy)) (iterators kinds) ++ map (fun k => (k, op)) (iterators kinds).
  Proof.
    intros Hw op d f kinds i z h h' z' c Hd -> Hz H. unfold post in H. destruct (copy env z h) as [h1 [c1| | | | |]] eqn:E; try discriminate.
    destruct (copy_ok Hw _ _ _ _ _ _ Hz E) as [-> ->].
    destruct (move_by env op d z (h ++ map (fun k => (k, OCopy)) (iterators kinds))) as [[h2 z2] o] eqn:E2. destruct o as [[]| | | | |]; try discriminate.
    injection H as <- <- <-. destruct (move_by_ok Hw _ _ _ _ _ _ _ _ Hd Hz E2) as [Hz' ->]. split; [reflexivity|]. split; [exact Hz'|].
    rewrite <- app_assoc. reflexivity.
  Qed.

  Lemma do_step_ok : well_behaved env -> forall c kinds i z h h' z', at_step kinds i z -> do_step env c z h = (h', z', Ok tt) ->
    at_step kinds (i + leads c) z' /\ h' = h ++ flat_map (fun op => map (fun k => (k, op)) (iterators kinds)) (operations c).
  Proof.
    intros Hw c kinds i z h h' z' Hz H.
    destruct c; cbn [do_step operations leads flat_map] in *; rewrite ?app_nil_r.
    - apply (move_by_ok Hw OInc 1 kinds i z h h' z' eq_refl Hz H).
    - apply (move_by_ok Hw ODec (-1) kinds i z h h' z' eq_refl Hz H).
    - apply (move_by_ok Hw (OAdd d) d kinds i z h h' z' eq_refl Hz H).
    - apply (move_by_ok Hw (OAdd (- d)) (- d) kinds i z h h' z' eq_refl Hz H).
    - destruct (post env (pre_inc env) z h) as [[h1 z1] o] eqn:E. destruct o; try discriminate. injection H as <- <-.
      apply (post_ok Hw OInc 1 (pre_inc env) kinds i z h h1 z1 a eq_refl eq_refl Hz E).
    - destruct (post env (pre_dec env) z h) as [[h1 z1] o] eqn:E. destruct o; try discriminate. injection H as <- <-.
      apply (post_ok Hw ODec (-1) (pre_dec env) kinds i z h h1 z1 a eq_refl eq_refl Hz E).
    - destruct (deref env z h) as [[h1 z1] o] eqn:E. destruct o; try discriminate. injection H as <- <-. unfold deref in E.
      apply at_step_leaves in Hz. subst z. cbn [fst snd] in E.
      destruct (deref_leaves env 0 ODeref i 0 (map (leaf_of i) kinds) h) as [[h2 ls] o] eqn:E2. injection E as <- <- ->.
      destruct (deref_leaves_ok Hw ODeref eq_refl _ _ _ _ _ _ _ _ E2) as [-> [-> _]]. rewrite iterators_from, Z.add_0_r.
      split; [apply at_step_leaves|]; reflexivity.
    - destruct (subscript_at env d z h) as [[h1 z1] o] eqn:E. destruct o; try discriminate. injection H as <- <-. unfold subscript_at in E.
      apply at_step_leaves in Hz. subst z. cbn [fst snd] in E.
      destruct (deref_leaves env 0 (OAt d) i d (map (leaf_of i) kinds) h) as [[h2 ls] o] eqn:E2. injection E as <- <- ->.
      destruct (deref_leaves_ok Hw (OAt d) eq_refl _ _ _ _ _ _ _ _ E2) as [-> [-> _]]. rewrite iterators_from, Z.add_0_r.
      split; [apply at_step_leaves|]; reflexivity.
  Qed.

  Lemma do_steps_ok : well_behaved env -> forall cs kinds i z h h' z', at_step kinds i z -> do_steps env cs z h = (h', z', Ok tt) ->
    at_step kinds (expected_position i cs) z' /\ h' = h ++ expected_history kinds cs.
  Proof.
    intros Hw cs. induction cs as [|c cs IH]; intros kinds i z h h' z' Hz H; cbn [do_steps] in H.
    - injection H as <- <-. split; [exact Hz|]. cbn. rewrite app_nil_r. reflexivity.
    - destruct (do_step env c z h) as [[h1 z1] o] eqn:E. destruct o as [[]| | | | |]; try discriminate.
      destruct (do_step_ok Hw c _ _ _ _ _ _ Hz E) as [Hz1 ->]. destruct (IH _ _ _ _ _ _ Hz1 H) as [Hz2 ->].
      split; [exact Hz2|]. unfold expected_history. cbn [flat_map]. rewrite <- app_assoc. reflexivity.
  Qed.
End Zip.
