(** Properties of the tuple and array algorithms: C34 - C38, C64. *)

From Coq Require Import ZArith Arith Bool Lia List Permutation.
From Verif Require Import Base ZipSpec TupleModel TupleSpec TupleProofs.
Import ListNotations.

Local Open Scope Z_scope.

(** * C34 *)
(** One call per index in increasing order; the first call that does not return ends the loop. *)
Theorem C34_template_for : forall V S R (f : S -> list (element V) -> S * outcome R) args n s,
  common_size args n ->
  exists rows, rows_of args n rows /\
    (forall rs s', called f s rows rs s' -> template_for (-1) f args s = (s', Ok tt)) /\
    (forall l1 x l2 rs s1 s2 o o', rows = l1 ++ x :: l2 -> called f s l1 rs s1 -> f s1 x = (s2, o) -> ends_with o o' ->
       template_for (-1) f args s = (s2, o')).
Proof.
  intros V S R f args n s H.
  assert (W : within args n) by (intros l Hl; rewrite (proj2 H l Hl); auto).
  destruct (rows_within args n W) as [rows Hr]. exists rows. split; [assumption|].
  assert (G : forall l s s' rs, called f s l rs s' -> forall l', call_each (drop_result f) s (l ++ l') = call_each (drop_result f) s' l').
  { clear. intros l s s' rs Hc l'. induction Hc as [|s x r s1 l rs s2 H Hc IH]; [reflexivity|].
    cbn [app call_each]. unfold drop_result at 1. rewrite H. exact IH. }
  rewrite (template_for_rows f args (-1) n rows s (size_common args n H) Hr). split.
  - intros rs s' Hc. rewrite <- (app_nil_r rows), (G rows s s' rs Hc []). reflexivity.
  - intros l1 x l2 rs s1 s2 o o' E Hc Hx Ho. rewrite E, (G l1 s s1 rs Hc (x :: l2)). cbn [call_each]. unfold drop_result at 1. rewrite Hx.
    destruct o; cbn [ends_with bind] in *; try contradiction; subst; reflexivity.
Qed.
Print Assumptions C34_template_for.

(** The number of iterations may be given if there are no tuples. *)
Theorem C34_template_for_count : forall V S R (f : S -> list (element V) -> S * outcome R) args N s,
  (forall l, ~ In (ATuple l) args) -> 0 <= N ->
  exists rows, rows_of args (Z.to_nat N) rows /\
    (forall rs s', called f s rows rs s' -> template_for N f args s = (s', Ok tt)) /\
    (forall l1 x l2 rs s1 s2 o o', rows = l1 ++ x :: l2 -> called f s l1 rs s1 -> f s1 x = (s2, o) -> ends_with o o' ->
       template_for N f args s = (s2, o')).
Proof.
  intros V S R f args N s H HN.
  assert (W : within args (Z.to_nat N)) by (intros l Hl; destruct (H l Hl)).
  destruct (rows_within args _ W) as [rows Hr]. exists rows. split; [assumption|]. split.
  2: { intros l1 x l2 rs s1 s2 o o' E Hc Hx Ho.
       rewrite (template_for_rows f args N (Z.to_nat N) rows s); [|apply size_given; [|assumption]|assumption].
       { assert (G : forall l s s' rs, called f s l rs s' -> forall l', call_each (drop_result f) s (l ++ l') = call_each (drop_result f) s' l').
         { clear. intros l s s' rs Hc l'. induction Hc as [|s x r s1 l rs s2 H Hc IH]; [reflexivity|].
           cbn [app call_each]. unfold drop_result at 1. rewrite H. exact IH. }
         rewrite E, (G l1 s s1 rs Hc (x :: l2)). cbn [call_each]. unfold drop_result at 1. rewrite Hx.
         destruct o; cbn [ends_with bind] in *; try contradiction; subst; reflexivity. }
       intros l1' l2' H1. destruct (H l1' H1). }
  intros rs s' Hc. rewrite (template_for_rows f args N (Z.to_nat N) rows s); [|apply size_given; [|assumption]|assumption].
  - clear - Hc. induction Hc as [|s x r s1 l rs s2 Hx Hc IH]; [reflexivity|]. cbn [call_each]. unfold drop_result at 1. rewrite Hx. exact IH.
  - intros l1 l2 H1. destruct (H l1 H1).
Qed.
Print Assumptions C34_template_for_count.

(** Nothing is called unless the call compiles: sizes that differ, and calls without any size, are rejected. *)
Theorem C34_rejected : forall V S R (f : S -> list (element V) -> S * outcome R) args s,
  ((exists l1 l2, In (ATuple l1) args /\ In (ATuple l2) args /\ length l1 <> length l2) \/ (forall l, ~ In (ATuple l) args)) ->
  template_for (-1) f args s = (s, IllFormed).
Proof.
  intros V S R f args s [[l1 [l2 [H1 [H2 H3]]]]|H]; unfold template_for.
  - rewrite (size_mismatch args (-1) l1 l2 H1 H2 H3). reflexivity.
  - rewrite (size_none args H). reflexivity.
Qed.
Print Assumptions C34_rejected.

Definition example_args : list (arg Z) := [ATuple [7; 8; 9]; ATupleIndex; ARangeIndex].
Definition example_log (s : list (list (element Z))) (row : list (element Z)) : list (list (element Z)) * outcome unit :=
  (s ++ [row], Ok tt).
Example C34_example :
  common_size example_args 3 /\
  rows_of example_args 3 [[Elem 7; IndexConstant 0; Index 0]; [Elem 8; IndexConstant 1; Index 1]; [Elem 9; IndexConstant 2; Index 2]] /\
  template_for (-1) example_log example_args [] =
    ([[Elem 7; IndexConstant 0; Index 0]; [Elem 8; IndexConstant 1; Index 1]; [Elem 9; IndexConstant 2; Index 2]], Ok tt) /\
  template_for 2 example_log [ATupleIndex] [] = ([[IndexConstant 0]; [IndexConstant 1]], Ok tt) /\
  template_for (-1) example_log [ATuple [1; 2]; ATuple [3]] [] = ([], IllFormed) /\
  template_for (-1) example_log [ARangeIndex] [] = ([], IllFormed).
Proof.
  split; [|split; [|repeat split]].
  - split; [exists [7; 8; 9]; left; reflexivity|]. intros l [E|[E|[E|[]]]]; try discriminate. injection E as <-. reflexivity.
  - split; [reflexivity|]. intros i row H. destruct i as [|[|[|i]]]; cbn in H; try (destruct i; discriminate); injection H as <-;
      repeat constructor.
Qed.

(** * C35 *)
Theorem C35_array_transform : forall V S R (f : S -> list (element V) -> S * outcome R) args n s,
  common_size args n ->
  exists rows, rows_of args n rows /\
    (forall rs s', called f s rows rs s' -> array_transform (-1) f args s = (s', Ok rs)) /\
    (forall l1 x l2 rs s1 s2 o o', rows = l1 ++ x :: l2 -> called f s l1 rs s1 -> f s1 x = (s2, o) -> ends_with o o' ->
       array_transform (-1) f args s = (s2, o')).
Proof.
  intros V S R f args n s H.
  assert (W : within args n) by (intros l Hl; rewrite (proj2 H l Hl); auto).
  destruct (rows_within args n W) as [rows Hr]. exists rows. split; [assumption|].
  rewrite (array_transform_rows f args (-1) n rows s (size_common args n H) Hr). split.
  - intros rs s' Hc. apply (init_list_rows f args n rows Hr rows [] s rs s' eq_refl Hc).
  - intros l1 x l2 rs s1 s2 o o' E Hc Hx Ho. rewrite E.
    apply (init_list_fails f args n rows Hr l1 [] x l2 s rs s1 s2 o o' E Hc Hx Ho).
Qed.
Print Assumptions C35_array_transform.

(** tuple_transform() calls [f] once per index, in an order chosen by the compiler; [xs] are the rows in that order. *)
Theorem C35_tuple_transform : forall V S R (f : S -> list (element V) -> S * outcome R) args n order s,
  common_size args n -> Permutation order (seq 0 n) ->
  exists rows xs, rows_of args n rows /\ Forall2 (fun i x => nth_error rows i = Some x) order xs /\
    (forall rs s', called f s xs rs s' ->
       exists result, tuple_transform order (-1) f args s = (s', Ok result) /\ length result = n /\
         forall k i, nth_error order k = Some i -> nth_error result i = nth_error rs k) /\
    (forall l1 x l2 rs s1 s2 o o', xs = l1 ++ x :: l2 -> called f s l1 rs s1 -> f s1 x = (s2, o) -> ends_with o o' ->
       tuple_transform order (-1) f args s = (s2, o')).
Proof.
  intros V S R f args n order s H Hp.
  assert (W : within args n) by (intros l Hl; rewrite (proj2 H l Hl); auto).
  destruct (rows_within args n W) as [rows Hr].
  assert (exists xs, Forall2 (fun i x => nth_error rows i = Some x) order xs) as [xs Hx].
  { assert (G : forall i, In i order -> (i < length rows)%nat).
    { intros i Hi. apply (Permutation_in _ Hp) in Hi. apply in_seq in Hi. rewrite (proj1 Hr). lia. }
    clear Hp. induction order as [|i order IH]; [exists []; constructor|].
    destruct IH as [xs Hx]; [intros j Hj; apply G; right; assumption|].
    destruct (nth_error rows i) as [x|] eqn:E; [exists (x :: xs); constructor; assumption|].
    apply nth_error_None in E. specialize (G i (or_introl eq_refl)). lia. }
  exists rows, xs. split; [assumption|]. split; [assumption|]. split.
  - intros rs s' Hc. apply (tuple_transform_ok f args (-1) n rows order s xs rs s'); try assumption. apply size_common; assumption.
  - intros l1 x l2 rs s1 s2 o o' E Hc Hf Ho. subst xs.
    apply Forall2_app_inv_r in Hx. destruct Hx as [o1 [o2 [F1 [F2 E]]]]. inversion F2 as [|i ? o2' ? Fi F2']; subst.
    unfold tuple_transform. rewrite (size_common args n H), (well_formed_rows args n rows Hr).
    assert (Ho' : ends_with o (A := R) (do _ <- o' ; Ok (fun _ : nat => @None R))).
    { destruct o; cbn [ends_with] in *; try contradiction; subst; reflexivity. }
    rewrite (evaluate_in_fails f args n rows Hr o1 i o2' s l1 x rs s1 s2 o _ (fun _ => None) F1 Fi Hc Hf Ho').
    destruct o; cbn [ends_with] in Ho; try contradiction; subst; reflexivity.
Qed.
Print Assumptions C35_tuple_transform.

(** If the results do not depend on the order of the calls, neither does the resulting tuple. *)
Theorem C35_pure : forall V S R (f : S -> list (element V) -> S * outcome R) (g : list (element V) -> R) args n order s,
  common_size args n -> Permutation order (seq 0 n) -> (forall s x, snd (f s x) = Ok (g x)) ->
  exists rows, rows_of args n rows /\
    snd (tuple_transform order (-1) f args s) = Ok (map g rows) /\ snd (array_transform (-1) f args s) = Ok (map g rows).
Proof.
  intros V S R f g args n order s H Hp Hg.
  assert (Q : forall l s, exists s', called f s l (map g l) s').
  { induction l as [|x l IH]; intro s0; [exists s0; constructor|]. specialize (Hg s0 x). destruct (f s0 x) as [s1 o] eqn:E.
    cbn [snd] in Hg. subst o. destruct (IH s1) as [s' Hs]. exists s'. cbn [map]. econstructor; eassumption. }
  destruct (C35_tuple_transform V S R f args n order s H Hp) as [rows [xs [Hr [Hx [Ht _]]]]].
  destruct (C35_array_transform V S R f args n s H) as [rows' [Hr' [Ha _]]].
  assert (rows' = rows) by (eapply rows_unique; eassumption). subst rows'.
  exists rows. split; [assumption|]. split.
  - destruct (Q xs s) as [s' Hs]. destruct (Ht _ _ Hs) as [result [-> [L K]]]. cbn [snd]. f_equal.
    apply nth_error_ext_len with (n := n); [assumption|rewrite map_length; apply (proj1 Hr)|].
    intros i Hi. assert (In i order) as Hi' by (apply (Permutation_in _ (Permutation_sym Hp)); apply in_seq; lia).
    apply In_nth_error in Hi'. destruct Hi' as [k Hk]. rewrite (K k i Hk).
    destruct (Forall2_in_pos _ _ _ _ _ k i Hx Hk) as [x [E1 E2]]. rewrite (map_nth_error g k xs E1), (map_nth_error g i rows E2). reflexivity.
  - destruct (Q rows s) as [s' Hs]. rewrite (Ha _ _ Hs). reflexivity.
Qed.
Print Assumptions C35_pure.

Theorem C35_sizes_differ : forall V S R (f : S -> list (element V) -> S * outcome R) args l1 l2 order N s,
  In (ATuple l1) args -> In (ATuple l2) args -> length l1 <> length l2 ->
  tuple_transform order N f args s = (s, IllFormed) /\ array_transform N f args s = (s, IllFormed).
Proof.
  intros V S R f args l1 l2 order N s H1 H2 H3. unfold tuple_transform, array_transform.
  rewrite (size_mismatch args N l1 l2 H1 H2 H3). split; reflexivity.
Qed.
Print Assumptions C35_sizes_differ.

(** A size argument that is larger than the tuples is rejected, ... *)
Theorem C35_given_size_too_large : forall V S R (f : S -> list (element V) -> S * outcome R) args n order N s,
  common_size args n -> Z.of_nat n < N ->
  tuple_transform order N f args s = (s, IllFormed) /\ array_transform N f args s = (s, IllFormed) /\
  template_for N f args s = (s, IllFormed).
Proof.
  intros V S R f args n order N s H HN. unfold tuple_transform, array_transform, template_for.
  rewrite size_given; [|intros l1 l2 H1 H2; rewrite (proj2 H l1 H1), (proj2 H l2 H2); reflexivity|lia].
  assert (W : well_formed_for (seq 0 (Z.to_nat N)) args <> Ok tt).
  { apply not_within. intro W. destruct H as [[l Hl] H]. specialize (W l Hl). rewrite (H l Hl) in W. lia. }
  destruct (well_formed_for (seq 0 (Z.to_nat N)) args) as [[]| | | | |]; try congruence; repeat split; reflexivity.
Qed.
Print Assumptions C35_given_size_too_large.

(** ... but a smaller one is not, although "sizes must agree": the assertion in detail/tuple-transform.hpp:110 is always
    true when a size is given.  The remaining elements are silently skipped. *)
Theorem C35_given_size_refuted : exists (args : list (arg Z)) N n,
  common_size args n /\ 0 <= N /\ N <> Z.of_nat n /\
  array_transform N (fun (s : unit) es => (s, Ok (length es))) args tt = (tt, Ok [1%nat]) /\
  template_for N example_log args [] = ([[Elem 7]], Ok tt).
Proof.
  exists [ATuple [7; 8; 9]], 1, 3%nat. repeat split; try reflexivity; try lia.
  - exists [7; 8; 9]. left; reflexivity.
  - intros l [E|[]]. injection E as <-. reflexivity.
Qed.
Print Assumptions C35_given_size_refuted.

Example C35_example :
  let f := fun (s : Z) (row : list (element Z)) => (s + 1, match row with [Elem x; Elem y] => Ok (x * 10 + y + s * 100) | _ => IllFormed end) in
  let args := [ATuple [1; 2; 3]; ATuple [4; 5; 6]] in
  array_transform (-1) f args 0 = (3, Ok [14; 125; 236]) /\
  tuple_transform [2; 0; 1]%nat (-1) f args 0 = (3, Ok [114; 225; 36]) /\
  Permutation [2; 0; 1]%nat (seq 0 3) /\ common_size args 3.
Proof.
  split; [reflexivity|]. split; [reflexivity|]. split.
  - apply perm_trans with [0; 2; 1]%nat; [apply perm_swap|apply perm_skip; apply perm_swap].
  - split; [eexists; left; reflexivity|]. intros l [E|[E|[]]]; injection E as <-; reflexivity.
Qed.

(** * C36 *)
Theorem C36_transform_reduce : forall V S A B (reduce : S -> A -> B -> S * outcome A)
    (transform : S -> list (element V) -> S * outcome B) args n init s,
  common_size args n ->
  exists rows, rows_of args n rows /\
    template_transform_reduce init reduce transform args s = fold_calls reduce transform s init rows.
Proof.
  intros V S A B reduce transform args n init s H.
  destruct (rows_within args n) as [rows Hr]; [intros l Hl; rewrite (proj2 H l Hl); auto|].
  exists rows. split; [assumption|]. apply template_transform_reduce_rows with n; assumption.
Qed.
Print Assumptions C36_transform_reduce.

(** template_reduce(): with a reducer that always returns, the left fold of the elements. *)
Theorem C36_reduce : forall V S A (reduce : S -> A -> element V -> S * outcome A) (g : A -> V -> A) l init s,
  (forall s a v, snd (reduce s a (Elem v)) = Ok (g a v)) ->
  snd (template_reduce init reduce (ATuple l) s) = Ok (fold_left g l init).
Proof.
  intros V S A reduce g l init s Hg. unfold template_reduce.
  assert (Hc : common_size [ATuple l] (length l)).
  { split; [exists l; left; reflexivity|]. intros l' [E|[]]. injection E as <-. reflexivity. }
  assert (Hr : rows_of [ATuple l] (length l) (map (fun v => [Elem v]) l)).
  { split; [apply map_length|]. intros i row Hi. destruct (nth_error l i) as [v|] eqn:E.
    - rewrite (map_nth_error (fun v => [Elem v]) i l E) in Hi. injection Hi as <-. repeat constructor. assumption.
    - apply nth_error_None in E. assert (i < length (map (fun v : V => [Elem v]) l))%nat by (apply nth_error_Some; congruence).
      rewrite map_length in *. lia. }
  rewrite (template_transform_reduce_rows _ _ _ (length l) _ init s Hc Hr).
  clear Hc Hr. revert init s. induction l as [|v l IH]; intros init s; [reflexivity|].
  cbn [map fold_calls fold_left]. specialize (Hg s init v). destruct (reduce s init (Elem v)) as [s2 o] eqn:E. cbn [snd] in Hg. subst o.
  apply IH.
Qed.
Print Assumptions C36_reduce.

(** template_reduce() with any reducer: called once for every element in order, until it fails. *)
Theorem C36_reduce_calls : forall V S A (reduce : S -> A -> element V -> S * outcome A) l init s,
  template_reduce init reduce (ATuple l) s = fold_calls reduce (fun s e => (s, Ok e)) s init (map Elem l).
Proof.
  intros V S A reduce l init s. unfold template_reduce.
  assert (Hc : common_size [ATuple l] (length l)).
  { split; [exists l; left; reflexivity|]. intros l' [E|[]]. injection E as <-. reflexivity. }
  assert (Hr : rows_of [ATuple l] (length l) (map (fun v => [Elem v]) l)).
  { split; [apply map_length|]. intros i row Hi. destruct (nth_error l i) as [v|] eqn:E.
    - rewrite (map_nth_error (fun v => [Elem v]) i l E) in Hi. injection Hi as <-. repeat constructor. assumption.
    - apply nth_error_None in E. assert (i < length (map (fun v : V => [Elem v]) l))%nat by (apply nth_error_Some; congruence).
      rewrite map_length in *. lia. }
  rewrite (template_transform_reduce_rows _ _ _ (length l) _ init s Hc Hr).
  clear Hc Hr. revert init s. induction l as [|v l IH]; intros init s; [reflexivity|].
  cbn [map fold_calls]. destruct (reduce s init (Elem v)) as [s2 [a| | | | |]]; try reflexivity. apply IH.
Qed.
Print Assumptions C36_reduce_calls.

Example C36_reduce_calls_example :
  template_reduce 1 (fun (s : list (element Z)) a e => (s ++ [e], if (length s =? 2)%nat then Contract else Ok (a * 3))) (ATuple [4; 5; 6; 7]) [] =
    ([Elem 4; Elem 5; Elem 6], Contract).
Proof. reflexivity. Qed.

(** [l1] are the rows before the deciding one. *)
Theorem C36_all_of : forall V S (pred : S -> list (element V) -> S * outcome bool) args n s,
  common_size args n ->
  exists rows, rows_of args n rows /\
  (forall l1 x l2 s1 s2, rows = l1 ++ x :: l2 -> answers pred s l1 (repeat true (length l1)) s1 ->
     pred s1 x = (s2, Ok false) -> template_all_of pred args s = (s2, Ok false)) /\
  (forall l1 x l2 s1 s2 o, rows = l1 ++ x :: l2 -> answers pred s l1 (repeat true (length l1)) s1 ->
     pred s1 x = (s2, o) -> (forall b, o <> Ok b) -> template_all_of pred args s = (s2, o)) /\
  (forall s1, answers pred s rows (repeat true n) s1 -> template_all_of pred args s = (s1, Ok true)).
Proof.
  intros V S pred args n s H.
  destruct (rows_within args n) as [rows Hr]; [intros l Hl; rewrite (proj2 H l Hl); auto|].
  exists rows. split; [assumption|]. unfold template_all_of. rewrite (conjunction_rows pred args n rows false s H Hr). split; [|split].
  - intros l1 x l2 s1 s2 E Ha Hx. rewrite E. apply (conjunction_stops pred args n rows false Hr l1 [] x l2 s s1 s2 E Ha Hx).
  - intros l1 x l2 s1 s2 o E Ha Hx Ho. rewrite E. apply (conjunction_fails pred args n rows false Hr l1 [] x l2 s s1 s2 o E Ha Hx Ho).
  - intros s1 Ha. apply (conjunction_never pred args n rows false Hr rows [] s s1 eq_refl). rewrite (proj1 Hr). exact Ha.
Qed.
Print Assumptions C36_all_of.

Theorem C36_any_of : forall V S (pred : S -> list (element V) -> S * outcome bool) args n s,
  common_size args n ->
  exists rows, rows_of args n rows /\
  (forall l1 x l2 s1 s2, rows = l1 ++ x :: l2 -> answers pred s l1 (repeat false (length l1)) s1 ->
     pred s1 x = (s2, Ok true) -> template_any_of pred args s = (s2, Ok true)) /\
  (forall l1 x l2 s1 s2 o, rows = l1 ++ x :: l2 -> answers pred s l1 (repeat false (length l1)) s1 ->
     pred s1 x = (s2, o) -> (forall b, o <> Ok b) -> template_any_of pred args s = (s2, o)) /\
  (forall s1, answers pred s rows (repeat false n) s1 -> template_any_of pred args s = (s1, Ok false)).
Proof.
  intros V S pred args n s H.
  destruct (rows_within args n) as [rows Hr]; [intros l Hl; rewrite (proj2 H l Hl); auto|].
  exists rows. split; [assumption|]. unfold template_any_of. rewrite (conjunction_rows pred args n rows true s H Hr). split; [|split].
  - intros l1 x l2 s1 s2 E Ha Hx. assert (G := conjunction_stops pred args n rows true Hr l1 [] x l2 s s1 s2 E Ha Hx). cbn [length] in G. rewrite E, G. reflexivity.
  - intros l1 x l2 s1 s2 o E Ha Hx Ho. assert (G := conjunction_fails pred args n rows true Hr l1 [] x l2 s s1 s2 o E Ha Hx Ho). cbn [length] in G. rewrite E, G.
    destruct o; try reflexivity. exfalso. apply (Ho a). reflexivity.
  - intros s1 Ha. rewrite <- (proj1 Hr) in Ha. assert (E := conjunction_never pred args n rows true Hr rows [] s s1 eq_refl Ha).
    cbn [length] in E. rewrite E. reflexivity.
Qed.
Print Assumptions C36_any_of.

Theorem C36_none_of : forall V S (pred : S -> list (element V) -> S * outcome bool) args n s,
  common_size args n ->
  exists rows, rows_of args n rows /\
  (forall l1 x l2 s1 s2, rows = l1 ++ x :: l2 -> answers pred s l1 (repeat false (length l1)) s1 ->
     pred s1 x = (s2, Ok true) -> template_none_of pred args s = (s2, Ok false)) /\
  (forall l1 x l2 s1 s2 o, rows = l1 ++ x :: l2 -> answers pred s l1 (repeat false (length l1)) s1 ->
     pred s1 x = (s2, o) -> (forall b, o <> Ok b) -> template_none_of pred args s = (s2, o)) /\
  (forall s1, answers pred s rows (repeat false n) s1 -> template_none_of pred args s = (s1, Ok true)).
Proof.
  intros V S pred args n s H.
  destruct (rows_within args n) as [rows Hr]; [intros l Hl; rewrite (proj2 H l Hl); auto|].
  exists rows. split; [assumption|]. unfold template_none_of. rewrite (conjunction_rows pred args n rows true s H Hr). split; [|split].
  - intros l1 x l2 s1 s2 E Ha Hx. rewrite E. apply (conjunction_stops pred args n rows true Hr l1 [] x l2 s s1 s2 E Ha Hx).
  - intros l1 x l2 s1 s2 o E Ha Hx Ho. rewrite E. apply (conjunction_fails pred args n rows true Hr l1 [] x l2 s s1 s2 o E Ha Hx Ho).
  - intros s1 Ha. apply (conjunction_never pred args n rows true Hr rows [] s s1 eq_refl). rewrite (proj1 Hr). exact Ha.
Qed.
Print Assumptions C36_none_of.

Example C36_example :
  let p := fun (s : Z) (row : list (element Z)) => (s + 1, match row with [Elem x] => Ok (x <? 3) | _ => IllFormed end) in
  let args := [ATuple [1; 2; 3; 4]] in
  template_all_of p args 0 = (3, Ok false) /\ template_any_of p args 0 = (1, Ok true) /\ template_none_of p [ATuple [3; 4]] 0 = (2, Ok true) /\
  template_reduce 0 (fun (s : unit) a e => (s, match e with Elem x => Ok (a * 10 + x) | _ => IllFormed end)) (ATuple [1; 2; 3]) tt = (tt, Ok 123) /\
  template_transform_reduce 0 (fun (s : unit) a b => (s, Ok (a * 10 + b)))
    (fun s row => (s, match row with [Elem x; Elem y] => Ok (x - y) | _ => IllFormed end)) [ATuple [5; 7]; ATuple [1; 1]] tt = (tt, Ok 46) /\
  answers p 0 [[Elem 1]; [Elem 2]] [true; true] 2 /\ p 2 [Elem 3] = (3, Ok false).
Proof. repeat split; repeat (econstructor; try reflexivity). Qed.

(** * C37 *)
(** The total size must be representable in size_t. *)
Theorem C37_cat : forall V (tuples : list (list V)), Z.of_nat (length (concat tuples)) < 2 ^ 64 ->
  tuple_cat tuples = Ok (concat tuples) /\ array_cat tuples = Ok (concat tuples).
Proof. intros V tuples H. split; apply cat_impl_concat; assumption. Qed.
Print Assumptions C37_cat.

Theorem C37_fill : forall V N (value : V), array_fill N value = Ok (repeat value N).
Proof. intros V N value. unfold array_fill. rewrite init_list_const, seq_length. reflexivity. Qed.
Print Assumptions C37_fill.

(** [w] are the values obtained by incrementing the first one. *)
Theorem C37_iota : forall V (inc : V -> outcome V) (dflt : V) N (w : nat -> V),
  (forall i, (i < N)%nat -> inc (w i) = Ok (w (S i))) ->
  array_iota N inc dflt (w 0%nat) = Ok (map w (seq 0 N)).
Proof. intros V inc dflt N w H. apply (array_iota_loop_ok V inc dflt N w [] H). Qed.
Print Assumptions C37_iota.

Example C37_example :
  tuple_cat [[1; 2]; []; [3]; [4; 5]] = Ok [1; 2; 3; 4; 5] /\ array_cat (V := Z) [] = Ok [] /\ array_fill 3 7 = Ok [7; 7; 7] /\
  array_iota 3 (fun x => Ok (x + 1)) 0 5 = Ok [5; 6; 7] /\
  Z.of_nat (length (concat [[1; 2]; []; [3]; [4; 5]])) < 2 ^ 64 /\
  (forall i, (i < 3)%nat -> (fun x => Ok (x + 1)) (5 + Z.of_nat i) = Ok (5 + Z.of_nat (S i))).
Proof. repeat split. intros i _. cbn beta. f_equal. lia. Qed.

(** * C38 *)
Theorem C38_equal : forall V (eq : V -> V -> bool) a b, length a = length b ->
  (vt_eq eq a b = true <-> Forall2 (fun x y => eq x y = true) a b).
Proof. intros V eq a b H. apply vt_eq_iff. assumption. Qed.
Print Assumptions C38_equal.

Theorem C38_less : forall V (lt : V -> V -> bool) a b, length a = length b ->
  (vt_lt lt a b = true <-> lex lt a b).
Proof. intros V lt a b H. apply vt_lt_iff. assumption. Qed.
Print Assumptions C38_less.

Theorem C38_less_order : forall V (lt : V -> V -> bool) n, strict_weak_order (fun _ => True) lt ->
  strict_weak_order (fun a : list V => length a = n) (vt_lt lt).
Proof. intros V lt n H. apply vt_lt_swo. assumption. Qed.
Print Assumptions C38_less_order.

Theorem C38_others : forall V (lt : V -> V -> bool) a b, strict_weak_order (fun _ => True) lt -> length a = length b ->
  (vt_gt lt a b = true <-> lex lt b a) /\
  (vt_le lt a b = true <-> lex lt a b \/ Forall2 (equivalent lt) a b) /\
  (vt_ge lt a b = true <-> lex lt b a \/ Forall2 (equivalent lt) a b).
Proof.
  intros V lt a b H L.
  assert (G : forall a b, length a = length b -> (negb (vt_lt lt b a) = true <-> lex lt a b \/ Forall2 (equivalent lt) a b)).
  { clear a b L. intros a b L. rewrite negb_true_iff, <- not_true_iff_false, vt_lt_iff by congruence. split.
    - intro N. destruct (vt_lt lt a b) eqn:E; [left; apply vt_lt_iff; assumption|].
      right. apply lex_incomparable; [congruence|]. split; [|assumption]. rewrite <- vt_lt_iff by assumption. congruence.
    - intros [N|N]; [apply (lex_asym lt H); assumption|]. apply lex_incomparable in N; [|congruence]. apply (proj2 N). }
  split; [|split].
  - apply vt_lt_iff. congruence.
  - apply G. assumption.
  - unfold vt_ge. rewrite G by congruence. split; (intros [N|N]; [left; assumption|right]);
      (clear - N; induction N as [|x y a b [E1 E2]]; constructor; [split; assumption|assumption]).
Qed.
Print Assumptions C38_others.

(** What != computes: whether all elements differ. *)
Theorem C38_not_equal_partial : forall V (eq ne : V -> V -> bool) a b, length a = length b ->
  (vt_ne ne a b = true <-> Forall2 (fun x y => ne x y = true) a b) /\
  (length a = 1%nat -> (forall x y, ne x y = negb (eq x y)) -> vt_ne ne a b = negb (vt_eq eq a b)).
Proof.
  intros V eq ne a b H. split; [apply vt_ne_iff; assumption|].
  intros H1 Hn. destruct a as [|x [|? ?]], b as [|y [|? ?]]; cbn in *; try discriminate. rewrite Hn, !andb_true_r. reflexivity.
Qed.
Print Assumptions C38_not_equal_partial.

(** It is not the negation of ==: (1, 2) and (1, 3) are neither == nor !=, and () is both == and != (). *)
Theorem C38_not_equal_refuted :
  exists a b : list Z, length a = length b /\ vt_eq Z.eqb a b = false /\ vt_ne (fun x y => negb (x =? y)) a b = false.
Proof. exists [1; 2], [1; 3]. repeat split. Qed.
Print Assumptions C38_not_equal_refuted.
Theorem C38_not_equal_empty_refuted :
  exists a b : list Z, length a = length b /\ vt_eq Z.eqb a b = true /\ vt_ne (fun x y => negb (x =? y)) a b = true.
Proof. exists [], []. repeat split. Qed.
Print Assumptions C38_not_equal_empty_refuted.

Example C38_example :
  strict_weak_order (fun _ => True) Z.ltb /\ vt_lt Z.ltb [1; 2; 9] [1; 3; 0] = true /\ vt_le Z.ltb [1; 2] [1; 2] = true /\
  vt_ge Z.ltb [2; 0] [1; 7] = true /\ vt_eq Z.eqb [1; 2] [1; 2] = true /\ lex Z.ltb [1; 2; 9] [1; 3; 0].
Proof.
  split; [|repeat split].
  - split; [intros x _; apply Z.ltb_irrefl|]. split; [intros x y _ _ H; apply Z.ltb_lt in H; apply Z.ltb_ge; lia|].
    split; [intros x y z _ _ _ H G; apply Z.ltb_lt in H; apply Z.ltb_lt in G; apply Z.ltb_lt; lia|].
    intros x y z _ _ _ H1 H2 H3 H4. apply Z.ltb_ge in H1, H2, H3, H4. split; apply Z.ltb_ge; lia.
  - apply lex_next; [split; reflexivity|]. apply lex_here. reflexivity.
Qed.

(** * C64 *)
(** Position i is taken from argument r at position c iff the arguments before r have i - c elements altogether. *)
Theorem C64_decomposition : forall sizes i r c, (forall n, In n sizes -> 0 <= n) -> 0 <= i ->
  (indices_row sizes i = Ok r /\ indices_col sizes i = Ok c <->
   exists n, nth_error sizes r = Some n /\ 0 <= c < n /\ i = fold_right Z.add 0 (firstn r sizes) + c).
Proof.
  intros sizes i r c Hs Hi.
  assert (E : indices_row sizes i = Ok r /\ indices_col sizes i = Ok c <-> indices_loop sizes 0 i = Ok (r, c)).
  { unfold indices_row, indices_col. destruct (indices_loop sizes 0 i) as [[r' c']| | | | |]; cbn [bind fst snd].
    - split; [intros [A B]|intro A]; [|split]; congruence.
    - split; [intros [A B]|intro A]; discriminate.
    - split; [intros [A B]|intro A]; discriminate.
    - split; [intros [A B]|intro A]; discriminate.
    - split; [intros [A B]|intro A]; discriminate.
    - split; [intros [A B]|intro A]; discriminate. }
  rewrite E, indices_loop_spec by assumption. split.
  - intros [k [n [E1 [E2 [E3 E4]]]]]. cbn [Nat.add] in E1. subst k. eauto.
  - intros [n [E2 [E3 E4]]]. exists r, n. auto.
Qed.
Print Assumptions C64_decomposition.

Theorem C64_defined_below_size : forall sizes i, (forall n, In n sizes -> 0 <= n) -> 0 <= i < fold_right Z.add 0 sizes ->
  exists r c, indices_row sizes i = Ok r /\ indices_col sizes i = Ok c.
Proof.
  intros sizes i Hs Hi. destruct (indices_loop_total sizes 0 i Hs Hi) as [r [c E]]. exists r, c.
  unfold indices_row, indices_col. rewrite E. split; reflexivity.
Qed.
Print Assumptions C64_defined_below_size.

Theorem C64_rejected_beyond : forall sizes i, (forall n, In n sizes -> 0 <= n) -> fold_right Z.add 0 sizes <= i ->
  indices_row sizes i = IllFormed /\ indices_col sizes i = IllFormed.
Proof. intros sizes i Hs Hi. unfold indices_row, indices_col. rewrite (indices_loop_beyond sizes 0 i Hs Hi). split; reflexivity. Qed.
Print Assumptions C64_rejected_beyond.

(** Every pair is hit exactly once, within the total size. *)
Theorem C64_hit_exactly_once : forall sizes r n c, (forall n, In n sizes -> 0 <= n) -> nth_error sizes r = Some n -> 0 <= c < n ->
  exists i, 0 <= i < fold_right Z.add 0 sizes /\ (indices_row sizes i = Ok r /\ indices_col sizes i = Ok c) /\
    forall j, 0 <= j -> indices_row sizes j = Ok r -> indices_col sizes j = Ok c -> j = i.
Proof.
  intros sizes r n c Hs Hr Hc.
  assert (P : forall l, (forall n, In n l -> 0 <= n) -> 0 <= fold_right Z.add 0 l).
  { induction l as [|x l IH]; intro H; cbn [fold_right]; [lia|]. assert (0 <= x) by (apply H; left; reflexivity).
    assert (0 <= fold_right Z.add 0 l) by (apply IH; intros y Hy; apply H; right; assumption). lia. }
  assert (Pf : 0 <= fold_right Z.add 0 (firstn r sizes)).
  { apply P. intros y Hy. apply Hs. rewrite <- (firstn_skipn r sizes). apply in_or_app. left. assumption. }
  assert (Sum : fold_right Z.add 0 (firstn r sizes) + n <= fold_right Z.add 0 sizes).
  { clear Hc Pf. revert r Hr. induction sizes as [|x l IH]; intros r Hr; [destruct r; discriminate|].
    destruct r as [|r]; cbn [nth_error firstn fold_right] in *.
    - injection Hr as ->. assert (0 <= fold_right Z.add 0 l) by (apply P; intros y Hy; apply Hs; right; assumption). lia.
    - specialize (IH (fun n H => Hs n (or_intror H)) r Hr). lia. }
  exists (fold_right Z.add 0 (firstn r sizes) + c). split; [lia|]. split.
  - apply C64_decomposition; [assumption|lia|]. exists n. auto.
  - intros j Hj H1 H2. destruct (proj1 (C64_decomposition sizes j r c Hs Hj) (conj H1 H2)) as [m [_ [_ E]]]. exact E.
Qed.
Print Assumptions C64_hit_exactly_once.

(** The size is that of the result unless it wraps around. *)
Theorem C64_size : forall sizes, (forall n, In n sizes -> 0 <= n) -> fold_right Z.add 0 sizes < 2 ^ 64 ->
  indices_size sizes = fold_right Z.add 0 sizes.
Proof. intros sizes Hs H. apply (cadd_sum sizes Hs H). Qed.
Print Assumptions C64_size.

(** Consecutive positions walk through the arguments in order. *)
Theorem C64_in_order : forall sizes i r c, (forall n, In n sizes -> 0 <= n) -> 0 <= i ->
  indices_row sizes i = Ok r -> indices_col sizes i = Ok c ->
  forall r' c', indices_row sizes (i + 1) = Ok r' -> indices_col sizes (i + 1) = Ok c' ->
  (r' = r /\ c' = c + 1) \/
  ((r < r')%nat /\ c' = 0 /\ nth_error sizes r = Some (c + 1) /\ forall k, (r < k < r')%nat -> nth_error sizes k = Some 0).
Proof.
  intros sizes i r c Hs Hi H1 H2 r' c' H3 H4.
  destruct (proj1 (C64_decomposition sizes i r c Hs Hi) (conj H1 H2)) as [n [E1 [E2 E3]]].
  assert (Hi' : 0 <= i + 1) by lia.
  destruct (proj1 (C64_decomposition sizes (i + 1) r' c' Hs Hi') (conj H3 H4)) as [n' [E1' [E2' E3']]].
  assert (Step : forall k m, nth_error sizes k = Some m ->
            fold_right Z.add 0 (firstn (S k) sizes) = fold_right Z.add 0 (firstn k sizes) + m).
  { clear. induction sizes as [|x l IH]; intros k m H; [destruct k; discriminate|].
    destruct k as [|k]; cbn [nth_error] in H; [injection H as ->; cbn; lia|].
    specialize (IH k m H). change (firstn (S (S k)) (x :: l)) with (x :: firstn (S k) l). change (firstn (S k) (x :: l)) with (x :: firstn k l).
    cbn [fold_right]. lia. }
  assert (Mono : forall k d, fold_right Z.add 0 (firstn k sizes) <= fold_right Z.add 0 (firstn (k + d) sizes)).
  { intros k d. induction d as [|d IHd]; [rewrite Nat.add_0_r; lia|]. rewrite Nat.add_succ_r.
    destruct (nth_error sizes (k + d)) as [m|] eqn:E.
    - rewrite (Step _ m E). assert (0 <= m) by (apply Hs; eapply nth_error_In; eassumption). lia.
    - apply nth_error_None in E. rewrite (firstn_all2 (n := S (k + d))) by lia. rewrite (firstn_all2 (n := k + d)) in IHd by lia. assumption. }
  destruct (lt_eq_lt_dec r r') as [[L|L]|L].
  - right. assert (A := Mono (S r) (r' - S r)%nat). replace (S r + (r' - S r))%nat with r' in A by lia. rewrite (Step r n E1) in A.
    split; [assumption|]. split; [lia|]. split; [rewrite E1; f_equal; lia|].
    intros k Hk. assert (Lk : (k < length sizes)%nat) by (assert ((r' < length sizes)%nat) by (apply nth_error_Some; congruence); lia).
    destruct (nth_error sizes k) as [m|] eqn:E; [|apply nth_error_None in E; lia].
    assert (B := Mono (S r) (k - S r)%nat). replace (S r + (k - S r))%nat with k in B by lia. rewrite (Step r n E1) in B.
    assert (C := Mono (S k) (r' - S k)%nat). replace (S k + (r' - S k))%nat with r' in C by lia. rewrite (Step k m E) in C.
    assert (0 <= m) by (apply Hs; eapply nth_error_In; eassumption). f_equal. lia.
  - left. subst r'. split; [reflexivity|]. lia.
  - exfalso. assert (A := Mono (S r') (r - S r')%nat). replace (S r' + (r - S r'))%nat with r in A by lia. rewrite (Step r' n' E1') in A. lia.
Qed.
Print Assumptions C64_in_order.

Example C64_example :
  (forall n, In n [2; 0; 3] -> 0 <= n) /\
  map (indices_row [2; 0; 3]) [0; 1; 2; 3; 4; 5] = [Ok 0%nat; Ok 0%nat; Ok 2%nat; Ok 2%nat; Ok 2%nat; IllFormed] /\
  map (indices_col [2; 0; 3]) [0; 1; 2; 3; 4; 5] = [Ok 0; Ok 1; Ok 0; Ok 1; Ok 2; IllFormed] /\ indices_size [2; 0; 3] = 5.
Proof.
  repeat split. intros n [<-|[<-|[<-|[]]]]; lia.
Qed.
