(** Property C67: value categories in the tuple and array algorithms. *)

From Coq Require Import ZArith Arith Bool Lia List Permutation.
From Verif Require Import Base TupleModel TupleSpec TupleProofs TupleProps ZipSpec MoveModel MoveSpec MoveProofs.
Import ListNotations.

(** For functors that keep to their arguments, but may move from rvalues: every call sees the elements as they were in
    the beginning, in whatever order the calls are made, and tuples that were passed as lvalues are unchanged.  The same
    tuple may be passed several times. *)
Theorem C67_transform : forall V R (f : memory V -> list (element ref) -> memory V * outcome R) args n m,
  keeps_to_arguments f -> tuples_of_size m args n ->
  exists rows, ref_rows args n rows /\
    forall rs, Forall2 (fun row r => snd (f m row) = Ok r) rows rs ->
      (exists m', array_transform (-1) f (map (arg_of m) args) m = (m', Ok rs) /\ only_rvalues_changed args m m') /\
      (exists m', template_for (-1) f (map (arg_of m) args) m = (m', Ok tt) /\ only_rvalues_changed args m m') /\
      (forall order, Permutation order (seq 0 n) ->
         exists m', tuple_transform order (-1) f (map (arg_of m) args) m = (m', Ok rs) /\ only_rvalues_changed args m m').
Proof.
  intros V R f args n m Hf Hn. pose proof (size_is_common m args n Hn) as Hc.
  destruct (C35_array_transform _ _ _ f _ n m Hc) as (rows & Hr & Ha & _). pose proof (rows_are_refs m args n rows Hr) as Hrr.
  exists rows. split; [exact Hrr|]. intros rs Hs.
  assert (L : length rs = n) by (rewrite <- (proj1 Hr); symmetry; eapply Forall2_length; eauto).
  destruct (calls_independent f Hf args m (seq 0 (length rows)) rows rs m) as (m' & C & _ & U);
    [eapply rows_pair_indices; [exact Hrr|apply rows_seq]|apply seq_NoDup|reflexivity|exact Hs|].
  assert (U' : only_rvalues_changed args m m') by (intros o Ho i; apply U; exact Ho).
  split; [exists m'; split; [apply Ha; exact C|exact U']|]. split.
  - destruct (C34_template_for _ _ _ f _ n m Hc) as (rows' & Hr' & Ht & _). assert (rows' = rows) by (eapply rows_unique; eassumption). subst rows'.
    exists m'. split; [eapply Ht; exact C|exact U'].
  - intros order Hp. destruct (C35_tuple_transform _ _ _ f _ n order m Hc Hp) as (rows' & xs & Hr' & Hx & Ht & _).
    assert (rows' = rows) by (eapply rows_unique; eassumption). subst rows'.
    assert (exists rx, Forall2 (fun row r => snd (f m row) = Ok r) xs rx /\ Forall2 (fun i r => nth_error rs i = Some r) order rx) as (rx & X1 & X2).
    { clear - Hx Hs. induction Hx as [|i x order xs E Hx IH]; [exists []; split; constructor|]. destruct IH as (rx & X1 & X2).
      destruct (Forall2_in_pos _ _ _ _ _ i x Hs E) as (r & E1 & E2). exists (r :: rx). split; constructor; assumption. }
    destruct (calls_independent f Hf args m order xs rx m) as (m2 & C2 & _ & U2);
      [eapply rows_pair_indices; eassumption|eapply Permutation_NoDup; [apply Permutation_sym; exact Hp|apply seq_NoDup]|reflexivity|exact X1|].
    destruct (Ht _ _ C2) as (result & E & Lr & K). exists m2. split; [|intros o Ho i; apply U2; exact Ho].
    rewrite E. do 2 f_equal. apply nth_error_ext_len with (n := n); [exact Lr|exact L|]. intros i Hi.
    assert (I : In i order) by (apply (Permutation_in _ (Permutation_sym Hp)); apply in_seq; lia).
    apply In_nth_error in I as [k Hk]. rewrite (K k i Hk). destruct (Forall2_in_pos _ _ _ _ _ k i X2 Hk) as (r & E1 & E2). congruence.
Qed.
Print Assumptions C67_transform.

Theorem C67_predicates : forall V (f : memory V -> list (element ref) -> memory V * outcome bool) args n m,
  keeps_to_arguments f -> tuples_of_size m args n ->
  exists rows, ref_rows args n rows /\
    forall bs, Forall2 (fun row b => snd (f m row) = Ok b) rows bs ->
      (exists m', template_all_of f (map (arg_of m) args) m = (m', Ok (forallb (fun b => b) bs)) /\ only_rvalues_changed args m m') /\
      (exists m', template_any_of f (map (arg_of m) args) m = (m', Ok (existsb (fun b => b) bs)) /\ only_rvalues_changed args m m') /\
      (exists m', template_none_of f (map (arg_of m) args) m = (m', Ok (negb (existsb (fun b => b) bs))) /\ only_rvalues_changed args m m').
Proof.
  intros V f args n m Hf Hn. pose proof (size_is_common m args n Hn) as Hc.
  destruct (C36_all_of _ _ f _ n m Hc) as (rows & Hr & A1 & _ & A2).
  destruct (C36_any_of _ _ f _ n m Hc) as (rows1 & Hr1 & B1 & _ & B2). assert (rows1 = rows) by (eapply rows_unique; eassumption). subst rows1.
  destruct (C36_none_of _ _ f _ n m Hc) as (rows2 & Hr2 & N1 & _ & N2). assert (rows2 = rows) by (eapply rows_unique; eassumption). subst rows2.
  pose proof (rows_are_refs m args n rows Hr) as Hrr. exists rows. split; [exact Hrr|]. intros bs Hs.
  assert (Fa : forall k, forallb (fun b => b) (repeat true k) = true) by (induction k; cbn; auto).
  assert (Ex : forall k, existsb (fun b => b) (repeat false k) = false) by (induction k; cbn; auto).
  split; [|split].
  - destruct (pred_decides f Hf args n m rows bs true Hrr Hs) as [(E & m' & A & U)|(l1 & x & l2 & m1 & m2 & E & I & A & X & U)].
    + exists m'. split; [|exact U]. rewrite E, Fa. apply A2. exact A.
    + exists m2. split; [|exact U]. rewrite (A1 l1 x l2 m1 m2 E A X). do 2 f_equal. symmetry. apply not_true_is_false. intro T. rewrite forallb_forall in T. specialize (T false I). discriminate.
  - destruct (pred_decides f Hf args n m rows bs false Hrr Hs) as [(E & m' & A & U)|(l1 & x & l2 & m1 & m2 & E & I & A & X & U)].
    + exists m'. split; [|exact U]. rewrite E, Ex. apply B2. exact A.
    + exists m2. split; [|exact U]. rewrite (B1 l1 x l2 m1 m2 E A X). do 2 f_equal. symmetry. apply existsb_exists. exists true. split; [exact I|reflexivity].
  - destruct (pred_decides f Hf args n m rows bs false Hrr Hs) as [(E & m' & A & U)|(l1 & x & l2 & m1 & m2 & E & I & A & X & U)].
    + exists m'. split; [|exact U]. rewrite E, Ex. apply N2. exact A.
    + exists m2. split; [|exact U]. rewrite (N1 l1 x l2 m1 m2 E A X). do 2 f_equal. symmetry. apply negb_false_iff, existsb_exists. exists true. split; [exact I|reflexivity].
Qed.
Print Assumptions C67_predicates.

(** The reducer works on results and does not touch the tuples. *)
Theorem C67_reduce : forall V A B (reduce : memory V -> A -> B -> memory V * outcome A) (g : A -> B -> A)
    (f : memory V -> list (element ref) -> memory V * outcome B) args n m init,
  keeps_to_arguments f -> (forall m a b, reduce m a b = (m, Ok (g a b))) -> tuples_of_size m args n ->
  exists rows, ref_rows args n rows /\
    forall bs, Forall2 (fun row b => snd (f m row) = Ok b) rows bs ->
      exists m', template_transform_reduce init reduce f (map (arg_of m) args) m = (m', Ok (fold_left g bs init)) /\
        only_rvalues_changed args m m'.
Proof.
  intros V A B reduce g f args n m init Hf Hg Hn. pose proof (size_is_common m args n Hn) as Hc.
  destruct (C36_transform_reduce _ _ _ _ reduce f _ n init m Hc) as (rows & Hr & E). pose proof (rows_are_refs m args n rows Hr) as Hrr.
  exists rows. split; [exact Hrr|]. intros bs Hs. rewrite E. clear E.
  destruct (calls_independent f Hf args m (seq 0 (length rows)) rows bs m) as (m' & C & _ & U);
    [eapply rows_pair_indices; [exact Hrr|apply rows_seq]|apply seq_NoDup|reflexivity|exact Hs|].
  exists m'. split; [|intros o Ho i; apply U; exact Ho]. clear - C Hg. revert init.
  induction C as [m|m x r m1 l rs m2 H C IH]; intro a; [reflexivity|]. cbn [fold_calls fold_left]. rewrite H, Hg. apply IH.
Qed.
Print Assumptions C67_reduce.

(** Functors that take their parameters by value keep to their arguments. *)
Theorem C67_by_value : forall V R (g : list V -> R), keeps_to_arguments (by_value g).
Proof. exact @by_value_keeps. Qed.
Print Assumptions C67_by_value.

(** Concatenation: lvalues are copied, rvalues are moved from, once. *)
Theorem C67_cat : forall V (m : memory V) args (values : list (list V)),
  Forall2 (fun a vs => nth_error m (fst a) = Some (map Some vs)) args values ->
  moved_once args -> (Z.of_nat (length (concat values)) < 2 ^ 64)%Z ->
  exists m', cat_from m args = (m', Ok (concat values)) /\
    (forall o, ~ In (o, true) args -> forall i, cell m' o i = cell m o i) /\
    (forall o vs i, In (o, true) args -> nth_error m o = Some vs -> i < length vs -> cell m' o i = Some None).
Proof.
  intros V m args values Hv Hm Hz. unfold cat_from.
  set (rss := map (fun a => refs_of m (fst a) (snd a)) args).
  assert (Lens : map (@length _) rss = map (@length V) values).
  { unfold rss. clear - Hv. induction Hv as [|[o rv] vs args values E Hv IH]; [reflexivity|]. cbn [map fst snd] in *. f_equal; [|exact IH].
    unfold refs_of. rewrite E, map_length, seq_length, map_length. reflexivity. }
  assert (Len : length (concat rss) = length (concat values)).
  { assert (G : forall X Y (a : list (list X)) (b : list (list Y)), map (@length _) a = map (@length _) b -> length (concat a) = length (concat b)).
    { clear. induction a as [|x a IH]; intros [|y b] E; try discriminate; [reflexivity|]. cbn [map concat] in *. injection E as E1 E2. rewrite !app_length, E1, (IH b E2). reflexivity. }
    apply G. exact Lens. }
  destruct (C37_cat ref rss) as [-> _]; [rewrite Len; exact Hz|].
  assert (Hcells : Forall2 (fun r v => cell m (r_obj r) (r_idx r) = Some (Some v)) (concat rss) (concat values)).
  { unfold rss. clear - Hv. induction Hv as [|[o rv] vs args values E Hv IH]; [constructor|]. cbn [map concat fst snd] in *. apply Forall2_app; [|exact IH].
    unfold refs_of. rewrite E, map_length. clear - E.
    assert (G : forall l2 l1, vs = l1 ++ l2 -> Forall2 (fun r v => cell m (r_obj r) (r_idx r) = Some (Some v)) (map (fun i => mk_ref o i rv) (seq (length l1) (length l2))) l2).
    { induction l2 as [|v l2 IH]; intros l1 Hl; [constructor|]. cbn [length seq map]. constructor.
      - cbn [r_obj r_idx]. unfold cell. rewrite E, Hl, map_app. rewrite nth_error_app2 by (rewrite map_length; lia). rewrite map_length, Nat.sub_diag. reflexivity.
      - specialize (IH (l1 ++ [v])). rewrite app_length in IH. cbn [length] in IH. rewrite Nat.add_1_r in IH. apply IH. rewrite <- app_assoc. exact Hl. }
    apply (G vs [] eq_refl). }
  assert (Pos : forall k r, nth_error (concat rss) k = Some r -> exists a, nth_error args a = Some (r_obj r, r_rvalue r) /\ k = length (concat (firstn a rss)) + r_idx r).
  { unfold rss. clear. intros k r. revert k. induction args as [|[o rv] args IH]; intros k H; [destruct k; discriminate|]. cbn [map concat fst snd] in H.
    destruct (Nat.lt_ge_cases k (length (refs_of m o rv))) as [L|G].
    - rewrite nth_error_app1 in H by exact L. apply refs_nth in H. subst r. exists 0. split; reflexivity.
    - rewrite nth_error_app2 in H by exact G. destruct (IH _ H) as (a & E1 & E2). exists (S a). split; [exact E1|]. cbn [map firstn concat fst snd]. rewrite app_length. lia. }
  destruct (construct_all_ok (concat rss) m (concat values) Hcells) as (m' & E & C).
  { intros j k o i rv Hj Hk. destruct (Pos _ _ Hj) as (a & A1 & A2). destruct (Pos _ _ Hk) as (b & B1 & B2). cbn [r_obj r_idx r_rvalue] in *.
    rewrite (Hm a b o rv A1 B1) in A2. lia. }
  exists m'. split; [exact E|]. split.
  - intros o Ho i. rewrite C. destruct (existsb _ _) eqn:X; [|reflexivity]. apply existsb_exists in X as (r & I & H). apply In_nth_error in I as [k Hk].
    destruct (Pos _ _ Hk) as (a & A1 & _). apply andb_true_iff in H as [H R]. apply andb_true_iff in H as [H _]. apply Nat.eqb_eq in H. rewrite H, R in A1.
    exfalso. apply Ho. eapply nth_error_In; eauto.
  - intros o vs i Ho Hvs Hi. rewrite C. replace (existsb _ _) with true; [reflexivity|]. symmetry. apply existsb_exists. exists (mk_ref o i true).
    split; [|cbn; rewrite !Nat.eqb_refl; reflexivity]. apply in_concat. exists (refs_of m o true). split; [apply in_map_iff; exists (o, true); auto|].
    unfold refs_of. rewrite Hvs. apply in_map_iff. exists i. split; [reflexivity|]. apply in_seq. lia.
Qed.
Print Assumptions C67_cat.

Definition ex_memory : memory Z := [[Some 1; Some 2]; [Some 3; Some 4]; []]%Z.
Example C67_example :
  let args := [MTuple 0 true; MTuple 1 false; MRangeIndex] in
  let f := by_value (fun vs => fold_left Z.add vs 0%Z) in
  tuples_of_size ex_memory args 2 /\
  array_transform (-1) f (map (arg_of ex_memory) args) ex_memory = ([[None; None]; [Some 3%Z; Some 4%Z]; []], Ok [4; 6]%Z) /\
  tuple_transform [1; 0] (-1) f (map (arg_of ex_memory) args) ex_memory = ([[None; None]; [Some 3%Z; Some 4%Z]; []], Ok [4; 6]%Z) /\
  (* taken twice in one call: reported *)
  array_transform (-1) f (map (arg_of ex_memory) [MTuple 0 true; MTuple 0 false]) ex_memory = ([[None; Some 2%Z]; [Some 3%Z; Some 4%Z]; []], UB) /\
  cat_from ex_memory [(0, true); (1, false); (2, true); (1, false)] = ([[None; None]; [Some 3%Z; Some 4%Z]; []], Ok [1; 2; 3; 4; 3; 4]%Z) /\
  moved_once [(0, true); (1, false); (2, true); (1, false)].
Proof.
  split; [|split; [|split; [|split; [|split]]]]; try reflexivity.
  - split; [exists 0, true; left; reflexivity|]. intros o rv [E|[E|[E|[]]]]; try discriminate; injection E as <- <-; eexists; split; reflexivity.
  - intros j k o rv Hj Hk. destruct j as [|[|[|[|j]]]]; cbn in Hj; try discriminate; try (destruct j; discriminate); injection Hj as <-;
      destruct k as [|[|[|[|k]]]]; cbn in Hk; try discriminate; try (destruct k; discriminate); reflexivity.
Qed.
