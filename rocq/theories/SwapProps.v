(** The number of swaps and draws of the rearranging algorithms: C101. *)

From Coq Require Import ZArith Arith Bool Lia Permutation List.
From Verif Require Import Base ExpandModel ExpandSpec ExpandProofs PermModel PermSpec PermProofs PermItModel PermItSpec PermItProofs SwapSpec SwapProofs.
Import ListNotations.
Local Open Scope Z_scope.

(** apply_permutation() with a permutation: every sequence of exchanges that has the same effect on distinguishable elements
    is at least as long; elements that are in place are not touched; an exception does not make the record longer. *)
Theorem C101_apply_fewest : forall St A (inv : St -> Prop) (elems : St -> list A) swap diff st idx,
  swap_operation inv elems two_damaged (Z.of_nat (length idx)) swap ->
  1 <= ity_bits diff -> int_value (ity_bits diff) (ity_signed diff) (Z.of_nat (length idx)) ->
  inv st -> length (elems st) = length idx -> is_permutation (length idx) idx ->
  exists st' l idx' o,
    it_apply_permutation (recorded swap) diff (Z.of_nat (length idx)) ((st, []), idx) = (((st', l), idx'), o) /\
    it_apply_permutation swap diff (Z.of_nat (length idx)) (st, idx) = ((st', idx'), o) /\
    (length l <= length idx - 1)%nat /\
    (forall a b, In (a, b) l -> nth_error idx (Z.to_nat a) <> Some a /\ nth_error idx (Z.to_nat b) <> Some b) /\
    (o = Ok tt \/ exists e, o = Throw e) /\
    (o = Ok tt -> forall B (es es' : list B), NoDup es -> length es = length idx -> gathered es idx es' -> fewest_exchanges (length l) es es').
Proof.
  intros St A inv elems swap diff st idx Hs Hb Hd Hv Hl Hp. apply in_ity_iff in Hd.
  destruct (apply_counts inv elems swap diff (length idx) Hs Hb Hd st idx Hv Hl Hp) as (st' & l & idx' & o & E & (E1 & E2 & E3) & X & Ho).
  exists st', l, idx', o. split; auto. split.
  { unfold it_apply_permutation in *. change st with (fst (st, @nil (Z * Z))). rewrite <- apply_outer_same, E. reflexivity. }
  split; [apply settling_bound; auto|]. split; [|split; auto].
  - intros a b Hin. unfold moves in E3. unfold in_range in E2. rewrite Forall_forall in E2, E3. specialize (E2 _ Hin). specialize (E3 _ Hin). cbn [fst snd] in *.
    unfold zget in E3. destruct (Z.ltb_spec a 0), (Z.ltb_spec b 0); try lia. auto.
  - intros Hok B es es' Hn Le Hg. eapply fewest; eauto. eapply gathered_tags; eauto.
Qed.
Print Assumptions C101_apply_fewest.

(** apply_permutation() with any indices: at most as many swaps as there are elements. *)
Theorem C101_apply_bound : forall St (swap : St -> Z -> Z -> St * outcome unit) diff st idx,
  1 <= ity_bits diff -> int_value (ity_bits diff) (ity_signed diff) (Z.of_nat (length idx)) ->
  (length (snd (fst (fst (it_apply_permutation (recorded swap) diff (Z.of_nat (length idx)) ((st, []), idx))))) <= length idx)%nat.
Proof. intros St swap diff st idx Hb Hd. apply in_ity_iff in Hd. apply apply_any_counts; auto. Qed.
Print Assumptions C101_apply_bound.

(** apply_reverse_permutation(): the same; here the bound holds for any indices, and for those that are detected to be no
    permutation. *)
Theorem C101_reverse_fewest : forall St A (inv : St -> Prop) (elems : St -> list A) swap diff st idx,
  swap_operation inv elems two_damaged (Z.of_nat (length idx)) swap ->
  1 <= ity_bits diff -> int_value (ity_bits diff) (ity_signed diff) (Z.of_nat (length idx)) ->
  inv st -> length (elems st) = length idx ->
  exists st' l idx' o,
    it_apply_reverse_permutation (recorded swap) diff (Z.of_nat (length idx)) ((st, []), idx) = (((st', l), idx'), o) /\
    it_apply_reverse_permutation swap diff (Z.of_nat (length idx)) (st, idx) = ((st', idx'), o) /\
    (length l <= length idx - 1)%nat /\
    (forall a b, In (a, b) l -> nth_error idx (Z.to_nat a) <> Some a /\ nth_error idx (Z.to_nat b) <> Some b) /\
    (o = Ok tt \/ (o = Contract /\ ~ is_permutation (length idx) idx) \/ exists e, o = Throw e) /\
    (o = Ok tt -> forall B (es es' : list B), NoDup es -> length es = length idx -> scattered es idx es' -> fewest_exchanges (length l) es es').
Proof.
  intros St A inv elems swap diff st idx Hs Hb Hd Hv Hl. apply in_ity_iff in Hd.
  destruct (reverse_counts inv elems swap diff (length idx) Hs Hb Hd st idx Hv Hl eq_refl) as (st' & l & idx' & o & E & (E1 & E2 & E3) & X & Ho).
  exists st', l, idx', o. split; auto. split.
  { unfold it_apply_reverse_permutation in *. change st with (fst (st, @nil (Z * Z))). rewrite <- reverse_outer_same, E. reflexivity. }
  split; [rewrite <- (map_length flip l); apply settling_bound; auto|]. split; [|split; auto].
  - intros a b Hin. assert (Hin' : In (b, a) (map flip l)) by (apply in_map_iff; exists (a, b); auto).
    unfold moves in E3. unfold in_range in E2. rewrite Forall_forall in E2, E3. specialize (E2 _ Hin'). specialize (E3 _ Hin'). cbn [fst snd] in *.
    unfold zget in E3. destruct (Z.ltb_spec a 0), (Z.ltb_spec b 0); try lia. tauto.
  - intros Hok B es es' Hn Le Hg. destruct (X Hok) as (Hp & t & X1 & X2). eapply fewest; eauto. eapply scattered_tags; eauto.
Qed.
Print Assumptions C101_reverse_fewest.

(** shuffle(): one draw for each element but the first, and at most one swap for each draw. *)
Theorem C101_shuffle : forall St G swap (dist : G -> Z -> Z -> G * outcome Z) n g (st : St),
  exists g' st' d l o,
    it_shuffle (recorded swap) (recorded_draws dist) (Z.of_nat n) (g, []) (st, []) = ((g', d), (st', l), o) /\
    it_shuffle swap dist (Z.of_nat n) g st = (g', st', o) /\
    (length l <= length d <= n - 1)%nat /\ d = firstn (length d) (draw_ranges (n - 1)) /\
    (o = Ok tt -> d = draw_ranges (n - 1)).
Proof.
  intros St G swap dist n g st. unfold it_shuffle. replace (Z.to_nat (Z.of_nat n - 1)) with (n - 1)%nat by lia.
  pose proof (shuffle_counts St G swap dist (n - 1) (g, []) (st, [])) as H.
  destruct (it_shuffle_loop (recorded swap) (recorded_draws dist) (n - 1) (g, []) (st, [])) as [[[g' ds] [st' l]] o].
  destruct H as (E & d & m & E1 & E2 & E3 & E4 & E5). cbn [fst snd app] in *. subst d m. exists g', st', ds, l, o. repeat split; auto; try lia.
  intro Ho. rewrite E4, E5 by auto. apply firstn_all2. assert (forall k, length (draw_ranges k) = k) as -> by (induction k; cbn; auto). lia.
Qed.
Print Assumptions C101_shuffle.

(** ** Examples *)

(** Two cycles of three and two elements and an element in place: three swaps in both directions. *)
Example C101_example :
  let idx := [2; 4; 5; 3; 1; 0] in
  let diff := mk_ity 32 true in
  is_permutation 6 idx /\
  it_apply_permutation (recorded array_swap) diff 6 (([10; 11; 12; 13; 14; 15], []), idx) =
    ((([12; 14; 15; 13; 11; 10], [(0, 2); (2, 5); (1, 4)]), [0; 1; 2; 3; 4; 5]), Ok tt) /\
  it_apply_reverse_permutation (recorded array_swap) diff 6 (([10; 11; 12; 13; 14; 15], []), idx) =
    ((([15; 14; 10; 13; 11; 12], [(0, 2); (0, 5); (1, 4)]), [0; 1; 2; 3; 4; 5]), Ok tt) /\
  fewest_exchanges 3 [10; 11; 12; 13; 14; 15] [12; 14; 15; 13; 11; 10].
Proof.
  cbn zeta. assert (Hp : is_permutation 6 [2; 4; 5; 3; 1; 0]).
  { apply nodup_range_permutation; [repeat constructor; cbn; intuition discriminate| |reflexivity].
    intros x Hx. cbn in Hx. lia. }
  split; [exact Hp|]. split; [reflexivity|]. split; [reflexivity|].
  apply (fewest _ 6 [(0, 2); (2, 5); (1, 4)] [2; 4; 5; 3; 1; 0]).
  - repeat constructor; cbn; intuition discriminate.
  - reflexivity.
  - change [2; 4; 5; 3; 1; 0] with (replay [(0, 2); (2, 5); (1, 4)] (identity 6)). apply (replay_exchanges 6). repeat constructor; cbn; lia.
  - apply (gathered_tags _ 6); auto. split; [reflexivity|]. intros i k. do 7 (destruct i as [|i]; [cbn; intro E; try discriminate; injection E; intro E'; assert (k = Z.to_nat (Z.of_nat k)) as -> by lia; rewrite <- E'; reflexivity|]).
    destruct i; cbn; discriminate.
  - left. cbn. intuition discriminate.
Qed.

(** Indices that are no permutation: three swaps before the violation is detected, one more than any permutation needs. *)
Example C101_example_violation :
  it_apply_permutation (recorded array_swap) (mk_ity 32 true) 3 (([10; 11; 12], []), [1; 2; 1]) =
    ((([11; 10; 12], [(0, 1); (1, 2); (2, 1)]), [1; 1; 2]), Contract).
Proof. reflexivity. Qed.

Example C101_example_shuffle :
  it_shuffle (recorded array_swap) (recorded_draws scripted_draws) 4 ([0; 2; 1], []) ([10; 11; 12; 13], []) =
    (([], [(0, 3); (0, 2); (0, 1)]), ([13; 11; 12; 10], [(3, 0)]), Ok tt).
Proof. reflexivity. Qed.
