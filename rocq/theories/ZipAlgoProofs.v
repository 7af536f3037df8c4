(** Proofs about range algorithms and zipped ranges as seen by their users. *)

From Coq Require Import ZArith NArith Arith Bool List Lia Permutation.
From Verif Require Import Base ExpandModel ExpandProofs ZipModel ZipSpec ZipProofs ZipLoopProofs.
Import ListNotations.

Local Open Scope Z_scope.

Lemma algorithm_total : forall St R (body : St -> list ref -> St * outcome (option R)) rs m s,
  Forall proper_range rs -> enough_known rs -> shortest_length rs m -> known_agree rs ->
  (all_length rs m -> algorithm body rs s = iterate body s (tuples rs (Z.to_nat m))) /\
  ((exists r, In r rs /\ holds_elements r /\ r_len r <> m) ->
     algorithm body rs s = match iterate body s (tuples rs (Z.to_nat m)) with (s', Ok None) => (s', Contract) | other => other end).
Proof.
  intros St R body rs m s Hp He Hm Ha.
  destruct (proj1 (algorithm_spec St R body rs m s Hp Hm) Ha) as [[_ [H1 H2]]|H].
  - exfalso. destruct He as [[r [K1 [K2 K3]]]|He]; [apply K3, H2; auto|].
    unfold index_arguments, is_range_index in H1. lia.
  - destruct H as [[H1 H2]|[H1 H2]]; split; auto.
    + intros [r [K1 [K2 K3]]]. exfalso. apply K3, H1; auto.
    + intro Hall. exfalso. destruct H1 as [r [K1 [K2 K3]]]. apply K3, Hall; auto.
Qed.

Lemma all_length_agree : forall rs n, all_length rs n -> known_agree rs.
Proof. intros rs n H r1 r2 H1 H2 H3 H4 _ _. rewrite (H r1), (H r2); auto. Qed.

(** ** range_for() *)
Section For.
  Context {S : Type}.
  Variable f : S -> list ref -> S * outcome unit.
  Let body : S -> list ref -> S * outcome (option unit) := fun s args => let '(s', o) := f s args in (s', do _ <- o; Ok None).

  Lemma iterate_call_each : forall l s,
    iterate body s l = match call_each f s l with (s', o) => (s', do _ <- o; Ok None) end.
  Proof.
    induction l as [|x l IH]; intro s; cbn [iterate call_each]; [reflexivity|]. unfold body at 1.
    destruct (f s x) as [s' [[]| | | | |]]; cbn [bind]; auto.
  Qed.

  Lemma range_for_ok : forall rs m s, Forall proper_range rs -> enough_known rs -> shortest_length rs m -> known_agree rs ->
    (all_length rs m -> range_for f rs s = call_each f s (tuples rs (Z.to_nat m))) /\
    ((exists r, In r rs /\ holds_elements r /\ r_len r <> m) -> range_for f rs s = then_fail (call_each f s (tuples rs (Z.to_nat m)))).
  Proof.
    intros rs m s Hp He Hm Ha. destruct (algorithm_total _ _ body rs m s Hp He Hm Ha) as [H1 H2].
    unfold range_for. fold body. split; intro H; [rewrite (H1 H)|rewrite (H2 H)]; rewrite iterate_call_each;
      destruct (call_each f s (tuples rs (Z.to_nat m))) as [s' [[]| | | | |]]; reflexivity.
  Qed.

  Lemma range_for_differ : forall rs m s r1 r2, Forall proper_range rs -> shortest_length rs m ->
    In r1 rs -> In r2 rs -> holds_elements r1 -> holds_elements r2 -> r_known r1 <> KUnknown -> r_known r2 <> KUnknown ->
    r_len r1 <> r_len r2 ->
    range_for f rs s = (s, IllFormed) /\
      (exists r3 r4, In r3 rs /\ In r4 rs /\ holds_elements r3 /\ holds_elements r4 /\
        r_known r3 = KStatic /\ r_known r4 = KStatic /\ r_len r3 <> r_len r4) \/
    range_for f rs s = (s, Contract).
  Proof.
    intros rs m s r1 r2 Hp Hm K1 K2 K3 K4 K5 K6 K7.
    destruct (proj2 (algorithm_spec _ _ body rs m s Hp Hm)) as [[H1 H2]|[H1 _]].
    - exists r1, r2. auto 10.
    - left. split; auto. unfold range_for. fold body. rewrite H1. reflexivity.
    - right. unfold range_for. fold body. rewrite H1. reflexivity.
  Qed.

  Lemma range_for_any : forall rs m s, Forall proper_range rs -> shortest_length rs m -> known_agree rs ->
    range_for f rs s = (s, IllFormed) \/ range_for f rs s = call_each f s (tuples rs (Z.to_nat m)) \/
    range_for f rs s = then_fail (call_each f s (tuples rs (Z.to_nat m))).
  Proof.
    intros rs m s Hp Hm Ha. unfold range_for. fold body.
    destruct (proj1 (algorithm_spec _ _ body rs m s Hp Hm) Ha) as [[H _]|[[_ H]|[_ H]]]; rewrite H; [left; reflexivity| |];
      right; rewrite iterate_call_each; [left|right]; destruct (call_each f s (tuples rs (Z.to_nat m))) as [s' [[]| | | | |]]; reflexivity.
  Qed.
End For.

(** ** Reductions *)
Section Reduce.
  Context {S A B : Type}.
  Variables (reduce : S -> A -> B -> S * outcome A) (transform : S -> list ref -> S * outcome B).

  Let body : S * A -> list ref -> (S * A) * outcome (option unit) :=
    fun '(s, result) args =>
      match transform s args with
      | (s1, Ok b) =>
          match reduce s1 result b with
          | (s2, Ok a) => ((s2, a), Ok None)
          | (s2, o) => ((s2, result), do _ <- o; Ok None)
          end
      | (s1, o) => ((s1, result), do _ <- o; Ok None)
      end.

  Lemma iterate_fold : forall l s a,
    match iterate body (s, a) l with ((s', r), o) => (s', do _ <- o; Ok r) end = fold_calls reduce transform s a l /\
    forall x, snd (iterate body (s, a) l) <> Ok (Some x).
  Proof.
    induction l as [|x l IH]; intros s a; cbn [iterate fold_calls]; [split; [reflexivity|discriminate]|].
    unfold body at 1 3. destruct (transform s x) as [s1 [b| | | | |]]; try (split; [reflexivity|intros y; cbn; discriminate]).
    destruct (reduce s1 a b) as [s2 [a'| | | | |]]; try (split; [reflexivity|intros y; cbn; discriminate]). apply IH.
  Qed.

  Lemma transform_reduce_ok : forall rs m s init, Forall proper_range rs -> enough_known rs -> shortest_length rs m -> known_agree rs ->
    (all_length rs m -> range_transform_reduce init reduce transform rs s = fold_calls reduce transform s init (tuples rs (Z.to_nat m))) /\
    ((exists r, In r rs /\ holds_elements r /\ r_len r <> m) ->
       range_transform_reduce init reduce transform rs s = then_fail (fold_calls reduce transform s init (tuples rs (Z.to_nat m)))).
  Proof.
    intros rs m s init Hp He Hm Ha. destruct (algorithm_total _ _ body rs m (s, init) Hp He Hm Ha) as [H1 H2].
    unfold range_transform_reduce. fold body. destruct (iterate_fold (tuples rs (Z.to_nat m)) s init) as [F1 F2].
    split; intro H; [rewrite (H1 H); exact F1|]. rewrite (H2 H). rewrite <- F1.
    destruct (iterate body (s, init) (tuples rs (Z.to_nat m))) as [[s' r] [[x|]| | | | |]]; try reflexivity.
    exfalso. apply (F2 x). reflexivity.
  Qed.
End Reduce.

Lemma algorithm_ext : forall St R (b1 b2 : St -> list ref -> St * outcome (option R)) rs s, (forall s x, b1 s x = b2 s x) ->
  algorithm b1 rs s = algorithm b2 rs s.
Proof.
  intros St R b1 b2 rs s E.
  assert (E2 : forall fuel at_end it st, zip_loop b1 fuel at_end it st = zip_loop b2 fuel at_end it st).
  { induction fuel as [|fuel IH]; intros at_end it st; [reflexivity|]. cbn [zip_loop].
    destruct (at_end it) as [[]| | | | |]; auto. destruct (zip_deref it); auto. rewrite E.
    destruct (b2 st a) as [s' [[x|]| | | | |]]; auto. destruct (zip_inc it); auto. }
  unfold algorithm. destruct (algorithm_size rs); auto.
Qed.

Lemma count_if_eq : forall S (pred : S -> list ref -> S * outcome bool) rs s,
  range_count_if pred rs s = range_transform_reduce 0 (fun s a b => (s, Ok (a + Z.b2z b))) pred rs s.
Proof.
  intros. unfold range_count_if, range_transform_reduce. erewrite algorithm_ext; [reflexivity|].
  intros [s0 r] args. cbn. destruct (pred s0 args) as [s1 [b| | | | |]]; try reflexivity.
  destruct b; cbn; rewrite ?Z.add_0_r; reflexivity.
Qed.

Lemma fold_count : forall S (pred : S -> list ref -> S * outcome bool) l s bs s' a, answers pred s l bs s' ->
  fold_calls (fun s a b => (s, Ok (a + Z.b2z b))) pred s a l = (s', Ok (a + Z.of_nat (count_occ Bool.bool_dec bs true))).
Proof.
  intros S pred l s bs s' a H. revert a. induction H as [s|s x b s1 l bs s2 Hp H IH]; intro a; cbn [fold_calls count_occ].
  - cbn. rewrite Z.add_0_r. reflexivity.
  - rewrite Hp. rewrite IH. f_equal. f_equal. destruct b; cbn [Z.b2z]; destruct (bool_dec _ _); try congruence; lia.
Qed.

Lemma range_reduce_ok : forall S A (reduce : S -> A -> ref -> S * outcome A) r s init, holds_elements r ->
  range_reduce init reduce r s =
    fold_calls reduce (fun s x => (s, Ok x)) s init (map (fun j => RElem 0 (Z.of_nat j)) (seq 0 (Z.to_nat (r_len r)))).
Proof.
  intros S A reduce r s init Hh. unfold range_reduce, is_range_index. unfold holds_elements in Hh.
  replace (match r_mode r with MRangeIndex => true | _ => false end) with false by (destruct (r_mode r); auto; congruence).
  assert (H : forall n p s a, range_reduce_loop n (Z.of_nat p) a reduce s =
    fold_calls reduce (fun s x => (s, Ok x)) s a (map (fun j => RElem 0 (Z.of_nat j)) (seq p n))).
  { induction n as [|n IH]; intros p s0 a; cbn [range_reduce_loop seq map fold_calls]; [reflexivity|].
    destruct (reduce s0 a (RElem 0 (Z.of_nat p))) as [s1 [a'| | | | |]]; auto.
    replace (Z.of_nat p + 1) with (Z.of_nat (Datatypes.S p)) by lia. apply IH. }
  apply (H _ 0%nat).
Qed.

(** ** Predicates *)
Section Pred.
  Context {S : Type}.
  Variable pred : S -> list ref -> S * outcome bool.

  (** The three algorithms stop on [stop] with the given results. *)
  Definition stopping (stop early : bool) : S -> list ref -> S * outcome (option bool) :=
    fun s args => let '(s', o) := pred s args in (s', do b <- o; if Bool.eqb b stop then Ok (Some early) else Ok None).

  Lemma iterate_prefix : forall stop early l1 s s1, answers pred s l1 (repeat (negb stop) (length l1)) s1 ->
    forall l2, iterate (stopping stop early) s (l1 ++ l2) = iterate (stopping stop early) s1 l2.
  Proof.
    intros stop early. induction l1 as [|x l1 IH]; intros s s1 H l2; cbn [length repeat] in H; inversion H; subst; [reflexivity|].
    cbn [app iterate]. unfold stopping at 1.
    match goal with H : pred s x = _ |- _ => rewrite H end. cbn [bind].
    replace (Bool.eqb (negb stop) stop) with false by (destruct stop; reflexivity). apply IH. auto.
  Qed.

  Variables (rs : list rng) (m : Z).
  Hypothesis Hp : Forall proper_range rs.
  Hypothesis He : enough_known rs.
  Hypothesis Hm : shortest_length rs m.
  Hypothesis Ha : known_agree rs.

  Lemma stopping_stops : forall stop early s l1 x l2 s1 s2, tuples rs (Z.to_nat m) = l1 ++ x :: l2 ->
    answers pred s l1 (repeat (negb stop) (length l1)) s1 -> pred s1 x = (s2, Ok stop) ->
    algorithm (stopping stop early) rs s = (s2, Ok (Some early)).
  Proof.
    intros stop early s l1 x l2 s1 s2 Ht H1 H2.
    assert (Hi : iterate (stopping stop early) s (tuples rs (Z.to_nat m)) = (s2, Ok (Some early))).
    { rewrite Ht, (iterate_prefix _ _ _ _ _ H1). cbn [iterate]. unfold stopping at 1. rewrite H2. cbn [bind].
      replace (Bool.eqb stop stop) with true by (destruct stop; reflexivity). reflexivity. }
    destruct (proj1 (algorithm_spec _ _ (stopping stop early) rs m s Hp Hm) Ha) as [[_ [G1 G2]]|[[_ G]|[_ G]]].
    - exfalso. destruct He as [[r [K1 [K2 K3]]]|He']; [apply K3, G2; auto|]. unfold index_arguments, is_range_index in G1. lia.
    - rewrite G. exact Hi.
    - rewrite G, Hi. reflexivity.
  Qed.

  Lemma stopping_fails : forall stop early s l1 x l2 s1 s2 o, tuples rs (Z.to_nat m) = l1 ++ x :: l2 ->
    answers pred s l1 (repeat (negb stop) (length l1)) s1 -> pred s1 x = (s2, o) -> (forall b, o <> Ok b) ->
    algorithm (stopping stop early) rs s = (s2, do _ <- o; Ok None).
  Proof.
    intros stop early s l1 x l2 s1 s2 o Ht H1 H2 Ho.
    assert (Hi : iterate (stopping stop early) s (tuples rs (Z.to_nat m)) = (s2, do _ <- o; Ok None)).
    { rewrite Ht, (iterate_prefix _ _ _ _ _ H1). cbn [iterate]. unfold stopping at 1. rewrite H2.
      destruct o; cbn [bind]; try reflexivity. exfalso. apply (Ho a). reflexivity. }
    destruct (proj1 (algorithm_spec _ _ (stopping stop early) rs m s Hp Hm) Ha) as [[_ [G1 G2]]|[[_ G]|[_ G]]].
    - exfalso. destruct He as [[r [K1 [K2 K3]]]|He']; [apply K3, G2; auto|]. unfold index_arguments, is_range_index in G1. lia.
    - rewrite G. exact Hi.
    - rewrite G, Hi. destruct o; cbn [bind]; try reflexivity. exfalso. apply (Ho a). reflexivity.
  Qed.

  Lemma stopping_never : forall stop early s s1, answers pred s (tuples rs (Z.to_nat m)) (repeat (negb stop) (Z.to_nat m)) s1 ->
    (all_length rs m -> algorithm (stopping stop early) rs s = (s1, Ok None)) /\
    ((exists r, In r rs /\ holds_elements r /\ r_len r <> m) -> algorithm (stopping stop early) rs s = (s1, Contract)).
  Proof.
    intros stop early s s1 H.
    assert (Hi : iterate (stopping stop early) s (tuples rs (Z.to_nat m)) = (s1, Ok None)).
    { assert (Hl : length (tuples rs (Z.to_nat m)) = Z.to_nat m) by (unfold tuples; rewrite map_length, seq_length; reflexivity).
      rewrite <- Hl in H at 2. rewrite <- (app_nil_r (tuples rs (Z.to_nat m))), (iterate_prefix _ _ _ _ _ H). reflexivity. }
    destruct (algorithm_total _ _ (stopping stop early) rs m s Hp He Hm Ha) as [G1 G2].
    split; intro K; [rewrite (G1 K)|rewrite (G2 K)]; rewrite Hi; reflexivity.
  Qed.
End Pred.

Lemma all_of_stopping : forall S (pred : S -> list ref -> S * outcome bool) rs s,
  range_all_of pred rs s = (let '(s', o) := algorithm (stopping pred false false) rs s in (s', do r <- o; match r with Some b => Ok b | None => Ok true end)).
Proof.
  intros. unfold range_all_of. rewrite (algorithm_ext _ _ _ (stopping pred false false)); [reflexivity|].
  intros s0 x. unfold stopping. destruct (pred s0 x) as [s1 [[]| | | | |]]; reflexivity.
Qed.
Lemma any_of_stopping : forall S (pred : S -> list ref -> S * outcome bool) rs s,
  range_any_of pred rs s = (let '(s', o) := algorithm (stopping pred true true) rs s in (s', do r <- o; match r with Some b => Ok b | None => Ok false end)).
Proof.
  intros. unfold range_any_of. rewrite (algorithm_ext _ _ _ (stopping pred true true)); [reflexivity|].
  intros s0 x. unfold stopping. destruct (pred s0 x) as [s1 [[]| | | | |]]; reflexivity.
Qed.
Lemma none_of_stopping : forall S (pred : S -> list ref -> S * outcome bool) rs s,
  range_none_of pred rs s = (let '(s', o) := algorithm (stopping pred true false) rs s in (s', do r <- o; match r with Some b => Ok b | None => Ok true end)).
Proof.
  intros. unfold range_none_of. rewrite (algorithm_ext _ _ _ (stopping pred true false)); [reflexivity|].
  intros s0 x. unfold stopping. destruct (pred s0 x) as [s1 [[]| | | | |]]; reflexivity.
Qed.

(** ** range_zip() *)
Section Zip.
  Variables (rs : list rng) (n : Z).
  Hypothesis Hp : Forall proper_range rs.
  Hypothesis Hall : all_length rs n.
  Hypothesis Hk : exists r, In r rs /\ holds_elements r /\ r_known r <> KUnknown.

  Lemma range_zip_ok : exists d, range_zip rs = Ok (d, rs) /\ dim_value d = n /\ 0 <= n.
  Proof.
    destruct Hk as [r [H1 [H2 H3]]]. destruct (merge_ranges_agree rs Hp (all_length_agree rs n Hall) r H1 H2 H3) as [d [E1 E2]].
    unfold range_zip. rewrite E1. cbn [bind]. rewrite (Hall r H1 H2) in E2.
    assert (0 <= n) by (rewrite <- (Hall r H1 H2); apply (proj1 (Forall_forall _ _) Hp r H1)).
    destruct d as [k|k]; cbn in E2; subst k; [|exists (SDyn n); auto].
    unfold unknown_size. destruct (Z.eqb_spec n (-1)); [lia|]. exists (SStatic n). auto.
  Qed.

  Lemma in_range : forall r, In r rs -> holds_elements r -> Z.of_nat (Z.to_nat n) <= r_len r.
  Proof. intros r Hr Hh. destruct range_zip_ok as [_ [_ [_ Hn]]]. rewrite (Hall r Hr Hh). lia. Qed.

  Lemma zip_traverse_ok : forall St R (body : St -> list ref -> St * outcome (option R)) d s, dim_value d = n -> 0 <= n ->
    zip_traverse body (d, rs) s = iterate body s (tuples rs (Z.to_nat n)).
  Proof.
    intros St R body d s Hd Hn. unfold zip_traverse, zip_size, zip_range_begin, zip_common_end. cbn [fst snd]. rewrite Hd.
    rewrite iter_at_begin. change 0 with (Z.of_nat 0).
    rewrite (zip_loop_spec body rs (Z.to_nat n)) with (last := Ok None) (k := Z.to_nat n); try lia.
    - unfold span_of. fold (tuples rs (Z.to_nat n)). destruct (iterate body s (tuples rs (Z.to_nat n))) as [s' [[x|]| | | | |]]; auto.
    - apply in_range.
    - intros j Hj. unfold zip_eqb, iter_at, zip_end. cbn [z_i]. rewrite Hd. f_equal. apply Z.eqb_neq. lia.
    - left. split; auto. unfold zip_eqb, iter_at, zip_end. cbn [z_i]. rewrite Hd. f_equal. apply Z.eqb_eq. lia.
  Qed.

  Lemma zip_sentinel_traverse_ok : forall St R (body : St -> list ref -> St * outcome (option R)) d s, dim_value d = n -> 0 <= n ->
    zip_sentinel_traverse body (d, rs) s = iterate body s (tuples rs (Z.to_nat n)).
  Proof.
    intros St R body d s Hd Hn. unfold zip_sentinel_traverse, zip_size, zip_range_begin. cbn [fst snd]. rewrite Hd.
    rewrite iter_at_begin. change 0 with (Z.of_nat 0).
    assert (Hs : forall it, sentinel_is_end d it = (let isEnd := z_i it =? n in do _ <- zip_check_end isEnd it; Ok isEnd)).
    { intro it. unfold sentinel_is_end. destruct d as [k|k]; cbn in Hd; subst k; [|reflexivity].
      unfold unknown_size. destruct (Z.eqb_spec n (-1)); [lia|reflexivity]. }
    assert (Hpair : forall r, In r rs -> r_mode r = MPair -> r_len r = n).
    { intros r Hr Em. apply Hall; auto. unfold holds_elements. congruence. }
    rewrite (zip_loop_spec body rs (Z.to_nat n)) with (last := Ok None) (k := Z.to_nat n); try lia.
    - unfold span_of. fold (tuples rs (Z.to_nat n)). destruct (iterate body s (tuples rs (Z.to_nat n))) as [s' [[x|]| | | | |]]; auto.
    - apply in_range.
    - intros j Hj. rewrite Hs. cbn [z_i iter_at]. destruct (Z.eqb_spec j n); [lia|]. cbn zeta. rewrite check_end_ok; [reflexivity|].
      intros r Hr Em. rewrite (Hpair r Hr Em). apply Z.eqb_neq. auto.
    - left. split; auto. rewrite Hs. cbn [z_i iter_at]. destruct (Z.eqb_spec (Z.of_nat (Z.to_nat n)) n) as [E|E]; [|lia]. cbn zeta.
      rewrite check_end_ok; [reflexivity|]. intros r Hr Em. rewrite (Hpair r Hr Em). apply Z.eqb_eq. auto.
  Qed.

  (** ** Iterator laws *)
  Lemma reach_at : forall it k, reach (zip_begin rs) n it k -> it = iter_at rs k /\ 0 <= k <= n.
  Proof.
    destruct range_zip_ok as [_ [_ [_ Hn]]].
    induction 1 as [|it k d it' H [-> IH] Hb Hd]; [split; [apply iter_at_begin|lia]|].
    rewrite zip_advance_at in Hd; [injection Hd as <-; auto|]. intros r Hr Hh. rewrite (Hall r Hr Hh). auto.
  Qed.

  Lemma reach_advance : forall it k d, reach (zip_begin rs) n it k -> 0 <= k + d <= n ->
    exists it', zip_advance it d = Ok it' /\ reach (zip_begin rs) n it' (k + d).
  Proof.
    intros it k d H Hb. destruct (reach_at it k H) as [-> Hk']. exists (iter_at rs (k + d)).
    assert (E : zip_advance (iter_at rs k) d = Ok (iter_at rs (k + d))).
    { apply zip_advance_at. intros r Hr Hh. rewrite (Hall r Hr Hh). auto. }
    split; auto. eapply reach_move; eauto.
  Qed.

  Lemma reach_subscript : forall it k d, reach (zip_begin rs) n it k -> 0 <= k + d < n -> zip_subscript it d = Ok (tuple_at rs (k + d)).
  Proof.
    intros it k d H Hb. destruct (reach_at it k H) as [-> Hk']. apply zip_subscript_at. intros r Hr Hh. rewrite (Hall r Hr Hh). auto.
  Qed.

  Lemma reach_diff : forall a i b j, reach (zip_begin rs) n a i -> reach (zip_begin rs) n b j ->
    zip_diff a b = i - j /\ zip_eqb a b = (i =? j) /\ zip_ltb a b = (i <? j).
  Proof. intros a i b j H1 H2. destruct (reach_at a i H1) as [-> _]. destruct (reach_at b j H2) as [-> _]. auto. Qed.

  Lemma end_at : (forall r, In r rs -> r_mode r <> MIter) -> forall d, dim_value d = n -> zip_end d rs = iter_at rs n.
  Proof.
    intros Hni d Hd. unfold zip_end, iter_at. rewrite Hd. f_equal. apply mapi_ext. intros i r Hr.
    unfold leaf_end, leaf_at, leaf_begin, set_pos. specialize (Hni r Hr). destruct (r_mode r) eqn:E; cbn; try congruence; try reflexivity.
    rewrite (Hall r Hr) by (unfold holds_elements; congruence). reflexivity.
  Qed.
End Zip.

(** ** Iterator categories *)
Definition masks : list N := [0; 1; 3; 7; 15; 4294967295]%N.

Lemma cbitand_masks : forall l acc, In acc masks -> (forall x, In x l -> In x masks) ->
  In (fold_left N.land l acc) masks /\
  forall k, In k [1; 2; 4; 8]%N -> (N.land (fold_left N.land l acc) k = k <-> N.land acc k = k /\ forall x, In x l -> N.land x k = k).
Proof.
  induction l as [|x l IH]; intros acc Ha Hl; cbn [fold_left].
  - split; auto. intros k Hk. split; [intro H; split; auto; intros x []|tauto].
  - assert (Hx := Hl x (or_introl eq_refl)).
    assert (Hi : In (N.land acc x) masks).
    { unfold masks in *. cbn [In] in Ha, Hx.
      repeat (destruct Ha as [<-|Ha]; [repeat (destruct Hx as [<-|Hx]; [cbn; tauto|]); destruct Hx|]); destruct Ha. }
    destruct (IH (N.land acc x) Hi (fun y Hy => Hl y (or_intror Hy))) as [H1 H2]. split; auto.
    intros k Hk. rewrite (H2 k Hk).
    assert (E : N.land (N.land acc x) k = k <-> N.land acc k = k /\ N.land x k = k).
    { unfold masks in *. cbn [In] in Ha, Hx, Hk.
      repeat (destruct Hk as [<-|Hk]; [repeat (destruct Ha as [<-|Ha]; [repeat (destruct Hx as [<-|Hx]; [cbn; intuition discriminate|]); destruct Hx|]); destruct Ha|]); destruct Hk. }
    rewrite E. split.
    + intros [[G1 G2] G3]. split; auto. intros y [<-|Hy]; auto.
    + intros [G1 G3]. split; [split; auto; apply G3; left; auto|]. intros y Hy. apply G3. right; auto.
Qed.

Lemma fill_mask_in : forall c, In (fill_mask (input_bit c)) masks /\ In (fill_mask (output_bit c)) masks.
Proof. intros []; cbn; tauto. Qed.

(** Bit [k] of the combined mask. *)
Definition cat_bit (c : category) : N := match c with CInput => 1 | CForward => 2 | CBidirectional => 4 | CRandomAccess => 8 | COutput => 1 end%N.

Lemma provides_bit : forall c d, d <> COutput -> (N.land (fill_mask (input_bit c)) (cat_bit d) = cat_bit d <-> provides c d).
Proof. intros [] [] H; cbn; try congruence; intuition discriminate. Qed.
Lemma provides_out : forall c, (N.land (fill_mask (output_bit c)) 1 = 1)%N <-> provides c COutput.
Proof. intros []; cbn; intuition discriminate. Qed.

Lemma common_tag_ok : forall cs, cs <> [] -> exists ic oc, common_iterator_tag cs = Ok (ic, oc) /\
  (forall d, d <> COutput -> ((exists c, ic = Some c /\ provides c d) <-> forall c, In c cs -> provides c d)) /\
  ic <> Some COutput /\
  (oc = true <-> forall c, In c cs -> provides c COutput).
Proof.
  intros cs Hne. unfold common_iterator_tag, cbitand.
  assert (Hmax : In (2 ^ 32 - 1)%N masks) by (cbn; tauto).
  set (mi := fold_left N.land (map (fun c => fill_mask (input_bit c)) cs) (2 ^ 32 - 1)%N).
  set (mo := fold_left N.land (map (fun c => fill_mask (output_bit c)) cs) (2 ^ 32 - 1)%N).
  destruct (cbitand_masks (map (fun c => fill_mask (input_bit c)) cs) (2 ^ 32 - 1)%N Hmax) as [I1 I2].
  { intros x Hx. apply in_map_iff in Hx as [c [<- _]]. apply fill_mask_in. }
  destruct (cbitand_masks (map (fun c => fill_mask (output_bit c)) cs) (2 ^ 32 - 1)%N Hmax) as [O1 O2].
  { intros x Hx. apply in_map_iff in Hx as [c [<- _]]. apply fill_mask_in. }
  fold mi in I1, I2. fold mo in O1, O2.
  assert (Hin : forall d, d <> COutput -> (N.land mi (cat_bit d) = cat_bit d <-> forall c, In c cs -> provides c d)).
  { intros d Hd. rewrite (I2 (cat_bit d)) by (destruct d; cbn; tauto). split.
    - intros [_ H] c Hc. apply (provides_bit c d Hd). apply H. apply in_map_iff. eauto.
    - intro H. split; [destruct d; reflexivity|]. intros x Hx. apply in_map_iff in Hx as [c [<- Hc]]. apply provides_bit; auto. }
  assert (Hout : (N.land mo 1 = 1)%N <-> forall c, In c cs -> provides c COutput).
  { rewrite (O2 1%N) by (cbn; tauto). split.
    - intros [_ H] c Hc. apply provides_out. apply H. apply in_map_iff. eauto.
    - intro H. split; [reflexivity|]. intros x Hx. apply in_map_iff in Hx as [c [<- Hc]]. apply provides_out; auto. }
  (* the masks are those of categories since there is at least one range *)
  destruct cs as [|c0 cs]; [congruence|].
  assert (Hmi : In mi [0; 1; 3; 7; 15]%N).
  { unfold mi. cbn [map fold_left].
    assert (G : forall l acc, In acc [0; 1; 3; 7; 15]%N -> (forall x, In x l -> In x [0; 1; 3; 7; 15]%N) -> In (fold_left N.land l acc) [0; 1; 3; 7; 15]%N).
    { induction l as [|x l IH]; intros acc Ha Hl; cbn [fold_left]; auto. apply IH; [|intros y Hy; apply Hl; right; auto].
      assert (Hx := Hl x (or_introl eq_refl)). cbn [In] in Ha, Hx.
      repeat (destruct Ha as [<-|Ha]; [repeat (destruct Hx as [<-|Hx]; [cbn; tauto|]); destruct Hx|]); destruct Ha. }
    apply G; [destruct c0; cbn; tauto|]. intros x Hx. apply in_map_iff in Hx as [[] [<- _]]; cbn; tauto. }
  assert (Hmo : In mo [0; 1]%N).
  { unfold mo. cbn [map fold_left].
    assert (G : forall l acc, In acc [0; 1]%N -> (forall x, In x l -> In x [0; 1]%N) -> In (fold_left N.land l acc) [0; 1]%N).
    { induction l as [|x l IH]; intros acc Ha Hl; cbn [fold_left]; auto. apply IH; [|intros y Hy; apply Hl; right; auto].
      assert (Hx := Hl x (or_introl eq_refl)). cbn [In] in Ha, Hx.
      repeat (destruct Ha as [<-|Ha]; [repeat (destruct Hx as [<-|Hx]; [cbn; tauto|]); destruct Hx|]); destruct Ha. }
    apply G; [destruct c0; cbn; tauto|]. intros x Hx. apply in_map_iff in Hx as [[] [<- _]]; cbn; tauto. }
  clearbody mi mo. clear I1 I2 O1 O2.
  assert (Hic : exists i ic, bit_width mi = Ok i /\
    match i with 0 => Ok None | 1 => Ok (Some CInput) | 2 => Ok (Some CForward) | 3 => Ok (Some CBidirectional) | 4 => Ok (Some CRandomAccess) | _ => IllFormed end%N = Ok ic /\
    ic <> Some COutput /\ forall d, d <> COutput -> ((exists c, ic = Some c /\ provides c d) <-> N.land mi (cat_bit d) = cat_bit d)).
  { cbn [In] in Hmi.
    destruct Hmi as [<-|[<-|[<-|[<-|[<-|[]]]]]]; [exists 0%N, None|exists 1%N, (Some CInput)|exists 2%N, (Some CForward)|exists 3%N, (Some CBidirectional)|exists 4%N, (Some CRandomAccess)];
      (split; [reflexivity|]); (split; [reflexivity|]); (split; [discriminate|]);
      intros [] Hd; cbn; try congruence; split; try discriminate;
      try (intros [c [E P]]; injection E as <-; cbn in P; tauto); try (intros [c [E P]]; discriminate);
      try (intros _; eexists; split; [reflexivity|exact I]); try (intro; discriminate); try reflexivity. }
  assert (Hoc : exists o oc, bit_width mo = Ok o /\ match o with 0 => Ok false | 1 => Ok true | _ => IllFormed end%N = Ok oc /\ (oc = true <-> N.land mo 1 = 1%N)).
  { cbn [In] in Hmo. destruct Hmo as [<-|[<-|[]]]; [exists 0%N, false|exists 1%N, true]; (split; [reflexivity|]); (split; [reflexivity|]); cbn; intuition discriminate. }
  destruct Hic as [i [ic [E1 [E2 [Hno Hic]]]]]. destruct Hoc as [o [oc [E3 [E4 Hoc]]]].
  exists ic, oc. rewrite E1. cbn [bind]. rewrite E3. cbn [bind]. rewrite E2. cbn [bind]. rewrite E4. cbn [bind].
  split; [reflexivity|]. split; [|split; auto].
  - intros d Hd. rewrite (Hic d Hd). apply Hin; auto.
  - rewrite Hoc. auto.
Qed.

(** ** Generators *)
Lemma arr_set_ok : forall A (l : list A) p x, (p < length l)%nat -> arr_set l p x = Ok (upd l p x).
Proof. intros A l p x H. unfold arr_set. destruct (Nat.ltb_spec p (length l)); [reflexivity|lia]. Qed.

Lemma upd_app : forall A (l r : list A) x y, upd (l ++ x :: r) (length l) y = l ++ y :: r.
Proof. induction l as [|a l IH]; intros r x y; cbn; [reflexivity|]. rewrite IH. reflexivity. Qed.

Lemma range_iota_loop_ok : forall A T (inc : T -> outcome T) (conv : T -> A) (v : nat -> T) (todo done : list A) i,
  (forall k, (i <= k < i + length todo)%nat -> inc (v k) = Ok (v (S k))) ->
  range_iota_loop (length todo) (length done) inc conv (v i) (done ++ todo) = Ok (done ++ map (fun k => conv (v k)) (seq i (length todo))).
Proof.
  intros A T inc conv v. induction todo as [|x todo IH]; intros done i H; cbn [length range_iota_loop seq map]; [rewrite app_nil_r; reflexivity|].
  rewrite H by (cbn; lia). cbn [bind]. rewrite arr_set_ok by (rewrite app_length; cbn; lia). cbn [bind]. rewrite upd_app.
  replace (done ++ conv (v i) :: todo) with ((done ++ [conv (v i)]) ++ todo) by (rewrite <- app_assoc; reflexivity).
  replace (S (length done)) with (length (done ++ [conv (v i)])) by (rewrite app_length; cbn; lia).
  rewrite IH; [rewrite <- app_assoc; reflexivity|]. intros k Hk. apply H. cbn. lia.
Qed.

Lemma range_iota_ok : forall A T (inc : T -> outcome T) (conv : T -> A) (v : nat -> T) elems,
  (forall k, (k < length elems)%nat -> inc (v k) = Ok (v (S k))) ->
  range_iota inc conv elems (v 0%nat) = Ok (map (fun k => conv (v k)) (seq 0 (length elems))).
Proof. intros A T inc conv v elems H. apply (range_iota_loop_ok A T inc conv v elems [] 0). intros k Hk. apply H. lia. Qed.

Lemma range_fill_ok : forall A (elems : list A) v, range_fill elems v = Ok (repeat v (length elems)).
Proof.
  intros A elems v.
  assert (H : forall (todo done : list A), range_fill_loop (length todo) (length done) v (done ++ todo) = Ok (done ++ repeat v (length todo))).
  { induction todo as [|x todo IH]; intro done; cbn [length range_fill_loop repeat]; [rewrite app_nil_r; reflexivity|].
    rewrite arr_set_ok by (rewrite app_length; cbn; lia). cbn [bind]. rewrite upd_app.
    replace (done ++ v :: todo) with ((done ++ [v]) ++ todo) by (rewrite <- app_assoc; reflexivity).
    replace (S (length done)) with (length (done ++ [v])) by (rewrite app_length; cbn; lia).
    rewrite IH, <- app_assoc. reflexivity. }
  apply (H elems []).
Qed.

Section Generate.
  Context {A S : Type}.
  Variable gen : S -> S * outcome A.

  Lemma generate_loop_ok : forall s vs s', generated gen s vs s' -> forall done todo, (length vs <= length todo)%nat ->
    range_generate_loop (length todo) (length done) gen s (done ++ todo) =
    range_generate_loop (length todo - length vs) (length done + length vs) gen s' (done ++ vs ++ skipn (length vs) todo).
  Proof.
    induction 1 as [s|s v s1 vs s' Hg H IH]; intros done todo Hl.
    - cbn. rewrite Nat.sub_0_r, Nat.add_0_r. reflexivity.
    - destruct todo as [|x todo]; [cbn in Hl; lia|]. cbn [length range_generate_loop]. rewrite Hg.
      rewrite arr_set_ok by (rewrite app_length; cbn; lia). rewrite upd_app.
      replace (done ++ v :: todo) with ((done ++ [v]) ++ todo) by (rewrite <- app_assoc; reflexivity).
      replace (Datatypes.S (length done)) with (length (done ++ [v])) by (rewrite app_length; cbn; lia).
      rewrite IH by (cbn in Hl; lia). rewrite app_length. cbn [length Nat.sub].
      replace (length done + 1 + length vs)%nat with (length done + Datatypes.S (length vs))%nat by lia.
      f_equal. rewrite <- app_assoc. reflexivity.
  Qed.

  Lemma range_generate_ok : forall s vs s' elems, generated gen s vs s' -> length vs = length elems ->
    range_generate gen elems s = (s', vs, Ok tt).
  Proof.
    intros s vs s' elems H Hl. unfold range_generate.
    assert (E := generate_loop_ok s vs s' H [] elems ltac:(lia)). cbn [length app] in E. rewrite E. rewrite Hl, Nat.sub_diag. cbn.
    rewrite <- Hl, skipn_all2 by lia. rewrite app_nil_r. reflexivity.
  Qed.

  Lemma range_generate_throws : forall s vs s' s'' e elems, generated gen s vs s' -> (length vs < length elems)%nat ->
    gen s' = (s'', Throw e) -> range_generate gen elems s = (s'', vs ++ skipn (length vs) elems, Throw e).
  Proof.
    intros s vs s' s'' e elems H Hl Hg. unfold range_generate.
    assert (E := generate_loop_ok s vs s' H [] elems ltac:(lia)). cbn [length app] in E. rewrite E. clear E.
    destruct (length elems - length vs)%nat as [|k] eqn:E; [lia|]. cbn [range_generate_loop]. rewrite Hg. reflexivity.
  Qed.
End Generate.
