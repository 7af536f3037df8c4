(** C81: ranges that are rejected. *)

From Coq Require Import ZArith Arith Bool Lia List.
From Verif Require Import Base ZipModel ZipSpec ZipProofs ProtoModel ProtoSpec.
Import ListNotations.
Local Open Scope Z_scope.

(** Whether the number of elements of a range is known, and whether it is part of its type. *)
Definition sized (r : rng) : Prop := r_mode r <> MRangeIndex /\ r_known r <> KUnknown.
Definition statically (r : rng) (n : Z) : Prop := r_mode r <> MRangeIndex /\ r_known r = KStatic /\ r_len r = n.

Lemma sizes_no_bad : forall rs, (forall r, In r rs -> 0 <= r_len r) -> no_bad (map range_size rs).
Proof.
  intros rs H n Hn. apply dyns_in in Hn. apply in_map_iff in Hn. destruct Hn as (r & E & Hr). specialize (H r Hr).
  unfold range_size in E. destruct (r_mode r), (r_known r); try discriminate E; injection E as E; lia.
Qed.
Lemma conflict_differ : forall rs r1 r2 n1 n2, (forall r, In r rs -> 0 <= r_len r) -> In r1 rs -> In r2 rs -> statically r1 n1 -> statically r2 n2 -> n1 <> n2 ->
  differ (statics (map range_size rs)).
Proof.
  intros rs r1 r2 n1 n2 P H1 H2 (M1 & K1 & L1) (M2 & K2 & L2) N.
  assert (Q : forall r n, In r rs -> r_mode r <> MRangeIndex -> r_known r = KStatic -> r_len r = n -> In n (statics (map range_size rs))).
  { intros r n Hr Hm Hk Hl. apply statics_in. split; [|specialize (P r Hr); lia]. apply in_map_iff. exists r. split; [|exact Hr].
    unfold range_size. rewrite Hk, Hl. destruct (r_mode r); congruence. }
  exists n1, n2. eauto.
Qed.
Lemma unsized_none : forall rs, (forall r, In r rs -> ~ sized r) -> statics (map range_size rs) = [] /\ dyns (map range_size rs) = [].
Proof.
  induction rs as [|r rs IH]; intro H; [split; reflexivity|]. destruct (IH (fun x Hx => H x (or_intror Hx))) as [E1 E2].
  assert (E : range_size r = SStatic (-1)).
  { specialize (H r (or_introl eq_refl)). unfold sized in H. unfold range_size, unknown_size.
    destruct (r_mode r), (r_known r); try reflexivity; exfalso; apply H; split; discriminate. }
  cbn [map]. rewrite E, statics_cons, dyns_cons, E1, E2. split; reflexivity.
Qed.

(** Programs do not compile that use ranges whose sizes are known to differ at compile time; or zip ranges none of which has
    a known size; or pass nothing but indices to an algorithm.  Nothing happens in this case. *)
Theorem C81_rejected : forall env ord fuel init rs, (forall r, In r rs -> 0 <= r_len r) ->
  ((exists r1 r2 n1 n2, In r1 rs /\ In r2 rs /\ statically r1 n1 /\ statically r2 n2 /\ n1 <> n2) \/ (forall r, In r rs -> r_mode r = MRangeIndex) ->
    range_for env ord fuel rs [] = ([], IllFormed) /\ range_transform_reduce env ord fuel init rs [] = ([], IllFormed) /\
    range_count_if env ord fuel rs [] = ([], IllFormed) /\ range_all_of env ord fuel rs [] = ([], IllFormed) /\
    range_any_of env ord fuel rs [] = ([], IllFormed) /\ range_none_of env ord fuel rs [] = ([], IllFormed)) /\
  ((exists r1 r2 n1 n2, In r1 rs /\ In r2 rs /\ statically r1 n1 /\ statically r2 n2 /\ n1 <> n2) \/ (forall r, In r rs -> ~ sized r) ->
    zip_sentinel_for env ord fuel rs [] = ([], IllFormed) /\ zip_for env ord fuel rs [] = ([], IllFormed)).
Proof.
  intros env ord fuel init rs P.
  pose proof (merge_n_spec (S (length (map range_size rs))) (map range_size rs) (Nat.lt_succ_diag_r _) (sizes_no_bad rs P)) as (M1 & M2 & _).
  rewrite map_length in M1, M2. split.
  - intro H.
    assert (A : accepted rs = IllFormed).
    { unfold accepted. destruct (forallb is_range_index rs) eqn:F; [reflexivity|]. destruct H as [(r1 & r2 & n1 & n2 & H1 & H2 & S1 & S2 & N)|H].
      - rewrite M1; [reflexivity|]. exact (conflict_differ rs r1 r2 n1 n2 P H1 H2 S1 S2 N).
      - exfalso. assert (C : forallb is_range_index rs = true).
        { apply forallb_forall. intros r Hr. unfold is_range_index. rewrite (H r Hr). reflexivity. }
        congruence. }
    assert (AL : forall (A R : Type) (body : A -> list arg -> M (A + R)) a, algorithm env ord fuel body a rs [] = ([], IllFormed)).
    { intros X R body a. unfold algorithm, bindM at 1, lift. rewrite A. reflexivity. }
    unfold range_for, range_transform_reduce, range_count_if, range_all_of, range_any_of, range_none_of, bindM. rewrite !AL. repeat split.
  - intro H.
    assert (A : zip_accepted rs = IllFormed).
    { unfold zip_accepted. destruct H as [(r1 & r2 & n1 & n2 & H1 & H2 & S1 & S2 & N)|H].
      - rewrite M1; [reflexivity|]. exact (conflict_differ rs r1 r2 n1 n2 P H1 H2 S1 S2 N).
      - destruct (unsized_none rs H) as [E1 E2]. destruct (M2 false) as (d & E & G); [rewrite E1; intros a b []|discriminate|].
        rewrite E. destruct d as [n|n]; cbn in G; rewrite E1, E2 in G; cbn [bind].
        + destruct G as [[]|[-> _]]. reflexivity.
        + destruct G as [_ []]. }
    unfold zip_sentinel_for, zip_for, bindM at 1, lift. rewrite A. split; [reflexivity|]. unfold bindM at 1. reflexivity.
Qed.
Print Assumptions C81_rejected.
Example C81_rejected_example :
  let a := Build_rng MIter KStatic 2 in let b := Build_rng MIndex KStatic 3 in let c := Build_rng MPair KUnknown 2 in let i := Build_rng MRangeIndex KUnknown 0 in
  (statically a 2 /\ statically b 3) /\ (~ sized c /\ ~ sized i).
Proof. cbn. unfold statically, sized. cbn. repeat split; try discriminate; intros [H1 H2]; congruence. Qed.
