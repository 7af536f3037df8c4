(** C86: constval_range_to_array() puts all elements of the range into an array of that size. *)

From Coq Require Import ZArith Arith Bool Lia List.
From Verif Require Import Base ToArrayModel ToArraySpec ToArrayProofs.
Import ListNotations.

(** Whatever the range does: if there is a result, its length is what the range says at compile time, and it starts with the
    elements of the range. *)
Theorem C86_result : forall (A T : Type) (default : option T) (assign : A -> outcome T) projected transportable constructible constant out,
  range_to_array default assign projected transportable constructible constant = Ok out <->
  transportable = true /\ constructible = true /\
  exists r0 r N d, projected true = Ok r0 /\ size_of r0 = Some N /\ default = Some d /\ projected constant = Ok r /\
    length (yields r) <= N /\ length out = N /\ holds assign d (yields r) out.
Proof.
  intros. unfold range_to_array. split.
  - destruct transportable; [|discriminate]. destruct constructible; [|discriminate]. intros H. split; [reflexivity|]. split; [reflexivity|].
    destruct (projected true) as [r0| | | | |] eqn:E0; try discriminate. cbn [constexpr_init bind] in H.
    destruct (size_of r0) as [N|] eqn:ES; [|discriminate].
    assert (H' : (do r <- projected constant; range_to_array_impl default assign N r) = Ok out).
    { destruct constant; [|assumption]. destruct (do r <- projected true; range_to_array_impl default assign N r); cbn in H; congruence. }
    apply bind_ok_inv in H'. destruct H' as [r [Hr H']]. unfold range_to_array_impl in H'.
    destruct default as [d|]; [|discriminate]. rewrite copy_to_result in H'. apply holds_iff in H'.
    exists r0, r, N, d. repeat (split; [auto|]); apply H'.
  - intros [-> [-> [r0 [r [N [d [E0 [ES [-> [Er H]]]]]]]]]]. rewrite E0. cbn [constexpr_init bind]. rewrite ES, Er. cbn [bind].
    unfold range_to_array_impl. apply holds_iff in H. apply copy_to_result in H. rewrite H. destruct constant; reflexivity.
Qed.
Print Assumptions C86_result.

(** If the same range is obtained at compile time and at run time, and its size() is right, then the array holds exactly the
    elements, in order; nothing but the conversion of elements (at run time) can fail. *)
Theorem C86_elements : forall (A T : Type) (d : T) (assign : A -> outcome T) projected r constant,
  projected true = Ok r -> projected false = Ok r -> honest r ->
  range_to_array (Some d) assign projected true true constant =
    let result := mapM assign (yields r) in if constant then constexpr_init result else result.
Proof.
  intros A T d assign projected r constant H1 H2 Hh. unfold range_to_array. rewrite H1. cbn [constexpr_init bind]. rewrite Hh.
  assert (E : projected constant = Ok r) by (destruct constant; assumption). rewrite E. cbn [bind]. unfold range_to_array_impl.
  pose proof (copy_to_exact _ _ assign d (yields r) [] (length (yields r)) (Nat.le_refl _)) as C. cbn [length app] in C. rewrite C.
  rewrite Nat.sub_diag. cbn [repeat].
  destruct (mapM assign (yields r)) as [xs| | | | |]; cbn [bind]; rewrite ?app_nil_r; reflexivity.
Qed.
Print Assumptions C86_elements.
Definition three : rng nat := mk_rng [4; 5; 6] (Some 3).
Example C86_elements_example : honest three /\
  range_to_array (Some 0) (fun a => Ok (a * 2)) (fun _ => Ok three) true true false = Ok [8; 10; 12] /\
  range_to_array (Some 0) (fun a => if a =? 5 then Throw (UserException 1) else Ok a) (fun _ => Ok three) true true false = Throw (UserException 1) /\
  range_to_array (Some 0) (fun a => if a =? 5 then Throw (UserException 1) else Ok a) (fun _ => Ok three) true true true = IllFormed.
Proof. repeat split. Qed.

(** Rejected: projections that carry state, functors that cannot be created anew, ranges without size() or not constant, element
    types without default constructor. *)
Theorem C86_rejected : forall (A T : Type) (default : option T) (assign : A -> outcome T) projected transportable constructible constant,
  (transportable = false \/ constructible = false \/ (forall r, projected true <> Ok r) /\ projected true <> OutOfFuel \/
   (exists r, projected true = Ok r /\ size_of r = None) \/ (exists r0 N r, projected true = Ok r0 /\ size_of r0 = Some N /\ projected constant = Ok r /\ default = None)) ->
  range_to_array default assign projected transportable constructible constant = IllFormed.
Proof.
  intros A T default assign projected transportable constructible constant H. unfold range_to_array.
  destruct transportable; [|reflexivity]. destruct constructible; [|reflexivity].
  destruct H as [H|[H|[[H F]|[[r [H1 H2]]|[r0 [N [r [H1 [H2 [H3 ->]]]]]]]]]]; try discriminate.
  - destruct (projected true) as [r| | | | |]; try reflexivity; [exfalso; apply (H r); reflexivity|congruence].
  - rewrite H1. cbn. rewrite H2. reflexivity.
  - rewrite H1. cbn. rewrite H2, H3. cbn. destruct constant; reflexivity.
Qed.
Print Assumptions C86_rejected.
Example C86_rejected_example :
  range_to_array (Some 0) (fun a : nat => Ok a) (fun _ => Ok (mk_rng [1; 2] None)) true true false = IllFormed /\
  range_to_array (Some 0) (fun a : nat => Ok a) (fun _ => Throw (UserException 1)) true true false = (IllFormed : outcome (list nat)).
Proof. split; reflexivity. Qed.

(** The size is determined at compile time: a range that is longer at run time is written beyond the end of the array. *)
Theorem C86_run_time_refuted : exists (projected : bool -> outcome (rng nat)),
  (forall b, exists r, projected b = Ok r /\ honest r) /\
  range_to_array (Some 0) (fun a => Ok a) projected true true false = UB.
Proof.
  exists (fun b : bool => Ok (if b then mk_rng [1] (Some 1) else mk_rng [1; 2] (Some 2))). split; [|reflexivity].
  intros [|]; eexists; split; reflexivity.
Qed.
Print Assumptions C86_run_time_refuted.
