(** Theorems about threads that rearrange disjoint parts at the same time: C100. *)

From Coq Require Import ZArith Arith Bool Lia List Permutation Relations.
From Verif Require Import Base ExpandModel ExpandSpec PermModel PermSpec SoaModel SoaSpec ConcModel ConcSpec ConcProofs.
Import ListNotations.
Local Open Scope Z_scope.

Section Props.
  Context {V : Type}.
  Local Notation heap := (heap V).

  Section Fixed.
  Variables (m : memory (V := V)) (h0 : heap) (ts : list thread).
  Hypothesis Hok : threads_ok m h0 ts.
  Definition thread_of (t : nat) : place * job := match nth_error ts t with Some x => fst x | None => (InArray PNull 0, Shuffle []) end.

  Lemma thread_program : forall t p, nth_error (programs m ts) t = Some p -> exists x j idx, nth_error ts t = Some (x, j, idx) /\ p = program m x j /\ thread_of t = (x, j).
  Proof.
    intros t p E. unfold programs in E. rewrite nth_error_map in E. unfold thread_of. revert E. destruct (nth_error ts t) as [[[x j] idx]|]; intros E; [|discriminate]. cbn [option_map fst snd] in E. injection E as <-. exists x, j, idx. auto.
  Qed.
  Lemma threads_within : forall t p, nth_error (programs m ts) t = Some p ->
    within (may_read (fst (thread_of t)) (snd (thread_of t))) (may_write (fst (thread_of t)) (snd (thread_of t))) (obj_fixed h0) (fun _ => True) p.
  Proof.
    intros t p E. destruct (thread_program t p E) as (x & j & idx & T & -> & ->). destruct Hok as (H1 & H2 & _). destruct (H2 x j idx (nth_error_In _ _ T)) as (P & J).
    eapply foot_program; eauto.
  Qed.
  Lemma threads_apart : forall t u l, (t < length (programs m ts))%nat -> (u < length (programs m ts))%nat -> t <> u ->
    may_write (fst (thread_of t)) (snd (thread_of t)) l ->
    ~ may_read (fst (thread_of u)) (snd (thread_of u)) l /\ ~ may_write (fst (thread_of u)) (snd (thread_of u)) l.
  Proof.
    intros t u l T U N W. unfold programs in T, U. rewrite map_length in T, U. destruct Hok as (_ & _ & A).
    unfold thread_of in *. destruct (nth_error ts t) as [x|] eqn:Ex; [|apply nth_error_None in Ex; lia].
    destruct (nth_error ts u) as [y|] eqn:Ey; [|apply nth_error_None in Ey; lia]. destruct (A t u x y Ex Ey N) as (A1 & A2).
    unfold may_write in *. rewrite <- !surjective_pairing in *.
    assert (D : ~ writes_to (fst y) l).
    { intros W'. destruct W as [b i I|d a i I].
      - inversion W' as [b' i' I'|]; subst. eapply A1; eauto.
      - inversion W' as [|d' a' i' I']; subst. eapply A2; eauto. }
    split; auto. unfold may_read. rewrite <- surjective_pairing. intros [W'|(o & ->)]; [tauto|]. inversion W.
  Qed.
  Lemma fixed_init : good (obj_fixed h0) h0.
  Proof. intros l c w E. unfold obj_fixed. destruct l; auto. eauto. Qed.

  (** C100.  Two threads never access the same object at the same time, unless both only read it. *)
  Theorem C100_race_free : forall h ps, reachable (h0, programs m ts) (h, ps) -> ~ race ps.
  Proof.
    intros h ps R.
    exact (pool_race_free (fun t => may_read (fst (thread_of t)) (snd (thread_of t))) (fun t => may_write (fst (thread_of t)) (snd (thread_of t)))
      (obj_fixed h0) h0 (programs m ts) threads_within threads_apart fixed_init h ps R).
  Qed.

  Lemma tuples_writes : forall (h h' : heap) x j, (forall l, writes_to (x, j) l -> h l = h' l) -> tuples h x = tuples h' x.
  Proof.
    intros h h' x j E. unfold tuples. apply map_ext_in. intros k K. apply in_seq in K. apply map_ext_in. intros s I. unfold content.
    destruct (s_data s) as [|b i] eqn:D; [reflexivity|]. apply E. constructor. cbn [fst]. exists s, (Z.of_nat k). split; auto. split; [lia|].
    unfold at_index. rewrite D. auto.
  Qed.
  Lemma result_writes : forall A (h h' : heap) x j idx (es : list A) o es', (forall l, writes_to (x, j) l -> h l = h' l) -> result j idx h es o es' -> result j idx h' es o es'.
  Proof.
    intros A h h' x j idx es o es' E R.
    assert (Q : forall d a l, indices_of j = Some (d, a) -> holds_indices a l h -> holds_indices a l h').
    { intros d a l Ej H z. rewrite <- E by (econstructor; exact Ej). apply H. }
    destruct R as [d a es' Ej P G H|d a es' Ej P G H|ds es' log Ej S|d a es' Ej P G].
    - eapply res_apply; eauto. eapply Q; eauto. rewrite Ej. reflexivity.
    - eapply res_reverse; eauto. eapply Q; eauto. rewrite Ej. reflexivity.
    - eapply res_shuffle; eauto.
    - eapply res_violation; eauto.
  Qed.

  (** As soon as a thread has ended, whatever the others are doing, its part is as if it had run on its own; in particular,
      it has met no undefined behaviour. *)
  Theorem C100_result : forall h ps, reachable (h0, programs m ts) (h, ps) ->
    length ps = length ts /\
    forall t x j idx o, nth_error ts t = Some (x, j, idx) -> nth_error ps t = Some (Done o) -> result j idx h (tuples h0 x) o (tuples h x).
  Proof.
    intros h ps R.
    destruct (consistent_reachable (fun t => may_read (fst (thread_of t)) (snd (thread_of t))) (fun t => may_write (fst (thread_of t)) (snd (thread_of t)))
      (obj_fixed h0) h0 (programs m ts) threads_apart (h0, programs m ts) (h, ps) R (consistent_init _ _ _ _ _ threads_within fixed_init)) as (L & _ & _ & F). cbn [fst snd] in *.
    split; [rewrite L; unfold programs; apply map_length|].
    intros t x j idx o T D. destruct (F t _ D) as (p0 & a & E0 & _ & Ru & A). destruct (thread_program t p0 E0) as (x' & j' & idx' & T' & -> & Et).
    rewrite T in T'. injection T' as <- <- <-. rewrite Et in A. cbn [fst snd] in A. cbn [run] in Ru.
    destruct Hok as (H1 & H2 & _). destruct (H2 x j idx (nth_error_In _ _ T)) as (P & J).
    destruct (run_program m h0 x P H1 j idx J) as (h' & o' & Rp & Re). rewrite Rp in Ru. injection Ru as -> ->.
    assert (W : forall l, writes_to (x, j) l -> h' l = h l) by (intros l W; symmetry; apply A; right; exact W).
    rewrite <- (tuples_writes _ _ x j W). eapply result_writes; eauto.
  Qed.
  (** Nothing else changes, at any time. *)
  Theorem C100_rest : forall h ps, reachable (h0, programs m ts) (h, ps) ->
    forall l, (forall x j idx, In (x, j, idx) ts -> ~ writes_to (x, j) l) -> h l = h0 l.
  Proof.
    intros h ps R l N.
    destruct (consistent_reachable (fun t => may_read (fst (thread_of t)) (snd (thread_of t))) (fun t => may_write (fst (thread_of t)) (snd (thread_of t)))
      (obj_fixed h0) h0 (programs m ts) threads_apart (h0, programs m ts) (h, ps) R (consistent_init _ _ _ _ _ threads_within fixed_init)) as (L & _ & O & _). cbn [fst snd] in *.
    apply O. intros t T W. unfold programs in T. rewrite map_length in T. unfold thread_of, may_write in W.
    destruct (nth_error ts t) as [[[x j] idx]|] eqn:E; [|apply nth_error_None in E; lia]. exact (N x j idx (nth_error_In _ _ E) W).
  Qed.
  End Fixed.

  (** The threads never wait for each other, and all of them come to an end. *)
  Theorem C100_ends : forall (m : memory (V := V)) (h0 : heap) ts,
    (forall h ps, reachable (h0, programs m ts) (h, ps) -> finished ps \/ exists c, step (h, ps) c) /\
    ~ exists e : nat -> heap * list (act V unit), e 0%nat = (h0, programs m ts) /\ forall n, step (e n) (e (S n)).
  Proof.
    intros m h0 ts. split; [intros h ps _; apply can_step|]. intros (e & E & S).
    assert (W : forall c, Acc (fun c' c => step c c') c -> forall n, e n <> c).
    { intros c A. induction A as [c _ IH]. intros n En. apply (IH (e (Datatypes.S n))) with (n := Datatypes.S n); [|reflexivity]. rewrite <- En. apply S. }
    exact (W _ (step_wf _ (h0, programs m ts)) 0%nat E).
  Qed.

  (** Iterators of a soa_span<> refer to the span object: if another thread assigns to it, there are executions with a data race, unless
      the call does nothing to the tuples anyway. *)
  Theorem C100_assignment_races : forall (m : memory (V := V)) (h0 : heap) spans o a b j idx s',
    let x := InSoa spans o a b in
    place_ok m h0 x -> job_ok h0 (count x) idx j ->
    tuples (fst (run (program m x j) h0)) x <> tuples h0 x ->
    exists h ps, reachable (h0, [program m x j; p_assign_span o s']) (h, ps) /\ race ps.
  Proof.
    intros m h0 spans o a b j idx s' x P J T.
    pose proof (program_touches m h0 x P j idx J spans o a b eq_refl T) as D.
    destruct (touches_reachable _ (p_assign_span o s') _ _ _ D) as (h' & p' & acc & R & N). exists h', [p'; p_assign_span o s']. split; auto.
    exists 0%nat, 1%nat. eexists _, _, (LObj o), acc, true. split; [discriminate|]. split; [reflexivity|]. split; [reflexivity|]. split; [exact N|]. split; [constructor|auto].
  Qed.
End Props.
Print Assumptions C100_race_free.
Print Assumptions C100_result.
Print Assumptions C100_rest.
Print Assumptions C100_ends.
Print Assumptions C100_assignment_races.

(** ** Examples: three threads, two of which work on the two halves of one soa_span<> *)
Definition ex_memory : memory (V := Z) := [mk_block false [10; 11; 12; 13]; mk_block false [20; 21; 22; 23]; mk_block false [7; 8; 9]].
Definition ex_spans : list span := [mk_span false (PAt 0 0) 4; mk_span false (PAt 1 0) 4].
Definition ex_heap (idx0 idx1 : list Z) : heap Z := fun l =>
  match l with
  | LElem b i =>
      match nth_error ex_memory b with
      | Some bl => match cell ex_memory b i with Some v => Some (negb (b_const bl), VElem v) | None => None end
      | None => None
      end
  | LObj 0 => Some (false, VObj (mk_soa [false; false] [PAt 0 0; PAt 1 0] 4))
  | LObj _ => None
  | LIdx a z =>
      if z <? 0 then None
      else match nth_error (if Nat.eqb a 0 then idx0 else idx1) (Z.to_nat z) with Some x => Some (true, VIdx x) | None => None end
  end.
Definition ex_threads (idx0 : list Z) : list thread :=
  [(InSoa ex_spans 0 0 2, Apply ptrdiff_ty 0, idx0); (InSoa ex_spans 0 2 4, Shuffle [0], []); (InArray (PAt 2 0) 3, Reverse int32 1, [1; 2; 0])].
Lemma ex_threads_ok : forall idx0, length idx0 = 2%nat -> threads_ok ex_memory (ex_heap idx0 [1; 2; 0]) (ex_threads idx0).
Proof.
  intros idx0 L.
  assert (S : Forall (span_ok ex_memory) ex_spans).
  { repeat constructor; cbn; try lia; eexists; repeat split; cbn; try lia; reflexivity. }
  assert (D : disjoint ex_spans).
  { intros x y s s' b i E E' (k & _ & C) (k' & _ & C'). destruct x as [|[|x]], y as [|[|y]]; cbn in E, E'; try reflexivity;
      try (destruct x; discriminate); try (destruct y; discriminate); injection E as <-; injection E' as <-; cbn in C, C'; lia. }
  split; [intros b i; reflexivity|]. split.
  - intros x j idx [E|[E|[E|[]]]]; injection E as <- <- <-; split.
    + split; auto. split; [repeat constructor|]. split; auto. eexists _, _. repeat split; cbn; lia.
    + cbn. rewrite L. split; [lia|]. split; [unfold int_value; cbn; lia|]. split; [reflexivity|]. intros z. reflexivity.
    + split; auto. split; [repeat constructor|]. split; auto. eexists _, _. repeat split; cbn; lia.
    + cbn. eexists _, _. split; [reflexivity|]. split; [lia|reflexivity].
    + split; [|split; [repeat constructor|split; auto]].
      * repeat constructor; cbn; try lia. eexists. repeat split; cbn; lia.
      * intros x y s s' b i E E' _ _. destruct x as [|x], y as [|y]; cbn in E, E'; try reflexivity; try (destruct x; discriminate); destruct y; discriminate.
    + cbn. split; [lia|]. split; [unfold int_value; cbn; lia|]. split; [reflexivity|]. intros z. reflexivity.
  - assert (A : forall x j y j' (X : forall b i, inside x b i -> ~ inside y b i), (indices_of j = None \/ indices_of j' = None \/
        exists d a d' a', indices_of j = Some (d, a) /\ indices_of j' = Some (d', a') /\ a <> a') -> apart (x, j) (y, j')).
    { intros x j y j' X H. split; auto. cbn. intros d a d' a' E E'. destruct H as [H|[H|(d1 & a1 & d2 & a2 & H1 & H2 & H3)]]; congruence. }
    assert (I0 : forall a b b' i, inside (InSoa ex_spans 0 a b) b' i -> (b' = 0 \/ b' = 1)%nat /\ a <= i < b).
    { intros a b b' i (s & k & [<-|[<-|[]]] & K & C); cbn in *; lia. }
    assert (I2 : forall b i, inside (InArray (PAt 2 0) 3) b i -> b = 2%nat). { intros b i (s & k & [<-|[]] & K & C). cbn in C. lia. }
    intros t u x y E E' N. destruct t as [|[|[|t]]], u as [|[|[|u]]]; cbn in E, E'; try (destruct t; discriminate); try (destruct u; discriminate); try tauto;
      injection E as <-; injection E' as <-; apply A; cbn [indices_of]; auto;
      try (intros b i H H'; repeat match goal with H : inside _ _ _ |- _ => first [apply I0 in H|apply I2 in H] end; lia);
      right; right; eexists _, _, _, _; repeat split; discriminate.
Qed.
Definition ex_tuples (h : heap Z) (x : place) : list (list Z) :=
  map (map (fun c => match c with Some (_, VElem v) => v | _ => -1 end)) (tuples h x).

(** Whatever the interleaving, the first half is exchanged, the second half is shuffled, and the array is rotated. *)
Example C100_example : forall h ps, reachable (ex_heap [1; 0] [1; 2; 0], programs ex_memory (ex_threads [1; 0])) (h, ps) -> finished ps ->
  ps = [Done (Ok tt); Done (Ok tt); Done (Ok tt)] /\
  ex_tuples h (InSoa ex_spans 0 0 4) = [[11; 21]; [10; 20]; [13; 23]; [12; 22]] /\ ex_tuples h (InArray (PAt 2 0) 3) = [[9]; [7]; [8]].
Proof.
  intros h ps R F. destruct (C100_result _ _ _ (ex_threads_ok [1; 0] eq_refl) h ps R) as (L & Q). cbn in L.
  destruct ps as [|p0 [|p1 [|p2 [|]]]]; try discriminate. unfold finished in F. rewrite Forall_forall in F.
  destruct (F p0) as (o0 & ->); [now left|]. destruct (F p1) as (o1 & ->); [now right; left|]. destruct (F p2) as (o2 & ->); [now right; right; left|]. clear F.
  pose proof (Q 0%nat _ _ _ _ eq_refl eq_refl) as Q0. pose proof (Q 1%nat _ _ _ _ eq_refl eq_refl) as Q1. pose proof (Q 2%nat _ _ _ _ eq_refl eq_refl) as Q2. clear Q.
  assert (P0 : is_permutation 2 [1; 0]) by (apply perm_swap).
  assert (P2 : is_permutation 3 [1; 2; 0]) by (apply Permutation_sym; apply (Permutation_cons_append [1; 2] 0)).
  inversion Q0 as [d a es' Ej P G H|d a es' Ej|ds es' log Ej|d a es' Ej P G]; subst; try discriminate; [|destruct (P P0)].
  inversion Q1 as [d' a' es1 Ej1|d' a' es1 Ej1|ds es1 log Ej1 Sh|d' a' es1 Ej1]; subst; try discriminate.
  inversion Q2 as [d2 a2 es2 Ej2|d2 a2 es2 Ej2 P' G' H'|ds2 es2 log2 Ej2|d2 a2 es2 Ej2 P' G']; subst; try discriminate; [|destruct (P' P2)].
  split; [reflexivity|]. injection Ej1 as <-.
  destruct G as [G1 G2]. pose proof (G2 0%nat 1%nat eq_refl) as A. pose proof (G2 1%nat 0%nat eq_refl) as B.
  destruct G' as [G1' G2']. pose proof (G2' 0%nat 1%nat eq_refl) as C. pose proof (G2' 1%nat 2%nat eq_refl) as D. pose proof (G2' 2%nat 0%nat eq_refl) as E.
  clear - A B C D E Sh. vm_compute in A, B, C, D, E, Sh. injection A as A1 A2. injection B as B1 B2. injection C as C1. injection D as D1. injection E as E1.
  injection Sh as S1 S2 S3 S4. split; vm_compute; rewrite ?A1, ?A2, ?B1, ?B2, ?C1, ?D1, ?E1, <- ?S1, <- ?S2, <- ?S3, <- ?S4; reflexivity.
Qed.
(** A thread with an index range that is not a permutation finds out, and the others are not affected by it. *)
Example C100_example_violation : forall h ps, reachable (ex_heap [1; 1] [1; 2; 0], programs ex_memory (ex_threads [1; 1])) (h, ps) -> finished ps ->
  nth_error ps 0 = Some (Done Contract) /\ nth_error ps 1 = Some (Done (Ok tt)) /\ ex_tuples h (InSoa ex_spans 0 2 4) = [[13; 23]; [12; 22]].
Proof.
  intros h ps R F. destruct (C100_result _ _ _ (ex_threads_ok [1; 1] eq_refl) h ps R) as (L & Q). cbn in L.
  destruct ps as [|p0 [|p1 [|p2 [|]]]]; try discriminate. unfold finished in F. rewrite Forall_forall in F.
  destruct (F p0) as (o0 & ->); [now left|]. destruct (F p1) as (o1 & ->); [now right; left|]. clear F.
  pose proof (Q 0%nat _ _ _ _ eq_refl eq_refl) as Q0. pose proof (Q 1%nat _ _ _ _ eq_refl eq_refl) as Q1. clear Q.
  assert (P0 : ~ is_permutation 2 [1; 1]).
  { intros P. apply Permutation_sym, (Permutation_in 0) in P; [|now left]. cbn in P. lia. }
  inversion Q0 as [d a es' Ej P|d a es' Ej|ds es' log Ej|d a es' Ej P G]; subst; try discriminate; [destruct (P0 P)|].
  inversion Q1 as [d' a' es1 Ej1|d' a' es1 Ej1|ds es1 log Ej1 Sh|d' a' es1 Ej1]; subst; try discriminate.
  split; [reflexivity|]. split; [reflexivity|]. injection Ej1 as <-. clear - Sh. vm_compute in Sh. injection Sh as S1 S2 S3 S4. vm_compute.
  rewrite <- ?S1, <- ?S2, <- ?S3, <- ?S4. reflexivity.
Qed.
(** Assigning to the span object while the first thread is at work. *)
Example C100_example_race : exists h ps,
  reachable (ex_heap [1; 0] [1; 2; 0], [program ex_memory (InSoa ex_spans 0 0 2) (Apply ptrdiff_ty 0); p_assign_span 0 (mk_soa [] [] 0)]) (h, ps) /\ race ps.
Proof.
  destruct (ex_threads_ok [1; 0] eq_refl) as (_ & H & _). destruct (H (InSoa ex_spans 0 0 2) (Apply ptrdiff_ty 0) [1; 0]) as (P & J); [now left|].
  apply (C100_assignment_races ex_memory (ex_heap [1; 0] [1; 2; 0]) ex_spans 0 0 2 (Apply ptrdiff_ty 0) [1; 0]); auto. vm_compute. discriminate.
Qed.
