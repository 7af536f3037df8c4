(** Properties of the permutation algorithms for swaps that may throw and for iterators of any kind: C75. *)

From Coq Require Import ZArith Arith Bool Lia List Permutation.
From Verif Require Import Base ExpandModel ExpandSpec ExpandProofs PermModel PermSpec PermProofs PermItModel PermItSpec PermItProofs.
Import ListNotations.
Local Open Scope Z_scope.

(** ** C75: interrupted rearrangements *)

(** A single call with any index array of the right length.  If every swap that throws leaves both elements alone, the
    elements are rearranged, whatever happens; the call returns normally, throws what a swap threw, or reports a
    contract violation, the latter only if the index array was not a permutation. *)
Theorem C75_apply_no_loss : forall St A (inv : St -> Prop) (elems : St -> list A) swap diff st idx,
  swap_operation inv elems untouched (Z.of_nat (length idx)) swap ->
  1 <= ity_bits diff -> int_value (ity_bits diff) (ity_signed diff) (Z.of_nat (length idx)) ->
  inv st -> length (elems st) = length idx ->
  exists st' idx' o, it_apply_permutation swap diff (Z.of_nat (length idx)) (st, idx) = ((st', idx'), o) /\
    inv st' /\ length idx' = length idx /\ Permutation (elems st) (elems st') /\
    ((o = Ok tt /\ is_permutation (length idx) idx /\ gathered (elems st) idx (elems st') /\ idx' = identity (length idx)) \/
     (o = Contract /\ ~ is_permutation (length idx) idx) \/
     (exists e, o = Throw e)).
Proof.
  intros St A inv elems swap diff st idx Hs Hb Hd Hv Hl. apply in_ity_iff in Hd.
  pose proof (apply_any inv elems untouched swap diff (length idx) Hs Hb Hd st idx Hv Hl eq_refl) as Q.
  destruct (it_apply_permutation swap diff (Z.of_nat (length idx)) (st, idx)) as [[st' idx'] o]. destruct Q as (Q1 & Q2 & Q3).
  exists st', idx', o. split; auto. split; auto. split; auto. destruct o as [[]| |e| | |]; try contradiction.
  - destruct Q3 as (Q3 & Q4 & Q5). split; [apply gathered_perm with idx; [rewrite Hl|]; auto|]. auto.
  - destruct Q3 as (Q3 & Q4). auto.
  - destruct Q3 as (es1 & a & b & P & _ & _ & _ & D). unfold untouched in D. subst es1. split; eauto.
Qed.
Print Assumptions C75_apply_no_loss.

Theorem C75_reverse_no_loss : forall St A (inv : St -> Prop) (elems : St -> list A) swap diff st idx,
  swap_operation inv elems untouched (Z.of_nat (length idx)) swap ->
  1 <= ity_bits diff -> int_value (ity_bits diff) (ity_signed diff) (Z.of_nat (length idx)) ->
  inv st -> length (elems st) = length idx ->
  exists st' idx' o, it_apply_reverse_permutation swap diff (Z.of_nat (length idx)) (st, idx) = ((st', idx'), o) /\
    inv st' /\ Permutation (elems st) (elems st') /\
    ((o = Ok tt /\ is_permutation (length idx) idx /\ scattered (elems st) idx (elems st') /\ idx' = identity (length idx)) \/
     (o = Contract /\ ~ is_permutation (length idx) idx) \/
     (exists e, o = Throw e /\ Permutation (combine (elems st) idx) (combine (elems st') idx'))).
Proof.
  intros St A inv elems swap diff st idx Hs Hb Hd Hv Hl. apply in_ity_iff in Hd.
  pose proof (reverse_any inv elems untouched swap diff (length idx) Hs Hb Hd st idx Hv Hl eq_refl) as Q.
  destruct (it_apply_reverse_permutation swap diff (Z.of_nat (length idx)) (st, idx)) as [[st' idx'] o]. destruct Q as (Q1 & Q3).
  exists st', idx', o. split; auto. split; auto. destruct o as [[]| |e| | |]; try contradiction.
  - destruct Q3 as (Q3 & Q4 & Q5). split; [apply scattered_perm with idx; [rewrite Hl|]; auto|]. auto.
  - destruct Q3 as (Q3 & Q4). auto.
  - destruct Q3 as (_ & es1 & a & b & P & P' & _ & _ & _ & D). unfold untouched in D. subst es1. split; eauto.
Qed.
Print Assumptions C75_reverse_no_loss.

(** If a swap that throws may leave its two elements in any state, all others are still there. *)
Theorem C75_damaged : forall St A (inv : St -> Prop) (elems : St -> list A) swap diff st idx,
  swap_operation inv elems two_damaged (Z.of_nat (length idx)) swap ->
  1 <= ity_bits diff -> int_value (ity_bits diff) (ity_signed diff) (Z.of_nat (length idx)) ->
  inv st -> length (elems st) = length idx ->
  (forall st' idx' e, it_apply_permutation swap diff (Z.of_nat (length idx)) (st, idx) = ((st', idx'), Throw e) ->
     exists es1 a b, Permutation (elems st) es1 /\ 0 <= a < Z.of_nat (length idx) /\ 0 <= b < Z.of_nat (length idx) /\ two_damaged es1 a b (elems st')) /\
  (forall st' idx' e, it_apply_reverse_permutation swap diff (Z.of_nat (length idx)) (st, idx) = ((st', idx'), Throw e) ->
     exists es1 a b, Permutation (elems st) es1 /\ 0 <= a < Z.of_nat (length idx) /\ 0 <= b < Z.of_nat (length idx) /\ two_damaged es1 a b (elems st')).
Proof.
  intros St A inv elems swap diff st idx Hs Hb Hd Hv Hl. apply in_ity_iff in Hd. split; intros st' idx' e E.
  - pose proof (apply_any inv elems two_damaged swap diff (length idx) Hs Hb Hd st idx Hv Hl eq_refl) as Q. rewrite E in Q.
    destruct Q as (_ & _ & es1 & a & b & P & Ha & Hb' & _ & D). exists es1, a, b. auto.
  - pose proof (reverse_any inv elems two_damaged swap diff (length idx) Hs Hb Hd st idx Hv Hl eq_refl) as Q. rewrite E in Q.
    destruct Q as (_ & _ & es1 & a & b & _ & P & Ha & Hb' & _ & D). exists es1, a, b. auto.
Qed.
Print Assumptions C75_damaged.

(** apply_reverse_permutation() can be resumed: after any number of attempts that ended with an exception, the index array
    is the permutation that remains, the next call does not report a violation, and once a call returns normally the
    elements are where the first call was to bring them. *)
Theorem C75_reverse_resumes : forall St A (inv : St -> Prop) (elems : St -> list A) swap diff st idx st1 idx1,
  swap_operation inv elems untouched (Z.of_nat (length idx)) swap ->
  1 <= ity_bits diff -> int_value (ity_bits diff) (ity_signed diff) (Z.of_nat (length idx)) ->
  inv st -> length (elems st) = length idx -> is_permutation (length idx) idx ->
  attempted (it_apply_reverse_permutation swap diff (Z.of_nat (length idx))) (st, idx) (st1, idx1) ->
  Permutation (elems st) (elems st1) /\ is_permutation (length idx) idx1 /\
  (forall es2, scattered (elems st1) idx1 es2 -> scattered (elems st) idx es2) /\
  exists st2 idx2 o, it_apply_reverse_permutation swap diff (Z.of_nat (length idx)) (st1, idx1) = ((st2, idx2), o) /\
    ((o = Ok tt /\ scattered (elems st) idx (elems st2) /\ idx2 = identity (length idx)) \/ exists e, o = Throw e).
Proof.
  intros St A inv elems swap diff st idx st1 idx1 Hs Hb Hd Hv Hl Hp Ha. apply in_ity_iff in Hd.
  assert (K0 : rkeeps inv elems (length idx) (elems st) idx (st, idx)) by (unfold rkeeps; cbn [fst snd]; repeat split; auto; apply H).
  pose proof (rkeeps_attempted inv elems swap diff (length idx) Hs Hb Hd _ _ _ _ Ha K0) as K.
  destruct (rkeeps_step inv elems swap diff (length idx) Hs Hb Hd _ _ _ K) as ([st2 idx2] & o & E & C).
  destruct K as (K1 & K2 & K3 & K4 & K5). cbn [fst snd] in *. split; auto. split; auto. split; auto. exists st2, idx2, o. split; auto.
  destruct C as [(C1 & _ & C2 & C3)|[e [C _]]]; eauto.
Qed.
Print Assumptions C75_reverse_resumes.

(** apply_permutation(): after any number of attempts that did not return normally, a call that does return normally has
    brought the elements to where the first call was to bring them.  Missing: that the next call does not report a
    violation. *)
Theorem C75_apply_resumes_partial : forall St A (inv : St -> Prop) (elems : St -> list A) swap diff st idx st1 idx1 st2 idx2,
  swap_operation inv elems untouched (Z.of_nat (length idx)) swap ->
  1 <= ity_bits diff -> int_value (ity_bits diff) (ity_signed diff) (Z.of_nat (length idx)) ->
  inv st -> length (elems st) = length idx -> is_permutation (length idx) idx ->
  attempted (it_apply_permutation swap diff (Z.of_nat (length idx))) (st, idx) (st1, idx1) ->
  Permutation (elems st) (elems st1) /\
  (is_permutation (length idx) idx1 -> forall es2, gathered (elems st1) idx1 es2 -> gathered (elems st) idx es2) /\
  (it_apply_permutation swap diff (Z.of_nat (length idx)) (st1, idx1) = ((st2, idx2), Ok tt) ->
   gathered (elems st) idx (elems st2) /\ idx2 = identity (length idx)).
Proof.
  intros St A inv elems swap diff st idx st1 idx1 st2 idx2 Hs Hb Hd Hv Hl Hp Ha. apply in_ity_iff in Hd.
  assert (K : keeps inv elems (length idx) (elems st) idx (st1, idx1)).
  { eapply keeps_attempted; eauto. apply keeps_init; auto. }
  destruct K as (K1 & K2 & K3 & K4 & K5) eqn:EK. clear EK. cbn [fst snd] in *. split; auto. split.
  - intros Hp1. destruct K5 as [D|[_ K5]]; auto. exfalso. exact (dup_not_permutation _ _ D Hp1).
  - intro E. exact (keeps_done inv elems swap diff (length idx) Hs Hb Hd (elems st) idx (st1, idx1) (st2, idx2) K E).
Qed.
Print Assumptions C75_apply_resumes_partial.

(** Arrays with a swap that throws, leaving the elements alone, whenever the script says so. *)
Definition flaky_swap (st : list Z * list bool) (a b : Z) : (list Z * list bool) * outcome unit :=
  let '(es, script) := st in
  match script with
  | true :: r => ((es, r), Throw (UserException 7))
  | _ => match swap_at es a b with Ok es' => ((es', tl script), Ok tt) | o => (st, do _ <- o; Ok tt) end
  end.
Lemma flaky_swap_operation : forall n, swap_operation (fun _ => True) (fun st : list Z * list bool => fst st) untouched n flaky_swap.
Proof.
  intros n [es script] _ Hn a b Ha Hb Hab. cbn [fst] in *.
  assert (Hok : forall r, let '(st', o) := match swap_at es a b with Ok es' => ((es', r), Ok tt) | o => ((es, script), do _ <- o; Ok tt) end in
    True /\ ((o = Ok tt /\ exchanged es a b (fst st')) \/ (exists e, o = Throw e /\ untouched es a b (fst st')))).
  { intro r. destruct (swap_at_exchanged _ es a b ltac:(lia) ltac:(lia)) as [es' [E X]]. rewrite E. auto. }
  unfold flaky_swap. destruct script as [|[|] r]; cbn [tl]; [exact (Hok [])| |exact (Hok r)].
  split; auto. right. eexists. split; reflexivity.
Qed.

(** A call of apply_permutation() that was interrupted in the middle of a cycle cannot be resumed: the index array is no
    longer a permutation, and the next call reports a violation although no swap throws any more. *)
Theorem C75_apply_resumes_refuted :
  exists (st : list Z * list bool) idx st1 idx1 st2 idx2,
    is_permutation (length idx) idx /\
    it_apply_permutation flaky_swap (mk_ity 64 true) 3 (st, idx) = ((st1, idx1), Throw (UserException 7)) /\
    ~ is_permutation (length idx) idx1 /\
    it_apply_permutation flaky_swap (mk_ity 64 true) 3 (st1, idx1) = ((st2, idx2), Contract) /\
    ~ gathered (fst st) idx (fst st2).
Proof.
  exists ([10; 11; 12], [false; true]), [1; 2; 0]. do 4 eexists.
  split; [apply NoDup_Permutation_bis; [repeat constructor; cbn; intuition discriminate|auto|intros x; cbn; intuition]|].
  split; [vm_compute; reflexivity|]. split.
  - intro H. apply Permutation_sym in H. pose proof (Permutation_in 1 H) as H1. cbn in H1. intuition discriminate.
  - split; [vm_compute; reflexivity|]. intros [_ H]. specialize (H 0%nat 1%nat eq_refl). vm_compute in H. discriminate.
Qed.
Print Assumptions C75_apply_resumes_refuted.

(** shuffle(): an exception of the generator or of a swap. *)
Theorem C75_shuffle : forall St A G (inv : St -> Prop) (elems : St -> list A) swap (dist : G -> Z -> Z -> G * outcome Z) g st,
  swap_operation inv elems untouched (Z.of_nat (length (elems st))) swap -> draws_in_range dist -> inv st ->
  exists g' st' o, it_shuffle swap dist (Z.of_nat (length (elems st))) g st = (g', st', o) /\
    inv st' /\ Permutation (elems st) (elems st') /\ (o = Ok tt \/ exists e, o = Throw e).
Proof.
  intros St A G inv elems swap dist g st Hs Hd Hv. unfold it_shuffle.
  pose proof (shuffle_loop_any inv elems untouched (length (elems st)) swap Hs G dist Hd (Z.to_nat (Z.of_nat (length (elems st)) - 1)) g st ltac:(lia) Hv eq_refl) as Q.
  destruct (it_shuffle_loop swap dist (Z.to_nat (Z.of_nat (length (elems st)) - 1)) g st) as [[g' st'] o]. destruct Q as [Q1 Q2]. exists g', st', o. split; auto. split; auto.
  destruct o as [[]| |e| | |]; try contradiction; auto.
  destruct Q2 as (es1 & P & [<-|(a & b & _ & _ & _ & D)]); [split; eauto|]. unfold untouched in D. subst es1. split; eauto.
Qed.
Print Assumptions C75_shuffle.

Theorem C75_shuffle_damaged : forall St A G (inv : St -> Prop) (elems : St -> list A) swap (dist : G -> Z -> Z -> G * outcome Z) g st g' st' e,
  swap_operation inv elems two_damaged (Z.of_nat (length (elems st))) swap -> draws_in_range dist -> inv st ->
  it_shuffle swap dist (Z.of_nat (length (elems st))) g st = (g', st', Throw e) ->
  exists es1 a b, Permutation (elems st) es1 /\ two_damaged es1 a b (elems st').
Proof.
  intros St A G inv elems swap dist g st g' st' e Hs Hd Hv E. unfold it_shuffle in E.
  pose proof (shuffle_loop_any inv elems two_damaged (length (elems st)) swap Hs G dist Hd (Z.to_nat (Z.of_nat (length (elems st)) - 1)) g st ltac:(lia) Hv eq_refl) as Q.
  rewrite E in Q. destruct Q as (_ & es1 & P & [<-|(a & b & _ & _ & _ & D)]); [|eauto].
  exists (elems st'), 0, 0. split; auto. split; auto.
Qed.
Print Assumptions C75_shuffle_damaged.

(** Two failures, then success: 0 -> 3 -> 1 -> 0 and 2 -> 4 -> 2. *)
Example C75_example :
  swap_operation (fun _ => True) (fun st : list Z * list bool => fst st) untouched 5 flaky_swap /\
  is_permutation 5 [3; 0; 4; 1; 2] /\
  (exists s1 s2, it_apply_reverse_permutation flaky_swap (mk_ity 64 true) 5 (([10; 11; 12; 13; 14], [false; true; false; true]), [3; 0; 4; 1; 2]) = (s1, Throw (UserException 7)) /\
     s1 = (([13; 11; 12; 10; 14], [false; true]), [1; 0; 4; 3; 2]) /\
     it_apply_reverse_permutation flaky_swap (mk_ity 64 true) 5 s1 = (s2, Throw (UserException 7)) /\
     exists s3, it_apply_reverse_permutation flaky_swap (mk_ity 64 true) 5 s2 = (s3, Ok tt) /\ fst (fst s3) = [11; 13; 14; 10; 12]) /\
  (exists s1, it_apply_permutation flaky_swap (mk_ity 64 true) 5 (([10; 11; 12; 13; 14], [false; false; true]), [3; 0; 4; 1; 2]) = (s1, Throw (UserException 7)) /\
     exists s2, it_apply_permutation flaky_swap (mk_ity 64 true) 5 s1 = (s2, Ok tt) /\ fst (fst s2) = [13; 10; 14; 11; 12]).
Proof.
  split; [apply flaky_swap_operation|].
  split; [apply NoDup_Permutation_bis; [repeat constructor; cbn; intuition discriminate|auto|intros x; cbn; intuition]|].
  split.
  - do 2 eexists. split; [vm_compute; reflexivity|]. split; [reflexivity|]. split; [vm_compute; reflexivity|].
    eexists. split; vm_compute; reflexivity.
  - eexists. split; [vm_compute; reflexivity|]. eexists. split; vm_compute; reflexivity.
Qed.

Example C75_shuffle_example :
  it_shuffle flaky_swap scripted_draws 4 [0; 2; 0] ([10; 11; 12; 13], [false; true]) = ([], ([13; 11; 12; 10], []), Throw (UserException 7)) /\
  draws_in_range (fun (g : Z) (_ i : Z) => (g + 1, if g =? 5 then Throw (UserException 3) else Ok (g * 7 mod (i + 1)))).
Proof.
  split; [vm_compute; reflexivity|]. intros g i Hi. cbn [snd]. destruct (g =? 5); auto. pose proof (Z.mod_pos_bound (g * 7) (i + 1)). lia.
Qed.
