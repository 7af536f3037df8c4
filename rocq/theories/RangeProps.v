(** Properties of index ranges and ranges: C47, C48. *)

From Coq Require Import ZArith Arith Bool Lia List.
From Verif Require Import Base ExpandModel ExpandSpec ExpandProofs RangeModel RangeSpec RangeProofs.
Import ListNotations.
Local Open Scope Z_scope.

(** * C47 *)
(** Iterating visits first, first + 1, ..., last - 1, without overflow even if last is the largest value. *)
Theorem C47_index_range : forall first last, representable first -> representable last ->
  (first <= last -> exists r, index_range_bounds first last = Ok r /\
     forall fuel, (Z.to_nat (last - first) <= fuel)%nat -> index_range_for fuel r = Ok (interval first last)) /\
  (last < first -> index_range_bounds first last = Contract).
Proof.
  intros first last Hf Hl. unfold index_range_bounds. split; intro H.
  - rewrite (proj2 (Z.leb_le _ _) H). exists (mk_index_range first last). split; [reflexivity|]. intros fuel F.
    unfold index_range_for. cbn [ir_begin ir_end ir_first ir_last]. eapply ii_for_ok; try eassumption. reflexivity.
  - rewrite (proj2 (Z.leb_gt _ _) H). reflexivity.
Qed.
Print Assumptions C47_index_range.

Theorem C47_index_range_num : forall num, representable num ->
  (0 <= num -> exists r, index_range_num num = Ok r /\
     forall fuel, (Z.to_nat num <= fuel)%nat -> index_range_for fuel r = Ok (interval 0 num)) /\
  (num < 0 -> index_range_num num = Contract).
Proof.
  intros num Hn. unfold index_range_num. rewrite Z.geb_leb. split; intro H.
  - rewrite (proj2 (Z.leb_le _ _) H). exists (mk_index_range 0 num). split; [reflexivity|]. intros fuel F.
    unfold index_range_for. cbn [ir_begin ir_end ir_first ir_last]. apply (ii_for_ok (Z.to_nat (num - 0))); try assumption; try lia. unfold representable. lia.
  - rewrite (proj2 (Z.leb_gt _ _) H). reflexivity.
Qed.
Print Assumptions C47_index_range_num.

(** The interval holds exactly the indices in bounds, in increasing order. *)
Theorem C47_interval : forall first last,
  (forall x, In x (interval first last) <-> first <= x < last) /\
  (forall k, Z.of_nat k < last - first -> nth_error (interval first last) k = Some (first + Z.of_nat k)).
Proof. intros first last. split; [apply interval_in|apply interval_nth]. Qed.
Print Assumptions C47_interval.

(** Random-access laws, wherever the results are representable. *)
Theorem C47_iterator_arithmetic : forall it n, representable (it + n) -> representable it -> representable n ->
  ii_add it n = Ok (it + n) /\ ii_deref (it + n) = it + n /\ ii_subscript it n = Ok (ii_deref (it + n)) /\
  ii_sub (it + n) n = Ok it /\ ii_diff (it + n) it = Ok n.
Proof.
  intros it n H1 H2 H3. unfold ii_add, ii_subscript, ii_sub, ii_diff, ii_deref.
  rewrite !arith_ok; replace (it + n - n) with it by lia; replace (it + n - it) with n by lia; auto.
Qed.
Print Assumptions C47_iterator_arithmetic.

Theorem C47_iterator_steps : forall it, representable (it + 1) -> representable it ->
  ii_incr it = ii_add it 1 /\ ii_post_incr it = Ok (it, it + 1) /\ ii_incr it = Ok (it + 1) /\
  ii_decr (it + 1) = Ok it /\ ii_post_decr (it + 1) = Ok (it + 1, it) /\ ii_decr it = ii_sub it 1.
Proof.
  intros it H1 H2. unfold ii_post_incr, ii_post_decr, ii_incr, ii_decr, ii_add, ii_sub. replace (it + 1 - 1) with it by lia.
  rewrite (arith_ok (it + 1) H1), (arith_ok it H2). cbn [bind]. repeat split.
Qed.
Print Assumptions C47_iterator_steps.

(** The comparisons are those of a total order, consistent with the difference of iterators. *)
Theorem C47_iterator_order : forall a b d, ii_diff b a = Ok d ->
  (ii_lt a b = true <-> 0 < d) /\ (ii_eq a b = true <-> d = 0) /\ (ii_ne a b = negb (ii_eq a b)) /\
  (ii_gt a b = ii_lt b a) /\ (ii_le a b = negb (ii_lt b a)) /\ (ii_ge a b = negb (ii_lt a b)) /\ (ii_eq a b = true <-> ii_deref a = ii_deref b).
Proof.
  intros a b d H. unfold ii_diff in H. apply arith_inv in H. destruct H as [_ ->].
  unfold ii_lt, ii_eq, ii_ne, ii_gt, ii_le, ii_ge, ii_deref.
  split; [rewrite Z.ltb_lt; lia|]. split; [rewrite Z.eqb_eq; lia|]. split; [reflexivity|]. split; [rewrite Z.gtb_ltb; reflexivity|].
  split; [apply Z.leb_antisym|]. split; [rewrite Z.geb_leb; apply Z.leb_antisym|apply Z.eqb_eq].
Qed.
Print Assumptions C47_iterator_order.

Example C47_example : (do r <- index_range_bounds (-2) 3; index_range_for 5 r) = Ok [-2; -1; 0; 1; 2] /\
  (do r <- index_range_bounds (2 ^ 63 - 3) (2 ^ 63 - 1); index_range_for 2 r) = Ok [2 ^ 63 - 3; 2 ^ 63 - 2] /\
  ii_incr (2 ^ 63 - 1) = UB /\ ii_diff 7 3 = Ok 4 /\ index_range_num (-1) = Contract.
Proof. vm_compute. repeat split. Qed.

(** * C48 *)
(** A range over positions first .. last of a sequence [mem] (first <= last) reads exactly these elements; other subscripts
    are contract violations. *)
Theorem C48_range : forall A (mem : list A) first last, Z.of_nat (length mem) < 2 ^ 63 -> 0 <= first <= last -> last <= Z.of_nat (length mem) ->
  exists r, deduced_range first last = Ok r /\ range_size r = last - first /\
    (forall i, 0 <= i < 2 ^ 64 ->
       (i < last - first -> exists x, range_subscript mem r i = Ok x /\ nth_error (window mem first last) (Z.to_nat i) = Some x) /\
       (last - first <= i -> range_subscript mem r i = Contract)) /\
    forall fuel, (Z.to_nat (last - first) <= fuel)%nat -> range_for mem fuel r = Ok (window mem first last).
Proof.
  intros A mem first last Hm Hf Hl. exists (RDyn first last). split; [reflexivity|]. cbn [range_size].
  assert (Ec : cast size_ty (last - first) = last - first) by (apply cast_size; lia). split; [exact Ec|]. split.
  - intros i Hi. cbn [range_subscript]. unfold int_lt. change (common_type size_ty ptrdiff_ty) with size_ty. rewrite Ec, (cast_size i Hi).
    split; intro H.
    + rewrite (proj2 (Z.ltb_lt _ _) H). cbn [expects bind]. apply (subscript_ok mem Hm first last i); lia.
    + rewrite (proj2 (Z.ltb_ge _ _) H). reflexivity.
  - intros fuel F. unfold range_for. cbn [range_end range_begin bind]. eapply pos_for_ok; try eassumption. reflexivity.
Qed.
Print Assumptions C48_range.

(** A range of n elements, where n is a run-time value or a constant (a static extent). *)
Theorem C48_range_extent : forall A (mem : list A) start e, Z.of_nat (length mem) < 2 ^ 63 -> 0 <= start -> 0 <= extent_value e ->
  start + extent_value e <= Z.of_nat (length mem) ->
  let n := extent_value e in
  exists r, deduced_range_extent mem start e = Ok r /\ range_size r = n /\
    (forall i, 0 <= i < 2 ^ 64 ->
       (i < n -> exists x, range_subscript mem r i = Ok x /\ nth_error (window mem start (start + n)) (Z.to_nat i) = Some x) /\
       (n <= i -> range_subscript mem r i = Contract)) /\
    (forall fuel, (Z.to_nat n <= fuel)%nat -> range_for mem fuel r = Ok (window mem start (start + n))) /\
    match e with
    | ExtentConst _ => forall i, 0 <= i < n -> exists x, range_get mem i r = Ok x /\ nth_error (window mem start (start + n)) (Z.to_nat i) = Some x
    | ExtentValue _ => True
    end.
Proof.
  intros A mem start e Hm H1 H2 H3 n. unfold deduced_range_extent, range_of_extent, range_of. fold n in H2, H3 |- *.
  rewrite pos_add_ok by lia. destruct e as [k|k]; cbn [range_extent_from_constval extent_value] in *; subst n.
  - cbn [Z.eqb orb bind expects]. destruct (C48_range A mem start (start + k) Hm) as [r [E1 [E2 [E3 E4]]]]; try lia.
    unfold deduced_range, range_of in E1. cbn in E1. injection E1 as <-. exists (RDyn start (start + k)).
    replace (start + k - start) with k in * by lia. split; [reflexivity|]. split; [assumption|]. split; [assumption|]. split; [assumption|trivial].
  - assert (En : (k =? -1) = false) by (apply Z.eqb_neq; lia). rewrite En, Z.eqb_refl. cbn [orb bind].
    rewrite (proj2 (Z.ltb_ge k 0) H2). cbn [bind]. exists (RStatic start k). cbn [expects bind].
    assert (Ec : cast size_ty k = k) by (apply cast_size; lia).
    assert (G : forall i, 0 <= i < k -> exists x, range_subscript mem (RStatic start k) i = Ok x /\ nth_error (window mem start (start + k)) (Z.to_nat i) = Some x).
    { intros i Hi. cbn [range_subscript]. rewrite Ec, (proj2 (Z.ltb_lt i k)) by lia. cbn [expects bind]. apply (subscript_ok mem Hm start (start + k) i); lia. }
    split; [reflexivity|]. split; [reflexivity|]. split; [|split].
    + intros i Hi. split; intro H; [apply G; lia|]. cbn [range_subscript]. rewrite Ec, (proj2 (Z.ltb_ge i k)) by lia. reflexivity.
    + intros fuel F. unfold range_for. cbn [range_end range_begin]. rewrite pos_add_ok by lia. cbn [bind].
      apply (pos_for_ok mem (Z.to_nat (start + k - start))); lia.
    + intros i Hi. cbn [range_get]. rewrite Ec, (proj2 (Z.ltb_lt i k)) by lia. apply G. assumption.
Qed.
Print Assumptions C48_range_extent.

(** A run-time extent that disagrees with the static extent of the class is a contract violation, a constant one ill-formed. *)
Theorem C48_extent_mismatch : forall A (mem : list A) Extent start n, 0 <= start -> 0 <= n -> start + n <= Z.of_nat (length mem) -> 0 <= Extent -> n <> Extent ->
  range_of_extent mem Extent start (ExtentValue n) = Contract /\ range_of_extent mem Extent start (ExtentConst n) = IllFormed.
Proof.
  intros A mem Extent start n H1 H2 H3 H4 H5. unfold range_of_extent, range_of. cbn [range_extent_from_constval extent_value].
  rewrite pos_add_ok by lia. assert (E : (Extent =? -1) = false) by (apply Z.eqb_neq; lia).
  assert (E' : (n =? -1) = false) by (apply Z.eqb_neq; lia). rewrite E, E', Z.eqb_refl. cbn [orb bind].
  rewrite (proj2 (Z.ltb_ge Extent 0) H4), (proj2 (Z.eqb_neq n Extent) H5), (proj2 (Z.eqb_neq Extent n)) by congruence. split; reflexivity.
Qed.
Print Assumptions C48_extent_mismatch.

(** But a pair of iterators is accepted whatever the static extent: elements past the given end are read. *)
Theorem C48_iterator_pair_extent_refuted : exists (mem : list nat) Extent first last r i x,
  range_of Extent first last = Ok r /\ 0 <= first <= last /\ last <= Z.of_nat (length mem) /\
  range_size r <> last - first /\ last - first <= i /\ range_subscript mem r i = Ok x.
Proof.
  exists [10; 20; 30; 40]%nat, 3, 0, 2, (RStatic 0 3), 2, 30%nat. vm_compute. repeat split; try discriminate; auto.
Qed.
Print Assumptions C48_iterator_pair_extent_refuted.

(** And a reversed pair (or a negative extent) is not rejected: any subscript then passes the bounds check. *)
Theorem C48_reversed_refuted : exists (mem : list nat) r, deduced_range 3 1 = Ok r /\ deduced_range_extent mem 3 (ExtentValue (-2)) = Ok r /\
  range_size r = 2 ^ 64 - 2 /\ range_subscript mem r 0 = Ok 40%nat /\ range_subscript mem r 100 = UB.
Proof. exists [10; 20; 30; 40]%nat, (RDyn 3 1). vm_compute. repeat split. Qed.
Print Assumptions C48_reversed_refuted.

Example C48_example : let mem := [10; 20; 30; 40; 50]%nat in
  (do r <- deduced_range 1 4; range_for mem 3 r) = Ok [20; 30; 40]%nat /\
  (do r <- deduced_range 1 4; range_subscript mem r 2) = Ok 40%nat /\ (do r <- deduced_range 1 4; range_subscript mem r 3) = Contract /\
  (do r <- deduced_range_extent mem 1 (ExtentConst 2); range_get mem 1 r) = Ok 30%nat /\
  (do r <- deduced_range_extent mem 1 (ExtentConst 2); range_for mem 2 r) = Ok [20; 30]%nat.
Proof. vm_compute. repeat split. Qed.
