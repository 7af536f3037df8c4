(** Properties C48 (compile-time checks of range<>) and C69 (make_range()). *)

From Coq Require Import ZArith Arith Bool Lia List.
From Verif Require Import Base ExpandModel RangeModel RangeSpec RangeProofs RangeProps.
Import ListNotations.
Local Open Scope Z_scope.

(** The sequence's own iterators: moving within the sequence, including its end, is defined, and nothing else. *)
Lemma pos_add_exact : forall A (mem : list A) p n q, pos_add mem p n = Ok q <->
  q = p + n /\ 0 <= p <= Z.of_nat (length mem) /\ 0 <= p + n <= Z.of_nat (length mem).
Proof.
  intros A mem p n q. unfold pos_add, valid_pos.
  destruct (Z.leb_spec 0 p), (Z.leb_spec p (Z.of_nat (length mem))), (Z.leb_spec 0 (p + n)), (Z.leb_spec (p + n) (Z.of_nat (length mem)));
    cbn [andb]; split; intro H'; try discriminate; try lia; [injection H' as <-; lia|]. destruct H' as [-> _]. reflexivity.
Qed.
Lemma pos_add_undefined : forall A (mem : list A) p n, ~ (0 <= p <= Z.of_nat (length mem) /\ 0 <= p + n <= Z.of_nat (length mem)) -> pos_add mem p n = UB.
Proof.
  intros A mem p n H. unfold pos_add, valid_pos.
  destruct (Z.leb_spec 0 p), (Z.leb_spec p (Z.of_nat (length mem))), (Z.leb_spec 0 (p + n)), (Z.leb_spec (p + n) (Z.of_nat (length mem)));
    cbn [andb]; try reflexivity; lia.
Qed.

(** get<I>() exists for ranges of static extent n and I < n only. *)
Theorem C48_get_rejected : forall A (mem : list A) first last n i, 0 <= n < 2 ^ 63 ->
  range_get mem i (RDyn first last) = IllFormed /\ (n <= i -> range_get mem i (RStatic first n) = IllFormed).
Proof.
  intros A mem first last n i Hn. split; [reflexivity|]. intro H. cbn [range_get]. rewrite cast_size, (proj2 (Z.ltb_ge i n) H) by lia. reflexivity.
Qed.
Print Assumptions C48_get_rejected.

(** Static extents are non-negative (other than -1, which means that the extent is dynamic). *)
Theorem C48_negative_extent : forall Extent first last, Extent < -1 -> range_of Extent first last = IllFormed.
Proof.
  intros Extent first last H. unfold range_of. rewrite (proj2 (Z.eqb_neq Extent (-1))), (proj2 (Z.ltb_lt Extent 0)) by lia. reflexivity.
Qed.
Print Assumptions C48_negative_extent.

(** An extent that leads out of the sequence is undefined (as for any iterator). *)
Theorem C48_extent_too_large : forall A (mem : list A) start n, Z.of_nat (length mem) < start + n ->
  deduced_range_extent mem start (ExtentValue n) = UB.
Proof.
  intros A mem start n H. unfold deduced_range_extent, range_of_extent. cbn [range_extent_from_constval extent_value Z.eqb orb Pos.eqb].
  rewrite pos_add_undefined by lia. reflexivity.
Qed.
Print Assumptions C48_extent_too_large.

Example C48_more_example :
  range_get [1; 2; 3] 2 (RStatic 0 3) = Ok 3 /\ range_get [1; 2; 3] 3 (RStatic 0 3) = IllFormed /\ range_get [1; 2; 3] 0 (RDyn 0 3) = IllFormed /\
  range_of (-2) 0 2 = IllFormed /\ deduced_range_extent [1; 2; 3] 1 (ExtentValue 3) = UB.
Proof. vm_compute. repeat split. Qed.

(** * C69: make_range(first, last) is the range over these iterators, make_range(start, n) the range of n elements. *)

(** True for a pair of iterators that are not constexpr default-constructible. *)
Theorem C69_make_range_pair_partial : forall A (mem : list A) first last,
  Z.of_nat (length mem) < 2 ^ 63 -> 0 <= first <= last -> last <= Z.of_nat (length mem) ->
  exists r, make_range mem first (MIter false last) = Ok r /\ range_size r = last - first /\
    forall fuel, (Z.to_nat (last - first) <= fuel)%nat -> range_for mem fuel r = Ok (window mem first last).
Proof.
  intros A mem first last H1 H2 H3. destruct (C48_range A mem first last H1 H2 H3) as (r & E & S & _ & F).
  exists r. split; [exact E|]. split; [exact S|exact F].
Qed.
Print Assumptions C69_make_range_pair_partial.

(** For all others the call is ambiguous. *)
Theorem C69_make_range_pair_rejected : forall A (mem : list A) first last,
  make_range mem first (MIter true last) = IllFormed /\ exists r, deduced_range first last = Ok r.
Proof. intros. split; [reflexivity|]. eexists. reflexivity. Qed.
Print Assumptions C69_make_range_pair_rejected.

(** There is no overload for an extent. *)
Theorem C69_make_range_extent_rejected : forall A (mem : list A) start e,
  0 <= start -> 0 <= extent_value e -> start + extent_value e <= Z.of_nat (length mem) ->
  make_range mem start (MExtent e) = IllFormed /\ exists r, deduced_range_extent mem start e = Ok r.
Proof.
  intros A mem start e H1 H2 H3. split; [reflexivity|]. unfold deduced_range_extent, range_of_extent, range_of. rewrite pos_add_ok by lia.
  destruct e as [k|k]; cbn [range_extent_from_constval extent_value] in *; [eexists; reflexivity|].
  rewrite (proj2 (Z.eqb_neq k (-1))), Z.eqb_refl by lia. cbn [orb bind]. rewrite (proj2 (Z.ltb_ge k 0)) by lia. eexists. reflexivity.
Qed.
Print Assumptions C69_make_range_extent_rejected.
Theorem C69_make_range_pair_refuted : exists (mem : list Z) first last r l, make_range mem first (MIter true last) = IllFormed /\
  deduced_range first last = Ok r /\ range_for mem 5 r = Ok l /\ l <> [].
Proof. exists [10; 20; 30; 40], 1, 3. do 2 eexists. split; [reflexivity|]. split; [reflexivity|]. split; [reflexivity|discriminate]. Qed.
Print Assumptions C69_make_range_pair_refuted.
Theorem C69_make_range_extent_refuted : exists (mem : list Z) start e r, make_range mem start (MExtent e) = IllFormed /\
  deduced_range_extent mem start e = Ok r /\ range_for mem 5 r = Ok [20; 30].
Proof. exists [10; 20; 30; 40], 1, (ExtentValue 2). eexists. repeat split. Qed.
Print Assumptions C69_make_range_extent_refuted.

Example C69_example :
  (do r <- make_range [10; 20; 30; 40] 1 (MIter false 3); range_for [10; 20; 30; 40] 5 r) = Ok [20; 30] /\
  (do r <- deduced_range 1 3; range_for [10; 20; 30; 40] 5 r) = Ok [20; 30] /\
  make_range [10; 20; 30; 40] 1 (MIter true 3) = IllFormed /\ make_range [10; 20; 30; 40] 1 (MExtent (ExtentValue 2)) = IllFormed.
Proof. vm_compute. repeat split. Qed.
