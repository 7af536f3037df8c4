(** Proofs about ranges. *)

From Coq Require Import ZArith Arith Bool Lia List.
From Verif Require Import Base ExpandModel ExpandSpec ExpandProofs RangeModel RangeSpec.
Import ListNotations.
Local Open Scope Z_scope.

Lemma in_ptrdiff : forall z, in_ity ptrdiff_ty z = true <-> representable z.
Proof. intro z. rewrite in_ity_iff. unfold int_value, representable. cbn [ity_bits ity_signed ptrdiff_ty]. change (64 - 1) with 63. reflexivity. Qed.

Lemma arith_ok : forall z, representable z -> int_arith ptrdiff_ty z = Ok z.
Proof. intros z H. apply in_ptrdiff in H. unfold int_arith. rewrite H. reflexivity. Qed.
Lemma arith_inv : forall z y, int_arith ptrdiff_ty z = Ok y -> representable z /\ y = z.
Proof.
  intros z y H. unfold int_arith in H. change (ity_signed ptrdiff_ty) with true in H. cbn iota in H.
  destruct (in_ity ptrdiff_ty z) eqn:E; [|discriminate]. apply in_ptrdiff in E. split; congruence.
Qed.

Lemma interval_nil : forall f, interval f f = [].
Proof. intro f. unfold interval. rewrite Z.sub_diag. reflexivity. Qed.
Lemma interval_cons : forall f l, f < l -> interval f l = f :: interval (f + 1) l.
Proof.
  intros f l H. unfold interval. replace (Z.to_nat (l - f)) with (S (Z.to_nat (l - (f + 1)))) by lia. cbn [seq map]. f_equal; [lia|].
  rewrite <- seq_shift, map_map. apply map_ext. intro k. lia.
Qed.
Lemma interval_in : forall f l x, In x (interval f l) <-> f <= x < l.
Proof.
  intros f l x. unfold interval. rewrite in_map_iff. split.
  - intros [k [<- H]]. apply in_seq in H. lia.
  - intro H. exists (Z.to_nat (x - f)). split; [lia|]. apply in_seq. lia.
Qed.
Lemma interval_nth : forall f l k, Z.of_nat k < l - f -> nth_error (interval f l) k = Some (f + Z.of_nat k).
Proof.
  intros f l k H. unfold interval. rewrite nth_error_map. assert (E : nth_error (seq 0 (Z.to_nat (l - f))) k = Some k).
  { rewrite nth_error_nth' with (d := 0%nat) by (rewrite seq_length; lia). rewrite seq_nth by lia. reflexivity. }
  rewrite E. reflexivity.
Qed.

Lemma ii_for_ok : forall n fuel f l, representable f -> representable l -> f <= l -> n = Z.to_nat (l - f) -> (n <= fuel)%nat ->
  ii_for fuel f l = Ok (interval f l).
Proof.
  induction n as [|n IH]; intros fuel f l Hf Hl L E F.
  - assert (f = l) by lia. subst. destruct fuel; cbn [ii_for]; unfold ii_ne; rewrite Z.eqb_refl, interval_nil; reflexivity.
  - destruct fuel as [|fuel]; [lia|]. cbn [ii_for]. unfold ii_ne. destruct (Z.eqb_spec f l); [lia|]. cbn [negb].
    assert (Hi : representable (f + 1)) by (unfold representable in *; lia).
    unfold ii_incr. rewrite (arith_ok _ Hi). cbn [bind]. rewrite (IH fuel (f + 1) l); try assumption; try lia. cbn [bind].
    rewrite (interval_cons f l) by lia. reflexivity.
Qed.

Section Mem.
  Context {A : Type}.
  Variable mem : list A.
  Hypothesis Hmem : Z.of_nat (length mem) < 2 ^ 63.

  Lemma window_length : forall f l, 0 <= f <= l -> l <= Z.of_nat (length mem) -> Z.of_nat (length (window mem f l)) = l - f.
  Proof. intros f l H1 H2. unfold window. rewrite firstn_length, skipn_length. lia. Qed.

  Lemma nth_error_skipn : forall n (l : list A) k, nth_error (skipn n l) k = nth_error l (n + k).
  Proof. induction n as [|n IH]; intros l k; [reflexivity|]. destruct l; cbn; [destruct k; reflexivity|apply IH]. Qed.
  Lemma nth_error_firstn : forall n (l : list A) k, (k < n)%nat -> nth_error (firstn n l) k = nth_error l k.
  Proof. induction n as [|n IH]; intros l k H; [lia|]. destruct l; cbn; [destruct k; reflexivity|]. destruct k; [reflexivity|]. cbn [nth_error]. apply IH. lia. Qed.

  Lemma window_nth : forall f l k, 0 <= f -> 0 <= k < l - f -> nth_error (window mem f l) (Z.to_nat k) = nth_error mem (Z.to_nat (f + k)).
  Proof. intros f l k H1 H2. unfold window. rewrite nth_error_firstn by lia. rewrite nth_error_skipn. f_equal. lia. Qed.

  Lemma deref_ok : forall p, 0 <= p < Z.of_nat (length mem) -> exists x, pos_deref mem p = Ok x /\ nth_error mem (Z.to_nat p) = Some x.
  Proof.
    intros p H. unfold pos_deref, aget. destruct (Z.ltb_spec p 0); [lia|]. unfold arr_get.
    destruct (nth_error mem (Z.to_nat p)) as [x|] eqn:E; [exists x; auto|]. apply nth_error_None in E. lia.
  Qed.
  Lemma pos_add_ok : forall p n, 0 <= p <= Z.of_nat (length mem) -> 0 <= p + n <= Z.of_nat (length mem) -> pos_add mem p n = Ok (p + n).
  Proof.
    intros p n H1 H2. unfold pos_add, valid_pos. rewrite !(proj2 (Z.leb_le _ _)) by lia. reflexivity.
  Qed.

  Lemma subscript_ok : forall f l k, 0 <= f -> l <= Z.of_nat (length mem) -> 0 <= k < l - f ->
    exists x, pos_subscript mem f (cast ptrdiff_ty k) = Ok x /\ nth_error (window mem f l) (Z.to_nat k) = Some x.
  Proof.
    intros f l k H1 H2 H3. rewrite cast_id; [|cbn; lia|apply in_ptrdiff; unfold representable; lia].
    unfold pos_subscript. rewrite pos_add_ok by lia. cbn [bind]. rewrite window_nth by lia. apply deref_ok. lia.
  Qed.

  Lemma pos_for_ok : forall n fuel f l, 0 <= f <= l -> l <= Z.of_nat (length mem) -> n = Z.to_nat (l - f) -> (n <= fuel)%nat ->
    pos_for mem fuel f l = Ok (window mem f l).
  Proof.
    induction n as [|n IH]; intros fuel f l H1 H2 E F.
    - assert (f = l) by lia. subst. unfold window. rewrite Z.sub_diag. destruct fuel; cbn [pos_for]; rewrite Z.eqb_refl; reflexivity.
    - destruct fuel as [|fuel]; [lia|]. cbn [pos_for]. destruct (Z.eqb_spec f l); [lia|].
      destruct (deref_ok f) as [x [E1 E2]]; [lia|]. rewrite E1. cbn [bind]. rewrite pos_add_ok by lia. cbn [bind].
      rewrite (IH fuel (f + 1) l) by lia. cbn [bind]. f_equal. unfold window.
      replace (Z.to_nat (l - f)) with (S n) by lia. replace (Z.to_nat (l - (f + 1))) with n by lia. replace (Z.to_nat (f + 1)) with (S (Z.to_nat f)) by lia.
      clear - E2. revert mem E2. induction (Z.to_nat f) as [|m IH]; intros [|y mem'] E2; cbn [nth_error] in E2; try discriminate.
      + injection E2 as ->. reflexivity.
      + cbn [skipn]. apply IH. assumption.
  Qed.
End Mem.

Lemma cast_size : forall z, 0 <= z < 2 ^ 64 -> cast size_ty z = z.
Proof. intros z H. apply cast_id; [cbn; lia|]. apply in_ity_iff. unfold int_value. cbn [ity_bits ity_signed size_ty]. exact H. Qed.
