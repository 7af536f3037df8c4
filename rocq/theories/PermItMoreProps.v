(** Properties of the permutation algorithms for iterators of any kind and of soa_span<>: C76. *)

From Coq Require Import ZArith Arith Bool Lia List Permutation.
From Verif Require Import Base ExpandModel ExpandSpec ExpandProofs PermModel PermSpec PermProofs RangeSpec RangeProofs BufferProofs SoaModel SoaSpec SoaProofs SoaProps
  PermItModel PermItSpec PermItProofs.
Import ListNotations.
Local Open Scope Z_scope.

(** ** Iterators of any kind, with a swap that does not throw *)

Theorem C76_apply : forall St A (inv : St -> Prop) (elems : St -> list A) swap diff st idx,
  swap_operation inv elems no_throw (Z.of_nat (length (elems st))) swap ->
  1 <= ity_bits diff -> int_value (ity_bits diff) (ity_signed diff) (Z.of_nat (length (elems st))) ->
  inv st -> is_permutation (length (elems st)) idx ->
  exists st', it_apply_permutation swap diff (Z.of_nat (length (elems st))) (st, idx) = ((st', identity (length (elems st))), Ok tt) /\
    inv st' /\ gathered (elems st) idx (elems st').
Proof.
  intros St A inv elems swap diff st idx Hs Hb Hd Hv Hp. apply in_ity_iff in Hd. pose proof (permutation_length _ _ Hp) as Hl.
  pose proof (apply_any inv elems no_throw swap diff (length (elems st)) Hs Hb Hd st idx Hv eq_refl Hl) as Q.
  destruct (it_apply_permutation swap diff (Z.of_nat (length (elems st))) (st, idx)) as [[st' idx'] o]. destruct Q as (Q1 & Q2 & Q3).
  destruct o as [[]| |e| | |]; try contradiction; [|tauto|destruct Q3 as (? & ? & ? & _ & _ & _ & _ & []); fail].
  destruct Q3 as (_ & Q3 & ->). eauto.
Qed.
Print Assumptions C76_apply.

Theorem C76_reverse : forall St A (inv : St -> Prop) (elems : St -> list A) swap diff st idx,
  swap_operation inv elems no_throw (Z.of_nat (length (elems st))) swap ->
  1 <= ity_bits diff -> int_value (ity_bits diff) (ity_signed diff) (Z.of_nat (length (elems st))) ->
  inv st -> is_permutation (length (elems st)) idx ->
  exists st', it_apply_reverse_permutation swap diff (Z.of_nat (length (elems st))) (st, idx) = ((st', identity (length (elems st))), Ok tt) /\
    inv st' /\ scattered (elems st) idx (elems st').
Proof.
  intros St A inv elems swap diff st idx Hs Hb Hd Hv Hp. apply in_ity_iff in Hd. pose proof (permutation_length _ _ Hp) as Hl.
  pose proof (reverse_any inv elems no_throw swap diff (length (elems st)) Hs Hb Hd st idx Hv eq_refl Hl) as Q.
  destruct (it_apply_reverse_permutation swap diff (Z.of_nat (length (elems st))) (st, idx)) as [[st' idx'] o]. destruct Q as (Q1 & Q3).
  destruct o as [[]| |e| | |]; try contradiction; [|tauto|destruct Q3 as (_ & ? & ? & ? & _ & _ & _ & _ & _ & []); fail].
  destruct Q3 as (_ & Q3 & ->). eauto.
Qed.
Print Assumptions C76_reverse.

(** The draws are unbiased: each rearrangement of distinct elements is the result of exactly one sequence of draws. *)
Theorem C76_shuffle : forall St A (inv : St -> Prop) (elems : St -> list A) swap st,
  swap_operation inv elems no_throw (Z.of_nat (length (elems st))) swap -> inv st ->
  (forall ds, draws_ok (length (elems st) - 1) ds ->
     exists st', it_shuffle swap scripted_draws (Z.of_nat (length (elems st))) ds st = ([], st', Ok tt) /\ inv st' /\ Permutation (elems st) (elems st')) /\
  (forall es', NoDup (elems st) -> Permutation (elems st) es' ->
     exists ds, draws_ok (length (elems st) - 1) ds /\
       forall ds', draws_ok (length (elems st) - 1) ds' ->
         (ds' = ds <-> exists st', it_shuffle swap scripted_draws (Z.of_nat (length (elems st))) ds' st = ([], st', Ok tt) /\ elems st' = es')).
Proof.
  intros St A inv elems swap st Hs Hv.
  assert (Hsim : forall ds, draws_ok (length (elems st) - 1) ds -> exists st' log, it_shuffle swap scripted_draws (Z.of_nat (length (elems st))) ds st = ([], st', Ok tt) /\ inv st' /\
    shuffle scripted ds (elems st) = Ok ([], elems st', log) /\ log = map (fun k => (0, Z.of_nat k)) (rev (seq 1 (length (elems st) - 1)))).
  { intros ds Hds. destruct (shuffle_scripted _ (elems st) ds Hds) as (es' & E & P).
    pose proof (shuffle_loop_sim _ _ inv elems (length (elems st)) swap Hs (length (elems st) - 1)%nat ds st [] Hds ltac:(lia) Hv eq_refl) as (st' & log & E1 & Hv' & E2).
    exists st', log. unfold it_shuffle. replace (Z.to_nat (Z.of_nat (length (elems st)) - 1)) with (length (elems st) - 1)%nat by lia. split; auto. split; auto.
    unfold shuffle in *. split; auto. rewrite E2 in E. injection E as _ E. exact E. }
  split.
  - intros ds Hds. destruct (Hsim ds Hds) as (st' & log & E & Hv' & E2 & ->). exists st'. split; auto. split; auto.
    destruct (shuffle_scripted _ (elems st) ds Hds) as (es' & E' & P). rewrite E2 in E'. injection E' as <-. exact P.
  - intros es' Hn HP. destruct (shuffle_unique_draws _ (elems st) es' Hn HP) as (ds & Hds & E & U). exists ds. split; auto.
    intros ds' Hds'. destruct (Hsim ds' Hds') as (st' & log & E1 & Hv' & E2 & ->). split.
    + intros ->. exists st'. split; auto. rewrite E in E2. congruence.
    + intros (st2 & E3 & E4). rewrite E1 in E3. injection E3 as <-. apply U; auto. rewrite E2, E4. reflexivity.
Qed.
Print Assumptions C76_shuffle.

(** An array, and an array of which only the positions of even number are elements: first[a] is es[2 * a]. *)
Definition strided_swap (es : list Z) (a b : Z) : list Z * outcome unit := array_swap es (2 * a) (2 * b).
Fixpoint evens (es : list Z) : list Z := match es with x :: _ :: r => x :: evens r | [x] => [x] | [] => [] end.
Example C76_example :
  it_apply_permutation strided_swap (mk_ity 32 true) 3 ([10; 0; 11; 0; 12; 0], [1; 2; 0]) = (([11; 0; 12; 0; 10; 0], [0; 1; 2]), Ok tt) /\
  it_apply_reverse_permutation strided_swap (mk_ity 32 true) 3 ([10; 0; 11; 0; 12; 0], [1; 2; 0]) = (([12; 0; 10; 0; 11; 0], [0; 1; 2]), Ok tt) /\
  it_shuffle strided_swap scripted_draws 3 [0; 1] [10; 0; 11; 0; 12; 0] = ([], [12; 0; 11; 0; 10; 0], Ok tt).
Proof. repeat split. Qed.
Lemma array_swap_operation : forall A n, swap_operation (fun _ => True) (fun es : list A => es) no_throw n array_swap.
Proof.
  intros A n es _ Hn a b Ha Hb Hab. unfold array_swap. destruct (swap_at_exchanged _ es a b ltac:(lia) ltac:(lia)) as [es' [E X]]. rewrite E. auto.
Qed.

(** ** soa_span<> *)

Section SoaProps.
  Context {V : Type}.
  Local Notation memory := (memory (V := V)).
  Local Notation state := (state (V := V)).

  (** The tuples a..b-1. *)
  Definition part {A} (a b : Z) (l : list A) : list A := firstn (Z.to_nat (b - a)) (skipn (Z.to_nat a) l).

  (** What the algorithms leave alone: the span objects, the sizes of all arrays, the tuples outside of a..b-1 and all
      elements of arrays that no span refers to. *)
  Definition rest_unchanged (spans : list span) (n a b : Z) (st st' : state) : Prop :=
    objs st' = objs st /\ same_layout (mem st) (mem st') /\
    (forall i, Z.of_nat i < a \/ b <= Z.of_nat i -> nth_error (rows (mem st') spans n) i = nth_error (rows (mem st) spans n) i) /\
    (forall bl i, (forall p, In p spans -> ~ covers p bl i) -> cell (mem st') bl i = cell (mem st) bl i).

  Variables (spans : list span) (s : soa) (o : nat) (a b : Z) (st0 : state).
  Hypothesis Hspan : soa_span spans = Ok s.
  Hypothesis Hobj : get_obj st0 o = Ok s.
  Hypothesis Hok : Forall (span_ok (mem st0)) spans.
  Hypothesis Hmut : Forall (fun p => s_const p = false) spans.
  Hypothesis Hdis : disjoint spans.
  Hypothesis Hab : 0 <= a <= b.
  Hypothesis Hb : b <= soa_size s.
  Let first := mk_it (soa_const s) o a.
  Let last := mk_it (soa_const s) o b.
  Let elems (st : state) := part a b (rows (mem st) spans (soa_size s)).
  Let inv (st : state) := rest_unchanged spans (soa_size s) a b st0 st.

  Lemma part_nth : forall A (l : list A) k, nth_error (part a b l) k = if (k <? Z.to_nat (b - a))%nat then nth_error l (Z.to_nat a + k) else None.
  Proof.
    intros A l k. unfold part. destruct (Nat.ltb_spec k (Z.to_nat (b - a))).
    - rewrite (nth_error_firstn l) by lia. apply nth_error_skipn.
    - apply nth_error_None. rewrite firstn_length. lia.
  Qed.
  Lemma size_bound : soa_size s < 2 ^ 63.
  Proof. pose proof (soa_range _ _ _ Hspan Hok). lia. Qed.
  Lemma elems_length : forall st, length (elems st) = Z.to_nat (b - a).
  Proof. intro st. unfold elems, part. rewrite firstn_length, skipn_length. unfold rows. rewrite map_length, seq_length. lia. Qed.

  Lemma inv_obj : forall st, inv st -> get_obj st o = Ok s /\ Forall (span_ok (mem st)) spans.
  Proof.
    intros st (H1 & H2 & _). split; [|eapply layout_spans; eauto]. apply obj_inv. rewrite H1. apply obj_inv. exact Hobj.
  Qed.

  Lemma soa_swap_ok : swap_operation inv elems no_throw (b - a) (soa_swap first).
  Proof.
    intros st Hi _ j k Hj Hk Hjk. pose proof size_bound as SB. pose proof Hi as (I1 & I2 & I3 & I4). destruct (inv_obj st Hi) as [Ho Hs].
    assert (AR : forall z, 0 <= z < b - a -> int_arith ptrdiff_ty (a + z) = Ok (a + z)).
    { intros z Hz. unfold int_arith. cbn [ity_signed ptrdiff_ty]. rewrite in_ptrdiff_nonneg by lia. reflexivity. }
    unfold soa_swap, it_subscript. cbn [it_index first it_const it_obj]. rewrite !AR by lia. cbn [bind].
    destruct (swap_rows st spans s o (a + j) (a + k) Hspan Ho Hs Hmut Hdis ltac:(lia) ltac:(lia)) as (st' & E & R1 & R2 & R3 & R4).
    unfold swap_elements, subscript in E. rewrite Ho in E. cbn [bind] in E.
    rewrite (proj2 (Z.ltb_lt (a + j) (soa_size s)) ltac:(lia)), (proj2 (Z.ltb_lt (a + k) (soa_size s)) ltac:(lia)) in E. cbn [expects bind] in E.
    rewrite !ptrdiff_id in E by lia. rewrite E.
    split.
    - split; [congruence|]. split; [eapply layout_trans; eauto|]. split.
      + intros i Ho'. rewrite R3. unfold exchange. destruct (Nat.eqb_spec i (Z.to_nat (a + j))); [lia|]. destruct (Nat.eqb_spec i (Z.to_nat (a + k))); [lia|]. auto.
      + intros bl i N. rewrite R4; auto.
    - left. split; auto. split; [rewrite !elems_length; auto|].
      assert (Q : forall z, (z < Z.to_nat (b - a))%nat -> nth_error (elems st') z = nth_error (rows (mem st) spans (soa_size s)) (exchange (Z.to_nat (a + j)) (Z.to_nat (a + k)) (Z.to_nat a + z))).
      { intros z Hz. unfold elems. rewrite part_nth. rewrite (proj2 (Nat.ltb_lt _ _) Hz). apply R3. }
      assert (Q' : forall z, (z < Z.to_nat (b - a))%nat -> nth_error (elems st) z = nth_error (rows (mem st) spans (soa_size s)) (Z.to_nat a + z)).
      { intros z Hz. unfold elems. rewrite part_nth. rewrite (proj2 (Nat.ltb_lt _ _) Hz). reflexivity. }
      split; [|split].
      + rewrite Q, Q' by lia. unfold exchange. rewrite (proj2 (Nat.eqb_eq _ _)) by lia. f_equal. lia.
      + rewrite Q, Q' by lia. unfold exchange. destruct (Nat.eqb_spec (Z.to_nat a + Z.to_nat k) (Z.to_nat (a + j))); [lia|]. rewrite (proj2 (Nat.eqb_eq _ _)) by lia. f_equal. lia.
      + intros z Hzj Hzk. destruct (Nat.ltb_spec z (Z.to_nat (b - a))) as [Hz|Hz].
        * rewrite Q, Q' by lia. unfold exchange. destruct (Nat.eqb_spec (Z.to_nat a + z) (Z.to_nat (a + j))); [lia|]. destruct (Nat.eqb_spec (Z.to_nat a + z) (Z.to_nat (a + k))); [lia|]. reflexivity.
        * rewrite !(proj2 (nth_error_None _ _)); auto; rewrite elems_length; lia.
  Qed.

  Lemma inv0 : inv st0.
  Proof. split; auto. split; [apply layout_refl|]. auto. Qed.
  Lemma call_ok : swappable first = true /\ it_diff last first = Ok (Z.of_nat (length (elems st0))).
  Proof.
    split.
    - unfold swappable. cbn [it_const first]. destruct (soa_inv _ _ Hspan) as (-> & _). apply negb_true_iff.
      clear - Hmut. induction Hmut as [|p l H M IH]; [reflexivity|]. cbn. rewrite H. exact (IH M).
    - unfold it_diff. cbn [it_index first last]. rewrite elems_length. pose proof size_bound. rewrite Z2Nat.id by lia.
      unfold int_arith. cbn [ity_signed ptrdiff_ty]. rewrite in_ptrdiff_nonneg by lia. reflexivity.
  Qed.

  (** apply_permutation(): tuple i becomes the one that was at position indices[i]. *)
  Theorem C76_soa_apply : forall diff idx, 1 <= ity_bits diff -> int_value (ity_bits diff) (ity_signed diff) (b - a) ->
    is_permutation (Z.to_nat (b - a)) idx ->
    exists st', soa_apply_permutation diff (mk_it (soa_const s) o a) (mk_it (soa_const s) o b) (st0, idx) = ((st', identity (Z.to_nat (b - a))), Ok tt) /\
      gathered (part a b (rows (mem st0) spans (soa_size s))) idx (part a b (rows (mem st') spans (soa_size s))) /\
      rest_unchanged spans (soa_size s) a b st0 st'.
  Proof.
    intros diff idx Hbits Hd Hp. destruct call_ok as [C1 C2]. unfold soa_apply_permutation. fold first last. rewrite C1, C2.
    pose proof (elems_length st0) as L.
    destruct (C76_apply state _ inv elems (soa_swap first) diff st0 idx) as (st' & E & Hi & G); auto.
    { rewrite L, Z2Nat.id by lia. exact soa_swap_ok. } { rewrite L, Z2Nat.id by lia. exact Hd. } { exact inv0. } { rewrite L. exact Hp. }
    rewrite L in *. exists st'. auto.
  Qed.
  (** apply_reverse_permutation(): tuple i goes to position indices[i]. *)
  Theorem C76_soa_reverse : forall diff idx, 1 <= ity_bits diff -> int_value (ity_bits diff) (ity_signed diff) (b - a) ->
    is_permutation (Z.to_nat (b - a)) idx ->
    exists st', soa_apply_reverse_permutation diff (mk_it (soa_const s) o a) (mk_it (soa_const s) o b) (st0, idx) = ((st', identity (Z.to_nat (b - a))), Ok tt) /\
      scattered (part a b (rows (mem st0) spans (soa_size s))) idx (part a b (rows (mem st') spans (soa_size s))) /\
      rest_unchanged spans (soa_size s) a b st0 st'.
  Proof.
    intros diff idx Hbits Hd Hp. destruct call_ok as [C1 C2]. unfold soa_apply_reverse_permutation. fold first last. rewrite C1, C2.
    pose proof (elems_length st0) as L.
    destruct (C76_reverse state _ inv elems (soa_swap first) diff st0 idx) as (st' & E & Hi & G); auto.
    { rewrite L, Z2Nat.id by lia. exact soa_swap_ok. } { rewrite L, Z2Nat.id by lia. exact Hd. } { exact inv0. } { rewrite L. exact Hp. }
    rewrite L in *. exists st'. auto.
  Qed.
  (** Index arrays of the right length that are not permutations are detected, with the tuples rearranged. *)
  Theorem C76_soa_detects : forall diff idx, 1 <= ity_bits diff -> int_value (ity_bits diff) (ity_signed diff) (b - a) ->
    length idx = Z.to_nat (b - a) -> ~ is_permutation (Z.to_nat (b - a)) idx ->
    exists s1 s2, soa_apply_permutation diff (mk_it (soa_const s) o a) (mk_it (soa_const s) o b) (st0, idx) = (s1, Contract) /\
      soa_apply_reverse_permutation diff (mk_it (soa_const s) o a) (mk_it (soa_const s) o b) (st0, idx) = (s2, Contract) /\
      forall st', st' = fst s1 \/ st' = fst s2 ->
        Permutation (part a b (rows (mem st0) spans (soa_size s))) (part a b (rows (mem st') spans (soa_size s))) /\
        rest_unchanged spans (soa_size s) a b st0 st'.
  Proof.
    intros diff idx Hbits Hd Hl Hp. destruct call_ok as [C1 C2]. unfold soa_apply_permutation, soa_apply_reverse_permutation. fold first last. rewrite C1, C2.
    pose proof (elems_length st0) as L. rewrite L in *. apply in_ity_iff in Hd. assert (EN : Z.of_nat (Z.to_nat (b - a)) = b - a) by lia.
    pose proof soa_swap_ok as Hs. rewrite <- EN in Hs, Hd.
    pose proof (apply_any inv elems no_throw (soa_swap first) diff (Z.to_nat (b - a)) Hs Hbits Hd st0 idx inv0 L Hl) as Q.
    pose proof (reverse_any inv elems no_throw (soa_swap first) diff (Z.to_nat (b - a)) Hs Hbits Hd st0 idx inv0 L Hl) as Q'.
    destruct (it_apply_permutation (soa_swap first) diff (Z.of_nat (Z.to_nat (b - a))) (st0, idx)) as [[st1 idx1] o1]. destruct Q as (Q1 & _ & Q2).
    destruct (it_apply_reverse_permutation (soa_swap first) diff (Z.of_nat (Z.to_nat (b - a))) (st0, idx)) as [[st2 idx2] o2]. destruct Q' as (Q3 & Q4).
    destruct o1 as [[]| |e| | |]; try contradiction; [tauto| |destruct Q2 as (? & ? & ? & _ & _ & _ & _ & []); fail].
    destruct o2 as [[]| |e| | |]; try contradiction; [tauto| |destruct Q4 as (_ & ? & ? & ? & _ & _ & _ & _ & _ & []); fail].
    exists (st1, idx1), (st2, idx2). split; auto. split; auto. cbn [fst]. intros st' [->| ->]; [destruct Q2|destruct Q4]; auto.
  Qed.
  (** shuffle(): the tuples are rearranged for any source of draws; the draws are unbiased. *)
  Theorem C76_soa_shuffle : forall G (dist : G -> Z -> Z -> G * outcome Z) g, draws_in_range dist ->
    exists g' st' oc, soa_shuffle dist (mk_it (soa_const s) o a) (mk_it (soa_const s) o b) g st0 = (g', st', oc) /\
      (oc = Ok tt \/ exists e, oc = Throw e) /\
      Permutation (part a b (rows (mem st0) spans (soa_size s))) (part a b (rows (mem st') spans (soa_size s))) /\
      rest_unchanged spans (soa_size s) a b st0 st'.
  Proof.
    intros G dist g Hdr. destruct call_ok as [C1 C2]. unfold soa_shuffle. fold first last. rewrite C1, C2. pose proof (elems_length st0) as L.
    unfold it_shuffle. rewrite L. pose proof soa_swap_ok as Hs. replace (b - a) with (Z.of_nat (Z.to_nat (b - a))) in Hs by lia.
    pose proof (shuffle_loop_any inv elems no_throw (Z.to_nat (b - a)) (soa_swap first) Hs G dist Hdr (Z.to_nat (Z.of_nat (Z.to_nat (b - a)) - 1)) g st0 ltac:(lia) inv0 L) as Q.
    destruct (it_shuffle_loop _ _ _ _ _) as [[g' st'] oc]. destruct Q as [Q1 Q2]. exists g', st', oc. split; auto.
    destruct oc as [[]| |e| | |]; try contradiction; [auto|]. destruct Q2 as (es1 & P & [<-|(? & ? & _ & _ & _ & [])]). split; eauto.
  Qed.
  Theorem C76_soa_shuffle_unbiased : forall es', NoDup (part a b (rows (mem st0) spans (soa_size s))) -> Permutation (part a b (rows (mem st0) spans (soa_size s))) es' ->
    exists ds, draws_ok (Z.to_nat (b - a) - 1) ds /\
      forall ds', draws_ok (Z.to_nat (b - a) - 1) ds' ->
        (ds' = ds <-> exists st', soa_shuffle scripted_draws (mk_it (soa_const s) o a) (mk_it (soa_const s) o b) ds' st0 = ([], st', Ok tt) /\
                                  part a b (rows (mem st') spans (soa_size s)) = es').
  Proof.
    intros es' Hn HP. destruct call_ok as [C1 C2]. unfold soa_shuffle. fold first last. rewrite C1, C2. pose proof (elems_length st0) as L.
    destruct (C76_shuffle state _ inv elems (soa_swap first) st0) as [_ U].
    { rewrite L, Z2Nat.id by lia. exact soa_swap_ok. } { exact inv0. }
    rewrite L in *. exact (U es' Hn HP).
  Qed.
End SoaProps.
Print Assumptions C76_soa_apply.
Print Assumptions C76_soa_reverse.
Print Assumptions C76_soa_detects.
Print Assumptions C76_soa_shuffle.
Print Assumptions C76_soa_shuffle_unbiased.

(** Spans of const elements are rejected. *)
Theorem C76_soa_const_rejected : forall V G diff (dist : G -> Z -> Z -> G * outcome Z) consts o a b idx g (st : state (V := V)), In true consts ->
  soa_apply_permutation diff (mk_it consts o a) (mk_it consts o b) (st, idx) = ((st, idx), IllFormed) /\
  soa_apply_reverse_permutation diff (mk_it consts o a) (mk_it consts o b) (st, idx) = ((st, idx), IllFormed) /\
  soa_shuffle dist (mk_it consts o a) (mk_it consts o b) g st = (g, st, IllFormed).
Proof.
  intros V G diff dist consts o a b idx g st H. unfold soa_apply_permutation, soa_apply_reverse_permutation, soa_shuffle, swappable. cbn [it_const].
  rewrite (proj2 (existsb_exists _ _)) by (exists true; auto). auto.
Qed.
Print Assumptions C76_soa_const_rejected.

Definition ex_result (r : state (V := Z) * list Z * outcome unit) : memory (V := Z) * list Z * outcome unit := let '((st, idx), o) := r in (mem st, idx, o).
Example C76_soa_example :
  ex_result (soa_apply_permutation (mk_ity 64 true) (mk_it [false; false] 0 0) (mk_it [false; false] 0 3) (ex_state, [2; 0; 1])) =
    ([mk_block false [10; 13; 11; 12; 14]; mk_block false [22; 20; 21; 23]], [0; 1; 2], Ok tt) /\
  ex_result (soa_apply_reverse_permutation (mk_ity 64 true) (mk_it [false; false] 0 1) (mk_it [false; false] 0 3) (ex_state, [1; 0])) =
    ([mk_block false [10; 11; 13; 12; 14]; mk_block false [20; 22; 21; 23]], [0; 1], Ok tt) /\
  snd (soa_apply_permutation (mk_ity 64 true) (mk_it [false; false] 0 0) (mk_it [false; false] 0 3) (ex_state, [2; 0; 2])) = Contract.
Proof. vm_compute. auto. Qed.
