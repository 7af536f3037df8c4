(** Theorems about soa_span<>: C53-C56. *)

From Coq Require Import ZArith Arith Bool Lia List Permutation FinFun.
From Verif Require Import Base ExpandModel ExpandSpec ExpandProofs RangeSpec RangeProofs BufferProofs BufferSim SoaModel SoaSpec SoaProofs.
Import ListNotations.
Local Open Scope Z_scope.

Section Props.
  Context {V : Type}.
  Local Notation memory := (memory (V := V)).
  Local Notation state := (state (V := V)).

  Lemma soa_inv : forall spans s, soa_span spans = Ok s ->
    soa_const s = map s_const spans /\ soa_data s = map s_data spans /\ Forall (fun p => s_size p = soa_size s) spans /\ (spans = [] -> soa_size s = 0).
  Proof.
    intros spans s H. unfold soa_span in H. apply bind_ok_inv in H as [n [H1 H2]]. injection H2 as <-. cbn. apply check_ok in H1.
    split; [reflexivity|]. split; [reflexivity|]. destruct H1 as [[H1 H2]|[H1 H2]].
    - destruct spans; [|discriminate]. split; auto.
    - split; [|intros ->; destruct H1; reflexivity]. clear H1. induction spans as [|p spans IH]; [constructor|]. inversion H2; subst. constructor; auto.
  Qed.
  Lemma soa_make : forall spans n, Forall (fun p => s_size p = n) spans -> (spans = [] -> n = 0) -> soa_span spans = Ok (mk_soa (map s_const spans) (map s_data spans) n).
  Proof.
    intros spans n H E. unfold soa_span. rewrite (proj2 (check_ok (map s_size spans) n)); [reflexivity|].
    destruct spans as [|p spans]; [left; auto|]. right. split; [discriminate|]. clear E. induction H; constructor; auto.
  Qed.
  Lemma soa_range : forall (m : memory) spans s, soa_span spans = Ok s -> Forall (span_ok m) spans -> 0 <= soa_size s < 2 ^ 63.
  Proof.
    intros m spans s H K. apply soa_inv in H as (_ & _ & H1 & H2). destruct spans as [|p spans]; [rewrite (H2 eq_refl); lia|].
    inversion H1; subst. inversion K; subst. destruct H5 as [H5 _]. lia.
  Qed.
  Lemma obj_inv : forall (st : state) o s, get_obj st o = Ok s <-> nth_error (objs st) o = Some (Some s).
  Proof. intros st o s. unfold get_obj. destruct (nth_error (objs st) o) as [[s'|]|]; split; intro H; inversion H; reflexivity. Qed.
  Lemma all_in_range : forall spans s k, soa_span spans = Ok s -> 0 <= k < soa_size s -> in_range k spans.
  Proof. intros spans s k H K. apply soa_inv in H as (_ & _ & H & _). unfold in_range. revert H. apply Forall_impl. intros p E. lia. Qed.
  Lemma ptrdiff_id : forall k, 0 <= k < 2 ^ 63 -> cast ptrdiff_ty k = k.
  Proof. intros k H. apply cast_id; [cbn; lia|]. apply in_ptrdiff. unfold representable. lia. Qed.
  Lemma size_id : forall z, 0 <= z < 2 ^ 64 -> int_arith size_ty z = Ok z.
  Proof. intros z H. unfold int_arith. cbn [ity_signed size_ty]. rewrite cast_size by lia. reflexivity. Qed.

  (** C53.  Spans of equal lengths are accepted, and no others; size() is that length. *)
  Theorem C53_accept : forall spans, soa_span spans =
    if match spans with [] => true | p :: _ => forallb (fun q => s_size q =? s_size p) spans end
    then Ok (mk_soa (map s_const spans) (map s_data spans) (match spans with [] => 0 | p :: _ => s_size p end)) else Contract.
  Proof.
    intro spans. destruct spans as [|p spans]; [reflexivity|]. destruct (forallb _ (p :: spans)) eqn:E.
    - apply soa_make; [|discriminate]. apply Forall_forall. intros q I. apply (proj1 (forallb_forall _ _) E) in I. lia.
    - destruct (check_total (map s_size (p :: spans))) as [[n H]|H].
      + exfalso. apply check_ok in H as [[H _]|[_ H]]; [discriminate|]. assert (T : forallb (fun q => s_size q =? s_size p) (p :: spans) = true); [|congruence].
        apply forallb_forall. intros q I. apply Z.eqb_eq. pose proof (proj1 (Forall_forall _ _) H) as F. rewrite <- (F (s_size q)), <- (F (s_size p)); auto; apply in_map; [left; reflexivity|exact I].
      + unfold soa_span. rewrite H. reflexivity.
  Qed.

  (** get<I>() gives back the spans. *)
  Theorem C53_components : forall spans s x, soa_span spans = Ok s ->
    soa_get s x = match nth_error spans x with Some p => Ok p | None => IllFormed end.
  Proof.
    intros spans s x H. pose proof (soa_inv _ _ H) as (H1 & H2 & H3 & _). unfold soa_get. rewrite H1, H2, !nth_error_map. destruct (nth_error spans x) as [p|] eqn:E; [|reflexivity].
    cbn. apply nth_error_In in E. rewrite <- (proj1 (Forall_forall _ _) H3 _ E). destruct p; reflexivity.
  Qed.

  Lemma read_row : forall (m : memory) spans k, Forall (span_ok m) spans -> in_range k spans ->
    exists vals, mapM (fun p => load_at m p k) (map s_data spans) = Ok vals /\ map Some vals = row (map (column m) spans) (Z.to_nat k).
  Proof.
    induction spans as [|p spans IH]; intros k H K; [exists []; auto|]. inversion H; subst. inversion K; subst. destruct (IH k) as (vals & E & F); auto.
    destruct (load_at_column m p k) as (v & E' & F'); auto. exists (v :: vals). cbn. rewrite E'. cbn. rewrite E. cbn. split; [reflexivity|]. rewrite F, F'. reflexivity.
  Qed.
  Lemma ref_read_row : forall (st : state) spans s c o k, soa_span spans = Ok s -> get_obj st o = Ok s -> Forall (span_ok (mem st)) spans -> 0 <= k < soa_size s ->
    exists vals, ref_read st (mk_ref c o k) = Ok vals /\ map Some vals = row (map (column (mem st)) spans) (Z.to_nat k).
  Proof.
    intros st spans s c o k H G O K. unfold ref_read. cbn [r_obj r_index]. rewrite G. cbn [bind]. destruct (soa_inv _ _ H) as (_ & -> & _). apply read_row; auto. eapply all_in_range; eauto.
  Qed.

  (** Element k consists of the k-th elements of all spans; other subscripts are contract violations. *)
  Theorem C53_read : forall (st : state) spans s o k, soa_span spans = Ok s -> get_obj st o = Ok s -> Forall (span_ok (mem st)) spans -> 0 <= k ->
    if k <? soa_size s then
      exists r vals, subscript st o k = Ok r /\ ref_read st r = Ok vals /\ map Some vals = row (map (column (mem st)) spans) (Z.to_nat k) /\
        forall x, ref_get_read st r x = match nth_error vals x with Some v => Ok v | None => IllFormed end
    else subscript st o k = Contract.
  Proof.
    intros st spans s o k H G O K. pose proof (soa_range _ _ _ H O) as Z. unfold subscript. rewrite G. cbn [bind]. destruct (Z.ltb_spec k (soa_size s)); [|reflexivity].
    cbn [expects bind]. rewrite ptrdiff_id by lia. destruct (ref_read_row st spans s (soa_const s) o k) as (vals & E & F); auto.
    exists (mk_ref (soa_const s) o k), vals. split; [reflexivity|]. split; [exact E|]. split; [exact F|].
    intro x. unfold ref_get_read, ref_get. cbn [r_obj r_index]. rewrite G. cbn [bind]. destruct (soa_inv _ _ H) as (_ & -> & _). rewrite nth_error_map.
    assert (Q : nth_error (map Some vals) x = option_map (fun p => nth_error (column (mem st) p) (Z.to_nat k)) (nth_error spans x)).
    { rewrite F. unfold row. rewrite map_map, nth_error_map. reflexivity. }
    rewrite nth_error_map in Q. destruct (nth_error spans x) as [p|] eqn:E'; cbn in *.
    - destruct (nth_error vals x) as [v|]; [|discriminate]. cbn in Q. injection Q as Q. apply nth_error_In in E'.
      destruct (load_at_column (mem st) p k) as (w & L & N).
      { apply (proj1 (Forall_forall _ _) O). assumption. } { apply (proj1 (Forall_forall _ _) (all_in_range _ _ k H ltac:(lia))). assumption. }
      unfold load_at in L. rewrite L. rewrite N in Q. congruence.
    - destruct (nth_error vals x); [discriminate|reflexivity].
  Qed.

  Lemma writable_mutable : forall (m : memory) spans, Forall (span_ok m) spans -> Forall (fun p => s_const p = false) spans -> writable m spans.
  Proof.
    intros m spans H K. unfold writable. apply Forall_forall. intros p I b i bl E N. pose proof (proj1 (Forall_forall _ _) H p I) as [_ Q]. rewrite E in Q.
    destruct Q as (bl' & N' & _ & _ & C). rewrite N in N'. injection N' as <-. apply C, (proj1 (Forall_forall _ _) K p I).
  Qed.
  Lemma comp_disjoint : forall spans k x y b i, disjoint spans -> in_range k spans -> comp spans k x b i -> comp spans k y b i -> x = y.
  Proof.
    intros spans k x y b i D K (p & H1 & H2) (q & H3 & H4). pose proof (proj1 (Forall_forall _ _) K) as F.
    apply (D x y p q b i); auto; exists k; split; auto; apply F; eapply nth_error_In; eauto.
  Qed.
  Lemma comp_disjoint2 : forall spans k k' x y b i, disjoint spans -> in_range k spans -> in_range k' spans -> comp spans k x b i -> comp spans k' y b i -> x = y /\ k = k'.
  Proof.
    intros spans k k' x y b i D K K' (p & H1 & H2) (q & H3 & H4). pose proof (proj1 (Forall_forall _ _) K) as F. pose proof (proj1 (Forall_forall _ _) K') as F'.
    assert (x = y).
    { apply (D x y p q b i); auto; [exists k|exists k']; split; auto; [apply F|apply F']; eapply nth_error_In; eauto. }
    subst y. split; [reflexivity|]. rewrite H1 in H3. injection H3 as <-. eapply at_index_inj; eauto.
  Qed.

  (** Assigning a tuple to element k writes the k-th elements of all spans and nothing else. *)
  Theorem C53_write : forall (st : state) spans s o k vals, soa_span spans = Ok s -> get_obj st o = Ok s -> Forall (span_ok (mem st)) spans ->
    Forall (fun p => s_const p = false) spans -> disjoint spans -> 0 <= k < soa_size s -> length vals = length spans ->
    exists r st', subscript st o k = Ok r /\ ref_assign_tuple st r vals = Ok st' /\ objs st' = objs st /\ Forall (span_ok (mem st')) spans /\
      (forall x p v, nth_error spans x = Some p -> nth_error vals x = Some v -> column (mem st') p = upd (column (mem st) p) (Z.to_nat k) v) /\
      (forall b i, (forall p, In p spans -> ~ at_index p k b i) -> cell (mem st') b i = cell (mem st) b i).
  Proof.
    intros st spans s o k vals H G O M D K L. pose proof (soa_range _ _ _ H O) as Z. pose proof (all_in_range _ _ k H K) as IR.
    exists (mk_ref (soa_const s) o k). unfold subscript, ref_assign_tuple. cbn [r_obj r_index]. rewrite G. cbn [bind]. destruct (Z.ltb_spec k (soa_size s)); [|lia].
    cbn [expects bind]. rewrite ptrdiff_id by lia. destruct (soa_inv _ _ H) as (_ & -> & _).
    destruct (assign_values_spec spans vals (mem st) k O (writable_mutable _ _ O M) L IR) as (m' & E & La & F & W). rewrite E. cbn [bind].
    exists (mk_state m' (objs st)). split; [reflexivity|]. split; [reflexivity|]. split; [reflexivity|]. cbn [mem]. split; [eapply layout_spans; eauto|]. split.
    - intros x p v Hp Hv. pose proof (nth_error_In _ _ Hp) as I. pose proof (proj1 (Forall_forall _ _) O p I) as Op. pose proof (proj1 (Forall_forall _ _) IR p I) as Rp. cbv beta in *.
      apply (column_ext (mem st)); auto.
      { rewrite upd_length. apply column_length. assumption. }
      intros j b i J A. destruct (Nat.eq_dec (Z.to_nat j) (Z.to_nat k)).
      + assert (j = k) by lia. subst j. pose proof (column_length (mem st) p Op). rewrite nth_error_upd_same by lia.
        apply (W ltac:(intros; eapply comp_disjoint; eauto) x); [exists p; auto|assumption].
      + rewrite nth_error_upd_other by congruence. rewrite <- (cell_column (mem st) p j b i) by auto. apply F. intros y (q & Hq & Aq).
        assert (x = y). { apply (D x y p q b i); auto; [exists j; auto|exists k; split; auto]. apply (proj1 (Forall_forall _ _) IR). eapply nth_error_In; eauto. }
        subst y. rewrite Hp in Hq. injection Hq as <-. apply n. f_equal. eapply at_index_inj; eauto.
    - intros b i N. apply F. intros x (q & Hq & Aq). apply (N q); auto. eapply nth_error_In; eauto.
  Qed.

  (** So does an assignment to one component. *)
  Theorem C53_write_component : forall (st : state) spans s o k x p v, soa_span spans = Ok s -> get_obj st o = Ok s -> Forall (span_ok (mem st)) spans ->
    0 <= k < soa_size s -> nth_error spans x = Some p ->
    exists r, subscript st o k = Ok r /\
      if s_const p then ref_get_write st r x v = IllFormed
      else exists st', ref_get_write st r x v = Ok st' /\ objs st' = objs st /\ Forall (span_ok (mem st')) spans /\
        column (mem st') p = upd (column (mem st) p) (Z.to_nat k) v /\
        (forall b i, ~ at_index p k b i -> cell (mem st') b i = cell (mem st) b i).
  Proof.
    intros st spans s o k x p v H G O K Hp. pose proof (soa_range _ _ _ H O) as Z. pose proof (all_in_range _ _ k H K) as IR.
    exists (mk_ref (soa_const s) o k). unfold subscript. rewrite G. cbn [bind]. destruct (Z.ltb_spec k (soa_size s)); [|lia]. cbn [expects bind]. rewrite ptrdiff_id by lia. split; [reflexivity|].
    destruct (soa_inv _ _ H) as (C1 & C2 & _). unfold ref_get_write, ref_get. cbn [r_const r_obj r_index]. rewrite C1, nth_error_map, Hp. cbn [option_map].
    destruct (s_const p) eqn:C; [reflexivity|]. rewrite G. cbn [bind]. rewrite C2, nth_error_map, Hp. cbn [option_map]. pose proof (nth_error_In _ _ Hp) as I. pose proof (proj1 (Forall_forall _ _) O p I) as Op. pose proof (proj1 (Forall_forall _ _) IR p I) as Rp. cbv beta in *.
    destruct (store_at_cell (mem st) p k v Op C Rp) as (m' & b & i & E & A & La & W). unfold store_at in E. destruct (ptr_add (mem st) (s_data p) k) as [q| | | | |]; try discriminate. cbn [bind] in *. rewrite E. cbn [bind].
    exists (mk_state m' (objs st)). split; [reflexivity|]. split; [reflexivity|]. cbn [mem]. split; [eapply layout_spans; eauto|]. split.
    - apply (column_ext (mem st)); auto.
      { rewrite upd_length. apply column_length. assumption. }
      intros j b' i' J A'. rewrite W. destruct (Nat.eq_dec (Z.to_nat j) (Z.to_nat k)).
      + assert (j = k) by lia. subst j. destruct (at_index_fun _ _ _ _ _ _ A A') as [<- <-]. rewrite cell_same. pose proof (column_length (mem st) p Op). rewrite nth_error_upd_same by lia. reflexivity.
      + rewrite nth_error_upd_other by congruence. rewrite cell_neq; [apply cell_column; auto|]. intros [<- <-]. apply n. f_equal. eapply at_index_inj; eauto.
    - intros b' i' N. rewrite W, cell_neq; [reflexivity|]. intros [<- <-]. auto.
  Qed.

  (** Iterating visits the elements in order, each exactly once: a range-based for loop is the sequence of its body for
      the references to elements 0, 1, ..., size() - 1. *)
  Fixpoint in_sequence {A} (body : A -> state -> reference -> outcome (A * state)) (rs : list reference) (a : A) (st : state) : outcome (A * state) :=
    match rs with [] => Ok (a, st) | r :: rs' => do ' (a', st') <- body a st r; in_sequence body rs' a' st' end.
  Theorem C53_iteration : forall A (body : A -> state -> reference -> outcome (A * state)) fuel a (st : state) spans s o,
    soa_span spans = Ok s -> get_obj st o = Ok s -> Forall (span_ok (mem st)) spans -> (Z.to_nat (soa_size s) <= fuel)%nat ->
    soa_for body fuel a st o = in_sequence body (map (fun k => mk_ref (soa_const s) o k) (interval 0 (soa_size s))) a st.
  Proof.
    intros A body fuel a st spans s o H G O F. pose proof (soa_range _ _ _ H O) as Z. unfold soa_for, begin_, end_. rewrite G. cbn [bind]. rewrite ptrdiff_id by lia.
    assert (Q : forall n k fuel a st, n = Z.to_nat (soa_size s - k) -> 0 <= k <= soa_size s -> (n <= fuel)%nat ->
      for_loop body fuel a st (mk_it (soa_const s) o k) (mk_it (soa_const s) o (soa_size s)) = in_sequence body (map (fun k => mk_ref (soa_const s) o k) (interval k (soa_size s))) a st).
    { clear F a st G O. induction n as [|n IH]; intros k f a st E K F.
      - assert (k = soa_size s) by lia. subst k. rewrite interval_nil. destruct f; cbn; unfold it_ne, it_eq; cbn [it_index]; rewrite Z.eqb_refl; reflexivity.
      - destruct f as [|f]; [lia|]. cbn [for_loop]. unfold it_ne, it_eq. cbn [it_index]. destruct (Z.eqb_spec k (soa_size s)); [lia|]. cbn [negb]. rewrite interval_cons by lia. cbn [map in_sequence].
        unfold it_deref. cbn [it_const it_obj it_index]. destruct (body a st (mk_ref (soa_const s) o k)) as [[a' st']| | | | |]; try reflexivity. cbn [bind].
        unfold it_incr, it_move. cbn [it_const it_obj it_index]. rewrite arith_ok by (unfold representable; lia). cbn [bind]. apply IH; lia. }
    apply (Q (Z.to_nat (soa_size s - 0))); auto; lia.
  Qed.
  (** In particular, collecting the elements gives the rows. *)
  Theorem C53_collect : forall fuel (st : state) spans s o, soa_span spans = Ok s -> get_obj st o = Ok s -> Forall (span_ok (mem st)) spans -> (Z.to_nat (soa_size s) <= fuel)%nat ->
    exists tuples, soa_for (fun l st r => do v <- ref_read st r; Ok (l ++ [v], st)) fuel [] st o = Ok (tuples, st) /\
      map (map Some) tuples = rows (mem st) spans (soa_size s).
  Proof.
    intros fuel st spans s o H G O F. rewrite (C53_iteration _ _ _ _ _ _ _ _ H G O F). pose proof (soa_range _ _ _ H O) as Z.
    assert (Q : forall ks acc, (forall k, In k ks -> 0 <= k < soa_size s) ->
      exists tuples, in_sequence (fun l st r => do v <- ref_read st r; Ok (l ++ [v], st)) (map (fun k => mk_ref (soa_const s) o k) ks) acc st = Ok (acc ++ tuples, st) /\
      map (map Some) tuples = map (fun k => row (map (column (mem st)) spans) (Z.to_nat k)) ks).
    { induction ks as [|k ks IH]; intros acc I; [exists []; rewrite app_nil_r; auto|]. cbn [map in_sequence].
      destruct (ref_read_row st spans s (soa_const s) o k H G O ltac:(apply I; left; reflexivity)) as (vals & E & R). rewrite E. cbn [bind].
      destruct (IH (acc ++ [vals]) ltac:(intros; apply I; right; assumption)) as (ts & E' & R'). exists (vals :: ts). rewrite E', <- app_assoc. split; [reflexivity|]. cbn [map]. rewrite R, R'. reflexivity. }
    destruct (Q (interval 0 (soa_size s)) []) as (ts & E & R); [intros k I; apply interval_in in I; lia|]. exists ts. split; [exact E|]. rewrite R. unfold rows, interval. rewrite map_map, Z.sub_0_r.
    apply map_ext. intro k. f_equal. lia.
  Qed.

  (** Iterators behave as positions. *)
  Theorem C53_iterators : forall (st : state) spans s o f l, soa_span spans = Ok s -> get_obj st o = Ok s -> Forall (span_ok (mem st)) spans ->
    begin_ st o = Ok f -> end_ st o = Ok l ->
    it_diff l f = Ok (soa_size s) /\
    (forall k, 0 <= k < soa_size s -> subscript st o k = it_subscript f k) /\
    (forall j, 0 <= j <= soa_size s -> exists it, it_add f j = Ok it /\ it_diff it f = Ok j /\ it_sub l (soa_size s - j) = Ok it /\ it_subscript it 0 = Ok (it_deref it) /\
       (it_eq it l = (j =? soa_size s)) /\ it_ne it l = negb (j =? soa_size s) /\
       (j < soa_size s -> exists it', it_incr it = Ok it' /\ it_add f (j + 1) = Ok it' /\ it_decr it' = Ok it /\ it_post_incr it = Ok (it, it') /\ it_post_decr it' = Ok (it', it)) /\
       (forall k, 0 <= k <= soa_size s -> exists it', it_add it (k - j) = Ok it' /\ it_add f k = Ok it' /\ it_diff it' it = Ok (k - j) /\ it_subscript it (k - j) = Ok (it_deref it') /\
          it_eq it it' = (j =? k) /\ it_ne it it' = negb (j =? k) /\ it_lt it it' = (j <? k) /\ it_gt it it' = (k <? j) /\ it_le it it' = (j <=? k) /\ it_ge it it' = (k <=? j))).
  Proof.
    intros st spans s o f l H G O B E. pose proof (soa_range _ _ _ H O) as Z. unfold begin_, end_ in *. rewrite G in B, E. cbn [bind] in B, E. rewrite ptrdiff_id in E by lia. injection B as <-. injection E as <-.
    unfold it_post_incr, it_post_decr, it_incr, it_decr, it_add, it_sub, it_diff, it_subscript, it_move, it_deref, it_ne, it_le, it_ge, it_gt, it_lt, it_eq. cbn [it_const it_obj it_index].
    split; [rewrite arith_ok by (unfold representable; lia); f_equal; lia|]. split.
    { intros k K. unfold subscript. rewrite G. cbn [bind]. destruct (Z.ltb_spec k (soa_size s)); [|lia]. cbn [expects bind]. rewrite ptrdiff_id, arith_ok by (unfold representable; lia). reflexivity. }
    intros j J. rewrite arith_ok by (unfold representable; lia). cbn [bind]. eexists. split; [reflexivity|]. cbn [it_const it_obj it_index].
    rewrite !arith_ok by (unfold representable; lia). cbn [bind]. replace (soa_size s - (soa_size s - j)) with (0 + j) by lia. replace (0 + j - 0) with j by lia. replace (0 + j) with j by lia. replace (j + 0) with j by lia.
    do 5 (split; [reflexivity|]). split.
    - intro Jl. rewrite !arith_ok by (unfold representable; lia). cbn [bind]. eexists. split; [reflexivity|]. cbn [it_const it_obj it_index]. rewrite !arith_ok by (unfold representable; lia). cbn [bind].
      replace (j + 1 - 1) with j by lia. auto.
    - intros k K. rewrite !arith_ok by (unfold representable; lia). cbn [bind]. eexists. split; [reflexivity|]. cbn [it_const it_obj it_index].
      rewrite !arith_ok by (unfold representable; lia). replace (j + (k - j)) with k by lia. cbn [bind]. do 3 (split; [reflexivity|]).
      do 4 (split; [reflexivity|]). rewrite !Z.leb_antisym. auto.
  Qed.

  (** C54.  empty() is the opposite of what it should be, for every span ... *)
  Theorem C54_empty_inverted : forall s, empty s = negb (size s =? 0).
  Proof. reflexivity. Qed.
  (** ... so that front() and back() are contract violations exactly for spans that are not empty. *)
  Theorem C54_front_back_inverted : forall (st : state) o s, get_obj st o = Ok s ->
    if size s =? 0 then front st o = Ok (mk_ref (soa_const s) o 0) /\ back st o = Ok (mk_ref (soa_const s) o (-1))
    else front st o = Contract /\ back st o = Contract.
  Proof.
    intros st o s G. unfold front, back, empty, size. rewrite G. cbn [bind]. destruct (Z.eqb_spec (soa_size s) 0) as [E|E]; [|split; reflexivity]. rewrite E. split; reflexivity.
  Qed.
  (** What remains true: size() is the common length of the spans. *)
  Theorem C54_size_partial : forall spans s, soa_span spans = Ok s -> forall p, In p spans -> size s = s_size p.
  Proof. intros spans s H p I. destruct (soa_inv _ _ H) as (_ & _ & F & _). symmetry. exact (proj1 (Forall_forall _ _) F p I). Qed.

  (** C55. *)
  Lemma window_ok : forall (m : memory) o c p, span_ok m p -> 0 <= o -> 0 <= c -> o + c <= s_size p -> span_ok m (window o c p) /\ ptr_add m (s_data p) o = Ok (s_data (window o c p)) /\
    column m (window o c p) = firstn (Z.to_nat c) (skipn (Z.to_nat o) (column m p)).
  Proof.
    intros m o c p [H1 H2] Ho Hc Hs. unfold span_ok, window, column. cbn [s_size s_data s_const]. destruct (s_data p) as [|b i].
    - assert (o = 0) by lia. assert (c = 0) by lia. subst. cbn. auto with zarith.
    - destruct H2 as (bl & E & H2 & H3 & H4). cbn [ptr_add]. rewrite E. rewrite !(proj2 (Z.leb_le _ _)) by lia. split; [|split; [reflexivity|]].
      + split; [lia|]. exists bl. repeat split; auto; lia.
      + rewrite skipn_firstn_comm, firstn_firstn. replace (Nat.min (Z.to_nat c) (Z.to_nat (s_size p) - Z.to_nat o)) with (Z.to_nat c) by lia.
        f_equal. rewrite skipn_add. f_equal. lia.
  Qed.

  (** The rows of windows. *)
  Lemma rows_window : forall (m : memory) spans n o c, Forall (span_ok m) spans -> Forall (fun p => s_size p = n) spans -> 0 <= o -> 0 <= c -> o + c <= n ->
    rows m (map (window o c) spans) c = firstn (Z.to_nat c) (skipn (Z.to_nat o) (rows m spans n)).
  Proof.
    intros m spans n o c O S Ho Hc Hn. unfold rows. rewrite skipn_map, firstn_map. 
    assert (E : firstn (Z.to_nat c) (skipn (Z.to_nat o) (seq 0 (Z.to_nat n))) = map (fun k => (Z.to_nat o + k)%nat) (seq 0 (Z.to_nat c))).
    { replace (Z.to_nat n) with (Z.to_nat o + (Z.to_nat c + (Z.to_nat n - Z.to_nat o - Z.to_nat c)))%nat by lia. rewrite !seq_app, skipn_app, firstn_app, !seq_length, Nat.sub_diag.
      rewrite (skipn_all2 (seq 0 (Z.to_nat o))) by (rewrite seq_length; lia). cbn [skipn length app]. rewrite Nat.sub_0_r, Nat.add_0_l. rewrite firstn_nil. cbn [app].
      rewrite firstn_app, seq_length, Nat.sub_diag. cbn [firstn]. rewrite app_nil_r, firstn_all2 by (rewrite seq_length; lia).
      clear. generalize (Z.to_nat o) as a. generalize (Z.to_nat c) as n. clear. induction n as [|n IH]; intro a; [reflexivity|]. cbn [seq map]. f_equal; [lia|].
      rewrite (IH (S a)). rewrite <- (seq_shift n 0), map_map. apply map_ext. intro. lia. }
    rewrite E, (map_map (fun k => (Z.to_nat o + k)%nat)). apply map_ext_in. intros k I. apply in_seq in I. unfold row. rewrite !map_map. apply map_ext_in. intros p Ip.
    pose proof (proj1 (Forall_forall _ _) O p Ip) as Op. pose proof (proj1 (Forall_forall _ _) S p Ip) as Sp. cbv beta in Sp.
    destruct (window_ok m o c p Op) as (_ & _ & ->); try lia. rewrite (nth_error_firstn (column m p)) by lia. rewrite nth_error_skipn. reflexivity.
  Qed.

  (** subspan(): windows that do not fit are contract violations (and only those); otherwise it is the soa_span<> of the
      windows of the spans. *)
  Definition window_size (n o c : Z) : Z := if c =? npos then n - o else c.
  Theorem C55_subspan : forall (m : memory) spans s o c, soa_span spans = Ok s -> Forall (span_ok m) spans -> 0 <= o < 2 ^ 64 -> 0 <= c < 2 ^ 64 ->
    if (o <=? soa_size s) && ((c =? npos) || (o + c <=? soa_size s)) then
      exists s', subspan m s o c = Ok s' /\ soa_size s' = window_size (soa_size s) o c /\
        soa_span (map (window o (soa_size s')) spans) = Ok s' /\ Forall (span_ok m) (map (window o (soa_size s')) spans) /\
        rows m (map (window o (soa_size s')) spans) (soa_size s') = firstn (Z.to_nat (soa_size s')) (skipn (Z.to_nat o) (rows m spans (soa_size s)))
    else subspan m s o c = Contract.
  Proof.
    intros m spans s o c H O Ho Hc. pose proof (soa_range _ _ _ H O) as Z. destruct (soa_inv _ _ H) as (C1 & C2 & C3 & C4). unfold subspan, size.
    change (int_arith size_ty (soa_size s - o)) with (Ok (cast size_ty (soa_size s - o))). cbn [bind].
    destruct (Z.leb_spec o (soa_size s)) as [L|L]; cbn [andb expects bind]; [|reflexivity].
    rewrite cast_size by lia. assert (Q : (c <=? soa_size s - o) = (o + c <=? soa_size s)) by lia. rewrite Q. clear Q.
    destruct ((c =? npos) || (o + c <=? soa_size s)) eqn:B; cbn [expects bind]; [|reflexivity].
    set (n := if negb (c =? npos) then c else soa_size s - o). assert (N : n = window_size (soa_size s) o c) by (unfold n, window_size; destruct (c =? npos); reflexivity).
    assert (Nr : 0 <= n /\ o + n <= soa_size s). { unfold n, npos in *. destruct (Z.eqb_spec c (2 ^ 64 - 1)); cbn in *; lia. }
    rewrite C2, ptrdiff_id by lia.
    assert (W : forall p, In p spans -> span_ok m (window o n p) /\ ptr_add m (s_data p) o = Ok (s_data (window o n p)) /\ column m (window o n p) = firstn (Z.to_nat n) (skipn (Z.to_nat o) (column m p))).
    { intros p I. apply window_ok; try lia. { apply (proj1 (Forall_forall _ _) O p I). } rewrite (proj1 (Forall_forall _ _) C3 p I). lia. }
    assert (M : mapM (fun p => ptr_add m p o) (map s_data spans) = Ok (map s_data (map (window o n) spans))).
    { apply mapM_inv. rewrite map_map. clear - W. induction spans as [|p spans IH]; constructor; [apply W; left; reflexivity|]. apply IH. intros q I. apply W. right. assumption. }
    rewrite M. cbn [bind]. eexists. split; [reflexivity|]. cbn [soa_size]. split; [exact N|]. split; [|split].
    - rewrite C1. assert (E : map s_const spans = map s_const (map (window o n) spans)) by (rewrite map_map; reflexivity). rewrite E. apply soa_make.
      + apply Forall_forall. intros q I. apply in_map_iff in I as (p & <- & _). reflexivity.
      + intro E'. apply map_eq_nil in E'. specialize (C4 E'). lia.
    - apply Forall_forall. intros q I. apply in_map_iff in I as (p & <- & I). apply W. assumption.
    - apply rows_window; auto; lia.
  Qed.
  (** Windows compose. *)
  Theorem C55_compose : forall (m : memory) spans s o1 c1 s1 o2 c2 s2, soa_span spans = Ok s -> Forall (span_ok m) spans ->
    0 <= o1 < 2 ^ 64 -> 0 <= c1 < 2 ^ 64 -> 0 <= o2 < 2 ^ 64 -> 0 <= c2 < 2 ^ 64 ->
    subspan m s o1 c1 = Ok s1 -> subspan m s1 o2 c2 = Ok s2 -> subspan m s (o1 + o2) (soa_size s2) = Ok s2.
  Proof.
    intros m spans s o1 c1 s1 o2 c2 s2 H O R1 R2 R3 R4 E1 E2. pose proof (soa_range _ _ _ H O) as Z0.
    pose proof (C55_subspan m spans s o1 c1 H O R1 R2) as T1. destruct (_ && _) eqn:B1 in T1; [|congruence]. destruct T1 as (t1 & Q1 & N1 & H1 & O1 & _). rewrite E1 in Q1. injection Q1 as <-.
    pose proof (C55_subspan m _ s1 o2 c2 H1 O1 R3 R4) as T2. destruct (_ && _) eqn:B2 in T2; [|congruence]. destruct T2 as (t2 & Q2 & N2 & H2 & O2 & _). rewrite E2 in Q2. injection Q2 as <-.
    assert (K1 : 0 <= soa_size s1 /\ o1 + soa_size s1 <= soa_size s) by (rewrite N1; unfold window_size; destruct (c1 =? npos); lia).
    assert (K2 : 0 <= soa_size s2 /\ o2 + soa_size s2 <= soa_size s1) by (rewrite N2; unfold window_size; destruct (c2 =? npos); lia).
    pose proof (C55_subspan m spans s (o1 + o2) (soa_size s2) H O ltac:(lia) ltac:(lia)) as T. assert (B : (o1 + o2 <=? soa_size s) && ((soa_size s2 =? npos) || (o1 + o2 + soa_size s2 <=? soa_size s)) = true) by lia.
    rewrite B in T. destruct T as (t & Q & N & Ht & _). rewrite Q. f_equal.
    assert (NN : soa_size t = soa_size s2). { rewrite N. unfold window_size, npos. destruct (Z.eqb_spec (soa_size s2) (2 ^ 64 - 1)); lia. }
    rewrite NN in Ht. rewrite map_map in H2.
    assert (E : map (fun x => window o2 (soa_size s2) (window o1 (soa_size s1) x)) spans = map (window (o1 + o2) (soa_size s2)) spans).
    { apply map_ext. intro p. unfold window. cbn [s_const s_data s_size]. destruct (s_data p); [reflexivity|]. rewrite Z.add_assoc. reflexivity. }
    rewrite E in H2. rewrite H2 in Ht. congruence.
  Qed.
  (** first() and last(). *)
  Theorem C55_first_last : forall (m : memory) spans s c, soa_span spans = Ok s -> Forall (span_ok m) spans -> 0 <= c < npos ->
    if c <=? soa_size s then
      (exists s', first m s c = Ok s' /\ subspan m s 0 c = Ok s' /\ soa_size s' = c) /\
      (exists s', last m s c = Ok s' /\ subspan m s (soa_size s - c) npos = Ok s' /\ soa_size s' = c)
    else first m s c = Contract /\ last m s c = Contract.
  Proof.
    intros m spans s c H O Hc. pose proof (soa_range _ _ _ H O) as Z. unfold npos in Hc. unfold first, last, size.
    pose proof (C55_subspan m spans s 0 c H O ltac:(lia) ltac:(lia)) as T. destruct (Z.leb_spec c (soa_size s)) as [L|L].
    - assert (B : (0 <=? soa_size s) && ((c =? npos) || (0 + c <=? soa_size s)) = true) by lia. rewrite B in T. destruct T as (t & Q & N & Ht & _).
      assert (W : forall k n, c <> npos -> window_size k n c = c) by (intros k n ?; unfold window_size; destruct (Z.eqb_spec c npos); congruence).
      split; [exists t; rewrite Q, N, W by (unfold npos; lia); auto|]. cbn [expects bind]. rewrite size_id by lia. cbn [bind].
      pose proof (C55_subspan m spans s (soa_size s - c) c H O ltac:(lia) ltac:(lia)) as T1. assert (B1 : (soa_size s - c <=? soa_size s) && ((c =? npos) || (soa_size s - c + c <=? soa_size s)) = true) by lia.
      rewrite B1 in T1. destruct T1 as (t1 & Q1 & N1 & H1 & _). rewrite W in N1 by (unfold npos; lia).
      pose proof (C55_subspan m spans s (soa_size s - c) npos H O ltac:(lia) ltac:(unfold npos; lia)) as T2. assert (B2 : (soa_size s - c <=? soa_size s) && ((npos =? npos) || (soa_size s - c + npos <=? soa_size s)) = true) by (rewrite Z.eqb_refl; lia).
      rewrite B2 in T2. destruct T2 as (t2 & Q2 & N2 & H2 & _). unfold window_size in N2. rewrite Z.eqb_refl in N2.
      exists t1. rewrite Q1, Q2, N1. split; [reflexivity|]. split; [|reflexivity]. f_equal. assert (E : soa_size t2 = soa_size t1) by lia. rewrite E, N1 in H2. rewrite N1 in H1. rewrite H1 in H2. congruence.
    - assert (B : (0 <=? soa_size s) && ((c =? npos) || (0 + c <=? soa_size s)) = false) by (unfold npos; lia). rewrite B in T. rewrite T. split; reflexivity.
  Qed.
  (** first(std::size_t(-1)) is accepted for every span, since this is the marker for "the rest". *)
  Theorem C55_first_marker_accepted : forall (m : memory) spans s, soa_span spans = Ok s -> Forall (span_ok m) spans ->
    exists s', first m s npos = Ok s' /\ soa_size s' = soa_size s /\ soa_size s < npos.
  Proof.
    intros m spans s H O. pose proof (soa_range _ _ _ H O) as Z. pose proof (C55_subspan m spans s 0 npos H O ltac:(lia) ltac:(unfold npos; lia)) as T.
    assert (B : (0 <=? soa_size s) && ((npos =? npos) || (0 + npos <=? soa_size s)) = true) by (rewrite Z.eqb_refl; lia). rewrite B in T. destruct T as (t & Q & N & _).
    exists t. unfold first. rewrite Q, N. unfold window_size. rewrite Z.eqb_refl. unfold npos. repeat split; lia.
  Qed.

  (** C56.  Swapping two references, possibly of different span objects, exchanges their components pairwise and changes
      nothing else. *)
  Theorem C56_swap : forall (st : state) sl sr L Rr lhs rhs, soa_span L = Ok sl -> soa_span Rr = Ok sr -> length Rr = length L ->
    get_obj st (r_obj lhs) = Ok sl -> get_obj st (r_obj rhs) = Ok sr ->
    Forall (span_ok (mem st)) L -> Forall (span_ok (mem st)) Rr -> Forall (fun p => s_const p = false) L -> Forall (fun p => s_const p = false) Rr ->
    r_const lhs = soa_const sl -> 0 <= r_index lhs < soa_size sl -> 0 <= r_index rhs < soa_size sr ->
    (forall x y b i, comp L (r_index lhs) x b i -> comp L (r_index lhs) y b i -> x = y) ->
    (forall x y b i, comp Rr (r_index rhs) x b i -> comp Rr (r_index rhs) y b i -> x = y) ->
    (forall x y b i, comp L (r_index lhs) x b i -> comp Rr (r_index rhs) y b i -> x = y) ->
    exists st', ref_swap st lhs rhs = Ok st' /\ objs st' = objs st /\ same_layout (mem st) (mem st') /\
      (forall x b i b' i', comp L (r_index lhs) x b i -> comp Rr (r_index rhs) x b' i' ->
         cell (mem st') b i = cell (mem st) b' i' /\ cell (mem st') b' i' = cell (mem st) b i) /\
      (forall b i, (forall x, ~ comp L (r_index lhs) x b i /\ ~ comp Rr (r_index rhs) x b i) -> cell (mem st') b i = cell (mem st) b i).
  Proof.
    intros st sl sr L Rr lhs rhs Hl Hr Ln Gl Gr Ol Or Ml Mr Rc Kl Kr Dl Dr Dx. unfold ref_swap. rewrite Rc. destruct (soa_inv _ _ Hl) as (C1 & C2 & _). destruct (soa_inv _ _ Hr) as (_ & C2' & _).
    rewrite C1, map_length. assert (X : existsb (fun c => c) (map s_const L) = false).
    { clear - Ml. induction Ml as [|p L H _ IH]; [reflexivity|]. cbn. rewrite H. exact IH. }
    rewrite X. destruct (swap_from_spec (length L) st lhs rhs sl sr L Rr 0) as (st' & E & Ob & La & G & F); auto; try (apply obj_inv; assumption); try (apply writable_mutable; assumption); try (eapply all_in_range; eauto; fail).
    exists st'. split; [exact E|]. split; [exact Ob|]. split; [exact La|]. split.
    - intros x b i b' i'. apply G. lia.
    - intros b i N. apply F. auto.
  Qed.

  (** Swapping two elements of a soa_span<> exchanges the rows and leaves all other memory unchanged. *)
  Definition swap_elements (st : state) (o : nat) (j k : Z) : outcome state :=
    do r <- subscript st o j; do r' <- subscript st o k; ref_swap st r r'.
  Lemma swap_rows : forall (st : state) spans s o j k, soa_span spans = Ok s -> get_obj st o = Ok s -> Forall (span_ok (mem st)) spans ->
    Forall (fun p => s_const p = false) spans -> disjoint spans -> 0 <= j < soa_size s -> 0 <= k < soa_size s ->
    exists st', swap_elements st o j k = Ok st' /\ objs st' = objs st /\ same_layout (mem st) (mem st') /\
      (forall i, nth_error (rows (mem st') spans (soa_size s)) i = nth_error (rows (mem st) spans (soa_size s)) (exchange (Z.to_nat j) (Z.to_nat k) i)) /\
      (forall b i, (forall p, In p spans -> ~ covers p b i) -> cell (mem st') b i = cell (mem st) b i).
  Proof.
    intros st spans s o j k H G O M D J K. pose proof (soa_range _ _ _ H O) as Z. pose proof (all_in_range _ _ j H J) as RJ. pose proof (all_in_range _ _ k H K) as RK.
    unfold swap_elements, subscript. rewrite G. cbn [bind]. destruct (Z.ltb_spec j (soa_size s)); [|lia]. destruct (Z.ltb_spec k (soa_size s)); [|lia]. cbn [expects bind]. rewrite !ptrdiff_id by lia.
    destruct (C56_swap st s s spans spans (mk_ref (soa_const s) o j) (mk_ref (soa_const s) o k)) as (st' & E & Ob & La & X & F); cbn [r_obj r_const r_index]; auto.
    { intros; eapply comp_disjoint; [exact D|exact RJ|eassumption|eassumption]. }
    { intros; eapply comp_disjoint; [exact D|exact RK|eassumption|eassumption]. }
    { intros; eapply comp_disjoint2; [exact D|exact RJ|exact RK|eassumption|eassumption]. }
    cbn [r_index] in *. exists st'. split; [exact E|]. split; [exact Ob|]. split; [exact La|]. split.
    - assert (Q : forall p i, In p spans -> (i < Z.to_nat (soa_size s))%nat -> nth_error (column (mem st') p) i = nth_error (column (mem st) p) (exchange (Z.to_nat j) (Z.to_nat k) i)).
      { intros p i I Hi. pose proof (proj1 (Forall_forall _ _) O p I) as Op. pose proof (layout_span _ _ _ La Op) as Op'. destruct (soa_inv _ _ H) as (_ & _ & C3 & _). pose proof (proj1 (Forall_forall _ _) C3 p I) as Sp. cbv beta in Sp.
        destruct (In_nth_error _ _ I) as [x Hx].
        destruct (at_index_ex (mem st) p j Op ltac:(lia)) as (bj & ij & Aj). destruct (at_index_ex (mem st) p k Op ltac:(lia)) as (bk & ik & Ak).
        destruct (X x bj ij bk ik ltac:(exists p; auto) ltac:(exists p; auto)) as [X1 X2].
        rewrite (cell_column (mem st') p j), (cell_column (mem st) p k) in X1 by (auto; lia). rewrite (cell_column (mem st') p k), (cell_column (mem st) p j) in X2 by (auto; lia).
        unfold exchange. destruct (Nat.eqb_spec i (Z.to_nat j)) as [->|Nj]; [exact X1|]. destruct (Nat.eqb_spec i (Z.to_nat k)) as [->|Nk]; [exact X2|].
        destruct (at_index_ex (mem st) p (Z.of_nat i) Op ltac:(lia)) as (b & c & A). pose proof (cell_column (mem st) p (Z.of_nat i) b c Op ltac:(lia) A) as Y1. pose proof (cell_column (mem st') p (Z.of_nat i) b c Op' ltac:(lia) A) as Y2.
        rewrite Nat2Z.id in Y1, Y2. rewrite <- Y1, <- Y2. apply F.
        assert (RI : in_range (Z.of_nat i) spans) by (eapply all_in_range; eauto; lia).
        assert (Cx : comp spans (Z.of_nat i) x b c) by (exists p; auto).
        intro y. split; intro Qy; [pose proof (comp_disjoint2 spans (Z.of_nat i) j x y b c D RI RJ Cx Qy)|pose proof (comp_disjoint2 spans (Z.of_nat i) k x y b c D RI RK Cx Qy)]; lia. }
      intro i. unfold rows. rewrite !nth_error_map. destruct (Nat.ltb_spec i (Z.to_nat (soa_size s))) as [Li|Li].
      + rewrite (nth_error_nth' _ 0%nat) by (rewrite seq_length; lia). rewrite seq_nth by lia. assert (Lx : (exchange (Z.to_nat j) (Z.to_nat k) i < Z.to_nat (soa_size s))%nat).
        { unfold exchange. destruct (Nat.eqb_spec i (Z.to_nat j)); [lia|]. destruct (Nat.eqb_spec i (Z.to_nat k)); lia. }
        rewrite (nth_error_nth' _ 0%nat) by (rewrite seq_length; lia). rewrite seq_nth by lia. cbn [option_map Nat.add]. f_equal. unfold row. rewrite !map_map. apply map_ext_in. intros p I. apply Q; auto.
      + rewrite (proj2 (nth_error_None _ _)) by (rewrite seq_length; lia). assert (E' : exchange (Z.to_nat j) (Z.to_nat k) i = i).
        { unfold exchange. destruct (Nat.eqb_spec i (Z.to_nat j)); [lia|]. destruct (Nat.eqb_spec i (Z.to_nat k)); lia. }
        rewrite E', (proj2 (nth_error_None _ _)) by (rewrite seq_length; lia). reflexivity.
    - intros b i N. apply F. intro x. split; intros (p & Hp & A); apply (N p); try (eapply nth_error_In; eassumption); [exists j|exists k]; split; auto.
      + apply (proj1 (Forall_forall _ _) RJ). eapply nth_error_In; eauto.
      + apply (proj1 (Forall_forall _ _) RK). eapply nth_error_In; eauto.
  Qed.
  Theorem C56_swap_rows : forall (st : state) spans s o j k, soa_span spans = Ok s -> get_obj st o = Ok s -> Forall (span_ok (mem st)) spans ->
    Forall (fun p => s_const p = false) spans -> disjoint spans -> 0 <= j < soa_size s -> 0 <= k < soa_size s ->
    exists r r' st', subscript st o j = Ok r /\ subscript st o k = Ok r' /\ ref_swap st r r' = Ok st' /\ objs st' = objs st /\
      (forall i, nth_error (rows (mem st') spans (soa_size s)) i = nth_error (rows (mem st) spans (soa_size s)) (exchange (Z.to_nat j) (Z.to_nat k) i)) /\
      (forall b i, (forall p, In p spans -> ~ covers p b i) -> cell (mem st') b i = cell (mem st) b i).
  Proof.
    intros st spans s o j k H G O M D J K. destruct (swap_rows st spans s o j k H G O M D J K) as (st' & E & E1 & _ & E2 & E3).
    unfold swap_elements in E. destruct (subscript st o j) as [r| | | | |]; try discriminate. destruct (subscript st o k) as [r'| | | | |]; try discriminate. exists r, r', st'. cbn [bind] in E. repeat split; assumption.
  Qed.

  Lemma exchange_inj : forall j k, Injective (exchange j k).
  Proof. intros j k x y. unfold exchange. destruct (Nat.eqb_spec x j), (Nat.eqb_spec y j), (Nat.eqb_spec x k), (Nat.eqb_spec y k); intro; subst; congruence. Qed.
  Fixpoint swap_all (st : state) (o : nat) (l : list (Z * Z)) : outcome state :=
    match l with [] => Ok st | (j, k) :: l' => do st' <- swap_elements st o j k; swap_all st' o l' end.
  (** Any sequence of swaps permutes the tuples. *)
  Theorem C56_swaps_permute : forall l (st : state) spans s o, soa_span spans = Ok s -> get_obj st o = Ok s -> Forall (span_ok (mem st)) spans ->
    Forall (fun p => s_const p = false) spans -> disjoint spans -> Forall (fun jk => 0 <= fst jk < soa_size s /\ 0 <= snd jk < soa_size s) l ->
    exists st', swap_all st o l = Ok st' /\ objs st' = objs st /\ Permutation (rows (mem st) spans (soa_size s)) (rows (mem st') spans (soa_size s)) /\
      (forall b i, (forall p, In p spans -> ~ covers p b i) -> cell (mem st') b i = cell (mem st) b i).
  Proof.
    induction l as [|[j k] l IH]; intros st spans s o H G O M D F; [exists st; repeat split; auto|]. inversion F as [|? ? [J K] F']; subst. cbn [fst snd] in *.
    destruct (swap_rows st spans s o j k H G O M D J K) as (st1 & E1 & Ob1 & La1 & R1 & C1). cbn [swap_all]. rewrite E1. cbn [bind].
    destruct (IH st1 spans s o H) as (st' & E' & Ob' & P' & C'); auto.
    { apply obj_inv. rewrite Ob1. apply obj_inv. assumption. } { eapply layout_spans; eauto. }
    exists st'. split; [exact E'|]. split; [congruence|]. split.
    - eapply Permutation_trans; [|exact P']. apply Permutation_nth_error. split; [unfold rows; rewrite !map_length; reflexivity|]. exists (exchange (Z.to_nat j) (Z.to_nat k)). split; [apply exchange_inj|exact R1].
    - intros b i N. rewrite C', C1; auto.
  Qed.

  (** Assigning one reference to another copies all components and changes nothing else; the elements may be of different
      span objects, if no component of the destination is another component of the source. *)
  Theorem C56_assign : forall (st : state) sl sr L Rr lhs rhs, soa_span L = Ok sl -> soa_span Rr = Ok sr -> length Rr = length L ->
    get_obj st (r_obj lhs) = Ok sl -> get_obj st (r_obj rhs) = Ok sr ->
    Forall (span_ok (mem st)) L -> Forall (span_ok (mem st)) Rr -> Forall (fun p => s_const p = false) L ->
    0 <= r_index lhs < soa_size sl -> 0 <= r_index rhs < soa_size sr ->
    (forall x y b i, comp L (r_index lhs) x b i -> comp L (r_index lhs) y b i -> x = y) ->
    (forall x y b i, comp L (r_index lhs) x b i -> comp Rr (r_index rhs) y b i -> x = y) ->
    exists st', ref_assign st lhs rhs = Ok st' /\ objs st' = objs st /\ same_layout (mem st) (mem st') /\
      (forall x b i b' i', comp L (r_index lhs) x b i -> comp Rr (r_index rhs) x b' i' -> cell (mem st') b i = cell (mem st) b' i') /\
      (forall b i, (forall x, ~ comp L (r_index lhs) x b i) -> cell (mem st') b i = cell (mem st) b i).
  Proof.
    intros st sl sr L Rr lhs rhs Hl Hr Ln Gl Gr Ol Or Ml Kl Kr Dl Dx. destruct (soa_inv _ _ Hl) as (_ & C2 & _). destruct (soa_inv _ _ Hr) as (_ & C2' & _).
    unfold ref_assign. rewrite Gl, Gr. cbn [bind]. rewrite C2, C2'.
    destruct (assign_elements_spec L Rr (mem st) (r_index lhs) (r_index rhs)) as (m' & E & La & F & X); auto; try (apply writable_mutable; assumption); try (eapply all_in_range; eauto; fail).
    rewrite E. cbn [bind]. exists (mk_state m' (objs st)). cbn [objs mem]. repeat split; auto. apply X; assumption.
  Qed.
  Theorem C56_assign_rows : forall (st : state) spans s o j k, soa_span spans = Ok s -> get_obj st o = Ok s -> Forall (span_ok (mem st)) spans ->
    Forall (fun p => s_const p = false) spans -> disjoint spans -> 0 <= j < soa_size s -> 0 <= k < soa_size s ->
    exists r r' st', subscript st o j = Ok r /\ subscript st o k = Ok r' /\ ref_assign st r r' = Ok st' /\ objs st' = objs st /\
      (forall p, In p spans -> forall v, nth_error (column (mem st) p) (Z.to_nat k) = Some v -> column (mem st') p = upd (column (mem st) p) (Z.to_nat j) v) /\
      (forall b i, (forall p, In p spans -> ~ at_index p j b i) -> cell (mem st') b i = cell (mem st) b i).
  Proof.
    intros st spans s o j k H G O M D J K. pose proof (soa_range _ _ _ H O) as Z. pose proof (all_in_range _ _ j H J) as RJ. pose proof (all_in_range _ _ k H K) as RK.
    exists (mk_ref (soa_const s) o j), (mk_ref (soa_const s) o k).
    unfold subscript. rewrite G. cbn [bind]. destruct (Z.ltb_spec j (soa_size s)); [|lia]. destruct (Z.ltb_spec k (soa_size s)); [|lia]. cbn [expects bind]. rewrite !ptrdiff_id by lia.
    destruct (C56_assign st s s spans spans (mk_ref (soa_const s) o j) (mk_ref (soa_const s) o k)) as (st' & E & Ob & La & X & F); cbn [r_obj r_const r_index]; auto.
    { intros; eapply comp_disjoint; [exact D|exact RJ|eassumption|eassumption]. }
    { intros; eapply comp_disjoint2; [exact D|exact RJ|exact RK|eassumption|eassumption]. }
    cbn [r_index] in *. exists st'. repeat (split; [reflexivity || exact E || exact Ob|]). split.
    - intros p I v Hv. pose proof (proj1 (Forall_forall _ _) O p I) as Op. pose proof (proj1 (Forall_forall _ _) RJ p I) as Pj. pose proof (proj1 (Forall_forall _ _) RK p I) as Pk. cbv beta in *.
      destruct (In_nth_error _ _ I) as [x Hx]. apply (column_ext (mem st)); auto. { rewrite upd_length. apply column_length. assumption. }
      intros i b c Hi A. destruct (Z.eq_dec i j) as [->|N].
      + destruct (at_index_ex (mem st) p k Op ltac:(lia)) as (bk & ik & Ak). rewrite (X x b c bk ik) by (exists p; auto). rewrite (cell_column (mem st) p k) by auto. pose proof (column_length (mem st) p Op). rewrite nth_error_upd_same by lia. assumption.
      + rewrite nth_error_upd_other by lia. rewrite <- (cell_column (mem st) p i b c) by auto. apply F. intros y (q & Hq & Aq).
        assert (x = y). { apply (D x y p q b c); auto; [exists i; auto|exists j; split; auto]. apply (proj1 (Forall_forall _ _) RJ). eapply nth_error_In; eauto. }
        subst y. rewrite Hx in Hq. injection Hq as <-. apply N. eapply at_index_inj; eauto.
    - intros b i N. apply F. intros x (q & Hq & Aq). apply (N q); auto. eapply nth_error_In; eauto.
  Qed.
End Props.

(** Concrete cases: two arrays of five and four elements, spans of three of them each. *)
Definition ex_mem : memory (V := Z) := [mk_block false [10; 11; 12; 13; 14]; mk_block false [20; 21; 22; 23]].
Definition ex_spans : list span := [mk_span false (PAt 0 1) 3; mk_span false (PAt 1 0) 3].
Definition ex_soa : soa := mk_soa [false; false] [PAt 0 1; PAt 1 0] 3.
Definition ex_state : state (V := Z) := mk_state ex_mem [Some ex_soa].
Example ex_hypotheses : soa_span ex_spans = Ok ex_soa /\ get_obj ex_state 0 = Ok ex_soa /\ Forall (span_ok (mem ex_state)) ex_spans /\
  Forall (fun p => s_const p = false) ex_spans /\ disjoint ex_spans.
Proof.
  split; [reflexivity|]. split; [reflexivity|]. split.
  { repeat constructor; cbn; try lia; eexists; (split; [reflexivity|]); cbn; auto with zarith. }
  split; [repeat constructor|].
  intros x y p q b i Hx Hy (k & _ & A) (k' & _ & A'). unfold at_index in *.
  destruct x as [|[|x]]; destruct y as [|[|y]]; cbn in *; try reflexivity; try (destruct x; discriminate); try (destruct y; discriminate);
    injection Hx as <-; injection Hy as <-; cbn in *; lia.
Qed.
Example C53_example :
  (do r <- subscript ex_state 0 2; ref_read ex_state r) = Ok [13; 22] /\ subscript ex_state 0 3 = Contract /\
  soa_span [mk_span false (PAt 0 1) 3; mk_span false (PAt 1 0) 4] = Contract /\
  (do r <- subscript ex_state 0 2; do st <- ref_assign_tuple ex_state r [7; 8]; Ok (mem st)) = Ok [mk_block false [10; 11; 12; 7; 14]; mk_block false [20; 21; 8; 23]] /\
  soa_for (fun l st r => do v <- ref_read st r; Ok (l ++ [v], st)) 3 [] ex_state 0 = Ok ([[11; 20]; [12; 21]; [13; 22]], ex_state).
Proof. repeat split. Qed.
Example C55_example : subspan ex_mem ex_soa 1 2 = Ok (mk_soa [false; false] [PAt 0 2; PAt 1 1] 2) /\ subspan ex_mem ex_soa 1 npos = Ok (mk_soa [false; false] [PAt 0 2; PAt 1 1] 2) /\
  subspan ex_mem ex_soa 2 2 = Contract /\ last ex_mem ex_soa 1 = Ok (mk_soa [false; false] [PAt 0 3; PAt 1 2] 1) /\ last ex_mem ex_soa 4 = Contract /\ first ex_mem ex_soa 4 = Contract.
Proof. repeat split. Qed.
Example C56_example : (do st <- swap_all ex_state 0 [(0, 2); (1, 2)]; Ok (rows (mem st) ex_spans 3)) = Ok [[Some 13; Some 22]; [Some 11; Some 20]; [Some 12; Some 21]] /\
  (do r <- subscript ex_state 0 0; do r' <- subscript ex_state 0 2; do st <- ref_assign ex_state r r'; Ok (mem st)) = Ok [mk_block false [10; 13; 12; 13; 14]; mk_block false [22; 21; 22; 23]].
Proof. repeat split. Qed.
Theorem C54_empty_refuted : exists (spans : list span) s, soa_span spans = Ok s /\ size s = 3 /\ empty s = true.
Proof. exists ex_spans, ex_soa. repeat split. Qed.
Theorem C54_front_back_refuted : exists (st : state (V := Z)) o s, get_obj st o = Ok s /\ size s = 3 /\ front st o = Contract /\ back st o = Contract.
Proof. exists ex_state. do 2 eexists. split; [exact (proj1 (proj2 ex_hypotheses))|]. repeat split. Qed.
Theorem C55_first_marker_refuted : exists (m : memory (V := Z)) s s', size s < npos /\ first m s npos = Ok s'.
Proof. exists ex_mem, ex_soa. eexists. split; reflexivity. Qed.
Example C54_example : empty ex_soa = true /\ front ex_state 0 = Contract /\
  front (mk_state ex_mem [Some (mk_soa [] [] 0)]) 0 = Ok (mk_ref [] 0 0).
Proof. repeat split. Qed.

(** A reference or iterator refers to the span object: it dangles when obtained from a temporary, and follows assignments to it
    (unlike those of gsl::span<>). *)
Theorem C53_temporary_refuted : exists (st st1 : state (V := Z)) o s r, get_obj st 0 = Ok ex_soa /\ subspan (mem st) ex_soa 1 2 = Ok s /\ new_obj st s = (st1, o) /\
  subscript st1 o 0 = Ok r /\ ref_read st1 r = Ok [12; 21] /\ (do st2 <- destroy_obj st1 o; ref_read st2 r) = UB.
Proof. exists ex_state. do 4 eexists. repeat split. Qed.
Theorem C53_reassigned_refuted : exists (st st1 : state (V := Z)) s it, begin_ st 0 = Ok it /\ ref_read st (it_deref it) = Ok [11; 20] /\ subspan (mem st) ex_soa 1 2 = Ok s /\
  assign_obj st 0 s = Ok st1 /\ mem st1 = mem st /\ ref_read st1 (it_deref it) = Ok [12; 21].
Proof. exists ex_state. do 3 eexists. repeat split. Qed.
(** References to const elements can be assigned to: through cbegin(), and even through spans of const elements, where the
    effect is undefined if the elements are const objects. *)
Theorem C53_const_refuted : exists (st st' : state (V := Z)) it, cbegin st 0 = Ok it /\ it_const it = [true; true] /\
  ref_assign_tuple st (it_deref it) [1; 2] = Ok st' /\ mem st' <> mem st.
Proof. exists ex_state. do 2 eexists. repeat split. cbn. discriminate. Qed.
Theorem C53_const_objects_refuted : exists (st : state (V := Z)) spans s r, soa_span spans = Ok s /\ get_obj st 0 = Ok s /\ Forall (span_ok (mem st)) spans /\
  Forall (fun p => s_const p = true) spans /\ subscript st 0 0 = Ok r /\ ref_assign_tuple st r [1] = UB.
Proof.
  exists (mk_state [mk_block true [5; 6]] [Some (mk_soa [true] [PAt 0 0] 2)]), [mk_span true (PAt 0 0) 2]. do 2 eexists. repeat split; auto.
  repeat constructor; cbn; try lia. eexists. split; [reflexivity|]. cbn. split; [lia|]. split; [lia|]. discriminate.
Qed.
Print Assumptions C53_accept.
Print Assumptions C53_components.
Print Assumptions C53_read.
Print Assumptions C53_write.
Print Assumptions C53_write_component.
Print Assumptions C53_iteration.
Print Assumptions C53_collect.
Print Assumptions C53_iterators.
Print Assumptions C54_empty_inverted.
Print Assumptions C54_empty_refuted.
Print Assumptions C54_front_back_inverted.
Print Assumptions C54_front_back_refuted.
Print Assumptions C54_size_partial.
Print Assumptions C55_subspan.
Print Assumptions C55_compose.
Print Assumptions C55_first_last.
Print Assumptions C55_first_marker_accepted.
Print Assumptions C55_first_marker_refuted.
Print Assumptions C56_swap.
Print Assumptions C56_swap_rows.
Print Assumptions C56_swaps_permute.
Print Assumptions C56_assign.
Print Assumptions C56_assign_rows.
Print Assumptions C53_temporary_refuted.
Print Assumptions C53_reassigned_refuted.
Print Assumptions C53_const_refuted.
Print Assumptions C53_const_objects_refuted.
