(** Lemmas about soa_span<>. *)

From Coq Require Import ZArith Arith Bool Lia List.
From Verif Require Import Base ExpandModel ExpandSpec ExpandProofs RangeSpec RangeProofs BufferProofs BufferSim SoaModel SoaSpec.
Import ListNotations.
Local Open Scope Z_scope.

Section Proofs.
  Context {V : Type}.
  Local Notation memory := (memory (V := V)).

  Lemma check_ok : forall vs n, check_all_equal vs = Ok n <-> (vs = [] /\ n = 0 \/ vs <> [] /\ Forall (eq n) vs).
  Proof.
    induction vs as [|v vs IH]; intro n; [cbn; split; [intro H; injection H; auto|intros [[_ ->]|[H _]]; congruence]|].
    destruct vs as [|w vs].
    - cbn. split; [intro H; injection H as <-; right; split; [discriminate|auto]|intros [[H _]|[_ H]]; [discriminate|]; inversion H; subst; reflexivity].
    - cbn [check_all_equal] in *. split.
      + intro H. apply bind_ok_inv in H as [r [H1 H2]]. apply bind_ok_inv in H2 as [[] [H2 H3]]. injection H3 as <-. apply expects_ok, Z.eqb_eq in H2. subst.
        apply IH in H1. destruct H1 as [[H1 _]|[_ H1]]; [discriminate|]. right. split; [discriminate|]. constructor; auto.
      + intros [[H _]|[_ H]]; [discriminate|]. inversion H as [|? ? E F]; subst. rewrite (proj2 (IH v)); [|right; split; [discriminate|auto]].
        cbn [bind]. rewrite Z.eqb_refl. reflexivity.
  Qed.
  Lemma check_total : forall vs, (exists n, check_all_equal vs = Ok n) \/ check_all_equal vs = Contract.
  Proof.
    induction vs as [|v vs IH]; [left; eexists; reflexivity|]. destruct vs as [|w vs]; [left; eexists; reflexivity|].
    cbn [check_all_equal] in *. destruct IH as [[n ->]| ->]; [|right; reflexivity]. cbn [bind]. destruct (v =? n); [left; eexists; reflexivity|right; reflexivity].
  Qed.

  (** Memory. *)
  Lemma layout_refl : forall m : memory, same_layout m m.
  Proof. reflexivity. Qed.
  Lemma layout_trans : forall m1 m2 m3 : memory, same_layout m1 m2 -> same_layout m2 m3 -> same_layout m1 m3.
  Proof. unfold same_layout. congruence. Qed.
  Lemma layout_nth : forall (m m' : memory) b bl, same_layout m m' -> nth_error m b = Some bl ->
    exists bl', nth_error m' b = Some bl' /\ b_const bl' = b_const bl /\ length (b_elems bl') = length (b_elems bl).
  Proof.
    intros m m' b bl H E. unfold same_layout in H. apply (f_equal (fun l => nth_error l b)) in H. rewrite !nth_error_map, E in H. cbn in H.
    destruct (nth_error m' b) as [bl'|]; [|discriminate]. cbn in H. injection H as H1 H2. exists bl'. auto.
  Qed.
  Lemma layout_span : forall (m m' : memory) s, same_layout m m' -> span_ok m s -> span_ok m' s.
  Proof.
    intros m m' s H [H1 H2]. split; [assumption|]. destruct (s_data s); [assumption|]. destruct H2 as (bl & E & H2 & H3 & H4).
    destruct (layout_nth m m' _ _ H E) as (bl' & E' & C & L). exists bl'. rewrite L, C. auto.
  Qed.
  Lemma layout_spans : forall (m m' : memory) spans, same_layout m m' -> Forall (span_ok m) spans -> Forall (span_ok m') spans.
  Proof. intros m m' spans H. apply Forall_impl. intro. apply layout_span. assumption. Qed.

  Lemma upd_same_nth : forall A (l : list A) i a, nth_error l i = Some a -> upd l i a = l.
  Proof. induction l as [|x l IH]; intros i a H; [destruct i; discriminate|]. destruct i; cbn in *; [congruence|]. rewrite IH; auto. Qed.
  Lemma map_upd : forall A B (f : A -> B) l i a, map f (upd l i a) = upd (map f l) i (f a).
  Proof. induction l as [|x l IH]; intros i a; [reflexivity|]. destruct i; cbn; [reflexivity|]. rewrite IH. reflexivity. Qed.

  Lemma load_cell : forall (m : memory) b i v, load m (PAt b i) = Ok v <-> cell m b i = Some v.
  Proof.
    intros m b i v. unfold load, cell, aget, arr_get. destruct (nth_error m b) as [bl|].
    - destruct (i <? 0); [split; discriminate|]. destruct (nth_error (b_elems bl) (Z.to_nat i)); split; intro H; inversion H; reflexivity.
    - destruct (i <? 0); split; discriminate.
  Qed.
  Lemma store_ok : forall (m : memory) b i v bl, nth_error m b = Some bl -> b_const bl = false -> 0 <= i < Z.of_nat (length (b_elems bl)) ->
    exists m', store m (PAt b i) v = Ok m' /\ same_layout m m' /\
    forall b' i', cell m' b' i' = if Nat.eqb b' b && (i' =? i) then Some v else cell m b' i'.
  Proof.
    intros m b i v bl E C L. unfold store. rewrite E, C. cbn [orb]. destruct (Z.ltb_spec i 0); [lia|]. destruct (Z.leb_spec (Z.of_nat (length (b_elems bl))) i); [lia|].
    cbn [orb]. eexists. split; [reflexivity|]. split.
    - unfold same_layout. rewrite map_upd. cbn [b_const b_elems]. rewrite upd_length. symmetry. apply upd_same_nth. rewrite nth_error_map, E. cbn. rewrite C. reflexivity.
    - intros b' i'. unfold cell. destruct (Nat.eqb_spec b' b) as [->|N].
      + rewrite nth_error_upd_same by (apply nth_error_Some; congruence). cbn [b_elems]. rewrite E. cbn [andb].
        destruct (Z.eqb_spec i' i) as [->|N].
        * destruct (Z.ltb_spec i 0); [lia|]. apply nth_error_upd_same. lia.
        * destruct (Z.ltb_spec i' 0); [reflexivity|]. apply nth_error_upd_other. lia.
      + cbn [andb]. rewrite nth_error_upd_other by auto. reflexivity.
  Qed.

  (** Element [k] of a span. *)
  Lemma span_access : forall (m : memory) s k, span_ok m s -> 0 <= k < s_size s ->
    exists b i bl, ptr_add m (s_data s) k = Ok (PAt b i) /\ at_index s k b i /\ nth_error m b = Some bl /\ 0 <= i < Z.of_nat (length (b_elems bl)) /\
      (s_const s = false -> b_const bl = false).
  Proof.
    intros m s k [H1 H2] K. unfold at_index. destruct (s_data s) as [|b i]; [lia|]. destruct H2 as (bl & E & H2 & H3 & H4). cbn [ptr_add]. rewrite E.
    rewrite !(proj2 (Z.leb_le _ _)) by lia. exists b, (i + k), bl. repeat split; auto; lia.
  Qed.
  Lemma cell_column : forall (m : memory) s k b i, span_ok m s -> 0 <= k < s_size s -> at_index s k b i -> cell m b i = nth_error (column m s) (Z.to_nat k).
  Proof.
    intros m s k b i [H1 H2] K A. unfold at_index in A. unfold column, cell. destruct (s_data s) as [|b' i']; [destruct A|]. destruct A as [-> <-].
    destruct H2 as (bl & E & H2 & H3 & _). rewrite E. destruct (Z.ltb_spec (i' + k) 0); [lia|].
    rewrite (nth_error_firstn (b_elems bl)) by lia. rewrite nth_error_skipn. f_equal. lia.
  Qed.
  Lemma column_length : forall (m : memory) s, span_ok m s -> Z.of_nat (length (column m s)) = s_size s.
  Proof.
    intros m s [H1 H2]. unfold column. destruct (s_data s) as [|b i]; [cbn; lia|]. destruct H2 as (bl & E & H2 & H3 & _). rewrite E, firstn_length, skipn_length. lia.
  Qed.
  Lemma load_at_column : forall (m : memory) s k, span_ok m s -> 0 <= k < s_size s ->
    exists v, load_at m (s_data s) k = Ok v /\ nth_error (column m s) (Z.to_nat k) = Some v.
  Proof.
    intros m s k H K. destruct (span_access m s k H K) as (b & i & bl & E & A & _). unfold load_at. rewrite E. cbn [bind].
    destruct (nth_error (column m s) (Z.to_nat k)) as [v|] eqn:C; [|apply nth_error_None in C; pose proof (column_length m s H); lia].
    exists v. split; [|reflexivity]. apply load_cell. rewrite (cell_column m s k b i) by auto. assumption.
  Qed.
  Lemma store_at_cell : forall (m : memory) s k v, span_ok m s -> s_const s = false -> 0 <= k < s_size s ->
    exists m' b i, store_at m (s_data s) k v = Ok m' /\ at_index s k b i /\ same_layout m m' /\
    forall b' i', cell m' b' i' = if Nat.eqb b' b && (i' =? i) then Some v else cell m b' i'.
  Proof.
    intros m s k v H C K. destruct (span_access m s k H K) as (b & i & bl & E & A & N & L & Cb).
    destruct (store_ok m b i v bl N (Cb C) L) as (m' & S1 & S2 & S3). exists m', b, i. unfold store_at. rewrite E. auto.
  Qed.

  (** Columns are determined by cells. *)
  Lemma at_index_fun : forall s k b i b' i', at_index s k b i -> at_index s k b' i' -> b = b' /\ i = i'.
  Proof. intros s k b i b' i'. unfold at_index. destruct (s_data s); [tauto|]. intros [-> <-] [-> <-]. auto. Qed.
  Lemma at_index_inj : forall s k k' b i, at_index s k b i -> at_index s k' b i -> k = k'.
  Proof. intros s k k' b i. unfold at_index. destruct (s_data s); [tauto|]. intros [_ H] [_ H']. lia. Qed.
  Lemma at_index_ex : forall (m : memory) s k, span_ok m s -> 0 <= k < s_size s -> exists b i, at_index s k b i.
  Proof. intros m s k [H1 H2] K. unfold at_index. destruct (s_data s) as [|b i]; [lia|eauto]. Qed.
  Lemma nth_error_ext : forall A (l l' : list A), (forall k, nth_error l k = nth_error l' k) -> l = l'.
  Proof.
    induction l as [|x l IH]; intros [|y l'] H; [reflexivity|specialize (H 0%nat); discriminate|specialize (H 0%nat); discriminate|].
    f_equal; [specialize (H 0%nat); cbn in H; congruence|]. apply IH. intro k. exact (H (S k)).
  Qed.
  Lemma column_ext : forall (m m' : memory) s l, same_layout m m' -> span_ok m s -> Z.of_nat (length l) = s_size s ->
    (forall k b i, 0 <= k < s_size s -> at_index s k b i -> cell m' b i = nth_error l (Z.to_nat k)) -> column m' s = l.
  Proof.
    intros m m' s l L H N C. pose proof (layout_span _ _ _ L H) as H'. apply nth_error_ext. intro k.
    destruct (Z.ltb_spec (Z.of_nat k) (s_size s)) as [K|K].
    - destruct (at_index_ex m s (Z.of_nat k) H ltac:(lia)) as (b & i & A). specialize (C (Z.of_nat k) b i ltac:(lia) A).
      rewrite (cell_column m' s (Z.of_nat k) b i H' ltac:(lia) A), Nat2Z.id in C. exact C.
    - pose proof (column_length m' s H'). rewrite !(proj2 (nth_error_None _ _)) by lia. reflexivity.
  Qed.

  (** Cell (b, i) is element [k] of the [x]-th span. *)
  Definition comp (spans : list span) (k : Z) (x : nat) (b : nat) (i : Z) : Prop := exists s, nth_error spans x = Some s /\ at_index s k b i.
  Lemma comp_fun : forall spans k x b i b' i', comp spans k x b i -> comp spans k x b' i' -> b = b' /\ i = i'.
  Proof. intros spans k x b i b' i' (s & H1 & H2) (s' & H3 & H4). rewrite H1 in H3. injection H3 as <-. eapply at_index_fun; eauto. Qed.
  Lemma comp_cons : forall s spans k x b i, comp (s :: spans) k (S x) b i <-> comp spans k x b i.
  Proof. intros. unfold comp. cbn. reflexivity. Qed.
  Definition in_range (k : Z) (spans : list span) : Prop := Forall (fun s => 0 <= k < s_size s) spans.
  Definition writable (m : memory) (spans : list span) : Prop :=
    Forall (fun s => forall b i bl, s_data s = PAt b i -> nth_error m b = Some bl -> b_const bl = false) spans.
  Lemma writable_layout : forall m m' spans, same_layout m m' -> writable m spans -> writable m' spans.
  Proof.
    intros m m' spans L. apply Forall_impl. intros s H b i bl E N. destruct (layout_nth m' m b bl ltac:(symmetry; exact L) N) as (bl' & N' & C & _).
    rewrite <- C. eapply H; eauto.
  Qed.
  Lemma writable_span : forall (m : memory) s k v, span_ok m s -> (forall b i bl, s_data s = PAt b i -> nth_error m b = Some bl -> b_const bl = false) -> 0 <= k < s_size s ->
    exists m' b i, store_at m (s_data s) k v = Ok m' /\ at_index s k b i /\ same_layout m m' /\
    forall b' i', cell m' b' i' = if Nat.eqb b' b && (i' =? i) then Some v else cell m b' i'.
  Proof.
    intros m s k v H C K. apply (store_at_cell m (mk_span false (s_data s) (s_size s)) k v); auto.
    destruct H as [H1 H2]. split; [assumption|]. cbn [s_data s_size s_const]. destruct (s_data s) as [|b i]; [assumption|]. destruct H2 as (bl & E & H2 & H3 & _).
    exists bl. repeat split; auto. intros _. eapply C; eauto.
  Qed.
  Lemma cell_neq : forall b i b' i', ~ (b = b' /\ i = i') -> Nat.eqb b' b && (i' =? i) = false.
  Proof. intros b i b' i' H. destruct (Nat.eqb_spec b' b); destruct (Z.eqb_spec i' i); cbn; auto. exfalso. apply H. auto. Qed.
  Lemma cell_same : forall b (i : Z), Nat.eqb b b && (i =? i) = true.
  Proof. intros. rewrite Nat.eqb_refl, Z.eqb_refl. reflexivity. Qed.

  Lemma assign_values_spec : forall spans vals (m : memory) k, Forall (span_ok m) spans -> writable m spans -> length vals = length spans -> in_range k spans ->
    exists m', assign_values m (map s_data spans) k vals = Ok m' /\ same_layout m m' /\
      (forall b i, (forall x, ~ comp spans k x b i) -> cell m' b i = cell m b i) /\
      ((forall x y b i, comp spans k x b i -> comp spans k y b i -> x = y) ->
       forall x b i v, comp spans k x b i -> nth_error vals x = Some v -> cell m' b i = Some v).
  Proof.
    induction spans as [|s spans IH]; intros vals m k Hok Hw Hl Hk; destruct vals as [|v vals]; try discriminate.
    - exists m. cbn. repeat split; auto. intros _ x b i v (s & H & _). destruct x; discriminate.
    - inversion Hok; subst. inversion Hw; subst. inversion Hk; subst. cbn in Hl. cbn [map assign_values].
      destruct (writable_span m s k v) as (m1 & b1 & i1 & E1 & A1 & L1 & C1); auto. rewrite E1. cbn [bind].
      destruct (IH vals m1 k) as (m' & E' & L' & F' & V'); try lia; auto.
      { eapply layout_spans; eauto. } { eapply writable_layout; eauto. }
      exists m'. split; [exact E'|]. split; [eapply layout_trans; eauto|]. split.
      + intros b i N. rewrite F' by (intros x Hx; exact (N (S x) Hx)). rewrite C1. rewrite cell_neq; [reflexivity|].
        intros [-> ->]. apply (N 0%nat). exists s. auto.
      + intros D x b i w Hx Hv. destruct x as [|x].
        * cbn in Hv. injection Hv as <-. assert (b = b1 /\ i = i1) as [-> ->] by (destruct Hx as (s' & Q & A); cbn in Q; injection Q as <-; eapply at_index_fun; eauto).
          rewrite F', C1, cell_same; [reflexivity|]. intros y Hy. assert (Q : 0%nat = S y); [|discriminate]. eapply D; [exact Hx|exact Hy].
        * apply (V' ltac:(intros x' y b' i' Hx' Hy'; assert (S x' = S y) by (apply (D (S x') (S y) b' i'); assumption); lia) x); [exact Hx|exact Hv].
  Qed.

  Lemma assign_elements_spec : forall dsts srcs (m : memory) dk sk, Forall (span_ok m) dsts -> writable m dsts -> Forall (span_ok m) srcs ->
    length srcs = length dsts -> in_range dk dsts -> in_range sk srcs ->
    exists m', assign_elements m (map s_data dsts) dk (map s_data srcs) sk = Ok m' /\ same_layout m m' /\
      (forall b i, (forall x, ~ comp dsts dk x b i) -> cell m' b i = cell m b i) /\
      ((forall x y b i, comp dsts dk x b i -> comp dsts dk y b i -> x = y) -> (forall x y b i, comp dsts dk x b i -> comp srcs sk y b i -> x = y) ->
       forall x b i b' i', comp dsts dk x b i -> comp srcs sk x b' i' -> cell m' b i = cell m b' i').
  Proof.
    induction dsts as [|d dsts IH]; intros srcs m dk sk Hd Hw Hs Hl Hdk Hsk; destruct srcs as [|s srcs]; try discriminate.
    - exists m. cbn. repeat split; auto. intros _ _ x b i b' i' (s & H & _). destruct x; discriminate.
    - inversion Hd; subst. inversion Hw; subst. inversion Hs; subst. inversion Hdk; subst. inversion Hsk; subst. cbn in Hl. cbn [map assign_elements].
      destruct (load_at_column m s sk) as (v & Ev & Cv); auto. rewrite Ev. cbn [bind].
      destruct (writable_span m d dk v) as (m1 & b1 & i1 & E1 & A1 & L1 & C1); auto. rewrite E1. cbn [bind].
      destruct (IH srcs m1 dk sk) as (m' & E' & L' & F' & V'); try lia; auto.
      { eapply layout_spans; eauto. } { eapply writable_layout; eauto. } { eapply layout_spans; eauto. }
      exists m'. split; [exact E'|]. split; [eapply layout_trans; eauto|]. split.
      + intros b i N. rewrite F' by (intros x Hx; exact (N (S x) Hx)). rewrite C1. rewrite cell_neq; [reflexivity|].
        intros [-> ->]. apply (N 0%nat). exists d. auto.
      + intros D X x b i b' i' Hx Hy. destruct x as [|x].
        * assert (b = b1 /\ i = i1) as [-> ->] by (destruct Hx as (s' & Q & A); cbn in Q; injection Q as <-; eapply at_index_fun; eauto).
          rewrite F', C1, cell_same; [|intros y Hz; assert (Q : 0%nat = S y); [|discriminate]; eapply D; [exact Hx|exact Hz]].
          destruct Hy as (s' & Q & A). cbn in Q. injection Q as <-. rewrite (cell_column m s sk b' i') by auto. auto.
        * rewrite (V' ltac:(intros x' y b2 i2 Hx' Hy'; assert (S x' = S y) by (apply (D (S x') (S y) b2 i2); assumption); lia)
                      ltac:(intros x' y b2 i2 Hx' Hy'; assert (S x' = S y) by (apply (X (S x') (S y) b2 i2); assumption); lia) x b i b' i'); [|exact Hx|exact Hy].
          rewrite C1, cell_neq; [reflexivity|]. intros [<- <-]. assert (Q : 0%nat = S x); [|discriminate]. eapply X; [exists d; split; [reflexivity|exact A1]|exact Hy].
  Qed.

  Lemma comp_access : forall (m : memory) spans k x, Forall (span_ok m) spans -> writable m spans -> in_range k spans -> (x < length spans)%nat ->
    exists s b i bl, nth_error spans x = Some s /\ ptr_add m (s_data s) k = Ok (PAt b i) /\ comp spans k x b i /\ nth_error m b = Some bl /\ b_const bl = false /\
      0 <= i < Z.of_nat (length (b_elems bl)) /\ exists v, cell m b i = Some v.
  Proof.
    intros m spans k x H1 H2 H3 L. destruct (nth_error spans x) as [s|] eqn:E; [|apply nth_error_None in E; lia]. exists s. pose proof (nth_error_In _ _ E) as I.
    pose proof (proj1 (Forall_forall _ _) H1 s I) as K1. pose proof (proj1 (Forall_forall _ _) H2 s I) as K2. pose proof (proj1 (Forall_forall _ _) H3 s I) as K3. cbv beta in *.
    destruct (span_access m s k K1 K3) as (b & i & bl & P & A & N & B & _). exists b, i, bl. repeat split; auto; try lia.
    - exists s. auto.
    - unfold at_index in A. destruct (s_data s) as [|b' i']; [destruct A|]. destruct A as [-> _]. eapply K2; eauto.
    - unfold cell. rewrite N. destruct (Z.ltb_spec i 0); [lia|]. destruct (nth_error (b_elems bl) (Z.to_nat i)) as [v|] eqn:Q; [eauto|]. apply nth_error_None in Q. lia.
  Qed.

  Lemma swap_elems_spec : forall (m : memory) b1 i1 bl1 b2 i2 bl2 v1 v2, nth_error m b1 = Some bl1 -> b_const bl1 = false -> 0 <= i1 < Z.of_nat (length (b_elems bl1)) ->
    nth_error m b2 = Some bl2 -> b_const bl2 = false -> 0 <= i2 < Z.of_nat (length (b_elems bl2)) -> cell m b1 i1 = Some v1 -> cell m b2 i2 = Some v2 ->
    exists m', swap_elems m (PAt b1 i1) (PAt b2 i2) = Ok m' /\ same_layout m m' /\
      cell m' b1 i1 = Some v2 /\ cell m' b2 i2 = Some v1 /\ forall b i, ~ (b = b1 /\ i = i1) -> ~ (b = b2 /\ i = i2) -> cell m' b i = cell m b i.
  Proof.
    intros m b1 i1 bl1 b2 i2 bl2 v1 v2 N1 C1 L1 N2 C2 L2 V1 V2. unfold swap_elems. rewrite (proj2 (load_cell m b1 i1 v1)), (proj2 (load_cell m b2 i2 v2)) by auto. cbn [bind].
    destruct (store_ok m b1 i1 v2 bl1 N1 C1 L1) as (m1 & E1 & La1 & D1). rewrite E1. cbn [bind].
    destruct (layout_nth m m1 b2 bl2 La1 N2) as (bl2' & N2' & C2' & L2').
    destruct (store_ok m1 b2 i2 v1 bl2' N2' ltac:(congruence) ltac:(lia)) as (m2 & E2 & La2 & D2). rewrite E2.
    exists m2. split; [reflexivity|]. split; [eapply layout_trans; eauto|]. split; [|split].
    - rewrite D2. destruct (Nat.eqb_spec b1 b2); destruct (Z.eqb_spec i1 i2); cbn [andb]; try (rewrite D1, cell_same; reflexivity). congruence.
    - rewrite D2, cell_same. reflexivity.
    - intros b i H1 H2. rewrite D2, D1, !cell_neq; auto.
      + intros [-> ->]. auto.
      + intros [-> ->]. auto.
  Qed.

  Lemma swap_from_spec : forall n (st : state) lhs rhs sl sr L Rr iC,
    nth_error (objs st) (r_obj lhs) = Some (Some sl) -> nth_error (objs st) (r_obj rhs) = Some (Some sr) ->
    soa_data sl = map s_data L -> soa_data sr = map s_data Rr -> (iC + n = length L)%nat -> length Rr = length L ->
    Forall (span_ok (mem st)) L -> Forall (span_ok (mem st)) Rr -> writable (mem st) L -> writable (mem st) Rr ->
    in_range (r_index lhs) L -> in_range (r_index rhs) Rr ->
    (forall x y b i, comp L (r_index lhs) x b i -> comp L (r_index lhs) y b i -> x = y) ->
    (forall x y b i, comp Rr (r_index rhs) x b i -> comp Rr (r_index rhs) y b i -> x = y) ->
    (forall x y b i, comp L (r_index lhs) x b i -> comp Rr (r_index rhs) y b i -> x = y) ->
    exists st', swap_from st lhs rhs iC n = Ok st' /\ objs st' = objs st /\ same_layout (mem st) (mem st') /\
      (forall x b i b' i', (iC <= x)%nat -> comp L (r_index lhs) x b i -> comp Rr (r_index rhs) x b' i' ->
         cell (mem st') b i = cell (mem st) b' i' /\ cell (mem st') b' i' = cell (mem st) b i) /\
      (forall b i, (forall x, (iC <= x)%nat -> ~ comp L (r_index lhs) x b i /\ ~ comp Rr (r_index rhs) x b i) -> cell (mem st') b i = cell (mem st) b i).
  Proof.
    induction n as [|n IH]; intros st lhs rhs sl sr L Rr iC Ol Or Dl Dr Hn HL Okl Okr Wl Wr Il Ir Jl Jr Jx.
    - exists st. cbn. repeat split; auto.
      + destruct H0 as (s & E & _). apply nth_error_lt in E. lia.
      + destruct H0 as (s & E & _). apply nth_error_lt in E. lia.
    - cbn [swap_from].
      destruct (comp_access (mem st) L (r_index lhs) iC) as (s1 & b1 & i1 & bl1 & E1 & P1 & A1 & N1 & C1 & B1 & v1 & V1); auto; [lia|].
      destruct (comp_access (mem st) Rr (r_index rhs) iC) as (s2 & b2 & i2 & bl2 & E2 & P2 & A2 & N2 & C2 & B2 & v2 & V2); auto; [lia|].
      unfold ref_get at 1, get_obj at 1. rewrite Ol. cbn [bind]. rewrite Dl, nth_error_map, E1. cbn [option_map]. rewrite P1. cbn [bind].
      unfold ref_get at 1, get_obj at 1. rewrite Or. cbn [bind]. rewrite Dr, nth_error_map, E2. cbn [option_map]. rewrite P2. cbn [bind].
      destruct (swap_elems_spec (mem st) b1 i1 bl1 b2 i2 bl2 v1 v2) as (m1 & S1 & La1 & X1 & X2 & X3); auto. rewrite S1. cbn [bind].
      destruct (IH (mk_state m1 (objs st)) lhs rhs sl sr L Rr (S iC)) as (st' & E' & O' & La' & G' & F'); cbn [objs mem]; auto; try lia;
        try (eapply layout_spans; eassumption); try (eapply writable_layout; eassumption).
      cbn [objs mem] in *. exists st'. split; [exact E'|]. split; [exact O'|]. split; [eapply layout_trans; eauto|]. split.
      + intros x b i b' i' Hx Hl Hr. destruct (Nat.eq_dec x iC) as [->|Nx].
        * destruct (comp_fun _ _ _ _ _ _ _ Hl A1) as [-> ->]. destruct (comp_fun _ _ _ _ _ _ _ Hr A2) as [-> ->].
          assert (Q1 : forall y, (S iC <= y)%nat -> ~ comp L (r_index lhs) y b1 i1 /\ ~ comp Rr (r_index rhs) y b1 i1).
          { intros y Hy. split; intro Hc; [pose proof (Jl _ _ _ _ A1 Hc)|pose proof (Jx _ _ _ _ A1 Hc)]; lia. }
          assert (Q2 : forall y, (S iC <= y)%nat -> ~ comp L (r_index lhs) y b2 i2 /\ ~ comp Rr (r_index rhs) y b2 i2).
          { intros y Hy. split; intro Hc; [pose proof (Jx _ _ _ _ Hc A2)|pose proof (Jr _ _ _ _ A2 Hc)]; lia. }
          rewrite (F' _ _ Q1), (F' _ _ Q2), X1, X2, V1, V2. auto.
        * destruct (G' x b i b' i' ltac:(lia) Hl Hr) as [G1 G2]. rewrite G1, G2.
          assert (M : forall c j, comp L (r_index lhs) x c j \/ comp Rr (r_index rhs) x c j -> cell m1 c j = cell (mem st) c j).
          { intros c j Hc. apply X3; intros [-> ->]; destruct Hc as [Hc|Hc];
              [pose proof (Jl _ _ _ _ A1 Hc)|pose proof (Jx _ _ _ _ A1 Hc)|pose proof (Jx _ _ _ _ Hc A2)|pose proof (Jr _ _ _ _ A2 Hc)]; lia. }
          split; apply M; auto.
      + intros b i H. rewrite F' by (intros x Hx; apply H; lia). apply X3; intros [-> ->]; destruct (H iC ltac:(lia)) as [Q1 Q2]; auto.
  Qed.
End Proofs.
