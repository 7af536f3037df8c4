(** Proofs about zip iterators, loops over zipped ranges, range algorithms, categories and generators. *)

From Coq Require Import ZArith NArith Arith Bool List Lia Permutation.
From Verif Require Import Base ZipModel ZipSpec ZipProofs.
Import ListNotations.

Local Open Scope Z_scope.

(** * Iterators at a position *)
Definition leaf_at (j : Z) (k : nat) (r : rng) : leaf :=
  match r_mode r with MPair | MIter => set_pos (leaf_begin k r) j | _ => leaf_begin k r end.
Definition iter_at (rs : list rng) (j : Z) : zip_iterator := {| z_i := j; z_leaves := mapi (leaf_at j) 0 rs |}.

Lemma mapi_ext : forall A B (f g : nat -> A -> B) l k, (forall i a, In a l -> f i a = g i a) -> mapi f k l = mapi g k l.
Proof. induction l as [|a l IH]; intros k H; cbn; auto. rewrite (H k a (or_introl eq_refl)), IH; auto. intros; apply H; right; auto. Qed.

Lemma mapM_mapi : forall A B C (f : B -> outcome C) (g : nat -> A -> B) (h : nat -> A -> C) l k,
  (forall i a, In a l -> f (g i a) = Ok (h i a)) -> mapM f (mapi g k l) = Ok (mapi h k l).
Proof.
  induction l as [|a l IH]; intros k H; cbn [mapi mapM]; auto.
  rewrite (H k a (or_introl eq_refl)). cbn [bind]. rewrite IH; [reflexivity|]. intros; apply H; right; auto.
Qed.

Lemma mapi_combine : forall A B (f : nat -> A -> B) l k,
  mapi f k l = map (fun kr => f (fst kr) (snd kr)) (combine (seq k (length l)) l).
Proof. induction l as [|a l IH]; intro k; cbn; auto. rewrite IH. auto. Qed.

Lemma map_mapi : forall A B C (f : B -> C) (g : nat -> A -> B) l k, map f (mapi g k l) = mapi (fun i a => f (g i a)) k l.
Proof. induction l as [|a l IH]; intro k; cbn; auto. rewrite IH. auto. Qed.

Lemma mapi_map : forall A B (f : A -> B) l k, mapi (fun _ a => f a) k l = map f l.
Proof. induction l as [|a l IH]; intro k; cbn; auto. rewrite IH. auto. Qed.

Lemma tuple_at_mapi : forall rs j, tuple_at rs j = mapi (fun k r => match r_mode r with MRangeIndex => RIdx j | _ => RElem k j end) 0 rs.
Proof. intros. rewrite mapi_combine. reflexivity. Qed.

Lemma iter_at_begin : forall rs, zip_begin rs = iter_at rs 0.
Proof.
  intros. unfold zip_begin, iter_at. f_equal. apply mapi_ext. intros i r _. unfold leaf_at, leaf_begin, set_pos.
  destruct (r_mode r); reflexivity.
Qed.

Lemma leaf_at_rng : forall j k r, l_rng (leaf_at j k r) = r /\ l_k (leaf_at j k r) = k.
Proof. intros. unfold leaf_at. destruct (r_mode r); cbn; auto. Qed.

Lemma zip_advance_at : forall rs j d, (forall r, In r rs -> holds_elements r -> 0 <= j + d <= r_len r) ->
  zip_advance (iter_at rs j) d = Ok (iter_at rs (j + d)).
Proof.
  intros rs j d H. unfold zip_advance, iter_at. cbn [z_leaves z_i].
  rewrite (mapM_mapi _ _ _ _ (leaf_at j) (leaf_at (j + d))); [reflexivity|].
  intros i r Hr. specialize (H r Hr). unfold holds_elements in H. unfold leaf_advance, leaf_at, move_to.
  destruct (r_mode r) eqn:E; cbn -[Z.leb]; rewrite ?E; cbn -[Z.leb]; try reflexivity;
    (destruct (Z.leb_spec 0 (j + d)); [|exfalso; assert (0 <= j + d <= r_len r) by (apply H; discriminate); lia]);
    (destruct (Z.leb_spec (j + d) (r_len r)); [|exfalso; assert (0 <= j + d <= r_len r) by (apply H; discriminate); lia]); reflexivity.
Qed.

Lemma zip_subscript_at : forall rs j d, (forall r, In r rs -> holds_elements r -> 0 <= j + d < r_len r) ->
  zip_subscript (iter_at rs j) d = Ok (tuple_at rs (j + d)).
Proof.
  intros rs j d H. unfold zip_subscript, iter_at. cbn [z_leaves z_i]. rewrite tuple_at_mapi.
  apply mapM_mapi. intros i r Hr. specialize (H r Hr). unfold holds_elements in H. unfold leaf_deref, leaf_at.
  destruct (r_mode r) eqn:E; cbn -[Z.leb Z.ltb]; rewrite ?E; cbn -[Z.leb Z.ltb]; try reflexivity;
    (destruct (Z.leb_spec 0 (j + d)); [|exfalso; assert (0 <= j + d < r_len r) by (apply H; discriminate); lia]);
    (destruct (Z.ltb_spec (j + d) (r_len r)); [|exfalso; assert (0 <= j + d < r_len r) by (apply H; discriminate); lia]); reflexivity.
Qed.

Lemma zip_deref_at : forall rs j, (forall r, In r rs -> holds_elements r -> 0 <= j < r_len r) ->
  zip_deref (iter_at rs j) = Ok (tuple_at rs j).
Proof. intros rs j H. unfold zip_deref. rewrite zip_subscript_at; rewrite Z.add_0_r; auto. Qed.

(** * End checks *)
Lemma check_end_ok : forall rs j b, (forall r, In r rs -> r_mode r = MPair -> (j =? r_len r) = b) ->
  zip_check_end b (iter_at rs j) = Ok tt.
Proof.
  intros rs j b H. unfold zip_check_end, iter_at. cbn [z_leaves].
  rewrite (mapM_mapi _ _ _ _ (leaf_at j) (fun _ _ => tt)); [reflexivity|].
  intros i r Hr. specialize (H r Hr). unfold leaf_check_end, leaf_at, leaf_begin.
  destruct (r_mode r) eqn:E; cbn -[Z.eqb]; rewrite ?E; try reflexivity. rewrite (H eq_refl).
  cbn. destruct b; reflexivity.
Qed.

Lemma mapM_unit_fail : forall A (f : A -> outcome unit) l, (forall a, In a l -> f a = Ok tt \/ f a = Contract) ->
  (exists a, In a l /\ f a = Contract) -> mapM f l = Contract.
Proof.
  induction l as [|a l IH]; intros H [x [Hx Hf]]; [destruct Hx|]. cbn [mapM].
  destruct (H a (or_introl eq_refl)) as [E|E]; rewrite E; cbn [bind]; [|reflexivity].
  destruct Hx as [->|Hx]; [congruence|]. rewrite IH; [reflexivity|intros; apply H; right; auto|exists x; auto].
Qed.

Lemma in_mapi : forall A B (f : nat -> A -> B) l k b, In b (mapi f k l) -> exists i a, In a l /\ b = f i a.
Proof.
  induction l as [|a l IH]; intros k b H; [destruct H|]. cbn in H. destruct H as [<-|H].
  - exists k, a. split; [left; auto|auto].
  - destruct (IH _ _ H) as [i [a' [H1 H2]]]. exists i, a'. split; [right; auto|auto].
Qed.
Lemma mapi_in : forall A B (f : nat -> A -> B) l k a, In a l -> exists i, In (f i a) (mapi f k l).
Proof.
  induction l as [|x l IH]; intros k a H; [destruct H|]. cbn. destruct H as [->|H].
  - exists k. left; auto.
  - destruct (IH (S k) a H) as [i Hi]. exists i. right; auto.
Qed.

Lemma check_end_contract : forall rs j b, (exists r, In r rs /\ r_mode r = MPair /\ (j =? r_len r) = negb b) ->
  zip_check_end b (iter_at rs j) = Contract.
Proof.
  intros rs j b [r [Hr [Hm He]]]. unfold zip_check_end, iter_at. cbn [z_leaves].
  rewrite mapM_unit_fail; [reflexivity| |].
  - intros l Hl. apply in_mapi in Hl as [i [a [Ha ->]]]. unfold leaf_check_end.
    destruct (r_mode (l_rng (leaf_at j i a))); auto. unfold expects.
    destruct (Bool.eqb (l_pos (leaf_at j i a) =? l_end (leaf_at j i a)) b); auto.
  - destruct (mapi_in _ _ (leaf_at j) rs 0%nat r Hr) as [i Hi]. exists (leaf_at j i r). split; auto.
    unfold leaf_check_end, leaf_at, leaf_begin. rewrite Hm. cbn -[Z.eqb]. rewrite Hm. rewrite He. destruct b; reflexivity.
Qed.

(** is_end() *)
Local Arguments is_end : simpl never.
Lemma is_end_all : forall fuel l b, (length l < fuel)%nat -> (forall x, In (Some x) l -> x = b) ->
  is_end l = Ok (Some b) /\ In (Some b) l \/ is_end l = Ok None /\ (forall o, In o l -> o = None) \/ is_end l = IllFormed.
Proof.
  induction fuel as [|fuel IH]; intros l b Hl Hb; [lia|].
  destruct l as [|a [|c es]].
  - right. left. split; [reflexivity|]. intros o [].
  - unfold is_end. destruct a as [x|].
    + left. rewrite (Hb x (or_introl eq_refl)). split; [reflexivity|left; reflexivity].
    + right. left. split; [reflexivity|]. intros o [<-|[]]; auto.
  - assert (H2 : is_end2 a c = Ok (Some b) /\ (In (Some b) [a; c]) \/ is_end2 a c = Ok None /\ a = None /\ c = None).
    { destruct a as [x|], c as [y|]; cbn.
      - left. rewrite (Hb x (or_introl eq_refl)), (Hb y (or_intror (or_introl eq_refl))). destruct b; cbn; auto.
      - left. rewrite (Hb x (or_introl eq_refl)). auto.
      - left. rewrite (Hb y (or_intror (or_introl eq_refl))). auto.
      - right. auto. }
    destruct es as [|e es].
    + unfold is_end. destruct H2 as [[H2 Hin]|[H2 [-> ->]]]; rewrite H2.
      * left. split; auto.
      * right. left. split; auto. intros o [<-|[<-|[]]]; auto.
    + change (is_end (a :: c :: e :: es)) with
        (do x <- is_end2 a c; do y <- is_end (e :: es); do z <- is_end2 x y; match z with Some e => Ok (Some e) | None => IllFormed end).
      destruct (IH (e :: es) b) as [[H3 Hin]|[[H3 Hin]|H3]]; [cbn in *; lia|intros x Hx; apply Hb; right; right; auto| | |].
      * left. rewrite H3. split; [|right; right; auto].
        destruct H2 as [[H2 _]|[H2 _]]; rewrite H2; cbn; auto. destruct b; reflexivity.
      * rewrite H3. destruct H2 as [[H2 Hin2]|[H2 [-> ->]]]; rewrite H2; cbn.
        -- left. split; auto. cbn in Hin2. intuition.
        -- right. right. auto.
      * right. right. rewrite H3. destruct H2 as [[H2 _]|[H2 _]]; rewrite H2; cbn; auto.
Qed.

(** Shape of the result: only depends on which entries are present. *)
Lemma is_end_shape : forall fuel l l', (length l < fuel)%nat -> map (option_map (fun _ => tt)) l = map (option_map (fun _ => tt)) l' ->
  (exists b, forall x, In (Some x) l -> x = b) ->
  match is_end l with
  | Ok (Some _) => (exists b, is_end l' = Ok (Some b)) \/ is_end l' = Contract
  | Ok None => is_end l' = Ok None
  | IllFormed => is_end l' = IllFormed \/ is_end l' = Contract
  | _ => False
  end.
Proof.
  induction fuel as [|fuel IH]; intros l l' Hl Hm [b Hb]; [lia|].
  destruct l as [|a [|c es]], l' as [|a' [|c' es']]; try discriminate.
  - reflexivity.
  - unfold is_end. cbn in *. injection Hm as Hm. destruct a, a'; try discriminate; eauto.
  - cbn [map] in Hm. injection Hm as Ha Hc Hes.
    assert (H2 : match is_end2 a c with
                 | Ok (Some _) => (exists b, is_end2 a' c' = Ok (Some b)) \/ is_end2 a' c' = Contract
                 | Ok None => is_end2 a' c' = Ok None
                 | _ => False end).
    { destruct a as [x|], a' as [x'|], c as [y|], c' as [y'|]; try discriminate; cbn; eauto.
      rewrite (Hb x (or_introl eq_refl)), (Hb y (or_intror (or_introl eq_refl))).
      replace (Bool.eqb b b) with true by (destruct b; auto). cbn. destruct (Bool.eqb x' y'); cbn; eauto. }
    destruct es as [|e es], es' as [|e' es']; try discriminate.
    + unfold is_end. destruct (is_end2 a c) as [[x|]| | | | |]; auto; contradiction.
    + assert (Q : forall a c e es, is_end (a :: c :: e :: es) =
        (do x <- is_end2 a c; do y <- is_end (e :: es); do z <- is_end2 x y; match z with Some e => Ok (Some e) | None => IllFormed end)) by reflexivity.
      rewrite !Q. clear Q.
      assert (H3 := IH (e :: es) (e' :: es')). 
      assert (Hle : (length (e :: es) < fuel)%nat) by (cbn in *; lia).
      specialize (H3 Hle Hes). assert (Hex : exists b, forall x, In (Some x) (e :: es) -> x = b).
      { exists b. intros x Hx. apply Hb. right; right; auto. }
      specialize (H3 Hex).
      destruct (is_end_all (S (length (e :: es))) (e :: es) b (Nat.lt_succ_diag_r _)) as [[G1 G2]|[[G1 G2]|G1]];
        [intros x Hx; apply Hb; right; right; auto| | |]; rewrite G1 in *.
      * destruct (is_end2 a c) as [[x|]| | | | |] eqn:Ex; try contradiction; cbn [bind is_end2].
        -- assert (Hx : x = b).
           { destruct a as [xa|], c as [xc|]; cbn in Ex; try (unfold expects in Ex; destruct (Bool.eqb _ _) eqn:?; cbn in Ex; try discriminate); try discriminate.
             - injection Ex as <-. apply Hb. left; auto.
             - injection Ex as <-. apply Hb. left; auto.
             - injection Ex as <-. apply Hb. right; left; auto. }
           rewrite Hx. replace (Bool.eqb b b) with true by (destruct b; auto). cbn.
           destruct H2 as [[b1 E1]|E1]; rewrite E1; cbn; auto. destruct H3 as [[b2 E2]|E2]; rewrite E2; cbn; auto.
           destruct (Bool.eqb b1 b2); cbn; eauto.
        -- cbn. rewrite H2. cbn. destruct H3 as [[b2 E2]|E2]; rewrite E2; cbn; eauto.
      * destruct (is_end2 a c) as [[x|]| | | | |] eqn:Ex; try contradiction; cbn [bind is_end2].
        -- cbn. destruct H2 as [[b1 E1]|E1]; rewrite E1; cbn; auto. rewrite H3. cbn. eauto.
        -- cbn. rewrite H2. cbn. rewrite H3. cbn. auto.
      * destruct (is_end2 a c) as [[x|]| | | | |] eqn:Ex; try contradiction; cbn [bind].
        -- destruct H2 as [[b1 E1]|E1]; rewrite E1; cbn; auto. destruct H3 as [E2|E2]; rewrite E2; cbn; auto.
        -- rewrite H2. cbn. destruct H3 as [E2|E2]; rewrite E2; cbn; auto.
Qed.

Lemma is_end2_inv : forall a c z, is_end2 a c = Ok z ->
  (forall x, In (Some x) [a; c] -> z = Some x) /\ (z = None -> a = None /\ c = None).
Proof.
  intros a c z H. destruct a as [x|], c as [y|]; cbn in H.
  - unfold expects in H. destruct (Bool.eqb x y) eqn:E; [|discriminate]. injection H as <-. apply eqb_prop in E. subst y.
    split; [|discriminate]. intros w [Hw|[Hw|[]]]; congruence.
  - injection H as <-. split; [|discriminate]. intros w [Hw|[Hw|[]]]; congruence.
  - injection H as <-. split; [|discriminate]. intros w [Hw|[Hw|[]]]; try discriminate; injection Hw as <-; auto.
  - injection H as <-. split; auto. intros w [Hw|[Hw|[]]]; discriminate.
Qed.

Lemma is_end_cons3 : forall a c e es, is_end (a :: c :: e :: es) =
  (do x <- is_end2 a c; do y <- is_end (e :: es); do z <- is_end2 x y; match z with Some e => Ok (Some e) | None => IllFormed end).
Proof. reflexivity. Qed.

Lemma is_end_agree : forall fuel l z, (length l < fuel)%nat -> is_end l = Ok z -> forall x, In (Some x) l -> z = Some x.
Proof.
  induction fuel as [|fuel IH]; intros l z Hl H x Hx; [lia|].
  destruct l as [|a [|c [|e es]]].
  - destruct Hx.
  - injection H as <-. destruct Hx as [->|[]]. auto.
  - apply (proj1 (is_end2_inv a c z H)). auto.
  - rewrite is_end_cons3 in H.
    destruct (is_end2 a c) as [u| | | | |] eqn:E1; try discriminate. cbn [bind] in H.
    destruct (is_end (e :: es)) as [v| | | | |] eqn:E2; try discriminate. cbn [bind] in H.
    destruct (is_end2 u v) as [w| | | | |] eqn:E3; try discriminate. cbn [bind] in H.
    destruct w as [w|]; [|discriminate]. injection H as <-.
    pose proof (proj1 (is_end2_inv _ _ _ E3)) as H3.
    assert (Hcase : In (Some x) [a; c] \/ In (Some x) (e :: es)) by (destruct Hx as [Hx|[Hx|Hx]]; cbn; auto).
    destruct Hcase as [Hc|Hc].
    + pose proof (proj1 (is_end2_inv _ _ _ E1) x Hc) as ->. apply H3. left; auto.
    + assert (v = Some x) by (apply (IH (e :: es) v); auto; cbn in *; lia). subst v. apply H3. right; left; auto.
Qed.

Lemma is_end_illformed : forall fuel l b, (length l < fuel)%nat -> (forall x, In (Some x) l -> x = b) -> is_end l = IllFormed ->
  (3 <= length (filter (fun o => match o with None => true | Some _ => false end) l))%nat.
Proof.
  induction fuel as [|fuel IH]; intros l b Hl Hb H; [lia|].
  destruct l as [|a [|c [|e es]]].
  - discriminate.
  - discriminate.
  - change (is_end2 a c = IllFormed) in H. destruct a as [x|], c as [y|]; cbn in H; try discriminate.
    unfold expects in H. destruct (Bool.eqb x y); discriminate.
  - rewrite is_end_cons3 in H.
    destruct (is_end2 a c) as [u| | | | |] eqn:E1;
      try (destruct a as [x|], c as [y|]; cbn in E1; try discriminate; unfold expects in E1; destruct (Bool.eqb x y); discriminate).
    cbn [bind] in H.
    destruct (is_end_all (S (length (e :: es))) (e :: es) b (Nat.lt_succ_diag_r _)) as [[G1 G2]|[[G1 G2]|G1]].
    + intros x Hx. apply Hb. right; right; auto.
    + rewrite G1 in H. cbn [bind] in H. destruct (is_end2 u (Some b)) as [[w|]| | | | |] eqn:E3; try discriminate.
      * apply is_end2_inv in E3. destruct E3 as [_ E3]. destruct (E3 eq_refl). discriminate.
      * destruct u as [x|]; cbn in E3; try discriminate. unfold expects in E3. destruct (Bool.eqb x b); discriminate.
    + rewrite G1 in H. cbn [bind] in H. destruct u as [u|]; [discriminate|].
      destruct (proj2 (is_end2_inv _ _ _ E1) eq_refl) as [-> ->]. rewrite (G2 e (or_introl eq_refl)). cbn. lia.
    + assert (IH' := IH (e :: es) b). assert (3 <= length (filter (fun o : option bool => match o with None => true | Some _ => false end) (e :: es)))%nat.
      { apply IH'; auto. - cbn in *; lia. - intros x Hx. apply Hb. right; right; auto. }
      cbn in *. destruct a, c; cbn; lia.
Qed.

(** * Sizes of ranges *)
Lemma range_size_static : forall rs n, Forall proper_range rs ->
  (static_size (map range_size rs) n <-> exists r, In r rs /\ holds_elements r /\ r_known r = KStatic /\ r_len r = n).
Proof.
  intros rs n Hp. rewrite Forall_forall in Hp. unfold static_size. split.
  - intros [H Hn]. apply in_map_iff in H as [r [H1 H2]]. exists r. split; auto. unfold range_size, unknown_size in H1.
    unfold holds_elements. destruct (r_mode r), (r_known r); try congruence;
      injection H1 as H1; split; try discriminate; auto.
  - intros [r [Hr [Hh [Hk <-]]]]. split.
    + apply in_map_iff. exists r. split; auto. unfold range_size. unfold holds_elements in Hh. destruct (r_mode r); try congruence; rewrite Hk; auto.
    + destruct (Hp r Hr) as [Hl _]. lia.
Qed.
Lemma range_size_known : forall rs n, Forall proper_range rs ->
  (known_size (map range_size rs) n <-> exists r, In r rs /\ holds_elements r /\ r_known r <> KUnknown /\ r_len r = n).
Proof.
  intros rs n Hp. unfold known_size. rewrite (range_size_static rs n Hp). split.
  - intros [[r [Hr [Hh [Hk Hl]]]]|H].
    + exists r. rewrite Hk. repeat split; auto. discriminate.
    + apply in_map_iff in H as [r [H1 H2]]. exists r. split; auto. unfold range_size in H1.
      unfold holds_elements. destruct (r_mode r), (r_known r); try congruence;
        injection H1 as H1; split; try discriminate; split; auto; discriminate.
  - intros [r [Hr [Hh [Hk <-]]]]. destruct (r_known r) eqn:E; [left; exists r; auto| |congruence].
    right. apply in_map_iff. exists r. split; auto. unfold range_size. unfold holds_elements in Hh. destruct (r_mode r); try congruence; rewrite E; auto.
Qed.
Lemma range_size_dyn_pos : forall rs n, Forall proper_range rs -> In (SDyn n) (map range_size rs) -> 0 <= n.
Proof.
  intros rs n Hp H. apply in_map_iff in H as [r [H1 H2]]. rewrite Forall_forall in Hp. destruct (Hp r H2) as [Hl _].
  unfold range_size in H1. destruct (r_mode r), (r_known r); try congruence; injection H1 as <-; auto.
Qed.

Section Sizes.
  Variable rs : list rng.
  Hypothesis Hp : Forall proper_range rs.

  (** Ranges of two known sizes that differ. *)
  Definition known_differ : Prop := exists r1 r2, In r1 rs /\ In r2 rs /\ holds_elements r1 /\ holds_elements r2 /\
    r_known r1 <> KUnknown /\ r_known r2 <> KUnknown /\ r_len r1 <> r_len r2.

  Lemma known_agree_dec : known_agree rs \/ known_differ.
  Proof.
    destruct (all_eq_dec (knowns (map range_size rs))) as [H|[a [b [Ha [Hb Hab]]]]].
    - left. intros r1 r2 H1 H2 Hh1 Hh2 Hk1 Hk2. apply H; apply knowns_in, range_size_known; eauto 6.
    - right. apply knowns_in, range_size_known in Ha as [r1 [H1 [H2 [H3 H4]]]]; auto.
      apply knowns_in, range_size_known in Hb as [r2 [K1 [K2 [K3 K4]]]]; auto.
      exists r1, r2. repeat split; auto. congruence.
  Qed.

  Lemma merge_ranges_differ : known_differ ->
    merge_sizes (map range_size rs) = IllFormed /\
      (exists r1 r2, In r1 rs /\ In r2 rs /\ holds_elements r1 /\ holds_elements r2 /\ r_known r1 = KStatic /\ r_known r2 = KStatic /\ r_len r1 <> r_len r2) \/
    merge_sizes (map range_size rs) = Contract /\
      (forall r1 r2, In r1 rs -> In r2 rs -> holds_elements r1 -> holds_elements r2 -> r_known r1 = KStatic -> r_known r2 = KStatic -> r_len r1 = r_len r2).
  Proof.
    intros [r1 [r2 [H1 [H2 [H3 [H4 [H5 [H6 H7]]]]]]]].
    assert (Hpos := fun n => range_size_dyn_pos rs n Hp).
    destruct (all_eq_dec (statics (map range_size rs))) as [H|[a [b [Ha [Hb Hab]]]]].
    - right. split.
      + apply (merge_sizes_conflict _ Hpos (r_len r1) (r_len r2)); auto.
        * intros c d Hc Hd. apply H; apply statics_in; auto.
        * apply range_size_known; eauto 6.
        * apply range_size_known; eauto 6.
      + intros s1 s2 K1 K2 K3 K4 K5 K6. apply H; apply statics_in, range_size_static; eauto 6.
    - left. apply statics_in in Ha, Hb. split.
      + apply (merge_sizes_static_conflict _ Hpos a b); auto.
      + apply range_size_static in Ha as [s1 [K1 [K2 [K3 K4]]]]; auto. apply range_size_static in Hb as [s2 [L1 [L2 [L3 L4]]]]; auto.
        exists s1, s2. repeat split; auto. congruence.
  Qed.

  Lemma merge_ranges_agree : known_agree rs -> forall r, In r rs -> holds_elements r -> r_known r <> KUnknown ->
    exists d, merge_sizes (map range_size rs) = Ok d /\ dim_value d = r_len r.
  Proof.
    intros Ha r Hr Hh Hk. assert (Hpos := fun n => range_size_dyn_pos rs n Hp).
    assert (Hkn : known_size (map range_size rs) (r_len r)) by (apply range_size_known; eauto 6).
    destruct (merge_sizes_agree _ Hpos (r_len r) Hkn) as [A1 A2].
    { intros a Hka. apply range_size_known in Hka as [r' [H1 [H2 [H3 <-]]]]; auto. }
    destruct (statics (map range_size rs)) as [|z s] eqn:Es.
    - exists (SDyn (r_len r)). split; auto. apply A2. intros a Hs. apply statics_in in Hs. rewrite Es in Hs. destruct Hs.
    - exists (SStatic (r_len r)). split; auto. apply A1.
      assert (Hz : static_size (map range_size rs) z) by (apply statics_in; rewrite Es; left; auto).
      assert (E : z = r_len r).
      { assert (Hz' := Hz). apply range_size_static in Hz' as [r' [H1 [H2 [H3 <-]]]]; auto. apply Ha; auto. rewrite H3. discriminate. }
      rewrite <- E. auto.
  Qed.

  Lemma merge_ranges_none : (forall r, In r rs -> holds_elements r -> r_known r = KUnknown) ->
    merge_sizes (map range_size rs) = Ok (SStatic (-1)).
  Proof.
    intro H. apply merge_sizes_none; [intros n; apply range_size_dyn_pos; auto|].
    intros a Ha. apply range_size_known in Ha as [r [H1 [H2 [H3 _]]]]; auto.
  Qed.
End Sizes.

(** * The end of the loop *)
Definition index_arguments (rs : list rng) : nat := length (filter is_range_index rs).

Lemma leaf_is_end_at : forall rs j, map leaf_is_end (z_leaves (iter_at rs j)) =
  map (fun r => match r_mode r with MPair => Some (j =? r_len r) | _ => None end) rs.
Proof.
  intros. unfold iter_at. cbn [z_leaves]. rewrite map_mapi. rewrite <- (mapi_map _ _ _ rs 0%nat). apply mapi_ext.
  intros i r _. unfold leaf_is_end, leaf_at, leaf_begin. destruct (r_mode r) eqn:E; cbn -[Z.eqb]; rewrite E; auto.
Qed.

Lemma known_dec : forall rs, (exists r, In r rs /\ holds_elements r /\ r_known r <> KUnknown) \/
  (forall r, In r rs -> holds_elements r -> r_known r = KUnknown).
Proof.
  induction rs as [|r rs IH]; [right; intros r []|].
  destruct IH as [[r' [H1 [H2 H3]]]|IH]; [left; exists r'; split; [right; auto|auto]|].
  destruct (r_mode r) eqn:Em; [destruct (r_known r) eqn:Ek| | |].
  - left. exists r. split; [left; auto|]. split; [unfold holds_elements; congruence|congruence].
  - left. exists r. split; [left; auto|]. split; [unfold holds_elements; congruence|congruence].
  - right. intros r' [<-|Hr'] Hh; auto.
  - destruct (r_known r) eqn:Ek; [left|left|right].
    + exists r. split; [left; auto|]. split; [unfold holds_elements; congruence|congruence].
    + exists r. split; [left; auto|]. split; [unfold holds_elements; congruence|congruence].
    + intros r' [<-|Hr'] Hh; auto.
  - destruct (r_known r) eqn:Ek; [left|left|right].
    + exists r. split; [left; auto|]. split; [unfold holds_elements; congruence|congruence].
    + exists r. split; [left; auto|]. split; [unfold holds_elements; congruence|congruence].
    + intros r' [<-|Hr'] Hh; auto.
  - right. intros r' [<-|Hr'] Hh; auto. unfold holds_elements in Hh. congruence.
Qed.

Section Ends.
  Variables (rs : list rng) (m : Z).
  Hypothesis Hp : Forall proper_range rs.
  Hypothesis Hm : shortest_length rs m.

  Lemma not_all_index : forallb is_range_index rs = false.
  Proof.
    destruct (forallb is_range_index rs) eqn:E; auto. exfalso. rewrite forallb_forall in E.
    destruct Hm as [[r [H1 [H2 _]]] _]. apply E in H1. unfold is_range_index in H1. unfold holds_elements in H2. destruct (r_mode r); congruence.
  Qed.

  Lemma shortest_nonneg : 0 <= m.
  Proof. destruct Hm as [[r [H1 [_ <-]]] _]. rewrite Forall_forall in Hp. destruct (Hp r H1). auto. Qed.

  Lemma algorithm_size_cases : known_agree rs ->
    (exists d, algorithm_size rs = Ok d /\ dim_value d <> -1 /\
       exists r, In r rs /\ holds_elements r /\ r_known r <> KUnknown /\ r_len r = dim_value d) \/
    ((forall r, In r rs -> holds_elements r -> r_known r = KUnknown) /\
     (algorithm_size rs = Ok (SStatic (-1)) /\ (exists b, is_end_type (map leaf_is_end (z_leaves (zip_begin rs))) = Ok (Some b)) \/
      algorithm_size rs = IllFormed /\ (3 <= index_arguments rs)%nat)).
  Proof.
    intro Ha. unfold algorithm_size. rewrite not_all_index.
    destruct (known_dec rs) as [[r [H1 [H2 H3]]]|Hn].
    - left. destruct (merge_ranges_agree rs Hp Ha r H1 H2 H3) as [d [E1 E2]]. rewrite E1. cbn [bind]. exists d.
      assert (Hd : dim_value d <> -1). { rewrite E2. rewrite Forall_forall in Hp. destruct (Hp r H1). lia. }
      split; [|split; auto; exists r; auto]. destruct d as [n|n]; auto. unfold unknown_size. cbn in Hd. destruct (Z.eqb_spec n (-1)); [congruence|auto].
    - right. split; auto. rewrite (merge_ranges_none rs Hp Hn). cbn [bind]. unfold unknown_size. rewrite Z.eqb_refl.
      rewrite iter_at_begin. rewrite leaf_is_end_at. unfold is_end_type. rewrite map_map.
      set (l := map _ rs).
      assert (Hl : l = map (fun r => match r_mode r with MPair => Some false | _ => None end) rs).
      { apply map_ext. intro r. destruct (r_mode r); auto. }
      assert (Hall : forall x, In (Some x) l -> x = false).
      { rewrite Hl. intros x Hx. apply in_map_iff in Hx as [r [Hx _]]. destruct (r_mode r); congruence. }
      destruct (is_end_all (S (length l)) l false (Nat.lt_succ_diag_r _) Hall) as [[G1 G2]|[[G1 G2]|G1]]; rewrite G1; cbn [bind].
      + left. split; eauto.
      + exfalso. destruct Hm as [[r [H1 [H2 _]]] _]. rewrite Forall_forall in Hp. destruct (Hp r H1) as [_ Hpr].
        assert (Hk : r_known r = KUnknown) by (apply Hn; auto).
        assert (Em : r_mode r = MPair). { unfold holds_elements in H2. destruct (r_mode r); auto; congruence. }
        assert (Hin : In (Some false) l). { rewrite Hl. apply in_map_iff. exists r. rewrite Em. auto. }
        specialize (G2 _ Hin). discriminate.
      + right. split; [reflexivity|]. apply (is_end_illformed (S (length l)) l false (Nat.lt_succ_diag_r _) Hall) in G1.
        unfold index_arguments. rewrite Hl in G1. clear - G1 Hn Hp.
        assert (E : length (filter (fun o : option bool => match o with None => true | Some _ => false end) (map (fun r => match r_mode r with MPair => Some false | _ => None end) rs)) = length (filter is_range_index rs)).
        { clear G1. induction rs as [|r rs' IH]; [reflexivity|]. inversion Hp as [|? ? Hr Hp']; subst. cbn [map filter].
          assert (IH' := IH Hp' (fun r' H => Hn r' (or_intror H))). unfold is_range_index.
          destruct (r_mode r) eqn:E; cbn [filter length]; auto.
          - exfalso. destruct Hr as [_ Hr]. rewrite E in Hr. apply Hr. apply Hn; [left; auto|unfold holds_elements; congruence].
          - exfalso. destruct Hr as [_ Hr]. rewrite E in Hr. apply Hr. apply Hn; [left; auto|unfold holds_elements; congruence]. }
        rewrite E in G1. auto.
  Qed.

  Lemma sentinel_spec : forall d, known_agree rs -> algorithm_size rs = Ok d ->
    (forall j, 0 <= j < m -> sentinel_is_end d (iter_at rs j) = Ok false) /\
    (all_length rs m -> sentinel_is_end d (iter_at rs m) = Ok true) /\
    ((exists r, In r rs /\ holds_elements r /\ r_len r <> m) -> sentinel_is_end d (iter_at rs m) = Contract).
  Proof.
    intros d Ha Hd. assert (Hmin := proj2 Hm). assert (Hq := proj1 (Forall_forall _ _) Hp).
    assert (Hpair : forall r, r_mode r = MPair -> holds_elements r) by (intros r E; unfold holds_elements; congruence).
    destruct (algorithm_size_cases Ha) as [[d' [E [Hn [r0 [H1 [H2 [H3 H4]]]]]]]|[Hun [[E [b0 Ht]]|[E _]]]];
      rewrite Hd in E; try discriminate; injection E as E; subst.
    - assert (Hs : forall j, sentinel_is_end d' (iter_at rs j) = (let isEnd := j =? r_len r0 in do _ <- zip_check_end isEnd (iter_at rs j); Ok isEnd)).
      { intro j. unfold sentinel_is_end. rewrite H4. destruct d' as [n|n]; cbn [dim_value]; [|reflexivity]. cbn in Hn. unfold unknown_size. destruct (Z.eqb_spec n (-1)); [congruence|reflexivity]. }
      split; [|split].
      + intros j Hj. rewrite Hs. assert (Hm0 := Hmin r0 H1 H2). destruct (Z.eqb_spec j (r_len r0)); [lia|]. cbn zeta.
        rewrite check_end_ok; [reflexivity|]. intros r Hr Em. assert (Hm1 := Hmin r Hr (Hpair r Em)). apply Z.eqb_neq. lia.
      + intro Hall. rewrite Hs, (Hall r0 H1 H2), Z.eqb_refl. cbn zeta. rewrite check_end_ok; [reflexivity|].
        intros r Hr Em. rewrite (Hall r Hr (Hpair r Em)). apply Z.eqb_refl.
      + intros [r [Hr [Hh Hne]]]. rewrite Hs. cbn zeta.
        assert (Hpr : forall r, In r rs -> holds_elements r -> r_len r <> r_len r0 -> r_mode r = MPair).
        { intros r' Hr' Hh' Hl'. destruct (Hq r' Hr') as [_ Hq']. assert (r_known r' = KUnknown).
          { destruct (r_known r') eqn:Ek; auto; exfalso; apply Hl'; apply Ha; auto; congruence. }
          unfold holds_elements in Hh'. destruct (r_mode r'); auto; congruence. }
        destruct (Z.eqb_spec m (r_len r0)) as [Em|Em].
        * rewrite check_end_contract; [reflexivity|]. exists r. split; auto. split; [apply Hpr; auto; congruence|]. cbn. apply Z.eqb_neq. auto.
        * rewrite check_end_contract; [reflexivity|]. destruct (proj1 Hm) as [r1 [K1 [K2 K3]]]. exists r1. split; auto.
          split; [apply Hpr; auto; congruence|]. cbn. apply Z.eqb_eq. auto.
    - assert (Hpr : forall r, In r rs -> holds_elements r -> r_mode r = MPair).
      { intros r Hr Hh. destruct (Hq r Hr) as [_ Hq']. specialize (Hun r Hr Hh). unfold holds_elements in Hh. destruct (r_mode r); auto; congruence. }
      assert (Hs : forall j, sentinel_is_end (SStatic (-1)) (iter_at rs j) =
        do o <- is_end (map (fun r => match r_mode r with MPair => Some (j =? r_len r) | _ => None end) rs); match o with Some e => Ok e | None => IllFormed end).
      { intro j. unfold sentinel_is_end, unknown_size. rewrite Z.eqb_refl, leaf_is_end_at. reflexivity. }
      set (tl := map (option_map (fun _ : bool => false)) (map leaf_is_end (z_leaves (zip_begin rs)))) in *.
      assert (Htl : tl = map (fun r => match r_mode r with MPair => Some false | _ => None end) rs).
      { unfold tl. rewrite iter_at_begin, leaf_is_end_at, map_map. apply map_ext. intro r. destruct (r_mode r); auto. }
      unfold is_end_type in Ht. fold tl in Ht.
      assert (Hsh : forall j, (exists b, is_end (map (fun r => match r_mode r with MPair => Some (j =? r_len r) | _ => None end) rs) = Ok (Some b)) \/
                              is_end (map (fun r => match r_mode r with MPair => Some (j =? r_len r) | _ => None end) rs) = Contract).
      { intro j. set (lj := map _ rs).
        assert (Hsh := is_end_shape (S (length tl)) tl lj (Nat.lt_succ_diag_r _)). rewrite Ht in Hsh. apply Hsh.
        - rewrite Htl. unfold lj. rewrite !map_map. apply map_ext. intro r. destruct (r_mode r); auto.
        - exists false. rewrite Htl. intros x Hx. apply in_map_iff in Hx as [r [Hx _]]. destruct (r_mode r); congruence. }
      assert (Hnc : forall j b, (forall r, In r rs -> holds_elements r -> (j =? r_len r) = b) -> sentinel_is_end (SStatic (-1)) (iter_at rs j) = Ok b).
      { intros j b Hb. rewrite Hs. set (lj := map (fun r => match r_mode r with MPair => Some (j =? r_len r) | _ => None end) rs) in *.
        assert (Hall : forall x, In (Some x) lj -> x = b).
        { intros x Hx. apply in_map_iff in Hx as [r [Hx Hr]]. destruct (r_mode r) eqn:Em; try discriminate. injection Hx as <-. apply Hb; auto. }
        destruct (is_end_all (S (length lj)) lj b (Nat.lt_succ_diag_r _) Hall) as [[G1 _]|[[G1 _]|G1]]; rewrite G1; [reflexivity| |];
          destruct (Hsh j) as [[b1 E1]|E1]; fold lj in E1; congruence. }
      split; [|split].
      + intros j Hj. apply Hnc. intros r Hr Hh. assert (Hm1 := Hmin r Hr Hh). apply Z.eqb_neq. lia.
      + intro Hall. apply Hnc. intros r Hr Hh. rewrite (Hall r Hr Hh). apply Z.eqb_refl.
      + intros [r [Hr [Hh Hne]]]. destruct (proj1 Hm) as [r1 [K1 [K2 K3]]]. rewrite Hs. 
        destruct (Hsh m) as [[b E]|E]; rewrite E; [exfalso|reflexivity].
        assert (Hag := is_end_agree (S (length rs)) _ _ ltac:(rewrite map_length; apply Nat.lt_succ_diag_r) E).
        assert (F1 : Some b = Some false).
        { apply Hag. apply in_map_iff. exists r. rewrite (Hpr r Hr Hh). split; auto. f_equal. apply Z.eqb_neq. auto. }
        assert (F2 : Some b = Some true).
        { apply Hag. apply in_map_iff. exists r1. rewrite (Hpr r1 K1 K2). split; auto. f_equal. apply Z.eqb_eq. auto. }
        congruence.
  Qed.
End Ends.

(** * Loops *)
Section Iterate.
  Context {St R : Type}.
  Variable body : St -> list ref -> St * outcome (option R).

  Fixpoint iterate (s : St) (l : list (list ref)) : St * outcome (option R) :=
    match l with
    | [] => (s, Ok None)
    | x :: r => match body s x with (s', Ok None) => iterate s' r | other => other end
    end.

  (** The positions from [j] up to [j + k]. *)
  Definition span_of (rs : list rng) (j k : nat) : list (list ref) := map (fun i => tuple_at rs (Z.of_nat i)) (seq j k).

  Lemma zip_loop_spec : forall rs (m : nat) at_end,
    (forall r, In r rs -> holds_elements r -> Z.of_nat m <= r_len r) ->
    (forall j, 0 <= j < Z.of_nat m -> at_end (iter_at rs j) = Ok false) ->
    forall last, (at_end (iter_at rs (Z.of_nat m)) = Ok true /\ last = Ok None \/ at_end (iter_at rs (Z.of_nat m)) = Contract /\ last = Contract) ->
    forall k j fuel s, (j + k = m)%nat -> (k < fuel)%nat ->
    zip_loop body fuel at_end (iter_at rs (Z.of_nat j)) s =
      match iterate s (span_of rs j k) with (s', Ok None) => (s', last) | other => other end.
  Proof.
    intros rs m at_end Hlen Hf last Hlast. induction k as [|k IH]; intros j fuel s Hj Hfuel; (destruct fuel as [|fuel]; [lia|]).
    - replace j with m by lia. cbn [zip_loop span_of seq map iterate].
      destruct Hlast as [[E ->]|[E ->]]; rewrite E; reflexivity.
    - cbn [zip_loop]. rewrite Hf by lia. rewrite zip_deref_at; [|intros r Hr Hh; specialize (Hlen r Hr Hh); lia].
      cbn [span_of seq map iterate]. destruct (body s (tuple_at rs (Z.of_nat j))) as [s' [[x|]| | | | |]]; auto.
      unfold zip_inc. rewrite zip_advance_at; [|intros r Hr Hh; specialize (Hlen r Hr Hh); lia].
      replace (Z.of_nat j + 1) with (Z.of_nat (S j)) by lia. apply IH; lia.
  Qed.
End Iterate.

Lemma fold_max_ge : forall l x, In x l -> x <= fold_right Z.max 0 l.
Proof. induction l as [|a l IH]; intros x H; [destruct H|]. cbn. destruct H as [->|H]; [lia|]. apply IH in H. lia. Qed.

(** The behaviour of every algorithm. *)
Lemma algorithm_spec : forall St R (body : St -> list ref -> St * outcome (option R)) rs m s,
  Forall proper_range rs -> shortest_length rs m ->
  (known_agree rs ->
     (algorithm body rs s = (s, IllFormed) /\ (3 <= index_arguments rs)%nat /\
        (forall r, In r rs -> holds_elements r -> r_known r = KUnknown) \/
      (all_length rs m /\ algorithm body rs s = iterate body s (tuples rs (Z.to_nat m)) \/
       (exists r, In r rs /\ holds_elements r /\ r_len r <> m) /\
       algorithm body rs s = match iterate body s (tuples rs (Z.to_nat m)) with (s', Ok None) => (s', Contract) | other => other end))) /\
  (known_differ rs ->
     algorithm body rs s = (s, IllFormed) /\
       (exists r1 r2, In r1 rs /\ In r2 rs /\ holds_elements r1 /\ holds_elements r2 /\ r_known r1 = KStatic /\ r_known r2 = KStatic /\ r_len r1 <> r_len r2) \/
     algorithm body rs s = (s, Contract) /\
       (forall r1 r2, In r1 rs -> In r2 rs -> holds_elements r1 -> holds_elements r2 -> r_known r1 = KStatic -> r_known r2 = KStatic -> r_len r1 = r_len r2)).
Proof.
  intros St R body rs m s Hp Hm. split.
  - intro Ha. unfold algorithm.
    assert (Hloop : forall d, algorithm_size rs = Ok d ->
      (all_length rs m /\ zip_loop body (loop_fuel rs) (sentinel_is_end d) (zip_begin rs) s = iterate body s (tuples rs (Z.to_nat m)) \/
       (exists r, In r rs /\ holds_elements r /\ r_len r <> m) /\
       zip_loop body (loop_fuel rs) (sentinel_is_end d) (zip_begin rs) s =
         match iterate body s (tuples rs (Z.to_nat m)) with (s', Ok None) => (s', Contract) | other => other end)).
    { intros d Hd. destruct (sentinel_spec rs m Hp Hm d Ha Hd) as [S1 [S2 S3]]. assert (Hm0 := shortest_nonneg rs m Hp Hm).
      assert (Hfuel : (Z.to_nat m < loop_fuel rs)%nat).
      { unfold loop_fuel. destruct (proj1 Hm) as [r [H1 [_ <-]]]. assert (r_len r <= fold_right Z.max 0 (map r_len rs)) by (apply fold_max_ge, in_map; auto). lia. }
      assert (Hz : Z.of_nat (Z.to_nat m) = m) by lia.
      assert (Hdec : all_length rs m \/ exists r, In r rs /\ holds_elements r /\ r_len r <> m).
      { clear. induction rs as [|r rs IH]; [left; intros r []|]. destruct IH as [IH|[r' [H1 H2]]]; [|right; exists r'; split; [right; auto|auto]].
        destruct (r_mode r) eqn:Em; try (destruct (Z.eq_dec (r_len r) m) as [E|E];
          [left; intros r' [<-|Hr'] Hh; auto|right; exists r; split; [left; auto|split; auto; unfold holds_elements; congruence]]).
        left. intros r' [<-|Hr'] Hh; auto. unfold holds_elements in Hh. congruence. }
      rewrite iter_at_begin. change 0 with (Z.of_nat 0).
      destruct Hdec as [Hall|Hne].
      - left. split; auto.
        rewrite (zip_loop_spec body rs (Z.to_nat m) (sentinel_is_end d)) with (last := Ok None) (k := Z.to_nat m); auto.
        + unfold span_of. fold (tuples rs (Z.to_nat m)). destruct (iterate body s (tuples rs (Z.to_nat m))) as [s' [[x|]| | | | |]]; auto.
        + intros r Hr Hh. rewrite Hz. apply (proj2 Hm); auto.
        + intros j Hj. apply S1. lia.
        + left. rewrite Hz. auto.
      - right. split; auto.
        rewrite (zip_loop_spec body rs (Z.to_nat m) (sentinel_is_end d)) with (last := Contract) (k := Z.to_nat m); auto.
        + intros r Hr Hh. rewrite Hz. apply (proj2 Hm); auto.
        + intros j Hj. apply S1. lia.
        + right. rewrite Hz. auto. }
    destruct (algorithm_size_cases rs m Hp Hm Ha) as [[d [E _]]|[Hu [[E _]|[E Hi]]]]; rewrite E.
    + right. apply Hloop; auto.
    + right. apply Hloop; auto.
    + left. auto.
  - intro Hd. unfold algorithm, algorithm_size. rewrite (not_all_index rs m Hm).
    destruct (merge_ranges_differ rs Hp Hd) as [[E H]|[E H]]; rewrite E; cbn [bind]; auto.
Qed.
