(** Further properties of the arguments of range_zip() and the range algorithms (C74): the other algorithms, iterators, kept
    objects. *)

From Coq Require Import ZArith Arith Bool Lia List.
From Verif Require Import Base ZipModel ZipSpec ZipLoopProofs ZipAlgoProofs ZipProps VCatModel ZipCatModel ZipCatSpec ZipCatProofs ZipCatProps.
Import ListNotations.

Lemma nth_error_ext : forall A (l l' : list A), (forall j, nth_error l j = nth_error l' j) -> l = l'.
Proof.
  induction l as [|a l IH]; intros [|b l'] H; try reflexivity; try (specialize (H 0); discriminate).
  f_equal; [specialize (H 0); cbn in H; congruence|]. apply IH. intro j. exact (H (S j)).
Qed.

Section Calls.
  Context {V F : Type}.
  Variables (m : memory (V := V)) (args : list arg) (n : Z) (ts : list (list element)).
  Hypothesis Hu : Forall (fun a => usable (a_type a)) args.
  Hypothesis Hl : have_length m args n.
  Hypothesis Hk : exists a, In a args /\ knows_size (a_type a).
  Hypothesis Ht : all_elements m args n ts.

  Lemma elements_at_fun : forall l j es, (forall a, In a l -> exists k xs, contents m a k xs) -> elements_at m l j es -> es = map (elem_at m j) l.
  Proof.
    intros l j es Hin H. unfold elements_at in H. induction H as [|a e l es [k [xs [Hc ->]]] _ IH]; [reflexivity|].
    cbn. f_equal; [|apply IH; intros; apply Hin; right; auto]. unfold elem_at. rewrite (cont_contents m a k xs Hc). reflexivity.
  Qed.

  Lemma all_elements_eq : ts = map (fun j => map (elem_at m (Z.of_nat j)) args) (seq 0 (Z.to_nat n)).
  Proof.
    destruct Ht as [Hlen Hat]. rewrite <- Hlen. apply nth_error_ext. intro j.
    rewrite nth_error_map. destruct (nth_error ts j) as [es|] eqn:E.
    - assert (Hj : j < length ts) by (apply nth_error_Some; congruence).
      rewrite (nth_error_nth' _ 0) by (rewrite seq_length; auto). rewrite seq_nth by auto. cbn. f_equal.
      apply elements_at_fun; [|apply Hat; exact E]. intros a Ha. destruct (Hl a Ha) as [k [xs [H _]]]. eauto.
    - apply nth_error_None in E. replace (nth_error (seq 0 (length ts)) j) with (@None nat); [reflexivity|].
      symmetry. apply nth_error_None. rewrite seq_length. exact E.
  Qed.

  Let rs := map (rng_of m) args.
  Let hs := map (hnd m) args.

  Lemma res_at : forall j, mapM (resolve hs) (tuple_at rs j) = Ok (map (elem_at m j) args).
  Proof. exact (resolve_ok m args Hu). Qed.

  Lemma on_args_ok : forall Res (run : list rng -> list (nat * bool) -> F * memory -> (F * memory) * outcome Res) s,
    on_args run args (s, m) = run rs hs (s, m).
  Proof.
    intros Res run s. unfold on_args. cbn [snd]. rewrite (arg_rngs_ok m args n Hu Hl). cbn [bind].
    rewrite (handles_ok m args n Hl). reflexivity.
  Qed.

  Lemma tuples_ts : ts = map (fun t => match mapM (resolve hs) t with Ok es => es | _ => [] end) (tuples rs (Z.to_nat n)).
  Proof. rewrite all_elements_eq. unfold tuples. rewrite map_map. apply map_ext. intro j. rewrite res_at. reflexivity. Qed.

  Definition good (t : list ref) : Prop := exists es, mapM (resolve hs) t = Ok es.
  Lemma tuples_good : Forall good (tuples rs (Z.to_nat n)).
  Proof. unfold tuples. apply Forall_map, Forall_forall. intros j _. eexists. apply res_at. Qed.

  Let conv (t : list ref) : list element := match mapM (resolve hs) t with Ok es => es | _ => [] end.

  Lemma answers_conv : forall (p : functor (V := V) (F := F) bool) l s bs s', Forall good l ->
    (answers p s (map conv l) bs s' <-> answers (call_with hs p) s l bs s').
  Proof.
    intros p l. induction l as [|t l IH]; intros s bs s' Hg; cbn [map].
    - split; intro H; inversion H; constructor.
    - inversion Hg as [|t0 l0 [es E] Hg']. subst. assert (Ec : call_with hs p s t = p s (conv t)) by (unfold call_with, conv; rewrite E; reflexivity).
      split; intro H; inversion H; subst; econstructor; eauto; try (apply IH; eauto); congruence.
  Qed.

  Lemma fold_conv : forall A B (reduce : F * memory (V := V) -> A -> B -> (F * memory) * outcome A) (transform : functor B) l s a, Forall good l ->
    fold_calls reduce (call_with hs transform) s a l = fold_calls reduce transform s a (map conv l).
  Proof.
    intros A B reduce transform l. induction l as [|t l IH]; intros s a Hg; [reflexivity|].
    inversion Hg as [|t0 l0 [es E] Hg']. subst. cbn [map fold_calls].
    assert (Ec : call_with hs transform s t = transform s (conv t)) by (unfold call_with, conv; rewrite E; reflexivity). rewrite Ec.
    destruct (transform s (conv t)) as [s1 [b| | | | |]]; try reflexivity. destruct (reduce s1 a b) as [s2 [x| | | | |]]; auto.
  Qed.

  Lemma shortest : shortest_length rs n.
  Proof.
    destruct (known_ex m args Hu Hk) as [r [R1 [R2 R3]]]. split.
    - exists r. split; [exact R1|]. split; [exact R2|]. apply (length_all m args n Hu Hl); auto.
    - intros r' H1 H2. apply Z.eq_le_incl. symmetry. apply (length_all m args n Hu Hl); auto.
  Qed.
  Lemma enough : enough_known rs. Proof. left. exact (known_ex m args Hu Hk). Qed.
  Lemma agree : known_agree rs. Proof. exact (all_length_agree _ n (length_all m args n Hu Hl)). Qed.

  Lemma transform_reduce_args : forall A B init (reduce : F * memory -> A -> B -> (F * memory) * outcome A) (transform : functor B) s,
    range_transform_reduce init reduce transform args (s, m) = fold_calls reduce transform (s, m) init ts.
  Proof.
    intros A B init reduce transform s. unfold range_transform_reduce. rewrite on_args_ok.
    rewrite (proj1 (C27_transform_reduce _ _ _ reduce (call_with hs transform) rs n (s, m) init (proper_all m args Hu) enough agree shortest) (length_all m args n Hu Hl)).
    rewrite fold_conv by exact tuples_good. rewrite tuples_ts. reflexivity.
  Qed.

  Lemma count_if_args : forall (pred : functor (V := V) (F := F) bool) s bs s', answers pred (s, m) ts bs s' ->
    range_count_if pred args (s, m) = (s', Ok (Z.of_nat (count_occ bool_dec bs true))).
  Proof.
    intros pred s bs s' H. unfold range_count_if. rewrite on_args_ok. rewrite tuples_ts in H.
    apply (C27_count_if _ (call_with hs pred) rs n (s, m) bs s' (proper_all m args Hu) enough shortest (length_all m args n Hu Hl)).
    apply answers_conv; [exact tuples_good|exact H].
  Qed.

  (** The tuples of ZipModel before a given call. *)
  Lemma split_ts : forall l1 x l2, ts = l1 ++ x :: l2 -> exists t1 t t2, tuples rs (Z.to_nat n) = t1 ++ t :: t2 /\
    l1 = map conv t1 /\ x = conv t /\ Forall good t1 /\ good t.
  Proof.
    intros l1 x l2 H. rewrite tuples_ts in H. assert (Hg := tuples_good). revert l1 H Hg.
    generalize (tuples rs (Z.to_nat n)). induction l as [|t l IH]; intros l1 H Hg; [destruct l1; discriminate|].
    inversion Hg; subst. destruct l1 as [|y l1]; cbn in H.
    - injection H as H H'. exists [], t, l. auto 7.
    - injection H as H H'. destruct (IH l1 H' H3) as [t1 [t' [t2 [E1 [E2 [E3 [E4 E5]]]]]]].
      exists (t :: t1), t', t2. rewrite E1. split; [reflexivity|]. split; [cbn; f_equal; [symmetry; exact H|exact E2]|]. auto.
  Qed.
  Lemma call_conv : forall (p : functor (V := V) (F := F) bool) s t, good t -> call_with hs p s t = p s (conv t).
  Proof. intros p s t [es E]. unfold call_with, conv. rewrite E. reflexivity. Qed.

  Lemma predicates_args : forall (pred : functor (V := V) (F := F) bool) s,
    (forall l1 x l2 s1 s2, ts = l1 ++ x :: l2 -> answers pred (s, m) l1 (repeat true (length l1)) s1 -> pred s1 x = (s2, Ok false) ->
       range_all_of pred args (s, m) = (s2, Ok false)) /\
    (forall s1, answers pred (s, m) ts (repeat true (length ts)) s1 -> range_all_of pred args (s, m) = (s1, Ok true)) /\
    (forall l1 x l2 s1 s2, ts = l1 ++ x :: l2 -> answers pred (s, m) l1 (repeat false (length l1)) s1 -> pred s1 x = (s2, Ok true) ->
       range_any_of pred args (s, m) = (s2, Ok true) /\ range_none_of pred args (s, m) = (s2, Ok false)) /\
    (forall s1, answers pred (s, m) ts (repeat false (length ts)) s1 ->
       range_any_of pred args (s, m) = (s1, Ok false) /\ range_none_of pred args (s, m) = (s1, Ok true)).
  Proof.
    intros pred s. unfold range_all_of, range_any_of, range_none_of. rewrite !on_args_ok.
    destruct (C28_all_of _ (call_with hs pred) rs n (s, m) (proper_all m args Hu) enough agree shortest) as [A1 [_ A3]].
    destruct (C28_any_of _ (call_with hs pred) rs n (s, m) (proper_all m args Hu) enough agree shortest) as [B1 [_ B3]].
    destruct (C28_none_of _ (call_with hs pred) rs n (s, m) (proper_all m args Hu) enough agree shortest) as [N1 [_ N3]].
    assert (Hlen : length ts = Z.to_nat n) by (destruct Ht; auto).
    assert (Hc : forall bs s1, answers pred (s, m) ts bs s1 -> answers (call_with hs pred) (s, m) (tuples rs (Z.to_nat n)) bs s1).
    { intros bs s1 H. rewrite tuples_ts in H. apply answers_conv in H; [exact H|exact tuples_good]. }
    split; [|split; [|split]].
    - intros l1 x l2 s1 s2 E H1 H2. destruct (split_ts l1 x l2 E) as [t1 [t [t2 [E1 [-> [-> [G1 G2]]]]]]].
      rewrite map_length in H1. apply answers_conv in H1; [|exact G1]. apply (A1 t1 t t2 s1 s2 E1 H1). rewrite call_conv; auto.
    - intros s1 H. rewrite Hlen in H. apply (A3 s1 (Hc _ _ H)). exact (length_all m args n Hu Hl).
    - intros l1 x l2 s1 s2 E H1 H2. destruct (split_ts l1 x l2 E) as [t1 [t [t2 [E1 [-> [-> [G1 G2]]]]]]].
      rewrite map_length in H1. apply answers_conv in H1; [|exact G1].
      split; [apply (B1 t1 t t2 s1 s2 E1 H1)|apply (N1 t1 t t2 s1 s2 E1 H1)]; rewrite call_conv; auto.
    - intros s1 H. rewrite Hlen in H. split; [apply (B3 s1 (Hc _ _ H))|apply (N3 s1 (Hc _ _ H))]; exact (length_all m args n Hu Hl).
  Qed.
End Calls.

(** ** The other algorithms make the same calls, in order *)
Theorem C74_transform_reduce : forall V F (m : memory (V := V)) args n ts A B init (reduce : F * memory -> A -> B -> (F * memory) * outcome A)
    (transform : functor B) s,
  Forall (fun a => usable (a_type a)) args -> have_length m args n -> (exists a, In a args /\ knows_size (a_type a)) -> all_elements m args n ts ->
  range_transform_reduce init reduce transform args (s, m) = fold_calls reduce transform (s, m) init ts.
Proof. intros V F m args n ts A B init reduce transform s Hu Hl Hk Ht. exact (transform_reduce_args m args n ts Hu Hl Hk Ht A B init reduce transform s). Qed.
Print Assumptions C74_transform_reduce.

Theorem C74_count_if : forall V F (m : memory (V := V)) args n ts (pred : functor (F := F) bool) s bs s',
  Forall (fun a => usable (a_type a)) args -> have_length m args n -> (exists a, In a args /\ knows_size (a_type a)) -> all_elements m args n ts ->
  answers pred (s, m) ts bs s' ->
  range_count_if pred args (s, m) = (s', Ok (Z.of_nat (count_occ bool_dec bs true))).
Proof. intros V F m args n ts pred s bs s' Hu Hl Hk Ht. exact (count_if_args m args n ts Hu Hl Hk Ht pred s bs s'). Qed.
Print Assumptions C74_count_if.

Theorem C74_predicates : forall V F (m : memory (V := V)) args n ts (pred : functor (F := F) bool) s,
  Forall (fun a => usable (a_type a)) args -> have_length m args n -> (exists a, In a args /\ knows_size (a_type a)) -> all_elements m args n ts ->
  (forall l1 x l2 s1 s2, ts = l1 ++ x :: l2 -> answers pred (s, m) l1 (repeat true (length l1)) s1 -> pred s1 x = (s2, Ok false) ->
     range_all_of pred args (s, m) = (s2, Ok false)) /\
  (forall s1, answers pred (s, m) ts (repeat true (length ts)) s1 -> range_all_of pred args (s, m) = (s1, Ok true)) /\
  (forall l1 x l2 s1 s2, ts = l1 ++ x :: l2 -> answers pred (s, m) l1 (repeat false (length l1)) s1 -> pred s1 x = (s2, Ok true) ->
     range_any_of pred args (s, m) = (s2, Ok true) /\ range_none_of pred args (s, m) = (s2, Ok false)) /\
  (forall s1, answers pred (s, m) ts (repeat false (length ts)) s1 ->
     range_any_of pred args (s, m) = (s1, Ok false) /\ range_none_of pred args (s, m) = (s1, Ok true)).
Proof. intros V F m args n ts pred s Hu Hl Hk Ht. exact (predicates_args m args n ts Hu Hl Hk Ht pred s). Qed.
Print Assumptions C74_predicates.

Definition example_args : list arg := [mk_arg index_t CL 4; mk_arg vector_t X 0; mk_arg list_t CL 1].
Example C74_predicates_example :
  all_elements example_memory example_args 3
    [[EIdx 0; ERef 0 0 false; ERef 1 0 true]; [EIdx 1; ERef 0 1 false; ERef 1 1 true]; [EIdx 2; ERef 0 2 false; ERef 1 2 true]] /\
  (let pred (s : nat * memory (V := nat)) (es : list element) := ((S (fst s), snd s), Ok (Nat.odd (fst s))) in
   let num (Res : Type) (r : (nat * memory (V := nat)) * outcome Res) := (fst (fst r), snd r) in
   num _ (range_count_if pred example_args (0, example_memory)) = (3, Ok 1%Z) /\
   num _ (range_any_of pred example_args (0, example_memory)) = (2, Ok true) /\
   num _ (range_all_of pred example_args (0, example_memory)) = (1, Ok false) /\
   num _ (range_none_of pred example_args (0, example_memory)) = (2, Ok false)).
Proof.
  split; [|repeat split; reflexivity]. split; [reflexivity|].
  intros j es H.
  assert (C : contents example_memory (mk_arg index_t CL 4) 4 [] /\ contents example_memory (mk_arg vector_t X 0) 0 [1; 2; 3] /\
              contents example_memory (mk_arg list_t CL 1) 1 [4; 5; 6]).
  { split; [|split].
    - apply (contents_container example_memory (mk_arg index_t CL 4)); reflexivity.
    - apply (contents_container example_memory (mk_arg vector_t X 0)); reflexivity.
    - apply (contents_container example_memory (mk_arg list_t CL 1)); reflexivity. }
  destruct C as [C1 [C2 C3]].
  destruct j as [|[|[|j]]]; cbn in H; [..|destruct j; discriminate]; injection H as <-;
    (constructor; [do 2 eexists; split; [exact C1|reflexivity]|]; constructor; [do 2 eexists; split; [exact C2|reflexivity]|];
     constructor; [do 2 eexists; split; [exact C3|reflexivity]|]; constructor).
Qed.

(** ** Iterators of zipped ranges *)
Theorem C74_iterators_partial : forall V (moved : list V -> list V) m args n,
  Forall (fun a => usable (a_type a)) args -> have_length m args n -> well_formed m -> (exists a, In a args /\ knows_size (a_type a)) ->
  (forall a, In a args -> a_cat a = L \/ a_cat a = CL) ->
  exists z b e, range_zip moved args m = Ok (z, m) /\ begin z m = Ok b /\ common_end z m = Ok e /\
    forall i, (0 <= i <= n)%Z -> exists it, advance b i = Ok it /\ zip_eqb (it_pos it) (it_pos e) = (i =? n)%Z /\
      forall j, (0 <= i + j < n)%Z -> exists es, subscript it j m = Ok es /\ elements_at m args (i + j) es.
Proof.
  intros V moved m args n Hu Hl Hw Hk Hlv.
  assert (Hx : forall a, In a args -> a_cat a <> X) by (intros a Ha; destruct (Hlv a Ha) as [->| ->]; discriminate).
  destruct (C74_borrows_partial V moved m args n Hu Hl Hw Hk Hlv) as [z [b [Hz [Hb [_ [_ _]]]]]].
  assert (Hc : forall a, In a args -> a_cat a = CX -> t_copy (a_type a) = true) by (intros a Ha E; destruct (Hlv a Ha); congruence).
  destruct (range_zip_args moved m args n Hu Hl Hw Hk Hc) as [d [st [m' [E1 [E2 [E3 E4]]]]]].
  rewrite Hz in E4. injection E4 as Ez Em. subst z. subst m'.
  assert (Est : st = args).
  { clear - Hlv E3. revert m st E3. induction args as [|a args IH]; intros m st E3; cbn in E3; [congruence|].
    assert (Ea : store moved a m = Ok (a, m)) by (unfold store; destruct (Hlv a (or_introl eq_refl)) as [->| ->]; reflexivity).
    rewrite Ea in E3. cbn in E3. destruct (store_all moved args m) as [[st' m2]| | | | |] eqn:E; try discriminate. cbn in E3. injection E3 as E4 E5. subst m2 st.
    f_equal. apply (IH (fun x Hx => Hlv x (or_intror Hx)) m st'). exact E. }
  subst st. set (z := {| z_dim := d; z_ranges := args |}) in *.
  exists z, b. eexists. split; [exact Hz|]. split; [exact Hb|]. split; [apply (begin_ok m z n); auto|].
  unfold begin in Hb. rewrite (begin_ok m z n Hu Hl Hx) in Hb. injection Hb as <-. cbn [it_pos it_handles z_ranges z].
  intros i Hi. unfold advance. cbn [it_pos it_handles]. rewrite iter_at_begin, zip_advance_at.
  2:{ intros r Hr Hh. rewrite (length_all m args n Hu Hl r Hr Hh). lia. }
  cbn [bind]. eexists. split; [reflexivity|]. cbn [it_pos]. split; [subst z; unfold zip_eqb, zip_end, iter_at; cbn [z_i z_dim]; rewrite Z.add_0_l, E1; reflexivity|].
  intros j Hj. exists (map (elem_at m (i + j)) args). split; [|eapply elem_at_spec; exact Hl].
  unfold subscript. cbn [it_pos it_handles]. rewrite zip_subscript_at.
  2:{ intros r Hr Hh. rewrite (length_all m args n Hu Hl r Hr Hh). lia. }
  cbn [bind]. rewrite Z.add_0_l, (resolve_ok m args Hu (i + j)). cbn [bind].
  rewrite <- (map_id (map (elem_at m (i + j)) args)) at 2. apply mapM_ok. intros e He. apply in_map_iff in He as [a [<- Ha]].
  unfold elem_at, element_in. destruct (t_index (a_type a)) eqn:Ei; [reflexivity|]. destruct (Hl a Ha) as [k [xs [H Hn]]].
  rewrite (cont_contents m a k xs H). cbn [fst alive].
  assert (Ho : m_objs m k = Some (Elems xs)) by (destruct H; auto). rewrite Ho, (Hn Ei).
  destruct (Z.leb_spec 0 (i + j)); [|lia]. destruct (Z.ltb_spec (i + j) n); [reflexivity|lia].
Qed.
Print Assumptions C74_iterators_partial.

(** ** Rvalue arguments are moved into the zipped range *)
Lemma store_all_moved : forall V (moved : list V -> list V) args m,
  well_formed m -> (forall a, In a args -> m_objs m (a_loc a) <> None) -> NoDup (map a_loc args) ->
  forall stored m', store_all moved args m = Ok (stored, m') ->
    Forall2 (fun a a' => a_cat a = X -> m_next m <= a_loc a' /\ m_objs m' (a_loc a') = m_objs m (a_loc a) /\
               forall xs, m_objs m (a_loc a) = Some (Elems xs) -> m_objs m' (a_loc a) = Some (Elems (moved xs))) args stored.
Proof.
  intros V moved args m Hw Hin Hnd.
  (* with the frame: objects that are not arguments stay *)
  enough (G : forall stored m', store_all moved args m = Ok (stored, m') ->
    Forall2 (fun a a' => a_cat a = X -> m_next m <= a_loc a' /\ m_objs m' (a_loc a') = m_objs m (a_loc a) /\
               forall xs, m_objs m (a_loc a) = Some (Elems xs) -> m_objs m' (a_loc a) = Some (Elems (moved xs))) args stored /\
    (forall k, k < m_next m -> ~ In k (map a_loc args) -> m_objs m' k = m_objs m k)).
  { intros stored m' E. exact (proj1 (G stored m' E)). }
  revert m Hw Hin. induction args as [|a args IH]; intros m Hw Hin stored m' E; cbn in E.
  - injection E as <- <-. split; [constructor|auto].
  - cbn in Hnd. inversion Hnd as [|x0 l0 Hna Hnd']. subst. specialize (IH Hnd').
    destruct (store moved a m) as [[a' m1]| | | | |] eqn:Es; try discriminate. cbn in E.
    destruct (store_all moved args m1) as [[st m2]| | | | |] eqn:Er; try discriminate. cbn in E. injection E as <- <-.
    assert (Ha := Hin a (or_introl eq_refl)).
    assert (B : forall k, m_objs m k <> None -> k < m_next m).
    { intros k Hk. destruct (Nat.lt_ge_cases k (m_next m)); auto. exfalso. apply Hk, Hw. auto. }
    assert (S1 : well_formed m1 /\ m_next m <= m_next m1 /\ (forall k, k < m_next m -> k <> a_loc a -> m_objs m1 k = m_objs m k) /\
              (a_cat a = X -> a_loc a' = m_next m /\ m_next m1 = S (m_next m) /\ m_objs m1 (m_next m) = m_objs m (a_loc a) /\
                forall xs, m_objs m (a_loc a) = Some (Elems xs) -> m_objs m1 (a_loc a) = Some (Elems (moved xs))) /\
              (a_cat a <> X -> m_objs m1 (a_loc a) = m_objs m (a_loc a))).
    { unfold store in Es. destruct (a_cat a) eqn:Ec.
      1, 2: injection Es as <- <-; repeat split; auto; congruence.
      - destruct (m_objs m (a_loc a)) as [o|] eqn:Eo; [|congruence]. cbn in Es. injection Es as <- <-. cbn.
        assert (Hlt : a_loc a < m_next m) by (apply B; congruence).
        split; [|split; [auto|split; [|split]]].
        + intros k Hk. cbn in *. destruct (Nat.eqb_spec k (m_next m)); [lia|]. destruct (Nat.eqb_spec k (a_loc a)); [lia|]. apply Hw. lia.
        + intros k Hk Hka. destruct (Nat.eqb_spec k (m_next m)); [lia|]. destruct (Nat.eqb_spec k (a_loc a)); [lia|reflexivity].
        + intros _. rewrite Nat.eqb_refl. repeat split; auto. intros xs Hxs.
          destruct (Nat.eqb_spec (a_loc a) (m_next m)); [lia|]. rewrite Nat.eqb_refl. injection Hxs as ->. reflexivity.
        + congruence.
      - destruct (m_objs m (a_loc a)) as [o|] eqn:Eo; [|congruence]. cbn in Es. injection Es as <- <-. cbn.
        assert (Hlt : a_loc a < m_next m) by (apply B; congruence).
        split; [|split; [auto|split; [|split]]].
        + intros k Hk. cbn in *. destruct (Nat.eqb_spec k (m_next m)); [lia|]. apply Hw. lia.
        + intros k Hk _. destruct (Nat.eqb_spec k (m_next m)); [lia|reflexivity].
        + discriminate.
        + intros _. destruct (Nat.eqb_spec (a_loc a) (m_next m)); [lia|exact Eo]. }
    destruct S1 as [W1 [N1 [F1 [X1 _]]]].
    assert (Hin1 : forall b, In b args -> m_objs m1 (a_loc b) <> None).
    { intros b Hb. assert (Hb' := Hin b (or_intror Hb)). rewrite F1; [exact Hb'|apply B, Hb'|].
      intro Eq. apply Hna. rewrite <- Eq. apply in_map, Hb. }
    destruct (IH m1 W1 Hin1 st m2 Er) as [G1 G2]. split.
    + constructor.
      * intro Ex. destruct (X1 Ex) as [Y1 [Y2 [Y3 Y4]]]. rewrite Y1. split; [auto|].
        assert (Hnin : ~ In (m_next m) (map a_loc args)).
        { intro H. apply in_map_iff in H as [b [Eb Hb]]. assert (Hb' := B _ (Hin b (or_intror Hb))). lia. }
        split; [rewrite G2; [exact Y3|lia|exact Hnin]|].
        intros xs Hxs. rewrite G2; [exact (Y4 xs Hxs)| |exact Hna]. assert (a_loc a < m_next m) by (apply B, Ha). lia.
      * revert G1. apply Forall2_impl_in. intros b b' Hb _ H Ex. destruct (H Ex) as [Y1 [Y2 Y3]].
        assert (Eq : m_objs m1 (a_loc b) = m_objs m (a_loc b)).
        { apply F1; [apply B, Hin; right; exact Hb|]. intro Eq. apply Hna. rewrite <- Eq. apply in_map, Hb. }
        rewrite Eq in *. split; [lia|]. auto.
    + intros k Hk Hn. cbn in Hn. rewrite G2; [|lia|tauto]. apply F1; [exact Hk|]. intro. subst. tauto.
Qed.

Theorem C74_moved : forall V (moved : list V -> list V) args m n z m',
  well_formed m -> have_length m args n -> NoDup (map a_loc args) -> range_zip moved args m = Ok (z, m') ->
  Forall2 (fun a a' => a_cat a = X -> m_next m <= a_loc a' /\ m_objs m' (a_loc a') = m_objs m (a_loc a) /\
             forall xs, m_objs m (a_loc a) = Some (Elems xs) -> m_objs m' (a_loc a) = Some (Elems (moved xs))) args (z_ranges z).
Proof.
  intros V moved args m n z m' Hw Hl Hnd E. unfold range_zip in E. destruct (forallb storable args); [|discriminate].
  apply bind_ok_inv in E as [rs [_ E]]. apply bind_ok_inv in E as [[N rs'] [_ E]]. apply bind_ok_inv in E as [[st m2] [E2 E]].
  injection E as <- <-. apply (store_all_moved V moved args m Hw); auto.
  intros a Ha. destruct (Hl a Ha) as [k [xs [H _]]]. exact (contents_none m a k xs H).
Qed.
Print Assumptions C74_moved.
Example C74_moved_example :
  match range_zip clear [mk_arg vector_t X 0; mk_arg list_t L 1; mk_arg std_array_t X 2] example_memory with
  | Ok (z, m') => map a_loc (z_ranges z) = [5; 1; 6] /\ m_objs m' 5 = Some (Elems [1; 2; 3]) /\ m_objs m' 0 = Some (Elems []) /\
      m_objs m' 6 = Some (Elems [7; 8; 9]) /\ m_objs m' 1 = Some (Elems [4; 5; 6])
  | _ => False
  end.
Proof. repeat split; reflexivity. Qed.

(** A tuple obtained from an iterator refers to elements that exist at that time. *)
Theorem C74_elements_exist : forall V (it : iterator) d (m : memory (V := V)) es, subscript it d m = Ok es ->
  Forall (fun e => match e with
                   | ERef l p _ => exists xs, m_objs m l = Some (Elems xs) /\ (0 <= p < Z.of_nat (length xs))%Z
                   | EIdx _ => True
                   end) es.
Proof.
  intros V it d m es E. unfold subscript in E. apply bind_ok_inv in E as [refs [_ E]]. apply bind_ok_inv in E as [es' [_ E]].
  revert es E. induction es' as [|e es' IH]; intros es E; cbn in E.
  - injection E as <-. constructor.
  - apply bind_ok_inv in E as [x [Ex E]]. apply bind_ok_inv in E as [xs [Exs E]]. injection E as <-.
    constructor; [|apply IH, Exs]. unfold alive in Ex. destruct e as [l p c|i]; [|injection Ex as <-; exact I].
    destruct (m_objs m l) as [[ys|]|] eqn:El; try discriminate.
    destruct ((0 <=? p) && (p <? Z.of_nat (length ys)))%Z eqn:C; [|discriminate]. injection Ex as <-.
    apply andb_prop in C as [C1 C2]. apply Z.leb_le in C1. apply Z.ltb_lt in C2. eauto.
Qed.
Print Assumptions C74_elements_exist.
Example C74_elements_exist_example :
  match range_zip clear [mk_arg vector_t L 0; mk_arg list_t L 1] example_memory with
  | Ok (z, m') => match begin z m' with
                  | Ok it => exists es, subscript it 1 m' = Ok es /\ length es = 2 /\ subscript it 3 m' = UB
                  | _ => False
                  end
  | _ => False
  end.
Proof. eexists; repeat split; reflexivity. Qed.
