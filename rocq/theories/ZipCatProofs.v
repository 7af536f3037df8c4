(** Proofs about value categories of the arguments of range_zip() and the range algorithms. *)

From Coq Require Import ZArith Arith Bool Lia List.
From Verif Require Import Base ZipModel ZipSpec ZipLoopProofs ZipAlgoProofs VCatModel ZipCatModel ZipCatSpec.
Import ListNotations.

Lemma Forall2_impl_in : forall A B (P Q : A -> B -> Prop) l l', (forall a b, In a l -> In b l' -> P a b -> Q a b) ->
  Forall2 P l l' -> Forall2 Q l l'.
Proof.
  intros A B P Q l l' H F. induction F as [|a b l l' Hab _ IH]; constructor; [apply H; auto; left; auto|].
  apply IH. intros; apply H; auto; right; auto.
Qed.

Section Proofs.
  Context {V : Type}.
  Implicit Types (m : memory (V := V)) (a : arg).

  Lemma elements_of_contents : forall m a k xs, contents m a k xs <-> elements_of (a_type a) m (a_loc a) = Ok (k, xs).
  Proof.
    intros m a k xs. unfold elements_of. split.
    - intros [ys E1 E2|k' ys E1 E2 E3]; rewrite E1, E2; [reflexivity|rewrite E3; reflexivity].
    - destruct (t_view (a_type a)) eqn:Ev; destruct (m_objs m (a_loc a)) as [[ys|k']|] eqn:E; try discriminate.
      + destruct (m_objs m k') as [[ys|]|] eqn:E'; try discriminate. intro H. injection H as <- <-. eapply contents_view; eauto.
      + intro H. injection H as <- <-. constructor; auto.
  Qed.

  Lemma contents_fun : forall m a k xs k' xs', contents m a k xs -> contents m a k' xs' -> k = k' /\ xs = xs'.
  Proof. intros m a k xs k' xs' H1 H2. apply elements_of_contents in H1, H2. rewrite H1 in H2. injection H2. auto. Qed.

  Definition cont m a : nat * list V := match elements_of (a_type a) m (a_loc a) with Ok p => p | _ => (0%nat, []) end.
  Definition mode_of (t : range_type) : mode := match leaf_mode t with Ok md => md | _ => MPair end.
  Definition rng_of m a : rng := {| r_mode := mode_of (a_type a); r_known := known_of (a_type a); r_len := Z.of_nat (length (snd (cont m a))) |}.
  Definition hnd m a : nat * bool := (fst (cont m a), is_const (a_cat a) && negb (t_view (a_type a))).

  Lemma cont_contents : forall m a k xs, contents m a k xs -> cont m a = (k, xs).
  Proof. intros m a k xs H. apply elements_of_contents in H. unfold cont. rewrite H. reflexivity. Qed.

  Lemma usable_ok : forall t, usable t -> type_ok t = true /\ leaf_mode t = Ok (mode_of t).
  Proof.
    intros [ti ta td ts tt tv tc]. unfold usable, class_type, type_ok, category_ok, mode_of, leaf_mode. cbn.
    intros [->|[-> H]]; [auto|]. destruct ti; [auto|]. destruct td, ts; cbn; auto; discriminate (H eq_refl).
  Qed.
  Lemma mode_index : forall t, usable t -> (mode_of t = MRangeIndex <-> t_index t = true).
  Proof.
    intros [ti ta td ts tt tv tc] H. unfold mode_of, leaf_mode. cbn.
    destruct ti; [split; reflexivity|]. split; [|discriminate]. destruct td, ta, ts; cbn; discriminate.
  Qed.
  Lemma known_spec : forall t, usable t -> (known_of t <> KUnknown <-> knows_size t).
  Proof.
    intros [ti ta td ts tt tv tc] H. unfold known_of, knows_size. cbn. destruct ti, tt, ts; cbn; split; intro G; try discriminate;
      try (exfalso; apply G; reflexivity); auto; destruct G as [G1 [G2|G2]]; discriminate.
  Qed.

  Lemma proper_of : forall m a, usable (a_type a) -> proper_range (rng_of m a).
  Proof.
    intros m [[ti ta td ts tt tv tc] c l] H. unfold proper_range, rng_of. cbn. split; [lia|].
    destruct H as [H|[H H']]; cbn in H; subst; [cbn; auto|].
    unfold mode_of, leaf_mode, known_of. cbn. destruct ti, td, ts, tt; cbn; auto; try discriminate; discriminate (H' eq_refl).
  Qed.

  Section Args.
    Variables (m : memory (V := V)) (args : list arg) (n : Z).
    Hypothesis Hu : Forall (fun a => usable (a_type a)) args.
    Hypothesis Hl : have_length m args n.

    Lemma use : forall a, In a args -> usable (a_type a).
    Proof. apply Forall_forall. exact Hu. Qed.

    Lemma arg_rngs_ok : arg_rngs args m = Ok (map (rng_of m) args).
    Proof.
      unfold arg_rngs. replace (forallb _ args) with true.
      - apply mapM_ok. intros a Ha. unfold arg_rng. rewrite (proj2 (usable_ok _ (use a Ha))). cbn [bind].
        destruct (Hl a Ha) as [k [xs [H _]]]. unfold rng_of. rewrite (cont_contents m a k xs H).
        apply elements_of_contents in H. rewrite H. reflexivity.
      - symmetry. apply forallb_forall. intros a Ha. exact (proj1 (usable_ok _ (use a Ha))).
    Qed.

    Lemma handles_ok : mapM (fun a => handle m (a_type a) (is_const (a_cat a)) (a_loc a)) args = Ok (map (hnd m) args).
    Proof.
      apply mapM_ok. intros a Ha. unfold handle, hnd. destruct (Hl a Ha) as [k [xs [H _]]]. rewrite (cont_contents m a k xs H).
      apply elements_of_contents in H. rewrite H. reflexivity.
    Qed.

    Lemma proper_all : Forall proper_range (map (rng_of m) args).
    Proof. apply Forall_map, Forall_forall. intros a Ha. apply proper_of, use, Ha. Qed.

    Lemma length_all : all_length (map (rng_of m) args) n.
    Proof.
      intros r Hr Hh. apply in_map_iff in Hr as [a [<- Ha]]. unfold rng_of, holds_elements in *. cbn in *.
      destruct (Hl a Ha) as [k [xs [H Hn]]]. rewrite (cont_contents m a k xs H). cbn. apply Hn.
      destruct (t_index (a_type a)) eqn:E; [|reflexivity]. exfalso. apply Hh, mode_index; auto. apply use, Ha.
    Qed.

    Lemma known_ex : (exists a, In a args /\ knows_size (a_type a)) ->
      exists r, In r (map (rng_of m) args) /\ holds_elements r /\ r_known r <> KUnknown.
    Proof.
      intros [a [Ha Hk]]. exists (rng_of m a). split; [apply in_map, Ha|]. unfold holds_elements, rng_of. cbn. split.
      - intro E. apply mode_index in E; [|apply use, Ha]. destruct Hk. congruence.
      - apply known_spec; auto. apply use, Ha.
    Qed.

    Definition elem_at (j : Z) a : element := element_in a (fst (cont m a)) j.

    Lemma resolve_from : forall l pre b j, length pre = b -> (forall a, In a l -> usable (a_type a)) ->
      mapM (resolve (pre ++ map (hnd m) l))
        (mapi (fun k r => match r_mode r with MRangeIndex => RIdx j | _ => RElem k j end) b (map (rng_of m) l)) =
      Ok (map (elem_at j) l).
    Proof.
      induction l as [|a l IH]; intros pre b j Hb Hin; [reflexivity|]. cbn [map mapi mapM].
      assert (E : resolve (pre ++ hnd m a :: map (hnd m) l) (match r_mode (rng_of m a) with MRangeIndex => RIdx j | _ => RElem b j end) = Ok (elem_at j a)).
      { unfold elem_at, element_in. assert (Ha := Hin a (or_introl eq_refl)). cbn [rng_of r_mode].
        destruct (t_index (a_type a)) eqn:Ei.
        - rewrite (proj2 (mode_index _ Ha) Ei). reflexivity.
        - assert (En : mode_of (a_type a) <> MRangeIndex) by (intro E; apply mode_index in E; auto; congruence).
          replace (match mode_of (a_type a) with MRangeIndex => RIdx j | _ => RElem b j end) with (RElem b j)
            by (destruct (mode_of (a_type a)); auto; congruence).
          cbn [resolve]. rewrite nth_error_app2 by lia. rewrite Hb, Nat.sub_diag. cbn.
          destruct (a_cat a); cbn; rewrite ?andb_false_l; reflexivity. }
      rewrite E. cbn [bind]. specialize (IH (pre ++ [hnd m a]) (S b) j). rewrite <- app_assoc in IH. cbn [app] in IH.
      rewrite IH; [reflexivity| |intros; apply Hin; right; auto]. rewrite app_length. cbn. lia.
    Qed.

    Lemma resolve_ok : forall j, mapM (resolve (map (hnd m) args)) (tuple_at (map (rng_of m) args) j) = Ok (map (elem_at j) args).
    Proof. intro j. rewrite tuple_at_mapi. exact (resolve_from args [] 0 j eq_refl use). Qed.

    Lemma elem_at_spec : forall j, elements_at m args j (map (elem_at j) args).
    Proof.
      intro j. unfold elements_at. assert (G : forall l, (forall a, In a l -> In a args) ->
        Forall2 (fun a e => exists k xs, contents m a k xs /\ e = element_in a k j) l (map (elem_at j) l)).
      { induction l as [|a l IH]; intro Hin; constructor; [|apply IH; intros; apply Hin; right; auto].
        destruct (Hl a (Hin a (or_introl eq_refl))) as [k [xs [H _]]]. exists k, xs. split; [exact H|].
        unfold elem_at. rewrite (cont_contents m a k xs H). reflexivity. }
      apply G. auto.
    Qed.

    (** ** Algorithms *)
    Lemma call_each_map : forall S (f : S -> list element -> S * outcome unit) rs l s,
      (forall j, mapM (resolve (map (hnd m) args)) (tuple_at rs j) = Ok (map (elem_at j) args)) ->
      call_each (call_with (map (hnd m) args) f) s (map (fun j => tuple_at rs (Z.of_nat j)) l) =
      call_each f s (map (fun j => map (elem_at (Z.of_nat j)) args) l).
    Proof.
      intros S f rs l s H. revert s. induction l as [|j l IH]; intro s; [reflexivity|]. cbn [map call_each].
      unfold call_with at 1. rewrite H. destruct (f s _) as [s' [x| | | | |]]; auto.
    Qed.

    Lemma range_for_args : forall F (f : functor (V := V) unit) (s : F), (exists a, In a args /\ knows_size (a_type a)) ->
      range_for f args (s, m) = call_each f (s, m) (map (fun j => map (elem_at (Z.of_nat j)) args) (seq 0 (Z.to_nat n))).
    Proof.
      intros F f s Hk. unfold range_for, on_args. cbn [snd]. rewrite arg_rngs_ok. cbn [bind]. rewrite handles_ok. cbn [bind].
      destruct (known_ex Hk) as [r [R1 [R2 R3]]].
      rewrite (proj1 (range_for_ok _ (map (rng_of m) args) n (s, m) proper_all (or_introl (known_ex Hk))
        (conj (ex_intro _ r (conj R1 (conj R2 (length_all r R1 R2)))) (fun r' H1 H2 => Z.eq_le_incl _ _ (eq_sym (length_all r' H1 H2))))
        (all_length_agree _ n length_all)) length_all).
      unfold tuples. apply call_each_map. exact resolve_ok.
    Qed.
  End Args.

  (** ** Value categories do not matter to the algorithms *)
  Lemma same_rngs : forall m args args', Forall2 same_but_rvalue args args' -> arg_rngs args m = arg_rngs args' m.
  Proof.
    intros m args args' H. unfold arg_rngs.
    assert (E1 : forallb (fun a => type_ok (a_type a)) args = forallb (fun a => type_ok (a_type a)) args').
    { induction H as [|a b l l' [E _] _ IH]; [reflexivity|]. cbn. rewrite E, IH. reflexivity. }
    assert (E2 : mapM (arg_rng m) args = mapM (arg_rng m) args').
    { clear E1. induction H as [|a b l l' [E [E' _]] _ IH]; [reflexivity|]. cbn. unfold arg_rng at 1 3. rewrite E, E', IH. reflexivity. }
    rewrite E1, E2. reflexivity.
  Qed.
  Lemma same_handles : forall m args args', Forall2 same_but_rvalue args args' ->
    mapM (fun a => handle m (a_type a) (is_const (a_cat a)) (a_loc a)) args = mapM (fun a => handle m (a_type a) (is_const (a_cat a)) (a_loc a)) args'.
  Proof.
    intros m args args'. induction 1 as [|a b l l' [E [E' Hc]] _ IH]; [reflexivity|]. cbn. rewrite E, E', IH.
    replace (is_const (a_cat b)) with (is_const (a_cat a)); [reflexivity|]. destruct (a_cat a), (a_cat b); cbn; tauto.
  Qed.
  Lemma same_on_args : forall F Res (run : list rng -> list (nat * bool) -> F * memory (V := V) -> (F * memory) * outcome Res) args args' s,
    Forall2 same_but_rvalue args args' -> on_args run args s = on_args run args' s.
  Proof. intros F Res run args args' s H. unfold on_args. rewrite (same_rngs _ _ _ H), (same_handles _ _ _ H). reflexivity. Qed.

  (** ** range_zip() *)
  Variable moved : list V -> list V.

  Definition stored_as m m' (a a' : arg) : Prop :=
    a_type a' = a_type a /\ a_cat a' = a_cat a /\
    (if is_lvalue (a_cat a) then a' = a
     else m_next m <= a_loc a' < m_next m' /\ (a_cat a = CX -> m_objs m' (a_loc a') = m_objs m (a_loc a))).

  Lemma wf_new : forall m o k m', well_formed m -> new_obj m o = (k, m') -> well_formed m' /\ k = m_next m /\ m_next m' = S (m_next m).
  Proof.
    intros m o k m' H E. injection E as <- <-. cbn. split; [|auto]. intros j Hj. cbn in *.
    destruct (Nat.eqb_spec j (m_next m)); [lia|]. apply H. lia.
  Qed.

  Lemma store_all_ok : forall args m, well_formed m -> (forall a, In a args -> m_objs m (a_loc a) <> None) ->
    exists stored m', store_all moved args m = Ok (stored, m') /\ well_formed m' /\ m_next m <= m_next m' /\
      Forall2 (fun a a' => a_type a' = a_type a /\ a_cat a' = a_cat a) args stored.
  Proof.
    induction args as [|a args IH]; intros m Hw Hin.
    - exists [], m. repeat split; auto.
    - assert (Ha := Hin a (or_introl eq_refl)).
      assert (St : exists a' m1, store moved a m = Ok (a', m1) /\ well_formed m1 /\ m_next m <= m_next m1 /\
                     (a_type a' = a_type a /\ a_cat a' = a_cat a) /\ (forall k, m_objs m k <> None -> m_objs m1 k <> None)).
      { unfold store. destruct (a_cat a) eqn:Ec.
        1, 2: exists a, m; rewrite Ec; repeat split; auto.
        - destruct (m_objs m (a_loc a)) as [o|] eqn:E; [|congruence]. cbn. do 2 eexists. split; [reflexivity|]. cbn. repeat split; auto.
          + intros j Hj. cbn in *. destruct (Nat.eqb_spec j (m_next m)); [lia|]. destruct (Nat.eqb_spec j (a_loc a)) as [->|]; [|apply Hw; lia].
            rewrite Hw in E by lia. discriminate.
          + intros k Hk. destruct (k =? m_next m); [discriminate|]. destruct (k =? a_loc a); [discriminate|exact Hk].
        - destruct (m_objs m (a_loc a)) as [o|] eqn:E; [|congruence]. cbn. do 2 eexists. split; [reflexivity|]. cbn. repeat split; auto.
          + intros j Hj. cbn in *. destruct (Nat.eqb_spec j (m_next m)); [lia|]. apply Hw; lia.
          + intros k Hk. destruct (k =? m_next m); [discriminate|exact Hk]. }
      destruct St as [a' [m1 [E [Hw1 [Hn1 [Ht Hk1]]]]]].
      destruct (IH m1 Hw1) as [st [m' [E' [Hw' [Hn' Hf]]]]].
      { intros b Hb. apply Hk1, Hin. right. exact Hb. }
      exists (a' :: st), m'. cbn. rewrite E. cbn. rewrite E'. cbn. repeat split; auto. lia.
  Qed.

  (** Without rvalues that are not const, nothing that exists changes. *)
  Lemma store_all_const : forall args m, well_formed m -> (forall a, In a args -> m_objs m (a_loc a) <> None) ->
    (forall a, In a args -> a_cat a <> X) ->
    exists stored m', store_all moved args m = Ok (stored, m') /\ (forall k, k < m_next m -> m_objs m' k = m_objs m k) /\
      Forall2 (stored_as m m') args stored.
  Proof.
    induction args as [|a args IH]; intros m Hw Hin Hx.
    - exists [], m. repeat split; auto.
    - assert (Ha := Hin a (or_introl eq_refl)). assert (Hxa := Hx a (or_introl eq_refl)).
      assert (St : exists a' m1, store moved a m = Ok (a', m1) /\ well_formed m1 /\ m_next m <= m_next m1 /\
                     stored_as m m1 a a' /\ (forall k, k < m_next m -> m_objs m1 k = m_objs m k)).
      { unfold store, stored_as. destruct (a_cat a) eqn:Ec; try congruence.
        1, 2: exists a, m; rewrite Ec; repeat split; auto.
        destruct (m_objs m (a_loc a)) as [o|] eqn:E; [|congruence]. cbn. do 2 eexists. split; [reflexivity|]. cbn. repeat split; auto.
        - intros j Hj. cbn in *. destruct (Nat.eqb_spec j (m_next m)); [lia|]. apply Hw; lia.
        - intros _. rewrite Nat.eqb_refl. auto.
        - intros k Hk. destruct (Nat.eqb_spec k (m_next m)); [lia|reflexivity]. }
      destruct St as [a' [m1 [E [Hw1 [Hn1 [Ht Hk1]]]]]].
      assert (Hin1 : forall b, In b args -> m_objs m1 (a_loc b) <> None).
      { intros b Hb. assert (Hb' := Hin b (or_intror Hb)). rewrite Hk1; [exact Hb'|]. destruct (Nat.lt_ge_cases (a_loc b) (m_next m)); auto.
        exfalso. apply Hb', Hw. auto. }
      destruct (IH m1 Hw1 Hin1 (fun b Hb => Hx b (or_intror Hb))) as [st [m' [E' [Hk' Hf]]]].
      destruct (store_all_ok args m1 Hw1 Hin1) as [st2 [m2 [E2 [_ [Hn2 _]]]]]. rewrite E' in E2. injection E2 as <- <-.
      exists (a' :: st), m'. cbn. rewrite E. cbn. rewrite E'. cbn. split; [reflexivity|]. split.
      + intros k Hk. rewrite Hk' by lia. auto.
      + constructor.
        * destruct Ht as [T1 [T2 T3]]. split; [exact T1|]. split; [exact T2|]. destruct (is_lvalue (a_cat a)); [exact T3|].
          destruct T3 as [T3 T4]. split; [lia|]. intro Ec. rewrite Hk' by lia. auto.
        * revert Hf. apply Forall2_impl_in. clear - Hn1 Hk1 Hw Hin. intros b b' Hb _ [T1 [T2 T3]]. split; [exact T1|]. split; [exact T2|].
          destruct (is_lvalue (a_cat b)); [exact T3|]. destruct T3 as [T3 T4]. split; [lia|]. intro Ec. rewrite T4 by exact Ec.
          apply Hk1. assert (Hb' := Hin b (or_intror Hb)). destruct (Nat.lt_ge_cases (a_loc b) (m_next m)); auto. exfalso. apply Hb', Hw. auto.
  Qed.

  Lemma contents_none : forall m a k xs, contents m a k xs -> m_objs m (a_loc a) <> None.
  Proof. intros m a k xs [ys _ E|k' ys _ E _]; rewrite E; discriminate. Qed.

  Lemma contents_bound : forall m a k xs, well_formed m -> contents m a k xs -> k < m_next m /\ a_loc a < m_next m.
  Proof.
    intros m a k xs Hw H. assert (G : forall j, m_objs m j <> None -> j < m_next m).
    { intros j Hj. destruct (Nat.lt_ge_cases j (m_next m)); auto. exfalso. apply Hj, Hw. auto. }
    split; [|apply G, (contents_none m a k xs H)]. destruct H as [ys _ E|k' ys _ _ E]; apply G; rewrite E; discriminate.
  Qed.

  (** An element of the tuple has the contents of the argument. *)
  Lemma stored_contents : forall m m' a a' k xs, well_formed m -> (forall j, j < m_next m -> m_objs m' j = m_objs m j) ->
    stored_as m m' a a' -> a_cat a <> X -> contents m a k xs ->
    exists k', contents m' a' k' xs /\ (if is_lvalue (a_cat a) || t_view (a_type a) then k' = k else k' = a_loc a' /\ m_next m <= k').
  Proof.
    intros m m' a a' k xs Hw Hf [T1 [T2 T3]] Hx H. destruct (contents_bound m a k xs Hw H) as [B1 B2].
    destruct (is_lvalue (a_cat a)) eqn:El.
    - subst a'. exists k. split; [|reflexivity]. destruct H as [ys E1 E2|k' ys E1 E2 E3].
      + constructor; auto. rewrite Hf; auto.
      + eapply contents_view; eauto; rewrite Hf; auto.
    - destruct T3 as [T3 T4]. assert (Ec : a_cat a = CX) by (destruct (a_cat a); try discriminate; congruence).
      specialize (T4 Ec). destruct H as [ys E1 E2|k' ys E1 E2 E3]; rewrite E1; cbn.
      + exists (a_loc a'). split; [|split; [reflexivity|lia]]. constructor; [congruence|]. rewrite T4. exact E2.
      + exists k'. split; [|reflexivity]. eapply contents_view; [congruence|rewrite T4; exact E2|rewrite Hf; auto].
  Qed.

  Section Zip.
    Variables (m : memory (V := V)) (args : list arg) (n : Z).
    Hypothesis Hu : Forall (fun a => usable (a_type a)) args.
    Hypothesis Hl : have_length m args n.
    Hypothesis Hw : well_formed m.
    Hypothesis Hk : exists a, In a args /\ knows_size (a_type a).
    Hypothesis Hc : forall a, In a args -> a_cat a = CX -> t_copy (a_type a) = true.

    Lemma objects_exist : forall a, In a args -> m_objs m (a_loc a) <> None.
    Proof. intros a Ha. destruct (Hl a Ha) as [k [xs [H _]]]. exact (contents_none m a k xs H). Qed.
    Lemma all_storable : forallb storable args = true.
    Proof. apply forallb_forall. intros a Ha. unfold storable. destruct (a_cat a) eqn:E; auto. Qed.

    Lemma range_zip_args : exists d stored m', dim_value d = n /\ (0 <= n)%Z /\
      store_all moved args m = Ok (stored, m') /\
      range_zip moved args m = Ok ({| z_dim := d; z_ranges := stored |}, m').
    Proof.
      destruct (range_zip_ok (map (rng_of m) args) n (proper_all m args Hu) (length_all m args n Hu Hl) (known_ex m args Hu Hk)) as [d [E1 [E2 E3]]].
      destruct (store_all_ok args m Hw objects_exist) as [st [m' [E4 _]]].
      exists d, st, m'. split; [exact E2|]. split; [exact E3|]. split; [exact E4|].
      unfold range_zip. rewrite all_storable, (arg_rngs_ok m args n Hu Hl). cbn [bind]. rewrite E1. cbn [bind]. rewrite E4. reflexivity.
    Qed.
  End Zip.

  (** Iterators over arguments that can be referred to. *)
  Section Iterate.
    Variables (m : memory (V := V)) (z : zip_object) (n : Z).
    Hypothesis Hu : Forall (fun a => usable (a_type a)) (z_ranges z).
    Hypothesis Hl : have_length m (z_ranges z) n.
    Hypothesis Hx : forall a, In a (z_ranges z) -> a_cat a <> X.

    Lemma begin_ok : forall start, begin_with start z m = Ok {| it_pos := start (map (rng_of m) (z_ranges z)); it_handles := map (hnd m) (z_ranges z) |}.
    Proof.
      intro start. unfold begin_with. replace (forallb _ _) with true.
      - rewrite (arg_rngs_ok m _ n Hu Hl). cbn [bind]. rewrite (handles_ok m _ n Hl). reflexivity.
      - symmetry. apply forallb_forall. intros a Ha. specialize (Hx a Ha). destruct (a_cat a); auto; congruence.
    Qed.

    (** In any memory in which the containers still exist. *)
    Lemma subscript_ok : forall m' j, (0 <= j < n)%Z ->
      (forall a k xs, In a (z_ranges z) -> t_index (a_type a) = false -> contents m a k xs -> exists ys, m_objs m' k = Some (Elems ys) /\ length ys = length xs) ->
      subscript {| it_pos := zip_begin (map (rng_of m) (z_ranges z)); it_handles := map (hnd m) (z_ranges z) |} j m' =
        Ok (map (elem_at m j) (z_ranges z)).
    Proof.
      intros m' j Hj Hm'. unfold subscript. cbn [it_pos it_handles]. rewrite iter_at_begin, zip_subscript_at.
      - cbn [bind]. rewrite Z.add_0_l, (resolve_ok m _ Hu j). cbn [bind]. rewrite <- (map_id (map (elem_at m j) (z_ranges z))) at 2.
        apply mapM_ok. intros e He. apply in_map_iff in He as [a [<- Ha]]. unfold elem_at, element_in.
        destruct (t_index (a_type a)) eqn:Ei; [reflexivity|]. destruct (Hl a Ha) as [k [xs [H Hn]]].
        rewrite (cont_contents m a k xs H). cbn [fst alive]. destruct (Hm' a k xs Ha Ei H) as [ys [-> El]].
        rewrite El, (Hn Ei). destruct (Z.leb_spec 0 j); [|lia]. destruct (Z.ltb_spec j n); [reflexivity|lia].
      - intros r Hr Hh. rewrite Z.add_0_l, (length_all m _ n Hu Hl r Hr Hh). exact Hj.
    Qed.

    Lemma at_index_ok : forall j, (0 <= j < n)%Z -> at_index z j m = Ok (map (elem_at m j) (z_ranges z)).
    Proof.
      intros j Hj. unfold at_index, begin. rewrite begin_ok. cbn [bind]. apply subscript_ok; [exact Hj|].
      intros a k xs _ _ [ys _ E|k' ys _ _ E]; eauto.
    Qed.
  End Iterate.

  (** ** Assignment *)
  Lemma assign_items_ok : forall xs ys m, length xs = length ys -> NoDup (map a_loc xs) ->
    (forall x y, In x xs -> In y ys -> a_loc x <> a_loc y) ->
    (forall a, In a (xs ++ ys) -> m_objs m (a_loc a) <> None) ->
    exists m', assign_items xs ys m = Ok m' /\ m_next m' = m_next m /\
      Forall2 (fun x y => m_objs m' (a_loc x) = m_objs m (a_loc y)) xs ys /\
      (forall k, ~ In k (map a_loc xs) -> m_objs m' k = m_objs m k).
  Proof.
    induction xs as [|x xs IH]; intros [|y ys] m Hlen Hnd Hdis Hin; try discriminate.
    - exists m. repeat split; auto.
    - cbn [map] in Hnd. inversion Hnd as [|x0 l0 Hx Hnd']. subst. cbn [assign_items].
      destruct (m_objs m (a_loc x)) as [ox|] eqn:Ex; [|exfalso; apply (Hin x); [left; auto|exact Ex]].
      destruct (m_objs m (a_loc y)) as [oy|] eqn:Ey; [|exfalso; apply (Hin y); [apply in_or_app; right; left; auto|exact Ey]].
      destruct (IH ys (set_obj m (a_loc x) (Some oy))) as [m' [E [Hnx [Hf Hk]]]].
      + injection Hlen. auto.
      + exact Hnd'.
      + intros x' y' H1 H2. apply Hdis; right; auto.
      + intros a Ha. cbn. destruct (a_loc a =? a_loc x); [discriminate|]. apply Hin. apply in_app_or in Ha as [Ha|Ha]; apply in_or_app; [left; right|right; right]; auto.
      + exists m'. rewrite E. split; [reflexivity|]. split; [exact Hnx|]. split.
        * constructor.
          { rewrite Hk by exact Hx. cbn. rewrite Nat.eqb_refl. congruence. }
          revert Hf. apply Forall2_impl_in. intros x' y' H1 H2 H. rewrite H. cbn.
          destruct (Nat.eqb_spec (a_loc y') (a_loc x)) as [Eq|]; [|reflexivity]. exfalso. apply (Hdis x y'); [left; auto|right; auto|auto].
        * intros k Hkx. cbn in Hkx. rewrite Hk by tauto. cbn. destruct (Nat.eqb_spec k (a_loc x)) as [->|]; [tauto|reflexivity].
  Qed.

  Lemma dim_eqb_spec : forall z1 z2, dim_eqb (z_dim z1) (z_dim z2) = true <-> same_size_type z1 z2.
  Proof. intros z1 z2. unfold same_size_type, dim_eqb. destruct (z_dim z1), (z_dim z2); try (split; [discriminate|tauto]); [apply Z.eqb_eq|tauto]. Qed.
  Lemma type_eqb_eq : forall t u, type_eqb t u = true -> t = u.
  Proof.
    intros [a1 a2 a3 a4 a5 a6 a7] [b1 b2 b3 b4 b5 b6 b7] H. unfold type_eqb in H. cbn in H. rewrite !andb_true_iff in H.
    repeat match goal with H : _ /\ _ |- _ => destruct H | H : Bool.eqb _ _ = true |- _ => apply eqb_prop in H end. congruence.
  Qed.
  Lemma type_eqb_refl : forall t, type_eqb t t = true.
  Proof. intros [[] [] [] [] [] [] []]; reflexivity. Qed.
End Proofs.
