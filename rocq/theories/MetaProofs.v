(** Proofs about reflection metadata. *)

From Coq Require Import String Ascii ZArith Arith Bool Lia List.
From Verif Require Import Base TupleModel TupleProofs MetaModel MetaSpec.
Import ListNotations.

(** * Types of well-typed metadata *)
Lemma wt_elements : forall m, well_typed m -> Forall well_typed (elements m).
Proof. intros m H. inversion H; subst; cbn [elements]; auto. Qed.

Lemma element_types_ok : forall m l, well_typed m -> tuple_or_array m l ->
  element_types (type_of m) = Some (map type_of l) /\ elements m = l.
Proof.
  intros m l H [->|[r ->]]; cbn [type_of element_types elements].
  - split; reflexivity.
  - split; [|reflexivity]. f_equal. inversion H as [| | | | | | |r' l' _ F]; subst. clear H.
    induction F as [|x l E F IH]; [reflexivity|]. cbn [length repeat map]. rewrite E. f_equal. assumption.
Qed.

Lemma element_types_none : forall m, (forall l, ~ tuple_or_array m l) -> element_types (type_of m) = None /\ elements m = [].
Proof.
  intros m H. destruct m; cbn; auto; exfalso; eapply H; [left|right; eexists]; reflexivity.
Qed.

Lemma tuple_or_array_dec : forall m, (exists l, tuple_or_array m l) \/ (forall l, ~ tuple_or_array m l).
Proof.
  intro m. destruct m; try (right; intros l' [E|[r' E]]; discriminate).
  - left. exists l. left. reflexivity.
  - left. exists l. right. eexists. reflexivity.
Qed.

Lemma tuple_or_array_inj : forall m l l', tuple_or_array m l -> tuple_or_array m l' -> l = l'.
Proof. intros m l l' [->|[r ->]] [E|[r' E]]; congruence. Qed.

Lemma promote_type_string : forall m, is_string (type_of (promote m)) = is_string (type_of m).
Proof. intros [[] | | | | | | |]; reflexivity. Qed.

Lemma promote_id : forall m, is_string (type_of m) = false -> promote m = m.
Proof. intros [[] | | | | | | |] H; try reflexivity. discriminate. Qed.

(** * record_index *)
Lemma record_index_0_filter : forall pred (l : list md) I occ,
  match record_index_0 pred (map type_of l) I occ with
  | Some i => I <= i /\ nth_error l (i - I) = nth_error (filter (fun x => pred (type_of x)) l) occ /\
      (exists x, nth_error l (i - I) = Some x)
  | None => nth_error (filter (fun x => pred (type_of x)) l) occ = None
  end.
Proof.
  intros pred l. induction l as [|x l IH]; intros I occ; cbn [map record_index_0 filter].
  - destruct occ; reflexivity.
  - destruct (pred (type_of x)) eqn:E.
    + destruct occ as [|occ].
      * split; [lia|]. rewrite Nat.sub_diag. split; [reflexivity|]. exists x. reflexivity.
      * specialize (IH (S I) occ). destruct (record_index_0 pred (map type_of l) (S I) occ) as [i|].
        -- destruct IH as [L [Eq Ex]]. split; [lia|]. replace (i - I) with (S (i - S I)) by lia. cbn [nth_error]. auto.
        -- exact IH.
    + specialize (IH (S I) occ). destruct (record_index_0 pred (map type_of l) (S I) occ) as [i|].
      * destruct IH as [L [Eq Ex]]. split; [lia|]. replace (i - I) with (S (i - S I)) by lia. cbn [nth_error]. auto.
      * exact IH.
Qed.

(** extract_metadata() for tuples: the occurrence among the matching entries. *)
Lemma extract_tuple : forall pred occ m l, well_typed m -> tuple_or_array m l ->
  (occ = 0 -> pred (type_of m) = false) ->
  extract_metadata pred occ m = option_map promote (nth_error (filter (fun x => pred (type_of x)) l) occ).
Proof.
  intros pred occ m l W H N. unfold extract_metadata.
  replace (is_available m) with true by (destruct H as [->|[r ->]]; reflexivity).
  replace (Nat.eqb occ 0 && pred (type_of m)) with false
    by (destruct (Nat.eqb_spec occ 0) as [E|E]; [rewrite (N E)|]; reflexivity).
  destruct (element_types_ok m l W H) as [E1 E2]. unfold record_index. rewrite E1, E2.
  assert (G := record_index_0_filter pred l 0 occ).
  destruct (record_index_0 pred (map type_of l) 0 occ) as [i|].
  - destruct G as [_ [G _]]. rewrite Nat.sub_0_r in G. rewrite G. reflexivity.
  - rewrite G. reflexivity.
Qed.

Lemma extract_leaf : forall pred occ m, (forall l, ~ tuple_or_array m l) -> is_available m = true ->
  extract_metadata pred occ m = if Nat.eqb occ 0 && pred (type_of m) then Some (promote m) else None.
Proof.
  intros pred occ m H A. unfold extract_metadata. rewrite A. destruct (Nat.eqb occ 0 && pred (type_of m)); [reflexivity|].
  unfold record_index. rewrite (proj1 (element_types_none m H)). reflexivity.
Qed.

Lemma extract_whole : forall pred m, is_available m = true -> pred (type_of m) = true ->
  extract_metadata pred 0 m = Some (promote m).
Proof. intros pred m A P. unfold extract_metadata. rewrite A, P. reflexivity. Qed.

Lemma filter_strings : forall l, map promote (filter (fun x => is_string (type_of x)) l) = map (MStr false) (strings l).
Proof.
  induction l as [|x l IH]; [reflexivity|]. destruct x as [b s| | | | | | |]; cbn [filter type_of is_string strings flat_map app map].
  - fold (strings l). rewrite IH. destruct b; reflexivity.
  - exact IH. - exact IH. - exact IH. - exact IH. - exact IH. - exact IH. - exact IH.
Qed.

Lemma nth_error_map_opt : forall A B (f : A -> B) l i, nth_error (map f l) i = option_map f (nth_error l i).
Proof. intros A B f l. induction l as [|x l IH]; intros [|i]; cbn; auto. Qed.

Lemma extract_string_tuple : forall occ m l, well_typed m -> tuple_or_array m l ->
  extract_metadata is_string occ m = option_map (MStr false) (nth_error (strings l) occ).
Proof.
  intros occ m l W H. rewrite (extract_tuple is_string occ m l W H) by (destruct H as [->|[r ->]]; reflexivity).
  rewrite <- nth_error_map_opt, filter_strings, nth_error_map_opt. reflexivity.
Qed.

(** * Lists of records *)
Section Kind.
  (** A kind of subjects and its predicate on types. *)
  Variables (kind : md -> Prop) (p : mty -> bool).
  Hypothesis Hkind : forall x, kind x <-> p (type_of x) = true.
  Hypothesis Hscalar : forall x l, kind x -> ~ tuple_or_array x l.
  Hypothesis Hnostr : forall M, is_string M = true -> p M = false.

  Lemma is_record_ok : forall r, well_typed r -> (is_record p (type_of r) = true <-> exists x, kind x /\ record_about r x).
  Proof.
    intros r W. unfold is_record. destruct (tuple_or_array_dec r) as [[l Hl]|Hn].
    - rewrite (proj1 (element_types_ok r l W Hl)). destruct l as [|x l]; cbn [map].
      + split; [discriminate|]. intros [x [_ [l Hl']]]. assert (E := tuple_or_array_inj _ _ _ Hl Hl'). discriminate.
      + rewrite <- Hkind. split.
        * intro K. exists x. split; [assumption|]. exists l. assumption.
        * intros [y [K [l' Hl']]]. assert (E := tuple_or_array_inj _ _ _ Hl Hl'). injection E as -> _. assumption.
    - rewrite (proj1 (element_types_none r Hn)). split; [discriminate|]. intros [x [_ [l Hl]]]. destruct (Hn _ Hl).
  Qed.

  Lemma is_record_tuple_ok : forall m, well_typed m ->
    (is_tuple_of (is_record p) (type_of m) = true <-> tuple_or_array m [] \/ exists rs, record_list kind m rs).
  Proof.
    intros m W. unfold is_tuple_of. destruct (tuple_or_array_dec m) as [[l Hl]|Hn].
    - destruct (element_types_ok m l W Hl) as [E1 E2]. rewrite E1, forallb_forall. assert (We := wt_elements m W). rewrite E2 in We.
      assert (Q := proj1 (Forall_forall _ _) We). split.
      + intro F. destruct l as [|x l]; [left; assumption|]. right. exists (x :: l). split; [assumption|]. split; [discriminate|].
        apply Forall_forall. intros r Hr. apply is_record_ok; [apply Q; assumption|]. apply F. apply in_map. assumption.
      + intros [H|[rs [H1 [H2 H3]]]].
        * assert (El : l = []) by (eapply tuple_or_array_inj; eassumption). rewrite El. intros M HM. destruct HM.
        * assert (l = rs) by (eapply tuple_or_array_inj; eassumption). subst rs. intros M HM. apply in_map_iff in HM. destruct HM as [r [<- Hr]].
          apply is_record_ok; [apply Q; assumption|]. apply (proj1 (Forall_forall _ _) H3). assumption.
    - rewrite (proj1 (element_types_none m Hn)). split; [discriminate|]. intros [H|[rs [H _]]]; destruct (Hn _ H).
  Qed.

  Lemma record_list_promote : forall m rs, record_list kind m rs -> promote m = m.
  Proof. intros m rs [[->|[r ->]] _]; reflexivity. Qed.

  (** A predicate that recognises record lists (and maybe empty lists). *)
  Variable q : mty -> bool.
  Hypothesis Hq1 : forall m rs, well_typed m -> record_list kind m rs -> q (type_of m) = true.
  Hypothesis Hq2 : forall m, well_typed m -> q (type_of m) = true -> tuple_or_array m [] \/ exists rs, record_list kind m rs.

  Lemma extract_record_list : forall m rs, well_typed m -> lists_records kind m rs ->
    exists x, extract_metadata q 0 m = Some x /\ well_typed x /\ record_list kind x rs.
  Proof.
    intros m rs W [H|[l [pre [x [post [H1 [-> [H3 H4]]]]]]]].
    - exists m. split; [|auto]. rewrite extract_whole.
      + rewrite (record_list_promote m rs H). reflexivity.
      + destruct H as [[->|[r ->]] _]; reflexivity.
      + eapply Hq1; eassumption.
    - assert (We := wt_elements m W). rewrite (proj2 (element_types_ok m _ W H1)) in We. assert (Q := proj1 (Forall_forall _ _) We).
      assert (Wx : well_typed x) by (apply Q; apply in_or_app; right; left; reflexivity).
      exists x. split; [|auto].
      rewrite (extract_tuple q 0 m (pre ++ x :: post) W H1).
      + replace (filter (fun x0 => q (type_of x0)) (pre ++ x :: post)) with (x :: filter (fun x0 => q (type_of x0)) post).
        { cbn [nth_error option_map]. rewrite (record_list_promote x rs H3). reflexivity. }
        rewrite filter_app. replace (filter (fun x0 => q (type_of x0)) pre) with (@nil md).
        { cbn [app filter]. rewrite (Hq1 x rs Wx H3). reflexivity. }
        symmetry. clear H1 W H3 Wx We.
        assert (F : forall y, In y pre -> q (type_of y) = false).
        { intros y Hy. apply not_true_iff_false. intro F. destruct (H4 y Hy) as [N1 N2].
          apply Hq2 in F; [|apply Q; apply in_or_app; left; assumption]. destruct F as [F|[rs' F]]; [destruct (N1 F)|destruct (N2 rs' F)]. }
        clear H4 Q. induction pre as [|y pre IH]; [reflexivity|]. cbn [filter]. rewrite (F y (or_introl eq_refl)). apply IH.
        intros z Hz. apply F. right. assumption.
      + intros _. apply not_true_iff_false. intro F. apply Hq2 in F; [|assumption]. destruct F as [F|[rs' [F1 [F2 F3]]]].
        * assert (E := tuple_or_array_inj _ _ _ H1 F). destruct pre; discriminate.
        * assert (E := tuple_or_array_inj _ _ _ H1 F1). subst rs'. rewrite Forall_forall in F3.
          destruct (F3 x) as [y [Ky [l' Hl']]]; [apply in_or_app; right; left; reflexivity|].
          destruct H3 as [G1 [G2 G3]]. assert (E := tuple_or_array_inj _ _ _ Hl' G1). subst rs.
          inversion G3 as [|? ? [z [Kz [lz Hz]]] _]; subst. apply (Hscalar y (z :: lz) Ky Hz).
  Qed.

  (** The first column. *)
  Lemma column_0 : forall x rs, record_list kind x rs ->
    exists xs, mapM (get_promoted 0) rs = Ok xs /\ Forall2 (fun r y => kind y /\ record_about r y) rs xs.
  Proof.
    intros x rs [_ [_ F]]. clear x. induction F as [|r rs [y [Ky [l Hl]]] F IH].
    - exists []. split; [reflexivity|constructor].
    - destruct IH as [xs [E G]]. exists (y :: xs). split.
      + cbn [mapM]. unfold get_promoted at 1. replace (elements r) with (y :: l) by (destruct Hl as [->|[t ->]]; reflexivity).
        cbn [nth_error bind]. rewrite promote_id.
        * rewrite E. reflexivity.
        * apply not_true_iff_false. intro S. apply Hnostr in S. apply Hkind in Ky. congruence.
      + constructor; [|assumption]. split; [assumption|]. exists l. assumption.
  Qed.
End Kind.

(** * Columns of strings *)
Lemma record_index_string : forall occ r, well_typed r -> (exists l, tuple_or_array r l) ->
  match record_index is_string occ (type_of r) with
  | Some j => exists s, nth_error (strings (elements r)) occ = Some s /\ get_promoted j r = Ok (MStr false s)
  | None => nth_error (strings (elements r)) occ = None
  end.
Proof.
  intros occ r W [l Hl]. destruct (element_types_ok r l W Hl) as [E1 E2]. unfold record_index. rewrite E1, E2.
  assert (G := record_index_0_filter is_string l 0 occ).
  assert (F : nth_error (map (MStr false) (strings l)) occ = option_map promote (nth_error (filter (fun x => is_string (type_of x)) l) occ))
    by (rewrite <- filter_strings, nth_error_map_opt; reflexivity).
  rewrite nth_error_map_opt in F.
  destruct (record_index_0 is_string (map type_of l) 0 occ) as [j|].
  - destruct G as [_ [G [x Gx]]]. rewrite Nat.sub_0_r in *. rewrite <- G, Gx in F. unfold get_promoted. rewrite E2, Gx.
    destruct (nth_error (strings l) occ) as [s|]; [|discriminate]. exists s. split; [reflexivity|]. cbn in F. congruence.
  - rewrite G in F. destruct (nth_error (strings l) occ); [discriminate|reflexivity].
Qed.

Lemma try_extract_strings : forall kind occ x rs, well_typed x -> record_list kind x rs ->
  (exists ns, try_extract_column is_string occ x = Ok (Some (map (MStr false) ns)) /\
     Forall2 (fun r n => nth_error (strings (elements r)) occ = Some n) rs ns) \/
  (try_extract_column is_string occ x = Ok None /\ exists r, In r rs /\ nth_error (strings (elements r)) occ = None).
Proof.
  intros kind occ x rs W [Hx [Hne Hrs]].
  assert (Tl : forall r, In r rs -> exists l, tuple_or_array r l).
  { intros r Hr. apply (proj1 (Forall_forall _ _) Hrs) in Hr. destruct Hr as [y [_ [l Hl]]]. eauto. }
  assert (Wr : forall r, In r rs -> well_typed r).
  { assert (We := wt_elements x W). rewrite (proj2 (element_types_ok x rs W Hx)) in We. apply Forall_forall. assumption. }
  destruct Hx as [->|[t ->]]; cbn [try_extract_column].
  - unfold record_indices. cbn [type_of element_types]. rewrite map_map.
    destruct (any_index_invalid (map (fun r => record_index is_string occ (type_of r)) rs)) eqn:E; cbn [negb].
    + right. split; [reflexivity|]. unfold any_index_invalid in E. apply existsb_exists in E. destruct E as [j [Hj Ej]].
      apply in_map_iff in Hj. destruct Hj as [r [Er Hr]]. exists r. split; [assumption|].
      assert (G := record_index_string occ r (Wr r Hr) (Tl r Hr)). rewrite Er in G. destruct j; [discriminate|]. assumption.
    + left. unfold extract_column_seq. cbn [elements]. clear Hrs Hne W.
      assert (K : exists ns, mapM (fun p => get_promoted (fst p) (snd p)) (combine (valid_indices (map (fun r => record_index is_string occ (type_of r)) rs)) rs)
                 = Ok (map (MStr false) ns) /\ Forall2 (fun r n => nth_error (strings (elements r)) occ = Some n) rs ns).
      { induction rs as [|r rs IH]; [exists []; split; [reflexivity|constructor]|].
        cbn [map any_index_invalid existsb] in E. apply orb_false_iff in E. destruct E as [E1 E2].
        destruct IH as [ns [F1 F2]]; [intros; apply Tl; right; assumption|intros; apply Wr; right; assumption|exact E2|].
        assert (G := record_index_string occ r (Wr r (or_introl eq_refl)) (Tl r (or_introl eq_refl))).
        cbn [map valid_indices flat_map]. fold (valid_indices (map (fun r => record_index is_string occ (type_of r)) rs)).
        destruct (record_index is_string occ (type_of r)) as [j|]; [|discriminate].
        destruct G as [s [G1 G2]]. exists (s :: ns). split; [|constructor; assumption].
        cbn [app combine mapM fst snd]. rewrite G2. cbn [bind]. rewrite F1. reflexivity. }
      destruct K as [ns [K1 K2]]. exists ns. split; [|assumption]. rewrite K1. reflexivity.
  - inversion W as [| | | | | | |t' l' _ Ft]; subst.
    assert (J : forall r, In r rs -> record_index is_string occ (type_of r) = record_index is_string occ t).
    { intros r Hr. apply (proj1 (Forall_forall _ _) Ft) in Hr. congruence. }
    destruct (record_index is_string occ t) as [j|] eqn:Ej.
    + left. unfold extract_column. cbn [elements].
      assert (K : exists ns, mapM (get_promoted j) rs = Ok (map (MStr false) ns) /\ Forall2 (fun r n => nth_error (strings (elements r)) occ = Some n) rs ns).
      { clear Ft Hrs Hne W. induction rs as [|r rs IH]; [exists []; split; [reflexivity|constructor]|].
        destruct IH as [ns [F1 F2]]; [intros; apply Tl; right; assumption|intros; apply Wr; right; assumption|intros; apply J; right; assumption|].
        assert (G := record_index_string occ r (Wr r (or_introl eq_refl)) (Tl r (or_introl eq_refl))).
        rewrite (J r (or_introl eq_refl)) in G. destruct G as [s [G1 G2]].
        exists (s :: ns). split; [|constructor; assumption]. cbn [map mapM]. rewrite G2. cbn [bind]. rewrite F1. reflexivity. }
      destruct K as [ns [K1 K2]]. exists ns. split; [|assumption]. rewrite K1. reflexivity.
    + right. split; [reflexivity|]. destruct rs as [|r rs]; [congruence|]. exists r. split; [left; reflexivity|].
      assert (G := record_index_string occ r (Wr r (or_introl eq_refl)) (Tl r (or_introl eq_refl))).
      rewrite (J r (or_introl eq_refl)) in G. assumption.
Qed.

(** * Values *)
Lemma value_kind : forall T x, value_of T x <-> is_value T (type_of x) = true.
Proof.
  intros T x. split.
  - intros [v ->]. apply Nat.eqb_refl.
  - intro H. destruct x; try discriminate. cbn in H. apply Nat.eqb_eq in H. subst. eexists; reflexivity.
Qed.
Lemma value_scalar : forall T x l, value_of T x -> ~ tuple_or_array x l.
Proof. intros T x l [v ->] [E|[r E]]; discriminate. Qed.
Lemma value_nostr : forall T M, is_string M = true -> is_value T M = false.
Proof. intros T [] H; try discriminate; reflexivity. Qed.

Lemma value_q1 : forall T m rs, well_typed m -> record_list (value_of T) m rs -> is_value_record_tuple T (type_of m) = true.
Proof.
  intros T m rs W H. assert (G : is_tuple_of (is_record (is_value T)) (type_of m) = true).
  { apply (is_record_tuple_ok (value_of T) (is_value T) (value_kind T)); [assumption|]. right. eauto. }
  destruct H as [[->|[r ->]] [Hne Hrs]]; [exact G|].
  cbn [type_of is_value_record_tuple]. destruct rs as [|x rs]; [congruence|]. cbn [type_of length] in G. unfold is_tuple_of in G.
  cbn [element_types repeat forallb] in G. apply andb_true_iff in G. apply G.
Qed.
Lemma value_q2 : forall T m, well_typed m -> is_value_record_tuple T (type_of m) = true ->
  tuple_or_array m [] \/ exists rs, record_list (value_of T) m rs.
Proof.
  intros T m W H. destruct m as [| | | |l|r l| |]; try discriminate.
  - apply (is_record_tuple_ok (value_of T) (is_value T) (value_kind T)) in H; assumption.
  - destruct l as [|x l]; [left; right; eexists; reflexivity|]. right. exists (x :: l). split; [right; eexists; reflexivity|].
    split; [discriminate|]. inversion W as [| | | | | | |r' l' Wl Fl]; subst.
    assert (Q := proj1 (Forall_forall _ _) Wl). assert (R := proj1 (Forall_forall _ _) Fl). apply Forall_forall. intros y Hy.
    apply (is_record_ok (value_of T) (is_value T) (value_kind T)); [apply Q; assumption|]. rewrite (R y Hy). exact H.
Qed.

Lemma values_of_records : forall T m rs, well_typed m -> lists_records (value_of T) m rs ->
  exists vs, extract_values T m = Ok (Some (map (MVal T) vs)) /\ Forall2 (fun r v => record_about r (MVal T v)) rs vs.
Proof.
  intros T m rs W H.
  destruct (extract_record_list (value_of T) (value_scalar T) (is_value_record_tuple T) (value_q1 T) (value_q2 T) m rs W H) as [x [E [Wx Hx]]].
  unfold extract_values. rewrite E. unfold extract_column.
  destruct (column_0 (value_of T) (is_value T) (value_kind T) (value_nostr T) x rs Hx) as [xs [E1 F]].
  rewrite (proj2 (element_types_ok x rs Wx (proj1 Hx))), E1. cbn [bind].
  assert (G : exists vs, xs = map (MVal T) vs /\ Forall2 (fun r v => record_about r (MVal T v)) rs vs).
  { clear - F. induction F as [|r y rs xs [[v ->] Ry] F IH]; [exists []; split; [reflexivity|constructor]|].
    destruct IH as [vs [-> G]]. exists (v :: vs). split; [reflexivity|]. constructor; assumption. }
  destruct G as [vs [-> G]]. eauto.
Qed.

Lemma value_strings_of_records : forall T occ m rs, well_typed m -> lists_records (value_of T) m rs ->
  (exists ns, extract_value_metadata is_string occ T m = Ok (Some (map (MStr false) ns)) /\
     Forall2 (fun r n => nth_error (strings (elements r)) occ = Some n) rs ns) \/
  (extract_value_metadata is_string occ T m = Ok None /\ exists r, In r rs /\ nth_error (strings (elements r)) occ = None).
Proof.
  intros T occ m rs W H.
  destruct (extract_record_list (value_of T) (value_scalar T) (is_value_record_tuple T) (value_q1 T) (value_q2 T) m rs W H) as [x [E [Wx Hx]]].
  unfold extract_value_metadata. rewrite E. apply try_extract_strings with (value_of T); assumption.
Qed.

(** * Members *)
Lemma member_kind : forall T x, member_of T x <-> is_member T (type_of x) = true.
Proof.
  intros T x. split.
  - intros [d [i ->]]. apply Nat.eqb_refl.
  - intro H. destruct x; try discriminate. cbn in H. apply Nat.eqb_eq in H. subst. eexists; eexists; reflexivity.
Qed.
Lemma member_scalar : forall T x l, member_of T x -> ~ tuple_or_array x l.
Proof. intros T x l [d [i ->]] [E|[r E]]; discriminate. Qed.
Lemma member_nostr : forall T M, is_string M = true -> is_member T M = false.
Proof. intros T [] H; try discriminate; reflexivity. Qed.
Lemma member_q1 : forall T m rs, well_typed m -> record_list (member_of T) m rs -> is_member_record_tuple T (type_of m) = true.
Proof.
  intros T m rs W H. apply (is_record_tuple_ok (member_of T) (is_member T) (member_kind T)); [assumption|]. right. eauto.
Qed.
Lemma member_q2 : forall T m, well_typed m -> is_member_record_tuple T (type_of m) = true ->
  tuple_or_array m [] \/ exists rs, record_list (member_of T) m rs.
Proof. intros T m W H. apply (is_record_tuple_ok (member_of T) (is_member T) (member_kind T)) in H; assumption. Qed.

(** Member records in a tuple; arrays of member records do not compile. *)
Definition not_array (x : md) : Prop := forall r l, x <> MArray r l.

Lemma members_of_records : forall is_class T m rs, well_typed m -> lists_records (member_of T) m rs ->
  (forall x, x = m \/ In x (elements m) -> record_list (member_of T) x rs -> not_array x) ->
  exists ms, extract_members is_class T m = Ok (Some ms) /\ Forall2 (fun r y => member_of T y /\ record_about r y) rs ms.
Proof.
  intros is_class T m rs W H Na.
  destruct (extract_record_list (member_of T) (member_scalar T) (is_member_record_tuple T) (member_q1 T) (member_q2 T) m rs W H) as [x [E [Wx Hx]]].
  unfold extract_members. rewrite E.
  assert (Ix : x = m \/ In x (elements m)).
  { unfold extract_metadata in E. destruct (is_available m); [|discriminate].
    destruct (Nat.eqb 0 0 && is_member_record_tuple T (type_of m)).
    - injection E as E. left. destruct m as [[] | | | | | | |]; cbn in E; try congruence. subst x. destruct Hx as [[?|[? ?]] _]; discriminate.
    - destruct (record_index (is_member_record_tuple T) 0 (type_of m)) as [i|]; [|discriminate].
      destruct (nth_error (elements m) i) as [y|] eqn:Ei; [|discriminate]. cbn in E. injection E as E. right. apply nth_error_In in Ei.
      destruct y as [[] s| | | | | | |]; cbn in E; try congruence. subst x. destruct Hx as [[?|[? ?]] _]; discriminate. }
  specialize (Na x Ix Hx).
  destruct (column_0 (member_of T) (is_member T) (member_kind T) (member_nostr T) x rs Hx) as [xs [E1 F]].
  exists xs. split; [|assumption]. destruct Hx as [[->|[r ->]] _]; [|exfalso; eapply Na; reflexivity].
  cbn [extract_heterogeneous_column]. rewrite E1. reflexivity.
Qed.

Lemma member_strings_of_records : forall is_class T occ m rs, well_typed m -> lists_records (member_of T) m rs ->
  (exists ns, extract_member_metadata is_class is_string occ T m = Ok (Some (map (MStr false) ns)) /\
     Forall2 (fun r n => nth_error (strings (elements r)) occ = Some n) rs ns) \/
  (extract_member_metadata is_class is_string occ T m = Ok None /\ exists r, In r rs /\ nth_error (strings (elements r)) occ = None).
Proof.
  intros is_class T occ m rs W H.
  destruct (extract_record_list (member_of T) (member_scalar T) (is_member_record_tuple T) (member_q1 T) (member_q2 T) m rs W H) as [x [E [Wx Hx]]].
  unfold extract_member_metadata. rewrite E. apply try_extract_strings with (member_of T); assumption.
Qed.

(** * Lookup *)
Lemma search_index_loop_spec : forall A (eqb : A -> A -> bool) v l i, (0 <= i)%Z ->
  match search_index_loop eqb v l i with
  | r => (r = -1 /\ (forall a, In a l -> eqb a v = false))%Z \/
         (exists k, r = (i + Z.of_nat k)%Z /\ (exists a, nth_error l k = Some a /\ eqb a v = true) /\
            forall j a, j < k -> nth_error l j = Some a -> eqb a v = false)
  end.
Proof.
  intros A eqb v l. induction l as [|x l IH]; intros i Hi; cbn [search_index_loop].
  - left. split; [reflexivity|intros a []].
  - destruct (eqb x v) eqn:E.
    + right. exists 0. split; [lia|]. split; [exists x; auto|]. intros j a Hj. lia.
    + destruct (IH (i + 1)%Z) as [[H1 H2]|[k [H1 [H2 H3]]]]; [lia| |].
      * left. split; [assumption|]. intros a [<-|Ha]; auto.
      * right. exists (S k). split; [lia|]. split; [assumption|]. intros [|j] a Hj Ha; cbn in Ha; [congruence|].
        apply (H3 j a); [lia|assumption].
Qed.

Lemma md_eqb_val : forall T v x, md_eqb x (MVal T v) = true <-> x = MVal T v.
Proof.
  intros T v x. destruct x; cbn; split; intro H; try discriminate.
  - apply andb_true_iff in H. destruct H as [H1 H2]. apply Nat.eqb_eq in H1. apply Z.eqb_eq in H2. congruence.
  - injection H as -> ->. rewrite Nat.eqb_refl, Z.eqb_refl. reflexivity.
Qed.
Lemma md_eqb_str : forall s x, md_eqb x (MStr false s) = true <-> exists b, x = MStr b s.
Proof.
  intros s x. destruct x as [b s'| | | | | | |]; cbn; split; intro H; try discriminate; try (destruct H; discriminate).
  - unfold str_eqb in H. destruct (list_eq_dec ascii_dec s' s) as [->|]; [eauto|discriminate].
  - destruct H as [b' H]. injection H as _ ->. unfold str_eqb. destruct (list_eq_dec ascii_dec s s); congruence.
Qed.

Lemma search_in_spec : forall (P : md -> Prop) x vs, (forall a, md_eqb a x = true <-> P a) ->
  (search_in (Ok (Some vs)) x = Ok (-1)%Z /\ find_in (Ok (Some vs)) x = Contract /\ (forall a, In a vs -> ~ P a)) \/
  (exists k, search_in (Ok (Some vs)) x = Ok (Z.of_nat k) /\ find_in (Ok (Some vs)) x = Ok (Z.of_nat k) /\ least_index P vs k).
Proof.
  intros P x vs HP. unfold find_in, search_in. cbn [bind].
  destruct (search_index_loop_spec _ md_eqb x vs 0 (Z.le_refl 0)) as [[H1 H2]|[k [H1 [[a [Ha Ea]] H3]]]]; unfold search_index; rewrite H1.
  - left. split; [reflexivity|]. split; [reflexivity|]. intros a Ha Pa. apply HP in Pa. rewrite (H2 a Ha) in Pa. discriminate.
  - right. exists k. rewrite Z.add_0_l. split; [reflexivity|]. split.
    + destruct (Z.leb_spec 0 (Z.of_nat k)); [reflexivity|lia].
    + split; [exists a; split; [assumption|apply HP; assumption]|]. intros j b Hj Hb Pb. apply HP in Pb. rewrite (H3 j b Hj Hb) in Pb. discriminate.
Qed.

(** * Hierarchies *)
Scheme member_list_mind := Induction for member_list Sort Prop
  with member_lists_mind := Induction for member_lists Sort Prop.

Section Hierarchy.
  Variables (is_base_of : nat -> nat -> bool) (is_class : nat -> bool) (reflect : nat -> md).
  Definition bases_are (T : nat) (bs : list nat) : Prop := bases is_base_of is_class reflect T = Ok (Some (map MBase bs)).
  Definition exclusive_are (T : nat) (ms : list md) : Prop := exclusive_members is_class reflect T = Ok (Some ms).

  Variable rank : nat -> nat.
  Hypothesis Hrank : forall T bs b, bases_are T bs -> In b bs -> rank b < rank T.

  Lemma map_MBase_inj : forall a b, map MBase a = map MBase b -> a = b.
  Proof. induction a as [|x a IH]; intros [|y b] H; cbn in H; try discriminate; [reflexivity|]. injection H as -> H. f_equal. auto. Qed.
  Lemma bases_are_unique : forall T a b, bases_are T a -> bases_are T b -> a = b.
  Proof. unfold bases_are. intros T a b Ha Hb. apply map_MBase_inj. congruence. Qed.

  (** If all classes concerned are reflected. *)
  Lemma all_members_ok : forall fuel T, rank T < fuel ->
    (forall C, class_of bases_are T C -> exists bs ms, bases_are C bs /\ exclusive_are C ms) -> exists ms, member_list bases_are exclusive_are T ms /\
    (Z.of_nat (length ms) < size_t_modulus -> all_members is_base_of is_class reflect fuel T = Ok (Some ms))%Z.
  Proof.
    induction fuel as [|fuel IH]; intros T Hf Hall; [lia|].
    destruct (Hall T (co_self _ T)) as [bs [ms [Hb Hm]]].
    assert (G : exists mss, member_lists bases_are exclusive_are bs mss /\
       ((Z.of_nat (length (concat mss)) < size_t_modulus)%Z ->
        mapM (fun b => do u <- base_class b; do l <- all_members is_base_of is_class reflect fuel u; must_be_tuple l) (map MBase bs) = Ok mss)).
    { assert (Hr : forall b, In b bs -> rank b < fuel) by (intros b Hin; specialize (Hrank T bs b Hb Hin); lia).
      assert (Hc : forall b, In b bs -> forall C, class_of bases_are b C -> exists bs ms, bases_are C bs /\ exclusive_are C ms).
      { intros b Hin C HC. apply Hall. eapply co_base; eassumption. }
      clear Hb Hm Hall. induction bs as [|b bs IHb]; [exists []; split; [constructor|reflexivity]|].
      destruct IHb as [mss [G1 G2]]; [intros; apply Hr; right; assumption|intros b' Hb'; apply Hc; right; assumption|].
      destruct (IH b (Hr b (or_introl eq_refl)) (Hc b (or_introl eq_refl))) as [l [L1 L2]].
      exists (l :: mss). split; [constructor; assumption|]. intro Hs. cbn [concat] in Hs. rewrite app_length in Hs.
      cbn [map mapM base_class bind]. rewrite L2 by lia. cbn [bind must_be_tuple]. rewrite G2 by lia. reflexivity. }
    destruct G as [mss [G1 G2]]. exists (concat mss ++ ms). split; [econstructor; eassumption|].
    intro Hs. rewrite app_length in Hs. cbn [all_members]. rewrite Hm. cbn [bind]. rewrite Hb. cbn [bind must_be_tuple]. rewrite G2 by lia. cbn [bind].
    unfold tuple_cat. rewrite cat_impl_concat; rewrite concat_app; cbn [concat]; rewrite app_nil_r; [reflexivity|].
    rewrite app_length. assumption.
  Qed.

  (** Exactly the members of the class and its bases. *)
  Lemma member_list_in : forall T ms, member_list bases_are exclusive_are T ms ->
    forall m, In m ms <-> exists C cs, class_of bases_are T C /\ exclusive_are C cs /\ In m cs.
  Proof.
    apply (member_list_mind bases_are exclusive_are
      (fun T ms _ => forall m, In m ms <-> exists C cs, class_of bases_are T C /\ exclusive_are C cs /\ In m cs)
      (fun bs mss _ => forall m, In m (concat mss) <-> exists b C cs, In b bs /\ class_of bases_are b C /\ exclusive_are C cs /\ In m cs)).
    - intros T bs ms mss Hb Hm _ IH m. rewrite in_app_iff, IH. split.
      + intros [[b [C [cs [H1 [H2 [H3 H4]]]]]]|H].
        * exists C, cs. split; [eapply co_base; eassumption|auto].
        * exists T, ms. split; [apply co_self|auto].
      + intros [C [cs [H1 [H2 H3]]]]. inversion H1 as [|? bs' b ? Hb' Hin Hc]; subst.
        * right. assert (cs = ms) by (unfold exclusive_are in *; congruence). subst. assumption.
        * left. assert (bs' = bs) by (eapply bases_are_unique; eassumption). subst. exists b, C, cs. auto.
    - intro m. cbn. split; [intros []|]. intros [b [C [cs [[] _]]]].
    - intros b bs l ls _ IH1 _ IH2 m. cbn [concat]. rewrite in_app_iff, IH1, IH2. split.
      + intros [[C [cs H]]|[b' [C [cs [H1 H2]]]]]; [exists b, C, cs|exists b', C, cs]; (split; [|tauto]); [left; reflexivity|right; assumption].
      + intros [b' [C [cs [[->|H1] H2]]]]; [left; eauto|right; exists b', C, cs; tauto].
  Qed.
End Hierarchy.

(** * Ties *)
Lemma member_eqb_eq : forall a b, (exists c d i, a = MMember c d i) -> (member_eqb a b = true <-> a = b).
Proof.
  intros a b [c [d [i ->]]]. destruct b; cbn; split; intro H; try discriminate.
  - apply andb_true_iff in H. destruct H as [H H3]. apply andb_true_iff in H. destruct H as [H1 H2].
    apply Nat.eqb_eq in H1, H2, H3. congruence.
  - injection H as -> -> ->. rewrite !Nat.eqb_refl. reflexivity.
Qed.

Definition is_member_pointer (m : md) : Prop := exists c d i, m = MMember c d i.

Lemma assign_tie_spec : forall tie vs x, Forall is_member_pointer tie -> NoDup tie -> length tie = length vs ->
  exists y, assign_tie tie vs x = Ok y /\ read_tie tie y = vs /\ forall m, ~ In m tie -> y m = x m.
Proof.
  induction tie as [|m tie IH]; intros [|v vs] x Hp Hn L; cbn [length] in L; try discriminate.
  - exists x. repeat split.
  - inversion Hp as [|? ? Hm Hp']; subst. inversion Hn as [|? ? Hni Hn']; subst. injection L as L.
    destruct (IH vs (fun m' => if member_eqb m m' then v else x m') Hp' Hn' L) as [y [E1 [E2 E3]]].
    exists y. split; [exact E1|]. split.
    + cbn [read_tie map]. f_equal; [|exact E2]. rewrite E3 by assumption. rewrite (proj2 (member_eqb_eq m m Hm) eq_refl). reflexivity.
    + intros m' Hm'. rewrite E3 by (intro; apply Hm'; right; assumption).
      destruct (member_eqb m m') eqn:E; [|reflexivity]. apply member_eqb_eq in E; [|assumption]. subst. exfalso. apply Hm'. left. reflexivity.
Qed.

(** * members() computes the list whenever it exists *)
Section Computes.
  Variables (is_base_of : nat -> nat -> bool) (is_class : nat -> bool) (reflect : nat -> md).
  Let B := bases_are is_base_of is_class reflect.
  Let E := exclusive_are is_class reflect.
  Let step fuel := fun b => do u <- base_class b; do l <- all_members is_base_of is_class reflect fuel u; must_be_tuple l.

  Lemma all_members_computes : forall T ms, member_list B E T ms -> (Z.of_nat (length ms) < size_t_modulus)%Z ->
    exists f0, forall fuel, f0 <= fuel -> all_members is_base_of is_class reflect fuel T = Ok (Some ms).
  Proof.
    apply (member_list_mind B E
      (fun T ms _ => (Z.of_nat (length ms) < size_t_modulus)%Z -> exists f0, forall fuel, f0 <= fuel -> all_members is_base_of is_class reflect fuel T = Ok (Some ms))
      (fun bs mss _ => (Z.of_nat (length (concat mss)) < size_t_modulus)%Z -> exists f0, forall fuel, f0 <= fuel -> mapM (step fuel) (map MBase bs) = Ok mss)).
    - intros T bs ms mss Hb Hm _ IH Hs. rewrite app_length in Hs. destruct IH as [f0 IH]; [lia|].
      exists (S f0). intros [|fuel] Hf; [lia|]. unfold B, bases_are in Hb. unfold E, exclusive_are in Hm.
      cbn [all_members]. rewrite Hm. cbn [bind]. rewrite Hb. cbn [bind must_be_tuple].
      fold (step fuel). rewrite (IH fuel) by lia. cbn [bind].
      unfold tuple_cat. rewrite cat_impl_concat; rewrite concat_app; cbn [concat]; rewrite app_nil_r; [reflexivity|].
      rewrite app_length. assumption.
    - intros _. exists 0. reflexivity.
    - intros b bs l ls _ IH1 _ IH2 Hs. cbn [concat] in Hs. rewrite app_length in Hs.
      destruct IH1 as [f1 IH1]; [lia|]. destruct IH2 as [f2 IH2]; [lia|]. exists (Nat.max f1 f2). intros fuel Hf.
      cbn [map mapM]. unfold step at 1. cbn [base_class bind]. rewrite (IH1 fuel) by lia. cbn [bind must_be_tuple]. rewrite (IH2 fuel) by lia. reflexivity.
  Qed.
End Computes.

(** * Alignment of members and names for hierarchies of depth one *)
Section Align.
  Variables (is_base_of : nat -> nat -> bool) (is_class : nat -> bool) (reflect : nat -> md).

  (** The class is reflected by a list of member records, each of which has a string with the number [occ]. *)
  Definition labelled (occ : nat) (C : nat) (rs : list md) : Prop :=
    well_typed (reflect C) /\ lists_records (member_of C) (reflect C) rs /\
    (forall x, x = reflect C \/ In x (elements (reflect C)) -> record_list (member_of C) x rs -> not_array x) /\
    forall r, In r rs -> exists n, nth_error (strings (elements r)) occ = Some n.
  (** The class is reflected by a list of named member records. *)
  Definition named := labelled 0.

  Definition label_of (occ : nat) (rs : list md) (m : md) (n : str) : Prop :=
    exists r, In r rs /\ record_about r m /\ nth_error (strings (elements r)) occ = Some n.
  Definition described (rs : list md) (m : md) (n : str) : Prop := exists r, In r rs /\ record_about r m /\ record_name r n.

  Lemma Forall2_impl_in : forall A B (P Q : A -> B -> Prop) l1 l2, (forall a b, In a l1 -> P a b -> Q a b) -> Forall2 P l1 l2 -> Forall2 Q l1 l2.
  Proof.
    intros A B P Q l1 l2 H F. induction F as [|a b l1 l2 H1 F IH]; constructor.
    - apply H; [left; reflexivity|assumption].
    - apply IH. intros a' b' Ha. apply H. right. assumption.
  Qed.

  Lemma align_lists : forall occ (rs ms : list md) (ns : list str) kind, Forall2 (fun r y => kind y /\ record_about r y) rs ms ->
    Forall2 (fun r n => nth_error (strings (elements r)) occ = Some n) rs ns ->
    Forall2 (fun m n => kind m /\ label_of occ rs m n) ms ns.
  Proof.
    intros occ rs ms ns kind F. revert ns. induction F as [|r m rs ms [K R] F IH]; intros ns G; inversion G as [|? n ? ns' G1 G2]; subst; constructor.
    - split; [assumption|]. exists r. split; [left; reflexivity|]. split; assumption.
    - specialize (IH ns' G2). clear - IH. induction IH as [|a b l1 l2 [Ka [r' [H1 H2]]] F' IH']; constructor; [|assumption].
      split; [assumption|]. exists r'. split; [right; assumption|assumption].
  Qed.

  Lemma labelled_aligned : forall occ C rs, labelled occ C rs ->
    exists ms ns, extract_members is_class C (reflect C) = Ok (Some ms) /\
      extract_member_metadata is_class is_string occ C (reflect C) = Ok (Some (map (MStr false) ns)) /\
      Forall2 (fun m n => member_of C m /\ label_of occ rs m n) ms ns.
  Proof.
    intros occ C rs [W [L [Na Hn]]].
    destruct (members_of_records is_class C (reflect C) rs W L Na) as [ms [E1 F1]].
    destruct (member_strings_of_records is_class C occ (reflect C) rs W L) as [[ns [E2 F2]]|[_ [r [Hr N]]]].
    - exists ms, ns. split; [assumption|]. split; [assumption|]. eapply align_lists; eassumption.
    - destruct (Hn r Hr) as [n Hn']. congruence.
  Qed.

  Lemma Forall2_app_intro : forall A B (P : A -> B -> Prop) a1 b1 a2 b2, Forall2 P a1 b1 -> Forall2 P a2 b2 -> Forall2 P (a1 ++ a2) (b1 ++ b2).
  Proof. intros A B P a1 b1 a2 b2 H1 H2. induction H1; cbn; [assumption|constructor; assumption]. Qed.

  Lemma root_members : forall b ms fuel, 1 <= fuel -> bases_are is_base_of is_class reflect b [] ->
    extract_members is_class b (reflect b) = Ok (Some ms) -> (Z.of_nat (length ms) < size_t_modulus)%Z ->
    all_members is_base_of is_class reflect fuel b = Ok (Some ms).
  Proof.
    intros b ms fuel Hf Hb E Hs. destruct fuel as [|fuel]; [lia|]. cbn [all_members]. unfold exclusive_members. rewrite E. cbn [bind].
    unfold bases_are in Hb. rewrite Hb. cbn [bind must_be_tuple map mapM].
    unfold tuple_cat. rewrite cat_impl_concat; cbn [app concat]; rewrite app_nil_r; [reflexivity|assumption].
  Qed.

  Lemma members_labels_aligned : forall occ T bs fuel,
    bases_are is_base_of is_class reflect T bs -> (exists rs, labelled occ T rs) ->
    (forall b, In b bs -> bases_are is_base_of is_class reflect b [] /\ exists rs, labelled occ b rs) -> 2 <= fuel ->
    exists ms ns, Forall2 (fun m n => exists C rs, (C = T \/ In C bs) /\ labelled occ C rs /\ member_of C m /\ label_of occ rs m n) ms ns /\
      ((Z.of_nat (length ms) < size_t_modulus)%Z ->
       members is_base_of is_class reflect fuel T = Ok (Some ms) /\
       extract_all_member_metadata is_base_of is_class reflect is_string occ T = Ok (Some (map (MStr false) ns))).
  Proof.
    intros occ T bs fuel Hb [rs HT] HB Hf.
    destruct (labelled_aligned occ T rs HT) as [ms [ns [E1 [E2 F]]]].
    destruct fuel as [|fuel]; [lia|]. assert (Hf' : 1 <= fuel) by lia. clear Hf.
    assert (G : exists mss nss,
      ((Z.of_nat (length (concat mss)) < size_t_modulus)%Z -> mapM (fun b => do u <- base_class b; do l <- all_members is_base_of is_class reflect fuel u; must_be_tuple l) (map MBase bs) = Ok mss) /\
      mapM (fun b => do u <- base_class b; do l <- extract_member_metadata is_class is_string occ u (reflect u); must_be_tuple l) (map MBase bs) = Ok (map (map (MStr false)) nss) /\
      Forall2 (fun m n => exists C rs, In C bs /\ labelled occ C rs /\ member_of C m /\ label_of occ rs m n) (concat mss) (concat nss)).
    { clear Hb HT E1 E2 F. induction bs as [|b bs IH]; [exists [], []; repeat split; constructor|].
      destruct IH as [mss [nss [G1 [G2 G3]]]]; [intros; apply HB; right; assumption|].
      destruct (HB b (or_introl eq_refl)) as [Hbb [rsb Hnb]]. destruct (labelled_aligned occ b rsb Hnb) as [msb [nsb [E1 [E2 F]]]].
      exists (msb :: mss), (nsb :: nss). split; [|split].
      - intro Hs. cbn [concat] in Hs. rewrite app_length in Hs.
        cbn [map mapM base_class bind]. rewrite (root_members b msb fuel Hf' Hbb E1) by lia. cbn [bind must_be_tuple]. rewrite G1 by lia. reflexivity.
      - cbn [map mapM base_class bind]. rewrite E2. cbn [bind must_be_tuple]. rewrite G2. reflexivity.
      - cbn [concat]. apply Forall2_app_intro.
        + eapply Forall2_impl_in; [|exact F]. intros m n _ [K D]. exists b, rsb. split; [left; reflexivity|]. auto.
        + eapply Forall2_impl_in; [|exact G3]. intros m n _ [C [rs' [H1 H2]]]. exists C, rs'. split; [right; assumption|assumption]. }
    destruct G as [mss [nss [G1 [G2 G3]]]]. exists (concat mss ++ ms), (concat nss ++ ns). split.
    - apply Forall2_app_intro.
      + eapply Forall2_impl_in; [|exact G3]. intros m n _ [C [rs' [H1 H2]]]. exists C, rs'. split; [right; assumption|assumption].
      + eapply Forall2_impl_in; [|exact F]. intros m n _ [K D]. exists T, rs. split; [left; reflexivity|]. auto.
    - intro Hs. rewrite app_length in Hs.
      assert (Ln : length (concat nss ++ ns) = length (concat mss ++ ms)).
      { rewrite !app_length. rewrite (Forall2_length G3), (Forall2_length F). reflexivity. }
      unfold bases_are in Hb. split.
      + unfold members. cbn [all_members]. unfold exclusive_members. rewrite E1. cbn [bind]. rewrite Hb. cbn [bind must_be_tuple].
        rewrite G1 by lia. cbn [bind]. unfold tuple_cat. rewrite cat_impl_concat; rewrite concat_app; cbn [concat]; rewrite app_nil_r; [reflexivity|].
        rewrite app_length. assumption.
      + unfold extract_all_member_metadata. rewrite E2. cbn [bind]. rewrite Hb. cbn [bind must_be_tuple]. rewrite G2. cbn [bind].
        assert (Ec : concat (map (map (MStr false)) nss ++ [map (MStr false) ns]) = map (MStr false) (concat nss ++ ns)).
        { rewrite concat_app, map_app, concat_map. cbn [concat]. rewrite app_nil_r. reflexivity. }
        unfold array_cat. rewrite cat_impl_concat; rewrite Ec; [reflexivity|]. rewrite map_length, Ln, app_length. assumption.
  Qed.

  Lemma members_names_aligned : forall T bs fuel,
    bases_are is_base_of is_class reflect T bs -> (exists rs, named T rs) ->
    (forall b, In b bs -> bases_are is_base_of is_class reflect b [] /\ exists rs, named b rs) -> 2 <= fuel ->
    exists ms ns, Forall2 (fun m n => exists C rs, (C = T \/ In C bs) /\ named C rs /\ member_of C m /\ described rs m n) ms ns /\
      ((Z.of_nat (length ms) < size_t_modulus)%Z ->
       members is_base_of is_class reflect fuel T = Ok (Some ms) /\
       member_names is_base_of is_class reflect T = Ok (Some (map (MStr false) ns))).
  Proof. exact (members_labels_aligned 0). Qed.
End Align.

Lemma least_index_string : forall ns n, In n ns -> exists k, least_index (fun a => exists b, a = MStr b n) (map (MStr false) ns) k /\ nth_error ns k = Some n.
Proof.
  intros ns n H. induction ns as [|x ns IH]; [destruct H|].
  destruct (list_eq_dec ascii_dec x n) as [->|Ne].
  - exists 0. split; [|reflexivity]. split; [exists (MStr false n); split; [reflexivity|eauto]|]. intros j a Hj. lia.
  - destruct H as [H|H]; [congruence|]. destruct (IH H) as [k [[[a [A1 A2]] A3] K]]. exists (S k). split; [|assumption]. split.
    + exists a. split; assumption.
    + intros [|j] b Hj Hb; cbn in Hb.
      * injection Hb as <-. intros [c E]. congruence.
      * apply (A3 j b); [lia|assumption].
Qed.

(** An extracted (non-string) metadatum is the metadata or one of their entries. *)
Lemma extract_metadata_in : forall pred m x, well_typed m -> (forall M, is_string M = true -> pred M = false) ->
  extract_metadata pred 0 m = Some x -> well_typed x /\ (x = m \/ In x (elements m)) /\ pred (type_of x) = true.
Proof.
  intros pred m x W Ns H.
  assert (Pr : forall y, pred (type_of y) = true -> promote y = y).
  { intros y Hy. apply promote_id. apply not_true_iff_false. intro S. apply Ns in S. congruence. }
  destruct (tuple_or_array_dec m) as [[l Hl]|Hn].
  - destruct (pred (type_of m)) eqn:P.
    + rewrite extract_whole in H; [|destruct Hl as [->|[r ->]]; reflexivity|assumption]. rewrite (Pr m P) in H. injection H as <-. auto.
    + rewrite (extract_tuple pred 0 m l W Hl (fun _ => P)) in H.
      destruct (filter (fun y => pred (type_of y)) l) as [|y ys] eqn:F; [discriminate|]. cbn in H. injection H as <-.
      assert (G : In y (filter (fun y => pred (type_of y)) l)) by (rewrite F; left; reflexivity).
      apply filter_In in G. destruct G as [G1 G2]. rewrite (Pr y G2).
      assert (E := proj2 (element_types_ok m l W Hl)). assert (We := wt_elements m W). rewrite E in We. rewrite E.
      split; [apply (proj1 (Forall_forall _ _) We); assumption|]. auto.
  - destruct (is_available m) eqn:A; [|unfold extract_metadata in H; rewrite A in H; discriminate].
    rewrite (extract_leaf pred 0 m Hn A) in H. cbn in H. destruct (pred (type_of m)) eqn:P; [|discriminate]. rewrite (Pr m P) in H. injection H as <-. auto.
Qed.
