(** Proofs about the string conversions of flags. *)

From Coq Require Import String Ascii ZArith NArith Arith Bool List Lia.
From Verif Require Import Base SerializeModel SerializeSpec SerializeProofs.
Import ListNotations.

(* ------------------------------------------------------------------------ *)
(** ** Single bits *)

Lemma is_single_iff : forall v, is_single v = true <-> single_bit v.
Proof.
  intro v. unfold is_single, single_bit. rewrite andb_true_iff, N.eqb_eq, negb_true_iff, N.eqb_neq.
  split.
  - intros [H _]. exists (N.log2 v); auto.
  - intros [k ->]. rewrite N.log2_pow2 by lia. split; auto. apply N.pow_nonzero; lia.
Qed.

Lemma is_power_of_2_single : forall v, is_power_of_2 v = is_single v.
Proof.
  intro v. destruct (N.eq_dec v 0) as [->|Hv]; [reflexivity|].
  unfold is_power_of_2, is_single.
  destruct (N.log2_spec v) as [H1 H2]; [lia|].
  assert (Hlt : N.ltb 0 v = true) by (apply N.ltb_lt; lia).
  assert (Hne : negb (N.eqb v 0) = true) by (apply negb_true_iff, N.eqb_neq; auto).
  rewrite Hlt, Hne, andb_true_r, andb_true_l. set (k := N.log2 v) in *. clearbody k.
  destruct (N.eqb_spec v (2 ^ k)) as [E|E].
  - rewrite E. apply N.eqb_eq. replace (2 ^ k - 1)%N with (N.ones k) by (rewrite N.ones_equiv; lia).
    apply N.bits_inj; intro m. rewrite N.land_spec, N.bits_0, N.pow2_bits_eqb.
    destruct (N.eqb_spec k m); auto. subst. rewrite N.ones_spec_high by lia. auto.
  - apply N.eqb_neq. intro Hz.
    assert (Hb : forall x, (2 ^ k <= x < 2 ^ N.succ k)%N -> N.testbit x k = true).
    { intros x [Hx1 Hx2]. rewrite N.testbit_true.
      replace (x / 2 ^ k)%N with 1%N; auto.
      apply N.div_unique with (r := (x - 2 ^ k)%N); rewrite ?N.pow_succ_r in * by lia; lia. }
    assert (N.testbit (N.land v (v - 1)) k = true).
    { rewrite N.land_spec, !Hb; auto; lia. }
    rewrite Hz, N.bits_0 in H. discriminate.
Qed.

Lemma land_pow2 : forall f k, N.eqb (N.land f (2 ^ k)) 0 = negb (N.testbit f k).
Proof.
  intros f k. rewrite <- land_shift1, N.shiftl_1_l, negb_involutive. auto.
Qed.

(* ------------------------------------------------------------------------ *)
(** ** Metadata preparation *)

Lemma arr_set_app : forall A (pre rest : list A) x a,
  arr_set (pre ++ x :: rest) (length pre) a = Ok (pre ++ a :: rest).
Proof.
  intros A pre rest x a. unfold arr_set.
  replace (Nat.ltb (length pre) (length (pre ++ x :: rest))) with true.
  - f_equal. induction pre as [|y pre IH]; simpl; auto. f_equal; auto.
  - symmetry. apply Nat.ltb_lt. rewrite app_length; simpl; lia.
Qed.

Definition sgl (e : N * str) : bool := is_single (fst e).
Definition nsgl (e : N * str) : bool := negb (is_single (fst e)).

Fixpoint none_scan (none : str) (entries : list (N * str)) : str :=
  match entries with
  | [] => none
  | (v, n) :: r => none_scan (if N.eqb v 0 && match none with [] => true | _ => false end then n else none) r
  end.

Definition or_all (acc : N) (l : list N) : N := fold_left N.lor l acc.

Lemma mfm_loop1_ok : forall entries pf (pn : list str) m all indiv none,
  length pf = length pn -> length (filter sgl entries) <= m ->
  mfm_loop1 (mk_mfm (pf ++ repeat 0%N m) (pn ++ repeat ([] : str) m) (length pf) all indiv none) entries =
  Ok (mk_mfm (pf ++ map fst (filter sgl entries) ++ repeat 0%N (m - length (filter sgl entries)))
             (pn ++ map snd (filter sgl entries) ++ repeat ([] : str) (m - length (filter sgl entries)))
             (length pf + length (filter sgl entries))
             (or_all all (map fst entries))
             (or_all indiv (map fst (filter sgl entries)))
             (none_scan none entries)).
Proof.
  induction entries as [|[v n] r IH]; intros pf pn m all indiv none Hl Hm.
  - cbn. rewrite Nat.sub_0_r, Nat.add_0_r. auto.
  - cbn [mfm_loop1]. rewrite is_power_of_2_single. 
    assert (Hf : filter sgl ((v, n) :: r) = if is_single v then (v, n) :: filter sgl r else filter sgl r) by reflexivity.
    rewrite Hf in *. clear Hf. destruct (is_single v) eqn:E.
    + cbn [length] in Hm. destruct m as [|m]; [lia|]. cbn [mfm_flags mfm_names mfm_j mfm_all mfm_indiv mfm_none].
      cbn [repeat]. rewrite arr_set_app. cbn [bind]. rewrite Hl, arr_set_app. cbn [bind].
      replace (pf ++ v :: repeat 0%N m) with ((pf ++ [v]) ++ repeat 0%N m) by (rewrite <- app_assoc; auto).
      replace (pn ++ n :: repeat ([] : str) m) with ((pn ++ [n]) ++ repeat ([] : str) m) by (rewrite <- app_assoc; auto).
      replace (length pn + 1) with (length (pf ++ [v])) by (rewrite app_length; simpl; lia).
      etransitivity; [apply (IH (pf ++ [v]) (pn ++ [n]) m); [rewrite !app_length; simpl; lia|lia]|].
      assert (Hz : N.eqb v 0 = false).
      { apply N.eqb_neq. intro; subst; discriminate. }
      cbn [none_scan]. rewrite Hz. cbn [andb map length fst snd or_all fold_left].
      rewrite <- !app_assoc. cbn [app]. rewrite app_length. cbn [length].
      replace (S m - S (length (filter sgl r))) with (m - length (filter sgl r)) by lia.
      f_equal. f_equal. lia.
    + cbn [mfm_flags mfm_names mfm_j mfm_all mfm_indiv mfm_none none_scan map fst].
      unfold or_all. cbn [fold_left].
      destruct (N.eqb v 0 && match none with [] => true | _ => false end); apply IH; auto.
Qed.

Lemma mfm_loop2_ok : forall entries pf (pn : list str) m all indiv none,
  length pf = length pn -> length (filter nsgl entries) <= m ->
  mfm_loop2 (mk_mfm (pf ++ repeat 0%N m) (pn ++ repeat ([] : str) m) (length pf) all indiv none) entries =
  Ok (mk_mfm (pf ++ map fst (filter nsgl entries) ++ repeat 0%N (m - length (filter nsgl entries)))
             (pn ++ map snd (filter nsgl entries) ++ repeat ([] : str) (m - length (filter nsgl entries)))
             (length pf + length (filter nsgl entries)) all indiv none).
Proof.
  induction entries as [|[v n] r IH]; intros pf pn m all indiv none Hl Hm.
  - cbn. rewrite Nat.sub_0_r, Nat.add_0_r. auto.
  - cbn [mfm_loop2]. rewrite is_power_of_2_single. 
    assert (Hf : filter nsgl ((v, n) :: r) = if negb (is_single v) then (v, n) :: filter nsgl r else filter nsgl r) by reflexivity.
    rewrite Hf in *. clear Hf. destruct (is_single v) eqn:E; cbn [negb] in *.
    + apply IH; auto.
    + cbn [length] in Hm. destruct m as [|m]; [lia|]. cbn [mfm_flags mfm_names mfm_j mfm_all mfm_indiv mfm_none].
      cbn [repeat]. rewrite arr_set_app. cbn [bind]. rewrite Hl, arr_set_app. cbn [bind].
      replace (pf ++ v :: repeat 0%N m) with ((pf ++ [v]) ++ repeat 0%N m) by (rewrite <- app_assoc; auto).
      replace (pn ++ n :: repeat ([] : str) m) with ((pn ++ [n]) ++ repeat ([] : str) m) by (rewrite <- app_assoc; auto).
      replace (length pn + 1) with (length (pf ++ [v])) by (rewrite app_length; simpl; lia).
      etransitivity; [apply (IH (pf ++ [v]) (pn ++ [n]) m); [rewrite !app_length; simpl; lia|lia]|].
      cbn [map length fst snd].
      rewrite <- !app_assoc. cbn [app]. rewrite app_length. cbn [length].
      replace (S m - S (length (filter nsgl r))) with (m - length (filter nsgl r)) by lia.
      f_equal. f_equal. lia.
Qed.

Lemma filter_split_length : forall (entries : list (N * str)),
  length (filter sgl entries) + length (filter nsgl entries) = length entries.
Proof.
  induction entries as [|e r IH]; simpl; auto. unfold sgl, nsgl in *.
  destruct (is_single (fst e)); simpl; lia.
Qed.

Lemma or_all_testbit : forall l acc k,
  N.testbit (or_all acc l) k = true <-> N.testbit acc k = true \/ exists v, In v l /\ N.testbit v k = true.
Proof.
  induction l as [|v l IH]; intros acc k; cbn [or_all fold_left].
  - split; auto. intros [H|[v [[] _]]]; auto.
  - fold (or_all (N.lor acc v) l). rewrite IH, N.lor_spec, orb_true_iff. simpl. split.
    + intros [[H|H]|[x [Hx Hb]]]; eauto.
    + intros [H|[x [[->|Hx] Hb]]]; eauto.
Qed.

Lemma combine_fst_snd : forall A B (l : list (A * B)), combine (map fst l) (map snd l) = l.
Proof. induction l as [|[a b] l IH]; simpl; congruence. Qed.

Lemma map_fst_combine : forall A B (a : list A) (b : list B), length a = length b -> map fst (combine a b) = a.
Proof. induction a; destruct b; simpl; intros; try discriminate; auto. f_equal; auto. Qed.

Lemma map_snd_combine : forall A B (a : list A) (b : list B), length a = length b -> map snd (combine a b) = b.
Proof. induction a; destruct b; simpl; intros; try discriminate; auto. f_equal; auto. Qed.

Definition flags_md_of (desc : str) (entries : list (N * str)) : flags_metadata :=
  mk_flags_md
    (mk_enum_md desc (map fst (filter sgl entries ++ filter nsgl entries))
                     (map snd (filter sgl entries ++ filter nsgl entries)))
    (or_all 0 (map fst entries)) (none_scan [] entries) (length (filter sgl entries)).

Lemma make_flags_metadata_value : forall src vs ns,
  aligned (src_values src) (src_names src) vs ns ->
  Forall (name_ok flags_reserved) ns ->
  make_flags_metadata src =
    if N.eqb (or_all 0 vs) (or_all 0 (map fst (filter sgl (combine vs ns))))
    then Ok (flags_md_of (description_or_name_or_empty src) (combine vs ns))
    else Contract.
Proof.
  intros src vs ns [Hv [Hn Hl]] Hok. unfold make_flags_metadata. rewrite Hv, Hn, Hl, Nat.eqb_refl.
  destruct (check_names_spec _ _ flags_forbidden_iff ns) as [H _]. rewrite H by auto. cbn [bind].
  set (es := combine vs ns). rewrite <- Hl.
  assert (Hes : length es = length vs) by (unfold es; rewrite combine_length; lia).
  pose proof (filter_split_length es) as Hsum.
  pose proof (mfm_loop1_ok es [] [] (length vs) 0%N 0%N [] eq_refl) as L1.
  cbn [app length] in L1. rewrite L1 by lia. cbn [bind mfm_all mfm_indiv mfm_j].
  replace (map fst es) with vs by (symmetry; apply map_fst_combine; auto).
  destruct (N.eqb_spec (or_all 0 vs) (or_all 0 (map fst (filter sgl es)))) as [E|E]; cbn [expects bind]; auto.
  pose proof (mfm_loop2_ok es (map fst (filter sgl es)) (map snd (filter sgl es))
    (length vs - length (filter sgl es)) (or_all 0 vs) (or_all 0 (map fst (filter sgl es))) (none_scan [] es)) as L2.
  rewrite !map_length in L2. cbn [plus]. rewrite L2; auto; [|lia]. cbn [bind mfm_flags mfm_names mfm_all mfm_none].
  replace (length vs - length (filter sgl es) - length (filter nsgl es)) with 0 by lia.
  cbn [repeat]. rewrite !app_nil_r. unfold flags_md_of. rewrite !map_app.
  replace (map fst es) with vs by (symmetry; apply map_fst_combine; auto). reflexivity.
Qed.

Lemma none_scan_spec : forall entries,
  (forall n, In n (map snd entries) -> n <> []) ->
  name_of_none (map fst entries) (map snd entries) (none_scan [] entries).
Proof.
  intros entries Hne.
  assert (K : forall es n, n <> [] -> none_scan n es = n).
  { induction es as [|[v m] es IH]; intros n Hn; cbn [none_scan]; auto.
    destruct n; [congruence|]. rewrite andb_false_r. apply IH; auto. }
  induction entries as [|[v n] r IH]; cbn [none_scan map fst snd].
  - right; split; auto.
  - destruct (N.eqb_spec v 0) as [->|Hv]; cbn [andb].
    + rewrite K by (apply Hne; left; auto). left. exists 0; split; auto. apply first_pos_cons_same.
    + destruct IH as [[k [Hk1 Hk2]]|[Hk1 Hk2]].
      * intros m Hm; apply Hne; right; auto.
      * left. exists (S k); split; auto. apply first_pos_cons_other; auto.
      * right; split; auto. intros [H|H]; auto.
Qed.

Lemma covered_iff : forall vs ns, length vs = length ns ->
  or_all 0 vs = or_all 0 (map fst (filter sgl (combine vs ns))) <-> bits_covered vs.
Proof.
  intros vs ns Hl.
  assert (Hin : forall v, In v (map fst (filter sgl (combine vs ns))) <-> In v vs /\ single_bit v).
  { intro v. rewrite in_map_iff. split.
    - intros [[a b] [E H]]. simpl in E; subst a. apply filter_In in H as [H1 H2].
      unfold sgl in H2; simpl in H2. apply is_single_iff in H2. split; auto.
      eapply in_combine_l; eauto.
    - intros [H1 H2]. rewrite <- (map_fst_combine _ _ vs ns Hl) in H1.
      apply in_map_iff in H1 as [e [E He]]. exists e; split; auto. apply filter_In; split; auto.
      unfold sgl. rewrite E. apply is_single_iff; auto. }
  split.
  - intros E k [v [Hv Hb]].
    assert (N.testbit (or_all 0 vs) k = true) by (apply or_all_testbit; eauto).
    rewrite E, or_all_testbit, N.bits_0 in H. destruct H as [H|[w [Hw Hwb]]]; [discriminate|].
    apply Hin in Hw as [Hw [j ->]]. unfold bit_individually_defined.
    rewrite N.pow2_bits_eqb in Hwb. apply N.eqb_eq in Hwb; subst; auto.
  - intro Hc. apply N.bits_inj; intro k.
    destruct (N.testbit (or_all 0 vs) k) eqn:E; symmetry.
    + apply or_all_testbit in E as [E|[v [Hv Hb]]]; [rewrite N.bits_0 in E; discriminate|].
      apply or_all_testbit. right. exists (2 ^ k)%N. split; [|apply N.pow2_bits_true].
      apply Hin. split; [apply Hc; exists v; auto|]. exists k; auto.
    + apply not_true_is_false. intro H. apply or_all_testbit in H as [H|[v [Hv Hb]]];
        [rewrite N.bits_0 in H; discriminate|]. apply Hin in Hv as [Hv _].
      assert (N.testbit (or_all 0 vs) k = true) by (apply or_all_testbit; eauto). congruence.
Qed.

Lemma static_flags_metadata_ok : forall src vs ns,
  aligned (src_values src) (src_names src) vs ns ->
  Forall (name_ok flags_reserved) ns -> bits_covered vs ->
  static_flags_metadata src = Ok (flags_md_of (description_or_name_or_empty src) (combine vs ns)).
Proof.
  intros src vs ns Ha Hok Hc. unfold static_flags_metadata.
  rewrite (make_flags_metadata_value _ _ _ Ha Hok).
  replace (N.eqb _ _) with true; auto. symmetry. apply N.eqb_eq, covered_iff; auto.
  destruct Ha as [_ [_ H]]; auto.
Qed.

Lemma flags_metadata_acceptance : forall src,
  ((exists md, static_flags_metadata src = Ok md) <->
   (exists vs ns, aligned (src_values src) (src_names src) vs ns /\
      Forall (name_ok flags_reserved) ns /\ bits_covered vs)) /\
  (~ (exists md, static_flags_metadata src = Ok md) -> static_flags_metadata src = IllFormed).
Proof.
  intro src.
  assert (Hcases : (exists md, static_flags_metadata src = Ok md /\
             exists vs ns, aligned (src_values src) (src_names src) vs ns /\
               Forall (name_ok flags_reserved) ns /\ bits_covered vs) \/ static_flags_metadata src = IllFormed).
  { destruct (src_values src) as [vs|] eqn:Ev;
      [|right; unfold static_flags_metadata, make_flags_metadata; rewrite Ev; auto].
    destruct (src_names src) as [ns|] eqn:En;
      [|right; unfold static_flags_metadata, make_flags_metadata; rewrite Ev, En; auto].
    destruct (Nat.eqb_spec (length vs) (length ns)) as [El|El].
    2:{ right; unfold static_flags_metadata, make_flags_metadata; rewrite Ev, En.
        destruct (Nat.eqb_spec (length vs) (length ns)); [contradiction|auto]. }
    destruct (name_ok_dec _ _ flags_forbidden_iff ns) as [Hd|Hd].
    2:{ right; unfold static_flags_metadata, make_flags_metadata; rewrite Ev, En, El, Nat.eqb_refl.
        destruct (check_names_spec _ _ flags_forbidden_iff ns) as [_ H2]. rewrite H2; auto. }
    assert (Ha : aligned (src_values src) (src_names src) vs ns) by (unfold aligned; auto).
    pose proof (make_flags_metadata_value _ _ _ Ha Hd) as Hm.
    unfold static_flags_metadata. rewrite Hm.
    destruct (N.eqb_spec (or_all 0 vs) (or_all 0 (map fst (filter sgl (combine vs ns))))) as [E|E]; [|right; auto].
    left. eexists; split; [reflexivity|]. rewrite Ev, En in Ha. exists vs, ns; repeat split; auto.
    apply (covered_iff vs ns); auto. }
  split.
  - split.
    + intros [md H]. destruct Hcases as [[md' [_ H']]|H']; auto. congruence.
    + intros [vs [ns [Ha [Hok Hc]]]]. eexists; apply static_flags_metadata_ok; eauto.
  - intro H. destruct Hcases as [[md [H1 _]]|H1]; auto. exfalso; apply H; eauto.
Qed.

Lemma flags_md_of_reordered : forall desc vs ns, length vs = length ns ->
  reordered vs ns (md_values (fmd_base (flags_md_of desc (combine vs ns))))
                  (md_names (fmd_base (flags_md_of desc (combine vs ns)))).
Proof.
  intros desc vs ns Hl. unfold flags_md_of, reordered. cbn [fmd_base md_values md_names].
  rewrite combine_fst_snd, !map_length, app_length, filter_split_length, combine_length.
  repeat split; try lia; reflexivity.
Qed.

Lemma name_ok_nonempty : forall rs ns, Forall (name_ok rs) ns -> forall n, In n ns -> n <> [].
Proof. intros rs ns H n Hn. rewrite Forall_forall in H. apply H in Hn. destruct Hn; auto. Qed.

Lemma flags_metadata_exact : forall src vs ns,
  aligned (src_values src) (src_names src) vs ns ->
  Forall (name_ok flags_reserved) ns -> bits_covered vs ->
  exists md, static_flags_metadata src = Ok md /\
    reordered vs ns (md_values (fmd_base md)) (md_names (fmd_base md)) /\
    (forall k, N.testbit (fmd_all_defined_flags md) k = true <-> bit_defined vs k) /\
    name_of_none vs ns (fmd_none_name md) /\
    (forall i v, nth_error (md_values (fmd_base md)) i = Some v ->
       (i < fmd_num_individual_names md <-> single_bit v)).
Proof.
  intros src vs ns Ha Hok Hc. pose proof Ha as [_ [_ Hl]].
  eexists; split; [apply static_flags_metadata_ok; eauto|]. split; [|split; [|split]].
  - apply flags_md_of_reordered; auto.
  - intro k. cbn [flags_md_of fmd_all_defined_flags]. rewrite map_fst_combine by auto.
    rewrite or_all_testbit, N.bits_0. unfold bit_defined. intuition discriminate.
  - cbn [flags_md_of fmd_none_name].
    pose proof (none_scan_spec (combine vs ns)) as H.
    rewrite map_fst_combine, map_snd_combine in H by auto.
    apply H. eapply name_ok_nonempty; eauto.
  - intros i v. cbn [flags_md_of fmd_base md_values fmd_num_individual_names].
    rewrite map_app. intro Hi. rewrite <- (map_length fst (filter sgl (combine vs ns))).
    destruct (lt_dec i (length (map fst (filter sgl (combine vs ns))))) as [Hlt|Hge].
    + rewrite nth_error_app1 in Hi by auto. apply nth_error_In, in_map_iff in Hi as [e [<- He]].
      apply filter_In in He as [_ He]. unfold sgl in He. apply is_single_iff in He. tauto.
    + rewrite nth_error_app2 in Hi by lia. apply nth_error_In, in_map_iff in Hi as [e [<- He]].
      apply filter_In in He as [_ He]. unfold nsgl in He. apply negb_true_iff in He.
      split; [intro; lia|]. intro Hs. apply is_single_iff in Hs. congruence.
Qed.

(* ------------------------------------------------------------------------ *)
(** ** flags_to_string *)

(** The loop over positions, as a loop over the list of entries. *)
Fixpoint fts_list (f : N) (entries : list (N * str)) (result : str) (set : N) : str :=
  match entries with
  | [] => result
  | (v, n) :: r =>
      if negb (N.eqb (N.land f v) 0) && N.eqb (N.land set v) 0 then
        fts_list f r (match result with [] => result | _ => result ++ lit "+" end ++ n) (N.lor set v)
      else fts_list f r result set
  end.

Lemma fts_loop_list : forall f todo pre post vs ns result set,
  vs = map fst (pre ++ todo ++ post) -> ns = map snd (pre ++ todo ++ post) ->
  flags_to_string_loop f vs ns (length pre) (length todo) result set = Ok (fts_list f todo result set).
Proof.
  induction todo as [|[v n] r IH]; intros pre post vs ns result set Hv Hn; cbn [length flags_to_string_loop fts_list]; auto.
  assert (Gv : arr_get vs (length pre) = Ok v).
  { unfold arr_get. subst. rewrite nth_error_map, nth_error_app2, Nat.sub_diag by lia. auto. }
  assert (Gn : arr_get ns (length pre) = Ok n).
  { unfold arr_get. subst. rewrite nth_error_map, nth_error_app2, Nat.sub_diag by lia. auto. }
  rewrite Gv. cbn [bind].
  assert (Hv' : vs = map fst ((pre ++ [(v, n)]) ++ r ++ post)) by (rewrite <- app_assoc; auto).
  assert (Hn' : ns = map snd ((pre ++ [(v, n)]) ++ r ++ post)) by (rewrite <- app_assoc; auto).
  replace (length pre + 1) with (length (pre ++ [(v, n)])) by (rewrite app_length; simpl; lia).
  destruct (negb (N.eqb (N.land f v) 0) && N.eqb (N.land set v) 0).
  - rewrite Gn. cbn [bind]. apply (IH (pre ++ [(v, n)]) post); auto.
  - apply (IH (pre ++ [(v, n)]) post); auto.
Qed.

(** Chosen entries with their positions. *)
Fixpoint sel (f : N) (i : nat) (entries : list (N * str)) (set : N) : list (nat * str) :=
  match entries with
  | [] => []
  | (v, n) :: r =>
      if is_single v && (negb (N.eqb (N.land f v) 0) && N.eqb (N.land set v) 0)
      then (i, n) :: sel f (S i) r (N.lor set v)
      else sel f (S i) r set
  end.

Definition plus_prefix (l : list str) : str := concat (map (fun n => lit "+" ++ n) l).

Lemma join_plus : forall r n, join (lit "+") (n :: r) = n ++ plus_prefix r.
Proof.
  induction r as [|m r IH]; intro n.
  - unfold plus_prefix; simpl. rewrite app_nil_r; auto.
  - change (join (lit "+") (n :: m :: r)) with (n ++ lit "+" ++ join (lit "+") (m :: r)).
    rewrite IH. unfold plus_prefix. cbn [map concat]. rewrite <- app_assoc; auto.
Qed.

Lemma fts_sel_some : forall f entries i result set,
  (forall e, In e entries -> snd e <> []) -> result <> [] ->
  fts_list f (filter sgl entries) result set =
  result ++ plus_prefix (map snd (sel f i entries set)).
Proof.
  induction entries as [|[v n] r IH]; intros i result set Hne Hr; cbn [filter fts_list sel].
  - unfold plus_prefix; simpl. rewrite app_nil_r; auto.
  - unfold sgl at 1. cbn [fst]. destruct (is_single v); cbn [andb].
    + cbn [fts_list]. destruct (negb (N.eqb (N.land f v) 0) && N.eqb (N.land set v) 0).
      * destruct result as [|c res]; [congruence|].
        rewrite (IH (S i)); [| |].
        -- cbn [map snd]. unfold plus_prefix. cbn [map concat]. rewrite <- !app_assoc. auto.
        -- intros e He; apply Hne; right; auto.
        -- intro H. apply app_eq_nil in H as [H _]. apply app_eq_nil in H as [H _]. discriminate.
      * apply IH; auto. intros e He; apply Hne; right; auto.
    + apply IH; auto. intros e He; apply Hne; right; auto.
Qed.

Lemma fts_sel : forall f entries i set,
  (forall e, In e entries -> snd e <> []) ->
  fts_list f (filter sgl entries) [] set = join (lit "+") (map snd (sel f i entries set)).
Proof.
  induction entries as [|[v n] r IH]; intros i set Hne; cbn [filter fts_list sel]; auto.
  unfold sgl at 1. cbn [fst].
  assert (Hne' : forall e, In e r -> snd e <> []) by (intros e He; apply Hne; right; auto).
  destruct (is_single v); cbn [andb].
  - cbn [fts_list]. destruct (negb (N.eqb (N.land f v) 0) && N.eqb (N.land set v) 0).
    + cbn [map snd app]. rewrite (fts_sel_some _ _ (S i)), join_plus; auto.
      apply (Hne (v, n)); left; auto.
    + apply IH; auto.
  - apply IH; auto.
Qed.

Lemma sel_positions : forall f todo pre set,
  (forall k, N.testbit set k = true <-> In (2 ^ k)%N (map fst pre) /\ N.testbit f k = true) ->
  let s := sel f (length pre) todo set in
  increasing (map fst s) /\
  (forall i, In i (map fst s) <-> length pre <= i /\ chosen (map fst (pre ++ todo)) f i) /\
  Forall2 (fun i n => nth_error (map snd (pre ++ todo)) i = Some n) (map fst s) (map snd s).
Proof.
  induction todo as [|[v n] r IH]; intros pre set Hset s; subst s.
  - cbn. split; auto. split; [|constructor]. intro i; split; [contradiction|].
    intros [Hi [k [Hk _]]]. rewrite app_nil_r in Hk.
    assert (i < length (map fst pre)) by (apply nth_error_Some; congruence).
    rewrite map_length in H. lia.
  - assert (Hassoc : pre ++ (v, n) :: r = (pre ++ [(v, n)]) ++ r) by (rewrite <- app_assoc; auto).
    assert (HS : S (length pre) = length (pre ++ [(v, n)])) by (rewrite app_length; simpl; lia).
    assert (Hnv : nth_error (map fst (pre ++ (v, n) :: r)) (length pre) = Some v).
    { rewrite nth_error_map, nth_error_app2, Nat.sub_diag by lia. auto. }
    assert (Hnn : nth_error (map snd (pre ++ (v, n) :: r)) (length pre) = Some n).
    { rewrite nth_error_map, nth_error_app2, Nat.sub_diag by lia. auto. }
    assert (Hpre : forall w, In w (map fst pre) <->
              exists j, j < length pre /\ nth_error (map fst (pre ++ (v, n) :: r)) j = Some w).
    { intro w. rewrite map_app. split.
      - intro H. apply In_nth_error in H as [j Hj].
        assert (j < length (map fst pre)) by (apply nth_error_Some; congruence).
        exists j. rewrite map_length in H. split; auto. rewrite nth_error_app1; auto. rewrite map_length; auto.
      - intros [j [Hj E]]. rewrite nth_error_app1 in E by (rewrite map_length; auto).
        eapply nth_error_In; eauto. }
    cbn [sel].
    destruct (is_single v) eqn:Es; cbn [andb].
    2:{ rewrite HS, Hassoc. destruct (IH (pre ++ [(v, n)]) set) as [I1 [I2 I3]].
        { intro k. rewrite Hset, map_app. cbn [map fst]. rewrite in_app_iff. simpl.
          split; [tauto|]. intros [[H|[H|[]]] Hb]; auto. exfalso. subst v.
          assert (is_single (2 ^ k) = true) by (apply is_single_iff; exists k; auto). congruence. }
        split; auto. split; auto. intro i. rewrite I2. rewrite <- HS. split; intros [Hi Hch]; split; auto; try lia.
        destruct (Nat.eq_dec i (length pre)) as [->|]; [|lia].
        destruct Hch as [k [Hk _]]. rewrite <- Hassoc, Hnv in Hk. inversion Hk; subst v.
        assert (is_single (2 ^ k) = true) by (apply is_single_iff; exists k; auto). congruence. }
    pose proof Es as Es'. apply is_single_iff in Es' as [k0 Hv]. subst v.
    rewrite !land_pow2, negb_involutive.
    destruct (N.testbit f k0) eqn:Ef; cbn [andb].
    2:{ rewrite HS, Hassoc. destruct (IH (pre ++ [((2 ^ k0)%N, n)]) set) as [I1 [I2 I3]].
        { intro k. rewrite Hset, map_app. cbn [map fst]. rewrite in_app_iff. simpl.
          split; [tauto|]. intros [[H|[H|[]]] Hb]; auto. exfalso. apply N.pow_inj_r in H; [|lia]. congruence. }
        split; auto. split; auto. intro i. rewrite I2. rewrite <- HS. split; intros [Hi Hch]; split; auto; try lia.
        destruct (Nat.eq_dec i (length pre)) as [->|]; [|lia].
        destruct Hch as [k [Hk [Hb _]]]. rewrite <- Hassoc, Hnv in Hk. inversion Hk as [Hp].
        apply N.pow_inj_r in Hp; [|lia]. congruence. }
    destruct (N.testbit set k0) eqn:Eset; cbn [negb].
    + apply Hset in Eset as Eset'. destruct Eset' as [Hin _].
      rewrite HS, Hassoc. destruct (IH (pre ++ [((2 ^ k0)%N, n)]) set) as [I1 [I2 I3]].
      { intro k. rewrite Hset, map_app. cbn [map fst]. rewrite in_app_iff. simpl.
        split; [tauto|]. intros [[H|[H|[]]] Hb]; auto. split; auto. congruence. }
      split; auto. split; auto. intro i. rewrite I2. rewrite <- HS. split; intros [Hi Hch]; split; auto; try lia.
      destruct (Nat.eq_dec i (length pre)) as [->|]; [|lia]. exfalso.
      destruct Hch as [k [Hk [Hb Hmin]]]. rewrite <- Hassoc, Hnv in Hk. injection Hk as Hp.
      apply Hpre in Hin as [j [Hj Ej]]. apply (Hmin j Hj). rewrite <- Hassoc, <- Hp. auto.
    + cbn [map fst snd]. rewrite HS. destruct (IH (pre ++ [((2 ^ k0)%N, n)]) (N.lor set (2 ^ k0))) as [I1 [I2 I3]].
      { intro k. rewrite N.lor_spec, orb_true_iff, Hset, N.pow2_bits_eqb, N.eqb_eq, map_app.
        cbn [map fst]. rewrite in_app_iff. simpl. split.
        - intros [[H1 H2]| ->]; auto.
        - intros [[H|[H|[]]] Hb]; auto. apply N.pow_inj_r in H; [|lia]. auto. }
      split; [|split].
      * split; auto. intros b Hb. apply I2 in Hb as [Hb _]. rewrite <- HS in Hb. lia.
      * intro i. simpl. rewrite I2, <- Hassoc, <- HS. split.
        -- intros [<-|[Hi Hc]]; [|split; [lia|auto]]. split; auto.
           exists k0. split; auto. split; auto. intros j Hj Ej.
           assert (N.testbit set k0 = true); [|congruence]. apply Hset. split; auto. apply Hpre; eauto.
        -- intros [Hi Hc]. destruct (Nat.eq_dec (length pre) i); [left; auto|right; split; auto; lia].
      * constructor; auto. rewrite Hassoc. auto.
Qed.

Lemma filter_app_length : forall desc es,
  fmd_num_individual_names (flags_md_of desc es) = length (filter sgl es).
Proof. auto. Qed.

Lemma land_bnot : forall w f a, (f < 2 ^ w)%N -> (N.land f (bnot w a) = 0)%N <->
  (forall k, N.testbit f k = true -> N.testbit a k = true).
Proof.
  intros w f a Hf. unfold bnot.
  assert (Hhigh : forall k, N.testbit f k = true -> (k < w)%N).
  { intros k Hk. destruct (N.lt_ge_cases k w); auto.
    rewrite <- (N.mod_small f (2 ^ w)) in Hk by auto. rewrite N.mod_pow2_bits_high in Hk by auto. discriminate. }
  split.
  - intros H k Hk. assert (Hz : N.testbit (N.land f (N.lxor a (N.ones w))) k = false) by (rewrite H; apply N.bits_0).
    rewrite N.land_spec, Hk, N.lxor_spec, N.ones_spec_low in Hz by auto.
    destruct (N.testbit a k); auto.
  - intro H. apply N.bits_inj; intro k. rewrite N.bits_0, N.land_spec, N.lxor_spec.
    destruct (N.testbit f k) eqn:E; auto. rewrite (H k E), N.ones_spec_low by auto. auto.
Qed.

Section FlagsApi.
  Variables (w : N) (src : enum_source N) (vs : list N) (ns : list str).
  Hypothesis Hal : aligned (src_values src) (src_names src) vs ns.
  Hypothesis Hok : Forall (name_ok flags_reserved) ns.
  Hypothesis Hcov : bits_covered vs.

  Let Hlen : length vs = length ns.
  Proof. destruct Hal as [_ [_ H]]; auto. Qed.

  Definition fdefined (f : N) : Prop := forall k, N.testbit f k = true -> bit_defined vs k.

  Lemma flags_to_string_exact : forall f, (f < 2 ^ w)%N ->
    (fdefined f -> exists s, api_flags_to_string w src f = Ok s /\
       (f <> 0%N -> canonical_text vs ns f s /\
          forall k, N.testbit f k = true -> exists i, chosen vs f i /\ nth_error vs i = Some (2 ^ k)%N) /\
       (f = 0%N -> name_of_none vs ns s)) /\
    (api_flags_to_string w src f = Contract <-> ~ fdefined f).
  Proof.
    intros f Hf. unfold api_flags_to_string.
    rewrite (static_flags_metadata_ok _ _ _ Hal Hok Hcov). cbn [bind]. unfold flags_to_string.
    set (md := flags_md_of (description_or_name_or_empty src) (combine vs ns)).
    assert (Hall : forall k, N.testbit (fmd_all_defined_flags md) k = true <-> bit_defined vs k).
    { intro k. unfold md. cbn [flags_md_of fmd_all_defined_flags]. rewrite map_fst_combine by auto.
      rewrite or_all_testbit, N.bits_0. unfold bit_defined. intuition discriminate. }
    assert (Hcond : N.eqb (N.land f (bnot w (fmd_all_defined_flags md))) 0 = true <-> fdefined f).
    { rewrite N.eqb_eq, land_bnot by auto. unfold fdefined. split; intros H k Hk; apply Hall; auto. }
    assert (Hsucc : fdefined f -> exists s,
       (do _ <- expects (N.eqb (N.land f (bnot w (fmd_all_defined_flags md))) 0);
        if N.eqb f 0 then Ok (fmd_none_name md)
        else flags_to_string_loop f (md_values (fmd_base md)) (md_names (fmd_base md))
               0 (fmd_num_individual_names md) [] 0%N) = Ok s /\
       (f <> 0%N -> canonical_text vs ns f s /\
          forall k, N.testbit f k = true -> exists i, chosen vs f i /\ nth_error vs i = Some (2 ^ k)%N) /\
       (f = 0%N -> name_of_none vs ns s)).
    { intro Hd. apply Hcond in Hd as Hc. rewrite Hc. cbn [expects bind].
      destruct (N.eqb_spec f 0) as [Hz|Hz].
      - eexists; split; [reflexivity|]. split; [congruence|]. intros _.
        unfold md. cbn [flags_md_of fmd_none_name].
        pose proof (none_scan_spec (combine vs ns)) as H.
        rewrite map_fst_combine, map_snd_combine in H by auto.
        apply H. eapply name_ok_nonempty; eauto.
      - unfold md at 3. rewrite filter_app_length.
        rewrite (fts_loop_list f (filter sgl (combine vs ns)) [] (filter nsgl (combine vs ns))); auto.
        eexists; split; [reflexivity|]. split; [intros _|congruence].
        assert (Hne : forall e, In e (combine vs ns) -> snd e <> []).
        { intros [a b] He. eapply name_ok_nonempty; eauto. eapply in_combine_r; eauto. }
        rewrite (fts_sel f (combine vs ns) 0) by auto.
        destruct (sel_positions f (combine vs ns) [] 0%N) as [S1 [S2 S3]].
        { intro k. rewrite N.bits_0. simpl. intuition discriminate. }
        cbn [app length] in *. rewrite map_fst_combine in S2 by auto. rewrite map_snd_combine in S3 by auto.
        split.
        + exists (map fst (sel f 0 (combine vs ns) 0%N)), (map snd (sel f 0 (combine vs ns) 0%N)).
          repeat split; auto.
          * intro H. apply S2 in H as [_ H]; auto.
          * intro H. apply S2; split; auto; lia.
        + intros k Hk. assert (Hin : In (2 ^ k)%N vs) by (apply Hcov, Hd; auto).
          destruct (first_pos_exists _ N.eq_dec _ _ Hin) as [i [Hi1 Hi2]].
          exists i; split; auto. exists k; auto. }
    split; auto. split.
    - intros H Hd. destruct (Hsucc Hd) as [s [Hs _]]. congruence.
    - intro Hnd. destruct (N.eqb (N.land f (bnot w (fmd_all_defined_flags md))) 0) eqn:E; auto.
      exfalso; apply Hnd, Hcond; auto.
  Qed.
End FlagsApi.

(* ------------------------------------------------------------------------ *)
(** ** parse_flags *)

Lemma splits_fun : forall s ps, splits s ps -> forall ps', splits s ps' -> ps = ps'.
Proof.
  assert (P : forall p q d s, (forall c, In c p -> ~ delim c) -> (forall c, In c q -> ~ delim c) ->
     delim d -> p <> q ++ d :: s).
  { intros p q d s Hp _ Hd E. apply (Hp d); auto. rewrite E. apply in_or_app; right; left; auto. }
  assert (Q : forall p q d e s t, (forall c, In c p -> ~ delim c) -> (forall c, In c q -> ~ delim c) ->
     delim d -> delim e -> p ++ d :: s = q ++ e :: t -> p = q /\ s = t).
  { induction p as [|a p IH]; intros [|b q] d e s t Hp Hq Hd He E; simpl in E; inversion E; subst.
    - auto.
    - exfalso; apply (Hq b); simpl; auto.
    - exfalso; apply (Hp e); simpl; auto.
    - destruct (IH q d e s t) as [-> ->]; auto; intros c Hc; [apply Hp|apply Hq]; right; auto. }
  induction 1 as [p Hp|p d s ps Hp Hd Hs IH]; intros ps' H'; inversion H'; subst; auto.
  - exfalso. eapply (P (p0 ++ d :: s) p0 d s); eauto.
  - exfalso. eapply (P (p ++ d :: s) p d s); eauto.
  - eapply Q in H; eauto. destruct H; subst. f_equal; auto.
Qed.

Lemma effective_fun : forall ps e e', effective ps e -> effective ps e' -> e = e'.
Proof.
  intros ps e e' [l [H1 [[H2 H3]|[H2 H3]]]] [l' [H4 [[H5 H6]|[H5 H6]]]]; subst; auto;
    rewrite H1 in H4 at 1; apply app_inj_tail in H4 as [_ H4]; subst; contradiction.
Qed.

Lemma effective_cons : forall p ps e, effective ps e -> effective (p :: ps) (p :: e).
Proof.
  intros p ps e [l [H1 H2]].
  assert (ps <> []) by (intro E; rewrite E in H1; destruct (removelast []); discriminate).
  exists l. assert (Hr : removelast (p :: ps) = p :: removelast ps) by (destruct ps; [congruence|auto]).
  rewrite Hr. split; [simpl; congruence|]. destruct H2 as [[H2 ->]|[H2 ->]]; auto.
Qed.

(** The loop as a loop over pieces. *)
Fixpoint pieces_loop (value result : N) (ps : list str) (md : enum_metadata N) (raise : bool)
    : outcome (Z * N) :=
  match ps with
  | [] => Ok (0%Z, result)
  | p :: r =>
      match lookup_flag (trim p) (md_values md) (md_names md) with
      | Some v => pieces_loop value (N.lor result v) r md raise
      | None => if raise then Throw (RuntimeError (enum_from_string_error (trim p) md true))
                else Ok ((-1)%Z, value)
      end
  end.

Lemma ffs_pieces : forall fuel s, length s <= fuel ->
  exists ps eff, splits s ps /\ effective ps eff /\
    forall value result md raise,
      flags_from_string_loop fuel value result s md raise = pieces_loop value result eff md raise.
Proof.
  induction fuel as [|fuel IH]; intros s Hs.
  - destruct s; [|simpl in Hs; lia]. exists [[]], []. split; [constructor; auto|]. split; auto.
    exists []. split; auto. left; split; auto. constructor.
  - destruct s as [|c s'].
    { exists [[]], []. split; [constructor; auto|]. split; auto.
      exists []. split; auto. left; split; auto. constructor. }
    set (s := c :: s') in *.
    destruct (find_first_of s (lit "+|")) as [pos|] eqn:E.
    + destruct (find_first_of_some _ _ _ E) as [d [Hsplit [Hd [Hno Hpos]]]].
      assert (Hlen : length (skipn (pos + 1) s) <= fuel) by (rewrite skipn_length; lia).
      destruct (IH _ Hlen) as [ps [eff [I1 [I2 I3]]]].
      exists (firstn pos s :: ps), (firstn pos s :: eff). split; [|split].
      * rewrite Hsplit at 1. apply splits_more; auto.
        -- intros x Hx. rewrite <- delim_iff. auto.
        -- apply delim_iff; auto.
      * apply effective_cons; auto.
      * intros value result md raise. unfold s at 1. cbn [flags_from_string_loop]. fold s. rewrite E.
        cbn [pieces_loop]. unfold substr. cbn [skipn].
        destruct (lookup_flag _ _ _); auto.
    + assert (Hnd : forall x, In x s -> ~ delim x).
      { intros x Hx. rewrite <- delim_iff. revert x Hx. apply find_first_of_none; auto. }
      destruct (trim s) as [|t0 t] eqn:Et.
      * exists [s], []. split; [constructor; auto|]. split.
        -- exists s. split; auto. left; split; auto. apply trim_nil_blank; auto.
        -- intros value result md raise. unfold s at 1. cbn [flags_from_string_loop]. fold s.
           rewrite E, Et. auto.
      * exists [s], [s]. split; [constructor; auto|]. split.
        -- exists s. split; auto. right; split; auto. intro Hb. apply trim_nil_blank in Hb. congruence.
        -- intros value result md raise. unfold s at 1. cbn [flags_from_string_loop]. fold s.
           rewrite E, Et. cbn [pieces_loop]. rewrite Et.
           destruct (lookup_flag _ _ _); auto. destruct fuel; auto.
Qed.

Lemma lookup_flag_spec : forall t vs ns, length vs = length ns ->
  (forall v, lookup_flag t vs ns = Some v <-> value_of_name vs ns t v) /\
  (lookup_flag t vs ns = None <-> ~ In t ns).
Proof.
  intros t vs. induction vs as [|v vs IH]; intros [|n ns] Hl; cbn [lookup_flag]; try discriminate.
  - split; [|simpl; tauto]. intro v; split; [discriminate|]. intros [k [[H _] _]]; destruct k; discriminate.
  - simpl in Hl. destruct (IH ns) as [I1 I2]; [lia|].
    destruct (str_eqb t n) eqn:E.
    + apply str_eqb_eq in E; subst n. split.
      * intro v'. split.
        -- intro H; inversion H; subst. exists 0; split; auto. apply first_pos_cons_same.
        -- intros [k [H1 H2]]. apply first_pos_cons_same_inv in H1; subst. simpl in H2; auto.
      * split; [discriminate|]. intro H; exfalso; apply H; left; auto.
    + apply str_eqb_neq in E. split.
      * intro v'. rewrite I1. split.
        -- intros [k [H1 H2]]. exists (S k); split; auto. apply first_pos_cons_other; auto.
        -- intros [k [H1 H2]]. apply first_pos_cons_inv in H1 as [k' [-> H1]]; auto. exists k'; auto.
      * rewrite I2. simpl. intuition.
Qed.

Lemma pieces_loop_ok : forall vs ns desc, length vs = length ns ->
  forall eff value result raise,
  (forall f, pieces_loop value result eff (mk_enum_md desc vs ns) raise = Ok (0%Z, f) <->
     exists fs, Forall2 (piece_value vs ns) eff fs /\ f = or_all result fs) /\
  (Forall (fun q => In (trim q) ns) eff \/
   exists l p r, eff = l ++ p :: r /\ ~ In (trim p) ns /\ Forall (fun q => In (trim q) ns) l /\
     pieces_loop value result eff (mk_enum_md desc vs ns) raise =
       if raise then Throw (RuntimeError (enum_from_string_error (trim p) (mk_enum_md desc vs ns) true))
       else Ok ((-1)%Z, value)).
Proof.
  intros vs ns desc Hl. induction eff as [|p r IH]; intros value result raise; cbn [pieces_loop md_values md_names].
  - split; [|left; auto]. intro f; split.
    + intro H; inversion H; subst. exists []; split; auto.
    + intros [fs [H1 H2]]. inversion H1; subst. auto.
  - destruct (lookup_flag_spec (trim p) vs ns Hl) as [L1 L2].
    destruct (lookup_flag (trim p) vs ns) as [v|] eqn:E.
    + assert (Hv : value_of_name vs ns (trim p) v) by (apply L1; auto).
      destruct (IH value (N.lor result v) raise) as [I1 I2]. split.
      * intro f. rewrite I1. split.
        -- intros [fs [H1 H2]]. exists (v :: fs); split; auto. constructor; auto.
           exists (trim p); split; auto using trim_padded.
        -- intros [fs [H1 H2]]. inversion H1 as [|? v' ? fs' [t [Hp Hv']] Hr]; subst.
           apply padded_trim in Hp; subst t.
           assert (v' = v) by (eapply value_of_name_fun; eauto). subst. exists fs'; auto.
      * destruct I2 as [I2|[l [p' [r' [E1 [E2 [E3 E4]]]]]]].
        -- left; constructor; auto. eapply value_of_name_in; eauto.
        -- right. exists (p :: l), p', r'. split; [simpl; congruence|]. repeat split; auto.
           constructor; auto. eapply value_of_name_in; eauto.
    + assert (Hn : ~ In (trim p) ns) by (apply L2; auto). split.
      * intro f; split.
        -- destruct raise; discriminate.
        -- intros [fs [H1 H2]]. inversion H1 as [|? v' ? fs' [t [Hp Hv']] Hr]; subst.
           apply padded_trim in Hp; subst t. exfalso; apply Hn. eapply value_of_name_in; eauto.
      * right. exists [], p, r. repeat split; auto.
Qed.

Lemma flags_from_string_spec : forall vs ns desc s value raise, length vs = length ns ->
  (forall f, flags_from_string value s (mk_enum_md desc vs ns) raise = Ok (0%Z, f) <-> flags_text vs ns s f) /\
  ((exists f, flags_text vs ns s f) \/
   exists t, offending ns s t /\
     flags_from_string value s (mk_enum_md desc vs ns) raise =
       if raise then Throw (RuntimeError (enum_from_string_error t (mk_enum_md desc vs ns) true))
       else Ok ((-1)%Z, value)).
Proof.
  intros vs ns desc s value raise Hl. unfold flags_from_string.
  destruct (ffs_pieces (length s) s (le_n _)) as [ps [eff [H1 [H2 H3]]]]. rewrite H3.
  destruct (pieces_loop_ok vs ns desc Hl eff value 0%N raise) as [P1 P2].
  assert (Hbits : forall fs k, N.testbit (or_all 0 fs) k = true <-> exists v, In v fs /\ N.testbit v k = true).
  { intros fs k. rewrite or_all_testbit, N.bits_0. intuition discriminate. }
  split.
  - intro f. rewrite P1. split.
    + intros [fs [F1 F2]]. exists ps, eff, fs. repeat split; auto.
      * intro Hk; subst; apply Hbits; auto.
      * intro Hk; subst; apply Hbits; auto.
    + intros [ps' [eff' [fs [Q1 [Q2 [Q3 Q4]]]]]].
      assert (ps = ps') by (eapply splits_fun; eauto). subst ps'.
      assert (eff = eff') by (eapply effective_fun; eauto). subst eff'.
      exists fs; split; auto. apply N.bits_inj; intro k.
      destruct (N.testbit f k) eqn:E.
      * symmetry. apply Hbits, Q4; auto.
      * symmetry. apply not_true_is_false. intro H. apply Hbits, Q4 in H. congruence.
  - destruct P2 as [P2|[l [p [r [E1 [E2 [E3 E4]]]]]]].
    + left.
      assert (Hfs : exists fs, Forall2 (piece_value vs ns) eff fs).
      { clear -P2 Hl. induction P2 as [|q eff Hq _ [fs IH]]; [exists []; constructor|].
        destruct (value_of_name_exists _ _ _ _ Hl Hq) as [v Hv].
        exists (v :: fs); constructor; auto. exists (trim q); split; auto using trim_padded. }
      destruct Hfs as [fs Hfs]. exists (or_all 0 fs), ps, eff, fs. repeat split; auto; apply Hbits.
    + right. exists (trim p). split; auto.
      exists ps, eff, l, p, r. repeat split; auto using trim_padded.
      eapply Forall_impl; [|exact E3]. intros q Hq. exists (trim q); split; auto using trim_padded.
Qed.

Section ParseFlags.
  Variables (src : enum_source N) (vs : list N) (ns : list str).
  Hypothesis Hal : aligned (src_values src) (src_names src) vs ns.
  Hypothesis Hok : Forall (name_ok flags_reserved) ns.
  Hypothesis Hcov : bits_covered vs.

  Lemma parse_flags_exact : exists vs' ns', reordered vs ns vs' ns' /\
    forall indet s,
      (forall f, api_parse_flags indet src s = Ok f <-> flags_text vs' ns' s f) /\
      ((~ exists f, api_parse_flags indet src s = Ok f) ->
       exists t, offending ns' s t /\
         api_parse_flags indet src s =
         Throw (RuntimeError (error_text (title_of (src_name src) (src_description src)) t
                                (lit "a '+'-delimited subset of ") ns'))).
  Proof.
    pose proof Hal as [_ [_ Hlen]].
    set (md := flags_md_of (description_or_name_or_empty src) (combine vs ns)).
    exists (md_values (fmd_base md)), (md_names (fmd_base md)).
    assert (Hr : reordered vs ns (md_values (fmd_base md)) (md_names (fmd_base md)))
      by (apply flags_md_of_reordered; auto).
    split; auto. intros indet s. unfold api_parse_flags.
    rewrite (static_flags_metadata_ok _ _ _ Hal Hok Hcov). cbn [bind]. fold md.
    assert (Hl' : length (md_values (fmd_base md)) = length (md_names (fmd_base md)))
      by (destruct Hr as [Hr1 [Hr2 _]]; congruence).
    destruct (flags_from_string_spec _ _ (description_or_name_or_empty src) s indet true Hl') as [F1 F2].
    replace (mk_enum_md (description_or_name_or_empty src) (md_values (fmd_base md)) (md_names (fmd_base md)))
      with (fmd_base md) in * by reflexivity.
    assert (A : forall f, (do ' (_, result) <- flags_from_string indet s (fmd_base md) true; Ok result) = Ok f <->
                 flags_text (md_values (fmd_base md)) (md_names (fmd_base md)) s f).
    { intro f. split.
      - intro H. destruct F2 as [[f' Hf']|[t [_ Ht]]].
        + apply F1 in Hf' as Hf''. rewrite Hf'' in H. cbn [bind] in H. inversion H; subst; auto.
        + rewrite Ht in H. discriminate.
      - intro H. apply F1 in H. rewrite H. auto. }
    split; auto.
    intro Hno. destruct F2 as [[f' Hf']|[t [Ht1 Ht2]]].
    - exfalso; apply Hno. exists f'. apply A; auto.
    - exists t; split; auto. rewrite Ht2. cbn [bind]. do 2 f_equal.
      exact (error_text_correct _ src t (md_values (fmd_base md)) (md_names (fmd_base md)) true).
  Qed.
End ParseFlags.

(* ------------------------------------------------------------------------ *)
(** ** Round trip *)

(** Names without delimiters and without outer blanks. *)
Definition clean_name (n : str) : Prop := bare n /\ forall c, In c n -> ~ delim c.

Lemma splits_join : forall names, names <> [] -> (forall n, In n names -> clean_name n) ->
  splits (join (lit "+") names) names.
Proof.
  induction names as [|n r IH]; intros Hne Hc; [congruence|].
  destruct r as [|m r].
  - simpl. constructor. apply Hc; left; auto.
  - change (join (lit "+") (n :: m :: r)) with (n ++ "+"%char :: join (lit "+") (m :: r)).
    apply splits_more.
    + apply Hc; left; auto.
    + left; auto.
    + apply IH; [discriminate|]. intros x Hx; apply Hc; right; auto.
Qed.

Lemma bare_not_blank : forall n, bare n -> n <> [] -> ~ blank n.
Proof.
  intros n [H _] Hne Hb. destruct n as [|c n]; [congruence|]. inversion Hb; subst. eapply H; eauto.
Qed.

Lemma bare_padded : forall n, bare n -> padded n n.
Proof. intros n H. exists [], []. repeat split; try constructor; try apply H. simpl; rewrite app_nil_r; auto. Qed.

Lemma reordered_in : forall vs ns vs' ns', length vs = length ns -> reordered vs ns vs' ns' ->
  forall n v, In (v, n) (combine vs ns) <-> In (v, n) (combine vs' ns').
Proof.
  intros vs ns vs' ns' Hl [H1 [H2 H3]] n v. rewrite H3, in_app_iff, !filter_In.
  cbn [fst]. destruct (is_single v); simpl; intuition congruence.
Qed.

Lemma nth_combine : forall A B (a : list A) (b : list B) i x y,
  nth_error a i = Some x -> nth_error b i = Some y -> In (x, y) (combine a b).
Proof.
  induction a as [|x0 a IH]; intros [|y0 b] [|i] x y H1 H2; simpl in *; try discriminate.
  - inversion H1; inversion H2; subst; auto.
  - right; eapply IH; eauto.
Qed.

Lemma combine_nth : forall A B (a : list A) (b : list B) x y, In (x, y) (combine a b) ->
  exists i, nth_error a i = Some x /\ nth_error b i = Some y.
Proof.
  induction a as [|x0 a IH]; intros [|y0 b] x y H; simpl in *; try contradiction.
  destruct H as [H|H].
  - inversion H; subst. exists 0; auto.
  - destruct (IH _ _ _ H) as [i [H1 H2]]. exists (S i); auto.
Qed.

Lemma nodup_perm_filter : forall (es : list (N * str)), NoDup (map snd es) ->
  NoDup (map snd (filter sgl es ++ filter nsgl es)).
Proof.
  intros es H. assert (NoDup es) by (eapply NoDup_map_inv; eauto).
  rewrite map_app.
  assert (Hf : forall g, NoDup (map snd (filter g es))).
  { intro g. clear H0. induction es as [|e es IH]; simpl; [constructor|]. inversion H; subst.
    destruct (g e); simpl; auto. constructor; auto. intro Hi. apply H2.
    apply in_map_iff in Hi as [x [E Hx]]. apply filter_In in Hx as [Hx _]. rewrite <- E. apply in_map; auto. }
  assert (Hdisj : forall n, In n (map snd (filter sgl es)) -> ~ In n (map snd (filter nsgl es))).
  { intros n H1 H2. apply in_map_iff in H1 as [[a1 b1] [E1 H1]]. apply in_map_iff in H2 as [[a2 b2] [E2 H2]].
    simpl in E1, E2; subst b1 b2. apply filter_In in H1 as [H1 G1]. apply filter_In in H2 as [H2 G2].
    assert ((a1, n) = (a2, n)).
    { clear -H H1 H2. induction es as [|e es IH]; [contradiction|].
      simpl in H. apply NoDup_cons_iff in H as [H3 H4].
      destruct H1 as [H1|H1], H2 as [H2|H2]; subst; auto.
      - exfalso; apply H3. apply in_map_iff. exists (a2, n); auto.
      - exfalso; apply H3. apply in_map_iff. exists (a1, n); auto. }
    inversion H3; subst. unfold sgl, nsgl in *. rewrite G1 in G2. discriminate. }
  clear -Hf Hdisj. generalize (Hf sgl) (Hf nsgl). revert Hdisj.
  generalize (map snd (filter sgl es)) (map snd (filter nsgl es)).
  induction l as [|x l IH]; intros l' Hd H1 H2; simpl; auto. inversion H1; subst.
  constructor.
  - rewrite in_app_iff. intros [Hi|Hi]; auto. eapply Hd; eauto. left; auto.
  - apply IH; auto. intros n Hn. apply Hd; right; auto.
Qed.

Section RoundTrip.
  Variables (w : N) (src : enum_source N) (vs : list N) (ns : list str).
  Hypothesis Hal : aligned (src_values src) (src_names src) vs ns.
  Hypothesis Hok : Forall (name_ok flags_reserved) ns.
  Hypothesis Hcov : bits_covered vs.
  Hypothesis Hnd : NoDup ns.
  Hypothesis Hclean : Forall clean_name ns.

  Lemma flags_round_trip : forall f indet, (f < 2 ^ w)%N ->
    (forall k, N.testbit f k = true -> bit_defined vs k) ->
    exists s, api_flags_to_string w src f = Ok s /\ api_parse_flags indet src s = Ok f.
  Proof.
    intros f indet Hf Hd. pose proof Hal as [_ [_ Hlen]].
    destruct (flags_to_string_exact w src vs ns Hal Hok Hcov f Hf) as [T _].
    destruct (T Hd) as [s [Hs [T1 T2]]]. exists s; split; auto.
    destruct (parse_flags_exact src vs ns Hal Hok Hcov) as [vs' [ns' [Hr P]]].
    destruct (P indet s) as [P1 _]. apply P1. pose proof Hr as [R1 [R2 R3]].
    assert (Hnd' : NoDup ns').
    { assert (Hs' : ns' = map snd (combine vs' ns')) by (symmetry; apply map_snd_combine; congruence).
      rewrite Hs', R3. apply (nodup_perm_filter (combine vs ns)). rewrite map_snd_combine; auto. }
    assert (Hval : forall i n v, nth_error vs i = Some v -> nth_error ns i = Some n -> value_of_name vs' ns' n v).
    { intros i n v H1 H2. assert (In (v, n) (combine vs' ns')).
      { apply (reordered_in vs ns); auto. eapply nth_combine; eauto. }
      apply combine_nth in H as [j [J1 J2]]. exists j; split; auto. apply first_pos_nodup; auto. }
    assert (Hcl : forall n, In n ns -> clean_name n) by (apply Forall_forall; auto).
    pose proof (name_ok_nonempty _ _ Hok) as Hne.
    destruct (N.eq_dec f 0) as [Hz|Hz].
    - destruct (T2 Hz) as [[k [[Hk1 _] Hk2]]|[Hk1 Hk2]].
      + assert (Hi : In s ns) by (eapply nth_error_In; eauto).
        destruct (Hcl s Hi) as [Hb Hnodel].
        exists [s], [s], [0%N]. split; [constructor; auto|]. split; [|split].
        * exists s. split; auto. right. split; auto. apply bare_not_blank; auto.
        * constructor; [|constructor]. exists s; split; [apply bare_padded; auto|]. eapply Hval; eauto.
        * intro j. subst f. rewrite N.bits_0. split; [discriminate|].
          intros [v [[<-|[]] Hv]]. rewrite N.bits_0 in Hv; discriminate.
      + subst s. exists [[]], [], []. split; [constructor; auto|]. split; [|split].
        * exists []. split; auto. left; split; auto. constructor.
        * constructor.
        * intro j. subst f. rewrite N.bits_0. split; [discriminate|]. intros [v [[] _]].
    - destruct (T1 Hz) as [[il [names [I1 [I2 [I3 I4]]]]] Hbits].
      assert (Hnames : forall n, In n names -> In n ns).
      { clear -I3. induction I3; simpl; [tauto|]. intros n [<-|Hn]; auto. eapply nth_error_In; eauto. }
      assert (Hnn : names <> []).
      { intro E; subst names. inversion I3; subst il.
        assert (exists k, N.testbit f k = true) as [k Hk].
        { exists (N.log2 f). apply N.bit_log2; auto. }
        destruct (Hbits k Hk) as [i [Hi _]]. apply I2 in Hi. contradiction. }
      subst s.
      assert (Hfs : exists fs, Forall2 (piece_value vs' ns') names fs /\
                 Forall2 (fun i v => nth_error vs i = Some v) il fs).
      { assert (Hval' : forall i, In i il -> i < length vs).
        { intros i Hi. apply I2 in Hi as [k [Hk _]]. apply nth_error_Some; congruence. }
        clear -I3 Hval Hval' Hcl. induction I3 as [|i n il names Hin H3 IH].
        - exists []; split; constructor.
        - destruct IH as [fs [F1 F2]]; [intros; apply Hval'; right; auto|].
          destruct (nth_error vs i) as [v|] eqn:E.
          + exists (v :: fs); split; constructor; auto.
            exists n; split; [apply bare_padded, Hcl; eapply nth_error_In; eauto|]. eapply Hval; eauto.
          + apply nth_error_None in E. specialize (Hval' i (or_introl eq_refl)). lia. }
      destruct Hfs as [fs [F1 F2]].
      exists names, names, fs. split; [apply splits_join; auto|]. split; [|split; auto].
      + destruct (exists_last Hnn) as [l [x Hx]]. exists x. rewrite Hx, removelast_last. split; auto.
        right; split; auto. apply bare_not_blank.
        * apply Hcl, Hnames. rewrite Hx. apply in_or_app; right; left; auto.
        * apply Hne, Hnames. rewrite Hx. apply in_or_app; right; left; auto.
      + intro k. assert (Hin : forall v, In v fs <-> exists i, In i il /\ nth_error vs i = Some v).
        { clear -F2. induction F2 as [|i v il fs Hiv _ IH]; simpl; intro x.
          - split; [contradiction|]. intros [i [[] _]].
          - rewrite IH. split.
            + intros [<-|[j [Hj E]]]; eauto.
            + intros [j [[<-|Hj] E]]; [left; congruence|right; eauto]. }
        split.
        * intro Hk. destruct (Hbits k Hk) as [i [Hi1 Hi2]]. exists (2 ^ k)%N.
          split; [|apply N.pow2_bits_true]. apply Hin. exists i; split; auto. apply I2; auto.
        * intros [v [Hv Hb]]. apply Hin in Hv as [i [Hi Ei]]. apply I2 in Hi as [j [Hj [Hfj _]]].
          rewrite Ei in Hj. inversion Hj; subst v. rewrite N.pow2_bits_eqb in Hb.
          apply N.eqb_eq in Hb; subst; auto.
  Qed.
End RoundTrip.
