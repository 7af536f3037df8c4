(** Proofs about value categories in the tuple and array algorithms. *)

From Coq Require Import ZArith Arith Bool Lia List Permutation.
From Verif Require Import Base TupleModel TupleSpec TupleProofs TupleProps MoveModel MoveSpec.
Import ListNotations.

Section Proofs.
  Context {V R : Type}.
  Notation memory := (memory V).
  Variable f : memory -> list (element ref) -> memory * outcome R.
  Hypothesis Hf : keeps_to_arguments f.

  Lemma row_refers : forall args i row, Forall2 (ref_element i) args row -> forall o j, refers row o j -> j = i.
  Proof.
    intros args i row H o j [rv I]. induction H as [|a e args row E H IH]; [destruct I|]. destruct I as [->|I]; [|apply IH; exact I].
    destruct a; cbn in E; inversion E; subst; reflexivity.
  Qed.
  Lemma row_may_move : forall args i row, Forall2 (ref_element i) args row -> forall o j, may_move row o j -> j = i /\ In (MTuple o true) args.
  Proof.
    intros args i row H o j I. split; [eapply row_refers; [exact H|exists true; exact I]|].
    unfold may_move in I. induction H as [|a e args row E H IH]; [destruct I|]. destruct I as [->|I]; [|right; apply IH; exact I].
    destruct a; cbn in E; inversion E; subst. left. reflexivity.
  Qed.

  (** Calls for different indices do not affect each other. *)
  Lemma calls_independent : forall args m idxs rows rs m1,
    Forall2 (fun i row => Forall2 (ref_element i) args row) idxs rows -> NoDup idxs ->
    (forall o i, In i idxs -> cell m1 o i = cell m o i) ->
    Forall2 (fun row r => snd (f m row) = Ok r) rows rs ->
    exists m2, called f m1 rows rs m2 /\ (forall o i, ~ In i idxs -> cell m2 o i = cell m1 o i) /\
      (forall o i, ~ In (MTuple o true) args -> cell m2 o i = cell m1 o i).
  Proof.
    intros args m idxs. induction idxs as [|i idxs IH]; intros rows rs m1 Hr Hn Hm Hs.
    - inversion Hr; subst. inversion Hs; subst. exists m1. split; [constructor|]. split; reflexivity.
    - inversion Hr as [|? row ? rows' Hrow Hr']; subst. inversion Hs as [|? r ? rs' Hr1 Hrs]; subst. inversion Hn as [|? ? Hni Hn']; subst.
      assert (E : snd (f m1 row) = Ok r).
      { rewrite <- Hr1. apply (proj1 Hf). intros o j Ho. apply Hm. left. symmetry. eapply row_refers; eauto. }
      destruct (f m1 row) as [m1' o1] eqn:F1. cbn [snd] in E. subst o1.
      assert (K : forall o j, ~ may_move row o j -> cell m1' o j = cell m1 o j).
      { intros o j H. pose proof (proj2 Hf m1 row o j H) as G. rewrite F1 in G. exact G. }
      destruct (IH rows' rs' m1' Hr' Hn') as (m2 & C & U & L); [|exact Hrs|].
      + intros o j Hj. rewrite K; [apply Hm; right; exact Hj|]. intro M. apply (row_may_move _ _ _ Hrow) in M as [-> _]. contradiction.
      + exists m2. split; [econstructor; eassumption|]. split.
        * intros o j Hj. rewrite U by (intro; apply Hj; right; assumption). apply K. intro M. apply (row_may_move _ _ _ Hrow) in M as [-> _]. apply Hj. left. reflexivity.
        * intros o j Ho. rewrite (L o j Ho). apply K. intro M. apply (row_may_move _ _ _ Hrow) in M as [_ M]. contradiction.
  Qed.

  (** The rows of the model are rows of references. *)
  Lemma refs_nth : forall (m : memory) o rv i r, nth_error (refs_of m o rv) i = Some r -> r = mk_ref o i rv.
  Proof.
    intros m o rv i r H. unfold refs_of in H. destruct (nth_error m o) as [t|]; [|destruct i; discriminate].
    assert (L : i < length t) by (rewrite <- (seq_length (length t) 0); rewrite <- (map_length (fun i => mk_ref o i rv)); apply nth_error_Some; congruence).
    rewrite nth_error_map in H. assert (E : nth_error (seq 0 (length t)) i = Some i).
    { rewrite (nth_error_nth' _ 0) by (rewrite seq_length; exact L). rewrite seq_nth by exact L. reflexivity. }
    rewrite E in H. injection H as <-. reflexivity.
  Qed.
  Lemma rows_are_refs : forall (m : memory) args n rows, rows_of (map (arg_of m) args) n rows -> ref_rows args n rows.
  Proof.
    intros m args n rows [L H]. split; [exact L|]. intros i row Hi. specialize (H i row Hi). clear - H. revert row H.
    induction args as [|a args IH]; intros row H; inversion H as [|? e ? row' E H']; subst; constructor; [|apply IH; exact H'].
    destruct a as [o rv| |]; cbn [arg_of] in E; inversion E as [l v Hv| |]; subst; cbn; try reflexivity. f_equal. eapply refs_nth; eauto.
  Qed.
  Lemma size_is_common : forall (m : memory) args n, tuples_of_size m args n -> common_size (map (arg_of m) args) n.
  Proof.
    intros m args n [(o & rv & I) H]. split.
    - exists (refs_of m o rv). apply in_map_iff. exists (MTuple o rv). auto.
    - intros l Hl. apply in_map_iff in Hl as (a & E & Ha). destruct a as [o' rv'| |]; try discriminate. injection E as <-.
      destruct (H o' rv' Ha) as (t & T & L). unfold refs_of. rewrite T, map_length, seq_length. exact L.
  Qed.

  Lemma rows_pair_indices : forall args n rows, ref_rows args n rows -> forall order xs, Forall2 (fun i x => nth_error rows i = Some x) order xs ->
    Forall2 (fun i row => Forall2 (ref_element i) args row) order xs.
  Proof. intros args n rows [_ H] order xs F. induction F as [|i x order xs E F IH]; constructor; [apply H; exact E|exact IH]. Qed.
  Lemma rows_seq : forall (rows : list (list (element ref))), Forall2 (fun i x => nth_error rows i = Some x) (seq 0 (length rows)) rows.
  Proof.
    assert (G : forall l2 l1 : list (list (element ref)), Forall2 (fun i x => nth_error (l1 ++ l2) i = Some x) (seq (length l1) (length l2)) l2).
    { induction l2 as [|x l2 IH]; intro l1; [constructor|]. cbn [length seq]. constructor; [rewrite nth_error_app2, Nat.sub_diag by lia; reflexivity|].
      specialize (IH (l1 ++ [x])). rewrite app_length, <- app_assoc in IH. cbn [length app] in IH. rewrite Nat.add_1_r in IH. exact IH. }
    intro rows. apply (G rows []).
  Qed.
End Proofs.

Section Pred.
  Context {V : Type}.
  Variable f : memory V -> list (element ref) -> memory V * outcome bool.
  Hypothesis Hf : keeps_to_arguments f.

  Lemma called_answers : forall s l bs s', called f s l bs s' -> ZipSpec.answers f s l bs s'.
  Proof. induction 1; econstructor; eassumption. Qed.
  Lemma called_app : forall s l x bs b s', called f s (l ++ [x]) (bs ++ [b]) s' -> length l = length bs -> exists s1, called f s l bs s1 /\ f s1 x = (s', Ok b).
  Proof.
    intros s l. revert s. induction l as [|y l IH]; intros s x bs b s' H L; destruct bs as [|c bs]; try discriminate; cbn [app] in H; inversion H as [|? ? ? s1 ? ? ? Hy H']; subst.
    - inversion H'; subst. exists s. split; [constructor|exact Hy].
    - destruct (IH _ _ _ _ _ H' ltac:(cbn in L; lia)) as (s2 & C & E). exists s2. split; [econstructor; eassumption|exact E].
  Qed.
  Lemma first_other : forall (b0 : bool) bs, bs = repeat b0 (length bs) \/ exists k r, bs = repeat b0 k ++ negb b0 :: r.
  Proof.
    induction bs as [|b bs IH]; [left; reflexivity|]. destruct (bool_dec b b0) as [->|N].
    - destruct IH as [IH|(k & r & ->)]; [left; cbn; f_equal; exact IH|right; exists (S k), r; reflexivity].
    - right. exists 0, bs. cbn. f_equal. destruct b, b0; try reflexivity; congruence.
  Qed.

  Lemma pred_decides : forall args n m rows bs (b0 : bool), ref_rows args n rows -> Forall2 (fun row b => snd (f m row) = Ok b) rows bs ->
    (bs = repeat b0 n /\ exists m', ZipSpec.answers f m rows (repeat b0 n) m' /\ only_rvalues_changed args m m') \/
    (exists l1 x l2 m1 m2, rows = l1 ++ x :: l2 /\ In (negb b0) bs /\ ZipSpec.answers f m l1 (repeat b0 (length l1)) m1 /\ f m1 x = (m2, Ok (negb b0)) /\ only_rvalues_changed args m m2).
  Proof.
    intros args n m rows bs b0 Hr Hs. destruct (first_other b0 bs) as [E|(k & r & E)].
    - left. assert (L : length bs = n) by (rewrite <- (proj1 Hr); symmetry; eapply Forall2_length; eauto). rewrite L in E. split; [exact E|].
      destruct (calls_independent f Hf args m (seq 0 (length rows)) rows bs m) as (m' & C & _ & U); [eapply rows_pair_indices; [exact Hr|apply rows_seq]|apply seq_NoDup|reflexivity|exact Hs|].
      exists m'. split; [rewrite <- E; apply called_answers; exact C|]. intros o Ho i. apply U. exact Ho.
    - right. rewrite E in Hs. apply Forall2_app_inv_r in Hs as (l1 & l2' & H1 & H2 & ->). inversion H2 as [|x ? l2 ? Hx H2']; subst.
      assert (L1 : length l1 = k) by (rewrite <- (repeat_length b0 k); eapply Forall2_length; eauto).
      pose proof (rows_pair_indices _ _ _ Hr _ _ (rows_seq _)) as P. rewrite app_length in P. cbn [length] in P. replace (length l1 + S (length l2)) with (length l1 + 1 + length l2) in P by lia.
      rewrite seq_app in P. replace (l1 ++ x :: l2) with ((l1 ++ [x]) ++ l2) in P by (rewrite <- app_assoc; reflexivity).
      apply Forall2_app_inv_l in P as (ra & rb & Pa & Pb & E').
      assert (ra = l1 ++ [x]).
      { pose proof (Forall2_length Pa) as La. rewrite seq_length in La. assert (La' : length ra = length (l1 ++ [x])) by (rewrite app_length; cbn; lia).
        clear - E' La'. revert ra E' La'. generalize (l1 ++ [x]). intro l. induction l as [|a l IH]; intros ra E L; destruct ra; try discriminate; [reflexivity|]. injection E as <- E. f_equal. apply IH; [exact E|cbn in L; lia]. }
      subst ra. destruct (calls_independent f Hf args m (seq 0 (length l1 + 1)) (l1 ++ [x]) (repeat b0 (length l1) ++ [negb b0]) m) as (m2 & C & _ & U); [exact Pa|apply seq_NoDup|reflexivity|apply Forall2_app; [rewrite L1; exact H1|constructor; [exact Hx|constructor]]|].
      apply called_app in C as (m1 & C1 & C2); [|rewrite repeat_length; reflexivity].
      exists l1, x, l2, m1, m2. split; [reflexivity|]. split; [apply in_or_app; right; left; reflexivity|]. split; [apply called_answers; exact C1|]. split; [exact C2|]. intros o Ho i. apply U. exact Ho.
  Qed.
End Pred.

(** * Construction from references *)
Section Construct.
  Context {V : Type}.
  Notation memory := (memory V).

  Lemma cell_set_same : forall (m : memory) o i c, cell m o i <> None -> cell (set_cell m o i c) o i = Some c.
  Proof.
    intros m o i c H. unfold cell, set_cell in *. destruct (nth_error m o) as [t|] eqn:E; [|congruence].
    rewrite nth_error_upd_same by (apply nth_error_Some; congruence). apply nth_error_upd_same, nth_error_Some. exact H.
  Qed.
  Lemma cell_set_other : forall (m : memory) o i c o' i', o' <> o \/ i' <> i -> cell (set_cell m o i c) o' i' = cell m o' i'.
  Proof.
    intros m o i c o' i' H. unfold cell, set_cell. destruct (nth_error m o) as [t|] eqn:E; [|reflexivity].
    destruct (Nat.eq_dec o' o) as [->|N].
    - rewrite nth_error_upd_same by (apply nth_error_Some; congruence). rewrite E. apply nth_error_upd_other. destruct H; congruence.
    - rewrite nth_error_upd_other by congruence. reflexivity.
  Qed.
  Lemma set_cell_cells : forall (m : memory) o i c o' i', cell (set_cell m o i c) o' i' = if (o' =? o) && (i' =? i) then match cell m o i with Some _ => Some c | None => None end else cell m o' i'.
  Proof.
    intros. destruct ((o' =? o) && (i' =? i)) eqn:E.
    - apply andb_true_iff in E as [E1 E2]. apply Nat.eqb_eq in E1, E2. subst. destruct (cell m o i) eqn:C; [apply cell_set_same; congruence|].
      unfold cell, set_cell in *. destruct (nth_error m o) as [t|] eqn:E; [|rewrite E; reflexivity]. rewrite nth_error_upd_same by (apply nth_error_Some; congruence).
      apply nth_error_None. rewrite upd_length. apply nth_error_None. exact C.
    - apply cell_set_other. apply andb_false_iff in E as [E|E]; apply Nat.eqb_neq in E; auto.
  Qed.

  Lemma construct_all_local : forall rs (m m' : memory), (forall r, In r rs -> cell m (r_obj r) (r_idx r) = cell m' (r_obj r) (r_idx r)) ->
    snd (construct_all m rs) = snd (construct_all m' rs).
  Proof.
    induction rs as [|r rs IH]; intros m m' H; [reflexivity|]. cbn [construct_all]. unfold construct. rewrite <- (H r (or_introl eq_refl)).
    destruct (cell m (r_obj r) (r_idx r)) as [[v|]|] eqn:C; try reflexivity.
    assert (X : snd (construct_all (if r_rvalue r then set_cell m (r_obj r) (r_idx r) None else m) rs) = snd (construct_all (if r_rvalue r then set_cell m' (r_obj r) (r_idx r) None else m') rs)).
    { apply IH. intros r' Hr'. destruct (r_rvalue r); [|apply H; right; exact Hr']. rewrite !set_cell_cells. rewrite <- (H r (or_introl eq_refl)). rewrite (H r' (or_intror Hr')). reflexivity. }
    destruct (construct_all (if r_rvalue r then set_cell m _ _ None else m) rs). destruct (construct_all (if r_rvalue r then set_cell m' _ _ None else m') rs). cbn [snd] in *. subst. reflexivity.
  Qed.
  Lemma construct_all_changes : forall rs (m : memory) o i, ~ In (mk_ref o i true) rs -> cell (fst (construct_all m rs)) o i = cell m o i.
  Proof.
    induction rs as [|r rs IH]; intros m o i H; [reflexivity|]. cbn [construct_all]. unfold construct.
    destruct (cell m (r_obj r) (r_idx r)) as [[v|]|] eqn:C; try reflexivity.
    specialize (IH (if r_rvalue r then set_cell m (r_obj r) (r_idx r) None else m) o i ltac:(intro; apply H; right; assumption)).
    destruct (construct_all _ rs) as [m2 o2] eqn:E. cbn [fst] in *. rewrite IH. destruct (r_rvalue r) eqn:RV; [|reflexivity].
    apply cell_set_other. destruct (Nat.eq_dec o (r_obj r)) as [->|]; [|left; assumption]. right. intros ->. apply H. left. destruct r; cbn in *; subst; reflexivity.
  Qed.

  Definition refs_in (row : list (element ref)) := flat_map (fun e => match e with Elem r => [r] | _ => [] end) row.
  Lemma in_refs_in : forall row r, In r (refs_in row) <-> In (Elem r) row.
  Proof.
    intros row r. unfold refs_in. rewrite in_flat_map. split.
    - intros (e & I & H). destruct e; cbn in H; try contradiction. destruct H as [->|[]]. exact I.
    - intro I. exists (Elem r). split; [exact I|left; reflexivity].
  Qed.
  Lemma by_value_keeps : forall R (g : list V -> R), keeps_to_arguments (by_value g).
  Proof.
    intros R g. split.
    - intros m m' row H. unfold by_value. fold (refs_in row). pose proof (construct_all_local (refs_in row) m m') as L.
      destruct (construct_all m (refs_in row)), (construct_all m' (refs_in row)). cbn [snd] in *. rewrite L; [reflexivity|].
      intros r Hr. apply H. apply in_refs_in in Hr. exists (r_rvalue r). destruct r; exact Hr.
    - intros m row o i H. unfold by_value. fold (refs_in row). pose proof (construct_all_changes (refs_in row) m o i) as L.
      destruct (construct_all m (refs_in row)). cbn [fst] in *. apply L. intro I. apply H, in_refs_in. exact I.
  Qed.

  (** Construction from references none of which is used after it has been moved from. *)
  Lemma construct_all_ok : forall rs (m : memory) vs, Forall2 (fun r v => cell m (r_obj r) (r_idx r) = Some (Some v)) rs vs ->
    (forall j k o i rv, nth_error rs j = Some (mk_ref o i true) -> nth_error rs k = Some (mk_ref o i rv) -> j = k) ->
    exists m', construct_all m rs = (m', Ok vs) /\
      forall o i, cell m' o i = if existsb (fun r => (r_obj r =? o) && (r_idx r =? i) && r_rvalue r) rs then Some None else cell m o i.
  Proof.
    induction rs as [|r rs IH]; intros m vs Hv Hd; inversion Hv as [|? v ? vs' H1 H2]; subst.
    - exists m. split; reflexivity.
    - cbn [construct_all]. unfold construct. rewrite H1.
      destruct (IH (if r_rvalue r then set_cell m (r_obj r) (r_idx r) None else m) vs') as (m' & E & C).
      + clear - H2 Hd. assert (G : forall r', In r' rs -> r_rvalue r = true -> r_obj r' <> r_obj r \/ r_idx r' <> r_idx r).
        { intros r' I RV. destruct (Nat.eq_dec (r_obj r') (r_obj r)) as [E1|]; [|left; assumption]. right. intro E2.
          apply In_nth_error in I as [k Hk]. specialize (Hd 0 (S k) (r_obj r) (r_idx r) (r_rvalue r')). cbn in Hd. destruct r, r'. cbn in *. subst. specialize (Hd eq_refl Hk). discriminate. }
        revert G. induction H2 as [|r' v rs vs' E H2 IH]; intro G; constructor.
        * destruct (r_rvalue r); [|exact E]. rewrite cell_set_other; [exact E|]. apply G; [left; reflexivity|reflexivity].
        * apply IH; [|intros r0 I; apply G; right; exact I]. clear - Hd. intros j k o i rv H1 H2. 
          destruct j as [|j], k as [|k]; cbn in H1, H2; [reflexivity| | |].
          -- specialize (Hd 0 (S (S k)) o i rv H1 H2). discriminate.
          -- specialize (Hd (S (S j)) 0 o i rv H1 H2). discriminate.
          -- specialize (Hd (S (S j)) (S (S k)) o i rv H1 H2). injection Hd as ->. reflexivity.
      + intros j k o i rv Hj Hk. specialize (Hd (S j) (S k) o i rv Hj Hk). injection Hd as ->. reflexivity.
      + rewrite E. cbn [bind]. exists m'. split; [reflexivity|]. intros o i. rewrite C. cbn [existsb].
        destruct (existsb _ rs); [rewrite orb_true_r; reflexivity|]. rewrite orb_false_r.
        destruct (r_rvalue r); [|rewrite andb_false_r; reflexivity]. rewrite andb_true_r, set_cell_cells, H1. rewrite (Nat.eqb_sym o), (Nat.eqb_sym i). reflexivity.
  Qed.
End Construct.
