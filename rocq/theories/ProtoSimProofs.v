(** Proofs about ProtoModel.v: on ordinary ranges, the operations do what ZipModel.v says. *)

From Coq Require Import ZArith Arith Bool Lia List.
From Verif Require Import Base ZipModel ZipSpec ZipProofs ZipLoopProofs ProtoModel ProtoSpec ProtoProofs ProtoLoopProofs.
Import ListNotations.

Local Open Scope Z_scope.

(** * The compiler's checks *)

Lemma dims_pos : forall rs, Forall proper_range rs -> forall n, In (SDyn n) (map range_size rs) -> 0 <= n.
Proof. intros rs H n. now apply range_size_dyn_pos. Qed.

Lemma accepted_size : forall rs, Forall proper_range rs ->
  algorithm_size rs = do _ <- accepted rs; merge_sizes (map range_size rs).
Proof.
  intros rs Hp. unfold algorithm_size, accepted. destruct (forallb is_range_index rs); [reflexivity|].
  set (ds := map range_size rs). pose proof (dims_pos rs Hp) as Hd. fold ds in Hd.
  assert (Hlen : length ds = length rs) by apply map_length.
  destruct (merge_n_spec (S (length rs)) ds ltac:(lia) (no_bad_pos ds Hd)) as [H1 [H2 H3]].
  unfold merge_sizes. rewrite Hlen.
  destruct (all_eq_dec (statics ds)) as [Hs|Hs].
  2: { rewrite (H1 Hs). reflexivity. }
  destruct (H2 false Hs ltac:(discriminate)) as [d0 [E0 G0]]. rewrite E0. cbn [bind].
  assert (U : forall d, merged ds d -> d = SStatic (-1) -> knowns ds = []).
  { intros d G ->. cbn in G. destruct G as [G|[_ [G1 G2]]].
    - apply statics_in in G. destruct G. congruence.
    - unfold knowns. now rewrite G1, G2. }
  assert (V : forall d, merged ds d -> knowns ds = [] -> d = SStatic (-1)).
  { intros d G E. apply app_eq_nil in E as [E1 E2]. destruct d as [n|n]; cbn in G.
    - destruct G as [G|[-> _]]; [rewrite E1 in G; destruct G | reflexivity].
    - destruct G as [_ G]. rewrite E2 in G. destruct G. }
  destruct (all_eq_dec (knowns ds)) as [Hk|Hk].
  - destruct (H2 true Hs (fun _ => Hk)) as [d [E G]]. rewrite E. cbn [bind].
    destruct (knowns ds) as [|z l] eqn:K.
    + rewrite (V d G eq_refl), (V d0 G0 eq_refl). unfold unknown_size. rewrite Z.eqb_refl.
      destruct (is_end_type _) as [[b|]| | | | |]; reflexivity.
    + assert (N : forall d, merged ds d ->
                match d with SStatic n => if n =? unknown_size then False else True | SDyn _ => True end).
      { intros d1 G1. destruct d1 as [n|n]; auto. unfold unknown_size. destruct (Z.eqb_spec n (-1)) as [->|]; auto.
        specialize (U _ G1 eq_refl). discriminate. }
      pose proof (N d G) as Nd. pose proof (N d0 G0) as N0. destruct d as [n|n], d0 as [n0|n0]; cbn [bind]; auto.
      * destruct (n =? unknown_size); [contradiction|]. destruct (n0 =? unknown_size); [contradiction|]. reflexivity.
      * destruct (n =? unknown_size); [contradiction|]. reflexivity.
      * destruct (n0 =? unknown_size); [contradiction|]. reflexivity.
  - rewrite (H3 Hs Hk). cbn [bind]. destruct d0 as [n|n]; cbn [bind]; auto.
    unfold unknown_size. destruct (Z.eqb_spec n (-1)) as [->|]; [|reflexivity].
    specialize (U _ G0 eq_refl). destruct Hk as (a & b & Ha & _). rewrite U in Ha. destruct Ha.
Qed.

Lemma merged_known : forall rs N, Forall proper_range rs -> merge_sizes (map range_size rs) = Ok N ->
  forall r, In r rs -> holds_elements r -> r_known r <> KUnknown -> r_len r = dim_value N.
Proof.
  intros rs N Hp HN r Hr Hh Hk. set (ds := map range_size rs) in *. pose proof (dims_pos rs Hp) as Hd. fold ds in Hd.
  destruct (merge_n_spec (S (length ds)) ds (Nat.lt_succ_diag_r _) (no_bad_pos ds Hd)) as [H1 [H2 H3]].
  unfold merge_sizes in HN.
  assert (Kr : known_size ds (r_len r)).
  { unfold ds. assert (I : In (range_size r) (map range_size rs)) by now apply in_map.
    rewrite Forall_forall in Hp. destruct (Hp r Hr) as [P _]. unfold range_size in I. unfold holds_elements in Hh.
    destruct (r_mode r); try congruence; destruct (r_known r); try congruence;
      ((right; exact I) || (left; split; [exact I | lia])). }
  apply knowns_in in Kr.
  destruct (all_eq_dec (statics ds)) as [Hs|Hs]; [|rewrite (H1 Hs) in HN; discriminate].
  destruct (H2 false Hs ltac:(discriminate)) as [d0 [E0 G0]]. rewrite E0 in HN. cbn [bind] in HN.
  destruct (all_eq_dec (knowns ds)) as [Hke|Hke]; [|rewrite (H3 Hs Hke) in HN; discriminate].
  destruct (H2 true Hs (fun _ => Hke)) as [d [E G]]. rewrite E in HN. inversion HN; subst d.
  destruct N as [n|n]; cbn in G |- *.
  - destruct G as [G|[-> [G1 G2]]].
    + apply Hke; auto. unfold knowns. apply in_or_app. auto.
    + unfold knowns in Kr. rewrite G1, G2 in Kr. destruct Kr.
  - destruct G as [_ G]. apply Hke; auto. unfold knowns. apply in_or_app. auto.
Qed.

(** * Sequences of outcomes *)

Definition seqM {A : Type} (l : list (outcome A)) : outcome (list A) := mapM (fun x => x) l.

Lemma mapM_mapi_seq : forall A B C (f : B -> outcome C) (g : nat -> A -> B) l k,
  mapM f (mapi g k l) = seqM (mapi (fun j a => f (g j a)) k l).
Proof.
  induction l as [|a l IH]; intros k; cbn; auto. unfold seqM in *. rewrite IH. reflexivity.
Qed.

Lemma mapM_seq_nth : forall A B (f : nat -> A -> outcome B) l b,
  mapM (fun j => match nth_error l (j - b) with Some a => f j a | None => IllFormed end) (seq b (length l)) = seqM (mapi f b l).
Proof.
  induction l as [|a l IH]; intros b; cbn [length seq mapM mapi]; [reflexivity|].
  rewrite Nat.sub_diag. cbn [nth_error]. unfold seqM in *. cbn [mapM]. rewrite <- (IH (S b)).
  replace (mapM (fun j => match nth_error (a :: l) (j - b) with Some a0 => f j a0 | None => IllFormed end) (seq (S b) (length l)))
    with (mapM (fun j => match nth_error l (j - S b) with Some a0 => f j a0 | None => IllFormed end) (seq (S b) (length l))); auto.
  assert (G : forall L, (forall j, In j L -> (S b <= j)%nat) ->
    mapM (fun j => match nth_error l (j - S b) with Some a0 => f j a0 | None => IllFormed end) L =
    mapM (fun j => match nth_error (a :: l) (j - b) with Some a0 => f j a0 | None => IllFormed end) L).
  { induction L as [|j L IHL]; intros HL; cbn [mapM]; auto. rewrite IHL by (intros; apply HL; now right).
    replace (j - b)%nat with (S (j - S b)) by (specialize (HL j (or_introl eq_refl)); lia). reflexivity. }
  apply G. intros j Hj. apply in_seq in Hj. lia.
Qed.

Lemma seqM_mapi_map : forall A B C (f : nat -> A -> outcome B) (g : nat -> B -> C) l k,
  seqM (mapi (fun j a => do x <- f j a; Ok (g j x)) k l) = do xs <- seqM (mapi f k l); Ok (mapi g k xs).
Proof.
  induction l as [|a l IH]; intros k; cbn; auto. unfold seqM in *. rewrite IH.
  destruct (f k a) as [x| | | | |]; cbn; auto. destruct (mapM _ (mapi f (S k) l)); cbn; auto.
Qed.

Section Sim.
  Variable env : history -> event -> outcome Z.
  Variable ord : history -> nat -> list nat.
  Variable rs : list rng.
  Context {St : Type}.
  Variable alpha : history -> St.
  Hypothesis Hord : evaluation_order ord.
  Hypothesis Hpos : positional rs env.
  Hypothesis Halpha : functor_state alpha.

  Definition quiet (t : history) : Prop :=
    Forall (fun x => match fst x with EInc _ | EFunc _ | EReduce _ _ => False | _ => True end) t.
  Definition silent (t : history) : Prop :=
    Forall (fun x => match fst x with EFunc _ | EReduce _ _ => False | _ => True end) t.
  Definition moveless (t : history) : Prop :=
    Forall (fun x => match fst x with EInc _ => False | _ => True end) t.

  Lemma quiet_silent : forall t, quiet t -> silent t.
  Proof. intros t. apply Forall_impl. intros [e o]. simpl. destruct e; auto. Qed.
  Lemma quiet_moveless : forall t, quiet t -> moveless t.
  Proof. intros t. apply Forall_impl. intros [e o]. simpl. destruct e; auto. Qed.

  Lemma silent_alpha : forall t h, silent t -> alpha (h ++ t) = alpha h.
  Proof.
    induction t as [|[e o] t IH]; intros h H; [now rewrite app_nil_r|]. inversion H; subst.
    change ((e, o) :: t) with ([(e, o)] ++ t). rewrite app_assoc, IH; auto.
    specialize (Halpha h e o). simpl in *. destruct e; auto; contradiction.
  Qed.

  Lemma position_app : forall k h t, position k (h ++ t) = position k h + position k t.
  Proof. intros k h t. unfold position, count. rewrite filter_app, app_length. lia. Qed.

  Lemma moveless_position : forall t k h, moveless t -> position k (h ++ t) = position k h.
  Proof.
    intros t k h H. rewrite position_app. assert (E : position k t = 0); [|lia].
    unfold position, count. induction H as [|[e o] t He H IH]; auto. simpl in *. destruct e; simpl; auto; contradiction.
  Qed.

  (** ** Evaluation of arguments *)

  Lemma perform_in_det : forall A (l : list (act A)) (V : nat -> outcome A) h0,
    (forall h j a, moveless h -> nth_error l j = Some a ->
       exists t, quiet t /\ perform env a (h0 ++ h) = ((h0 ++ h) ++ t, V j)) ->
    (forall j, V j = UB \/ exists v, V j = Ok v) ->
    forall p acc h, moveless h -> (forall j, In j p -> (j < length l)%nat) ->
    exists t, quiet t /\
      ((perform_in env p l acc (h0 ++ h) = ((h0 ++ h) ++ t, UB) /\ exists j, In j p /\ V j = UB) \/
       exists acc', perform_in env p l acc (h0 ++ h) = ((h0 ++ h) ++ t, Ok acc') /\
         (forall j, In j p -> exists v, V j = Ok v) /\
         (forall q, In q acc' -> In q acc \/ In (fst q) p /\ V (fst q) = Ok (snd q)) /\
         (forall j, In j p -> exists v, In (j, v) acc') /\ (forall q, In q acc -> In q acc')).
  Proof.
    intros A l V h0 HP HV. induction p as [|j p IH]; intros acc h Hh Hp; cbn [perform_in].
    - exists []. split; [constructor|]. right. exists acc. rewrite app_nil_r. unfold ret.
      split; [reflexivity|]. split; [intros j []|]. split; [auto|]. split; [intros j []|auto].
    - destruct (nth_error l j) as [a|] eqn:E.
      2: { apply nth_error_None in E. specialize (Hp j (or_introl eq_refl)). lia. }
      destruct (HP h j a Hh E) as (t & Ht & P). unfold bindM. rewrite P.
      destruct (HV j) as [U|[v U]]; rewrite U.
      + exists t. split; auto. left. split; auto. exists j. split; [now left | auto].
      + assert (Hht : moveless (h ++ t)) by (apply Forall_app; split; [exact Hh | now apply quiet_moveless]).
        destruct (IH ((j, v) :: acc) (h ++ t) Hht) as (t2 & Ht2 & C); [intros; apply Hp; now right|].
        exists (t ++ t2). split; [apply Forall_app; auto|]. rewrite <- !app_assoc in *.
        destruct C as [(C1 & i & C2 & C3)|(acc' & C1 & C2 & C3 & C4 & C5)].
        * left. split; auto. exists i. split; [now right | auto].
        * right. exists acc'. split; auto. split; [|split; [|split]].
          -- intros i [<-|Hi]; eauto.
          -- intros q Hq. destruct (C3 q Hq) as [[<-|D]|[D1 D2]]; auto.
             ++ right. split; [now left | auto].
             ++ right. split; [now right | auto].
          -- intros i [<-|Hi]; auto. exists v. apply C5. now left.
          -- intros q Hq. apply C5. now right.
  Qed.

  Lemma collect_det : forall A (V : nat -> outcome A) (acc : list (nat * A)) n,
    (forall q, In q acc -> V (fst q) = Ok (snd q)) -> (forall j, (j < n)%nat -> exists v, In (j, v) acc) ->
    collect n acc = mapM V (seq 0 n).
  Proof.
    intros A V acc n H1 H2. unfold collect.
    assert (G : forall L, (forall j, In j L -> (j < n)%nat) ->
      mapM (fun j => match find (fun q => Nat.eqb (fst q) j) acc with Some q => Ok (snd q) | None => IllFormed end) L = mapM V L).
    { induction L as [|j L IH]; intros HL; cbn [mapM]; auto. rewrite IH by (intros; apply HL; now right).
      destruct (find (fun q => Nat.eqb (fst q) j) acc) as [q|] eqn:F.
      - apply find_some in F. destruct F as [F1 F2]. apply Nat.eqb_eq in F2. subst j. now rewrite (H1 q F1).
      - destruct (H2 j (HL j (or_introl eq_refl))) as [v Hv]. pose proof (find_none _ _ F _ Hv) as N. simpl in N.
        rewrite Nat.eqb_refl in N. discriminate. }
    apply G. intros j Hj. apply in_seq in Hj. lia.
  Qed.

  Lemma mapM_ub : forall A (V : nat -> outcome A) L, (forall j, V j = UB \/ exists v, V j = Ok v) ->
    (exists j, In j L /\ V j = UB) -> mapM V L = UB.
  Proof.
    intros A V L HV. induction L as [|j L IH]; intros (i & Hi & U); [destruct Hi|]. cbn [mapM].
    destruct (HV j) as [E|[v E]]; rewrite E; cbn [bind]; auto.
    destruct Hi as [->|Hi]; [congruence|]. rewrite IH; [reflexivity|]. eauto.
  Qed.

  Lemma in_order_det : forall A (l : list (act A)) (V : nat -> outcome A) h p,
    (forall h' j a, moveless h' -> nth_error l j = Some a ->
       exists t, quiet t /\ perform env a (h ++ h') = ((h ++ h') ++ t, V j)) ->
    (forall j, V j = UB \/ exists v, V j = Ok v) ->
    (forall j, In j p <-> (j < length l)%nat) ->
    exists t, quiet t /\
      bindM (perform_in env p l []) (fun acc => lift (collect (length l) acc)) h = (h ++ t, mapM V (seq 0 (length l))).
  Proof.
    intros A l V h p HP HV Hp.
    destruct (perform_in_det A l V h HP HV p [] [] (Forall_nil _)) as (t & Ht & C); [intros j Hj; now apply Hp|].
    rewrite app_nil_r in C. exists t. split; auto. unfold bindM.
    destruct C as [(C1 & i & C2 & C3)|(acc' & C1 & C2 & C3 & C4 & C5)]; rewrite C1.
    - f_equal. symmetry. apply mapM_ub; auto. exists i. split; auto. apply Hp in C2. apply in_seq. lia.
    - unfold lift. f_equal. apply collect_det.
      + intros q Hq. destruct (C3 q Hq) as [[]|[_ D]]. exact D.
      + intros j Hj. apply C4. now apply Hp.
  Qed.

  Lemma unordered_det : forall A (f : nat -> rng -> act A) (V : nat -> rng -> outcome A) h,
    (forall h' j r, moveless h' -> nth_error rs j = Some r ->
       exists t, quiet t /\ perform env (f j r) (h ++ h') = ((h ++ h') ++ t, V j r)) ->
    (forall j r, V j r = UB \/ exists v, V j r = Ok v) ->
    exists t, quiet t /\ unordered env ord (mapi f 0 rs) h = (h ++ t, seqM (mapi V 0 rs)).
  Proof.
    intros A f V h HP HV. unfold unordered.
    assert (HV' : forall A (V : nat -> rng -> outcome A), (forall j r, V j r = UB \/ exists v, V j r = Ok v) ->
              forall j, match nth_error rs (j - 0) with Some r => V j r | None => UB end = UB \/
                        exists v, match nth_error rs (j - 0) with Some r => V j r | None => UB end = Ok v).
    { intros A0 V0 H j. destruct (nth_error rs (j - 0)); auto. }
    destruct (in_order_det A (mapi f 0 rs) (fun j => match nth_error rs (j - 0) with Some r => V j r | None => UB end) h
                (ord h (length (mapi f 0 rs)))) as (t & Ht & E).
    - intros h' j a Hh' Ha. rewrite nth_error_mapi in Ha. cbn [Nat.add] in Ha.
      destruct (nth_error rs j) as [r|] eqn:Er; [|discriminate]. cbn in Ha. inversion Ha; subst.
      rewrite Nat.sub_0_r, Er. auto.
    - now apply HV'.
    - intros j. apply (Hord h (length (mapi f 0 rs))).
    - exists t. split; auto. rewrite E. f_equal. rewrite length_mapi. rewrite <- mapM_seq_nth.
      assert (G : forall L, (forall j, In j L -> (j < length rs)%nat) ->
        mapM (fun j => match nth_error rs (j - 0) with Some r => V j r | None => UB end) L =
        mapM (fun j => match nth_error rs (j - 0) with Some r => V j r | None => IllFormed end) L).
      { induction L as [|j L IH]; intros HL; cbn [mapM]; auto. rewrite IH by (intros; apply HL; now right).
        destruct (nth_error rs (j - 0)) eqn:E2; auto. apply nth_error_None in E2.
        specialize (HL j (or_introl eq_refl)). lia. }
      apply G. intros j Hj. apply in_seq in Hj. lia.
  Qed.

  (** ** The iterator *)

  Definition leaf_of (h : history) (k : nat) (r : rng) : leaf :=
    {| l_k := k; l_rng := r; l_pos := match r_mode r with MPair | MIter => position k h | _ => 0 end;
       l_end := match r_mode r with MPair => r_len r | _ => 0 end |}.
  Definition it_of (h : history) (i : Z) : zip_iterator := {| z_i := i; z_leaves := mapi (leaf_of h) 0 rs |}.

  Lemma leaf_of_moveless : forall h t, moveless t -> mapi (leaf_of (h ++ t)) 0 rs = mapi (leaf_of h) 0 rs.
  Proof.
    intros h t Ht. apply mapi_ext. intros k r _. unfold leaf_of. now rewrite (moveless_position t k h Ht).
  Qed.

  Lemma begin_it : forall h, (forall k, position k h = 0) -> it_of h 0 = zip_begin rs.
  Proof.
    intros h H. unfold it_of, zip_begin. f_equal. apply mapi_ext. intros k r _. unfold leaf_of, leaf_begin.
    rewrite H. destruct (r_mode r); reflexivity.
  Qed.

  (** Setup operations succeed. *)
  Lemma emit_all_ok : forall l h, (forall e, In e l -> forall h, exists z, env h e = Ok z) ->
    exists t, map fst t = l /\ emit_all env l h = (h ++ t, Ok tt).
  Proof.
    induction l as [|e l IH]; intros h H; cbn [emit_all].
    - exists []. rewrite app_nil_r. auto.
    - destruct (H e (or_introl eq_refl) h) as [z Hz]. unfold bindM, emit. rewrite Hz.
      destruct (IH (h ++ [(e, Ok z)])) as (t & T1 & T2); [intros; apply H; now right|].
      exists ((e, Ok z) :: t). split; [cbn; now f_equal|]. rewrite T2. now rewrite <- app_assoc.
  Qed.

  Lemma in_concat_mapi : forall (f : nat -> rng -> list event) l b e, In e (concat (mapi f b l)) ->
    exists j r, nth_error l j = Some r /\ In e (f (b + j)%nat r).
  Proof.
    induction l as [|r l IH]; intros b e H; cbn in H; [destruct H|]. apply in_app_or in H. destruct H as [H|H].
    - exists 0%nat, r. rewrite Nat.add_0_r. auto.
    - destruct (IH _ _ H) as (j & r' & E1 & E2). exists (S j), r'.
      now replace (b + S j)%nat with (S b + j)%nat by lia.
  Qed.

  Lemma begin_ok : forall h, exists t, quiet t /\ make_begin env rs h = (h ++ t, Ok tt).
  Proof.
    intros h. unfold make_begin. destruct (emit_all_ok (concat (mapi begin_events 0 rs)) h) as (t & T1 & T2).
    - intros e He h'. apply in_concat_mapi in He. destruct He as (j & r & Hr & He). cbn [Nat.add] in He.
      destruct (Hpos j r h' Hr) as (P1 & P2 & P3 & P4 & _). unfold begin_events in He.
      destruct (r_mode r); cbn in He; intuition (subst; eauto).
    - exists t. split; auto. unfold quiet. rewrite Forall_forall. intros [e o] Hx.
      assert (Hin : In e (concat (mapi begin_events 0 rs))) by (rewrite <- T1; change e with (fst (e, o)); now apply in_map).
      apply in_concat_mapi in Hin. destruct Hin as (j & r & _ & He). unfold begin_events in He. cbn [fst].
      destruct (r_mode r); cbn in He; intuition (subst; auto).
  Qed.

  Lemma size_ok : forall h, exists t, quiet t /\ merged_size env ord rs h = (h ++ t, merge_sizes (map range_size rs)).
  Proof.
    intros h. unfold merged_size.
    destruct (unordered_det dim size_act (fun _ r => Ok (range_size r)) h) as (t & Ht & E).
    - intros h' j r Hh' Hr. destruct (Hpos j r (h ++ h') Hr) as (P1 & _).
      unfold size_act, range_size.
      assert (Pu : forall d : dim, exists t, quiet t /\ perform env (APure d) (h ++ h') = ((h ++ h') ++ t, Ok d)).
      { intros d. exists []. split; [constructor|]. cbn. unfold ret. now rewrite app_nil_r. }
      assert (Em : exists t, quiet t /\ perform env (AEmit (ESize j) SDyn) (h ++ h') = ((h ++ h') ++ t, Ok (SDyn (r_len r)))).
      { exists [(ESize j, Ok (r_len r))]. split; [repeat constructor|]. cbn. unfold bindM, emit. now rewrite P1. }
      destruct (r_mode r), (r_known r); auto.
    - intros j r. right. eauto.
    - exists t. split; auto. unfold bindM, noexcept. rewrite E.
      assert (S : seqM (mapi (fun (_ : nat) r => Ok (range_size r)) 0 rs) = Ok (map range_size rs)).
      { clear. generalize 0%nat. induction rs as [|r l IH]; intros b; cbn; auto. unfold seqM in IH. now rewrite IH. }
      rewrite S. reflexivity.
  Qed.

  (** ** The comparison with the sentinel *)

  Lemma cmp_truth : forall k r h, nth_error rs k = Some r ->
    exists z, env h (ECmp k) = Ok z /\ truth z = (position k h =? r_len r).
  Proof.
    intros k r h Hr. destruct (Hpos k r h Hr) as (_ & _ & _ & _ & (z & Z1 & Z2) & _). exists z. split; auto.
    unfold truth. destruct (Z.eqb_spec z 0) as [->|Hz]; cbn.
    - symmetry. apply Z.eqb_neq. intros E. apply Z2 in E. congruence.
    - symmetry. apply Z.eqb_eq. now apply Z2.
  Qed.

  Lemma check_sim : forall isEnd l j h, (forall m r, nth_error l m = Some r -> nth_error rs (j + m) = Some r) ->
    exists t, quiet t /\
      check_end_from env isEnd j l h = (h ++ t, do _ <- mapM (leaf_check_end isEnd) (mapi (leaf_of h) j l); Ok tt).
  Proof.
    intros isEnd. induction l as [|r l IH]; intros j h H.
    - exists []. split; [constructor|]. cbn. unfold ret. now rewrite app_nil_r.
    - assert (Hr : nth_error rs j = Some r) by (specialize (H 0%nat r eq_refl); now rewrite Nat.add_0_r in H).
      assert (Hl : forall m r', nth_error l m = Some r' -> nth_error rs (S j + m) = Some r').
      { intros m r' Hm. specialize (H (S m) r' Hm). now replace (j + S m)%nat with (S j + m)%nat in H by lia. }
      assert (G : forall h0 t0 m, quiet t0 -> h0 = h ++ t0 -> leaf_check_end isEnd (leaf_of h j r) = m ->
        (forall h1, bindM (lift m) (fun _ => check_end_from env isEnd (S j) l) h1 = check_end_from env isEnd j (r :: l) h -> h1 = h0 ->
         exists t, quiet t /\
          check_end_from env isEnd j (r :: l) h =
            (h ++ t, do _ <- mapM (leaf_check_end isEnd) (mapi (leaf_of h) j (r :: l)); Ok tt))).
      { intros h0 t0 m Ht0 -> Hm h1 E ->. cbn [mapi mapM]. rewrite Hm. rewrite <- E. unfold bindM, lift.
        destruct m as [u| | | | |]; cbn [bind]; try (exists t0; split; auto; fail).
        destruct (IH (S j) (h ++ t0) Hl) as (t & Ht & E2). rewrite E2. exists (t0 ++ t).
        split; [apply Forall_app; auto|]. rewrite app_assoc. f_equal.
        replace (mapi (leaf_of (h ++ t0)) (S j) l) with (mapi (leaf_of h) (S j) l).
        - destruct (mapM (leaf_check_end isEnd) (mapi (leaf_of h) (S j) l)); reflexivity.
        - apply mapi_ext. intros k r' _. unfold leaf_of. now rewrite (moveless_position t0 k h (quiet_moveless t0 Ht0)). }
      destruct (r_mode r) eqn:M.
      + destruct (cmp_truth j r h Hr) as (z & Z1 & Z2).
        eapply (G (h ++ [(ECmp j, Ok z)]) [(ECmp j, Ok z)]); [repeat constructor | reflexivity | reflexivity | | reflexivity].
        cbn [check_end_from]. rewrite M. unfold bindM, emit, lift, leaf_check_end. cbn [leaf_of l_rng l_pos l_end].
        rewrite M, Z1, <- Z2. reflexivity.
      + eapply (G h [] (Ok tt)); [constructor | now rewrite app_nil_r | unfold leaf_check_end; cbn; now rewrite M | | reflexivity].
        cbn [check_end_from]. rewrite M. reflexivity.
      + eapply (G h [] (Ok tt)); [constructor | now rewrite app_nil_r | unfold leaf_check_end; cbn; now rewrite M | | reflexivity].
        cbn [check_end_from]. rewrite M. reflexivity.
      + eapply (G h [] (Ok tt)); [constructor | now rewrite app_nil_r | unfold leaf_check_end; cbn; now rewrite M | | reflexivity].
        cbn [check_end_from]. rewrite M. reflexivity.
  Qed.

  Lemma sentinel_sim : forall N i h,
    exists t, quiet t /\ at_sentinel env ord N rs i h = (h ++ t, sentinel_is_end N (it_of h i)).
  Proof.
    intros N i h.
    assert (K : forall n, exists t, quiet t /\
      bindM (check_end_from env (i =? n) 0 rs) (fun _ => ret (i =? n)) h =
      (h ++ t, let isEnd := i =? n in do _ <- zip_check_end isEnd (it_of h i); Ok isEnd)).
    { intros n. destruct (check_sim (i =? n) rs 0 h (fun m r E => E)) as (t & Ht & E). exists t. split; auto.
      unfold bindM. rewrite E. unfold zip_check_end. cbn [it_of z_leaves].
      destruct (mapM (leaf_check_end (i =? n)) (mapi (leaf_of h) 0 rs)); reflexivity. }
    unfold at_sentinel, sentinel_is_end. destruct N as [n|n]; [|apply K]. destruct (n =? unknown_size); [|apply K].
    destruct (unordered_det (option bool) is_end_act (fun j r => Ok (leaf_is_end (leaf_of h j r))) h) as (t & Ht & E).
    - intros h' j r Hh' Hr. unfold is_end_act, leaf_is_end. cbn [leaf_of l_rng l_pos l_end]. destruct (r_mode r) eqn:M.
      + destruct (cmp_truth j r (h ++ h') Hr) as (z & Z1 & Z2).
        exists [(ECmp j, Ok z)]. split; [repeat constructor|]. cbn. unfold bindM, emit. rewrite Z1. unfold ret.
        rewrite (moveless_position h' j h Hh') in Z2. now rewrite Z2.
      + exists []. split; [constructor|]. cbn. unfold ret. now rewrite app_nil_r.
      + exists []. split; [constructor|]. cbn. unfold ret. now rewrite app_nil_r.
      + exists []. split; [constructor|]. cbn. unfold ret. now rewrite app_nil_r.
    - intros j r. right. eauto.
    - exists t. split; auto. unfold bindM. rewrite E.
      assert (Sq : seqM (mapi (fun j r => Ok (leaf_is_end (leaf_of h j r))) 0 rs) = Ok (map leaf_is_end (z_leaves (it_of h i)))).
      { cbn [it_of z_leaves]. rewrite map_mapi. clear. generalize 0%nat.
        induction rs as [|r l IH]; intros b; cbn; auto. unfold seqM in IH. now rewrite IH. }
      rewrite Sq. unfold lift. destruct (is_end (map leaf_is_end (z_leaves (it_of h i)))) as [[b|]| | | | |]; reflexivity.
  Qed.

  (** ** Dereferencing and increment *)

  Definition in_bounds (i : Z) : Prop := forall r, In r rs -> r_mode r = MIndex -> 0 <= i < r_len r.

  Lemma deref_sim : forall i h, in_bounds i ->
    exists t args, quiet t /\ unordered env ord (mapi (deref_act i) 0 rs) h = (h ++ t, args) /\
      zip_deref (it_of h i) = do l <- args; Ok (arg_refs l).
  Proof.
    intros i h Hi.
    set (V := fun j r => match r_mode r with
                         | MPair | MIter => if position j h <? r_len r then Ok (ADeref (position j h)) else UB
                         | MIndex => Ok (AElem j i) | MRangeIndex => Ok (AIdx i) end).
    destruct (unordered_det arg (deref_act i) V h) as (t & Ht & E).
    - intros h' j r Hh' Hr. unfold deref_act, V.
      assert (Em : exists t, quiet t /\ perform env (AEmit (EDeref j) ADeref) (h ++ h') =
                 ((h ++ h') ++ t, if position j h <? r_len r then Ok (ADeref (position j h)) else UB)).
      { destruct (Hpos j r (h ++ h') Hr) as (_ & _ & _ & _ & _ & P & _).
        rewrite (moveless_position h' j h Hh') in P. cbn. unfold bindM, emit. rewrite P.
        destruct (position j h <? r_len r); eexists; (split; [|reflexivity]); repeat constructor. }
      destruct (r_mode r); auto.
      + exists []. split; [constructor|]. cbn. unfold ret. now rewrite app_nil_r.
      + exists []. split; [constructor|]. cbn. unfold ret. now rewrite app_nil_r.
    - intros j r. unfold V. destruct (r_mode r); eauto; destruct (position j h <? r_len r); eauto.
    - exists t, (seqM (mapi V 0 rs)). split; auto. split; auto.
      unfold zip_deref, zip_subscript, arg_refs. cbn [it_of z_leaves z_i].
      rewrite mapM_mapi_seq, <- seqM_mapi_map. f_equal. apply mapi_ext. intros j r Hr.
      unfold leaf_deref, V. cbn [leaf_of l_rng l_pos l_k].
      assert (Pn : 0 <= position j h) by (unfold position; lia).
      destruct (r_mode r) eqn:M; cbn [bind]; rewrite ?Z.add_0_r.
      + destruct (Z.leb_spec 0 (position j h)); [|lia]. cbn [andb]. destruct (position j h <? r_len r); reflexivity.
      + destruct (Z.leb_spec 0 (position j h)); [|lia]. cbn [andb]. destruct (position j h <? r_len r); reflexivity.
      + destruct (Hi r Hr M). destruct (Z.leb_spec 0 i); [|lia]. destruct (Z.ltb_spec i (r_len r)); [|lia]. reflexivity.
      + reflexivity.
  Qed.

  Lemma position_inc_other : forall k j o, j <> k -> position k [(EInc j, o)] = 0.
  Proof. intros k j o H. unfold position, count. cbn. destruct (Nat.eqb_spec j k); [congruence | reflexivity]. Qed.
  Lemma position_inc_own : forall k o, position k [(EInc k, o)] = 1.
  Proof. intros k o. unfold position, count. cbn. now rewrite Nat.eqb_refl. Qed.

  Lemma inc_sim : forall l j h, (forall m r, nth_error l m = Some r -> nth_error rs (j + m) = Some r) ->
    exists t, silent t /\ (forall k, (k < j)%nat -> position k t = 0) /\
      ((emit_all env (concat (mapi inc_events j l)) h = (h ++ t, Ok tt) /\
        mapM (leaf_advance 1) (mapi (leaf_of h) j l) = Ok (mapi (leaf_of (h ++ t)) j l)) \/
       (emit_all env (concat (mapi inc_events j l)) h = (h ++ t, UB) /\
        mapM (leaf_advance 1) (mapi (leaf_of h) j l) = UB)).
  Proof.
    induction l as [|r l IH]; intros j h H.
    - exists []. split; [constructor|]. split; [reflexivity|]. left. rewrite app_nil_r. split; reflexivity.
    - assert (Hr : nth_error rs j = Some r) by (specialize (H 0%nat r eq_refl); now rewrite Nat.add_0_r in H).
      assert (Hl : forall m r', nth_error l m = Some r' -> nth_error rs (S j + m) = Some r').
      { intros m r' Hm. specialize (H (S m) r' Hm). now replace (j + S m)%nat with (S j + m)%nat in H by lia. }
      assert (Own : leaf_advance 1 (leaf_of h j r) = Ok (leaf_of h j r) /\ inc_events j r = [] /\
                    (forall t, leaf_of (h ++ t) j r = leaf_of h j r) \/
                    (r_mode r = MPair \/ r_mode r = MIter) /\ inc_events j r = [EInc j]).
      { unfold leaf_advance, inc_events, leaf_of. cbn [l_rng]. destruct (r_mode r) eqn:M; auto. }
      cbn [mapi concat mapM].
      destruct Own as [(O1 & O2 & O3)|(O1 & O2)]; rewrite O2; cbn [app].
      + destruct (IH (S j) h Hl) as (t & T1 & T2 & T3). exists t. split; auto. split; [intros; apply T2; lia|].
        rewrite O1. cbn [bind]. destruct T3 as [[T3 T4]|[T3 T4]]; rewrite T3, T4; cbn [bind].
        * left. rewrite O3. auto.
        * right. auto.
      + destruct (Hpos j r h Hr) as (_ & _ & _ & _ & _ & _ & P).
        assert (Pn : 0 <= position j h) by (unfold position; lia).
        assert (A1 : leaf_advance 1 (leaf_of h j r) =
                  if position j h <? r_len r then Ok (set_pos (leaf_of h j r) (position j h + 1)) else UB).
        { unfold leaf_advance, leaf_of, move_to. cbn [l_rng l_pos].
          assert (B : ((0 <=? position j h + 1) && (position j h + 1 <=? r_len r))%bool = (position j h <? r_len r)).
          { destruct (Z.leb_spec 0 (position j h + 1)); [|lia]. cbn [andb].
            destruct (Z.leb_spec (position j h + 1) (r_len r)), (Z.ltb_spec (position j h) (r_len r)); auto; lia. }
          destruct O1 as [M|M]; rewrite M; rewrite B; reflexivity. }
        rewrite A1. cbn [emit_all].
        destruct (position j h <? r_len r).
        * destruct P as [z P]. unfold bindM, emit. rewrite P. cbn [bind].
          destruct (IH (S j) (h ++ [(EInc j, Ok z)]) Hl) as (t & T1 & T2 & T3).
          exists ((EInc j, Ok z) :: t). split; [constructor; [exact I | exact T1]|].
          assert (Q : forall k, k <> j -> position k ((EInc j, Ok z) :: t) = position k t).
          { intros k Hk. unfold position, count. cbn [filter fst is_inc]. destruct (Nat.eqb_spec j k); [lia|reflexivity]. }
          split; [intros k Hk; rewrite Q by lia; apply T2; lia|].
          replace (h ++ (EInc j, Ok z) :: t) with ((h ++ [(EInc j, Ok z)]) ++ t) by now rewrite <- app_assoc.
          assert (L : mapi (leaf_of h) (S j) l = mapi (leaf_of (h ++ [(EInc j, Ok z)])) (S j) l).
          { clear - j. generalize (Nat.lt_succ_diag_r j). generalize (S j). induction l as [|r' l' IHl]; intros b Hb; cbn; auto.
            rewrite IHl by lia. f_equal. unfold leaf_of. rewrite position_app, position_inc_other by lia.
            now rewrite Z.add_0_r. }
          rewrite L. destruct T3 as [[T3 T4]|[T3 T4]]; rewrite T3, T4; cbn [bind].
          -- left. split; auto. f_equal. f_equal. unfold set_pos, leaf_of. cbn [l_k l_rng l_end].
             rewrite !position_app, position_inc_own.
             rewrite (T2 j) by lia. destruct O1 as [M|M]; rewrite M; f_equal; lia.
          -- right. auto.
        * exists [(EInc j, UB)]. split; [repeat constructor|].
          split. { intros k Hk. apply position_inc_other. lia. }
          right. unfold bindM, emit. rewrite P. cbn [bind]. auto.
  Qed.

  (** ** The loop *)

  Section Bodies.
    Context {A R Zs Zr : Type}.
    Variable pack : St -> A -> Zs.
    Variable out : R -> Zr.
    Variable body : A -> list arg -> M (A + R).
    Variable zbody : Zs -> list ref -> Zs * outcome (option Zr).

    Definition related (o : outcome (A + R)) (a : A) (o' : outcome (option Zr)) : Prop :=
      match o with
      | Ok (inl x) => o' = Ok None /\ a = x
      | Ok (inr x) => o' = Ok (Some (out x))
      | Contract => o' = Contract | Throw e => o' = Throw e | UB => o' = UB
      | IllFormed => o' = IllFormed | OutOfFuel => o' = OutOfFuel
      end.

    Hypothesis Hbody : forall h a args, exists t o a' o',
      moveless t /\ body a args h = (h ++ t, o) /\
      zbody (pack (alpha h) a) (arg_refs args) = (pack (alpha (h ++ t)) a', o') /\ related o a' o'.

    Variable N : dim.
    Hypothesis Hproper : Forall proper_range rs.
    Hypothesis HN : merge_sizes (map range_size rs) = Ok N.

    Lemma index_len : forall r, In r rs -> r_mode r = MIndex -> r_len r = dim_value N.
    Proof.
      intros r Hr M. eapply merged_known; eauto.
      - unfold holds_elements. congruence.
      - rewrite Forall_forall in Hproper. destruct (Hproper r Hr) as [_ P]. now rewrite M in P.
    Qed.

    Lemma sentinel_false : forall h i, sentinel_is_end N (it_of h i) = Ok false ->
      0 <= i -> (forall r, In r rs -> r_mode r = MIndex -> i <= r_len r) -> in_bounds i.
    Proof.
      intros h i E Hi Hl r Hr M. pose proof (index_len r Hr M) as L. specialize (Hl r Hr M).
      assert (Hp := Hproper). rewrite Forall_forall in Hp. destruct (Hp r Hr) as [P _].
      assert (Ne : i <> dim_value N); [|lia].
      intros ->. unfold sentinel_is_end in E.
      destruct N as [n|n]; cbn [dim_value it_of z_i] in *.
      - unfold unknown_size in E. destruct (Z.eqb_spec n (-1)); [lia|]. rewrite Z.eqb_refl in E.
        destruct (zip_check_end true _); discriminate.
      - rewrite Z.eqb_refl in E. destruct (zip_check_end true _); discriminate.
    Qed.

    Lemma loop_sim : forall fuel i a h, 0 <= i -> (forall r, In r rs -> r_mode r = MIndex -> i <= r_len r) ->
      exists t o a' o',
        loop env rs (at_sentinel env ord N rs) (fun i => unordered env ord (mapi (deref_act i) 0 rs)) body fuel i a h = (h ++ t, o) /\
        zip_loop zbody fuel (sentinel_is_end N) (it_of h i) (pack (alpha h) a) = (pack (alpha (h ++ t)) a', o') /\ related o a' o'.
    Proof.
      induction fuel as [|fuel IH]; intros i a h Hi Hidx; cbn [loop zip_loop].
      - exists [], OutOfFuel, a, OutOfFuel. rewrite app_nil_r. unfold lift, related. auto.
      - destruct (sentinel_sim N i h) as (t1 & Q1 & E1). unfold bindM at 1. rewrite E1.
        destruct (sentinel_is_end N (it_of h i)) as [[|]| |x| | |] eqn:ES;
          try (eexists t1, _, a, _; split; [reflexivity|];
               split; [now rewrite (silent_alpha t1 h (quiet_silent t1 Q1)) | cbn; auto; fail]).
        assert (Hb : in_bounds i) by (eapply sentinel_false; eauto).
        destruct (deref_sim i (h ++ t1) Hb) as (t2 & args & Q2 & E2 & Z2).
        assert (I1 : it_of (h ++ t1) i = it_of h i)
          by (unfold it_of; f_equal; apply leaf_of_moveless; now apply quiet_moveless).
        rewrite I1 in Z2. rewrite Z2. unfold bindM at 1. rewrite E2.
        assert (A2 : alpha ((h ++ t1) ++ t2) = alpha h)
          by (rewrite !silent_alpha; auto using quiet_silent).
        destruct args as [args| |x| | |]; cbn [bind];
          try (eexists (t1 ++ t2), _, a, _; rewrite app_assoc; split; [reflexivity|]; split; [now rewrite A2 | cbn; auto; fail]).
        destruct (Hbody ((h ++ t1) ++ t2) a args) as (t3 & o3 & a3 & o3' & Q3 & E3 & Z3 & R3).
        unfold bindM at 1. rewrite E3. rewrite A2 in Z3. rewrite Z3.
        destruct o3 as [[x|x]| |x| | |]; cbn [related] in R3; try subst o3';
          try (eexists (t1 ++ t2 ++ t3), _, a3, _; rewrite !app_assoc; split; [reflexivity|]; split; [reflexivity | cbn; auto; fail]).
        destruct R3 as [-> ->].
        assert (I3 : it_of (((h ++ t1) ++ t2) ++ t3) i = it_of h i).
        { unfold it_of. f_equal. rewrite !leaf_of_moveless; auto using quiet_moveless. }
        destruct (inc_sim rs 0 (((h ++ t1) ++ t2) ++ t3) (fun m r E => E)) as (t4 & Q4 & _ & C4).
        set (h3 := ((h ++ t1) ++ t2) ++ t3) in *.
        assert (ZI : zip_inc (it_of h i) = do ls <- mapM (leaf_advance 1) (mapi (leaf_of h3) 0 rs); Ok {| z_i := i + 1; z_leaves := ls |}).
        { rewrite <- I3. reflexivity. }
        rewrite ZI. unfold bindM at 1.
        destruct C4 as [[C4 C5]|[C4 C5]]; rewrite C4, C5; cbn [bind].
        + change {| z_i := i + 1; z_leaves := mapi (leaf_of (h3 ++ t4)) 0 rs |} with (it_of (h3 ++ t4) (i + 1)).
          assert (Hidx' : forall r, In r rs -> r_mode r = MIndex -> i + 1 <= r_len r)
            by (intros r Hr M; specialize (Hb r Hr M); lia).
          destruct (IH (i + 1) x (h3 ++ t4) ltac:(lia) Hidx') as (t5 & o5 & a5 & o5' & E5 & Z5 & R5).
          exists (t1 ++ t2 ++ t3 ++ t4 ++ t5), o5, a5, o5'. unfold h3 in *. rewrite !app_assoc in *.
          split; [exact E5|]. split; [|exact R5].
          rewrite <- Z5. f_equal. f_equal. symmetry. apply silent_alpha. exact Q4.
        + exists (t1 ++ t2 ++ t3 ++ t4), UB, x, UB. unfold h3 in *. rewrite !app_assoc in *.
          split; [reflexivity|]. split; [|reflexivity]. f_equal. f_equal. symmetry. apply silent_alpha. exact Q4.
    Qed.

    Lemma algorithm_sim_ok : forall fuel a, accepted rs = Ok tt ->
      exists h o a' o',
        algorithm env ord fuel body a rs [] = (h, o) /\
        zip_loop zbody fuel (sentinel_is_end N) (zip_begin rs) (pack (alpha []) a) = (pack (alpha h) a', o') /\ related o a' o'.
    Proof.
      intros fuel a Hacc. unfold algorithm. unfold bindM at 1. rewrite Hacc. cbn [lift].
      destruct (size_ok []) as (t1 & Q1 & E1). unfold bindM at 1. rewrite E1, HN.
      destruct (begin_ok ([] ++ t1)) as (t2 & Q2 & E2). unfold bindM at 1. rewrite E2.
      assert (P0 : forall k, position k (([] ++ t1) ++ t2) = 0).
      { intros k. rewrite !moveless_position; auto using quiet_moveless. }
      rewrite <- (begin_it _ P0).
      assert (A0 : alpha (([] ++ t1) ++ t2) = alpha []) by (rewrite !silent_alpha; auto using quiet_silent).
      rewrite <- A0.
      destruct (loop_sim fuel 0 a (([] ++ t1) ++ t2) ltac:(lia)) as (t & o & a' & o' & E & Z & Rl).
      - intros r Hr M. assert (Hp := Hproper). rewrite Forall_forall in Hp. destruct (Hp r Hr). lia.
      - exists ((([] ++ t1) ++ t2) ++ t), o, a', o'. auto.
    Qed.
  End Bodies.

  Lemma algorithm_sim : forall (A R Zs Zr : Type) (pack : St -> A -> Zs) (out : R -> Zr)
      (body : A -> list arg -> M (A + R)) (zbody : Zs -> list ref -> Zs * outcome (option Zr)),
    Forall proper_range rs ->
    (forall h a args, exists t o a' o',
       moveless t /\ body a args h = (h ++ t, o) /\
       zbody (pack (alpha h) a) (arg_refs args) = (pack (alpha (h ++ t)) a', o') /\ related out o a' o') ->
    forall a, exists h o a' o',
      algorithm env ord (loop_fuel rs) body a rs [] = (h, o) /\
      ZipModel.algorithm zbody rs (pack (alpha []) a) = (pack (alpha h) a', o') /\ related out o a' o'.
  Proof.
    intros A R Zs Zr pack out body zbody Hp Hb a. unfold ZipModel.algorithm. rewrite (accepted_size rs Hp).
    destruct (accepted rs) as [[]| |x| | |] eqn:Hacc; cbn [bind];
      try (exists [], (match accepted rs with Ok _ => Contract | Contract => Contract | Throw e => Throw e | UB => UB
                       | IllFormed => IllFormed | OutOfFuel => OutOfFuel end), a, (match accepted rs with Ok _ => Contract
                       | Contract => Contract | Throw e => Throw e | UB => UB
                       | IllFormed => IllFormed | OutOfFuel => OutOfFuel end);
           unfold algorithm, bindM at 1; rewrite Hacc; cbn; auto; fail).
    destruct (merge_sizes (map range_size rs)) as [N| |x| | |] eqn:HN.
    - apply (algorithm_sim_ok pack out body zbody Hb N Hp HN (loop_fuel rs) a Hacc).
    - destruct (size_ok []) as (t & Q & E). exists ([] ++ t), Contract, a, Contract.
      unfold algorithm. unfold bindM at 1. rewrite Hacc. cbn [lift]. unfold bindM at 1. rewrite E, HN.
      rewrite (silent_alpha t [] (quiet_silent t Q)). cbn. auto.
    - destruct (size_ok []) as (t & Q & E). exists ([] ++ t), (Throw x), a, (Throw x).
      unfold algorithm. unfold bindM at 1. rewrite Hacc. cbn [lift]. unfold bindM at 1. rewrite E, HN.
      rewrite (silent_alpha t [] (quiet_silent t Q)). cbn. auto.
    - destruct (size_ok []) as (t & Q & E). exists ([] ++ t), UB, a, UB.
      unfold algorithm. unfold bindM at 1. rewrite Hacc. cbn [lift]. unfold bindM at 1. rewrite E, HN.
      rewrite (silent_alpha t [] (quiet_silent t Q)). cbn. auto.
    - destruct (size_ok []) as (t & Q & E). exists ([] ++ t), IllFormed, a, IllFormed.
      unfold algorithm. unfold bindM at 1. rewrite Hacc. cbn [lift]. unfold bindM at 1. rewrite E, HN.
      rewrite (silent_alpha t [] (quiet_silent t Q)). cbn. auto.
    - destruct (size_ok []) as (t & Q & E). exists ([] ++ t), OutOfFuel, a, OutOfFuel.
      unfold algorithm. unfold bindM at 1. rewrite Hacc. cbn [lift]. unfold bindM at 1. rewrite E, HN.
      rewrite (silent_alpha t [] (quiet_silent t Q)). cbn. auto.
  Qed.

  (** One call of the functor. *)
  Lemma call_sim : forall B (conv : Z -> B) (f : St -> list ref -> St * outcome B), acts_as alpha env conv f ->
    forall h args, exists t,
      moveless t /\ emit env (EFunc args) h = (h ++ t, env h (EFunc args)) /\
      f (alpha h) (arg_refs args) = (alpha (h ++ t), do z <- env h (EFunc args); Ok (conv z)).
  Proof.
    intros B conv f Hf h args. exists [(EFunc args, env h (EFunc args))].
    split; [repeat constructor|]. split; [reflexivity | apply Hf].
  Qed.
End Sim.
