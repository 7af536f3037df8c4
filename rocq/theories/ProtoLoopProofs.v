(** Proofs about ProtoModel.v: the loops. *)

From Coq Require Import ZArith Arith Bool Lia List.
From Verif Require Import Base ZipModel ZipLoopProofs ProtoModel ProtoSpec ProtoProofs.
Import ListNotations.

Local Open Scope Z_scope.

Ltac foreign_ev := intros s z; simpl; match goal with |- context [Nat.eqb ?a ?b] => destruct (Nat.eqb_spec a b) end; [congruence | reflexivity].

Section Loops.
  Variable env : history -> event -> outcome Z.
  Variable ord : history -> nat -> list nat.
  Variable st : style.
  Variable red : bool.
  Variable k : nat.
  Variable rs : list rng.
  Variable r : rng.
  Hypothesis Hord : evaluation_order ord.
  Hypothesis Hr : nth_error rs k = Some r.

  Notation mv := (moves st red k).

  Definition fits : Prop :=
    match r_mode r with
    | MPair => st = Guarded \/ st = Counted
    | MIter => st = Counted
    | MIndex => st = Direct
    | MRangeIndex => st = Counter
    end.
  Hypothesis Hfit : fits.

  Lemma setup_live : forall l, setup st l <> Stopped.
  Proof. intros [|e l]; [apply start_live | discriminate]. Qed.

  (** The setup operations. *)
  Lemma moves_setup : forall (l1 l2 : list event),
    Forall (fun e => event_eqb e e = true /\ forall s z, next st red k s e z =
              match s with Setup (e' :: l) => if event_eqb e' e then Some (setup st l) else None | _ => None end) l1 ->
    mv (emit_all env l1) (setup st (l1 ++ l2)) (fun _ s => s = setup st l2).
  Proof.
    induction l1 as [|e l1 IH]; intros l2 H; simpl.
    - apply moves_ret; auto. apply setup_live.
    - inversion H as [|? ? [E1 E2] H']; subst. eapply moves_bind.
      + apply moves_emit with (n := fun _ => setup st (l1 ++ l2)); [discriminate|].
        intros z. rewrite E2, E1. reflexivity.
      + intros z s' _ ->. auto.
  Qed.

  Lemma sized : forall l, mv (merged_size env ord rs) (setup st (sizing k r ++ l)) (fun _ s => s = setup st l).
  Proof.
    intros l. unfold merged_size.
    assert (G : mv (unordered env ord (mapi size_act 0 rs)) (setup st (sizing k r ++ l))
              (fun ds s' => exists x : dim, nth_error ds k = Some x /\ s' = setup st l)).
    { eapply moves_unordered with (r := r) (Q := fun (_ : dim) s' => s' = setup st l); auto.
      - apply setup_live.
      - intros j r' Hj. unfold size_act. destruct (r_mode r'), (r_known r'); simpl; auto; foreign_ev.
      - assert (E : forall d : dim, sizing k r = [] ->
                mv (perform env (APure d)) (setup st (sizing k r ++ l)) (fun (_ : dim) s' => s' = setup st l)).
        { intros d ->. apply moves_ret; auto. apply setup_live. }
        assert (E' : sizing k r = [ESize k] ->
                mv (perform env (AEmit (ESize k) SDyn)) (setup st (sizing k r ++ l)) (fun (_ : dim) s' => s' = setup st l)).
        { intros ->. simpl. eapply moves_bind.
          - apply moves_emit with (n := fun _ => setup st l); [discriminate|].
            intros z. simpl. now rewrite !Nat.eqb_refl.
          - intros z s' Hs' ->. now apply moves_ret. }
        unfold size_act. unfold sizing in *. destruct (r_mode r), (r_known r); auto. }
    eapply moves_bind.
    - apply moves_noexcept. exact G.
    - intros ds s' Hs' (x & _ & ->). apply moves_lift; auto.
  Qed.

  Lemma begun : forall l, mv (make_begin env rs) (setup st (opening k r ++ l)) (fun _ s => s = setup st l).
  Proof.
    intros l. unfold make_begin. apply moves_mapi with (r := r) (P := fun s => s = setup st l); auto.
    - apply setup_live.
    - intros j r' Hj. unfold begin_events.
      destruct (r_mode r'); repeat (apply Forall_cons; [foreign_ev|]); apply Forall_nil.
    - change (begin_events k r) with (opening k r). apply moves_setup. unfold opening.
      destruct (r_mode r); repeat (apply Forall_cons; [split; [simpl; apply Nat.eqb_refl |
        intros s z; simpl; rewrite Nat.eqb_refl; destruct s; auto] |]); apply Forall_nil.
  Qed.

  Lemma ended : forall l, mv (make_end env rs) (setup st (end_events k r ++ l)) (fun _ s => s = setup st l).
  Proof.
    intros l. unfold make_end. apply moves_mapi with (r := r) (P := fun s => s = setup st l); auto.
    - apply setup_live.
    - intros j r' Hj. unfold end_events.
      destruct (r_mode r'); repeat (apply Forall_cons; [foreign_ev|]); apply Forall_nil.
    - apply moves_setup. unfold end_events.
      destruct (r_mode r); repeat (apply Forall_cons; [split; [simpl; apply Nat.eqb_refl |
        intros s z; simpl; rewrite Nat.eqb_refl; destruct s; auto] |]); apply Forall_nil.
  Qed.

  (** The rounds. *)
  Definition before (i : Z) : phase :=
    match st with Guarded => Fresh | Counted => Valid | Direct | Counter => Ready i end.
  Definition ready (i : Z) : phase :=
    match st with Guarded | Counted => Valid | Direct | Counter => Ready i end.
  Definition done_at (i : Z) : phase :=
    match st with Guarded => AtEnd | Counted => Valid | Direct | Counter => Ready i end.
  Definition used (i : Z) : phase :=
    match st with Guarded | Counted => Used | Direct | Counter => Ready (i + 1) end.
  Definition fetched (i : Z) (a : arg) (s : phase) : Prop :=
    match st with
    | Guarded | Counted => exists z, s = Read z /\ a = ADeref z
    | Direct => s = Ready i /\ a = AElem k i
    | Counter => s = Ready i /\ a = AIdx i
    end.

  Lemma ready_live : forall i, ready i <> Stopped.
  Proof. intros i. unfold ready. destruct st; discriminate. Qed.
  Lemma before_live : forall i, before i <> Stopped.
  Proof. intros i. unfold before. destruct st; discriminate. Qed.

  Lemma deref_act_foreign : forall i j r', j <> k -> act_foreign st red k (deref_act i j r').
  Proof. intros i j r' Hj. unfold deref_act. destruct (r_mode r'); simpl; auto; foreign_ev. Qed.

  Lemma deref_own : forall i, mv (perform env (deref_act i k r)) (ready i) (fetched i).
  Proof.
    intros i. unfold deref_act, ready, fetched. unfold fits in Hfit.
    destruct (r_mode r); simpl.
    1,2: eapply moves_bind with (P := fun z s => s = Read z);
      [ destruct st; destruct Hfit as [E|E] || rename Hfit into E; try discriminate E; try discriminate (E);
        (apply moves_emit with (n := fun z => Read z); [discriminate | intros z; simpl; now rewrite Nat.eqb_refl])
      | intros z s' Hs' ->; apply moves_ret; [discriminate |];
        destruct st; try discriminate Hfit; try (destruct Hfit; discriminate); exists z; auto ].
    - rewrite Hfit. apply moves_ret; [discriminate | auto].
    - rewrite Hfit. apply moves_ret; [discriminate | auto].
  Qed.

  Definition got (i : Z) (args : list arg) (s : phase) : Prop := exists a, nth_error args k = Some a /\ fetched i a s.

  Lemma got_unordered : forall i, mv (unordered env ord (mapi (deref_act i) 0 rs)) (ready i) (got i).
  Proof.
    intros i. eapply moves_unordered; eauto using ready_live, deref_act_foreign, deref_own.
  Qed.
  Lemma got_ordered : forall i, mv (ordered env (mapi (deref_act i) 0 rs)) (ready i) (got i).
  Proof.
    intros i. eapply moves_ordered; eauto using ready_live, deref_act_foreign, deref_own.
  Qed.

  Lemma incremented : forall i,
    mv (emit_all env (concat (mapi inc_events 0 rs))) (used i) (fun _ s => s = before (i + 1)).
  Proof.
    intros i. apply moves_mapi with (r := r) (P := fun s => s = before (i + 1)); auto.
    - unfold used. destruct st; discriminate.
    - intros j r' Hj. unfold inc_events.
      destruct (r_mode r'); repeat (apply Forall_cons; [foreign_ev|]); apply Forall_nil.
    - unfold inc_events, used, before. unfold fits in Hfit. destruct (r_mode r).
      1,2: simpl; eapply moves_bind with (P := fun _ s => s = start st);
        [ destruct st; try discriminate Hfit; try (destruct Hfit; discriminate);
          (apply moves_emit with (n := fun _ => start _); [discriminate | intros z; simpl; now rewrite Nat.eqb_refl])
        | intros z s' Hs' ->; apply moves_ret; [apply start_live|];
          destruct st; try discriminate Hfit; try (destruct Hfit; discriminate); reflexivity ].
      + rewrite Hfit. apply moves_ret; [discriminate | auto].
      + rewrite Hfit. apply moves_ret; [discriminate | auto].
  Qed.

  (** The comparison with the sentinel. *)
  Lemma checked_foreign : forall isEnd l j s, s <> Stopped -> (k < j)%nat ->
    mv (check_end_from env isEnd j l) s (fun _ s' => s' = s).
  Proof.
    intros isEnd. induction l as [|r0 l IH]; intros j s Hs Hj; simpl.
    - now apply moves_ret.
    - eapply moves_bind with (P := fun _ s' => s' = s).
      + destruct (r_mode r0); try (now apply moves_ret).
        eapply moves_bind with (P := fun _ s' => s' = s).
        * apply moves_emit with (n := fun _ => s); auto. intros z. simpl.
          destruct (Nat.eqb_spec j k); [lia | reflexivity].
        * intros z s' Hs' ->. apply moves_lift; auto.
      + intros u s' Hs' ->. apply IH; auto.
  Qed.

  Lemma checked : forall isEnd l j i, st = style_of r -> (j <= k)%nat -> nth_error l (k - j) = Some r ->
    mv (check_end_from env isEnd j l) (before i) (fun _ s' => s' = if isEnd then done_at i else ready i).
  Proof.
    intros isEnd. induction l as [|r0 l IH]; intros j i Hst Hj Hn.
    - destruct (k - j)%nat; discriminate.
    - simpl. destruct (Nat.eq_dec j k) as [->|Hne].
      + rewrite Nat.sub_diag in Hn. inversion Hn; subst r0.
        eapply moves_bind with (P := fun _ s' => s' = if isEnd then done_at i else ready i).
        * unfold style_of in Hst. unfold before, done_at, ready. rewrite Hst. destruct (r_mode r).
          -- eapply moves_bind.
             ++ apply moves_emit with (n := fun z => if z =? 0 then Valid else AtEnd); [discriminate|].
                intros z. simpl. now rewrite Nat.eqb_refl.
             ++ intros z s' Hs' ->. apply moves_lift; auto. intros u Hu. unfold truth, expects in Hu.
                destruct (z =? 0), isEnd; simpl in *; auto; discriminate.
          -- apply moves_ret; [discriminate | now destruct isEnd].
          -- apply moves_ret; [discriminate | now destruct isEnd].
          -- apply moves_ret; [discriminate | now destruct isEnd].
        * intros u s' Hs' E. subst s'. eapply moves_weaken; [apply checked_foreign; auto|].
          intros u' s' E. exact E.
      + replace (k - j)%nat with (S (k - S j)) in Hn by lia.
        eapply moves_bind with (P := fun _ s' => s' = before i).
        * destruct (r_mode r0); try (apply moves_ret; auto using before_live).
          eapply moves_bind with (P := fun _ s' => s' = before i).
          -- apply moves_emit with (n := fun _ => before i); auto using before_live. intros z. simpl.
             destruct (Nat.eqb_spec j k); [lia | reflexivity].
          -- intros z s' Hs' ->. apply moves_lift; auto.
        * intros u s' Hs' ->. apply IH; auto. lia.
  Qed.

  Lemma at_end : forall N i, st = style_of r ->
    mv (at_sentinel env ord N rs i) (before i) (fun e s' => s' = if e then done_at i else ready i).
  Proof.
    intros N i Hst.
    assert (K : forall n, mv (bindM (check_end_from env (i =? n) 0 rs) (fun _ => ret (i =? n))) (before i)
              (fun e s' => s' = if e then done_at i else ready i)).
    { intros n. eapply moves_bind.
      - apply checked with (i := i); auto; [lia|]. now rewrite Nat.sub_0_r.
      - intros u s' Hs' E. apply moves_ret; auto. }
    unfold at_sentinel. destruct N as [n|n]; [|apply K].
    destruct (n =? unknown_size); [|apply K].
    eapply moves_bind with
      (P := fun (os : list (option bool)) s' => exists o, nth_error os k = Some o /\
              match o with Some e => s' = if e then done_at i else ready i | None => s' = before i /\ before i = done_at i /\ before i = ready i end).
    - eapply moves_unordered with (r := r)
        (Q := fun (o : option bool) s' => match o with Some e => s' = if e then done_at i else ready i
                                          | None => s' = before i /\ before i = done_at i /\ before i = ready i end); auto.
      + apply before_live.
      + intros j r' Hj. unfold is_end_act. destruct (r_mode r'); simpl; auto; foreign_ev.
      + unfold is_end_act. unfold style_of in Hst. unfold before, done_at, ready. rewrite Hst.
        destruct (r_mode r); simpl.
        * eapply moves_bind.
          -- apply moves_emit with (n := fun z => if z =? 0 then Valid else AtEnd); [discriminate|].
             intros z. simpl. now rewrite Nat.eqb_refl.
          -- intros z s' Hs' ->. apply moves_ret; auto. unfold truth. now destruct (z =? 0).
        * apply moves_ret; [discriminate | auto].
        * apply moves_ret; [discriminate | auto].
        * apply moves_ret; [discriminate | auto].
    - intros os s' Hs' (o & Ho & Hc).
      eapply moves_bind with (P := fun x s'' => s'' = s' /\ is_end os = Ok x).
      + apply moves_lift; auto.
      + intros x s'' Hs'' [-> Hx]. destruct x as [e|]; [|apply moves_lift; auto; discriminate].
        apply moves_ret; auto. destruct o as [e'|].
        * assert (A : Some e = Some e').
          { eapply is_end_agree with (l := os); [apply Nat.lt_succ_diag_r | exact Hx | eapply nth_error_In; eauto]. }
          injection A as A'. rewrite A'. exact Hc.
        * destruct Hc as (C0 & C1 & C2). destruct e; congruence.
  Qed.

  (** The whole loop. *)
  Lemma looped : forall A R (stop : Z -> M bool) (get : Z -> M (list arg)) (body : A -> list arg -> M (A + R)),
    (forall i, mv (stop i) (before i) (fun e s' => s' = if e then done_at i else ready i)) ->
    (forall i, mv (get i) (ready i) (got i)) ->
    (forall a i args s, s <> Stopped -> got i args s -> mv (body a args) s (fun _ s' => s' = used i)) ->
    forall fuel i a,
    mv (loop env rs stop get body fuel i a) (before i)
       (fun x s' => match x with inl _ => exists i', s' = done_at i' | inr _ => exists i', s' = used i' end).
  Proof.
    intros A R stop get body Hstop Hget Hbody. induction fuel as [|fuel IH]; intros i a; simpl.
    - apply moves_lift; [apply before_live | discriminate].
    - eapply moves_bind; [apply Hstop|]. intros e s' Hs' E. simpl in E. destruct e; subst s'.
      + apply moves_ret; eauto.
      + eapply moves_bind; [apply Hget|]. intros args s' Hs2 Hg.
        eapply moves_bind; [eapply Hbody; eauto|]. intros x s2 Hs3 E. simpl in E. subst s2. destruct x as [a'|x].
        * eapply moves_bind; [apply incremented|]. intros u s3 Hs4 E. simpl in E. subst s3. apply IH.
        * apply moves_ret; eauto.
  Qed.
End Loops.

Lemma has_arg_nth : forall args k a, nth_error args k = Some a -> has_arg args k a = true.
Proof.
  intros args k a H. unfold has_arg. rewrite H. destruct a; simpl; rewrite ?Nat.eqb_refl, ?Z.eqb_refl; auto.
Qed.

(** One call of the functor per round. *)
Lemma call_moves : forall env st k i args s, s <> Stopped -> got st k i args s ->
  moves st false k (emit env (EFunc args)) s (fun _ s' => s' = used st i).
Proof.
  intros env st k i args s Hs (a & Ha & Hf). apply moves_emit with (n := fun _ => used st i); auto.
  intros z. unfold fetched in Hf. unfold used. simpl. apply has_arg_nth in Ha.
  destruct st.
  - destruct Hf as (x & -> & ->). now rewrite Ha.
  - destruct Hf as (x & -> & ->). now rewrite Ha.
  - destruct Hf as (-> & ->). now rewrite Ha.
  - destruct Hf as (-> & ->). now rewrite Ha.
Qed.

Lemma reduce_moves : forall env st k i acc args s, s <> Stopped -> got st k i args s ->
  moves st true k (bindM (emit env (EFunc args))
                         (fun x => bindM (emit env (EReduce acc x)) (fun z => ret (inl (B := Empty_set) z))))
        s (fun _ s' => s' = used st i).
Proof.
  intros env st k i acc args s Hs (a & Ha & Hf). apply has_arg_nth in Ha.
  eapply moves_bind with (P := fun y s' => s' = match st with Guarded | Counted => Called y | _ => Pending (i + 1) y end).
  - apply moves_emit with (n := fun y => match st with Guarded | Counted => Called y | _ => Pending (i + 1) y end); auto.
    intros z. unfold fetched in Hf. simpl. destruct st.
    + destruct Hf as (x & -> & ->). now rewrite Ha.
    + destruct Hf as (x & -> & ->). now rewrite Ha.
    + destruct Hf as (-> & ->). now rewrite Ha.
    + destruct Hf as (-> & ->). now rewrite Ha.
  - intros z s' Hs' ->. eapply moves_bind with (P := fun _ s' => s' = used st i).
    + apply moves_emit with (n := fun _ => used st i); auto. intros z'. unfold used. simpl.
      destruct st; now rewrite Z.eqb_refl.
    + intros z' s' Hs2 ->. apply moves_ret; auto.
Qed.

Lemma fits_style : forall r, fits (style_of r) r.
Proof. intros r. unfold fits, style_of. destruct (r_mode r); auto. Qed.
Lemma fits_zip_style : forall r, fits (zip_style_of r) r.
Proof. intros r. unfold fits, zip_style_of. destruct (r_mode r); auto. Qed.

Lemma done_at_exhausted : forall st i, exhausted st (done_at st i).
Proof. intros [] i; simpl; eauto. Qed.
Lemma used_left_early : forall st i, left_early st (used st i).
Proof. intros [] i; simpl; eauto. Qed.
Lemma start_before : forall st, setup st [] = before st 0.
Proof. intros []; reflexivity. Qed.

(** Which phase the algorithms end in. *)
Lemma algorithm_moves : forall env ord A R fuel (body : A -> list arg -> M (A + R)) red k rs r a,
  evaluation_order ord -> nth_error rs k = Some r ->
  (forall a i args s, s <> Stopped -> got (style_of r) k i args s ->
     moves (style_of r) red k (body a args) s (fun _ s' => s' = used (style_of r) i)) ->
  moves (style_of r) red k (algorithm env ord fuel body a rs) (setup (style_of r) (sizing k r ++ opening k r))
        (fun x s' => match x with inl _ => exhausted (style_of r) s' | inr _ => left_early (style_of r) s' end).
Proof.
  intros env ord A R fuel body red k rs r a Ho Hr Hb. unfold algorithm.
  eapply moves_bind with (P := fun _ s' => s' = setup (style_of r) (sizing k r ++ opening k r)).
  { apply moves_lift; auto. apply setup_live. }
  intros u s' Hs' ->. eapply moves_bind; [apply sized; auto|].
  intros N s' Hs2 ->. eapply moves_bind.
  { rewrite <- (app_nil_r (opening k r)). apply begun with (r := r); auto. }
  intros u' s' Hs3 ->. rewrite start_before. eapply moves_weaken.
  - eapply looped with (r := r); eauto using fits_style.
    + intros i. apply at_end with (r := r); auto using fits_style.
    + intros i. apply got_unordered with (r := r); auto using fits_style.
  - intros x s' H. simpl in H. destruct x; destruct H as [i' ->]; [apply done_at_exhausted | apply used_left_early].
Qed.

Lemma zip_sentinel_moves : forall env ord fuel k rs r,
  evaluation_order ord -> nth_error rs k = Some r ->
  moves (style_of r) false k (zip_sentinel_for env ord fuel rs) (setup (style_of r) (sizing k r ++ opening k r))
        (fun _ s' => exhausted (style_of r) s').
Proof.
  intros env ord fuel k rs r Ho Hr. unfold zip_sentinel_for.
  eapply moves_bind with (P := fun _ s' => s' = setup (style_of r) (sizing k r ++ opening k r)).
  { apply moves_lift; auto. apply setup_live. }
  intros u s' Hs' ->. eapply moves_bind; [apply sized; auto|].
  intros N s' Hs2 ->. eapply moves_bind.
  { rewrite <- (app_nil_r (opening k r)). apply begun with (r := r); auto. }
  intros u' s' Hs3 ->. rewrite start_before. eapply moves_bind.
  - eapply looped with (r := r) (R := Empty_set); eauto using fits_style.
    + intros i. apply at_end with (r := r); auto using fits_style.
    + intros i. apply got_ordered with (r := r); auto using fits_style.
    + intros a i args s Hs Hg. eapply moves_bind; [apply call_moves; eauto|].
      intros z s' Hs4 E. simpl in E. apply moves_ret; auto.
  - intros x s' Hs4 H. simpl in H. apply moves_ret; auto. destruct x as [x|[]]. destruct H as [i ->].
    apply done_at_exhausted.
Qed.

Lemma zip_moves : forall env ord fuel k rs r,
  evaluation_order ord -> nth_error rs k = Some r ->
  moves (zip_style_of r) false k (zip_for env ord fuel rs) (setup (zip_style_of r) (sizing k r ++ zip_opening k r))
        (fun _ s' => exhausted (zip_style_of r) s').
Proof.
  intros env ord fuel k rs r Ho Hr. unfold zip_for.
  eapply moves_bind with (P := fun _ s' => s' = setup (zip_style_of r) (sizing k r ++ zip_opening k r)).
  { apply moves_lift; auto. apply setup_live. }
  intros u s' Hs' ->. eapply moves_bind; [apply sized; auto|].
  intros N s' Hs2 ->.
  replace (zip_opening k r) with (opening k r ++ end_events k r)
    by (unfold zip_opening, opening, end_events; destruct (r_mode r); reflexivity).
  eapply moves_bind; [apply begun with (r := r); auto|].
  intros u' s' Hs3 ->. eapply moves_bind.
  { rewrite <- (app_nil_r (end_events k r)). apply ended with (r := r); auto. }
  intros u2 s' Hs4 ->. rewrite start_before. eapply moves_bind.
  - eapply looped with (r := r) (R := Empty_set); eauto using fits_zip_style.
    + intros i. apply moves_ret.
      * apply before_live.
      * unfold before, done_at, ready, zip_style_of. destruct (r_mode r), (i =? dim_value N); reflexivity.
    + intros i. apply got_ordered with (r := r); auto using fits_zip_style.
    + intros a i args s Hs Hg. eapply moves_bind; [apply call_moves; eauto|].
      intros z s' Hs5 E. simpl in E. apply moves_ret; auto.
  - intros x s' Hs5 H. simpl in H. apply moves_ret; auto. destruct x as [x|[]]. destruct H as [i ->].
    apply done_at_exhausted.
Qed.

(** From the beginning: the whole history. *)
Lemma moves_start : forall A st red k (m : M A) s (Q : A -> phase -> Prop), moves st red k m s Q ->
  forall h o, m [] = (h, o) ->
  exists s', follows st red k s h = Some s' /\ forall a, o = Ok a -> Q a s'.
Proof.
  intros A st red k m s Q Hm h o H. destruct (Hm [] h o H) as (t & s' & E & F & R). simpl in E. subst t.
  exists s'. split; auto. intros a ->. tauto.
Qed.
