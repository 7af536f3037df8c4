(** Proofs about ProtoModel.v: numbers of operations, results, and the functions on one range. *)

From Coq Require Import ZArith Arith Bool Lia List.
From Verif Require Import Base ZipModel ZipSpec ZipProofs ProtoModel ProtoSpec ProtoProofs ProtoLoopProofs ProtoRunProofs.
Import ListNotations.

Local Open Scope Z_scope.

Lemma count_app : forall f a b, count f (a ++ b) = (count f a + count f b)%nat.
Proof. intros. unfold count. now rewrite filter_app, app_length. Qed.
Lemma count_one : forall f e x, count f [(e, x)] = if f e then 1%nat else 0%nat.
Proof. intros. unfold count. simpl. destruct (f e); reflexivity. Qed.

(** * Numbers that follow from the protocol *)

(** Calls, dereferencings and increments of the [k]-th range in a phase, before a failure. *)
Definition balance (st : style) (s : phase) (calls derefs incs : nat) : Prop :=
  match st with
  | Guarded | Counted =>
      match s with
      | Setup _ => calls = O /\ derefs = O /\ incs = O
      | Fresh | Valid | AtEnd => calls = derefs /\ derefs = incs
      | Read _ => derefs = S calls /\ calls = incs
      | Called _ | Used => calls = derefs /\ derefs = S incs
      | _ => False
      end
  | Direct | Counter =>
      match s with
      | Setup _ => calls = O /\ derefs = O /\ incs = O
      | Ready i | Pending i _ => Z.of_nat calls = i /\ derefs = O /\ incs = O
      | _ => False
      end
  end.

Lemma balance_setup : forall st l, balance st (setup st l) 0 0 0.
Proof. intros st [|e l]; destruct st; simpl; auto. Qed.

Lemma balance_next : forall st red k s e z s' c d i, balance st s c d i -> next st red k s e z = Some s' ->
  balance st s' (c + if is_call e then 1 else 0) (d + if is_deref k e then 1 else 0) (i + if is_inc k e then 1 else 0).
Proof.
  intros st red k s e z s' c d i B H.
  assert (S0 : forall l, balance st s c d i -> (exists e0, s = Setup (e0 :: l)) -> balance st (setup st l) (c + 0) (d + 0) (i + 0)).
  { intros l B0 (e0 & ->). assert (E : c = O /\ d = O /\ i = O) by (destruct st; simpl in B0; auto).
    destruct E as (-> & -> & ->). apply balance_setup. }
  destruct e as [j|j|j|j|j|j|j|args|acc x| |j]; simpl in H |- *; try discriminate;
    try (destruct (Nat.eqb j k);
         [| injection H as <-; rewrite !Nat.add_0_r; exact B]).
  1-4: destruct s as [[|e' l]| | | | | | | | |]; try discriminate; destruct (event_eqb e' _); try discriminate;
       injection H as <-; apply S0; eauto.
  - destruct s; try discriminate; destruct st; try discriminate. injection H as <-. simpl in B.
    destruct (z =? 0); simpl; lia.
  - destruct s; try discriminate; injection H as <-; destruct st; simpl in *; try contradiction; lia.
  - destruct s; try discriminate; injection H as <-; destruct st; simpl in *; try contradiction; lia.
  - destruct s; try discriminate.
    + destruct (has_arg args k (ADeref x)); try discriminate. injection H as <-. destruct st, red; simpl in *; try contradiction; lia.
    + destruct (has_arg args k _); try discriminate. injection H as <-. destruct st, red; simpl in *; try contradiction; lia.
  - destruct s; try discriminate; destruct (x =? y); try discriminate; injection H as <-;
      destruct st; simpl in *; try contradiction; lia.
Qed.

Lemma balance_follows : forall st red k h s s' c d i, balance st s c d i -> follows st red k s h = Some s' -> s' <> Stopped ->
  balance st s' (c + count is_call h) (d + count (is_deref k) h) (i + count (is_inc k) h).
Proof.
  intros st red k. induction h as [|[e x] h IH]; intros s s' c d i B H N; simpl in H.
  - injection H as <-. cbn. now rewrite !Nat.add_0_r.
  - destruct x as [z| | | | |].
    + destruct (next st red k s e z) as [s1|] eqn:X; [|discriminate].
      pose proof (balance_next _ _ _ _ _ _ _ _ _ _ B X) as B1. specialize (IH _ _ _ _ _ B1 H N).
      change ((e, Ok z) :: h) with ([(e, Ok z)] ++ h). rewrite !count_app, !count_one, !Nat.add_assoc. exact IH.
    + destruct (next st red k s e 0); [|discriminate]. destruct h; [injection H as <-; congruence | discriminate].
    + destruct (next st red k s e 0); [|discriminate]. destruct h; [injection H as <-; congruence | discriminate].
    + destruct (next st red k s e 0); [|discriminate]. destruct h; [injection H as <-; congruence | discriminate].
    + destruct (next st red k s e 0); [|discriminate]. destruct h; [injection H as <-; congruence | discriminate].
    + destruct (next st red k s e 0); [|discriminate]. destruct h; [injection H as <-; congruence | discriminate].
Qed.

Lemma exhausted_balance : forall st red k l h s, follows st red k (setup st l) h = Some s -> exhausted st s ->
  match st with
  | Guarded | Counted => count is_call h = count (is_deref k) h /\ count (is_deref k) h = count (is_inc k) h
  | _ => count (is_deref k) h = O /\ count (is_inc k) h = O
  end.
Proof.
  intros st red k l h s H E.
  assert (N : s <> Stopped) by (unfold exhausted in E; destruct st; [subst; discriminate ..|destruct E; subst; discriminate|destruct E; subst; discriminate]).
  pose proof (balance_follows _ _ _ _ _ _ _ _ _ (balance_setup st l) H N) as B. simpl in B.
  destruct st; simpl in E; [| |destruct E as [j E]|destruct E as [j E]]; subst s; simpl in B; tauto.
Qed.
Lemma early_balance : forall st red k l h s, follows st red k (setup st l) h = Some s -> left_early st s ->
  match st with
  | Guarded | Counted => count is_call h = count (is_deref k) h /\ count (is_deref k) h = S (count (is_inc k) h)
  | _ => count (is_deref k) h = O /\ count (is_inc k) h = O
  end.
Proof.
  intros st red k l h s H E.
  assert (N : s <> Stopped) by (unfold left_early in E; destruct st; [subst; discriminate ..|destruct E; subst; discriminate|destruct E; subst; discriminate]).
  pose proof (balance_follows _ _ _ _ _ _ _ _ _ (balance_setup st l) H N) as B. simpl in B.
  destruct st; simpl in E; [| |destruct E as [j E]|destruct E as [j E]]; subst s; simpl in B; tauto.
Qed.

(** * Sizes *)

Definition known (N : dim) (n : Z) : Prop := N = SDyn n \/ (N = SStatic n /\ n <> -1).

Lemma merged_sizes_known : forall ds N, (forall n, In (SDyn n) ds -> 0 <= n) -> merge_sizes ds = Ok N ->
  forall n, known_size ds n -> known N n.
Proof.
  intros ds N Hp HN n Hn. destruct (merge_sizes_cases ds) as [(a & b & Ha & Hb & Hab)|[Hs [(a & b & Ha & Hb & Hab)|[H|H]]]].
  - rewrite (merge_sizes_static_conflict ds Hp a b) in HN; auto. discriminate.
  - rewrite (merge_sizes_conflict ds Hp a b) in HN; auto. discriminate.
  - destruct H as (m & Hm & Hall & Hc). destruct (merge_sizes_agree ds Hp m Hm Hall) as [A1 A2].
    rewrite (Hall n Hn). destruct Hc as [Hc|Hc].
    + rewrite (A1 Hc) in HN. injection HN as <-. right. split; auto. apply Hc.
    + rewrite (A2 Hc) in HN. injection HN as <-. now left.
  - destruct (H n Hn).
Qed.

Section Track.
  Variable env : history -> event -> outcome Z.
  Variable ord : history -> nat -> list nat.

  (** What a sequence of expressions in the order [p] does. *)
  Lemma perform_in_facts : forall A (l : list (act A)) p acc h h' o, NoDup p ->
    perform_in env p l acc h = (h', o) ->
    exists t, h' = h ++ t /\
      (forall e x, In (e, x) t -> exists j f, In j p /\ nth_error l j = Some (AEmit e f) /\ exists hh, env hh e = x) /\
      (forall k, (forall j f, nth_error l j = Some (AEmit (EDeref k) f) -> j = k) -> (count (is_deref k) t <= 1)%nat /\
         (~ In k p -> count (is_deref k) t = O)) /\
      forall acc', o = Ok acc' ->
        (forall j x, In (j, x) acc' -> In (j, x) acc \/
           (In j p /\ (nth_error l j = Some (APure x) \/
             exists e f z hh, nth_error l j = Some (AEmit e f) /\ x = f z /\ env hh e = Ok z /\ In (e, Ok z) t))) /\
        (forall e z, In (e, Ok z) t -> exists j f, In j p /\ nth_error l j = Some (AEmit e f) /\ In (j, f z) acc') /\
        (forall q, In q acc -> In q acc').
  Proof.
    intros A l. induction p as [|j p IH]; intros acc h h' o ND H; simpl in H.
    - injection H as <- <-. exists []. rewrite app_nil_r. split; auto. split; [simpl; tauto|]. split.
      + intros k _. cbn. split; auto.
      + intros acc' E. injection E as <-. split; [auto|]. split; [simpl; tauto | auto].
    - inversion ND as [|? ? Hj ND']; subst. destruct (nth_error l j) as [a|] eqn:X.
      + destruct a as [x|e f].
        * unfold bindM in H. simpl in H. destruct (IH _ _ _ _ ND' H) as (t & -> & T1 & T2 & T3). exists t.
          split; auto. split; [intros e y Hy; destruct (T1 e y Hy) as (j' & f & J1 & J2); exists j', f; split; auto; now right|].
          split; [intros k Hk; destruct (T2 k Hk) as [C1 C2]; split; auto; intros N; apply C2; intro Hin; apply N; now right|].
          intros acc' E. destruct (T3 acc' E) as (U1 & U2 & U3). split; [|split].
          -- intros j' y Hy. destruct (U1 j' y Hy) as [[Hq|Hq]|(Hq1 & Hq2)].
             ++ injection Hq as <- <-. right. split; [now left|]. now left.
             ++ now left.
             ++ right. split; [now right | auto].
          -- intros e z Hz. destruct (U2 e z Hz) as (j' & f & J1 & J2). exists j', f. split; auto. now right.
          -- intros q Hq. apply U3. now right.
        * unfold perform in H. unfold bindM at 1 2 in H. unfold emit in H. destruct (env h e) as [z| |er| | |] eqn:Y.
          { cbn [ret] in H. destruct (IH _ _ _ _ ND' H) as (t & -> & T1 & T2 & T3). exists ((e, Ok z) :: t).
            split; [now rewrite <- app_assoc|]. split.
            { intros e' y [Hy|Hy].
              - injection Hy as <- <-. exists j, f. split; [now left|]. split; [auto | now exists h].
              - destruct (T1 e' y Hy) as (j' & f' & J1 & J2). exists j', f'. split; auto. now right. }
            split.
            { intros k Hk. destruct (T2 k Hk) as [C1 C2]. change ((e, Ok z) :: t) with ([(e, Ok z)] ++ t).
              rewrite count_app, count_one. destruct (is_deref k e) eqn:D.
              - destruct e; try discriminate. simpl in D. apply Nat.eqb_eq in D. subst k0.
                assert (j = k) by (eapply Hk; eauto). subst j. rewrite (C2 Hj). split; [lia|]. intros N. destruct N. now left.
              - split; [lia|]. intros N. simpl. apply C2. intro Hin. apply N. now right. }
            intros acc' E. destruct (T3 acc' E) as (U1 & U2 & U3). split; [|split].
            - intros j' y Hy. destruct (U1 j' y Hy) as [[Hq|Hq]|(Hq1 & Hq2)].
              + injection Hq as <- <-. right. split; [now left|]. right. exists e, f, z, h. repeat split; auto. now left.
              + now left.
              + right. split; [now right|]. destruct Hq2 as [Hq2|(e' & f' & z' & hh & B1 & B2 & B3 & B4)]; [now left|].
                right. exists e', f', z', hh. repeat split; auto. now right.
            - intros e' z' [Hz|Hz].
              + injection Hz as <- <-. exists j, f. split; [now left|]. split; auto. apply U3. now left.
              + destruct (U2 e' z' Hz) as (j' & f' & J1 & J2). exists j', f'. split; auto. now right.
            - intros q Hq. apply U3. now right. }
          all: match type of Y with _ = ?xx => injection H as <- <-; exists [(e, xx)] end; split; [reflexivity|]; (split;
            [intros e' y [Hy|[]]; injection Hy as <- <-; exists j, f; split; [now left|]; split; [auto | now exists h]|]); (split;
            [intros k Hk; rewrite count_one; destruct (is_deref k e) eqn:D;
              [destruct e; try discriminate; simpl in D; apply Nat.eqb_eq in D; subst k0;
               assert (j = k) by (eapply Hk; eauto); subst j; split; [lia|]; intros N; destruct N; now left
              |split; [lia | reflexivity]]
            |intros acc' E; discriminate]).
      + injection H as <- <-. exists []. rewrite app_nil_r. split; auto. split; [simpl; tauto|]. split.
        * intros k _. cbn. split; auto.
        * intros acc' E. discriminate.
  Qed.

  Lemma perform_in_keys : forall A (l : list (act A)) p acc h h' acc',
    perform_in env p l acc h = (h', Ok acc') -> map fst acc' = rev p ++ map fst acc.
  Proof.
    intros A l. induction p as [|j p IH]; intros acc h h' acc' H; simpl in H.
    - now injection H as <- <-.
    - destruct (nth_error l j) as [a|]; [|discriminate]. unfold bindM in H.
      destruct (perform env a h) as [h1 [x| | | | |]]; try discriminate. apply IH in H. rewrite H. simpl.
      now rewrite <- app_assoc.
  Qed.
  Lemma unique_key : forall A (acc : list (nat * A)) j x y, NoDup (map fst acc) -> In (j, x) acc -> In (j, y) acc -> x = y.
  Proof.
    intros A. induction acc as [|[i z] acc IH]; intros j x y ND H1 H2; [destruct H1|].
    inversion ND as [|? ? Hn ND']; subst. simpl in *.
    assert (K : forall w, In (j, w) acc -> In j (map fst acc)) by (intros w Hw; apply in_map with (f := fst) in Hw; exact Hw).
    destruct H1 as [H1|H1], H2 as [H2|H2].
    - congruence.
    - injection H1 as -> ->. destruct Hn. eauto.
    - injection H2 as -> ->. destruct Hn. eauto.
    - eapply IH; eauto.
  Qed.

  Hypothesis Hord : evaluation_order ord.

  Lemma lookup_in : forall A j (acc : list (nat * A)) q, find (fun q => Nat.eqb (fst q) j) acc = Some q -> In (j, snd q) acc.
  Proof.
    intros A j acc q H. apply find_some in H. destruct H as [H1 H2]. apply Nat.eqb_eq in H2. destruct q as [i x]. simpl in *. now subst.
  Qed.

  (** The sizes that have been asked for are those that are merged. *)
  Definition sizes (rs : list rng) (t : history) (ds : list dim) : Prop :=
    (forall k r, nth_error rs k = Some r -> r_mode r <> MRangeIndex -> r_known r = KStatic ->
       In (SStatic (r_len r)) ds) /\
    (forall k z, In (ESize k, Ok z) t -> In (SDyn z) ds) /\
    (forall n, In (SDyn n) ds -> exists hh k, env hh (ESize k) = Ok n).

  Lemma in_order_sizes : forall rs p h h' ds, NoDup p ->
    bindM (perform_in env p (mapi size_act 0 rs) []) (fun acc => lift (collect (length rs) acc)) h = (h', Ok ds) ->
    exists t, h' = h ++ t /\ sizes rs t ds.
  Proof.
    intros rs p h h' ds ND H. unfold bindM in H.
    destruct (perform_in env p (mapi size_act 0 rs) [] h) as [h1 o1] eqn:X.
    destruct (perform_in_facts _ _ _ _ _ _ _ ND X) as (t & -> & T1 & T2 & T3).
    destruct o1 as [acc| | | | |]; try discriminate. unfold lift in H. injection H as <- HC.
    destruct (T3 acc eq_refl) as (U1 & U2 & _). destruct (collect_nth _ _ _ _ HC) as [L N].
    assert (NDk : NoDup (map fst acc)).
    { apply perform_in_keys in X. rewrite X. simpl. rewrite app_nil_r. now apply NoDup_rev. }
    assert (U1' : forall j x, In (j, x) acc -> exists r, nth_error rs j = Some r /\
              (size_act j r = APure x \/ exists z hh, size_act j r = AEmit (ESize j) SDyn /\ x = SDyn z /\ env hh (ESize j) = Ok z)).
    { intros j x Hx. destruct (U1 j x Hx) as [[]|(Hj & Hc)]. rewrite nth_error_mapi in Hc.
      destruct (nth_error rs j) as [r|] eqn:R; [|simpl in Hc; destruct Hc as [Hc|(e & f & z & hh & Hc & _)]; discriminate].
      exists r. split; auto. simpl in Hc. destruct Hc as [Hc|(e & f & z & hh & Hc & -> & He & _)].
      - left. now injection Hc.
      - right. exists z, hh. injection Hc as Hc. unfold size_act in Hc |- *.
        destruct (r_mode r), (r_known r); try discriminate; injection Hc as <- <-; auto. }
    exists t. split; auto. split; [|split].
    - intros k r Hr Hm Hk. assert (Hl : (k < length rs)%nat) by (apply nth_error_Some; congruence).
      destruct (N k Hl) as (y & Y1 & i & Y2). apply lookup_in in Y2. destruct (U1' _ _ Y2) as (r' & R' & C).
      rewrite Hr in R'. injection R' as <-. apply nth_error_In in Y1. unfold size_act in C. rewrite Hk in C.
      destruct (r_mode r); try congruence; destruct C as [C|(z & hh & C & _)]; try discriminate; injection C as <-; exact Y1.
    - intros k z Hz. destruct (U2 _ _ Hz) as (j & f & J1 & J2 & J3). rewrite nth_error_mapi in J2.
      destruct (nth_error rs j) as [r|] eqn:R; [|discriminate]. simpl in J2. injection J2 as J2.
      assert (E : j = k /\ f = SDyn).
      { unfold size_act in J2. destruct (r_mode r), (r_known r); try discriminate; injection J2 as -> ->; auto. }
      destruct E as [-> ->]. assert (Hl : (k < length rs)%nat) by (apply nth_error_Some; congruence).
      destruct (N k Hl) as (y & Y1 & i & Y2). apply lookup_in in Y2. apply nth_error_In in Y1. simpl in Y2.
      rewrite (unique_key _ _ _ _ _ NDk J3 Y2). exact Y1.
    - intros n Hn. apply In_nth_error in Hn. destruct Hn as [j Hj].
      assert (Hl : (j < length rs)%nat) by (rewrite <- L; apply nth_error_Some; congruence).
      destruct (N j Hl) as (y & Y1 & i & Y2). rewrite Hj in Y1. injection Y1 as <-. apply lookup_in in Y2.
      destruct (U1' _ _ Y2) as (r & R & [C|(z & hh & C1 & C2 & C3)]).
      + unfold size_act in C. destruct (r_mode r), (r_known r); try discriminate; injection C as C; discriminate.
      + injection C2 as <-. eauto.
  Qed.
  Definition only_size (e : event) : Prop := match e with ESize _ => True | _ => False end.

  Lemma merged_size_facts : forall rs h h' o, merged_size env ord rs h = (h', o) ->
    exists t, h' = h ++ t /\ Forall (fun x => only_size (fst x)) t /\
      (forall e x, In (e, x) t -> exists hh, env hh e = x) /\
      forall N, sane env rs -> o = Ok N ->
        forall k r n, nth_error rs k = Some r -> size_is t k r n -> known N n.
  Proof.
    intros rs h h' o H. unfold merged_size in H.
    assert (Hh : honest only_size (unordered env ord (mapi size_act 0 rs))).
    { apply honest_unordered. intros a Ha. apply in_mapi in Ha. destruct Ha as (j & r & -> & _).
      unfold size_act. destruct (r_mode r), (r_known r); exact I. }
    unfold bindM, noexcept in H. destruct (unordered env ord (mapi size_act 0 rs) h) as [h1 o1] eqn:X.
    destruct (Hh _ _ _ X) as (t & -> & Ht & _). exists t.
    assert (E : h' = h ++ t) by (destruct o1; unfold lift in H; congruence). split; auto. split; auto.
    split.
    { unfold unordered, bindM in X. destruct (perform_in env _ (mapi size_act 0 rs) [] h) as [h2 o2] eqn:Y.
      destruct (perform_in_facts _ _ _ _ _ _ _ (proj1 (Hord _ _)) Y) as (t' & -> & T1 & _).
      assert (t' = t) by (apply (app_inv_head h); destruct o2; unfold lift in X; congruence). subst t'.
      intros e x Hx. destruct (T1 e x Hx) as (_ & _ & _ & _ & Q). exact Q. }
    intros N [S1 S2] -> k r n Hr [Hm Hs]. destruct o1 as [ds| | | | |]; try discriminate. unfold lift in H.
    unfold unordered in X. rewrite length_mapi in X.
    destruct (in_order_sizes rs _ _ _ _ (proj1 (Hord _ _)) X) as (t' & E' & D1 & D2 & D3).
    apply app_inv_head in E'. subst t'. injection H as _ HN.
    apply merged_sizes_known with (ds := ds); auto.
    - intros m Hm'. destruct (D3 m Hm') as (hh & j & He). eauto.
    - destruct Hs as [[Hk ->]|[Hk Hin]].
      + left. split; [eapply D1; eauto|]. apply nth_error_In in Hr. specialize (S2 r Hr Hk). lia.
      + right. eauto.
  Qed.

  (** Invariants of the loop. *)
  Section Invariant.
    Context {A R : Type}.
    Variable rs : list rng.
    Variable stop : Z -> M bool.
    Variable get : Z -> M (list arg).
    Variable body : A -> list arg -> M (A + R).
    Variable known_end : Z -> Prop.
    Variable I I' : Z -> A -> history -> Prop.
    Variable J : R -> history -> Prop.
    Variable K : history -> Prop.
    Hypothesis Hplain : forall i a h e x, I i a h -> plain e -> I i a (h ++ [(e, x)]).
    Hypothesis HK : forall i a h, I i a h -> K h.
    Hypothesis Hstop : forall i, honest plain (stop i).
    Hypothesis Hstop_at : forall i h h' b, stop i h = (h', Ok b) -> if b then forall n, known_end n -> i = n else ~ known_end i.
    Hypothesis Hget : forall i a h h' o, I i a h -> ~ known_end i -> get i h = (h', o) ->
      match o with Ok _ => I' i a h' | _ => K h' end.
    Hypothesis Hbody : forall i a args h h' o, I' i a h -> ~ known_end i -> body a args h = (h', o) ->
      match o with Ok (inl a') => I (i + 1) a' h' | Ok (inr r) => J r h' | _ => K h' end.

    Lemma plain_app : forall t i a h, Forall (fun x => plain (fst x)) t -> I i a h -> I i a (h ++ t).
    Proof.
      induction t as [|[e x] t IH]; intros i a h Ht Hi; [now rewrite app_nil_r|].
      inversion Ht; subst. change ((e, x) :: t) with ([(e, x)] ++ t). rewrite app_assoc. apply IH; auto.
    Qed.

    Lemma loop_track : forall fuel i a h h' o, I i a h -> loop env rs stop get body fuel i a h = (h', o) ->
      match o with
      | Ok (inl a') => exists j, I j a' h' /\ forall n, known_end n -> j = n
      | Ok (inr r) => J r h'
      | _ => K h'
      end.
    Proof.
      induction fuel as [|fuel IH]; intros i a h h' o Hi H; simpl in H.
      - injection H as <- <-. eauto.
      - unfold bindM at 1 in H. destruct (stop i h) as [h1 o1] eqn:X1.
        destruct (Hstop i _ _ _ X1) as (t1 & -> & P1 & _). pose proof (plain_app _ _ _ _ P1 Hi) as Hi1.
        destruct o1 as [b| | | | |]; try (injection H as <- <-; eauto; fail).
        specialize (Hstop_at _ _ _ _ X1). destruct b.
        + injection H as <- <-. eauto.
        + unfold bindM at 1 in H. destruct (get i (h ++ t1)) as [h2 o2] eqn:X2.
          pose proof (Hget _ _ _ _ _ Hi1 Hstop_at X2) as G.
          destruct o2 as [args| | | | |]; try (injection H as <- <-; exact G).
          unfold bindM at 1 in H. destruct (body a args h2) as [h3 o3] eqn:X3.
          pose proof (Hbody _ _ _ _ _ _ G Hstop_at X3) as B.
          destruct o3 as [[a'|r]| | | | |]; try (injection H as <- <-; exact B).
          unfold bindM at 1 in H. destruct (emit_all env (concat (mapi inc_events 0 rs)) h3) as [h4 o4] eqn:X4.
          destruct (honest_incs env rs _ _ _ X4) as (t4 & -> & P4 & _). pose proof (plain_app _ _ _ _ P4 B) as B4.
          destruct o4 as [u| | | | |]; try (injection H as <- <-; eauto; fail). eapply IH; eauto.
    Qed.
  End Invariant.

  Lemma sentinel_known : forall N rs i h h' b, at_sentinel env ord N rs i h = (h', Ok b) ->
    if b then forall n, known N n -> i = n else ~ known N i.
  Proof.
    assert (G : forall rs i n0 h h' b, bindM (check_end_from env (i =? n0) 0 rs) (fun _ => ret (i =? n0)) h = (h', Ok b) -> b = (i =? n0)).
    { intros rs i n0 h h' b H. unfold bindM in H. destruct (check_end_from env (i =? n0) 0 rs h) as [h1 [u| | | | |]]; try discriminate.
      unfold ret in H. congruence. }
    intros N rs i h h' b H. unfold at_sentinel in H. destruct N as [n|n].
    - destruct (Z.eqb_spec n unknown_size) as [->|Hn].
      + destruct b.
        * intros m [E|[E U]]; [discriminate|]. injection E as E. unfold unknown_size in E. lia.
        * intros [E|[E U]]; [discriminate|]. injection E as E. unfold unknown_size in E. lia.
      + apply G in H. destruct (Z.eqb_spec i n) as [E|E]; subst b.
        * intros m [F|[F U]]; [discriminate|]. congruence.
        * intros [F|[F U]]; [discriminate|]. congruence.
    - apply G in H. destruct (Z.eqb_spec i n) as [E|E]; subst b.
      + intros m [F|[F U]]; congruence.
      + intros [F|[F U]]; congruence.
  Qed.

  (** Invariants of a whole algorithm. *)
  Lemma algorithm_track : forall A R (body : A -> list arg -> M (A + R)) rs
      (I I' : dim -> Z -> A -> history -> Prop) (J : dim -> R -> history -> Prop) (K : dim -> history -> Prop) fuel a h o,
    (forall N i a h e x, I N i a h -> plain e -> I N i a (h ++ [(e, x)])) ->
    (forall N i a h, I N i a h -> K N h) ->
    (forall N i a h h' o, I N i a h -> ~ known N i -> unordered env ord (mapi (deref_act i) 0 rs) h = (h', o) ->
       match o with Ok _ => I' N i a h' | _ => K N h' end) ->
    (forall N i a args h h' o, I' N i a h -> ~ known N i -> body a args h = (h', o) ->
       match o with Ok (inl a') => I N (i + 1) a' h' | Ok (inr r) => J N r h' | _ => K N h' end) ->
    (forall N t, Forall (fun x => only_size (fst x)) t -> I N 0 a t) ->
    (forall a args, honest not_size (body a args)) ->
    algorithm env ord fuel body a rs [] = (h, o) ->
    exists t u, h = t ++ u /\ Forall (fun x => not_size (fst x)) u /\ Forall (fun x => only_size (fst x)) t /\
      (forall e x, In (e, x) t -> exists hh, env hh e = x) /\
      ((u = [] /\ forall x, o <> Ok x) \/
       exists N, merged_size env ord rs [] = (t, Ok N) /\
         match o with
         | Ok (inl a') => exists j, I N j a' h /\ forall n, known N n -> j = n
         | Ok (inr r) => J N r h
         | _ => K N h
         end).
  Proof.
    intros A R body rs I I' J K fuel a h o H1 H2 H3 H4 H5 H6 H. unfold algorithm in H. unfold bindM at 1 in H.
    cbn [lift] in H. destruct (accepted rs) as [[]| | | | |];
      try (injection H as <- <-; exists [], []; split; [auto|]; split; [constructor|]; split; [constructor|]; split; [simpl; tauto|]; left; split; [auto | discriminate]).
    unfold bindM at 1 in H. destruct (merged_size env ord rs []) as [h1 o1] eqn:X1.
    destruct (merged_size_facts _ _ _ _ X1) as (t & E & Ht & Hv0 & _). simpl in E. subst h1.
    destruct o1 as [N| | | | |];
      try (injection H as <- <-; exists t, []; rewrite app_nil_r; split; [auto|]; split; [constructor|]; split; [auto|]; split; [auto|]; left; split; [auto | discriminate]).
    unfold bindM at 1 in H. destruct (make_begin env rs t) as [h2 o2] eqn:X2.
    destruct (honest_begin env rs _ _ _ X2) as (t2 & -> & P2 & _).
    pose proof (plain_app (I N) (H1 N) t2 0 a t P2 (H5 N t Ht)) as I2.
    assert (P3 : Forall (fun x => not_size (fst x)) t2).
    { eapply Forall_impl; [|exact P2]. intros x. apply plain_not_size. }
    destruct o2 as [u| | | | |];
      try (injection H as <- <-; exists t, t2; split; [auto|]; split; [auto|]; split; [auto|]; split; [auto|]; right; exists N; split; [auto|]; eapply H2; eauto).
    pose proof (loop_track rs (at_sentinel env ord N rs) _ body (known N) (I N) (I' N) (J N) (K N) (H1 N) (H2 N)
      (honest_sentinel env ord N rs) (sentinel_known N rs) (H3 N) (H4 N) fuel 0 a _ _ _ I2 H) as L.
    assert (HL : honest not_size (loop env rs (at_sentinel env ord N rs)
                   (fun i => unordered env ord (mapi (deref_act i) 0 rs)) body fuel 0 a)).
    { apply honest_loop; auto.
      - intros i. apply honest_plain, honest_sentinel.
      - intros i. apply honest_weaken with (E := fetches); auto using fetches_not_size. apply honest_unordered, honest_deref. }
    destruct (HL _ _ _ H) as (v & -> & Hv & _).
    exists t, (t2 ++ v). split; [now rewrite app_assoc|]. split; [apply Forall_app; auto|]. split; [auto|]. split; [auto|]. right. exists N. split; auto.
  Qed.
  (** One call of the functor in every round. *)
  Definition calls_once {A R : Type} (body : A -> list arg -> M (A + R)) : Prop :=
    forall a args h h' o, body a args h = (h', o) ->
      exists t, h' = h ++ t /\ count is_call t = 1%nat /\ forall k, count (is_deref k) t = O.

  Lemma count_none : forall f (E : event -> Prop) t, (forall e, E e -> f e = false) -> Forall (fun x => E (fst x)) t -> count f t = O.
  Proof.
    intros f E t H Ht. unfold count. induction Ht as [|[e x] t He Ht IH]; simpl; auto. simpl in He. rewrite (H e He). exact IH.
  Qed.

  Lemma deref_own : forall i rs k j f, nth_error (mapi (deref_act i) 0 rs) j = Some (AEmit (EDeref k) f) -> j = k.
  Proof.
    intros i rs k j f H. rewrite nth_error_mapi in H. destruct (nth_error rs j) as [r|]; [|discriminate]. simpl in H.
    injection H as H. unfold deref_act in H. destruct (r_mode r); try discriminate; now injection H.
  Qed.

  Lemma in_order_derefs : forall i rs p h h' o, NoDup p ->
    bindM (perform_in env p (mapi (deref_act i) 0 rs) []) (fun acc => lift (collect (length rs) acc)) h = (h', o) ->
    exists t, h' = h ++ t /\ count is_call t = O /\ forall k, (count (is_deref k) t <= 1)%nat.
  Proof.
    intros i rs p h h' o ND H. unfold bindM in H.
    destruct (perform_in env p (mapi (deref_act i) 0 rs) [] h) as [h1 o1] eqn:X.
    destruct (perform_in_facts _ _ _ _ _ _ _ ND X) as (t & -> & T1 & T2 & _). exists t.
    split; [destruct o1; unfold lift in H; congruence|]. split.
    - apply count_none with (E := fetches); [intros [ | | | | | | | | | | ]; simpl; tauto|].
      apply Forall_forall. intros [e x] Hx. destruct (T1 e x Hx) as (j & f & _ & Hj & _). rewrite nth_error_mapi in Hj.
      destruct (nth_error rs j) as [r|]; [|discriminate]. simpl in Hj. injection Hj as Hj. unfold deref_act in Hj.
      destruct (r_mode r); try discriminate; injection Hj as <- _; exact I.
    - intros k. apply T2. intros j f. apply deref_own.
  Qed.

  Lemma get_counts : forall i rs h h' o, unordered env ord (mapi (deref_act i) 0 rs) h = (h', o) ->
    exists t, h' = h ++ t /\ count is_call t = O /\ forall k, (count (is_deref k) t <= 1)%nat.
  Proof.
    intros i rs h h' o H. unfold unordered in H. rewrite length_mapi in H. eapply in_order_derefs; [apply Hord | exact H].
  Qed.
  Lemma get_counts_ordered : forall i rs h h' o, ordered env (mapi (deref_act i) 0 rs) h = (h', o) ->
    exists t, h' = h ++ t /\ count is_call t = O /\ forall k, (count (is_deref k) t <= 1)%nat.
  Proof.
    intros i rs h h' o H. unfold ordered in H. rewrite length_mapi in H. eapply in_order_derefs; [apply seq_NoDup | exact H].
  Qed.

  (** [b] more dereferencings than rounds. *)
  Definition counted (b : Z) (N : dim) (i : Z) (h : history) : Prop :=
    Z.of_nat (count is_call h) = i /\ (forall k, Z.of_nat (count (is_deref k) h) <= i + b) /\
    forall n, known N n -> 0 <= n -> i <= n.
  Definition bounded (N : dim) (h : history) : Prop :=
    forall n, known N n -> 0 <= n ->
      Z.of_nat (count is_call h) <= n /\ forall k, Z.of_nat (count (is_deref k) h) <= n.

  Lemma counted_bounded : forall N i h, counted 0 N i h -> bounded N h.
  Proof.
    intros N i h (C1 & C2 & C3) n Hn H0. specialize (C3 n Hn H0). split; [lia|]. intros k. specialize (C2 k). lia.
  Qed.
  Lemma counted_bounded1 : forall N i h, counted 1 N i h -> ~ known N i -> bounded N h.
  Proof.
    intros N i h (C1 & C2 & C3) Hi n Hn H0. specialize (C3 n Hn H0).
    assert (i <> n) by (intros ->; contradiction). split; [lia|]. intros k. specialize (C2 k). lia.
  Qed.
  Lemma counted_plain : forall N i h e x, counted 0 N i h -> plain e -> counted 0 N i (h ++ [(e, x)]).
  Proof.
    intros N i h e x (C1 & C2 & C3) He. split; [|split; auto].
    - rewrite count_app, count_one. destruct e; simpl in *; try contradiction; lia.
    - intros k. specialize (C2 k). rewrite count_app, count_one. destruct e; simpl in *; try contradiction; lia.
  Qed.
  Lemma counted_get : forall N i h t, counted 0 N i h -> count is_call t = O -> (forall k, (count (is_deref k) t <= 1)%nat) ->
    counted 1 N i (h ++ t).
  Proof.
    intros N i h t (C1 & C2 & C3) T1 T2. split; [|split; auto].
    - rewrite count_app. lia.
    - intros k. specialize (C2 k). specialize (T2 k). rewrite count_app. lia.
  Qed.
  Lemma counted_body : forall N i h t, counted 1 N i h -> ~ known N i -> count is_call t = 1%nat -> (forall k, count (is_deref k) t = O) ->
    counted 0 N (i + 1) (h ++ t).
  Proof.
    intros N i h t (C1 & C2 & C3) Hi T1 T2. split; [|split].
    - rewrite count_app. lia.
    - intros k. specialize (C2 k). rewrite count_app, T2. lia.
    - intros n Hn H0. specialize (C3 n Hn H0). assert (i <> n) by (intros ->; contradiction). lia.
  Qed.
  Lemma counted_sizes : forall N t, Forall (fun x => only_size (fst x)) t -> counted 0 N 0 t.
  Proof.
    intros N t Ht. split; [|split].
    - rewrite (count_none _ only_size); auto. intros [ | | | | | | | | | | ]; simpl; tauto.
    - intros k. rewrite (count_none _ only_size); auto; [lia|]. intros [ | | | | | | | | | | ]; simpl; tauto.
    - intros n _ H. exact H.
  Qed.

  Lemma algorithm_counts : forall A R (body : A -> list arg -> M (A + R)) rs fuel a h o, sane env rs ->
    calls_once body -> (forall a args, honest not_size (body a args)) ->
    algorithm env ord fuel body a rs [] = (h, o) ->
    forall k r n, nth_error rs k = Some r -> size_is h k r n ->
      Z.of_nat (count is_call h) <= n /\ (forall j, Z.of_nat (count (is_deref j) h) <= n) /\
      forall a', o = Ok (inl a') -> Z.of_nat (count is_call h) = n.
  Proof.
    intros A R body rs fuel a h o Hs Hc Hb H k r n Hr Hz.
    destruct (algorithm_track A R body rs (fun N i _ h => counted 0 N i h) (fun N i _ h => counted 1 N i h)
                (fun N _ h => bounded N h) bounded fuel a h o) as (t & u & E & Hu & Ht & Hv & C); auto.
    - intros. eapply counted_plain; eauto.
    - intros. eapply counted_bounded; eauto.
    - intros N i a0 h0 h' o0 Hi Hk G. destruct (get_counts _ _ _ _ _ G) as (t & -> & T1 & T2).
      pose proof (counted_get _ _ _ _ Hi T1 T2) as I1. destruct o0; auto; eapply counted_bounded1; eauto.
    - intros N i a0 args h0 h' o0 Hi Hk G. destruct (Hc _ _ _ _ _ G) as (t & -> & T1 & T2).
      pose proof (counted_body _ _ _ _ Hi Hk T1 T2) as I1. destruct o0 as [[a'|x]| | | | |]; auto; eapply counted_bounded; eauto.
    - intros. now apply counted_sizes.
    - assert (Hz' : size_is t k r n).
      { destruct Hz as [Hm Hz]. split; auto. destruct Hz as [Hz|[Hk Hin]]; [now left|]. right. split; auto. subst h. apply in_app_or in Hin.
        destruct Hin as [Hin|Hin]; auto. rewrite Forall_forall in Hu. destruct (Hu _ Hin). }
      assert (H0 : 0 <= n).
      { destruct Hs as [S1 S2]. destruct Hz' as [Hm [[Hk ->]|[Hk Hin]]]; [apply nth_error_In in Hr; auto|].
        destruct (Hv _ _ Hin) as [hh He]. eauto. }
      destruct C as [[-> No]|(N & X & C)].
      + rewrite app_nil_r in E. subst h. destruct (counted_sizes (SDyn 0) t Ht) as (C1 & C2 & _).
        split; [lia|]. split; [intros j; specialize (C2 j); lia|]. intros a' E. destruct (No _ E).
      + destruct (merged_size_facts _ _ _ _ X) as (t' & E' & _ & _ & F). simpl in E'. subst t'.
        pose proof (F N Hs eq_refl k r n Hr Hz') as Kn.
        assert (B : bounded N h).
        { destruct o as [[a'|x]| | | | |]; auto. destruct C as (j & C & _). eapply counted_bounded; eauto. }
        destruct (B n Kn H0) as [B1 B2]. split; auto. split; auto.
        intros a' ->. destruct C as (j & (C1 & _) & Cj). rewrite C1. auto.
  Qed.
  (** The loops over zipped ranges. *)

  Lemma call_once : calls_once (R := Empty_set) (fun (_ : unit) args => bindM (emit env (EFunc args)) (fun _ => ret (inl tt))).
  Proof.
    intros a args h h' o H. unfold bindM, emit in H. exists [(EFunc args, env h (EFunc args))].
    split; [destruct (env h (EFunc args)); unfold ret in H; congruence|]. split; [reflexivity|]. intros k. reflexivity.
  Qed.

  Lemma zip_loop_counts : forall rs (stop : dim -> Z -> M bool) (ready : M unit) fuel h o, sane env rs ->
    honest plain ready ->
    (forall N i, honest plain (stop N i)) ->
    (forall N i h h' b, stop N i h = (h', Ok b) -> if b then forall n, known N n -> i = n else ~ known N i) ->
    bindM (lift (zip_accepted rs)) (fun _ =>
    bindM (merged_size env ord rs) (fun N =>
    bindM ready (fun _ =>
    bindM (loop (R := Empty_set) env rs (stop N) (fun i => ordered env (mapi (deref_act i) 0 rs))
             (fun (_ : unit) args => bindM (emit env (EFunc args)) (fun _ => ret (inl tt))) fuel 0 tt)
          (fun _ => ret tt)))) [] = (h, o) ->
    forall k r n, nth_error rs k = Some r -> size_is h k r n ->
      Z.of_nat (count is_call h) <= n /\ (forall j, Z.of_nat (count (is_deref j) h) <= n) /\
      (o = Ok tt -> Z.of_nat (count is_call h) = n).
  Proof.
    intros rs stop ready fuel h o Hs Hready Hst1 Hst2 H k r n Hr Hz.
    assert (Fin : forall t u, h = t ++ u -> Forall (fun x => not_size (fst x)) u -> Forall (fun x => only_size (fst x)) t ->
              (forall e x, In (e, x) t -> exists hh, env hh e = x) -> size_is t k r n /\ 0 <= n).
    { intros t u E Hu Ht Hv.
      assert (Hz' : size_is t k r n).
      { destruct Hz as [Hm Hz]. split; auto. destruct Hz as [Hz|[Hk Hin]]; [now left|]. right. split; auto. subst h. apply in_app_or in Hin.
        destruct Hin as [Hin|Hin]; auto. rewrite Forall_forall in Hu. destruct (Hu _ Hin). }
      split; auto. destruct Hs as [S1 S2]. destruct Hz' as [Hm [[Hk ->]|[Hk Hin]]]; [apply nth_error_In in Hr; auto|].
      destruct (Hv _ _ Hin) as [hh He]. eauto. }
    assert (Small : forall t, h = t -> Forall (fun x => only_size (fst x)) t ->
              (forall e x, In (e, x) t -> exists hh, env hh e = x) -> o <> Ok tt ->
              Z.of_nat (count is_call h) <= n /\ (forall j, Z.of_nat (count (is_deref j) h) <= n) /\
              (o = Ok tt -> Z.of_nat (count is_call h) = n)).
    { intros t -> Ht Hv No. destruct (Fin t [] (eq_sym (app_nil_r t)) (Forall_nil _) Ht Hv) as [_ H0].
      destruct (counted_sizes (SDyn 0) t Ht) as (C1 & C2 & _).
      split; [lia|]. split; [intros j; specialize (C2 j); lia|]. contradiction. }
    unfold bindM at 1 in H. cbn [lift] in H. destruct (zip_accepted rs) as [[]| | | | |];
      try (injection H as <- <-; apply (Small []); [auto | constructor | simpl; tauto | discriminate]; fail).
    unfold bindM at 1 in H. destruct (merged_size env ord rs []) as [h1 o1] eqn:X1.
    destruct (merged_size_facts _ _ _ _ X1) as (t & E & Ht & Hv & F). simpl in E. subst h1.
    destruct o1 as [N| | | | |]; try (injection H as <- <-; apply (Small t); [auto | auto | auto | discriminate]; fail).
    assert (Big : forall u, h = t ++ u -> Forall (fun x => not_size (fst x)) u -> bounded N h ->
              (o = Ok tt -> exists j, counted 0 N j h /\ forall m, known N m -> j = m) ->
              Z.of_nat (count is_call h) <= n /\ (forall j, Z.of_nat (count (is_deref j) h) <= n) /\
              (o = Ok tt -> Z.of_nat (count is_call h) = n)).
    { intros u E Hu B C. destruct (Fin t u E Hu Ht Hv) as [Hz' H0].
      pose proof (F N Hs eq_refl k r n Hr Hz') as Kn.
      destruct (B n Kn H0) as [B1 B2]. split; auto. split; auto.
      intros Ho. destruct (C Ho) as (j & (C1 & _) & Cj). rewrite C1. auto. }
    unfold bindM at 1 in H. destruct (ready t) as [h2 o2] eqn:X2.
    destruct (Hready _ _ _ X2) as (t2 & -> & P2 & _).
    pose proof (plain_app (fun i (_ : unit) h => counted 0 N i h) (fun i (_ : unit) h e x Hi He => counted_plain N i h e x Hi He)
                  t2 0 tt t P2 (counted_sizes N t Ht)) as I2. cbn beta in I2.
    assert (P3 : Forall (fun x => not_size (fst x)) t2).
    { eapply Forall_impl; [|exact P2]. intros x. apply plain_not_size. }
    destruct o2 as [u| | | | |];
      try (injection H as <- <-; apply (Big t2); [auto | auto | eapply counted_bounded; eauto | discriminate]; fail).
    unfold bindM at 1 in H.
    destruct (loop env rs (stop N) (fun i => ordered env (mapi (deref_act i) 0 rs))
             (fun (_ : unit) args => bindM (emit env (EFunc args)) (fun _ => ret (inl tt))) fuel 0 tt (t ++ t2)) as [h3 o3] eqn:X3.
    assert (HL : honest not_size (loop (R := Empty_set) env rs (stop N) (fun i => ordered env (mapi (deref_act i) 0 rs))
             (fun (_ : unit) args => bindM (emit env (EFunc args)) (fun _ => ret (inl tt))) fuel 0 tt)).
    { apply honest_loop.
      - intros i. apply honest_plain, Hst1.
      - intros i. apply honest_weaken with (E := fetches); auto using fetches_not_size. apply honest_ordered, honest_deref.
      - intros a args. apply honest_call. }
    destruct (HL _ _ _ X3) as (v & -> & Pv & _).
    assert (L : match o3 with
                | Ok (inl _) => exists j, counted 0 N j ((t ++ t2) ++ v) /\ forall n, known N n -> j = n
                | Ok (inr _) => bounded N ((t ++ t2) ++ v)
                | _ => bounded N ((t ++ t2) ++ v)
                end).
    { eapply (loop_track rs (stop N) (fun i => ordered env (mapi (deref_act i) 0 rs)) _ (known N)
               (fun i (_ : unit) h => counted 0 N i h) (fun i (_ : unit) h => counted 1 N i h) (fun (_ : Empty_set) h => bounded N h) (bounded N)
               (fun i (_ : unit) h e x Hi He => counted_plain N i h e x Hi He)
               (fun i (_ : unit) h Hi => counted_bounded N i h Hi) (Hst1 N) (Hst2 N)); [| |exact I2 | exact X3].
      - intros i _ g g' o' Hi Hk G. destruct (get_counts_ordered _ _ _ _ _ G) as (w & -> & T1 & T2).
        pose proof (counted_get _ _ _ _ Hi T1 T2) as I1. destruct o'; auto; eapply counted_bounded1; eauto.
      - intros i a0 args h0 h' o0 Hi Hk G. destruct (call_once _ _ _ _ _ G) as (w & -> & T1 & T2).
        pose proof (counted_body _ _ _ _ Hi Hk T1 T2) as I1. destruct o0 as [[a'|x]| | | | |]; auto; eapply counted_bounded; eauto. }
    assert (Pu : Forall (fun x => not_size (fst x)) (t2 ++ v)) by (apply Forall_app; auto).
    assert (Eh : h = t ++ (t2 ++ v)) by (rewrite app_assoc; destruct o3; unfold ret in H; congruence).
    apply (Big (t2 ++ v)); auto; rewrite app_assoc in Eh; subst h.
    - destruct o3 as [[a'|[]]| | | | |]; auto. destruct L as (j & L & _). eapply counted_bounded; eauto.
    - intros ->. destruct o3 as [[a'|[]]| | | | |]; try discriminate. exact L.
  Qed.

  Lemma zip_sentinel_counts : forall rs fuel h o, sane env rs -> zip_sentinel_for env ord fuel rs [] = (h, o) ->
    forall k r n, nth_error rs k = Some r -> size_is h k r n ->
      Z.of_nat (count is_call h) <= n /\ (forall j, Z.of_nat (count (is_deref j) h) <= n) /\
      (o = Ok tt -> Z.of_nat (count is_call h) = n).
  Proof.
    intros rs fuel h o Hs H. apply (zip_loop_counts rs (fun N => at_sentinel env ord N rs) (make_begin env rs) fuel h o Hs); auto.
    - apply honest_begin.
    - intros. apply honest_sentinel.
    - intros N i h0 h' b. apply sentinel_known.
  Qed.

  Lemma bind_assoc : forall A B C (m : M A) (f : A -> M B) (g : B -> M C) h,
    bindM (bindM m f) g h = bindM m (fun a => bindM (f a) g) h.
  Proof. intros. unfold bindM. destruct (m h) as [h1 [a| | | | |]]; auto. Qed.
  Lemma bind_ext : forall A B (m : M A) (f g : A -> M B) h, (forall a h, f a h = g a h) -> bindM m f h = bindM m g h.
  Proof. intros. unfold bindM. destruct (m h) as [h1 [a| | | | |]]; auto. Qed.

  Lemma zip_counts : forall rs fuel h o, sane env rs -> zip_for env ord fuel rs [] = (h, o) ->
    forall k r n, nth_error rs k = Some r -> size_is h k r n ->
      Z.of_nat (count is_call h) <= n /\ (forall j, Z.of_nat (count (is_deref j) h) <= n) /\
      (o = Ok tt -> Z.of_nat (count is_call h) = n).
  Proof.
    intros rs fuel h o Hs H.
    apply (zip_loop_counts rs (fun N i => ret (i =? dim_value N)) (bindM (make_begin env rs) (fun _ => make_end env rs)) fuel h o Hs).
    - apply honest_bind; [apply honest_begin | intros; apply honest_end].
    - intros. apply honest_ret.
    - intros N i h0 h' b E. unfold ret in E. injection E as _ <-. destruct (Z.eqb_spec i (dim_value N)) as [->|D].
      + intros n [->|[-> _]]; reflexivity.
      + intros [->|[-> _]]; apply D; reflexivity.
    - rewrite <- H. unfold zip_for. apply bind_ext. intros _ g1. apply bind_ext. intros N g2. apply bind_assoc.
  Qed.

  (** * What the functors answered *)

  (** A property of the function's variables and the history that changes with the calls only. *)
  Lemma call_track : forall A R (body : A -> list arg -> M (A + R)) rs (P : A -> history -> Prop)
      (J : R -> history -> Prop) (K : history -> Prop) fuel a h o,
    (forall a h e x, P a h -> is_call e = false -> (forall b c, e <> EReduce b c) -> P a (h ++ [(e, x)])) ->
    (forall a h, P a h -> K h) ->
    (forall a args h h' o, P a h -> body a args h = (h', o) ->
       match o with Ok (inl a') => P a' h' | Ok (inr r) => J r h' | _ => K h' end) ->
    P a [] -> (forall a args, honest not_size (body a args)) ->
    algorithm env ord fuel body a rs [] = (h, o) ->
    match o with Ok (inl a') => P a' h | Ok (inr r) => J r h | _ => K h end.
  Proof.
    intros A R body rs P J K fuel a h o H1 H2 H3 H4 H5 H.
    assert (App : forall (E : event -> Prop), (forall e, E e -> is_call e = false /\ forall b c, e <> EReduce b c) ->
              forall t a h, Forall (fun x => E (fst x)) t -> P a h -> P a (h ++ t)).
    { intros E HE. induction t as [|[e x] t IH]; intros a0 h0 Ht Hp; [now rewrite app_nil_r|].
      inversion Ht; subst. change ((e, x) :: t) with ([(e, x)] ++ t). rewrite app_assoc. apply IH; auto.
      destruct (HE e) as [E1 E2]; auto. }
    destruct (algorithm_track A R body rs (fun _ _ a h => P a h) (fun _ _ a h => P a h) (fun _ => J) (fun _ => K) fuel a h o)
      as (t & u & E & Hu & Ht & Hv & C); auto.
    - intros N i a0 h0 e x Hp He. destruct e; simpl in He; try contradiction; apply H1; auto; discriminate.
    - intros N i a0 h0 h' o0 Hp _ G.
      destruct (honest_unordered env ord _ fetches (mapi (deref_act i) 0 rs) (honest_deref i rs) _ _ _ G) as (w & -> & Pw & _).
      assert (Q : P a0 (h0 ++ w)).
      { eapply App; [|exact Pw|exact Hp]. intros e He. destruct e; simpl in He; try contradiction. split; [reflexivity | discriminate]. }
      destruct o0; eauto.
    - intros N i a0 args h0 h' o0 Hp _ G. apply (H3 _ _ _ _ _ Hp G).
    - intros N t Ht. change t with ([] ++ t). eapply App; [|exact Ht|exact H4].
      intros e He. destruct e; simpl in He; try contradiction. split; [reflexivity | discriminate].
    - destruct C as [[-> No]|(N & X & C)].
      + rewrite app_nil_r in E. subst h.
        assert (K t).
        { eapply H2. change t with ([] ++ t). eapply App; [|exact Ht|exact H4].
          intros e He. destruct e; simpl in He; try contradiction. split; [reflexivity | discriminate]. }
        destruct o as [x| | | | |]; auto. destruct (No x eq_refl).
      + destruct o as [[a'|x]| | | | |]; auto. now destruct C as (j & C & _).
  Qed.

  Lemma answers_app : forall a b, answers (a ++ b) = answers a ++ answers b.
  Proof. intros. unfold answers. now rewrite flat_map_app. Qed.
  Lemma answers_other : forall h e x, is_call e = false -> answers (h ++ [(e, x)]) = answers h.
  Proof.
    intros h e x H. rewrite answers_app. unfold answers at 2. simpl. rewrite app_nil_r.
    destruct e; simpl in *; try discriminate; now rewrite app_nil_r.
  Qed.
  Lemma answers_call : forall h args z, answers (h ++ [(EFunc args, Ok z)]) = answers h ++ [negb (z =? 0)].
  Proof. intros. rewrite answers_app. reflexivity. Qed.

  Lemma reduced_app : forall a h t, reduced a (h ++ t) = match reduced a h with Some b => reduced b t | None => None end.
  Proof.
    intros a h. revert a. induction h as [|[e x] h IH]; intros a t; simpl; auto.
    destruct e; auto. destruct (acc =? a); auto.
  Qed.
End Track.
