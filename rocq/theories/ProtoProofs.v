(** Proofs about ProtoModel.v. *)

From Coq Require Import ZArith Arith Bool Lia List.
From Verif Require Import Base ZipModel ZipLoopProofs ProtoModel ProtoSpec.
Import ListNotations.

Local Open Scope Z_scope.

Lemma nth_error_mapi : forall (A B : Type) (f : nat -> A -> B) l k j,
  nth_error (mapi f k l) j = option_map (f (k + j)%nat) (nth_error l j).
Proof.
  induction l as [|a r IH]; intros k j; destruct j; simpl; auto.
  - now rewrite Nat.add_0_r.
  - rewrite IH. now replace (S k + j)%nat with (k + S j)%nat by lia.
Qed.

Lemma length_mapi : forall (A B : Type) (f : nat -> A -> B) l k, length (mapi f k l) = length l.
Proof. induction l; intros k; simpl; auto. Qed.

Section Follow.
  Variable env : history -> event -> outcome Z.
  Variable ord : history -> nat -> list nat.
  Variable st : style.
  Variable red : bool.
  Variable k : nat.

  Notation nxt := (next st red k).
  Notation fol := (follows st red k).

  Lemma start_live : start st <> Stopped.
  Proof. destruct st; discriminate. Qed.

  Lemma next_live : forall s e z s', s <> Stopped -> nxt s e z = Some s' -> s' <> Stopped.
  Proof.
    intros s e z s' Hs H.
    assert (L : forall l, setup st l <> Stopped) by (intros [|x l]; [apply start_live | discriminate]).
    pose proof start_live as S0.
    destruct e; simpl in H;
      repeat match type of H with
             | context [if ?b then _ else _] => destruct b
             | context [match ?x with _ => _ end] => destruct x
             end; inversion H; subst; auto; try discriminate.
  Qed.

  Lemma fol_app : forall t1 t2 s s', fol s t1 = Some s' -> s' <> Stopped -> fol s (t1 ++ t2) = fol s' t2.
  Proof.
    induction t1 as [|[e o] r IH]; intros t2 s s' H Hs; simpl in *.
    - now inversion H.
    - destruct o as [z| | x | | |];
        try (destruct (nxt s e 0); [destruct r; [inversion H; congruence | discriminate] | discriminate]).
      destruct (nxt s e z); [|discriminate]. eauto.
  Qed.

  (** From phase [s], [m] follows the protocol, and when it returns [a] the phase is as [Q] says. *)
  Definition moves {A : Type} (m : M A) (s : phase) (Q : A -> phase -> Prop) : Prop :=
    forall h h' o, m h = (h', o) ->
      exists t s', h' = h ++ t /\ fol s t = Some s' /\
                   match o with Ok a => s' <> Stopped /\ Q a s' | _ => True end.

  Lemma moves_ret : forall A (a : A) s (Q : A -> phase -> Prop), s <> Stopped -> Q a s -> moves (ret a) s Q.
  Proof.
    intros A a s Q Hs HQ h h' o H. inversion H; subst. exists [], s. rewrite app_nil_r. auto.
  Qed.

  Lemma moves_lift : forall A (x : outcome A) s (Q : A -> phase -> Prop), s <> Stopped ->
    (forall a, x = Ok a -> Q a s) -> moves (lift x) s Q.
  Proof.
    intros A x s Q Hs HQ h h' o H. inversion H; subst. exists [], s. rewrite app_nil_r.
    split; [auto|]. split; [auto|]. destruct o; auto.
  Qed.

  Lemma moves_bind : forall A B (m : M A) (f : A -> M B) s (P : A -> phase -> Prop) (Q : B -> phase -> Prop),
    moves m s P -> (forall a s', s' <> Stopped -> P a s' -> moves (f a) s' Q) -> moves (bindM m f) s Q.
  Proof.
    intros A B m f s P Q Hm Hf h h' o H. unfold bindM in H.
    destruct (m h) as [h1 o1] eqn:E. destruct (Hm h h1 o1 E) as (t & s1 & E1 & F1 & R1).
    destruct o1 as [a| | e | | |];
      try (inversion H; subst; exists t, s1; split; [auto | split; [auto | exact I]]).
    destruct R1 as [Hs1 HP].
    destruct (Hf a s1 Hs1 HP h1 h' o H) as (t2 & s2 & E2 & F2 & R2).
    exists (t ++ t2), s2. split; [subst; now rewrite app_assoc|].
    split; [rewrite (fol_app t t2 s s1); auto | auto].
  Qed.

  Lemma moves_weaken : forall A (m : M A) s (P Q : A -> phase -> Prop),
    moves m s P -> (forall a s', P a s' -> Q a s') -> moves m s Q.
  Proof.
    intros A m s P Q Hm HPQ h h' o H. destruct (Hm h h' o H) as (t & s' & E & F & R).
    exists t, s'. split; [auto|]. split; [auto|]. destruct o; auto. destruct R; auto.
  Qed.

  Lemma moves_emit : forall e s (n : Z -> phase), s <> Stopped -> (forall z, nxt s e z = Some (n z)) ->
    moves (emit env e) s (fun z s' => s' = n z).
  Proof.
    intros e s n Hs Hn h h' o H. unfold emit in H. inversion H; subst. clear H.
    destruct (env h e) as [z| | x | | |] eqn:E;
      try (exists [(e, env h e)], Stopped; rewrite E; split; [auto|]; split; [simpl; now rewrite Hn | exact I]).
    exists [(e, Ok z)], (n z). split; [auto|]. split; [simpl; now rewrite Hn|].
    split; auto. eapply next_live; eauto.
  Qed.

  Lemma moves_noexcept : forall A (m : M A) s (Q : A -> phase -> Prop), moves m s Q -> moves (noexcept m) s Q.
  Proof.
    intros A m s Q Hm h h' o H. unfold noexcept in H. destruct (m h) as [h1 o1] eqn:E.
    destruct (Hm h h1 o1 E) as (t & s' & E1 & F1 & R1).
    exists t, s'. destruct o1; inversion H; subst; (split; [auto|]); (split; [auto|]); auto.
  Qed.

  (** Operations that do not concern range [k]. *)
  Definition foreign (e : event) : Prop := forall s z, nxt s e z = Some s.
  Lemma foreign_emit_all : forall l s, s <> Stopped -> Forall foreign l ->
    moves (emit_all env l) s (fun _ s' => s' = s).
  Proof.
    induction l as [|e r IH]; intros s Hs Hl; simpl.
    - now apply moves_ret.
    - inversion Hl; subst. eapply moves_bind.
      + apply moves_emit with (n := fun _ => s); auto.
      + intros z s' Hs' ->. auto.
  Qed.

  Lemma emit_all_app : forall l1 l2 h, emit_all env (l1 ++ l2) h = bindM (emit_all env l1) (fun _ => emit_all env l2) h.
  Proof.
    induction l1 as [|e r IH]; intros l2 h; simpl; [reflexivity|].
    unfold bindM. destruct (emit env e h) as [h1 [z| | x | | |]]; auto. rewrite IH. reflexivity.
  Qed.

  (** Operations of the other ranges around those of range [k]. *)
  Lemma moves_mapi : forall (f : nat -> rng -> list event) rs r s (P : phase -> Prop),
    nth_error rs k = Some r ->
    s <> Stopped ->
    (forall j r', j <> k -> Forall foreign (f j r')) ->
    moves (emit_all env (f k r)) s (fun _ s' => P s') ->
    moves (emit_all env (concat (mapi f 0 rs))) s (fun _ s' => P s').
  Proof.
    intros f rs r s P Hr Hs Hf HP.
    assert (G : forall rs j0 s, s <> Stopped -> (k < j0)%nat ->
              moves (emit_all env (concat (mapi f j0 rs))) s (fun _ s' => s' = s)).
    { induction rs0 as [|r0 rest IH]; intros j0 s0 Hs0 Hj; simpl.
      - now apply moves_ret.
      - intros h h' o H. rewrite emit_all_app in H. revert h h' o H.
        change (moves (bindM (emit_all env (f j0 r0)) (fun _ => emit_all env (concat (mapi f (S j0) rest)))) s0
                  (fun _ s' => s' = s0)).
        eapply moves_bind.
        + apply foreign_emit_all; auto. apply Hf. lia.
        + intros ? s' Hs' ->. apply IH; auto; lia. }
    assert (G2 : forall rs j0 s, s <> Stopped -> (j0 <= k)%nat -> nth_error rs (k - j0) = Some r ->
              moves (emit_all env (f k r)) s (fun _ s' => P s') ->
              moves (emit_all env (concat (mapi f j0 rs))) s (fun _ s' => P s')).
    { induction rs0 as [|r0 rest IH]; intros j0 s0 Hs0 Hj Hn HP0.
      - destruct (k - j0)%nat; discriminate.
      - simpl. intros h h' o H. rewrite emit_all_app in H. revert h h' o H.
        change (moves (bindM (emit_all env (f j0 r0)) (fun _ => emit_all env (concat (mapi f (S j0) rest)))) s0
                  (fun _ s' => P s')).
        destruct (Nat.eq_dec j0 k) as [->|Hne].
        + rewrite Nat.sub_diag in Hn. inversion Hn; subst r0. eapply moves_bind; [exact HP0|].
          intros ? s' Hs' HP'. eapply moves_weaken; [apply G; auto|]. intros u s'' E'. simpl in E'. subst. auto.
        + replace (k - j0)%nat with (S (k - S j0)) in Hn by lia. eapply moves_bind.
          * apply foreign_emit_all; auto.
          * intros ? s' Hs' ->. apply IH; auto. lia. }
    apply G2; auto; [lia|]. now rewrite Nat.sub_0_r.
  Qed.

  (** ** Arguments *)

  Definition act_foreign {A : Type} (a : act A) : Prop :=
    match a with APure _ => True | AEmit e _ => foreign e end.

  Lemma moves_perform_foreign : forall A (a : act A) s, s <> Stopped -> act_foreign a ->
    moves (perform env a) s (fun _ s' => s' = s).
  Proof.
    intros A [x|e f] s Hs Ha; simpl.
    - now apply moves_ret.
    - eapply moves_bind; [apply moves_emit with (n := fun _ => s); auto|].
      intros z s' Hs' ->. now apply moves_ret.
  Qed.

  Notation lookup j acc := (find (fun q => Nat.eqb (fst q) j) acc).

  Lemma perform_in_foreign : forall A (l : list (act A)) p acc s, s <> Stopped ->
    (forall j a, nth_error l j = Some a -> j <> k -> act_foreign a) -> ~ In k p ->
    moves (perform_in env p l acc) s (fun acc' s' => s' = s /\ lookup k acc' = lookup k acc).
  Proof.
    intros A l p. induction p as [|j p' IH]; intros acc s Hs Hf Hn; simpl.
    - now apply moves_ret.
    - destruct (nth_error l j) as [a|] eqn:E; [|apply moves_lift; auto; discriminate].
      assert (Hj : j <> k) by (intros ->; apply Hn; simpl; auto).
      eapply moves_bind; [apply moves_perform_foreign; eauto|].
      intros x s' Hs' ->. eapply moves_weaken; [apply IH; auto; intro; apply Hn; simpl; auto|].
      intros acc' s'' [-> E2]. split; auto. rewrite E2. simpl.
      destruct (Nat.eqb_spec j k); [contradiction | reflexivity].
  Qed.

  Lemma perform_in_own : forall A (l : list (act A)) a0 s (Q : A -> phase -> Prop),
    nth_error l k = Some a0 ->
    (forall j a, nth_error l j = Some a -> j <> k -> act_foreign a) ->
    moves (perform env a0) s Q ->
    forall p acc, s <> Stopped -> NoDup p -> In k p ->
    moves (perform_in env p l acc) s (fun acc' s' => exists x, lookup k acc' = Some (k, x) /\ Q x s').
  Proof.
    intros A l a0 s Q Hk Hf H0 p. induction p as [|j p' IH]; intros acc Hs Hd Hin; [contradiction|].
    inversion Hd; subst. simpl. destruct (nth_error l j) as [a|] eqn:E; [|apply moves_lift; auto; discriminate].
    destruct (Nat.eq_dec j k) as [->|Hne].
    - rewrite Hk in E. inversion E; subst a0. eapply moves_bind; [exact H0|].
      intros x s' Hs' HQ. eapply moves_weaken; [apply perform_in_foreign; auto|].
      intros acc' s'' [-> E2]. exists x. split; auto. rewrite E2. simpl. now rewrite Nat.eqb_refl.
    - destruct Hin as [->|Hin]; [contradiction|].
      eapply moves_bind; [apply moves_perform_foreign; eauto|]. intros x s' Hs' ->. auto.
  Qed.

  Lemma collect_nth : forall A n (acc : list (nat * A)) l, collect n acc = Ok l ->
    length l = n /\
    forall j, (j < n)%nat -> exists x, nth_error l j = Some x /\ exists i, lookup j acc = Some (i, x).
  Proof.
    intros A n acc l H. unfold collect in H.
    assert (G : forall m b l, mapM (fun j => match lookup j acc with Some q => Ok (snd q) | None => IllFormed end) (seq b m) = Ok l ->
              length l = m /\
              forall j, (j < m)%nat -> exists x, nth_error l j = Some x /\ exists i, lookup (b + j) acc = Some (i, x)).
    { induction m as [|m IH]; intros b l0 H0; simpl in H0.
      - inversion H0. simpl. split; auto. intros; lia.
      - destruct (lookup b acc) as [[i x]|] eqn:E; [|discriminate]. simpl in H0.
        destruct (mapM _ (seq (S b) m)) as [l1| | | | |] eqn:E1; try discriminate. simpl in H0. inversion H0; subst.
        destruct (IH _ _ E1) as [L N]. split; [simpl; auto|].
        intros [|j] Hj.
        + exists x. simpl. rewrite Nat.add_0_r. eauto.
        + destruct (N j ltac:(lia)) as (y & Y1 & i' & Y2). exists y. simpl. split; auto.
          exists i'. now replace (b + S j)%nat with (S b + j)%nat by lia. }
    destruct (G n 0%nat l H) as [L N]. split; auto.
  Qed.

  (** Own operations of range [k] among those of all ranges, in any order. *)
  Lemma moves_in_order : forall A (f : nat -> rng -> act A) rs r s (Q : A -> phase -> Prop) (p : list nat),
    nth_error rs k = Some r -> s <> Stopped ->
    (forall j r', j <> k -> act_foreign (f j r')) ->
    NoDup p -> (forall j, In j p <-> (j < length rs)%nat) ->
    moves (perform env (f k r)) s Q ->
    moves (bindM (perform_in env p (mapi f 0 rs) []) (fun acc => lift (collect (length (mapi f 0 rs)) acc))) s
          (fun l s' => exists x, nth_error l k = Some x /\ Q x s').
  Proof.
    intros A f rs r s Q p Hr Hs Hf Hd Hp H0.
    assert (Hk : (k < length rs)%nat) by (apply nth_error_Some; congruence).
    eapply moves_bind.
    - eapply perform_in_own with (a0 := f k r); eauto.
      + rewrite nth_error_mapi, Hr. reflexivity.
      + intros j a Ha Hj. rewrite nth_error_mapi in Ha. destruct (nth_error rs j); inversion Ha; subst. now apply Hf.
      + now apply Hp.
    - intros acc s' Hs' (x & L & HQ). apply moves_lift; auto.
      intros l Hl. apply collect_nth in Hl. destruct Hl as [_ Hl].
      destruct (Hl k) as (y & Y1 & i & Y2); [rewrite length_mapi; auto|].
      rewrite L in Y2. inversion Y2; subst. eauto.
  Qed.

  Lemma moves_unordered : forall A (f : nat -> rng -> act A) rs r s (Q : A -> phase -> Prop),
    evaluation_order ord ->
    nth_error rs k = Some r -> s <> Stopped ->
    (forall j r', j <> k -> act_foreign (f j r')) ->
    moves (perform env (f k r)) s Q ->
    moves (unordered env ord (mapi f 0 rs)) s (fun l s' => exists x, nth_error l k = Some x /\ Q x s').
  Proof.
    intros A f rs r s Q Ho Hr Hs Hf H0 h h' o H. unfold unordered in H.
    destruct (Ho h (length (mapi f 0 rs))) as [Hd Hp].
    eapply moves_in_order with (p := ord h (length (mapi f 0 rs))); eauto.
    rewrite length_mapi in *. auto.
  Qed.

  Lemma moves_ordered : forall A (f : nat -> rng -> act A) rs r s (Q : A -> phase -> Prop),
    nth_error rs k = Some r -> s <> Stopped ->
    (forall j r', j <> k -> act_foreign (f j r')) ->
    moves (perform env (f k r)) s Q ->
    moves (ordered env (mapi f 0 rs)) s (fun l s' => exists x, nth_error l k = Some x /\ Q x s').
  Proof.
    intros A f rs r s Q Hr Hs Hf H0. unfold ordered.
    eapply moves_in_order; eauto.
    - apply seq_NoDup.
    - intros j. rewrite length_mapi, in_seq. lia.
  Qed.
End Follow.
