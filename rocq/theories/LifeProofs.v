(** Proofs about the lifetimes of the elements of buffers. *)

From Coq Require Import ZArith Arith Bool Lia List.
From Verif Require Import Base ExpandModel ExpandSpec ExpandProofs BufferModel BufferSpec BufferProofs BufferSim LifeModel LifeSpec.
Import ListNotations.
Local Open Scope Z_scope.

Definition reg (st : state) (r : nat) : option region := match nth_error (regions st) r with Some x => x | None => None end.
Definition net (st : state) : Z := Z.of_nat (made st) - Z.of_nat (gone st).
(** Only array [r] has changed. *)
Definition put (st : state) (r : nat) (x : option region) (st' : state) : Prop :=
  objs st' = objs st /\ forall q, reg st' q = if Nat.eqb q r then x else reg st q.
(** Nothing has changed. *)
Definition same (st st' : state) : Prop := objs st' = objs st /\ forall q, reg st' q = reg st q.

Lemma same_refl : forall st, same st st.
Proof. split; auto. Qed.
Lemma same_trans : forall a b c, same a b -> same b c -> same a c.
Proof. intros a b c [O1 R1] [O2 R2]. split; [congruence|]. intro q. rewrite R2. apply R1. Qed.
Lemma put_same : forall a b c r x, put a r x b -> same b c -> put a r x c.
Proof. intros a b c r x [O1 R1] [O2 R2]. split; [congruence|]. intro q. rewrite R2. apply R1. Qed.
Lemma same_put : forall a b c r x, same a b -> put b r x c -> put a r x c.
Proof. intros a b c r x [O1 R1] [O2 R2]. split; [congruence|]. intro q. rewrite R2, R1. reflexivity. Qed.
Lemma put_put : forall a b c r x y, put a r x b -> put b r y c -> put a r y c.
Proof. intros a b c r x y [O1 R1] [O2 R2]. split; [congruence|]. intro q. rewrite R2, R1. destruct (Nat.eqb q r); reflexivity. Qed.
Lemma put_back : forall a b r x, put a r x b -> reg a r = x -> same a b.
Proof. intros a b r x [O1 R1] E. split; [auto|]. intro q. rewrite R1. destruct (Nat.eqb_spec q r); subst; auto. Qed.
Lemma put_reg : forall a b r x, put a r x b -> reg b r = x.
Proof. intros a b r x [_ R1]. rewrite R1, Nat.eqb_refl. reflexivity. Qed.
Lemma put_other : forall a b r x q, put a r x b -> q <> r -> reg b q = reg a q.
Proof. intros a b r x q [_ R1] N. rewrite R1. destruct (Nat.eqb_spec q r); congruence. Qed.

Lemma cells_reg : forall st r, cells_of r st = match reg st r with Some g => Some (r_kind g, r_cells g) | None => None end.
Proof. intros. unfold cells_of, reg. destruct (nth_error (regions st) r) as [[]|]; reflexivity. Qed.
Lemma reg_upd : forall c m g st r x, reg st r <> None ->
  put st r x (mk_state c m g (upd (regions st) r x) (objs st)).
Proof.
  intros c m g st r x H. split; [reflexivity|]. intro q. unfold reg in *. cbn [regions]. rewrite nth_error_upd.
  assert (L : (r < length (regions st))%nat) by (apply nth_error_Some; destruct (nth_error (regions st) r); congruence).
  destruct (Nat.eqb_spec r q); destruct (Nat.eqb_spec q r); try congruence.
  destruct (Nat.ltb_spec r (length (regions st))); [reflexivity|lia].
Qed.

Local Notation "'let*' x := m 'in' f" := (bindM m (fun x => f)) (at level 200, x name, m at level 100, f at level 200).

Section Proofs.
  Variable oracle : nat -> bool.

  Definition maythrow_spec : forall st, exists st', same st st' /\ net st' = net st /\ made st' = made st /\
    (may_throw oracle st = (st', inl tt) \/ may_throw oracle st = (st', inr Thrown)).
  Proof.
    intro st. unfold may_throw. eexists. split; [|split; [|split]]; cycle 3.
    - destruct (oracle (clock st)); [right|left]; reflexivity.
    - split; reflexivity.
    - reflexivity.
    - reflexivity.
  Qed.

  Lemma destroy_cell_spec : forall st r k cs i, reg st r = Some (mk_region k cs) -> nth_error cs i = Some true ->
    exists st', destroy_cell r i st = (st', inl tt) /\ put st r (Some (mk_region k (upd cs i false))) st' /\
      net st' = net st - 1 /\ made st' = made st.
  Proof.
    intros st r k cs i H1 H2. unfold destroy_cell. rewrite cells_reg, H1. cbn [r_kind r_cells]. rewrite H2.
    eexists. split; [reflexivity|]. split; [apply reg_upd; congruence|]. unfold net. cbn [made gone]. split; lia.
  Qed.
  Lemma destroy_cells_spec : forall n st r k cs, reg st r = Some (mk_region k (repeat true n ++ cs)) ->
    exists st', destroy_cells r n st = (st', inl tt) /\ put st r (Some (mk_region k (repeat false n ++ cs))) st' /\
      net st' = net st - Z.of_nat n /\ made st' = made st.
  Proof.
    induction n as [|n IH]; intros st r k cs H.
    - exists st. cbn. split; [reflexivity|]. split; [|split; lia]. split; [reflexivity|]. intro q.
      destruct (Nat.eqb_spec q r); [subst; exact H|reflexivity].
    - cbn [destroy_cells]. unfold bindM.
      replace (repeat true (S n) ++ cs) with (repeat true n ++ true :: cs) in H
        by (cbn [repeat]; rewrite repeat_cons, <- app_assoc; reflexivity).
      destruct (destroy_cell_spec st r k (repeat true n ++ true :: cs) n H) as (st1 & E1 & P1 & N1 & M1).
      { rewrite nth_error_app2; rewrite repeat_length; [|lia]. rewrite Nat.sub_diag. reflexivity. }
      rewrite E1.
      assert (U : upd (repeat true n ++ true :: cs) n false = repeat true n ++ false :: cs).
      { rewrite upd_split by (rewrite app_length, repeat_length; cbn; lia).
        rewrite firstn_app, repeat_length, Nat.sub_diag, firstn_all2 by (rewrite repeat_length; lia). cbn [firstn].
        rewrite app_nil_r. f_equal. f_equal. rewrite skipn_app, repeat_length.
        rewrite skipn_all2 by (rewrite repeat_length; lia). replace (S n - n)%nat with 1%nat by lia. reflexivity. }
      rewrite U in P1. destruct (IH st1 r k (false :: cs) (put_reg _ _ _ _ P1)) as (st2 & E2 & P2 & N2 & M2).
      exists st2. split; [exact E2|]. split; [|split; [lia|congruence]].
      replace (repeat false (S n) ++ cs) with (repeat false n ++ false :: cs)
        by (cbn [repeat]; rewrite repeat_cons, <- app_assoc; reflexivity).
      exact (put_put _ _ _ _ _ _ P1 P2).
  Qed.

  Lemma construct_cell_spec : forall st r k cs i, reg st r = Some (mk_region k cs) -> nth_error cs i = Some false ->
    exists st',
      (construct_cell oracle r i st = (st', inl tt) /\ put st r (Some (mk_region k (upd cs i true))) st' /\ net st' = net st + 1) \/
      (construct_cell oracle r i st = (st', inr Thrown) /\ same st st' /\ net st' = net st).
  Proof.
    intros st r k cs i H1 H2. unfold construct_cell, bindM. destruct (maythrow_spec st) as (st1 & S1 & N1 & M1 & [E|E]); rewrite E.
    - rewrite cells_reg. destruct S1 as [O1 R1]. rewrite R1, H1. cbn [r_kind r_cells]. rewrite H2.
      eexists. left. split; [reflexivity|]. split.
      + apply same_put with st1; [split; assumption|]. apply reg_upd. rewrite R1. congruence.
      + unfold net in *. cbn [made gone]. lia.
    - exists st1. right. auto.
  Qed.

  (** [before] neither fails nor does anything while the arrays other than [r] are as in [st]. *)
  Definition harmless (before : nat -> M unit) (r i n : nat) (st : state) : Prop :=
    forall j st', (i <= j < i + n)%nat -> (forall q, q <> r -> reg st' q = reg st q) -> before j st' = (st', inl tt).

  Lemma bind_inl : forall A B (m : M A) (f : A -> M B) st st' a, m st = (st', inl a) -> bindM m f st = f a st'.
  Proof. intros A B m f st st' a E. unfold bindM. rewrite E. reflexivity. Qed.
  Lemma bind_inr : forall A B (m : M A) (f : A -> M B) st st' e, m st = (st', inr e) -> bindM m f st = (st', inr e).
  Proof. intros A B m f st st' a E. unfold bindM. rewrite E. reflexivity. Qed.
  Lemma unwind_inl : forall A (m : M A) c st st' a, m st = (st', inl a) -> unwind m c st = (st', inl a).
  Proof. intros A m c st st' a E. unfold unwind. rewrite E. reflexivity. Qed.
  Lemma unwind_inr : forall A (m : M A) c st st1 st2 e, (e = Thrown \/ e = Violated) -> m st = (st1, inr e) -> c st1 = (st2, inl tt) ->
    unwind m c st = (st2, inr e).
  Proof. intros A m c st st1 st2 e [->| ->] E E2; unfold unwind; rewrite E; unfold bindM; rewrite E2; reflexivity. Qed.

  Lemma construct_cells_spec : forall before n st r k i, reg st r = Some (mk_region k (repeat true i ++ repeat false n)) ->
    harmless before r i n st ->
    exists st',
      (construct_cells oracle before r i n st = (st', inl tt) /\ put st r (Some (mk_region k (repeat true (i + n)))) st' /\
       net st' = net st + Z.of_nat n) \/
      (construct_cells oracle before r i n st = (st', inr Thrown) /\ put st r (Some (mk_region k (repeat false (i + n)))) st' /\
       net st' = net st - Z.of_nat i).
  Proof.
    induction n as [|n IH]; intros st r k i H B.
    - exists st. left. cbn [construct_cells]. split; [reflexivity|]. rewrite Nat.add_0_r. cbn [repeat] in H. rewrite app_nil_r in H.
      split; [|lia]. split; [reflexivity|]. intro q. destruct (Nat.eqb_spec q r); [subst; exact H|reflexivity].
    - cbn [construct_cells].
      destruct (construct_cell_spec st r k _ i H) as (st1 & [(E & P & N)|(E & P & N)]).
      { rewrite nth_error_app2; rewrite repeat_length; [|lia]. rewrite Nat.sub_diag. reflexivity. }
      + rewrite (bind_inl _ _ _ _ st st1 tt).
        2:{ apply unwind_inl. rewrite (bind_inl _ _ _ _ st st tt); [exact E|]. apply B; [lia|auto]. }
        assert (U : upd (repeat true i ++ repeat false (S n)) i true = repeat true (S i) ++ repeat false n).
        { rewrite upd_split by (rewrite app_length, !repeat_length; lia).
          rewrite firstn_app, repeat_length, Nat.sub_diag, firstn_all2 by (rewrite repeat_length; lia). cbn [firstn].
          rewrite app_nil_r, skipn_app, repeat_length.
          rewrite skipn_all2 by (rewrite repeat_length; lia). replace (S i - i)%nat with 1%nat by lia. cbn [skipn repeat app].
          change (true :: repeat true i ++ repeat false n) with ((true :: repeat true i) ++ repeat false n).
          rewrite repeat_cons, <- app_assoc. reflexivity. }
        rewrite U in P. destruct (IH st1 r k (S i) (put_reg _ _ _ _ P)) as (st2 & [(E2 & P2 & N2)|(E2 & P2 & N2)]).
        { intros j st' Hj Hq. apply B; [lia|]. intros q Nq. rewrite Hq by auto. apply (put_other _ _ _ _ _ P Nq). }
        * exists st2. left. split; [exact E2|]. replace (i + S n)%nat with (S i + n)%nat by lia. split; [exact (put_put _ _ _ _ _ _ P P2)|lia].
        * exists st2. right. split; [exact E2|]. replace (i + S n)%nat with (S i + n)%nat by lia. split; [exact (put_put _ _ _ _ _ _ P P2)|lia].
      + assert (H' : reg st1 r = Some (mk_region k (repeat true i ++ repeat false (S n)))) by (destruct P as [_ R]; rewrite R; exact H).
        destruct (destroy_cells_spec i st1 r k _ H') as (st2 & E2 & P2 & N2 & _).
        exists st2. right. split.
        * apply bind_inr. apply (unwind_inr _ _ _ st st1); [auto| |exact E2]. rewrite (bind_inl _ _ _ _ st st tt); [exact E|]. apply B; [lia|auto].
        * rewrite <- repeat_app in P2. split; [exact (same_put _ _ _ _ _ P P2)|lia].
  Qed.

  Lemma acquire_spec : forall k n st, exists st', acquire k n st = (st', inl (length (regions st))) /\
    reg st (length (regions st)) = None /\ put st (length (regions st)) (Some (mk_region k (repeat false n))) st' /\ net st' = net st.
  Proof.
    intros k n st. eexists. split; [reflexivity|]. split.
    - unfold reg. replace (nth_error (regions st) (length (regions st))) with (@None (option region)); [reflexivity|].
      symmetry. apply nth_error_None. lia.
    - split; [|reflexivity]. split; [reflexivity|]. intro q. unfold reg. cbn [regions]. rewrite nth_error_snoc.
      destruct (Nat.eqb q (length (regions st))); reflexivity.
  Qed.
  Lemma forallb_false : forall n, forallb negb (repeat false n) = true.
  Proof. induction n; auto. Qed.
  Lemma release_spec : forall k r n st, reg st r = Some (mk_region k (repeat false n)) ->
    exists st', release k r st = (st', inl tt) /\ put st r None st' /\ net st' = net st /\ made st' = made st.
  Proof.
    intros k r n st H. unfold release. rewrite cells_reg, H. cbn [r_kind r_cells]. rewrite forallb_false.
    destruct k; cbn [andb]; (eexists; split; [reflexivity|]; split; [apply reg_upd; congruence|]; split; reflexivity).
  Qed.

  Lemma from_nothing_harmless : forall r i n st, harmless from_nothing r i n st.
  Proof. intros r i n st j st' _ _. reflexivity. Qed.
  Lemma nth_repeat_true : forall n i, (i < n)%nat -> nth_error (repeat true n) i = Some true.
  Proof. induction n; intros i H; [lia|]. destruct i; cbn; [reflexivity|]. apply IHn. lia. Qed.
  Lemma use_cell_alive : forall r i k n st, reg st r = Some (mk_region k (repeat true n)) -> (i < n)%nat -> use_cell r i st = (st, inl tt).
  Proof.
    intros r i k n st H L. unfold use_cell. rewrite cells_reg, H. cbn [r_kind r_cells]. rewrite nth_repeat_true by exact L. reflexivity.
  Qed.

  (** ** Arrays *)

  (** A new array with [n] elements in place of nothing. *)
  Definition full (k : kind) (n : nat) : option region := Some (mk_region k (repeat true n)).
  Lemma fill_spec : forall before k n st, harmless before (length (regions st)) 0 n st ->
    exists st',
      ((let* r := acquire k n in let* _ := unwind (construct_cells oracle before r 0 n) (release k r) in ret r) st = (st', inl (length (regions st))) /\
       reg st (length (regions st)) = None /\ put st (length (regions st)) (full k n) st' /\ net st' = net st + Z.of_nat n) \/
      ((let* r := acquire k n in let* _ := unwind (construct_cells oracle before r 0 n) (release k r) in ret r) st = (st', inr Thrown) /\
       same st st' /\ net st' = net st).
  Proof.
    intros before k n st B. destruct (acquire_spec k n st) as (st1 & E1 & F1 & P1 & N1). set (r := length (regions st)) in *.
    rewrite (bind_inl _ _ _ _ _ _ _ E1).
    destruct (construct_cells_spec before n st1 r k 0 (put_reg _ _ _ _ P1)) as (st2 & [(E2 & P2 & N2)|(E2 & P2 & N2)]).
    { intros j st' Hj Hq. apply B; [exact Hj|]. intros q Nq. rewrite Hq by exact Nq. exact (put_other _ _ _ _ _ P1 Nq). }
    - exists st2. left. rewrite (bind_inl _ _ _ _ _ _ _ (unwind_inl _ _ _ _ _ _ E2)). split; [reflexivity|]. split; [exact F1|].
      split; [exact (put_put _ _ _ _ _ _ P1 P2)|lia].
    - destruct (release_spec k r (0 + n) st2 (put_reg _ _ _ _ P2)) as (st3 & E3 & P3 & N3 & _).
      exists st3. right. split; [apply bind_inr; exact (unwind_inr _ _ _ _ _ _ _ (or_introl eq_refl) E2 E3)|].
      split; [|lia]. apply (put_back _ _ r None); [|exact F1]. exact (put_put _ _ _ _ _ _ P1 (put_put _ _ _ _ _ _ P2 P3)).
  Qed.
  Lemma make_member_spec : forall before n st, harmless before (length (regions st)) 0 n st ->
    exists st',
      (make_member oracle before n st = (st', inl (length (regions st))) /\
       reg st (length (regions st)) = None /\ put st (length (regions st)) (full Member n) st' /\ net st' = net st + Z.of_nat n) \/
      (make_member oracle before n st = (st', inr Thrown) /\ same st st' /\ net st' = net st).
  Proof. intros before n st B. exact (fill_spec before Member n st B). Qed.
  Lemma new_array_spec : forall n st,
    exists st',
      (exists r, new_array oracle n st = (st', inl r) /\ n < 2 ^ 63 /\
       reg st r = None /\ put st r (full Heap (Z.to_nat n)) st' /\ net st' = net st + Z.of_nat (Z.to_nat n)) \/
      (new_array oracle n st = (st', inr Thrown) /\ same st st' /\ net st' = net st).
  Proof.
    intros n st. unfold new_array. destruct (maythrow_spec st) as (st1 & S1 & N1 & M1 & [E|E]).
    - rewrite (bind_inl _ _ _ _ _ _ _ E). destruct (Z.ltb_spec n (2 ^ 63)).
      + destruct (fill_spec from_nothing Heap (Z.to_nat n) st1 (from_nothing_harmless _ _ _ _)) as (st2 & [(E2 & F2 & P2 & N2)|(E2 & S2 & N2)]).
        * exists st2. left. eexists. split; [exact E2|]. split; [exact H|]. destruct S1 as [O1 R1]. split; [rewrite <- R1; exact F2|].
          split; [apply (same_put _ st1); [split; assumption|exact P2]|lia].
        * exists st2. right. split; [exact E2|]. split; [exact (same_trans _ _ _ S1 S2)|lia].
      + exists st1. right. auto.
    - rewrite (bind_inr _ _ _ _ _ _ _ E). exists st1. right. auto.
  Qed.
  Lemma empty_spec : forall k n r st, reg st r = full k n ->
    exists st', (let* m := array_length r in let* _ := destroy_cells r m in release k r) st = (st', inl tt) /\
      put st r None st' /\ net st' = net st - Z.of_nat n /\ made st' = made st.
  Proof.
    intros k n r st H. rewrite (bind_inl _ _ _ _ st st n).
    2:{ unfold array_length. rewrite cells_reg, H. cbn [full r_kind r_cells]. rewrite repeat_length. reflexivity. }
    unfold full in H. rewrite <- (app_nil_r (repeat true n)) in H.
    destruct (destroy_cells_spec n st r k [] H) as (st1 & E1 & P1 & N1 & M1). rewrite app_nil_r in P1.
    rewrite (bind_inl _ _ _ _ _ _ _ E1).
    destruct (release_spec k r n st1 (put_reg _ _ _ _ P1)) as (st2 & E2 & P2 & N2 & M2).
    exists st2. split; [exact E2|]. split; [exact (put_put _ _ _ _ _ _ P1 P2)|]. split; [lia|congruence].
  Qed.
  Lemma end_member_spec : forall n r st, reg st r = full Member n ->
    exists st', end_member r st = (st', inl tt) /\ put st r None st' /\ net st' = net st - Z.of_nat n /\ made st' = made st.
  Proof. intros. apply empty_spec. assumption. Qed.
  Lemma delete_array_spec : forall n r st, reg st r = full Heap n ->
    exists st', delete_array (Some r) st = (st', inl tt) /\ put st r None st' /\ net st' = net st - Z.of_nat n /\ made st' = made st.
  Proof. intros. apply empty_spec. assumption. Qed.

  (** ** Objects *)

  Definition wf (st : state) (ob : object) : Prop :=
    sensible (o_shape ob) /\ 0 <= o_size ob < 2 ^ 64 /\
    reg st (o_buf ob) = full Member (Z.to_nat (in_place (o_shape ob))) /\
    if uses_heap (o_shape ob) (o_size ob) then
      exists r, o_data ob = Some r /\ reg st r = full Heap (Z.to_nat (o_size ob))
    else match layout_of (o_shape ob) with LDynamic _ => o_data ob = Some (o_buf ob) | LHeap => o_data ob = None | _ => True end.
  Definition owned (ob : object) (q : nat) : bool :=
    Nat.eqb q (o_buf ob) || (uses_heap (o_shape ob) (o_size ob) && same_array (o_data ob) q).

  Lemma member_in_place : forall sh, sensible sh -> member_length sh = Z.to_nat (in_place sh).
  Proof.
    intros sh H. pose proof (layout_cases sh H) as L. unfold member_length. f_equal. unfold in_place.
    destruct (layout_of sh) as [E|Mx|B|] eqn:EL.
    - destruct L as (L1 & L2 & L3). destruct sh as [E' Mx|E' Mx]; cbn [shape_extent] in L1; subst E'.
      + destruct (Z.eqb_spec E (-1)); [lia|]. rewrite L3. reflexivity.
      + destruct (Z.eqb_spec E (-1)); [lia|]. reflexivity.
    - destruct L as (-> & L). cbn. reflexivity.
    - destruct L as (-> & L). cbn [Z.eqb Pos.eqb]. lia.
    - destruct L as ((E & Mx & ->) & L1 & L2). destruct (Z.eqb_spec E (-1)).
      + subst. destruct (L2 eq_refl) as (Mx' & E' & L'). inversion E'. lia.
      + rewrite L1. reflexivity.
  Qed.
  Lemma uses_heap_layout : forall sh n, sensible sh -> uses_heap sh n =
    match layout_of sh with LStatic _ | LFixed _ => false | LDynamic B => B <? n | LHeap => 0 <? n end.
  Proof.
    intros sh n H. pose proof (layout_cases sh H) as L. unfold uses_heap. destruct (layout_of sh) as [E|Mx|B|].
    - destruct L as (_ & _ & ->). reflexivity.
    - destruct L as (-> & _). reflexivity.
    - destruct L as (-> & L). cbn [heap_limit Z.eqb Pos.eqb]. rewrite Z.max_r by lia. reflexivity.
    - destruct L as (_ & -> & _). reflexivity.
  Qed.
  Lemma cast_nonneg : forall z, 0 <= z < 2 ^ 64 -> cast size_ty z = z.
  Proof. intros z H. rewrite cast_size_mod. apply Z.mod_small. exact H. Qed.

  (** A new object [ob] with number [o]. *)
  Definition added (st : state) (o : nat) (ob : object) (st' : state) : Prop :=
    o = length (objs st) /\ objs st' = objs st ++ [Some ob] /\ wf st' ob /\
    (forall q, owned ob q = true -> reg st q = None) /\ (forall q, owned ob q = false -> reg st' q = reg st q) /\
    net st' = net st + Z.of_nat (held_by ob).
  Definition unchanged (st st' : state) : Prop := same st st' /\ net st' = net st.

  Lemma same_array_true : forall p q, same_array p q = true <-> p = Some q.
  Proof. intros [r|] q; cbn; [|split; discriminate]. rewrite Nat.eqb_eq. split; congruence. Qed.

  Lemma construct_base_spec : forall sh n st, sensible sh -> 0 <= n < 2 ^ 64 ->
    exists st',
      (exists p b, construct_base oracle sh n st = (st', inl (length (objs st))) /\ added st (length (objs st)) (mk_object sh p n b) st') \/
      (construct_base oracle sh n st = (st', inr Thrown) /\ unchanged st st').
  Proof.
    intros sh n st Hs Hn. unfold construct_base.
    destruct (make_member_spec from_nothing (member_length sh) st (from_nothing_harmless _ _ _ _)) as (st1 & [(E1 & F1 & P1 & N1)|(E1 & S1 & N1)]).
    2:{ exists st1. right. rewrite (bind_inr _ _ _ _ _ _ _ E1). split; [reflexivity|]. split; assumption. }
    rewrite (bind_inl _ _ _ _ _ _ _ E1). set (b := length (regions st)) in *.
    rewrite (member_in_place sh Hs) in *.
    pose proof (layout_cases sh Hs) as L. pose proof (uses_heap_layout sh n Hs) as U.
    (* without a heap block *)
    assert (Q : forall p m, uses_heap sh n = false -> m st1 = (st1, inl p) ->
      match layout_of sh with LDynamic _ => p = Some b | LHeap => p = None | _ => True end ->
      exists st', bindM (unwind m (end_member b)) (fun p => push_obj (mk_object sh p n b)) st1 = (st', inl (length (objs st))) /\
        added st (length (objs st)) (mk_object sh p n b) st').
    { intros p m Un Em Hp. destruct P1 as [O1 R1]. eexists. rewrite (bind_inl _ _ _ _ _ _ _ (unwind_inl _ _ _ _ _ _ Em)).
      unfold push_obj. rewrite O1. split; [reflexivity|]. split; [reflexivity|]. cbn [objs]. split; [reflexivity|].
      split; [|split; [|split]].
      - split; [exact Hs|]. split; [exact Hn|]. cbn [o_buf o_shape o_size o_data]. rewrite Un. split; [|exact Hp].
        change (reg st1 b = full Member (Z.to_nat (in_place sh))). rewrite R1, Nat.eqb_refl. reflexivity.
      - intros q. unfold owned. cbn [o_buf o_shape o_size]. rewrite Un, orb_false_r, Nat.eqb_eq. intros ->. exact F1.
      - intros q. unfold owned. cbn [o_buf o_shape o_size]. rewrite Un, orb_false_r. intro Hq.
        change (reg st1 q = reg st q). rewrite R1, Hq. reflexivity.
      - change (net st1 = net st + Z.of_nat (held_by (mk_object sh p n b))). unfold held_by, held. cbn [o_shape o_size].
        rewrite Un, Nat.add_0_r. exact N1. }
    (* with a heap block *)
    assert (Q' : forall m, uses_heap sh n = true -> m = (let* p := new_array oracle n in ret (Some p)) ->
      exists st', (exists p, bindM (unwind m (end_member b)) (fun p => push_obj (mk_object sh p n b)) st1 = (st', inl (length (objs st))) /\
        added st (length (objs st)) (mk_object sh p n b) st') \/
        (bindM (unwind m (end_member b)) (fun p => push_obj (mk_object sh p n b)) st1 = (st', inr Thrown) /\ unchanged st st')).
    { intros m Un ->. pose proof P1 as [O1 R1]. destruct (new_array_spec n st1) as (st2 & [(r & E2 & L2 & F2 & P2 & N2)|(E2 & S2 & N2)]).
      - assert (Nr : r <> b) by (intros ->; rewrite R1, Nat.eqb_refl in F2; discriminate F2).
        assert (F0 : reg st r = None). { rewrite R1 in F2. destruct (Nat.eqb_spec r b); [contradiction|exact F2]. }
        destruct P2 as [O2 R2].
        eexists. left. exists (Some r). rewrite (bind_inl _ _ _ _ st1 st2 (Some r)).
        2:{ apply unwind_inl. rewrite (bind_inl _ _ _ _ _ _ _ E2). reflexivity. }
        unfold push_obj. rewrite O2, O1. split; [reflexivity|]. split; [reflexivity|]. cbn [objs]. split; [reflexivity|].
        split; [|split; [|split]].
        + split; [exact Hs|]. split; [exact Hn|]. cbn [o_buf o_shape o_size o_data]. rewrite Un. split.
          * change (reg st2 b = full Member (Z.to_nat (in_place sh))). rewrite R2. destruct (Nat.eqb_spec b r); [congruence|].
            rewrite R1, Nat.eqb_refl. reflexivity.
          * exists r. split; [reflexivity|]. change (reg st2 r = full Heap (Z.to_nat n)). rewrite R2, Nat.eqb_refl. reflexivity.
        + intros q. unfold owned. cbn [o_buf o_shape o_size o_data]. rewrite Un, orb_true_iff. cbn [andb].
          rewrite same_array_true, Nat.eqb_eq. intros [->|Hq]; [exact F1|]. inversion Hq; subst. exact F0.
        + intros q. unfold owned. cbn [o_buf o_shape o_size o_data]. rewrite Un, orb_false_iff. cbn [andb same_array].
          intros [H1 H2]. change (reg st2 q = reg st q). rewrite R2, Nat.eqb_sym, H2, R1, H1. reflexivity.
        + change (net st2 = net st + Z.of_nat (held_by (mk_object sh (Some r) n b))). unfold held_by, held. cbn [o_shape o_size].
          rewrite Un. lia.
      - assert (F2 : reg st2 b = full Member (Z.to_nat (in_place sh))).
        { destruct S2 as [_ R2]. rewrite R2, R1, Nat.eqb_refl. reflexivity. }
        destruct (end_member_spec _ _ _ F2) as (st3 & E3 & P3 & N3 & _).
        exists st3. right. split.
        + apply bind_inr. apply (unwind_inr _ _ _ _ st2); [auto| |exact E3]. apply bind_inr. exact E2.
        + split; [|lia]. apply (put_back _ _ b None); [|exact F1].
          apply (put_put _ st2 _ _ (full Member (Z.to_nat (in_place sh)))); [exact (put_same _ _ _ _ _ P1 S2)|exact P3]. }
    destruct (layout_of sh) as [E|Mx|B|] eqn:EL.
    - destruct (Q None (ret None) U eq_refl I) as (st' & E' & A). exists st'. left. exists None, b. auto.
    - destruct (Q None (ret None) U eq_refl I) as (st' & E' & A). exists st'. left. exists None, b. auto.
    - rewrite cast_nonneg by lia. destruct (Z.leb_spec n B).
      + destruct (Z.ltb_spec B n); [lia|]. destruct (Q (Some b) (ret (Some b)) U eq_refl eq_refl) as (st' & E' & A).
        exists st'. left. exists (Some b), b. auto.
      + destruct (Z.ltb_spec B n); [|lia]. destruct (Q' _ U eq_refl) as (st' & [(p & E' & A)|(E' & A)]); exists st'; [left; exists p, b; auto|right; auto].
    - rewrite Z.gtb_ltb. destruct (Z.ltb_spec 0 n).
      + destruct (Q' _ U eq_refl) as (st' & [(p & E' & A)|(E' & A)]); exists st'; [left; exists p, b; auto|right; auto].
      + destruct (Q None (ret None) U eq_refl eq_refl) as (st' & E' & A). exists st'. left. exists None, b. auto.
  Qed.

  (** The end of object [o]. *)
  Definition removed (st : state) (o : nat) (ob : object) (st' : state) : Prop :=
    objs st' = upd (objs st) o None /\ (forall q, reg st' q = if owned ob q then None else reg st q) /\
    net st' = net st - Z.of_nat (held_by ob) /\ made st' = made st.
  Lemma destroy_base_spec : forall o ob st, live st o = Some ob -> wf st ob ->
    exists st', destroy_base o st = (st', inl tt) /\ removed st o ob st'.
  Proof.
    intros o ob st Hl (Hs & Hn & Hb & Hd). unfold destroy_base.
    rewrite (bind_inl _ _ _ _ st st ob).
    2:{ unfold get_obj, live in *. destruct (nth_error (objs st) o) as [[]|]; congruence. }
    rewrite (uses_heap_layout _ _ Hs) in Hd. pose proof (uses_heap_layout _ (o_size ob) Hs) as U.
    set (m := match layout_of (o_shape ob) with LStatic _ => _ | _ => _ end).
    assert (Q : exists st1, m st = (st1, inl tt) /\ objs st1 = objs st /\ made st1 = made st /\
      (forall q, reg st1 q = if uses_heap (o_shape ob) (o_size ob) && same_array (o_data ob) q then None else reg st q) /\
      net st1 = net st - Z.of_nat (if uses_heap (o_shape ob) (o_size ob) then Z.to_nat (o_size ob) else 0)).
    { assert (Q0 : uses_heap (o_shape ob) (o_size ob) = false -> m st = (st, inl tt) ->
        exists st1, m st = (st1, inl tt) /\ objs st1 = objs st /\ made st1 = made st /\
          (forall q, reg st1 q = if uses_heap (o_shape ob) (o_size ob) && same_array (o_data ob) q then None else reg st q) /\
          net st1 = net st - Z.of_nat (if uses_heap (o_shape ob) (o_size ob) then Z.to_nat (o_size ob) else 0)).
      { intros Un Em. exists st. rewrite Un. cbn [andb]. repeat split; auto. cbn. lia. }
      assert (Q1 : uses_heap (o_shape ob) (o_size ob) = true -> m st = delete_array (o_data ob) st ->
        (exists r, o_data ob = Some r /\ reg st r = full Heap (Z.to_nat (o_size ob))) ->
        exists st1, m st = (st1, inl tt) /\ objs st1 = objs st /\ made st1 = made st /\
          (forall q, reg st1 q = if uses_heap (o_shape ob) (o_size ob) && same_array (o_data ob) q then None else reg st q) /\
          net st1 = net st - Z.of_nat (if uses_heap (o_shape ob) (o_size ob) then Z.to_nat (o_size ob) else 0)).
      { intros Un Em (r & Er & Fr). rewrite Er in Em. destruct (delete_array_spec _ _ _ Fr) as (st1 & E1 & [O1 R1] & N1 & M1).
        exists st1. rewrite Em, Un, Er. cbn [andb same_array]. repeat split; auto. intro q. rewrite R1, Nat.eqb_sym. reflexivity. }
      unfold m in *. clear m. destruct (layout_of (o_shape ob)) as [E|Mx|B|].
      - apply Q0; auto.
      - apply Q0; auto.
      - destruct (B <? o_size ob).
        + destruct Hd as (r & Er & Fr). apply Q1; [exact U| |eauto]. rewrite Er. cbn [same_array].
          destruct (Nat.eqb_spec r (o_buf ob)); [subst r; rewrite Fr in Hb; discriminate Hb|]. reflexivity.
        + apply Q0; [exact U|]. rewrite Hd. cbn [same_array]. rewrite Nat.eqb_refl. reflexivity.
      - destruct (0 <? o_size ob).
        + apply Q1; auto.
        + apply Q0; [exact U|]. rewrite Hd. reflexivity. }
    destruct Q as (st1 & E1 & O1 & M1 & R1 & N1). rewrite (bind_inl _ _ _ _ _ _ _ E1).
    assert (F1 : reg st1 (o_buf ob) = full Member (Z.to_nat (in_place (o_shape ob)))).
    { rewrite R1. destruct (uses_heap (o_shape ob) (o_size ob) && same_array (o_data ob) (o_buf ob)) eqn:C; [|exact Hb].
      apply andb_true_iff in C. destruct C as [C1 C2]. apply same_array_true in C2. rewrite U in C1. rewrite C1 in Hd.
      destruct Hd as (r & Er & Fr). rewrite Er in C2. inversion C2; subst. rewrite Fr in Hb. discriminate Hb. }
    destruct (end_member_spec _ _ _ F1) as (st2 & E2 & [O2 R2] & N2 & M2).
    rewrite (bind_inl _ _ _ _ _ _ _ E2). eexists. split; [reflexivity|]. split; [|split; [|split]].
    - cbn [objs]. rewrite O2, O1. reflexivity.
    - intro q. change (reg st2 q = if owned ob q then None else reg st q). rewrite R2. unfold owned.
      destruct (Nat.eqb q (o_buf ob)); [reflexivity|]. rewrite R1. reflexivity.
    - change (net st2 = net st - Z.of_nat (held_by ob)). unfold held_by, held. lia.
    - change (made st2 = made st). congruence.
  Qed.

  (** ** States *)

  (** Nothing has changed except for the number of objects that were ever created. *)
  Definition unaltered (st st' : state) : Prop :=
    (forall o, live st' o = live st o) /\ (forall q, reg st' q = reg st q) /\ net st' = net st /\ total st' = total st.
  Lemma unaltered_refl : forall st, unaltered st st.
  Proof. repeat split; auto. Qed.
  Lemma unaltered_of : forall st st', unchanged st st' -> unaltered st st'.
  Proof.
    intros st st' [[O R] N]. split; [|split; [exact R|split; [exact N|]]].
    - intro o. unfold live. rewrite O. reflexivity.
    - unfold total. rewrite O. reflexivity.
  Qed.
  Lemma total_app : forall l l', list_sum (map (fun x => match x with Some ob => held_by ob | None => 0%nat end) (l ++ l')) =
    (list_sum (map (fun x => match x with Some ob => held_by ob | None => 0%nat end) l) +
     list_sum (map (fun x => match x with Some ob => held_by ob | None => 0%nat end) l'))%nat.
  Proof. intros. rewrite map_app, list_sum_app. reflexivity. Qed.
  Lemma total_upd : forall l o ob x, nth_error l o = Some (Some ob) ->
    (list_sum (map (fun x => match x with Some ob => held_by ob | None => 0%nat end) (upd l o x)) + held_by ob =
     list_sum (map (fun x => match x with Some ob => held_by ob | None => 0%nat end) l) + match x with Some ob => held_by ob | None => 0%nat end)%nat.
  Proof.
    induction l as [|y l IH]; intros o ob x H; [destruct o; discriminate|]. destruct o as [|o]; cbn in H |- *.
    - inversion H; subst. lia.
    - specialize (IH o ob x H). unfold list_sum in *. lia.
  Qed.

  Lemma wf_reg : forall st st' ob, wf st ob -> (forall q, owned ob q = true -> reg st' q = reg st q) -> wf st' ob.
  Proof.
    intros st st' ob (Hs & Hn & Hb & Hd) R. split; [exact Hs|]. split; [exact Hn|]. split.
    - rewrite R; [exact Hb|]. unfold owned. rewrite Nat.eqb_refl. reflexivity.
    - destruct (uses_heap (o_shape ob) (o_size ob)) eqn:U; [|exact Hd]. destruct Hd as (r & Er & Fr). exists r. split; [exact Er|].
      rewrite R; [exact Fr|]. unfold owned. rewrite U, Er. cbn [same_array andb]. rewrite Nat.eqb_refl, orb_true_r. reflexivity.
  Qed.
  Lemma wf_owned : forall st ob q, wf st ob -> owned ob q = true -> reg st q <> None.
  Proof.
    intros st ob q (Hs & Hn & Hb & Hd) O. unfold owned in O. apply orb_true_iff in O. destruct O as [O|O].
    - apply Nat.eqb_eq in O. subst. rewrite Hb. discriminate.
    - apply andb_true_iff in O. destruct O as [U O]. rewrite U in Hd. destruct Hd as (r & Er & Fr). rewrite Er in O.
      cbn in O. apply Nat.eqb_eq in O. subst. rewrite Fr. discriminate.
  Qed.

  Definition fits (ob : object) : Prop := match layout_of (o_shape ob) with LFixed Mx => o_size ob <= Mx | _ => True end.
  Definition Inv (st : state) : Prop :=
    (forall o ob, live st o = Some ob -> wf st ob /\ fits ob) /\
    (forall o o' ob ob' q, live st o = Some ob -> live st o' = Some ob' -> owned ob q = true -> owned ob' q = true -> o = o') /\
    (forall q, reg st q <> None -> exists o ob, live st o = Some ob /\ owned ob q = true) /\
    net st = Z.of_nat (total st).
  Lemma Inv_initial : Inv initial.
  Proof.
    split; [|split; [|split]].
    - intros o ob H. destruct o; discriminate.
    - intros o o' ob ob' q H. destruct o; discriminate.
    - intros q H. exfalso. apply H. unfold reg, initial. cbn. destruct q; reflexivity.
    - reflexivity.
  Qed.
  Lemma Inv_unaltered : forall st st', Inv st -> unaltered st st' -> Inv st'.
  Proof.
    intros st st' (I1 & I2 & I3 & I4) (L & R & N & T). split; [|split; [|split]].
    - intros o ob H. rewrite L in H. destruct (I1 o ob H) as [W F]. split; [|exact F]. apply (wf_reg st); auto.
    - intros o o' ob ob' q H H'. rewrite L in H, H'. apply (I2 o o' ob ob' q H H').
    - intros q H. rewrite R in H. destruct (I3 q H) as (o & ob & A & B). exists o, ob. rewrite L. auto.
    - rewrite N, T. exact I4.
  Qed.

  Lemma live_added : forall st o ob st' o', added st o ob st' -> live st' o' = if Nat.eqb o' o then Some ob else live st o'.
  Proof.
    intros st o ob st' o' (-> & O & _). unfold live. rewrite O, nth_error_snoc. destruct (Nat.eqb o' (length (objs st))); reflexivity.
  Qed.
  Lemma live_fresh : forall st, live st (length (objs st)) = None.
  Proof. intro st. unfold live. replace (nth_error (objs st) (length (objs st))) with (@None (option object)); [reflexivity|]. symmetry. apply nth_error_None. lia. Qed.
  Lemma total_added : forall st o ob st', added st o ob st' -> total st' = (total st + held_by ob)%nat.
  Proof. intros st o ob st' (_ & O & _). unfold total. rewrite O, total_app. cbn. lia. Qed.
  Lemma Inv_added : forall st o ob st', Inv st -> added st o ob st' -> fits ob -> Inv st'.
  Proof.
    intros st o ob st' (I1 & I2 & I3 & I4) A F. pose proof (total_added _ _ _ _ A) as T.
    pose proof (fun o' => live_added _ _ _ _ o' A) as L'.
    destruct A as (Eo & _ & W & A1 & A2 & A3). split; [|split; [|split]].
    - intros o' ob' H. rewrite L' in H. destruct (Nat.eqb_spec o' o).
      + inversion H; subst. auto.
      + destruct (I1 _ _ H) as [W' F']. split; [|exact F']. apply (wf_reg st); [exact W'|]. intros q Oq. apply A2.
        destruct (owned ob q) eqn:Oq'; [|reflexivity]. exfalso. exact (wf_owned _ _ _ W' Oq (A1 q Oq')).
    - intros o1 o2 ob1 ob2 q H1 H2 O1 O2. rewrite L' in H1, H2.
      destruct (Nat.eqb_spec o1 o); destruct (Nat.eqb_spec o2 o); try congruence.
      + inversion H1; subst. exfalso. exact (wf_owned _ _ _ (proj1 (I1 _ _ H2)) O2 (A1 q O1)).
      + inversion H2; subst. exfalso. exact (wf_owned _ _ _ (proj1 (I1 _ _ H1)) O1 (A1 q O2)).
      + exact (I2 _ _ _ _ _ H1 H2 O1 O2).
    - intros q H. destruct (owned ob q) eqn:Oq.
      + exists o, ob. rewrite L', Nat.eqb_refl. auto.
      + rewrite (A2 q Oq) in H. destruct (I3 q H) as (o' & ob' & H1 & H2). exists o', ob'. rewrite L'.
        destruct (Nat.eqb_spec o' o); [|auto]. subst. rewrite live_fresh in H1. discriminate.
    - rewrite A3, T, I4. lia.
  Qed.


  Lemma live_nth : forall st o ob, live st o = Some ob -> nth_error (objs st) o = Some (Some ob).
  Proof. intros st o ob H. unfold live in H. destruct (nth_error (objs st) o) as [[]|]; congruence. Qed.
  Lemma live_upd : forall st l o ob x, live st o = Some ob -> l = upd (objs st) o x ->
    forall o', match nth_error l o' with Some (Some ob) => Some ob | _ => None end = if Nat.eqb o' o then x else live st o'.
  Proof.
    intros st l o ob x H -> o'. apply live_nth in H. rewrite nth_error_upd.
    assert (L : (o < length (objs st))%nat) by (apply nth_error_Some; congruence).
    destruct (Nat.eqb_spec o o'); destruct (Nat.eqb_spec o' o); try congruence; try reflexivity.
    destruct (Nat.ltb_spec o (length (objs st))); [|lia]. destruct x; reflexivity.
  Qed.
  Lemma live_removed : forall st o ob st' o', live st o = Some ob -> removed st o ob st' -> live st' o' = if Nat.eqb o' o then None else live st o'.
  Proof. intros st o ob st' o' H (O & _). exact (live_upd st (objs st') o ob None H O o'). Qed.
  Lemma total_removed : forall st o ob st', live st o = Some ob -> removed st o ob st' -> (total st' + held_by ob = total st)%nat.
  Proof.
    intros st o ob st' H (O & _). unfold total. rewrite O. apply live_nth in H.
    pose proof (total_upd (objs st) o ob None H) as T. cbn beta iota in T. lia.
  Qed.
  Lemma Inv_removed : forall st o ob st', Inv st -> live st o = Some ob -> removed st o ob st' -> Inv st'.
  Proof.
    intros st o ob st' (I1 & I2 & I3 & I4) H A. pose proof (total_removed _ _ _ _ H A) as T.
    pose proof (fun o' => live_removed _ _ _ _ o' H A) as L. destruct A as (_ & R & N & _). split; [|split; [|split]].
    - intros o' ob' H'. rewrite L in H'. destruct (Nat.eqb_spec o' o); [discriminate|]. destruct (I1 _ _ H') as [W F].
      split; [|exact F]. apply (wf_reg st); [exact W|]. intros q Oq. rewrite R. destruct (owned ob q) eqn:Oq'; [|reflexivity].
      exfalso. apply n. exact (I2 _ _ _ _ _ H' H Oq Oq').
    - intros o1 o2 ob1 ob2 q H1 H2 O1 O2. rewrite L in H1, H2.
      destruct (Nat.eqb_spec o1 o); destruct (Nat.eqb_spec o2 o); try discriminate. exact (I2 _ _ _ _ _ H1 H2 O1 O2).
    - intros q Hq. rewrite R in Hq. destruct (owned ob q) eqn:Oq; [congruence|]. destruct (I3 q Hq) as (o' & ob' & H1 & H2).
      exists o', ob'. rewrite L. destruct (Nat.eqb_spec o' o); [subst; congruence|auto].
    - lia.
  Qed.

  Lemma added_then : forall st o ob st1 st2, added st o ob st1 -> unchanged st1 st2 -> added st o ob st2.
  Proof.
    intros st o ob st1 st2 (A0 & A1 & A2 & A3 & A4 & A5) [[O R] N]. split; [exact A0|]. split; [congruence|].
    split; [apply (wf_reg st1); auto|]. split; [exact A3|]. split; [intros q Oq; rewrite R; auto|lia].
  Qed.
  Lemma undone : forall st o ob st1 st2, added st o ob st1 -> removed st1 o ob st2 -> unaltered st st2.
  Proof.
    intros st o ob st1 st2 A D. pose proof (total_added _ _ _ _ A) as TA.
    assert (Hl : live st1 o = Some ob) by (rewrite (live_added _ _ _ _ o A), Nat.eqb_refl; reflexivity).
    pose proof (total_removed _ _ _ _ Hl D) as TD. split; [|split; [|split]].
    - intro o'. rewrite (live_removed _ _ _ _ o' Hl D), (live_added _ _ _ _ o' A). destruct (Nat.eqb_spec o' o); [|reflexivity].
      subst. destruct A as (-> & _). symmetry. apply live_fresh.
    - intro q. destruct D as (_ & R & _). rewrite R. destruct A as (_ & _ & _ & A3 & A4 & _). destruct (owned ob q) eqn:Oq; [symmetry; auto|auto].
    - destruct D as (_ & _ & N & _). destruct A as (_ & _ & _ & _ & _ & A5). lia.
    - lia.
  Qed.

  (** ** Operations *)

  (** Whatever follows the construction of the base class and may only throw. *)
  Lemma construct_then : forall A sh n (k : nat -> M A) st, sensible sh -> 0 <= n < 2 ^ 64 ->
    (forall o ob st1, o_shape ob = sh -> o_size ob = n -> added st o ob st1 -> live st1 o = Some ob ->
      exists st2, unchanged st1 st2 /\ ((exists a, k o st1 = (st2, inl a)) \/ exists e, (e = Thrown \/ e = Violated) /\ k o st1 = (st2, inr e))) ->
    exists st', 
      (exists e, bindM (construct_base oracle sh n) (fun o => unwind (k o) (destroy_base o)) st = (st', inr e) /\
       (e = Thrown \/ e = Violated) /\ unaltered st st') \/
      (exists o ob st1 a, o_shape ob = sh /\ o_size ob = n /\ added st o ob st1 /\ added st o ob st' /\ k o st1 = (st', inl a) /\
       bindM (construct_base oracle sh n) (fun o => unwind (k o) (destroy_base o)) st = (st', inl a)).
  Proof.
    intros A sh n k st Hs Hn K. destruct (construct_base_spec sh n st Hs Hn) as (st1 & [(p & b & E1 & A1)|(E1 & U1)]).
    - rewrite (bind_inl _ _ _ _ _ _ _ E1). set (o := length (objs st)) in *. set (ob := mk_object sh p n b) in *.
      assert (Hl : live st1 o = Some ob) by (rewrite (live_added _ _ _ _ o A1), Nat.eqb_refl; reflexivity).
      destruct (K o ob st1 eq_refl eq_refl A1 Hl) as (st2 & U2 & [(a & E2)|(e & He & E2)]).
      + exists st2. right. exists o, ob, st1, a. split; [reflexivity|]. split; [reflexivity|]. split; [exact A1|].
        split; [exact (added_then _ _ _ _ _ A1 U2)|]. split; [exact E2|]. apply unwind_inl. exact E2.
      + pose proof (added_then _ _ _ _ _ A1 U2) as A2.
        assert (Hl2 : live st2 o = Some ob) by (rewrite (live_added _ _ _ _ o A2), Nat.eqb_refl; reflexivity).
        destruct (destroy_base_spec o ob st2 Hl2) as (st3 & E3 & D3). { apply A2. }
        exists st3. left. exists e. split; [exact (unwind_inr _ _ _ _ _ _ _ He E2 E3)|]. split; [exact He|]. exact (undone _ _ _ _ _ A2 D3).
    - exists st1. left. exists Thrown. rewrite (bind_inr _ _ _ _ _ _ _ E1). split; [reflexivity|]. split; [auto|]. apply unaltered_of. exact U1.
  Qed.

  Definition alive (st : state) (p : option nat) (n : nat) : Prop :=
    match p with Some r => exists k m, reg st r = full k m /\ (n <= m)%nat | None => n = 0%nat end.
  Lemma alive_same : forall st st' p n, alive st p n -> (forall q, reg st' q = reg st q) -> alive st' p n.
  Proof. intros st st' [r|] n H R; [|exact H]. destruct H as (k & m & F & L). exists k, m. rewrite R. auto. Qed.
  Lemma assign_cells_spec : forall n src dst i st, alive st dst (i + n) -> match src with Some p => alive st p (i + n) | None => True end ->
    exists st', unchanged st st' /\ (assign_cells oracle src dst i n st = (st', inl tt) \/ assign_cells oracle src dst i n st = (st', inr Thrown)).
  Proof.
    induction n as [|n IH]; intros src dst i st D S; cbn [assign_cells].
    - exists st. split; [split; [apply same_refl|reflexivity]|]. left. reflexivity.
    - rewrite (bind_inl _ _ _ _ st st tt).
      2:{ destruct src as [[r|]|]; cbn [alive at_data] in *; [|lia|reflexivity]. destruct S as (k & m & F & L). apply (use_cell_alive _ _ k m _ F). lia. }
      destruct dst as [r|]; cbn [alive at_data] in *; [|lia]. destruct D as (k & m & F & L).
      assert (E0 : assign_cell oracle r i st = may_throw oracle st) by (unfold assign_cell; rewrite (bind_inl _ _ _ _ st st tt); [reflexivity|apply (use_cell_alive _ _ k m _ F); lia]).
      destruct (maythrow_spec st) as (st1 & S1 & N1 & M1 & [E|E]); rewrite <- E0 in E.
      + rewrite (bind_inl _ _ _ _ _ _ _ E). destruct S1 as [O1 R1].
        destruct (IH src (Some r) (Datatypes.S i) st1) as (st2 & [U2 V2] & H2).
        * exists k, m. rewrite R1. split; [exact F|lia].
        * destruct src as [p|]; [|exact I]. apply (alive_same st); [|exact R1]. rewrite Nat.add_succ_comm. exact S.
        * exists st2. split; [|exact H2]. split; [apply (same_trans _ st1); [split; assumption|exact U2]|congruence].
      + rewrite (bind_inr _ _ _ _ _ _ _ E). exists st1. split; [split; assumption|auto].
  Qed.

  Lemma size_of_nonneg : forall st ob, wf st ob -> 0 <= size_of ob.
  Proof.
    intros st ob (Hs & Hn & _). pose proof (layout_cases _ Hs) as L. unfold size_of. destruct (layout_of (o_shape ob)); lia.
  Qed.
  Lemma data_alive : forall st ob, wf st ob -> fits ob -> alive st (data_of ob) (Z.to_nat (size_of ob)).
  Proof.
    intros st ob (Hs & Hn & Hb & Hd) F. pose proof (layout_cases _ Hs) as L. rewrite (uses_heap_layout _ _ Hs) in Hd.
    rewrite <- (member_in_place _ Hs) in Hb. unfold data_of, size_of, fits, member_length in *.
    destruct (layout_of (o_shape ob)) as [E|Mx|B|]; cbn [alive].
    - exists Member. eexists. split; [exact Hb|lia].
    - exists Member. eexists. split; [exact Hb|lia].
    - destruct (Z.ltb_spec B (o_size ob)).
      + destruct Hd as (r & -> & Fr). exists Heap. eexists. split; [exact Fr|lia].
      + rewrite Hd. exists Member. eexists. split; [exact Hb|lia].
    - destruct (Z.ltb_spec 0 (o_size ob)).
      + destruct Hd as (r & -> & Fr). exists Heap. eexists. split; [exact Fr|lia].
      + rewrite Hd. cbn. lia.
  Qed.

  Lemma get_obj_live : forall st o, (exists ob, live st o = Some ob /\ get_obj o st = (st, inl ob)) \/ (live st o = None /\ get_obj o st = (st, inr Misuse)).
  Proof. intros st o. unfold live, get_obj. destruct (nth_error (objs st) o) as [[ob|]|]; eauto. Qed.

  (** The object that a successful operation creates. *)
  Definition creates (m : M nat) (sh : shape) (n : Z) (st : state) : Prop :=
    exists st',
      (exists e, m st = (st', inr e) /\ e <> LifeErr /\ unaltered st st') \/
      (exists o ob, m st = (st', inl o) /\ o_shape ob = sh /\ size_of ob = n /\ held_by ob = held sh n /\ added st o ob st' /\ fits ob).

  Lemma held_size : forall ob, sensible (o_shape ob) -> held_by ob = held (o_shape ob) (size_of ob).
  Proof.
    intros ob H. unfold held_by, held. rewrite !uses_heap_layout by exact H. unfold size_of. destruct (layout_of (o_shape ob)); reflexivity.
  Qed.

  Lemma construct_creates : forall sh a st, sensible sh -> proper_size a -> creates (construct oracle sh a) sh (sa_value a) st.
  Proof.
    intros sh a st Hs Ha. unfold creates, construct.
    destruct (shape_ok sh && size_ctor_ok sh a) eqn:C.
    2:{ exists st. left. exists Rejected. split; [reflexivity|]. split; [discriminate|apply unaltered_refl]. }
    pose proof (proper_range a Ha) as Hr.
    destruct (construct_then nat sh (cast size_ty (sa_value a)) (fun o => if check_extents sh a then ret o else fail Violated) st Hs)
      as (st' & [(e & E & He & U)|(o & ob & st1 & a' & S1 & N1 & A1 & A2 & K & E)]).
    - rewrite cast_size_mod. apply Z.mod_pos_bound. lia.
    - intros o ob st1 _ _ _ _. exists st1. split; [split; [apply same_refl|reflexivity]|].
      destruct (check_extents sh a); [left; exists o; reflexivity|right; exists Violated; split; [auto|reflexivity]].
    - exists st'. left. exists e. split; [exact E|]. split; [destruct He; subst; discriminate|exact U].
    - exists st'. right. exists o, ob.
      rewrite (check_spec sh a Hs Ha) in *.
      destruct (if shape_extent sh =? -1 then _ else _) eqn:Ck; [|discriminate K]. cbn in K. inversion K; subst a' st1.
      pose proof (layout_cases sh Hs) as L.
      assert (R : 0 <= sa_value a).
      { destruct (Z.eqb_spec (shape_extent sh) (-1)).
        - apply andb_true_iff in Ck. destruct Ck as [Ck _]. apply Z.leb_le in Ck. exact Ck.
        - apply Z.eqb_eq in Ck. rewrite Ck. destruct sh; cbn [shape_extent sensible] in *; lia. }
      rewrite cast_nonneg in N1 by lia.
      assert (SZ : size_of ob = sa_value a).
      { unfold size_of. rewrite S1. destruct (layout_of sh) as [E'|Mx|B|]; try exact N1. destruct L as (L1 & L2 & _).
        destruct (Z.eqb_spec (shape_extent sh) (-1)); [lia|]. apply Z.eqb_eq in Ck. congruence. }
      split; [exact E|]. split; [exact S1|]. split; [exact SZ|]. split; [rewrite held_size, S1, SZ; [reflexivity|rewrite S1; exact Hs]|]. split; [exact A2|].
      unfold fits. rewrite S1, N1. destruct (layout_of sh) as [E'|Mx|B|]; auto. destruct L as (-> & L). cbn in Ck.
      apply andb_true_iff in Ck. destruct Ck as [_ Ck]. apply Z.leb_le in Ck. exact Ck.
  Qed.


  Lemma array_creates : forall sh len st, sensible sh -> Z.of_nat len < 2 ^ 63 ->
    match sh with FixedBuffer (-1) Mx => Z.of_nat len <= Mx | _ => True end ->
    creates (construct_from_array oracle sh len) sh (Z.of_nat len) st.
  Proof.
    intros sh len st Hs Hl Hm. unfold creates, construct_from_array. cbv zeta.
    destruct (shape_ok sh && (0 <? Z.of_nat len) && ((shape_extent sh =? dynamic_extent) || (Z.of_nat len =? shape_extent sh))) eqn:C.
    2:{ exists st. left. exists Rejected. split; [reflexivity|]. split; [discriminate|apply unaltered_refl]. }
    apply andb_true_iff in C. destruct C as [_ C].
    rewrite cast_nonneg by lia. pose proof (layout_cases sh Hs) as L.
    assert (Q : forall ob, o_shape ob = sh -> o_size ob = Z.of_nat len -> size_of ob = Z.of_nat len /\ fits ob).
    { intros ob S1 N1. unfold size_of, fits. rewrite S1, N1. destruct (layout_of sh) as [E|Mx|B|]; auto.
      - destruct L as (L1 & L2 & _). split; [|exact I]. apply orb_true_iff in C. unfold dynamic_extent in C.
        destruct C as [C|C]; apply Z.eqb_eq in C; lia.
      - destruct L as (-> & L). split; [reflexivity|exact Hm]. }
    destruct (construct_then nat sh (Z.of_nat len) (fun o => bindM (get_obj o) (fun ob => bindM (assign_cells oracle None (data_of ob) 0 len) (fun _ => ret o))) st Hs)
      as (st' & [(e & E & He & U)|(o & ob & st1 & a' & S1 & N1 & A1 & A2 & K & E)]).
    - lia.
    - intros o ob st1 S1 N1 A1 L1. destruct (Q ob S1 N1) as [SZ F].
      destruct (assign_cells_spec len None (data_of ob) 0 st1) as (st2 & U2 & [E2|E2]).
      + rewrite <- (Nat2Z.id len) at 1. cbn [Nat.add]. rewrite <- SZ. apply data_alive; [apply A1|exact F].
      + exact I.
      + exists st2. split; [exact U2|]. left. exists o. rewrite (bind_inl _ _ _ _ st1 st1 ob); [|unfold get_obj; rewrite (live_nth _ _ _ L1); reflexivity].
        rewrite (bind_inl _ _ _ _ _ _ _ E2). reflexivity.
      + exists st2. split; [exact U2|]. right. exists Thrown. split; [auto|]. rewrite (bind_inl _ _ _ _ st1 st1 ob); [|unfold get_obj; rewrite (live_nth _ _ _ L1); reflexivity].
        rewrite (bind_inr _ _ _ _ _ _ _ E2). reflexivity.
    - exists st'. left. exists e. split; [exact E|]. split; [destruct He; subst; discriminate|exact U].
    - exists st'. right. exists o, ob. destruct (Q ob S1 N1) as [SZ F].
      assert (L1 : live st1 o = Some ob) by (rewrite (live_added _ _ _ _ o A1), Nat.eqb_refl; reflexivity).
      rewrite (bind_inl _ _ _ _ st1 st1 ob) in K; [|unfold get_obj; rewrite (live_nth _ _ _ L1); reflexivity].
      assert (a' = o).
      { unfold bindM at 1 in K. destruct (assign_cells oracle None (data_of ob) 0 len st1) as [s [u|u]]; [|discriminate K]. unfold ret in K. inversion K. reflexivity. }
      subst a'. split; [exact E|]. split; [exact S1|]. split; [exact SZ|]. split; [|auto]. rewrite held_size, S1, SZ; [reflexivity|rewrite S1; exact Hs].
  Qed.

  Lemma copy_creates : forall src rhs st, live st src = Some rhs -> wf st rhs -> fits rhs ->
    creates (copy_construct oracle src) (o_shape rhs) (size_of rhs) st.
  Proof.
    intros src rhs st Hl W F. unfold creates, copy_construct. pose proof W as (Hs & Hn & Hb & Hd).
    rewrite (bind_inl _ _ _ _ st st rhs) by (unfold get_obj; rewrite (live_nth _ _ _ Hl); reflexivity).
    pose proof (layout_cases _ Hs) as L. pose proof (uses_heap_layout _ (o_size rhs) Hs) as U.
    assert (Q1 : uses_heap (o_shape rhs) (o_size rhs) = false -> match layout_of (o_shape rhs) with LStatic _ | LFixed _ => True | _ => False end ->
      exists st',
      (exists e, (let* b := make_member oracle (from_cell (o_buf rhs)) (member_length (o_shape rhs)) in
                  push_obj (mk_object (o_shape rhs) (o_data rhs) (o_size rhs) b)) st = (st', inr e) /\ e <> LifeErr /\ unaltered st st') \/
      (exists o ob, (let* b := make_member oracle (from_cell (o_buf rhs)) (member_length (o_shape rhs)) in
                  push_obj (mk_object (o_shape rhs) (o_data rhs) (o_size rhs) b)) st = (st', inl o) /\ o_shape ob = o_shape rhs /\ size_of ob = size_of rhs /\
         held_by ob = held (o_shape rhs) (size_of rhs) /\ added st o ob st' /\ fits ob)).
    { intros Un Ly. rewrite (member_in_place _ Hs).
      destruct (make_member_spec (from_cell (o_buf rhs)) (Z.to_nat (in_place (o_shape rhs))) st) as (st1 & [(E1 & F1 & P1 & N1)|(E1 & S1 & N1)]).
      - intros j st' Hj Hq. unfold from_cell. apply (use_cell_alive _ _ Member (Z.to_nat (in_place (o_shape rhs)))); [|lia].
        rewrite Hq; [exact Hb|]. intro Eb. destruct (acquire_spec Member 0 st) as (_ & _ & Fr & _). rewrite <- Eb, Hb in Fr. discriminate Fr.
      - rewrite (bind_inl _ _ _ _ _ _ _ E1). set (b := length (regions st)) in *. destruct P1 as [O1 R1]. unfold push_obj. eexists. right.
        exists (length (objs st)), (mk_object (o_shape rhs) (o_data rhs) (o_size rhs) b). rewrite O1. split; [reflexivity|]. split; [reflexivity|].
        split; [reflexivity|]. split; [exact (held_size rhs Hs)|]. split; [|exact F].
        split; [reflexivity|]. cbn [objs]. split; [reflexivity|]. split; [|split; [|split]].
        + split; [exact Hs|]. split; [exact Hn|]. cbn [o_buf o_shape o_size o_data]. rewrite Un. split.
          * change (reg st1 b = full Member (Z.to_nat (in_place (o_shape rhs)))). rewrite R1, Nat.eqb_refl. reflexivity.
          * destruct (layout_of (o_shape rhs)); auto; contradiction.
        + intros q. unfold owned. cbn [o_buf o_shape o_size]. rewrite Un, orb_false_r, Nat.eqb_eq. intros ->. exact F1.
        + intros q. unfold owned. cbn [o_buf o_shape o_size]. rewrite Un, orb_false_r. intro Hq.
          change (reg st1 q = reg st q). rewrite R1, Hq. reflexivity.
        + change (net st1 = net st + Z.of_nat (held_by (mk_object (o_shape rhs) (o_data rhs) (o_size rhs) b))). unfold held_by, held. cbn [o_shape o_size].
          rewrite Un, Nat.add_0_r. exact N1.
      - exists st1. left. exists Thrown. rewrite (bind_inr _ _ _ _ _ _ _ E1). split; [reflexivity|]. split; [discriminate|]. apply unaltered_of. split; assumption. }
    assert (Q2 : match layout_of (o_shape rhs) with LStatic _ | LFixed _ => False | _ => True end ->
      exists st',
      (exists e, (let* o := construct_base oracle (o_shape rhs) (o_size rhs) in
         unwind (let* ob := get_obj o in
                let* _ := assign_cells oracle (Some (data_of rhs)) (o_data ob) 0 (Z.to_nat (size_of rhs)) in
                ret o) (destroy_base o)) st = (st', inr e) /\ e <> LifeErr /\ unaltered st st') \/
      (exists o ob, (let* o := construct_base oracle (o_shape rhs) (o_size rhs) in
         unwind (let* ob := get_obj o in
                let* _ := assign_cells oracle (Some (data_of rhs)) (o_data ob) 0 (Z.to_nat (size_of rhs)) in
                ret o) (destroy_base o)) st = (st', inl o) /\ o_shape ob = o_shape rhs /\ size_of ob = size_of rhs /\
         held_by ob = held (o_shape rhs) (size_of rhs) /\ added st o ob st' /\ fits ob)).
    { intros Ly.
      assert (Q : forall ob, o_shape ob = o_shape rhs -> o_size ob = o_size rhs -> size_of ob = size_of rhs /\ fits ob /\ data_of ob = o_data ob).
      { intros ob S1 N1. unfold size_of, fits, data_of. rewrite S1, N1. destruct (layout_of (o_shape rhs)); auto; contradiction. }
      destruct (construct_then nat (o_shape rhs) (o_size rhs)
        (fun o => bindM (get_obj o) (fun ob => bindM (assign_cells oracle (Some (data_of rhs)) (o_data ob) 0 (Z.to_nat (size_of rhs))) (fun _ => ret o))) st Hs Hn)
        as (st' & [(e & E & He & U')|(o & ob & st1 & a' & S1 & N1 & A1 & A2 & K & E)]).
      - intros o ob st1 S1 N1 A1 L1. destruct (Q ob S1 N1) as (SZ & F' & DO).
        destruct (assign_cells_spec (Z.to_nat (size_of rhs)) (Some (data_of rhs)) (o_data ob) 0 st1) as (st2 & U2 & [E2|E2]).
        + rewrite <- DO, <- SZ. apply data_alive; [apply A1|exact F'].
        + apply data_alive; [|exact F]. apply (wf_reg st); [exact W|]. intros q Oq. destruct A1 as (_ & _ & _ & A3 & A4 & _). apply A4.
          destruct (owned ob q) eqn:Oq'; [|reflexivity]. exfalso. exact (wf_owned _ _ _ W Oq (A3 q Oq')).
        + exists st2. split; [exact U2|]. left. exists o. rewrite (bind_inl _ _ _ _ st1 st1 ob); [|unfold get_obj; rewrite (live_nth _ _ _ L1); reflexivity].
          rewrite (bind_inl _ _ _ _ _ _ _ E2). reflexivity.
        + exists st2. split; [exact U2|]. right. exists Thrown. split; [auto|]. rewrite (bind_inl _ _ _ _ st1 st1 ob); [|unfold get_obj; rewrite (live_nth _ _ _ L1); reflexivity].
          rewrite (bind_inr _ _ _ _ _ _ _ E2). reflexivity.
      - exists st'. left. exists e. split; [exact E|]. split; [destruct He; subst; discriminate|exact U'].
      - exists st'. right. exists o, ob. destruct (Q ob S1 N1) as (SZ & F' & _).
        assert (L1 : live st1 o = Some ob) by (rewrite (live_added _ _ _ _ o A1), Nat.eqb_refl; reflexivity).
        rewrite (bind_inl _ _ _ _ st1 st1 ob) in K; [|unfold get_obj; rewrite (live_nth _ _ _ L1); reflexivity].
        assert (a' = o).
        { unfold bindM at 1 in K. destruct (assign_cells oracle (Some (data_of rhs)) (o_data ob) 0 (Z.to_nat (size_of rhs)) st1) as [s [u|u]]; [|discriminate K]. unfold ret in K. inversion K. reflexivity. }
        subst a'. split; [exact E|]. split; [exact S1|]. split; [exact SZ|]. split; [|auto]. rewrite held_size, S1, SZ; [reflexivity|rewrite S1; exact Hs]. }
    destruct (layout_of (o_shape rhs)); auto.
  Qed.

  Lemma same_shape_eq : forall a b, same_shape a b = true -> a = b.
  Proof. intros [E Mx|E Mx] [E' Mx'|E' Mx'] H; try discriminate; cbn in H; apply andb_true_iff in H; rewrite !Z.eqb_eq in H; f_equal; tauto. Qed.

  (** Assignment and access leave everything as it is, except for the sizes of fixed buffers. *)
  Definition same_sizes (st st' : state) : Prop := forall o, 
    match live st o, live st' o with
    | Some a, Some b => o_shape a = o_shape b /\ held_by a = held_by b
    | None, None => True
    | _, _ => False
    end.

  Lemma copy_assign_spec : forall dst src st, Inv st ->
    exists st' r, copy_assign oracle dst src st = (st', r) /\ r <> inr LifeErr /\ Inv st' /\ net st' = net st /\ same_sizes st st' /\
      (forall e, r = inr e -> unaltered st st').
  Proof.
    intros dst src st V. unfold copy_assign.
    assert (SS : same_sizes st st) by (intro o; destruct (live st o); auto).
    destruct (get_obj_live st dst) as [(lhs & Ll & El)|(Ll & El)].
    2:{ exists st, (inr Misuse). rewrite (bind_inr _ _ _ _ _ _ _ El). split; [reflexivity|]. split; [discriminate|]. split; [exact V|]. split; [reflexivity|]. split; [exact SS|]. intros; apply unaltered_refl. }
    rewrite (bind_inl _ _ _ _ _ _ _ El).
    destruct (get_obj_live st src) as [(rhs & Lr & Er)|(Lr & Er)].
    2:{ exists st, (inr Misuse). rewrite (bind_inr _ _ _ _ _ _ _ Er). split; [reflexivity|]. split; [discriminate|]. split; [exact V|]. split; [reflexivity|]. split; [exact SS|]. intros; apply unaltered_refl. }
    rewrite (bind_inl _ _ _ _ _ _ _ Er).
    assert (RJ : exists st' r, @fail unit Rejected st = (st', r) /\ r <> inr LifeErr /\ Inv st' /\ net st' = net st /\ same_sizes st st' /\
      (forall e, r = inr e -> unaltered st st')).
    { exists st, (inr Rejected). split; [reflexivity|]. split; [discriminate|]. split; [exact V|]. split; [reflexivity|]. split; [exact SS|]. intros; apply unaltered_refl. }
    destruct (same_shape (o_shape lhs) (o_shape rhs)) eqn:SH; [|exact RJ]. apply same_shape_eq in SH.
    pose proof V as (I1 & I2 & I3 & I4). destruct (I1 _ _ Ll) as [Wl Fl]. destruct (I1 _ _ Lr) as [Wr Fr].
    pose proof Wl as (Hs & Hn & Hb & Hd). pose proof Wr as (Hs' & Hn' & Hb' & Hd').
    assert (Q : uses_heap (o_shape lhs) (o_size lhs) = false -> uses_heap (o_shape lhs) (o_size rhs) = false ->
      match layout_of (o_shape lhs) with LStatic _ | LFixed _ => True | _ => False end ->
      exists st' r, 
       (let* _ := assign_cells oracle (Some (Some (o_buf rhs))) (Some (o_buf lhs)) 0 (member_length (o_shape lhs)) in
          fun st => (mk_state (clock st) (made st) (gone st) (regions st)
                       (upd (objs st) dst (Some (mk_object (o_shape lhs) (o_data rhs) (o_size rhs) (o_buf lhs)))), inl tt)) st = (st', r) /\
       r <> inr LifeErr /\ Inv st' /\ net st' = net st /\ same_sizes st st' /\ (forall e, r = inr e -> unaltered st st')).
    { intros U1 U2 Ly. rewrite (member_in_place _ Hs).
      destruct (assign_cells_spec (Z.to_nat (in_place (o_shape lhs))) (Some (Some (o_buf rhs))) (Some (o_buf lhs)) 0 st) as (st1 & U & [E|E]).
      - exists Member. eexists. split; [exact Hb|lia].
      - exists Member. eexists. split; [exact Hb'|rewrite SH; lia].
      - rewrite (bind_inl _ _ _ _ _ _ _ E). eexists. exists (inl tt). split; [reflexivity|]. split; [discriminate|].
        set (nob := mk_object (o_shape lhs) (o_data rhs) (o_size rhs) (o_buf lhs)).
        set (st2 := mk_state _ _ _ _ _). pose proof U as [[O R] N].
        assert (L2 : forall o', live st2 o' = if Nat.eqb o' dst then Some nob else live st o').
        { intro o'. apply (live_upd st (objs st2) dst lhs); [exact Ll|]. cbn [st2 objs]. rewrite O. reflexivity. }
        assert (R2 : forall q, reg st2 q = reg st q) by (intro q; apply R).
        assert (N2 : net st2 = net st) by exact N.
        assert (HB : held_by nob = held_by lhs) by (unfold held_by, held; cbn [nob o_shape o_size]; rewrite U1, U2; reflexivity).
        assert (OW : forall q, owned nob q = owned lhs q) by (intro q; unfold owned; cbn [nob o_shape o_size o_buf o_data]; rewrite U1, U2; reflexivity).
        assert (T2 : total st2 = total st).
        { unfold total. cbn [st2 objs]. rewrite O. pose proof (total_upd (objs st) dst lhs (Some nob) (live_nth _ _ _ Ll)) as T. cbn beta iota in T. lia. }
        assert (Wn : wf st2 nob).
        { split; [exact Hs|]. split; [exact Hn'|]. cbn [nob o_shape o_size o_buf o_data]. split; [rewrite R2; exact Hb|]. rewrite U2.
          destruct (layout_of (o_shape lhs)); auto; contradiction. }
        assert (Fn : fits nob). { unfold fits in *. cbn [nob o_shape o_size]. rewrite SH. exact Fr. }
        split; [|split; [exact N2|split; [|discriminate]]].
        + split; [|split; [|split]].
          * intros o' ob' H. rewrite L2 in H. destruct (Nat.eqb_spec o' dst); [inversion H; subst; auto|].
            destruct (I1 _ _ H) as [W' F']. split; [|exact F']. apply (wf_reg st); auto.
          * intros o1 o2 ob1 ob2 q H1 H2 O1 O2. rewrite L2 in H1, H2.
            destruct (Nat.eqb_spec o1 dst); destruct (Nat.eqb_spec o2 dst); try congruence.
            -- inversion H1; subst. rewrite OW in O1. exact (I2 _ _ _ _ _ Ll H2 O1 O2).
            -- inversion H2; subst. rewrite OW in O2. exact (I2 _ _ _ _ _ H1 Ll O1 O2).
            -- exact (I2 _ _ _ _ _ H1 H2 O1 O2).
          * intros q Hq. rewrite R2 in Hq. destruct (I3 q Hq) as (o' & ob' & H1 & H2).
            destruct (Nat.eqb_spec o' dst).
            -- subst. exists dst, nob. rewrite L2, Nat.eqb_refl, OW. split; [reflexivity|congruence].
            -- exists o', ob'. rewrite L2. destruct (Nat.eqb_spec o' dst); [contradiction|auto].
          * rewrite N2, T2. exact I4.
        + intro o'. rewrite L2. destruct (Nat.eqb_spec o' dst); [|apply SS]. subst. rewrite Ll. split; [reflexivity|symmetry; exact HB].
      - rewrite (bind_inr _ _ _ _ _ _ _ E). exists st1, (inr Thrown). apply unaltered_of in U. split; [reflexivity|]. split; [discriminate|].
        split; [exact (Inv_unaltered _ _ V U)|]. split; [apply U|]. split; [|intros; exact U].
        intro o'. destruct U as (Lv & _). rewrite Lv. destruct (live st o'); auto. }
    pose proof (uses_heap_layout _ (o_size lhs) Hs) as U1. pose proof (uses_heap_layout _ (o_size rhs) Hs) as U2.
    destruct (layout_of (o_shape lhs)); auto.
  Qed.

  (** What may only read and assign elements. *)
  Definition touches (m : M unit) (st : state) : Prop :=
    exists st' r, m st = (st', r) /\ r <> inr LifeErr /\ unchanged st st'.
  Lemma touches_fail : forall e st, e <> LifeErr -> touches (fail e) st.
  Proof. intros e st H. exists st, (inr e). split; [reflexivity|]. split; [congruence|]. split; [apply same_refl|reflexivity]. Qed.
  Lemma assign_array_spec : forall o len st, Z.of_nat len < 2 ^ 63 -> Inv st -> touches (assign_array oracle o len) st.
  Proof.
    intros o len st Hl (I1 & _). unfold touches, assign_array. cbv zeta. destruct (get_obj_live st o) as [(ob & L & E)|(L & E)].
    - rewrite (bind_inl _ _ _ _ _ _ _ E). destruct (I1 _ _ L) as [W F].
      destruct ((0 <? Z.of_nat len) && ((shape_extent (o_shape ob) =? dynamic_extent) || (Z.of_nat len =? shape_extent (o_shape ob)))).
      + rewrite cast_nonneg by lia. destruct (Z.eqb_spec (Z.of_nat len) (size_of ob)).
        * destruct (assign_cells_spec len None (data_of ob) 0 st) as (st1 & U & [E1|E1]).
          -- cbn [Nat.add]. rewrite <- (Nat2Z.id len), e. apply data_alive; assumption.
          -- exact I.
          -- exists st1, (inl tt). split; [exact E1|]. split; [discriminate|exact U].
          -- exists st1, (inr Thrown). split; [exact E1|]. split; [discriminate|exact U].
        * apply touches_fail. discriminate.
      + apply touches_fail. discriminate.
    - rewrite (bind_inr _ _ _ _ _ _ _ E). apply (touches_fail Misuse). discriminate.
  Qed.
  Lemma access_spec : forall o i assign st, Inv st -> touches (access oracle o i assign) st.
  Proof.
    intros o i assign st (I1 & _). unfold touches, access. destruct (get_obj_live st o) as [(ob & L & E)|(L & E)].
    - rewrite (bind_inl _ _ _ _ _ _ _ E). destruct (I1 _ _ L) as [W F].
      destruct (Z.leb_spec 0 i); cbn [andb]; [|apply touches_fail; discriminate].
      destruct (Z.ltb_spec i (size_of ob)); [|apply touches_fail; discriminate].
      pose proof (data_alive _ _ W F) as A. destruct (data_of ob) as [r|]; cbn [alive at_data] in *; [|lia].
      destruct A as (k & m & Fr & Lm). assert (E1 : use_cell r (Z.to_nat i) st = (st, inl tt)) by (apply (use_cell_alive _ _ k m _ Fr); lia).
      destruct assign.
      + unfold assign_cell. rewrite (bind_inl _ _ _ _ _ _ _ E1). destruct (maythrow_spec st) as (st1 & S1 & N1 & _ & [E2|E2]); rewrite E2.
        * exists st1, (inl tt). split; [reflexivity|]. split; [discriminate|split; assumption].
        * exists st1, (inr Thrown). split; [reflexivity|]. split; [discriminate|split; assumption].
      + exists st, (inl tt). split; [exact E1|]. split; [discriminate|]. split; [apply same_refl|reflexivity].
    - rewrite (bind_inr _ _ _ _ _ _ _ E). apply (touches_fail Misuse). discriminate.
  Qed.

  (** ** Histories *)
  Definition keeps (c : op) (st : state) : Prop :=
    exists st' r, step oracle c st = (st', r) /\ Inv st' /\ r <> inr LifeErr /\ (forall e, r = inr e -> unaltered st st').
  Lemma creates_keeps : forall (m : M nat) sh n st, Inv st -> creates m sh n st ->
    exists st' r, bindM m (fun o => ret (Some o)) st = (st', r) /\ Inv st' /\ r <> inr LifeErr /\ (forall e, r = inr e -> unaltered st st').
  Proof.
    intros m sh n st V (st' & [(e & E & He & U)|(o & ob & E & _ & _ & _ & A & F)]).
    - exists st', (inr e). split; [apply bind_inr; exact E|]. split; [exact (Inv_unaltered _ _ V U)|]. split; [congruence|]. auto.
    - exists st', (inl (Some o)). split; [rewrite (bind_inl _ _ _ _ _ _ _ E); reflexivity|]. split; [exact (Inv_added _ _ _ _ V A F)|].
      split; discriminate.
  Qed.
  Lemma touches_keeps : forall (m : M unit) st, Inv st -> touches m st ->
    exists st' r, bindM m (fun _ => ret None) st = (st', r) /\ Inv st' /\ r <> inr LifeErr /\ (forall e, @inr (option nat) fault e = r -> unaltered st st').
  Proof.
    intros m st V (st' & [u|e] & E & He & U); apply unaltered_of in U.
    - exists st', (inl None). split; [rewrite (bind_inl _ _ _ _ _ _ _ E); reflexivity|]. split; [exact (Inv_unaltered _ _ V U)|]. split; discriminate.
    - exists st', (inr e). split; [apply bind_inr; exact E|]. split; [exact (Inv_unaltered _ _ V U)|]. split; [congruence|]. auto.
  Qed.
  Lemma step_keeps : forall c st, Inv st -> op_ok c -> keeps c st.
  Proof.
    intros c st V Hc. unfold keeps, step.
    assert (CP : forall src, exists st' r, bindM (copy_construct oracle src) (fun o => ret (Some o)) st = (st', r) /\ Inv st' /\ r <> inr LifeErr /\
      (forall e, r = inr e -> unaltered st st')).
    { intro src. destruct (get_obj_live st src) as [(rhs & L & E)|(L & E)].
      - pose proof V as (I1 & _). destruct (I1 _ _ L) as [W F]. exact (creates_keeps _ _ _ _ V (copy_creates src rhs st L W F)).
      - exists st, (inr Misuse). split; [apply bind_inr; unfold copy_construct; apply bind_inr; exact E|]. split; [exact V|]. split; [discriminate|].
        intros. apply unaltered_refl. }
    destruct c as [sh a|sh len|src|src|dst src|o len|o i assign|o]; cbn [op_ok] in Hc; cbv zeta beta iota.
    - destruct Hc as [H1 H2]. exact (creates_keeps _ _ _ _ V (construct_creates sh a st H1 H2)).
    - destruct Hc as (H1 & H2 & H3). exact (creates_keeps _ _ _ _ V (array_creates sh len st H1 H2 H3)).
    - apply CP.
    - apply CP.
    - destruct (copy_assign_spec dst src st V) as (st' & [u|e] & E & He & V' & N' & S' & U').
      + exists st', (inl None). split; [rewrite (bind_inl _ _ _ _ _ _ _ E); reflexivity|]. split; [exact V'|]. split; discriminate.
      + exists st', (inr e). split; [apply bind_inr; exact E|]. split; [exact V'|]. split; [congruence|]. intros e' _. exact (U' e eq_refl).
    - destruct (touches_keeps _ _ V (assign_array_spec o len st Hc V)) as (st' & r & E & V' & He & U'). exists st', r. split; [exact E|]. split; [exact V'|]. split; [exact He|]. intros e Ee. apply (U' e). congruence.
    - destruct (touches_keeps _ _ V (access_spec o i assign st V)) as (st' & r & E & V' & He & U'). exists st', r. split; [exact E|]. split; [exact V'|]. split; [exact He|]. intros e Ee. apply (U' e). congruence.
    - destruct (get_obj_live st o) as [(ob & L & E)|(L & E)].
      + pose proof V as (I1 & _). destruct (I1 _ _ L) as [W F]. destruct (destroy_base_spec o ob st L W) as (st' & E' & D).
        exists st', (inl None). split; [rewrite (bind_inl _ _ _ _ _ _ _ E'); reflexivity|]. split; [exact (Inv_removed _ _ _ _ V L D)|]. split; discriminate.
      + exists st, (inr Misuse). split; [apply bind_inr; unfold destroy_base; apply bind_inr; exact E|]. split; [exact V|]. split; [discriminate|].
        intros. apply unaltered_refl.
  Qed.
  Lemma run_keeps : forall h st, Inv st -> Forall op_ok h -> Inv (fst (run oracle h st)) /\ ~ In (inr LifeErr) (snd (run oracle h st)).
  Proof.
    induction h as [|c h IH]; intros st V Hh; cbn [run]; [split; [exact V|intros []]|].
    inversion Hh; subst. destruct (step_keeps c st V H1) as (st1 & r & E & V1 & He & _). rewrite E.
    destruct (IH st1 V1 H2) as [V2 N2]. destruct (run oracle h st1) as [st2 rs]. cbn [fst snd] in *. split; [exact V2|].
    intros [C|C]; [congruence|contradiction].
  Qed.


  (** ** What does not construct or destroy elements *)
  Definition keeps_made {A} (m : M A) : Prop := forall st, made (fst (m st)) = made st.
  Lemma made_bind : forall A B (m : M A) (f : A -> M B), keeps_made m -> (forall a, keeps_made (f a)) -> keeps_made (bindM m f).
  Proof. intros A B m f H1 H2 st. unfold bindM. specialize (H1 st). destruct (m st) as [st1 [a|e]]; cbn [fst] in *; [rewrite H2; exact H1|exact H1]. Qed.
  Lemma made_ret : forall A (a : A), keeps_made (ret a).
  Proof. intros A a st. reflexivity. Qed.
  Lemma made_fail : forall A e, keeps_made (@fail A e).
  Proof. intros A e st. reflexivity. Qed.
  Lemma made_use : forall r i, keeps_made (use_cell r i).
  Proof. intros r i st. unfold use_cell. destruct (cells_of r st) as [[k cs]|]; [|reflexivity]. destruct (nth_error cs i) as [[|]|]; reflexivity. Qed.
  Lemma made_throw : keeps_made (may_throw oracle).
  Proof. intros st. unfold may_throw. destruct (oracle (clock st)); reflexivity. Qed.
  Lemma made_get : forall o, keeps_made (get_obj o).
  Proof. intros o st. unfold get_obj. destruct (nth_error (objs st) o) as [[]|]; reflexivity. Qed.
  Lemma made_at : forall p f, (forall r, keeps_made (f r)) -> keeps_made (at_data p f).
  Proof. intros [r|] f H; [apply H|apply made_fail]. Qed.
  Lemma made_assign_cell : forall r i, keeps_made (assign_cell oracle r i).
  Proof. intros. apply made_bind; [apply made_use|intros; apply made_throw]. Qed.
  Lemma made_assign_cells : forall n src dst i, keeps_made (assign_cells oracle src dst i n).
  Proof.
    induction n; intros src dst i; cbn [assign_cells]; [apply made_ret|]. apply made_bind.
    - destruct src; [|apply made_ret]. apply made_at. intro. apply made_use.
    - intros _. apply made_bind; [apply made_at; intro; apply made_assign_cell|]. intros _. apply IHn.
  Qed.
  Lemma made_copy_assign : forall dst src, keeps_made (copy_assign oracle dst src).
  Proof.
    intros dst src. apply made_bind; [apply made_get|]. intro lhs. apply made_bind; [apply made_get|]. intro rhs.
    destruct (same_shape (o_shape lhs) (o_shape rhs)); [|apply made_fail].
    destruct (layout_of (o_shape lhs)); try apply made_fail; (apply made_bind; [apply made_assign_cells|]; intros _ st; reflexivity).
  Qed.
  Lemma made_assign_array : forall o len, keeps_made (assign_array oracle o len).
  Proof.
    intros o len. unfold assign_array. cbv zeta. apply made_bind; [apply made_get|]. intro ob.
    destruct (_ && _); [|apply made_fail]. destruct (_ =? _); [apply made_assign_cells|apply made_fail].
  Qed.
  Lemma made_access : forall o i a, keeps_made (access oracle o i a).
  Proof.
    intros o i a. apply made_bind; [apply made_get|]. intro ob. destruct (_ && _); [|apply made_fail].
    apply made_at. intro r. destruct a; [apply made_assign_cell|apply made_use].
  Qed.

  (** ** If nothing throws *)
  Definition nothrow {A} (m : M A) : Prop := forall st, snd (m st) <> inr Thrown.
  Lemma nothrow_bind : forall A B (m : M A) (f : A -> M B), nothrow m -> (forall a, nothrow (f a)) -> nothrow (bindM m f).
  Proof. intros A B m f H1 H2 st. unfold bindM. specialize (H1 st). destruct (m st) as [st1 [a|e]]; cbn [snd] in *; [apply H2|congruence]. Qed.
  Lemma nothrow_unwind : forall A (m : M A) c, nothrow m -> nothrow c -> nothrow (unwind m c).
  Proof.
    intros A m c H1 H2 st. unfold unwind. specialize (H1 st). destruct (m st) as [st1 [a|[]]]; cbn [snd] in *; try congruence; try discriminate.
    apply nothrow_bind; [exact H2|]. intros _ st2. discriminate.
  Qed.
  Lemma nothrow_ret : forall A (a : A), nothrow (ret a).
  Proof. intros A a st. discriminate. Qed.
  Hypothesis never : forall n, oracle n = false.
  Lemma nothrow_may : nothrow (may_throw oracle).
  Proof. intros st. unfold may_throw. rewrite never. discriminate. Qed.
  Lemma nothrow_construct_cell : forall r i, nothrow (construct_cell oracle r i).
  Proof.
    intros. apply nothrow_bind; [apply nothrow_may|]. intros _ st. destruct (cells_of r st) as [[k cs]|]; [|discriminate].
    destruct (nth_error cs i) as [[|]|]; discriminate.
  Qed.
  Lemma nothrow_destroy_cells : forall n r, nothrow (destroy_cells r n).
  Proof.
    induction n; intro r; cbn [destroy_cells]; [apply nothrow_ret|]. apply nothrow_bind; [|intros _; apply IHn].
    intro st. unfold destroy_cell. destruct (cells_of r st) as [[k cs]|]; [|discriminate]. destruct (nth_error cs n) as [[|]|]; discriminate.
  Qed.
  Lemma nothrow_construct_cells : forall n before r i, (forall j, nothrow (before j)) -> nothrow (construct_cells oracle before r i n).
  Proof.
    induction n; intros before r i H; cbn [construct_cells]; [apply nothrow_ret|]. apply nothrow_bind; [|intros _; apply IHn; exact H].
    apply nothrow_unwind; [|apply nothrow_destroy_cells]. apply nothrow_bind; [apply H|]. intros _. apply nothrow_construct_cell.
  Qed.
  Lemma nothrow_acquire : forall k n, nothrow (acquire k n).
  Proof. intros k n st. discriminate. Qed.
  Lemma nothrow_release : forall k r, nothrow (release k r).
  Proof. intros k r st. unfold release. destruct (cells_of r st) as [[k' cs]|]; [|discriminate]. destruct (_ && _); discriminate. Qed.
  Lemma nothrow_length : forall r, nothrow (array_length r).
  Proof. intros r st. unfold array_length. destruct (cells_of r st) as [[k' cs]|]; discriminate. Qed.
  Lemma nothrow_fill : forall before k n, (forall j, nothrow (before j)) ->
    nothrow (let* r := acquire k n in let* _ := unwind (construct_cells oracle before r 0 n) (release k r) in ret r).
  Proof.
    intros before k n H. apply nothrow_bind; [apply nothrow_acquire|]. intro r. apply nothrow_bind; [|intros _; apply nothrow_ret].
    apply nothrow_unwind; [apply nothrow_construct_cells; exact H|apply nothrow_release].
  Qed.
  Lemma nothrow_new_array : forall n, n < 2 ^ 63 -> nothrow (new_array oracle n).
  Proof.
    intros n H. apply nothrow_bind; [apply nothrow_may|]. intros _. destruct (Z.ltb_spec n (2 ^ 63)); [|lia].
    apply nothrow_fill. intro. apply nothrow_ret.
  Qed.
  Lemma nothrow_end_member : forall b, nothrow (end_member b).
  Proof. intro b. apply nothrow_bind; [apply nothrow_length|]. intro n. apply nothrow_bind; [apply nothrow_destroy_cells|intros; apply nothrow_release]. Qed.
  Lemma nothrow_construct_base : forall sh n, n < 2 ^ 63 -> nothrow (construct_base oracle sh n).
  Proof.
    intros sh n H. apply nothrow_bind; [apply nothrow_fill; intro; apply nothrow_ret|]. intro b. apply nothrow_bind; [|intros p st; discriminate].
    apply nothrow_unwind; [|apply nothrow_end_member]. destruct (layout_of sh).
    - apply nothrow_ret.
    - apply nothrow_ret.
    - destruct (_ <=? _); [apply nothrow_ret|]. apply nothrow_bind; [apply nothrow_new_array; exact H|intro; apply nothrow_ret].
    - destruct (_ >? _); [|apply nothrow_ret]. apply nothrow_bind; [apply nothrow_new_array; exact H|intro; apply nothrow_ret].
  Qed.
  Lemma construct_succeeds : forall sh a st, sensible sh -> proper_size a -> admissible sh (sa_value a) ->
    exists st' o, construct oracle sh a st = (st', inl o).
  Proof.
    intros sh a st Hs Ha Ad. unfold construct. rewrite (shape_ok_sensible sh Hs), (size_ctor_spec sh a Ha).
    assert (Ck : check_extents sh a = true).
    { rewrite (check_spec sh a Hs Ha). unfold admissible in Ad. destruct (Z.eqb_spec (shape_extent sh) (-1)).
      - destruct Ad as ((A1 & A2) & A3). apply andb_true_iff. split; [apply Z.leb_le; lia|]. destruct sh; [reflexivity|]. apply Z.leb_le. lia.
      - apply Z.eqb_eq. exact Ad. }
    assert (R : 0 <= sa_value a < 2 ^ 63).
    { unfold admissible in Ad. destruct (Z.eqb_spec (shape_extent sh) (-1)); [tauto|]. rewrite Ad. destruct sh; cbn [shape_extent sensible] in *; lia. }
    match goal with |- context [negb ?b] => assert (B : b = false) end.
    { unfold admissible in Ad. destruct (sa_const a); [|reflexivity]. cbn [andb]. apply andb_false_iff. right. apply orb_false_iff.
      destruct (Z.eqb_spec (shape_extent sh) (-1)).
      - destruct Ad as ((A1 & A2) & A3). split; [reflexivity|]. destruct sh; [reflexivity|]. apply Z.ltb_ge. lia.
      - rewrite Ad, Z.eqb_refl. split; [reflexivity|]. destruct sh; [reflexivity|]. apply Z.ltb_ge. cbn [sensible shape_extent] in *. lia. }
    rewrite B. cbn [andb negb]. rewrite Ck, cast_nonneg by lia.
    destruct (construct_base_spec sh (sa_value a) st Hs ltac:(lia)) as (st' & [(p & b & E & _)|(E & _)]).
    - rewrite (bind_inl _ _ _ _ _ _ _ E). exists st'. eexists. apply unwind_inl. reflexivity.
    - exfalso. apply (nothrow_construct_base sh (sa_value a) ltac:(lia) st). rewrite E. reflexivity.
  Qed.
End Proofs.
