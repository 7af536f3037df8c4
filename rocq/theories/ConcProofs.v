(** Proofs about threads that work on disjoint parts. *)

From Coq Require Import ZArith Arith Bool Lia List Permutation Relations.
From Verif Require Import Base ExpandModel ExpandSpec ExpandProofs PermModel PermSpec PermProofs RangeSpec RangeProofs BufferProofs SoaModel SoaSpec SoaProofs SoaProps
  PermItModel PermItSpec PermItProofs PermItMoreProps ConcModel ConcSpec.
Import ListNotations.
Local Open Scope Z_scope.

Lemma loc_eqb_spec : forall x y, reflect (x = y) (loc_eqb x y).
Proof.
  intros [b i|o|a i] [b' i'|o'|a' i']; cbn; try (constructor; discriminate).
  - destruct (Nat.eqb_spec b b'), (Z.eqb_spec i i'); cbn; constructor; congruence.
  - destruct (Nat.eqb_spec o o'); constructor; congruence.
  - destruct (Nat.eqb_spec a a'), (Z.eqb_spec i i'); cbn; constructor; congruence.
Qed.

Section Generic.
  Context {V : Type}.
  Local Notation heap := (heap V).
  Local Notation act := (act V).

  Lemma set_same : forall (h : heap) l w, set h l w l = Some (true, w).
  Proof. intros h l w. unfold set. destruct (loc_eqb_spec l l); congruence. Qed.
  Lemma set_other : forall (h : heap) l l' w, l <> l' -> set h l w l' = h l'.
  Proof. intros h l l' w N. unfold set. destruct (loc_eqb_spec l l'); congruence. Qed.

  (** ** Footprints: [Rd] and [Wr] are the objects that may be read or written, [I] what their values satisfy. *)
  Fixpoint within {R} (Rd Wr : loc -> Prop) (I : loc -> value V -> Prop) (Q : R -> Prop) (p : act R) : Prop :=
    match p with
    | Done o => match o with Ok x => Q x | _ => True end
    | Read l k => Rd l /\ forall w, I l w -> within Rd Wr I Q (k w)
    | Write l w k => Wr l /\ I l w /\ within Rd Wr I Q k
    end.
  Lemma within_then : forall R S Rd Wr I (Q : R -> Prop) (Q' : S -> Prop) p f,
    within Rd Wr I Q p -> (forall x, Q x -> within Rd Wr I Q' (f x)) -> within Rd Wr I Q' (then_ p f).
  Proof.
    intros R S Rd Wr I Q Q' p f. induction p as [o|l k IH|l w k IH]; cbn.
    - intros H F. destruct o; auto; exact Logic.I.
    - intros [H K] F. split; auto.
    - intros (H & H' & K) F. auto.
  Qed.
  Lemma within_mono : forall R (Rd Wr Rd' Wr' : loc -> Prop) I (Q Q' : R -> Prop) p,
    (forall l, Rd l -> Rd' l) -> (forall l, Wr l -> Wr' l) -> (forall x, Q x -> Q' x) -> within Rd Wr I Q p -> within Rd' Wr' I Q' p.
  Proof.
    intros R Rd Wr Rd' Wr' I Q Q' p A B C. induction p as [o|l k IH|l w k IH]; cbn.
    - destruct o; auto.
    - intros [H K]. split; auto.
    - intros (H & H' & K). auto.
  Qed.

  Definition good (I : loc -> value V -> Prop) (h : heap) : Prop := forall l c w, h l = Some (c, w) -> I l w.
  Lemma good_set : forall I h l w, good I h -> I l w -> good I (set h l w).
  Proof.
    intros I h l w G H l' c' w' E. unfold set in E. destruct (loc_eqb_spec l l') as [<-|N]; [|eapply G; eauto]. congruence.
  Qed.

  (** A program depends on its footprint only, and changes only what it may write. *)
  Lemma run_agree : forall R Rd Wr I (Q : R -> Prop) p h1 h2, within Rd Wr I Q p -> good I h1 -> (forall l, Rd l \/ Wr l -> h1 l = h2 l) ->
    snd (run p h1) = snd (run p h2) /\ (forall l, Rd l \/ Wr l -> fst (run p h1) l = fst (run p h2) l) /\
    (forall l, ~ Wr l -> fst (run p h1) l = h1 l) /\ (forall l, ~ Wr l -> fst (run p h2) l = h2 l) /\ good I (fst (run p h1)) /\
    match snd (run p h1) with Ok x => Q x | _ => True end.
  Proof.
    intros R Rd Wr I Q. induction p as [o|l k IH|l w k IH]; intros h1 h2 W G A; cbn.
    - repeat split; auto.
    - destruct W as [Hl Hk]. rewrite <- (A l) by auto. destruct (h1 l) as [[c w]|] eqn:E; [|repeat split; auto]. apply IH; auto. eapply Hk, G, E.
    - destruct W as (Hl & Hi & Hk). rewrite <- (A l) by auto. destruct (h1 l) as [[[|] w']|] eqn:E; [|repeat split; auto..].
      destruct (IH (set h1 l w) (set h2 l w) Hk (good_set _ _ _ _ G Hi)) as (R1 & R2 & R3 & R4 & R5 & R6).
      { intros l' Hl'. unfold set. destruct (loc_eqb_spec l l'); auto. }
      split; auto. split; auto. split; [|split; [|split]]; auto.
      + intros l' N. rewrite R3 by auto. apply set_other. intros ->. auto.
      + intros l' N. rewrite R4 by auto. apply set_other. intros ->. auto.
  Qed.
  Lemma run_then : forall R S (p : act R) (f : R -> act S) h,
    run (then_ p f) h = let '(h', o) := run p h in
      match o with Ok x => run (f x) h' | Contract => (h', Contract) | Throw e => (h', Throw e) | UB => (h', UB) | IllFormed => (h', IllFormed) | OutOfFuel => (h', OutOfFuel) end.
  Proof.
    intros R S p f. induction p as [o|l k IH|l w k IH]; intros h; cbn.
    - now destruct o.
    - destruct (h l) as [[c w]|]; auto.
    - destruct (h l) as [[[|] w']|]; auto.
  Qed.
  Lemma run_ext : forall R (p : act R) h1 h2, (forall l, h1 l = h2 l) -> snd (run p h1) = snd (run p h2) /\ (forall l, fst (run p h1) l = fst (run p h2) l).
  Proof.
    intros R. induction p as [o|l k IH|l w k IH]; intros h1 h2 A; cbn; auto.
    - rewrite (A l). destruct (h2 l) as [[c w]|]; auto.
    - rewrite (A l). destruct (h2 l) as [[[|] w']|]; auto. apply IH. intros l'. unfold set. destruct (loc_eqb l l'); auto.
  Qed.

  (** ** Threads with footprints of which none writes to what another one accesses *)
  Section Pool.
    Context {R : Type}.
    Variables (Rd Wr : nat -> loc -> Prop) (I : loc -> value V -> Prop) (h0 : heap) (ps0 : list (act R)).
    Hypothesis Hwithin : forall t p, nth_error ps0 t = Some p -> within (Rd t) (Wr t) I (fun _ => True) p.
    Hypothesis Hapart : forall t u l, (t < length ps0)%nat -> (u < length ps0)%nat -> t <> u -> Wr t l -> ~ Rd u l /\ ~ Wr u l.
    Hypothesis Hgood : good I h0.

    Definition follows (h : heap) (t : nat) (p : act R) : Prop :=
      exists p0 a, nth_error ps0 t = Some p0 /\ within (Rd t) (Wr t) I (fun _ => True) p /\ run p a = run p0 h0 /\
        (forall l, Rd t l \/ Wr t l -> h l = a l).
    Definition consistent (c : heap * list (act R)) : Prop :=
      length (snd c) = length ps0 /\ good I (fst c) /\
      (forall l, (forall t, (t < length ps0)%nat -> ~ Wr t l) -> fst c l = h0 l) /\
      forall t p, nth_error (snd c) t = Some p -> follows (fst c) t p.

    Lemma consistent_init : consistent (h0, ps0).
    Proof. split; [reflexivity|]. split; auto. split; auto. intros t p E. exists p, h0. auto. Qed.
    Lemma follows_same : forall h ps t p', (forall u q, nth_error ps u = Some q -> follows h u q) -> length ps = length ps0 ->
      (t < length ps)%nat -> follows h t p' -> forall u q, nth_error (upd ps t p') u = Some q -> follows h u q.
    Proof.
      intros h ps t p' F L H K u q E. rewrite nth_error_upd in E. destruct (Nat.eqb_spec t u) as [<-|N]; [|auto].
      destruct (Nat.ltb_spec t (length ps)); [|lia]. injection E as <-. exact K.
    Qed.
    Lemma consistent_step : forall c c', consistent c -> step c c' -> consistent c'.
    Proof.
      intros c c' (L & G & O & F) S. destruct S as [h ps t l k b w E Hl|h ps t l k E Hl|h ps t l w k w' E Hl|h ps t l w k E Hl]; unfold consistent; cbn [fst snd] in *.
      - assert (T : (t < length ps)%nat) by (apply nth_error_Some; congruence).
        split; [rewrite upd_length; auto|]. split; auto. split; auto.
        apply (follows_same h ps t _ F L T). destruct (F t _ E) as (p0 & a & E0 & W & Ru & A). cbn in W, Ru. destruct W as [W1 W2].
        exists p0, a. split; auto. split; [eapply W2, G, Hl|]. split; auto. rewrite <- (A l), Hl in Ru by auto. exact Ru.
      - assert (T : (t < length ps)%nat) by (apply nth_error_Some; congruence).
        split; [rewrite upd_length; auto|]. split; auto. split; auto.
        apply (follows_same h ps t _ F L T). destruct (F t _ E) as (p0 & a & E0 & W & Ru & A). cbn in W, Ru. destruct W as [W1 W2].
        exists p0, a. split; auto. split; [exact Logic.I|]. split; auto. rewrite <- (A l), Hl in Ru by auto. exact Ru.
      - assert (T : (t < length ps)%nat) by (apply nth_error_Some; congruence).
        destruct (F t _ E) as (p0 & a & E0 & W & Ru & A). cbn in W, Ru. destruct W as (W1 & W2 & W3).
        rewrite <- (A l), Hl in Ru by auto.
        split; [rewrite upd_length; auto|]. split; [apply good_set; auto|]. split.
        { intros l' N. rewrite set_other; [auto|]. intros ->. apply (N t); [lia|auto]. }
        intros u q Eu. rewrite nth_error_upd in Eu. destruct (Nat.eqb_spec t u) as [<-|N].
        + destruct (Nat.ltb_spec t (length ps)); [|lia]. injection Eu as <-. exists p0, (set a l w). split; auto. split; auto. split; auto.
          intros l' Hl'. unfold set. destruct (loc_eqb_spec l l'); auto.
        + destruct (F u _ Eu) as (q0 & a' & E0' & W' & Ru' & A'). exists q0, a'. split; auto. split; auto. split; auto.
          assert (U : (u < length ps)%nat) by (apply nth_error_Some; congruence).
          intros l' Hl'. rewrite set_other; [auto|]. intros ->. destruct (Hapart t u l' ltac:(lia) ltac:(lia) N W1). tauto.
      - assert (T : (t < length ps)%nat) by (apply nth_error_Some; congruence).
        split; [rewrite upd_length; auto|]. split; auto. split; auto.
        apply (follows_same h ps t _ F L T). destruct (F t _ E) as (p0 & a & E0 & W & Ru & A). cbn in W, Ru. destruct W as (W1 & W2 & W3).
        exists p0, a. split; auto. split; [exact Logic.I|]. split; auto. rewrite <- (A l) in Ru by auto.
        destruct (h l) as [[[|] w']|] eqn:X; auto. destruct (Hl w'); auto.
    Qed.
    Lemma consistent_reachable : forall c c', reachable c c' -> consistent c -> consistent c'.
    Proof. intros c c' H. induction H as [|c1 c2 c3 S T IH]; auto. intros C. apply IH. eapply consistent_step; eauto. Qed.

    Lemma next_within : forall (p : act R) l x t, next_access p l x -> within (Rd t) (Wr t) I (fun _ => True) p -> if x then Wr t l else Rd t l.
    Proof. intros p l x t [l' k|l' w k] W; cbn in W; tauto. Qed.
    Lemma pool_race_free : forall h ps, reachable (h0, ps0) (h, ps) -> ~ race ps.
    Proof.
      intros h ps H (t & u & p & q & l & x & y & N & E & E' & A & A' & D).
      destruct (consistent_reachable _ _ H consistent_init) as (L & _ & _ & F). cbn [fst snd] in *.
      assert (T : (t < length ps0)%nat) by (rewrite <- L; apply nth_error_Some; congruence).
      assert (U : (u < length ps0)%nat) by (rewrite <- L; apply nth_error_Some; congruence).
      destruct (F t p E) as (_ & _ & _ & W & _). destruct (F u q E') as (_ & _ & _ & W' & _).
      apply (next_within _ _ _ t) in A; [|exact W]. apply (next_within _ _ _ u) in A'; [|exact W'].
      destruct D as [-> | ->].
      - destruct (Hapart t u l T U N A). destruct y; auto.
      - destruct (Hapart u t l U T (not_eq_sym N) A'). destruct x; auto.
    Qed.
    (** At the end, every thread has done what it does on its own. *)
    Lemma pool_result : forall h ps, reachable (h0, ps0) (h, ps) -> finished ps ->
      length ps = length ps0 /\
      (forall t p0, nth_error ps0 t = Some p0 -> nth_error ps t = Some (Done (snd (run p0 h0))) /\
        forall l, Rd t l \/ Wr t l -> h l = fst (run p0 h0) l) /\
      (forall l, (forall t, (t < length ps0)%nat -> ~ Wr t l) -> h l = h0 l).
    Proof.
      intros h ps H D. destruct (consistent_reachable _ _ H consistent_init) as (L & _ & O & F). cbn [fst snd] in *.
      split; auto. split; auto. intros t p0 E0.
      destruct (nth_error ps t) as [p|] eqn:E; [|apply nth_error_None in E; assert (t < length ps0)%nat by (apply nth_error_Some; congruence); lia].
      destruct (F t p E) as (p0' & a & E0' & _ & Ru & A). assert (p0' = p0) by congruence. subst p0'.
      unfold finished in D. rewrite Forall_forall in D. destruct (D p (nth_error_In _ _ E)) as (o & ->). cbn in Ru. rewrite <- Ru. cbn. auto.
    Qed.
  End Pool.

  (** ** Executions end *)
  Inductive part_of {R} : act R -> act R -> Prop :=
  | part_read : forall l k w, part_of (k w) (Read l k)
  | part_failed_read : forall l k, part_of (Done UB) (Read l k)
  | part_write : forall l w k, part_of k (Write l w k)
  | part_failed_write : forall l w k, part_of (Done UB) (Write l w k).
  Lemma part_of_wf : forall R (p : act R), Acc part_of p.
  Proof.
    intros R. assert (D : Acc part_of (Done (R := R) (V := V) UB)) by (constructor; intros q H; inversion H).
    induction p as [o|l k IH|l w k IH]; constructor; intros q H; inversion H; subst; auto.
  Qed.
  Definition shrinks {R} (ps' ps : list (act R)) : Prop := exists t p p', nth_error ps t = Some p /\ part_of p' p /\ ps' = upd ps t p'.
  Lemma shrinks_wf : forall R (ps : list (act R)), Acc shrinks ps.
  Proof.
    intros R. induction ps as [|p ps IH].
    - constructor. intros ps' (t & p & p' & E & _). now destruct t.
    - revert ps IH. induction (part_of_wf R p) as [p _ IHp]. intros ps Hps. induction Hps as [ps Hps IHps].
      constructor. intros ps' (t & q & q' & E & P & ->). destruct t as [|t]; cbn in E |- *.
      + injection E as <-. apply IHp; auto. now constructor.
      + apply IHps. exists t, q, q'. auto.
  Qed.
  Lemma step_shrinks : forall R (c c' : heap * list (act R)), step c c' -> shrinks (snd c') (snd c).
  Proof.
    intros R c c' S. destruct S; cbn [fst snd].
    - exists t, (Read l k), (k w). repeat split; auto. constructor.
    - exists t, (Read l k), (Done UB). repeat split; auto. constructor.
    - exists t, (Write l w k), k. repeat split; auto. constructor.
    - exists t, (Write l w k), (Done UB). repeat split; auto. constructor.
  Qed.
  Lemma step_wf : forall R (c : heap * list (act R)), Acc (fun c' c => step c c') c.
  Proof.
    intros R [h ps]. remember ps as qs. assert (A : Acc shrinks qs) by apply shrinks_wf. subst qs. revert h.
    induction A as [ps _ IH]. intros h. constructor. intros [h' ps'] S. apply IH. exact (step_shrinks _ _ _ S).
  Qed.
  Lemma can_step : forall R (h : heap) (ps : list (act R)), finished ps \/ exists c', step (h, ps) c'.
  Proof.
    intros R h ps. unfold finished. assert (D : Forall (fun p => exists o, p = Done (R := R) o) ps \/ exists t p, nth_error ps t = Some p /\ forall o, p <> Done o).
    { induction ps as [|p ps IH]; [left; constructor|]. destruct p as [o|l k|l w k].
      - destruct IH as [IH|(t & p & E & N)]; [left; constructor; eauto|right; exists (S t), p; auto].
      - right. exists 0%nat, (Read l k). split; [reflexivity|discriminate].
      - right. exists 0%nat, (Write l w k). split; [reflexivity|discriminate]. }
    destruct D as [D|(t & [o|l k|l w k] & E & N)]; auto; right.
    - destruct (N o); auto.
    - destruct (h l) as [[c w]|] eqn:H; eexists; [eapply step_read|eapply step_no_read]; eauto.
    - destruct (h l) as [[[|] w']|] eqn:H; eexists; [eapply step_write|eapply step_no_write|eapply step_no_write]; eauto; congruence.
  Qed.
End Generic.

(** ** The algorithms, access by access, do what they do on iterators of any kind *)
Section Simulation.
  Context {V : Type}.
  Local Notation heap := (heap V).
  Local Notation act := (act V).
  Variable pswap : Z -> Z -> act unit.
  Definition heap_swap (h : heap) (a b : Z) : heap * outcome unit := run (pswap a b) h.

  Lemma shuffle_sim : forall G (dist : G -> Z -> Z -> G * outcome Z) n g h,
    run (p_shuffle_loop pswap dist n g) h = let '(_, st, o) := it_shuffle_loop heap_swap dist n g h in (st, o).
  Proof.
    intros G dist. induction n as [|n IH]; intros g h; [reflexivity|]. cbn [p_shuffle_loop it_shuffle_loop].
    destruct (dist g 0 (Z.of_nat (S n))) as [g' j]. destruct j as [j| | | | |]; cbn [then_]; try reflexivity.
    destruct (negb (Z.of_nat (S n) =? j)); [|apply IH]. rewrite run_then. unfold heap_swap at 1.
    destruct (run (pswap (Z.of_nat (S n)) j) h) as [h' [[]| | | | |]]; try reflexivity. apply IH.
  Qed.

  Variable arr : nat.
  (** The swap does not touch the index range. *)
  Definition no_index (l : loc) : Prop := forall z, l <> LIdx arr z.
  Hypothesis Hswap : forall a b, within no_index no_index (fun _ _ => True) (fun _ => True) (pswap a b).

  Definition Rel (h : heap) (s : heap * list Z) : Prop := (forall l, no_index l -> h l = fst s l) /\ holds_indices arr (snd s) h.
  Definition Sim {R} (p : act R) (P : PermItModel.prog heap R) : Prop := forall h s, Rel h s ->
    snd (run p h) = snd (P s) /\ (snd (P s) = UB \/ Rel (fst (run p h)) (fst (P s))).

  Lemma sim_then : forall R S (p : act R) P (f : R -> act S) F, Sim p P -> (forall x, Sim (f x) (F x)) -> Sim (then_ p f) (seq_ P F).
  Proof.
    intros R S p P f F H K h s r. destruct (H h s r) as [E O]. rewrite run_then. unfold seq_.
    destruct (run p h) as [h' o]. destruct (P s) as [s' o']. cbn [fst snd] in E, O. subst o'. destruct O as [->|O]; [cbn; auto|].
    destruct o as [x| | | | |]; cbn; auto. apply K. exact O.
  Qed.
  Lemma sim_done : forall R (o : outcome R), Sim (Done o) (PermItModel.fail o).
  Proof. intros R o h s r. cbn. auto. Qed.
  Lemma sim_ret : forall R (x : R), Sim (Done (Ok x)) (PermItModel.ret x).
  Proof. intros R x h s r. cbn. auto. Qed.
  Lemma aget_cell : forall (l : list Z) z, aget l z = if z <? 0 then UB else match nth_error l (Z.to_nat z) with Some x => Ok x | None => UB end.
  Proof. reflexivity. Qed.
  Lemma sim_idx : forall z, Sim (p_idx arr z) (idx_get z).
  Proof.
    intros z h s r. pose proof r as [r1 r2]. cbn. rewrite r2, aget_cell. destruct (z <? 0); [cbn; auto|].
    destruct (nth_error (snd s) (Z.to_nat z)); cbn; auto.
  Qed.
  Lemma aset_cell : forall (l : list Z) z x, aset l z x = if z <? 0 then UB else if (Z.to_nat z <? length l)%nat then Ok (upd l (Z.to_nat z) x) else UB.
  Proof. reflexivity. Qed.
  Lemma rel_set : forall h s z x, Rel h s -> 0 <= z -> (Z.to_nat z < length (snd s))%nat ->
    Rel (set h (LIdx arr z) (VIdx x)) (fst s, upd (snd s) (Z.to_nat z) x).
  Proof.
    intros h s z x [r1 r2] Hz Hl. split; cbn [fst snd].
    - intros l N. rewrite set_other; [auto|]. intros <-. now apply (N z).
    - intros y. unfold set. destruct (loc_eqb_spec (LIdx arr z) (LIdx arr y)) as [E|N].
      + injection E as <-. destruct (Z.ltb_spec z 0); [lia|]. rewrite nth_error_upd_same by auto. reflexivity.
      + rewrite r2. destruct (Z.ltb_spec y 0); [reflexivity|]. rewrite nth_error_upd_other; [reflexivity|]. intros E.
        apply N. f_equal. lia.
  Qed.
  Lemma sim_idx_set : forall z x, Sim (p_idx_set arr z x) (idx_do (fun l => aset l z x)).
  Proof.
    intros z x h s r. pose proof r as [r1 r2]. cbn. rewrite r2, aset_cell. destruct (Z.ltb_spec z 0); [cbn; auto|].
    destruct (nth_error (snd s) (Z.to_nat z)) eqn:E.
    - assert (L : (Z.to_nat z < length (snd s))%nat) by (apply nth_error_Some; congruence).
      rewrite (proj2 (Nat.ltb_lt _ _) L). cbn. split; auto. right. apply rel_set; auto.
    - apply nth_error_None in E. rewrite (proj2 (Nat.ltb_ge _ _) E). cbn. auto.
  Qed.
  Lemma sim_idx_swap : forall a b, Sim (p_idx_swap arr a b) (idx_do (fun l => swap_at l a b)).
  Proof.
    intros a b h s r. pose proof r as [r1 r2]. unfold p_idx_swap, swap_at. rewrite run_then. cbn [p_idx run]. unfold idx_do. rewrite !aget_cell. rewrite r2.
    destruct (Z.ltb_spec a 0) as [Ha|Ha]; [cbn; auto|].
    destruct (nth_error (snd s) (Z.to_nat a)) as [x|] eqn:Ea; [|cbn; auto]. cbn [run bind]. rewrite run_then. cbn [p_idx run]. rewrite r2.
    destruct (Z.ltb_spec b 0) as [Hb|Hb]; [cbn; auto|].
    destruct (nth_error (snd s) (Z.to_nat b)) as [y|] eqn:Eb; [|cbn; auto]. cbn [run bind]. rewrite run_then.
    assert (La : (Z.to_nat a < length (snd s))%nat) by (apply nth_error_Some; congruence).
    assert (Lb : (Z.to_nat b < length (snd s))%nat) by (apply nth_error_Some; congruence).
    cbn [p_idx_set run]. rewrite r2, (proj2 (Z.ltb_ge _ _) Ha), Ea. cbn [run].
    pose proof (rel_set h s a y r Ha La) as r'. pose proof r' as [_ r2']. rewrite r2', (proj2 (Z.ltb_ge _ _) Hb). cbn [fst snd].
    rewrite !aset_cell. destruct (Z.ltb_spec a 0); [lia|]. rewrite (proj2 (Nat.ltb_lt _ _) La). cbn [bind]. rewrite aset_cell.
    destruct (Z.ltb_spec b 0); [lia|]. rewrite upd_length, (proj2 (Nat.ltb_lt _ _) Lb). cbn [bind].
    destruct (nth_error (upd (snd s) (Z.to_nat a) y) (Z.to_nat b)) as [y'|] eqn:E.
    - cbn [fst snd run]. split; auto. right. apply (rel_set _ _ b x) in r'; auto. cbn [snd]. rewrite upd_length. exact Lb.
    - apply nth_error_None in E. rewrite upd_length in E. lia.
  Qed.
  Lemma sim_swap : forall a b, Sim (pswap a b) (elem_swap heap_swap a b).
  Proof.
    intros a b h s [r1 r2]. unfold elem_swap, heap_swap.
    destruct (run_agree _ no_index no_index (fun _ _ => True) (fun _ => True) (pswap a b) h (fst s) (Hswap a b)) as (R1 & R2 & R3 & R4 & _).
    { intros l c w _. exact I. } { intros l [N|N]; auto. }
    destruct (run (pswap a b) (fst s)) as [h' o]. cbn [fst snd] in *. split; auto. right. split; cbn [fst snd].
    - intros l N. apply R2. auto.
    - intros z. rewrite R3; [apply r2|]. intros N. now apply (N z).
  Qed.

  Lemma sim_apply_inner : forall fuel i len cur, Sim (p_apply_inner pswap arr fuel i len cur) (it_apply_inner heap_swap fuel i len cur).
  Proof.
    induction fuel as [|fuel IH]; intros i len cur.
    - cbn [p_apply_inner it_apply_inner]. apply sim_then; [apply sim_idx|]. intros x. destruct (i =? x); [apply sim_ret|apply sim_done].
    - intros h s r. cbn [p_apply_inner it_apply_inner].
      assert (E : run (then_ (p_idx arr cur) (fun x => if i =? x then Done (Ok cur) else
         then_ (p_idx arr cur) (fun next => if (next <? 0) || (next >=? len) || (next =? cur) then then_ (p_idx_set arr i next) (fun _ => Done Contract)
            else then_ (pswap cur next) (fun _ => then_ (p_idx_set arr cur cur) (fun _ => p_apply_inner pswap arr fuel i len next))))) h =
        run (then_ (p_idx arr cur) (fun x => if i =? x then Done (Ok cur) else
            if (x <? 0) || (x >=? len) || (x =? cur) then then_ (p_idx_set arr i x) (fun _ => Done Contract)
            else then_ (pswap cur x) (fun _ => then_ (p_idx_set arr cur cur) (fun _ => p_apply_inner pswap arr fuel i len x)))) h).
      { cbn. destruct (h (LIdx arr cur)) as [[c w]|] eqn:H; [|reflexivity]. destruct w as [v|s'|x]; try reflexivity. cbn. destruct (i =? x); [reflexivity|].
        cbn. rewrite H. reflexivity. }
      rewrite E. apply sim_then; auto; [apply sim_idx|]. intros x. destruct (i =? x); [apply sim_ret|].
      destruct ((x <? 0) || (x >=? len) || (x =? cur)).
      + apply sim_then; [apply sim_idx_set|]. intros _. apply sim_done.
      + apply sim_then; [apply sim_swap|]. intros _. apply sim_then; [apply sim_idx_set|]. intros _. apply IH.
  Qed.
  Lemma sim_apply_outer : forall fuel cnt i len, Sim (p_apply_outer pswap arr fuel cnt i len) (it_apply_outer heap_swap fuel cnt i len).
  Proof.
    induction cnt as [|cnt IH]; intros i len; cbn [p_apply_outer it_apply_outer]; [apply sim_ret|].
    apply sim_then; [apply sim_apply_inner|]. intros c. apply sim_then; [apply sim_idx_set|]. intros _. apply IH.
  Qed.
  Lemma sim_apply : forall diff n, Sim (p_apply_permutation pswap arr diff n) (it_apply_permutation heap_swap diff n).
  Proof. intros diff n. apply sim_apply_outer. Qed.

  Lemma sim_reverse_inner : forall fuel i len, Sim (p_reverse_inner pswap arr fuel i len) (it_reverse_inner heap_swap fuel i len).
  Proof.
    induction fuel as [|fuel IH]; intros i len.
    - cbn [p_reverse_inner it_reverse_inner]. apply sim_then; [apply sim_idx|]. intros x. destruct (i =? x); [apply sim_ret|apply sim_done].
    - intros h s r. cbn [p_reverse_inner it_reverse_inner].
      assert (E : run (then_ (p_idx arr i) (fun x => if i =? x then Done (Ok tt) else
         then_ (p_idx arr i) (fun next => if negb ((next >=? 0) && (next <? len)) then Done Contract
            else then_ (p_idx arr next) (fun y => if next =? y then Done Contract
              else then_ (pswap i next) (fun _ => then_ (p_idx_swap arr i next) (fun _ => p_reverse_inner pswap arr fuel i len)))))) h =
        run (then_ (p_idx arr i) (fun x => if i =? x then Done (Ok tt) else
            if negb ((x >=? 0) && (x <? len)) then Done Contract
            else then_ (p_idx arr x) (fun y => if x =? y then Done Contract
              else then_ (pswap i x) (fun _ => then_ (p_idx_swap arr i x) (fun _ => p_reverse_inner pswap arr fuel i len))))) h).
      { cbn. destruct (h (LIdx arr i)) as [[c w]|] eqn:H; [|reflexivity]. destruct w as [v|s'|x]; try reflexivity. cbn. destruct (i =? x); [reflexivity|].
        cbn. rewrite H. reflexivity. }
      rewrite E. apply sim_then; auto; [apply sim_idx|]. intros x. destruct (i =? x); [apply sim_ret|].
      destruct (negb ((x >=? 0) && (x <? len))); [apply sim_done|].
      apply sim_then; [apply sim_idx|]. intros y. destruct (x =? y); [apply sim_done|].
      apply sim_then; [apply sim_swap|]. intros _. apply sim_then; [apply sim_idx_swap|]. intros _. apply IH.
  Qed.
  Lemma sim_reverse_outer : forall fuel cnt i len, Sim (p_reverse_outer pswap arr fuel cnt i len) (it_reverse_outer heap_swap fuel cnt i len).
  Proof.
    induction cnt as [|cnt IH]; intros i len; cbn [p_reverse_outer it_reverse_outer]; [apply sim_ret|].
    apply sim_then; [apply sim_reverse_inner|]. intros _. apply IH.
  Qed.
  Lemma sim_reverse : forall diff n, Sim (p_apply_reverse_permutation pswap arr diff n) (it_apply_reverse_permutation heap_swap diff n).
  Proof. intros diff n. apply sim_reverse_outer. Qed.
End Simulation.

(** ** Footprints of the algorithms, from those of the swap *)
Section Footprints.
  Context {V : Type}.
  Local Notation act := (act V).
  Variables (Rd Wr : loc -> Prop) (I : loc -> value V -> Prop) (pswap : Z -> Z -> act unit) (n : Z).
  Local Notation foot := (within Rd Wr I (fun _ => True)).
  Hypothesis Hswap : forall a b, 0 <= a < n -> 0 <= b < n -> foot (pswap a b).

  Lemma foot_then : forall R Q (p : act R) (f : R -> act Q), foot p -> (forall y, foot (f y)) -> foot (then_ p f).
  Proof. intros R Q p f H K. eapply within_then; eauto. Qed.
  Lemma foot_shuffle : forall k ds, Z.of_nat k < n -> draws_ok k ds -> foot (p_shuffle_loop pswap draw k ds).
  Proof.
    induction k as [|k IH]; intros ds Hn Hd; [exact Logic.I|]. destruct Hd as (z & r & -> & Hz & Hr). cbn [p_shuffle_loop draw then_].
    destruct (negb (Z.of_nat (S k) =? z)); [|apply IH; auto; lia]. apply foot_then; [apply Hswap; lia|]. intros _. apply IH; auto; lia.
  Qed.

  Variable arr : nat.
  Hypothesis Hidx : forall z, Rd (LIdx arr z) /\ Wr (LIdx arr z) /\ forall y, I (LIdx arr z) (VIdx y).
  Lemma foot_idx : forall z, foot (p_idx arr z).
  Proof. intros z. cbn. split; [apply Hidx|]. intros [?|?|?] _; exact Logic.I. Qed.
  Lemma foot_idx_set : forall z y, foot (p_idx_set arr z y).
  Proof. intros z y. destruct (Hidx z) as (H1 & H2 & H3). cbn. auto. Qed.
  Lemma foot_apply_inner : forall fuel i cur, 0 <= cur < n -> foot (p_apply_inner pswap arr fuel i n cur).
  Proof.
    induction fuel as [|fuel IH]; intros i cur Hc; cbn [p_apply_inner].
    - apply foot_then; [apply foot_idx|]. intros y. destruct (i =? y); exact Logic.I.
    - apply foot_then; [apply foot_idx|]. intros y. destruct (i =? y); [exact Logic.I|].
      apply foot_then; [apply foot_idx|]. intros next. destruct ((next <? 0) || (next >=? n) || (next =? cur)) eqn:G.
      + apply foot_then; [apply foot_idx_set|]. intros _. exact Logic.I.
      + apply orb_false_iff in G as [G G3]. apply orb_false_iff in G as [G1 G2]. rewrite Z.geb_leb in G2. apply Z.ltb_ge in G1. apply Z.leb_gt in G2.
        apply foot_then; [apply Hswap; lia|]. intros _. apply foot_then; [apply foot_idx_set|]. intros _. apply IH. lia.
  Qed.
  Lemma foot_apply_outer : forall fuel cnt i, 0 <= i -> i + Z.of_nat cnt <= n -> foot (p_apply_outer pswap arr fuel cnt i n).
  Proof.
    intros fuel. induction cnt as [|cnt IH]; intros i Hi Hc; cbn [p_apply_outer]; [exact Logic.I|].
    apply foot_then; [apply foot_apply_inner; lia|]. intros c. apply foot_then; [apply foot_idx_set|]. intros _. apply IH; lia.
  Qed.
  Lemma foot_idx_swap : forall a b, foot (p_idx_swap arr a b).
  Proof.
    intros a b. unfold p_idx_swap. apply foot_then; [apply foot_idx|]. intros y. apply foot_then; [apply foot_idx|]. intros z.
    apply foot_then; [apply foot_idx_set|]. intros _. apply foot_idx_set.
  Qed.
  Lemma foot_reverse_inner : forall fuel i, 0 <= i < n -> foot (p_reverse_inner pswap arr fuel i n).
  Proof.
    induction fuel as [|fuel IH]; intros i Hc; cbn [p_reverse_inner].
    - apply foot_then; [apply foot_idx|]. intros y. destruct (i =? y); exact Logic.I.
    - apply foot_then; [apply foot_idx|]. intros y. destruct (i =? y); [exact Logic.I|].
      apply foot_then; [apply foot_idx|]. intros next. destruct (negb ((next >=? 0) && (next <? n))) eqn:G; [exact Logic.I|].
      apply negb_false_iff, andb_true_iff in G as [G1 G2]. rewrite Z.geb_leb in G1. apply Z.leb_le in G1. apply Z.ltb_lt in G2.
      apply foot_then; [apply foot_idx|]. intros y'. destruct (next =? y'); [exact Logic.I|].
      apply foot_then; [apply Hswap; lia|]. intros _. apply foot_then; [apply foot_idx_swap|]. intros _. apply IH. lia.
  Qed.
  Lemma foot_reverse_outer : forall fuel cnt i, 0 <= i -> i + Z.of_nat cnt <= n -> foot (p_reverse_outer pswap arr fuel cnt i n).
  Proof.
    intros fuel. induction cnt as [|cnt IH]; intros i Hi Hc; cbn [p_reverse_outer]; [exact Logic.I|].
    apply foot_then; [apply foot_reverse_inner; lia|]. intros _. apply IH; lia.
  Qed.
End Footprints.
Lemma foot_call : forall V (Rd Wr : loc -> Prop) (I : loc -> value V -> Prop) pswap n (h : heap V) idx j, 0 <= n ->
  (forall a b, 0 <= a < n -> 0 <= b < n -> within Rd Wr I (fun _ => True) (pswap a b)) ->
  (forall d a z, indices_of j = Some (d, a) -> Rd (LIdx a z) /\ Wr (LIdx a z) /\ forall y, I (LIdx a z) (VIdx y)) ->
  job_ok h n idx j -> within Rd Wr I (fun _ => True) (call pswap j n).
Proof.
  intros V Rd Wr I pswap n h idx j Hn Hs Hi Hj. unfold call. destruct j as [d a|d a|ds]; cbn [job_ok] in Hj.
  - destruct Hj as (B & Iv & _). unfold p_apply_permutation. rewrite cast_id by (auto; now apply in_ity_iff). apply foot_apply_outer; auto; try lia. intros z. eapply Hi. reflexivity.
  - destruct Hj as (B & Iv & _). unfold p_apply_reverse_permutation. rewrite cast_id by (auto; now apply in_ity_iff). apply foot_reverse_outer; auto; try lia. intros z. eapply Hi. reflexivity.
  - unfold p_shuffle. destruct (Z.to_nat (n - 1)) as [|k] eqn:En; [exact Logic.I|]. eapply foot_shuffle; [exact Hs|lia|].
    replace (Z.to_nat n - 1)%nat with (S k) in Hj by lia. exact Hj.
Qed.

(** ** Which objects a call accesses *)
Section Touches.
  Context {V : Type}.
  Fixpoint touches {R} (p : act V R) (h : heap V) (l : loc) : Prop :=
    match p with
    | Done _ => False
    | Read l' k => l' = l \/ match h l' with Some (_, w) => touches (k w) h l | None => False end
    | Write l' w k => l' = l \/ match h l' with Some (true, _) => touches k (set h l' w) l | _ => False end
    end.
  Lemma touches_dec : forall R (p : act V R) h l, touches p h l \/ ~ touches p h l.
  Proof.
    intros R. induction p as [o|l' k IH|l' w k IH]; intros h l; cbn; auto.
    - destruct (loc_eqb_spec l' l); auto. destruct (h l') as [[c w]|]; [|tauto]. destruct (IH w h l); tauto.
    - destruct (loc_eqb_spec l' l); auto. destruct (h l') as [[[|] w']|]; try tauto. destruct (IH (set h l' w) l); tauto.
  Qed.
  (** If it does not access an object, it does not matter whether the object is there. *)
  Lemma untouched_run : forall R (p : act V R) h h1 l, ~ touches p h l -> (forall l', l' <> l -> h1 l' = h l') ->
    forall l', l' <> l -> fst (run p h1) l' = fst (run p h) l'.
  Proof.
    intros R. induction p as [o|l0 k IH|l0 w k IH]; intros h h1 l N E l' N'; cbn in *; auto.
    - destruct (loc_eqb_spec l0 l) as [|D]; [tauto|]. rewrite (E l0 D). destruct (h l0) as [[c w]|]; [|auto]. eapply IH; eauto.
    - destruct (loc_eqb_spec l0 l) as [|D]; [tauto|]. rewrite (E l0 D). destruct (h l0) as [[[|] w']|]; auto. eapply IH; eauto.
      intros l2 N2. unfold set. destruct (loc_eqb l0 l2); auto.
  Qed.
  Lemma touches_reachable : forall R (q p : act V R) h l, touches p h l -> exists h' p' x, reachable (h, [p; q]) (h', [p'; q]) /\ next_access p' l x.
  Proof.
    intros R q. induction p as [o|l0 k IH|l0 w k IH]; intros h l T; cbn in T; [tauto| |].
    - destruct T as [->|T]; [exists h, (Read l k), false; split; [constructor|constructor]|]. destruct (h l0) as [[c w]|] eqn:E; [|tauto].
      destruct (IH w h l T) as (h' & p' & x & A & B). exists h', p', x. split; auto. eapply Relation_Operators.rt1n_trans; [|exact A].
      exact (step_read h [Read l0 k; q] 0 l0 k c w eq_refl E).
    - destruct T as [->|T]; [exists h, (Write l w k), true; split; [constructor|constructor]|]. destruct (h l0) as [[[|] w']|] eqn:E; try tauto.
      destruct (IH (set h l0 w) l T) as (h' & p' & x & A & B). exists h', p', x. split; auto. eapply Relation_Operators.rt1n_trans; [|exact A].
      exact (step_write h [Write l0 w k; q] 0 l0 w k w' eq_refl E).
  Qed.
End Touches.

(** ** One part *)
Section Place.
  Context {V : Type}.
  Local Notation heap := (heap V).
  Local Notation act := (act V).
  Variables (m : memory (V := V)) (h0 : heap) (x : place).
  Hypothesis Hok : place_ok m h0 x.

  Definition place_swap : Z -> Z -> act unit :=
    match x with InSoa spans o a b => p_soa_swap m (mk_it (map s_const spans) o a) | InArray p n => p_ptr_swap m p end.
  Definition cell_of (s : span) (k : Z) : loc := match s_data s with PNull => LObj 0 | PAt b i => LElem b (i + k) end.

  Lemma place_facts : 0 <= from x /\ 0 <= count x /\ from x + count x < 2 ^ 63 /\
    forall s, In s (spans_of x) -> span_ok m s /\ s_const s = false /\ from x + count x <= s_size s.
  Proof.
    destruct Hok as (H1 & H2 & H3 & H4). rewrite Forall_forall in H1, H2. destruct x as [spans o a b|p n]; cbn [from count spans_of] in *.
    - destruct H4 as (s & c & E & Ho & Hab & Hb). pose proof (soa_range _ _ _ E (proj2 (Forall_forall _ _) H1)) as R.
      destruct (soa_inv _ _ E) as (_ & _ & C & _). rewrite Forall_forall in C. split; [lia|]. split; [lia|]. split; [lia|]. intros s' I. split; auto. split; auto. rewrite (C s' I). lia.
    - destruct (H1 _ (or_introl eq_refl)) as [R1 R2]. cbn in R1. split; [lia|]. split; [lia|]. split; [lia|].
      intros s I. split; auto. split; auto. destruct I as [<-|[]]. cbn. lia.
  Qed.

  (** Exchanging two cells of each of several spans. *)
  Definition xcell (s : span) (A B : Z) (l : loc) : loc :=
    if loc_eqb l (cell_of s A) then cell_of s B else if loc_eqb l (cell_of s B) then cell_of s A else l.
  Fixpoint xcells (ss : list span) (A B : Z) (l : loc) : loc :=
    match ss with [] => l | s :: r => xcell s A B (xcells r A B l) end.
  (** The cells are there. *)
  Definition cells_ok (ss : list span) (A B : Z) (h : heap) : Prop :=
    forall s, In s ss -> (exists v, h (cell_of s A) = Some (true, VElem v)) /\ (exists v, h (cell_of s B) = Some (true, VElem v)).

  Lemma span_cell : forall s k, In s (spans_of x) -> 0 <= k < from x + count x ->
    exists b i, s_data s = PAt b i /\ cell_of s k = LElem b (i + k) /\ ptr_add m (s_data s) k = Ok (PAt b (i + k)).
  Proof.
    intros s k I K. destruct place_facts as (_ & _ & _ & F). destruct (F s I) as ((S1 & S2) & _ & L). unfold cell_of.
    destruct (s_data s) as [|b i]; [lia|]. exists b, i. split; auto. split; auto. destruct S2 as (bl & E & S2 & S3 & _). cbn. rewrite E.
    destruct (Z.leb_spec 0 (i + k)), (Z.leb_spec (i + k) (Z.of_nat (length (b_elems bl)))); try lia. reflexivity.
  Qed.
  Lemma run_swap_elems : forall b i b' i' (h : heap) v w, h (LElem b i) = Some (true, VElem v) -> h (LElem b' i') = Some (true, VElem w) ->
    exists h', run (p_swap_elems (PAt b i) (PAt b' i')) h = (h', Ok tt) /\
      forall l, h' l = h (if loc_eqb l (LElem b i) then LElem b' i' else if loc_eqb l (LElem b' i') then LElem b i else l).
  Proof.
    intros b i b' i' h v w E E'. unfold p_swap_elems, p_load, p_store. cbn [then_ run]. rewrite E. cbn [then_ run]. rewrite E'. cbn [then_ run]. rewrite E.
    assert (Q : exists w', set h (LElem b i) (VElem w) (LElem b' i') = Some (true, w')).
    { unfold set. destruct (loc_eqb_spec (LElem b i) (LElem b' i')); eauto. }
    destruct Q as (w' & Q). rewrite Q. eexists. split; [reflexivity|]. intros l. unfold set.
    destruct (loc_eqb_spec (LElem b' i') l) as [<-|N].
    - destruct (loc_eqb_spec (LElem b' i') (LElem b i)) as [X|N]; [rewrite <- X in *; congruence|].
      destruct (loc_eqb_spec (LElem b' i') (LElem b' i')); congruence.
    - destruct (loc_eqb_spec (LElem b i) l) as [<-|N'].
      + destruct (loc_eqb_spec (LElem b i) (LElem b i)); congruence.
      + destruct (loc_eqb_spec l (LElem b i)); [congruence|]. destruct (loc_eqb_spec l (LElem b' i')); congruence.
  Qed.
  Lemma xcell_ok : forall ss s A B h, cells_ok ss A B h -> In s ss -> forall l, (exists v, h l = Some (true, VElem v)) ->
    exists v, h (xcell s A B l) = Some (true, VElem v).
  Proof.
    intros ss s A B h C I l L. destruct (C s I). unfold xcell. destruct (loc_eqb l (cell_of s A)); auto. destruct (loc_eqb l (cell_of s B)); auto.
  Qed.
  Lemma skipn_next : forall A (l : list A) n a r, skipn n l = a :: r -> skipn (S n) l = r.
  Proof. intros A l n. revert l. induction n as [|n IH]; intros [|y l] a r E; try discriminate; [now injection E|]. exact (IH l a r E). Qed.
  Lemma run_swap_from : forall s o c c' A B, h0 (LObj o) = Some (c', VObj s) -> soa_data s = map s_data (spans_of x) ->
    0 <= A < from x + count x -> 0 <= B < from x + count x ->
    forall n iC ss h, skipn iC (spans_of x) = ss -> length ss = n -> h (LObj o) = h0 (LObj o) -> cells_ok ss A B h ->
    exists h', run (p_swap_from m (mk_ref c o A) (mk_ref c o B) iC n) h = (h', Ok tt) /\ forall l, h' l = h (xcells ss A B l).
  Proof.
    intros s o c c' A B Ho Hd HA HB. induction n as [|n IH]; intros iC ss h Hss Hn Hh C.
    { destruct ss; [|discriminate]. exists h. split; reflexivity. }
    destruct ss as [|s1 ss]; [discriminate|].
    assert (N : nth_error (spans_of x) iC = Some s1).
    { rewrite <- (Nat.add_0_r iC), <- nth_error_skipn, Hss. reflexivity. }
    assert (I : In s1 (spans_of x)) by (eapply nth_error_In; eauto).
    destruct (span_cell s1 A I HA) as (b & i & D & CA & PA). destruct (span_cell s1 B I HB) as (b' & i' & D' & CB & PB).
    rewrite D in D'. injection D' as <- <-.
    cbn [p_swap_from]. rewrite run_then. unfold p_ref_get at 1. cbn [run r_obj r_index]. rewrite Hh, Ho, Hd, nth_error_map, N. cbn [option_map run]. rewrite PA.
    rewrite run_then. unfold p_ref_get at 1. cbn [run r_obj r_index]. rewrite Hh, Ho, Hd, nth_error_map, N. cbn [option_map run]. rewrite PB.
    destruct (C s1 (or_introl eq_refl)) as ((v & Ev) & (w & Ew)). pose proof Ev as Ev'. pose proof Ew as Ew'. rewrite CA in Ev'. rewrite CB in Ew'.
    destruct (run_swap_elems b (i + A) b (i + B) h v w Ev' Ew') as (h1 & R1 & X1). rewrite run_then, R1. cbn [run].
    assert (X : forall l, h1 l = h (xcell s1 A B l)). { intros l. rewrite X1. unfold xcell. rewrite CA, CB. reflexivity. }
    destruct (IH (S iC) ss h1) as (h' & R & E); auto.
    { eapply skipn_next; eauto. }
    { rewrite X, <- Hh. unfold xcell. rewrite CA, CB. reflexivity. }
    { intros s2 I2. rewrite !X. destruct (C s2 (or_intror I2)). split; eapply (xcell_ok (s1 :: ss)); eauto; now left. }
    exists h'. split; auto. intros l. rewrite E, X. reflexivity.
  Qed.
  Lemma arith_id : forall z, 0 <= z < 2 ^ 63 -> int_arith ptrdiff_ty z = Ok z.
  Proof. intros z H. unfold int_arith. cbn [ity_signed ptrdiff_ty]. rewrite in_ptrdiff_nonneg by lia. reflexivity. Qed.
  Lemma no_const : forall spans, Forall (fun s => s_const s = false) spans -> existsb (fun c => c) (map s_const spans) = false.
  Proof. induction 1 as [|s l E H IH]; [reflexivity|]. cbn. rewrite E. exact IH. Qed.
  Lemma run_place_swap : forall h a b, (forall o, h (LObj o) = h0 (LObj o)) -> 0 <= a < count x -> 0 <= b < count x ->
    cells_ok (spans_of x) (from x + a) (from x + b) h ->
    exists h', run (place_swap a b) h = (h', Ok tt) /\ forall l, h' l = h (xcells (spans_of x) (from x + a) (from x + b) l).
  Proof.
    intros h a b Hh Ha Hb C. pose proof place_facts as (F1 & F2 & F3 & F4). pose proof Hok as (K1 & K2 & K3 & K4). pose proof span_cell as SC. pose proof run_swap_from as RS.
    unfold place_swap. destruct x as [spans o a0 b0|p n]; cbn [from count spans_of] in *.
    - destruct K4 as (s & c & Es & Ho & Hab & Hb0). unfold p_soa_swap, it_subscript. cbn [it_index it_const it_obj]. rewrite !arith_id by lia. cbn [bind then_].
      unfold p_ref_swap. cbn [r_const]. rewrite no_const by auto. rewrite map_length.
      destruct (soa_inv _ _ Es) as (_ & D & _). eapply (RS s o _ c); eauto; lia.
    - destruct (SC (mk_span false p n) a (or_introl eq_refl) ltac:(lia)) as (b1 & i1 & D & CA & PA).
      destruct (SC (mk_span false p n) b (or_introl eq_refl) ltac:(lia)) as (b2 & i2 & D' & CB & PB). cbn [s_data] in *.
      unfold p_ptr_swap. rewrite PA, PB. cbn [then_]. destruct (C _ (or_introl eq_refl)) as ((v & Ev) & (w & Ew)). rewrite Z.add_0_l in Ev, Ew.
      rewrite CA in Ev. rewrite CB in Ew. destruct (run_swap_elems _ _ _ _ h v w Ev Ew) as (h' & R & X). exists h'. split; auto.
      intros l. rewrite X. cbn [xcells]. unfold xcell. rewrite !Z.add_0_l, CA, CB. reflexivity.
  Qed.

  Definition swapped (A B K : Z) : Z := if K =? A then B else if K =? B then A else K.
  Definition separate (ss : list span) (M : Z) : Prop := forall y z s s' K K', nth_error ss y = Some s -> nth_error ss z = Some s' ->
    0 <= K < M -> 0 <= K' < M -> cell_of s K = cell_of s' K' -> y = z /\ K = K'.
  Lemma separate_tail : forall s ss M, separate (s :: ss) M -> separate ss M.
  Proof. intros s ss M P y z s1 s2 K K' E E' H H' X. destruct (P (S y) (S z) s1 s2 K K' E E' H H' X). split; auto; lia. Qed.
  Lemma place_separate : separate (spans_of x) (from x + count x).
  Proof.
    intros y z s s' K K' E E' HK HK' X. pose proof Hok as (_ & _ & D & _). pose proof place_facts as (F1 & F2 & F3 & F4).
    pose proof (nth_error_In _ _ E) as I. pose proof (nth_error_In _ _ E') as I'.
    destruct (span_cell s K I HK) as (b & i & Ds & C & _). destruct (span_cell s' K' I' HK') as (b' & i' & Ds' & C' & _).
    rewrite C, C' in X. injection X as <- X.
    assert (Y : y = z).
    { apply (D y z s s' b (i + K)); auto.
      - exists K. split; [destruct (F4 s I) as (_ & _ & L); lia|]. unfold at_index. rewrite Ds. auto.
      - exists K'. split; [destruct (F4 s' I') as (_ & _ & L); lia|]. unfold at_index. rewrite Ds'. auto. }
    split; auto. subst z. assert (s' = s) by congruence. subst s'. assert (i' = i) by congruence. lia.
  Qed.
  Lemma xcells_away : forall ss A B l, (forall s, In s ss -> l <> cell_of s A /\ l <> cell_of s B) -> xcells ss A B l = l.
  Proof.
    induction ss as [|s ss IH]; intros A B l H; [reflexivity|]. cbn [xcells]. rewrite IH by (intros; apply H; now right).
    destruct (H s (or_introl eq_refl)). unfold xcell. destruct (loc_eqb_spec l (cell_of s A)); [tauto|]. destruct (loc_eqb_spec l (cell_of s B)); tauto.
  Qed.
  Lemma xcells_at : forall M A B, 0 <= A < M -> 0 <= B < M -> forall ss, separate ss M -> forall s K, In s ss -> 0 <= K < M ->
    xcells ss A B (cell_of s K) = cell_of s (swapped A B K).
  Proof.
    intros M A B HA HB. induction ss as [|s0 ss IH]; intros P s K I HK; [destruct I|]. cbn [xcells].
    assert (HS : 0 <= swapped A B K < M) by (unfold swapped; destruct (K =? A), (K =? B); lia).
    apply In_nth_error in I as (y & E). destruct y as [|y]; cbn in E.
    - injection E as <-. rewrite xcells_away.
      + unfold xcell, swapped. destruct (loc_eqb_spec (cell_of s0 K) (cell_of s0 A)) as [X|X].
        * destruct (P 0%nat 0%nat s0 s0 K A) as (_ & ->); auto. now rewrite Z.eqb_refl.
        * destruct (Z.eqb_spec K A) as [->|_]; [tauto|]. destruct (loc_eqb_spec (cell_of s0 K) (cell_of s0 B)) as [Y|Y].
          -- destruct (P 0%nat 0%nat s0 s0 K B) as (_ & ->); auto. now rewrite Z.eqb_refl.
          -- destruct (Z.eqb_spec K B) as [->|_]; [tauto|]. reflexivity.
      + intros s I. apply In_nth_error in I as (z & E). split; intros X.
        * destruct (P 0%nat (S z) s0 s K A); auto. discriminate.
        * destruct (P 0%nat (S z) s0 s K B); auto. discriminate.
    - rewrite IH; [|eapply separate_tail; eauto|eapply nth_error_In; eauto|auto]. unfold xcell.
      destruct (loc_eqb_spec (cell_of s (swapped A B K)) (cell_of s0 A)) as [X|_].
      { destruct (P (S y) 0%nat s s0 (swapped A B K) A); auto. discriminate. }
      destruct (loc_eqb_spec (cell_of s (swapped A B K)) (cell_of s0 B)) as [X|_]; [|reflexivity].
      destruct (P (S y) 0%nat s s0 (swapped A B K) B); auto. discriminate.
  Qed.

  (** What stays: everything outside, and that the cells are there. *)
  Definition place_inv (h : heap) : Prop :=
    (forall l, (forall b i, inside x b i -> l <> LElem b i) -> h l = h0 l) /\
    forall s k, In s (spans_of x) -> 0 <= k < count x -> exists v, h (cell_of s (from x + k)) = Some (true, VElem v).
  Lemma cell_inside : forall s k, In s (spans_of x) -> 0 <= k < count x -> exists b i, cell_of s (from x + k) = LElem b i /\ inside x b i.
  Proof.
    intros s k I K. pose proof place_facts as (F1 & F2 & F3 & F4). destruct (span_cell s (from x + k) I ltac:(lia)) as (b & i & D & C & _).
    exists b, (i + (from x + k)). split; auto. exists s, k. split; auto. split; auto. unfold at_index. rewrite D. auto.
  Qed.
  Lemma content_cell : forall (h : heap) s k, In s (spans_of x) -> 0 <= k < count x -> content h s (from x + k) = h (cell_of s (from x + k)).
  Proof.
    intros h s k I K. pose proof place_facts as (F1 & F2 & F3 & F4). destruct (span_cell s (from x + k) I ltac:(lia)) as (b & i & D & C & _).
    unfold content. rewrite C, D. reflexivity.
  Qed.
  Lemma seq_at : forall n a k, (k < n)%nat -> nth_error (seq a n) k = Some (a + k)%nat.
  Proof. induction n as [|n IH]; intros a k H; [lia|]. destruct k as [|k]; cbn; [f_equal; lia|]. rewrite IH by lia. f_equal. lia. Qed.
  Lemma tuples_nth : forall (h : heap) k, nth_error (tuples h x) k =
    if (k <? Z.to_nat (count x))%nat then Some (map (fun s => h (cell_of s (from x + Z.of_nat k))) (spans_of x)) else None.
  Proof.
    intros h k. unfold tuples. rewrite nth_error_map. destruct (Nat.ltb_spec k (Z.to_nat (count x))) as [L|L].
    - rewrite seq_at by auto. cbn [option_map Nat.add]. f_equal. apply map_ext_in. intros s I. apply content_cell; auto. lia.
    - rewrite (proj2 (nth_error_None _ _)) by (rewrite seq_length; lia). reflexivity.
  Qed.
  Lemma tuples_length : forall h : heap, Z.of_nat (length (tuples h x)) = count x.
  Proof. intros h. unfold tuples. rewrite map_length, seq_length. pose proof place_facts. lia. Qed.
  Lemma place_swap_operation : swap_operation place_inv (fun h => tuples h x) no_throw (count x) (heap_swap place_swap).
  Proof.
    intros h [I1 I2] _ a b Ha Hb N. pose proof place_facts as (F1 & F2 & F3 & F4).
    destruct (run_place_swap h a b) as (h' & R & X); auto.
    { intros o. apply I1. discriminate. } { intros s I. auto. }
    unfold heap_swap. rewrite R.
    assert (Q : forall s k, In s (spans_of x) -> 0 <= k < count x -> h' (cell_of s (from x + k)) = h (cell_of s (from x + swapped a b k))).
    { intros s k I K. rewrite X, (xcells_at (from x + count x)); auto; try lia; [|apply place_separate].
      do 2 f_equal. unfold swapped. destruct (Z.eqb_spec (from x + k) (from x + a)), (Z.eqb_spec k a); try lia.
      destruct (Z.eqb_spec (from x + k) (from x + b)), (Z.eqb_spec k b); lia. }
    assert (HS : forall k, 0 <= k < count x -> 0 <= swapped a b k < count x) by (intros k; unfold swapped; destruct (k =? a), (k =? b); lia).
    split; [split|left; split; auto; split; [|split; [|split]]].
    - intros l L. rewrite X, xcells_away; auto. intros s I.
      destruct (cell_inside s a I Ha) as (b1 & i1 & -> & J1). destruct (cell_inside s b I Hb) as (b2 & i2 & -> & J2). auto.
    - intros s k I K. rewrite Q by auto. auto.
    - pose proof (tuples_length h). pose proof (tuples_length h'). lia.
    - rewrite !tuples_nth. rewrite !(proj2 (Nat.ltb_lt _ _)) by lia. f_equal. apply map_ext_in. intros s I. rewrite !Z2Nat.id, Q by (assumption || lia).
      unfold swapped. now rewrite Z.eqb_refl.
    - rewrite !tuples_nth. rewrite !(proj2 (Nat.ltb_lt _ _)) by lia. f_equal. apply map_ext_in. intros s I. rewrite !Z2Nat.id, Q by (assumption || lia).
      unfold swapped. rewrite Z.eqb_refl. destruct (Z.eqb_spec b a); [lia|]. reflexivity.
    - intros k Ka Kb. rewrite !tuples_nth. destruct (Nat.ltb_spec k (Z.to_nat (count x))); [|reflexivity]. f_equal. apply map_ext_in. intros s I. rewrite Q by (assumption || lia).
      unfold swapped. destruct (Z.eqb_spec (Z.of_nat k) a); [lia|]. destruct (Z.eqb_spec (Z.of_nat k) b); [lia|]. reflexivity.
  Qed.
  Hypothesis Harr : holds_arrays m h0.
  Lemma place_inv_init : place_inv h0.
  Proof.
    split; auto. intros s k I K. pose proof place_facts as (F1 & F2 & F3 & F4). destruct (span_cell s (from x + k) I ltac:(lia)) as (b & i & D & C & _).
    rewrite C, Harr. destruct (F4 s I) as ((S1 & S2) & SC & SL). rewrite D in S2. destruct S2 as (bl & E & S2 & S3 & S4). rewrite E. unfold cell. rewrite E.
    destruct (Z.ltb_spec (i + (from x + k)) 0); [lia|]. destruct (nth_error (b_elems bl) (Z.to_nat (i + (from x + k)))) as [v|] eqn:Ev.
    - exists v. rewrite (S4 SC). reflexivity.
    - apply nth_error_None in Ev. lia.
  Qed.

  Lemma no_index_swap : forall arr a b, within (no_index arr) (no_index arr) (fun _ _ => True) (fun _ => True) (place_swap a b).
  Proof.
    intros arr a b.
    assert (P : forall p q, within (no_index arr) (no_index arr) (fun _ _ => True) (fun _ => True) (p_swap_elems (V := V) p q)).
    { intros p q. unfold p_swap_elems, p_load, p_store. destruct p as [|b1 i1]; [exact Logic.I|]. cbn. split; [discriminate|]. intros [v|?|?] _; cbn; auto.
      destruct q as [|b2 i2]; [exact Logic.I|]. cbn. split; [discriminate|]. intros [w|?|?] _; cbn; auto. repeat split; discriminate. }
    unfold place_swap. destruct x as [spans o a0 b0|p n].
    - unfold p_soa_swap. destruct (it_subscript (mk_it (map s_const spans) o a0) a) as [r| | | | |]; cbn [then_]; try exact Logic.I.
      destruct (it_subscript (mk_it (map s_const spans) o a0) b) as [r'| | | | |]; cbn [then_]; try exact Logic.I.
      unfold p_ref_swap. destruct (existsb (fun c => c) (r_const r)); [exact Logic.I|]. generalize (length (r_const r)) as n. generalize 0%nat as iC. intros iC n. revert iC.
      assert (G : forall r iC, within (no_index arr) (no_index arr) (fun _ _ => True) (fun _ => True) (p_ref_get m r iC)).
      { intros r1 iC. cbn. split; [discriminate|]. intros [?|s|?] _; cbn; auto. destruct (nth_error (soa_data s) iC) as [p|]; cbn; auto. destruct (ptr_add m p (r_index r1)); auto. }
      induction n as [|n IH]; intros iC; [exact Logic.I|]. cbn [p_swap_from].
      eapply within_then; [apply G|]. intros p _. eapply within_then; [apply G|]. intros q _. eapply within_then; [apply P|]. intros _ _. apply IH.
    - unfold p_ptr_swap. destruct (ptr_add m p a) as [q| | | | |]; cbn [then_]; try exact Logic.I. destruct (ptr_add m p b) as [q'| | | | |]; cbn [then_]; try exact Logic.I. apply P.
  Qed.
  Lemma tuples_ext : forall h h' : heap, (forall b i, h (LElem b i) = h' (LElem b i)) -> tuples h x = tuples h' x.
  Proof. intros h h' E. unfold tuples. apply map_ext. intros k. apply map_ext. intros s. unfold content. destruct (s_data s); auto. Qed.

  (** ** Footprints *)
  Variable j : job.
  Definition may_write : loc -> Prop := writes_to (x, j).
  Definition may_read (l : loc) : Prop := writes_to (x, j) l \/ exists o, l = LObj o.
  Definition obj_fixed (l : loc) (w : value V) : Prop := match l with LObj _ => exists c, h0 l = Some (c, w) | _ => True end.
  Local Notation foot := (within may_read may_write obj_fixed).
  Lemma foot_swap_elems : forall b i b' i', inside x b i -> inside x b' i' -> foot (fun _ => True) (p_swap_elems (PAt b i) (PAt b' i')).
  Proof.
    intros b i b' i' H H'. assert (W : may_write (LElem b i)) by (constructor; auto). assert (W' : may_write (LElem b' i')) by (constructor; auto).
    unfold p_swap_elems, p_load, p_store. cbn. split; [left; auto|]. intros [v|?|?] _; cbn; auto. split; [left; auto|]. intros [w|?|?] _; cbn; auto.
  Qed.
  Lemma foot_place_swap : forall a b, 0 <= a < count x -> 0 <= b < count x -> foot (fun _ => True) (place_swap a b).
  Proof.
    intros a b Ha Hb. pose proof place_facts as (F1 & F2 & F3 & F4). pose proof Hok as (K1 & K2 & K3 & K4). pose proof span_cell as SC. pose proof cell_inside as CI.
    pose proof foot_swap_elems as FS.
    assert (PP : forall s a b, In s (spans_of x) -> 0 <= a < count x -> 0 <= b < count x ->
      exists p q, ptr_add m (s_data s) (from x + a) = Ok p /\ ptr_add m (s_data s) (from x + b) = Ok q /\ foot (fun _ => True) (p_swap_elems p q)).
    { intros s a1 b1 I H H'. destruct (SC s (from x + a1) I ltac:(lia)) as (b2 & i2 & D & CA & PA). destruct (SC s (from x + b1) I ltac:(lia)) as (b3 & i3 & D' & CB & PB).
      destruct (CI s a1 I H) as (b4 & i4 & C4 & J4). destruct (CI s b1 I H') as (b5 & i5 & C5 & J5). rewrite C4 in CA. rewrite C5 in CB.
      injection CA as -> ->. injection CB as -> ->. eexists _, _. split; [eauto|]. split; [eauto|]. apply FS; auto. }
    unfold place_swap. clear SC CI FS. unfold may_read, may_write in *. destruct x as [spans o a0 b0|p n]; cbn [from count spans_of] in *.
    - destruct K4 as (s & c & Es & Ho & Hab & Hb0). unfold p_soa_swap, it_subscript. cbn [it_index it_const it_obj]. rewrite !arith_id by lia. cbn [bind then_].
      unfold p_ref_swap. cbn [r_const]. rewrite no_const by auto. rewrite map_length. destruct (soa_inv _ _ Es) as (_ & D & _).
      assert (G : forall n iC, (iC + n = length spans)%nat ->
        within (fun l => writes_to (InSoa spans o a0 b0, j) l \/ (exists o, l = LObj o)) (writes_to (InSoa spans o a0 b0, j)) obj_fixed (fun _ => True)
          (p_swap_from m (mk_ref (map s_const spans) o (a0 + a)) (mk_ref (map s_const spans) o (a0 + b)) iC n)).
      { induction n as [|n IH]; intros iC L; [exact Logic.I|]. cbn [p_swap_from].
        assert (exists s1, nth_error spans iC = Some s1) as (s1 & N). { destruct (nth_error spans iC) eqn:E; eauto. apply nth_error_None in E. lia. }
        destruct (PP s1 a b (nth_error_In _ _ N) Ha Hb) as (p & q & E1 & E2 & FF).
        apply (within_then _ _ _ _ _ (eq p)).
        { cbn. split; [right; eauto|]. intros w (c' & Hw). rewrite Ho in Hw. injection Hw as <- <-. rewrite D, nth_error_map, N. cbn. rewrite E1. reflexivity. }
        intros p' <-. apply (within_then _ _ _ _ _ (eq q)).
        { cbn. split; [right; eauto|]. intros w (c' & Hw). rewrite Ho in Hw. injection Hw as <- <-. rewrite D, nth_error_map, N. cbn. rewrite E2. reflexivity. }
        intros q' <-. apply (within_then _ _ _ _ _ (fun _ => True)); [exact FF|]. intros _ _. apply IH. lia. }
      apply G. lia.
    - destruct (PP (mk_span false p n) a b (or_introl eq_refl) Ha Hb) as (p1 & q1 & E1 & E2 & FF). cbn [s_data] in *. rewrite !Z.add_0_l in *.
      unfold p_ptr_swap. rewrite E1, E2. exact FF.
  Qed.

  Lemma program_call : program m x j = call place_swap j (count x).
  Proof.
    pose proof place_facts as (F1 & F2 & F3 & F4). pose proof Hok as (K1 & K2 & _). unfold program, place_swap. destruct x as [spans o a b|p n]; [|reflexivity].
    cbn [from count spans_of] in *. unfold soa_call. cbn [it_const]. rewrite no_const by auto. unfold it_diff. cbn [it_index]. rewrite arith_id by lia. reflexivity.
  Qed.
  Variable idx : list Z.
  Hypothesis Hjob : job_ok h0 (count x) idx j.
  Lemma foot_program : foot (fun _ => True) (program m x j).
  Proof.
    pose proof place_facts as (F1 & F2 & F3 & F4). rewrite program_call. eapply foot_call; eauto; [apply foot_place_swap|].
    intros d a z E. split; [left; econstructor; exact E|]. split; [econstructor; exact E|]. intros y. exact Logic.I.
  Qed.

  (** ** The call on its own *)
  Lemma run_program : exists h' o, run (program m x j) h0 = (h', o) /\ result j idx h' (tuples h0 x) o (tuples h' x).
  Proof.
    pose proof place_facts as (F1 & F2 & F3 & F4). rewrite program_call. unfold call. pose proof place_swap_operation as SO. pose proof place_inv_init as I0.
    pose proof (tuples_length h0) as TL. destruct j as [d a|d a|ds] eqn:Ej; cbn [job_ok] in Hjob.
    - destruct Hjob as (B & Iv & L & Hi). rewrite <- L in SO |- *. rewrite <- L in Iv. apply in_ity_iff in Iv.
      pose proof (apply_any place_inv (fun h => tuples h x) no_throw (heap_swap place_swap) d (length idx) SO B Iv h0 idx I0 ltac:(cbn beta; lia) eq_refl) as A.
      destruct (sim_apply place_swap a (no_index_swap a) d (Z.of_nat (length idx)) h0 (h0, idx)) as (S1 & S2); [split; auto|].
      destruct (it_apply_permutation (heap_swap place_swap) d (Z.of_nat (length idx)) (h0, idx)) as [[hs idx'] o]. cbn [fst snd] in *.
      destruct (run (p_apply_permutation place_swap a d (Z.of_nat (length idx))) h0) as [h' o']. cbn [fst snd] in *. subst o'.
      exists h', o. split; auto. destruct A as (_ & _ & A). destruct S2 as [->|[S2 S3]]; [destruct A|]. cbn [fst snd] in *.
      rewrite (tuples_ext h' hs) by (intros; apply S2; discriminate). destruct o as [[]| | | | |]; try tauto.
      + destruct A as (A1 & A2 & ->). eapply res_apply; eauto.
      + destruct A as (A1 & A2). eapply res_violation; eauto. reflexivity.
      + destruct A as (? & ? & ? & _ & _ & _ & _ & []).
    - destruct Hjob as (B & Iv & L & Hi). rewrite <- L in SO |- *. rewrite <- L in Iv. apply in_ity_iff in Iv.
      pose proof (reverse_any place_inv (fun h => tuples h x) no_throw (heap_swap place_swap) d (length idx) SO B Iv h0 idx I0 ltac:(cbn beta; lia) eq_refl) as A.
      destruct (sim_reverse place_swap a (no_index_swap a) d (Z.of_nat (length idx)) h0 (h0, idx)) as (S1 & S2); [split; auto|].
      destruct (it_apply_reverse_permutation (heap_swap place_swap) d (Z.of_nat (length idx)) (h0, idx)) as [[hs idx'] o]. cbn [fst snd] in *.
      destruct (run (p_apply_reverse_permutation place_swap a d (Z.of_nat (length idx))) h0) as [h' o']. cbn [fst snd] in *. subst o'.
      exists h', o. split; auto. destruct A as (_ & A). destruct S2 as [->|[S2 S3]]; [destruct A|]. cbn [fst snd] in *.
      rewrite (tuples_ext h' hs) by (intros; apply S2; discriminate). destruct o as [[]| | | | |]; try tauto.
      + destruct A as (A1 & A2 & ->). eapply res_reverse; eauto.
      + destruct A as (A1 & A2). eapply res_violation; eauto. reflexivity.
      + destruct A as (_ & ? & ? & ? & _ & _ & _ & _ & _ & []).
    - unfold p_shuffle. rewrite shuffle_sim. replace (Z.to_nat (count x - 1)) with (Z.to_nat (count x) - 1)%nat by lia.
      rewrite <- (Z2Nat.id (count x)) in SO by lia.
      destruct (shuffle_loop_sim _ _ place_inv (fun h => tuples h x) (Z.to_nat (count x)) _ SO (Z.to_nat (count x) - 1) ds h0 [] Hjob ltac:(lia) I0 ltac:(cbn beta; lia))
        as (h' & log & E & _ & E'). change (@draw) with scripted_draws. rewrite E. exists h', (Ok tt). split; auto. eapply res_shuffle; eauto.
      unfold shuffle. replace (length (tuples h0 x) - 1)%nat with (Z.to_nat (count x) - 1)%nat by lia. exact E'.
  Qed.

  (** A call that changes tuples of a soa_span<> has accessed the span object. *)
  Lemma program_touches : forall spans o a b, x = InSoa spans o a b -> tuples (fst (run (program m x j) h0)) x <> tuples h0 x -> touches (program m x j) h0 (LObj o).
  Proof.
    intros spans o a b Ex T. destruct (touches_dec _ (program m x j) h0 (LObj o)) as [D|D]; auto. exfalso. apply T. clear T.
    set (h1 := fun l => if loc_eqb l (LObj o) then None else h0 l).
    assert (E1 : forall l, l <> LObj o -> h1 l = h0 l) by (intros l N; unfold h1; destruct (loc_eqb_spec l (LObj o)); tauto).
    rewrite (tuples_ext _ (fst (run (program m x j) h1))) by (intros; symmetry; apply untouched_run with (l := LObj o); auto; discriminate).
    rewrite (tuples_ext h0 h1) by (intros; symmetry; apply E1; discriminate).
    pose proof place_facts as (F1 & F2 & F3 & F4).
    assert (W : within (fun _ => True) (fun l => exists a i, l = LIdx a i) (fun l _ => l <> LObj o) (fun _ => True) (program m x j)).
    { rewrite program_call. eapply foot_call; eauto.
      - intros y z Hy Hz. unfold place_swap. rewrite Ex. rewrite Ex in F1, F2, F3, Hy, Hz. cbn [from count] in *. unfold p_soa_swap, it_subscript. cbn [it_index it_const it_obj].
        rewrite !arith_id by lia. cbn [bind then_]. unfold p_ref_swap. destruct (existsb (fun c => c) _); [exact Logic.I|]. cbn [r_const]. destruct (length (map s_const spans)); [exact Logic.I|].
        cbn. split; [exact Logic.I|]. intros w N. destruct N. reflexivity.
      - intros d a' z _. split; [exact Logic.I|]. split; [eauto|]. discriminate. }
    apply tuples_ext. intros b' i.
    apply (run_agree _ _ _ _ _ _ h1 h1 W).
    - intros l c w E N. subst l. unfold h1 in E. destruct (loc_eqb_spec (LObj o) (LObj o)); congruence.
    - auto.
    - intros (? & ? & E). discriminate.
  Qed.
End Place.
