(** Proofs about the permutation algorithms for iterators of any kind. *)

From Coq Require Import ZArith Arith Bool Lia Permutation List.
From Verif Require Import Base ExpandModel ExpandProofs PermModel PermSpec PermProofs PermItModel PermItSpec.
Import ListNotations.
Local Open Scope Z_scope.

Lemma exchanged_zget : forall A (es : list A) a b es', 0 <= a -> 0 <= b -> a <> b -> exchanged es a b es' ->
  forall k, zget es' k = if k =? b then zget es a else if k =? a then zget es b else zget es k.
Proof.
  intros A es a b es' Ha Hb Hab (_ & E1 & E2 & E3) k. unfold zget.
  destruct (Z.eqb_spec k b) as [->|Nb]; [destruct (Z.ltb_spec b 0), (Z.ltb_spec a 0); try lia; auto|].
  destruct (Z.eqb_spec k a) as [->|Na]; [destruct (Z.ltb_spec b 0), (Z.ltb_spec a 0); try lia; auto|].
  destruct (Z.ltb_spec k 0); auto. apply E3; lia.
Qed.

Lemma exchanged_swap : forall A (es : list A) a b es', 0 <= a < Z.of_nat (length es) -> 0 <= b < Z.of_nat (length es) -> a <> b ->
  exchanged es a b es' -> swap_at es a b = Ok es'.
Proof.
  intros A es a b es' Ha Hb Hab H. destruct (swap_ok _ es a b Ha Hb) as [l [E [L [_ G]]]]. rewrite E. f_equal.
  apply zget_ext; [destruct H; congruence|]. intros z Hz. rewrite G. symmetry. apply exchanged_zget; auto; lia.
Qed.

Lemma exchanged_perm : forall A (es : list A) a b es', 0 <= a < Z.of_nat (length es) -> 0 <= b < Z.of_nat (length es) -> a <> b ->
  exchanged es a b es' -> Permutation es es'.
Proof.
  intros A es a b es' Ha Hb Hab H. destruct (swap_ok _ es a b Ha Hb) as [l [E [_ [Pm _]]]].
  rewrite (exchanged_swap _ _ _ _ _ Ha Hb Hab H) in E. injection E as <-. exact Pm.
Qed.

Lemma aset_cases : forall A (l : list A) i v, (exists l', aset l i v = Ok l' /\ length l' = length l) \/ aset l i v = UB.
Proof.
  intros A l i v. unfold aset, arr_set. destruct (i <? 0); [auto|]. destruct (Z.to_nat i <? length l)%nat; [|auto].
  left. eexists. split; [reflexivity|apply upd_length].
Qed.

Section Sim.
  Context {St A : Type}.
  Variables (inv : St -> Prop) (elems : St -> list A) (damage : list A -> Z -> Z -> list A -> Prop) (n : nat).
  Variable swap : St -> Z -> Z -> St * outcome unit.
  Let N := Z.of_nat n.
  Hypothesis Hswap : swap_operation inv elems damage N swap.

  (** How the run with [swap] ends, compared with the run on an array ([res]). *)
  Definition sim {R} (Q : list A -> list Z -> list A -> list Z -> Prop) (es : list A) (idx : list Z) (out : (St * list Z) * outcome R)
      (res : outcome (ending * pstate A)) : Prop :=
    let '((st', idx'), o) := out in
    inv st' /\
    match o with
    | Ok _ => exists log', res = Ok (Finished, mk_ps (elems st') idx' log')
    | Contract => exists log', res = Ok (Violation, mk_ps (elems st') idx' log')
    | Throw _ => length idx' = length idx /\
        exists es1 a b, Q es idx es1 idx' /\ Permutation es es1 /\ 0 <= a < N /\ 0 <= b < N /\ a <> b /\ damage es1 a b (elems st')
    | UB => res = UB
    | IllFormed => False
    | OutOfFuel => res = OutOfFuel
    end.

  Lemma apply_inner_sim : forall i fuel cur st idx log, inv st -> length (elems st) = n -> 0 <= cur < N ->
    let '((st', idx'), o) := it_apply_inner swap fuel i N cur (st, idx) in
    inv st' /\
    match o with
    | Ok c => exists log', apply_inner fuel i N cur (mk_ps (elems st) idx log) = Ok (Finished, c, mk_ps (elems st') idx' log') /\ length (elems st') = n /\
                           Permutation (elems st) (elems st') /\ length idx' = length idx
    | Contract => exists c log', apply_inner fuel i N cur (mk_ps (elems st) idx log) = Ok (Violation, c, mk_ps (elems st') idx' log')
    | Throw _ => length idx' = length idx /\
        exists es1 a b, Permutation (elems st) es1 /\ 0 <= a < N /\ 0 <= b < N /\ a <> b /\ damage es1 a b (elems st')
    | UB => apply_inner fuel i N cur (mk_ps (elems st) idx log) = UB
    | IllFormed => False
    | OutOfFuel => apply_inner fuel i N cur (mk_ps (elems st) idx log) = OutOfFuel
    end.
  Proof.
    intros i fuel. induction fuel as [|fuel IH]; intros cur st idx log Hi Hl Hc;
      cbn [it_apply_inner apply_inner]; unfold seq_ at 1; unfold idx_get; cbn [fst snd ps_idx ps_elems ps_log];
      rewrite aget_zget; destruct (zget idx cur) as [x|] eqn:Ex; cbn [bind]; try (split; [assumption|reflexivity]).
    - destruct (Z.eqb_spec i x); cbn [ret fail]; split; auto. exists log. auto.
    - destruct (Z.eqb_spec i x); cbn [ret]; [split; auto; exists log; auto|].
      destruct ((x <? 0) || (x >=? N) || (x =? cur)) eqn:Eb.
      + unfold seq_, idx_do, fail. cbn [fst snd].
        destruct (aset_cases _ idx i x) as [[idx1 [Ea Hu]]|Ea]; rewrite !Ea; cbn [bind]; [|split; auto]. split; auto. exists cur, log. reflexivity.
      + rewrite !orb_false_iff in Eb. rewrite Z.ltb_ge, Z.geb_leb, Z.leb_gt, Z.eqb_neq in Eb. destruct Eb as [[B1 B2] B3].
        unfold seq_ at 1. unfold elem_swap. cbn [fst snd].
        pose proof (Hswap st Hi ltac:(unfold N; lia) cur x Hc ltac:(lia) ltac:(lia)) as Hs.
        destruct (swap st cur x) as [st1 o1]. destruct Hs as [Hi1 [[-> Hex]|[e [-> Hd]]]].
        * assert (Hsw : swap_at (elems st) cur x = Ok (elems st1)) by (apply exchanged_swap; auto; unfold N in *; lia). rewrite Hsw. cbn [bind].
          unfold seq_ at 1. unfold idx_do. cbn [fst snd].
          destruct (aset_cases _ idx cur cur) as [[idx1 [Ea Hu]]|Ea]; rewrite !Ea; cbn [bind]; [|split; auto].
          assert (Hp : Permutation (elems st) (elems st1)) by (eapply exchanged_perm; [| | |exact Hex]; unfold N in *; lia).
          assert (Hl1 : length (elems st1) = n) by (destruct Hex; congruence).
          specialize (IH x st1 idx1 (log ++ [elems st1]) Hi1 Hl1 ltac:(lia)).
          destruct (it_apply_inner swap fuel i N x (st1, idx1)) as [[st' idx'] o]. destruct IH as [I1 I2]. split; auto.
          destruct o; auto.
          -- destruct I2 as (log' & E1 & E2 & E3 & E4). exists log'. split; [exact E1|]. split; auto. split; [eapply perm_trans; eauto|congruence].
          -- destruct I2 as [L2 (es1 & a & b & P1 & R)]. split; [congruence|]. exists es1, a, b. split; auto. eapply perm_trans; eauto.
        * split; auto. split; auto. exists (elems st), cur, x. repeat split; auto; lia.
  Qed.

  Lemma apply_outer_sim : forall fuel count i st idx log, 0 <= i -> i + Z.of_nat count <= N -> inv st -> length (elems st) = n ->
    sim (fun _ _ _ _ => True) (elems st) idx (it_apply_outer swap fuel count i N (st, idx)) (apply_outer fuel count i N (mk_ps (elems st) idx log)).
  Proof.
    intros fuel. induction count as [|count IH]; intros i st idx log Hi Hc Hv Hl; unfold sim.
    - cbn [it_apply_outer apply_outer ret]. split; auto. exists log. reflexivity.
    - cbn [it_apply_outer apply_outer]. unfold seq_ at 1. pose proof (apply_inner_sim i fuel i st idx log Hv Hl ltac:(lia)) as S.
      destruct (it_apply_inner swap fuel i N i (st, idx)) as [[st1 idx1] o]. destruct S as [I1 S].
      destruct o as [c| |e| | |].
      + destruct S as (log' & E & L1 & P1 & Li). rewrite E. cbn [bind ps_idx ps_elems ps_log].
        unfold seq_ at 1. unfold idx_do. cbn [fst snd].
        destruct (aset_cases _ idx1 c c) as [[idx2 [Ea Hu]]|Ea]; rewrite !Ea; cbn [bind]; [|split; auto].
        specialize (IH (i + 1) st1 idx2 log' ltac:(lia) ltac:(lia) I1 L1). unfold sim in IH.
        destruct (it_apply_outer swap fuel count (i + 1) N (st1, idx2)) as [[st' idx'] o]. destruct IH as [I2 S]. split; auto.
        destruct o; auto. destruct S as [L2 (es1 & a & b & _ & P2 & R)]. split; [congruence|].
        exists es1, a, b. split; auto. split; auto. eapply perm_trans; eauto.
      + destruct S as (c & log' & E). rewrite E. cbn [bind]. split; auto. exists log'. reflexivity.
      + split; auto. destruct S as [L (es1 & a & b & R)]. split; auto. exists es1, a, b. auto.
      + rewrite S. auto.
      + contradiction.
      + rewrite S. auto.
  Qed.

  Lemma reverse_inner_sim : forall i fuel st idx log, 0 <= i < N -> inv st -> length (elems st) = n ->
    let '((st', idx'), o) := it_reverse_inner swap fuel i N (st, idx) in
    inv st' /\
    match o with
    | Ok _ => exists log', reverse_inner fuel i N (mk_ps (elems st) idx log) = Ok (Finished, mk_ps (elems st') idx' log') /\ length (elems st') = n /\
                           Permutation (elems st) (elems st') /\ length idx' = length idx /\ Permutation (combine (elems st) idx) (combine (elems st') idx')
    | Contract => exists log', reverse_inner fuel i N (mk_ps (elems st) idx log) = Ok (Violation, mk_ps (elems st') idx' log')
    | Throw _ => length idx' = length idx /\
        exists es1 a b, Permutation (combine (elems st) idx) (combine es1 idx') /\ Permutation (elems st) es1 /\ 0 <= a < N /\ 0 <= b < N /\ a <> b /\ damage es1 a b (elems st')
    | UB => reverse_inner fuel i N (mk_ps (elems st) idx log) = UB
    | IllFormed => False
    | OutOfFuel => reverse_inner fuel i N (mk_ps (elems st) idx log) = OutOfFuel
    end.
  Proof.
    intros i fuel. induction fuel as [|fuel IH]; intros st idx log Hi Hv Hl;
      cbn [it_reverse_inner reverse_inner]; unfold seq_ at 1; unfold idx_get at 1; cbn [fst snd ps_idx ps_elems ps_log];
      rewrite aget_zget; destruct (zget idx i) as [x|] eqn:Ex; cbn [bind]; try (split; auto; fail).
    - destruct (Z.eqb_spec i x); cbn [ret fail]; split; auto. exists log. auto 6.
    - destruct (Z.eqb_spec i x); cbn [ret]; [split; auto; exists log; auto 6|].
      destruct (negb ((x >=? 0) && (x <? N))) eqn:Er; [cbn [fail]; split; eauto|].
      apply negb_false_iff in Er. rewrite andb_true_iff, Z.geb_leb, Z.leb_le, Z.ltb_lt in Er.
      unfold seq_ at 1. unfold idx_get at 1. cbn [fst snd]. rewrite aget_zget.
      destruct (zget idx x) as [y|] eqn:Ey; cbn [bind]; [|split; auto].
      destruct (Z.eqb_spec x y) as [->|Hxy]; [cbn [fail]; split; eauto|].
      unfold seq_ at 1. unfold elem_swap. cbn [fst snd].
      pose proof (Hswap st Hv ltac:(unfold N; lia) i x Hi ltac:(lia) ltac:(lia)) as Hs.
      destruct (swap st i x) as [st1 o1]. destruct Hs as [Hi1 [[-> Hex]|[e [-> Hd]]]].
      + assert (Hsw : swap_at (elems st) i x = Ok (elems st1)) by (apply exchanged_swap; auto; unfold N in *; lia). rewrite Hsw. cbn [bind].
        assert (Hl1 : length (elems st1) = n) by (destruct Hex; congruence).
        pose proof (zget_lt _ _ _ _ Ex). pose proof (zget_lt _ _ _ _ Ey).
        destruct (swap_ok _ idx i x) as [idx1 [E1 [L1 [_ G1]]]]; [lia..|].
        assert (Hc : Permutation (combine (elems st) idx) (combine (elems st1) idx1)).
        { destruct (swap_ok _ (combine (elems st) idx) i x) as [c [_ [Lc [Pc Gc]]]]; [rewrite combine_length; unfold N in *; lia..|].
          replace (combine (elems st1) idx1) with c; auto. apply zget_ext.
          - rewrite Lc, !combine_length. lia.
          - intros z _. rewrite Gc, !zget_combine, G1, (exchanged_zget _ (elems st) i x (elems st1) ltac:(lia) ltac:(lia) ltac:(lia) Hex). destruct (z =? x); auto. destruct (z =? i); auto. }
        unfold seq_. unfold idx_do. cbn [fst snd]. rewrite E1. cbn [bind].
        assert (Hp : Permutation (elems st) (elems st1)) by (eapply exchanged_perm; [| | |exact Hex]; unfold N in *; lia).
        specialize (IH st1 idx1 (log ++ [elems st1]) Hi Hi1 Hl1).
        destruct (it_reverse_inner swap fuel i N (st1, idx1)) as [[st' idx'] o]. destruct IH as [I2 S]. split; auto.
        destruct o; auto.
        * destruct S as (log' & S1 & S2 & S3 & S4 & S5). exists log'. split; auto. split; auto. split; [eapply perm_trans; eauto|]. split; [congruence|eapply perm_trans; eauto].
        * destruct S as [L2 (es1 & a & b & P1 & P2 & R)]. split; [congruence|]. exists es1, a, b. split; [eapply perm_trans; eauto|]. split; auto. eapply perm_trans; eauto.
      + split; auto. split; auto. exists (elems st), i, x. repeat split; auto; lia.
  Qed.

  Lemma reverse_outer_sim : forall fuel count i st idx log, 0 <= i -> i + Z.of_nat count <= N -> inv st -> length (elems st) = n ->
    sim (fun es idx es1 idx' => Permutation (combine es idx) (combine es1 idx')) (elems st) idx (it_reverse_outer swap fuel count i N (st, idx)) (reverse_outer fuel count i N (mk_ps (elems st) idx log)).
  Proof.
    intros fuel. induction count as [|count IH]; intros i st idx log Hi Hc Hv Hl; unfold sim.
    - cbn [it_reverse_outer reverse_outer ret]. split; auto. exists log. reflexivity.
    - cbn [it_reverse_outer reverse_outer]. unfold seq_ at 1. pose proof (reverse_inner_sim i fuel st idx log ltac:(lia) Hv Hl) as S.
      destruct (it_reverse_inner swap fuel i N (st, idx)) as [[st1 idx1] o]. destruct S as [I1 S].
      destruct o as [c| |e| | |].
      + destruct S as (log' & E & L1 & P1 & Li & Pc). rewrite E. cbn [bind].
        specialize (IH (i + 1) st1 idx1 log' ltac:(lia) ltac:(lia) I1 L1). unfold sim in IH.
        destruct (it_reverse_outer swap fuel count (i + 1) N (st1, idx1)) as [[st' idx'] o]. destruct IH as [I2 S]. split; auto.
        destruct o; auto. destruct S as [L2 (es1 & a & b & P2 & P3 & R)]. split; [congruence|].
        exists es1, a, b. split; [eapply perm_trans; eauto|]. split; auto. eapply perm_trans; eauto.
      + destruct S as (log' & E). rewrite E. cbn [bind]. split; auto. exists log'. reflexivity.
      + auto.
      + rewrite S. auto.
      + contradiction.
      + rewrite S. auto.
  Qed.
End Sim.

(** ** apply_permutation() interrupted *)

(** Some position holds its own index, and so does another one. *)
Definition dup (idx : list Z) : Prop := exists f g, f <> g /\ zget idx f = Some f /\ zget idx g = Some f.

Lemma dup_not_permutation : forall n idx, dup idx -> ~ is_permutation n idx.
Proof. intros n idx (f & g & Hn & H1 & H2) H. destruct (is_permutation_nodup _ _ H) as (Hd & _). apply Hn. eapply NoDup_zget; eauto. Qed.

Section Interrupted.
  Context {St A : Type}.
  Variables (inv : St -> Prop) (elems : St -> list A) (damage : list A -> Z -> Z -> list A -> Prop).
  Variables (es0 : list A) (p0 : list Z).
  Variable swap : St -> Z -> Z -> St * outcome unit.
  Let n := length es0.
  Let N := Z.of_nat n.
  Hypothesis Hswap : swap_operation inv elems damage N swap.
  Hypothesis Hlen : length p0 = n.
  Hypothesis Hperm : is_permutation n p0.
  Notation P := (P p0).
  Notation good := (good es0 p0).

  Lemma good_step : forall i D V cur es idx es1 idx1, good i D V cur (mk_ps es idx []) -> i <> P cur -> 0 <= P cur < N -> P cur <> cur ->
    exchanged es cur (P cur) es1 -> aset idx cur cur = Ok idx1 -> good i D (V ++ [cur]) (P cur) (mk_ps es1 idx1 []).
  Proof.
    intros i D V cur es idx es1 idx1 H Hne Hr Hc Hex Ha.
    destruct (good_cur_fresh _ _ _ _ _ _ _ H) as [Hf Hcr]. pose proof (g_base _ _ _ _ _ _ _ H) as [B1 B2 B3 B4]. cbn [ps_elems ps_idx ps_log] in *.
    pose proof (next_fresh _ _ Hlen _ _ _ _ _ H Hperm Hne) as Hgood.
    destruct (aset_ok _ idx cur cur) as [idx' [E [L G]]]; [unfold N, n in *; lia|]. rewrite E in Ha. injection Ha as ->.
    assert (Gs : forall k, zget es1 k = if k =? P cur then zget es cur else if k =? cur then zget es (P cur) else zget es k) by (apply exchanged_zget; auto; unfold N, n in *; lia).
    constructor; auto.
    - assert (Le := proj1 Hex). assert (Pe : Permutation es es1) by (eapply exchanged_perm; [| | |exact Hex]; unfold N, n in *; lia).
      split; cbn; try congruence; auto. eapply perm_trans; eauto.
    - rewrite <- app_assoc. rewrite 2 app_assoc. rewrite <- (app_assoc D).
      apply (Permutation_NoDup (l := P cur :: D ++ V ++ [cur])); [apply Permutation_cons_append|]. constructor; auto. apply (g_nodup _ _ _ _ _ _ _ H).
    - intros x Hx. rewrite !in_app_iff in Hx. cbn in Hx.
      assert (x = P cur \/ In x (D ++ V ++ [cur])) as [->|Hx'] by (rewrite !in_app_iff; cbn; intuition); [unfold N, n in *; lia|].
      apply (g_range _ _ _ _ _ _ _ H); auto.
    - apply (g_cycles _ _ _ _ _ _ _ H).
    - rewrite map_app. cbn [map]. rewrite (g_chain _ _ _ _ _ _ _ H). auto.
    - intros j Hj. cbn [ps_elems ps_idx]. assert (In j (D ++ V) \/ j = cur) as [Hj'| ->].
      { rewrite !in_app_iff in *. cbn in Hj. intuition. }
      + assert (j <> cur) by (intro; subst; auto).
        assert (j <> P cur) by (intro E'; apply Hgood; rewrite <- E', !in_app_iff; apply in_app_or in Hj'; tauto).
        rewrite G, Gs. destruct (Z.eqb_spec j cur); [lia|]. destruct (Z.eqb_spec j (P cur)); [lia|]. apply (g_done _ _ _ _ _ _ _ H); auto.
      + rewrite G, Gs, Z.eqb_refl. split; auto. destruct (Z.eqb_spec cur (P cur)); [lia|].
        destruct (g_rest _ _ _ _ _ _ _ H (P cur)) as [_ E']; [lia|intro C; apply Hgood; rewrite !in_app_iff in *; tauto|].
        destruct (Z.eqb_spec (P cur) cur); [lia|]. auto.
    - intros j Hj Hnj. cbn [ps_elems ps_idx]. assert (j <> cur) by (intro; subst; apply Hnj; rewrite !in_app_iff; cbn; auto).
      assert (Hn : ~ In j (D ++ V)) by (intro C; apply Hnj; rewrite !in_app_iff in *; tauto).
      destruct (g_rest _ _ _ _ _ _ _ H j Hj Hn) as [R1 R2]. cbn [ps_elems ps_idx] in *. rewrite G, Gs.
      destruct (Z.eqb_spec j cur); [lia|]. split; auto. destruct (Z.eqb_spec j (P cur)); auto.
      destruct (g_rest _ _ _ _ _ _ _ H cur Hcr Hf) as [_ R3]. cbn [ps_elems] in R3. rewrite Z.eqb_refl in R3. exact R3.
  Qed.

  Lemma inner_good : forall i D fuel V cur st idx, inv st -> good i D V cur (mk_ps (elems st) idx []) ->
    let '((st', idx'), o) := it_apply_inner swap fuel i N cur (st, idx) in
    match o with
    | Ok c => inv st' /\ P c = i /\ exists V', good i D V' c (mk_ps (elems st') idx' [])
    | Throw _ => exists V' cur' es1, good i D V' cur' (mk_ps es1 idx' []) /\ i <> P cur' /\ damage es1 cur' (P cur') (elems st')
    | _ => True
    end.
  Proof.
    intros i D. induction fuel as [|fuel IH]; intros V cur st idx Hi H;
      destruct (good_cur_fresh _ _ _ _ _ _ _ H) as [Hf Hr]; pose proof (g_base _ _ _ _ _ _ _ H) as [B1 B2 _ _];
      destruct (g_rest _ _ _ _ _ _ _ H cur Hr Hf) as [Hic _]; cbn [ps_idx ps_elems] in *; rewrite (P_ok _ _ Hlen) in Hic by auto;
      cbn [it_apply_inner]; unfold seq_ at 1; unfold idx_get; cbn [fst snd]; rewrite aget_zget, Hic.
    - destruct (Z.eqb_spec i (P cur)); cbn [ret fail]; auto. split; auto. split; eauto.
    - destruct (Z.eqb_spec i (P cur)) as [E|Hne]; cbn [ret]; [split; auto; split; eauto|].
      destruct ((P cur <? 0) || (P cur >=? N) || (P cur =? cur)) eqn:Eb.
      + unfold seq_, idx_do, fail. cbn [fst snd]. destruct (aset_cases _ idx i (P cur)) as [[idx1 [Ea _]]|Ea]; rewrite !Ea; cbn [bind]; auto.
      + rewrite !orb_false_iff in Eb. rewrite Z.ltb_ge, Z.geb_leb, Z.leb_gt, Z.eqb_neq in Eb. destruct Eb as [[Eb1 Eb2] Eb3].
        unfold seq_ at 1. unfold elem_swap. cbn [fst snd].
        pose proof (Hswap st Hi ltac:(unfold N, n; rewrite B1; reflexivity) cur (P cur) Hr ltac:(lia) ltac:(lia)) as Hs.
        destruct (swap st cur (P cur)) as [st1 o1]. destruct Hs as [Hi1 [[-> Hex]|[e [-> Hd]]]].
        * unfold seq_ at 1. unfold idx_do. cbn [fst snd].
          destruct (aset_cases _ idx cur cur) as [[idx1 [Ea Hu]]|Ea]; rewrite !Ea; cbn [bind]; auto.
          apply IH with (V := V ++ [cur]); auto. eapply good_step; eauto.
        * exists V, cur, (elems st). auto.
  Qed.

  (** What is known at the point of interruption. *)
  Definition interrupted (idx' : list Z) (es' : list A) : Prop :=
    exists i D V cur es1, good i D V cur (mk_ps es1 idx' []) /\ i <> P cur /\ damage es1 cur (P cur) es'.

  Lemma outer_good : forall fuel count i D st idx, 0 <= i -> i + Z.of_nat count = N -> inv st -> outer_inv es0 p0 i D (mk_ps (elems st) idx []) ->
    forall st' idx' e, it_apply_outer swap fuel count i N (st, idx) = ((st', idx'), Throw e) -> interrupted idx' (elems st').
  Proof.
    intros fuel. induction count as [|count IH]; intros i D st idx Hi Hc Hv H st' idx' e; cbn [it_apply_outer]; [intro; discriminate|].
    unfold seq_ at 1. assert (Hir : 0 <= i < N) by lia. pose proof (o_base _ _ _ _ _ H) as [B1 B2 B3 B4]. cbn [ps_elems ps_idx ps_log] in *.
    destruct (in_dec Z.eq_dec i D) as [Hin|Hout].
    - destruct (o_done _ _ _ _ _ H i Hin) as [Hix _]. cbn [ps_idx] in Hix.
      assert (E0 : it_apply_inner swap fuel i N i (st, idx) = ((st, idx), Ok i)).
      { destruct fuel; cbn [it_apply_inner]; unfold seq_ at 1; unfold idx_get; cbn [fst snd]; rewrite aget_zget, Hix, Z.eqb_refl; reflexivity. }
      rewrite E0. unfold seq_ at 1. unfold idx_do. cbn [fst snd]. destruct (aset_ok _ idx i i) as [idx1 [E1 [L1 G1]]]; [unfold N, n in *; lia|]. rewrite E1. cbn [bind].
      apply (IH (i + 1) D); auto; try lia.
      destruct H. constructor; cbn [ps_elems ps_idx ps_log] in *; auto.
      + split; cbn; auto. congruence.
      + intros j Hj. destruct (Z.eq_dec j i) as [->|]; auto. apply o_before. lia.
      + intros j Hj. rewrite G1. destruct (Z.eqb_spec j i) as [->|]; auto. split; auto. apply o_done; auto.
      + intros j Hj Hn. rewrite G1. destruct (Z.eqb_spec j i) as [->|]; auto. contradiction.
    - assert (Hg : good i D [] i (mk_ps (elems st) idx [])).
      { destruct H. constructor; cbn [app map]; rewrite ?app_nil_r; auto.
        - apply (Permutation_NoDup (l := i :: D)); [apply Permutation_cons_append|]. constructor; auto.
        - intros x Hx. apply in_app_or in Hx as [Hx|[<-|[]]]; auto.
        - intros j Hj Hnj. destruct (Z.eqb_spec j i) as [->|]; auto. }
      pose proof (inner_good i D fuel [] i st idx Hv Hg) as G.
      destruct (it_apply_inner swap fuel i N i (st, idx)) as [[st1 idx1] o]. destruct o as [c| |e'| | |]; try (intro; discriminate).
      + destruct G as (Hv1 & HP & V & Hg1). clear Hg. rename Hg1 into Hg. destruct (good_cur_fresh _ _ _ _ _ _ _ Hg) as [Hf Hr].
        pose proof (g_base _ _ _ _ _ _ _ Hg) as [C1 C2 C3 C4]. cbn [ps_elems ps_idx ps_log] in *.
        unfold seq_ at 1. unfold idx_do. cbn [fst snd]. destruct (aset_ok _ idx1 c c) as [idx2 [E1 [L1 G1]]]; [unfold N, n in *; lia|]. rewrite E1. cbn [bind].
        assert (Hii : In i (V ++ [c])) by (rewrite (g_chain _ _ _ _ _ _ _ Hg); left; auto).
        apply (IH (i + 1) (D ++ V ++ [c])); auto; try lia.
        constructor; cbn [ps_elems ps_idx ps_log].
        * split; cbn; auto. congruence.
        * apply (g_nodup _ _ _ _ _ _ _ Hg).
        * apply (g_range _ _ _ _ _ _ _ Hg).
        * rewrite map_app. apply Permutation_app; [apply (g_cycles _ _ _ _ _ _ _ Hg)|].
          rewrite map_app. cbn [map]. rewrite HP, (g_chain _ _ _ _ _ _ _ Hg). apply Permutation_sym, Permutation_cons_append.
        * intros j Hj. apply in_or_app. destruct (Z.eq_dec j i) as [->|]; auto. left. apply (o_before _ _ _ _ _ H). lia.
        * intros j Hj. rewrite app_assoc in Hj. rewrite G1. apply in_app_or in Hj as [Hj|[<-|[]]].
          -- destruct (Z.eqb_spec j c) as [->|]; [contradiction|]. apply (g_done _ _ _ _ _ _ _ Hg); auto.
          -- rewrite Z.eqb_refl. split; auto. rewrite HP. destruct (g_rest _ _ _ _ _ _ _ Hg c Hr Hf) as [_ R]. rewrite Z.eqb_refl in R. auto.
        * intros j Hj Hn. assert (j <> c) by (intro; subst; apply Hn; rewrite !in_app_iff; cbn; auto).
          assert (Hn' : ~ In j (D ++ V)) by (intro C; apply Hn; rewrite !in_app_iff in *; tauto).
          destruct (g_rest _ _ _ _ _ _ _ Hg j Hj Hn') as [R1 R2]. rewrite G1. destruct (Z.eqb_spec j c); [lia|]. auto.
      + intro E. injection E as <- <- <-. destruct G as (V & cur & es1 & G1 & G2 & G3). exists i, D, V, cur, es1. auto.
  Qed.

  (** In the middle of a cycle an index occurs twice; before the first swap of a cycle the indices describe what remains to
      be done. *)
  Lemma interrupted_spec : forall idx' es', interrupted idx' es' ->
    length idx' = n /\ exists es1 a b, damage es1 a b es' /\ Permutation es0 es1 /\
      (dup idx' \/ (is_permutation n idx' /\ forall es2, gathered es1 idx' es2 -> gathered es0 p0 es2)).
  Proof.
    intros idx' es' (i & D & V & cur & es1 & H & Hne & Hd). pose proof (g_base _ _ _ _ _ _ _ H) as [B1 B2 B3 B4]. cbn [ps_elems ps_idx ps_log] in *.
    split; [exact B2|]. exists es1, cur, (P cur). split; auto. split; auto.
    pose proof (g_nodup _ _ _ _ _ _ _ H) as Hnd. pose proof (g_range _ _ _ _ _ _ _ H) as Hrg. pose proof (g_chain _ _ _ _ _ _ _ H) as Hch.
    destruct (is_permutation_nodup _ _ Hperm) as (N0 & L0 & I0).
    assert (Hinj : forall a b, 0 <= a < N -> 0 <= b < N -> P a = P b -> a = b).
    { intros a b Ha Hb E. apply (NoDup_zget _ _ N0 a b (P a)); [apply (P_ok _ _ Hlen); auto|rewrite E; apply (P_ok _ _ Hlen); auto]. }
    destruct V as [|v V].
    - right. cbn [app map] in Hch. injection Hch as ->.
      assert (G : forall j, 0 <= j < N -> zget idx' j = Some (if in_dec Z.eq_dec j D then j else P j) /\ zget es1 j = zget es0 (if in_dec Z.eq_dec j D then P j else j)).
      { intros j Hj. destruct (in_dec Z.eq_dec j D) as [I|I].
        - apply (g_done _ _ _ _ _ _ _ H). rewrite app_nil_r. auto.
        - destruct (g_rest _ _ _ _ _ _ _ H j Hj) as [R1 R2]; [rewrite app_nil_r; auto|]. cbn [ps_idx ps_elems] in *. rewrite (P_ok _ _ Hlen) in R1 by auto. split; auto.
          destruct (Z.eqb_spec j i) as [->|]; auto. }
      assert (HD : forall j, 0 <= j < N -> In (P j) D -> In j D).
      { intros j Hj I. apply (Permutation_in _ (Permutation_sym (g_cycles _ _ _ _ _ _ _ H))) in I. apply in_map_iff in I as [d [E Id]].
        assert (d = j); [|subst; auto]. apply Hinj; auto. apply Hrg. rewrite !in_app_iff. auto. }
      assert (HD' : forall j, In j D -> In (P j) D).
      { intros j I. apply (Permutation_in _ (g_cycles _ _ _ _ _ _ _ H)). apply in_map. auto. }
      split.
      + apply nodup_range_permutation; auto.
        * apply NoDup_nth_error. intros a b La E. destruct (Nat.lt_ge_cases b (length idx')) as [Lb|Lb].
          -- rewrite <- !zget_nat in E. destruct (G (Z.of_nat a)) as [Ga _]; [unfold N, n in *; lia|]. destruct (G (Z.of_nat b)) as [Gb _]; [unfold N, n in *; lia|].
             rewrite Ga, Gb in E. injection E as E. assert (Ra : 0 <= Z.of_nat a < N) by (unfold N, n in *; lia). assert (Rb : 0 <= Z.of_nat b < N) by (unfold N, n in *; lia).
             destruct (in_dec Z.eq_dec (Z.of_nat a) D) as [Ia|Ia], (in_dec Z.eq_dec (Z.of_nat b) D) as [Ib|Ib].
             ++ lia.
             ++ exfalso. apply Ib. apply HD; auto. rewrite <- E. auto.
             ++ exfalso. apply Ia. apply HD; auto. rewrite E. auto.
             ++ assert (Z.of_nat a = Z.of_nat b) by (apply Hinj; auto). lia.
          -- rewrite (proj2 (nth_error_None idx' b)) in E by lia. apply nth_error_None in E. lia.
        * intros x Hx. apply in_zget in Hx as [z Hz]. pose proof (zget_lt _ _ _ _ Hz). destruct (G z) as [Gz _]; [unfold N, n in *; lia|].
          rewrite Hz in Gz. injection Gz as ->. destruct (in_dec Z.eq_dec z D); [unfold n in *; lia|].
          apply I0. eapply zget_in. apply (P_ok _ _ Hlen). unfold N, n in *. unfold N, n in *. lia.
      + intros es2 [L2 G2]. split; [congruence|]. intros k m E.
        assert (Rk : 0 <= Z.of_nat k < N) by (assert (k < length p0)%nat by (apply nth_error_Some; congruence); unfold N; lia).
        assert (EP : P (Z.of_nat k) = Z.of_nat m) by (unfold PermProofs.P; rewrite zget_nat, E; auto).
        destruct (G _ Rk) as [Gi Ge]. destruct (in_dec Z.eq_dec (Z.of_nat k) D) as [Ik|Ik].
        * rewrite zget_nat in Gi. rewrite (G2 k k Gi). rewrite <- !zget_nat, Ge, EP. reflexivity.
        * rewrite EP, zget_nat in Gi. rewrite (G2 k m Gi). rewrite <- !zget_nat.
          assert (Rm : 0 <= Z.of_nat m < N) by (apply I0; eapply nth_error_In; eauto).
          destruct (G _ Rm) as [_ Gm]. destruct (in_dec Z.eq_dec (Z.of_nat m) D) as [Im|Im]; auto.
          exfalso. apply Ik. apply HD; auto. rewrite EP. auto.
    - left.
      cbn [app map] in Hch. injection Hch as Ev Hch. subst v.
      assert (Ri : 0 <= i < N) by (apply Hrg; rewrite !in_app_iff; cbn; auto).
      (* the position that holds i *)
      assert (Hj : exists j, 0 <= j < N /\ P j = i).
      { assert (In i p0) by (apply I0; auto). apply in_zget in H0 as [j Hj]. exists j. pose proof (zget_lt _ _ _ _ Hj). split; [unfold N; lia|]. unfold PermProofs.P. rewrite Hj. auto. }
      destruct Hj as (j & Rj & Ej).
      assert (NI : ~ In i D /\ ~ In i (V ++ [cur])).
      { split; intro C.
        - apply NoDup_remove_2 in Hnd. apply Hnd. rewrite !in_app_iff. auto.
        - apply NoDup_remove_2 in Hnd. apply Hnd. rewrite !in_app_iff in *. auto. }
      assert (Nj : ~ In j (D ++ i :: V)).
      { intro C. apply in_app_or in C as [C|C].
        - apply (proj1 NI). rewrite <- Ej. apply (Permutation_in _ (g_cycles _ _ _ _ _ _ _ H)). apply in_map. auto.
        - apply (proj2 NI). rewrite Hch. destruct C as [C|C]; [left; rewrite C at 1; exact Ej|right; apply in_map_iff; exists j; auto]. }
      destruct (g_rest _ _ _ _ _ _ _ H j Rj Nj) as [R1 _]. cbn [ps_idx] in R1. rewrite (P_ok _ _ Hlen) in R1 by auto. rewrite Ej in R1.
      destruct (g_done _ _ _ _ _ _ _ H i) as [R2 _]; [rewrite !in_app_iff; cbn; auto|]. cbn [ps_idx] in R2.
      exists i, j. repeat split; auto. intros <-. apply Nj. rewrite !in_app_iff. cbn. auto.
  Qed.
End Interrupted.

Section Dup.
  Context {St : Type}.
  Variable swap : St -> Z -> Z -> St * outcome unit.

  Lemma inner_dup : forall i N f, 0 <= i < N -> f <> i -> forall fuel cur st idx, N = Z.of_nat (length idx) ->
    zget idx f = Some f -> ((exists g, g <> f /\ zget idx g = Some f) \/ cur = f) -> (cur = i \/ zget idx i = Some i) ->
    let '((st', idx'), o) := it_apply_inner swap fuel i N cur (st, idx) in
    length idx' = length idx /\
    match o with
    | Ok c => zget idx' c = Some i /\ zget idx' f = Some f /\ exists g, g <> f /\ zget idx' g = Some f
    | Contract | Throw _ => dup idx'
    | _ => True
    end.
  Proof.
    intros i N f Hi Hfi. induction fuel as [|fuel IH]; intros cur st idx Hl Hf Hd Hc;
      cbn [it_apply_inner]; unfold seq_ at 1; unfold idx_get; cbn [fst snd]; rewrite aget_zget;
      destruct (zget idx cur) as [x|] eqn:Ex; auto; destruct (Z.eqb_spec i x) as [<-|Hx]; cbn [ret fail].
    1, 3: split; auto; split; auto; split; auto; destruct Hd as [Hd| ->]; auto; congruence.
    1: auto.
    destruct ((x <? 0) || (x >=? N) || (x =? cur)) eqn:Eb.
    - unfold seq_, idx_do, fail. cbn [fst snd]. destruct (aset_ok _ idx i x ltac:(lia)) as [idx1 [E1 [L1 G1]]]. rewrite E1. cbn [bind]. split; auto.
      destruct (Z.eq_dec x cur) as [->|Nx].
      + assert (cur <> i) by congruence. exists cur, i. rewrite !G1, Z.eqb_refl. destruct (Z.eqb_spec cur i); [contradiction|]. auto.
      + destruct Hd as [(g & Hg1 & Hg2)| ->]; [|congruence]. exists f, g. rewrite !G1.
        destruct (Z.eqb_spec f i); [contradiction|]. destruct (Z.eqb_spec g i) as [->|]; [|auto].
        destruct Hc as [->|Hc]; [|congruence]. rewrite Ex in Hg2. injection Hg2 as ->.
        exfalso. rewrite !orb_true_iff in Eb. rewrite Z.ltb_lt, Z.geb_leb, Z.leb_le, Z.eqb_eq in Eb. pose proof (zget_lt _ _ _ _ Hf). lia.
    - rewrite !orb_false_iff in Eb. rewrite Z.ltb_ge, Z.geb_leb, Z.leb_gt, Z.eqb_neq in Eb. destruct Eb as [[Eb1 Eb2] Eb3].
      assert (Hcf : cur <> f) by congruence. destruct Hd as [(g & Hg1 & Hg2)|]; [|contradiction].
      unfold seq_ at 1. unfold elem_swap. cbn [fst snd]. destruct (swap st cur x) as [st1 o1].
      assert (Hdup : dup idx) by (exists f, g; auto).
      destruct o1; auto. unfold seq_ at 1. unfold idx_do. cbn [fst snd].
      pose proof (zget_lt _ _ _ _ Ex). destruct (aset_ok _ idx cur cur ltac:(lia)) as [idx1 [E1 [L1 G1]]]. rewrite E1. cbn [bind].
      specialize (IH x st1 idx1). destruct (it_apply_inner swap fuel i N x (st1, idx1)) as [[st' idx'] o].
      destruct IH as [I1 I2]; [congruence| | | |split; [congruence|exact I2]].
      + rewrite G1. destruct (Z.eqb_spec f cur); auto. congruence.
      + destruct (Z.eq_dec g cur) as [->|Hg]; [right; congruence|left]. exists g. rewrite G1. destruct (Z.eqb_spec g cur); auto. contradiction.
      + right. rewrite G1. destruct (Z.eqb_spec i cur) as [->|Nc]; auto. destruct Hc as [->|Hc]; [contradiction|exact Hc].
  Qed.

  Lemma outer_dup : forall N fuel count i st idx, 0 <= i -> i + Z.of_nat count = N -> N = Z.of_nat (length idx) -> dup idx ->
    let '((st', idx'), o) := it_apply_outer swap fuel count i N (st, idx) in
    length idx' = length idx /\ match o with Ok _ | Contract | Throw _ => dup idx' | _ => True end.
  Proof.
    intros N fuel. induction count as [|count IH]; intros i st idx Hi Hc Hl Hd; cbn [it_apply_outer ret]; auto.
    unfold seq_ at 1. destruct (zget_some _ idx i ltac:(lia)) as [x Ex]. destruct (Z.eq_dec x i) as [->|Hx].
    - assert (E0 : it_apply_inner swap fuel i N i (st, idx) = ((st, idx), Ok i)).
      { destruct fuel; cbn [it_apply_inner]; unfold seq_ at 1; unfold idx_get; cbn [fst snd]; rewrite aget_zget, Ex, Z.eqb_refl; reflexivity. }
      rewrite E0. unfold seq_ at 1. unfold idx_do. cbn [fst snd]. destruct (aset_ok _ idx i i ltac:(lia)) as [idx1 [E1 [L1 G1]]]. rewrite E1. cbn [bind].
      assert (Hid : idx1 = idx). { apply zget_ext; auto. intros z _. rewrite G1. destruct (Z.eqb_spec z i) as [->|]; auto. }
      subst idx1. apply IH; auto; lia.
    - destruct Hd as (f & g & Hfg & Hf & Hg). assert (Hfi : f <> i) by congruence.
      pose proof (inner_dup i N f ltac:(lia) Hfi fuel i st idx Hl Hf ltac:(left; exists g; auto) ltac:(auto)) as G.
      destruct (it_apply_inner swap fuel i N i (st, idx)) as [[st1 idx1] o]. destruct G as [L1 G]. destruct o as [c| |e| | |]; auto.
      destruct G as (G1 & G2 & g' & G3 & G4). unfold seq_ at 1. unfold idx_do. cbn [fst snd]. pose proof (zget_lt _ _ _ _ G1).
      destruct (aset_ok _ idx1 c c ltac:(lia)) as [idx2 [E2 [L2 Z2]]]. rewrite E2. cbn [bind].
      specialize (IH (i + 1) st1 idx2 ltac:(lia) ltac:(lia) ltac:(congruence)).
      destruct (it_apply_outer swap fuel count (i + 1) N (st1, idx2)) as [[st' idx'] o]. destruct IH as [I1 I2]; [|split; [congruence|exact I2]].
      exists f, g'. rewrite !Z2. split; auto. destruct (Z.eqb_spec f c) as [->|]; [congruence|]. destruct (Z.eqb_spec g' c) as [->|]; [congruence|]. auto.
  Qed.
End Dup.

(** ** The whole calls *)

Section Whole.
  Context {St : Type}.
  Variable swap : St -> Z -> Z -> St * outcome unit.

  Lemma inner_length : forall i N fuel cur st idx, length (snd (fst (it_apply_inner swap fuel i N cur (st, idx)))) = length idx.
  Proof.
    intros i N. induction fuel as [|fuel IH]; intros cur st idx;
      cbn [it_apply_inner]; unfold seq_ at 1; unfold idx_get; cbn [fst snd]; destruct (aget idx cur) as [x| | | | |]; auto;
      destruct (i =? x); auto.
    destruct ((x <? 0) || (x >=? N) || (x =? cur)).
    - unfold seq_, idx_do, fail. cbn [fst snd]. destruct (aset_cases _ idx i x) as [[idx1 [E L]]|E]; rewrite E; auto.
    - unfold seq_ at 1. unfold elem_swap. cbn [fst snd]. destruct (swap st cur x) as [st1 o1]. destruct o1; auto.
      unfold seq_ at 1. unfold idx_do. cbn [fst snd]. destruct (aset_cases _ idx cur cur) as [[idx1 [E L]]|E]; rewrite E; cbn [bind]; auto. rewrite IH. auto.
  Qed.
  Lemma outer_length : forall N fuel count i st idx, length (snd (fst (it_apply_outer swap fuel count i N (st, idx)))) = length idx.
  Proof.
    intros N fuel. induction count as [|count IH]; intros i st idx; cbn [it_apply_outer ret]; auto. unfold seq_ at 1.
    pose proof (inner_length i N fuel i st idx) as L. destruct (it_apply_inner swap fuel i N i (st, idx)) as [[st1 idx1] o]. cbn [fst snd] in L. destruct o as [c| |e| | |]; auto.
    unfold seq_ at 1. unfold idx_do. cbn [fst snd]. destruct (aset_cases _ idx1 c c) as [[idx2 [E L2]]|E]; rewrite E; cbn [bind]; auto. rewrite IH. congruence.
  Qed.
End Whole.

Section Main.
  Context {St A : Type}.
  Variables (inv : St -> Prop) (elems : St -> list A) (damage : list A -> Z -> Z -> list A -> Prop).
  Variable swap : St -> Z -> Z -> St * outcome unit.
  Variables (diff : ity) (n : nat).
  Let N := Z.of_nat n.
  Hypothesis Hswap : swap_operation inv elems damage N swap.
  Hypothesis Hbits : 1 <= ity_bits diff.
  Hypothesis Hdiff : in_ity diff N = true.

  Lemma apply_any : forall st idx, inv st -> length (elems st) = n -> length idx = n ->
    let '((st', idx'), o) := it_apply_permutation swap diff N (st, idx) in
    inv st' /\ length idx' = n /\
    match o with
    | Ok _ => is_permutation n idx /\ gathered (elems st) idx (elems st') /\ idx' = identity n
    | Contract => ~ is_permutation n idx /\ Permutation (elems st) (elems st')
    | Throw _ => exists es1 a b, Permutation (elems st) es1 /\ 0 <= a < N /\ 0 <= b < N /\ a <> b /\ damage es1 a b (elems st')
    | _ => False
    end.
  Proof.
    intros st idx Hv Hl Hi. unfold it_apply_permutation. rewrite cast_id by auto.
    pose proof (outer_length swap N (S (Z.to_nat N)) (Z.to_nat N) 0 st idx) as L.
    pose proof (apply_outer_sim inv elems damage n swap Hswap (S (Z.to_nat N)) (Z.to_nat N) 0 st idx [] ltac:(lia) ltac:(unfold N; lia) Hv Hl) as S.
    fold N in S. unfold sim in S. destruct (it_apply_outer swap (Datatypes.S (Z.to_nat N)) (Z.to_nat N) 0 N (st, idx)) as [[st' idx'] o]. cbn [fst snd] in L.
    destruct S as [I S]. split; auto. split; [congruence|].
    destruct (apply_main (elems st) idx ltac:(congruence) diff Hbits ltac:(rewrite Hl; exact Hdiff)) as (e & fin & E & E1 & _ & E2).
    unfold apply_permutation in E. rewrite cast_id in E by (rewrite ?Hl; auto). rewrite Hl in E, E2. fold N in E.
    replace (Z.to_nat N) with n in S by (unfold N; lia). replace (Z.to_nat N) with n in E by (unfold N; lia).
    destruct o as [u| |ex| | |].
    - destruct S as (log & S). rewrite E in S. injection S as -> ->. cbn [ps_elems ps_idx] in *. tauto.
    - destruct S as (log & S). rewrite E in S. injection S as -> ->. cbn [ps_elems ps_idx] in *. tauto.
    - destruct S as (_ & es1 & a & b & _ & S). exists es1, a, b. exact S.
    - rewrite E in S. discriminate.
    - auto.
    - rewrite E in S. discriminate.
  Qed.

  Lemma reverse_any : forall st idx, inv st -> length (elems st) = n -> length idx = n ->
    let '((st', idx'), o) := it_apply_reverse_permutation swap diff N (st, idx) in
    inv st' /\
    match o with
    | Ok _ => is_permutation n idx /\ scattered (elems st) idx (elems st') /\ idx' = identity n
    | Contract => ~ is_permutation n idx /\ Permutation (elems st) (elems st')
    | Throw _ => length idx' = n /\
        exists es1 a b, Permutation (combine (elems st) idx) (combine es1 idx') /\ Permutation (elems st) es1 /\ 0 <= a < N /\ 0 <= b < N /\ a <> b /\ damage es1 a b (elems st')
    | _ => False
    end.
  Proof.
    intros st idx Hv Hl Hi. unfold it_apply_reverse_permutation. rewrite cast_id by auto.
    pose proof (reverse_outer_sim inv elems damage n swap Hswap (S (Z.to_nat N)) (Z.to_nat N) 0 st idx [] ltac:(lia) ltac:(unfold N; lia) Hv Hl) as S.
    fold N in S. unfold sim in S. destruct (it_reverse_outer swap (Datatypes.S (Z.to_nat N)) (Z.to_nat N) 0 N (st, idx)) as [[st' idx'] o].
    destruct S as [I S]. split; auto.
    destruct (reverse_main (elems st) idx ltac:(congruence) diff Hbits ltac:(rewrite Hl; exact Hdiff)) as (e & fin & E & E1 & _ & E2).
    unfold apply_reverse_permutation in E. rewrite cast_id in E by (rewrite ?Hl; auto). rewrite Hl in E, E2. fold N in E.
    replace (Z.to_nat N) with n in S by (unfold N; lia). replace (Z.to_nat N) with n in E by (unfold N; lia).
    destruct o as [u| |ex| | |].
    - destruct S as (log & S). rewrite E in S. injection S as -> ->. cbn [ps_elems ps_idx] in *. tauto.
    - destruct S as (log & S). rewrite E in S. injection S as -> ->. cbn [ps_elems ps_idx] in *. tauto.
    - destruct S as (L & es1 & a & b & S). split; [congruence|]. exists es1, a, b. exact S.
    - rewrite E in S. discriminate.
    - auto.
    - rewrite E in S. discriminate.
  Qed.

  (** A pair of elements and indices that still describes the rearrangement. *)
  Lemma pairs_scatter : forall (es : list A) idx es1 idx1, length es = n -> length es1 = n -> length idx = n -> length idx1 = n ->
    Permutation (combine es idx) (combine es1 idx1) -> is_permutation n idx ->
    is_permutation n idx1 /\ Permutation es es1 /\ forall es2, scattered es1 idx1 es2 -> scattered es idx es2.
  Proof.
    intros es idx es1 idx1 L1 L2 L3 L4 Hp Hi. split; [|split].
    - unfold is_permutation in *. eapply perm_trans; [|exact Hi]. apply Permutation_sym.
      rewrite <- (map_snd_combine_eq _ _ es idx), <- (map_snd_combine_eq _ _ es1 idx1) by congruence. apply Permutation_map; auto.
    - rewrite <- (map_fst_combine_eq _ _ es idx), <- (map_fst_combine_eq _ _ es1 idx1) by congruence. apply Permutation_map; auto.
    - intros es2 [L5 G]. split; [congruence|]. intros i k E.
      assert (Hr : (i < length es)%nat) by (rewrite L1, <- L3; apply nth_error_Some; congruence).
      destruct (nth_error es i) as [x|] eqn:Ex; [|apply nth_error_None in Ex; lia].
      assert (Hin : In (x, Z.of_nat k) (combine es idx)) by (apply (zget_in _ _ (Z.of_nat i)); rewrite zget_combine, !zget_nat, Ex, E; auto).
      apply (Permutation_in _ Hp) in Hin. apply in_zget in Hin as [z Hz]. rewrite zget_combine in Hz.
      destruct (zget es1 z) as [x'|] eqn:E1; [|discriminate]. destruct (zget idx1 z) as [z'|] eqn:E2; [|discriminate]. injection Hz as -> ->.
      pose proof (zget_lt _ _ _ _ E2). rewrite <- (Z2Nat.id z) in E1, E2 by lia. rewrite zget_nat in E1, E2. rewrite (G _ _ E2). auto.
  Qed.

  (** Interruption of apply_permutation() of a permutation. *)
  Lemma apply_throw : forall st idx, inv st -> length (elems st) = n -> is_permutation n idx ->
    forall st' idx' e, it_apply_permutation swap diff N (st, idx) = ((st', idx'), Throw e) ->
    length idx' = n /\ exists es1 a b, damage es1 a b (elems st') /\ Permutation (elems st) es1 /\
      (dup idx' \/ (is_permutation n idx' /\ forall es2, gathered es1 idx' es2 -> gathered (elems st) idx es2)).
  Proof.
    intros st idx Hv Hl Hp st' idx' e E. pose proof (permutation_length _ _ Hp) as Hi.
    unfold it_apply_permutation in E. rewrite cast_id in E by auto.
    assert (Ho : outer_inv (elems st) idx 0 [] (mk_ps (elems st) idx [])).
    { constructor; cbn; auto; try tauto; [split; cbn; auto; congruence|constructor|intros; lia]. }
    assert (Hs : swap_operation inv elems damage (Z.of_nat (length (elems st))) swap) by (rewrite Hl; exact Hswap).
    assert (HN : N = Z.of_nat (length (elems st))) by (unfold N; rewrite Hl; reflexivity).
    rewrite HN in E. clear HN. rewrite <- Hl in Hp, Hi |- *.
    apply (interrupted_spec damage (elems st) idx Hi Hp).
    eapply (outer_good inv elems damage (elems st) idx swap); eauto; lia.
  Qed.
End Main.

(** ** Repeated calls *)

Section Retry.
  Context {St A : Type}.
  Variables (inv : St -> Prop) (elems : St -> list A).
  Variable swap : St -> Z -> Z -> St * outcome unit.
  Variables (diff : ity) (n : nat).
  Let N := Z.of_nat n.
  Hypothesis Hswap : swap_operation inv elems untouched N swap.
  Hypothesis Hbits : 1 <= ity_bits diff.
  Hypothesis Hdiff : in_ity diff N = true.

  Definition keeps (es0 : list A) (p0 : list Z) (s : St * list Z) : Prop :=
    inv (fst s) /\ length (elems (fst s)) = n /\ length (snd s) = n /\ Permutation es0 (elems (fst s)) /\
    (dup (snd s) \/ (is_permutation n (snd s) /\ forall es2, gathered (elems (fst s)) (snd s) es2 -> gathered es0 p0 es2)).

  Lemma keeps_step : forall es0 p0 s s' o, keeps es0 p0 s -> it_apply_permutation swap diff N s = (s', o) -> o <> Ok tt -> keeps es0 p0 s'.
  Proof.
    intros es0 p0 [st idx] [st' idx'] o (K1 & K2 & K3 & K4 & K5) E Hn. cbn [fst snd] in *. unfold keeps. cbn [fst snd].
    pose proof (apply_any inv elems untouched swap diff n Hswap Hbits Hdiff st idx K1 K2 K3) as Q. fold N in Q. rewrite E in Q. destruct Q as (Q1 & Q2 & Q3).
    assert (HP : Permutation (elems st) (elems st')).
    { destruct o as [[]| |e| | |]; try contradiction; [tauto|]. destruct Q3 as (es1 & a & b & P1 & _ & _ & _ & P2). unfold untouched in P2. rewrite P2. exact P1. }
    split; auto. split; [rewrite <- (Permutation_length HP); auto|]. split; auto. split; [eapply perm_trans; eauto|].
    destruct K5 as [D|[Kp Kg]].
    - left. unfold it_apply_permutation in E. rewrite cast_id in E by auto.
      pose proof (outer_dup swap N (S (Z.to_nat N)) (Z.to_nat N) 0 st idx ltac:(lia) ltac:(unfold N; lia) ltac:(unfold N; congruence) D) as R.
      rewrite E in R. destruct R as [_ R]. destruct o as [[]| |e| | |]; try contradiction; auto.
    - destruct o as [[]| |e| | |]; try contradiction; [tauto|].
      destruct (apply_throw inv elems untouched swap diff n Hswap Hbits Hdiff st idx K1 K2 Kp st' idx' e E) as (_ & es1 & a & b & P1 & P2 & P3).
      unfold untouched in P1. subst es1. destruct P3 as [P3|[P3 P4]]; [left; auto|right]. split; auto.
  Qed.

  Lemma keeps_attempted : forall es0 p0 s s', attempted (it_apply_permutation swap diff N) s s' -> keeps es0 p0 s -> keeps es0 p0 s'.
  Proof. intros es0 p0 s s' H. induction H; auto. intro K. apply IHattempted. eapply keeps_step; eauto. Qed.

  Lemma keeps_init : forall st idx, inv st -> length (elems st) = n -> is_permutation n idx -> keeps (elems st) idx (st, idx).
  Proof. intros st idx H1 H2 H3. unfold keeps. cbn [fst snd]. split; auto. split; auto. split; [apply permutation_length; auto|]. split; auto. Qed.

  Lemma keeps_done : forall es0 p0 s s', keeps es0 p0 s -> it_apply_permutation swap diff N s = (s', Ok tt) ->
    gathered es0 p0 (elems (fst s')) /\ snd s' = identity n.
  Proof.
    intros es0 p0 [st idx] [st' idx'] (K1 & K2 & K3 & K4 & K5) E. cbn [fst snd] in *.
    pose proof (apply_any inv elems untouched swap diff n Hswap Hbits Hdiff st idx K1 K2 K3) as Q. fold N in Q. rewrite E in Q. destruct Q as (Q1 & Q2 & Q3 & Q4 & Q5).
    destruct K5 as [D|[Kp Kg]]; [exfalso; exact (dup_not_permutation n idx D Q3)|]. auto.
  Qed.

  Definition rkeeps (es0 : list A) (p0 : list Z) (s : St * list Z) : Prop :=
    inv (fst s) /\ length (elems (fst s)) = n /\ Permutation es0 (elems (fst s)) /\
    is_permutation n (snd s) /\ forall es2, scattered (elems (fst s)) (snd s) es2 -> scattered es0 p0 es2.

  Lemma rkeeps_step : forall es0 p0 s, rkeeps es0 p0 s -> exists s' o, it_apply_reverse_permutation swap diff N s = (s', o) /\
    ((o = Ok tt /\ inv (fst s') /\ scattered es0 p0 (elems (fst s')) /\ snd s' = identity n) \/ (exists e, o = Throw e /\ rkeeps es0 p0 s')).
  Proof.
    intros es0 p0 [st idx] (K1 & K2 & K3 & K4 & K5). cbn [fst snd] in *. pose proof (permutation_length _ _ K4) as Hi.
    pose proof (reverse_any inv elems untouched swap diff n Hswap Hbits Hdiff st idx K1 K2 Hi) as Q. fold N in Q.
    destruct (it_apply_reverse_permutation swap diff N (st, idx)) as [[st' idx'] o]. destruct Q as [Q1 Q2]. exists (st', idx'), o. split; auto. cbn [fst snd].
    destruct o as [[]| |e| | |]; try contradiction.
    - left. destruct Q2 as (_ & Q3 & Q4). auto.
    - tauto.
    - right. exists e. split; auto. destruct Q2 as (L & es1 & a & b & P1 & P2 & _ & _ & _ & P3). unfold untouched in P3. subst es1. unfold rkeeps. cbn [fst snd].
      assert (L' : length (elems st') = n) by (rewrite <- (Permutation_length P2); auto).
      destruct (pairs_scatter n (elems st) idx (elems st') idx' K2 L' Hi L P1 K4) as (R1 & R2 & R3).
      split; auto. split; auto. split; [eapply perm_trans; eauto|]. split; auto.
  Qed.

  Lemma rkeeps_attempted : forall es0 p0 s s', attempted (it_apply_reverse_permutation swap diff N) s s' -> rkeeps es0 p0 s -> rkeeps es0 p0 s'.
  Proof.
    intros es0 p0 s s' H. induction H as [|s s1 s2 o E Hn _ IH]; auto. intro K. apply IH.
    destruct (rkeeps_step es0 p0 s K) as (s' & o' & E' & C). rewrite E in E'. injection E' as <- <-. destruct C as [[-> _]|[e [_ C]]]; [contradiction|auto].
  Qed.
End Retry.

(** ** shuffle() *)

Section ShuffleIt.
  Context {St A : Type}.
  Variables (inv : St -> Prop) (elems : St -> list A) (damage : list A -> Z -> Z -> list A -> Prop) (n : nat).
  Variable swap : St -> Z -> Z -> St * outcome unit.
  Let N := Z.of_nat n.
  Hypothesis Hswap : swap_operation inv elems damage N swap.

  Lemma shuffle_loop_any : forall G (dist : G -> Z -> Z -> G * outcome Z), draws_in_range dist ->
    forall k g st, Z.of_nat k < N \/ k = O -> inv st -> length (elems st) = n ->
    let '((g', st'), o) := it_shuffle_loop swap dist k g st in
    inv st' /\
    match o with
    | Ok _ => Permutation (elems st) (elems st')
    | Throw _ => exists es1, Permutation (elems st) es1 /\ (elems st' = es1 \/ exists a b, 0 <= a < N /\ 0 <= b < N /\ a <> b /\ damage es1 a b (elems st'))
    | _ => False
    end.
  Proof.
    intros G dist Hd. induction k as [|k IH]; intros g st Hk Hv Hl; cbn [it_shuffle_loop]; auto.
    set (i := Z.of_nat (S k)). pose proof (Hd g i ltac:(lia)) as Hj. destruct (dist g 0 i) as [g1 [j| |e| | |]]; cbn [snd] in Hj; try contradiction.
    2: { cbn [bind]. split; auto. exists (elems st). auto. }
    destruct (Z.eqb_spec i j) as [<-|Hn]; cbn [negb].
    - specialize (IH g1 st ltac:(lia) Hv Hl). exact IH.
    - pose proof (Hswap st Hv ltac:(unfold N; lia) i j ltac:(lia) ltac:(lia) Hn) as Hs. destruct (swap st i j) as [st1 o1].
      destruct Hs as [Hv1 [[-> Hex]|[e [-> Hdm]]]].
      + assert (HP : Permutation (elems st) (elems st1)) by (eapply exchanged_perm; [| | |exact Hex]; unfold N in *; lia).
        specialize (IH g1 st1 ltac:(lia) Hv1 ltac:(destruct Hex; congruence)).
        destruct (it_shuffle_loop swap dist k g1 st1) as [[g' st'] o]. destruct IH as [I1 I2]. split; auto.
        destruct o; auto; [eapply perm_trans; eauto|]. destruct I2 as (es1 & P1 & R). exists es1. split; auto. eapply perm_trans; eauto.
      + split; auto. exists (elems st). split; auto. right. exists i, j. unfold N in *. repeat split; auto; lia.
  Qed.

  (** Without exceptions the elements are rearranged as those of an array. *)
  Lemma shuffle_loop_array : forall G (dist : G -> Z -> Z -> G * Z), (forall g i, 0 < i -> 0 <= snd (dist g 0 i) <= i) ->
    (forall es a b es', ~ damage es a b es') ->
    forall k g st log, Z.of_nat k < N \/ k = O -> inv st -> length (elems st) = n ->
    exists g' st' log', it_shuffle_loop swap (fun g a b => let '(g', j) := dist g a b in (g', Ok j)) k g st = (g', st', Ok tt) /\ inv st' /\
      shuffle_loop dist k g (elems st) log = Ok (g', elems st', log').
  Proof.
    intros G dist Hd Hnt. induction k as [|k IH]; intros g st log Hk Hv Hl; cbn [it_shuffle_loop shuffle_loop]; [eauto 6|].
    set (i := Z.of_nat (S k)). pose proof (Hd g i ltac:(lia)) as Hj. destruct (dist g 0 i) as [g1 j]; cbn [snd] in Hj.
    destruct (Z.eqb_spec i j) as [<-|Hn]; cbn [negb].
    - cbn [bind]. apply IH; auto; lia.
    - pose proof (Hswap st Hv ltac:(unfold N; lia) i j ltac:(lia) ltac:(lia) Hn) as Hs. destruct (swap st i j) as [st1 o1].
      destruct Hs as [Hv1 [[-> Hex]|[e [-> Hdm]]]]; [|exfalso; eapply Hnt; eauto].
      assert (Hsw : swap_at (elems st) i j = Ok (elems st1)) by (apply exchanged_swap; auto; unfold N in *; lia). rewrite Hsw. cbn [bind].
      apply IH; auto; [lia|]. destruct Hex; congruence.
  Qed.
End ShuffleIt.

(** ** Rearrangements by a permutation are permutations *)

Lemma gathered_perm : forall A (es : list A) idx es', is_permutation (length es) idx -> gathered es idx es' -> Permutation es es'.
Proof.
  intros A es idx es' Hp [Hl Hg]. destruct es as [|d r] eqn:Ees; [destruct es'; [auto|discriminate]|]. rewrite <- Ees in *.
  set (f := fun z : Z => nth (Z.to_nat z) es d).
  assert (E1 : es = map f (identity (length es))).
  { unfold identity. rewrite map_map. apply (nth_ext _ _ d d); [rewrite map_length, seq_length; auto|].
    intros k Hk. rewrite (nth_indep (map _ _) d (f (Z.of_nat 0))) by (rewrite map_length, seq_length; auto).
    rewrite (map_nth (fun x => f (Z.of_nat x)) (seq 0 (length es)) O k). rewrite seq_nth by auto. unfold f. rewrite Nat2Z.id. reflexivity. }
  assert (E2 : es' = map f idx).
  { pose proof (permutation_length _ _ Hp) as Li. apply (nth_ext _ _ d d); [rewrite map_length; congruence|].
    intros k Hk. destruct (nth_error idx k) as [z|] eqn:Ez; [|apply nth_error_None in Ez; lia].
    assert (Hz : In z (identity (length es))) by (eapply Permutation_in; [exact Hp|eapply nth_error_In; eauto]). apply identity_in in Hz.
    specialize (Hg k (Z.to_nat z)). rewrite Z2Nat.id in Hg by lia. specialize (Hg Ez).
    rewrite (nth_indep (map f idx) d (f 0)) by (rewrite map_length; lia). rewrite (map_nth f idx 0 k). rewrite (nth_error_nth _ _ 0 Ez). unfold f.
    destruct (nth_error es' k) as [x|] eqn:Ex; [|apply nth_error_None in Ex; lia]. rewrite (nth_error_nth _ _ d Ex). symmetry. apply nth_error_nth. auto. }
  rewrite E1, E2. apply Permutation_map, Permutation_sym. exact Hp.
Qed.

Lemma scattered_perm : forall A (es : list A) idx es', is_permutation (length es) idx -> scattered es idx es' -> Permutation es es'.
Proof.
  intros A es idx es' Hp [Hl Hs]. apply Permutation_sym, gathered_perm with idx; [rewrite Hl; auto|]. split; auto. intros i k E. symmetry. auto.
Qed.

Lemma swap_at_exchanged : forall A (es : list A) a b, 0 <= a < Z.of_nat (length es) -> 0 <= b < Z.of_nat (length es) ->
  exists es', swap_at es a b = Ok es' /\ exchanged es a b es'.
Proof.
  intros A es a b Ha Hb. destruct (swap_ok _ es a b Ha Hb) as [l [E [L [_ G]]]]. exists l. split; auto. split; auto.
  assert (Q : forall l : list A, forall z, 0 <= z -> zget l z = nth_error l (Z.to_nat z)) by (intros l0 z Hz; unfold zget; destruct (Z.ltb_spec z 0); auto; lia).
  split; [|split].
  - rewrite <- !Q by lia. rewrite G. rewrite Z.eqb_refl. destruct (Z.eqb_spec a b); [subst|]; auto.
  - rewrite <- !Q by lia. rewrite G. rewrite Z.eqb_refl. auto.
  - intros k Hka Hkb. rewrite <- !zget_nat. rewrite G. destruct (Z.eqb_spec (Z.of_nat k) b); [lia|]. destruct (Z.eqb_spec (Z.of_nat k) a); [lia|]. auto.
Qed.

Lemma shuffle_loop_sim : forall St A (inv : St -> Prop) (elems : St -> list A) n swap, swap_operation inv elems no_throw (Z.of_nat n) swap ->
  forall k ds st log, draws_ok k ds -> (k <= n - 1)%nat -> inv st -> length (elems st) = n ->
  exists st' log', it_shuffle_loop swap scripted_draws k ds st = ([], st', Ok tt) /\ inv st' /\
    shuffle_loop scripted k ds (elems st) log = Ok ([], elems st', log').
Proof.
  intros St A inv elems n swap Hs. induction k as [|k IH]; intros ds st log Hds Hk Hv Hl; cbn [it_shuffle_loop shuffle_loop].
  { cbn in Hds. subst ds. eauto. }
  destruct Hds as (d & r & -> & Hd & Hr). cbn [scripted_draws scripted]. set (i := Z.of_nat (S k)) in *.
  destruct (Z.eqb_spec i d) as [<-|Hn]; cbn [negb].
  - cbn [bind]. apply IH; auto; lia.
  - pose proof (Hs st Hv ltac:(lia) i d ltac:(lia) ltac:(lia) Hn) as Q. destruct (swap st i d) as [st1 o1].
    destruct Q as [Hv1 [[-> Hex]|[e [_ []]]]].
    assert (Hsw : swap_at (elems st) i d = Ok (elems st1)) by (apply exchanged_swap; auto; lia). rewrite Hsw. cbn [bind].
    apply IH; auto; [lia|]. destruct Hex; congruence.
Qed.
