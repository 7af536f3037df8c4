(** Proofs about permutation algorithms. *)

From Coq Require Import ZArith Arith Bool List Permutation Lia FinFun.
From Verif Require Import Base ExpandModel ExpandSpec ExpandProofs PermModel PermSpec.
Import ListNotations.
Local Open Scope Z_scope.

(* ------------------------------------------------------------------------ *)
(** ** Arrays with integer positions *)

Definition zget {A} (l : list A) (z : Z) : option A := if z <? 0 then None else nth_error l (Z.to_nat z).

Lemma zget_nat : forall A (l : list A) k, zget l (Z.of_nat k) = nth_error l k.
Proof. intros. unfold zget. destruct (Z.ltb_spec (Z.of_nat k) 0); [lia|]. rewrite Nat2Z.id. auto. Qed.

Lemma zget_lt : forall A (l : list A) z x, zget l z = Some x -> 0 <= z < Z.of_nat (length l).
Proof.
  unfold zget. intros A l z x H. destruct (Z.ltb_spec z 0); [discriminate|].
  assert (Z.to_nat z < length l)%nat by (apply nth_error_Some; congruence). lia.
Qed.

Lemma zget_some : forall A (l : list A) z, 0 <= z < Z.of_nat (length l) -> exists x, zget l z = Some x.
Proof.
  unfold zget. intros A l z H. destruct (Z.ltb_spec z 0); [lia|].
  destruct (nth_error l (Z.to_nat z)) eqn:E; eauto. apply nth_error_None in E. lia.
Qed.

Lemma aget_zget : forall A (l : list A) z, aget l z = match zget l z with Some x => Ok x | None => UB end.
Proof. intros. unfold aget, zget, arr_get. destruct (z <? 0); auto. Qed.

Lemma zget_in : forall A (l : list A) z x, zget l z = Some x -> In x l.
Proof. unfold zget. intros A l z x H. destruct (z <? 0); [discriminate|]. eapply nth_error_In; eauto. Qed.

Lemma in_zget : forall A (l : list A) x, In x l -> exists z, zget l z = Some x.
Proof. intros A l x H. apply In_nth_error in H as [k Hk]. exists (Z.of_nat k). rewrite zget_nat. auto. Qed.

Lemma zget_ext : forall A (l l' : list A), length l = length l' ->
  (forall z, 0 <= z < Z.of_nat (length l) -> zget l z = zget l' z) -> l = l'.
Proof.
  induction l as [|x r IH]; intros [|y s] Hl H; try discriminate; auto.
  pose proof (H 0 ltac:(cbn; lia)) as H0. cbn in H0. f_equal; [congruence|].
  apply IH; [cbn in Hl; lia|]. intros z Hz.
  specialize (H (z + 1) ltac:(cbn [length]; lia)). unfold zget in *.
  destruct (Z.ltb_spec (z + 1) 0); [lia|]. destruct (Z.ltb_spec z 0); [lia|].
  replace (Z.to_nat (z + 1)) with (S (Z.to_nat z)) in H by lia. auto.
Qed.

Lemma aset_ok : forall A (l : list A) z x, 0 <= z < Z.of_nat (length l) ->
  exists l', aset l z x = Ok l' /\ length l' = length l /\
    forall k, zget l' k = if k =? z then Some x else zget l k.
Proof.
  intros A l z x H. unfold aset, arr_set. destruct (Z.ltb_spec z 0); [lia|].
  destruct (Nat.ltb_spec (Z.to_nat z) (length l)); [|lia].
  eexists; split; [reflexivity|]. split; [apply upd_length|]. intro k.
  destruct (Z.eqb_spec k z) as [->|Hne].
  - unfold zget. destruct (Z.ltb_spec z 0); [lia|]. apply nth_error_upd_same; auto.
  - unfold zget. destruct (Z.ltb_spec k 0); auto. apply nth_error_upd_other. lia.
Qed.

Lemma Permutation_zget : forall A (l l' : list A) (f : Z -> Z), length l = length l' ->
  (forall z, 0 <= z < Z.of_nat (length l) -> 0 <= f z < Z.of_nat (length l)) ->
  (forall a b, 0 <= a < Z.of_nat (length l) -> 0 <= b < Z.of_nat (length l) -> f a = f b -> a = b) ->
  (forall z, 0 <= z < Z.of_nat (length l) -> zget l' z = zget l (f z)) ->
  Permutation l l'.
Proof.
  intros A l l' f Hl Hr Hi Hz. apply Permutation_nth_error. split; auto.
  exists (fun k => if (k <? length l)%nat then Z.to_nat (f (Z.of_nat k)) else k). split.
  - intros a b H. destruct (Nat.ltb_spec a (length l)), (Nat.ltb_spec b (length l)).
    + pose proof (Hr (Z.of_nat a) ltac:(lia)). pose proof (Hr (Z.of_nat b) ltac:(lia)).
      assert (Z.of_nat a = Z.of_nat b) by (apply Hi; lia). lia.
    + pose proof (Hr (Z.of_nat a) ltac:(lia)). lia.
    + pose proof (Hr (Z.of_nat b) ltac:(lia)). lia.
    + auto.
  - intro k. destruct (Nat.ltb_spec k (length l)).
    + rewrite <- zget_nat, Hz by lia. pose proof (Hr (Z.of_nat k) ltac:(lia)).
      rewrite <- zget_nat, Z2Nat.id by lia. auto.
    + assert (nth_error l k = None) by (apply nth_error_None; lia).
      assert (nth_error l' k = None) by (apply nth_error_None; lia). congruence.
Qed.

Lemma swap_ok : forall A (l : list A) a b,
  0 <= a < Z.of_nat (length l) -> 0 <= b < Z.of_nat (length l) ->
  exists l', swap_at l a b = Ok l' /\ length l' = length l /\ Permutation l l' /\
    forall k, zget l' k = if k =? b then zget l a else if k =? a then zget l b else zget l k.
Proof.
  intros A l a b Ha Hb. unfold swap_at. rewrite !aget_zget.
  destruct (zget_some _ l a Ha) as [x Ex]. destruct (zget_some _ l b Hb) as [y Ey].
  rewrite Ex, Ey. cbn [bind].
  destruct (aset_ok _ l a y Ha) as [l1 [E1 [L1 G1]]]. rewrite E1. cbn [bind].
  destruct (aset_ok _ l1 b x) as [l2 [E2 [L2 G2]]]; [lia|].
  exists l2. split; auto. split; [congruence|].
  assert (G : forall k, zget l2 k = if k =? b then zget l a else if k =? a then zget l b else zget l k).
  { intro k. rewrite G2, G1, Ex, Ey. auto. }
  split; [|intro k; rewrite G, Ex, Ey; auto].
  apply (Permutation_zget _ l l2 (fun k => if k =? b then a else if k =? a then b else k)); try congruence.
  - intros z Hz. destruct (z =? b); auto. destruct (z =? a); auto.
  - intros u v Hu Hv. destruct (Z.eqb_spec u b), (Z.eqb_spec v b); try lia;
      destruct (Z.eqb_spec u a), (Z.eqb_spec v a); try lia.
  - intros z Hz. rewrite G. destruct (z =? b); auto. destruct (z =? a); auto.
Qed.

(* ------------------------------------------------------------------------ *)
(** ** Permutations of 0..n-1 *)

Lemma identity_length : forall n, length (identity n) = n.
Proof. intro n. unfold identity. rewrite map_length, seq_length. auto. Qed.

Lemma identity_in : forall n z, In z (identity n) <-> 0 <= z < Z.of_nat n.
Proof.
  intros n z. unfold identity. rewrite in_map_iff. split.
  - intros [k [<- Hk]]. apply in_seq in Hk. lia.
  - intro H. exists (Z.to_nat z). split; [lia|]. apply in_seq. lia.
Qed.

Lemma identity_nodup : forall n, NoDup (identity n).
Proof. intro n. unfold identity. apply Injective_map_NoDup; [|apply seq_NoDup]. intros a b; lia. Qed.

Lemma identity_zget : forall n z, 0 <= z < Z.of_nat n -> zget (identity n) z = Some z.
Proof.
  intros n z H. unfold identity, zget. destruct (Z.ltb_spec z 0); [lia|].
  erewrite map_nth_error; [|erewrite nth_error_nth' with (d := 0%nat); [reflexivity|rewrite seq_length; lia]].
  f_equal. rewrite seq_nth by lia. lia.
Qed.

Lemma NoDup_zget : forall A (l : list A), NoDup l -> forall a b x, zget l a = Some x -> zget l b = Some x -> a = b.
Proof.
  intros A l H a b x Ha Hb. pose proof (zget_lt _ _ _ _ Ha). pose proof (zget_lt _ _ _ _ Hb).
  unfold zget in *. destruct (Z.ltb_spec a 0); [lia|]. destruct (Z.ltb_spec b 0); [lia|].
  assert (Z.to_nat a = Z.to_nat b); [|lia].
  apply (proj1 (NoDup_nth_error l) H); [lia|congruence].
Qed.

Lemma is_permutation_nodup : forall n idx, is_permutation n idx ->
  NoDup idx /\ length idx = n /\ (forall x, In x idx <-> 0 <= x < Z.of_nat n).
Proof.
  intros n idx H. unfold is_permutation in H. split; [|split].
  - eapply Permutation_NoDup; [apply Permutation_sym; exact H|apply identity_nodup].
  - rewrite (Permutation_length H). apply identity_length.
  - intro x. rewrite <- identity_in. split; apply Permutation_in; auto. apply Permutation_sym; auto.
Qed.

Lemma nodup_range_permutation : forall n (l : list Z), NoDup l -> (forall x, In x l -> 0 <= x < Z.of_nat n) ->
  length l = n -> is_permutation n l.
Proof.
  intros n l Hn Hr Hl. apply NoDup_Permutation_bis; auto.
  - rewrite identity_length. lia.
  - intros x Hx. apply identity_in; auto.
Qed.

(** A list without duplicates of values below n has at most n elements. *)
Lemma nodup_bound : forall n (l : list Z), NoDup l -> (forall x, In x l -> 0 <= x < Z.of_nat n) -> (length l <= n)%nat.
Proof.
  intros n l Hn Hr. rewrite <- (identity_length n). apply NoDup_incl_length; auto.
  intros x Hx. apply identity_in; auto.
Qed.

(* ------------------------------------------------------------------------ *)
(** ** apply_permutation *)

Section Apply.
  Context {A : Type}.
  Variables (es0 : list A) (p0 : list Z).
  Let n := length es0.
  Let N := Z.of_nat n.
  Hypothesis Hlen : length p0 = n.

  Definition P (z : Z) : Z := match zget p0 z with Some x => x | None => -1 end.

  Lemma P_ok : forall z, 0 <= z < N -> zget p0 z = Some (P z).
  Proof. intros z H. unfold P. destruct (zget_some _ p0 z) as [x ->]; auto. unfold N in H. lia. Qed.

  Record base (st : pstate A) : Prop := mk_base {
    b_es : length (ps_elems st) = n;
    b_idx : length (ps_idx st) = n;
    b_perm : Permutation es0 (ps_elems st);
    b_log : Forall (Permutation es0) (ps_log st)
  }.

  (** Positions in [D] lie on completed cycles; [V] is the visited part of the current one. *)
  Record good (i : Z) (D V : list Z) (cur : Z) (st : pstate A) : Prop := mk_good {
    g_base : base st;
    g_nodup : NoDup (D ++ V ++ [cur]);
    g_range : forall x, In x (D ++ V ++ [cur]) -> 0 <= x < N;
    g_cycles : Permutation (map P D) D;
    g_chain : V ++ [cur] = i :: map P V;
    g_done : forall j, In j (D ++ V) -> zget (ps_idx st) j = Some j /\ zget (ps_elems st) j = zget es0 (P j);
    g_rest : forall j, 0 <= j < N -> ~ In j (D ++ V) ->
      zget (ps_idx st) j = zget p0 j /\ zget (ps_elems st) j = zget es0 (if j =? cur then i else j)
  }.

  Lemma good_cur_fresh : forall i D V cur st, good i D V cur st -> ~ In cur (D ++ V) /\ 0 <= cur < N.
  Proof.
    intros i D V cur st H. pose proof (g_nodup _ _ _ _ _ H) as Hn. rewrite app_assoc in Hn. split.
    - intro C. apply NoDup_remove_2 in Hn. rewrite app_nil_r in Hn. auto.
    - apply (g_range _ _ _ _ _ H). rewrite !in_app_iff. cbn; auto.
  Qed.

  (** If [p0] is a permutation, the successor of a fresh position is fresh, unless it closes the cycle. *)
  Lemma next_fresh : forall i D V cur st, good i D V cur st -> is_permutation n p0 ->
    i <> P cur -> ~ In (P cur) (D ++ V ++ [cur]).
  Proof.
    intros i D V cur st H Hp Hi C. destruct (good_cur_fresh _ _ _ _ _ H) as [Hf Hr].
    destruct (is_permutation_nodup _ _ Hp) as [Hnd _].
    assert (Hinj : forall d, 0 <= d < N -> P d = P cur -> d = cur).
    { intros d Hd E. apply (NoDup_zget _ _ Hnd d cur (P cur)); auto using P_ok. rewrite <- E. apply P_ok; auto. }
    apply in_app_or in C as [C|C].
    - apply (Permutation_in (P cur) (Permutation_sym (g_cycles _ _ _ _ _ H))) in C.
      apply in_map_iff in C as [d [Ed Hd]].
      assert (d = cur); [|subst; apply Hf; rewrite in_app_iff; auto].
      apply Hinj; auto. apply (g_range _ _ _ _ _ H). rewrite in_app_iff; auto.
    - rewrite (g_chain _ _ _ _ _ H) in C. destruct C as [C|C]; [congruence|].
      apply in_map_iff in C as [d [Ed Hd]].
      assert (d = cur); [|subst; apply Hf; rewrite in_app_iff; auto].
      apply Hinj; auto. apply (g_range _ _ _ _ _ H). rewrite !in_app_iff; auto.
  Qed.

  Lemma inner_spec : forall i D, 0 <= i < N ->
    forall fuel V cur st, good i D V cur st -> (n - length V + 1 <= fuel)%nat ->
    exists e cur' st', apply_inner fuel i N cur st = Ok (e, cur', st') /\ base st' /\
      match e with
      | Finished => exists V', good i D V' cur' st' /\ P cur' = i
      | Violation => ~ is_permutation n p0
      end.
  Proof.
    intros i D Hi. induction fuel as [|fuel IH]; intros V cur st H Hfuel; [lia|].
    destruct (good_cur_fresh _ _ _ _ _ H) as [Hf Hr].
    pose proof (g_base _ _ _ _ _ H) as [B1 B2 B3 B4].
    destruct (g_rest _ _ _ _ _ H cur Hr Hf) as [Hic Hec]. rewrite Z.eqb_refl in Hec.
    assert (HV : (length V < n)%nat).
    { assert (length (D ++ V ++ [cur]) <= n)%nat.
      { apply nodup_bound; [apply (g_nodup _ _ _ _ _ H)|apply (g_range _ _ _ _ _ H)]. }
      rewrite !app_length in H0. cbn in H0. lia. }
    cbn [apply_inner]. rewrite aget_zget, Hic, P_ok by auto. cbn [bind].
    destruct (Z.eqb_spec i (P cur)) as [E|Hne].
    { exists Finished, cur, st. split; auto. split; [split; auto|]. exists V; split; auto. }
    destruct ((P cur <? 0) || (P cur >=? N) || (P cur =? cur)) eqn:Ebad.
    - destruct (aset_ok _ (ps_idx st) i (P cur)) as [idx [-> [L G]]]; [unfold N in Hi; lia|].
      cbn [bind]. exists Violation, cur, (mk_ps (ps_elems st) idx (ps_log st)). split; auto.
      split; [split; cbn; auto; congruence|].
      intro Hp. destruct (is_permutation_nodup _ _ Hp) as [_ [_ Hin]].
      assert (HP : 0 <= P cur < Z.of_nat n) by (apply Hin; eapply zget_in; apply P_ok; auto).
      pose proof (next_fresh _ _ _ _ _ H Hp Hne) as Hnf.
      rewrite !orb_true_iff in Ebad. rewrite Z.ltb_lt, Z.geb_leb, Z.leb_le, Z.eqb_eq in Ebad.
      destruct Ebad as [[Eb|Eb]|Eb]; unfold N in *; try lia.
      apply Hnf. rewrite Eb, !in_app_iff. cbn; auto.
    - rewrite !orb_false_iff in Ebad. rewrite Z.ltb_ge, Z.geb_leb, Z.leb_gt, Z.eqb_neq in Ebad.
      destruct Ebad as [[Eb1 Eb2] Eb3].
      destruct (swap_ok _ (ps_elems st) cur (P cur)) as [es [-> [Ls [Ps Gs]]]]; [unfold N in *; lia..|].
      cbn [bind].
      destruct (aset_ok _ (ps_idx st) cur cur) as [idx [-> [L G]]]; [unfold N in *; lia|]. cbn [bind].
      set (st' := mk_ps es idx (ps_log st ++ [es])).
      assert (Hb' : base st').
      { split; cbn; try congruence.
        - eapply perm_trans; eauto.
        - apply Forall_app; split; auto. constructor; auto. eapply perm_trans; eauto. }
      destruct (in_dec Z.eq_dec (P cur) (D ++ V ++ [cur])) as [Hbad|Hgood].
      + (* the next position has been visited before: the next iteration detects it *)
        assert (Hidx : zget idx (P cur) = Some (P cur)).
        { rewrite G. destruct (Z.eqb_spec (P cur) cur); [lia|].
          rewrite app_assoc in Hbad. apply in_app_or in Hbad as [Hbad|[Hbad|[]]]; [|lia].
          apply (g_done _ _ _ _ _ H). auto. }
        destruct fuel as [|fuel']; [lia|]. cbn [apply_inner ps_idx].
        rewrite aget_zget. unfold st' at 1. cbn [ps_idx]. rewrite Hidx. cbn [bind].
        destruct (Z.eqb_spec i (P cur)); [contradiction|]. rewrite Z.eqb_refl, orb_true_r.
        destruct (aset_ok _ idx i (P cur)) as [idx2 [E2 [L2 G2]]]; [unfold N in *; lia|].
        unfold st' at 1. cbn [ps_idx]. rewrite E2. cbn [bind].
        eexists _, _, _; split; [reflexivity|]. split.
        * destruct Hb'; split; cbn in *; auto; congruence.
        * intro Hp. exact (next_fresh _ _ _ _ _ H Hp Hne Hbad).
      + destruct (IH (V ++ [cur]) (P cur) st') as [e [cur' [st'' R]]].
        * constructor; auto.
          -- rewrite <- app_assoc. rewrite 2 app_assoc. rewrite <- (app_assoc D).
             apply (Permutation_NoDup (l := P cur :: D ++ V ++ [cur])).
             ++ apply Permutation_cons_append.
             ++ constructor; auto. apply (g_nodup _ _ _ _ _ H).
          -- intros x Hx. rewrite !in_app_iff in Hx. cbn in Hx.
             assert (x = P cur \/ In x (D ++ V ++ [cur])) as [->|Hx'].
             { rewrite !in_app_iff. cbn. intuition. }
             ++ lia.
             ++ apply (g_range _ _ _ _ _ H); auto.
          -- apply (g_cycles _ _ _ _ _ H).
          -- rewrite map_app, <- (g_chain _ _ _ _ _ H) || idtac.
             rewrite map_app. cbn [map]. rewrite (g_chain _ _ _ _ _ H). auto.
          -- intros j Hj. cbn. assert (In j (D ++ V) \/ j = cur) as [Hj'| ->].
             { rewrite !in_app_iff in *. cbn in Hj. intuition. }
             ++ assert (j <> cur) by (intro; subst; auto).
                assert (j <> P cur).
                { intro E. apply Hgood. rewrite <- E, !in_app_iff. apply in_app_or in Hj'. tauto. }
                rewrite G, Gs. destruct (Z.eqb_spec j cur); [lia|]. destruct (Z.eqb_spec j (P cur)); [lia|].
                apply (g_done _ _ _ _ _ H); auto.
             ++ rewrite G, Gs, Z.eqb_refl. split; auto.
                destruct (Z.eqb_spec cur (P cur)); [lia|].
                destruct (g_rest _ _ _ _ _ H (P cur)) as [_ E].
                { lia. }
                { intro C. apply Hgood. rewrite !in_app_iff in *. tauto. }
                destruct (Z.eqb_spec (P cur) cur); [lia|]. auto.
          -- intros j Hj Hnj. cbn. assert (j <> cur) by (intro; subst; apply Hnj; rewrite !in_app_iff; cbn; auto).
             assert (~ In j (D ++ V)) by (intro C; apply Hnj; rewrite !in_app_iff in *; tauto).
             destruct (g_rest _ _ _ _ _ H j Hj H1) as [R1 R2]. rewrite G, Gs.
             destruct (Z.eqb_spec j cur); [lia|]. split; auto.
             destruct (Z.eqb_spec j (P cur)); auto.
        * rewrite app_length. cbn. lia.
        * exists e, cur', st''. auto.
  Qed.

  (** Between two iterations of the outer loop. *)
  Record outer_inv (i : Z) (D : list Z) (st : pstate A) : Prop := mk_oi {
    o_base : base st;
    o_nodup : NoDup D;
    o_range : forall x, In x D -> 0 <= x < N;
    o_cycles : Permutation (map P D) D;
    o_before : forall j, 0 <= j < i -> In j D;
    o_done : forall j, In j D -> zget (ps_idx st) j = Some j /\ zget (ps_elems st) j = zget es0 (P j);
    o_rest : forall j, 0 <= j < N -> ~ In j D ->
      zget (ps_idx st) j = zget p0 j /\ zget (ps_elems st) j = zget es0 j
  }.

  Lemma outer_spec : forall count i D st, 0 <= i -> i + Z.of_nat count = N -> outer_inv i D st ->
    exists e st', apply_outer (S n) count i N st = Ok (e, st') /\ base st' /\
      match e with
      | Finished => exists D', outer_inv N D' st'
      | Violation => ~ is_permutation n p0
      end.
  Proof.
    induction count as [|count IH]; intros i D st Hi Hc H.
    - cbn [apply_outer]. exists Finished, st. split; auto. split; [apply (o_base _ _ _ H)|].
      exists D. replace N with i by lia. auto.
    - cbn [apply_outer]. assert (Hir : 0 <= i < N) by lia.
      destruct (in_dec Z.eq_dec i D) as [Hin|Hout].
      + (* already on a completed cycle *)
        destruct (o_done _ _ _ H i Hin) as [Hix _].
        cbn [apply_inner]. rewrite aget_zget, Hix. cbn [bind]. rewrite Z.eqb_refl. cbn [bind].
        pose proof (o_base _ _ _ H) as [B1 B2 B3 B4].
        destruct (aset_ok _ (ps_idx st) i i) as [idx [E1 [L1 G1]]]; [unfold N in *; lia|].
        rewrite E1. cbn [bind].
        apply (IH (i + 1) D); try lia.
        destruct H. constructor; cbn; auto.
        * split; cbn; auto. congruence.
        * intros j Hj. destruct (Z.eq_dec j i) as [->|]; auto. apply o_before0. lia.
        * intros j Hj. rewrite G1. destruct (Z.eqb_spec j i) as [->|]; auto. split; auto. apply o_done0; auto.
        * intros j Hj Hn. rewrite G1. destruct (Z.eqb_spec j i) as [->|]; auto. contradiction.
      + destruct (inner_spec i D Hir (S n) [] i st) as [e [cur [st' [E [Hb He]]]]].
        * destruct H. constructor; cbn [app map]; rewrite ?app_nil_r; auto.
          -- apply (Permutation_NoDup (l := i :: D)); [apply Permutation_cons_append|]. constructor; auto.
          -- intros x Hx. apply in_app_or in Hx as [Hx|[<-|[]]]; auto.
          -- intros j Hj Hnj. destruct (Z.eqb_spec j i) as [->|]; auto.
        * cbn. lia.
        * rewrite E. cbn [bind]. destruct e.
          -- destruct He as [V [Hg HP]]. destruct (good_cur_fresh _ _ _ _ _ Hg) as [Hf Hr].
             pose proof (g_base _ _ _ _ _ Hg) as [B1 B2 B3 B4].
             destruct (aset_ok _ (ps_idx st') cur cur) as [idx [E1 [L1 G1]]]; [unfold N in *; lia|].
             rewrite E1. cbn [bind].
             apply (IH (i + 1) (D ++ V ++ [cur])); try lia.
             assert (Hii : In i (V ++ [cur])) by (rewrite (g_chain _ _ _ _ _ Hg); left; auto).
             constructor; cbn.
             ++ split; cbn; auto. congruence.
             ++ apply (g_nodup _ _ _ _ _ Hg).
             ++ apply (g_range _ _ _ _ _ Hg).
             ++ rewrite map_app. apply Permutation_app; [apply (g_cycles _ _ _ _ _ Hg)|].
                rewrite map_app. cbn [map]. rewrite HP, (g_chain _ _ _ _ _ Hg).
                apply Permutation_sym, Permutation_cons_append.
             ++ intros j Hj. apply in_or_app. destruct (Z.eq_dec j i) as [->|]; auto.
                left. apply (o_before _ _ _ H). lia.
             ++ intros j Hj. rewrite app_assoc in Hj. rewrite G1.
                apply in_app_or in Hj as [Hj|[<-|[]]].
                ** destruct (Z.eqb_spec j cur) as [->|]; [contradiction|]. apply (g_done _ _ _ _ _ Hg); auto.
                ** rewrite Z.eqb_refl. split; auto. rewrite HP.
                   destruct (g_rest _ _ _ _ _ Hg cur Hr Hf) as [_ R]. rewrite Z.eqb_refl in R. auto.
             ++ intros j Hj Hn. assert (j <> cur) by (intro; subst; apply Hn; rewrite !in_app_iff; cbn; auto).
                assert (~ In j (D ++ V)) by (intro C; apply Hn; rewrite !in_app_iff in *; tauto).
                destruct (g_rest _ _ _ _ _ Hg j Hj H1) as [R1 R2]. rewrite G1.
                destruct (Z.eqb_spec j cur); [lia|]. auto.
          -- exists Violation, st'. auto.
  Qed.

  Lemma finished_permutation : forall D st, outer_inv N D st -> is_permutation n p0.
  Proof.
    intros D st H. assert (HD : is_permutation n D).
    { apply nodup_range_permutation; [apply (o_nodup _ _ _ H)|apply (o_range _ _ _ H)|].
      apply Nat.le_antisymm; [apply nodup_bound; [apply (o_nodup _ _ _ H)|apply (o_range _ _ _ H)]|].
      rewrite <- (identity_length n). apply NoDup_incl_length; [apply identity_nodup|].
      intros x Hx. apply identity_in in Hx. apply (o_before _ _ _ H). auto. }
    assert (E : map P (identity n) = p0).
    { apply zget_ext; [rewrite map_length, identity_length; auto|].
      rewrite map_length, identity_length. intros z Hz.
      rewrite P_ok by auto. pose proof (identity_zget n z Hz) as Ei. unfold zget in *.
      destruct (z <? 0); [discriminate|]. apply map_nth_error. auto. }
    unfold is_permutation. rewrite <- E at 1.
    eapply perm_trans; [apply Permutation_map, Permutation_sym; exact HD|].
    eapply perm_trans; [apply (o_cycles _ _ _ H)|exact HD].
  Qed.

  Lemma finished_result : forall D st, outer_inv N D st ->
    ps_idx st = identity n /\ gathered es0 p0 (ps_elems st).
  Proof.
    intros D st H. pose proof (o_base _ _ _ H) as [B1 B2 B3 B4]. split.
    - apply zget_ext; [rewrite identity_length; auto|]. rewrite B2. intros z Hz.
      rewrite identity_zget by auto. apply (o_done _ _ _ H). apply (o_before _ _ _ H). auto.
    - split; auto. intros i k E. rewrite <- !zget_nat.
      assert (Hr : 0 <= Z.of_nat i < N).
      { assert (i < length p0)%nat by (apply nth_error_Some; congruence). unfold N. lia. }
      destruct (o_done _ _ _ H (Z.of_nat i)) as [_ ->]; [apply (o_before _ _ _ H); auto|].
      unfold P. rewrite zget_nat, E. auto.
  Qed.

  Theorem apply_main : forall diff, 1 <= ity_bits diff -> in_ity diff N = true ->
    exists e st, apply_permutation diff es0 p0 = Ok (e, st) /\
      Permutation es0 (ps_elems st) /\ Forall (Permutation es0) (ps_log st) /\
      match e with
      | Finished => is_permutation n p0 /\ ps_idx st = identity n /\ gathered es0 p0 (ps_elems st)
      | Violation => ~ is_permutation n p0
      end.
  Proof.
    intros diff Hb Hd. unfold apply_permutation. fold n N. rewrite cast_id by auto. fold N.
    destruct (outer_spec (Z.to_nat N) 0 [] (mk_ps es0 p0 [])) as [e [st [E [Hbase He]]]]; try (unfold N; lia).
    - constructor; cbn; auto; try tauto.
      + split; cbn; auto.
      + constructor.
      + intros; lia.
    - exists e, st. split; auto. destruct Hbase. repeat split; auto. destruct e; auto.
      destruct He as [D HD]. split; [eapply finished_permutation; eauto|]. eapply finished_result; eauto.
  Qed.
End Apply.

(* ------------------------------------------------------------------------ *)
(** ** apply_reverse_permutation *)

Section Reverse.
  Context {A : Type}.
  Variables (es0 : list A) (p0 : list Z).
  Let n := length es0.
  Let N := Z.of_nat n.
  Hypothesis Hlen : length p0 = n.

  Definition pairs (st : pstate A) : list (A * Z) := combine (ps_elems st) (ps_idx st).

  Record rbase (st : pstate A) : Prop := mk_rbase {
    r_es : length (ps_elems st) = n;
    r_idx : length (ps_idx st) = n;
    r_pairs : Permutation (combine es0 p0) (pairs st);
    r_log : Forall (Permutation es0) (ps_log st)
  }.

  Lemma map_fst_combine_eq : forall B C (a : list B) (b : list C), length a = length b -> map fst (combine a b) = a.
  Proof. induction a as [|x r IH]; intros [|y s] H; try discriminate; cbn; auto. rewrite IH; auto. Qed.

  Lemma map_snd_combine_eq : forall B C (a : list B) (b : list C), length a = length b -> map snd (combine a b) = b.
  Proof. induction a as [|x r IH]; intros [|y s] H; try discriminate; cbn; auto. rewrite IH; auto. Qed.

  Lemma zget_combine : forall B C (a : list B) (b : list C) z,
    zget (combine a b) z = match zget a z, zget b z with Some x, Some y => Some (x, y) | _, _ => None end.
  Proof.
    intros B C a b z. unfold zget. destruct (z <? 0); auto. generalize (Z.to_nat z) as k. clear z. revert b.
    induction a as [|x r IH]; intros [|y s] [|k]; cbn; auto. destruct (nth_error r k); auto.
  Qed.

  Lemma rbase_elems : forall st, rbase st -> Permutation es0 (ps_elems st) /\ Permutation p0 (ps_idx st).
  Proof.
    intros st [H1 H2 H3 H4]. split.
    - rewrite <- (map_fst_combine_eq _ _ es0 p0), <- (map_fst_combine_eq _ _ (ps_elems st) (ps_idx st)) by (unfold n in *; congruence).
      apply Permutation_map; auto.
    - rewrite <- (map_snd_combine_eq _ _ es0 p0), <- (map_snd_combine_eq _ _ (ps_elems st) (ps_idx st)) by (unfold n in *; congruence).
      apply Permutation_map; auto.
  Qed.

  (** Positions holding their own number. *)
  Definition fixed (st : pstate A) : list Z := filter (fun j => match zget (ps_idx st) j with Some x => x =? j | None => false end) (identity n).

  Lemma fixed_in : forall st j, In j (fixed st) <-> 0 <= j < N /\ zget (ps_idx st) j = Some j.
  Proof.
    intros st j. unfold fixed. rewrite filter_In, identity_in. fold N.
    destruct (zget (ps_idx st) j) as [x|].
    - rewrite Z.eqb_eq. split; intros [H1 H2]; split; auto; congruence.
    - split; intros [H1 H2]; discriminate.
  Qed.

  Lemma fixed_nodup : forall st, NoDup (fixed st).
  Proof. intro st. apply NoDup_filter, identity_nodup. Qed.

  Lemma fixed_length : forall st, (length (fixed st) <= n)%nat.
  Proof. intro st. apply nodup_bound; [apply fixed_nodup|]. intros x Hx. apply fixed_in in Hx as [Hx _]. auto. Qed.

  Lemma reverse_inner_spec : forall i, 0 <= i < N -> forall fuel st, rbase st ->
    (n - length (fixed st) <= fuel)%nat ->
    exists e st', reverse_inner fuel i N st = Ok (e, st') /\ rbase st' /\
      match e with
      | Finished => zget (ps_idx st') i = Some i /\ (forall j, 0 <= j < N -> zget (ps_idx st) j = Some j -> zget (ps_idx st') j = Some j)
      | Violation => ~ is_permutation n p0
      end.
  Proof.
    intros i Hi. induction fuel as [|fuel IH]; intros st Hb Hfuel.
    - pose proof (fixed_length st).
      assert (Hall : is_permutation n (fixed st)).
      { apply nodup_range_permutation; [apply fixed_nodup| |lia]. intros x Hx. apply fixed_in in Hx as [Hx _]. auto. }
      assert (Hfi : In i (fixed st)).
      { apply (is_permutation_nodup _ _ Hall). auto. }
      apply fixed_in in Hfi as [_ E]. cbn [reverse_inner]. rewrite aget_zget, E. cbn [bind]. rewrite Z.eqb_refl.
      exists Finished, st. auto.
    - pose proof Hb as [H1 H2 H3 H4].
      destruct (zget_some _ (ps_idx st) i) as [x Ex]; [unfold N in Hi; lia|].
      cbn [reverse_inner]. rewrite aget_zget, Ex. cbn [bind].
      destruct (Z.eqb_spec i x) as [->|Hne]; [exists Finished, st; auto|].
      destruct (negb ((x >=? 0) && (x <? N))) eqn:Er.
      { exists Violation, st. split; auto. split; auto. intro Hp.
        destruct (is_permutation_nodup _ _ Hp) as [_ [_ Hin]].
        destruct (rbase_elems st Hb) as [_ Hpi].
        assert (0 <= x < N).
        { apply Hin. apply (Permutation_in x (Permutation_sym Hpi)). eapply zget_in; eauto. }
        rewrite negb_true_iff, andb_false_iff, Z.geb_leb, Z.leb_gt, Z.ltb_ge in Er. lia. }
      apply negb_false_iff in Er. rewrite andb_true_iff, Z.geb_leb, Z.leb_le, Z.ltb_lt in Er.
      destruct (zget_some _ (ps_idx st) x) as [y Ey]; [unfold N in *; lia|].
      rewrite aget_zget, Ey. cbn [bind]. destruct (Z.eqb_spec x y) as [->|Hxy].
      { exists Violation, st. split; auto. split; auto. intro Hp.
        destruct (is_permutation_nodup _ _ Hp) as [Hnd _].
        destruct (rbase_elems st Hb) as [_ Hpi].
        apply (Permutation_NoDup Hpi) in Hnd. apply Hne. apply (NoDup_zget _ _ Hnd i y y); auto. }
      destruct (swap_ok _ (ps_elems st) i x) as [es [-> [Ls [Ps Gs]]]]; [unfold N in *; lia..|]. cbn [bind].
      destruct (swap_ok _ (ps_idx st) i x) as [idx [-> [Li [Pi Gi]]]]; [unfold N in *; lia..|]. cbn [bind].
      set (st' := mk_ps es idx (ps_log st ++ [es])).
      assert (Hb' : rbase st').
      { split; cbn; try congruence.
        - eapply perm_trans; [exact H3|]. unfold pairs. cbn [ps_elems ps_idx st'].
          destruct (swap_ok _ (combine (ps_elems st) (ps_idx st)) i x) as [c [_ [Lc [Pc Gc]]]];
            [rewrite combine_length; unfold N in *; lia..|].
          eapply perm_trans; [exact Pc|]. replace (combine es idx) with c; auto.
          apply zget_ext.
          + rewrite Lc, !combine_length. lia.
          + intros z _. rewrite Gc, !zget_combine, Gs, Gi. destruct (z =? x); auto. destruct (z =? i); auto.
        - apply Forall_app; split; auto. constructor; auto.
          eapply perm_trans; [apply (rbase_elems st Hb)|auto]. }
      assert (Hmono : forall j, 0 <= j < N -> zget (ps_idx st) j = Some j -> zget idx j = Some j).
      { intros j Hj E. rewrite Gi. destruct (Z.eqb_spec j x) as [->|]; [congruence|].
        destruct (Z.eqb_spec j i) as [->|]; [congruence|]. auto. }
      assert (Hx : zget idx x = Some x) by (rewrite Gi, Z.eqb_refl; auto).
      assert (Hfix : (length (fixed st) < length (fixed st'))%nat).
      { assert (length (x :: fixed st) <= length (fixed st'))%nat; [|cbn in *; lia].
        apply NoDup_incl_length.
        - constructor; [|apply fixed_nodup]. intro C. apply fixed_in in C as [_ C]. congruence.
        - intros j [<-|Hj]; apply fixed_in; cbn; [split; [lia|auto]|].
          apply fixed_in in Hj as [Hj1 Hj2]. auto. }
      destruct (IH st' Hb') as [e [st'' [E1 [E2 E3]]]]; [lia|].
      exists e, st''. split; auto. split; auto. destruct e; auto. destruct E3 as [E3 E4]. split; auto.
  Qed.

  Lemma reverse_outer_spec : forall count i st, 0 <= i -> i + Z.of_nat count = N -> rbase st ->
    (forall j, 0 <= j < i -> zget (ps_idx st) j = Some j) ->
    exists e st', reverse_outer (S n) count i N st = Ok (e, st') /\ rbase st' /\
      match e with
      | Finished => forall j, 0 <= j < N -> zget (ps_idx st') j = Some j
      | Violation => ~ is_permutation n p0
      end.
  Proof.
    induction count as [|count IH]; intros i st Hi Hc Hb Hd; cbn [reverse_outer].
    - exists Finished, st. split; auto. split; auto. replace N with i by lia. auto.
    - destruct (reverse_inner_spec i ltac:(lia) (S n) st Hb) as [e [st' [E [Hb' He]]]].
      { pose proof (fixed_length st). lia. }
      rewrite E. cbn [bind]. destruct e; [|exists Violation, st'; auto].
      destruct He as [He1 He2]. apply IH; auto; try lia.
      intros j Hj. destruct (Z.eq_dec j i) as [->|]; auto. apply He2; [lia|]. apply Hd. lia.
  Qed.

  Theorem reverse_main : forall diff, 1 <= ity_bits diff -> in_ity diff N = true ->
    exists e st, apply_reverse_permutation diff es0 p0 = Ok (e, st) /\
      Permutation es0 (ps_elems st) /\ Forall (Permutation es0) (ps_log st) /\
      match e with
      | Finished => is_permutation n p0 /\ ps_idx st = identity n /\ scattered es0 p0 (ps_elems st)
      | Violation => ~ is_permutation n p0
      end.
  Proof.
    intros diff Hbits Hd. unfold apply_reverse_permutation. fold n N. rewrite cast_id by auto.
    destruct (reverse_outer_spec (Z.to_nat N) 0 (mk_ps es0 p0 [])) as [e [st [E [Hb He]]]]; try (unfold N; lia).
    - split; cbn; auto.
    - exists e, st. split; auto. destruct (rbase_elems st Hb) as [Hp1 Hp2].
      pose proof Hb as [H1 H2 H3 H4]. split; auto. split; auto. destruct e; auto.
      assert (Eid : ps_idx st = identity n).
      { apply zget_ext; [rewrite identity_length; auto|]. rewrite H2. intros z Hz. rewrite identity_zget; auto. }
      split; [|split; auto].
      + unfold is_permutation. rewrite <- Eid. auto.
      + split; auto. intros i k Ek.
        assert (Hi : (i < length es0)%nat) by (fold n; rewrite <- Hlen; apply nth_error_Some; congruence).
        destruct (nth_error es0 i) as [x|] eqn:Ex; [|apply nth_error_None in Ex; lia].
        assert (Hin : In (x, Z.of_nat k) (combine es0 p0)).
        { apply (zget_in _ _ (Z.of_nat i)). rewrite zget_combine, !zget_nat, Ex, Ek. auto. }
        apply (Permutation_in _ H3) in Hin. apply in_zget in Hin as [z Hz].
        unfold pairs in Hz. rewrite zget_combine in Hz.
        destruct (zget (ps_elems st) z) as [x'|] eqn:E1; [|discriminate].
        destruct (zget (ps_idx st) z) as [z'|] eqn:E2; [|discriminate]. inversion Hz; subst.
        pose proof (zget_lt _ _ _ _ E2). rewrite He in E2 by (unfold N; lia). inversion E2; subst.
        rewrite zget_nat in E1. auto.
  Qed.
End Reverse.

(* ------------------------------------------------------------------------ *)
(** ** shuffle *)

Definition bounds_from (n : nat) : list (Z * Z) := map (fun k => (0, Z.of_nat k)) (rev (seq 1 n)).

Lemma bounds_from_S : forall n, bounds_from (S n) = (0, Z.of_nat (S n)) :: bounds_from n.
Proof.
  intro n. unfold bounds_from. rewrite seq_S, rev_app_distr. cbn [rev app map plus]. auto.
Qed.

Section Shuffle.
  Context {A S : Type}.
  Variable dist : S -> Z -> Z -> S * Z.

  (** One step: the elements are exchanged whether or not the positions differ. *)
  Lemma swap_if : forall (es : list A) i j, 0 <= i < Z.of_nat (length es) -> 0 <= j < Z.of_nat (length es) ->
    exists es', (if negb (i =? j) then swap_at es i j else Ok es) = Ok es' /\ length es' = length es /\
      Permutation es es' /\ forall k, zget es' k = if k =? i then zget es j else if k =? j then zget es i else zget es k.
  Proof.
    intros es i j Hi Hj. destruct (Z.eqb_spec i j) as [->|Hne]; cbn [negb].
    - exists es. repeat split; auto. intro k. destruct (Z.eqb_spec k j) as [->|]; auto.
    - destruct (swap_ok _ es i j Hi Hj) as [es' [E [L [Hp G]]]]. exists es'. repeat split; auto.
      intro k. rewrite G. destruct (Z.eqb_spec k j), (Z.eqb_spec k i); auto. lia.
  Qed.

  Lemma shuffle_loop_spec : (forall s i, 0 < i -> 0 <= snd (dist s 0 i) <= i) ->
    forall n s (es : list A) log, Z.of_nat n < Z.of_nat (length es) \/ n = O ->
    exists s' es', shuffle_loop dist n s es log = Ok (s', es', log ++ bounds_from n) /\ Permutation es es'.
  Proof.
    intros Hd. induction n as [|n IH]; intros s es log Hn.
    - cbn. rewrite app_nil_r. eauto.
    - cbn [shuffle_loop]. pose proof (Hd s (Z.of_nat (Datatypes.S n)) ltac:(lia)) as Hj.
      destruct (dist s 0 (Z.of_nat (Datatypes.S n))) as [s1 j]. cbn [snd] in Hj.
      destruct (swap_if es (Z.of_nat (Datatypes.S n)) j) as [es1 [-> [L [Hp G]]]]; [lia..|]. cbn [bind].
      destruct (IH s1 es1 (log ++ [(0, Z.of_nat (Datatypes.S n))])) as [s' [es' [E Hp']]]; [lia|].
      exists s', es'. rewrite E, <- app_assoc, bounds_from_S. split; auto. eapply perm_trans; eauto.
  Qed.
End Shuffle.

Lemma shuffle_permutes : forall A S (dist : S -> Z -> Z -> S * Z), (forall s i, 0 < i -> 0 <= snd (dist s 0 i) <= i) ->
  forall s (es : list A), exists s' es',
    shuffle dist s es = Ok (s', es', bounds_from (length es - 1)) /\ Permutation es es'.
Proof.
  intros A S dist Hd s es. unfold shuffle.
  destruct (shuffle_loop_spec dist Hd (length es - 1) s es []) as [s' [es' [E Hp]]]; eauto. lia.
Qed.

(** With scripted draws. *)
Lemma scripted_step : forall A n d r (es : list A) log, Z.of_nat (S n) < Z.of_nat (length es) ->
  0 <= d <= Z.of_nat (S n) ->
  exists es1, length es1 = length es /\ Permutation es es1 /\
    (forall k, zget es1 k = if k =? Z.of_nat (S n) then zget es d else if k =? d then zget es (Z.of_nat (S n)) else zget es k) /\
    shuffle_loop scripted (S n) (d :: r) es log = shuffle_loop scripted n r es1 (log ++ [(0, Z.of_nat (S n))]).
Proof.
  intros A n d r es log Hn Hd.
  destruct (swap_if es (Z.of_nat (S n)) d) as [es1 [E [L [Hp G]]]]; [lia..|].
  exists es1. repeat split; auto. cbn [shuffle_loop scripted]. rewrite E. auto.
Qed.

Lemma scripted_total : forall A n ds (es : list A) log, draws_ok n ds -> Z.of_nat n < Z.of_nat (length es) \/ n = O ->
  exists es', shuffle_loop scripted n ds es log = Ok ([], es', log ++ bounds_from n) /\ Permutation es es' /\
    forall z, Z.of_nat n < z -> zget es' z = zget es z.
Proof.
  intros A. induction n as [|n IH]; intros ds es log Hd Hn.
  - cbn in Hd. subst. cbn. rewrite app_nil_r. exists es; auto.
  - destruct Hd as [d [r [-> [Hd1 Hd2]]]].
    destruct (scripted_step A n d r es log) as [es1 [L [Hp [G E]]]]; [lia..|].
    destruct (IH r es1 (log ++ [(0, Z.of_nat (S n))]) Hd2) as [es' [E' [Hp' K]]]; [lia|].
    exists es'. rewrite E, E', <- app_assoc, bounds_from_S. split; auto. split; [eapply perm_trans; eauto|].
    intros z Hz. rewrite K by lia. rewrite G. destruct (Z.eqb_spec z (Z.of_nat (S n))); [lia|].
    destruct (Z.eqb_spec z d); [lia|]. auto.
Qed.

Lemma scripted_unique : forall A n (es es' : list A) log, NoDup es -> Permutation es es' ->
  Z.of_nat n < Z.of_nat (length es) \/ n = O ->
  (forall z, Z.of_nat n < z -> zget es z = zget es' z) ->
  exists ds, draws_ok n ds /\ shuffle_loop scripted n ds es log = Ok ([], es', log ++ bounds_from n) /\
    forall ds', draws_ok n ds' -> shuffle_loop scripted n ds' es log = Ok ([], es', log ++ bounds_from n) -> ds' = ds.
Proof.
  intros A. induction n as [|n IH]; intros es es' log Hnd Hp Hn Hhi.
  - exists []. split; [reflexivity|]. assert (es = es').
    { apply zget_ext; [apply Permutation_length; auto|]. intros z Hz.
      destruct (Z.eq_dec z 0) as [->|]; [|apply Hhi; lia].
      destruct (zget_some _ es' 0) as [x Ex]; [rewrite <- (Permutation_length Hp); lia|].
      assert (Hx : In x es) by (apply (Permutation_in x (Permutation_sym Hp)); eapply zget_in; eauto).
      apply in_zget in Hx as [k Hk]. destruct (Z.eq_dec k 0) as [->|]; [congruence|].
      pose proof (zget_lt _ _ _ _ Hk).
      rewrite Hhi in Hk by lia. assert (k = 0); [|lia].
      apply (NoDup_zget _ es') with (x := x); auto. eapply Permutation_NoDup; eauto. }
    subst. cbn. rewrite app_nil_r. split; auto.
  - assert (Hlt : Z.of_nat (S n) < Z.of_nat (length es)) by lia.
    assert (Hnd' : NoDup es') by (eapply Permutation_NoDup; eauto).
    destruct (zget_some _ es' (Z.of_nat (S n))) as [x Ex]; [rewrite <- (Permutation_length Hp); lia|].
    assert (Hx : In x es) by (apply (Permutation_in x (Permutation_sym Hp)); eapply zget_in; eauto).
    apply in_zget in Hx as [d Hk]. pose proof (zget_lt _ _ _ _ Hk).
    assert (Hd : 0 <= d <= Z.of_nat (S n)).
    { destruct (Z.le_gt_cases d (Z.of_nat (S n))); [lia|]. exfalso. rewrite Hhi in Hk by lia.
      assert (d = Z.of_nat (S n)) by (apply (NoDup_zget _ es' Hnd' _ _ x); auto). lia. }
    destruct (scripted_step A n d [] es log Hlt Hd) as [es1 [L [Hp1 [G _]]]].
    destruct (IH es1 es' (log ++ [(0, Z.of_nat (S n))])) as [r [R1 [R2 R3]]].
    + eapply Permutation_NoDup; eauto.
    + eapply perm_trans; [apply Permutation_sym; exact Hp1|auto].
    + lia.
    + intros z Hz. rewrite G. destruct (Z.eqb_spec z (Z.of_nat (S n))) as [->|]; [congruence|].
      destruct (Z.eqb_spec z d) as [->|]; [lia|]. apply Hhi. lia.
    + assert (Hsame : forall e, (forall k, zget e k = if k =? Z.of_nat (S n) then zget es d else if k =? d then zget es (Z.of_nat (S n)) else zget es k) ->
                length e = length es -> e = es1).
      { intros e He Hl. apply zget_ext; [congruence|]. intros z _. rewrite He, G. auto. }
      exists (d :: r). split; [exists d, r; auto|].
      rewrite bounds_from_S. split.
      * destruct (scripted_step A n d r es log Hlt Hd) as [e [Le [Pe [Ge ->]]]].
        rewrite (Hsame e Ge Le), R2, <- app_assoc. auto.
      * intros ds' [d' [r' [-> [Hd' Hr']]]] E.
        destruct (scripted_step A n d' r' es log Hlt Hd') as [e [Le [Pe [Ge Ee]]]]. rewrite Ee in E.
        destruct (scripted_total A n r' e (log ++ [(0, Z.of_nat (S n))]) Hr') as [es2 [E2 [_ K2]]]; [lia|].
        rewrite E2 in E. inversion E; subst es2.
        assert (d' = d).
        { specialize (K2 (Z.of_nat (S n)) ltac:(lia)). rewrite Ge, Z.eqb_refl, Ex in K2.
          apply (NoDup_zget _ es Hnd _ _ x); auto. }
        subst d'. f_equal. rewrite (Hsame e Ge Le) in E2. apply R3; auto.
Qed.

Lemma shuffle_unique_draws : forall A (es es' : list A), NoDup es -> Permutation es es' ->
  exists ds, draws_ok (length es - 1) ds /\ shuffle scripted ds es = Ok ([], es', bounds_from (length es - 1)) /\
    forall ds', draws_ok (length es - 1) ds' ->
      shuffle scripted ds' es = Ok ([], es', bounds_from (length es - 1)) -> ds' = ds.
Proof.
  intros A es es' Hn Hp. apply (scripted_unique A (length es - 1) es es' [] Hn Hp).
  - lia.
  - intros z Hz. assert (zget es z = None /\ zget es' z = None) as [-> ->]; auto.
    pose proof (Permutation_length Hp).
    split; match goal with |- zget ?l z = None => destruct (zget l z) eqn:E; auto; apply zget_lt in E; lia end.
Qed.

(* ------------------------------------------------------------------------ *)
(** ** Composition *)

Lemma permutation_length : forall n idx, is_permutation n idx -> length idx = n.
Proof. intros n idx H. apply is_permutation_nodup in H. tauto. Qed.

Lemma apply_permutation_ok : forall A diff (es : list A) idx,
  1 <= ity_bits diff -> int_value (ity_bits diff) (ity_signed diff) (Z.of_nat (length es)) ->
  is_permutation (length es) idx ->
  exists st, apply_permutation diff es idx = Ok (Finished, st) /\
    gathered es idx (ps_elems st) /\ ps_idx st = identity (length es).
Proof.
  intros A diff es idx Hb Hd Hp.
  destruct (apply_main es idx (permutation_length _ _ Hp) diff Hb) as [e [st [E [_ [_ H]]]]].
  { apply in_ity_iff; auto. }
  destruct e; [|contradiction]. exists st. split; auto. tauto.
Qed.

Lemma apply_reverse_permutation_ok : forall A diff (es : list A) idx,
  1 <= ity_bits diff -> int_value (ity_bits diff) (ity_signed diff) (Z.of_nat (length es)) ->
  is_permutation (length es) idx ->
  exists st, apply_reverse_permutation diff es idx = Ok (Finished, st) /\
    scattered es idx (ps_elems st) /\ ps_idx st = identity (length es).
Proof.
  intros A diff es idx Hb Hd Hp.
  destruct (reverse_main es idx (permutation_length _ _ Hp) diff Hb) as [e [st [E [_ [_ H]]]]].
  { apply in_ity_iff; auto. }
  destruct e; [|contradiction]. exists st. split; auto. tauto.
Qed.

Lemma nth_ext_opt : forall A (l l' : list A), length l = length l' ->
  (forall k, (k < length l)%nat -> nth_error l k = nth_error l' k) -> l = l'.
Proof.
  intros A l l' H1 H2. apply zget_ext; auto. intros z Hz.
  rewrite <- (Z2Nat.id z), !zget_nat by lia. apply H2. lia.
Qed.

Lemma permutation_hits : forall n idx k, is_permutation n idx -> (k < n)%nat -> exists i, nth_error idx i = Some (Z.of_nat k).
Proof.
  intros n idx k H Hk. destruct (is_permutation_nodup _ _ H) as [_ [_ Hi]].
  apply In_nth_error. apply Hi. lia.
Qed.

Lemma permutation_value : forall n idx i, is_permutation n idx -> (i < n)%nat ->
  exists k, nth_error idx i = Some (Z.of_nat k) /\ (k < n)%nat.
Proof.
  intros n idx i H Hi. destruct (is_permutation_nodup _ _ H) as [_ [Hl Hin]].
  destruct (nth_error idx i) as [z|] eqn:E; [|apply nth_error_None in E; lia].
  apply nth_error_In in E. apply Hin in E. exists (Z.to_nat z). rewrite Z2Nat.id by lia. split; [auto|lia].
Qed.

Lemma scatter_after_gather : forall A (es es1 es2 : list A) idx, is_permutation (length es) idx ->
  gathered es idx es1 -> scattered es1 idx es2 -> es2 = es.
Proof.
  intros A es es1 es2 idx Hp [L1 G1] [L2 G2]. apply nth_ext_opt; [congruence|].
  intros k Hk. destruct (permutation_hits _ _ k Hp) as [i Hi]; [congruence|].
  rewrite (G2 i k Hi). apply G1; auto.
Qed.

Lemma gather_after_scatter : forall A (es es1 es2 : list A) idx, is_permutation (length es) idx ->
  scattered es idx es1 -> gathered es1 idx es2 -> es2 = es.
Proof.
  intros A es es1 es2 idx Hp [L1 G1] [L2 G2]. apply nth_ext_opt; [congruence|].
  intros i Hi. destruct (permutation_value _ _ i Hp) as [k [Hk _]]; [congruence|].
  rewrite (G2 i k Hk). apply G1; auto.
Qed.

Lemma undo : forall A diff diff' (es : list A) idx,
  1 <= ity_bits diff -> int_value (ity_bits diff) (ity_signed diff) (Z.of_nat (length es)) ->
  1 <= ity_bits diff' -> int_value (ity_bits diff') (ity_signed diff') (Z.of_nat (length es)) ->
  is_permutation (length es) idx ->
  exists st st', apply_permutation diff es idx = Ok (Finished, st) /\
    apply_reverse_permutation diff' (ps_elems st) idx = Ok (Finished, st') /\ ps_elems st' = es.
Proof.
  intros A diff diff' es idx Hb Hd Hb' Hd' Hp.
  destruct (apply_permutation_ok A diff es idx Hb Hd Hp) as [st [E [G _]]].
  pose proof G as [L _]. rewrite <- L in Hp, Hd'.
  destruct (apply_reverse_permutation_ok A diff' (ps_elems st) idx Hb' Hd' Hp) as [st' [E' [G' _]]].
  exists st, st'. repeat split; auto. rewrite L in Hp. eapply scatter_after_gather; eauto.
Qed.

Lemma undo_reverse : forall A diff diff' (es : list A) idx,
  1 <= ity_bits diff -> int_value (ity_bits diff) (ity_signed diff) (Z.of_nat (length es)) ->
  1 <= ity_bits diff' -> int_value (ity_bits diff') (ity_signed diff') (Z.of_nat (length es)) ->
  is_permutation (length es) idx ->
  exists st st', apply_reverse_permutation diff es idx = Ok (Finished, st) /\
    apply_permutation diff' (ps_elems st) idx = Ok (Finished, st') /\ ps_elems st' = es.
Proof.
  intros A diff diff' es idx Hb Hd Hb' Hd' Hp.
  destruct (apply_reverse_permutation_ok A diff es idx Hb Hd Hp) as [st [E [G _]]].
  pose proof G as [L _]. rewrite <- L in Hp, Hd'.
  destruct (apply_permutation_ok A diff' (ps_elems st) idx Hb' Hd' Hp) as [st' [E' [G' _]]].
  exists st, st'. repeat split; auto. rewrite L in Hp. eapply gather_after_scatter; eauto.
Qed.

Lemma apply_detects : forall A diff (es : list A) idx,
  1 <= ity_bits diff -> int_value (ity_bits diff) (ity_signed diff) (Z.of_nat (length es)) ->
  length idx = length es ->
  exists e st, apply_permutation diff es idx = Ok (e, st) /\
    (e = Violation <-> ~ is_permutation (length es) idx) /\
    Permutation es (ps_elems st) /\ Forall (Permutation es) (ps_log st).
Proof.
  intros A diff es idx Hb Hd Hl.
  destruct (apply_main es idx Hl diff Hb) as [e [st [E [H1 [H2 H3]]]]]; [apply in_ity_iff; auto|].
  exists e, st. split; auto. split; auto. destruct e; split; intro H; auto; try discriminate. tauto.
Qed.

Lemma reverse_detects : forall A diff (es : list A) idx,
  1 <= ity_bits diff -> int_value (ity_bits diff) (ity_signed diff) (Z.of_nat (length es)) ->
  length idx = length es ->
  exists e st, apply_reverse_permutation diff es idx = Ok (e, st) /\
    (e = Violation <-> ~ is_permutation (length es) idx) /\
    Permutation es (ps_elems st) /\ Forall (Permutation es) (ps_log st).
Proof.
  intros A diff es idx Hb Hd Hl.
  destruct (reverse_main es idx Hl diff Hb) as [e [st [E [H1 [H2 H3]]]]]; [apply in_ity_iff; auto|].
  exists e, st. split; auto. split; auto. destruct e; split; intro H; auto; try discriminate. tauto.
Qed.

Lemma shuffle_scripted : forall A (es : list A) ds, draws_ok (length es - 1) ds ->
  exists es', shuffle scripted ds es = Ok ([], es', bounds_from (length es - 1)) /\ Permutation es es'.
Proof.
  intros A es ds H. destruct (scripted_total A (length es - 1) ds es [] H) as [es' [E [Hp _]]]; [lia|].
  exists es'. auto.
Qed.
