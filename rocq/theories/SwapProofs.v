(** Proofs about the number of swaps. *)

From Coq Require Import ZArith Arith Bool Lia Permutation List.
From Verif Require Import Base ExpandModel ExpandProofs PermModel PermSpec PermProofs PermItModel PermItSpec PermItProofs SwapSpec.
Import ListNotations.
Local Open Scope Z_scope.

(** ** Sequences of exchanges *)

Lemma exchanged_zget_any : forall A (es : list A) a b es', 0 <= a -> 0 <= b -> exchanged es a b es' ->
  forall k, zget es' k = if k =? b then zget es a else if k =? a then zget es b else zget es k.
Proof.
  intros A es a b es' Ha Hb (_ & E1 & E2 & E3) k. unfold zget.
  destruct (Z.eqb_spec k b) as [->|Nb]; [destruct (Z.ltb_spec b 0), (Z.ltb_spec a 0); try lia; auto|].
  destruct (Z.eqb_spec k a) as [->|Na]; [destruct (Z.ltb_spec b 0), (Z.ltb_spec a 0); try lia; auto|].
  destruct (Z.ltb_spec k 0); auto. apply E3; lia.
Qed.

Lemma zget_exchanged : forall A (es : list A) a b es', 0 <= a -> 0 <= b -> length es' = length es ->
  (forall k, zget es' k = if k =? b then zget es a else if k =? a then zget es b else zget es k) -> exchanged es a b es'.
Proof.
  intros A es a b es' Ha Hb L G. split; auto.
  assert (Z0 : forall (l : list A) z, 0 <= z -> nth_error l (Z.to_nat z) = zget l z) by (intros l z Hz; unfold zget; destruct (Z.ltb_spec z 0); [lia|auto]).
  rewrite !Z0, !G, !Z.eqb_refl by auto. split; [destruct (Z.eqb_spec a b) as [->|]; auto|]. split; auto.
  intros k Nk Mk. rewrite <- !zget_nat, G. destruct (Z.eqb_spec (Z.of_nat k) b); [lia|]. destruct (Z.eqb_spec (Z.of_nat k) a); [lia|]. auto.
Qed.

Lemma exchanged_exists : forall A (es : list A) a b, 0 <= a < Z.of_nat (length es) -> 0 <= b < Z.of_nat (length es) -> exists es', exchanged es a b es'.
Proof.
  intros A es a b Ha Hb. destruct (swap_ok _ es a b Ha Hb) as (es' & _ & L & _ & G). exists es'. apply zget_exchanged; auto; lia.
Qed.

Lemma exchanges_length : forall A sw (es es' : list A), exchanges sw es es' -> length es' = length es.
Proof. induction 1 as [|a b sw es es1 es2 Ha Hb He _ IH]; auto. destruct He. congruence. Qed.

(** What an exchange does to positions it does to any elements at these positions. *)
Definition at_tags {A} (es : list A) (t : list Z) (es' : list A) : Prop :=
  length es' = length t /\ forall k, zget es' k = match zget t k with Some x => zget es x | None => None end.

Lemma exchanges_tags : forall A sw (es0 es es' : list A), exchanges sw es es' -> forall t, at_tags es0 t es ->
  exists t', exchanges sw t t' /\ at_tags es0 t' es'.
Proof.
  intros A sw es0 es es' H. induction H as [es|a b sw es es1 es2 Ha Hb He _ IH]; intros t [Lt Gt]; [exists t; split; [constructor|split; auto]|].
  destruct (exchanged_exists _ t a b) as [t1 Ht1]; [rewrite <- Lt; auto..|].
  destruct (IH t1) as (t2 & X & Y).
  - split; [destruct He, Ht1; congruence|]. intro k.
    rewrite (exchanged_zget_any _ es a b es1 ltac:(lia) ltac:(lia) He), (exchanged_zget_any _ t a b t1 ltac:(lia) ltac:(lia) Ht1).
    destruct (k =? b); auto. destruct (k =? a); auto.
  - exists t2. split; auto. econstructor; eauto; rewrite <- Lt; auto.
Qed.

Lemma tags_identity : forall A (es : list A), at_tags es (identity (length es)) es.
Proof.
  intros A es. split; [rewrite identity_length; auto|]. intro k. destruct (zget (identity (length es)) k) as [x|] eqn:E.
  - pose proof (zget_lt _ _ _ _ E) as R. rewrite identity_length in R. rewrite identity_zget in E by auto. congruence.
  - destruct (zget es k) as [y|] eqn:E'; auto. apply zget_lt in E'. rewrite identity_zget in E by auto. discriminate.
Qed.

Lemma exchanges_permutation : forall sw (t t' : list Z), exchanges sw t t' -> Permutation t t'.
Proof.
  induction 1 as [|a b sw es es1 es2 Ha Hb He _ IH]; auto. eapply perm_trans; [|exact IH].
  destruct (swap_ok _ es a b Ha Hb) as (x & _ & L & Pm & G). replace es1 with x; auto.
  apply zget_ext; [destruct He; congruence|]. intros z _. rewrite G. symmetry. apply exchanged_zget_any; auto; lia.
Qed.

(** Distinguishable elements show how positions were exchanged. *)
Lemma tags_unique : forall A (es es' : list A) t t', NoDup es -> is_permutation (length es) t -> is_permutation (length es) t' ->
  at_tags es t es' -> at_tags es t' es' -> t = t'.
Proof.
  intros A es es' t t' Hn Hp Hp' [L1 G1] [L2 G2]. apply zget_ext; [congruence|]. intros z Hz.
  destruct (zget_some _ t z Hz) as [x Ex]. destruct (zget_some _ t' z ltac:(lia)) as [y Ey].
  pose proof (G1 z) as H1. pose proof (G2 z) as H2. rewrite Ex in H1. rewrite Ey in H2. rewrite Ex, Ey. f_equal.
  destruct (is_permutation_nodup _ _ Hp) as (_ & _ & I). assert (Hx : 0 <= x < Z.of_nat (length es)) by (apply I; eapply zget_in; eauto).
  destruct (zget_some _ es x Hx) as [v Ev]. eapply NoDup_zget; eauto. congruence.
Qed.

(** ** Labels: each exchange may connect two groups of positions *)

Definition distinct (n : nat) (L : Z -> Z) : nat := length (nodup Z.eq_dec (map L (identity n))).

Definition constant_on (n : nat) (L : Z -> Z) (t : list Z) : Prop :=
  forall j x, zget t j = Some x -> L j = L x.

Lemma merge_distinct : forall n L a b, (distinct n L <= S (distinct n (fun j => if (L j =? L a)%Z then L b else L j)))%nat.
Proof.
  intros n L a b. unfold distinct.
  apply (NoDup_incl_length (l' := L a :: nodup Z.eq_dec (map (fun j => if L j =? L a then L b else L j) (identity n)))); [apply NoDup_nodup|].
  intros x Hx. apply nodup_In in Hx. apply in_map_iff in Hx as (j & <- & Hj). destruct (Z.eq_dec (L j) (L a)) as [->|N]; [left; auto|right].
  apply nodup_In, in_map_iff. exists j. destruct (Z.eqb_spec (L j) (L a)); [contradiction|]. auto.
Qed.

Lemma exchanges_labels : forall n sw (t t' : list Z), exchanges sw t t' -> forall L, constant_on n L t ->
  exists L', constant_on n L' t' /\ (distinct n L <= distinct n L' + length sw)%nat.
Proof.
  intros n sw t t' H. induction H as [t|a b sw t t1 t2 Ha Hb He _ IH]; intros L HL; [exists L; split; auto; cbn; lia|].
  destruct (IH (fun j => if L j =? L a then L b else L j)) as (L' & C & D).
  - intros j x E. rewrite (exchanged_zget_any _ t a b t1 ltac:(lia) ltac:(lia) He) in E. cbn beta.
    destruct (Z.eqb_spec j b) as [->|Nb].
    { rewrite <- (HL a x E), Z.eqb_refl. destruct (L b =? L a); auto. }
    destruct (Z.eqb_spec j a) as [->|Na].
    { rewrite <- (HL b x E), Z.eqb_refl. destruct (L b =? L a); auto. }
    rewrite <- (HL j x E). auto.
  - exists L'. split; auto. pose proof (merge_distinct n L a b). cbn [length]. lia.
Qed.

Lemma identity_labels : forall n, constant_on n (fun j => j) (identity n) /\ distinct n (fun j => j) = n.
Proof.
  intro n. split.
  - intros j x E. pose proof (zget_lt _ _ _ _ E) as R. rewrite identity_length in R. rewrite identity_zget in E by auto. congruence.
  - unfold distinct. rewrite map_id, nodup_fixed_point by apply identity_nodup. apply identity_length.
Qed.

(** ** Sequences in which each exchange settles a position *)

Fixpoint settling (sw : list (Z * Z)) : Prop :=
  match sw with
  | [] => True
  | (a, b) :: r => a <> b /\ ~ In a (map fst r) /\ ~ In a (map snd r) /\ settling r
  end.

Lemma settling_snoc : forall sw a b, settling sw -> a <> b -> ~ In a (map fst sw) -> ~ In b (map fst sw) -> settling (sw ++ [(a, b)]).
Proof.
  induction sw as [|[u v] r IH]; intros a b H Hab Ha Hb; cbn [app settling map fst snd]; [tauto|].
  destruct H as (H1 & H2 & H3 & H4). cbn [map fst In] in *. split; auto. rewrite !map_app, !in_app_iff. cbn [map fst snd In].
  split; [intros [C|[C|[]]]; subst; tauto|]. split; [intros [C|[C|[]]]; subst; tauto|]. apply IH; tauto.
Qed.

Lemma settling_nodup : forall sw, settling sw -> NoDup (map fst sw).
Proof. induction sw as [|[a b] r IH]; cbn; [constructor|]. intros (_ & H & _ & H'). constructor; auto. Qed.

Lemma untouched_by : forall A sw (es es' : list A), exchanges sw es es' -> forall a, ~ In a (map fst sw) -> ~ In a (map snd sw) -> zget es' a = zget es a.
Proof.
  intros A sw es es' H. induction H as [es|u v sw es es1 es2 Hu Hv He _ IH]; intros a; cbn [map fst snd In]; intros Na Nb; auto.
  rewrite IH by tauto. rewrite (exchanged_zget_any _ es u v es1 ltac:(lia) ltac:(lia) He).
  destruct (Z.eqb_spec a v); [subst; tauto|]. destruct (Z.eqb_spec a u); [subst; tauto|]. auto.
Qed.

Lemma settling_labels : forall n L t' sw t, exchanges sw t t' -> constant_on n L t' -> settling sw -> constant_on n L t ->
  Forall (fun p => L (fst p) = L (snd p)) sw.
Proof.
  intros n L t' sw t H HL'. induction H as [t|a b sw t t1 t2 Ha Hb He Hx IH]; cbn [settling]; intros Hs HL; constructor.
  - cbn [fst snd]. destruct Hs as (H1 & H2 & H3 & _).
    pose proof (untouched_by _ _ _ _ Hx a H2 H3) as E. rewrite (exchanged_zget_any _ t a b t1 ltac:(lia) ltac:(lia) He), Z.eqb_refl in E.
    destruct (Z.eqb_spec a b); [congruence|]. destruct (zget_some _ t b Hb) as [x Ex]. rewrite Ex in E. rewrite (HL' a x E). symmetry. apply HL. auto.
  - destruct Hs as (H1 & H2 & H3 & H4). apply IH; auto.
    assert (Hab : L a = L b).
    { pose proof (untouched_by _ _ _ _ Hx a H2 H3) as E. rewrite (exchanged_zget_any _ t a b t1 ltac:(lia) ltac:(lia) He), Z.eqb_refl in E.
      destruct (Z.eqb_spec a b); [congruence|]. destruct (zget_some _ t b Hb) as [x Ex]. rewrite Ex in E. rewrite (HL' a x E). symmetry. apply HL. auto. }
    intros j x E. rewrite (exchanged_zget_any _ t a b t1 ltac:(lia) ltac:(lia) He) in E.
    destruct (Z.eqb_spec j b) as [->|]; [rewrite <- Hab; auto|]. destruct (Z.eqb_spec j a) as [->|]; [rewrite Hab; auto|]. auto.
Qed.

(** Every label occurs at a position that was never settled. *)
Lemma unsettled_label : forall (L : Z -> Z) sw, settling sw -> Forall (fun p => L (fst p) = L (snd p)) sw ->
  forall x, exists y, L y = L x /\ ~ In y (map fst sw) /\ (y = x \/ In y (map snd sw)).
Proof.
  intros L. induction sw as [|[a b] r IH]; cbn [settling map fst snd In]; intros Hs HF x; [exists x; auto|].
  destruct Hs as (H1 & H2 & H3 & H4). inversion_clear HF as [|? ? Hab HF']. cbn [fst snd] in Hab. specialize (IH H4 HF').
  destruct (IH x) as (y & E & N & O). destruct (Z.eq_dec y a) as [->|Ne].
  - destruct (IH b) as (z & E' & N' & O'). exists z. split; [congruence|]. split.
    + intros [C|C]; [subst; destruct O'; [congruence|contradiction]|contradiction].
    + right. destruct O' as [->|O']; auto.
  - exists y. split; auto. split; [intros [C|C]; [congruence|contradiction]|]. destruct O; auto.
Qed.

Definition in_range (n : nat) (sw : list (Z * Z)) : Prop := Forall (fun p => 0 <= fst p < Z.of_nat n /\ 0 <= snd p < Z.of_nat n) sw.

Lemma exchanges_range : forall A sw (es es' : list A), exchanges sw es es' -> in_range (length es) sw.
Proof.
  induction 1 as [|a b sw es es1 es2 Ha Hb [L He] _ IH]; constructor; cbn [fst snd]; auto. rewrite <- L. auto.
Qed.

Lemma nodup_append : forall A (l m : list A), NoDup l -> NoDup m -> (forall x, In x l -> ~ In x m) -> NoDup (l ++ m).
Proof.
  induction l as [|x r IH]; intros m Hl Hm Hd; cbn; auto. inversion_clear Hl. constructor.
  - rewrite in_app_iff. intros [C|C]; [contradiction|]. apply (Hd x); [left; auto|auto].
  - apply IH; auto. intros y Hy. apply Hd. right; auto.
Qed.

(** There are at most as many labels as unsettled positions. *)
Lemma settling_distinct : forall n L sw, settling sw -> in_range n sw -> Forall (fun p => L (fst p) = L (snd p)) sw ->
  (distinct n L + length sw <= n)%nat.
Proof.
  intros n L sw Hs Hr HF. set (rest := filter (fun x => if in_dec Z.eq_dec x (map fst sw) then false else true) (identity n)).
  assert (HR : forall x, In x rest <-> 0 <= x < Z.of_nat n /\ ~ In x (map fst sw)).
  { intro x. unfold rest. rewrite filter_In, identity_in. destruct (in_dec Z.eq_dec x (map fst sw)); intuition; discriminate. }
  assert (HD : (distinct n L <= length rest)%nat).
  { unfold distinct. rewrite <- (map_length L rest). apply NoDup_incl_length; [apply NoDup_nodup|]. intros v Hv. apply nodup_In in Hv.
    apply in_map_iff in Hv as (x & <- & Hx). apply identity_in in Hx. destruct (unsettled_label L sw Hs HF x) as (y & E & N & O).
    apply in_map_iff. exists y. split; auto. apply HR. split; auto. destruct O as [->|O]; auto.
    apply in_map_iff in O as (p & <- & Hp). unfold in_range in Hr. rewrite Forall_forall in Hr. apply (Hr p Hp). }
  assert (length (rest ++ map fst sw) <= n)%nat.
  { apply nodup_bound.
    - apply nodup_append; [apply NoDup_filter, identity_nodup|apply settling_nodup; auto|]. intros x Hx. apply HR in Hx. tauto.
    - intros x Hx. apply in_app_or in Hx as [Hx|Hx]; [apply HR in Hx; tauto|]. apply in_map_iff in Hx as (p & <- & Hp).
      unfold in_range in Hr. rewrite Forall_forall in Hr. apply (Hr p Hp). }
  rewrite app_length, map_length in H. lia.
Qed.

Lemma settling_bound : forall n sw, settling sw -> in_range n sw -> (length sw <= n - 1)%nat.
Proof.
  intros n sw Hs Hr. pose proof (settling_distinct n (fun _ => 0) sw Hs Hr ltac:(apply Forall_forall; auto)).
  destruct n as [|n]; [lia|]. assert (1 <= distinct (S n) (fun _ => 0%Z))%nat; [|lia].
  unfold distinct. destruct (nodup Z.eq_dec (map (fun _ => 0) (identity (S n)))) eqn:E; [|cbn; lia].
  exfalso. assert (In 0 (nodup Z.eq_dec (map (fun _ => 0) (identity (S n))))); [|rewrite E in *; auto].
  apply nodup_In, in_map_iff. exists 0. split; auto. apply identity_in. lia.
Qed.

(** A sequence of exchanges each of which settles a position is as short as can be. *)
Theorem settling_fewest : forall A l sw (es es' : list A), NoDup es -> settling l -> exchanges l es es' -> exchanges sw es es' -> (length l <= length sw)%nat.
Proof.
  intros A l sw es es' Hn Hs Hl Hw. set (n := length es).
  destruct (exchanges_tags _ _ es _ _ Hl _ (tags_identity _ es)) as (t & X1 & T1).
  destruct (exchanges_tags _ _ es _ _ Hw _ (tags_identity _ es)) as (t' & X2 & T2).
  assert (t' = t) as -> by (eapply tags_unique; eauto; apply Permutation_sym; eapply exchanges_permutation; eauto).
  fold n in X1, X2. destruct (identity_labels n) as [C0 D0].
  destruct (exchanges_labels n _ _ _ X2 _ C0) as (L & C & D). rewrite D0 in D.
  (* at the start, every position carries its own tag *)
  assert (CI : constant_on n L (identity n)).
  { intros j x E. pose proof (zget_lt _ _ _ _ E) as R. rewrite identity_length in R. rewrite identity_zget in E by auto. congruence. }
  pose proof (settling_labels n L t l _ X1 C Hs CI) as HF.
  pose proof (settling_distinct n L l Hs ltac:(rewrite <- (identity_length n); eapply exchanges_range; eauto) HF). lia.
Qed.

(** The same if the second position of each pair is settled. *)
Definition flip (p : Z * Z) : Z * Z := (snd p, fst p).

Lemma exchanged_flip : forall A (es es' : list A) a b, exchanged es a b es' -> exchanged es b a es'.
Proof. intros A es es' a b (H1 & H2 & H3 & H4). split; auto. Qed.

Lemma exchanges_flip : forall A sw (es es' : list A), exchanges sw es es' -> exchanges (map flip sw) es es'.
Proof. induction 1; cbn [map flip fst snd]; econstructor; eauto. apply exchanged_flip. auto. Qed.

(** ** The recorded calls *)

Section Trace.
  Context {St A : Type}.
  Variables (inv : St -> Prop) (elems : St -> list A) (damage : list A -> Z -> Z -> list A -> Prop).
  Variable swap : St -> Z -> Z -> St * outcome unit.
  Variable n : nat.
  Let N := Z.of_nat n.
  Hypothesis Hswap : swap_operation inv elems damage N swap.

  (** Running the record on the positions themselves. *)
  Fixpoint replay (sw : list (Z * Z)) (t : list Z) : list Z :=
    match sw with
    | [] => t
    | (a, b) :: r => replay r (match swap_at t a b with Ok t' => t' | _ => t end)
    end.

  Lemma replay_exchanges : forall sw t, in_range (length t) sw -> exchanges sw t (replay sw t).
  Proof.
    induction sw as [|[a b] r IH]; intros t H; cbn [replay]; [constructor|]. inversion_clear H as [|? ? [Ha Hb] H']. cbn [fst snd] in *.
    destruct (swap_ok _ t a b Ha Hb) as (t1 & E & L & _ & G). rewrite E. apply one_exchange with t1; auto; [apply zget_exchanged; auto; lia|].
    apply IH. rewrite L. auto.
  Qed.

  Lemma replay_snoc : forall sw t a b, replay (sw ++ [(a, b)]) t = match swap_at (replay sw t) a b with Ok t' => t' | _ => replay sw t end.
  Proof. induction sw as [|[u v] r IH]; intros t a b; cbn [app replay]; auto. Qed.

  Definition traced (s : St * list (Z * Z)) : Prop := inv (fst s) /\ length (elems (fst s)) = n /\ in_range n (snd s).
  Definition tags (s : St * list (Z * Z)) : list Z := replay (snd s) (identity n).

  Lemma tags_length : forall s, in_range n (snd s) -> length (tags s) = n.
  Proof.
    intros s H. unfold tags. rewrite (exchanges_length _ (snd s) (identity n)); [apply identity_length|]. apply replay_exchanges. rewrite identity_length. auto.
  Qed.

  Lemma recorded_operation : (forall es a b es', damage es a b es' -> length es' = length es) ->
    swap_operation traced tags (fun _ _ _ _ => True) N (recorded swap).
  Proof.
    intros Hd [st l] (H1 & H2 & H3) _ a b Ha Hb Hab. cbn [fst snd] in *. unfold recorded. cbn [fst snd].
    pose proof (Hswap st H1 ltac:(unfold N; congruence) a b Ha Hb Hab) as Hs. destruct (swap st a b) as [st' o]. destruct Hs as [I Hs].
    assert (R : in_range n (l ++ [(a, b)])) by (apply Forall_app; split; auto).
    split.
    - split; auto. split; auto. cbn [fst]. destruct Hs as [[_ [L _]]|(e & _ & D)]; [congruence|]. rewrite (Hd _ _ _ _ D). auto.
    - destruct Hs as [[-> _]|(e & -> & _)]; [left|right; eauto]. split; auto. unfold tags. cbn [snd]. rewrite replay_snoc.
      assert (L : length (replay l (identity n)) = n) by (apply (tags_length (st, l)); auto).
      destruct (swap_ok _ (replay l (identity n)) a b) as (t1 & E & L1 & _ & G); [rewrite L; auto..|]. rewrite E. apply zget_exchanged; auto; lia.
  Qed.

  Lemma recorded_call : forall s a b, snd (fst (recorded swap s a b)) = snd s ++ [(a, b)].
  Proof. intros s a b. unfold recorded. destruct (swap (fst s) a b). reflexivity. Qed.

  (** Neither position of a pair is one of those that are in place from the beginning. *)
  Definition moves (p0 : list Z) (sw : list (Z * Z)) : Prop :=
    Forall (fun p => zget p0 (fst p) <> Some (fst p) /\ zget p0 (snd p) <> Some (snd p)) sw.

  Hypothesis Hdamage : forall es a b es', damage es a b es' -> length es' = length es.

  (** *** apply_permutation() *)

  Section ApplyTrace.
    Variable p0 : list Z.
    Hypothesis Hperm : is_permutation n p0.
    Notation P := (P p0).
    Notation good := (good (identity n) p0).

    Let Hlen : length p0 = length (identity n).
    Proof. rewrite identity_length. apply is_permutation_nodup in Hperm. tauto. Qed.

    Let Hperm' : is_permutation (length (identity n)) p0.
    Proof. rewrite identity_length. auto. Qed.

    Definition efficient (sw : list (Z * Z)) : Prop := settling sw /\ in_range n sw /\ moves p0 sw.

    Lemma efficient_snoc : forall sw a b, efficient sw -> 0 <= a < N -> 0 <= b < N -> a <> b -> ~ In a (map fst sw) -> ~ In b (map fst sw) ->
      zget p0 a <> Some a -> zget p0 b <> Some b -> efficient (sw ++ [(a, b)]).
    Proof.
      intros sw a b (E1 & E2 & E3) Ha Hb Hab Na Nb Ma Mb. split; [apply settling_snoc; auto|]. split; apply Forall_app; split; auto.
    Qed.

    Lemma inner_trace : forall i D fuel V cur s idx, traced s -> good i D V cur (mk_ps (tags s) idx []) -> efficient (snd s) ->
      incl (map fst (snd s)) (D ++ V) ->
      let '((s', idx'), o) := it_apply_inner (recorded swap) fuel i N cur (s, idx) in
      efficient (snd s') /\
      match o with
      | Ok c => traced s' /\ P c = i /\ exists V', good i D V' c (mk_ps (tags s') idx' []) /\ incl (map fst (snd s')) (D ++ V')
      | _ => True
      end.
    Proof.
      intros i D. induction fuel as [|fuel IH]; intros V cur s idx Ht H He Hin;
        destruct (good_cur_fresh _ _ _ _ _ _ _ H) as [Hf Hr]; pose proof (g_base _ _ _ _ _ _ _ H) as [B1 B2 _ _];
        destruct (g_rest _ _ _ _ _ _ _ H cur Hr Hf) as [Hic _]; cbn [ps_idx ps_elems] in *; pose proof (P_ok (identity n) p0 Hlen cur Hr) as HP; rewrite HP in Hic;
        cbn [it_apply_inner]; unfold seq_ at 1; unfold idx_get; cbn [fst snd]; rewrite aget_zget, Hic.
      - destruct (Z.eqb_spec i (P cur)); cbn [ret fail]; auto. split; auto. split; auto. split; eauto.
      - destruct (Z.eqb_spec i (P cur)) as [E|Hne]; cbn [ret]; [split; auto; split; auto; split; eauto|].
        destruct ((P cur <? 0) || (P cur >=? N) || (P cur =? cur)) eqn:Eb.
        + unfold seq_, idx_do, fail. cbn [fst snd]. destruct (aset_cases _ idx i (P cur)) as [[idx1 [Ea _]]|Ea]; rewrite !Ea; cbn [bind]; auto.
        + rewrite !orb_false_iff in Eb. rewrite Z.ltb_ge, Z.geb_leb, Z.leb_gt, Z.eqb_neq in Eb. destruct Eb as [[Eb1 Eb2] Eb3].
          pose proof (next_fresh _ _ Hlen _ _ _ _ _ H Hperm' Hne) as Hfn.
          rewrite identity_length in Hr, B1, B2. fold N in Hr.
          unfold seq_ at 1. unfold elem_swap. cbn [fst snd].
          pose proof (recorded_operation Hdamage s Ht ltac:(unfold N; rewrite B1; reflexivity) cur (P cur) Hr ltac:(lia) ltac:(lia)) as Hs.
          pose proof (recorded_call s cur (P cur)) as Ec.
          destruct (recorded swap s cur (P cur)) as [s1 o1]. cbn [fst] in Ec.
          assert (He1 : efficient (snd s1)).
          { rewrite Ec. apply efficient_snoc; auto; try lia.
            - intro C. apply Hfn. apply Hin in C. rewrite !in_app_iff in *. tauto.
            - rewrite HP. congruence.
            - intro C. apply Eb3. destruct (is_permutation_nodup _ _ Hperm) as (Hnd & _). eapply NoDup_zget; eauto. }
          destruct Hs as [Hi1 [[-> Hex]|[e [-> Hd]]]]; [|split; auto].
          unfold seq_ at 1. unfold idx_do. cbn [fst snd].
          destruct (aset_cases _ idx cur cur) as [[idx1 [Ea Hu]]|Ea]; rewrite !Ea; cbn [bind]; [|split; auto].
          apply IH with (V := V ++ [cur]); auto.
          * eapply (good_step (identity n) p0 Hlen Hperm'); eauto; rewrite ?identity_length; auto; lia.
          * rewrite Ec, map_app. cbn [map fst]. intros x Hx. rewrite !in_app_iff in *. destruct Hx as [Hx|Hx]; auto. apply Hin, in_app_iff in Hx. tauto.
    Qed.

    Lemma outer_trace : forall fuel count i D s idx, 0 <= i -> i + Z.of_nat count = N -> traced s -> outer_inv (identity n) p0 i D (mk_ps (tags s) idx []) ->
      efficient (snd s) -> incl (map fst (snd s)) D ->
      efficient (snd (fst (fst (it_apply_outer (recorded swap) fuel count i N (s, idx))))).
    Proof.
      intros fuel. induction count as [|count IH]; intros i D s idx Hi Hc Hv H He Hin; cbn [it_apply_outer ret]; [auto|].
      unfold seq_ at 1. assert (Hir : 0 <= i < N) by lia. pose proof (o_base _ _ _ _ _ H) as [B1 B2 B3 B4]. cbn [ps_elems ps_idx ps_log] in *.
      rewrite identity_length in B1, B2.
      destruct (in_dec Z.eq_dec i D) as [Hind|Hout].
      - destruct (o_done _ _ _ _ _ H i Hind) as [Hix _]. cbn [ps_idx] in Hix.
        assert (E0 : it_apply_inner (recorded swap) fuel i N i (s, idx) = ((s, idx), Ok i)).
        { destruct fuel; cbn [it_apply_inner]; unfold seq_ at 1; unfold idx_get; cbn [fst snd]; rewrite aget_zget, Hix, Z.eqb_refl; reflexivity. }
        rewrite E0. unfold seq_ at 1. unfold idx_do. cbn [fst snd]. destruct (aset_ok _ idx i i) as [idx1 [E1 [L1 G1]]]; [unfold N in *; lia|]. rewrite E1. cbn [bind].
        apply (IH (i + 1) D); auto; try lia.
        destruct H. constructor; cbn [ps_elems ps_idx ps_log] in *; auto.
        + split; cbn; auto; rewrite identity_length; congruence.
        + intros j Hj. destruct (Z.eq_dec j i) as [->|]; auto. apply o_before. lia.
        + intros j Hj. rewrite G1. destruct (Z.eqb_spec j i) as [->|]; auto. split; auto. apply o_done; auto.
        + intros j Hj Hn. rewrite G1. destruct (Z.eqb_spec j i) as [->|]; auto. contradiction.
      - assert (Hg : good i D [] i (mk_ps (tags s) idx [])).
        { destruct H. constructor; cbn [app map]; rewrite ?app_nil_r; auto.
          - apply (Permutation_NoDup (l := i :: D)); [apply Permutation_cons_append|]. constructor; auto.
          - intros x Hx. rewrite identity_length. apply in_app_or in Hx as [Hx|[<-|[]]]; auto. apply o_range in Hx. rewrite identity_length in Hx. auto.
          - intros j Hj Hnj. destruct (Z.eqb_spec j i) as [->|]; auto. }
        pose proof (inner_trace i D fuel [] i s idx Hv Hg He ltac:(rewrite app_nil_r; auto)) as G.
        destruct (it_apply_inner (recorded swap) fuel i N i (s, idx)) as [[s1 idx1] o]. destruct G as [He1 G]. destruct o as [c| |e'| | |]; auto.
        destruct G as (Hv1 & HP & V & Hg1 & Hin1). clear Hg. rename Hg1 into Hg. destruct (good_cur_fresh _ _ _ _ _ _ _ Hg) as [Hf Hr].
        pose proof (g_base _ _ _ _ _ _ _ Hg) as [C1 C2 C3 C4]. cbn [ps_elems ps_idx ps_log] in *. rewrite identity_length in C1, C2, Hr.
        unfold seq_ at 1. unfold idx_do. cbn [fst snd]. destruct (aset_ok _ idx1 c c) as [idx2 [E1 [L1 G1]]]; [unfold N in *; lia|]. rewrite E1. cbn [bind].
        assert (Hii : In i (V ++ [c])) by (rewrite (g_chain _ _ _ _ _ _ _ Hg); left; auto).
        apply (IH (i + 1) (D ++ V ++ [c])); auto; try lia.
        2: { intros x Hx. apply Hin1 in Hx. rewrite !in_app_iff in *. tauto. }
        constructor; cbn [ps_elems ps_idx ps_log].
        * split; cbn; auto; rewrite identity_length; congruence.
        * apply (g_nodup _ _ _ _ _ _ _ Hg).
        * apply (g_range _ _ _ _ _ _ _ Hg).
        * rewrite map_app. apply Permutation_app; [apply (g_cycles _ _ _ _ _ _ _ Hg)|].
          rewrite map_app. cbn [map]. rewrite HP, (g_chain _ _ _ _ _ _ _ Hg). apply Permutation_sym, Permutation_cons_append.
        * intros j Hj. apply in_or_app. destruct (Z.eq_dec j i) as [->|]; auto. left. apply (o_before _ _ _ _ _ H). lia.
        * intros j Hj. rewrite app_assoc in Hj. rewrite G1. apply in_app_or in Hj as [Hj|[<-|[]]].
          -- destruct (Z.eqb_spec j c) as [->|]; [contradiction|]. apply (g_done _ _ _ _ _ _ _ Hg); auto.
          -- rewrite Z.eqb_refl. split; auto. rewrite HP. destruct (g_rest _ _ _ _ _ _ _ Hg c ltac:(rewrite identity_length; auto) Hf) as [_ R]. rewrite Z.eqb_refl in R. auto.
        * intros j Hj Hn. assert (j <> c) by (intro; subst; apply Hn; rewrite !in_app_iff; cbn; auto).
          assert (Hn' : ~ In j (D ++ V)) by (intro C; apply Hn; rewrite !in_app_iff in *; tauto).
          destruct (g_rest _ _ _ _ _ _ _ Hg j Hj Hn') as [R1 R2]. rewrite G1. destruct (Z.eqb_spec j c); [lia|]. auto.
    Qed.
  End ApplyTrace.

  (** *** apply_reverse_permutation() *)

  Section ReverseTrace.
    Variable p0 : list Z.
    Hypothesis Hlen : length p0 = n.

    (** Settled positions, and those in place from the beginning, hold their own index. *)
    Definition in_place (sw : list (Z * Z)) (idx : list Z) : Prop :=
      length idx = n /\ (forall x, In x (map snd sw) -> zget idx x = Some x) /\ (forall x, zget p0 x = Some x -> zget idx x = Some x).

    Lemma reverse_inner_trace : forall i, 0 <= i < N -> forall fuel s idx, in_place (snd s) idx -> efficient p0 (map flip (snd s)) ->
      let '((s', idx'), o) := it_reverse_inner (recorded swap) fuel i N (s, idx) in
      efficient p0 (map flip (snd s')) /\ match o with Ok _ => in_place (snd s') idx' | _ => True end.
    Proof.
      intros i Hi fuel. induction fuel as [|fuel IH]; intros s idx Hp He;
        cbn [it_reverse_inner]; unfold seq_ at 1; unfold idx_get at 1; cbn [fst snd];
        rewrite aget_zget; destruct (zget idx i) as [x|] eqn:Ex; auto; destruct (Z.eqb_spec i x) as [|Hix]; cbn [ret fail]; auto.
      destruct (negb ((x >=? 0) && (x <? N))) eqn:Er; [cbn [fail]; auto|].
      apply negb_false_iff in Er. rewrite andb_true_iff, Z.geb_leb, Z.leb_le, Z.ltb_lt in Er.
      unfold seq_ at 1. unfold idx_get at 1. cbn [fst snd]. rewrite aget_zget.
      destruct (zget idx x) as [y|] eqn:Ey; auto.
      destruct (Z.eqb_spec x y) as [->|Hxy]; [cbn [fail]; auto|].
      unfold seq_ at 1. unfold elem_swap. cbn [fst snd]. pose proof (recorded_call s i x) as Ec.
      destruct (recorded swap s i x) as [s1 o1]. cbn [fst] in Ec.
      destruct Hp as (L & P1 & P2).
      assert (Hfst : map fst (map flip (snd s)) = map snd (snd s)) by (rewrite map_map; apply map_ext; auto).
      assert (He1 : efficient p0 (map flip (snd s1))).
      { rewrite Ec, map_app. change (map flip [(i, x)]) with [(x, i)]. apply efficient_snoc; auto.
        - rewrite Hfst. intro C. apply P1 in C. congruence.
        - rewrite Hfst. intro C. apply P1 in C. congruence.
        - intro C. apply P2 in C. congruence.
        - intro C. apply P2 in C. congruence. }
      destruct o1; auto. destruct (swap_ok _ idx i x) as [idx1 [E1 [L1 [_ G1]]]]; [unfold N in *; lia..|].
      unfold seq_. unfold idx_do. cbn [fst snd]. rewrite E1. cbn [bind].
      apply IH; auto. split; [congruence|]. rewrite Ec, map_app. cbn [map snd]. split.
      - intros z Hz. rewrite G1. destruct (Z.eqb_spec z x) as [->|]; auto.
        apply in_app_or in Hz as [Hz|[Hz|[]]]; [|congruence]. destruct (Z.eqb_spec z i) as [->|]; auto. apply P1 in Hz. congruence.
      - intros z Hz. apply P2 in Hz. rewrite G1. destruct (Z.eqb_spec z x) as [->|]; auto. destruct (Z.eqb_spec z i) as [->|]; [congruence|auto].
    Qed.

    Lemma reverse_outer_trace : forall fuel count i s idx, 0 <= i -> i + Z.of_nat count <= N -> in_place (snd s) idx -> efficient p0 (map flip (snd s)) ->
      efficient p0 (map flip (snd (fst (fst (it_reverse_outer (recorded swap) fuel count i N (s, idx)))))).
    Proof.
      intros fuel. induction count as [|count IH]; intros i s idx Hi Hc Hp He; cbn [it_reverse_outer ret]; [auto|].
      unfold seq_. pose proof (reverse_inner_trace i ltac:(lia) fuel s idx Hp He) as T.
      destruct (it_reverse_inner (recorded swap) fuel i N (s, idx)) as [[s1 idx1] o]. destruct T as [T1 T2]. destruct o; auto. apply IH; auto; lia.
    Qed.
  End ReverseTrace.

  (** *** apply_permutation() with any indices *)

  Definition each_once (sw : list (Z * Z)) (idx : list Z) : Prop :=
    length idx = n /\ NoDup (map fst sw) /\ forall x, In x (map fst sw) -> zget idx x = Some x.

  Definition short (sw : list (Z * Z)) : Prop := NoDup (map fst sw) /\ forall x, In x (map fst sw) -> 0 <= x < N.

  Lemma short_length : forall sw, short sw -> (length sw <= n)%nat.
  Proof. intros sw [H1 H2]. rewrite <- (map_length fst). apply nodup_bound; auto. Qed.

  Lemma each_once_short : forall sw idx, each_once sw idx -> short sw.
  Proof. intros sw idx (L & H1 & H2). split; auto. intros x Hx. apply H2, zget_lt in Hx. unfold N. lia. Qed.

  Lemma inner_short : forall i, 0 <= i < N -> forall fuel cur s idx, each_once (snd s) idx ->
    let '((s', idx'), o) := it_apply_inner (recorded swap) fuel i N cur (s, idx) in
    short (snd s') /\ match o with Ok c => each_once (snd s') idx' | _ => True end.
  Proof.
    intros i Hi. induction fuel as [|fuel IH]; intros cur s idx Ho; pose proof (each_once_short _ _ Ho) as Hsh;
      cbn [it_apply_inner]; unfold seq_ at 1; unfold idx_get; cbn [fst snd]; rewrite aget_zget;
      destruct (zget idx cur) as [x|] eqn:Ex; auto; destruct (Z.eqb_spec i x) as [|Hix]; cbn [ret fail]; auto.
    destruct ((x <? 0) || (x >=? N) || (x =? cur)) eqn:Eb.
    - unfold seq_, idx_do, fail. cbn [fst snd]. destruct (aset_cases _ idx i x) as [[idx1 [Ea _]]|Ea]; rewrite !Ea; cbn [bind]; auto.
    - rewrite !orb_false_iff in Eb. rewrite Z.ltb_ge, Z.geb_leb, Z.leb_gt, Z.eqb_neq in Eb. destruct Eb as [[Eb1 Eb2] Eb3].
      unfold seq_ at 1. unfold elem_swap. cbn [fst snd]. pose proof (recorded_call s cur x) as Ec.
      destruct (recorded swap s cur x) as [s1 o1]. cbn [fst] in Ec. destruct Ho as (L & N1 & F1).
      pose proof (zget_lt _ _ _ _ Ex) as Hcr. destruct (aset_ok _ idx cur cur) as [idx1 [Ea [La Ga]]]; auto.
      assert (Ho1 : each_once (snd s1) idx1).
      { split; [congruence|]. rewrite Ec, map_app. cbn [map fst]. split.
        - apply nodup_append; auto; [repeat constructor; auto|]. intros z Hz [<-|[]]. apply F1 in Hz. congruence.
        - intros z Hz. rewrite Ga. destruct (Z.eqb_spec z cur) as [->|]; auto. apply in_app_or in Hz as [Hz|[Hz|[]]]; [auto|congruence]. }
      pose proof (each_once_short _ _ Ho1). destruct o1; auto. unfold seq_ at 1. unfold idx_do. cbn [fst snd]. rewrite Ea. cbn [bind]. apply IH. auto.
  Qed.

  Lemma outer_short : forall fuel count i s idx, 0 <= i -> i + Z.of_nat count <= N -> each_once (snd s) idx ->
    short (snd (fst (fst (it_apply_outer (recorded swap) fuel count i N (s, idx))))).
  Proof.
    intros fuel. induction count as [|count IH]; intros i s idx Hi Hc Ho; cbn [it_apply_outer ret fst]; [eapply each_once_short; eauto|].
    unfold seq_ at 1. pose proof (inner_short i ltac:(lia) fuel i s idx Ho) as T.
    destruct (it_apply_inner (recorded swap) fuel i N i (s, idx)) as [[s1 idx1] o]. destruct T as [T1 T2]. destruct o as [c| | | | |]; auto.
    unfold seq_ at 1. unfold idx_do. cbn [fst snd].
    destruct (Z_lt_le_dec c 0) as [Hc0|Hc0]; [unfold aset; destruct (Z.ltb_spec c 0); [|lia]; auto|].
    destruct (Z_lt_le_dec c (Z.of_nat (length idx1))) as [Hc1|Hc1].
    - destruct (aset_ok _ idx1 c c ltac:(lia)) as [idx2 [Ea [La Ga]]]. rewrite Ea. cbn [bind]. apply IH; try lia.
      destruct T2 as (L & N1 & F1). split; [congruence|]. split; auto. intros z Hz. rewrite Ga. destruct (Z.eqb_spec z c) as [->|]; auto.
    - destruct (aset_cases _ idx1 c c) as [[idx2 [Ea La]]|Ea]; rewrite Ea; auto.
      unfold aset, arr_set in Ea. destruct (Z.ltb_spec c 0); [discriminate|]. destruct (Nat.ltb_spec (Z.to_nat c) (length idx1)); [lia|discriminate].
  Qed.
End Trace.

(** ** Whole calls *)

(** Recording does not change what happens. *)
Section Same.
  Context {St : Type}.
  Variable swap : St -> Z -> Z -> St * outcome unit.

  Definition unrecorded {R} (x : ((St * list (Z * Z)) * list Z) * outcome R) : (St * list Z) * outcome R :=
    let '((s, idx), o) := x in ((fst s, idx), o).

  Lemma apply_inner_same : forall i N fuel cur s idx,
    unrecorded (it_apply_inner (recorded swap) fuel i N cur (s, idx)) = it_apply_inner swap fuel i N cur (fst s, idx).
  Proof.
    intros i N. induction fuel as [|fuel IH]; intros cur s idx; cbn [it_apply_inner]; unfold seq_, idx_get; cbn [fst snd];
      destruct (aget idx cur) as [x| | | | |]; auto; destruct (i =? x); auto.
    destruct ((x <? 0) || (x >=? N) || (x =? cur)).
    - unfold idx_do, fail. cbn [fst snd]. destruct (aset idx i x); auto.
    - unfold elem_swap, recorded. cbn [fst snd]. destruct (swap (fst s) cur x) as [st1 o1]. destruct o1; auto.
      unfold idx_do. cbn [fst snd]. destruct (aset idx cur cur); auto. cbn [bind]. apply (IH x (st1, snd s ++ [(cur, x)])).
  Qed.

  Lemma apply_outer_same : forall N fuel count i s idx,
    unrecorded (it_apply_outer (recorded swap) fuel count i N (s, idx)) = it_apply_outer swap fuel count i N (fst s, idx).
  Proof.
    intros N fuel. induction count as [|count IH]; intros i s idx; cbn [it_apply_outer]; auto. unfold seq_.
    rewrite <- apply_inner_same. destruct (it_apply_inner (recorded swap) fuel i N i (s, idx)) as [[s1 idx1] o]. cbn [unrecorded]. destruct o as [c| | | | |]; auto.
    unfold idx_do. cbn [fst snd]. destruct (aset idx1 c c); cbn [bind]; auto.
  Qed.

  Lemma reverse_inner_same : forall i N fuel s idx,
    unrecorded (it_reverse_inner (recorded swap) fuel i N (s, idx)) = it_reverse_inner swap fuel i N (fst s, idx).
  Proof.
    intros i N. induction fuel as [|fuel IH]; intros s idx; cbn [it_reverse_inner]; unfold seq_, idx_get; cbn [fst snd];
      destruct (aget idx i) as [x| | | | |]; auto; destruct (i =? x); auto.
    destruct (negb ((x >=? 0) && (x <? N))); auto. cbn [fst snd]. destruct (aget idx x) as [y| | | | |]; auto. destruct (x =? y); auto.
    unfold elem_swap, recorded. cbn [fst snd]. destruct (swap (fst s) i x) as [st1 o1]. destruct o1; auto.
    unfold idx_do. cbn [fst snd]. destruct (swap_at idx i x); auto. cbn [bind]. apply (IH (st1, snd s ++ [(i, x)])).
  Qed.

  Lemma reverse_outer_same : forall N fuel count i s idx,
    unrecorded (it_reverse_outer (recorded swap) fuel count i N (s, idx)) = it_reverse_outer swap fuel count i N (fst s, idx).
  Proof.
    intros N fuel. induction count as [|count IH]; intros i s idx; cbn [it_reverse_outer]; auto. unfold seq_.
    rewrite <- reverse_inner_same. destruct (it_reverse_inner (recorded swap) fuel i N (s, idx)) as [[s1 idx1] o]. cbn [unrecorded]. destruct o as [c| | | | |]; auto.
  Qed.
End Same.

(** The recorded exchanges of positions, applied to any elements. *)
Lemma tags_exchanges : forall A sw (t t' : list Z), exchanges sw t t' -> forall (es0 es : list A), at_tags es0 t es ->
  exists es', exchanges sw es es' /\ at_tags es0 t' es'.
Proof.
  intros A sw t t' H. induction H as [t|a b sw t t1 t2 Ha Hb He _ IH]; intros es0 es [Lt Gt]; [exists es; split; [constructor|split; auto]|].
  destruct (exchanged_exists _ es a b) as [es1 H1]; [rewrite Lt; auto..|].
  destruct (IH es0 es1) as (es2 & X & Y).
  - split; [destruct He, H1; congruence|]. intro k.
    rewrite (exchanged_zget_any _ t a b t1 ltac:(lia) ltac:(lia) He), (exchanged_zget_any _ es a b es1 ltac:(lia) ltac:(lia) H1).
    destruct (k =? b); auto. destruct (k =? a); auto.
  - exists es2. split; auto. apply one_exchange with es1; auto; rewrite Lt; auto.
Qed.

Lemma gathered_tags : forall A n idx (es es' : list A), is_permutation n idx -> length es = n -> gathered es idx es' -> at_tags es idx es'.
Proof.
  intros A n idx es es' Hp Hl [L G]. destruct (is_permutation_nodup _ _ Hp) as (_ & L0 & I). split; [congruence|]. intro k.
  destruct (zget idx k) as [x|] eqn:E.
  - pose proof (zget_lt _ _ _ _ E). assert (0 <= x < Z.of_nat n) by (apply I; eapply zget_in; eauto).
    rewrite <- (Z2Nat.id k), zget_nat in E by lia. rewrite <- (Z2Nat.id x) in E by lia.
    apply G in E. rewrite <- (Z2Nat.id k), <- (Z2Nat.id x), !zget_nat by lia. auto.
  - destruct (zget es' k) as [y|] eqn:E'; auto. apply zget_lt in E'. destruct (zget_some _ idx k ltac:(lia)) as [z Ez]. congruence.
Qed.

Lemma at_tags_eq : forall A (es : list A) t e1 e2, at_tags es t e1 -> at_tags es t e2 -> e1 = e2.
Proof. intros A es t e1 e2 [L1 G1] [L2 G2]. apply zget_ext; [congruence|]. intros z _. rewrite G1, G2. auto. Qed.

(** Where the positions themselves end up tells where any elements end up. *)
Lemma fewest : forall A n l t (es es' : list A), NoDup es -> length es = n -> exchanges l (identity n) t -> at_tags es t es' ->
  settling l \/ settling (map flip l) -> fewest_exchanges (length l) es es'.
Proof.
  intros A n l t es es' Hn Hl Hx Ht Hs. subst n.
  destruct (tags_exchanges A _ _ _ Hx es es (tags_identity _ es)) as (e & X & T). rewrite (at_tags_eq _ _ _ _ _ T Ht) in X.
  split; [exists l; auto|]. intros sw Hw. destruct Hs as [Hs|Hs]; [eapply settling_fewest; eauto|].
  rewrite <- (map_length flip l). eapply settling_fewest; eauto. apply exchanges_flip. auto.
Qed.

Lemma scattered_tags : forall A n idx t (es es' : list A), is_permutation n idx -> length es = n -> scattered (identity n) idx t -> scattered es idx es' -> at_tags es t es'.
Proof.
  intros A n idx t es es' Hp Hl [L0 G0] [L G]. rewrite identity_length in L0. split; [congruence|]. intro k.
  destruct (is_permutation_nodup _ _ Hp) as (_ & Li & I).
  destruct (Z_lt_le_dec k 0) as [Hk|Hk]; [unfold zget; destruct (Z.ltb_spec k 0); [auto|lia]|].
  destruct (Z_lt_le_dec k (Z.of_nat n)) as [Hk'|Hk'].
  - assert (Hin : In k idx) by (apply I; auto). apply in_zget in Hin as [z Hz]. pose proof (zget_lt _ _ _ _ Hz) as Hzr.
    rewrite <- (Z2Nat.id z) in Hz by lia. rewrite zget_nat in Hz. rewrite <- (Z2Nat.id k) in Hz by lia.
    pose proof (G0 _ _ Hz) as E0. pose proof (G _ _ Hz) as E1. rewrite <- !zget_nat, !Z2Nat.id in E0, E1 by lia.
    rewrite identity_zget in E0 by lia. rewrite E0, E1. auto.
  - assert (E1 : zget es' k = None) by (destruct (zget es' k) eqn:E; auto; apply zget_lt in E; lia).
    assert (E2 : zget t k = None) by (destruct (zget t k) eqn:E; auto; apply zget_lt in E; lia). rewrite E1, E2. auto.
Qed.

Section Calls.
  Context {St A : Type}.
  Variables (inv : St -> Prop) (elems : St -> list A).
  Variable swap : St -> Z -> Z -> St * outcome unit.
  Variables (diff : ity) (n : nat).
  Let N := Z.of_nat n.
  Hypothesis Hswap : swap_operation inv elems two_damaged N swap.
  Hypothesis Hbits : 1 <= ity_bits diff.
  Hypothesis Hdiff : in_ity diff N = true.

  Let Hd : forall (es : list A) a b es', two_damaged es a b es' -> length es' = length es.
  Proof. intros es a b es' [H _]. exact H. Qed.

  Lemma traced_start : forall st, inv st -> length (elems st) = n -> traced inv elems n (st, []) /\ tags n (st, []) = identity n.
  Proof. intros st Hi Hl. split; [|reflexivity]. split; auto. split; auto. constructor. Qed.

  Lemma apply_counts : forall st idx, inv st -> length (elems st) = n -> is_permutation n idx ->
    exists st' l idx' o, it_apply_permutation (recorded swap) diff N ((st, []), idx) = (((st', l), idx'), o) /\
      efficient n idx l /\ (o = Ok tt -> exchanges l (identity n) idx) /\ (o = Ok tt \/ exists e, o = Throw e).
  Proof.
    intros st idx Hi Hl Hp. pose proof (traced_start st Hi Hl) as [T0 T1].
    destruct (is_permutation_nodup _ _ Hp) as (_ & Lp & _).
    pose proof (apply_any (traced inv elems n) (tags n) (fun _ _ _ _ => True) (recorded swap) diff n
      (recorded_operation inv elems two_damaged swap n Hswap Hd) Hbits Hdiff (st, []) idx T0 ltac:(rewrite T1; apply identity_length) Lp) as Q.
    unfold it_apply_permutation in *. rewrite cast_id in * by auto. fold N in Q.
    pose proof (outer_trace inv elems two_damaged swap n Hswap Hd idx Hp (S (Z.to_nat N)) (Z.to_nat N) 0 [] (st, []) idx ltac:(lia) ltac:(unfold N; lia) T0) as T.
    fold N in T. destruct (it_apply_outer (recorded swap) (S (Z.to_nat N)) (Z.to_nat N) 0 N (st, [], idx)) as [[[st' l] idx'] o]. cbn [fst snd] in T.
    exists st', l, idx', o. split; auto. destruct Q as (Q1 & Q2 & Q3). split; [|split].
    - apply T.
      + rewrite T1. constructor; cbn; auto; try tauto; [split; cbn; auto; rewrite identity_length; auto|constructor|intros; lia].
      + repeat split; constructor.
      + intros x [].
    - intros ->. destruct Q3 as (_ & G & _). rewrite T1 in G. unfold tags in G. cbn [snd] in G.
      assert (E : replay l (identity n) = idx).
      { assert (Lr : length (replay l (identity n)) = n) by (apply (tags_length n (st', l)); apply Q1).
        destruct (gathered_tags _ n idx _ _ Hp (identity_length n) G) as [L G']. apply zget_ext; auto. intros z Hz. rewrite G'.
        destruct (zget_some _ idx z ltac:(lia)) as [x Ex]. rewrite Ex. apply identity_zget. destruct (is_permutation_nodup _ _ Hp) as (_ & _ & I). apply I. eapply zget_in; eauto. }
      rewrite <- E. apply (replay_exchanges n). rewrite identity_length. apply Q1.
    - destruct o as [[]| |e| | |]; try contradiction; eauto. tauto.
  Qed.

  Lemma reverse_counts : forall st idx, inv st -> length (elems st) = n -> length idx = n ->
    exists st' l idx' o, it_apply_reverse_permutation (recorded swap) diff N ((st, []), idx) = (((st', l), idx'), o) /\
      efficient n idx (map flip l) /\
      (o = Ok tt -> is_permutation n idx /\ exists t, exchanges l (identity n) t /\ scattered (identity n) idx t) /\
      (o = Ok tt \/ (o = Contract /\ ~ is_permutation n idx) \/ exists e, o = Throw e).
  Proof.
    intros st idx Hi Hl Lp. pose proof (traced_start st Hi Hl) as [T0 T1].
    pose proof (reverse_any (traced inv elems n) (tags n) (fun _ _ _ _ => True) (recorded swap) diff n
      (recorded_operation inv elems two_damaged swap n Hswap Hd) Hbits Hdiff (st, []) idx T0 ltac:(rewrite T1; apply identity_length) Lp) as Q.
    unfold it_apply_reverse_permutation in *. rewrite cast_id in * by auto. fold N in Q.
    pose proof (reverse_outer_trace swap n idx Lp (S (Z.to_nat N)) (Z.to_nat N) 0 (st, []) idx ltac:(lia) ltac:(unfold N; lia)) as T.
    fold N in T. destruct (it_reverse_outer (recorded swap) (S (Z.to_nat N)) (Z.to_nat N) 0 N (st, [], idx)) as [[[st' l] idx'] o]. cbn [fst snd] in T.
    exists st', l, idx', o. split; auto. destruct Q as (Q1 & Q2). split; [|split].
    - apply T; [split; auto; split; auto; intros x []|repeat split; constructor].
    - intros ->. destruct Q2 as (Q2 & G & _). split; auto. exists (replay l (identity n)). rewrite T1 in G. split; auto.
      apply (replay_exchanges n). rewrite identity_length. apply Q1.
    - destruct o as [[]| |e| | |]; try contradiction; eauto. right; left. tauto.
  Qed.

  Lemma apply_any_counts : forall st idx, length idx = n ->
    (length (snd (fst (fst (it_apply_permutation (recorded swap) diff N ((st, []), idx))))) <= n)%nat.
  Proof.
    intros st idx L. unfold it_apply_permutation. rewrite cast_id by auto. apply short_length.
    apply outer_short; [lia|unfold N; lia|]. split; auto. split; [constructor|intros x []].
  Qed.
End Calls.

(** ** shuffle() *)

Lemma shuffle_counts : forall St G swap (dist : G -> Z -> Z -> G * outcome Z) k g (st : St * list (Z * Z)),
  let '(g', st', o) := it_shuffle_loop (recorded swap) (recorded_draws dist) k g st in
  (fst g', fst st', o) = it_shuffle_loop swap dist k (fst g) (fst st) /\
  exists d m, snd g' = snd g ++ d /\ snd st' = snd st ++ m /\ (length m <= length d <= k)%nat /\
    d = firstn (length d) (draw_ranges k) /\ (o = Ok tt -> length d = k).
Proof.
  intros St G swap dist. induction k as [|k IH]; intros g st; cbn [it_shuffle_loop].
  - split; auto. exists [], []. rewrite !app_nil_r. cbn. repeat split; auto.
  - unfold recorded_draws at 1. destruct (dist (fst g) 0 (Z.of_nat (S k))) as [g1 [j| | | | |]]; cbn [bind].
    2-6: split; [reflexivity|]; exists [(0, Z.of_nat (S k))], []; rewrite app_nil_r; cbn; repeat split; auto; try lia; try discriminate; destruct (draw_ranges k); reflexivity.
    destruct (negb (Z.of_nat (S k) =? j)).
    + unfold recorded at 1. destruct (swap (fst st) (Z.of_nat (S k)) j) as [st1 [u| | | | |]].
      2-6: split; [reflexivity|]; exists [(0, Z.of_nat (S k))], [(Z.of_nat (S k), j)]; cbn; repeat split; auto; try lia; try discriminate; destruct (draw_ranges k); reflexivity.
      specialize (IH (g1, snd g ++ [(0, Z.of_nat (S k))]) (st1, snd st ++ [(Z.of_nat (S k), j)])).
      destruct (it_shuffle_loop (recorded swap) (recorded_draws dist) k (g1, snd g ++ [(0, Z.of_nat (S k))]) (st1, snd st ++ [(Z.of_nat (S k), j)])) as [[g' st'] o].
      destruct IH as (E & d & m & E1 & E2 & E3 & E4 & E5). split; [exact E|]. cbn [fst snd] in *. rewrite <- app_assoc in E1, E2.
      exists ((0, Z.of_nat (S k)) :: d), ((Z.of_nat (S k), j) :: m). split; auto. split; auto. cbn [length draw_ranges firstn]. split; [lia|]. split; [f_equal; auto|]. intro Ho. rewrite E5; auto.
    + specialize (IH (g1, snd g ++ [(0, Z.of_nat (S k))]) st).
      destruct (it_shuffle_loop (recorded swap) (recorded_draws dist) k (g1, snd g ++ [(0, Z.of_nat (S k))]) st) as [[g' st'] o].
      destruct IH as (E & d & m & E1 & E2 & E3 & E4 & E5). split; [exact E|]. cbn [fst snd] in *. rewrite <- app_assoc in E1.
      exists ((0, Z.of_nat (S k)) :: d), m. split; auto. split; auto. cbn [length draw_ranges firstn]. split; [lia|]. split; [f_equal; auto|]. intro Ho. rewrite E5; auto.
Qed.
