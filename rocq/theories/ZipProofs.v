(** Proofs about sizes, zip iterators and range algorithms. *)

From Coq Require Import ZArith NArith Arith Bool List Lia Permutation.
From Verif Require Import Base ZipModel ZipSpec.
Import ListNotations.

Local Open Scope Z_scope.

(** * Merging sizes *)

Definition statics (ds : list dim) : list Z :=
  flat_map (fun d => match d with SStatic n => if n =? -1 then [] else [n] | SDyn _ => [] end) ds.
Definition dyns (ds : list dim) : list Z := flat_map (fun d => match d with SDyn n => [n] | SStatic _ => [] end) ds.

Lemma statics_in : forall ds n, In n (statics ds) <-> static_size ds n.
Proof.
  intros ds n. unfold statics, static_size. rewrite in_flat_map. split.
  - intros [[m|m] [H1 H2]]; [|destruct H2]. destruct (Z.eqb_spec m (-1)); [destruct H2|]. destruct H2 as [<-|[]]. auto.
  - intros [H1 H2]. exists (SStatic n). split; auto. destruct (Z.eqb_spec n (-1)); [congruence|]. left; auto.
Qed.
Lemma dyns_in : forall ds n, In n (dyns ds) <-> In (SDyn n) ds.
Proof.
  intros ds n. unfold dyns. rewrite in_flat_map. split.
  - intros [[m|m] [H1 H2]]; [destruct H2|]. destruct H2 as [<-|[]]. auto.
  - intro H. exists (SDyn n). split; auto. left; auto.
Qed.
Definition knowns (ds : list dim) : list Z := statics ds ++ dyns ds.
Lemma knowns_in : forall ds n, In n (knowns ds) <-> known_size ds n.
Proof. intros ds n. unfold knowns, known_size. rewrite in_app_iff, statics_in, dyns_in. tauto. Qed.

Definition all_eq (l : list Z) : Prop := forall a b, In a l -> In b l -> a = b.
Definition differ (l : list Z) : Prop := exists a b, In a l /\ In b l /\ a <> b.
Lemma all_eq_dec : forall l, all_eq l \/ differ l.
Proof.
  intros [|x r]; [left; intros a b []|].
  destruct (forallb (Z.eqb x) r) eqn:E.
  - left. rewrite forallb_forall in E. assert (H : forall a, In a (x :: r) -> a = x).
    { intros a [<-|Ha]; auto. apply E in Ha. apply Z.eqb_eq in Ha. auto. }
    intros a b Ha Hb. rewrite (H a Ha), (H b Hb). auto.
  - right. assert (H : exists y, In y r /\ x <> y).
    { clear - E. induction r as [|y r IH]; cbn in E; [discriminate|]. apply andb_false_iff in E as [E|E].
      - exists y. split; [left; auto|]. apply Z.eqb_neq in E. auto.
      - destruct (IH E) as [z [H1 H2]]. exists z. split; [right; auto|auto]. }
    destruct H as [y [H1 H2]]. exists x, y. split; [left; auto|]. split; [right; auto|auto].
Qed.

(** The merged size of a list. *)
Definition merged (ds : list dim) (d : dim) : Prop :=
  match d with
  | SStatic n => (In n (statics ds)) \/ (n = -1 /\ statics ds = [] /\ dyns ds = [])
  | SDyn n => statics ds = [] /\ In n (dyns ds)
  end.

Lemma merged_convert : forall ds d, all_eq (statics ds) -> merged ds d -> convert_dim (range_size_type ds) d = Ok d.
Proof.
  intros ds d He Hm. unfold range_size_type. destruct (find is_known_static ds) as [e|] eqn:Ef.
  - apply find_some in Ef as [H1 H2]. destruct e as [n|n]; [|discriminate]. cbn in H2.
    assert (Hn : In n (statics ds)). { apply statics_in. split; auto. unfold unknown_size in H2. destruct (Z.eqb_spec n (-1)); [discriminate|auto]. }
    destruct d as [m|m]; cbn in Hm.
    + destruct Hm as [Hm|[_ [E _]]]; [|rewrite E in Hn; destruct Hn]. rewrite (He m n Hm Hn). cbn. rewrite Z.eqb_refl. auto.
    + destruct Hm as [E _]. rewrite E in Hn. destruct Hn.
  - assert (Hs : statics ds = []).
    { destruct (statics ds) as [|n r] eqn:E; auto. assert (H : In n (statics ds)) by (rewrite E; left; auto).
      apply statics_in in H as [H1 H2]. pose proof (find_none _ _ Ef _ H1) as H3. cbn in H3. unfold unknown_size in H3.
      destruct (Z.eqb_spec n (-1)); [congruence|discriminate]. }
    destruct (existsb is_dyn ds) eqn:Ed.
    + apply existsb_exists in Ed as [[n|n] [H1 H2]]; [discriminate|]. apply dyns_in in H1.
      destruct d as [m|m]; cbn in Hm; [|reflexivity]. destruct Hm as [Hm|[_ [_ E]]]; [rewrite Hs in Hm; destruct Hm|rewrite E in H1; destruct H1].
    + assert (Hd : dyns ds = []).
      { destruct (dyns ds) as [|n r] eqn:E; auto. assert (H : In n (dyns ds)) by (rewrite E; left; auto). apply dyns_in in H.
        assert (X : existsb is_dyn ds = true) by (apply existsb_exists; exists (SDyn n); auto). congruence. }
      destruct d as [m|m]; cbn in Hm.
      * destruct Hm as [Hm|[-> _]]; [rewrite Hs in Hm; destruct Hm|]. reflexivity.
      * destruct Hm as [_ Hm]. rewrite Hd in Hm. destruct Hm.
Qed.

(** The same sets of sizes. *)
Definition same_sizes (a b : list dim) : Prop :=
  (forall n, In n (statics a) <-> In n (statics b)) /\ (forall n, In n (dyns a) <-> In n (dyns b)).

Lemma same_sizes_permutation : forall a b, Permutation a b -> same_sizes a b.
Proof.
  intros a b P. split; intro n.
  - rewrite !statics_in. unfold static_size. split; intros [H1 H2]; split; auto; eapply Permutation_in; [exact P|auto|apply Permutation_sym; exact P|auto].
  - rewrite !dyns_in. split; intro H; eapply Permutation_in; [exact P|auto|apply Permutation_sym; exact P|auto].
Qed.

Lemma same_sizes_nil : forall (l1 l2 : list Z), (forall n, In n l1 <-> In n l2) -> l1 = [] -> l2 = [].
Proof. intros l1 [|x r] H ->; auto. exfalso. apply (H x). left; auto. Qed.

Lemma same_sizes_merged : forall a b d, same_sizes a b -> merged a d -> merged b d.
Proof.
  intros a b [n|n] [H1 H2] Hm; cbn in *.
  - destruct Hm as [Hm|[-> [E1 E2]]]; [left; apply H1; auto|]. right. split; auto.
    split; [eapply same_sizes_nil; [|exact E1]; exact H1|eapply same_sizes_nil; [|exact E2]; exact H2].
  - destruct Hm as [E Hm]. split; [eapply same_sizes_nil; [|exact E]; exact H1|apply H2; auto].
Qed.

Lemma same_sizes_all_eq : forall a b, same_sizes a b ->
  (all_eq (statics a) -> all_eq (statics b)) /\ (all_eq (knowns a) -> all_eq (knowns b)) /\
  (differ (statics a) -> differ (statics b)) /\ (differ (knowns a) -> differ (knowns b)).
Proof.
  intros a b [H1 H2]. assert (Hk : forall n, In n (knowns a) <-> In n (knowns b)).
  { intro n. unfold knowns. rewrite !in_app_iff, H1, H2. tauto. }
  split; [|split; [|split]].
  - intros H x y Hx Hy. apply H; apply H1; auto.
  - intros H x y Hx Hy. apply H; apply Hk; auto.
  - intros [x [y [Hx [Hy Hn]]]]. exists x, y. split; [apply H1; auto|]. split; [apply H1; auto|auto].
  - intros [x [y [Hx [Hy Hn]]]]. exists x, y. split; [apply Hk; auto|]. split; [apply Hk; auto|auto].
Qed.

Lemma all_eq_app : forall l1 l2, all_eq (l1 ++ l2) -> all_eq l1 /\ all_eq l2.
Proof. intros l1 l2 H. split; intros a b Ha Hb; apply H; apply in_app_iff; auto. Qed.

Lemma statics_cons : forall e l, statics (e :: l) = (match e with SStatic n => if n =? -1 then [] else [n] | SDyn _ => [] end) ++ statics l.
Proof. reflexivity. Qed.
Lemma dyns_cons : forall e l, dyns (e :: l) = (match e with SDyn n => [n] | SStatic _ => [] end) ++ dyns l.
Proof. reflexivity. Qed.

(** One more element. *)
Definition no_bad (ds : list dim) : Prop := forall n, In n (dyns ds) -> n <> -1.

Lemma merge_0_step : forall run e l x, merged l x -> no_bad (e :: l) -> all_eq (statics (e :: l)) ->
  (run = true -> all_eq (knowns (e :: l))) ->
  (exists d, merge_sizes_0 run e x = Ok d /\ merged (e :: l) d) /\
  (exists d, merge_sizes_0 run x e = Ok d /\ merged (e :: l) d).
Proof.
  intros run e l x Hm Hb Hs Hk. unfold no_bad in Hb. rewrite statics_cons in Hs. rewrite dyns_cons in Hb.
  unfold knowns in Hk. rewrite statics_cons, dyns_cons in Hk.
  assert (Hx : forall m, In m (dyns l) -> m <> -1). { intros m H. apply Hb. apply in_app_iff; auto. }
  assert (Hxs : forall m, In m (statics l) -> m <> -1). { intros m H. apply statics_in in H as [_ H]. auto. }
  destruct e as [n|n], x as [m|m]; cbn [merge_sizes_0]; unfold unknown_size in *.
  - cbn in Hm. destruct (Z.eqb_spec n (-1)) as [->|Hn]; cbn [orb].
    + replace ((m =? -1) || true || (m =? -1)) with true by (destruct (m =? -1); reflexivity).
      split.
      * exists (SStatic m). split; [reflexivity|]. cbn [merged]. rewrite statics_cons, dyns_cons. cbn. exact Hm.
      * destruct (Z.eqb_spec m (-1)) as [->|Hm']; cbn [orb].
        -- exists (SStatic (-1)). split; [reflexivity|]. cbn [merged]. rewrite statics_cons, dyns_cons. exact Hm.
        -- exists (SStatic m). split; [reflexivity|]. cbn [merged]. rewrite statics_cons, dyns_cons. exact Hm.
    + destruct (Z.eqb_spec m (-1)) as [->|Hm']; cbn [orb].
      * split; (exists (SStatic n); split; [reflexivity|]; cbn [merged]; rewrite statics_cons; destruct (Z.eqb_spec n (-1)); [congruence|left; left; auto]).
      * destruct Hm as [Hm|[C _]]; [|congruence].
        assert (n = m). { apply Hs; apply in_app_iff; [left; left; auto|right; auto]. } subst m.
        rewrite Z.eqb_refl. cbn [orb].
        split; (exists (SStatic n); split; [reflexivity|]; cbn [merged]; rewrite statics_cons; destruct (Z.eqb_spec n (-1)); [congruence|left; left; auto]).
  - cbn in Hm. destruct Hm as [Hm1 Hm2]. destruct (Z.eqb_spec n (-1)) as [->|Hn].
    + split; (exists (SDyn m); split; [reflexivity|]; cbn [merged]; rewrite statics_cons, dyns_cons; cbn; auto).
    + assert (E : (if run then expects ((m =? n) || (m =? -1)) else Ok tt) = Ok tt).
      { destruct run; auto. assert (m = n). { apply Hk; auto; apply in_app_iff; [right; apply in_app_iff; right; auto|left; apply in_app_iff; left; left; auto]. }
        subst m. rewrite Z.eqb_refl. reflexivity. }
      rewrite E. cbn [bind].
      split; (exists (SStatic n); split; [reflexivity|]; cbn [merged]; rewrite statics_cons; destruct (Z.eqb_spec n (-1)); [congruence|left; left; auto]).
  - cbn in Hm. destruct (Z.eqb_spec m (-1)) as [->|Hm'].
    + assert (Hd : statics l = [] /\ dyns l = []) by (destruct Hm as [Hm|[_ H]]; [apply Hxs in Hm; congruence|auto]). destruct Hd as [E1 E2].
      split; (exists (SDyn n); split; [reflexivity|]; cbn [merged]; rewrite statics_cons, dyns_cons, E1; cbn; auto).
    + destruct Hm as [Hm|[C _]]; [|congruence].
      assert (E : (if run then expects ((n =? m) || (n =? -1)) else Ok tt) = Ok tt).
      { destruct run; auto. assert (n = m). { apply Hk; auto; apply in_app_iff; [right; apply in_app_iff; left; left; auto|left; apply in_app_iff; right; auto]. }
        subst m. rewrite Z.eqb_refl. reflexivity. }
      rewrite E. cbn [bind].
      split; (exists (SStatic m); split; [reflexivity|]; cbn [merged]; rewrite statics_cons; left; apply in_app_iff; auto).
  - cbn in Hm. destruct Hm as [Hm1 Hm2].
    assert (Hn1 : n <> -1) by (apply Hb; left; auto). assert (Hm1' : m <> -1) by (apply Hb; right; auto).
    destruct (Z.eqb_spec n (-1)); [congruence|]. destruct (Z.eqb_spec m (-1)); [congruence|]. cbn [orb].
    assert (E : run = true -> n = m). { intro Hr. apply Hk; auto; apply in_app_iff; right; [left; auto|right; auto]. }
    assert (E1 : (if run then expects (n =? m) else Ok tt) = Ok tt).
    { destruct run; auto. rewrite (E eq_refl), Z.eqb_refl. reflexivity. }
    assert (E2 : (if run then expects (m =? n) else Ok tt) = Ok tt).
    { destruct run; auto. rewrite (E eq_refl), Z.eqb_refl. reflexivity. }
    rewrite E1, E2. cbn [bind]. split.
    + exists (SDyn n). split; [reflexivity|]. cbn [merged]. rewrite statics_cons, dyns_cons. cbn. auto.
    + exists (SDyn m). split; [reflexivity|]. cbn [merged]. rewrite statics_cons, dyns_cons. cbn. auto.
Qed.

Lemma merge_0_static_conflict : forall run e l x, merged l x -> all_eq (statics l) -> differ (statics (e :: l)) ->
  merge_sizes_0 run e x = IllFormed /\ merge_sizes_0 run x e = IllFormed.
Proof.
  intros run e l x Hm He [a [b [Ha [Hb Hab]]]]. rewrite statics_cons in Ha, Hb.
  destruct e as [n|n]; [|exfalso; apply Hab; apply He; auto].
  destruct (Z.eqb_spec n (-1)) as [->|Hn]; [exfalso; apply Hab; apply He; auto|].
  assert (Hc : exists c, In c (statics l) /\ c <> n).
  { cbn in Ha, Hb. destruct Ha as [<-|Ha], Hb as [<-|Hb].
    - congruence.
    - exists b. auto.
    - exists a. auto.
    - exfalso. apply Hab. apply He; auto. }
  destruct Hc as [c [Hc Hcn]]. destruct x as [m|m].
  - cbn in Hm. assert (m = c). { destruct Hm as [Hm|[_ [E _]]]; [apply He; auto|]. rewrite E in Hc. destruct Hc. } subst m.
    assert (c <> -1) by (apply statics_in in Hc as [_ Hc]; auto).
    cbn. unfold unknown_size. destruct (Z.eqb_spec n (-1)); [congruence|]. destruct (Z.eqb_spec c (-1)); [congruence|].
    destruct (Z.eqb_spec n c); [congruence|]. destruct (Z.eqb_spec c n); [congruence|]. auto.
  - cbn in Hm. destruct Hm as [E _]. rewrite E in Hc. destruct Hc.
Qed.

Lemma merge_0_run_conflict : forall e l x, merged l x -> no_bad (e :: l) -> all_eq (statics (e :: l)) -> all_eq (knowns l) ->
  differ (knowns (e :: l)) -> merge_sizes_0 true e x = Contract /\ merge_sizes_0 true x e = Contract.
Proof.
  intros e l x Hm Hb Hs Hk [a [b [Ha [Hbb Hab]]]].
  assert (Hc : exists n c, (e = SStatic n /\ n <> -1 \/ e = SDyn n) /\ In c (knowns l) /\ c <> n).
  { unfold knowns in Ha, Hbb. rewrite statics_cons, dyns_cons in Ha, Hbb.
    destruct e as [n|n]; [destruct (Z.eqb_spec n (-1)) as [->|Hn]|].
    - exfalso. apply Hab. apply Hk; auto.
    - assert (Ha' : a = n \/ In a (knowns l)) by (cbn in Ha; destruct Ha; auto).
      assert (Hb' : b = n \/ In b (knowns l)) by (cbn in Hbb; destruct Hbb; auto).
      destruct Ha' as [->|Ha'], Hb' as [->|Hb'].
      + congruence.
      + exists n, b. auto.
      + exists n, a. auto.
      + exfalso. apply Hab. apply Hk; auto.
    - assert (Hin : forall z, In z (statics l ++ [n] ++ dyns l) -> z = n \/ In z (knowns l)).
      { intros z Hz. unfold knowns. rewrite !in_app_iff in *. cbn in Hz. intuition. }
      destruct (Hin a Ha) as [->|Ha'], (Hin b Hbb) as [->|Hb'].
      + congruence.
      + exists n, b. auto.
      + exists n, a. auto.
      + exfalso. apply Hab. apply Hk; auto. }
  destruct Hc as [n [c [He [Hc Hcn]]]].
  assert (Hx : (x = SStatic c /\ In c (statics l)) \/ (x = SDyn c /\ statics l = [] /\ In c (dyns l))).
  { destruct x as [m|m]; cbn in Hm.
    - destruct Hm as [Hm|[_ [E1 E2]]].
      + left. assert (m = c) by (apply Hk; auto; unfold knowns; apply in_app_iff; auto). subst. auto.
      + unfold knowns in Hc. rewrite E1, E2 in Hc. destruct Hc.
    - destruct Hm as [E Hm]. right. assert (m = c) by (apply Hk; auto; unfold knowns; apply in_app_iff; auto). subst. auto. }
  unfold no_bad in Hb. rewrite dyns_cons in Hb.
  destruct He as [[-> Hn]| ->], Hx as [[-> Hx]|[-> [Hx1 Hx2]]].
  - exfalso. apply Hcn. apply Hs; rewrite statics_cons; apply in_app_iff; [right; auto|].
    left. destruct (Z.eqb_spec n (-1)); [congruence|left; auto].
  - assert (c <> -1) by (apply Hb; apply in_app_iff; auto). cbn. unfold unknown_size.
    destruct (Z.eqb_spec n (-1)); [congruence|]. destruct (Z.eqb_spec c n); [congruence|]. destruct (Z.eqb_spec c (-1)); [congruence|]. auto.
  - assert (n <> -1) by (apply Hb; left; auto). assert (c <> -1) by (apply statics_in in Hx as [_ Hx]; auto). cbn. unfold unknown_size.
    destruct (Z.eqb_spec c (-1)); [congruence|]. destruct (Z.eqb_spec n c); [congruence|]. destruct (Z.eqb_spec n (-1)); [congruence|]. auto.
  - assert (n <> -1) by (apply Hb; left; auto). assert (c <> -1) by (apply Hb; right; auto). cbn. unfold unknown_size.
    destruct (Z.eqb_spec c (-1)); [congruence|]. destruct (Z.eqb_spec n (-1)); [congruence|].
    destruct (Z.eqb_spec n c); [congruence|]. destruct (Z.eqb_spec c n); [congruence|]. auto.
Qed.

Lemma merge_n_spec : forall fuel ds, (length ds < fuel)%nat -> no_bad ds ->
  (differ (statics ds) -> merge_sizes_n fuel false ds = IllFormed) /\
  (forall run, all_eq (statics ds) -> (run = true -> all_eq (knowns ds)) ->
     exists d, merge_sizes_n fuel run ds = Ok d /\ merged ds d) /\
  (all_eq (statics ds) -> differ (knowns ds) -> merge_sizes_n fuel true ds = Contract).
Proof.
  induction fuel as [|fuel IH]; intros ds Hl Hb; [lia|].
  destruct ds as [|e1 [|e2 r]].
  - cbn. split; [intros [a [b [[] _]]]|]. split.
    + intros run _ _. exists (SStatic (-1)). split; [reflexivity|]. right. auto.
    + intros _ [a [b [[] _]]].
  - split; [|split].
    + intros [a [b [Ha [Hbb Hn]]]]. exfalso. destruct e1 as [n|n]; cbn in Ha, Hbb; [|destruct Ha].
      destruct (n =? -1); [destruct Ha|]. destruct Ha as [<-|[]], Hbb as [<-|[]]. congruence.
    + intros run _ _. exists e1. split; [destruct e1; reflexivity|]. destruct e1 as [n|n]; cbn.
      * destruct (Z.eqb_spec n (-1)); [right; auto|left; left; auto].
      * auto.
    + intros _ [a [b [Ha [Hbb Hn]]]]. exfalso. destruct e1 as [n|n]; unfold knowns in *; cbn in Ha, Hbb.
      * destruct (n =? -1); [destruct Ha|]. destruct Ha as [<-|[]], Hbb as [<-|[]]. congruence.
      * destruct Ha as [<-|[]], Hbb as [<-|[]]. congruence.
  - (* general step: element e merged with the rest l' *)
    assert (Gen : forall e l' comb,
      merge_sizes_n (S fuel) = (fun run ds' => merge_sizes_n (S fuel) run ds') ->
      (forall run, merge_sizes_n (S fuel) run (e1 :: e2 :: r) =
         do x <- merge_sizes_n fuel run l'; do y <- comb run x; convert_dim (range_size_type (e1 :: e2 :: r)) y) ->
      (forall run x, comb run x = merge_sizes_0 run e x) \/ (forall run x, comb run x = merge_sizes_0 run x e) ->
      length l' = S (length r) -> same_sizes (e :: l') (e1 :: e2 :: r) ->
      (differ (statics (e1 :: e2 :: r)) -> merge_sizes_n (S fuel) false (e1 :: e2 :: r) = IllFormed) /\
      (forall run, all_eq (statics (e1 :: e2 :: r)) -> (run = true -> all_eq (knowns (e1 :: e2 :: r))) ->
         exists d, merge_sizes_n (S fuel) run (e1 :: e2 :: r) = Ok d /\ merged (e1 :: e2 :: r) d) /\
      (all_eq (statics (e1 :: e2 :: r)) -> differ (knowns (e1 :: e2 :: r)) -> merge_sizes_n (S fuel) true (e1 :: e2 :: r) = Contract)).
    { intros e l' comb _ Hstep Hcomb Hlen Hsame. rename Hl into Hl0.
      assert (Hl' : (length l' < fuel)%nat) by (cbn in Hl0; lia).
      assert (Hsame' : same_sizes (e1 :: e2 :: r) (e :: l')).
      { destruct Hsame as [S1 S2]. split; intro n; [rewrite (S1 n)|rewrite (S2 n)]; tauto. }
      assert (Hbe : no_bad (e :: l')). { intros n Hn. apply Hb. apply (proj2 Hsame). auto. }
      assert (Hb' : no_bad l'). { intros n Hn. apply Hbe. rewrite dyns_cons. apply in_app_iff; auto. }
      destruct (IH l' Hl' Hb') as [IH1 [IH2 IH3]].
      destruct (same_sizes_all_eq _ _ Hsame') as [T1 [T2 [T3 T4]]].
      destruct (same_sizes_all_eq _ _ Hsame) as [U1 [U2 [U3 U4]]].
      assert (Hsub : all_eq (statics (e :: l')) -> all_eq (statics l')).
      { intro H. rewrite statics_cons in H. apply all_eq_app in H as [_ H]. auto. }
      assert (Hsubk : all_eq (knowns (e :: l')) -> all_eq (knowns l')).
      { intros H a b Ha Hbb. apply H; unfold knowns in *; rewrite statics_cons, dyns_cons; rewrite !in_app_iff in *; intuition. }
      split; [|split].
      - intro Hd. rewrite Hstep. destruct (all_eq_dec (statics l')) as [He|He].
        + destruct (IH2 false He) as [x [Hx Hm]]; [discriminate|]. rewrite Hx. cbn [bind].
          destruct (merge_0_static_conflict false e l' x Hm He (T3 Hd)) as [M1 M2].
          destruct Hcomb as [Hc|Hc]; rewrite Hc; [rewrite M1|rewrite M2]; reflexivity.
        + rewrite (IH1 He). reflexivity.
      - intros run Hs Hk. rewrite Hstep. destruct (IH2 run (Hsub (T1 Hs))) as [x [Hx Hm]]; [intro Hr; apply Hsubk, T2, Hk; auto|].
        rewrite Hx. cbn [bind]. destruct (merge_0_step run e l' x Hm Hbe (T1 Hs)) as [[d1 [M1 G1]] [d2 [M2 G2]]]; [intro Hr; apply T2, Hk; auto|].
        destruct Hcomb as [Hc|Hc]; rewrite Hc; [rewrite M1|rewrite M2]; cbn [bind].
        + exists d1. pose proof (same_sizes_merged _ _ _ Hsame G1) as G. split; auto. apply merged_convert; auto.
        + exists d2. pose proof (same_sizes_merged _ _ _ Hsame G2) as G. split; auto. apply merged_convert; auto.
      - intros Hs Hd. rewrite Hstep. destruct (all_eq_dec (knowns l')) as [He|He].
        + destruct (IH2 true (Hsub (T1 Hs)) (fun _ => He)) as [x [Hx Hm]]. rewrite Hx. cbn [bind].
          destruct (merge_0_run_conflict e l' x Hm Hbe (T1 Hs) He (T4 Hd)) as [M1 M2].
          destruct Hcomb as [Hc|Hc]; rewrite Hc; [rewrite M1|rewrite M2]; reflexivity.
        + rewrite (IH3 (Hsub (T1 Hs)) He). reflexivity. }
    assert (Hp1 : forall e' f, same_sizes (f :: r ++ [e']) (f :: e' :: r)).
    { intros e' f. apply same_sizes_permutation. apply perm_skip. apply Permutation_sym, Permutation_cons_append. }
    assert (Hp2 : forall e' f, same_sizes (f :: r ++ [e']) (e' :: f :: r)).
    { intros e' f. apply same_sizes_permutation. eapply perm_trans; [|apply perm_swap]. apply perm_skip. apply Permutation_sym, Permutation_cons_append. }
    destruct e1 as [n|n], e2 as [m|m].
    + (* static, static *)
      destruct (Z.eq_dec n (-1)) as [->|Hn]; [|destruct (Z.eq_dec m (-1)) as [->|Hm]; [|destruct (Z.eq_dec n m) as [<-|Hnm]]].
      * assert (Hb' : no_bad (SStatic m :: r)) by (intros z Hz; apply Hb; exact Hz).
        destruct (IH (SStatic m :: r)) as [IH1 [IH2 IH3]]; [cbn in *; lia|auto|].
        assert (Hsame : same_sizes (SStatic m :: r) (SStatic (-1) :: SStatic m :: r)) by (split; intro z; tauto).
        assert (Est : forall run, merge_sizes_n (S fuel) run (SStatic (-1) :: SStatic m :: r) =
          do y <- merge_sizes_n fuel run (SStatic m :: r); convert_dim (range_size_type (SStatic (-1) :: SStatic m :: r)) y) by reflexivity.
        split; [|split].
        -- intro Hd. rewrite Est, IH1; auto.
        -- intros run Hs Hk. rewrite Est. destruct (IH2 run Hs Hk) as [d [E G]]. rewrite E. cbn [bind]. exists d.
           assert (G' : merged (SStatic (-1) :: SStatic m :: r) d) by exact G. split; auto. apply merged_convert; auto.
        -- intros Hs Hd. rewrite Est, IH3; auto.
      * assert (Hsame : same_sizes (SStatic n :: r) (SStatic n :: SStatic (-1) :: r)) by (split; intro z; tauto).
        assert (Hb' : no_bad (SStatic n :: r)) by (intros z Hz; apply Hb; exact Hz).
        destruct (IH (SStatic n :: r)) as [IH1 [IH2 IH3]]; [cbn in *; lia|auto|].
        assert (Est : forall run, merge_sizes_n (S fuel) run (SStatic n :: SStatic (-1) :: r) =
          do y <- merge_sizes_n fuel run (SStatic n :: r); convert_dim (range_size_type (SStatic n :: SStatic (-1) :: r)) y).
        { intro run. cbn [merge_sizes_n merge_sizes_0]. unfold unknown_size. destruct (Z.eqb_spec n (-1)); [congruence|]. reflexivity. }
        split; [|split].
        -- intro Hd. rewrite Est, IH1; auto.
        -- intros run Hs Hk. rewrite Est. destruct (IH2 run Hs Hk) as [d [E G]]. rewrite E. cbn [bind]. exists d.
           assert (G' : merged (SStatic n :: SStatic (-1) :: r) d) by exact G. split; auto. apply merged_convert; auto.
        -- intros Hs Hd. rewrite Est, IH3; auto.
      * assert (Hsame : same_sizes (SStatic n :: r) (SStatic n :: SStatic n :: r)).
        { split; intro z; [|tauto]. rewrite !statics_cons, !in_app_iff. intuition. }
        assert (Hb' : no_bad (SStatic n :: r)) by (intros z Hz; apply Hb; exact Hz).
        destruct (IH (SStatic n :: r)) as [IH1 [IH2 IH3]]; [cbn in *; lia|auto|].
        assert (Hsame' : same_sizes (SStatic n :: SStatic n :: r) (SStatic n :: r)).
        { destruct Hsame as [S1 S2]. split; intro z; [rewrite (S1 z)|rewrite (S2 z)]; tauto. }
        destruct (same_sizes_all_eq _ _ Hsame') as [T1 [T2 [T3 T4]]].
        assert (Est : forall run, merge_sizes_n (S fuel) run (SStatic n :: SStatic n :: r) =
          do y <- merge_sizes_n fuel run (SStatic n :: r); convert_dim (range_size_type (SStatic n :: SStatic n :: r)) y).
        { intro run. cbn [merge_sizes_n merge_sizes_0]. unfold unknown_size. destruct (Z.eqb_spec n (-1)); [congruence|].
          rewrite Z.eqb_refl. reflexivity. }
        split; [|split].
        -- intro Hd. rewrite Est, IH1; auto.
        -- intros run Hs Hk. rewrite Est. destruct (IH2 run (T1 Hs)) as [d [E G]]; [intro Hr; apply T2, Hk; auto|]. rewrite E. cbn [bind]. exists d.
           pose proof (same_sizes_merged _ _ _ Hsame G) as G'. split; auto. apply merged_convert; auto.
        -- intros Hs Hd. rewrite Est, IH3; auto.
      * assert (Est : forall run, merge_sizes_n (S fuel) run (SStatic n :: SStatic m :: r) = IllFormed).
        { intro run. cbn [merge_sizes_n merge_sizes_0]. unfold unknown_size. destruct (Z.eqb_spec n (-1)); [congruence|].
          destruct (Z.eqb_spec m (-1)); [congruence|]. destruct (Z.eqb_spec n m); [congruence|]. reflexivity. }
        assert (Hcf : forall P : Prop, all_eq (statics (SStatic n :: SStatic m :: r)) -> P).
        { intros P H. exfalso. apply Hnm. apply H; cbn; (destruct (Z.eqb_spec n (-1)); [congruence|]); (destruct (Z.eqb_spec m (-1)); [congruence|]); cbn; auto. }
        split; [auto|]. split; [intros run Hs; apply Hcf; auto|intro Hs; apply Hcf; auto].
    + apply (Gen (SStatic n) (r ++ [SDyn m]) (fun run x => merge_sizes_0 run (SStatic n) x)).
      * reflexivity.
      * intro run. reflexivity.
      * left. reflexivity.
      * rewrite app_length. cbn. lia.
      * apply Hp1.
    + apply (Gen (SStatic m) (r ++ [SDyn n]) (fun run x => merge_sizes_0 run (SStatic m) x)).
      * reflexivity.
      * intro run. reflexivity.
      * left. reflexivity.
      * rewrite app_length. cbn. lia.
      * apply Hp2.
    + apply (Gen (SDyn m) (r ++ [SDyn n]) (fun run x => merge_sizes_0 run x (SDyn m))).
      * reflexivity.
      * intro run. reflexivity.
      * right. reflexivity.
      * rewrite app_length. cbn. lia.
      * apply Hp2.
Qed.

Section MergeTop.
  Variable ds : list dim.
  Hypothesis Hpos : forall n, In (SDyn n) ds -> 0 <= n.

  Lemma no_bad_pos : no_bad ds.
  Proof. intros n Hn. apply dyns_in in Hn. apply Hpos in Hn. lia. Qed.

  Lemma merge_sizes_static_conflict : forall a b, static_size ds a -> static_size ds b -> a <> b -> merge_sizes ds = IllFormed.
  Proof.
    intros a b Ha Hb Hab. unfold merge_sizes.
    destruct (merge_n_spec (S (length ds)) ds (Nat.lt_succ_diag_r _) no_bad_pos) as [H _].
    rewrite H; [reflexivity|]. exists a, b. rewrite !statics_in. auto.
  Qed.

  Lemma merge_sizes_conflict : forall a b, (forall c d, static_size ds c -> static_size ds d -> c = d) ->
    known_size ds a -> known_size ds b -> a <> b -> merge_sizes ds = Contract.
  Proof.
    intros a b Hs Ha Hb Hab. unfold merge_sizes.
    destruct (merge_n_spec (S (length ds)) ds (Nat.lt_succ_diag_r _) no_bad_pos) as [_ [H2 H3]].
    assert (Hse : all_eq (statics ds)) by (intros c d Hc Hd; apply Hs; apply statics_in; auto).
    destruct (H2 false Hse) as [d [E _]]; [discriminate|]. rewrite E. cbn [bind].
    apply H3; auto. exists a, b. rewrite !knowns_in. auto.
  Qed.

  Lemma merge_sizes_agree : forall n, known_size ds n -> (forall a, known_size ds a -> a = n) ->
    (static_size ds n -> merge_sizes ds = Ok (SStatic n)) /\
    ((forall a, ~ static_size ds a) -> merge_sizes ds = Ok (SDyn n)).
  Proof.
    intros n Hn Ha. unfold merge_sizes.
    destruct (merge_n_spec (S (length ds)) ds (Nat.lt_succ_diag_r _) no_bad_pos) as [_ [H2 _]].
    assert (Hk : all_eq (knowns ds)) by (intros c d Hc Hd; rewrite (Ha c), (Ha d); auto; apply knowns_in; auto).
    assert (Hse : all_eq (statics ds)) by (apply all_eq_app in Hk as [Hk _]; auto).
    destruct (H2 false Hse) as [d0 [E0 _]]; [discriminate|]. rewrite E0. cbn [bind].
    destruct (H2 true Hse (fun _ => Hk)) as [d [E G]]. rewrite E. split.
    - intro Hst. pose proof Hst as Hst'. apply statics_in in Hst. destruct d as [m|m]; cbn in G.
      + destruct G as [G|[_ [C _]]]; [|rewrite C in Hst; destruct Hst]. rewrite (Hse m n G Hst). auto.
      + destruct G as [C _]. rewrite C in Hst. destruct Hst.
    - intro Hns. assert (Hsn : statics ds = []).
      { destruct (statics ds) as [|z r] eqn:Es; auto. exfalso. apply (Hns z). apply statics_in. rewrite Es. left; auto. }
      destruct d as [m|m]; cbn in G.
      + rewrite Hsn in G. destruct G as [[]|[_ [_ C]]]. exfalso. destruct Hn as [Hn|Hn]; [apply (Hns n); auto|].
        apply dyns_in in Hn. rewrite C in Hn. destruct Hn.
      + destruct G as [_ G]. f_equal. f_equal. apply Ha. right. apply dyns_in. auto.
  Qed.

  Lemma merge_sizes_none : (forall a, ~ known_size ds a) -> merge_sizes ds = Ok (SStatic (-1)).
  Proof.
    intro Hn. unfold merge_sizes.
    destruct (merge_n_spec (S (length ds)) ds (Nat.lt_succ_diag_r _) no_bad_pos) as [_ [H2 _]].
    assert (Hk : knowns ds = []).
    { destruct (knowns ds) as [|z r] eqn:Es; auto. exfalso. apply (Hn z). apply knowns_in. rewrite Es. left; auto. }
    apply app_eq_nil in Hk as [E1 E2].
    assert (Hse : all_eq (statics ds)) by (rewrite E1; intros a b []).
    assert (Hke : all_eq (knowns ds)) by (unfold knowns; rewrite E1, E2; intros a b []).
    destruct (H2 false Hse) as [d0 [E0 _]]; [discriminate|]. rewrite E0. cbn [bind].
    destruct (H2 true Hse (fun _ => Hke)) as [d [E G]]. rewrite E. destruct d as [m|m]; cbn in G; rewrite ?E1, ?E2 in G.
    - destruct G as [[]|[-> _]]. auto.
    - destruct G as [_ []].
  Qed.

  (** The outcome is one of these. *)
  Lemma merge_sizes_cases :
    (exists a b, static_size ds a /\ static_size ds b /\ a <> b) \/
    ((forall c d, static_size ds c -> static_size ds d -> c = d) /\
     ((exists a b, known_size ds a /\ known_size ds b /\ a <> b) \/
      (exists n, known_size ds n /\ (forall a, known_size ds a -> a = n) /\ (static_size ds n \/ forall a, ~ static_size ds a)) \/
      (forall a, ~ known_size ds a))).
  Proof.
    destruct (all_eq_dec (statics ds)) as [Hs|[a [b [Ha [Hb Hab]]]]].
    - right. split; [intros c d Hc Hd; apply Hs; apply statics_in; auto|].
      destruct (all_eq_dec (knowns ds)) as [Hk|[a [b [Ha [Hb Hab]]]]].
      + right. destruct (knowns ds) as [|n r] eqn:E.
        * right. intros a Ha. apply knowns_in in Ha. rewrite E in Ha. destruct Ha.
        * left. exists n. assert (Hn : In n (knowns ds)) by (rewrite E; left; auto). split; [apply knowns_in; auto|].
          assert (Hall : forall a, known_size ds a -> a = n).
          { intros a Ha. apply knowns_in in Ha. rewrite E in Ha. apply Hk; auto. left; auto. }
          split; auto. destruct (statics ds) as [|z s] eqn:Es.
          -- right. intros a Ha. apply statics_in in Ha. rewrite Es in Ha. destruct Ha.
          -- left. assert (Hz : static_size ds z) by (apply statics_in; rewrite Es; left; auto).
             rewrite <- (Hall z); auto. left; auto.
      + left. exists a, b. rewrite <- !knowns_in. auto.
    - left. exists a, b. rewrite <- !statics_in. auto.
  Qed.
End MergeTop.

Lemma merge_sizes_permutation : forall ds ds', (forall n, In (SDyn n) ds -> 0 <= n) -> Permutation ds ds' ->
  merge_sizes ds = merge_sizes ds'.
Proof.
  intros ds ds' Hp P.
  assert (Hp' : forall n, In (SDyn n) ds' -> 0 <= n).
  { intros n Hn. apply Hp. eapply Permutation_in; [apply Permutation_sym; exact P|exact Hn]. }
  assert (Hs : forall n, static_size ds n <-> static_size ds' n).
  { intro n. unfold static_size. split; intros [H1 H2]; split; auto.
    - eapply Permutation_in; eauto.
    - eapply Permutation_in; [apply Permutation_sym; exact P|auto]. }
  assert (Hk : forall n, known_size ds n <-> known_size ds' n).
  { intro n. unfold known_size. rewrite Hs. split; intros [H|H]; auto; right.
    - eapply Permutation_in; eauto.
    - eapply Permutation_in; [apply Permutation_sym; exact P|auto]. }
  destruct (merge_sizes_cases ds) as [[a [b [Ha [Hb Hab]]]]|[Hst [[a [b [Ha [Hb Hab]]]]|[[n [Hn [Hall Hd]]]|Hnone]]]].
  - rewrite (merge_sizes_static_conflict ds Hp a b Ha Hb Hab).
    rewrite (merge_sizes_static_conflict ds' Hp' a b); auto; apply Hs; auto.
  - rewrite (merge_sizes_conflict ds Hp a b Hst Ha Hb Hab).
    rewrite (merge_sizes_conflict ds' Hp' a b); auto; try (apply Hk; auto).
    intros c d Hc Hd. apply Hst; apply Hs; auto.
  - destruct (merge_sizes_agree ds Hp n Hn Hall) as [A1 A2].
    destruct (merge_sizes_agree ds' Hp' n) as [B1 B2]; [apply Hk; auto|intros a Ha; apply Hall, Hk; auto|].
    destruct Hd as [Hd|Hd].
    + rewrite A1, B1; auto. apply Hs; auto.
    + rewrite A2, B2; auto. intros a Ha. apply (Hd a), Hs; auto.
  - rewrite (merge_sizes_none ds Hp Hnone). rewrite (merge_sizes_none ds' Hp'); auto.
    intros a Ha. apply (Hnone a), Hk; auto.
Qed.
