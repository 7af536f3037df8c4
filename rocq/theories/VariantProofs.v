(** Proofs about transformations of variants. *)

From Coq Require Import ZArith Arith Bool List Lia.
From Verif Require Import Base TypeSeqModel TypeSeqSpec TypeSeqProofs VariantModel VariantSpec.
Import ListNotations.

Local Open Scope Z_scope.
Lemma ptrdiff_max_ge : 1 <= ptrdiff_max.
Proof. vm_compute. discriminate. Qed.
Local Opaque ptrdiff_max.

(** * Mixed-radix numbers *)

Definition prod (ds : list Z) : Z := fold_right Z.mul 1 ds.

Fixpoint dec (j : Z) (ds : list Z) : list Z :=
  match ds with [] => [] | d :: r => (j mod d) :: dec (j / d) r end.

Fixpoint enc (xs ds : list Z) : Z :=
  match xs, ds with x :: xs', d :: ds' => x + d * enc xs' ds' | _, _ => 0 end.

Definition digits (xs ds : list Z) : Prop := Forall2 (fun x d => 0 <= x < d) xs ds.

Lemma prod_pos : forall ds, Forall (fun d => 0 < d) ds -> 0 < prod ds.
Proof. induction 1; cbn; [lia|]. fold (prod l). nia. Qed.

Lemma enc_range : forall xs ds, digits xs ds -> 0 <= enc xs ds < prod ds.
Proof.
  induction 1; cbn; [lia|]. fold (prod l'). nia.
Qed.

Lemma dec_enc : forall xs ds, digits xs ds -> dec (enc xs ds) ds = xs.
Proof.
  induction 1 as [|x d xs ds Hx H IH]; cbn; auto. f_equal.
  - rewrite Z.mul_comm, Z.mod_add by lia. apply Z.mod_small; lia.
  - rewrite Z.mul_comm, Z.div_add by lia. rewrite Z.div_small by lia. exact IH.
Qed.

Lemma enc_dec : forall ds j, Forall (fun d => 0 < d) ds -> 0 <= j < prod ds -> enc (dec j ds) ds = j.
Proof.
  induction ds as [|d r IH]; intros j H Hj; cbn in *; [lia|]. inversion H as [|? ? Hd Hr]; subst.
  fold (prod r) in Hj. rewrite IH; auto.
  - rewrite (Z.div_mod j d) at 3 by lia. lia.
  - split; [apply Z.div_pos; lia|]. apply Z.div_lt_upper_bound; lia.
Qed.

Lemma dec_digits : forall ds j, Forall (fun d => 0 < d) ds -> digits (dec j ds) ds.
Proof.
  induction ds as [|d r IH]; intros j H; cbn; [constructor|]. inversion H; subst.
  constructor; [apply Z.mod_pos_bound; auto|]. apply IH; auto.
Qed.

(** * Strides and size *)

Lemma prod_prefix : forall ds, Forall (fun d => 0 < d) ds -> forall c, 0 < c -> c <= c * prod ds.
Proof. intros ds H c Hc. pose proof (prod_pos ds H). nia. Qed.

Lemma pd_mul_ok : forall a b, a * b <= ptrdiff_max -> pd_mul a b = Ok (a * b).
Proof. intros a b H. unfold pd_mul. destruct (Z.leb_spec (a * b) ptrdiff_max); auto. lia. Qed.

Lemma pd_mul_ill : forall a b, ptrdiff_max < a * b -> pd_mul a b = IllFormed.
Proof. intros a b H. unfold pd_mul. destruct (Z.leb_spec (a * b) ptrdiff_max); auto. lia. Qed.

Fixpoint strides_of (c : Z) (ds : list Z) : list Z :=
  match ds with [] => [] | d :: r => c :: strides_of (c * d) r end.

Lemma compute_strides_0_ok : forall ds c acc, Forall (fun d => 0 < d) ds -> 0 < c -> c * prod ds <= ptrdiff_max ->
  compute_strides_0 c acc ds = Ok (acc ++ strides_of c ds).
Proof.
  induction ds as [|d r IH]; intros c acc H Hc Hm; cbn [compute_strides_0 strides_of]; [rewrite app_nil_r; auto|].
  inversion H as [|? ? Hd Hr]; subst. cbn in Hm. fold (prod r) in Hm. pose proof (prod_pos r Hr).
  pose proof (prod_prefix r Hr (c * d) ltac:(nia)). rewrite Z.mul_assoc in Hm.
  rewrite pd_mul_ok by lia. cbn [bind]. rewrite IH; auto; [|nia]. rewrite <- app_assoc. auto.
Qed.

Lemma compute_strides_0_ill : forall ds c acc, Forall (fun d => 0 < d) ds -> 0 < c -> c <= ptrdiff_max -> ptrdiff_max < c * prod ds ->
  compute_strides_0 c acc ds = IllFormed.
Proof.
  induction ds as [|d r IH]; intros c acc H Hc Hc2 Hm; cbn [compute_strides_0]; [cbn in Hm; lia|].
  inversion H as [|? ? Hd Hr]; subst. cbn in Hm. fold (prod r) in Hm.
  destruct (Z.leb_spec (c * d) ptrdiff_max).
  - rewrite pd_mul_ok by auto. cbn [bind]. apply IH; auto; nia.
  - rewrite pd_mul_ill; auto.
Qed.

Lemma compute_size_ok : forall ds, Forall (fun d => 0 < d) ds -> prod ds <= ptrdiff_max -> compute_size ds = Ok (prod ds).
Proof.
  induction ds as [|d r IH]; intros H Hm; cbn [compute_size]; auto.
  inversion H as [|? ? Hd Hr]; subst. cbn in Hm. fold (prod r) in Hm. pose proof (prod_pos r Hr).
  assert (prod r <= d * prod r) by nia.
  rewrite IH; auto; [|lia]. cbn [bind]. rewrite pd_mul_ok by lia. reflexivity.
Qed.

Lemma alternative_indices_dec : forall ds i c, Forall (fun d => 0 < d) ds -> 0 < c ->
  alternative_indices i (strides_of c ds) ds = dec (i / c) ds.
Proof.
  induction ds as [|d r IH]; intros i c H Hc; cbn; auto. inversion H as [|? ? Hd Hr]; subst.
  f_equal. rewrite IH by (auto; nia). rewrite Z.div_div by lia. reflexivity.
Qed.

(** * Combinations *)

Section Comb.
  Context {T : Type}.
  Variable eq_dec : forall a b : T, {a = b} + {a <> b}.

  Lemma shape_pos : forall alts : list (list T), inhabited_variants alts -> Forall (fun d => 0 < d) (shape alts).
  Proof.
    intros alts H. unfold shape. apply Forall_map. eapply Forall_impl; [|exact H].
    intros [|x r] Ha; [congruence|]. cbn [length]. lia.
  Qed.

  Lemma number_prod : forall alts : list (list T), number_of_combinations alts = prod (shape alts).
  Proof. induction alts as [|a r IH]; auto. cbn [number_of_combinations fold_right]. unfold number_of_combinations in *. cbn. rewrite IH. reflexivity. Qed.

  Lemma argument_types_ok : forall (alts : list (list T)) xs, digits xs (shape alts) ->
    exists ts, argument_types xs alts = Ok ts /\ selects (map Z.to_nat xs) alts ts.
  Proof.
    induction alts as [|a r IH]; intros xs H; inversion H as [|x d xs' ds Hx Hr]; subst.
    - exists []. split; [reflexivity|constructor].
    - destruct (IH xs' Hr) as [ts [E Hs]]. cbn. unfold nth_type.
      destruct (nth_error a (Z.to_nat x)) as [t|] eqn:Et.
      + cbn. rewrite E. cbn. exists (t :: ts). split; auto. constructor; auto.
      + apply nth_error_None in Et. lia.
  Qed.

  Lemma digits_positions : forall (alts : list (list T)) (ps : list nat),
    Forall2 (fun i a => (i < length a)%nat) ps alts <-> digits (map Z.of_nat ps) (shape alts).
  Proof.
    induction alts as [|a r IH]; intros ps; split; intro H.
    - inversion H; subst. constructor.
    - destruct ps; [constructor|]. inversion H.
    - inversion H as [|i ? ps' ? Hi Hr]; subst. cbn. constructor; [lia|]. apply IH; auto.
    - destruct ps as [|i ps]; inversion H as [|? ? ? ? Hi Hr]; subst. constructor; [lia|]. apply IH; auto.
  Qed.

  Lemma map_to_of_nat : forall ps, map Z.to_nat (map Z.of_nat ps) = ps.
  Proof. induction ps as [|p r IH]; cbn; auto. rewrite Nat2Z.id, IH. auto. Qed.

  Lemma map_of_to_nat : forall xs ds, digits xs ds -> map Z.of_nat (map Z.to_nat xs) = xs.
  Proof. induction 1; cbn; auto. rewrite IHForall2. f_equal. lia. Qed.

  Lemma mapM_exists : forall (A B : Type) (f : A -> outcome B) l,
    (forall a, In a l -> exists b, f a = Ok b) -> exists bs, mapM f l = Ok bs.
  Proof.
    intros A B f. induction l as [|a r IH]; intro H; cbn; [eauto|].
    destruct (H a) as [b Hb]; [left; auto|]. rewrite Hb. cbn. destruct IH as [bs Hbs]; [intros; apply H; right; auto|].
    rewrite Hbs. cbn. eauto.
  Qed.

  Lemma NoDup_map_in : forall (A B : Type) (f : A -> B) l,
    (forall a b, In a l -> In b l -> f a = f b -> a = b) -> NoDup l -> NoDup (map f l).
  Proof.
    intros A B f l Hf Hnd. induction Hnd as [|a l Ha Hnd IH]; cbn; constructor.
    - intro C. apply in_map_iff in C as [b [E Hb]]. apply Ha. rewrite (Hf a b); auto; [left; auto|right; auto].
    - apply IH. intros x y Hx Hy. apply Hf; right; auto.
  Qed.

  Lemma combinations_ok : forall alts : list (list T), inhabited_variants alts ->
    number_of_combinations alts <= ptrdiff_max ->
    exists cs idxs, combinations alts = Ok cs /\ NoDup idxs /\
      (forall ps, In ps idxs <-> Forall2 (fun i a => (i < length a)%nat) ps alts) /\
      Forall2 (fun ps ts => selects ps alts ts) idxs cs.
  Proof.
    intros alts Hi Hn. rewrite number_prod in Hn. pose proof (shape_pos alts Hi) as Hp.
    pose proof (prod_pos _ Hp) as Hpp.
    unfold combinations, compute_strides. rewrite compute_strides_0_ok by (auto; lia).
    cbn [bind app]. rewrite compute_size_ok by auto. cbn [bind].
    set (N := Z.to_nat (prod (shape alts))).
    set (g := fun k => map Z.to_nat (dec (Z.of_nat k) (shape alts))).
    assert (HE : forall k, alternative_indices (Z.of_nat k) (strides_of 1 (shape alts)) (shape alts) = dec (Z.of_nat k) (shape alts)).
    { intro k. rewrite alternative_indices_dec by (auto; lia). rewrite Z.div_1_r. auto. }
    destruct (mapM_exists _ _ (fun k => argument_types (alternative_indices (Z.of_nat k) (strides_of 1 (shape alts)) (shape alts)) alts) (seq 0 N)) as [cs Hcs].
    { intros k _. rewrite HE. destruct (argument_types_ok alts (dec (Z.of_nat k) (shape alts))) as [ts [E _]]; [apply dec_digits; auto|]. eauto. }
    exists cs, (map g (seq 0 N)). split; [exact Hcs|]. split; [|split].
    - apply NoDup_map_in; [|apply seq_NoDup].
      intros a b Ha Hb E. apply in_seq in Ha. apply in_seq in Hb. unfold g in E.
      pose proof (dec_digits (shape alts) (Z.of_nat a) Hp) as D1. pose proof (dec_digits (shape alts) (Z.of_nat b) Hp) as D2.
      apply (f_equal (map Z.of_nat)) in E. rewrite (map_of_to_nat _ _ D1), (map_of_to_nat _ _ D2) in E.
      apply (f_equal (fun l => enc l (shape alts))) in E. rewrite !enc_dec in E; auto; unfold N in *; lia.
    - intro ps. rewrite in_map_iff. split.
      + intros [k [<- Hk]]. unfold g. apply digits_positions.
        pose proof (dec_digits (shape alts) (Z.of_nat k) Hp) as D. rewrite (map_of_to_nat _ _ D). auto.
      + intro H. apply digits_positions in H. pose proof (enc_range _ _ H) as Hr.
        exists (Z.to_nat (enc (map Z.of_nat ps) (shape alts))). split.
        * unfold g. rewrite Z2Nat.id by lia. rewrite dec_enc by auto. apply map_to_of_nat.
        * apply in_seq. unfold N. lia.
    - apply mapM_inv in Hcs. clear - Hcs HE Hp. revert Hcs. generalize (seq 0 N). intro l. revert cs.
      induction l as [|k r IH]; intros cs H; inversion H as [|? ts ? cs' Hk Hr]; subst; cbn; constructor.
      + rewrite HE in Hk. destruct (argument_types_ok alts (dec (Z.of_nat k) (shape alts))) as [ts' [E Hs]]; [apply dec_digits; auto|].
        rewrite E in Hk. inversion Hk; subst. auto.
      + apply IH; auto.
  Qed.

  Lemma combinations_ill : forall alts : list (list T), inhabited_variants alts ->
    ptrdiff_max < number_of_combinations alts -> combinations alts = IllFormed.
  Proof.
    intros alts Hi Hn. rewrite number_prod in Hn. pose proof (shape_pos alts Hi) as Hp.
    unfold combinations, compute_strides. rewrite compute_strides_0_ill; auto; [lia| |lia].
    exact ptrdiff_max_ge.
  Qed.

  Lemma selects_combination : forall ps (alts : list (list T)) ts, selects ps alts ts -> combination alts ts.
  Proof. induction 1; constructor; auto. eapply nth_error_In; eauto. Qed.

  Lemma combination_selects : forall (alts : list (list T)) ts, combination alts ts ->
    exists ps, selects ps alts ts /\ Forall2 (fun i a => (i < length a)%nat) ps alts.
  Proof.
    induction 1 as [|t a ts alts Ht H [ps [IH1 IH2]]].
    - exists []. split; constructor.
    - apply In_nth_error in Ht as [i Hi]. exists (i :: ps). split; constructor; auto.
      apply nth_error_Some. congruence.
  Qed.

  Lemma selects_fun : forall ps (alts : list (list T)) t1, selects ps alts t1 -> forall t2, selects ps alts t2 -> t1 = t2.
  Proof. induction 1; intros t2 H2; inversion H2; subst; auto. f_equal; [congruence|]. auto. Qed.

  Lemma Forall2_in_r : forall (A B : Type) (P : A -> B -> Prop) l1 l2 b, Forall2 P l1 l2 -> In b l2 -> exists a, In a l1 /\ P a b.
  Proof. induction 1; cbn; [tauto|]. intros [<-|Hb]; [eauto|]. destruct (IHForall2 Hb) as [a [H1 H2]]; eauto. Qed.
  Lemma Forall2_in_l : forall (A B : Type) (P : A -> B -> Prop) l1 l2 a, Forall2 P l1 l2 -> In a l1 -> exists b, In b l2 /\ P a b.
  Proof. induction 1; cbn; [tauto|]. intros [<-|Hb]; [eauto|]. destruct (IHForall2 Hb) as [b [H1 H2]]; eauto. Qed.

  Lemma combinations_in : forall alts cs, inhabited_variants alts -> combinations (T:=T) alts = Ok cs ->
    forall ts, In ts cs <-> combination alts ts.
  Proof.
    intros alts cs Hi Hc ts. destruct (Z.leb_spec (number_of_combinations alts) ptrdiff_max) as [Hl|Hl].
    - destruct (combinations_ok alts Hi Hl) as [cs' [idxs [E [Hnd [Hin Hf]]]]]. rewrite E in Hc. inversion Hc; subst. split.
      + intro H. destruct (Forall2_in_r _ _ _ _ _ _ Hf H) as [ps [_ Hs]]. eapply selects_combination; eauto.
      + intro H. apply combination_selects in H as [ps [Hs Hr]]. apply Hin in Hr.
        destruct (Forall2_in_l _ _ _ _ _ _ Hf Hr) as [ts' [H1 H2]]. rewrite (selects_fun _ _ _ Hs _ H2). auto.
    - rewrite combinations_ill in Hc; auto. discriminate.
  Qed.

  Lemma combinations_cases : forall alts, inhabited_variants alts ->
    (number_of_combinations alts <= ptrdiff_max /\ exists cs, combinations (T:=T) alts = Ok cs) \/
    (ptrdiff_max < number_of_combinations alts /\ combinations alts = IllFormed).
  Proof.
    intros alts Hi. destruct (Z.leb_spec (number_of_combinations alts) ptrdiff_max) as [Hl|Hl].
    - left. destruct (combinations_ok alts Hi Hl) as [cs [idxs [E _]]]. eauto.
    - right. split; auto. apply combinations_ill; auto.
  Qed.

  (** * The result type *)

  Lemma non_void_0_in : forall l rs t, In t (non_void_0 (T:=T) rs l) <-> In t rs \/ In (Some t) l.
  Proof.
    induction l as [|[u|] r IH]; intros rs t; cbn; [tauto| |].
    - rewrite IH, in_app_iff. cbn. split; intro H; intuition congruence.
    - rewrite IH. intuition congruence.
  Qed.

  Lemma instantiate_ok : forall ts R, instantiate_variant (T:=T) ts = Ok R <-> R = ts /\ ts <> [].
  Proof. intros [|t r] R; cbn; split; [discriminate|tauto| |intros [-> _]; auto]. intro H; inversion H; split; auto; discriminate. Qed.

  Lemma transform_result_spec : forall fres alts R, inhabited_variants alts ->
    variant_transform_result eq_dec fres alts = Ok R ->
    NoDup R /\ forall t, In t R <-> exists ts, combination alts ts /\ fres ts = Some t.
  Proof.
    intros fres alts R Hi H. unfold variant_transform_result in H. apply bind_ok_inv in H as [cs [Hc H]].
    apply instantiate_ok in H as [-> _]. destruct (unique_sequence_spec eq_dec (non_void_0 [] (map fres cs))) as [H1 [H2 _]].
    split; auto. intro t. rewrite H2, non_void_0_in, in_map_iff. cbn. split.
    - intros [[]|[ts [E Hts]]]. exists ts. split; auto. eapply combinations_in; eauto.
    - intros [ts [Hts E]]. right. exists ts. split; auto. eapply combinations_in; eauto.
  Qed.

  Lemma transform_result_wf : forall fres alts, inhabited_variants alts ->
    ((exists R, variant_transform_result eq_dec fres alts = Ok R) <->
     number_of_combinations alts <= ptrdiff_max /\ exists ts t, combination alts ts /\ fres ts = Some t) /\
    ((exists R, variant_transform_result eq_dec fres alts = Ok R) \/ variant_transform_result eq_dec fres alts = IllFormed).
  Proof.
    intros fres alts Hi. destruct (combinations_cases alts Hi) as [[Hn [cs Hc]]|[Hn Hc]].
    - unfold variant_transform_result. rewrite Hc. cbn [bind].
      destruct (unique_sequence_spec eq_dec (non_void_0 [] (map fres cs))) as [_ [H2 _]].
      pose proof (fun t => non_void_0_in (map fres cs) [] t) as H3.
      destruct (unique_sequence eq_dec (non_void_0 [] (map fres cs))) as [|t0 r] eqn:E.
      + split; [|auto]. cbn. split; [intros [R HR]; discriminate|]. intros [_ [ts [t [Hts Hf]]]]. exfalso.
        apply (proj2 (H2 t)). apply H3. right. apply in_map_iff. exists ts. split; auto. eapply combinations_in; eauto.
      + cbn. split; [|left; eauto]. split; [|eauto]. intros _. split; auto.
        assert (Hin : In t0 (t0 :: r)) by (left; auto). apply H2, H3 in Hin. destruct Hin as [[]|Hin].
        apply in_map_iff in Hin as [ts [Hf Hts]]. exists ts, t0. split; auto. eapply combinations_in; eauto.
    - unfold variant_transform_result. rewrite Hc. cbn. split; [|auto]. split; [intros [R HR]; discriminate|]. intros [H _]. lia.
  Qed.

  Lemma flatten_in : forall l rs flat, flatten_variant (T:=T) rs l = Ok flat ->
    (forall o, In o l -> o <> None) /\ forall t, In t flat <-> In t rs \/ exists v, In (Some v) l /\ In t v.
  Proof.
    induction l as [|[v|] r IH]; intros rs flat H; cbn in H.
    - inversion H; subst. split; [intros o []|]. intro t. split; [auto|]. intros [Ht|[v [[] _]]]; auto.
    - apply IH in H as [H1 H2]. split; [intros o [<-|Ho]; [discriminate|auto]|]. intro t. rewrite H2, in_app_iff. split.
      + intros [[Ht|Ht]|[w [Hw Ht]]]; [auto| |].
        * right. exists v. split; [left; auto|auto].
        * right. exists w. split; [right; auto|auto].
      + intros [Ht|[w [[Hw|Hw] Ht]]]; [auto| |].
        * inversion Hw; subst. auto.
        * right. eauto.
    - discriminate.
  Qed.

  Lemma many_result_spec : forall fres alts R, inhabited_variants alts ->
    variant_transform_many_result eq_dec fres alts = Ok R ->
    NoDup R /\
    (forall ts, combination alts ts -> exists v, fres ts = Some v) /\
    forall t, In t R <-> exists ts v, combination alts ts /\ fres ts = Some v /\ In t v.
  Proof.
    intros fres alts R Hi H. unfold variant_transform_many_result in H. apply bind_ok_inv in H as [cs [Hc H]].
    apply bind_ok_inv in H as [flat [Hf H]]. apply flatten_in in Hf as [Hn Hf].
    apply instantiate_ok in H as [-> _]. destruct (unique_sequence_spec eq_dec flat) as [H1 [H2 _]].
    split; auto. split.
    - intros ts Hts. destruct (fres ts) as [v|] eqn:E; [eauto|]. exfalso. apply (Hn None); auto.
      rewrite <- E. apply in_map. eapply combinations_in; eauto.
    - intro t. rewrite H2, Hf. split.
      + intros [[]|[v [Hv Ht]]]. apply in_map_iff in Hv as [ts [E Hts]]. exists ts, v. split; auto. eapply combinations_in; eauto.
      + intros [ts [v [Hts [E Ht]]]]. right. exists v. split; auto. rewrite <- E. apply in_map. eapply combinations_in; eauto.
  Qed.

  Lemma many_result_wf : forall fres alts, inhabited_variants alts ->
    number_of_combinations alts <= ptrdiff_max ->
    (forall ts, combination alts ts -> exists v, fres ts = Some v /\ v <> []) ->
    exists R, variant_transform_many_result eq_dec fres alts = Ok R.
  Proof.
    intros fres alts Hi Hn Hall. destruct (combinations_ok alts Hi Hn) as [cs [idxs [Hc [Hnd [Hidx Hsel]]]]].
    unfold variant_transform_many_result. rewrite Hc. cbn [bind].
    assert (Hf : forall rs l, (forall ts, In ts l -> exists v, fres ts = Some v) -> exists flat, flatten_variant rs (map fres l) = Ok flat).
    { intros rs l. revert rs. induction l as [|ts r IH]; intros rs H; cbn; [eauto|].
      destruct (H ts) as [v Hv]; [left; auto|]. rewrite Hv. apply IH. intros; apply H; right; auto. }
    destruct (Hf [] cs) as [flat Hflat].
    { intros ts Hts. destruct (Hall ts) as [v [Hv _]]; [eapply combinations_in; eauto|]. eauto. }
    rewrite Hflat. cbn [bind]. apply flatten_in in Hflat as [_ Hflat].
    assert (Hex : exists ts, combination alts ts).
    { clear - Hi. induction Hi as [|a r Ha Hi [ts IH]]; [exists []; constructor|].
      destruct a as [|t a']; [congruence|]. exists (t :: ts). constructor; auto. left; auto. }
    destruct Hex as [ts Hts]. destruct (Hall ts Hts) as [[|t v] [Hv Hne]]; [congruence|].
    destruct (unique_sequence_spec eq_dec flat) as [_ [H2 _]].
    assert (Hin : In t (unique_sequence eq_dec flat)).
    { apply H2, Hflat. right. exists (t :: v). split; [|left; auto]. rewrite <- Hv. apply in_map. eapply combinations_in; eauto. }
    destruct (unique_sequence eq_dec flat); [destruct Hin|]. cbn. eauto.
  Qed.

  (** * Runtime *)

  Lemma into_alternative_ok : forall (V : Type) (R : list T) t (x : V), NoDup R -> In t R ->
    exists i, into_alternative eq_dec t R x = Ok (i, x) /\ nth_error R i = Some t.
  Proof.
    intros V R t x Hnd Hin. unfold into_alternative. pose proof (bases_of_in eq_dec t R 0) as Hb.
    pose proof (bases_of_nodup eq_dec t R 0) as Hbn. apply In_nth_error in Hin as [p Hp].
    destruct (bases_of eq_dec t 0 R) as [|i [|i2 r]].
    - exfalso. apply (proj2 (Hb p)). exists p; auto.
    - exists i. split; auto. destruct (proj1 (Hb i) (or_introl eq_refl)) as [j [-> Hj]]. auto.
    - exfalso. destruct (proj1 (Hb i)) as [j [-> Hj]]; [cbn; auto|]. destruct (proj1 (Hb i2)) as [j2 [-> Hj2]]; [cbn; auto|].
      cbn in Hbn. inversion Hbn as [|? ? Hni _]; subst. apply Hni. left.
      rewrite NoDup_nth_error in Hnd. symmetry. apply Hnd; [|congruence]. apply nth_error_Some. congruence.
  Qed.

  Lemma holding_held : forall (V : Type) (alts : list (list T)) vs (args : list (T * V)), holding alts vs args -> held_all alts vs = Ok args /\ combination alts (map fst args).
  Proof.
    intros V. induction alts as [|a r IH]; intros vs args [H [H1 H2]].
    - destruct vs, args; try discriminate. split; constructor.
    - destruct vs as [|v vs], args as [|[t x] args]; try discriminate. cbn in H. inversion H as [|? ? ? ? Hv Hr]; subst.
      destruct Hv as [i [E Ei]]. cbn in E, Ei. subst v. destruct (IH vs args) as [IH1 IH2]; [split; auto|].
      cbn. rewrite Ei. cbn. rewrite IH1. cbn. split; auto. constructor; auto. eapply nth_error_In; eauto.
  Qed.

  Lemma variant_transform_call : forall (V S : Type) fres (func : S -> list (T * V) -> S * outcome V) alts R vs args s,
    inhabited_variants alts -> variant_transform_result eq_dec fres alts = Ok R -> holding alts vs args ->
    (forall s' x t, func s args = (s', Ok x) -> fres (map fst args) = Some t ->
       exists i, variant_transform eq_dec fres func alts vs s = (s', Ok (i, x)) /\ nth_error R i = Some t) /\
    (forall s' x, func s args = (s', Ok x) -> fres (map fst args) = None ->
       variant_transform eq_dec fres func alts vs s = (s', Contract)) /\
    (forall s' e, func s args = (s', Throw e) -> variant_transform eq_dec fres func alts vs s = (s', Throw e)).
  Proof.
    intros V S fres func alts R vs args s Hi HR Hh. apply holding_held in Hh as [Hh Hc].
    destruct (transform_result_spec fres alts R Hi HR) as [Hnd Hin].
    unfold variant_transform. rewrite HR. unfold std_visit. rewrite Hh. split; [|split].
    - intros s' x t Ef Et. rewrite Et, Ef. cbn [bind].
      destruct (into_alternative_ok V R t x Hnd) as [i [H1 H2]]; [apply Hin; eauto|].
      exists i. rewrite H1. auto.
    - intros s' x Ef Et. rewrite Et, Ef. reflexivity.
    - intros s' e Ef. destruct (fres (map fst args)); rewrite Ef; reflexivity.
  Qed.

  (** A valueless variant after properly held ones is reported before any call. *)
  Lemma held_all_valueless : forall (V : Type) (alts : list (list T)) (vs : list (option (nat * V))),
    Forall2 (fun a v => is_variant a v) alts vs -> In None vs -> held_all alts vs = Throw BadVariantAccess.
  Proof.
    induction 1 as [|a v alts vs Hv H IH]; [intros []|]. intros [->|Hin]; [reflexivity|].
    cbn. destruct v as [[i x]|]; [|reflexivity]. cbn in *.
    destruct (nth_error a i) eqn:E; [|apply nth_error_None in E; lia]. cbn. rewrite IH; auto.
  Qed.

  Lemma variant_transform_valueless : forall (V S : Type) fres (func : S -> list (T * V) -> S * outcome V) alts R vs s,
    variant_transform_result eq_dec fres alts = Ok R -> Forall2 (fun a v => is_variant a v) alts vs -> In None vs ->
    variant_transform eq_dec fres func alts vs s = (s, Throw BadVariantAccess).
  Proof.
    intros V S fres func alts R vs s HR Hf Hin. unfold variant_transform. rewrite HR. unfold std_visit.
    rewrite held_all_valueless; auto.
  Qed.

  Lemma variant_transform_many_call : forall (V S : Type) fres (func : S -> list (T * V) -> S * outcome (option (nat * V))) alts R vs args s,
    inhabited_variants alts -> variant_transform_many_result eq_dec fres alts = Ok R -> holding alts vs args ->
    (forall s' j x rts t, func s args = (s', Ok (Some (j, x))) -> fres (map fst args) = Some rts -> nth_error rts j = Some t ->
       exists i, variant_transform_many eq_dec fres func alts vs s = (s', Ok (i, x)) /\ nth_error R i = Some t) /\
    (forall s', func s args = (s', Ok None) -> variant_transform_many eq_dec fres func alts vs s = (s', Throw BadVariantAccess)) /\
    (forall s' e, func s args = (s', Throw e) -> variant_transform_many eq_dec fres func alts vs s = (s', Throw e)).
  Proof.
    intros V S fres func alts R vs args s Hi HR Hh. apply holding_held in Hh as [Hh Hc].
    destruct (many_result_spec fres alts R Hi HR) as [Hnd [Hall Hin]].
    unfold variant_transform_many. rewrite HR. unfold std_visit. rewrite Hh.
    destruct (Hall _ Hc) as [rts Hrts]. rewrite Hrts. split; [|split].
    - intros s' j x rts' t Ef Er Ej. inversion Er; subst rts'. rewrite Ef. cbn. rewrite Ej. cbn.
      destruct (into_alternative_ok V R t x Hnd) as [i [H1 H2]].
      { apply Hin. exists (map fst args), rts. split; auto. split; auto. eapply nth_error_In; eauto. }
      exists i. rewrite H1. auto.
    - intros s' Ef. rewrite Ef. reflexivity.
    - intros s' e Ef. rewrite Ef. reflexivity.
  Qed.

  Lemma variant_transform_many_valueless : forall (V S : Type) fres (func : S -> list (T * V) -> S * outcome (option (nat * V))) alts R vs s,
    variant_transform_many_result eq_dec fres alts = Ok R -> Forall2 (fun a v => is_variant a v) alts vs -> In None vs ->
    variant_transform_many eq_dec fres func alts vs s = (s, Throw BadVariantAccess).
  Proof.
    intros V S fres func alts R vs s HR Hf Hin. unfold variant_transform_many. rewrite HR. unfold std_visit.
    rewrite held_all_valueless; auto.
  Qed.

  Lemma visit_spec : forall (V S Res : Type) (func : S -> list (T * V) -> S * outcome Res) alts vs args s,
    holding alts vs args -> visit func alts vs s = func s args.
  Proof.
    intros V S Res func alts vs args s Hh. apply holding_held in Hh as [Hh _]. unfold visit, std_visit. rewrite Hh. auto.
  Qed.

  (** * Monostate *)
  Lemma castable_iff : forall dst src : list T, castable eq_dec dst src = true <->
    forall t, In t src -> exists p, only_position (eq t) dst p.
  Proof.
    intros dst src. unfold castable. rewrite forallb_forall. split; intros H t Ht.
    - specialize (H t Ht). destruct (search_type_pack_index_spec eq_dec t dst) as [H1 _].
      unfold search_type_pack_index in H1. destruct (bases_of eq_dec t 0 dst) as [|i [|]]; try discriminate.
      exists i. apply H1. auto.
    - destruct (H t Ht) as [p Hp]. destruct (search_type_pack_index_spec eq_dec t dst) as [H1 _].
      unfold search_type_pack_index in H1. apply H1 in Hp. destruct (bases_of eq_dec t 0 dst) as [|i [|]]; auto; lia.
  Qed.

  Lemma into_only : forall (V : Type) t (R : list T) (x : V) p, only_position (eq t) R p -> into_alternative eq_dec t R x = Ok (p, x).
  Proof.
    intros V t R x p Hp. apply (search_type_pack_index_spec eq_dec t R) in Hp. unfold search_type_pack_index in Hp.
    unfold into_alternative. destruct (bases_of eq_dec t 0 R) as [|i [|]]; try lia. f_equal. f_equal. lia.
  Qed.

  Lemma nodup_only : forall (R : list T) p t, NoDup R -> nth_error R p = Some t -> only_position (eq t) R p.
  Proof.
    intros R p t Hnd Hp. split; [eauto|]. intros j u Hj <-. rewrite NoDup_nth_error in Hnd. apply Hnd; [|congruence].
    apply nth_error_Some. congruence.
  Qed.

  Lemma variant_cast_spec : forall (V : Type) (dst src : list T) (v : option (nat * V)),
    (forall t, In t src -> exists p, only_position (eq t) dst p) ->
    match v with
    | None => variant_cast eq_dec dst src v = Throw BadVariantAccess
    | Some (i, x) => forall t, nth_error src i = Some t ->
        exists j, variant_cast eq_dec dst src v = Ok (j, x) /\ nth_error dst j = Some t
    end.
  Proof.
    intros V dst src v H. pose proof (proj2 (castable_iff dst src) H) as Hc. unfold variant_cast. rewrite Hc.
    destruct v as [[i x]|]; [|reflexivity]. intros t Ht. cbn. rewrite Ht. cbn.
    destruct (H t) as [p Hp]; [eapply nth_error_In; eauto|]. exists p. rewrite (into_only V t dst x p Hp).
    split; auto. destruct Hp as [[u [H1 <-]] _]. auto.
  Qed.

  Lemma without_with : forall mono ts, without_monostate eq_dec mono (with_monostate mono ts) = Ok ts.
  Proof. intros mono ts. cbn. destruct (eq_dec mono mono); congruence. Qed.

  Lemma castable_tail : forall mono ts, NoDup (mono :: ts) -> castable eq_dec (with_monostate mono ts) ts = true.
  Proof.
    intros mono ts Hnd. apply castable_iff. intros t Ht. apply In_nth_error in Ht as [p Hp].
    exists (S p). apply (nodup_only (mono :: ts) (S p) t Hnd). exact Hp.
  Qed.

  Lemma filter_not_mono : forall mono ts, ~ In mono ts -> filter (fun t => negb (same eq_dec mono t)) (mono :: ts) = ts.
  Proof.
    intros mono ts Hn. cbn. assert (E : same eq_dec mono mono = true) by (apply same_iff; auto). rewrite E. cbn.
    induction ts as [|t r IH]; cbn; auto. destruct (same eq_dec mono t) eqn:Et.
    - apply same_iff in Et. subst. exfalso. apply Hn. left; auto.
    - cbn. f_equal. apply IH. intro C. apply Hn. right; auto.
  Qed.

  Lemma castable_self : forall ts : list T, NoDup ts -> castable eq_dec ts ts = true.
  Proof. intros ts Hnd. apply castable_iff. intros t Ht. apply In_nth_error in Ht as [p Hp]. exists p. apply nodup_only; auto. Qed.

  Lemma to_optional_wf : forall (V : Type) mono ts (v : option (nat * V)),
    variant_to_optional eq_dec mono ts v <> IllFormed -> exists r, ts = mono :: r /\ r <> [] /\ NoDup ts.
  Proof.
    intros V mono ts v H. unfold variant_to_optional in H. destruct ts as [|t r]; [cbn in H; congruence|].
    cbn [without_monostate] in H. destruct (eq_dec t mono) as [->|]; [|cbn in H; congruence]. cbn [bind] in H.
    destruct r as [|t r]; [cbn in H; congruence|]. set (r' := t :: r) in *. cbn [instantiate_variant bind] in H.
    change (instantiate_variant r') with (@Ok (list T) r') in H. cbn [bind] in H.
    destruct (search_type_pack_index_spec eq_dec mono (mono :: r')) as [Hs _]. unfold search_type_pack_index in Hs.
    destruct (bases_of eq_dec mono 0 (mono :: r')) as [|i [|]]; try congruence.
    destruct (castable eq_dec r' _) eqn:Hc; [|congruence].
    exists r'. split; auto. split; [discriminate|].
    assert (Hmono : ~ In mono r').
    { intro C. apply In_nth_error in C as [k Hk]. specialize (Hs i). destruct (proj1 Hs eq_refl) as [_ Hu].
      pose proof (Hu 0%nat mono eq_refl eq_refl). pose proof (Hu (S k) mono Hk eq_refl). lia. }
    constructor; auto. rewrite castable_iff in Hc. apply NoDup_nth_error. intros a b Ha E.
    destruct (nth_error r' a) as [u|] eqn:Eu; [|apply nth_error_None in Eu; lia].
    destruct (Hc u) as [p [_ Hp]].
    - apply filter_In. split; [right; eapply nth_error_In; eauto|]. destruct (same eq_dec mono u) eqn:Em; auto.
      apply same_iff in Em. subst u. exfalso. apply Hmono. eapply nth_error_In; eauto.
    - rewrite (Hp a u Eu eq_refl), (Hp b u (eq_sym E) eq_refl). auto.
  Qed.

  Section Mono.
    Variables (V : Type) (mono : T) (ts : list T).
    Hypothesis Hnd : NoDup (mono :: ts).
    Hypothesis Hne : ts <> [].

    Lemma to_optional_form : forall v : option (nat * V),
      variant_to_optional eq_dec mono (mono :: ts) v =
      match v with
      | None => Throw BadVariantAccess
      | Some (0%nat, _) => Ok None
      | Some (S i, x) => if (i <? length ts)%nat then Ok (Some (i, x)) else UB
      end.
    Proof.
      intro v. inversion Hnd as [|? ? Hni Hnd']; subst. unfold variant_to_optional. cbn [without_monostate].
      destruct (eq_dec mono mono) as [_|C]; [|congruence]. cbn [bind].
      assert (Ei : instantiate_variant ts = Ok ts) by (destruct ts; [congruence|reflexivity]). rewrite Ei. cbn [bind].
      assert (Eb : bases_of eq_dec mono 0 (mono :: ts) = [0%nat]).
      { pose proof (into_only unit mono (mono :: ts) tt 0 (nodup_only (mono :: ts) 0 mono Hnd eq_refl)) as H.
        unfold into_alternative in H. destruct (bases_of eq_dec mono 0 (mono :: ts)) as [|i [|]]; try discriminate.
        inversion H; auto. }
      rewrite Eb, filter_not_mono, castable_self by auto.
      destruct v as [[[|i] x]|].
      - cbn. destruct (eq_dec mono mono); congruence.
      - cbn [nth_error held]. destruct (Nat.ltb_spec i (length ts)) as [Hl|Hl].
        + destruct (nth_error ts i) as [t|] eqn:Et; [|apply nth_error_None in Et; lia]. cbn [bind].
          destruct (eq_dec t mono) as [->|_]; [exfalso; apply Hni; eapply nth_error_In; eauto|].
          rewrite (into_only V t ts x i (nodup_only ts i t Hnd' Et)). reflexivity.
        + destruct (nth_error ts i) as [t|] eqn:Et; auto.
          assert (i < length ts)%nat by (apply nth_error_Some; congruence). lia.
      - reflexivity.
    Qed.

    Lemma to_variant_form : forall (u : V) (o : option (option (nat * V))),
      optional_to_variant eq_dec mono u ts o =
      match o with
      | None => Ok (0%nat, u)
      | Some None => Throw BadVariantAccess
      | Some (Some (i, x)) => if (i <? length ts)%nat then Ok (S i, x) else UB
      end.
    Proof.
      intros u o. unfold optional_to_variant. rewrite castable_tail by auto. destruct o as [[[i x]|]|].
      - unfold variant_cast. rewrite castable_tail by auto. cbn [held]. destruct (Nat.ltb_spec i (length ts)) as [Hl|Hl].
        + destruct (nth_error ts i) as [t|] eqn:Et; [|apply nth_error_None in Et; lia]. cbn [bind].
          apply (into_only V t (mono :: ts) x (S i)). apply nodup_only; auto.
        + destruct (nth_error ts i) as [t|] eqn:Et; auto.
          assert (i < length ts)%nat by (apply nth_error_Some; congruence). lia.
      - unfold variant_cast. rewrite castable_tail by auto. reflexivity.
      - apply (into_only V mono (mono :: ts) u 0). apply nodup_only; auto.
    Qed.

    (** Round trips; [u] is the monostate value. *)
    Lemma round_trip_1 : forall (u : V) i x, (i < length (mono :: ts))%nat -> (i = 0%nat -> x = u) ->
      exists o, variant_to_optional eq_dec mono (with_monostate mono ts) (Some (i, x)) = Ok o /\
                optional_to_variant eq_dec mono u ts (option_map Some o) = Ok (i, x).
    Proof.
      intros u i x Hi Hx. unfold with_monostate. rewrite to_optional_form. destruct i as [|i].
      - exists None. split; [reflexivity|]. rewrite to_variant_form. cbn [option_map]. rewrite (Hx eq_refl). reflexivity.
      - cbn [length] in Hi. assert (E : (i <? length ts)%nat = true) by (apply Nat.ltb_lt; lia). rewrite E.
        exists (Some (i, x)). split; [reflexivity|].
        rewrite to_variant_form. cbn [option_map]. rewrite E. reflexivity.
    Qed.

    Lemma round_trip_2 : forall (u : V) (o : option (nat * V)), (forall i x, o = Some (i, x) -> (i < length ts)%nat) ->
      exists v, optional_to_variant eq_dec mono u ts (option_map Some o) = Ok v /\
                variant_to_optional eq_dec mono (with_monostate mono ts) (Some v) = Ok o.
    Proof.
      intros u o Ho. rewrite to_variant_form. destruct o as [[i x]|]; cbn [option_map].
      - specialize (Ho i x eq_refl). apply Nat.ltb_lt in Ho. rewrite Ho. exists (S i, x). split; [reflexivity|].
        unfold with_monostate. rewrite to_optional_form, Ho. reflexivity.
      - exists (0%nat, u). split; [reflexivity|]. unfold with_monostate. rewrite to_optional_form. reflexivity.
    Qed.
  End Mono.
End Comb.
