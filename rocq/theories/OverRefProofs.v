(** Proofs for OverRefModel. *)

From Coq Require Import Arith Bool List Lia.
From Verif Require Import Base ForwardModel OverRefModel OverRefSpec.
Import ListNotations.

Lemma takes_accepts p a : (exists f, takes p a = Some f /\ binds f (snd a) = true) <-> accepts p a.
Proof.
  destruct a as [t c]. split.
  - intros (f & T & B). destruct p as [u g|g]; cbn in T.
    + destruct (Nat.eqb_spec u t) as [->|]; [|discriminate]. injection T as ->.
      destruct f, c; cbn in B; try discriminate; constructor; cbn; auto.
    + injection T as <-. destruct g, c; cbn in B; try discriminate; constructor; cbn; auto.
  - intros H. inversion H; subst; cbn [takes fst snd]; rewrite ?Nat.eqb_refl; eexists; (split; [reflexivity|]);
      try (match goal with I : In _ _ |- _ => cbn in I; intuition subst end); try reflexivity; destruct c; reflexivity.
Qed.

Lemma conversions_callable ps : forall args, (exists fs, conversions ps args = Some fs) <-> Forall2 accepts ps args.
Proof.
  induction ps as [|p ps IH]; intros [|a args]; cbn [conversions].
  - split; [constructor|eauto].
  - split; [intros (? & H); discriminate|intros H; inversion H].
  - split; [intros (? & H); discriminate|intros H; inversion H].
  - split.
    + intros (fs & H). destruct (takes p a) as [f|] eqn:T; [|discriminate].
      destruct (conversions ps args) as [fs'|] eqn:C; [|discriminate].
      destruct (binds f (snd a)) eqn:B; [|discriminate].
      constructor; [apply takes_accepts; eauto|apply IH; eauto].
    + intros H. inversion H as [|? ? ? ? A F]; subst.
      apply takes_accepts in A. destruct A as (f & -> & B). apply IH in F. destruct F as (fs & ->). rewrite B. eauto.
Qed.

Lemma viable_callable oc l args : viable oc args l = true <-> callable oc l args.
Proof.
  unfold viable, all_conversions, callable. rewrite <- conversions_callable.
  destruct oc, (l_const l); cbn; destruct (conversions (l_params l) args) as [fs|]; split; intros H; try discriminate; try reflexivity;
    try (split; [auto; discriminate|eauto]; fail).
  all: destruct H as [H1 (? & H2)]; try discriminate; now specialize (H1 eq_refl).
Qed.

Lemma combine_swap_forallb {A} (P : A -> A -> bool) (l l' : list A) :
  forallb (fun x => negb (P (snd x) (fst x))) (combine l l') = true -> existsb (fun x => P (fst x) (snd x)) (combine l' l) = false.
Proof.
  revert l'. induction l as [|a l IH]; intros [|b l']; cbn; auto.
  intros H. apply andb_prop in H. destruct H as [H1 H2]. apply negb_true_iff in H1. rewrite H1. cbn. now apply IH.
Qed.

Lemma better_asym oc args l l' : better oc args l l' = true -> better oc args l' l = false.
Proof.
  unfold better. destruct (all_conversions oc l args) as [fs|], (all_conversions oc l' args) as [fs'|]; try discriminate.
  intros H. apply andb_prop in H. destruct H as [F H].
  destruct (forallb _ (combine fs' fs)) eqn:F'; [|reflexivity]. cbn [andb].
  apply combine_swap_forallb in F, F'. rewrite F. rewrite F' in H. cbn [orb] in *.
  destruct (is_template l), (is_template l'); cbn in *; try discriminate; try reflexivity.
  apply andb_prop in H. destruct H as [A B]. apply negb_true_iff in B. now rewrite B.
Qed.

Lemma in_indexed {A} (ls : list A) i l : In (i, l) (combine (seq 0 (length ls)) ls) <-> nth_error ls i = Some l.
Proof.
  enough (G : forall s, In (s + i, l) (combine (seq s (length ls)) ls) <-> nth_error ls i = Some l) by apply (G 0).
  revert i. induction ls as [|a ls IH]; intros i s; cbn.
  - destruct i; cbn; split; (contradiction || discriminate).
  - destruct i as [|i]; cbn.
    + split.
      * intros [E|H]; [injection E as _ ->; reflexivity|]. apply in_combine_l in H. apply in_seq in H. lia.
      * intros E. injection E as ->. left. f_equal. lia.
    + rewrite <- (IH i (S s)). split.
      * intros [E|H]; [injection E as E _; lia|]. now replace (S s + i) with (s + S i) by lia.
      * intros H. right. now replace (s + S i) with (S s + i) by lia.
Qed.

Lemma nodup_indexed {A} (ls : list A) : NoDup (combine (seq 0 (length ls)) ls).
Proof.
  apply (NoDup_map_inv fst). replace (map fst (combine (seq 0 (length ls)) ls)) with (seq 0 (length ls)); [apply seq_NoDup|].
  generalize 0. induction ls as [|a ls IH]; intros s; cbn; [reflexivity|now rewrite <- IH].
Qed.

Lemma filter_one {A} (P : A -> bool) (l : list A) x :
  NoDup l -> In x l -> P x = true -> (forall y, In y l -> P y = true -> y = x) -> filter P l = [x].
Proof.
  intros N I H U. induction N as [|a l NI N IH]; [contradiction|]. cbn. destruct I as [->|I].
  - rewrite H. f_equal. destruct (filter P l) as [|y r] eqn:E; [reflexivity|].
    assert (Y : In y (filter P l)) by (rewrite E; now left). apply filter_In in Y. destruct Y as [Y1 Y2].
    rewrite (U y (or_intror Y1) Y2) in Y1. contradiction.
  - destruct (P a) eqn:Pa.
    + rewrite (U a (or_introl eq_refl) Pa) in NI. contradiction.
    + apply IH; [exact I|intros y Hy; apply U; now right].
Qed.

Definition wins (ls : list lambda) (oc : bool) (args : list arg_type) (x : nat * lambda) : bool :=
  viable oc args (snd x) &&
  forallb (fun y => (fst x =? fst y) || negb (viable oc args (snd y)) || better oc args (snd x) (snd y)) (combine (seq 0 (length ls)) ls).

Lemma wins_spec ls oc args x :
  wins ls oc args x = true <->
  viable oc args (snd x) = true /\
  forall j l', nth_error ls j = Some l' -> j <> fst x -> viable oc args l' = true -> better oc args (snd x) l' = true.
Proof.
  unfold wins. rewrite andb_true_iff, forallb_forall. split; intros [V H]; (split; [exact V|]).
  - intros j l' E N V'. apply in_indexed in E. specialize (H _ E). cbn in H. rewrite V' in H.
    apply orb_prop in H. destruct H as [H|H]; [|exact H]. rewrite orb_false_r in H. apply Nat.eqb_eq in H. congruence.
  - intros [j l'] I. apply in_indexed in I. cbn. destruct (Nat.eqb_spec (fst x) j); [reflexivity|].
    destruct (viable oc args l') eqn:V'; [|reflexivity]. cbn. apply (H j); auto.
Qed.

Lemma select_wins ls oc args :
  select ls oc args = match filter (wins ls oc args) (combine (seq 0 (length ls)) ls) with [x] => Ok (fst x) | _ => IllFormed end.
Proof. reflexivity. Qed.

Lemma select_best ls oc args i l :
  nth_error ls i = Some l -> viable oc args l = true ->
  (forall j l', nth_error ls j = Some l' -> j <> i -> viable oc args l' = true -> better oc args l l' = true) ->
  select ls oc args = Ok i.
Proof.
  intros E V B. rewrite select_wins. rewrite (filter_one _ _ (i, l)); [reflexivity|apply nodup_indexed|now apply in_indexed| |].
  - apply wins_spec. cbn. auto.
  - intros [j l'] I W. apply in_indexed in I. apply wins_spec in W. cbn in W. destruct W as [V' W].
    destruct (Nat.eq_dec j i) as [->|N]; [congruence|].
    specialize (B _ _ I N V'). specialize (W _ _ E (not_eq_sym N) V). apply better_asym in B. congruence.
Qed.

Lemma select_sound ls oc args i :
  select ls oc args = Ok i -> exists l, nth_error ls i = Some l /\ viable oc args l = true /\
    forall j l', nth_error ls j = Some l' -> j <> i -> viable oc args l' = true -> better oc args l l' = true.
Proof.
  rewrite select_wins. destruct (filter _ _) as [|x [|]] eqn:F; try discriminate. intros H. injection H as <-.
  assert (I : In x (filter (wins ls oc args) (combine (seq 0 (length ls)) ls))) by (rewrite F; now left).
  apply filter_In in I. destruct I as [I W]. destruct x as [i l]. apply in_indexed in I. apply wins_spec in W. exists l. tauto.
Qed.

Lemma select_cases ls oc args : select ls oc args = IllFormed \/ exists i, select ls oc args = Ok i.
Proof. rewrite select_wins. destruct (filter _ _) as [|x [|]]; eauto. Qed.

(** *** Comparing two handlers *)

Lemma all_conversions_viable oc l args :
  viable oc args l = true ->
  exists fs, conversions (l_params l) args = Some fs /\ all_conversions oc l args = Some ((if l_const l then CLRef else LRef) :: fs).
Proof.
  unfold viable, all_conversions. destruct (oc && negb (l_const l)); [discriminate|].
  destruct (conversions (l_params l) args) as [fs|]; [|discriminate]. eauto.
Qed.

Lemma object_ok oc l l' args :
  same_object oc l l' -> viable oc args l' = true ->
  better_binding (if l_const l' then CLRef else LRef) (if l_const l then CLRef else LRef) = false.
Proof.
  unfold same_object, viable, all_conversions. intros S V. destruct (l_const l), (l_const l'); try reflexivity.
  destruct (S eq_refl) as [->|]; discriminate.
Qed.

(** The conversions of parameters that are nowhere worse. *)
Definition not_worse_at (p q : param) (a : arg_type) : Prop :=
  forall f g, takes p a = Some f -> takes q a = Some g -> binds f (snd a) = true -> binds g (snd a) = true -> better_binding g f = false.

Lemma not_worse_all ps : forall qs args fs gs,
  Forall3 not_worse_at ps qs args -> conversions ps args = Some fs -> conversions qs args = Some gs ->
  forallb (fun x => negb (better_binding (snd x) (fst x))) (combine fs gs) = true.
Proof.
  intros qs args fs gs H. revert fs gs. induction H as [|p q a ps qs args N F IH]; intros fs gs; cbn [conversions].
  - intros E E'. now injection E as <-.
  - destruct (takes p a) as [f|] eqn:T; [|discriminate]. destruct (conversions ps args) as [fs'|]; [|discriminate].
    destruct (binds f (snd a)) eqn:B; [|discriminate]. intros E. injection E as <-.
    destruct (takes q a) as [g|] eqn:T'; [|discriminate]. destruct (conversions qs args) as [gs'|]; [|discriminate].
    destruct (binds g (snd a)) eqn:B'; [|discriminate]. intros E. injection E as <-.
    cbn. rewrite (N f g T T' B B'). cbn. now apply IH.
Qed.

Lemma exact_not_worse p q a : exact p a -> not_worse_at p q a.
Proof.
  intros E f g T T' B B'. destruct E as [t c|t c]; cbn in T; rewrite Nat.eqb_refl in T; injection T as <-; cbn in B, B'.
  - destruct g, c; reflexivity.
  - destruct g, c; cbn in *; try discriminate; reflexivity.
Qed.

Lemma no_worse_not_worse p q a : no_worse p q a -> not_worse_at p q a.
Proof.
  intros [p' q' a' E|t q' c [ -> | -> ]|t q' c [ -> | -> ]]; [now apply exact_not_worse|..];
    intros f g T T' B B'; cbn in *; rewrite ?Nat.eqb_refl in *;
    injection T as <-; injection T' as <-; reflexivity.
Qed.

Lemma refines_not_worse p q a : refines p q a -> not_worse_at p q a.
Proof.
  intros [p' a'|p' f a' E]; [|now apply exact_not_worse].
  intros f g T T' B B'. rewrite T in T'. injection T' as <-. now destruct f.
Qed.

Lemma loses_better p q a : loses_category p q a ->
  forall f g, takes p a = Some f -> takes q a = Some g -> binds g (snd a) = true -> better_binding f g = true.
Proof.
  intros [t c h N N'] f g T T' B. cbn in *. rewrite Nat.eqb_refl in *. injection T as <-. injection T' as <-.
  destruct c, h; cbn in *; try discriminate; try congruence; reflexivity.
Qed.

Lemma loses_exists ps : forall qs args fs gs,
  Exists3 loses_category ps qs args -> conversions ps args = Some fs -> conversions qs args = Some gs ->
  existsb (fun x => better_binding (fst x) (snd x)) (combine fs gs) = true.
Proof.
  intros qs args fs gs H. revert fs gs. induction H as [p q a ps qs args L|p q a ps qs args L IH]; intros fs gs; cbn [conversions];
    (destruct (takes p a) as [f|] eqn:T; [|discriminate]; destruct (conversions ps args) as [fs'|]; [|discriminate];
     destruct (binds f (snd a)) eqn:B; [|discriminate]; intros E; injection E as <-;
     destruct (takes q a) as [g|] eqn:T'; [|discriminate]; destruct (conversions qs args) as [gs'|]; [|discriminate];
     destruct (binds g (snd a)) eqn:B'; [|discriminate]; intros E; injection E as <-; cbn).
  - now rewrite (loses_better _ _ _ L f g T T' B').
  - rewrite (IH fs' gs' eq_refl eq_refl). apply orb_true_r.
Qed.

Lemma template_generic l : is_template l = true <-> generic l.
Proof.
  unfold is_template, generic. rewrite existsb_exists. split.
  - intros ([t f|f] & I & H); [discriminate|eauto].
  - intros (f & I). exists (Generic f). auto.
Qed.

Lemma better_intro oc args l l' :
  viable oc args l = true -> viable oc args l' = true -> same_object oc l l' ->
  Forall3 not_worse_at (l_params l) (l_params l') args ->
  (Exists3 loses_category (l_params l) (l_params l') args \/
   (~ generic l /\ generic l') \/
   (generic l /\ generic l' /\ at_least_as_specialized (l_params l) (l_params l') = true /\
    at_least_as_specialized (l_params l') (l_params l) = false)) ->
  better oc args l l' = true.
Proof.
  intros V V' S N H. unfold better.
  destruct (all_conversions_viable _ _ _ V) as (fs & C & ->). destruct (all_conversions_viable _ _ _ V') as (gs & C' & ->).
  cbn [combine forallb existsb fst snd]. rewrite (object_ok _ _ _ _ S V'). rewrite (not_worse_all _ _ _ _ _ N C C'). cbn [negb andb].
  destruct H as [L|[[G G']|(G & G' & A & A')]].
  - rewrite (loses_exists _ _ _ _ _ L C C'). now rewrite !orb_true_r.
  - rewrite <- template_generic in G, G'. rewrite G'. apply not_true_is_false in G. rewrite G. cbn.
    now rewrite orb_true_r.
  - rewrite <- template_generic in G, G'. rewrite G, G', A, A'. cbn. now rewrite orb_true_r.
Qed.

Lemma forall3_mono {A B C} (P Q : A -> B -> C -> Prop) :
  (forall a b c, P a b c -> Q a b c) -> forall la lb lc, Forall3 P la lb lc -> Forall3 Q la lb lc.
Proof. intros H la lb lc F. induction F; constructor; auto. Qed.

Lemma exact_forall3 ps qs args : Forall2 exact ps args -> Forall2 accepts qs args -> Forall3 not_worse_at ps qs args.
Proof.
  intros E. revert qs. induction E as [|p a ps args E F IH]; intros qs A; inversion A; subst; constructor; auto.
  now apply exact_not_worse.
Qed.

Lemma exact_accepts p a : exact p a -> accepts p a.
Proof. intros [t c|t c]; [constructor|]. destruct c; constructor; cbn; auto. Qed.

Lemma forall2_impl {A B} (P Q : A -> B -> Prop) la lb : (forall a b, P a b -> Q a b) -> Forall2 P la lb -> Forall2 Q la lb.
Proof. intros H F. induction F; constructor; auto. Qed.

(** *** Refinement of generic handlers *)

Lemma loses_to_refl f : loses_to f f = false.
Proof. now destruct f. Qed.

Lemma refines_at_least ps qs args : Forall3 refines ps qs args -> at_least_as_specialized ps qs = true.
Proof.
  unfold at_least_as_specialized. induction 1 as [|p q a ps qs args R F IH]; [reflexivity|]. cbn. rewrite IH, andb_true_r.
  destruct R as [[t f|f] a'|p' f a' E]; cbn; rewrite ?Nat.eqb_refl, ?loses_to_refl; auto. now destruct E.
Qed.

Lemma refines_not_at_least ps qs args : Forall3 refines ps qs args -> ps <> qs -> at_least_as_specialized qs ps = false.
Proof.
  unfold at_least_as_specialized. induction 1 as [|p q a ps qs args R F IH]; [congruence|]. intros N. cbn.
  destruct R as [p' a'|p' f a' E].
  - rewrite IH; [apply andb_false_r|congruence].
  - destruct E; reflexivity.
Qed.

Lemma refines_generic ps qs args : Forall3 refines ps qs args -> ps <> qs -> exists f, In (Generic f) qs.
Proof.
  induction 1 as [|p q a ps qs args R F IH]; [congruence|]. intros N. destruct R as [p' a'|p' f a' E].
  - destruct IH as (f & I); [congruence|]. exists f. now right.
  - exists f. now left.
Qed.

(** *** Generic handlers with one parameter *)

Fixpoint pairs {A} (l : list A) : list (A * A) := match l with [] => [] | x :: l => map (pair x) l ++ pairs l end.

Lemma before_pairs {A} (x y : A) l : before x y l -> In (x, y) (pairs l).
Proof.
  intros (a & b & -> & I). induction a as [|z a IH]; cbn; apply in_or_app; [left; now apply in_map|now right].
Qed.

Lemma generic_unary_better t c oc b f g :
  (oc = true -> b = true) -> before f g (preference c) ->
  better oc [(t, c)] (mk_lambda [Generic f] b) (mk_lambda [Generic g] b) = true.
Proof.
  intros O B. apply before_pairs in B.
  assert (H : oc && negb b = false) by (destruct oc, b; auto; discriminate (O eq_refl)).
  unfold better, all_conversions. cbn [l_const l_params]. rewrite H.
  destruct c; cbn in B; repeat (destruct B as [B|B]; [injection B as <- <-; destruct b; reflexivity|]); contradiction.
Qed.
