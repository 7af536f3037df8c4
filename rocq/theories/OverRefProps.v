(** C99: overload with reference parameters and arguments of all value categories. *)

From Coq Require Import Arith Bool List Lia.
From Verif Require Import Base ForwardModel OverRefModel OverRefSpec OverRefProofs.
Import ListNotations.

(** The handler that is called accepts the arguments. *)
Theorem C99_callable : forall ls oc args i,
  select ls oc args = Ok i -> exists l, nth_error ls i = Some l /\ callable oc l args.
Proof. intros ls oc args i H. apply select_sound in H. destruct H as (l & E & V & _). exists l. now rewrite <- viable_callable. Qed.
Print Assumptions C99_callable.

(** If one handler accepts the arguments, it is called; if there is none, the call is rejected. *)
Theorem C99_single : forall ls oc args,
  (forall i l, nth_error ls i = Some l -> callable oc l args ->
    (forall j l', nth_error ls j = Some l' -> callable oc l' args -> j = i) -> select ls oc args = Ok i) /\
  ((forall l, In l ls -> ~ callable oc l args) -> select ls oc args = IllFormed).
Proof.
  intros ls oc args. split.
  - intros i l E C U. apply (select_best _ _ _ _ l E); [now apply viable_callable|].
    intros j l' E' N V. apply viable_callable in V. elim N. eauto.
  - intros H. destruct (select_cases ls oc args) as [->|(i & S)]; [reflexivity|].
    destruct (select_sound _ _ _ _ S) as (l & E & V & _). apply viable_callable in V. elim (H l); [|exact V].
    now apply nth_error_In in E.
Qed.
Print Assumptions C99_single.

(** A handler written for exactly these arguments is called, whatever generic handlers there are, and whatever handlers take one of the
    arguments by a reference that adds const or loses the value category. *)
Theorem C99_exact : forall ls oc args i l,
  nth_error ls i = Some l -> (oc = true -> l_const l = true) -> Forall2 exact (l_params l) args ->
  (forall j l', nth_error ls j = Some l' -> j <> i -> callable oc l' args ->
    same_object oc l l' /\ (generic l' \/ Exists3 loses_category (l_params l) (l_params l') args)) ->
  select ls oc args = Ok i.
Proof.
  intros ls oc args i l E O X H.
  assert (V : viable oc args l = true).
  { apply viable_callable. split; [exact O|]. now apply (forall2_impl exact); [apply exact_accepts|]. }
  apply (select_best _ _ _ _ l E V). intros j l' E' N V'. assert (C := V'). apply viable_callable in C.
  destruct (H j l' E' N C) as [S G]. apply better_intro; auto.
  - apply exact_forall3; [exact X|apply C].
  - destruct G as [G|G]; [right; left; split; [|exact G]|now left].
    intros (f & I). clear - X I. induction X as [|p a ps args X F IH]; [contradiction|].
    destruct I as [->|I]; [inversion X|auto].
Qed.
Print Assumptions C99_exact.

(** A handler that takes its arguments by reference to const is called for arguments of all value categories, if the generic handlers
    take the same arguments by value or by reference to const. *)
Theorem C99_const_ref_partial : forall ls oc args i l,
  nth_error ls i = Some l -> callable oc l args -> ~ generic l ->
  (forall j l', nth_error ls j = Some l' -> j <> i -> callable oc l' args ->
    same_object oc l l' /\ generic l' /\ Forall3 no_worse (l_params l) (l_params l') args) ->
  select ls oc args = Ok i.
Proof.
  intros ls oc args i l E C G H. assert (V := C). apply viable_callable in V.
  apply (select_best _ _ _ _ l E V). intros j l' E' N V'. assert (C' := V'). apply viable_callable in C'.
  destruct (H j l' E' N C') as (S & G' & F). apply better_intro; auto.
  now apply (forall3_mono no_worse); [apply no_worse_not_worse|].
Qed.
Print Assumptions C99_const_ref_partial.

(** But with a handler for T const& and a generic one for auto&&, the generic handler is called for arguments of type T that are not
    const; likewise, the handler for auto& is called for lvalues. *)
Theorem C99_const_ref_refuted : exists h g g' : lambda, forall t,
  h = mk_lambda [Param 0 CLRef] true /\ generic g /\ generic g' /\
  select [h; g] true [(0, CLv)] = Ok 0 /\ select [h; g] true [(0, Lv)] = Ok 1 /\ select [h; g] true [(0, Rv)] = Ok 1 /\
  select [h; g'] true [(0, Rv)] = Ok 0 /\ select [h; g'] true [(0, Lv)] = Ok 1 /\
  (t <> 0 -> select [h; g] true [(t, Lv)] = Ok 1).
Proof.
  exists (mk_lambda [Param 0 CLRef] true), (mk_lambda [Generic RRef] true), (mk_lambda [Generic LRef] true). intros t.
  split; [reflexivity|]. split; [exists RRef; now left|]. split; [exists LRef; now left|].
  repeat (split; [reflexivity|]). intros N. destruct t; [congruence|reflexivity].
Qed.
Print Assumptions C99_const_ref_refuted.

(** A handler that is like the other ones except that it names the types of more arguments is called. *)
Theorem C99_refines : forall ls oc args i l,
  nth_error ls i = Some l -> callable oc l args ->
  (forall j l', nth_error ls j = Some l' -> j <> i -> callable oc l' args ->
    same_object oc l l' /\ Forall3 refines (l_params l) (l_params l') args /\ l_params l <> l_params l') ->
  select ls oc args = Ok i.
Proof.
  intros ls oc args i l E C H. assert (V := C). apply viable_callable in V.
  apply (select_best _ _ _ _ l E V). intros j l' E' N V'. assert (C' := V'). apply viable_callable in C'.
  destruct (H j l' E' N C') as (S & F & D). apply better_intro; auto.
  - now apply (forall3_mono refines); [apply refines_not_worse|].
  - right. assert (G' : generic l') by exact (refines_generic _ _ _ F D).
    destruct (is_template l) eqn:T.
    + right. apply template_generic in T. split; [exact T|]. split; [exact G'|].
      split; [exact (refines_at_least _ _ _ F)|exact (refines_not_at_least _ _ _ F D)].
    + left. split; [|exact G']. rewrite <- template_generic. congruence.
Qed.
Print Assumptions C99_refines.

(** Among generic handlers that take one argument by reference, the one that comes first in the order of preference is called. *)
Theorem C99_generic : forall ls oc t c i f b,
  nth_error ls i = Some (mk_lambda [Generic f] b) -> (oc = true -> b = true) -> In f (preference c) ->
  (forall j l', nth_error ls j = Some l' -> j <> i -> callable oc l' [(t, c)] ->
    exists g, l' = mk_lambda [Generic g] b /\ before f g (preference c)) ->
  select ls oc [(t, c)] = Ok i.
Proof.
  intros ls oc t c i f b E O I H. apply (select_best _ _ _ _ _ E).
  - apply viable_callable. split; [exact O|]. constructor; [|constructor].
    destruct c; cbn in I; intuition subst; constructor; cbn; auto.
  - intros j l' E' N V. apply viable_callable in V. destruct (H j l' E' N V) as (g & -> & B).
    now apply generic_unary_better.
Qed.
Print Assumptions C99_generic.

(** A generic handler that takes its argument by value is ambiguous with every other generic handler that accepts the argument. *)
Theorem C99_generic_value_rejected : forall ls oc t c i j b f,
  nth_error ls i = Some (mk_lambda [Generic ByValue] b) -> nth_error ls j = Some (mk_lambda [Generic f] b) -> i <> j ->
  callable oc (mk_lambda [Generic f] b) [(t, c)] ->
  (forall k l, nth_error ls k = Some l -> callable oc l [(t, c)] -> exists g, l = mk_lambda [Generic g] b) ->
  select ls oc [(t, c)] = IllFormed.
Proof.
  intros ls oc t c i j b f Ei Ej N C A.
  assert (B : forall f g, f = ByValue \/ g = ByValue -> better oc [(t, c)] (mk_lambda [Generic f] b) (mk_lambda [Generic g] b) = false).
  { clear. intros f g H. unfold better, all_conversions. cbn [l_const l_params]. destruct (oc && negb b); [reflexivity|].
    destruct H as [-> | ->]; [destruct g|destruct f]; destruct c, b; reflexivity. }
  assert (Vi : viable oc [(t, c)] (mk_lambda [Generic ByValue] b) = true).
  { apply viable_callable. split; [apply C|repeat constructor]. }
  assert (Vj := C). apply viable_callable in Vj.
  destruct (select_cases ls oc [(t, c)]) as [->|(k & S)]; [reflexivity|exfalso].
  destruct (select_sound _ _ _ _ S) as (m & Em & Vm & W).
  destruct (A k m Em) as (g & ->); [now apply viable_callable|].
  destruct (Nat.eq_dec k i) as [->|Nk].
  - rewrite Ei in Em. injection Em as <-. specialize (W j _ Ej (not_eq_sym N) Vj). rewrite B in W; [discriminate|now left].
  - specialize (W i _ Ei (not_eq_sym Nk) Vi). rewrite B in W; [discriminate|now right].
Qed.
Print Assumptions C99_generic_value_rejected.

(** Two handlers for the same types are ambiguous if each argument is taken by value by one of them or in the same way by both. *)
Theorem C99_ambiguous_rejected : forall ls oc args i j l l',
  nth_error ls i = Some l -> nth_error ls j = Some l' -> i <> j ->
  callable oc l args -> callable oc l' args -> l_const l = l_const l' -> ~ generic l -> ~ generic l' ->
  Forall3 (fun p q a => p = q \/ p = Param (fst a) ByValue \/ q = Param (fst a) ByValue) (l_params l) (l_params l') args ->
  (forall k l'', nth_error ls k = Some l'' -> callable oc l'' args -> k = i \/ k = j \/ generic l'' /\ l_const l'' = l_const l /\ length (l_params l'') = length args /\
      Forall2 exact (l_params l) args) ->
  select ls oc args = IllFormed.
Proof.
  intros ls oc args i j l l' E E' N C C' K G G' F O.
  assert (T : is_template l = false) by (apply not_true_is_false; now rewrite template_generic).
  assert (T' : is_template l' = false) by (apply not_true_is_false; now rewrite template_generic).
  assert (V := C). assert (V' := C'). rewrite <- viable_callable in V, V'.
  assert (Q : forall ps qs fs gs args,
    Forall3 (fun p q a => p = q \/ p = Param (fst a) ByValue \/ q = Param (fst a) ByValue) ps qs args ->
    conversions ps args = Some fs -> conversions qs args = Some gs ->
    existsb (fun x => better_binding (fst x) (snd x)) (combine fs gs) = false /\
    existsb (fun x => better_binding (fst x) (snd x)) (combine gs fs) = false).
  { clear. intros ps qs fs gs args H. revert fs gs. induction H as [|p q a ps qs args H F IH]; intros fs gs; cbn [conversions].
    - intros A B. injection A as <-. injection B as <-. now cbn.
    - destruct (takes p a) as [f|] eqn:T; [|discriminate]. destruct (conversions ps args) as [fs'|]; [|discriminate].
      destruct (binds f (snd a)) eqn:B; [|discriminate]. intros A. injection A as <-.
      destruct (takes q a) as [g|] eqn:T'; [|discriminate]. destruct (conversions qs args) as [gs'|]; [|discriminate].
      destruct (binds g (snd a)) eqn:B'; [|discriminate]. intros A. injection A as <-. cbn.
      destruct (IH _ _ eq_refl eq_refl) as [-> ->].
      assert (Z : better_binding f g = false /\ better_binding g f = false).
      { destruct H as [ -> | [ -> | -> ]].
        - rewrite T in T'. injection T' as <-. now destruct f.
        - cbn in T. rewrite Nat.eqb_refl in T. injection T as <-. now destruct g.
        - cbn in T'. rewrite Nat.eqb_refl in T'. injection T' as <-. now destruct f. }
      now destruct Z as [-> ->]. }
  assert (B : better oc args l l' = false /\ better oc args l' l = false).
  { unfold better. destruct (all_conversions_viable _ _ _ V) as (fs & A & ->). destruct (all_conversions_viable _ _ _ V') as (gs & A' & ->).
    destruct (Q _ _ _ _ _ F A A') as [Q1 Q2]. rewrite T, T', K. cbn. rewrite Q1, Q2.
    assert (R : forall x, better_binding x x = false) by (now intros []). rewrite R. cbn. now rewrite !andb_false_r. }
  destruct (select_cases ls oc args) as [->|(k & S)]; [reflexivity|exfalso].
  destruct (select_sound _ _ _ _ S) as (m & Em & Vm & W).
  destruct (Nat.eq_dec k i) as [->|Ni].
  { rewrite E in Em. injection Em as <-. specialize (W j l' E' (not_eq_sym N) V'). destruct B. congruence. }
  destruct (Nat.eq_dec k j) as [->|Nj].
  { rewrite E' in Em. injection Em as <-. specialize (W i l E N V). destruct B. congruence. }
  assert (Cm := Vm). apply viable_callable in Cm. destruct (O k m Em Cm) as [X|[X|(Gm & Km & Lm & X)]]; [congruence|congruence|].
  specialize (W i l E (not_eq_sym Ni) V).
  assert (Y : better oc args l m = true).
  { apply better_intro; auto.
    - intros Kl. right. congruence.
    - apply exact_forall3; [exact X|apply Cm]. }
  apply better_asym in Y. congruence.
Qed.
Print Assumptions C99_ambiguous_rejected.

(** A handler that moves, one that copies, one for two arguments, and a fallback. *)
Example C99_example :
  let ls := [mk_lambda [Param 7 RRef] true; mk_lambda [Param 7 CLRef] true; mk_lambda [Param 7 LRef; Generic ByValue] true;
             mk_lambda [Generic CLRef] true; mk_lambda [Generic LRef; Generic ByValue] true] in
  select ls false [(7, Rv)] = Ok 0 /\ select ls false [(7, Lv)] = Ok 1 /\ select ls false [(7, CLv)] = Ok 1 /\
  select ls false [(8, Rv)] = Ok 3 /\ select ls true [(7, Lv); (8, Rv)] = Ok 2 /\ select ls true [(7, CLv); (8, Rv)] = Ok 4 /\
  select ls true [(7, Rv); (8, Rv)] = IllFormed /\ select ls true [] = IllFormed /\
  select [mk_lambda [Generic ByValue] true; mk_lambda [Generic LRef] true; mk_lambda [Generic RRef] true] true [(7, Lv)] = IllFormed /\
  select [mk_lambda [Param 7 ByValue] true; mk_lambda [Param 7 CLRef] true; mk_lambda [Generic RRef] true] false [(7, CLv)] = IllFormed.
Proof. repeat split. Qed.
(** The hypotheses of the theorems hold in these cases. *)
Example C99_example_hypotheses :
  Forall2 exact [Param 7 RRef] [(7, Rv)] /\ Exists3 loses_category [Param 7 RRef] [Param 7 CLRef] [(7, Rv)] /\
  Forall3 no_worse [Param 7 CLRef] [Generic CLRef] [(7, Lv)] /\
  Forall3 refines [Param 7 LRef; Generic ByValue] [Generic LRef; Generic ByValue] [(7, Lv); (8, Rv)] /\
  before LRef RRef (preference Lv) /\ callable true (mk_lambda [Generic LRef; Generic ByValue] true) [(7, CLv); (8, Rv)].
Proof.
  split; [constructor; [apply (exact_ref 7 Rv)|constructor]|].
  split; [apply ex3_here; apply (lc_intro 7 Rv); discriminate|].
  split; [constructor; [apply nw_const; now left|constructor]|].
  split; [constructor; [apply ref_exact, (exact_ref 7 Lv)|constructor; [apply ref_same|constructor]]|].
  split; [exists [], [RRef; CLRef]; split; [reflexivity|now left]|].
  split; [auto|]. constructor; [constructor; cbn; auto|]. constructor; constructor.
Qed.
