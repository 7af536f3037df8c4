(** Theorems about with(), single() and single_or_default(): C57, C58. *)

From Coq Require Import ZArith Arith Bool Lia List.
From Verif Require Import Base TypeSeqModel TypeSeqSpec TypeSeqProofs TupleProofs WithModel WithSpec.
Import ListNotations.

Section Props.
  Context {T V : Type}.
  Variable eq_dec : forall a b : T, {a = b} + {a <> b}.
  Variable convert : T -> T -> V -> option V.

  (** C57.  By the language rules with<I>() is rejected whenever there is an element I. *)
  Theorem C57_ambiguous_rejected : forall i (t : list (T * V)) x, i < length t -> with_index convert false i t x = IllFormed.
  Proof.
    intros i t x H. unfold with_index.
    assert (W : exists us, with_element i (fst x) (map fst t) = Ok us).
    { unfold with_element. assert (G : forall l, exists us, mapM (fun j => replace_element i (fst x) j (map fst t)) l = Ok us).
      { induction l as [|j l [us IH]]; [eexists; reflexivity|]. cbn [mapM].
        assert (R : exists u, replace_element i (fst x) j (map fst t) = Ok u).
        { unfold replace_element, nth_type. destruct (Nat.eqb j i); [eauto|]. destruct (nth_error (map fst t) i) eqn:E; [eauto|]. apply nth_error_None in E. rewrite map_length in E. lia. }
        destruct R as [u ->]. rewrite IH. cbn. eauto. }
      apply G. }
    destruct W as [us ->]. cbn [bind].
    assert (G : forall n s, s <= i < s + n -> s + n <= length t -> mapM (get_or_replace false i t x) (seq s n) = IllFormed).
    { induction n as [|n IH]; intros s Hs Hn; [lia|]. cbn [seq mapM]. unfold get_or_replace at 1. destruct (Nat.eqb_spec s i); [reflexivity|].
      unfold tget. destruct (nth_error t s) as [e|] eqn:E; [|reflexivity]. cbn [bind]. rewrite IH by lia. reflexivity. }
    rewrite G by lia. reflexivity.
  Qed.

  Lemma init_ok : forall us es, length us = length es -> (forall k u e, nth_error us k = Some u -> nth_error es k = Some e -> convert (fst e) u (snd e) <> None) ->
    exists r, init_elements convert us es = Ok r /\ length r = length es /\
      forall k u e, nth_error us k = Some u -> nth_error es k = Some e -> exists v, convert (fst e) u (snd e) = Some v /\ nth_error r k = Some (u, v).
  Proof.
    induction us as [|u us IH]; intros es L C; destruct es as [|e es]; try discriminate; cbn [init_elements].
    - exists []. repeat split. intros [|k]; discriminate.
    - unfold init_element. destruct (convert (fst e) u (snd e)) as [v|] eqn:E; [|destruct (C 0 u e eq_refl eq_refl E)].
      cbn [bind]. destruct (IH es) as (r & R1 & R2 & R3); [cbn in L; lia|intros k; apply (C (S k))|]. rewrite R1. cbn [bind]. exists ((u, v) :: r). split; [reflexivity|]. split; [cbn; lia|].
      intros [|k] u' e' H1 H2; [cbn in *; injection H1 as <-; injection H2 as <-; eauto|exact (R3 k u' e' H1 H2)].
  Qed.

  Lemma seq_nth_error : forall n k, k < n -> nth_error (seq 0 n) k = Some k.
  Proof. intros n k H. rewrite nth_error_nth' with (d := 0) by (rewrite seq_length; lia). rewrite seq_nth by lia. reflexivity. Qed.
  Lemma mapM_seq : forall A (f : nat -> outcome A) n, (forall k, k < n -> exists a, f k = Ok a) ->
    exists l, mapM f (seq 0 n) = Ok l /\ length l = n /\ forall k a, k < n -> f k = Ok a -> nth_error l k = Some a.
  Proof.
    intros A f n H. assert (G : forall l, (forall k, In k l -> exists a, f k = Ok a) -> exists r, mapM f l = Ok r).
    { induction l as [|k l IH]; intro I; [eexists; reflexivity|]. cbn. destruct (I k (or_introl eq_refl)) as [a ->]. destruct IH as [r ->]; [intros; apply I; right; auto|]. eexists; reflexivity. }
    destruct (G (seq 0 n)) as [l E]; [intros k I; apply in_seq in I; apply H; lia|]. exists l. split; [exact E|]. apply mapM_inv in E. pose proof (Forall2_length E) as L. rewrite seq_length in L. split; [auto|].
    intros k a K F. assert (Q : forall l1 l2, Forall2 (fun x y => f x = Ok y) l1 l2 -> forall k x, nth_error l1 k = Some x -> exists y, nth_error l2 k = Some y /\ f x = Ok y).
    { clear. induction 1; intros k z Hk; destruct k; cbn in *; try discriminate; [injection Hk as <-; eauto|eauto]. }
    destruct (Q _ _ E k k (seq_nth_error n k K)) as (y & H1 & H2). congruence.
  Qed.

  (** A compiler that does rank the overloads: the result has the right number of elements and the new one in place I;
      but all others are converted to the type of the old element I. *)
  Theorem C57_with_index_partial : forall i (t : list (T * V)) x told, nth_error t i = Some told ->
    (forall ty v, convert ty ty v = Some v) ->
    (forall e, In e t -> convert (fst e) (fst told) (snd e) <> None) ->
    exists t', with_index convert true i t x = Ok t' /\ length t' = length t /\ nth_error t' i = Some x /\
      forall j e, j <> i -> nth_error t j = Some e -> exists v, convert (fst e) (fst told) (snd e) = Some v /\ nth_error t' j = Some (fst told, v).
  Proof.
    intros i t x told Hi Hid Hc. unfold with_index, with_element. rewrite map_length. set (n := length t).
    assert (Li : i < n) by (apply nth_error_Some; congruence).
    assert (Nt : nth_error (map fst t) i = Some (fst told)) by (rewrite nth_error_map, Hi; reflexivity).
    destruct (mapM_seq _ (fun j => replace_element i (fst x) j (map fst t)) n) as (us & E1 & L1 & N1).
    { intros k K. unfold replace_element, nth_type. rewrite Nt. destruct (Nat.eqb k i); eauto. }
    rewrite E1. cbn [bind]. destruct (mapM_seq _ (get_or_replace true i t x) n) as (es & E2 & L2 & N2).
    { intros k K. unfold get_or_replace, tget. destruct (Nat.eqb k i); eauto. destruct (nth_error t k) eqn:E; eauto. apply nth_error_None in E. unfold n in K. lia. }
    rewrite E2. cbn [bind].
    assert (U : forall k u e, nth_error us k = Some u -> nth_error es k = Some e -> k = i /\ u = fst x /\ e = x \/ k <> i /\ u = fst told /\ nth_error t k = Some e).
    { intros k u e H1 H2. assert (K : k < n) by (rewrite <- L1; apply nth_error_Some; congruence). destruct (Nat.eq_dec k i) as [->|N]; [left|right]; (split; [auto|]).
      - specialize (N1 i (fst x) K). specialize (N2 i x K). unfold replace_element, get_or_replace in *. rewrite Nat.eqb_refl in *. rewrite (N1 eq_refl) in H1. rewrite (N2 eq_refl) in H2. split; congruence.
      - specialize (N1 k (fst told) K). unfold replace_element, nth_type in N1. rewrite Nt in N1. rewrite (proj2 (Nat.eqb_neq k i) N) in N1. rewrite (N1 eq_refl) in H1. split; [congruence|].
        destruct (nth_error t k) as [e'|] eqn:E; [|apply nth_error_None in E; unfold n in K; lia]. specialize (N2 k e' K). unfold get_or_replace, tget in N2. rewrite (proj2 (Nat.eqb_neq k i) N), E in N2. rewrite (N2 eq_refl) in H2. congruence. }
    destruct (init_ok us es) as (r & R1 & R2 & R3); [congruence| |].
    { intros k u e H1 H2. destruct (U k u e H1 H2) as [(_ & -> & ->)|(_ & -> & H)]; [rewrite Hid; discriminate|]. apply Hc. eapply nth_error_In; eauto. }
    exists r. split; [exact R1|]. split; [unfold n in *; congruence|].
    assert (G : forall k, k < n -> exists u e, nth_error us k = Some u /\ nth_error es k = Some e).
    { intros k K. destruct (nth_error us k) as [u|] eqn:A; [|apply nth_error_None in A; lia]. destruct (nth_error es k) as [e|] eqn:B; [|apply nth_error_None in B; lia]. eauto. }
    split.
    - destruct (G i Li) as (u & e & A & B). destruct (R3 i u e A B) as (v & C & D). destruct (U i u e A B) as [(_ & -> & ->)|(N & _)]; [|congruence].
      rewrite Hid in C. injection C as <-. rewrite D. destruct x; reflexivity.
    - intros j e N Hj. destruct (G j ltac:(unfold n; apply nth_error_Some; congruence)) as (u & e' & A & B). destruct (R3 j u e' A B) as (v & C & D).
      destruct (U j u e' A B) as [(? & _)|(_ & -> & H)]; [congruence|]. rewrite Hj in H. injection H as <-. eauto.
  Qed.
  (** Hence it is right for tuples all elements of which have the type of the replaced one. *)
  Theorem C57_homogeneous_partial : forall i (t : list (T * V)) x ty, i < length t -> (forall ty v, convert ty ty v = Some v) ->
    (forall e, In e t -> fst e = ty) -> exists t', with_index convert true i t x = Ok t' /\ replaced t i x t'.
  Proof.
    intros i t x ty Hi Hid H. destruct (nth_error t i) as [told|] eqn:E; [|apply nth_error_None in E; lia].
    assert (To : fst told = ty) by (apply H; eapply nth_error_In; eauto).
    destruct (C57_with_index_partial i t x told E Hid) as (t' & R1 & R2 & R3 & R4).
    { intros e I. rewrite (H e I), To, Hid. discriminate. }
    exists t'. split; [exact R1|]. split; [exact R2|]. split; [exact R3|]. intros j N. destruct (nth_error t j) as [e|] eqn:Ej.
    - destruct (R4 j e N Ej) as (v & C & D). rewrite D, To. assert (Te : fst e = ty) by (apply H; eapply nth_error_In; eauto). rewrite To, Te, Hid in C. injection C as <-. rewrite <- Te. destruct e; reflexivity.
    - apply nth_error_None. apply nth_error_None in Ej. lia.
  Qed.
  (** with<T>() and with(pred) replace the element that they should: the only one that matches. *)
  Theorem C57_selection : forall rk (pred : T -> bool) (t : list (T * V)) x,
    (forall p, only_position (fun ty => pred ty = true) (map fst t) p -> with_pred convert rk pred t x = with_index convert rk p t x) /\
    ((~ exists p, only_position (fun ty => pred ty = true) (map fst t) p) -> with_pred convert rk pred t x = IllFormed) /\
    (forall ty, with_type eq_dec convert rk ty t x = with_pred convert rk (same eq_dec ty) t x).
  Proof.
    intros rk pred t x. destruct (search_tuple_element_index_spec pred (map fst t)) as [S1 S2]. unfold with_pred, tuple_element_index. split; [|split].
    - intros p P. apply S1 in P. rewrite P. destruct (Z.eqb_spec (Z.of_nat p) (-1)); [lia|]. destruct (Z.eqb_spec (Z.of_nat p) (-2)); [lia|]. cbn [bind]. rewrite Nat2Z.id. reflexivity.
    - intro N. apply S2 in N. destruct (search_unique_spec pred (map fst t) 0) as [[-> _]|[(p & E & _)|[-> _]]]; try reflexivity. rewrite E in N. lia.
    - reflexivity.
  Qed.

  (** C58.  single() never finds anything, and single_or_default() always returns the default: for every tuple and every
      predicate whose type is not that of the tuple. *)
  Theorem C58_single_rejected : forall tuple_type (t : list (T * V)) pred_type, tuple_type <> pred_type -> single eq_dec tuple_type t pred_type = IllFormed.
  Proof. intros a t b N. unfold single, search_type_pack_index. cbn. unfold same. destruct (eq_dec a b); [contradiction|]. reflexivity. Qed.
  Theorem C58_single_or_default_default : forall tuple_type (t : list (T * V)) pred_type d, tuple_type <> pred_type -> single_or_default eq_dec tuple_type t pred_type d = Ok d.
  Proof. intros a t b d N. unfold single_or_default, search_type_pack_index. cbn. unfold same. destruct (eq_dec a b); [contradiction|]. reflexivity. Qed.
  (** What is left of the claim: both do the right thing if no element matches, and single() also if there are several. *)
  Theorem C58_partial : forall tuple_type (t : list (T * V)) pred pred_type d, tuple_type <> pred_type ->
    (length (matches pred t) <> 1 -> single eq_dec tuple_type t pred_type = IllFormed) /\
    (matches pred t = [] -> single_or_default eq_dec tuple_type t pred_type d = Ok d).
  Proof. intros. split; intros; [apply C58_single_rejected|apply C58_single_or_default_default]; assumption. Qed.

  (** For rvalues the calls are what is described above ... *)
  Theorem C57_rvalues : forall rk i ty pred (t : list (T * V)) x,
    with_index_call convert rk false i t x = with_index convert rk i t x /\
    with_type_call eq_dec convert rk false ty t x = with_type eq_dec convert rk ty t x /\
    with_pred_call convert rk false pred t x = with_pred convert rk pred t x.
  Proof. intros. repeat split. Qed.
  Theorem C58_rvalues : forall tuple_type (t : list (T * V)) pred_type d,
    single_call eq_dec false tuple_type t pred_type = single eq_dec tuple_type t pred_type /\
    single_or_default_call eq_dec false tuple_type t pred_type d = single_or_default eq_dec tuple_type t pred_type d.
  Proof. intros. split; reflexivity. Qed.
  (** ... but lvalues are rejected, whatever the compiler does with the overloads. *)
  Theorem C57_lvalues_rejected : forall rk i ty pred (t : list (T * V)) x,
    with_index_call convert rk true i t x = IllFormed /\ with_type_call eq_dec convert rk true ty t x = IllFormed /\
    with_pred_call convert rk true pred t x = IllFormed.
  Proof.
    intros. split; [reflexivity|]. split; [reflexivity|]. unfold with_pred_call, tuple_element_index.
    destruct (Z.eqb _ _); [reflexivity|]. destruct (Z.eqb _ _); reflexivity.
  Qed.
  Theorem C58_lvalues_rejected : forall tuple_type (t : list (T * V)) pred_type d,
    single_call eq_dec true tuple_type t pred_type = IllFormed /\ single_or_default_call eq_dec true tuple_type t pred_type d = IllFormed.
  Proof. intros. split; reflexivity. Qed.
End Props.

(** Numbers of two types: doubles are counted in halves. *)
Inductive num_type := TInt | TDouble | TTuple | TLambda.
Definition num_eq_dec : forall a b : num_type, {a = b} + {a <> b}.
Proof. decide equality. Defined.
Definition num_convert (a b : num_type) (v : Z) : option Z :=
  match a, b with
  | TInt, TInt | TDouble, TDouble => Some v
  | TInt, TDouble => Some (2 * v)%Z
  | TDouble, TInt => Some (Z.quot v 2)
  | TTuple, TTuple | TLambda, TLambda => Some v
  | _, _ => None
  end.
(** with<0>(std::tuple{ 1, 2.5 }, 7) is std::tuple<int, int>{ 7, 2 } if it compiles: the type and the value of the other element are lost. *)
Theorem C57_types_refuted : exists t x t', with_index num_convert true 0 t x = Ok t' /\ ~ replaced t 0 x t' /\
  t = [(TInt, 1%Z); (TDouble, 5%Z)] /\ t' = [(TInt, 7%Z); (TInt, 2%Z)].
Proof. exists [(TInt, 1%Z); (TDouble, 5%Z)], (TInt, 7%Z). eexists. split; [reflexivity|]. split; [|split; reflexivity]. intros (_ & _ & H). specialize (H 1 ltac:(lia)). discriminate. Qed.
Example C57_example : with_index num_convert true 1 [(TInt, 1%Z); (TInt, 2%Z); (TInt, 3%Z)] (TDouble, 5%Z) = Ok [(TInt, 1%Z); (TDouble, 5%Z); (TInt, 3%Z)] /\
  with_index num_convert false 1 [(TInt, 1%Z); (TInt, 2%Z)] (TDouble, 5%Z) = IllFormed /\
  with_type num_eq_dec num_convert true TDouble [(TInt, 1%Z); (TDouble, 2%Z)] (TInt, 5%Z) = Ok [(TDouble, 2%Z); (TInt, 5%Z)] /\
  with_type num_eq_dec num_convert true TInt [(TInt, 1%Z); (TInt, 2%Z)] (TInt, 5%Z) = IllFormed.
Proof. repeat split. Qed.
Theorem C57_ambiguous_refuted : exists (t : list (num_type * Z)) i x, i < length t /\ with_index num_convert false i t x = IllFormed.
Proof. exists [(TInt, 1%Z); (TInt, 2%Z)], 1, (TDouble, 5%Z). split; [cbn; lia|reflexivity]. Qed.
Theorem C58_single_refuted : exists (t : list (num_type * Z)) pred e, matches pred t = [e] /\ single num_eq_dec TTuple t TLambda = IllFormed.
Proof. exists [(TInt, 1%Z); (TDouble, 4%Z)], (fun ty => match ty with TInt => true | _ => false end). eexists. split; reflexivity. Qed.
Theorem C58_single_or_default_refuted : exists (t : list (num_type * Z)) pred e d, matches pred t = [e] /\ e <> d /\
  single_or_default num_eq_dec TTuple t TLambda d = Ok d.
Proof.
  exists [(TInt, 1%Z); (TDouble, 4%Z)], (fun ty => match ty with TInt => true | _ => false end). eexists. exists (TInt, 9%Z).
  split; [reflexivity|]. split; [discriminate|reflexivity].
Qed.
(** The documented example: std::is_integral<> matches the first element, and yet the default is returned. *)
Example C58_example : let t := [(TInt, 1%Z); (TDouble, 4%Z)] in
  matches (fun ty => match ty with TInt => true | _ => false end) t = [(TInt, 1%Z)] /\
  single num_eq_dec TTuple t TLambda = IllFormed /\ single_or_default num_eq_dec TTuple t TLambda (TInt, 9%Z) = Ok (TInt, 9%Z).
Proof. repeat split. Qed.
(** The documented calls, auto t = std::tuple{ 1, 2.0 }; with<1>(t, 3.0f), have lvalue arguments. *)
Theorem C57_lvalues_refuted : exists rk i (t : list (num_type * Z)) x t', with_index_call num_convert rk false i t x = Ok t' /\ replaced t i x t' /\
  with_index_call num_convert rk true i t x = IllFormed.
Proof.
  exists true, 1, [(TInt, 1%Z); (TInt, 4%Z)], (TDouble, 6%Z), [(TInt, 1%Z); (TDouble, 6%Z)]. split; [reflexivity|]. split; [|reflexivity].
  split; [reflexivity|]. split; [reflexivity|]. intros [|[|j]] N; try reflexivity; lia.
Qed.
Theorem C58_lvalues_refuted : exists (t : list (num_type * Z)) pred d, matches pred t = [] /\
  single_or_default_call num_eq_dec false TTuple t TLambda d = Ok d /\ single_or_default_call num_eq_dec true TTuple t TLambda d = IllFormed.
Proof. exists [(TDouble, 4%Z)], (fun ty => match ty with TInt => true | _ => false end), (TInt, 9%Z). repeat split. Qed.
Print Assumptions C57_rvalues.
Print Assumptions C58_rvalues.
Print Assumptions C57_lvalues_rejected.
Print Assumptions C58_lvalues_rejected.
Print Assumptions C57_lvalues_refuted.
Print Assumptions C58_lvalues_refuted.
Print Assumptions C57_ambiguous_rejected.
Print Assumptions C57_ambiguous_refuted.
Print Assumptions C57_with_index_partial.
Print Assumptions C57_homogeneous_partial.
Print Assumptions C57_selection.
Print Assumptions C58_single_rejected.
Print Assumptions C58_single_refuted.
Print Assumptions C58_single_or_default_default.
Print Assumptions C58_single_or_default_refuted.
Print Assumptions C58_partial.
Print Assumptions C57_types_refuted.
