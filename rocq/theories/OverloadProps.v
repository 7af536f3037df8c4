(** C79: functors combined by overload(). *)

From Coq Require Import Arith Bool Lia List Permutation.
From Verif Require Import Base OverloadModel OverloadSpec OverloadProofs.
Import ListNotations.

Section C79.
  Variable ty : Type.
  Variable ty_eqb : ty -> ty -> bool.
  Hypothesis ty_eqb_spec : forall t u, ty_eqb t u = true <-> t = u.
  Variable conv : ty -> ty -> option nat.
  Variables S V R : Type.
  Variable body : nat -> nat -> list V -> S -> outcome (S * R).
  Variable type_of : V -> ty.
  Local Notation call := (call ty ty_eqb conv S V R body type_of).

  (** A call is a call of the operator that overload resolution selects among all operators of all functors, on the functor
      that has it; without such an operator it does not compile. *)
  Theorem C79_best : forall fs oc args st, usable fs ->
    (forall id k o, selected ty conv (Over fs) oc (map type_of args) id k o ->
       call (Over fs) oc args st = do ' (s, r) <- body id k args (st id); Ok (if op_const o then st else set_object st id s, r)) /\
    ((forall id k o, ~ selected ty conv (Over fs) oc (map type_of args) id k o) -> call (Over fs) oc args st = IllFormed).
  Proof. intros fs oc args st U. apply call_selected; auto; [apply usable_well_formed; auto|apply U]. Qed.

  (** In particular, if only one of the functors can be called with the arguments, it is called. *)
  Theorem C79_only_callable : forall fs oc args st id k o, usable fs -> has_operator (Over fs) id k o -> callable ty conv oc (map type_of args) o ->
    (forall id' k' o', has_operator (Over fs) id' k' o' -> callable ty conv oc (map type_of args) o' -> (id', k') = (id, k)) ->
    call (Over fs) oc args st = do ' (s, r) <- body id k args (st id); Ok (if op_const o then st else set_object st id s, r).
  Proof.
    intros fs oc args st id k o U H C A. apply C79_best; auto. split; auto. split; auto. intros id' k' o' H' C' Ne. destruct Ne. eauto.
  Qed.

  (** The order of the functors does not matter. *)
  Theorem C79_order : forall fs gs oc args st, Permutation fs gs -> call (Over fs) oc args st = call (Over gs) oc args st.
  Proof. intros. apply call_perm; auto. Qed.

  (** Neither does it matter whether functors have been combined before. *)
  Theorem C79_nested : forall fs gs hs oc args st, well_formed (Over (fs ++ Over gs :: hs)) = true -> NoDup (classes (Over (fs ++ Over gs :: hs))) ->
    call (Over (fs ++ Over gs :: hs)) oc args st = call (Over (fs ++ gs ++ hs)) oc args st.
  Proof. intros. apply call_nested; auto. Qed.

  (** A call changes the captures of the selected functor at most, and not even those if its operator is const. *)
  Theorem C79_state : forall fs oc args st st' r, usable fs -> call (Over fs) oc args st = Ok (st', r) ->
    exists id k o, selected ty conv (Over fs) oc (map type_of args) id k o /\ (forall j, j <> id -> st' j = st j) /\ (op_const o = true -> st' = st) /\
      exists s, body id k args (st id) = Ok (s, r) /\ (op_const o = false -> st' id = s).
  Proof.
    intros fs oc args st st' r U E.
    destruct (resolve_iff ty ty_eqb conv oc (map type_of args) (operators (Over fs)) (0, 0, mk_op [] true) (operators_keys ty (Over fs) (proj2 U))) as [_ [N|[[[id k] o] N]]].
    - unfold OverloadModel.call in E. rewrite usable_well_formed, N in E; auto. discriminate.
    - apply resolve_selected in N; auto; [|apply U]. exists id, k, o. split; auto. destruct (C79_best fs oc args st U) as [B _]. rewrite (B id k o N) in E.
      destruct (body id k args (st id)) as [[s r']| | | | |]; try discriminate. cbn in E. injection E as <- <-. split; [|split].
      + intros j Hj. destruct (op_const o); auto. unfold set_object. apply Nat.eqb_neq in Hj. rewrite Hj. auto.
      + intros ->. auto.
      + exists s. split; auto. intros ->. unfold set_object. rewrite Nat.eqb_refl. auto.
  Qed.

  (** Of operators that are all const, one whose parameters have exactly the types of the arguments is called rather than a
      generic one or one that needs conversions. *)
  Theorem C79_exact_partial : forall fs oc args st id k o, usable fs ->
    (forall t, conv t t = Some 0) -> (forall t u, conv t u = Some 0 -> t = u) ->
    (forall id' k' o', has_operator (Over fs) id' k' o' -> op_const o' = true) ->
    has_operator (Over fs) id k o -> op_params o = map (fun v => Of (type_of v)) args ->
    (forall id' k' o', has_operator (Over fs) id' k' o' -> op_params o' = op_params o -> (id', k') = (id, k)) ->
    call (Over fs) oc args st = do ' (s, r) <- body id k args (st id); Ok (st, r).
  Proof.
    intros fs oc args st id k o U C0 C1 HC H E1 HU.
    assert (G : ~ generic o). { unfold generic. rewrite E1. intros Q. apply in_map_iff in Q as (v & [=] & _). }
    assert (Z : forall t p r i, nth_error (map type_of args) i = Some t -> nth_error (op_params o) i = Some p -> passes ty conv t p r -> p = Of t /\ r = 0).
    { intros t p r i Ht Hp Hr. rewrite E1 in Hp. rewrite nth_error_map in Ht, Hp. destruct (nth_error args i) as [v|]; [|discriminate]. cbn in Ht, Hp. injection Ht as <-. injection Hp as <-.
      split; auto. destruct Hr as [[[=] _]|(u & [= <-] & Hr)]. rewrite C0 in Hr. congruence. }
    destruct (C79_best fs oc args st U) as [B _]. specialize (B id k o). rewrite (HC id k o H) in B. apply B. split; auto. split.
    - split; [intros _; eapply HC; eauto|]. rewrite E1. clear - C0. induction args; cbn; constructor; auto. exists 0. right. eauto.
    - intros id' k' o' H' C' Ne. split.
      + split; [intros _ _; eapply HC; eauto|]. intros i t p p' r r' Ht Hp Hp' Hr Hr'. destruct (Z t p r i Ht Hp Hr) as [_ ->]. lia.
      + assert (D : generic o' \/ ~ generic o').
        { destruct (existsb (fun p => match p with Auto => true | Of _ => false end) (op_params o')) eqn:Eb; [left; apply template_iff; auto|]. right. intros Q. apply template_iff in Q. unfold is_template in Q. congruence. }
        destruct D as [D|D]; [auto|]. left. right.
        destruct C' as [_ C'].
        assert (Q : op_params o' = op_params o \/ exists i t p' r', nth_error (map type_of args) i = Some t /\ nth_error (op_params o') i = Some p' /\ passes ty conv t p' r' /\ 0 < r').
        { rewrite E1. clear - C' D C1 . unfold generic in D. revert D C'. generalize (op_params o'). induction args as [|v args IH]; intros ps D C'; cbn in C'; inversion C' as [|? p ? ps' [r Hr] F]; subst; [auto|].
          destruct (IH ps') as [->|(i & t & p' & r' & X)]; auto; [intros Q; apply D; right; auto| |].
          - destruct r as [|r]; [|right; exists 0, (type_of v), p, (Datatypes.S r); cbn; split; [auto|]; split; [auto|]; split; [auto|lia]].
            left. destruct Hr as [[-> _]|(u & -> & Hr)]; [destruct D; left; auto|]. apply C1 in Hr. subst u. reflexivity.
          - right. exists (Datatypes.S i), t, p', r'. auto. }
        destruct Q as [Q|(i & t & p' & r' & X1 & X2 & X3 & X4)]; [destruct Ne; eauto|].
        rewrite nth_error_map in X1. destruct (nth_error args i) as [v|] eqn:Ev; [|discriminate]. injection X1 as <-.
        exists i, (type_of v), (Of (type_of v)), p', 0, r'. rewrite nth_error_map, Ev. split; auto. split; [rewrite E1, nth_error_map, Ev; auto|]. split; auto. split; [right; eauto|auto].
  Qed.

  (** Of operators that are all const, a generic one serves as a fallback: it is called unless another operator accepts
      all arguments without conversion. *)
  Theorem C79_fallback_partial : forall fs oc args st id k o, usable fs ->
    (forall t u, conv t u = Some 0 -> t = u) ->
    (forall id' k' o', has_operator (Over fs) id' k' o' -> op_const o' = true) ->
    has_operator (Over fs) id k o -> op_params o = map (fun _ => Auto) args ->
    (forall id' k' o', has_operator (Over fs) id' k' o' -> (id', k') <> (id, k) -> length (op_params o') = length args ->
       exists i v u, nth_error args i = Some v /\ nth_error (op_params o') i = Some (Of u) /\ u <> type_of v) ->
    call (Over fs) oc args st = do ' (s, r) <- body id k args (st id); Ok (st, r).
  Proof.
    intros fs oc args st id k o U C1 HC H E1 HU. destruct (C79_best fs oc args st U) as [B _]. specialize (B id k o). rewrite (HC id k o H) in B. apply B.
    split; auto. split.
    - split; [intros _; eapply HC; eauto|]. rewrite E1. clear. induction args; cbn; constructor; auto. exists 0. left. auto.
    - intros id' k' o' H' [_ C'] Ne. destruct (HU id' k' o' H' Ne) as (i & v & u & X1 & X2 & X3).
      { clear - C'. rewrite <- (map_length type_of args). revert C'. generalize (map type_of args) (op_params o'). induction 1; cbn; auto. }
      split.
      + split; [intros _ _; eapply HC; eauto|]. intros j t p p' r r' Ht Hp Hp' Hr Hr'. rewrite E1, nth_error_map in Hp. destruct (nth_error args j); [|discriminate]. injection Hp as <-.
        destruct Hr as [[_ ->]|(? & [=] & _)]. lia.
      + left. right.
        assert (Q : exists r', passes ty conv (type_of v) (Of u) r').
        { clear - C' X1 X2. revert i X1 X2. generalize dependent (op_params o'). induction args as [|w args IH]; intros ps C' i X1 X2; [destruct i; discriminate|]. cbn in C'. inversion C' as [|? p ? ps' Hp F]; subst.
          destruct i as [|i]; cbn in X1, X2; [injection X1 as ->; injection X2 as ->; auto|]. eauto. }
        destruct Q as [r' Q]. exists i, (type_of v), Auto, (Of u), 0, r'. rewrite nth_error_map, X1. split; auto. rewrite E1, nth_error_map, X1. split; auto. split; auto.
        split; [left; auto|]. split; auto. destruct r'; [|lia]. destruct Q as [[[=] _]|(u' & [= <-] & Q)]. apply C1 in Q. congruence.
  Qed.

  (** A const overload object calls const operators only. *)
  Theorem C79_const_rejected : forall fs args st, usable fs -> (forall id k o, has_operator (Over fs) id k o -> op_const o = true -> ~ callable ty conv true (map type_of args) o) ->
    call (Over fs) true args st = IllFormed.
  Proof.
    intros fs args st U H. apply C79_best; auto. intros id k o (H1 & H2 & _). destruct H2 as [H2 H3]. apply (H id k o H1); auto. split; auto.
  Qed.

  (** Two functors whose operators have the same parameters, exactly the types of the arguments: the call does not compile. *)
  Theorem C79_ambiguous_rejected : forall fs oc args st id k id' k' o, usable fs -> (forall t, conv t t = Some 0) ->
    has_operator (Over fs) id k o -> has_operator (Over fs) id' k' o -> (id, k) <> (id', k') ->
    op_params o = map (fun v => Of (type_of v)) args -> (forall id k o, has_operator (Over fs) id k o -> op_const o = true) ->
    call (Over fs) oc args st = IllFormed.
  Proof.
    intros fs oc args st id k id' k' o U C0 H H' Ne E1 HC. apply C79_best; auto. intros j m q (X1 & X2 & X3).
    assert (C : callable ty conv oc (map type_of args) o).
    { split; [intros _; eapply HC; eauto|]. rewrite E1. clear - C0. induction args; cbn; constructor; auto. exists 0. right. eauto. }
    assert (P : preferred ty conv oc (map type_of args) q o).
    { destruct (Nat.eq_dec id j) as [Ej|Ej]; [destruct (Nat.eq_dec k m) as [Em|Em]|].
      - eapply X3; [exact H'|auto|congruence].
      - eapply X3; [exact H|auto|congruence].
      - eapply X3; [exact H|auto|congruence]. }
    destruct P as [_ [P|[[_ P]|(_ & P & _)]]].
    - destruct P as [(_ & P & _)|(i & t & p & p' & r & r' & P1 & P2 & P3 & P4 & P5 & P6)]; [rewrite (HC j m q X1) in P; discriminate|].
      rewrite E1 in P3. rewrite nth_error_map in P1, P3. destruct (nth_error args i) as [v|]; [|discriminate]. cbn in P1, P3. injection P1 as <-. injection P3 as <-.
      destruct P5 as [[[=] _]|(u & [= <-] & P5)]. rewrite C0 in P5. injection P5 as <-. lia.
    - unfold generic in P. rewrite E1 in P. apply in_map_iff in P as (v & [=] & _).
    - unfold generic in P. rewrite E1 in P. apply in_map_iff in P as (v & [=] & _).
  Qed.

  (** Functors of the same type cannot be combined; neither can functors that are no classes, or have no call operator. *)
  Theorem C79_functors_rejected : forall fs oc args st,
    ((exists i j f g, i <> j /\ nth_error fs i = Some f /\ nth_error fs j = Some g /\ same_type f g = true) \/ (exists id, In (NotABase id) fs) \/ (exists id, In (Class id []) fs)) ->
    call (Over fs) oc args st = IllFormed.
  Proof.
    intros fs oc args st H. unfold OverloadModel.call.
    assert (W : well_formed (Over fs) = false); [|rewrite W; auto]. cbn [well_formed].
    destruct (forallb well_formed fs && distinct fs && forallb (fun f => match f with NotABase _ => false | _ => match operators f with [] => false | _ => true end end) fs) eqn:E; auto.
    exfalso. rewrite !andb_true_iff in E. destruct E as [[_ D] E]. rewrite forallb_forall in E.
    assert (A : forall (l : list (functor ty)) i j f g, i < j -> nth_error l i = Some f -> nth_error l j = Some g -> same_type f g = true -> distinct l = true -> False).
    { clear. induction l as [|a l IH]; intros i j f g Lt Hf Hg Hs Hd; [destruct i; discriminate|]. cbn in Hd. apply andb_true_iff in Hd as [Hd1 Hd2]. destruct j as [|j]; [lia|]. destruct i as [|i].
      - cbn in Hf, Hg. injection Hf as ->. apply nth_error_In in Hg. apply negb_true_iff in Hd1. enough (existsb (same_type f) l = true) by congruence. apply existsb_exists. eauto.
      - cbn in Hf, Hg. eapply (IH i j); eauto. lia. }
    destruct H as [(i & j & f & g & Ne & Hf & Hg & Hs)|[[id H]|[id H]]].
    - destruct (Nat.lt_ge_cases i j); [eapply (A fs i j); eauto|]. eapply (A fs j i); eauto; [lia|]. apply same_type_sym; auto.
    - specialize (E _ H). discriminate.
    - specialize (E _ H). discriminate.
  Qed.

  (** If a functor is part of two arguments that are combinations themselves, its operators cannot be called. *)
  Theorem C79_shared_rejected : forall f oc args st,
    (forall id k o, has_operator f id k o -> callable ty conv oc (map type_of args) o -> exists l m n, classes f = l ++ id :: m ++ id :: n) ->
    call f oc args st = IllFormed.
  Proof.
    intros f oc args st H. unfold OverloadModel.call. destruct (well_formed f); auto. rewrite resolve_eq.
    destruct (filter (wins ty ty_eqb conv oc (map type_of args) (operators f)) (operators f)) as [|c [|d l]] eqn:E; auto.
    assert (I : In c [c]) by (left; auto). rewrite <- E in I. apply filter_In in I as [I W]. destruct c as [[id k] o]. cbn [bind]. unfold wins in W. apply andb_true_iff in W as [W _]. apply viable_iff in W.
    apply operators_iff in I. destruct (H id k o I W) as (l & m & n & ->).
    destruct (count_occ Nat.eq_dec (l ++ id :: m ++ id :: n) id =? 1) eqn:Ec; auto. apply Nat.eqb_eq in Ec. rewrite count_occ_app in Ec. cbn [count_occ] in Ec. destruct (Nat.eq_dec id id); [|congruence].
    rewrite count_occ_app in Ec. cbn [count_occ] in Ec. destruct (Nat.eq_dec id id); [|congruence]. lia.
  Qed.
End C79.

(** The example of the documentation, functional.hpp: functors for int, float and anything else.
    Types: 0 int, 1 float, 2 double, 3 char, 4 a string.  Arithmetic types convert into each other (rank 2), char is promoted to int (rank 1). *)
Definition ex_conv (t u : nat) : option nat :=
  if t =? u then Some 0 else if (t =? 4) || (u =? 4) then None else if (t =? 3) && (u =? 0) then Some 1 else if (t =? 1) && (u =? 2) then Some 1 else Some 2.
Definition ex_body (id k : nat) (args : list nat) (s : nat) : outcome (nat * nat) := Ok (s + 1, 10 * id + k).
Definition ex_call (fs : list (functor nat)) (oc : bool) (args : list nat) : outcome (nat * list nat) :=
  do ' (st, r) <- call nat Nat.eqb ex_conv nat nat nat ex_body (fun t => t) (Over fs) oc args (fun _ => 0); Ok (r, map st [0; 1; 2]).
Definition ex_int : functor nat := Class 0 [mk_op [Of 0] true].
Definition ex_float : functor nat := Class 1 [mk_op [Of 1] true].
Definition ex_auto : functor nat := Class 2 [mk_op [Auto] true].
Definition ex_auto_mutable : functor nat := Class 2 [mk_op [Auto] false].

(** A mutable generic functor is called even for arguments that another functor accepts exactly. *)
Theorem C79_mutable_generic_refuted : exists (fs : list (functor nat)) id k o arg,
  usable fs /\ has_operator (Over fs) id k o /\ op_params o = [Of arg] /\ op_const o = true /\
  (forall id' k' o', has_operator (Over fs) id' k' o' -> op_params o' = op_params o -> (id', k') = (id, k)) /\
  exists id' k' o', has_operator (Over fs) id' k' o' /\ op_params o' = [Auto] /\ id' <> id /\
    forall conv (S V R : Type) body (type_of : V -> nat) v st, conv arg arg = Some 0 -> type_of v = arg ->
      call nat Nat.eqb conv S V R body type_of (Over fs) false [v] st = do ' (s, r) <- body id' k' [v] (st id'); Ok (set_object st id' s, r).
Proof.
  exists [ex_int; ex_auto_mutable], 0, 0, (mk_op [Of 0] true), 0.
  split. { split; [repeat (apply Forall_cons; [eexists _, _; split; [reflexivity|discriminate]|]); apply Forall_nil|]. cbn. repeat constructor; cbn; intuition discriminate. }
  split. { apply has_inherited with ex_int; [left; auto|]. constructor. auto. }
  split; [auto|]. split; [auto|]. split.
  { intros id' k' o' H E. apply operators_iff in H. cbn in H. destruct H as [H|[H|[]]]; injection H as <- <- <-; [auto|discriminate]. }
  exists 2, 0, (mk_op [Auto] false). split. { apply has_inherited with ex_auto_mutable; [right; left; auto|]. constructor. auto. }
  split; [auto|]. split; [discriminate|].
  intros conv S V R body type_of v st C0 Ev. unfold call. cbn [well_formed forallb distinct existsb same_type ex_int ex_auto_mutable operators flat_map map number fst snd app andb orb negb Nat.eqb].
  unfold resolve. cbn [filter fst snd]. unfold viable, better, all_ranks. cbn. rewrite Ev, C0. cbn. destruct (body 2 0 [v] (st 2)) as [[s r]| | | | |]; reflexivity.
Qed.

Example ex_usable : usable [ex_int; ex_float; ex_auto].
Proof. split; [repeat (apply Forall_cons; [eexists _, _; split; [reflexivity|discriminate]|]); apply Forall_nil|]. cbn. repeat constructor; cbn; intuition discriminate. Qed.

(** Exact matches, fallbacks (double and char would convert), a combined functor, a counter. *)
Example ex_documented :
  map (fun t => ex_call [ex_int; ex_float; ex_auto] true [t]) [0; 1; 2; 3; 4] = [Ok (0, [0; 0; 0]); Ok (10, [0; 0; 0]); Ok (20, [0; 0; 0]); Ok (20, [0; 0; 0]); Ok (20, [0; 0; 0])] /\
  map (fun t => ex_call [ex_int; ex_float] true [t]) [0; 1; 2; 3; 4] = [Ok (0, [0; 0; 0]); Ok (10, [0; 0; 0]); IllFormed; Ok (0, [0; 0; 0]); IllFormed] /\
  map (fun t => ex_call [ex_auto; Over [ex_float; ex_int]] false [t]) [0; 1; 2] = [Ok (0, [0; 0; 0]); Ok (10, [0; 0; 0]); Ok (20, [0; 0; 0])] /\
  map (fun t => ex_call [ex_int; ex_auto_mutable] false [t]) [0; 4] = [Ok (20, [0; 0; 1]); Ok (20, [0; 0; 1])] /\
  map (fun t => ex_call [ex_int; ex_auto_mutable] true [t]) [0; 4] = [Ok (0, [0; 0; 0]); IllFormed] /\
  ex_call [ex_int; ex_int] true [0] = IllFormed /\ ex_call [ex_int; Class 1 [mk_op [Of 0] true]] true [0] = IllFormed /\
  ex_call [ex_int; NotABase 1] true [0] = IllFormed /\ ex_call [Over [ex_int; ex_float]; Over [ex_int; ex_auto]] true [0] = IllFormed /\
  ex_call [Over [ex_int; ex_float]; Over [ex_int; ex_auto]] true [4] = Ok (20, [0; 0; 0]).
Proof. vm_compute. repeat split; reflexivity. Qed.

Print Assumptions C79_best.
Print Assumptions C79_only_callable.
Print Assumptions C79_order.
Print Assumptions C79_nested.
Print Assumptions C79_state.
Print Assumptions C79_exact_partial.
Print Assumptions C79_fallback_partial.
Print Assumptions C79_const_rejected.
Print Assumptions C79_ambiguous_rejected.
Print Assumptions C79_functors_rejected.
Print Assumptions C79_shared_rejected.
Print Assumptions C79_mutable_generic_refuted.
