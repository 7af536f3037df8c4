(** C83: element types of transformed, filled, and concatenated arrays. *)

From Coq Require Import ZArith Arith Bool Lia List.
From Verif Require Import Base ExpandModel ExpandProofs TupleModel TupleProofs InitModel InitSpec InitProofs.
Import ListNotations.
Local Open Scope Z_scope.

Section Props.
  Variable user : ty -> ty -> option (val -> val).
  Variable default_of : nat -> option val.
  Variable call_type : bool -> list pty -> option rty.
  Variable call : list (pty * val) -> val.

  Lemma clauses_proper : forall args n rs, (forall ps r, call_type false ps = Some r -> proper (r_ty r)) ->
    results call_type call args n rs -> Forall (fun c => proper (fst c)) (clauses rs).
  Proof.
    intros args n rs P [_ H]. apply Forall_forall. intros c Hc. apply in_map_iff in Hc. destruct Hc as [[r v] [<- Hr]].
    apply In_nth_error in Hr. destruct Hr as [i Hi]. destruct (H _ _ _ Hi) as [es [_ [C _]]]. exact (P _ _ C).
  Qed.
  Lemma Forall2_clauses : forall T rs ws,
    Forall2 (fun c w => converted user (fst c) T (snd c) w) (clauses rs) ws <->
    Forall2 (fun r w => converted user (r_ty (fst r)) T (snd r) w) rs ws.
  Proof.
    intros T rs. unfold clauses. induction rs as [|[r v] rs IH]; intro ws; split; intro H; inversion H; subst; constructor; try assumption; apply IH; assumption.
  Qed.
  Lemma clauses_length : forall rs, length (clauses rs) = length rs.
  Proof. intro rs. apply map_length. Qed.

  (** With an element type that is not itself an array: the elements are the results, converted; a call is accepted if and only
      if every result can be converted without narrowing.  (A single result that is an array of the resulting type is copied.) *)
  Theorem C83_explicit : forall T N args n v, ~ is_array T -> n <> O -> sized N args n ->
    (forall ps r, call_type false ps = Some r -> proper (r_ty r)) ->
    (forall r w, results call_type call args 1 [(r, w)] -> n = 1%nat -> r_ty r <> Arr T 1) ->
    array_transform_to user default_of call_type call T N args = Ok v <->
    exists rs ws, results call_type call args n rs /\
      Forall2 (fun r w => converted user (r_ty (fst r)) T (snd r) w) rs ws /\ v = VArr ws.
  Proof.
    intros T N args n v NA Hn Sz P Single. unfold array_transform_to. rewrite (sized_ok _ _ _ Sz). cbn [bind].
    destruct n as [|n]; [contradiction|]. unfold array_transform_to_impl.
    assert (NC : forall rs, results call_type call args (S n) rs -> ~ copied T (clauses rs)).
    { intros rs R [w E]. destruct rs as [|[r x] [|q rs]]; try discriminate E. injection E as E _.
      assert (n = O) by (destruct R as [L _]; cbn in L; lia). subst n. exact (Single r x R eq_refl E). }
    split.
    - intro H. apply bind_ok_inv in H. destruct H as [cs [E H]]. destruct (mapM_results _ _ _ _ _ E) as [rs [R ->]].
      assert (L : S n = length (clauses rs)) by (rewrite clauses_length; symmetry; apply R). rewrite L in H.
      apply braced_scalar in H; [|assumption|apply NC; exact R]. destruct H as [ws [F ->]]. exists rs, ws. split; [exact R|]. split; [|reflexivity].
      apply Forall2_clauses. apply conv_to_all; [exact (clauses_proper _ _ _ P R)|exact F].
    - intros [rs [ws [R [F ->]]]]. rewrite (results_mapM _ _ _ _ _ R). cbn [bind].
      replace (S n) with (length (clauses rs)) by (rewrite clauses_length; apply R).
      apply braced_conv; [apply NC; exact R|]. apply conv_to_all; [exact (clauses_proper _ _ _ P R)|]. apply Forall2_clauses. exact F.
  Qed.

  (** Whatever is not accepted is rejected at compile time. *)
  Lemma total_size : forall N args n, sized N args n -> total (tuple_transform_size N (map to_arg args)).
  Proof. intros N args n Sz. rewrite (sized_ok _ _ _ Sz). apply total_ok. Qed.
  Theorem C83_accepted_or_rejected : forall T N rvalue args n, sized N args n ->
    ((exists v, array_transform_to user default_of call_type call T N args = Ok v) \/
     array_transform_to user default_of call_type call T N args = IllFormed) /\
    ((exists v, array_transform_deduced user default_of call_type call rvalue N args = Ok v) \/
     array_transform_deduced user default_of call_type call rvalue N args = IllFormed).
  Proof.
    intros T N rvalue args n Sz. split.
    - change (total (array_transform_to user default_of call_type call T N args)). apply total_bind; [exact (total_size _ _ _ Sz)|].
      intros [|k] _; [apply total_ok|]. apply total_bind; [apply total_mapM; intro; apply total_transform_element|].
      intros cs _. apply total_braced.
    - change (total (array_transform_deduced user default_of call_type call rvalue N args)).
      assert (TH : total (homogeneous_result call_type rvalue args)).
      { unfold homogeneous_result. destruct (call_type _ _); [apply total_ok|apply total_ill]. }
      apply total_bind; [exact (total_size _ _ _ Sz)|]. intros [|k] _; unfold array_transform_impl.
      + destruct (forallb is_homogeneous args); [|apply total_ill]. apply total_bind; [exact TH|]. intros; apply total_ok.
      + apply total_bind.
        * destruct (forallb is_homogeneous args); [exact TH|]. apply total_bind.
          -- apply total_mapM. intro i. apply total_bind; [apply total_element_types|]. intros ps _. destruct (call_type _ ps); [apply total_ok|apply total_ill].
          -- intros rs _. destruct (equal_types rs); [apply total_ok|apply total_ill].
        * intros r _. destruct (r_ref r); [apply total_ill|]. apply total_bind; [apply total_mapM; intro; apply total_transform_element|].
          intros cs _. apply total_bind; [apply total_braced|]. intros; apply total_ok.
  Qed.

  (** Integers are never changed: if a call with an integral element type is accepted and the results are integers, then the
      elements are the results. *)
  Theorem C83_no_loss : forall b N args n rs zs v, sized N args n -> n <> O ->
    (forall ps r, call_type false ps = Some r -> proper (r_ty r)) ->
    results call_type call args n rs ->
    Forall2 (fun r z => snd r = VInt z /\ exists a, r_ty (fst r) = Int a /\ in_ity a z = true) rs zs ->
    array_transform_to user default_of call_type call (Int b) N args = Ok v ->
    v = VArr (map VInt zs) /\ Forall (fun z => in_ity b z = true) zs.
  Proof.
    intros b N args n rs zs v Sz Hn P R Z H. apply (C83_explicit (Int b) N args n) in H; try assumption.
    - destruct H as [rs' [ws [R' [F ->]]]]. rewrite (results_unique _ _ _ _ _ _ R R') in Z. clear R.
      enough (ws = map VInt zs /\ Forall (fun z => in_ity b z = true) zs) as [-> Q] by auto. clear R'. revert ws F.
      induction Z as [|[r x] z rs0 zs [E [a [Er Iz]]] Z IH]; intros ws F; inversion F as [|? w ? ws' Hc F']; subst; [auto|].
      destruct (IH _ F') as [-> Q]. cbn [fst snd] in *. subst x. rewrite Er in Hc. inversion Hc; subst.
      + split; [reflexivity|constructor; assumption].
      + split; [reflexivity|constructor; auto].
      + match goal with X : is_class _ \/ is_class _ |- _ => destruct X as [[c Q1]|[c Q1]]; discriminate Q1 end.
    - intros [u [m E]]. discriminate E.
    - intros r w R1 -> E. assert (rs = [(r, w)]) by (apply (results_unique _ _ _ _ _ _ R R1)). subst rs.
      inversion Z as [|? ? ? ? [_ [a [Q _]]] _]; subst. cbn [fst] in Q. congruence.
  Qed.
  (** A result of an integral type that has a value which the integral element type does not have is rejected, whatever the
      result is. *)
  Theorem C83_narrowing_rejected : forall b N args n rs i r v a z, sized N args n ->
    (forall ps r, call_type false ps = Some r -> proper (r_ty r)) ->
    results call_type call args n rs -> nth_error rs i = Some (r, v) -> r_ty r = Int a -> in_ity a z = true -> in_ity b z = false ->
    array_transform_to user default_of call_type call (Int b) N args = IllFormed.
  Proof.
    intros b N args n rs i r v a z Sz P R Hi Er Ia Ib.
    assert (Hn : n <> O). { destruct R as [L _]. destruct rs; [destruct i; discriminate Hi|]. cbn in L. lia. }
    destruct (proj1 (C83_accepted_or_rejected (Int b) N false args n Sz)) as [[w H]|H]; [exfalso|exact H].
    apply (C83_explicit (Int b) N args n) in H; try assumption.
    - destruct H as [rs' [ws [R' [F _]]]]. rewrite <- (results_unique _ _ _ _ _ _ R R') in F. clear -F Hi Er Ia Ib. revert i Hi.
      induction F as [|[r0 v0] w rs ws Hc F IH]; intros [|i] Hi; try discriminate Hi; [|exact (IH i Hi)]. cbn [nth_error] in Hi. injection Hi as -> ->.
      cbn [fst snd] in Hc. rewrite Er in Hc. inversion Hc as [| ? ? ? _ Q| | |? ? ? ? _ [[c Q]|[c Q]] _]; subst; try discriminate Q; [congruence|].
      specialize (Q z Ia). congruence.
    - intros [u [m E]]. discriminate E.
    - intros r' w' R1 -> E. assert (rs = [(r', w')]) by (apply (results_unique _ _ _ _ _ _ R R1)). subst rs.
      destruct i as [|i]; [|destruct i; discriminate Hi]. cbn in Hi. injection Hi as -> ->. congruence.
  Qed.

  (** Without an element type, for tuples: accepted if and only if all calls return the same type, which is not a reference; this
      is the element type, and the elements are the results. *)
  Lemma braced_results : forall rs R, (forall r w, In (r, w) rs -> r_ty r = R) ->
    braced user default_of R (length rs) (clauses rs) = Ok (VArr (map snd rs)).
  Proof.
    intros rs R H. replace (clauses rs) with (map (fun v => (R, v)) (map snd rs)).
    - rewrite <- (map_length snd rs). apply braced_same.
    - unfold clauses. rewrite map_map. apply map_ext_in. intros [r w] Hr. cbn [fst snd]. rewrite (H r w Hr). reflexivity.
  Qed.
  Theorem C83_deduced_tuples : forall rvalue N args n c R v, ~ Forall array_or_index args -> n <> O -> sized N args n -> unqualified call_type ->
    array_transform_deduced user default_of call_type call rvalue N args = Ok (c, R, v) <->
    exists rs, results call_type call args n rs /\ (forall r w, In (r, w) rs -> r = mk_rty false c R) /\ v = VArr (map snd rs).
  Proof.
    intros rvalue N args n c R v NH Hn Sz U. unfold array_transform_deduced. rewrite (sized_ok _ _ _ Sz). cbn [bind].
    destruct n as [|n]; [contradiction|]. unfold array_transform_impl.
    destruct (forallb is_homogeneous args) eqn:EH; [apply all_homogeneous_iff in EH; contradiction|]. unfold heterogeneous_result. split.
    - intro H. apply bind_ok_inv in H. destruct H as [r [Er H]]. apply bind_ok_inv in Er. destruct Er as [ts [Et Er]].
      destruct (equal_types ts) as [r'|] eqn:EE; [|discriminate Er]. injection Er as ->.
      destruct (r_ref r) eqn:Rr; [discriminate H|]. apply bind_ok_inv in H. destruct H as [cs [E H]].
      destruct (mapM_results _ _ _ _ _ E) as [rs [Rs ->]]. rewrite (result_types_mapM _ _ _ _ _ _ U Rs) in Et. injection Et as <-.
      apply equal_types_spec in EE. destruct EE as [_ Same].
      assert (Q : forall q w, In (q, w) rs -> q = r) by (intros q w I; apply Same; apply (in_map fst) in I; exact I).
      replace (S n) with (length rs) in H by (apply Rs). rewrite (braced_results rs (r_ty r)) in H by (intros q w I; rewrite (Q q w I); reflexivity).
      cbn [bind] in H. injection H as <- <- <-. exists rs. split; [exact Rs|]. split; [|reflexivity].
      intros q w I. rewrite (Q q w I). destruct r. cbn in *. subst. reflexivity.
    - intros [rs [Rs [Same ->]]]. rewrite (result_types_mapM _ _ _ _ _ _ U Rs). cbn [bind].
      assert (EE : equal_types (map fst rs) = Some (mk_rty false c R)).
      { apply equal_types_spec. split.
        - destruct Rs as [L _]. destruct rs; [discriminate L|discriminate].
        - intros x Hx. apply in_map_iff in Hx. destruct Hx as [[q w] [<- I]]. exact (Same q w I). }
      rewrite EE. cbn [to_outcome bind r_ref r_ty r_const]. rewrite (results_mapM _ _ _ _ _ Rs). cbn [bind].
      replace (S n) with (length rs) by (apply Rs). rewrite (braced_results rs R) by (intros q w I; rewrite (Same q w I); reflexivity). reflexivity.
  Qed.

  (** For arrays: accepted if and only if the functor can be called; the element type is what it returns, without reference
      and const, and the elements are the results. *)
  Theorem C83_deduced_arrays : forall rvalue N args n c R v, Forall plain_array args -> n <> O -> sized N args n -> unqualified call_type ->
    array_transform_deduced user default_of call_type call rvalue N args = Ok (c, R, v) <->
    exists rs, results call_type call args n rs /\ (forall r w, In (r, w) rs -> r_ty r = R) /\ c = false /\ v = VArr (map snd rs).
  Proof.
    intros rvalue N args n c R v PA Hn Sz U. unfold array_transform_deduced. rewrite (sized_ok _ _ _ Sz). cbn [bind].
    destruct n as [|n]; [contradiction|]. unfold array_transform_impl. rewrite (plain_homogeneous args PA). unfold homogeneous_result.
    rewrite (unqualified_any _ U).
    assert (Q : forall rs, results call_type call args (S n) rs -> forall q w, In (q, w) rs -> call_type false (map transferred_type args) = Some q).
    { intros rs [_ H] q w I. apply In_nth_error in I. destruct I as [i I]. destruct (H _ _ _ I) as [es [F [C _]]].
      rewrite <- (plain_types _ _ _ PA F). exact C. }
    split.
    - intro H. destruct (call_type false (map transferred_type args)) as [r|] eqn:EC; [|discriminate H]. cbn [bind r_ref r_ty r_const] in H.
      apply bind_ok_inv in H. destruct H as [cs [E H]]. destruct (mapM_results _ _ _ _ _ E) as [rs [Rs ->]].
      assert (Same : forall q w, In (q, w) rs -> r_ty q = r_ty r) by (intros q w I; specialize (Q rs Rs q w I); congruence).
      replace (S n) with (length rs) in H by (apply Rs). rewrite (braced_results rs (r_ty r)) in H by exact Same.
      cbn [bind] in H. injection H as <- <- <-. exists rs. auto.
    - intros [rs [Rs [Same [-> ->]]]].
      assert (exists q w, In (q, w) rs) as [q [w I]]. { destruct Rs as [L _]. destruct rs as [|[q w] rs]; [discriminate L|]. exists q, w. left. reflexivity. }
      rewrite (Q rs Rs q w I), (Same q w I). cbn [bind r_ref r_ty r_const]. rewrite (results_mapM _ _ _ _ _ Rs). cbn [bind].
      replace (S n) with (length rs) by (apply Rs). rewrite (braced_results rs R) by exact Same. reflexivity.
  Qed.

  (** The element type for arrays depends on the types only, not on the number of elements; there may be none. *)
  Lemma deduced_arrays_type : forall rvalue N args n c R v, sized N args n -> forallb is_homogeneous args = true ->
    array_transform_deduced user default_of call_type call rvalue N args = Ok (c, R, v) ->
    c = false /\ exists r, call_type rvalue (map transferred_type args) = Some r /\ R = r_ty r.
  Proof.
    intros rvalue N args n c R v Sz EH H. unfold array_transform_deduced in H. rewrite (sized_ok _ _ _ Sz) in H. cbn [bind] in H.
    unfold array_transform_impl in H. rewrite EH in H. unfold homogeneous_result in H.
    destruct (call_type rvalue (map transferred_type args)) as [r|]; [|destruct n; discriminate H]. destruct n as [|n]; cbn [bind r_ref r_ty r_const] in H.
    - injection H as <- <- <-. eauto.
    - apply bind_ok_inv in H. destruct H as [cs [_ H]]. apply bind_ok_inv in H. destruct H as [w [_ H]]. injection H as <- <- _. eauto.
  Qed.
  Lemma same_kinds : forall args args', Forall2 same_kind args args' ->
    forallb is_homogeneous args = true /\ forallb is_homogeneous args' = true /\ map transferred_type args = map transferred_type args'.
  Proof.
    intros args args' K. induction K as [|a b args args' Hk K IH]; [auto|]. destruct IH as [I1 [I2 I3]]. cbn [forallb map]. rewrite I1, I2, I3.
    destruct Hk as [E1 [E2 E3]]. destruct a as [[e1|c1 t1 v1| |] x1 y1], b as [[e2|c2 t2 v2| |] x2 y2]; cbn [a_kind a_const a_lvalue] in *; try contradiction; subst.
    - destruct E3 as [-> ->]. auto.
    - auto.
  Qed.
  Theorem C83_sizes_irrelevant : forall rvalue N N' args args' n n' c R v c' R' v', Forall2 same_kind args args' ->
    sized N args n -> sized N' args' n' ->
    array_transform_deduced user default_of call_type call rvalue N args = Ok (c, R, v) ->
    array_transform_deduced user default_of call_type call rvalue N' args' = Ok (c', R', v') ->
    c = false /\ c' = false /\ R = R'.
  Proof.
    intros rvalue N N' args args' n n' c R v c' R' v' K Sz Sz' H H'. destruct (same_kinds _ _ K) as [E1 [E2 E3]].
    destruct (deduced_arrays_type _ _ _ _ _ _ _ Sz E1 H) as [-> [r [C ->]]].
    destruct (deduced_arrays_type _ _ _ _ _ _ _ Sz' E2 H') as [-> [r' [C' ->]]].
    rewrite E3 in C. split; [reflexivity|]. split; [reflexivity|]. congruence.
  Qed.
  (** There is no element type for tuples without elements; for arrays without elements, the element type is that for arrays
      with elements; with a given element type, anything goes. *)
  Theorem C83_empty : forall T rvalue N args, sized N args 0 ->
    (~ Forall array_or_index args -> array_transform_deduced user default_of call_type call rvalue N args = IllFormed) /\
    (forall N' args' n' c R v, Forall2 same_kind args args' -> sized N' args' n' ->
       array_transform_deduced user default_of call_type call rvalue N' args' = Ok (c, R, v) ->
       array_transform_deduced user default_of call_type call rvalue N args = Ok (false, R, VArr [])) /\
    array_transform_to user default_of call_type call T N args = Ok (VArr []).
  Proof.
    intros T rvalue N args Sz. split; [|split].
    - unfold array_transform_deduced. rewrite (sized_ok _ _ _ Sz). cbn [bind]. unfold array_transform_impl.
      intro NH. destruct (forallb is_homogeneous args) eqn:E; [apply all_homogeneous_iff in E; contradiction|reflexivity].
    - intros N' args' n' c R v K Sz' H'. destruct (same_kinds _ _ K) as [E1 [E2 E3]].
      destruct (deduced_arrays_type _ _ _ _ _ _ _ Sz' E2 H') as [_ [r [C ->]]]. unfold array_transform_deduced. rewrite (sized_ok _ _ _ Sz).
      cbn [bind]. unfold array_transform_impl. rewrite E1. unfold homogeneous_result. rewrite E3, C. reflexivity.
    - unfold array_transform_to. rewrite (sized_ok _ _ _ Sz). reflexivity.
  Qed.

  (** Arrays of arrays: scalar results fill the elements in row-major order, and the remaining ones are value-initialised. *)
  Theorem C83_row_major : forall T z dims N args n rs ws, ~ is_array T -> zero_value default_of T z -> n <> O -> sized N args n ->
    Forall (fun d => d <> O) dims ->
    (forall ps r, call_type false ps = Some r -> proper (r_ty r) /\ forall u m, ~ convertible user (r_ty r) (Arr u m)) ->
    results call_type call args n rs -> Forall2 (fun r w => converted user (r_ty (fst r)) T (snd r) w) rs ws ->
    exists v, array_transform_to user default_of call_type call (mdarray T dims) N args = Ok v /\
      forall idx, Forall2 (fun d i => (i < d)%nat) (n :: dims) idx ->
      at_index v idx = if (position (n :: dims) idx 0 <? n)%nat then nth_error ws (position (n :: dims) idx 0) else Some z.
  Proof.
    intros T z dims N args n rs ws NA Z Hn Sz Pd P R F. unfold array_transform_to. rewrite (sized_ok _ _ _ Sz). cbn [bind].
    destruct n as [|n]; [contradiction|]. unfold array_transform_to_impl. rewrite (results_mapM _ _ _ _ _ R). cbn [bind].
    assert (EZ : zero default_of T = Ok z). { destruct Z as [| |c w E]; try reflexivity. cbn [zero]. rewrite E. reflexivity. }
    assert (G : Forall2 (clause_ok user T) (clauses rs) ws).
    { assert (PP : Forall (fun r => proper (r_ty (fst r)) /\ forall u m, ~ convertible user (r_ty (fst r)) (Arr u m)) rs).
      { apply Forall_forall. intros [r w] I. apply In_nth_error in I. destruct I as [i I]. destruct R as [_ R]. destruct (R _ _ _ I) as [es [_ [C _]]].
        exact (P _ _ C). }
      clear -F PP. induction F as [|[r x] w rs ws Hc F IH]; [constructor|]. inversion PP as [|? ? [P1 P2] PP']; subst. cbn [clauses map]. constructor; [|apply IH; exact PP'].
      cbn [fst snd] in *. split.
      - apply conv_to_iff; [exact P1|exact Hc].
      - intros u m. apply implicit_arr_not; auto. }
    destruct (braced_shaped user default_of T z NA EZ dims _ _ Pd G) as [v [E Sh]].
    assert (L : length (clauses rs) = S n) by (rewrite clauses_length; apply R). rewrite L in E, Sh. exists v. split; [exact E|].
    intros idx I. rewrite (shaped_at _ _ _ _ Sh I).
    assert (Lw : length ws = S n). { rewrite <- L, clauses_length. clear -F. induction F; cbn; congruence. }
    assert (B : (position (S n :: dims) idx 0 < volume (S n :: dims))%nat) by (apply position_bound; exact I).
    cbn [volume fold_right] in B. fold (volume dims) in B. unfold fill. generalize dependent (position (S n :: dims) idx 0). intros p B.
    assert (NF : forall A (l : list A) k j, (j < k)%nat -> nth_error (firstn k l) j = nth_error l j).
    { intros A l. induction l as [|a l IH]; intros [|k] [|j] Hj; try reflexivity; try lia. cbn. apply IH. lia. }
    rewrite NF by exact B.
    destruct (Nat.ltb_spec p (S n)) as [Lt|Ge].
    - rewrite nth_error_app1 by lia. reflexivity.
    - rewrite nth_error_app2 by lia. rewrite Lw. assert (NR : forall k j, (j < k)%nat -> nth_error (repeat z k) j = Some z).
      { intro k. induction k as [|k IH]; intros [|j] Hj; try lia; [reflexivity|]. cbn. apply IH. lia. }
      apply NR. lia.
  Qed.

  (** array_cat<T>(): the elements of all tuples, converted. *)
  Theorem C83_cat : forall T tuples v, ~ is_array T -> Z.of_nat (length (concat tuples)) < size_t_modulus ->
    Forall (fun c => proper (fst c)) (concat tuples) -> (forall w, concat tuples <> [(Arr T 1, w)]) ->
    array_cat_to user default_of T tuples = Ok v <->
    exists ws, Forall2 (fun c w => converted user (fst c) T (snd c) w) (concat tuples) ws /\ v = VArr ws.
  Proof.
    intros T tuples v NA B P NS. unfold array_cat_to. rewrite cat_impl_concat by assumption. cbn [bind].
    assert (NC : ~ copied T (concat tuples)) by (intros [w E]; exact (NS w E)). split.
    - intro H. apply braced_scalar in H; [|assumption|assumption]. destruct H as [ws [F ->]]. exists ws. split; [|reflexivity]. apply conv_to_all; assumption.
    - intros [ws [F ->]]. apply braced_conv; [assumption|]. apply conv_to_all; assumption.
  Qed.

  (** array_fill<N>(value): any type. *)
  Theorem C83_fill : forall N T v, array_fill_to user default_of N T v = Ok (VArr (repeat v N)).
  Proof.
    intros N T v. unfold array_fill_to. destruct N as [|N]; [reflexivity|].
    pose proof (braced_same user default_of T (repeat v (S N))) as H. rewrite repeat_length in H.
    replace (map (fun v => (T, v)) (repeat v (S N))) with (repeat (T, v) (S N)) in H; [exact H|].
    generalize (S N). intro k. clear. induction k as [|k IH]; [reflexivity|]. cbn. f_equal. exact IH.
  Qed.
End Props.
Print Assumptions C83_explicit.
Print Assumptions C83_accepted_or_rejected.
Print Assumptions C83_no_loss.
Print Assumptions C83_narrowing_rejected.
Print Assumptions C83_deduced_tuples.
Print Assumptions C83_deduced_arrays.
Print Assumptions C83_sizes_irrelevant.
Print Assumptions C83_empty.
Print Assumptions C83_row_major.
Print Assumptions C83_cat.
Print Assumptions C83_fill.

(** * Examples *)
Definition i32 := mk_ity 32 true.
Definition i64 := mk_ity 64 true.
Definition u8 := mk_ity 8 false.
Definition no_user : ty -> ty -> option (val -> val) := fun _ _ => None.
Definition no_default : nat -> option val := fun _ => None.
(** [](auto x) { return x; } *)
Definition copy_type (rvalue : bool) (ps : list pty) : option rty :=
  match ps with [p] => Some (mk_rty false false (p_ty p)) | _ => None end.
Definition copy_call (es : list (pty * val)) : val := match es with [(_, v)] => v | _ => VObj 0 end.
(** [](auto const& x) -> auto const& { return x; } *)
Definition ref_type (rvalue : bool) (ps : list pty) : option rty :=
  match ps with [p] => Some (mk_rty true true (p_ty p)) | _ => None end.
Definition lv (k : akind) : targ := mk_targ k false true.

Lemma single_results : forall ct a n rs, length rs = n ->
  (forall i r v, nth_error rs i = Some (r, v) -> exists p, element_of i a p v /\ ct false [p] = Some r) ->
  results ct copy_call [a] n rs.
Proof.
  intros ct a n rs L H. split; [exact L|]. intros i r v E. destruct (H i r v E) as [p [He C]]. exists [(p, v)]. repeat split; auto.
Qed.
Ltac each_result := intros [|[|[|i]]] r v E; try discriminate E; try (destruct i; discriminate E); injection E as <- <-;
  eexists; (split; [constructor; reflexivity|reflexivity]).

Definition pair_arg : targ := lv (KTuple [(false, Int u8, VInt 5); (false, Int i32, VInt (-6))]).
Definition pair_results : list (rty * val) := [(mk_rty false false (Int u8), VInt 5); (mk_rty false false (Int i32), VInt (-6))].
Lemma pair_results_ok : results copy_type copy_call [pair_arg] 2 pair_results.
Proof. apply single_results; [reflexivity|]. each_result. Qed.
Lemma pair_sized : sized (-1) [pair_arg] 2.
Proof.
  split; [|right; split; [reflexivity|]; exists pair_arg; split; [left|]; reflexivity].
  intros a b m k [<-|[]] [<-|[]] E1 E2. injection E1 as <-. injection E2 as <-. reflexivity.
Qed.
Example C83_explicit_example :
  sized (-1) [pair_arg] 2 /\ results copy_type copy_call [pair_arg] 2 pair_results /\
  Forall2 (fun r w => converted no_user (r_ty (fst r)) (Int i64) (snd r) w) pair_results [VInt 5; VInt (-6)] /\
  array_transform_to no_user no_default copy_type copy_call (Int i64) (-1) [pair_arg] = Ok (VArr [VInt 5; VInt (-6)]) /\
  array_transform_to no_user no_default copy_type copy_call (Int u8) (-1) [pair_arg] = IllFormed /\
  array_transform_to no_user no_default copy_type copy_call (Flt 8) (-1) [pair_arg] = IllFormed.
Proof.
  split; [exact pair_sized|]. split; [exact pair_results_ok|]. split; [|repeat split].
  repeat constructor; try discriminate; intros z; rewrite !in_ity_iff; cbn; lia.
Qed.
Example C83_accepted_or_rejected_example :
  array_transform_deduced no_user no_default copy_type copy_call true (-1) [pair_arg] = IllFormed /\
  (exists v, array_transform_deduced no_user no_default copy_type copy_call true (-1) [lv (KArray false (Int u8) [VInt 1])] = Ok v).
Proof. split; [reflexivity|eexists; reflexivity]. Qed.
Example C83_no_loss_example :
  Forall2 (fun r z => snd r = VInt z /\ exists a, r_ty (fst r) = Int a /\ in_ity a z = true) pair_results [5; -6].
Proof. repeat constructor; cbn [fst snd r_ty]; eexists; split; reflexivity. Qed.
Example C83_narrowing_rejected_example :
  nth_error pair_results 1 = Some (mk_rty false false (Int i32), VInt (-6)) /\ in_ity i32 300 = true /\ in_ity u8 300 = false /\
  array_transform_to no_user no_default copy_type copy_call (Int u8) (-1) [pair_arg] = IllFormed.
Proof. repeat split. Qed.
Definition int_type (rvalue : bool) (ps : list pty) : option rty := Some (mk_rty false false (Int i32)).
Example C83_deduced_tuples_example :
  unqualified int_type /\ ~ Forall array_or_index [pair_arg] /\
  array_transform_deduced no_user no_default int_type copy_call true (-1) [pair_arg] = Ok (false, Int i32, VArr [VInt 5; VInt (-6)]).
Proof.
  split; [intro; reflexivity|]. split; [|reflexivity]. intro H. inversion H as [|? ? [[c [t [vs E]]]|E] _]; discriminate E.
Qed.
Example C83_deduced_arrays_example :
  Forall plain_array [lv (KArray false (Int u8) [VInt 1; VInt 2])] /\
  array_transform_deduced no_user no_default ref_type copy_call true (-1) [lv (KArray false (Int u8) [VInt 1; VInt 2])] =
    Ok (false, Int u8, VArr [VInt 1; VInt 2]).
Proof. split; [|reflexivity]. repeat constructor. Qed.
Example C83_sizes_irrelevant_example :
  Forall2 same_kind [lv (KArray false (Int u8) [VInt 1; VInt 2])] [lv (KArray false (Int u8) [])] /\
  array_transform_deduced no_user no_default ref_type copy_call true (-1) [lv (KArray false (Int u8) [])] = Ok (false, Int u8, VArr []).
Proof. split; [repeat constructor|reflexivity]. Qed.
Example C83_empty_example :
  sized (-1) [lv (KTuple [])] 0 /\ array_transform_deduced no_user no_default copy_type copy_call true (-1) [lv (KTuple [])] = IllFormed /\
  array_transform_to no_user no_default copy_type copy_call (Int u8) (-1) [lv (KTuple [])] = Ok (VArr []).
Proof.
  split; [|split; reflexivity]. split; [|right; split; [reflexivity|]; exists (lv (KTuple [])); split; [left|]; reflexivity].
  intros a b m k [<-|[]] [<-|[]] E1 E2. injection E1 as <-. injection E2 as <-. reflexivity.
Qed.
(** array_transform<std::array<int, 2>>([](auto x) { return x; }, std::make_tuple(5, -6)) *)
Example C83_row_major_example :
  array_transform_to no_user no_default copy_type copy_call (mdarray (Int i32) [2%nat]) (-1) [pair_arg] =
    Ok (VArr [VArr [VInt 5; VInt (-6)]; VArr [VInt 0; VInt 0]]) /\
  position [2%nat; 2%nat] [1%nat; 0%nat] 0 = 2%nat.
Proof. split; reflexivity. Qed.
Example C83_cat_example :
  array_cat_to no_user no_default (Int i64) [[(Int u8, VInt 5)]; []; [(Int i32, VInt (-6)); (Int i64, VInt 7)]] = Ok (VArr [VInt 5; VInt (-6); VInt 7]) /\
  array_cat_to no_user no_default (Int u8) [[(Int u8, VInt 5)]; [(Int i32, VInt 6)]] = IllFormed.
Proof. split; reflexivity. Qed.
Example C83_fill_example :
  array_fill_to no_user no_default 1 (Arr (Int u8) 1) (VArr [VInt 3]) = Ok (VArr [VArr [VInt 3]]).
Proof. apply C83_fill. Qed.

(** * Where the element type or the elements are others *)

(** A functor that returns references is accepted for an array, but not for a tuple of elements of the same type. *)
Theorem C83_reference_results_refuted : exists call_type call args args' n rs t v,
  unqualified call_type /\ sized (-1) args n /\ sized (-1) args' n /\ n <> O /\
  results call_type call args n rs /\ results call_type call args' n rs /\ (forall r w, In (r, w) rs -> r_ty r = t) /\
  (forall user default_of, array_transform_deduced user default_of call_type call false (-1) args = Ok (false, t, v)) /\
  (forall user default_of, array_transform_deduced user default_of call_type call false (-1) args' = IllFormed).
Proof.
  exists ref_type, copy_call, [lv (KArray false (Int u8) [VInt 1; VInt 2])], [lv (KTuple [(false, Int u8, VInt 1); (false, Int u8, VInt 2)])], 2%nat,
    [(mk_rty true true (Int u8), VInt 1); (mk_rty true true (Int u8), VInt 2)], (Int u8), (VArr [VInt 1; VInt 2]).
  split; [intro; reflexivity|].
  split. { split; [|right; split; [reflexivity|]; eexists; split; [left|]; reflexivity].
    intros a b m k [<-|[]] [<-|[]] E1 E2. injection E1 as <-. injection E2 as <-. reflexivity. }
  split. { split; [|right; split; [reflexivity|]; eexists; split; [left|]; reflexivity].
    intros a b m k [<-|[]] [<-|[]] E1 E2. injection E1 as <-. injection E2 as <-. reflexivity. }
  split; [discriminate|].
  split; [apply single_results; [reflexivity|]; each_result|].
  split; [apply single_results; [reflexivity|]; each_result|].
  split; [|split; intros; reflexivity].
  intros r w [E|[E|[]]]; injection E as <- <-; reflexivity.
Qed.
Print Assumptions C83_reference_results_refuted.

(** The element type can be const. *)
Theorem C83_const_results_refuted : exists call_type call args n t v,
  unqualified call_type /\ sized (-1) args n /\
  forall user default_of, array_transform_deduced user default_of call_type call false (-1) args = Ok (true, t, v).
Proof.
  exists (fun (_ : bool) (_ : list pty) => Some (mk_rty false true (Cls 1))), copy_call, [pair_arg], 2%nat, (Cls 1), (VArr [VInt 5; VInt (-6)]).
  split; [intro; reflexivity|]. split; [exact pair_sized|]. intros; reflexivity.
Qed.
Print Assumptions C83_const_results_refuted.

(** The element type with range_index, which is an lvalue, is what the functor returns for an lvalue, but it is called with
    an rvalue: here, the calls return another type. *)
Theorem C83_range_index_refuted : exists call_type call args n rs t t' v,
  unqualified call_type /\ sized 2 args n /\ args = [mk_targ KRange true true] /\
  results call_type call args n rs /\ (forall r w, In (r, w) rs -> r = mk_rty false false t) /\ t' <> t /\
  forall user default_of, array_transform_deduced user default_of call_type call false 2 args = Ok (false, t', v).
Proof.
  exists (fun _ ps => match ps with [p] => Some (mk_rty false false (if p_lvalue p then Int i64 else Int i32)) | _ => None end),
    copy_call, [mk_targ KRange true true], 2%nat, [(mk_rty false false (Int i32), VInt 0); (mk_rty false false (Int i32), VInt 1)],
    (Int i32), (Int i64), (VArr [VInt 0; VInt 1]).
  split; [intro; reflexivity|].
  split. { split; [|left; reflexivity]. intros a b m k [<-|[]] [<-|[]] E1 E2. discriminate E1. }
  split; [reflexivity|].
  split. { apply single_results; [reflexivity|]. intros [|[|[|i]]] r v E; try discriminate E; injection E as <- <-;
    (exists (mk_pty false false (Int ptrdiff_it)); split; [|reflexivity]).
    - apply (element_range 0 true true).
    - apply (element_range 1 true true). }
  split; [intros r w [E|[E|[]]]; injection E as <- <-; reflexivity|]. split; [discriminate|]. intros; reflexivity.
Qed.
Print Assumptions C83_range_index_refuted.

(** A functor that is an rvalue is called as an lvalue, but the element type is what it would return as an rvalue. *)
Theorem C83_rvalue_functor_refuted : exists call_type call args n rs t t' v,
  sized (-1) args n /\ results call_type call args n rs /\ (forall r w, In (r, w) rs -> r = mk_rty false false t) /\ t' <> t /\
  forall user default_of, array_transform_deduced user default_of call_type call true (-1) args = Ok (false, t', v).
Proof.
  exists (fun (rv : bool) (ps : list pty) => Some (mk_rty false false (if rv then Int i64 else Int i32))), copy_call, [pair_arg], 2%nat,
    [(mk_rty false false (Int i32), VInt 5); (mk_rty false false (Int i32), VInt (-6))], (Int i32), (Int i64), (VArr [VInt 5; VInt (-6)]).
  split; [exact pair_sized|]. split; [apply single_results; [reflexivity|]; each_result|].
  split; [intros r w [E|[E|[]]]; injection E as <- <-; reflexivity|]. split; [discriminate|]. intros; reflexivity.
Qed.
Print Assumptions C83_rvalue_functor_refuted.

(** With a given element type: results that cannot be converted are accepted nevertheless, and are not the elements. *)
Theorem C83_braces_refuted : exists T call_type call args n rs vs,
  sized (-1) args n /\ results call_type call args n rs /\
  (forall r w, In (r, w) rs -> ~ convertible no_user (r_ty r) T) /\
  array_transform_to no_user no_default call_type call T (-1) args = Ok (VArr vs) /\ nth_error vs 1 = Some (VArr [VInt 0; VInt 0]).
Proof.
  exists (Arr (Int i32) 2), copy_type, copy_call, [pair_arg], 2%nat, pair_results, [VArr [VInt 5; VInt (-6)]; VArr [VInt 0; VInt 0]].
  split; [exact pair_sized|]. split; [exact pair_results_ok|]. split; [|split; reflexivity].
  intros r w [E|[E|[]]]; injection E as <- <-; intros [v [x H]]; inversion H; discriminate.
Qed.
Print Assumptions C83_braces_refuted.
Theorem C83_single_array_refuted : exists call_type call args rs v,
  sized (-1) args 1 /\ results call_type call args 1 rs /\
  (forall r w, In (r, w) rs -> ~ convertible no_user (r_ty r) (Int i32)) /\
  array_transform_to no_user no_default call_type call (Int i32) (-1) args = Ok v.
Proof.
  exists copy_type, copy_call, [lv (KTuple [(false, Arr (Int i32) 1, VArr [VInt 7])])], [(mk_rty false false (Arr (Int i32) 1), VArr [VInt 7])], (VArr [VInt 7]).
  split. { split; [|right; split; [reflexivity|]; eexists; split; [left|]; reflexivity].
    intros a b m k [<-|[]] [<-|[]] E1 E2. injection E1 as <-. injection E2 as <-. reflexivity. }
  split; [apply single_results; [reflexivity|]; each_result|]. split; [|reflexivity].
  intros r w [E|[]]; injection E as <- <-; intros [v [x H]]; inversion H; discriminate.
Qed.
Print Assumptions C83_single_array_refuted.
