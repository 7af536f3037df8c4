(** C103, C104: when constants have the same type. *)

From Coq Require Import ZArith Arith Bool List.
From Verif Require Import Base ExpandModel ExpandSpec ExpandProofs CtypeModel CtypeSpec CtypeProofs.
Import ListNotations.

(** * C103 *)

(** Full statement: constants of equal value have the same type, and of different value different types.

    The constant made by a functor has the functor's value. *)
Theorem C103_value : forall ufun uobj n, well_typed (ufun n) -> eval ufun uobj (make_constval ufun n) = ufun n.
Proof. intros ufun uobj n W. apply make_eval; [exact W|reflexivity]. Qed.
Print Assumptions C103_value.

(** Constants have the same type iff they are equal and structural, or were made by the same functor. *)
Theorem C103_same_type_partial : forall ufun n m, well_typed (ufun n) -> well_typed (ufun m) ->
  (make_constval ufun n = make_constval ufun m <-> n = m \/ (structural (ufun n) /\ ufun n = ufun m)).
Proof.
  intros ufun n m Wn Wm. unfold make_constval. split.
  - intro E. assert (V : ufun n = ufun m).
    { rewrite <- (C103_value ufun ufun n Wn), <- (C103_value ufun ufun m Wm). unfold make_constval. rewrite E. reflexivity. }
    destruct (structural_dec (ufun n)) as [S|S]; [right; auto|left].
    rewrite <- V in E. apply not_structural_functor in E; auto. congruence.
  - intros [->|[S E]]; [reflexivity|]. rewrite <- E. apply structural_any. exact S.
Qed.
Print Assumptions C103_same_type_partial.

(** constant<T const&, Ref>: the same type iff the same object, or equal structural values. *)
Theorem C103_constant_partial : forall ufun uobj o o', well_typed (eval_object ufun uobj o) -> well_typed (eval_object ufun uobj o') ->
  (constant_ref ufun uobj o = constant_ref ufun uobj o' <->
   o = o' \/ (structural (eval_object ufun uobj o) /\ eval_object ufun uobj o = eval_object ufun uobj o')).
Proof. exact constant_ref_same. Qed.
Print Assumptions C103_constant_partial.

(** The constants of values that are not normalised: constval<>, or tuple_like_constval<> for tuple-like classes, of the functor; objects
    that need no normalisation are referred to directly. *)
Theorem C103_form_partial : forall ufun uobj,
  (forall n k z, ufun n = VO k z -> make_constval ufun n = CConstval (FUser n)) /\
  (forall n k z l, ufun n = VL k z l -> make_constval ufun n = CLike (FUser n)) /\
  (forall o k z, eval_object ufun uobj o = VO k z -> constant_ref ufun uobj o = CRef o) /\
  (forall o k z l, eval_object ufun uobj o = VL k z l -> constant_ref ufun uobj o = CLike (FConst (CRef o))).
Proof.
  intros ufun uobj. unfold make_constval, constant_ref. repeat split; intros; rewrite H; reflexivity.
Qed.
Print Assumptions C103_form_partial.
Example C103_form_example :
  make_constval (fun _ => VL 2 0 [VN 0 1; VO 0 2]) 5 = CLike (FUser 5) /\
  constant_ref (fun _ => VN 0 0) (fun _ => VO 1 4) (OUser 3) = CRef (OUser 3) /\
  constant_ref (fun _ => VN 0 0) (fun _ => VL 1 4 []) (OUser 3) = CLike (FConst (CRef (OUser 3))).
Proof. repeat split. Qed.

(** Two functors that return the same floating-point number make constants of different types. *)
Theorem C103_same_type_refuted : exists ufun n m, well_typed (ufun n) /\ ufun n = ufun m /\ make_constval ufun n <> make_constval ufun m.
Proof. exists (fun _ => VO 0 3), 1, 2. split; [constructor|]. split; [reflexivity|discriminate]. Qed.
Print Assumptions C103_same_type_refuted.

Definition pair12 : cval := VA (TyN 0) [VN 0 1; VN 0 2].
Lemma pair12_ok : well_typed pair12 /\ structural pair12.
Proof. split; constructor; intros x [<-|[<-|[]]]; try (split; [constructor|reflexivity]); constructor. Qed.
Example C103_nontrivial :
  make_constval (fun _ => pair12) 1 = make_constval (fun _ => pair12) 2 /\ make_constval (fun _ => pair12) 1 = CArrN 0 [1; 2]%Z /\
  make_constval (fun _ => VT [VN 0 1; VO 3 7]) 1 = CTup [CInt 0 1; CConstval (FTupAcc 1 (FUser 1))].
Proof. repeat split. Qed.

(** The alternatives of an expanded array have the values of its elements ... *)
Theorem C103_alternatives : forall ufun uobj n t l alts, ufun n = VA t l -> well_typed (VA t l) ->
  alternatives ufun uobj (make_constval ufun n) = Some alts ->
  length alts = length l /\ forall k c, nth_error alts k = Some c -> nth_error l k = Some (eval ufun uobj c).
Proof.
  intros ufun uobj n t l alts E W A. unfold make_constval in A. rewrite E in A. inversion W as [|? ? HW| | |]; subst.
  assert (D : (exists k, t = TyN k) \/ forall k, t <> TyN k) by (destruct t; eauto; right; discriminate).
  destruct D as [[k ->]|D].
  - cbn in A. injection A as <-. rewrite !map_length. split; [reflexivity|]. intros i c H. rewrite map_map, nth_error_map in H.
    destruct (nth_error l i) as [x|] eqn:Hx; [|discriminate]. injection H as <-. destruct (HW x (nth_error_In _ _ Hx)) as [_ T].
    destruct x; try discriminate. cbn in *. congruence.
  - rewrite alternatives_arr in A by exact D. injection A as <-. rewrite map_index_length. split; [reflexivity|]. intros i c H. rewrite map_index_nth in H.
    destruct (nth_error l i) as [x|] eqn:Hx; [|discriminate]. injection H as <-.
    assert (V : eval ufun uobj (make_constval_1 x (FArrAcc i (FUser n))) = x).
    { apply make_eval; [apply HW; exact (nth_error_In _ _ Hx)|]. cbn [eval_functor]. rewrite E. apply get_nth. exact Hx. }
    rewrite constant_ref_eval; rewrite eval_OValue, ?Nat.add_0_l, V; [reflexivity|apply HW; exact (nth_error_In _ _ Hx)].
Qed.
Print Assumptions C103_alternatives.

Lemma C103_nonempty : forall ufun uobj n t l, ufun n = VA t l -> exists alts, alternatives ufun uobj (make_constval ufun n) = Some alts.
Proof. intros ufun uobj n t l E. unfold make_constval. rewrite E. destruct t; cbn; eauto. Qed.

Lemma C103_elements : forall ufun uobj n t l, ufun n = VA t l -> well_typed (VA t l) -> elements (eval ufun uobj (make_constval ufun n)) = l.
Proof. intros ufun uobj n t l E W. rewrite C103_value by (rewrite E; exact W). rewrite E. reflexivity. Qed.

(** ... and an array with a structural element that occurs more than once cannot be expanded, whatever the runtime value ... *)
Theorem C103_repeated_rejected : forall ufun uobj n t l i j x (B : Type) can_order lt_AA lt_AB lt_BA eq_AB (value : B),
  ufun n = VA t l -> well_typed (VA t l) -> nth_error l i = Some x -> nth_error l j = Some x -> i <> j -> structural x ->
  expand_const ufun uobj can_order lt_AA lt_AB lt_BA eq_AB value (make_constval ufun n) = IllFormed /\
  try_expand_const ufun uobj can_order lt_AA lt_AB lt_BA eq_AB value (make_constval ufun n) = IllFormed /\
  expand_failfast_const ufun uobj can_order lt_AA lt_AB lt_BA eq_AB value (make_constval ufun n) = IllFormed.
Proof.
  intros ufun uobj n t l i j x B co lt1 lt2 lt3 eq value E W Hi Hj Ne S.
  destruct (C103_nonempty ufun uobj n t l E) as [alts A].
  assert (N : all_differ alts = false).
  { apply not_true_iff_false. rewrite all_differ_ok. unfold make_constval in A. rewrite E in A.
    rewrite (alternatives_differ ufun uobj t l (FUser n) alts W E A). intro H. apply Ne. exact (H i j x Hi Hj S). }
  unfold expand_const, try_expand_const, expand_failfast_const. rewrite A, N. unfold expand, try_expand, expand_failfast, variant_map_ok.
  destruct (elements _); auto.
Qed.
Print Assumptions C103_repeated_rejected.

(** ... whereas all other arrays with elements can be, also if elements that are not structural are repeated.  Then C12 and C14 apply. *)
Theorem C103_otherwise_expanded : forall ufun uobj n t l (B : Type) can_order lt_AA lt_AB lt_BA eq_AB (value : B),
  ufun n = VA t l -> well_typed (VA t l) -> (forall i j x, nth_error l i = Some x -> nth_error l j = Some x -> structural x -> i = j) ->
  expand_const ufun uobj can_order lt_AA lt_AB lt_BA eq_AB value (make_constval ufun n) = expand_other can_order lt_AA lt_AB lt_BA eq_AB value l /\
  try_expand_const ufun uobj can_order lt_AA lt_AB lt_BA eq_AB value (make_constval ufun n) = try_expand_other can_order lt_AA lt_AB lt_BA eq_AB value l /\
  expand_failfast_const ufun uobj can_order lt_AA lt_AB lt_BA eq_AB value (make_constval ufun n) = expand_failfast_other can_order lt_AA lt_AB lt_BA eq_AB value l.
Proof.
  intros ufun uobj n t l B co lt1 lt2 lt3 eq value E W H.
  destruct (C103_nonempty ufun uobj n t l E) as [alts A].
  assert (N : all_differ alts = true).
  { rewrite all_differ_ok. unfold make_constval in A. rewrite E in A. rewrite (alternatives_differ ufun uobj t l (FUser n) alts W E A). exact H. }
  unfold expand_const, try_expand_const, expand_failfast_const. rewrite A, N, (C103_elements ufun uobj n t l E W). auto.
Qed.
Print Assumptions C103_otherwise_expanded.

Theorem C103_found_or_reported : forall ufun uobj n t l (B : Type) can_order lt_AA lt_AB lt_BA eq_AB (value : B),
  ufun n = VA t l -> well_typed (VA t l) -> l <> [] -> (forall i j x, nth_error l i = Some x -> nth_error l j = Some x -> structural x -> i = j) ->
  consistent lt_AA lt_AB lt_BA eq_AB (fun a => In a l) value -> (forall a, In a l -> lt_AA a a = false) ->
  behaves (fun k => exists x, nth_error l k = Some x /\ eq_AB x value = true)
    (expand_const ufun uobj can_order lt_AA lt_AB lt_BA eq_AB value (make_constval ufun n))
    (try_expand_const ufun uobj can_order lt_AA lt_AB lt_BA eq_AB value (make_constval ufun n))
    (expand_failfast_const ufun uobj can_order lt_AA lt_AB lt_BA eq_AB value (make_constval ufun n)).
Proof.
  intros ufun uobj n t l B co lt1 lt2 lt3 eq value E W Ne H K I.
  destruct (C103_otherwise_expanded ufun uobj n t l B co lt1 lt2 lt3 eq value E W H) as [-> [-> ->]].
  apply expand_other_complete; assumption.
Qed.
Print Assumptions C103_found_or_reported.

(** Full statement for expansion: any non-empty array of constants can be expanded. *)
Theorem C103_expand_refuted : exists ufun uobj t l, well_typed (VA t l) /\ l <> [] /\ ufun 0 = VA t l /\
  forall (B : Type) can_order lt_AA lt_AB lt_BA eq_AB (value : B),
    expand_const ufun uobj can_order lt_AA lt_AB lt_BA eq_AB value (make_constval ufun 0) = IllFormed.
Proof.
  set (l := [pair12; pair12]). exists (fun _ => VA (TyA (TyN 0) 2) l), (fun _ => VN 0 0), (TyA (TyN 0) 2), l.
  assert (W : well_typed (VA (TyA (TyN 0) 2) l)) by (constructor; intros x [<-|[<-|[]]]; (split; [apply pair12_ok|reflexivity])).
  split; [exact W|]. split; [discriminate|]. split; [reflexivity|]. intros.
  apply (C103_repeated_rejected (fun _ => VA (TyA (TyN 0) 2) l) (fun _ => VN 0 0) 0 (TyA (TyN 0) 2) l 0 1 pair12); auto using (proj2 pair12_ok).
Qed.
Print Assumptions C103_expand_refuted.

Definition double_eqb (a : cval) (b : Z) : bool := match a with VO _ z => Z.eqb z b | _ => false end.
Example C103_expand_example :
  expand_const (fun _ => VA (TyO 0) [VO 0 5; VO 0 7; VO 0 7; VO 0 9]) (fun _ => VN 0 0) false (fun _ _ => false) (fun _ _ => false) (fun _ _ => false) double_eqb 7%Z
    (make_constval (fun _ => VA (TyO 0) [VO 0 5; VO 0 7; VO 0 7; VO 0 9]) 0) = Ok 1.
Proof. reflexivity. Qed.

(** * C104 *)
(** Full statement: array_constant{ cs... } is make_array_constant(cs...), and tuple_constant{ cs... } is make_tuple_constant(cs...).

    make_array_constant() returns the array of the values; it requires constvals of the same value type, and at least one. *)
Lemma common_iff : forall ufun uobj cs t, common_value_type ufun uobj cs = Some t <-> cs <> [] /\ forall c, In c cs -> type_of (eval ufun uobj c) = t.
Proof.
  intros ufun uobj [|c r] t; cbn [common_value_type]; [split; [discriminate|intros [H _]; destruct (H eq_refl)]|].
  destruct (forallb _ r) eqn:F.
  - rewrite forallb_forall in F. split.
    + intro E. injection E as <-. split; [discriminate|]. intros d [<-|Hd]; [reflexivity|]. symmetry. apply ty_eqb_ok. apply F. exact Hd.
    + intros [_ H]. f_equal. apply H. left. reflexivity.
  - split; [discriminate|]. intros [_ H]. exfalso. apply not_true_iff_false in F. apply F. apply forallb_forall. intros d Hd. apply ty_eqb_ok.
    rewrite !H by (cbn; auto). reflexivity.
Qed.

Theorem C104_make_array_constant : forall ufun uobj cs c,
  (forall d, In d cs -> well_typed (eval ufun uobj d)) ->
  make_array_constant ufun uobj cs = Ok c ->
  exists t, cs <> [] /\ (forall d, In d cs -> type_of (eval ufun uobj d) = t) /\ eval ufun uobj c = VA t (map (eval ufun uobj) cs).
Proof.
  intros ufun uobj cs c W H. unfold make_array_constant in H. destruct (common_value_type ufun uobj cs) as [t|] eqn:E; [|discriminate]. injection H as <-.
  apply common_iff in E. destruct E as [Ne E]. exists t. split; [exact Ne|]. split; [exact E|].
  assert (D : (exists k, t = TyN k) \/ forall k, t <> TyN k) by (destruct t; eauto; right; discriminate).
  destruct D as [[k ->]|D].
  - cbn. f_equal. rewrite map_map. apply map_ext_in. intros d Hd. specialize (E d Hd). destruct (eval ufun uobj d); try discriminate. cbn in *. congruence.
  - replace (array_of ufun uobj t cs) with (CArrR t (map OValue cs)) by (destruct t; [destruct (D k eq_refl)| | | |]; reflexivity).
    cbn. rewrite map_map. reflexivity.
Qed.
Print Assumptions C104_make_array_constant.

Theorem C104_make_array_constant_accepts : forall ufun uobj cs,
  (exists c, make_array_constant ufun uobj cs = Ok c) <-> cs <> [] /\ exists t, forall d, In d cs -> type_of (eval ufun uobj d) = t.
Proof.
  intros ufun uobj cs. unfold make_array_constant. split.
  - intros [c H]. destruct (common_value_type ufun uobj cs) as [t|] eqn:E; [|discriminate]. apply common_iff in E. destruct E. eauto.
  - intros [Ne [t H]]. rewrite (proj2 (common_iff ufun uobj cs t)) by auto. eauto.
Qed.
Print Assumptions C104_make_array_constant_accepts.

(** Not the arrays constants of one array constant. *)
Definition single_array (cs : list ctype) : Prop := exists c, cs = [c] /\ ((exists k zs, c = CArrN k zs) \/ exists t os, c = CArrR t os).

Lemma deduce_general : forall ufun uobj cs, ~ single_array cs ->
  deduce_array ufun uobj cs = do c <- make_array_constant ufun uobj cs; if list_eqb ctype_eqb cs (parameters ufun uobj c) then Ok c else IllFormed.
Proof.
  intros ufun uobj [|c [|d r]] N; try reflexivity; destruct c; try reflexivity; destruct N; eexists; split; try reflexivity; eauto.
Qed.

(** array_constant{ cs... } for integral constants of the same type. *)
Theorem C104_deduce_integral_partial : forall ufun uobj k zs, zs <> [] ->
  deduce_array ufun uobj (map (CInt k) zs) = Ok (CArrN k zs) /\ make_array_constant ufun uobj (map (CInt k) zs) = Ok (CArrN k zs).
Proof.
  intros ufun uobj k zs Ne.
  assert (M : make_array_constant ufun uobj (map (CInt k) zs) = Ok (CArrN k zs)).
  { unfold make_array_constant. rewrite (proj2 (common_iff ufun uobj (map (CInt k) zs) (TyN k))).
    - cbn. rewrite map_map. cbn. rewrite map_id. reflexivity.
    - split; [destruct zs; [contradiction|discriminate]|]. intros c H. apply in_map_iff in H. destruct H as [z [<- _]]. reflexivity. }
  split; [|exact M]. rewrite deduce_general.
  - rewrite M. cbn. rewrite (proj2 (list_eqb_ok _ ctype_eqb (map (CInt k) zs) (proj2 (Forall_forall _ _) (fun c _ => ctype_eqb_ok c)) (map (CInt k) zs)) eq_refl). reflexivity.
  - intros [c [E G]]. destruct zs as [|z [|? ?]]; try discriminate. injection E as <-. destruct G as [[? [? G]]|[? [? G]]]; discriminate.
Qed.
Print Assumptions C104_deduce_integral_partial.

(** array_constant{ cs... } for constvals of any other type: accepted iff all values are structural (and the constvals normalised). *)
Theorem C104_deduce_other_partial : forall ufun uobj cs t,
  cs <> [] -> ~ single_array cs -> (forall k, t <> TyN k) -> (forall d, In d cs -> well_typed (eval ufun uobj d) /\ type_of (eval ufun uobj d) = t) ->
  (deduce_array ufun uobj cs = make_array_constant ufun uobj cs <->
   forall d, In d cs -> structural (eval ufun uobj d) /\ forall C, make_constval_1 (eval ufun uobj d) C = d) /\
  (deduce_array ufun uobj cs = make_array_constant ufun uobj cs \/ deduce_array ufun uobj cs = IllFormed).
Proof.
  intros ufun uobj cs t Ne N Ht H. rewrite (deduce_general ufun uobj cs N).
  assert (M : make_array_constant ufun uobj cs = Ok (CArrR t (map OValue cs))).
  { unfold make_array_constant. rewrite (proj2 (common_iff ufun uobj cs t)) by (split; [exact Ne|]; intros d Hd; apply H; exact Hd).
    destruct t; [destruct (Ht k eq_refl)| | | |]; reflexivity. }
  rewrite M. cbn [bind parameters alternatives]. rewrite map_map.
  destruct (list_eqb ctype_eqb cs (map (fun x => constant_ref ufun uobj (OValue x)) cs)) eqn:E.
  - split; [|left; reflexivity]. split; [|reflexivity]. intros _ d Hd.
    apply (list_eqb_ok _ ctype_eqb cs (proj2 (Forall_forall _ _) (fun c _ => ctype_eqb_ok c))) in E.
    apply constant_ref_self; [apply H; exact Hd|].
    destruct (In_nth_error _ _ Hd) as [k Hk]. assert (E' := f_equal (fun l => nth_error l k) E). cbn in E'. rewrite nth_error_map, Hk in E'. injection E' as E'. symmetry. exact E'.
  - split; [|right; reflexivity]. split; [discriminate|]. intro S. exfalso. apply not_true_iff_false in E. apply E.
    apply (list_eqb_ok _ ctype_eqb cs (proj2 (Forall_forall _ _) (fun c _ => ctype_eqb_ok c))).
    rewrite <- (map_id cs) at 1. apply map_ext_in. intros d Hd. symmetry. apply constant_ref_self; [apply H; exact Hd|apply S; exact Hd].
Qed.
Print Assumptions C104_deduce_other_partial.

(** In particular for constants made by functors. *)
Theorem C104_deduce_made_partial : forall ufun uobj ns t,
  2 <= length ns -> (forall k, t <> TyN k) -> (forall n, In n ns -> well_typed (ufun n) /\ type_of (ufun n) = t) ->
  (deduce_array ufun uobj (map (make_constval ufun) ns) = make_array_constant ufun uobj (map (make_constval ufun) ns) <-> forall n, In n ns -> structural (ufun n)).
Proof.
  intros ufun uobj ns t L Ht H.
  destruct (C104_deduce_other_partial ufun uobj (map (make_constval ufun) ns) t) as [G _]; auto.
  - destruct ns; [inversion L|discriminate].
  - intros [c [E _]]. destruct ns as [|? [|? ?]]; [inversion L|inversion L; inversion H1|discriminate].
  - intros d Hd. apply in_map_iff in Hd. destruct Hd as [n [<- Hn]]. rewrite C103_value by (apply H; exact Hn). apply H. exact Hn.
  - rewrite G. split.
    + intros S n Hn. rewrite <- (C103_value ufun uobj n) by (apply H; exact Hn). apply S. apply in_map. exact Hn.
    + intros S d Hd. apply in_map_iff in Hd. destruct Hd as [n [<- Hn]]. rewrite C103_value by (apply H; exact Hn). split; [auto|].
      intro C. apply structural_any. auto.
Qed.
Print Assumptions C104_deduce_made_partial.

(** A single argument that is an array constant is copied instead. *)
Theorem C104_deduce_single_partial : forall ufun uobj c, single_array [c] -> deduce_array ufun uobj [c] = Ok c.
Proof. intros ufun uobj c [d [E [[k [zs ->]]|[t [os ->]]]]]; injection E as ->; reflexivity. Qed.
Print Assumptions C104_deduce_single_partial.

(** Tuples. *)
Theorem C104_deduce_tuple_partial : forall cs,
  deduce_tuple cs = make_tuple_constant cs <-> ~ exists ds, cs = [CTup ds].
Proof.
  intros [|c [|d r]]; try (split; [intros _ [ds E]; discriminate|reflexivity]).
  - destruct c; cbn; try (split; [intros _ [ds E]; discriminate|reflexivity]).
    split; [|intro N; destruct N; eauto]. intros E _. injection E as E.
    assert (X : forall l : list ctype, l <> [CTup l]).
    { intros l El. assert (list_sum (map csize l) = list_sum (map csize [CTup l])) by (rewrite <- El; reflexivity). cbn in H.
      rewrite Nat.add_0_r in H. exact (Nat.neq_succ_diag_r _ H). }
    exact (X cs E).
  - destruct c; (split; [intros _ [ds E]; discriminate|reflexivity]).
Qed.
Print Assumptions C104_deduce_tuple_partial.

(** The full statement fails: for two floating-point constants, and for an array of one array. *)
Theorem C104_deduce_refuted :
  (exists ufun uobj cs c, make_array_constant ufun uobj cs = Ok c /\ deduce_array ufun uobj cs = IllFormed) /\
  (exists ufun uobj cs c d, make_array_constant ufun uobj cs = Ok c /\ deduce_array ufun uobj cs = Ok d /\ eval ufun uobj c <> eval ufun uobj d) /\
  (exists cs, deduce_tuple cs <> make_tuple_constant cs).
Proof.
  split; [|split].
  - exists (fun n => VO 0 (Z.of_nat n)), (fun _ => VN 0 0), [CConstval (FUser 1); CConstval (FUser 2)]. eexists. split; reflexivity.
  - exists (fun n => VO 0 (Z.of_nat n)), (fun _ => VN 0 0), [CArrN 0 [1; 2]%Z]. do 2 eexists. split; [reflexivity|]. split; [reflexivity|discriminate].
  - exists [CTup [CInt 0 1]]. discriminate.
Qed.
Print Assumptions C104_deduce_refuted.

Example C104_nontrivial :
  deduce_array (fun _ => VN 0 0) (fun _ => VN 0 0) [CInt 0 1; CInt 0 2] = Ok (CArrN 0 [1; 2]%Z) /\
  deduce_array (fun _ => VN 0 0) (fun _ => VN 0 0) [CArrN 0 [1; 2]%Z; CArrN 0 [3; 4]%Z] = Ok (CArrR (TyA (TyN 0) 2) [OValue (CArrN 0 [1; 2]%Z); OValue (CArrN 0 [3; 4]%Z)]) /\
  deduce_array (fun _ => VN 0 0) (fun _ => VN 0 0) [CInt 0 1; CInt 1 2] = IllFormed /\
  deduce_array (fun _ => VN 0 0) (fun _ => VN 0 0) [CTup [CInt 0 1]; CTup [CInt 0 2]] = Ok (CArrR (TyT [TyN 0]) [OValue (CTup [CInt 0 1]); OValue (CTup [CInt 0 2])]) /\
  (forall C, make_constval_1 (eval (fun _ => VN 0 0) (fun _ => VN 0 0) (CTup [CInt 0 1])) C = CTup [CInt 0 1]) /\
  deduce_tuple [CInt 0 1; CTup []] = make_tuple_constant [CInt 0 1; CTup []].
Proof. repeat split. Qed.
