(** C81: what the range algorithms do to ranges and functors about which nothing is known. *)

From Coq Require Import ZArith Arith Bool Lia List.
From Verif Require Import Base ZipModel ZipSpec ProtoModel ProtoSpec ProtoProofs ProtoLoopProofs ProtoRunProofs ProtoSimProofs
  ProtoCountProofs ProtoResultProofs.
Import ListNotations.

Local Open Scope Z_scope.

(** * Ranges for the examples *)

(** Ranges that behave as sequences; functors that return a function of their arguments; sums. *)
Definition len (rs : list rng) (k : nat) : Z := match nth_error rs k with Some r => r_len r | None => 0 end.
Definition ideal (rs : list rng) (f : list arg -> outcome Z) (h : history) (e : event) : outcome Z :=
  match e with
  | ESize k => Ok (len rs k)
  | EBegin _ | EEnd _ | EData _ | EGen | EAssign _ => Ok 0
  | ECmp k => Ok (if position k h =? len rs k then 1 else 0)
  | EDeref k => if position k h <? len rs k then Ok (position k h) else UB
  | EInc k => if position k h <? len rs k then Ok 0 else UB
  | EFunc args => f args
  | EReduce a b => Ok (a + b)
  end.

Lemma ideal_positional : forall rs f, positional rs (ideal rs f).
Proof.
  intros rs f k r h Hr. unfold ideal. unfold len. rewrite Hr.
  split; [reflexivity|]. split; [now exists 0|]. split; [now exists 0|]. split; [now exists 0|]. split; [|split].
  - destruct (Z.eqb_spec (position k h) (r_len r)) as [E|E].
    + exists 1. split; auto. split; [auto | lia].
    + exists 0. split; auto. split; [congruence | contradiction].
  - reflexivity.
  - destruct (position k h <? r_len r); [now exists 0 | reflexivity].
Qed.

Definition in_order (h : history) (n : nat) : list nat := seq 0 n.
Definition backwards (h : history) (n : nat) : list nat := rev (seq 0 n).
Lemma in_order_ok : evaluation_order in_order.
Proof. intros h n. split; [apply seq_NoDup|]. intros j. unfold in_order. rewrite in_seq. lia. Qed.
Lemma backwards_ok : evaluation_order backwards.
Proof.
  intros h n. split; [apply NoDup_rev, seq_NoDup|]. intros j. unfold backwards. rewrite <- in_rev, in_seq. lia.
Qed.

(** A list without size(), a list with size(), an array, and range_index. *)
Definition four : list rng :=
  [Build_rng MPair KUnknown 2; Build_rng MIter KDynamic 2; Build_rng MIndex KStatic 2; Build_rng MRangeIndex KUnknown 0].
Definition first_arg (args : list arg) : outcome Z := match args with ADeref x :: _ | AElem _ x :: _ => Ok x | _ => Ok 7 end.

(** * The protocol *)

Theorem C81_range_for : forall env ord fuel rs h o, evaluation_order ord -> range_for env ord fuel rs [] = (h, o) ->
  forall k r, nth_error rs k = Some r ->
  exists s, follows (style_of r) false k (setup (style_of r) (sizing k r ++ opening k r)) h = Some s /\
            (o = Ok tt -> exhausted (style_of r) s).
Proof.
  intros env ord fuel rs h o Ho H k r Hr.
  destruct (moves_start _ (style_of r) false k (range_for env ord fuel rs) (setup (style_of r) (sizing k r ++ opening k r))
              (fun _ s => exhausted (style_of r) s)) with (2 := H) as (s & F & Q).
  - unfold range_for. eapply moves_bind.
    + apply algorithm_moves with (r := r); auto.
      intros a i args s Hs Hg. eapply moves_bind; [eapply call_moves; eauto|].
      intros z s' Hs' ->. apply moves_ret; auto.
    + intros [a|[]] s Hs E. apply moves_ret; auto.
  - exists s. split; auto. intros ->. eauto.
Qed.
Print Assumptions C81_range_for.

Theorem C81_transform_reduce : forall env ord fuel init rs h o, evaluation_order ord ->
  range_transform_reduce env ord fuel init rs [] = (h, o) ->
  forall k r, nth_error rs k = Some r ->
  exists s, follows (style_of r) true k (setup (style_of r) (sizing k r ++ opening k r)) h = Some s /\
            forall z, o = Ok z -> exhausted (style_of r) s.
Proof.
  intros env ord fuel init rs h o Ho H k r Hr.
  destruct (moves_start _ (style_of r) true k (range_transform_reduce env ord fuel init rs) (setup (style_of r) (sizing k r ++ opening k r))
              (fun _ s => exhausted (style_of r) s)) with (2 := H) as (s & F & Q).
  - unfold range_transform_reduce. eapply moves_bind.
    + apply algorithm_moves with (r := r); auto. intros a i args s Hs Hg. now apply reduce_moves.
    + intros [a|[]] s Hs E. apply moves_ret; auto.
  - exists s. split; auto.
Qed.
Print Assumptions C81_transform_reduce.

Theorem C81_count_if : forall env ord fuel rs h o, evaluation_order ord -> range_count_if env ord fuel rs [] = (h, o) ->
  forall k r, nth_error rs k = Some r ->
  exists s, follows (style_of r) false k (setup (style_of r) (sizing k r ++ opening k r)) h = Some s /\
            forall n, o = Ok n -> exhausted (style_of r) s.
Proof.
  intros env ord fuel rs h o Ho H k r Hr.
  destruct (moves_start _ (style_of r) false k (range_count_if env ord fuel rs) (setup (style_of r) (sizing k r ++ opening k r))
              (fun _ s => exhausted (style_of r) s)) with (2 := H) as (s & F & Q).
  - unfold range_count_if. eapply moves_bind.
    + apply algorithm_moves with (r := r); auto.
      intros a i args s Hs Hg. eapply moves_bind; [eapply call_moves; eauto|].
      intros z s' Hs' ->. apply moves_ret; auto.
    + intros [a|[]] s Hs E. apply moves_ret; auto.
  - exists s. split; auto.
Qed.
Print Assumptions C81_count_if.

(** The three searches: after the last element, or with the element that decides the result in hand. *)
Lemma search_moves : forall env ord fuel (f : Z -> unit + bool) (d : bool) rs h o, evaluation_order ord ->
  (forall z r, f z = inr r -> r = negb d) ->
  bindM (algorithm env ord fuel (fun (_ : unit) args => bindM (emit env (EFunc args)) (fun z => ret (f z))) tt rs)
        (fun x => match x with inl _ => ret d | inr r => ret r end) [] = (h, o) ->
  forall k r, nth_error rs k = Some r ->
  exists s, follows (style_of r) false k (setup (style_of r) (sizing k r ++ opening k r)) h = Some s /\
            (o = Ok d -> exhausted (style_of r) s) /\ (o = Ok (negb d) -> left_early (style_of r) s).
Proof.
  intros env ord fuel f d rs h o Ho Hf H k r Hr. unfold bindM at 1 in H.
  set (m := algorithm env ord fuel (fun (_ : unit) args => bindM (emit env (EFunc args)) (fun z => ret (f z))) tt rs) in *.
  destruct (m []) as [h1 o1] eqn:X.
  destruct (moves_start _ (style_of r) false k m (setup (style_of r) (sizing k r ++ opening k r))
              (fun x s' => match x with inl _ => exhausted (style_of r) s' | inr _ => left_early (style_of r) s' end)) with (2 := X)
    as (s & F & Q).
  - apply algorithm_moves with (r := r); auto.
    intros a i args s Hs Hg. eapply moves_bind; [eapply call_moves; eauto|].
    intros z s' Hs' ->. apply moves_ret; auto.
  - assert (E : h = h1) by (destruct o1 as [[a|b]| | | | |]; unfold ret in H; congruence). subst h1. exists s. split; auto.
    assert (R : forall b, o1 = Ok (inr b) -> b = negb d).
    { intros b ->. unfold m in X.
      refine (call_track env ord Ho unit bool _ rs (fun _ _ => True) (fun x _ => x = negb d) (fun _ => True) fuel tt h (Ok (inr b))
                _ _ _ _ _ X); auto.
      - intros a args g g' o0 _ G. unfold bindM, emit in G. destruct (env g (EFunc args)) as [z| | | | |]; injection G as <- <-; auto.
        destruct (f z) as [u|x] eqn:Y; auto. eapply Hf; eauto.
      - intros a args. apply honest_call. }
    destruct o1 as [[a|b]| | | | |]; unfold ret in H; injection H as <-; split; try discriminate; intros E.
    + apply (Q _ eq_refl).
    + destruct d; discriminate.
    + rewrite (R b eq_refl) in E. destruct d; discriminate.
    + apply (Q _ eq_refl).
Qed.

Theorem C81_all_of : forall env ord fuel rs h o, evaluation_order ord -> range_all_of env ord fuel rs [] = (h, o) ->
  forall k r, nth_error rs k = Some r ->
  exists s, follows (style_of r) false k (setup (style_of r) (sizing k r ++ opening k r)) h = Some s /\
            (o = Ok true -> exhausted (style_of r) s) /\ (o = Ok false -> left_early (style_of r) s).
Proof.
  intros env ord fuel rs h o Ho H k r Hr.
  apply (search_moves env ord fuel (fun z => if negb (truth z) then inr false else inl tt) true rs h o); auto.
  intros z x. destruct (negb (truth z)); [|discriminate]. intros E. now injection E as <-.
Qed.
Print Assumptions C81_all_of.

Theorem C81_any_of : forall env ord fuel rs h o, evaluation_order ord -> range_any_of env ord fuel rs [] = (h, o) ->
  forall k r, nth_error rs k = Some r ->
  exists s, follows (style_of r) false k (setup (style_of r) (sizing k r ++ opening k r)) h = Some s /\
            (o = Ok false -> exhausted (style_of r) s) /\ (o = Ok true -> left_early (style_of r) s).
Proof.
  intros env ord fuel rs h o Ho H k r Hr.
  apply (search_moves env ord fuel (fun z => if truth z then inr true else inl tt) false rs h o); auto.
  intros z x. destruct (truth z); [|discriminate]. intros E. now injection E as <-.
Qed.
Print Assumptions C81_any_of.

Theorem C81_none_of : forall env ord fuel rs h o, evaluation_order ord -> range_none_of env ord fuel rs [] = (h, o) ->
  forall k r, nth_error rs k = Some r ->
  exists s, follows (style_of r) false k (setup (style_of r) (sizing k r ++ opening k r)) h = Some s /\
            (o = Ok true -> exhausted (style_of r) s) /\ (o = Ok false -> left_early (style_of r) s).
Proof.
  intros env ord fuel rs h o Ho H k r Hr.
  apply (search_moves env ord fuel (fun z => if truth z then inr false else inl tt) true rs h o); auto.
  intros z x. destruct (truth z); [|discriminate]. intros E. now injection E as <-.
Qed.
Print Assumptions C81_none_of.

Theorem C81_zip_sentinel_for : forall env ord fuel rs h o, evaluation_order ord -> zip_sentinel_for env ord fuel rs [] = (h, o) ->
  forall k r, nth_error rs k = Some r ->
  exists s, follows (style_of r) false k (setup (style_of r) (sizing k r ++ opening k r)) h = Some s /\
            (o = Ok tt -> exhausted (style_of r) s).
Proof.
  intros env ord fuel rs h o Ho H k r Hr.
  destruct (moves_start _ _ _ _ _ _ _ (zip_sentinel_moves env ord fuel k rs r Ho Hr) h o H) as (s & F & Q).
  exists s. split; auto. intros ->. eauto.
Qed.
Print Assumptions C81_zip_sentinel_for.

(** range_zip() is different: it makes a second iterator and never compares an iterator with the end. *)
Theorem C81_zip_for : forall env ord fuel rs h o, evaluation_order ord -> zip_for env ord fuel rs [] = (h, o) ->
  forall k r, nth_error rs k = Some r ->
  exists s, follows (zip_style_of r) false k (setup (zip_style_of r) (sizing k r ++ zip_opening k r)) h = Some s /\
            (o = Ok tt -> exhausted (zip_style_of r) s).
Proof.
  intros env ord fuel rs h o Ho H k r Hr.
  destruct (moves_start _ _ _ _ _ _ _ (zip_moves env ord fuel k rs r Ho Hr) h o H) as (s & F & Q).
  exists s. split; auto. intros ->. eauto.
Qed.
Print Assumptions C81_zip_for.

(** Two lists, an array and an index; arguments evaluated from right to left. *)
Example C81_range_for_example :
  exists h, range_for (ideal four first_arg) backwards 5 four [] = (h, Ok tt) /\
    follows Guarded false 0 (setup Guarded [EBegin 0; EEnd 0]) h = Some AtEnd /\
    follows Counted false 1 (setup Counted [ESize 1; EBegin 1]) h = Some Valid /\
    follows Direct false 2 (setup Direct [EData 2]) h = Some (Ready 2) /\
    follows Counter false 3 (setup Counter []) h = Some (Ready 2).
Proof. eexists. vm_compute. repeat split. Qed.
Example C81_any_of_example :
  exists h, range_any_of (ideal four first_arg) in_order 5 four [] = (h, Ok true) /\
    follows Guarded false 0 (setup Guarded [EBegin 0; EEnd 0]) h = Some Used /\ answers h = [false; true].
Proof. eexists. vm_compute. repeat split. Qed.
Example C81_transform_reduce_example :
  exists h, range_transform_reduce (ideal four first_arg) in_order 5 10 four [] = (h, Ok 11) /\
    follows Guarded true 0 (setup Guarded [EBegin 0; EEnd 0]) h = Some AtEnd /\ reduced 10 h = Some 11.
Proof. eexists. vm_compute. repeat split. Qed.
Example C81_zip_for_example :
  exists h, zip_for (ideal four first_arg) backwards 5 four [] = (h, Ok tt) /\
    follows Counted false 0 (setup Counted [EBegin 0; EEnd 0; EEnd 0]) h = Some Valid /\
    follows Direct false 2 (setup Direct [EData 2; EData 2]) h = Some (Ready 2).
Proof. eexists. vm_compute. repeat split. Qed.

(** * Failures *)

(** Without a failing operation there is no exception; a failing operation is the last one, and its failure leaves the
    function (an exception from size() terminates the program). *)
Definition passes_on {A : Type} (h : history) (o : outcome A) : Prop :=
  (all_ok h /\ (forall e, o <> Throw e) /\ o <> UB) \/
  exists h' e x, h = h' ++ [(e, x)] /\ all_ok h' /\ (forall z, x <> Ok z) /\ failure_of e x o.

Lemma faithful_passes_on : forall A (m : M A) h o, faithful m -> m [] = (h, o) -> passes_on h o.
Proof.
  intros A m h o F H. destruct (F _ _ _ H) as (t & E & C). simpl in E. subst t.
  destruct C as [[C1 C2]|C]; [left|right; exact C]. split; auto. split; [intros e ->; exact C2 | intros ->; exact C2].
Qed.
Lemma faithful_map : forall A B (m : M A) (f : A -> B), faithful m -> faithful (bindM m (fun a => ret (f a))).
Proof. intros A B m f H. apply faithful_bind; auto. intros a. apply faithful_honest, honest_ret. Qed.

Theorem C81_failures : forall env ord fuel init rs h,
  (forall o, range_for env ord fuel rs [] = (h, o) -> passes_on h o) /\
  (forall o, range_transform_reduce env ord fuel init rs [] = (h, o) -> passes_on h o) /\
  (forall o, range_count_if env ord fuel rs [] = (h, o) -> passes_on h o) /\
  (forall o, range_all_of env ord fuel rs [] = (h, o) -> passes_on h o) /\
  (forall o, range_any_of env ord fuel rs [] = (h, o) -> passes_on h o) /\
  (forall o, range_none_of env ord fuel rs [] = (h, o) -> passes_on h o) /\
  (forall o, zip_sentinel_for env ord fuel rs [] = (h, o) -> passes_on h o) /\
  (forall o, zip_for env ord fuel rs [] = (h, o) -> passes_on h o).
Proof.
  intros env ord fuel init rs h.
  assert (Fr : forall (A : Type) (a : A), faithful (ret a)) by (intros; apply faithful_honest, honest_ret).
  repeat split; intros o H; (eapply faithful_passes_on; [|exact H]).
  - unfold range_for. apply faithful_bind; [|intros; apply Fr]. apply faithful_algorithm. intros. apply honest_call.
  - unfold range_transform_reduce. apply faithful_bind; [|intros [a|[]]; apply Fr]. apply faithful_algorithm. intros a args.
    apply honest_bind; [apply honest_emit; exact I|]. intros x. apply honest_bind; [apply honest_emit; exact I | intros; apply honest_ret].
  - unfold range_count_if. apply faithful_bind; [|intros [a|[]]; apply Fr]. apply faithful_algorithm. intros a args.
    apply (honest_call env _ (fun z => inl (if truth z then a + 1 else a))).
  - unfold range_all_of. apply faithful_bind; [|intros [a|b]; apply Fr]. apply faithful_algorithm. intros. apply honest_call.
  - unfold range_any_of. apply faithful_bind; [|intros [a|b]; apply Fr]. apply faithful_algorithm. intros. apply honest_call.
  - unfold range_none_of. apply faithful_bind; [|intros [a|b]; apply Fr]. apply faithful_algorithm. intros. apply honest_call.
  - apply faithful_zip_sentinel.
  - apply faithful_zip.
Qed.
Print Assumptions C81_failures.

(** The functor throws at its second call: the element in hand is not left, nothing else happens. *)
Example C81_failures_example :
  exists h, fst (range_for (ideal four (fun args => match first_arg args with Ok 1 => Throw (UserException 3) | x => x end)) in_order 5 four [])
              = h ++ [(EFunc [ADeref 1; ADeref 1; AElem 2 1; AIdx 1], Throw (UserException 3))] /\
            snd (range_for (ideal four (fun args => match first_arg args with Ok 1 => Throw (UserException 3) | x => x end)) in_order 5 four [])
              = Throw (UserException 3) /\
            count (is_deref 0) h = 2%nat /\ count (is_inc 0) h = 1%nat.
Proof.
  match goal with |- exists h, ?x = _ /\ _ => let y := eval vm_compute in (removelast x) in exists y end.
  vm_compute. repeat split.
Qed.

(** * Numbers *)

(** When a function is done with all elements, every iterator has been incremented as often as it has been dereferenced,
    which is as often as the functor has been called; when it stops early, one increment is missing. *)
Definition consumed (rs : list rng) (h : history) : Prop :=
  forall k r, nth_error rs k = Some r ->
    match r_mode r with
    | MPair | MIter => count is_call h = count (is_deref k) h /\ count (is_deref k) h = count (is_inc k) h
    | _ => count (is_deref k) h = O /\ count (is_inc k) h = O
    end.
Definition interrupted (rs : list rng) (h : history) : Prop :=
  forall k r, nth_error rs k = Some r ->
    match r_mode r with
    | MPair | MIter => count is_call h = count (is_deref k) h /\ count (is_deref k) h = S (count (is_inc k) h)
    | _ => count (is_deref k) h = O /\ count (is_inc k) h = O
    end.

Lemma consumed_style : forall rs h, (forall k r, nth_error rs k = Some r -> exists red l s,
    follows (style_of r) red k (setup (style_of r) l) h = Some s /\ exhausted (style_of r) s) -> consumed rs h.
Proof.
  intros rs h H k r Hr. destruct (H k r Hr) as (red & l & s & F & E). pose proof (exhausted_balance _ _ _ _ _ _ F E) as B.
  unfold style_of in B. destruct (r_mode r); exact B.
Qed.
Lemma interrupted_style : forall rs h, (forall k r, nth_error rs k = Some r -> exists red l s,
    follows (style_of r) red k (setup (style_of r) l) h = Some s /\ left_early (style_of r) s) -> interrupted rs h.
Proof.
  intros rs h H k r Hr. destruct (H k r Hr) as (red & l & s & F & E). pose proof (early_balance _ _ _ _ _ _ F E) as B.
  unfold style_of in B. destruct (r_mode r); exact B.
Qed.

Theorem C81_consumed : forall env ord fuel init rs h, evaluation_order ord ->
  (range_for env ord fuel rs [] = (h, Ok tt) -> consumed rs h) /\
  (forall z, range_transform_reduce env ord fuel init rs [] = (h, Ok z) -> consumed rs h) /\
  (forall z, range_count_if env ord fuel rs [] = (h, Ok z) -> consumed rs h) /\
  (range_all_of env ord fuel rs [] = (h, Ok true) -> consumed rs h) /\
  (range_any_of env ord fuel rs [] = (h, Ok false) -> consumed rs h) /\
  (range_none_of env ord fuel rs [] = (h, Ok true) -> consumed rs h) /\
  (range_all_of env ord fuel rs [] = (h, Ok false) -> interrupted rs h) /\
  (range_any_of env ord fuel rs [] = (h, Ok true) -> interrupted rs h) /\
  (range_none_of env ord fuel rs [] = (h, Ok false) -> interrupted rs h) /\
  (zip_sentinel_for env ord fuel rs [] = (h, Ok tt) -> consumed rs h) /\
  (zip_for env ord fuel rs [] = (h, Ok tt) -> consumed rs h).
Proof.
  intros env ord fuel init rs h Ho.
  split; [intros H|split; [intros z H|split; [intros z H|split; [intros H|split; [intros H|split; [intros H|split; [intros H|
    split; [intros H|split; [intros H|split; [intros H|intros H]]]]]]]]]].
  - apply consumed_style. intros k r Hr. destruct (C81_range_for _ _ _ _ _ _ Ho H k r Hr) as (s & F & E). eauto 6.
  - apply consumed_style. intros k r Hr. destruct (C81_transform_reduce _ _ _ _ _ _ _ Ho H k r Hr) as (s & F & E). eauto 6.
  - apply consumed_style. intros k r Hr. destruct (C81_count_if _ _ _ _ _ _ Ho H k r Hr) as (s & F & E). eauto 6.
  - apply consumed_style. intros k r Hr. destruct (C81_all_of _ _ _ _ _ _ Ho H k r Hr) as (s & F & E & E'). eauto 6.
  - apply consumed_style. intros k r Hr. destruct (C81_any_of _ _ _ _ _ _ Ho H k r Hr) as (s & F & E & E'). eauto 6.
  - apply consumed_style. intros k r Hr. destruct (C81_none_of _ _ _ _ _ _ Ho H k r Hr) as (s & F & E & E'). eauto 6.
  - apply interrupted_style. intros k r Hr. destruct (C81_all_of _ _ _ _ _ _ Ho H k r Hr) as (s & F & E & E'). eauto 6.
  - apply interrupted_style. intros k r Hr. destruct (C81_any_of _ _ _ _ _ _ Ho H k r Hr) as (s & F & E & E'). eauto 6.
  - apply interrupted_style. intros k r Hr. destruct (C81_none_of _ _ _ _ _ _ Ho H k r Hr) as (s & F & E & E'). eauto 6.
  - apply consumed_style. intros k r Hr. destruct (C81_zip_sentinel_for _ _ _ _ _ _ Ho H k r Hr) as (s & F & E). eauto 6.
  - intros k r Hr. destruct (C81_zip_for _ _ _ _ _ _ Ho H k r Hr) as (s & F & E).
    pose proof (exhausted_balance _ _ _ _ _ _ F (E eq_refl)) as B. unfold zip_style_of in B. destruct (r_mode r); exact B.
Qed.
Print Assumptions C81_consumed.

Example C81_consumed_example :
  exists h, range_for (ideal four first_arg) backwards 5 four [] = (h, Ok tt) /\
    map (fun k => count (is_deref k) h) [0; 1; 2; 3]%nat = [2; 2; 0; 0]%nat /\
    map (fun k => count (is_inc k) h) [0; 1; 2; 3]%nat = [2; 2; 0; 0]%nat /\ count is_call h = 2%nat.
Proof. eexists. vm_compute. repeat split. Qed.

(** No iterator is dereferenced more often than the size of any of the ranges says, however the functors and the other
    ranges behave and however the call ends; if the function completes, that many calls have been made. *)
Definition within (rs : list rng) (h : history) (complete : Prop) : Prop :=
  forall k r n, nth_error rs k = Some r -> size_is h k r n ->
    Z.of_nat (count is_call h) <= n /\ (forall j, Z.of_nat (count (is_deref j) h) <= n) /\
    (complete -> Z.of_nat (count is_call h) = n).

Lemma once_map : forall env A R (f : A -> Z -> A + R), calls_once (fun a args => bindM (emit env (EFunc args)) (fun z => ret (f a z))).
Proof.
  intros env A R f a args h h' o H. unfold bindM, emit in H. exists [(EFunc args, env h (EFunc args))].
  split; [destruct (env h (EFunc args)); unfold ret in H; congruence|]. split; [reflexivity|]. intros k. reflexivity.
Qed.
Lemma once_reduce : forall env, calls_once (R := Empty_set)
  (fun acc args => bindM (emit env (EFunc args)) (fun x => bindM (emit env (EReduce acc x)) (fun z => ret (inl z)))).
Proof.
  intros env acc args h h' o H. unfold bindM at 1 in H. unfold emit at 1 in H.
  destruct (env h (EFunc args)) as [x| | | | |] eqn:X;
    try (injection H as <- <-; eexists; split; [reflexivity|]; split; [reflexivity|]; intros; reflexivity).
  unfold bindM, emit in H.
  exists [(EFunc args, Ok x); (EReduce acc x, env (h ++ [(EFunc args, Ok x)]) (EReduce acc x))].
  split; [|split; [reflexivity | intros; reflexivity]].
  rewrite <- app_assoc in H. cbn [app] in H.
  destruct (env _ (EReduce acc x)); unfold ret in H; congruence.
Qed.

Theorem C81_bounded : forall env ord fuel init rs h, evaluation_order ord -> sane env rs ->
  (forall o, range_for env ord fuel rs [] = (h, o) -> within rs h (o = Ok tt)) /\
  (forall o, range_transform_reduce env ord fuel init rs [] = (h, o) -> within rs h (exists z, o = Ok z)) /\
  (forall o, range_count_if env ord fuel rs [] = (h, o) -> within rs h (exists z, o = Ok z)) /\
  (forall o, range_all_of env ord fuel rs [] = (h, o) -> within rs h (o = Ok true)) /\
  (forall o, range_any_of env ord fuel rs [] = (h, o) -> within rs h (o = Ok false)) /\
  (forall o, range_none_of env ord fuel rs [] = (h, o) -> within rs h (o = Ok true)) /\
  (forall o, zip_sentinel_for env ord fuel rs [] = (h, o) -> within rs h (o = Ok tt)) /\
  (forall o, zip_for env ord fuel rs [] = (h, o) -> within rs h (o = Ok tt)).
Proof.
  intros env ord fuel init rs h Ho Hs.
  (* the algorithms: a body, and what becomes of its result *)
  assert (G : forall A R B (body : A -> list arg -> M (A + R)) a (g : A + R -> M B) (res : A + R -> B) o (complete : Prop),
            calls_once body -> (forall a args, honest not_size (body a args)) -> (forall x h, g x h = (h, Ok (res x))) ->
            (complete -> forall x, algorithm env ord fuel body a rs [] = (h, Ok x) -> o = Ok (res x) -> exists a', x = inl a') ->
            (complete -> exists b, o = Ok b) ->
            bindM (algorithm env ord fuel body a rs) g [] = (h, o) -> within rs h complete).
  { intros A R B body a g res o complete H1 H2 H3 H4 H5 H k r n Hr Hz. unfold bindM in H.
    destruct (algorithm env ord fuel body a rs []) as [h1 o1] eqn:X.
    assert (E : h1 = h /\ match o1 with Ok x => o = Ok (res x) | _ => forall x, o <> Ok x end).
    { destruct o1 as [x| | | | |]; [rewrite H3 in H|..]; injection H as <- <-; split; auto; discriminate. }
    destruct E as [-> E].
    destruct (algorithm_counts env ord Ho A R body rs fuel a h o1 Hs H1 H2 X k r n Hr Hz) as (C1 & C2 & C3).
    split; auto. split; auto. intros Hc. destruct (H5 Hc) as (b & E1).
    destruct o1 as [x| | | | |]; try (destruct (E _ E1)).
    destruct (H4 Hc x eq_refl E) as [a' ->]. eauto. }
  assert (S : forall (f : Z -> unit + bool) (goon d : bool) o,
            (forall z, f z = if Bool.eqb (negb (z =? 0)) goon then inl tt else inr (negb d)) ->
            bindM (algorithm env ord fuel (fun (_ : unit) args => bindM (emit env (EFunc args)) (fun z => ret (f z))) tt rs)
              (fun x => match x with inl _ => ret d | inr r => ret r end) [] = (h, o) -> within rs h (o = Ok d)).
  { intros f goon d o Hf H.
    eapply (G unit bool bool (fun _ args => bindM (emit env (EFunc args)) (fun z => ret (f z))) tt _
              (fun x => match x with inl _ => d | inr r => r end)); [| | | | |exact H].
    - apply (once_map env unit bool (fun _ => f)).
    - intros. apply honest_call.
    - intros [x|x] g; reflexivity.
    - intros -> x X E. destruct x as [u|r]; [eauto|].
      destruct (until_result env ord Ho goon f (negb d) rs fuel h _ Hf X) as [R _]. injection E as E. rewrite R in E; destruct d; discriminate.
    - eauto. }
  split; [|split; [|split; [|split; [|split; [|split; [|split]]]]]]; intros o H.
  - eapply (G unit Empty_set unit _ tt _ (fun _ => tt)); [| | | | |exact H].
    + apply (once_map env unit Empty_set (fun _ _ => inl tt)).
    + intros. apply honest_call.
    + reflexivity.
    + intros _ [x|[]]; eauto.
    + eauto.
  - eapply (G Z Empty_set Z _ init _ (fun x => match x with inl a => a | inr r => match r with end end)); [| | | | |exact H].
    + apply once_reduce.
    + intros a args. apply honest_bind; [apply honest_emit; exact I|]. intros x. apply honest_bind; [apply honest_emit; exact I | intros; apply honest_ret].
    + intros [x|[]]; reflexivity.
    + intros _ [x|[]]; eauto.
    + auto.
  - eapply (G Z Empty_set Z _ 0 _ (fun x => match x with inl a => a | inr r => match r with end end)); [| | | | |exact H].
    + apply (once_map env Z Empty_set (fun n z => inl (if truth z then n + 1 else n))).
    + intros a args. apply (honest_call env _ (fun z => inl (if truth z then a + 1 else a))).
    + intros [x|[]]; reflexivity.
    + intros _ [x|[]]; eauto.
    + auto.
  - apply (S (fun z => if negb (truth z) then inr false else inl tt) true true o); auto.
    intros z. unfold truth. destruct (z =? 0); reflexivity.
  - apply (S (fun z => if truth z then inr true else inl tt) false false o); auto.
    intros z. unfold truth. destruct (z =? 0); reflexivity.
  - apply (S (fun z => if truth z then inr false else inl tt) false true o); auto.
    intros z. unfold truth. destruct (z =? 0); reflexivity.
  - intros k r n Hr Hz. eapply zip_sentinel_counts; eauto.
  - intros k r n Hr Hz. eapply zip_counts; eauto.
Qed.
Print Assumptions C81_bounded.

Example C81_bounded_example :
  exists h, range_for (ideal four first_arg) in_order 5 four [] = (h, Ok tt) /\
    sane (ideal four first_arg) four /\ size_is h 1 (Build_rng MIter KDynamic 2) 2 /\ count is_call h = 2%nat.
Proof.
  eexists. split; [vm_compute; reflexivity|]. split; [|split; [|vm_compute; reflexivity]].
  - split.
    + intros g k n E. injection E as <-. unfold len. destruct k as [|[|[|[|k]]]]; simpl; try lia. destruct k; simpl; lia.
    + intros r Hr _. repeat (destruct Hr as [<-|Hr]; [simpl; lia|]). destruct Hr.
  - split; [discriminate|]. right. split; [reflexivity|]. simpl. auto.
Qed.

(** * Results *)

Theorem C81_results : forall env ord fuel init rs h, evaluation_order ord ->
  (forall n, range_count_if env ord fuel rs [] = (h, Ok n) -> n = Z.of_nat (length (filter (fun b => b) (answers h)))) /\
  (range_all_of env ord fuel rs [] = (h, Ok true) -> exists m, answers h = repeat true m) /\
  (range_all_of env ord fuel rs [] = (h, Ok false) -> exists m, answers h = repeat true m ++ [false]) /\
  (range_any_of env ord fuel rs [] = (h, Ok false) -> exists m, answers h = repeat false m) /\
  (range_any_of env ord fuel rs [] = (h, Ok true) -> exists m, answers h = repeat false m ++ [true]) /\
  (range_none_of env ord fuel rs [] = (h, Ok true) -> exists m, answers h = repeat false m) /\
  (range_none_of env ord fuel rs [] = (h, Ok false) -> exists m, answers h = repeat false m ++ [true]) /\
  (forall o, range_transform_reduce env ord fuel init rs [] = (h, o) ->
     exists z, reduced init h = Some z /\ forall r, o = Ok r -> r = z).
Proof.
  intros env ord fuel init rs h Ho.
  assert (S : forall (f : Z -> unit + bool) (goon d : bool) b,
            (forall z, f z = if Bool.eqb (negb (z =? 0)) goon then inl tt else inr (negb d)) ->
            bindM (algorithm env ord fuel (fun (_ : unit) args => bindM (emit env (EFunc args)) (fun z => ret (f z))) tt rs)
              (fun x => match x with inl _ => ret d | inr r => ret r end) [] = (h, Ok b) ->
            exists m, answers h = if Bool.eqb b d then repeat goon m else repeat goon m ++ [negb goon]).
  { intros f goon d b Hf H. unfold bindM at 1 in H.
    destruct (algorithm env ord fuel _ tt rs []) as [h1 o1] eqn:X.
    pose proof (until_result env ord Ho goon f (negb d) rs fuel h1 o1 Hf X) as R.
    destruct o1 as [[u|r]| | | | |]; try discriminate; unfold ret in H; injection H as <- <-.
    - rewrite Bool.eqb_reflx. exact R.
    - destruct R as [-> R]. destruct d; exact R. }
  split; [|split; [|split; [|split; [|split; [|split; [|split]]]]]].
  - intros n H. eapply count_if_result; eauto.
  - intros H. apply (S (fun z => if negb (truth z) then inr false else inl tt) true true true); auto.
    intros z. unfold truth. destruct (z =? 0); reflexivity.
  - intros H. apply (S (fun z => if negb (truth z) then inr false else inl tt) true true false); auto.
    intros z. unfold truth. destruct (z =? 0); reflexivity.
  - intros H. apply (S (fun z => if truth z then inr true else inl tt) false false false); auto.
    intros z. unfold truth. destruct (z =? 0); reflexivity.
  - intros H. apply (S (fun z => if truth z then inr true else inl tt) false false true); auto.
    intros z. unfold truth. destruct (z =? 0); reflexivity.
  - intros H. apply (S (fun z => if truth z then inr false else inl tt) false true true); auto.
    intros z. unfold truth. destruct (z =? 0); reflexivity.
  - intros H. apply (S (fun z => if truth z then inr false else inl tt) false true false); auto.
    intros z. unfold truth. destruct (z =? 0); reflexivity.
  - intros o H. eapply transform_reduce_result; eauto.
Qed.
Print Assumptions C81_results.

Example C81_results_example :
  exists h, range_all_of (ideal four first_arg) in_order 5 four [] = (h, Ok false) /\ answers h = [false].
Proof. eexists. vm_compute. repeat split. Qed.

(** * Functions on one range *)

(** Every round compares with the end first and increments last; in between, [round] in this order.  The call ends with the
    first comparison that says so, or with a failure. *)
Definition in_rounds {A : Type} (round : list event) (h : history) (o : outcome A) : Prop :=
  exists n rest, rounds round n = map (fun x => forget (fst x)) h ++ rest /\
    ((exists a, o = Ok a) -> rest = [] /\ comparisons h = repeat false n ++ [true]) /\
    ((forall a, o <> Ok a) -> Forall (eq false) (comparisons h)).

Lemma single_in_rounds : forall env round fuel h o, Forall no_cmp round -> Forall (fun e => forget e = e) round ->
  single env fuel round [] = (h, o) -> in_rounds round h o.
Proof.
  intros env round fuel h o H1 H2 H. destruct (single_trace env round fuel h o H1 H) as (n & rest & E & F & G).
  exists n, rest. split; [|split].
  - rewrite E. f_equal.
    assert (Q : Forall (fun e => forget e = e) (rounds round n)).
    { unfold rounds. apply Forall_app. split; [repeat constructor|]. apply Forall_app. split; [|repeat constructor].
      apply Forall_concat. apply Forall_forall. intros x Hx. apply repeat_spec in Hx. subst x.
      constructor; [reflexivity|]. apply Forall_app. split; [auto | repeat constructor]. }
    rewrite E in Q. apply Forall_app in Q. destruct Q as [Q _]. rewrite Forall_map in Q.
    apply map_ext_Forall. eapply Forall_impl; [|exact Q]. intros a Ha. now rewrite Ha.
  - intros [[] ->]. auto.
  - intros No. apply G. apply No.
Qed.

Theorem C81_iota_generate_fill : forall env fuel h o,
  (range_iota env fuel [] = (h, o) -> in_rounds [EGen; EDeref 0; EAssign 0] h o) /\
  (range_generate env fuel [] = (h, o) -> in_rounds [EGen; EDeref 0; EAssign 0] h o) /\
  (range_fill env fuel [] = (h, o) -> in_rounds [EDeref 0; EAssign 0] h o).
Proof.
  intros env fuel h o. split; [|split]; intros H; (eapply single_in_rounds; [| |exact H]); repeat constructor.
Qed.
Print Assumptions C81_iota_generate_fill.

(** The reducer gets the result so far and the element. *)
Theorem C81_reduce : forall env fuel init h o, range_reduce env fuel init [] = (h, o) ->
  in_rounds [EDeref 0; EReduce 0 0] h o /\ fed None h /\ exists z, reduced init h = Some z /\ forall r, o = Ok r -> r = z.
Proof.
  intros env fuel init h o H. destruct (reduce_trace env fuel init h o H) as (n & rest & z & E & F & G & R1 & R2).
  split; [|split; auto].
  - exists n, rest. split; auto. split; auto. intros [a Ha]. destruct (F a Ha) as (F1 & F2 & _). auto.
  - exists z. split; auto. intros r Hr. now destruct (F r Hr) as (_ & _ & F3).
Qed.
Print Assumptions C81_reduce.

Example C81_iota_example :
  exists h, range_iota (ideal [Build_rng MPair KUnknown 2] first_arg) 5 [] = (h, Ok tt) /\
    map fst h = [EBegin 0; EEnd 0; ECmp 0; EGen; EDeref 0; EAssign 0; EInc 0; ECmp 0; EGen; EDeref 0; EAssign 0; EInc 0; ECmp 0].
Proof. eexists. vm_compute. repeat split. Qed.
Example C81_reduce_example :
  exists h, range_reduce (ideal [Build_rng MPair KUnknown 3] first_arg) 5 10 [] = (h, Ok 13) /\ reduced 10 h = Some 13.
Proof. eexists. vm_compute. repeat split. Qed.

(** * Ranges that are sequences *)

(** On such ranges, with functors whose state can be told from their calls, the functions have the outcome that ZipModel.v
    gives them, which knows positions only; so the theorems about it (C24, C25, C58) hold here as well. *)
Theorem C81_sequences : forall env ord rs (S : Type) (alpha : history -> S), evaluation_order ord ->
  positional rs env -> functor_state alpha -> Forall proper_range rs ->
  (forall f, acts_as alpha env (fun _ => tt) f ->
     exists h o, range_for env ord (loop_fuel rs) rs [] = (h, o) /\ ZipModel.range_for f rs (alpha []) = (alpha h, o)) /\
  (forall f g init, acts_as alpha env (fun z => z) f -> reduces_as alpha env g ->
     exists h o, range_transform_reduce env ord (loop_fuel rs) init rs [] = (h, o) /\
                 ZipModel.range_transform_reduce init g f rs (alpha []) = (alpha h, o)) /\
  (forall f, acts_as alpha env truth f ->
     (exists h o, range_count_if env ord (loop_fuel rs) rs [] = (h, o) /\ ZipModel.range_count_if f rs (alpha []) = (alpha h, o)) /\
     (exists h o, range_all_of env ord (loop_fuel rs) rs [] = (h, o) /\ ZipModel.range_all_of f rs (alpha []) = (alpha h, o)) /\
     (exists h o, range_any_of env ord (loop_fuel rs) rs [] = (h, o) /\ ZipModel.range_any_of f rs (alpha []) = (alpha h, o)) /\
     (exists h o, range_none_of env ord (loop_fuel rs) rs [] = (h, o) /\ ZipModel.range_none_of f rs (alpha []) = (alpha h, o))).
Proof.
  intros env ord rs S alpha Ho Hp Ha Hr.
  assert (Srch : forall f (bk : Z -> unit + bool) (zk : bool -> outcome (option bool)) d,
            acts_as alpha env truth f ->
            (forall z, zk (truth z) = Ok (match bk z with inl _ => None | inr r => Some r end)) ->
            exists h o,
              bindM (algorithm env ord (loop_fuel rs) (fun (_ : unit) args => bindM (emit env (EFunc args)) (fun z => ret (bk z))) tt rs)
                (fun x => match x with inl _ => ret d | inr r => ret r end) [] = (h, o) /\
              (let '(s', o) := ZipModel.algorithm (fun s args => let '(s', o) := f s args in (s', do b <- o; zk b)) rs (alpha []) in
               (s', do r <- o; match r with Some b => Ok b | None => Ok d end)) = (alpha h, o)).
  { intros f bk zk d Hf Hk.
    destruct (algorithm_sim env ord rs alpha Ho Hp Ha unit bool S bool (fun s _ => s) (fun b => b)
                (fun _ args => bindM (emit env (EFunc args)) (fun z => ret (bk z)))
                (fun s args => let '(s', o) := f s args in (s', do b <- o; zk b)) Hr) with (a := tt)
      as (h & o & a' & o' & X & Y & R).
    - intros h a args. destruct (call_sim env alpha bool truth f Hf h args) as (t & M1 & M2 & M3).
      exists t. unfold bindM. rewrite M2, M3. destruct (env h (EFunc args)) as [z| | | | |]; cbn [bind];
        try (eexists; exists tt; eexists; split; [exact M1|]; split; [reflexivity|]; split; [reflexivity | cbn; auto]; fail).
      exists (Ok (bk z)), tt. eexists. split; [exact M1|]. split; [reflexivity|]. split; [reflexivity|].
      rewrite Hk. destruct (bk z) as [[]|b]; cbn; auto.
    - unfold bindM at 1. rewrite X, Y. destruct o as [[u|b]| | | | |]; cbn in R;
        try (rewrite R; do 2 eexists; split; reflexivity). destruct R as [-> _]. do 2 eexists; split; reflexivity. }
  split; [|split].
  - intros f Hf. unfold range_for, ZipModel.range_for.
    destruct (algorithm_sim env ord rs alpha Ho Hp Ha unit Empty_set S unit (fun s _ => s) (fun _ => tt)
                (fun _ args => bindM (emit env (EFunc args)) (fun _ => ret (inl tt)))
                (fun s args => let '(s', o) := f s args in (s', do _ <- o; Ok None)) Hr) with (a := tt)
      as (h & o & a' & o' & X & Y & R).
    + intros h a args. destruct (call_sim env alpha unit (fun _ => tt) f Hf h args) as (t & M1 & M2 & M3).
      exists t. unfold bindM. rewrite M2, M3. destruct (env h (EFunc args)) as [z| | | | |]; cbn [bind];
        try (eexists; exists tt; eexists; split; [exact M1|]; split; [reflexivity|]; split; [reflexivity | cbn; auto]; fail).
    + unfold bindM at 1. rewrite X, Y. destruct o as [[u|[]]| | | | |]; cbn in R; try (rewrite R; do 2 eexists; split; reflexivity).
      destruct R as [-> _]. do 2 eexists; split; reflexivity.
  - intros f g init Hf Hg. unfold range_transform_reduce, ZipModel.range_transform_reduce.
    destruct (algorithm_sim env ord rs alpha Ho Hp Ha Z Empty_set (S * Z) unit (fun s a => (s, a)) (fun _ => tt)
                (fun acc args => bindM (emit env (EFunc args)) (fun x => bindM (emit env (EReduce acc x)) (fun z => ret (inl z))))
                (fun '(s, result) args =>
                   match f s args with
                   | (s1, Ok b) =>
                       match g s1 result b with
                       | (s2, Ok a) => ((s2, a), Ok None)
                       | (s2, o) => ((s2, result), do _ <- o; Ok None)
                       end
                   | (s1, o) => ((s1, result), do _ <- o; Ok None)
                   end) Hr) with (a := init)
      as (h & o & a' & o' & X & Y & R).
    + intros h a args. destruct (call_sim env alpha Z (fun z => z) f Hf h args) as (t & M1 & M2 & M3).
      unfold bindM at 1. rewrite M2, M3. destruct (env h (EFunc args)) as [z| | | | |]; cbn [bind];
        try (exists t; do 3 eexists; split; [exact M1|]; split; [reflexivity|]; split; [reflexivity | cbn; auto]; fail).
      exists (t ++ [(EReduce a z, env (h ++ t) (EReduce a z))]). rewrite (Hg (h ++ t) a z).
      unfold bindM, emit. rewrite <- app_assoc.
      assert (M4 : moveless (t ++ [(EReduce a z, env (h ++ t) (EReduce a z))])).
      { apply Forall_app. split; [exact M1 | repeat constructor]. }
      destruct (env (h ++ t) (EReduce a z)) as [w| | | | |]; cbn [bind];
        do 3 eexists; (split; [exact M4|]; split; [reflexivity|]; split; [reflexivity | cbn; auto]).
    + unfold bindM at 1. rewrite X, Y. destruct o as [[u|[]]| | | | |]; cbn in R; try (rewrite R; do 2 eexists; split; reflexivity).
      destruct R as [-> ->]. do 2 eexists; split; reflexivity.
  - intros f Hf. split; [|split; [|split]].
    + unfold range_count_if, ZipModel.range_count_if.
      destruct (algorithm_sim env ord rs alpha Ho Hp Ha Z Empty_set (S * Z) unit (fun s a => (s, a)) (fun _ => tt)
                (fun n args => bindM (emit env (EFunc args)) (fun z => ret (inl (if truth z then n + 1 else n))))
                (fun '(s, result) args =>
                   match f s args with
                   | (s1, Ok b) => ((s1, if b then result + 1 else result), Ok None)
                   | (s1, o) => ((s1, result), do _ <- o; Ok None)
                   end) Hr) with (a := 0)
        as (h & o & a' & o' & X & Y & R).
      * intros h a args. destruct (call_sim env alpha bool truth f Hf h args) as (t & M1 & M2 & M3).
        exists t. unfold bindM. rewrite M2, M3. destruct (env h (EFunc args)) as [z| | | | |]; cbn [bind];
          do 3 eexists; (split; [exact M1|]; split; [reflexivity|]; split; [reflexivity | cbn; auto]).
      * unfold bindM at 1. rewrite X, Y. destruct o as [[u|[]]| | | | |]; cbn in R; try (rewrite R; do 2 eexists; split; reflexivity).
        destruct R as [-> ->]. do 2 eexists; split; reflexivity.
    + apply (Srch f (fun z => if negb (truth z) then inr false else inl tt)
               (fun b => if negb b then Ok (Some false) else Ok None) true Hf).
      intros z. destruct (truth z); reflexivity.
    + apply (Srch f (fun z => if truth z then inr true else inl tt)
               (fun b => if b then Ok (Some true) else Ok None) false Hf).
      intros z. destruct (truth z); reflexivity.
    + apply (Srch f (fun z => if truth z then inr false else inl tt)
               (fun b => if b then Ok (Some false) else Ok None) true Hf).
      intros z. destruct (truth z); reflexivity.
Qed.
Print Assumptions C81_sequences.

(** A functor that returns its first argument and records the calls. *)
Definition recorded (h : history) : list (list ref) :=
  flat_map (fun x => match fst x with EFunc args => [arg_refs args] | _ => [] end) h.
Example C81_sequences_example :
  evaluation_order backwards /\ positional four (ideal four first_arg) /\ functor_state recorded /\ Forall proper_range four /\
  acts_as recorded (ideal four first_arg) truth
    (fun s refs => (s ++ [refs], Ok (match refs with RElem _ x :: _ => negb (x =? 0) | _ => true end))).
Proof.
  split; [exact backwards_ok|]. split; [apply ideal_positional|]. split; [|split].
  - intros h e o. destruct e; auto; unfold recorded; rewrite flat_map_app; cbn; now rewrite app_nil_r.
  - repeat constructor; cbn; try lia; discriminate.
  - intros h args. unfold recorded. rewrite flat_map_app. cbn. f_equal. unfold first_arg, truth.
    destruct args as [|[x|k i|i] args]; reflexivity.
Qed.
