(** Proofs about ProtoModel.v: failures, numbers of operations, and runs on well-behaved ranges. *)

From Coq Require Import ZArith Arith Bool Lia List.
From Verif Require Import Base ZipModel ZipLoopProofs ProtoModel ProtoSpec ProtoProofs ProtoLoopProofs.
Import ListNotations.

Local Open Scope Z_scope.

(** * Failures *)

Section Honest.
  Variable env : history -> event -> outcome Z.
  Variable ord : history -> nat -> list nat.

  Definition benign {A : Type} (o : outcome A) : Prop := match o with Throw _ | UB => False | _ => True end.

  (** [m] performs operations satisfying [E] only, and a failing one is the last. *)
  Definition honest {A : Type} (E : event -> Prop) (m : M A) : Prop :=
    forall h h' o, m h = (h', o) ->
      exists t, h' = h ++ t /\ Forall (fun x => E (fst x)) t /\
        ((all_ok t /\ benign o) \/
         exists t' e x, t = t' ++ [(e, x)] /\ all_ok t' /\ (forall z, x <> Ok z) /\ same_failure x o).

  Lemma honest_ret : forall A E (a : A), honest E (ret a).
  Proof.
    intros A E a h h' o H. inversion H; subst. exists []. rewrite app_nil_r. split; auto. split; auto.
    left. split; [constructor | exact I].
  Qed.

  Lemma honest_lift : forall A E (x : outcome A), benign x -> honest E (lift x).
  Proof.
    intros A E a Ha h h' o H. inversion H; subst. exists []. rewrite app_nil_r. split; auto. split; auto.
    left. split; [constructor | auto].
  Qed.

  Lemma honest_emit : forall (E : event -> Prop) e, E e -> honest E (emit env e).
  Proof.
    intros E e He h h' o H. unfold emit in H. inversion H; subst. exists [(e, env h e)]. split; auto.
    split; [repeat constructor; auto|].
    destruct (env h e) as [z| |x| | |] eqn:X.
    - left. split; [|exact I]. constructor; [|constructor]. simpl. eauto.
    - right. exists [], e, Contract. split; [auto|]. split; [constructor|]. split; [discriminate | exact I].
    - right. exists [], e, (Throw x). split; [auto|]. split; [constructor|]. split; [discriminate | reflexivity].
    - right. exists [], e, UB. split; [auto|]. split; [constructor|]. split; [discriminate | exact I].
    - right. exists [], e, IllFormed. split; [auto|]. split; [constructor|]. split; [discriminate | exact I].
    - right. exists [], e, OutOfFuel. split; [auto|]. split; [constructor|]. split; [discriminate | exact I].
  Qed.

  Lemma all_ok_app : forall a b, all_ok a -> all_ok b -> all_ok (a ++ b).
  Proof. intros. apply Forall_app. auto. Qed.

  Lemma honest_bind : forall A B (E : event -> Prop) (m : M A) (f : A -> M B),
    honest E m -> (forall a, honest E (f a)) -> honest E (bindM m f).
  Proof.
    intros A B E m f Hm Hf h h' o H. unfold bindM in H. destruct (m h) as [h1 o1] eqn:X.
    destruct (Hm h h1 o1 X) as (t & -> & Ht & Hc).
    assert (G : forall (o2 : outcome B), benign o1 = benign o2 -> (forall x, same_failure x o1 -> same_failure x o2) ->
              (h', o) = (h ++ t, o2) ->
              exists t0, h' = h ++ t0 /\ Forall (fun x => E (fst x)) t0 /\
                ((all_ok t0 /\ benign o) \/
                 exists t' e x, t0 = t' ++ [(e, x)] /\ all_ok t' /\ (forall z, x <> Ok z) /\ same_failure x o)).
    { intros o2 Hb Hs Y. inversion Y; subst. exists t. split; auto. split; auto.
      destruct Hc as [[Ha Hbn]|(t' & e & x & T & Hok & Hx & Hsf)].
      - left. split; auto. now rewrite <- Hb.
      - right. exists t', e, x. split; [auto|]. split; [auto|]. split; auto. }
    destruct o1 as [a| |x| | |].
    - assert (Ha : all_ok t).
      { destruct Hc as [[Ha _]|(t' & e & x & -> & Hok & Hx & Hsf)]; auto.
        destruct x; simpl in Hsf; contradiction. }
      destruct (Hf a (h ++ t) h' o H) as (t2 & -> & Ht2 & Hc2). exists (t ++ t2).
      split; [now rewrite app_assoc|]. split; [apply Forall_app; auto|].
      destruct Hc2 as [[Ha2 Hb]|(t' & e & x & -> & Hok & Hx & Hsf)].
      + left. split; auto. now apply all_ok_app.
      + right. exists (t ++ t'), e, x. split; [now rewrite app_assoc|]. split; [now apply all_ok_app | auto].
    - apply (G Contract); auto.
    - apply (G (Throw x)); auto.
    - apply (G UB); auto.
    - apply (G IllFormed); auto.
    - apply (G OutOfFuel); auto.
  Qed.

  Lemma honest_weaken : forall A (E E' : event -> Prop) (m : M A), (forall e, E e -> E' e) -> honest E m -> honest E' m.
  Proof.
    intros A E E' m HE Hm h h' o H. destruct (Hm h h' o H) as (t & -> & Ht & Hc). exists t.
    split; auto. split; auto. eapply Forall_impl; [|exact Ht]. simpl. auto.
  Qed.

  Lemma honest_emit_all : forall (E : event -> Prop) l, Forall E l -> honest E (emit_all env l).
  Proof.
    intros E. induction l as [|e r IH]; intros Hl; simpl.
    - apply honest_ret.
    - inversion Hl; subst. apply honest_bind; auto using honest_emit.
  Qed.

  Lemma honest_perform : forall A (E : event -> Prop) (a : act A),
    match a with APure _ => True | AEmit e _ => E e end -> honest E (perform env a).
  Proof.
    intros A E [x|e f] H; simpl.
    - apply honest_ret.
    - apply honest_bind; auto using honest_emit, honest_ret.
  Qed.

  Lemma honest_perform_in : forall A (E : event -> Prop) (l : list (act A)),
    (forall a, In a l -> match a with APure _ => True | AEmit e _ => E e end) ->
    forall p acc, honest E (perform_in env p l acc).
  Proof.
    intros A E l Hl. induction p as [|j p IH]; intros acc; simpl.
    - apply honest_ret.
    - destruct (nth_error l j) as [a|] eqn:X.
      + apply honest_bind; auto. apply honest_perform. apply Hl. eapply nth_error_In; eauto.
      + apply honest_lift. exact I.
  Qed.

  Lemma collect_benign : forall A n (acc : list (nat * A)), benign (collect n acc).
  Proof.
    intros A n acc. unfold collect. generalize (seq 0 n). induction l as [|j l IH]; simpl; auto.
    destruct (find _ acc); simpl; auto. destruct (mapM _ l); simpl in *; auto.
  Qed.

  Lemma honest_in_order : forall A (E : event -> Prop) (l : list (act A)) p,
    (forall a, In a l -> match a with APure _ => True | AEmit e _ => E e end) ->
    honest E (bindM (perform_in env p l []) (fun acc => lift (collect (length l) acc))).
  Proof.
    intros A E l p Hl. apply honest_bind; [now apply honest_perform_in|].
    intros acc. apply honest_lift, collect_benign.
  Qed.

  Lemma honest_unordered : forall A (E : event -> Prop) (l : list (act A)),
    (forall a, In a l -> match a with APure _ => True | AEmit e _ => E e end) -> honest E (unordered env ord l).
  Proof.
    intros A E l Hl h h' o H. unfold unordered in H. eapply honest_in_order; eauto.
  Qed.
  Lemma honest_ordered : forall A (E : event -> Prop) (l : list (act A)),
    (forall a, In a l -> match a with APure _ => True | AEmit e _ => E e end) -> honest E (ordered env l).
  Proof. intros A E l Hl. unfold ordered. now apply honest_in_order. Qed.

  Lemma in_mapi : forall A B (f : nat -> A -> B) l k b, In b (mapi f k l) -> exists j a, b = f j a /\ In a l.
  Proof.
    induction l as [|a l IH]; intros k b H; simpl in *; [contradiction|].
    destruct H as [<-|H]; [exists k, a; auto|]. destruct (IH _ _ H) as (j & x & -> & Hx). exists j, x. auto.
  Qed.

  Definition not_size (e : event) : Prop := match e with ESize _ => False | _ => True end.
  (** Operations on ranges, other than size() and dereferencing. *)
  Definition plain (e : event) : Prop :=
    match e with EBegin _ | EEnd _ | EData _ | ECmp _ | EInc _ => True | _ => False end.
  Definition fetches (e : event) : Prop := match e with EDeref _ => True | _ => False end.
  Lemma fetches_not_size : forall e, fetches e -> not_size e.
  Proof. intros e H. destruct e; simpl in *; auto. Qed.
  Lemma plain_not_size : forall e, plain e -> not_size e.
  Proof. intros e H. destruct e; simpl in *; auto. Qed.
  Lemma honest_plain : forall A (m : M A), honest plain m -> honest not_size m.
  Proof. intros A m. apply honest_weaken. apply plain_not_size. Qed.

  Lemma plain_mapi : forall (f : nat -> rng -> list event) rs k,
    (forall j r, Forall plain (f j r)) -> Forall plain (concat (mapi f k rs)).
  Proof.
    intros f. induction rs as [|r rs IH]; intros k H; simpl; [constructor|]. apply Forall_app. auto.
  Qed.

  Lemma honest_check_end : forall b rs k, honest plain (check_end_from env b k rs).
  Proof.
    intros b. induction rs as [|r rs IH]; intros k; simpl.
    - apply honest_ret.
    - apply honest_bind; auto. destruct (r_mode r); try apply honest_ret.
      apply honest_bind; [apply honest_emit; exact I|]. intros z. apply honest_lift.
      unfold expects. destruct (Bool.eqb _ _); exact I.
  Qed.

  Lemma benign_bind : forall A B (m : outcome A) (f : A -> outcome B),
    benign m -> (forall a, benign (f a)) -> benign (bind m f).
  Proof. intros A B [a| | | | |] f H1 H2; simpl in *; auto. Qed.

  Lemma is_end_benign : forall n l, (length l < n)%nat -> benign (is_end l).
  Proof.
    assert (B2 : forall a b, benign (is_end2 a b)).
    { intros [x|] [y|]; simpl; auto. unfold expects. destruct (Bool.eqb x y); simpl; auto. }
    induction n as [|n IH]; intros l Hl; [lia|].
    destruct l as [|a [|b [|c l]]]; [exact I | exact I | apply B2 |].
    change (benign (do x <- is_end2 a b; do y <- is_end (c :: l); do z <- is_end2 x y;
                    match z with Some e => Ok (Some e) | None => IllFormed end)).
    apply benign_bind; [apply B2|]. intros x.
    apply benign_bind; [apply IH; simpl in *; lia|]. intros y.
    apply benign_bind; [apply B2|]. intros [z|]; exact I.
  Qed.

  Lemma honest_sentinel : forall N rs i, honest plain (at_sentinel env ord N rs i).
  Proof.
    intros N rs i.
    assert (K : forall n, honest plain (bindM (check_end_from env (i =? n) 0 rs) (fun _ => ret (i =? n)))).
    { intros n. apply honest_bind; [apply honest_check_end | intros u; apply honest_ret]. }
    unfold at_sentinel. destruct N as [n|n]; [|apply K]. destruct (n =? unknown_size); [|apply K].
    apply honest_bind.
    - apply honest_unordered. intros a Ha. apply in_mapi in Ha. destruct Ha as (j & r & -> & _).
      unfold is_end_act. destruct (r_mode r); exact I.
    - intros os. apply honest_bind.
      + apply honest_lift. eapply is_end_benign. apply Nat.lt_succ_diag_r.
      + intros [e|]; [apply honest_ret | apply honest_lift; exact I].
  Qed.

  Lemma honest_deref : forall i rs a, In a (mapi (deref_act i) 0 rs) ->
    match a with APure _ => True | AEmit e _ => fetches e end.
  Proof.
    intros i rs a Ha. apply in_mapi in Ha. destruct Ha as (j & r & -> & _).
    unfold deref_act. destruct (r_mode r); exact I.
  Qed.

  Lemma honest_incs : forall rs, honest plain (emit_all env (concat (mapi inc_events 0 rs))).
  Proof.
    intros rs. apply honest_emit_all, plain_mapi. intros j r. unfold inc_events. destruct (r_mode r); repeat constructor.
  Qed.

  Lemma honest_loop : forall A R rs stop get (body : A -> list arg -> M (A + R)),
    (forall i, honest not_size (stop i)) -> (forall i, honest not_size (get i)) ->
    (forall a args, honest not_size (body a args)) ->
    forall fuel i a, honest not_size (loop env rs stop get body fuel i a).
  Proof.
    intros A R rs stop get body H1 H2 H3. induction fuel as [|fuel IH]; intros i a; simpl.
    - apply honest_lift. exact I.
    - apply honest_bind; auto. intros [|]; [apply honest_ret|].
      apply honest_bind; auto. intros args. apply honest_bind; auto. intros [a'|x]; [|apply honest_ret].
      apply honest_bind; auto. apply honest_plain. apply honest_incs.
  Qed.

  Lemma honest_begin : forall rs, honest plain (make_begin env rs).
  Proof.
    intros rs. apply honest_emit_all. apply plain_mapi. intros j r. unfold begin_events.
    destruct (r_mode r); repeat constructor.
  Qed.
  Lemma honest_end : forall rs, honest plain (make_end env rs).
  Proof.
    intros rs. apply honest_emit_all. apply plain_mapi. intros j r. unfold end_events.
    destruct (r_mode r); repeat constructor.
  Qed.

  (** The whole call: [m] behind the computation of the size. *)
  Definition faithful {A : Type} (m : M A) : Prop :=
    forall h h' o, m h = (h', o) ->
      exists t, h' = h ++ t /\
        ((all_ok t /\ benign o) \/
         exists t' e x, t = t' ++ [(e, x)] /\ all_ok t' /\ (forall z, x <> Ok z) /\ failure_of e x o).

  Lemma faithful_honest : forall A (m : M A), honest not_size m -> faithful m.
  Proof.
    intros A m Hm h h' o H. destruct (Hm h h' o H) as (t & -> & Ht & Hc). exists t. split; auto.
    destruct Hc as [Hc|(t' & e & x & -> & Hok & Hx & Hs)]; [auto|]. right. exists t', e, x.
    split; auto. split; auto. split; auto. apply Forall_app in Ht. destruct Ht as [_ Ht]. inversion Ht; subst.
    destruct e; simpl in *; auto; contradiction.
  Qed.

  Lemma faithful_bind : forall A B (m : M A) (f : A -> M B),
    faithful m -> (forall a, faithful (f a)) -> faithful (bindM m f).
  Proof.
    intros A B m f Hm Hf h h' o H. unfold bindM in H. destruct (m h) as [h1 o1] eqn:X.
    destruct (Hm h h1 o1 X) as (t & -> & Hc).
    assert (G : forall (o2 : outcome B), benign o1 = benign o2 -> (forall e x, failure_of e x o1 -> failure_of e x o2) ->
              (h', o) = (h ++ t, o2) ->
              exists t0, h' = h ++ t0 /\
                ((all_ok t0 /\ benign o) \/
                 exists t' e x, t0 = t' ++ [(e, x)] /\ all_ok t' /\ (forall z, x <> Ok z) /\ failure_of e x o)).
    { intros o2 Hb Hs Y. inversion Y; subst. exists t. split; auto.
      destruct Hc as [[Ha Hbn]|(t' & e & x & T & Hok & Hx & Hsf)].
      - left. split; auto. now rewrite <- Hb.
      - right. exists t', e, x. split; [auto|]. split; [auto|]. split; auto. }
    assert (F : forall (o2 : outcome B), (forall x, same_failure x o1 -> same_failure x o2) -> (o1 = Contract -> o2 = Contract) ->
              forall e x, failure_of e x o1 -> failure_of e x o2).
    { intros o2 F1 F2 e x. unfold failure_of. destruct e, x; auto. }
    destruct o1 as [a| |x| | |].
    - assert (Ha : all_ok t).
      { destruct Hc as [[Ha _]|(t' & e & x & -> & Hok & Hx & Hsf)]; auto.
        destruct x as [z| | | | |]; [now destruct (Hx z) | destruct e; simpl in Hsf; contradiction || discriminate ..]. }
      destruct (Hf a (h ++ t) h' o H) as (t2 & -> & Hc2). exists (t ++ t2).
      split; [now rewrite app_assoc|].
      destruct Hc2 as [[Ha2 Hb]|(t' & e & x & -> & Hok & Hx & Hsf)].
      + left. split; auto. now apply all_ok_app.
      + right. exists (t ++ t'), e, x. split; [now rewrite app_assoc|]. split; [now apply all_ok_app | auto].
    - apply (G Contract); auto.
    - apply (G (Throw x)); auto. apply F; auto. discriminate.
    - apply (G UB); auto. apply F; auto. discriminate.
    - apply (G IllFormed); auto. apply F; auto. discriminate.
    - apply (G OutOfFuel); auto. apply F; auto. discriminate.
  Qed.

  Lemma merge_sizes_0_benign : forall b x y, benign (merge_sizes_0 b x y).
  Proof.
    intros b [n|n] [m|m]; simpl; unfold expects;
      repeat match goal with |- context [if ?c then _ else _] => destruct c; simpl end; exact I.
  Qed.
  Lemma convert_dim_benign : forall t d, benign (convert_dim t d).
  Proof. intros [n|] [m|m]; simpl; auto. destruct (n =? m); exact I. Qed.

  Lemma merge_sizes_n_benign : forall fuel b ds, benign (merge_sizes_n fuel b ds).
  Proof.
    induction fuel as [|fuel IH]; intros b ds; [exact I|].
    destruct ds as [|x [|y r]]; [exact I | |].
    - destruct x; exact I.
    - destruct x as [n|n], y as [m|m]; cbn [merge_sizes_n];
        repeat (apply benign_bind; [apply IH || apply merge_sizes_0_benign | intros ?]); apply convert_dim_benign.
  Qed.

  Lemma merge_sizes_benign : forall ds, benign (merge_sizes ds).
  Proof. intros ds. unfold merge_sizes. apply benign_bind; intros; apply merge_sizes_n_benign. Qed.

  Lemma faithful_size : forall rs, faithful (merged_size env ord rs).
  Proof.
    intros rs. unfold merged_size. apply faithful_bind.
    - assert (Hh : honest (fun e => exists k, e = ESize k) (unordered env ord (mapi size_act 0 rs))).
      { apply honest_unordered. intros a Ha. apply in_mapi in Ha. destruct Ha as (j & r & -> & _).
        unfold size_act. destruct (r_mode r), (r_known r); eauto; exact I. }
      intros h h' o H. unfold noexcept in H.
      destruct (unordered env ord (mapi size_act 0 rs) h) as [h1 o1] eqn:X.
      destruct (Hh h h1 o1 X) as (t & -> & Ht & Hc).
      assert (T : h' = h ++ t /\ o = match o1 with Throw _ => Contract | _ => o1 end)
        by (destruct o1; inversion H; auto).
      destruct T as [-> ->]. exists t. split; auto.
      destruct Hc as [[Ha Hb]|(t' & e & x & -> & Hok & Hx & Hs)].
      + left. split; auto. destruct o1; simpl in *; auto.
      + right. exists t', e, x. split; auto. split; auto. split; auto.
        apply Forall_app in Ht. destruct Ht as [_ Ht]. inversion Ht as [|? ? [j Hj] ?]; subst. simpl in Hj. subst e.
        destruct x, o1; simpl in *; auto; try contradiction.
    - intros ds. apply faithful_honest, honest_lift, merge_sizes_benign.
  Qed.

  Lemma accepted_benign : forall rs, benign (accepted rs).
  Proof.
    intros rs. unfold accepted. destruct (forallb is_range_index rs); [exact I|].
    apply benign_bind; [apply merge_sizes_n_benign|]. intros [n|n]; [|exact I].
    destruct (n =? unknown_size); [|exact I].
    apply benign_bind; [eapply is_end_benign; apply Nat.lt_succ_diag_r|]. intros [b|]; exact I.
  Qed.
  Lemma zip_accepted_benign : forall rs, benign (zip_accepted rs).
  Proof.
    intros rs. unfold zip_accepted. apply benign_bind; [apply merge_sizes_n_benign|].
    intros [n|n]; [|exact I]. destruct (n =? unknown_size); exact I.
  Qed.

  Lemma faithful_algorithm : forall A R fuel (body : A -> list arg -> M (A + R)) a rs,
    (forall a args, honest not_size (body a args)) -> faithful (algorithm env ord fuel body a rs).
  Proof.
    intros A R fuel body a rs Hb. unfold algorithm.
    apply faithful_bind; [apply faithful_honest, honest_lift, accepted_benign|]. intros _.
    apply faithful_bind; [apply faithful_size|]. intros N. apply faithful_honest.
    apply honest_bind; [apply honest_plain, honest_begin|]. intros _. apply honest_loop; auto.
    - intros i. apply honest_plain, honest_sentinel.
    - intros i. apply honest_weaken with (E := fetches); auto using fetches_not_size. apply honest_unordered, honest_deref.
  Qed.

  Lemma honest_call : forall A (f : Z -> A) args, honest not_size (bindM (emit env (EFunc args)) (fun z => ret (f z))).
  Proof.
    intros A f args. apply honest_bind; [apply honest_emit; exact I | intros z; apply honest_ret].
  Qed.

  Lemma faithful_zip_sentinel : forall fuel rs, faithful (zip_sentinel_for env ord fuel rs).
  Proof.
    intros fuel rs. unfold zip_sentinel_for.
    apply faithful_bind; [apply faithful_honest, honest_lift, zip_accepted_benign|]. intros _.
    apply faithful_bind; [apply faithful_size|]. intros N. apply faithful_honest.
    apply honest_bind; [apply honest_plain, honest_begin|]. intros _. apply honest_bind; [|intros; apply honest_ret].
    apply honest_loop.
    - intros i. apply honest_plain, honest_sentinel.
    - intros i. apply honest_weaken with (E := fetches); auto using fetches_not_size. apply honest_ordered, honest_deref.
    - intros a args. apply honest_call.
  Qed.

  Lemma faithful_zip : forall fuel rs, faithful (zip_for env ord fuel rs).
  Proof.
    intros fuel rs. unfold zip_for.
    apply faithful_bind; [apply faithful_honest, honest_lift, zip_accepted_benign|]. intros _.
    apply faithful_bind; [apply faithful_size|]. intros N. apply faithful_honest.
    apply honest_bind; [apply honest_plain, honest_begin|]. intros _. apply honest_bind; [apply honest_plain, honest_end|]. intros _.
    apply honest_bind; [|intros; apply honest_ret].
    apply honest_loop.
    - intros i. apply honest_ret.
    - intros i. apply honest_weaken with (E := fetches); auto using fetches_not_size. apply honest_ordered, honest_deref.
    - intros a args. apply honest_call.
  Qed.
End Honest.
