(** Theorems about the template of result tuples: C112. *)

From Coq Require Import Arith Bool Lia List.
From Verif Require Import Base RTupModel RTupSpec.
Import ListNotations.

Lemma make_tuple_ok : forall rt l, (exists r, make_tuple rt l = Ok r) <-> (forall p, In p l -> exists ops, make_element rt (fst p) (snd p) = Ok ops).
Proof.
  intros rt l. unfold make_tuple. induction l as [|p l IH]; cbn [mapM]; [split; [intros _ p []|intros _; eexists; reflexivity]|].
  split.
  - intros [r H] q Hq. destruct (make_element rt (fst p) (snd p)) as [ops| | | | |] eqn:E; cbn [bind] in H; try discriminate.
    destruct (mapM _ l) as [r'| | | | |]; cbn [bind] in H; try discriminate.
    destruct Hq as [<-|Hq]; [exists ops; exact E|]. apply (proj1 IH); [eexists; reflexivity|exact Hq].
  - intro H. destruct (H p (or_introl eq_refl)) as [ops E]. rewrite E. cbn [bind].
    destruct (proj2 IH) as [r Er]; [intros q Hq; apply H; right; exact Hq|]. rewrite Er. eexists; reflexivity.
Qed.
Lemma make_tuple_all : forall rt l r, make_tuple rt l = Ok r -> Forall2 (fun p q => fst q = fst p /\ make_element rt (fst p) (snd p) = Ok (snd q)) l r.
Proof.
  intros rt l. unfold make_tuple. induction l as [|p l IH]; intros r H; cbn [mapM] in H; [injection H as <-; constructor|].
  destruct (make_element rt (fst p) (snd p)) as [ops| | | | |] eqn:E; cbn [bind] in H; try discriminate.
  destruct (mapM _ l) as [r'| | | | |]; cbn [bind] in H; try discriminate. injection H as <-. constructor; [split; [reflexivity|exact E]|apply IH; reflexivity].
Qed.
Lemma Forall2_map_left : forall (A B C : Type) (f : A -> B) (R : B -> C -> Prop) l r, Forall2 R (map f l) r -> Forall2 (fun a c => R (f a) c) l r.
Proof. intros A B C f R l. induction l as [|a l IH]; intros r H; inversion H; subst; constructor; auto. Qed.

Lemma keep_spec : forall e, (exists ops, init (forwarded e) = Ok ops) <-> can_keep e.
Proof.
  intros [k b [y m]]. unfold init, forwarded, can_keep; cbn. destruct k, b, y, m; cbn; split; intro H; try (left; reflexivity); try (eexists; reflexivity);
    try (right; repeat split; congruence); try (destruct H as [ops H]; discriminate); destruct H as [H|[H1 [H2 H3]]]; congruence.
Qed.

(** tuple_transform<std::tuple>() accepts all results that can be kept; what need not be copied is not. *)
Theorem C112_transform_std : forall results,
  ((exists r, transform StdTuple results = Ok r) <-> (forall e, In e results -> can_keep e)) /\
  (forall r, transform StdTuple results = Ok r ->
     Forall2 (fun e q => fst q = EObj (x_class e) false /\ length (snd q) = 1 /\ (must_copy e -> copies (snd q) = 1) /\ (~ must_copy e -> copies (snd q) = 0)) results r).
Proof.
  intro results. unfold transform. split.
  - rewrite make_tuple_ok. split.
    + intros H e He. apply keep_spec. exact (H _ (in_map (fun e => (EObj (x_class e) false, e)) results e He)).
    + intros H p Hp. apply in_map_iff in Hp. destruct Hp as [e [<- He]]. cbn [fst snd make_element]. apply keep_spec. exact (H e He).
  - intros r H. apply make_tuple_all, Forall2_map_left in H. cbn [fst snd make_element] in H.
    clear - H. induction H as [|e q l r [Ht Ho] F IH]; constructor; [|exact IH]. split; [exact Ht|]. clear - Ho. destruct q as [t ops]. cbn [snd] in *.
    destruct e as [k b [y m]]. unfold must_copy, init, forwarded in *; cbn in *.
    destruct k, b, y, m; cbn in Ho; try discriminate; injection Ho as <-; cbn; (split; [reflexivity|]); split; intro A; try reflexivity; exfalso;
      try (apply A; auto; fail); destruct A as [A|[A|A]]; discriminate.
Qed.
Print Assumptions C112_transform_std.

(** tuple_transform<value_tuple>() accepts all results that can be copied, and nothing else; the element types are the same. *)
Theorem C112_transform_value_partial : forall results,
  ((exists r, transform ValueTuple results = Ok r) <-> (forall e, In e results -> copyable (x_class e) = true)) /\
  (forall r r', transform StdTuple results = Ok r -> transform ValueTuple results = Ok r' -> map fst r' = map fst r).
Proof.
  intro results. unfold transform. split.
  - rewrite make_tuple_ok. split.
    + intros H e He. destruct (H _ (in_map (fun e => (EObj (x_class e) false, e)) results e He)) as [ops E]. cbn [fst snd make_element] in E.
      destruct (init e); cbn [bind] in E; try discriminate. unfold init in E; cbn in E. destruct (copyable (x_class e)); [reflexivity|discriminate].
    + intros H p Hp. apply in_map_iff in Hp. destruct Hp as [e [<- He]]. cbn [fst snd make_element]. specialize (H e He).
      destruct e as [k b [y m]]. cbn in H. subst y. unfold init; cbn. destruct k, b, m; cbn; eexists; reflexivity.
  - intros r r' H H'. apply make_tuple_all in H, H'. revert r' H'. induction H as [|p q l r [Ht _] F IH]; intros r' H'; inversion H' as [|? q' ? r'' [Ht' _] F']; subst; [reflexivity|].
    cbn [map]. rewrite Ht, Ht'. f_equal. apply IH. exact F'.
Qed.
Print Assumptions C112_transform_value_partial.

(** What is done to each result with std::tuple<> is followed by one more copy, except that a prvalue is not moved before. *)
Theorem C112_copies : forall results r r', transform StdTuple results = Ok r -> transform ValueTuple results = Ok r' ->
  Forall2 (fun e p => snd (snd p) = match x_cat e with Prvalue => [Copy] | _ => snd (fst p) ++ [Copy] end) results (combine r r').
Proof.
  intros results r r' H H'. unfold transform in *. apply make_tuple_all, Forall2_map_left in H, H'. cbn [fst snd] in *. revert r' H'.
  induction H as [|e q l r [_ Ho] F IH]; intros r' H'; inversion H' as [|? q' ? r'' [_ Ho'] F']; subst; cbn [combine]; constructor; [|apply IH; exact F'].
  clear - Ho Ho'. destruct q as [t ops], q' as [t' ops']. cbn [fst snd make_element] in *. destruct e as [k b [y m]]. unfold init, forwarded in *; cbn in *.
  destruct k, b, y, m; cbn in *; try discriminate; injection Ho as <-; injection Ho' as <-; reflexivity.
Qed.
Print Assumptions C112_copies.

(** Results that can only be moved, such as std::unique_ptr<>, are rejected. *)
Theorem C112_move_only_refuted : exists results, (forall e, In e results -> can_keep e) /\ (exists r, transform StdTuple results = Ok r) /\
  transform ValueTuple results = IllFormed.
Proof.
  exists [mk_expr Prvalue false (mk_class false true)]. split; [|split; [eexists; reflexivity|reflexivity]].
  intros e [<-|[]]. right. repeat split; discriminate.
Qed.
Print Assumptions C112_move_only_refuted.

(** tie_members() copies nothing, with either template. *)
Theorem C112_tie : forall rt members, tie rt members = Ok (map (fun c => (ELRef c, [])) members).
Proof.
  intros rt members. unfold tie, make_tuple. induction members as [|c l IH]; [reflexivity|]. cbn [map mapM fst snd].
  rewrite IH. destruct rt; reflexivity.
Qed.
Print Assumptions C112_tie.

Lemma cat_elements : forall args, flat_map (fun s => map (fun t => (t, get s t)) (s_types s)) args = map (fun p => (snd p, get (fst p) (snd p))) (elements args).
Proof.
  intro args. unfold elements. induction args as [|s l IH]; [reflexivity|]. cbn [flat_map]. rewrite map_app, map_map, IH. reflexivity.
Qed.
Lemma cat_ok : forall rt args, (exists r, cat rt args = Ok r) <-> (forall s t, In (s, t) (elements args) -> exists ops, make_element rt t (get s t) = Ok ops).
Proof.
  intros rt args. unfold cat. rewrite cat_elements, make_tuple_ok. split.
  - intros H s t Hi. exact (H _ (in_map (fun p => (snd p, get (fst p) (snd p))) _ _ Hi)).
  - intros H p Hp. apply in_map_iff in Hp. destruct Hp as [[s t] [<- Hi]]. exact (H s t Hi).
Qed.

(** tuple_cat() of objects that can be copied works with either template, from either template; the element types are those of the arguments. *)
Theorem C112_cat_partial : forall rt args,
  (forall s t, In (s, t) (elements args) -> copyable_object t \/ exists c, t = ELRef c /\ (s_template s = StdTuple \/ plain_lvalue s)) ->
  exists r, cat rt args = Ok r /\ map fst r = map snd (elements args).
Proof.
  intros rt args H. destruct (proj2 (cat_ok rt args)) as [r E].
  { intros s t Hi. destruct (H s t Hi) as [[c [const [-> Hc]]]|[c [-> Hs]]]; destruct s as [st lv cs ts]; cbn in *.
    - destruct c as [y m]. cbn in Hc. subst y. destruct rt, st, lv, cs, const, m; cbn; eexists; reflexivity.
    - destruct Hs as [-> |[A B]]; [destruct rt; eexists; reflexivity|]. cbn in A, B. subst. destruct rt, st; eexists; reflexivity. }
  exists r. split; [exact E|]. unfold cat in E. rewrite cat_elements in E. apply make_tuple_all, Forall2_map_left in E. clear - E.
  induction E as [|p q l r [Ht _] F IH]; [reflexivity|]. cbn [map]. rewrite Ht. cbn [fst]. f_equal. exact IH.
Qed.
Print Assumptions C112_cat_partial.

(** Into a value_tuple<>, nothing else can be put: no objects that can only be moved, and no rvalue references. *)
Theorem C112_cat_value_only : forall args r s t, cat ValueTuple args = Ok r -> In (s, t) (elements args) -> copyable_object t \/ exists c, t = ELRef c.
Proof.
  intros args r s t H Hi. destruct (proj1 (cat_ok ValueTuple args) (ex_intro _ r H) s t Hi) as [ops E].
  destruct t as [c const|c|c]; cbn [make_element] in E.
  - left. exists c, const. split; [reflexivity|]. destruct (init (get s _)); cbn [bind] in E; try discriminate. unfold init in E; cbn in E.
    destruct (copyable c); [reflexivity|discriminate].
  - right. exists c. reflexivity.
  - destruct (bind_rref (get s (ERRef c))); cbn [bind] in E; discriminate.
Qed.
Print Assumptions C112_cat_value_only.

(** References cannot be taken from a value_tuple<> that is const or an rvalue, nor rvalue references from an lvalue. *)
Theorem C112_references_rejected : forall rt args r s c, cat rt args = Ok r ->
  (In (s, ELRef c) (elements args) -> s_template s = ValueTuple -> plain_lvalue s) /\
  (In (s, ERRef c) (elements args) -> s_template s = StdTuple /\ s_lvalue s = false).
Proof.
  intros rt args r s c H. split; intro Hi; destruct (proj1 (cat_ok rt args) (ex_intro _ r H) s _ Hi) as [ops E]; clear Hi H; destruct s as [st lv cs ts]; cbn in *.
  - intros ->. destruct rt, lv, cs; cbn in E; try discriminate; split; reflexivity.
  - destruct rt, st, lv; cbn in E; try discriminate; split; reflexivity.
Qed.
Print Assumptions C112_references_rejected.

(** Elements of value_tuples are never moved, and all elements put into a value_tuple<> are copied. *)
Theorem C112_cat_copies : forall args r, cat ValueTuple args = Ok r ->
  Forall2 (fun p q => forall c const, snd p = EObj c const -> 1 <= copies (snd q) /\ (s_template (fst p) = ValueTuple -> copies (snd q) = 2)) (elements args) r.
Proof.
  intros args r H. unfold cat in H. rewrite cat_elements in H. apply make_tuple_all, Forall2_map_left in H. cbn [fst snd] in H. clear - H.
  induction H as [|[s t] q l r [_ Ho] F IH]; constructor; [|exact IH]. intros c const E. cbn [fst snd] in *. subst t. destruct q as [t' ops]. cbn [snd] in *.
  destruct s as [st lv cs ts], c as [y m]. cbn in *. destruct st, lv, cs, const, y, m; cbn in Ho; try discriminate; injection Ho as <-; cbn; split; try lia; intro A; try discriminate; reflexivity.
Qed.
Print Assumptions C112_cat_copies.

(** What std::tuple<> does: rvalue std::tuples are moved from. *)
Theorem C112_cat_std : forall args r, cat StdTuple args = Ok r ->
  Forall2 (fun p q => fst q = snd p /\ forall c const, snd p = EObj c const -> movable c = true ->
    (s_template (fst p) = StdTuple /\ s_lvalue (fst p) = false /\ s_const (fst p) = false /\ const = false -> copies (snd q) = 0) /\
    (s_template (fst p) = ValueTuple \/ s_lvalue (fst p) = true \/ s_const (fst p) = true \/ const = true -> copies (snd q) = 1)) (elements args) r.
Proof.
  intros args r H. unfold cat in H. rewrite cat_elements in H. apply make_tuple_all, Forall2_map_left in H. cbn [fst snd] in H. clear - H.
  induction H as [|[s t] q l r [Ht Ho] F IH]; constructor; [|exact IH]. split; [exact Ht|]. intros c const E Hm. cbn [fst snd] in *. clear Ht. subst t. destruct q as [t' ops]. cbn [snd] in *.
  destruct s as [st lv cs ts], c as [y m]. cbn in *. subst m.
  destruct st, lv, cs, const, y; unfold init, forwarded, get in Ho; cbn in Ho; try discriminate; injection Ho as Ho; subst ops; cbn;
    (split; intro A; [destruct A as [A1 [A2 [A3 A4]]]; try discriminate; reflexivity|destruct A as [A|[A|[A|A]]]; try discriminate; reflexivity]).
Qed.
Print Assumptions C112_cat_std.

(** So an rvalue tuple of objects that can only be moved, and a tuple from std::forward_as_tuple(), cannot become part of a value_tuple<>; nor can a
    const or rvalue value_tuple<> of references be concatenated at all. *)
Theorem C112_cat_refuted :
  (exists args r, cat StdTuple args = Ok r /\ cat ValueTuple args = IllFormed /\ forall s, In s args -> s_template s = StdTuple) /\
  (exists c r, cat StdTuple [mk_source StdTuple false false [ERRef c]] = Ok r /\ cat ValueTuple [mk_source StdTuple false false [ERRef c]] = IllFormed) /\
  (exists c, forall rt, cat rt [mk_source ValueTuple false false [ELRef c]] = IllFormed).
Proof.
  split; [|split].
  - exists [mk_source StdTuple false false [EObj (mk_class false true) false]]. eexists. split; [reflexivity|]. split; [reflexivity|]. intros s [<-|[]]. reflexivity.
  - exists (mk_class true true). eexists. split; reflexivity.
  - exists (mk_class true true). intros []; reflexivity.
Qed.
Print Assumptions C112_cat_refuted.

(** Examples. *)
Definition str := mk_class true true.
Definition ptr := mk_class false true.
Example C112_transform_example :
  transform StdTuple [mk_expr Prvalue false str; mk_expr Lvalue false str; mk_expr Prvalue false ptr] = Ok [(EObj str false, [Move]); (EObj str false, [Copy]); (EObj ptr false, [Move])] /\
  transform ValueTuple [mk_expr Prvalue false str; mk_expr Lvalue false str; mk_expr Xvalue false str] =
    Ok [(EObj str false, [Copy]); (EObj str false, [Copy; Copy]); (EObj str false, [Move; Copy])] /\
  transform ValueTuple [mk_expr Prvalue false ptr] = IllFormed /\ transform ValueTuple [] = Ok [] /\ can_keep (mk_expr Prvalue false ptr) /\ must_copy (mk_expr Lvalue false str).
Proof. vm_compute. repeat split; try reflexivity; [right; repeat split; discriminate|left; reflexivity]. Qed.
Example C112_cat_example :
  cat ValueTuple [mk_source StdTuple false false [EObj str false; ELRef ptr]; mk_source ValueTuple true false [EObj str true]] =
    Ok [(EObj str false, [Move; Copy]); (ELRef ptr, []); (EObj str true, [Copy; Copy])] /\
  cat StdTuple [mk_source StdTuple false false [EObj ptr false]; mk_source ValueTuple false false [EObj str false]; mk_source StdTuple true false [ELRef ptr]] =
    Ok [(EObj ptr false, [Move]); (EObj str false, [Copy]); (ELRef ptr, [])] /\
  cat StdTuple [mk_source StdTuple true false [ERRef ptr]] = IllFormed /\ copyable_object (EObj str true).
Proof. repeat split; try reflexivity. exists str, true. split; reflexivity. Qed.
Example C112_tie_example : tie ValueTuple [ptr; str] = Ok [(ELRef ptr, []); (ELRef str, [])].
Proof. reflexivity. Qed.
