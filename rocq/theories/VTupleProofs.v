(** Proofs about the value categories of value_tuple<>. *)

From Coq Require Import ZArith Arith Bool Lia List.
From Verif Require Import Base TupleModel MoveModel VTupleModel VTupleSpec.
Import ListNotations.

Definition moved_b (a : carg) : bool := negb (a_lvalue a || a_const a) && match move (a_class a) with MoveYes => true | _ => false end.
Lemma moved_b_spec : forall a, moved_b a = true <-> moved_from a.
Proof.
  intros [o [c m] l k]. unfold moved_b, moved_from. cbn. destruct l, k, m; cbn; split; intros; try discriminate; auto; destruct H as [? [? ?]]; discriminate.
Qed.

Section Proofs.
  Context {V : Type}.
  Variable moved : V -> V.

  Lemma init_param_result : forall objs i a r, init_param moved objs i a = Ok r <->
    exists v, nth_error objs (a_obj a) = Some v /\ passable a /\
      r = (if moved_b a then upd objs (a_obj a) (moved v) else objs, v, if moved_b a then MoveParam i else CopyParam i).
  Proof.
    intros objs i [o [c m] l k] r. unfold init_param, arr_get, arr_set, passable, moved_from, moved_b. cbn -[Nat.ltb].
    destruct (nth_error objs o) as [v|] eqn:E.
    - assert (L : o < length objs) by (apply nth_error_Some; congruence). cbn -[Nat.ltb].
      rewrite (proj2 (Nat.ltb_lt _ _) L).
      destruct l, k, m, c; cbn; split; intros H0;
        try discriminate;
        try (injection H0 as <-; exists v; split; [reflexivity|]; split; [auto 7|reflexivity]);
        destruct H0 as [v' [Hv [P ->]]]; injection Hv as <-; try reflexivity;
        destruct P as [[? [? ?]]|[? [?|[?|?]]]]; discriminate.
    - cbn. split; [discriminate|]. intros [v [H _]]. discriminate.
  Qed.
  Lemma init_param_fails : forall objs i a, (exists v, nth_error objs (a_obj a) = Some v) -> ~ passable a -> init_param moved objs i a = IllFormed.
  Proof.
    intros objs i [o [c m] l k] [v E] P. unfold init_param, arr_get, passable, moved_from in *. cbn in *. rewrite E. cbn.
    destruct l, k, m, c; cbn; try reflexivity; exfalso; apply P; auto 7.
  Qed.

  Lemma init_params_result : forall args objs i,
    (forall a, In a args -> a_obj a < length objs) -> Forall passable args -> no_use_after_move args ->
    exists objs' vs es, init_params moved objs i args = Ok (objs', vs, es) /\
      Forall2 (fun a v => nth_error objs (a_obj a) = Some v) args vs /\
      length objs' = length objs /\
      (forall o v, nth_error objs o = Some v ->
         nth_error objs' o = Some (if existsb (fun a => moved_b a && Nat.eqb (a_obj a) o) args then moved v else v)) /\
      es = map (fun ia => if moved_b (snd ia) then MoveParam (fst ia) else CopyParam (fst ia)) (combine (seq i (length args)) args).
  Proof.
    induction args as [|a args IH]; intros objs i R P N.
    - exists objs, [], []. cbn. repeat split; auto.
    - inversion P as [|? ? Pa Pr]; subst. assert (La : a_obj a < length objs) by (apply R; left; reflexivity).
      destruct (nth_error objs (a_obj a)) as [v|] eqn:Ev; [|apply nth_error_None in Ev; lia].
      set (objs1 := if moved_b a then upd objs (a_obj a) (moved v) else objs).
      assert (L1 : length objs1 = length objs) by (unfold objs1; destruct (moved_b a); [apply upd_length|reflexivity]).
      assert (E1 : init_param moved objs i a = Ok (objs1, v, if moved_b a then MoveParam i else CopyParam i)).
      { apply init_param_result. exists v. auto. }
      assert (Keep : forall b, In b args -> nth_error objs1 (a_obj b) = nth_error objs (a_obj b)).
      { intros b Hb. unfold objs1. destruct (moved_b a) eqn:M; [|reflexivity]. apply moved_b_spec in M.
        apply In_nth_error in Hb. destruct Hb as [k Hk]. apply nth_error_upd_other.
        intros E. apply (N 0 (S k) a b); auto; lia. }
      destruct (IH objs1 (S i)) as [objs' [vs [es [E [F [L2 [O ->]]]]]]].
      + intros b Hb. rewrite L1. apply R. right. assumption.
      + assumption.
      + intros j k b c Hjk Hb Hc. apply (N (S j) (S k)); auto. lia.
      + exists objs', (v :: vs), ((if moved_b a then MoveParam i else CopyParam i) :: map (fun ia => if moved_b (snd ia) then MoveParam (fst ia) else CopyParam (fst ia)) (combine (seq (S i) (length args)) args)).
        split; [|split; [|split; [|split]]].
        * cbn [init_params]. rewrite E1. cbn [bind]. rewrite E. reflexivity.
        * constructor; [assumption|]. clear - F Keep.
          induction F as [|b w args vs H F IHF]; [constructor|]. constructor.
          -- rewrite <- (Keep b); [assumption|left; reflexivity].
          -- apply IHF. intros c Hc. apply Keep. right. assumption.
        * congruence.
        * intros o w Hw. cbn [existsb]. unfold objs1 in O. destruct (moved_b a) eqn:M; cbn [andb].
          -- destruct (Nat.eqb_spec (a_obj a) o) as [<-|D]; cbn [orb].
             ++ rewrite Hw in Ev. injection Ev as ->. rewrite (O (a_obj a) (moved v)) by (apply nth_error_upd_same; assumption).
                replace (existsb _ args) with false; [reflexivity|]. symmetry. apply not_true_is_false. intros X. apply existsb_exists in X.
                destruct X as [b [Hb X]]. apply andb_true_iff in X. destruct X as [_ X]. apply Nat.eqb_eq in X.
                apply In_nth_error in Hb. destruct Hb as [k Hk]. apply moved_b_spec in M. apply (N 0 (S k) a b); auto; lia.
             ++ apply O. rewrite nth_error_upd_other; assumption.
          -- apply O. assumption.
        * cbn [length seq combine map fst snd]. reflexivity.
  Qed.

  Lemma init_elems_result : forall args (params : list V) i, length args = length params -> Forall (fun a => copyable (a_class a) = true) args ->
    init_elems i args params = Ok (params, map CopyElem (seq i (length args))).
  Proof.
    induction args as [|a args IH]; intros [|v params] i L F; try discriminate; [reflexivity|].
    inversion F; subst. cbn. rewrite H1. rewrite IH by (auto; injection L; auto). reflexivity.
  Qed.
  Lemma init_elems_fails : forall args (params : list V) i, length args = length params -> ~ Forall (fun a => copyable (a_class a) = true) args ->
    init_elems i args params = IllFormed.
  Proof.
    induction args as [|a args IH]; intros [|v params] i L F; try discriminate; [destruct F; constructor|].
    cbn. destruct (copyable (a_class a)) eqn:C; [|reflexivity]. rewrite IH; [reflexivity|injection L; auto|].
    intros G. apply F. constructor; assumption.
  Qed.
  Lemma init_params_total : forall args objs i, (forall a, In a args -> a_obj a < length objs) ->
    (Forall passable args /\ exists objs' vs es, init_params moved objs i args = Ok (objs', vs, es) /\ length vs = length args) \/
    (~ Forall passable args /\ init_params moved objs i args = IllFormed).
  Proof.
    induction args as [|a args IH]; intros objs i R.
    - left. split; [constructor|]. exists objs, [], []. split; reflexivity.
    - assert (La : a_obj a < length objs) by (apply R; left; reflexivity).
      destruct (nth_error objs (a_obj a)) as [v|] eqn:Ev; [|apply nth_error_None in Ev; lia].
      assert (D : passable a \/ ~ passable a).
      { destruct a as [o [c m] l k]. unfold passable, moved_from. cbn. clear. destruct l, k, m, c; cbn;
          try (left; auto 7; fail); right; intros [[? [? ?]]|[? [?|[?|?]]]]; discriminate. }
      destruct D as [Pa|Pa].
      + set (objs1 := if moved_b a then upd objs (a_obj a) (moved v) else objs).
        assert (E1 : init_param moved objs i a = Ok (objs1, v, if moved_b a then MoveParam i else CopyParam i)) by (apply init_param_result; eauto).
        assert (L1 : length objs1 = length objs) by (unfold objs1; destruct (moved_b a); [apply upd_length|reflexivity]).
        cbn [init_params]. rewrite E1. cbn [bind].
        destruct (IH objs1 (S i)) as [[F [objs' [vs [es [E Lv]]]]]|[F E]].
        * intros b Hb. rewrite L1. apply R. right. assumption.
        * left. split; [constructor; assumption|]. rewrite E. cbn. do 3 eexists. split; [reflexivity|]. cbn. congruence.
        * right. split; [intros G; inversion G; auto|]. rewrite E. reflexivity.
      + right. split; [intros G; inversion G; auto|]. cbn [init_params]. rewrite init_param_fails by eauto. reflexivity.
  Qed.
End Proofs.

(** Counting events. *)
Lemma filter_none : forall (A : Type) (p : A -> bool) l, (forall x, In x l -> p x = false) -> filter p l = [].
Proof. intros A p l H. induction l as [|x l IH]; cbn; [reflexivity|]. rewrite H by (left; reflexivity). apply IH. intros y Hy. apply H. right. assumption. Qed.
Lemma count_in_seq : forall n i k, k <= i < k + n -> length (filter (Nat.eqb i) (seq k n)) = 1.
Proof.
  induction n as [|n IH]; intros i k H; [lia|]. cbn [seq filter]. destruct (Nat.eqb_spec i k) as [->|N].
  - cbn [length]. rewrite filter_none; [reflexivity|]. intros x Hx. apply in_seq in Hx. apply Nat.eqb_neq. lia.
  - apply IH. lia.
Qed.
Lemma filter_map : forall (A B : Type) (f : A -> B) (p : B -> bool) l, filter p (map f l) = map f (filter (fun x => p (f x)) l).
Proof. intros A B f p l. induction l as [|x l IH]; cbn; [reflexivity|]. destruct (p (f x)); cbn; rewrite IH; reflexivity. Qed.
Lemma count_rev : forall (A : Type) (p : A -> bool) l, length (filter p (rev l)) = length (filter p l).
Proof.
  intros A p l. induction l as [|x l IH]; cbn; [reflexivity|]. rewrite filter_app, app_length, IH. cbn. destruct (p x); cbn; lia.
Qed.
Lemma count_params : forall args k i (b : carg -> bool), k <= i < k + length args ->
  length (filter (is_param i) (map (fun ia => if b (snd ia) then MoveParam (fst ia) else CopyParam (fst ia)) (combine (seq k (length args)) args))) = 1.
Proof.
  induction args as [|a args IH]; intros k i b H; cbn [length] in *; [lia|]. cbn [seq combine map fst snd].
  assert (E : is_param i (if b a then MoveParam k else CopyParam k) = Nat.eqb i k) by (destruct (b a); reflexivity).
  cbn [filter]. rewrite E. destruct (Nat.eqb_spec i k) as [->|N].
  - cbn [length]. rewrite filter_none; [reflexivity|]. intros x Hx. apply in_map_iff in Hx. destruct Hx as [[j c] [<- Hj]].
    apply in_combine_l in Hj. apply in_seq in Hj. cbn. destruct (b c); apply Nat.eqb_neq; lia.
  - apply IH. lia.
Qed.
