(** Proofs about lookups with comparison operators of the caller's. *)

From Coq Require Import ZArith Arith Bool Lia List.
From Verif Require Import Base ExpandModel ExpandProofs PermProofs SearchModel SearchSpec.
Import ListNotations.
Local Open Scope Z_scope.

(** ** Rounds of a binary search *)

Definition rounds (m : nat) : nat := if (m <=? 1)%nat then 0%nat else S (Nat.log2_up (m - 1)).

Lemma log2_up_half : forall k, (2 <= k)%nat -> (S (Nat.log2_up ((k + 1) / 2)) <= Nat.log2_up k)%nat.
Proof.
  intros k Hk. set (q := ((k + 1) / 2)%nat). pose proof (Nat.div_mod (k + 1) 2 ltac:(lia)) as D. fold q in D.
  pose proof (Nat.mod_upper_bound (k + 1) 2 ltac:(lia)) as U. assert (Hq : (0 < q)%nat) by lia.
  rewrite <- (Nat.log2_up_double q Hq).
  destruct (Nat.log2_up_spec k ltac:(lia)) as [_ Hs]. apply Nat.log2_up_le_pow2; [lia|].
  pose proof (Nat.log2_up_pos k ltac:(lia)) as HL. destruct (Nat.log2_up k) as [|L]; [lia|]. cbn [Nat.pow] in *. lia.
Qed.

Lemma rounds_step : forall m m', (2 <= m)%nat -> (m' <= m / 2 \/ (3 <= m /\ m' <= m / 2 + 1))%nat -> (S (rounds m') <= rounds m)%nat.
Proof.
  intros m m' Hm H. unfold rounds. destruct (Nat.leb_spec m 1); [lia|]. apply le_n_S.
  destruct (Nat.leb_spec m' 1); [lia|].
  assert (H3 : (3 <= m)%nat) by (destruct H as [H|H]; [|lia]; pose proof (Nat.div_le_mono 2 m 2); destruct (Nat.eq_dec m 2) as [->|]; [cbn in *; lia|lia]).
  assert (Hd : (m' - 1 <= (m - 1 + 1) / 2)%nat) by (replace (m - 1 + 1)%nat with m by lia; destruct H as [H|[_ H]]; lia).
  eapply Nat.le_trans; [|apply log2_up_half; lia]. apply le_n_S. apply Nat.log2_up_le_mono. auto.
Qed.

Lemma rounds_le : forall m m', (m' <= m)%nat -> (rounds m' <= rounds m)%nat.
Proof.
  intros m m' H. unfold rounds. destruct (Nat.leb_spec m' 1); [lia|]. destruct (Nat.leb_spec m 1); [lia|]. apply le_n_S, Nat.log2_up_le_mono. lia.
Qed.

(** ** One run *)

Section Run.
  Context {S A B : Type}.
  Notation log := (list (comparison_call A * outcome bool)).
  Variable value : B.
  Variable values : list A.

  Definition names (c : comparison_call A) : A := match c with Less a => a | Greater a => a | Equal a => a end.

  (** Every call but the last returned, and all constants are listed. *)
  Definition proper (l : log) (o : outcome Z) : Prop :=
    (forall c r, In (c, r) l -> In (names c) values) /\
    match o with
    | Ok i => Forall (fun e => exists b, snd e = Ok b) l /\
              (i = -1 \/ exists x, zget values i = Some x /\ supported l x)
    | Throw e => exists pre c, l = pre ++ [(c, Throw e)] /\ Forall (fun e => exists b, snd e = Ok b) pre
    | _ => False
    end.

  Lemma supported_cons : forall e (l : log) x, supported l x -> supported (e :: l) x.
  Proof. intros e l x [[pre ->]|[pre ->]]; [left|right]; exists (e :: pre); reflexivity. Qed.

  Lemma proper_cons : forall c b l o, In (names c) values -> proper l o -> proper ((c, Ok b) :: l) o.
  Proof.
    intros c b l o Hc [H1 H2]. split.
    - intros c' r [E|H]; [injection E as <- <-; auto|eauto].
    - destruct o; auto.
      + destruct H2 as [F H2]. split; [constructor; cbn; eauto|]. destruct H2 as [H2|(x & E & H2)]; auto. right. exists x. split; auto. apply supported_cons. auto.
      + destruct H2 as (pre & c' & -> & F). exists ((c, Ok b) :: pre), c'. split; auto. constructor; cbn; eauto.
  Qed.

  Lemma proper_throw : forall c e, In (names c) values -> proper [(c, Throw e)] (Throw e).
  Proof. intros c e H. split; [intros c' r [E|[]]; injection E as <- <-; auto|]. exists [], c. split; auto. Qed.

  Definition ok_op {X Y} (f : S -> X -> Y -> S * outcome bool) : Prop := forall s x y, match snd (f s x y) with Ok _ | Throw _ => True | _ => False end.

  Variables (less : S -> A -> B -> S * outcome bool) (greater : S -> B -> A -> S * outcome bool) (equal : S -> A -> B -> S * outcome bool).
  Hypothesis (Hless : ok_op less) (Hgreater : ok_op greater) (Hequal : ok_op equal).

  Notation rec := (S * log)%type.
  Definition rless (s : rec) (a : A) (v : B) : rec * outcome bool := let '(st, o) := less (fst s) a v in ((st, snd s ++ [(Less a, o)]), o).
  Definition rgreater (s : rec) (v : B) (a : A) : rec * outcome bool := let '(st, o) := greater (fst s) v a in ((st, snd s ++ [(Greater a, o)]), o).
  Definition requal (s : rec) (a : A) (v : B) : rec * outcome bool := let '(st, o) := equal (fst s) a v in ((st, snd s ++ [(Equal a, o)]), o).

  (** What a binary search has to show for the [m] constants that are left. *)
  Definition bounded (m : nat) (l : log) : Prop :=
    (count_calls is_less l <= rounds m)%nat /\ (count_calls is_greater l <= count_calls is_less l)%nat /\ (count_calls is_equal l <= 1)%nat.

  Lemma binary_run : forall fuel first last s l0, 0 <= first -> last <= Z.of_nat (length values) -> last - first <= Z.of_nat fuel ->
    exists s' l o, eff_binary_loop less greater equal fuel value values first last s = (s', o) /\
      eff_binary_loop rless rgreater requal fuel value values first last (s, l0) = ((s', l0 ++ l), o) /\
      proper l o /\ bounded (Z.to_nat (last - first)) l /\ match o with Ok i => i = -1 \/ first <= i < last | _ => True end.
  Proof.
    induction fuel as [|fuel IH]; intros first last s l0 Hf Hl Hm; cbn [eff_binary_loop].
    - destruct (Z.gtb_spec (last - first) 1); [lia|]. destruct (Z.eqb_spec (last - first) 1); [lia|].
      exists s, [], (Ok (-1)). rewrite app_nil_r. unfold pure. split; auto. split; auto. split; [split; [intros c r []|split; auto]|]. split; auto. split; cbn; auto. lia.
    - destruct (Z.gtb_spec (last - first) 1) as [Hgt|Hgt].
      + set (half := first + (last - first) / 2). assert (Hh : first < half < last) by (unfold half; pose proof (Z.div_str_pos (last - first) 2); pose proof (Z.div_lt (last - first) 2); lia).
        assert (Hd : Z.to_nat ((last - first) / 2) = (Z.to_nat (last - first) / 2)%nat) by (rewrite Z2Nat.inj_div by lia; reflexivity).
        destruct (zget_some _ values half ltac:(lia)) as [x Ex]. assert (Hin : In x values) by (eapply zget_in; eauto).
        unfold then_, pure. assert (Ea : aget values half = Ok x) by (rewrite aget_zget, Ex; reflexivity). rewrite !Ea. unfold rless at 1. cbn [fst snd].
        pose proof (Hless s x value) as Hb. destruct (less s x value) as [s1 [b| |e| | |]]; cbn [snd] in Hb; try contradiction.
        2: { exists s1, [(Less x, Throw e)], (Throw e). split; auto. split; auto. split; [apply proper_throw; auto|]. split; auto. unfold bounded, count_calls. cbn.
             unfold rounds. destruct (Nat.leb_spec (Z.to_nat (last - first)) 1); lia. }
        destruct b.
        * destruct (IH (half + 1) last s1 (l0 ++ [(Less x, Ok true)])) as (s' & l & o & E1 & E2 & E3 & E4 & E5); try lia.
          exists s', ((Less x, Ok true) :: l), o. split; auto. rewrite <- app_assoc in E2. split; auto. split; [apply proper_cons; auto|]. split.
          -- destruct E4 as (F1 & F2 & F3). unfold bounded, count_calls in *. cbn [filter fst is_less is_greater is_equal length].
             assert (Datatypes.S (rounds (Z.to_nat (last - (half + 1)))) <= rounds (Z.to_nat (last - first)))%nat; [|lia].
             apply rounds_step; [lia|]. left. rewrite <- Hd. unfold half. pose proof (Z.div_mod (last - first) 2). pose proof (Z.mod_pos_bound (last - first) 2). lia.
          -- destruct o; auto. lia.
        * cbn [snd fst]. unfold rgreater at 1. cbn [fst snd]. pose proof (Hgreater s1 value x) as Hc. destruct (greater s1 value x) as [s2 [c| |e| | |]]; cbn [snd] in Hc; try contradiction.
          2: { exists s2, [(Less x, Ok false); (Greater x, Throw e)], (Throw e). split; auto. rewrite <- app_assoc. split; auto.
               split; [apply proper_cons; auto; apply proper_throw; auto|]. split; auto. unfold bounded, count_calls. cbn.
               unfold rounds. destruct (Nat.leb_spec (Z.to_nat (last - first)) 1); lia. }
          rewrite <- app_assoc. cbn [app].
          destruct c.
          -- destruct (IH first half s2 (l0 ++ [(Less x, Ok false); (Greater x, Ok true)])) as (s' & l & o & E1 & E2 & E3 & E4 & E5); try lia.
             exists s', ((Less x, Ok false) :: (Greater x, Ok true) :: l), o. split; auto. rewrite <- app_assoc in E2. split; auto. split; [apply proper_cons; auto; apply proper_cons; auto|]. split.
             ++ destruct E4 as (F1 & F2 & F3). unfold bounded, count_calls in *. cbn [filter fst is_less is_greater is_equal length].
                assert (Datatypes.S (rounds (Z.to_nat (half - first))) <= rounds (Z.to_nat (last - first)))%nat; [|lia].
                apply rounds_step; [lia|]. left. rewrite <- Hd. unfold half. lia.
             ++ destruct o; auto. lia.
          -- destruct (Z.eqb_spec (half + 1) last) as [Hlast|Hlast].
             ++ exists s2, [(Less x, Ok false); (Greater x, Ok false)], (Ok half). unfold pure. split; auto. split; auto. split; [|split].
                ** split; [intros c r [E|[E|[]]]; injection E as <- <-; auto|]. split; [repeat constructor; cbn; eauto|]. right. exists x. split; auto. right. exists []. reflexivity.
                ** unfold bounded, count_calls. cbn. unfold rounds. destruct (Nat.leb_spec (Z.to_nat (last - first)) 1); lia.
                ** lia.
             ++ destruct (IH first (half + 1) s2 (l0 ++ [(Less x, Ok false); (Greater x, Ok false)])) as (s' & l & o & E1 & E2 & E3 & E4 & E5); try lia.
                exists s', ((Less x, Ok false) :: (Greater x, Ok false) :: l), o. split; auto. rewrite <- app_assoc in E2. split; auto. split; [apply proper_cons; auto; apply proper_cons; auto|]. split.
                ** destruct E4 as (F1 & F2 & F3). unfold bounded, count_calls in *. cbn [filter fst is_less is_greater is_equal length].
                   assert (Datatypes.S (rounds (Z.to_nat (half + 1 - first))) <= rounds (Z.to_nat (last - first)))%nat; [|lia].
                   apply rounds_step; [lia|]. right. rewrite <- Hd. unfold half in *. split; [|lia].
                   destruct (Z.eq_dec (last - first) 2) as [E|]; [|lia]. exfalso. apply Hlast. rewrite E. cbn. lia.
                ** destruct o; auto. lia.
      + destruct (Z.eqb_spec (last - first) 1) as [H1|H1].
        * destruct (zget_some _ values first ltac:(lia)) as [x Ex]. assert (Hin : In x values) by (eapply zget_in; eauto).
          unfold then_, pure. assert (Ea : aget values first = Ok x) by (rewrite aget_zget, Ex; reflexivity). rewrite !Ea. unfold requal at 1. cbn [fst snd].
          pose proof (Hequal s x value) as Hb. destruct (equal s x value) as [s1 [b| |e| | |]]; cbn [snd] in Hb; try contradiction; unfold pure.
          -- exists s1, [(Equal x, Ok b)], (Ok (if b then first else -1)). split; auto. split; auto. split; [|split].
             ++ split; [intros c r [E|[]]; injection E as <- <-; auto|]. split; [repeat constructor; cbn; eauto|]. destruct b; auto. right. exists x. split; auto. left. exists []. reflexivity.
             ++ unfold bounded, count_calls. cbn. lia.
             ++ destruct b; lia.
          -- exists s1, [(Equal x, Throw e)], (Throw e). split; auto. split; auto. split; [apply proper_throw; auto|]. split; auto. unfold bounded, count_calls. cbn. lia.
        * exists s, [], (Ok (-1)). rewrite app_nil_r. unfold pure. split; auto. split; auto. split; [split; [intros c r []|split; auto]|]. split; auto. split; cbn; auto. lia.
  Qed.

  (** A linear search asks whether the constants are equal, one after the other. *)
  Lemma linear_run : forall rest done s l0, values = done ++ rest ->
    exists s' k l o, eff_linear_loop equal value rest (Z.of_nat (length done)) s = (s', o) /\
      eff_linear_loop requal value rest (Z.of_nat (length done)) (s, l0) = ((s', l0 ++ l), o) /\
      proper l o /\ map fst l = map Equal (firstn k rest) /\ (k <= length rest)%nat /\
      match o with
      | Ok i => (i = -1 /\ k = length rest /\ Forall (fun e => snd e = Ok false) l) \/
                (exists p x, i = Z.of_nat (length done + k - 1) /\ l = p ++ [(Equal x, Ok true)] /\ Forall (fun e => snd e = Ok false) p)
      | Throw e => exists p x, l = p ++ [(Equal x, Throw e)] /\ Forall (fun e => snd e = Ok false) p
      | _ => False
      end.
  Proof.
    induction rest as [|x r IH]; intros done s l0 E; cbn [eff_linear_loop].
    - exists s, 0%nat, [], (Ok (-1)). rewrite app_nil_r. unfold pure. repeat split; auto; try (intros c r []).
    - assert (Hin : In x values) by (rewrite E, in_app_iff; cbn; auto).
      unfold then_. unfold requal at 1. cbn [fst snd]. pose proof (Hequal s x value) as Hb. destruct (equal s x value) as [s1 [b| |e| | |]]; cbn [snd] in Hb; try contradiction.
      + destruct b; unfold pure.
        * exists s1, 1%nat, [(Equal x, Ok true)], (Ok (Z.of_nat (length done))). split; auto. split; auto. split; [|split; [reflexivity|split; [cbn; lia|]]].
          -- split; [intros c r' [E'|[]]; injection E' as <- <-; auto|]. split; [repeat constructor; cbn; eauto|]. right. exists x. split; [|left; exists []; reflexivity].
             rewrite zget_nat, E, nth_error_app2, Nat.sub_diag by lia. reflexivity.
          -- right. exists [], x. split; [f_equal; lia|]. split; auto.
        * destruct (IH (done ++ [x]) s1 (l0 ++ [(Equal x, Ok false)])) as (s' & k & l & o & E1 & E2 & E3 & E4 & E5 & E6); [rewrite E, <- app_assoc; reflexivity|].
          rewrite app_length in *. cbn [length] in *. replace (Z.of_nat (length done) + 1) with (Z.of_nat (length done + 1)) by lia.
          exists s', (Datatypes.S k), ((Equal x, Ok false) :: l), o. rewrite <- app_assoc in E2. split; auto. split; auto. split; [apply proper_cons; auto|].
          split; [cbn [map firstn fst]; f_equal; auto|]. split; [lia|]. destruct o; auto.
          -- destruct E6 as [(-> & -> & F)|(p & y & -> & -> & F)]; [left; repeat split; auto|right]. exists ((Equal x, Ok false) :: p), y. split; [lia|]. split; auto.
          -- destruct E6 as (p & y & -> & F). exists ((Equal x, Ok false) :: p), y. auto.
      + exists s1, 1%nat, [(Equal x, Throw e)], (Throw e). split; auto. split; auto. split; [apply proper_throw; auto|]. split; [reflexivity|]. split; [cbn; lia|]. exists [], x. auto.
  Qed.
End Run.

(** ** Sorted or not *)

Lemma sorted_loop_iff : forall A (lt : A -> A -> bool) rest prev, sorted_loop lt prev rest = true <-> in_order lt (prev :: rest).
Proof.
  intros A lt. induction rest as [|x r IH]; intros prev; cbn [sorted_loop].
  - split; auto. intros _ i a b H1 H2. destruct i as [|[|i]]; discriminate.
  - destruct (lt x prev) eqn:E.
    + split; [discriminate|]. intros H. specialize (H 0%nat prev x eq_refl eq_refl). congruence.
    + rewrite IH. split.
      * intros H [|i] a b H1 H2; [injection H1 as <-; injection H2 as <-; auto|]. exact (H i a b H1 H2).
      * intros H i a b H1 H2. exact (H (Datatypes.S i) a b H1 H2).
Qed.

Lemma values_sorted_iff : forall S A B (ops : operators S A B) values, values_sorted ops values = true <-> known_sorted ops values.
Proof.
  intros S A B ops values. unfold values_sorted, known_sorted. destruct (op_order ops) as [lt|].
  - unfold are_values_sorted. destruct values as [|x r].
    + split; auto. intros _. exists lt. split; auto. intros [|i]; discriminate.
    + rewrite sorted_loop_iff. split; [eauto|]. intros (lt' & E & H). injection E as ->. auto.
  - split; [discriminate|]. intros (lt & E & _). discriminate.
Qed.

Lemma recorded_sorted : forall S A B (ops : operators S A B) values, values_sorted (recorded_ops ops) values = values_sorted ops values.
Proof. reflexivity. Qed.

(** ** The search *)

Definition index_of (r : lookup) : outcome Z := match r with Chosen k => Ok (Z.of_nat k) | Missing => Ok (-1) | Failed e => Throw e end.

Lemma forall_in : forall A (P : outcome bool -> Prop) (l : list (A * outcome bool)), Forall (fun e => P (snd e)) l -> forall c o, In (c, o) l -> P o.
Proof. intros A P l H c o Hin. rewrite Forall_forall in H. exact (H _ Hin). Qed.

Lemma proper_justified : forall A (values : list A) l o, proper values l o -> exists r, o = index_of r /\ justified values l r.
Proof.
  intros A values l o [H1 H2]. destruct o as [i| |e| | |]; try contradiction.
  - destruct H2 as [F [->|(x & E & H2)]].
    + exists Missing. split; auto. split; auto. exact (forall_in _ (fun o => exists b, o = Ok b) _ F).
    + pose proof (zget_lt _ _ _ _ E) as Hb. exists (Chosen (Z.to_nat i)). cbn. rewrite Z2Nat.id by lia. split; auto. split; auto. split; [exact (forall_in _ (fun o => exists b, o = Ok b) _ F)|].
      exists x. split; auto. rewrite <- (Z2Nat.id i) in E by lia. rewrite zget_nat in E. auto.
  - destruct H2 as (pre & c & -> & F). exists (Failed e). split; auto. split; auto. exists pre, c. split; auto. exact (forall_in _ (fun o => exists b, o = Ok b) _ F).
Qed.

Lemma returns_parts : forall S A B (ops : operators S A B), returns_or_throws ops ->
  (forall f, op_less ops = Some f -> ok_op f) /\ (forall f, op_greater ops = Some f -> ok_op f) /\ (forall f, op_equal ops = Some f -> ok_op f).
Proof. intros S A B ops (H1 & H2 & H3). split; [|split]; intros f E s x y; [exact (H1 f s x y E)|exact (H2 f s x y E)|exact (H3 f s x y E)]. Qed.

Definition accepted (S A B : Type) (ops : operators S A B) (values : list A) : bool :=
  match op_equal ops with
  | None => false
  | Some _ => if values_sorted ops values then match op_less ops, op_greater ops with Some _, Some _ => true | _, _ => false end else true
  end.

Lemma search_rejected : forall S A B (ops : operators S A B) value values s, accepted _ _ _ ops values = false -> eff_search ops value values s = (s, IllFormed).
Proof.
  intros S A B ops value values s H. unfold accepted in H. unfold eff_search. destruct (values_sorted ops values), (op_less ops), (op_greater ops), (op_equal ops); auto; discriminate.
Qed.

Lemma firstn_snoc : forall A (l : list A) k x, nth_error l k = Some x -> firstn (Datatypes.S k) l = firstn k l ++ [x].
Proof. induction l as [|y l IH]; intros [|k] x E; cbn in *; try discriminate; [injection E as ->; auto|]. f_equal. apply IH. auto. Qed.

Lemma all_false : forall A (xs : list A) (p : list (comparison_call A * outcome bool)), map fst p = map Equal xs -> Forall (fun e => snd e = Ok false) p ->
  p = map (fun a => (Equal a, Ok false)) xs.
Proof.
  induction xs as [|x xs IH]; intros [|[c o] p] H F; cbn in *; try discriminate; auto. injection H as -> H. inversion F; subst. cbn in *. subst. f_equal. auto.
Qed.

Lemma search_linear : forall S A B (ops : operators S A B) equal value values s, values_sorted ops values = false -> op_equal ops = Some equal -> ok_op equal ->
  exists s' l r, eff_search ops value values s = (s', index_of r) /\ eff_search (recorded_ops ops) value values (s, []) = ((s', l), index_of r) /\
    justified values l r /\ one_after_the_other values l r.
Proof.
  intros S A B ops equal value values s Hs He Hok.
  destruct (linear_run value values equal Hok values [] s [] eq_refl) as (s' & k & l & o & E1 & E2 & E3 & E4 & E5 & E6). cbn [length app] in *. change (Z.of_nat 0) with 0 in *.
  destruct (proper_justified _ _ _ _ E3) as (r & -> & J). exists s', l, r.
  unfold eff_search. rewrite recorded_sorted, Hs, He. cbn [recorded_ops op_equal option_map]. rewrite He. cbn [option_map]. fold (requal equal). split; auto. split; [exact E2|]. split; auto.
  assert (Hlast : forall p x b, l = p ++ [(Equal x, b)] -> Forall (fun e => snd e = Ok false) p ->
            exists j, k = Datatypes.S j /\ nth_error values j = Some x /\ l = map (fun a => (Equal a, Ok false)) (firstn j values) ++ [(Equal x, b)]).
  { intros p x b El F. rewrite El, map_app in E4. cbn [map fst] in E4. assert (Hk : length (map fst p ++ [Equal x]) = length (map (@Equal A) (firstn k values))) by (rewrite E4; auto).
    rewrite app_length, !map_length, firstn_length in Hk. cbn in Hk. destruct k as [|j]; [lia|]. exists j. split; auto.
    destruct (nth_error values j) as [y|] eqn:Ey; [|apply nth_error_None in Ey; lia].
    rewrite (firstn_snoc _ _ _ _ Ey), map_app in E4. cbn [map] in E4. apply app_inj_tail in E4. destruct E4 as [E4 E4']. injection E4' as ->. split; auto. rewrite El. f_equal. apply all_false; auto. }
  destruct r; cbn in *.
  - destruct E6 as [(E & _)|(p & x & Ek & El & F)]; [lia|]. destruct (Hlast _ _ _ El F) as (j & -> & H1 & H2). replace k0 with j in * by lia. eauto.
  - destruct E6 as [(_ & -> & F)|(p & x & Ek & El & F)].
    + rewrite firstn_all in E4. apply all_false; auto.
    + destruct (Hlast _ _ _ El F) as (j & -> & H1 & H2). lia.
  - destruct E6 as (p & x & El & F). destruct (Hlast _ _ _ El F) as (j & -> & H1 & H2). eauto.
Qed.

Lemma search_binary : forall S A B (ops : operators S A B) less greater equal value values s, values_sorted ops values = true ->
  op_less ops = Some less -> op_greater ops = Some greater -> op_equal ops = Some equal -> ok_op less -> ok_op greater -> ok_op equal ->
  exists s' l r, eff_search ops value values s = (s', index_of r) /\ eff_search (recorded_ops ops) value values (s, []) = ((s', l), index_of r) /\
    justified values l r /\ bounded (length values) l.
Proof.
  intros S A B ops less greater equal value values s Hs Hl Hg He Ol Og Oe.
  destruct (binary_run value values less greater equal Ol Og Oe (length values) 0 (Z.of_nat (length values)) s []) as (s' & l & o & E1 & E2 & E3 & E4 & E5); try lia.
  destruct (proper_justified _ _ _ _ E3) as (r & -> & J). exists s', l, r.
  unfold eff_search. rewrite recorded_sorted, Hs, Hl, Hg, He. cbn [recorded_ops op_equal op_less op_greater option_map]. rewrite Hl, Hg, He. cbn [option_map]. fold (requal equal) (rgreater greater) (rless less).
  split; auto. split; [exact E2|]. split; auto. rewrite Z.sub_0_r, Nat2Z.id in E4. auto.
Qed.

Lemma search_run : forall S A B (ops : operators S A B) value values s, returns_or_throws ops -> accepted _ _ _ ops values = true ->
  exists s' l r, eff_search ops value values s = (s', index_of r) /\ eff_search (recorded_ops ops) value values (s, []) = ((s', l), index_of r) /\ justified values l r /\
    (values_sorted ops values = true -> bounded (length values) l) /\ (values_sorted ops values = false -> one_after_the_other values l r).
Proof.
  intros S A B ops value values s Hr Ha. destruct (returns_parts _ _ _ _ Hr) as (Hl & Hg & He). unfold accepted in Ha.
  destruct (op_equal ops) as [equal|] eqn:Ee; [|discriminate]. destruct (values_sorted ops values) eqn:Es.
  - destruct (op_less ops) as [less|] eqn:El; [|discriminate]. destruct (op_greater ops) as [greater|] eqn:Eg; [|discriminate].
    destruct (search_binary _ _ _ ops less greater equal value values s) as (s' & l & r & H1 & H2 & H3 & H4); auto. exists s', l, r. repeat split; auto; try apply H3; try apply H4; discriminate.
  - destruct (search_linear _ _ _ ops equal value values s) as (s' & l & r & H1 & H2 & H3 & H4); auto. exists s', l, r. repeat split; auto; try apply H3; discriminate.
Qed.

(** ** The three functions *)

Lemma select_chosen : forall A (values : list A) k x, nth_error values k = Some x -> select values (Z.of_nat k) = Ok k.
Proof. exact select_ok. Qed.

Lemma expands_of : forall S A B (ops : operators S A B) value values s s' l r, values <> [] ->
  eff_search ops value values s = (s', index_of r) -> justified values l r ->
  eff_expand ops value values s = (s', reported_by_expand r) /\ eff_try_expand ops value values s = (s', reported_by_try_expand r) /\
  eff_expand_failfast ops value values s = (s', reported_by_failfast r).
Proof.
  intros S A B ops value values s s' l r Hne E J. destruct values as [|v vs]; [congruence|]. unfold eff_expand, eff_try_expand, eff_expand_failfast, then_. rewrite !E.
  destruct r as [k| |e]; cbn [index_of reported_by_expand reported_by_try_expand reported_by_failfast]; auto.
  destruct J as [_ (_ & x & Ex & _)]. pose proof (select_chosen _ _ _ _ Ex) as Hs. destruct (Z.ltb_spec (Z.of_nat k) 0); [lia|]. destruct (Z.geb_spec (Z.of_nat k) 0); [|lia].
  unfold pure, expects. rewrite Hs. auto.
Qed.

Lemma expands_run : forall S A B (ops : operators S A B) value values s, returns_or_throws ops -> acceptable ops values ->
  exists s' l r, all_three ops value values s s' r /\ all_three (recorded_ops ops) value values (s, []) (s', l) r /\ justified values l r /\
    (known_sorted ops values -> bounded (length values) l) /\ (~ known_sorted ops values -> one_after_the_other values l r).
Proof.
  intros S A B ops value values s Hr (Hne & He & Hlg).
  destruct (search_run _ _ _ ops value values s Hr) as (s' & l & r & E1 & E2 & J & Hb & Hl).
  { unfold accepted. destruct (op_equal ops); [|congruence]. destruct (values_sorted ops values) eqn:Es; auto. apply values_sorted_iff in Es. destruct (Hlg Es). destruct (op_less ops), (op_greater ops); congruence. }
  exists s', l, r. split; [eapply expands_of; eauto|]. split; [eapply expands_of; eauto|]. split; auto.
  rewrite <- values_sorted_iff. split; auto. intros Hn. apply Hl. destruct (values_sorted ops values); congruence.
Qed.

Lemma acceptable_dec : forall S A B (ops : operators S A B) values, values <> [] -> ~ acceptable ops values -> accepted _ _ _ ops values = false.
Proof.
  intros S A B ops values Hne H. destruct (accepted _ _ _ ops values) eqn:E; auto. exfalso. apply H. unfold accepted in E. split; auto.
  destruct (op_equal ops); [|discriminate]. split; [discriminate|]. intros Hs. apply values_sorted_iff in Hs. rewrite Hs in E. destruct (op_less ops), (op_greater ops); try discriminate. split; discriminate.
Qed.

Lemma expands_rejected : forall S A B (ops : operators S A B) value values s, ~ acceptable ops values ->
  eff_expand ops value values s = (s, IllFormed) /\ eff_try_expand ops value values s = (s, IllFormed) /\ eff_expand_failfast ops value values s = (s, IllFormed).
Proof.
  intros S A B ops value values s H. destruct values as [|v vs]; [repeat split; auto|].
  assert (Hne : v :: vs <> []) by discriminate.
  pose proof (search_rejected _ _ _ ops value (v :: vs) s (acceptable_dec _ _ _ _ _ Hne H)) as E.
  unfold eff_expand, eff_try_expand, eff_expand_failfast, then_. rewrite E. auto.
Qed.

(** ** Operators without effects *)

Lemma pure_binary : forall A B (less : A -> B -> bool) greater equal fuel value values first last,
  eff_binary_loop (fun (s : unit) a v => (s, Ok (less a v))) (fun s v a => (s, Ok (greater v a))) (fun s a v => (s, Ok (equal a v))) fuel value values first last tt
  = (tt, binary_loop less greater equal fuel value values first last).
Proof.
  intros A B less greater equal. induction fuel as [|fuel IH]; intros value values first last; cbn [eff_binary_loop binary_loop].
  - destruct (last - first >? 1); auto. destruct (last - first =? 1); auto. unfold then_, pure. destruct (aget values first); auto.
  - destruct (last - first >? 1).
    + unfold then_, pure. destruct (aget values _) as [x| | | | |]; auto. cbn [bind]. destruct (less x value); auto. destruct (greater value x); auto. destruct (_ =? last); auto.
    + destruct (last - first =? 1); auto. unfold then_, pure. destruct (aget values first); auto.
Qed.

Lemma pure_linear : forall A B (equal : A -> B -> bool) value values i,
  eff_linear_loop (fun (s : unit) a v => (s, Ok (equal a v))) value values i tt = (tt, Ok (linear_loop equal value values i)).
Proof. intros A B equal value. induction values as [|x r IH]; intros i; cbn; auto. unfold then_. destruct (equal x value); auto. Qed.

Definition has {X} (o : option X) : bool := match o with Some _ => true | None => false end.
Definition order_of {A} (o : option (A -> A -> bool)) : A -> A -> bool := match o with Some lt => lt | None => fun _ _ => false end.

Lemma pure_search : forall A B order (less : A -> B -> bool) greater equal value values,
  eff_search (pure_ops order less greater equal) value values tt = (tt, search_other (has order) (order_of order) less greater equal value values).
Proof.
  intros. unfold eff_search, search_other, search_ordered. cbn [pure_ops op_less op_greater op_equal op_order].
  assert (E : values_sorted (pure_ops order less greater equal) values = are_values_sorted (has order) (order_of order) values) by (destruct order; reflexivity).
  rewrite E. destruct (are_values_sorted _ _ values); [apply pure_binary|apply pure_linear].
Qed.

Lemma pure_expands : forall A B order (less : A -> B -> bool) greater equal value values,
  let ops := pure_ops order less greater equal in
  eff_expand ops value values tt = (tt, expand_other (has order) (order_of order) less greater equal value values) /\
  eff_try_expand ops value values tt = (tt, try_expand_other (has order) (order_of order) less greater equal value values) /\
  eff_expand_failfast ops value values tt = (tt, expand_failfast_other (has order) (order_of order) less greater equal value values).
Proof.
  intros A B order less greater equal value values ops. unfold expand_other, try_expand_other, expand_failfast_other, expand, try_expand, expand_failfast, variant_map_ok.
  destruct values as [|v vs]; [auto|]. unfold eff_expand, eff_try_expand, eff_expand_failfast, then_. unfold ops at 1 2 3. rewrite !pure_search.
  destruct (search_other _ _ _ _ _ _ _) as [i| | | | |]; cbn; auto. unfold pure. repeat split.
  - destruct (i <? 0); auto.
  - destruct (i <? 0); auto. destruct (select (v :: vs) i); auto.
  - destruct (i >=? 0); auto.
Qed.

(** ** The bound is attained *)

Lemma rounds_exact : forall m, (3 <= m)%nat -> rounds m = S (rounds (m / 2 + 1)).
Proof.
  intros m Hm. apply Nat.le_antisymm; [|apply rounds_step; lia].
  unfold rounds. destruct (Nat.leb_spec m 1); [lia|]. pose proof (Nat.div_le_mono 2 m 2 ltac:(lia) ltac:(lia)) as Hd. change (2 / 2)%nat with 1%nat in Hd.
  destruct (Nat.leb_spec (m / 2 + 1) 1); [lia|]. apply le_n_S. rewrite Nat.add_sub. rewrite <- Nat.log2_up_double by lia. apply Nat.log2_up_le_mono.
  pose proof (Nat.div_mod m 2 ltac:(lia)). pose proof (Nat.mod_upper_bound m 2 ltac:(lia)). lia.
Qed.

Lemma equivalent_run : forall A B (equal : unit -> A -> B -> unit * outcome bool) (value : B) (values : list A) fuel first last l0,
  let no := fun (X Y : Type) (s : unit) (_ : X) (_ : Y) => (s, Ok false) in
  0 <= first -> last <= Z.of_nat (length values) -> last - first <= Z.of_nat fuel -> 2 <= last - first ->
  exists l, eff_binary_loop (rless (no A B)) (rgreater (no B A)) (requal equal) fuel value values first last (tt, l0) = ((tt, l0 ++ l), Ok (first + 1)) /\
    count_calls is_less l = rounds (Z.to_nat (last - first)) /\ count_calls is_greater l = rounds (Z.to_nat (last - first)).
Proof.
  intros A B equal value values. induction fuel as [|fuel IH]; intros first last l0 no Hf Hl Hm H2; [lia|]. cbn [eff_binary_loop].
  destruct (Z.gtb_spec (last - first) 1); [|lia].
  set (half := first + (last - first) / 2). assert (Hh : first < half < last) by (unfold half; pose proof (Z.div_str_pos (last - first) 2); pose proof (Z.div_lt (last - first) 2); lia).
  destruct (zget_some _ values half ltac:(lia)) as [x Ex].
  unfold then_, pure. assert (Ea : aget values half = Ok x) by (rewrite aget_zget, Ex; reflexivity). rewrite !Ea. unfold rless at 1, no at 1. cbn [fst snd]. unfold rgreater at 1, no at 1. cbn [fst snd].  rewrite <- app_assoc. cbn [app].
  destruct (Z.eqb_spec (half + 1) last) as [Hlast|Hlast].
  - assert (E2 : last - first = 2). { destruct (Z.eq_dec (last - first) 2); auto. exfalso. unfold half in Hlast. pose proof (Z.div_mod (last - first) 2). pose proof (Z.mod_pos_bound (last - first) 2). lia. }
    exists [(Less x, Ok false); (Greater x, Ok false)]. rewrite E2. unfold half. rewrite E2. split; [reflexivity|]. split; reflexivity.
  - assert (H3 : 3 <= last - first). { destruct (Z.eq_dec (last - first) 2) as [E|]; [|lia]. exfalso. apply Hlast. unfold half. rewrite E. cbn. lia. }
    destruct (IH first (half + 1) (l0 ++ [(Less x, Ok false); (Greater x, Ok false)])) as (l & E & C1 & C2); try lia.
    exists ((Less x, Ok false) :: (Greater x, Ok false) :: l). rewrite <- app_assoc in E. split; [exact E|].
    assert (Hd : Z.to_nat (half + 1 - first) = (Z.to_nat (last - first) / 2 + 1)%nat).
    { assert (Hd : Z.to_nat ((last - first) / 2) = (Z.to_nat (last - first) / 2)%nat) by (rewrite Z2Nat.inj_div by lia; reflexivity). rewrite <- Hd. unfold half. lia. }
    unfold count_calls in *. cbn [filter fst is_less is_greater length]. rewrite C1, C2, Hd, <- rounds_exact by lia. auto.
Qed.
