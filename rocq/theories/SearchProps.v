(** C102: lookups with comparison operators of the caller's. *)

From Coq Require Import ZArith Arith Bool Lia List.
From Verif Require Import Base ExpandModel ExpandSpec ExpandProofs SearchModel SearchSpec SearchProofs.
Import ListNotations.
Local Open Scope Z_scope.

(** Whatever the operators do (they may keep state, contradict each other and throw), the three functions make the same calls
    and come to the same result.  The calls concern listed constants, an exception ends the lookup and passes through, and a
    chosen constant is one that the last answers support.  An observer of the calls changes nothing. *)
Theorem C102_justified : forall S A B (ops : operators S A B) value values s, returns_or_throws ops -> acceptable ops values ->
  exists s' log r, all_three ops value values s s' r /\ all_three (recorded_ops ops) value values (s, []) (s', log) r /\ justified values log r.
Proof.
  intros S A B ops value values s Hr Ha. destruct (expands_run _ _ _ ops value values s Hr Ha) as (s' & l & r & H1 & H2 & H3 & _). exists s', l, r. auto.
Qed.
Print Assumptions C102_justified.

(** Unless the list is known to be sorted, one question is asked about each constant in turn, up to the first that equals the
    value or whose comparison throws. *)
Theorem C102_linear : forall S A B (ops : operators S A B) value values s, returns_or_throws ops -> acceptable ops values -> ~ known_sorted ops values ->
  exists s' log r, all_three (recorded_ops ops) value values (s, []) (s', log) r /\ one_after_the_other values log r.
Proof.
  intros S A B ops value values s Hr Ha Hn. destruct (expands_run _ _ _ ops value values s Hr Ha) as (s' & l & r & H1 & H2 & H3 & _ & H4). exists s', l, r. auto.
Qed.
Print Assumptions C102_linear.

(** If it is, the number of calls is logarithmic, even if the operators contradict each other. *)
Theorem C102_binary : forall S A B (ops : operators S A B) value values s, returns_or_throws ops -> acceptable ops values -> known_sorted ops values ->
  exists s' log r, all_three (recorded_ops ops) value values (s, []) (s', log) r /\
    (count_calls is_less log <= most_probes (length values))%nat /\ (count_calls is_greater log <= count_calls is_less log)%nat /\ (count_calls is_equal log <= 1)%nat.
Proof.
  intros S A B ops value values s Hr Ha Hn. destruct (expands_run _ _ _ ops value values s Hr Ha) as (s' & l & r & H1 & H2 & H3 & H4 & _).
  destruct (H4 Hn) as (F1 & F2 & F3). exists s', l, r. auto.
Qed.
Print Assumptions C102_binary.

(** No smaller number will do: it is needed if all constants are equivalent to the value. *)
Theorem C102_binary_exact : forall A B (value : B) (values : list A) eq, (2 <= length values)%nat ->
  exists log, all_three (recorded_ops (pure_ops (Some (fun _ _ => false)) (fun _ _ => false) (fun _ _ => false) eq)) value values (tt, []) (tt, log) (Chosen 1) /\
    count_calls is_less log = most_probes (length values) /\ count_calls is_greater log = most_probes (length values).
Proof.
  intros A B value values eq Hn.
  assert (Hne : values <> []) by (destruct values; [cbn in Hn; lia|discriminate]).
  set (ops := pure_ops _ _ _ eq).
  assert (Hs : known_sorted ops values) by (exists (fun _ _ => false); split; auto; intros i x y _ _; reflexivity).
  destruct (equivalent_run A B (fun s a v => (s, Ok (eq a v))) value values (length values) 0 (Z.of_nat (length values)) []) as (l & E & C1 & C2); try lia.
  rewrite Z.sub_0_r, Nat2Z.id in C1, C2. exists l. split; [|auto].
  assert (Hrun : eff_search (recorded_ops ops) value values (tt, []) = ((tt, l), Ok (Z.of_nat 1))).
  { unfold eff_search. rewrite recorded_sorted. rewrite (proj2 (values_sorted_iff _ _ _ ops values) Hs). exact E. }
  destruct (nth_error values 1) as [x|] eqn:Ex; [|apply nth_error_None in Ex; lia].
  destruct values as [|v vs]; [congruence|]. unfold all_three, eff_expand, eff_try_expand, eff_expand_failfast, then_. rewrite !Hrun. unfold pure. rewrite (select_ok _ _ _ _ Ex). auto.
Qed.
Print Assumptions C102_binary_exact.

(** Which programs are accepted. *)
Theorem C102_acceptance : forall S A B (ops : operators S A B) value values s, returns_or_throws ops ->
  (acceptable ops values -> snd (eff_expand ops value values s) <> IllFormed /\ snd (eff_try_expand ops value values s) <> IllFormed /\
     snd (eff_expand_failfast ops value values s) <> IllFormed) /\
  (~ acceptable ops values -> snd (eff_expand ops value values s) = IllFormed /\ snd (eff_try_expand ops value values s) = IllFormed /\
     snd (eff_expand_failfast ops value values s) = IllFormed).
Proof.
  intros S A B ops value values s Hr. split; intros Ha.
  - destruct (expands_run _ _ _ ops value values s Hr Ha) as (s' & l & r & (E1 & E2 & E3) & _). rewrite E1, E2, E3. destruct r; repeat split; discriminate.
  - destruct (expands_rejected _ _ _ ops value values s Ha) as (E1 & E2 & E3). rewrite E1, E2, E3. auto.
Qed.
Print Assumptions C102_acceptance.

(** Operators without effects: these are the functions of C12 to C14. *)
Theorem C102_pure : forall A B (lt : A -> A -> bool) (less : A -> B -> bool) greater equal value values,
  let ops := pure_ops (Some lt) less greater equal in
  eff_expand ops value values tt = (tt, expand_other true lt less greater equal value values) /\
  eff_try_expand ops value values tt = (tt, try_expand_other true lt less greater equal value values) /\
  eff_expand_failfast ops value values tt = (tt, expand_failfast_other true lt less greater equal value values).
Proof. intros A B lt less greater equal value values. exact (pure_expands A B (Some lt) less greater equal value values). Qed.
Print Assumptions C102_pure.

(** Keys with a payload, ordered by the key. *)
Definition by_key (a b : Z * Z) : bool := fst a <? fst b.
Definition same (a b : Z * Z) : bool := (fst a =? fst b) && (snd a =? snd b).
Definition keyed : operators unit (Z * Z) (Z * Z) := pure_ops (Some by_key) by_key by_key same.

Lemma keyed_fine : returns_or_throws keyed.
Proof. repeat split; intros f s a v E; injection E as <-; exact I. Qed.

(** "A lookup chooses a constant only if it equals the value": with a binary search the operator == need not be asked.  The
    value (2, 9) is none of the constants, and still the second is chosen. *)
Theorem C102_unequal_refuted :
  ~ (forall (value : Z * Z) values k, eff_expand keyed value values tt = (tt, Ok k) -> exists x, nth_error values k = Some x /\ same x value = true).
Proof.
  intros H. destruct (H (2, 9) [(1, 1); (2, 1); (2, 2)] 1%nat eq_refl) as (x & E & S). injection E as <-. discriminate.
Qed.
Print Assumptions C102_unequal_refuted.

(** "A value that equals one of the constants is found": (2, 2) is the last constant and is reported as missing. *)
Theorem C102_listed_refuted :
  ~ (forall (value : Z * Z) values x, In x values -> same x value = true -> exists k, eff_try_expand keyed value values tt = (tt, Ok (Some k))).
Proof.
  intros H. destruct (H (2, 2) [(0, 0); (1, 0); (2, 1); (2, 2)] (2, 2)) as (k & E); [cbn; auto|reflexivity|]. vm_compute in E. discriminate.
Qed.
Print Assumptions C102_listed_refuted.

(** "Whether a program is accepted depends on the types only": without an order between constants and values, a list is
    accepted if it is not sorted and rejected if it is. *)
Definition half_ordered : operators unit Z Z := mk_operators (Some Z.ltb) None None (Some (fun s a v => (s, Ok (a =? v)))).
Theorem C102_types_refuted :
  ~ (forall (value : Z) values values', length values = length values' ->
       (snd (eff_expand half_ordered value values tt) = IllFormed <-> snd (eff_expand half_ordered value values' tt) = IllFormed)).
Proof. intros H. destruct (H 2 [1; 2] [2; 1] eq_refl) as [H1 _]. specialize (H1 eq_refl). discriminate. Qed.
Print Assumptions C102_types_refuted.

(** Operators that throw at the second call, in a list that is not sorted; and a search among seven sorted constants. *)
Definition counting : operators nat Z Z :=
  mk_operators (Some Z.ltb)
    (Some (fun n a v => (S n, Ok (a <? v)))) (Some (fun n v a => (S n, Ok (v <? a))))
    (Some (fun n a v => (S n, if (n =? 1)%nat then Throw (UserException 7) else Ok (a =? v)))).
Example C102_example_throws :
  eff_expand (recorded_ops counting) 5 [9; 3; 5] (0%nat, []) = ((2%nat, [(Equal 9, Ok false); (Equal 3, Throw (UserException 7))]), Throw (UserException 7)).
Proof. reflexivity. Qed.
Example C102_example_binary :
  eff_try_expand (recorded_ops keyed) (5, 0) [(1, 0); (2, 0); (3, 0); (4, 0); (5, 0); (6, 0); (7, 0)] (tt, [])
  = ((tt, [(Less (4, 0), Ok true); (Less (6, 0), Ok false); (Greater (6, 0), Ok true); (Equal (5, 0), Ok true)]), Ok (Some 4%nat)).
Proof. reflexivity. Qed.
Example C102_example_fine : returns_or_throws counting /\ acceptable counting [9; 3; 5] /\ ~ known_sorted counting [9; 3; 5] /\
  acceptable keyed [(1, 0); (2, 0)] /\ known_sorted keyed [(1, 0); (2, 0)] /\ ~ acceptable half_ordered [1; 2].
Proof.
  assert (Hn : ~ known_sorted counting [9; 3; 5]) by (intros (lt & E & H); injection E as <-; specialize (H 0%nat 9 3 eq_refl eq_refl); discriminate).
  split; [|split; [|split; [|split; [|split]]]]; auto.
  - repeat split; intros f s a v E; injection E as <-; cbn; auto. destruct (s =? 1)%nat; exact I.
  - repeat split; discriminate.
  - repeat split; discriminate.
  - exists by_key. split; auto. intros [|[|i]] x y E1 E2; try discriminate. injection E1 as <-. injection E2 as <-. reflexivity.
  - intros (_ & _ & H). destruct H as [H _]; [|apply H; reflexivity]. exists Z.ltb. split; auto. intros [|[|i]] x y E1 E2; try discriminate. injection E1 as <-. injection E2 as <-. reflexivity.
Qed.
