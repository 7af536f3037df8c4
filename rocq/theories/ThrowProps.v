(** C95, C96: exceptions thrown by the caller's types, and zip iterators under exceptions. *)

From Coq Require Import ZArith Arith Bool Lia Permutation List.
From Verif Require Import Base TupleModel TupleSpec ThrowModel ThrowSpec ThrowProofs.
Import ListNotations.

(** * Tuple-like types whose get<I>() throws *)
(** The tuple algorithms perform the calls for all indices in order; each reads the elements of its row once, in some order.  If reading an
    element throws, the program is terminated at that point: [row_call]. *)
Theorem C95_template_for : forall (S V R : Type) (user_get : S -> nat -> nat -> S * outcome V) order (func : S -> list (element V) -> S * outcome R)
    l n rows s s' o, orders order -> sizes l n -> all_rows l n rows -> calls (row_call user_get order func) s rows s' o ->
  template_for user_get order func l s = (s', do _ <- o; Ok tt).
Proof. intros. eapply template_for_spec; eassumption. Qed.
Print Assumptions C95_template_for.

Theorem C95_array_transform : forall (S V R : Type) (user_get : S -> nat -> nat -> S * outcome V) order (func : S -> list (element V) -> S * outcome R)
    l n rows s s' o, orders order -> sizes l n -> all_rows l n rows -> calls (row_call user_get order func) s rows s' o ->
  array_transform user_get order func l s = (s', o).
Proof. intros. eapply array_transform_spec; eassumption. Qed.
Print Assumptions C95_array_transform.

(** tuple_transform() may also perform the calls in any order. *)
Theorem C95_tuple_transform : forall (S V R : Type) (user_get : S -> nat -> nat -> S * outcome V) order (func : S -> list (element V) -> S * outcome R)
    l n rows order' picked s s' o, orders order -> sizes l n -> all_rows l n rows -> Permutation order' (seq 0 n) ->
  Forall2 (fun i row => nth_error rows i = Some row) order' picked -> calls (row_call user_get order func) s picked s' o ->
  match o with
  | Ok rs => exists result, tuple_transform user_get order' order func l s = (s', Ok result) /\ length result = n /\
      (forall k i, nth_error order' k = Some i -> nth_error result i = nth_error rs k)
  | _ => tuple_transform user_get order' order func l s = (s', o)
  end.
Proof. intros. eapply tuple_transform_spec; eassumption. Qed.
Print Assumptions C95_tuple_transform.

Theorem C95_template_transform_reduce : forall (S V A B : Type) (user_get : S -> nat -> nat -> S * outcome V) order (init : A)
    (reduce : S -> A -> B -> S * outcome A) (transform : S -> list (element V) -> S * outcome B) l n rows s s' o,
  orders order -> sizes l n -> all_rows l n rows -> folds reduce (row_call user_get order transform) s init rows s' o ->
  template_transform_reduce user_get order init reduce transform l s = (s', o).
Proof. intros. eapply reduce_spec; eassumption. Qed.
Print Assumptions C95_template_transform_reduce.

Theorem C95_template_all_of : forall (S V : Type) (user_get : S -> nat -> nat -> S * outcome V) order (pred : S -> list (element V) -> S * outcome bool)
    l n rows s s' o, orders order -> sizes l n -> all_rows l n rows -> conjoins (row_call user_get order pred) s rows s' o ->
  template_all_of user_get order pred l s = (s', o).
Proof. intros. eapply all_of_spec; eassumption. Qed.
Print Assumptions C95_template_all_of.

(** Every call is one of those. *)
Theorem C95_calls_described : forall (S V R : Type) (user_get : S -> nat -> nat -> S * outcome V) order (func : S -> list (element V) -> S * outcome R) row s,
  orders order -> returns_or_throws user_get -> exists s' o, row_call user_get order func s row s' o.
Proof. intros. apply row_call_exists; assumption. Qed.
Print Assumptions C95_calls_described.

(** An exception that reaches the caller was thrown by the function. *)
Theorem C95_only_from_functions : forall (S V R : Type) (user_get : S -> nat -> nat -> S * outcome V) order (func : S -> list (element V) -> S * outcome R)
    l n s s' e, orders order -> returns_or_throws user_get -> sizes l n ->
  (template_for user_get order func l s = (s', Throw e) -> exists s1 xs, func s1 xs = (s', Throw e)) /\
  (array_transform user_get order func l s = (s', Throw e) -> exists s1 xs, func s1 xs = (s', Throw e)).
Proof.
  intros S V R user_get order func l n s s' e Hord Hrt Hs. split; intro H;
    [eapply template_for_throws; eassumption|eapply array_transform_throws; eassumption].
Qed.
Print Assumptions C95_only_from_functions.

(** A program: reading is logged; element 1 of tuple 1 throws. *)
Definition logged_get (s : list (nat * nat)) (a i : nat) : list (nat * nat) * outcome nat :=
  (s ++ [(a, i)], if (Nat.eqb a 1 && Nat.eqb i 1)%bool then Throw (UserException 7) else Ok (10 * a + i)).
Definition right_to_left (row : list (element (nat * nat))) : list nat := rev (seq 0 (length row)).
Definition logged_call (s : list (nat * nat)) (xs : list (element nat)) : list (nat * nat) * outcome nat := (s ++ [(99, length xs)], Ok (length xs)).

Example C95_right_to_left : orders right_to_left.
Proof. intro row. apply Permutation_sym, Permutation_rev. Qed.
Example C95_logged : returns_or_throws logged_get.
Proof. intros s a i. exists (s ++ [(a, i)]). unfold logged_get. destruct (Nat.eqb a 1 && Nat.eqb i 1)%bool; eexists; (split; [reflexivity|]); eauto. Qed.
Example C95_sizes_example : sizes [TTuple 3; TTuple 3; TRangeIndex] 3.
Proof. split; [left; reflexivity|]. intros m [H|[H|[H|[]]]]; congruence. Qed.

(** The second row is reached; its elements are read from right to left until the one that throws; the program ends. *)
Example C95_example : template_for logged_get right_to_left logged_call [TTuple 3; TTuple 3; TRangeIndex] [] = ([(1, 0); (0, 0); (99, 3); (1, 1)], Contract).
Proof. vm_compute. reflexivity. Qed.
Example C95_rows_example : calls (row_call logged_get right_to_left logged_call) []
  [[Elem (0, 0); Elem (1, 0); Index 0]; [Elem (0, 1); Elem (1, 1); Index 1]; [Elem (0, 2); Elem (1, 2); Index 2]] [(1, 0); (0, 0); (99, 3); (1, 1)] Contract.
Proof.
  eapply calls_contract_later.
  - eapply row_calls with (l := [(2, Index 0); (1, Elem 10); (0, Elem 0)]) (xs := [Elem 0; Elem 10; Index 0]).
    + repeat (econstructor; [reflexivity| |]); [constructor|constructor; reflexivity|constructor; reflexivity|constructor].
    + split; [reflexivity|]. intros p x [H|[H|[H|[]]]]; injection H as <- <-; reflexivity.
    + reflexivity.
  - apply calls_contract. eapply row_terminates with (ps := [2]) (p := 1) (qs := [0]); [reflexivity| |reflexivity|].
    + econstructor; [reflexivity|constructor|constructor].
    + apply reads_throws with (e := UserException 7). reflexivity.
Qed.
Example C95_picked_example : tuple_transform logged_get [2; 0; 1] right_to_left logged_call [TTuple 3; TTuple 3] [] =
  ([(1, 2); (0, 2); (99, 2); (1, 0); (0, 0); (99, 2); (1, 1)], Contract).
Proof. vm_compute. reflexivity. Qed.
Example C95_reduce_example :
  template_transform_reduce logged_get right_to_left 0 (fun s a b => (s, Ok (a + b))) logged_call [TTuple 3; TTuple 3] [] = ([(1, 0); (0, 0); (99, 2); (1, 1)], Contract) /\
  template_transform_reduce logged_get right_to_left 5 (fun s a b => (s, Ok (a + b))) logged_call [TTuple 3; TRangeIndex] [] = ([(0, 0); (99, 2); (0, 1); (99, 2); (0, 2); (99, 2)], Ok 11).
Proof. vm_compute. split; reflexivity. Qed.
Example C95_all_of_example :
  template_all_of logged_get right_to_left (fun s xs => (s, Ok true)) [TTuple 3; TTuple 3] [] = ([(1, 0); (0, 0); (1, 1)], Contract) /\
  template_all_of logged_get right_to_left (fun s xs => (s, Ok false)) [TTuple 3; TTuple 3] [] = ([(1, 0); (0, 0)], Ok false).
Proof. vm_compute. split; reflexivity. Qed.

(** "Exceptions thrown by the caller's get<I>() reach the caller" is false of all of these algorithms. *)
Definition throwing_get (s : unit) (a i : nat) : unit * outcome nat := (s, Throw (UserException 3)).
Definition left_to_right (row : list (element (nat * nat))) : list nat := seq 0 (length row).
Theorem C95_get_propagates_refuted : exists (l : list targ),
  sizes l 2 /\ orders left_to_right /\ (forall s a i, throwing_get s a i = (s, Throw (UserException 3))) /\
  template_for throwing_get left_to_right (fun s xs => (s, Ok tt)) l tt = (tt, Contract) /\
  array_transform throwing_get left_to_right (fun s xs => (s, Ok tt)) l tt = (tt, Contract) /\
  tuple_transform throwing_get [0; 1] left_to_right (fun s xs => (s, Ok tt)) l tt = (tt, Contract) /\
  template_transform_reduce throwing_get left_to_right tt (fun s _ _ => (s, Ok tt)) (fun s xs => (s, Ok tt)) l tt = (tt, Contract) /\
  template_all_of throwing_get left_to_right (fun s xs => (s, Ok true)) l tt = (tt, Contract).
Proof.
  exists [TTuple 2]. split; [split; [left; reflexivity|]; intros m [H|[]]; congruence|]. split; [intro row; apply Permutation_refl|].
  split; [reflexivity|]. vm_compute. repeat split; reflexivity.
Qed.
Print Assumptions C95_get_propagates_refuted.

(** apply(), tuple_cat() and array_cat() let exceptions pass; elements after the one that throws are not read. *)
Theorem C95_apply : forall (S V R : Type) (user_get : S -> nat -> nat -> S * outcome V) order (func : S -> list V -> S * outcome R) n s,
  Permutation order (seq 0 n) ->
  (forall l s1 xs, all_read (reads_directly user_get) (positions 0 [n]) s order l s1 -> values n l xs -> apply user_get order func n s = func s1 xs) /\
  (forall ps p qs l s1 e s2 ex, order = ps ++ p :: qs -> all_read (reads_directly user_get) (positions 0 [n]) s ps l s1 ->
     nth_error (positions 0 [n]) p = Some e -> reads_directly user_get s1 e s2 (Throw ex) -> apply user_get order func n s = (s2, Throw ex)).
Proof. intros. apply apply_spec. assumption. Qed.
Print Assumptions C95_apply.
Example C95_apply_example : apply (fun s a i => (s ++ [i], if Nat.eqb i 1 then Throw (UserException 7) else Ok i)) [2; 1; 0] (fun s xs => (s, Ok xs)) 3 [] =
    ([2; 1], Throw (UserException 7)) /\
  apply (fun s a i => (s ++ [i], Ok (10 + i))) [2; 1; 0] (fun s xs => (s, Ok xs)) 3 [] = ([2; 1; 0], Ok [10; 11; 12]).
Proof. vm_compute. split; reflexivity. Qed.

Theorem C95_concatenation : forall (S V : Type) (user_get : S -> nat -> nat -> S * outcome V) szs s,
  (Z.of_nat (length (positions 0 szs)) < 2 ^ 64)%Z ->
  (forall l s1 xs, all_read (reads_directly user_get) (positions 0 szs) s (seq 0 (length (positions 0 szs))) l s1 ->
     values (length (positions 0 szs)) l xs -> tuple_cat user_get szs s = (s1, Ok xs)) /\
  (forall p l s1 e s2 ex, all_read (reads_directly user_get) (positions 0 szs) s (seq 0 p) l s1 ->
     nth_error (positions 0 szs) p = Some e -> reads_directly user_get s1 e s2 (Throw ex) -> tuple_cat user_get szs s = (s2, Throw ex)).
Proof. intros. apply tuple_cat_spec. assumption. Qed.
Print Assumptions C95_concatenation.
Example C95_concatenation_example : tuple_cat logged_get [2; 0; 3] [] = ([(0, 0); (0, 1); (2, 0); (2, 1); (2, 2)], Ok [0; 1; 20; 21; 22]) /\
  tuple_cat logged_get [2; 3] [] = ([(0, 0); (0, 1); (1, 0); (1, 1)], Throw (UserException 7)).
Proof. vm_compute. split; reflexivity. Qed.

(** * range<> *)
(** The operations are performed once each, the size first; out of bounds, nothing is read. *)
Theorem C95_range : forall (S V It : Type) (diff : S -> It -> It -> S * outcome Z) (subscript : S -> It -> Z -> S * outcome V)
    first last i s s1 n,
  diff s last first = (s1, Ok n) ->
  range_size diff first last s = (s1, Ok n) /\
  ((0 <= i < n)%Z -> forall s2 v, subscript s1 first i = (s2, Ok v) -> range_at diff subscript first last i s = (s2, Ok v)) /\
  (~ (0 <= i < n)%Z -> range_at diff subscript first last i s = (s1, Contract)).
Proof.
  intros S V It diff subscript first last i s s1 n H. unfold range_size, range_at. rewrite H. split; [reflexivity|].
  destruct (Z.leb_spec 0 i), (Z.ltb_spec i n); cbn [andb]; split; intro Hi; try lia; try reflexivity.
  intros s2 v Hv. rewrite Hv. reflexivity.
Qed.
Print Assumptions C95_range.

Theorem C95_static_range : forall (S V It : Type) (subscript : S -> It -> Z -> S * outcome V) (plus : S -> It -> Z -> S * outcome It) first extent s,
  (forall s1 e, plus s first extent = (s1, Ok e) -> static_range_end plus extent first s = (s1, Ok e)) /\
  (forall i s1 v, (0 <= i < extent)%Z -> subscript s first i = (s1, Ok v) -> static_range_at subscript extent first i s = (s1, Ok v)) /\
  (forall i, ~ (0 <= i < extent)%Z -> static_range_at subscript extent first i s = (s, Contract)) /\
  (forall I s1 v, (Z.of_nat I < extent)%Z -> subscript s first (Z.of_nat I) = (s1, Ok v) -> static_range_get subscript I extent first s = (s1, Ok v)) /\
  (forall I, (extent <= Z.of_nat I)%Z -> static_range_get subscript I extent first s = (s, IllFormed)).
Proof.
  intros S V It subscript plus first extent s. unfold static_range_end, static_range_get, static_range_at.
  split; [intros s1 e H; rewrite H; reflexivity|]. split; [|split; [|split]].
  - intros i s1 v Hi H. rewrite H. destruct (Z.leb_spec 0 i), (Z.ltb_spec i extent); cbn [andb]; try lia; reflexivity.
  - intros i Hi. destruct (Z.leb_spec 0 i), (Z.ltb_spec i extent); cbn [andb]; try lia; reflexivity.
  - intros I s1 v Hi H. rewrite H. destruct (Z.leb_spec 0 (Z.of_nat I)), (Z.ltb_spec (Z.of_nat I) extent); cbn [andb]; try lia; reflexivity.
  - intros I Hi. destruct (Z.ltb_spec (Z.of_nat I) extent); [lia|reflexivity].
Qed.
Print Assumptions C95_static_range.

(** Exceptions of iterators never reach the caller of a range: the program is terminated. *)
Theorem C95_range_terminates : forall (S V It : Type) (diff : S -> It -> It -> S * outcome Z) (subscript : S -> It -> Z -> S * outcome V)
    (plus : S -> It -> Z -> S * outcome It) first last i s s1 e,
  (diff s last first = (s1, Throw e) -> range_size diff first last s = (s1, Contract) /\ range_at diff subscript first last i s = (s1, Contract)) /\
  (forall n s2, diff s last first = (s1, Ok n) -> (0 <= i < n)%Z -> subscript s1 first i = (s2, Throw e) ->
     range_at diff subscript first last i s = (s2, Contract)) /\
  (forall extent, plus s first extent = (s1, Throw e) -> static_range_end plus extent first s = (s1, Contract)) /\
  (forall extent, (0 <= i < extent)%Z -> subscript s first i = (s1, Throw e) -> static_range_at subscript extent first i s = (s1, Contract)) /\
  (forall extent I, (Z.of_nat I < extent)%Z -> subscript s first (Z.of_nat I) = (s1, Throw e) -> static_range_get subscript I extent first s = (s1, Contract)).
Proof.
  intros S V It diff subscript plus first last i s s1 e. unfold range_size, range_at, static_range_end, static_range_get, static_range_at.
  split; [intro H; rewrite H; split; reflexivity|]. split; [|split; [|split]].
  - intros n s2 H Hi Hs. rewrite H, Hs. destruct (Z.leb_spec 0 i), (Z.ltb_spec i n); cbn [andb]; try lia; reflexivity.
  - intros extent H. rewrite H. reflexivity.
  - intros extent Hi H. rewrite H. destruct (Z.leb_spec 0 i), (Z.ltb_spec i extent); cbn [andb]; try lia; reflexivity.
  - intros extent I Hi H. rewrite H. destruct (Z.leb_spec 0 (Z.of_nat I)), (Z.ltb_spec (Z.of_nat I) extent); cbn [andb]; try lia; reflexivity.
Qed.
Print Assumptions C95_range_terminates.

Theorem C95_range_propagates_refuted : exists (diff : unit -> nat -> nat -> unit * outcome Z) (subscript : unit -> nat -> Z -> unit * outcome nat),
  subscript tt 0 1%Z = (tt, Throw (UserException 1)) /\ diff tt 2 0 = (tt, Ok 2%Z) /\
  range_at diff subscript 0 2 1 tt = (tt, Contract) /\ static_range_get subscript 1 2 0 tt = (tt, Contract).
Proof.
  exists (fun s b a => (s, Ok (Z.of_nat b - Z.of_nat a)%Z)), (fun s _ _ => (s, Throw (UserException 1))). vm_compute. repeat split; reflexivity.
Qed.
Print Assumptions C95_range_propagates_refuted.

Example C95_range_example :
  range_at (fun s b a => (s ++ [0], Ok (Z.of_nat b - Z.of_nat a)%Z)) (fun s a i => (s ++ [1], Ok (Z.of_nat a + i)%Z)) 3 9 5 [] = ([0; 1], Ok 8%Z) /\
  range_at (fun s b a => (s ++ [0], Ok (Z.of_nat b - Z.of_nat a)%Z)) (fun s a i => (s ++ [1], Ok (Z.of_nat a + i)%Z)) 3 9 6 [] = ([0], Contract).
Proof. vm_compute. split; reflexivity. Qed.

(** * Zip iterators *)
Section Zip.
  Local Open Scope Z_scope.

  (** Whatever a client does with a zip iterator, as long as nothing throws, all components have taken the same steps, and every iterator has seen
      exactly the operations of the client, each once and before the next. *)
  Theorem C96_in_step : forall env cs kinds i z h h' z', well_behaved env -> at_step kinds i z -> do_steps env cs z h = (h', z', Ok tt) ->
    at_step kinds (expected_position i cs) z' /\ h' = h ++ expected_history kinds cs.
  Proof. intros env cs kinds i z h h' z' Hw. apply do_steps_ok. exact Hw. Qed.

  (** Dereferencing gives what the iterators give at their position, and the elements and indices at that position. *)
  Theorem C96_items : forall env kinds i z h h' z' xs, well_behaved env -> at_step kinds i z -> deref env z h = (h', z', Ok xs) ->
    z' = z /\ length xs = length kinds /\
    forall j q, nth_error kinds j = Some q ->
      match q with
      | KIter b => exists x pos, env (h ++ map (fun c => (c, ODeref)) (iterators (firstn j kinds))) j ODeref (b + i) = (pos, Ok x) /\
          nth_error xs j = Some (IAnswer x)
      | KData => nth_error xs j = Some (IElem j i)
      | KIndex => nth_error xs j = Some (IIndex i)
      end.
  Proof.
    intros env kinds i z h h' z' xs Hw Hz H. apply at_step_leaves in Hz. subst z. unfold deref in H. cbn [fst snd] in H.
    destruct (deref_leaves env 0 ODeref i 0 (map (leaf_of i) kinds) h) as [[h1 ls] o] eqn:E. injection H as <- <- ->.
    destruct (deref_leaves_ok env Hw ODeref eq_refl _ _ _ _ _ _ _ _ E) as [-> [_ [L Hx]]]. split; [reflexivity|]. split; [exact L|].
    intros j q Hq. specialize (Hx j q Hq). cbn [plus] in Hx. rewrite <- iterators_from, Z.add_0_r in Hx. exact Hx.
  Qed.

  Theorem C96_items_at : forall env d kinds i z h h' z' xs, well_behaved env -> at_step kinds i z -> subscript_at env d z h = (h', z', Ok xs) ->
    z' = z /\ length xs = length kinds /\
    forall j q, nth_error kinds j = Some q ->
      match q with
      | KIter b => exists x pos, env (h ++ map (fun c => (c, OAt d)) (iterators (firstn j kinds))) j (OAt d) (b + i) = (pos, Ok x) /\
          nth_error xs j = Some (IAnswer x)
      | KData => nth_error xs j = Some (IElem j (i + d))
      | KIndex => nth_error xs j = Some (IIndex (i + d))
      end.
  Proof.
    intros env d kinds i z h h' z' xs Hw Hz H. apply at_step_leaves in Hz. subst z. unfold subscript_at in H. cbn [fst snd] in H.
    destruct (deref_leaves env 0 (OAt d) i d (map (leaf_of i) kinds) h) as [[h1 ls] o] eqn:E. injection H as <- <- ->.
    destruct (deref_leaves_ok env Hw (OAt d) eq_refl _ _ _ _ _ _ _ _ E) as [-> [_ [L Hx]]]. split; [reflexivity|]. split; [exact L|].
    intros j q Hq. specialize (Hx j q Hq). cbn [plus] in Hx. rewrite <- iterators_from in Hx. exact Hx.
  Qed.

  (** Postfix operators give the old iterator; + gives a moved copy. *)
  Theorem C96_copies : forall env kinds i z h, well_behaved env -> at_step kinds i z ->
    (forall h' z' c, post env (pre_inc env) z h = (h', z', Ok c) -> c = z /\ at_step kinds (i + 1) z') /\
    (forall h' z' c, post env (pre_dec env) z h = (h', z', Ok c) -> c = z /\ at_step kinds (i - 1) z') /\
    (forall d h' c, plus_iterator env d z h = (h', Ok c) -> at_step kinds (i + d) c).
  Proof.
    intros env kinds i z h Hw Hz. split; [|split].
    - intros h' z' c H. destruct (post_ok env Hw OInc 1 _ kinds i z h h' z' c eq_refl eq_refl Hz H) as [-> [Hz' _]]. split; [reflexivity|exact Hz'].
    - intros h' z' c H. destruct (post_ok env Hw ODec (-1) _ kinds i z h h' z' c eq_refl eq_refl Hz H) as [-> [Hz' _]]. split; [reflexivity|exact Hz'].
    - intros d h' c H. unfold plus_iterator in H. destruct (copy env z h) as [h1 [c1| | | | |]] eqn:E; try discriminate.
      destruct (copy_ok env Hw _ _ _ _ _ _ Hz E) as [-> ->]. unfold add_assign in H.
      destruct (move_by env (OAdd d) d z (h ++ map (fun k => (k, OCopy)) (iterators kinds))) as [[h2 z2] o] eqn:E2. destruct o as [[]| | | | |]; try discriminate.
      injection H as <- <-. apply (move_by_ok env Hw (OAdd d) d _ _ _ _ _ _ eq_refl Hz E2).
  Qed.

  (** Comparisons of iterators in step are those of each iterator component. *)
  Theorem C96_comparisons : forall kinds i1 i2 z1 z2, at_step kinds i1 z1 -> at_step kinds i2 z2 ->
    distance z1 z2 = i1 - i2 /\
    forall k p1 p2, nth_error (fst z1) k = Some (LIter p1) -> nth_error (fst z2) k = Some (LIter p2) ->
      (equal z1 z2 = true <-> p1 = p2) /\ (less z1 z2 = true <-> p1 < p2) /\ distance z1 z2 = p1 - p2.
  Proof.
    intros kinds i1 i2 z1 z2 [<- E1] [<- E2]. split; [reflexivity|]. intros k p1 p2 H1 H2. rewrite E1, nth_error_map in H1. rewrite E2, nth_error_map in H2.
    destruct (nth_error kinds k) as [[b| |]|]; try discriminate. injection H1 as <-. injection H2 as <-.
    unfold equal, less, distance. rewrite Z.eqb_eq, Z.ltb_lt. lia.
  Qed.

  (** If moving a component ends in an exception, the components before it have been moved and those after it have not, and the iterator still counts
      as unmoved; the exception reaches the caller. *)
  Theorem C96_exception : forall env c op kinds i z h h' z' o, well_behaved env -> at_step kinds i z -> operations c = [op] ->
    (c = SInc \/ c = SDec \/ (exists d, c = SAdd d) \/ (exists d, c = SSub d)) ->
    do_step env c z h = (h', z', o) -> o <> Ok tt ->
    exists pre b post pos o1, kinds = pre ++ KIter b :: post /\
      env (h ++ map (fun k => (k, op)) (iterators pre)) (length pre) op (b + i) = (pos, o1) /\ ends_with o1 o /\
      h' = h ++ map (fun k => (k, op)) (iterators pre ++ [length pre]) /\
      snd z' = i /\
      (forall zp, at_step pre (i + moves_by op) zp -> forall zq, at_step post i zq -> fst z' = fst zp ++ LIter pos :: fst zq).
  Proof.
    intros env c op kinds i z h h' z' o Hw Hz Hop Hc H Ho.
    assert (Hm : move_by env op (moves_by op) z h = (h', z', o)).
    { destruct Hc as [->|[->|[[d ->]|[d ->]]]]; cbn in Hop; injection Hop as <-; exact H. }
    destruct (move_by_fails env Hw op (moves_by op) kinds i z h h' z' o eq_refl Hz Hm Ho) as [pre [b [post [pos [o1 [-> [Ee [Hend [-> [Hs Hf]]]]]]]]]].
    exists pre, b, post, pos, o1. split; [reflexivity|]. split; [exact Ee|]. split; [exact Hend|]. split; [reflexivity|]. split; [exact Hs|].
    intros zp Hp zq Hq. apply at_step_leaves in Hp, Hq. subst zp zq. exact Hf.
  Qed.

  (** With a single iterator that is unchanged by an operation that throws, so is the zip iterator. *)
  Theorem C96_single_iterator : forall env c kinds b k i z h h' z' o, well_behaved env -> at_step kinds i z ->
    iterators kinds = [k] -> nth_error kinds k = Some (KIter b) ->
    (forall h k op pos pos' o, env h k op pos = (pos', o) -> (forall x, o <> Ok x) -> pos' = pos) ->
    (c = SInc \/ c = SDec \/ (exists d, c = SAdd d) \/ (exists d, c = SSub d)) ->
    do_step env c z h = (h', z', o) -> o <> Ok tt -> z' = z.
  Proof.
    intros env c kinds b k i z h h' z' o Hw Hz Hk Hb Hs Hc H Ho.
    assert (Hm : exists op, move_by env op (moves_by op) z h = (h', z', o)).
    { destruct Hc as [->|[->|[[d ->]|[d ->]]]]; [exists OInc|exists ODec|exists (OAdd d)|exists (OAdd (- d))]; exact H. }
    destruct Hm as [op Hm].
    destruct (move_by_fails env Hw op (moves_by op) kinds i z h h' z' o eq_refl Hz Hm Ho) as [pre [b' [post [pos [o1 [-> [Ee [Hend [-> [Hsn Hf]]]]]]]]]].
    apply at_step_leaves in Hz. subst z. destruct z' as [ls j]. cbn [fst snd] in Hsn, Hf. subst ls j.
    assert (Hpre : forall q, In q pre -> q = KData \/ q = KIndex).
    { rewrite iterators_from in Hk. clear -Hk.
      assert (G : forall pre n, exists l, iters_from n (pre ++ KIter b' :: post) = iters_from n pre ++ (n + length pre)%nat :: l).
      { clear. induction pre as [|q pre IH]; intro n; [exists (iters_from (S n) post); cbn; rewrite Nat.add_0_r; reflexivity|].
        destruct (IH (S n)) as [l El]. exists l. cbn [app]. destruct q; cbn [iters_from]; rewrite El; cbn [length app]; rewrite Nat.add_succ_r; reflexivity. }
      destruct (G pre 0%nat) as [l El]. rewrite El in Hk. clear G El.
      assert (Hnil : iters_from 0 pre = []) by (destruct (iters_from 0 pre) as [|x [|y m]]; [reflexivity|discriminate|discriminate]).
      clear Hk. revert Hnil. generalize 0%nat. induction pre as [|q pre IH]; intros n Hnil p Hp; [destruct Hp|].
      destruct Hp as [<-|Hp].
      - destruct q; [discriminate Hnil|left|right]; reflexivity.
      - destruct q; [discriminate Hnil| |]; cbn in Hnil; apply (IH (S n)); assumption. }
    f_equal. rewrite map_app. cbn [map leaf_of]. f_equal.
    - apply map_ext_in. intros q Hq. destruct (Hpre q Hq) as [-> | ->]; reflexivity.
    - f_equal. f_equal. apply (Hs _ _ _ _ _ _ Ee). intros x ->. destruct Hend.
  Qed.

  (** Examples: two iterators and an index. *)
  Definition quiet (h : history) (k : nat) (op : zop) (pos : Z) : Z * outcome Z :=
    (pos + moves_by op, Ok (100 * Z.of_nat k + pos)).
  Example C96_quiet : well_behaved quiet.
  Proof. intros h k op pos pos' x H. injection H as <- _. reflexivity. Qed.
  Example C96_in_step_example :
    do_steps quiet [SInc; SAdd 3; SDeref; SPostDec; SSub 1] ([LIter 10; LIndex; LIter 20], 0) [] =
      ([(0%nat, OInc); (2%nat, OInc); (0%nat, OAdd 3); (2%nat, OAdd 3); (0%nat, ODeref); (2%nat, ODeref); (0%nat, OCopy); (2%nat, OCopy); (0%nat, ODec); (2%nat, ODec);
        (0%nat, OAdd (-1)); (2%nat, OAdd (-1))], ([LIter 12; LIndex; LIter 22], 2), Ok tt) /\
    at_step [KIter 10; KIndex; KIter 20] 0 ([LIter 10; LIndex; LIter 20], 0) /\
    deref quiet ([LIter 12; LIndex; LIter 22; LData], 2) [] = ([(0%nat, ODeref); (2%nat, ODeref)], ([LIter 12; LIndex; LIter 22; LData], 2),
      Ok [IAnswer 12; IIndex 2; IAnswer 222; IElem 3 2]).
  Proof. vm_compute. repeat split; reflexivity. Qed.

  (** The second iterator throws when incremented from position 20. *)
  Definition fails_once (h : history) (k : nat) (op : zop) (pos : Z) : Z * outcome Z :=
    match op with OInc => if pos =? 20 then (pos, Throw (UserException 4)) else (pos + 1, Ok 0) | _ => (pos + moves_by op, Ok pos) end.
  Example C96_fails_once : well_behaved fails_once.
  Proof.
    intros h k op pos pos' x H. unfold fails_once in H. destruct op; try (injection H as <- _; reflexivity).
    destruct (pos =? 20); [discriminate|]. injection H as <- _. reflexivity.
  Qed.
  Example C96_exception_example : do_step fails_once SInc ([LIter 10; LIndex; LIter 20; LIter 30], 0) [] =
    ([(0%nat, OInc); (2%nat, OInc)], ([LIter 11; LIndex; LIter 20; LIter 30], 0), Throw (UserException 4)).
  Proof. vm_compute. reflexivity. Qed.
  Example C96_single_example : do_step fails_once SInc ([LData; LIter 20; LIndex], 5) [] = ([(1%nat, OInc)], ([LData; LIter 20; LIndex], 5), Throw (UserException 4)) /\
    iterators [KData; KIter 15; KIndex] = [1%nat].
  Proof. vm_compute. split; reflexivity. Qed.

  (** "An iterator whose operation threw can still be used" is false: its components then refer to different positions, it compares equal to a copy made
      before although dereferencing gives something else, and no number of further steps brings the components back together. *)
  Theorem C96_usable_after_exception_refuted : exists env kinds z h z',
    well_behaved env /\ at_step kinds 0 z /\ (forall h k op pos pos' o, env h k op pos = (pos', o) -> (forall x, o <> Ok x) -> pos' = pos) /\
    do_step env SInc z [] = (h, z', Throw (UserException 4)) /\
    (forall i, ~ at_step kinds i z') /\ equal z z' = true /\
    (exists h1 h2, deref env z h = (h1, z, Ok [IAnswer 10; IAnswer 20]) /\ deref env z' h = (h2, z', Ok [IAnswer 11; IAnswer 20])) /\
    (forall d h1 h2 z2, do_step env (SAdd d) z' h1 = (h2, z2, Ok tt) -> forall i, ~ at_step kinds i z2).
  Proof.
    exists fails_once, [KIter 10; KIter 20], ([LIter 10; LIter 20], 0), [(0%nat, OInc); (1%nat, OInc)], ([LIter 11; LIter 20], 0).
    split; [apply C96_fails_once|]. split; [split; reflexivity|]. split.
    { intros h k op pos pos' o H Ho. unfold fails_once in H. destruct op; try (injection H as <- <-; destruct (Ho pos); reflexivity).
      destruct (pos =? 20); injection H as <- <-; [reflexivity|]. destruct (Ho 0). reflexivity. }
    split; [reflexivity|]. split; [intros i [H1 H2]; cbn in H1, H2; subst i; discriminate H2|]. split; [reflexivity|]. split.
    - eexists; eexists. split; reflexivity.
    - intros d h1 h2 z2 H i [H1 H2].
      assert (E : do_step fails_once (SAdd d) ([LIter 11; LIter 20], 0) h1 = ((h1 ++ [(0%nat, OAdd d)]) ++ [(1%nat, OAdd d)], ([LIter (11 + d); LIter (20 + d)], 0 + d), Ok tt))
        by reflexivity.
      rewrite E in H. assert (Hz : z2 = ([LIter (11 + d); LIter (20 + d)], 0 + d)) by congruence. clear E H. subst z2. cbn [fst snd map] in H1, H2.
      assert (E1 : 11 + d = 10 + i) by congruence. clear H2. lia.
  Qed.
End Zip.
Print Assumptions C96_in_step.
Print Assumptions C96_items.
Print Assumptions C96_items_at.
Print Assumptions C96_copies.
Print Assumptions C96_comparisons.
Print Assumptions C96_exception.
Print Assumptions C96_single_iterator.
Print Assumptions C96_usable_after_exception_refuted.
