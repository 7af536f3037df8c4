(** Properties of accumulators: C98. *)

From Coq Require Import ZArith Arith Bool Lia List.
From Verif Require Import Base TupleModel TupleSpec TupleProofs TupleProps ZipModel ZipSpec ZipProps RefTupleModel AccumModel AccumSpec AccumProofs.
Import ListNotations.

(** Over a range, the accumulator is one object of the decayed type of the initial value: every result of the reducer is assigned to
    it, and it is what is returned.  Reducers whose results cannot be assigned are rejected, even if the range is empty. *)
Theorem C98_range_reduce : forall (S V : Type) assign self_assign red_type (red : S -> nat -> V -> nat * V -> S * outcome (V * answer V))
    T X init elem r s, holds_elements r ->
  ((exists rt U c f, assignable assign red_type T X rt U c f) ->
   forall s' o, accumulates assign self_assign red_type red (fun s e => (s, Ok (elem e))) T X s init
       (map (fun j => RElem 0 (Z.of_nat j)) (seq 0 (Z.to_nat (r_len r)))) s' o ->
     AccumModel.range_reduce assign self_assign red_type red T X init elem r s = (s', do v <- o; Ok (T, v))) /\
  ((forall rt U c f, ~ assignable assign red_type T X rt U c f) ->
     AccumModel.range_reduce assign self_assign red_type red T X init elem r s = (s, IllFormed)).
Proof.
  intros S V assign self_assign red_type red T X init elem r s Hh. unfold AccumModel.range_reduce. split.
  - intros (rt & U & c & f & A) s' o H. apply assignment_spec in A. rewrite A. rewrite C27_reduce by exact Hh.
    set (l := map _ _) in *.
    assert (F : forall l s v, fold_calls (fun s a x => range_step assign self_assign red_type red T X s a (elem x)) (fun s x => (s, Ok x)) s v l =
                              fold_calls (range_step assign self_assign red_type red T X) (fun s e => (s, Ok (elem e))) s v l).
    { clear. induction l as [|x l IH]; intros s v; cbn; [reflexivity|].
      destruct (range_step assign self_assign red_type red T X s v (elem x)) as [s1 [w| | | | |]]; auto. }
    rewrite F, (fold_accumulates assign self_assign red_type red _ _ T X s init l s' o); [reflexivity|congruence|exact H].
  - intro N. destruct (assignment assign red_type T X) as [[[rt [U c]] f]|] eqn:A; [|reflexivity]. apply assignment_spec in A.
    destruct (N _ _ _ _ A).
Qed.
Print Assumptions C98_range_reduce.

Theorem C98_range_transform_reduce : forall (S V : Type) assign self_assign red_type (red : S -> nat -> V -> nat * V -> S * outcome (V * answer V))
    T X init transform rs m s, Forall proper_range rs -> enough_known rs -> known_agree rs -> shortest_length rs m ->
  ((exists rt U c f, assignable assign red_type T X rt U c f) ->
   forall s' o, accumulates assign self_assign red_type red transform T X s init (tuples rs (Z.to_nat m)) s' o ->
     (all_length rs m ->
        AccumModel.range_transform_reduce assign self_assign red_type red T X init transform rs s = (s', do v <- o; Ok (T, v))) /\
     ((exists r, In r rs /\ holds_elements r /\ r_len r <> m) ->
        AccumModel.range_transform_reduce assign self_assign red_type red T X init transform rs s = (s', do v <- o; Contract))) /\
  ((forall rt U c f, ~ assignable assign red_type T X rt U c f) ->
     AccumModel.range_transform_reduce assign self_assign red_type red T X init transform rs s = (s, IllFormed)).
Proof.
  intros S V assign self_assign red_type red T X init transform rs m s Hp He Ha Hm. unfold AccumModel.range_transform_reduce. split.
  - intros (rt & U & c & f & A) s' o H. apply assignment_spec in A. rewrite A.
    assert (F : fold_calls (range_step assign self_assign red_type red T X) transform s init (tuples rs (Z.to_nat m)) = (s', o)).
    { apply fold_accumulates; [congruence|exact H]. }
    destruct (C27_transform_reduce S V V (range_step assign self_assign red_type red T X) transform rs m s init Hp He Ha Hm) as [G1 G2].
    rewrite F in G1, G2. split; intro K; [rewrite (G1 K); reflexivity|rewrite (G2 K)]. unfold then_fail. now destruct o.
  - intro N. destruct (assignment assign red_type T X) as [[[rt [U c]] f]|] eqn:A; [|reflexivity]. apply assignment_spec in A.
    destruct (N _ _ _ _ A).
Qed.
Print Assumptions C98_range_transform_reduce.

(** Over a tuple, the result of every call is the accumulator of the next; its type may be another one, and nothing is assigned. *)
Theorem C98_template_reduce : forall (S V : Type) red_type (red : S -> nat -> V -> nat * V -> S * outcome (V * answer V)) a v elems s,
  ((exists a', chain red_type a (map fst elems) a') ->
   forall s' o, passes red_type red s a v elems s' o -> AccumModel.template_reduce red_type red (a, v) elems s = (s', o)) /\
  ((forall a', ~ chain red_type a (map fst elems) a') -> AccumModel.template_reduce red_type red (a, v) elems s = (s, IllFormed)).
Proof.
  intros S V red_type red a v elems s. unfold AccumModel.template_reduce. cbn [fst snd]. split.
  - intros [a' C] s' o H. apply acc_types_chain in C. rewrite C.
    change (fun s a e => match e with Elem x => tuple_step red_type red s a x | _ => (s, IllFormed) end) with (element_step red_type red).
    rewrite C36_reduce_calls. apply fold_passes; [congruence|exact H].
  - intro N. destruct (acc_types red_type a (map fst elems)) as [a'|] eqn:C; [|reflexivity]. apply acc_types_chain in C.
    destruct (N a' C).
Qed.
Print Assumptions C98_template_reduce.

(** Both agree if the reducer always returns the type of the initial value, and assignments, also of an object to itself, leave the
    assigned value. *)
Theorem C98_agree_partial : forall (S V : Type) assign self_assign red_type (red : S -> nat -> V -> nat * V -> S * outcome (V * answer V))
    T X rt c f init c0 elem r s, holds_elements r ->
  (forall c, red_type (T, c) X = Some rt) -> is_expression rt (T, c) ->
  assign T T c = Some f -> (forall old v, f old v = Ok v) -> (forall v, self_assign T c v = Ok v) ->
  (is_reference rt \/ forall s v x s' rest, red s T v x <> (s', Ok (rest, Itself))) ->
  AccumModel.range_reduce assign self_assign red_type red T X init elem r s =
  AccumModel.template_reduce red_type red ((T, c0), init) (map (fun j => (X, elem (RElem 0 (Z.of_nat j)))) (seq 0 (Z.to_nat (r_len r)))) s.
Proof.
  intros S V assign self_assign red_type red T X rt c f init c0 elem r s Hh Hrt Hex Has Hf Hself Hval.
  unfold AccumModel.range_reduce, AccumModel.template_reduce.
  assert (A : assignment assign red_type T X = Some (rt, (T, c), f)) by (apply assignment_spec; repeat split; auto).
  rewrite A. rewrite C27_reduce by exact Hh. apply expression_of_spec in Hex.
  assert (C : forall l c1, acc_types red_type (T, c1) (map fst (map (fun j => (X, elem (RElem 0 (Z.of_nat j)))) l)) <> None).
  { induction l as [|j l IH]; intro c1; cbn; [discriminate|]. rewrite Hrt, Hex. apply IH. }
  specialize (C (seq 0 (Z.to_nat (r_len r))) c0). cbn [fst]. destruct (acc_types _ _ _); [|congruence]. clear C p.
  change (fun s a e => match e with Elem x => tuple_step red_type red s a x | _ => (s, IllFormed) end) with (element_step red_type red).
  rewrite C36_reduce_calls. generalize (seq 0 (Z.to_nat (r_len r))) as l. intro l. revert s init c0.
  induction l as [|j l IH]; intros s v c1; cbn [map fold_calls]; [reflexivity|].
  unfold range_step at 1. rewrite A. unfold element_step at 1, tuple_step at 1. cbn [fst snd]. rewrite Hrt, Hex.
  destruct (red s T v (X, elem (RElem 0 (Z.of_nat j)))) as [s1 [[rest y]| | | | |]] eqn:R; try reflexivity. cbn [bind].
  destruct y as [w|].
  - rewrite Hf. apply IH.
  - destruct Hval as [I|N]; [|destruct (N _ _ _ _ _ R)]. cbn [fst]. rewrite Nat.eqb_refl.
    inversion I; subst; rewrite Hself; apply IH.
Qed.
Print Assumptions C98_agree_partial.

(** * A world with three types: int (0); double (1), in halves; a list of numbers (2), which is empty after a self-move as
    std::vector<> may be; an integer that cannot be assigned to (3), e.g. a struct with a const member. *)
Inductive value := Num (halves : Z) | Numbers (l : list Z).
Definition ex_assign (T U : nat) (_ : category) : option (value -> value -> outcome value) :=
  match T, U with
  | 0, 0 | 1, 1 | 1, 0 | 2, 2 => Some (fun _ v => Ok v)
  | 0, 1 => Some (fun _ v => match v with Num h => Ok (Num (Z.quot h 2 * 2)) | _ => UB end)
  | _, _ => None
  end.
Definition ex_self (T : nat) (c : category) (v : value) : outcome value :=
  match T, c with 2, Xvalue false => Ok (Numbers []) | _, _ => Ok v end.
(** std::plus<>; for lists, a function that appends to its argument and returns it as an rvalue reference. *)
Definition ex_type (a : nat * category) (X : nat) : option rty :=
  match fst a, X with
  | 0, 0 => Some (RVal 0)
  | 0, 1 | 1, 0 | 1, 1 => Some (RVal 1)
  | 2, 0 => match snd a with Xvalue false => Some (RRRef false 2) | _ => None end
  | 3, 0 => Some (RVal 3)
  | _, _ => None
  end.
Definition ex_plus (s : unit) (T : nat) (a : value) (x : nat * value) : unit * outcome (value * answer value) :=
  (s, match a, snd x with
      | Num h, Num h' => Ok (a, Fresh (Num (h + h')))
      | Numbers l, Num h => Ok (Numbers (l ++ [h]), Itself)
      | _, _ => UB
      end).
Definition ex_three : rng := {| r_mode := MIndex; r_known := KStatic; r_len := 3%Z |}.
Definition ex_halves (r : ref) : value := match r with RElem _ p => Num (2 * p + 1) | _ => Num 0 end.

Lemma ex_stored : forall rest h, stored ex_assign ex_self ex_type 0 1 rest (Fresh (Num h)) (Ok (Num (Z.quot h 2 * 2))).
Proof.
  intros rest h. change (Ok (Num (Z.quot h 2 * 2))) with ((fun _ v => match v with Num h => Ok (Num (Z.quot h 2 * 2)) | _ => UB end) rest (Num h)).
  apply stored_fresh with (r := RVal 1) (U := 1) (c := Xvalue false). split; [reflexivity|]. split; [constructor|reflexivity].
Qed.
Example C98_example :
  holds_elements ex_three /\
  AccumModel.range_reduce ex_assign ex_self ex_type ex_plus 1 1 (Num 0) ex_halves ex_three tt = (tt, Ok (1, Num 9)) /\
  AccumModel.template_reduce ex_type ex_plus ((1, Lvalue true), Num 0) [(1, Num 1); (1, Num 3); (1, Num 5)] tt = (tt, Ok (1, Num 9)) /\
  AccumModel.template_reduce ex_type ex_plus ((0, Lvalue true), Num 0) [(0, Num 2); (1, Num 3); (0, Num 4)] tt = (tt, Ok (1, Num 9)) /\
  AccumModel.range_transform_reduce ex_assign ex_self ex_type ex_plus 0 1 (Num 0) (fun s l => (s, Ok (match l with [x] => ex_halves x | _ => Num 0 end)))
    [ex_three] tt = (tt, Ok (0, Num 6)) /\
  accumulates ex_assign ex_self ex_type ex_plus (fun s e => (s, Ok (ex_halves e))) 0 1 tt (Num 0) [RElem 0 0; RElem 0 1; RElem 0 2] tt (Ok (Num 6)) /\
  passes ex_type ex_plus tt (0, Lvalue true) (Num 0) [(0, Num 2); (1, Num 3)] tt (Ok (1, Num 5)).
Proof.
  split; [discriminate|]. repeat (split; [reflexivity|]). split.
  - eapply accumulates_next; [reflexivity|reflexivity|apply ex_stored|].
    eapply accumulates_next; [reflexivity|reflexivity|apply ex_stored|].
    eapply accumulates_next; [reflexivity|reflexivity|apply ex_stored|]. apply accumulates_end.
  - eapply passes_next; [reflexivity|split; [reflexivity|constructor]|constructor|].
    eapply passes_next; [reflexivity|split; [reflexivity|constructor]|constructor|].
    apply (passes_end _ _ tt (1, Xvalue false) (Num 5)).
Qed.

(** * What does not hold: that the two forms agree *)
(** The sum of 0.5, 1.5 and 2.5 with an initial value of type int: 4.5 over a tuple, but 3 over a range, because every partial sum is
    rounded towards zero. *)
Theorem C98_conversion_refuted : exists (S V : Type) assign self_assign red_type (red : S -> nat -> V -> nat * V -> S * outcome (V * answer V))
    T X init elem r s v w, holds_elements r /\
  (forall s v x s' rest, red s T v x <> (s', Ok (rest, Itself))) /\
  AccumModel.range_reduce assign self_assign red_type red T X init elem r s = (s, Ok (T, v)) /\
  AccumModel.template_reduce red_type red ((T, Lvalue true), init) (map (fun j => (X, elem (RElem 0 (Z.of_nat j)))) (seq 0 (Z.to_nat (r_len r)))) s =
    (s, Ok (X, w)) /\ T <> X /\ v <> w.
Proof.
  exists unit, value, ex_assign, ex_self, ex_type, (fun s T a x => match a with Num _ => ex_plus s T a x | _ => (s, UB) end),
    0, 1, (Num 0), ex_halves, ex_three, tt, (Num 6), (Num 9).
  split; [discriminate|]. split.
  - intros [] [h|l] [X [h'|l']] [] rest; unfold ex_plus; cbn [snd]; intro H; discriminate H.
  - repeat split; discriminate.
Qed.
Print Assumptions C98_conversion_refuted.

(** A reducer that returns its accumulator by rvalue reference makes the algorithm over ranges assign an object to itself: the contents
    are lost if the class does not survive a self-move, although the reducer is fine over a tuple. *)
Theorem C98_self_move_refuted : exists (S V : Type) assign self_assign red_type (red : S -> nat -> V -> nat * V -> S * outcome (V * answer V))
    T X c f init elem r s v w, holds_elements r /\
  red_type (T, Xvalue false) X = Some (RRRef false T) /\ assign T T c = Some f /\ (forall old v, f old v = Ok v) /\
  AccumModel.range_reduce assign self_assign red_type red T X init elem r s = (s, Ok (T, v)) /\
  AccumModel.template_reduce red_type red ((T, Xvalue false), init)
    (map (fun j => (X, elem (RElem 0 (Z.of_nat j)))) (seq 0 (Z.to_nat (r_len r)))) s = (s, Ok (T, w)) /\ v <> w.
Proof.
  exists unit, value, ex_assign, ex_self, ex_type, ex_plus, 2, 0, (Xvalue false), (fun _ v => Ok v), (Numbers []), ex_halves, ex_three, tt,
    (Numbers []), (Numbers [1%Z; 3%Z; 5%Z]).
  split; [discriminate|]. repeat split; discriminate.
Qed.
Print Assumptions C98_self_move_refuted.

(** Initial values that cannot be assigned to are rejected by the algorithms over ranges only. *)
Theorem C98_assignable_refuted : exists (S V : Type) assign self_assign red_type (red : S -> nat -> V -> nat * V -> S * outcome (V * answer V))
    T X, red_type (T, Xvalue false) X = Some (RVal T) /\
  (forall init elem r s, holds_elements r -> AccumModel.range_reduce assign self_assign red_type red T X init elem r s = (s, IllFormed)) /\
  (exists init x y v s, AccumModel.template_reduce red_type red ((T, Xvalue false), init) [(X, x); (X, y)] s = (s, Ok (T, v))).
Proof.
  exists unit, value, ex_assign, ex_self, ex_type, ex_plus, 3, 0. split; [reflexivity|]. split.
  - intros init elem r s H. reflexivity.
  - exists (Num 2), (Num 4), (Num 6), (Num 12), tt. reflexivity.
Qed.
Print Assumptions C98_assignable_refuted.
