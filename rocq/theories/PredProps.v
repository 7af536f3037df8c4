(** Properties of the use of predicates' results: C97. *)

From Coq Require Import ZArith Arith Bool Lia List.
From Verif Require Import Base ForwardModel TupleModel TupleSpec TupleProofs ZipModel ZipSpec PredModel PredSpec PredProofs.
Import ListNotations.

(** The algorithms over ranges use the results in conditions: whatever can be used in "if (x)", or, for range_all_of(), in "if (!x)",
    is accepted, and everything else is rejected, even for empty ranges. *)
Theorem C97_ranges : forall (S V : Type) (R : rtype V) (func : S -> list ref -> S * outcome V) rs s,
  (forall k c f, expression R k c -> taken k c f ->
     range_count_if (Some R) func rs s = ZipModel.range_count_if (answer func f) rs s /\
     range_any_of (Some R) func rs s = ZipModel.range_any_of (answer func f) rs s /\
     range_none_of (Some R) func rs s = ZipModel.range_none_of (answer func f) rs s) /\
  (forall k c f, expression R k c -> taken_not k c f ->
     range_all_of (Some R) func rs s = ZipModel.range_all_of (answer func (fun v => do b <- f v; Ok (negb b))) rs s) /\
  ((forall k c f, expression R k c -> ~ taken k c f) ->
     range_count_if (Some R) func rs s = (s, IllFormed) /\ range_any_of (Some R) func rs s = (s, IllFormed) /\
     range_none_of (Some R) func rs s = (s, IllFormed)) /\
  ((forall k c f, expression R k c -> ~ taken_not k c f) -> range_all_of (Some R) func rs s = (s, IllFormed)).
Proof.
  intros S V R func rs s. unfold range_count_if, range_any_of, range_none_of, range_all_of, with_condition. split; [|split; [|split]].
  - intros k c f He Ht. assert (C : condition R = Some f) by (apply condition_taken; eauto). rewrite C.
    split; [|split]; [apply range_count_if_ext|apply range_any_of_ext|apply range_none_of_ext]; intros; apply call_if_answer; reflexivity.
  - intros k c f He Ht. assert (C : not_condition R = Some f) by (apply not_condition_taken; eauto). rewrite C.
    apply range_all_of_ext. intros. apply call_if_not_answer. reflexivity.
  - intro N. destruct (condition R) as [f|] eqn:C; [|repeat split]. apply condition_taken in C. destruct C as (k & c & He & Ht).
    destruct (N k c f He Ht).
  - intro N. destruct (not_condition R) as [f|] eqn:C; [|reflexivity]. apply not_condition_taken in C. destruct C as (k & c & He & Ht).
    destruct (N k c f He Ht).
Qed.
Print Assumptions C97_ranges.

(** A predicate that cannot be called with the elements is rejected, and not called, also for empty ranges. *)
Theorem C97_uncallable : forall (S V : Type) (func : S -> list ref -> S * outcome V) rs s,
  range_count_if None func rs s = (s, IllFormed) /\ range_all_of None func rs s = (s, IllFormed) /\
  range_any_of None func rs s = (s, IllFormed) /\ range_none_of None func rs s = (s, IllFormed).
Proof. intros S V func rs s. repeat split. Qed.
Print Assumptions C97_uncallable.

(** The algorithms over tuples keep the result in an object.  template_all_of() uses the object in "if (!x)", and rejects the
    predicate if that is not possible for one of the elements. *)
Theorem C97_all_of : forall (S E V : Type) returns (func : S -> list (element (nat * E)) -> S * outcome V) args n rows s,
  common_size args n -> rows_of args n rows ->
  (forall f : list (element (nat * E)) -> V -> outcome bool,
     (forall row, In row rows -> exists ts R k copy g, typed row ts /\ returns ts = Some R /\ kept R k copy /\ taken_not k Rv g /\
        forall v, f row v = (do x <- copy v; do b <- g x; Ok (negb b))) ->
     template_all_of returns func args s = TupleModel.template_all_of (answer_at func f) args s) /\
  ((exists row, In row rows /\ forall ts R k copy g, typed row ts -> returns ts = Some R -> kept R k copy -> ~ taken_not k Rv g) ->
     template_all_of returns func args s = (s, IllFormed)).
Proof.
  intros S E V returns func args n rows s Hn Hr. split.
  - intros f H. unfold template_all_of, TupleModel.template_all_of.
    destruct (conjunction_answer returns func args n rows Hn Hr false f s) as [C X].
    + intros row I. destruct (H row I) as (ts & R & k & copy & g & Ht & ER & Hk & Hg & Hf). apply row_types_typed in Ht. subst ts.
      exists (fun v => do x <- copy v; g x). split.
      * unfold row_condition, conjunction_condition. rewrite ER. apply result_kept in Hk. rewrite Hk. apply negated_taken in Hg.
        rewrite Hg. reflexivity.
      * intro v. rewrite Hf. destruct (copy v); reflexivity.
    + rewrite C. exact X.
  - intros (row & I & N). unfold template_all_of. rewrite (compiles_not returns args n rows Hn Hr false row I); [reflexivity|].
    unfold row_condition. destruct (returns (row_types row)) as [R|] eqn:ER; [|reflexivity]. unfold conjunction_condition.
    destruct (transform_element_result R) as [[k copy]|] eqn:K; [|reflexivity]. destruct (negated k Rv) as [g|] eqn:G; [|reflexivity].
    apply result_kept in K. apply negated_taken in G. destruct (N (row_types row) R k copy g); auto. now apply row_types_typed.
Qed.
Print Assumptions C97_all_of.

(** template_any_of() and template_none_of() initialise a bool by the object, and reject the predicate if that is not possible for
    one of the elements. *)
Theorem C97_any_none_of : forall (S E V : Type) returns (func : S -> list (element (nat * E)) -> S * outcome V) args n rows s,
  common_size args n -> rows_of args n rows ->
  (forall f : list (element (nat * E)) -> V -> outcome bool,
     (forall row, In row rows -> exists ts R k copy g, typed row ts /\ returns ts = Some R /\ kept R k copy /\ r_conv k Rv = Implicit g /\
        forall v, f row v = (do x <- copy v; g x)) ->
     template_any_of returns func args s = TupleModel.template_any_of (answer_at func f) args s /\
     template_none_of returns func args s = TupleModel.template_none_of (answer_at func f) args s) /\
  ((exists row, In row rows /\ forall ts R k copy g, typed row ts -> returns ts = Some R -> kept R k copy -> r_conv k Rv <> Implicit g) ->
     template_any_of returns func args s = (s, IllFormed) /\ template_none_of returns func args s = (s, IllFormed)).
Proof.
  intros S E V returns func args n rows s Hn Hr. split.
  - intros f H. unfold template_any_of, TupleModel.template_any_of, template_none_of, TupleModel.template_none_of.
    destruct (conjunction_answer returns func args n rows Hn Hr true f s) as [C X].
    + intros row I. destruct (H row I) as (ts & R & k & copy & g & Ht & ER & Hk & Hg & Hf). apply row_types_typed in Ht. subst ts.
      exists (fun v => do x <- copy v; do cond <- g x; let r := negb cond in Ok (negb r)). split.
      * unfold row_condition, conjunction_condition. rewrite ER. apply result_kept in Hk. rewrite Hk, Hg. reflexivity.
      * intro v. rewrite Hf. destruct (copy v) as [x| | | | |]; try reflexivity. cbn. destruct (g x) as [[]| | | | |]; reflexivity.
    + rewrite C, X. auto.
  - intros (row & I & N). unfold template_any_of, template_none_of.
    rewrite (compiles_not returns args n rows Hn Hr true row I); [auto|].
    unfold row_condition. destruct (returns (row_types row)) as [R|] eqn:ER; [|reflexivity]. unfold conjunction_condition.
    destruct (transform_element_result R) as [[k copy]|] eqn:K; [|reflexivity]. destruct (r_conv k Rv) as [|g|g] eqn:G; try reflexivity.
    apply result_kept in K. destruct (N (row_types row) R k copy g); auto. now apply row_types_typed.
Qed.
Print Assumptions C97_any_none_of.

(** Results that are true or false whatever the expression, among them bool itself: all algorithms accept the predicate, and answer
    as for a predicate that returns bool. *)
Theorem C97_ordinary_partial : forall (S V : Type) (R : rtype V) k f, of_class R k -> ordinary k f ->
  (forall (func : S -> list ref -> S * outcome V) rs s,
     range_count_if (Some R) func rs s = ZipModel.range_count_if (answer func f) rs s /\
     range_all_of (Some R) func rs s = ZipModel.range_all_of (answer func f) rs s /\
     range_any_of (Some R) func rs s = ZipModel.range_any_of (answer func f) rs s /\
     range_none_of (Some R) func rs s = ZipModel.range_none_of (answer func f) rs s) /\
  (forall (E : Type) returns (func : S -> list (element (nat * E)) -> S * outcome V) args n s, common_size args n ->
     (forall ts, returns ts = Some R) ->
     template_all_of returns func args s = TupleModel.template_all_of (answer func f) args s /\
     template_any_of returns func args s = TupleModel.template_any_of (answer func f) args s /\
     template_none_of returns func args s = TupleModel.template_none_of (answer func f) args s).
Proof.
  intros S V R k f Hk [Hc Hn Hcp].
  assert (Not : forall c, exists g, taken_not k c g /\ forall v, (do b <- g v; Ok (negb b)) = f v).
  { intro c. destruct (Hn c) as [N|(q & g & N & C & Hg)].
    - destruct (Hc c) as (g & G & Hg). exists (fun v => do b <- g v; Ok (negb b)). split.
      + apply not_built_in; [exact N|]. rewrite G. constructor.
      + intro v. rewrite Hg. destruct (f v) as [[]| | | | |]; reflexivity.
    - exists g. split; [exact (not_own k c q g N C)|]. intro v. rewrite Hg. destruct (f v) as [[]| | | | |]; reflexivity. }
  split.
  - intros func rs s.
    assert (X : exists c, expression R k c) by (destruct Hk; eexists; constructor). destruct X as [c Hx].
    destruct (Hc c) as (g & G & Hg). destruct (Not c) as (h & T & Hh).
    destruct (C97_ranges S V R func rs s) as (A & B & _).
    destruct (A k c g Hx) as (A1 & A2 & A3); [unfold taken; rewrite G; constructor|].
    rewrite A1, A2, A3, (B k c h Hx T).
    assert (Y : forall s x, answer func g s x = answer func f s x) by (intros; unfold answer; destruct (func s0 x) as [? [v| | | | |]]; congruence).
    split; [|split; [|split]]; [now apply range_count_if_ext| |now apply range_any_of_ext|now apply range_none_of_ext].
    apply range_all_of_ext. intros s0 x. unfold answer. destruct (func s0 x) as [? [v| | | | |]]; try reflexivity. now rewrite Hh.
  - intros E returns func args n s Hs Hret.
    destruct (rows_within args n) as [rows Hr]; [intros l Hl; rewrite (proj2 Hs l Hl); auto|].
    assert (K : exists copy, kept R k copy /\ forall v, exists v', copy v = Ok v' /\ f v' = f v).
    { destruct Hk as [k|c k]; [exists (fun v => Ok v); split; [constructor|]; eauto|]. destruct (Hcp c) as (cp & Hcp1 & Hcp2).
      exists cp. split; [now constructor|exact Hcp2]. }
    destruct K as (copy & Hkept & Hcopy). destruct (Hc Rv) as (g & G & Hg). destruct (Not Rv) as (h & T & Hh).
    destruct (C97_all_of S E V returns func args n rows s Hs Hr) as [A _].
    destruct (C97_any_none_of S E V returns func args n rows s Hs Hr) as [B _].
    specialize (A (fun _ => f)). specialize (B (fun _ => f)). change (answer_at func (fun _ => f)) with (answer func f) in A, B.
    split; [apply A|apply B]; intros row I; exists (row_types row), R, k, copy; [exists h|exists g];
      (split; [now apply row_types_typed|]; split; [apply Hret|]; split; [exact Hkept|]; split; [assumption|]); intro v;
      destruct (Hcopy v) as (v' & -> & <-); cbn; [now rewrite Hh|now rewrite Hg].
Qed.
Print Assumptions C97_ordinary_partial.

(** A bool by value or by reference, and the predicate "is positive". *)
Definition ex_bool : rclass bool :=
  mk_rclass (fun _ => Implicit (fun v => Ok v)) (fun _ => None) (fun _ => Some (fun v => Ok v)).
Definition ex_pos (s : nat) (row : list (element (nat * Z))) : nat * outcome bool :=
  match row with [Elem x] => (S s, Ok (0 <? snd x)%Z) | _ => (s, IllFormed) end.
Definition ex_args : list (arg (nat * Z)) := [ATuple [(0, 3%Z); (1, (-2)%Z); (0, 5%Z)]].
Example C97_ordinary_example :
  ordinary ex_bool (fun v => Ok v) /\ of_class (RRef CLv ex_bool) ex_bool /\ common_size ex_args 3 /\
  template_all_of (fun _ => Some (RRef CLv ex_bool)) ex_pos ex_args 0 = (2, Ok false) /\
  template_any_of (fun _ => Some (RVal ex_bool)) ex_pos ex_args 0 = (1, Ok true) /\
  template_none_of (fun _ => Some (RVal ex_bool)) ex_pos ex_args 0 = (1, Ok false).
Proof.
  split; [split|split; [constructor|split; [split|split; [|split]; reflexivity]]].
  - intro c. eexists. split; [reflexivity|reflexivity].
  - intro c. left. reflexivity.
  - intro c. eexists. split; [reflexivity|]. intro v. eexists. split; reflexivity.
  - eexists. left. reflexivity.
  - intros l [H|[]]. injection H as <-. reflexivity.
Qed.

(** * What does not hold *)
(** std::optional<> and other classes with "explicit operator bool", and a range of two elements. *)
Definition ex_optional : rclass (option Z) :=
  mk_rclass (fun _ => Explicit (fun v => Ok (match v with Some _ => true | None => false end))) (fun _ => None) (fun _ => Some (fun v => Ok v)).
Definition ex_range : list rng := [{| r_mode := MIndex; r_known := KStatic; r_len := 2%Z |}].

(** A predicate that returns an std::optional<> is accepted by all algorithms over ranges and by template_all_of(), but
    template_any_of() and template_none_of() reject it for every tuple with elements. *)
Theorem C97_explicit_refuted : exists (V : Type) (R : rtype V), forall (S E : Type) (fr : S -> list ref -> S * outcome V)
    (ft : S -> list (element (nat * E)) -> S * outcome V) rs args n s, common_size args n -> 0 < n ->
  (exists f, range_count_if (Some R) fr rs s = ZipModel.range_count_if (answer fr f) rs s /\
     range_all_of (Some R) fr rs s = ZipModel.range_all_of (answer fr f) rs s /\
     range_any_of (Some R) fr rs s = ZipModel.range_any_of (answer fr f) rs s /\
     range_none_of (Some R) fr rs s = ZipModel.range_none_of (answer fr f) rs s /\
     template_all_of (fun _ => Some R) ft args s = TupleModel.template_all_of (answer ft f) args s) /\
  template_any_of (fun _ => Some R) ft args s = (s, IllFormed) /\
  template_none_of (fun _ => Some R) ft args s = (s, IllFormed).
Proof.
  exists (option Z), (RVal ex_optional). intros S E fr ft rs args n s Hn Hpos.
  destruct (rows_within args n) as [rows Hr]; [intros l Hl; rewrite (proj2 Hn l Hl); auto|].
  set (f := fun v : option Z => Ok (match v with Some _ => true | None => false end)).
  assert (T : taken ex_optional Rv f) by constructor.
  assert (TN : taken_not ex_optional Rv (fun v => do b <- f v; Ok (negb b))) by (apply not_built_in; [reflexivity|exact T]).
  split.
  - exists f. destruct (C97_ranges S _ (RVal ex_optional) fr rs s) as (A & B & _).
    destruct (A _ _ _ (expression_object ex_optional) T) as (A1 & A2 & A3).
    rewrite A1, A2, A3, (B _ _ _ (expression_object ex_optional) TN). split; [reflexivity|]. split.
    + apply range_all_of_ext. intros s0 x. unfold answer. destruct (fr s0 x) as [s1 [[]| | | | |]]; reflexivity.
    + split; [reflexivity|]. split; [reflexivity|].
      destruct (C97_all_of S E _ (fun _ => Some (RVal ex_optional)) ft args n rows s Hn Hr) as [G _].
      apply (G (fun _ => f)). intros row I. exists (row_types row), (RVal ex_optional), ex_optional, (fun v => Ok v). eexists.
      split; [now apply row_types_typed|]. split; [reflexivity|]. split; [constructor|]. split; [exact TN|].
      intros []; reflexivity.
  - destruct (C97_any_none_of S E _ (fun _ => Some (RVal ex_optional)) ft args n rows s Hn Hr) as [_ G]. apply G.
    destruct rows as [|row rows]; [destruct Hr as [L _]; cbn in L; lia|]. exists row. split; [now left|].
    intros ts R k copy g _ ER Hk X. injection ER as <-. inversion Hk; subst. discriminate X.
Qed.
Print Assumptions C97_explicit_refuted.

(** A class with an "operator !" that is not the opposite of its conversion, as of a type with values true, false and unknown, where
    the opposite of unknown is unknown and neither converts to true. *)
Definition ex_three : rclass Z :=
  mk_rclass (fun _ => Implicit (fun v => Ok (v =? 1)%Z)) (fun _ => Some (Implicit (fun v => Ok (v =? 0)%Z))) (fun _ => Some (fun v => Ok v)).

(** With such a class the predicate is satisfied for all elements and for none of them, on tuples and ranges alike; the two elements
    are there to be seen by a predicate that returns true. *)
Theorem C97_negation_refuted : exists (V : Type) (R : rtype V) (v : V) args rs,
  let ft := fun (s : nat) (_ : list (element (nat * Z))) => (S s, Ok v) in
  let fr := fun (s : nat) (_ : list ref) => (S s, Ok v) in
  template_all_of (fun _ => Some R) ft args 0 = (2, Ok true) /\ template_none_of (fun _ => Some R) ft args 0 = (2, Ok true) /\
  range_all_of (Some R) fr rs 0 = (2, Ok true) /\ range_none_of (Some R) fr rs 0 = (2, Ok true) /\
  range_count_if (Some R) fr rs 0 = (2, Ok 0%Z).
Proof.
  exists Z, (RVal ex_three), 2%Z, [ATuple [(0, 7%Z); (1, 8%Z)]], ex_range. cbn zeta. repeat split.
Qed.
Print Assumptions C97_negation_refuted.

(** Predicates that return a reference to an object of a class that cannot be copied: the algorithms over ranges use the object in
    place, those over tuples reject them. *)
Theorem C97_reference_refuted : exists (V : Type) (R : rtype V), forall (S E : Type) (fr : S -> list ref -> S * outcome V)
    (ft : S -> list (element (nat * E)) -> S * outcome V) rs args n s, common_size args n -> 0 < n ->
  (exists f, range_count_if (Some R) fr rs s = ZipModel.range_count_if (answer fr f) rs s /\
     range_all_of (Some R) fr rs s = ZipModel.range_all_of (answer fr f) rs s /\
     range_any_of (Some R) fr rs s = ZipModel.range_any_of (answer fr f) rs s /\
     range_none_of (Some R) fr rs s = ZipModel.range_none_of (answer fr f) rs s) /\
  template_all_of (fun _ => Some R) ft args s = (s, IllFormed) /\
  template_any_of (fun _ => Some R) ft args s = (s, IllFormed) /\
  template_none_of (fun _ => Some R) ft args s = (s, IllFormed).
Proof.
  set (k := mk_rclass (fun _ => Implicit (fun v : bool => Ok v)) (fun _ => None) (fun _ => None)).
  exists bool, (RRef CLv k). intros S E fr ft rs args n s Hn Hpos.
  destruct (rows_within args n) as [rows Hr]; [intros l Hl; rewrite (proj2 Hn l Hl); auto|].
  assert (I : exists row, In row rows) by (destruct rows as [|row rows]; [destruct Hr as [L _]; cbn in L; lia|exists row; now left]).
  destruct I as [row I].
  assert (N : forall k' copy, ~ kept (RRef CLv k) k' copy) by (intros k' copy H; inversion H; subst; discriminate).
  split.
  - exists (fun v => Ok v). destruct (C97_ranges S _ (RRef CLv k) fr rs s) as (A & B & _).
    assert (T : taken k CLv (fun v => Ok v)) by constructor.
    destruct (A _ _ _ (expression_reference CLv k) T) as (A1 & A2 & A3).
    rewrite A1, A2, A3, (B _ _ _ (expression_reference CLv k) (not_built_in k CLv _ eq_refl T)).
    split; [reflexivity|]. split; [|split; reflexivity].
    apply range_all_of_ext. intros s0 x. unfold answer. destruct (fr s0 x) as [s1 [[]| | | | |]]; reflexivity.
  - split.
    + apply (proj2 (C97_all_of S E _ (fun _ => Some (RRef CLv k)) ft args n rows s Hn Hr)). exists row. split; [exact I|].
      intros ts R k' copy g _ ER Hk. injection ER as <-. destruct (N _ _ Hk).
    + apply (proj2 (C97_any_none_of S E _ (fun _ => Some (RRef CLv k)) ft args n rows s Hn Hr)). exists row. split; [exact I|].
      intros ts R k' copy g _ ER Hk. injection ER as <-. destruct (N _ _ Hk).
Qed.
Print Assumptions C97_reference_refuted.

(** Non-trivial cases: a predicate that returns optionals on a range and a tuple, with elements of two types of which one makes
    the predicate unusable. *)
Definition ex_find (s : nat) (_ : list ref) : nat * outcome (option Z) := (S s, Ok (if s =? 1 then Some 5%Z else None)).
Definition ex_returns (ts : list (element nat)) : option (rtype (option Z)) :=
  match ts with [Elem 0] => Some (RVal ex_optional) | _ => Some RVoid end.
Definition ex_some (s : nat) (row : list (element (nat * Z))) : nat * outcome (option Z) :=
  match row with [Elem x] => (S s, Ok (Some (snd x))) | _ => (s, IllFormed) end.
Example C97_example :
  range_any_of (Some (RVal ex_optional)) ex_find ex_range 0 = (2, Ok true) /\
  range_all_of (Some (RVal ex_optional)) ex_find ex_range 0 = (1, Ok false) /\
  range_count_if (Some (RVal ex_optional)) ex_find ex_range 0 = (2, Ok 1%Z) /\
  range_none_of (Some (RVal ex_optional)) ex_find ex_range 1 = (2, Ok false) /\
  range_none_of (Some RVoid) ex_find ex_range 1 = (1, IllFormed) /\
  template_all_of ex_returns ex_some [ATuple [(0, 1%Z); (0, 2%Z)]] 0 = (2, Ok true) /\
  template_all_of ex_returns ex_some [ATuple [(0, 1%Z); (1, 2%Z)]] 0 = (0, IllFormed) /\
  template_any_of ex_returns ex_some [ATuple [(0, 1%Z); (0, 2%Z)]] 0 = (0, IllFormed) /\
  template_any_of ex_returns ex_some [ATuple []] 0 = (0, Ok false).
Proof. repeat split. Qed.
