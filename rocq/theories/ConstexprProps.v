(** Property C108: which functions can be used in constant expressions. *)

From Coq Require Import String Ascii ZArith NArith Arith Bool List Lia Permutation.
From Verif Require Import Base ZipModel ZipSpec ZipProps.
From Verif Require Import ExpandModel ExpandSpec PermModel PermSpec PermProofs.
From Verif Require Import SerializeModel SerializeSpec SerializeProofs SerializeProps ConstexprModel ConstexprSpec ConstexprProofs.
Import ListNotations.
Local Open Scope Z_scope.

(** * Range algorithms *)

(** With a range whose size is known, constant evaluation and evaluation at run time agree. *)
Theorem C108_algorithms_partial : forall S l rs (s : S), Forall proper_range rs -> sized rs ->
  (forall f, same_as_run (const_range_for l f rs s) (range_for f rs s)) /\
  (forall A B (init : A) (reduce : S -> A -> B -> S * outcome A) transform,
     same_as_run (const_range_transform_reduce l init reduce transform rs s) (range_transform_reduce init reduce transform rs s)) /\
  (forall p, same_as_run (const_range_count_if l p rs s) (range_count_if p rs s)) /\
  (forall p, same_as_run (const_range_all_of l p rs s) (range_all_of p rs s)) /\
  (forall p, same_as_run (const_range_any_of l p rs s) (range_any_of p rs s)) /\
  (forall p, same_as_run (const_range_none_of l p rs s) (range_none_of p rs s)).
Proof.
  intros S l rs s Hp Hs.
  unfold const_range_for, const_range_transform_reduce, const_range_count_if, const_range_all_of, const_range_any_of, const_range_none_of.
  repeat split; intros; rewrite const_algorithm_sized in * by assumption; try (apply constant_same; assumption);
    match goal with |- _ = _ => apply (proj2 (constant_same _ _ _)) | |- _ => apply (proj1 (constant_same _ _ _)) end; assumption.
Qed.
Print Assumptions C108_algorithms_partial.

(** What range_for() evaluates: the calls in order if all ranges have the same length, nothing otherwise. *)
Theorem C108_range_for_partial : forall S l (f : S -> list ref -> S * outcome unit) rs m s,
  Forall proper_range rs -> sized rs -> shortest_length rs m ->
  (all_length rs m -> forall s', const_range_for l f rs s = Ok (s', tt) <-> call_each f s (tuples rs (Z.to_nat m)) = (s', Ok tt)) /\
  (~ all_length rs m -> forall p, const_range_for l f rs s <> Ok p).
Proof.
  intros S l f rs m s Hp Hs Hm. destruct (C108_algorithms_partial S l rs s Hp Hs) as [H _]. specialize (H f). destruct H as [H _].
  assert (He : enough_known rs) by (left; exact Hs). split.
  - intros Ha s'. rewrite H. rewrite (C25_equal_lengths S f rs m s Hp He Hm Ha). reflexivity.
  - intros Hn [s' []] E. apply H in E.
    assert (Hd : exists r, In r rs /\ holds_elements r /\ r_len r <> m).
    { destruct (Exists_dec (fun r => holds_elements r /\ r_len r <> m) rs) as [D|D].
      - intro r. unfold holds_elements. destruct (r_mode r); destruct (Z.eq_dec (r_len r) m); (left; split; [discriminate|assumption]) || (right; intros [? ?]; congruence).
      - apply Exists_exists in D. destruct D as (r & I & D). exists r. tauto.
      - exfalso. apply Hn. intros r I Hh. destruct (Z.eq_dec (r_len r) m) as [|N]; auto. exfalso. apply D. apply Exists_exists. exists r. auto. }
    destruct (Exists_dec (fun p => holds_elements (fst p) /\ holds_elements (snd p) /\ r_known (fst p) <> KUnknown /\
                r_known (snd p) <> KUnknown /\ r_len (fst p) <> r_len (snd p)) (list_prod rs rs)) as [D|D].
    + intros [a b]. cbn [fst snd]. unfold holds_elements.
      assert (X : forall P : Prop, {P} + {~ P} -> {~ P} + {~ ~ P}) by (intros P [|]; [right|left]; tauto).
      assert (Em : forall x y : mode, {x = y} + {x <> y}) by decide equality.
      assert (Ek : forall x y : size_kind, {x = y} + {x <> y}) by decide equality.
      assert (An : forall P Q : Prop, {P} + {~ P} -> {Q} + {~ Q} -> {P /\ Q} + {~ (P /\ Q)}) by (intros P Q [|] [|]; (left; tauto) || (right; tauto)).
      repeat apply An; apply X; auto using Z.eq_dec.
    + apply Exists_exists in D. destruct D as ([a b] & I & D1 & D2 & D3 & D4 & D5). cbn [fst snd] in *. apply in_prod_iff in I. destruct I as [I1 I2].
      destruct (C25_known_sizes_differ S f rs m s a b Hp Hm I1 I2 D1 D2 D3 D4 D5) as [[G _]|G]; rewrite G in E; discriminate.
    + assert (Ka : known_agree rs).
      { intros a b Ia Ib Ha Hb Ka Kb. destruct (Z.eq_dec (r_len a) (r_len b)) as [|N]; auto. exfalso. apply D.
        apply Exists_exists. exists (a, b). cbn [fst snd]. rewrite in_prod_iff. tauto. }
      rewrite (C25_lengths_differ S f rs m s Hp He Ka Hm Hd) in E.
      destruct (call_each f s (tuples rs (Z.to_nat m))) as [s1 []]; discriminate.
Qed.
Print Assumptions C108_range_for_partial.

(** If no range has a known size, every constant expression with these algorithms is rejected, whatever the ranges hold:
    the end is found by a function that is not constexpr. *)
Theorem C108_unsized_rejected : forall S l rs (s : S), Forall proper_range rs -> ~ sized rs ->
  (forall f, const_range_for l f rs s = IllFormed) /\
  (forall A B (init : A) (reduce : S -> A -> B -> S * outcome A) transform,
     const_range_transform_reduce l init reduce transform rs s = IllFormed) /\
  (forall p, const_range_count_if l p rs s = IllFormed) /\
  (forall p, const_range_all_of l p rs s = IllFormed) /\
  (forall p, const_range_any_of l p rs s = IllFormed) /\
  (forall p, const_range_none_of l p rs s = IllFormed).
Proof.
  intros S l rs s Hp Hs.
  unfold const_range_for, const_range_transform_reduce, const_range_count_if, const_range_all_of, const_range_any_of, const_range_none_of.
  repeat split; intros; rewrite const_algorithm_unsized by assumption; reflexivity.
Qed.
Print Assumptions C108_unsized_rejected.

(** A range of two pointers, as gsl::span<> without size() would be. *)
Definition ex_pair (n : Z) : rng := {| r_mode := MPair; r_known := KUnknown; r_len := n |}.
Definition ex_array (n : Z) : rng := {| r_mode := MIndex; r_known := KStatic; r_len := n |}.
Definition ex_index : rng := {| r_mode := MRangeIndex; r_known := KUnknown; r_len := 0 |}.
(** A functor that counts and adds up the indices it is given. *)
Definition ex_sum (s : Z) (args : list ref) : Z * outcome unit :=
  match args with RIdx i :: _ => (s + i, Ok tt) | _ => (s, UB) end.

Example C108_algorithms_example :
  Forall proper_range [ex_index; ex_array 4; ex_pair 4] /\ sized [ex_index; ex_array 4; ex_pair 4] /\
  shortest_length [ex_index; ex_array 4; ex_pair 4] 4 /\ all_length [ex_index; ex_array 4; ex_pair 4] 4 /\
  const_range_for Cpp17 ex_sum [ex_index; ex_array 4; ex_pair 4] 0 = Ok (6, tt) /\
  const_range_for Cpp17 ex_sum [ex_index; ex_array 4; ex_pair 3] 0 = IllFormed /\
  ~ sized [ex_index; ex_pair 4].
Proof.
  assert (D : forall r, In r [ex_index; ex_array 4; ex_pair 4] -> r = ex_index \/ r = ex_array 4 \/ r = ex_pair 4) by (cbn; intuition).
  split; [repeat constructor; cbn; try lia; discriminate|]. split; [exists (ex_array 4); cbn; repeat split; auto; discriminate|].
  split; [|split; [|split; [|split]]].
  - split; [exists (ex_array 4); cbn; repeat split; auto; discriminate|]. intros r Hr Hh. apply D in Hr as [->|[->| ->]]; cbn; try lia. now destruct Hh.
  - intros r Hr Hh. apply D in Hr as [->|[->| ->]]; cbn; try lia. now destruct Hh.
  - reflexivity.
  - reflexivity.
  - intros (r & [<-|[<-|[]]] & _ & K); now apply K.
Qed.

(** Not even for empty ranges. *)
Theorem C108_algorithms_refuted : exists (f : Z -> list ref -> Z * outcome unit) rs,
  Forall proper_range rs /\ all_length rs 0 /\ (forall s, range_for f rs s = (s, Ok tt)) /\
  (forall l s, const_range_for l f rs s = IllFormed) /\
  exists rs', all_length rs' 4 /\ range_for f rs' 0 = (6, Ok tt) /\ forall l, const_range_for l f rs' 0 = IllFormed.
Proof.
  exists ex_sum, [ex_pair 0]. split; [repeat constructor; cbn; lia|]. split; [intros r [<-|[]] _; reflexivity|].
  split; [intro s; reflexivity|]. split; [intros l s; reflexivity|]. exists [ex_index; ex_pair 4]. split.
  - intros r [<-|[<-|[]]] H; [now destruct H|reflexivity].
  - split; reflexivity.
Qed.
Print Assumptions C108_algorithms_refuted.

(** * expand(), try_expand(), expand_failfast() *)

(** Never a constant expression. *)
Theorem C108_expand_rejected : forall A l ok index (values : list A),
  const_expand l ok index values = IllFormed /\ const_try_expand l ok index values = IllFormed /\
  const_expand_failfast l ok index values = IllFormed.
Proof.
  intros A l ok index values. unfold const_expand, const_try_expand, const_expand_failfast, expand, try_expand, expand_failfast, const_call.
  cbn [is_constexpr]. destruct (variant_map_ok ok values); repeat split; reflexivity.
Qed.
Print Assumptions C108_expand_rejected.

Theorem C108_expand_refuted : exists value values k, expand_int int32 false int32 value values = Ok k /\
  forall l, const_expand l (all_distinct values) (search_int int32 false int32 value values) values = IllFormed /\
            const_try_expand l (all_distinct values) (search_int int32 false int32 value values) values = IllFormed /\
            const_expand_failfast l (all_distinct values) (search_int int32 false int32 value values) values = IllFormed.
Proof. exists 32, [16; 32; 64], 1%nat. split; [reflexivity|]. intro l. apply C108_expand_rejected. Qed.
Print Assumptions C108_expand_refuted.

(** * Permutations *)

(** In C++17, apply_permutation() can only be evaluated if there is nothing to do, unless the elements have a constexpr
    swap() of their own. *)
Theorem C108_apply_17 : forall X diff (es : list X) idx, 1 <= ity_bits diff ->
  int_value (ity_bits diff) (ity_signed diff) (Z.of_nat (length es)) ->
  (in_place (length es) idx -> const_apply_permutation Cpp17 false diff es idx = Ok (es, idx)) /\
  (~ in_place (length es) idx -> const_apply_permutation Cpp17 false diff es idx = IllFormed).
Proof. exact apply_17. Qed.
Print Assumptions C108_apply_17.

(** apply_reverse_permutation() also exchanges the indices. *)
Theorem C108_reverse_17 : forall X own diff (es : list X) idx, 1 <= ity_bits diff ->
  int_value (ity_bits diff) (ity_signed diff) (Z.of_nat (length es)) ->
  (in_place (length es) idx -> const_apply_reverse_permutation Cpp17 own diff es idx = Ok (es, idx)) /\
  (~ in_place (length es) idx -> const_apply_reverse_permutation Cpp17 own diff es idx = IllFormed).
Proof. exact reverse_17. Qed.
Print Assumptions C108_reverse_17.

(** Otherwise the permutations are evaluated, and invalid ones are errors at compile time. *)
Theorem C108_apply_20 : forall X l own diff (es : list X) idx, l = Cpp20 \/ own = true -> 1 <= ity_bits diff ->
  int_value (ity_bits diff) (ity_signed diff) (Z.of_nat (length es)) -> length idx = length es ->
  (is_permutation (length es) idx ->
   exists es', const_apply_permutation l own diff es idx = Ok (es', identity (length es)) /\ gathered es idx es') /\
  (~ is_permutation (length es) idx -> const_apply_permutation l own diff es idx = IllFormed).
Proof.
  intros X l own diff es idx H Hb Hd Hl. rewrite (const_apply_run _ _ _ _ _ _ H). split; intro Hp.
  - destruct (apply_permutation_ok X diff es idx Hb Hd Hp) as (st & E & G & I). exists (ps_elems st). rewrite E. cbn. rewrite I. auto.
  - destruct (apply_detects X diff es idx Hb Hd Hl) as (e & st & E & V & _). rewrite E. apply V in Hp. now subst e.
Qed.
Print Assumptions C108_apply_20.
Theorem C108_reverse_20 : forall X own diff (es : list X) idx, 1 <= ity_bits diff ->
  int_value (ity_bits diff) (ity_signed diff) (Z.of_nat (length es)) -> length idx = length es ->
  (is_permutation (length es) idx ->
   exists es', const_apply_reverse_permutation Cpp20 own diff es idx = Ok (es', identity (length es)) /\ scattered es idx es') /\
  (~ is_permutation (length es) idx -> const_apply_reverse_permutation Cpp20 own diff es idx = IllFormed).
Proof.
  intros X own diff es idx Hb Hd Hl. rewrite const_reverse_run. split; intro Hp.
  - destruct (apply_reverse_permutation_ok X diff es idx Hb Hd Hp) as (st & E & G & I). exists (ps_elems st). rewrite E. cbn. rewrite I. auto.
  - destruct (reverse_detects X diff es idx Hb Hd Hl) as (e & st & E & V & _). rewrite E. apply V in Hp. now subst e.
Qed.
Print Assumptions C108_reverse_20.

Example C108_permutation_example :
  const_apply_permutation Cpp20 false int32 [10; 11; 12] [1; 2; 0] = Ok ([11; 12; 10], [0; 1; 2]) /\
  const_apply_permutation Cpp17 true int32 [10; 11; 12] [1; 2; 0] = Ok ([11; 12; 10], [0; 1; 2]) /\
  const_apply_permutation Cpp17 false int32 [10; 11; 12] [0; 1; 2] = Ok ([10; 11; 12], [0; 1; 2]) /\
  const_apply_reverse_permutation Cpp20 false int32 [10; 11; 12] [1; 2; 0] = Ok ([12; 10; 11], [0; 1; 2]) /\
  const_apply_permutation Cpp20 false int32 [10; 11; 12] [1; 1; 0] = IllFormed /\
  in_place 3 [0; 1; 2] /\ is_permutation 3 [1; 2; 0] /\ int_value 32 true 3.
Proof.
  repeat (split; [reflexivity|]). split; [intros [|[|[|k]]] H; [reflexivity..|lia]|]. split; [|cbn; lia].
  apply (perm_trans (l' := [1; 0; 2])); [|apply perm_swap]. apply perm_skip. apply perm_swap.
Qed.

Theorem C108_permutation_refuted : exists (es : list Z) idx, is_permutation (length es) idx /\
  const_apply_permutation Cpp17 false int32 es idx = IllFormed /\
  forall own, const_apply_reverse_permutation Cpp17 own int32 es idx = IllFormed.
Proof. exists [10; 11], [1; 0]. split; [apply perm_swap|]. split; [reflexivity|]. intros [|]; reflexivity. Qed.
Print Assumptions C108_permutation_refuted.

(** * shuffle() *)

Theorem C108_shuffle_17 : forall X S (dist : S -> Z -> Z -> S * Z) s (es : list X),
  (forall s' es', const_shuffle Cpp17 false dist s es = Ok (s', es') <-> draws_bound dist (length es - 1) s s' /\ es' = es) /\
  ((forall s', ~ draws_bound dist (length es - 1) s s') -> const_shuffle Cpp17 false dist s es = IllFormed).
Proof.
  intros X S dist s es. unfold const_shuffle. destruct (const_shuffle_17 X S dist (length es - 1) s es) as [H1 H2]. split.
  - intros s' es'. split.
    + intro E. destruct (draws_bound_dec S dist (length es - 1) s) as [[s1 D]|D].
      * rewrite (H1 s1 D) in E. cbn in E. injection E as <- <-. auto.
      * rewrite (H2 D) in E. discriminate.
    + intros [D ->]. rewrite (H1 s' D). reflexivity.
  - intro D. rewrite (H2 D). reflexivity.
Qed.
Print Assumptions C108_shuffle_17.

Theorem C108_shuffle_20 : forall X S l own (dist : S -> Z -> Z -> S * Z), l = Cpp20 \/ own = true ->
  (forall s i, 0 < i -> 0 <= snd (dist s 0 i) <= i) -> forall s (es : list X),
  exists s' es' log, const_shuffle l own dist s es = Ok (s', es') /\ shuffle dist s es = Ok (s', es', log) /\ Permutation es es'.
Proof.
  intros X S l own dist H Hd s es. destruct (shuffle_permutes X S dist Hd s es) as (s' & es' & E & P).
  exists s', es'. eexists. split; [|split; [exact E|exact P]].
  unfold const_shuffle. rewrite (const_shuffle_run X S l own dist H (length es - 1) s es []). unfold shuffle in E. rewrite E. reflexivity.
Qed.
Print Assumptions C108_shuffle_20.

Example C108_shuffle_example :
  const_shuffle Cpp20 false scripted [0; 1] [10; 11; 12] = Ok ([], [12; 11; 10]) /\
  const_shuffle Cpp17 false scripted [0; 1] [10; 11; 12] = IllFormed /\
  const_shuffle Cpp17 false scripted [2; 1] [10; 11; 12] = Ok ([], [10; 11; 12]) /\ draws_bound scripted 2 [2; 1] [].
Proof. repeat split. Qed.

(** * Strings *)

(** parse_enum() is a constant expression exactly for the strings it accepts. *)
Theorem C108_parse_enum : forall l (src : enum_source Z) vs ns,
  aligned (src_values src) (src_names src) vs ns -> Forall (name_ok enum_reserved) ns ->
  forall s, (forall v, const_parse_enum l src s = Ok v <-> exists t, padded s t /\ value_of_name vs ns t v) /\
    (~ (exists t, padded s t /\ In t ns) -> const_parse_enum l src s = IllFormed).
Proof.
  intros l src vs ns Ha Hn s. destruct (C02_parse_enum_exact src vs ns Ha Hn s) as (H1 & _ & H3). rewrite const_parse_enum_run. split.
  - intro v. rewrite <- H1. destruct (api_parse_enum src s); cbn; split; congruence.
  - intro H. rewrite (H3 H). reflexivity.
Qed.
Print Assumptions C108_parse_enum.

(** The same for parse_flags(), but not before C++20. *)
Theorem C108_parse_flags_20 : forall (src : enum_source N) vs ns,
  aligned (src_values src) (src_names src) vs ns -> Forall (name_ok flags_reserved) ns -> bits_covered vs ->
  exists vs' ns', reordered vs ns vs' ns' /\ forall s,
    (forall f, const_parse_flags Cpp20 src s = Ok f <-> flags_text vs' ns' s f) /\
    ((forall f, ~ flags_text vs' ns' s f) -> const_parse_flags Cpp20 src s = IllFormed).
Proof.
  intros src vs ns Ha Hn Hb. destruct (C07_parse_flags_grammar src vs ns Ha Hn Hb) as (vs' & ns' & R & G).
  exists vs', ns'. split; [exact R|]. intro s. destruct (G 0%N s) as [G1 G2]. rewrite const_parse_flags_run. split.
  - intro f. rewrite <- G1. destruct (api_parse_flags 0%N src s); cbn; split; congruence.
  - intro H. destruct G2 as (t & _ & E); [intros [f E]; apply (H f), G1; exact E|]. rewrite E. reflexivity.
Qed.
Print Assumptions C108_parse_flags_20.
Theorem C108_parse_flags_17_rejected : forall src s a, const_parse_flags Cpp17 src s <> Ok a.
Proof. intros src s a. unfold const_parse_flags. destruct (static_flags_metadata src); cbn; discriminate. Qed.
Print Assumptions C108_parse_flags_17_rejected.

(** Conversions to strings are not constant expressions, although those of enums only look up constants. *)
Theorem C108_to_string_rejected : forall l w src src' v v',
  const_enum_to_string l src v = IllFormed /\ const_flags_to_string l w src' v' = IllFormed.
Proof. split; reflexivity. Qed.
Print Assumptions C108_to_string_rejected.

Example C108_strings_example :
  const_parse_enum Cpp17 ex_color (lit " blue ") = Ok (-5) /\ const_parse_enum Cpp17 ex_color (lit "pink") = IllFormed /\
  const_parse_flags Cpp20 ex_veg (lit " mixed | eggplant+ ") = Ok 7%N /\ const_parse_flags Cpp20 ex_veg (lit "x") = IllFormed /\
  const_parse_flags Cpp17 ex_veg (lit "tomato") = IllFormed /\
  aligned (src_values ex_veg) (src_names ex_veg) ex_veg_vs ex_veg_ns.
Proof. repeat split. Qed.

Theorem C108_strings_refuted :
  (exists src s f, api_parse_flags 0%N src s = Ok f /\ const_parse_flags Cpp17 src s = IllFormed) /\
  (exists src v t, api_enum_to_string src v = Ok t /\ forall l, const_enum_to_string l src v = IllFormed).
Proof.
  split; [exists ex_veg, (lit "tomato"), 1%N; split; reflexivity|].
  exists ex_color, 1, (lit "green"). split; [reflexivity|]. intro l. reflexivity.
Qed.
Print Assumptions C108_strings_refuted.
