(** Properties of expand(), try_expand() and expand_failfast(): C12-C15. *)

From Coq Require Import String ZArith Arith Bool Lia List.
From Coq.Floats Require Import SpecFloat.
From Verif Require Import Base SerializeModel SerializeSpec SerializeProofs ExpandModel ExpandSpec ExpandProofs ExpandExactProofs.
Import ListNotations.
Local Open Scope Z_scope.

Definition u8 : ity := mk_ity 8 false.
Definition u32 : ity := mk_ity 32 false.
Definition i32 : ity := mk_ity 32 true.
Definition bool_ty : ity := mk_ity 1 false.

(** 1.0, 2.0 and 3.0. *)
Definition f1 : spec_float := S754_finite false 4503599627370496 (-52).
Definition f2 : spec_float := S754_finite false 4503599627370496 (-51).
Definition f3 : spec_float := S754_finite false 6755399441055744 (-51).

(* ------------------------------------------------------------------------ *)
(** C12: no wrong constant.  Integral and enum types with an array of the same type, in any order, with any
    contents. *)
Theorem C12_sound_same_type_partial : forall t is_bool value values,
  standard_width (ity_bits t) -> (is_bool = true -> t = bool_ty) ->
  int_value (ity_bits t) (ity_signed t) value -> Forall (int_value (ity_bits t) (ity_signed t)) values ->
  array_size_ok values ->
  sound (fun k => nth_error values k = Some value)
    (expand_int t is_bool t value values) (try_expand_int t is_bool t value values)
    (expand_failfast_int t is_bool t value values).
Proof. exact expand_sound_same_type. Qed.
Print Assumptions C12_sound_same_type_partial.

Example C12_example_same_type :
  expand_int u8 false u8 7 [5; 6; 7] = Ok 2%nat /\
  try_expand_int i32 false i32 (-3) [9; -3; 40] = Ok (Some 1%nat) /\
  expand_int bool_ty true bool_ty 1 [1; 0] = Ok 0%nat.
Proof. repeat split; reflexivity. Qed.

(** Arrays of another integral type, provided that all listed values are values of the type of the runtime value. *)
Theorem C12_sound_representable_partial : forall t ct value values,
  standard_width (ity_bits t) -> standard_width (ity_bits ct) ->
  int_value (ity_bits t) (ity_signed t) value -> Forall (int_value (ity_bits ct) (ity_signed ct)) values ->
  Forall (int_value (ity_bits t) (ity_signed t)) values ->
  array_size_ok values ->
  sound (fun k => nth_error values k = Some value)
    (expand_int t false ct value values) (try_expand_int t false ct value values)
    (expand_failfast_int t false ct value values).
Proof. exact expand_sound_representable. Qed.
Print Assumptions C12_sound_representable_partial.

Example C12_example_representable : expand_int u8 false i32 9 [2; 9; 4] = Ok 1%nat /\
  Forall (int_value 8 false) [2; 9; 4].
Proof. split; [reflexivity|]. repeat constructor; cbn; discriminate || lia. Qed.

(** Arrays of any integral type, without conditions: the chosen constant is the value after a conversion to its type (for bool,
    to int). *)
Theorem C12_converted : forall t is_bool ct value values,
  standard_width (ity_bits t) -> standard_width (ity_bits ct) -> (is_bool = true -> t = bool_ty) -> array_size_ok values ->
  let bits := if is_bool then 32 else ity_bits t in
  sound (fun k => exists x, nth_error values k = Some x /\ x mod 2 ^ bits = value mod 2 ^ bits)
    (expand_int t is_bool ct value values) (try_expand_int t is_bool ct value values) (expand_failfast_int t is_bool ct value values).
Proof. exact converted_sound. Qed.
Print Assumptions C12_converted.

Example C12_example_converted :
  expand_int u8 false i32 3 [256; 257; 258; 259] = Ok 3%nat /\ 259 mod 2 ^ 8 = 3 mod 2 ^ 8 /\
  expand_int u32 false i32 4294967295 [7; -1; 3] = Ok 1%nat /\ -1 mod 2 ^ 32 = 4294967295 mod 2 ^ 32 /\
  expand_int bool_ty true i32 1 [2; 1; 0] = Ok 1%nat.
Proof. repeat split; reflexivity. Qed.

(** Other element types: linear search needs no condition at all, binary search needs that values of which none is
    less than the other compare equal. *)
Theorem C12_sound_other_types : forall A B can_order lt_AA lt_AB lt_BA eq_AB (value : B) (values : list A),
  (forall a, In a values -> lt_AB a value = false -> lt_BA value a = false -> eq_AB a value = true) ->
  sound (fun k => exists x, nth_error values k = Some x /\ eq_AB x value = true)
    (expand_other can_order lt_AA lt_AB lt_BA eq_AB value values)
    (try_expand_other can_order lt_AA lt_AB lt_BA eq_AB value values)
    (expand_failfast_other can_order lt_AA lt_AB lt_BA eq_AB value values).
Proof. exact expand_other_sound. Qed.
Print Assumptions C12_sound_other_types.

Theorem C12_sound_unordered_types : forall A B lt_AA lt_AB lt_BA eq_AB (value : B) (values : list A),
  sound (fun k => exists x, nth_error values k = Some x /\ eq_AB x value = true)
    (expand_other false lt_AA lt_AB lt_BA eq_AB value values)
    (try_expand_other false lt_AA lt_AB lt_BA eq_AB value values)
    (expand_failfast_other false lt_AA lt_AB lt_BA eq_AB value values).
Proof. exact expand_unordered_sound. Qed.
Print Assumptions C12_sound_unordered_types.

(** Pairs compared by their first component only: == is coarser than identity. *)
Example C12_example_other :
  expand_other true (fun a b => fst a <? fst b) (fun a b => fst a <? b) (fun b a => b <? fst a)
    (fun a b => fst a =? b) 4 [(1, 7); (4, 8); (6, 9)] = Ok 1%nat.
Proof. reflexivity. Qed.

(** The unconditional claim is false: the constants are converted to the type of the runtime value without a
    check.  The runtime value 0 of a one-byte type selects the int constant 256. *)
Theorem C12_narrowing_refuted :
  exists t ct value values k x,
    standard_width (ity_bits t) /\ standard_width (ity_bits ct) /\
    int_value (ity_bits t) (ity_signed t) value /\ Forall (int_value (ity_bits ct) (ity_signed ct)) values /\
    NoDup values /\
    expand_int t false ct value values = Ok k /\ nth_error values k = Some x /\ x <> value /\
    int_eq ct t x value = false.
Proof.
  exists u8, i32, 0, [256], 0%nat, 256. cbn. unfold standard_width.
  repeat split; try lia; auto; try discriminate. repeat constructor; cbn; lia. repeat constructor; cbn; auto.
Qed.
Print Assumptions C12_narrowing_refuted.

(* ------------------------------------------------------------------------ *)
(** C13: listed values are found, unlisted values are reported, nothing else happens. *)
Theorem C13_exact_partial : forall t is_bool value values,
  standard_width (ity_bits t) -> (is_bool = true -> t = bool_ty) ->
  int_value (ity_bits t) (ity_signed t) value -> Forall (int_value (ity_bits t) (ity_signed t)) values ->
  array_size_ok values -> NoDup values -> values <> [] ->
  largest_last (ity_bits t) (ity_signed t) values ->
  distance_ok (ity_bits t) (ity_signed t) value values ->
  behaves (fun k => nth_error values k = Some value)
    (expand_int t is_bool t value values) (try_expand_int t is_bool t value values)
    (expand_failfast_int t is_bool t value values).
Proof. exact expand_same_type. Qed.
Print Assumptions C13_exact_partial.

Example C13_example :
  largest_last 32 true [7; 3; 2147483647] /\ distance_ok 32 true (-5) [7; 3; 2147483647] /\
  expand_int i32 false i32 2147483647 [7; 3; 2147483647] = Ok 2%nat /\
  expand_int i32 false i32 (-5) [7; 3; 2147483647] = Throw UnsupportedRuntimeValue /\
  try_expand_int i32 false i32 (-5) [7; 3; 2147483647] = Ok None /\
  expand_failfast_int i32 false i32 (-5) [7; 3; 2147483647] = Contract.
Proof.
  split; [|split]; [| |repeat split; reflexivity].
  - intros _ i Hi E. cbn in Hi. destruct i as [|[|i]]; [discriminate|discriminate|lia].
  - intros _ _ H. specialize (H 7 eq_refl 1%nat 3 eq_refl). lia.
Qed.

(** Types narrower than int need no condition on extremes. *)
Theorem C13_exact_narrow : forall t is_bool value values,
  standard_width (ity_bits t) -> ity_bits t < 32 -> (is_bool = true -> t = bool_ty) ->
  int_value (ity_bits t) (ity_signed t) value -> Forall (int_value (ity_bits t) (ity_signed t)) values ->
  array_size_ok values -> NoDup values -> values <> [] ->
  behaves (fun k => nth_error values k = Some value)
    (expand_int t is_bool t value values) (try_expand_int t is_bool t value values)
    (expand_failfast_int t is_bool t value values).
Proof.
  exact (fun t b v vs Hw Hn Hb Hv Hvs Hs Hd He => expand_same_type t b v vs Hw Hb Hv Hvs Hs Hd He
    (fun H => False_ind _ (Zlt_not_le _ _ Hn H)) (fun _ H => False_ind _ (Zlt_not_le _ _ Hn H))).
Qed.
Print Assumptions C13_exact_narrow.

Example C13_example_narrow : expand_int u8 false u8 0 [255; 0] = Ok 1%nat /\
  expand_int (mk_ity 8 true) false (mk_ity 8 true) 127 [-128; -127] = Throw UnsupportedRuntimeValue.
Proof. split; reflexivity. Qed.

(** A repeated or missing constant is rejected at compile time. *)
Theorem C13_repeated_ill_formed : forall t is_bool ct value values,
  values = [] \/ ~ NoDup values ->
  expand_int t is_bool ct value values = IllFormed /\ try_expand_int t is_bool ct value values = IllFormed /\
  expand_failfast_int t is_bool ct value values = IllFormed.
Proof. exact expand_repeated. Qed.
Print Assumptions C13_repeated_ill_formed.

Example C13_example_repeated : expand_int i32 false i32 1 [1; 2; 1] = IllFormed.
Proof. reflexivity. Qed.

(** Without the conditions the claim is false.  A list that wraps around the largest unsigned value counts as
    contiguous, and its second half is not found. *)
Theorem C13_wraparound_refuted :
  exists value values,
    int_value 32 false value /\ Forall (int_value 32 false) values /\ NoDup values /\ In value values /\
    try_expand_int u32 false u32 value values = Ok None.
Proof.
  exists 0, [4294967295; 0]. cbn. repeat split; try lia; auto.
  - repeat constructor; cbn; discriminate || lia.
  - repeat constructor; cbn; intuition discriminate.
Qed.
Print Assumptions C13_wraparound_refuted.

(** A runtime value far away from the first of several consecutive constants overflows. *)
Theorem C13_overflow_refuted :
  exists value values,
    int_value 32 true value /\ Forall (int_value 32 true) values /\ NoDup values /\ ~ In value values /\
    try_expand_int i32 false i32 value values = UB.
Proof.
  exists 2147483647, [-1; 0; 1]. cbn. repeat split; try lia; auto.
  - repeat constructor; cbn; discriminate || lia.
  - repeat constructor; cbn; intuition discriminate.
Qed.
Print Assumptions C13_overflow_refuted.

(** The largest value of a signed type followed by another one is rejected at compile time. *)
Theorem C13_largest_inside_refuted :
  exists value values,
    int_value 32 true value /\ Forall (int_value 32 true) values /\ NoDup values /\ In value values /\
    expand_int i32 false i32 value values = IllFormed.
Proof.
  exists 5, [2147483647; 5]. cbn. repeat split; try lia; auto.
  - repeat constructor; cbn; discriminate || lia.
  - repeat constructor; cbn; intuition discriminate.
Qed.
Print Assumptions C13_largest_inside_refuted.

(** These are all the exceptions: what happens for every list of constants of the type of the value. *)
Theorem C13_characterised : forall t is_bool value values,
  standard_width (ity_bits t) -> (is_bool = true -> t = bool_ty) ->
  int_value (ity_bits t) (ity_signed t) value -> Forall (int_value (ity_bits t) (ity_signed t)) values ->
  array_size_ok values -> NoDup values -> values <> [] ->
  let on_all P := P (expand_int t is_bool t value values) (try_expand_int t is_bool t value values) (expand_failfast_int t is_bool t value values) in
  (passes_largest (ity_bits t) (ity_signed t) values -> on_all (all_of_them (@IllFormed))) /\
  (too_far (ity_bits t) (ity_signed t) value values -> on_all (all_of_them (@UB))) /\
  (wraps_around (ity_bits t) (ity_signed t) values ->
     on_all (behaves (fun k => nth_error values k = Some value /\ exists x0, nth_error values 0 = Some x0 /\ x0 <= value))) /\
  (~ passes_largest (ity_bits t) (ity_signed t) values -> ~ too_far (ity_bits t) (ity_signed t) value values -> ~ wraps_around (ity_bits t) (ity_signed t) values ->
     on_all (behaves (fun k => nth_error values k = Some value))).
Proof.
  intros t is_bool value values H1 H2 H3 H4 H5 H6 H7 on_all. split; [|split; [|split]].
  - apply rejected_largest; auto.
  - apply undefined_far; auto.
  - apply wrapped; auto.
  - apply otherwise; auto.
Qed.
Print Assumptions C13_characterised.

Example C13_example_characterised :
  passes_largest 32 true [2147483646; 2147483647; 5] /\ expand_int i32 false i32 5 [2147483646; 2147483647; 5] = IllFormed /\
  ~ passes_largest 32 true [7; 2147483647; 5] /\ expand_int i32 false i32 5 [7; 2147483647; 5] = Ok 2%nat /\
  too_far 32 true 2147483647 [-2; -1] /\ expand_int i32 false i32 2147483647 [-2; -1] = UB /\
  wraps_around 32 false [4294967294; 4294967295; 0; 1] /\ expand_int u32 false u32 4294967295 [4294967294; 4294967295; 0; 1] = Ok 1%nat /\
  expand_int u32 false u32 1 [4294967294; 4294967295; 0; 1] = Throw UnsupportedRuntimeValue.
Proof.
  repeat split; try reflexivity; try lia.
  - exists 1%nat. repeat split; [cbn; lia|]. intros x0 E [|[|i]] z Ez; cbn in *; injection E as <-; try (injection Ez as <-; lia). destruct i; discriminate.
  - intros (_ & _ & k & K1 & K2 & K3). destruct k as [|[|[|k]]]; cbn in *; try discriminate; try lia. specialize (K2 7 eq_refl 1%nat 2147483647 eq_refl). lia.
  - intros x0 E [|[|i]] z Ez; cbn in *; injection E as <-; try (injection Ez as <-; lia). destruct i; discriminate.
  - exists (-2). split; auto. reflexivity.
  - intros H. specialize (H 4294967294 eq_refl 2%nat 0 eq_refl). lia.
  - exists 4294967294. split; auto. intros [|[|[|[|i]]]] x E; cbn in E; try (injection E as <-; reflexivity). destruct i; discriminate.
Qed.

(* ------------------------------------------------------------------------ *)
(** C14: types with a consistent order, in particular floating point without NaN (signed zeros and infinities
    included). *)
Theorem C14_consistent_order : forall A B can_order lt_AA lt_AB lt_BA eq_AB (value : B) (values : list A),
  values <> [] ->
  consistent lt_AA lt_AB lt_BA eq_AB (fun a => In a values) value ->
  (forall a, In a values -> lt_AA a a = false) ->
  behaves (fun k => exists x, nth_error values k = Some x /\ eq_AB x value = true)
    (expand_other can_order lt_AA lt_AB lt_BA eq_AB value values)
    (try_expand_other can_order lt_AA lt_AB lt_BA eq_AB value values)
    (expand_failfast_other can_order lt_AA lt_AB lt_BA eq_AB value values).
Proof. exact expand_other_complete. Qed.
Print Assumptions C14_consistent_order.

Theorem C14_floating_point_partial : forall value values,
  values <> [] -> value <> S754_nan -> (forall a, In a values -> a <> S754_nan) ->
  behaves (fun k => exists x, nth_error values k = Some x /\ SFeqb x value = true)
    (expand_other true SFltb SFltb SFltb SFeqb value values)
    (try_expand_other true SFltb SFltb SFltb SFeqb value values)
    (expand_failfast_other true SFltb SFltb SFltb SFeqb value values).
Proof. exact expand_float_complete. Qed.
Print Assumptions C14_floating_point_partial.

Example C14_example :
  expand_other true SFltb SFltb SFltb SFeqb (S754_zero true) [f1; S754_zero false; f3] = Ok 1%nat /\
  expand_other true SFltb SFltb SFltb SFeqb f2 [S754_infinity true; f1; f2; f3] = Ok 2%nat.
Proof. split; reflexivity. Qed.

(** A runtime NaN selects some constant of a sorted array. *)
Theorem C14_nan_value_refuted :
  exists (value : spec_float) values k x,
    (forall a, In a values -> a <> S754_nan) /\
    expand_other true SFltb SFltb SFltb SFeqb value values = Ok k /\
    nth_error values k = Some x /\ SFeqb x value = false.
Proof.
  exists S754_nan, [f1; f2], 1%nat, f2. repeat split; auto.
  intros a [<-|[<-|[]]]; discriminate.
Qed.
Print Assumptions C14_nan_value_refuted.

(** A listed NaN makes an unsorted array count as sorted; a listed, self-equal value is then mapped to NaN. *)
Theorem C14_nan_listed_refuted :
  exists (value : spec_float) values k x,
    In value values /\ SFeqb value value = true /\
    expand_other true SFltb SFltb SFltb SFeqb value values = Ok k /\
    nth_error values k = Some x /\ SFeqb x value = false.
Proof. exists f1, [f3; S754_nan; f1], 1%nat, S754_nan. repeat split; cbn; auto. Qed.
Print Assumptions C14_nan_listed_refuted.

(** What happens to a runtime NaN, exactly: unless some constant is less than its predecessor, the second constant is chosen,
    whatever it is. *)
Theorem C14_nan_value_chosen : forall values : list spec_float,
  (forall i x y, nth_error values i = Some x -> nth_error values (S i) = Some y -> SFltb y x = false) -> (2 <= length values)%nat ->
  expand_other true SFltb SFltb SFltb SFeqb S754_nan values = Ok 1%nat /\ try_expand_other true SFltb SFltb SFltb SFeqb S754_nan values = Ok (Some 1%nat) /\
  expand_failfast_other true SFltb SFltb SFltb SFeqb S754_nan values = Ok 1%nat.
Proof. intros values Hs Hn. apply incomparable_exact; auto. intros a _. destruct a as [[]|[]| |[] m e]; split; reflexivity. Qed.
Print Assumptions C14_nan_value_chosen.

(** If some constant is less than its predecessor, or if there is only one, the lookup is exact for all values and constants,
    NaN included. *)
Theorem C14_unsorted_exact : forall (value : spec_float) values,
  (exists i x y, nth_error values i = Some x /\ nth_error values (S i) = Some y /\ SFltb y x = true) \/ (exists x, values = [x]) ->
  behaves (fun k => exists x, nth_error values k = Some x /\ SFeqb x value = true)
    (expand_other true SFltb SFltb SFltb SFeqb value values) (try_expand_other true SFltb SFltb SFltb SFeqb value values)
    (expand_failfast_other true SFltb SFltb SFltb SFeqb value values).
Proof.
  intros value values [(i & x & y & H1 & H2 & H3)|[x ->]]; [exact (unsorted_exact _ _ SFltb SFltb SFltb SFeqb value values i x y H1 H2 H3)|].
  unfold behaves, expand_other, try_expand_other, expand_failfast_other, expand, try_expand, expand_failfast, search_other, search_ordered, binary_search. cbn -[SFeqb SFltb].
  destruct (SFeqb x value) eqn:E; [left|right].
  - exists 0%nat. split; [exists x; auto|]. auto.
  - split; [|auto]. intros [|k] (z & Ez & Hz); cbn in Ez; [injection Ez as <-; congruence|destruct k; discriminate].
Qed.
Print Assumptions C14_unsorted_exact.

Example C14_example_nan :
  expand_other true SFltb SFltb SFltb SFeqb S754_nan [f1; f2; f3; f3; f3] = Ok 1%nat /\
  expand_other true SFltb SFltb SFltb SFeqb S754_nan [f1; f3; f2] = Throw UnsupportedRuntimeValue /\
  expand_other true SFltb SFltb SFltb SFeqb f2 [f3; f1; S754_nan; f2] = Ok 3%nat.
Proof. repeat split; reflexivity. Qed.

(* ------------------------------------------------------------------------ *)
(** C15: the reflected values of an enumeration. *)
Theorem C15_reflected_values_partial : forall t value vs,
  standard_width (ity_bits t) ->
  int_value (ity_bits t) (ity_signed t) value -> Forall (int_value (ity_bits t) (ity_signed t)) vs ->
  Z.of_nat (length vs) < 2 ^ 31 -> NoDup vs ->
  largest_last (ity_bits t) (ity_signed t) vs ->
  In value vs ->
  exists k, nth_error vs k = Some value /\
    expand_meta t false value (Some vs) = Ok k /\ try_expand_meta t false value (Some vs) = Ok (Some k) /\
    expand_failfast_meta t false value (Some vs) = Ok k.
Proof. exact expand_reflected. Qed.
Print Assumptions C15_reflected_values_partial.

Theorem C15_unreflected_values_partial : forall t value vs,
  standard_width (ity_bits t) ->
  int_value (ity_bits t) (ity_signed t) value -> Forall (int_value (ity_bits t) (ity_signed t)) vs ->
  Z.of_nat (length vs) < 2 ^ 31 -> NoDup vs -> vs <> [] ->
  largest_last (ity_bits t) (ity_signed t) vs ->
  distance_ok (ity_bits t) (ity_signed t) value vs ->
  ~ In value vs ->
  expand_meta t false value (Some vs) = Throw UnsupportedRuntimeValue /\
  try_expand_meta t false value (Some vs) = Ok None /\
  expand_failfast_meta t false value (Some vs) = Contract.
Proof. exact expand_unreflected. Qed.
Print Assumptions C15_unreflected_values_partial.

(** Parsing a name and expanding the result selects the constant with that name. *)
Theorem C15_parse_then_expand_partial : forall t (src : enum_source Z) vs ns,
  aligned (src_values src) (src_names src) vs ns ->
  Forall (name_ok enum_reserved) ns ->
  standard_width (ity_bits t) -> Forall (int_value (ity_bits t) (ity_signed t)) vs ->
  Z.of_nat (length vs) < 2 ^ 31 -> NoDup vs -> NoDup ns ->
  largest_last (ity_bits t) (ity_signed t) vs ->
  forall s n k, padded s n -> nth_error ns k = Some n ->
    exists v, api_parse_enum src s = Ok v /\ nth_error vs k = Some v /\
      expand_meta t false v (src_values src) = Ok k.
Proof. exact parse_then_expand. Qed.
Print Assumptions C15_parse_then_expand_partial.

Example C15_example :
  expand_meta i32 false (-5) (Some [0; 1; -5]) = Ok 2%nat /\
  (do v <- api_parse_enum (mk_source None None (Some [10; 11; 12]) (Some [lit "a"; lit "b"; lit "c"])) (lit " b ");
   expand_meta i32 false v (Some [10; 11; 12])) = Ok 1%nat.
Proof. split; reflexivity. Qed.

(** The condition on the largest value is needed: a reflected value is not found. *)
Theorem C15_wraparound_refuted :
  exists value vs, int_value 32 false value /\ Forall (int_value 32 false) vs /\ NoDup vs /\ In value vs /\
    expand_meta u32 false value (Some vs) = Throw UnsupportedRuntimeValue.
Proof.
  exists 0, [4294967295; 0]. cbn. repeat split; try lia; auto.
  - repeat constructor; cbn; discriminate || lia.
  - repeat constructor; cbn; intuition discriminate.
Qed.
Print Assumptions C15_wraparound_refuted.

(** Without metadata of the values, the one-argument forms do not compile. *)
Theorem C15_no_metadata_rejected : forall t is_bool value,
  expand_meta t is_bool value None = IllFormed /\ try_expand_meta t is_bool value None = IllFormed /\ expand_failfast_meta t is_bool value None = IllFormed.
Proof. intros. repeat split. Qed.
Print Assumptions C15_no_metadata_rejected.
