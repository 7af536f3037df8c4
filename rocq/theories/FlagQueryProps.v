(** Theorems about the queries of flags: C62. *)

From Coq Require Import ZArith Bool Lia List.
From Verif Require Import Base ExpandModel ExpandSpec ExpandProofs FlagQueryModel FlagQuerySpec FlagQueryProofs.
Local Open Scope Z_scope.

(** For all integral types of up to 64 bits and all values [h], [n] of them. *)
Theorem C62_any_no_all : forall bits signed h n, 1 <= bits <= 64 -> int_value bits signed h -> int_value bits signed n ->
  let t := mk_ity bits signed in
  (has_any_flag_of t h n = true <-> some_bit bits h n) /\
  (has_no_flag_of t h n = true <-> ~ some_bit bits h n) /\
  (has_all_flags_of t h n = true <-> all_bits bits h n).
Proof.
  intros bits signed h n Hb Hh Hn t. assert (Ht : ity_ok t) by exact Hb.
  assert (Ih : in_ity t h = true) by (apply in_ity_iff; exact Hh). assert (In : in_ity t n = true) by (apply in_ity_iff; exact Hn).
  pose proof (none_spec t h n Ht Ih In) as S. split; [|split; [exact S|exact (all_spec t h n Ht Ih In)]].
  unfold has_any_flag_of. rewrite negb_true_iff. change bits with (ity_bits t). destruct (Z.eqb (bit_and t h n) 0) eqn:E.
  - split; [discriminate|]. intro H. exfalso. apply (proj1 S eq_refl H).
  - split; auto. intros _. destruct (Z.eq_dec (bit_and t h n) 0) as [Z0|NZ]; [apply Z.eqb_eq in Z0; congruence|].
    (* find a bit of the conjunction *)
    set (x := bit_and t h n) in *.
    assert (X : x mod 2 ^ bits <> 0).
    { intro M. apply NZ. apply (same_class_eq t); [apply Ht|apply bit_and_in; auto|apply zero_in; auto|]. cbn [ity_bits t]. rewrite M. symmetry. apply Z.mod_0_l. apply Z.pow_nonzero; lia. }
    pose proof (Z.mod_pos_bound x (2 ^ bits) ltac:(apply Z.pow_pos_nonneg; lia)) as Bd.
    set (y := x mod 2 ^ bits) in *. assert (Y : Z.testbit y (Z.log2 y) = true) by (apply Z.bit_log2; lia).
    assert (L : 0 <= Z.log2 y < bits) by (split; [apply Z.log2_nonneg|apply Z.log2_lt_pow2; lia]).
    unfold y in Y at 1. rewrite Z.mod_pow2_bits_low in Y by lia. unfold x in Y. rewrite bit_and_bits in Y by (auto; cbn; lia).
    apply andb_true_iff in Y as [Y1 Y2]. exists (Z.log2 y). cbn [ity_bits t]. rewrite !bit_iff. auto.
Qed.
Example C62_queries_example : let t := mk_ity 8 true in
  has_any_flag_of t (-128) (-127) = true /\ has_all_flags_of t (-127) (-128) = true /\ has_all_flags_of t (-128) (-127) = false /\ has_no_flag_of t 12 3 = true /\
  int_value 8 true (-128) /\ int_value 8 true (-127).
Proof. unfold int_value. repeat split; vm_compute; congruence. Qed.

(** The single-flag test: exact except for the sign bit of signed types. *)
Theorem C62_single_flag_partial : forall bits signed v, 1 <= bits <= 64 -> int_value bits signed v ->
  exists b, is_flag_power_of_2 (mk_ity bits signed) v = Ok b /\
    (b = true <-> exists i, only_bit bits v i /\ ~ (signed = true /\ i = bits - 1)).
Proof.
  intros bits signed v Hb Hv. set (t := mk_ity bits signed). assert (Ht : ity_ok t) by exact Hb.
  assert (Iv : in_ity t v = true) by (apply in_ity_iff; exact Hv). rewrite (flag_value t v Ht Iv). eexists. split; [reflexivity|].
  rewrite andb_true_iff, Z.ltb_lt, Z.eqb_eq. unfold int_value in Hv. destruct (pow_split bits) as [P1 P2]; [lia|]. split.
  - intros [H0 L]. apply land_pred in L; auto. exists (Z.log2 v).
    assert (V : 0 < v < 2 ^ bits) by (destruct signed; lia).
    assert (W : 0 <= Z.log2 v < bits) by (split; [apply Z.log2_nonneg|apply Z.log2_lt_pow2; lia]).
    split; [apply only_bit_pow; auto|]. intros [Hs E]. rewrite Hs in Hv. rewrite E in L. lia.
  - intros (i & O & N). destruct (Z.lt_trichotomy v 0) as [H|[H|H]].
    + exfalso. destruct signed; [|lia]. apply N. split; auto.
      assert (B : bit bits v (bits - 1)). { apply bit_iff. split; [lia|]. rewrite <- (Z.mod_pow2_bits_low v bits) by lia.
        replace (v mod 2 ^ bits) with (v + 2 ^ bits) by (apply Z.mod_unique with (q := -1); lia).
        rewrite Z.testbit_true by lia. replace ((v + 2 ^ bits) / 2 ^ (bits - 1)) with 1; [reflexivity|]. apply Z.div_unique with (r := v + 2 ^ bits - 2 ^ (bits - 1)); lia. }
      symmetry. apply O, B.
    + exfalso. subst v. destruct O as [B _]. apply bit_iff in B. rewrite Z.bits_0 in B. destruct B; discriminate.
    + split; auto. apply land_pred; auto. assert (V : 0 < v < 2 ^ bits) by (destruct signed; lia). apply only_bit_pow in O; auto. destruct O as [Hi E]. rewrite <- (log_unique v i) by (auto; lia). exact E.
Qed.
(** The full claim is refuted: the flag in the sign bit of a signed type is not accepted as a single flag. *)
Theorem C62_sign_bit_rejected : forall bits, 1 <= bits <= 64 ->
  let v := - 2 ^ (bits - 1) in
  int_value bits true v /\ only_bit bits v (bits - 1) /\
  is_flag_power_of_2 (mk_ity bits true) v = Ok false /\
  (forall h, has_flag true (mk_ity bits true) h v = Contract) /\ (forall h, has_flag_c (mk_ity bits true) v h = IllFormed).
Proof.
  intros bits Hb v. destruct (pow_split bits) as [P1 P2]; [lia|].
  assert (V : int_value bits true v) by (unfold int_value, v; lia). split; [exact V|].
  assert (F : is_flag_power_of_2 (mk_ity bits true) v = Ok false).
  { rewrite flag_value; [|exact Hb|apply in_ity_iff; exact V]. destruct (Z.ltb_spec 0 v); [unfold v in *; lia|reflexivity]. }
  split; [|split; [exact F|split; intro h; unfold has_flag, has_flag_c; rewrite F; reflexivity]].
  assert (M : v mod 2 ^ bits = 2 ^ (bits - 1)) by (symmetry; apply Z.mod_unique with (q := -1); unfold v; lia).
  assert (B : forall j, 0 <= j < bits -> Z.testbit v j = (bits - 1 =? j)).
  { intros j Hj. rewrite <- (Z.mod_pow2_bits_low v bits) by lia. rewrite M. apply Z.pow2_bits_eqb. lia. }
  split; [apply bit_iff; split; [lia|rewrite B by lia; apply Z.eqb_refl]|]. intros j Bj. apply bit_iff in Bj as [Hj Bj]. rewrite B in Bj by auto. apply Z.eqb_eq in Bj. auto.
Qed.
Theorem C62_sign_bit_refuted : exists bits v, 1 <= bits <= 64 /\ int_value bits true v /\ only_bit bits v (bits - 1) /\
  is_flag_power_of_2 (mk_ity bits true) v = Ok false.
Proof. exists 32, (- 2 ^ 31). split; [lia|]. destruct (C62_sign_bit_rejected 32 ltac:(lia)) as (A & B & C & _). auto. Qed.
(** has_flag() in both forms, if the flag is accepted; without audit checks it is has_all_flags_of(). *)
Theorem C62_has_flag_partial : forall bits signed h n i, 1 <= bits <= 64 -> int_value bits signed h -> int_value bits signed n ->
  only_bit bits n i -> ~ (signed = true /\ i = bits - 1) ->
  exists b, (b = true <-> bit bits h i) /\ (forall audit, has_flag audit (mk_ity bits signed) h n = Ok b) /\ has_flag_c (mk_ity bits signed) n h = Ok b.
Proof.
  intros bits signed h n i Hb Hh Hn O NS. destruct (C62_single_flag_partial bits signed n Hb Hn) as (ok & F & Fs).
  assert (ok = true) by (apply Fs; eauto). subst ok. set (t := mk_ity bits signed) in *. exists (Z.eqb (bit_and t h n) n). split.
  - destruct (C62_any_no_all bits signed h n Hb Hh Hn) as (_ & _ & A). unfold has_all_flags_of in A. fold t in A. rewrite A. split; [intro H; apply H, O|]. intros Bi j Bj. apply O in Bj. subst j. exact Bi.
  - unfold has_flag, has_flag_c. rewrite F. split; [intros []; reflexivity|reflexivity].
Qed.
Theorem C62_not_a_flag : forall bits signed h n, 1 <= bits <= 64 -> int_value bits signed h -> int_value bits signed n ->
  (~ exists i, only_bit bits n i) ->
  has_flag true (mk_ity bits signed) h n = Contract /\ has_flag_c (mk_ity bits signed) n h = IllFormed /\
  exists b, has_flag false (mk_ity bits signed) h n = Ok b /\ (b = true <-> all_bits bits h n).
Proof.
  intros bits signed h n Hb Hh Hn N. destruct (C62_single_flag_partial bits signed n Hb Hn) as (ok & F & Fs).
  destruct ok. { destruct (proj1 Fs eq_refl) as (i & O & _). exfalso. eauto. }
  unfold has_flag, has_flag_c. rewrite F. split; [reflexivity|]. split; [reflexivity|]. eexists. split; [reflexivity|].
  apply (C62_any_no_all bits signed h n Hb Hh Hn).
Qed.
Example C62_has_flag_example : only_bit 8 4 2 /\ has_flag true (mk_ity 8 true) 6 4 = Ok true /\ has_flag true (mk_ity 8 true) 3 4 = Ok false /\
  has_flag true (mk_ity 32 false) 3 (2 ^ 31) = Ok false /\ has_flag true (mk_ity 32 true) (- 2 ^ 31) (- 2 ^ 31) = Contract /\ has_flag true (mk_ity 8 true) 7 6 = Contract /\ has_flag_c (mk_ity 8 true) 6 7 = IllFormed.
Proof. split; [apply only_bit_pow; lia|]. repeat split; vm_compute; reflexivity. Qed.
Print Assumptions C62_any_no_all.
Print Assumptions C62_single_flag_partial.
Print Assumptions C62_sign_bit_rejected.
Print Assumptions C62_sign_bit_refuted.
Print Assumptions C62_has_flag_partial.
Print Assumptions C62_not_a_flag.
