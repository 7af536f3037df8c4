(** Properties of shuffle() and the permutation algorithms: C30-C33. *)

From Coq Require Import ZArith Arith List Permutation Lia.
From Verif Require Import Base ExpandModel ExpandSpec PermModel PermSpec PermProofs.
Import ListNotations.
Local Open Scope Z_scope.

(** C30: every random source that respects the requested bounds yields a permutation; the requests are
    [0, n-1], [0, n-2], ..., [0, 1]. *)
Theorem C30_shuffle_permutes : forall A S (dist : S -> Z -> Z -> S * Z),
  (forall s i, 0 < i -> 0 <= snd (dist s 0 i) <= i) ->
  forall s (es : list A), exists s' es',
    shuffle dist s es = Ok (s', es', map (fun k => (0, Z.of_nat k)) (rev (seq 1 (length es - 1)))) /\
    Permutation es es'.
Proof. exact shuffle_permutes. Qed.
Print Assumptions C30_shuffle_permutes.

(** Distinct draw sequences and permutations correspond one to one. *)
Theorem C30_shuffle_unbiased : forall A (es es' : list A), NoDup es -> Permutation es es' ->
  exists ds, draws_ok (length es - 1) ds /\
    shuffle scripted ds es = Ok ([], es', map (fun k => (0, Z.of_nat k)) (rev (seq 1 (length es - 1)))) /\
    forall ds', draws_ok (length es - 1) ds' ->
      shuffle scripted ds' es = Ok ([], es', map (fun k => (0, Z.of_nat k)) (rev (seq 1 (length es - 1)))) ->
      ds' = ds.
Proof. exact shuffle_unique_draws. Qed.
Print Assumptions C30_shuffle_unbiased.

Theorem C30_every_draw_sequence : forall A (es : list A) ds, draws_ok (length es - 1) ds ->
  exists es', shuffle scripted ds es = Ok ([], es', map (fun k => (0, Z.of_nat k)) (rev (seq 1 (length es - 1)))) /\
    Permutation es es'.
Proof. exact shuffle_scripted. Qed.
Print Assumptions C30_every_draw_sequence.

Example C30_example :
  shuffle scripted [0; 2; 1] [10; 11; 12; 13] = Ok ([], [13; 11; 12; 10], [(0, 3); (0, 2); (0, 1)]) /\
  draws_ok 3 [0; 2; 1] /\
  (forall s i, 0 < i -> 0 <= snd ((fun (s : Z) (_ i : Z) => (s + 1, (s * 7) mod (i + 1))) s 0 i) <= i).
Proof.
  split; [reflexivity|]. split.
  - cbn. exists 0, [2; 1]. repeat split; try lia. exists 2, [1]. repeat split; try lia. exists 1, []. repeat split; lia.
  - intros s i Hi. cbn. pose proof (Z.mod_pos_bound (s * 7) (i + 1)). lia.
Qed.

(** C31. [diff] is the integral type of the indices, which must be able to represent the number of elements. *)
Theorem C31_apply_permutation : forall A diff (es : list A) idx,
  1 <= ity_bits diff -> int_value (ity_bits diff) (ity_signed diff) (Z.of_nat (length es)) ->
  is_permutation (length es) idx ->
  exists st, apply_permutation diff es idx = Ok (Finished, st) /\
    gathered es idx (ps_elems st) /\ ps_idx st = identity (length es).
Proof. exact apply_permutation_ok. Qed.
Print Assumptions C31_apply_permutation.

Example C31_example : is_permutation 4 [2; 0; 1; 3] /\
  exists st, apply_permutation (mk_ity 32 true) [10; 11; 12; 13] [2; 0; 1; 3] = Ok (Finished, st) /\
    ps_elems st = [12; 10; 11; 13] /\ ps_idx st = [0; 1; 2; 3].
Proof.
  split; [|eexists; repeat split; reflexivity].
  unfold is_permutation, identity. cbn. apply NoDup_Permutation_bis.
  - repeat constructor; cbn; intuition discriminate.
  - auto.
  - intros x; cbn; intuition.
Qed.

(** The condition on the index type is needed: 128 elements with int8_t indices are silently left alone. *)
Theorem C31_index_type_refuted :
  exists (es : list Z) idx st, is_permutation (length es) idx /\ Forall (int_value 8 true) idx /\
    apply_permutation (mk_ity 8 true) es idx = Ok (Finished, st) /\ ps_elems st = es /\
    ~ gathered es idx (ps_elems st).
Proof.
  exists (identity 128), (rev (identity 128)), (mk_ps (identity 128) (rev (identity 128)) []).
  split; [apply Permutation_sym, Permutation_rev|]. split.
  - apply Forall_forall. intros x Hx. apply in_rev in Hx. apply identity_in in Hx. cbn in *. lia.
  - split; [vm_compute; reflexivity|]. split; auto. intros [_ H].
    specialize (H 0%nat 127%nat). cbn in H. specialize (H eq_refl). discriminate.
Qed.
Print Assumptions C31_index_type_refuted.

(** C32. *)
Theorem C32_apply_reverse_permutation : forall A diff (es : list A) idx,
  1 <= ity_bits diff -> int_value (ity_bits diff) (ity_signed diff) (Z.of_nat (length es)) ->
  is_permutation (length es) idx ->
  exists st, apply_reverse_permutation diff es idx = Ok (Finished, st) /\
    scattered es idx (ps_elems st) /\ ps_idx st = identity (length es).
Proof. exact apply_reverse_permutation_ok. Qed.
Print Assumptions C32_apply_reverse_permutation.

Theorem C32_reverse_undoes_apply : forall A diff diff' (es : list A) idx,
  1 <= ity_bits diff -> int_value (ity_bits diff) (ity_signed diff) (Z.of_nat (length es)) ->
  1 <= ity_bits diff' -> int_value (ity_bits diff') (ity_signed diff') (Z.of_nat (length es)) ->
  is_permutation (length es) idx ->
  exists st st', apply_permutation diff es idx = Ok (Finished, st) /\
    apply_reverse_permutation diff' (ps_elems st) idx = Ok (Finished, st') /\ ps_elems st' = es.
Proof. exact undo. Qed.
Print Assumptions C32_reverse_undoes_apply.

Theorem C32_apply_undoes_reverse : forall A diff diff' (es : list A) idx,
  1 <= ity_bits diff -> int_value (ity_bits diff) (ity_signed diff) (Z.of_nat (length es)) ->
  1 <= ity_bits diff' -> int_value (ity_bits diff') (ity_signed diff') (Z.of_nat (length es)) ->
  is_permutation (length es) idx ->
  exists st st', apply_reverse_permutation diff es idx = Ok (Finished, st) /\
    apply_permutation diff' (ps_elems st) idx = Ok (Finished, st') /\ ps_elems st' = es.
Proof. exact undo_reverse. Qed.
Print Assumptions C32_apply_undoes_reverse.

Example C32_example :
  exists st, apply_reverse_permutation (mk_ity 32 true) [10; 11; 12; 13] [2; 0; 1; 3] = Ok (Finished, st) /\
    ps_elems st = [11; 12; 10; 13] /\ ps_idx st = [0; 1; 2; 3].
Proof. eexists; repeat split; reflexivity. Qed.

(** C33: any index array of the right length. *)
Theorem C33_apply_detects : forall A diff (es : list A) idx,
  1 <= ity_bits diff -> int_value (ity_bits diff) (ity_signed diff) (Z.of_nat (length es)) ->
  length idx = length es ->
  exists e st, apply_permutation diff es idx = Ok (e, st) /\
    (e = Violation <-> ~ is_permutation (length es) idx) /\
    Permutation es (ps_elems st) /\ Forall (Permutation es) (ps_log st).
Proof. exact apply_detects. Qed.
Print Assumptions C33_apply_detects.

Theorem C33_reverse_detects : forall A diff (es : list A) idx,
  1 <= ity_bits diff -> int_value (ity_bits diff) (ity_signed diff) (Z.of_nat (length es)) ->
  length idx = length es ->
  exists e st, apply_reverse_permutation diff es idx = Ok (e, st) /\
    (e = Violation <-> ~ is_permutation (length es) idx) /\
    Permutation es (ps_elems st) /\ Forall (Permutation es) (ps_log st).
Proof. exact reverse_detects. Qed.
Print Assumptions C33_reverse_detects.

Example C33_example :
  (exists st, apply_permutation (mk_ity 32 true) [10; 11; 12; 13] [1; 2; 1; 3] = Ok (Violation, st) /\
     ps_elems st = [11; 10; 12; 13] /\ length (ps_log st) = 3%nat) /\
  (exists st, apply_permutation (mk_ity 32 true) [10; 11] [-1; 0] = Ok (Violation, st)) /\
  (exists st, apply_reverse_permutation (mk_ity 64 false) [10; 11; 12] [2; 3; 0] = Ok (Violation, st)) /\
  (exists st, apply_reverse_permutation (mk_ity 64 true) [10; 11; 12] [1; 1; 2] = Ok (Violation, st)).
Proof. repeat split; eexists; repeat split; vm_compute; reflexivity. Qed.
