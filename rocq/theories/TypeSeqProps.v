(** C19, C20, C59: operations on type lists. *)

From Coq Require Import ZArith Arith Bool List.
From Verif Require Import Base TypeSeqModel TypeSeqSpec TypeSeqProofs.
Import ListNotations.

(** C19.  unique_sequence_t<> keeps one copy of every type, ordered by last occurrence. *)
Theorem C19_unique_sequence : forall (T : Type) (eq_dec : forall a b : T, {a = b} + {a <> b}) ts,
  NoDup (unique_sequence eq_dec ts) /\
  (forall t, In t (unique_sequence eq_dec ts) <-> In t ts) /\
  sublist (unique_sequence eq_dec ts) ts /\
  (forall a b i j, last_position ts a i -> last_position ts b j ->
     (before (unique_sequence eq_dec ts) a b <-> i < j)).
Proof. exact @unique_sequence_spec. Qed.
Print Assumptions C19_unique_sequence.

Theorem C19_filter_sequence : forall (T : Type) (eq_dec : forall a b : T, {a = b} + {a <> b}) (pred : T -> bool) ts,
  sublist (filter_sequence pred ts) ts /\
  (forall t, In t (filter_sequence pred ts) <-> In t ts /\ pred t = true) /\
  (forall t, pred t = true -> count_occ eq_dec (filter_sequence pred ts) t = count_occ eq_dec ts t).
Proof. exact @filter_sequence_spec. Qed.
Print Assumptions C19_filter_sequence.

Theorem C19_type_sequence_cat : forall (T : Type) (seqs : list (list T)), type_sequence_cat seqs = concat seqs.
Proof. exact @cat_spec. Qed.
Print Assumptions C19_type_sequence_cat.

Example C19_unique_nontrivial : unique_sequence Nat.eq_dec [1; 2; 1; 3; 2; 4] = [1; 3; 2; 4] /\
  last_position [1; 2; 1; 3; 2; 4] 2 4.
Proof. split; [reflexivity|]. split; [reflexivity|]. intros [|[|[|[|[|[|j]]]]]] H; cbn; try discriminate; try (exfalso; Lia.lia). destruct j; discriminate. Qed.
Example C19_filter_nontrivial : filter_sequence Nat.even [1; 2; 1; 4; 2] = [2; 4; 2].
Proof. reflexivity. Qed.
Example C19_cat_nontrivial : type_sequence_cat [[1; 2]; []; [3]; [1]] = [1; 2; 3; 1].
Proof. reflexivity. Qed.

(** C20.  Lookups. *)
Theorem C20_search_type_pack_index : forall (T : Type) (eq_dec : forall a b : T, {a = b} + {a <> b}) t ts,
  (forall p, search_type_pack_index eq_dec t ts = Z.of_nat p <-> only_position (eq t) ts p) /\
  ((search_type_pack_index eq_dec t ts < 0)%Z <-> ~ exists p, only_position (eq t) ts p).
Proof. exact @search_type_pack_index_spec. Qed.
Print Assumptions C20_search_type_pack_index.

Theorem C20_type_pack_index : forall (T : Type) (eq_dec : forall a b : T, {a = b} + {a <> b}) t ts,
  (forall z, type_pack_index eq_dec t ts = Ok z <-> exists p, z = Z.of_nat p /\ only_position (eq t) ts p) /\
  (type_pack_index eq_dec t ts = IllFormed <-> ~ exists p, only_position (eq t) ts p).
Proof. exact @type_pack_index_spec. Qed.
Print Assumptions C20_type_pack_index.

Theorem C20_search_tuple_element_index : forall (T : Type) (eq_dec : forall a b : T, {a = b} + {a <> b}) t ts,
  (forall p, search_tuple_element_index eq_dec t ts = Z.of_nat p <-> only_position (eq t) ts p) /\
  ((search_tuple_element_index eq_dec t ts < 0)%Z <-> ~ exists p, only_position (eq t) ts p).
Proof. exact @element_index_spec. Qed.
Print Assumptions C20_search_tuple_element_index.

Theorem C20_search_first_tuple_element_index : forall (T : Type) (eq_dec : forall a b : T, {a = b} + {a <> b}) t ts,
  (forall p, search_first_tuple_element_index eq_dec t ts = Z.of_nat p <-> first_position (eq t) ts p) /\
  ((search_first_tuple_element_index eq_dec t ts < 0)%Z <-> ~ In t ts).
Proof. exact @first_element_index_spec. Qed.
Print Assumptions C20_search_first_tuple_element_index.

Theorem C20_is_in : forall (T : Type) (eq_dec : forall a b : T, {a = b} + {a <> b}) t ts,
  is_in eq_dec t ts = true <-> In t ts.
Proof. exact @is_in_iff. Qed.
Print Assumptions C20_is_in.

(** The common type of a list is found iff all types agree. *)
Theorem C20_equal_types : forall (T : Type) (eq_dec : forall a b : T, {a = b} + {a <> b}) ts t,
  equal_types eq_dec ts = Some t <-> ts <> [] /\ forall u, In u ts -> u = t.
Proof. exact @equal_types_spec. Qed.
Print Assumptions C20_equal_types.

(** is_in_v<> is false for every type, also for one that occurs. *)
Theorem C20_is_in_v_refuted : exists (t : bool) ts, In t ts /\ is_in_v bool_dec t ts = false.
Proof. exists true, [false; true]. split; [cbn; auto|reflexivity]. Qed.
Print Assumptions C20_is_in_v_refuted.

Example C20_nontrivial :
  search_type_pack_index Nat.eq_dec 3 [1; 2; 3; 1] = 2%Z /\ search_type_pack_index Nat.eq_dec 1 [1; 2; 3; 1] = (-1)%Z /\
  search_tuple_element_index Nat.eq_dec 1 [1; 2; 3; 1] = (-2)%Z /\ search_first_tuple_element_index Nat.eq_dec 1 [2; 1; 3; 1] = 1%Z /\
  type_pack_index Nat.eq_dec 3 [1; 2; 3] = Ok 2%Z /\ equal_types Nat.eq_dec [4; 4; 4] = Some 4.
Proof. repeat split. Qed.

(** C59.  variant_cat_t<> concatenates one or two variants ... *)
Theorem C59_variant_cat_partial : forall (T : Type) (vs : list (list T)),
  length vs = 1 \/ length vs = 2 -> variant_cat vs = Ok (concat vs).
Proof.
  intros T [|a [|b [|c r]]] [H|H]; try discriminate H; cbn; rewrite ?app_nil_r; reflexivity.
Qed.
Print Assumptions C59_variant_cat_partial.

(** ... and drops the alternatives of any further ones. *)
Theorem C59_variant_cat_refuted : exists vs : list (list nat), vs <> [] /\ variant_cat vs <> Ok (concat vs).
Proof. exists [[1]; [2]; [3]]. split; discriminate. Qed.
Print Assumptions C59_variant_cat_refuted.
Example C59_nontrivial : variant_cat [[1; 2]; [3]] = Ok [1; 2; 3].
Proof. reflexivity. Qed.
