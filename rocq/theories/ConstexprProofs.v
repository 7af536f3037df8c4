(** Proofs about evaluation in constant expressions. *)

From Coq Require Import String Ascii ZArith NArith Arith Bool List Lia Permutation.
From Verif Require Import Base ZipModel ZipSpec ZipProofs ZipLoopProofs ZipAlgoProofs ZipProps ProtoCountProofs.
From Verif Require Import ExpandModel ExpandSpec ExpandProofs PermModel PermSpec PermProofs.
From Verif Require Import SerializeModel SerializeSpec SerializeProofs SerializeProps ConstexprModel ConstexprSpec.
Import ListNotations.
Local Open Scope Z_scope.

(** * Algorithms *)

Lemma zip_loop_ext : forall St R (body : St -> list ref -> St * outcome (option R)) e1 e2, (forall it, e1 it = e2 it) ->
  forall fuel it s, zip_loop body fuel e1 it s = zip_loop body fuel e2 it s.
Proof.
  intros St R body e1 e2 H. induction fuel as [|fuel IH]; intros it s; cbn [zip_loop]; [reflexivity|]. rewrite H.
  destruct (e2 it) as [[|]| | | | |]; try reflexivity. destruct (zip_deref it); try reflexivity.
  destruct (body s a) as [s' [[|]| | | | |]]; try reflexivity. destruct (zip_inc it); try reflexivity. apply IH.
Qed.

Lemma const_end_known : forall l N n, known N n -> forall it, const_sentinel_is_end l N it = sentinel_is_end N it.
Proof.
  intros l N n [-> | [-> H]] it; cbn; [reflexivity|]. unfold unknown_size. destruct (Z.eqb_spec n (-1)); [contradiction|reflexivity].
Qed.

Lemma sized_known : forall rs N, Forall proper_range rs -> sized rs -> merge_sizes (map range_size rs) = Ok N -> exists n, known N n.
Proof.
  intros rs N Hp (r & Hr & Hh & Hk) E. exists (r_len r). eapply merged_sizes_known; [|exact E|].
  - intros n. apply range_size_dyn_pos. exact Hp.
  - apply range_size_known; eauto.
Qed.

Lemma algorithm_size_merge : forall rs N, algorithm_size rs = Ok N -> merge_sizes (map range_size rs) = Ok N.
Proof.
  intros rs N. unfold algorithm_size. destruct (forallb is_range_index rs); [discriminate|].
  destruct (merge_sizes (map range_size rs)) as [[n|n]| | | | |]; cbn [bind]; try discriminate; auto.
  destruct (n =? unknown_size); auto. destruct (is_end_type _) as [[|]| | | | |]; cbn [bind]; try discriminate; auto.
Qed.

Lemma const_algorithm_sized : forall St R l (body : St -> list ref -> St * outcome (option R)) rs s,
  Forall proper_range rs -> sized rs -> const_algorithm l body rs s = algorithm body rs s.
Proof.
  intros St R l body rs s Hp Hs. unfold const_algorithm, algorithm. destruct (algorithm_size rs) as [N| | | | |] eqn:E; try reflexivity.
  destruct (sized_known rs N Hp Hs (algorithm_size_merge _ _ E)) as [n Hn]. apply zip_loop_ext. eapply const_end_known; eauto.
Qed.

Lemma is_end_type_cases : forall l,
  is_end_type l = Ok None \/ is_end_type l = Ok (Some false) \/ is_end_type l = IllFormed.
Proof.
  unfold is_end_type. set (f := option_map (fun _ : bool => false)).
  assert (G : forall n l, (length l <= n)%nat ->
    is_end (map f l) = Ok None \/ is_end (map f l) = Ok (Some false) \/ is_end (map f l) = IllFormed).
  { assert (F : forall a, f a = None \/ f a = Some false) by (intros [a|]; cbn; auto).
    induction n as [|n IH]; intros l L.
    - destruct l; [cbn; auto|cbn in L; lia].
    - destruct l as [|a [|b [|c r]]]; [cbn; auto| | |].
      + cbn [map is_end]. destruct (F a) as [-> | ->]; auto.
      + cbn [map is_end]. destruct (F a) as [-> | ->], (F b) as [-> | ->]; cbn; auto.
      + assert (I := IH (c :: r) ltac:(cbn in *; lia)).
        change (is_end (map f (a :: b :: c :: r))) with
          (do x <- is_end2 (f a) (f b); do y <- is_end (map f (c :: r));
           do z <- is_end2 x y; match z with Some e => Ok (Some e) | None => @IllFormed (option bool) end).
        destruct (F a) as [-> | ->], (F b) as [-> | ->], I as [-> | [-> | ->]]; cbn; auto. }
  intro l. apply (G (length l)). lia.
Qed.

Lemma const_algorithm_unsized : forall St R l (body : St -> list ref -> St * outcome (option R)) rs s,
  Forall proper_range rs -> ~ sized rs -> const_algorithm l body rs s = (s, IllFormed).
Proof.
  intros St R l body rs s Hp Hs. unfold const_algorithm, algorithm_size. destruct (forallb is_range_index rs); [reflexivity|].
  rewrite (merge_ranges_none rs Hp).
  - cbn [bind]. change (-1 =? unknown_size) with true. cbn match.
    destruct (is_end_type_cases (map leaf_is_end (z_leaves (zip_begin rs)))) as [-> | [-> | ->]]; reflexivity.
  - intros r Hr Hh. destruct (r_known r) eqn:K; auto; exfalso; apply Hs; exists r; repeat split; auto; congruence.
Qed.

Lemma constant_same : forall S A (p : S * outcome A), same_as_run (constant p) p.
Proof.
  intros S A [s o]. unfold same_as_run, constant. cbn [fst snd]. split.
  - intros s' a. destruct o; cbn; split; intro H; inversion H; subst; auto.
  - intros H1 H2. destruct o; cbn; try reflexivity; [destruct (H1 a); reflexivity|contradiction].
Qed.

Lemma constant_rejected : forall S A (s : S), constant (A := A) (s, IllFormed) = IllFormed.
Proof. reflexivity. Qed.

(** * Permutations *)

Definition lift_end {X Y} (f : Y -> X) (o : outcome (ending * Y)) : outcome X :=
  match o with
  | Ok (Finished, st) => Ok (f st)
  | Ok (Violation, _) => Contract
  | Contract => Contract | Throw e => Throw e | UB => UB | IllFormed => IllFormed | OutOfFuel => OutOfFuel
  end.

Lemma const_swap_yes : forall X l own (es : list X) a b, l = Cpp20 \/ own = true -> const_swap_at l own es a b = swap_at es a b.
Proof. intros X l own es a b [-> | ->]; unfold const_swap_at, const_call; [destruct own|]; reflexivity. Qed.

Lemma const_apply_inner_run : forall X l own, l = Cpp20 \/ own = true -> forall fuel i len cur (st : pstate X),
  const_apply_inner l own fuel i len cur st =
  match apply_inner fuel i len cur st with
  | Ok (Finished, c, st) => Ok (c, st)
  | Ok (Violation, _, _) => Contract
  | Contract => Contract | Throw e => Throw e | UB => UB | IllFormed => IllFormed | OutOfFuel => OutOfFuel
  end.
Proof.
  intros X l own H. induction fuel as [|fuel IH]; intros i len cur st; cbn [const_apply_inner apply_inner];
    destruct (aget (ps_idx st) cur) as [x| | | | |]; cbn [bind]; try reflexivity; destruct (i =? x); try reflexivity.
  destruct ((x <? 0) || (x >=? len) || (x =? cur)).
  - destruct (aset (ps_idx st) i x); reflexivity.
  - rewrite (const_swap_yes _ _ _ _ _ _ H). destruct (swap_at (ps_elems st) cur x); cbn [bind]; try reflexivity.
    destruct (aset (ps_idx st) cur cur); cbn [bind]; try reflexivity. apply IH.
Qed.

Lemma const_apply_outer_run : forall X l own, l = Cpp20 \/ own = true -> forall fuel count i len (st : pstate X),
  const_apply_outer l own fuel count i len st = lift_end (fun st => st) (apply_outer fuel count i len st).
Proof.
  intros X l own H fuel. induction count as [|count IH]; intros i len st; cbn [const_apply_outer apply_outer]; [reflexivity|].
  rewrite (const_apply_inner_run _ _ _ H). destruct (apply_inner fuel i len i st) as [[[[|] c] st']| | | | |]; cbn [bind lift_end]; try reflexivity.
  destruct (aset (ps_idx st') c c); cbn [bind lift_end]; try reflexivity. apply IH.
Qed.

Lemma const_reverse_inner_run : forall X own fuel i len (st : pstate X),
  const_reverse_inner Cpp20 own fuel i len st = lift_end (fun st => st) (reverse_inner fuel i len st).
Proof.
  intros X own. induction fuel as [|fuel IH]; intros i len st; cbn [const_reverse_inner reverse_inner];
    destruct (aget (ps_idx st) i) as [x| | | | |]; cbn [bind]; try reflexivity; destruct (i =? x); try reflexivity.
  destruct ((x >=? 0) && (x <? len)); cbn [expects bind negb]; try reflexivity.
  destruct (aget (ps_idx st) x) as [y| | | | |]; cbn [bind]; try reflexivity.
  destruct (x =? y); cbn [expects bind negb]; try reflexivity.
  rewrite !const_swap_yes by auto. destruct (swap_at (ps_elems st) i x); cbn [bind]; try reflexivity.
  destruct (swap_at (ps_idx st) i x); cbn [bind]; try reflexivity. apply IH.
Qed.

Lemma const_reverse_outer_run : forall X own fuel count i len (st : pstate X),
  const_reverse_outer Cpp20 own fuel count i len st = lift_end (fun st => st) (reverse_outer fuel count i len st).
Proof.
  intros X own fuel. induction count as [|count IH]; intros i len st; cbn [const_reverse_outer reverse_outer]; [reflexivity|].
  rewrite const_reverse_inner_run. destruct (reverse_inner fuel i len st) as [[[|] st']| | | | |]; cbn [bind lift_end]; try reflexivity. apply IH.
Qed.

Lemma const_apply_run : forall X l own diff (es : list X) idx, l = Cpp20 \/ own = true ->
  const_apply_permutation l own diff es idx = constexpr_init (lift_end (fun st => (ps_elems st, ps_idx st)) (apply_permutation diff es idx)).
Proof.
  intros X l own diff es idx H. unfold const_apply_permutation, apply_permutation. rewrite (const_apply_outer_run _ _ _ H).
  destruct (apply_outer _ _ _ _ _) as [[[|] st]| | | | |]; reflexivity.
Qed.
Lemma const_reverse_run : forall X own diff (es : list X) idx,
  const_apply_reverse_permutation Cpp20 own diff es idx =
  constexpr_init (lift_end (fun st => (ps_elems st, ps_idx st)) (apply_reverse_permutation diff es idx)).
Proof.
  intros X own diff es idx. unfold const_apply_reverse_permutation, apply_reverse_permutation. rewrite const_reverse_outer_run.
  destruct (reverse_outer _ _ _ _ _) as [[[|] st]| | | | |]; reflexivity.
Qed.

Lemma upd_same : forall A (l : list A) i a, nth_error l i = Some a -> upd l i a = l.
Proof. induction l as [|x l IH]; intros [|i] a H; cbn in *; auto; [congruence|]. now rewrite IH. Qed.
Lemma aset_same : forall A (l : list A) i a, nth_error l i = Some a -> aset l (Z.of_nat i) a = Ok l.
Proof.
  intros A l i a H. unfold aset, arr_set. destruct (Z.ltb_spec (Z.of_nat i) 0); [lia|]. rewrite Nat2Z.id.
  assert (i < length l)%nat by (apply nth_error_Some; congruence). destruct (Nat.ltb_spec i (length l)); [|lia]. now rewrite upd_same.
Qed.
Lemma aget_nat : forall A (l : list A) i, aget l (Z.of_nat i) = match nth_error l i with Some a => Ok a | None => UB end.
Proof. intros. unfold aget, arr_get. destruct (Z.ltb_spec (Z.of_nat i) 0); [lia|]. now rewrite Nat2Z.id. Qed.

(** In C++17 nothing may be exchanged. *)
Lemma apply_outer_17 : forall X fuel count i len (st : pstate X), (0 < fuel)%nat ->
  ((forall k, (i <= k < i + count)%nat -> nth_error (ps_idx st) k = Some (Z.of_nat k)) ->
   const_apply_outer Cpp17 false fuel count (Z.of_nat i) len st = Ok st) /\
  (~ (forall k, (i <= k < i + count)%nat -> nth_error (ps_idx st) k = Some (Z.of_nat k)) ->
   constexpr_init (const_apply_outer Cpp17 false fuel count (Z.of_nat i) len st) = IllFormed).
Proof.
  intros X [|fuel]; [lia|]. induction count as [|count IH]; intros i len st _; cbn [const_apply_outer const_apply_inner].
  { split; [reflexivity|]. intro H. exfalso. apply H. intros; lia. }
  rewrite aget_nat. destruct (nth_error (ps_idx st) i) as [x|] eqn:E; cbn [bind].
  - destruct (Z.eqb_spec (Z.of_nat i) x) as [<-|Hx]; cbn [bind].
    + rewrite (aset_same _ _ _ _ E). cbn [bind]. replace (Z.of_nat i + 1) with (Z.of_nat (S i)) by lia.
      destruct st as [es idx log]. cbn [ps_elems ps_idx ps_log] in *. destruct (IH (S i) len (mk_ps es idx log) ltac:(lia)) as [I1 I2].
      cbn [ps_idx] in I1, I2. split; intro H.
      * apply I1. intros k Hk. apply H. lia.
      * apply I2. intro H'. apply H. intros k Hk. destruct (Nat.eq_dec k i) as [->|]; [exact E|]. apply H'. lia.
    + split; intro H; [exfalso; apply Hx; specialize (H i ltac:(lia)); congruence|].
      destruct (_ || _); [unfold aset, arr_set; destruct (Z.of_nat i <? 0); [reflexivity|]; destruct (_ <? _)%nat; reflexivity|]. cbn [const_swap_at const_call is_constexpr bind]. reflexivity.
  - split; intro H; [specialize (H i ltac:(lia)); congruence|reflexivity].
Qed.

Lemma reverse_outer_17 : forall X own fuel count i len (st : pstate X), (0 < fuel)%nat ->
  ((forall k, (i <= k < i + count)%nat -> nth_error (ps_idx st) k = Some (Z.of_nat k)) ->
   const_reverse_outer Cpp17 own fuel count (Z.of_nat i) len st = Ok st) /\
  (~ (forall k, (i <= k < i + count)%nat -> nth_error (ps_idx st) k = Some (Z.of_nat k)) ->
   constexpr_init (const_reverse_outer Cpp17 own fuel count (Z.of_nat i) len st) = IllFormed).
Proof.
  intros X own [|fuel]; [lia|]. induction count as [|count IH]; intros i len st _; cbn [const_reverse_outer const_reverse_inner].
  { split; [reflexivity|]. intro H. exfalso. apply H. intros; lia. }
  rewrite aget_nat. destruct (nth_error (ps_idx st) i) as [x|] eqn:E; cbn [bind].
  - destruct (Z.eqb_spec (Z.of_nat i) x) as [<-|Hx]; cbn [bind].
    + replace (Z.of_nat i + 1) with (Z.of_nat (S i)) by lia. destruct (IH (S i) len st ltac:(lia)) as [I1 I2]. split; intro H.
      * apply I1. intros k Hk. apply H. lia.
      * apply I2. intro H'. apply H. intros k Hk. destruct (Nat.eq_dec k i) as [->|]; [exact E|]. apply H'. lia.
    + split; intro H; [exfalso; apply Hx; specialize (H i ltac:(lia)); congruence|].
      destruct (_ && _); cbn [expects bind]; [|reflexivity].
      destruct (aget (ps_idx st) x) as [y| | | | |] eqn:G; cbn [bind]; try reflexivity;
        try (unfold aget, arr_get in G; destruct (x <? 0); try discriminate; destruct (nth_error (ps_idx st) (Z.to_nat x)); discriminate).
      destruct (x =? y); cbn [expects negb bind]; [reflexivity|].
      assert (W : forall Y (l : list Y) a b, (exists l', const_swap_at Cpp17 own l a b = Ok l') \/
                    constexpr_init (const_swap_at Cpp17 own l a b) = IllFormed).
      { intros Y l a b. unfold const_swap_at. destruct own; [|right; reflexivity]. unfold swap_at, aget, aset, arr_get, arr_set.
        destruct (a <? 0); [right; reflexivity|]. destruct (nth_error l (Z.to_nat a)); [|right; reflexivity]. cbn [bind].
        destruct (b <? 0); [right; reflexivity|]. destruct (nth_error l (Z.to_nat b)); [|right; reflexivity]. cbn [bind].
        destruct (_ <? _)%nat; [|right; reflexivity]. cbn [bind]. destruct (_ <? _)%nat; [left; eauto|right; reflexivity]. }
      destruct (W X (ps_elems st) (Z.of_nat i) x) as [[es' ->] | G']; [reflexivity|].
      destruct (const_swap_at Cpp17 own (ps_elems st) (Z.of_nat i) x); cbn in G' |- *; (reflexivity || discriminate).
  - split; intro H; [specialize (H i ltac:(lia)); congruence|reflexivity].
Qed.

Lemma cast_length : forall X diff (es : list X), 1 <= ity_bits diff ->
  int_value (ity_bits diff) (ity_signed diff) (Z.of_nat (length es)) ->
  cast diff (Z.of_nat (length es)) = Z.of_nat (length es).
Proof. intros. apply cast_id; auto. now apply in_ity_iff. Qed.

Lemma constexpr_bind : forall A B (m : outcome A) (f : A -> outcome B), constexpr_init m = IllFormed -> constexpr_init (do a <- m; f a) = IllFormed.
Proof. intros A B [a| | | | |] f H; cbn in *; auto; discriminate. Qed.

Lemma apply_17 : forall X diff (es : list X) idx, 1 <= ity_bits diff ->
  int_value (ity_bits diff) (ity_signed diff) (Z.of_nat (length es)) ->
  (in_place (length es) idx -> const_apply_permutation Cpp17 false diff es idx = Ok (es, idx)) /\
  (~ in_place (length es) idx -> const_apply_permutation Cpp17 false diff es idx = IllFormed).
Proof.
  intros X diff es idx Hb Hd. unfold const_apply_permutation. rewrite cast_length, Nat2Z.id by auto.
  destruct (apply_outer_17 X (S (length es)) (length es) 0 (Z.of_nat (length es)) (mk_ps es idx []) ltac:(lia)) as [H1 H2].
  cbn [ps_idx] in *. change (Z.of_nat 0) with 0 in *. split; intro H.
  - rewrite H1; [reflexivity|]. intros k Hk. apply H. lia.
  - apply constexpr_bind, H2. intro H'. apply H. intros k Hk. apply H'. lia.
Qed.
Lemma reverse_17 : forall X own diff (es : list X) idx, 1 <= ity_bits diff ->
  int_value (ity_bits diff) (ity_signed diff) (Z.of_nat (length es)) ->
  (in_place (length es) idx -> const_apply_reverse_permutation Cpp17 own diff es idx = Ok (es, idx)) /\
  (~ in_place (length es) idx -> const_apply_reverse_permutation Cpp17 own diff es idx = IllFormed).
Proof.
  intros X own diff es idx Hb Hd. unfold const_apply_reverse_permutation. rewrite cast_length, Nat2Z.id by auto.
  destruct (reverse_outer_17 X own (S (length es)) (length es) 0 (Z.of_nat (length es)) (mk_ps es idx []) ltac:(lia)) as [H1 H2].
  cbn [ps_idx] in *. change (Z.of_nat 0) with 0 in *. split; intro H.
  - rewrite H1; [reflexivity|]. intros k Hk. apply H. lia.
  - apply constexpr_bind, H2. intro H'. apply H. intros k Hk. apply H'. lia.
Qed.

(** * shuffle() *)

Lemma const_shuffle_run : forall X S l own (dist : S -> Z -> Z -> S * Z), l = Cpp20 \/ own = true ->
  forall n s (es : list X) log,
  const_shuffle_loop l own dist n s es = do ' (s', es', _) <- shuffle_loop dist n s es log; Ok (s', es').
Proof.
  intros X S l own dist H. induction n as [|n IH]; intros s es log; cbn [const_shuffle_loop shuffle_loop]; [reflexivity|].
  destruct (dist s 0 (Z.of_nat (Datatypes.S n))) as [s1 j]. rewrite (const_swap_yes _ _ _ _ _ _ H).
  destruct (if negb _ then _ else _); cbn [bind]; try reflexivity. apply IH.
Qed.

Lemma const_shuffle_17 : forall X S (dist : S -> Z -> Z -> S * Z) n s (es : list X),
  (forall s', draws_bound dist n s s' -> const_shuffle_loop Cpp17 false dist n s es = Ok (s', es)) /\
  ((forall s', ~ draws_bound dist n s s') -> const_shuffle_loop Cpp17 false dist n s es = IllFormed).
Proof.
  intros X S dist. induction n as [|n IH]; intros s es; cbn [const_shuffle_loop draws_bound].
  - split; [now intros s' ->|]. intro H. now destruct (H s).
  - destruct (dist s 0 (Z.of_nat (Datatypes.S n))) as [s1 j] eqn:E. cbn [fst snd]. destruct (IH s1 es) as [I1 I2]. split.
    + intros s' [-> H]. rewrite Z.eqb_refl. cbn [negb bind]. apply I1. exact H.
    + intro H. destruct (Z.eqb_spec (Z.of_nat (Datatypes.S n)) j) as [Ej|Ej]; cbn [negb].
      * cbn [bind]. apply I2. intros s' H'. apply (H s'). auto.
      * reflexivity.
Qed.

Lemma draws_bound_dec : forall S (dist : S -> Z -> Z -> S * Z) n s, (exists s', draws_bound dist n s s') \/ forall s', ~ draws_bound dist n s s'.
Proof.
  intros S dist. induction n as [|n IH]; intro s; cbn [draws_bound]; [left; eauto|].
  destruct (Z.eq_dec (snd (dist s 0 (Z.of_nat (Datatypes.S n)))) (Z.of_nat (Datatypes.S n))) as [E|E].
  - destruct (IH (fst (dist s 0 (Z.of_nat (Datatypes.S n))))) as [[s' H]|H]; [left; eauto|right]. intros s' [_ H']. now apply (H s').
  - right. intros s' [H _]. contradiction.
Qed.

(** * Strings *)

Lemma const_parse_enum_run : forall l src s, const_parse_enum l src s = constexpr_init (api_parse_enum src s).
Proof.
  intros l src s. unfold const_parse_enum, api_parse_enum. unfold static_enum_metadata.
  destruct (make_enum_metadata src) as [md| | | | |]; cbn [constexpr_init bind]; try reflexivity.
  unfold const_call. cbn [is_constexpr]. unfold const_enum_from_string, enum_from_string.
  destruct (try_enum_from_string 0 (trim s) md) as [rc r]. destruct (negb (rc =? 0)); reflexivity.
Qed.

Lemma const_parse_flags_run : forall src s, const_parse_flags Cpp20 src s = constexpr_init (api_parse_flags 0%N src s).
Proof.
  intros src s. unfold const_parse_flags, api_parse_flags. unfold static_flags_metadata.
  destruct (make_flags_metadata src) as [md| | | | |]; cbn [constexpr_init bind]; try reflexivity.
Qed.
