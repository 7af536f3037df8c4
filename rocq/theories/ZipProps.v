(** Properties of zipped ranges and of the range algorithms: C21-C29. *)

From Coq Require Import ZArith NArith Arith Bool List Lia Permutation.
From Verif Require Import Base ExpandModel ExpandSpec ExpandProofs ZipModel ZipSpec ZipProofs ZipLoopProofs ZipAlgoProofs.
Import ListNotations.
Local Open Scope Z_scope.

(** * C21 *)
Theorem C21_sizes_agree : forall ds n, (forall k, In (SDyn k) ds -> 0 <= k) ->
  known_size ds n -> (forall a, known_size ds a -> a = n) ->
  (static_size ds n -> merge_sizes ds = Ok (SStatic n)) /\
  ((forall a, ~ static_size ds a) -> merge_sizes ds = Ok (SDyn n)).
Proof. intros ds n H1 H2 H3. exact (merge_sizes_agree ds H1 n H2 H3). Qed.
Print Assumptions C21_sizes_agree.

Theorem C21_nothing_known : forall ds, (forall a, ~ known_size ds a) -> merge_sizes ds = Ok (SStatic unknown_size).
Proof.
  intros ds H. apply merge_sizes_none; [|exact H]. intros n Hn. exfalso. apply (H n). right. exact Hn.
Qed.
Print Assumptions C21_nothing_known.

Theorem C21_sizes_differ : forall ds a b, (forall k, In (SDyn k) ds -> 0 <= k) ->
  known_size ds a -> known_size ds b -> a <> b ->
  ((exists c d, static_size ds c /\ static_size ds d /\ c <> d) /\ merge_sizes ds = IllFormed) \/
  ((forall c d, static_size ds c -> static_size ds d -> c = d) /\ merge_sizes ds = Contract).
Proof.
  intros ds a b Hp Ha Hb Hab. destruct (merge_sizes_cases ds) as [[c [d [H1 [H2 H3]]]]|[Hs _]].
  - left. split; [exists c, d; auto|]. exact (merge_sizes_static_conflict ds Hp c d H1 H2 H3).
  - right. split; [exact Hs|]. exact (merge_sizes_conflict ds Hp a b Hs Ha Hb Hab).
Qed.
Print Assumptions C21_sizes_differ.

Theorem C21_order_irrelevant : forall ds ds', (forall k, In (SDyn k) ds -> 0 <= k) -> Permutation ds ds' ->
  merge_sizes ds = merge_sizes ds'.
Proof. exact merge_sizes_permutation. Qed.
Print Assumptions C21_order_irrelevant.

Example C21_example :
  merge_sizes [SDyn 4; SStatic (-1); SStatic 4; SDyn 4] = Ok (SStatic 4) /\
  merge_sizes [SStatic (-1); SDyn 4; SDyn 4] = Ok (SDyn 4) /\
  merge_sizes [SDyn 4; SStatic (-1); SDyn 5; SStatic 4] = Contract /\
  merge_sizes [SStatic 4; SDyn 4; SStatic 5] = IllFormed.
Proof. repeat split; reflexivity. Qed.

(** * C22 *)
Definition example_ranges : list rng :=
  [{| r_mode := MIndex; r_known := KStatic; r_len := 3 |}; {| r_mode := MRangeIndex; r_known := KUnknown; r_len := 0 |};
   {| r_mode := MPair; r_known := KUnknown; r_len := 3 |}; {| r_mode := MPair; r_known := KDynamic; r_len := 3 |}].
Lemma example_ranges_proper : Forall proper_range example_ranges /\ all_length example_ranges 3 /\
  (exists r, In r example_ranges /\ holds_elements r /\ r_known r <> KUnknown) /\ shortest_length example_ranges 3.
Proof.
  split; [|split; [|split; [|split]]].
  - repeat constructor; cbn; try lia; discriminate.
  - intros r Hr Hh. cbn in Hr. destruct Hr as [<-|[<-|[<-|[<-|[]]]]]; try reflexivity. exfalso. apply Hh. reflexivity.
  - eexists. split; [left; reflexivity|]. split; discriminate.
  - eexists. split; [left; reflexivity|]. split; [discriminate|reflexivity].
  - intros r Hr Hh. cbn in Hr. destruct Hr as [<-|[<-|[<-|[<-|[]]]]]; cbn; try lia. exfalso. apply Hh. reflexivity.
Qed.

(** A body as used in a range-based for loop. *)
Definition loop_body {S : Type} (f : S -> list ref -> S * outcome unit) (s : S) (args : list ref) : S * outcome (option unit) :=
  let '(s', o) := f s args in (s', do _ <- o; Ok None).

Theorem C22_zip_iterates : forall rs n, Forall proper_range rs -> all_length rs n ->
  (exists r, In r rs /\ holds_elements r /\ r_known r <> KUnknown) ->
  exists z, range_zip rs = Ok z /\ zip_size z = n /\
    forall S (f : S -> list ref -> S * outcome unit) s,
      zip_traverse (loop_body f) z s = (let '(s', o) := call_each f s (tuples rs (Z.to_nat n)) in (s', do _ <- o; Ok None)) /\
      zip_sentinel_traverse (loop_body f) z s = (let '(s', o) := call_each f s (tuples rs (Z.to_nat n)) in (s', do _ <- o; Ok None)).
Proof.
  intros rs n Hp Ha Hk. destruct (range_zip_ok rs n Hp Ha Hk) as [d [E1 [E2 E3]]]. exists (d, rs). split; [exact E1|]. split; [exact E2|].
  intros S f s. rewrite (zip_traverse_ok rs n Hp Ha Hk _ _ _ d s E2 E3), (zip_sentinel_traverse_ok rs n Hp Ha Hk _ _ _ d s E2 E3).
  split; exact (iterate_call_each f _ s).
Qed.
Print Assumptions C22_zip_iterates.

Theorem C22_tuples : forall rs n k, (k < n)%nat ->
  length (tuples rs n) = n /\
  exists t, nth_error (tuples rs n) k = Some t /\ length t = length rs /\
    forall i r, nth_error rs i = Some r ->
      nth_error t i = Some (match r_mode r with MRangeIndex => RIdx (Z.of_nat k) | _ => RElem i (Z.of_nat k) end).
Proof.
  intros rs n k Hk. unfold tuples. split; [rewrite map_length, seq_length; reflexivity|].
  exists (tuple_at rs (Z.of_nat k)). split; [|split].
  - rewrite nth_error_map. replace (nth_error (seq 0 n) k) with (Some k); [reflexivity|].
    symmetry. rewrite (nth_error_nth' _ 0%nat) by (rewrite seq_length; exact Hk). rewrite seq_nth by exact Hk. reflexivity.
  - unfold tuple_at. rewrite map_length, combine_length, seq_length. lia.
  - intros i r Hr. rewrite tuple_at_mapi.
    assert (G : forall (l : list rng) b i r, nth_error l i = Some r ->
      nth_error (mapi (fun k' r0 => match r_mode r0 with MRangeIndex => RIdx (Z.of_nat k) | _ => RElem k' (Z.of_nat k) end) b l) i =
      Some (match r_mode r with MRangeIndex => RIdx (Z.of_nat k) | _ => RElem (b + i) (Z.of_nat k) end)).
    { induction l as [|x l IH]; intros b [|i'] r' H; try discriminate; cbn in H |- *.
      - injection H as ->. rewrite Nat.add_0_r. reflexivity.
      - rewrite (IH (S b) i' r' H). rewrite Nat.add_succ_r. reflexivity. }
    exact (G rs 0%nat i r Hr).
Qed.
Print Assumptions C22_tuples.

(** Without a range of known size, range_zip() does not compile; ranges of different known sizes are rejected. *)
Theorem C22_size_unknown : forall rs, Forall proper_range rs ->
  (forall r, In r rs -> holds_elements r -> r_known r = KUnknown) -> range_zip rs = IllFormed.
Proof. intros rs Hp H. unfold range_zip. rewrite (merge_ranges_none rs Hp H). reflexivity. Qed.
Print Assumptions C22_size_unknown.

Theorem C22_size_mismatch : forall rs r1 r2, Forall proper_range rs -> In r1 rs -> In r2 rs -> holds_elements r1 -> holds_elements r2 ->
  r_known r1 <> KUnknown -> r_known r2 <> KUnknown -> r_len r1 <> r_len r2 ->
  range_zip rs = Contract \/ range_zip rs = IllFormed.
Proof.
  intros rs r1 r2 Hp I1 I2 H1 H2 K1 K2 Ne. unfold range_zip.
  destruct (C21_sizes_differ (map range_size rs) (r_len r1) (r_len r2)) as [[_ E]|[_ E]]; try (rewrite E; auto).
  - intros k. apply range_size_dyn_pos. exact Hp.
  - apply range_size_known; eauto 6.
  - apply range_size_known; eauto 6.
  - exact Ne.
Qed.
Print Assumptions C22_size_mismatch.

Example C22_unknown :
  range_zip [{| r_mode := MPair; r_known := KUnknown; r_len := 3 |}; {| r_mode := MRangeIndex; r_known := KUnknown; r_len := 0 |}] = IllFormed /\
  range_zip [{| r_mode := MIter; r_known := KDynamic; r_len := 3 |}; {| r_mode := MIter; r_known := KDynamic; r_len := 4 |}] = Contract.
Proof. split; reflexivity. Qed.

Example C22_example :
  (exists z, range_zip example_ranges = Ok z /\ zip_size z = 3 /\
     zip_traverse (loop_body (fun s args => (s ++ [args], Ok tt))) z [] =
       ([[RElem 0 0; RIdx 0; RElem 2 0; RElem 3 0]; [RElem 0 1; RIdx 1; RElem 2 1; RElem 3 1]; [RElem 0 2; RIdx 2; RElem 2 2; RElem 3 2]], Ok None)) /\
  Forall proper_range example_ranges /\ all_length example_ranges 3.
Proof.
  split; [|split; apply example_ranges_proper]. eexists. split; [reflexivity|]. split; reflexivity.
Qed.

(** * C23 *)
Theorem C23_iterator_laws : forall rs n d, Forall proper_range rs -> all_length rs n ->
  (exists r, In r rs /\ holds_elements r /\ r_known r <> KUnknown) -> range_zip rs = Ok (d, rs) ->
  let b := zip_range_begin (d, rs) in
  forall it i, reach b n it i ->
    0 <= i <= n /\
    (forall k, 0 <= i + k <= n -> exists it',
        zip_advance it k = Ok it' /\ reach b n it' (i + k) /\ zip_diff it' it = k /\
        zip_retreat it' k = Ok it) /\
    (i < n -> zip_deref it = Ok (tuple_at rs i) /\ exists it', zip_inc it = Ok it' /\ zip_dec it' = Ok it) /\
    (forall k, 0 <= i + k < n -> exists it', zip_advance it k = Ok it' /\
        zip_subscript it k = zip_deref it' /\ zip_subscript it k = Ok (tuple_at rs (i + k))) /\
    (forall it2 j, reach b n it2 j ->
        zip_diff it it2 = i - j /\ zip_eqb it it2 = (i =? j) /\ zip_ltb it it2 = (i <? j) /\ (zip_eqb it it2 = true <-> it = it2)) /\
    (forall k, 0 <= k < n -> zip_at (d, rs) k = Ok (tuple_at rs k)).
Proof.
  intros rs n d Hp Ha Hk Hz b it i Hr. change b with (zip_begin rs) in *. clear b.
  assert (Hat := reach_at rs n Hp Ha Hk). destruct (Hat it i Hr) as [-> Hi].
  assert (Hadv : forall i k, 0 <= i + k <= n -> zip_advance (iter_at rs i) k = Ok (iter_at rs (i + k))).
  { intros i0 k Hb. apply zip_advance_at. intros r H1 H2. rewrite (Ha r H1 H2). exact Hb. }
  assert (Hsub : forall i k, 0 <= i + k < n -> zip_subscript (iter_at rs i) k = Ok (tuple_at rs (i + k))).
  { intros i0 k Hb. apply zip_subscript_at. intros r H1 H2. rewrite (Ha r H1 H2). exact Hb. }
  split; [exact Hi|]. split; [|split; [|split; [|split]]].
  - intros k Hb. exists (iter_at rs (i + k)). split; [auto|]. split; [eapply reach_move; eauto|]. split.
    + unfold zip_diff. cbn. lia.
    + unfold zip_retreat. rewrite Hadv by lia. do 2 f_equal. lia.
  - intro Hlt. split.
    + unfold zip_deref. rewrite Hsub by lia. rewrite Z.add_0_r. reflexivity.
    + exists (iter_at rs (i + 1)). split; [apply Hadv; lia|]. unfold zip_dec. rewrite Hadv by lia. do 2 f_equal. lia.
  - intros k Hb. exists (iter_at rs (i + k)). split; [apply Hadv; lia|]. unfold zip_deref. rewrite !Hsub by lia. rewrite Z.add_0_r. auto.
  - intros it2 j H2. destruct (Hat it2 j H2) as [-> _]. split; [reflexivity|]. split; [reflexivity|]. split; [reflexivity|].
    unfold zip_eqb. cbn. rewrite Z.eqb_eq. split; [intros ->; reflexivity|]. intro E. injection E as E _. exact E.
  - intros k Hb. unfold zip_at, zip_range_begin. cbn [snd]. rewrite iter_at_begin, Hsub by lia. reflexivity.
Qed.
Print Assumptions C23_iterator_laws.

Example C23_example : exists z it, range_zip example_ranges = Ok z /\ snd z = example_ranges /\
  zip_advance (zip_range_begin z) 2 = Ok it /\ reach (zip_range_begin z) 3 it 2 /\
  zip_subscript it (-1) = Ok [RElem 0 1; RIdx 1; RElem 2 1; RElem 3 1] /\ zip_diff it (zip_range_begin z) = 2.
Proof.
  eexists. eexists. split; [reflexivity|]. split; [reflexivity|]. split; [reflexivity|]. split; [|split; reflexivity].
  eapply (reach_move _ _ _ 0 2); [apply reach_start|lia|reflexivity].
Qed.

(** * C24 *)
Theorem C24_from_the_end_partial : forall rs n d, Forall proper_range rs -> all_length rs n ->
  (exists r, In r rs /\ holds_elements r /\ r_known r <> KUnknown) -> range_zip rs = Ok (d, rs) ->
  (forall r, In r rs -> r_mode r <> MIter) ->
  reach (zip_range_begin (d, rs)) n (zip_common_end (d, rs)) n /\
  forall k, 1 <= k <= n -> exists it,
    zip_retreat (zip_common_end (d, rs)) k = Ok it /\ zip_advance (zip_range_begin (d, rs)) (zip_size (d, rs) - k) = Ok it /\
    zip_deref it = Ok (tuple_at rs (n - k)).
Proof.
  intros rs n d Hp Ha Hk Hz Hni.
  assert (Hd : dim_value d = n /\ 0 <= n).
  { destruct (range_zip_ok rs n Hp Ha Hk) as [d' [E1 [E2 E3]]]. rewrite Hz in E1. injection E1 as ->. auto. }
  destruct Hd as [Hd Hn]. unfold zip_common_end, zip_range_begin, zip_size. cbn [fst snd].
  rewrite (end_at rs n Ha Hni d Hd), Hd, iter_at_begin.
  assert (Hadv : forall i k, 0 <= i + k <= n -> zip_advance (iter_at rs i) k = Ok (iter_at rs (i + k))).
  { intros i0 k Hb. apply zip_advance_at. intros r H1 H2. rewrite (Ha r H1 H2). exact Hb. }
  split.
  - change n with (0 + n) at 3. eapply reach_move; [apply reach_start|lia|]. apply Hadv. lia.
  - intros k Hb. exists (iter_at rs (n - k)). unfold zip_retreat. split; [apply Hadv; lia|]. split; [rewrite Hadv by lia; reflexivity|].
    apply zip_deref_at. intros r H1 H2. rewrite (Ha r H1 H2). lia.
Qed.
Print Assumptions C24_from_the_end_partial.

Example C24_example : exists z it, range_zip example_ranges = Ok z /\ (forall r, In r example_ranges -> r_mode r <> MIter) /\
  zip_retreat (zip_common_end z) 1 = Ok it /\ zip_deref it = Ok [RElem 0 2; RIdx 2; RElem 2 2; RElem 3 2].
Proof.
  eexists. eexists. split; [reflexivity|]. split; [|split; reflexivity].
  intros r Hr. cbn in Hr. destruct Hr as [<-|[<-|[<-|[<-|[]]]]]; discriminate.
Qed.

(** A sized container that is not contiguous (std::deque<>, std::list<>): the iterator returned by end() still refers to
    the first element. *)
Theorem C24_from_the_end_refuted : exists rs n d, Forall proper_range rs /\ all_length rs n /\
  range_zip rs = Ok (d, rs) /\ 0 < n /\ zip_size (d, rs) = n /\
  zip_retreat (zip_common_end (d, rs)) 1 = UB.
Proof.
  exists [{| r_mode := MIter; r_known := KDynamic; r_len := 3 |}], 3, (SDyn 3).
  split; [repeat constructor; cbn; try lia; discriminate|].
  split; [intros r [<-|[]] _; reflexivity|]. split; [reflexivity|]. split; [lia|]. split; reflexivity.
Qed.
Print Assumptions C24_from_the_end_refuted.

(** * C25 *)
Theorem C25_equal_lengths : forall S (f : S -> list ref -> S * outcome unit) rs m s,
  Forall proper_range rs -> enough_known rs -> shortest_length rs m -> all_length rs m ->
  range_for f rs s = call_each f s (tuples rs (Z.to_nat m)).
Proof. intros S f rs m s Hp He Hm Ha. exact (proj1 (range_for_ok f rs m s Hp He Hm (all_length_agree rs m Ha)) Ha). Qed.
Print Assumptions C25_equal_lengths.

Theorem C25_lengths_differ : forall S (f : S -> list ref -> S * outcome unit) rs m s,
  Forall proper_range rs -> enough_known rs -> known_agree rs -> shortest_length rs m ->
  (exists r, In r rs /\ holds_elements r /\ r_len r <> m) ->
  range_for f rs s = then_fail (call_each f s (tuples rs (Z.to_nat m))).
Proof. intros S f rs m s Hp He Ha Hm Hr. exact (proj2 (range_for_ok f rs m s Hp He Hm Ha) Hr). Qed.
Print Assumptions C25_lengths_differ.

(** If already the known sizes differ, no call is made. *)
Theorem C25_known_sizes_differ : forall S (f : S -> list ref -> S * outcome unit) rs m s r1 r2,
  Forall proper_range rs -> shortest_length rs m ->
  In r1 rs -> In r2 rs -> holds_elements r1 -> holds_elements r2 -> r_known r1 <> KUnknown -> r_known r2 <> KUnknown ->
  r_len r1 <> r_len r2 ->
  range_for f rs s = (s, IllFormed) /\
    (exists r3 r4, In r3 rs /\ In r4 rs /\ holds_elements r3 /\ holds_elements r4 /\
      r_known r3 = KStatic /\ r_known r4 = KStatic /\ r_len r3 <> r_len r4) \/
  range_for f rs s = (s, Contract).
Proof. intros S f rs m s r1 r2. exact (range_for_differ f rs m s r1 r2). Qed.
Print Assumptions C25_known_sizes_differ.

(** With any number of range_index arguments the call either does not compile or behaves like this. *)
Theorem C25_index_arguments : forall S (f : S -> list ref -> S * outcome unit) rs m s,
  Forall proper_range rs -> shortest_length rs m -> known_agree rs ->
  range_for f rs s = (s, IllFormed) \/ range_for f rs s = call_each f s (tuples rs (Z.to_nat m)) \/
  range_for f rs s = then_fail (call_each f s (tuples rs (Z.to_nat m))).
Proof. intros S f rs m s. exact (range_for_any f rs m s). Qed.
Print Assumptions C25_index_arguments.

Definition mismatched : list rng :=
  [{| r_mode := MPair; r_known := KUnknown; r_len := 3 |}; {| r_mode := MPair; r_known := KUnknown; r_len := 2 |};
   {| r_mode := MRangeIndex; r_known := KUnknown; r_len := 0 |}].
Example C25_example :
  range_for (fun s args => (s ++ [args], Ok tt)) mismatched [] =
    ([[RElem 0 0; RElem 1 0; RIdx 0]; [RElem 0 1; RElem 1 1; RIdx 1]], Contract) /\
  Forall proper_range mismatched /\ enough_known mismatched /\ known_agree mismatched /\ shortest_length mismatched 2 /\
  (exists r, In r mismatched /\ holds_elements r /\ r_len r <> 2) /\
  enough_known example_ranges /\ shortest_length example_ranges 3 /\ all_length example_ranges 3.
Proof.
  split; [reflexivity|]. split; [repeat constructor; cbn; lia|]. split; [right; cbn; lia|]. split.
  { intros r1 r2 H1 H2 _ _ K. exfalso. apply K. cbn in H1. destruct H1 as [<-|[<-|[<-|[]]]]; reflexivity. }
  split.
  { split; [eexists; split; [right; left; reflexivity|split; [discriminate|reflexivity]]|].
    intros r Hr Hh. cbn in Hr. destruct Hr as [<-|[<-|[<-|[]]]]; cbn; try lia. exfalso. apply Hh. reflexivity. }
  split; [eexists; split; [left; reflexivity|split; discriminate]|].
  split; [left; apply example_ranges_proper|]. split; apply example_ranges_proper.
Qed.

(** range_zip() with iterators of one type: the end is decided by the known size alone, so that an unsized range that is
    shorter is read beyond its end. *)
Theorem C25_range_zip_refuted : exists rs z, Forall proper_range rs /\ known_agree rs /\ range_zip rs = Ok z /\
  snd (zip_traverse (loop_body (fun (s : list (list ref)) args => (s ++ [args], Ok tt))) z []) = UB /\
  snd (zip_sentinel_traverse (loop_body (fun (s : list (list ref)) args => (s ++ [args], Ok tt))) z []) = Contract.
Proof.
  exists [{| r_mode := MIndex; r_known := KDynamic; r_len := 3 |}; {| r_mode := MPair; r_known := KUnknown; r_len := 2 |}].
  eexists. split; [repeat constructor; cbn; try lia; discriminate|]. split.
  { intros r1 r2 [<-|[<-|[]]] [<-|[<-|[]]] _ _ K1 K2; try reflexivity; exfalso; first [apply K1; reflexivity | apply K2; reflexivity]. }
  split; [reflexivity|]. split; reflexivity.
Qed.
Print Assumptions C25_range_zip_refuted.

(** More than two range_index arguments at the end, and no known size: the call does not compile. *)
Theorem C25_index_arguments_refuted : exists rs m, Forall proper_range rs /\ shortest_length rs m /\ all_length rs m /\
  forall S (f : S -> list ref -> S * outcome unit) s, range_for f rs s = (s, IllFormed).
Proof.
  exists (repeat {| r_mode := MPair; r_known := KUnknown; r_len := 2 |} 2 ++ repeat {| r_mode := MRangeIndex; r_known := KUnknown; r_len := 0 |} 3), 2.
  split; [repeat constructor; cbn; lia|]. split; [|split].
  - split; [eexists; split; [left; reflexivity|split; [discriminate|reflexivity]]|].
    intros r Hr Hh. cbn in Hr. destruct Hr as [<-|[<-|[<-|[<-|[<-|[]]]]]]; cbn; try lia; exfalso; apply Hh; reflexivity.
  - intros r Hr Hh. cbn in Hr. destruct Hr as [<-|[<-|[<-|[<-|[<-|[]]]]]]; cbn; try reflexivity; exfalso; apply Hh; reflexivity.
  - intros S f s. reflexivity.
Qed.
Print Assumptions C25_index_arguments_refuted.

(** * C26 *)
Theorem C26_weakest_category : forall cs, cs <> [] -> exists ic oc, common_iterator_tag cs = Ok (ic, oc) /\
  (forall d, d <> COutput -> ((exists c, ic = Some c /\ provides c d) <-> forall c, In c cs -> provides c d)) /\
  ic <> Some COutput /\
  (oc = true <-> forall c, In c cs -> provides c COutput).
Proof. exact common_tag_ok. Qed.
Print Assumptions C26_weakest_category.

Example C26_example : common_iterator_tag [CRandomAccess; CForward; CBidirectional] = Ok (Some CForward, false) /\
  common_iterator_tag [COutput; CForward] = Ok (None, false) /\ common_iterator_tag [COutput; COutput] = Ok (None, true).
Proof. repeat split; reflexivity. Qed.

(** * C27 *)
Theorem C27_transform_reduce : forall S A B (reduce : S -> A -> B -> S * outcome A) (transform : S -> list ref -> S * outcome B) rs m s init,
  Forall proper_range rs -> enough_known rs -> known_agree rs -> shortest_length rs m ->
  (all_length rs m -> range_transform_reduce init reduce transform rs s = fold_calls reduce transform s init (tuples rs (Z.to_nat m))) /\
  ((exists r, In r rs /\ holds_elements r /\ r_len r <> m) ->
     range_transform_reduce init reduce transform rs s = then_fail (fold_calls reduce transform s init (tuples rs (Z.to_nat m)))).
Proof. intros S A B reduce transform rs m s init Hp He Ha Hm. exact (transform_reduce_ok reduce transform rs m s init Hp He Hm Ha). Qed.
Print Assumptions C27_transform_reduce.

Theorem C27_reduce : forall S A (reduce : S -> A -> ref -> S * outcome A) r s init, holds_elements r ->
  range_reduce init reduce r s =
    fold_calls reduce (fun s x => (s, Ok x)) s init (map (fun j => RElem 0 (Z.of_nat j)) (seq 0 (Z.to_nat (r_len r)))).
Proof. exact range_reduce_ok. Qed.
Print Assumptions C27_reduce.

(** range_index has no end: range_reduce() of it does not compile. *)
Theorem C27_reduce_index_rejected : forall S A (reduce : S -> A -> ref -> S * outcome A) r s init, is_range_index r = true ->
  range_reduce init reduce r s = (s, IllFormed).
Proof. intros S A reduce r s init H. unfold range_reduce. rewrite H. reflexivity. Qed.
Print Assumptions C27_reduce_index_rejected.

Theorem C27_count_if : forall S (pred : S -> list ref -> S * outcome bool) rs m s bs s',
  Forall proper_range rs -> enough_known rs -> shortest_length rs m -> all_length rs m ->
  answers pred s (tuples rs (Z.to_nat m)) bs s' ->
  range_count_if pred rs s = (s', Ok (Z.of_nat (count_occ Bool.bool_dec bs true))).
Proof.
  intros S pred rs m s bs s' Hp He Hm Ha Hb. rewrite count_if_eq.
  rewrite (proj1 (transform_reduce_ok _ _ rs m s 0 Hp He Hm (all_length_agree rs m Ha)) Ha).
  rewrite (fold_count S pred _ _ _ _ 0 Hb). reflexivity.
Qed.
Print Assumptions C27_count_if.

Theorem C27_count_if_fails : forall S (pred : S -> list ref -> S * outcome bool) rs m s l1 x l2 bs s1 s2 o,
  Forall proper_range rs -> enough_known rs -> shortest_length rs m -> all_length rs m ->
  tuples rs (Z.to_nat m) = l1 ++ x :: l2 -> answers pred s l1 bs s1 -> pred s1 x = (s2, o) -> (forall b, o <> Ok b) ->
  range_count_if pred rs s = (s2, do _ <- o; Ok 0).
Proof.
  intros S pred rs m s l1 x l2 bs s1 s2 o Hp He Hm Ha Ht Hb Hx Ho. rewrite count_if_eq.
  rewrite (proj1 (transform_reduce_ok _ _ rs m s 0 Hp He Hm (all_length_agree rs m Ha)) Ha). rewrite Ht. clear Ht.
  generalize 0 at 1. induction Hb as [s|s y b s3 l bs s4 Hy H IH]; intro a; cbn [app fold_calls].
  - rewrite Hx. destruct o; try reflexivity. exfalso. apply (Ho a0). reflexivity.
  - rewrite Hy. apply IH. exact Hx.
Qed.
Print Assumptions C27_count_if_fails.

(** Lengths that differ: the predicate is asked about the tuples up to the shortest length, then the call is a contract
    violation, unless the predicate has failed before. *)
Theorem C27_count_if_lengths_differ : forall S (pred : S -> list ref -> S * outcome bool) rs m s,
  Forall proper_range rs -> enough_known rs -> known_agree rs -> shortest_length rs m ->
  (exists r, In r rs /\ holds_elements r /\ r_len r <> m) ->
  (forall bs s', answers pred s (tuples rs (Z.to_nat m)) bs s' -> range_count_if pred rs s = (s', Contract)) /\
  (forall l1 x l2 bs s1 s2 o, tuples rs (Z.to_nat m) = l1 ++ x :: l2 -> answers pred s l1 bs s1 -> pred s1 x = (s2, o) ->
     (forall b, o <> Ok b) -> range_count_if pred rs s = (s2, do _ <- o; Ok 0)).
Proof.
  intros S pred rs m s Hp He Hk Hm Hd. rewrite count_if_eq.
  rewrite (proj2 (transform_reduce_ok _ _ rs m s 0 Hp He Hm Hk) Hd). split.
  - intros bs s' Hb. rewrite (fold_count S pred _ _ _ _ 0 Hb). reflexivity.
  - intros l1 x l2 bs s1 s2 o Ht Hb Hx Ho. rewrite Ht. clear Ht.
    generalize 0 at 1. induction Hb as [s|s y b s3 l bs s4 Hy H IH]; intro a; cbn [app fold_calls].
    + rewrite Hx. destruct o; try reflexivity. exfalso. apply (Ho a0). reflexivity.
    + rewrite Hy. apply IH. exact Hx.
Qed.
Print Assumptions C27_count_if_lengths_differ.

Example C27_lengths_differ_example :
  let rs := [{| r_mode := MPair; r_known := KUnknown; r_len := 2 |}; {| r_mode := MIndex; r_known := KDynamic; r_len := 3 |}] in
  range_count_if (fun (s : Z) args => (s + 1, Ok (Z.odd s))) rs 0 = (2, Contract) /\
  range_count_if (fun (s : Z) args => (s + 1, if s =? 1 then Throw (RuntimeError []) else Ok true)) rs 0 = (2, Throw (RuntimeError [])).
Proof. split; reflexivity. Qed.

Example C27_example :
  range_transform_reduce 10 (fun s a b => (s, Ok (a * 2 - b))) (fun s args => (s ++ [args], Ok (Z.of_nat (length s)))) example_ranges [] =
    (tuples example_ranges 3, Ok 76) /\
  range_count_if (fun (s : Z) args => (s + 1, Ok (Z.odd s))) example_ranges 0 = (3, Ok 1) /\
  answers (fun (s : Z) (_ : list ref) => (s + 1, Ok (Z.odd s))) 0 (tuples example_ranges 3) [false; true; false] 3 /\
  range_reduce 1 (fun s a x => (s ++ [x], Ok (a + 5))) {| r_mode := MIter; r_known := KUnknown; r_len := 2 |} [] = ([RElem 0 0; RElem 0 1], Ok 11).
Proof.
  split; [reflexivity|]. split; [reflexivity|]. split; [|reflexivity].
  cbn. repeat (eapply answers_cons; [reflexivity|]). cbn. apply answers_nil.
Qed.

(** * C28.  [l1] are the elements before the deciding one. *)
Theorem C28_all_of : forall S (pred : S -> list ref -> S * outcome bool) rs m s,
  Forall proper_range rs -> enough_known rs -> known_agree rs -> shortest_length rs m ->
  (forall l1 x l2 s1 s2, tuples rs (Z.to_nat m) = l1 ++ x :: l2 -> answers pred s l1 (repeat true (length l1)) s1 ->
     pred s1 x = (s2, Ok false) -> range_all_of pred rs s = (s2, Ok false)) /\
  (forall l1 x l2 s1 s2 o, tuples rs (Z.to_nat m) = l1 ++ x :: l2 -> answers pred s l1 (repeat true (length l1)) s1 ->
     pred s1 x = (s2, o) -> (forall b, o <> Ok b) -> range_all_of pred rs s = (s2, o)) /\
  (forall s1, answers pred s (tuples rs (Z.to_nat m)) (repeat true (Z.to_nat m)) s1 ->
     (all_length rs m -> range_all_of pred rs s = (s1, Ok true)) /\
     ((exists r, In r rs /\ holds_elements r /\ r_len r <> m) -> range_all_of pred rs s = (s1, Contract))).
Proof.
  intros S pred rs m s Hp He Ha Hm. rewrite all_of_stopping. split; [|split].
  - intros l1 x l2 s1 s2 H1 H2 H3. rewrite (stopping_stops pred rs m Hp He Hm Ha false false s l1 x l2 s1 s2 H1 H2 H3). reflexivity.
  - intros l1 x l2 s1 s2 o H1 H2 H3 H4. rewrite (stopping_fails pred rs m Hp He Hm Ha false false s l1 x l2 s1 s2 o H1 H2 H3 H4).
    destruct o; try reflexivity. exfalso. apply (H4 a). reflexivity.
  - intros s1 H. destruct (stopping_never pred rs m Hp He Hm Ha false false s s1 H) as [G1 G2].
    split; intro K; [rewrite (G1 K)|rewrite (G2 K)]; reflexivity.
Qed.
Print Assumptions C28_all_of.

Theorem C28_any_of : forall S (pred : S -> list ref -> S * outcome bool) rs m s,
  Forall proper_range rs -> enough_known rs -> known_agree rs -> shortest_length rs m ->
  (forall l1 x l2 s1 s2, tuples rs (Z.to_nat m) = l1 ++ x :: l2 -> answers pred s l1 (repeat false (length l1)) s1 ->
     pred s1 x = (s2, Ok true) -> range_any_of pred rs s = (s2, Ok true)) /\
  (forall l1 x l2 s1 s2 o, tuples rs (Z.to_nat m) = l1 ++ x :: l2 -> answers pred s l1 (repeat false (length l1)) s1 ->
     pred s1 x = (s2, o) -> (forall b, o <> Ok b) -> range_any_of pred rs s = (s2, o)) /\
  (forall s1, answers pred s (tuples rs (Z.to_nat m)) (repeat false (Z.to_nat m)) s1 ->
     (all_length rs m -> range_any_of pred rs s = (s1, Ok false)) /\
     ((exists r, In r rs /\ holds_elements r /\ r_len r <> m) -> range_any_of pred rs s = (s1, Contract))).
Proof.
  intros S pred rs m s Hp He Ha Hm. rewrite any_of_stopping. split; [|split].
  - intros l1 x l2 s1 s2 H1 H2 H3. rewrite (stopping_stops pred rs m Hp He Hm Ha true true s l1 x l2 s1 s2 H1 H2 H3). reflexivity.
  - intros l1 x l2 s1 s2 o H1 H2 H3 H4. rewrite (stopping_fails pred rs m Hp He Hm Ha true true s l1 x l2 s1 s2 o H1 H2 H3 H4).
    destruct o; try reflexivity. exfalso. apply (H4 a). reflexivity.
  - intros s1 H. destruct (stopping_never pred rs m Hp He Hm Ha true true s s1 H) as [G1 G2].
    split; intro K; [rewrite (G1 K)|rewrite (G2 K)]; reflexivity.
Qed.
Print Assumptions C28_any_of.

Theorem C28_none_of : forall S (pred : S -> list ref -> S * outcome bool) rs m s,
  Forall proper_range rs -> enough_known rs -> known_agree rs -> shortest_length rs m ->
  (forall l1 x l2 s1 s2, tuples rs (Z.to_nat m) = l1 ++ x :: l2 -> answers pred s l1 (repeat false (length l1)) s1 ->
     pred s1 x = (s2, Ok true) -> range_none_of pred rs s = (s2, Ok false)) /\
  (forall l1 x l2 s1 s2 o, tuples rs (Z.to_nat m) = l1 ++ x :: l2 -> answers pred s l1 (repeat false (length l1)) s1 ->
     pred s1 x = (s2, o) -> (forall b, o <> Ok b) -> range_none_of pred rs s = (s2, o)) /\
  (forall s1, answers pred s (tuples rs (Z.to_nat m)) (repeat false (Z.to_nat m)) s1 ->
     (all_length rs m -> range_none_of pred rs s = (s1, Ok true)) /\
     ((exists r, In r rs /\ holds_elements r /\ r_len r <> m) -> range_none_of pred rs s = (s1, Contract))).
Proof.
  intros S pred rs m s Hp He Ha Hm. rewrite none_of_stopping. split; [|split].
  - intros l1 x l2 s1 s2 H1 H2 H3. rewrite (stopping_stops pred rs m Hp He Hm Ha true false s l1 x l2 s1 s2 H1 H2 H3). reflexivity.
  - intros l1 x l2 s1 s2 o H1 H2 H3 H4. rewrite (stopping_fails pred rs m Hp He Hm Ha true false s l1 x l2 s1 s2 o H1 H2 H3 H4).
    destruct o; try reflexivity. exfalso. apply (H4 a). reflexivity.
  - intros s1 H. destruct (stopping_never pred rs m Hp He Hm Ha true false s s1 H) as [G1 G2].
    split; intro K; [rewrite (G1 K)|rewrite (G2 K)]; reflexivity.
Qed.
Print Assumptions C28_none_of.

Example C28_example :
  let p := fun (s : Z) (_ : list ref) => (s + 1, Ok (s <? 1)) in
  range_all_of p example_ranges 0 = (2, Ok false) /\ range_any_of p example_ranges 0 = (1, Ok true) /\
  range_none_of p example_ranges 5 = (8, Ok true) /\
  (exists x l2, tuples example_ranges 3 = [tuple_at example_ranges 0] ++ x :: l2 /\
     answers p 0 [tuple_at example_ranges 0] [true] 1 /\ p 1 x = (2, Ok false)) /\
  answers p 5 (tuples example_ranges 3) (repeat false 3) 8.
Proof.
  cbn zeta. split; [reflexivity|]. split; [reflexivity|]. split; [reflexivity|]. split.
  - eexists. eexists. split; [reflexivity|]. split; [|reflexivity]. eapply answers_cons; [reflexivity|]. apply answers_nil.
  - cbn. repeat (eapply answers_cons; [reflexivity|]). apply answers_nil.
Qed.

(** * C29 *)
(** The k-th value [v k] is obtained by incrementing k times. *)
Theorem C29_iota : forall A T (inc : T -> outcome T) (conv : T -> A) (v : nat -> T) elems,
  (forall k, (k < length elems)%nat -> inc (v k) = Ok (v (S k))) ->
  range_iota inc conv elems (v 0%nat) = Ok (map (fun k => conv (v k)) (seq 0 (length elems))).
Proof. exact range_iota_ok. Qed.
Print Assumptions C29_iota.

(** Integral types not narrower than int. *)
Theorem C29_iota_integers : forall t (elems : list Z) v, 1 <= ity_bits t ->
  int_value (ity_bits t) (ity_signed t) v -> int_value (ity_bits t) (ity_signed t) (v + Z.of_nat (length elems)) ->
  range_iota (fun x => int_arith t (x + 1)) (fun x => x) elems v = Ok (map (fun k => v + Z.of_nat k) (seq 0 (length elems))).
Proof.
  intros t elems v Hb Hv Hn.
  assert (Hr : forall k, (k <= length elems)%nat -> int_value (ity_bits t) (ity_signed t) (v + Z.of_nat k)).
  { intros k Hk. unfold int_value in *. destruct (ity_signed t); lia. }
  assert (H := range_iota_ok Z Z (fun x => int_arith t (x + 1)) (fun x => x) (fun k => v + Z.of_nat k) elems).
  cbn beta in H. rewrite Z.add_0_r in H. apply H. intros k Hk. unfold int_arith.
  assert (Hk' := Hr (S k) ltac:(lia)). replace (v + Z.of_nat k + 1) with (v + Z.of_nat (S k)) by lia.
  destruct (ity_signed t) eqn:Es.
  - destruct (in_ity t (v + Z.of_nat (S k))) eqn:Ei; [reflexivity|]. exfalso.
    assert (X : in_ity t (v + Z.of_nat (S k)) = true) by (apply in_ity_iff; rewrite Es; exact Hk'). congruence.
  - rewrite cast_id; [reflexivity|exact Hb|]. apply in_ity_iff. rewrite Es. exact Hk'.
Qed.
Print Assumptions C29_iota_integers.

(** The value is incremented once more after the last element (as std::iota() does): filling up to the largest value of
    a signed type overflows although all elements are representable. *)
Theorem C29_iota_last_value_refuted : exists t (elems : list Z) v,
  (forall k, (k < length elems)%nat -> int_value (ity_bits t) (ity_signed t) (v + Z.of_nat k)) /\
  range_iota (fun x => int_arith t (x + 1)) (fun x => x) elems v = UB.
Proof.
  exists (mk_ity 32 true), [0; 0], 2147483646. split; [|reflexivity].
  intros k Hk. cbn [length] in Hk. unfold int_value. cbn [ity_bits ity_signed].
  change (2 ^ (32 - 1)) with 2147483648. lia.
Qed.
Print Assumptions C29_iota_last_value_refuted.

Theorem C29_fill : forall A (elems : list A) v, range_fill elems v = Ok (repeat v (length elems)).
Proof. exact range_fill_ok. Qed.
Print Assumptions C29_fill.

Theorem C29_generate : forall A S (gen : S -> S * outcome A) s vs s' elems, generated gen s vs s' -> length vs = length elems ->
  range_generate gen elems s = (s', vs, Ok tt).
Proof. intros A S gen. exact (range_generate_ok gen). Qed.
Print Assumptions C29_generate.

Theorem C29_generate_throws : forall A S (gen : S -> S * outcome A) s vs s' s'' e elems,
  generated gen s vs s' -> (length vs < length elems)%nat -> gen s' = (s'', Throw e) ->
  range_generate gen elems s = (s'', vs ++ skipn (length vs) elems, Throw e).
Proof. intros A S gen. exact (range_generate_throws gen). Qed.
Print Assumptions C29_generate_throws.

Example C29_example :
  range_iota (fun x => int_arith (mk_ity 32 true) (x + 1)) (fun x => x) [7; 7; 7] (-1) = Ok [-1; 0; 1] /\
  range_fill [1; 2] 9 = Ok [9; 9] /\
  range_generate (fun s => (s + 1, Ok (s * s))) [0; 0; 0] 3 = (6, [9; 16; 25], Ok tt) /\
  generated (fun s : Z => (s + 1, Ok (s * s))) 3 [9; 16; 25] 6 /\
  range_generate (fun s => if s =? 4 then (s, Throw (UserException 1)) else (s + 1, Ok (s * s))) [7; 8; 9] 3 = (4, [9; 8; 9], Throw (UserException 1)).
Proof.
  split; [reflexivity|]. split; [reflexivity|]. split; [reflexivity|]. split; [|reflexivity].
  repeat (eapply generated_cons; [reflexivity|]). apply generated_nil.
Qed.

(** Every reference that an iterator hands out is to an element that exists; an access out of bounds is undefined, it does not
    yield something else. *)
Theorem C25_elements_exist : forall it d refs, zip_subscript it d = Ok refs ->
  Forall2 (fun l x => match x with
                      | RElem k p => k = l_k l /\ 0 <= p < r_len (l_rng l)
                      | RIdx i => r_mode (l_rng l) = MRangeIndex /\ i = z_i it + d
                      end) (z_leaves it) refs.
Proof.
  intros [i ls] d refs H. unfold zip_subscript in H. cbn in *. revert refs H.
  induction ls as [|l ls IH]; intros refs H; cbn in H.
  - injection H as <-. constructor.
  - destruct (leaf_deref i d l) as [x| | | | |] eqn:E; try discriminate. cbn in H.
    destruct (mapM (leaf_deref i d) ls) as [xs| | | | |]; try discriminate. cbn in H. injection H as <-.
    constructor; [|apply IH; reflexivity]. unfold leaf_deref in E.
    destruct (r_mode (l_rng l)) eqn:M; try (injection E as <-; auto; fail);
      match type of E with (if ?c then _ else _) = _ => destruct c eqn:C; [|discriminate] end;
      injection E as <-; apply andb_prop in C as [C1 C2]; apply Z.leb_le in C1; apply Z.ltb_lt in C2; auto.
Qed.
Print Assumptions C25_elements_exist.
Theorem C25_out_of_bounds : forall it d l, In l (z_leaves it) -> r_mode (l_rng l) <> MRangeIndex ->
  (let p := match r_mode (l_rng l) with MIndex => z_i it + d | _ => l_pos l + d end in p < 0 \/ r_len (l_rng l) <= p) ->
  zip_subscript it d = UB.
Proof.
  intros [i ls] d l Hin Hm Hp. unfold zip_subscript. cbn in *.
  induction ls as [|l' ls IH]; [destruct Hin|]. cbn. destruct (leaf_deref i d l') as [x| | | | |] eqn:E.
  - cbn. destruct Hin as [->|Hin]; [|rewrite (IH Hin); reflexivity]. exfalso. unfold leaf_deref in E.
    destruct (r_mode (l_rng l)); try (apply Hm; reflexivity);
      match type of E with (if ?c then _ else _) = _ => destruct c eqn:C; [|discriminate] end;
      apply andb_prop in C as [C1 C2]; apply Z.leb_le in C1; apply Z.ltb_lt in C2; lia.
  - exfalso. unfold leaf_deref in E. destruct (r_mode (l_rng l')); try discriminate; destruct (_ && _); discriminate.
  - exfalso. unfold leaf_deref in E. destruct (r_mode (l_rng l')); try discriminate; destruct (_ && _); discriminate.
  - reflexivity.
  - exfalso. unfold leaf_deref in E. destruct (r_mode (l_rng l')); try discriminate; destruct (_ && _); discriminate.
  - exfalso. unfold leaf_deref in E. destruct (r_mode (l_rng l')); try discriminate; destruct (_ && _); discriminate.
Qed.
Print Assumptions C25_out_of_bounds.
Example C25_out_of_bounds_example :
  zip_subscript (zip_begin example_ranges) 1 = Ok [RElem 0 1; RIdx 1; RElem 2 1; RElem 3 1] /\
  zip_subscript (zip_begin example_ranges) 7 = UB.
Proof. split; reflexivity. Qed.
