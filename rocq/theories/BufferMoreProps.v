(** Property C50: the functions that make buffers. *)

From Coq Require Import ZArith Arith Bool Lia List.
From Verif Require Import Base ExpandModel ExpandSpec ExpandProofs RangeProofs BufferModel BufferSpec BufferProofs BufferSim BufferProps.
Import ListNotations.
Local Open Scope Z_scope.

Section More.
  Context {V : Type}.
  Variable v0 : V.
  Variable trivial : bool.
  Variable moved : V -> V.
  Notation op := (op (V := V)).
  Notation run := (run v0 trivial moved).
  Notation arun := (arun v0 trivial moved).
  Notation step := (step v0 trivial moved).

  (** After the operation there is a new buffer of [n] elements and [blocks] more blocks on the heap. *)
  Definition makes (c : op) (n : Z) (blocks : nat) (st : state (V := V)) : Prop :=
    exists st' o, step c st = (st', inl (RObj o)) /\ step (OSize o) st' = (st', inl (RSize n)) /\
      live_blocks st' = (live_blocks st + blocks)%nat.

  Lemma makes_new : forall h s rs sh a avail b, Forall op_ok h -> arun h [] = Some (s, rs) -> ~ In (inr Indet) rs ->
    sensible sh -> proper_size a -> a_construct v0 trivial sh a avail = inl b ->
    makes (ONew sh a avail) (Z.of_nat (a_size b)) (if uses_heap (a_shape b) (Z.of_nat (a_size b)) then 1 else 0) (fst (run h initial)).
  Proof.
    intros h s rs sh a avail b Hh H N Hs Ha E.
    destruct (run_sim v0 trivial moved h initial [] s rs R_initial ltac:(constructor) Hh H) as (st & Er & K & _). rewrite Er. cbn [fst].
    destruct (K N) as [HR Hw]. pose proof (sim_new v0 trivial moved st s sh a avail HR Hw Hs Ha) as S. rewrite E in S. cbn [a_add] in S.
    destruct S as ((st' & S1 & S2) & _). specialize (S2 ltac:(discriminate)). exists st', (length s). split; [exact S1|]. split.
    - destruct (R_abs _ _ _ _ S2 (live_snoc _ _)) as (ob & G1 & G2 & G3 & G4 & G5). unfold step, BufferModel.step, as_res, bindM, get_obj, ret. rewrite G1, G4. reflexivity.
    - rewrite (live_count _ _ HR), (live_count _ _ S2). rewrite count_snoc. reflexivity.
  Qed.

  Lemma construct_inl : forall sh a avail, 0 <= sa_value a < 2 ^ 63 ->
    (shape_extent sh = -1 \/ shape_extent sh = sa_value a) ->
    match sh with FixedBuffer _ Mx => sa_value a <= Mx | _ => True end ->
    (uses_heap sh (sa_value a) = true -> avail = true) ->
    exists b, a_construct v0 trivial sh a avail = inl b /\ Z.of_nat (a_size b) = sa_value a /\ a_shape b = sh.
  Proof.
    intros sh a avail Hv He Hm Hu. unfold a_construct. rewrite Z.mod_small by lia.
    assert (C1 : sa_const a && negb (sa_value a =? -1) && ((negb (shape_extent sh =? -1) && negb (sa_value a =? shape_extent sh)) || match sh with FixedBuffer _ Mx => Mx <? sa_value a | _ => false end) = false).
    { assert (X : negb (shape_extent sh =? -1) && negb (sa_value a =? shape_extent sh) = false).
      { destruct He as [->| ->]; [reflexivity|]. rewrite Z.eqb_refl. apply andb_false_r. }
      rewrite X. cbn [orb]. destruct sh as [E Mx|E Mx]; [apply andb_false_r|]. rewrite (proj2 (Z.ltb_ge Mx (sa_value a)) Hm). apply andb_false_r. }
    rewrite C1. assert (C2 : heap_fails sh (sa_value a) avail = false).
    { unfold heap_fails. destruct (uses_heap sh (sa_value a)); [|reflexivity]. rewrite (Hu eq_refl), (proj2 (Z.ltb_lt (sa_value a) (2 ^ 63))) by lia. reflexivity. }
    rewrite C2. assert (C3 : (if shape_extent sh =? -1 then (0 <=? sa_value a) && match sh with FixedBuffer _ Mx => sa_value a <=? Mx | _ => true end else sa_value a =? shape_extent sh) = true).
    { destruct (Z.eqb_spec (shape_extent sh) (-1)) as [E|NE].
      - rewrite (proj2 (Z.leb_le 0 (sa_value a))) by lia. destruct sh as [E' Mx|E' Mx]; [reflexivity|]. cbn [andb]. apply Z.leb_le. exact Hm.
      - destruct He as [He|He]; [contradiction|]. rewrite He. apply Z.eqb_refl. }
    rewrite C3. eexists. split; [reflexivity|]. cbn [a_size a_shape]. split; [apply Z2Nat.id; lia|reflexivity].
  Qed.

  Lemma constval_extent : forall a, sa_const a = true -> 0 <= sa_value a < 2 ^ 63 -> buffer_extent_from_constval a = sa_value a.
  Proof. intros a C H. unfold buffer_extent_from_constval. rewrite C. apply cast_id; [discriminate|]. apply in_ptrdiff_nonneg. exact H. Qed.

  (** make_buffer(n): a run-time size makes a buffer on the heap (none for 0 elements), a constant one a buffer in place,
      which does not depend on available memory. *)
  Theorem C50_make_buffer : forall (h : list op) s rs a avail, Forall op_ok h -> arun h [] = Some (s, rs) -> ~ In (inr Indet) rs ->
    proper_size a -> 0 <= sa_value a < 2 ^ 63 ->
    (sa_const a = false /\ 0 < sa_value a -> avail = true) ->
    makes (make_buffer a avail) (sa_value a) (if negb (sa_const a) && (0 <? sa_value a) then 1 else 0) (fst (run h initial)).
  Proof.
    intros h s rs a avail Hh H N Ha Hv Hav. unfold make_buffer.
    assert (U : uses_heap (Buffer (buffer_extent_from_constval a) (-1)) (sa_value a) = negb (sa_const a) && (0 <? sa_value a)).
    { unfold uses_heap, heap_limit. destruct (sa_const a) eqn:C.
      - rewrite (constval_extent a C Hv). rewrite (proj2 (Z.eqb_neq (sa_value a) (-1))) by lia. reflexivity.
      - unfold buffer_extent_from_constval. rewrite C. reflexivity. }
    assert (E : shape_extent (Buffer (buffer_extent_from_constval a) (-1)) = -1 \/ shape_extent (Buffer (buffer_extent_from_constval a) (-1)) = sa_value a).
    { cbn [shape_extent]. destruct (sa_const a) eqn:C; [right; apply constval_extent; assumption|left; unfold buffer_extent_from_constval; rewrite C; reflexivity]. }
    destruct (construct_inl (Buffer (buffer_extent_from_constval a) (-1)) a avail Hv E Logic.I) as (b & B1 & B2 & B3).
    { rewrite U. intro T. apply andb_prop in T. destruct T as [T1 T2]. apply Hav. split; [destruct (sa_const a); [discriminate|reflexivity]|apply Z.ltb_lt; exact T2]. }
    pose proof (makes_new h s rs (Buffer (buffer_extent_from_constval a) (-1)) a avail b Hh H N) as M. rewrite B2, B3, U in M. apply M; [|exact Ha|exact B1].
    cbn [sensible shape_extent] in *. lia.
  Qed.

  (** make_buffer<Max>(n): on the heap iff n exceeds Max. *)
  Theorem C50_make_buffer_max : forall (h : list op) s rs Mx a avail, Forall op_ok h -> arun h [] = Some (s, rs) -> ~ In (inr Indet) rs ->
    proper_size a -> 0 <= sa_value a < 2 ^ 63 -> 0 <= Mx < 2 ^ 63 -> (Mx < sa_value a -> avail = true) ->
    makes (make_buffer_max Mx a avail) (sa_value a) (if Mx <? sa_value a then 1 else 0) (fst (run h initial)).
  Proof.
    intros h s rs Mx a avail Hh H N Ha Hv HM Hav. unfold make_buffer_max.
    assert (U : uses_heap (Buffer (buffer_extent_from_constval a) Mx) (sa_value a) = (Mx <? sa_value a)).
    { unfold uses_heap, heap_limit. destruct (sa_const a) eqn:C.
      - rewrite (constval_extent a C Hv). rewrite (proj2 (Z.eqb_neq (sa_value a) (-1))) by lia. rewrite (proj2 (Z.ltb_ge Mx 0)) by lia. cbn [orb].
        destruct (Z.ltb_spec 0 Mx), (Z.leb_spec (sa_value a) Mx); cbn [andb]; destruct (Z.ltb_spec Mx (sa_value a)); try reflexivity; try lia;
          try (apply Z.ltb_lt; lia); apply Z.ltb_ge; lia.
      - unfold buffer_extent_from_constval. rewrite C. cbn [Z.eqb Pos.eqb]. rewrite Z.max_r by lia. reflexivity. }
    assert (E : shape_extent (Buffer (buffer_extent_from_constval a) Mx) = -1 \/ shape_extent (Buffer (buffer_extent_from_constval a) Mx) = sa_value a).
    { cbn [shape_extent]. destruct (sa_const a) eqn:C; [right; apply constval_extent; assumption|left; unfold buffer_extent_from_constval; rewrite C; reflexivity]. }
    destruct (construct_inl (Buffer (buffer_extent_from_constval a) Mx) a avail Hv E Logic.I) as (b & B1 & B2 & B3).
    { rewrite U. intro T. apply Hav. apply Z.ltb_lt. exact T. }
    pose proof (makes_new h s rs (Buffer (buffer_extent_from_constval a) Mx) a avail b Hh H N) as M. rewrite B2, B3, U in M. apply M; [|exact Ha|exact B1].
    cbn [sensible shape_extent] in *. lia.
  Qed.

  (** make_fixed_buffer(n) for a constant n, make_fixed_buffer<Max>(n) for n <= Max: never on the heap. *)
  Theorem C50_make_fixed_buffer : forall (h : list op) s rs a, Forall op_ok h -> arun h [] = Some (s, rs) -> ~ In (inr Indet) rs ->
    proper_size a -> 0 <= sa_value a < 2 ^ 63 ->
    makes (make_fixed_buffer a) (sa_value a) 0 (fst (run h initial)).
  Proof.
    intros h s rs a Hh H N Ha Hv. unfold make_fixed_buffer.
    destruct (construct_inl (FixedBuffer (sa_value a) (sa_value a)) a true Hv (or_intror eq_refl) (Z.le_refl _)) as (b & B1 & B2 & B3); [discriminate|].
    pose proof (makes_new h s rs (FixedBuffer (sa_value a) (sa_value a)) a true b Hh H N) as M. rewrite B2, B3 in M. apply M; [|exact Ha|exact B1]. cbn [sensible]. lia.
  Qed.

  Theorem C50_make_fixed_buffer_max : forall (h : list op) s rs Mx a avail, Forall op_ok h -> arun h [] = Some (s, rs) -> ~ In (inr Indet) rs ->
    proper_size a -> 0 <= sa_value a <= Mx -> Mx < 2 ^ 63 ->
    makes (make_fixed_buffer_max Mx a avail) (sa_value a) 0 (fst (run h initial)).
  Proof.
    intros h s rs Mx a avail Hh H N Ha Hv HM. unfold make_fixed_buffer_max.
    assert (E : shape_extent (FixedBuffer (buffer_extent_from_constval a) Mx) = -1 \/ shape_extent (FixedBuffer (buffer_extent_from_constval a) Mx) = sa_value a).
    { cbn [shape_extent]. destruct (sa_const a) eqn:C; [right; apply constval_extent; [assumption|lia]|left; unfold buffer_extent_from_constval; rewrite C; reflexivity]. }
    destruct (construct_inl (FixedBuffer (buffer_extent_from_constval a) Mx) a avail ltac:(lia) E (proj2 Hv)) as (b & B1 & B2 & B3); [discriminate|].
    pose proof (makes_new h s rs (FixedBuffer (buffer_extent_from_constval a) Mx) a avail b Hh H N) as M. rewrite B2, B3 in M. apply M; [|exact Ha|exact B1].
    cbn [sensible shape_extent] in *. lia.
  Qed.
End More.
Print Assumptions C50_make_buffer.
Print Assumptions C50_make_buffer_max.
Print Assumptions C50_make_fixed_buffer.
Print Assumptions C50_make_fixed_buffer_max.

Example C50_make_example :
  let h := [make_buffer (mk_size int32 false 3) true] : list (op (V := Z)) in
  let st := fst (run 0 false (fun v => v) h initial) in
  Forall op_ok h /\
  live_blocks st = 1%nat /\
  live_blocks (fst (step 0 false (fun v => v) (make_buffer (mk_size int32 true 3) false) st)) = 1%nat /\
  snd (step 0 false (fun v => v) (make_buffer (mk_size int32 true 3) false) st) = inl (RObj 1) /\
  snd (step 0 false (fun v => v) (make_buffer_max 2 (mk_size int32 false 3) false) st) = inr Thrown /\
  snd (step 0 false (fun v => v) (make_fixed_buffer_max 2 (mk_size int32 false 3) false) st) = inr Violated /\
  snd (step 0 false (fun v => v) (make_fixed_buffer (mk_size int32 true 3)) st) = inl (RObj 1).
Proof. split; [repeat constructor; cbn; try lia; discriminate|]. vm_compute. repeat split. Qed.
